(** * Well-formed states, and the elementwise reading of one ACT step.

    Specification vocabulary, independent of the control flow of the model: what a consistent
    bundle of ACT tensors is, and which arithmetic expression each element of each tensor
    receives. Nothing here models repository code. *)
From Verif Require Import Base PyTree Tensor Num States.

Section Wf.
  Context {N : numsys}.
  Notation st := (state N).
  Notation tr := (tree (array N)).

  (** The shape of the batch, fixed when the builder is created. *)
  Definition batch_shape (s : st) : list nat := a_shape (probabilities s).

  (** A floating leaf whose leading dimensions are the batch shape. *)
  Definition leaf_fits (B : list nat) (a : array N) : Prop :=
    awf a /\ is_floating (a_dt a) = true /\ exists R, a_shape a = B ++ R.

  Definition sig (a : array N) : list nat * dtype := (a_shape a, a_dt a).
  (** Same tree structure, and leaf by leaf the same shape and dtype. *)
  Definition alike (t1 t2 : tr) : Prop :=
    structure t1 = structure t2 /\ map sig (leaves t1) = map sig (leaves t2).

  Record wf (s : st) : Prop := {
    wf_p : awf (probabilities s);
    wf_r : awf (residuals s);
    wf_i : awf (iterations s);
    wf_r_shape : a_shape (residuals s) = batch_shape s;
    wf_i_shape : a_shape (iterations s) = batch_shape s;
    wf_p_float : is_floating (a_dt (probabilities s)) = true;
    wf_r_dtype : a_dt (residuals s) = a_dt (probabilities s);
    wf_i_float : is_floating (a_dt (iterations s)) = true;
    wf_nodup_a : NoDup (dkeys (accumulators s));
    wf_nodup_d : NoDup (dkeys (defaults s));
    wf_nodup_u : NoDup (dkeys (updates s));
    wf_keys_d : forall k, In k (dkeys (defaults s)) <-> In k (dkeys (accumulators s));
    wf_keys_u : forall k, In k (dkeys (updates s)) <-> In k (dkeys (accumulators s));
    wf_acc : forall k t, dget k (accumulators s) = Some t ->
               Forall (leaf_fits (batch_shape s)) (leaves t);
    wf_def : forall k t d, dget k (accumulators s) = Some t -> dget k (defaults s) = Some d ->
               alike t d /\ Forall awf (leaves d)
  }.

  (** Every pending update is made of genuine arrays. *)
  Definition wf_pending (s : st) : Prop :=
    forall k u, dget k (updates s) = Some u -> Forall awf (leaves u).

  (** ** Elementwise expressions of one step *)
  Definition threshold (s : st) : val N := v_of_scl N (s_one_sub N (epsilon s)).
  Definition clip01 (v : val N) : val N := v_min N (v_one N) (v_max N (v_zero N) v).
  Definition scaled (s : st) (h : val N) : val N :=
    v_mul N (v_of_scl N (depression_constant s)) (clip01 h).
  Definition halted_at (s : st) (p : val N) : bool := v_ltb N (threshold s) p.
  Definition halts_now (s : st) (p h : val N) : bool := v_ltb N (threshold s) (v_add N (scaled s h) p).
  (** the weight given to this step's update *)
  Definition weight (s : st) (p h : val N) : val N :=
    if halts_now s p h then v_sub N (v_one N) p else scaled s h.
  Definition next_p (s : st) (p h : val N) : val N := v_add N p (weight s p h).
  Definition next_r (s : st) (p r h : val N) : val N :=
    if halts_now s p h && negb (halted_at s p) then v_sub N (v_one N) p else r.
  Definition next_i (s : st) (p i : val N) : val N :=
    if halted_at s p then i else v_add N i (v_one N).
  Definition next_a (s : st) (p h a u : val N) : val N :=
    if halted_at s p then a else v_add N a (v_mul N (weight s p h) u).

  (** A pending update leaf that [iterate_act] can add to an accumulator leaf, for halting
      probabilities of (computed) dtype [hd]. *)
  Definition can_add (hd : dtype) (acc upd : array N) : Prop :=
    a_shape acc = a_shape upd /\ promote (a_dt acc) (promote hd (a_dt upd)) = a_dt acc.
  Definition ready (s : st) : Prop :=
    forall k t, dget k (accumulators s) = Some t ->
      exists u, dget k (updates s) = Some u /\ is_none u = false /\
        Forall2 (can_add (a_dt (probabilities s))) (leaves t) (leaves u).
End Wf.

(** ** The effect of one successful [iterate_act], element by element *)
Section Effect.
  Context {N : numsys}.
  Notation st := (state N).
  Notation tr := (tree (array N)).

  (** The elements of the leaf [a] (shape [B ++ R]) that belong to batch element [i] are those at
      positions [j] with [j / size R = i]. *)
  Definition leaf_effect (s : st) (h : array N) (a u a' : array N) : Prop :=
    forall R, a_shape a = batch_shape s ++ R ->
    forall j av uv p hv,
      nth_error (a_data a) j = Some av -> nth_error (a_data u) j = Some uv ->
      nth_error (a_data (probabilities s)) (j / size R) = Some p ->
      nth_error (a_data h) (j / size R) = Some hv ->
      nth_error (a_data a') j = Some (next_a s p hv av uv).

  Record committed (s : st) (h : array N) (s' : st) : Prop := {
    cm_eps : epsilon s' = epsilon s;
    cm_dep : depression_constant s' = depression_constant s;
    cm_mode : error_mode s' = error_mode s;
    cm_def : defaults s' = defaults s;
    cm_p_sig : sig (probabilities s') = sig (probabilities s);
    cm_r_sig : sig (residuals s') = sig (residuals s);
    cm_i_sig : sig (iterations s') = sig (iterations s);
    cm_p : forall i p hv, nth_error (a_data (probabilities s)) i = Some p ->
             nth_error (a_data h) i = Some hv ->
             nth_error (a_data (probabilities s')) i = Some (next_p s p hv);
    cm_r : forall i p r hv, nth_error (a_data (probabilities s)) i = Some p ->
             nth_error (a_data (residuals s)) i = Some r ->
             nth_error (a_data h) i = Some hv ->
             nth_error (a_data (residuals s')) i = Some (next_r s p r hv);
    cm_i : forall i p n, nth_error (a_data (probabilities s)) i = Some p ->
             nth_error (a_data (iterations s)) i = Some n ->
             nth_error (a_data (iterations s')) i = Some (next_i s p n);
    cm_keys_a : dkeys (accumulators s') = dkeys (accumulators s);
    cm_keys_u : dkeys (updates s') = dkeys (updates s);
    cm_acc : forall k t, dget k (accumulators s) = Some t ->
             exists u t', dget k (updates s) = Some u /\ dget k (accumulators s') = Some t'
               /\ alike t' t /\ length (leaves u) = length (leaves t)
               /\ forall l a ul a', nth_error (leaves t) l = Some a ->
                    nth_error (leaves u) l = Some ul -> nth_error (leaves t') l = Some a' ->
                    leaf_effect s h a ul a';
    cm_upd : forall k, In k (dkeys (updates s)) -> dget k (updates s') = Some tnone
  }.
End Effect.

(** ** The effect of one successful [reset_batches] *)
Section ResetEffect.
  Context {N : numsys}.
  Notation st := (state N).

  (** the statistic [v] of a batch element with probability [p] after a reset *)
  Definition kept (s : st) (p v : val N) : val N :=
    v_mul N v (v_of_bool (negb (halted_at s p))).

  Definition leaf_reset (s : st) (a d a' : array N) : Prop :=
    forall R, a_shape a = batch_shape s ++ R ->
    forall j av dv p,
      nth_error (a_data a) j = Some av -> nth_error (a_data d) j = Some dv ->
      nth_error (a_data (probabilities s)) (j / size R) = Some p ->
      nth_error (a_data a') j = Some (if halted_at s p then dv else av).

  Record was_reset (s s' : st) : Prop := {
    rs_eps : epsilon s' = epsilon s;
    rs_dep : depression_constant s' = depression_constant s;
    rs_mode : error_mode s' = error_mode s;
    rs_def : defaults s' = defaults s;
    rs_upd : updates s' = updates s;
    rs_p_sig : sig (probabilities s') = sig (probabilities s);
    rs_r_sig : sig (residuals s') = sig (residuals s);
    rs_i_sig : sig (iterations s') = sig (iterations s);
    rs_p : forall i p, nth_error (a_data (probabilities s)) i = Some p ->
             nth_error (a_data (probabilities s')) i = Some (kept s p p);
    rs_r : forall i p r, nth_error (a_data (probabilities s)) i = Some p ->
             nth_error (a_data (residuals s)) i = Some r ->
             nth_error (a_data (residuals s')) i = Some (kept s p r);
    rs_i : forall i p n, nth_error (a_data (probabilities s)) i = Some p ->
             nth_error (a_data (iterations s)) i = Some n ->
             nth_error (a_data (iterations s')) i = Some (kept s p n);
    rs_keys : dkeys (accumulators s') = dkeys (accumulators s);
    rs_acc : forall k t d, dget k (accumulators s) = Some t -> dget k (defaults s) = Some d ->
             exists t', dget k (accumulators s') = Some t' /\ alike t' t
               /\ forall l a dl a', nth_error (leaves t) l = Some a ->
                    nth_error (leaves d) l = Some dl -> nth_error (leaves t') l = Some a' ->
                    leaf_reset s a dl a'
  }.

  (** No update is pending. *)
  Definition idle (s : st) : Prop :=
    forall k u, dget k (updates s) = Some u -> is_none u = true.
  (** What [reset_batches] can handle: scalar batch, or plain tensors, or trees without leaves. *)
  Definition resettable (s : st) : Prop :=
    forall k t, dget k (accumulators s) = Some t ->
      batch_shape s = [] \/ (exists a, t = Leaf a) \/ leaves t = [].
End ResetEffect.

(** ** Agreement of two controllers on one batch element *)
Section Agree.
  Context {N : numsys}.
  Notation st := (state N).
  Notation tr := (tree (array N)).

  (** Same shape and dtype, and the same contents at batch element [b] of batch shape [B]. *)
  Definition agree_arr (b : nat) (B : list nat) (a1 a2 : array N) : Prop :=
    sig a1 = sig a2 /\
    forall R, a_shape a1 = B ++ R ->
    forall j, j / size R = b -> nth_error (a_data a1) j = nth_error (a_data a2) j.
  Definition agree_tree (b : nat) (B : list nat) (t1 t2 : tr) : Prop :=
    structure t1 = structure t2 /\ Forall2 (agree_arr b B) (leaves t1) (leaves t2).
  Definition agree_dict (b : nat) (B : list nat) (d1 d2 : dict tr) : Prop :=
    dkeys d1 = dkeys d2 /\
    forall k t1 t2, dget k d1 = Some t1 -> dget k d2 = Some t2 -> agree_tree b B t1 t2.
  Record agree (b : nat) (s1 s2 : st) : Prop := {
    ag_eps : epsilon s1 = epsilon s2;
    ag_dep : depression_constant s1 = depression_constant s2;
    ag_mode : error_mode s1 = error_mode s2;
    ag_p : agree_arr b (batch_shape s1) (probabilities s1) (probabilities s2);
    ag_r : agree_arr b (batch_shape s1) (residuals s1) (residuals s2);
    ag_i : agree_arr b (batch_shape s1) (iterations s1) (iterations s2);
    ag_acc : agree_dict b (batch_shape s1) (accumulators s1) (accumulators s2);
    ag_def : agree_dict b (batch_shape s1) (defaults s1) (defaults s2);
    ag_upd : agree_dict b (batch_shape s1) (updates s1) (updates s2)
  }.

  (** Everything a history of [cache_update] / [iterate_act] / [reset_batches] must not change. *)
  Record same_frame (s s' : st) : Prop := {
    sf_eps : epsilon s' = epsilon s;
    sf_dep : depression_constant s' = depression_constant s;
    sf_mode : error_mode s' = error_mode s;
    sf_def : defaults s' = defaults s;
    sf_p : sig (probabilities s') = sig (probabilities s);
    sf_r : sig (residuals s') = sig (residuals s);
    sf_i : sig (iterations s') = sig (iterations s);
    sf_accs : dkeys (accumulators s') = dkeys (accumulators s);
    sf_upds : dkeys (updates s') = dkeys (updates s);
    sf_acc : forall k t t', dget k (accumulators s) = Some t -> dget k (accumulators s') = Some t' ->
               alike t' t
  }.
End Agree.
