(** * Facts about the heap programs: they write to fresh objects only, and compute what the
    functional model computes. *)
From Verif Require Import Base PyTree Tensor Num Utils States Controller Builder Viewer Editor
  Heap HeapSpec.

Section HeapFacts.
  Context {N : numsys}.
  Notation st := (state N).
  Notation tr := (tree (array N)).

  (** ** Running composed statements *)
  Lemma run_bind {A B} (m : M N A) (f : A -> M N B) h :
    mbind m f h = match m h with (Ok a, h') => f a h' | (Err e, h') => (Err e, h') end.
  Proof.
    revert h. induction m as [[a|e]|o k IH|l k IH|l o k IH]; intros h; cbn [mbind exec]; try reflexivity; apply IH.
  Qed.
  Lemma run_rewrap {A} e (m : M N A) h :
    mrewrap e m h = match m h with (Ok a, h') => (Ok a, h') | (Err _, h') => (Err e, h') end.
  Proof.
    revert h. induction m as [[a|e']|o k IH|l k IH|l o k IH]; intros h; cbn [mrewrap exec]; try reflexivity; apply IH.
  Qed.
  Lemma run_read l h : (read l : M N (obj N)) h = match nth_error h l with Some o => (Ok o, h) | None => (Err TypeError, h) end.
  Proof. unfold read. cbn [exec]. now destruct (nth_error h l). Qed.
  (** The truth value of an attribute on a given heap. *)
  Definition truth (h : heap N) (v : attr) : bool :=
    match v with
    | VBool b => b
    | VStr s => negb (String.eqb s "")
    | VRef l => match nth_error h l with Some (ODict []) => false | _ => true end
    end.
  Lemma run_truthy v h : truthy v h = (Ok (truth h v), h).
  Proof. now destruct v. Qed.
  Lemma run_flag (attrs : dict attr) (h : heap N) :
    (match dget a_flag attrs with Some v => truthy v | None => ret false end) h =
    (Ok match dget a_flag attrs with Some v => truth h v | None => false end, h).
  Proof. destruct (dget a_flag attrs); [apply run_truthy|reflexivity]. Qed.

  (** ** Frame: a program started on a heap of at least [n] objects leaves the first [n] alone. *)
  Definition safe {A} (n : nat) (m : M N A) (P : A -> Prop) : Prop :=
    forall h, n <= length h ->
      match m h with
      | (r, h') =>
          n <= length h' /\ (forall l, l < n -> nth_error h' l = nth_error h l) /\
          (forall a, r = Ok a -> P a)
      end.

  Lemma put_length (h : heap N) l o : length (put h l o) = length h.
  Proof. revert l; induction h as [|x h IH]; intros [|l]; simpl; auto. Qed.
  Lemma put_other (h : heap N) l o l' : l <> l' -> nth_error (put h l o) l' = nth_error h l'.
  Proof.
    revert l l'; induction h as [|x h IH]; intros [|l] [|l'] Hne; simpl; auto; try congruence.
  Qed.
  Lemma put_app (h t : heap N) k o : put (h ++ t) (length h + k) o = h ++ put t k o.
  Proof. induction h as [|x h IH]; simpl; auto. now rewrite IH. Qed.

  Lemma safe_ret {A} n (a : A) (P : A -> Prop) : P a -> safe n (ret a) P.
  Proof. intros HP h Hn. simpl. repeat split; auto. intros b [= <-]. exact HP. Qed.
  Lemma safe_raise {A} n e (P : A -> Prop) : safe n (raise e) P.
  Proof. intros h Hn. simpl. repeat split; auto. discriminate. Qed.
  Lemma safe_lift {A} n (r : res A) (P : A -> Prop) : (forall a, r = Ok a -> P a) -> safe n (lift r) P.
  Proof. intros HP h Hn. simpl. repeat split; auto. Qed.
  Lemma safe_bind {A B} n (m : M N A) (f : A -> M N B) P Q :
    safe n m P -> (forall a, P a -> safe n (f a) Q) -> safe n (mbind m f) Q.
  Proof.
    intros Hm Hf h Hn. specialize (Hm h Hn). rewrite run_bind. destruct (m h) as [[a|e] h1].
    - destruct Hm as (H1 & H2 & H3). specialize (Hf a (H3 a eq_refl) h1 H1).
      destruct (f a h1) as [r h2]. destruct Hf as (H4 & H5 & H6). repeat split; auto.
      intros l Hl. rewrite H5, H2; auto.
    - destruct Hm as (H1 & H2 & H3). repeat split; auto. discriminate.
  Qed.
  Lemma safe_weaken {A} n (m : M N A) (P Q : A -> Prop) :
    safe n m P -> (forall a, P a -> Q a) -> safe n m Q.
  Proof.
    intros Hm HPQ h Hn. specialize (Hm h Hn). destruct (m h) as [r h1].
    destruct Hm as (H1 & H2 & H3). repeat split; auto.
  Qed.
  Lemma safe_mrewrap {A} n e (m : M N A) P : safe n m P -> safe n (mrewrap e m) P.
  Proof.
    intros Hm h Hn. specialize (Hm h Hn). rewrite run_rewrap. destruct (m h) as [[a|e'] h1]; auto.
    destruct Hm as (H1 & H2 & H3). repeat split; auto. discriminate.
  Qed.
  Lemma safe_alloc n o : safe n (alloc o) (fun l => n <= l).
  Proof.
    intros h Hn. simpl. rewrite app_length. simpl. repeat split; try lia.
    - intros l Hl. apply nth_error_app1. lia.
    - intros a [= <-]. exact Hn.
  Qed.
  Lemma safe_read n l : safe n (read l) (fun _ => True).
  Proof. intros h Hn. rewrite run_read. destruct (nth_error h l); simpl; auto. Qed.
  Lemma safe_write n l o : n <= l -> safe n (write l o) (fun _ => True).
  Proof.
    intros Hl h Hn. simpl. rewrite put_length. repeat split; auto.
    intros l' Hl'. apply put_other. lia.
  Qed.
  Lemma safe_truthy n v : safe n (truthy v) (fun _ => True).
  Proof. intros h Hn. rewrite run_truthy. auto. Qed.

  Ltac safe_leaf :=
    first [ apply safe_ret; solve [auto | lia]
          | apply safe_raise
          | apply safe_lift; solve [auto]
          | eapply safe_weaken; [apply safe_read | solve [auto]]
          | eapply safe_weaken; [apply safe_alloc | solve [auto]]
          | eapply safe_weaken; [apply safe_write; solve [auto] | solve [auto]] ].

  Lemma safe_read_dict n l : safe n (read_dict l) (fun _ => True).
  Proof.
    eapply safe_bind; [apply safe_read|]. intros [d|x|k a] _; first [now apply safe_ret | apply safe_raise].
  Qed.
  Lemma safe_read_state n l : safe n (read_state l) (fun _ => True).
  Proof.
    eapply safe_bind; [apply safe_read|]. intros [d|x|k a] _; first [now apply safe_ret | apply safe_raise].
  Qed.
  Lemma safe_read_inst n l : safe n (read_inst l) (fun _ => True).
  Proof.
    eapply safe_bind; [apply safe_read|]. intros [d|x|k a] _; first [now apply safe_ret | apply safe_raise].
  Qed.
  Lemma safe_dict_copy n l : safe n (dict_copy l) (fun l' => n <= l').
  Proof. eapply safe_bind; [apply safe_read_dict|]. intros d _. apply safe_alloc. Qed.
  Lemma safe_dict_set n l k v : n <= l -> safe n (dict_set l k v) (fun _ => True).
  Proof. intros Hl. eapply safe_bind; [apply safe_read_dict|]. intros d _. now apply safe_write. Qed.
  Lemma safe_dict_pop n l k : n <= l -> safe n (dict_pop l k) (fun _ => True).
  Proof.
    intros Hl. eapply safe_bind; [apply safe_read_dict|]. intros d _.
    eapply safe_bind; [apply safe_lift with (P := fun _ => True); auto|]. intros d' _.
    now apply safe_write.
  Qed.
  Lemma safe_dict_new n : safe n dict_new (fun l' => n <= l').
  Proof. apply safe_alloc. Qed.
  Lemma safe_setattr n l key v : n <= l -> safe n (setattr l key v) (fun _ => True).
  Proof.
    intros Hl. eapply safe_bind; [apply safe_read_inst|]. intros [k attrs] _.
    eapply safe_bind with (P := fun _ => True); [destruct (dget a_flag attrs); [apply safe_truthy|now apply safe_ret]|].
    intros b _. destruct (_ && _); [apply safe_raise|]. destruct (existsb _ _); [apply safe_raise|].
    now apply safe_write.
  Qed.
  Lemma safe_new_instance n k s : safe n (new_instance k s) (fun l => n <= l).
  Proof.
    eapply safe_bind; [apply safe_alloc|]. intros self Hs. cbv beta in Hs.
    do 3 (eapply safe_bind; [apply safe_setattr; exact Hs|]; intros _ _).
    now apply safe_ret.
  Qed.
  Lemma safe_new_editor n s mode : safe n (new_editor s mode) (fun l => n <= l).
  Proof.
    eapply safe_bind; [apply safe_alloc|]. intros self Hs. cbv beta in Hs.
    do 4 (eapply safe_bind; [apply safe_setattr; exact Hs|]; intros _ _).
    now apply safe_ret.
  Qed.
  Lemma safe_self_state n l : safe n (self_state l) (fun _ => True).
  Proof.
    eapply safe_bind; [apply safe_read_inst|]. intros [k attrs] _.
    destruct (dget a_state attrs) as [[| |]|]; first [now apply safe_ret | apply safe_raise].
  Qed.
  Lemma safe_self_mode n l : safe n (self_mode l) (fun _ => True).
  Proof.
    eapply safe_bind; [apply safe_read_inst|]. intros [k attrs] _.
    destruct (dget a_error_mode attrs) as [[| |]|]; first [now apply safe_ret | apply safe_raise].
  Qed.
  Lemma safe_deref n l : safe n (deref l) (fun _ => True).
  Proof.
    eapply safe_bind; [apply safe_read_state|]. intros x _.
    do 3 (eapply safe_bind; [apply safe_read_dict|]; intros ? _). now apply safe_ret.
  Qed.
  Lemma safe_hreplace n l r : safe n (hreplace l r) (fun l' => n <= l').
  Proof.
    eapply safe_bind; [apply safe_read_state|]. intros x _.
    eapply safe_bind with (P := fun _ => True).
    { destruct (hr_depression_constant r); first [now apply safe_ret | apply safe_raise]. }
    intros ? _. eapply safe_bind with (P := fun _ => True).
    { destruct (hr_error_mode r); first [now apply safe_ret | apply safe_raise]. }
    intros ? _. apply safe_alloc.
  Qed.
  Lemma safe_iterate_loop n self p names la lu :
    n <= la -> n <= lu -> safe n (h_iterate_loop self p names la lu) (fun _ => True).
  Proof.
    intros Ha Hu. induction names as [|name names IH]; simpl; [now apply safe_ret|].
    eapply safe_bind; [|intros _ _; apply IH]. apply safe_mrewrap.
    eapply safe_bind; [apply safe_read_dict|]; intros da _.
    eapply safe_bind; [apply safe_lift with (P := fun _ => True); auto|]; intros acc _.
    eapply safe_bind; [apply safe_read_dict|]; intros du _.
    eapply safe_bind; [apply safe_lift with (P := fun _ => True); auto|]; intros upd _.
    eapply safe_bind; [apply safe_lift with (P := fun _ => True); auto|]; intros _ _.
    eapply safe_bind; [apply safe_self_state|]; intros s _.
    eapply safe_bind; [apply safe_deref|]; intros x _.
    eapply safe_bind; [apply safe_lift with (P := fun _ => True); auto|]; intros na _.
    eapply safe_bind; [apply safe_dict_set; exact Ha|]; intros _ _.
    apply safe_dict_set; exact Hu.
  Qed.
  Lemma safe_reset_loop n self u names out :
    n <= out -> safe n (h_reset_loop self u names out) (fun _ => True).
  Proof.
    intros Ho. induction names as [|name names IH]; simpl; [now apply safe_ret|].
    eapply safe_bind; [apply safe_self_state|]; intros s _.
    eapply safe_bind; [apply safe_deref|]; intros x _.
    do 3 (eapply safe_bind; [apply safe_lift with (P := fun _ => True); auto|]; intros ? _).
    eapply safe_bind; [apply safe_dict_set; exact Ho|]; intros _ _. exact IH.
  Qed.

  (** One step of a program: pick the lemma of its first statement. *)
  Ltac safe1 :=
    first
      [ apply safe_raise
      | match goal with |- safe _ (lift _) _ => apply safe_lift; solve [auto] end
      | apply safe_ret; solve [auto]
      | lazymatch goal with
        | |- safe _ (new_instance _ _) _ => eapply safe_weaken; [apply safe_new_instance | solve [auto]]
        | |- safe _ (new_editor _ _) _ => eapply safe_weaken; [apply safe_new_editor | solve [auto]]
        | |- safe _ (self_state _) _ => apply safe_self_state
        | |- safe _ (dict_set _ _ _) _ => apply safe_dict_set; assumption
        end
      | lazymatch goal with |- safe _ (mbind _ _) _ => idtac end; eapply safe_bind;
        [ first [ apply safe_self_state | apply safe_self_mode | apply safe_read_state
                | apply safe_read_dict | apply safe_deref | apply safe_dict_copy
                | apply safe_dict_new | apply safe_hreplace | apply safe_read
                | apply safe_dict_set; assumption | apply safe_dict_pop; assumption
                | apply safe_iterate_loop; assumption | apply safe_reset_loop; assumption
                | apply safe_alloc
                | match goal with |- safe _ (lift _) _ =>
                    apply safe_lift with (P := fun _ => True); solve [auto] end ]
        | intros ?a ?Ha; cbv beta in * ] ].
  Ltac safes := repeat (cbv zeta; safe1).

  Lemma safe_cache_update n l k t : safe n (h_cache_update l k t) (fun _ => True).
  Proof.
    unfold h_cache_update. safes. destruct (dget k _); [|apply safe_raise].
    destruct (negb _); [apply safe_raise|]. safes.
  Qed.
  Lemma safe_iterate_act n l p : safe n (h_iterate_act l p) (fun _ => True).
  Proof.
    unfold h_iterate_act. safes. destruct a2 as [[h r'] p']. safes.
  Qed.
  Lemma safe_reset_batches n l : safe n (h_reset_batches l) (fun _ => True).
  Proof. unfold h_reset_batches. safes. Qed.
  Lemma safe_transform n l f : safe n (h_transform l f) (fun _ => True).
  Proof.
    unfold h_transform. safes.
    eapply safe_bind with (P := fun _ => True).
    - apply safe_mrewrap. safes.
    - intros [[[[[its ress] probs] accs] dfs] upds] _. safes.
  Qed.
  Lemma safe_mask_data n l d mk : safe n (h_mask_data l d mk) (fun _ => True).
  Proof. unfold h_mask_data. safes. apply safe_transform. Qed.
  Lemma safe_define n l k t : safe n (h_define l k t) (fun _ => True).
  Proof. unfold h_define. safes. Qed.
  Lemma safe_new_builder n em b d eps dep : safe n (h_new_builder em b d eps dep) (fun _ => True).
  Proof.
    unfold h_new_builder. safes. eapply safe_bind with (P := fun _ => True).
    - destruct em; [now apply safe_ret | apply safe_raise].
    - intros m _. safes.
  Qed.
  Lemma safe_execute_checks n l f : safe n (h_execute_checks l f) (fun _ => True).
  Proof. unfold h_execute_checks. safes. Qed.
  Lemma safe_set_field n l r : safe n (h_set_field l r) (fun _ => True).
  Proof. unfold h_set_field. safes. Qed.
  Lemma safe_rebuild n mk l :
    (forall ls, safe n (mk ls) (fun _ => True)) -> safe n (h_rebuild mk l) (fun _ => True).
  Proof.
    intros Hmk. unfold h_rebuild. safes. destruct (tree_flatten_state _) as [flat td]. safes.
    apply Hmk.
  Qed.

  Lemma safe_call n m l : safe n (heap_call m l) (fun _ => True).
  Proof.
    unfold heap_call. safes.
    destruct m, a as [d0|x0|[| | |] attrs]; try apply safe_raise;
      lazymatch goal with
      | |- safe _ (h_cache_update _ _ _) _ => apply safe_cache_update
      | |- safe _ (h_iterate_act _ _) _ => apply safe_iterate_act
      | |- safe _ (h_reset_batches _) _ => apply safe_reset_batches
      | |- safe _ (h_transform _ _) _ => apply safe_transform
      | |- safe _ (h_mask_data _ _ _) _ => apply safe_mask_data
      | |- safe _ (h_define _ _ _) _ => apply safe_define
      | |- safe _ (h_unhalted_only _) _ => unfold h_unhalted_only; safes; apply safe_mask_data
      | |- safe _ (h_halted_only _) _ => unfold h_halted_only; safes; apply safe_mask_data
      | |- safe _ (h_define_by_shape _ _ _ _ _) _ => unfold h_define_by_shape; safes; apply safe_define
      | |- safe _ (h_rebuild _ _) _ => apply safe_rebuild; intros ls; safes
      | |- safe _ (mbind (self_mode _) _) _ => safes; apply safe_rebuild; intros ls; safes
      | |- safe _ (h_convert _ _) _ => unfold h_convert; safes
      | |- safe _ (h_save _) _ => unfold h_save; safes
      | |- safe _ (h_load _ _) _ => unfold h_load; safes
      | |- safe _ (h_delete_definition _ _) _ => unfold h_delete_definition; safes
      | |- safe _ (h_edit_save _ _) _ => unfold h_edit_save; safes
      | |- safe _ (h_edit_controller _ _) _ => unfold h_edit_controller; safes
      | _ =>
          unfold h_set_probabilities, h_set_residuals, h_set_iterations, h_set_epsilon,
            h_set_accumulator, h_set_defaults, h_set_updates;
          eapply safe_bind; [apply safe_execute_checks | intros _ _]; safes; apply safe_set_field
      end.
  Qed.
  Lemma safe_do n p c : safe n (heap_do p c) (fun _ => True).
  Proof.
    destruct c as [i m|em b d eps dep]; simpl.
    - destruct (nth_error p i); [apply safe_call | apply safe_raise].
    - apply safe_new_builder.
  Qed.
  Lemma run_frame p (h : heap N) cs es p' h' :
    heap_run p h cs = (es, p', h') ->
    forall l o, nth_error h l = Some o -> nth_error h' l = Some o.
  Proof.
    revert p h es p'. induction cs as [|c cs IH]; intros p h es p' Hr l o Hl; simpl in Hr.
    - injection Hr as _ _ <-. exact Hl.
    - pose proof (safe_do (length h) p c h (le_n _)) as Hs.
      destruct (heap_do p c h) as [r h1]. destruct Hs as (Hlen & Hf & _).
      destruct (heap_run _ h1 cs) as [[es2 p2] h2] eqn:E. injection Hr as _ _ <-.
      eapply IH; [exact E|]. rewrite Hf; [exact Hl|]. apply nth_error_Some. congruence.
  Qed.

  (** Views survive when every object of a heap is kept. *)
  Definition kept (h h' : heap N) : Prop :=
    forall l o, nth_error h l = Some o -> nth_error h' l = Some o.
  Lemma kept_app h t : kept h (h ++ t).
  Proof.
    intros l o Hl. rewrite nth_error_app1; [exact Hl|]. apply nth_error_Some. congruence.
  Qed.
  Lemma kept_trans h1 h2 h3 : kept h1 h2 -> kept h2 h3 -> kept h1 h3.
  Proof. intros H1 H2 l o Hl. auto. Qed.
  Lemma kept_view_dict h h' l d : kept h h' -> view_dict h l = Some d -> view_dict h' l = Some d.
  Proof.
    intros Hk Hv. unfold view_dict in *. destruct (nth_error h l) as [o|] eqn:E; [|discriminate].
    now rewrite (Hk l o E).
  Qed.
  Lemma kept_view_state h h' l s : kept h h' -> view_state h l = Some s -> view_state h' l = Some s.
  Proof.
    intros Hk Hv. unfold view_state in *. destruct (nth_error h l) as [o|] eqn:E; [|discriminate].
    rewrite (Hk l o E). destruct o as [|x|]; try discriminate.
    destruct (view_dict h (h_defaults x)) eqn:E1; [|discriminate].
    destruct (view_dict h (h_accumulators x)) eqn:E2; [|discriminate].
    destruct (view_dict h (h_updates x)) eqn:E3; [|discriminate].
    now rewrite (kept_view_dict _ _ _ _ Hk E1), (kept_view_dict _ _ _ _ Hk E2),
      (kept_view_dict _ _ _ _ Hk E3).
  Qed.
  Lemma kept_view h h' l v : kept h h' -> view h l = Some v -> view h' l = Some v.
  Proof.
    intros Hk Hv. unfold view in *. destruct (nth_error h l) as [o|] eqn:E; [|discriminate].
    rewrite (Hk l o E). destruct o as [|x|k attrs]; try discriminate.
    - destruct (view_state h l) eqn:Es; [|discriminate].
      now rewrite (kept_view_state _ _ _ _ Hk Es).
    - destruct (dget "state" attrs) as [[| |ls]|]; try discriminate.
      destruct (view_state h ls) eqn:Es; [|discriminate].
      now rewrite (kept_view_state _ _ _ _ Hk Es).
  Qed.
End HeapFacts.
