(** * Vocabulary: what a docstring layer makes of one batch element in IEEE-754 arithmetic, eager or
    compiled. No model of execute_act. *)
From Coq Require Import ZArith Reals.
From Flocq Require Import Core BinarySingleNaN.
From Verif Require Import Base PyTree Tensor Num FloatNum FloatSpec States Controller Wf History ElementSpec ScalarSpec LayerSpec Jit.

Section IeeeLoop.
  Context {prec emax : Z} {Hp : Prec_gt_0 prec} {Hm : Prec_lt_emax prec emax}.
  Notation F := (FloatNum prec emax).
  Notation J := (JitNum prec emax).
  Notation bf := (binary_float prec emax).
  Notation tr := (tree (array F)).

  (** The traced functions of a layer compute from what compiled code sees of a user state what the
      Python functions compute from the user state. *)
  Definition traces_as (next : tr -> tr) (upd : tr -> dict tr) (halt : tr -> array F)
    (next' : tree (array J) -> tree (array J)) (upd' : tree (array J) -> dict (tree (array J))) (halt' : tree (array J) -> array J) : Prop :=
    forall u, next' (jit_tree u) = jit_tree (next u) /\
      upd' (jit_tree u) = map (fun kv => (fst kv, jit_tree (snd kv))) (upd u) /\
      halt' (jit_tree u) = jit_array (halt u).

  (** The halting values of element [i] in the first [n] iterations, if the user state starts as [init]. *)
  Definition halting_inputs (next : tr -> tr) (halt : tr -> array F) (init : tr) (i n : nat) : list bf :=
    map (fun k => nth i (a_data (halt (nth_state next k init))) f_zero) (seq 0 n).
  (** [us] are the numbers supplied for entry [j] of leaf [l] of accumulator [name] in the first [n] iterations. *)
  Definition update_inputs (next : tr -> tr) (upd : tr -> dict tr) (init : tr) (name : string) (l j n : nat) (us : list bf) : Prop :=
    map (fun k => update_at (N := F) name l j (upd (nth_state next k init))) (seq 0 n) = map Some us.

  (** Element [i] of the controller [c'] (arrays read by [fl]) is what [n] iterations with threshold
      [T] and depression constant [d] make of element [i] of the controller [c0]. *)
  Section Results.
    Context {N : numsys} (fl : val N -> bf) (T d : bf) (next : tr -> tr) (upd : tr -> dict tr) (halt : tr -> array F) (init : tr)
      (c0 : state F) (n : nat) (c' : state N) (i : nat).
    (** the weights of the steps made while the element was running (ScalarSpec.v) *)
    Definition loop_weights : list bf := ScalarSpec.weights (N := F) T d stats0 (halting_inputs next halt init i n).
    Definition halted_now (b : bool) : Prop := nth_error (data (halted_batches c')) i = Some b.

    (** Cumulative probability, residual and iteration count. *)
    Definition statistics_accurate : Prop :=
      exists p r k, element c' i p r k /\
      let ws := loop_weights in
      funit (fl p) /\ Forall fnonneg ws /\ length ws <= n /\
      (Rabs (Rsum (map B2R ws) - B2R (fl p)) <= INR (length ws) * bpow radix2 (- prec))%R /\
      (halted_now true -> fl p = Bone) /\
      (halted_now false -> length ws = n) /\
      counts (fl k) (Z.min (Z.of_nat (length ws)) (2 ^ prec)) /\
      ((B2R T < 1)%R ->
         funit (fl r) /\ (halted_now false -> B2R (fl r) = 0%R) /\
         (halted_now true -> bpow radix2 (- prec) <= B2R (fl r) /\ 1 - B2R T - bpow radix2 (- prec - 1) <= B2R (fl r))%R).

    (** Entry by entry: default plus the sum of weight times update, up to rounding. *)
    Definition accumulators_accurate : Prop :=
      forall name t df l a dl R j av dv,
        dget name (accumulators c') = Some t -> dget name (defaults c0) = Some df ->
        nth_error (leaves t) l = Some a -> nth_error (leaves df) l = Some dl ->
        a_shape a = batch_shape c0 ++ R -> j / size R = i ->
        nth_error (a_data a) j = Some av -> nth_error (a_data dl) j = Some dv -> is_finite (dv : bf) = true ->
        exists us, update_inputs next upd init name l j n us /\
          let xs := combine loop_weights us in
          let tot := Rsum (map (fun x => Rabs (exact_share x)) xs) in
          (Forall (fun u : bf => is_finite u = true) us ->
           (magnitude_bound prec emax (length xs) (B2R (dv : bf)) tot < bpow radix2 emax)%R ->
           is_finite (fl av) = true /\
           (Rabs (B2R (fl av) - (B2R (dv : bf) + Rsum (map exact_share xs)))
             <= error_bound prec emax (length xs) (B2R (dv : bf)) tot)%R) /\
          (** if neither the default nor an update exceeds [M] in absolute value *)
          (forall M, (Rabs (B2R (dv : bf)) <= M)%R ->
           Forall (fun u : bf => is_finite u = true /\ (Rabs (B2R u) <= M)%R) us ->
           let m := length loop_weights in let tot' := (M * (1 + INR m * bpow radix2 (- prec)))%R in
           (magnitude_bound prec emax m M tot' < bpow radix2 emax)%R ->
           is_finite (fl av) = true /\
           (Rabs (B2R (fl av) - (B2R (dv : bf) + Rsum (map exact_share xs))) <= error_bound prec emax m M tot')%R).
  End Results.
End IeeeLoop.
