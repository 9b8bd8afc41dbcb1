(** * Concrete controllers used to show that hypotheses can be met. *)
From Coq Require Import QArith Qcanon.
From Verif Require Import Base PyTree Tensor Num Utils States Controller Builder Wf Spec History ElementSpec BuilderSpec.
From Verif Require Import BaseFacts PyTreeFacts TensorFacts ControllerFacts IterateFacts ResetFacts HistoryFacts.
From Verif Require Import QcFacts BuilderFacts.
Close Scope Qc_scope. Close Scope Q_scope. Open Scope string_scope. Open Scope list_scope. Open Scope nat_scope.

Notation st := (state QcNum).
Notation tr := (tree (array QcNum)).

Definition q (n : Z) (d : positive) : Qc := Q2Qc (n # d).
Definition arr (sh : list nat) (d : list Qc) : array QcNum := mkA (N := QcNum) DF32 (mkT sh d).
Definition farr (dt : dtype) (sh : list nat) (d : list Qc) : array QcNum := mkA (N := QcNum) dt (mkT sh d).

(** a builder over a batch of two elements, epsilon 1/10 *)
Definition core2 (dep : Qc) : st :=
  empty_state (N := QcNum) [2] DF32 (q 1 10) dep (Some "standard").
Lemma core2_built dep : new_builder_with (N := QcNum) (Some (Some "standard")) (BInt 2) (Some DF32) (q 1 10) dep = Ok (core2 dep).
Proof. apply new_builder_with_ok. cbn. repeat split; auto. constructor; [lia|constructor]. Qed.

Definition t_x : tr := Leaf (arr [2; 2] [q 1 1; q 2 1; q 3 1; q 4 1]).
Definition t_y : tr := Node (NDict ["a"; "b"]) [Leaf (arr [2] [q 0 1; q 0 1]); Node NTuple [Leaf (arr [2; 1] [q 1 2; q 1 3]); tnone]].

(** one tensor accumulator *)
Definition defs1 : list (bcall QcNum) := [BDirect "x" t_x].
Definition ctl1d (dep : Qc) : st := brun (core2 dep) defs1.
Definition ctl1 : st := ctl1d (q 1 1).
(** a tensor and a pytree, with one definition overwritten and one removed on the way *)
Definition defs2 : list (bcall QcNum) :=
  [BShape (N := QcNum) "x" (int_list [2; 7]%Z) DF32 (q 1 1); BDirect "z" t_x; BDirect "x" t_x; BDirect "y" t_y;
   BDelete "z"; BDelete "nope"; BDirect "bad" (Leaf (arr [3] [q 0 1; q 0 1; q 0 1]))].
Definition ctl2 : st := brun (core2 (q 1 1)) defs2.

Lemma defs1_wf : Forall bcall_wf defs1.
Proof. repeat constructor. Qed.
Lemma defs2_wf : Forall bcall_wf defs2.
Proof. repeat constructor. Qed.
Lemma ctl1d_ok dep : wf (ctl1d dep) /\ fresh (ctl1d dep).
Proof.
  destruct (new_builder_wf _ _ _ _ _ _ (core2_built dep)) as [W F].
  destruct (brun_wf _ _ W F defs1_wf) as (A & B & _). exact (conj A B).
Qed.
Lemma ctl1_ok : wf ctl1 /\ fresh ctl1. Proof. exact (ctl1d_ok _). Qed.
Lemma ctl2_ok : wf ctl2 /\ fresh ctl2.
Proof.
  destruct (new_builder_wf _ _ _ _ _ _ (core2_built (q 1 1))) as [W F].
  destruct (brun_wf _ _ W F defs2_wf) as (A & B & _). exact (conj A B).
Qed.
Example ctl2_keys : dkeys (accumulators ctl2) = ["x"; "y"] /\ batch_shape ctl2 = [2].
Proof. vm_compute. split; reflexivity. Qed.

Lemma fresh_wf_pending {N} (s : state N) : fresh s -> wf_pending s.
Proof. intros (_ & _ & _ & _ & F) k u Hu. rewrite (F k u Hu). constructor. Qed.

Definition u_x (a b c d : Z) : tr := Leaf (arr [2; 2] [q a 1; q b 1; q c 1; q d 1]).
Definition u_y (a b c d : Z) : tr :=
  Node (NDict ["a"; "b"]) [Leaf (arr [2] [q a 1; q b 1]); Node NTuple [Leaf (arr [2; 1] [q c 1; q d 1]); tnone]].
Definition hp (a b : Qc) : array QcNum := arr [2] [a; b].

(** element 0 halts in the second iteration, element 1 in the third; the repeated iteration and the
    caching of an unknown name raise *)
Definition calls2 : list (call QcNum) :=
  [CCache "x" (u_x 1 2 3 4); CCache "y" (u_y 1 2 3 4); CIter (hp (q 1 2) (q 1 4));
   CIter (hp (q 1 2) (q 1 4)); CCache "nope" t_x;
   CCache "y" (u_y 5 6 7 8); CCache "x" (u_x 5 6 7 8); CIter (hp (q 7 1) (q (-3) 1));
   CCache "y" (u_y 5 6 7 8); CCache "x" (u_x 5 6 7 8); CIter (hp (q 1 2) (q 9 10))].
Lemma calls2_wf : Forall call_wf calls2. Proof. repeat constructor. Qed.
(** with a reset in the middle, after which element 0 starts again *)
Definition calls1 : list (call QcNum) :=
  [CCache "x" (u_x 1 2 3 4); CReset; CIter (hp (q 1 2) (q 1 4));
   CCache "x" (u_x 5 6 7 8); CIter (hp (q 7 1) (q 1 4)); CReset;
   CCache "x" (u_x 5 6 7 8); CIter (hp (q 1 3) (q 9 10))].
Lemma calls1_wf : Forall call_wf calls1. Proof. repeat constructor. Qed.
