(** * Vocabulary for controllers with two formats. Nothing here models repository code. *)
From Coq Require Import ZArith Reals.
From Flocq Require Import Core BinarySingleNaN.
From Verif Require Import Base PyTree Tensor Num FloatNum States Controller Wf History ElementSpec ScalarSpec FloatSpec Jit Mixed.

(** Every number of the format (pn, en) is one of (pw, ew). *)
Definition wider (pn en pw ew : Z) : Prop :=
  (pn <= pw)%Z /\ (en <= ew)%Z /\ (SpecFloat.emin pw ew <= SpecFloat.emin pn en)%Z.

Section Spec.
  Context {pn en pw ew : Z} {Hpn : Prec_gt_0 pn} {Hmn : Prec_lt_emax pn en} {Hpw : Prec_gt_0 pw} {Hmw : Prec_lt_emax pw ew}.
  Notation Core := (FloatNum pn en).
  Notation Mix := (MixedNum pn en pw ew).
  Notation nar := (binary_float pn en).
  Notation wid := (binary_float pw ew).
  (** A number of the core format, of the larger format. *)
  Definition narrow (v : val Mix) : Prop := exists x : nar, v = Nar x.
  Definition wide (v : val Mix) : Prop := exists y : wid, v = Wid y.
  (** The numbers a call caches for the accumulator [k] all satisfy [ok]. *)
  Definition updates_of (k : string) (ok : val Mix -> Prop) (c : call Mix) : Prop :=
    match c with CCache name item => name = k -> Forall (fun a => Forall ok (a_data a)) (leaves item) | _ => True end.

  (** One number of an accumulator of the larger format: weights are computed in the core format, then
      widened; products and sums are formed in the larger format. *)
  Section Program.
    Context (thr dep : val Core).
    Fixpoint wide_run (d : wid) (s : stats Core) (a : wid) (es : list (option (nar * wid))) : wid :=
      match es with
      | [] => a
      | Some (v, u) :: es' =>
          wide_run d (stats_step thr dep s v)
            (if is_over thr s then a else f_add a (f_mul (f_conv pw ew (used thr dep s v : nar)) u)) es'
      | None :: es' => wide_run d (stats_reset thr s) (if is_over thr s then d else a) es'
      end.
    (** Without resets: weight and update of every step made while the element was running. *)
    Fixpoint wide_shares (s : stats Core) (es : list (nar * wid)) : list (nar * wid) :=
      match es with
      | [] => []
      | (v, u) :: es' => (if is_over thr s then [] else [(used thr dep s v : nar, u)]) ++ wide_shares (stats_step thr dep s v) es'
      end.
  End Program.
  (** weight times update, without rounding *)
  Definition exact_wide_share (x : nar * wid) : R := (B2R (fst x) * B2R (snd x))%R.
  (** programs whose numbers are those of [prog], marked with their formats *)
  Definition marked (prog : list (option (nar * wid))) : list (option (val Mix * val Mix)) :=
    map (option_map (fun e : nar * wid => (Nar (fst e), Wid (snd e)))) prog.
  Definition marked_narrow (prog : list (option (nar * nar))) : list (option (val Mix * val Mix)) :=
    map (option_map (fun e : nar * nar => (Nar (fst e), Nar (snd e)))) prog.
End Spec.
