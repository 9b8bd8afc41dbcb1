(** * Arithmetic, dtypes and arrays.

    The model is parametric in the arithmetic: a record of operations, without laws.
    [val] is an element of an array, [scl] is a Python float (epsilon, the depression constant,
    the fill value); [v_of_scl] is the conversion JAX applies to a weakly typed Python scalar
    that meets an array. *)
From Coq Require Import QArith Qcanon.
From Verif Require Import Base Tensor.

Record numsys := {
  val : Type;
  scl : Type;
  v_zero : val;
  v_one : val;
  v_add : val -> val -> val;
  v_sub : val -> val -> val;
  v_mul : val -> val -> val;
  v_ltb : val -> val -> bool;      (* IEEE <, false on NaN *)
  v_leb : val -> val -> bool;      (* IEEE <=, false on NaN *)
  v_eqb : val -> val -> bool;      (* IEEE ==, false on NaN *)
  v_max : val -> val -> val;       (* jnp.maximum, NaN propagates *)
  v_min : val -> val -> val;       (* jnp.minimum, NaN propagates *)
  v_close : val -> val -> bool;    (* |a-b| <= 1e-8 + 1e-5*|b|, jnp.isclose *)
  v_of_scl : scl -> val;
  s_one_sub : scl -> scl;          (* Python: 1 - x *)
  s_zero : scl;
  s_one : scl;
  s_leb : scl -> scl -> bool       (* Python float <=, false on NaN *)
}.

(** ** dtypes (the 32 bit defaults of JAX plus the other float widths).
    Simplification: other integer and unsigned dtypes are left out; a requested dtype is
    always honoured (as with jax_enable_x64). *)
Inductive dtype := DBool | DInt32 | DF16 | DBF16 | DF32 | DF64.
Definition dtype_eq_dec (a b : dtype) : {a = b} + {a <> b}.
Proof. decide equality. Defined.
Definition dtype_eqb (a b : dtype) : bool := if dtype_eq_dec a b then true else false.

(** [jnp.issubdtype(x, jnp.floating)] *)
Definition is_floating (d : dtype) : bool :=
  match d with DBool | DInt32 => false | _ => true end.

(** JAX type promotion between two strongly typed arrays. *)
Definition promote (a b : dtype) : dtype :=
  match a, b with
  | DBool, x | x, DBool => x
  | DInt32, x | x, DInt32 => x
  | DF64, _ | _, DF64 => DF64
  | DF32, _ | _, DF32 => DF32
  | DF16, DF16 => DF16
  | DBF16, DBF16 => DBF16
  | DF16, DBF16 | DBF16, DF16 => DF32
  end.
(** Promotion of an array with a Python float / Python int scalar. *)
Definition weak_float (d : dtype) : dtype :=
  match d with DBool | DInt32 => DF32 | x => x end.
Definition weak_int (d : dtype) : dtype :=
  match d with DBool => DInt32 | x => x end.

Record array (N : numsys) := mkA { a_dt : dtype; a_ten : tensor (val N) }.
Arguments mkA {N} a_dt a_ten.
Arguments a_dt {N} a.
Arguments a_ten {N} a.

Section Arrays.
  Context {N : numsys}.

  Definition a_shape (a : array N) : list nat := shape (a_ten a).
  Definition a_data (a : array N) : list (val N) := data (a_ten a).
  Definition awf (a : array N) : Prop := twf (a_ten a).

  Definition v_of_bool (b : bool) : val N := if b then v_one N else v_zero N.

  (** [jnp.full(shape, fill, dtype)] *)
  Definition a_full (sh : list nat) (x : val N) (d : dtype) : array N := mkA d (tfull sh x).
  (** elementwise binary operations with broadcasting and promotion *)
  Definition a_bin (f : val N -> val N -> val N) (x y : array N) : res (array N) :=
    t <- tbin f (a_ten x) (a_ten y) ;; Ok (mkA (promote (a_dt x) (a_dt y)) t).
  Definition a_add := a_bin (v_add N).
  Definition a_mul := a_bin (v_mul N).
  (** [jax.lax.select] also demands equal dtypes of the two cases *)
  Definition a_select (p : tensor bool) (x y : array N) : res (array N) :=
    if dtype_eqb (a_dt x) (a_dt y) then
      t <- tselect p (a_ten x) (a_ten y) ;; Ok (mkA (a_dt x) t)
    else Err JaxError.
  (** [jnp.clip(x, 0.0, 1.0)]: maximum with the lower bound, then minimum with the upper *)
  Definition a_clip01 (x : array N) : array N :=
    mkA (weak_float (a_dt x))
        (tensor_map (fun v => v_min N (v_one N) (v_max N (v_zero N) v)) (a_ten x)).
  (** [s * x] for a Python float s *)
  Definition a_scale (s : scl N) (x : array N) : array N :=
    mkA (weak_float (a_dt x)) (tensor_map (v_mul N (v_of_scl N s)) (a_ten x)).
  (** [1 - x] and [x + 1] for the Python int 1 *)
  Definition a_one_minus (x : array N) : array N :=
    mkA (weak_int (a_dt x)) (tensor_map (v_sub N (v_one N)) (a_ten x)).
  Definition a_plus_one (x : array N) : array N :=
    mkA (weak_int (a_dt x)) (tensor_map (fun v => v_add N v (v_one N)) (a_ten x)).
  (** [x * mask] and [mask * x] for a bool tensor *)
  Definition a_mul_bool (x : array N) (m : tensor bool) : res (array N) :=
    t <- tbin (fun v b => v_mul N v (v_of_bool b)) (a_ten x) m ;; Ok (mkA (a_dt x) t).
  Definition a_bool_mul (m : tensor bool) (x : array N) : res (array N) :=
    t <- tbin (fun b v => v_mul N (v_of_bool b) v) m (a_ten x) ;; Ok (mkA (a_dt x) t).
End Arrays.

(** ** The exact instance: canonical rationals. *)
Definition Qcltb (x y : Qc) : bool := if Qclt_le_dec x y then true else false.
Definition Qcleb (x y : Qc) : bool := if Qclt_le_dec y x then false else true.
Definition Qceqb (x y : Qc) : bool := if Qc_eq_dec x y then true else false.
Definition Qcmax' (x y : Qc) : Qc := if Qcltb x y then y else x.
Definition Qcmin' (x y : Qc) : Qc := if Qcltb y x then y else x.
Definition Qcabs' (x : Qc) : Qc := if Qcltb x 0 then Qcopp x else x.
Definition Qcclose (a b : Qc) : bool :=
  Qcleb (Qcabs' (a - b)) (Qcplus (Q2Qc (1 # 100000000)) (Qcmult (Q2Qc (1 # 100000)) (Qcabs' b))).

Definition QcNum : numsys := {|
  val := Qc; scl := Qc;
  v_zero := 0%Qc; v_one := 1%Qc;
  v_add := Qcplus; v_sub := Qcminus; v_mul := Qcmult;
  v_ltb := Qcltb; v_leb := Qcleb; v_eqb := Qceqb;
  v_max := Qcmax'; v_min := Qcmin'; v_close := Qcclose;
  v_of_scl := fun s => s;
  s_one_sub := fun s => (1 - s)%Qc;
  s_zero := 0%Qc; s_one := 1%Qc; s_leb := Qcleb
|}.
