(** * Python's [str] on the values that occur in error messages: integers that are not negative, shapes (tuples of such
    integers) and dtypes. Nothing here models repository code. *)
From Coq Require Import DecimalString Decimal.
From Verif Require Import Base Num.
Open Scope string_scope.

Definition str_int (n : nat) : string := NilEmpty.string_of_uint (Nat.to_uint n).
Fixpoint str_rest (ns : list nat) : string := match ns with [] => ")" | n :: ns' => ", " ++ str_int n ++ str_rest ns' end.
(** "()", "(3,)", "(3, 4)" *)
Definition str_shape (sh : list nat) : string :=
  match sh with
  | [] => "()"
  | [n] => "(" ++ str_int n ++ ",)"
  | n :: ns => "(" ++ str_int n ++ str_rest ns
  end.
Definition str_dtype (d : dtype) : string :=
  match d with DBool => "bool" | DInt32 => "int32" | DF16 => "float16" | DBF16 => "bfloat16" | DF32 => "float32" | DF64 => "float64" end.
