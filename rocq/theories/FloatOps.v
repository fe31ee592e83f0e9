(** The arithmetic the modelled code is written in, as a record of operations, so that
    one model can be read in exact real arithmetic, in IEEE double precision (Coq's
    [SpecFloat], including NaN and infinities) or over an arbitrary type.
    Models the type [qscfloat] of src/vector_matrix.hpp. *)
From Coq Require Import ZArith Reals SpecFloat List.
Import ListNotations.

Record fops (F : Type) := mkFops {
  fzero : F; fone : F; ftwo : F;
  fadd : F -> F -> F; fsub : F -> F -> F; fmul : F -> F -> F; fdiv : F -> F -> F;
  fopp : F -> F;
  flt : F -> F -> bool;      (* operator< : false when an operand is NaN *)
  fle : F -> F -> bool }.    (* operator<= *)
Arguments fzero {F}. Arguments fone {F}. Arguments ftwo {F}.
Arguments fadd {F}. Arguments fsub {F}. Arguments fmul {F}. Arguments fdiv {F}.
Arguments fopp {F}. Arguments flt {F}. Arguments fle {F}.

(** Exact real arithmetic. *)
Definition Rltb (x y : R) : bool := if Rlt_dec x y then true else false.
Definition Rleb (x y : R) : bool := if Rle_dec x y then true else false.
Definition R_ops : fops R :=
  mkFops R 0%R 1%R 2%R Rplus Rminus Rmult Rdiv Ropp Rltb Rleb.

(** IEEE 754 binary64, round to nearest even. *)
Definition d_prec := 53%Z.
Definition d_emax := 1024%Z.
Definition D_ops : fops spec_float :=
  mkFops spec_float (S754_zero false)
    (SFldexp d_prec d_emax (S754_finite false 1 0) 0)
    (SFldexp d_prec d_emax (S754_finite false 2 0) 0)
    (SFadd d_prec d_emax) (SFsub d_prec d_emax) (SFmul d_prec d_emax) (SFdiv d_prec d_emax)
    SFopp SFltb SFleb.
Definition d_of_Z (z : Z) : spec_float :=
  match z with
  | Z0 => S754_zero false
  | Zpos p => SFldexp d_prec d_emax (S754_finite false p 0) 0
  | Zneg p => SFldexp d_prec d_emax (S754_finite true p 0) 0
  end.
