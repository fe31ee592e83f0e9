(** Elementary functions on top of [fops], and sums; used by the model of the numerical
    routines.  pi: qsc.hpp (constant pi); the functions are those of <cmath>. *)
From Coq Require Import ZArith Reals List.
From Verif Require Import FloatOps.
Import ListNotations.

Record mops (F : Type) := mkMops {
  m_pi : F; m_of_Z : Z -> F;            (* conversion of an int to qscfloat *)
  m_sin : F -> F; m_cos : F -> F; m_tan : F -> F; m_sqrt : F -> F; m_abs : F -> F }.
Arguments m_pi {F}. Arguments m_of_Z {F}. Arguments m_sin {F}. Arguments m_cos {F}. Arguments m_tan {F}.
Arguments m_sqrt {F}. Arguments m_abs {F}.

(** Exact real arithmetic.  (tan is sin / cos, where Coq's 1 / 0 is 0.) *)
Definition R_math : mops R := mkMops R PI IZR sin cos tan sqrt Rabs.

Section Sums.
Context {F : Type} (o : fops F).
(** std::valarray::sum, and the sums in a matrix-vector product (vector_matrix.cpp lines
    129-152, matrix_vector_product, which calls gemv of BLAS).  Simplification: the order of the
    summation is that of the index; BLAS is free to choose another. *)
Fixpoint fsum (n : nat) (f : nat -> F) : F :=
  match n with O => fzero o | S n' => fadd o (fsum n' f) (f n') end.
(** std::valarray::min and max (of an array of n + 1 elements). *)
Fixpoint fmin (n : nat) (f : nat -> F) : F :=
  match n with O => f 0 | S n' => let m := fmin n' f in if flt o (f (S n')) m then f (S n') else m end.
Fixpoint fmax (n : nat) (f : nat -> F) : F :=
  match n with O => f 0 | S n' => let m := fmax n' f in if flt o m (f (S n')) then f (S n') else m end.
End Sums.
Notation rsum := (fsum R_ops).
