(** What the properties of the singularity radius say, independently of how the code computes it. *)
From Coq Require Import ZArith Reals List.
From Verif Require Import Base FloatOps MathOps RSing.
Import ListNotations.
Local Open Scope R_scope.

(** The Jacobian sqrt(g) divided by r, to the order kept, as a function of the radius and the poloidal angle; and its derivative with respect
    to the angle. *)
Definition J (g : jac R) (r t : R) : R :=
  g0 g + r * g1c g * cos t + r ^ 2 * (g20 g + g2s g * sin (2 * t) + g2c g * cos (2 * t)).
Definition J_t (g : jac R) (r t : R) : R :=
  - r * g1c g * sin t + r ^ 2 * (2 * g2s g * cos (2 * t) - 2 * g2c g * sin (2 * t)).
(** The surfaces begin to be singular at (r, t): the Jacobian touches zero. *)
Definition singular_at (g : jac R) (r t : R) : Prop := 0 < r /\ J g r t = 0 /\ J_t g r t = 0.

(** The cases that the method leaves out.  r is eliminated from J = 0 and J_t = 0 by J_t / r = 0, that is g1c sin t = 2 r D, which leaves
    4 g0 D^2 + 2 g1c^2 sin t cos t D + g1c^2 sin^2 t A = 0. *)
Definition A_of (g : jac R) (t : R) : R := g20 g + g2s g * sin (2 * t) + g2c g * cos (2 * t).
Definition D_of (g : jac R) (t : R) : R := g2s g * cos (2 * t) - g2c g * sin (2 * t).
Definition eliminant (g : jac R) (t : R) : R :=
  4 * g0 g * D_of g t ^ 2 + 2 * g1c g ^ 2 * sin t * cos t * D_of g t + g1c g ^ 2 * sin t ^ 2 * A_of g t.
(** No singular point has A = 0 (J linear in r), and none with cos 2t < 0 has a mirror image (with the same sin 2t and the opposite
    cos 2t) that solves the eliminated equation too; and the eliminated equation has a term in cos 4t. *)
Definition regular_point (g : jac R) (t : R) : Prop :=
  A_of g t <> 0 /\ (cos (2 * t) < 0 -> eliminant g (PI / 2 - t) <> 0).
Definition cos4_term (g : jac R) : R := g1c g ^ 2 * g2c g - 8 * g0 g * g2c g ^ 2 + 8 * g0 g * g2s g ^ 2.

(** Complex numbers, and the eigenvalues of a matrix that is stored by columns. *)
Definition cplx := (R * R)%type.
Definition cadd (x y : cplx) : cplx := (fst x + fst y, snd x + snd y).
Definition cmul (x y : cplx) : cplx := (fst x * fst y - snd x * snd y, fst x * snd y + snd x * fst y).
Definition creal (x : R) : cplx := (x, 0).
Definition c0 : cplx := (0, 0).
Fixpoint cpow (x : cplx) (n : nat) : cplx := match n with O => creal 1 | S n' => cmul x (cpow x n') end.
Fixpoint csum (n : nat) (f : nat -> cplx) : cplx := match n with O => c0 | S n' => cadd (csum n' f) (f n') end.
Definition eigenvalue (n : nat) (m : list R) (x : cplx) : Prop :=
  exists v : nat -> cplx, (exists k, (k < n)%nat /\ v k <> c0) /\
    forall row, (row < n)%nat -> csum n (fun col => cmul (creal (nth (row + n * col) m 0)) (v col)) = cmul x (v row).

(** An eigenvalue routine that misses no real eigenvalue of the matrix. *)
Definition finds_real_eigenvalues (geev : list R -> Z * (list R * list R)) (m : list R) : Prop :=
  exists re im, geev m = (0%Z, (re, im)) /\ length re = 4%nat /\ length im = 4%nat /\
    forall x, eigenvalue 4 m (x, 0) -> exists k, (k < 4)%nat /\ nth k re 0 = x /\ nth k im 0 = 0.
