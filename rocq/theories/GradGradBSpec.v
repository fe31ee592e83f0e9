(** Specification vocabulary for the second derivatives of the magnetic field, in exact arithmetic. *)
From Coq Require Import ZArith Reals List.
From Verif Require Import Base FloatOps MathOps Curve Axis AxisSpec R1 R1Spec R2 R2Spec.
Import ListNotations.
Local Open Scope R_scope.

(** Components of a vector: 0, 1, 2 are the normal, the binormal and the tangent. *)
Definition comp (v : vec) (n : nat) : R := match n with O => vx v | 1%nat => vy v | _ => vz v end.
(** The displacement from the point of the axis to the point with coordinates r and theta. *)
Definition displacement (q : r1 R) (s : r2 R) (j : nat) (r t : R) : vec :=
  V (at_rt (X_modes q s j) r t) (at_rt (Y_modes q s j) r t) (at_rt (Z_modes s j) r t).
(** The value at the displacement [d] of the Taylor polynomial of degree 2 of a vector field; B, G and T are the value
    of the field at the origin and its first and second derivatives there: G i k is the derivative of the component k in the direction i. *)
Definition taylor (B : vec) (G : nat -> nat -> R) (T : nat -> nat -> nat -> R) (d : vec) (k : nat) : R :=
  comp B k + rsum 3 (fun i => comp d i * G i k) + / 2 * rsum 3 (fun i => rsum 3 (fun j => comp d i * comp d j * T i j k)).
(** The components of the derivative of a tensor of rank 2 along the axis, per arclength: [dG] are the derivatives of its components, and the frame turns
    according to the equations of Frenet and Serret.  [frenet kap tau m n] is the component n of the derivative of the vector m of the frame. *)
Definition frenet (kap tau : R) (m n : nat) : R :=
  match m, n with
  | 2%nat, O => kap | O, 2%nat => - kap | O, 1%nat => tau | 1%nat, O => - tau | _, _ => 0
  end.
Definition derivative_along_axis (kap tau : R) (G dG : nat -> nat -> R) (i k : nat) : R :=
  dG i k + rsum 3 (fun m => G m k * frenet kap tau m i) + rsum 3 (fun m => G i m * frenet kap tau m k).
(** The size of a tensor of rank 3. *)
Definition norm3 (T : nat -> nat -> nat -> R) : R := sqrt (rsum 3 (fun i => rsum 3 (fun j => rsum 3 (fun k => T i j k ^ 2)))).
