(** Specification vocabulary for the first-order solution, in exact arithmetic. *)
From Coq Require Import ZArith Reals List.
From Verif Require Import Base FloatOps MathOps Axis R1.
Import ListNotations.
Local Open Scope R_scope.

(** The equation for sigma on the grid, at the point [j], for the values [sigma] on the grid and
    the rotational transform [iota]: the left side minus the right side of
      d sigma/d varphi + (iota + N) (etabar^4/kappa^4 + 1 + sigma^2)
        = 2 (etabar^2/kappa^2) (I2/B0 - spsi tau) G0/B0
    where d/d varphi is the differentiation matrix. *)
Definition sigma_equation (i : r1_input R) (sigma : nat -> R) (iota : R) (j : nat) : R :=
  let a := i_axis i in
  let ratio := i_eta_bar i / a_curvature a j in
  rsum (a_nphi a) (fun k => a_d_d_varphi a j k * sigma k)
  + (iota + IZR (i_helicity i) * IZR (i_nfp i)) * (ratio ^ 4 + 1 + sigma j ^ 2)
  - 2 * ratio ^ 2 * (i_I2 i / i_B0 i - IZR (i_spsi i) * a_torsion a j) * (a_G0 a / i_B0 i).

(** The state vector of the solve and what it stands for: its first element is iota, the others are sigma
    at the grid points but the first, where sigma is sigma0. *)
Definition state_iota (s : list R) : R := nth 0 s 0.
Definition state_sigma (i : r1_input R) (s : list R) (j : nat) : R := if Nat.eqb j 0 then i_sigma0 i else nth j s 0.

(** The parameters of a first-order calculation for the axis [a] with helicity [h] that init_axis found
    for the input [ai]. *)
Definition r1_config (ai : axis_input R) (a : axis R) (h : Z) (I2 eta_bar sigma0 : R) : r1_input R :=
  mkR1 a (ai_nfp ai) h (ai_sG ai) (ai_spsi ai) (ai_B0 ai) I2 eta_bar sigma0.

(** The boundary of the plasma at first order in the plane perpendicular to the axis: the point at the
    angle [theta], per unit of the minor radius; and its distance from the axis. *)
Definition ellipse (q : r1 R) (j : nat) (theta : R) : R * R :=
  (r_X1c q j * cos theta + r_X1s q j * sin theta, r_Y1c q j * cos theta + r_Y1s q j * sin theta).
Definition radius (p : R * R) : R := sqrt (fst p * fst p + snd p * snd p).

Definition is_sign (z : Z) : Prop := z = 1%Z \/ z = (-1)%Z.
