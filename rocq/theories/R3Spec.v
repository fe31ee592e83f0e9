(** Specification vocabulary for the third-order terms of the surfaces, in exact arithmetic: the vectors of R2Spec with the terms
    r^3 X3c1 cos theta in X and r^3 (Y3c1 cos theta + Y3s1 sin theta) in Y. *)
From Coq Require Import ZArith Reals List.
From Verif Require Import Base FloatOps MathOps Curve Axis AxisSpec R1 R1Spec R2 R2Spec.
Local Open Scope R_scope.

(** The third-order terms at a grid point, and their derivatives with respect to varphi. *)
Record terms3 := mkTerms3 { x3c : R; y3c : R; y3s : R; dx3c : R; dy3c : R; dy3s : R }.
(** Those that the code reports, with the derivatives of the differentiation matrix. *)
Definition reported_terms (a : axis R) (u : r2p1 R) (j : nat) : terms3 :=
  mkTerms3 (t_X3c1 u j) (t_Y3c1 u j) (t_Y3s1 u j)
    (grid_derivative a (t_X3c1 u) j) (grid_derivative a (t_Y3c1 u) j) (grid_derivative a (t_Y3s1 u) j).

Section Third.
Variables (i : r2_input R) (s : r2 R) (j : nat) (z : modes3) (dz : R -> R) (w : terms3).
Let a := i_axis (j_r1 i).
Let q := r1_diagnostics R_ops R_math (j_r1 i) (j_sigma i) (j_iota i).
Let l := a_abs_G0_over_B0 a.
(** The derivatives of the point: those with the third-order term of Z, as in R2Spec, and the terms of X and Y. *)
Definition third_r (r t : R) : vec :=
  vadd (e_r3 i s j z r t) (V (3 * r ^ 2 * (x3c w * cos t)) (3 * r ^ 2 * (y3c w * cos t + y3s w * sin t)) 0).
Definition third_theta (r t : R) : vec :=
  vadd (e_theta3 i s j z r t) (V (r ^ 3 * (- x3c w * sin t)) (r ^ 3 * (y3s w * cos t - y3c w * sin t)) 0).
Definition third_varphi (r t : R) : vec :=
  let x := x3c w * cos t in let y := y3c w * cos t + y3s w * sin t in
  vadd (e_varphi3 i s j z dz r t)
    (V (r ^ 3 * (dx3c w * cos t - l * a_torsion a j * y)) (r ^ 3 * (dy3c w * cos t + dy3s w * sin t + l * a_torsion a j * x))
       (r ^ 3 * (- l * a_curvature a j * x))).
Definition third_along (r t : R) : vec := vadd (third_varphi r t) (scal (r_iota_N q) (third_theta r t)).
(** The Jacobian of the coordinates. *)
Definition third_sqrt_g (r t : R) : R := dot (third_r r t) (cross (third_theta r t) (third_varphi r t)).
(** The derivative of the toroidal flux per 2 pi; and G + iota I. *)
Definition flux_derivative (r : R) : R := IZR (i_spsi (j_r1 i)) * i_B0 (j_r1 i) * r.
Definition G_plus_iota_I (r : R) : R := a_G0 a + r ^ 2 * (s_G2 s + j_iota i * i_I2 (j_r1 i)).
(** The field in its two forms, times the Jacobian, as in R2Spec. *)
Definition third_contravariant (r t : R) : vec := scal (flux_derivative r) (third_along r t).
Definition third_covariant (r t : R) : vec :=
  let beta := r * s_beta_1s s * sin t in
  let I := r ^ 2 * i_I2 (j_r1 i) in
  let G := a_G0 a + r ^ 2 * (s_G2 s - IZR (i_helicity (j_r1 i)) * IZR (i_nfp (j_r1 i)) * i_I2 (j_r1 i)) in
  vadd (scal (beta * flux_derivative r) (cross (third_theta r t) (third_varphi r t)))
    (vadd (scal I (cross (third_varphi r t) (third_r r t))) (scal G (cross (third_r r t) (third_theta r t)))).
(** The component along the axis of the difference between the two forms, divided by r^3, has mean zero over theta at r = 0: it is a
    combination of cos 2theta and sin 2theta, without a constant. *)
Definition no_mean_third : Prop := exists C S, forall t,
  order 4 (fun r => vz (third_contravariant r t) - vz (third_covariant r t) - r ^ 3 * (C * cos (2 * t) + S * sin (2 * t))).
End Third.
