(** Properties of the magnetic axis: C50 (frame of Frenet), C51 (arclength and Boozer angle),
    C06 (padding of the coefficients), C31 (the crude filter on R0). *)
From Coq Require Import String ZArith Reals List Arith Lia Lra Psatz.
From Verif Require Import Base BaseFacts FloatOps MathOps MathFacts Tensor ScanFacts Diff DiffFacts Helicity HelicitySpec HelicityFacts Curve Axis AxisSpec AxisFacts.
From Verif Require TomlSpec TomlFacts Toml Properties_Diff Scan NewtonFacts.
Import ListNotations.
Local Open Scope list_scope.
Local Open Scope R_scope.

(** The vectors the program stores in cylindrical components. *)
Definition tangent (a : axis R) (j : nat) : vec := cyl (a_phi a j) (V (a_tangent1 a j) (a_tangent2 a j) (a_tangent3 a j)).
Definition normal (a : axis R) (j : nat) : vec := cyl (a_phi a j) (V (a_normal1 a j) (a_normal2 a j) (a_normal3 a j)).
Definition binormal (a : axis R) (j : nat) : vec := cyl (a_phi a j) (V (a_binormal1 a j) (a_binormal2 a j) (a_binormal3 a j)).

Definition vel (i : axis_input R) : R -> vec :=
  let w := IZR (ai_nfp i) in let M := length (ai_R0c i) in
  fun x => cyl x (V (tp1 w M (cf (ai_R0c i)) (cf (ai_R0s i)) x) (tp w M (cf (ai_R0c i)) (cf (ai_R0s i)) x) (tp1 w M (cf (ai_Z0c i)) (cf (ai_Z0s i)) x)).
Definition acc (i : axis_input R) : R -> vec :=
  let w := IZR (ai_nfp i) in let M := length (ai_R0c i) in
  fun x => cyl x (V (tp2 w M (cf (ai_R0c i)) (cf (ai_R0s i)) x - tp w M (cf (ai_R0c i)) (cf (ai_R0s i)) x)
    (2 * tp1 w M (cf (ai_R0c i)) (cf (ai_R0s i)) x) (tp2 w M (cf (ai_Z0c i)) (cf (ai_Z0s i)) x)).
Definition jerk (i : axis_input R) : R -> vec :=
  let w := IZR (ai_nfp i) in let M := length (ai_R0c i) in
  fun x => cyl x (V (tp3 w M (cf (ai_R0c i)) (cf (ai_R0s i)) x - 3 * tp1 w M (cf (ai_R0c i)) (cf (ai_R0s i)) x)
    (3 * tp2 w M (cf (ai_R0c i)) (cf (ai_R0s i)) x - tp w M (cf (ai_R0c i)) (cf (ai_R0s i)) x) (tp3 w M (cf (ai_Z0c i)) (cf (ai_Z0s i)) x)).
Lemma vel_ok i x : axis_ok i -> vderiv (position i) x (vel i x).
Proof.
  intros H. destruct H. unfold position, vel.
  set (w := IZR (ai_nfp i)). set (M := length (ai_R0c i)) in *.
  pose proof (vderiv_cyl (fun t => V (tp w M (cf (ai_R0c i)) (cf (ai_R0s i)) t) 0 (tp w M (cf (ai_Z0c i)) (cf (ai_Z0s i)) t)) x
    (V (tp1 w M (cf (ai_R0c i)) (cf (ai_R0s i)) x) 0 (tp1 w M (cf (ai_Z0c i)) (cf (ai_Z0s i)) x))) as P.
  cbn [vx vy vz] in P. rewrite Rminus_0_r, Rplus_0_l in P.
  assert (E : forall t, V (series (ai_nfp i) (ai_R0c i) (ai_R0s i) t) 0 (series (ai_nfp i) (ai_Z0c i) (ai_Z0s i) t)
    = V (tp w M (cf (ai_R0c i)) (cf (ai_R0s i)) t) 0 (tp w M (cf (ai_Z0c i)) (cf (ai_Z0s i)) t)).
  { intros t. rewrite !(series_tp _ _ _ M) by (unfold M; lia). reflexivity. }
  destruct P as (P1 & P2 & P3).
  { split; [|split]; cbn [vx vy vz]; try apply tp_d1. apply derivable_pt_lim_const. }
  repeat split; (eapply dlim_ext; [intros t; cbv beta; rewrite E; reflexivity|]); assumption.
Qed.
Lemma acc_ok i x : vderiv (vel i) x (acc i x).
Proof.
  unfold vel, acc. set (w := IZR (ai_nfp i)). set (M := length (ai_R0c i)) in *.
  pose proof (vderiv_cyl (fun x => V (tp1 w M (cf (ai_R0c i)) (cf (ai_R0s i)) x) (tp w M (cf (ai_R0c i)) (cf (ai_R0s i)) x) (tp1 w M (cf (ai_Z0c i)) (cf (ai_Z0s i)) x)) x
    (V (tp2 w M (cf (ai_R0c i)) (cf (ai_R0s i)) x) (tp1 w M (cf (ai_R0c i)) (cf (ai_R0s i)) x) (tp2 w M (cf (ai_Z0c i)) (cf (ai_Z0s i)) x))) as P.
  cbn [vx vy vz] in P.
  replace (2 * tp1 w M (cf (ai_R0c i)) (cf (ai_R0s i)) x) with (tp1 w M (cf (ai_R0c i)) (cf (ai_R0s i)) x + tp1 w M (cf (ai_R0c i)) (cf (ai_R0s i)) x) by ring.
  apply P. split; [|split]; cbn [vx vy vz]; auto using tp_d1, tp_d2.
Qed.
Lemma jerk_ok i x : vderiv (acc i) x (jerk i x).
Proof.
  unfold acc, jerk. set (w := IZR (ai_nfp i)). set (M := length (ai_R0c i)) in *.
  set (f := tp w M (cf (ai_R0c i)) (cf (ai_R0s i))). set (f1 := tp1 w M (cf (ai_R0c i)) (cf (ai_R0s i))).
  set (f2 := tp2 w M (cf (ai_R0c i)) (cf (ai_R0s i))). set (f3 := tp3 w M (cf (ai_R0c i)) (cf (ai_R0s i))).
  pose proof (vderiv_cyl (fun x => V (f2 x - f x) (2 * f1 x) (tp2 w M (cf (ai_Z0c i)) (cf (ai_Z0s i)) x)) x
    (V (f3 x - f1 x) (2 * f2 x) (tp3 w M (cf (ai_Z0c i)) (cf (ai_Z0s i)) x))) as P.
  cbn [vx vy vz] in P.
  replace (f3 x - 3 * f1 x) with (f3 x - f1 x - 2 * f1 x) by ring. replace (3 * f2 x - f x) with (2 * f2 x + (f2 x - f x)) by ring.
  apply P. split; [|split]; cbn [vx vy vz].
  - apply dlim_minus; [apply tp_d3|apply tp_d1].
  - apply (derivable_pt_lim_scal f1). apply tp_d2.
  - apply tp_d3.
Qed.

(** C50.  Let r(phi) be the axis curve.  At every grid point: the program's angle, R and Z
    are those of the curve; d_l_d_phi is the speed |r'|; and, when it is not zero, the
    tangent is the unit tangent, the curvature is |r' x r''| / |r'|^3.  Where the curvature is
    not zero, tangent, normal and binormal are orthonormal and right handed, and the equations
    of Frenet and Serret hold for the derivatives along the curve, with the program's
    curvature and torsion. *)
Theorem frenet_frame : forall i, axis_ok i ->
  exists a h (r1 r2 r3 : R -> vec), init_axis R_ops R_math Rge0 i = Ok (a, h) /\
  (forall x, vderiv (position i) x (r1 x)) /\ (forall x, vderiv r1 x (r2 x)) /\ (forall x, vderiv r2 x (r3 x)) /\
  forall j, (j < ai_nphi i)%nat ->
  let x := grid_phi i j in let t := tangent a j in let n := normal a j in let b := binormal a j in
  let dl := a_d_l_d_phi a j in let k := a_curvature a j in let tau := a_torsion a j in
  a_phi a j = x /\ a_R0 a j = series (ai_nfp i) (ai_R0c i) (ai_R0s i) x /\ a_Z0 a j = series (ai_nfp i) (ai_Z0c i) (ai_Z0s i) x /\
  dl = norm (r1 x) /\
  (0 < dl ->
    t = unit (r1 x) /\ dot t t = 1 /\ 0 <= k /\ k = norm (cross (r1 x) (r2 x)) / (dl * dl * dl) /\
    (k <> 0 ->
      dot n n = 1 /\ dot t n = 0 /\ b = cross t n /\ dot b b = 1 /\
      let T := fun y => unit (r1 y) in let B := fun y => unit (cross (r1 y) (r2 y)) in
      T x = t /\ B x = b /\
      vderiv T x (scal (dl * k) n) /\
      vderiv (fun y => cross (B y) (T y)) x (vadd (scal (- (dl * k)) t) (scal (dl * tau) b)) /\
      vderiv B x (scal (- (dl * tau)) n))).
Proof.
  intros i H. destruct (init_axis_eq R_ops R_math Rge0 i H) as (d & s & _ & Es & E). cbv zeta in E.
  destruct (shape_values i (phi_grid R_ops (d_phi_of R_ops R_math i)) H) as (s' & Es' & P). rewrite Es in Es'. injection Es' as <-.
  set (a := frenet R_ops R_math i d (phi_grid R_ops (d_phi_of R_ops R_math i)) s) in *.
  eexists a, _, (vel i), (acc i), (jerk i). split; [exact E|]. clear E.
  split; [intros; apply vel_ok; auto|]. split; [intros; apply acc_ok|]. split; [intros; apply jerk_ok|].
  intros j Hj. cbv zeta in P. specialize (P j). rewrite phi_value in P by auto. destruct P as (P1 & P2 & P3 & P4 & P5 & P6 & P7 & P8). cbv zeta.
  assert (Ep : a_phi a j = grid_phi i j) by (apply phi_value; auto).
  set (x := grid_phi i j) in *. set (w := IZR (ai_nfp i)) in *. set (M := length (ai_R0c i)) in *.
  set (u := V (s_Rp s j) (s_R s j) (s_Zp s j)). set (q := V (s_Rpp s j - s_R s j) (2 * s_Rp s j) (s_Zpp s j)).
  set (g := V (s_Rppp s j - 3 * s_Rp s j) (3 * s_Rpp s j - s_R s j) (s_Zppp s j)).
  assert (Ev : vel i x = cyl x u) by (unfold vel, u; rewrite P1, P3, P4; reflexivity).
  assert (Ea : acc i x = cyl x q) by (unfold acc, q; rewrite P1, P3, P5, P6; reflexivity).
  assert (Eg : jerk i x = cyl x g) by (unfold jerk, g; rewrite P1, P3, P5, P7, P8; reflexivity).
  assert (El : a_d_l_d_phi a j = norm (vel i x)).
  { rewrite Ev, cyl_norm. unfold norm, dot, u. cbn. f_equal. ring. }
  split; [exact Ep|]. destruct H as [Hn Hf Hc L1 L2 L3 Hr].
  split; [change (a_R0 a j) with (s_R s j); rewrite P1; symmetry; apply series_tp; lia|].
  split; [change (a_Z0 a j) with (s_Z s j); rewrite P2; symmetry; apply series_tp; lia|].
  split; [exact El|]. intros Hs. rewrite El in Hs.
  set (v := vel i x) in *. set (c := acc i x) in *.
  set (dt := scal (/ (norm v * norm v)) (vadd (scal (- (dot v c / norm v) / norm v) v) c)).
  (* the program's d(tangent)/dl *)
  assert (Lu : norm u = norm v) by (rewrite Ev, cyl_norm; auto).
  assert (Edot : s_R s j * s_Rp s j + s_Rp s j * s_Rpp s j + s_Zp s j * s_Zpp s j = dot v c).
  { rewrite Ev, Ea, cyl_dot. unfold dot, u, q. cbn [vx vy vz]. ring. }
  set (dtc := scal (/ (norm v * norm v)) (vadd (scal (- (dot v c / norm v) / norm v) u) q)).
  assert (Edt : dt = cyl x dtc).
  { unfold dtc. rewrite cyl_scal, cyl_add, cyl_scal, <- Ev, <- Ea. reflexivity. }
  assert (Ecomp : forall (dd ddd : nat -> R) e e', dd j = e -> ddd j = e' ->
    (- dd j * ((s_R s j * s_Rp s j + s_Rp s j * s_Rpp s j + s_Zp s j * s_Zpp s j) / a_d_l_d_phi a j) / a_d_l_d_phi a j + ddd j) / (a_d_l_d_phi a j * a_d_l_d_phi a j)
    = / (norm v * norm v) * (- (dot v c / norm v) / norm v * e + e')).
  { intros dd ddd e e' <- <-. rewrite Edot, El. fold v. field. lra. }
  assert (Ek : a_curvature a j = norm dt).
  { rewrite Edt, cyl_norm. unfold norm at 1, dot. unfold dtc, scal, vadd. cbn [vx vy vz].
    rewrite <- (Ecomp (s_Rp s) (fun j => s_Rpp s j - s_R s j) (vx u) (vx q) eq_refl eq_refl).
    rewrite <- (Ecomp (s_R s) (fun j => 2 * s_Rp s j) (vy u) (vy q) eq_refl eq_refl).
    rewrite <- (Ecomp (s_Zp s) (s_Zpp s) (vz u) (vz q) eq_refl eq_refl). reflexivity. }
  assert (Et : tangent a j = unit v).
  { unfold tangent, unit. rewrite Ep, <- Lu, Ev, <- cyl_scal. f_equal. unfold scal.
    change (V (s_Rp s j / a_d_l_d_phi a j) (s_R s j / a_d_l_d_phi a j) (s_Zp s j / a_d_l_d_phi a j) = V (/ norm u * s_Rp s j) (/ norm u * s_R s j) (/ norm u * s_Zp s j)).
    rewrite El, Lu. unfold Rdiv. apply veq; apply Rmult_comm. }
  assert (Hss : norm v * norm v = dot v v) by apply norm_sq.
  split; [exact Et|]. split.
  { rewrite Et. unfold unit. unfold dot at 1. unfold scal. cbn [vx vy vz].
    transitivity (/ (norm v * norm v) * dot v v); [unfold dot; field; lra|]. rewrite <- Hss. field. lra. }
  split; [rewrite Ek; apply norm_nonneg|]. split; [rewrite Ek, El; apply dt_norm; auto|].
  intros Hk. rewrite Ek in Hk.
  assert (En : normal a j = scal (/ norm dt) dt).
  { unfold normal. rewrite Ep, Edt, cyl_norm, <- cyl_scal, <- (cyl_norm x dtc), <- Edt. f_equal.
    unfold scal at 1. unfold dtc at 1 2 3, vadd, scal. cbn [vx vy vz].
    rewrite <- (Ecomp (s_Rp s) (fun j => s_Rpp s j - s_R s j) (vx u) (vx q) eq_refl eq_refl).
    rewrite <- (Ecomp (s_R s) (fun j => 2 * s_Rp s j) (vy u) (vy q) eq_refl eq_refl).
    rewrite <- (Ecomp (s_Zp s) (s_Zpp s) (vz u) (vz q) eq_refl eq_refl). rewrite <- Ek.
    apply veq; rewrite Rmult_comm; reflexivity. }
  assert (Eb : binormal a j = cross (tangent a j) (normal a j)).
  { unfold tangent, normal. rewrite cyl_cross. reflexivity. }
  assert (Eb' : binormal a j = unit (cross v c)).
  { rewrite Eb, Et, En. apply binormal_eq; auto. }
  assert (Hc0 : 0 < norm (cross v c)) by (apply c_pos; auto).
  assert (Hnn : dot (normal a j) (normal a j) = 1) by (rewrite En; apply (normal_unit v c); auto).
  assert (Htn : dot (tangent a j) (normal a j) = 0).
  { rewrite Et, En. pose proof (dt_orth v c Hs) as O. fold dt in O. unfold unit, dot, scal in *. cbn [vx vy vz] in *.
    transitivity (/ norm v * / norm dt * (vx v * vx dt + vy v * vy dt + vz v * vz dt)); [ring|]. rewrite O. ring. }
  assert (Hbb : dot (binormal a j) (binormal a j) = 1).
  { rewrite Eb'. unfold unit, dot at 1, scal. cbn [vx vy vz]. pose proof (norm_sq (cross v c)) as Q.
    transitivity (/ (norm (cross v c) * norm (cross v c)) * dot (cross v c) (cross v c)); [unfold dot; field; lra|]. rewrite <- Q. field. lra. }
  assert (Etau : a_torsion a j = dot v (cross c (jerk i x)) / dot (cross v c) (cross v c)).
  { rewrite Eg. rewrite Ev, Ea, !cyl_cross, !cyl_dot. unfold u, q, g, cross, dot. cbn. f_equal; ring. }
  assert (DT : vderiv (fun y => unit (vel i y)) x (scal (a_d_l_d_phi a j * a_curvature a j) (normal a j))).
  { replace (scal (a_d_l_d_phi a j * a_curvature a j) (normal a j)) with (scal (norm v) dt).
    2:{ rewrite El, Ek, En. fold v. apply vec_eq; unfold scal; cbn [vx vy vz]; field; auto. }
    unfold dt. rewrite <- unit_deriv by auto. apply (vderiv_unit (vel i) x c Hs). apply acc_ok. }
  assert (DB : vderiv (fun y => unit (cross (vel i y) (acc i y))) x (scal (- (a_d_l_d_phi a j * a_torsion a j)) (normal a j))).
  { rewrite El, Etau, En. fold v. unfold dt. rewrite <- (binormal_deriv v c (jerk i x) Hs Hk).
    assert (D : vderiv (fun y => cross (vel i y) (acc i y)) x (cross v (jerk i x))).
    { pose proof (vderiv_cross (vel i) (acc i) x _ _ (acc_ok i x) (jerk_ok i x)) as D.
      replace (cross v (jerk i x)) with (vadd (cross (acc i x) (acc i x)) (cross (vel i x) (jerk i x))); [exact D|].
      fold v. apply vec_eq; unfold vadd, cross; cbn [vx vy vz]; ring. }
    apply (vderiv_unit (fun y => cross (vel i y) (acc i y)) x _ Hc0 D). }
  repeat (split; [first [assumption|symmetry; assumption]|]). split; [|exact DB].
  pose proof (vderiv_cross _ _ x _ _ DB DT) as D. cbv beta in D. fold v c in D. rewrite <- Eb', <- Et in D.
  replace (vadd (scal (- (a_d_l_d_phi a j * a_curvature a j)) (tangent a j)) (scal (a_d_l_d_phi a j * a_torsion a j) (binormal a j)))
    with (vadd (cross (scal (- (a_d_l_d_phi a j * a_torsion a j)) (normal a j)) (tangent a j)) (cross (binormal a j) (scal (a_d_l_d_phi a j * a_curvature a j) (normal a j)))); [exact D|].
  assert (Ttt : dot (tangent a j) (tangent a j) = 1).
  { rewrite Et. unfold unit. unfold dot at 1. unfold scal. cbn [vx vy vz].
    transitivity (/ (norm v * norm v) * dot v v); [unfold dot; field; lra|]. rewrite <- Hss. field. lra. }
  assert (X : cross (binormal a j) (normal a j) = scal (-1) (tangent a j)).
  { rewrite Eb. clear - Hnn Htn Ttt. destruct (tangent a j) as [t1 t2 t3], (normal a j) as [n1 n2 n3].
    unfold dot in Hnn, Htn. unfold cross, scal. cbn [vx vy vz] in *.
    apply veq.
    - transitivity ((t1 * n1 + t2 * n2 + t3 * n3) * n1 - (n1 * n1 + n2 * n2 + n3 * n3) * t1); [ring|rewrite Hnn, Htn; ring].
    - transitivity ((t1 * n1 + t2 * n2 + t3 * n3) * n2 - (n1 * n1 + n2 * n2 + n3 * n3) * t2); [ring|rewrite Hnn, Htn; ring].
    - transitivity ((t1 * n1 + t2 * n2 + t3 * n3) * n3 - (n1 * n1 + n2 * n2 + n3 * n3) * t3); [ring|rewrite Hnn, Htn; ring]. }
  pose proof (f_equal vx X) as X1. pose proof (f_equal vy X) as X2. pose proof (f_equal vz X) as X3.
  pose proof (f_equal vx Eb) as Y1. pose proof (f_equal vy Eb) as Y2. pose proof (f_equal vz Eb) as Y3.
  unfold cross, scal in X1, X2, X3, Y1, Y2, Y3. cbn [vx vy vz] in X1, X2, X3, Y1, Y2, Y3.
  set (dl := a_d_l_d_phi a j) in *. set (kk := a_curvature a j) in *. set (tau := a_torsion a j) in *.
  apply vec_eq; unfold vadd, scal; cbn [vx vy vz]; unfold cross; cbn [vx vy vz].
  - transitivity (dl * tau * (vy (tangent a j) * vz (normal a j) - vz (tangent a j) * vy (normal a j)) + dl * kk * (vy (binormal a j) * vz (normal a j) - vz (binormal a j) * vy (normal a j))); [ring|]. rewrite X1, <- Y1. ring.
  - transitivity (dl * tau * (vz (tangent a j) * vx (normal a j) - vx (tangent a j) * vz (normal a j)) + dl * kk * (vz (binormal a j) * vx (normal a j) - vx (binormal a j) * vz (normal a j))); [ring|]. rewrite X2, <- Y2. ring.
  - transitivity (dl * tau * (vx (tangent a j) * vy (normal a j) - vy (tangent a j) * vx (normal a j)) + dl * kk * (vx (binormal a j) * vy (normal a j) - vy (binormal a j) * vx (normal a j))); [ring|]. rewrite X3, <- Y3. ring.
Qed.
Print Assumptions frenet_frame.

(** A case: R = 1 + 0.1 cos 3 phi, Z = 0.1 sin 3 phi, on 5 points; at the first of them the speed
    and the curvature are not zero. *)
Definition ex_axis : axis_input R := mkAxisInput 5 3 [1; / 10] [0; 0] [0; 0] [0; / 10] 1 1 1.
Lemma ex_axis_ok : axis_ok ex_axis.
Proof. constructor; cbn; lia || auto. Qed.
Lemma sq_pos x y z : x < 0 -> 0 < x * x + y * y + z * z.
Proof. intros. pose proof (Rle_0_sqr y). pose proof (Rle_0_sqr z). unfold Rsqr in *. nra. Qed.
Lemma neg_div x y : x < 0 -> 0 < y -> x / y < 0.
Proof. intros Hx Hy. apply Rinv_0_lt_compat in Hy. unfold Rdiv. nra. Qed.
Example frenet_example : exists a h, init_axis R_ops R_math Rge0 ex_axis = Ok (a, h) /\ 0 < a_d_l_d_phi a 0%nat /\ a_curvature a 0%nat <> 0.
Proof.
  destruct (init_axis_eq R_ops R_math Rge0 ex_axis ex_axis_ok) as (d & s & _ & Es & E). cbv zeta in E. eexists _, _. split; [exact E|]. clear E.
  destruct (shape_values ex_axis (phi_grid R_ops (d_phi_of R_ops R_math ex_axis)) ex_axis_ok) as (s' & Es' & P). rewrite Es in Es'. injection Es' as <-.
  cbv zeta in P. specialize (P 0%nat). destruct P as (P1 & P2 & P3 & P4 & P5 & P6 & P7 & P8).
  unfold tp, tp1, tp2, tp3, tp, cf in *. cbn [ex_axis ai_nfp ai_R0c ai_R0s ai_Z0c ai_Z0s length fsum R_ops fadd fzero nth INR phi_grid] in *.
  rewrite ?Rmult_0_r, ?cos_0, ?sin_0 in *.
  cbn [frenet a_d_l_d_phi a_curvature R_ops R_math fadd fsub fmul fdiv fopp ftwo m_sqrt]. rewrite P1, P3, P4, P5, P6.
  set (l := sqrt _).
  assert (Hl : 0 < l) by (apply sqrt_lt_R0; lra).
  split; [exact Hl|]. apply Rgt_not_eq, sqrt_lt_R0.
  match goal with |- 0 < ?x * ?x + ?y * ?y + ?z * ?z => assert (Hx : x < 0); [|apply (sq_pos x y z Hx)] end.
  match goal with |- ?x / ?y < 0 => assert (Hx : x < 0); [|apply (neg_div x y); [exact Hx|apply Rmult_lt_0_compat; exact Hl]] end.
  match goal with |- ?x + ?y < 0 => replace x with 0; [lra|] end. unfold Rdiv. ring.
Qed.

(** The products of integers: for any arithmetic, init_axis is defined for every input with
    frequencies n * nfp up to 1290, and has undefined behaviour (overflow of int) when
    the largest one exceeds 1290. *)
Theorem init_axis_defined : forall {F} (o : fops F) (mo : mops F) ge0 (i : axis_input F), axis_ok i ->
  exists a h, init_axis o mo ge0 i = Ok (a, h).
Proof. intros F o mo ge0 i H. destruct (init_axis_eq o mo ge0 i H) as (d & s & _ & _ & E). eauto. Qed.
Print Assumptions init_axis_defined.
Theorem init_axis_overflow : forall {F} (o : fops F) (mo : mops F) ge0 (i : axis_input F),
  (1 <= ai_nphi i)%nat -> (1 <= ai_nfp i)%Z -> (1 <= length (ai_R0c i))%nat ->
  length (ai_R0s i) = length (ai_R0c i) -> length (ai_Z0c i) = length (ai_R0c i) -> length (ai_Z0s i) = length (ai_R0c i) ->
  (1290 < Z.of_nat (length (ai_R0c i) - 1) * ai_nfp i)%Z ->
  exists w, init_axis o mo ge0 i = UB w.
Proof.
  intros F o mo ge0 i Hn Hf L L1 L2 L3 Hb. unfold init_axis.
  destruct (matrix_ok o mo (ai_nphi i) (fzero o) (fdiv o (fmul o (ftwo o) (m_pi mo)) (m_of_Z mo (ai_nfp i))) Hn) as (d & -> & _). cbn [bind].
  destruct (shape_overflow o mo i (phi_grid o (d_phi_of o mo i))) as (w & ->); auto. exists w. reflexivity.
Qed.
Print Assumptions init_axis_overflow.
Example overflow_example : (1290 < Z.of_nat (length (repeat 0 131) - 1) * 10)%Z. Proof. cbn. lia. Qed.

(** The helicity that is stored counts the turns of the normal (C18), with the signs of the
    field and of the flux. *)
Theorem axis_helicity : forall {F} (o : fops F) (mo : mops F) ge0 (i : axis_input F) a h, axis_ok i -> init_axis o mo ge0 i = Ok (a, h) ->
  h = (ai_spsi i * ai_sG i * winding ge0 (combine (map (a_normal1 a) (seq 0 (ai_nphi i))) (map (a_normal3 a) (seq 0 (ai_nphi i)))))%Z.
Proof.
  intros F o mo ge0 i a h H E. destruct (init_axis_eq o mo ge0 i H) as (d & s & _ & _ & E'). cbv zeta in E'. rewrite E in E'. injection E' as -> ->. reflexivity.
Qed.
Print Assumptions axis_helicity.

(** C51.  |G0| / B0 is the mean of dl/dphi over the grid; G0 has the sign sG; the length of the
    axis is the sum of dl/dphi dphi over all field periods, 2 pi times the mean.  The Boozer
    angle starts at 0; its steps are those of the trapezoidal rule for the arclength, scaled so
    that the length of the axis is 2 pi; it increases when dl/dphi is positive, and the step that closes the
    field period brings it to 2 pi / nfp. *)
Theorem arclength : forall i a h, axis_ok i -> init_axis R_ops R_math Rge0 i = Ok (a, h) ->
  let N := ai_nphi i in let nfp := IZR (ai_nfp i) in let dl := a_d_l_d_phi a in
  (forall j, (j < N)%nat -> 0 < dl j) ->
  let step := fun j k => 2 * PI / a_axis_length a * ((dl j + dl k) / 2 * a_d_phi a) in
  a_d_phi a = 2 * PI / (nfp * INR N) /\
  a_abs_G0_over_B0 a = rsum N dl / INR N /\ a_B0_over_abs_G0 a * a_abs_G0_over_B0 a = 1 /\
  a_G0 a = IZR (ai_sG i) * a_abs_G0_over_B0 a * ai_B0 i /\
  a_axis_length a = nfp * rsum N (fun j => dl j * a_d_phi a) /\ a_axis_length a = 2 * PI * a_abs_G0_over_B0 a /\
  a_Boozer a 0%nat = 0 /\
  (forall j, (S j < N)%nat -> a_Boozer a (S j) = a_Boozer a j + step j (S j) /\ a_Boozer a j < a_Boozer a (S j)) /\
  a_Boozer a (N - 1)%nat + step (N - 1)%nat 0%nat = 2 * PI / nfp.
Proof.
  intros i a h H E. destruct (init_axis_eq R_ops R_math Rge0 i H) as (d & s & _ & _ & E'). cbv zeta in E'. rewrite E in E'.
  assert (Ea : a = frenet R_ops R_math i d (phi_grid R_ops (d_phi_of R_ops R_math i)) s) by congruence. clear E E'. cbv zeta. intros Hdl.
  destruct H as [Hn Hf _ _ _ _ _].
  assert (HN : INR (ai_nphi i) <> 0) by (apply not_0_INR; lia). assert (HF : 0 < IZR (ai_nfp i)) by (apply IZR_lt; lia).
  pose proof PI_RGT_0 as Hpi.
  assert (HS : 0 < rsum (ai_nphi i) (a_d_l_d_phi a)) by (apply rsum_pos; [lia|auto]).
  assert (Edp : a_d_phi a = 2 * PI / (IZR (ai_nfp i) * INR (ai_nphi i))).
  { rewrite Ea. change (a_d_phi (frenet R_ops R_math i d (phi_grid R_ops (d_phi_of R_ops R_math i)) s)) with (2 * PI / IZR (ai_nfp i * Z.of_nat (ai_nphi i))). rewrite mult_IZR, <- INR_IZR_INZ. reflexivity. }
  assert (HNp : 0 < INR (ai_nphi i)) by (apply lt_0_INR; lia).
  assert (Hdp : 0 < a_d_phi a).
  { rewrite Edp. apply Rdiv_lt_0_compat; [lra|]. apply Rmult_lt_0_compat; auto. }
  assert (Eg : a_B0_over_abs_G0 a = INR (ai_nphi i) / rsum (ai_nphi i) (a_d_l_d_phi a)).
  { transitivity (IZR (Z.of_nat (ai_nphi i)) / rsum (ai_nphi i) (a_d_l_d_phi a)); [rewrite Ea; reflexivity|]. rewrite <- INR_IZR_INZ. reflexivity. }
  assert (Eg' : a_abs_G0_over_B0 a = rsum (ai_nphi i) (a_d_l_d_phi a) / INR (ai_nphi i)).
  { transitivity (1 / a_B0_over_abs_G0 a); [rewrite Ea; reflexivity|]. rewrite Eg. field. split; lra. }
  assert (El : a_axis_length a = rsum (ai_nphi i) (a_d_l_d_phi a) * a_d_phi a * IZR (ai_nfp i)) by (rewrite Ea; reflexivity).
  assert (HL : 0 < a_axis_length a) by (rewrite El; apply Rmult_lt_0_compat; [apply Rmult_lt_0_compat|]; assumption).
  split; [exact Edp|]. split; [exact Eg'|]. split; [rewrite Eg, Eg'; field; lra|]. split; [rewrite Ea; reflexivity|].
  split; [rewrite rsum_scal_r, El; ring|]. split; [rewrite El, Eg', Edp; field; lra|].
  set (c := / 2 * a_d_phi a * 2 * PI / a_axis_length a).
  set (hm := fix hm j := match j with O => 0 | S j' => hm j' + (a_d_l_d_phi a j' + a_d_l_d_phi a (S j')) end).
  assert (Eb : forall j, a_Boozer a j = hm j * c).
  { intros j. transitivity (hm j * (1 / 2 * a_d_phi a * 2 * PI / a_axis_length a)); [unfold hm; rewrite Ea; reflexivity|]. unfold c. f_equal. field. lra. }
  split; [rewrite Eb; cbn; ring|]. split.
  - intros j Hj. rewrite !Eb. change (hm (S j)) with (hm j + (a_d_l_d_phi a j + a_d_l_d_phi a (S j))).
    assert (Es : (hm j + (a_d_l_d_phi a j + a_d_l_d_phi a (S j))) * c = hm j * c + 2 * PI / a_axis_length a * ((a_d_l_d_phi a j + a_d_l_d_phi a (S j)) / 2 * a_d_phi a)) by (unfold c; field; lra).
    split; [exact Es|]. rewrite Es. pose proof (Hdl j). pose proof (Hdl (S j)).
    assert (0 < 2 * PI / a_axis_length a * ((a_d_l_d_phi a j + a_d_l_d_phi a (S j)) / 2 * a_d_phi a)); [|lra].
    apply Rmult_lt_0_compat; [apply Rdiv_lt_0_compat; lra|]. apply Rmult_lt_0_compat; [|auto]. assert (0 < a_d_l_d_phi a j) by (apply H; lia). assert (0 < a_d_l_d_phi a (S j)) by (apply H0; lia). lra.
  - rewrite Eb. assert (Eh : forall m, hm m + a_d_l_d_phi a m + a_d_l_d_phi a 0%nat = 2 * rsum (S m) (a_d_l_d_phi a)).
    { induction m as [|m IH]; [cbn; ring|]. rewrite rsum_S. change (hm (S m)) with (hm m + (a_d_l_d_phi a m + a_d_l_d_phi a (S m))). lra. }
    specialize (Eh (ai_nphi i - 1)%nat). replace (S (ai_nphi i - 1)) with (ai_nphi i) in Eh by lia.
    assert (Eh' : hm (ai_nphi i - 1)%nat = 2 * rsum (ai_nphi i) (a_d_l_d_phi a) - a_d_l_d_phi a (ai_nphi i - 1)%nat - a_d_l_d_phi a 0%nat) by lra.
    rewrite Eh'. unfold c. rewrite El. field. lra.
Qed.
Print Assumptions arclength.

(** The matrix d_d_varphi differentiates with respect to the Boozer angle: applied to the values
    on the grid of a trigonometric polynomial of degree below nphi / 2 with the period of the
    axis, it gives df/dphi / (dvarphi/dphi) at every grid point, where dvarphi/dphi is
    (dl/dphi) / (|G0|/B0). *)
Theorem boozer_derivative : forall i a h M c s, axis_ok i -> init_axis R_ops R_math Rge0 i = Ok (a, h) ->
  (forall m, (m < M)%nat -> (2 * m < ai_nphi i)%nat) ->
  let f := Properties_Diff.trig (2 * PI / IZR (ai_nfp i)) M c s in
  exists f', (forall x, derivable_pt_lim f x (f' x)) /\
  forall j, (j < ai_nphi i)%nat ->
    rsum (ai_nphi i) (fun k => a_d_d_varphi a j k * f (a_phi a k)) = f' (a_phi a j) / (a_B0_over_abs_G0 a * a_d_l_d_phi a j).
Proof.
  intros i a h M c s H E HM f. destruct (init_axis_eq R_ops R_math Rge0 i H) as (d & sh & Ed & _ & E'). cbv zeta in E'. rewrite E in E'.
  assert (Ea : a = frenet R_ops R_math i d (phi_grid R_ops (d_phi_of R_ops R_math i)) sh) by congruence. clear E E'.
  assert (HF : 0 < IZR (ai_nfp i)) by (destruct H; apply IZR_lt; lia). pose proof PI_RGT_0 as Hpi.
  assert (HN : 0 < INR (ai_nphi i)) by (destruct H; apply lt_0_INR; lia).
  assert (Hlen : 0 < 2 * PI / IZR (ai_nfp i)) by (apply Rdiv_lt_0_compat; lra).
  destruct (Properties_Diff.differentiation_exact (ai_nphi i) 0 (2 * PI / IZR (ai_nfp i)) M c s) as (D & f' & ED & Hd & P); [destruct H; auto|auto|auto|].
  rewrite Rminus_0_r in *. fold f in Hd, P. exists f'. split; [exact Hd|].
  assert (D = d). { change (differentiation_matrix R_ops R_math (ai_nphi i) 0 (2 * PI / IZR (ai_nfp i)) = Ok d) in Ed. congruence. } subst D.
  destruct (matrix_ok R_ops R_math (ai_nphi i) 0 (2 * PI / IZR (ai_nfp i)) ltac:(destruct H; auto)) as (D & ED' & Hm & _). assert (D = d) by congruence. subst D.
  intros j Hj.
  assert (Gk : forall k, (k < ai_nphi i)%nat -> nth k (Properties_Diff.grid (ai_nphi i) 0 (2 * PI / IZR (ai_nfp i))) 0 = a_phi a k).
  { intros k Hk. transitivity (grid_phi i k); [|rewrite Ea; symmetry; apply (phi_value i k H)]. unfold Properties_Diff.grid.
    rewrite (nth_indep _ _ (0 + INR 0 * ((2 * PI / IZR (ai_nfp i) - 0) / INR (ai_nphi i)))) by (rewrite map_length, seq_length; auto).
    rewrite (map_nth (fun j => 0 + INR j * ((2 * PI / IZR (ai_nfp i) - 0) / INR (ai_nphi i)))), seq_nth by auto. unfold grid_phi. cbn [Nat.add]. field. lra. }
  assert (Lg : length (Properties_Diff.grid (ai_nphi i) 0 (2 * PI / IZR (ai_nfp i))) = ai_nphi i) by (unfold Properties_Diff.grid; rewrite map_length, seq_length; auto).
  rewrite (product_ok R_ops (ai_nphi i) d) in P by (auto; rewrite map_length; auto). injection P as P.
  apply (f_equal (fun l => nth j l 0)) in P.
  rewrite (nth_indep _ 0 (rsum (ai_nphi i) (fun k => rentry d 0%nat k * nth k (map f (Properties_Diff.grid (ai_nphi i) 0 (2 * PI / IZR (ai_nfp i)))) 0))) in P by (rewrite map_length, seq_length; auto).
  rewrite (map_nth (fun j => rsum (ai_nphi i) (fun k => rentry d j k * nth k (map f (Properties_Diff.grid (ai_nphi i) 0 (2 * PI / IZR (ai_nfp i)))) 0))), seq_nth in P by auto. cbn [Nat.add] in P.
  rewrite (nth_indep (map f' _) 0 (f' 0)) in P by (rewrite map_length, Lg; auto). rewrite map_nth, Gk in P by auto. rewrite <- P. unfold Rdiv at 1. rewrite <- rsum_scal_r. apply rsum_ext. intros k Hk.
  rewrite (nth_indep (map f _) 0 (f 0)) by (rewrite map_length, Lg; auto). rewrite map_nth, Gk by auto.
  transitivity (rentry d j k / (a_B0_over_abs_G0 a * a_d_l_d_phi a j) * f (a_phi a k)); [rewrite Ea; reflexivity|]. unfold Rdiv. ring.
Qed.
Print Assumptions boozer_derivative.

(** Statistics of the axis: minima and maxima bound every value on the grid and are attained;
    the means weighted with the arclength lie between the smallest and the largest value; the
    root mean square of the curvature is at most the largest; and a standard deviation of zero
    means that the quantity is constant. *)
Definition arc_mean (N : nat) (dl f : nat -> R) : R := rsum N (fun j => f j * dl j) / rsum N dl.
Lemma arc_mean_le N dl f b : (0 < N)%nat -> (forall j, (j < N)%nat -> 0 < dl j) -> (forall j, (j < N)%nat -> f j <= b) -> arc_mean N dl f <= b.
Proof.
  intros HN Hd Hf. assert (HS : 0 < rsum N dl) by (apply rsum_pos; auto). unfold arc_mean. apply Rmult_le_reg_r with (rsum N dl); [auto|].
  unfold Rdiv. rewrite Rmult_assoc, Rinv_l, Rmult_1_r by lra. rewrite <- rsum_scal. apply rsum_le. intros j Hj. apply Rmult_le_compat_r; [left; auto|auto].
Qed.
Lemma arc_mean_ge N dl f b : (0 < N)%nat -> (forall j, (j < N)%nat -> 0 < dl j) -> (forall j, (j < N)%nat -> b <= f j) -> b <= arc_mean N dl f.
Proof.
  intros HN Hd Hf. assert (HS : 0 < rsum N dl) by (apply rsum_pos; auto). unfold arc_mean. apply Rmult_le_reg_r with (rsum N dl); [auto|].
  unfold Rdiv. rewrite Rmult_assoc, Rinv_l, Rmult_1_r by lra. rewrite <- rsum_scal. apply rsum_le. intros j Hj. apply Rmult_le_compat_r; [left; auto|auto].
Qed.
Lemma arc_mean_zero N dl f : (0 < N)%nat -> (forall j, (j < N)%nat -> 0 < dl j) -> (forall j, (j < N)%nat -> 0 <= f j) -> arc_mean N dl f = 0 ->
  forall j, (j < N)%nat -> f j = 0.
Proof.
  intros HN Hd Hf E j Hj. assert (HS : 0 < rsum N dl) by (apply rsum_pos; auto).
  assert (Z : rsum N (fun j => f j * dl j) = 0).
  { unfold arc_mean in E. apply (f_equal (fun x => x * rsum N dl)) in E. unfold Rdiv in E. rewrite Rmult_assoc, Rinv_l, Rmult_1_r, Rmult_0_l in E by lra. exact E. }
  assert (L : f j * dl j <= rsum N (fun j => f j * dl j)).
  { replace (f j * dl j) with (rsum N (fun k => if Nat.eq_dec k j then f j * dl j else 0)).
    2:{ rewrite (rsum_single N _ j Hj); [destruct (Nat.eq_dec j j); [auto|contradiction]|]. intros k _ Hk. destruct (Nat.eq_dec k j); [contradiction|auto]. }
    apply rsum_le. intros k Hk. destruct (Nat.eq_dec k j) as [->|]; [lra|]. specialize (Hf k Hk). specialize (Hd k Hk). nra. }
  specialize (Hf j Hj). specialize (Hd j Hj). nra.
Qed.
Theorem axis_statistics : forall i a h, axis_ok i -> init_axis R_ops R_math Rge0 i = Ok (a, h) ->
  let N := ai_nphi i in let dl := a_d_l_d_phi a in
  (forall j, (j < N)%nat -> a_grid_min_R0 a <= a_R0 a j) /\ (exists j, (j < N)%nat /\ a_grid_min_R0 a = a_R0 a j) /\
  (forall j, (j < N)%nat -> a_curvature a j <= a_grid_max_curvature a) /\ (exists j, (j < N)%nat /\ a_grid_max_curvature a = a_curvature a j) /\
  ((forall j, (j < N)%nat -> 0 < dl j) ->
    a_mean_R a = arc_mean N dl (a_R0 a) /\ a_mean_Z a = arc_mean N dl (a_Z0 a) /\
    a_grid_min_R0 a <= a_mean_R a /\
    a_standard_deviation_of_R a = sqrt (arc_mean N dl (fun j => (a_R0 a j - a_mean_R a) * (a_R0 a j - a_mean_R a))) /\
    a_standard_deviation_of_Z a = sqrt (arc_mean N dl (fun j => (a_Z0 a j - a_mean_Z a) * (a_Z0 a j - a_mean_Z a))) /\
    (a_standard_deviation_of_R a = 0 <-> forall j, (j < N)%nat -> a_R0 a j = a_mean_R a) /\
    (a_standard_deviation_of_Z a = 0 <-> forall j, (j < N)%nat -> a_Z0 a j = a_mean_Z a) /\
    a_rms_curvature a = sqrt (arc_mean N dl (fun j => a_curvature a j * a_curvature a j)) /\
    0 <= a_rms_curvature a <= a_grid_max_curvature a).
Proof.
  intros i a h H E. destruct (init_axis_eq R_ops R_math Rge0 i H) as (d & s & _ & _ & E'). cbv zeta in E'. rewrite E in E'.
  assert (Ea : a = frenet R_ops R_math i d (phi_grid R_ops (d_phi_of R_ops R_math i)) s) by congruence. clear E E'. cbv zeta.
  destruct H as [Hn Hf _ _ _ _ _].
  assert (Hmin : a_grid_min_R0 a = fmin R_ops (ai_nphi i - 1) (a_R0 a)) by (rewrite Ea; reflexivity).
  assert (Hmax : a_grid_max_curvature a = fmax R_ops (ai_nphi i - 1) (a_curvature a)) by (rewrite Ea; reflexivity).
  assert (Hk0 : forall j, 0 <= a_curvature a j) by (intros j; rewrite Ea; apply sqrt_pos).
  assert (L1 : forall j, (j < ai_nphi i)%nat -> a_grid_min_R0 a <= a_R0 a j) by (intros j Hj; rewrite Hmin; apply fmin_le; lia).
  assert (L2 : forall j, (j < ai_nphi i)%nat -> a_curvature a j <= a_grid_max_curvature a) by (intros j Hj; rewrite Hmax; apply fmax_ge; lia).
  split; [exact L1|]. split; [destruct (fmin_in (ai_nphi i - 1) (a_R0 a)) as (k & Hk & Ek); exists k; split; [lia|congruence]|].
  split; [exact L2|]. split; [destruct (fmax_in (ai_nphi i - 1) (a_curvature a)) as (k & Hk & Ek); exists k; split; [lia|congruence]|].
  intros Hdl.
  assert (HF : 0 < IZR (ai_nfp i)) by (apply IZR_lt; lia). pose proof PI_RGT_0 as Hpi.
  assert (HNp : 0 < INR (ai_nphi i)) by (apply lt_0_INR; lia).
  assert (HS : 0 < rsum (ai_nphi i) (a_d_l_d_phi a)) by (apply rsum_pos; [lia|auto]).
  assert (Hdp : 0 < a_d_phi a).
  { rewrite Ea. change (0 < 2 * PI / IZR (ai_nfp i * Z.of_nat (ai_nphi i))). rewrite mult_IZR, <- INR_IZR_INZ. apply Rdiv_lt_0_compat; [lra|]. apply Rmult_lt_0_compat; auto. }
  assert (El : a_axis_length a = rsum (ai_nphi i) (a_d_l_d_phi a) * a_d_phi a * IZR (ai_nfp i)) by (rewrite Ea; reflexivity).
  assert (Mean : forall f, rsum (ai_nphi i) (fun j => f j * a_d_l_d_phi a j) * a_d_phi a * IZR (ai_nfp i) / a_axis_length a = arc_mean (ai_nphi i) (a_d_l_d_phi a) f).
  { intros f. rewrite El. unfold arc_mean. field. lra. }
  assert (ER : a_mean_R a = arc_mean (ai_nphi i) (a_d_l_d_phi a) (a_R0 a)) by (rewrite <- Mean; rewrite Ea; reflexivity).
  assert (EZ : a_mean_Z a = arc_mean (ai_nphi i) (a_d_l_d_phi a) (a_Z0 a)) by (rewrite <- Mean; rewrite Ea; reflexivity).
  assert (EsR : a_standard_deviation_of_R a = sqrt (arc_mean (ai_nphi i) (a_d_l_d_phi a) (fun j => (a_R0 a j - a_mean_R a) * (a_R0 a j - a_mean_R a)))) by (rewrite <- Mean; rewrite Ea; reflexivity).
  assert (EsZ : a_standard_deviation_of_Z a = sqrt (arc_mean (ai_nphi i) (a_d_l_d_phi a) (fun j => (a_Z0 a j - a_mean_Z a) * (a_Z0 a j - a_mean_Z a)))) by (rewrite <- Mean; rewrite Ea; reflexivity).
  assert (Erms : a_rms_curvature a = sqrt (arc_mean (ai_nphi i) (a_d_l_d_phi a) (fun j => a_curvature a j * a_curvature a j))) by (rewrite <- Mean; rewrite Ea; reflexivity).
  assert (SD : forall f m, sqrt (arc_mean (ai_nphi i) (a_d_l_d_phi a) (fun j => (f j - m) * (f j - m))) = 0 <-> forall j, (j < ai_nphi i)%nat -> f j = m).
  { intros f m. assert (P : 0 <= arc_mean (ai_nphi i) (a_d_l_d_phi a) (fun j => (f j - m) * (f j - m))).
    { apply arc_mean_ge; [lia|auto|]. intros j _. pose proof (Rle_0_sqr (f j - m)). unfold Rsqr in *. auto. }
    split.
    - intros Q j Hj. apply sqrt_eq_0 in Q; [|auto].
      assert (Z : (f j - m) * (f j - m) = 0).
      { apply (arc_mean_zero (ai_nphi i) (a_d_l_d_phi a) (fun j => (f j - m) * (f j - m))); [lia|auto| |auto|auto]. intros k _. pose proof (Rle_0_sqr (f k - m)). unfold Rsqr in *. auto. }
      nra.
    - intros Q. rewrite <- sqrt_0. f_equal. unfold arc_mean. rewrite rsum_zero; [unfold Rdiv; ring|]. intros k Hk. rewrite (Q k Hk). ring. }
  split; [exact ER|]. split; [exact EZ|]. split; [rewrite ER; apply arc_mean_ge; [lia|auto|auto]|]. split; [exact EsR|]. split; [exact EsZ|].
  split; [rewrite EsR; apply SD|]. split; [rewrite EsZ; apply SD|]. split; [exact Erms|].
  rewrite Erms. split; [apply sqrt_pos|].
  assert (Hm : 0 <= a_grid_max_curvature a) by (eapply Rle_trans; [apply (Hk0 0%nat)|apply L2; lia]).
  rewrite <- (sqrt_square (a_grid_max_curvature a)) by auto. apply sqrt_le_1_alt. apply arc_mean_le; [lia|auto|].
  intros j Hj. apply Rmult_le_compat; auto.
Qed.
Print Assumptions axis_statistics.

(** C06.  Padding the coefficients to a common length keeps those that were given, adds zeros, and
    leaves the curve (R and Z at every angle, and so every derivative) unchanged. *)
Theorem padding_harmless : forall c : Toml.axis_coeffs R, exists c', Toml.pad_axis 0 c = Ok c' /\
  let n := Nat.max (Nat.max (length (Toml.R0c c)) (length (Toml.R0s c))) (Nat.max (length (Toml.Z0c c)) (length (Toml.Z0s c))) in
  (forall get, In get [@Toml.R0c R; @Toml.R0s R; @Toml.Z0c R; @Toml.Z0s R] ->
     length (get c') = n /\ (forall k, (k < length (get c))%nat -> nth_error (get c') k = nth_error (get c) k) /\
     (forall k, (length (get c) <= k < n)%nat -> nth_error (get c') k = Some 0)) /\
  forall nfp phi, series nfp (Toml.R0c c') (Toml.R0s c') phi = series nfp (Toml.R0c c) (Toml.R0s c) phi /\
    series nfp (Toml.Z0c c') (Toml.Z0s c') phi = series nfp (Toml.Z0c c) (Toml.Z0s c) phi /\
    (forall l, derivable_pt_lim (series nfp (Toml.R0c c') (Toml.R0s c')) phi l <-> derivable_pt_lim (series nfp (Toml.R0c c) (Toml.R0s c)) phi l) /\
    (forall l, derivable_pt_lim (series nfp (Toml.Z0c c') (Toml.Z0s c')) phi l <-> derivable_pt_lim (series nfp (Toml.Z0c c) (Toml.Z0s c)) phi l).
Proof.
  intros c. rewrite TomlFacts.pad_axis_ok. eexists. split; [reflexivity|]. cbv zeta.
  replace (Nat.max (Nat.max (length (Toml.R0c c)) (length (Toml.R0s c))) (Nat.max (length (Toml.Z0c c)) (length (Toml.Z0s c)))) with (TomlSpec.max_len c) by (unfold TomlSpec.max_len; lia).
  set (n := TomlSpec.max_len c).
  assert (Ls : (length (Toml.R0c c) <= n)%nat /\ (length (Toml.R0s c) <= n)%nat /\ (length (Toml.Z0c c) <= n)%nat /\ (length (Toml.Z0s c) <= n)%nat) by (unfold n, TomlSpec.max_len; lia).
  destruct Ls as (G1 & G2 & G3 & G4).
  assert (NE : forall (l : list R) k, nth_error l k = if (k <? length l)%nat then Some (nth k l 0) else None).
  { intros l k. destruct (Nat.ltb_spec k (length l)); [apply nth_error_nth'; auto|apply nth_error_None; auto]. }
  assert (PL : forall l : list R, (length l <= n)%nat -> length (TomlSpec.padded 0 n l) = n /\
     (forall k, (k < length l)%nat -> nth_error (TomlSpec.padded 0 n l) k = nth_error l k) /\ (forall k, (length l <= k < n)%nat -> nth_error (TomlSpec.padded 0 n l) k = Some 0)).
  { intros l Hl. pose proof (TomlFacts.padded_length 0 n l Hl) as L. split; [exact L|]. split; intros k Hk; rewrite !NE, L, TomlFacts.padded_nth.
    - destruct (Nat.ltb_spec k n), (Nat.ltb_spec k (length l)); try lia. reflexivity.
    - destruct (Nat.ltb_spec k n); [|lia]. rewrite nth_overflow by lia. reflexivity. }
  split.
  { intros get [<-|[<-|[<-|[<-|[]]]]]; cbn [Toml.R0c Toml.R0s Toml.Z0c Toml.Z0s]; apply PL; auto. }
  assert (SE : forall l l' nfp t, (length l <= n)%nat -> (length l' <= n)%nat -> series nfp (TomlSpec.padded 0 n l) (TomlSpec.padded 0 n l') t = series nfp l l' t).
  { intros l l' nfp t Hl Hl'. rewrite !(series_tp nfp _ _ n) by (auto; rewrite TomlFacts.padded_length; auto). apply tp_ext. intros m _. unfold cf. rewrite !TomlFacts.padded_nth. auto. }
  cbn [Toml.R0c Toml.R0s Toml.Z0c Toml.Z0s]. intros nfp phi. split; [apply SE; auto|]. split; [apply SE; auto|].
  split; intros l; split; apply dlim_ext; intros t; rewrite SE; auto.
Qed.
Print Assumptions padding_harmless.
Example padding_example : Toml.pad_axis 0 (Toml.mkAxis [1; 2; 3] [4] [] [5; 6]) = Ok (Toml.mkAxis [1; 2; 3] [4; 0; 0] [0; 0; 0] [5; 6; 0]).
Proof. reflexivity. Qed.

(** C31.  The crude filter of the random scan rejects exactly the axes with R <= 0 at the angle 0
    or at half a field period; so a rejected axis has R <= 0 somewhere. *)
Theorem crude_filter : forall (nfp : Z) (s : Scan.sample R) (R0s : list R), (1 <= nfp)%Z ->
  (Scan.R0_crude_bad R_ops s = true <-> series nfp (Scan.s_R0c s) R0s 0 <= 0 \/ series nfp (Scan.s_R0c s) R0s (PI / IZR nfp) <= 0).
Proof.
  intros nfp s R0s Hf. assert (HF : 0 < IZR nfp) by (apply IZR_lt; lia). unfold Scan.R0_crude_bad.
  assert (S0 : forall l : list R, rsum (length l) (fun n => nth n l 0 * 1) = Scan.vsum R_ops l).
  { assert (G : forall l z, z + rsum (length l) (fun n => nth n l 0 * 1) = fold_left Rplus l z).
    { induction l as [|x l IH]; intros z; cbn [length fold_left]; [cbn; ring|]. rewrite rsum_first. cbn [nth]. rewrite <- IH. ring. }
    intros [|x l]; [reflexivity|]. cbn [length]. rewrite rsum_first. cbn [nth Scan.vsum R_ops fadd]. rewrite <- G. ring. }
  assert (S1 : forall l even z, Scan.half_period_sum R_ops even l z = z + (if even then 1 else -1) * rsum (length l) (fun n => nth n l 0 * cos (INR n * PI))).
  { induction l as [|x l IH]; intros even z; cbn [Scan.half_period_sum length]; [cbn; ring|]. rewrite IH, rsum_first. cbn [nth]. change (INR 0) with 0. rewrite Rmult_0_l, cos_0.
    rewrite (rsum_ext (length l) (fun k => nth k l 0 * cos (INR (S k) * PI)) (fun k => -1 * (nth k l 0 * cos (INR k * PI)))).
    - rewrite rsum_scal. destruct even; cbn [negb R_ops fadd fsub]; ring.
    - intros k _. rewrite S_INR, Rmult_plus_distr_r, Rmult_1_l, neg_cos. ring. }
  assert (E0 : series nfp (Scan.s_R0c s) R0s 0 = Scan.vsum R_ops (Scan.s_R0c s)).
  { unfold series. rewrite <- S0. rewrite (rsum_zero (length R0s)); [|intros k _; rewrite Rmult_0_r, sin_0; ring].
    rewrite (rsum_ext _ _ (fun n => nth n (Scan.s_R0c s) 0 * 1)); [ring|]. intros k _. rewrite Rmult_0_r, cos_0. ring. }
  assert (Sn : forall n, sin (INR n * PI) = 0).
  { intros n. apply sin_eq_0_1. exists (Z.of_nat n). rewrite <- INR_IZR_INZ. reflexivity. }
  assert (E1 : series nfp (Scan.s_R0c s) R0s (PI / IZR nfp) = Scan.half_period_sum R_ops true (Scan.s_R0c s) 0).
  { rewrite S1. unfold series. assert (A : forall n, INR n * IZR nfp * (PI / IZR nfp) = INR n * PI) by (intros n; field; lra).
    rewrite (rsum_zero (length R0s)); [|intros k _; rewrite A, Sn; ring]. 
    rewrite (rsum_ext _ _ (fun n => nth n (Scan.s_R0c s) 0 * cos (INR n * PI))); [ring|]. intros k _. rewrite A. ring. }
  rewrite E0, E1. cbn [R_ops fle fzero]. rewrite Bool.orb_true_iff. 
  split; intros [B|B]; [left|right|left|right]; try (apply NewtonFacts.Rleb_true; exact B); apply NewtonFacts.Rleb_true in B; exact B.
Qed.
Print Assumptions crude_filter.
(** For the whole attempt: whatever the filters, a sample that fails the check is rejected. *)
Corollary crude_rejected_sound : forall (nfp : Z) (s : Scan.sample R) (R0s : list R), (1 <= nfp)%Z ->
  Scan.R0_crude_bad R_ops s = true -> exists phi, series nfp (Scan.s_R0c s) R0s phi <= 0.
Proof. intros nfp s R0s Hf H. apply (crude_filter nfp s R0s Hf) in H. destruct H; eauto. Qed.
Print Assumptions crude_rejected_sound.
