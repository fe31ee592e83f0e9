(** Properties of the output file: C93 (the magnetic field), C94 (the second order), C95 (the radius of the singularity). *)
From Coq Require Import String ZArith Reals Lra Arith Bool Lia List.
From Verif Require Import Base BaseFacts FloatOps MathOps MathFacts Tensor Newton Diff Curve Axis AxisSpec AxisFacts R1 R1Spec R1Facts R2 R2Spec R2Facts RSing RSingSpec GradGradB Alloc AllocSpec AllocFacts Toml TomlSpec TomlFacts
  Options OptionsSpec NetCDF NetCDFOut NetCDFNames NetCDFSpec NetCDFFacts NetCDFRead Properties_NetCDF Run RunSpec RunFacts RunFile RunView RunShown.
From Verif Require Import HelicityFacts ScanFacts Properties_Axis Properties_R1 Properties_R2 Order Properties_Field Properties_RSing Properties_Third Properties_GradGradB Properties_Run RunCase Properties_RunFile.
Import ListNotations.
Local Open Scope string_scope.
Local Open Scope R_scope.

Section File.
Variables (newton_tol mu0 : R) (newton_linear_solve : (nat -> nat -> R) -> list R -> outcome (list R))
  (linear_solve : matrix R -> list R -> outcome (list R)) (geev : list R -> Z * (list R * list R)) (tol : tolerances R) (finite : R -> bool).
Notation run := (Run.run R_ops R_math Rge0 newton_tol mu0 newton_linear_solve linear_solve geev tol finite).
Notation view_run := (view_run R_ops R_math Rge0 newton_tol mu0 newton_linear_solve linear_solve geev tol finite).

(** The second-order results that a file was written from. *)
Record second_results (f : file R) : Prop := Second {
  sr : exists ai a h sigma iota X20 Y20 g m b,
    let N := grid_points f in let v := at_grid f in
    let i := r2_config ai a h (number f "I2") (number f "eta_bar") (number f "sigma0") sigma iota (number f "p2") (number f "B2s") (number f "B2c") mu0 in
    let q := r1_diagnostics R_ops R_math (j_r1 i) sigma iota in let s := r2_from_solution R_ops R_math i X20 Y20 in
    (regular_file f -> regular ai a h (number f "eta_bar")) /\ ai_nphi ai = N /\ a_nphi a = N /\ (1 <= N)%nat /\
    ai_sG ai = whole R f "sG" /\ ai_spsi ai = whole R f "spsi" /\ ai_B0 ai = number f "B0" /\ ai_nfp ai = whole R f "nfp" /\ h = whole R f "helicity" /\ iota = number f "iota" /\
    a_G0 a = number f "G0" /\ a_abs_G0_over_B0 a = number f "d_l_d_varphi" /\ r_iota_N q = number f "iota_N" /\
    (forall j, (j < N)%nat -> a_curvature a j = v "curvature" j /\ a_torsion a j = v "torsion" j /\ a_d_l_d_phi a j = v "d_l_d_phi" j /\ sigma j = v "sigma" j /\
       r_X1c q j = v "X1c" j /\ r_Y1s q j = v "Y1s" j /\ r_Y1c q j = v "Y1c" j /\
       grid_derivative a (r_X1c q) j = v "d_X1c_d_varphi" j /\ grid_derivative a (r_Y1s q) j = v "d_Y1s_d_varphi" j /\ grid_derivative a (r_Y1c q) j = v "d_Y1c_d_varphi" j) /\
    show_numbers R_ops f (second_numbers R_ops R_math i s g) /\ show_vectors R_ops f N (second_vectors R_ops R_math i s) /\
    mat_ok (2 * N) (2 * N) m /\ length b = (2 * N)%nat /\ calculate_r2 R_ops R_math i linear_solve m b = Ok s /\ calculate_r_singularity R_ops R_math geev tol finite i s = Ok g /\
    (forall j, (j < N)%nat -> v "r_hat_singularity_robust" j = nth j (RSing.r_hat_singularity_robust g) 0) /\
    (whole R f "order_r2.1" = 1%Z -> let t := calculate_r2p1 R_ops R_math i s in show_numbers R_ops f (third_numbers t) /\ show_vectors R_ops f N (third_vectors R_ops i t)) /\
    (forall j p c, (j < N)%nat -> (p < 3)%nat -> (c < 3)%nat -> num R 0 f "grad_B_tensor" [c; p; j] = r_grad_B q j p c) /\
    (forall j p c l, (j < N)%nat -> (p < 3)%nat -> (c < 3)%nat -> (l < 3)%nat -> num R 0 f "grad_grad_B_tensor" [l; c; p; j] = grad_grad_B_tensor R_ops R_math i s j p c l) /\
    (forall j k, (j < N)%nat -> (k < N)%nat -> num R 0 f "d_d_varphi" [k; j] = a_d_d_varphi a j k) }.

Lemma r2_shape i m b s : calculate_r2 R_ops R_math i linear_solve m b = Ok s -> exists X20 Y20, s = r2_from_solution R_ops R_math i X20 Y20.
Proof.
  unfold calculate_r2. destruct (fill_matrix _ _ _ _) as [m'| |]; try discriminate. cbn [bind]. destruct (fill_rhs _ _ _ _) as [b'| |]; try discriminate. cbn [bind].
  destruct (linear_solve m' b') as [x| |]; try discriminate. cbn [bind]. intros E. injection E as <-. eexists _, _. reflexivity.
Qed.
Lemma second_view : forall e t st f, small_grid IZR t -> run e t = Ok (st, f) -> whole R f "at_least_order_r2" = 1%Z -> second_results f.
Proof.
  intros e t st f Hn H H2. destruct (view_run _ _ _ _ Hn H) as [s1 e1 sh a h x r u St Vs Va Vn Vu Vw Vf Vv Vsg Vc Vm (O1 & O2 & O3) V2 Vk _ _ Vt3 Vt4 _].
  assert (F2 : m_flag R e1 "at_least_order_r2" = true) by (destruct (m_flag R e1 "at_least_order_r2"); [reflexivity|rewrite O1 in H2; discriminate H2]).
  destruct (V2 F2) as (q2 & g & E2 & Eg & Sn & Sv & Sh & S3). clear V2. specialize (Vt4 F2 q2 E2).
  assert (HN : (0 < m_int R e1 "nphi")%Z) by (apply (ready_positive R_ops), (b_ready _ _ _ _ _ _ St)).
  set (q := r1_diagnostics R_ops R_math (first_input e1 a h) (fun j => nth j (u_sigma u) (fzero R_ops)) (u_iota u)) in *.
  assert (En : grid_points f = a_nphi a). { unfold grid_points. rewrite (Vw "nphi" (m_int R e1 "nphi")) by (unfold first_wholes; in_list). lia. }
  assert (Ev : forall y g, In (y, g) (first_vectors e1 sh a q u) -> forall j, (j < grid_points f)%nat -> at_grid f y j = g j) by (intros y g' Hi j Hj; apply Vv; [exact Hi|lia]).
  assert (Ef : forall y w, In (y, w) (first_numbers e1 a q u) -> number f y = w) by exact Vf.
  assert (Ew : forall y w, In (y, w) (first_wholes e1 h) -> whole R f y = w) by exact Vw.
  set (m := mkMatrix (2 * a_nphi a) (2 * a_nphi a) (2 * a_nphi a * (2 * a_nphi a)) (m_array R e1 "r2_matrix")) in *. set (b := m_array R e1 "r2_rhs") in *.
  assert (Sz : forall x k, In x ["r2_matrix"; "r2_rhs"] -> want (grid e1) x = Some k -> length (m_array R e1 x) = k).
  { intros y k Hx Hk.
    assert (Hq : exists s, required (m_flag R e1 "at_least_order_r2") (m_flag R e1 "order_r2p1") (m_flag R e1 "order_r3") (m_int R e1 "nphi") y s)
      by (rewrite F2; destruct Hx as [<-|[<-|[]]]; eexists; constructor; reflexivity).
    destruct Hq as (s & Hq). exact (ready_size R_ops e1 y s k (b_ready _ _ _ _ _ _ St) Hq Hk). }
  assert (Eg1 : grid e1 = a_nphi a) by (unfold grid; lia). rewrite Eg1 in Sz.
  assert (Hm : mat_ok (2 * a_nphi a) (2 * a_nphi a) m) by (split; [reflexivity|]; split; [reflexivity|]; exact (Sz "r2_matrix" _ ltac:(left; reflexivity) eq_refl)).
  assert (Hb : length b = (2 * a_nphi a)%nat) by exact (Sz "r2_rhs" _ ltac:(right; left; reflexivity) eq_refl).
  clearbody m b. destruct (r2_shape _ _ _ _ E2) as (X20 & Y20 & ->).
  assert (Ef2 : forall y w, In (y, w) (second_numbers R_ops R_math (second_input R_ops mu0 e1 a h u) (r2_from_solution R_ops R_math (second_input R_ops mu0 e1 a h u) X20 Y20) g) -> number f y = w) by exact Sn.
  assert (Ei : second_input R_ops mu0 e1 a h u = r2_config (axis_input_of e1) a h (number f "I2") (number f "eta_bar") (number f "sigma0") (fun j => nth j (u_sigma u) 0) (u_iota u) (number f "p2") (number f "B2s") (number f "B2c") mu0).
  { rewrite (Ef "I2" (m_float R e1 "I2")), (Ef "eta_bar" (m_float R e1 "eta_bar")), (Ef "sigma0" (m_float R e1 "sigma0")) by (unfold first_numbers; in_list).
    rewrite (Ef2 "p2" (m_float R e1 "p2")), (Ef2 "B2s" (m_float R e1 "B2s")), (Ef2 "B2c" (m_float R e1 "B2c")) by (unfold second_numbers; in_list). reflexivity. }
  rewrite Ei in *. clear Ef2.
  constructor. exists (axis_input_of e1), a, h, (fun j => nth j (u_sigma u) 0), (u_iota u), X20, Y20, g, m, b. cbv zeta.
  set (i := r2_config _ _ _ _ _ _ _ _ _ _ _ _) in *.
  assert (Eq : r1_diagnostics R_ops R_math (j_r1 i) (fun j => nth j (u_sigma u) 0) (u_iota u) = q) by (rewrite <- Ei; reflexivity).
  rewrite Eq. rewrite En. rewrite En in Ev.
  split.
  { intros [G1 G2 G3 G4 G5 G6 G7]. rewrite En in G6, G7. rewrite (Ew "nfp" (m_int R e1 "nfp")) in G1 by (unfold first_wholes; in_list). rewrite (Ew "sG" (m_int R e1 "sG")) in G2 by (unfold first_wholes; in_list).
    rewrite (Ew "spsi" (m_int R e1 "spsi")) in G3 by (unfold first_wholes; in_list). rewrite (Ef "B0" (m_float R e1 "B0")) in G4 by (unfold first_numbers; in_list).
    constructor; auto.
    - eapply axis_ok_run; eassumption.
    - cbn [axis_input_of ai_nphi]. replace (Z.to_nat (m_int R e1 "nphi")) with (a_nphi a) by lia. intros j Hj. rewrite <- (Ev "d_l_d_phi" (a_d_l_d_phi a)) by first [unfold first_vectors; in_list|exact Hj]. auto.
    - cbn [axis_input_of ai_nphi]. replace (Z.to_nat (m_int R e1 "nphi")) with (a_nphi a) by lia. intros j Hj. rewrite <- (Ev "curvature" (a_curvature a)) by first [unfold first_vectors; in_list|exact Hj]. auto. }
  rewrite (Ew "sG" (m_int R e1 "sG")), (Ew "spsi" (m_int R e1 "spsi")), (Ew "nfp" (m_int R e1 "nfp")), (Ew "helicity" h) by (unfold first_wholes; in_list).
  rewrite (Ef "B0" (m_float R e1 "B0")), (Ef "iota" (u_iota u)), (Ef "G0" (a_G0 a)), (Ef "d_l_d_varphi" (a_abs_G0_over_B0 a)), (Ef "iota_N" (r_iota_N q)) by (unfold first_numbers; in_list).
  split; [cbn [axis_input_of ai_nphi]; lia|]. split; [reflexivity|]. split; [lia|].
  do 9 (split; [reflexivity|]).
  split.
  { intros j Hj. rewrite (Ev "curvature" (a_curvature a)), (Ev "torsion" (a_torsion a)), (Ev "d_l_d_phi" (a_d_l_d_phi a)), (Ev "X1c" (r_X1c q)), (Ev "Y1s" (r_Y1s q)), (Ev "Y1c" (r_Y1c q)),
      (Ev "d_X1c_d_varphi" (r_d_X1c q)), (Ev "d_Y1s_d_varphi" (r_d_Y1s q)), (Ev "d_Y1c_d_varphi" (r_d_Y1c q)) by first [unfold first_vectors; in_list|exact Hj].
    do 3 (split; [reflexivity|]). split; [symmetry; apply Vsg; exact Hj|]. repeat (split; [reflexivity|]). reflexivity. }
  split; [exact Sn|]. split; [exact Sv|]. split; [exact Hm|]. split; [exact Hb|]. split; [exact E2|]. split; [exact Eg|]. split; [exact Sh|].
  split; [|split; [exact Vt3|split; [exact Vt4|exact Vm]]].
  intros H21. apply S3. destruct (m_flag R e1 "order_r2p1"); [reflexivity|]. rewrite O2 in H21. discriminate H21.
Qed.

(** The vectors of R2Spec from the results are those from the file. *)
Lemma shown_vectors f ai a h sigma iota X20 Y20 j :
  let N := grid_points f in let v := at_grid f in
  let i := r2_config ai a h (number f "I2") (number f "eta_bar") (number f "sigma0") sigma iota (number f "p2") (number f "B2s") (number f "B2c") mu0 in
  let q := r1_diagnostics R_ops R_math (j_r1 i) sigma iota in let s := r2_from_solution R_ops R_math i X20 Y20 in
  a_abs_G0_over_B0 a = number f "d_l_d_varphi" -> r_iota_N q = number f "iota_N" ->
  a_curvature a j = v "curvature" j /\ a_torsion a j = v "torsion" j /\ a_d_l_d_phi a j = v "d_l_d_phi" j /\ sigma j = v "sigma" j /\
       r_X1c q j = v "X1c" j /\ r_Y1s q j = v "Y1s" j /\ r_Y1c q j = v "Y1c" j /\
       grid_derivative a (r_X1c q) j = v "d_X1c_d_varphi" j /\ grid_derivative a (r_Y1s q) j = v "d_Y1s_d_varphi" j /\ grid_derivative a (r_Y1c q) j = v "d_Y1c_d_varphi" j ->
  show_vectors R_ops f N (second_vectors R_ops R_math i s) -> (j < N)%nat ->
  forall r t, e_r q s j r t = shown_e_r f j r t /\ e_theta q s j r t = shown_e_theta f j r t /\ e_varphi a q s j r t = shown_e_varphi f j r t /\ along a q s j r t = shown_along f j r t /\
    sqrt_g a q s j r t = shown_sqrt_g f j r t.
Proof.
  intros N v i q s El Ec (Ek & Et & _ & _ & E1 & E2 & E3 & D1 & D2 & D3) Sv Hj r t.
  assert (Ev : forall y g, In (y, g) (second_vectors R_ops R_math i s) -> g j = v y j) by (intros y g Hi; symmetry; apply Sv; assumption).
  assert (HX : X_modes q s j = shown_X f j).
  { unfold X_modes, shown_X. fold v. rewrite E1. f_equal; apply Ev; unfold second_vectors; in_list. }
  assert (HY : Y_modes q s j = shown_Y f j).
  { unfold Y_modes, shown_Y. fold v. rewrite E2, E3. f_equal; apply Ev; unfold second_vectors; in_list. }
  assert (HZ : Z_modes s j = shown_Z f j).
  { unfold Z_modes, shown_Z. fold v. f_equal; apply Ev; unfold second_vectors; in_list. }
  assert (GD : forall x y, In (y, ddv R_ops (j_r1 i) x) (second_vectors R_ops R_math i s) -> grid_derivative a x j = v y j) by (intros x y Hi; rewrite <- (Ev _ _ Hi); reflexivity).
  assert (HdX : dX_modes a q s j = shown_dX f j).
  { unfold dX_modes, shown_dX. cbv zeta. fold v. rewrite D1. f_equal; apply GD; unfold second_vectors; in_list. }
  assert (HdY : dY_modes a q s j = shown_dY f j).
  { unfold dY_modes, shown_dY. cbv zeta. fold v. rewrite D2, D3. f_equal; apply GD; unfold second_vectors; in_list. }
  assert (HdZ : dZ_modes a s j = shown_dZ f j).
  { unfold dZ_modes, shown_dZ. cbv zeta. fold v. f_equal; apply GD; unfold second_vectors; in_list. }
  assert (A1 : e_r q s j r t = shown_e_r f j r t) by (unfold e_r, shown_e_r; rewrite HX, HY, HZ; reflexivity).
  assert (A2 : e_theta q s j r t = shown_e_theta f j r t) by (unfold e_theta, shown_e_theta; rewrite HX, HY, HZ; reflexivity).
  assert (A3 : e_varphi a q s j r t = shown_e_varphi f j r t).
  { unfold e_varphi, shown_e_varphi. cbv zeta. rewrite HX, HY, HZ, HdX, HdY, HdZ, El, Ek, Et. reflexivity. }
  split; [exact A1|]. split; [exact A2|]. split; [exact A3|]. split.
  - unfold along, shown_along. cbv zeta. rewrite A2, A3, Ec. reflexivity.
  - unfold sqrt_g, shown_sqrt_g. rewrite A1, A2, A3. reflexivity.
Qed.

(** C93.  The magnetic field of the solution in the output file.  Whatever the linear solver and Newton's method returned: at every grid point, the field
    (G + iota I)^-1 B^2 times the derivative of the position along the field line has the strength B = B0 (1 + r eta_bar cos theta) + r^2 (B20 + B2s sin 2theta + B2c cos 2theta), up to
    order r^3; and the coordinates are Boozer's: the Jacobian is (G + iota I) / B^2 times the derivative of the flux, up to order r^3. *)
Theorem field_in_file : forall e t st f, small_grid IZR t -> run e t = Ok (st, f) -> whole R f "at_least_order_r2" = 1%Z -> regular_file f ->
  forall j, (j < grid_points f)%nat -> forall theta,
  order 3 (fun r => dot (shown_along f j r theta) (shown_along f j r theta) * shown_B f j r theta ^ 2 - shown_G_iota_I f r ^ 2) /\
  order 3 (fun r => shown_sqrt_g f j r theta * shown_B f j r theta ^ 2 - shown_dpsi f r * shown_G_iota_I f r).
Proof.
  intros e t st f Hn H H2 Hr j Hj theta.
  destruct (second_view _ _ _ _ Hn H H2) as [(ai & a & h & sigma & iota & X20 & Y20 & g & m & b & Hreg & EN & EN' & HN & EsG & Esp & EB & Enfp & Eh & Ei & EG & El & Ec & Ev & Sn & Sv & _)]. specialize (Hreg Hr).
  pose proof (shown_vectors f ai a h sigma iota X20 Y20 j El Ec (Ev j Hj) Sv Hj) as S. cbv zeta in S. rewrite <- EN in Hj.
  pose proof (field_strength_second_order ai a h (number f "I2") (number f "eta_bar") (number f "sigma0") sigma iota (number f "p2") (number f "B2s") (number f "B2c") mu0 X20 Y20 j theta Hreg Hj) as F1.
  pose proof (flux_second_order ai a h (number f "I2") (number f "eta_bar") (number f "sigma0") sigma iota (number f "p2") (number f "B2s") (number f "B2c") mu0 X20 Y20 j theta Hreg Hj) as (F2 & _).
  cbv zeta in F1. set (i := r2_config _ _ _ _ _ _ _ _ _ _ _ _) in *. set (q := r1_diagnostics _ _ _ _ _) in *. set (s := r2_from_solution _ _ _ _ _) in *.
  assert (EB20 : s_B20 s j = at_grid f "B20" j) by (symmetry; apply Sv; [unfold second_vectors; in_list|lia]).
  assert (EG2 : s_G2 s = number f "G2") by (symmetry; apply Sn; unfold second_numbers; in_list).
  rewrite EB20, EG2, EB, EG, Ei in F1. rewrite EB20, EG2, EB, EG, Ei, Esp in F2.
  split.
  - eapply order_ext; [|exact F1]. intros r. cbv beta. destruct (S r theta) as (_ & _ & _ & -> & _). reflexivity.
  - eapply order_ext; [|exact F2]. intros r. cbv beta. destruct (S r theta) as (_ & _ & _ & _ & ->). reflexivity.
Qed.

(** C94.  The second-order quantities in the output file.  The mean, the residual and the variation of B20; Mercier's criterion; the scale length; the maxima.  If the linear solver
    returns only solutions, the equations for X20 and Y20 hold at every grid point. *)
Theorem second_order_in_file : forall e t st f, small_grid IZR t -> run e t = Ok (st, f) -> whole R f "at_least_order_r2" = 1%Z -> regular_file f ->
  let N := grid_points f in let v := at_grid f in let dl := v "d_l_d_phi" in let n := number f in let G := Rabs (n "G0") in
  (solver_correct (2 * N) linear_solve -> forall j, (j < N)%nat -> shown_equation1 f j /\ shown_equation2 f j) /\
  (0 < n "B0" ->
    n "B20_mean" = arc_mean N dl (v "B20") /\ (forall j, (j < N)%nat -> v "B20_anomaly" j = v "B20" j - n "B20_mean") /\
    n "B20_residual" = sqrt (arc_mean N dl (fun j => (v "B20" j - n "B20_mean") ^ 2)) / n "B0" /\
    (forall j k, (j < N)%nat -> (k < N)%nat -> v "B20" j - v "B20" k <= n "B20_grid_variation") /\
    (exists j k, (j < N)%nat /\ (k < N)%nat /\ n "B20_grid_variation" = v "B20" j - v "B20" k)) /\
  (let P j := v "X1c" j + integer f "sG" * integer f "spsi" * v "Y1s" j in
   let J := arc_mean N dl (fun j => (v "Y1c" j ^ 2 + v "X1c" j * P j) / (v "Y1c" j ^ 2 + P j ^ 2)) in
   0 < J < 1 /\ n "d2_volume_d_psi2" = 4 * PI ^ 2 * G / n "B0" ^ 3 * (3 * n "eta_bar" ^ 2 - 4 * n "B20_mean" / n "B0" - 2 * mu0 * n "p2" / n "B0" ^ 2) /\
   n "DMerc_times_r2" = n "DWell_times_r2" + n "DGeod_times_r2" /\
   n "DWell_times_r2" = mu0 * n "p2" * G / (8 * PI ^ 4 * n "B0" ^ 3) * (n "d2_volume_d_psi2" - 8 * PI ^ 2 * mu0 * n "p2" * G / n "B0" ^ 5) /\
   (n "iota_N" <> 0 -> n "DGeod_times_r2" = - (2 * mu0 ^ 2 * n "p2" ^ 2 * n "G0" ^ 4 * n "eta_bar" ^ 2 / (PI ^ 3 * n "B0" ^ 10 * n "iota_N" ^ 2)) * (2 * PI * J)) /\
   (n "p2" = 0 -> n "DWell_times_r2" = 0 /\ n "DGeod_times_r2" = 0 /\ n "DMerc_times_r2" = 0)) /\
  (0 < n "B0" -> (forall j, (j < N)%nat -> 0 < v "L_grad_grad_B" j <= sqrt 2 / Rabs (v "curvature" j) /\ v "L_grad_grad_B_inverse" j = / v "L_grad_grad_B" j /\ n "grid_min_L_grad_grad_B" <= v "L_grad_grad_B" j) /\
    exists j, (j < N)%nat /\ n "grid_min_L_grad_grad_B" = v "L_grad_grad_B" j) /\
  is_largest N (n "grid_max_XY2") (map v ["X20"; "X2s"; "X2c"; "Y20"; "Y2s"; "Y2c"]) /\ is_largest N (n "grid_max_Z2") (map v ["Z20"; "Z2s"; "Z2c"]) /\
  is_largest N (n "grid_max_d_XY2_d_varphi") (map v ["d_X20_d_varphi"; "d_X2s_d_varphi"; "d_X2c_d_varphi"; "d_Y20_d_varphi"; "d_Y2s_d_varphi"; "d_Y2c_d_varphi"]) /\
  is_largest N (n "grid_max_d2_XY2_d_varphi2") (map v ["d2_X20_d_varphi2"; "d2_X2s_d_varphi2"; "d2_X2c_d_varphi2"; "d2_Y20_d_varphi2"; "d2_Y2s_d_varphi2"; "d2_Y2c_d_varphi2"]) /\
  is_largest N (n "grid_max_d_Z2_d_varphi") (map v ["d_Z20_d_varphi"; "d_Z2s_d_varphi"; "d_Z2c_d_varphi"]).
Proof.
  intros e t st f Hn H H2 Hr N v dl n G.
  destruct (second_view _ _ _ _ Hn H H2) as [(ai & a & h & sigma & iota & X20 & Y20 & g & m & b & Hreg & EN & EN' & HN & EsG & Esp & EB & Enfp & Eh & Ei & EG & El & Ec & Ev & Sn & Sv & Hm & Hb & E2 & _)]. specialize (Hreg Hr).
  fold N in EN, EN', HN, Ev, Sv, Hm, Hb. clear Hr. clearbody N.
  set (i := r2_config _ _ _ _ _ _ _ _ _ _ _ _) in *. set (q := r1_diagnostics _ _ _ _ _) in *. set (s := r2_from_solution _ _ _ _ _) in *.
  assert (Sf : forall y w, In (y, w) (second_numbers R_ops R_math i s g) -> n y = w) by exact Sn.
  assert (Sg : forall y w, In (y, w) (second_vectors R_ops R_math i s) -> forall j, (j < N)%nat -> w j = v y j) by (intros y w Hi j Hj; symmetry; apply Sv; assumption).
  assert (Edl : forall j, (j < N)%nat -> a_d_l_d_phi a j = dl j) by (intros j Hj; apply Ev; exact Hj).
  assert (AM : forall x x', (forall j, (j < N)%nat -> x j = x' j) -> arc_mean N (a_d_l_d_phi a) x = arc_mean N dl x').
  { intros x x' Hx. unfold arc_mean. f_equal; [apply rsum_ext; intros j Hj; rewrite Hx, Edl by exact Hj; reflexivity|apply rsum_ext; exact Edl]. }
  assert (EB20 : forall j, (j < N)%nat -> s_B20 s j = v "B20" j) by (apply Sg; unfold second_vectors; in_list).
  assert (EBm : n "B20_mean" = s_B20_mean s) by (apply Sf; unfold second_numbers; in_list).
  assert (EL : forall j, (j < N)%nat -> L_grad_grad_B R_ops R_math i s j = v "L_grad_grad_B" j) by (apply Sg; unfold second_vectors; in_list).
  assert (ELi : forall j, (j < N)%nat -> L_grad_grad_B_inverse R_ops R_math i s j = v "L_grad_grad_B_inverse" j) by (apply Sg; unfold second_vectors; in_list).
  change (a_nphi a) with (a_nphi (i_axis (j_r1 i))) in EN'. rewrite <- EN' in Hm, Hb.
  split; [|split; [|split; [|split]]].
  - intros Hs j Hj. rewrite <- EN' in Hs.
    destruct (second_order_equations i linear_solve m b s Hm Hb Hs E2) as (Q & _). specialize (Q j ltac:(lia)).
    destruct (Ev j Hj) as (A1 & A2 & _ & _ & A3 & A4 & A5 & _).
    assert (GD : forall x y, In (y, ddv R_ops (j_r1 i) x) (second_vectors R_ops R_math i s) -> grid_derivative a x j = at_grid f y j) by (intros x y Hi; exact (Sg _ _ Hi j Hj)).
    assert (P : forall y w, In (y, w) (second_vectors R_ops R_math i s) -> w j = at_grid f y j) by (intros y w Hi; apply (Sg y w Hi j Hj)).
    destruct Q as (Q1 & Q2). unfold equation1, equation2, fX0, fXs, fXc, fY0, fYs, fYc in Q1, Q2. cbv zeta in Q1, Q2.
    change (r1_diagnostics R_ops R_math (j_r1 i) (j_sigma i) (j_iota i)) with q in Q1, Q2. change (i_axis (j_r1 i)) with a in Q1, Q2.
    change (i_sG (j_r1 i)) with (ai_sG ai) in Q1, Q2. change (i_spsi (j_r1 i)) with (ai_spsi ai) in Q1, Q2. change (i_B0 (j_r1 i)) with (ai_B0 ai) in Q1, Q2. change (i_I2 (j_r1 i)) with (number f "I2") in Q1, Q2.
    change (s_beta_1s s) with (beta_1s R_ops R_math i) in Q1, Q2.
    assert (Eb : beta_1s R_ops R_math i = number f "beta_1s") by (symmetry; apply Sf; unfold second_numbers; in_list).
    rewrite A1, A2, A3, A4, A5, El, Ec, EsG, Esp, EB, Eb in Q1, Q2.
    rewrite (GD (s_X20 s) "d_X20_d_varphi"), (GD (s_X2c s) "d_X2c_d_varphi") in Q2 by (unfold second_vectors; in_list). rewrite (GD (s_X2s s) "d_X2s_d_varphi") in Q1 by (unfold second_vectors; in_list).
    rewrite (GD (s_Y20 s) "d_Y20_d_varphi"), (GD (s_Y2s s) "d_Y2s_d_varphi"), (GD (s_Y2c s) "d_Y2c_d_varphi"), (P "X20" (s_X20 s)), (P "X2s" (s_X2s s)), (P "X2c" (s_X2c s)), (P "Y20" (s_Y20 s)), (P "Y2s" (s_Y2s s)), (P "Y2c" (s_Y2c s)),
      (P "Z20" (s_Z20 s)), (P "Z2s" (s_Z2s s)), (P "Z2c" (s_Z2c s)) in Q1, Q2 by (unfold second_vectors; in_list).
    split; [exact Q1|exact Q2].
  - intros HB. destruct (B20_statistics i X20 Y20) as (B1 & B2 & _ & B3 & _ & _ & B4 & (j0 & k0 & J0 & K0 & B5) & _);
      [rewrite EN'; exact HN|intros j Hj; apply (reg_dl _ _ _ _ Hreg); rewrite EN; lia|change (0 < ai_B0 ai); rewrite EB; exact HB|].
    fold s in B1, B2, B3, B4, B5. change (i_axis (j_r1 i)) with a in *. rewrite EN' in *. change (i_B0 (j_r1 i)) with (ai_B0 ai) in B3. rewrite EB in B3.
    assert (EA : forall j, (j < N)%nat -> s_B20_anomaly s j = v "B20" j - n "B20_mean") by (intros j Hj; rewrite EBm, <- EB20 by exact Hj; specialize (B2 j); lra).
    assert (EV : n "B20_grid_variation" = s_B20_grid_variation s) by (apply Sf; unfold second_numbers; in_list).
    split; [rewrite EBm, B1; apply AM; exact EB20|]. split; [intros j Hj; rewrite <- (Sg "B20_anomaly" (s_B20_anomaly s)) by first [unfold second_vectors; in_list|exact Hj]; apply EA; exact Hj|].
    split; [rewrite (Sf "B20_residual" (s_B20_residual s)) by (unfold second_numbers; in_list); rewrite B3; f_equal; f_equal; apply AM; intros j Hj; rewrite EA by exact Hj; reflexivity|].
    rewrite EV. split; [intros j k Hj Hk; rewrite <- !EB20 by assumption; apply B4; assumption|]. exists j0, k0. rewrite <- !EB20 by assumption. auto.
  - destruct (mercier_criterion ai a h (number f "I2") (number f "eta_bar") (number f "sigma0") sigma iota (number f "p2") (number f "B2s") (number f "B2c") mu0 X20 Y20 Hreg) as (M0 & M1 & M2 & M3 & M4 & M5).
    fold i q s in M0, M1, M2, M3, M4, M5. rewrite EN, EsG, Esp in M0. rewrite EB, EG in M1, M3. rewrite EN, EsG, Esp, EB, EG, Ec in M4. rewrite <- EBm in M1.
    rewrite (Sf "d2_volume_d_psi2" (w_d2_volume_d_psi2 (mercier R_ops R_math i s))), (Sf "DWell_times_r2" (w_DWell (mercier R_ops R_math i s))), (Sf "DGeod_times_r2" (w_DGeod (mercier R_ops R_math i s))), (Sf "DMerc_times_r2" (w_DMerc (mercier R_ops R_math i s)))
      by (unfold second_numbers; in_list).
    cbv zeta. erewrite AM in M0, M4; [|intros j Hj; destruct (Ev j Hj) as (_ & _ & _ & _ & -> & -> & -> & _); reflexivity|intros j Hj; destruct (Ev j Hj) as (_ & _ & _ & _ & -> & -> & -> & _); reflexivity].
    split; [exact M0|]. split; [exact M1|]. split; [exact M2|]. split; [exact M3|]. split; [intros Hi; apply M4; exact Hi|exact M5].
  - intros HB. destruct (L_grad_grad_B_meaning ai a h (number f "I2") (number f "eta_bar") (number f "sigma0") sigma iota (number f "p2") (number f "B2s") (number f "B2c") mu0 X20 Y20 Hreg) as (L1 & (j0 & J0 & L2) & L3); [rewrite EB; exact HB|].
    fold i s in L1, L2, L3. rewrite EN in *. rewrite (Sf "grid_min_L_grad_grad_B" (grid_min_L_grad_grad_B R_ops R_math i s)) by (unfold second_numbers; in_list).
    split; [|exists j0; split; [exact J0|rewrite <- EL by exact J0; exact L2]].
    intros j Hj. destruct (L1 j Hj) as (_ & _ & L4 & L5). destruct (Ev j Hj) as (A1 & _). rewrite A1 in L4. rewrite <- EL, <- ELi by exact Hj. split; [exact L4|]. split; [exact L5|apply L3; exact Hj].
  - assert (HL : forall x l names, Forall2 (fun g y => forall j, (j < N)%nat -> g j = v y j) (x :: l) names -> is_largest N (max_abs_all R_ops R_math i x l) (map v names)).
    { intros x l names Hf. pose proof (max_abs_all_largest i l x ltac:(rewrite EN'; exact HN)) as (U1 & (x0 & j0 & I0 & J0 & U2)). rewrite EN' in *. split.
      - intros y j Hy Hj. apply in_map_iff in Hy. destruct Hy as (nm & <- & Hy).
        assert (Hx : exists x', In x' (x :: l) /\ forall j, (j < N)%nat -> x' j = v nm j).
        { revert Hy. clear -Hf. induction Hf as [|x1 y1 l1 l2 H1 Hf IH]; intros Hy; [destruct Hy|]. destruct Hy as [->|Hy]; [exists x1; split; [left; reflexivity|exact H1]|]. destruct (IH Hy) as (x' & I1 & I2). exists x'. split; [right; exact I1|exact I2]. }
        destruct Hx as (x' & I1 & I2). rewrite <- I2 by exact Hj. apply U1; assumption.
      - assert (Hx : exists nm, In nm names /\ forall j, (j < N)%nat -> x0 j = v nm j).
        { revert I0. clear -Hf. induction Hf as [|x1 y1 l1 l2 H1 Hf IH]; intros Hy; [destruct Hy|]. destruct Hy as [->|Hy]; [exists y1; split; [left; reflexivity|exact H1]|]. destruct (IH Hy) as (x' & I1 & I2). exists x'. split; [right; exact I1|exact I2]. }
        destruct Hx as (nm & I1 & I2). exists (v nm), j0. split; [apply in_map; exact I1|]. split; [exact J0|]. rewrite <- I2 by exact J0. exact U2. }
    split; [|split; [|split; [|split]]].
    + rewrite (Sf "grid_max_XY2" (s_grid_max_XY2 s)) by (unfold second_numbers; in_list). apply (HL (s_X20 s) [s_X2s s; s_X2c s; s_Y20 s; s_Y2s s; s_Y2c s]).
      repeat (apply Forall2_cons; [apply Sg; unfold second_vectors; in_list|]). apply Forall2_nil.
    + rewrite (Sf "grid_max_Z2" (s_grid_max_Z2 s)) by (unfold second_numbers; in_list). apply (HL (s_Z20 s) [s_Z2s s; s_Z2c s]).
      repeat (apply Forall2_cons; [apply Sg; unfold second_vectors; in_list|]). apply Forall2_nil.
    + rewrite (Sf "grid_max_d_XY2_d_varphi" (s_grid_max_d_XY2 s)) by (unfold second_numbers; in_list).
      apply (HL (ddv R_ops (j_r1 i) (s_X20 s)) [ddv R_ops (j_r1 i) (s_X2s s); ddv R_ops (j_r1 i) (s_X2c s); ddv R_ops (j_r1 i) (s_Y20 s); ddv R_ops (j_r1 i) (s_Y2s s); ddv R_ops (j_r1 i) (s_Y2c s)]).
      repeat (apply Forall2_cons; [apply Sg; unfold second_vectors; in_list|]). apply Forall2_nil.
    + rewrite (Sf "grid_max_d2_XY2_d_varphi2" (s_grid_max_d2_XY2 s)) by (unfold second_numbers; in_list). set (D := ddv R_ops (j_r1 i)) in *.
      apply (HL (D (D (s_X20 s))) [D (D (s_X2s s)); D (D (s_X2c s)); D (D (s_Y20 s)); D (D (s_Y2s s)); D (D (s_Y2c s))]).
      repeat (apply Forall2_cons; [apply Sg; unfold second_vectors; in_list|]). apply Forall2_nil.
    + rewrite (Sf "grid_max_d_Z2_d_varphi" (s_grid_max_d_Z2 s)) by (unfold second_numbers; in_list). set (D := ddv R_ops (j_r1 i)) in *. apply (HL (D (s_Z20 s)) [D (s_Z2s s); D (s_Z2c s)]).
      repeat (apply Forall2_cons; [apply Sg; unfold second_vectors; in_list|]). apply Forall2_nil.
Qed.

(** C94, third order.  The third-order terms in the output file are one multiple, lambda_for_XY3, of the first-order terms; the maxima. *)
Lemma third_flag : forall e t st f, small_grid IZR t -> run e t = Ok (st, f) -> whole R f "order_r2.1" = 1%Z -> whole R f "at_least_order_r2" = 1%Z.
Proof.
  intros e t st f Hn H H3. destruct (view_run _ _ _ _ Hn H) as [s1 e1 sh a h x r u St Vs Va Vn Vu Vw Vf Vv Vsg Vc Vm (O1 & O2 & O3) V2 Vk].
  rewrite O2 in H3. rewrite O1. destruct (m_flag R e1 "order_r2p1") eqn:E3; [|discriminate H3].
  destruct (rd_order _ _ _ (b_ready _ _ _ _ _ _ St)) as [T|[T|[T|[]]]]; injection T as _ T1 T2 T3; rewrite E3 in T2; try discriminate T2; rewrite <- T1; reflexivity.
Qed.
Theorem third_order_in_file : forall e t st f, small_grid IZR t -> run e t = Ok (st, f) -> whole R f "order_r2.1" = 1%Z -> regular_file f ->
  let N := grid_points f in let v := at_grid f in let n := number f in
  (forall j, (j < N)%nat -> v "X3c1" j = v "lambda_for_XY3" j * v "X1c" j /\ v "Y3c1" j = v "lambda_for_XY3" j * v "Y1c" j /\ v "Y3s1" j = v "lambda_for_XY3" j * v "Y1s" j) /\
  is_largest N (n "grid_max_XY3") (map v ["X3c1"; "Y3c1"; "Y3s1"]) /\
  is_largest N (n "grid_max_d_XY3_d_varphi") (map v ["d_X3c1_d_varphi"; "d_Y3c1_d_varphi"; "d_Y3s1_d_varphi"]) /\
  is_largest N (n "grid_max_d2_XY3_d_varphi2") (map v ["d2_X3c1_d_varphi2"; "d2_Y3c1_d_varphi2"; "d2_Y3s1_d_varphi2"]).
Proof.
  intros e t st f Hn H H3 Hr N v n. pose proof (third_flag _ _ _ _ Hn H H3) as H2.
  destruct (second_view _ _ _ _ Hn H H2) as [(ai & a & h & sigma & iota & X20 & Y20 & g & m & b & Hreg & EN & EN' & HN & EsG & Esp & EB & Enfp & Eh & Ei & EG & El & Ec & Ev & Sn & Sv & Hm & Hb & E2 & _ & _ & S3 & _)]. specialize (Hreg Hr).
  specialize (S3 H3). cbv zeta in S3. fold N in EN, EN', HN, Ev, Sv, Hm, Hb, S3. clear Hr. clearbody N.
  set (i := r2_config _ _ _ _ _ _ _ _ _ _ _ _) in *. set (q := r1_diagnostics _ _ _ _ _) in *. set (s := r2_from_solution _ _ _ _ _) in *. set (u := calculate_r2p1 _ _ _ _) in *.
  destruct S3 as (Sf & Sg').
  assert (Sg : forall y w, In (y, w) (third_vectors R_ops i u) -> forall j, (j < N)%nat -> w j = v y j) by (intros y w Hi j Hj; symmetry; apply Sg'; assumption).
  change (a_nphi a) with (a_nphi (i_axis (j_r1 i))) in EN'.
  destruct (third_order_maxima i s ltac:(rewrite EN'; exact HN)) as (M1 & M2 & M3). rewrite EN' in M1, M2, M3. fold u in M1, M2, M3.
  assert (HL : forall M l names, is_largest N M l -> Forall2 (fun g y => forall j, (j < N)%nat -> g j = v y j) l names -> is_largest N M (map v names)).
  { intros M l names (U1 & (x0 & j0 & I0 & J0 & U2)) Hf. split.
    - intros y j Hy Hj. apply in_map_iff in Hy. destruct Hy as (nm & <- & Hy).
      assert (Hx : exists x', In x' l /\ forall j, (j < N)%nat -> x' j = v nm j).
      { revert Hy. clear -Hf. induction Hf as [|x1 y1 l1 l2 H1 Hf IH]; intros Hy; [destruct Hy|]. destruct Hy as [->|Hy]; [exists x1; split; [left; reflexivity|exact H1]|]. destruct (IH Hy) as (x' & I1 & I2). exists x'. split; [right; exact I1|exact I2]. }
      destruct Hx as (x' & I1 & I2). rewrite <- I2 by exact Hj. apply U1; assumption.
    - assert (Hx : exists nm, In nm names /\ forall j, (j < N)%nat -> x0 j = v nm j).
      { revert I0. clear -Hf. induction Hf as [|x1 y1 l1 l2 H1 Hf IH]; intros Hy; [destruct Hy|]. destruct Hy as [->|Hy]; [exists y1; split; [left; reflexivity|exact H1]|]. destruct (IH Hy) as (x' & I1 & I2). exists x'. split; [right; exact I1|exact I2]. }
      destruct Hx as (nm & I1 & I2). exists (v nm), j0. split; [apply in_map; exact I1|]. split; [exact J0|]. rewrite <- I2 by exact J0. exact U2. }
  split; [|split; [|split]].
  - intros j Hj. destruct (third_order_terms ai a h (number f "I2") (number f "eta_bar") (number f "sigma0") sigma iota (number f "p2") (number f "B2s") (number f "B2c") mu0 X20 Y20 j Hreg ltac:(lia)) as ((T1 & T2 & T3) & _).
    fold i q s u in T1, T2, T3. destruct (Ev j Hj) as (_ & _ & _ & _ & A3 & A4 & A5 & _). rewrite A3 in T1. rewrite A5 in T2. rewrite A4 in T3.
    rewrite <- (Sg "X3c1" (t_X3c1 u)), <- (Sg "Y3c1" (t_Y3c1 u)), <- (Sg "Y3s1" (t_Y3s1 u)), <- (Sg "lambda_for_XY3" (t_lambda u)) by first [unfold third_vectors; in_list|exact Hj].
    cbn [R3Spec.reported_terms R3Spec.x3c R3Spec.y3c R3Spec.y3s] in T1, T2, T3. unfold v. split; [|split]; etransitivity; [exact T1|apply Rmult_comm|exact T2|apply Rmult_comm|exact T3|apply Rmult_comm].
  - replace (n "grid_max_XY3") with (t_grid_max_XY3 u) by (symmetry; apply Sf; unfold third_numbers; in_list). apply (HL _ _ _ M1). repeat (apply Forall2_cons; [apply Sg; unfold third_vectors; in_list|]). apply Forall2_nil.
  - replace (n "grid_max_d_XY3_d_varphi") with (t_grid_max_d_XY3 u) by (symmetry; apply Sf; unfold third_numbers; in_list). apply (HL _ _ _ M2). repeat (apply Forall2_cons; [apply Sg; unfold third_vectors; in_list|]). apply Forall2_nil.
  - replace (n "grid_max_d2_XY3_d_varphi2") with (t_grid_max_d2_XY3 u) by (symmetry; apply Sf; unfold third_numbers; in_list). apply (HL _ _ _ M3). repeat (apply Forall2_cons; [apply Sg; unfold third_vectors; in_list|]). apply Forall2_nil.
Qed.
End File.

Lemma jacobian_derivative (c0 c1 c2 c3 c4 r x : R) :
  derivable_pt_lim (fun x => c0 + c1 * cos x * r + (c2 + c3 * sin (2 * x) + c4 * cos (2 * x)) * r ^ 2) x (- r * c1 * sin x + r ^ 2 * (2 * c3 * cos (2 * x) - 2 * c4 * sin (2 * x))).
Proof.
  assert (L : derivable_pt_lim (fun x => 2 * x) x 2).
  { pose proof (derivable_pt_lim_scal id 2 x 1 (derivable_pt_lim_id x)) as L0. replace (2 * 1) with 2 in L0 by ring. exact L0. }
  pose proof (derivable_pt_lim_comp _ sin _ _ _ L (derivable_pt_lim_sin (2 * x))) as S. pose proof (derivable_pt_lim_comp _ cos _ _ _ L (derivable_pt_lim_cos (2 * x))) as C.
  pose proof (derivable_pt_lim_scal _ (c1 * r) x _ (derivable_pt_lim_cos x)) as A. pose proof (derivable_pt_lim_scal _ (c3 * r ^ 2) x _ S) as B. pose proof (derivable_pt_lim_scal _ (c4 * r ^ 2) x _ C) as D.
  pose proof (derivable_pt_lim_plus _ _ x _ _ (derivable_pt_lim_const (c0 + c2 * r ^ 2) x) (derivable_pt_lim_plus _ _ x _ _ A (derivable_pt_lim_plus _ _ x _ _ B D))) as E.
  match type of E with derivable_pt_lim ?g _ ?d => replace (- r * c1 * sin x + r ^ 2 * (2 * c3 * cos (2 * x) - 2 * c4 * sin (2 * x))) with d by ring end.
  eapply dlim_ext; [|exact E]. intros z. unfold plus_fct, mult_real_fct, fct_cte, comp. ring.
Qed.
(** C95.  The radius of the singularity in the output file.  At each grid point the surfaces' Jacobian is r K(r, theta) + O(r^4) with K of second degree in r; r_hat is positive, at most 1e30,
    and if it is less then K is 0 at that radius, for some angle at which its derivative with respect to the angle is below the tolerance.  r_singularity_robust is the smallest, and
    beta follows from it. *)
Theorem singularity_in_file : forall newton_tol mu0 newton_linear_solve linear_solve geev single e t st f, small_grid IZR t ->
  Run.run R_ops R_math Rge0 newton_tol mu0 newton_linear_solve linear_solve geev (tolerances_of R_ops R_math single) (fun _ => true) e t = Ok (st, f) ->
  whole R f "at_least_order_r2" = 1%Z -> regular_file f ->
  let N := grid_points f in let r_hat := at_grid f "r_hat_singularity_robust" in let n := number f in
  (forall j, (j < N)%nat -> exists k0 k1 k2 : R -> R, let K r theta := k0 theta + k1 theta * r + k2 theta * r ^ 2 in
     (forall theta, order 4 (fun r => shown_sqrt_g f j r theta - r * K r theta)) /\ 0 < r_hat j <= 1e30 /\ n "r_singularity_robust" <= r_hat j /\
     (r_hat j < 1e30 -> exists theta d, derivable_pt_lim (fun x => K (r_hat j) x) theta d /\ K (r_hat j) theta = 0 /\ Rabs d < residual_tolerance single * r_hat j)) /\
  (exists j, (j < N)%nat /\ n "r_singularity_robust" = r_hat j) /\
  n "beta" = Rmin 1e30 (- mu0 * n "p2" * n "r_singularity_robust" ^ 2 / n "B0" ^ 2).
Proof.
  intros newton_tol mu0 nls ls geev single e t st f Hn H H2 Hr N r_hat n.
  destruct (second_view newton_tol mu0 nls ls geev _ _ _ _ _ _ Hn H H2) as [(ai & a & h & sigma & iota & X20 & Y20 & g & m & b & Hreg & EN & EN' & HN & EsG & Esp & EB & Enfp & Eh & Ei & EG & El & Ec & Ev & Sn & Sv & Hm & Hb & E2 & Es & Sh & _)].
  specialize (Hreg Hr). fold N in EN, EN', HN, Ev, Hm, Hb, Sh.
  set (i := r2_config _ _ _ _ _ _ _ _ _ _ _ _) in *. set (q := r1_diagnostics _ _ _ _ _) in *. set (s := r2_from_solution _ _ _ _ _) in *.
  change (a_nphi a) with (a_nphi (i_axis (j_r1 i))) in EN'.
  destruct (singularity_sound geev single i s g ltac:(rewrite EN'; exact HN) Es) as (_ & S1 & (j0 & J0 & S2) & S3). rewrite EN' in *.
  assert (Er : n "r_singularity_robust" = RSing.r_singularity_robust g) by (apply Sn; unfold second_numbers; in_list).
  split; [|split].
  - intros j Hj. destruct (S1 j Hj) as (P1 & P2 & P3). cbv zeta in P1, P2, P3. rewrite <- Sh in P1, P2, P3 by exact Hj. rewrite <- Er in P2.
    set (c := jacobian R_ops R_math i s j) in *.
    exists (fun _ => g0 c), (fun x => g1c c * cos x), (fun x => g20 c + g2s c * sin (2 * x) + g2c c * cos (2 * x)). cbv zeta.
    assert (EJ : forall r x, J c r x = g0 c + g1c c * cos x * r + (g20 c + g2s c * sin (2 * x) + g2c c * cos (2 * x)) * r ^ 2) by (intros; unfold J; ring).
    split; [|split; [exact P1|split; [exact P2|]]].
    + intros x. pose proof (shown_vectors mu0 f ai a h sigma iota X20 Y20 j El Ec (Ev j Hj) Sv Hj) as S. cbv zeta in S. fold i q s in S.
      destruct (jacobian_expansion ai a h (number f "I2") (number f "eta_bar") (number f "sigma0") sigma iota (number f "p2") (number f "B2s") (number f "B2c") mu0 X20 Y20 j x Hreg ltac:(lia)) as (Q & _). fold i q s c in Q.
      eapply order_ext; [|exact Q]. intros r. cbv beta. rewrite EJ. destruct (S r x) as (_ & _ & _ & _ & ->). reflexivity.
    + intros Hlt. destruct (P3 Hlt) as (x & Q1 & Q2). exists x, (J_t c (r_hat j) x). split; [|split; [rewrite <- EJ; exact Q1|exact Q2]].
      apply jacobian_derivative.
  - exists j0. split; [exact J0|]. rewrite Er, S2. symmetry. apply Sh. exact J0.
  - assert (Eb : n "beta" = beta_max g) by (apply Sn; unfold second_numbers; in_list). rewrite Er, Eb, S3. change (j_mu0 i) with mu0. change (j_p2 i) with (number f "p2"). change (i_B0 (j_r1 i)) with (ai_B0 ai). rewrite EB. reflexivity.
Qed.
(** The hypotheses are met: a circular axis with a current and a pressure, to the third order, with a solver that is correct (RunCase).  mu0 is 1, so that X20 = 7/4. *)
Example second_order_case : forall e, exists f, let t := circle_table "r2.1" (-1) in let ls := circle_solve (3 / 4 - 1 * -1) in
  small_grid IZR t /\ run_circle ls e t = Ok (NEWTON_CONVERGED, f) /\ solver_correct (2 * grid_points f) ls /\
  whole R f "at_least_order_r2" = 1%Z /\ whole R f "order_r2.1" = 1%Z /\ regular_file f /\ grid_points f = 15%nat /\ number f "iota_N" = 1 /\ number f "p2" = -1.
Proof.
  intros e. destruct (circle_runs (/ 1000) 1 (-1) "r2.1" no_eigenvalues false ltac:(lra) ltac:(cbn; tauto) (fun _ => eq_refl) e) as (f & H). exists f.
  destruct (circle_file (/ 1000) 1 (-1) "r2.1" no_eigenvalues false ltac:(lra) ltac:(cbn; tauto) e _ f H) as (N & Rf & I & P & _ & _ & O1 & O2 & _).
  split; [apply circle_small|]. split; [exact H|]. split; [rewrite N; apply circle_solve_correct|]. split; [exact O1|]. split; [exact O2|]. split; [exact Rf|]. split; [exact N|].
  split; [exact I|]. apply P. discriminate.
Qed.
Print Assumptions field_in_file. Print Assumptions second_order_in_file. Print Assumptions third_order_in_file. Print Assumptions singularity_in_file.
