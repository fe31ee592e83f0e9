(** Properties of the output file: C91 (the first-order solution), C92 (the axis). *)
From Coq Require Import String ZArith Reals Lra Arith Bool Lia List.
From Verif Require Import Base BaseFacts FloatOps MathOps MathFacts Tensor Newton Diff Curve Axis AxisSpec AxisFacts R1 R1Spec R1Facts R2 RSing GradGradB Alloc AllocSpec AllocFacts Toml TomlSpec TomlFacts
  Options OptionsSpec NetCDF NetCDFOut NetCDFNames NetCDFSpec NetCDFFacts NetCDFRead Properties_NetCDF Run RunSpec RunFacts RunFile RunView RunShown.
From Verif Require Import HelicityFacts Properties_Axis Properties_R1 Properties_Run RunCase.
Import ListNotations.
Local Open Scope string_scope.
Local Open Scope R_scope.

Lemma cross_frame (t n : Curve.vec) : dot t t = 1 -> dot t n = 0 -> cross (cross t n) t = n.
Proof.
  destruct t as [a b c], n as [x y z]. unfold dot, cross. cbn [vx vy vz]. intros H1 H2. f_equal.
  - transitivity (x * (a * a + b * b + c * c) - a * (a * x + b * y + c * z)); [ring|rewrite H1, H2; ring].
  - transitivity (y * (a * a + b * b + c * c) - b * (a * x + b * y + c * z)); [ring|rewrite H1, H2; ring].
  - transitivity (z * (a * a + b * b + c * c) - c * (a * x + b * y + c * z)); [ring|rewrite H1, H2; ring].
Qed.
Section File.
Variables (newton_tol mu0 : R) (newton_linear_solve : (nat -> nat -> R) -> list R -> outcome (list R))
  (linear_solve : matrix R -> list R -> outcome (list R)) (geev : list R -> Z * (list R * list R)) (tol : tolerances R) (finite : R -> bool).
Notation run := (Run.run R_ops R_math Rge0 newton_tol mu0 newton_linear_solve linear_solve geev tol finite).
Notation view_run := (view_run R_ops R_math Rge0 newton_tol mu0 newton_linear_solve linear_solve geev tol finite).

(** C91.  The first-order solution that the output file contains.  iota_N is iota + helicity nfp.  Where the curvature is not 0: X1c is eta_bar / curvature; the cross
    section at first order has the area that the flux requires (X1c Y1s = sG spsi); Y1c = sigma Y1s; the elongation is the largest distance of the boundary from the axis
    over the smallest.  grid_max_elongation is the largest elongation.  Unless the line search failed, sigma is sigma0 at the first point; if Newton's method
    converged, sigma and iota solve the equation for sigma up to the tolerance in the file. *)
Theorem first_order_in_file : forall e t st f, small_grid IZR t -> run e t = Ok (st, f) ->
  is_sign (whole R f "sG") -> is_sign (whole R f "spsi") -> number f "eta_bar" <> 0 ->
  let N := grid_points f in let v := at_grid f in
  (1 <= N)%nat /\ number f "iota_N" = number f "iota" + integer f "helicity" * integer f "nfp" /\
  (forall j, (j < N)%nat -> v "curvature" j <> 0 ->
     v "X1c" j * v "curvature" j = number f "eta_bar" /\ v "X1c" j * v "Y1s" j = integer f "sG" * integer f "spsi" /\ v "Y1c" j = v "Y1s" j * v "sigma" j /\
     1 <= v "elongation" j /\
     exists tmax tmin, 0 < distance f j tmin /\ (forall t, distance f j tmin <= distance f j t <= distance f j tmax) /\ v "elongation" j = distance f j tmax / distance f j tmin) /\
  ((forall j, (j < N)%nat -> v "curvature" j <> 0) -> (forall j, (j < N)%nat -> 0 < v "d_l_d_phi" j) ->
     (exists j, (j < N)%nat /\ number f "grid_max_elongation" = v "elongation" j) /\ (forall j, (j < N)%nat -> v "elongation" j <= number f "grid_max_elongation") /\
     1 <= number f "mean_elongation" <= number f "grid_max_elongation") /\
  (st <> NEWTON_LINESEARCH_FAILED -> v "sigma" 0%nat = number f "sigma0") /\
  (st = NEWTON_CONVERGED -> rsum N (fun j => sigma_residual f j ^ 2) < number f "newton_tolerance" * number f "newton_tolerance").
Proof.
  intros e t st f Hn H HsG Hsp He N v. destruct (view_run _ _ _ _ Hn H) as [s1 e1 sh a h x r u St Vs Va Vn Vu Vw Vf Vv Vsg Vc Vm Vo V2 Vk].
  assert (HN : (0 < m_int R e1 "nphi")%Z) by (apply (ready_positive R_ops), (b_ready _ _ _ _ _ _ St)).
  assert (En : N = a_nphi a). { unfold N, grid_points. rewrite (Vw "nphi" (m_int R e1 "nphi")) by (unfold first_wholes; in_list). lia. }
  clearbody N.
  set (q := r1_diagnostics R_ops R_math (first_input e1 a h) (fun j => nth j (u_sigma u) (fzero R_ops)) (u_iota u)) in *.
  assert (Ev : forall y g, In (y, g) (first_vectors e1 sh a q u) -> forall j, (j < N)%nat -> v y j = g j) by (intros y g Hi j Hj; apply Vv; [exact Hi|lia]).
  assert (Ef : forall y w, In (y, w) (first_numbers e1 a q u) -> number f y = w) by exact Vf.
  assert (Ew : forall y w, In (y, w) (first_wholes e1 h) -> whole R f y = w) by exact Vw.
  assert (Ek : forall j, (j < N)%nat -> v "curvature" j = a_curvature a j) by (apply Ev; unfold first_vectors; in_list).
  assert (EX : forall j, (j < N)%nat -> v "X1c" j = r_X1c q j) by (apply Ev; unfold first_vectors; in_list).
  assert (EYs : forall j, (j < N)%nat -> v "Y1s" j = r_Y1s q j) by (apply Ev; unfold first_vectors; in_list).
  assert (EYc : forall j, (j < N)%nat -> v "Y1c" j = r_Y1c q j) by (apply Ev; unfold first_vectors; in_list).
  assert (Ee : forall j, (j < N)%nat -> v "elongation" j = r_elongation q j) by (apply Ev; unfold first_vectors; in_list).
  assert (Eta : number f "eta_bar" = m_float R e1 "eta_bar") by (apply Ef; unfold first_numbers; in_list).
  assert (EsG : whole R f "sG" = m_int R e1 "sG") by (apply Ew; unfold first_wholes; in_list).
  assert (Esp : whole R f "spsi" = m_int R e1 "spsi") by (apply Ew; unfold first_wholes; in_list).
  assert (Esg : forall j, (j < N)%nat -> v "sigma" j = nth j (u_sigma u) 0) by (intros j Hj; apply Vsg; lia).
  assert (Einp : i_sG (first_input e1 a h) = whole R f "sG" /\ i_spsi (first_input e1 a h) = whole R f "spsi" /\ i_eta_bar (first_input e1 a h) = number f "eta_bar")
    by (rewrite Eta, EsG, Esp; repeat split).
  destruct Einp as (I1 & I2 & I3).
  destruct (first_order_shape (first_input e1 a h) (fun j => nth j (u_sigma u) 0) (u_iota u)) as (Fs & Fm); [rewrite I1; exact HsG|rewrite I2; exact Hsp|rewrite I3; exact He|].
  change (r1_diagnostics R_ops R_math (first_input e1 a h) (fun j => nth j (u_sigma u) 0) (u_iota u)) with q in Fs, Fm.
  assert (EiN : number f "iota_N" = number f "iota" + integer f "helicity" * integer f "nfp").
  { rewrite (Ef "iota_N" (r_iota_N q)) by (unfold first_numbers; in_list). rewrite (Ef "iota" (u_iota u)) by (unfold first_numbers; in_list).
    unfold integer. rewrite (Ew "helicity" h) by (unfold first_wholes; in_list). rewrite (Ew "nfp" (m_int R e1 "nfp")) by (unfold first_wholes; in_list). rewrite <- mult_IZR. reflexivity. }
  split; [lia|]. split; [exact EiN|]. split; [|split; [|split]].
  - intros j Hj Hk. rewrite Ek in Hk by exact Hj. destruct (Fs j Hk) as (X0 & Fy & Fa & Fe & (tmax & tmin & G1 & G2 & G3)).
    rewrite Ek, EX, EYs, EYc, Ee, Esg by exact Hj. split; [|split; [|split; [|split]]]; auto.
    + rewrite <- I3. change (r_X1c q j) with (i_eta_bar (first_input e1 a h) / a_curvature a j). field. exact Hk.
    + unfold integer. rewrite EsG, Esp. exact Fa.
    + assert (Ed : forall th, distance f j th = radius (ellipse q j th)).
      { intros th. unfold distance. fold (v "X1c" j) (v "Y1c" j) (v "Y1s" j). rewrite EX, EYc, EYs by exact Hj. unfold radius, ellipse. cbn [fst snd]. rewrite X0. f_equal. ring. }
      exists tmax, tmin. rewrite !Ed. split; [exact G1|]. split; [intros th; rewrite Ed; apply G2|exact G3].
  - intros Hk Hl. cbn [first_input i_axis] in Fm. rewrite <- En in Fm. destruct Fm as ((j & Hj & G1) & G2 & G3); [lia|intros j Hj; rewrite <- Ek by exact Hj; apply Hk; exact Hj| |].
    { intros j Hj. rewrite <- (Ev "d_l_d_phi" (a_d_l_d_phi a)) by first [unfold first_vectors; in_list|exact Hj]. apply Hl. exact Hj. }
    rewrite (Ef "grid_max_elongation" (r_grid_max_elongation q)) by (unfold first_numbers; in_list). rewrite (Ef "mean_elongation" (r_mean_elongation q)) by (unfold first_numbers; in_list).
    split; [exists j; split; [exact Hj|rewrite Ee by exact Hj; exact G1]|]. split; [intros k Hk'; rewrite Ee by exact Hk'; apply G2; exact Hk'|exact G3].
  - intros Hst. destruct (sigma_solution (first_input e1 a h) _ _ _ _ _ _ _ _ _ ltac:(cbn [first_input i_axis]; lia) Vu) as (_ & S & _). destruct (S Hst) as (_ & _ & S0 & _).
    rewrite Esg by lia. rewrite (Ef "sigma0" (m_float R e1 "sigma0")) by (unfold first_numbers; in_list). exact S0.
  - intros Hst. destruct (sigma_solution (first_input e1 a h) _ _ _ _ _ _ _ _ _ ltac:(cbn [first_input i_axis]; lia) Vu) as (_ & _ & S). specialize (S Hst).
    rewrite (Ef "newton_tolerance" (m_float R e1 "newton_tolerance")) by (unfold first_numbers; in_list). cbn [first_input i_axis] in S. rewrite <- En in S.
    erewrite rsum_ext; [exact S|]. intros j Hj. cbv beta. f_equal. unfold sigma_residual, sigma_equation. cbn [first_input i_axis i_helicity i_nfp i_eta_bar i_I2 i_B0 i_spsi].
    fold (v "curvature" j) (v "sigma" j) (v "torsion" j). rewrite Ek, Esg, (Ev "torsion" (a_torsion a)) by first [unfold first_vectors; in_list|exact Hj].
    rewrite Eta, (Ef "I2" (m_float R e1 "I2")), (Ef "B0" (m_float R e1 "B0")), (Ef "G0" (a_G0 a)) by (unfold first_numbers; in_list).
    rewrite EiN. unfold integer. rewrite (Ew "helicity" h), (Ew "nfp" (m_int R e1 "nfp")), Esp by (unfold first_wholes; in_list). rewrite (Ef "iota" (u_iota u)) by (unfold first_numbers; in_list).
    unfold d_d_varphi. replace (grid_points f) with N by (unfold grid_points; rewrite (Ew "nphi" (m_int R e1 "nphi")) by (unfold first_wholes; in_list); lia). rewrite <- En.
    f_equal. f_equal. apply rsum_ext. intros k Hk. fold (v "sigma" k). rewrite Esg by exact Hk. rewrite Vm by lia. reflexivity.
Qed.

Lemma axis_ok_run t s1 e1 a h : started R_ops R_math newton_tol t s1 e1 -> init_axis R_ops R_math Rge0 (axis_input_of e1) = Ok (a, h) -> (1 <= m_int R e1 "nfp")%Z -> axis_ok (axis_input_of e1).
Proof.
  intros St Va Hf. pose proof (ready_positive R_ops _ (b_ready _ _ _ _ _ _ St)) as Hn. destruct (b_ready _ _ _ _ _ _ St) as [_ (_ & _ & _ & L1 & L2 & _) _].
  destruct (Z_le_gt_dec (Z.of_nat (length (m_array R e1 "R0c") - 1) * m_int R e1 "nfp") 1290) as [Hr|Hr].
  - constructor; cbn [axis_input_of ai_nphi ai_nfp ai_R0c ai_R0s ai_Z0c ai_Z0s]; auto; try lia; apply L2; cbn; tauto.
  - exfalso. destruct (init_axis_overflow R_ops R_math Rge0 (axis_input_of e1)) as (w & Ew); cbn [axis_input_of ai_nphi ai_nfp ai_R0c ai_R0s ai_Z0c ai_Z0s]; try lia; try (apply L2; cbn; tauto).
    rewrite Va in Ew. discriminate Ew.
Qed.
Lemma series_padded nfp n (c s : list R) x : (length c <= n)%nat -> (length s <= n)%nat -> series nfp (TomlSpec.padded 0 n c) (TomlSpec.padded 0 n s) x = series nfp c s x.
Proof. intros Hl Hl'. rewrite !(series_tp nfp _ _ n) by (auto; rewrite TomlFacts.padded_length; auto). apply tp_ext. intros m _. unfold cf. rewrite !TomlFacts.padded_nth. auto. Qed.

(** C92.  The axis that the output file contains.  For the coefficients that the input file (or the defaults) give, let [curve] be the curve R = sum R0c cos + R0s sin,
    Z = sum Z0c cos + Z0s sin.  In the file: phi is the uniform grid of one field period; R0 and Z0 are the curve at these points; d_l_d_phi is the speed; the
    curvature is |r' x r''| / |r'|^3; where it is not 0, the torsion is that of the Frenet-Serret equations.  The lengths and means: the axis length is the
    sum of d_l_d_phi d_phi over all periods; G0 = sG B0 length / 2 pi; grid_min_R0 and grid_max_curvature are extrema over the grid; mean and standard deviation of R
    are weighted with the arclength. *)
Theorem axis_in_file : forall e t st f, small_grid IZR t -> run e t = Ok (st, f) -> (1 <= whole R f "nfp")%Z ->
  let N := grid_points f in let v := at_grid f in let nfp := whole R f "nfp" in let dl := v "d_l_d_phi" in
  exists s c, section_effect IZR qsc_keys t (default_store R_ops newton_tol) s /\ s "R0c" = VVec (R0c c) /\ s "R0s" = VVec (R0s c) /\ s "Z0c" = VVec (Z0c c) /\ s "Z0s" = VVec (Z0s c) /\
  let Rf x := series nfp (R0c c) (R0s c) x in let Zf x := series nfp (Z0c c) (Z0s c) x in
  let curve x := cyl x (V (Rf x) 0 (Zf x)) in
  (exists r1 r2 : R -> Curve.vec, (forall x, vderiv curve x (r1 x)) /\ (forall x, vderiv r1 x (r2 x)) /\
    forall j, (j < N)%nat -> let x := v "phi" j in let k := v "curvature" j in
    x = 2 * PI * INR j / (IZR nfp * INR N) /\ v "R0" j = Rf x /\ v "Z0" j = Zf x /\ dl j = norm (r1 x) /\
    (0 < dl j -> 0 <= k /\ k = norm (cross (r1 x) (r2 x)) / (dl j * dl j * dl j) /\
      (k <> 0 -> let T y := unit (r1 y) in let B y := unit (cross (r1 y) (r2 y)) in let n := cross (B x) (T x) in
        dot (T x) (T x) = 1 /\ dot n n = 1 /\ dot (T x) n = 0 /\ B x = cross (T x) n /\
        vderiv T x (scal (dl j * k) n) /\
        vderiv (fun y => cross (B y) (T y)) x (vadd (scal (- (dl j * k)) (T x)) (scal (dl j * v "torsion" j) (B x))) /\
        vderiv B x (scal (- (dl j * v "torsion" j)) n)))) /\
  (forall j, (j < N)%nat -> number f "grid_min_R0" <= v "R0" j) /\ (exists j, (j < N)%nat /\ number f "grid_min_R0" = v "R0" j) /\
  (forall j, (j < N)%nat -> v "curvature" j <= number f "grid_max_curvature") /\ (exists j, (j < N)%nat /\ number f "grid_max_curvature" = v "curvature" j) /\
  ((forall j, (j < N)%nat -> 0 < dl j) ->
    number f "axis_length" = IZR nfp * rsum N (fun j => dl j * number f "d_phi") /\ number f "d_phi" = 2 * PI / (IZR nfp * INR N) /\
    number f "G0" = integer f "sG" * number f "B0" * number f "axis_length" / (2 * PI) /\ number f "d_l_d_varphi" = number f "axis_length" / (2 * PI) /\
    (forall j, (S j < N)%nat -> v "Boozer_toroidal_angle" (S j) = v "Boozer_toroidal_angle" j + (dl j + dl (S j)) / 2 * number f "d_phi" / number f "d_l_d_varphi") /\
    v "Boozer_toroidal_angle" 0%nat = 0 /\
    number f "mean_R" = arc_mean N dl (v "R0") /\ number f "mean_Z" = arc_mean N dl (v "Z0") /\
    number f "standard_deviation_of_R" = sqrt (arc_mean N dl (fun j => (v "R0" j - number f "mean_R") * (v "R0" j - number f "mean_R"))) /\
    number f "standard_deviation_of_Z" = sqrt (arc_mean N dl (fun j => (v "Z0" j - number f "mean_Z") * (v "Z0" j - number f "mean_Z"))) /\
    number f "rms_curvature" = sqrt (arc_mean N dl (fun j => v "curvature" j * v "curvature" j))).
Proof.
  intros e t st f Hn H Hnfp N v nfp dl. destruct (view_run _ _ _ _ Hn H) as [s1 e1 sh a h x r u St Vs Va Vn Vu Vw Vf Vv Vsg Vc Vm Vo V2 Vk].
  set (q := r1_diagnostics R_ops R_math (first_input e1 a h) (fun j => nth j (u_sigma u) (fzero R_ops)) (u_iota u)) in *.
  assert (Ew : forall y w, In (y, w) (first_wholes e1 h) -> whole R f y = w) by exact Vw.
  assert (Enfp : nfp = m_int R e1 "nfp") by (apply Ew; unfold first_wholes; in_list).
  change (1 <= nfp)%Z in Hnfp. rewrite Enfp in Hnfp. pose proof (axis_ok_run _ _ _ _ _ St Va Hnfp) as Hok.
  assert (EN : N = ai_nphi (axis_input_of e1)). { unfold N, grid_points. rewrite (Ew "nphi" (m_int R e1 "nphi")) by (unfold first_wholes; in_list). reflexivity. }
  assert (EN' : a_nphi a = ai_nphi (axis_input_of e1)) by (cbn [axis_input_of ai_nphi]; lia).
  clearbody N nfp. subst nfp.
  assert (Ev : forall y g, In (y, g) (first_vectors e1 sh a q u) -> forall j, (j < N)%nat -> v y j = g j) by (intros y g Hi j Hj; apply Vv; [exact Hi|lia]).
  assert (Ef : forall y w, In (y, w) (first_numbers e1 a q u) -> number f y = w) by exact Vf.
  assert (Edl : forall j, (j < N)%nat -> dl j = a_d_l_d_phi a j) by (apply Ev; unfold first_vectors; in_list).
  assert (Ek : forall j, (j < N)%nat -> v "curvature" j = a_curvature a j) by (apply Ev; unfold first_vectors; in_list).
  assert (Et : forall j, (j < N)%nat -> v "torsion" j = a_torsion a j) by (apply Ev; unfold first_vectors; in_list).
  assert (Ep : forall j, (j < N)%nat -> v "phi" j = a_phi a j) by (apply Ev; unfold first_vectors; in_list).
  assert (ER : forall j, (j < N)%nat -> v "R0" j = a_R0 a j) by (apply Ev; unfold first_vectors; in_list).
  assert (EZ : forall j, (j < N)%nat -> v "Z0" j = a_Z0 a j) by (apply Ev; unfold first_vectors; in_list).
  assert (EB : forall j, (j < N)%nat -> v "Boozer_toroidal_angle" j = a_Boozer a j) by (apply Ev; unfold first_vectors; in_list).
  clearbody dl.
  destruct (b_axis _ _ _ _ _ _ St "R0c" ltac:(cbn; tauto)) as (c1 & S1 & P1). destruct (b_axis _ _ _ _ _ _ St "R0s" ltac:(cbn; tauto)) as (c2 & S2 & P2).
  destruct (b_axis _ _ _ _ _ _ St "Z0c" ltac:(cbn; tauto)) as (c3 & S3 & P3). destruct (b_axis _ _ _ _ _ _ St "Z0s" ltac:(cbn; tauto)) as (c4 & S4 & P4).
  set (M := length (m_array R e1 "R0c")) in *.
  assert (L : forall y c, In y axis_members -> m_array R e1 y = TomlSpec.padded (fzero R_ops) M c -> (length c <= M)%nat).
  { intros y c Hy E. assert (El : length (m_array R e1 y) = M) by (destruct (b_ready _ _ _ _ _ _ St) as [_ (_ & _ & _ & _ & L2 & _) _]; apply L2; exact Hy).
    rewrite E in El. unfold TomlSpec.padded in El. rewrite app_length, repeat_length in El. lia. }
  exists s1, (mkAxis c1 c2 c3 c4). cbn [R0c R0s Z0c Z0s]. split; [apply (b_effect _ _ _ _ _ _ St)|]. split; [exact S1|]. split; [exact S2|]. split; [exact S3|]. split; [exact S4|].
  cbv zeta. split.
  - destruct (frenet_frame _ Hok) as (a' & h' & r1 & r2 & r3 & E' & D1 & D2 & D3 & P). rewrite Va in E'. injection E' as <- <-.
    assert (SR : forall y, series (m_int R e1 "nfp") (m_array R e1 "R0c") (m_array R e1 "R0s") y = series (m_int R e1 "nfp") c1 c2 y).
    { intros y. rewrite P1, P2. apply series_padded; [apply (L "R0c"); [cbn; tauto|exact P1]|apply (L "R0s"); [cbn; tauto|exact P2]]. }
    assert (SZ : forall y, series (m_int R e1 "nfp") (m_array R e1 "Z0c") (m_array R e1 "Z0s") y = series (m_int R e1 "nfp") c3 c4 y).
    { intros y. rewrite P3, P4. apply series_padded; [apply (L "Z0c"); [cbn; tauto|exact P3]|apply (L "Z0s"); [cbn; tauto|exact P4]]. }
    exists r1, r2. split; [|split; [exact D2|]].
    { intros y. destruct (D1 y) as (A1 & A2 & A3). repeat split.
      - eapply dlim_ext; [|exact A1]. intros z. unfold position. cbn [axis_input_of ai_nfp ai_R0c ai_R0s ai_Z0c ai_Z0s]. rewrite SR, SZ. reflexivity.
      - eapply dlim_ext; [|exact A2]. intros z. unfold position. cbn [axis_input_of ai_nfp ai_R0c ai_R0s ai_Z0c ai_Z0s]. rewrite SR, SZ. reflexivity.
      - eapply dlim_ext; [|exact A3]. intros z. unfold position. cbn [axis_input_of ai_nfp ai_R0c ai_R0s ai_Z0c ai_Z0s]. rewrite SR, SZ. reflexivity. }
    intros j Hj. rewrite (Ep j), (Ek j), (ER j), (EZ j), (Edl j), (Et j) by exact Hj. specialize (P j ltac:(lia)). cbv zeta in P. destruct P as (Q1 & Q2 & Q3 & Q4 & Q5).
    rewrite Q1. split; [unfold grid_phi; rewrite <- EN; reflexivity|]. split; [rewrite Q2; apply SR|]. split; [rewrite Q3; apply SZ|]. split; [exact Q4|].
    intros Hd. destruct (Q5 Hd) as (T1 & T2 & T3 & T4 & T5). split; [exact T3|]. split; [exact T4|]. intros Hk.
    destruct (T5 Hk) as (U1 & U2 & U3 & U4 & W1 & W2 & W3 & W4 & W5).
    assert (En : cross (unit (cross (r1 (grid_phi (axis_input_of e1) j)) (r2 (grid_phi (axis_input_of e1) j)))) (unit (r1 (grid_phi (axis_input_of e1) j))) = normal a j).
    { rewrite W1, W2, U3. apply cross_frame; assumption. }
    rewrite En, W1, W2. split; [exact T2|]. split; [exact U1|]. split; [exact U2|]. split; [exact U3|]. split; [exact W3|]. split; [exact W4|exact W5].
  - destruct (axis_statistics _ _ _ Hok Va) as (A1 & (j1 & J1 & A2) & A3 & (j2 & J2 & A4) & A5). rewrite <- EN in *.
    rewrite (Ef "grid_min_R0" (a_grid_min_R0 a)), (Ef "grid_max_curvature" (a_grid_max_curvature a)) by (unfold first_numbers; in_list).
    split; [intros j Hj; rewrite ER by exact Hj; apply A1; exact Hj|]. split; [exists j1; rewrite ER by exact J1; auto|].
    split; [intros j Hj; rewrite Ek by exact Hj; apply A3; exact Hj|]. split; [exists j2; rewrite Ek by exact J2; auto|].
    intros Hd. assert (Hd' : forall j, (j < N)%nat -> 0 < a_d_l_d_phi a j) by (intros j Hj; rewrite <- Edl by exact Hj; apply Hd; exact Hj).
    destruct (A5 Hd') as (B1 & B2 & _ & B3 & B4 & _ & _ & B5 & _).
    pose proof (arclength _ _ _ Hok Va) as C. cbv zeta in C. rewrite <- EN in C. specialize (C Hd'). destruct C as (C1 & C2 & C3 & C4 & C5 & C6 & C7 & C8 & C9).
    assert (AM : forall g g', (forall j, (j < N)%nat -> g j = g' j) -> arc_mean N dl g = arc_mean N (a_d_l_d_phi a) g').
    { intros g g' Hg. unfold arc_mean. f_equal; [apply rsum_ext; intros j Hj; rewrite Hg, Edl by exact Hj; reflexivity|apply rsum_ext; exact Edl]. }
    rewrite (Ef "axis_length" (a_axis_length a)), (Ef "d_phi" (a_d_phi a)), (Ef "G0" (a_G0 a)), (Ef "B0" (m_float R e1 "B0")), (Ef "d_l_d_varphi" (a_abs_G0_over_B0 a)), (Ef "mean_R" (a_mean_R a)), (Ef "mean_Z" (a_mean_Z a)), (Ef "standard_deviation_of_R" (a_standard_deviation_of_R a)), (Ef "standard_deviation_of_Z" (a_standard_deviation_of_Z a)), (Ef "rms_curvature" (a_rms_curvature a)) by (unfold first_numbers; in_list).
    pose proof PI_RGT_0 as Hpi. assert (HG : 0 < a_abs_G0_over_B0 a).
    { rewrite C2. apply Rdiv_lt_0_compat; [apply rsum_pos; [destruct Hok; cbn [axis_input_of ai_nphi] in *; lia|exact Hd']|apply lt_0_INR; destruct Hok; lia]. }
    split; [rewrite C5; f_equal; apply rsum_ext; intros j Hj; rewrite Edl by exact Hj; reflexivity|]. split; [exact C1|].
    split. { unfold integer. rewrite (Ew "sG" (m_int R e1 "sG")) by (unfold first_wholes; in_list). rewrite C4, C6. cbn [axis_input_of ai_sG ai_B0]. field. lra. }
    split; [rewrite C6; field; lra|].
    split. { intros j Hj. rewrite !EB, !Edl by lia. destruct (C8 j Hj) as (-> & _). rewrite C6. field. lra. }
    split; [rewrite EB by (destruct Hok; lia); exact C7|].
    split; [rewrite B1; symmetry; apply AM; exact ER|]. split; [rewrite B2; symmetry; apply AM; exact EZ|].
    split; [rewrite B3; f_equal; symmetry; apply AM; intros j Hj; rewrite ER by exact Hj; reflexivity|].
    split; [rewrite B4; f_equal; symmetry; apply AM; intros j Hj; rewrite EZ by exact Hj; reflexivity|].
    rewrite B5. f_equal. symmetry. apply AM. intros j Hj. rewrite Ek by exact Hj. reflexivity.
Qed.
End File.
(** The hypotheses are met: a circular axis with a current, to the first order (RunCase). *)
Definition no_eigenvalues : list R -> Z * (list R * list R) := fun _ => (0%Z, ([], [])).
Notation run_circle ls := (Run.run R_ops R_math Rge0 (/ 1000) 1 circle_step ls no_eigenvalues (tolerances_of R_ops R_math false) (fun _ => true)).
Example first_order_case : forall e, exists f, let t := circle_table "r1" 0 in
  small_grid IZR t /\ run_circle (circle_solve (3 / 4 - 1 * 0)) e t = Ok (NEWTON_CONVERGED, f) /\
  is_sign (whole R f "sG") /\ is_sign (whole R f "spsi") /\ number f "eta_bar" <> 0 /\ (1 <= whole R f "nfp")%Z /\ grid_points f = 15%nat /\
  (forall j, (j < grid_points f)%nat -> at_grid f "curvature" j = 1 /\ 0 < at_grid f "d_l_d_phi" j) /\ number f "iota_N" = 1.
Proof.
  intros e. destruct (circle_runs (/ 1000) 1 0 "r1" no_eigenvalues false ltac:(lra) ltac:(cbn; tauto) (fun _ => eq_refl) e) as (f & H). exists f.
  destruct (circle_file (/ 1000) 1 0 "r1" no_eigenvalues false ltac:(lra) ltac:(cbn; tauto) e _ f H) as (N & [R1 R2 R3 R4 R5 R6 R7] & I & _ & _ & K & _).
  split; [apply circle_small|]. split; [exact H|]. repeat split; auto; apply K; lia.
Qed.
Print Assumptions first_order_in_file. Print Assumptions axis_in_file.
