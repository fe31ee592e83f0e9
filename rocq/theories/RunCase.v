(** An input file whose results are known in closed form: a circular axis with a current.  The examples of the properties of output files use it. *)
From Coq Require Import String ZArith Reals Lra Arith Bool Lia List FunctionalExtensionality.
From Verif Require Import Base BaseFacts FloatOps MathOps MathFacts Tensor Newton NewtonSpec NewtonFacts Diff DiffFacts Curve Axis AxisSpec AxisFacts R1 R1Spec R1Facts R2 R2Spec R2Facts RSing RSingSpec GradGradB Alloc AllocSpec AllocFacts Toml TomlSpec TomlFacts
  Options OptionsSpec NetCDF NetCDFOut NetCDFNames NetCDFSpec NetCDFFacts NetCDFRead Properties_NetCDF Run RunSpec RunFacts RunFile RunView RunShown.
From Verif Require Import HelicityFacts ScanFacts Properties_Axis Properties_R1 Properties_R2 Order Properties_Field Properties_RunSafe Properties_Run.
Import ListNotations.
Local Open Scope string_scope.
Local Open Scope R_scope.

(** ** The rows of the second-order system, from the two equations *)
Section Rows.
Variable (i : r2_input R) (x X20 Y20 : nat -> R).
Let a := i_axis (j_r1 i). Let n := a_nphi a.
Hypothesis (HX : forall k, (k < n)%nat -> x k = X20 k) (HY : forall k, (k < n)%nat -> x (k + n)%nat = Y20 k).
Let s := r2_from_solution R_ops R_math i X20 Y20.
Let q := r1_diagnostics R_ops R_math (j_r1 i) (j_sigma i) (j_iota i).
Notation D := (grid_derivative a).
Lemma equations_solution j : (j < n)%nat -> equation1 i s j -> equation2 i s j ->
  rsum (2 * n) (fun c => fin R_ops R_math i j c * x c) = rhs1 R_ops R_math i j /\
  rsum (2 * n) (fun c => fin R_ops R_math i (j + n) c * x c) = rhs2 R_ops R_math i j.
Proof.
  intros Hj E1 E2. unfold n, a. rewrite row1, row2 by auto. fold a n. fold q.
  assert (DX : forall f, D (fun k => f k * x k) j = D (fun k => f k * X20 k) j) by (intros f; apply rsum_ext; intros k Hk; rewrite HX by exact Hk; reflexivity).
  assert (DX0 : D x j = D X20 j) by (apply rsum_ext; intros k Hk; rewrite HX by exact Hk; reflexivity).
  assert (DY : D (fun k => x (k + n)%nat) j = D Y20 j) by (apply rsum_ext; intros k Hk; rewrite HY by exact Hk; reflexivity).
  rewrite !DX, DX0, DY, (HX j Hj), (HY j Hj).
  assert (DY2s : D (s_Y2s s) j = D (Y2s_inhomogeneous R_ops R_math i) j + D (fun k => Y2s_from_X20 R_ops R_math i k * X20 k) j) by apply grid_derivative_plus.
  assert (DY2c : D (s_Y2c s) j = D (Y2c_inhomogeneous R_ops R_math i) j + D (fun k => Y2c_from_X20 R_ops R_math i k * X20 k) j + D Y20 j).
  { change (s_Y2c s) with (fun k => (Y2c_inhomogeneous R_ops R_math i k + Y2c_from_X20 R_ops R_math i k * X20 k) + Y20 k). rewrite !grid_derivative_plus. reflexivity. }
  unfold equation1, fX0, fXs, fXc, fY0, fYs, fYc in E1. unfold equation2, fX0, fXs, fXc, fY0, fYs, fYc in E2. cbv zeta in E1, E2. fold a in E1, E2. fold q in E1, E2. rewrite DY2s, DY2c in E1, E2.
  change (s_Y2s s j) with (Y2s_inhomogeneous R_ops R_math i j + Y2s_from_X20 R_ops R_math i j * X20 j) in E1, E2.
  change (s_Y2c s j) with (Y2c_inhomogeneous R_ops R_math i j + Y2c_from_X20 R_ops R_math i j * X20 j + Y20 j) in E1, E2.
  change (s_X20 s) with X20 in E1, E2. change (s_Y20 s) with Y20 in E1, E2. change (s_X2s s) with (X2s R_ops R_math i) in E1, E2. change (s_X2c s) with (X2c R_ops R_math i) in E1, E2.
  change (s_Z20 s) with (Z20 R_ops R_math i) in E1, E2. change (s_Z2s s) with (Z2s R_ops R_math i) in E1, E2. change (s_Z2c s) with (Z2c R_ops R_math i) in E1, E2.
  change (s_beta_1s s) with (beta_1s R_ops R_math i) in E1, E2.
  unfold d11, d12, d21, d22, rhs1, rhs2, fX0_from_X20, fX0_from_Y20, fX0_inhomogeneous, fXs_from_X20, fXs_from_Y20, fXs_inhomogeneous,
    fXc_from_X20, fXc_from_Y20, fXc_inhomogeneous, fY0_from_X20, fY0_from_Y20, fY0_inhomogeneous,
    fYs_from_X20, fYs_from_Y20, fYs_inhomogeneous, fYc_from_X20, fYc_from_Y20, fYc_inhomogeneous.
  fold a. fold q.
  change (ddv R_ops (j_r1 i)) with D.
  cbn [R_ops R_math fadd fsub fmul fdiv fopp fone ftwo fzero m_of_Z]. rewrite !mult_IZR. rewrite ?opp_IZR.
  change (r_I2_over_B0 q) with (i_I2 (j_r1 i) / i_B0 (j_r1 i)).
  change (IZR (-4)) with (-4). change (IZR (-2)) with (-2).
  unfold Rdiv in *. split; apply Rminus_diag_uniq;
  [match type of E1 with ?l = _ => transitivity l; [ring|exact E1] end|match type of E2 with ?l = _ => transitivity l; [ring|exact E2] end].
Qed.
End Rows.

(** ** The input file *)
Definition circle_table (order : string) (p2 : R) : table R :=
  [("nfp", Toml.TInt 1); ("order_r_option", Toml.TStr order); ("eta_bar", Toml.TFloat 1); ("I2", Toml.TFloat 1); ("p2", Toml.TFloat p2);
   ("R0c", TArr [Toml.TFloat 1; Toml.TFloat 0]); ("R0s", TArr [Toml.TFloat 0; Toml.TFloat 0]); ("Z0c", TArr [Toml.TFloat 0; Toml.TFloat 0]); ("Z0s", TArr [Toml.TFloat 0; Toml.TFloat 0])].
Definition circle_preset order p2 : preset := mkPreset (F := R) 1 [("eta_bar", 1); ("I2", 1); ("p2", p2)] order [1; 0] [0; 0] [0; 0] [0; 0].
Lemma circle_ok order p2 : In order ["r1"; "r2"; "r2.1"] -> preset_ok (circle_preset order p2) 2.
Proof.
  intros Ho. constructor; cbn [circle_preset p_nfp p_floats p_order p_R0c p_R0s p_Z0c p_Z0s]; try reflexivity; try lia; [|exact Ho].
  intros x v [E|[E|[E|[]]]]; injection E as <- <-; cbn; tauto.
Qed.
Lemma circle_small order p2 : small_grid IZR (circle_table order p2).
Proof. intros v z E. discriminate E. Qed.

(** The external routines: a Newton step that solves the equation for iota, and a solver that knows the solution of the second-order system, and checks it. *)
Definition circle_step (m : nat -> nat -> R) (v : list R) : outcome (list R) := Ok (match v with [] => [] | x :: l => x / 2 :: map (fun _ => 0) l end).
Definition solves (n : nat) (m : matrix R) (b x : list R) : bool :=
  forallb (fun k => if Req_EM_T (rsum n (fun c => entry R_ops m k c * nth c x 0)) (nth k b 0) then true else false) (seq 0 n).
Definition circle_x (X20 : R) : list R := repeat X20 15 ++ repeat 0 15.
Definition circle_solve (X20 : R) (m : matrix R) (b : list R) : outcome (list R) := if solves 30 m b (circle_x X20) then Ok (circle_x X20) else Throw "singular".
Lemma solves_rows n m b x : solves n m b x = true <-> forall k, (k < n)%nat -> rsum n (fun c => entry R_ops m k c * nth c x 0) = nth k b 0.
Proof.
  unfold solves. rewrite forallb_forall. split.
  - intros H k Hk. specialize (H k ltac:(apply in_seq; lia)). cbv beta in H. destruct (Req_EM_T _ _); [assumption|discriminate].
  - intros H k Hk. apply in_seq in Hk. destruct (Req_EM_T _ _) as [|Hn]; [reflexivity|]. exfalso. apply Hn, H. lia.
Qed.
Lemma circle_solve_correct X20 : solver_correct 30 (circle_solve X20).
Proof.
  intros m b x _ Hb H. unfold circle_solve in H. destruct (solves 30 m b (circle_x X20)) eqn:E; [|discriminate H]. injection H as <-. split; [reflexivity|].
  apply solves_rows. exact E.
Qed.

(** What the calculation starts from. *)
Section Start.
Variables (newton_tol p2 : R) (order : string) (s1 : store R) (e1 : members R).
Hypothesis Ho : In order ["r1"; "r2"; "r2.1"].
Hypothesis St : started R_ops R_math newton_tol (circle_table order p2) s1 e1.
Lemma circle_effect : axis_input_of e1 = circle_in 15 /\
  (forall x v, In (x, v) [("I2", 1); ("eta_bar", 1); ("sigma0", 0); ("p2", p2); ("B2s", 0); ("B2c", 0); ("B0", 1); ("newton_tolerance", newton_tol)] -> m_float R e1 x = v) /\
  (forall x v, In (x, v) [("nphi", 15%Z); ("nfp", 1%Z); ("sG", 1%Z); ("spsi", 1%Z); ("max_newton_iterations", 12%Z); ("max_linesearch_iterations", 4%Z)] -> m_int R e1 x = v) /\
  m_text R e1 "order_r_option" = order.
Proof.
  destruct (preset_effect R_ops R_math Rge0 newton_tol 0 easy_solver (fun _ => true) (circle_preset order p2) 2 s1 (circle_ok order p2 Ho) (b_effect _ _ _ _ _ _ St)) as (P1 & P2 & P3 & P4 & P5 & P6 & P7).
  cbn [circle_preset p_nfp p_floats p_order p_R0c p_R0s p_Z0c p_Z0s] in *.
  assert (I : forall x v, In (x, v) [("nphi", 15%Z); ("nfp", 1%Z); ("sG", 1%Z); ("spsi", 1%Z); ("max_newton_iterations", 12%Z); ("max_linesearch_iterations", 4%Z)] -> m_int R e1 x = v).
  { intros x v [E|Hx].
    { injection E as <- <-. destruct (b_nphi _ _ _ _ _ _ St) as (z & Ez & ->). rewrite P1 in Ez by (cbn; tauto). injection Ez as <-. reflexivity. }
    cbn [In] in Hx. repeat (destruct Hx as [E|Hx]; [injection E as <- <-;
      match goal with |- m_int R e1 ?y = _ => pose proof (b_int _ _ _ _ _ _ St y ltac:(cbn; tauto) ltac:(discriminate)) as E; rewrite P1 in E by (cbn; tauto); injection E as <-; reflexivity end|]). destruct Hx. }
  assert (Fl : forall x v, In (x, v) [("I2", 1); ("eta_bar", 1); ("sigma0", 0); ("p2", p2); ("B2s", 0); ("B2c", 0); ("B0", 1); ("newton_tolerance", newton_tol)] -> m_float R e1 x = v).
  { intros x v Hx. cbn [In] in Hx. repeat (destruct Hx as [E|Hx]; [injection E as <- <-;
      match goal with |- m_float R e1 ?y = _ => pose proof (b_float _ _ _ _ _ _ St y ltac:(cbn; tauto)) as E; rewrite P2 in E by (cbn; tauto); injection E as <-; reflexivity end|]). destruct Hx. }
  split; [|split; [exact Fl|split; [exact I|]]].
  2: { pose proof (b_order _ _ _ _ _ _ St) as E. rewrite P3 in E. injection E as <-. reflexivity. }
  pose proof (b_length _ _ _ _ _ _ St (mkAxis [1; 0] [0; 0] [0; 0] [0; 0]) P4 P5 P6 P7) as L. cbn in L.
  assert (A : forall x v, In x axis_members -> s1 x = VVec v -> length v = 2%nat -> m_array R e1 x = v).
  { intros x v Hx Ev Lv. destruct (b_axis _ _ _ _ _ _ St x Hx) as (w & Ew & ->). rewrite Ev in Ew. injection Ew as <-. rewrite L. unfold TomlSpec.padded. rewrite Lv. apply app_nil_r. }
  unfold axis_input_of, circle_in. rewrite (A "R0c" _ ltac:(cbn; tauto) P4 eq_refl), (A "R0s" _ ltac:(cbn; tauto) P5 eq_refl), (A "Z0c" _ ltac:(cbn; tauto) P6 eq_refl), (A "Z0s" _ ltac:(cbn; tauto) P7 eq_refl).
  rewrite (I "nphi" 15%Z), (I "nfp" 1%Z), (I "sG" 1%Z), (I "spsi" 1%Z), (Fl "B0" 1) by (cbn; tauto). reflexivity.
Qed.
End Start.

(** Newton's method: one step leads to the solution. *)
Section Sigma.
Variables (a : axis R) (h : Z) (tol : R) (u : sigma_user R).
Hypothesis (En : a_nphi a = 15%nat) (Et : forall j, a_torsion a j = 0) (Ek : forall j, a_curvature a j = 1) (EG : a_G0 a = 1).
Let i : r1_input R := mkR1 a 1 h 1 1 1 1 1 0.
Let c (x : R) : R := 2 * (x + IZR h) - 2.
Let zeros : list R := [0; 0; 0; 0; 0; 0; 0; 0; 0; 0; 0; 0; 0; 0].
Let all (x : R) : list R := [x; x; x; x; x; x; x; x; x; x; x; x; x; x; x].
Lemma circle_residual x v : sigma_eq_residual R_ops R_math i (x :: zeros) v = Ok (all (c x), mkSigmaUser (0 :: zeros) x).
Proof.
  rewrite residual_eq by discriminate. cbn [tl]. change (i_sigma0 i) with 0. change (i_axis i) with a. unfold state_iota. cbn [nth]. rewrite En. f_equal. f_equal.
  assert (S : forall j, sigma_equation i (state_sigma i (x :: zeros)) x j = c x).
  { intros j. unfold sigma_equation. change (i_axis i) with a. change (i_eta_bar i) with 1. change (i_helicity i) with h. change (i_nfp i) with 1%Z. change (i_I2 i) with 1. change (i_B0 i) with 1. change (i_spsi i) with 1%Z. rewrite Ek, Et, EG.
    assert (Z : forall k, state_sigma i (x :: zeros) k = 0).
    { intros k. unfold state_sigma. destruct (Nat.eqb_spec k 0) as [->|Hk]; [reflexivity|]. destruct k as [|k]; [congruence|]. cbn [nth]. unfold zeros.
      do 14 (destruct k as [|k]; [reflexivity|]). destruct k; reflexivity. }
    rewrite Z. rewrite (rsum_ext (a_nphi a) _ (fun _ => 0)) by (intros k _; rewrite Z; ring). rewrite rsum_const. unfold c. field. }
  cbn [seq map]. rewrite !S. reflexivity.
Qed.
Lemma circle_norm x : NewtonSpec.norm_sq R_ops (all x) = 15 * (x * x).
Proof. unfold NewtonSpec.norm_sq, all. cbn [fold_left R_ops fadd fmul fzero]. ring. Qed.
Lemma circle_sigma : 0 < tol <= 1 ->
  solve_sigma_equation R_ops R_math i circle_step 12 4 tol u = Ok (NEWTON_CONVERGED, (1 - IZR h) :: zeros, all (c (1 - IZR h)), mkSigmaUser (0 :: zeros) (1 - IZR h)).
Proof.
  intros Ht. unfold solve_sigma_equation. change (i_axis i) with a. change (i_sigma0 i) with 0. rewrite En. change (aset (repeat 0 15) 0 (fzero R_ops)) with (Ok (0 :: zeros)). cbn [bind].
  unfold newton_solve. rewrite circle_residual. cbn [bind fst snd]. rewrite dot_self. cbn [bind]. rewrite circle_norm.
  change (Z.to_nat 12) with (S (S 10)). change (Z.to_nat 4) with (S 3). cbn [R_ops fmul]. generalize 10%nat, 3%nat. intros n k.
  destruct (Z.eq_dec h 1) as [->|Hh].
  - assert (E : c 0 = 0) by (unfold c; lra). assert (E1 : 1 - 1 = 0) by ring. rewrite E1, E. cbn [newton_loop n_norm flt R_ops]. unfold Rltb at 1.
    destruct (Rlt_dec (15 * (0 * 0)) (tol * tol)) as [|N]; [reflexivity|]. exfalso. apply N. nra.
  - assert (B : 1 <= (1 - IZR h) * (1 - IZR h)).
    { rewrite <- (minus_IZR 1 h), <- mult_IZR. apply IZR_le. nia. }
    assert (Ec : c 0 * c 0 = 4 * ((1 - IZR h) * (1 - IZR h))) by (unfold c; ring).
    cbn [newton_loop n_norm flt R_ops]. unfold Rltb at 1. destruct (Rlt_dec (15 * (c 0 * c 0)) (tol * tol)) as [L|_]; [exfalso; rewrite Ec in L; nra|].
    unfold sigma_eq_jacobian. cbn [bind fst snd n_state n_residual n_user circle_step all map fopp R_ops].
    cbn [linesearch axpy length Nat.eqb n_user n_state zeros combine map fst snd bind fone fadd fmul R_ops].
    match goal with |- context [sigma_eq_residual R_ops R_math i ?s _] => replace s with ((1 - IZR h) :: zeros) by (unfold c, zeros; repeat (f_equal; try field)) end.
    rewrite circle_residual. cbn [bind fst snd]. rewrite dot_self. cbn [bind]. rewrite circle_norm.
    assert (E : c (1 - IZR h) = 0) by (unfold c; ring). rewrite E. cbn [flt R_ops]. unfold Rltb at 1.
    destruct (Rlt_dec (15 * (0 * 0)) (15 * (c 0 * c 0))) as [_|N]; [|exfalso; apply N; rewrite Ec; lra]. cbn [bind n_norm]. unfold Rltb at 1.
    destruct (Rlt_dec (15 * (c 0 * c 0)) (15 * (0 * 0))) as [L|_]; [exfalso; rewrite Ec in L; lra|]. unfold Rltb at 1.
    destruct (Rlt_dec (15 * (0 * 0)) (tol * tol)) as [_|N]; [|exfalso; apply N; nra]. reflexivity.
Qed.
End Sigma.

(** ** The run *)
Section CircleRun.
Variables (newton_tol mu0 p2 : R) (order : string) (geev : list R -> Z * (list R * list R)) (single : bool).
Hypothesis Ht : 0 < newton_tol <= 1.
Hypothesis Ho : In order ["r1"; "r2"; "r2.1"].
Hypothesis Hg : forall m, fst (geev m) = 0%Z.
Let X20 : R := 3 / 4 - mu0 * p2.
Notation run_with ls := (Run.run R_ops R_math Rge0 newton_tol mu0 circle_step ls geev (tolerances_of R_ops R_math single) (fun _ => true)).
Definition circle_known : matrix R -> list R -> outcome (list R) := fun _ _ => Ok (circle_x X20).
Lemma circle_known_runs e : exists st f, run_with circle_known e (circle_table order p2) = Ok (st, f).
Proof.
  apply (run_defined Rge0 newton_tol mu0 circle_step circle_known geev single).
  - exact (preset_valid R_math Rge0 newton_tol 0 easy_solver (fun _ => true) (circle_preset order p2) 2 (circle_ok order p2 Ho)).
  - intros s Hs. split.
    + exact (preset_acceptable R_ops R_math Rge0 newton_tol 0 easy_solver (fun _ => true) (circle_preset order p2) 2 s (circle_ok order p2 Ho) Hs).
    + destruct (preset_effect R_ops R_math Rge0 newton_tol 0 easy_solver (fun _ => true) (circle_preset order p2) 2 s (circle_ok order p2 Ho) Hs) as (_ & _ & E & _). exists order. split; [exact E|exact Ho].
  - intros m [|x v]; eexists; (split; [reflexivity|]); cbn [length]; rewrite ?map_length; reflexivity.
  - intros m v. eexists. reflexivity.
  - exact Hg.
Qed.
Lemma circle_x_nth k : (k < 15)%nat -> nth k (circle_x X20) 0 = X20 /\ nth (k + 15) (circle_x X20) 0 = 0.
Proof. intros Hk. do 15 (destruct k as [|k]; [split; reflexivity|]). lia. Qed.
Lemma circle_members s1 e1 : started R_ops R_math newton_tol (circle_table order p2) s1 e1 ->
  exists a h, regular (circle_in 15) a h 1 /\ a_nphi a = 15%nat /\ (forall j, a_torsion a j = 0) /\ (forall j, a_curvature a j = 1) /\
  let z := [0; 0; 0; 0; 0; 0; 0; 0; 0; 0; 0; 0; 0; 0] in let u := mkSigmaUser (0 :: z) (1 - IZR h) in
  init_axis R_ops R_math Rge0 (axis_input_of e1) = Ok (a, h) /\
  (exists x r, forall u0, solve_sigma_equation R_ops R_math (first_input e1 a h) circle_step (m_int R e1 "max_newton_iterations") (m_int R e1 "max_linesearch_iterations") (m_float R e1 "newton_tolerance") u0 =
    Ok (NEWTON_CONVERGED, x, r, u)) /\
  second_input R_ops mu0 e1 a h u = r2_config (circle_in 15) a h 1 1 0 (fun _ => 0) (1 - IZR h) p2 0 0 mu0 /\
  let i := second_input R_ops mu0 e1 a h u in let s := r2_from_solution R_ops R_math i (fun _ => X20) (fun _ => 0) in
  forall j, (j < 15)%nat -> equation1 i s j /\ equation2 i s j.
Proof.
  intros St. destruct (circle_effect newton_tol p2 order s1 e1 Ho St) as (Ea & Fl & In' & _).
  destruct (circle 15 ltac:(lia)) as (a0 & h0 & Hr0 & _ & _ & _ & _ & _ & _ & EG0 & _).
  destruct (circle_solution 15 p2 0 0 mu0 ltac:(lia)) as (a & h & Hr & En & Et & Ek & El & E). cbv zeta in E. destruct E as (_ & _ & _ & _ & Eq).
  assert (EG : a_G0 a = 1).
  { pose proof (reg_axis _ _ _ _ Hr0) as G0. pose proof (reg_axis _ _ _ _ Hr) as G1. rewrite G0 in G1. injection G1 as <- _. exact EG0. }
  clear a0 h0 Hr0 EG0. exists a, h. split; [exact Hr|]. split; [exact En|]. split; [exact Et|]. split; [exact Ek|]. intros z u.
  assert (E1 : first_input e1 a h = mkR1 a 1 h 1 1 1 1 1 0).
  { unfold first_input. rewrite (In' "nfp" 1%Z), (In' "sG" 1%Z), (In' "spsi" 1%Z), (Fl "B0" 1), (Fl "I2" 1), (Fl "eta_bar" 1), (Fl "sigma0" 0) by (cbn; tauto). reflexivity. }
  assert (E2 : second_input R_ops mu0 e1 a h u = r2_config (circle_in 15) a h 1 1 0 (fun _ => 0) (1 - IZR h) p2 0 0 mu0).
  { unfold second_input. rewrite E1, (Fl "p2" p2), (Fl "B2s" 0), (Fl "B2c" 0) by (cbn; tauto). unfold r2_config, r1_config. cbn [circle_in ai_nfp ai_sG ai_spsi ai_B0]. f_equal.
    apply functional_extensionality. intros k. cbn [u_sigma u z]. do 15 (destruct k as [|k]; [reflexivity|]). destruct k; reflexivity. }
  split; [rewrite Ea; exact (reg_axis _ _ _ _ Hr)|]. split; [|split; [exact E2|]].
  - rewrite E1, (In' "max_newton_iterations" 12%Z), (In' "max_linesearch_iterations" 4%Z), (Fl "newton_tolerance" newton_tol) by (cbn; tauto).
    eexists _, _. intros u0. apply (circle_sigma a h newton_tol u0 En Et Ek EG Ht).
  - cbv zeta. rewrite E2. intros j Hj. destruct (Eq j Hj) as (_ & _ & Q). exact Q.
Qed.
Theorem circle_runs e : exists f, run_with (circle_solve X20) e (circle_table order p2) = Ok (NEWTON_CONVERGED, f).
Proof.
  destruct (circle_known_runs e) as (st & f & H). exists f.
  destruct (run_steps R_ops R_math Rge0 newton_tol mu0 circle_step circle_known geev (tolerances_of R_ops R_math single) (fun _ => true) e _ st f (circle_small order p2) H)
    as (s1 & e1 & e2 & (St & _) & Hc & Hrun).
  destruct (circle_members s1 e1 St) as (a & h & Hr & En & Et & Ek & Ea & (x0 & r0 & Es) & Ei & Eq).
  assert (st = NEWTON_CONVERGED) as ->.
  { pose proof (calculate_computed R_ops R_math Rge0 mu0 circle_step circle_known geev (tolerances_of R_ops R_math single) (fun _ => true) _ _ _ Hc) as [d sh a' h' x r u _ _ Ca Cu _].
    rewrite Ea in Ca. injection Ca as <- <-. rewrite Es in Cu. injection Cu as <- _ _ _. reflexivity. }
  apply Hrun. apply (calculate_other R_ops R_math Rge0 mu0 circle_step circle_known geev (tolerances_of R_ops R_math single) (fun _ => true) _ _ _ _ Hc).
  intros a' h' x r u q F2 Ca Cu m E. rewrite Ea in Ca. injection Ca as <- <-. rewrite Es in Cu. injection Cu as _ _ <-.
  assert (HN : (0 < m_int R e1 "nphi")%Z) by (apply (ready_positive R_ops), (b_ready _ _ _ _ _ _ St)).
  assert (Sz : forall x k, In x ["r2_matrix"; "r2_rhs"] -> want (grid e1) x = Some k -> length (m_array R e1 x) = k).
  { intros y k Hx Hk.
    assert (Hq : exists s, required (m_flag R e1 "at_least_order_r2") (m_flag R e1 "order_r2p1") (m_flag R e1 "order_r3") (m_int R e1 "nphi") y s)
      by (rewrite F2; destruct Hx as [<-|[<-|[]]]; eexists; constructor; reflexivity).
    destruct Hq as (s & Hq). exact (ready_size R_ops e1 y s k (b_ready _ _ _ _ _ _ St) Hq Hk). }
  assert (Eg1 : grid e1 = 15%nat).
  { destruct (circle_effect newton_tol p2 order s1 e1 Ho St) as (_ & _ & In' & _). unfold grid. rewrite (In' "nphi" 15%Z) by (cbn; tauto). reflexivity. }
  rewrite Eg1 in Sz.
  pose proof (Sz "r2_matrix" _ ltac:(left; reflexivity) eq_refl) as Hm. pose proof (Sz "r2_rhs" _ ltac:(right; left; reflexivity) eq_refl) as Hb. clear Sz.
  set (i := second_input R_ops mu0 e1 a h _) in *. set (b := m_array R e1 "r2_rhs") in *.
  assert (Ni : a_nphi (i_axis (j_r1 i)) = 15%nat) by exact En.
  assert (Mm : mat_ok (2 * a_nphi (i_axis (j_r1 i))) (2 * a_nphi (i_axis (j_r1 i))) m) by (rewrite Ni; unfold m; rewrite En; split; [reflexivity|]; split; [reflexivity|]; exact Hm).
  assert (Lb : length b = (2 * a_nphi (i_axis (j_r1 i)))%nat) by (rewrite Ni; exact Hb).
  destruct (fill_matrix_ok R_ops R_math i m Mm) as (m' & Em & Om & Vm). destruct (fill_rhs_ok R_ops R_math i b Lb) as (b' & Eb & Lb' & Vb).
  unfold calculate_r2 in *. rewrite Em in *. cbn [bind] in *. rewrite Eb in *. cbn [bind] in *. unfold circle_known in E. cbn [bind] in E.
  unfold circle_solve. replace (solves 30 m' b' (circle_x X20)) with true; [cbn [bind]; exact E|]. symmetry. apply solves_rows.
  intros k Hk. rewrite (rsum_ext 30 _ (fun c => fin R_ops R_math i k c * nth c (circle_x X20) 0)) by (intros c Hc'; rewrite Vm by (rewrite Ni; lia); reflexivity).
  assert (W : forall j, (j < 15)%nat -> rsum 30 (fun c => fin R_ops R_math i j c * nth c (circle_x X20) 0) = rhs1 R_ops R_math i j /\
    rsum 30 (fun c => fin R_ops R_math i (j + 15) c * nth c (circle_x X20) 0) = rhs2 R_ops R_math i j).
  { intros j Hj. destruct (Eq j Hj) as (Q1 & Q2).
    pose proof (equations_solution i (fun c => nth c (circle_x X20) 0) (fun _ => X20) (fun _ => 0)) as W. cbv zeta in W. rewrite Ni in W. apply W; [| |exact Hj|exact Q1|exact Q2];
      intros c Hc'; apply circle_x_nth; exact Hc'. }
  rewrite Ni in Vb. destruct (Nat.lt_ge_cases k 15) as [L|L].
  - rewrite (proj1 (W k L)). symmetry. apply (Vb k L).
  - replace k with ((k - 15) + 15)%nat by lia. rewrite (proj2 (W (k - 15)%nat ltac:(lia))). symmetry. apply (Vb (k - 15)%nat). lia.
Qed.
Lemma circle_file e st f : run_with (circle_solve X20) e (circle_table order p2) = Ok (st, f) ->
  grid_points f = 15%nat /\ regular_file f /\ number f "iota_N" = 1 /\ (order <> "r1" -> number f "p2" = p2) /\ number f "sigma0" = 0 /\
  (forall j, (j < 15)%nat -> at_grid f "curvature" j = 1 /\ at_grid f "torsion" j = 0 /\ at_grid f "sigma" j = 0) /\
  whole R f "at_least_order_r2" = (if String.eqb order "r1" then 0 else 1)%Z /\ whole R f "order_r2.1" = (if String.eqb order "r2.1" then 1 else 0)%Z /\ whole R f "order_r3" = (if String.eqb order "r2.1" then 1 else 0)%Z.
Proof.
  intros H. destruct (view_run R_ops R_math Rge0 newton_tol mu0 circle_step (circle_solve X20) geev (tolerances_of R_ops R_math single) (fun _ => true) _ _ _ _ (circle_small order p2) H)
    as [s1 e1 sh a h x r u St Vs Va Vn Vu Vw Vf Vv Vsg Vc Vm (O1 & O2 & O3) V2 Vk].
  destruct (circle_members s1 e1 St) as (a' & h' & Hr & En & Et & Ek & Ea & (x0 & r0 & Es) & Ei & _). rewrite Ea in Va. injection Va as <- <-. rewrite Es in Vu. injection Vu as _ _ _ <-.
  destruct (circle_effect newton_tol p2 order s1 e1 Ho St) as (_ & Fl & In' & Eo).
  set (q := r1_diagnostics _ _ _ _ _) in *.
  assert (Ef : forall y w, In (y, w) (first_numbers e1 a' q (mkSigmaUser [0; 0; 0; 0; 0; 0; 0; 0; 0; 0; 0; 0; 0; 0; 0] (1 - IZR h'))) -> number f y = w) by exact Vf.
  assert (Ew : forall y w, In (y, w) (first_wholes e1 h') -> whole R f y = w) by exact Vw.
  assert (Ev : forall y g, In (y, g) (first_vectors e1 sh a' q (mkSigmaUser [0; 0; 0; 0; 0; 0; 0; 0; 0; 0; 0; 0; 0; 0; 0] (1 - IZR h'))) -> forall j, (j < 15)%nat -> at_grid f y j = g j)
    by (intros y g Hi j Hj; apply Vv; [exact Hi|rewrite En; exact Hj]).
  assert (N : grid_points f = 15%nat).
  { unfold grid_points. rewrite (Ew "nphi" (m_int R e1 "nphi")) by (unfold first_wholes; in_list). rewrite (In' "nphi" 15%Z) by (cbn; tauto). reflexivity. }
  assert (K : forall j, (j < 15)%nat -> at_grid f "curvature" j = 1) by (intros j Hj; rewrite (Ev "curvature" (a_curvature a')) by (exact Hj || (unfold first_vectors; in_list)); apply Ek).
  split; [exact N|]. split; [|split; [|split; [|split; [|split; [|split; [|split]]]]]].
  - constructor.
    + rewrite (Ew "nfp" (m_int R e1 "nfp")) by (unfold first_wholes; in_list). rewrite (In' "nfp" 1%Z) by (cbn; tauto). lia.
    + rewrite (Ew "sG" (m_int R e1 "sG")) by (unfold first_wholes; in_list). rewrite (In' "sG" 1%Z) by (cbn; tauto). left; reflexivity.
    + rewrite (Ew "spsi" (m_int R e1 "spsi")) by (unfold first_wholes; in_list). rewrite (In' "spsi" 1%Z) by (cbn; tauto). left; reflexivity.
    + rewrite (Ef "B0" (m_float R e1 "B0")) by (unfold first_numbers; in_list). rewrite (Fl "B0" 1) by (cbn; tauto). lra.
    + rewrite (Ef "eta_bar" (m_float R e1 "eta_bar")) by (unfold first_numbers; in_list). rewrite (Fl "eta_bar" 1) by (cbn; tauto). lra.
    + rewrite N. intros j Hj. rewrite (Ev "d_l_d_phi" (a_d_l_d_phi a')) by (exact Hj || (unfold first_vectors; in_list)). apply (reg_dl _ _ _ _ Hr). exact Hj.
    + rewrite N. intros j Hj. rewrite K by exact Hj. lra.
  - rewrite (Ef "iota_N" (r_iota_N q)) by (unfold first_numbers; in_list). unfold q. cbn [r1_diagnostics r_iota_N]. unfold iota_N_of. cbn [first_input i_helicity i_nfp R_ops R_math fadd m_of_Z u_iota].
    rewrite (In' "nfp" 1%Z) by (cbn; tauto). rewrite mult_IZR. ring.
  - intros Hn. assert (F2 : m_flag R e1 "at_least_order_r2" = true).
    { pose proof (rd_order _ _ _ (b_ready _ _ _ _ _ _ St)) as T. rewrite Eo in T. destruct T as [T|[T|[T|[]]]]; injection T as T1 T2 _ _; [exfalso; apply Hn; rewrite <- T1; reflexivity|symmetry; exact T2..]. }
    destruct (V2 F2) as (s2 & g & _ & _ & Sn & _). transitivity (m_float R e1 "p2"); [apply Sn; unfold second_numbers; in_list|apply Fl; cbn; tauto].
  - rewrite (Ef "sigma0" (m_float R e1 "sigma0")) by (unfold first_numbers; in_list). apply Fl. cbn; tauto.
  - intros j Hj. split; [apply K; exact Hj|]. rewrite (Ev "torsion" (a_torsion a')) by (exact Hj || (unfold first_vectors; in_list)). split; [apply Et|].
    transitivity (nth j [0; 0; 0; 0; 0; 0; 0; 0; 0; 0; 0; 0; 0; 0; 0] 0); [apply Vsg; rewrite En; exact Hj|]. clear -Hj. do 15 (destruct j as [|j]; [reflexivity|]). lia.
  - rewrite O1. pose proof (rd_order _ _ _ (b_ready _ _ _ _ _ _ St)) as T. rewrite Eo in T. destruct T as [T|[T|[T|[]]]]; injection T as <- <- _ _; reflexivity.
  - rewrite O2. pose proof (rd_order _ _ _ (b_ready _ _ _ _ _ _ St)) as T. rewrite Eo in T. destruct T as [T|[T|[T|[]]]]; injection T as <- _ <- _; reflexivity.
  - rewrite O3. pose proof (rd_order _ _ _ (b_ready _ _ _ _ _ _ St)) as T. rewrite Eo in T. destruct T as [T|[T|[T|[]]]]; injection T as <- _ _ <-; reflexivity.
Qed.
End CircleRun.
