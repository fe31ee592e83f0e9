(** C101: a random scan with the calculation of Run.v.  It has defined behaviour; and what it records about a configuration that it keeps is what a run of the
    code for this configuration alone writes. *)
From Coq Require Import String ZArith List Arith Bool Lia Reals Lra.
From Verif Require Import Base BaseFacts FloatOps MathOps Tensor Newton RSing Axis AxisSpec Alloc AllocSpec AllocFacts Toml TomlSpec Options OptionsSpec
  NetCDF NetCDFOut NetCDFSpec NetCDFFacts NetCDFRead.
From Verif Require Import Scan ScanSpec ScanFacts OptSpec Run RunSpec RunFacts RunSafe RunFile RunInput OptQsc ScanQsc Properties_NetCDF Properties_Scan Properties_RSing HelicityFacts Properties_RunSafe.
Import ListNotations.
Local Open Scope string_scope.
Local Open Scope nat_scope.

(** ** Specification *)
(** The columns of the real parameters of a kept configuration (scan_random.cpp lines 248-267), and the inputs of a run or the variables of its output file that
    they correspond to; the third list for the orders r2 and r2.1 only. *)
Definition drawn : list (nat * string) := [(0, "eta_bar"); (1, "sigma0"); (2, "B2c"); (3, "B2s"); (4, "p2")].
Definition recorded_first : list (nat * string) :=
  [(0, "eta_bar"); (1, "sigma0"); (5, "axis_length"); (6, "grid_min_R0"); (7, "grid_max_curvature"); (8, "iota"); (9, "grid_max_elongation"); (10, "grid_min_L_grad_B");
   (17, "standard_deviation_of_R"); (18, "standard_deviation_of_Z")].
Definition recorded_second : list (nat * string) :=
  [(2, "B2c"); (3, "B2s"); (4, "p2"); (11, "grid_min_L_grad_grad_B"); (12, "r_singularity_robust"); (13, "d2_volume_d_psi2"); (14, "DMerc_times_r2");
   (15, "B20_grid_variation"); (16, "B20_residual"); (19, "beta")].
(** The inputs of [c] are those of [e], except for the numbers and coefficients that are drawn; the number of grid points has been made odd. *)
Definition other_inputs {F} (e c : members F) : Prop :=
  m_int F c "nphi" = odd_nphi (m_int F e "nphi") /\ (forall x, In x ["nfp"; "sG"; "spsi"; "max_newton_iterations"; "max_linesearch_iterations"] -> m_int F c x = m_int F e x) /\
  (forall x, In x ["B0"; "I2"; "newton_tolerance"] -> m_float F c x = m_float F e x) /\ m_text F c "order_r_option" = m_text F e "order_r_option".

Section ScanQsc.
Context {F : Type} (o : fops F) (mo : mops F).
Variables (ge0 : F -> bool) (newton_tol mu0 : F) (newton_linear_solve : (nat -> nat -> F) -> list F -> outcome (list F))
  (linear_solve : matrix F -> list F -> outcome (list F)) (geev : list F -> Z * (list F * list F)) (tol : tolerances F) (finite : F -> bool).
Notation members := (members F).
Notation calculate := (Run.calculate o mo ge0 mu0 newton_linear_solve linear_solve geev tol finite).
Notation write := (qsc_write_netcdf F (m_of_Z mo)).
Notation run_gives := (run_gives o mo ge0 newton_tol mu0 newton_linear_solve linear_solve geev tol finite).
Notation physics := (qsc_physics o mo ge0 mu0 newton_linear_solve linear_solve geev tol finite).
Variable fabs : F -> F.
Context {G : Type}.
Variable pick : G -> sample F -> sample F * G.
Variable cfg : @settings F.
Variable na : nat.
(** Scan::random for the object [e] of class Qsc, in one process. *)
Definition random_scan (e : members) (g : G) (start : F) (clock : list (F * F)) : outcome (@proc F G (calc F) * bool) :=
  do q <- scan_start o na e;
  Scan.run o fabs pick physics cfg na g q start clock.
(** The input of the scan is acceptable: the number of grid points and the coefficients are within the limits, there is room for a configuration, and the order in
    the settings is that of the object. *)
Definition scan_input_ok (e : members) : Prop :=
  OptSpec.limits na (m_int F e "nfp") /\ nphi_limits (m_int F e "nphi") /\ 1 <= max_keep_per_proc cfg /\
  Scan.at_least_order_r2 cfg = negb (String.eqb (m_text F e "order_r_option") "r1").
Hypothesis solvers : solvers_ok newton_linear_solve linear_solve.
Hypothesis pick_sized : forall g s, ScanSpec.sized na (fst (pick g s)).

Lemma scan_cases e g start clock : scan_input_ok e ->
  (exists w, scan_start o na e = Throw w /\ random_scan e g start clock = Throw w) \/
  exists q, scan_start o na e = Ok q /\ random_scan e g start clock = Scan.run o fabs pick physics cfg na g q start clock /\
    between o cfg (c_members (q_rest q)) q /\ OptSpec.limits na (m_int F (c_members (q_rest q)) "nfp") /\ other_inputs e (c_members (q_rest q)).
Proof.
  intros (L & N & K & Ho). unfold random_scan. destruct (scan_start o na e) as [q|w|w] eqn:E; cbn [bind].
  - right. exists q. split; [reflexivity|]. split; [reflexivity|].
    destruct (start_between o ge0 newton_tol mu0 newton_linear_solve finite cfg na e q E L N Ho) as (B & J1 & J2 & J3 & J4). split; [exact B|].
    assert (J5 : m_int F (c_members (q_rest q)) "nfp" = m_int F e "nfp") by (apply J2; discriminate).
    split; [rewrite J5; exact L|]. split; [exact J1|]. split; [|split; [intros; apply J3|apply J4]].
    intros x Hx. apply J2. intros ->. cbn in Hx. intuition discriminate.
  - left. eauto.
  - exfalso. unfold scan_start in E. set (e' := with_arrays _ e) in E. pose proof (init_fine o false e' N) as Fi.
    destruct (Run.init o e'); cbn [bind] in E; try discriminate. apply Fi. discriminate.
Qed.
(** The scan has no undefined behaviour, whatever the memory and the object contained. *)
Theorem scan_defined : forall e g start clock why, scan_input_ok e -> random_scan e g start clock <> UB why.
Proof.
  intros e g start clock why H E. destruct (scan_cases e g start clock H) as [(w & _ & Ew)|(q & _ & Eq & B & L & _)]; [congruence|]. rewrite Eq in E. destruct H as (_ & _ & K & _).
  apply (proj1 (run_between o fabs pick physics cfg na pick_sized _ (between_attempts o mo ge0 newton_tol mu0 newton_linear_solve linear_solve geev tol finite fabs pick cfg na pick_sized solvers _ L) g q start clock K B) why E).
Qed.

(** What is known about an attempt that was kept. *)
Lemma kept_is_run e g start clock p ended c : scan_input_ok e -> ints_fit e -> random_scan e g start clock = Ok (p, ended) -> In (c, None) (p_log p) ->
  let m := c_members (q_rest c) in
  exists f, write m = Ok f /\ run_gives m f /\ RunSpec.ready F (fzero o) m /\ other_inputs e m /\ m_flag F m "at_least_order_r2" = Scan.at_least_order_r2 cfg /\
    (forall i x, In (i, x) drawn -> m_float F m x = nth i (params_of c) (fzero o)) /\
    (m_array F m "R0c" = s_R0c (q_in c) /\ m_array F m "R0s" = s_R0s (q_in c) /\ m_array F m "Z0c" = s_Z0c (q_in c) /\ m_array F m "Z0s" = s_Z0s (q_in c)) /\
    ScanSpec.sized na (q_in c) /\ shown_first c /\ (Scan.at_least_order_r2 cfg = true -> shown_second c).
Proof.
  intros H Hi E Hc m. destruct (scan_cases e g start clock H) as [(w & _ & Ew)|(q & _ & Eq & B & L & (O1 & O2 & O3 & O4))]; [congruence|]. rewrite Eq in E. destruct H as (_ & Hn & K & _).
  destruct (run_between o fabs pick physics cfg na pick_sized _ (between_attempts o mo ge0 newton_tol mu0 newton_linear_solve linear_solve geev tol finite fabs pick cfg na pick_sized solvers _ L) g q start clock K B) as (_ & At & _).
  specialize (At p ended E). rewrite Forall_forall in At. specialize (At _ Hc).
  destruct (attempted_calculated o mo ge0 newton_tol mu0 newton_linear_solve linear_solve geev tol finite fabs pick cfg na pick_sized _ c L At) as (Sz & e1 & st & R & (X1 & X2 & X3) & Ec & Fl & D1 & D2 & S1 & S2).
  fold m in Ec. pose proof (calculate_keep o mo ge0 mu0 newton_linear_solve linear_solve geev tol finite _ _ _ (ready_positive o _ R) Ec) as Kp.
  assert (N1 : m_int F e1 "nphi" = odd_nphi (m_int F e "nphi")) by (rewrite X1 by (apply inb_In; reflexivity); exact O1).
  assert (Fit : ints_fit e1).
  { intros x Hx. destruct (string_dec x "nphi") as [->|Nx].
    - rewrite N1. pose proof (odd_limits _ Hn) as Od. unfold nphi_limits in Od. unfold in_int32. lia.
    - rewrite X1 by exact Hx. rewrite O2; [apply Hi; exact Hx|]. cbn in *. intuition congruence. }
  destruct (calculated_run_gives o mo ge0 newton_tol mu0 newton_linear_solve linear_solve geev tol finite e1 m st R ltac:(rewrite N1; apply odd_limits; exact Hn) Fit Ec) as (Rm & f & W & Rg).
  exists f. split; [exact W|]. split; [exact Rg|]. split; [exact Rm|]. split; [|split; [|split; [|split; [|split; [exact Sz|split; [exact S1|exact S2]]]]]].
  - split; [|split; [|split]].
    + rewrite (k_int _ _ _ Kp) by (apply inb_In; reflexivity). exact N1.
    + intros x Hx. assert (Hx' : In x input_ints) by (cbn in *; tauto). rewrite (k_int _ _ _ Kp), X1 by exact Hx'. apply O2. exact Hx.
    + intros x Hx. rewrite (k_float _ _ _ Kp) by (cbn in *; tauto). rewrite X2 by exact Hx. apply O3. exact Hx.
    + rewrite (k_text _ _ _ Kp), X3. exact O4.
  - rewrite (k_flag _ _ _ Kp). exact Fl.
  - intros i x Hx. assert (Hx' : In x input_floats) by (repeat (destruct Hx as [Hx|Hx]; [injection Hx as <- <-; cbn; tauto|]); destruct Hx).
    rewrite (k_float _ _ _ Kp) by exact Hx'. repeat (destruct Hx as [Hx|Hx]; [injection Hx as <- <-; apply D1; cbn; tauto|]). destruct Hx.
  - repeat split; (rewrite (k_array _ _ _ Kp) by (apply in_or_app; left; cbn; tauto)); apply D2; cbn; tauto.
Qed.

Lemma scalar_element m f when x : allocated F m -> write m = Ok f -> In (Put when x (SFloat x)) qsc_puts -> NetCDFOut.active F m when = true -> element F f x [] (m_float F m x).
Proof.
  intros A W Hp Ha. destruct (qsc_written (m_of_Z mo) m A) as (f' & W' & C & _). assert (f' = f) by congruence. subst f'.
  pose proof (in_statements F m qsc_puts _ _ _ Hp Ha) as Hs.
  destruct (contains_var F (m_of_Z mo) _ _ _ _ _ _ C Hs) as (v & c & K1 & K2 & K3 & K4 & K5). cbn [fst snd NetCDFSpec.denotes NetCDFSpec.shape] in *.
  assert (c = Floats [m_float F m x]) by (symmetry; injection K3 as K3; exact K3). subst c.
  exists v, [m_float F m x], []. split; [exact K1|]. split; [exact K2|]. split; [exact K4|]. split; [exact K5|]. split; [constructor|reflexivity].
Qed.

(** The same, with the kept attempt of the log. *)
Lemma kept_recorded : forall e g start clock p ended sn j,
  scan_input_ok e -> ints_fit e -> random_scan e g start clock = Ok (p, ended) -> In sn (p_saves p) -> j < sn_j_scan sn ->
  let column i := nth (i + 20 * j) (m_data (b_params (sn_buf sn))) (fzero o) in
  let amplitudes b := map (fun n => nth (n + b * na + (na * 4) * j) (m_data (b_fourier (sn_buf sn))) (fzero o)) (seq 0 na) in
  exists q, In (q, None) (p_log p) /\ let c := c_members (q_rest q) in exists f, run_gives c f /\ other_inputs e c /\
    (forall i x, In (i, x) drawn -> m_float F c x = column i) /\
    (forall b x, In (b, x) [(0, "R0c"); (1, "R0s"); (2, "Z0c"); (3, "Z0s")] -> m_array F c x = amplitudes b) /\
    (forall i x, In (i, x) recorded_first -> element F f x [] (column i)) /\
    (m_text F e "order_r_option" <> "r1" -> forall i x, In (i, x) recorded_second -> element F f x [] (column i)) /\
    whole F f "helicity" = nth j (Scan.b_int (sn_buf sn)) 0%Z.
Proof.
  intros e g start clock p ended sn j H Hi E Hsn Hj column amplitudes.
  assert (Hc : exists c, In (c, None) (p_log p) /\ (forall i, i < 20 -> column i = nth i (params_of c) (fzero o)) /\
    (forall i, i < na * 4 -> nth (i + (na * 4) * j) (m_data (b_fourier (sn_buf sn))) (fzero o) = nth i (fourier_of (q_in c)) (fzero o)) /\ nth j (Scan.b_int (sn_buf sn)) 0%Z = q_helicity c).
  { destruct (scan_cases e g start clock H) as [(w & _ & Ew)|(q & _ & Eq & _)]; [congruence|]. rewrite Eq in E. destruct H as (_ & _ & K & _).
    destruct (scan_column o fabs pick physics cfg na pick_sized K g q start clock p ended sn j E Hsn Hj) as (c & C1 & _ & C2 & C3 & C4). exists c. auto. }
  destruct Hc as (c & Hc & C2 & C3 & C4).
  destruct (kept_is_run e g start clock p ended c H Hi E Hc) as (f & W & Rg & R & Oi & Fl & Dr & (A1 & A2 & A3 & A4) & (Z1 & Z2 & Z3 & Z4) & S1 & S2).
  exists c. split; [exact Hc|]. exists f. split; [exact Rg|]. split; [exact Oi|]. split; [|split; [|split; [|split]]].
  - intros i x Hx. rewrite (Dr i x Hx). symmetry. apply C2. repeat (destruct Hx as [Hx|Hx]; [injection Hx as <- <-; lia|]). destruct Hx.
  - assert (Bl : forall b l before after, fourier_of (q_in c) = (before ++ l ++ after)%list -> length before = b * na -> length l = na -> (b < 4) -> l = amplitudes b).
    { intros b l before after Ef Lb Ll Hb. unfold amplitudes. apply nth_ext with (d := fzero o) (d' := fzero o); [rewrite map_length, seq_length; exact Ll|].
      intros n Hn. set (h := fun n => nth (n + b * na + (na * 4) * j) (m_data (b_fourier (sn_buf sn))) (fzero o)).
      rewrite (nth_indep (map h (seq 0 na)) (fzero o) (h 0)) by (rewrite map_length, seq_length; lia).
      rewrite map_nth, seq_nth by lia. unfold h. cbn [Nat.add]. rewrite C3 by nia. rewrite Ef, app_nth2 by lia. rewrite app_nth1 by lia. f_equal. lia. }
    intros b x Hx. destruct Hx as [Hx|[Hx|[Hx|[Hx|[]]]]]; injection Hx as <- <-.
    + rewrite A1. apply (Bl 0 _ [] (s_R0s (q_in c) ++ s_Z0c (q_in c) ++ s_Z0s (q_in c))%list); [reflexivity|reflexivity|exact Z1|lia].
    + rewrite A2. apply (Bl 1 _ (s_R0c (q_in c)) (s_Z0c (q_in c) ++ s_Z0s (q_in c))%list); [reflexivity|lia|exact Z2|lia].
    + rewrite A3. apply (Bl 2 _ (s_R0c (q_in c) ++ s_R0s (q_in c))%list (s_Z0s (q_in c))); [unfold fourier_of; rewrite <- !app_assoc; reflexivity|rewrite app_length; lia|exact Z3|lia].
    + rewrite A4. apply (Bl 3 _ (s_R0c (q_in c) ++ s_R0s (q_in c) ++ s_Z0c (q_in c))%list []); [unfold fourier_of; rewrite app_nil_r, <- !app_assoc; reflexivity|rewrite !app_length; lia|exact Z4|lia].
  - intros i x Hx. assert (Ev : column i = m_float F (c_members (q_rest c)) x).
    { rewrite C2 by (repeat (destruct Hx as [Hx|Hx]; [injection Hx as <- <-; lia|]); destruct Hx). destruct S1 as (T1 & T2 & T3 & T4 & T5 & T6 & T7 & T8 & T9).
      destruct Hx as [Hx|Hx]; [injection Hx as <- <-; symmetry; apply Dr; cbn; tauto|]. destruct Hx as [Hx|Hx]; [injection Hx as <- <-; symmetry; apply Dr; cbn; tauto|].
      repeat (destruct Hx as [Hx|Hx]; [injection Hx as <- <-; assumption|]). destruct Hx. }
    rewrite Ev. apply (scalar_element _ f []); [apply (rd_alloc _ _ _ R)|exact W| |reflexivity].
    repeat (destruct Hx as [Hx|Hx]; [injection Hx as <- <-; apply in_puts; vm_compute; reflexivity|]). destruct Hx.
  - intros No i x Hx. assert (Or : Scan.at_least_order_r2 cfg = true) by (destruct H as (_ & _ & _ & ->); destruct (String.eqb_spec (m_text F e "order_r_option") "r1"); [contradiction|reflexivity]).
    specialize (S2 Or). assert (Ev : column i = m_float F (c_members (q_rest c)) x).
    { rewrite C2 by (repeat (destruct Hx as [Hx|Hx]; [injection Hx as <- <-; lia|]); destruct Hx). destruct S2 as (T1 & T2 & T3 & T4 & T5 & T6 & T7).
      do 3 (destruct Hx as [Hx|Hx]; [injection Hx as <- <-; symmetry; apply Dr; cbn; tauto|]).
      repeat (destruct Hx as [Hx|Hx]; [injection Hx as <- <-; assumption|]). destruct Hx. }
    rewrite Ev. apply (scalar_element _ f [("at_least_order_r2", true)]); [apply (rd_alloc _ _ _ R)|exact W| |cbn [NetCDFOut.active forallb fst snd]; rewrite Fl, Or; reflexivity].
    repeat (destruct Hx as [Hx|Hx]; [injection Hx as <- <-; apply in_puts; vm_compute; reflexivity|]). destruct Hx.
  - rewrite C4. destruct S1 as (_ & _ & _ & _ & _ & T6 & _). rewrite T6. apply (whole_int mo (c_members (q_rest c)) f (rd_alloc _ _ _ R) W [] "helicity" "helicity"); [apply in_puts; vm_compute; reflexivity|reflexivity].
Qed.
(** The results.  For configuration [j] of each report that the process hands to collect_results, at every save and at the end: there is a configuration [c], with the
    inputs of the scan, the numbers of columns 0-4 and the Fourier amplitudes of the report, such that the other columns, and the helicity, are the numbers in the file
    that a run of the code for [c] alone writes. *)
Theorem scan_records_runs : forall e g start clock p ended sn j,
  scan_input_ok e -> ints_fit e -> random_scan e g start clock = Ok (p, ended) -> In sn (p_saves p) -> j < sn_j_scan sn ->
  let column i := nth (i + 20 * j) (m_data (b_params (sn_buf sn))) (fzero o) in
  let amplitudes b := map (fun n => nth (n + b * na + (na * 4) * j) (m_data (b_fourier (sn_buf sn))) (fzero o)) (seq 0 na) in
  exists c f, run_gives c f /\ other_inputs e c /\
    (forall i x, In (i, x) drawn -> m_float F c x = column i) /\
    (forall b x, In (b, x) [(0, "R0c"); (1, "R0s"); (2, "Z0c"); (3, "Z0s")] -> m_array F c x = amplitudes b) /\
    (forall i x, In (i, x) recorded_first -> element F f x [] (column i)) /\
    (m_text F e "order_r_option" <> "r1" -> forall i x, In (i, x) recorded_second -> element F f x [] (column i)) /\
    whole F f "helicity" = nth j (Scan.b_int (sn_buf sn)) 0%Z.
Proof.
  intros e g start clock p ended sn j H Hi E Hsn Hj column amplitudes. destruct (kept_recorded e g start clock p ended sn j H Hi E Hsn Hj) as (q & _ & f & Q).
  exists (c_members (q_rest q)), f. exact Q.
Qed.

(** If the scan ends with an exception, it is that of the calculation of a configuration with the inputs of the scan, or the order is not valid. *)
Theorem scan_exceptions : forall e g start clock w, scan_input_ok e -> random_scan e g start clock = Throw w ->
  ~ In (m_text F e "order_r_option") ["r1"; "r2"; "r2.1"] \/
  exists c, RunSpec.ready F (fzero o) c /\ other_inputs e c /\ length (m_array F c "R0c") = na /\ axis_ok (axis_input_of c) /\ calculate c = Throw w.
Proof.
  intros e g start clock w H E. destruct (scan_cases e g start clock H) as [(w' & Es & _)|(q & _ & Eq & B & L & (O1 & O2 & O3 & O4))].
  - left. intros Ho. unfold scan_start in Es. set (e' := with_arrays _ e) in Es. pose proof (init_fine o true e' (proj1 (proj2 H)) (fun _ => Ho)) as Fi.
    destruct (Run.init o e'); cbn [bind fine] in *; [discriminate Es|discriminate Fi|contradiction].
  - right. rewrite Eq in E. destruct H as (_ & _ & K & _).
    destruct (run_between o fabs pick physics cfg na pick_sized _ (between_attempts o mo ge0 newton_tol mu0 newton_linear_solve linear_solve geev tol finite fabs pick cfg na pick_sized solvers _ L) g q start clock K B) as (_ & _ & Th).
    destruct (throws_calculated o mo ge0 newton_tol mu0 newton_linear_solve linear_solve geev tol finite fabs pick cfg na pick_sized _ w L (Th w E)) as (c & R & (X1 & X2 & X3) & A & Ln & Ec).
    exists c. split; [exact R|]. split; [|split; [exact Ln|split; [exact A|exact Ec]]]. split; [|split; [|split]].
    + rewrite X1 by (apply inb_In; reflexivity). exact O1.
    + intros x Hx. rewrite X1 by (cbn in *; tauto). apply O2. exact Hx.
    + intros x Hx. rewrite X2 by exact Hx. apply O3. exact Hx.
    + rewrite X3. exact O4.
Qed.
End ScanQsc.

(** ** In real arithmetic *)
(** If the solvers and LAPACK succeed, a scan of an acceptable input does not end with an exception. *)
Section Completes.
Variables (ge0 : R -> bool) (newton_tol mu0 : R) (newton_linear_solve : (nat -> nat -> R) -> list R -> outcome (list R))
  (linear_solve : matrix R -> list R -> outcome (list R)) (geev : list R -> Z * (list R * list R)) (single : bool).
Context {G : Type}.
Notation scan := (random_scan R_ops R_math ge0 mu0 newton_linear_solve linear_solve geev (tolerances_of R_ops R_math single) (fun _ => true) Rabs (G := G)).
Theorem scan_completes : forall pick cfg na e g start clock,
  (forall m v, exists x, newton_linear_solve m v = Ok x /\ length x = length v) -> (forall m v, exists x, linear_solve m v = Ok x) -> (forall m, fst (geev m) = 0%Z) ->
  (forall g s, ScanSpec.sized na (fst (pick g s))) -> scan_input_ok cfg na e -> In (m_text R e "order_r_option") ["r1"; "r2"; "r2.1"] ->
  exists p ended, scan pick cfg na e g start clock = Ok (p, ended).
Proof.
  intros pick cfg na e g start clock S1 S2 S3 Hp H Ho.
  assert (HS : solvers_ok newton_linear_solve linear_solve).
  { split; [|split].
    - intros m v w. destruct (S1 m v) as (x & -> & _). discriminate.
    - intros m v x E. destruct (S1 m v) as (y & Ey & L). congruence.
    - intros m v w. destruct (S2 m v) as (x & ->). discriminate. }
  destruct (scan pick cfg na e g start clock) as [[p ended]|w|w] eqn:E; [eauto|exfalso..].
  - destruct (scan_exceptions R_ops R_math ge0 newton_tol mu0 newton_linear_solve linear_solve geev (tolerances_of R_ops R_math single) (fun _ => true) Rabs pick cfg na HS Hp e g start clock w H E) as [Hn|(c & Rc & _ & _ & Ha & Ec)]; [contradiction|].
    assert (Fi : fine true (fun _ => True) (Run.calculate R_ops R_math ge0 mu0 newton_linear_solve linear_solve geev (tolerances_of R_ops R_math single) (fun _ => true) c)).
    { apply calculate_fine; try assumption.
      - intros n m v <-. destruct (S1 m v) as (y & -> & L). exact L.
      - intros m v. destruct (S2 m v) as (y & ->). exact I.
      - intros i st. destruct (singularity_defined geev single i st S3) as (y & ->). exact I. }
    rewrite Ec in Fi. discriminate Fi.
  - revert E. apply (scan_defined R_ops R_math ge0 newton_tol mu0 newton_linear_solve linear_solve geev (tolerances_of R_ops R_math single) (fun _ => true) Rabs pick cfg na HS Hp). exact H.
Qed.
End Completes.

(** ** An example *)
(** A scan at order r2.1 that keeps all configurations and makes one attempt, with solvers that always succeed: it ends, and reports one configuration. *)
Section Example.
Definition one_pick (g : nat) (s : sample R) : sample R * nat := (mkSample 1 0 0 0 0 [1; / 20] [0; 0] [0; 0] [0; / 20], S g)%R.
Definition one_cfg : @settings R := mkSettings true true 0%Z 0%R 0%R 0%R 0%R 0%R 0%R 0%R 0%R 0%R 0%R 1 1%Z 10%R 10%R.
Definition one_object : members R :=
  mkMembers R (update [("nfp", 3%Z); ("nphi", 15%Z); ("sG", 1%Z); ("spsi", 1%Z); ("max_newton_iterations", 12%Z); ("max_linesearch_iterations", 4%Z)] (fun _ => 0%Z)) (fun _ => false)
    (update [("B0", 1%R)] (fun _ => 0%R)) (fun _ => 0%Z) (fun _ => "r2.1") (fun _ => []) (fun _ => []).
Notation scan := (random_scan R_ops R_math Rge0 0%R easy_solver easy_solver2 easy_geev (tolerances_of R_ops R_math false) (fun _ => true) Rabs one_pick one_cfg 2 one_object 0 0%R [(0, 0)%R; (0, 0)%R]).
Lemma one_sized : forall g s, ScanSpec.sized 2 (fst (one_pick g s)).
Proof. intros. repeat split. Qed.
Lemma one_ok : scan_input_ok one_cfg 2 one_object.
Proof. unfold scan_input_ok, OptSpec.limits, nphi_limits. cbn. repeat split; lia. Qed.
Example scan_example : exists p sn, scan = Ok (p, true) /\ In sn (p_saves p) /\ 0 < sn_j_scan sn /\
  scan_input_ok one_cfg 2 one_object /\ ints_fit one_object /\ solvers_ok easy_solver easy_solver2 /\ forall g s, ScanSpec.sized 2 (fst (one_pick g s)).
Proof.
  assert (HS : solvers_ok easy_solver easy_solver2) by (split; [|split]; try discriminate; intros m v x E; injection E as <-; reflexivity).
  destruct (scan_completes Rge0 0%R 0%R easy_solver easy_solver2 easy_geev false one_pick one_cfg 2 one_object 0 0%R [(0, 0)%R; (0, 0)%R]) as (p & ended & E).
  - intros m v. exists v. split; reflexivity.
  - intros m v. exists v. reflexivity.
  - reflexivity.
  - exact one_sized.
  - exact one_ok.
  - cbn. tauto.
  - destruct (scan_cases R_ops R_math Rge0 0%R 0%R easy_solver easy_solver2 easy_geev (tolerances_of R_ops R_math false) (fun _ => true) Rabs one_pick one_cfg 2 one_object 0 0%R [(0, 0)%R; (0, 0)%R] one_ok) as [(w & _ & Ew)|(q & _ & Eq & B & L & _)]; [congruence|].
    rewrite Eq in E. assert (K1 : 1 <= max_keep_per_proc one_cfg) by (cbn; lia).
    destruct (scan_stops R_ops Rabs one_pick _ one_cfg 2 one_sized K1 _ _ _ _ _ _ E) as (T1 & _ & T3). destruct (T1 ltac:(cbn; lia)) as (T1a & T1b).
    assert (ended = true) by (apply T1b; cbn; lia). subst ended. specialize (T3 eq_refl).
    destruct (scan_reports_are_true R_ops Rabs one_pick _ one_cfg 2 one_sized K1 _ _ _ _ _ _ E) as (J & _ & S). destruct (S eq_refl) as (sn & rest & Es & (_ & _ & Sj & _)).
    exists p, sn. split; [rewrite Eq; exact E|]. split; [rewrite Es; left; reflexivity|]. split; [|split; [exact one_ok|split; [|split; [exact HS|exact one_sized]]]].
    + rewrite Sj. assert (Ln : p_log p <> []).
      { intros Hl. rewrite Hl in T3. destruct T3 as [T3|[T3|(c & [<-|[<-|[]]] & T3)]]; cbn in T3; [lia|discriminate| |];
          unfold Rltb in T3; destruct (Rlt_dec 10 (0 - 0)); [lra|discriminate|lra|discriminate]. }
      destruct (p_log p) as [|[c v] l] eqn:El; [contradiction|]. assert (v = None).
      { destruct v as [k|]; [exfalso|reflexivity]. apply Forall_inv in J. cbn [justified snd fst] in J.
        destruct (run_between R_ops Rabs one_pick _ one_cfg 2 one_sized _ (between_attempts R_ops R_math Rge0 0%R 0%R easy_solver easy_solver2 easy_geev (tolerances_of R_ops R_math false) (fun _ => true) Rabs one_pick one_cfg 2 one_sized HS _ L) 0 q 0%R [(0, 0)%R; (0, 0)%R] K1 B) as (_ & At & _).
        specialize (At p true E). rewrite El in At. apply Forall_inv in At. destruct At as (f & q0 & g & f' & Lf & _ & Ea). cbn [fst snd] in Ea.
        destruct (attempt_ok _ _ _ _ _ _ _ _ _ Lf Ea) as (_ & _ & Ei).
        assert (k = 2) by (do 15 (destruct k as [|k]; [cbn in J; first [reflexivity|contradiction|destruct J as (J & _); discriminate J]|]); contradiction). subst k.
        cbn [violates] in J. rewrite Ei in J. cbn in J. destruct J as [J|J]; unfold Rleb in J; match type of J with (if Rle_dec ?a ?b then _ else _) = _ => destruct (Rle_dec a b); [lra|discriminate J] end. }
      subst v. unfold kept. cbn [map filter snd fst rev]. rewrite app_length. cbn. lia.
    + intros x Hx. cbn in Hx. repeat (destruct Hx as [<-|Hx]; [cbn; unfold in_int32; lia|]). destruct Hx.
Qed.
End Example.
Print Assumptions scan_defined.
Print Assumptions scan_records_runs.
Print Assumptions scan_exceptions.
Print Assumptions scan_completes.
