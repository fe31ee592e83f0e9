(** C105: the configurations of a random scan lie within the limits of its input file. *)
From Coq Require Import String ZArith List Arith Bool Lia Reals Lra.
From Verif Require Import Base BaseFacts FloatOps MathOps Tensor Newton RSing Axis AxisSpec Alloc Toml TomlSpec Options OptionsSpec NetCDF NetCDFOut NetCDFSpec NetCDFRead.
From Verif Require Import Scan ScanSpec ScanFacts RandomGen RandomSpec RandomFacts Collect ScanDet ScanDetFacts OptSpec Run RunSpec RunFacts RunSafe RunFile RunInput OptQsc ScanQsc
  Properties_Random Properties_Scan Properties_RSing HelicityFacts Properties_RunSafe Properties_ScanQsc ScanDraw.
Import ListNotations.
Local Open Scope string_scope.
Local Open Scope nat_scope.

(** ** Specification *)
(** A value drawn with the distribution and the limits [lim]: its magnitude is between them for the distribution with both signs, else the value itself. *)
Definition within (lim : string * R * R) (v : R) : Prop :=
  let '(d, lo, hi) := lim in if String.eqb d "2 sided log" then RandomSpec.between lo hi (Rabs v) else RandomSpec.between lo hi v.
Definition number_limits (rg : ranges (F:=R)) (second : bool) : list (string * (string * R * R)) :=
  [("eta_bar", rg_eta_bar rg); ("sigma0", rg_sigma0 rg)] ++ (if second then [("B2c", rg_B2c rg); ("B2s", rg_B2s rg); ("p2", rg_p2 rg)] else []).
Definition amplitude_limits (rg : ranges (F:=R)) : list (string * (list R * list R)) :=
  [("R0c", (R0c_min rg, R0c_max rg)); ("R0s", (R0s_min rg, R0s_max rg)); ("Z0c", (Z0c_min rg, Z0c_max rg)); ("Z0s", (Z0s_min rg, Z0s_max rg))].
(** The numbers and amplitudes of a configuration are within the limits [rg].  The first amplitude, R0c[0], is itself between its limits, whatever the distribution. *)
Definition in_ranges (rg : ranges (F:=R)) (second : bool) (number : string -> R) (amplitude : string -> list R) : Prop :=
  (forall x lim, In (x, lim) (number_limits rg second) -> within lim (number x)) /\
  (forall x lo hi, In (x, (lo, hi)) (amplitude_limits rg) -> length (amplitude x) = length (R0c_max rg) /\
    forall j v, nth_error (amplitude x) j = Some v -> exists a b, nth_error lo j = Some a /\ nth_error hi j = Some b /\
      (if (String.eqb x "R0c" && Nat.eqb j 0)%bool then RandomSpec.between a b v else within (rg_fourier_option rg, a, b) v)).
(** The same for the numbers drawn in an attempt. *)
Definition sample_number (s : sample R) (x : string) : R :=
  if String.eqb x "eta_bar" then s_eta_bar s else if String.eqb x "sigma0" then s_sigma0 s else if String.eqb x "B2c" then s_B2c s else if String.eqb x "B2s" then s_B2s s else s_p2 s.
Definition sample_amplitude (s : sample R) (x : string) : list R :=
  if String.eqb x "R0c" then s_R0c s else if String.eqb x "R0s" then s_R0s s else if String.eqb x "Z0c" then s_Z0c s else s_Z0s s.

(** ** Draws *)
Section Draws.
Context {G : Type} (uniform : G -> R * G) (rg : ranges (F:=R)).
Hypothesis uniform01 : forall g, (0 <= fst (uniform g) <= 1)%R.
Notation gens := (gens (F:=R) (G:=G)).
Notation good := (good R_ops R_funs uniform rg).
Lemma value_within d lo hi r : reachable R_ops R_funs uniform (rg_deterministic rg) d lo hi r -> within (d, lo, hi) (ScanDet.value R_ops R_funs uniform r).
Proof.
  intros H. unfold ScanDet.value. destruct (RandomGen.get R_ops R_funs uniform r) as [v r'] eqn:E. cbn [fst]. destruct (C20_random_range G uniform _ d lo hi r v r' uniform01 H E) as (A & B).
  unfold within. destruct (String.eqb_spec d "2 sided log"); [apply B; assumption|apply A; assumption].
Qed.
Lemma pick_in_ranges r2 g s : good g -> in_ranges rg r2 (sample_number (fst (ScanDet.pick R_ops R_funs uniform r2 g s))) (sample_amplitude (fst (ScanDet.pick R_ops R_funs uniform r2 g s))).
Proof.
  intros (H1 & H2 & H3 & H4 & H5 & L & H). split.
  - intros x lim Hx. destruct r2; cbn in Hx;
      repeat (destruct Hx as [Hx|Hx]; [injection Hx as <- <-; cbn; match goal with |- within ?l _ => destruct l as [[d lo] hi] end; apply value_within; assumption|]); destruct Hx.
  - intros x lo hi Hx.
    assert (Hm : forall y (pr : mode (F:=R) (G:=G) -> random (F:=R) (G:=G)), (forall j m, nth_error (g_modes g) j = Some m -> of_mode R_ops R_funs uniform rg y j (pr m)) ->
      length (map (fun m => ScanDet.value R_ops R_funs uniform (pr m)) (g_modes g)) = length (R0c_max rg) /\
      forall j v, nth_error (map (fun m => ScanDet.value R_ops R_funs uniform (pr m)) (g_modes g)) j = Some v -> exists a b, nth_error (fst (mode_limits rg y)) j = Some a /\ nth_error (snd (mode_limits rg y)) j = Some b /\
        within (mode_option rg y j, a, b) v).
    { intros y pr Hy. split; [rewrite map_length; exact L|]. intros j v Hv. rewrite nth_error_map in Hv. destruct (nth_error (g_modes g) j) as [m|] eqn:E; cbn [option_map] in Hv; [|discriminate].
      injection Hv as <-. destruct (Hy j m E) as (a & b & Ha & Hb & Hr). exists a, b. split; [exact Ha|]. split; [exact Hb|]. apply value_within. exact Hr. }
    destruct Hx as [Hx|[Hx|[Hx|[Hx|[]]]]]; injection Hx as <- <- <-; cbn [ScanDet.pick fst sample_amplitude String.eqb Ascii.eqb Bool.eqb andb s_R0c s_R0s s_Z0c s_Z0s].
    + destruct (Hm "R0c" m_R0c) as (A & B); [intros j m Hj; apply (H j m Hj)|]. split; [exact A|]. intros j v Hv. destruct (B j v Hv) as (a & b & Ha & Hb & Hw). exists a, b.
      split; [exact Ha|]. split; [exact Hb|]. unfold mode_option in Hw. cbn [String.eqb Ascii.eqb Bool.eqb andb] in Hw. destruct (Nat.eqb_spec j 0) as [->|Hj]; cbn [andb] in *; [|exact Hw].
      revert Hw. destruct (String.eqb_spec (rg_fourier_option rg) "2 sided log") as [Eo|Eo]; [exact (fun h => h)|]. unfold within. destruct (String.eqb_spec (rg_fourier_option rg) "2 sided log"); [contradiction|].
      exact (fun h => h).
    + destruct (Hm "R0s" m_R0s) as (A & B); [intros j m Hj; apply (H j m Hj)|]. split; [exact A|]. intros j v Hv. destruct (B j v Hv) as (a & b & Ha & Hb & Hw). exists a, b. auto.
    + destruct (Hm "Z0c" m_Z0c) as (A & B); [intros j m Hj; apply (H j m Hj)|]. split; [exact A|]. intros j v Hv. destruct (B j v Hv) as (a & b & Ha & Hb & Hw). exists a, b. auto.
    + destruct (Hm "Z0s" m_Z0s) as (A & B); [intros j m Hj; apply (H j m Hj)|]. split; [exact A|]. intros j v Hv. destruct (B j v Hv) as (a & b & Ha & Hb & Hw). exists a, b. auto.
Qed.
End Draws.

(** ** Whole scans *)
Section Scans.
Variables (ge0 : R -> bool) (newton_tol mu0 : R) (newton_linear_solve : (nat -> nat -> R) -> list R -> outcome (list R))
  (linear_solve : matrix R -> list R -> outcome (list R)) (geev : list R -> Z * (list R * list R)) (tol : tolerances R) (finite : R -> bool).
Notation members := (members R).
Notation run_gives := (run_gives R_ops R_math ge0 newton_tol mu0 newton_linear_solve linear_solve geev tol finite).
Context {G : Type} (uniform : G -> R * G).
Variable cfg : @settings R.
Notation scan := (whole_scan R_ops R_math R_funs uniform ge0 mu0 newton_linear_solve linear_solve geev tol finite cfg).
Notation r2 := (Scan.at_least_order_r2 cfg).
Hypothesis solvers : solvers_ok newton_linear_solve linear_solve.
Hypothesis uniform01 : forall g, (0 <= fst (uniform g) <= 1)%R.

(** The scan is that with a generator that always gives a sample of the right size. *)
Lemma scan_with_sized rg seed rank e start clock p ended : scan rg seed rank e start clock = Ok (p, ended) ->
  exists g, good R_ops R_funs uniform rg g /\
    random_scan R_ops R_math ge0 mu0 newton_linear_solve linear_solve geev tol finite (RandomGen.fabs R_funs) (ScanDet.pick R_ops R_funs uniform r2) cfg (length (R0c_max rg)) e g start clock = Ok (p, ended) /\
    random_scan R_ops R_math ge0 mu0 newton_linear_solve linear_solve geev tol finite (RandomGen.fabs R_funs) (sized_pick R_ops R_funs uniform r2 (length (R0c_max rg))) cfg (length (R0c_max rg)) e g start clock
      = Ok (p, ended).
Proof.
  unfold whole_scan. intros H. destruct (make_gens R_ops R_funs uniform rg seed rank (max_attempts_per_proc cfg)) as [g| |] eqn:E; cbn [bind] in H; try discriminate.
  apply make_gens_good in E. exists g. split; [exact E|]. split; [exact H|]. rewrite <- H. unfold random_scan. destruct (scan_start R_ops (length (R0c_max rg)) e) as [q| |]; cbn [bind]; try reflexivity.
  apply run_same with (I := good R_ops R_funs uniform rg); [|exact E]. intros g' s Hg. apply (sized_pick_same R_ops R_funs uniform rg r2 g' s Hg).
Qed.
(** What is not drawn: B2c, B2s and p2 at first order. *)
Definition undrawn (e : members) (s : sample R) : Prop := r2 = false -> s_B2c s = m_float R e "B2c" /\ s_B2s s = m_float R e "B2s" /\ s_p2 s = m_float R e "p2".
(** Every configuration that the scan looks at, kept or not, is within the limits. *)
Theorem scan_in_ranges : forall rg seed rank e start clock p ended c verdict, scan_input_ok cfg (length (R0c_max rg)) e ->
  scan rg seed rank e start clock = Ok (p, ended) -> In (c, verdict) (p_log p) ->
  in_ranges rg r2 (sample_number (q_in c)) (sample_amplitude (q_in c)) /\ undrawn e (q_in c).
Proof.
  intros rg seed rank e start clock p ended c verdict Hok H Hc. destruct (scan_with_sized _ _ _ _ _ _ _ _ H) as (g & Hg & E & _). clear H.
  destruct (scan_cases R_ops R_math ge0 newton_tol mu0 newton_linear_solve linear_solve geev tol finite (RandomGen.fabs R_funs) (ScanDet.pick R_ops R_funs uniform r2) cfg (length (R0c_max rg)) e g start clock Hok)
    as [(w & _ & Ew)|(q & Es & Eq & _)]; [congruence|]. rewrite Eq in E.
  assert (U : undrawn e (q_in q)).
  { destruct Hok as (L & N & K & Ho). destruct (start_between R_ops ge0 newton_tol mu0 newton_linear_solve finite cfg (length (R0c_max rg)) e q Es L N Ho) as (_ & _ & _ & J3 & _).
    unfold scan_start in Es. destruct (Run.init R_ops _) as [e1| |] in Es; cbn [bind] in Es; try discriminate. injection Es as <-. intros _. cbn [q_rest c_members shown_by] in J3. cbn. auto. }
  pose proof (run_drawn R_ops (RandomGen.fabs R_funs) (ScanDet.pick R_ops R_funs uniform r2) (sized_pick R_ops R_funs uniform r2 (length (R0c_max rg)))
    (qsc_physics R_ops R_math ge0 mu0 newton_linear_solve linear_solve geev tol finite) cfg (length (R0c_max rg)) (good R_ops R_funs uniform rg) (fun g' s Hg' => sized_pick_same R_ops R_funs uniform rg r2 g' s Hg')
    (undrawn e) (fun s => in_ranges rg r2 (sample_number s) (sample_amplitude s) /\ undrawn e s)) as D.
  assert (D1 : forall g' s, good R_ops R_funs uniform rg g' -> undrawn e s ->
    undrawn e (fst (ScanDet.pick R_ops R_funs uniform r2 g' s)) /\ in_ranges rg r2 (sample_number (fst (ScanDet.pick R_ops R_funs uniform r2 g' s))) (sample_amplitude (fst (ScanDet.pick R_ops R_funs uniform r2 g' s))) /\
      undrawn e (fst (ScanDet.pick R_ops R_funs uniform r2 g' s))).
  { intros g' s Hg' Hs. assert (U' : undrawn e (fst (ScanDet.pick R_ops R_funs uniform r2 g' s))) by (intros E2; specialize (Hs E2); unfold ScanDet.pick; rewrite E2; exact Hs).
    split; [exact U'|]. split; [|exact U']. apply pick_in_ranges; assumption. }
  specialize (D D1 g q start clock p ended Hg U E). rewrite Forall_forall in D. exact (D (c, verdict) Hc).
Qed.
(** The configuration of an attempt that is kept, as a run sees it. *)
Lemma kept_drawn rg seed rank e start clock p ended q : scan_input_ok cfg (length (R0c_max rg)) e -> ints_fit e -> scan rg seed rank e start clock = Ok (p, ended) -> In (q, None) (p_log p) ->
  let c := c_members (q_rest q) in let second := negb (String.eqb (m_text R e "order_r_option") "r1") in
  in_ranges rg second (m_float R c) (m_array R c) /\ (second = false -> forall x, In x ["B2c"; "B2s"; "p2"] -> m_float R c x = m_float R e x).
Proof.
  intros Hok Hi H Hq c second. destruct (scan_in_ranges rg seed rank e start clock p ended q None Hok H Hq) as ((D1 & D2) & D3).
  destruct (scan_with_sized _ _ _ _ _ _ _ _ H) as (g & Hg & _ & E).
  pose proof (fun g s => sized_pick_sized R_ops R_funs uniform r2 (length (R0c_max rg)) g s) as Sz.
  destruct (kept_is_run R_ops R_math ge0 newton_tol mu0 newton_linear_solve linear_solve geev tol finite _ _ cfg _ solvers Sz e g start clock p ended q Hok Hi E Hq) as (f' & _ & _ & _ & _ & _ & Dr & (A1 & A2 & A3 & A4) & _).
  assert (Es : second = r2) by (symmetry; apply Hok). split.
  - split.
    + rewrite Es. intros x lim Hx. specialize (D1 x lim Hx). assert (Ex : m_float R c x = sample_number (q_in q) x); [|rewrite Ex; exact D1].
      destruct r2; cbn in Hx; repeat (destruct Hx as [Hx|Hx]; [injection Hx as <- _; first [exact (Dr 0 _ ltac:(cbn; tauto))|exact (Dr 1 _ ltac:(cbn; tauto))|exact (Dr 2 _ ltac:(cbn; tauto))|
        exact (Dr 3 _ ltac:(cbn; tauto))|exact (Dr 4 _ ltac:(cbn; tauto))]|]); destruct Hx.
    + intros x lo hi Hx. assert (Ex : m_array R c x = sample_amplitude (q_in q) x); [|rewrite Ex; exact (D2 x lo hi Hx)].
      destruct Hx as [Hx|[Hx|[Hx|[Hx|[]]]]]; injection Hx as <- _ _; assumption.
  - rewrite Es. intros E2 x Hx. destruct (D3 E2) as (U1 & U2 & U3). destruct Hx as [<-|[<-|[<-|[]]]].
    + rewrite <- U1. exact (Dr 2 "B2c" ltac:(cbn; tauto)).
    + rewrite <- U2. exact (Dr 3 "B2s" ltac:(cbn; tauto)).
    + rewrite <- U3. exact (Dr 4 "p2" ltac:(cbn; tauto)).
Qed.
(** Each configuration that the scan has saved: its inputs are within the limits of the input file, or those of the input file, and what is saved of it is what a run for these inputs writes. *)
Theorem whole_scan_records_runs : forall rg seed rank e start clock p ended sn j,
  scan_input_ok cfg (length (R0c_max rg)) e -> ints_fit e -> scan rg seed rank e start clock = Ok (p, ended) -> In sn (p_saves p) -> j < sn_j_scan sn ->
  let na := length (R0c_max rg) in
  let column i := nth (i + 20 * j) (m_data (b_params (sn_buf sn))) 0%R in
  let amplitudes b := map (fun n => nth (n + b * na + (na * 4) * j) (m_data (b_fourier (sn_buf sn))) 0%R) (seq 0 na) in
  let second := negb (String.eqb (m_text R e "order_r_option") "r1") in
  exists c f, run_gives c f /\ other_inputs e c /\ in_ranges rg second (m_float R c) (m_array R c) /\
    (second = false -> forall x, In x ["B2c"; "B2s"; "p2"] -> m_float R c x = m_float R e x) /\
    (forall i x, In (i, x) drawn -> m_float R c x = column i) /\
    (forall b x, In (b, x) [(0, "R0c"); (1, "R0s"); (2, "Z0c"); (3, "Z0s")] -> m_array R c x = amplitudes b) /\
    (forall i x, In (i, x) recorded_first -> element R f x [] (column i)) /\
    (second = true -> forall i x, In (i, x) recorded_second -> element R f x [] (column i)) /\
    whole R f "helicity" = nth j (Scan.b_int (sn_buf sn)) 0%Z.
Proof.
  intros rg seed rank e start clock p ended sn j Hok Hi H Hsn Hj na column amplitudes second. 
  destruct (scan_with_sized _ _ _ _ _ _ _ _ H) as (g & Hg & _ & E).
  pose proof (fun g s => sized_pick_sized R_ops R_funs uniform r2 na g s) as Sz.
  destruct (kept_recorded R_ops R_math ge0 newton_tol mu0 newton_linear_solve linear_solve geev tol finite _ _ cfg na solvers Sz e g start clock p ended sn j Hok Hi E Hsn Hj) as (q & Hq & f & Q1 & Q2 & Q3 & Q4 & Q5 & Q6 & Q7).
  destruct (kept_drawn rg seed rank e start clock p ended q Hok Hi H Hq) as (D1 & D2).
  exists (c_members (q_rest q)), f. split; [exact Q1|]. split; [exact Q2|]. split; [exact D1|]. split; [exact D2|]. split; [exact Q3|]. split; [exact Q4|]. split; [exact Q5|]. split; [|exact Q7].
  intros E2. apply Q6. intros E3. unfold second in E2. rewrite E3 in E2. discriminate.
Qed.

(** The scan has defined behaviour when the arrays of limits have the same length and the positions of the generators fit in int. *)
Definition limits_sized (rg : ranges (F:=R)) : Prop := forall x lo hi, In (x, (lo, hi)) (amplitude_limits rg) -> length lo = length (R0c_max rg) /\ length hi = length (R0c_max rg).
Theorem whole_scan_defined : forall rg seed rank e start clock why, scan_input_ok cfg (length (R0c_max rg)) e -> limits_sized rg ->
  (-2147483648 <= rank * max_attempts_per_proc cfg /\ rank * max_attempts_per_proc cfg + 7 < 2147483648)%Z -> scan rg seed rank e start clock <> UB why.
Proof.
  intros rg seed rank e start clock why Hok Hl Hr H. unfold whole_scan in H.
  assert (Pn : forall lim sd k w, (0 <= k <= 7)%Z -> positioned R_ops R_funs uniform (rg_deterministic rg) lim sd rank (max_attempts_per_proc cfg) k <> UB w).
  { intros [[d lo] hi] sd k w Hk. unfold positioned, start_position.
    replace (int_ok (rank * max_attempts_per_proc cfg) && int_ok (rank * max_attempts_per_proc cfg + k))%bool with true
      by (symmetry; unfold int_ok; repeat (apply andb_true_intro; split); apply Z.leb_le; nia).
    unfold make_random. destruct (String.eqb d "linear"); [discriminate|]. destruct (String.eqb d "log").
    - destruct (flt _ _ _); [discriminate|]. destruct (negb _ && _)%bool; discriminate.
    - destruct (String.eqb d "2 sided log"); [|discriminate]. destruct (_ && _)%bool; [discriminate|]. destruct (_ || _)%bool; discriminate. }
  assert (Gn : forall w, make_gens R_ops R_funs uniform rg seed rank (max_attempts_per_proc cfg) <> UB w).
  { intros w Eg. unfold make_gens in Eg.
    repeat match type of Eg with bind (positioned _ _ _ _ ?l ?sd _ _ ?k) _ = _ =>
      let E := fresh "E" in let r := fresh "r" in destruct (positioned R_ops R_funs uniform (rg_deterministic rg) l sd rank (max_attempts_per_proc cfg) k) as [r| |] eqn:E in Eg; cbn [bind] in Eg;
      [|discriminate|eapply Pn; [|exact E]; lia] end.
    destruct (mapM _ _) as [ms| |w'] eqn:Em in Eg; cbn [bind] in Eg; try discriminate. clear Eg.
    assert (Mn : forall j w, j < length (R0c_max rg) -> make_mode R_ops R_funs uniform rg seed rank (max_attempts_per_proc cfg) j <> UB w).
    { intros j w0 Hj Ej. unfold make_mode in Ej.
      pose proof (Hl "R0c" _ _ ltac:(cbn; tauto)) as (L1 & L2). pose proof (Hl "R0s" _ _ ltac:(cbn; tauto)) as (L3 & L4).
      pose proof (Hl "Z0c" _ _ ltac:(cbn; tauto)) as (L5 & L6). pose proof (Hl "Z0s" _ _ ltac:(cbn; tauto)) as (L7 & L8).
      repeat match type of Ej with
        | bind (aget ?l j) _ = _ => rewrite (aget_ok l j 0%R) in Ej by lia; cbn [bind] in Ej
        | bind (positioned _ _ _ _ ?l ?sd _ _ ?k) _ = _ =>
          let E := fresh "E" in let r := fresh "r" in destruct (positioned R_ops R_funs uniform (rg_deterministic rg) l sd rank (max_attempts_per_proc cfg) k) as [r| |] eqn:E in Ej; cbn [bind] in Ej;
          [|discriminate|eapply Pn; [|exact E]; lia] end.
      discriminate. }
    assert (Sub : forall j, In j (seq 0 (length (R0c_max rg))) -> j < length (R0c_max rg)) by (intros j Hj; apply in_seq in Hj; lia).
    revert Em Sub. generalize (seq 0 (length (R0c_max rg))). intros l. revert w'. induction l as [|j l IH]; intros w' Em Sub; cbn [mapM] in Em; [discriminate|].
    destruct (make_mode _ _ _ _ _ _ _ j) as [y| |w0] eqn:Ej in Em; cbn [bind] in Em; [|discriminate|exact (Mn j w0 (Sub j (or_introl eq_refl)) Ej)].
    destruct (mapM _ l) as [ys| |w0] eqn:Ey in Em; cbn [bind] in Em; try discriminate. apply (IH w0 Ey). intros k Hk. apply Sub. right. exact Hk. }
  destruct (make_gens R_ops R_funs uniform rg seed rank (max_attempts_per_proc cfg)) as [g| |w] eqn:E; cbn [bind] in H; [|discriminate|exact (Gn w eq_refl)].
  apply make_gens_good in E.
  assert (Eq : random_scan R_ops R_math ge0 mu0 newton_linear_solve linear_solve geev tol finite (RandomGen.fabs R_funs) (sized_pick R_ops R_funs uniform r2 (length (R0c_max rg))) cfg (length (R0c_max rg)) e g start clock = UB why).
  { rewrite <- H. unfold random_scan. destruct (scan_start R_ops (length (R0c_max rg)) e) as [q| |]; cbn [bind]; try reflexivity.
    apply run_same with (I := good R_ops R_funs uniform rg); [|exact E]. intros g' s Hg. apply (sized_pick_same R_ops R_funs uniform rg r2 g' s Hg). }
  exact (scan_defined R_ops R_math ge0 newton_tol mu0 newton_linear_solve linear_solve geev tol finite _ _ cfg _ solvers (fun g s => sized_pick_sized R_ops R_funs uniform r2 _ g s) e g start clock why Hok Eq).
Qed.
End Scans.
Print Assumptions scan_in_ranges.
Print Assumptions whole_scan_records_runs.
Print Assumptions whole_scan_defined.

(** ** An example *)
(** A scan at order r2.1 with one attempt that draws eta_bar between 1/2 and 2, on a logarithmic scale, and the amplitude R0c[1], of either sign, with a magnitude between 1/100 and 1/20. *)
Section Example.
Local Open Scope R_scope.
Definition half_uniform (u : unit) : R * unit := (1 / 2, u).
Definition draw_ranges : ranges (F:=R) :=
  mkRanges false ("log", 1 / 2, 2) ("linear", 0, 0) ("linear", -1, 1) ("linear", 0, 0) ("linear", 0, 0) "2 sided log"
    [1; 1 / 100] [1; 1 / 20] [0; 0] [0; 0] [0; 0] [0; 0] [0; 1 / 100] [0; 1 / 20].
Local Open Scope nat_scope.
Notation scan := (fun e => whole_scan R_ops R_math R_funs half_uniform Rge0 0%R easy_solver easy_solver2 easy_geev (tolerances_of R_ops R_math false) (fun _ => true) one_cfg
  draw_ranges (fun _ => tt) 0 e 0%R [(0, 0)%R; (0, 0)%R]).
Lemma draw_gens : exists g, make_gens R_ops R_funs half_uniform draw_ranges (fun _ => tt) 0 1 = Ok g.
Proof.
  assert (P : forall d lo hi k, limits_allowed d lo hi -> In k [0; 1; 2; 3; 4; 5; 6; 7]%Z -> exists r, positioned R_ops R_funs half_uniform false (d, lo, hi) tt 0 1 k = Ok r).
  { intros d lo hi k H Hk. unfold positioned. destruct (proj2 (C22_constructor unit false d lo hi tt) H) as (r & ->). cbn [bind].
    assert (E : start_position 0 1 k = Ok k) by (cbn in Hk; repeat (destruct Hk as [<-|Hk]; [reflexivity|]); destruct Hk). rewrite E. cbn [bind]. eauto. }
  unfold make_gens. cbn [rg_deterministic rg_eta_bar rg_sigma0 rg_B2c rg_B2s rg_p2 draw_ranges].
  destruct (P "log" (1 / 2)%R 2%R 0%Z) as (r0 & ->); [unfold limits_allowed; right; left; split; [reflexivity|lra]|cbn; tauto|]. cbn [bind].
  destruct (P "linear" 0%R 0%R 1%Z) as (r1 & ->); [left; reflexivity|cbn; tauto|]. cbn [bind].
  destruct (P "linear" (-1)%R 1%R 2%Z) as (r2 & ->); [left; reflexivity|cbn; tauto|]. cbn [bind].
  destruct (P "linear" 0%R 0%R 3%Z) as (r3 & ->); [left; reflexivity|cbn; tauto|]. cbn [bind].
  destruct (P "linear" 0%R 0%R 4%Z) as (r4 & ->); [left; reflexivity|cbn; tauto|]. cbn [bind].
  assert (Z : forall k, In k [0; 1; 2; 3; 4; 5; 6; 7]%Z -> exists r, positioned R_ops R_funs half_uniform false ("2 sided log", 0%R, 0%R) tt 0 1 k = Ok r)
    by (intros k Hk; apply P; [right; right; split; [reflexivity|right; split; reflexivity]|exact Hk]).
  assert (S : forall k, In k [0; 1; 2; 3; 4; 5; 6; 7]%Z -> exists r, positioned R_ops R_funs half_uniform false ("2 sided log", 1 / 100, 1 / 20)%R tt 0 1 k = Ok r)
    by (intros k Hk; apply P; [right; right; split; [reflexivity|left; lra]|exact Hk]).
  cbn [length R0c_max draw_ranges seq mapM]. unfold make_mode.
  cbn [rg_deterministic rg_fourier_option R0c_min R0c_max R0s_min R0s_max Z0c_min Z0c_max Z0s_min Z0s_max draw_ranges aget nth_error bind Nat.eqb String.eqb Ascii.eqb Bool.eqb andb].
  destruct (P "log" 1%R 1%R 4%Z) as (m0 & ->); [right; left; split; [reflexivity|lra]|cbn; tauto|]. cbn [bind].
  destruct (Z 5%Z) as (m1 & E1); [cbn; tauto|]. destruct (Z 6%Z) as (m2 & E2); [cbn; tauto|]. destruct (Z 7%Z) as (m3 & E3); [cbn; tauto|].
  destruct (S 4%Z) as (m4 & E4); [cbn; tauto|]. destruct (S 7%Z) as (m5 & E5); [cbn; tauto|].
  rewrite E1. cbn [bind]. rewrite E2. cbn [bind]. rewrite E3. cbn [bind]. rewrite E4. cbn [bind]. rewrite E5. cbn [bind]. eauto.
Qed.
Lemma draw_scan e : scan_input_ok one_cfg 2 e -> In (m_text R e "order_r_option") ["r1"; "r2"; "r2.1"] ->
  exists p sn, scan e = Ok (p, true) /\ In sn (p_saves p) /\ 0 < sn_j_scan sn /\ kept (p_log p) <> [].
Proof.
  intros He Ho.
  assert (HS : solvers_ok easy_solver easy_solver2) by (split; [|split]; try discriminate; intros m v x E; injection E as <-; reflexivity).
  assert (U : forall g, (0 <= fst (half_uniform g) <= 1)%R) by (intros g; cbn; lra).
  destruct draw_gens as (g & Eg). pose proof (make_gens_good _ _ _ _ _ _ _ _ Eg) as Hg.
  pose (pk := sized_pick R_ops R_funs half_uniform true 2). assert (Sz : forall g s, ScanSpec.sized 2 (fst (pk g s))) by (intros; apply sized_pick_sized).
  destruct (scan_completes Rge0 0%R 0%R easy_solver easy_solver2 easy_geev false pk one_cfg 2 e g 0%R [(0, 0)%R; (0, 0)%R]) as (p & ended & E).
  - intros m v. exists v. split; reflexivity.
  - intros m v. exists v. reflexivity.
  - reflexivity.
  - exact Sz.
  - exact He.
  - exact Ho.
  - assert (Es : scan e = Ok (p, ended)).
    { rewrite <- E. cbv beta. unfold whole_scan. change (max_attempts_per_proc one_cfg) with 1%Z. rewrite Eg. cbn [bind]. unfold random_scan.
      change (length (R0c_max draw_ranges)) with 2. destruct (scan_start R_ops 2 e) as [q| |]; cbn [bind]; try reflexivity. symmetry.
      apply run_same with (I := good R_ops R_funs half_uniform draw_ranges); [|exact Hg]. intros g' s Hg'. apply (sized_pick_same R_ops R_funs half_uniform draw_ranges true g' s Hg'). }
    destruct (scan_cases R_ops R_math Rge0 0%R 0%R easy_solver easy_solver2 easy_geev (tolerances_of R_ops R_math false) (fun _ => true) Rabs pk one_cfg 2 e g 0%R [(0, 0)%R; (0, 0)%R] He)
      as [(w & _ & Ew)|(q & _ & Eq & B & L & _)]; [congruence|].
    rewrite Eq in E. assert (K1 : 1 <= max_keep_per_proc one_cfg) by (cbn; lia).
    destruct (scan_stops R_ops Rabs pk _ one_cfg 2 Sz K1 _ _ _ _ _ _ E) as (T1 & _ & T3). destruct (T1 ltac:(cbn; lia)) as (T1a & T1b).
    assert (ended = true) by (apply T1b; cbn; lia). subst ended. specialize (T3 eq_refl).
    destruct (scan_reports_are_true R_ops Rabs pk _ one_cfg 2 Sz K1 _ _ _ _ _ _ E) as (J & _ & S). destruct (S eq_refl) as (sn & rest & Esn & (_ & _ & Sj & _)).
    assert (Lk : 0 < length (kept (p_log p))).
    { assert (Ln : p_log p <> []).
      { intros Hl. rewrite Hl in T3. destruct T3 as [T3|[T3|(c & [<-|[<-|[]]] & T3)]]; cbn in T3; [lia|discriminate| |];
          unfold Rltb in T3; destruct (Rlt_dec 10 (0 - 0)); [lra|discriminate|lra|discriminate]. }
      destruct (p_log p) as [|[c v] l] eqn:El; [contradiction|]. assert (v = None).
      { destruct v as [k|]; [exfalso|reflexivity]. apply Forall_inv in J. cbn [justified snd fst] in J.
        assert (k = 2) by (do 15 (destruct k as [|k]; [cbn in J; first [reflexivity|contradiction|destruct J as (J & _); discriminate J]|]); contradiction). subst k.
        assert (Hin : In (c, Some 2) (p_log p)) by (rewrite El; left; reflexivity).
        destruct (scan_in_ranges Rge0 0%R 0%R easy_solver easy_solver2 easy_geev (tolerances_of R_ops R_math false) (fun _ => true) half_uniform one_cfg U draw_ranges _ _ _ _ _ _ _ c (Some 2) He Es Hin)
          as ((_ & A) & _).
        destruct (A "R0c" _ _ (or_introl eq_refl)) as (La & Ha). cbn [sample_amplitude String.eqb Ascii.eqb Bool.eqb length draw_ranges R0c_max] in La, Ha.
        cbn [violates] in J. destruct (s_R0c (q_in c)) as [|a [|b [|? ?]]]; try discriminate La.
        destruct (Ha 0 a eq_refl) as (a0 & a1 & Q1 & Q2 & Q3). destruct (Ha 1 b eq_refl) as (b0 & b1 & Q4 & Q5 & Q6).
        cbn in Q1, Q2, Q4, Q5. injection Q1 as <-. injection Q2 as <-. injection Q4 as <-. injection Q5 as <-. cbn in Q3, Q6. unfold RandomSpec.between in Q3, Q6.
        rewrite Rmin_left, Rmax_left in Q3 by lra. rewrite Rmin_left, Rmax_right in Q6 by lra. assert (a = 1%R) by lra. subst a.
        assert (- (1 / 20) <= b <= 1 / 20)%R by (revert Q6; unfold Rabs; destruct (Rcase_abs b); lra).
        cbn in J. destruct J as [J|J]; unfold Rleb in J; match type of J with (if Rle_dec ?a ?b then _ else _) = _ => destruct (Rle_dec a b); [lra|discriminate J] end. }
      subst v. unfold kept. cbn [map filter snd fst rev]. rewrite app_length. cbn. lia. }
    exists p, sn. split; [exact Es|]. split; [rewrite Esn; left; reflexivity|]. split; [rewrite Sj; exact Lk|]. intros K. rewrite K in Lk. cbn in Lk. lia.
Qed.
Example scan_draw_example : exists p sn, scan one_object = Ok (p, true) /\ In sn (p_saves p) /\ 0 < sn_j_scan sn /\
  scan_input_ok one_cfg (length (R0c_max draw_ranges)) one_object /\ ints_fit one_object /\ solvers_ok easy_solver easy_solver2 /\ limits_sized draw_ranges.
Proof.
  destruct (draw_scan one_object one_ok) as (p & sn & E & H1 & H2 & _); [cbn; tauto|]. exists p, sn. split; [exact E|]. split; [exact H1|]. split; [exact H2|]. split; [exact one_ok|].
  split; [|split].
  - intros x Hx. cbn in Hx. repeat (destruct Hx as [<-|Hx]; [cbn; unfold in_int32; lia|]). destruct Hx.
  - split; [|split]; try discriminate. intros m v x Ev. injection Ev as <-. reflexivity.
  - intros x lo hi Hx. destruct Hx as [Hx|[Hx|[Hx|[Hx|[]]]]]; injection Hx as <- <- <-; split; reflexivity.
Qed.
End Example.
