(** The physics routines that a random scan calls (the parameters of Scan.v) are those of Run.v. *)
From Coq Require Import String ZArith List Arith Bool Lia.
From Verif Require Import Base BaseFacts FloatOps MathOps Tensor Newton RSing Axis AxisSpec Alloc AllocSpec AllocFacts Options OptionsSpec NetCDF NetCDFOut NetCDFSpec R1 R2.
From Verif Require Import Scan ScanSpec ScanFacts Opt OptSpec Run RunSpec RunFacts RunSafe OptQsc.
Import ListNotations.
Local Open Scope string_scope.
Local Open Scope nat_scope.

(** The members of a Qsc object by name, and the local state that Run.v passes from one routine to the next: the axis and the second-order solution. *)
Record calc (F : Type) := mkCalc { c_members : members F; c_axis : option (Axis.axis F); c_r2 : option (r2 F) }.
Arguments mkCalc {F}. Arguments c_members {F}. Arguments c_axis {F}. Arguments c_r2 {F}.

Section ScanQsc.
Context {F : Type} (o : fops F) (mo : mops F).
Variables (ge0 : F -> bool) (newton_tol mu0 : F) (newton_linear_solve : (nat -> nat -> F) -> list F -> outcome (list F))
  (linear_solve : matrix F -> list F -> outcome (list F)) (geev : list F -> Z * (list F * list F)) (tol : tolerances F) (finite : F -> bool).
Notation members := (members F).
Notation calculate := (Run.calculate o mo ge0 mu0 newton_linear_solve linear_solve geev tol finite).
Notation qsc := (@Scan.qsc F (calc F)).

(** ** The model *)
(** The object that init_axis is called for: scan_random.cpp lines 113-127 assign the sample to members. *)
Definition obj (q : qsc) : members :=
  let s := q_in q in
  with_arrays [("R0c", s_R0c s); ("R0s", s_R0s s); ("Z0c", s_Z0c s); ("Z0s", s_Z0s s)]
    (with_floats [("eta_bar", s_eta_bar s); ("sigma0", s_sigma0 s); ("B2c", s_B2c s); ("B2s", s_B2s s); ("p2", s_p2 s)] (c_members (q_rest q))).
Definition get {A} (x : option A) : outcome A := match x with Some a => Ok a | None => UB "not calculated yet" end.
(** scan_random.cpp lines 147 (q.init_axis), 173 and 178 (q.solve_sigma_equation, q.r1_diagnostics), 200-235 (q.calculate_r2, q.mercier,
    q.calculate_grad_grad_B_tensor, q.calculate_r_singularity).  The members that Scan.v shows are read from the object.  The routines after init_axis find the sample
    in the object that init_axis leaves. *)
Definition qsc_physics : @physics F (calc F) := {|
  ph_init_axis := fun q =>
    do p <- run_init_axis o mo ge0 (obj q);
    let e := snd p in
    Ok (m_float F e "axis_length", m_float F e "grid_min_R0", m_float F e "grid_max_curvature", m_float F e "standard_deviation_of_R",
        m_float F e "standard_deviation_of_Z", m_int F e "helicity", mkCalc e (Some (fst p)) None);
  ph_solve_sigma := fun q =>
    do a <- get (c_axis (q_rest q));
    do p <- run_solve_sigma o mo newton_linear_solve a (c_members (q_rest q));
    let e := snd p in
    Ok (m_float F e "iota", mkCalc e (Some a) None);
  ph_r1_diagnostics := fun q =>
    do a <- get (c_axis (q_rest q));
    let e := run_r1_diagnostics o mo a (c_members (q_rest q)) in
    Ok (m_float F e "grid_max_elongation", m_float F e "grid_min_L_grad_B", mkCalc e (Some a) None);
  ph_calculate_r2 := fun q =>
    do a <- get (c_axis (q_rest q));
    do p <- run_calculate_r2 o mo mu0 linear_solve a (c_members (q_rest q));
    let e := snd p in
    Ok (m_float F e "B20_grid_variation", m_float F e "B20_residual", mkCalc e (Some a) (Some (fst p)));
  ph_mercier := fun q =>
    do a <- get (c_axis (q_rest q));
    do s <- get (c_r2 (q_rest q));
    let e := c_members (q_rest q) in
    let e := assign_mercier (R2.mercier o mo (r2_input_of o mu0 a e) s) e in
    Ok (m_float F e "d2_volume_d_psi2", m_float F e "DMerc_times_r2", mkCalc e (Some a) (Some s));
  ph_grad_grad_B := fun q =>
    do a <- get (c_axis (q_rest q));
    do s <- get (c_r2 (q_rest q));
    let e := c_members (q_rest q) in
    let e := assign_grad_grad_B o mo (r2_input_of o mu0 a e) s e in
    Ok (m_float F e "grid_min_L_grad_grad_B", mkCalc e (Some a) (Some s));
  ph_r_singularity := fun q =>
    do a <- get (c_axis (q_rest q));
    do s <- get (c_r2 (q_rest q));
    let e := c_members (q_rest q) in
    do g <- RSing.calculate_r_singularity o mo geev tol finite (r2_input_of o mu0 a e) s;
    let e := assign_singularity g e in
    Ok (m_float F e "r_singularity_robust", m_float F e "beta", mkCalc e (Some a) (Some s)) |}.
(** Scan::random, lines 68-83: the arrays of the axis get [na] elements, then validate() and allocate().  The members that Scan.v shows are those of the object. *)
Definition shown_by (e : members) (x : calc F) : qsc :=
  let fl := m_float F e in let ar := m_array F e in
  mkQ (mkSample (fl "eta_bar") (fl "sigma0") (fl "B2c") (fl "B2s") (fl "p2") (ar "R0c") (ar "R0s") (ar "Z0c") (ar "Z0s"))
    (fl "axis_length") (fl "grid_min_R0") (fl "grid_max_curvature") (fl "standard_deviation_of_R") (fl "standard_deviation_of_Z") (m_int F e "helicity")
    (fl "iota") (fl "grid_max_elongation") (fl "grid_min_L_grad_B") (fl "B20_grid_variation") (fl "B20_residual") (fl "d2_volume_d_psi2") (fl "DMerc_times_r2")
    (fl "grid_min_L_grad_grad_B") (fl "r_singularity_robust") (fl "beta") x.
Definition scan_start (na : nat) (e : members) : outcome qsc :=
  let z := repeat (fzero o) na in
  do e <- Run.init o (with_arrays [("R0c", z); ("R0s", z); ("Z0c", z); ("Z0s", z)] e);
  Ok (shown_by e (mkCalc e None None)).

(** ** Facts *)
Variable fabs : F -> F.
Context {G : Type}.
Variable pick : G -> sample F -> sample F * G.
Variable cfg : @settings F.
Variable na : nat.
Hypothesis pick_sized : forall g s, ScanSpec.sized na (fst (pick g s)).
Notation attempt := (Scan.attempt o fabs qsc_physics cfg).

(** What the scan records of a configuration are members of the object. *)
Definition shown_first (c : qsc) : Prop :=
  let e := c_members (q_rest c) in
  q_axis_length c = m_float F e "axis_length" /\ q_grid_min_R0 c = m_float F e "grid_min_R0" /\ q_grid_max_curvature c = m_float F e "grid_max_curvature" /\
  q_standard_deviation_of_R c = m_float F e "standard_deviation_of_R" /\ q_standard_deviation_of_Z c = m_float F e "standard_deviation_of_Z" /\
  q_helicity c = m_int F e "helicity" /\ q_iota c = m_float F e "iota" /\ q_grid_max_elongation c = m_float F e "grid_max_elongation" /\
  q_grid_min_L_grad_B c = m_float F e "grid_min_L_grad_B".
Definition shown_second (c : qsc) : Prop :=
  let e := c_members (q_rest c) in
  q_B20_grid_variation c = m_float F e "B20_grid_variation" /\ q_B20_residual c = m_float F e "B20_residual" /\ q_d2_volume_d_psi2 c = m_float F e "d2_volume_d_psi2" /\
  q_DMerc_times_r2 c = m_float F e "DMerc_times_r2" /\ q_grid_min_L_grad_grad_B c = m_float F e "grid_min_L_grad_grad_B" /\
  q_r_singularity_robust c = m_float F e "r_singularity_robust" /\ q_beta c = m_float F e "beta".

(** How an attempt with the object [q] may end. *)
Definition ends (q : qsc) (x : outcome (list nat * qsc * option nat)) : Prop :=
  match x with
  | Ok (_, c, v) => q_in c = q_in q /\ (c_members (q_rest c) = c_members (q_rest q) \/ RunFacts.keeps (grid (obj q)) (obj q) (c_members (q_rest c))) /\
      (v = None -> (exists st, calculate (obj q) = Ok (st, c_members (q_rest c))) /\ shown_first c /\ (Scan.at_least_order_r2 cfg = true -> shown_second c))
  | Throw w => calculate (obj q) = Throw w
  | UB _ => exists w, calculate (obj q) = UB w
  end.
Lemma reject_ends q f k c : length f = 17 -> k < 17 -> q_in c = q_in q ->
  c_members (q_rest c) = c_members (q_rest q) \/ RunFacts.keeps (grid (obj q)) (obj q) (c_members (q_rest c)) -> ends q (reject f k c).
Proof. intros L K I M. unfold reject. rewrite incr_spec by lia. cbn [bind ends]. split; [exact I|]. split; [exact M|discriminate]. Qed.

Lemma sigma_others a e st e' : run_solve_sigma o mo newton_linear_solve a e = Ok (st, e') ->
  (forall x, x <> "iota" -> m_float F e' x = m_float F e x) /\ forall x, m_int F e' x = m_int F e x.
Proof.
  unfold run_solve_sigma. destruct (R1.solve_sigma_equation _ _ _ _ _ _ _ _) as [[[[st' s] r] u]| |]; cbn [bind]; try discriminate.
  intros H. match type of H with Ok (_, ?v) = _ => assert (E : e' = v) by congruence end. rewrite E. split; [|reflexivity]. intros x Hx.
  apply (update_out [("iota", u_iota u)]). cbn. intuition congruence.
Qed.
Lemma r2_others a e s e' : run_calculate_r2 o mo mu0 linear_solve a e = Ok (s, e') ->
  (forall x, inb x (r2_floats ++ r2p1_floats) = false -> m_float F e' x = m_float F e x) /\ forall x, m_int F e' x = m_int F e x.
Proof.
  unfold run_calculate_r2. destruct (R2.calculate_r2 _ _ _ _ _ _) as [s'| |]; cbn [bind]; try discriminate.
  set (i := r2_input_of o mu0 a e). intros H. match type of H with Ok (_, ?v) = _ => assert (E : e' = v) by congruence end. rewrite E.
  assert (H1 : forall x, inb x (r2_floats ++ r2p1_floats) = false -> m_float F (assign_r2 o i s' e) x = m_float F e x).
  { intros x Hx. apply update_out. intros Hi. change (In x r2_floats) in Hi. assert (B : inb x (r2_floats ++ r2p1_floats) = true) by (apply inb_In; apply in_or_app; left; exact Hi). congruence. }
  split; [|destruct (m_flag _ _ _); reflexivity]. intros x Hx. destruct (m_flag _ _ _); [|exact (H1 x Hx)].
  rewrite <- (H1 x Hx). apply update_out. intros Hi. change (In x r2p1_floats) in Hi. assert (B : inb x (r2_floats ++ r2p1_floats) = true) by (apply inb_In; apply in_or_app; right; exact Hi). congruence.
Qed.

Lemma attempt_ends f q : length f = 17 -> (0 < m_int F (obj q) "nphi")%Z -> m_flag F (obj q) "at_least_order_r2" = Scan.at_least_order_r2 cfg -> ends q (attempt f q).
Proof.
  intros L Hn Hf. unfold Scan.attempt. destruct (R0_crude_bad _ _); [apply reject_ends; auto; unfold REJECTED_DUE_TO_R0_CRUDE; lia|].
  unfold Scan.init_axis. cbn [ph_init_axis qsc_physics]. destruct (run_init_axis o mo ge0 (obj q)) as [[a e1]|w|w] eqn:E1; cbn [bind fst snd]; [|cbn [ends]; unfold Run.calculate; rewrite E1; reflexivity|cbn [ends]; unfold Run.calculate; rewrite E1; cbn [bind]; eauto].
  destruct (init_axis_keep _ _ _ _ _ _ Hn E1) as (En & K1).
  match goal with |- ends _ (if _ then reject _ _ ?c else _) => set (q1 := c) end.
  assert (Rj1 : forall f k, length f = 17 -> k < 17 -> ends q (reject f k q1)) by (intros; apply reject_ends; auto).
  do 3 (match goal with |- ends _ (if ?b then _ else _) => destruct b end; [apply Rj1; [exact L|unfold REJECTED_DUE_TO_R0, REJECTED_DUE_TO_HELICITY, REJECTED_DUE_TO_CURVATURE; lia]|]).
  unfold Scan.solve_sigma_equation. cbn [ph_solve_sigma qsc_physics q_rest q1 c_axis c_members get bind].
  destruct (run_solve_sigma o mo newton_linear_solve a e1) as [[st e2]|w|w] eqn:E2; cbn [bind fst snd]; [|cbn [ends]; unfold Run.calculate; rewrite E1; cbn [bind fst snd]; rewrite E2; reflexivity|cbn [ends]; unfold Run.calculate; rewrite E1; cbn [bind fst snd]; rewrite E2; cbn [bind]; eauto].
  pose proof (sigma_keep o mo newton_linear_solve a e1 st e2 E2) as K2. rewrite En in K2. destruct (sigma_others a e1 st e2 E2) as (O2 & I2).
  rewrite incr_spec by (unfold N_SIGMA_EQ_SOLVES; lia). cbn [bind]. set (f1 := upd f _ _). assert (L1 : length f1 = 17) by (unfold f1; rewrite upd_length; exact L).
  unfold Scan.r1_diagnostics. cbn [ph_r1_diagnostics qsc_physics q_rest q1 c_axis c_members get bind].
  set (e3 := run_r1_diagnostics o mo a e2).
  assert (K3 : RunFacts.keeps (grid (obj q)) (obj q) e3) by (eapply keeps_trans; [eapply keeps_trans; [exact K1|exact K2]|]; rewrite <- En; apply r1_keep).
  match goal with |- ends _ (if _ then reject _ _ ?c else _) => set (q3 := c) end.
  assert (Rj3 : forall f k, length f = 17 -> k < 17 -> ends q (reject f k q3)) by (intros; apply reject_ends; auto).
  do 3 (match goal with |- ends _ (if ?b then _ else _) => destruct b end; [apply Rj3; [exact L1|unfold REJECTED_DUE_TO_IOTA, REJECTED_DUE_TO_ELONGATION, REJECTED_DUE_TO_L_GRAD_B; lia]|]).
  assert (S3 : shown_first q3).
  { unfold shown_first. cbn [q3 q1 q_rest c_members q_axis_length q_grid_min_R0 q_grid_max_curvature q_standard_deviation_of_R q_standard_deviation_of_Z q_helicity q_iota q_grid_max_elongation q_grid_min_L_grad_B].
    rewrite <- !O2 by discriminate. rewrite <- I2. repeat split; reflexivity. }
  assert (F3 : m_flag F e3 "at_least_order_r2" = Scan.at_least_order_r2 cfg) by (rewrite (k_flag _ _ _ K3); exact Hf).
  assert (C3 : calculate (obj q) = (if Scan.at_least_order_r2 cfg then do p <- run_calculate_r2 o mo mu0 linear_solve a e3; do e <- run_r2_diagnostics o mo mu0 geev tol finite a (fst p) (snd p); Ok (st, e) else Ok (st, e3))).
  { unfold Run.calculate. rewrite E1. cbn [bind fst snd]. rewrite E2. cbn [bind fst snd]. fold e3. rewrite F3. reflexivity. }
  destruct (Scan.at_least_order_r2 cfg) eqn:Ho.
  2: { cbn [ends]. split; [reflexivity|]. split; [right; exact K3|]. intros _. split; [exists st; exact C3|]. split; [exact S3|]. rewrite Ho. discriminate. }
  unfold attempt_r2. unfold Scan.calculate_r2. cbn [ph_calculate_r2 qsc_physics q_rest q3 c_axis c_members get bind].
  destruct (run_calculate_r2 o mo mu0 linear_solve a e3) as [[s e4]|w|w] eqn:E4; cbn [bind fst snd] in *; [|exact C3|cbn [ends]; rewrite C3; eauto].
  pose proof (calculate_r2_keep o mo mu0 linear_solve a e3 s e4 E4) as K4. rewrite En in K4. pose proof (keeps_trans _ _ _ _ K3 K4) as K4'. destruct (r2_others a e3 s e4 E4) as (O4 & I4).
  rewrite incr_spec by (unfold N_R2_SOLVES; lia). cbn [bind]. set (f2 := upd f1 _ _). assert (L2 : length f2 = 17) by (unfold f2; rewrite upd_length; exact L1).
  match goal with |- ends _ (if _ then reject _ _ ?c else _) => set (q4 := c) end.
  match goal with |- ends _ (if ?b then _ else _) => destruct b end; [apply reject_ends; [exact L2|unfold REJECTED_DUE_TO_B20_VARIATION; lia|reflexivity|right; exact K4']|].
  unfold Scan.mercier. cbn [ph_mercier qsc_physics q_rest q4 c_axis c_r2 c_members get bind].
  set (i := r2_input_of o mu0 a e4). set (e5 := assign_mercier _ e4).
  assert (K5 : RunFacts.keeps (grid (obj q)) (obj q) e5) by (eapply keeps_trans; [exact K4'|apply mercier_keep]).
  match goal with |- ends _ (if _ then reject _ _ ?c else _) => set (q5 := c) end.
  assert (Rj5 : forall f k, length f = 17 -> k < 17 -> ends q (reject f k q5)) by (intros; apply reject_ends; auto).
  do 2 (match goal with |- ends _ (if ?b then _ else _) => destruct b end; [apply Rj5; [exact L2|unfold REJECTED_DUE_TO_D2_VOLUME_D_PSI2, REJECTED_DUE_TO_DMERC; lia]|]).
  unfold calculate_grad_grad_B_tensor. cbn [ph_grad_grad_B qsc_physics q_rest q5 c_axis c_r2 c_members get bind].
  change (r2_input_of o mu0 a e5) with i. set (e6 := assign_grad_grad_B o mo i s e5).
  assert (K6 : RunFacts.keeps (grid (obj q)) (obj q) e6) by (eapply keeps_trans; [exact K5|]; rewrite <- En; change (a_nphi a) with (a_nphi (i_axis (j_r1 i))); apply grad_grad_B_keep).
  match goal with |- ends _ (if _ then reject _ _ ?c else _) => set (q6 := c) end.
  match goal with |- ends _ (if ?b then _ else _) => destruct b end; [apply reject_ends; [exact L2|unfold REJECTED_DUE_TO_L_GRAD_GRAD_B; lia|reflexivity|right; exact K6]|].
  unfold Scan.calculate_r_singularity. cbn [ph_r_singularity qsc_physics q_rest q6 c_axis c_r2 c_members get bind].
  change (r2_input_of o mu0 a e6) with i. unfold run_r2_diagnostics in C3. fold i in C3. fold e5 in C3. fold e6 in C3.
  destruct (RSing.calculate_r_singularity o mo geev tol finite i s) as [g|w|w] eqn:E7; cbn [bind] in *; [|exact C3|cbn [ends]; rewrite C3; eauto].
  set (e7 := assign_singularity g e6) in *.
  assert (K7 : RunFacts.keeps (grid (obj q)) (obj q) e7).
  { eapply keeps_trans; [exact K6|]. rewrite <- En. apply singularity_keep. apply (singularity_len _ _ _ _ _ _ _ _ E7). }
  match goal with |- ends _ (if _ then reject _ _ ?c else _) => set (q7 := c) end.
  assert (Rj7 : forall f k, length f = 17 -> k < 17 -> ends q (reject f k q7)) by (intros; apply reject_ends; auto).
  do 2 (match goal with |- ends _ (if ?b then _ else _) => destruct b end; [apply Rj7; [exact L2|unfold REJECTED_DUE_TO_R_SINGULARITY, REJECTED_DUE_TO_BETA; lia]|]).
  cbn [ends]. split; [reflexivity|]. split; [right; exact K7|]. intros _. split; [exists st; exact C3|]. split.
  - revert S3. unfold shown_first. cbn [q7 q6 q5 q4 q3 q1 q_rest c_members q_axis_length q_grid_min_R0 q_grid_max_curvature q_standard_deviation_of_R q_standard_deviation_of_Z q_helicity q_iota q_grid_max_elongation q_grid_min_L_grad_B].
    rewrite <- !O4 by reflexivity. rewrite <- !I4. intros S3. exact S3.
  - intros _. unfold shown_second. repeat split; reflexivity.
Qed.

(** ** What is true between two attempts *)
(** The inputs that a random scan does not draw. *)
Definition scan_floats : list string := ["B0"; "I2"; "newton_tolerance"].
Definition scan_fixed (e e' : members) : Prop :=
  (forall x, In x input_ints -> m_int F e' x = m_int F e x) /\ (forall x, In x scan_floats -> m_float F e' x = m_float F e x) /\
  m_text F e' "order_r_option" = m_text F e "order_r_option".
Definition between (e0 : members) (q : qsc) : Prop :=
  let e := c_members (q_rest q) in
  RunSpec.ready F (fzero o) e /\ scan_fixed e0 e /\ m_flag F e "at_least_order_r2" = Scan.at_least_order_r2 cfg.
Lemma obj_array q x : ~ In x axis_members -> m_array F (obj q) x = m_array F (c_members (q_rest q)) x.
Proof. intros H. apply update_out. exact H. Qed.
Lemma obj_float q x : inb x ["eta_bar"; "sigma0"; "B2c"; "B2s"; "p2"] = false -> m_float F (obj q) x = m_float F (c_members (q_rest q)) x.
Proof. intros H. apply update_out. intros Hi. apply (inb_In x ["eta_bar"; "sigma0"; "B2c"; "B2s"; "p2"]) in Hi. congruence. Qed.
Lemma obj_axis s q x : ScanSpec.sized na s -> In x axis_members -> length (m_array F (obj (set_sample s q)) x) = na.
Proof. intros (A & B & C & D) [<-|[<-|[<-|[<-|[]]]]]; assumption. Qed.
Lemma obj_changed s q : ScanSpec.sized na s -> na <> 0 -> changed F (c_members (q_rest q)) (obj (set_sample s q)).
Proof.
  intros Hs Hn. unfold changed. repeat (split; [reflexivity|]). split; [|split; [|split]].
  - intros x Hx. apply (obj_array (set_sample s q)). intros Ha. assert (B : apart axis_members never_set = true) by (vm_compute; reflexivity).
    unfold apart in B. rewrite forallb_forall in B. specialize (B x Hx). apply inb_In in Ha. rewrite Ha in B. discriminate.
  - intros x Hx. rewrite (obj_array (set_sample s q)) by exact Hx. reflexivity.
  - rewrite obj_axis; [exact Hn|exact Hs|cbn; tauto].
  - intros x Hx. rewrite !obj_axis; auto. cbn. tauto.
Qed.
Lemma obj_fixed e0 s q : scan_fixed e0 (c_members (q_rest q)) -> scan_fixed e0 (obj (set_sample s q)).
Proof.
  intros (A & B & C). split; [exact A|]. split; [|exact C]. intros x Hx. rewrite <- (B x Hx). apply (obj_float (set_sample s q)).
  destruct Hx as [<-|[<-|[<-|[]]]]; reflexivity.
Qed.
Lemma keeps_fixed n e0 e e1 : RunFacts.keeps n e e1 -> scan_fixed e0 e -> scan_fixed e0 e1.
Proof.
  intros K (A & B & C). split; [|split].
  - intros x Hx. rewrite (k_int _ _ _ K) by exact Hx. auto.
  - intros x Hx. rewrite <- (B x Hx). apply (k_float _ _ _ K). destruct Hx as [<-|[<-|[<-|[]]]]; cbn; tauto.
  - rewrite <- C. apply (k_text _ _ _ K).
Qed.
Hypothesis solvers : solvers_ok newton_linear_solve linear_solve.
Lemma obj_ready e0 s q : between e0 q -> ScanSpec.sized na s -> na <> 0 -> RunSpec.ready F (fzero o) (obj (set_sample s q)).
Proof. intros (R & _) Hs Hn. eapply (changed_ready o); [apply obj_changed; [exact Hs|exact Hn]|exact R]. Qed.
Lemma obj_axis_ok e0 s q : ScanSpec.sized na s -> RunSpec.ready F (fzero o) (obj (set_sample s q)) -> scan_fixed e0 (obj (set_sample s q)) -> OptSpec.limits na (m_int F e0 "nfp") ->
  axis_ok (axis_input_of (obj (set_sample s q))).
Proof.
  intros Hs R Fo (N1 & N2 & N3). constructor; cbn [axis_input_of ai_nphi ai_nfp ai_R0c ai_R0s ai_Z0c ai_Z0s].
  - pose proof (ready_positive o _ R). lia.
  - rewrite (proj1 Fo) by (apply inb_In; reflexivity). exact N2.
  - rewrite (obj_axis s q "R0c" Hs) by (cbn; tauto). exact N1.
  - rewrite (obj_axis s q "R0s" Hs), (obj_axis s q "R0c" Hs) by (cbn; tauto). reflexivity.
  - rewrite (obj_axis s q "Z0c" Hs), (obj_axis s q "R0c" Hs) by (cbn; tauto). reflexivity.
  - rewrite (obj_axis s q "Z0s" Hs), (obj_axis s q "R0c" Hs) by (cbn; tauto). reflexivity.
  - rewrite (obj_axis s q "R0c" Hs) by (cbn; tauto). rewrite (proj1 Fo) by (apply inb_In; reflexivity). exact N3.
Qed.
Lemma between_attempts e0 : OptSpec.limits na (m_int F e0 "nfp") -> holds_between o fabs pick qsc_physics cfg (between e0).
Proof.
  intros (N1 & N2 & N3) f q g L J. set (s := fst (pick g (q_in q))). assert (Hs : ScanSpec.sized na s) by apply pick_sized.
  pose proof (obj_ready e0 s q J Hs ltac:(lia)) as R. destruct J as (R0 & Fx & Hf). pose proof (obj_fixed e0 s q Fx) as Fo.
  pose proof (attempt_ends f (set_sample s q) L (ready_positive o _ R) Hf) as E.
  pose proof (obj_axis_ok e0 s q Hs R Fo (conj N1 (conj N2 N3))) as A.
  split.
  - intros w Ew. rewrite Ew in E. destruct E as (w' & E). revert E. apply calculate_no_ub; assumption.
  - intros f' q' v Eq. rewrite Eq in E. destruct E as (_ & M & _). unfold between. destruct M as [M|K].
    + change (q_rest (set_sample s q)) with (q_rest q) in M. rewrite M. split; [exact R0|]. split; [exact Fx|exact Hf].
    + split; [eapply (keeps_ready o); [exact K|exact R]|]. split; [eapply keeps_fixed; [exact K|exact Fo]|]. rewrite (k_flag _ _ _ K). exact Hf.
Qed.
Lemma attempted_calculated e0 c : OptSpec.limits na (m_int F e0 "nfp") -> attempted o fabs pick qsc_physics cfg (between e0) (c, None) ->
  ScanSpec.sized na (q_in c) /\ exists e st, RunSpec.ready F (fzero o) e /\ scan_fixed e0 e /\ calculate e = Ok (st, c_members (q_rest c)) /\
    m_flag F e "at_least_order_r2" = Scan.at_least_order_r2 cfg /\
    (forall x v, In (x, v) [("eta_bar", s_eta_bar (q_in c)); ("sigma0", s_sigma0 (q_in c)); ("B2c", s_B2c (q_in c)); ("B2s", s_B2s (q_in c)); ("p2", s_p2 (q_in c))] -> m_float F e x = v) /\
    (forall x v, In (x, v) [("R0c", s_R0c (q_in c)); ("R0s", s_R0s (q_in c)); ("Z0c", s_Z0c (q_in c)); ("Z0s", s_Z0s (q_in c))] -> m_array F e x = v) /\
    shown_first c /\ (Scan.at_least_order_r2 cfg = true -> shown_second c).
Proof.
  intros N (f & q & g & f' & L & J & E). cbn [fst snd] in E. set (s := fst (pick g (q_in q))) in *. assert (Hs : ScanSpec.sized na s) by apply pick_sized.
  pose proof (obj_ready e0 s q J Hs ltac:(destruct N; lia)) as R. destruct J as (R0 & Fx & Hf).
  pose proof (attempt_ends f (set_sample s q) L (ready_positive o _ R) Hf) as D. rewrite E in D. destruct D as (Ei & _ & D). destruct (D eq_refl) as ((st & Ec) & D1 & D2).
  rewrite Ei. split; [exact Hs|]. exists (obj (set_sample s q)), st. split; [exact R|]. split; [apply obj_fixed; exact Fx|]. split; [exact Ec|]. split; [exact Hf|].
  split; [|split; [|split; [exact D1|exact D2]]].
  - intros x v Hx. repeat (destruct Hx as [Hx|Hx]; [injection Hx as <- <-; reflexivity|]). destruct Hx.
  - intros x v Hx. repeat (destruct Hx as [Hx|Hx]; [injection Hx as <- <-; reflexivity|]). destruct Hx.
Qed.
Lemma throws_calculated e0 w : OptSpec.limits na (m_int F e0 "nfp") -> attempt_throws o fabs pick qsc_physics cfg (between e0) w ->
  exists e, RunSpec.ready F (fzero o) e /\ scan_fixed e0 e /\ axis_ok (axis_input_of e) /\ length (m_array F e "R0c") = na /\ calculate e = Throw w.
Proof.
  intros N (f & q & g & L & J & E). set (s := fst (pick g (q_in q))) in *. assert (Hs : ScanSpec.sized na s) by apply pick_sized.
  pose proof (obj_ready e0 s q J Hs ltac:(destruct N; lia)) as R. destruct J as (R0 & Fx & Hf).
  pose proof (attempt_ends f (set_sample s q) L (ready_positive o _ R) Hf) as D. rewrite E in D. pose proof (obj_fixed e0 s q Fx) as Fo.
  exists (obj (set_sample s q)). split; [exact R|]. split; [exact Fo|]. split; [eapply obj_axis_ok; eassumption|]. split; [|exact D]. apply obj_axis; [exact Hs|cbn; tauto].
Qed.
(** The object that the scan starts with. *)
Lemma start_between e q : scan_start na e = Ok q -> OptSpec.limits na (m_int F e "nfp") -> nphi_limits (m_int F e "nphi") ->
  Scan.at_least_order_r2 cfg = negb (String.eqb (m_text F e "order_r_option") "r1") ->
  between (c_members (q_rest q)) q /\ m_int F (c_members (q_rest q)) "nphi" = odd_nphi (m_int F e "nphi") /\
  (forall x, x <> "nphi" -> m_int F (c_members (q_rest q)) x = m_int F e x) /\ (forall x, m_float F (c_members (q_rest q)) x = m_float F e x) /\
  (forall x, m_text F (c_members (q_rest q)) x = m_text F e x).
Proof.
  unfold scan_start. set (z := repeat (fzero o) na). set (e' := with_arrays _ e). destruct (Run.init o e') as [e1| |] eqn:E; cbn [bind]; try discriminate.
  intros H (N1 & _) Hl Hc. match type of H with Ok ?v = Ok _ => assert (Eq : q = v) by congruence end. rewrite Eq. cbn [shown_by q_rest c_members].
  destruct (init_inputs o _ _ E) as (J1 & J2 & J3 & J4 & J5). assert (Lz : length z = na) by apply repeat_length.
  assert (R : RunSpec.ready F (fzero o) e1).
  { apply (init_ready o ge0 newton_tol mu0 newton_linear_solve finite e'); [exact Hl| | |exact E].
    - change (length z <> 0). lia.
    - intros x [<-|[<-|[<-|[<-|[]]]]]; reflexivity. }
  split; [|split; [exact J1|split; [exact J2|split; [exact J3|exact J4]]]]. split; [exact R|]. split; [split; [|split]; reflexivity|].
  rewrite Hc. rewrite <- (J4 "order_r_option" : _ = m_text F e "order_r_option").
  destruct (rd_order _ _ _ R) as [T|[T|[T|[]]]]; (match type of T with (?a, mkFlags ?u _ _) = (?c, mkFlags ?d _ _) => assert (T1 : c = a) by congruence; assert (T2 : d = u) by congruence end);
    cbn [shown_by q_rest c_members]; rewrite T1, T2; reflexivity.
Qed.
End ScanQsc.
