(** C102: the output file of a random scan in any number of processes holds, for each configuration it lists, what a run of the code for this configuration alone writes. *)
From Coq Require Import String ZArith List Arith Bool Lia Reals Lra.
From Verif Require Import Base BaseFacts FloatOps MathOps Tensor Newton RSing Axis AxisSpec Alloc AllocSpec AllocFacts Toml TomlSpec Options OptionsSpec
  NetCDF NetCDFOut NetCDFSpec NetCDFFacts NetCDFRead.
From Verif Require Import Scan ScanSpec ScanFacts OptSpec Run RunSpec RunFacts RunSafe RunFile RunInput OptQsc ScanQsc Star Collect CollectFacts ScanFile
  Properties_NetCDF Properties_Scan Properties_Collect Properties_RSing HelicityFacts Properties_RunSafe Properties_ScanQsc.
Import ListNotations.
Local Open Scope string_scope.
Local Open Scope nat_scope.

(** ** Specification *)
(** The variables of the output file of a scan that repeat inputs of a configuration ... *)
Definition scanned_first : list (string * string) := [("scan_eta_bar", "eta_bar"); ("scan_sigma0", "sigma0")].
Definition scanned_second : list (string * string) := [("scan_B2c", "B2c"); ("scan_B2s", "B2s"); ("scan_p2", "p2")].
Definition scanned_axis : list (string * string) := [("scan_R0c", "R0c"); ("scan_R0s", "R0s"); ("scan_Z0c", "Z0c"); ("scan_Z0s", "Z0s")].
(** ... and those that hold results, with the variables of the output file of a run; the second list for the orders r2 and r2.1 only. *)
Definition results_first : list (string * string) :=
  [("scan_axis_length", "axis_length"); ("scan_min_R0", "grid_min_R0"); ("scan_max_curvature", "grid_max_curvature"); ("scan_iota", "iota");
   ("scan_max_elongation", "grid_max_elongation"); ("scan_min_L_grad_B", "grid_min_L_grad_B"); ("scan_standard_deviation_of_R", "standard_deviation_of_R");
   ("scan_standard_deviation_of_Z", "standard_deviation_of_Z")].
Definition results_second : list (string * string) :=
  [("scan_min_L_grad_grad_B", "grid_min_L_grad_grad_B"); ("scan_r_singularity", "r_singularity_robust"); ("scan_d2_volume_d_psi2", "d2_volume_d_psi2");
   ("scan_DMerc_times_r2", "DMerc_times_r2"); ("scan_B20_variation", "B20_grid_variation"); ("scan_B20_residual", "B20_residual"); ("scan_beta", "beta")].
(** The variables that count attempts, by the filter that rejected them, and the fractions. *)
Definition rejections : list (string * nat) :=
  [("rejected_due_to_R0_crude", REJECTED_DUE_TO_R0_CRUDE); ("rejected_due_to_R0", REJECTED_DUE_TO_R0); ("rejected_due_to_helicity", REJECTED_DUE_TO_HELICITY);
   ("rejected_due_to_curvature", REJECTED_DUE_TO_CURVATURE); ("rejected_due_to_iota", REJECTED_DUE_TO_IOTA); ("rejected_due_to_elongation", REJECTED_DUE_TO_ELONGATION);
   ("rejected_due_to_L_grad_B", REJECTED_DUE_TO_L_GRAD_B); ("rejected_due_to_B20_variation", REJECTED_DUE_TO_B20_VARIATION);
   ("rejected_due_to_L_grad_grad_B", REJECTED_DUE_TO_L_GRAD_GRAD_B); ("rejected_due_to_d2_volume_d_psi2", REJECTED_DUE_TO_D2_VOLUME_D_PSI2);
   ("rejected_due_to_DMerc", REJECTED_DUE_TO_DMERC); ("rejected_due_to_r_singularity", REJECTED_DUE_TO_R_SINGULARITY); ("rejected_due_to_beta", REJECTED_DUE_TO_BETA)].
Definition rejection_fractions : list (string * nat) :=
  [("fraction_rejected_due_to_R0_crude", REJECTED_DUE_TO_R0_CRUDE); ("fraction_rejected_due_to_R0", REJECTED_DUE_TO_R0);
   ("fraction_rejected_due_to_curvature", REJECTED_DUE_TO_CURVATURE); ("fraction_rejected_due_to_iota", REJECTED_DUE_TO_IOTA); ("fraction_rejected_due_to_elongation", REJECTED_DUE_TO_ELONGATION);
   ("fraction_rejected_due_to_L_grad_B", REJECTED_DUE_TO_L_GRAD_B); ("fraction_rejected_due_to_B20_variation", REJECTED_DUE_TO_B20_VARIATION);
   ("fraction_rejected_due_to_L_grad_grad_B", REJECTED_DUE_TO_L_GRAD_GRAD_B); ("fraction_rejected_due_to_d2_volume_d_psi2", REJECTED_DUE_TO_D2_VOLUME_D_PSI2);
   ("fraction_rejected_due_to_DMerc", REJECTED_DUE_TO_DMERC); ("fraction_rejected_due_to_r_singularity", REJECTED_DUE_TO_R_SINGULARITY)].
(** The same number in two files. *)
Definition same_number {F} (f : file F) (x : string) (idx : list nat) (f' : file F) (x' : string) : Prop := exists v, element F f x idx v /\ element F f' x' [] v.
(** Entry [j] of a variable of integers. *)
Definition integer_at {F} (f : file F) (x : string) (j : nat) (z : Z) : Prop :=
  exists v c, In v (f_vars F f) /\ v_name F v = x /\ v_contents F v = Some (Ints c) /\ nth_error c j = Some z.
(** Two objects have been given the same input, apart from what a scan draws. *)
Definition same_scan_input {F} (e e' : members F) : Prop :=
  (forall x, In x input_ints -> m_int F e' x = m_int F e x) /\ (forall x, In x ["B0"; "I2"; "newton_tolerance"] -> m_float F e' x = m_float F e x) /\
  m_text F e' "order_r_option" = m_text F e "order_r_option".
(** The members of the object of class Scan that are written and that no calculation sets: the options are not empty and the limits of the coefficients have [na] elements. *)
Definition scan_settings_ok {F} (na : nat) (s : members F) : Prop :=
  (forall x, In x ["eta_bar_scan_option"; "sigma0_scan_option"; "fourier_scan_option"; "B2c_scan_option"; "B2s_scan_option"; "p2_scan_option"] -> m_text F s x <> "") /\
  (forall x, In x ["R0c_min"; "R0c_max"; "R0s_min"; "R0s_max"; "Z0c_min"; "Z0c_max"; "Z0s_min"; "Z0s_max"] -> length (m_array F s x) = na).

Lemma nth_error_nth_ok {A} (l : list A) i d : i < length l -> nth_error l i = Some (nth i l d).
Proof. intros H. apply nth_error_nth'. exact H. Qed.

Lemma row_of_In x l i : row_of x l = Some i -> In (x, i) l.
Proof.
  induction l as [|[y k] l IH]; cbn [row_of]; [discriminate|]. destruct (String.eqb_spec x y) as [->|]; [|right; auto]. intros E. injection E as ->. left. reflexivity.
Qed.
Ltac column := apply row_of_In; reflexivity.

Section ScanFile.
Context {F : Type} (o : fops F) (mo : mops F).
Variables (ge0 : F -> bool) (newton_tol mu0 : F) (newton_linear_solve : (nat -> nat -> F) -> list F -> outcome (list F))
  (linear_solve : matrix F -> list F -> outcome (list F)) (geev : list F -> Z * (list F * list F)) (tol : tolerances F) (finite : F -> bool).
Notation members := (members F).
Notation run_gives := (run_gives o mo ge0 newton_tol mu0 newton_linear_solve linear_solve geev tol finite).
Notation physics := (qsc_physics o mo ge0 mu0 newton_linear_solve linear_solve geev tol finite).
Variable fabs : F -> F.
Context {G : Type}.
Variable pick : G -> sample F -> sample F * G.
Variable cfg : @settings F.
Variable na : nat.
Variable fof : nat -> F.
Notation random_scan := (random_scan o mo ge0 mu0 newton_linear_solve linear_solve geev tol finite fabs pick cfg na).
Notation proc := (@proc F G (calc F)).
Hypothesis solvers : solvers_ok newton_linear_solve linear_solve.
Hypothesis pick_sized : forall g s, ScanSpec.sized na (fst (pick g s)).

(** A process that has gone through Scan::random, with the input of [e] and its own memory, random numbers and clock. *)
Definition process (e : members) (p : proc) : Prop := exists e' g start clock, same_scan_input e e' /\ random_scan e' g start clock = Ok (p, true).
(** The object q of process 0 when it writes: that of the beginning, or that at the end of one of its attempts. *)
Definition held (e : members) (p : proc) (m : members) : Prop :=
  exists e' g start clock, same_scan_input e e' /\ random_scan e' g start clock = Ok (p, true) /\
    ((exists q, scan_start o na e' = Ok q /\ m = c_members (q_rest q)) \/ exists c v, In (c, v) (p_log p) /\ m = c_members (q_rest c)).

(** ** Proofs *)
Lemma same_input_ok (e e' : members) : same_scan_input e e' -> scan_input_ok cfg na e -> scan_input_ok cfg na e'.
Proof.
  intros (S1 & S2 & S3) (A & B & C & D). split; [|split; [|split; [exact C|rewrite S3; exact D]]].
  - rewrite S1 by (apply inb_In; reflexivity). exact A.
  - rewrite S1 by (apply inb_In; reflexivity). exact B.
Qed.
Lemma same_fit (e e' : members) : same_scan_input e e' -> ints_fit e -> ints_fit e'.
Proof. intros (S1 & _) H x Hx. rewrite S1 by exact Hx. apply H. exact Hx. Qed.
Lemma same_other (e e' c : members) : same_scan_input e e' -> other_inputs e' c -> other_inputs e c.
Proof.
  intros (S1 & S2 & S3) (A & B & C & D). split; [|split; [|split]].
  - rewrite A, S1 by (apply inb_In; reflexivity). reflexivity.
  - intros x Hx. rewrite B by exact Hx. apply S1. cbn in *. tauto.
  - intros x Hx. rewrite C by exact Hx. apply S2. exact Hx.
  - rewrite D. exact S3.
Qed.

(** What is known about the object that is held. *)
Lemma held_ready e p m : scan_input_ok cfg na e -> held e p m ->
  RunSpec.ready F (fzero o) m /\ other_inputs e m /\ m_flag F m "at_least_order_r2" = Scan.at_least_order_r2 cfg.
Proof.
  intros H (e' & g & start & clock & S & E & Hm). pose proof (same_input_ok e e' S H) as H'.
  destruct (scan_cases o mo ge0 newton_tol mu0 newton_linear_solve linear_solve geev tol finite fabs pick cfg na e' g start clock H') as [(w & _ & Ew)|(q & Es & Eq & B & L & O)]; [congruence|].
  assert (J : forall q', between o cfg (c_members (q_rest q)) q' -> RunSpec.ready F (fzero o) (c_members (q_rest q')) /\ other_inputs e (c_members (q_rest q')) /\ m_flag F (c_members (q_rest q')) "at_least_order_r2" = Scan.at_least_order_r2 cfg).
  { intros q' (R & (X1 & X2 & X3) & Fl). split; [exact R|]. split; [|exact Fl]. apply (same_other e e' _ S). destruct O as (O1 & O2 & O3 & O4). split; [|split; [|split]].
    - rewrite X1 by (apply inb_In; reflexivity). exact O1.
    - intros x Hx. rewrite X1 by (cbn in *; tauto). apply O2. exact Hx.
    - intros x Hx. rewrite X2 by exact Hx. apply O3. exact Hx.
    - rewrite X3. exact O4. }
  destruct Hm as [(q' & Es' & ->)|(c & v & Hc & ->)].
  - assert (q' = q) by congruence. subst q'. apply J. exact B.
  - apply J. pose proof (between_attempts o mo ge0 newton_tol mu0 newton_linear_solve linear_solve geev tol finite fabs pick cfg na pick_sized solvers _ L) as Bt.
    rewrite Eq in E. destruct H' as (_ & _ & K & _).
    destruct (run_between o fabs pick physics cfg na pick_sized _ Bt g q start clock K B) as (_ & At & _).
    specialize (At p true E). rewrite Forall_forall in At. destruct (At _ Hc) as (f0 & q0 & g0 & f' & Lf & J0 & Ea). exact (proj2 (Bt f0 q0 g0 Lf J0) _ _ _ Ea).
Qed.

(** At the end of the scan the object is that of the beginning or that of the last attempt. *)
Lemma iteration_q start n1 n2 (p p' : proc) go : iteration o fabs pick physics cfg na start n1 n2 p = Ok (p', go) ->
  (p_q p' = p_q p /\ p_log p' = p_log p) \/ exists v, p_log p' = (p_q p', v) :: p_log p.
Proof.
  unfold iteration. match goal with |- bind ?x _ = _ -> _ => destruct x as [p1| |] eqn:E1 end; cbn [bind]; try discriminate.
  assert (A : p_q p1 = p_q p /\ p_log p1 = p_log p).
  { destruct (flt o (save_period cfg) _).
    - unfold collect in E1. destruct (aset _ _ _) as [f| |]; cbn [bind] in E1; try discriminate. injection E1 as <-. auto.
    - injection E1 as <-. auto. }
  clear E1. destruct A as [A1 A2]. rewrite <- A1, <- A2. clear A1 A2.
  destruct (aget _ _) as [a| |]; cbn [bind]; try discriminate. destruct (_ && _).
  { intros E. injection E as <- <-. auto. }
  destruct (incr _ _) as [f| |]; cbn [bind]; try discriminate. destruct (pick _ _) as [s g].
  destruct (attempt _ _ _ _ _ _) as [[[f' q'] [k|]]| |]; cbn [bind]; try discriminate.
  - intros E. injection E as <- <-. right. eexists. reflexivity.
  - match goal with |- bind ?x _ = _ -> _ => destruct x as [b| |] end; cbn [bind]; try discriminate.
    intros E. injection E as <- <-. right. eexists. reflexivity.
Qed.
Lemma loop_q start clock q0 : forall (p p' : proc) go, loop o fabs pick physics cfg na start clock p = Ok (p', go) ->
  p_q p = q0 \/ (exists v, In (p_q p, v) (p_log p)) -> p_q p' = q0 \/ exists v, In (p_q p', v) (p_log p').
Proof.
  induction clock as [|[n1 n2] clock IH]; intros p p' go E H; cbn [loop] in E.
  - injection E as <- <-. exact H.
  - destruct (iteration o fabs pick physics cfg na start n1 n2 p) as [[p1 go1]| |] eqn:E1; cbn [bind] in E; try discriminate.
    assert (H1 : p_q p1 = q0 \/ exists v, In (p_q p1, v) (p_log p1)).
    { destruct (iteration_q _ _ _ _ _ _ E1) as [(-> & ->)|(v & ->)]; [exact H|]. right. exists v. left. reflexivity. }
    destruct go1; [exact (IH _ _ _ E H1)|]. injection E as <- <-. exact H1.
Qed.
Lemma held_last e p : process e p -> scan_input_ok cfg na e -> held e p (c_members (q_rest (p_q p))).
Proof.
  intros (e' & g & start & clock & S & E) H. exists e', g, start, clock. split; [exact S|]. split; [exact E|].
  unfold Properties_ScanQsc.random_scan in E. destruct (scan_start o na e') as [q| |] eqn:Es; cbn [bind] in E; try discriminate.
  unfold Scan.run in E. destruct (loop _ _ _ _ _ _ _ _ _) as [[p1 en]| |] eqn:El; cbn [bind] in E; try discriminate.
  destruct en; [|discriminate]. unfold collect in E. destruct (aset _ _ _) as [f| |]; cbn [bind] in E; try discriminate.
  assert (Ep : p_q p = p_q p1 /\ p_log p = p_log p1) by (injection E as <-; auto). destruct Ep as [-> ->].
  destruct (loop_q start clock q _ _ _ El (or_introl eq_refl)) as [->|(v & Hv)]; [left; eauto|right; eauto].
Qed.

(** A kept configuration of one of the processes. *)
Lemma process_kept (e : members) p c : scan_input_ok cfg na e -> ints_fit e -> process e p -> In (c, None) (p_log p) ->
  let m := c_members (q_rest c) in
  exists f, qsc_write_netcdf F (m_of_Z mo) m = Ok f /\ run_gives m f /\ RunSpec.ready F (fzero o) m /\ other_inputs e m /\ m_flag F m "at_least_order_r2" = Scan.at_least_order_r2 cfg /\
    (forall i x, In (i, x) drawn -> m_float F m x = nth i (params_of c) (fzero o)) /\
    (m_array F m "R0c" = s_R0c (q_in c) /\ m_array F m "R0s" = s_R0s (q_in c) /\ m_array F m "Z0c" = s_Z0c (q_in c) /\ m_array F m "Z0s" = s_Z0s (q_in c)) /\
    ScanSpec.sized na (q_in c) /\ shown_first c /\ (Scan.at_least_order_r2 cfg = true -> shown_second c).
Proof.
  intros H Hi (e' & g & start & clock & S & E) Hc m.
  destruct (kept_is_run o mo ge0 newton_tol mu0 newton_linear_solve linear_solve geev tol finite fabs pick cfg na solvers pick_sized e' g start clock p true c
    (same_input_ok e e' S H) (same_fit e e' S Hi) E Hc) as (f & W & Rg & R & Oi & Rest).
  exists f. split; [exact W|]. split; [exact Rg|]. split; [exact R|]. split; [exact (same_other e e' _ S Oi)|exact Rest].
Qed.
Lemma process_ended (e : members) p : scan_input_ok cfg na e -> process e p -> ended_run o fabs pick physics cfg na p.
Proof.
  intros H (e' & g & start & clock & S & E).
  destruct (scan_cases o mo ge0 newton_tol mu0 newton_linear_solve linear_solve geev tol finite fabs pick cfg na e' g start clock (same_input_ok e e' S H)) as [(w & _ & Ew)|(q & Es & Eq & _)]; [congruence|].
  exists g, q, start, clock. rewrite <- Eq. exact E.
Qed.
Lemma kept_of_logs (ps : list proc) logs c : Forall2 (fun p log => exists newer, p_log p = (newer ++ log)%list) ps logs -> In c (flat_map kept logs) ->
  exists p, In p ps /\ In (c, None) (p_log p).
Proof.
  intros H. induction H as [|p log ps logs (newer & E) _ IH]; cbn [flat_map]; [intros []|]. intros Hc. apply in_app_or in Hc. destruct Hc as [Hc|Hc].
  - exists p. split; [left; reflexivity|]. rewrite E. apply in_or_app. right. unfold kept in Hc. apply in_rev in Hc. apply in_map_iff in Hc as [[c' v] [<- Hc]]. apply filter_In in Hc as [Hc V].
    cbn [fst snd] in *. destruct v; [discriminate|exact Hc].
  - destruct (IH Hc) as (p' & H1 & H2). exists p'. split; [right; exact H1|exact H2].
Qed.

Section Stored.
Variables (s m : members) (out : @merged F) (all : list (@Scan.qsc F (calc F))).
Hypothesis Hn : g_n_scan out = length all.
Hypothesis Hscan : g_scan out = map (fun x => map (fun c => nth x (params_of c) (fzero o)) all) (seq 0 20).
Hypothesis Hhel : g_helicity out = map q_helicity all.
Hypothesis Hfour : g_fourier out = [ map (fun c => s_R0c (q_in c)) all; map (fun c => s_R0s (q_in c)) all; map (fun c => s_Z0c (q_in c)) all; map (fun c => s_Z0s (q_in c)) all ].
Hypothesis Hsized : forall c, In c all -> ScanSpec.sized na (q_in c).
Let w := store_merged out (with_q s m).
Lemma stored_column x i : In (x, i) scan_columns -> m_array F w x = map (fun c => nth i (params_of c) (fzero o)) all.
Proof.
  intros H. unfold w, store_merged. cbn [m_array].
  repeat (destruct H as [H|H]; [injection H as <- <-; cbn [row_of scan_columns String.eqb Ascii.eqb Bool.eqb]; rewrite Hscan; reflexivity|]). destruct H.
Qed.
Lemma stored_matrix x b : In (x, b) scan_matrices -> m_array F w x = flat_map (fun c => block b (q_in c)) all.
Proof.
  intros H. unfold w, store_merged. cbn [m_array].
  repeat (destruct H as [H|H]; [injection H as <- <-; cbn [row_of scan_columns scan_matrices String.eqb Ascii.eqb Bool.eqb]; rewrite Hfour; cbn [nth]; rewrite <- flat_map_concat_map; reflexivity|]). destruct H.
Qed.
Lemma block_length b c : In c all -> b < 4 -> length (block b (q_in c)) = na.
Proof. intros Hc Hb. destruct (Hsized c Hc) as (S1 & S2 & S3 & S4). destruct b as [|[|[|[|b]]]]; cbn [block]; auto. Qed.
Lemma column_length x i : In (x, i) scan_columns -> length (m_array F w x) = length all.
Proof. intros H. rewrite (stored_column x i H). apply map_length. Qed.
Lemma matrix_length x b : In (x, b) scan_matrices -> length (m_array F w x) = na * length all.
Proof.
  intros H. rewrite (stored_matrix x b H). apply CollectFacts.flat_map_len. intros c Hc. apply block_length; [exact Hc|].
  repeat (destruct H as [H|H]; [injection H as <- <-; lia|]). destruct H.
Qed.
Hypothesis Hset : scan_settings_ok na s.
Hypothesis Hready : RunSpec.ready F (fzero o) m.
Hypothesis Hna : na <> 0.
Lemma stored_lens : scan_lens w = [("nphi_dim", Z.to_nat (m_int F m "nphi")); ("axis_nmax_plus_1_dim", na); ("n_scan_dim", length all)].
Proof.
  unfold scan_lens. change (m_int F w "q.nphi") with (m_int F m "nphi"). change (m_array F w "R0c_max") with (m_array F s "R0c_max"). change (m_big F w "n_scan") with (Z.of_nat (g_n_scan out)).
  rewrite Nat2Z.id, Hn. destruct Hset as (_ & L). rewrite L by (apply inb_In; reflexivity). reflexivity.
Qed.
Definition scan_source_ok (p : put) : bool :=
  let '(Put when name what) := p in
  match what with
  | SInt _ | SFlag _ | SFloat _ | SBig _ | SBigInt _ | SLit "random" => true
  | SText x => inb x ["q.order_r_option"; "eta_bar_scan_option"; "sigma0_scan_option"; "fourier_scan_option"; "B2c_scan_option"; "B2s_scan_option"; "p2_scan_option"]
  | SInts d x => String.eqb d "n_scan_dim" && String.eqb x "scan_helicity"
  | SVector d x => (String.eqb d "axis_nmax_plus_1_dim" && inb x ["R0c_min"; "R0c_max"; "R0s_min"; "R0s_max"; "Z0c_min"; "Z0c_max"; "Z0s_min"; "Z0s_max"])
      || (String.eqb d "nphi_dim" && String.eqb x "q.phi") || (String.eqb d "n_scan_dim" && inb x (map fst scan_columns))
  | SArray [d1; d2] x => String.eqb d1 "axis_nmax_plus_1_dim" && String.eqb d2 "n_scan_dim" && inb x (map fst scan_matrices)
  | _ => false
  end.
Lemma scan_sources_ok : forallb scan_source_ok scan_puts = true.
Proof. vm_compute. reflexivity. Qed.
Lemma stored_writable st : In st (statements F w scan_puts) -> writable F (scan_lens w) w (snd st).
Proof.
  intros Hst. rewrite stored_lens. destruct (statements_in F w scan_puts st Hst) as [when [Hp _]].
  pose proof (proj1 (forallb_forall _ _) scan_sources_ok _ Hp) as Ok1. cbn [scan_source_ok] in Ok1. destruct Hset as (T & L).
  destruct (snd st) as [x|x|x|x|x|x|x|d x|d x|ds x]; try discriminate Ok1; cbn [writable]; try exact Logic.I.
  - apply inb_In in Ok1. destruct Ok1 as [<-|Hx].
    + change (m_text F m "order_r_option" <> ""). pose proof (rd_order _ _ _ Hready) as Ho. intros Eo. rewrite Eo in Ho. cbn in Ho. intuition discriminate.
    + assert (Es : m_text F w x = m_text F s x) by (repeat (destruct Hx as [<-|Hx]; [reflexivity|]); destruct Hx). rewrite Es. apply T. exact Hx.
  - assert (Es : x = "random") by (clear - Ok1; repeat (match type of Ok1 with context [match ?y with _ => _ end] => destruct y; try discriminate Ok1 end); reflexivity). subst x. discriminate.
  - apply andb_prop in Ok1 as [O1 O2]. apply String.eqb_eq in O1, O2. subst d x. eexists. split; [reflexivity|]. change (m_ints F w "scan_helicity") with (g_helicity out). rewrite Hhel, map_length. lia.
  - apply orb_prop in Ok1 as [Ok1|Ok1]; [apply orb_prop in Ok1 as [Ok1|Ok1]|]; apply andb_prop in Ok1 as [O1 O2]; apply String.eqb_eq in O1; subst d; (eexists; split; [reflexivity|]).
    + apply inb_In in O2. assert (Es : m_array F w x = m_array F s x) by (clear - O2; repeat (destruct O2 as [<-|O2]; [reflexivity|]); destruct O2). rewrite Es, L by exact O2. lia.
    + apply String.eqb_eq in O2. subst x. change (m_array F w "q.phi") with (m_array F m "phi"). destruct (rd_alloc _ _ _ Hready) as (_ & A2 & A3 & _).
      specialize (A3 "phi" [m_int F m "nphi"] ltac:(apply req_first; apply inb_In; reflexivity)). cbn [fold_right] in A3. lia.
    + apply inb_In in O2. apply in_map_iff in O2 as [[x' i] [<- O2]]. cbn [fst]. rewrite (column_length _ _ O2). lia.
  - destruct ds as [|d1 [|d2 [|]]]; try discriminate Ok1. apply andb_prop in Ok1 as [Ok1 O3]. apply andb_prop in Ok1 as [O1 O2]. apply String.eqb_eq in O1, O2. subst d1 d2.
    eexists. split; [reflexivity|]. apply inb_In in O3. apply in_map_iff in O3 as [[x' b] [<- O3]]. cbn [fst fold_right removelast]. rewrite (matrix_length _ _ O3). split; [lia|constructor; [exact Hna|constructor]].
Qed.

(** Reading the file. *)
Variable f : file F.
Hypothesis Hf : contains_exactly F (m_of_Z mo) (scan_lens w) w [] (statements F w scan_puts) f.
Lemma read_column x i when j c : In (x, i) scan_columns -> In (Put when x (SVector "n_scan_dim" x)) scan_puts -> NetCDFOut.active F w when = true ->
  nth_error all j = Some c -> element F f x [j] (nth i (params_of c) (fzero o)).
Proof.
  intros Hx Hp Ha Hc. assert (Hj : j < length all) by (apply nth_error_Some; congruence).
  apply (contains_vector (m_of_Z mo) _ w _ _ f x "n_scan_dim" x (length all) j _ Hf (in_statements F w scan_puts _ _ _ Hp Ha)); [rewrite stored_lens; reflexivity|exact Hj|].
  rewrite (stored_column x i Hx). exact (map_nth_error (fun c => nth i (params_of c) (fzero o)) j all Hc).
Qed.
Lemma read_matrix x b j k c : In (x, b) scan_matrices -> nth_error all j = Some c -> k < na -> element F f x [j; k] (nth k (block b (q_in c)) (fzero o)).
Proof.
  intros Hx Hc Hk. assert (Hj : j < length all) by (apply nth_error_Some; congruence).
  assert (Hb : b < 4) by (repeat (destruct Hx as [Hx|Hx]; [injection Hx as <- <-; lia|]); destruct Hx).
  assert (Hp : In (Put [] x (SArray ["axis_nmax_plus_1_dim"; "n_scan_dim"] x)) scan_puts)
    by (repeat (destruct Hx as [Hx|Hx]; [injection Hx as <- <-; apply in_puts; vm_compute; reflexivity|]); destruct Hx).
  apply (contains_element F (m_of_Z mo) _ w _ _ f x ["axis_nmax_plus_1_dim"; "n_scan_dim"] x [na; length all] [k; j] _ Hf (in_statements F w scan_puts _ _ _ Hp eq_refl)).
  - rewrite stored_lens. reflexivity.
  - constructor; [exact Hk|constructor; [exact Hj|constructor]].
  - rewrite (stored_matrix x b Hx). cbn [column_major]. replace (k + na * (j + length all * 0)) with (k + na * j) by lia.
    rewrite <- (CollectFacts.flat_map_nth (fun c => block b (q_in c)) na all j k c (fzero o) (fun c' Hc' => block_length b c' Hc' Hb) Hc Hk).
    apply nth_error_nth_ok. rewrite (CollectFacts.flat_map_len _ na) by (intros c' Hc'; apply block_length; assumption). nia.
Qed.
Lemma read_helicity j c : nth_error all j = Some c -> integer_at f "scan_helicity" j (q_helicity c).
Proof.
  intros Hc. assert (Hj : j < length all) by (apply nth_error_Some; congruence).
  assert (Hp : In (Put [] "scan_helicity" (SInts "n_scan_dim" "scan_helicity")) scan_puts) by (apply in_puts; vm_compute; reflexivity).
  destruct (contains_var F (m_of_Z mo) _ _ _ _ _ _ Hf (in_statements F w scan_puts _ _ _ Hp eq_refl)) as (v & c' & K1 & K2 & K3 & K4 & _). cbn [fst snd NetCDFSpec.denotes] in *.
  rewrite stored_lens in K3. cbn [len_of String.eqb Ascii.eqb Bool.eqb option_map] in K3. change (m_ints F w "scan_helicity") with (g_helicity out) in K3.
  exists v, (firstn (length all) (g_helicity out)). split; [exact K1|]. split; [exact K2|]. split; [congruence|].
  rewrite nth_error_firstn by exact Hj. rewrite Hhel. exact (map_nth_error q_helicity j all Hc).
Qed.
Lemma read_big when x b : In (Put when x (SBig b)) scan_puts -> NetCDFOut.active F w when = true -> element F f x [] (m_of_Z mo (m_big F w b)).
Proof.
  intros Hp Ha. destruct (contains_var F (m_of_Z mo) _ _ _ _ _ _ Hf (in_statements F w scan_puts _ _ _ Hp Ha)) as (v & c & K1 & K2 & K3 & K4 & K5). cbn [fst snd NetCDFSpec.denotes NetCDFSpec.shape] in *.
  exists v, [m_of_Z mo (m_big F w b)], []. split; [exact K1|]. split; [exact K2|]. split; [congruence|]. split; [exact K5|]. split; [constructor|reflexivity].
Qed.
Lemma read_float when x b : In (Put when x (SFloat b)) scan_puts -> NetCDFOut.active F w when = true -> element F f x [] (m_float F w b).
Proof.
  intros Hp Ha. destruct (contains_var F (m_of_Z mo) _ _ _ _ _ _ Hf (in_statements F w scan_puts _ _ _ Hp Ha)) as (v & c & K1 & K2 & K3 & K4 & K5). cbn [fst snd NetCDFSpec.denotes NetCDFSpec.shape] in *.
  exists v, [m_float F w b], []. split; [exact K1|]. split; [exact K2|]. split; [congruence|]. split; [exact K5|]. split; [constructor|reflexivity].
Qed.
Lemma read_n_scan : (Z.of_nat (length all) < 2147483648)%Z -> integer_at f "n_scan" 0 (Z.of_nat (length all)).
Proof.
  intros Hb. assert (Hp : In (Put [] "n_scan" (SBigInt "n_scan")) scan_puts) by (apply in_puts; vm_compute; reflexivity).
  destruct (contains_var F (m_of_Z mo) _ _ _ _ _ _ Hf (in_statements F w scan_puts _ _ _ Hp eq_refl)) as (v & c & K1 & K2 & K3 & K4 & _). cbn [fst snd NetCDFSpec.denotes] in *.
  exists v, [int_of_big (m_big F w "n_scan")]. split; [exact K1|]. split; [exact K2|]. split; [congruence|]. cbn [nth_error]. f_equal. change (m_big F w "n_scan") with (Z.of_nat (g_n_scan out)).
  rewrite Hn. apply int_of_big_small. lia.
Qed.
End Stored.

(** ** The theorems *)
(** With the columns of the file as the scan has stored them. *)
Lemma scan_file_full : forall (e s : members) (p0 : proc) ps root (leaves : list (list (@sending F))),
  scan_input_ok cfg na e -> ints_fit e -> scan_settings_ok na s -> process e p0 -> Forall (process e) ps ->
  contributes p0 root -> Forall2 (fun p l => contributes p (map snd l)) ps leaves -> (forall p, In p ps -> length (p_saves p) = length (p_saves p0)) ->
  exists n outs st, steps n (scan_comm o fof na root leaves) st /\ completed outs st /\ length outs = length (p_saves p0) /\
    (forall k st', steps k (scan_comm o fof na root leaves) st' -> k <= n /\ steps (n - k) st' st) /\
    forall i out m, nth_error outs i = Some out -> (Z.of_nat (g_n_scan out) < 2147483648)%Z -> held e p0 m ->
      exists logs f, Forall2 (fun p log => exists newer, p_log p = (newer ++ log)%list) (p0 :: ps) logs /\ (S i = length outs -> logs = map p_log (p0 :: ps)) /\
        scan_write_netcdf F (m_of_Z mo) (store_merged out (with_q s m)) = Ok f /\ NoDup (map (v_name F) (f_vars F f)) /\
        contains_exactly F (m_of_Z mo) (scan_lens (store_merged out (with_q s m))) (store_merged out (with_q s m)) [] (statements F (store_merged out (with_q s m)) scan_puts) f /\
        integer_at f "n_scan" 0 (Z.of_nat (length (flat_map kept logs))) /\
        (forall j cj, nth_error (flat_map kept logs) j = Some cj ->
          let c := c_members (q_rest cj) in
          exists fc, run_gives c fc /\ other_inputs e c /\
            (forall x i when, In (x, i) scan_columns -> In (Put when x (SVector "n_scan_dim" x)) scan_puts -> NetCDFOut.active F (store_merged out (with_q s m)) when = true ->
              element F f x [j] (nth i (params_of cj) (fzero o))) /\
            integer_at f "scan_helicity" j (q_helicity cj) /\
            (forall x y, In (x, y) scanned_first -> element F f x [j] (m_float F c y)) /\
            (forall x y k, In (x, y) scanned_axis -> k < na -> length (m_array F c y) = na /\ element F f x [j; k] (nth k (m_array F c y) (fzero o))) /\
            (forall x y, In (x, y) results_first -> same_number f x [j] fc y) /\
            integer_at f "scan_helicity" j (whole F fc "helicity") /\
            (m_text F e "order_r_option" <> "r1" ->
              (forall x y, In (x, y) scanned_second -> element F f x [j] (m_float F c y)) /\ (forall x y, In (x, y) results_second -> same_number f x [j] fc y))) /\
        let attempts := list_sum (map (@length _) logs) in
        element F f "attempts" [] (m_of_Z mo (Z.of_nat attempts)) /\
        element F f "n_sigma_eq_solves" [] (m_of_Z mo (Z.of_nat (list_sum (map reached_sigma logs)))) /\
        (forall x k, In (x, k) rejections -> element F f x [] (m_of_Z mo (Z.of_nat (list_sum (map (rejected k) logs))))) /\
        element F f "fraction_kept" [] (fdiv o (fof (length (flat_map kept logs))) (fof attempts)) /\
        (forall x k, In (x, k) rejection_fractions -> element F f x [] (fdiv o (fof (list_sum (map (rejected k) logs))) (fof attempts))).
Proof.
  intros e s p0 ps root leaves H Hi Hset P0 Ps C0 Cs Hsv. pose proof H as (Hlim & Hnphi & Hk & Hord).
  assert (Hna : na <> 0) by (destruct Hlim; lia).
  destruct (parallel_scan_complete o fabs fof pick physics cfg na pick_sized Hk p0 ps root leaves) as (n & outs & st & S1 & S2 & S3 & S4 & S5).
  { exact (process_ended e p0 H P0). }
  { rewrite Forall_forall in *. intros p Hp. exact (process_ended e p H (Ps p Hp)). }
  { exact C0. } { exact Cs. } { exact Hsv. }
  exists n, outs, st. split; [exact S1|]. split; [exact S2|]. split; [exact S3|]. split; [exact S5|].
  intros i out m Hout Hbig Hm. destruct (S4 i out Hout) as (logs & L1 & (R1 & R2 & R3 & R4 & R5 & R6 & R7 & R8 & R9 & R10) & L2 & _).
  exists logs. set (all := flat_map kept logs) in *.
  assert (Hall : forall c, In c all -> exists p, process e p /\ In (c, None) (p_log p)).
  { intros c Hc. destruct (kept_of_logs _ _ _ L1 Hc) as (p & Hp & Hl). exists p. split; [|exact Hl]. destruct Hp as [<-|Hp]; [exact P0|]. rewrite Forall_forall in Ps. exact (Ps p Hp). }
  assert (Hsz : forall c, In c all -> ScanSpec.sized na (q_in c)).
  { intros c Hc. destruct (Hall c Hc) as (p & Hp & Hl). destruct (process_kept e p c H Hi Hp Hl) as (_ & _ & _ & _ & _ & _ & _ & _ & Z & _). exact Z. }
  destruct (held_ready e p0 m H Hm) as (Rm & (M1 & _ & _ & M4) & Fm).
  set (w := store_merged out (with_q s m)).
  destruct (scan_file (m_of_Z mo) w) as (f & W & C & _ & ND & _).
  { change (0 < m_int F m "nphi")%Z. destruct (rd_alloc _ _ _ Rm) as (_ & A2 & _). lia. }
  { change (length (m_array F s "R0c_max") <> 0). destruct Hset as (_ & L). rewrite L by (apply inb_In; reflexivity). exact Hna. }
  { change (0 <= Z.of_nat (g_n_scan out) < 2147483648)%Z. lia. }
  { apply (stored_writable s m out all R1 R2 R3 R4 Hsz Hset Rm Hna). }
  exists f. split; [exact L1|]. split; [exact L2|]. split; [exact W|]. split; [exact ND|]. split; [exact C|]. split; [apply (read_n_scan s m out all R1 Hna f C); rewrite <- R1; exact Hbig|].
  split.
  - intros j c Hc. cbv zeta.
    pose proof (nth_error_In _ _ Hc) as Hin. destruct (Hall c Hin) as (p & Hp & Hl).
    destruct (process_kept e p c H Hi Hp Hl) as (fc & Wc & Rg & R & Oi & Fl & Dr & (A1 & A2 & A3 & A4) & (Z1 & Z2 & Z3 & Z4) & T1 & T2).
    exists fc. split; [exact Rg|]. split; [exact Oi|].
    pose proof (rd_alloc _ _ _ R) as Al.
    assert (Col : forall x i when, In (x, i) scan_columns -> In (Put when x (SVector "n_scan_dim" x)) scan_puts -> NetCDFOut.active F w when = true -> element F f x [j] (nth i (params_of c) (fzero o))).
    { intros x i0 when Hx Hpt Ha. exact (read_column s m out all R1 R2 Hset f C x i0 when j c Hx Hpt Ha Hc). }
    assert (Mat : forall x b k, In (x, b) scan_matrices -> k < na -> element F f x [j; k] (nth k (block b (q_in c)) (fzero o))).
    { intros x b k Hx Hkn. exact (read_matrix s m out all R1 R4 Hsz Hset Hna f C x b j k c Hx Hc Hkn). }
    assert (Same : forall x y i when when', In (x, i) scan_columns -> In (Put when x (SVector "n_scan_dim" x)) scan_puts -> NetCDFOut.active F w when = true ->
      In (Put when' y (SFloat y)) qsc_puts -> NetCDFOut.active F (c_members (q_rest c)) when' = true -> nth i (params_of c) (fzero o) = m_float F (c_members (q_rest c)) y -> same_number f x [j] fc y).
    { intros x y i0 when when' Hx Hpt Ha Hpt' Ha' Ev. exists (nth i0 (params_of c) (fzero o)). split; [exact (Col x i0 when Hx Hpt Ha)|]. rewrite Ev.
      exact (scalar_element mo (c_members (q_rest c)) fc when' y Al Wc Hpt' Ha'). }
    split; [exact Col|]. split; [exact (read_helicity s m out all R1 R3 Hset f C j c Hc)|]. split; [|split; [|split; [|split]]].
    + intros x y Hx. destruct Hx as [Hx|[Hx|[]]]; injection Hx as <- <-.
      * rewrite (Dr 0 "eta_bar" ltac:(cbn; tauto)). apply (Col _ _ []); [column|apply in_puts; vm_compute; reflexivity|reflexivity].
      * rewrite (Dr 1 "sigma0" ltac:(cbn; tauto)). apply (Col _ _ []); [column|apply in_puts; vm_compute; reflexivity|reflexivity].
    + intros x y k Hx Hkn. destruct Hx as [Hx|[Hx|[Hx|[Hx|[]]]]]; injection Hx as <- <-;
        [rewrite A1|rewrite A2|rewrite A3|rewrite A4]; (split; [assumption|]);
        [apply (Mat _ 0)|apply (Mat _ 1)|apply (Mat _ 2)|apply (Mat _ 3)]; first [exact Hkn|column].
    + destruct T1 as (U1 & U2 & U3 & U4 & U5 & U6 & U7 & U8 & U9). intros x y Hx.
      repeat (destruct Hx as [Hx|Hx]; [injection Hx as <- <-; eapply (Same _ _ _ [] []); [column|apply in_puts; vm_compute; reflexivity|reflexivity|apply in_puts; vm_compute; reflexivity|reflexivity|first [exact U1|exact U2|exact U3|exact U4|exact U5|exact U7|exact U8|exact U9]]|]). destruct Hx.
    + destruct T1 as (_ & _ & _ & _ & _ & U6 & _).
      rewrite (whole_int mo (c_members (q_rest c)) fc Al Wc [] "helicity" "helicity") by first [apply in_puts; vm_compute; reflexivity|reflexivity].
      rewrite <- U6. exact (read_helicity s m out all R1 R3 Hset f C j c Hc).
    + intros No. assert (Or : Scan.at_least_order_r2 cfg = true) by (rewrite Hord; destruct (String.eqb_spec (m_text F e "order_r_option") "r1"); [contradiction|reflexivity]).
      assert (Aw : NetCDFOut.active F w [("q.at_least_order_r2", true)] = true).
      { cbn [NetCDFOut.active forallb fst snd]. change (m_flag F w "q.at_least_order_r2") with (m_flag F m "at_least_order_r2"). rewrite Fm, Or. reflexivity. }
      assert (Ac : NetCDFOut.active F (c_members (q_rest c)) [("at_least_order_r2", true)] = true) by (cbn [NetCDFOut.active forallb fst snd]; rewrite Fl, Or; reflexivity).
      split.
      * intros x y Hx. destruct Hx as [Hx|[Hx|[Hx|[]]]]; injection Hx as <- <-;
          [rewrite (Dr 2 "B2c" ltac:(cbn; tauto))|rewrite (Dr 3 "B2s" ltac:(cbn; tauto))|rewrite (Dr 4 "p2" ltac:(cbn; tauto))];
          (apply (Col _ _ [("q.at_least_order_r2", true)]); [column|apply in_puts; vm_compute; reflexivity|exact Aw]).
      * destruct (T2 Or) as (U1 & U2 & U3 & U4 & U5 & U6 & U7). intros x y Hx.
        repeat (destruct Hx as [Hx|Hx]; [injection Hx as <- <-; eapply (Same _ _ _ [("q.at_least_order_r2", true)] [("at_least_order_r2", true)]);
          [column|apply in_puts; vm_compute; reflexivity|exact Aw|apply in_puts; vm_compute; reflexivity|exact Ac|first [exact U1|exact U2|exact U3|exact U4|exact U5|exact U6|exact U7]]|]). destruct Hx.
  - cbv zeta. assert (Big : forall x b k, In (Put [] x (SBig b)) scan_puts -> m_big F w b = Z.of_nat (nth k (g_filters out) 0) -> element F f x [] (m_of_Z mo (Z.of_nat (nth k (g_filters out) 0)))).
    { intros x b k Hp <-. exact (read_big s m out f C [] x b Hp eq_refl). }
    assert (Fr : forall x b k, In (Put [] x (SFloat b)) scan_puts -> (exists d, m_float F w b = nth k (g_fractions out) d) -> k < 17 ->
      element F f x [] (fdiv o (fof (nth k (g_filters out) 0)) (fof (nth ATTEMPTS (g_filters out) 0)))).
    { intros x b k Hp (d & Hd) Hk'. pose proof (read_float s m out f C [] x b Hp eq_refl) as Rd. fold w in Rd. rewrite Hd, R9 in Rd.
      set (h := fun v : nat => fdiv o (fof v) (fof (nth ATTEMPTS (g_filters out) 0))) in *. change (element F f x [] (h (nth k (g_filters out) 0))).
      rewrite (nth_indep (map h (g_filters out)) d (h 0)) in Rd by (rewrite map_length, R10; exact Hk'). rewrite map_nth in Rd. exact Rd. }
    split; [rewrite <- R5; apply (Big _ "filters[ATTEMPTS]"); [apply in_puts; vm_compute; reflexivity|reflexivity]|].
    split; [rewrite <- R8; apply (Big _ "filters[N_SIGMA_EQ_SOLVES]"); [apply in_puts; vm_compute; reflexivity|reflexivity]|].
    split; [|split].
    + intros x k Hx. rewrite <- (R7 k) by (repeat (destruct Hx as [Hx|Hx]; [injection Hx as <- <-; split; apply Nat.leb_le; reflexivity|]); destruct Hx).
      repeat (destruct Hx as [Hx|Hx]; [injection Hx as <- <-; match goal with |- element F f ?x _ (m_of_Z mo (Z.of_nat (nth ?k _ _))) =>
        match eval vm_compute in (find (fun p => match p with Put _ y (SBig _) => String.eqb x y | _ => false end) scan_puts) with Some (Put _ _ (SBig ?b)) =>
          apply (Big x b k); [apply in_puts; vm_compute; reflexivity|reflexivity] end end|]). destruct Hx.
    + rewrite <- R6, <- R5. eapply (Fr _ "filter_fractions[KEPT]"); [apply in_puts; vm_compute; reflexivity|eexists; reflexivity|apply Nat.ltb_lt; reflexivity].
    + intros x k Hx. rewrite <- R5. rewrite <- (R7 k) by (repeat (destruct Hx as [Hx|Hx]; [injection Hx as <- <-; split; apply Nat.leb_le; reflexivity|]); destruct Hx).
      repeat (destruct Hx as [Hx|Hx]; [injection Hx as <- <-; match goal with |- element F f ?x _ (fdiv o (fof (nth ?k _ _)) _) =>
        match eval vm_compute in (find (fun p => match p with Put _ y (SFloat _) => String.eqb x y | _ => false end) scan_puts) with Some (Put _ _ (SFloat ?b)) =>
          apply (Fr x b k); [apply in_puts; vm_compute; reflexivity|eexists; reflexivity|apply Nat.ltb_lt; reflexivity] end end|]). destruct Hx.
Qed.
(** Processes [p0] (rank 0) and [ps] have run with the same input and have reached collect_results equally often.  Then, whatever is buffered and whatever the order of
    events, the collections complete, and process 0 writes a file after each of them.  [logs]: the attempts that the processes have made until then, after the last collection all
    their attempts.  Entry [j] of the variables of the file belongs to the [j]-th of the configurations that were kept, in the order of the ranks: the configuration [c] has the inputs of
    the scan, and the file gives its other inputs; a run of the code for [c] alone writes a file [fc], and the results in the two files are the same numbers.  The counters in
    the file are the numbers of attempts that the filters rejected. *)
Theorem scan_file_holds_runs : forall (e s : members) (p0 : proc) ps root (leaves : list (list (@sending F))),
  scan_input_ok cfg na e -> ints_fit e -> scan_settings_ok na s -> process e p0 -> Forall (process e) ps ->
  contributes p0 root -> Forall2 (fun p l => contributes p (map snd l)) ps leaves -> (forall p, In p ps -> length (p_saves p) = length (p_saves p0)) ->
  exists n outs st, steps n (scan_comm o fof na root leaves) st /\ completed outs st /\ length outs = length (p_saves p0) /\
    (forall k st', steps k (scan_comm o fof na root leaves) st' -> k <= n /\ steps (n - k) st' st) /\
    forall i out m, nth_error outs i = Some out -> (Z.of_nat (g_n_scan out) < 2147483648)%Z -> held e p0 m ->
      exists logs f, Forall2 (fun p log => exists newer, p_log p = (newer ++ log)%list) (p0 :: ps) logs /\ (S i = length outs -> logs = map p_log (p0 :: ps)) /\
        scan_write_netcdf F (m_of_Z mo) (store_merged out (with_q s m)) = Ok f /\ NoDup (map (v_name F) (f_vars F f)) /\
        integer_at f "n_scan" 0 (Z.of_nat (length (flat_map kept logs))) /\
        (forall j cj, nth_error (flat_map kept logs) j = Some cj ->
          let c := c_members (q_rest cj) in
          exists fc, run_gives c fc /\ other_inputs e c /\
            (forall x y, In (x, y) scanned_first -> element F f x [j] (m_float F c y)) /\
            (forall x y k, In (x, y) scanned_axis -> k < na -> length (m_array F c y) = na /\ element F f x [j; k] (nth k (m_array F c y) (fzero o))) /\
            (forall x y, In (x, y) results_first -> same_number f x [j] fc y) /\
            integer_at f "scan_helicity" j (whole F fc "helicity") /\
            (m_text F e "order_r_option" <> "r1" ->
              (forall x y, In (x, y) scanned_second -> element F f x [j] (m_float F c y)) /\ (forall x y, In (x, y) results_second -> same_number f x [j] fc y))) /\
        let attempts := list_sum (map (@length _) logs) in
        element F f "attempts" [] (m_of_Z mo (Z.of_nat attempts)) /\
        element F f "n_sigma_eq_solves" [] (m_of_Z mo (Z.of_nat (list_sum (map reached_sigma logs)))) /\
        (forall x k, In (x, k) rejections -> element F f x [] (m_of_Z mo (Z.of_nat (list_sum (map (rejected k) logs))))) /\
        element F f "fraction_kept" [] (fdiv o (fof (length (flat_map kept logs))) (fof attempts)) /\
        (forall x k, In (x, k) rejection_fractions -> element F f x [] (fdiv o (fof (list_sum (map (rejected k) logs))) (fof attempts))).
Proof.
  intros e s p0 ps root leaves H Hi Hset P0 Ps C0 Cs Hsv. destruct (scan_file_full e s p0 ps root leaves H Hi Hset P0 Ps C0 Cs Hsv) as (n & outs & st & S1 & S2 & S3 & S4 & S5).
  exists n, outs, st. split; [exact S1|]. split; [exact S2|]. split; [exact S3|]. split; [exact S4|]. intros i out m Hout Hbig Hm.
  destruct (S5 i out m Hout Hbig Hm) as (logs & f & L1 & L2 & L3 & L4 & _ & L5 & L6 & L7). exists logs, f. split; [exact L1|]. split; [exact L2|]. split; [exact L3|]. split; [exact L4|]. split; [exact L5|].
  split; [|exact L7]. intros j cj Hc. destruct (L6 j cj Hc) as (fc & Q1 & Q2 & _ & _ & Q3). exists fc. split; [exact Q1|]. split; [exact Q2|exact Q3].
Qed.
End ScanFile.

(** ** An example *)
(** The scan of Properties_ScanQsc.v, at order r2.1, in two processes: each keeps one configuration. *)
Section Example.
Definition two_settings : members R := mkMembers R (fun _ => 0%Z) (fun _ => true) (fun _ => 0%R) (fun _ => 0%Z) (fun _ => "linear") (fun _ => []) (fun _ => [0; 0]%R).
Definition contribution_of (sn : @snapshot R) : @contribution R := mkContrib sn (repeat 0%R 8).
Notation process := (process R_ops R_math Rge0 0%R easy_solver easy_solver2 easy_geev (tolerances_of R_ops R_math false) (fun _ => true) Rabs one_pick one_cfg 2).
Notation held := (held R_ops R_math Rge0 0%R easy_solver easy_solver2 easy_geev (tolerances_of R_ops R_math false) (fun _ => true) Rabs one_pick one_cfg 2).
Example scan_file_example : exists p root leaves,
  solvers_ok easy_solver easy_solver2 /\ (forall g s, ScanSpec.sized 2 (fst (one_pick g s))) /\
  scan_input_ok one_cfg 2 one_object /\ ints_fit one_object /\ scan_settings_ok 2 two_settings /\ process one_object p /\ Forall (process one_object) [p] /\
  contributes p root /\ Forall2 (fun p (l : list (@sending R)) => contributes p (map snd l)) [p] leaves /\ (forall p', In p' [p] -> length (p_saves p') = length (p_saves p)) /\
  held one_object p (c_members (q_rest (p_q p))) /\ kept (p_log p) <> [] /\ p_saves p <> [].
Proof.
  destruct scan_example as (p & sn & E & Hsn & Hj & H1 & H2 & H3 & H4).
  assert (P : process one_object p).
  { exists one_object, 0, 0%R, [(0, 0)%R; (0, 0)%R]. split; [|exact E]. split; [|split]; reflexivity. }
  exists p, (map contribution_of (rev (p_saves p))), [map (fun sn => (fun _ => true, contribution_of sn)) (rev (p_saves p))].
  assert (C : contributes p (map contribution_of (rev (p_saves p)))).
  { split; [rewrite map_map; apply map_id|]. apply Forall_forall. intros c Hc. apply in_map_iff in Hc as [s [<- _]]. reflexivity. }
  split; [exact H3|]. split; [exact H4|]. split; [exact H1|]. split; [exact H2|].
  split; [split; [discriminate|intros x _; reflexivity]|]. split; [exact P|]. split; [constructor; [exact P|constructor]|]. split; [exact C|].
  split; [constructor; [rewrite map_map; exact C|constructor]|]. split; [intros p' [<-|[]]; reflexivity|].
  split; [apply (held_last R_ops R_math Rge0 0%R easy_solver easy_solver2 easy_geev (tolerances_of R_ops R_math false) (fun _ => true) Rabs one_pick one_cfg 2 one_object p P H1)|].
  split; [|intros K; rewrite K in Hsn; destruct Hsn].
  destruct (scan_cases R_ops R_math Rge0 0%R 0%R easy_solver easy_solver2 easy_geev (tolerances_of R_ops R_math false) (fun _ => true) Rabs one_pick one_cfg 2 one_object 0 0%R [(0, 0)%R; (0, 0)%R] one_ok) as [(w & _ & Ew)|(q & _ & Eq & _)]; [congruence|].
  rewrite Eq in E. assert (K1 : 1 <= max_keep_per_proc one_cfg) by (cbn; lia).
  destruct (scan_reports_are_true R_ops Rabs one_pick _ one_cfg 2 one_sized K1 _ _ _ _ _ _ E) as (_ & S & _). destruct (S sn Hsn) as (newer & od & El & (_ & _ & Sj & _)).
  rewrite Sj in Hj. rewrite El. intros K. assert (Lk : length (kept (newer ++ od)%list) = 0) by (rewrite K; reflexivity).
  unfold kept in *. rewrite rev_length, map_length, filter_app, app_length in Lk. rewrite rev_length, map_length in Hj. lia.
Qed.
End Example.
Print Assumptions scan_file_holds_runs.
