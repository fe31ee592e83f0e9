(** C99: an optimization with the calculation of Run.v.  It has defined behaviour; what it reports about a configuration is what a run of the code for this
    configuration alone gives; and it changes no input but those it varies. *)
From Coq Require Import String ZArith List Arith Bool Lia Reals.
From Verif Require Import Base BaseFacts FloatOps MathOps Tensor Newton RSing Axis AxisSpec Alloc AllocSpec AllocFacts Toml TomlSpec TomlFacts Options OptionsSpec
  NetCDF NetCDFOut NetCDFSpec NetCDFFacts NetCDFRead.
From Verif Require Import Run RunSpec RunFacts RunSafe RunInput MScan Opt OptSpec OptState OptResid OptRun OptEnd OptFixed OptQsc Properties_Opt Properties_NetCDF Properties_RSing HelicityFacts Properties_RunSafe.
Import ListNotations.
Local Open Scope string_scope.
Local Open Scope nat_scope.

(** ** Specification *)
(** The inputs that an optimization cannot vary. *)
Definition fixed_ints : list string := ["nfp"; "sG"; "spsi"; "max_newton_iterations"; "max_linesearch_iterations"].
Definition fixed_floats : list string := ["B0"; "I2"; "p2"; "newton_tolerance"].
Definition same_fixed {F} (e e' : members F) : Prop :=
  (forall x, In x fixed_ints -> m_int F e x = m_int F e' x) /\ (forall x, In x fixed_floats -> m_float F e x = m_float F e' x) /\
  m_text F e "order_r_option" = m_text F e' "order_r_option".
(** The quantities that an optimization reports for each iteration, and the variables of the output file for a configuration that contain them; the
    second list for the orders r2 and r2.1 only. *)
Definition reported_first : list (string * string) :=
  [("iter_eta_bar", "eta_bar"); ("iter_sigma0", "sigma0"); ("iter_iota", "iota"); ("iter_axis_length", "axis_length");
   ("iter_standard_deviation_of_R", "standard_deviation_of_R"); ("iter_standard_deviation_of_Z", "standard_deviation_of_Z"); ("iter_min_R0", "grid_min_R0");
   ("iter_max_curvature", "grid_max_curvature"); ("iter_max_elongation", "grid_max_elongation"); ("iter_min_L_grad_B", "grid_min_L_grad_B")].
Definition reported_second : list (string * string) :=
  [("iter_B2c", "B2c"); ("iter_B2s", "B2s"); ("iter_B20_residual", "B20_residual"); ("iter_B20_variation", "B20_grid_variation");
   ("iter_d2_volume_d_psi2", "d2_volume_d_psi2"); ("iter_DMerc_times_r2", "DMerc_times_r2"); ("iter_min_L_grad_grad_B", "grid_min_L_grad_grad_B");
   ("iter_r_singularity", "r_singularity_robust")].

Section OptQsc.
Context {F : Type} (o : fops F) (mo : mops F).
Variables (ge0 : F -> bool) (newton_tol mu0 : F) (newton_linear_solve : (nat -> nat -> F) -> list F -> outcome (list F))
  (linear_solve : matrix F -> list F -> outcome (list F)) (geev : list F -> Z * (list F * list F)) (tol : tolerances F) (finite : F -> bool).
Notation members := (members F).
Notation calculate := (Run.calculate o mo ge0 mu0 newton_linear_solve linear_solve geev tol finite).
Notation init := (Run.init o).
Notation write := (qsc_write_netcdf F (m_of_Z mo)).
Notation plain_run := (Run.run o mo ge0 newton_tol mu0 newton_linear_solve linear_solve geev tol finite).
Notation opt := (@stage F (@rest F members)).
Notation routines := (qsc_routines o mo ge0 mu0 newton_linear_solve linear_solve geev tol finite).
Notation run_gives := (run_gives o mo ge0 newton_tol mu0 newton_linear_solve linear_solve geev tol finite).
(** The GSL minimizer and the contents of the uninitialized array, as in Properties_Opt.v. *)
Variable gsl : nat -> opt -> Z -> list F -> list (@event F).
Variable junk : nat -> list F.
Notation run := (run_opt o (m_sqrt mo) (m_of_Z mo) routines gsl junk).
Hypothesis solvers : solvers_ok newton_linear_solve linear_solve.
Hypothesis gsl_calls : gsl_ok gsl.
Hypothesis junk_size : forall n, length (junk n) = n.
(** The configuration of an Opt object. *)
Definition config (s : opt) : members := members_of (st_q s) (r_q (st_rest s)).

(** What the properties of an optimization assume of the routines of class Qsc (C41-C47, C61, C64-C68) is so. *)
Theorem calculation_called_ok : called_ok routines gsl junk.
Proof. split; [eexists; apply (qsc_routines_ok o mo ge0 newton_tol); exact solvers|]. split; [exact gsl_calls|exact junk_size]. Qed.

(** The optimization has no undefined behaviour, whatever the memory and the object contained. *)
Theorem optimization_defined : forall (s : opt) why, input_ok s -> run s <> UB why.
Proof. intros s why H. apply optimization_in_bounds; [apply calculation_called_ok|exact H]. Qed.

Lemma same_result_members st (e e' : members) : same_members e e' -> same_result (st, e) (st, e').
Proof. intros [A B C D E]. split; [reflexivity|]. destruct (flags_of _) as [[r2 r2p1] r3]. cbn [snd]. constructor; auto. Qed.
Lemma ready_flags e : RunSpec.ready F (fzero o) e -> table_flags (flags_of e).
Proof. intros R. destruct (rd_order _ _ _ R) as [H|[H|[H|[]]]]; unfold table_flags, flags_of; injection H as _ H1 H2 H3; rewrite <- H1, <- H2, <- H3; cbn; tauto. Qed.
Lemma entry_calculated (s s' : opt) l b r : input_ok s -> run s = Ok (s', l) -> In (b, r) l ->
  exists c st e1, RunSpec.ready F (fzero o) c /\ calculate c = Ok (st, e1) /\ (st_q r, r_q (st_rest r)) = view_of e1 /\ RunFacts.keeps (grid c) c e1 /\
    OptSpec.acceptable (st_q r) (r_q (st_rest r)).
Proof.
  intros Hin E Hr. pose proof (run_opt_safe o (m_sqrt mo) (m_of_Z mo) routines gsl junk (fit o) (qsc_routines_ok o mo ge0 newton_tol mu0 newton_linear_solve linear_solve geev tol finite solvers) gsl_calls junk_size s Hin) as D.
  rewrite E in D. cbn [safe] in D. destruct D as (s1 & _ & _ & _ & _ & _ & _ & _ & _ & _ & _ & [_ _ L _ _ _]). cbn [fst snd] in L.
  pose proof (proj1 (Forall_forall _ _) (lo_entry _ _ _ _ _ _ _ L) _ Hr) as (_ & A & _ & _ & _ & (q0 & x0 & Hf & Hc & _)). cbn [snd] in *.
  cbn [q_calculate qsc_routines] in Hc. destruct (calculate (members_of q0 x0)) as [[st e1]| |] eqn:Ec; cbn [bind snd] in Hc; try discriminate.
  exists (members_of q0 x0), st, e1. destruct Hf as (R & _). split; [exact R|]. split; [exact Ec|]. split; [congruence|]. split.
  - apply (calculate_keep o mo ge0 mu0 newton_linear_solve linear_solve geev tol finite _ _ _ (ready_positive o _ R) Ec).
  - apply (ac_fit _ _ _ _ _ _ _ A).
Qed.
Lemma config_view r e1 : (st_q r, r_q (st_rest r)) = view_of e1 -> same_members (config r) e1.
Proof.
  intros H. pose proof (f_equal fst H) as H1. pose proof (f_equal snd H) as H2. cbn [fst snd] in H1, H2. unfold config. rewrite H1, H2. apply members_of_view.
Qed.
Lemma entry_file (s s' : opt) l b r : input_ok s -> run s = Ok (s', l) -> In (b, r) l ->
  RunSpec.ready F (fzero o) (config r) /\ nphi_limits (m_int F (config r) "nphi") /\ exists st f, write (config r) = Ok f /\
  forall e, RunSpec.ready F (fzero o) e -> RunSpec.same_inputs F e (config r) -> (do r <- calculate e; do f <- write (snd r); Ok (fst r, f)) = Ok (st, f).
Proof.
  intros Hin E Hr. destruct (entry_calculated s s' l b r Hin E Hr) as (c & st & e1 & R & Ec & V & K & HA).
  pose proof (keeps_ready o _ _ K R) as R1. pose proof (config_view r e1 V) as SM.
  assert (RC : RunSpec.ready F (fzero o) (config r)) by (eapply (keeps_ready o); [apply same_keeps; exact SM|exact R1]).
  split; [exact RC|]. split; [apply HA|]. destruct (qsc_written (m_of_Z mo) e1 (rd_alloc _ _ _ R1)) as (f & Hw & _). exists st, f. split.
  - rewrite <- Hw. apply (file_same mo (st, config r) (st, e1)); [apply ready_flags; exact RC|apply same_result_members; exact SM].
  - intros e Re (I1 & I2 & I3 & I4).
    assert (S : RunSpec.same_inputs F e c).
    { destruct SM as [A B C D G]. split; [|split; [|split]].
      - intros x Hx. rewrite I1, A by exact Hx. apply (k_int _ _ _ K). exact Hx.
      - intros x Hx. rewrite I2, C by exact Hx. apply (k_float _ _ _ K). exact Hx.
      - intros x Hx. rewrite I3, G by exact Hx. apply (k_array _ _ _ K). apply in_or_app. left. exact Hx.
      - rewrite I4, D. apply (k_text _ _ _ K). }
    pose proof (ready_same o mo ge0 newton_tol mu0 newton_linear_solve linear_solve geev tol finite e c Re R S) as W. unfold written in W. rewrite W, Ec. cbn [bind fst snd].
    rewrite Hw. reflexivity.
Qed.

(** The results.  For each configuration that has been evaluated: an object with the same inputs that init() has prepared, whatever has been done with it
    since, has after calculate() the same results, that is, the same output file; and a run of the code whose input file describes these inputs writes this file. *)
Theorem evaluation_is_run : forall (s s' : opt) (l : log) b r, input_ok s -> run s = Ok (s', l) -> In (b, r) l ->
  exists f, write (config r) = Ok f /\
  (forall e, history F init calculate e -> RunSpec.same_inputs F e (config r) -> exists st e', calculate e = Ok (st, e') /\ write e' = Ok f) /\
  (forall t e0, valid_section (m_of_Z mo) qsc_keys t ->
     (forall s1, section_effect (m_of_Z mo) qsc_keys t (default_store o newton_tol) s1 -> describes s1 (config r)) ->
     exists st, plain_run e0 t = Ok (st, f)).
Proof.
  intros s s' l b r Hin E Hr. destruct (entry_file s s' l b r Hin E Hr) as (RC & Hl & st & f & Hw & H). exists f. split; [exact Hw|]. split.
  - intros e He S. pose proof (H e (history_ready o mo ge0 newton_tol mu0 newton_linear_solve linear_solve geev tol finite e He) S) as W.
    destruct (calculate e) as [[st' e']| |] eqn:Ec; cbn [bind fst snd] in W; try discriminate.
    exists st', e'. split; [reflexivity|]. destruct (write e'); cbn [bind] in W; congruence.
  - intros t e0 Hv Hd. exists st. revert Hv Hd. apply (described_run o mo ge0 newton_tol mu0 newton_linear_solve linear_solve geev tol finite); assumption.
Qed.

Lemma calculate_positive e st e1 : calculate e = Ok (st, e1) -> (0 < m_int F e "nphi")%Z.
Proof.
  intros H. destruct (Z_lt_le_dec 0 (m_int F e "nphi")) as [G|G]; [exact G|exfalso]. unfold Run.calculate, run_init_axis in H.
  assert (N : ai_nphi (axis_input_of e) = 0) by (cbn; lia). rewrite N in H. cbn in H. discriminate H.
Qed.
(** The inputs that are not varied are those of the object at the beginning, in each configuration that has been evaluated and at the end. *)
Theorem fixed_inputs_kept : forall (s s' : opt) (l : log), run s = Ok (s', l) ->
  same_fixed (config s') (config s) /\ forall b r, In (b, r) l -> same_fixed (config r) (config s).
Proof.
  intros s s' l E.
  set (base := fun (q : @MScan.qobj F) (x : @Opt.qextra F members) => same_fixed (members_of q x) (config s)).
  assert (Tr : forall e e' e'' : members, same_fixed e e' -> same_fixed e' e'' -> same_fixed e e'').
  { intros e e' e'' (A1 & A2 & A3) (B1 & B2 & B3). split; [intros x Hx; rewrite A1, B1 by exact Hx; reflexivity|].
    split; [intros x Hx; rewrite A2, B2 by exact Hx; reflexivity|congruence]. }
  assert (V : forall e : members, same_fixed (members_of (fst (view_of e)) (snd (view_of e))) e).
  { intros e. destruct (members_of_view e) as [A B C D G]. split; auto. }
  assert (Vi : forall e e1 : members, (m_int F e1 "nphi" = odd_nphi (m_int F e "nphi") /\ (forall x, x <> "nphi" -> m_int F e1 x = m_int F e x) /\ (forall x, m_float F e1 x = m_float F e x) /\
    (forall x, m_text F e1 x = m_text F e x) /\ (forall x, In x axis_members -> m_array F e1 x = m_array F e x)) -> same_fixed e1 e).
  { intros e e1 (_ & A & B & C & _). split; [|split; auto]. intros x Hx. apply A. intros ->. cbn in Hx. intuition discriminate. }
  assert (H : BL base (s', l)).
  { apply (run_opt_base o (m_sqrt mo) (m_of_Z mo) routines gsl junk base) with (s := s); [| | | | |exact E].
    - intros q x q' x' Hb Hq. cbn [q_allocate qsc_routines] in Hq. destruct (allocate_members F (fzero o) (members_of q x)) as [e1| |] eqn:E1; cbn [bind] in Hq; try discriminate.
      injection Hq as <- <-. eapply Tr; [apply V|]. eapply Tr; [apply Vi; apply (allocate_inputs o); exact E1|exact Hb].
    - intros q x q' x' Hb Hq. cbn [q_init qsc_routines] in Hq. destruct (init (members_of q x)) as [e1| |] eqn:E1; cbn [bind] in Hq; try discriminate.
      injection Hq as <- <-. eapply Tr; [apply V|]. eapply Tr; [apply Vi; apply (init_inputs o); exact E1|exact Hb].
    - intros q x q' x' Hb Hq. cbn [q_calculate qsc_routines] in Hq. destruct (calculate (members_of q x)) as [[st e1]| |] eqn:E1; cbn [bind snd] in Hq; try discriminate.
      injection Hq as <- <-. eapply Tr; [apply V|]. eapply Tr; [|exact Hb]. pose proof (calculate_positive _ _ _ E1) as Hn.
      pose proof (calculate_keep o mo ge0 mu0 newton_linear_solve linear_solve geev tol finite _ _ _ Hn E1) as K. split; [|split].
      + intros y Hy. apply (k_int _ _ _ K). cbn in *. tauto.
      + intros y Hy. apply (k_float _ _ _ K). cbn in *. tauto.
      + apply (k_text _ _ _ K).
    - intros q x q' x' (A1 & A2 & A3) Ho N1 N2 N3. split; [|split].
      + intros y Hy. rewrite <- A1 by exact Hy. cbn [fixed_ints In] in Hy.
        destruct Hy as [<-|Hy]; [exact N1|]. destruct Hy as [<-|[<-|[<-|[<-|[]]]]]; cbn [members_of m_int]; rewrite N3; reflexivity.
      + intros y Hy. rewrite <- A2 by exact Hy. apply Ho. cbn in *. intuition subst; discriminate.
      + rewrite <- A3. exact N2.
    - split; [|split]; intros; reflexivity. }
  destruct H as (H1 & H2). split; [exact H1|]. intros b r Hr. rewrite Forall_forall in H2. exact (H2 _ Hr).
Qed.

(** What an optimization writes is what runs of the code for the single configurations write: the part of the file about the configuration is the file of a run with
    the inputs of the last evaluation; and entry i of the variables about the iterations is the number that a run with the inputs of the i-th configuration
    reported writes. *)
Theorem optimization_writes_runs : forall (s s' : opt) (l : log) (e : members),
  input_ok s -> ints_fit (config s) -> run s = Ok (s', l) -> l <> [] -> holds_history s' (config s') e ->
  exists fq f new, run_gives (config s') fq /\ opt_write_netcdf F (m_of_Z mo) (config s') e = Ok f /\ f_vars F f = (f_vars F fq ++ new)%list /\
    forall i r, nth_error (map snd (filter fst l)) i = Some r ->
      exists fr, run_gives (config r) fr /\
        forall h x, In (h, x) (reported_first ++ reported_second) -> exists v, element F f h [i] v /\ element F fr x [] v.
Proof.
  intros s s' l e Hin Hi E Hl HH. pose proof calculation_called_ok as HC. destruct (fixed_inputs_kept s s' l E) as (_ & Fx).
  assert (Each : forall b r, In (b, r) l -> exists f, write (config r) = Ok f /\ run_gives (config r) f /\ allocated F (config r)).
  { intros b r Hr. destruct (evaluation_is_run s s' l b r Hin E Hr) as (f & W & _ & R). destruct (entry_file s s' l b r Hin E Hr) as (RC & Nl & _).
    exists f. split; [exact W|]. split; [|apply (rd_alloc _ _ _ RC)]. intros e0.
    destruct (input_file_describes (m_of_Z mo) (config r) (default_store o newton_tol)) as (V & D).
    - intros x Hx. destruct (string_dec x "nphi") as [->|N]; [unfold nphi_limits in Nl; unfold in_int32; lia|].
      rewrite (proj1 (Fx b r Hr)); [apply Hi; exact Hx|]. cbn in *. intuition congruence.
    - apply R; [exact V|exact D]. }
  assert (Last : exists b r, In (b, r) l /\ config s' = config r).
  { destruct (refinement_order o (m_sqrt mo) (m_of_Z mo) routines gsl junk s s' l HC Hin E) as (_ & _ & G).
    destruct (nth_error l (length l - 1)) as [[b r]|] eqn:El.
    - exists b, r. split; [eapply nth_error_In; exact El|]. destruct G as (G1 & G2). unfold config. rewrite G1, G2. reflexivity.
    - apply nth_error_None in El. destruct l; [contradiction|cbn in El; lia]. }
  destruct Last as (b & r0 & Hr0 & Ec). destruct (Each b r0 Hr0) as (fq0 & W0 & R0 & A0). rewrite <- Ec in W0, R0, A0.
  destruct (optimization_file_partial o (m_sqrt mo) (m_of_Z mo) routines gsl junk (m_of_Z mo) s s' l (config s') e HC Hin E A0 HH) as (fq & f & W1 & W2 & (new & Hn & _) & H).
  assert (fq0 = fq) by congruence. subst fq0. exists fq, f, new. split; [exact R0|]. split; [exact W2|]. split; [exact Hn|].
  intros i r Hr. destruct (H i r Hr) as (H1 & _). assert (Hr' : exists b, In (b, r) l).
  { apply nth_error_In, in_map_iff in Hr as ([b' r'] & Eb & Hb). apply filter_In in Hb as (Hb & _). cbn in Eb. subst r'. eauto. }
  destruct Hr' as (b' & Hr'). destruct (Each b' r Hr') as (fr & Wr & Rr & Ar). exists fr. split; [exact Rr|].
  destruct (qsc_written (m_of_Z mo) (config r) Ar) as (fr' & Wr' & Cr & _). assert (fr' = fr) by congruence. subst fr'.
  assert (Sc : forall when x, In (Put when x (SFloat x)) qsc_puts -> NetCDFOut.active F (config r) when = true -> element F fr x [] (qo_num (st_q r) x)).
  { intros when x Hp Ha. pose proof (in_statements F (config r) qsc_puts _ _ _ Hp Ha) as Hs.
    destruct (contains_var F (m_of_Z mo) _ _ _ _ _ _ Cr Hs) as (v & c & K1 & K2 & K3 & K4 & K5). cbn [fst snd NetCDFSpec.denotes NetCDFSpec.shape] in *.
    assert (c = Floats [qo_num (st_q r) x]) by (symmetry; injection K3 as K3; exact K3). subst c.
    exists v, [qo_num (st_q r) x], []. split; [exact K1|]. split; [exact K2|]. split; [exact K4|]. split; [exact K5|]. split; [constructor|reflexivity]. }
  assert (Rep : forall h x, In (h, x) (reported_first ++ reported_second) -> element F f h [i] (qo_num (st_q r) x)).
  { intros h x Hx. apply H1; [|intros ->; cbn in Hx; intuition discriminate].
    repeat (destruct Hx as [Hx|Hx]; [injection Hx as <- <-; cbn; tauto|]). destruct Hx. }
  assert (Ho : m_text F (config r) "order_r_option" <> "r1").
  { rewrite (proj2 (proj2 (Fx b' r Hr'))). change (m_text F (config s) "order_r_option") with (qx_order_r_option (r_q (st_rest s))).
    rewrite (evaluations_order o (m_sqrt mo) (m_of_Z mo) routines gsl junk s s' l HC Hin E Hl). discriminate. }
  intros h x Hx. exists (qo_num (st_q r) x). split; [apply Rep; exact Hx|]. apply in_app_or in Hx. destruct Hx as [Hx|Hx].
  - apply (Sc []); [|reflexivity].
    repeat (destruct Hx as [Hx|Hx]; [injection Hx as <- <-; apply in_puts; vm_compute; reflexivity|]). destruct Hx.
  - apply (Sc [("at_least_order_r2", true)]).
    + repeat (destruct Hx as [Hx|Hx]; [injection Hx as <- <-; apply in_puts; vm_compute; reflexivity|]). destruct Hx.
    + destruct (entry_file s s' l b' r Hin E Hr') as (RC & _). cbn [NetCDFOut.active forallb fst snd]. rewrite andb_true_r.
      destruct (rd_order _ _ _ RC) as [T|[T|[T|[]]]]; (match type of T with (?a, mkFlags ?u _ _) = (?c, mkFlags ?d _ _) => assert (T1 : c = a) by congruence; assert (T2 : d = u) by congruence end);
        rewrite T2; [contradiction|reflexivity|reflexivity].
Qed.
End OptQsc.

(** ** In real arithmetic *)
(** If the solvers and LAPACK succeed, an optimization of an acceptable input ends normally. *)
Section Completes.
Variables (ge0 : R -> bool) (newton_tol mu0 : R) (newton_linear_solve : (nat -> nat -> R) -> list R -> outcome (list R))
  (linear_solve : matrix R -> list R -> outcome (list R)) (geev : list R -> Z * (list R * list R)) (single : bool).
Notation opt := (@stage R (@rest R (members R))).
Notation routines := (qsc_routines R_ops R_math ge0 mu0 newton_linear_solve linear_solve geev (tolerances_of R_ops R_math single) (fun _ => true)).
Notation run := (run_opt R_ops (m_sqrt R_math) (m_of_Z R_math) routines).
Theorem optimization_completes : forall gsl junk (s : opt),
  (forall m v, exists x, newton_linear_solve m v = Ok x /\ length x = length v) -> (forall m v, exists x, linear_solve m v = Ok x) -> (forall m, fst (geev m) = 0%Z) ->
  gsl_ok gsl -> (forall n, length (junk n) = n) ->
  input_ok s -> In (qx_order_r_option (r_q (st_rest s))) ["r1"; "r2"; "r2.1"] -> (0 <= r_max_iter (st_rest s))%Z ->
  flagged s -> (exists p, free s p) -> (exists name, In name term_names /\ used R_ops s name = true) ->
  exists s' l, run gsl junk s = Ok (s', l).
Proof.
  intros gsl junk s S1 S2 S3 G J Hs Ho Hm Hf (p & Hp) (name & Hn & Hu).
  assert (HS : solvers_ok newton_linear_solve linear_solve).
  { split; [|split].
    - intros m v w. destruct (S1 m v) as (x & -> & _). discriminate.
    - intros m v x E. destruct (S1 m v) as (y & Ey & L). congruence.
    - intros m v w. destruct (S2 m v) as (x & ->). discriminate. }
  pose proof (qsc_routines_ok R_ops R_math ge0 newton_tol mu0 newton_linear_solve linear_solve geev (tolerances_of R_ops R_math single) (fun _ => true) HS) as Q.
  pose proof (run_opt_cases R_ops (m_sqrt R_math) (m_of_Z R_math) routines gsl junk (fit R_ops) Q G J (fun _ => False) s Hs) as D.
  assert (D' : safe (fun _ => False) (done R_ops (m_sqrt R_math) (m_of_Z R_math) routines gsl (fit R_ops) s) (run gsl junk s)).
  { apply D; clear D.
    - intros q x w (A & L & N) H. cbn [q_allocate qsc_routines] in H. revert H. unfold allocate_members. set (e := members_of q x).
      destruct (allocate_required (m_flag R e "at_least_order_r2") (m_flag R e "order_r2p1") (m_flag R e "order_r3") (m_int R e "nphi") (fun y => [Z.of_nat (length (m_array R e y))]) (odd_positive _ N)) as (sh & -> & _).
      cbn [bind]. discriminate.
    - intros q x w (A & L & N) (_ & Eo) H. cbn [q_init qsc_routines] in H.
      pose proof (init_fine R_ops true (members_of q x) N) as Fi. change (m_text R (members_of q x) "order_r_option") with (qx_order_r_option x) in Fi. rewrite Eo in Fi. specialize (Fi (fun _ => Ho)).
      destruct (Run.init R_ops (members_of q x)) as [e1|w1|w1]; cbn [bind fine] in *; [discriminate|discriminate|contradiction].
    - intros q x w Hfit H. cbn [q_calculate qsc_routines] in H. pose proof (fit_axis_ok R_ops q x Hfit) as Ha. destruct Hfit as (R1 & _).
      assert (Fi : fine true (fun _ => True) (Run.calculate R_ops R_math ge0 mu0 newton_linear_solve linear_solve geev (tolerances_of R_ops R_math single) (fun _ => true) (members_of q x))).
      { apply calculate_fine; try assumption.
        - intros n m v <-. destruct (S1 m v) as (y & -> & L). exact L.
        - intros m v. destruct (S2 m v) as (y & ->). exact I.
        - intros i st. destruct (singularity_defined geev single i st S3) as (y & ->). exact I. }
      destruct (Run.calculate _ _ _ _ _ _ _ _ _ _) as [r|w1|w1]; cbn [bind fine] in *; [discriminate|discriminate|contradiction].
    - lia.
    - intros a Ha. apply Ha. rewrite Hf. reflexivity.
    - intros _ H. exact (H p Hp).
    - intros H. rewrite (H name Hn) in Hu. discriminate Hu. }
  destruct (run gsl junk s) as [[s' l]|w|w]; cbn [safe] in D'; [exists s', l; reflexivity|contradiction|contradiction].
Qed.
End Completes.

(** ** An example *)
(** An optimization of eta_bar for a given iota at order r2.1, on 15 points, with solvers that always succeed. *)
Section Example.
Notation opt := (@stage R (@rest R (members R))).
Notation routines := (qsc_routines R_ops R_math Rge0 0%R easy_solver easy_solver2 easy_geev (tolerances_of R_ops R_math false) (fun _ => true)).
Definition step_gsl (j : nat) (s : opt) (maxiter : Z) (x0 : list R) : list (@event R) :=
  let x1 := map (Rplus 1) x0 in [Eval x0; Report x0; Eval x1; Report x1].
Definition zero_junk (n : nat) : list R := repeat 0%R n.
Definition plain_members : members R :=
  mkMembers R (update [("sG", 1%Z); ("spsi", 1%Z); ("max_newton_iterations", 12%Z); ("max_linesearch_iterations", 4%Z)] (fun _ => 0%Z)) (fun _ => false) (fun _ => 0%R) (fun _ => 0%Z) (fun _ => "") (fun _ => []) (fun _ => []).
Definition plain_object : @MScan.qobj R :=
  mkQo (update [("B0", 1%R); ("eta_bar", 1%R)] (fun _ => 0%R)) 0%Z [1%R; (1/20)%R] [0%R; 0%R] [0%R; 0%R] [0%R; (1/20)%R].
Definition plain_opt : opt :=
  mkStage (update [("weight_iota", 1%R)] (fun _ => 0%R)) plain_object (fun _ => []) (fun _ => mkMatrix 0 0 0 []) 0
    (mkRest (mkQx 15%Z 3%Z "r2.1" false (fun _ => []) plain_members) 5%Z 0 0%Z 0 [] (fun m => String.eqb m "eta_bar") (fun _ => [false; false]) 0 0 [] [] [] 0%R (fun _ => 0%R) []).
Definition iteration_members (s : opt) : members R :=
  mkMembers R (fun _ => Z.of_nat (r_n_iter (st_rest s))) (fun _ => false) (st_num s) (fun _ => 0%Z) (fun _ => "") (fun _ => r_iter_fourier_refine_step (st_rest s))
    (fun x => if inb x (map fst recorded_axes) then m_data (st_iter_axis s x) else st_iter s x).
Lemma iteration_holds (s : opt) : holds_history s (config s) (iteration_members s).
Proof.
  split; [reflexivity|]. split; [reflexivity|]. split; [reflexivity|]. split.
  - intros m v H. assert (Hm : In m recorded_names) by (rewrite <- (recorded_names_ok s); change m with (fst (m, v)); apply in_map; exact H).
    assert (G : forallb (fun m => negb (inb m (map fst recorded_axes))) recorded_names = true) by (vm_compute; reflexivity).
    rewrite forallb_forall in G. specialize (G m Hm). apply negb_true_iff in G. cbn [m_array iteration_members]. rewrite G. reflexivity.
  - intros n a H. assert (E : inb n (map fst recorded_axes) = true) by (apply inb_In; change n with (fst (n, a)); apply in_map; exact H).
    cbn [m_array iteration_members]. rewrite E. reflexivity.
Qed.
Lemma step_gsl_ok : gsl_ok step_gsl.
Proof.
  intros j s maxiter x0. exists [], [([map (Rplus 1) x0], map (Rplus 1) x0)], [].
  split; [reflexivity|]. split; [auto|]. split; [cbn [length]; lia|].
  repeat constructor; cbn [point]; rewrite ?map_length; reflexivity.
Qed.
Lemma easy_ok : solvers_ok easy_solver easy_solver2.
Proof. split; [|split]; try discriminate. intros m v x E. injection E as <-. reflexivity. Qed.
Lemma plain_ok : input_ok plain_opt.
Proof. split; [intros []; reflexivity|]. split; [split; [left; reflexivity|]|split; [|split]]; limits_tac. Qed.
Example optimization_example : exists s' l,
  run_opt R_ops (m_sqrt R_math) (m_of_Z R_math) routines step_gsl zero_junk plain_opt = Ok (s', l) /\ l <> [] /\
  solvers_ok easy_solver easy_solver2 /\ gsl_ok step_gsl /\ (forall n, length (zero_junk n) = n) /\ input_ok plain_opt /\ ints_fit (config plain_opt) /\
  holds_history s' (config s') (iteration_members s').
Proof.
  assert (J : forall n, length (zero_junk n) = n) by (intros n; apply repeat_length).
  destruct (optimization_completes Rge0 0%R 0%R easy_solver easy_solver2 easy_geev false step_gsl zero_junk plain_opt) as (s' & l & E).
  - intros m v. exists v. split; reflexivity.
  - intros m v. exists v. reflexivity.
  - reflexivity.
  - exact step_gsl_ok.
  - exact J.
  - exact plain_ok.
  - cbn. tauto.
  - cbn. lia.
  - intros []; reflexivity.
  - exists (PNum "eta_bar"). split; [cbn; tauto|reflexivity].
  - exists "iota". split; [cbn; tauto|]. unfold used. cbn. unfold Rltb. destruct (Rlt_dec 0 1) as [_|H]; [reflexivity|]. exfalso. apply H. exact Rlt_0_1.
  - exists s', l. split; [exact E|]. split.
    + apply (optimization_evaluates R_ops (m_sqrt R_math) (m_of_Z R_math) routines step_gsl zero_junk plain_opt s' l); [|exact plain_ok|exact E|reflexivity|cbn; lia].
      apply (calculation_called_ok R_ops R_math Rge0 0%R 0%R easy_solver easy_solver2 easy_geev (tolerances_of R_ops R_math false) (fun _ => true) step_gsl zero_junk easy_ok step_gsl_ok J).
    + split; [exact easy_ok|]. split; [exact step_gsl_ok|]. split; [exact J|]. split; [exact plain_ok|]. split; [|apply iteration_holds].
      intros x Hx. cbn in Hx. repeat (destruct Hx as [<-|Hx]; [cbn; unfold in_int32; lia|]). destruct Hx.
Qed.
End Example.
Print Assumptions calculation_called_ok.
Print Assumptions optimization_defined.
Print Assumptions evaluation_is_run.
Print Assumptions fixed_inputs_kept.
Print Assumptions optimization_writes_runs.
Print Assumptions optimization_completes.
