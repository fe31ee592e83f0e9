(** C103: a parameter scan with the optimization of Opt.v and the calculation of Run.v. *)
From Coq Require Import String ZArith List Arith Bool Lia Reals.
From Verif Require Import Base BaseFacts FloatOps MathOps Tensor Newton RSing Axis AxisSpec Alloc AllocSpec AllocFacts Toml TomlSpec TomlFacts Options OptionsSpec
  NetCDF NetCDFOut NetCDFSpec NetCDFFacts NetCDFRead Grid GridSpec Farm FarmFacts MScan MScanSpec MScanFacts MScanDims MScanRun.
From Verif Require Import Run RunSpec RunFacts RunSafe RunFile Opt OptSpec OptState OptResid OptRun OptEnd OptMulti OptFixed RunInput OptQsc Properties_Opt Properties_MultiOpt
  Properties_NetCDF Properties_RSing HelicityFacts Properties_RunSafe Properties_OptQsc Properties_MultiQsc Properties_MScan Properties_ScanQsc.
Import ListNotations.
Local Open Scope string_scope.
Local Open Scope nat_scope.

(** ** Specification *)
(** The variables of the output of a parameter scan that repeat inputs of the configurations ... *)
Definition final_inputs : list (string * string) :=
  [("scan_eta_bar", "eta_bar"); ("scan_sigma0", "sigma0"); ("scan_B2c", "B2c"); ("scan_B2s", "B2s"); ("scan_p2", "p2")].
Definition final_axis : list (string * string) := [("scan_R0c", "R0c"); ("scan_R0s", "R0s"); ("scan_Z0c", "Z0c"); ("scan_Z0s", "Z0s")].
(** ... and those that hold results, with the variables of the output file of a run. *)
Definition final_results : list (string * string) :=
  [("scan_iota", "iota"); ("scan_min_R0", "grid_min_R0"); ("scan_max_curvature", "grid_max_curvature"); ("scan_max_elongation", "grid_max_elongation");
   ("scan_min_L_grad_B", "grid_min_L_grad_B"); ("scan_standard_deviation_of_R", "standard_deviation_of_R"); ("scan_standard_deviation_of_Z", "standard_deviation_of_Z");
   ("scan_axis_length", "axis_length"); ("scan_min_L_grad_grad_B", "grid_min_L_grad_grad_B"); ("scan_B20_variation", "B20_grid_variation");
   ("scan_B20_residual", "B20_residual"); ("scan_B20_mean", "B20_mean"); ("scan_r_singularity", "r_singularity_robust"); ("scan_d2_volume_d_psi2", "d2_volume_d_psi2");
   ("scan_DMerc_times_r2", "DMerc_times_r2"); ("scan_max_XY2", "grid_max_XY2"); ("scan_max_Z2", "grid_max_Z2"); ("scan_max_d_XY2_d_varphi", "grid_max_d_XY2_d_varphi");
   ("scan_max_d2_XY2_d_varphi2", "grid_max_d2_XY2_d_varphi2"); ("scan_max_d_Z2_d_varphi", "grid_max_d_Z2_d_varphi"); ("scan_max_XY3", "grid_max_XY3");
   ("scan_max_d_XY3_d_varphi", "grid_max_d_XY3_d_varphi"); ("scan_max_d2_XY3_d_varphi2", "grid_max_d2_XY3_d_varphi2")].
(** Entry [p] of a saved array. *)
Definition listed {F} (out : @MScan.output F) (name : string) (p : nat) (v : F) : Prop := exists l, MScan.lookup (out_floats out) name = Some l /\ nth_error l p = Some v.
Definition listed_int {F} (out : @MScan.output F) (name : string) (p : nat) (z : Z) : Prop := exists l, MScan.lookup (out_ints out) name = Some l /\ nth_error l p = Some z.
Definition listed_mode {F} (out : @MScan.output F) (name : string) (k p : nat) (v : F) : Prop :=
  exists m, MScan.lookup (out_axis out) name = Some m /\ matrix_get m k p = Ok v.
(** Two configurations have the same inputs, apart from those that a scan or an optimization can change. *)
Definition same_settings {F} (e e' : members F) : Prop :=
  (forall x, In x fixed_ints -> m_int F e' x = m_int F e x) /\ (forall x, In x ["B0"; "I2"; "newton_tolerance"] -> m_float F e' x = m_float F e x) /\
  m_text F e' "order_r_option" = m_text F e "order_r_option".

Section MScanQsc.
Context {F : Type} (o : fops F) (mo : mops F).
Variables (ge0 : F -> bool) (newton_tol mu0 : F) (newton_linear_solve : (nat -> nat -> F) -> list F -> outcome (list F))
  (linear_solve : matrix F -> list F -> outcome (list F)) (geev : list F -> Z * (list F * list F)) (tol : tolerances F) (finite : F -> bool).
Notation members := (members F).
Notation opt := (@stage F (@rest F members)).
Notation multiopt := (@MScan.multiopt F (@rest F members)).
Notation routines := (qsc_routines o mo ge0 mu0 newton_linear_solve linear_solve geev tol finite).
Notation run_gives := (run_gives o mo ge0 newton_tol mu0 newton_linear_solve linear_solve geev tol finite).
Notation write := (qsc_write_netcdf F (m_of_Z mo)).
Variable gsl : nat -> opt -> Z -> list F -> list (@event F).
Variable junk : nat -> list F.
Notation run := (run_opt o (m_sqrt mo) (m_of_Z mo) routines gsl junk).
Notation optimize := (multiopt_optimize o (m_sqrt mo) (m_of_Z mo) routines gsl junk).
Hypothesis solvers : solvers_ok newton_linear_solve linear_solve.
Hypothesis gsl_calls : gsl_ok gsl.
Hypothesis junk_size : forall n, length (junk n) = n.
Notation called := (calculation_called_ok o mo ge0 newton_tol mu0 newton_linear_solve linear_solve geev tol finite gsl junk solvers gsl_calls junk_size).
Variables (keep_all : bool) (limits : string -> F).
Notation scan_steps := (scan_steps o (m_abs mo) (m_of_Z mo) optimize keep_all limits).
Notation acceptable := (MScanSpec.acceptable o (m_abs mo) keep_all limits).
Notation describes := (MScanSpec.describes o (m_abs mo) (m_of_Z mo) keep_all limits).

(** The configuration in which an optimization ends. *)
Lemma last_run (s s' : opt) l : input_ok s -> ints_fit (config s) -> run s = Ok (s', l) -> l <> [] ->
  RunSpec.ready F (fzero o) (config s') /\ exists fq, write (config s') = Ok fq /\ run_gives (config s') fq.
Proof.
  intros Hin Hi E Hl. destruct (fixed_inputs_kept o mo ge0 mu0 newton_linear_solve linear_solve geev tol finite gsl junk s s' l E) as (_ & Fx).
  assert (Last : exists b r, In (b, r) l /\ config s' = config r).
  { destruct (refinement_order o (m_sqrt mo) (m_of_Z mo) routines gsl junk s s' l called Hin E) as (_ & _ & G).
    destruct (nth_error l (length l - 1)) as [[b r]|] eqn:El.
    - exists b, r. split; [eapply nth_error_In; exact El|]. destruct G as (G1 & G2). unfold config. rewrite G1, G2. reflexivity.
    - apply nth_error_None in El. destruct l; [contradiction|cbn in El; lia]. }
  destruct Last as (b & r & Hr & Ec). rewrite Ec.
  destruct (evaluation_is_run o mo ge0 newton_tol mu0 newton_linear_solve linear_solve geev tol finite gsl junk solvers gsl_calls junk_size s s' l b r Hin E Hr) as (f & W & _ & R).
  destruct (entry_file o mo ge0 newton_tol mu0 newton_linear_solve linear_solve geev tol finite gsl junk solvers gsl_calls junk_size s s' l b r Hin E Hr) as (RC & Nl & _).
  split; [exact RC|]. exists f. split; [exact W|]. intros e0. destruct (input_file_describes (m_of_Z mo) (config r) (default_store o newton_tol)) as (V & D).
  - intros x Hx. destruct (string_dec x "nphi") as [->|N]; [unfold nphi_limits in Nl; unfold in_int32; lia|].
    rewrite (proj1 (Fx b r Hr)); [apply Hi; exact Hx|]. cbn in *. intuition congruence.
  - apply R; [exact V|exact D].
Qed.

(** The stages at a point of the grid. *)
Lemma point_input (mo_ref s : multiopt) na dims idx : stages_ok (mo_opts mo_ref) -> set_dims na dims idx mo_ref = Ok s ->
  stages_ok (mo_opts s) /\ length (mo_opts s) = length (mo_opts mo_ref) /\
  forall k t, nth_error (mo_opts mo_ref) k = Some t -> exists t', nth_error (mo_opts s) k = Some t' /\ rest_same t t' /\
    exists ds is, forall x, wanted ds is k x (reading t x) (reading t' x).
Proof.
  intros Hok Hd. rewrite trim in Hd. apply set_dims_ok in Hd as (Hlen & _ & Hst); [|rewrite !firstn_length; lia].
  assert (Same : forall k s', nth_error (mo_opts s) k = Some s' -> exists t, nth_error (mo_opts mo_ref) k = Some t /\ rest_same t s').
  { intros k s' Hk. destruct (nth_error (mo_opts mo_ref) k) as [t|] eqn:E.
    - destruct (Hst k t E) as (s2 & A & B & _). exists t. split; auto. congruence.
    - apply nth_error_None in E. assert (k < length (mo_opts s)) by (apply nth_error_Some; congruence). lia. }
  split; [|split; [exact Hlen|]].
  - assert (Frs : map st_fourier_refine (mo_opts s) = map st_fourier_refine (mo_opts mo_ref)).
    { apply nth_error_ext. intros k. rewrite !nth_error_map. destruct (nth_error (mo_opts s) k) as [s'|] eqn:Ek.
      - destruct (Same k s' Ek) as (t & E & R). rewrite E. cbn. f_equal. apply R.
      - apply nth_error_None in Ek. destruct (nth_error (mo_opts mo_ref) k) eqn:E2; auto.
        assert (k < length (mo_opts mo_ref)) by (apply nth_error_Some; congruence). lia. }
    destruct Hok as [Hn Hf]. split.
    + apply Forall_forall. intros s' Hi. apply In_nth_error in Hi as (k & Hk). destruct (Same k s' Hk) as (t & E & R).
      rewrite Forall_forall in Hn. specialize (Hn t (nth_error_In _ _ E)). unfold nphi_ok in *.
      destruct R as (_ & _ & R3 & R4 & _). rewrite R3, R4. exact Hn.
    + intros s' Hk. destruct (Same 0 s' Hk) as (t & E & R). specialize (Hf t E). destruct Hf as [(Hx & Hy & Hm & Hl & Hp) Hall].
      destruct R as (_ & _ & R3 & R4 & _ & R6 & R7 & R8 & R9).
      assert (Em : n_modes s' = n_modes t) by (unfold n_modes; congruence).
      split; [split; [|split; [|split; [lia|split]]]|].
      * intros a. pose proof (Hx a) as Ha. rewrite Em. destruct a; cbn [get_axis] in *; congruence.
      * unfold nphi_ok in *. rewrite R3, R4. exact Hy.
      * rewrite Em, R3, R4. exact Hl.
      * rewrite R4. exact Hp.
      * rewrite Em, R4. unfold modes_before in *. rewrite firstn_all in *. rewrite Frs. exact Hall.
  - intros k t Hk. destruct (Hst k t Hk) as (t' & A & B & C). exists t'. split; [exact A|]. split; [exact B|]. eauto.
Qed.
Lemma wanted_unset ds is k t v0 v : @wanted F ds is k t v0 v -> (forall name, ~ means name t) -> v = v0.
Proof. intros H N. induction H; auto. exfalso. eapply N. eassumption. Qed.

(** A point of the grid never leads to undefined behaviour in the optimization. *)
Theorem point_defined : forall (mo_ref s : multiopt) na dims idx why, stages_ok (mo_opts mo_ref) -> set_dims na dims idx mo_ref = Ok s -> optimize s <> UB why.
Proof.
  intros mo_ref s na dims idx why Hok Hd. destruct (point_input mo_ref s na dims idx Hok Hd) as (H & _).
  apply (stages_defined o mo ge0 newton_tol mu0 newton_linear_solve linear_solve geev tol finite gsl junk solvers gsl_calls junk_size s why H).
Qed.

Lemma point_last (mo_ref r : multiopt) dims j first :
  stages_ok (mo_opts mo_ref) -> nth_error (mo_opts mo_ref) 0 = Some first -> ints_fit (config first) -> qx_order_r_option (r_q (st_rest first)) = "r2.1" ->
  (forall k t, nth_error (mo_opts mo_ref) k = Some t -> (2 <= r_max_iter (st_rest t))%Z) ->
  MScanSpec.point optimize mo_ref (scan_na mo_ref) dims j = Ok r ->
  exists last, last_stage r = Some last /\ same_settings (config first) (config last) /\ RunSpec.ready F (fzero o) (config last) /\
    exists fq, write (config last) = Ok fq /\ run_gives (config last) fq.
Proof.
  intros Hok Hf Hi Ho Hm E. unfold MScanSpec.point in E. destruct (set_dims _ _ _ _) as [s| |] eqn:Ed; cbn [bind] in E; try discriminate.
  destruct (point_input _ _ _ _ _ Hok Ed) as (Hs & Hlen & Hst).
  destruct (Hst 0 first Hf) as (first' & Hf' & Rf & ds & is & Wf).
  assert (Set' : same_settings (config first) (config first')).
  { destruct Rf as (_ & _ & _ & R4 & R5 & _). split; [|split].
    - intros x Hx. unfold config, members_of. cbn [m_int]. rewrite R4, R5. reflexivity.
    - intros x Hx. unfold config, members_of. cbn [m_float]. specialize (Wf (TQ x)). apply wanted_unset in Wf.
      + cbn [reading] in Wf. congruence.
      + intros name H. inversion H as [|m Hq| |]; subst. cbn in Hx, Hq. intuition (subst; discriminate).
    - unfold config, members_of. cbn [m_text]. rewrite R4. reflexivity. }
  destruct (multiopt_chain o (m_sqrt mo) (m_of_Z mo) routines gsl junk s r called Hs E) as (L & C & _).
  assert (Hpos : 0 < length (mo_opts mo_ref)) by (apply nth_error_Some; congruence).
  set (n := length (mo_opts r) - 1). assert (Hn : n < length (mo_opts r)) by (unfold n; lia).
  destruct (nth_error (mo_opts r) n) as [last|] eqn:El; [|apply nth_error_None in El; lia].
  destruct (nth_error (mo_opts s) n) as [t|] eqn:Et; [|apply nth_error_None in Et; lia].
  destruct (nth_error (mo_opts mo_ref) n) as [t0|] eqn:Et0; [|apply nth_error_None in Et0; lia].
  destruct (C n t last Et El) as (start & l & A & B & D & _).
  assert (Sf : same_fixed (config start) (config first')).
  { rewrite (start_config _ _ _ A). destruct n as [|i]; cbn [previous].
    - assert (t = first') by congruence. subst t. apply same_fixed_refl.
    - destruct (nth_error (mo_opts r) i) as [r0|] eqn:E0;
        [apply (stages_fixed_inputs o mo ge0 newton_tol mu0 newton_linear_solve linear_solve geev tol finite gsl junk solvers gsl_calls junk_size s r first' Hs E Hf' i r0 E0)|].
      apply nth_error_None in E0. lia. }
  assert (If : ints_fit (config start)).
  { intros x Hx. destruct (string_dec x "nphi") as [->|N].
    - destruct B as (_ & _ & _ & _ & B). change (m_int F (config start) "nphi") with (qx_nphi (r_q (st_rest start))). unfold nphi_limits in B. unfold in_int32. lia.
    - assert (Hx' : In x fixed_ints) by (cbn in *; intuition congruence). rewrite (proj1 Sf) by exact Hx'. rewrite (proj1 Set') by exact Hx'. apply Hi. exact Hx. }
  assert (Os : qx_order_r_option (r_q (st_rest start)) = "r2.1").
  { change (m_text F (config start) "order_r_option" = "r2.1"). destruct Sf as (_ & _ & ->). destruct Set' as (_ & _ & ->). exact Ho. }
  assert (Ms : (2 <= r_max_iter (st_rest start))%Z).
  { destruct (Hst n t0 Et0) as (t' & Ht' & Rt & _). assert (t' = t) by congruence. subst t'.
    assert (Er : r_max_iter (st_rest start) = r_max_iter (st_rest t)) by (destruct (previous None (mo_opts r) n); cbn [continues] in A; subst start; reflexivity).
    rewrite Er. destruct Rt as (_ & _ & _ & -> & _). apply (Hm n t0 Et0). }
  pose proof (optimization_evaluates o (m_sqrt mo) (m_of_Z mo) routines gsl junk start last l called B D Os Ms) as Hl.
  destruct (last_run start last l B If D Hl) as (R & fq & W & G). exists last. split; [exact El|]. split; [|split; [exact R|]; exists fq; split; [exact W|exact G]].
  destruct (stages_fixed_inputs o mo ge0 newton_tol mu0 newton_linear_solve linear_solve geev tol finite gsl junk solvers gsl_calls junk_size s r first' Hs E Hf' n last El) as (F1 & F2 & F3).
  destruct Set' as (S1 & S2 & S3). split; [|split; [|congruence]].
  - intros x Hx. rewrite F1 by exact Hx. apply S1. exact Hx.
  - intros x Hx. rewrite F2 by (cbn in *; tauto). apply S2. exact Hx.
Qed.

Fixpoint position (x : string) (l : list string) : nat := match l with [] => 0 | y :: l' => if String.eqb x y then 0 else S (position x l') end.
Lemma column_of name x : In (name, x) (final_inputs ++ final_results) -> In (name, @q_of_last F (@rest F members) x) columns.
Proof.
  intros H. repeat (destruct H as [H|H]; [injection H as <- <-; match goal with |- In (?y, _) ?l => let i := eval vm_compute in (position y (map fst (@columns F (@rest F members)))) in
    apply (nth_error_In _ i); reflexivity end|]). destruct H.
Qed.
Lemma column_written name x e : In (name, x) (final_inputs ++ final_results) -> RunSpec.ready F (fzero o) e -> m_text F e "order_r_option" = "r2.1" ->
  exists when, In (Put when x (SFloat x)) qsc_puts /\ NetCDFOut.active F e when = true.
Proof.
  intros H R Ho. assert (Fl : m_flag F e "at_least_order_r2" = true /\ m_flag F e "order_r2p1" = true).
  { destruct (rd_order _ _ _ R) as [T|[T|[T|[]]]]; (match type of T with (?a, mkFlags ?u ?u' _) = (?c, mkFlags ?d ?d' _) =>
      assert (T1 : c = a) by congruence; assert (T2 : d = u) by congruence; assert (T3 : d' = u') by congruence end); rewrite Ho in T1; try discriminate T1. auto. }
  destruct Fl as (F1 & F2).
  assert (A1 : NetCDFOut.active F e [("at_least_order_r2", true)] = true) by (cbn [NetCDFOut.active forallb fst snd]; rewrite F1; reflexivity).
  assert (A2 : NetCDFOut.active F e [("order_r2p1", true)] = true) by (cbn [NetCDFOut.active forallb fst snd]; rewrite F2; reflexivity).
  repeat (destruct H as [H|H]; [injection H as <- <-; match goal with |- exists when, In (Put when ?y _) _ /\ _ =>
    match eval vm_compute in (find (fun p => match p with Put _ z _ => String.eqb y z end) qsc_puts) with Some (Put ?w _ _) => exists w end end;
    (split; [apply in_puts; vm_compute; reflexivity|first [reflexivity|exact A1|exact A2]])|]). destruct H.
Qed.
Lemma axis_column_of name x : In (name, x) final_axis -> exists a, x = axis_name a /\ In (name, fun (r : multiopt) k => @axis_of_last F (@rest F members) (fun q => get_axis q a) r k) axis_columns.
Proof.
  intros H. destruct H as [H|[H|[H|[H|[]]]]]; injection H as <- <-; [exists R0c|exists R0s|exists Z0c|exists Z0s]; (split; [reflexivity|]);
    [apply (nth_error_In _ 0)|apply (nth_error_In _ 1)|apply (nth_error_In _ 2)|apply (nth_error_In _ 3)]; reflexivity.
Qed.

(** A scan that ends.  Each configuration [p] that it keeps is that in which the optimization at some point of the grid has ended; a run of the code whose input
    file has the inputs [c] of this configuration writes a file [fq]; the scan has saved the inputs of [c] that vary and the results that are in [fq].  The inputs that do not vary are those of
    the input file. *)
Theorem parameter_scan_lists_runs : forall (mo_ref : multiopt) dims first nw e n s,
  stages_ok (mo_opts mo_ref) -> nth_error (mo_opts mo_ref) 0 = Some first -> ints_fit (config first) -> qx_order_r_option (r_q (st_rest first)) = "r2.1" ->
  (forall k t, nth_error (mo_opts mo_ref) k = Some t -> (2 <= r_max_iter (st_rest t))%Z) -> 1 <= nw <= n_scan_all dims ->
  scan_steps mo_ref dims nw e n (scan_start o mo_ref dims nw) s -> ended s ->
  exists mos out, results_at optimize mo_ref dims (seq 0 (n_scan_all dims)) mos /\ scan_output o (m_of_Z mo) mo_ref dims s = Ok out /\
    describes (scan_na mo_ref) mos out /\
    forall p, (Z.of_nat p < out_n_scan out)%Z -> exists r last fq, nth_error (filter acceptable mos) p = Some r /\ last_stage r = Some last /\
      let c := config last in
      same_settings (config first) c /\ run_gives c fq /\
      (forall name x, In (name, x) final_inputs -> listed out name p (m_float F c x)) /\
      (forall name x, In (name, x) final_axis -> length (m_array F c x) = scan_na mo_ref /\ forall k v, nth_error (m_array F c x) k = Some v -> listed_mode out name k p v) /\
      (forall name x, In (name, x) (final_inputs ++ final_results) -> exists v, listed out name p v /\ element F fq x [] v) /\
      listed_int out "scan_helicity" p (RunSpec.whole F fq "helicity").
Proof.
  intros mo_ref dims first nw e n s Hok Hf Hi Ho Hm Hnw St (En & _).
  assert (Sh : shapes optimize mo_ref dims (n_modes first + st_fourier_refine first)).
  { apply (optimization_shapes o (m_sqrt mo) (m_of_Z mo) routines gsl junk mo_ref dims first called Hok Hf). specialize (Hm 0 first Hf). lia. }
  destruct (end_output o (m_abs mo) (m_of_Z mo) optimize keep_all limits mo_ref dims _ Sh nw e Hnw n s St En) as (mos & A & B & E).
  exists mos. eexists. split; [exact A|]. split; [exact E|]. pose proof (expected_describes o (m_abs mo) (m_of_Z mo) keep_all limits _ _ mos B) as D. split; [exact D|].
  match type of D with MScanSpec.describes _ _ _ _ _ _ _ ?x => generalize dependent x; intros out E D end.
  intros p Hp. rewrite (de_n_scan _ _ _ _ _ _ _ _ D) in Hp. unfold MScanSpec.count in Hp.
  destruct (nth_error (filter acceptable mos) p) as [r|] eqn:Er; [|apply nth_error_None in Er; lia].
  assert (Hr : In r mos) by (apply nth_error_In in Er; apply filter_In in Er; tauto).
  destruct (In_nth_error _ _ Hr) as (j & Hj).
  assert (Pt : exists j', MScanSpec.point optimize mo_ref (scan_na mo_ref) dims j' = Ok r).
  { clear - A Hr. unfold results_at in A. revert Hr. induction A as [|x y l l' Hxy A IH]; [intros []|]. intros [<-|Hr]; eauto. }
  destruct Pt as (j' & Pt). destruct (point_last mo_ref r dims j' first Hok Hf Hi Ho Hm Pt) as (last & El & Set' & R & fq & W & G).
  exists r, last, fq. split; [reflexivity|]. split; [exact El|]. cbv zeta. split; [exact Set'|]. split; [exact G|].
  assert (Col : forall name x, In (name, x) (final_inputs ++ final_results) -> listed out name p (m_float F (config last) x)).
  { intros name x Hx. destruct (de_columns _ _ _ _ _ _ _ _ D name _ (column_of name x Hx)) as (l & Hl & Hv). exists l. split; [exact Hl|].
    pose proof (f_equal (fun z => nth_error z p) Hv) as Hv'. cbv beta in Hv'. rewrite !nth_error_map, Er in Hv'. cbn [option_map] in Hv'. unfold q_of_last in Hv'. rewrite El in Hv'. cbn [option_map] in Hv'.
    destruct (nth_error l p) as [v|]; cbn in Hv'; [|discriminate]. injection Hv' as ->. reflexivity. }
  split; [intros name x Hx; apply Col; apply in_or_app; left; exact Hx|]. split; [|split].
  - intros name x Hx. destruct (axis_column_of name x Hx) as (a & -> & Hc). unfold config at 1. rewrite axis_array.
    rewrite Forall_forall in B. destruct (B r Hr) as [_ (last' & El' & L1 & L2 & L3 & L4) _]. assert (last' = last) by congruence. subst last'.
    assert (La : length (get_axis (st_q last) a) = scan_na mo_ref) by (destruct a; assumption). split; [exact La|].
    intros k v Hk. unfold config in Hk. rewrite axis_array in Hk.
    destruct (de_axis _ _ _ _ _ _ _ _ D name _ Hc) as (m & Hl & _ & _ & Hg). exists m. split; [exact Hl|].
    rewrite (Hg k p r); [|rewrite <- La; apply nth_error_Some; congruence|exact Er]. unfold axis_of_last. rewrite El, Hk. reflexivity.
  - intros name x Hx. exists (m_float F (config last) x). split; [apply Col; exact Hx|].
    destruct (column_written name x (config last) Hx R) as (when & Hp1 & Hp2).
    { destruct Set' as (_ & _ & ->). exact Ho. }
    apply (scalar_element mo (config last) fq when x (rd_alloc _ _ _ R) W Hp1 Hp2).
  - destruct (de_ints _ _ _ _ _ _ _ _ D) as (_ & l & Hl & Hv). exists l. split; [exact Hl|].
    pose proof (f_equal (fun z => nth_error z p) Hv) as Hv'. cbv beta in Hv'. rewrite !nth_error_map, Er in Hv'. cbn [option_map] in Hv'. rewrite El in Hv'. cbn [option_map] in Hv'.
    rewrite (whole_int mo (config last) fq (rd_alloc _ _ _ R) W [] "helicity" "helicity"); [|apply in_puts; vm_compute; reflexivity|reflexivity].
    change (m_int F (config last) "helicity") with (qo_helicity (st_q last)). destruct (nth_error l p); cbn in Hv'; congruence.
Qed.
End MScanQsc.
Print Assumptions point_defined.
Print Assumptions parameter_scan_lists_runs.

(** ** An example: two values of eta_bar for the optimization in two stages of Properties_MultiQsc, with one worker *)
Section Example.
Notation routines := (qsc_routines R_ops R_math Rge0 0%R easy_solver easy_solver2 easy_geev (tolerances_of R_ops R_math false) (fun _ => true)).
Notation optimize := (multiopt_optimize R_ops (m_sqrt R_math) (m_of_Z R_math) routines step_gsl zero_junk).
Definition two_values : list (@MScan.dim R) := [mkDim "eta_bar" [1%R; 2%R] 0%Z].
Definition buffered : env := mkEnv (fun _ => true) (fun _ => true) (fun _ => true) (fun _ => true).
Notation scan_to := (MScan.scan_steps R_ops (m_abs R_math) (m_of_Z R_math) optimize true (fun _ => 0%R) two_stages two_values 1 buffered).
Lemma two_first : nth_error (mo_opts two_stages) 0 = Some (two_stage 1 (fun _ => [false; true])).
Proof. reflexivity. Qed.
Lemma point_setup i v : nth_error [1%R; 2%R] i = Some v -> exists s, set_dims 3 two_values [i] two_stages = Ok s /\
  exists t1 t2, mo_opts s = [t1; t2] /\ rest_same (two_stage 1 (fun _ => [false; true])) t1 /\ rest_same (two_stage 0 (fun _ => [false; true; true])) t2 /\
  st_num t1 = st_num (two_stage 1 (fun _ => [false; true])) /\ st_num t2 = st_num (two_stage 1 (fun _ => [false; true])).
Proof.
  intros H. destruct i as [|[|i]]; [| |destruct i; discriminate H]; (eexists; split; [reflexivity|]; eexists; eexists; split; [reflexivity|]; repeat split).
Qed.
Lemma point_completes j : j < 2 -> exists r, MScanSpec.point optimize two_stages (scan_na two_stages) two_values j = Ok r.
Proof.
  intros Hj. assert (E : decode (map (fun d => length (d_vals d)) two_values) j = [j]) by (destruct j as [|[|j]]; [reflexivity|reflexivity|lia]).
  assert (Hv : exists v, nth_error [1%R; 2%R] j = Some v) by (destruct j as [|[|j]]; [eexists; reflexivity|eexists; reflexivity|lia]). destruct Hv as (v & Hv).
  destruct (point_setup j v Hv) as (s & Es & t1 & t2 & Eo & R1 & R2 & N1 & N2). unfold MScanSpec.point. rewrite E. change (scan_na two_stages) with 3. rewrite Es. cbn [bind].
  destruct (point_input two_stages s 3 two_values [j] two_stages_ok Es) as (Hs & _).
  apply (stages_complete Rge0 0%R 0%R easy_solver easy_solver2 easy_geev false step_gsl zero_junk s t1).
  - intros m w. exists w. split; reflexivity.
  - intros m w. exists w. reflexivity.
  - reflexivity.
  - exact step_gsl_ok.
  - intros n. apply repeat_length.
  - exact Hs.
  - rewrite Eo. reflexivity.
  - destruct R1 as (_ & _ & _ & -> & _). cbn. tauto.
  - assert (M1 : n_modes t1 = 2) by (unfold n_modes; destruct R1 as (_ & _ & _ & _ & _ & _ & _ & -> & _); reflexivity).
    assert (U : forall t : @stage R (@rest R (members R)), st_num t = st_num (two_stage 1 (fun _ => [false; true])) -> used R_ops t "iota" = true).
    { intros t Et. unfold used. rewrite Et. cbn. unfold Rltb. destruct (Rlt_dec 0 1) as [_|H]; [reflexivity|]. exfalso. apply H. exact Rlt_0_1. }
    assert (Fr : st_fourier_refine t1 = 1) by (destruct R1 as (_ & _ & -> & _); reflexivity).
    rewrite Eo. intros i t Ht. assert (Ht' : (i = 0 /\ t = t1) \/ (i = 1 /\ t = t2)) by (destruct i as [|[|i]]; cbn in Ht; [left|right|destruct i; discriminate Ht]; split; congruence).
    destruct Ht' as [(-> & ->)|(-> & ->)].
    + destruct R1 as (_ & _ & _ & R1 & _). rewrite R1, M1. split; [intros a; reflexivity|]. split; [cbn; lia|].
      split; [exists (PNum "eta_bar"); cbn [free]; rewrite R1; split; [cbn; tauto|reflexivity]|exists "iota"; split; [cbn; tauto|apply U; exact N1]].
    + destruct R2 as (_ & _ & _ & R2 & _). rewrite R2, M1. unfold modes_before. cbn [firstn map fold_right]. rewrite Fr. split; [intros a; reflexivity|]. split; [cbn; lia|].
      split; [exists (PNum "eta_bar"); cbn [free]; rewrite R2; split; [cbn; tauto|reflexivity]|exists "iota"; split; [cbn; tauto|apply U; exact N2]].
Qed.
Example parameter_scan_example : exists n s out,
  scan_to n (scan_start R_ops two_stages two_values 1) s /\ ended s /\ scan_output R_ops (m_of_Z R_math) two_stages two_values s = Ok out /\ out_n_scan out = 2%Z /\
  stages_ok (mo_opts two_stages) /\ ints_fit (config (two_stage 1 (fun _ => [false; true]))) /\
  (forall k t, nth_error (mo_opts two_stages) k = Some t -> (2 <= r_max_iter (st_rest t))%Z).
Proof.
  assert (J : forall n, length (zero_junk n) = n) by (intros n; apply repeat_length).
  assert (Hm : forall k t, nth_error (mo_opts two_stages) k = Some t -> (2 <= r_max_iter (st_rest t))%Z).
  { intros [|[|k]] t Ht; cbn in Ht; [| |destruct k; discriminate Ht]; injection Ht as <-; cbn; lia. }
  assert (Hi : ints_fit (config (two_stage 1 (fun _ => [false; true])))).
  { destruct stages_example as (_ & _ & _ & _ & _ & _ & _ & _ & _ & H & _). exact H. }
  pose proof (calculation_called_ok R_ops R_math Rge0 0%R 0%R easy_solver easy_solver2 easy_geev (tolerances_of R_ops R_math false) (fun _ => true) step_gsl zero_junk easy_ok step_gsl_ok J) as HC.
  assert (Sh : shapes optimize two_stages two_values 3).
  { apply (optimization_shapes R_ops (m_sqrt R_math) (m_of_Z R_math) routines step_gsl zero_junk two_stages two_values _ HC two_stages_ok two_first). cbn. lia. }
  assert (P : 1 <= 1 <= n_scan_all two_values) by (cbn; lia).
  destruct (scan_finishes R_ops (m_abs R_math) (m_of_Z R_math) optimize true (fun _ => 0%R) two_stages two_values 3 1 buffered 0 _ Sh P (fun _ => eq_refl) point_completes (steps0 _ _ _ _ _ _ _ _ _))
    as (n & s & St & En).
  destruct (parameter_scan_lists_runs R_ops R_math Rge0 0%R 0%R easy_solver easy_solver2 easy_geev (tolerances_of R_ops R_math false) (fun _ => true) step_gsl zero_junk easy_ok step_gsl_ok J
    true (fun _ => 0%R) two_stages two_values _ 1 buffered n s two_stages_ok two_first Hi eq_refl Hm P St En) as (mos & out & A & B & D & _).
  exists n, s, out. split; [exact St|]. split; [exact En|]. split; [exact B|]. split; [|split; [exact two_stages_ok|split; [exact Hi|exact Hm]]].
  rewrite (de_n_scan _ _ _ _ _ _ _ _ D). unfold MScanSpec.count. assert (L : length (seq 0 (n_scan_all two_values)) = length mos) by (clear - A; unfold results_at in A; induction A; cbn [length]; congruence).
  assert (Q : forall l : list (@MScan.multiopt R (@rest R (members R))), filter (MScanSpec.acceptable R_ops (m_abs R_math) true (fun _ => 0%R)) l = l).
  { induction l as [|x l IH]; [reflexivity|]. cbn [filter]. rewrite IH.
    assert (Ac : MScanSpec.acceptable R_ops (m_abs R_math) true (fun _ => 0%R) x = true).
    { unfold MScanSpec.acceptable. apply forallb_forall. intros y _. unfold falls_short. destruct (last_stage x); reflexivity. }
    rewrite Ac. reflexivity. }
  rewrite Q, <- L. reflexivity.
Qed.
End Example.
