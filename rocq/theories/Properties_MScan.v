(** Properties C36 (the output of a parameter scan does not depend on the schedule), C37
    (intermediate files), C38 (no column mix-ups), C39 (counters) and C40 (scanned parameters).

    [shapes] below: the optimization leaves arrays of the sizes the scan expects; it is proved
    of the model of the optimizer in Properties_MultiOpt. *)
From Coq Require Import String ZArith List Bool Arith Lia Permutation Sorted SpecFloat.
From Verif Require Import Base BaseFacts FloatOps Tensor Outfile OutfileFacts Grid GridSpec GridFacts Farm FarmFacts
  MScan MScanSpec MScanFacts MScanDims MScanRun Properties_Farm.
Import ListNotations.
Local Open Scope list_scope.
Local Open Scope nat_scope.

Definition shapes {F X : Type} (optimize : @multiopt F X -> outcome (@multiopt F X)) (mo_ref : multiopt) (dims : list dim) (n0 : nat) : Prop :=
  forall idx mo mo', set_dims (scan_na mo_ref) dims idx mo_ref = Ok mo -> optimize mo = Ok mo' ->
    shaped (scan_na mo_ref) n0 mo'.
(** [results_at js mos]: [mos] are the results of the optimizations at the points [js] of the
    grid. *)
Definition results_at {F X : Type} (optimize : @multiopt F X -> outcome (@multiopt F X)) (mo_ref : multiopt) (dims : list dim)
    (js : list nat) (mos : list multiopt) : Prop :=
  Forall2 (fun j mo => point optimize mo_ref (scan_na mo_ref) dims j = Ok mo) js mos.

(** ** C36 *)

(** A scan that ends writes a file that describes the results at all points of the grid, in the
    order of the grid.  Two scans of the same input write the same file: the number of
    processes, which sends are buffered, the order of the messages and the clock change nothing
    (the times and the statistics per process are not part of [output]). *)
Theorem scan_output_schedule_independent : forall {F : Type} (o : fops F) (fabs : F -> F) (of_Z : Z -> F) {X : Type}
    (optimize : @multiopt F X -> outcome multiopt) (keep_all : bool) (limits : string -> F) (mo_ref : multiopt) (dims : list dim)
    (n0 nw1 nw2 : nat) (e1 e2 : env) (n1 n2 : nat) s1 s2,
  shapes optimize mo_ref dims n0 ->
  1 <= nw1 <= n_scan_all dims -> 1 <= nw2 <= n_scan_all dims ->
  scan_steps o fabs of_Z optimize keep_all limits mo_ref dims nw1 e1 n1 (scan_start o mo_ref dims nw1) s1 -> ended s1 ->
  scan_steps o fabs of_Z optimize keep_all limits mo_ref dims nw2 e2 n2 (scan_start o mo_ref dims nw2) s2 -> ended s2 ->
  exists mos out,
    results_at optimize mo_ref dims (seq 0 (n_scan_all dims)) mos /\
    describes o fabs of_Z keep_all limits (scan_na mo_ref) mos out /\
    scan_output o of_Z mo_ref dims s1 = Ok out /\ scan_output o of_Z mo_ref dims s2 = Ok out.
Proof.
  intros F o fabs of_Z X optimize keep_all limits mo_ref dims n0 nw1 nw2 e1 e2 n1 n2 s1 s2 Sh P1 P2 R1 (M1 & _) R2 (M2 & _).
  destruct (end_output o fabs of_Z optimize keep_all limits mo_ref dims n0 Sh nw1 e1 P1 n1 s1 R1 M1) as (mos & A & B & E1).
  destruct (end_output o fabs of_Z optimize keep_all limits mo_ref dims n0 Sh nw2 e2 P2 n2 s2 R2 M2) as (mos2 & A2 & _ & E2).
  assert (mos2 = mos).
  { clear -A A2. revert mos2 A2. induction A as [|j mo l mos Hj A IH]; intros mos2 A2; inversion A2; subst; auto.
    f_equal; [congruence|]. apply IH; auto. }
  subst mos2. exists mos. eexists. split; [exact A|]. split; [eapply expected_describes; exact B|]. auto.
Qed.
Print Assumptions scan_output_schedule_independent.

(** ** C37 *)

(** The intermediate files: each describes the results at some points [js], taken in the order
    of the grid; they are points that have been evaluated; and each file covers the points of
    the earlier ones. *)
Theorem scan_intermediate_files : forall {F : Type} (o : fops F) (fabs : F -> F) (of_Z : Z -> F) {X : Type}
    (optimize : @multiopt F X -> outcome multiopt) (keep_all : bool) (limits : string -> F) (mo_ref : multiopt) (dims : list dim)
    (n0 nw : nat) (e : env) (n : nat) s,
  shapes optimize mo_ref dims n0 -> 1 <= nw <= n_scan_all dims ->
  scan_steps o fabs of_Z optimize keep_all limits mo_ref dims nw e n (scan_start o mo_ref dims nw) s ->
  exists jss,
    Forall2 (fun js out => exists mos, results_at optimize mo_ref dims js mos /\
               describes o fabs of_Z keep_all limits (scan_na mo_ref) mos out) jss (s_saved s) /\
    Forall (fun js => StronglySorted lt js /\ incl js (map snd (s_log s))) jss /\
    StronglySorted (@incl nat) jss.
Proof.
  intros F o fabs of_Z X optimize keep_all limits mo_ref dims n0 nw e n s Sh P R.
  destruct (run_saved o fabs of_Z optimize keep_all limits mo_ref dims n0 Sh nw e P n s R) as (jss & A & B & C).
  exists jss. split; [|split; auto].
  clear B C. induction A as [|js x jss saved (mos & H1 & H2 & ->) A IH]; constructor; auto.
  exists mos. split; auto. eapply expected_describes; eauto.
Qed.
Print Assumptions scan_intermediate_files.

(** A scan stops with an error only if the optimization at one of its points does: storing a
    result and writing a file never fail, and in particular the check of the number of kept
    configurations never fires. *)
Theorem scan_fails_only_by_optimization : forall {F : Type} (o : fops F) (fabs : F -> F) (of_Z : Z -> F) {X : Type}
    (optimize : @multiopt F X -> outcome multiopt) (keep_all : bool) (limits : string -> F) (mo_ref : multiopt) (dims : list dim)
    (n0 nw : nat) (e : env) (n : nat) s,
  shapes optimize mo_ref dims n0 -> 1 <= nw <= n_scan_all dims ->
  scan_steps o fabs of_Z optimize keep_all limits mo_ref dims nw e n (scan_start o mo_ref dims nw) s ->
  scan_step o fabs of_Z optimize keep_all limits mo_ref dims nw e s Fail ->
  exists j, j < n_scan_all dims /\ forall mo, point optimize mo_ref (scan_na mo_ref) dims j <> Ok mo.
Proof. intros. eapply run_fail; eauto. Qed.
Print Assumptions scan_fails_only_by_optimization.

(** With C35: if the optimization succeeds at every point, the scan can always be continued to
    its end. *)
Theorem scan_finishes : forall {F : Type} (o : fops F) (fabs : F -> F) (of_Z : Z -> F) {X : Type}
    (optimize : @multiopt F X -> outcome multiopt) (keep_all : bool) (limits : string -> F) (mo_ref : multiopt) (dims : list dim)
    (n0 nw : nat) (e : env) (n : nat) s,
  shapes optimize mo_ref dims n0 -> 1 <= nw <= n_scan_all dims -> (forall i, buf_stop e i = true) ->
  (forall j, j < n_scan_all dims -> exists mo, point optimize mo_ref (scan_na mo_ref) dims j = Ok mo) ->
  scan_steps o fabs of_Z optimize keep_all limits mo_ref dims nw e n (scan_start o mo_ref dims nw) s ->
  exists m t, scan_steps o fabs of_Z optimize keep_all limits mo_ref dims nw e m s t /\ ended t.
Proof.
  intros F o fabs of_Z X optimize keep_all limits mo_ref dims n0 nw e n s Sh P Hb Hok R.
  assert (Hp : procs_accepted (S nw) (n_scan_all dims) = Ok tt).
  { unfold procs_accepted. destruct (Nat.ltb_spec (S nw) 2); [lia|]. destruct (Nat.ltb_spec (n_scan_all dims) (S nw - 1)); [lia|]. reflexivity. }
  replace nw with (S nw - 1) in R |- * by lia.
  eapply (scan_can_finish (MScan.evaluates o fabs optimize keep_all limits mo_ref dims (scan_na mo_ref)) me_ints me_floats
     (store_result o (scan_na mo_ref)) (save_results o of_Z (scan_na mo_ref) (n_scan_all dims)) (S nw) (n_scan_all dims) e
     (data0 o (scan_na mo_ref) (n_scan_all dims) (S (S nw - 1))) (repeat (memory0 o (scan_na mo_ref)) (S nw - 1)) n s); auto.
  - rewrite repeat_length. reflexivity.
  - intros l j. eexists. exists (fzero o). reflexivity.
  - intros m t Ht Hf. replace (S nw - 1) with nw in * by lia.
    edestruct (run_fail o fabs of_Z optimize keep_all limits mo_ref dims n0 Sh nw e P m t Ht Hf) as (j & Hj & Hn).
    destruct (Hok j Hj) as (mo & E). apply (Hn mo E).
Qed.
Print Assumptions scan_finishes.

(** ** C38 *)

(** Whatever a file says about a list of results, the p-th element of every saved array belongs
    to the p-th kept result: the arrays are aligned, and each holds the quantity its name says. *)
Theorem scan_columns_aligned : forall {F : Type} (o : fops F) (fabs : F -> F) (of_Z : Z -> F) {X : Type}
    (keep_all : bool) (limits : string -> F) (na : nat) (mos : list (@multiopt F X)) out p mo,
  describes o fabs of_Z keep_all limits na mos out ->
  nth_error (filter (acceptable o fabs keep_all limits) mos) p = Some mo ->
  (forall name f, In (name, f) columns -> exists l, lookup (out_floats out) name = Some l /\ nth_error l p = f mo /\
      Z.of_nat (length l) = out_n_scan out) /\
  (forall name f, In (name, f) axis_columns -> exists m, lookup (out_axis out) name = Some m /\
      Z.of_nat (m_ncols m) = out_n_scan out /\
      forall k, k < na -> matrix_get m k p = Ok (match f mo k with Some v => v | None => fzero o end)) /\
  (exists l, lookup (out_ints out) "scan_n_evals" = Some l /\ nth_error l p = Some (mo_n_evals mo)) /\
  (exists l, lookup (out_ints out) "scan_helicity" = Some l /\
     nth_error l p = option_map (fun s => qo_helicity (st_q s)) (last_stage mo)).
Proof.
  intros F o fabs of_Z X keep_all limits na mos out p mo D Hp.
  assert (NM : forall (A : Type) (l : list A) (f : multiopt -> option A),
    map Some l = map f (filter (acceptable o fabs keep_all limits) mos) -> nth_error l p = f mo).
  { intros A l f E. assert (E2 : nth_error (map Some l) p = Some (f mo)) by (rewrite E; rewrite nth_error_map, Hp; reflexivity).
    rewrite nth_error_map in E2. destruct (nth_error l p); cbn in E2; congruence. }
  split; [|split; [|split]].
  - intros name f Hi. destruct (de_columns _ _ _ _ _ _ _ _ D name f Hi) as (l & Hl & E). exists l. split; auto. split; [apply NM; auto|].
    rewrite (de_n_scan _ _ _ _ _ _ _ _ D). unfold count. f_equal. rewrite <- (map_length f). rewrite <- E. rewrite map_length. reflexivity.
  - intros name f Hi. destruct (de_axis _ _ _ _ _ _ _ _ D name f Hi) as (m & Hm & _ & Hc & Hg). exists m. split; auto.
    split; [rewrite (de_n_scan _ _ _ _ _ _ _ _ D); unfold count; congruence|]. intros k Hk. apply Hg; auto.
  - destruct (de_ints _ _ _ _ _ _ _ _ D) as (E & _). eexists; split; [exact E|]. rewrite nth_error_map, Hp. reflexivity.
  - destruct (de_ints _ _ _ _ _ _ _ _ D) as (_ & l & Hl & E). exists l. split; auto.
    apply (NM Z l (fun mo => option_map (fun s => qo_helicity (st_q s)) (last_stage mo)) E).
Qed.
Print Assumptions scan_columns_aligned.

(** ** C39 *)

(** The counters of a file: the number of attempts is the number of results; every result is
    kept or counted as rejected for at least one reason; each reason counts at most the results
    that are not kept. *)
Theorem scan_counters_consistent : forall {F : Type} (o : fops F) (fabs : F -> F) (of_Z : Z -> F) {X : Type}
    (keep_all : bool) (limits : string -> F) (na : nat) (mos : list (@multiopt F X)) out,
  describes o fabs of_Z keep_all limits na mos out ->
  exists attempts rejected,
    lookup (out_counters out) "attempts" = Some attempts /\
    map (fun r => lookup (out_counters out) (fst r)) (requirements o fabs limits) = map Some rejected /\
    attempts = Z.of_nat (length mos) /\
    (0 <= out_n_scan out <= attempts)%Z /\
    (attempts <= out_n_scan out + fold_right Z.add 0 rejected)%Z /\
    Forall (fun r => 0 <= r <= attempts - out_n_scan out)%Z rejected.
Proof.
  intros F o fabs of_Z X keep_all limits na mos out D.
  exists (Z.of_nat (length mos)), (map (fun r => count (falls_short keep_all (snd r)) mos) (requirements o fabs limits)).
  split; [apply (de_attempts _ _ _ _ _ _ _ _ D)|]. split.
  { rewrite map_map. apply map_ext_in. intros [nm f] Hi. apply (de_rejected _ _ _ _ _ _ _ _ D); auto. }
  split; [reflexivity|]. rewrite (de_n_scan _ _ _ _ _ _ _ _ D). unfold count.
  assert (Le : forall f : @multiopt F X -> bool, length (filter f mos) <= length mos).
  { intros f. clear D. induction mos as [|a l IH]; cbn [filter length]; [lia|]. destruct (f a); cbn [length]; lia. }
  split; [specialize (Le (acceptable o fabs keep_all limits)); lia|]. split.
  - clear D Le. induction mos as [|mo l IH]; cbn [filter length].
    + induction (requirements o fabs limits) as [|r l IH]; cbn [map fold_right]; lia.
    + assert (Split : (fold_right Z.add 0 (map (fun r => Z.of_nat (length (if falls_short keep_all (snd r) mo
          then mo :: filter (falls_short keep_all (snd r)) l else filter (falls_short keep_all (snd r)) l))) (requirements o fabs limits))
        = fold_right Z.add 0 (map (fun r => Z.of_nat (length (filter (falls_short keep_all (snd r)) l))) (requirements o fabs limits))
          + Z.of_nat (length (filter (fun r => falls_short keep_all (snd r) mo) (requirements o fabs limits))))%Z).
      { generalize (requirements o fabs limits). intros rs. induction rs as [|r rs IHr]; cbn [map fold_right filter length]; [lia|].
        destruct (falls_short keep_all (snd r) mo); cbn [length]; lia. }
      rewrite Split. clear Split.
      destruct (acceptable o fabs keep_all limits mo) eqn:E; cbn [length]; [lia|].
      assert (length (filter (fun r => falls_short keep_all (snd r) mo) (requirements o fabs limits)) <> 0); [|lia].
      unfold acceptable in E. intros C. apply length_zero_iff_nil in C.
      assert (T : forallb (fun r => negb (falls_short keep_all (snd r) mo)) (requirements o fabs limits) = true); [|congruence].
      apply forallb_forall. intros r Hr. destruct (falls_short keep_all (snd r) mo) eqn:Er; auto.
      assert (In r []) as []. rewrite <- C. apply filter_In. auto.
  - apply Forall_forall. intros x Hx. apply in_map_iff in Hx. destruct Hx as ([nm f] & <- & Hi). cbn [snd].
    clear D Le. induction mos as [|mo l IH]; cbn [filter length]; [lia|].
    destruct (acceptable o fabs keep_all limits mo) eqn:E.
    + assert (Hn : falls_short keep_all f mo = false).
      { unfold acceptable in E. rewrite forallb_forall in E. specialize (E _ Hi). cbn [snd] in E. destruct (falls_short keep_all f mo); [discriminate|auto]. }
      rewrite Hn. cbn [length]. lia.
    + destruct (falls_short keep_all f mo); cbn [length]; lia.
Qed.
Print Assumptions scan_counters_consistent.

(** ** C40 *)

(** The optimization at point j starts from the configuration of the input file in which, in
    every stage and for every input of the stage, the value is that of the last scanned
    parameter with that name and stage (or stage -1), at the grid value of point j, and the one
    of the input file if there is none. *)
Theorem scan_sets_parameters : forall {F X : Type} (optimize : @multiopt F X -> outcome (@multiopt F X))
    (mo_ref : multiopt) (dims : list dim) j mo',
  point optimize mo_ref (scan_na mo_ref) dims j = Ok mo' ->
  exists mo, optimize mo = Ok mo' /\
    length (mo_opts mo) = length (mo_opts mo_ref) /\ mo_n_evals mo = mo_n_evals mo_ref /\
    forall k s, nth_error (mo_opts mo_ref) k = Some s ->
      exists s', nth_error (mo_opts mo) k = Some s' /\ rest_same s s' /\
        forall t, wanted dims (decode (map (fun d => length (d_vals d)) dims) j) k t (reading s t) (reading s' t).
Proof.
  intros F X optimize mo_ref dims j mo' H. unfold point in H.
  destruct (set_dims _ _ _ _) as [mo| |] eqn:E; cbn [bind] in H; try discriminate. exists mo. split; auto.
  eapply set_dims_ok; eauto. unfold decode. rewrite rev_length.
  assert (L : forall l j, length (decode_rev l j) = length l) by (induction l; intros; cbn; auto).
  rewrite L, rev_length, map_length. reflexivity.
Qed.
Print Assumptions scan_sets_parameters.

(** Such a description determines the value. *)
Theorem scan_wanted_unique : forall {F : Type} (dims : list (@dim F)) idx k t v0 v v',
  wanted dims idx k t v0 v -> wanted dims idx k t v0 v' -> v = v'.
Proof.
  intros F dims idx k t v0 v v' H. revert v'. induction H; intros v' H'; inversion H'; subst; auto; try tauto.
  apply IHwanted. replace (Some val) with (Some val0) by congruence. auto.
Qed.
Print Assumptions scan_wanted_unique.

(** The parameters the scan accepts can be set at every point of the grid. *)
Theorem scan_accepts_parameters : forall {F X : Type} (mo_ref : @multiopt F X) (dims : list dim) j,
  mo_opts mo_ref <> [] -> Forall (dim_ok mo_ref) dims -> j < n_scan_all dims ->
  (forall s, nth_error (mo_opts mo_ref) 0 = Some s -> length (qo_Z0s (st_q s)) = length (qo_R0c (st_q s))) ->
  exists mo, set_dims (scan_na mo_ref) dims (decode (map (fun d => length (d_vals d)) dims) j) mo_ref = Ok mo.
Proof.
  intros F X mo_ref dims j Hne Hd Hj HZ.
  assert (Hs : Forall (fun n => n <> 0) (map (fun d => length (d_vals d)) dims)).
  { unfold n_scan_all in Hj. revert Hj. generalize (map (fun d : dim => length (d_vals d)) dims). intros l.
    assert (G : forall l, 0 < fold_right Nat.mul 1 l -> Forall (fun n => n <> 0) l).
    { induction l0 as [|a l0 IH]; intros H; cbn [fold_right] in H; constructor; [destruct a; lia|apply IH]. destruct (fold_right Nat.mul 1 l0); lia. }
    intros H. apply G. lia. }
  assert (G := decode_spec _ _ Hs Hj). destruct G as (G & _).
  apply set_dims_run; auto.
  - unfold grid_point in G. revert G. generalize (decode (map (fun d => length (d_vals d)) dims) j). clear. induction dims as [|d dims IH]; intros idx G; inversion G; subst; constructor; auto.
  - intros d t n Hi Hm Ht. rewrite Forall_forall in Hd. destruct (Hd d Hi) as (Hst & t' & Hm' & Ht').
    rewrite (means_fun _ _ _ Hm' Hm) in Ht'. unfold scan_na, axis_nmax_plus_1.
    destruct (mo_opts mo_ref) as [|s0 rest] eqn:E.
    + congruence.
    + assert (Ge : forall l a, a <= fold_left (fun n (s : @stage F X) => n + st_fourier_refine s) l a).
      { induction l as [|s l IH]; intros a; cbn [fold_left]; [lia|]. specialize (IH (a + st_fourier_refine s)). lia. }
      specialize (Ge (s0 :: rest) (length (qo_R0c (st_q s0)))).
      destruct Ht as [->| ->]; destruct Ht' as (_ & H); specialize (H s0 eq_refl); specialize (HZ s0 eq_refl); lia.
Qed.
Print Assumptions scan_accepts_parameters.

(** A parameter with a name that stands for nothing is refused: the first point stops with an
    error. *)
Theorem scan_unknown_parameter : forall {F X : Type} (mo_ref : @multiopt F X) (dims1 dims2 : list dim) d idx1 i idx2 mo1,
  length idx1 = length dims1 -> set_dims (scan_na mo_ref) dims1 idx1 mo_ref = Ok mo1 ->
  (forall t, ~ means (d_name d) t) -> i < length (d_vals d) ->
  0 < length (mo_opts mo_ref) -> (d_stage d < Z.of_nat (length (mo_opts mo_ref)))%Z ->
  set_dims (scan_na mo_ref) (dims1 ++ d :: dims2) (idx1 ++ i :: idx2) mo_ref = Throw "Unrecognized entry in params".
Proof.
  intros F X mo_ref dims1 dims2 d idx1 i idx2 mo1 L H1 Hn Hi Hs Hd.
  generalize dependent (scan_na mo_ref). intros na H1.
  destruct (set_dims_ok na dims1 idx1 mo_ref mo1 L H1) as (Lm & _).
  assert (App : forall l1 x1 (m : @multiopt F X), length x1 = length l1 ->
    set_dims na (l1 ++ d :: dims2) (x1 ++ i :: idx2) m = do m' <- set_dims na l1 x1 m; set_dims na (d :: dims2) (i :: idx2) m').
  { induction l1 as [|a l1 IH]; intros [|b x1] m E; try discriminate; cbn [app set_dims bind]; [reflexivity|].
    destruct (set_dim na a b m); cbn [bind]; auto. }
  rewrite App by auto. rewrite H1. cbn [bind set_dims]. unfold set_dim.
  destruct (nth_error (d_vals d) i) as [v|] eqn:Ev; [|apply nth_error_None in Ev; lia].
  rewrite (aget_nth_error _ _ _ Ev). cbn [bind]. unfold stage_range.
  destruct (Z.ltb_spec (d_stage d) 0).
  - destruct (length (mo_opts mo1)) as [|n] eqn:En; [lia|]. cbn [for_from]. rewrite set_param_unknown by auto. reflexivity.
  - cbn [for_from]. rewrite set_param_unknown by auto. reflexivity.
Qed.
Print Assumptions scan_unknown_parameter.

(** Findings.  An axis amplitude that the final axis shapes have but the initial one has not
    (because of Fourier refinement) can be scanned without any check, and is written outside
    the array. *)
Theorem scan_axis_mode_checked_refuted :
  exists (mo_ref : @multiopt spec_float unit) (d : dim) (n : nat),
    means (d_name d) (TR0c n) /\ n < scan_na mo_ref /\ d_stage d = 0%Z /\
    exists msg, set_dims (scan_na mo_ref) [d] [0] mo_ref = UB msg.
Proof.
  exists (mkMO [mkStage (fun _ => d_of_Z 0) (mkQo (fun _ => d_of_Z 1) 0%Z [d_of_Z 1] [d_of_Z 0] [d_of_Z 0] [d_of_Z 0])
           (fun _ => []) (fun _ => mkMatrix 0 0 0 []) 1 tt] 0%Z).
  exists (mkDim "R0c1" [d_of_Z 1; d_of_Z 2] 0%Z), 1. split; [apply (means_R0c 1); lia|].
  split; [vm_compute; lia|]. split; [reflexivity|]. eexists. reflexivity.
Qed.
Print Assumptions scan_axis_mode_checked_refuted.

(** A stage number that does not exist is not refused either. *)
Theorem scan_stage_checked_refuted :
  exists (mo_ref : @multiopt spec_float unit) (d : dim) msg,
    means (d_name d) (TOpt "weight_B20") /\ d_stage d = Z.of_nat (length (mo_opts mo_ref)) /\
    set_dims (scan_na mo_ref) [d] [0] mo_ref = UB msg.
Proof.
  exists (mkMO [mkStage (fun _ => d_of_Z 0) (mkQo (fun _ => d_of_Z 1) 0%Z [d_of_Z 1] [d_of_Z 0] [d_of_Z 0] [d_of_Z 0])
           (fun _ => []) (fun _ => mkMatrix 0 0 0 []) 0 tt] 0%Z).
  exists (mkDim "weight_B20" [d_of_Z 1; d_of_Z 2] 1%Z). eexists.
  split; [apply means_opt; cbn; tauto|]. split; reflexivity.
Qed.
Print Assumptions scan_stage_checked_refuted.

(** The saved weights are those of the last stage.  A weight scanned in an earlier stage does
    not appear in the file: two points that differ only in it can have the same entry in every
    array. *)
Theorem scan_weight_recorded_refuted :
  exists (optimize : @multiopt spec_float unit -> outcome multiopt) (mo_ref : multiopt) (d : dim) mo0 mo1,
    Forall (dim_ok mo_ref) [d] /\ shapes optimize mo_ref [d] 1 /\
    point optimize mo_ref (scan_na mo_ref) [d] 0 = Ok mo0 /\ point optimize mo_ref (scan_na mo_ref) [d] 1 = Ok mo1 /\
    nth_error (d_vals d) 0 <> nth_error (d_vals d) 1 /\
    (forall name f, In (name, f) columns -> f mo0 = f mo1) /\
    (forall name f k, In (name, f) axis_columns -> f mo0 k = f mo1 k).
Proof.
  pose (q := mkQo (fun _ : string => d_of_Z 1) 0%Z [d_of_Z 1] [d_of_Z 0] [d_of_Z 0] [d_of_Z 0]).
  pose (st := mkStage (fun _ => d_of_Z 0) q (fun _ => [d_of_Z 1]) (fun _ => mkMatrix 1 1 1 [d_of_Z 1]) 0 tt).
  exists (fun mo => Ok mo), (mkMO [st; st] 0%Z), (mkDim "weight_B20" [d_of_Z 1; d_of_Z 2] 0%Z). eexists. eexists.
  split. { constructor; [|constructor]. split; [cbn; lia|]. exists (TOpt "weight_B20"). split; [apply means_opt; cbn; tauto|exact I]. }
  split.
  { intros idx mo mo' H E. injection E as <-.
    assert (Rd : exists i, set_dims (scan_na (mkMO [st; st] 0%Z)) [mkDim "weight_B20" [d_of_Z 1; d_of_Z 2] 0%Z] [i] (mkMO [st; st] 0%Z) = Ok mo \/ mo = mkMO [st; st] 0%Z).
    { destruct idx as [|i idx]; [exists 0; right; cbn in H; congruence|]. exists i. left. destruct idx; exact H. }
    assert (Sh : forall s1 s2 : @stage spec_float unit, length (qo_R0c (st_q s1)) = 1 -> st_iter s1 = st_iter st -> st_iter_axis s1 = st_iter_axis st -> st_q s2 = q ->
       shaped (scan_na (mkMO [st; st] 0%Z)) 1 (mkMO [s1; s2] 0%Z)).
    { intros s1 s2 E0 E1 E2 E3. constructor; [cbn; lia| |].
      - exists s2. cbn. rewrite E3. cbn. repeat split; reflexivity.
      - exists s1. split; [reflexivity|]. split; [auto|]. rewrite E1, E2. cbn [st st_iter st_iter_axis m_data length].
        split; [discriminate|]. intros; lia. }
    destruct Rd as (i & [Hs|E]).
    - destruct i as [|[|i]]; vm_compute in Hs; [injection Hs as <-; apply Sh; reflexivity|injection Hs as <-; apply Sh; reflexivity|].
      exfalso. destruct i; discriminate Hs.
    - subst mo. apply Sh; reflexivity. }
  split; [reflexivity|]. split; [reflexivity|]. split; [vm_compute; discriminate|]. split.
  - intros name f Hi. unfold columns, named in Hi. cbn [map app] in Hi. cbn [In] in Hi.
    repeat (destruct Hi as [Hi|Hi]; [injection Hi as <- <-; reflexivity|]). destruct Hi.
  - intros name f k Hi. unfold axis_columns in Hi. cbn [In] in Hi.
    repeat (destruct Hi as [Hi|Hi]; [injection Hi as <- <-; reflexivity|]). destruct Hi.
Qed.
Print Assumptions scan_weight_recorded_refuted.

(** ** An example *)
(** Two stages; "eta_bar" of the first stage takes the values 1 and 2, "weight_B20" of all
    stages the values 3, 4 and 5.  The optimization passes the configuration of the first stage
    to the second one and finds an iota equal to eta_bar.  Configurations with |iota| < 2 are
    not kept. *)
Module Ex.
Definition q0 := mkQo (fun _ : string => d_of_Z 1) 0%Z [d_of_Z 1; d_of_Z 7] [d_of_Z 0; d_of_Z 0] [d_of_Z 0; d_of_Z 0] [d_of_Z 0; d_of_Z 6].
Definition st0 := mkStage (fun _ => d_of_Z 0) q0 (fun _ => [d_of_Z 9]) (fun _ => mkMatrix 2 1 2 [d_of_Z 8; d_of_Z 9]) 0 tt.
Definition ref := mkMO [st0; st0] 0%Z.
Definition dims := [mkDim "eta_bar" [d_of_Z 1; d_of_Z 2] 0%Z; mkDim "weight_B20" [d_of_Z 3; d_of_Z 4; d_of_Z 5] (-1)%Z].
Definition optimize (mo : @multiopt spec_float unit) : outcome multiopt :=
  match mo_opts mo with
  | [s1; s2] => let q := set_q_num "iota" (qo_num (st_q s1) "eta_bar") (st_q s1) in
                Ok (mkMO [set_st_q q s1; set_st_q q s2] 5%Z)
  | _ => Throw "two stages expected"
  end.
Definition limits (m : string) : spec_float :=
  if String.eqb m "min_iota_to_keep" then d_of_Z 2
  else if String.eqb (substring 0 3 m) "max" then d_of_Z 100 else d_of_Z (-100).

Lemma na_ex : scan_na ref = 2. Proof. reflexivity. Qed.
Definition two (mo : @multiopt spec_float unit) : Prop :=
  exists s1 s2, mo_opts mo = [s1; s2] /\ length (qo_R0c (st_q s1)) = 2 /\ length (qo_R0s (st_q s1)) = 2
    /\ length (qo_Z0c (st_q s1)) = 2 /\ length (qo_Z0s (st_q s1)) = 2
    /\ st_iter s1 = st_iter st0 /\ st_iter_axis s1 = st_iter_axis st0.
Lemma shapes_ex : shapes optimize ref dims 2.
Proof.
  intros idx mo mo' H E. rewrite na_ex in *.
  assert (L : two mo).
  { assert (G : forall ds ix m m', set_dims 2 ds ix m = Ok m' -> length ix = length ds ->
        (two m) ->
        two m').
    { intros ds ix m m' Hs Lx (s1 & s2 & Eo & L1 & L2 & L3 & L4 & L5 & L6).
      destruct (set_dims_ok 2 ds ix m m' Lx Hs) as (Lo & _ & K). rewrite Eo in *. cbn [length] in Lo.
      destruct (K 0 s1 eq_refl) as (s1' & E1 & (R1 & R2 & R3 & R4 & R5 & R6 & R7 & R8 & R9) & _).
      destruct (mo_opts m') as [|a [|b [|c r]]] eqn:Em; try discriminate Lo. injection E1 as <-. exists a, b.
      rewrite R1, R2, R6, R7, R8, R9. split; [exact Em|]. auto 10. }
    assert (Ref : two ref)
      by (exists st0, st0; repeat split; reflexivity).
    unfold dims in H. destruct idx as [|i [|j r]].
    - cbn in H. injection H as <-. exact Ref.
    - apply (G [mkDim "eta_bar" [d_of_Z 1; d_of_Z 2] 0%Z] [i] ref mo); auto.
    - apply (G dims [i; j] ref mo); auto. }
  destruct L as (s1 & s2 & Eo & L1 & L2 & L3 & L4 & L5 & L6). unfold optimize in E. rewrite Eo in E. injection E as <-.
  constructor; [lia| |].
  - eexists. split; [reflexivity|]. cbn. auto.
  - eexists. split; [reflexivity|]. cbn [set_st_q st_q set_q_num qo_R0c st_iter st_iter_axis]. split; [exact L1|]. rewrite L5, L6. cbn. split; intros; [discriminate|lia].
Qed.

Example scan_example : let e := mkEnv Nat.even (fun _ => true) Nat.odd Nat.even in
  Forall (dim_ok ref) dims /\
  exists n s out,
    scan_steps D_ops SFabs d_of_Z optimize false limits ref dims 3 e n (scan_start D_ops ref dims 3) s /\ ended s /\
    scan_output D_ops d_of_Z ref dims s = Ok out /\
    out_n_scan out = 3%Z /\
    lookup (out_counters out) "attempts" = Some 6%Z /\ lookup (out_counters out) "rejected_due_to_iota" = Some 3%Z /\
    lookup (out_floats out) "scan_weight_B20" = Some [d_of_Z 3; d_of_Z 4; d_of_Z 5] /\
    lookup (out_floats out) "scan_eta_bar" = Some [d_of_Z 2; d_of_Z 2; d_of_Z 2].
Proof.
  intros e. split.
  { constructor; [|constructor; [|constructor]]; (split; [cbn; lia|]).
    - exists (TQ "eta_bar"). split; [apply means_q; cbn; tauto|left; reflexivity].
    - exists (TOpt "weight_B20"). split; [apply means_opt; cbn; tauto|exact I]. }
  assert (Pt : forall j, j < n_scan_all dims -> exists mo, point optimize ref (scan_na ref) dims j = Ok mo).
  { intros j Hj. change (n_scan_all dims) with 6 in Hj. do 6 (destruct j as [|j]; [eexists; reflexivity|]). lia. }
  assert (P : 1 <= 3 <= n_scan_all dims) by (cbn; lia).
  destruct (scan_finishes D_ops SFabs d_of_Z optimize false limits ref dims 2 3 e 0 _ shapes_ex P (fun _ => eq_refl) Pt (steps0 _ _ _ _ _ _ _ _ _)) as (n & s & R & He).
  destruct (scan_output_schedule_independent D_ops SFabs d_of_Z optimize false limits ref dims 2 3 3 e e n n s s shapes_ex P P R He R He)
    as (mos & out & Rs & D & Eo & _).
  exists n, s, out. split; [exact R|]. split; [exact He|]. split; [exact Eo|].
  unfold results_at in Rs. change (n_scan_all dims) with 6 in Rs. cbn [seq] in Rs.
  assert (Em : map (fun j => point optimize ref (scan_na ref) dims j) (seq 0 6) = map (fun x => Ok x) mos).
  { cbn [seq]. clear -Rs. induction Rs; cbn [map]; congruence. }
  rewrite (de_n_scan _ _ _ _ _ _ _ _ D).
  rewrite (de_attempts _ _ _ _ _ _ _ _ D).
  rewrite (de_rejected _ _ _ _ _ _ _ _ D "rejected_due_to_iota"%string (fun q => flt D_ops (SFabs (qo_num q "iota")) (limits "min_iota_to_keep"))) by (cbn; tauto).
  destruct (de_columns _ _ _ _ _ _ _ _ D "scan_weight_B20"%string (opt_of_last "weight_B20")) as (l1 & -> & E1); [unfold columns, named; cbn [map app]; cbn; tauto|].
  destruct (de_columns _ _ _ _ _ _ _ _ D "scan_eta_bar"%string (q_of_last "eta_bar")) as (l2 & -> & E2); [unfold columns, named; cbn [map app]; cbn; tauto|].
  assert (Lm : forall f : @multiopt spec_float unit -> bool, Z.of_nat (length (filter f mos)) = count f mos) by reflexivity.
  destruct mos as [|m0 [|m1 [|m2 [|m3 [|m4 [|m5 [|m6 ms]]]]]]]; try discriminate Em.
  cbn [map seq] in Em. injection Em as H0 H1 H2 H3 H4 H5.
  vm_compute in H0, H1, H2, H3, H4, H5. subst m0 m1 m2 m3 m4 m5.
  vm_compute in E1, E2.
  split; [vm_compute; reflexivity|]. split; [reflexivity|]. split; [vm_compute; reflexivity|].
  split.
  - destruct l1 as [|a [|b [|c [|? ?]]]]; cbn [map] in E1; try discriminate E1. injection E1 as -> -> ->. reflexivity.
  - destruct l2 as [|a [|b [|c [|? ?]]]]; cbn [map] in E2; try discriminate E2. injection E2 as -> -> ->. reflexivity.
Qed.
End Ex.
