(** Properties of the random scan of one process (C23-C26, C62).  See Scan.v (model) and
    ScanSpec.v (vocabulary). *)
From Coq Require Import String ZArith List Bool Arith Lia Reals Lra SpecFloat.
From Verif Require Import Base BaseFacts FloatOps Tensor TensorFacts NewtonFacts Scan ScanSpec ScanFacts.
Import ListNotations.
Local Open Scope list_scope.
Local Open Scope nat_scope.

Section P.
Context {F : Type} (o : fops F) (fabs : F -> F) {G X : Type}.
Variable pick : G -> sample F -> sample F * G.
Variable ph : @physics F X.
Variable cfg : @settings F.
Variable na : nat.
Hypothesis pick_sized : forall g s, sized na (fst (pick g s)).
Hypothesis keep1 : 1 <= max_keep_per_proc cfg.
Notation RUN := (run o fabs pick ph cfg na).

(** C23/C24 (general form).  Every report - at every intermediate save and at the end - is a
    true account of the attempts made up to then: each attempt is counted once, either under
    a requirement it really falls short of, or as kept, in which case it falls short of none
    and its column in the buffers holds its own data. *)
Theorem scan_reports_are_true g q start clock p ended :
  RUN g q start clock = Ok (p, ended) ->
  Forall (justified o fabs cfg) (p_log p)
  /\ (forall sn, In sn (p_saves p) -> exists newer older, p_log p = newer ++ older /\ true_account cfg na older sn)
  /\ (ended = true -> exists sn rest, p_saves p = sn :: rest /\ true_account cfg na (p_log p) sn).
Proof.
  intros H. destruct (run_inv o fabs pick ph cfg na pick_sized _ _ _ _ _ _ keep1 H) as [I E].
  split; [apply I|split; [apply I|auto]].
Qed.

Lemma count_log (l : list (@qsc F X * option nat)) :
  Forall (justified o fabs cfg) l ->
  length l = length (kept l) + list_sum (map (fun k => rejected k l) (seq 2 13))
  /\ reached_sigma l + (rejected 2 l + rejected 3 l + rejected 4 l + rejected 5 l) = length l
  /\ reached_r2 l + (rejected 6 l + rejected 7 l + rejected 8 l) = reached_sigma l.
Proof.
  induction 1 as [|[q v] l Hv Hl IH]; [repeat split|].
  destruct IH as (IH1 & IH2 & IH3).
  assert (K : length (kept ((q, v) :: l)) = (match v with None => 1 | Some _ => 0 end) + length (kept l)).
  { unfold kept. rewrite !rev_length, !map_length. destruct v; reflexivity. }
  assert (Rj : forall k, rejected k ((q, v) :: l) = (match v with Some k' => if k' =? k then 1 else 0 | None => 0 end) + rejected k l).
  { intros k. unfold rejected. cbn [filter snd]. destruct v as [v|]; [destruct (v =? k)|]; reflexivity. }
  assert (S1 : reached_sigma ((q, v) :: l) = (match v with Some k' => if 6 <=? k' then 1 else 0 | None => 1 end) + reached_sigma l).
  { unfold reached_sigma. cbn [filter snd]. destruct v as [v|]; [destruct (6 <=? v)|]; reflexivity. }
  assert (S2 : reached_r2 ((q, v) :: l) = (match v with Some k' => if 9 <=? k' then 1 else 0 | None => 1 end) + reached_r2 l).
  { unfold reached_r2. cbn [filter snd]. destruct v as [v|]; [destruct (9 <=? v)|]; reflexivity. }
  rewrite K, S1, S2. cbn [map seq list_sum fold_right length] in *. rewrite !Rj.
  destruct v as [v|].
  - pose proof (violates_range o fabs cfg v q Hv).
    do 15 (destruct v as [|v]; [first [lia | cbn [Nat.eqb Nat.leb]; lia]|]). lia.
  - cbv iota. lia.
Qed.

(** C23.  In every report, attempts = kept + the sum of the rejection counters. *)
Theorem scan_counters_balance g q start clock p ended sn :
  RUN g q start clock = Ok (p, ended) -> In sn (p_saves p) ->
  nth ATTEMPTS (sn_filters sn) 0 =
    nth KEPT (sn_filters sn) 0
    + list_sum (map (fun k => nth k (sn_filters sn) 0)
        [ REJECTED_DUE_TO_R0_CRUDE; REJECTED_DUE_TO_R0; REJECTED_DUE_TO_HELICITY; REJECTED_DUE_TO_CURVATURE;
          REJECTED_DUE_TO_IOTA; REJECTED_DUE_TO_ELONGATION; REJECTED_DUE_TO_L_GRAD_B;
          REJECTED_DUE_TO_B20_VARIATION; REJECTED_DUE_TO_L_GRAD_GRAD_B; REJECTED_DUE_TO_D2_VOLUME_D_PSI2;
          REJECTED_DUE_TO_DMERC; REJECTED_DUE_TO_R_SINGULARITY; REJECTED_DUE_TO_BETA ])
  /\ nth KEPT (sn_filters sn) 0 = sn_j_scan sn.
Proof.
  intros H Hin. destruct (scan_reports_are_true _ _ _ _ _ _ H) as (HJ & HS & _).
  destruct (HS sn Hin) as (nw & od & E & ((Hl & H0 & Hk & _) & H1 & HjS & _)).
  rewrite E in HJ. apply Forall_app in HJ. destruct HJ as [_ HJ].
  destruct (count_log od HJ) as (C & _). unfold ATTEMPTS, KEPT. rewrite H0, H1, HjS. split; [|reflexivity].
  rewrite C. f_equal. cbn [map seq]. rewrite <- !Hk by lia. reflexivity.
Qed.

(** C26.  The solve counters: the sigma equation was solved once for each attempt that passed
    the checks on the axis, the second-order equations once for each that also passed the
    first-order checks (never, in a first-order scan). *)
Theorem scan_solve_counters g q start clock p ended sn :
  RUN g q start clock = Ok (p, ended) -> In sn (p_saves p) ->
  let f k := nth k (sn_filters sn) 0 in
  f N_SIGMA_EQ_SOLVES + (f REJECTED_DUE_TO_R0_CRUDE + f REJECTED_DUE_TO_R0 + f REJECTED_DUE_TO_HELICITY
                         + f REJECTED_DUE_TO_CURVATURE) = f ATTEMPTS
  /\ (at_least_order_r2 cfg = true ->
      f N_R2_SOLVES + (f REJECTED_DUE_TO_IOTA + f REJECTED_DUE_TO_ELONGATION + f REJECTED_DUE_TO_L_GRAD_B)
      = f N_SIGMA_EQ_SOLVES)
  /\ (at_least_order_r2 cfg = false -> f N_R2_SOLVES = 0).
Proof.
  intros H Hin f. destruct (scan_reports_are_true _ _ _ _ _ _ H) as (HJ & HS & _).
  destruct (HS sn Hin) as (nw & od & E & ((Hl & H0 & Hk & H15 & H16) & _)).
  rewrite E in HJ. apply Forall_app in HJ. destruct HJ as [_ HJ].
  destruct (count_log od HJ) as (_ & C2 & C3). unfold f.
  unfold N_SIGMA_EQ_SOLVES, REJECTED_DUE_TO_R0_CRUDE, REJECTED_DUE_TO_R0, REJECTED_DUE_TO_HELICITY,
    REJECTED_DUE_TO_CURVATURE, N_R2_SOLVES, REJECTED_DUE_TO_IOTA, REJECTED_DUE_TO_ELONGATION,
    REJECTED_DUE_TO_L_GRAD_B, ATTEMPTS. rewrite H0, H15, H16, !Hk by lia.
  split; [lia|split; intros ->; lia].
Qed.

(** Entries of the flat buffers. *)
Lemma flat_map_nth {A B} (f : A -> list B) n (l : list A) j i a d :
  (forall x, In x l -> length (f x) = n) -> nth_error l j = Some a -> i < n ->
  nth (i + n * j) (flat_map f l) d = nth i (f a) d.
Proof.
  revert j; induction l as [|x l IH]; intros j Hl Hj Hi; [destruct j; discriminate|].
  destruct j as [|j]; simpl in Hj.
  - injection Hj as ->. simpl. rewrite app_nth1 by (rewrite Hl; simpl; auto; lia). f_equal; lia.
  - simpl. rewrite app_nth2 by (rewrite Hl; simpl; auto; nia).
    rewrite Hl by (simpl; auto). replace (i + n * S j - n) with (i + n * j) by nia.
    apply IH; auto. intros; apply Hl; simpl; auto.
Qed.
Lemma firstn_nth {A} (l : list A) n k d : k < n -> nth k (firstn n l) d = nth k l d.
Proof. revert n k; induction l; intros [|n] [|k] H; simpl; auto; try lia. apply IHl; lia. Qed.

Theorem scan_column g q start clock p ended sn j :
  RUN g q start clock = Ok (p, ended) -> In sn (p_saves p) -> j < sn_j_scan sn ->
  exists c, In (c, None) (p_log p) /\ (forall k, ~ violates o fabs cfg k c)
    /\ (forall i, i < 20 -> nth (i + 20 * j) (m_data (b_params (sn_buf sn))) (fzero o) = nth i (params_of c) (fzero o))
    /\ (forall i, i < na * 4 -> nth (i + (na * 4) * j) (m_data (b_fourier (sn_buf sn))) (fzero o)
                               = nth i (fourier_of (q_in c)) (fzero o))
    /\ nth j (b_int (sn_buf sn)) 0%Z = q_helicity c.
Proof.
  intros H Hin Hj. destruct (scan_reports_are_true _ _ _ _ _ _ H) as (HJ & HS & _).
  destruct (HS sn Hin) as (nw & od & E & (_ & _ & HjS & (Bp & Bf & Bi & Bs))).
  rewrite HjS in Hj.
  destruct (nth_error (kept od) j) as [c|] eqn:Ec; [|apply nth_error_None in Ec; lia].
  exists c. pose proof (nth_error_In _ _ Ec) as Hc.
  assert (HinL : In (c, None) od).
  { unfold kept in Hc. apply in_rev in Hc. apply in_map_iff in Hc. destruct Hc as ([c' v] & E1 & E2).
    apply filter_In in E2. destruct E2 as [E2 E3]. simpl in *. subst c'. destruct v; [discriminate|auto]. }
  assert (HinP : In (c, None) (p_log p)) by (rewrite E; apply in_or_app; auto).
  split; [auto|split; [|split; [|split]]].
  - rewrite Forall_forall in HJ. apply (HJ _ HinP).
  - intros i Hi. rewrite <- (firstn_nth _ (20 * length (kept od))) by nia. rewrite Bp.
    apply flat_map_nth; auto.
  - intros i Hi. rewrite <- (firstn_nth _ ((na * 4) * length (kept od))) by nia. rewrite Bf.
    apply (flat_map_nth (fun q => fourier_of (q_in q))); auto.
    intros x Hx. apply fourier_of_length; auto.
  - rewrite <- (firstn_nth _ (length (kept od))) by lia. rewrite Bi.
    apply nth_error_nth. rewrite nth_error_map, Ec. reflexivity.
Qed.

(** C24.  Every kept configuration, as stored, meets every requested limit - in the sense of
    the comparisons the program makes (so, in floating point, "is not below the minimum"). *)
Theorem scan_kept_meets_limits g q start clock p ended sn j :
  RUN g q start clock = Ok (p, ended) -> In sn (p_saves p) -> j < sn_j_scan sn ->
  let v i := nth (i + 20 * j) (m_data (b_params (sn_buf sn))) (fzero o) in
  let h := nth j (b_int (sn_buf sn)) 0%Z in
  let R0c := map (fun i => nth (i + (na * 4) * j) (m_data (b_fourier (sn_buf sn))) (fzero o)) (seq 0 na) in
  fle o (vsum o R0c) (fzero o) = false /\ fle o (R_at_half_period o R0c) (fzero o) = false /\
  (keep_all cfg = false ->
    flt o (v 6) (min_R0_to_keep cfg) = false
    /\ (helicity_to_keep cfg = 0%Z -> h = 0%Z) /\ (helicity_to_keep cfg = 1%Z -> h = 1%Z \/ h = (-1)%Z)
    /\ flt o (fdiv o (fone o) (v 7)) (min_L_grad_B_to_keep cfg) = false
    /\ flt o (fabs (v 8)) (min_iota_to_keep cfg) = false
    /\ flt o (max_elongation_to_keep cfg) (v 9) = false
    /\ flt o (v 10) (min_L_grad_B_to_keep cfg) = false
    /\ (at_least_order_r2 cfg = true ->
        flt o (v 11) (min_L_grad_grad_B_to_keep cfg) = false
        /\ flt o (v 12) (min_r_singularity_to_keep cfg) = false
        /\ flt o (max_d2_volume_d_psi2_to_keep cfg) (v 13) = false
        /\ flt o (v 14) (min_DMerc_times_r2_to_keep cfg) = false
        /\ flt o (max_B20_variation_to_keep cfg) (v 15) = false
        /\ flt o (v 19) (min_beta_to_keep cfg) = false)).
Proof.
  intros H Hin Hj v h R0c.
  destruct (scan_column _ _ _ _ _ _ _ _ H Hin Hj) as (c & HinP & Hv & Hp & Hf & Hh).
  assert (Hsz : sized na (q_in c)).
  { destruct (scan_reports_are_true _ _ _ _ _ _ H) as (HJ & HS & _).
    destruct (run_inv o fabs pick ph cfg na pick_sized _ _ _ _ _ _ keep1 H) as [I _].
    destruct I as [_ _ _ (_ & _ & _ & Bs) _ _ _ _]. apply Bs. unfold kept. apply -> in_rev.
    apply in_map_iff. exists (c, None). split; [auto|]. apply filter_In. auto. }
  assert (ER : R0c = s_R0c (q_in c)).
  { unfold R0c. destruct Hsz as (Hs1 & _). apply nth_ext with (d := fzero o) (d' := fzero o).
    - rewrite map_length, seq_length. auto.
    - intros i Hi. rewrite map_length, seq_length in Hi.
      rewrite nth_indep with (d' := nth (0 + (na * 4) * j) (m_data (b_fourier (sn_buf sn))) (fzero o))
        by (rewrite map_length, seq_length; auto).
      rewrite (map_nth (fun i => nth (i + (na * 4) * j) (m_data (b_fourier (sn_buf sn))) (fzero o))).
      rewrite seq_nth by auto. rewrite Hf by lia. unfold fourier_of. rewrite app_nth1 by lia. reflexivity. }
  rewrite ER. unfold v, h. rewrite !Hp by lia. rewrite Hh. cbn [params_of nth].
  pose proof (Hv 2) as V2. simpl in V2.
  assert (B : forall b : bool, b <> true -> b = false) by (intros []; congruence).
  split; [apply B; tauto|split; [apply B; tauto|]]. intros Hk.
  pose proof (Hv 3) as V3; pose proof (Hv 4) as V4; pose proof (Hv 5) as V5; pose proof (Hv 6) as V6;
  pose proof (Hv 7) as V7; pose proof (Hv 8) as V8; pose proof (Hv 9) as V9; pose proof (Hv 10) as V10;
  pose proof (Hv 11) as V11; pose proof (Hv 12) as V12; pose proof (Hv 13) as V13; pose proof (Hv 14) as V14.
  unfold violates in V3, V4, V5, V6, V7, V8, V9, V10, V11, V12, V13, V14.
  repeat split.
  - apply B; intros E; apply V3; auto.
  - intros E. destruct (Z.eq_dec (q_helicity c) 0); auto. exfalso; apply V4; auto.
  - intros E. destruct (Z.eq_dec (q_helicity c) 1); auto. destruct (Z.eq_dec (q_helicity c) (-1)); auto.
    exfalso; apply V4; auto.
  - apply B; intros E; apply V5; auto.
  - apply B; intros E; apply V6; auto.
  - apply B; intros E; apply V7; auto.
  - apply B; intros E; apply V8; auto.
  - apply B; intros E; apply V10; auto.
  - apply B; intros E; apply V13; auto.
  - apply B; intros E; apply V11; auto.
  - apply B; intros E; apply V12; auto.
  - apply B; intros E; apply V9; auto.
  - apply B; intros E; apply V14; auto.
Qed.

(** C25.  A scan never writes outside its buffers, and never keeps more than was asked for. *)
Theorem scan_storage_safe g q start clock :
  (forall x, no_ub (ph_init_axis ph x)) -> (forall x, no_ub (ph_solve_sigma ph x)) ->
  (forall x, no_ub (ph_r1_diagnostics ph x)) -> (forall x, no_ub (ph_calculate_r2 ph x)) ->
  (forall x, no_ub (ph_mercier ph x)) -> (forall x, no_ub (ph_grad_grad_B ph x)) ->
  (forall x, no_ub (ph_r_singularity ph x)) ->
  no_ub (RUN g q start clock)
  /\ forall p ended sn, RUN g q start clock = Ok (p, ended) -> In sn (p_saves p) ->
       sn_j_scan sn <= max_keep_per_proc cfg.
Proof.
  intros. split.
  - apply run_safe; auto. repeat split; auto.
  - intros p ended sn Hr Hin.
    destruct (run_inv o fabs pick ph cfg na pick_sized _ _ _ _ _ _ keep1 Hr) as [I _].
    destruct I as [_ _ _ _ _ Hs Hk _]. destruct (Hs sn Hin) as (nw & od & E & (_ & _ & HjS & _)).
    rewrite HjS. rewrite E in Hk. unfold kept in *. rewrite filter_app, map_app, rev_app_distr, app_length in Hk. lia.
Qed.

(** C62.  When a scan stops: it makes at most max_attempts attempts (if that is positive), and
    at most one attempt after the time limit has been seen to be exceeded; and it does not stop
    unless one of the limits has been reached. *)
Theorem scan_stops g q start clock p ended :
  RUN g q start clock = Ok (p, ended) ->
  ((0 < max_attempts_per_proc cfg)%Z ->
     (Z.of_nat (length (p_log p)) <= max_attempts_per_proc cfg)%Z
     /\ ((max_attempts_per_proc cfg < Z.of_nat (length clock))%Z -> ended = true))
  /\ (forall before c later, clock = before ++ c :: later ->
        flt o (max_seconds cfg) (fsub o (fst c) start) = true ->
        ended = true /\ length (p_log p) <= length before + 1)
  /\ (ended = true ->
      (0 < max_attempts_per_proc cfg /\ Z.of_nat (length (p_log p)) = max_attempts_per_proc cfg)%Z
      \/ length (kept (p_log p)) = max_keep_per_proc cfg
      \/ exists c, In c clock /\ flt o (max_seconds cfg) (fsub o (fst c) start) = true).
Proof.
  intros H.
  destruct (run_inv o fabs pick ph cfg na pick_sized _ _ _ _ _ _ keep1 H) as [I _].
  unfold run in H.
  destruct (loop o fabs pick ph cfg na start clock (init_proc o cfg na g q start)) as [[p1 e]| |] eqn:EL;
    cbn [bind] in H; try discriminate.
  destruct (loop_progress o fabs pick ph cfg na pick_sized start clock _ _ _
      (init_inv o fabs cfg na g q start) keep1 eq_refl EL) as (B & E1 & E2 & E3).
  assert (Hl : p_log p = p_log p1 /\ e = ended).
  { destruct e; [|injection H as <- <-; auto].
    unfold collect in H. destruct (aset (p_filters p1) KEPT (p_j_scan p1)); cbn [bind] in H; try discriminate.
    injection H as <- <-. auto. }
  destruct Hl as [Hl ->]. rewrite Hl. simpl in B, E1, E3.
  split; [|split; [|auto]].
  - intros Hm. destruct I as [_ _ _ _ _ _ _ Ha]. specialize (Ha Hm). rewrite Hl in Ha. split; [auto|].
    intros Hc. destruct ended; auto. destruct (E1 eq_refl) as [E _]. lia.
  - intros before c later E Hc. split; [|specialize (E3 _ _ _ E Hc); lia].
    destruct ended; auto. destruct (E1 eq_refl) as [_ Ef]. rewrite Forall_forall in Ef.
    rewrite (Ef c) in Hc; [congruence|]. rewrite E. apply in_or_app. simpl; auto.
Qed.
End P.

(** C24 in exact arithmetic: the limits are met in the usual sense. *)
Local Open Scope R_scope.
Theorem scan_kept_meets_limits_real {G X} (pick : G -> sample R -> sample R * G) (ph : @physics R X)
  (cfg : @settings R) na g q start clock p ended sn j :
  (forall g s, sized na (fst (pick g s))) -> (1 <= max_keep_per_proc cfg)%nat ->
  run R_ops Rabs pick ph cfg na g q start clock = Ok (p, ended) -> In sn (p_saves p) -> (j < sn_j_scan sn)%nat ->
  let v i := nth (i + 20 * j) (m_data (b_params (sn_buf sn))) 0 in
  let h := nth j (b_int (sn_buf sn)) 0%Z in
  keep_all cfg = false ->
    min_R0_to_keep cfg <= v 6%nat
    /\ (helicity_to_keep cfg = 0%Z -> h = 0%Z) /\ (helicity_to_keep cfg = 1%Z -> h = 1%Z \/ h = (-1)%Z)
    /\ min_L_grad_B_to_keep cfg <= / v 7%nat
    /\ min_iota_to_keep cfg <= Rabs (v 8%nat)
    /\ v 9%nat <= max_elongation_to_keep cfg
    /\ min_L_grad_B_to_keep cfg <= v 10%nat
    /\ (at_least_order_r2 cfg = true ->
        min_L_grad_grad_B_to_keep cfg <= v 11%nat
        /\ min_r_singularity_to_keep cfg <= v 12%nat
        /\ v 13%nat <= max_d2_volume_d_psi2_to_keep cfg
        /\ min_DMerc_times_r2_to_keep cfg <= v 14%nat
        /\ v 15%nat <= max_B20_variation_to_keep cfg
        /\ min_beta_to_keep cfg <= v 19%nat).
Proof.
  intros Hp Hk H Hin Hj v h Hka.
  destruct (scan_kept_meets_limits R_ops Rabs pick ph cfg na Hp Hk _ _ _ _ _ _ _ _ H Hin Hj)
    as (_ & _ & L). specialize (L Hka). cbn [flt fdiv fone fzero R_ops] in L.
  assert (Q : forall a b, Rltb a b = false -> b <= a) by (intros a b E; apply Rltb_false in E; lra).
  destruct L as (L1 & L2 & L3 & L4 & L5 & L6 & L7 & L8).
  split; [apply Q, L1|split; [exact L2|split; [exact L3|split; [|split; [apply Q, L5|split; [apply Q, L6|split; [apply Q, L7|]]]]]]].
  - apply Q in L4. unfold v, Rdiv in *. rewrite Rmult_1_l in L4. exact L4.
  - intros Hr. destruct (L8 Hr) as (M1 & M2 & M3 & M4 & M5 & M6).
    repeat split; apply Q; assumption.
Qed.
Local Close Scope R_scope.

(** ** Concrete scans, in double precision. *)
Definition dz := d_of_Z.
Definition ex_pick (g : nat) (s : sample spec_float) : sample spec_float * nat :=
  (mkSample (dz 1) (dz 0) (dz 0) (dz 0) (dz 0) [dz (if Nat.even g then 2 else -2); dz 1] [dz 0; dz 0] [dz 0; dz 0] [dz 0; dz 1], S g).
(** Physics whose iota is [io] on every call; the other values are constants. *)
Definition ex_ph (io : spec_float) : @physics spec_float unit :=
  mkPhys (fun _ => Ok (dz 6, dz 1, dz 1, dz 1, dz 1, 0%Z, tt)) (fun _ => Ok (io, tt)) (fun _ => Ok (dz 2, dz 1, tt))
    (fun _ => Ok (dz 1, dz 0, tt)) (fun _ => Ok (dz (-1), dz 1, tt)) (fun _ => Ok (dz 1, tt)) (fun _ => Ok (dz 1, dz 1, tt)).
Definition ex_q : @qsc spec_float unit :=
  mkQ (mkSample (dz 0) (dz 0) (dz 0) (dz 0) (dz 0) [] [] [] []) (dz 0) (dz 0) (dz 0) (dz 0) (dz 0) 0 (dz 0) (dz 0) (dz 0)
    (dz 0) (dz 0) (dz 0) (dz 0) (dz 0) (dz 0) (dz 0) tt.
Definition ex_cfg (mk : nat) : @settings spec_float :=
  mkSettings false true 0 (dz 1) (dz 1) (dz 5) (dz 1) (dz 1) (dz 1) (dz 1) (dz 1) (dz 0) (dz 0) mk 100 (dz 1000) (dz 10).
Lemma ex_sized : forall g s, sized 2 (fst (ex_pick g s)). Proof. intros. repeat split. Qed.

(** Six passes, with a save during the fourth; two keepers wanted. *)
Definition ex_clock := map (fun t => (dz t, dz t)) [1; 2; 3; 12; 13; 14]%Z.
Example scan_example :
  match run D_ops SFabs ex_pick (ex_ph (dz 1)) (ex_cfg 3) 2 0 ex_q (dz 0) ex_clock with
  | Ok (p, ended) => (ended, map (fun sn => (sn_filters sn, sn_j_scan sn)) (p_saves p))
  | _ => (false, [])
  end
  = (true, [([5; 3; 2; 0; 0; 0; 0; 0; 0; 0; 0; 0; 0; 0; 0; 3; 3], 3); ([3; 2; 1; 0; 0; 0; 0; 0; 0; 0; 0; 0; 0; 0; 0; 2; 2], 2)]).
Proof. vm_compute. reflexivity. Qed.
Lemma ex_ph_safe io : ph_safe (ex_ph io).
Proof. repeat split; intros q w; discriminate. Qed.

(** C24 finding: a configuration whose iota is NaN is kept, whatever the limits. *)
Theorem scan_keeps_nan_refuted :
  exists p sn, run D_ops SFabs ex_pick (ex_ph S754_nan) (ex_cfg 1) 2 0 ex_q (dz 0) ex_clock = Ok (p, true)
    /\ In sn (p_saves p) /\ sn_j_scan sn = 1
    /\ nth (8 + 20 * 0) (m_data (b_params (sn_buf sn))) (dz 0) = S754_nan
    /\ keep_all (ex_cfg 1) = false
    /\ fle D_ops (min_iota_to_keep (ex_cfg 1)) (SFabs S754_nan) = false.
Proof.
  eexists. eexists. split; [vm_compute; reflexivity|]. split; [left; reflexivity|]. vm_compute. auto.
Qed.

(** C25 finding: with max_keep_per_proc = 0 the first keeper is written outside the buffers. *)
Theorem scan_storage_zero_refuted :
  exists clock, run D_ops SFabs ex_pick (ex_ph (dz 1)) (ex_cfg 0) 2 0 ex_q (dz 0) clock = UB "array write out of bounds"%string.
Proof. exists ex_clock. vm_compute. reflexivity. Qed.

Print Assumptions scan_reports_are_true.
Print Assumptions scan_counters_balance.
Print Assumptions scan_kept_meets_limits.
Print Assumptions scan_kept_meets_limits_real.
Print Assumptions scan_storage_safe.
Print Assumptions scan_solve_counters.
Print Assumptions scan_stops.
Print Assumptions scan_keeps_nan_refuted.
Print Assumptions scan_storage_zero_refuted.
