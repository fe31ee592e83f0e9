(** Properties of the collection of scan results (C23 merged, C28, C29). *)
From Coq Require Import String ZArith List Bool Arith Lia SpecFloat.
From Verif Require Import Base BaseFacts FloatOps Tensor TensorFacts Scan ScanSpec ScanFacts Properties_Scan
  Star StarFacts Collect CollectFacts.
Import ListNotations.
Local Open Scope list_scope.
Local Open Scope nat_scope.

Section P.
Context {F : Type} (o : fops F) (fof : nat -> F) (na : nat) {X : Type}.
Notation contribution := (@contribution F).
Notation log := (list (@qsc F X * option nat)).
Implicit Types (root : list contribution) (leaves : list (list (@sending F))).

(** ** All collections of a scan in which all processes make equally many. *)
Definition contribs_at (i : nat) root leaves : list contribution :=
  match nth_error root i with
  | Some c => c :: flat_map (fun l : list (@sending F) => match nth_error l i with Some s => [snd s] | None => [] end) leaves
  | None => []
  end.

Lemma run_collections : forall root leaves acc,
  Forall (contrib_ok na) root ->
  Forall (fun l => length l = length root /\ Forall (fun s => contrib_ok na (snd s)) l) leaves ->
  exists n outs,
    length outs = length root
    /\ (forall i out, nth_error outs i = Some out -> is_merged o fof na (contribs_at i root leaves) out)
    /\ steps n (mkState (root_prog o fof na (S (length leaves)) root acc) (map (fun l => (leaf_prog na l, [])) leaves))
              (mkState (RDone (rev acc ++ outs)) (map (fun _ => ([], [])) leaves)).
Proof.
  induction root as [|c root IH]; intros leaves acc Hr Hl.
  - exists 0, []. split; [reflexivity|split; [intros [|i] out H; discriminate|]].
    simpl. rewrite app_nil_r.
    replace (map (fun l => (leaf_prog na l, [])) leaves) with (map (fun _ : list (@sending F) => (@nil (lact (@msg F)), @nil (@msg F))) leaves).
    + constructor.
    + apply map_ext_in. intros l Hin. rewrite Forall_forall in Hl. destruct (Hl l Hin) as [E _].
      destruct l; [reflexivity|discriminate].
  - inversion Hr as [|? ? Hc Hr']; subst.
    set (ss := map (fun l => match l with s :: l' => (fst s, snd s, leaf_prog na l') | [] => (fun _ => false, c, []) end) leaves).
    assert (Hl' : Forall (fun l => length l = length root /\ Forall (fun s => contrib_ok na (snd s)) l) (map (@tl _) leaves)).
    { rewrite Forall_forall in *. intros l Hin. apply in_map_iff in Hin. destruct Hin as (l0 & <- & Hin).
      destruct (Hl l0 Hin) as [E1 E2]. destruct l0 as [|s l0]; [discriminate|]. simpl in *. inversion E2; subst. auto. }
    destruct (collect_once o fof na c ss (fun out => root_prog o fof na (S (length leaves)) root (out :: acc)) Hc) as (n1 & out & Hm & S1).
    { unfold ss. rewrite Forall_map. rewrite Forall_forall in *. intros l Hin. destruct (Hl l Hin) as [E1 E2].
      destruct l as [|s l]; [discriminate|]. inversion E2; subst. exact H1. }
    destruct (IH (map (@tl _) leaves) (out :: acc) Hr' Hl') as (n2 & outs & Lo & Ho & S2).
    exists (n1 + n2), (out :: outs). split; [simpl; auto|split].
    + intros [|i] out' H.
      * simpl in H. injection H as <-. unfold contribs_at. simpl.
        replace (flat_map _ leaves) with (map sc ss); [exact Hm|].
        unfold ss. rewrite map_map. clear - Hl. induction Hl as [|l ls [E _] _ IHl]; [reflexivity|].
        destruct l as [|s l]; [discriminate|]. simpl. f_equal. exact IHl.
      * simpl in H. specialize (Ho i out' H). unfold contribs_at in *. change (nth_error (c :: root) (S i)) with (nth_error root i).
        destruct (nth_error root i); [|exact Ho].
        replace (flat_map (fun l : list (@sending F) => match nth_error l (S i) with Some s => [snd s] | None => [] end) leaves)
          with (flat_map (fun l : list (@sending F) => match nth_error l i with Some s => [snd s] | None => [] end) (map (@tl (@sending F)) leaves)); [exact Ho|].
        clear. induction leaves as [|l ls IHl]; [reflexivity|]. simpl. rewrite IHl. f_equal. destruct l; [destruct i|]; reflexivity.
    + eapply steps_app.
      * unfold ss in S1. rewrite map_length in S1.
        replace (map (fun l => (leaf_prog na l, [])) leaves) with (map (at_start na) ss); [exact S1|].
        unfold ss. rewrite map_map. apply map_ext_in. intros l Hin. rewrite Forall_forall in Hl. destruct (Hl l Hin) as [E1 _].
        destruct l as [|s l]; [discriminate|]. reflexivity.
      * rewrite map_length, !map_map in S2. simpl rev in S2. rewrite <- app_assoc in S2. cbn [app] in S2.
        assert (E : map (fun x => (leaf_prog na (tl x), @nil (@msg F))) leaves = map at_end ss); [|rewrite E in S2; exact S2].
        unfold ss. rewrite map_map. apply map_ext_in. intros l Hin. rewrite Forall_forall in Hl. destruct (Hl l Hin) as [E1 _].
        destruct l as [|s l]; [discriminate|]. reflexivity.
Qed.

(** ** From reports to results. *)
Lemma account_ok (cfg : @settings F) (l : log) (c : contribution) :
  true_account cfg na l (c_snap c) -> length (c_timing c) = 8 ->
  contrib_ok na c /\ c_j_scan c = length (kept l) /\ params c = flat_map params_of (kept l)
  /\ fourier na c = flat_map (fun q => fourier_of (q_in q)) (kept l) /\ ints c = map q_helicity (kept l)
  /\ (forall q, In q (kept l) -> length (fourier_of (q_in q)) = na * 4).
Proof.
  intros ((L17 & _) & K & J & (Bp & Bf & Bi & Bs)) Ht.
  assert (Hs : forall q, In q (kept l) -> length (fourier_of (q_in q)) = na * 4)
    by (intros q Hq; apply fourier_of_length; auto).
  assert (Lp : length (flat_map params_of (kept l)) = 20 * length (kept l)) by (apply flat_map_len; auto).
  assert (Lf : length (flat_map (fun q => fourier_of (q_in q)) (kept l)) = na * 4 * length (kept l))
    by (apply flat_map_len; auto).
  unfold contrib_ok, params, fourier, ints, c_j_scan. rewrite J, Nat.mul_1_l.
  split; [|split; [reflexivity|auto]].
  split; [auto|split; [auto|split; [auto|]]].
  apply (f_equal (@length _)) in Bp, Bf, Bi. rewrite firstn_length in Bp, Bf, Bi. rewrite map_length in Bi. lia.
Qed.

(** The results on process 0 say what the logs of all processes say, in rank order. *)
Definition merged_report (logs : list log) (out : @merged F) : Prop :=
  let all := flat_map kept logs in
  g_n_scan out = length all
  /\ g_scan out = map (fun x => map (fun c => nth x (params_of c) (fzero o)) all) (seq 0 20)
  /\ g_helicity out = map q_helicity all
  /\ g_fourier out = [ map (fun c => s_R0c (q_in c)) all; map (fun c => s_R0s (q_in c)) all;
                       map (fun c => s_Z0c (q_in c)) all; map (fun c => s_Z0s (q_in c)) all ]
  /\ nth ATTEMPTS (g_filters out) 0 = list_sum (map (@length _) logs)
  /\ nth KEPT (g_filters out) 0 = length all
  /\ (forall k, 2 <= k <= 14 -> nth k (g_filters out) 0 = list_sum (map (rejected k) logs))
  /\ nth N_SIGMA_EQ_SOLVES (g_filters out) 0 = list_sum (map reached_sigma logs)
  /\ g_fractions out = map (fun v => fdiv o (fof v) (fof (nth ATTEMPTS (g_filters out) 0))) (g_filters out)
  /\ length (g_filters out) = N_FILTERS.

Lemma length_flat_kept (logs : list log) : length (flat_map kept logs) = list_sum (map (fun l => length (kept l)) logs).
Proof. induction logs; simpl; auto. rewrite app_length. auto. Qed.

Lemma merged_is_report cfg (cs : list contribution) (logs : list log) out :
  Forall2 (fun c l => true_account cfg na l (c_snap c) /\ length (c_timing c) = 8 /\ (forall q, In q (kept l) -> sized na (q_in q))) cs logs ->
  is_merged o fof na cs out -> merged_report logs out.
Proof.
  intros H2 (L17 & Hf & Hfr & Hn & Hs & Hh & Hx).
  assert (Hall : list_sum (map c_j_scan cs) = length (flat_map kept logs)
     /\ flat_map params cs = flat_map params_of (flat_map kept logs)
     /\ flat_map (fourier na) cs = flat_map (fun q => fourier_of (q_in q)) (flat_map kept logs)
     /\ flat_map ints cs = map q_helicity (flat_map kept logs)
     /\ (forall q, In q (flat_map kept logs) -> sized na (q_in q))
     /\ (forall k, (k = 1 -> list_sum (map (fun c => nth k (sn_filters (c_snap c)) 0) cs) = length (flat_map kept logs))
          /\ (k = 0 -> list_sum (map (fun c => nth k (sn_filters (c_snap c)) 0) cs) = list_sum (map (@length _) logs))
          /\ (k = 15 -> list_sum (map (fun c => nth k (sn_filters (c_snap c)) 0) cs) = list_sum (map reached_sigma logs))
          /\ (2 <= k <= 14 -> list_sum (map (fun c => nth k (sn_filters (c_snap c)) 0) cs) = list_sum (map (rejected k) logs)))).
  { clear - H2. induction H2 as [|c l cs logs (Ha & Ht & Hsz) H2 IH].
    - simpl. repeat split; auto; intros; contradiction.
    - destruct IH as (I1 & I2 & I3 & I4 & I5 & I6). destruct (account_ok _ _ _ Ha Ht) as (A1 & A2 & A3 & A4 & A5 & A6).
      simpl. rewrite !flat_map_app, map_app, app_length, A2, A3, A4, A5, I1, I2, I3, I4.
      split; [reflexivity|split; [reflexivity|split; [reflexivity|split; [reflexivity|split]]]].
      + intros q Hq. apply in_app_or in Hq. destruct Hq; auto.
      + intros k. destruct (I6 k) as (J1 & J2 & J3 & J4). destruct Ha as ((_ & B0 & Bk & B15 & _) & B1 & _).
        split; [|split; [|split]]; intros Hk.
        * rewrite J1 by auto. subst k. rewrite B1. reflexivity.
        * rewrite J2 by auto. subst k. rewrite B0. reflexivity.
        * rewrite J3 by auto. subst k. rewrite B15. reflexivity.
        * rewrite J4 by auto. rewrite Bk by auto. reflexivity. }
  destruct Hall as (N1 & N2 & N3 & N4 & N5 & N6).
  set (all := flat_map kept logs) in *.
  unfold merged_report. fold all. rewrite Hn, Hs, Hh, Hx, N1, N2, N3, N4.
  split; [reflexivity|split; [|split; [reflexivity|split; [|split; [|split; [|split; [|split; [|split; [exact Hfr|exact L17]]]]]]]]].
  - apply map_ext_in. intros x Hx'. apply in_seq in Hx'.
    apply map_seq_nth. intros j a Ha. apply flat_map_nth; auto. lia.
  - assert (B : forall b, b < 4 ->
      map (fun j => map (fun k => nth (k + b * na + na * 4 * j) (flat_map (fun q => fourier_of (q_in q)) all) (fzero o)) (seq 0 na)) (seq 0 (length all))
      = map (fun c => block b (q_in c)) all).
    { intros b Hb. apply map_seq_nth. intros j a Ha. pose proof (N5 a (nth_error_In _ _ Ha)) as Hsz.
      assert (Lb : length (block b (q_in a)) = na).
      { destruct Hsz as (S1 & S2 & S3 & S4). destruct b as [|[|[|[|b]]]]; simpl; auto. }
      transitivity (map (fun x => x) (block b (q_in a))); [|apply map_id].
      replace (seq 0 na) with (seq 0 (length (block b (q_in a)))) by (rewrite Lb; reflexivity). apply map_seq_nth. intros k v Hv.
      assert (k < na) by (rewrite <- Lb; eapply nth_error_lt; eauto).
      rewrite (flat_map_nth (fun q => fourier_of (q_in q)) (na * 4) all j (k + b * na) a); auto; [| |nia].
      - apply nth_error_nth. rewrite (fourier_of_nth na); auto.
      - intros q Hq. apply fourier_of_length. auto. }
    cbn [seq map]. rewrite !B by lia. reflexivity.
  - unfold ATTEMPTS. rewrite Hf by lia. apply N6. reflexivity.
  - unfold KEPT. rewrite Hf by lia. apply N6. reflexivity.
  - intros k Hk. rewrite Hf by lia. apply N6. auto.
  - unfold N_SIGMA_EQ_SOLVES. rewrite Hf by lia. apply N6. reflexivity.
Qed.

(** C28.  If all processes make the same number of collections, then whatever is buffered and
    in whatever order things happen, the collections complete, and after each of them process
    0 holds exactly the kept configurations of all processes, in rank order, with every array
    entry belonging to its configuration, and the counters of all processes added up. *)
Theorem collect_complete (cfg : @settings F) (L : nat -> nat -> log) root leaves :
  (forall l, In l leaves -> length l = length root) ->
  (forall i c, nth_error root i = Some c ->
     true_account cfg na (L 0 i) (c_snap c) /\ length (c_timing c) = 8) ->
  (forall r l i s, nth_error leaves r = Some l -> nth_error l i = Some s ->
     true_account cfg na (L (S r) i) (c_snap (snd s)) /\ length (c_timing (snd s)) = 8) ->
  exists n outs f,
    steps n (scan_comm o fof na root leaves) f /\ completed outs f
    /\ length outs = length root
    /\ (forall i out, nth_error outs i = Some out -> merged_report (map (fun r => L r i) (seq 0 (S (length leaves)))) out)
    /\ (forall m s, steps m (scan_comm o fof na root leaves) s -> m <= n /\ steps (n - m) s f).
Proof.
  intros Hlen Hroot Hleaf.
  destruct (run_collections root leaves []) as (n & outs & Lo & Ho & S1).
  - apply Forall_forall. intros c Hin. apply In_nth_error in Hin. destruct Hin as (i & Hi).
    destruct (Hroot i c Hi). eapply account_ok; eauto.
  - apply Forall_forall. intros l Hin. split; [auto|]. apply Forall_forall. intros s Hs.
    apply In_nth_error in Hin. destruct Hin as (r & Hr). apply In_nth_error in Hs. destruct Hs as (i & Hi).
    destruct (Hleaf r l i s Hr Hi). eapply account_ok; eauto.
  - simpl app in S1.
    set (f := mkState (RDone outs) (map (fun _ => ([], [])) leaves)) in *.
    assert (Hc : completed outs f).
    { split; [reflexivity|]. simpl. rewrite Forall_map. apply Forall_forall. auto. }
    exists n, outs, f. split; [exact S1|split; [exact Hc|split; [auto|split]]].
    + intros i out Hi. specialize (Ho i out Hi).
      eapply merged_is_report; [|exact Ho]. instantiate (1 := cfg).
      assert (Hi' : i < length root) by (rewrite <- Lo; eapply nth_error_lt; eauto).
      unfold contribs_at. destruct (nth_error root i) as [c|] eqn:Ec; [|apply nth_error_None in Ec; lia].
      cbn [seq map]. constructor.
      * destruct (Hroot i c Ec) as [Ha Ht]. split; [auto|split; [auto|]]. apply Ha.
      * rewrite <- seq_shift, map_map.
        assert (G : forall (ls : list (list (@sending F))) k, (forall r (l : list (@sending F)) (s : @sending F), nth_error ls r = Some l -> nth_error l i = Some s ->
             true_account cfg na (L (S (k + r)) i) (c_snap (snd s)) /\ length (c_timing (snd s)) = 8) ->
             (forall l, In l ls -> length l = length root) ->
           Forall2 (fun c l => true_account cfg na l (c_snap c) /\ length (c_timing c) = 8 /\ (forall q, In q (kept l) -> sized na (q_in q)))
             (flat_map (fun l : list (@sending F) => match nth_error l i with Some s => [snd s] | None => [] end) ls) (map (fun x => L (S x) i) (seq k (length ls)))).
        { induction ls as [|l ls IHl]; intros k Hls Hll; [constructor|]. simpl.
          destruct (nth_error l i) as [s|] eqn:Es.
          2:{ apply nth_error_None in Es. rewrite Hll in Es by (simpl; auto). lia. }
          simpl. constructor.
          - destruct (Hls 0 l s eq_refl Es) as [Ha Ht]. rewrite Nat.add_0_r in Ha. split; [auto|split; [auto|apply Ha]].
          - apply IHl; [|intros; apply Hll; simpl; auto]. intros r l' s' Hr Hs'.
            specialize (Hls (S r) l' s' Hr Hs'). rewrite Nat.add_succ_r in Hls. exact Hls. }
        apply (G leaves 0); auto. intros r l s Hr Hs. apply (Hleaf r l i s Hr Hs).
    + intros m s Hm. eapply runs_agree; [exact S1|eapply completed_stuck; eauto|exact Hm].
Qed.

(** ** Barriers of the programs. *)
Lemma Bars_rbind {B C} b (x : outcome B) (k : B -> rprog (@msg F) C) : (forall y, Bars b (k y)) -> Bars b (rbind x k).
Proof. intros H. destruct x; simpl; auto; constructor. Qed.
Lemma Bars_counts {C} b js : forall fc tc (k : list nat -> list F -> rprog (@msg F) C),
  (forall x y, Bars b (k x y)) -> Bars b (recv_counts js fc tc k).
Proof.
  induction js as [|j js IH]; intros fc tc k H; simpl; auto.
  constructor. intros []; try constructor. apply Bars_rbind. intros fc'. constructor. intros []; try constructor.
  apply Bars_rbind. intros tc'. apply IH. auto.
Qed.
Lemma Bars_data {C} b js kp : forall off P Y I (k : list F -> list F -> list Z -> rprog (@msg F) C),
  (forall x y z, Bars b (k x y z)) -> Bars b (recv_data na js kp off P Y I k).
Proof.
  induction js as [|j js IH]; intros off P Y I k H; simpl; auto.
  apply Bars_rbind. intros nk. constructor. intros []; try constructor. apply Bars_rbind. intros P'.
  constructor. intros []; try constructor. apply Bars_rbind. intros Y'.
  constructor. intros []; try constructor. apply Bars_rbind. intros I'. apply IH. auto.
Qed.
Lemma Bars_root n root : forall acc, Bars (2 * length root) (root_prog o fof na n root acc).
Proof.
  induction root as [|c root IH]; intros acc; [constructor|].
  cbn [root_prog length]. replace (2 * S (length root)) with (S (S (2 * length root))) by lia.
  unfold collect_root. constructor.
  apply Bars_rbind. intros fc. apply Bars_rbind. intros tc. apply Bars_counts. intros fc' tc'.
  do 6 (apply Bars_rbind; intros ?). apply Bars_data. intros P Y I. apply Bars_rbind. intros out. constructor. apply IH.
Qed.
Lemma bars_leaf (l : list (@sending F)) : bars (leaf_prog na l) = 2 * length l.
Proof.
  induction l as [|s l IH]; [reflexivity|]. unfold leaf_prog in *. cbn [flat_map length].
  unfold bars in *. rewrite filter_app, app_length, IH. simpl. lia.
Qed.

(** C29 (general form).  If some process makes a different number of collections than process
    0, the scan never completes: every run comes to a state where some process waits forever. *)
Theorem collect_mismatch_hangs root leaves l :
  In l leaves -> length l <> length root ->
  (forall n outs s, steps n (scan_comm o fof na root leaves) s -> ~ completed outs s)
  /\ exists n s, steps n (scan_comm o fof na root leaves) s /\ stuck s.
Proof.
  intros Hin Hne. split; [|apply every_run_ends].
  intros n outs s Hs. apply In_nth_error in Hin. destruct Hin as (i & Hi).
  eapply (barrier_mismatch_never_completes (scan_comm o fof na root leaves) (2 * length root) i (leaf_prog na l, [])).
  - apply Bars_root.
  - unfold scan_comm. cbn [st_leaves]. apply (map_nth_error (fun l => (leaf_prog na l, [])) i leaves Hi).
  - cbn [fst]. rewrite bars_leaf. lia.
  - exact Hs.
Qed.
End P.

(** ** Whole scans. *)
Section Whole.
Context {F : Type} (o : fops F) (fabs : F -> F) (fof : nat -> F) {G X : Type}.
Variables (pick : G -> sample F -> sample F * G) (ph : @physics F X) (cfg : @settings F) (na : nat).
Hypothesis pick_sized : forall g s, sized na (fst (pick g s)).
Hypothesis keep1 : 1 <= max_keep_per_proc cfg.

(** A process that went through the whole loop. *)
Definition ended_run (p : @proc F G X) : Prop :=
  exists g q start clock, run o fabs pick ph cfg na g q start clock = Ok (p, true).
(** What it hands to its successive collections. *)
Definition contributes (p : @proc F G X) (cs : list (@contribution F)) : Prop :=
  map c_snap cs = rev (p_saves p) /\ Forall (fun c => length (c_timing c) = 8) cs.

(** The attempts the process had made when it took snapshot [sn]. *)
Let log_at (p : @proc F G X) (sn : @snapshot F) : list (@qsc F X * option nat) :=
  skipn (length (p_log p) - nth 0 (sn_filters sn) 0) (p_log p).

Lemma log_at_ok p sn : ended_run p -> In sn (p_saves p) ->
  true_account cfg na (log_at p sn) sn /\ (exists newer, p_log p = newer ++ log_at p sn)
  /\ Forall (justified o fabs cfg) (log_at p sn).
Proof.
  intros (g & q & start & clock & H) Hin.
  destruct (scan_reports_are_true o fabs pick ph cfg na pick_sized keep1 _ _ _ _ _ _ H) as (HJ & HS & _).
  destruct (HS sn Hin) as (nw & od & E & T).
  assert (EL : log_at p sn = od).
  { unfold log_at. destruct T as ((_ & T0 & _) & _). rewrite T0, E, app_length.
    replace (length nw + length od - length od) with (length nw) by lia.
    rewrite skipn_app, skipn_all, Nat.sub_diag. reflexivity. }
  rewrite EL. rewrite E in HJ. apply Forall_app in HJ. destruct HJ. split; [auto|split; [exists nw; auto|auto]].
Qed.

Lemma log_at_last p : ended_run p -> exists sn rest, p_saves p = sn :: rest /\ log_at p sn = p_log p.
Proof.
  intros (g & q & start & clock & H).
  destruct (scan_reports_are_true o fabs pick ph cfg na pick_sized keep1 _ _ _ _ _ _ H) as (HJ & HS & HL).
  destruct (HL eq_refl) as (sn & rest & E & T). exists sn, rest. split; auto.
  unfold log_at. destruct T as ((_ & T0 & _) & _). rewrite T0, Nat.sub_diag. reflexivity.
Qed.

(** Counters on process 0 balance. *)
Lemma merged_balance (logs : list (list (@qsc F X * option nat))) out :
  merged_report o fof logs out -> Forall (Forall (justified o fabs cfg)) logs ->
  nth ATTEMPTS (g_filters out) 0 =
    nth KEPT (g_filters out) 0 + list_sum (map (fun k => nth k (g_filters out) 0) (seq 2 13)).
Proof.
  intros (_ & _ & _ & _ & HA & HK & HR & _) HJ. rewrite HA, HK.
  assert (E : map (fun k => nth k (g_filters out) 0) (seq 2 13) = map (fun k => list_sum (map (rejected k) logs)) (seq 2 13)).
  { apply map_ext_in. intros k Hk. apply in_seq in Hk. apply HR. lia. }
  rewrite E. clear - HJ keep1. rewrite length_flat_kept.
  induction HJ as [|l ls Hl _ IH]; [reflexivity|].
  destruct (count_log o fabs cfg keep1 l Hl) as (C & _). cbn [map list_sum fold_right seq] in *.
  unfold list_sum in *. simpl in *. lia.
Qed.

(** C28 for whole scans.  Processes [p0] (rank 0) and [ps] (ranks 1, 2, ...) have run; they
    reached collect_results equally often.  Then all collections complete, whatever is
    buffered and whatever the order of events; after the last one process 0 holds the kept
    configurations of all attempts of all processes in rank order and the exact counts;
    after each earlier one the same for the attempts made so far. *)
Theorem parallel_scan_complete p0 ps root (leaves : list (list (@sending F))) :
  ended_run p0 -> Forall ended_run ps ->
  contributes p0 root -> Forall2 (fun p l => contributes p (map snd l)) ps leaves ->
  (forall p, In p ps -> length (p_saves p) = length (p_saves p0)) ->
  exists n outs f,
    steps n (scan_comm o fof na root leaves) f /\ completed outs f
    /\ length outs = length (p_saves p0)
    /\ (forall i out, nth_error outs i = Some out ->
          exists logs, Forall2 (fun p log => exists newer, p_log p = newer ++ log) (p0 :: ps) logs
            /\ merged_report o fof logs out
            /\ (S i = length outs -> logs = map p_log (p0 :: ps))
            /\ nth ATTEMPTS (g_filters out) 0 =
                 nth KEPT (g_filters out) 0 + list_sum (map (fun k => nth k (g_filters out) 0) (seq 2 13)))
    /\ (forall m s, steps m (scan_comm o fof na root leaves) s -> m <= n /\ steps (n - m) s f).
Proof.
  intros R0 Rs C0 Cs Hn.
  set (sns := fun p : @proc F G X => rev (p_saves p)).
  set (L := fun r i => match nth_error (p0 :: ps) r with
                       | Some p => match nth_error (sns p) i with Some sn => log_at p sn | None => [] end
                       | None => [] end).
  assert (Lroot : length root = length (p_saves p0)).
  { destruct C0 as [E _]. apply (f_equal (@length _)) in E. rewrite map_length, rev_length in E. exact E. }
  assert (Hps : forall r l, nth_error leaves r = Some l -> exists p, nth_error ps r = Some p /\ contributes p (map snd l)).
  { clear - Cs. induction Cs as [|p l ps ls H _ IH]; intros [|r] l' Hr; try discriminate; simpl in *.
    - injection Hr as <-. eauto.
    - eauto. }
  assert (Lps : length ps = length leaves) by (clear - Cs; induction Cs; simpl; auto).
  destruct (collect_complete o fof na cfg L root leaves) as (n & outs & f & S1 & S2 & S3 & S4 & S5).
  - intros l Hl. apply In_nth_error in Hl. destruct Hl as (r & Hr). destruct (Hps r l Hr) as (p & Hp & [E _]).
    apply (f_equal (@length _)) in E. rewrite !map_length, rev_length in E. rewrite Lroot. transitivity (length (p_saves p)); [exact E|]. apply Hn. eapply nth_error_In; eauto.
  - intros i c Hi. destruct C0 as [E T]. rewrite Forall_forall in T. split; [|apply T; eapply nth_error_In; eauto].
    unfold L. cbn [nth_error]. unfold sns. rewrite <- E. rewrite (map_nth_error c_snap i root Hi).
    apply log_at_ok; auto. apply in_rev. rewrite <- E. apply in_map. eapply nth_error_In; eauto.
  - intros r l i s Hr Hi. destruct (Hps r l Hr) as (p & Hp & [E T]). rewrite Forall_forall in T.
    assert (Hi' : nth_error (map c_snap (map snd l)) i = Some (c_snap (snd s))).
    { rewrite map_map. exact (map_nth_error (fun s : @sending F => c_snap (snd s)) i l Hi). }
    split; [|apply T, in_map; eapply nth_error_In; eauto].
    unfold L. cbn [nth_error]. rewrite Hp. unfold sns. rewrite <- E. rewrite Hi'.
    apply log_at_ok. { rewrite Forall_forall in Rs. apply Rs. eapply nth_error_In; eauto. }
    apply in_rev. rewrite <- E. eapply nth_error_In; eauto.
  - exists n, outs, f. split; [auto|split; [auto|split; [lia|split; [|auto]]]].
    intros i out Hi. specialize (S4 i out Hi).
    assert (Hi' : i < length outs) by (eapply nth_error_lt; eauto).
    set (logs := map (fun r => L r i) (seq 0 (S (length leaves)))) in *.
    assert (EL : logs = map (fun p => match nth_error (sns p) i with Some sn => log_at p sn | None => [] end) (p0 :: ps)).
    { unfold logs. rewrite <- Lps. change (S (length ps)) with (length (p0 :: ps)).
      apply map_seq_nth. intros j p Hp. unfold L. rewrite Hp. reflexivity. }
    assert (Hsn : forall p, In p (p0 :: ps) -> ended_run p /\ exists sn, nth_error (sns p) i = Some sn /\ In sn (p_saves p)).
    { intros p Hp. assert (Rp : ended_run p) by (destruct Hp as [<-|Hp]; [auto|rewrite Forall_forall in Rs; auto]).
      split; auto. assert (Ln : length (p_saves p) = length (p_saves p0)) by (destruct Hp as [<-|Hp]; auto).
      destruct (nth_error (sns p) i) as [sn|] eqn:Es.
      - exists sn. split; auto. apply in_rev. eapply nth_error_In; eauto.
      - apply nth_error_None in Es. unfold sns in Es. rewrite rev_length in Es. lia. }
    exists logs. rewrite EL in *. clearbody logs. clear EL logs.
    split; [|split; [exact S4|split]].
    + assert (Gl : forall l, (forall p, In p l -> In p (p0 :: ps)) ->
        Forall2 (fun p log => exists newer, p_log p = newer ++ log) l
          (map (fun p => match nth_error (sns p) i with Some sn => log_at p sn | None => [] end) l)).
      { induction l as [|p l IHl]; intros Hl; constructor; [|apply IHl; intros; apply Hl; simpl; auto].
        destruct (Hsn p (Hl p (or_introl eq_refl))) as (Rp & sn & -> & Hin). apply log_at_ok; auto. }
      apply Gl; auto.
    + intros Hlast. apply map_ext_in. intros p Hp.
      destruct (Hsn p Hp) as (Rp & sn & Es & Hin). rewrite Es.
      destruct (log_at_last p Rp) as (sn' & rest & E1 & E2).
      assert (Ln : length (p_saves p) = length (p_saves p0)) by (destruct Hp as [<-|Hp]; auto).
      unfold sns in Es. rewrite E1 in Es, Ln. cbn [rev] in Es. cbn [length] in Ln.
      rewrite nth_error_app2 in Es by (rewrite rev_length; lia). rewrite rev_length in Es.
      replace (i - length rest) with 0 in Es by lia. injection Es as <-. exact E2.
    + eapply merged_balance; [exact S4|]. rewrite Forall_map. apply Forall_forall. intros p Hp.
      destruct (Hsn p Hp) as (Rp & sn & -> & Hin). apply log_at_ok; auto.
Qed.

(** Conversely, if some process reached collect_results more or less often than process 0, the
    program never finishes. *)
Theorem parallel_scan_hangs p0 ps root (leaves : list (list (@sending F))) p :
  contributes p0 root -> Forall2 (fun p l => contributes p (map snd l)) ps leaves ->
  In p ps -> length (p_saves p) <> length (p_saves p0) ->
  (forall n outs s, steps n (scan_comm o fof na root leaves) s -> ~ completed outs s)
  /\ exists n s, steps n (scan_comm o fof na root leaves) s /\ stuck s.
Proof.
  intros [E0 _] Cs Hp Hne.
  assert (exists l, In l leaves /\ contributes p (map snd l)) as (l & Hl & [E _]).
  { clear - Cs Hp. induction Cs as [|p' l ps ls H _ IH]; [contradiction|]. destruct Hp as [<-|Hp].
    - exists l. simpl; auto.
    - destruct (IH Hp) as (l' & ? & ?). exists l'. simpl; auto. }
  apply (f_equal (@length _)) in E, E0. rewrite !map_length, rev_length in *.
  eapply collect_mismatch_hangs; [exact Hl|]. intros H. apply Hne. rewrite <- E0. rewrite <- E. exact H.
Qed.
End Whole.

(** ** Examples and the finding for C29. *)
Definition ex_run := run D_ops SFabs ex_pick (ex_ph (dz 1)) (ex_cfg 3) 2.
Definition ex_clock_fast := map (fun t => (dz t, dz t)) [1; 2; 3; 4; 5; 6]%Z.
Definition ex_timing := repeat (dz 0) 8.
Definition ex_proc g clock : @proc spec_float nat unit :=
  match ex_run g ex_q (dz 0) clock with Ok (p, _) => p | _ => init_proc D_ops (ex_cfg 3) 2 0 ex_q (dz 0) end.
Definition ex_contrib (p : @proc spec_float nat unit) := map (fun sn => mkContrib sn ex_timing) (rev (p_saves p)) : list (@contribution spec_float).
Definition ex_send (b : bool) (p : @proc spec_float nat unit) := map (fun c => (fun _ => b, c)) (ex_contrib p) : list (@sending spec_float).

Lemma ex_ended g : In g [0; 1] -> forall c, In c [ex_clock; ex_clock_fast] ->
  ended_run D_ops SFabs ex_pick (ex_ph (dz 1)) (ex_cfg 3) 2 (ex_proc g c).
Proof.
  intros Hg c Hc. exists g, ex_q, (dz 0), c.
  destruct Hg as [<-|[<-|[]]]; destruct Hc as [<-|[<-|[]]]; vm_compute; reflexivity.
Qed.
Lemma ex_contributes p : contributes p (ex_contrib p).
Proof.
  split.
  - unfold ex_contrib. rewrite map_map. simpl. apply map_id.
  - unfold ex_contrib. rewrite Forall_map. apply Forall_forall. auto.
Qed.
Lemma ex_contributes_send b p : contributes p (map snd (ex_send b p)).
Proof. unfold ex_send. rewrite map_map. simpl. rewrite map_id. apply ex_contributes. Qed.

(** Two processes, two collections each: [parallel_scan_complete] applies. *)
Example parallel_scan_example :
  let p0 := ex_proc 0 ex_clock in let p1 := ex_proc 1 ex_clock in
  length (p_saves p0) = 2 /\ length (p_saves p1) = 2 /\ length (kept (p_log p0)) = 3 /\ length (kept (p_log p1)) = 3
  /\ exists n outs f, steps n (scan_comm D_ops (fun n => dz (Z.of_nat n)) 2 (ex_contrib p0) [ex_send true p1]) f
       /\ completed outs f /\ length outs = 2.
Proof.
  cbv zeta. do 4 (split; [vm_compute; reflexivity|]).
  edestruct (parallel_scan_complete D_ops SFabs (fun n => dz (Z.of_nat n)) ex_pick (ex_ph (dz 1)) (ex_cfg 3) 2 ex_sized)
    with (p0 := ex_proc 0 ex_clock) (ps := [ex_proc 1 ex_clock]) (root := ex_contrib (ex_proc 0 ex_clock))
         (leaves := [ex_send true (ex_proc 1 ex_clock)]) as (n & outs & f & S1 & S2 & S3 & _).
  - vm_compute. lia.
  - apply ex_ended; simpl; auto.
  - constructor; [apply ex_ended; simpl; auto|constructor].
  - apply ex_contributes.
  - constructor; [apply ex_contributes_send|constructor].
  - intros p [<-|[]]. vm_compute. reflexivity.
  - exists n, outs, f. split; [exact S1|split; [exact S2|exact S3]].
Qed.

(** C29 finding: checkpoints are taken by each process on its own clock, so two processes with
    the same settings can reach collect_results a different number of times; then the scan
    hangs, whatever is buffered. *)
Theorem checkpoint_hang_refuted :
  exists p0 p1, ended_run D_ops SFabs ex_pick (ex_ph (dz 1)) (ex_cfg 3) 2 p0
    /\ ended_run D_ops SFabs ex_pick (ex_ph (dz 1)) (ex_cfg 3) 2 p1
    /\ forall fof root sends,
         contributes p0 root -> contributes p1 (map snd sends) ->
         (forall n outs s, steps n (scan_comm D_ops fof 2 root [sends]) s -> ~ completed outs s)
         /\ exists n s, steps n (scan_comm D_ops fof 2 root [sends]) s /\ stuck s.
Proof.
  exists (ex_proc 0 ex_clock), (ex_proc 1 ex_clock_fast).
  split; [apply ex_ended; simpl; auto|split; [apply ex_ended; simpl; auto|]].
  intros fof root sends C0 C1.
  eapply (parallel_scan_hangs D_ops fof 2 _ [ex_proc 1 ex_clock_fast] root [sends]); eauto.
  - left. reflexivity.
  - vm_compute. lia.
Qed.

Print Assumptions collect_complete.
Print Assumptions collect_mismatch_hangs.
Print Assumptions parallel_scan_complete.
Print Assumptions parallel_scan_hangs.
Print Assumptions checkpoint_hang_refuted.
