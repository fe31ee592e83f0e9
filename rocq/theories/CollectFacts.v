(** Proofs about collect_results. *)
From Coq Require Import String ZArith List Bool Arith Lia.
From Verif Require Import Base BaseFacts FloatOps Tensor TensorFacts Scan ScanSpec ScanFacts Star StarFacts Collect.
Import ListNotations.
Local Open Scope list_scope.
Local Open Scope nat_scope.

(** ** Lists. *)
Lemma mapM_ok {A B} (f : A -> outcome B) g (l : list A) :
  (forall x, In x l -> f x = Ok (g x)) -> mapM f l = Ok (map g l).
Proof.
  induction l as [|x l IH]; intros H; simpl; auto.
  rewrite H by (simpl; auto). cbn [bind]. rewrite IH by (intros; apply H; simpl; auto). reflexivity.
Qed.

Lemma flat_map_nth {A B} (f : A -> list B) n (l : list A) j i a d :
  (forall x, In x l -> length (f x) = n) -> nth_error l j = Some a -> i < n ->
  nth (i + n * j) (flat_map f l) d = nth i (f a) d.
Proof.
  revert j; induction l as [|x l IH]; intros j Hl Hj Hi; [destruct j; discriminate|].
  destruct j as [|j]; simpl in Hj.
  - injection Hj as ->. simpl. rewrite app_nth1 by (rewrite Hl; simpl; auto; lia). f_equal; lia.
  - simpl. rewrite app_nth2 by (rewrite Hl; simpl; auto; nia).
    rewrite Hl by (simpl; auto). replace (i + n * S j - n) with (i + n * j) by nia.
    apply IH; auto. intros; apply Hl; simpl; auto.
Qed.
Lemma flat_map_len {A B} (f : A -> list B) n (l : list A) :
  (forall x, In x l -> length (f x) = n) -> length (flat_map f l) = n * length l.
Proof.
  induction l as [|x l IH]; intros H; simpl; [lia|]. rewrite app_length, H by (simpl; auto). rewrite IH by (intros; apply H; simpl; auto). nia.
Qed.
Lemma firstn_nth {A} (l : list A) n k d : k < n -> nth k (firstn n l) d = nth k l d.
Proof. revert n k; induction l; intros [|n] [|k] H; simpl; auto; try lia. apply IHl; lia. Qed.

Lemma map_seq_nth {A B} (g : nat -> B) (h : A -> B) (l : list A) :
  (forall j a, nth_error l j = Some a -> g j = h a) -> map g (seq 0 (length l)) = map h l.
Proof.
  intros H. apply nth_error_ext. intros k.
  destruct (nth_error l k) as [a|] eqn:E.
  - assert (k < length l) by (eapply nth_error_lt; eauto).
    rewrite (map_nth_error h k l E). rewrite (map_nth_error g k (seq 0 (length l)) (d := k)).
    + f_equal. auto.
    + rewrite (nth_error_nth' _ 0) by (rewrite seq_length; auto). rewrite seq_nth by auto. reflexivity.
  - apply nth_error_None in E. transitivity (@None B); [|symmetry]; apply nth_error_None; rewrite map_length; auto.
    rewrite seq_length; auto.
Qed.

Lemma recv_into_app {A} (a b d : list A) off count :
  off = length a -> length d <= length b -> length d <= count ->
  recv_into (a ++ b) off count d = Ok (a ++ d ++ skipn (length d) b).
Proof.
  intros -> H1 H2. unfold recv_into.
  replace (length d <=? count) with true by (symmetry; apply Nat.leb_le; auto).
  rewrite app_length.
  replace (length a + length d <=? length a + length b) with true by (symmetry; apply Nat.leb_le; lia).
  rewrite firstn_app, Nat.sub_diag. simpl. rewrite firstn_all, app_nil_r.
  rewrite skipn_app. rewrite skipn_all2 by lia. simpl. f_equal. f_equal. f_equal. f_equal. lia.
Qed.
Lemma skipn_repeat {A} (z : A) n m : skipn n (repeat z m) = repeat z (m - n).
Proof. revert m; induction n; intros [|m]; simpl; auto. Qed.

(** ** Copying. *)
Lemma copy_flat_spec {A} (r js : nat) (src dst : list A) :
  r * js <= length src -> r * js <= length dst ->
  copy_flat r js src dst = Ok (firstn (r * js) src ++ skipn (r * js) dst).
Proof.
  intros Hs Hd. unfold copy_flat.
  destruct (for_loop_inv (fun j d => d = firstn (r * j) src ++ skipn (r * j) dst)
    (fun j dst => for_loop r (fun k dst => do v <- aget src (k + r * j); aset dst (k + r * j) v) dst)
    js dst) as (d & E & ->).
  - rewrite Nat.mul_0_r. reflexivity.
  - intros j d Hj ->.
    destruct (for_loop_inv (fun k d => d = firstn (k + r * j) src ++ skipn (k + r * j) dst)
      (fun k dst => do v <- aget src (k + r * j); aset dst (k + r * j) v) r
      (firstn (r * j) src ++ skipn (r * j) dst)) as (d & E & ->).
    + reflexivity.
    + intros k d Hk ->. assert (Hb : k + r * j < r * js) by (apply idx2_bound; auto).
      destruct (nth_error src (k + r * j)) as [v|] eqn:Ev; [|apply nth_error_None in Ev; lia].
      rewrite (aget_nth_error _ _ _ Ev). cbn [bind].
      assert (L1 : length (firstn (k + r * j) src) = k + r * j) by (apply firstn_length_le; lia).
      rewrite aset_ok by (rewrite app_length, L1, skipn_length; lia).
      eexists; split; [reflexivity|].
      apply nth_error_ext. intros x.
      assert (L2 : length (firstn (1 + k + r * j) src) = 1 + k + r * j) by (apply firstn_length_le; lia).
      assert (Hsk : forall n y, nth_error (skipn n dst) y = nth_error dst (n + y)).
      { intros n. generalize dst. induction n; intros [|z zs] y; simpl; auto. destruct y; auto. }
      destruct (Nat.eq_dec x (k + r * j)) as [->|Hx].
      * rewrite nth_error_upd_same by (rewrite app_length, L1, skipn_length; lia).
        rewrite nth_error_app1 by lia. rewrite nth_error_firstn by lia. auto.
      * rewrite nth_error_upd_other by auto.
        destruct (lt_dec x (k + r * j)).
        -- rewrite !nth_error_app1 by lia. rewrite !nth_error_firstn by lia. reflexivity.
        -- rewrite !nth_error_app2 by lia. rewrite L1, L2, !Hsk. f_equal. lia.
    + exists (firstn (r * (1 + j)) src ++ skipn (r * (1 + j)) dst). split; [|reflexivity].
      replace (r * (1 + j)) with (r + r * j) by lia. exact E.
  - exact E.
Qed.

(** ** Sums of counters. *)
Lemma sum_filters_spec (fs : list (list nat)) :
  Forall (fun f => length f = 17) fs ->
  exists r, sum_filters (length fs) (flat_map (fun f => f) fs) = Ok r /\ length r = 17
    /\ forall k, k < 17 -> nth k r 0 = list_sum (map (fun f => nth k f 0) fs).
Proof.
  intros Hf. unfold sum_filters. rewrite Forall_forall in Hf.
  destruct (for_loop_inv (fun j r => length r = 17 /\ forall k, k < 17 -> nth k r 0 = list_sum (map (fun f => nth k f 0) (firstn j fs)))
    (fun k filters => for_loop N_FILTERS (fun j filters =>
      do v <- aget (flat_map (fun f => f) fs) (j + k * N_FILTERS); do w <- aget filters j; aset filters j (w + v)) filters)
    (length fs) (repeat 0 N_FILTERS)) as (r & E & Hl & Hr).
  - split; [reflexivity|]. intros k Hk. simpl. unfold N_FILTERS.
    do 17 (destruct k as [|k]; [reflexivity|]). lia.
  - intros j r Hj (Hl & Hr).
    destruct (nth_error fs j) as [f|] eqn:Ef; [|apply nth_error_None in Ef; lia].
    assert (Lf : length f = 17) by (apply Hf; eapply nth_error_In; eauto).
    destruct (for_loop_inv (fun i r' => length r' = 17 /\ forall k, k < 17 ->
        nth k r' 0 = nth k r 0 + (if k <? i then nth k f 0 else 0))
      (fun j0 filters => do v <- aget (flat_map (fun f => f) fs) (j0 + j * N_FILTERS); do w <- aget filters j0; aset filters j0 (w + v))
      N_FILTERS r) as (r' & E & Hl' & Hr').
    + split; [auto|]. intros k Hk. simpl. lia.
    + intros i r' Hi (Hl' & Hr'). unfold N_FILTERS in *.
      rewrite (aget_ok _ _ 0).
      2:{ rewrite (flat_map_len _ 17) by auto. nia. }
      replace (i + j * 17) with (i + 17 * j) by lia.
      rewrite (flat_map_nth (fun f => f) 17 fs j i f) by auto. cbn [bind].
      rewrite (aget_ok _ _ 0) by lia. cbn [bind]. rewrite aset_ok by lia.
      eexists; split; [reflexivity|]. split; [rewrite upd_length; auto|].
      intros k Hk. rewrite nth_upd. replace (i <? length r') with true by (symmetry; apply Nat.ltb_lt; lia).
      rewrite andb_true_r. destruct (k =? i) eqn:Eki.
      * bprop. subst. rewrite Hr' by auto. rewrite Nat.ltb_irrefl.
        replace (i <? 1 + i) with true by (symmetry; apply Nat.ltb_lt; lia). lia.
      * rewrite Hr' by auto. bprop.
        destruct (k <? i) eqn:E1, (k <? 1 + i) eqn:E2; bprop; lia.
    + exists r'. split; [exact E|split; [auto|]]. intros k Hk. rewrite Hr' by auto.
      replace (k <? N_FILTERS) with true by (symmetry; apply Nat.ltb_lt; unfold N_FILTERS; lia).
      rewrite Hr by auto. clear - Ef. revert j Ef.
      induction fs as [|g fs IH]; intros [|j] Ef; simpl in *; try discriminate.
      * injection Ef as ->. lia.
      * rewrite <- (IH _ Ef). lia.
  - exists r. split; [exact E|split; [auto|]]. intros k Hk. rewrite Hr by auto. rewrite firstn_all. reflexivity.
Qed.

Section Facts.
Context {F : Type} (o : fops F) (fof : nat -> F) (na : nat).
Notation contribution := (@contribution F).
Notation msg := (@msg F).

(** A contribution whose parts fit together. *)
Definition contrib_ok (c : contribution) : Prop :=
  length (sn_filters (c_snap c)) = 17 /\ nth 1 (sn_filters (c_snap c)) 0 = c_j_scan c
  /\ length (c_timing c) = 8
  /\ 20 * c_j_scan c <= length (m_data (b_params (sn_buf (c_snap c))))
  /\ na * 4 * c_j_scan c <= length (m_data (b_fourier (sn_buf (c_snap c))))
  /\ c_j_scan c <= length (b_int (sn_buf (c_snap c))).

Definition params (c : contribution) := firstn (20 * c_j_scan c) (m_data (b_params (sn_buf (c_snap c)))).
Definition fourier (c : contribution) := firstn (na * 4 * c_j_scan c) (m_data (b_fourier (sn_buf (c_snap c)))).
Definition ints (c : contribution) := firstn (1 * c_j_scan c) (b_int (sn_buf (c_snap c))).

Lemma params_len c : contrib_ok c -> length (params c) = 20 * c_j_scan c.
Proof. intros H. apply firstn_length_le, H. Qed.
Lemma fourier_len c : contrib_ok c -> length (fourier c) = na * 4 * c_j_scan c.
Proof. intros H. apply firstn_length_le, H. Qed.
Lemma ints_len c : contrib_ok c -> length (ints c) = c_j_scan c.
Proof. intros H. unfold ints. rewrite Nat.mul_1_l. apply firstn_length_le, H. Qed.

(** What process 0 must end up with. *)
Definition is_merged (cs : list contribution) (out : @merged F) : Prop :=
  let n_scan := list_sum (map c_j_scan cs) in
  length (g_filters out) = 17
  /\ (forall k, k < 17 -> nth k (g_filters out) 0 = list_sum (map (fun c => nth k (sn_filters (c_snap c)) 0) cs))
  /\ g_fractions out = map (fun v => fdiv o (fof v) (fof (nth 0 (g_filters out) 0))) (g_filters out)
  /\ g_n_scan out = n_scan
  /\ g_scan out = map (fun x => map (fun j => nth (x + 20 * j) (flat_map params cs) (fzero o)) (seq 0 n_scan)) (seq 0 20)
  /\ g_helicity out = flat_map ints cs
  /\ g_fourier out = map (fun b => map (fun j => map (fun k => nth (k + b * na + na * 4 * j) (flat_map fourier cs) (fzero o)) (seq 0 na))
                                    (seq 0 n_scan)) (seq 0 4).

Lemma flat_len {B} (f : contribution -> list B) r cs :
  (forall c, In c cs -> length (f c) = r * c_j_scan c) -> length (flat_map f cs) = r * list_sum (map c_j_scan cs).
Proof.
  induction cs as [|c cs IH]; intros H; simpl; [lia|]. rewrite app_length, H by (simpl; auto). rewrite IH by (intros; apply H; simpl; auto). simpl. nia.
Qed.

Lemma unpack_ok cs filters :
  Forall contrib_ok cs -> length filters = 17 ->
  (forall k, k < 17 -> nth k filters 0 = list_sum (map (fun c => nth k (sn_filters (c_snap c)) 0) cs)) ->
  exists out, unpack o fof na filters (list_sum (map c_j_scan cs)) (flat_map params cs) (flat_map fourier cs) (flat_map ints cs) = Ok out
    /\ is_merged cs out.
Proof.
  intros Hc Hl Hf. unfold unpack. rewrite Forall_forall in Hc.
  set (N := list_sum (map c_j_scan cs)).
  assert (LP : length (flat_map params cs) = 20 * N) by (apply flat_len; intros; apply params_len; auto).
  assert (LX : length (flat_map fourier cs) = na * 4 * N) by (apply flat_len; intros; apply fourier_len; auto).
  assert (LI : length (flat_map ints cs) = 1 * N).
  { apply flat_len. intros. rewrite ints_len by auto. lia. }
  rewrite mapM_ok with (g := fun x => map (fun j => nth (x + 20 * j) (flat_map params cs) (fzero o)) (seq 0 N)).
  2:{ intros x Hx. apply in_seq in Hx. apply mapM_ok. intros j Hj. apply in_seq in Hj. apply aget_ok.
      rewrite LP. apply idx2_bound; unfold n_parameters in *; lia. }
  cbn [bind].
  rewrite mapM_ok with (g := fun j => nth j (flat_map ints cs) 0%Z).
  2:{ intros j Hj. apply in_seq in Hj. unfold n_int_parameters. replace (0 + j * 1) with j by lia. apply aget_ok. lia. }
  cbn [bind].
  rewrite mapM_ok with (g := fun b => map (fun j => map (fun k => nth (k + b * na + na * 4 * j) (flat_map fourier cs) (fzero o)) (seq 0 na)) (seq 0 N)).
  2:{ intros b Hb. apply in_seq in Hb. apply mapM_ok. intros j Hj. apply in_seq in Hj.
      apply mapM_ok. intros k Hk. apply in_seq in Hk. apply aget_ok. rewrite LX. apply idx2_bound; nia. }
  cbn [bind]. rewrite (aget_ok _ _ 0) by lia. cbn [bind].
  rewrite mapM_ok with (g := fun j => fdiv o (fof (nth j filters 0)) (fof (nth 0 filters 0))).
  2:{ intros j Hj. apply in_seq in Hj. rewrite (aget_ok _ _ 0) by (unfold N_FILTERS in *; lia). reflexivity. }
  cbn [bind]. eexists; split; [reflexivity|].
  unfold is_merged; cbn [g_filters g_fractions g_n_scan g_scan g_helicity g_fourier].
  split; [auto|split; [auto|split; [|split; [auto|split; [auto|split; [|auto]]]]]].
  - unfold N_FILTERS. rewrite <- Hl. apply map_seq_nth.
    intros j a Ha. rewrite (nth_error_nth _ _ 0 Ha). reflexivity.
  - replace N with (length (flat_map ints cs)) by lia.
    transitivity (map (fun x => x) (flat_map ints cs)); [|apply map_id].
    apply map_seq_nth. intros j a Ha. apply nth_error_nth; auto.
Qed.

(** ** One collection. *)
Context {C : Type}.

(** The senders: their flags and contribution to this collection, and what they do next. *)
Definition sender : Type := ((nat -> bool) * contribution * list (lact msg))%type.
Definition sc (s : sender) : contribution := snd (fst s).
Definition at_start (s : sender) : leaf msg := (collect_leaf na (fst (fst s)) (sc s) ++ snd s, []).
Definition after_barrier (s : sender) : leaf msg := (tl (collect_leaf na (fst (fst s)) (sc s)) ++ snd s, []).
Definition after_counts (s : sender) : leaf msg := (skipn 3 (collect_leaf na (fst (fst s)) (sc s)) ++ snd s, []).
Definition after_data (s : sender) : leaf msg := (skipn 6 (collect_leaf na (fst (fst s)) (sc s)) ++ snd s, []).
Definition at_end (s : sender) : leaf msg := (snd s, []).

Lemma nth_mid {B} (a : list B) x b : nth_error (a ++ x :: b) (length a) = Some x.
Proof. rewrite nth_error_app2 by lia. rewrite Nat.sub_diag. reflexivity. Qed.
Lemma upd_mid {B} (a : list B) x y b : upd (a ++ x :: b) (length a) y = a ++ y :: b.
Proof. induction a; simpl; auto. f_equal; auto. Qed.

Lemma deliver_mid (a : list (leaf msg)) e m acts b i (k : msg -> rprog msg C) :
  i = length a ->
  exists n, steps n (mkState (RRecv i k) (a ++ (LSend e m :: acts, []) :: b)) (mkState (k m) (a ++ (acts, []) :: b)).
Proof.
  intros ->. destruct (deliver (length a) k (a ++ (LSend e m :: acts, []) :: b) e m acts) as (n & H).
  { apply nth_mid. }
  exists n. rewrite upd_mid in H. exact H.
Qed.

Lemma counts_phase (todo done : list sender) fdone tdone (k : list nat -> list F -> rprog msg C) :
  Forall (fun s => contrib_ok (sc s)) todo ->
  length fdone = 17 * S (length done) -> length tdone = 8 * S (length done) ->
  exists n, steps n
    (mkState (recv_counts (seq (S (length done)) (length todo))
                (fdone ++ repeat 0 (17 * length todo)) (tdone ++ repeat (fzero o) (8 * length todo)) k)
       (map after_counts done ++ map after_barrier todo))
    (mkState (k (fdone ++ flat_map (fun s => sn_filters (c_snap (sc s))) todo) (tdone ++ flat_map (fun s => c_timing (sc s)) todo))
       (map after_counts (done ++ todo))).
Proof.
  revert done fdone tdone. induction todo as [|s todo IH]; intros done fdone tdone Hok Hf Ht.
  - exists 0. rewrite app_nil_r. cbn [length map flat_map seq recv_counts]. rewrite !Nat.mul_0_r. cbn [repeat].
    rewrite !app_nil_r. constructor.
  - inversion Hok as [|? ? Hs Hok']; subst. destruct Hs as (L17 & _ & L8 & _).
    cbn [length seq recv_counts map]. unfold after_barrier at 1. cbn [collect_leaf tl app].
    destruct (deliver_mid (map after_counts done) (fst (fst s) 0) (MFilters (sn_filters (c_snap (sc s))))
       (LSend (fst (fst s) 1) (MTiming (c_timing (sc s))) :: skipn 3 (collect_leaf na (fst (fst s)) (sc s)) ++ snd s)
       (map after_barrier todo) (S (length done) - 1)
       (fun m => match m with
        | MFilters d => rbind (recv_into (fdone ++ repeat 0 (17 * S (length todo))) (N_FILTERS * S (length done)) N_FILTERS d) (fun fcomb =>
            RRecv (S (length done) - 1) (fun m => match m with
              | MTiming d => rbind (recv_into (tdone ++ repeat (fzero o) (8 * S (length todo))) (8 * S (length done)) 8 d)
                   (fun tcomb => recv_counts (seq (S (S (length done))) (length todo)) fcomb tcomb k)
              | _ => RFail end))
        | _ => RFail end)) as (n1 & S1); [rewrite map_length; lia|].
    cbv beta iota in S1. unfold N_FILTERS in S1 at 3.
    rewrite recv_into_app in S1; [|unfold N_FILTERS; lia|rewrite repeat_length; lia|unfold N_FILTERS; lia].
    cbn [rbind] in S1. rewrite L17, skipn_repeat in S1.
    match type of S1 with steps _ _ (mkState (RRecv ?i ?kk) ?ls) =>
      destruct (deliver_mid (map after_counts done) (fst (fst s) 1) (MTiming (c_timing (sc s)))
       (skipn 3 (collect_leaf na (fst (fst s)) (sc s)) ++ snd s) (map after_barrier todo) i kk) as (n2 & S2); [rewrite map_length; lia|]
    end.
    cbv beta iota in S2.
    rewrite recv_into_app in S2; [|lia|rewrite repeat_length; lia|lia].
    cbn [rbind] in S2. rewrite L8, skipn_repeat in S2.
    destruct (IH (done ++ [s]) (fdone ++ sn_filters (c_snap (sc s))) (tdone ++ c_timing (sc s)) Hok') as (n3 & S3).
    { rewrite !app_length. simpl. lia. }
    { rewrite !app_length. simpl. lia. }
    exists (n1 + (n2 + n3)). eapply steps_app; [exact S1|]. eapply steps_app; [exact S2|].
    rewrite app_length in S3. cbn [length] in S3.
    replace (length done + 1) with (S (length done)) in S3 by lia.
    replace (17 * S (length todo) - 17) with (17 * length todo) by lia.
    replace (8 * S (length todo) - 8) with (8 * length todo) by lia.
    rewrite map_app in S3. cbn [map] in S3. rewrite <- !app_assoc in S3. cbn [app] in S3.
    cbn [flat_map]. exact S3.
Qed.

Lemma data_phase kept_ (todo done : list sender) pd xd id_ offset (k : list F -> list F -> list Z -> rprog msg C) :
  Forall (fun s => contrib_ok (sc s)) todo ->
  (forall i s, nth_error todo i = Some s -> nth_error kept_ (S (length done) + i) = Some (c_j_scan (sc s))) ->
  length pd = 20 * offset -> length xd = na * 4 * offset -> length id_ = offset ->
  let left := list_sum (map (fun s => c_j_scan (sc s)) todo) in
  exists n, steps n
    (mkState (recv_data na (seq (S (length done)) (length todo)) kept_ offset
                (pd ++ repeat (fzero o) (20 * left)) (xd ++ repeat (fzero o) (na * 4 * left)) (id_ ++ repeat 0%Z left) k)
       (map after_data done ++ map after_counts todo))
    (mkState (k (pd ++ flat_map (fun s => params (sc s)) todo) (xd ++ flat_map (fun s => fourier (sc s)) todo)
                (id_ ++ flat_map (fun s => ints (sc s)) todo))
       (map after_data (done ++ todo))).
Proof.
  revert done pd xd id_ offset. induction todo as [|s todo IH]; intros done pd xd id_ offset Hok Hk Hp Hx Hi left.
  - exists 0. rewrite app_nil_r. subst left. cbn [length map flat_map seq recv_data list_sum fold_right]. rewrite !Nat.mul_0_r. cbn [repeat].
    rewrite !app_nil_r. constructor.
  - inversion Hok as [|? ? Hs Hok']; subst left. cbn [length seq recv_data map].
    set (left := list_sum (map (fun s => c_j_scan (sc s)) todo)).
    change (list_sum (c_j_scan (sc s) :: map (fun s => c_j_scan (sc s)) todo)) with (c_j_scan (sc s) + left).
    set (js := c_j_scan (sc s)) in *.
    pose proof (Hk 0 s eq_refl) as Hk0. rewrite Nat.add_0_r in Hk0.
    rewrite (aget_nth_error _ _ _ Hk0). cbn [rbind]. fold js.
    pose proof (params_len _ Hs) as LP. pose proof (fourier_len _ Hs) as LX. pose proof (ints_len _ Hs) as LI.
    fold js in LP, LX, LI.
    unfold after_counts at 1. cbn [collect_leaf skipn app].
    match goal with |- exists n, steps n (mkState (RRecv ?i ?kk) (?a ++ (LSend ?e ?m :: ?acts, []) :: ?b)) _ =>
      destruct (deliver_mid a e m acts b i kk) as (n1 & S1); [rewrite map_length; lia|] end.
    cbv beta iota in S1. change (firstn (n_parameters * c_j_scan (sc s)) (m_data (b_params (sn_buf (c_snap (sc s)))))) with (params (sc s)) in S1.
    rewrite recv_into_app in S1; [|unfold n_parameters; lia|rewrite repeat_length; lia|unfold n_parameters; lia].
    cbn [rbind] in S1. rewrite LP, skipn_repeat in S1.
    match type of S1 with steps _ _ (mkState (RRecv ?i ?kk) (?a ++ (LSend ?e ?m :: ?acts, []) :: ?b)) =>
      destruct (deliver_mid a e m acts b i kk) as (n2 & S2); [rewrite map_length; lia|] end.
    cbv beta iota in S2. change (firstn (na * 4 * c_j_scan (sc s)) (m_data (b_fourier (sn_buf (c_snap (sc s)))))) with (fourier (sc s)) in S2.
    rewrite recv_into_app in S2; [|lia|rewrite repeat_length; nia|lia].
    cbn [rbind] in S2. rewrite LX, skipn_repeat in S2.
    match type of S2 with steps _ _ (mkState (RRecv ?i ?kk) (?a ++ (LSend ?e ?m :: ?acts, []) :: ?b)) =>
      destruct (deliver_mid a e m acts b i kk) as (n3 & S3); [rewrite map_length; lia|] end.
    cbv beta iota in S3.
    change (firstn (n_int_parameters * c_j_scan (sc s)) (b_int (sn_buf (c_snap (sc s))))) with (ints (sc s)) in S3.
    rewrite recv_into_app in S3; [|unfold n_int_parameters; lia|rewrite repeat_length; lia|unfold n_int_parameters; lia].
    cbn [rbind] in S3. rewrite LI, skipn_repeat in S3.
    destruct (IH (done ++ [s]) (pd ++ params (sc s)) (xd ++ fourier (sc s)) (id_ ++ ints (sc s)) (offset + js) Hok') as (n4 & S4).
    { intros i s' Hi'. rewrite app_length. cbn [length].
      replace (S (length done + 1) + i) with (S (length done) + S i) by lia. apply Hk. exact Hi'. }
    { rewrite app_length. lia. } { rewrite app_length. nia. } { rewrite app_length. lia. }
    exists (n1 + (n2 + (n3 + n4))). eapply steps_app; [exact S1|]. eapply steps_app; [exact S2|]. eapply steps_app; [exact S3|].
    fold left in S4.
    rewrite app_length in S4. cbn [length] in S4.
    replace (length done + 1) with (S (length done)) in S4 by lia.
    replace (20 * (js + left) - 20 * js) with (20 * left) by lia.
    replace (na * 4 * (js + left) - na * 4 * js) with (na * 4 * left) by nia.
    replace (js + left - js) with left by lia.
    rewrite map_app in S4. cbn [map] in S4. rewrite <- !app_assoc in S4. cbn [app] in S4.
    cbn [flat_map]. exact S4.
Qed.

Lemma collect_once (c0 : contribution) (ss : list sender) (k : @merged F -> rprog msg C) :
  contrib_ok c0 -> Forall (fun s => contrib_ok (sc s)) ss ->
  exists n out, is_merged (c0 :: map sc ss) out /\
    steps n (mkState (collect_root o fof na (S (length ss)) c0 k) (map at_start ss))
            (mkState (k out) (map at_end ss)).
Proof.
  intros H0 Hs.
  set (cs := c0 :: map sc ss).
  assert (Hcs : Forall contrib_ok cs).
  { constructor; auto. rewrite Forall_forall in *. intros c Hc. apply in_map_iff in Hc. destruct Hc as (s & <- & Hs'). auto. }
  destruct H0 as (L17 & K0 & L8 & LP & LX & LI).
  destruct (sum_filters_spec (map (fun c => sn_filters (c_snap c)) cs)) as (filters & Ef & Lf & Hf).
  { rewrite Forall_forall in *. intros f Hin. apply in_map_iff in Hin. destruct Hin as (c & <- & Hc). apply (Hcs c Hc). }
  rewrite map_length in Ef. assert (Lcs : length cs = S (length ss)) by (simpl; rewrite map_length; auto).
  rewrite Lcs in Ef.
  assert (Hf' : forall k, k < 17 -> nth k filters 0 = list_sum (map (fun c => nth k (sn_filters (c_snap c)) 0) cs)).
  { intros j Hj. rewrite Hf by auto. rewrite map_map. reflexivity. }
  assert (Hn : nth 1 filters 0 = list_sum (map c_j_scan cs)).
  { rewrite Hf' by lia. f_equal. apply map_ext_in. intros c Hc. rewrite Forall_forall in Hcs. apply (Hcs c Hc). }
  destruct (unpack_ok cs filters Hcs Lf Hf') as (out & Eout & Hout).
  set (N := list_sum (map c_j_scan cs)) in *.
  assert (FM : flat_map (fun f : list nat => f) (map (fun c => sn_filters (c_snap c)) cs)
               = sn_filters (c_snap c0) ++ flat_map (fun s => sn_filters (c_snap (sc s))) ss).
  { rewrite flat_map_concat_map, map_map, <- flat_map_concat_map. unfold cs. simpl. f_equal.
    rewrite !flat_map_concat_map, map_map. reflexivity. }
  rewrite FM in Ef.
  assert (NL : N = c_j_scan c0 + list_sum (map (fun s => c_j_scan (sc s)) ss)).
  { unfold N, cs. simpl. rewrite map_map. reflexivity. }
  (* the two phases *)
  destruct (counts_phase ss [] (sn_filters (c_snap c0)) (c_timing c0)
     (fun fcomb tcomb =>
    rbind (sum_filters (S (length ss)) fcomb) (fun filters =>
    rbind (mapM (fun k => aget fcomb (KEPT + k * N_FILTERS)) (seq 0 (S (length ss)))) (fun kept =>
    rbind (aget filters KEPT) (fun n_scan =>
    rbind (copy_flat n_parameters (c_j_scan c0) (m_data (b_params (sn_buf (c_snap c0)))) (repeat (fzero o) (n_parameters * n_scan))) (fun P =>
    rbind (copy_flat (na * 4) (c_j_scan c0) (m_data (b_fourier (sn_buf (c_snap c0)))) (repeat (fzero o) (na * 4 * n_scan))) (fun X =>
    rbind (copy_flat n_int_parameters (c_j_scan c0) (b_int (sn_buf (c_snap c0))) (repeat 0%Z (n_int_parameters * n_scan))) (fun I =>
    recv_data na (seq 1 (S (length ss) - 1)) kept (c_j_scan c0) P X I (fun P X I =>
    rbind (unpack o fof na filters n_scan P X I) (fun out =>
    RBarrier (k out)))))))))) Hs) as (n1 & S1); [simpl; lia|simpl; lia|].
  rewrite Ef in S1. cbn [rbind] in S1.
  set (kept_ := map c_j_scan cs).
  rewrite (mapM_ok _ (fun j => nth j kept_ 0)) in S1.
  2:{ intros j Hj. apply in_seq in Hj. simpl in Hj.
      destruct (nth_error cs j) as [c|] eqn:Ec; [|apply nth_error_None in Ec; lia].
      assert (In c cs) by (eapply nth_error_In; eauto).
      rewrite Forall_forall in Hcs.
      assert (Efl : nth_error (map (fun c => sn_filters (c_snap c)) cs) j = Some (sn_filters (c_snap c)))
        by (apply (map_nth_error (fun c => sn_filters (c_snap c))); exact Ec).
      assert (A17 : forall x, In x (map (fun c => sn_filters (c_snap c)) cs) -> length x = 17).
      { intros x Hx. apply in_map_iff in Hx. destruct Hx as (c' & <- & Hc'). apply (Hcs c' Hc'). }
      rewrite <- FM. unfold KEPT, N_FILTERS. rewrite (aget_ok _ _ 0).
      2:{ rewrite (flat_map_len _ 17) by auto. rewrite map_length. nia. }
      f_equal. rewrite (Nat.mul_comm j 17). rewrite (flat_map_nth (fun f => f) 17 _ j 1 (sn_filters (c_snap c))); auto; [|lia].
      transitivity (c_j_scan c); [apply (Hcs c); auto|]. symmetry. apply nth_error_nth.
      apply (map_nth_error c_j_scan); exact Ec. }
  cbn [rbind] in S1. rewrite (aget_ok _ _ 0) in S1 by (unfold KEPT; lia). cbn [rbind] in S1.
  unfold KEPT in S1. rewrite Hn in S1. fold N in S1.
  rewrite copy_flat_spec in S1; [|exact LP|rewrite repeat_length; unfold n_parameters; nia]. cbn [rbind] in S1.
  rewrite copy_flat_spec in S1; [|exact LX|rewrite repeat_length; nia]. cbn [rbind] in S1.
  rewrite copy_flat_spec in S1; [|unfold n_int_parameters; lia|rewrite repeat_length; unfold n_int_parameters; lia]. cbn [rbind] in S1.
  rewrite !skipn_repeat in S1.
  assert (Hkn : map (fun j => nth j kept_ 0) (seq 0 (S (length ss))) = kept_).
  { rewrite <- Lcs. unfold kept_. replace (length cs) with (length (map c_j_scan cs)) by (apply map_length).
    transitivity (map (fun x => x) (map c_j_scan cs)); [|apply map_id].
    apply map_seq_nth. intros j a Ha. apply nth_error_nth; auto. }
  rewrite Hkn in S1.
  destruct (data_phase kept_ ss [] (params c0) (fourier c0) (ints c0) (c_j_scan c0)
     (fun P X I => rbind (unpack o fof na filters N P X I) (fun out => RBarrier (k out))) Hs) as (n2 & S2).
  { intros i s Hi. cbn [length plus]. unfold kept_, cs. cbn [map nth_error].
    rewrite map_map. apply (map_nth_error (fun s => c_j_scan (sc s))). exact Hi. }
  { apply params_len. unfold contrib_ok; auto 6. } { apply fourier_len. unfold contrib_ok; auto 6. }
  { apply ints_len. unfold contrib_ok; auto 6. }
  assert (FP : params c0 ++ flat_map (fun s => params (sc s)) ss = flat_map params cs).
  { unfold cs. simpl. f_equal. rewrite !flat_map_concat_map, map_map. reflexivity. }
  assert (FX : fourier c0 ++ flat_map (fun s => fourier (sc s)) ss = flat_map fourier cs).
  { unfold cs. simpl. f_equal. rewrite !flat_map_concat_map, map_map. reflexivity. }
  assert (FI : ints c0 ++ flat_map (fun s => ints (sc s)) ss = flat_map ints cs).
  { unfold cs. simpl. f_equal. rewrite !flat_map_concat_map, map_map. reflexivity. }
  rewrite FP, FX, FI in S2. cbv beta in S2. unfold N in S2 at 1. rewrite Eout in S2. cbn [rbind] in S2.
  exists (1 + (n1 + (n2 + 1))), out. split; [exact Hout|].
  eapply steps_app.
  { econstructor; [|constructor]. apply StepBarrier. rewrite Forall_map. apply Forall_forall. intros s _.
    unfold at_start. simpl. eauto. }
  rewrite map_map.
  replace (map (fun x => (tl (fst (at_start x)), snd (at_start x))) ss) with (map after_counts [] ++ map after_barrier ss)
    by reflexivity.
  assert (R1 : recv_into (repeat 0 (N_FILTERS * S (length ss))) 0 N_FILTERS (sn_filters (c_snap c0))
               = Ok (sn_filters (c_snap c0) ++ repeat 0 (17 * length ss))).
  { change (repeat 0 (N_FILTERS * S (length ss))) with ([] ++ repeat 0 (N_FILTERS * S (length ss))).
    unfold N_FILTERS. rewrite recv_into_app; [|reflexivity|rewrite repeat_length; lia|lia].
    rewrite L17, skipn_repeat. cbn [app]. replace (17 * S (length ss) - 17) with (17 * length ss) by lia. reflexivity. }
  assert (R2 : recv_into (repeat (fzero o) (8 * S (length ss))) 0 8 (c_timing c0)
               = Ok (c_timing c0 ++ repeat (fzero o) (8 * length ss))).
  { change (repeat (fzero o) (8 * S (length ss))) with ([] ++ repeat (fzero o) (8 * S (length ss))).
    rewrite recv_into_app; [|reflexivity|rewrite repeat_length; lia|lia].
    rewrite L8, skipn_repeat. cbn [app]. replace (8 * S (length ss) - 8) with (8 * length ss) by lia. reflexivity. }
  rewrite R1. cbn [rbind]. rewrite R2. cbn [rbind].
  replace (S (length ss) - 1) with (length ss) in * by lia.
  eapply steps_app; [exact S1|]. clear S1.
  change (map after_counts ([] ++ ss)) with (map after_data [] ++ map after_counts ss).
  replace (n_parameters * N - n_parameters * c_j_scan c0) with (20 * list_sum (map (fun s => c_j_scan (sc s)) ss))
    by (unfold n_parameters; lia).
  replace (na * 4 * N - na * 4 * c_j_scan c0) with (na * 4 * list_sum (map (fun s => c_j_scan (sc s)) ss)) by nia.
  replace (n_int_parameters * N - n_int_parameters * c_j_scan c0) with (list_sum (map (fun s => c_j_scan (sc s)) ss))
    by (unfold n_int_parameters; lia).
  change (firstn (n_int_parameters * c_j_scan c0) (b_int (sn_buf (c_snap c0)))) with (ints c0).
  change (firstn (n_parameters * c_j_scan c0) (m_data (b_params (sn_buf (c_snap c0))))) with (params c0).
  change (firstn (na * 4 * c_j_scan c0) (m_data (b_fourier (sn_buf (c_snap c0))))) with (fourier c0).
  eapply steps_app; [exact S2|]. clear S2. cbn [app].
  econstructor; [|].
  - apply StepBarrier. rewrite Forall_map. apply Forall_forall. intros s _. unfold after_data. simpl. eauto.
  - rewrite map_map. constructor.
Qed.
End Facts.
