(** Proofs about [Toml]. *)
From Coq Require Import String ZArith List Arith Bool Lia.
From Verif Require Import Base BaseFacts Toml TomlSpec.
Import ListNotations.
Open Scope string_scope.

Section Facts.
Context {F : Type}.
Variable of_int : Z -> F.
Notation convert := (convert of_int).
Notation denotes := (denotes of_int).

Lemma to_int32_id z : in_int32 z -> to_int32 z = z.
Proof. unfold in_int32, to_int32. intros H. rewrite Z.mod_small by lia. lia. Qed.

Lemma to_int32_of z : int32_of z (to_int32 z).
Proof.
  unfold int32_of, in_int32, to_int32.
  pose proof (Z.mod_pos_bound (z + 2147483648) 4294967296 ltac:(lia)).
  split; [lia|]. exists ((z + 2147483648) / 4294967296)%Z.
  pose proof (Z.div_mod (z + 2147483648) 4294967296 ltac:(lia)). lia.
Qed.

Lemma int32_of_unique z a b : int32_of z a -> int32_of z b -> a = b.
Proof. unfold int32_of, in_int32. intros [Ha [q ->]] [Hb [r E]]. nia. Qed.

Lemma map_outcome_ok {A B} (f : A -> outcome B) l bs :
  map_outcome f l = Ok bs -> Forall2 (fun a b => f a = Ok b) l bs.
Proof.
  revert bs; induction l as [|a l IH]; simpl; intros bs H.
  - inversion H. constructor.
  - destruct (f a) eqn:E; try discriminate. simpl in H.
    destruct (map_outcome f l); try discriminate. inversion H; subst. constructor; auto.
Qed.

Lemma map_outcome_cases {A B} (f : A -> outcome B) l :
  (forall a, (exists b, f a = Ok b) \/ exists m, f a = Throw m) ->
  (exists bs, map_outcome f l = Ok bs) \/ (exists m, map_outcome f l = Throw m).
Proof.
  intros Hf. induction l as [|a l IH]; simpl; [eauto|].
  destruct (Hf a) as [[b ->]|[m ->]]; simpl; [|eauto].
  destruct IH as [[bs ->]|[m ->]]; simpl; eauto.
Qed.

Lemma Forall2_impl' {A B} (P Q : A -> B -> Prop) l l' :
  (forall a b, P a b -> Q a b) -> Forall2 P l l' -> Forall2 Q l l'.
Proof. intros H; induction 1; constructor; auto. Qed.

(** Conversion either succeeds with the meaning, or throws and there is no meaning. *)
Lemma convert_cases k v :
  (exists c, convert k v = Ok c /\ denotes k v c)
  \/ ((exists m, convert k v = Throw m) /\ ~ exists c, denotes k v c).
Proof.
  assert (I : forall v : tval F, (exists b, as_int v = Ok b) \/ exists m, as_int v = Throw m)
    by (intros []; simpl; eauto).
  assert (S : forall v : tval F, (exists b, as_str v = Ok b) \/ exists m, as_str v = Throw m)
    by (intros []; simpl; eauto).
  assert (FL : forall v : tval F, (exists b, as_float_strict v = Ok b) \/ exists m, as_float_strict v = Throw m)
    by (intros []; simpl; eauto).
  assert (BO : forall v : tval F, (exists b, as_bool_strict v = Ok b) \/ exists m, as_bool_strict v = Throw m)
    by (intros []; simpl; eauto).
  destruct k.
  - destruct v; simpl; try (right; split; [eauto|intros [c H]; inversion H]; fail).
    left. eexists. split; [reflexivity|]. constructor. apply to_int32_of.
  - destruct v; simpl; try (right; split; [eauto|intros [c H]; inversion H]; fail).
    + left. eexists. split; [reflexivity|]. constructor.
      destruct (Z.eqb_spec z 0); simpl; split; congruence.
    + left. eexists. split; [reflexivity|]. constructor.
  - destruct v; simpl; try (right; split; [eauto|intros [c H]; inversion H]; fail);
    left; eexists; split; try reflexivity; constructor.
  - destruct v; simpl; try (right; split; [eauto|intros [c H]; inversion H]; fail).
    left; eexists; split; try reflexivity; constructor.
  - destruct v; simpl; try (right; split; [eauto|intros [c H]; inversion H]; fail).
    destruct (map_outcome_cases as_float_strict l FL) as [[bs E]|[m E]]; rewrite E; simpl.
    + left. eexists. split; [reflexivity|]. constructor. apply map_outcome_ok in E.
      eapply Forall2_impl'; [|exact E]. intros [] bb Hb; simpl in Hb; congruence.
    + right. split; [eauto|]. intros [c H]. inversion H; subst. clear H S BO I FL.
      match goal with X : Forall2 _ l _ |- _ => revert m E; induction X end; simpl; intros m E; [discriminate|].
      subst x. simpl in E. destruct (map_outcome as_float_strict l); try discriminate. eauto.
  - destruct v; simpl; try (right; split; [eauto|intros [c H]; inversion H]; fail).
    destruct (map_outcome_cases as_bool_strict l BO) as [[bs E]|[m E]]; rewrite E; simpl.
    + left. eexists. split; [reflexivity|]. constructor. apply map_outcome_ok in E.
      eapply Forall2_impl'; [|exact E]. intros [] bb Hb; simpl in Hb; congruence.
    + right. split; [eauto|]. intros [c H]. inversion H; subst. clear H S BO I FL.
      match goal with X : Forall2 _ l _ |- _ => revert m E; induction X end; simpl; intros m E; [discriminate|].
      subst x. simpl in E. destruct (map_outcome as_bool_strict l); try discriminate. eauto.
  - destruct v; simpl; try (right; split; [eauto|intros [c H]; inversion H]; fail).
    destruct (map_outcome_cases as_int l I) as [[bs E]|[m E]]; rewrite E; simpl.
    + left. eexists. split; [reflexivity|]. constructor. apply map_outcome_ok in E.
      eapply Forall2_impl'; [|exact E]. intros [] bb Hb; simpl in Hb; try congruence.
      inversion Hb. eexists; split; [reflexivity|]. apply to_int32_of.
    + right. split; [eauto|]. intros [c H]. inversion H; subst. clear H S BO I FL.
      match goal with X : Forall2 _ l _ |- _ => revert m E; induction X end; simpl; intros m E; [discriminate|].
      destruct H as [z [-> _]]. simpl in E. destruct (map_outcome as_int l); try discriminate. eauto.
  - destruct v; simpl; try (right; split; [eauto|intros [c H]; inversion H]; fail).
    destruct (map_outcome_cases as_str l S) as [[bs E]|[m E]]; rewrite E; simpl.
    + left. eexists. split; [reflexivity|]. constructor. apply map_outcome_ok in E.
      eapply Forall2_impl'; [|exact E]. intros [] bb Hb; simpl in Hb; congruence.
    + right. split; [eauto|]. intros [c H]. inversion H; subst. clear H S BO I FL.
      match goal with X : Forall2 _ l _ |- _ => revert m E; induction X end; simpl; intros m E; [discriminate|].
      subst x. simpl in E. destruct (map_outcome as_str l); try discriminate. eauto.
Qed.

Lemma Forall2_unique {A B} (P : A -> B -> Prop) l m1 m2 :
  (forall a b c, P a b -> P a c -> b = c) -> Forall2 P l m1 -> Forall2 P l m2 -> m1 = m2.
Proof.
  intros HP H; revert m2; induction H; intros m2 H2; inversion H2; subst; auto.
  f_equal; eauto.
Qed.

Lemma denotes_unique k v c c' : denotes k v c -> denotes k v c' -> c = c'.
Proof.
  intros H H'; inversion H; subst; inversion H'; subst; auto.
  - f_equal. eapply int32_of_unique; eauto.
  - f_equal. destruct b, b0; auto; intuition congruence.
  - f_equal. eapply Forall2_unique; [|eassumption|eassumption]. simpl. congruence.
  - f_equal. eapply Forall2_unique; [|eassumption|eassumption]. simpl. congruence.
  - f_equal. eapply Forall2_unique; [|eassumption|eassumption]. simpl.
    intros a b d [z [-> Hz]] [z2 [E Hz2]]. inversion E; subst. eapply int32_of_unique; eauto.
  - f_equal. eapply Forall2_unique; [|eassumption|eassumption]. simpl. congruence.
Qed.

(** ** Running the reads. *)
Definition doc_calls (docs : list (string * kind)) : list read_call :=
  map (fun p => (fst p, fst p, snd p)) docs.

Lemma sset_same (s : store F) x v : sset s x v x = v.
Proof. unfold sset. rewrite String.eqb_refl. reflexivity. Qed.
Lemma sset_other (s : store F) x y v : y <> x -> sset s x v y = s y.
Proof. unfold sset. intros H. apply String.eqb_neq in H. rewrite H. reflexivity. Qed.

(** The part of [valid_section] the reads themselves check. *)
Definition well_typed (docs : list (string * kind)) (t : table F) : Prop :=
  forall key k v, In (key, k) docs -> lookup key t = Some v -> exists c, denotes k v c.

Lemma run_reads_cases docs t : forall vl s,
  NoDup (map fst docs) ->
  (well_typed docs t /\ exists s', run_reads of_int t (doc_calls docs) (vl, s) = Ok ((vl ++ map fst docs)%list, s')
      /\ section_effect of_int docs t s s')
  \/ (~ well_typed docs t /\ exists m, run_reads of_int t (doc_calls docs) (vl, s) = Throw m).
Proof.
  induction docs as [|[x k] docs IH]; intros vl s Hnd.
  - left. split. { intros ? ? ? []. } exists s. simpl. rewrite app_nil_r. split; auto.
    split; [intros ? ? []|auto].
  - simpl in Hnd. inversion Hnd as [|? ? Hnin Hnd']; subst.
    assert (Hx : forall k', ~ In (x, k') docs).
    { intros k' Hi. apply Hnin. apply in_map_iff. exists (x, k'). auto. }
    simpl. unfold toml_read. simpl.
    destruct (lookup x t) as [v|] eqn:El.
    + destruct (convert_cases k v) as [[c [Ec Hd]]|[[m Em] Hn]].
      * rewrite Ec. simpl.
        destruct (IH (vl ++ [x])%list (sset s x c) Hnd') as [[Hw [s' [Es [Hs1 Hs2]]]]|[Hw [m Em]]].
        -- left. split.
           { intros key k' v' [Hi|Hi] Hl; [|eauto]. inversion Hi; subst.
             rewrite El in Hl. inversion Hl; subst. eauto. }
           exists s'. rewrite Es. rewrite <- app_assoc. split; [reflexivity|]. split.
           ++ intros key k' [Hi|Hi].
              ** inversion Hi; subst. rewrite El. rewrite Hs2 by exact Hnin.
                 rewrite sset_same. auto.
              ** specialize (Hs1 key k' Hi). destruct (lookup key t); auto.
                 rewrite Hs1. apply sset_other. intros ->. eapply Hx; eauto.
           ++ intros y Hy. simpl in Hy. rewrite Hs2 by tauto. apply sset_other. intros ->. tauto.
        -- right. split; [|eauto]. intros Hw'. apply Hw. intros key k' v' Hi. apply Hw'. now right.
      * rewrite Em. simpl. right. split; [|eauto]. intros Hw. apply Hn. apply (Hw x k v); auto. now left.
    + simpl.
      destruct (IH (vl ++ [x])%list s Hnd') as [[Hw [s' [Es [Hs1 Hs2]]]]|[Hw [m Em]]].
      * left. split.
        { intros key k' v' [Hi|Hi] Hl; [|eauto]. inversion Hi; subst. congruence. }
        exists s'. rewrite Es. rewrite <- app_assoc. split; [reflexivity|]. split.
        -- intros key k' [Hi|Hi].
           ++ inversion Hi; subst. rewrite El. apply Hs2. exact Hnin.
           ++ apply (Hs1 key k' Hi).
        -- intros y Hy. simpl in Hy. apply Hs2. tauto.
      * right. split; [|eauto]. intros Hw'. apply Hw. intros key k' v' Hi. apply Hw'. now right.
Qed.

Lemma toml_unused_cases vl (t : table F) :
  (toml_unused vl t = Ok tt /\ forall key v, In (key, v) t -> In key vl)
  \/ ((exists m, toml_unused vl t = Throw m) /\ ~ forall key v, In (key, v) t -> In key vl).
Proof.
  induction t as [|[k v] t IH]; simpl.
  - left. split; auto. intros ? ? [].
  - destruct (existsb (String.eqb k) vl) eqn:E.
    + apply existsb_exists in E as [y [Hy Ey]]. apply String.eqb_eq in Ey. subst y.
      destruct IH as [[-> H]|[[m ->] H]].
      * left. split; auto. intros key w [Hi|Hi]; [inversion Hi; subst; auto|eauto].
      * right. split; [eauto|]. intros Hc. apply H. intros key w Hi. apply (Hc key w). auto.
    + right. split; [eauto|]. intros Hc. specialize (Hc k v (or_introl eq_refl)).
      assert (existsb (String.eqb k) vl = true); [|congruence].
      apply existsb_exists. exists k. split; auto. apply String.eqb_refl.
Qed.

Lemma read_section_reads docs :
  NoDup (map fst docs) -> reads_section of_int docs (read_section of_int (doc_calls docs)).
Proof.
  intros Hnd t s. unfold read_section.
  destruct (run_reads_cases docs t [] s Hnd) as [[Hw [s' [Es He]]]|[Hw [m Em]]].
  - rewrite Es. simpl. destruct (toml_unused_cases (map fst docs) t) as [[-> Hk]|[[m ->] Hk]]; simpl.
    + left. split; [split; auto|]. eauto.
    + right. split; [|eauto]. intros [Hv _]. auto.
  - rewrite Em. simpl. right. split; [|eauto]. intros [_ Hv]. auto.
Qed.

(** The documented key list may be written in another order than the reads. *)
Lemma reads_section_perm docs docs' rd :
  (forall p, In p docs <-> In p docs') ->
  reads_section of_int docs rd -> reads_section of_int docs' rd.
Proof.
  intros Hp H t s.
  assert (Hf : forall x, In x (map fst docs) <-> In x (map fst docs')).
  { intros x. rewrite !in_map_iff. split; intros [p [E Hi]]; exists p; split; auto; now apply Hp. }
  assert (Hv : valid_section of_int docs t <-> valid_section of_int docs' t).
  { unfold valid_section. split; intros [A B]; split; intros; try (apply Hf; eauto);
      try (eapply B; eauto; now apply Hp). }
  destruct (H t s) as [[V [s' [E [A B]]]]|[V E]].
  - left. split. { now apply Hv. } exists s'. split; auto. split.
    + intros key k Hi. apply A. now apply Hp.
    + intros x Hx. apply B. now rewrite Hf.
  - right. split; auto. now rewrite <- Hv.
Qed.

(** ** Padding. *)
Lemma pad_vector_ok (zero : F) v n : length v <= n -> pad_vector zero v n = Ok (padded zero n v).
Proof.
  intros H. unfold pad_vector. apply Nat.leb_le in H as Hb. rewrite Hb.
  destruct (for_loop_inv
    (fun k w => w = (firstn k v ++ repeat zero (n - k))%list)
    (fun j w => do x <- aget v j; aset w j x) (length v) (repeat zero n)) as [w [E Hw]].
  - simpl. rewrite Nat.sub_0_r. reflexivity.
  - intros k w Hk Hw. rewrite (aget_ok v k zero Hk). cbn [bind].
    assert (Lk : length (firstn k v) = k) by (apply firstn_length_le; lia).
    rewrite aset_ok by (subst w; rewrite app_length, repeat_length, Lk; lia).
    eexists. split; [reflexivity|]. subst w.
    replace (n - k) with (Datatypes.S (n - (1 + k))) by lia. simpl repeat.
    replace (firstn (1 + k) v) with (firstn k v ++ [nth k v zero])%list.
    2:{ clear - Hk. revert k Hk. induction v as [|a v IH]; simpl; intros k Hk; [lia|].
        destruct k; simpl; auto. f_equal. apply (IH k). lia. }
    rewrite <- app_assoc. simpl.
    assert (G : forall (l : list F) x m y, upd (l ++ x :: m)%list (length l) y = (l ++ y :: m)%list).
    { induction l; simpl; intros; auto. now rewrite IHl. }
    specialize (G (firstn k v) zero (repeat zero (n - (1 + k))) (nth k v zero)).
    rewrite Lk in G. exact G.
  - rewrite E. subst w. rewrite firstn_all. reflexivity.
Qed.

Lemma pad_axis_ok (zero : F) a :
  pad_axis zero a = Ok (mkAxis (padded zero (max_len a) (R0c a)) (padded zero (max_len a) (R0s a))
                               (padded zero (max_len a) (Z0c a)) (padded zero (max_len a) (Z0s a))).
Proof.
  unfold pad_axis.
  replace (Nat.max (Nat.max (Nat.max (Nat.max 0 (length (R0c a))) (length (R0s a))) (length (Z0c a))) (length (Z0s a)))
    with (max_len a) by (unfold max_len; lia).
  rewrite !pad_vector_ok by (unfold max_len; lia). reflexivity.
Qed.

Lemma padded_length (zero : F) n l : length l <= n -> length (padded zero n l) = n.
Proof. intros. unfold padded. rewrite app_length, repeat_length. lia. Qed.

Lemma padded_nth (zero : F) n l k : nth k (padded zero n l) zero = nth k l zero.
Proof.
  unfold padded. destruct (Nat.lt_ge_cases k (length l)).
  - now rewrite app_nth1.
  - rewrite app_nth2 by lia. rewrite (nth_overflow l) by lia.
    generalize (n - length l) as m. intros m. generalize (k - length l) as j.
    induction m; intros [|j]; simpl; auto.
Qed.
End Facts.

(** ** Instances. *)
Definition kind_eqb (a b : kind) : bool :=
  match a, b with
  | KInt, KInt | KBool, KBool | KFloat, KFloat | KStr, KStr | KVec, KVec
  | KBools, KBools | KInts, KInts | KStrs, KStrs => true
  | _, _ => false
  end.
Definition doc_eqb (p q : string * kind) : bool :=
  String.eqb (fst p) (fst q) && kind_eqb (snd p) (snd q).
Definition incl_docs (l l' : list (string * kind)) : bool :=
  forallb (fun p => existsb (doc_eqb p) l') l.
Lemma incl_docs_ok l l' : incl_docs l l' = true -> forall p, In p l -> In p l'.
Proof.
  intros H p Hp. unfold incl_docs in H. rewrite forallb_forall in H. specialize (H p Hp).
  apply existsb_exists in H as [[x k] [Hq E]]. destruct p as [y k']. unfold doc_eqb in E.
  simpl in E. apply andb_prop in E as [E1 E2]. apply String.eqb_eq in E1. subst.
  destruct k, k'; simpl in E2; try discriminate; auto.
Qed.
Fixpoint nodupb (l : list string) : bool :=
  match l with [] => true | x :: r => negb (existsb (String.eqb x) r) && nodupb r end.
Lemma nodupb_ok l : nodupb l = true -> NoDup l.
Proof.
  induction l as [|x l IH]; simpl; intros H; constructor.
  - apply andb_prop in H as [H _]. intros Hi. apply negb_true_iff in H.
    assert (existsb (String.eqb x) l = true); [|congruence].
    apply existsb_exists. exists x. split; auto. apply String.eqb_refl.
  - apply andb_prop in H as [_ H]. auto.
Qed.
Ltac nodup := apply nodupb_ok; vm_compute; reflexivity.
Ltac same_members := intros p; split; apply incl_docs_ok; vm_compute; reflexivity.

Section Inst.
Context {F : Type}.
Variable of_int : Z -> F.

Definition docs_of (calls : list read_call) : list (string * kind) :=
  map (fun c => (fst (fst c), snd c)) calls.

Lemma scan_reads_section : reads_section of_int scan_keys (read_section of_int scan_reads).
Proof.
  apply (reads_section_perm of_int (docs_of scan_reads)); [same_members|].
  replace (read_section of_int scan_reads)
    with (read_section of_int (doc_calls (docs_of scan_reads))) by reflexivity.
  apply read_section_reads. nodup.
Qed.

Lemma multiopt_scan_reads_section :
  reads_section of_int multiopt_scan_keys (read_section of_int multiopt_scan_reads).
Proof.
  apply (reads_section_perm of_int (docs_of multiopt_scan_reads)); [same_members|].
  replace (read_section of_int multiopt_scan_reads)
    with (read_section of_int (doc_calls (docs_of multiopt_scan_reads))) by reflexivity.
  apply read_section_reads. nodup.
Qed.

Lemma multiopt_reads_section :
  reads_section of_int multiopt_keys (read_section of_int multiopt_reads).
Proof.
  change multiopt_reads with (doc_calls multiopt_keys).
  apply read_section_reads. nodup.
Qed.

Lemma qsc_reads_section : reads_section of_int qsc_keys (read_section of_int qsc_reads).
Proof.
  change qsc_reads with (doc_calls qsc_keys). apply read_section_reads. nodup.
Qed.

(** Reading keeps the type of an axis array. *)
Lemma effect_vec (t : table F) s s1 x (v0 : list F) :
  In (x, KVec) qsc_keys -> s x = VVec v0 -> section_effect of_int qsc_keys t s s1 ->
  exists v, s1 x = VVec v.
Proof.
  intros Hi Hs [H _]. specialize (H x KVec Hi).
  destruct (lookup x t). { inversion H; eauto. } exists v0. congruence.
Qed.

Lemma qsc_input_cases (zero : F) t s :
  (forall x, In x axis_keys -> exists v, s x = VVec v) ->
  (valid_section of_int qsc_keys t /\
   exists s1 s' a, section_effect of_int qsc_keys t s s1
     /\ s1 "R0c" = VVec (R0c a) /\ s1 "R0s" = VVec (R0s a)
     /\ s1 "Z0c" = VVec (Z0c a) /\ s1 "Z0s" = VVec (Z0s a)
     /\ qsc_input of_int zero t s = Ok s'
     /\ s' "R0c" = VVec (padded zero (max_len a) (R0c a))
     /\ s' "R0s" = VVec (padded zero (max_len a) (R0s a))
     /\ s' "Z0c" = VVec (padded zero (max_len a) (Z0c a))
     /\ s' "Z0s" = VVec (padded zero (max_len a) (Z0s a))
     /\ (forall x, ~ In x axis_keys -> s' x = s1 x))
  \/ (~ valid_section of_int qsc_keys t /\ exists msg, qsc_input of_int zero t s = Throw msg).
Proof.
  intros Hs. unfold qsc_input.
  destruct (qsc_reads_section t s) as [[V [s1 [E He]]]|[V [m E]]]; rewrite E; cbn [bind].
  2:{ right. split; eauto. }
  left. split; auto.
  destruct (Hs "R0c") as [w1 W1]; [simpl; tauto|].
  destruct (Hs "R0s") as [w2 W2]; [simpl; tauto|].
  destruct (Hs "Z0c") as [w3 W3]; [simpl; tauto|].
  destruct (Hs "Z0s") as [w4 W4]; [simpl; tauto|].
  destruct (effect_vec t s s1 "R0c" w1) as [v1 E1]; auto. { simpl; tauto. }
  destruct (effect_vec t s s1 "R0s" w2) as [v2 E2]; auto. { simpl; tauto. }
  destruct (effect_vec t s s1 "Z0c" w3) as [v3 E3]; auto. { simpl; tauto. }
  destruct (effect_vec t s s1 "Z0s" w4) as [v4 E4]; auto. { simpl; tauto. }
  rewrite E1, E2, E3, E4. cbn [vec_of bind].
  rewrite (pad_axis_ok zero (mkAxis v1 v2 v3 v4)). cbn [bind R0c R0s Z0c Z0s].
  exists s1. eexists. exists (mkAxis v1 v2 v3 v4). cbn [R0c R0s Z0c Z0s].
  split; [exact He|]. do 4 (split; [assumption|]). split; [reflexivity|].
  unfold sset. simpl. do 4 (split; [reflexivity|]).
  intros x Hx. simpl in Hx.
  destruct (String.eqb_spec x "Z0s"); [subst; tauto|].
  destruct (String.eqb_spec x "Z0c"); [subst; tauto|].
  destruct (String.eqb_spec x "R0s"); [subst; tauto|].
  destruct (String.eqb_spec x "R0c"); [subst; tauto|]. reflexivity.
Qed.

Lemma multiopt_nopts (t : table F) v0 :
  valid_section of_int multiopt_keys t ->
  (forall z, lookup "nopts" t = Some (TInt z) -> in_int32 z ->
     multiopt_input_nopts of_int t v0
     = if (z <? 1)%Z then Throw "In the multiopt parameter list, nopts must be at least 1." else Ok z)
  /\ (lookup "nopts" t = None ->
      multiopt_input_nopts of_int t v0 = UB "read of an uninitialised variable").
Proof.
  intros V.
  destruct (multiopt_reads_section t (fun x => if String.eqb x "verbose" then VInt v0 else VUninit))
    as [[_ [s1 [E [H _]]]]|[V' _]]; [|tauto].
  assert (Hn := H "nopts" KInt (or_introl eq_refl)).
  unfold multiopt_input_nopts. rewrite E. cbn [bind]. split.
  - intros z Hz Hr. rewrite Hz in Hn. inversion Hn as [? ? Heq Hk Hv| | | | | | | | | ]. subst.
    cbn [int_of bind]. assert (z' = z) as ->; [|reflexivity].
    eapply int32_of_unique; [exact Heq|]. split; auto. exists 0%Z. lia.
  - intros Hz. rewrite Hz in Hn. rewrite Hn. reflexivity.
Qed.

(** ** Opt::input. *)

Lemma section_effect_perm docs docs' (t : table F) s s' :
  (forall p, In p docs <-> In p docs') ->
  section_effect of_int docs t s s' -> section_effect of_int docs' t s s'.
Proof.
  intros Hp [A B]. split.
  - intros key k Hi. apply A. now apply Hp.
  - intros x Hx. apply B. intros Hi. apply Hx.
    rewrite in_map_iff in *. destruct Hi as [p [E Hi]]. exists p. split; auto. now apply Hp.
Qed.

Lemma opt_docs_perm : forall p, In p (docs_of opt_reads) <-> In p opt_keys.
Proof. same_members. Qed.

Lemma effect_kind docs (t : table F) s s1 x k (P : cval F -> Prop) :
  In (x, k) docs -> section_effect of_int docs t s s1 -> P (s x) ->
  (forall v c, denotes of_int k v c -> P c) -> P (s1 x).
Proof.
  intros Hi [H _] H0 Hd. specialize (H x k Hi). destruct (lookup x t); [eauto|congruence].
Qed.

Lemma vary_default_ext n s : 1 <= n ->
  exists r0c, aset (repeat true n) 0 false = Ok r0c
  /\ forall x : string,
   (sset (sset (sset (sset s "vary_R0c" (VBools r0c)) "vary_R0s" (VBools (repeat false n)))
                       "vary_Z0c" (VBools (repeat false n))) "vary_Z0s" (VBools r0c)) x
   = @vary_default F n s x.
Proof.
  intros Hn. destruct n as [|n]; [lia|].
  exists (false :: repeat true n). split; [reflexivity|].
  intros x. unfold sset, vary_default. simpl. rewrite Nat.sub_0_r.
  destruct (String.eqb_spec x "vary_Z0s"); [subst; reflexivity|].
  destruct (String.eqb_spec x "vary_Z0c"); [subst; reflexivity|].
  destruct (String.eqb_spec x "vary_R0s"); [subst; reflexivity|].
  reflexivity.
Qed.

Lemma read_algorithm_cases (v : tval F) old :
  (exists s a, v = TStr s /\ read_algorithm s old = Ok a /\ algorithm_meaning (Some v) old a)
  \/ ((forall s, v <> TStr s) \/ exists s m, v = TStr s /\ read_algorithm s old = Throw m)
      /\ forall a, ~ algorithm_meaning (Some v) old a.
Proof.
  destruct v; try (right; split; [left; intros; discriminate|intros a []]; fail).
  unfold read_algorithm, algorithm_meaning.
  destruct (String.eqb_spec s "lm"); [subst s; left; eexists; eexists; split; [reflexivity|split; [reflexivity|auto 10]]|].
  destruct (String.eqb_spec s "dogleg"); [subst s; left; eexists; eexists; split; [reflexivity|split; [reflexivity|auto 10]]|].
  destruct (String.eqb_spec s "ddogleg"); [subst s; left; eexists; eexists; split; [reflexivity|split; [reflexivity|auto 10]]|].
  destruct (String.eqb_spec s "subspace2d"); [subst s; left; eexists; eexists; split; [reflexivity|split; [reflexivity|auto 10]]|].
  destruct (String.eqb_spec s ""); [subst s; left; eexists; eexists; split; [reflexivity|split; [reflexivity|auto 10]]|].
  right. split; [right; exists s; eexists; split; [reflexivity|]|intros a; tauto].
  repeat match goal with H : s <> _ |- _ => apply String.eqb_neq in H; rewrite H; clear H end.
  reflexivity.
Qed.

Lemma read_diff_method_cases (v : tval F) old :
  (exists s a, v = TStr s /\ read_diff_method s old = Ok a /\ diff_method_meaning (Some v) old a)
  \/ ((forall s, v <> TStr s) \/ exists s m, v = TStr s /\ read_diff_method s old = Throw m)
      /\ forall a, ~ diff_method_meaning (Some v) old a.
Proof.
  destruct v; try (right; split; [left; intros; discriminate|intros a []]; fail).
  unfold read_diff_method, diff_method_meaning.
  destruct (String.eqb_spec s "forward"); [subst s; left; eexists; eexists; split; [reflexivity|split; [reflexivity|auto 10]]|].
  destruct (String.eqb_spec s "centered"); [subst s; left; eexists; eexists; split; [reflexivity|split; [reflexivity|auto 10]]|].
  destruct (String.eqb_spec s ""); [subst s; left; eexists; eexists; split; [reflexivity|split; [reflexivity|auto 10]]|].
  right. split; [right; exists s; eexists; split; [reflexivity|]|intros a; tauto].
  repeat match goal with H : s <> _ |- _ => apply String.eqb_neq in H; rewrite H; clear H end.
  reflexivity.
Qed.

Lemma toml_read_some (t : table F) key var vl s str : lookup key t = Some (TStr str) ->
  toml_read of_int t key var KStr (vl, s) = Ok ((vl ++ [key])%list, sset s var (VStr str)).
Proof. intros H. unfold toml_read. rewrite H. reflexivity. Qed.
Lemma toml_read_none (t : table F) key var vl s : lookup key t = None ->
  toml_read of_int t key var KStr (vl, s) = Ok ((vl ++ [key])%list, s).
Proof. intros H. unfold toml_read. rewrite H. reflexivity. Qed.
Lemma toml_read_bad (t : table F) key var vl s v : lookup key t = Some v -> (forall x, v <> TStr x) ->
  toml_read of_int t key var KStr (vl, s) = Throw "toml::type_error".
Proof.
  intros H Hv. unfold toml_read. rewrite H. destruct v; try reflexivity. now destruct (Hv s0).
Qed.

Lemma opt_input_cases n (t : table F) s alg dm l0 f0 :
  1 <= n -> s "nphi" = VInts l0 -> s "fourier_refine" = VInt f0 ->
  (exists s' a d, opt_input of_int n t s alg dm = Ok (s', a, d)
                  /\ opt_result of_int n t s alg dm s' a d)
  \/ ((exists m, opt_input of_int n t s alg dm = Throw m)
      /\ ~ exists s' a d, opt_result of_int n t s alg dm s' a d).
Proof.
  intros Hn Hnphi Hfr. unfold opt_input.
  destruct (vary_default_ext n s Hn) as (r0c & E1 & Hs0).
  rewrite E1. cbn [bind].
  set (s0 := sset _ "vary_Z0s" _) in *.
  replace (run_reads of_int t opt_reads ([], s0))
    with (run_reads of_int t (doc_calls (docs_of opt_reads)) ([], s0)) by reflexivity.
  destruct (run_reads_cases of_int (docs_of opt_reads) t [] s0) as [[Hw [s1 [Es He]]]|[Hw [m Em]]].
  { nodup. }
  2:{ rewrite Em. right. split; [cbn [bind]; eauto|].
      intros (s' & a & d & _ & [He _] & _). apply Hw. intros key k v Hi Hl.
      specialize (He key k (proj1 (opt_docs_perm _) Hi)). rewrite Hl in He. eauto. }
  rewrite Es. cbn [bind snd fst].
  apply (section_effect_perm _ _ _ _ _ opt_docs_perm) in He.
  assert (He' : section_effect of_int opt_keys t (vary_default n s) s1).
  { destruct He as [A B]. split.
    - intros key k Hi. specialize (A key k Hi). destruct (lookup key t); auto. now rewrite A, Hs0.
    - intros x Hx. now rewrite B, Hs0. }
  clear He.
  assert (N1 : exists nphi, s1 "nphi" = VInts nphi).
  { apply (effect_kind opt_keys t (vary_default n s) s1 "nphi" KInts (fun c => exists l, c = VInts l)); auto.
    - apply (incl_docs_ok [("nphi", KInts)]); [reflexivity|simpl; auto].
    - exists l0. exact Hnphi.
    - intros v c Hd. inversion Hd. eauto. }
  assert (N2 : exists fr, s1 "fourier_refine" = VInt fr).
  { apply (effect_kind opt_keys t (vary_default n s) s1 "fourier_refine" KInt (fun c => exists l, c = VInt l)); auto.
    - apply (incl_docs_ok [("fourier_refine", KInt)]); [reflexivity|simpl; auto].
    - exists f0. exact Hfr.
    - intros v c Hd. inversion Hd; eauto. }
  destruct N1 as [nphi N1], N2 as [fr N2]. rewrite N1, N2. cbn [ints_of int_of bind].
  (* any other store meeting the specification agrees on these two *)
  assert (U : forall s', section_effect of_int opt_keys t (vary_default n s) s' ->
              s' "nphi" = VInts nphi /\ s' "fourier_refine" = VInt fr).
  { intros s' [A _]. destruct He' as [A' _]. split.
    - assert (I : In ("nphi", KInts) opt_keys)
        by (apply (incl_docs_ok [("nphi", KInts)]); [reflexivity|simpl; auto]).
      specialize (A _ _ I). specialize (A' _ _ I). rewrite <- N1.
      destruct (lookup "nphi" t); [eapply denotes_unique; eauto|congruence].
    - assert (I : In ("fourier_refine", KInt) opt_keys)
        by (apply (incl_docs_ok [("fourier_refine", KInt)]); [reflexivity|simpl; auto]).
      specialize (A _ _ I). specialize (A' _ _ I). rewrite <- N2.
      destruct (lookup "fourier_refine" t); [eapply denotes_unique; eauto|congruence]. }
  destruct ((0 <? length nphi)%nat && negb (Z.eqb (Z.of_nat (length nphi)) (fr + 1)))%bool eqn:Ec.
  { right. split; [cbn [bind]; eauto|]. intros (s' & a & d & _ & He & _ & _ & nphi' & fr' & H1 & H2 & H3).
    destruct (U s' He) as [U1 U2]. rewrite U1 in H1. rewrite U2 in H2. inversion H1; inversion H2; subst.
    apply andb_prop in Ec as [C1 C2]. apply Nat.ltb_lt in C1. apply negb_true_iff, Z.eqb_neq in C2.
    destruct H3 as [->|H3]; [simpl in C1; lia|congruence]. }
  assert (Hchk : nphi = [] \/ Z.of_nat (length nphi) = (fr + 1)%Z).
  { destruct nphi; [now left|right]. simpl (0 <? _)%nat in Ec. cbn [andb] in Ec.
    apply negb_false_iff, Z.eqb_eq in Ec. exact Ec. }
  cbn [bind].
  assert (Hlast : forall vl (sx : store F) a_str a d,
    (forall x, In x vl <-> In x (map fst opt_keys) \/ In x opt_string_keys) ->
    algorithm_meaning (lookup "algorithm" t) alg a ->
    diff_method_meaning (lookup "diff_method" t) dm d -> a_str = tt ->
    (exists s' a0 d0, (toml_unused vl t ;; Ok (s1, a, d)) = Ok (s', a0, d0)
        /\ opt_result of_int n t s alg dm s' a0 d0)
    \/ ((exists m, (toml_unused vl t ;; Ok (s1, a, d)) = Throw m)
        /\ ~ exists s' a0 d0, opt_result of_int n t s alg dm s' a0 d0)).
  { intros vl sx u a d Hvl Ha Hd _.
    destruct (toml_unused_cases vl t) as [[-> Hk]|[[m ->] Hk]]; cbn [bind].
    - left. exists s1, a, d. split; auto. split; [|split; [exact He'|split; [auto|split; [auto|]]]].
      + intros key v Hi. apply Hvl. eauto.
      + exists nphi, fr. auto.
    - right. split; [eauto|]. intros (s' & a0 & d0 & Hk' & _). apply Hk. intros key v Hi.
      apply Hvl. eauto. }
  assert (Hmem : forall x, In x ((map fst (docs_of opt_reads) ++ ["algorithm"]) ++ ["diff_method"])%list
                 <-> In x (map fst opt_keys) \/ In x opt_string_keys).
  { intros x. rewrite !in_app_iff, !in_map_iff.
    assert (P : (exists y, fst y = x /\ In y (docs_of opt_reads)) <-> (exists y, fst y = x /\ In y opt_keys)).
    { split; intros [y [E H]]; exists y; split; auto; now apply opt_docs_perm. }
    unfold opt_string_keys. simpl. tauto. }
  assert (Hdm : forall sx a_str a,
    algorithm_meaning (lookup "algorithm" t) alg a -> a_str = tt ->
    (exists s' a0 d0,
      (do st3 <- toml_read of_int t "diff_method" "diff_method_str" KStr
              ((map fst (docs_of opt_reads) ++ ["algorithm"])%list, sset sx "diff_method_str" (VStr ""));
      do d_str <- str_of (snd st3 "diff_method_str");
      do dm' <- read_diff_method d_str dm;
      toml_unused (fst st3) t ;;
      Ok (s1, a, dm')) = Ok (s', a0, d0) /\ opt_result of_int n t s alg dm s' a0 d0)
    \/ ((exists m, (do st3 <- toml_read of_int t "diff_method" "diff_method_str" KStr
              ((map fst (docs_of opt_reads) ++ ["algorithm"])%list, sset sx "diff_method_str" (VStr ""));
      do d_str <- str_of (snd st3 "diff_method_str");
      do dm' <- read_diff_method d_str dm;
      toml_unused (fst st3) t ;;
      Ok (s1, a, dm')) = Throw m)
        /\ ~ exists s' a0 d0, opt_result of_int n t s alg dm s' a0 d0)).
  { intros sx u a Ha _.
    destruct (lookup "diff_method" t) as [v|] eqn:El.
    - destruct (read_diff_method_cases v dm) as [(str & d & -> & Er & Hm)|[Hbad Hno]].
      + rewrite (toml_read_some _ _ _ _ _ _ El). cbn [bind fst snd]. rewrite sset_same. cbn [str_of bind]. rewrite Er. cbn [bind].
        apply (Hlast _ sx tt); auto.
      + right. split.
        * destruct Hbad as [Hb|(str & m & -> & Em)].
          -- rewrite (toml_read_bad _ _ _ _ _ _ El Hb). cbn. eauto.
          -- rewrite (toml_read_some _ _ _ _ _ _ El). cbn [bind fst snd]. rewrite sset_same. cbn [str_of bind]. rewrite Em. cbn. eauto.
        * intros (s' & a0 & d0 & _ & _ & _ & Hd & _). rewrite El in Hd. eapply Hno; eauto.
    - rewrite (toml_read_none _ _ _ _ _ El). cbn [bind fst snd]. rewrite sset_same. cbn [str_of bind]. cbn [read_diff_method String.eqb bind].
      apply (Hlast _ sx tt); auto. simpl. reflexivity. }
  destruct (lookup "algorithm" t) as [v|] eqn:El.
  - destruct (read_algorithm_cases v alg) as [(str & a & -> & Er & Hm)|[Hbad Hno]].
    + rewrite (toml_read_some _ _ _ _ _ _ El). cbn [bind fst snd]. rewrite sset_same. cbn [str_of bind]. rewrite Er. cbn [bind].
      apply (Hdm _ tt); auto.
    + right. split.
      * destruct Hbad as [Hb|(str & m & -> & Em)].
        -- rewrite (toml_read_bad _ _ _ _ _ _ El Hb). cbn. eauto.
        -- rewrite (toml_read_some _ _ _ _ _ _ El). cbn [bind fst snd]. rewrite sset_same. cbn [str_of bind]. rewrite Em. cbn. eauto.
      * intros (s' & a0 & d0 & _ & _ & Hd & _). rewrite El in Hd. eapply Hno; eauto.
  - rewrite (toml_read_none _ _ _ _ _ El). cbn [bind fst snd]. rewrite sset_same. cbn [str_of bind]. cbn [read_algorithm String.eqb bind].
    apply (Hdm _ tt); auto. simpl. reflexivity.
Qed.
End Inst.
