(** Proofs about [Outfile]. *)
From Coq Require Import String Ascii List Arith Lia DecimalString DecimalNat Decimal FinFun.
From Verif Require Import Base BaseFacts Outfile OutfileSpec.
Import ListNotations.
Open Scope string_scope.

Lemma append_assoc (a b c : string) : (a ++ b) ++ c = a ++ b ++ c.
Proof. induction a; simpl; congruence. Qed.

Lemma append_nil_r (a : string) : a ++ "" = a.
Proof. induction a; simpl; congruence. Qed.

Lemma length_append (a b : string) : String.length (a ++ b) = String.length a + String.length b.
Proof. induction a; simpl; congruence. Qed.

Lemma append_inj_l (a b c : string) : a ++ b = a ++ c -> b = c.
Proof. induction a; simpl; intros H; auto. inversion H; auto. Qed.

Lemma append_inj_len (a b c d : string) :
  String.length a = String.length c -> a ++ b = c ++ d -> a = c /\ b = d.
Proof.
  revert c; induction a as [|x a IH]; intros [|y c] Hl H; simpl in *; try discriminate; auto.
  inversion H; subst. destruct (IH c) as [-> ->]; auto.
Qed.

Lemma append_inj_r (a b c : string) : a ++ c = b ++ c -> a = b.
Proof.
  intros H. assert (String.length a = String.length b).
  { apply (f_equal String.length) in H. rewrite !length_append in H. lia. }
  now destruct (append_inj_len _ _ _ _ H0 H).
Qed.

Lemma substring_0_append (a b : string) : substring 0 (String.length a) (a ++ b) = a.
Proof. induction a; simpl. { destruct b; auto. } congruence. Qed.

Lemma substring_all (b : string) : substring 0 (String.length b) b = b.
Proof. induction b; simpl; congruence. Qed.

Lemma substring_tail (a b : string) :
  substring (String.length a) (String.length b) (a ++ b) = b.
Proof. induction a; simpl; auto. apply substring_all. Qed.

Lemma rfind_none s : rfind "/" s = None <-> no_slash s.
Proof.
  induction s as [|a s IH]; simpl; [tauto|].
  destruct (rfind "/" s).
  - split; [discriminate|]. intros [_ H]. apply IH in H. discriminate.
  - destruct (Ascii.eqb_spec a "/").
    + split; [discriminate|tauto].
    + tauto.
Qed.

Lemma rfind_some s k : rfind "/" s = Some k ->
  exists D F, s = D ++ "/" ++ F /\ String.length D = k /\ no_slash F.
Proof.
  revert k; induction s as [|a s IH]; simpl; intros k H; [discriminate|].
  destruct (rfind "/" s) as [k'|] eqn:E.
  - inversion H; subst. destruct (IH k' eq_refl) as (D & F & -> & Hl & Hn).
    exists (String a D), F. simpl. auto.
  - destruct (Ascii.eqb_spec a "/"); inversion H; subst.
    exists "", s. simpl. repeat split; auto. now apply rfind_none.
Qed.

Lemma rfind_split D F : no_slash F -> rfind "/" (D ++ "/" ++ F) = Some (String.length D).
Proof.
  intros H. induction D as [|a D IH]; simpl in *.
  - apply rfind_none in H. rewrite H. reflexivity.
  - rewrite IH. reflexivity.
Qed.

(** Splitting a path at its last slash. *)
Definition split_path (p : string) : outcome (string * string) :=
  match rfind "/" p with
  | Some k =>
      do d <- substr p 0 (k + 1);
      do f <- substr p (k + 1) (String.length p - k - 1);
      Ok (d, f)
  | None => Ok ("", p)
  end.

Lemma split_path_ok D F : is_dir D -> no_slash F -> split_path (D ++ F) = Ok (D, F).
Proof.
  intros [->|[D' ->]] HF; unfold split_path.
  - simpl. apply rfind_none in HF. rewrite HF. reflexivity.
  - rewrite append_assoc, rfind_split by auto.
    unfold substr. simpl (0 <=? _)%nat. cbv iota. simpl.
    assert (L1 : String.length D' + 1 = String.length (D' ++ "/"))
      by (rewrite length_append; reflexivity).
    rewrite length_append. simpl.
    assert (L2 : String.length D' + S (String.length F) - String.length D' - 1 = String.length F) by lia.
    replace (String.length D' + 1 <=? String.length D' + S (String.length F))%nat with true
      by (symmetry; apply Nat.leb_le; lia).
    simpl. rewrite L2, L1.
    replace (D' ++ String "/" F) with ((D' ++ "/") ++ F) by (rewrite append_assoc; reflexivity).
    rewrite substring_0_append, substring_tail. reflexivity.
Qed.

Lemma split_path_exists p : exists D F, p = D ++ F /\ is_dir D /\ no_slash F.
Proof.
  destruct (rfind "/" p) as [k|] eqn:E.
  - apply rfind_some in E as (D & F & -> & _ & HF).
    exists (D ++ "/"), F. rewrite append_assoc. repeat split; auto. right. eauto.
  - apply rfind_none in E. exists "", p. repeat split; auto. now left.
Qed.

Lemma no_slash_append a b : no_slash (a ++ b) <-> no_slash a /\ no_slash b.
Proof. induction a; simpl; tauto. Qed.

Lemma prefix7 (s : string) :
  7 <= String.length s -> substring 0 7 s = "qsc_in." -> exists X, s = "qsc_in." ++ X.
Proof.
  do 7 (destruct s as [|? s]; [simpl; lia|]).
  intros _ H. simpl in H. assert (substring 0 0 s = "") by (destruct s; reflexivity).
  rewrite H0 in H. inversion H; subst. exists s. reflexivity.
Qed.

Lemma outfile_unfold p : outfile p =
  do dir_in <- split_path p;
  let directory := fst dir_in in
  let infile := snd dir_in in
  if (String.length infile <? 7)%nat then Throw "Input file must begin with 'qsc_in.'"
  else
    do infile_start <- substr infile 0 7;
    if negb (String.eqb infile_start "qsc_in.") then Throw "Input file must begin with 'qsc_in.'"
    else
      do rest <- substr infile 7 (String.length infile - 7);
      Ok (directory ++ "qsc_out." ++ rest ++ ".nc").
Proof. reflexivity. Qed.

Lemma outfile_ok D X : is_dir D -> no_slash X ->
  outfile (D ++ "qsc_in." ++ X) = Ok (D ++ "qsc_out." ++ X ++ ".nc").
Proof.
  intros HD HX. rewrite outfile_unfold, split_path_ok; auto.
  2:{ apply no_slash_append. split; auto. simpl. repeat split; discriminate. }
  assert (E : substring 0 0 X = "") by (destruct X; reflexivity).
  cbn. rewrite E. cbn. rewrite Nat.sub_0_r, substring_all. reflexivity.
Qed.

Lemma outfile_cases p :
  (exists D X, is_dir D /\ no_slash X /\ p = D ++ "qsc_in." ++ X
               /\ outfile p = Ok (D ++ "qsc_out." ++ X ++ ".nc"))
  \/ ((forall D X, is_dir D -> no_slash X -> p <> D ++ "qsc_in." ++ X)
      /\ exists msg, outfile p = Throw msg).
Proof.
  destruct (split_path_exists p) as (D & F & -> & HD & HF).
  destruct (Nat.ltb_spec (String.length F) 7) as [Hl|Hl].
  - right. split.
    + intros D2 X HD2 HX E.
      assert (split_path (D ++ F) = Ok (D, F)) by (apply split_path_ok; auto).
      rewrite E, split_path_ok in H; auto.
      2:{ apply no_slash_append. split; auto. simpl. repeat split; discriminate. }
      inversion H; subst. simpl in Hl. lia.
    + rewrite outfile_unfold, split_path_ok by auto. simpl.
      apply Nat.ltb_lt in Hl. rewrite Hl. eauto.
  - destruct (string_dec (substring 0 7 F) "qsc_in.") as [E|E].
    + left. apply prefix7 in E as [X ->]; auto.
      apply no_slash_append in HF as [_ HX].
      exists D, X. repeat split; auto. apply outfile_ok; auto.
    + right. split.
      * intros D2 X HD2 HX E2.
        assert (split_path (D ++ F) = Ok (D, F)) by (apply split_path_ok; auto).
        rewrite E2, split_path_ok in H; auto.
        2:{ apply no_slash_append. split; auto. simpl. repeat split; discriminate. }
        inversion H; subst. apply E. simpl. destruct X; reflexivity.
      * rewrite outfile_unfold, split_path_ok by auto. cbn [bind fst snd].
        assert (N : (String.length F <? 7)%nat = false) by (apply Nat.ltb_ge; auto).
        rewrite N. unfold substr.
        replace (0 <=? String.length F)%nat with true by reflexivity. cbn [bind].
        apply String.eqb_neq in E. rewrite E. simpl. eauto.
Qed.

(** Two splits of one path coincide. *)
Lemma split_unique D F D' F' : is_dir D -> no_slash F -> is_dir D' -> no_slash F' ->
  D ++ F = D' ++ F' -> D = D' /\ F = F'.
Proof.
  intros H1 H2 H3 H4 E.
  pose proof (split_path_ok D F H1 H2) as A. rewrite E, split_path_ok in A; auto.
  inversion A; auto.
Qed.

Lemma no_slash_out X : no_slash X -> no_slash ("qsc_out." ++ X ++ ".nc").
Proof.
  intros. apply no_slash_append. split. { simpl. repeat split; discriminate. }
  apply no_slash_append. split; auto. simpl. repeat split; discriminate.
Qed.

Lemma outfile_inj p q o : outfile p = Ok o -> outfile q = Ok o -> p = q.
Proof.
  intros Hp Hq.
  destruct (outfile_cases p) as [(D & X & HD & HX & -> & E)|[_ [m E]]]; [|congruence].
  destruct (outfile_cases q) as [(D' & X' & HD' & HX' & -> & E')|[_ [m E']]]; [|congruence].
  rewrite Hp in E. rewrite Hq in E'. inversion E as [E1]. inversion E' as [E2].
  rewrite E1 in E2.
  destruct (split_unique _ _ _ _ HD (no_slash_out _ HX) HD' (no_slash_out _ HX') E2) as [-> E3].
  inversion E3 as [E4]. apply append_inj_r in E4. subst. reflexivity.
Qed.

Lemma outfile_not_input p o : outfile p = Ok o -> o <> p.
Proof.
  intros Hp.
  destruct (outfile_cases p) as [(D & X & HD & HX & -> & E)|[_ [m E]]]; [|congruence].
  rewrite Hp in E. inversion E. intros C. apply (f_equal String.length) in C.
  repeat (simpl in C; rewrite ?length_append in C). lia.
Qed.

Lemma to_string_inj j k : to_string j = to_string k -> j = k.
Proof.
  unfold to_string. intros H.
  assert (N : forall n, Nat.to_uint n <> Nil).
  { intros n E. pose proof (Unsigned.of_to n) as P. rewrite E in P. simpl in P. subst n.
    discriminate E. }
  apply (f_equal NilZero.uint_of_string) in H.
  rewrite !NilZero.usu in H by auto. inversion H as [H'].
  apply (f_equal Nat.of_uint) in H'. rewrite !Unsigned.of_to in H'. auto.
Qed.

Lemma stage_name_ok S j : multiopt_stage_name (S ++ ".nc") j = Ok (S ++ "_" ++ to_string j ++ ".nc").
Proof.
  unfold multiopt_stage_name, substr. simpl (0 <=? _)%nat. cbn [bind].
  rewrite length_append. simpl (String.length ".nc").
  replace (String.length S + 3 - 3) with (String.length S) by lia.
  rewrite substring_0_append. reflexivity.
Qed.

Lemma multiopt_names_from_ok S n j :
  multiopt_names_from (S ++ ".nc") j n
  = Ok (map (fun k => S ++ "_" ++ to_string k ++ ".nc") (seq j n)).
Proof.
  revert j; induction n as [|n IH]; intros j; [reflexivity|].
  cbn [multiopt_names_from]. rewrite stage_name_ok. cbn [bind]. rewrite IH. reflexivity.
Qed.

Lemma outfile_form p o : outfile p = Ok o -> exists S, o = S ++ ".nc".
Proof.
  intros Hp.
  destruct (outfile_cases p) as [(D & X & HD & HX & -> & E)|[_ [m E]]]; [|congruence].
  rewrite Hp in E. inversion E. exists (D ++ "qsc_out." ++ X). rewrite !append_assoc. reflexivity.
Qed.

Lemma multiopt_names_ok p n S : outfile p = Ok (S ++ ".nc") ->
  multiopt_names p n = Ok (map (fun k => S ++ "_" ++ to_string k ++ ".nc") (seq 0 n)).
Proof. intros H. unfold multiopt_names. rewrite H. simpl. apply multiopt_names_from_ok. Qed.

Lemma stage_inj S j k :
  S ++ "_" ++ to_string j ++ ".nc" = S ++ "_" ++ to_string k ++ ".nc" -> j = k.
Proof.
  intros H. apply append_inj_l in H. apply append_inj_l in H. apply append_inj_r in H.
  now apply to_string_inj.
Qed.

Lemma multiopt_names_distinct p n o names :
  outfile p = Ok o -> multiopt_names p n = Ok names ->
  length names = n /\ NoDup names /\ ~ In o names /\ ~ In p names.
Proof.
  intros Ho Hn. destruct (outfile_form _ _ Ho) as [S ->].
  rewrite (multiopt_names_ok _ _ _ Ho) in Hn. inversion Hn; subst. clear Hn.
  rewrite map_length, seq_length. repeat split; auto.
  - apply FinFun.Injective_map_NoDup; [|apply seq_NoDup]. intros j k. apply stage_inj.
  - intros H. apply in_map_iff in H as (k & E & _).
    apply (f_equal String.length) in E. repeat (simpl in E; rewrite ?length_append in E). lia.
  - destruct (outfile_cases p) as [(D & X & HD & HX & -> & E)|[_ [m E]]]; [|congruence].
    rewrite Ho in E. inversion E as [E']. intros H. apply in_map_iff in H as (k & E2 & _).
    assert (S = D ++ "qsc_out." ++ X).
    { apply append_inj_r with ".nc". rewrite E'. rewrite !append_assoc. reflexivity. }
    subst S. apply (f_equal String.length) in E2. repeat (simpl in E2; rewrite ?length_append in E2). lia.
Qed.

Lemma multiopt_names_total p n o :
  outfile p = Ok o ->
  exists names, multiopt_names p n = Ok names
    /\ length names = n /\ NoDup names /\ ~ In o names /\ ~ In p names.
Proof.
  intros H. destruct (outfile_form _ _ H) as [S ->].
  eexists. split. { apply (multiopt_names_ok _ n _ H). }
  eapply multiopt_names_distinct; eauto using multiopt_names_ok.
Qed.

Lemma multiopt_name_form D X n k : is_dir D -> no_slash X -> k < n ->
  exists names, multiopt_names (D ++ "qsc_in." ++ X) n = Ok names
    /\ nth_error names k = Some (D ++ "qsc_out." ++ X ++ "_" ++ to_string k ++ ".nc").
Proof.
  intros HD HX Hk. pose proof (outfile_ok D X HD HX) as H.
  assert (E : D ++ "qsc_out." ++ X ++ ".nc" = (D ++ "qsc_out." ++ X) ++ ".nc")
    by (rewrite !append_assoc; reflexivity).
  rewrite E in H. eexists. split. { apply (multiopt_names_ok _ n _ H). }
  rewrite nth_error_map.
  rewrite (nth_error_nth' (seq 0 n) 0) by (rewrite seq_length; auto).
  rewrite seq_nth by auto. simpl. rewrite !append_assoc. reflexivity.
Qed.
