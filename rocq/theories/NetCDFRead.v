(** Facts about layout, and about reading what has been written. *)
From Coq Require Import String Ascii ZArith Arith Bool Lia List.
From Verif Require Import Base BaseFacts Alloc AllocSpec AllocFacts NetCDF NetCDFOut NetCDFSpec NetCDFFacts.
Import ListNotations.
Local Open Scope string_scope.
Local Open Scope nat_scope.

(** ** Layout *)
Lemma row_major_app lens idx n i : length lens = length idx ->
  row_major (lens ++ [n])%list (idx ++ [i])%list = row_major lens idx * n + i.
Proof.
  revert idx. induction lens as [|m lens IH]; intros [|j idx] H; cbn [length] in H; try discriminate; [cbn; lia|].
  cbn [app row_major]. rewrite IH by lia.
  assert (E : fold_right Nat.mul 1 (lens ++ [n])%list = fold_right Nat.mul 1 lens * n).
  { clear. induction lens as [|m lens IH]; cbn [app fold_right]; [lia|]. rewrite IH. lia. }
  rewrite E. lia.
Qed.
Lemma layout_rev lens : forall idx, length lens = length idx -> row_major (rev lens) (rev idx) = column_major lens idx.
Proof.
  induction lens as [|n lens IH]; intros [|i idx] H; cbn [length] in H; try discriminate; [reflexivity|].
  cbn [rev column_major]. rewrite row_major_app by (rewrite !rev_length; lia). rewrite IH by lia. lia.
Qed.
Lemma column_major_bound lens : forall idx, in_range lens idx -> column_major lens idx < fold_right Nat.mul 1 lens.
Proof.
  induction lens as [|n lens IH]; intros idx H; inversion H as [|i ? idx' ? Hi H']; subst; cbn [column_major fold_right]; [lia|].
  specialize (IH idx' H'). nia.
Qed.
Lemma in_range_rev lens idx : in_range lens idx -> in_range (rev lens) (rev idx).
Proof.
  intros H. induction H as [|i n idx lens Hi H IH]; cbn [rev]; [constructor|].
  apply Forall2_app; [exact IH|]. constructor; [exact Hi|constructor].
Qed.
Lemma in_range_length lens idx : in_range lens idx -> length lens = length idx.
Proof. intros H. induction H; cbn; congruence. Qed.

Section Read.
Variable F : Type.
Variable zero : F.
Variable to_int : F -> Z.
Variable of_int : Z -> F.

Lemma in_statements e puts when name what : In (Put when name what) puts -> active F e when = true -> In (name, what) (statements F e puts).
Proof. intros H Ha. unfold statements. apply in_flat_map. exists (Put when name what). split; [exact H|]. rewrite Ha. left. reflexivity. Qed.
Lemma statements_in e puts s : In s (statements F e puts) -> exists when, In (Put when (fst s) (snd s)) puts /\ active F e when = true.
Proof.
  unfold statements. intros H. apply in_flat_map in H as [[when name what] [H1 H2]]. destruct (active F e when) eqn:Ea; [|destruct H2].
  destruct H2 as [<-|[]]. exists when. auto.
Qed.
Definition put_name (p : put) : string := let '(Put _ name _) := p in name.
Lemma statements_nodup e puts : NoDup (map put_name puts) -> NoDup (map fst (statements F e puts)) /\
  forall x, In x (map fst (statements F e puts)) -> In x (map put_name puts).
Proof.
  induction puts as [|[when name what] puts IH]; cbn [map put_name]; intros H; [split; [constructor|intros x []]|].
  inversion H as [|? ? Hn H']; subst. destruct (IH H') as [I1 I2]. unfold statements in *. cbn [flat_map]. destruct (active F e when); cbn [app map fst].
  - split; [constructor; [intros K; apply Hn, I2, K|exact I1]|]. intros x [<-|Hx]; [left; reflexivity|right; auto].
  - split; [exact I1|]. intros x Hx. right. auto.
Qed.

Lemma contains_var lens e old l f s : contains_exactly F of_int lens e old l f -> In s l ->
  exists v c, In v (f_vars F f) /\ v_name F v = fst s /\ denotes F of_int lens e (snd s) = Some c /\ v_contents F v = Some c
    /\ lengths F f (v_dims F v) = shape F lens e (snd s).
Proof.
  intros [new [E H]] Hs. assert (G : exists v, In v new /\ v_name F v = fst s /\ v_contents F v = denotes F of_int lens e (snd s) /\ v_contents F v <> None
    /\ lengths F f (v_dims F v) = shape F lens e (snd s)).
  { clear E. induction H as [|s' v l' new' Hv H IH]; [destruct Hs|]. destruct Hs as [<-|Hs].
    - exists v. split; [left; reflexivity|]. exact Hv.
    - destruct (IH Hs) as [v' [H1 H2]]. exists v'. split; [right; exact H1|exact H2]. }
  destruct G as [v [H1 [H2 [H3 [H4 H5]]]]]. destruct (v_contents F v) as [c|] eqn:Ec; [|congruence].
  exists v, c. split; [rewrite E; apply in_or_app; right; exact H1|]. auto.
Qed.
Lemma contains_names lens e old l f : contains_exactly F of_int lens e old l f -> map (v_name F) (f_vars F f) = (map (v_name F) old ++ map fst l)%list.
Proof.
  intros [new [E H]]. rewrite E, map_app. f_equal. clear E. induction H as [|s v l' new' [Hv _] H IH]; cbn; [reflexivity|]. now rewrite Hv, IH.
Qed.
Lemma contains_read lens e old l f s c : contains_exactly F of_int lens e old l f -> NoDup (map (v_name F) old ++ map fst l)%list ->
  In s l -> denotes F of_int lens e (snd s) = Some c -> read F f (fst s) = Ok c.
Proof.
  intros C ND Hs Hd. destruct (contains_var _ _ _ _ _ _ C Hs) as [v [c' [H1 [H2 [H3 [H4 _]]]]]]. rewrite <- H2.
  apply read_in; [rewrite (contains_names _ _ _ _ _ C); exact ND|exact H1|congruence].
Qed.
Lemma contains_read_old lens e old l f v c : contains_exactly F of_int lens e old l f -> NoDup (map (v_name F) old ++ map fst l)%list ->
  In v old -> v_contents F v = Some c -> read F f (v_name F v) = Ok c.
Proof.
  intros C ND Hv Hc. apply read_in; [rewrite (contains_names _ _ _ _ _ C); exact ND| |exact Hc].
  destruct C as [new [E _]]. rewrite E. apply in_or_app. left. exact Hv.
Qed.
Lemma nth_error_firstn {A} (l : list A) n i : i < n -> nth_error (firstn n l) i = nth_error l i.
Proof. revert n i. induction l as [|x l IH]; intros [|n] [|i] H; cbn; try lia; try reflexivity. apply IH. lia. Qed.
Lemma contains_element lens e old l f name ds a ns idx x : contains_exactly F of_int lens e old l f ->
  In (name, SArray ds a) l -> lens_of lens ds = Some ns -> in_range ns idx ->
  nth_error (m_array F e a) (column_major ns idx) = Some x -> element F f name (rev idx) x.
Proof.
  intros C Hs Hl Hr Hx. destruct (contains_var _ _ _ _ _ _ C Hs) as [v [c [H1 [H2 [H3 [H4 H5]]]]]]. cbn [fst snd denotes shape] in *.
  rewrite Hl in H3, H5. injection H3 as <-. eexists v, _, (rev ns). split; [exact H1|]. split; [exact H2|]. split; [exact H4|]. split; [exact H5|].
  split; [apply in_range_rev; exact Hr|]. rewrite layout_rev by (apply in_range_length; exact Hr).
  rewrite nth_error_firstn by (apply column_major_bound; exact Hr). exact Hx.
Qed.

(** ** Reading into an object *)
(** Object [e] agrees with [q] on a target. *)
Definition agrees (q e : members F) (t : target) : Prop :=
  match t with TInt x => m_int F e x = m_int F q x | TFloat x => m_float F e x = m_float F q x | TVector x => m_array F e x = m_array F q x end.
Definition readable (f : file F) (q : members F) (name : string) (t : target) : Prop :=
  match t with
  | TInt x => read F f name = Ok (Ints [m_int F q x])
  | TFloat x => read F f name = Ok (Floats [m_float F q x])
  | TVector x => read F f name = Ok (Floats (m_array F q x))
  end.
Definition sized (q e : members F) (t : target) : Prop := match t with TVector x => length (m_array F e x) = length (m_array F q x) | _ => True end.
Lemma set_same {A} (f : string -> A) x v : set f x v x = v.
Proof. unfold set. now rewrite String.eqb_refl. Qed.
Lemma set_agree {A} (f g : string -> A) x y : f y = g y -> set f x (g x) y = g y.
Proof. intros H. unfold set. destruct (String.eqb_spec y x); [now subst|exact H]. Qed.
Lemma run_gets_ok f q : forall l e,
  (forall when name t, In (Get when name t) l -> active F e when = true -> readable f q name t) ->
  (forall when name t, In (Get when name t) l -> active F e when = true -> sized q e t) ->
  exists e', run_gets F to_int of_int f e l = Ok e' /\ m_flag F e' = m_flag F e /\
    (forall t, agrees q e t -> agrees q e' t) /\ (forall when name t, In (Get when name t) l -> active F e when = true -> agrees q e' t).
Proof.
  induction l as [|[when name t] l IH]; intros e Hr Hs; [exists e; split; [reflexivity|]; split; [reflexivity|]; split; [auto|intros ? ? ? []]|].
  cbn [run_gets]. destruct (active F e when) eqn:Ea.
  - assert (G : exists e1, run_get F to_int of_int f e (Get when name t) = Ok e1 /\ m_flag F e1 = m_flag F e /\ (forall t, agrees q e t -> agrees q e1 t)
      /\ agrees q e1 t /\ (forall t, sized q e t -> sized q e1 t)).
    { unfold run_get. rewrite Ea. specialize (Hr when name t (or_introl eq_refl) Ea). specialize (Hs when name t (or_introl eq_refl) Ea).
      destruct t as [x|x|x]; cbn [readable sized] in Hr, Hs.
      - unfold get_int. rewrite Hr. cbn [bind]. eexists. split; [reflexivity|]. split; [reflexivity|].
        split; [intros [y|y|y]; cbn [agrees m_int m_float m_array]; auto using set_agree|]. split; [apply set_same|]. intros [y|y|y]; auto.
      - unfold get_float. rewrite Hr. cbn [bind]. eexists. split; [reflexivity|]. split; [reflexivity|].
        split; [intros [y|y|y]; cbn [agrees m_int m_float m_array]; auto using set_agree|]. split; [apply set_same|]. intros [y|y|y]; auto.
      - unfold get_vector. rewrite Hr. cbn [bind]. rewrite Hs, Nat.leb_refl. cbn [bind]. rewrite <- Hs, skipn_all, app_nil_r. eexists. split; [reflexivity|].
        split; [reflexivity|].
        split; [intros [y|y|y]; cbn [agrees m_int m_float m_array]; auto using set_agree|]. split; [apply set_same|].
        intros [y|y|y] K; auto. cbn [sized m_array] in *. unfold set. destruct (String.eqb_spec y x); [now subst|exact K]. }
    destruct G as [e1 [G1 [G2 [G3 [G4 G5]]]]]. rewrite G1. cbn [bind].
    assert (Act : forall w, active F e1 w = active F e w) by (intros w; unfold active; rewrite G2; reflexivity).
    destruct (IH e1) as [e' [H1 [H2 [H3 H4]]]].
    + intros w n t' Hin Ha. rewrite Act in Ha. apply (Hr w n t'); [right; exact Hin|exact Ha].
    + intros w n t' Hin Ha. rewrite Act in Ha. apply G5. apply (Hs w n t'); [right; exact Hin|exact Ha].
    + exists e'. split; [exact H1|]. split; [congruence|]. split; [auto|].
      intros w n t' [E|Hin] Ha; [injection E as <- <- <-; apply H3, G4|]. apply (H4 w n t' Hin). rewrite Act. exact Ha.
  - unfold run_get at 1. rewrite Ea. cbn [bind]. destruct (IH e) as [e' [H1 [H2 [H3 H4]]]].
    + intros w n t' Hin. apply (Hr w n t'). right. exact Hin.
    + intros w n t' Hin. apply (Hs w n t'). right. exact Hin.
    + exists e'. split; [exact H1|]. split; [exact H2|]. split; [exact H3|].
      intros w n t' [E|Hin] Ha; [injection E as <- <- <-; congruence|]. exact (H4 w n t' Hin Ha).
Qed.
End Read.

(** Duplicates, by computation. *)
Fixpoint nodup_check (l : list string) : bool := match l with [] => true | x :: l' => negb (existsb (String.eqb x) l') && nodup_check l' end.
Lemma nodup_check_ok l : nodup_check l = true -> NoDup l.
Proof.
  induction l as [|x l IH]; cbn; intros H; [constructor|]. apply andb_prop in H as [H1 H2]. constructor; [|auto].
  intros K. apply negb_true_iff in H1. assert (existsb (String.eqb x) l = true) by (apply existsb_exists; exists x; split; [exact K|apply String.eqb_refl]). congruence.
Qed.
Definition inb (x : string) (l : list string) : bool := existsb (String.eqb x) l.
Lemma inb_ok x l : inb x l = true <-> In x l.
Proof.
  unfold inb. split; intros H; [apply existsb_exists in H as [y [H1 H2]]; apply String.eqb_eq in H2; now subst|].
  apply existsb_exists. exists x. split; [exact H|apply String.eqb_refl].
Qed.
