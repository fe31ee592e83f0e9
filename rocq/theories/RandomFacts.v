(** Proofs about [RandomGen]. *)
From Coq Require Import String ZArith Reals List Lia Lra Bool.
From Verif Require Import Base FloatOps NewtonFacts RandomGen RandomSpec.
Import ListNotations.
Local Open Scope R_scope.

Lemma feqb_R x y : feqb R_ops x y = true <-> x = y.
Proof.
  unfold feqb. simpl. rewrite andb_true_iff, !Rleb_true. split; intros; [lra|]. subst; lra.
Qed.
Lemma feqb_R_false x y : feqb R_ops x y = false <-> x <> y.
Proof. rewrite <- feqb_R. destruct (feqb R_ops x y); split; congruence. Qed.

(** ** The constructor, in exact arithmetic. *)
Lemma make_random_ok {G} det d min max (seed : G) :
  (exists r, make_random R_ops R_funs det d min max seed = Ok r) <-> limits_allowed d min max.
Proof.
  unfold make_random, limits_allowed.
  destruct (String.eqb_spec d "linear") as [->|N1].
  { split; [auto|eauto]. }
  destruct (String.eqb_spec d "log") as [->|N2].
  { destruct (flt R_ops (fmul R_ops max min) (fzero R_ops)) eqn:E1.
    - simpl in E1. apply Rltb_true in E1. split; [intros [r H]; discriminate|].
      intros [H|[[_ H]|[H _]]]; try congruence. nra.
    - simpl in E1. apply Rltb_false in E1.
      destruct (negb (feqb R_ops max min) && (feqb R_ops max (fzero R_ops) || feqb R_ops min (fzero R_ops)))%bool eqn:E2.
      + apply andb_prop in E2 as [A B]. apply negb_true_iff, feqb_R_false in A.
        apply orb_prop in B. rewrite !feqb_R in B. simpl in B.
        split; [intros [r H]; discriminate|]. intros [H|[[_ H]|[H _]]]; try congruence. lra.
      + split; [|eauto]. intros _. right. left. split; auto.
        apply andb_false_iff in E2. rewrite negb_false_iff, feqb_R, orb_false_iff, !feqb_R_false in E2. simpl in E2.
        destruct E2 as [->|[A B]]; [destruct (Rtotal_order min 0) as [?|[?|?]]; lra|]. 
        destruct (Rtotal_order min 0) as [?|[?|?]], (Rtotal_order max 0) as [?|[?|?]]; try lra; nra. }
  destruct (String.eqb_spec d "2 sided log") as [->|N3].
  { destruct (feqb R_ops min (fzero R_ops) && feqb R_ops max (fzero R_ops))%bool eqn:E1.
    - apply andb_prop in E1 as [A B]. rewrite feqb_R in A, B. simpl in A, B. split; [intros _; right; right; auto|eauto].
    - destruct (fle R_ops min (fzero R_ops) || fle R_ops max (fzero R_ops))%bool eqn:E2.
      + apply orb_prop in E2. simpl in E2. rewrite !Rleb_true in E2.
        apply andb_false_iff in E1. rewrite !feqb_R_false in E1. simpl in E1.
        split; [intros [r H]; discriminate|]. intros [H|[[H _]|[_ H]]]; try congruence. lra.
      + apply orb_false_iff in E2. simpl in E2. rewrite !Rleb_false in E2.
        split; [intros _; right; right; split; auto; left; lra|eauto]. }
  split; [intros [r H]; discriminate|]. intros [H|[[H _]|[H _]]]; congruence.
Qed.

(** ** What never changes. *)
Section Fixed.
Context {F : Type} (o : fops F) (f : rfuns F) {G : Type} (uniform : G -> F * G).
Definition same_params (r r' : random (F:=F) (G:=G)) : Prop :=
  r_det r' = r_det r /\ r_distrib r' = r_distrib r /\ r_min r' = r_min r /\ r_max r' = r_max r
  /\ r_logmin r' = r_logmin r /\ r_logmax r' = r_logmax r /\ r_sign r' = r_sign r.

Lemma get_same r : same_params r (snd (get o f uniform r)).
Proof.
  unfold get, same_params. destruct (feqb o (r_max r) (r_min r)); [simpl; auto 10|].
  destruct (r_det r); [simpl; auto 10|]. destruct (uniform (r_gen r)). simpl; auto 10.
Qed.
Lemma same_trans a b c : same_params a b -> same_params b c -> same_params a c.
Proof. unfold same_params. intuition congruence. Qed.
Lemma gets_same n : forall r, same_params r (gets o f uniform n r).
Proof.
  induction n as [|n IH]; intros r; simpl. { repeat split. }
  eapply same_trans; [apply get_same|apply IH].
Qed.
Lemma set_same n r : same_params r (set_to_nth o f uniform n r).
Proof.
  unfold set_to_nth. eapply same_trans; [|apply gets_same]. repeat split.
Qed.

Lemma reachable_same det d min max r : reachable o f uniform det d min max r ->
  exists seed r0, make_random o f det d min max seed = Ok r0 /\ same_params r0 r.
Proof.
  induction 1 as [seed r H|r _ [seed [r0 [A B]]]|n r _ [seed [r0 [A B]]]].
  - exists seed, r. split; auto. repeat split.
  - exists seed, r0. split; auto. eapply same_trans; [exact B|apply get_same].
  - exists seed, r0. split; auto. eapply same_trans; [exact B|apply set_same].
Qed.
End Fixed.

(** ** Range. *)
Lemma frac_range x : 0 <= frac x < 1.
Proof. unfold frac. pose proof (base_Int_part x). lra. Qed.

Lemma between_lin a b t : 0 <= t <= 1 -> between a b (a + (b - a) * t).
Proof.
  intros H. unfold between, Rmin, Rmax. destruct (Rle_dec a b); split; nra.
Qed.
Lemma exp_le x y : x <= y -> exp x <= exp y.
Proof. intros [H| ->]; [left; apply exp_increasing; auto|right; auto]. Qed.
Lemma between_log a b t : 0 < a -> 0 < b -> 0 <= t <= 1 -> between a b (exp (ln a + (ln b - ln a) * t)).
Proof.
  intros Ha Hb Ht. destruct (between_lin (ln a) (ln b) t Ht) as [H1 H2].
  apply exp_le in H1, H2. unfold between. 
  assert (E : forall c, 0 < c -> exp (ln c) = c) by (intros; apply exp_ln; auto).
  unfold Rmin, Rmax in *. destruct (Rle_dec (ln a) (ln b)) as [L|L].
  - rewrite (E a), (E b) in * by auto.
    assert (a <= b) by (rewrite <- (E a), <- (E b) by auto; apply exp_le; auto).
    destruct (Rle_dec a b); lra.
  - rewrite (E a), (E b) in * by auto.
    assert (b <= a) by (rewrite <- (E a), <- (E b) by auto; apply exp_le; lra).
    destruct (Rle_dec a b); lra.
Qed.

Lemma between_opp a b x : between (- a) (- b) x -> between a b (- x).
Proof.
  unfold between, Rmin, Rmax. destruct (Rle_dec (- a) (- b)), (Rle_dec a b); lra.
Qed.

(** The number handed to [map_distrib]. *)
Definition rand01_of {G} (uniform : G -> R * G) (r : random (F:=R) (G:=G)) : R :=
  if r_det r then frac (r_last r + golden) else fst (uniform (r_gen r)).

Lemma get_value {G} (uniform : G -> R * G) r : r_max r <> r_min r ->
  fst (get R_ops R_funs uniform r) = map_distrib R_ops R_funs r (rand01_of uniform r).
Proof.
  intros H. unfold get, rand01_of. apply feqb_R_false in H. rewrite H.
  destruct (r_det r); [reflexivity|]. destruct (uniform (r_gen r)). reflexivity.
Qed.
Lemma get_equal {G} (uniform : G -> R * G) r : r_max r = r_min r ->
  get R_ops R_funs uniform r = (r_max r, r).
Proof. intros H. unfold get. apply feqb_R in H. rewrite H. reflexivity. Qed.

Lemma rand01_range {G} (uniform : G -> R * G) r : (forall g, 0 <= fst (uniform g) <= 1) ->
  0 <= rand01_of uniform r <= 1.
Proof.
  intros H. unfold rand01_of. destruct (r_det r); [|apply H]. pose proof (frac_range (r_last r + golden)). lra.
Qed.

Lemma between_same a x : between a a x -> x = a.
Proof. unfold between, Rmin, Rmax. destruct (Rle_dec a a); lra. Qed.
Lemma between_refl a b : between a b a.
Proof. unfold between, Rmin, Rmax. destruct (Rle_dec a b); lra. Qed.

Lemma reachable_params {G} (uniform : G -> R * G) det d min max r :
  reachable R_ops R_funs uniform det d min max r ->
  limits_allowed d min max /\ r_det r = det /\ r_min r = min /\ r_max r = max
  /\ r_logmin r = ln (Rabs min) /\ r_logmax r = ln (Rabs max)
  /\ r_sign r = (if Rltb max 0 then - (1) else 1)
  /\ ((d = "linear" /\ r_distrib r = LINEAR) \/ (d = "log" /\ r_distrib r = LOG)
      \/ (d = "2 sided log" /\ r_distrib r = TWO_SIDED_LOG))%string.
Proof.
  intros H. apply reachable_same in H as [seed [r0 [H S]]].
  split. { apply (make_random_ok det d min max seed). eauto. }
  destruct S as (S1 & S2 & S3 & S4 & S5 & S6 & S7). rewrite S1, S2, S3, S4, S5, S6, S7. clear S1 S2 S3 S4 S5 S6 S7.
  unfold make_random in H.
  destruct (String.eqb_spec d "linear") as [->|N1]. { inversion H; subst r0. simpl. auto 20. }
  destruct (String.eqb_spec d "log") as [->|N2].
  { destruct (flt R_ops (fmul R_ops max min) (fzero R_ops)); [discriminate|].
    destruct (_ && _)%bool; [discriminate|]. inversion H; subst r0. simpl. auto 20. }
  destruct (String.eqb_spec d "2 sided log") as [->|N3]; [|discriminate].
  destruct (_ && _)%bool; [inversion H; subst r0; simpl; auto 20|].
  destruct (_ || _)%bool; [discriminate|]. inversion H; subst r0. simpl. auto 20.
Qed.

Lemma get_range {G} (uniform : G -> R * G) det d min max r v r' :
  (forall g, 0 <= fst (uniform g) <= 1) ->
  reachable R_ops R_funs uniform det d min max r ->
  get R_ops R_funs uniform r = (v, r') ->
  (d <> "2 sided log"%string -> between min max v)
  /\ (d = "2 sided log"%string -> between min max (Rabs v)
      /\ (min <> max -> (v < 0 <-> 1 / 2 < rand01_of uniform r))).
Proof.
  intros Hu Hr Hg. apply reachable_params in Hr as (Hlim & Hdet & Hmin & Hmax & Hlmin & Hlmax & Hs & Hd).
  pose proof (rand01_range uniform r Hu) as Ht. set (t := rand01_of uniform r) in *.
  assert (Hv : fst (get R_ops R_funs uniform r) = v) by (rewrite Hg; auto).
  destruct (Req_dec max min) as [E|E].
  { assert (v = min).
    { rewrite get_equal in Hv by congruence. simpl in Hv. congruence. }
    subst v. rewrite E. split; [intros; rewrite H; apply between_refl|].
    intros ->. rewrite H. split; [|congruence]. rewrite Rabs_right; [apply between_refl|].
    destruct Hlim as [K|[[K _]|[_ K]]]; try discriminate. lra. }
  rewrite get_value in Hv by congruence. fold t in Hv. unfold map_distrib in Hv.
  destruct Hd as [[-> Dd]|[[-> Dd]|[-> Dd]]]; rewrite Dd in Hv; simpl in Hv; rewrite ?Hmin, ?Hmax, ?Hlmin, ?Hlmax, ?Hs in Hv.
  - split; [|discriminate]. intros _. subst v. apply between_lin; auto.
  - split; [|discriminate]. intros _. subst v.
    destruct Hlim as [K|[[_ K]|[K _]]]; try discriminate.
    destruct K as [[K1 K2]|[[K1 K2]|[K1 K2]]]; [| |lra].
    + unfold Rltb. destruct (Rlt_dec max 0); [lra|]. rewrite Rmult_1_l.
      rewrite !Rabs_right by lra. apply between_log; auto.
    + unfold Rltb. destruct (Rlt_dec max 0); [|lra].
      replace (- (1) * exp (ln (Rabs min) + (ln (Rabs max) - ln (Rabs min)) * t))
        with (- exp (ln (Rabs min) + (ln (Rabs max) - ln (Rabs min)) * t)) by ring.
      apply between_opp. rewrite !Rabs_left by lra. apply between_log; lra.
  - split; [congruence|]. intros _.
    destruct Hlim as [K|[[K _]|[_ K]]]; try discriminate.
    destruct K as [[K1 K2]|[K1 K2]]; [|lra].
    rewrite (Rabs_right min), (Rabs_right max) in Hv by lra.
    set (s := Rabs ((t - 1 / 2) * 2)) in *.
    assert (Hs01 : 0 <= s <= 1).
    { unfold s, Rabs. destruct (Rcase_abs ((t - 1 / 2) * 2)); lra. }
    set (e := exp (ln min + (ln max - ln min) * s)) in *.
    assert (He : 0 < e) by apply exp_pos.
    assert (Hb : between min max e) by (apply between_log; auto).
    unfold Rltb in Hv. destruct (Rlt_dec (1 / 2) t); subst v.
    + rewrite Rabs_Ropp, Rabs_right by lra. split; auto. intros _. lra.
    + rewrite Rabs_right by lra. split; auto. intros _. lra.
Qed.

(** ** Position in the deterministic sequence. *)
Section Det.
Context {F : Type} (o : fops F) (f : rfuns F) {G : Type} (uniform : G -> F * G).

Definition set_last (r : random (F:=F) (G:=G)) l :=
  mkRandom (r_det r) (r_distrib r) (r_min r) (r_max r) (r_logmin r) (r_logmax r) l (r_sign r) (r_gen r).

Lemma get_det_gen r : r_det r = true -> r_gen (snd (get o f uniform r)) = r_gen r.
Proof. intros H. unfold get. destruct (feqb o _ _); auto. rewrite H. reflexivity. Qed.

Lemma gets_det_state n : forall r s, r_det r = true -> same_params r s -> r_last s = r_last r ->
  same_params (gets o f uniform n r) (gets o f uniform n s)
  /\ r_last (gets o f uniform n s) = r_last (gets o f uniform n r)
  /\ r_gen (gets o f uniform n s) = r_gen s.
Proof.
  induction n as [|n IH]; intros r s Hd Hp Hl; simpl; auto.
  assert (Hds : r_det s = true) by (destruct Hp; congruence).
  destruct (IH (snd (get o f uniform r)) (snd (get o f uniform s))) as (A & B & C).
  - destruct (get_same o f uniform r) as [E _]. congruence.
  - pose proof (get_same o f uniform r). pose proof (get_same o f uniform s).
    unfold same_params in *. intuition congruence.
  - unfold get. destruct Hp as (P1 & P2 & P3 & P4 & P5 & P6 & P7). rewrite P3, P4, P1, Hd.
    destruct (feqb o (r_max r) (r_min r)); simpl; congruence.
  - rewrite get_det_gen in C by auto. auto.
Qed.

(** Two deterministic objects with the same parameters produce the same value. *)
Lemma get_det_value r s : r_det r = true -> same_params r s -> r_last s = r_last r ->
  fst (get o f uniform s) = fst (get o f uniform r).
Proof.
  intros Hd (P1 & P2 & P3 & P4 & P5 & P6 & P7) Hl. unfold get, map_distrib.
  rewrite P1, P2, P3, P4, P5, P6, P7, Hl, Hd. destruct (feqb o (r_max r) (r_min r)); reflexivity.
Qed.

Lemma gets_add n m r : gets o f uniform (n + m) r = gets o f uniform m (gets o f uniform n r).
Proof. revert r. induction n as [|n IH]; intros r; simpl; auto. Qed.

Lemma gets_nochange n : forall r, feqb o (r_max r) (r_min r) = true -> gets o f uniform n r = r.
Proof.
  induction n as [|n IH]; intros r H; simpl; auto. unfold get. rewrite H. simpl. apply IH. auto.
Qed.
End Det.

Lemma Int_part_unique x z : IZR z <= x < IZR z + 1 -> Int_part x = z.
Proof.
  intros H. unfold Int_part. rewrite <- (tech_up x (z + 1)); [lia|rewrite plus_IZR; lra..].
Qed.

Lemma frac_shift x y : frac (frac x + y) = frac (x + y).
Proof.
  unfold frac.
  assert (E : Int_part (x + y) = (Int_part x + Int_part (x - IZR (Int_part x) + y))%Z).
  { apply Int_part_unique. rewrite plus_IZR.
    pose proof (base_Int_part (x - IZR (Int_part x) + y)). lra. }
  rewrite E, plus_IZR. ring.
Qed.

Lemma gets_frac {G} (uniform : G -> R * G) n : forall r, r_det r = true -> r_max r <> r_min r ->
  (0 < n)%nat -> r_last (gets R_ops R_funs uniform n r) = frac (r_last r + INR n * golden).
Proof.
  induction n as [|n IH]; intros r Hd Hm Hn; [lia|].
  cbn [gets]. destruct (get_same R_ops R_funs uniform r) as (P1 & P2 & P3 & P4 & _).
  assert (El : r_last (snd (get R_ops R_funs uniform r)) = frac (r_last r + golden)).
  { unfold get. apply feqb_R_false in Hm. rewrite Hm, Hd. reflexivity. }
  destruct n as [|n].
  - simpl gets. rewrite El. f_equal. simpl. ring.
  - rewrite IH; try congruence; [|lia]. rewrite El, frac_shift. f_equal. rewrite !S_INR. ring.
Qed.
