(** Lemmas about the generators of a random scan. *)
From Coq Require Import String ZArith List Bool Arith Lia.
From Verif Require Import Base BaseFacts FloatOps Tensor Scan ScanSpec RandomGen RandomFacts Collect CollectFacts ScanDet.
Import ListNotations.
Local Open Scope list_scope.
Local Open Scope nat_scope.

Section Facts.
Context {F : Type} (o : fops F) (f : rfuns F).
Context {G : Type} (uniform : G -> F * G).
Notation rnd := (random (F:=F) (G:=G)).
Notation get := (get o f uniform).
Notation gets := (gets o f uniform).
Notation next := (next o f uniform).
Notation value := (value o f uniform).
Notation pick := (pick o f uniform).

Definition sim (r s : rnd) : Prop := r_det r = true /\ same_params r s /\ r_last s = r_last r.

Lemma sim_gets n r s : sim r s -> sim (gets n r) (gets n s).
Proof.
  intros (D & P & L). destruct (gets_det_state o f uniform n r s D P L) as (A & B & C).
  split; [|split; auto]. destruct (gets_same o f uniform n r) as (E & _). congruence.
Qed.
Lemma sim_next r s : sim r s -> sim (next r) (next s).
Proof. apply (sim_gets 1). Qed.
Lemma sim_value r s : sim r s -> value r = value s.
Proof. intros (D & P & L). symmetry. apply get_det_value; auto. Qed.

Definition mode_sim (a b : mode (F:=F) (G:=G)) : Prop :=
  sim (m_R0c a) (m_R0c b) /\ sim (m_R0s a) (m_R0s b) /\ sim (m_Z0c a) (m_Z0c b) /\ sim (m_Z0s a) (m_Z0s b).
Definition gens_sim (r2 : bool) (g h : gens (F:=F) (G:=G)) : Prop :=
  sim (g_eta_bar g) (g_eta_bar h) /\ sim (g_sigma0 g) (g_sigma0 h)
  /\ (r2 = true -> sim (g_B2c g) (g_B2c h) /\ sim (g_B2s g) (g_B2s h) /\ sim (g_p2 g) (g_p2 h))
  /\ Forall2 mode_sim (g_modes g) (g_modes h).
Definition prev_sim (r2 : bool) (s t : sample F) : Prop :=
  r2 = false -> s_B2c s = s_B2c t /\ s_B2s s = s_B2s t /\ s_p2 s = s_p2 t.

Lemma pick_sim r2 g h s t : gens_sim r2 g h -> prev_sim r2 s t ->
  fst (pick r2 g s) = fst (pick r2 h t) /\ gens_sim r2 (snd (pick r2 g s)) (snd (pick r2 h t)).
Proof.
  intros (E & S & B & M) P. split.
  - unfold ScanDet.pick. cbn [fst]. rewrite (sim_value _ _ E), (sim_value _ _ S).
    assert (MM : forall (pr : mode -> rnd), (forall a b, mode_sim a b -> sim (pr a) (pr b)) ->
       map (fun m => value (pr m)) (g_modes g) = map (fun m => value (pr m)) (g_modes h)).
    { intros pr Hp. induction M; simpl; auto. f_equal; auto. apply sim_value. auto. }
    rewrite (MM m_R0c), (MM m_R0s), (MM m_Z0c), (MM m_Z0s) by (intros a b (A1 & A2 & A3 & A4); auto).
    destruct r2.
    + destruct (B eq_refl) as (B1 & B2 & B3). rewrite (sim_value _ _ B1), (sim_value _ _ B2), (sim_value _ _ B3). reflexivity.
    + destruct (P eq_refl) as (P1 & P2 & P3). rewrite P1, P2, P3. reflexivity.
  - unfold ScanDet.pick. cbn [snd g_eta_bar g_sigma0 g_B2c g_B2s g_p2 g_modes].
    split; [apply sim_next; auto|split; [apply sim_next; auto|split]].
    + intros ->. destruct (B eq_refl) as (B1 & B2 & B3). split; [|split]; apply sim_next; auto.
    + clear - M. induction M as [|a b l l' (A1 & A2 & A3 & A4) M IH]; simpl; constructor; auto.
      split; [|split; [|split]]; apply sim_next; auto.
Qed.

(** The configurations picked one after the other. *)
Fixpoint samples (r2 : bool) (n : nat) (g : gens (F:=F) (G:=G)) (prev : sample F) : list (sample F) :=
  match n with
  | 0 => []
  | S n' => fst (pick r2 g prev) :: samples r2 n' (snd (pick r2 g prev)) (fst (pick r2 g prev))
  end.
Fixpoint after (r2 : bool) (n : nat) (g : gens (F:=F) (G:=G)) (prev : sample F) : gens (F:=F) (G:=G) * sample F :=
  match n with
  | 0 => (g, prev)
  | S n' => after r2 n' (snd (pick r2 g prev)) (fst (pick r2 g prev))
  end.

Lemma samples_length r2 n : forall g s, length (samples r2 n g s) = n.
Proof. induction n; intros; simpl; auto. Qed.
Lemma samples_app r2 n m : forall g s,
  samples r2 (n + m) g s = samples r2 n g s ++ samples r2 m (fst (after r2 n g s)) (snd (after r2 n g s)).
Proof. induction n as [|n IH]; intros; simpl; auto. rewrite IH. reflexivity. Qed.
Lemma after_S r2 n : forall g s, after r2 (S n) g s =
  let '(g', s') := after r2 n g s in (snd (pick r2 g' s'), fst (pick r2 g' s')).
Proof.
  induction n as [|n IH]; intros g s; [reflexivity|].
  change (after r2 (S (S n)) g s) with (after r2 (S n) (snd (pick r2 g s)) (fst (pick r2 g s))).
  rewrite IH. reflexivity.
Qed.
Lemma samples_S r2 n g s : samples r2 (S n) g s =
  samples r2 n g s ++ [fst (pick r2 (fst (after r2 n g s)) (snd (after r2 n g s)))].
Proof. replace (S n) with (n + 1) by lia. rewrite samples_app. reflexivity. Qed.

Lemma samples_sim r2 n : forall g h s t, gens_sim r2 g h -> prev_sim r2 s t ->
  samples r2 n g s = samples r2 n h t.
Proof.
  induction n as [|n IH]; intros g h s t Hg Hp; cbn [samples]; auto.
  destruct (pick_sim r2 g h s t Hg Hp) as [E1 E2]. rewrite E1. f_equal. apply IH; auto. intros _. auto.
Qed.

Lemma after_gens r2 n : forall g s,
  let g' := fst (after r2 n g s) in
  g_eta_bar g' = gets n (g_eta_bar g) /\ g_sigma0 g' = gets n (g_sigma0 g)
  /\ (r2 = true -> g_B2c g' = gets n (g_B2c g) /\ g_B2s g' = gets n (g_B2s g) /\ g_p2 g' = gets n (g_p2 g))
  /\ g_modes g' = map (fun m => mkMode (gets n (m_R0c m)) (gets n (m_R0s m)) (gets n (m_Z0c m)) (gets n (m_Z0s m))) (g_modes g)
  /\ prev_sim r2 (snd (after r2 n g s)) s.
Proof.
  induction n as [|n IH]; intros g s; cbv zeta.
  - simpl. repeat split; auto.
    transitivity (map (fun m : mode => m) (g_modes g)); [symmetry; apply map_id|]. apply map_ext. intros []; reflexivity.
  - cbn [after]. destruct (IH (snd (pick r2 g s)) (fst (pick r2 g s))) as (A & B & C & D & E).
    split; [rewrite A; reflexivity|split; [rewrite B; reflexivity|split; [|split]]].
    + intros ->. destruct (C eq_refl) as (C1 & C2 & C3). rewrite C1, C2, C3. auto.
    + rewrite D. cbn [ScanDet.pick snd g_modes]. rewrite map_map. reflexivity.
    + intros ->. destruct (E eq_refl) as (E1 & E2 & E3). rewrite E1, E2, E3. auto.
Qed.

(** ** Construction at a rank. *)
Lemma start_position_ok rank m k n : start_position rank m k = Ok n -> n = (rank * m + k)%Z.
Proof. unfold start_position. destruct (_ && _); intros H; inversion H. reflexivity. Qed.

Lemma make_det det d lo hi seed (r : rnd) : make_random o f det d lo hi seed = Ok r -> r_det r = det.
Proof.
  unfold make_random. repeat match goal with |- context [if ?b then _ else _] => destruct b end;
    intros H; inversion H; reflexivity.
Qed.
Lemma make_same det d lo hi seed seed' (r s : rnd) :
  make_random o f det d lo hi seed = Ok r -> make_random o f det d lo hi seed' = Ok s ->
  same_params r s /\ r_last s = r_last r.
Proof.
  unfold make_random. repeat match goal with |- context [if ?b then _ else _] => destruct b end;
    intros H1 H2; inversion H1; inversion H2; subst; repeat split.
Qed.

Lemma positioned_sim lim seed seed' rank m m' k (r s : rnd) :
  (0 <= rank * m)%Z -> (0 <= k)%Z ->
  positioned o f uniform true lim seed rank m k = Ok r -> positioned o f uniform true lim seed' 0 m' k = Ok s ->
  sim (gets (Z.to_nat (rank * m)) s) r.
Proof.
  intros Hrm Hk. unfold positioned. destruct lim as [[d lo] hi].
  destruct (make_random o f true d lo hi seed) as [r0| |] eqn:E1; try discriminate.
  destruct (make_random o f true d lo hi seed') as [s0| |] eqn:E2; try discriminate.
  cbn [bind].
  destruct (start_position rank m k) as [n| |] eqn:E3; try discriminate.
  destruct (start_position 0 m' k) as [n'| |] eqn:E4; try discriminate.
  cbn [bind]. intros H1 H2. inversion H1; inversion H2; subst r s; clear H1 H2.
  apply start_position_ok in E3, E4. simpl in E4. subst n n'.
  unfold set_to_nth. rewrite <- gets_add.
  replace (Z.to_nat k + Z.to_nat (rank * m)) with (Z.to_nat (rank * m + k)) by lia.
  destruct (make_same _ _ _ _ _ _ _ _ E2 E1) as [(P1 & P2 & P3 & P4 & P5 & P6 & P7) _].
  apply sim_gets. split; [|split].
  - simpl. eapply make_det; eauto.
  - repeat split; simpl; auto.
  - reflexivity.
Qed.

Ltac ok_bind H := match type of H with
  | bind ?x _ = Ok _ => let E := fresh "E" in destruct x eqn:E; cbn [bind] in H; try discriminate
  end.

Ltac psim := match goal with
  | Hr : (0 <= ?rank * ?m)%Z, H1 : positioned _ _ _ _ _ _ ?rank ?m ?k = Ok ?r, H2 : positioned _ _ _ _ _ _ 0%Z _ ?k = Ok ?s |- sim (_ ?s) ?r =>
      refine (positioned_sim _ _ _ _ _ _ _ _ _ Hr _ H1 H2); lia
  end.

Lemma make_mode_sim rg seed seed' rank m m' j a b :
  rg_deterministic rg = true -> (0 <= rank * m)%Z ->
  make_mode o f uniform rg seed rank m j = Ok a -> make_mode o f uniform rg seed' 0 m' j = Ok b ->
  let n := Z.to_nat (rank * m) in
  mode_sim (mkMode (gets n (m_R0c b)) (gets n (m_R0s b)) (gets n (m_Z0c b)) (gets n (m_Z0s b))) a.
Proof.
  intros Hd Hr H1 H2 n. unfold make_mode in *. rewrite Hd in *.
  do 12 (ok_bind H1). inversion H1; subst a; clear H1.
  cbn [bind] in H2. do 4 (ok_bind H2).
  inversion H2; subst b; clear H2. unfold mode_sim. cbn [m_R0c m_R0s m_Z0c m_Z0s].
  split; [|split; [|split]]; psim.
Qed.

Lemma mapM_Forall2 {B C D} (f1 : B -> outcome C) (f2 : B -> outcome D) (R : C -> D -> Prop) l : forall x y,
  (forall b c d, f1 b = Ok c -> f2 b = Ok d -> R c d) ->
  mapM f1 l = Ok x -> mapM f2 l = Ok y -> Forall2 R x y.
Proof.
  induction l as [|b l IH]; intros x y H H1 H2; simpl in *.
  - inversion H1; inversion H2. constructor.
  - do 2 (ok_bind H1). do 2 (ok_bind H2). inversion H1; inversion H2; subst. constructor; eauto.
Qed.

Lemma make_gens_sim r2 rg seed seed' rank m m' g h s :
  rg_deterministic rg = true -> (0 <= rank * m)%Z ->
  make_gens o f uniform rg seed rank m = Ok g -> make_gens o f uniform rg seed' 0 m' = Ok h ->
  gens_sim r2 (fst (after r2 (Z.to_nat (rank * m)) h s)) g.
Proof.
  intros Hd Hr H1 H2. destruct (after_gens r2 (Z.to_nat (rank * m)) h s) as (A & B & C & D & _).
  unfold make_gens in *. rewrite Hd in *.
  do 6 (ok_bind H1). do 6 (ok_bind H2). inversion H1; subst g. inversion H2; subst h. clear H1 H2.
  cbn [g_eta_bar g_sigma0 g_B2c g_B2s g_p2 g_modes] in *.
  unfold gens_sim. rewrite A, B, D. cbn [g_eta_bar g_sigma0 g_B2c g_B2s g_p2 g_modes].
  split; [psim|split; [psim|split]].
  - intros Er. destruct (C Er) as (C1 & C2 & C3). rewrite C1, C2, C3.
    split; [|split]; psim.
  - pose proof (mapM_Forall2 _ _ (fun b a => mode_sim (mkMode (gets (Z.to_nat (rank * m)) (m_R0c b)) (gets (Z.to_nat (rank * m)) (m_R0s b)) (gets (Z.to_nat (rank * m)) (m_Z0c b)) (gets (Z.to_nat (rank * m)) (m_Z0s b))) a)
       _ _ _ (fun j b a Hb Ha => make_mode_sim rg _ _ _ _ _ j a b Hd Hr Ha Hb) E10 E4) as X.
    clear - X. induction X; simpl; constructor; auto.
Qed.

Lemma samples_of_rank r2 rg seed seed' rank m m' g h s n :
  rg_deterministic rg = true -> (0 <= rank * m)%Z ->
  make_gens o f uniform rg seed rank m = Ok g -> make_gens o f uniform rg seed' 0 m' = Ok h ->
  samples r2 (Z.to_nat (rank * m) + n) h s = samples r2 (Z.to_nat (rank * m)) h s ++ samples r2 n g s.
Proof.
  intros Hd Hr H1 H2. rewrite samples_app. f_equal. apply samples_sim.
  - eapply make_gens_sim; eauto.
  - apply after_gens.
Qed.
End Facts.
