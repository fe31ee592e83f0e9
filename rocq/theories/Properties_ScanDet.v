(** Deterministic scans do not depend on the number of processes (C27). *)
From Coq Require Import String ZArith List Bool Arith Lia SpecFloat.
From Verif Require Import Base BaseFacts FloatOps Tensor Scan ScanSpec RandomGen RandomFacts Collect CollectFacts
  ScanDet ScanDetFacts Properties_Scan.
Import ListNotations.
Local Open Scope list_scope.
Local Open Scope nat_scope.

Section P.
Context {F : Type} (o : fops F) (f : rfuns F).
Context {G : Type} (uniform : G -> F * G).
Notation gens := (gens (F:=F) (G:=G)).

(** C27, the configurations examined.  The i-th configuration that the process of rank r picks
    when the limit is m attempts per process is number r*m+i of those that process 0 picks,
    whatever its own limit. *)
Theorem deterministic_samples r2 rg seed seed' rank m m' (g h : gens) s n :
  rg_deterministic rg = true -> (0 <= rank)%Z -> (0 <= m)%Z ->
  make_gens o f uniform rg seed rank m = Ok g -> make_gens o f uniform rg seed' 0 m' = Ok h ->
  forall i, i < n ->
  nth_error (samples o f uniform r2 n g s) i =
  nth_error (samples o f uniform r2 (Z.to_nat (rank * m) + n) h s) (Z.to_nat (rank * m) + i).
Proof.
  intros Hd Hr Hm H1 H2 i Hi.
  rewrite (samples_of_rank o f uniform r2 rg seed seed' rank m m' g h s n Hd ltac:(lia) H1 H2).
  rewrite nth_error_app2 by (rewrite samples_length; lia). rewrite samples_length. f_equal. lia.
Qed.

(** The same for several processes together. *)
Lemma samples_concat r2 rg seed (m : nat) mm (h : gens) s : forall gs k,
  rg_deterministic rg = true ->
  make_gens o f uniform rg (seed 0) 0 mm = Ok h ->
  (forall r g, nth_error gs r = Some g -> make_gens o f uniform rg (seed (k + r)) (Z.of_nat (k + r)) (Z.of_nat m) = Ok g) ->
  samples o f uniform r2 (k * m) h s ++ flat_map (fun g => samples o f uniform r2 m g s) gs
  = samples o f uniform r2 ((k + length gs) * m) h s.
Proof.
  induction gs as [|g gs IH]; intros k Hd Hh Hg.
  - simpl. rewrite app_nil_r, Nat.add_0_r. reflexivity.
  - cbn [flat_map length]. rewrite app_assoc.
    pose proof (Hg 0 g eq_refl) as H0. rewrite Nat.add_0_r in H0.
    pose proof (samples_of_rank o f uniform r2 rg _ _ (Z.of_nat k) (Z.of_nat m) _ g h s m Hd ltac:(lia) H0 Hh) as E.
    replace (Z.to_nat (Z.of_nat k * Z.of_nat m)) with (k * m) in E by lia.
    rewrite <- E. replace (k * m + m) with (S k * m) by lia.
    rewrite (IH (S k) Hd Hh).
    + f_equal. lia.
    + intros r g' Hr. specialize (Hg (S r) g' Hr). replace (S k + r) with (k + S r) by lia. exact Hg.
Qed.
End P.

(** ** Whole scans. *)
Section Run.
Context {F : Type} (o : fops F) (f : rfuns F) (fabs : F -> F) {G X : Type} (uniform : G -> F * G).
Variables (ph : @physics F X) (cfg : @settings F) (na : nat).
Notation qsc := (@qsc F X).
Notation gens := (gens (F:=F) (G:=G)).
Notation r2 := (at_least_order_r2 cfg).

(** The routines of Qsc use the inputs, the settings, and what earlier routines of the same
    evaluation computed, not what is left from earlier configurations.  [E 0] relates any two
    objects with the settings of the scan; [E k] relates two such objects that agree in
    what the first k routines computed. *)
Definition orel {A B} (R : A -> B -> Prop) (x : outcome A) (y : outcome B) : Prop :=
  match x, y with
  | Ok a, Ok b => R a b
  | Throw s, Throw t => s = t
  | UB s, UB t => s = t
  | _, _ => False
  end.
Definition rest_rel {A} (P : X -> X -> Prop) (r r' : A * X) : Prop := fst r = fst r' /\ P (snd r) (snd r').
Record stateless (E : nat -> X -> X -> Prop) : Prop := mkStateless {
  sl_0 : forall k x y, E k x y -> E 0 x y;
  sl_all : forall x y x' y', E 0 x y -> E 0 x' y' -> E 0 x y';
  sl_axis : forall q q' : qsc, q_in q = q_in q' -> E 0 (q_rest q) (q_rest q') ->
    orel (rest_rel (E 1)) (ph_init_axis ph q) (ph_init_axis ph q');
  sl_sigma : forall q q' : qsc, q_in q = q_in q' -> E 1 (q_rest q) (q_rest q') ->
    orel (rest_rel (E 2)) (ph_solve_sigma ph q) (ph_solve_sigma ph q');
  sl_r1 : forall q q' : qsc, q_in q = q_in q' -> E 2 (q_rest q) (q_rest q') ->
    orel (rest_rel (E 3)) (ph_r1_diagnostics ph q) (ph_r1_diagnostics ph q');
  sl_r2 : forall q q' : qsc, q_in q = q_in q' -> E 3 (q_rest q) (q_rest q') ->
    orel (rest_rel (E 4)) (ph_calculate_r2 ph q) (ph_calculate_r2 ph q');
  sl_mercier : forall q q' : qsc, q_in q = q_in q' -> E 4 (q_rest q) (q_rest q') ->
    orel (rest_rel (E 5)) (ph_mercier ph q) (ph_mercier ph q');
  sl_ggB : forall q q' : qsc, q_in q = q_in q' -> E 5 (q_rest q) (q_rest q') ->
    orel (rest_rel (E 6)) (ph_grad_grad_B ph q) (ph_grad_grad_B ph q');
  sl_sing : forall q q' : qsc, q_in q = q_in q' -> E 6 (q_rest q) (q_rest q') ->
    orel (rest_rel (E 7)) (ph_r_singularity ph q) (ph_r_singularity ph q') }.

Variable E : nat -> X -> X -> Prop.
Hypothesis SL : stateless E.

(** What the outcome of an attempt shows: the inputs, the verdict and, if kept, all that is saved. *)
Definition view (e : qsc * option nat) : sample F * option nat * option (list F * Z) :=
  (q_in (fst e), snd e, match snd e with None => Some (params_of (fst e), q_helicity (fst e)) | Some _ => None end).

(** Members set only at second order. *)
Definition r2_members (q : qsc) : list F :=
  [ q_B20_grid_variation q; q_B20_residual q; q_d2_volume_d_psi2 q; q_DMerc_times_r2 q;
    q_grid_min_L_grad_grad_B q; q_r_singularity_robust q; q_beta q ].
Definition agree (q q' : qsc) : Prop :=
  q_in q = q_in q' /\ E 0 (q_rest q) (q_rest q') /\ (r2 = false -> r2_members q = r2_members q').

Lemma incr_ok (fl : list nat) k : length fl = 17 -> k < 17 -> exists fl', incr fl k = Ok fl' /\ length fl' = 17.
Proof.
  intros L K. unfold incr. destruct (nth_error fl k) as [v|] eqn:Ev; [|apply nth_error_None in Ev; lia].
  unfold aget. rewrite Ev. cbn [bind]. rewrite aset_ok by lia. eexists. split; [reflexivity|]. rewrite upd_length. auto.
Qed.

Definition verdict_rel (r r' : list nat * qsc * option nat) : Prop :=
  let '(fl, q, v) := r in let '(fl', q', v') := r' in
  length fl = 17 /\ length fl' = 17 /\ agree q q' /\ view (q, v) = view (q', v').

Lemma reject_rel fl fl' k q q' : length fl = 17 -> length fl' = 17 -> k < 17 -> agree q q' ->
  orel verdict_rel (reject fl k q) (reject fl' k q').
Proof.
  intros L L' K A. unfold reject.
  destruct (incr_ok fl k L K) as (x & -> & Lx). destruct (incr_ok fl' k L' K) as (y & -> & Ly).
  simpl. split; [auto|split; [auto|split; [auto|]]]. unfold view. simpl. destruct A as (-> & _). reflexivity.
Qed.

Ltac redq := cbn [bind fst snd q_in q_axis_length q_grid_min_R0 q_grid_max_curvature q_standard_deviation_of_R
  q_standard_deviation_of_Z q_helicity q_iota q_grid_max_elongation q_grid_min_L_grad_B q_B20_grid_variation
  q_B20_residual q_d2_volume_d_psi2 q_DMerc_times_r2 q_grid_min_L_grad_grad_B q_r_singularity_robust q_beta q_rest].
Ltac ostep H u w T := pose proof H as T; unfold orel in T; revert T;
  match goal with |- match ?x with _ => _ end -> _ => destruct x as [u|u|u];
    match goal with |- match ?y with _ => _ end -> _ => destruct y as [w|w|w] end end;
  cbn [bind]; intros T; try contradiction; try (subst; exact eq_refl).

Lemma attempt_rel fl fl' q q' : length fl = 17 -> length fl' = 17 -> agree q q' ->
  orel verdict_rel (attempt o fabs ph cfg fl q) (attempt o fabs ph cfg fl' q').
Proof.
  intros L L' A. pose proof A as (Ain & A0 & Ar2).
  unfold attempt. rewrite <- Ain. destruct (R0_crude_bad o (q_in q)); [apply reject_rel; auto; unfold REJECTED_DUE_TO_R0_CRUDE; lia|].
  unfold init_axis.
  ostep (sl_axis E SL q q' Ain A0) u w T. destruct u as [[[[[[a1 a2] a3] a4] a5] a6] x], w as [[[[[[b1 b2] b3] b4] b5] b6] y].
  destruct T as [T T2]. cbn [fst snd] in T, T2. injection T as <- <- <- <- <- <-.
  redq.
  assert (E10 := sl_0 E SL _ _ _ T2).
  match goal with |- context [negb (keep_all cfg) && flt o a2 ?b] => destruct (negb (keep_all cfg) && flt o a2 b) end;
    [apply reject_rel; auto; [unfold REJECTED_DUE_TO_R0; lia|split; [auto|split; [auto|]]; auto]|].
  match goal with |- context [if ?b then reject fl REJECTED_DUE_TO_HELICITY _ else _] => destruct b end;
    [apply reject_rel; auto; [unfold REJECTED_DUE_TO_HELICITY; lia|split; [auto|split; [auto|]]; auto]|].
  match goal with |- context [if ?b then reject fl REJECTED_DUE_TO_CURVATURE _ else _] => destruct b end;
    [apply reject_rel; auto; [unfold REJECTED_DUE_TO_CURVATURE; lia|split; [auto|split; [auto|]]; auto]|].
  unfold solve_sigma_equation.
  match goal with |- orel _ ?lhs ?rhs => match lhs with context [ph_solve_sigma ph ?c] => match rhs with context [ph_solve_sigma ph ?c'] =>
    ostep (sl_sigma E SL c c' Ain T2) u w T end end end.
  destruct u as [iota x1], w as [iota' y1]. destruct T as [T T1]. cbn [fst snd] in T, T1. subst iota'.
  cbn [bind].
  destruct (incr_ok fl N_SIGMA_EQ_SOLVES L) as (g1 & -> & G1); [unfold N_SIGMA_EQ_SOLVES; lia|].
  destruct (incr_ok fl' N_SIGMA_EQ_SOLVES L') as (g1' & -> & G1'); [unfold N_SIGMA_EQ_SOLVES; lia|].
  redq.
  unfold r1_diagnostics.
  match goal with |- orel _ ?lhs ?rhs => match lhs with context [ph_r1_diagnostics ph ?c] => match rhs with context [ph_r1_diagnostics ph ?c'] =>
    ostep (sl_r1 E SL c c' Ain T1) u w T end end end.
  destruct u as [[el lgb] x2], w as [[el' lgb'] y2]. destruct T as [T T3]. cbn [fst snd] in T, T3. injection T as <- <-.
  assert (E30 := sl_0 E SL _ _ _ T3).
  redq.
  match goal with |- context [if ?b then reject g1 REJECTED_DUE_TO_IOTA _ else _] => destruct b end;
    [apply reject_rel; auto; [unfold REJECTED_DUE_TO_IOTA; lia|split; [auto|split; [auto|]]; auto]|].
  match goal with |- context [if ?b then reject g1 REJECTED_DUE_TO_ELONGATION _ else _] => destruct b end;
    [apply reject_rel; auto; [unfold REJECTED_DUE_TO_ELONGATION; lia|split; [auto|split; [auto|]]; auto]|].
  match goal with |- context [if ?b then reject g1 REJECTED_DUE_TO_L_GRAD_B _ else _] => destruct b end;
    [apply reject_rel; auto; [unfold REJECTED_DUE_TO_L_GRAD_B; lia|split; [auto|split; [auto|]]; auto]|].
  destruct r2 eqn:R2.
  2:{ simpl. split; [auto|split; [auto|split]].
      - split; [auto|split; [auto|]]. auto.
      - unfold view, params_of. redq.
        specialize (Ar2 eq_refl). unfold r2_members in Ar2. injection Ar2 as -> -> -> -> -> -> ->. rewrite Ain. reflexivity. }
  assert (Ar : forall c c' : qsc, q_in c = q_in c' -> E 0 (q_rest c) (q_rest c') -> agree c c').
  { intros c c' H1 H2. split; [auto|split; [auto|congruence]]. }
  unfold attempt_r2, calculate_r2.
  match goal with |- orel _ ?lhs ?rhs => match lhs with context [ph_calculate_r2 ph ?c] => match rhs with context [ph_calculate_r2 ph ?c'] =>
    ostep (sl_r2 E SL c c' Ain T3) u w T end end end.
  destruct u as [[va re] x3], w as [[va' re'] y3]. destruct T as [T T4]. cbn [fst snd] in T, T4. injection T as <- <-.
  assert (E40 := sl_0 E SL _ _ _ T4). cbn [bind].
  destruct (incr_ok g1 N_R2_SOLVES G1) as (g2 & -> & G2); [unfold N_R2_SOLVES; lia|].
  destruct (incr_ok g1' N_R2_SOLVES G1') as (g2' & -> & G2'); [unfold N_R2_SOLVES; lia|].
  redq.
  match goal with |- context [if ?b then reject g2 REJECTED_DUE_TO_B20_VARIATION _ else _] => destruct b end;
    [apply reject_rel; auto; unfold REJECTED_DUE_TO_B20_VARIATION; lia|].
  unfold mercier.
  match goal with |- orel _ ?lhs ?rhs => match lhs with context [ph_mercier ph ?c] => match rhs with context [ph_mercier ph ?c'] =>
    ostep (sl_mercier E SL c c' Ain T4) u w T end end end.
  destruct u as [[d2 dm] x4], w as [[d2' dm'] y4]. destruct T as [T T5]. cbn [fst snd] in T, T5. injection T as <- <-.
  assert (E50 := sl_0 E SL _ _ _ T5).
  redq.
  match goal with |- context [if ?b then reject g2 REJECTED_DUE_TO_D2_VOLUME_D_PSI2 _ else _] => destruct b end;
    [apply reject_rel; auto; unfold REJECTED_DUE_TO_D2_VOLUME_D_PSI2; lia|].
  match goal with |- context [if ?b then reject g2 REJECTED_DUE_TO_DMERC _ else _] => destruct b end;
    [apply reject_rel; auto; unfold REJECTED_DUE_TO_DMERC; lia|].
  unfold calculate_grad_grad_B_tensor.
  match goal with |- orel _ ?lhs ?rhs => match lhs with context [ph_grad_grad_B ph ?c] => match rhs with context [ph_grad_grad_B ph ?c'] =>
    ostep (sl_ggB E SL c c' Ain T5) u w T end end end.
  destruct u as [lg x5], w as [lg' y5]. destruct T as [T T6]. cbn [fst snd] in T, T6. subst lg'.
  assert (E60 := sl_0 E SL _ _ _ T6).
  redq.
  match goal with |- context [if ?b then reject g2 REJECTED_DUE_TO_L_GRAD_GRAD_B _ else _] => destruct b end;
    [apply reject_rel; auto; unfold REJECTED_DUE_TO_L_GRAD_GRAD_B; lia|].
  unfold calculate_r_singularity.
  match goal with |- orel _ ?lhs ?rhs => match lhs with context [ph_r_singularity ph ?c] => match rhs with context [ph_r_singularity ph ?c'] =>
    ostep (sl_sing E SL c c' Ain T6) u w T end end end.
  destruct u as [[rs be] x6], w as [[rs' be'] y6]. destruct T as [T T7]. cbn [fst snd] in T, T7. injection T as <- <-.
  assert (E70 := sl_0 E SL _ _ _ T7).
  redq.
  match goal with |- context [if ?b then reject g2 REJECTED_DUE_TO_R_SINGULARITY _ else _] => destruct b end;
    [apply reject_rel; auto; unfold REJECTED_DUE_TO_R_SINGULARITY; lia|].
  match goal with |- context [if ?b then reject g2 REJECTED_DUE_TO_BETA _ else _] => destruct b end;
    [apply reject_rel; auto; unfold REJECTED_DUE_TO_BETA; lia|].
  simpl. split; [auto|split; [auto|split; [apply Ar; auto|]]].
  unfold view, params_of. simpl. rewrite Ain. reflexivity.
Qed.

Ltac redqin H := cbn [bind fst snd q_in q_axis_length q_grid_min_R0 q_grid_max_curvature q_standard_deviation_of_R
  q_standard_deviation_of_Z q_helicity q_iota q_grid_max_elongation q_grid_min_L_grad_B q_B20_grid_variation
  q_B20_residual q_d2_volume_d_psi2 q_DMerc_times_r2 q_grid_min_L_grad_grad_B q_r_singularity_robust q_beta q_rest] in H.
Ltac head H := match type of H with
  | bind (bind ?x _) _ = Ok _ => let u := fresh "u" in destruct x as [u|u|u]; cbn [bind] in H; try discriminate
  | bind ?x _ = Ok _ => let u := fresh "u" in destruct x as [u|u|u]; cbn [bind] in H; try discriminate
  | (if ?b then _ else _) = Ok _ => destruct b
  | bind (let '(_, _) := ?p in _) _ = Ok _ => destruct p; cbn [bind] in H
  | bind (match ?p with (_, _) => _ end) _ = Ok _ => destruct p; cbn [bind] in H
  | (match ?p with (_, _) => _ end) = Ok _ => destruct p
  end.
Definition keeps (q q1 : qsc) : Prop := q_in q1 = q_in q /\ (r2 = false -> r2_members q1 = r2_members q).
Lemma reject_keeps q fl k c fl' q1 v : keeps q c -> reject fl k c = Ok (fl', q1, v) -> keeps q q1.
Proof. intros K H. unfold reject in H. repeat head H. injection H as <- <- <-. exact K. Qed.
Lemma attempt_keeps fl q fl' q1 v : attempt o fabs ph cfg fl q = Ok (fl', q1, v) -> keeps q q1.
Proof.
  intros H. unfold attempt in H. head H. { eapply reject_keeps; [|exact H]. split; auto. }
  unfold init_axis in H. head H. do 6 (destruct u as [u ?]). redqin H.
  do 3 (head H; [eapply reject_keeps; [|exact H]; split; auto|]).
  unfold solve_sigma_equation in H. head H. destruct u0. redqin H. head H.
  unfold r1_diagnostics in H. head H. destruct u1 as [[] ?]. redqin H.
  do 3 (head H; [eapply reject_keeps; [|exact H]; split; auto|]).
  destruct r2 eqn:R2; [|injection H as <- <- <-; split; auto].
  assert (K : forall c : qsc, q_in c = q_in q -> keeps q c) by (intros c Hc; split; [auto|congruence]).
  unfold attempt_r2, calculate_r2 in H. head H. destruct u1 as [[] ?]. redqin H. head H.
  head H; [eapply reject_keeps; [|exact H]; apply K; reflexivity|].
  unfold mercier in H. head H. destruct u2 as [[] ?]. redqin H.
  do 2 (head H; [eapply reject_keeps; [|exact H]; apply K; reflexivity|]).
  unfold calculate_grad_grad_B_tensor in H. head H. destruct u2. redqin H.
  head H; [eapply reject_keeps; [|exact H]; apply K; reflexivity|].
  unfold calculate_r_singularity in H. head H. destruct u2 as [[] ?]. redqin H.
  do 2 (head H; [eapply reject_keeps; [|exact H]; apply K; reflexivity|]).
  injection H as <- <- <-. apply K. reflexivity.
Qed.

(** The scan's settings with another attempt limit. *)
Definition with_attempts (m : Z) : @settings F :=
  mkSettings (keep_all cfg) (at_least_order_r2 cfg) (helicity_to_keep cfg) (min_R0_to_keep cfg) (min_iota_to_keep cfg)
    (max_elongation_to_keep cfg) (min_L_grad_B_to_keep cfg) (min_L_grad_grad_B_to_keep cfg) (max_B20_variation_to_keep cfg)
    (min_r_singularity_to_keep cfg) (max_d2_volume_d_psi2_to_keep cfg) (min_DMerc_times_r2_to_keep cfg)
    (min_beta_to_keep cfg) (max_keep_per_proc cfg) m (max_seconds cfg) (save_period cfg).
Notation RUN m := (run o fabs (pick o f uniform r2) ph (with_attempts m) na).

(** Reference evaluation of a configuration, starting from the object [q0]. *)
Variable q0 : qsc.
Hypothesis q0_ok : E 0 (q_rest q0) (q_rest q0).
Let ev (s : sample F) : option (sample F * option nat * option (list F * Z)) :=
  match attempt o fabs ph cfg (repeat 0 17) (set_sample s q0) with Ok (_, q, v) => Some (view (q, v)) | _ => None end.

Definition linv (g0 : gens) (p : @proc F gens X) : Prop :=
  length (p_filters p) = 17
  /\ E 0 (q_rest (p_q p)) (q_rest q0) /\ (r2 = false -> r2_members (p_q p) = r2_members q0)
  /\ (p_gen p, q_in (p_q p)) = after o f uniform r2 (length (p_log p)) g0 (q_in q0)
  /\ map (fun e => Some (view e)) (rev (p_log p)) = map ev (samples o f uniform r2 (length (p_log p)) g0 (q_in q0)).

Lemma iteration_linv m g0 start n1 n2 p p' b : linv g0 p ->
  iteration o fabs (pick o f uniform r2) ph (with_attempts m) na start n1 n2 p = Ok (p', b) -> linv g0 p'.
Proof.
  intros I H. unfold iteration in H.
  match type of H with bind ?x _ = _ => destruct x as [p1|?|?] eqn:E1; cbn [bind] in H; try discriminate end.
  assert (I1 : linv g0 p1).
  { destruct I as (L & J). destruct (flt o _ _).
    - unfold collect in E1. cbn [p_filters] in E1. rewrite aset_ok in E1 by (unfold KEPT; lia). cbn [bind] in E1.
      injection E1 as <-. split; [|exact J]. cbn [p_filters]. rewrite upd_length. exact L.
    - injection E1 as <-. split; [exact L|exact J]. }
  clear E1 I p. destruct I1 as (L & I0 & I2 & I3 & I4).
  match type of H with bind ?x _ = _ => destruct x; cbn [bind] in H; try discriminate end.
  match type of H with (if ?c then _ else _) = _ => destruct c end.
  { injection H as <- <-. repeat split; auto. }
  destruct (incr_ok (p_filters p1) ATTEMPTS L) as (fl & EF & LF); [unfold ATTEMPTS; lia|].
  rewrite EF in H. cbn [bind] in H.
  pose proof (samples_S o f uniform r2 (length (p_log p1)) g0 (q_in q0)) as ES.
  pose proof (after_S o f uniform r2 (length (p_log p1)) g0 (q_in q0)) as EA.
  rewrite <- I3 in ES, EA. cbn [fst snd] in ES.
  destruct (pick o f uniform r2 (p_gen p1) (q_in (p_q p1))) as [s g].
  cbn [fst snd] in ES, EA.
  assert (AG : agree (set_sample s (p_q p1)) (set_sample s q0)) by (split; [reflexivity|split; auto]).
  pose proof (attempt_rel fl (repeat 0 17) _ _ LF eq_refl AG) as R.
  change (attempt o fabs ph (with_attempts m)) with (attempt o fabs ph cfg) in H.
  destruct (attempt o fabs ph cfg fl (set_sample s (p_q p1))) as [[[fl1 q1] v]|?|?] eqn:EAt; cbn [bind] in H; try discriminate.
  assert (EV : ev s = Some (view (q1, v))).
  { unfold ev. unfold orel in R. destruct (attempt o fabs ph cfg (repeat 0 17) (set_sample s q0)) as [[[fl2 q2] v2]|?|?]; try contradiction.
    destruct R as (_ & _ & _ & ->). reflexivity. }
  assert (KE : keeps (set_sample s (p_q p1)) q1) by (eapply attempt_keeps; exact EAt).
  destruct KE as [KI KR].
  assert (E1 : E 0 (q_rest q1) (q_rest q0)).
  { unfold orel in R. destruct (attempt o fabs ph cfg (repeat 0 17) (set_sample s q0)) as [[[fl2 q2] v2]|?|?]; try contradiction.
    destruct R as (_ & _ & (_ & R & _) & _). exact (sl_all E SL _ _ _ _ R q0_ok). }
  assert (LF1 : length fl1 = 17).
  { unfold orel in R. destruct (attempt o fabs ph cfg (repeat 0 17) (set_sample s q0)) as [[[fl2 q2] v2]|?|?]; try contradiction.
    apply R. }
  assert (GO : forall b2 j c kg, linv g0 (mkProc g q1 fl1 b2 j c kg (p_saves p1) ((q1, v) :: p_log p1))).
  { intros b2 j c kg. unfold linv. cbn [p_filters p_q p_gen p_log].
    split; [exact LF1|split; [exact E1|split; [|split]]].
    - intros Hr. rewrite KR by auto. apply I2. auto.
    - cbn [length]. rewrite EA. f_equal. rewrite KI. reflexivity.
    - cbn [length]. rewrite ES, map_app. cbn [rev]. rewrite map_app, I4. cbn [map]. rewrite EV. reflexivity. }
  destruct v as [k|].
  - injection H as <- <-. apply GO.
  - match type of H with bind ?x _ = _ => destruct x; cbn [bind] in H; try discriminate end.
    injection H as <- <-. apply GO.
Qed.

Lemma loop_linv m g0 start clock : forall p p' b, linv g0 p ->
  loop o fabs (pick o f uniform r2) ph (with_attempts m) na start clock p = Ok (p', b) -> linv g0 p'.
Proof.
  induction clock as [|[n1 n2] clock IH]; intros p p' b I H; cbn [loop] in H.
  - injection H as <- <-. exact I.
  - destruct (iteration _ _ _ _ _ _ _ _ _ _) as [[p1 go]|?|?] eqn:E1; cbn [bind] in H; try discriminate.
    pose proof (iteration_linv _ _ _ _ _ _ _ _ I E1) as I1.
    destruct go; [eapply IH; eauto|]. injection H as <- <-. exact I1.
Qed.

Lemma run_views m g start clock p ended :
  RUN m g q0 start clock = Ok (p, ended) ->
  map (fun e => Some (view e)) (rev (p_log p)) = map ev (samples o f uniform r2 (length (p_log p)) g (q_in q0)).
Proof.
  intros H. unfold run in H.
  match type of H with bind ?x _ = _ => destruct x as [[p1 en]|?|?] eqn:E1; cbn [bind] in H; try discriminate end.
  apply (loop_linv m g) in E1.
  - destruct en; [|injection H as <- <-; apply E1].
    unfold collect in H. rewrite aset_ok in H by (destruct E1 as [-> _]; unfold KEPT; lia). cbn [bind] in H.
    injection H as <- <-. apply E1.
  - unfold init_proc, linv. cbn [p_filters p_q p_gen p_log length]. repeat split; auto.
Qed.

(** C27.  [gs]: the generators of ranks 0, 1, ..., each with a limit of [m] attempts, and [ps]
    the processes after their scans, each stopped by that limit; [big]: a scan by a single
    process, stopped by the limit of (number of processes)*m attempts.  The processes
    together examined the same configurations in the same order, each with the same verdict,
    and kept the same configurations with the same saved values. *)
Theorem deterministic_scan_any_processes rg seed (m : nat) gs ps g1 big start clock :
  rg_deterministic rg = true ->
  (forall r g, nth_error gs r = Some g -> make_gens o f uniform rg (seed r) (Z.of_nat r) (Z.of_nat m) = Ok g) ->
  Forall2 (fun g p => (exists start clock ended, RUN (Z.of_nat m) g q0 start clock = Ok (p, ended)) /\ length (p_log p) = m) gs ps ->
  make_gens o f uniform rg (seed 0) 0 (Z.of_nat (length gs * m)) = Ok g1 ->
  (exists ended, RUN (Z.of_nat (length gs * m)) g1 q0 start clock = Ok (big, ended)) ->
  length (p_log big) = length gs * m ->
  flat_map (fun p => map view (rev (p_log p))) ps = map view (rev (p_log big))
  /\ map (fun q => (params_of q, fourier_of (q_in q), q_helicity q)) (flat_map (fun p => kept (p_log p)) ps)
     = map (fun q => (params_of q, fourier_of (q_in q), q_helicity q)) (kept (p_log big)).
Proof.
  intros Hd Hg H2 H1 [en Hb] Lb.
  assert (V : flat_map (fun p => map view (rev (p_log p))) ps = map view (rev (p_log big))).
  { assert (SI : forall (a b : list (sample F * option nat * option (list F * Z))), map Some a = map Some b -> a = b).
    { induction a as [|x a IH]; intros [|y b] Hab; try discriminate; auto. injection Hab as -> Hab. f_equal. auto. }
    apply SI. rewrite map_map. rewrite (run_views _ _ _ _ _ _ Hb), Lb.
    pose proof (samples_concat o f uniform r2 rg seed m (Z.of_nat (length gs * m)) g1 (q_in q0) gs 0 Hd H1) as SC.
    cbn [Nat.add Nat.mul samples app] in SC. rewrite <- SC by exact Hg.
    clear - H2 SL q0_ok. induction H2 as [|g p gs ps ((st & ck & en & Hr) & Lp) _ IH]; [reflexivity|].
    cbn [flat_map]. rewrite !map_app, IH. f_equal. rewrite map_map.
    rewrite (run_views _ _ _ _ _ _ Hr), Lp. reflexivity. }
  split; [exact V|].
  (* kept configurations, from the views *)
  set (kv := fun w : sample F * option nat * option (list F * Z) =>
               match w with (s, None, Some (a, h)) => [(a, fourier_of s, h)] | _ => [] end).
  assert (KV : forall l : list (qsc * option nat),
    map (fun q => (params_of q, fourier_of (q_in q), q_helicity q)) (kept l) = flat_map kv (map view (rev l))).
  { intros l. unfold kept. induction l as [|[q [k|]] l IH]; [reflexivity| |];
      cbn [rev map filter snd fst] in *; rewrite ?map_app, ?flat_map_app in *; simpl in *.
    - rewrite app_nil_r. exact IH.
    - rewrite IH. reflexivity. }
  rewrite KV, <- V. clear - KV.
  induction ps as [|p ps IH]; [reflexivity|]. cbn [flat_map]. rewrite map_app, flat_map_app, KV, IH. reflexivity.
Qed.
End Run.

(** ** Examples, in double precision (log distributions not used, so exp and log are dummies). *)
Definition ex_gamma := SFdiv 53 1024 (dz 1618034) (dz 1000000).
Definition ex_fmod1 (x : spec_float) : spec_float :=
  if SFltb x (dz 1) then x else
  let y := SFsub 53 1024 x (dz 1) in if SFltb y (dz 1) then y else SFsub 53 1024 y (dz 1).
Definition ex_funs : rfuns spec_float :=
  mkRfuns _ (fun x => x) (fun x => x) SFabs ex_fmod1 (SFdiv 53 1024 (dz 1) (dz 2)) ex_gamma.
Definition ex_uniform (u : unit) : spec_float * unit := (dz 0, u).
Definition ex_lim a b : string * spec_float * spec_float := ("linear"%string, dz a, dz b).
Definition ex_rg : ranges (F:=spec_float) :=
  mkRanges true (ex_lim 1 2) (ex_lim 0 0) (ex_lim 0 1) (ex_lim 0 1) (ex_lim (-1) 0) "linear"
    [dz 2; dz (-3)] [dz 3; dz 3] [dz 0; dz 0] [dz 0; dz 0] [dz 0; dz 0] [dz 0; dz 0] [dz 0; dz (-1)] [dz 0; dz 1].
Definition ex_gens rank m :=
  match make_gens D_ops ex_funs ex_uniform ex_rg (fun _ => tt) rank m with Ok g => [g] | _ => [] end.
Definition ex_det_run (m : Z) g := run D_ops SFabs (pick D_ops ex_funs ex_uniform true) (ex_ph (dz 1)) (with_attempts (ex_cfg 50) m) 2 g ex_q (dz 0) ex_clock.
Definition ex_procs (m : Z) gs := flat_map (fun g => match ex_det_run m g with Ok (p, _) => [p] | _ => [] end) gs.
Lemma ex_stateless : stateless (ex_ph (dz 1)) (fun _ _ _ => True).
Proof. constructor; intros; cbn; auto; split; reflexivity. Qed.
(** Two processes with two attempts each and one process with four: all hypotheses hold, and
    some but not all configurations are kept. *)
Example deterministic_scan_example :
  let gs := ex_gens 0 2 ++ ex_gens 1 2 in
  length gs = 2 /\ map (fun p => length (p_log p)) (ex_procs 2 gs) = [2; 2]
  /\ map (fun p => length (p_log p)) (ex_procs 4 (ex_gens 0 4)) = [4]
  /\ map (fun p => length (kept (p_log p))) (ex_procs 2 gs) = [1; 2]
  /\ map (fun p => length (kept (p_log p))) (ex_procs 4 (ex_gens 0 4)) = [3].
Proof. vm_compute. repeat split; reflexivity. Qed.

(** Finding (C27): the position rank*max_attempts_per_proc is computed in int and overflows
    for settings that are in range, whether or not the scan is deterministic. *)
Theorem generator_position_overflow_refuted :
  exists rank m, int_ok rank = true /\ int_ok m = true /\ rank = 2%Z /\ (m = 1500000000)%Z
  /\ forall seed, make_gens D_ops ex_funs ex_uniform ex_rg seed rank m = UB "signed integer overflow".
Proof. exists 2%Z, 1500000000%Z. repeat split. Qed.

(** Finding: without an attempt limit (max_attempts_per_proc = 0 means no limit) all processes
    of a deterministic scan examine the same configurations. *)
Theorem deterministic_scan_duplicates {F} (o : fops F) f {G} (uniform : G -> F * G) r2 rg seed seed' rank g h s n :
  rg_deterministic rg = true -> (0 <= rank)%Z ->
  make_gens o f uniform rg seed rank 0 = Ok g -> make_gens o f uniform rg seed' 0 0 = Ok h ->
  samples o f uniform r2 n g s = samples o f uniform r2 n h s.
Proof.
  intros Hd Hr H1 H2. pose proof (samples_of_rank o f uniform r2 rg seed seed' rank 0 0 g h s n Hd) as E.
  rewrite Z.mul_0_r in E. symmetry. apply E; auto. lia.
Qed.

Print Assumptions deterministic_samples.
Print Assumptions deterministic_scan_any_processes.
Print Assumptions generator_position_overflow_refuted.
Print Assumptions deterministic_scan_duplicates.
