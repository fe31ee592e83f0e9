(** A random scan with its generators: the model of the whole of Scan::random in one process, and facts about what the generators draw. *)
From Coq Require Import String ZArith List Arith Bool Lia Reals.
From Verif Require Import Base BaseFacts FloatOps MathOps Tensor RSing NetCDFOut Scan ScanSpec ScanFacts RandomGen RandomSpec RandomFacts Collect ScanDet ScanDetFacts Run RunSpec ScanQsc Properties_ScanQsc.
Import ListNotations.
Local Open Scope string_scope.
Local Open Scope nat_scope.

(** scan_random.cpp lines 14-289: the generators are constructed from the limits [rg] of the input file (ScanDet.v), then the loop runs (Scan.v, ScanQsc.v).  The number
    of modes, axis_nmax_plus_1, is R0c_max.size() (line 15). *)
Definition whole_scan {F} (o : fops F) (mo : mops F) (f : rfuns F) {G} (uniform : G -> F * G) (ge0 : F -> bool) (mu0 : F)
    (newton_linear_solve : (nat -> nat -> F) -> list F -> outcome (list F)) (linear_solve : matrix F -> list F -> outcome (list F))
    (geev : list F -> Z * (list F * list F)) (tol : tolerances F) (finite : F -> bool) (cfg : @settings F)
    (rg : ranges (F:=F)) (seed : nat -> G) (rank : Z) (e : members F) (start : F) (clock : list (F * F)) : outcome (@proc F (gens (F:=F) (G:=G)) (calc F) * bool) :=
  do g <- make_gens o f uniform rg seed rank (max_attempts_per_proc cfg);
  random_scan o mo ge0 mu0 newton_linear_solve linear_solve geev tol finite (fabs f) (pick o f uniform (Scan.at_least_order_r2 cfg)) cfg (length (R0c_max rg)) e g start clock.

(** ** Runs with two generators that draw the same *)
Section Same.
Context {F : Type} (o : fops F) (fabs : F -> F) {G X : Type} (pick pick' : G -> sample F -> sample F * G) (ph : @physics F X) (cfg : @settings F) (na : nat).
Variable I : G -> Prop.
Hypothesis agree : forall g s, I g -> pick' g s = pick g s /\ I (snd (pick g s)).
Notation proc := (@proc F G X).
Lemma collect_gen (p p1 : proc) : collect p = Ok p1 -> p_gen p1 = p_gen p /\ p_q p1 = p_q p /\ p_log p1 = p_log p /\ length (p_filters p1) = length (p_filters p).
Proof.
  unfold collect. intros H. destruct (aset (p_filters p) KEPT (p_j_scan p)) as [l| |] eqn:E; cbn [bind] in H; try discriminate. injection H as <-. cbn.
  repeat split. unfold aset in E. destruct (_ <? _); [|discriminate]. injection E as <-. apply upd_length.
Qed.
Lemma iteration_same start now1 now2 (p : proc) : I (p_gen p) ->
  iteration o fabs pick' ph cfg na start now1 now2 p = iteration o fabs pick ph cfg na start now1 now2 p /\
  forall p' go, iteration o fabs pick ph cfg na start now1 now2 p = Ok (p', go) -> I (p_gen p').
Proof.
  intros Hi. unfold iteration. set (x := if flt o (save_period cfg) _ then _ else _). assert (Hx : forall p1, x = Ok p1 -> p_gen p1 = p_gen p).
  { intros p1. unfold x. destruct (flt o (save_period cfg) _); intros H; [apply collect_gen in H; exact (proj1 H)|injection H as <-; reflexivity]. }
  clearbody x. destruct x as [p1|w|w]; cbn [bind]; [|split; [reflexivity|discriminate]|split; [reflexivity|discriminate]].
  specialize (Hx p1 eq_refl). rewrite <- Hx in Hi. destruct (aget (p_filters p1) ATTEMPTS) as [a| |]; cbn [bind]; [|split; [reflexivity|discriminate]|split; [reflexivity|discriminate]].
  destruct (_ && _)%bool; [split; [reflexivity|intros p' go H; injection H as <- <-; exact Hi]|].
  destruct (incr (p_filters p1) ATTEMPTS) as [f1| |]; cbn [bind]; [|split; [reflexivity|discriminate]|split; [reflexivity|discriminate]].
  destruct (agree (p_gen p1) (q_in (p_q p1)) Hi) as (-> & Hn). split; [reflexivity|]. destruct (pick (p_gen p1) (q_in (p_q p1))) as [s g]. cbn [snd] in Hn.
  intros p' go H. destruct (attempt o fabs ph cfg f1 (set_sample s (p_q p1))) as [[[f2 q2] v]| |]; cbn [bind] in H; try discriminate. destruct v as [k|].
  - injection H as <- <-. exact Hn.
  - destruct (store na (p_buf p1) (p_j_scan p1) q2) as [b| |]; cbn [bind] in H; try discriminate. injection H as <- <-. exact Hn.
Qed.
Lemma loop_same start clock : forall (p : proc), I (p_gen p) -> loop o fabs pick' ph cfg na start clock p = loop o fabs pick ph cfg na start clock p.
Proof.
  induction clock as [|[n1 n2] clock IH]; intros p Hi; cbn [loop]; [reflexivity|]. destruct (iteration_same start n1 n2 p Hi) as (-> & Hn).
  destruct (iteration o fabs pick ph cfg na start n1 n2 p) as [[p' go]| |]; cbn [bind]; [|reflexivity|reflexivity]. destruct go; [|reflexivity]. apply IH. apply (Hn p' true eq_refl).
Qed.
Lemma run_same g q start clock : I g -> Scan.run o fabs pick' ph cfg na g q start clock = Scan.run o fabs pick ph cfg na g q start clock.
Proof. intros Hi. unfold Scan.run. rewrite loop_same by exact Hi. reflexivity. Qed.

(** ** A property of everything that is drawn *)
Variables (K P : sample F -> Prop).
Hypothesis drawn_ok : forall g s, I g -> K s -> K (fst (pick g s)) /\ P (fst (pick g s)).
Definition drawn_inv (p : proc) : Prop := I (p_gen p) /\ K (q_in (p_q p)) /\ length (p_filters p) = 17 /\ Forall (fun c => P (q_in (fst c))) (p_log p).
Lemma iteration_drawn start now1 now2 (p : proc) p' go : drawn_inv p -> iteration o fabs pick ph cfg na start now1 now2 p = Ok (p', go) -> drawn_inv p'.
Proof.
  intros (Hi & Hk & Hl & Hp) H. unfold iteration in H. set (x := if flt o (save_period cfg) _ then _ else _) in H. assert (Hx : forall p1, x = Ok p1 -> drawn_inv p1).
  { intros p1. unfold x. destruct (flt o (save_period cfg) _); intros E.
    - apply collect_gen in E. cbn in E. destruct E as (E1 & E2 & E3 & E4). unfold drawn_inv. rewrite E1, E2, E3, E4. auto.
    - injection E as <-. unfold drawn_inv. cbn. auto. }
  clearbody x. clear Hi Hk Hl Hp. destruct x as [p1| |]; cbn [bind] in H; try discriminate. destruct (Hx p1 eq_refl) as (Hi & Hk & Hl & Hp). clear Hx.
  destruct (aget (p_filters p1) ATTEMPTS) as [a| |]; cbn [bind] in H; try discriminate.
  destruct (_ && _)%bool; [injection H as <- <-; unfold drawn_inv; auto|]. rewrite incr_spec in H by (unfold ATTEMPTS; lia). cbn [bind] in H.
  destruct (drawn_ok (p_gen p1) (q_in (p_q p1)) Hi Hk) as (K1 & P1). destruct (agree (p_gen p1) (q_in (p_q p1)) Hi) as (_ & I1).
  destruct (pick (p_gen p1) (q_in (p_q p1))) as [s g]. cbn [fst snd] in *.
  destruct (attempt o fabs ph cfg _ (set_sample s (p_q p1))) as [[[f2 q2] v]| |] eqn:Ea; cbn [bind] in H; try discriminate.
  apply attempt_ok in Ea; [|rewrite upd_length; exact Hl]. destruct Ea as ((La & _) & _ & Eq). cbn [q_in set_sample] in Eq.
  destruct v as [k|].
  - injection H as <- <-. unfold drawn_inv. cbn. rewrite Eq. split; [exact I1|]. split; [exact K1|]. split; [congruence|]. constructor; [cbn; rewrite Eq; exact P1|exact Hp].
  - destruct (store na (p_buf p1) (p_j_scan p1) q2) as [b| |]; cbn [bind] in H; try discriminate. injection H as <- <-. unfold drawn_inv. cbn. rewrite Eq.
    split; [exact I1|]. split; [exact K1|]. split; [congruence|]. constructor; [cbn; rewrite Eq; exact P1|exact Hp].
Qed.
Lemma loop_drawn start clock : forall (p p' : proc) en, drawn_inv p -> loop o fabs pick ph cfg na start clock p = Ok (p', en) -> drawn_inv p'.
Proof.
  induction clock as [|[n1 n2] clock IH]; intros p p' en Hi H; cbn [loop] in H; [injection H as <- _; exact Hi|].
  destruct (iteration o fabs pick ph cfg na start n1 n2 p) as [[p1 go]| |] eqn:E; cbn [bind] in H; try discriminate. apply (iteration_drawn _ _ _ _ _ _ Hi) in E.
  destruct go; [eapply IH; eauto|injection H as <- _; exact E].
Qed.
Lemma run_drawn g q start clock p en : I g -> K (q_in q) -> Scan.run o fabs pick ph cfg na g q start clock = Ok (p, en) -> Forall (fun c => P (q_in (fst c))) (p_log p).
Proof.
  intros Hi Hk H. unfold Scan.run in H. destruct (loop o fabs pick ph cfg na start clock (init_proc o cfg na g q start)) as [[p1 e1]| |] eqn:E; cbn [bind] in H; try discriminate.
  apply loop_drawn in E; [|unfold drawn_inv, init_proc; cbn [p_gen p_q p_filters p_log]; repeat split; auto]. destruct E as (_ & _ & _ & E).
  destruct e1; [|injection H as <- _; exact E]. destruct (collect p1) as [p2| |] eqn:Ec; cbn [bind] in H; try discriminate. injection H as <- _. apply collect_gen in Ec.
  destruct Ec as (_ & _ & -> & _). exact E.
Qed.
End Same.

(** ** The generators of ScanDet.v *)
Section Gens.
Context {F : Type} (o : fops F) (f : rfuns F) {G : Type} (uniform : G -> F * G) (rg : ranges (F:=F)).
Notation gens := (gens (F:=F) (G:=G)).
Notation reach lim := (reachable o f uniform (rg_deterministic rg) (fst (fst lim)) (snd (fst lim)) (snd lim)).
(** The distribution of an amplitude: R0c[0] is not negative for "2 sided log". *)
Definition mode_option (x : string) (j : nat) : string :=
  if (String.eqb x "R0c" && Nat.eqb j 0 && String.eqb (rg_fourier_option rg) "2 sided log")%bool then "log" else rg_fourier_option rg.
Definition mode_limits (x : string) : list F * list F :=
  if String.eqb x "R0c" then (R0c_min rg, R0c_max rg) else if String.eqb x "R0s" then (R0s_min rg, R0s_max rg)
  else if String.eqb x "Z0c" then (Z0c_min rg, Z0c_max rg) else (Z0s_min rg, Z0s_max rg).
Definition of_mode (x : string) (j : nat) (r : random (F:=F) (G:=G)) : Prop :=
  exists a b, nth_error (fst (mode_limits x)) j = Some a /\ nth_error (snd (mode_limits x)) j = Some b /\
    reachable o f uniform (rg_deterministic rg) (mode_option x j) a b r.
Definition good (g : gens) : Prop :=
  reach (rg_eta_bar rg) (g_eta_bar g) /\ reach (rg_sigma0 rg) (g_sigma0 g) /\ reach (rg_B2c rg) (g_B2c g) /\ reach (rg_B2s rg) (g_B2s g) /\ reach (rg_p2 rg) (g_p2 g) /\
  length (g_modes g) = length (R0c_max rg) /\
  forall j m, nth_error (g_modes g) j = Some m -> of_mode "R0c" j (m_R0c m) /\ of_mode "R0s" j (m_R0s m) /\ of_mode "Z0c" j (m_Z0c m) /\ of_mode "Z0s" j (m_Z0s m).
Lemma positioned_reach lim sd rank m k r : positioned o f uniform (rg_deterministic rg) lim sd rank m k = Ok r -> reach lim r.
Proof.
  destruct lim as [[d lo] hi]. cbn [fst snd]. unfold positioned. intros H. destruct (make_random o f (rg_deterministic rg) d lo hi sd) as [r0| |] eqn:E; cbn [bind] in H; try discriminate.
  destruct (start_position rank m k) as [n| |]; cbn [bind] in H; try discriminate. injection H as <-. apply reach_set. eapply reach_make; eauto.
Qed.
Lemma mapM_nth {B C} (h : B -> outcome C) (l : list B) : forall ys, mapM h l = Ok ys -> length ys = length l /\ forall j y, nth_error ys j = Some y -> exists x, nth_error l j = Some x /\ h x = Ok y.
Proof.
  induction l as [|x l IH]; intros ys H; cbn [mapM] in H.
  - injection H as <-. split; [reflexivity|]. intros [|j] y Hy; discriminate.
  - destruct (h x) as [y0| |] eqn:Ey; cbn [bind] in H; try discriminate. destruct (mapM h l) as [ys0| |]; cbn [bind] in H; try discriminate. injection H as <-.
    destruct (IH ys0 eq_refl) as (L & N). split; [cbn; lia|]. intros [|j] y Hy; cbn in *; [injection Hy as <-; eauto|apply N; exact Hy].
Qed.
Lemma aget_some {A} (l : list A) j v : aget l j = Ok v -> nth_error l j = Some v.
Proof. unfold aget. destruct (nth_error l j); congruence. Qed.
Lemma make_gens_good sd rank m g : make_gens o f uniform rg sd rank m = Ok g -> good g.
Proof.
  unfold make_gens. intros H.
  repeat match type of H with bind (positioned _ _ _ _ ?l _ _ _ _) _ = _ =>
    let E := fresh "E" in let r := fresh "r" in destruct (positioned o f uniform (rg_deterministic rg) l _ _ _ _) as [r| |] eqn:E in H; cbn [bind] in H; try discriminate; apply positioned_reach in E end.
  destruct (mapM (make_mode o f uniform rg sd rank m) (seq 0 (length (R0c_max rg)))) as [ms| |] eqn:Em; cbn [bind] in H; try discriminate. injection H as <-.
  apply mapM_nth in Em. destruct Em as (L & N). unfold good. cbn [g_eta_bar g_sigma0 g_B2c g_B2s g_p2 g_modes]. do 5 (split; [assumption|]).
  split; [rewrite L; apply seq_length|]. intros j md Hj. destruct (N j md Hj) as (x & Hx & Hm).
  assert (x = j). { assert (j < length (seq 0 (length (R0c_max rg)))) by (apply nth_error_Some; congruence). rewrite seq_length in H. pose proof (nth_error_nth _ _ 0 Hx) as Q. rewrite seq_nth in Q by exact H. cbn in Q. lia. }
  subst x. clear N Hx. unfold make_mode in Hm.
  repeat (match type of Hm with bind (aget ?l ?j) _ = _ => let E := fresh "A" in let v := fresh "v" in destruct (aget l j) as [v| |] eqn:E in Hm; cbn [bind] in Hm; try discriminate; apply aget_some in E
    | bind (positioned _ _ _ _ ?l _ _ _ _) _ = _ => let E := fresh "B" in let r := fresh "r" in destruct (positioned o f uniform (rg_deterministic rg) l _ _ _ _) as [r| |] eqn:E in Hm; cbn [bind] in Hm; try discriminate; apply positioned_reach in E end).
  injection Hm as <-. cbn [m_R0c m_R0s m_Z0c m_Z0s]. unfold of_mode, mode_limits, mode_option. cbn [fst snd String.eqb Ascii.eqb Bool.eqb andb].
  split; [do 2 eexists; split; [eassumption|split; [eassumption|eassumption]]|]. split; [do 2 eexists; split; [eassumption|split; [eassumption|eassumption]]|].
  split; do 2 eexists; (split; [eassumption|split; [eassumption|eassumption]]).
Qed.
Lemma of_mode_next x j r : of_mode x j r -> of_mode x j (next o f uniform r).
Proof. intros (a & b & Ha & Hb & Hr). exists a, b. split; [exact Ha|]. split; [exact Hb|]. apply reach_get. exact Hr. Qed.
Lemma pick_good r2 g s : good g -> good (snd (pick o f uniform r2 g s)).
Proof.
  intros (H1 & H2 & H3 & H4 & H5 & L & H). unfold good, pick. cbn [snd g_eta_bar g_sigma0 g_B2c g_B2s g_p2 g_modes].
  split; [apply reach_get; exact H1|]. split; [apply reach_get; exact H2|]. split; [destruct r2; [apply reach_get|]; exact H3|]. split; [destruct r2; [apply reach_get|]; exact H4|].
  split; [destruct r2; [apply reach_get|]; exact H5|]. split; [rewrite map_length; exact L|]. intros j m Hj. rewrite nth_error_map in Hj.
  destruct (nth_error (g_modes g) j) as [m0|] eqn:E; cbn [option_map] in Hj; [|discriminate]. injection Hj as <-. cbn [m_R0c m_R0s m_Z0c m_Z0s].
  destruct (H j m0 E) as (A & B & C & D). repeat split; apply of_mode_next; assumption.
Qed.
(** A generator that always draws a sample of the right size, as [pick] does for the generators of the scan. *)
Definition sized_pick (r2 : bool) (na : nat) (g : gens) (s : sample F) : sample F * gens :=
  if Nat.eqb (length (g_modes g)) na then pick o f uniform r2 g s
  else (let z := repeat (fzero o) na in mkSample (s_eta_bar s) (s_sigma0 s) (s_B2c s) (s_B2s s) (s_p2 s) z z z z, g).
Lemma sized_pick_sized r2 na g s : ScanSpec.sized na (fst (sized_pick r2 na g s)).
Proof.
  unfold sized_pick. destruct (Nat.eqb_spec (length (g_modes g)) na) as [E|]; unfold ScanSpec.sized; cbn; rewrite ?map_length, ?repeat_length; auto.
Qed.
Lemma sized_pick_same r2 g s : good g -> sized_pick r2 (length (R0c_max rg)) g s = pick o f uniform r2 g s /\ good (snd (pick o f uniform r2 g s)).
Proof.
  intros H. split; [|apply pick_good; exact H]. unfold sized_pick. destruct H as (_ & _ & _ & _ & _ & -> & _). rewrite Nat.eqb_refl. reflexivity.
Qed.
End Gens.
