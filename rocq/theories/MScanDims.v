(** Facts about the setting of the scanned parameters of a parameter scan. *)
From Coq Require Import String Ascii ZArith List Bool Arith Lia.
From Verif Require Import Base BaseFacts FloatOps Tensor Outfile OutfileFacts Grid MScan MScanSpec.
Import ListNotations.
Local Open Scope list_scope.
Local Open Scope nat_scope.

Lemma for_from_ok {S} (P : nat -> S -> Prop) body n : forall i s s',
  P i s -> (forall k x x', i <= k < i + n -> P k x -> body k x = Ok x' -> P (1 + k) x') ->
  for_from i n body s = Ok s' -> P (i + n) s'.
Proof.
  induction n as [|n IH]; intros i s s' H0 Hs E; cbn [for_from] in E.
  - injection E as <-. rewrite Nat.add_0_r. auto.
  - destruct (body i s) as [x| |] eqn:Eb; cbn [bind] in E; try discriminate.
    replace (i + Datatypes.S n) with (Datatypes.S i + n) by lia. eapply IH; [| |exact E].
    + apply (Hs i s x); auto. lia.
    + intros k y y' Hk. apply Hs. lia.
Qed.

(** ** Names *)
Lemma append_inj p a b : String.append p a = String.append p b -> a = b.
Proof. induction p; cbn; intros H; [auto|injection H; auto]. Qed.
Lemma R0c_inj a b : String.append "R0c" (to_string a) = String.append "R0c" (to_string b) -> a = b.
Proof. intros H. apply append_inj in H. apply to_string_inj; auto. Qed.
Lemma Z0s_inj a b : String.append "Z0s" (to_string a) = String.append "Z0s" (to_string b) -> a = b.
Proof. intros H. apply append_inj in H. apply to_string_inj; auto. Qed.
Lemma R0c_Z0s a b : String.append "R0c" a <> String.append "Z0s" b.
Proof. cbn. discriminate. Qed.
Lemma not_listed l p x : Forall (fun m => prefix p m = false) l -> (forall y, prefix p (String.append p y) = true) ->
  ~ In (String.append p x) l.
Proof. intros H Hp Hi. rewrite Forall_forall in H. specialize (H _ Hi). rewrite Hp in H. discriminate. Qed.
Lemma prefix_append p y : prefix p (String.append p y) = true.
Proof. induction p; cbn; [destruct y; reflexivity|]. destruct (ascii_dec a a); congruence. Qed.
Lemma modes_not_listed x : ~ In (String.append "R0c" x) (scannable_opt ++ scannable_q) /\
                           ~ In (String.append "Z0s" x) (scannable_opt ++ scannable_q).
Proof.
  split; apply not_listed; auto using prefix_append; repeat (apply Forall_cons; [reflexivity|]); apply Forall_nil.
Qed.
Lemma listed_once m : In m scannable_opt -> In m scannable_q -> False.
Proof.
  intros H Hq. revert m H Hq. apply (proj1 (Forall_forall (fun m => In m scannable_q -> False) scannable_opt)).
  unfold scannable_opt, scannable_q. repeat (apply Forall_cons; [cbn [In]; intros H; repeat destruct H as [H|H]; try discriminate H; destruct H|]).
  apply Forall_nil.
Qed.
Lemma means_cases n t : means n t ->
  (t = TOpt n /\ In n scannable_opt) \/ (t = TQ n /\ In n scannable_q) \/
  (exists k, t = TR0c k /\ n = String.append "R0c" (to_string k)) \/ (exists k, t = TZ0s k /\ n = String.append "Z0s" (to_string k)).
Proof. intros H. destruct H; eauto 8. Qed.
Lemma means_fun n t t' : means n t -> means n t' -> t = t'.
Proof.
  intros H H'.
  destruct (means_cases _ _ H) as [(-> & A)|[(-> & A)|[(k & -> & A)|(k & -> & A)]]];
  destruct (means_cases _ _ H') as [(-> & B)|[(-> & B)|[(l & -> & B)|(l & -> & B)]]]; try reflexivity; clear H H';
    try (exfalso; eapply listed_once; eassumption);
    try (exfalso; subst n; match goal with
      | Q : In (String.append "R0c" ?z) _ |- _ => apply (proj1 (modes_not_listed z)), in_or_app; auto
      | Q : In (String.append "Z0s" ?z) _ |- _ => apply (proj2 (modes_not_listed z)), in_or_app; auto end; fail).
  - f_equal. apply R0c_inj. congruence.
  - subst n. destruct (R0c_Z0s _ _ B).
  - subst n. destruct (R0c_Z0s _ _ (eq_sym B)).
  - f_equal. apply Z0s_inj. congruence.
Qed.
Lemma lookup_In {A} (l : list (string * A)) n v : lookup l n = Some v -> In (n, v) l.
Proof.
  induction l as [|[x y] l IH]; cbn [lookup]; [discriminate|]. destruct (String.eqb_spec n x); [|intros; right; auto].
  intros E; injection E as <-. subst. left. reflexivity.
Qed.
Lemma opt_table n m : lookup opt_params n = Some m -> m = n /\ In n scannable_opt.
Proof.
  intros H. apply lookup_In in H.
  assert (T : Forall (fun e : string * string => snd e = fst e /\ In (fst e) scannable_opt) opt_params).
  { unfold opt_params. repeat (apply Forall_cons; [split; [reflexivity|cbn; tauto]|]). apply Forall_nil. }
  rewrite Forall_forall in T. apply (T _ H).
Qed.
Lemma q_table n m : lookup q_params n = Some m -> m = n /\ In n scannable_q.
Proof.
  intros H. apply lookup_In in H.
  assert (T : Forall (fun e : string * string => snd e = fst e /\ In (fst e) scannable_q) q_params).
  { unfold q_params. repeat (apply Forall_cons; [split; [reflexivity|cbn; tauto]|]). apply Forall_nil. }
  rewrite Forall_forall in T. apply (T _ H).
Qed.
Lemma opt_table_c n : In n scannable_opt -> lookup opt_params n = Some n.
Proof.
  revert n. apply Forall_forall. unfold scannable_opt. repeat (apply Forall_cons; [reflexivity|]). apply Forall_nil.
Qed.
Lemma q_table_c n : In n scannable_q -> lookup opt_params n = None /\ lookup q_params n = Some n.
Proof.
  revert n. apply Forall_forall. unfold scannable_q. repeat (apply Forall_cons; [split; reflexivity|]). apply Forall_nil.
Qed.
Lemma target_dec (t t' : target) : {t = t'} + {t <> t'}.
Proof. decide equality; try apply string_dec; apply Nat.eq_dec. Qed.

Section Dims.
Context {F X : Type}.
Notation stage := (@stage F X).
Notation multiopt := (@multiopt F X).
Notation qobj := (@qobj F).
Variable na : nat.

Definition changed (t : target) (val : F) (s s' : stage) : Prop :=
  reading s' t = Some val /\ (forall t', t' <> t -> reading s' t' = reading s t') /\ rest_same s s'.
Definition on_q (t : target) : bool := match t with TOpt _ => false | _ => true end.

Lemma rest_same_refl (s : stage) : rest_same s s.
Proof. unfold rest_same. repeat split; reflexivity. Qed.
Lemma rest_same_trans (a b c : stage) : rest_same a b -> rest_same b c -> rest_same a c.
Proof. unfold rest_same. intuition congruence. Qed.

Lemma num_changed (f : string -> F) m v x : set_num f m v x = if String.eqb x m then v else f x.
Proof. reflexivity. Qed.
Lemma changed_opt m v s : changed (TOpt m) v s (set_st_num m v s).
Proof.
  split; [|split]; [cbn; unfold set_num; rewrite String.eqb_refl; reflexivity| |unfold rest_same; repeat split; reflexivity].
  intros [x|x|n|n] H; cbn; auto. unfold set_num. destruct (String.eqb_spec x m); congruence.
Qed.
Lemma changed_q m v s : changed (TQ m) v s (set_st_q (set_q_num m v (st_q s)) s).
Proof.
  split; [|split]; [cbn; unfold set_num; rewrite String.eqb_refl; reflexivity| |unfold rest_same; repeat split; reflexivity].
  intros [x|x|n|n] H; cbn; auto. unfold set_num. destruct (String.eqb_spec x m); congruence.
Qed.
Lemma changed_R0c n v s l : aset (qo_R0c (st_q s)) n v = Ok l -> changed (TR0c n) v s (set_st_q (set_q_R0c l (st_q s)) s).
Proof.
  intros H. apply aset_inv in H. destruct H as (Hn & ->). split; [|split].
  - cbn. apply nth_error_upd_same. auto.
  - intros [x|x|k|k] Hk; cbn; auto. apply nth_error_upd_other. congruence.
  - unfold rest_same; cbn; repeat split; try reflexivity. apply upd_length.
Qed.
Lemma changed_Z0s n v s l : aset (qo_Z0s (st_q s)) n v = Ok l -> changed (TZ0s n) v s (set_st_q (set_q_Z0s l (st_q s)) s).
Proof.
  intros H. apply aset_inv in H. destruct H as (Hn & ->). split; [|split].
  - cbn. apply nth_error_upd_same. auto.
  - intros [x|x|k|k] Hk; cbn; auto. apply nth_error_upd_other. congruence.
  - unfold rest_same; cbn; repeat split; try reflexivity. apply upd_length.
Qed.

Lemma on_stage_ok k f (mo mo' : multiopt) : on_stage k f mo = Ok mo' ->
  exists s s', nth_error (mo_opts mo) k = Some s /\ f s = Ok s' /\ mo' = mkMO (upd (mo_opts mo) k s') (mo_n_evals mo).
Proof.
  unfold on_stage. intros H. destruct (aget (mo_opts mo) k) as [s| |] eqn:E; cbn [bind] in H; try discriminate.
  destruct (f s) as [s'| |] eqn:E2; cbn [bind] in H; try discriminate.
  destruct (aset (mo_opts mo) k s') as [l| |] eqn:E3; cbn [bind] in H; try discriminate. injection H as <-.
  apply aset_inv in E3. destruct E3 as (_ & ->). exists s, s'. split; auto.
  apply aget_inv in E. auto.
Qed.
Lemma only_ok k w (mo mo' : multiopt) : only_stage0 k w mo = Ok mo' -> mo' = mo /\ k = 0.
Proof. unfold only_stage0. destruct (Nat.eqb_spec k 0); [|discriminate]. intros H; injection H as <-. auto. Qed.

(** What one parameter setting does. *)
Definition effect (name : string) (val : F) (k : nat) (mo mo' : multiopt) : Prop :=
  exists t s s', means name t /\ nth_error (mo_opts mo) k = Some s /\
    mo' = mkMO (upd (mo_opts mo) k s') (mo_n_evals mo) /\ changed t val s s' /\ (on_q t = true -> k = 0).

Lemma set_mode_ok name val k m (mo mo' : multiopt) found found' :
  1 <= m -> set_mode name val k m (mo, found) = Ok (mo', found') ->
  (mo' = mo /\ found' = found /\ name <> String.append "R0c" (to_string m) /\ name <> String.append "Z0s" (to_string m)) \/
  (found' = true /\ effect name val k mo mo' /\ (name = String.append "R0c" (to_string m) \/ name = String.append "Z0s" (to_string m))).
Proof.
  intros Hm H. unfold set_mode in H. destruct (String.eqb_spec name (String.append "R0c" (to_string m))) as [E1|E1].
  - destruct (on_stage k _ mo) as [mo1| |] eqn:Eo; cbn [bind] in H; try discriminate.
    destruct (only_stage0 k "R0c" mo1) as [mo2| |] eqn:E2; cbn [bind] in H; try discriminate. injection H as <- <-.
    apply only_ok in E2. destruct E2 as (-> & ->). apply on_stage_ok in Eo. destruct Eo as (s & s' & Hs & Hf & ->).
    destruct (aset (qo_R0c (st_q s)) m val) as [l| |] eqn:Ea; cbn [bind] in Hf; try discriminate. injection Hf as <-.
    right. split; auto. split; auto. exists (TR0c m), s, (set_st_q (set_q_R0c l (st_q s)) s).
    split; [rewrite E1; apply means_R0c; auto|]. split; [auto|]. split; [auto|]. split; [|auto].
    apply changed_R0c; auto.
  - destruct (String.eqb_spec name (String.append "Z0s" (to_string m))) as [E2|E2].
    + destruct (on_stage k _ mo) as [mo1| |] eqn:Eo; cbn [bind] in H; try discriminate.
      destruct (only_stage0 k "Z0s" mo1) as [mo2| |] eqn:E3; cbn [bind] in H; try discriminate. injection H as <- <-.
      apply only_ok in E3. destruct E3 as (-> & ->). apply on_stage_ok in Eo. destruct Eo as (s & s' & Hs & Hf & ->).
      destruct (aset (qo_Z0s (st_q s)) m val) as [l| |] eqn:Ea; cbn [bind] in Hf; try discriminate. injection Hf as <-.
      right. split; auto. split; auto. exists (TZ0s m), s, (set_st_q (set_q_Z0s l (st_q s)) s).
      split; [rewrite E2; apply means_Z0s; auto|]. split; [auto|]. split; [auto|]. split; [|auto].
      apply changed_Z0s; auto.
    + injection H as <- <-. left. auto.
Qed.

Lemma same_mode name a b :
  name = String.append "R0c" (to_string a) \/ name = String.append "Z0s" (to_string a) ->
  name = String.append "R0c" (to_string b) \/ name = String.append "Z0s" (to_string b) -> a = b.
Proof.
  intros [->| ->] [H|H].
  - apply R0c_inj; auto.
  - destruct (R0c_Z0s _ _ H).
  - destruct (R0c_Z0s _ _ (eq_sym H)).
  - apply Z0s_inj; auto.
Qed.

Lemma set_param_ok name val k (mo mo' : multiopt) : set_param na name val k mo = Ok mo' -> effect name val k mo mo'.
Proof.
  intros H. unfold set_param in H.
  destruct (for_from 1 (na - 1) (set_mode name val k) (mo, false)) as [[mo1 found]| |] eqn:E; cbn [bind] in H; try discriminate.
  assert (P : (fst (mo1, found) = mo /\ snd (mo1, found) = false) \/
     (snd (mo1, found) = true /\ effect name val k mo (fst (mo1, found)) /\
      exists m, m < 1 + (na - 1) /\ (name = String.append "R0c" (to_string m) \/ name = String.append "Z0s" (to_string m)))).
  { refine (for_from_ok (fun i st => (fst st = mo /\ snd st = false) \/
       (snd st = true /\ effect name val k mo (fst st) /\
        exists m, m < i /\ (name = String.append "R0c" (to_string m) \/ name = String.append "Z0s" (to_string m)))) _ _ 1 _ _ _ _ E).
    - left. auto.
    - intros i [a fa] [b fb] Hi Hp Hb. cbn [fst snd] in *. apply set_mode_ok in Hb; [|lia].
      destruct Hp as [(-> & ->)|(-> & He & m & Hm & Hn)].
      + destruct Hb as [(-> & -> & _)|(-> & He & Hn)]; [left; auto|right; repeat split; auto; exists i; split; auto; lia].
      + destruct Hb as [(-> & -> & _)|(-> & _ & Hn')].
        * right. repeat split; auto. exists m. split; auto; lia.
        * pose proof (same_mode _ _ _ Hn Hn'). lia. }
  cbn [fst snd] in P. destruct P as [(-> & ->)|(-> & He & _)]; [|injection H as <-; auto].
  destruct (lookup opt_params name) as [m|] eqn:Eo.
  - apply on_stage_ok in H. destruct H as (s & s' & Hs & Hf & ->). injection Hf as <-.
    destruct (opt_table _ _ Eo) as (-> & Hi). exists (TOpt name), s, (set_st_num name val s).
    split; [apply means_opt; auto|]. split; [auto|]. split; [auto|]. split; [apply changed_opt|discriminate].
  - destruct (lookup q_params name) as [m|] eqn:Eq; [|discriminate].
    destruct (on_stage k _ mo) as [mo1| |] eqn:Es; cbn [bind] in H; try discriminate.
    apply only_ok in H. destruct H as (-> & ->). apply on_stage_ok in Es. destruct Es as (s & s' & Hs & Hf & ->). injection Hf as <-.
    destruct (q_table _ _ Eq) as (-> & Hi). exists (TQ name), s, (set_st_q (set_q_num name val (st_q s)) s).
    split; [apply means_q; auto|]. split; [auto|]. split; [auto|]. split; [apply changed_q|auto].
Qed.

(** One dimension. *)
Definition in_range (d : @dim F) n k := let '(from, count) := stage_range (d_stage d) n in from <= k < from + count.
Lemma in_range_applies d n k : k < n -> in_range d n k <-> applies d k.
Proof.
  intros H. unfold in_range, stage_range, applies. destruct (Z.ltb_spec (d_stage d) 0); [split; intros; [left; auto|lia]|].
  split; intros; lia.
Qed.
Lemma set_dim_ok d i (mo mo' : multiopt) : set_dim na d i mo = Ok mo' ->
  exists val, nth_error (d_vals d) i = Some val /\
  length (mo_opts mo') = length (mo_opts mo) /\ mo_n_evals mo' = mo_n_evals mo /\
  forall k s, nth_error (mo_opts mo) k = Some s -> exists s', nth_error (mo_opts mo') k = Some s' /\
    (applies d k -> exists t, means (d_name d) t /\ changed t val s s') /\ (~ applies d k -> s' = s).
Proof.
  intros H. unfold set_dim in H. destruct (aget (d_vals d) i) as [val| |] eqn:Ev; cbn [bind] in H; try discriminate.
  apply aget_inv in Ev. exists val. split; [exact Ev|]. clear Ev.
  assert (R : forall k, k < length (mo_opts mo) -> in_range d (length (mo_opts mo)) k <-> applies d k)
    by (intros; apply in_range_applies; auto).
  unfold in_range in R. destruct (stage_range (d_stage d) (length (mo_opts mo))) as [from cnt].
  assert (P : length (mo_opts mo') = length (mo_opts mo) /\ mo_n_evals mo' = mo_n_evals mo /\
    forall k s, nth_error (mo_opts mo) k = Some s -> exists s', nth_error (mo_opts mo') k = Some s' /\
    (from <= k < from + cnt -> exists t, means (d_name d) t /\ changed t val s s') /\ (~ (from <= k < from + cnt) -> s' = s)).
  { refine (for_from_ok (fun m mo1 => length (mo_opts mo1) = length (mo_opts mo) /\ mo_n_evals mo1 = mo_n_evals mo /\
      forall k s, nth_error (mo_opts mo) k = Some s -> exists s', nth_error (mo_opts mo1) k = Some s' /\
      (from <= k < m -> exists t, means (d_name d) t /\ changed t val s s') /\ (~ (from <= k < m) -> s' = s)) _ _ _ _ _ _ _ H).
    - split; auto. split; auto. intros k s Hs. exists s. split; auto. split; [lia|auto].
    - intros j mo1 mo2 Hj (L & N & Hk) Hb. apply set_param_ok in Hb. destruct Hb as (t & s0 & s1 & Hm & Hs0 & -> & Hc & _).
      cbn [mo_opts mo_n_evals]. split; [rewrite upd_length; auto|]. split; auto.
      intros k s Hs. destruct (Hk k s Hs) as (s' & Hs' & A & B). destruct (Nat.eq_dec k j) as [->|Hne].
      + exists s1. split; [apply nth_error_upd_same; apply nth_error_Some; congruence|].
        split; [|lia]. intros _. exists t. split; auto. rewrite Hs' in Hs0. injection Hs0 as ->. rewrite B in Hc by lia. auto.
      + exists s'. split; [rewrite nth_error_upd_other; auto|]. split; intros; [apply A; lia|apply B; lia]. }
  destruct P as (L & N & P). split; auto. split; auto. intros k s Hs.
  assert (Hkl : k < length (mo_opts mo)) by (apply nth_error_Some; congruence).
  destruct (P k s Hs) as (s' & Hs' & A & B). exists s'. split; auto. pose proof (R k Hkl) as Rk. split; intros Ha; [apply A|apply B]; tauto.
Qed.

Theorem set_dims_ok dims : forall idx (mo mo' : multiopt), length idx = length dims -> set_dims na dims idx mo = Ok mo' ->
  length (mo_opts mo') = length (mo_opts mo) /\ mo_n_evals mo' = mo_n_evals mo /\
  forall k s, nth_error (mo_opts mo) k = Some s -> exists s', nth_error (mo_opts mo') k = Some s' /\
    rest_same s s' /\ forall t, wanted dims idx k t (reading s t) (reading s' t).
Proof.
  induction dims as [|d dims IH]; intros [|i idx] mo mo' L H; try discriminate; cbn [set_dims] in H.
  - injection H as <-. repeat split; auto. intros k s Hs. exists s. split; auto. split; [apply rest_same_refl|]. intros t. constructor.
  - destruct (set_dim na d i mo) as [mo1| |] eqn:E; cbn [bind] in H; try discriminate.
    apply set_dim_ok in E. destruct E as (val & Hv & L1 & N1 & K1).
    destruct (IH idx mo1 mo') as (L2 & N2 & K2); auto. split; [congruence|]. split; [congruence|].
    intros k s Hs. destruct (K1 k s Hs) as (s1 & Hs1 & A & B). destruct (K2 k s1 Hs1) as (s' & Hs' & R' & W).
    exists s'. split; auto.
    assert (Dec : applies d k \/ ~ applies d k) by (unfold applies; lia).
    destruct Dec as [Ha|Ha].
    + destruct (A Ha) as (t0 & Hm & Hc1 & Hc2 & Hc3). split; [eapply rest_same_trans; eauto|].
      intros t. destruct (target_dec t t0) as [->|Hne].
      * apply wanted_set with val; auto. rewrite <- Hc1. apply W.
      * apply wanted_other; [intros (Hm' & _); apply Hne; eapply means_fun; eauto|]. rewrite <- Hc2 by auto. apply W.
    + rewrite (B Ha) in *. split; auto. intros t. apply wanted_other; [tauto|]. apply W.
Qed.

(** ** When the setting succeeds, and what is refused *)
Lemma on_stage_run k f (mo : multiopt) s s' : nth_error (mo_opts mo) k = Some s -> f s = Ok s' ->
  on_stage k f mo = Ok (mkMO (upd (mo_opts mo) k s') (mo_n_evals mo)).
Proof.
  intros Hs Hf. unfold on_stage. rewrite (aget_nth_error _ _ _ Hs). cbn [bind]. rewrite Hf. cbn [bind].
  rewrite aset_ok by (apply nth_error_Some; congruence). reflexivity.
Qed.
Definition settable (t : target) (k : nat) (s : stage) : Prop :=
  match t with
  | TOpt _ => True
  | TQ _ => k = 0
  | TR0c n => k = 0 /\ n < na /\ n < length (qo_R0c (st_q s))
  | TZ0s n => k = 0 /\ n < na /\ n < length (qo_Z0s (st_q s))
  end.
Lemma no_mode_loop name val k (mo : multiopt) :
  (forall m, 1 <= m < na -> name <> String.append "R0c" (to_string m) /\ name <> String.append "Z0s" (to_string m)) ->
  for_from 1 (na - 1) (set_mode name val k) (mo, false) = Ok (mo, false).
Proof.
  intros H. destruct (for_from_inv (fun _ st => st = (mo, false)) (set_mode name val k) (na - 1) 1 (mo, false)) as (s' & -> & ->); auto.
  intros m x Hm ->. exists (mo, false). split; auto. unfold set_mode.
  destruct (H m) as (A & B); [lia|]. apply String.eqb_neq in A. apply String.eqb_neq in B. rewrite A, B. reflexivity.
Qed.
Lemma set_param_run name val k (mo : multiopt) t s : means name t -> nth_error (mo_opts mo) k = Some s -> settable t k s ->
  exists mo', set_param na name val k mo = Ok mo'.
Proof.
  intros Hm Hs Ht. unfold set_param.
  assert (Listed : In name (scannable_opt ++ scannable_q) -> forall m, 1 <= m < na ->
    name <> String.append "R0c" (to_string m) /\ name <> String.append "Z0s" (to_string m)).
  { intros Hi m _. split; intros ->; [apply (proj1 (modes_not_listed (to_string m))) in Hi|apply (proj2 (modes_not_listed (to_string m))) in Hi]; auto. }
  inversion Hm as [m Hi E1 E2|m Hi E1 E2|n Hn E1 E2|n Hn E1 E2]; subst.
  - rewrite no_mode_loop by (apply Listed, in_or_app; auto). cbn [bind]. rewrite (opt_table_c _ Hi).
    erewrite on_stage_run; eauto.
  - rewrite no_mode_loop by (apply Listed, in_or_app; auto). cbn [bind]. destruct (q_table_c _ Hi) as (-> & ->).
    erewrite on_stage_run; eauto. cbn [bind]. cbn [settable] in Ht. subst k. eexists; reflexivity.
  - destruct Ht as (-> & Hna & Hl).
    destruct (for_from_inv (fun i st => (snd st = true \/ i <= n) /\ exists s, nth_error (mo_opts (fst st)) 0 = Some s /\ n < length (qo_R0c (st_q s)))
      (set_mode (String.append "R0c" (to_string n)) val 0) (na - 1) 1 (mo, false)) as ([mo1 f1] & -> & Hf & _).
    + split; [cbn; lia|]. exists s; auto.
    + intros i [a f] Hi (Hp & s0 & Hs0 & Hl0). unfold set_mode. cbn [fst snd] in *.
      destruct (String.eqb_spec (String.append "R0c" (to_string n)) (String.append "R0c" (to_string i))) as [E|E].
      * apply R0c_inj in E. subst i.
        erewrite on_stage_run; [|exact Hs0|rewrite aset_ok by auto; reflexivity]. cbn [bind only_stage0 Nat.eqb].
        eexists; split; [reflexivity|]. cbn [fst snd mo_opts]. split; [auto|].
        eexists; split; [apply nth_error_upd_same, nth_error_Some; congruence|]. cbn. rewrite upd_length. auto.
      * destruct (String.eqb_spec (String.append "R0c" (to_string n)) (String.append "Z0s" (to_string i))) as [E2|E2]; [destruct (R0c_Z0s _ _ E2)|].
        eexists; split; [reflexivity|]. cbn [fst snd]. split; [|eauto]. destruct Hp as [Hp|Hp]; auto.
        right. assert (i <> n) by congruence. lia.
    + cbn [snd] in Hf. destruct Hf as [->|Hf]; [|lia]. cbn [bind]. eauto.
  - destruct Ht as (-> & Hna & Hl).
    destruct (for_from_inv (fun i st => (snd st = true \/ i <= n) /\ exists s, nth_error (mo_opts (fst st)) 0 = Some s /\ n < length (qo_Z0s (st_q s)))
      (set_mode (String.append "Z0s" (to_string n)) val 0) (na - 1) 1 (mo, false)) as ([mo1 f1] & -> & Hf & _).
    + split; [cbn; lia|]. exists s; auto.
    + intros i [a f] Hi (Hp & s0 & Hs0 & Hl0). unfold set_mode. cbn [fst snd] in *.
      destruct (String.eqb_spec (String.append "Z0s" (to_string n)) (String.append "R0c" (to_string i))) as [E|E]; [destruct (R0c_Z0s _ _ (eq_sym E))|].
      destruct (String.eqb_spec (String.append "Z0s" (to_string n)) (String.append "Z0s" (to_string i))) as [E2|E2].
      * apply Z0s_inj in E2. subst i.
        erewrite on_stage_run; [|exact Hs0|rewrite aset_ok by auto; reflexivity]. cbn [bind only_stage0 Nat.eqb].
        eexists; split; [reflexivity|]. cbn [fst snd mo_opts]. split; [auto|].
        eexists; split; [apply nth_error_upd_same, nth_error_Some; congruence|]. cbn. rewrite upd_length. auto.
      * eexists; split; [reflexivity|]. cbn [fst snd]. split; [|eauto]. destruct Hp as [Hp|Hp]; auto.
        right. assert (i <> n) by congruence. lia.
    + cbn [snd] in Hf. destruct Hf as [->|Hf]; [|lia]. cbn [bind]. eauto.
Qed.

(** The sizes of the arrays of the first stage are what [dim_ok] looks at. *)
Definition alike (a b : multiopt) : Prop :=
  length (mo_opts a) = length (mo_opts b) /\
  forall k s, nth_error (mo_opts a) k = Some s -> exists s', nth_error (mo_opts b) k = Some s' /\
    length (qo_R0c (st_q s')) = length (qo_R0c (st_q s)) /\ length (qo_Z0s (st_q s')) = length (qo_Z0s (st_q s)).
Lemma changed_alike t val (s s' : stage) : changed t val s s' ->
  length (qo_R0c (st_q s')) = length (qo_R0c (st_q s)) /\ length (qo_Z0s (st_q s')) = length (qo_Z0s (st_q s)).
Proof. intros (_ & _ & R). unfold rest_same in R. tauto. Qed.
Lemma effect_alike name val k (mo mo' : multiopt) : effect name val k mo mo' -> alike mo mo'.
Proof.
  intros (t & s & s' & _ & Hs & -> & Hc & _). split; cbn [mo_opts]; [rewrite upd_length; auto|].
  intros j sj Hj. destruct (Nat.eq_dec j k) as [->|Hne].
  - exists s'. rewrite Hs in Hj. injection Hj as <-. split; [apply nth_error_upd_same, nth_error_Some; congruence|eapply changed_alike; eauto].
  - exists sj. rewrite nth_error_upd_other by auto. auto.
Qed.
Lemma alike_refl a : alike a a.
Proof. split; eauto. Qed.
Lemma alike_trans a b c : alike a b -> alike b c -> alike a c.
Proof.
  intros (L1 & H1) (L2 & H2). split; [congruence|]. intros k s Hs. destruct (H1 k s Hs) as (s1 & Hs1 & A & B).
  destruct (H2 k s1 Hs1) as (s2 & Hs2 & C & D). exists s2. repeat split; congruence.
Qed.
Lemma dim_ok_alike a b d : alike a b -> dim_ok a d -> dim_ok b d.
Proof.
  intros (L & H) (Hs & t & Hm & Ht). split; [lia|]. exists t. split; auto.
  assert (Back : forall s', nth_error (mo_opts b) 0 = Some s' -> exists s, nth_error (mo_opts a) 0 = Some s /\
     length (qo_R0c (st_q s')) = length (qo_R0c (st_q s)) /\ length (qo_Z0s (st_q s')) = length (qo_Z0s (st_q s))).
  { intros s' Hs'. destruct (nth_error (mo_opts a) 0) as [s|] eqn:E.
    - destruct (H 0 s E) as (s2 & Hs2 & A & B). exists s. rewrite Hs' in Hs2. injection Hs2 as <-. auto.
    - apply nth_error_None in E. assert (0 < length (mo_opts b)) by (apply nth_error_Some; congruence). lia. }
  destruct t; auto.
  - rewrite <- L. auto.
  - destruct Ht as (Ha & Hb). rewrite <- L. split; auto. intros s' Hs'. destruct (Back s' Hs') as (s & E & -> & _). auto.
  - destruct Ht as (Ha & Hb). rewrite <- L. split; auto. intros s' Hs'. destruct (Back s' Hs') as (s & E & _ & ->). auto.
Qed.

Lemma set_dim_run d i (mo : multiopt) : dim_ok mo d -> i < length (d_vals d) ->
  (forall t n, means (d_name d) t -> t = TR0c n \/ t = TZ0s n -> n < na) ->
  exists mo', set_dim na d i mo = Ok mo' /\ alike mo mo'.
Proof.
  intros (Hst & t & Hm & Ht) Hi Hna. unfold set_dim.
  destruct (nth_error (d_vals d) i) as [val|] eqn:Ev; [|apply nth_error_None in Ev; lia].
  rewrite (aget_nth_error _ _ _ Ev). cbn [bind].
  assert (Hq : forall k, k < length (mo_opts mo) -> in_range d (length (mo_opts mo)) k -> on_q t = true -> k = 0).
  { intros k Hk Hr Ho. rewrite in_range_applies in Hr by auto. unfold applies in Hr.
    destruct t; try discriminate Ho; destruct Hr; try (destruct Ht as [Ht|Ht]); try (destruct Ht as ([Ht|Ht] & _)); lia. }
  assert (Hb : forall k, in_range d (length (mo_opts mo)) k -> k < length (mo_opts mo)).
  { unfold in_range, stage_range. destruct (Z.ltb_spec (d_stage d) 0); intros; lia. }
  unfold in_range in Hq, Hb. destruct (stage_range (d_stage d) (length (mo_opts mo))) as [from cnt].
  destruct (for_from_inv (fun _ mo1 => alike mo mo1) (set_param na (d_name d) val) cnt from mo) as (mo' & -> & A).
  - apply alike_refl.
  - intros k mo1 Hk A.
    destruct (nth_error (mo_opts mo) k) as [s|] eqn:Es; [|apply nth_error_None in Es; specialize (Hb k Hk); lia].
    destruct A as (L & A). destruct (A k s Es) as (s1 & Hs1 & A1 & A2).
    assert (Sok : settable t k s1).
    { specialize (Hq k (Hb k Hk) Hk). destruct t; cbn [settable on_q] in *; auto; specialize (Hq eq_refl); subst k.
      - split; auto. split; [eapply Hna; eauto|]. rewrite A1. apply Ht; auto.
      - split; auto. split; [eapply Hna; eauto|]. rewrite A2. apply Ht; auto. }
    destruct (set_param_run (d_name d) val k mo1 t s1 Hm Hs1 Sok) as (mo2 & E2). exists mo2. split; auto.
    eapply alike_trans; [split; eauto|]. eapply effect_alike, set_param_ok; eauto.
  - exists mo'. auto.
Qed.
Theorem set_dims_run dims : forall idx (mo : multiopt), Forall2 (fun i d => i < length (d_vals d)) idx dims ->
  Forall (dim_ok mo) dims ->
  (forall d t n, In d dims -> means (d_name d) t -> t = TR0c n \/ t = TZ0s n -> n < na) ->
  exists mo', set_dims na dims idx mo = Ok mo'.
Proof.
  induction dims as [|d dims IH]; intros idx mo Hi Hd Hna; inversion Hi; subst; cbn [set_dims]; [eauto|].
  inversion Hd; subst. destruct (set_dim_run d x mo) as (mo1 & -> & A); auto.
  - intros t n. apply Hna. left; auto.
  - cbn [bind]. apply IH; auto.
    + eapply Forall_impl; [|eauto]. intros; eapply dim_ok_alike; eauto.
    + intros d' t n Hd'. apply Hna. right; auto.
Qed.

(** A name that stands for nothing. *)
Theorem set_param_unknown name val k (mo : multiopt) : (forall t, ~ means name t) ->
  set_param na name val k mo = Throw "Unrecognized entry in params".
Proof.
  intros H. unfold set_param. rewrite no_mode_loop.
  - cbn [bind]. destruct (lookup opt_params name) as [m|] eqn:E.
    { destruct (opt_table _ _ E) as (_ & Hi). destruct (H (TOpt name)). constructor; auto. }
    destruct (lookup q_params name) as [m|] eqn:E2; auto.
    destruct (q_table _ _ E2) as (_ & Hi). destruct (H (TQ name)). constructor; auto.
  - intros m Hm. split; intros ->; [apply (H (TR0c m))|apply (H (TZ0s m))]; constructor; lia.
Qed.
End Dims.
