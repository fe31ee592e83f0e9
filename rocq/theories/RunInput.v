(** Input files that describe a configuration, and the runs of the code for them. *)
From Coq Require Import String ZArith List Arith Bool Lia Reals.
From Verif Require Import Base BaseFacts FloatOps MathOps Tensor Newton RSing Axis AxisSpec Alloc AllocSpec AllocFacts Toml TomlSpec TomlFacts Options OptionsSpec
  NetCDF NetCDFOut NetCDFSpec NetCDFFacts NetCDFRead.
From Verif Require Import Run RunSpec RunFacts RunSafe MScan Opt OptSpec OptQsc Properties_NetCDF.
Import ListNotations.
Local Open Scope string_scope.
Local Open Scope nat_scope.

(** ** Specification *)
(** The values [s] that an input file gives the parameters are those of the object [e]. *)
Definition describes {F} (s : store F) (e : members F) : Prop :=
  (forall x, In x input_ints -> s x = VInt (m_int F e x)) /\ (forall x, In x input_floats -> s x = VFloat (m_float F e x)) /\
  (forall x, In x axis_members -> s x = VVec (m_array F e x)) /\ s "order_r_option" = VStr (m_text F e "order_r_option").
(** An input file that gives the inputs of [e]. *)
Definition input_file_of {F} (e : members F) : table F :=
  (map (fun x => (x, Toml.TInt (m_int F e x))) input_ints ++ map (fun x => (x, Toml.TFloat (m_float F e x))) input_floats ++
   map (fun x => (x, Toml.TArr (map (Toml.TFloat) (m_array F e x)))) axis_members ++ [("order_r_option", Toml.TStr (m_text F e "order_r_option"))])%list.
Lemma input_file_describes {F} (of_int : Z -> F) (e : members F) s0 : (forall x, In x input_ints -> in_int32 (m_int F e x)) ->
  valid_section of_int qsc_keys (input_file_of e) /\ forall s1, section_effect of_int qsc_keys (input_file_of e) s0 s1 -> describes s1 e.
Proof.
  intros Hi. assert (V : forall l : list F, Forall2 (fun v x => v = Toml.TFloat x) (map Toml.TFloat l) l) by (induction l; constructor; auto).
  assert (L1 : forall x, In x input_ints -> Toml.lookup x (input_file_of e) = Some (Toml.TInt (m_int F e x)) /\ In (x, KInt) qsc_keys).
  { intros x H. repeat (destruct H as [<-|H]; [split; [reflexivity|cbn; tauto]|]). destruct H. }
  assert (L2 : forall x, In x input_floats -> Toml.lookup x (input_file_of e) = Some (Toml.TFloat (m_float F e x)) /\ In (x, KFloat) qsc_keys).
  { intros x H. repeat (destruct H as [<-|H]; [split; [reflexivity|cbn; tauto]|]). destruct H. }
  assert (L3 : forall x, In x axis_members -> Toml.lookup x (input_file_of e) = Some (Toml.TArr (map Toml.TFloat (m_array F e x))) /\ In (x, KVec) qsc_keys).
  { intros x H. repeat (destruct H as [<-|H]; [split; [reflexivity|cbn; tauto]|]). destruct H. }
  assert (L4 : Toml.lookup "order_r_option" (input_file_of e) = Some (Toml.TStr (m_text F e "order_r_option"))) by reflexivity.
  assert (K : forall key k, In (key, k) qsc_keys -> In key input_ints /\ k = KInt \/ In key input_floats /\ k = KFloat \/ In key axis_members /\ k = KVec \/
    key = "order_r_option" /\ k = KStr \/ key = "verbose").
  { intros key k H. repeat (destruct H as [H|H]; [injection H as <- <-; cbn; tauto|]). destruct H. }
  split.
  - split.
    + intros key v H. assert (G0 : In key (map fst (input_file_of e))) by (apply (in_map fst) in H; exact H). clear H. unfold input_file_of in G0.
      rewrite !map_app, !map_map in G0. cbn [fst] in G0. rewrite !map_id in G0.
      assert (G : forallb (fun x => inb x (map fst qsc_keys)) (input_ints ++ input_floats ++ axis_members ++ ["order_r_option"])%list = true) by (vm_compute; reflexivity).
      rewrite forallb_forall in G. apply inb_In. apply G. exact G0.
    + intros key k v H L. destruct (K _ _ H) as [(G & ->)|[(G & ->)|[(G & ->)|[(-> & ->)| ->]]]].
      * rewrite (proj1 (L1 _ G)) in L. injection L as <-. exists (VInt (m_int F e key)). constructor. split; [apply Hi; exact G|exists 0%Z; lia].
      * rewrite (proj1 (L2 _ G)) in L. injection L as <-. eexists. constructor.
      * rewrite (proj1 (L3 _ G)) in L. injection L as <-. exists (VVec (m_array F e key)). constructor. apply V.
      * rewrite L4 in L. injection L as <-. eexists. constructor.
      * discriminate L.
  - intros s1 [H _]. split; [|split; [|split]].
    + intros x Hx. destruct (L1 x Hx) as (G1 & G2). specialize (H _ _ G2). rewrite G1 in H. inversion H as [z z' (B & q & Q)| | | | | | | | |]. f_equal.
      specialize (Hi x Hx). unfold in_int32 in *. lia.
    + intros x Hx. destruct (L2 x Hx) as (G1 & G2). specialize (H _ _ G2). rewrite G1 in H. inversion H. reflexivity.
    + intros x Hx. destruct (L3 x Hx) as (G1 & G2). specialize (H _ _ G2). rewrite G1 in H. inversion H as [| | | | | |l xs Q| | |]. f_equal.
      specialize (V (m_array F e x)). clear - Q V. revert xs Q V. generalize (m_array F e x) as a, (map (@Toml.TFloat F) (m_array F e x)) as b.
      intros a b. revert a. induction b as [|v b IH]; intros a xs Q W; inversion W; inversion Q; subst; [reflexivity|]. f_equal; [congruence|apply IH; assumption].
    + assert (G2 : In ("order_r_option", KStr) qsc_keys) by (cbn; tauto). specialize (H _ _ G2). rewrite L4 in H. inversion H. reflexivity.
Qed.

Section RunInput.
Context {F : Type} (o : fops F) (mo : mops F).
Variables (ge0 : F -> bool) (newton_tol mu0 : F) (newton_linear_solve : (nat -> nat -> F) -> list F -> outcome (list F))
  (linear_solve : matrix F -> list F -> outcome (list F)) (geev : list F -> Z * (list F * list F)) (tol : tolerances F) (finite : F -> bool).
Notation members := (members F).
Notation calculate := (Run.calculate o mo ge0 mu0 newton_linear_solve linear_solve geev tol finite).
Notation init := (Run.init o).
Notation write := (qsc_write_netcdf F (m_of_Z mo)).
Notation plain_run := (Run.run o mo ge0 newton_tol mu0 newton_linear_solve linear_solve geev tol finite).
(** The file of a run of the code for the inputs of [e] only. *)
Definition run_gives (e : members) (f : file F) : Prop := forall e0, exists st, plain_run e0 (input_file_of e) = Ok (st, f).
Definition ints_fit (e : members) : Prop := forall x, In x input_ints -> in_int32 (m_int F e x).

(** A run with an input file that describes the configuration [c0] is init() and calculate() for an object with the inputs of [c0]. *)
Lemma described_run (c0 : members) st f : RunSpec.ready F (fzero o) c0 -> nphi_limits (m_int F c0 "nphi") ->
  (forall e, RunSpec.ready F (fzero o) e -> RunSpec.same_inputs F e c0 -> (do r <- calculate e; do f <- write (snd r); Ok (fst r, f)) = Ok (st, f)) ->
  forall t e0, valid_section (m_of_Z mo) qsc_keys t ->
    (forall s1, section_effect (m_of_Z mo) qsc_keys t (default_store o newton_tol) s1 -> describes s1 c0) -> plain_run e0 t = Ok (st, f).
Proof.
  intros RC Hl H t e0 Hv Hd. unfold Run.run.
  destruct (qsc_input_cases (m_of_Z mo) (fzero o) t (default_store o newton_tol)) as [(_ & s1 & s2 & a & He & B1 & B2 & B3 & B4 & Ei & A1 & A2 & A3 & A4 & Ho)|(Hnv & _)].
  { intros x [<-|[<-|[<-|[<-|[]]]]]; eexists; reflexivity. }
  2: contradiction.
  destruct (Hd s1 He) as (D1 & D2 & D3 & D4). rewrite Ei. cbn [bind]. set (c := load s2 (constructed o e0)).
  pose proof (rd_alloc _ _ _ RC) as (Od & Bn & _ & L0 & L & _).
  assert (N : forall x, In x (input_ints ++ input_floats ++ ["order_r_option"]) -> s2 x = s1 x).
  { intros x Hx. apply Ho. intros Hk. assert (B : apart axis_keys (input_ints ++ input_floats ++ ["order_r_option"]) = true) by (vm_compute; reflexivity).
    unfold apart in B. rewrite forallb_forall in B. specialize (B x Hx). apply inb_In in Hk. rewrite Hk in B. discriminate. }
  assert (Ax : forall x, In x axis_members -> s2 x = VVec (m_array F c0 x)).
  { assert (E1 : Toml.R0c a = m_array F c0 "R0c") by (rewrite (D3 "R0c") in B1 by (cbn; tauto); congruence).
    assert (E2 : Toml.R0s a = m_array F c0 "R0s") by (rewrite (D3 "R0s") in B2 by (cbn; tauto); congruence).
    assert (E3 : Toml.Z0c a = m_array F c0 "Z0c") by (rewrite (D3 "Z0c") in B3 by (cbn; tauto); congruence).
    assert (E4 : Toml.Z0s a = m_array F c0 "Z0s") by (rewrite (D3 "Z0s") in B4 by (cbn; tauto); congruence).
    assert (M : max_len a = length (m_array F c0 "R0c")).
    { unfold max_len. rewrite E1, E2, E3, E4, (L "R0s"), (L "Z0c"), (L "Z0s") by (cbn; tauto). lia. }
    assert (P : forall x, In x axis_members -> TomlSpec.padded (fzero o) (max_len a) (m_array F c0 x) = m_array F c0 x).
    { intros x Hx. unfold TomlSpec.padded. rewrite M, (L x Hx), Nat.sub_diag. apply app_nil_r. }
    intros x [<-|[<-|[<-|[<-|[]]]]]; [rewrite A1, E1|rewrite A2, E2|rewrite A3, E3|rewrite A4, E4]; rewrite P by (cbn; tauto); reflexivity. }
  assert (C1 : forall x, In x input_ints -> m_int F c x = m_int F c0 x) by (intros x Hx; cbn; rewrite N, D1 by (try apply in_or_app; auto); reflexivity).
  assert (C2 : forall x, In x input_floats -> m_float F c x = m_float F c0 x).
  { intros x Hx. cbn. rewrite N, D2; [reflexivity|exact Hx|]. apply in_or_app. right. apply in_or_app. left. exact Hx. }
  assert (C3 : forall x, In x axis_members -> m_array F c x = m_array F c0 x) by (intros x Hx; cbn; rewrite Ax by exact Hx; reflexivity).
  assert (C4 : m_text F c "order_r_option" = m_text F c0 "order_r_option").
  { cbn. rewrite N, D4; [reflexivity|]. apply in_or_app. right. apply in_or_app. right. left. reflexivity. }
  assert (Cn : m_int F c "nphi" = m_int F c0 "nphi") by (apply C1; apply inb_In; reflexivity).
  assert (En : odd_nphi (m_int F c "nphi") = m_int F c "nphi").
  { rewrite Cn. unfold odd_nphi. rewrite Zodd_mod in Od. apply Zeq_bool_eq in Od. rewrite Z.rem_mod_nonneg, Od by lia. reflexivity. }
  pose proof (init_fine o true c) as G. assert (Ok1 : exists e1, init c = Ok e1).
  { destruct (init c) as [e1|w|w]; [eauto|exfalso..].
    - assert (Q : true = false); [apply G|discriminate Q].
      + rewrite Cn. unfold nphi_limits in Hl. lia.
      + intros _. rewrite C4. destruct (rd_order _ _ _ RC) as [T|[T|[T|[]]]]; (match type of T with (?a, _) = (?b, _) => assert (T1 : b = a) by congruence end); rewrite T1; cbn; tauto.
    - cbn [fine] in G. apply G.
      + rewrite Cn. unfold nphi_limits in Hl. lia.
      + intros _. rewrite C4. destruct (rd_order _ _ _ RC) as [T|[T|[T|[]]]]; (match type of T with (?a, _) = (?b, _) => assert (T1 : b = a) by congruence end); rewrite T1; cbn; tauto. }
  destruct Ok1 as (e1 & E1). rewrite E1. cbn [bind]. destruct (init_inputs o _ _ E1) as (J1 & J2 & J3 & J4 & J5).
  apply H.
  + apply (init_ready o ge0 newton_tol mu0 newton_linear_solve finite c); [| | |exact E1].
    * rewrite Cn. exact Hl.
    * rewrite C3 by (cbn; tauto). exact L0.
    * intros x Hx. rewrite !C3 by (try exact Hx; cbn; tauto). apply L. exact Hx.
  + split; [|split; [|split]].
    * intros x Hx. destruct (string_dec x "nphi") as [->|Nx]; [rewrite J1, En; exact Cn|]. rewrite J2 by exact Nx. apply C1. exact Hx.
    * intros x Hx. rewrite J3. apply C2. exact Hx.
    * intros x Hx. rewrite J5 by exact Hx. apply C3. exact Hx.
    * rewrite J4. exact C4.
Qed.
(** ... so, if calculate() succeeds for a prepared object, it leaves what a run with an input file that describes this object writes. *)
Lemma calculated_run (c e1 : members) st : RunSpec.ready F (fzero o) c -> nphi_limits (m_int F c "nphi") -> calculate c = Ok (st, e1) ->
  RunSpec.ready F (fzero o) e1 /\ exists f, write e1 = Ok f /\
  forall t e0, valid_section (m_of_Z mo) qsc_keys t ->
    (forall s1, section_effect (m_of_Z mo) qsc_keys t (default_store o newton_tol) s1 -> describes s1 e1) -> plain_run e0 t = Ok (st, f).
Proof.
  intros R Hl Ec. pose proof (calculate_keep o mo ge0 mu0 newton_linear_solve linear_solve geev tol finite _ _ _ (ready_positive o _ R) Ec) as K.
  pose proof (keeps_ready o _ _ K R) as R1. split; [exact R1|]. destruct (qsc_written (m_of_Z mo) e1 (rd_alloc _ _ _ R1)) as (f & Hw & _). exists f. split; [exact Hw|].
  apply described_run; [exact R1|rewrite (k_int _ _ _ K) by (apply inb_In; reflexivity); exact Hl|].
  intros e Re (I1 & I2 & I3 & I4).
  assert (S : RunSpec.same_inputs F e c).
  { split; [|split; [|split]].
    - intros x Hx. rewrite I1 by exact Hx. apply (k_int _ _ _ K). exact Hx.
    - intros x Hx. rewrite I2 by exact Hx. apply (k_float _ _ _ K). exact Hx.
    - intros x Hx. rewrite I3 by exact Hx. apply (k_array _ _ _ K). apply in_or_app. left. exact Hx.
    - rewrite I4. apply (k_text _ _ _ K). }
  pose proof (ready_same o mo ge0 newton_tol mu0 newton_linear_solve linear_solve geev tol finite e c Re R S) as W. unfold written in W. rewrite W, Ec. cbn [bind fst snd].
  rewrite Hw. reflexivity.
Qed.
Lemma calculated_run_gives (c e1 : members) st : RunSpec.ready F (fzero o) c -> nphi_limits (m_int F c "nphi") -> ints_fit c -> calculate c = Ok (st, e1) ->
  RunSpec.ready F (fzero o) e1 /\ exists f, write e1 = Ok f /\ run_gives e1 f.
Proof.
  intros R Hl Hi Ec. destruct (calculated_run c e1 st R Hl Ec) as (R1 & f & Hw & H). split; [exact R1|]. exists f. split; [exact Hw|]. intros e0. exists st.
  destruct (input_file_describes (m_of_Z mo) e1 (default_store o newton_tol)) as (V & D); [|apply H; assumption].
  intros x Hx. rewrite (k_int _ _ _ (calculate_keep o mo ge0 mu0 newton_linear_solve linear_solve geev tol finite _ _ _ (ready_positive o _ R) Ec)) by exact Hx. apply Hi. exact Hx.
Qed.
End RunInput.
