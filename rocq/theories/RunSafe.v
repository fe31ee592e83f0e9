(** The calculation of a configuration never accesses memory out of bounds. *)
From Coq Require Import String ZArith List Arith Bool Lia.
From Verif Require Import Base BaseFacts FloatOps MathOps Tensor ScanFacts Newton NewtonFacts R1 R1Facts R2 R2Facts RSing GradGradB Diff DiffFacts Axis AxisSpec AxisFacts.
From Verif Require Import Alloc AllocSpec AllocFacts Options OptionsSpec NetCDF NetCDFOut NetCDFSpec Toml TomlSpec TomlFacts Run RunSpec RunFacts.
From Verif Require Import Properties_R2 Properties_NetCDF.
Import ListNotations.
Local Open Scope string_scope.
Local Open Scope nat_scope.

Section Safe.
Context {F : Type} (o : fops F) (mo : mops F).
Variable ge0 : F -> bool.
Variables newton_tol mu0 : F.
Variable newton_linear_solve : (nat -> nat -> F) -> list F -> outcome (list F).
Variable linear_solve : matrix F -> list F -> outcome (list F).
Variable geev : list F -> Z * (list F * list F).
Variable tol : tolerances F.
Variable finite : F -> bool.
Notation members := (members F).
Notation calculate := (calculate o mo ge0 mu0 newton_linear_solve linear_solve geev tol finite).
Notation run := (run o mo ge0 newton_tol mu0 newton_linear_solve linear_solve geev tol finite).
Notation init := (init o).

(** [total]: the result is Ok; otherwise an exception is possible too. *)
Variable total : bool.
Definition fine {A} (P : A -> Prop) (x : outcome A) : Prop := match x with Ok a => P a | Throw _ => total = false | UB _ => False end.
Hypothesis newton_solver : forall n m v, length v = n -> fine (fun x => length x = n) (newton_linear_solve m v).
Hypothesis r2_solver : forall m v, fine (fun _ => True) (linear_solve m v).
Hypothesis singularity_fine : forall i s, fine (fun _ => True) (calculate_r_singularity o mo geev tol finite i s).
Lemma fine_bind {A B} (P : A -> Prop) (Q : B -> Prop) x f : fine P x -> (forall a, x = Ok a -> P a -> fine Q (f a)) -> fine Q (bind x f).
Proof. destruct x; cbn; intros H K; auto. Qed.
Lemma fine_and {A} (P Q : A -> Prop) x : fine P x -> (forall a, x = Ok a -> P a -> Q a) -> fine Q x.
Proof. destruct x; cbn; auto. Qed.

Section Newton.
Variable i : r1_input F.
Let n := a_nphi (i_axis i).
Hypothesis Hn : 1 <= n.
Let rf := sigma_eq_residual o mo i.
Lemma residual_ok s u : length s = n -> exists r u', rf s u = Ok (r, u') /\ length r = n /\ length (u_sigma u') = n.
Proof.
  intros Hs. unfold rf, sigma_eq_residual, aset. replace (0 <? length s) with true by (symmetry; apply Nat.ltb_lt; lia). cbn [bind].
  rewrite (aget_ok s 0 (fzero o)) by lia. cbn [bind]. eexists _, _. split; [reflexivity|]. cbn [u_sigma]. rewrite map_length, seq_length, upd_length. split; [reflexivity|exact Hs].
Qed.
Definition sized (s : nst (F := F) (U := sigma_user F)) : Prop := length (n_state s) = n /\ length (n_residual s) = n.
Lemma linesearch_fine k : forall s0 step sc last s, length s0 = n -> length step = n -> sized s -> fine sized (linesearch o rf k s0 step sc last s).
Proof.
  induction k as [|k IH]; intros s0 step sc last s H0 H1 Hs; cbn [linesearch]; [exact Hs|].
  unfold axpy. rewrite H0, H1, Nat.eqb_refl. cbn [bind]. set (st := map _ _). assert (Ls : length st = n) by (unfold st; rewrite map_length, combine_length; lia).
  destruct (residual_ok st (n_user s) Ls) as (r & u & -> & Lr & _). cbn [bind fst snd]. rewrite dot_self. cbn [bind].
  destruct (flt o _ last); [split; cbn; assumption|]. apply IH; auto. split; cbn; assumption.
Qed.
Lemma loop_fine k ml t : forall s, sized s -> fine (fun _ => True) (newton_loop o rf (sigma_eq_jacobian o mo i) newton_linear_solve k ml t s).
Proof.
  induction k as [|k IH]; intros s Hs; cbn [newton_loop]; [exact I|]. destruct (flt o (n_norm s) t); [exact I|].
  unfold sigma_eq_jacobian at 1. cbn [bind fst snd]. eapply fine_bind; [apply (newton_solver n); rewrite map_length; apply Hs|]. intros step _ Hstep.
  eapply fine_bind; [apply linesearch_fine; [apply Hs|exact Hstep|split; cbn; apply Hs]|]. intros s' _ Hs'.
  destruct (flt o _ _); [exact I|]. apply IH. exact Hs'.
Qed.
Lemma solve_fine mn ml t u : fine (fun _ => True) (solve_sigma_equation o mo i newton_linear_solve mn ml t u).
Proof.
  unfold solve_sigma_equation. fold n. rewrite aset_ok by (rewrite repeat_length; lia). cbn [bind]. set (s0 := upd _ _ _).
  assert (L : length s0 = n) by (unfold s0; rewrite upd_length, repeat_length; reflexivity).
  unfold newton_solve. fold rf. destruct (residual_ok s0 u L) as (r & u' & -> & Lr & _). cbn [bind fst snd]. rewrite dot_self. cbn [bind].
  eapply fine_bind; [apply loop_fine; split; cbn; assumption|]. intros x _ _. exact I.
Qed.
End Newton.

Lemma calculate_fine e : ready F (fzero o) e -> axis_ok (axis_input_of e) -> fine (fun _ => True) (calculate e).
Proof.
  intros R Ha. unfold Run.calculate. pose proof (ready_positive o e R) as Hn.
  destruct (init_axis_eq o mo ge0 _ Ha) as (d & s & Ed & Es & Ei). cbv zeta in Ei.
  assert (E1 : exists a e1, run_init_axis o mo ge0 e = Ok (a, e1)) by (unfold run_init_axis; rewrite Ed; cbn [bind]; rewrite Es; cbn [bind]; rewrite Ei; cbn [bind]; eauto).
  clear Ed Es Ei. destruct E1 as (a & e1 & E1). rewrite E1. cbn [bind fst snd]. destruct (init_axis_keep _ _ _ _ _ _ Hn E1) as (En & K1). rewrite <- En in K1.
  assert (Gn : 1 <= a_nphi a) by (rewrite En; unfold grid; lia).
  eapply (fine_bind (fun _ => True)).
  { unfold run_solve_sigma. eapply fine_bind; [apply solve_fine; exact Gn|]. intros [[[st x] r] u] _ _. exact I. }
  intros [st e2] E2 _. cbn [fst snd]. apply sigma_keep in E2.
  assert (K3 : keeps (a_nphi a) e (run_r1_diagnostics o mo a e2)) by (eapply keeps_trans; [exact K1|]; eapply keeps_trans; [exact E2|apply r1_keep]).
  set (e3 := run_r1_diagnostics o mo a e2) in *. clearbody e3.
  destruct (m_flag F e3 "at_least_order_r2") eqn:R2; [|exact I].
  rewrite (k_flag _ _ _ K3) in R2.
  assert (Sz : forall x k, In x ["r2_matrix"; "r2_rhs"] -> want (a_nphi a) x = Some k -> length (m_array F e3 x) = k).
  { intros x k Hx Hk. apply (k_size _ _ _ K3 x k Hk). rewrite En in Hk.
    assert (Hq : exists s, required (m_flag F e "at_least_order_r2") (m_flag F e "order_r2p1") (m_flag F e "order_r3") (m_int F e "nphi") x s)
      by (rewrite R2; destruct Hx as [<-|[<-|[]]]; eexists; constructor; reflexivity).
    destruct Hq as (sh & Hq). exact (ready_size o e x sh k R Hq Hk). }
  eapply (fine_bind (fun _ => True)).
  { unfold run_calculate_r2. eapply (fine_bind (fun _ => True)); [|intros; exact I].
    set (i := r2_input_of o mu0 a e3).
    destruct (second_order_defined o mo i linear_solve (mkMatrix (2 * a_nphi a) (2 * a_nphi a) (2 * a_nphi a * (2 * a_nphi a)) (m_array F e3 "r2_matrix")) (m_array F e3 "r2_rhs")) as (m' & b' & _ & _ & D).
    - split; [reflexivity|]. split; [reflexivity|]. cbn [m_data]. rewrite (Sz "r2_matrix" _ ltac:(left; reflexivity) eq_refl). reflexivity.
    - rewrite (Sz "r2_rhs" _ ltac:(right; left; reflexivity) eq_refl). reflexivity.
    - pose proof (r2_solver m' b') as Q. destruct (linear_solve m' b'); cbn [fine] in Q; [destruct D as (x & -> & _); exact I|rewrite D; exact Q|contradiction]. }
  intros [q e4] _ _. cbn [fst snd]. eapply (fine_bind (fun _ => True)); [|intros; exact I].
  unfold run_r2_diagnostics. eapply fine_bind; [apply singularity_fine|]. intros; exact I.
Qed.
Lemma written_fine e : ready F (fzero o) e -> axis_ok (axis_input_of e) ->
  fine (fun _ => True) (do r <- calculate e; do f <- qsc_write_netcdf F (m_of_Z mo) (snd r); Ok (fst r, f)).
Proof.
  intros R Ha. eapply fine_bind; [apply calculate_fine; assumption|]. intros [st e1] E _. cbn [fst snd].
  assert (R1 : ready F (fzero o) e1) by (eapply keeps_ready; [eapply calculate_keep; [apply (ready_positive o); exact R|exact E]|exact R]).
  destruct (qsc_written (m_of_Z mo) e1 (rd_alloc _ _ _ R1)) as (f & -> & _). exact I.
Qed.
Lemma init_fine (c : members) : (0 <= m_int F c "nphi" < 1073741822)%Z -> (total = true -> In (m_text F c "order_r_option") ["r1"; "r2"; "r2.1"]) -> fine (fun _ => True) (init c).
Proof.
  intros Hn Ho. unfold Run.init, validate_members. destruct (validate (m_text F c "order_r_option")) as [f|w|w] eqn:Ev; cbn [bind].
  - unfold allocate_members. set (c' := with_flags _ c). change (m_int F c' "nphi") with (m_int F c "nphi").
    assert (Hb : (0 < odd_nphi (m_int F c "nphi") < 1073741824)%Z).
    { pose proof (odd_nphi_odd (m_int F c "nphi")) as Hd. destruct (odd_nphi_least (m_int F c "nphi")) as [[E _]|[E _]]; rewrite E in *; [|lia].
      assert (m_int F c "nphi" <> 0%Z) by (intros Ez; rewrite Ez in Hd; discriminate). lia. }
    destruct (allocate_required (m_flag F c' "at_least_order_r2") (m_flag F c' "order_r2p1") (m_flag F c' "order_r3") (m_int F c "nphi") (fun x => [Z.of_nat (length (m_array F c' x))]) Hb) as (sh & -> & _).
    exact I.
  - cbn [fine]. destruct (bool_dec total true) as [T|T]; [|apply not_true_is_false; exact T]. exfalso. specialize (Ho T). cbn [In] in Ho.
    destruct Ho as [E|[E|[E|[]]]]; rewrite <- E in Ev; discriminate Ev.
  - unfold validate in Ev. destruct (String.eqb _ _); [discriminate|]. destruct (String.eqb _ _); [discriminate|]. destruct (String.eqb _ _); discriminate.
Qed.
Lemma run_fine e t : (total = true -> valid_section (m_of_Z mo) qsc_keys t) ->
  (forall s, section_effect (m_of_Z mo) qsc_keys t (default_store o newton_tol) s ->
     acceptable s /\ (total = true -> exists x, s "order_r_option" = VStr x /\ In x ["r1"; "r2"; "r2.1"])) ->
  fine (fun _ => True) (run e t).
Proof.
  intros Hv Hs. unfold Run.run.
  destruct (qsc_input_cases (m_of_Z mo) (fzero o) t (default_store o newton_tol)) as [(_ & s1 & s & a & He & B1 & B2 & B3 & B4 & E & A1 & A2 & A3 & A4 & Ho)|(Hnv & msg & E)].
  { intros x [<-|[<-|[<-|[<-|[]]]]]; eexists; reflexivity. }
  2: { rewrite E. cbn [bind fine]. destruct (bool_dec total true) as [T|T]; [|apply not_true_is_false; exact T]. exfalso. apply Hnv, Hv, T. }
  destruct (Hs s1 He) as ((nphi & nfp & a' & N1 & N2 & N3 & N4 & C1 & C2 & C3 & C4 & M1 & M2) & Hord). rewrite E. cbn [bind].
  assert (Ea : a' = a) by (destruct a', a; cbn in *; congruence). subst a'.
  destruct (input_defines o mo ge0 newton_tol mu0 newton_linear_solve finite _ _ E) as (_ & _ & _ & (order & D4)).
  assert (N : forall x, In x ["nphi"; "nfp"; "order_r_option"] -> s x = s1 x).
  { intros x Hx. apply Ho. cbn [In axis_keys] in *. intros Hk.
    destruct Hx as [<-|[<-|[<-|[]]]]; repeat (destruct Hk as [Hk|Hk]; [discriminate Hk|]); destruct Hk. }
  set (c := load s (constructed o e)).
  assert (Cn : m_int F c "nphi" = nphi) by (unfold c, load; cbn [m_int]; rewrite N, N1 by (cbn; tauto); reflexivity).
  assert (Cp : m_int F c "nfp" = nfp) by (unfold c, load; cbn [m_int]; rewrite N, N3 by (cbn; tauto); reflexivity).
  assert (Cx : forall x v, s x = VVec v -> m_array F c x = v) by (intros x v Ex; unfold c, load; cbn [m_array]; rewrite Ex; reflexivity).
  assert (L : forall l, length l <= max_len a -> length (padded (fzero o) (max_len a) l) = max_len a) by (intros l Hl; unfold padded; rewrite app_length, repeat_length; lia).
  assert (Ln : forall x, In x axis_members -> length (m_array F c x) = max_len a).
  { intros x [<-|[<-|[<-|[<-|[]]]]]; (erewrite Cx by eassumption); apply L; unfold max_len; lia. }
  eapply fine_bind.
  { apply init_fine; [rewrite Cn; exact N2|]. intros T. destruct (Hord T) as (x & Ex & Hx). unfold c, load. cbn [m_text]. rewrite N, Ex by (cbn; tauto). exact Hx. }
  intros e1 Ei _. apply written_fine.
  - apply (init_ready o ge0 newton_tol mu0 newton_linear_solve finite c); [rewrite Cn; exact N2| | |exact Ei].
    + rewrite Ln by (cbn; tauto). lia.
    + intros x Hx. rewrite !Ln by (try exact Hx; cbn; tauto). reflexivity.
  - pose proof (init_initialized o _ _ Ei) as [I1 I2 I3 I4 I5 I6 I7].
    assert (Ax : forall x, In x axis_members -> m_array F e1 x = m_array F c x).
    { intros x Hin. rewrite I7. replace (final_dims _ _ _ x) with (@None (list Alloc.dim)); [reflexivity|].
      cbn [In axis_members] in Hin. destruct (m_flag F e1 "at_least_order_r2"), (m_flag F e1 "order_r2p1"), (m_flag F e1 "order_r3"); destruct Hin as [<-|[<-|[<-|[<-|[]]]]]; reflexivity. }
    constructor; cbn [axis_input_of ai_nphi ai_nfp ai_R0c ai_R0s ai_Z0c ai_Z0s]; rewrite ?Ax, ?Ln by (cbn; tauto); try reflexivity; try lia.
    + rewrite I3 by discriminate. rewrite Cp. exact N4.
    + rewrite I3 by discriminate. rewrite Cp. exact M2.
Qed.
End Safe.

(** The search for the singularity may stop with an exception, but has no undefined behaviour. *)
Lemma singularity_no_ub {F} (o : fops F) (mo : mops F) geev tol finite i s : fine false (fun _ => True) (calculate_r_singularity o mo geev tol finite i s).
Proof.
  unfold calculate_r_singularity. apply (fine_bind false (fun _ => True)); [|intros; exact I]. generalize (seq 0 (a_nphi (i_axis (j_r1 i)))). intros l.
  induction l as [|j l IH]; cbn [r_hats]; [exact I|]. apply (fine_bind false (fun _ => True)).
  - unfold r_hat. destruct (is_zero _ _); [exact I|]. cbv zeta. destruct (negb _); [exact I|]. apply (fine_bind false (fun _ => True)).
    + unfold quartic_roots. destruct (geev _) as [info [re im]]. destruct (Z.eqb info 0); [exact I|reflexivity].
    + intros roots _ _. match goal with |- fine _ _ (try_roots _ _ _ _ ?k _ ?h) => generalize h; generalize k end. intros k.
      induction roots as [|x roots IHr]; intros rc; cbn [try_roots]; [exact I|]. apply (fine_bind false (fun _ => True)); [|intros; apply IHr].
      assert (V : forall g a b z r, fine false (fun _ => True) (try_varsigma o mo tol g a b z r)).
      { intros g a b z r. unfold try_varsigma. match goal with |- context [let '(_, _) := ?p in _] => destruct p end. destruct (flt o _ _); [reflexivity|exact I]. }
      unfold try_root. destruct x as [re im]. destruct (flt o _ _); [exact I|]. cbv zeta. destruct (flt o _ _); [exact I|].
      eapply fine_bind; [apply V|]. intros; apply V.
  - intros r _ _. apply (fine_bind false (fun _ => True)); [exact IH|intros; exact I].
Qed.
