(** The routines of class Qsc that an optimization calls (the parameters of Opt.v) are those of Run.v. *)
From Coq Require Import String ZArith List Arith Bool Lia.
From Verif Require Import Base BaseFacts FloatOps MathOps Tensor Newton RSing Axis AxisSpec Alloc AllocSpec AllocFacts Options OptionsSpec NetCDF NetCDFOut NetCDFSpec.
From Verif Require Import Run RunSpec RunFacts RunSafe MScan Opt OptSpec.
Import ListNotations.
Local Open Scope string_scope.
Local Open Scope nat_scope.

Section OptQsc.
Context {F : Type} (o : fops F) (mo : mops F).
Variables (ge0 : F -> bool) (newton_tol mu0 : F) (newton_linear_solve : (nat -> nat -> F) -> list F -> outcome (list F))
  (linear_solve : matrix F -> list F -> outcome (list F)) (geev : list F -> Z * (list F * list F)) (tol : tolerances F) (finite : F -> bool).
Notation members := (members F).
Notation calculate := (Run.calculate o mo ge0 mu0 newton_linear_solve linear_solve geev tol finite).
Notation init := (Run.init o).
Notation qobj := (@MScan.qobj F).
Notation qextra := (@Opt.qextra F members).

(** ** The model *)
(** A Qsc object in the two representations: that of Opt.v and MScan.v (opt.hpp line 43: the member q of class Opt), where the members that the optimization
    reads and changes are fields and the others are in [qx_rest], and that of Run.v, by name. *)
Definition members_of (q : qobj) (x : qextra) : members :=
  let e := qx_rest x in
  mkMembers F (update [("nphi", qx_nphi x); ("nfp", qx_nfp x); ("helicity", qo_helicity q)] (m_int F e))
    (update [("order_r2p1", qx_order_r2p1 x)] (m_flag F e)) (qo_num q) (m_big F e) (update [("order_r_option", qx_order_r_option x)] (m_text F e)) (m_ints F e)
    (update [("R0c", qo_R0c q); ("R0s", qo_R0s q); ("Z0c", qo_Z0c q); ("Z0s", qo_Z0s q)] (qx_arr x)).
Definition view_of (e : members) : qobj * qextra :=
  (mkQo (m_float F e) (m_int F e "helicity") (m_array F e "R0c") (m_array F e "R0s") (m_array F e "Z0c") (m_array F e "Z0s"),
   mkQx (m_int F e "nphi") (m_int F e "nfp") (m_text F e "order_r_option") (m_flag F e "order_r2p1") (m_array F e) e).
(** opt_allocate.cpp line 9 (q.allocate()), optimize.cpp (q.init(), q.calculate()): allocate.cpp, and qsc.cpp lines 66-84.  The message about the convergence of
    Newton's method is only printed. *)
Definition qsc_routines : @routines F members := {|
  q_allocate := fun q x => do e <- allocate_members F (fzero o) (members_of q x); Ok (view_of e);
  q_init := fun q x => do e <- init (members_of q x); Ok (view_of e);
  q_calculate := fun q x => do r <- calculate (members_of q x); Ok (view_of (snd r)) |}.

(** ** Facts *)
Record same_members (e e' : members) : Prop := mkSame {
  sm_int : forall x, m_int F e x = m_int F e' x; sm_flag : forall x, m_flag F e x = m_flag F e' x; sm_float : forall x, m_float F e x = m_float F e' x;
  sm_text : forall x, m_text F e x = m_text F e' x; sm_array : forall x, m_array F e x = m_array F e' x }.
Lemma update_same {A} (l : list (string * A)) f x : Forall (fun p => snd p = f (fst p)) l -> update l f x = f x.
Proof.
  unfold update. induction 1 as [|[y v] l E _ IH]; cbn [find fst]; [reflexivity|]. destruct (String.eqb_spec x y); [subst; exact E|exact IH].
Qed.
Lemma members_of_view e : same_members (members_of (fst (view_of e)) (snd (view_of e))) e.
Proof.
  constructor; intros x; cbn [members_of view_of fst snd m_int m_flag m_float m_text m_array qx_rest qx_arr qo_num qx_nphi qx_nfp qo_helicity qx_order_r2p1 qx_order_r_option qo_R0c qo_R0s qo_Z0c qo_Z0s];
    try reflexivity; apply update_same; repeat constructor.
Qed.
Lemma same_keeps n e e' : same_members e e' -> keeps n e' e.
Proof. intros [A B C D E]. constructor; intros; rewrite ?A, ?B, ?C, ?D, ?E; auto. Qed.
Lemma axis_array q x a : m_array F (members_of q x) (axis_name a) = get_axis q a.
Proof. destruct a; reflexivity. Qed.
Lemma axis_member x : In x axis_members -> exists a, x = axis_name a.
Proof. intros [<-|[<-|[<-|[<-|[]]]]]; [exists Opt.R0c|exists Opt.R0s|exists Opt.Z0c|exists Opt.Z0s]; reflexivity. Qed.
Lemma axis_name_member a : In (axis_name a) axis_members.
Proof. destruct a; cbn; tauto. Qed.
Lemma other_array q x y : ~ In y axis_members -> m_array F (members_of q x) y = qx_arr x y.
Proof. intros H. apply update_out. exact H. Qed.
Lemma view_axis e a : get_axis (fst (view_of e)) a = m_array F e (axis_name a).
Proof. destruct a; reflexivity. Qed.
Lemma varied_inputs m : In m varied_numbers -> In m input_floats.
Proof. cbn. tauto. Qed.

(** The objects that Qsc::calculate can be called for. *)
Definition fit (q : qobj) (x : qextra) : Prop := RunSpec.ready F (fzero o) (members_of q x) /\ OptSpec.acceptable q x.
Lemma fit_axis_ok q x : fit q x -> axis_ok (axis_input_of (members_of q x)).
Proof.
  intros [R (A & (L1 & L2 & L3) & N)]. pose proof (ready_positive o _ R) as Hn.
  constructor; cbn [axis_input_of ai_nphi ai_nfp ai_R0c ai_R0s ai_Z0c ai_Z0s].
  - lia.
  - exact L2.
  - exact L1.
  - exact (A Opt.R0s).
  - exact (A Opt.Z0c).
  - exact (A Opt.Z0s).
  - exact L3.
Qed.
Definition solvers_ok : Prop := (forall m v w, newton_linear_solve m v <> UB w) /\ (forall m v x, newton_linear_solve m v = Ok x -> length x = length v) /\ (forall m v w, linear_solve m v <> UB w).
Lemma calculate_no_ub e w : solvers_ok -> RunSpec.ready F (fzero o) e -> axis_ok (axis_input_of e) -> calculate e <> UB w.
Proof.
  intros (S1 & S2 & S3) R A E. enough (H : fine false (fun _ => True) (calculate e)) by (rewrite E in H; exact H).
  apply calculate_fine; try assumption.
  - intros n m v Hv. specialize (S1 m v). specialize (S2 m v). destruct (newton_linear_solve m v) as [x| |]; cbn; [rewrite <- Hv; apply S2; reflexivity|reflexivity|eapply S1; reflexivity].
  - intros m v. specialize (S3 m v). destruct (linear_solve m v); cbn; auto. eapply S3. reflexivity.
  - intros i s. apply singularity_no_ub.
Qed.
Lemma axis_not_resized r2 r2p1 r3 x : In x axis_members -> existsb (String.eqb x) (resized r2 r2p1 r3) = false.
Proof. intros [<-|[<-|[<-|[<-|[]]]]]; destruct r2, r2p1, r3; reflexivity. Qed.
Lemma axis_not_dims r2 r2p1 r3 x : In x axis_members -> final_dims r2 r2p1 r3 x = None.
Proof. intros H. pose proof (resized_dims r2 r2p1 r3 x) as E. rewrite axis_not_resized in E by exact H. destruct (final_dims r2 r2p1 r3 x); [discriminate|reflexivity]. Qed.
(** What Qsc::allocate does to the inputs. *)
Lemma allocate_inputs e e1 : allocate_members F (fzero o) e = Ok e1 ->
  m_int F e1 "nphi" = odd_nphi (m_int F e "nphi") /\ (forall x, x <> "nphi" -> m_int F e1 x = m_int F e x) /\ (forall x, m_float F e1 x = m_float F e x) /\
  (forall x, m_text F e1 x = m_text F e x) /\ (forall x, In x axis_members -> m_array F e1 x = m_array F e x).
Proof.
  unfold allocate_members. set (r2 := m_flag F e "at_least_order_r2"). set (r2p1 := m_flag F e "order_r2p1"). set (r3 := m_flag F e "order_r3").
  pose proof (allocate_same r2 r2p1 r3 (m_int F e "nphi") (fun x => [Z.of_nat (length (m_array F e x))]) (fun x => [Z.of_nat (length (m_array F e x))])) as R.
  destruct (Alloc.allocate _ _ _ _ _) as [[n sh]| |]; cbn [bind]; try discriminate. cbn [related fst snd] in R. destruct R as ((R & _) & _).
  intros E. match type of E with Ok ?v = Ok _ => assert (E' : e1 = v) by congruence end. clear E. rewrite E'. clear E'. cbn [m_int m_float m_text m_array fst snd].
  split; [exact R|]. split; [|split; [reflexivity|split; [reflexivity|]]].
  - intros x Hx. unfold set. destruct (String.eqb_spec x "nphi"); [contradiction|reflexivity].
  - intros x Hx. rewrite axis_not_resized by exact Hx. reflexivity.
Qed.
Lemma init_inputs e e1 : init e = Ok e1 ->
  m_int F e1 "nphi" = odd_nphi (m_int F e "nphi") /\ (forall x, x <> "nphi" -> m_int F e1 x = m_int F e x) /\ (forall x, m_float F e1 x = m_float F e x) /\
  (forall x, m_text F e1 x = m_text F e x) /\ (forall x, In x axis_members -> m_array F e1 x = m_array F e x).
Proof.
  intros H. destruct (init_initialized o _ _ H) as [N P I Fl T O A]. repeat (split; [assumption|]).
  intros x Hx. rewrite A, axis_not_dims by exact Hx. reflexivity.
Qed.
Lemma view_inputs q x e1 : m_int F e1 "nphi" = odd_nphi (m_int F (members_of q x) "nphi") /\ (forall y, y <> "nphi" -> m_int F e1 y = m_int F (members_of q x) y) /\
  (forall y, m_float F e1 y = m_float F (members_of q x) y) /\ (forall y, m_text F e1 y = m_text F (members_of q x) y) /\
  (forall y, In y axis_members -> m_array F e1 y = m_array F (members_of q x) y) ->
  OptSpec.same_inputs q (fst (view_of e1)) /\ same_extra x (snd (view_of e1)) /\ qx_nphi (snd (view_of e1)) = odd_nphi (qx_nphi x).
Proof.
  intros (N & I & Fl & T & A). split; [split|split; [split|]].
  - intros m _. apply Fl.
  - intros a. rewrite view_axis, A, axis_array by apply axis_name_member. reflexivity.
  - apply (I "nfp"). discriminate.
  - apply (T "order_r_option").
  - exact N.
Qed.
Lemma odd_limits n : nphi_limits n -> nphi_limits (odd_nphi n).
Proof. unfold nphi_limits. intros H. destruct (odd_nphi_least n) as [[-> _]|[-> O]]; [exact H|]. destruct (Z.eq_dec n 1073741821) as [->|]; [discriminate O|lia]. Qed.
Lemma odd_positive n : nphi_limits n -> (0 < odd_nphi n < 1073741824)%Z.
Proof.
  intros H. pose proof (odd_limits n H) as L. unfold nphi_limits in L. pose proof (odd_nphi_odd n) as Hd.
  assert (odd_nphi n <> 0%Z) by (intros Ez; rewrite Ez in Hd; discriminate). lia.
Qed.
Lemma acceptable_view (q : qobj) (x : qextra) e : OptSpec.acceptable q x -> OptSpec.same_inputs q (fst (view_of e)) -> qx_nfp (snd (view_of e)) = qx_nfp x ->
  nphi_limits (qx_nphi (snd (view_of e))) -> OptSpec.acceptable (fst (view_of e)) (snd (view_of e)).
Proof.
  intros (A & L & N) (_ & S) E H. unfold OptSpec.acceptable. change (qo_R0c (fst (view_of e))) with (get_axis (fst (view_of e)) Opt.R0c).
  rewrite (S Opt.R0c), E. split; [|split; [exact L|exact H]]. intros a. rewrite S. apply A.
Qed.
Lemma grid_arrays_required x n : In x grid_arrays -> required true true true n x [n].
Proof.
  intros H. assert (B : forallb (fun x => inb x vectors_first || inb x vectors_r2 || inb x vectors_r3)%bool grid_arrays = true) by (vm_compute; reflexivity).
  rewrite forallb_forall in B. specialize (B x H). apply orb_true_iff in B as [B|B]; [apply orb_true_iff in B as [B|B]|]; apply inb_In in B;
    [apply req_first|apply req_r2|apply req_r3]; auto.
Qed.

Theorem qsc_routines_ok : solvers_ok -> qsc_ok fit qsc_routines.
Proof.
  intros HS. constructor.
  - intros q x q' x' H. cbn [q_allocate qsc_routines] in H. destruct (allocate_members F (fzero o) (members_of q x)) as [e1| |] eqn:E; cbn [bind] in H; try discriminate.
    injection H as <- <-. apply view_inputs. apply allocate_inputs. exact E.
  - intros q x q' x' H. cbn [q_init qsc_routines] in H. destruct (init (members_of q x)) as [e1| |] eqn:E; cbn [bind] in H; try discriminate.
    injection H as <- <-. destruct (view_inputs q x e1 (init_inputs _ _ E)) as (A & B & C). repeat (split; [assumption|]).
    destruct (init_initialized o _ _ E) as [_ _ _ _ _ O _]. change (m_text F (members_of q x) "order_r_option") with (qx_order_r_option x) in O.
    apply validate_table in O. cbn [snd view_of qx_order_r2p1]. destruct O as [T|[T|[T|[]]]]; injection T as T1 _ T2 _; rewrite <- T1; symmetry; exact T2.
  - intros q x q' x' HA H. cbn [q_init qsc_routines] in H. destruct (init (members_of q x)) as [e1| |] eqn:E; cbn [bind] in H; try discriminate.
    injection H as <- <-. destruct (view_inputs q x e1 (init_inputs _ _ E)) as (A & (B & _) & C). pose proof HA as (L0 & (L1 & L2) & L3). split.
    + eapply (keeps_ready o); [apply same_keeps; apply members_of_view|].
      apply (init_ready o ge0 newton_tol mu0 newton_linear_solve finite (members_of q x)); [exact L3| | |exact E].
      * change (m_array F (members_of q x) "R0c") with (qo_R0c q). lia.
      * intros y Hy. destruct (axis_member y Hy) as (a & ->). rewrite axis_array. apply L0.
    + eapply acceptable_view; eauto. rewrite C. apply odd_limits. exact L3.
  - intros q q' x (R & A & (L1 & L2) & L3) H. split.
    + apply (changed_ready o (members_of q x)); [|exact R]. split; [reflexivity|]. split; [reflexivity|]. split; [reflexivity|]. split; [|split; [|split]].
      * intros y Hy. rewrite !other_array; [reflexivity|..]; intros C;
          (assert (B : apart never_set axis_members = true) by (vm_compute; reflexivity); unfold apart in B; rewrite forallb_forall in B; specialize (B y C);
           rewrite (proj2 (inb_In _ _) Hy) in B; discriminate B).
      * intros y Hy. rewrite !other_array by exact Hy. reflexivity.
      * change (m_array F (members_of q' x) "R0c") with (get_axis q' Opt.R0c). rewrite H. change (get_axis q Opt.R0c) with (qo_R0c q). lia.
      * intros y Hy. destruct (axis_member y Hy) as (a & ->). rewrite axis_array. change (m_array F (members_of q' x) "R0c") with (get_axis q' Opt.R0c). rewrite !H. apply A.
    + unfold OptSpec.acceptable. change (qo_R0c q') with (get_axis q' Opt.R0c). rewrite H. change (get_axis q Opt.R0c) with (qo_R0c q). split; [|split; [split; assumption|exact L3]].
      intros a. rewrite H. apply A.
  - intros q x q' x' (R & A) H. cbn [q_calculate qsc_routines] in H. destruct (calculate (members_of q x)) as [[st e1]| |] eqn:E; cbn [bind snd] in H; try discriminate.
    injection H as <- <-. pose proof (calculate_keep o mo ge0 mu0 newton_linear_solve linear_solve geev tol finite _ _ _ (ready_positive o _ R) E) as K.
    pose proof (keeps_ready o _ _ K R) as R1.
    assert (S : OptSpec.same_inputs q (fst (view_of e1))).
    { split; [intros m Hm; apply (k_float _ _ _ K); apply varied_inputs; exact Hm|]. intros a. rewrite view_axis, (k_array _ _ _ K), axis_array; [reflexivity|]. apply in_or_app. left. apply axis_name_member. }
    assert (Ni : qx_nfp (snd (view_of e1)) = qx_nfp x) by (apply (k_int _ _ _ K "nfp"); apply inb_In; reflexivity).
    assert (Nn : qx_nphi (snd (view_of e1)) = qx_nphi x) by (apply (k_int _ _ _ K "nphi"); apply inb_In; reflexivity).
    split; [exact S|]. split; [split; [exact Ni|apply (k_text _ _ _ K "order_r_option")]|]. split; [exact Nn|]. split; [apply (k_flag _ _ _ K "order_r2p1")|]. split.
    + intros Ho. assert (Fl : m_flag F e1 "at_least_order_r2" = true /\ m_flag F e1 "order_r2p1" = true /\ m_flag F e1 "order_r3" = true).
      { pose proof (rd_order _ _ _ R1) as T. assert (Ho1 : m_flag F e1 "order_r2p1" = true) by (rewrite (k_flag _ _ _ K); exact Ho).
        destruct T as [T|[T|[T|[]]]]; injection T as _ T1 T2 T3; repeat split; congruence. }
      destruct Fl as (F1 & F2 & F3).
      assert (Sz : forall y s k, required true true true (m_int F e1 "nphi") y s -> want (grid e1) y = Some k -> length (m_array F e1 y) = k).
      { intros y s k Hr Hw. apply (ready_size o e1 y s k R1); [rewrite F1, F2, F3; exact Hr|exact Hw]. }
      unfold arrays_ok. cbn [view_of snd qx_arr qx_nphi]. fold (grid e1). split; [|split].
      * intros m Hm. apply (Sz m _ _ (grid_arrays_required m _ Hm)). eapply want_vector; [|exact Hm]. vm_compute. reflexivity.
      * rewrite (Sz "grad_B_tensor" _ _ (req_gradB _ _ _ _) eq_refl). lia.
      * rewrite (Sz "grad_grad_B_tensor" _ _ (req_ggB _ _ _ _ eq_refl) eq_refl). lia.
    + split; [eapply (keeps_ready o); [apply same_keeps; apply members_of_view|exact R1]|]. eapply acceptable_view; eauto. rewrite Nn. apply A.
  - intros q x why. split.
    + intros (A & L & N). split; intros H.
      * cbn [q_allocate qsc_routines] in H. revert H. unfold allocate_members. set (e := members_of q x).
        destruct (allocate_required (m_flag F e "at_least_order_r2") (m_flag F e "order_r2p1") (m_flag F e "order_r3") (m_int F e "nphi") (fun y => [Z.of_nat (length (m_array F e y))]) (odd_positive _ N)) as (sh & -> & _).
        cbn [bind]. discriminate.
      * cbn [q_init qsc_routines] in H. pose proof (init_fine o false (members_of q x) N (fun T => match Bool.diff_false_true T with end)) as G. destruct (init (members_of q x)); cbn [bind fine] in *; [discriminate|discriminate|contradiction].
    + intros Hf H. cbn [q_calculate qsc_routines] in H. pose proof (calculate_no_ub (members_of q x)) as G. pose proof (fit_axis_ok q x Hf) as Ha. destruct Hf as (R & _).
      destruct (calculate (members_of q x)) as [r| |w]; cbn [bind] in H; try discriminate. exact (G w HS R Ha eq_refl).
Qed.
End OptQsc.
