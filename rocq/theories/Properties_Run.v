(** Properties of the calculation of one configuration as a whole: C85 (results do not depend on the past of an object), C86 (a run depends on nothing but its
    input file), C88 (the output file records the inputs), C89 (the derivatives in the output file). *)
From Coq Require Import String ZArith Reals Lra Arith Bool Lia List.
From Verif Require Import Base BaseFacts FloatOps MathOps Tensor Newton Diff Axis AxisFacts R1 R1Facts R2 RSing GradGradB Alloc AllocSpec AllocFacts Toml TomlSpec TomlFacts
  Options OptionsSpec NetCDF NetCDFOut NetCDFNames NetCDFSpec NetCDFFacts NetCDFRead HelicityFacts Properties_NetCDF Run RunSpec RunFacts RunFile RunView RunSafe Properties_RSing Properties_RunSafe.
Import ListNotations.
Local Open Scope string_scope.
Local Open Scope nat_scope.

Ltac in_list := first [left; reflexivity | right; in_list].
Section Run.
Context {F : Type} (o : fops F) (mo : mops F).
Variables (ge0 : F -> bool) (newton_tol mu0 : F) (newton_linear_solve : (nat -> nat -> F) -> list F -> outcome (list F))
  (linear_solve : matrix F -> list F -> outcome (list F)) (geev : list F -> Z * (list F * list F)) (tol : tolerances F) (finite : F -> bool).
Notation init := (Run.init o).
Notation calculate := (Run.calculate o mo ge0 mu0 newton_linear_solve linear_solve geev tol finite).
Notation run := (Run.run o mo ge0 newton_tol mu0 newton_linear_solve linear_solve geev tol finite).
Notation write := (qsc_write_netcdf F (m_of_Z mo)).
Notation num := (num F (fzero o)).
Notation whole := (whole F).

(** C85.  Whatever has been done with two objects since init() prepared them: if their input parameters are the same now, calculate() gives the same result of
    Newton's method and, if an output file is written then, the same file; or both stop with the same exception. *)
Theorem results_forget_history : forall e e' : members F, history F init calculate e -> history F init calculate e' -> same_inputs F e e' ->
  (do r <- calculate e; do f <- write (snd r); Ok (fst r, f)) = (do r <- calculate e'; do f <- write (snd r); Ok (fst r, f)).
Proof.
  intros e e' H H' S. apply (ready_same o mo ge0 newton_tol mu0 newton_linear_solve linear_solve geev tol finite); [| |exact S]; eapply history_ready; eassumption.
Qed.

(** C86.  The result of run() and the output file depend only on the input file: not on what was in the memory of the object, which the constructor sets only in
    part. *)
Theorem run_deterministic : forall (e e' : members F) t, run e t = run e' t.
Proof. intros. apply run_same. Qed.

(** C88.  The output file records the input parameters that were used: those of the input file, and the documented defaults for those that it does not give;
    nphi is the odd number that was used; the coefficients of the axis are padded with zeros to the same length. *)
Theorem inputs_recorded : forall e t st f, small_grid (m_of_Z mo) t -> run e t = Ok (st, f) ->
  exists s : store F, section_effect (m_of_Z mo) qsc_keys t (default_store o newton_tol) s /\
  (forall x, In x ["nfp"; "sG"; "spsi"; "max_newton_iterations"; "max_linesearch_iterations"] -> s x = VInt (whole f x)) /\
  (exists n, s "nphi" = VInt n /\ (whole f "nphi" = n \/ whole f "nphi" = (n + 1)%Z) /\ Z.odd (whole f "nphi") = true) /\
  (forall x, In x ["B0"; "eta_bar"; "sigma0"; "I2"; "newton_tolerance"] -> s x = VFloat (num f x [])) /\
  (exists order, s "order_r_option" = VStr order /\
    (whole f "at_least_order_r2" = 1%Z <-> order = "r2" \/ order = "r2.1") /\ (whole f "order_r2.1" = 1%Z <-> order = "r2.1") /\
    (order <> "r1" -> forall x, In x ["p2"; "B2s"; "B2c"] -> s x = VFloat (num f x []))) /\
  (forall x v, In x axis_members -> s x = VVec v -> forall k, k < length v -> num f x [k] = nth k v (fzero o)).
Proof.
  intros e t st f Hn H. destruct (view_run _ _ _ _ _ _ _ _ _ _ _ _ _ _ Hn H) as [s1 e1 sh a h x r u St Vs Va Vn Vu Vw Vf Vv Vsg Vc Vm Vo V2 Vk].
  destruct St as [Be Bi (z & Bz & Bn) Bf Bx Bo Br]. exists s1. split; [exact Be|].
  assert (Hw : forall y v, In (y, v) (first_wholes e1 h) -> whole f y = v) by exact Vw.
  assert (Hf : forall y v, In (y, v) _ -> num f y [] = v) by exact Vf.
  split; [|split; [|split; [|split]]].
  - intros y Hy. cbn [In] in Hy. repeat (destruct Hy as [<-|Hy]; [erewrite Hw by (unfold first_wholes; in_list); apply Bi; [cbn; tauto|discriminate]|]). destruct Hy.
  - exists z. split; [exact Bz|]. rewrite (Hw "nphi" (m_int F e1 "nphi")) by (unfold first_wholes; in_list). rewrite Bn. split; [|apply odd_nphi_odd].
    destruct (odd_nphi_least z) as [[-> _]|[-> _]]; auto.
  - intros y Hy. cbn [In] in Hy. repeat (destruct Hy as [<-|Hy]; [erewrite Hf by (unfold first_numbers; in_list); apply Bf; cbn; tauto|]). destruct Hy.
  - exists (m_text F e1 "order_r_option"). split; [exact Bo|]. destruct Vo as (O1 & O2 & _). rewrite O1, O2. destruct Br as [Bt _ _].
    split; [|split].
    + destruct Bt as [T|[T|[T|[]]]]; injection T as T0 T1 T2 T3; rewrite <- T0, <- T1; (split; [intros K; try discriminate K; auto|intros [K|K]; try discriminate K; reflexivity]).
    + destruct Bt as [T|[T|[T|[]]]]; injection T as T0 T1 T2 T3; rewrite <- T0, <- T2; (split; [intros K; try discriminate K; auto|intros K; try discriminate K; reflexivity]).
    + intros Ho y Hy. assert (R2 : m_flag F e1 "at_least_order_r2" = true).
      { destruct Bt as [T|[T|[T|[]]]]; injection T as T0 T1 T2 T3; [exfalso; apply Ho; auto|auto|auto]. }
      destruct (V2 R2) as (q & g & _ & _ & Vf2 & _). assert (Hf2 : forall y v, In (y, v) _ -> num f y [] = v) by exact Vf2.
      cbn [In] in Hy. repeat (destruct Hy as [<-|Hy]; [erewrite Hf2 by (unfold second_numbers; in_list); apply Bf; cbn; tauto|]). destruct Hy.
  - intros y v Hy Ev k Hk. destruct (Bx y Hy) as (v' & Ev' & Ep). rewrite Ev in Ev'. injection Ev' as <-.
    assert (Ly : length (m_array F e1 y) = length (m_array F e1 "R0c")) by (destruct Br as [_ (_ & _ & _ & _ & L & _) _]; apply L; exact Hy).
    rewrite Vc; [|exact Hy|].
    + rewrite Ep. unfold TomlSpec.padded. apply app_nth1. exact Hk.
    + rewrite <- Ly, Ep. unfold TomlSpec.padded. rewrite app_length. lia.
Qed.

(** C89.  In the output file, every array d_..._d_varphi is the derivative, with the differentiation matrix d_d_varphi of the file, of the array it is named
    after, and every array d2_..._d_varphi2 is the derivative of the array d_..._d_varphi. *)
Definition differentiated_twice : list string := ["X20"; "X2s"; "X2c"; "Y20"; "Y2s"; "Y2c"; "Z20"; "Z2s"; "Z2c"; "X3c1"; "Y3c1"; "Y3s1"].
Definition differentiated : list string := ["X1c"; "Y1c"; "Y1s"] ++ differentiated_twice.
Lemma fsum_ext n (g g' : nat -> F) : (forall k, k < n -> g k = g' k) -> fsum o n g = fsum o n g'.
Proof. induction n as [|n IH]; intros H; cbn [fsum]; [reflexivity|]. rewrite IH, H by (intros; try apply H; lia). reflexivity. Qed.
Theorem derivatives_consistent : forall e t st f, small_grid (m_of_Z mo) t -> run e t = Ok (st, f) ->
  let N := Z.to_nat (whole f "nphi") in
  let derivative (x y : string) := forall j, j < N -> num f y [j] = fsum o N (fun k => fmul o (num f "d_d_varphi" [k; j]) (num f x [k])) in
  (forall x, In x differentiated -> has F f ("d_" ++ x ++ "_d_varphi") -> derivative x ("d_" ++ x ++ "_d_varphi")) /\
  (forall x, In x differentiated_twice -> has F f ("d2_" ++ x ++ "_d_varphi2") -> derivative ("d_" ++ x ++ "_d_varphi") ("d2_" ++ x ++ "_d_varphi2")).
Proof.
  intros e t st f Hn H N derivative. destruct (view_run _ _ _ _ _ _ _ _ _ _ _ _ _ _ Hn H) as [s1 e1 sh a h x r u St Vs Va Vn Vu Vw Vf Vv Vsg Vc Vm Vo V2 Vk].
  assert (En : N = a_nphi a). { unfold N. rewrite (Vw "nphi" (m_int F e1 "nphi")) by (unfold first_wholes; in_list). lia. }
  clearbody N. subst N.
  assert (G : forall l y z g, show_vectors o f (a_nphi a) l -> In (y, g) l -> In (z, ddv o (first_input e1 a h) g) l -> derivative y z).
  { intros l y z g Hl Hy Hz j Hj. rewrite (Hl _ _ Hz j Hj). unfold ddv. cbn [first_input i_axis].
    apply fsum_ext. intros k Hk. rewrite (Hl _ _ Hy k Hk), Vm by assumption. reflexivity. }
  assert (B3 : m_flag F e1 "order_r3" = true -> m_flag F e1 "order_r2p1" = true /\ m_flag F e1 "at_least_order_r2" = true).
  { intros R3. destruct (rd_order _ _ _ (b_ready _ _ _ _ _ _ St)) as [T|[T|[T|[]]]]; injection T as _ T1 T2 T3; split; congruence. }
  assert (Act : forall w y what, In (Put [(w, true)] y what) qsc_puts -> has F f y -> m_flag F e1 w = true).
  { intros w y what Hp Hh. apply (Vk _ _ _ Hp) in Hh. rename Hh into Vk'. cbn [forallb fst snd] in Vk'. rewrite andb_true_r in Vk'. destruct (m_flag F e1 w); [reflexivity|discriminate]. }
  pose (d := fun x => "d_" ++ x ++ "_d_varphi"). pose (d2 := fun x => "d2_" ++ x ++ "_d_varphi2").
  pose (second := firstn 9 differentiated_twice). pose (third := skipn 9 differentiated_twice).
  assert (S2 : m_flag F e1 "at_least_order_r2" = true -> (forall y, In y second -> derivative y (d y)) /\ (forall y, In y second -> derivative (d y) (d2 y))).
  { intros R2. destruct (V2 R2) as (q & g & _ & _ & _ & Vv2 & _).
    split; intros y Hi; cbn [In second firstn differentiated_twice] in Hi; unfold d, d2;
      repeat (destruct Hi as [<-|Hi]; [cbn [append]; eapply (G _ _ _ _ Vv2); unfold second_vectors; in_list|]); destruct Hi. }
  assert (S3 : m_flag F e1 "order_r3" = true -> (forall y, In y third -> derivative y (d y)) /\ (forall y, In y third -> derivative (d y) (d2 y))).
  { intros R3. destruct (B3 R3) as (P1 & R2). destruct (V2 R2) as (q & g & _ & _ & _ & _ & _ & V3). destruct (V3 P1) as (_ & Vv3).
    split; intros y Hi; cbn [In third skipn differentiated_twice] in Hi; unfold d, d2;
      repeat (destruct Hi as [<-|Hi]; [cbn [append]; eapply (G _ _ _ _ Vv3); unfold third_vectors; in_list|]); destruct Hi. }
  assert (A2 : forall y, In y second -> has F f (d y) \/ has F f (d2 y) -> m_flag F e1 "at_least_order_r2" = true).
  { intros y Hi Hh. cbn [In second firstn differentiated_twice] in Hi. unfold d, d2 in Hh.
    repeat (destruct Hi as [<-|Hi]; [cbn [append] in Hh; destruct Hh as [Hh|Hh]; match type of Hh with has _ _ ?n => apply (Act _ n (SVector "nphi_dim" n)); [apply in_puts; vm_compute; reflexivity|exact Hh] end|]); destruct Hi. }
  assert (A3 : forall y, In y third -> has F f (d y) \/ has F f (d2 y) -> m_flag F e1 "order_r3" = true).
  { intros y Hi Hh. cbn [In third skipn differentiated_twice] in Hi. unfold d, d2 in Hh.
    repeat (destruct Hi as [<-|Hi]; [cbn [append] in Hh; destruct Hh as [Hh|Hh]; match type of Hh with has _ _ ?n => apply (Act _ n (SVector "nphi_dim" n)); [apply in_puts; vm_compute; reflexivity|exact Hh] end|]); destruct Hi. }
  assert (Split : forall y, In y differentiated_twice -> In y second \/ In y third).
  { intros y Hy. apply in_app_or. unfold second, third. rewrite firstn_skipn. exact Hy. }
  split; intros y Hy Hh.
  - apply in_app_or in Hy. destruct Hy as [Hy|Hy].
    + cbn [In] in Hy. repeat (destruct Hy as [<-|Hy]; [cbn [append]; eapply (G _ _ _ _ Vv); unfold first_vectors; in_list|]). destruct Hy.
    + destruct (Split y Hy) as [Hi|Hi]; [apply (S2 (A2 y Hi (or_introl Hh)))|apply (S3 (A3 y Hi (or_introl Hh)))]; exact Hi.
  - destruct (Split y Hy) as [Hi|Hi]; [apply (S2 (A2 y Hi (or_intror Hh)))|apply (S3 (A3 y Hi (or_intror Hh)))]; exact Hi.
Qed.
End Run.

(** ** Cases that meet the hypotheses *)
(** The configuration of section 5.1 of the paper on order r2, in real arithmetic. *)
Definition case_table : table R := input_file (dec R_ops R_math) 2 "r2.1" [("eta_bar", dec R_ops R_math 64 2); ("B2c", dec R_ops R_math (-322) 5)]
  [dec R_ops R_math 1 0; dec R_ops R_math 155 3; dec R_ops R_math 102 4] [dec R_ops R_math 0 0; dec R_ops R_math 154 3; dec R_ops R_math 111 4] [].
Lemma dec_value m k : k <> 0%Z -> dec R_ops R_math m k = (IZR m / IZR (10 ^ k))%R.
Proof. intros H. unfold dec. destruct (Z.eqb_spec k 0); [contradiction|reflexivity]. Qed.
Example case_small : small_grid (m_of_Z R_math) case_table. Proof. intros v z E. discriminate E. Qed.
(** C88 and C89: there is an output file, and among others it contains these values and these arrays. *)
Example case_file : forall e, exists st f, run_easy e case_table = Ok (st, f) /\ whole R f "nphi" = 15%Z /\ whole R f "nfp" = 2%Z /\ num R 0%R f "R0c" [1] = (155 / 1000)%R /\
  num R 0%R f "B2c" [] = (-322 / 100000)%R /\ has R f "d_X1c_d_varphi" /\ has R f "d2_Z2c_d_varphi2" /\ has R f "d2_X3c1_d_varphi2".
Proof.
  intros e. destruct (published_runs "1" case_table e eq_refl) as (st & f & H). exists st, f. split; [exact H|].
  destruct (inputs_recorded R_ops R_math Rge0 0%R 0%R easy_solver easy_solver2 easy_geev (tolerances_of R_ops R_math false) (fun _ => true) e case_table st f case_small H) as (s & (He & _) & I1 & (n & I2 & I2' & I2o) & I3 & (order & I4 & O1 & O2 & I5) & I6).
  assert (D : forall x k v, In (x, k) qsc_keys -> lookup x case_table = Some v -> TomlSpec.denotes (m_of_Z R_math) k v (s x)) by (intros x k v Hk Hl; specialize (He x k Hk); rewrite Hl in He; exact He).
  pose proof (D "nfp" KInt _ ltac:(cbn; tauto) eq_refl) as D1. pose proof (D "order_r_option" KStr _ ltac:(cbn; tauto) eq_refl) as D2.
  pose proof (D "R0c" KVec _ ltac:(cbn; tauto) eq_refl) as D3. pose proof (D "B2c" KFloat _ ltac:(cbn; tauto) eq_refl) as D4.
  assert (Ho : order = "r2.1") by (rewrite I4 in D2; inversion D2; reflexivity). subst order.
  specialize (He "nphi" KInt ltac:(cbn; tauto)). cbn [lookup case_table input_file] in He. change (s "nphi" = VInt 15) in He. rewrite I2 in He. injection He as ->.
  destruct (view_run R_ops R_math Rge0 0%R 0%R easy_solver easy_solver2 easy_geev (tolerances_of R_ops R_math false) (fun _ => true) e case_table st f case_small H) as [s1 e1 sh a h x r u St Vs Va Vn Vu Vw Vf Vv Vsg Vc Vm (O1' & O2' & O3') V2 Vk].
  rewrite O1' in O1. rewrite O2' in O2.
  assert (F1 : m_flag R e1 "at_least_order_r2" = true) by (destruct (m_flag R e1 "at_least_order_r2"); [reflexivity|exfalso; assert (0 = 1)%Z by (apply O1; auto); lia]).
  assert (F2 : m_flag R e1 "order_r2p1" = true) by (destruct (m_flag R e1 "order_r2p1"); [reflexivity|exfalso; assert (0 = 1)%Z by (apply O2; auto); lia]).
  assert (F3 : m_flag R e1 "order_r3" = true) by (destruct (rd_order _ _ _ (b_ready _ _ _ _ _ _ St)) as [T|[T|[T|[]]]]; injection T as _ T1 T2 T3; congruence).
  repeat split.
  - destruct I2' as [E|E]; [exact E|]. rewrite E in I2o. discriminate I2o.
  - rewrite (I1 "nfp") in D1 by (cbn; tauto). inversion D1; subst. eapply int32_of_unique; [eassumption|]. split; [unfold in_int32; lia|exists 0%Z; lia].
  - assert (E3 : s "R0c" = VVec [dec R_ops R_math 1 0; dec R_ops R_math 155 3; dec R_ops R_math 102 4]).
    { inversion D3 as [| | | | | |l xs Hl Ha Hb| | | ]. f_equal. apply vec_values. exact Hl. }
    transitivity (dec R_ops R_math 155 3); [|rewrite dec_value by discriminate; change (10 ^ 3)%Z with 1000%Z; reflexivity]. exact (I6 "R0c" _ ltac:(cbn; tauto) E3 1 ltac:(cbn; lia)).
  - assert (E4 : s "B2c" = VFloat (dec R_ops R_math (-322) 5)) by (inversion D4; reflexivity).
    rewrite (I5 ltac:(discriminate) "B2c") in E4 by (cbn; tauto). transitivity (dec R_ops R_math (-322) 5); [injection E4 as E4; exact E4|]. rewrite dec_value by discriminate. change (10 ^ 5)%Z with 100000%Z. reflexivity.
  - apply (Vk [] _ (SVector "nphi_dim" "d_X1c_d_varphi")); [apply in_puts; vm_compute; reflexivity|reflexivity].
  - apply (Vk [("at_least_order_r2", true)] _ (SVector "nphi_dim" "d2_Z2c_d_varphi2")); [apply in_puts; vm_compute; reflexivity|cbn [forallb fst snd]; rewrite F1; reflexivity].
  - apply (Vk [("order_r3", true)] _ (SVector "nphi_dim" "d2_X3c1_d_varphi2")); [apply in_puts; vm_compute; reflexivity|cbn [forallb fst snd]; rewrite F3; reflexivity].
Qed.
(** C85: an object that init() has prepared; and one that, after init(), was given another eta_bar, calculated, and given the first eta_bar again. *)
Notation init_case := (Run.init R_ops).
Notation calculate_case := (Run.calculate R_ops R_math Rge0 0%R easy_solver easy_solver2 easy_geev (tolerances_of R_ops R_math false) (fun _ => true)).
Example history_case : exists e e', history R init_case calculate_case e /\ history R init_case calculate_case e' /\ same_inputs R e e' /\ m_float R e "eta_bar" = 1%R /\
  exists e1 e2 st, m_float R e1 "eta_bar" = 2%R /\ calculate_case e1 = Ok (st, e2) /\ e' = with_floats [("eta_bar", 1%R)] e2.
Proof.
  set (c := with_arrays [("R0c", [1%R; 0%R]); ("R0s", [0%R; 0%R]); ("Z0c", [0%R; 0%R]); ("Z0s", [0%R; 0%R])] (with_text [("order_r_option", "r2")]
    (with_floats [("eta_bar", 1%R)] (with_ints [("nphi", 5%Z); ("nfp", 3%Z)] (mkMembers R (fun _ => 0%Z) (fun _ => false) (fun _ => 0%R) (fun _ => 0%Z) (fun _ => "") (fun _ => []) (fun _ => [])))))).
  assert (Hi : exists e0, init_case c = Ok e0).
  { pose proof (init_fine R_ops true c) as H. destruct (init_case c) as [e0|w|w]; [exists e0; reflexivity| |]; exfalso.
    - assert (K : true = false) by (apply H; [cbn; lia|intros _; cbn; tauto]). discriminate K.
    - apply H; [cbn; lia|intros _; cbn; tauto]. }
  destruct Hi as (e0 & Hi).
  assert (Lc : forall x, In x axis_members -> length (m_array R c x) = 2) by (intros x [<-|[<-|[<-|[<-|[]]]]]; reflexivity).
  assert (H0 : history R init_case calculate_case e0).
  { apply (hist_init _ _ _ c e0); [cbn; lia|rewrite Lc by (cbn; tauto); discriminate| |exact Hi]. intros x Hx. rewrite !Lc by (try exact Hx; cbn; tauto). reflexivity. }
  pose proof (init_initialized R_ops _ _ Hi) as [I1 I2 I3 I4 I5 I6 I7].
  set (e1 := with_floats [("eta_bar", 2%R)] e0).
  pose proof (history_ready R_ops R_math Rge0 0%R 0%R easy_solver easy_solver2 easy_geev (tolerances_of R_ops R_math false) (fun _ => true) e0 H0) as R0.
  assert (Ch : forall e v, ready R 0%R e -> changed R e (with_floats [("eta_bar", v)] e)).
  { intros e v [_ (_ & _ & _ & L1 & L2 & _) _]. repeat split; auto. }
  assert (H1 : history R init_case calculate_case e1) by (eapply hist_change; [exact H0|apply Ch; exact R0]).
  pose proof (history_ready R_ops R_math Rge0 0%R 0%R easy_solver easy_solver2 easy_geev (tolerances_of R_ops R_math false) (fun _ => true) e1 H1) as R1.
  assert (Ax : forall x, In x axis_members -> m_array R e1 x = m_array R c x).
  { intros x Hin. change (m_array R e1 x) with (m_array R e0 x). rewrite I7. replace (final_dims _ _ _ x) with (@None (list Alloc.dim)); [reflexivity|].
    cbn [In axis_members] in Hin. destruct (m_flag R e0 "at_least_order_r2"), (m_flag R e0 "order_r2p1"), (m_flag R e0 "order_r3"); destruct Hin as [<-|[<-|[<-|[<-|[]]]]]; reflexivity. }
  assert (Nf : m_int R e1 "nfp" = 3%Z) by (change (m_int R e1 "nfp") with (m_int R e0 "nfp"); rewrite I3 by discriminate; reflexivity).
  assert (Np : m_int R e1 "nphi" = 5%Z) by (change (m_int R e1 "nphi") with (m_int R e0 "nphi"); rewrite I1; reflexivity).
  assert (Hc : exists st e2, calculate_case e1 = Ok (st, e2)).
  { assert (K : fine true (fun _ => True) (calculate_case e1)).
    { apply calculate_fine.
      - intros n m v <-. reflexivity.
      - intros m v. exact I.
      - intros i s. destruct (singularity_defined easy_geev false i s (fun _ => eq_refl)) as (x & ->). exact I.
      - exact R1.
      - constructor; cbn [axis_input_of ai_nphi ai_nfp ai_R0c ai_R0s ai_Z0c ai_Z0s]; rewrite ?Ax, ?Lc, ?Nf, ?Np by (cbn; tauto); try reflexivity; try lia; cbn; lia. }
    destruct (calculate_case e1) as [[st e2]|w|w]; [exists st, e2; reflexivity|discriminate K|destruct K]. }
  destruct Hc as (st & e2 & Hc).
  assert (H2 : history R init_case calculate_case e2) by (eapply hist_calculate; eassumption).
  pose proof (history_ready R_ops R_math Rge0 0%R 0%R easy_solver easy_solver2 easy_geev (tolerances_of R_ops R_math false) (fun _ => true) e2 H2) as R2.
  assert (Hk : keeps (grid e1) e1 e2).
  { eapply (calculate_keep R_ops R_math Rge0 0%R easy_solver easy_solver2 easy_geev (tolerances_of R_ops R_math false) (fun _ => true)); [rewrite Np; lia|exact Hc]. }
  exists e0, (with_floats [("eta_bar", 1%R)] e2). split; [exact H0|]. split; [eapply hist_change; [exact H2|apply Ch; exact R2]|]. split; [|split].
  - split; [|split; [|split]].
    + intros x Hx. symmetry. exact (k_int _ _ _ Hk x Hx).
    + intros x Hx. pose proof (k_float _ _ _ Hk x Hx) as K. cbn [with_floats m_float]. unfold update. cbn [find fst]. destruct (String.eqb_spec x "eta_bar") as [->|Hne].
      * cbn [snd]. rewrite I4. reflexivity.
      * rewrite K. unfold e1. cbn [with_floats m_float]. unfold update. cbn [find fst]. destruct (String.eqb_spec x "eta_bar"); [contradiction|reflexivity].
    + intros x Hx. symmetry. apply (k_array _ _ _ Hk). apply in_or_app. left. exact Hx.
    + symmetry. apply (k_text _ _ _ Hk).
  - rewrite I4. reflexivity.
  - exists e1, e2, st. split; [reflexivity|]. split; [exact Hc|reflexivity].
Qed.
Print Assumptions results_forget_history. Print Assumptions run_deterministic. Print Assumptions inputs_recorded. Print Assumptions derivatives_consistent.
