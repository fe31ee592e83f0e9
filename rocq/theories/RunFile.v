(** What the output file of a calculation contains, in terms of the results of the functions. *)
From Coq Require Import String ZArith Arith Bool Lia List.
From Verif Require Import Base BaseFacts FloatOps MathOps Tensor Newton Diff Axis AxisFacts R1 R1Facts R2 RSing GradGradB Alloc AllocSpec AllocFacts Toml TomlSpec TomlFacts Options OptionsSpec
  NetCDF NetCDFOut NetCDFNames NetCDFSpec NetCDFFacts NetCDFRead Properties_NetCDF Run RunSpec RunFacts.
Import ListNotations.
Local Open Scope string_scope.
Local Open Scope nat_scope.

Section File.
Context {F : Type} (o : fops F) (mo : mops F).
Variable ge0 : F -> bool.
Variable newton_tol : F.
Variable mu0 : F.
Variable newton_linear_solve : (nat -> nat -> F) -> list F -> outcome (list F).
Variable linear_solve : matrix F -> list F -> outcome (list F).
Variable geev : list F -> Z * (list F * list F).
Variable tol : tolerances F.
Variable finite : F -> bool.
Notation members := (members F).
Notation calculate := (calculate o mo ge0 mu0 newton_linear_solve linear_solve geev tol finite).
Notation run := (run o mo ge0 newton_tol mu0 newton_linear_solve linear_solve geev tol finite).
Notation num := (num F (fzero o)).
Notation whole := (whole F).
Notation has := (has F).
Notation of_int := (m_of_Z mo).

(** ** Values in a file *)
Lemma find_name (l : list (variable F)) v : NoDup (map (v_name F) l) -> In v l -> find (fun w => String.eqb (v_name F w) (v_name F v)) l = Some v.
Proof.
  induction l as [|w l IH]; cbn [map find]; intros ND H; [destruct H|]. inversion ND as [|? ? Hn ND']; subst. destruct H as [<-|H]; [rewrite String.eqb_refl; reflexivity|].
  destruct (String.eqb_spec (v_name F w) (v_name F v)) as [E|_]; [|auto]. exfalso. apply Hn. rewrite E. apply in_map. exact H.
Qed.
Section Written.
Variable e : members.
Variable f : file F.
Hypothesis A : allocated F e.
Hypothesis W : qsc_write_netcdf F of_int e = Ok f.
Lemma written_exactly : contains_exactly F of_int (qsc_lens e) e [] (statements F e qsc_puts) f.
Proof. destruct (qsc_written of_int e A) as (f' & E & C & _). rewrite W in E. injection E as <-. exact C. Qed.
Lemma written_nodup : NoDup (map (v_name F) (f_vars F f)).
Proof. rewrite (contains_names _ _ _ _ _ _ _ written_exactly). apply statements_nodup, qsc_names. Qed.
Lemma find_put when name what : In (Put when name what) qsc_puts -> active F e when = true ->
  exists v, find (fun w => String.eqb (v_name F w) name) (f_vars F f) = Some v /\ v_contents F v = denotes F of_int (qsc_lens e) e what
    /\ lengths F f (v_dims F v) = shape F (qsc_lens e) e what.
Proof.
  intros H Ha. destruct (contains_var _ _ _ _ _ _ _ (name, what) written_exactly) as (v & c & H1 & H2 & H3 & H4 & H5).
  { apply (in_statements F e qsc_puts when); assumption. }
  cbn [fst snd] in *. exists v. split; [rewrite <- H2; apply find_name; [apply written_nodup|exact H1]|]. split; [congruence|exact H5].
Qed.
Lemma has_active when name what : In (Put when name what) qsc_puts -> has f name -> active F e when = true.
Proof.
  intros H (v & Hv & En). assert (Hn : In name (map (v_name F) (f_vars F f))) by (rewrite <- En; apply in_map; exact Hv).
  rewrite (contains_names _ _ _ _ _ _ _ written_exactly) in Hn. cbn [map app] in Hn. apply in_map_iff in Hn as (s & <- & Hs).
  destruct (statements_in F e qsc_puts s Hs) as (when' & Hp & Ha). assert (E : Put when (fst s) what = Put when' (fst s) (snd s)); [|injection E as -> _; exact Ha].
  pose proof qsc_names as ND. clear -ND H Hp. induction qsc_puts as [|p l IH]; [destruct H|]. cbn [map] in ND. inversion ND as [|? ? Hn ND']; subst.
  destruct H as [->|H], Hp as [Hp|Hp]; [exact Hp| | |auto]; exfalso; apply Hn.
  - exact (in_map put_name _ _ Hp).
  - rewrite Hp. exact (in_map put_name _ _ H).
Qed.
Lemma active_has when name what : In (Put when name what) qsc_puts -> active F e when = true -> has f name.
Proof. intros H Ha. destruct (find_put _ _ _ H Ha) as (v & Ef & _). exists v. apply find_some in Ef. destruct Ef as (Hi & E). split; [exact Hi|apply String.eqb_eq; exact E]. Qed.
Lemma num_float when name x : In (Put when name (SFloat x)) qsc_puts -> active F e when = true -> num f name [] = m_float F e x.
Proof. intros H Ha. destruct (find_put _ _ _ H Ha) as (v & Ef & Ec & El). unfold RunSpec.num. rewrite Ef, Ec, El. reflexivity. Qed.
Lemma whole_int when name x : In (Put when name (SInt x)) qsc_puts -> active F e when = true -> whole f name = m_int F e x.
Proof. intros H Ha. destruct (find_put _ _ _ H Ha) as (v & Ef & Ec & El). unfold RunSpec.whole. rewrite Ef, Ec. reflexivity. Qed.
Lemma whole_flag when name x : In (Put when name (SFlag x)) qsc_puts -> active F e when = true -> whole f name = (if m_flag F e x then 1 else 0)%Z.
Proof. intros H Ha. destruct (find_put _ _ _ H Ha) as (v & Ef & Ec & El). unfold RunSpec.whole. rewrite Ef, Ec. reflexivity. Qed.
Lemma num_vector when name x j : In (Put when name (SVector "nphi_dim" x)) qsc_puts -> active F e when = true -> j < Z.to_nat (m_int F e "nphi") ->
  num f name [j] = nth j (m_array F e x) (fzero o).
Proof.
  intros H Ha Hj. destruct (find_put _ _ _ H Ha) as (v & Ef & Ec & El). unfold RunSpec.num. rewrite Ef, Ec, El.
  cbn [denotes shape qsc_lens len_of String.eqb Ascii.eqb Bool.eqb option_map row_major fold_right]. rewrite Nat.mul_1_r, Nat.add_0_r.
  rewrite <- !nth_default_eq. unfold nth_default. rewrite nth_error_firstn by exact Hj. reflexivity.
Qed.
Lemma num_axis when name x j : In (Put when name (SVector "axis_nmax_plus_1_dim" x)) qsc_puts -> active F e when = true -> j < length (m_array F e "R0c") ->
  num f name [j] = nth j (m_array F e x) (fzero o).
Proof.
  intros H Ha Hj. destruct (find_put _ _ _ H Ha) as (v & Ef & Ec & El). unfold RunSpec.num. rewrite Ef, Ec, El.
  cbn [denotes shape qsc_lens len_of String.eqb Ascii.eqb Bool.eqb option_map row_major fold_right]. rewrite Nat.mul_1_r, Nat.add_0_r.
  rewrite <- !nth_default_eq. unfold nth_default. rewrite nth_error_firstn by exact Hj. reflexivity.
Qed.
Lemma nth_vec n g j : j < n -> nth j (vec n g) (fzero o) = g j.
Proof. intros H. unfold vec. rewrite nth_indep with (d' := g 0) by (rewrite map_length, seq_length; exact H). rewrite map_nth, seq_nth by exact H. reflexivity. Qed.
Lemma nth_mat n m g j k : j < n -> k < m -> nth (j + n * k) (mat n m g) (fzero o) = g j k.
Proof.
  intros Hj. unfold mat. assert (G : forall m s k, k < m -> nth (j + n * k) (flat_map (fun k => map (fun j => g j k) (seq 0 n)) (seq s m)) (fzero o) = g j (s + k)).
  { clear m k. induction m as [|m IH]; intros s k Hk; [lia|]. cbn [seq flat_map]. destruct k as [|k].
    - rewrite Nat.mul_0_r, !Nat.add_0_r. rewrite app_nth1 by (rewrite map_length, seq_length; exact Hj). apply (nth_vec n (fun j => g j s)). exact Hj.
    - rewrite app_nth2 by (rewrite map_length, seq_length; nia). rewrite map_length, seq_length. replace (j + n * S k - n) with (j + n * k) by nia.
      rewrite IH by lia. f_equal. lia. }
  intros Hk. rewrite (G m 0 k Hk). reflexivity.
Qed.
Lemma num_matrix when name x g j k : let n := Z.to_nat (m_int F e "nphi") in In (Put when name (SArray ["nphi_dim"; "nphi_dim"] x)) qsc_puts -> active F e when = true ->
  m_array F e x = mat n n g -> j < n -> k < n -> num f name [k; j] = g j k.
Proof.
  intros n H Ha E Hj Hk. destruct (find_put _ _ _ H Ha) as (v & Ef & Ec & El). unfold RunSpec.num. rewrite Ef, Ec, El.
  cbn [denotes shape qsc_lens lens_of len_of String.eqb Ascii.eqb Bool.eqb option_map row_major fold_right rev app]. fold n.
  rewrite E. rewrite firstn_all2 by (rewrite mat_length; lia). rewrite <- (nth_mat n n g j k Hj Hk). f_equal. nia.
Qed.
Lemma nth_flat len (g : nat -> list F) i : (forall k, length (g k) = len) -> i < len -> forall m s k, k < m -> nth (i + len * k) (flat_map g (seq s m)) (fzero o) = nth i (g (s + k)) (fzero o).
Proof.
  intros Hl Hi. induction m as [|m IH]; intros s k Hk; [lia|]. cbn [seq flat_map]. destruct k as [|k].
  - rewrite Nat.mul_0_r, !Nat.add_0_r. apply app_nth1. rewrite Hl. exact Hi.
  - rewrite app_nth2 by (rewrite Hl; nia). rewrite Hl. replace (i + len * S k - len) with (i + len * k) by nia. rewrite IH by lia. do 2 f_equal. lia.
Qed.
Lemma flat_length len (g : nat -> list F) : (forall k, length (g k) = len) -> forall m s, length (flat_map g (seq s m)) = m * len.
Proof. intros Hl. induction m as [|m IH]; intros s; [reflexivity|]. cbn [seq flat_map]. rewrite app_length, Hl, IH. lia. Qed.
Lemma row_length n (g : nat -> F) : length (map g (seq 0 n)) = n. Proof. rewrite map_length, seq_length. reflexivity. Qed.
Lemma ten3_nth n g j r c : j < n -> r < 3 -> c < 3 -> nth (j + n * (r + 3 * c)) (ten3 n g) (fzero o) = g j r c.
Proof.
  intros Hj Hr Hc. unfold ten3. assert (L : forall c, length (flat_map (fun r => map (fun j => g j r c) (seq 0 n)) (seq 0 3)) = 3 * n) by (intros; apply flat_length; intros; apply row_length).
  replace (j + n * (r + 3 * c)) with ((j + n * r) + (3 * n) * c) by nia. rewrite (nth_flat (3 * n)) by first [exact L|nia|lia]. cbn [Nat.add].
  rewrite (nth_flat n) by first [intros; apply row_length|lia]. cbn [Nat.add]. apply (nth_vec n (fun j => g j r c)). exact Hj.
Qed.
Lemma ten4_nth n g j r c d : j < n -> r < 3 -> c < 3 -> d < 3 -> nth (j + n * (r + 3 * (c + 3 * d))) (ten4 n g) (fzero o) = g j r c d.
Proof.
  intros Hj Hr Hc Hd. unfold ten4.
  assert (L : forall d, length (flat_map (fun c => flat_map (fun r => map (fun j => g j r c d) (seq 0 n)) (seq 0 3)) (seq 0 3)) = 3 * (3 * n)) by (intros; apply flat_length; intros; apply flat_length; intros; apply row_length).
  replace (j + n * (r + 3 * (c + 3 * d))) with ((j + n * (r + 3 * c)) + (3 * (3 * n)) * d) by nia. rewrite (nth_flat (3 * (3 * n))) by first [exact L|nia|lia]. cbn [Nat.add].
  apply (ten3_nth n (fun j r c => g j r c d)); assumption.
Qed.
Lemma num_tensor3 when name x g j r c : let n := Z.to_nat (m_int F e "nphi") in In (Put when name (SArray ["nphi_dim"; "nbt_dim"; "nbt_dim"] x)) qsc_puts -> active F e when = true ->
  m_array F e x = ten3 n g -> j < n -> r < 3 -> c < 3 -> num f name [c; r; j] = g j r c.
Proof.
  intros n H Ha E Hj Hr Hc. destruct (find_put _ _ _ H Ha) as (v & Ef & Ec & El). unfold RunSpec.num. rewrite Ef, Ec, El.
  cbn [denotes shape qsc_lens lens_of len_of String.eqb Ascii.eqb Bool.eqb option_map row_major fold_right rev app]. fold n.
  rewrite E. rewrite firstn_all2 by (rewrite ten3_length; lia). rewrite <- (ten3_nth n g j r c Hj Hr Hc). f_equal. nia.
Qed.
Lemma num_tensor4 when name x g j r c d : let n := Z.to_nat (m_int F e "nphi") in In (Put when name (SArray ["nphi_dim"; "nbt_dim"; "nbt_dim"; "nbt_dim"] x)) qsc_puts -> active F e when = true ->
  m_array F e x = ten4 n g -> j < n -> r < 3 -> c < 3 -> d < 3 -> num f name [d; c; r; j] = g j r c d.
Proof.
  intros n H Ha E Hj Hr Hc Hd. destruct (find_put _ _ _ H Ha) as (v & Ef & Ec & El). unfold RunSpec.num. rewrite Ef, Ec, El.
  cbn [denotes shape qsc_lens lens_of len_of String.eqb Ascii.eqb Bool.eqb option_map row_major fold_right rev app]. fold n.
  rewrite E. rewrite firstn_all2 by (rewrite ten4_length; lia). rewrite <- (ten4_nth n g j r c d Hj Hr Hc Hd). f_equal. nia.
Qed.
Lemma num_square when name x j k : let n := Z.to_nat (m_int F e "nphi") in In (Put when name (SArray ["nphi_dim"; "nphi_dim"] x)) qsc_puts -> active F e when = true ->
  length (m_array F e x) <= n * n -> j < n -> k < n -> num f name [k; j] = nth (j + n * k) (m_array F e x) (fzero o).
Proof.
  intros n H Ha E Hj Hk. destruct (find_put _ _ _ H Ha) as (v & Ef & Ec & El). unfold RunSpec.num. rewrite Ef, Ec, El.
  cbn [denotes shape qsc_lens lens_of len_of String.eqb Ascii.eqb Bool.eqb option_map row_major fold_right rev app]. fold n.
  rewrite firstn_all2 by lia. f_equal. nia.
Qed.
End Written.

(** ** The steps of a calculation *)
Definition first_input (e : members) (a : axis F) (h : Z) : r1_input F :=
  mkR1 a (m_int F e "nfp") h (m_int F e "sG") (m_int F e "spsi") (m_float F e "B0") (m_float F e "I2") (m_float F e "eta_bar") (m_float F e "sigma0").
Definition second_input (e : members) (a : axis F) (h : Z) (u : sigma_user F) : r2_input F :=
  mkR2 (first_input e a h) (fun j => nth j (u_sigma u) (fzero o)) (u_iota u) (m_float F e "p2") (m_float F e "B2s") (m_float F e "B2c") mu0.
Definition after_first (e : members) (d : matrix F) (s : Axis.shape F) (a : axis F) (h : Z) (u : sigma_user F) : members :=
  assign_r1 (a_nphi a) (r1_diagnostics o mo (first_input e a h) (fun j => nth j (u_sigma u) (fzero o)) (u_iota u))
    (with_floats [("iota", u_iota u)] (with_arrays [("sigma", u_sigma u)] (assign_axis o d s a h e))).
Definition after_second (i : r2_input F) (q : r2 F) (g : singularity F) (third : bool) (e : members) : members :=
  assign_singularity g (assign_grad_grad_B o mo i q (assign_mercier (mercier o mo i q)
    (if third then assign_r2p1 o i (calculate_r2p1 o mo i q) (assign_r2 o i q e) else assign_r2 o i q e))).
Inductive computed (e : members) (st : newton_status) (e2 : members) : Prop := Computed d s a h x r u
  (C_matrix : differentiation_matrix o mo (ai_nphi (axis_input_of e)) (fzero o) (fdiv o (fmul o (ftwo o) (m_pi mo)) (m_of_Z mo (ai_nfp (axis_input_of e)))) = Ok d)
  (C_shape : axis_shape o mo (axis_input_of e) (phi_grid o (d_phi_of o mo (axis_input_of e))) = Ok s)
  (C_axis : init_axis o mo ge0 (axis_input_of e) = Ok (a, h))
  (C_sigma : solve_sigma_equation o mo (first_input e a h) newton_linear_solve (m_int F e "max_newton_iterations") (m_int F e "max_linesearch_iterations")
               (m_float F e "newton_tolerance") (mkSigmaUser (m_array F e "sigma") (m_float F e "iota")) = Ok (st, x, r, u))
  (C_order : if m_flag F e "at_least_order_r2" then exists q g,
       calculate_r2 o mo (second_input e a h u) linear_solve (mkMatrix (2 * a_nphi a) (2 * a_nphi a) (2 * a_nphi a * (2 * a_nphi a)) (m_array F e "r2_matrix")) (m_array F e "r2_rhs") = Ok q /\
       calculate_r_singularity o mo geev tol finite (second_input e a h u) q = Ok g /\
       e2 = after_second (second_input e a h u) q g (m_flag F e "order_r2p1") (after_first e d s a h u)
     else e2 = after_first e d s a h u) : computed e st e2.
Ltac red_members := cbv [m_array m_float m_int m_flag after_second after_first assign_singularity assign_grad_grad_B assign_mercier assign_r2p1 assign_r2 assign_r1 assign_axis
  with_arrays with_floats with_ints update find fst snd String.eqb Ascii.eqb Bool.eqb].
Lemma calculate_computed e st e2 : calculate e = Ok (st, e2) -> computed e st e2.
Proof.
  unfold Run.calculate, run_init_axis, run_solve_sigma.
  destruct (differentiation_matrix o mo _ _ _) as [d| |] eqn:Ed; cbn [bind]; try discriminate.
  destruct (axis_shape o mo _ _) as [s| |] eqn:Es; cbn [bind]; try discriminate.
  destruct (init_axis o mo ge0 _) as [[a h]| |] eqn:Ea; cbn [bind fst snd]; try discriminate.
  replace (r1_input_of a (assign_axis o d s a h e)) with (first_input e a h) by (unfold r1_input_of, first_input; red_members; reflexivity).
  replace (m_int F (assign_axis o d s a h e) "max_newton_iterations") with (m_int F e "max_newton_iterations") by (red_members; reflexivity).
  replace (m_int F (assign_axis o d s a h e) "max_linesearch_iterations") with (m_int F e "max_linesearch_iterations") by (red_members; reflexivity).
  replace (m_float F (assign_axis o d s a h e) "newton_tolerance") with (m_float F e "newton_tolerance") by (red_members; reflexivity).
  replace (m_array F (assign_axis o d s a h e) "sigma") with (m_array F e "sigma") by (red_members; reflexivity).
  replace (m_float F (assign_axis o d s a h e) "iota") with (m_float F e "iota") by (red_members; reflexivity).
  destruct (solve_sigma_equation o mo _ _ _ _ _ _) as [[[[st' x] r] u]| |] eqn:Eq; cbn [bind fst snd]; try discriminate.
  replace (run_r1_diagnostics o mo a (with_floats [("iota", u_iota u)] (with_arrays [("sigma", u_sigma u)] (assign_axis o d s a h e)))) with (after_first e d s a h u)
    by (unfold run_r1_diagnostics, after_first, first_input, sigma_of, r1_input_of; f_equal; f_equal; red_members; reflexivity).
  replace (m_flag F (after_first e d s a h u) "at_least_order_r2") with (m_flag F e "at_least_order_r2") by (red_members; reflexivity).
  destruct (m_flag F e "at_least_order_r2") eqn:Ef.
  - unfold run_calculate_r2. replace (r2_input_of o mu0 a (after_first e d s a h u)) with (second_input e a h u) by (unfold r2_input_of, second_input, first_input, sigma_of, r1_input_of; red_members; reflexivity).
    replace (m_array F (after_first e d s a h u) "r2_matrix") with (m_array F e "r2_matrix") by (red_members; reflexivity).
    replace (m_array F (after_first e d s a h u) "r2_rhs") with (m_array F e "r2_rhs") by (red_members; reflexivity).
    destruct (calculate_r2 o mo _ _ _ _) as [q| |] eqn:E2; cbn [bind fst snd]; try discriminate.
    replace (m_flag F (assign_r2 o (second_input e a h u) q (after_first e d s a h u)) "order_r2p1") with (m_flag F e "order_r2p1") by (red_members; reflexivity).
    unfold run_r2_diagnostics.
    match goal with |- context [r2_input_of o mu0 a ?z] => replace (r2_input_of o mu0 a z) with (second_input e a h u)
      by (unfold r2_input_of, second_input, first_input, sigma_of, r1_input_of; destruct (m_flag F e "order_r2p1"); red_members; reflexivity) end.
    destruct (calculate_r_singularity o mo geev tol finite _ _) as [g| |] eqn:Eg; cbn [bind]; try discriminate.
    intros E. injection E as <- <-. eapply Computed; eauto. rewrite Ef. exists q, g. split; [exact E2|]. split; [exact Eg|]. reflexivity.
  - intros E. injection E as <- <-. eapply Computed; eauto. rewrite Ef. reflexivity.
Qed.

(** Another solver that gives the same result where it is used gives the same results. *)
Lemma calculate_other ls e st e2 : calculate e = Ok (st, e2) ->
  (forall a h x r u q, m_flag F e "at_least_order_r2" = true -> init_axis o mo ge0 (axis_input_of e) = Ok (a, h) ->
     solve_sigma_equation o mo (first_input e a h) newton_linear_solve (m_int F e "max_newton_iterations") (m_int F e "max_linesearch_iterations")
       (m_float F e "newton_tolerance") (mkSigmaUser (m_array F e "sigma") (m_float F e "iota")) = Ok (st, x, r, u) ->
     let m := mkMatrix (2 * a_nphi a) (2 * a_nphi a) (2 * a_nphi a * (2 * a_nphi a)) (m_array F e "r2_matrix") in
     calculate_r2 o mo (second_input e a h u) linear_solve m (m_array F e "r2_rhs") = Ok q -> calculate_r2 o mo (second_input e a h u) ls m (m_array F e "r2_rhs") = Ok q) ->
  Run.calculate o mo ge0 mu0 newton_linear_solve ls geev tol finite e = Ok (st, e2).
Proof.
  intros H Hs. revert H.
  unfold Run.calculate, run_init_axis, run_solve_sigma.
  destruct (differentiation_matrix o mo _ _ _) as [d| |] eqn:Ed; cbn [bind]; try discriminate.
  destruct (axis_shape o mo _ _) as [s| |] eqn:Es; cbn [bind]; try discriminate.
  destruct (init_axis o mo ge0 _) as [[a h]| |] eqn:Ea; cbn [bind fst snd]; try discriminate.
  replace (r1_input_of a (assign_axis o d s a h e)) with (first_input e a h) by (unfold r1_input_of, first_input; red_members; reflexivity).
  replace (m_int F (assign_axis o d s a h e) "max_newton_iterations") with (m_int F e "max_newton_iterations") by (red_members; reflexivity).
  replace (m_int F (assign_axis o d s a h e) "max_linesearch_iterations") with (m_int F e "max_linesearch_iterations") by (red_members; reflexivity).
  replace (m_float F (assign_axis o d s a h e) "newton_tolerance") with (m_float F e "newton_tolerance") by (red_members; reflexivity).
  replace (m_array F (assign_axis o d s a h e) "sigma") with (m_array F e "sigma") by (red_members; reflexivity).
  replace (m_float F (assign_axis o d s a h e) "iota") with (m_float F e "iota") by (red_members; reflexivity).
  destruct (solve_sigma_equation o mo _ _ _ _ _ _) as [[[[st' x] r] u]| |] eqn:Eq; cbn [bind fst snd]; try discriminate.
  replace (run_r1_diagnostics o mo a (with_floats [("iota", u_iota u)] (with_arrays [("sigma", u_sigma u)] (assign_axis o d s a h e)))) with (after_first e d s a h u)
    by (unfold run_r1_diagnostics, after_first, first_input, sigma_of, r1_input_of; f_equal; f_equal; red_members; reflexivity).
  replace (m_flag F (after_first e d s a h u) "at_least_order_r2") with (m_flag F e "at_least_order_r2") by (red_members; reflexivity).
  destruct (m_flag F e "at_least_order_r2") eqn:Ef.
  - unfold run_calculate_r2. replace (r2_input_of o mu0 a (after_first e d s a h u)) with (second_input e a h u) by (unfold r2_input_of, second_input, first_input, sigma_of, r1_input_of; red_members; reflexivity).
    replace (m_array F (after_first e d s a h u) "r2_matrix") with (m_array F e "r2_matrix") by (red_members; reflexivity).
    replace (m_array F (after_first e d s a h u) "r2_rhs") with (m_array F e "r2_rhs") by (red_members; reflexivity).
    destruct (calculate_r2 o mo _ linear_solve _ _) as [q| |] eqn:E2; cbn [bind fst snd]; try discriminate.
    intros E. assert (st' = st) as -> by (destruct (run_r2_diagnostics o mo mu0 geev tol finite a q _); try discriminate E; cbn [bind] in E; injection E as E _; exact E).
    rewrite (Hs a h x r u q eq_refl eq_refl Eq E2). cbn [bind fst snd]. exact E.
  - intros E. exact E.
Qed.

(** ** Qsc::run *)
(** What a calculation starts from: the values [s1] of the variables of the section [t] of the input file. *)
Record started (t : table F) (s1 : store F) (e1 : members) : Prop := mkStarted {
  b_effect : section_effect of_int qsc_keys t (default_store o newton_tol) s1;
  b_int : forall x, In x input_ints -> x <> "nphi" -> s1 x = VInt (m_int F e1 x);
  b_nphi : exists z, s1 "nphi" = VInt z /\ m_int F e1 "nphi" = odd_nphi z;
  b_float : forall x, In x input_floats -> s1 x = VFloat (m_float F e1 x);
  b_axis : forall x, In x axis_members -> exists v, s1 x = VVec v /\ m_array F e1 x = TomlSpec.padded (fzero o) (length (m_array F e1 "R0c")) v;
  b_order : s1 "order_r_option" = VStr (m_text F e1 "order_r_option");
  b_ready : ready F (fzero o) e1;
  b_length : forall c, s1 "R0c" = VVec (R0c c) -> s1 "R0s" = VVec (R0s c) -> s1 "Z0c" = VVec (Z0c c) -> s1 "Z0s" = VVec (Z0s c) -> length (m_array F e1 "R0c") = max_len c }.
Lemma run_steps e t st f : small_grid of_int t -> run e t = Ok (st, f) ->
  exists s1 e1 e2, (started t s1 e1 /\ computed e1 st e2 /\ keeps (grid e1) e1 e2 /\ allocated F e2 /\ qsc_write_netcdf F of_int e2 = Ok f) /\
    calculate e1 = Ok (st, e2) /\
    forall ls, Run.calculate o mo ge0 mu0 newton_linear_solve ls geev tol finite e1 = Ok (st, e2) -> Run.run o mo ge0 newton_tol mu0 newton_linear_solve ls geev tol finite e t = Ok (st, f).
Proof.
  intros Hn. unfold Run.run. destruct (qsc_input _ _ _ _) as [s| |] eqn:Es; cbn [bind]; try discriminate.
  destruct (input_defines o mo ge0 newton_tol mu0 newton_linear_solve finite _ _ Es) as (D1 & D2 & (n & D3) & (order & D4)).
  destruct (qsc_input_cases (m_of_Z mo) (fzero o) t (default_store o newton_tol)) as [(_ & s1 & s' & a & He & B1 & B2 & B3 & B4 & E & A1 & A2 & A3 & A4 & Ho)|(_ & msg & E)].
  { intros x [<-|[<-|[<-|[<-|[]]]]]; eexists; reflexivity. }
  2: congruence.
  rewrite Es in E. injection E as <-.
  assert (N : forall x, In x (input_ints ++ input_floats ++ ["order_r_option"]) -> s x = s1 x).
  { intros x Hx. apply Ho. intros Hk. assert (B : apart axis_keys (input_ints ++ input_floats ++ ["order_r_option"]) = true) by (vm_compute; reflexivity).
    unfold apart in B. rewrite forallb_forall in B. specialize (B x Hx). apply inb_In in Hk. rewrite Hk in B. discriminate. }
  set (c := load s (constructed o e)).
  destruct (Run.init o c) as [e1| |] eqn:Ei; cbn [bind]; try discriminate. destruct (calculate e1) as [[st' e2]| |] eqn:Ec; cbn [bind fst snd]; try discriminate.
  destruct (qsc_write_netcdf F of_int e2) as [f'| |] eqn:Ew; cbn [bind]; try discriminate. intros Eo. injection Eo as -> ->.
  pose proof (init_initialized o _ _ Ei) as Hi. destruct (D1 "nphi" ltac:(cbn; tauto)) as (z & Ez).
  assert (Cz : m_int F c "nphi" = z) by (unfold c, load; cbn [m_int]; rewrite Ez; reflexivity).
  assert (Hz : (0 <= z < 1073741822)%Z).
  { split.
    - destruct (Z_lt_le_dec z 0) as [L|]; [exfalso|assumption]. pose proof (in_positive _ _ _ Hi) as P. rewrite (in_nphi _ _ _ Hi), Cz in P.
      destruct (odd_nphi_least z) as [[Ez' _]|[Ez' _]]; rewrite Ez' in P; lia.
    - destruct He as (He & _). specialize (He "nphi" KInt ltac:(cbn; tauto)). rewrite <- N, Ez in He by (cbn; tauto).
      destruct (lookup "nphi" t) as [v|] eqn:El; [exact (Hn _ _ El He)|]. injection He as ->. reflexivity. }
  assert (Cx : forall x v, In x axis_members -> s x = VVec v -> m_array F c x = v) by (intros x v Hx E; unfold c, load; cbn [m_array]; rewrite E; reflexivity).
  assert (Ax : forall x, In x axis_members -> m_array F e1 x = m_array F c x).
  { intros x Hin. rewrite (in_array _ _ _ Hi). replace (final_dims _ _ _ x) with (@None (list Alloc.dim)); [reflexivity|].
    cbn [In axis_members] in Hin. destruct (m_flag F e1 "at_least_order_r2"), (m_flag F e1 "order_r2p1"), (m_flag F e1 "order_r3"); destruct Hin as [<-|[<-|[<-|[<-|[]]]]]; reflexivity. }
  assert (Ln : forall x, In x axis_members -> length (m_array F c x) = n).
  { intros x Hx. destruct (D3 x Hx) as (v & Ev & Lv). rewrite (Cx x v Hx Ev). exact Lv. }
  assert (L0 : length (m_array F c "R0c") <> 0).
  { intros L. pose proof (calculate_computed _ _ _ Ec) as [d sh a' h x r u _ Cs _ _ _]. unfold axis_shape in Cs. cbn [axis_input_of ai_R0c] in Cs.
    rewrite Ax in Cs by (left; reflexivity). destruct (m_array F c "R0c"); [discriminate Cs|discriminate L]. }
  assert (R : ready F (fzero o) e1).
  { apply (init_ready o ge0 newton_tol mu0 newton_linear_solve finite c); [rewrite Cz; exact Hz|exact L0| |exact Ei]. intros x Hx. rewrite !Ln by (try exact Hx; left; reflexivity). reflexivity. }
  assert (K : keeps (grid e1) e1 e2) by (eapply calculate_keep; [apply (ready_positive o); exact R|exact Ec]).
  exists s1, e1, e2. split; [|split; [exact Ec|intros ls' E'; rewrite E'; cbn [bind fst snd]; rewrite Ew; reflexivity]].
  split; [|split; [apply calculate_computed; exact Ec|split; [exact K|split; [|exact Ew]]]].
  2: { apply (rd_alloc F (fzero o)). exact (keeps_ready o _ _ K R). }
  assert (Lm : length (m_array F e1 "R0c") = max_len a).
  { rewrite Ax by (left; reflexivity). rewrite (Cx _ _ ltac:(left; reflexivity) A1). unfold TomlSpec.padded, max_len. rewrite app_length, repeat_length. lia. }
  constructor; [exact He| | | | | |exact R|].
  - intros x Hx Hne. rewrite <- N by (apply in_or_app; left; exact Hx). destruct (D1 x Hx) as (y & Ey). rewrite Ey. f_equal.
    rewrite (in_int _ _ _ Hi x Hne). unfold c, load. cbn [m_int]. rewrite Ey. reflexivity.
  - exists z. split; [rewrite <- N by (cbn; tauto); exact Ez|]. rewrite (in_nphi _ _ _ Hi), Cz. reflexivity.
  - intros x Hx. rewrite <- N by (apply in_or_app; right; apply in_or_app; left; exact Hx). destruct (D2 x Hx) as (y & Ey). rewrite Ey. f_equal.
    rewrite (in_float _ _ _ Hi x). unfold c, load. cbn [m_float]. rewrite Ey. reflexivity.
  - rewrite Lm. intros x Hx. rewrite Ax by exact Hx. destruct Hx as [<-|[<-|[<-|[<-|[]]]]]; eexists; (split; [eassumption|]); apply Cx; (cbn; tauto) || assumption.
  - rewrite <- N by (cbn; tauto). rewrite D4. f_equal. rewrite (in_text _ _ _ Hi). unfold c, load. cbn [m_text]. rewrite D4. reflexivity.
  - intros c' G1 G2 G3 G4. rewrite Lm. rewrite B1 in G1. rewrite B2 in G2. rewrite B3 in G3. rewrite B4 in G4. unfold max_len. injection G1 as ->. injection G2 as ->. injection G3 as ->. injection G4 as ->. reflexivity.
Qed.
Lemma run_parts e t st f : small_grid of_int t -> run e t = Ok (st, f) ->
  exists s1 e1 e2, started t s1 e1 /\ computed e1 st e2 /\ keeps (grid e1) e1 e2 /\ allocated F e2 /\ qsc_write_netcdf F of_int e2 = Ok f.
Proof. intros Hn H. destruct (run_steps e t st f Hn H) as (s1 & e1 & e2 & P & _). exists s1, e1, e2. exact P. Qed.
End File.
