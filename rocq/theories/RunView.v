(** The values in the output file, in terms of the results of the functions. *)
From Coq Require Import String ZArith Arith Bool Lia List.
From Verif Require Import Base BaseFacts FloatOps MathOps Tensor Newton Diff Axis AxisFacts R1 R1Facts R2 RSing GradGradB Alloc AllocSpec AllocFacts Toml TomlSpec TomlFacts
  Options OptionsSpec NetCDF NetCDFOut NetCDFNames NetCDFSpec NetCDFFacts NetCDFRead Properties_NetCDF Run RunSpec RunFacts RunFile.
Import ListNotations.
Local Open Scope string_scope.
Local Open Scope nat_scope.

Section View.
Context {F : Type} (o : fops F) (mo : mops F).
Variable ge0 : F -> bool.
Variable newton_tol : F.
Variable mu0 : F.
Variable newton_linear_solve : (nat -> nat -> F) -> list F -> outcome (list F).
Variable linear_solve : matrix F -> list F -> outcome (list F).
Variable geev : list F -> Z * (list F * list F).
Variable tol : tolerances F.
Variable finite : F -> bool.
Notation members := (members F).
Notation run := (run o mo ge0 newton_tol mu0 newton_linear_solve linear_solve geev tol finite).
Notation num := (num F (fzero o)).
Notation whole := (whole F).
Notation has := (has F).
Notation of_int := (m_of_Z mo).

Definition first_vectors (e : members) (s : Axis.shape F) (a : axis F) (q : r1 F) (u : sigma_user F) : list (string * (nat -> F)) := [
  ("phi", a_phi a); ("R0", a_R0 a); ("Z0", a_Z0 a); ("R0p", a_R0p a); ("Z0p", a_Z0p a); ("R0pp", s_Rpp s); ("Z0pp", s_Zpp s); ("R0ppp", s_Rppp s); ("Z0ppp", s_Zppp s);
  ("d_l_d_phi", a_d_l_d_phi a); ("curvature", a_curvature a); ("torsion", a_torsion a); ("Boozer_toroidal_angle", a_Boozer a);
  ("X1c", r_X1c q); ("Y1s", r_Y1s q); ("Y1c", r_Y1c q); ("elongation", r_elongation q); ("d_X1c_d_varphi", r_d_X1c q); ("d_Y1s_d_varphi", r_d_Y1s q); ("d_Y1c_d_varphi", r_d_Y1c q);
  ("L_grad_B", r_L_grad_B q); ("L_grad_B_inverse", r_L_grad_B_inverse q)].
Definition first_numbers (e : members) (a : axis F) (q : r1 F) (u : sigma_user F) : list (string * F) := [
  ("eta_bar", m_float F e "eta_bar"); ("sigma0", m_float F e "sigma0"); ("I2", m_float F e "I2"); ("B0", m_float F e "B0"); ("newton_tolerance", m_float F e "newton_tolerance");
  ("d_phi", a_d_phi a); ("B0_over_abs_G0", a_B0_over_abs_G0 a); ("abs_G0_over_B0", a_abs_G0_over_B0 a); ("d_l_d_varphi", a_abs_G0_over_B0 a);
  ("G0", a_G0 a); ("grid_min_R0", a_grid_min_R0 a); ("axis_length", a_axis_length a); ("grid_max_curvature", a_grid_max_curvature a);
  ("rms_curvature", a_rms_curvature a); ("mean_R", a_mean_R a); ("mean_Z", a_mean_Z a); ("standard_deviation_of_R", a_standard_deviation_of_R a);
  ("standard_deviation_of_Z", a_standard_deviation_of_Z a);
  ("iota", u_iota u); ("iota_N", r_iota_N q); ("grid_max_elongation", r_grid_max_elongation q); ("mean_elongation", r_mean_elongation q); ("grid_min_L_grad_B", r_grid_min_L_grad_B q)].
Definition first_wholes (e : members) (h : Z) : list (string * Z) := [
  ("nfp", m_int F e "nfp"); ("nphi", m_int F e "nphi"); ("sG", m_int F e "sG"); ("spsi", m_int F e "spsi"); ("helicity", h);
  ("max_newton_iterations", m_int F e "max_newton_iterations"); ("max_linesearch_iterations", m_int F e "max_linesearch_iterations")].
Definition second_vectors (i : r2_input F) (q : r2 F) : list (string * (nat -> F)) :=
  let D := ddv o (j_r1 i) in [
  ("X20", s_X20 q); ("X2s", s_X2s q); ("X2c", s_X2c q); ("Y20", s_Y20 q); ("Y2s", s_Y2s q); ("Y2c", s_Y2c q); ("Z20", s_Z20 q); ("Z2s", s_Z2s q); ("Z2c", s_Z2c q);
  ("B20", s_B20 q); ("B20_anomaly", s_B20_anomaly q);
  ("d_X20_d_varphi", D (s_X20 q)); ("d_X2s_d_varphi", D (s_X2s q)); ("d_X2c_d_varphi", D (s_X2c q)); ("d_Y20_d_varphi", D (s_Y20 q)); ("d_Y2s_d_varphi", D (s_Y2s q));
  ("d_Y2c_d_varphi", D (s_Y2c q)); ("d_Z20_d_varphi", D (s_Z20 q)); ("d_Z2s_d_varphi", D (s_Z2s q)); ("d_Z2c_d_varphi", D (s_Z2c q));
  ("d2_X20_d_varphi2", D (D (s_X20 q))); ("d2_X2s_d_varphi2", D (D (s_X2s q))); ("d2_X2c_d_varphi2", D (D (s_X2c q)));
  ("d2_Y20_d_varphi2", D (D (s_Y20 q))); ("d2_Y2s_d_varphi2", D (D (s_Y2s q))); ("d2_Y2c_d_varphi2", D (D (s_Y2c q)));
  ("d2_Z20_d_varphi2", D (D (s_Z20 q))); ("d2_Z2s_d_varphi2", D (D (s_Z2s q))); ("d2_Z2c_d_varphi2", D (D (s_Z2c q)));
  ("L_grad_grad_B", L_grad_grad_B o mo i q); ("L_grad_grad_B_inverse", L_grad_grad_B_inverse o mo i q)].
Definition second_numbers (i : r2_input F) (q : r2 F) (g : singularity F) : list (string * F) := [
  ("B2c", j_B2c i); ("B2s", j_B2s i); ("p2", j_p2 i); ("G2", s_G2 q); ("beta_1s", s_beta_1s q); ("B20_grid_variation", s_B20_grid_variation q); ("B20_mean", s_B20_mean q);
  ("B20_residual", s_B20_residual q); ("grid_max_XY2", s_grid_max_XY2 q); ("grid_max_Z2", s_grid_max_Z2 q); ("grid_max_d_XY2_d_varphi", s_grid_max_d_XY2 q);
  ("grid_max_d2_XY2_d_varphi2", s_grid_max_d2_XY2 q); ("grid_max_d_Z2_d_varphi", s_grid_max_d_Z2 q);
  ("d2_volume_d_psi2", w_d2_volume_d_psi2 (mercier o mo i q)); ("DWell_times_r2", w_DWell (mercier o mo i q)); ("DGeod_times_r2", w_DGeod (mercier o mo i q));
  ("DMerc_times_r2", w_DMerc (mercier o mo i q)); ("grid_min_L_grad_grad_B", grid_min_L_grad_grad_B o mo i q);
  ("r_singularity_robust", RSing.r_singularity_robust g); ("beta", beta_max g)].
Definition third_vectors (i : r2_input F) (t : r2p1 F) : list (string * (nat -> F)) :=
  let D := ddv o (j_r1 i) in [
  ("lambda_for_XY3", t_lambda t); ("X3c1", t_X3c1 t); ("Y3c1", t_Y3c1 t); ("Y3s1", t_Y3s1 t);
  ("d_X3c1_d_varphi", D (t_X3c1 t)); ("d_Y3c1_d_varphi", D (t_Y3c1 t)); ("d_Y3s1_d_varphi", D (t_Y3s1 t));
  ("d2_X3c1_d_varphi2", D (D (t_X3c1 t))); ("d2_Y3c1_d_varphi2", D (D (t_Y3c1 t))); ("d2_Y3s1_d_varphi2", D (D (t_Y3s1 t)))].
Definition third_numbers (t : r2p1 F) : list (string * F) := [
  ("grid_max_XY3", t_grid_max_XY3 t); ("grid_max_d_XY3_d_varphi", t_grid_max_d_XY3 t); ("grid_max_d2_XY3_d_varphi2", t_grid_max_d2_XY3 t)].
Definition show_vectors (f : file F) (n : nat) (l : list (string * (nat -> F))) : Prop := forall x g, In (x, g) l -> forall j, j < n -> num f x [j] = g j.
Definition show_numbers (f : file F) (l : list (string * F)) : Prop := forall x v, In (x, v) l -> num f x [] = v.
Definition show_wholes (f : file F) (l : list (string * Z)) : Prop := forall x v, In (x, v) l -> whole f x = v.
(** An output file and the results it was written from. *)
Inductive view (t : table F) (st : newton_status) (f : file F) : Prop := View s1 e1 sh a h x r u
  (V_started : started o mo newton_tol t s1 e1)
  (V_shape : axis_shape o mo (axis_input_of e1) (phi_grid o (d_phi_of o mo (axis_input_of e1))) = Ok sh)
  (V_axis : init_axis o mo ge0 (axis_input_of e1) = Ok (a, h))
  (V_nphi : Z.of_nat (a_nphi a) = m_int F e1 "nphi")
  (V_sigma : solve_sigma_equation o mo (first_input e1 a h) newton_linear_solve (m_int F e1 "max_newton_iterations") (m_int F e1 "max_linesearch_iterations")
               (m_float F e1 "newton_tolerance") (mkSigmaUser (m_array F e1 "sigma") (m_float F e1 "iota")) = Ok (st, x, r, u))
  (V_wholes : show_wholes f (first_wholes e1 h))
  (V_numbers : show_numbers f (first_numbers e1 a (r1_diagnostics o mo (first_input e1 a h) (fun j => nth j (u_sigma u) (fzero o)) (u_iota u)) u))
  (V_vectors : show_vectors f (a_nphi a) (first_vectors e1 sh a (r1_diagnostics o mo (first_input e1 a h) (fun j => nth j (u_sigma u) (fzero o)) (u_iota u)) u))
  (V_sigmas : forall j, j < a_nphi a -> num f "sigma" [j] = nth j (u_sigma u) (fzero o))
  (V_coefficients : forall y k, In y axis_members -> k < length (m_array F e1 "R0c") -> num f y [k] = nth k (m_array F e1 y) (fzero o))
  (V_matrix : forall j k, j < a_nphi a -> k < a_nphi a -> num f "d_d_varphi" [k; j] = a_d_d_varphi a j k)
  (V_flags : whole f "at_least_order_r2" = (if m_flag F e1 "at_least_order_r2" then 1 else 0)%Z /\ whole f "order_r2.1" = (if m_flag F e1 "order_r2p1" then 1 else 0)%Z /\
     whole f "order_r3" = (if m_flag F e1 "order_r3" then 1 else 0)%Z)
  (V_second : m_flag F e1 "at_least_order_r2" = true -> exists q g,
       calculate_r2 o mo (second_input o mu0 e1 a h u) linear_solve (mkMatrix (2 * a_nphi a) (2 * a_nphi a) (2 * a_nphi a * (2 * a_nphi a)) (m_array F e1 "r2_matrix")) (m_array F e1 "r2_rhs") = Ok q /\
       calculate_r_singularity o mo geev tol finite (second_input o mu0 e1 a h u) q = Ok g /\
       show_numbers f (second_numbers (second_input o mu0 e1 a h u) q g) /\ show_vectors f (a_nphi a) (second_vectors (second_input o mu0 e1 a h u) q) /\
       (forall j, j < a_nphi a -> num f "r_hat_singularity_robust" [j] = nth j (RSing.r_hat_singularity_robust g) (fzero o)) /\
       (m_flag F e1 "order_r2p1" = true -> let t := calculate_r2p1 o mo (second_input o mu0 e1 a h u) q in
         show_numbers f (third_numbers t) /\ show_vectors f (a_nphi a) (third_vectors (second_input o mu0 e1 a h u) t)))
  (V_names : forall when name what, In (Put when name what) qsc_puts -> (has f name <-> forallb (fun c => Bool.eqb (m_flag F e1 (fst c)) (snd c)) when = true))
  (V_length : forall j, j < a_nphi a -> num f "d2_l_d_phi2" [j] = fdiv o (fadd o (fadd o (fmul o (s_R sh j) (s_Rp sh j)) (fmul o (s_Rp sh j) (s_Rpp sh j))) (fmul o (s_Zp sh j) (s_Zpp sh j))) (a_d_l_d_phi a j))
  (V_d_phi : exists d, differentiation_matrix o mo (a_nphi a) (fzero o) (fdiv o (fmul o (ftwo o) (m_pi mo)) (m_of_Z mo (m_int F e1 "nfp"))) = Ok d /\
     forall j k, j < a_nphi a -> k < a_nphi a -> num f "d_d_phi" [k; j] = DiffFacts.entry o d j k)
  (V_grad_B : forall j p c, j < a_nphi a -> p < 3 -> c < 3 -> num f "grad_B_tensor" [c; p; j] =
     r_grad_B (r1_diagnostics o mo (first_input e1 a h) (fun j => nth j (u_sigma u) (fzero o)) (u_iota u)) j p c)
  (V_grad_grad_B : m_flag F e1 "at_least_order_r2" = true -> forall q,
     calculate_r2 o mo (second_input o mu0 e1 a h u) linear_solve (mkMatrix (2 * a_nphi a) (2 * a_nphi a) (2 * a_nphi a * (2 * a_nphi a)) (m_array F e1 "r2_matrix")) (m_array F e1 "r2_rhs") = Ok q ->
     forall j p c l, j < a_nphi a -> p < 3 -> c < 3 -> l < 3 -> num f "grad_grad_B_tensor" [l; c; p; j] = grad_grad_B_tensor o mo (second_input o mu0 e1 a h u) q j p c l)
  (V_zero : m_flag F e1 "order_r3" = true -> forall y j, In y never_set -> j < a_nphi a -> num f y [j] = fzero o) : view t st f.

Ltac red_members := cbv [m_array m_float m_int m_flag after_second after_first assign_singularity assign_grad_grad_B assign_mercier assign_r2p1 assign_r2 assign_r1 assign_axis
  with_arrays with_floats with_ints update find fst snd String.eqb Ascii.eqb Bool.eqb].
Ltac decide_in := apply inb_In; vm_compute; reflexivity.
Ltac put := apply in_puts; vm_compute; reflexivity.
Lemma view_run e t st f : small_grid of_int t -> run e t = Ok (st, f) -> view t st f.
Proof.
  intros Hn H. destruct (run_parts o mo ge0 newton_tol mu0 newton_linear_solve linear_solve geev tol finite e t st f Hn H) as (s1 & e1 & e2 & St & C & K & A & W).
  destruct C as [d sh a h x r u Cd Cs Ca Cu Co].
  pose proof (axis_nphi o mo ge0 _ _ _ Ca) as En. cbn [axis_input_of ai_nphi] in En.
  assert (Np : (0 < m_int F e1 "nphi")%Z) by (apply (ready_positive o); exact (b_ready _ _ _ _ _ _ St)).
  assert (En2 : Z.to_nat (m_int F e2 "nphi") = a_nphi a) by (rewrite En; f_equal; apply (k_int _ _ _ K); cbn; tauto).
  pose (q1 := r1_diagnostics o mo (first_input e1 a h) (fun j => nth j (u_sigma u) (fzero o)) (u_iota u)).
  assert (F1 : (forall y, In y (map fst (first_numbers e1 a q1 u)) -> m_float F e2 y = m_float F (after_first o mo e1 d sh a h u) y) /\
    (forall y, In y ("sigma" :: "d_d_varphi" :: "d_d_phi" :: "d2_l_d_phi2" :: "grad_B_tensor" :: axis_members ++ map fst (first_vectors e1 sh a q1 u)) -> m_array F e2 y = m_array F (after_first o mo e1 d sh a h u) y) /\
    (forall y, m_int F e2 y = m_int F (after_first o mo e1 d sh a h u) y) /\ (forall y, m_flag F e2 y = m_flag F e1 y)).
  { destruct (m_flag F e1 "at_least_order_r2").
    - destruct Co as (q & g & _ & _ & ->). unfold after_second. destruct (m_flag F e1 "order_r2p1");
        (split; [|split; [|split; [|intros; red_members; reflexivity]]]; [intros y Hy; cbn [map fst first_numbers In] in Hy; repeat (destruct Hy as [<-|Hy]; [red_members; reflexivity|]); destruct Hy| |intros; red_members; reflexivity]);
        (intros y Hy; cbn [map fst first_vectors In axis_members app] in Hy; repeat (destruct Hy as [<-|Hy]; [red_members; reflexivity|]); destruct Hy).
    - subst e2. split; [|split; [|split]]; intros; try reflexivity; red_members; reflexivity. }
  destruct F1 as (Ff & Fa & Fi & Fg).
  assert (Hact : forall w, active F e2 w = forallb (fun c => Bool.eqb (m_flag F e1 (fst c)) (snd c)) w).
  { intros w. unfold active. induction w as [|c w IH]; [reflexivity|]. cbn [forallb]. rewrite IH, Fg. reflexivity. }
  apply (View t st f s1 e1 sh a h x r u); auto.
  - rewrite En. lia.
  - intros y v Hy. cbn [In first_wholes] in Hy.
    repeat (destruct Hy as [Hy|Hy]; [injection Hy as <- <-; match goal with |- RunSpec.whole F f ?n = _ => rewrite (whole_int mo e2 f A W [] n n) by first [put|reflexivity] end; rewrite Fi; red_members; reflexivity|]). destruct Hy.
  - intros y v Hy. cbn [In first_numbers] in Hy.
    repeat (destruct Hy as [Hy|Hy]; [injection Hy as <- <-; match goal with |- RunSpec.num F _ f ?n _ = _ => rewrite (num_float o mo e2 f A W [] n n) by first [put|reflexivity] end; rewrite Ff by decide_in; red_members; reflexivity|]). destruct Hy.
  - intros y v Hy j Hj. cbn [In first_vectors] in Hy.
    repeat (destruct Hy as [Hy|Hy]; [injection Hy as <- <-; match goal with |- RunSpec.num F _ f ?n _ = _ => rewrite (num_vector o mo e2 f A W [] n n) by first [put|reflexivity|rewrite En2; exact Hj] end; rewrite Fa by decide_in; red_members; apply (nth_vec o); exact Hj|]). destruct Hy.
  - intros j Hj. match goal with |- RunSpec.num F _ f ?n _ = _ => rewrite (num_vector o mo e2 f A W [] n n) by first [put|reflexivity|rewrite En2; exact Hj] end. rewrite Fa by decide_in. red_members. reflexivity.
  - intros y k Hy Hk. assert (Hk2 : k < length (m_array F e2 "R0c")) by (rewrite Fa by decide_in; exact Hk).
    cbn [In axis_members] in Hy. repeat (destruct Hy as [<-|Hy]; [match goal with |- RunSpec.num F _ f ?n _ = _ => rewrite (num_axis o mo e2 f A W [] n n) by first [put|reflexivity|exact Hk2] end; rewrite Fa by decide_in; red_members; reflexivity|]). destruct Hy.
  - intros j k Hj Hk. apply (num_matrix o mo e2 f A W [] "d_d_varphi" "d_d_varphi" (a_d_d_varphi a) j k); [put|reflexivity| |rewrite En2; exact Hj|rewrite En2; exact Hk].
    rewrite En2, Fa by decide_in. red_members. reflexivity.
  - rewrite <- !Fg. split; [|split]; [apply (whole_flag mo e2 f A W [] "at_least_order_r2")|apply (whole_flag mo e2 f A W [] "order_r2.1")|apply (whole_flag mo e2 f A W [] "order_r3")]; first [put|reflexivity].
  - intros R2. rewrite R2 in Co. destruct Co as (q & g & E2 & Eg & Ee). exists q, g. split; [exact E2|]. split; [exact Eg|].
    set (i := second_input o mu0 e1 a h u) in *. assert (Ni : a_nphi (i_axis (j_r1 i)) = a_nphi a) by reflexivity.
    assert (Ac : active F e2 [("at_least_order_r2", true)] = true) by (rewrite Hact; cbn [forallb fst snd]; rewrite R2; reflexivity).
    split; [|split; [|split]].
    + intros y v Hy. cbn [In second_numbers] in Hy.
      repeat (destruct Hy as [Hy|Hy]; [injection Hy as <- <-; match goal with |- RunSpec.num F _ f ?n _ = _ => rewrite (num_float o mo e2 f A W [("at_least_order_r2", true)] n n) by first [put|exact Ac] end; rewrite Ee; unfold after_second; destruct (m_flag F e1 "order_r2p1"); red_members; reflexivity|]). destruct Hy.
    + intros y v Hy j Hj. cbn [In second_vectors] in Hy.
      repeat (destruct Hy as [Hy|Hy]; [injection Hy as <- <-; match goal with |- RunSpec.num F _ f ?n _ = _ => rewrite (num_vector o mo e2 f A W [("at_least_order_r2", true)] n n) by first [put|exact Ac|rewrite En2; exact Hj] end; rewrite Ee; unfold after_second;
        destruct (m_flag F e1 "order_r2p1"); red_members; apply (nth_vec o); exact Hj|]). destruct Hy.
    + intros j Hj. match goal with |- RunSpec.num F _ f ?n _ = _ => rewrite (num_vector o mo e2 f A W [("at_least_order_r2", true)] n n) by first [put|exact Ac|rewrite En2; exact Hj] end. rewrite Ee. red_members. reflexivity.
    + intros P1. cbv zeta. rewrite P1 in Ee. assert (Ac1 : active F e2 [("order_r2p1", true)] = true) by (rewrite Hact; cbn [forallb fst snd]; rewrite P1; reflexivity).
      assert (Ac3 : active F e2 [("order_r3", true)] = true).
      { rewrite Hact. cbn [forallb fst snd]. destruct (rd_order _ _ _ (b_ready _ _ _ _ _ _ St)) as [T|[T|[T|[]]]]; injection T as _ T1 T2 T3; rewrite <- ?T3; congruence || reflexivity. }
      split.
      * intros y v Hy. cbn [In third_numbers] in Hy.
        repeat (destruct Hy as [Hy|Hy]; [injection Hy as <- <-; match goal with |- RunSpec.num F _ f ?n _ = _ => rewrite (num_float o mo e2 f A W [("order_r2p1", true)] n n) by first [put|exact Ac1] end; rewrite Ee; red_members; reflexivity|]). destruct Hy.
      * intros y v Hy j Hj. cbn [In third_vectors] in Hy.
        destruct Hy as [Hy|Hy]; [injection Hy as <- <-; match goal with |- RunSpec.num F _ f ?n _ = _ => rewrite (num_vector o mo e2 f A W [("order_r2p1", true)] n n) by first [put|exact Ac1|rewrite En2; exact Hj] end; rewrite Ee; red_members; apply (nth_vec o); exact Hj|].
        repeat (destruct Hy as [Hy|Hy]; [injection Hy as <- <-; match goal with |- RunSpec.num F _ f ?n _ = _ => rewrite (num_vector o mo e2 f A W [("order_r3", true)] n n) by first [put|exact Ac3|rewrite En2; exact Hj] end; rewrite Ee; red_members; apply (nth_vec o); exact Hj|]). destruct Hy.
  - intros w name what Hp. rewrite <- Hact. split; intros Hh; [exact (has_active mo e2 f A W w name what Hp Hh)|exact (active_has mo e2 f A W w name what Hp Hh)].
  - intros j Hj. match goal with |- RunSpec.num F _ f ?n _ = _ => rewrite (num_vector o mo e2 f A W [] n n) by first [put|reflexivity|rewrite En2; exact Hj] end. rewrite Fa by decide_in. red_members. apply (nth_vec o (a_nphi a)). exact Hj.
  - cbn [axis_input_of ai_nphi ai_nfp] in Cd. rewrite <- En in Cd. exists d. split; [exact Cd|]. intros j k Hj Hk.
    destruct (DiffFacts.matrix_ok o mo (a_nphi a) (fzero o) (fdiv o (fmul o (ftwo o) (m_pi mo)) (m_of_Z mo (m_int F e1 "nfp"))) ltac:(lia)) as (d' & Ed & (D1 & D2 & D3) & _).
    assert (d' = d) by congruence. subst d'. assert (Ea : m_array F e2 "d_d_phi" = m_data d) by (rewrite Fa by decide_in; red_members; reflexivity).
    rewrite (num_square o mo e2 f A W [] "d_d_phi" "d_d_phi" j k) by first [put|reflexivity|rewrite En2; assumption|rewrite En2, Ea, D3; lia].
    rewrite En2, Ea. unfold DiffFacts.entry. rewrite D1. reflexivity.
  - intros j p c Hj Hp Hc.
    apply (num_tensor3 o mo e2 f A W [] "grad_B_tensor" "grad_B_tensor" (r_grad_B (r1_diagnostics o mo (first_input e1 a h) (fun j => nth j (u_sigma u) (fzero o)) (u_iota u))) j p c); [put|reflexivity| |rewrite En2; exact Hj|exact Hp|exact Hc].
    rewrite En2, Fa by decide_in. red_members. reflexivity.
  - intros R2 q E2 j p c l Hj Hp Hc Hl. rewrite R2 in Co. destruct Co as (q' & g & E2' & Eg & Ee). assert (q' = q) by congruence. subst q'.
    assert (Ac : active F e2 [("at_least_order_r2", true)] = true) by (rewrite Hact; cbn [forallb fst snd]; rewrite R2; reflexivity).
    apply (num_tensor4 o mo e2 f A W [("at_least_order_r2", true)] "grad_grad_B_tensor" "grad_grad_B_tensor" (grad_grad_B_tensor o mo (second_input o mu0 e1 a h u) q) j p c l);
      [put|exact Ac| |rewrite En2; exact Hj|exact Hp|exact Hc|exact Hl].
    rewrite En2, Ee. unfold after_second. destruct (m_flag F e1 "order_r2p1"); red_members; reflexivity.
  - intros R3 y j Hy Hj. assert (Ac : active F e2 [("order_r3", true)] = true) by (rewrite Hact; cbn [forallb fst snd]; rewrite R3; reflexivity).
    assert (Ez : m_array F e2 y = repeat (fzero o) (Z.to_nat (m_int F e1 "nphi"))).
    { rewrite (k_array _ _ _ K) by (apply in_or_app; right; exact Hy). apply (rd_zero _ _ _ (b_ready _ _ _ _ _ _ St) R3 y Hy). }
    cbn [In never_set] in Hy. repeat (destruct Hy as [<-|Hy]; [match goal with |- RunSpec.num F _ f ?n _ = _ => rewrite (num_vector o mo e2 f A W [("order_r3", true)] n n) by first [put|exact Ac|rewrite En2; exact Hj] end; rewrite Ez; apply nth_repeat|]). destruct Hy.
Qed.
End View.
