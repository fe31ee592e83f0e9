(** Properties of the output file: C96 (the gradients of the field), C97 (the derivatives of the axis and the differentiation matrices, the arrays that are zero). *)
From Coq Require Import String ZArith Reals Lra Arith Bool Lia List.
From Verif Require Import Base BaseFacts FloatOps MathOps MathFacts Tensor Newton Diff Curve Axis AxisSpec AxisFacts R1 R1Spec R1Facts R2 R2Spec R2Facts RSing RSingSpec GradGradB GradGradBSpec Alloc AllocSpec AllocFacts Toml TomlSpec TomlFacts
  Options OptionsSpec NetCDF NetCDFOut NetCDFNames NetCDFSpec NetCDFFacts NetCDFRead Properties_NetCDF Run RunSpec RunFacts RunFile RunView RunShown.
From Verif Require Import HelicityFacts ScanFacts Properties_Diff Properties_Axis Properties_R1 Properties_R2 Order Properties_Field Properties_RSing Properties_Third Properties_GradGradB Properties_Run RunCase Properties_RunFile Properties_RunField.
Import ListNotations.
Local Open Scope string_scope.
Local Open Scope R_scope.

Lemma square_derivative g x l : derivable_pt_lim g x l -> derivable_pt_lim (fun y => g y ^ 2) x (2 * g x * l).
Proof.
  intros H. replace (2 * g x * l) with (l * g x + g x * l) by ring. apply (dlim_ext (fun y => g y * g y)); [intros; ring|]. apply derivable_pt_lim_mult; exact H.
Qed.
Lemma nth_map_seq {A} (g : nat -> A) n k d : (k < n)%nat -> nth k (map g (seq 0 n)) d = g k.
Proof. intros H. rewrite nth_indep with (d' := g 0%nat) by (rewrite map_length, seq_length; exact H). rewrite map_nth, seq_nth by exact H. reflexivity. Qed.
Section File.
Variables (newton_tol mu0 : R) (newton_linear_solve : (nat -> nat -> R) -> list R -> outcome (list R))
  (linear_solve : matrix R -> list R -> outcome (list R)) (geev : list R -> Z * (list R * list R)) (tol : tolerances R) (finite : R -> bool).
Notation run := (Run.run R_ops R_math Rge0 newton_tol mu0 newton_linear_solve linear_solve geev tol finite).
Notation view_run := (view_run R_ops R_math Rge0 newton_tol mu0 newton_linear_solve linear_solve geev tol finite).

(** C96, first order.  The gradient of the field in the output file (indices 0, 1, 2: normal, binormal, tangent).  (t,n) and (n,t) are sG B0 curvature and the rest of the row and
    the column of the tangent is 0.  The divergence, the trace, vanishes but for the error of the differentiation matrix of the file in the product X1c Y1s.  The component
    of the curl along the axis is the current, but for the residual of the equation for sigma (C91) and the error of the matrix in the product Y1s sigma.  L_grad_B is the
    scale length of the tensor, is at most the radius of curvature of the axis, and grid_min_L_grad_B is its minimum. *)
Theorem grad_B_in_file : forall e t st f, small_grid IZR t -> run e t = Ok (st, f) -> regular_file f ->
  let N := grid_points f in let v := at_grid f in let n := number f in let G := shown_grad_B f in
  let factor := integer f "spsi" * n "B0" / n "d_l_d_varphi" in
  (forall j, (j < N)%nat ->
    G j 0%nat 2%nat = integer f "sG" * n "B0" * v "curvature" j /\ G j 2%nat 0%nat = G j 0%nat 2%nat /\ G j 1%nat 2%nat = 0 /\ G j 2%nat 1%nat = 0 /\ G j 2%nat 2%nat = 0 /\
    G j 0%nat 0%nat + G j 1%nat 1%nat + G j 2%nat 2%nat = - factor * product_error f (v "X1c") (v "Y1s") j /\
    G j 0%nat 1%nat - G j 1%nat 0%nat = 2 * integer f "sG" * integer f "spsi" * n "I2" + factor * v "Y1s" j * (v "Y1s" j * sigma_residual f j + product_error f (v "Y1s") (v "sigma") j) /\
    v "L_grad_B" j = n "B0" * sqrt (2 / rsum 3 (fun i => rsum 3 (fun k => G j i k ^ 2))) /\ v "L_grad_B_inverse" j = 1 / v "L_grad_B" j /\
    (0 < v "curvature" j -> v "L_grad_B" j <= 1 / v "curvature" j) /\ n "grid_min_L_grad_B" <= v "L_grad_B" j) /\
  exists j, (j < N)%nat /\ n "grid_min_L_grad_B" = v "L_grad_B" j.
Proof.
  intros e t st f Hn H [Hnfp HsG Hsp HB He Hdl Hk] N v n G factor. destruct (view_run _ _ _ _ Hn H) as [s1 e1 sh a h x r u St Vs Va Vn Vu Vw Vf Vv Vsg Vc Vm Vo V2 Vk Vl Vd Vt3 Vt4 Vz].
  set (q := r1_diagnostics R_ops R_math (first_input e1 a h) (fun j => nth j (u_sigma u) (fzero R_ops)) (u_iota u)) in *.
  assert (Ew : forall y w, In (y, w) (first_wholes e1 h) -> whole R f y = w) by exact Vw.
  assert (Ef : forall y w, In (y, w) (first_numbers e1 a q u) -> number f y = w) by exact Vf.
  assert (HN : (0 < m_int R e1 "nphi")%Z) by (apply (ready_positive R_ops), (b_ready _ _ _ _ _ _ St)).
  assert (En : N = a_nphi a). { unfold N, grid_points. rewrite (Ew "nphi" (m_int R e1 "nphi")) by (unfold first_wholes; in_list). lia. }
  assert (Egp : grid_points f = N) by reflexivity. rewrite Egp in Hdl, Hk. clearbody N.
  assert (EN : ai_nphi (axis_input_of e1) = N) by (cbn [axis_input_of ai_nphi]; lia).
  assert (Ev : forall y g, In (y, g) (first_vectors e1 sh a q u) -> forall j, (j < N)%nat -> v y j = g j) by (intros y g Hi j Hj; apply Vv; [exact Hi|lia]).
  assert (Edl : forall j, (j < N)%nat -> v "d_l_d_phi" j = a_d_l_d_phi a j) by (apply Ev; unfold first_vectors; in_list).
  assert (Ek : forall j, (j < N)%nat -> v "curvature" j = a_curvature a j) by (apply Ev; unfold first_vectors; in_list).
  assert (EX : forall j, (j < N)%nat -> v "X1c" j = r_X1c q j) by (apply Ev; unfold first_vectors; in_list).
  assert (EY : forall j, (j < N)%nat -> v "Y1s" j = r_Y1s q j) by (apply Ev; unfold first_vectors; in_list).
  assert (EL : forall j, (j < N)%nat -> v "L_grad_B" j = r_L_grad_B q j) by (apply Ev; unfold first_vectors; in_list).
  assert (ELi : forall j, (j < N)%nat -> v "L_grad_B_inverse" j = r_L_grad_B_inverse q j) by (apply Ev; unfold first_vectors; in_list).
  assert (Esg : forall j, (j < N)%nat -> v "sigma" j = nth j (u_sigma u) 0) by (intros j Hj; apply Vsg; lia).
  assert (Enfp : whole R f "nfp" = m_int R e1 "nfp") by (apply Ew; unfold first_wholes; in_list).
  assert (EsG : whole R f "sG" = m_int R e1 "sG") by (apply Ew; unfold first_wholes; in_list).
  assert (Esp : whole R f "spsi" = m_int R e1 "spsi") by (apply Ew; unfold first_wholes; in_list).
  assert (EB : n "B0" = m_float R e1 "B0") by (apply Ef; unfold first_numbers; in_list).
  assert (Eta : n "eta_bar" = m_float R e1 "eta_bar") by (apply Ef; unfold first_numbers; in_list).
  assert (EI : n "I2" = m_float R e1 "I2") by (apply Ef; unfold first_numbers; in_list).
  rewrite Enfp in Hnfp. assert (Hok : axis_ok (axis_input_of e1)) by (eapply axis_ok_run; eassumption).
  fold (v "d_l_d_phi") in Hdl. fold (v "curvature") in Hk.
  assert (EG : forall j i k, (j < N)%nat -> (i < 3)%nat -> (k < 3)%nat -> G j i k = r_grad_B q j i k) by (intros; apply Vt3; [lia|assumption|assumption]).
  assert (Ed : forall g j, (j < N)%nat -> derivative_of f g j = rsum (a_nphi a) (fun k => a_d_d_varphi a j k * g k)).
  { intros g j Hj. unfold derivative_of. rewrite Egp, <- En. apply rsum_ext. intros k Hk'. rewrite Vm by lia. reflexivity. }
  assert (Eext : forall g g' j, (forall k, (k < N)%nat -> g k = g' k) -> rsum (a_nphi a) (fun k => a_d_d_varphi a j k * g k) = rsum (a_nphi a) (fun k => a_d_d_varphi a j k * g' k)).
  { intros g g' j Hg. apply rsum_ext. intros k Hk'. rewrite Hg by lia. reflexivity. }
  assert (Ep : forall g g' h h' j, (j < N)%nat -> (forall k, (k < N)%nat -> g k = g' k) -> (forall k, (k < N)%nat -> h k = h' k) -> product_error f g h j = product_rule_defect a g' h' j).
  { intros g g' h0 h' j Hj Hg Hh. unfold product_error, product_rule_defect. rewrite !Ed by exact Hj.
    rewrite (Eext (fun k => g k * h0 k) (fun k => g' k * h' k) j) by (intros k Hk'; rewrite Hg, Hh by exact Hk'; reflexivity).
    rewrite (Eext g g' j Hg), (Eext h0 h' j Hh), (Hg j Hj), (Hh j Hj). reflexivity. }
  assert (Er : forall j, (j < N)%nat -> sigma_residual f j = sigma_equation (first_input e1 a h) (fun j => nth j (u_sigma u) 0) (u_iota u) j).
  { intros j Hj. unfold sigma_residual, sigma_equation. cbn [first_input i_axis i_helicity i_nfp i_eta_bar i_I2 i_B0 i_spsi].
    fold (v "curvature" j) (v "sigma" j) (v "torsion" j) (n "eta_bar") (n "I2") (n "B0"). rewrite Ek, Esg, (Ev "torsion" (a_torsion a)) by first [unfold first_vectors; in_list|exact Hj].
    rewrite Eta, EI, EB, (Ef "G0" (a_G0 a)) by (unfold first_numbers; in_list).
    assert (EiN : number f "iota_N" = u_iota u + IZR h * IZR (m_int R e1 "nfp")).
    { rewrite (Ef "iota_N" (r_iota_N q)) by (unfold first_numbers; in_list). rewrite <- mult_IZR. reflexivity. }
    rewrite EiN. unfold integer. rewrite Esp.
    change (d_d_varphi f "sigma" j) with (derivative_of f (v "sigma") j). rewrite Ed by exact Hj. rewrite (Eext (v "sigma") (fun k => nth k (u_sigma u) 0) j Esg). reflexivity. }
  assert (El : n "d_l_d_varphi" = a_abs_G0_over_B0 a) by (apply Ef; unfold first_numbers; in_list).
  assert (E0 : first_input e1 a h = r1_config (axis_input_of e1) a h (m_float R e1 "I2") (m_float R e1 "eta_bar") (m_float R e1 "sigma0")) by reflexivity.
  assert (Em : n "grid_min_L_grad_B" = r_grid_min_L_grad_B q) by (apply Ef; unfold first_numbers; in_list).
  assert (EM : r_grid_min_L_grad_B q = fmin R_ops (a_nphi a - 1) (r_L_grad_B q)) by reflexivity.
  split.
  - intros j Hj.
    pose proof (grad_B_structure (axis_input_of e1) a h (m_float R e1 "I2") (m_float R e1 "eta_bar") (m_float R e1 "sigma0") (fun j => nth j (u_sigma u) 0) (u_iota u) Hok Va) as S.
    cbv zeta in S. rewrite EN in S. rewrite <- E0 in S. change (r1_diagnostics R_ops R_math (first_input e1 a h) (fun j => nth j (u_sigma u) 0) (u_iota u)) with q in S.
    cbn [axis_input_of ai_sG ai_spsi ai_B0] in S. rewrite <- EsG, <- Esp, <- EB, <- Eta, <- EI in S.
    specialize (S HsG Hsp HB He ltac:(intros k Hk'; rewrite <- Edl by exact Hk'; apply Hdl; exact Hk') ltac:(intros k Hk'; rewrite <- Ek by exact Hk'; apply Hk; exact Hk') j Hj).
    destruct S as (S1 & S2 & S3 & S4 & S5 & S6 & S7 & S8 & S9).
    rewrite !EG by first [exact Hj|lia]. rewrite (Ep (v "X1c") (r_X1c q) (v "Y1s") (r_Y1s q) j Hj EX EY), (Ep (v "Y1s") (r_Y1s q) (v "sigma") (fun j => nth j (u_sigma u) 0) j Hj EY Esg), Er by exact Hj.
    rewrite Ek, EY, EL, ELi by exact Hj. unfold factor. rewrite El.
    split; [exact S1|]. split; [exact S2|]. split; [exact S3|]. split; [exact S4|]. split; [exact S5|]. split; [exact S6|]. split; [exact S7|].
    split. { rewrite S8. do 3 f_equal. apply rsum_ext. intros i Hi. apply rsum_ext. intros k Hk'. rewrite EG by assumption. reflexivity. }
    split; [exact S9|]. split.
    + intros Hp. apply (L_grad_B_le_radius_of_curvature (first_input e1 a h) (fun j => nth j (u_sigma u) 0) (u_iota u) j); [cbn [first_input i_sG]; rewrite <- EsG; exact HsG|exact Hp].
    + rewrite Em.
      rewrite EM. apply fmin_le. lia.
  - rewrite Em. rewrite EM.
    destruct (fmin_in (a_nphi a - 1) (r_L_grad_B q)) as (j & Hj & E). exists j. split; [lia|]. rewrite EL by lia. exact E.
Qed.

(** C96, second order.  The field at the point with coordinates r and theta, (along the field line) B^2 / (G + iota I), equals up to order r^3 the Taylor polynomial of degree 2 whose
    value, first and second derivatives on the axis are sG B0 tangent, grad_B_tensor and grad_grad_B_tensor of the file.  The second derivatives are symmetric in the two
    directions of differentiation: in normal and binormal always; if one of them is the tangent, where the differentiation matrix obeys the product rule for the first-order
    quantities, and then they are the derivative of grad_B_tensor along the axis.  L_grad_grad_B is the scale length of the tensor. *)
Theorem gradients_in_file : forall e t st f, small_grid IZR t -> run e t = Ok (st, f) -> whole R f "at_least_order_r2" = 1%Z -> regular_file f ->
  let N := grid_points f in let v := at_grid f in let n := number f in let G := shown_grad_B f in let T := shown_grad_grad_B f in
  forall j, (j < N)%nat ->
  (forall k theta, (k < 3)%nat -> order 3 (fun r => shown_B f j r theta ^ 2 * comp (shown_along f j r theta) k
     - shown_G_iota_I f r * taylor (V 0 0 (integer f "sG" * n "B0")) (G j) (T j) (shown_displacement f j r theta) k)) /\
  (forall k, (k < 3)%nat -> T j 0%nat 1%nat k = T j 1%nat 0%nat k) /\
  (Forall (fun gh => product_error f (fst gh) (snd gh) j = 0)
    (let X := v "X1c" in let Y := v "Y1s" in let C := v "Y1c" in let d := derivative_of f in [(X, Y); (d X, Y); (X, d Y); (d C, Y); (d Y, C); (X, C); (X, X); (Y, Y); (C, C)]) ->
   forall i k, (i < 3)%nat -> (k < 3)%nat ->
   T j 2%nat i k = derivative_along_axis (v "curvature" j) (v "torsion" j) (G j) (fun i k => derivative_of f (fun m => G m i k) j / n "d_l_d_varphi") i k /\ T j i 2%nat k = T j 2%nat i k) /\
  (0 < n "B0" -> 0 < norm3 (T j) /\ v "L_grad_grad_B" j = sqrt (4 * n "B0" / norm3 (T j))).
Proof.
  intros e t st f Hn H H2 Hr N v n G T j Hj.
  destruct (second_view _ _ _ _ _ _ _ _ _ _ _ Hn H H2) as [(ai & a & h & sigma & iota & X20 & Y20 & g & m & b & Hreg & EN & EN' & HN & EsG & Esp & EB & Enfp & Eh & Ei & EG & El & Ec & Ev & Sn & Sv & _ & _ & _ & _ & _ & _ & Vt3 & Vt4 & Vm)]. specialize (Hreg Hr).
  pose proof (shown_vectors mu0 f ai a h sigma iota X20 Y20 j El Ec (Ev j Hj) Sv Hj) as S. cbv zeta in S.
  pose proof (fun k => field_is_taylor_polynomial ai a h (number f "I2") (number f "eta_bar") (number f "sigma0") sigma iota (number f "p2") (number f "B2s") (number f "B2c") mu0 X20 Y20 j k Hreg) as F1.
  pose proof (grad_grad_B_along_axis ai a h (number f "I2") (number f "eta_bar") (number f "sigma0") sigma iota (number f "p2") (number f "B2s") (number f "B2c") mu0 X20 Y20 j Hreg) as F2.
  pose proof (L_grad_grad_B_meaning ai a h (number f "I2") (number f "eta_bar") (number f "sigma0") sigma iota (number f "p2") (number f "B2s") (number f "B2c") mu0 X20 Y20 Hreg) as F3.
  rewrite EN in F1, F2, F3. cbv zeta in F1, F2, F3. set (i := r2_config _ _ _ _ _ _ _ _ _ _ _ _) in *. set (q := r1_diagnostics _ _ _ _ _) in *. set (s := r2_from_solution _ _ _ _ _) in *.
  assert (EGt : forall j p c, (j < N)%nat -> (p < 3)%nat -> (c < 3)%nat -> G j p c = r_grad_B q j p c) by exact Vt3.
  assert (ETt : forall j p c l, (j < N)%nat -> (p < 3)%nat -> (c < 3)%nat -> (l < 3)%nat -> T j p c l = grad_grad_B_tensor R_ops R_math i s j p c l) by exact Vt4.
  assert (EB20 : s_B20 s j = at_grid f "B20" j) by (symmetry; apply Sv; [unfold second_vectors; in_list|exact Hj]).
  assert (EG2 : s_G2 s = number f "G2") by (symmetry; apply Sn; unfold second_numbers; in_list).
  assert (ED : forall r theta, displacement q s j r theta = shown_displacement f j r theta).
  { intros r theta. destruct (Ev j Hj) as (_ & _ & _ & _ & X1 & Y1 & Y2 & _).
    unfold displacement, shown_displacement, X_modes, Y_modes, Z_modes, shown_X, shown_Y, shown_Z. rewrite X1, Y1, Y2.
    assert (SV : forall x w, In (x, w) (second_vectors R_ops R_math i s) -> w j = at_grid f x j) by (intros x w Hi; symmetry; apply Sv; [exact Hi|exact Hj]).
    rewrite (SV "X20" (s_X20 s)), (SV "X2s" (s_X2s s)), (SV "X2c" (s_X2c s)), (SV "Y20" (s_Y20 s)), (SV "Y2s" (s_Y2s s)), (SV "Y2c" (s_Y2c s)), (SV "Z20" (s_Z20 s)), (SV "Z2s" (s_Z2s s)), (SV "Z2c" (s_Z2c s)) by (unfold second_vectors; in_list).
    reflexivity. }
  split; [|split; [|split]].
  - intros k theta Hk. destruct (F1 k Hj Hk) as (P & _). specialize (P theta). eapply order_ext; [|exact P]. intros r. cbv beta. rewrite ED, EB20, EG2, EB, EG, Ei, EsG. destruct (S r theta) as (_ & _ & _ & -> & _).
    f_equal. f_equal. unfold taylor. fold n. f_equal; [f_equal; apply rsum_ext; intros p Hp; rewrite EGt by assumption; reflexivity|].
    f_equal. apply rsum_ext. intros p Hp. apply rsum_ext. intros c Hc. rewrite ETt by assumption. reflexivity.
  - intros k Hk. destruct (F1 k Hj Hk) as (_ & P). rewrite !ETt by first [exact Hj|lia]. exact P.
  - intros HF p k Hp Hk.
    assert (Ed : forall w l, (l < N)%nat -> derivative_of f w l = grid_derivative a w l).
    { intros w l Hl. unfold derivative_of, grid_derivative. rewrite EN'. apply rsum_ext. intros k' Hk'. rewrite Vm by assumption. reflexivity. }
    assert (Eext : forall w w' l, (forall k, (k < N)%nat -> w k = w' k) -> grid_derivative a w l = grid_derivative a w' l).
    { intros w w' l Hw. unfold grid_derivative. rewrite EN'. apply rsum_ext. intros k' Hk'. rewrite Hw by assumption. reflexivity. }
    assert (Ep : forall w w' z z', (forall k, (k < N)%nat -> w k = w' k) -> (forall k, (k < N)%nat -> z k = z' k) -> product_error f w z j = product_rule_defect a w' z' j).
    { intros w w' z z' Hw Hz. unfold product_error, product_rule_defect. rewrite !Ed by exact Hj.
      rewrite (Eext (fun k => w k * z k) (fun k => w' k * z' k) j) by (intros k' Hk'; rewrite Hw, Hz by exact Hk'; reflexivity).
      rewrite (Eext w w' j Hw), (Eext z z' j Hz), (Hw j Hj), (Hz j Hj). reflexivity. }
    assert (EX : forall l, (l < N)%nat -> v "X1c" l = r_X1c q l) by (intros l Hl; symmetry; apply (Ev l Hl)).
    assert (EY : forall l, (l < N)%nat -> v "Y1s" l = r_Y1s q l) by (intros l Hl; symmetry; apply (Ev l Hl)).
    assert (EC : forall l, (l < N)%nat -> v "Y1c" l = r_Y1c q l) by (intros l Hl; symmetry; apply (Ev l Hl)).
    assert (EdX : forall l, (l < N)%nat -> derivative_of f (v "X1c") l = grid_derivative a (r_X1c q) l) by (intros l Hl; rewrite Ed by exact Hl; apply Eext; exact EX).
    assert (EdY : forall l, (l < N)%nat -> derivative_of f (v "Y1s") l = grid_derivative a (r_Y1s q) l) by (intros l Hl; rewrite Ed by exact Hl; apply Eext; exact EY).
    assert (EdC : forall l, (l < N)%nat -> derivative_of f (v "Y1c") l = grid_derivative a (r_Y1c q) l) by (intros l Hl; rewrite Ed by exact Hl; apply Eext; exact EC).
    assert (HF' : Forall (fun fg => product_rule_defect a (fst fg) (snd fg) j = 0)
      (let X := r_X1c q in let Y := r_Y1s q in let C := r_Y1c q in let d := grid_derivative a in [(X, Y); (d X, Y); (X, d Y); (d C, Y); (d Y, C); (X, C); (X, X); (Y, Y); (C, C)])).
    { cbv zeta in HF |- *. rewrite !Forall_cons_iff in HF |- *. cbn [fst snd] in HF |- *. destruct HF as (h1 & h2 & h3 & h4 & h5 & h6 & h7 & h8 & h9 & h10).
      rewrite <- (Ep _ _ _ _ EX EY), <- (Ep _ _ _ _ EdX EY), <- (Ep _ _ _ _ EX EdY), <- (Ep _ _ _ _ EdC EY), <- (Ep _ _ _ _ EdY EC), <- (Ep _ _ _ _ EX EC), <- (Ep _ _ _ _ EX EX), <- (Ep _ _ _ _ EY EY), <- (Ep _ _ _ _ EC EC).
      repeat split; auto. }
    destruct (F2 Hj HF' p k Hp Hk) as (P1 & P2). rewrite !ETt by first [exact Hj|lia]. split; [|exact P2].
    rewrite P1. destruct (Ev j Hj) as (-> & -> & _). rewrite El. fold v n. unfold derivative_along_axis. f_equal; [f_equal|].
    + f_equal. rewrite Ed by exact Hj. apply Eext. intros l Hl. symmetry. apply EGt; assumption.
    + apply rsum_ext. intros l Hl. rewrite EGt by assumption. reflexivity.
    + apply rsum_ext. intros l Hl. rewrite EGt by assumption. reflexivity.
  - intros HB. destruct (F3 ltac:(rewrite EB; exact HB)) as (P & _). destruct (P j Hj) as (P1 & P2 & _).
    assert (En3 : norm3 (T j) = norm3 (grad_grad_B_tensor R_ops R_math i s j)).
    { unfold norm3. f_equal. apply rsum_ext. intros p Hp. apply rsum_ext. intros c Hc. apply rsum_ext. intros l Hl. rewrite ETt by assumption. reflexivity. }
    rewrite En3. split; [exact P1|]. unfold v, n. rewrite <- EB, <- P2. apply Sv; [unfold second_vectors; in_list|exact Hj].
Qed.

(** C97.  The derivatives of the axis and the differentiation matrices in the output file.  For the coefficients that the input file (or the defaults) give: R0p, R0pp, R0ppp, Z0p,
    Z0pp and Z0ppp are the derivatives of R0 and Z0 with respect to phi; d_l_d_phi is the speed and d2_l_d_phi2 its derivative.  d_d_phi differentiates every trigonometric polynomial of
    degree less than N / 2 exactly, and d_d_varphi gives its derivative with respect to the Boozer angle, the derivative with respect to phi over d varphi / d phi. *)
Theorem derivatives_in_file : forall e t st f, small_grid IZR t -> run e t = Ok (st, f) -> (1 <= whole R f "nfp")%Z ->
  let N := grid_points f in let v := at_grid f in let nfp := whole R f "nfp" in
  exists s c, section_effect IZR qsc_keys t (default_store R_ops newton_tol) s /\ s "R0c" = VVec (R0c c) /\ s "R0s" = VVec (R0s c) /\ s "Z0c" = VVec (Z0c c) /\ s "Z0s" = VVec (Z0s c) /\
  let Rf x := series nfp (R0c c) (R0s c) x in let Zf x := series nfp (Z0c c) (Z0s c) x in
  (exists R1 R2 R3 Z1 Z2 Z3 : R -> R,
    (forall x, derivable_pt_lim Rf x (R1 x) /\ derivable_pt_lim R1 x (R2 x) /\ derivable_pt_lim R2 x (R3 x) /\
       derivable_pt_lim Zf x (Z1 x) /\ derivable_pt_lim Z1 x (Z2 x) /\ derivable_pt_lim Z2 x (Z3 x)) /\
    let speed x := sqrt (Rf x ^ 2 + R1 x ^ 2 + Z1 x ^ 2) in
    forall j, (j < N)%nat -> let x := v "phi" j in
    v "R0" j = Rf x /\ v "R0p" j = R1 x /\ v "R0pp" j = R2 x /\ v "R0ppp" j = R3 x /\ v "Z0" j = Zf x /\ v "Z0p" j = Z1 x /\ v "Z0pp" j = Z2 x /\ v "Z0ppp" j = Z3 x /\
    v "d_l_d_phi" j = speed x /\ (0 < v "d_l_d_phi" j -> derivable_pt_lim speed x (v "d2_l_d_phi2" j))) /\
  (forall M a b, (forall m, (m < M)%nat -> (2 * m < N)%nat) -> let g := trig (2 * PI / IZR nfp) M a b in exists g', (forall x, derivable_pt_lim g x (g' x)) /\
    forall j, (j < N)%nat ->
    rsum N (fun k => num R 0 f "d_d_phi" [k; j] * g (v "phi" k)) = g' (v "phi" j) /\
    rsum N (fun k => num R 0 f "d_d_varphi" [k; j] * g (v "phi" k)) = g' (v "phi" j) / (number f "B0_over_abs_G0" * v "d_l_d_phi" j)).
Proof.
  intros e t st f Hn H Hnfp N v nfp. destruct (view_run _ _ _ _ Hn H) as [s1 e1 sh a h x r u St Vs Va Vn Vu Vw Vf Vv Vsg Vc Vm Vo V2 Vk Vl Vd Vt3 Vt4 Vz].
  set (q := r1_diagnostics R_ops R_math (first_input e1 a h) (fun j => nth j (u_sigma u) (fzero R_ops)) (u_iota u)) in *.
  assert (Ew : forall y w, In (y, w) (first_wholes e1 h) -> whole R f y = w) by exact Vw.
  assert (Enfp : nfp = m_int R e1 "nfp") by (apply Ew; unfold first_wholes; in_list).
  change (1 <= nfp)%Z in Hnfp. rewrite Enfp in Hnfp. assert (Hok : axis_ok (axis_input_of e1)) by (eapply axis_ok_run; eassumption).
  assert (EN : N = ai_nphi (axis_input_of e1)). { unfold N, grid_points. rewrite (Ew "nphi" (m_int R e1 "nphi")) by (unfold first_wholes; in_list). reflexivity. }
  assert (EN' : a_nphi a = N) by (rewrite EN; cbn [axis_input_of ai_nphi]; lia).
  clearbody N nfp. subst nfp. rewrite EN' in *. set (w := m_int R e1 "nfp") in *.
  assert (Ev : forall y g, In (y, g) (first_vectors e1 sh a q u) -> forall j, (j < N)%nat -> v y j = g j) by exact Vv.
  assert (Ep : forall j, (j < N)%nat -> v "phi" j = grid_phi (axis_input_of e1) j).
  { intros j Hj. rewrite (Ev "phi" (a_phi a)) by first [unfold first_vectors; in_list|exact Hj].
    destruct (frenet_frame _ Hok) as (a' & h' & r1 & r2 & r3 & E' & _ & _ & _ & P). rewrite Va in E'. injection E' as <- <-. apply P. lia. }
  destruct (b_axis _ _ _ _ _ _ St "R0c" ltac:(cbn; tauto)) as (c1 & S1 & P1). destruct (b_axis _ _ _ _ _ _ St "R0s" ltac:(cbn; tauto)) as (c2 & S2 & P2).
  destruct (b_axis _ _ _ _ _ _ St "Z0c" ltac:(cbn; tauto)) as (c3 & S3 & P3). destruct (b_axis _ _ _ _ _ _ St "Z0s" ltac:(cbn; tauto)) as (c4 & S4 & P4).
  set (M := length (m_array R e1 "R0c")) in *.
  assert (LM : forall y, In y axis_members -> length (m_array R e1 y) = M) by (intros y Hy; destruct (b_ready _ _ _ _ _ _ St) as [_ (_ & _ & _ & _ & L2 & _) _]; apply L2; exact Hy).
  assert (L : forall y c, In y axis_members -> m_array R e1 y = TomlSpec.padded (fzero R_ops) M c -> (length c <= M)%nat).
  { intros y c Hy E. pose proof (LM y Hy) as El. rewrite E in El. unfold TomlSpec.padded in El. rewrite app_length, repeat_length in El. lia. }
  exists s1, (mkAxis c1 c2 c3 c4). cbn [R0c R0s Z0c Z0s]. split; [apply (b_effect _ _ _ _ _ _ St)|]. split; [exact S1|]. split; [exact S2|]. split; [exact S3|]. split; [exact S4|].
  cbv zeta. split.
  - assert (SR : forall y, series w c1 c2 y = tp (IZR w) M (cf (m_array R e1 "R0c")) (cf (m_array R e1 "R0s")) y).
    { intros y. rewrite <- (series_tp w _ _ M) by (rewrite LM; [lia|cbn; tauto]). rewrite P1, P2. symmetry. apply series_padded; [apply (L "R0c"); [cbn; tauto|exact P1]|apply (L "R0s"); [cbn; tauto|exact P2]]. }
    assert (SZ : forall y, series w c3 c4 y = tp (IZR w) M (cf (m_array R e1 "Z0c")) (cf (m_array R e1 "Z0s")) y).
    { intros y. rewrite <- (series_tp w _ _ M) by (rewrite LM; [lia|cbn; tauto]). rewrite P3, P4. symmetry. apply series_padded; [apply (L "Z0c"); [cbn; tauto|exact P3]|apply (L "Z0s"); [cbn; tauto|exact P4]]. }
    set (rc := cf (m_array R e1 "R0c")) in *. set (rs := cf (m_array R e1 "R0s")) in *. set (zc := cf (m_array R e1 "Z0c")) in *. set (zs := cf (m_array R e1 "Z0s")) in *.
    exists (tp1 (IZR w) M rc rs), (tp2 (IZR w) M rc rs), (tp3 (IZR w) M rc rs), (tp1 (IZR w) M zc zs), (tp2 (IZR w) M zc zs), (tp3 (IZR w) M zc zs). split.
    { intros y. split; [eapply dlim_ext; [|apply tp_d1]; intros z; symmetry; apply SR|]. split; [apply tp_d2|]. split; [apply tp_d3|].
      split; [eapply dlim_ext; [|apply tp_d1]; intros z; symmetry; apply SZ|]. split; [apply tp_d2|apply tp_d3]. }
    destruct (shape_values (axis_input_of e1) (phi_grid R_ops (d_phi_of R_ops R_math (axis_input_of e1))) Hok) as (s' & Es' & P). rewrite Vs in Es'. injection Es' as <-.
    destruct (init_axis_eq R_ops R_math Rge0 _ Hok) as (d & s' & _ & Es' & E). rewrite Vs in Es'. injection Es' as <-. cbv zeta in E. rewrite Va in E.
    assert (Ea : a = Axis.frenet R_ops R_math (axis_input_of e1) d (phi_grid R_ops (d_phi_of R_ops R_math (axis_input_of e1))) sh) by congruence. clear E.
    cbv zeta in P. cbn [axis_input_of ai_nfp ai_R0c ai_R0s ai_Z0c ai_Z0s] in P. fold w M rc rs zc zs in P.
    intros j Hj. destruct (P j) as (p1 & p2 & p3 & p4 & p5 & p6 & p7 & p8). clear P.
    assert (Ex : phi_grid R_ops (d_phi_of R_ops R_math (axis_input_of e1)) j = v "phi" j) by (rewrite Ep by exact Hj; apply phi_value; exact Hok).
    rewrite Ex in *. set (y := v "phi" j) in *.
    rewrite (Ev "R0" (a_R0 a)), (Ev "R0p" (a_R0p a)), (Ev "R0pp" (s_Rpp sh)), (Ev "R0ppp" (s_Rppp sh)), (Ev "Z0" (a_Z0 a)), (Ev "Z0p" (a_Z0p a)), (Ev "Z0pp" (s_Zpp sh)), (Ev "Z0ppp" (s_Zppp sh)), (Ev "d_l_d_phi" (a_d_l_d_phi a))
      by first [unfold first_vectors; in_list|exact Hj].
    assert (Edl : a_d_l_d_phi a j = sqrt (series w c1 c2 y ^ 2 + tp1 (IZR w) M rc rs y ^ 2 + tp1 (IZR w) M zc zs y ^ 2)).
    { rewrite Ea. change (sqrt (s_R sh j * s_R sh j + s_Rp sh j * s_Rp sh j + s_Zp sh j * s_Zp sh j) = sqrt (series w c1 c2 y ^ 2 + tp1 (IZR w) M rc rs y ^ 2 + tp1 (IZR w) M zc zs y ^ 2)).
      rewrite SR, p1, p3, p4. f_equal. ring. }
    rewrite SR, SZ. rewrite Ea. cbn [Axis.frenet a_R0 a_R0p a_Z0 a_Z0p]. rewrite <- Ea.
    split; [exact p1|]. split; [exact p3|]. split; [exact p5|]. split; [exact p7|]. split; [exact p2|]. split; [exact p4|]. split; [exact p6|]. split; [exact p8|].
    split; [rewrite <- SR; exact Edl|]. intros Hd. fold (v "d2_l_d_phi2").
    assert (El2 : v "d2_l_d_phi2" j = (s_R sh j * s_Rp sh j + s_Rp sh j * s_Rpp sh j + s_Zp sh j * s_Zpp sh j) / a_d_l_d_phi a j) by (apply Vl; exact Hj).
    rewrite El2, p1, p3, p4, p5, p6.
    set (g := fun z => series w c1 c2 z ^ 2 + tp1 (IZR w) M rc rs z ^ 2 + tp1 (IZR w) M zc zs z ^ 2).
    assert (Dg : derivable_pt_lim g y (2 * (tp (IZR w) M rc rs y * tp1 (IZR w) M rc rs y + tp1 (IZR w) M rc rs y * tp2 (IZR w) M rc rs y + tp1 (IZR w) M zc zs y * tp2 (IZR w) M zc zs y))).
    { replace (2 * _) with (2 * tp (IZR w) M rc rs y * tp1 (IZR w) M rc rs y + 2 * tp1 (IZR w) M rc rs y * tp2 (IZR w) M rc rs y + 2 * tp1 (IZR w) M zc zs y * tp2 (IZR w) M zc zs y) by ring.
      apply (dlim_ext (fun z => tp (IZR w) M rc rs z ^ 2 + tp1 (IZR w) M rc rs z ^ 2 + tp1 (IZR w) M zc zs z ^ 2)); [intros z; unfold g; rewrite SR; reflexivity|].
      apply derivable_pt_lim_plus; [apply derivable_pt_lim_plus|]; apply square_derivative; apply tp_derivative. }
    rewrite Edl in Hd |- *. change (derivable_pt_lim (fun z => sqrt (g z)) y ((tp (IZR w) M rc rs y * tp1 (IZR w) M rc rs y + tp1 (IZR w) M rc rs y * tp2 (IZR w) M rc rs y + tp1 (IZR w) M zc zs y * tp2 (IZR w) M zc zs y) / sqrt (g y))).
    change (0 < sqrt (g y)) in Hd. assert (Hg : 0 < g y) by (apply Rnot_le_lt; intros Hle; rewrite (sqrt_neg_0 _ Hle) in Hd; lra).
    replace (_ / sqrt (g y)) with (/ (2 * sqrt (g y)) * (2 * (tp (IZR w) M rc rs y * tp1 (IZR w) M rc rs y + tp1 (IZR w) M rc rs y * tp2 (IZR w) M rc rs y + tp1 (IZR w) M zc zs y * tp2 (IZR w) M zc zs y))) by (field; lra).
    apply (derivable_pt_lim_comp g sqrt); [exact Dg|]. apply derivable_pt_lim_sqrt. exact Hg.
  - intros M' ca cb HM. assert (HF : 0 < IZR w) by (apply IZR_lt; lia). pose proof PI_RGT_0 as Hpi. assert (HN : (1 <= N)%nat) by (destruct Hok; lia).
    assert (HNR : 0 < INR N) by (apply lt_0_INR; lia).
    destruct (differentiation_exact N 0 (2 * PI / IZR w) M' ca cb HN ltac:(apply Rdiv_lt_0_compat; lra) HM) as (D & g' & ED & Dg & Ep'). rewrite Rminus_0_r in *.
    destruct Vd as (d & Ed & Vd). assert (d = D) by (apply (f_equal (fun o => match o with Ok x => x | _ => d end)) in Ed; change (match differentiation_matrix R_ops R_math N 0 (2 * PI / IZR w) with Ok x => x | _ => d end = d) in Ed; rewrite ED in Ed; congruence). subst d.
    exists g'. split; [exact Dg|]. intros j Hj.
    assert (Epj : forall k, (k < N)%nat -> v "phi" k = 0 + INR k * ((2 * PI / IZR w - 0) / INR N)).
    { intros k Hk. rewrite Ep by exact Hk. unfold grid_phi. cbn [axis_input_of ai_nfp]. fold w. rewrite <- EN. field. lra. }
    split.
    + destruct (DiffFacts.matrix_ok R_ops R_math N 0 (2 * PI / IZR w) HN) as (D' & ED' & HD' & _). assert (D' = D) by congruence. subst D'.
      rewrite (DiffFacts.product_ok R_ops N D) in Ep' by (auto; unfold grid; rewrite !map_length, seq_length; reflexivity). injection Ep' as Ep'.
      apply (f_equal (fun l => nth j l 0)) in Ep'. unfold grid in Ep'. rewrite !map_map in Ep'. rewrite !nth_map_seq in Ep' by exact Hj. cbv beta in Ep'. rewrite (Epj j Hj). rewrite <- Ep'.
      apply rsum_ext. intros k Hk. rewrite Vd by assumption. cbn [R_ops fmul fzero]. f_equal. rewrite nth_map_seq by exact Hk. cbv beta. rewrite Epj by exact Hk. reflexivity.
    + destruct (boozer_derivative (axis_input_of e1) a h M' ca cb Hok Va ltac:(rewrite <- EN; exact HM)) as (g'' & Dg'' & B). rewrite <- EN in B. cbn [axis_input_of ai_nfp] in B, Dg''. fold w in B, Dg''.
      assert (Ea : forall k, (k < N)%nat -> a_phi a k = v "phi" k) by (intros k Hk; symmetry; apply (Ev "phi" (a_phi a)); [unfold first_vectors; in_list|exact Hk]).
      specialize (B j Hj). rewrite Ea in B by exact Hj.
      assert (Eb : number f "B0_over_abs_G0" = a_B0_over_abs_G0 a) by (apply Vf; unfold first_numbers; in_list).
      rewrite Eb, (Ev "d_l_d_phi" (a_d_l_d_phi a)) by first [unfold first_vectors; in_list|exact Hj].
      replace (g' (v "phi" j)) with (g'' (v "phi" j)) by (eapply uniqueness_limite; [apply Dg''|apply Dg]). rewrite <- B.
      apply rsum_ext. intros k Hk. rewrite Vm by assumption. rewrite Ea by exact Hk. reflexivity.
Qed.

(** C97.  At order r2.1 the file contains arrays of the third order that the program does not calculate, and they are 0. *)
Theorem not_calculated_in_file : forall e t st f, small_grid IZR t -> run e t = Ok (st, f) -> whole R f "order_r3" = 1%Z ->
  forall y j, In y never_set -> (j < grid_points f)%nat -> at_grid f y j = 0.
Proof.
  intros e t st f Hn H H3 y j Hy Hj. destruct (view_run _ _ _ _ Hn H) as [s1 e1 sh a h x r u St Vs Va Vn Vu Vw Vf Vv Vsg Vc Vm (_ & _ & O3) V2 Vk Vl Vd Vt3 Vt4 Vz].
  apply Vz; [|exact Hy|].
  - destruct (m_flag R e1 "order_r3"); [reflexivity|rewrite O3 in H3; discriminate H3].
  - revert Hj. unfold grid_points. rewrite (Vw "nphi" (m_int R e1 "nphi")) by (unfold first_wholes; in_list). intros Hj. lia.
Qed.
End File.
(** The hypotheses are met: the run of Properties_RunField, second_order_case.  Also those about the product rule: all the quantities of first order are constant on a circular axis. *)
Example gradients_case : forall e, exists f, let t := circle_table "r2.1" (-1) in let ls := circle_solve (3 / 4 - 1 * -1) in
  small_grid IZR t /\ run_circle ls e t = Ok (NEWTON_CONVERGED, f) /\ whole R f "at_least_order_r2" = 1%Z /\ whole R f "order_r3" = 1%Z /\ regular_file f /\ grid_points f = 15%nat /\
  forall j, (j < grid_points f)%nat -> Forall (fun gh => product_error f (fst gh) (snd gh) j = 0)
    (let X := at_grid f "X1c" in let Y := at_grid f "Y1s" in let C := at_grid f "Y1c" in let d := derivative_of f in [(X, Y); (d X, Y); (X, d Y); (d C, Y); (d Y, C); (X, C); (X, X); (Y, Y); (C, C)]).
Proof.
  intros e. destruct (circle_runs (/ 1000) 1 (-1) "r2.1" no_eigenvalues false ltac:(lra) ltac:(cbn; tauto) (fun _ => eq_refl) e) as (f & H). exists f.
  destruct (circle_file (/ 1000) 1 (-1) "r2.1" no_eigenvalues false ltac:(lra) ltac:(cbn; tauto) e _ f H) as (N & Rf & I & P & _ & K & O1 & O2 & O3).
  split; [apply circle_small|]. split; [exact H|]. split; [exact O1|]. split; [exact O3|]. split; [exact Rf|]. split; [exact N|].
  pose proof Rf as [G1 G2 G3 G4 G5 G6 G7].
  destruct (first_order_in_file (/ 1000) 1 circle_step (circle_solve (3 / 4 - 1 * -1)) no_eigenvalues (tolerances_of R_ops R_math false) (fun _ => true) e (circle_table "r2.1" (-1)) NEWTON_CONVERGED f
    (circle_small "r2.1" (-1)) H G2 G3 G5) as (_ & _ & Fo & _).
  destruct (derivatives_in_file (/ 1000) 1 circle_step (circle_solve (3 / 4 - 1 * -1)) no_eigenvalues (tolerances_of R_ops R_math false) (fun _ => true) e (circle_table "r2.1" (-1)) NEWTON_CONVERGED f
    (circle_small "r2.1" (-1)) H G1) as (_ & _ & _ & _ & _ & _ & _ & _ & D).
  destruct (D 1%nat (fun _ => 1) (fun _ => 0) ltac:(intros m Hm; rewrite N; lia)) as (g' & Dg & E).
  assert (Eg : forall x, trig (2 * PI / IZR (whole R f "nfp")) 1 (fun _ => 1) (fun _ => 0) x = 1).
  { intros x. unfold trig. cbn [fsum R_ops fadd fzero INR]. rewrite !Rmult_0_l, cos_0. ring. }
  assert (Eg' : forall x, g' x = 0) by (intros x; eapply uniqueness_limite; [apply Dg|]; apply (dlim_ext (fun _ => 1)); [intros; rewrite Eg; reflexivity|apply derivable_pt_lim_const]).
  assert (Z : forall w c j, (j < grid_points f)%nat -> (forall k, (k < grid_points f)%nat -> w k = c) -> derivative_of f w j = 0).
  { intros w c j Hj Hw. destruct (E j Hj) as (_ & E'). rewrite Eg' in E'. unfold derivative_of. rewrite (rsum_ext _ _ (fun k => c * (num R 0 f "d_d_varphi" [k; j] * 1))) by (intros k Hk; rewrite Hw by exact Hk; ring).
    rewrite rsum_scal. rewrite (rsum_ext _ _ (fun k => num R 0 f "d_d_varphi" [k; j] * trig (2 * PI / IZR (whole R f "nfp")) 1 (fun _ => 1) (fun _ => 0) (at_grid f "phi" k))) by (intros k Hk; rewrite Eg; reflexivity).
    rewrite E'. unfold Rdiv. ring. }
  assert (Pe : forall w c z b j, (j < grid_points f)%nat -> (forall k, (k < grid_points f)%nat -> w k = c) -> (forall k, (k < grid_points f)%nat -> z k = b) -> product_error f w z j = 0).
  { intros w c z b j Hj Hw Hz. unfold product_error. rewrite (Z w c j Hj Hw), (Z z b j Hj Hz), (Z (fun k => w k * z k) (c * b) j Hj) by (intros k Hk; rewrite Hw, Hz by exact Hk; reflexivity). ring. }
  assert (X : forall k, (k < grid_points f)%nat -> at_grid f "X1c" k = number f "eta_bar").
  { intros k Hk. destruct (Fo k Hk (G7 k Hk)) as (T & _). rewrite (proj1 (K k ltac:(lia))) in T. lra. }
  assert (Y : forall k, (k < grid_points f)%nat -> at_grid f "Y1s" k = integer f "sG" * integer f "spsi" / number f "eta_bar").
  { intros k Hk. destruct (Fo k Hk (G7 k Hk)) as (_ & T & _). rewrite X in T by exact Hk. rewrite <- T. field. exact G5. }
  assert (C : forall k, (k < grid_points f)%nat -> at_grid f "Y1c" k = 0).
  { intros k Hk. destruct (Fo k Hk (G7 k Hk)) as (_ & _ & T & _). rewrite T. destruct (K k ltac:(lia)) as (_ & _ & ->). ring. }
  assert (dX : forall k, (k < grid_points f)%nat -> derivative_of f (at_grid f "X1c") k = 0) by (intros k Hk; eapply Z; [exact Hk|exact X]).
  assert (dY : forall k, (k < grid_points f)%nat -> derivative_of f (at_grid f "Y1s") k = 0) by (intros k Hk; eapply Z; [exact Hk|exact Y]).
  assert (dC : forall k, (k < grid_points f)%nat -> derivative_of f (at_grid f "Y1c") k = 0) by (intros k Hk; eapply Z; [exact Hk|exact C]).
  intros j Hj. cbv zeta. repeat constructor; cbn [fst snd]; eapply Pe; eassumption.
Qed.
Print Assumptions grad_B_in_file. Print Assumptions gradients_in_file. Print Assumptions derivatives_in_file. Print Assumptions not_calculated_in_file.
