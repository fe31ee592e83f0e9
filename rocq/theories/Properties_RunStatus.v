(** Property of the output file: C98 (whether Newton's method converged can be told from the file). *)
From Coq Require Import String ZArith Reals Lra Arith Bool Lia List.
From Verif Require Import Base BaseFacts FloatOps MathOps MathFacts Tensor Newton NewtonLast Diff Curve Axis AxisSpec AxisFacts R1 R1Spec R1Facts R2 RSing GradGradB Alloc AllocSpec AllocFacts Toml TomlSpec TomlFacts
  Options OptionsSpec NetCDF NetCDFOut NetCDFNames NetCDFSpec NetCDFFacts NetCDFRead Properties_NetCDF Run RunSpec RunFacts RunFile RunView RunShown.
From Verif Require Import HelicityFacts Properties_Axis Properties_R1 Properties_Run RunCase Properties_RunFile.
Import ListNotations.
Local Open Scope string_scope.
Local Open Scope R_scope.

(** C98.  The status of Newton's method is not in the output file, but it can be told from the file: whatever the status, sigma at the first grid point is sigma0, and the method
    converged if and only if the sum of the squares of the residual of the equation for sigma, calculated from the sigma, iota_N, axis and differentiation matrix in the file, is
    less than the square of newton_tolerance in the file.  No assumption about the linear solver, the axis or the parameters. *)
Theorem convergence_in_file : forall newton_tol mu0 newton_linear_solve linear_solve geev tol finite e t st f, small_grid IZR t ->
  Run.run R_ops R_math Rge0 newton_tol mu0 newton_linear_solve linear_solve geev tol finite e t = Ok (st, f) ->
  at_grid f "sigma" 0%nat = number f "sigma0" /\
  (st = NEWTON_CONVERGED <-> rsum (grid_points f) (fun j => sigma_residual f j ^ 2) < number f "newton_tolerance" * number f "newton_tolerance").
Proof.
  intros newton_tol mu0 nls ls geev tol finite e t st f Hn H. destruct (view_run R_ops R_math Rge0 newton_tol mu0 nls ls geev tol finite _ _ _ _ Hn H) as [s1 e1 sh a h x r u St Vs Va Vn Vu Vw Vf Vv Vsg Vc Vm Vo V2 Vk Vl Vd Vt3 Vt4 Vz].
  set (q := r1_diagnostics R_ops R_math (first_input e1 a h) (fun j => nth j (u_sigma u) (fzero R_ops)) (u_iota u)) in *.
  assert (Ew : forall y w, In (y, w) (first_wholes e1 h) -> whole R f y = w) by exact Vw.
  assert (Ef : forall y w, In (y, w) (first_numbers e1 a q u) -> number f y = w) by exact Vf.
  assert (HN : (0 < m_int R e1 "nphi")%Z) by (apply (ready_positive R_ops), (b_ready _ _ _ _ _ _ St)).
  assert (En : grid_points f = a_nphi a). { unfold grid_points. rewrite (Ew "nphi" (m_int R e1 "nphi")) by (unfold first_wholes; in_list). lia. }
  assert (Ev : forall y g, In (y, g) (first_vectors e1 sh a q u) -> forall j, (j < a_nphi a)%nat -> at_grid f y j = g j) by exact Vv.
  assert (Esg : forall j, (j < a_nphi a)%nat -> at_grid f "sigma" j = nth j (u_sigma u) 0) by exact Vsg.
  destruct (sigma_last (first_input e1 a h) _ _ _ _ _ _ _ _ _ ltac:(cbn [first_input i_axis]; lia) Vu) as (_ & S0 & S).
  split. { rewrite Esg by lia. rewrite (Ef "sigma0" (m_float R e1 "sigma0")) by (unfold first_numbers; in_list). exact S0. }
  rewrite S, En. rewrite (Ef "newton_tolerance" (m_float R e1 "newton_tolerance")) by (unfold first_numbers; in_list). cbn [first_input i_axis].
  erewrite rsum_ext; [reflexivity|]. intros j Hj. cbv beta. f_equal. symmetry. unfold sigma_residual, sigma_equation. cbn [first_input i_axis i_helicity i_nfp i_eta_bar i_I2 i_B0 i_spsi].
  rewrite (Ev "curvature" (a_curvature a)), (Esg j), (Ev "torsion" (a_torsion a)) by first [unfold first_vectors; in_list|exact Hj].
  rewrite (Ef "eta_bar" (m_float R e1 "eta_bar")), (Ef "I2" (m_float R e1 "I2")), (Ef "B0" (m_float R e1 "B0")), (Ef "G0" (a_G0 a)) by (unfold first_numbers; in_list).
  assert (EiN : number f "iota_N" = u_iota u + IZR h * IZR (m_int R e1 "nfp")).
  { rewrite (Ef "iota_N" (r_iota_N q)) by (unfold first_numbers; in_list). rewrite <- mult_IZR. reflexivity. }
  rewrite EiN. unfold integer. rewrite (Ew "spsi" (m_int R e1 "spsi")) by (unfold first_wholes; in_list). unfold d_d_varphi. rewrite En.
  f_equal. f_equal. apply rsum_ext. intros k Hk. rewrite Esg by exact Hk. rewrite Vm by lia. reflexivity.
Qed.
(** The hypotheses are met by the run of Properties_RunFile, first_order_case, in which the method converges: the residual in its file is below the tolerance. *)
Example convergence_case : forall e, exists f, let t := circle_table "r1" 0 in
  small_grid IZR t /\ run_circle (circle_solve (3 / 4 - 1 * 0)) e t = Ok (NEWTON_CONVERGED, f) /\ grid_points f = 15%nat /\ at_grid f "sigma" 0%nat = number f "sigma0" /\
  rsum (grid_points f) (fun j => sigma_residual f j ^ 2) < number f "newton_tolerance" * number f "newton_tolerance".
Proof.
  intros e. destruct (first_order_case e) as (f & S & H & _ & _ & _ & _ & N & _). exists f. split; [exact S|]. split; [exact H|]. split; [exact N|].
  destruct (convergence_in_file _ _ _ _ _ _ _ _ _ _ _ S H) as (E & C). split; [exact E|]. apply C. reflexivity.
Qed.
Print Assumptions convergence_in_file.
