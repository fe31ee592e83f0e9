(** Specification vocabulary for the random scan: what it means for a configuration to fall
    short of a requested limit, and what a report of the scan must say about the attempts made. *)
From Coq Require Import ZArith List Bool Arith.
From Verif Require Import Base FloatOps Tensor Scan.
Import ListNotations.

Definition no_ub {A} (x : outcome A) : Prop := forall w, x <> UB w.

Section Spec.
Context {F : Type} (o : fops F) (fabs : F -> F) {X : Type}.
Implicit Types (q : @qsc F X) (cfg : @settings F).

(** [sum_with_signs l]: l0 - l1 + l2 - ..., from the left. *)
Definition R_at_half_period (l : list F) : F := half_period_sum o true l (fzero o).

(** The configuration [q] falls short of the requirement with counter number [k]
    (numbers as in the enum of scan.hpp; 10, 11 and 12 are not in order of evaluation). *)
Definition violates cfg (k : nat) q : Prop :=
  match k with
  | 2 => fle o (vsum o (s_R0c (q_in q))) (fzero o) = true
         \/ fle o (R_at_half_period (s_R0c (q_in q))) (fzero o) = true
  | 3 => keep_all cfg = false /\ flt o (q_grid_min_R0 q) (min_R0_to_keep cfg) = true
  | 4 => keep_all cfg = false /\
         ((helicity_to_keep cfg = 0%Z /\ q_helicity q <> 0%Z)
          \/ (helicity_to_keep cfg = 1%Z /\ q_helicity q <> 1%Z /\ q_helicity q <> (-1)%Z))
  | 5 => keep_all cfg = false /\
         flt o (fdiv o (fone o) (q_grid_max_curvature q)) (min_L_grad_B_to_keep cfg) = true
  | 6 => keep_all cfg = false /\ flt o (fabs (q_iota q)) (min_iota_to_keep cfg) = true
  | 7 => keep_all cfg = false /\ flt o (max_elongation_to_keep cfg) (q_grid_max_elongation q) = true
  | 8 => keep_all cfg = false /\ flt o (q_grid_min_L_grad_B q) (min_L_grad_B_to_keep cfg) = true
  | 9 => keep_all cfg = false /\ at_least_order_r2 cfg = true /\
         flt o (max_B20_variation_to_keep cfg) (q_B20_grid_variation q) = true
  | 10 => keep_all cfg = false /\ at_least_order_r2 cfg = true /\
         flt o (q_grid_min_L_grad_grad_B q) (min_L_grad_grad_B_to_keep cfg) = true
  | 11 => keep_all cfg = false /\ at_least_order_r2 cfg = true /\
         flt o (max_d2_volume_d_psi2_to_keep cfg) (q_d2_volume_d_psi2 q) = true
  | 12 => keep_all cfg = false /\ at_least_order_r2 cfg = true /\
         flt o (q_DMerc_times_r2 q) (min_DMerc_times_r2_to_keep cfg) = true
  | 13 => keep_all cfg = false /\ at_least_order_r2 cfg = true /\
         flt o (q_r_singularity_robust q) (min_r_singularity_to_keep cfg) = true
  | 14 => keep_all cfg = false /\ at_least_order_r2 cfg = true /\
         flt o (q_beta q) (min_beta_to_keep cfg) = true
  | _ => False
  end.

(** A verdict on an attempt that is justified by the requirements. *)
Definition justified cfg (e : @qsc F X * option nat) : Prop :=
  match snd e with
  | Some k => violates cfg k (fst e)
  | None => forall k, ~ violates cfg k (fst e)
  end.

(** Number of attempts rejected by counter [k]; the kept configurations, oldest first (the
    log is newest first). *)
Definition rejected (k : nat) (log : list (@qsc F X * option nat)) : nat :=
  length (filter (fun e => match snd e with Some k' => k' =? k | None => false end) log).
Definition kept (log : list (@qsc F X * option nat)) : list (@qsc F X) :=
  rev (map fst (filter (fun e => match snd e with Some _ => false | None => true end) log)).
(** Attempts that got as far as the first-order solve: those not rejected by 2, 3, 4 or 5.
    Those that got as far as the second-order solve: nor by 6, 7, 8. *)
Definition reached_sigma (log : list (@qsc F X * option nat)) : nat :=
  length (filter (fun e => match snd e with Some k => 6 <=? k | None => true end) log).
Definition reached_r2 (log : list (@qsc F X * option nat)) : nat :=
  length (filter (fun e => match snd e with Some k => 9 <=? k | None => true end) log).

(** The four blocks of Fourier amplitudes of a configuration. *)
Definition fourier_of (s : sample F) : list F := s_R0c s ++ s_R0s s ++ s_Z0c s ++ s_Z0s s.

(** The four arrays of Fourier amplitudes have [na] elements. *)
Definition sized (na : nat) (s : sample F) : Prop :=
  length (s_R0c s) = na /\ length (s_R0s s) = na /\ length (s_Z0c s) = na /\ length (s_Z0s s) = na.

(** The counters agree with a log of attempts. *)
Definition counts_ok cfg (log : list (@qsc F X * option nat)) (f : list nat) : Prop :=
  length f = 17
  /\ nth 0 f 0 = length log
  /\ (forall k, 2 <= k <= 14 -> nth k f 0 = rejected k log)
  /\ nth 15 f 0 = reached_sigma log
  /\ nth 16 f 0 = (if at_least_order_r2 cfg then reached_r2 log else 0).

(** The buffers hold the kept configurations, in order, one column each. *)
Definition buffer_ok (na : nat) (log : list (@qsc F X * option nat)) (b : @buffers F) : Prop :=
  let ks := kept log in
  firstn (20 * length ks) (m_data (b_params b)) = flat_map params_of ks
  /\ firstn ((na * 4) * length ks) (m_data (b_fourier b)) = flat_map (fun q => fourier_of (q_in q)) ks
  /\ firstn (length ks) (b_int b) = map q_helicity ks
  /\ (forall q, In q ks -> sized na (q_in q)).

(** A report (what collect_results is given) is a true account of the log. *)
Definition true_account cfg (na : nat) (log : list (@qsc F X * option nat)) (sn : @snapshot F) : Prop :=
  counts_ok cfg log (sn_filters sn)
  /\ nth 1 (sn_filters sn) 0 = length (kept log)
  /\ sn_j_scan sn = length (kept log)
  /\ buffer_ok na log (sn_buf sn).
End Spec.
