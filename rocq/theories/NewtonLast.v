(** The last evaluation of the residual by Newton's method. *)
From Coq Require Import List ZArith Reals Lra Arith Lia.
From Verif Require Import Base BaseFacts FloatOps MathOps MathFacts Newton NewtonSpec NewtonFacts Axis R1 R1Spec R1Facts.
Import ListNotations.
Local Open Scope nat_scope.

Section Last.
Context {F : Type} (o : fops F) {M U : Type}.
Variable rf : list F -> U -> outcome (list F * U).
Variable jf : list F -> U -> outcome (M * U).
Variable ls : M -> list F -> outcome (list F).
Variable L : nat.
Hypothesis Hjf : forall s u m u', jf s u = Ok (m, u') -> u' = u.
(** The residual array and the data of the callbacks come from the same evaluation. *)
Definition belongs (r : list F) (u : U) : Prop := exists x u0, length x = L /\ rf x u0 = Ok (r, u).
Definition current (s : nst (F:=F) (U:=U)) : Prop := length (n_state s) = L /\ belongs (n_residual s) (n_user s) /\ n_norm s = norm_sq o (n_residual s).
Lemma linesearch_current n : forall state0 step sc last s s', length state0 = L -> current s -> linesearch o rf n state0 step sc last s = Ok s' -> current s'.
Proof.
  induction n as [|n IH]; cbn [linesearch]; intros state0 step sc last s s' L0 Hc H; [injection H as <-; exact Hc|].
  unfold axpy in H. destruct (Nat.eqb_spec (length state0) (length step)) as [El|]; [|discriminate]. cbn [bind] in H.
  set (x := map _ (combine state0 step)) in *. assert (Lx : length x = L) by (unfold x; rewrite map_length, combine_length; lia).
  destruct (rf x (n_user s)) as [[r u]| |] eqn:Er; try discriminate. cbn [bind fst snd] in H. rewrite dot_self in H. cbn [bind] in H.
  assert (C : current (mkNst x r (norm_sq o r) u)) by (split; [exact Lx|]; split; [exists x, (n_user s); auto|reflexivity]).
  destruct (flt o (norm_sq o r) last); [injection H as <-; exact C|exact (IH _ _ _ _ _ _ L0 C H)].
Qed.
(** What the status says about the residual of the last evaluation. *)
Definition status_says (st : newton_status) (r : list F) (tol : F) : Prop :=
  match st with
  | NEWTON_CONVERGED => flt o (norm_sq o r) tol = true
  | NEWTON_MAX_ITERATIONS => flt o (norm_sq o r) tol = false
  | NEWTON_LINESEARCH_FAILED => exists last, flt o last tol = false /\ flt o last (norm_sq o r) = true
  end.
Lemma newton_loop_last n mls tol : forall s st s', current s -> newton_loop o rf jf ls n mls tol s = Ok (st, s') -> belongs (n_residual s') (n_user s') /\ status_says st (n_residual s') tol.
Proof.
  induction n as [|n IH]; cbn [newton_loop]; intros s st s' (Ls & Hb & Hn) H.
  - injection H as <- <-. split; [exact Hb|]. rewrite <- Hn || rewrite Hn. destruct (flt o _ tol) eqn:E; cbn [status_says]; congruence.
  - destruct (flt o (n_norm s) tol) eqn:E; [injection H as <- <-; split; [exact Hb|]; cbn [status_says]; congruence|].
    destruct (jf (n_state s) (n_user s)) as [[m u1]| |] eqn:Ej; try discriminate. cbn [bind fst snd] in H. apply Hjf in Ej. subst u1.
    destruct (ls m _) as [step| |]; try discriminate. cbn [bind] in H.
    destruct (linesearch _ _ _ _ _ _ _ _) as [s1| |] eqn:El; try discriminate. cbn [bind] in H.
    apply linesearch_current in El; [|exact Ls|split; [exact Ls|]; split; [exact Hb|exact Hn]]. destruct (flt o (n_norm s) (n_norm s1)) eqn:Eg.
    + injection H as <- <-. cbn [n_residual n_user]. destruct El as (_ & B & N). split; [exact B|]. exists (n_norm s). split; [exact E|congruence].
    + exact (IH _ _ _ El H).
Qed.
Lemma newton_solve_last s0 u0 mn ml tol st s r u : length s0 = L -> newton_solve o rf jf ls s0 u0 mn ml tol = Ok (st, s, r, u) -> belongs r u /\ status_says st r (fmul o tol tol).
Proof.
  unfold newton_solve. intros Hl H. destruct (rf s0 u0) as [[r0 u1]| |] eqn:Er; try discriminate. cbn [bind fst snd] in H. rewrite dot_self in H. cbn [bind] in H.
  destruct (newton_loop _ _ _ _ _ _ _ _) as [[st' s']| |] eqn:El; try discriminate. cbn [bind fst snd] in H. injection H as <- <- <- <-.
  apply newton_loop_last in El; [exact El|]. split; [exact Hl|]. split; [exists s0, u0; auto|reflexivity].
Qed.
End Last.

Local Open Scope R_scope.
(** Whatever the status, sigma and iota of the object belong to the last evaluation, and the status can be told from their residual. *)
Lemma sigma_last (i : r1_input R) ls mn ml tol u st s r u' : let N := a_nphi (i_axis i) in (1 <= N)%nat ->
  solve_sigma_equation R_ops R_math i ls mn ml tol u = Ok (st, s, r, u') ->
  length (u_sigma u') = N /\ nth 0 (u_sigma u') 0 = i_sigma0 i /\
  (st = NEWTON_CONVERGED <-> rsum N (fun j => sigma_equation i (fun k => nth k (u_sigma u') 0) (u_iota u') j ^ 2) < tol * tol).
Proof.
  intros N HN H. unfold solve_sigma_equation in H. fold N in H.
  destruct (aset (repeat (i_sigma0 i) N) 0 (fzero R_ops)) as [s0| |] eqn:E0; try discriminate. cbn [bind] in H.
  assert (L0 : length s0 = N).
  { unfold aset in E0. destruct (Nat.ltb 0 (length (repeat (i_sigma0 i) N))); [|discriminate]. injection E0 as <-. rewrite upd_length. apply repeat_length. }
  destruct (newton_solve_last R_ops (sigma_eq_residual R_ops R_math i) (sigma_eq_jacobian R_ops R_math i) ls N
    (fun s0 u0 m u1 (E : Ok _ = Ok (m, u1)) => eq_sym (f_equal (fun x => match x with Ok (_, y) => y | _ => u0 end) E)) s0 u mn ml tol st s r u' L0 H) as ((x & u0 & Lx & Er) & Hs).
  assert (Hx : x <> []) by (destruct x; [cbn in Lx; lia|congruence]).
  rewrite residual_eq in Er by exact Hx. fold N in Er. injection Er as <- <-. cbn [u_sigma u_iota].
  split; [destruct x; [congruence|]; cbn [length tl] in *; exact Lx|]. split; [reflexivity|].
  assert (Hsig : forall k, nth k (i_sigma0 i :: tl x) 0 = state_sigma i x k).
  { intros k. unfold state_sigma. destruct x as [|y x]; [congruence|]. destruct k; reflexivity. }
  assert (Hext : forall io j, sigma_equation i (fun k => nth k (i_sigma0 i :: tl x) 0) io j = sigma_equation i (state_sigma i x) io j).
  { intros io j. unfold sigma_equation. cbv zeta. rewrite Hsig. do 2 f_equal. apply rsum_ext. intros k _. rewrite Hsig. reflexivity. }
  assert (En : norm_sq R_ops (map (sigma_equation i (state_sigma i x) (state_iota x)) (seq 0 N)) = rsum N (fun j => sigma_equation i (fun k => nth k (i_sigma0 i :: tl x) 0) (state_iota x) j ^ 2)).
  { assert (Ef : forall n f k, fold_left (fun s x => fadd R_ops s (fmul R_ops x x)) (map f (seq k n)) 0 = rsum n (fun j => f (k + j)%nat ^ 2)).
    { intros n f. induction n as [|n IH]; intros k; [reflexivity|]. rewrite seq_S, map_app, fold_left_app, IH, rsum_S. cbn [map fold_left R_ops fadd fmul]. ring. }
    unfold norm_sq. cbn [R_ops fzero]. rewrite Ef. apply rsum_ext. intros j Hj. rewrite Hext. reflexivity. }
  unfold status_says in Hs. rewrite En in Hs. cbn [R_ops fmul flt] in Hs.
  destruct st; split; intros E; try discriminate E; try reflexivity; try exact (proj1 (Rltb_true _ _) Hs); exfalso.
  - destruct Hs as (last & T1 & T2). apply Rltb_false in T1. apply Rltb_true in T2. lra.
  - apply Rltb_false in Hs. lra.
Qed.
