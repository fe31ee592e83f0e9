(** Specification vocabulary for the Newton solver. *)
From Coq Require Import List Arith ZArith Bool.
From Verif Require Import Base FloatOps.
Import ListNotations.

(** Squared norm: ((0 + r0*r0) + r1*r1) + ... *)
Definition norm_sq {F} (o : fops F) (r : list F) : F :=
  fold_left (fun s x => fadd o s (fmul o x x)) r (fzero o).

(** A callback that evaluates a fixed function [f] of the state and may also change the
    user data in any way. *)
Definition evaluates {F U A} (cb : list F -> U -> outcome (A * U)) (f : list F -> A) : Prop :=
  forall s u, exists u', cb s u = Ok (f s, u').

(** A log of callback calls, newest first. *)
Inductive call (F : Type) := CRes (s : list F) | CJac (s : list F).
Arguments CRes {F}. Arguments CJac {F}.
Definition log_res {F} (f : list F -> list F) (s : list F) (u : list (call F)) :
  outcome (list F * list (call F)) := Ok (f s, CRes s :: u).
Definition log_jac {F M} (j : list F -> M) (s : list F) (u : list (call F)) :
  outcome (M * list (call F)) := Ok (j s, CJac s :: u).

Definition is_res {F} (c : call F) := match c with CRes _ => true | CJac _ => false end.
Definition is_jac {F} (c : call F) := negb (is_res c).
Definition n_res {F} (l : list (call F)) := length (filter is_res l).
Definition n_jac {F} (l : list (call F)) := length (filter is_jac l).

(** The most recent residual evaluation in a log (newest first). *)
Fixpoint last_res {F} (l : list (call F)) : option (list F) :=
  match l with [] => None | CRes s :: _ => Some s | CJac _ :: l' => last_res l' end.

(** Every Jacobian evaluation is at the state of the most recent residual evaluation. *)
Fixpoint jac_after_res {F} (l : list (call F)) : Prop :=
  match l with
  | [] => True
  | CRes _ :: l' => jac_after_res l'
  | CJac s :: l' => last_res l' = Some s /\ jac_after_res l'
  end.
(** Every Jacobian evaluation immediately follows a residual evaluation at its state. *)
Fixpoint jac_right_after_res {F} (l : list (call F)) : Prop :=
  match l with
  | [] => True
  | CRes _ :: l' => jac_right_after_res l'
  | CJac s :: l' => (exists l'', l' = CRes s :: l'') /\ jac_right_after_res l'
  end.
