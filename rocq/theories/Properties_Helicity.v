(** Properties C18 and C19: the helicity of the axis. *)
From Coq Require Import String ZArith Reals List Bool Lia Lra SpecFloat.
From Verif Require Import Base Helicity HelicitySpec HelicityFacts.
Import ListNotations.
Local Open Scope list_scope.
Local Open Scope Z_scope.

(** ** C18.  For every number type and sign test (so also for NaN components), every
    non-empty grid, every sequence of normal vectors, whatever the quadrant array contained,
    and every pair of signs: no error is raised, and the helicity is the signed number of
    times the closed sequence of normal vectors crosses the ray n1 >= 0, n3 = 0. *)
Theorem C18_helicity_winding :
  forall (F : Type) (ge0 : F -> bool) (n1 n3 : list F) quadrant spsi sG,
  length n1 = length n3 -> n1 <> [] -> length quadrant = S (length n1) ->
  calculate_helicity ge0 (length n1) n1 n3 quadrant spsi sG
  = Ok (spsi * sG * winding ge0 (combine n1 n3)).
Proof. intros. apply helicity_winding; auto. Qed.
Print Assumptions C18_helicity_winding.

(** When the normal vectors (of any positive lengths) have angles that advance by less than
    a quarter turn from one grid point to the next, and k full turns altogether, the
    helicity is k times the signs. *)
Theorem C18_helicity_turns :
  forall (theta rho : nat -> R) (n : nat) (k : Z) quadrant spsi sG,
  (0 < n)%nat -> turns theta n k -> (forall j, 0 < rho j)%R -> length quadrant = S n ->
  calculate_helicity Rge0 n
    (map (fun j => rho j * cos (theta j))%R (seq 0 n))
    (map (fun j => rho j * sin (theta j))%R (seq 0 n)) quadrant spsi sG
  = Ok (spsi * sG * k).
Proof. intros. apply helicity_turns; auto. Qed.
Print Assumptions C18_helicity_turns.

(** The hypotheses are met: five points, one turn. *)
Example C18_turns_example :
  turns (fun j => INR j * (2 * PI / 5))%R 5 1.
Proof.
  pose proof PI_RGT_0. split.
  - intros j Hj. rewrite S_INR. replace ((INR j + 1) * (2 * PI / 5) - INR j * (2 * PI / 5))%R with (2 * PI / 5)%R by ring.
    rewrite Rabs_right; lra.
  - simpl. field.
Qed.
(** A run in double precision with a NaN in it. *)
Definition d_ge0 (x : spec_float) : bool := SFleb (S754_zero false) x.
Example C18_nan_example :
  calculate_helicity d_ge0 5
    [S754_finite false 1 0; S754_nan; S754_finite true 1 0; S754_finite true 1 0; S754_finite false 1 0]
    [S754_finite false 1 0; S754_finite false 1 0; S754_nan; S754_finite true 1 0; S754_finite true 1 0]
    [0; 0; 0; 0; 0; 0] 1 (-1) = Ok (-1).
Proof. vm_compute. reflexivity. Qed.

(** ** C19.  Symmetries, stated on the function itself. *)
Section C19.
Context {F : Type} (ge0 : F -> bool).
(** The helicity of a list of (n1, n3) pairs. *)
Definition helicity_of (vs : list (F * F)) (spsi sG : Z) : outcome Z :=
  calculate_helicity ge0 (length vs) (map fst vs) (map snd vs) (repeat 0 (S (length vs))) spsi sG.

Lemma combine_fst_snd {A B} (l : list (A * B)) : combine (map fst l) (map snd l) = l.
Proof. induction l as [|[a b] l IH]; simpl; congruence. Qed.

Lemma helicity_of_winding vs spsi sG : vs <> [] ->
  helicity_of vs spsi sG = Ok (spsi * sG * winding ge0 vs).
Proof.
  intros H. unfold helicity_of. rewrite <- (map_length fst vs).
  rewrite helicity_winding.
  - rewrite combine_fst_snd. reflexivity.
  - rewrite !map_length. reflexivity.
  - rewrite repeat_length. reflexivity.
  - destruct vs; simpl; congruence.
Qed.
End C19.

Theorem C19_helicity_symmetries :
  forall (F : Type) (ge0 : F -> bool) (vs : list (F * F)) spsi sG h,
  vs <> [] -> helicity_of ge0 vs spsi sG = Ok h ->
  (* reversing the order of the points, or flipping one of the signs, negates it *)
  helicity_of ge0 (rev vs) spsi sG = Ok (- h)
  /\ helicity_of ge0 vs (- spsi) sG = Ok (- h)
  /\ helicity_of ge0 vs spsi (- sG) = Ok (- h)
  (* starting elsewhere on the closed curve leaves it unchanged *)
  /\ (forall a b, vs = a ++ b -> helicity_of ge0 (b ++ a) spsi sG = Ok h)
  (* so does repeating a point *)
  /\ (forall a x b, vs = a ++ x :: b -> helicity_of ge0 (a ++ x :: x :: b) spsi sG = Ok h).
Proof.
  intros F ge0 vs spsi sG h Hne H. rewrite helicity_of_winding in H by auto. injection H as <-.
  assert (Hr : rev vs <> []) by (intros E; apply Hne; rewrite <- (rev_involutive vs), E; reflexivity).
  rewrite !helicity_of_winding by auto. rewrite winding_rev.
  split; [f_equal; ring|]. split; [f_equal; ring|]. split; [f_equal; ring|]. split.
  - intros a b ->. rewrite helicity_of_winding.
    + rewrite winding_rotate. reflexivity.
    + intros E. apply Hne. apply app_eq_nil in E as [-> ->]. reflexivity.
  - intros a x b ->. rewrite helicity_of_winding.
    + rewrite winding_repeat. reflexivity.
    + destruct a; discriminate.
Qed.
Print Assumptions C19_helicity_symmetries.

Example C19_example :
  helicity_of (fun z => 0 <=? z) [(1, 1); (-1, 1); (-1, -1); (1, -1)] 1 1 = Ok 1
  /\ helicity_of (fun z => 0 <=? z) (rev [(1, 1); (-1, 1); (-1, -1); (1, -1)]) 1 1 = Ok (-1).
Proof. vm_compute. auto. Qed.
