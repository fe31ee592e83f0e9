(** Properties C41 (state vector), C42 (residual vector), C43 (objective function), C44
    (history), C45 (Fourier refinement) and C46 (checks of the input) of an optimization. *)
From Coq Require Import String ZArith Reals List Bool Arith Lia Lra SpecFloat.
From Verif Require Import Base BaseFacts FloatOps Tensor Outfile OutfileFacts MScan MScanDims Alloc AllocFacts
  Opt OptSpec OptState OptResid OptRun OptEnd.
From Verif Require Toml TomlFacts.
Import ListNotations.
Local Open Scope list_scope.
Local Open Scope nat_scope.

(** ** An example of what is called, used below *)
Definition obs {A B : Type} (f : A -> B) (x : outcome A) : option B := match x with Ok a => Some (f a) | _ => None end.
Lemma obs_ok {A B : Type} (x : outcome A) (f : A -> B) b : obs f x = Some b -> exists a, x = Ok a /\ f a = b.
Proof. destruct x; cbn; intros H; try discriminate. injection H as <-. eauto. Qed.
(** Evaluate [x] and observe [f] of the result. *)
Ltac observe x f b y E H :=
  assert (H : obs f x = Some b) by (vm_compute; reflexivity); apply obs_ok in H; destruct H as (y & E & H).
Ltac limits_tac := repeat (split || constructor); cbn; lia.
Section Example.
Notation F := spec_float.
Notation extra := (@qextra F unit).
Notation opt := (@stage F (@rest F unit)).
Definition ex_nphi (x : extra) : extra := mkQx (odd_nphi (qx_nphi x)) (qx_nfp x) (qx_order_r_option x) (qx_order_r2p1 x) (qx_arr x) tt.
Definition ex_flag (x : extra) : extra :=
  mkQx (odd_nphi (qx_nphi x)) (qx_nfp x) (qx_order_r_option x) (String.eqb (qx_order_r_option x) "r2.1") (qx_arr x) tt.
(** The arrays over the grid: eta_bar, eta_bar, ... *)
Definition ex_fill (q : @qobj F) (x : extra) : extra :=
  mkQx (qx_nphi x) (qx_nfp x) (qx_order_r_option x) (qx_order_r2p1 x)
    (fun m => repeat (qo_num q "eta_bar"%string)
       ((if String.eqb m "grad_B_tensor" then 9 else if String.eqb m "grad_grad_B_tensor" then 27 else 1) * Z.to_nat (qx_nphi x))) tt.
Definition ex_rt : @routines F unit :=
  mkRoutines (fun q x => Ok (q, ex_nphi x)) (fun q x => Ok (q, ex_flag x)) (fun q x => Ok (q, ex_fill q x)).
Lemma ex_fill_ok q x : arrays_ok (ex_fill q x).
Proof.
  split; [|split; cbn [ex_fill qx_arr]; rewrite repeat_length; reflexivity].
  intros m Hm. cbn [ex_fill qx_arr qx_nphi]. rewrite repeat_length.
  assert (G : forallb (fun m => negb (String.eqb m "grad_B_tensor") && negb (String.eqb m "grad_grad_B_tensor")) grid_arrays = true) by reflexivity.
  rewrite forallb_forall in G. apply G in Hm. apply andb_true_iff in Hm as [A B]. apply negb_true_iff in A, B. rewrite A, B. apply Nat.mul_1_l.
Qed.
Lemma ex_rt_ok : qsc_ok (fun _ _ => True) ex_rt.
Proof.
  constructor; auto.
  - intros q x q' x' [= <- <-]. split; [apply same_inputs_refl|repeat split].
  - intros q x q' x' [= <- <-]. split; [apply same_inputs_refl|repeat split].
  - intros q x q' x' _ [= <- <-]. split; [apply same_inputs_refl|]. split; [repeat split|]. split; [reflexivity|]. split; [reflexivity|].
    split; [intros _; apply ex_fill_ok|exact I].
  - intros q x why. repeat split; discriminate.
Qed.
(** A minimizer that adds 1 to all parameters. *)
Definition ex_gsl (j : nat) (s : opt) (maxiter : Z) (x0 : list F) : list (@event F) :=
  let x1 := map (SFadd d_prec d_emax (fone D_ops)) x0 in [Eval x0; Report x0; Eval x1; Report x1].
Lemma ex_gsl_ok : gsl_ok ex_gsl.
Proof.
  intros j s maxiter x0. exists [], [([map (SFadd d_prec d_emax (fone D_ops)) x0], map (SFadd d_prec d_emax (fone D_ops)) x0)], [].
  split; [reflexivity|]. split; [auto|]. split; [cbn [length]; lia|].
  repeat constructor; cbn [point]; rewrite ?map_length; reflexivity.
Qed.
Definition ex_junk (n : nat) : list F := repeat S754_nan n.
Definition ex_q : @qobj F :=
  mkQo (fun m => if String.eqb m "axis_length" then d_of_Z 6 else if String.eqb m "eta_bar" then d_of_Z 2 else d_of_Z 1)%string 0%Z
    [d_of_Z 1; d_of_Z 3] [d_of_Z 0; d_of_Z 0] [d_of_Z 0; d_of_Z 0] [d_of_Z 0; d_of_Z 4].
Definition ex_rest (max_iter : Z) (vary : axis -> list bool) (nphi : list Z) : @rest F unit :=
  mkRest (mkQx 2%Z 3%Z "r2.1" false (fun _ => []) tt) max_iter 0 0%Z 0 nphi
    (fun m => String.eqb m "eta_bar") vary 0 0 [] [] [] (d_of_Z 0) (fun _ => d_of_Z 0) [].
Definition ex_vary (a : axis) : list bool := match a with R0c | Z0s => [false; true] | _ => [false; false] end.
Definition ex_weights (m : string) : F :=
  if String.eqb m "weight_iota" then d_of_Z 2 else if String.eqb m "weight_Z2" then d_of_Z 3 else d_of_Z (-1).
(** eta_bar, R0c[1] and Z0s[1] are varied; one step of refinement; nphi is 3 and then 5. *)
Definition ex_opt : opt :=
  mkStage ex_weights ex_q (fun _ => []) (fun _ => mkMatrix 0 0 0 []) 1 (ex_rest 10%Z ex_vary [2%Z; 4%Z]).
Lemma ex_input : input_ok ex_opt /\ flagged ex_opt.
Proof.
  split; [split; [intros []; reflexivity|]|intros []; reflexivity].
  split; [split; [right; reflexivity|]|split; [|split]]; limits_tac.
Qed.
End Example.
Notation ex_result := (@stage spec_float (@rest spec_float unit) * list (bool * @stage spec_float (@rest spec_float unit)))%type.
Notation ex_run := (run_opt D_ops (fun v => v) d_of_Z ex_rt ex_gsl ex_junk).
Example ex_runs : exists s l, ex_run ex_opt = Ok (s, l) /\ length l = 8 /\ r_n_iter (st_rest s) = 4 /\
  r_state_vector_names (st_rest s) = ["eta_bar"; "R0c[1]"; "R0c[2]"; "Z0s[1]"; "Z0s[2]"]%string /\
  map (fun e => (fst e, r_j_fourier_refine (st_rest (snd e)), length (r_residuals (st_rest (snd e))))) l =
    [(false, 0, 10); (true, 0, 10); (false, 0, 10); (true, 0, 10); (false, 1, 16); (true, 1, 16); (false, 1, 16); (true, 1, 16)].
Proof.
  observe (ex_run ex_opt) (fun y : ex_result => (length (snd y), r_n_iter (st_rest (fst y)), r_state_vector_names (st_rest (fst y)),
    map (fun e => (fst e, r_j_fourier_refine (st_rest (snd e)), length (r_residuals (st_rest (snd e))))) (snd y)))
    (8, 4, ["eta_bar"; "R0c[1]"; "R0c[2]"; "Z0s[1]"; "Z0s[2]"]%string,
     [(false, 0, 10); (true, 0, 10); (false, 0, 10); (true, 0, 10); (false, 1, 16); (true, 1, 16); (false, 1, 16); (true, 1, 16)]) y E H.
  destruct y as [s l]. cbn [fst snd] in H. injection H as H1 H2 H3 H4. exists s, l. auto 10.
Qed.

(** ** C41: the state vector *)

(** When the parameters have been counted, there is a list of all varied parameters, each once;
    it gives the names in the state vector; packing yields their values in this order; unpacking
    any vector of this size gives them the new values and changes nothing else. *)
Theorem state_vector_meaning : forall {F : Type} (o : fops F) {Y : Type} (s s' : @stage F (@rest F Y)),
  flagged s -> init_parameters s = Ok s' ->
  exists ps : list param,
    NoDup ps /\ (forall p, In p ps <-> free s p) /\
    r_n_parameters (st_rest s') = length ps /\ r_state_vector_names (st_rest s') = map param_name ps /\ NoDup (map param_name ps) /\
    (forall buffer, length buffer = length ps ->
       exists x, set_state_vector s' buffer = Ok x /\ length x = length ps /\
         forall i p, nth_error ps i = Some p -> nth_error x i = value (st_q s) p) /\
    (forall x, length x = length ps ->
       exists q, unpack_state_vector x s' = Ok (with_q q (r_q (st_rest s')) s') /\
         (forall i p, nth_error ps i = Some p -> value q p = nth_error x i) /\
         (forall p, ~ free s p -> value q p = value (st_q s) p) /\ qo_helicity q = qo_helicity (st_q s)).
Proof.
  intros F o Y s s' Hf E. rewrite init_parameters_eq in E.
  destruct (length (params (st_rest s)) <? 1) eqn:Hl; [discriminate|]. injection E as <-.
  set (ps := params (st_rest s)). exists ps.
  set (s' := set_rest _ s).
  assert (Hf' : flagged s') by exact Hf.
  assert (Hs : sized (st_rest s') (st_q s')) by exact Hf.
  pose proof (params_present _ _ Hs) as Hp. change (params (st_rest s')) with ps in Hp. rewrite Forall_forall in Hp.
  split; [apply nodup_params|]. split; [intros p; apply in_params|]. split; [reflexivity|]. split; [reflexivity|].
  split; [|split].
  - assert (N := nodup_params (st_rest s)). fold ps in N.
    assert (G : forall p, In p ps -> forall m, p = PNum m -> In m varied_numbers).
    { intros p Hi m ->. apply (in_params s) in Hi. apply Hi. }
    clear -N G. induction N as [|p ps Hp N IH]; cbn [map]; [constructor|]. constructor.
    + intros H. apply in_map_iff in H as (p' & E & Hi). apply param_name_inj in E; [subst; auto|].
      intros m [->| ->]; [apply (G (PNum m)); [right; auto|auto]|apply (G (PNum m)); [left; auto|auto]].
    + apply IH. intros p' Hi. apply G. right; auto.
  - intros buf Hb. exists (map (val o (st_q s)) ps).
    split; [apply (set_state_vector_eq o s' buf Hf' Hb eq_refl)|]. split; [apply map_length|].
    intros i p Hi. rewrite nth_error_map, Hi. cbn. symmetry. apply value_val. apply Hp. eapply nth_error_In; eauto.
  - intros x Hx. exists (assign ps x (st_q s)). split; [apply (unpack_eq s' x Hf' Hx eq_refl)|].
    assert (Hpp : Forall (present (st_q s)) ps) by (apply Forall_forall; exact Hp).
    split; [|split; [|apply assign_helicity]].
    + intros i p Hi. assert (i < length ps) by (apply nth_error_Some; congruence).
      destruct (nth_error x i) as [v|] eqn:Ev; [|apply nth_error_None in Ev; lia].
      apply (value_assign ps x (st_q s) i p v (nodup_params _) Hpp Hi Ev).
    + intros p Hn. apply value_assign_other; auto. intros Hi. apply Hn, (in_params s), Hi.
Qed.
Print Assumptions state_vector_meaning.

(** Packing and unpacking restores the configuration; unpacking and packing returns the vector. *)
Theorem state_vector_round_trip : forall {F : Type} (o : fops F) {Y : Type} (s0 s : @stage F (@rest F Y)) buffer x,
  flagged s0 -> init_parameters s0 = Ok s -> length buffer = r_n_parameters (st_rest s) ->
  (set_state_vector s buffer = Ok x ->
     exists q, unpack_state_vector x s = Ok (with_q q (r_q (st_rest s)) s) /\ same_config (st_q s) q) /\
  (length x = r_n_parameters (st_rest s) ->
     exists s', unpack_state_vector x s = Ok s' /\ set_state_vector s' buffer = Ok x).
Proof.
  intros F o Y s0 s buf x Hf E Hb. rewrite init_parameters_eq in E.
  destruct (length (params (st_rest s0)) <? 1) eqn:Hl; [discriminate|]. injection E as <-.
  set (s := set_rest _ s0) in *. assert (Hf' : flagged s) by exact Hf. change (r_n_parameters (st_rest s)) with (length (params (st_rest s))) in *.
  split.
  - rewrite (set_state_vector_eq o s buf Hf' Hb eq_refl). intros [= <-].
    eexists. split; [apply (unpack_eq s _ Hf'); [apply map_length|reflexivity]|].
    split; [apply (assign_val o); exact Hf'|apply assign_helicity].
  - intros Hx. eexists. split; [apply (unpack_eq s x Hf' Hx eq_refl)|].
    rewrite set_state_vector_eq with (o := o); auto.
    + cbn [with_q st_q st_rest]. f_equal. apply map_val_assign; auto.
    + intros a. cbn [with_q st_q st_rest r_vary]. rewrite assign_length. apply Hf'.
Qed.
Print Assumptions state_vector_round_trip.

(** Nothing to vary is an error; and the only one. *)
Theorem no_parameters_rejected : forall {F : Type} (o : fops F) {Y : Type} (s : @stage F (@rest F Y)),
  (exists why, init_parameters s = Throw why) <-> (forall p, ~ free s p).
Proof.
  intros F o Y s. rewrite init_parameters_eq. destruct (length (params (st_rest s)) <? 1) eqn:Hl.
  - split; [|eauto]. intros _ p Hp. apply (in_params s) in Hp. apply Nat.ltb_lt in Hl.
    destruct (params (st_rest s)); [destruct Hp|cbn in Hl; lia].
  - split; [intros [? H]; discriminate|]. intros H. exfalso. apply Nat.ltb_ge in Hl.
    destruct (params (st_rest s)) as [|p ps] eqn:E; [cbn in Hl; lia|]. apply (H p). apply in_params. rewrite E. left; auto.
Qed.
Print Assumptions no_parameters_rejected.

Example state_vector_example : exists s, flagged ex_opt /\ init_parameters ex_opt = Ok s /\
  r_state_vector_names (st_rest s) = ["eta_bar"; "R0c[1]"; "Z0s[1]"]%string /\
  set_state_vector s (ex_junk 3) = Ok [d_of_Z 2; d_of_Z 3; d_of_Z 4].
Proof. eexists. split; [apply ex_input|]. split; [reflexivity|]. split; reflexivity. Qed.

(** ** C42: the residual vector *)

(** Whatever was in the array of residuals before, all its entries are written, from the
    configuration that has been computed. *)
Theorem residuals_filled : forall {F : Type} (o : fops F) (fsqrt : F -> F) (of_Z : Z -> F) {Y : Type} (s0 s1 s : @stage F (@rest F Y)),
  init_residuals o s0 = Ok s1 ->
  (* the configuration may have changed since, the weights and the resolution have not *)
  st_num s = st_num s1 -> nphi s = nphi s1 -> r_n_terms (st_rest s) = r_n_terms (st_rest s1) ->
  length (r_residuals (st_rest s)) = length (r_residuals (st_rest s1)) -> arrays_ok (r_q (st_rest s)) ->
  exists s', set_residuals o fsqrt of_Z s = Ok (s', residual_vector o fsqrt of_Z s) /\
    r_residuals (st_rest s') = residual_vector o fsqrt of_Z s /\
    length (residual_vector o fsqrt of_Z s) = r_n_terms (st_rest s1) /\ length (r_residual_names (st_rest s1)) = r_n_terms (st_rest s1).
Proof.
  intros F o fsqrt of_Z Y s0 s1 s E Hn Hphi Ht Hl Ha. rewrite (init_residuals_eq o fsqrt of_Z) in E.
  match type of E with (if ?b then _ else _) = _ => destruct b eqn:Eb; [discriminate|] end. injection E as <-.
  cbn [set_rest st_rest set_terms_shape r_n_terms r_residuals r_residual_names] in *. rewrite repeat_length in Hl.
  assert (EL : residual_labels o fsqrt of_Z s = residual_labels o fsqrt of_Z s0).
  { apply labels_ext; [exact Hphi|]. intros m. rewrite Hn. reflexivity. }
  destruct (set_residuals_eq o fsqrt of_Z s Ha) as (tf & E & _); [rewrite EL; exact Ht|congruence|].
  eexists. split; [exact E|]. split; [reflexivity|]. rewrite <- EL. split; [symmetry|reflexivity].
  apply labels_length.
Qed.
Print Assumptions residuals_filled.

(** Entry by entry: the names say which value of which term an entry is. *)
Theorem residual_names_meaning : forall {F : Type} (o : fops F) (fsqrt : F -> F) (of_Z : Z -> F) {Y : Type} (s0 s1 s : @stage F (@rest F Y))
    (name : string) (n : option nat) (f : nat -> nat -> F) (k i : nat),
  init_residuals o s0 = Ok s1 -> st_num s = st_num s1 -> nphi s = nphi s1 ->
  In (name, n, f) (terms o fsqrt of_Z s) -> used o s name = true ->
  match n with None => k = 0 /\ i = 0 | Some m => k < nphi s /\ i < m end ->
  exists j, nth_error (residual_vector o fsqrt of_Z s) j = Some (fmul o (st_num s (String.append "weight_" name)) (f k i)) /\
    nth_error (r_residual_names (st_rest s1)) j =
      Some (match n with None => name | Some m => String.append name (String.append "[" (String.append (to_string (k * m + i)) "]")) end).
Proof.
  intros F o fsqrt of_Z Y s0 s1 s name n f k i E Hn Hphi Hin Hu Hk. rewrite (init_residuals_eq o fsqrt of_Z) in E.
  match type of E with (if ?b then _ else _) = _ => destruct b eqn:Eb; [discriminate|] end. injection E as <-.
  cbn [set_rest st_rest set_terms_shape r_residual_names] in *.
  assert (EL : residual_labels o fsqrt of_Z s = residual_labels o fsqrt of_Z s0).
  { apply labels_ext; [exact Hphi|]. intros m. rewrite Hn. reflexivity. }
  rewrite <- EL. clear EL Eb Hn Hphi. rewrite residual_vector_eq, residual_labels_eq. unfold labels_of.
  assert (Len : forall t, length (sent o s (tname t) (entries s (tsize t) (tval t))) = length (if used o s (tname t) then labels s (tname t) (tsize t) else [])).
  { intros t. unfold sent. destruct (used o s (tname t)); auto. rewrite map_length, length_entries. unfold labels.
    destruct (tsize t); auto. rewrite map_length, seq_length. auto. }
  assert (One : exists j, nth_error (sent o s name (entries s n f)) j = Some (fmul o (st_num s (String.append "weight_" name)) (f k i)) /\
     nth_error (labels s name n) j = Some (match n with None => name | Some m => String.append name (String.append "[" (String.append (to_string (k * m + i)) "]")) end)).
  { unfold sent. rewrite Hu. destruct n as [m|].
    - destruct Hk as [Hk Hi]. exists (k * m + i). assert (Hlt : k * m + i < nphi s * m) by nia. split.
      + erewrite map_nth_error; [reflexivity|]. cbn [entries].
        assert (G : forall c b, k < c -> nth_error (flat_map (fun k => map (f k) (seq 0 m)) (seq b c)) (k * m + i) = Some (f (b + k) i)).
        { clear Hk Hlt. induction k as [|k IHk]; intros [|c] b Hc; try lia; cbn [seq flat_map].
          - change (0 * m + i) with i. rewrite nth_error_app1 by (rewrite map_length, seq_length; lia).
            rewrite (map_nth_error (f b) i (seq 0 m) (d := i)); [f_equal; f_equal; lia|].
            rewrite (nth_error_nth' (seq 0 m) 0) by (rewrite seq_length; auto). rewrite seq_nth; auto.
          - rewrite nth_error_app2 by (rewrite map_length, seq_length; lia). rewrite map_length, seq_length.
            replace (S k * m + i - m) with (k * m + i) by lia. rewrite IHk by lia. do 2 f_equal. lia. }
        rewrite G by auto. reflexivity.
      + cbn [labels]. erewrite map_nth_error; [reflexivity|]. rewrite (nth_error_nth' (seq 0 (nphi s * m)) 0) by (rewrite seq_length; auto). rewrite seq_nth; auto.
    - destruct Hk as [-> ->]. exists 0. split; reflexivity. }
  induction (terms o fsqrt of_Z s) as [|t ts IH]; [destruct Hin|]. cbn [flat_map].
  destruct Hin as [->|Hin].
  - destruct One as (j & A & B). exists j. change (tname (name, n, f)) with name. change (tsize (name, n, f)) with n. change (tval (name, n, f)) with f.
    rewrite Hu. split; (rewrite nth_error_app1; [assumption|apply nth_error_Some; congruence]).
  - destruct (IH Hin) as (j & A & B). exists (length (sent o s (tname t) (entries s (tsize t) (tval t))) + j).
    split; [|rewrite Len]; (rewrite nth_error_app2 by lia; rewrite Nat.add_comm, Nat.add_sub; assumption).
Qed.
Print Assumptions residual_names_meaning.

(** The example has arrays of the right sizes after a computation, and the residuals iota and
    Z2[0], ..., Z2[8]. *)
Example residuals_example : exists s1 s' f,
  init_residuals D_ops (set_nphi 3%Z ex_opt) = Ok s1 /\
  arrays_ok (ex_fill ex_q (r_q (st_rest s1))) /\
  set_residuals D_ops (fun v => v) d_of_Z (with_q ex_q (ex_fill ex_q (r_q (st_rest s1))) s1) = Ok (s', f) /\
  length f = 10 /\ nth 0 (r_residual_names (st_rest s1)) ""%string = "iota"%string /\ nth 9 (r_residual_names (st_rest s1)) ""%string = "Z2[8]"%string.
Proof.
  eexists; eexists; eexists. split; [vm_compute; reflexivity|]. split; [|split; [vm_compute; reflexivity|vm_compute; auto]].
  apply ex_fill_ok.
Qed.

(** ** C43: the objective function, in exact arithmetic *)
Local Open Scope R_scope.
Definition sum_of_squares (l : list R) : R := fold_right (fun x a => x * x + a) 0 l.
Theorem objective_is_half_norm : forall (fsqrt : R -> R) (of_Z : Z -> R) {Y : Type} (s0 s1 s s' : @stage R (@rest R Y)) f,
  init_residuals R_ops s0 = Ok s1 ->
  st_num s = st_num s1 -> nphi s = nphi s1 -> r_n_terms (st_rest s) = r_n_terms (st_rest s1) ->
  length (r_residuals (st_rest s)) = length (r_residuals (st_rest s1)) -> arrays_ok (r_q (st_rest s)) ->
  set_residuals R_ops fsqrt of_Z s = Ok (s', f) ->
  (* half the squared norm of the vector given to the minimizer *)
  r_objective (st_rest s') = / 2 * sum_of_squares f /\
  (* and of the reported terms *)
  (forall name n g, In (name, n, g) (terms R_ops fsqrt of_Z s) -> r_terms (st_rest s') name = sum_of_squares (entries s n g)) /\
  r_objective (st_rest s') = fold_right (fun t a => let '(name, _, _) := t in
      let w := st_num s (String.append "weight_" name) in
      (if used R_ops s name then / 2 * w * w * r_terms (st_rest s') name else 0) + a) 0 (terms R_ops fsqrt of_Z s).
Proof.
  intros fsqrt of_Z Y s0 s1 s s' f E Hn Hphi Ht Hl Ha Es. rewrite (init_residuals_eq R_ops fsqrt of_Z) in E.
  match type of E with (if ?b then _ else _) = _ => destruct b eqn:Eb; [discriminate|] end. injection E as <-.
  cbn [set_rest st_rest set_terms_shape r_n_terms r_residuals r_residual_names] in *. rewrite repeat_length in Hl.
  assert (EL : residual_labels R_ops fsqrt of_Z s = residual_labels R_ops fsqrt of_Z s0).
  { apply labels_ext; [exact Hphi|]. intros m. rewrite Hn. reflexivity. }
  destruct (set_residuals_eq R_ops fsqrt of_Z s Ha) as (tf & E & V); [rewrite EL; exact Ht|congruence|].
  rewrite E in Es. injection Es as <- <-. destruct V as (V1 & V2 & V3).
  cbn [set_rest st_rest set_objective r_residuals r_objective r_terms] in *.
  assert (T : forall t, In t (terms R_ops fsqrt of_Z s) -> tf (tname t) = term_value R_ops s (tsize t) (tval t)) by exact V2.
  split; [|split].
  - change (sum_of_squares (residual_vector R_ops fsqrt of_Z s)) with (sumsq (residual_vector R_ops fsqrt of_Z s)).
    apply objective_R. exact T.
  - intros name n g I. transitivity (term_value R_ops s n g); [exact (T (name, n, g) I)|apply term_value_R].
  - unfold objective. change (combine weight_order term_order) with (map (fun t => (tname t, tname t)) (terms R_ops fsqrt of_Z s)).
    match goal with |- _ = fold_right ?h 0 _ => assert (G : forall ts acc,
      fold_left (add_objective R_ops s tf) (map (fun t : string * option nat * (nat -> nat -> R) => (tname t, tname t)) ts) acc = acc + fold_right h 0 ts) end.
    { induction ts as [|[[name n] g] ts IH]; intros acc; cbn [map fold_left fold_right]; [lra|].
      rewrite IH. unfold add_objective. change (fst (tname (name, n, g), tname (name, n, g))) with name.
      change (snd (tname (name, n, g), tname (name, n, g))) with name. unfold used, weight.
      destruct (flt R_ops (fzero R_ops) (st_num s (String.append "weight_" name))); cbn [R_ops fadd fmul half fdiv fone ftwo]; unfold half; cbn [R_ops fdiv fone ftwo]; lra. }
    rewrite G. cbn. lra.
Qed.
Print Assumptions objective_is_half_norm.
Local Close Scope R_scope.

Section Runs.
Context {F : Type} (o : fops F) (fsqrt : F -> F) (of_Z : Z -> F) {Y : Type}.
Notation opt := (@stage F (@rest F Y)).
Variable rt : @routines F Y.
Variable gsl : nat -> opt -> Z -> list F -> list (@event F).
Variable junk : nat -> list F.
(** Hypotheses on the routines of class Qsc, the GSL minimizer, and the uninitialized array. *)
Definition called_ok : Prop := (exists fit, qsc_ok fit rt) /\ gsl_ok gsl /\ forall n, length (junk n) = n.
Notation run := (run_opt o fsqrt of_Z rt gsl junk).

(** ** C44: the history *)

(** No index is out of bounds, for any input accepted by Opt::input, whatever GSL does. *)
Theorem optimization_in_bounds : forall (s : opt) why, called_ok -> input_ok s -> run s <> UB why.
Proof. intros s why ((fit & H1) & H2 & H3) H. eapply safe_noub. apply run_opt_safe; eauto. Qed.

(** Entry [i] of each array of the history belongs to the [i]-th report; there are at most
    max_iter; the entries that are not used are zero; the configurations reported, and all
    others, have been computed, with their residuals and objective function; n_evals has grown
    by the number of evaluations. *)
Theorem optimization_history : forall (s s' : opt) (l : log), called_ok -> input_ok s -> run s = Ok (s', l) ->
  let na := n_modes s + st_fourier_refine s in
  let reported := map snd (filter fst l) in
  r_n_iter (st_rest s') = length reported /\
  (Z.of_nat (length reported) <= r_max_iter (st_rest s))%Z /\
  (forall i r, nth_error reported i = Some r -> shows na s' i r) /\
  (forall i, length reported <= i -> (Z.of_nat i < r_max_iter (st_rest s))%Z -> unused o na s' i) /\
  Forall (fun e => evaluated_at o fsqrt of_Z rt (snd e)) l /\
  r_n_evals (st_rest s') = (r_n_evals (st_rest s) + Z.of_nat (length (filter (fun e => negb (fst e)) l)))%Z.
Proof.
  intros s s' l ((fit & H1) & H2 & H3) H E na reported. pose proof (run_opt_safe o fsqrt of_Z rt gsl junk fit H1 H2 H3 s H) as D. rewrite E in D. cbn [safe] in D.
  destruct D as (s1 & Ea & R & S & I & X & N & V & Ev & Hf & Hf1 & [P Hh L Fe En Sg _]). cbn [fst snd] in *.
  destruct Hh as [A1 A2 A3 A4]. destruct S as (S1 & S2 & S3 & S4 & S5).
  assert (Hm := rd_max o s1 R).
  assert (Ena : length (qo_R0c (st_q s1)) + st_fourier_refine s1 = na).
  { rewrite S2. unfold na. f_equal. apply (modes_same s s1 I H R0c). }
  split; [exact A1|]. split; [|split; [|split; [|split]]].
  - rewrite A1 in A2. change (length (reports l)) with (length reported) in A2. lia.
  - intros i r Hi. specialize (A3 i r Hi). unfold column in A3. rewrite Ena in A3. exact A3.
  - intros i Hi1 Hi2. destruct (A4 i) as (B1 & B2 & B3); [change (length (reports l)) with (length reported); lia|].
    rewrite Ena in B2. split; [|split; auto].
    intros m v Im. destruct (recorded_table s' m v Im) as (x & Ix & _). eapply B1; eauto.
  - eapply Forall_impl; [|apply (lo_entry o fsqrt of_Z rt fit s1 l L)]. intros e (_ & _ & B & _ & _ & C). eapply evaluated_spec; eassumption.
  - rewrite Fe, Ev. reflexivity.
Qed.

(** The log is that of the runs of the minimizer, one for each step, each evaluation being at
    the point given by the minimizer; a step is left out only when there are no iterations
    left (or if the order of the expansion is not r2.1). *)
Theorem optimization_log : forall (s s' : opt) (l : log), called_ok -> input_ok s -> run s = Ok (s', l) ->
  exists j, j <= S (st_fourier_refine s) /\ steps_logged o gsl s j l /\
    (j = S (st_fourier_refine s) \/ (r_max_iter (st_rest s) - 1 <= Z.of_nat (length (filter fst l)))%Z \/
     l = [] /\ qx_order_r_option (r_q (st_rest s)) <> "r2.1"%string).
Proof.
  intros s s' l ((fit & H1) & H2 & H3) H E. pose proof (run_opt_safe o fsqrt of_Z rt gsl junk fit H1 H2 H3 s H) as D. rewrite E in D. cbn [safe] in D.
  destruct D as (s1 & Ea & R & S & I & X & N & V & Ev & Hf & Hf1 & [P Hh L Fe En (j & Hj & Sg & Why) _]). cbn [fst snd] in *.
  assert (S2 : st_fourier_refine s1 = st_fourier_refine s) by apply S.
  assert (S3 : r_max_iter (st_rest s1) = r_max_iter (st_rest s)) by apply S.
  rewrite S2 in Hj. exists j. split; [exact Hj|]. split; [apply (segs_same o gsl s s1); auto|].
  rewrite S2, S3 in Why. destruct Why as [W|[W|[W1 W2]]]; auto. right; right. split; auto.
  rewrite (proj2 X) in W2. intros C. rewrite C in W2. discriminate.
Qed.

(** The first record is the initial configuration. *)
Theorem first_record_is_start : forall (s s' : opt) (l : log), called_ok -> input_ok s -> run s = Ok (s', l) ->
  l <> [] ->
  exists r, nth_error (map snd (filter fst l)) 0 = Some r /\ r_j_fourier_refine (st_rest r) = 0 /\
    forall p, is_input p -> value (st_q r) p = start_value o s p.
Proof.
  intros s s' l HC H E Hl. destruct (optimization_log s s' l HC H E) as (j & _ & Hs & _).
  assert (Hlev : forall b r, In (b, r) l -> let j := r_j_fourier_refine (st_rest r) in forall p, is_input p -> ~ varied_in s j p -> value (st_q r) p = start_value o s p).
  { intros b r Hin j0 p Hp Hn. destruct HC as ((fit & H1) & H2 & H3). pose proof (run_opt_safe o fsqrt of_Z rt gsl junk fit H1 H2 H3 s H) as D. rewrite E in D. cbn [safe] in D.
    destruct D as (s1 & Ea & R & S & I & X & N & V & Ev & Hf & Hf1 & [P Hh L Fe En Sg _]). cbn [fst snd] in *.
    assert (Le := lo_entry o fsqrt of_Z rt fit s1 l L). rewrite Forall_forall in Le. specialize (Le _ Hin). destruct Le as (Hj & A & _).
    cbn [snd] in *. rewrite <- (init_value_same o s s1 S I p Hp). apply (ph_fixed o s1 j0 r (ac_phase _ _ _ _ _ _ _ A) p Hp).
    rewrite (free_at_same s s1 S V H Hf); auto. assert (S2 : st_fourier_refine s1 = st_fourier_refine s) by apply S. unfold j0. lia. }
  assert (G : forall j l, steps_logged o gsl s j l -> j = 0 /\ l = [] \/ exists seg l2 obj ps x0 left, l = seg ++ l2 /\
     (forall p, In p ps <-> varied_in s 0 p) /\ map Some x0 = map (start_value o s) ps /\ Forall2 (made ps) (gsl 0 obj left x0) seg /\
     Forall (fun e => r_j_fourier_refine (st_rest (snd e)) = 0) seg).
  { clear. induction 1 as [|j l obj ps x0 seg Hs IH left Hl Hd Hp Hx Hm Hlv]; [auto|]. right.
    destruct IH as [[-> ->]|(seg' & l2 & obj' & ps' & x0' & left' & -> & Rest)].
    - exists seg, [], obj, ps, x0, left. rewrite app_nil_r. auto.
    - exists seg', (l2 ++ seg), obj', ps', x0', left'. rewrite app_assoc. auto. }
  destruct (G j l Hs) as [[_ ->]|(seg & l2 & obj & ps & x0 & left & -> & Hp & Hx & Hm & Hlv)]; [congruence|].
  destruct HC as (_ & Hg & _). destruct (Hg 0 obj left x0) as (pre & its & failed & Eg & _). rewrite Eg in Hm. clear Eg.
  inversion Hm as [|? e0 ? seg1 M0 Hm1]; subst. apply Forall2_app_inv_l in Hm1 as (spre & seg2 & Mpre & Mrest & ->).
  inversion Mrest as [|? er ? seg3 Mr _]; subst.
  destruct er as [br r]. destruct M0 as [M0 _]. destruct Mr as [Mr Mv]. cbn [fst snd is_report point] in *. subst br.
  exists r. split; [|split].
  - cbn [app filter]. rewrite M0. repeat rewrite filter_app.
    assert (Ep : filter fst spre = []).
    { clear -Mpre. remember (map Eval pre) as es eqn:Ee. revert pre Ee. induction Mpre as [|e en es l2 M _ IH]; intros [|x pre] Ee; try discriminate; auto.
      cbn in Ee. injection Ee as -> ->. cbn [filter]. rewrite (proj1 M). cbn. eapply IH; eauto. }
    rewrite Ep. reflexivity.
  - rewrite Forall_forall in Hlv. apply (Hlv (true, r)). right. apply in_or_app. right. left. reflexivity.
  - intros p Hpi. destruct (in_dec param_dec p ps) as [Hi|Hi].
    + apply In_nth_error in Hi as (i & Hi). rewrite (Mv i p Hi).
      assert (Ex : nth_error (map Some x0) i = nth_error (map (start_value o s) ps) i) by (rewrite Hx; reflexivity).
      rewrite (map_nth_error _ i ps Hi) in Ex. rewrite nth_error_map in Ex. destruct (nth_error x0 i); cbn in Ex; congruence.
    + assert (Hr0 : r_j_fourier_refine (st_rest r) = 0).
      { rewrite Forall_forall in Hlv. apply (Hlv (true, r)). right. apply in_or_app. right. left. reflexivity. }
      apply (Hlev true r); auto.
      * apply in_or_app. left. right. apply in_or_app. right. left. reflexivity.
      * rewrite Hr0, <- Hp. exact Hi.
Qed.

(** If each run of the minimizer ends with a report (that is, unless the first iteration of a
    run fails), the final configuration is the last recorded one. *)
Theorem final_configuration : forall (s s' : opt) (l : log), called_ok -> input_ok s -> run s = Ok (s', l) -> l <> [] ->
  (forall j obj left x0, exists es x, gsl j obj left x0 = es ++ [Report x]) ->
  exists r, nth_error (map snd (filter fst l)) (r_n_iter (st_rest s') - 1) = Some r /\ st_q s' = st_q r.
Proof.
  intros s s' l HC H E Hl Hend. destruct (optimization_log s s' l HC H E) as (j & _ & Hs & _).
  destruct (optimization_history s s' l HC H E) as (Hn & _).
  pose proof HC as ((fit & H1) & H2 & H3). pose proof (run_opt_safe o fsqrt of_Z rt gsl junk fit H1 H2 H3 s H) as D. rewrite E in D. cbn [safe] in D.
  destruct D as (s1 & Ea & R & S & I & X & N & V & Ev & Hf & Hf1 & [P Hh L Fe En Sg _]). cbn [fst snd] in *.
  assert (G : exists l1 r, l = l1 ++ [(true, r)]).
  { destruct Hs as [|j l obj ps x0 seg _ left _ _ _ _ Hm _]; [congruence|].
    destruct (Hend j obj left x0) as (es & x & Eg). rewrite Eg in Hm.
    apply Forall2_app_inv_l in Hm as (l1 & l2 & _ & M & ->). inversion M as [|? [b r] ? ? Mr M']; subst. inversion M'; subst.
    destruct Mr as [Mb _]. cbn in Mb. subst b. exists (l ++ l1), r. rewrite app_assoc. reflexivity. }
  destruct G as (l1 & r & ->). exists r. split.
  - rewrite Hn. rewrite filter_app, map_app. cbn [filter fst map snd]. rewrite app_length. cbn [length].
    replace (length (map snd (filter fst l1)) + 1 - 1) with (length (map snd (filter fst l1))) by lia. apply nth_mid.
  - unfold ends_at in En. cbn [fst snd] in En. rewrite (last_app s) in En. apply En.
Qed.

(** ** C45: the Fourier refinement *)

(** In the step to which an evaluation belongs: which parameters were varied; those that were
    not have their initial values, new modes being zero; the resolution, and the number of
    parameters and of residuals are those of the step. *)
Theorem refinement_step : forall (s s' : opt) (l : log) b r, called_ok -> input_ok s -> run s = Ok (s', l) ->
  In (b, r) l ->
  let j := r_j_fourier_refine (st_rest r) in
  j <= st_fourier_refine s /\
  (forall p, free r p <-> varied_in s j p) /\
  (forall a, length (get_axis (st_q r) a) = n_modes s + st_fourier_refine s) /\
  (forall p, is_input p -> ~ varied_in s j p -> value (st_q r) p = start_value o s p) /\
  qx_nphi (r_q (st_rest r)) = nphi_in s j /\
  (exists ps, NoDup ps /\ (forall p, In p ps <-> varied_in s j p) /\ r_state_vector_names (st_rest r) = map param_name ps) /\
  r_residual_names (st_rest r) = residual_labels o fsqrt of_Z r.
Proof.
  intros s s' l b r ((fit & H1) & H2 & H3) H E Hin j. pose proof (run_opt_safe o fsqrt of_Z rt gsl junk fit H1 H2 H3 s H) as D. rewrite E in D. cbn [safe] in D.
  destruct D as (s1 & Ea & R & S & I & X & N & V & Ev & Hf & Hf1 & [P Hh L Fe En Sg _]). cbn [fst snd] in *.
  assert (Le := lo_entry o fsqrt of_Z rt fit s1 l L). rewrite Forall_forall in Le. specialize (Le _ Hin). destruct Le as (Hj & A & _).
  cbn [snd] in *. assert (S2 : st_fourier_refine s1 = st_fourier_refine s) by apply S.
  rewrite S2 in Hj. fold j in Hj, A.
  assert (T : forall p, free_at s1 j p <-> varied_in s j p) by (intros p; apply free_at_same; auto).
  assert (Fr : forall p, free r p <-> varied_in s j p).
  { intros p. rewrite <- T. apply (phase_free o s1 j r p (ac_phase _ _ _ _ _ _ _ A)). }
  split; [exact Hj|]. split; [exact Fr|]. split; [|split; [|split; [|split]]].
  - intros a. rewrite (ph_len o s1 j r (ac_phase _ _ _ _ _ _ _ A) a), S2. f_equal. apply (modes_same s s1 I H R0c).
  - intros p Hp Hn. rewrite <- (init_value_same o s s1 S I p Hp). apply (ph_fixed o s1 j r (ac_phase _ _ _ _ _ _ _ A) p Hp). rewrite T. exact Hn.
  - rewrite (ac_nphi _ _ _ _ _ _ _ A). apply nphi_same; auto.
  - exists (params (st_rest r)). split; [apply nodup_params|]. split; [|apply (ac_names _ _ _ _ _ _ _ A)].
    intros p. rewrite in_params. apply Fr.
  - apply (ac_labels _ _ _ _ _ _ _ A).
Qed.

(** The first evaluation is that of the initial configuration; the steps follow one another;
    and each step starts with the last configuration of the step before. *)
Theorem refinement_order : forall (s s' : opt) (l : log), called_ok -> input_ok s -> run s = Ok (s', l) ->
  (forall b r, nth_error l 0 = Some (b, r) ->
     r_j_fourier_refine (st_rest r) = 0 /\ forall p, is_input p -> value (st_q r) p = start_value o s p) /\
  (forall i b r b' r', nth_error l i = Some (b, r) -> nth_error l (S i) = Some (b', r') ->
     r_j_fourier_refine (st_rest r') = r_j_fourier_refine (st_rest r) \/
     r_j_fourier_refine (st_rest r') = S (r_j_fourier_refine (st_rest r)) /\ same_inputs (st_q r) (st_q r')) /\
  (* at the end, the configuration is that of the last evaluation *)
  (match nth_error l (length l - 1) with
   | Some (b, r) => st_q s' = st_q r /\ r_q (st_rest s') = r_q (st_rest r)
   | None => forall p, is_input p -> value (st_q s') p = start_value o s p
   end).
Proof.
  intros s s' l ((fit & H1) & H2 & H3) H E. pose proof (run_opt_safe o fsqrt of_Z rt gsl junk fit H1 H2 H3 s H) as D. rewrite E in D. cbn [safe] in D.
  destruct D as (s1 & Ea & R & S & I & X & N & V & Ev & Hf & Hf1 & [P Hh L Fe En Sg _]). cbn [fst snd] in *.
  split; [|split].
  - intros b r Hr. destruct (lo_first o fsqrt of_Z rt fit s1 l L _ Hr) as [A B]. split; [exact A|].
    intros p Hp. rewrite <- (init_value_same o s s1 S I p Hp). apply B; auto.
  - intros i b r b' r' Hr Hr'. apply (lo_next o fsqrt of_Z rt fit s1 l L i _ _ Hr Hr').
  - unfold ends_at, last_entry in En. cbn [fst snd] in En. destruct (nth_error l (length l - 1)) as [[b r]|]; auto.
    intros p Hp. rewrite <- (init_value_same o s s1 S I p Hp). apply En; auto.
Qed.

(** ** C46: checks of the input *)

(** An array of flags of the wrong size: the optimization throws, and it does so before the
    first evaluation: nothing depends on what an evaluation does, nor on the minimizer. *)
Theorem wrong_flags_rejected : forall (s : opt) st fit, qsc_ok fit rt -> ~ flagged s -> run s <> Ok st.
Proof. intros s st fit H Hf. apply (flags_checked o fsqrt of_Z rt gsl junk fit); auto. Qed.
Theorem wrong_flags_rejected_early : forall (s s1 : opt) fit,
  qsc_ok fit rt -> allocate o rt s = Ok s1 -> ~ flagged s ->
  exists why, forall calculate gsl' junk',
    optimize_log o fsqrt of_Z (mkRoutines (q_allocate rt) (q_init rt) calculate) gsl' junk' s1 = Throw why.
Proof.
  intros s s1 fit H Ea Hf.
  assert (Hf1 : ~ flagged s1).
  { intros Hc. apply Hf. intros a. specialize (Hc a). unfold allocate, on_q in Ea.
    destruct (q_allocate rt (st_q s) (r_q (st_rest s))) as [[q x]|e|e] eqn:Eq; cbn [bind fst snd] in Ea; try discriminate.
    cbn [with_q st_rest r_max_iter] in Ea. destruct (r_max_iter (st_rest s) <? 0)%Z; [discriminate|].
    injection Ea as <-. cbn [st_rest set_steps r_vary with_q st_q] in Hc. rewrite Hc. f_equal.
    apply (allocate_ok fit rt H _ _ _ _ Eq). }
  destruct (check_sizes_bad s1 Hf1) as (a & _ & Ec). eexists. intros c g j. unfold optimize_log. rewrite Ec. reflexivity.
Qed.
(** The exceptions of an optimization: those of the calculation, and those for a negative max_iter, flags of the wrong size, no parameter that is varied and no
    term with a positive weight, with these messages. *)
Theorem optimization_exceptions : forall (s : opt) w, called_ok -> input_ok s -> run s = Throw w ->
  (exists q x, q_allocate rt q x = Throw w \/ q_init rt q x = Throw w \/ q_calculate rt q x = Throw w) \/
  ((r_max_iter (st_rest s) < 0)%Z /\ w = "std::bad_alloc"%string) \/
  (exists a, length (r_vary (st_rest s) a) <> length (get_axis (st_q s) a) /\ w = String.append "Size of vary_" (String.append (axis_name a) " is incorrect")) \/
  ((forall p, ~ free s p) /\ w = "There must be at least 1 parameter varied."%string) \/
  ((forall name, In name term_names -> used o s name = false) /\ w = "There must be at least 1 residual term."%string).
Proof.
  intros s w ((fit & H1) & H2 & H3) H E.
  match goal with |- ?G => pose proof (run_opt_cases o fsqrt of_Z rt gsl junk fit H1 H2 H3 (fun w' => w' = w -> G) s H) as D end.
  rewrite E in D. cbn [safe] in D. apply D; try reflexivity.
  - intros q x w' _ Hq ->. left. exists q, x. auto.
  - intros q x w' _ _ Hq ->. left. exists q, x. auto.
  - intros q x w' _ Hq ->. left. exists q, x. auto.
  - intros Hm <-. auto.
  - intros a Ha <-. right. right. left. exists a. auto.
  - intros _ Hp <-. auto 8.
  - intros Ht <-. auto 8.
Qed.
(** At an order other than r2.1, nothing is evaluated. *)
Theorem evaluations_order : forall (s s' : opt) (l : log), called_ok -> input_ok s -> run s = Ok (s', l) -> l <> [] ->
  qx_order_r_option (r_q (st_rest s)) = "r2.1"%string.
Proof.
  intros s s' l ((fit & H1) & H2 & H3) H E Hl. pose proof (run_opt_safe o fsqrt of_Z rt gsl junk fit H1 H2 H3 s H) as D. rewrite E in D. cbn [safe] in D.
  destruct D as (s1 & Ea & R & S & I & X & N & V & Ev & Hf & Hf1 & Fi). pose proof (fi_order _ _ _ _ _ _ _ _ Fi Hl) as Eo. apply String.eqb_eq in Eo.
  rewrite (proj2 X) in Eo. exact Eo.
Qed.
(** If the order is r2.1 and max_iter is at least 2, an optimization that ends normally has evaluated a configuration. *)
Theorem optimization_evaluates : forall (s s' : opt) (l : log), called_ok -> input_ok s -> run s = Ok (s', l) ->
  qx_order_r_option (r_q (st_rest s)) = "r2.1"%string -> (2 <= r_max_iter (st_rest s))%Z -> l <> [].
Proof.
  intros s s' l ((fit & H1) & H2 & H3) H E Ho Hm El. pose proof (run_opt_safe o fsqrt of_Z rt gsl junk fit H1 H2 H3 s H) as D. rewrite E in D. cbn [safe] in D.
  destruct D as (s1 & Ea & R & S & I & X & N & V & Ev & Hf & Hf1 & [P Hh L Fe En (j & Hj & Sg & Fin) _]). cbn [fst snd] in *. subst l.
  destruct S as (_ & _ & Sm & _). rewrite Sm, (proj2 X), Ho in Fin. destruct Fin as [->|[Fin|[_ Fin]]]; [|cbn in Fin; lia|discriminate].
  inversion Sg as [|j0 l0 obj ps x0 seg _ _ _ _ _ M _ Ej Eq]. apply app_eq_nil in Eq. destruct Eq as (_ & ->).
  match type of M with Forall2 _ (gsl ?a ?b ?c ?d) _ => destruct (H2 a b c d) as (pre & its & fl & Hg & _); rewrite Hg in M; inversion M end.
Qed.
End Runs.
Print Assumptions optimization_in_bounds.
Print Assumptions optimization_history.
Print Assumptions optimization_log.
Print Assumptions first_record_is_start.
Print Assumptions final_configuration.
Print Assumptions refinement_step.
Print Assumptions refinement_order.
Print Assumptions wrong_flags_rejected.
Print Assumptions wrong_flags_rejected_early.
Print Assumptions optimization_exceptions.
Print Assumptions optimization_evaluates.
Print Assumptions evaluations_order.

Example called_example : called_ok ex_rt ex_gsl ex_junk.
Proof. split; [exists (fun _ _ => True); apply ex_rt_ok|]. split; [apply ex_gsl_ok|]. intros n. apply repeat_length. Qed.
(** [ex_runs] above is a run of an input that is [input_ok]. *)
Example wrong_flags_example : exists s s1,
  ~ flagged s /\ input_ok s /\ allocate D_ops ex_rt s = Ok s1.
Proof.
  exists (mkStage ex_weights ex_q (fun _ => []) (fun _ => mkMatrix 0 0 0 []) 1 (ex_rest 10%Z (fun _ => [true]) [])). eexists.
  split; [intros H; specialize (H R0c); discriminate|]. split; [split; [intros []; reflexivity|split; [split; [left; reflexivity|]|split; [|split]]; limits_tac]|].
  vm_compute. reflexivity.
Qed.

(** Without the condition on the minimizer, [final_configuration] is false: when the first
    iteration fails, the configuration is left at the last point that was tried, and not at
    the recorded one.  (With several stages, the next stage starts there.) *)
Definition ex_gsl_fails (j : nat) (s : @stage spec_float (@rest spec_float unit)) (maxiter : Z) (x0 : list spec_float) : list (@event spec_float) :=
  [Eval x0; Report x0; Eval (map (SFadd d_prec d_emax (fone D_ops)) x0)].
Lemma ex_gsl_fails_ok : gsl_ok ex_gsl_fails.
Proof.
  intros j s maxiter x0. exists [], [], [map (SFadd d_prec d_emax (fone D_ops)) x0].
  split; [reflexivity|]. split; [auto|]. split; [cbn [length]; lia|].
  repeat constructor; cbn [point]; rewrite ?map_length; reflexivity.
Qed.
Theorem final_configuration_refuted : exists (s s' r : @stage spec_float (@rest spec_float unit)) l,
  called_ok ex_rt ex_gsl_fails ex_junk /\ input_ok s /\
  run_opt D_ops (fun v => v) d_of_Z ex_rt ex_gsl_fails ex_junk s = Ok (s', l) /\ l <> [] /\
  nth_error (map snd (filter fst l)) (r_n_iter (st_rest s') - 1) = Some r /\
  qo_num (st_q s') "eta_bar"%string <> qo_num (st_q r) "eta_bar"%string.
Proof.
  observe (run_opt D_ops (fun v => v) d_of_Z ex_rt ex_gsl_fails ex_junk ex_opt) (fun y : ex_result =>
    (match snd y with [] => false | _ => true end,
     match nth_error (map snd (filter fst (snd y))) (r_n_iter (st_rest (fst y)) - 1) with
     | Some r => SFeqb (qo_num (st_q (fst y)) "eta_bar"%string) (qo_num (st_q r) "eta_bar"%string) || negb (SFeqb (qo_num (st_q r) "eta_bar"%string) (qo_num (st_q r) "eta_bar"%string))
     | None => true end)) (true, false) y E H. destruct y as [s l]. cbn [fst snd] in H. injection H as H1 H2.
  destruct (nth_error (map snd (filter fst l)) (r_n_iter (st_rest s) - 1)) as [r|] eqn:Er; [|discriminate].
  apply orb_false_iff in H2 as [H2 H3]. apply negb_false_iff in H3.
  exists ex_opt, s, r, l.
  split; [split; [exists (fun _ _ => True); apply ex_rt_ok|split; [apply ex_gsl_fails_ok|intros n; apply repeat_length]]|].
  split; [apply ex_input|]. split; [exact E|]. split; [intros ->; discriminate H1|]. split; [exact Er|].
  intros C. rewrite C in H2. congruence.
Qed.
Print Assumptions final_configuration_refuted.

(** With max_iter = 1 (or less) nothing is evaluated and nothing is recorded. *)
Theorem max_iter_one_evaluates_nothing : forall {F : Type} (o : fops F) (fsqrt : F -> F) (of_Z : Z -> F) {Y : Type} (rt : @routines F Y) gsl junk s s' l,
  called_ok rt gsl junk -> input_ok s -> run_opt o fsqrt of_Z rt gsl junk s = Ok (s', l) ->
  (r_max_iter (st_rest s) <= 1)%Z -> l = [] /\ r_n_iter (st_rest s') = 0.
Proof.
  intros F o fsqrt of_Z Y rt gsl junk s s' l HC H E Hm.
  destruct (optimization_log o fsqrt of_Z rt gsl junk s s' l HC H E) as (j & _ & Hs & _).
  assert (l = []).
  { inversion Hs as [|j' l' obj ps x0 seg Hs' left Hl]; auto. subst. unfold left in Hl. lia. }
  split; auto. destruct (optimization_history o fsqrt of_Z rt gsl junk s s' l HC H E) as (-> & _). subst. reflexivity.
Qed.
Print Assumptions max_iter_one_evaluates_nothing.
Example max_iter_one_example : exists s', ex_run (mkStage ex_weights ex_q (fun _ => []) (fun _ => mkMatrix 0 0 0 []) 0 (ex_rest 1%Z ex_vary [])) = Ok (s', []).
Proof.
  match goal with |- exists s', ?x = _ => observe x (@snd (@stage spec_float (@rest spec_float unit)) (list (bool * @stage spec_float (@rest spec_float unit)))) (@nil (bool * @stage spec_float (@rest spec_float unit))) y E H end.
  destruct y as [s l]. exists s. cbn in H. subst l. exact E.
Qed.

(** The array nphi, and the default flags: what Opt::input accepts. *)
Theorem opt_input_nphi_size : forall {F : Type} (conv : Z -> F) (n : nat) (indata : @Toml.table F) s alg dm s' alg' dm' l fr,
  Toml.opt_input conv n indata s alg dm = Ok (s', alg', dm') ->
  s' "nphi"%string = Toml.VInts l -> s' "fourier_refine"%string = Toml.VInt fr ->
  l = [] \/ Z.of_nat (length l) = (fr + 1)%Z.
Proof.
  intros F conv n indata s alg dm s' alg' dm' l fr E Hl Hfr. unfold Toml.opt_input in E.
  repeat match type of E with
  | (bind ?x _) = Ok _ => let y := fresh "y" in destruct x as [y|?|?] eqn:?; cbn [bind] in E; try discriminate
  end.
  injection E as <- <- <-. cbn [snd] in *. rewrite Hl in *. rewrite Hfr in *. cbn [Toml.ints_of Toml.int_of] in *.
  repeat match goal with H : Ok _ = Ok _ |- _ => injection H as <- end.
  match goal with H : (if ?b then Throw _ else Ok tt) = Ok _ |- _ => destruct b eqn:Eb; [discriminate|] end.
  apply andb_false_iff in Eb as [Eb|Eb].
  - apply Nat.ltb_ge in Eb. left. destruct l; [auto|cbn in Eb; lia].
  - apply negb_false_iff, Z.eqb_eq in Eb. auto.
Qed.
Print Assumptions opt_input_nphi_size.
