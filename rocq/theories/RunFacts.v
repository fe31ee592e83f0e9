(** The calculation of a configuration: which members are read, and which are assigned. *)
From Coq Require Import String ZArith List Arith Bool Lia.
From Verif Require Import Base BaseFacts FloatOps MathOps Tensor ScanFacts Newton NewtonFacts R1 R1Facts R2 R2Facts RSing GradGradB Diff DiffFacts Axis AxisFacts.
From Verif Require Import Alloc AllocSpec AllocFacts Options OptionsSpec NetCDF NetCDFOut NetCDFSpec Toml TomlSpec TomlFacts Run RunSpec.
Import ListNotations.
Local Open Scope string_scope.
Local Open Scope nat_scope.

(** ** Assignments *)
Definition inb (x : string) (l : list string) : bool := existsb (String.eqb x) l.
Lemma inb_In x l : inb x l = true <-> In x l.
Proof.
  unfold inb. rewrite existsb_exists. split.
  - intros (y & H & E). apply String.eqb_eq in E. subst. exact H.
  - intros H. exists x. split; [exact H|apply String.eqb_refl].
Qed.
Lemma update_in {A} (l : list (string * A)) f g x : In x (map fst l) -> update l f x = update l g x.
Proof.
  intros H. unfold update. destruct (find _ l) eqn:E; [reflexivity|]. exfalso. apply in_map_iff in H. destruct H as (p & <- & Hp).
  apply (find_none _ _ E) in Hp. rewrite String.eqb_refl in Hp. discriminate.
Qed.
Lemma update_out {A} (l : list (string * A)) f x : ~ In x (map fst l) -> update l f x = f x.
Proof.
  intros H. unfold update. destruct (find _ l) as [p|] eqn:E; [|reflexivity]. exfalso. apply H. apply find_some in E. destruct E as (E & Ex).
  apply String.eqb_eq in Ex. subst. apply in_map. exact E.
Qed.
Lemma update_all {A} (P : string -> A -> Prop) (l : list (string * A)) f : Forall (fun p => P (fst p) (snd p)) l -> (forall x, P x (f x)) -> forall x, P x (update l f x).
Proof.
  intros Hl Hf x. unfold update. destruct (find _ l) as [p|] eqn:E; [|apply Hf]. apply find_some in E. destruct E as (E & Ex).
  apply String.eqb_eq in Ex. subst. rewrite Forall_forall in Hl. apply Hl. exact E.
Qed.

(** The names of the members that are assigned. *)
Definition axis_floats : list string := [
  "d_phi"; "B0_over_abs_G0"; "abs_G0_over_B0"; "d_l_d_varphi"; "G0"; "grid_min_R0"; "axis_length"; "grid_max_curvature"; "rms_curvature"; "mean_R"; 
  "mean_Z"; "standard_deviation_of_R"; "standard_deviation_of_Z"].
Definition axis_arrays : list string := [
  "phi"; "d_d_phi"; "R0"; "Z0"; "R0p"; "Z0p"; "R0pp"; "Z0pp"; "R0ppp"; "Z0ppp"; "d_l_d_phi"; "d2_l_d_phi2"; "curvature"; "torsion"; "d_d_varphi"; 
  "Boozer_toroidal_angle"].
Definition r1_floats : list string := [
  "iota_N"; "grid_max_elongation"; "mean_elongation"; "grid_min_L_grad_B"].
Definition r1_arrays : list string := [
  "X1c"; "Y1s"; "Y1c"; "elongation"; "d_X1c_d_varphi"; "d_Y1s_d_varphi"; "d_Y1c_d_varphi"; "grad_B_tensor"; "L_grad_B"; "L_grad_B_inverse"].
Definition r2_floats : list string := [
  "G2"; "beta_1s"; "B20_grid_variation"; "B20_mean"; "B20_residual"; "grid_max_XY2"; "grid_max_Z2"; "grid_max_d_XY2_d_varphi"; 
  "grid_max_d2_XY2_d_varphi2"; "grid_max_d_Z2_d_varphi"].
Definition r2_arrays : list string := [
  "X20"; "X2s"; "X2c"; "Y20"; "Y2s"; "Y2c"; "Z20"; "Z2s"; "Z2c"; "B20"; "B20_anomaly"; "d_X20_d_varphi"; "d_X2s_d_varphi"; "d_X2c_d_varphi"; 
  "d_Y20_d_varphi"; "d_Y2s_d_varphi"; "d_Y2c_d_varphi"; "d_Z20_d_varphi"; "d_Z2s_d_varphi"; "d_Z2c_d_varphi"; "d2_X20_d_varphi2"; "d2_X2s_d_varphi2"; 
  "d2_X2c_d_varphi2"; "d2_Y20_d_varphi2"; "d2_Y2s_d_varphi2"; "d2_Y2c_d_varphi2"; "d2_Z20_d_varphi2"; "d2_Z2s_d_varphi2"; "d2_Z2c_d_varphi2"].
Definition r2p1_floats : list string := [
  "grid_max_XY3"; "grid_max_d_XY3_d_varphi"; "grid_max_d2_XY3_d_varphi2"].
Definition r2p1_arrays : list string := [
  "lambda_for_XY3"; "X3c1"; "Y3c1"; "Y3s1"; "d_X3c1_d_varphi"; "d_Y3c1_d_varphi"; "d_Y3s1_d_varphi"; "d2_X3c1_d_varphi2"; "d2_Y3c1_d_varphi2"; 
  "d2_Y3s1_d_varphi2"].
Definition mercier_floats : list string := [
  "d2_volume_d_psi2"; "DWell_times_r2"; "DGeod_times_r2"; "DMerc_times_r2"].
Definition grad_grad_B_floats : list string := [
  "grid_min_L_grad_grad_B"].
Definition grad_grad_B_arrays : list string := [
  "grad_grad_B_tensor"; "L_grad_grad_B"; "L_grad_grad_B_inverse"].
Definition singularity_floats : list string := [
  "r_singularity_robust"; "beta"].
Definition singularity_arrays : list string := [
  "r_hat_singularity_robust"].

Section Facts.
Context {F : Type} (o : fops F) (mo : mops F).
Variable ge0 : F -> bool.
Variables newton_tol mu0 : F.
Variable newton_linear_solve : (nat -> nat -> F) -> list F -> outcome (list F).
Variable linear_solve : matrix F -> list F -> outcome (list F).
Variable geev : list F -> Z * (list F * list F).
Variable tol : tolerances F.
Variable finite : F -> bool.
Notation members := (members F).
Notation calculate := (calculate o mo ge0 mu0 newton_linear_solve linear_solve geev tol finite).
Notation run := (run o mo ge0 newton_tol mu0 newton_linear_solve linear_solve geev tol finite).
Notation init := (init o).

(** Two objects that agree on the flags, the option, and the members of three lists. *)
Record agree (I Fl A : list string) (e e' : members) : Prop := mkAgree {
  ag_int : forall x, In x I -> m_int F e x = m_int F e' x;
  ag_float : forall x, In x Fl -> m_float F e x = m_float F e' x;
  ag_array : forall x, In x A -> m_array F e x = m_array F e' x;
  ag_flag : forall x, In x ["at_least_order_r2"; "order_r2p1"; "order_r3"] -> m_flag F e x = m_flag F e' x;
  ag_text : m_text F e "order_r_option" = m_text F e' "order_r_option" }.
Lemma update_agree {A} (l : list (string * A)) f g L : (forall x, In x L -> f x = g x) -> forall x, In x (map fst l ++ L) -> update l f x = update l g x.
Proof.
  intros H x Hx. destruct (inb x (map fst l)) eqn:E.
  - apply update_in. apply inb_In. exact E.
  - assert (N : ~ In x (map fst l)) by (intros C; apply inb_In in C; congruence).
    rewrite !update_out by exact N. apply H. apply in_app_or in Hx. tauto.
Qed.
Lemma ints_agree I Fl A l e e' : agree I Fl A e e' -> agree (map fst l ++ I) Fl A (with_ints l e) (with_ints l e').
Proof. intros []. constructor; cbn; auto; apply update_agree; auto. Qed.
Lemma floats_agree I Fl A l e e' : agree I Fl A e e' -> agree I (map fst l ++ Fl) A (with_floats l e) (with_floats l e').
Proof. intros []. constructor; cbn; auto; apply update_agree; auto. Qed.
Lemma arrays_agree I Fl A l e e' : agree I Fl A e e' -> agree I Fl (map fst l ++ A) (with_arrays l e) (with_arrays l e').
Proof. intros []. constructor; cbn; auto; apply update_agree; auto. Qed.
Lemma agree_weaken I Fl A I' Fl' A' e e' : agree I Fl A e e' -> incl I' I -> incl Fl' Fl -> incl A' A -> agree I' Fl' A' e e'.
Proof. intros [] H1 H2 H3. constructor; auto. Qed.

(** ** The output file *)
Definition covered_source (I Fl A : list string) (s : source) : bool :=
  match s with
  | SInt x => inb x I | SFloat x => inb x Fl | SVector _ x | SArray _ x => inb x A
  | SFlag x => inb x ["at_least_order_r2"; "order_r2p1"; "order_r3"] | SText x => String.eqb x "order_r_option" | SLit _ => true
  | _ => false
  end.
Definition flag_value (fl : bool * bool * bool) (x : string) : option bool :=
  let '(f2, f21, f3) := fl in
  if String.eqb x "at_least_order_r2" then Some f2 else if String.eqb x "order_r2p1" then Some f21 else if String.eqb x "order_r3" then Some f3 else None.
Definition covered_put (fl : bool * bool * bool) (I Fl A : list string) (p : put) : bool :=
  let '(Put when _ what) := p in
  forallb (fun c => inb (fst c) ["at_least_order_r2"; "order_r2p1"; "order_r3"]) when &&
  (negb (forallb (fun c => match flag_value fl (fst c) with Some b => Bool.eqb b (snd c) | None => true end) when) || covered_source I Fl A what).
Definition covered_dim (I A : list string) (d : dim_stmt) : bool :=
  match d with Dim _ _ (ZInt x) => inb x I | Dim _ _ (ZArray x) => inb x A | Dim _ _ (ZLit _) => true | _ => false end.
Definition flags_of (e : members) : bool * bool * bool := (m_flag F e "at_least_order_r2", m_flag F e "order_r2p1", m_flag F e "order_r3").
Lemma write_agree I Fl A e e' of_int w dims puts : agree I Fl A e e' -> forallb (covered_dim I A) dims = true ->
  forallb (covered_put (flags_of e) I Fl A) puts = true -> write_file F of_int e w dims puts = write_file F of_int e' w dims puts.
Proof.
  intros Ha Hd Hp. unfold write_file.
  assert (Ed : forall st, run_dims F e st dims = run_dims F e' st dims).
  { induction dims as [|d l IH]; intros st; [reflexivity|]. cbn [forallb] in Hd. apply andb_prop in Hd. destruct Hd as (H1 & H2). cbn [run_dims].
    assert (E : run_dim F e st d = run_dim F e' st d).
    { destruct d as [x name [y|y|y|z]|x name]; cbn [covered_dim] in H1; try discriminate; cbn [run_dim dim_size]; try reflexivity.
      - rewrite (ag_int _ _ _ _ _ Ha) by (apply inb_In; auto). reflexivity.
      - rewrite (ag_array _ _ _ _ _ Ha) by (apply inb_In; auto). reflexivity. }
    rewrite E. destruct (run_dim F e' st d); cbn [bind]; auto. }
  rewrite Ed. destruct (run_dims F e' ([], w) dims) as [st| |]; cbn [bind]; auto.
  assert (Ep : forall w, run_puts F of_int e (fst st) w puts = run_puts F of_int e' (fst st) w puts).
  { induction puts as [|p l IH]; intros w0; [reflexivity|]. cbn [forallb] in Hp. apply andb_prop in Hp. destruct Hp as (H1 & H2). cbn [run_puts].
    assert (E : run_put F of_int e (fst st) w0 p = run_put F of_int e' (fst st) w0 p).
    { destruct p as [when name what]. cbn [covered_put] in H1. apply andb_prop in H1. destruct H1 as (Hw & Hs). cbn [run_put].
      assert (Eact : active F e when = active F e' when).
      { unfold active. clear Hs. induction when as [|c when IHw]; [reflexivity|]. cbn [forallb] in *. apply andb_prop in Hw. destruct Hw as (Hc & Hw).
        rewrite (ag_flag _ _ _ _ _ Ha) by (apply inb_In; exact Hc). rewrite IHw by exact Hw. reflexivity. }
      rewrite Eact. destruct (active F e' when) eqn:Act; [|reflexivity].
      assert (Hc : covered_source I Fl A what = true).
      { apply orb_prop in Hs. destruct Hs as [Hs|Hs]; [|exact Hs]. exfalso. apply negb_true_iff in Hs.
        enough (forallb (fun c => match flag_value (flags_of e) (fst c) with Some b => Bool.eqb b (snd c) | None => true end) when = true) by congruence.
        clear Act. rename Eact into Act. unfold active in Act. apply forallb_forall. intros c Hin. rewrite forallb_forall in Act. specialize (Act c Hin). cbn beta in Act.
        unfold flag_value, flags_of. 
        destruct (String.eqb_spec (fst c) "at_least_order_r2") as [E1|_]; [rewrite E1 in Act; exact Act|].
        destruct (String.eqb_spec (fst c) "order_r2p1") as [E1|_]; [rewrite E1 in Act; exact Act|].
        destruct (String.eqb_spec (fst c) "order_r3") as [E1|_]; [rewrite E1 in Act; exact Act|reflexivity]. }
      destruct what; cbn [covered_source] in Hc; try discriminate; try reflexivity.
      - rewrite (ag_int _ _ _ _ _ Ha) by (apply inb_In; exact Hc). reflexivity.
      - rewrite (ag_flag _ _ _ _ _ Ha) by (apply inb_In; exact Hc). reflexivity.
      - rewrite (ag_float _ _ _ _ _ Ha) by (apply inb_In; exact Hc). reflexivity.
      - apply String.eqb_eq in Hc. subst. rewrite (ag_text _ _ _ _ _ Ha). reflexivity.
      - rewrite (ag_array _ _ _ _ _ Ha) by (apply inb_In; exact Hc). reflexivity.
      - rewrite (ag_array _ _ _ _ _ Ha) by (apply inb_In; exact Hc). reflexivity. }
    rewrite E. destruct (run_put F of_int e' (fst st) w0 p); cbn [bind]; auto. }
  rewrite Ep. reflexivity.
Qed.

(** ** The steps *)
Lemma agree_eq I Fl A I' Fl' A' e e' : agree I Fl A e e' -> I = I' -> Fl = Fl' -> A = A' -> agree I' Fl' A' e e'.
Proof. intros H <- <- <-. exact H. Qed.
Ltac assign_agree := let H := fresh in intros H; eapply agree_eq; [repeat first [exact H|apply ints_agree|apply floats_agree|apply arrays_agree]|reflexivity|reflexivity|reflexivity].
Lemma axis_agree I Fl A d s a h e e' : agree I Fl A e e' ->
  agree ("helicity" :: I) (axis_floats ++ Fl) (axis_arrays ++ A) (assign_axis o d s a h e) (assign_axis o d s a h e').
Proof. assign_agree. Qed.
Lemma r1_agree I Fl A n q e e' : agree I Fl A e e' -> agree I (r1_floats ++ Fl) (r1_arrays ++ A) (assign_r1 n q e) (assign_r1 n q e').
Proof. assign_agree. Qed.
Lemma r2_agree I Fl A i s e e' : agree I Fl A e e' -> agree I (r2_floats ++ Fl) (r2_arrays ++ A) (assign_r2 o i s e) (assign_r2 o i s e').
Proof. assign_agree. Qed.
Lemma r2p1_agree I Fl A i t e e' : agree I Fl A e e' -> agree I (r2p1_floats ++ Fl) (r2p1_arrays ++ A) (assign_r2p1 o i t e) (assign_r2p1 o i t e').
Proof. assign_agree. Qed.
Lemma mercier_agree I Fl A w e e' : agree I Fl A e e' -> agree I (mercier_floats ++ Fl) A (assign_mercier w e) (assign_mercier w e').
Proof. assign_agree. Qed.
Lemma grad_grad_B_agree I Fl A i s e e' : agree I Fl A e e' ->
  agree I (grad_grad_B_floats ++ Fl) (grad_grad_B_arrays ++ A) (assign_grad_grad_B o mo i s e) (assign_grad_grad_B o mo i s e').
Proof. assign_agree. Qed.
Lemma singularity_agree I Fl A g e e' : agree I Fl A e e' ->
  agree I (singularity_floats ++ Fl) (singularity_arrays ++ A) (assign_singularity g e) (assign_singularity g e').
Proof. assign_agree. Qed.

(** Newton's method calls the residual first, which assigns the members it keeps its data in. *)
Lemma solve_any_user i mn ml t u u' : solve_sigma_equation o mo i newton_linear_solve mn ml t u = solve_sigma_equation o mo i newton_linear_solve mn ml t u'.
Proof. unfold solve_sigma_equation. destruct (aset _ 0 _) as [st| |]; cbn [bind]; reflexivity. Qed.

(** The length of sigma. *)
Section Length.
Variable i : r1_input F.
Let n := a_nphi (i_axis i).
Let rf := sigma_eq_residual o mo i.
Lemma residual_length s u r u' : rf s u = Ok (r, u') -> length (u_sigma u') = length s.
Proof.
  unfold rf, sigma_eq_residual, aset. destruct (0 <? length s) eqn:E; cbn [bind]; [|discriminate].
  destruct (aget s 0); cbn [bind]; [|discriminate|discriminate]. injection 1 as <- <-. cbn [u_sigma]. apply upd_length.
Qed.
Definition good (s : nst (F := F) (U := sigma_user F)) : Prop := length (n_state s) = n /\ length (u_sigma (n_user s)) = n.
Lemma linesearch_length k : forall s0 step sc last s s', length s0 = n -> good s -> linesearch o rf k s0 step sc last s = Ok s' -> good s'.
Proof.
  induction k as [|k IH]; intros s0 step sc last s s' H0 Hs H; cbn [linesearch] in H; [injection H as <-; exact Hs|].
  unfold axpy in H. destruct (Nat.eqb_spec (length s0) (length step)) as [L|]; cbn [bind] in H; [|discriminate].
  set (st := map _ _) in H. assert (Ls : length st = n) by (unfold st; rewrite map_length, combine_length; lia).
  destruct (rf st (n_user s)) as [[r u]| |] eqn:Er; cbn [bind fst snd] in H; try discriminate.
  destruct (dot_product o r r) as [nm| |]; cbn [bind] in H; try discriminate.
  assert (G : good (mkNst st r nm u)) by (split; cbn; [exact Ls|rewrite (residual_length _ _ _ _ Er); exact Ls]).
  destruct (flt o nm last); [injection H as <-; exact G|]. exact (IH _ _ _ _ _ _ H0 G H).
Qed.
Lemma newton_loop_length k ml t : forall s x, good s -> newton_loop o rf (sigma_eq_jacobian o mo i) newton_linear_solve k ml t s = Ok x -> good (snd x).
Proof.
  induction k as [|k IH]; intros s x Hs H; cbn [newton_loop] in H; [injection H as <-; exact Hs|].
  destruct (flt o (n_norm s) t); [injection H as <-; exact Hs|].
  unfold sigma_eq_jacobian at 1 in H. cbn [bind fst snd] in H.
  match type of H with bind ?y _ = _ => destruct y as [step| |] end; cbn [bind] in H; try discriminate.
  match type of H with bind ?y _ = _ => destruct y as [s'| |] eqn:El end; cbn [bind] in H; try discriminate.
  assert (G : good s') by (eapply linesearch_length; [| |exact El]; [apply Hs|split; cbn; apply Hs]).
  destruct (flt o (n_norm s) (n_norm s')); [|exact (IH _ _ G H)].
  injection H as <-. split; cbn; [apply Hs|apply G].
Qed.
Lemma solve_length mn ml t u st s r u' : solve_sigma_equation o mo i newton_linear_solve mn ml t u = Ok (st, s, r, u') -> length (u_sigma u') = n.
Proof.
  unfold solve_sigma_equation. unfold aset. destruct (0 <? _); cbn [bind]; [|discriminate]. set (s0 := upd _ _ _).
  assert (L : length s0 = n) by (unfold s0; rewrite upd_length, repeat_length; reflexivity).
  unfold newton_solve. fold rf. destruct (rf s0 u) as [[r0 u0]| |] eqn:Er; cbn [bind fst snd]; try discriminate.
  destruct (dot_product o r0 r0) as [nm| |]; cbn [bind]; try discriminate.
  destruct (newton_loop _ _ _ _ _ _ _ _) as [x| |] eqn:El; cbn [bind]; try discriminate. injection 1 as <- <- <- <-.
  apply newton_loop_length in El; [apply El|]. split; cbn; [exact L|rewrite (residual_length _ _ _ _ Er); exact L].
Qed.
End Length.

(** The linear system of second order does not depend on what the memory contained. *)
Lemma mat_ext r c (m m' : matrix F) : mat_ok r c m -> mat_ok r c m' -> m_len m = m_len m' -> (forall i j, i < r -> j < c -> entry o m i j = entry o m' i j) -> m = m'.
Proof.
  intros (H1 & H2 & H3) (H1' & H2' & H3') Hl He. destruct m as [a b l d], m' as [a' b' l' d']. cbn [m_nrows m_ncols m_len m_data] in *. subst. f_equal.
  apply (nth_ext _ _ (fzero o) (fzero o)); [congruence|]. intros k Hk. rewrite H3 in Hk.
  destruct (Nat.eq_dec r 0) as [->|Hr]; [cbn in Hk; lia|].
  specialize (He (k mod r) (k / r) ltac:(apply Nat.mod_upper_bound; exact Hr) ltac:(apply Nat.div_lt_upper_bound; [exact Hr|lia])).
  unfold entry in He. cbn [m_nrows m_data] in He. replace (k mod r + r * (k / r)) with k in He by (rewrite (Nat.div_mod k r Hr) at 1; lia). exact He.
Qed.
Lemma matrix_set_len (m m' : matrix F) i j v : matrix_set m i j v = Ok m' -> m_len m' = m_len m.
Proof. unfold matrix_set. destruct (aset _ _ _); cbn [bind]; try discriminate. injection 1 as <-. reflexivity. Qed.
Lemma for_from_keep {S} (P : S -> S -> Prop) (body : nat -> S -> outcome S) : (forall s, P s s) -> (forall a b c, P a b -> P b c -> P a c) ->
  (forall k s s', body k s = Ok s' -> P s s') -> forall m k s s', for_from k m body s = Ok s' -> P s s'.
Proof.
  intros Hr Ht Hb m. induction m as [|m IH]; intros k s s' H; cbn [for_from] in H; [injection H as <-; apply Hr|].
  destruct (body k s) as [s1| |] eqn:E; cbn [bind] in H; try discriminate. eapply Ht; [eapply Hb; exact E|eapply IH; exact H].
Qed.
Definition same_len (m m' : matrix F) : Prop := m_len m' = m_len m.
Lemma fill_matrix_len i m m' : fill_matrix o mo i m = Ok m' -> m_len m' = m_len m.
Proof.
  assert (R : forall s, same_len s s) by reflexivity. assert (T : forall a b c, same_len a b -> same_len b c -> same_len a c) by (unfold same_len; congruence).
  apply (for_from_keep same_len (fill_row o mo i) R T). intros j s s' H. unfold fill_row in H.
  assert (St : forall f m1 m2, (forall k s s', f k s = Ok s' -> same_len s s') -> for_loop m1 f s = Ok m2 -> same_len s m2) by (intros f m1 m2 Hf E; exact (for_from_keep same_len f R T Hf _ _ _ _ E)).
  match type of H with bind ?y _ = _ => destruct y as [m1| |] eqn:E1 end; cbn [bind] in H; try discriminate. apply St in E1.
  2: { intros k s1 s2 H1. unfold fill_entry in H1. 
       repeat match type of H1 with bind ?y _ = _ => let E := fresh "E" in destruct y eqn:E; cbn [bind] in H1; try discriminate; apply matrix_set_len in E end.
       apply matrix_set_len in H1. unfold same_len. congruence. }
  repeat match type of H with bind ?y _ = _ => let E := fresh "E" in destruct y eqn:E; cbn [bind] in H; try discriminate; try apply matrix_set_len in E end.
  apply matrix_set_len in H. unfold same_len in *. congruence.
Qed.
Lemma calculate_r2_any i m m' r r' : let n := a_nphi (i_axis (j_r1 i)) in
  mat_ok (2 * n) (2 * n) m -> mat_ok (2 * n) (2 * n) m' -> m_len m = m_len m' -> length r = 2 * n -> length r' = 2 * n ->
  calculate_r2 o mo i linear_solve m r = calculate_r2 o mo i linear_solve m' r'.
Proof.
  intros n Hm Hm' Hl Hr Hr'. unfold calculate_r2.
  destruct (fill_matrix_ok o mo i m Hm) as (x & E & O & V). destruct (fill_matrix_ok o mo i m' Hm') as (x' & E' & O' & V').
  assert (Ex : x = x').
  { apply (mat_ext (2 * n) (2 * n)); auto; [rewrite (fill_matrix_len _ _ _ E), (fill_matrix_len _ _ _ E'); exact Hl|]. intros p q Hp Hq. rewrite V, V' by auto. reflexivity. }
  rewrite E, E', Ex. cbn [bind].
  destruct (fill_rhs_ok o mo i r Hr) as (y & Er & L & W). destruct (fill_rhs_ok o mo i r' Hr') as (y' & Er' & L' & W').
  assert (Ey : y = y').
  { apply (nth_ext _ _ (fzero o) (fzero o)); [congruence|]. intros k Hk. rewrite L in Hk. fold n in Hk. destruct (Nat.lt_ge_cases k n) as [H|H].
    - rewrite (proj1 (W k H)), (proj1 (W' k H)). reflexivity.
    - pose proof (proj2 (W (k - n) ltac:(fold n; lia))) as A. pose proof (proj2 (W' (k - n) ltac:(fold n; lia))) as B. fold n in A, B.
      replace (k - n + n) with k in * by lia. congruence. }
  rewrite Er, Er', Ey. reflexivity.
Qed.

(** ** What the calculation keeps: the inputs, and the sizes of the arrays *)
Definition want (n : nat) (x : string) : option nat :=
  if inb x (vectors_first ++ vectors_r2 ++ vectors_r3 ++ ["lambda_for_XY3"; "ipiv"])%list then Some n
  else if inb x ["d_d_phi"; "d_d_varphi"; "work_matrix"] then Some (n * n)
  else if inb x ["quadrant"] then Some (n + 1) else if inb x ["grad_B_tensor"] then Some (n * 9)
  else if inb x ["r2_matrix"] then Some (2 * n * (2 * n)) else if inb x ["r2_rhs"; "r2_ipiv"] then Some (2 * n)
  else if inb x ["grad_grad_B_tensor"] then Some (n * 27) else None.
Lemma want_vector n (l : list string) : forallb (fun x => inb x (vectors_first ++ vectors_r2 ++ vectors_r3 ++ ["lambda_for_XY3"; "ipiv"])%list) l = true ->
  forall x, In x l -> want n x = Some n.
Proof. intros H x Hx. rewrite forallb_forall in H. specialize (H x Hx). unfold want. rewrite H. reflexivity. Qed.
Lemma required_want r2 r2p1 r3 (z : Z) x s : (0 <= z)%Z -> required r2 r2p1 r3 z x s -> exists k, want (Z.to_nat z) x = Some k /\ fold_right Z.mul 1%Z s = Z.of_nat k.
Proof.
  intros Hz H. assert (V : fold_right Z.mul 1%Z [z] = Z.of_nat (Z.to_nat z)) by (cbn [fold_right]; lia).
  destruct H as [x Hx|x _ Hx|_|x _ Hx| | | | | | |_|_|_|_];
    try (eexists; split; [eapply want_vector; [|exact Hx]; vm_compute; reflexivity|exact V]);
    (eexists; split; [reflexivity|]; cbn [fold_right]; rewrite ?Nat2Z.inj_mul, ?Nat2Z.inj_add, ?Z2Nat.id by lia; ring).
Qed.
Definition wellsized (n : nat) (l : list (string * list F)) : Prop := Forall (fun p => want n (fst p) = Some (length (snd p))) l.
Record keeps (n : nat) (e e' : members) : Prop := mkKeeps {
  k_int : forall x, In x input_ints -> m_int F e' x = m_int F e x;
  k_float : forall x, In x input_floats -> m_float F e' x = m_float F e x;
  k_array : forall x, In x (axis_members ++ never_set) -> m_array F e' x = m_array F e x;
  k_flag : forall x, m_flag F e' x = m_flag F e x;
  k_text : forall x, m_text F e' x = m_text F e x;
  k_size : forall x k, want n x = Some k -> length (m_array F e x) = k -> length (m_array F e' x) = k }.
Lemma keeps_refl n e : keeps n e e. Proof. constructor; auto. Qed.
Lemma keeps_trans n e e1 e2 : keeps n e e1 -> keeps n e1 e2 -> keeps n e e2.
Proof.
  intros [A1 A2 A3 A4 A5 A6] [B1 B2 B3 B4 B5 B6]. constructor; intros.
  - rewrite B1, A1 by assumption. reflexivity.
  - rewrite B2, A2 by assumption. reflexivity.
  - rewrite B3, A3 by assumption. reflexivity.
  - rewrite B4, A4. reflexivity.
  - rewrite B5, A5. reflexivity.
  - apply B6, A6; assumption.
Qed.
Definition apart (l l' : list string) : bool := forallb (fun x => negb (inb x l)) l'.
Lemma apart_out {A} (l : list (string * A)) l' names f x : map fst l = names -> apart names l' = true -> In x l' -> update l f x = f x.
Proof.
  intros E H Hx. apply update_out. rewrite E. intros C. apply inb_In in C. unfold apart in H. rewrite forallb_forall in H. specialize (H x Hx).
  rewrite C in H. discriminate.
Qed.
Lemma ints_keep n l names e : map fst l = names -> apart names input_ints = true -> keeps n e (with_ints l e).
Proof. intros E H. constructor; cbn; auto. intros x Hx. eapply apart_out; eauto. Qed.
Lemma floats_keep n l names e : map fst l = names -> apart names input_floats = true -> keeps n e (with_floats l e).
Proof. intros E H. constructor; cbn; auto. intros x Hx. eapply apart_out; eauto. Qed.
Lemma arrays_keep n l names e : map fst l = names -> apart names (axis_members ++ never_set) = true -> wellsized n l -> keeps n e (with_arrays l e).
Proof.
  intros E H W. constructor; cbn; auto; [intros x Hx; eapply apart_out; eauto|]. intros x k Hk Hl.
  unfold update. destruct (find _ l) as [p|] eqn:Ef; [|exact Hl]. apply find_some in Ef. destruct Ef as (Ef & Ex). apply String.eqb_eq in Ex. subst x.
  unfold wellsized in W. rewrite Forall_forall in W. specialize (W p Ef). congruence.
Qed.
Lemma vec_length n f : length (vec (F := F) n f) = n. Proof. unfold vec. rewrite map_length, seq_length. reflexivity. Qed.
Lemma flat_map_length {A B} (f : A -> list B) k l : (forall x, length (f x) = k) -> length (flat_map f l) = length l * k.
Proof. intros H. induction l as [|x l IH]; [reflexivity|]. cbn [flat_map length]. rewrite app_length, H, IH. lia. Qed.
Lemma mat_length n m f : length (mat (F := F) n m f) = n * m.
Proof. unfold mat. rewrite (flat_map_length _ n) by (intros; rewrite map_length, seq_length; reflexivity). rewrite seq_length. lia. Qed.
Lemma ten3_length n f : length (ten3 (F := F) n f) = n * 9.
Proof.
  unfold ten3. rewrite (flat_map_length _ (3 * n)); [rewrite seq_length; lia|]. intros c.
  rewrite (flat_map_length _ n); [rewrite seq_length; lia|]. intros. rewrite map_length, seq_length. reflexivity.
Qed.
Lemma ten4_length n f : length (ten4 (F := F) n f) = n * 27.
Proof.
  unfold ten4. rewrite (flat_map_length _ (3 * (3 * n))); [rewrite seq_length; lia|]. intros d.
  rewrite (flat_map_length _ (3 * n)); [rewrite seq_length; lia|]. intros c.
  rewrite (flat_map_length _ n); [rewrite seq_length; lia|]. intros. rewrite map_length, seq_length. reflexivity.
Qed.
Ltac wellsized := repeat (apply Forall_cons; [cbn [fst snd]; rewrite ?vec_length, ?mat_length, ?ten3_length, ?ten4_length; reflexivity|]); apply Forall_nil.
Lemma axis_keep d s a h e : length (m_data d) = a_nphi a * a_nphi a -> keeps (a_nphi a) e (assign_axis o d s a h e).
Proof.
  intros Hd. unfold assign_axis. eapply keeps_trans; [|eapply ints_keep; [reflexivity|reflexivity]].
  eapply keeps_trans; [|apply (floats_keep _ _ axis_floats); reflexivity]. apply (arrays_keep _ _ axis_arrays); [reflexivity|reflexivity|].
  apply Forall_cons; [cbn [fst snd]; rewrite vec_length; reflexivity|]. apply Forall_cons; [cbn [fst snd]; rewrite Hd; reflexivity|]. wellsized.
Qed.
Lemma r1_keep n q e : keeps n e (assign_r1 n q e).
Proof.
  unfold assign_r1. eapply keeps_trans; [|apply (floats_keep _ _ r1_floats); reflexivity]. apply (arrays_keep _ _ r1_arrays); [reflexivity|reflexivity|wellsized].
Qed.
Lemma r2_keep i s e : keeps (a_nphi (i_axis (j_r1 i))) e (assign_r2 o i s e).
Proof.
  unfold assign_r2. eapply keeps_trans; [|apply (floats_keep _ _ r2_floats); reflexivity]. apply (arrays_keep _ _ r2_arrays); [reflexivity|reflexivity|wellsized].
Qed.
Lemma r2p1_keep i t e : keeps (a_nphi (i_axis (j_r1 i))) e (assign_r2p1 o i t e).
Proof.
  unfold assign_r2p1. eapply keeps_trans; [|apply (floats_keep _ _ r2p1_floats); reflexivity]. apply (arrays_keep _ _ r2p1_arrays); [reflexivity|reflexivity|wellsized].
Qed.
Lemma mercier_keep n w e : keeps n e (assign_mercier w e).
Proof. apply (floats_keep _ _ mercier_floats); reflexivity. Qed.
Lemma grad_grad_B_keep i s e : keeps (a_nphi (i_axis (j_r1 i))) e (assign_grad_grad_B o mo i s e).
Proof.
  unfold assign_grad_grad_B. eapply keeps_trans; [|apply (floats_keep _ _ grad_grad_B_floats); reflexivity].
  apply (arrays_keep _ _ grad_grad_B_arrays); [reflexivity|reflexivity|wellsized].
Qed.
Lemma singularity_keep n g e : length (RSing.r_hat_singularity_robust g) = n -> keeps n e (assign_singularity g e).
Proof.
  intros H. unfold assign_singularity. eapply keeps_trans; [|apply (floats_keep _ _ singularity_floats); reflexivity].
  apply (arrays_keep _ _ singularity_arrays); [reflexivity|reflexivity|]. apply Forall_cons; [cbn [fst snd]; rewrite H; reflexivity|apply Forall_nil].
Qed.

(** ** Qsc::calculate *)
Lemma axis_nphi i a h : init_axis o mo ge0 i = Ok (a, h) -> a_nphi a = ai_nphi i.
Proof.
  unfold init_axis. destruct (differentiation_matrix _ _ _ _ _); cbn [bind]; try discriminate. destruct (axis_shape _ _ _ _); cbn [bind]; try discriminate.
  match goal with |- bind ?y _ = _ -> _ => destruct y end; cbn [bind]; try discriminate. injection 1 as <- <-. reflexivity.
Qed.
Lemma r_hats_len i s l : forall x, r_hats o mo geev tol finite i s l = Ok x -> length x = length l.
Proof.
  induction l as [|j l IH]; intros x H; cbn [r_hats] in H; [injection H as <-; reflexivity|].
  destruct (r_hat _ _ _ _ _ _); cbn [bind] in H; try discriminate. destruct (r_hats o mo geev tol finite i s l) as [r| |]; cbn [bind] in H; try discriminate.
  injection H as <-. cbn [length]. rewrite (IH r eq_refl). reflexivity.
Qed.
Lemma singularity_len i s g : calculate_r_singularity o mo geev tol finite i s = Ok g -> length (RSing.r_hat_singularity_robust g) = a_nphi (i_axis (j_r1 i)).
Proof.
  unfold calculate_r_singularity. destruct (r_hats _ _ _ _ _ _ _ _) as [x| |] eqn:E; cbn [bind]; try discriminate. injection 1 as <-.
  cbn [RSing.r_hat_singularity_robust]. rewrite (r_hats_len _ _ _ _ E), seq_length. reflexivity.
Qed.
Definition grid (e : members) : nat := Z.to_nat (m_int F e "nphi").
Lemma init_axis_keep e a e' : (0 < m_int F e "nphi")%Z -> run_init_axis o mo ge0 e = Ok (a, e') -> a_nphi a = grid e /\ keeps (grid e) e e'.
Proof.
  intros Hn. unfold run_init_axis. set (i := axis_input_of e). change (grid e) with (ai_nphi i).
  destruct (matrix_ok o mo (ai_nphi i) (fzero o) (fdiv o (fmul o (ftwo o) (m_pi mo)) (m_of_Z mo (ai_nfp i)))) as (d & -> & (_ & _ & Ld) & _); [cbn; lia|]. cbn [bind].
  destruct (axis_shape _ _ _ _) as [s| |]; cbn [bind]; try discriminate. destruct (init_axis _ _ _ _) as [[a' h]| |] eqn:Ea; cbn [bind fst snd]; try discriminate.
  injection 1 as <- <-. pose proof (axis_nphi _ _ _ Ea) as En. split; [exact En|]. rewrite <- En in *. apply axis_keep. exact Ld.
Qed.
Lemma sigma_keep a e st e' : run_solve_sigma o mo newton_linear_solve a e = Ok (st, e') -> keeps (a_nphi a) e e'.
Proof.
  unfold run_solve_sigma. destruct (solve_sigma_equation _ _ _ _ _ _ _ _) as [[[[st' s] r] u]| |] eqn:E; cbn [bind]; try discriminate. injection 1 as <- <-.
  eapply keeps_trans; [|eapply floats_keep; [reflexivity|reflexivity]].
  apply (arrays_keep _ _ ["sigma"]); [reflexivity|reflexivity|]. apply Forall_cons; [|apply Forall_nil]. cbn [fst snd]. rewrite (solve_length _ _ _ _ _ _ _ _ _ E). reflexivity.
Qed.
Lemma calculate_r2_keep a e s e' : run_calculate_r2 o mo mu0 linear_solve a e = Ok (s, e') -> keeps (a_nphi a) e e'.
Proof.
  unfold run_calculate_r2. destruct (calculate_r2 _ _ _ _ _ _) as [x| |]; cbn [bind]; try discriminate.
  injection 1 as <- <-. set (i := r2_input_of o mu0 a e). change (a_nphi a) with (a_nphi (i_axis (j_r1 i))).
  eapply keeps_trans; [apply r2_keep|]. destruct (m_flag _ _ _); [apply r2p1_keep|apply keeps_refl].
Qed.
Lemma diagnostics_keep a s e e' : run_r2_diagnostics o mo mu0 geev tol finite a s e = Ok e' -> keeps (a_nphi a) e e'.
Proof.
  unfold run_r2_diagnostics. destruct (calculate_r_singularity _ _ _ _ _ _ _) as [g| |] eqn:E; cbn [bind]; try discriminate.
  injection 1 as <-. apply singularity_len in E. set (i := r2_input_of o mu0 a e) in *.
  eapply keeps_trans; [apply mercier_keep|]. eapply keeps_trans; [|apply singularity_keep; exact E].
  change (a_nphi a) with (a_nphi (i_axis (j_r1 i))). apply grad_grad_B_keep.
Qed.
Lemma calculate_keep e st e' : (0 < m_int F e "nphi")%Z -> calculate e = Ok (st, e') -> keeps (grid e) e e'.
Proof.
  intros Hn. unfold Run.calculate. destruct (run_init_axis _ _ _ e) as [[a e1]| |] eqn:E1; cbn [bind fst snd]; try discriminate.
  destruct (init_axis_keep _ _ _ Hn E1) as (En & K1). rewrite <- En in *.
  destruct (run_solve_sigma _ _ _ a e1) as [[s e2]| |] eqn:E2; cbn [bind fst snd]; try discriminate. apply sigma_keep in E2.
  pose proof (keeps_trans _ _ _ _ K1 E2) as K2. 
  assert (K3 : keeps (a_nphi a) e (run_r1_diagnostics o mo a e2)) by (eapply keeps_trans; [exact K2|apply r1_keep]).
  destruct (m_flag _ _ _); [|injection 1 as <- <-; exact K3].
  destruct (run_calculate_r2 _ _ _ _ _ _) as [[q e3]| |] eqn:E3; cbn [bind fst snd]; try discriminate. apply calculate_r2_keep in E3.
  destruct (run_r2_diagnostics _ _ _ _ _ _ _ _ _) as [e4| |] eqn:E4; cbn [bind]; try discriminate. apply diagnostics_keep in E4.
  injection 1 as <- <-. eapply keeps_trans; [exact K3|]. eapply keeps_trans; eassumption.
Qed.

(** ** Two calculations with the same inputs *)
Definition related {A} (R : A -> A -> Prop) (x y : outcome A) : Prop :=
  match x, y with Ok a, Ok b => R a b | Throw s, Throw s' => s = s' | UB s, UB s' => s = s' | _, _ => False end.
Lemma related_bind {A B} (R : A -> A -> Prop) (Q : B -> B -> Prop) x y f g : related R x y -> (forall a b, x = Ok a -> y = Ok b -> R a b -> related Q (f a) (g b)) -> related Q (bind x f) (bind y g).
Proof. destruct x, y; cbn; intros H K; auto; contradiction. Qed.
Lemma related_same {A B} (Q : B -> B -> Prop) (x y : outcome A) f g : x = y -> (forall a, x = Ok a -> related Q (f a) (g a)) -> related Q (bind x f) (bind y g).
Proof. intros <- K. destruct x; cbn; auto. Qed.
Definition final_floats (r2 r2p1 : bool) : list string :=
  (if r2 then singularity_floats ++ grad_grad_B_floats ++ mercier_floats ++ (if r2p1 then r2p1_floats else []) ++ r2_floats else []) ++
  r1_floats ++ "iota" :: axis_floats ++ input_floats.
Definition final_arrays (r2 r2p1 r3 : bool) : list string :=
  (if r2 then singularity_arrays ++ grad_grad_B_arrays ++ (if r2p1 then r2p1_arrays else []) ++ r2_arrays else []) ++
  r1_arrays ++ "sigma" :: axis_arrays ++ axis_members ++ (if r3 then never_set else []).
Definition same_result (p q : newton_status * members) : Prop :=
  fst p = fst q /\ let '(r2, r2p1, r3) := flags_of (snd p) in agree ("helicity" :: input_ints) (final_floats r2 r2p1) (final_arrays r2 r2p1 r3) (snd p) (snd q).
Ltac decide_in := apply inb_In; vm_compute; reflexivity.
Lemma r1_input_agree a I Fl A e e' : agree I Fl A e e' -> incl ("helicity" :: input_ints) I -> incl input_floats Fl -> r1_input_of a e = r1_input_of a e'.
Proof.
  intros H HI HF. unfold r1_input_of.
  rewrite !(ag_int _ _ _ _ _ H) by (apply HI; decide_in). rewrite !(ag_float _ _ _ _ _ H) by (apply HF; decide_in). reflexivity.
Qed.
Lemma r2_input_agree a I Fl A e e' : agree I Fl A e e' -> incl ("helicity" :: input_ints) I -> incl ("iota" :: input_floats) Fl -> In "sigma" A ->
  r2_input_of o mu0 a e = r2_input_of o mu0 a e'.
Proof.
  intros H HI HF HA. unfold r2_input_of. rewrite (r1_input_agree a _ _ _ _ _ H HI) by (intros x Hx; apply HF; right; exact Hx).
  rewrite !(ag_float _ _ _ _ _ H) by (apply HF; decide_in). unfold sigma_of. rewrite (ag_array _ _ _ _ _ H) by exact HA. reflexivity.
Qed.
Ltac decide_incl := let x := fresh in let H := fresh in intros x H; cbn in H |- *; tauto.
Lemma incl_dec (l l' : list string) : forallb (fun x => inb x l') l = true -> incl l l'.
Proof. intros H x Hx. rewrite forallb_forall in H. apply inb_In. apply H. exact Hx. Qed.
Lemma calculate_same e e' : (0 < m_int F e "nphi")%Z -> (0 < m_int F e' "nphi")%Z ->
  agree input_ints input_floats (axis_members ++ (if m_flag F e "order_r3" then never_set else [])) e e' ->
  (m_flag F e "at_least_order_r2" = true -> forall x k, In x ["r2_matrix"; "r2_rhs"] -> want (grid e) x = Some k -> length (m_array F e x) = k /\ length (m_array F e' x) = k) ->
  related same_result (calculate e) (calculate e').
Proof.
  intros Hn Hn' Ha Hs. unfold Run.calculate.
  assert (Ei : axis_input_of e = axis_input_of e').
  { unfold axis_input_of. rewrite !(ag_int _ _ _ _ _ Ha) by decide_in. rewrite !(ag_float _ _ _ _ _ Ha) by decide_in.
    rewrite !(ag_array _ _ _ _ _ Ha) by (apply in_or_app; left; decide_in). reflexivity. }
  set (A0 := (axis_members ++ _)%list) in *.
  apply (related_bind (fun p q => fst p = fst q /\ agree ("helicity" :: input_ints) (axis_floats ++ input_floats) (axis_arrays ++ A0) (snd p) (snd q))).
  { unfold run_init_axis. rewrite Ei. apply related_same; [reflexivity|]. intros d _. apply related_same; [reflexivity|]. intros s _.
    apply related_same; [reflexivity|]. intros [a h] _. split; [reflexivity|]. cbn [fst snd]. apply axis_agree. exact Ha. }
  intros [a e1] [a' e1'] E1 E1' (Eq & A1). cbn [fst snd] in *. subst a'.
  destruct (init_axis_keep _ _ _ Hn E1) as (En & K1). destruct (init_axis_keep _ _ _ Hn' E1') as (_ & K1').
  assert (Eg : grid e' = grid e) by (unfold grid; rewrite (ag_int _ _ _ _ _ Ha) by decide_in; reflexivity). rewrite Eg in K1'. rewrite <- En in *.
  apply (related_bind (fun p q => fst p = fst q /\ agree ("helicity" :: input_ints) ("iota" :: axis_floats ++ input_floats) ("sigma" :: axis_arrays ++ A0) (snd p) (snd q))).
  { unfold run_solve_sigma. rewrite (r1_input_agree a _ _ _ _ _ A1 (incl_refl _)) by (apply incl_appr, incl_refl).
    rewrite !(ag_int _ _ _ _ _ A1) by decide_in. rewrite !(ag_float _ _ _ _ _ A1) by decide_in.
    apply related_same; [apply solve_any_user|]. intros [[[st s] r] u] _. cbn [related fst snd]. split; [reflexivity|].
    apply (floats_agree _ _ _ [("iota", u_iota u)]). apply (arrays_agree _ _ _ [("sigma", u_sigma u)]). exact A1. }
  intros [st e2] [st' e2'] E2 E2' (Eq & A2). cbn [fst snd] in *. subst st'. apply sigma_keep in E2. apply sigma_keep in E2'.
  pose proof (keeps_trans _ _ _ _ K1 E2) as K2. pose proof (keeps_trans _ _ _ _ K1' E2') as K2'.
  assert (Er : run_r1_diagnostics o mo a e2 = assign_r1 (a_nphi a) (r1_diagnostics o mo (r1_input_of a e2) (sigma_of o e2) (m_float F e2 "iota")) e2) by reflexivity.
  set (q := r1_diagnostics o mo (r1_input_of a e2) (sigma_of o e2) (m_float F e2 "iota")) in *.
  assert (Er' : run_r1_diagnostics o mo a e2' = assign_r1 (a_nphi a) q e2').
  { unfold run_r1_diagnostics, q. rewrite (r1_input_agree a _ _ _ _ _ A2 (incl_refl _)) by (apply incl_tl, incl_appr, incl_refl).
    rewrite (ag_float _ _ _ _ _ A2) by (left; reflexivity). unfold sigma_of. rewrite (ag_array _ _ _ _ _ A2) by (left; reflexivity). reflexivity. }
  rewrite Er, Er'. pose proof (r1_agree _ _ _ (a_nphi a) q _ _ A2) as A3.
  assert (K3 : keeps (a_nphi a) e (assign_r1 (a_nphi a) q e2)) by (eapply keeps_trans; [exact K2|apply r1_keep]).
  assert (K3' : keeps (a_nphi a) e' (assign_r1 (a_nphi a) q e2')) by (eapply keeps_trans; [exact K2'|apply r1_keep]).
  set (e3 := assign_r1 (a_nphi a) q e2) in *. set (e3' := assign_r1 (a_nphi a) q e2') in *. clearbody e3 e3'. clear e1 e1' e2 e2' Er Er' q K1 K1' K2 K2' E1 E1' E2 E2' A1 A2.
  assert (F2 : m_flag F e3 "at_least_order_r2" = m_flag F e "at_least_order_r2") by apply (k_flag _ _ _ K3).
  assert (F3 : m_flag F e3 "order_r3" = m_flag F e "order_r3") by apply (k_flag _ _ _ K3).
  rewrite <- (ag_flag _ _ _ _ _ A3) by decide_in.
  destruct (m_flag F e3 "at_least_order_r2") eqn:R2.
  2: { split; [reflexivity|]. cbn [snd flags_of]. rewrite R2, F3. exact A3. }
  assert (Ri : r2_input_of o mu0 a e3 = r2_input_of o mu0 a e3').
  { apply (r2_input_agree a _ _ _ _ _ A3 (incl_refl _)).
    - apply incl_dec. vm_compute. reflexivity.
    - apply in_or_app. right. left. reflexivity. }
  set (i := r2_input_of o mu0 a e3) in *.
  assert (Lm : forall x k, In x ["r2_matrix"; "r2_rhs"] -> want (a_nphi a) x = Some k -> length (m_array F e3 x) = k /\ length (m_array F e3' x) = k).
  { intros x k Hx Hk. destruct (Hs (eq_sym F2) x k Hx Hk) as (P1 & P2). split; [apply (k_size _ _ _ K3 x k Hk P1)|apply (k_size _ _ _ K3' x k Hk P2)]. }
  destruct (Lm "r2_matrix" _ ltac:(left; reflexivity) eq_refl) as (M1 & M2). destruct (Lm "r2_rhs" _ ltac:(right; left; reflexivity) eq_refl) as (V1 & V2).
  apply (related_bind (fun p q => fst p = fst q /\ agree ("helicity" :: input_ints)
    (((if m_flag F e3 "order_r2p1" then r2p1_floats else []) ++ r2_floats) ++ r1_floats ++ "iota" :: axis_floats ++ input_floats)
    (((if m_flag F e3 "order_r2p1" then r2p1_arrays else []) ++ r2_arrays) ++ r1_arrays ++ "sigma" :: axis_arrays ++ A0) (snd p) (snd q))).
  { unfold run_calculate_r2. rewrite <- Ri. fold i. apply related_same.
    - apply calculate_r2_any; try (split; [reflexivity|]; split; [reflexivity|]); auto.
    - intros s _. cbn [related fst snd]. split; [reflexivity|]. pose proof (r2_agree _ _ _ i s _ _ A3) as A4.
      rewrite <- (ag_flag _ _ _ _ _ A4) by decide_in. change (m_flag F (assign_r2 o i s e3) "order_r2p1") with (m_flag F e3 "order_r2p1").
      rewrite <- !app_assoc. destruct (m_flag F e3 "order_r2p1"); [apply (r2p1_agree _ _ _ i _ _ _ A4)|exact A4]. }
  intros [s e4] [s' e4'] E4 _ (Eq & A4). cbn [fst snd] in *. subst s'. pose proof (calculate_r2_keep _ _ _ _ E4) as K4.
  assert (F4 : flags_of e4 = flags_of e3) by (unfold flags_of; rewrite !(k_flag _ _ _ K4); reflexivity).
  assert (Ri4 : r2_input_of o mu0 a e4 = r2_input_of o mu0 a e4').
  { apply (r2_input_agree a _ _ _ _ _ A4 (incl_refl _)).
    - intros x Hx. apply in_or_app. right. apply in_or_app. right. destruct Hx as [<-|Hx]; [left; reflexivity|right]. apply in_or_app. right. exact Hx.
    - apply in_or_app. right. apply in_or_app. right. left. reflexivity. }
  unfold run_r2_diagnostics. rewrite <- Ri4. set (j := r2_input_of o mu0 a e4).
  destruct (calculate_r_singularity o mo geev tol finite j s) as [g| |]; cbn [bind related]; auto.
  split; [reflexivity|]. cbn [snd]. 
  pose proof (singularity_agree _ _ _ g _ _ (grad_grad_B_agree _ _ _ j s _ _ (mercier_agree _ _ _ (mercier o mo j s) _ _ A4))) as A5.
  change (flags_of (assign_singularity g (assign_grad_grad_B o mo j s (assign_mercier (mercier o mo j s) e4)))) with (flags_of e4). rewrite F4.
  unfold flags_of. rewrite R2, F3. cbv beta iota zeta. unfold final_floats, final_arrays. cbv iota. subst A0.
  eapply agree_eq; [exact A5|reflexivity| |]; rewrite <- !app_assoc; reflexivity.
Qed.

(** ** The output file *)
Definition written (e : members) : outcome (newton_status * file F) := do r <- calculate e; do f <- qsc_write_netcdf F (m_of_Z mo) (snd r); Ok (fst r, f).
Definition table_flags (fl : bool * bool * bool) : Prop := In fl [(false, false, false); (true, false, false); (true, true, true)].
Lemma file_same p q : table_flags (flags_of (snd p)) -> same_result p q -> qsc_write_netcdf F (m_of_Z mo) (snd p) = qsc_write_netcdf F (m_of_Z mo) (snd q).
Proof.
  intros Ht (_ & H). destruct (flags_of (snd p)) as [[r2 r2p1] r3] eqn:E. unfold qsc_write_netcdf.
  eapply write_agree; [exact H| |]; [|rewrite E]; unfold table_flags in Ht; cbn [In] in Ht;
    (destruct Ht as [Ht|[Ht|[Ht|[]]]]; injection Ht as <- <- <-; vm_compute; reflexivity).
Qed.
Lemma written_same e e' : (0 < m_int F e "nphi")%Z -> (0 < m_int F e' "nphi")%Z -> table_flags (flags_of e) ->
  agree input_ints input_floats (axis_members ++ (if m_flag F e "order_r3" then never_set else [])) e e' ->
  (m_flag F e "at_least_order_r2" = true -> forall x k, In x ["r2_matrix"; "r2_rhs"] -> want (grid e) x = Some k -> length (m_array F e x) = k /\ length (m_array F e' x) = k) ->
  written e = written e'.
Proof.
  intros Hn Hn' Ht Ha Hs. pose proof (calculate_same e e' Hn Hn' Ha Hs) as R. unfold written.
  destruct (calculate e) as [[st x]| |] eqn:E; destruct (calculate e') as [[st' x']| |] eqn:E'; cbn [related] in R; try contradiction; try (rewrite R; reflexivity).
  cbn [bind fst snd]. pose proof (calculate_keep _ _ _ Hn E) as K.
  assert (Ef : flags_of x = flags_of e) by (unfold flags_of; rewrite !(k_flag _ _ _ K); reflexivity).
  pose proof (file_same (st, x) (st', x')) as W. cbn [snd] in W. rewrite W; [|rewrite Ef; exact Ht|exact R]. destruct R as (E1 & _). cbn [fst] in E1. rewrite E1. reflexivity.
Qed.

(** ** Qsc::init *)
Lemma dims_value_ok n ds v : dims_value n ds = Ok v -> v = map (val n) ds.
Proof.
  revert v. induction ds as [|d ds IH]; intros v; cbn [dims_value map]; [injection 1 as <-; reflexivity|].
  unfold dim_value. cbv zeta. destruct (_ || _); cbn [bind]; try discriminate. destruct (_ <? 0)%Z; cbn [bind]; try discriminate.
  destruct (dims_value n ds) as [vs| |]; cbn [bind]; try discriminate. injection 1 as <-. rewrite (IH vs eq_refl). destruct d; reflexivity.
Qed.
Definition shaped_by (n : Z) (l : list (string * list Alloc.dim)) (sh sh' : shapes) : Prop :=
  forall x, sh' x = match last_resize l x with Some ds => map (val n) ds | None => sh x end.
Lemma resize_same n l : forall sh1 sh2, related (fun a b => shaped_by n l sh1 a /\ shaped_by n l sh2 b) (resize_all n l sh1) (resize_all n l sh2).
Proof.
  induction l as [|[y ds] l IH]; intros sh1 sh2; cbn [resize_all]; [cbn; split; intros x; reflexivity|].
  apply related_same; [reflexivity|]. intros v Hv. apply dims_value_ok in Hv. subst v.
  specialize (IH (set_shape sh1 y (map (val n) ds)) (set_shape sh2 y (map (val n) ds))).
  assert (T : forall sh a, shaped_by n l (set_shape sh y (map (val n) ds)) a -> shaped_by n ((y, ds) :: l) sh a).
  { intros sh a H x. rewrite H. cbn [last_resize]. destruct (last_resize l x); [reflexivity|]. unfold set_shape. destruct (String.eqb x y); reflexivity. }
  destruct (resize_all n l _) as [a| |]; destruct (resize_all n l _) as [b| |]; cbn [related] in *; auto. destruct IH as (P & Q). split; apply T; assumption.
Qed.
Definition shaped_all r2 r2p1 r3 (n : Z) (sh sh' : shapes) : Prop :=
  forall x, sh' x = match final_dims r2 r2p1 r3 x with Some ds => map (val n) ds | None => sh x end.
Lemma allocate_same r2 r2p1 r3 nphi sh1 sh2 :
  related (fun a b => (fst a = odd_nphi nphi /\ shaped_all r2 r2p1 r3 (odd_nphi nphi) sh1 (snd a)) /\ (fst b = odd_nphi nphi /\ shaped_all r2 r2p1 r3 (odd_nphi nphi) sh2 (snd b)))
    (allocate r2 r2p1 r3 nphi sh1) (allocate r2 r2p1 r3 nphi sh2).
Proof.
  unfold allocate. set (n := odd_nphi nphi).
  apply (related_bind _ _ _ _ _ _ (resize_same n resizes_first sh1 sh2)). intros a1 b1 _ _ (P1 & Q1).
  assert (G : forall (b : bool) l s s', related (fun x y => (forall z, x z = match (if b then last_resize l z else None) with Some ds => map (val n) ds | None => s z end) /\
      (forall z, y z = match (if b then last_resize l z else None) with Some ds => map (val n) ds | None => s' z end))
    (if b then resize_all n l s else Ok s) (if b then resize_all n l s' else Ok s')).
  { intros [|] l s s'; [apply resize_same|cbn; auto]. }
  apply (related_bind _ _ _ _ _ _ (G r2 resizes_r2 a1 b1)). intros a2 b2 _ _ (P2 & Q2).
  apply (related_bind _ _ _ _ _ _ (G r2p1 resizes_r2p1 a2 b2)). intros a3 b3 _ _ (P3 & Q3).
  apply (related_bind _ _ _ _ _ _ (G r3 resizes_r3 a3 b3)). intros a4 b4 _ _ (P4 & Q4).
  cbn [related fst snd]. unfold shaped_all, final_dims. split; (split; [reflexivity|]); intros x.
  - rewrite P4. destruct (if r3 then _ else None); [reflexivity|]. rewrite P3. destruct (if r2p1 then _ else None); [reflexivity|].
    rewrite P2. destruct (if r2 then _ else None); [reflexivity|]. apply P1.
  - rewrite Q4. destruct (if r3 then _ else None); [reflexivity|]. rewrite Q3. destruct (if r2p1 then _ else None); [reflexivity|].
    rewrite Q2. destruct (if r2 then _ else None); [reflexivity|]. apply Q1.
Qed.
Lemma allocate_positive r2 r2p1 r3 nphi sh x : allocate r2 r2p1 r3 nphi sh = Ok x -> (0 < odd_nphi nphi)%Z.
Proof.
  unfold allocate. set (n := odd_nphi nphi). intros H.
  assert (Hp : (0 <= n)%Z).
  { unfold resizes_first in H. cbn [resize_all dims_value] in H. unfold dim_value in H at 1. cbv zeta in H.
    destruct (_ || _) eqn:E; cbn [bind] in H; [discriminate|]. destruct (Z.ltb_spec n 0); cbn [bind] in H; [discriminate|assumption]. }
  assert (Ho : Z.odd n = true) by apply odd_nphi_odd. destruct (Z.eq_dec n 0) as [E|]; [rewrite E in Ho; discriminate|lia].
Qed.
(** init() after validate: what it leaves. *)
Record initialized (e e1 : members) : Prop := mkInit {
  in_nphi : m_int F e1 "nphi" = odd_nphi (m_int F e "nphi");
  in_positive : (0 < m_int F e1 "nphi")%Z;
  in_int : forall x, x <> "nphi" -> m_int F e1 x = m_int F e x;
  in_float : forall x, m_float F e1 x = m_float F e x;
  in_text : forall x, m_text F e1 x = m_text F e x;
  in_order : validate (m_text F e "order_r_option") = Ok (mkFlags (m_flag F e1 "at_least_order_r2") (m_flag F e1 "order_r2p1") (m_flag F e1 "order_r3"));
  in_array : forall x, m_array F e1 x =
    match final_dims (m_flag F e1 "at_least_order_r2") (m_flag F e1 "order_r2p1") (m_flag F e1 "order_r3") x with
    | Some ds => repeat (fzero o) (Z.to_nat (fold_right Z.mul 1%Z (map (val (m_int F e1 "nphi")) ds))) | None => m_array F e x end }.
Lemma last_resize_in l x : existsb (String.eqb x) (map fst l) = match last_resize l x with Some _ => true | None => false end.
Proof.
  induction l as [|[y ds] l IH]; [reflexivity|]. cbn [map existsb last_resize fst]. rewrite IH. destruct (last_resize l x); [apply orb_true_r|].
  rewrite orb_false_r. destruct (String.eqb x y); reflexivity.
Qed.
Lemma resized_dims r2 r2p1 r3 x : existsb (String.eqb x) (resized r2 r2p1 r3) = match final_dims r2 r2p1 r3 x with Some _ => true | None => false end.
Proof.
  unfold resized, final_dims. rewrite !map_app, !existsb_app, !(fun (b : bool) l => last_resize_in (if b then l else []) x), last_resize_in.
  destruct (last_resize resizes_first x), r2, r2p1, r3; cbn [last_resize orb];
    repeat match goal with |- context [last_resize ?l x] => destruct (last_resize l x) end; reflexivity.
Qed.
Lemma init_same e e' : m_text F e "order_r_option" = m_text F e' "order_r_option" -> m_int F e "nphi" = m_int F e' "nphi" ->
  related (fun a b => initialized e a /\ initialized e' b) (init e) (init e').
Proof.
  intros Et En. unfold Run.init, validate_members. rewrite Et.
  destruct (validate (m_text F e' "order_r_option")) as [f| |] eqn:Ev; cbn [bind related]; auto.
  set (e1 := with_flags _ e). set (e1' := with_flags _ e'). unfold allocate_members.
  change (m_flag F e1 "at_least_order_r2") with (at_least_order_r2 f). change (m_flag F e1 "order_r2p1") with (order_r2p1 f). change (m_flag F e1 "order_r3") with (order_r3 f).
  change (m_flag F e1' "at_least_order_r2") with (at_least_order_r2 f). change (m_flag F e1' "order_r2p1") with (order_r2p1 f). change (m_flag F e1' "order_r3") with (order_r3 f).
  change (m_int F e1 "nphi") with (m_int F e "nphi"). change (m_int F e1' "nphi") with (m_int F e' "nphi"). rewrite En.
  apply (related_bind _ _ _ _ _ _ (allocate_same _ _ _ _ _ _)). intros a b Ea Eb ((Pa & Sa) & (Pb & Sb)). cbn [related].
  pose proof (allocate_positive _ _ _ _ _ _ Ea) as Hp.
  split; constructor; cbn [m_int m_float m_text m_flag m_array];
    try (unfold set; rewrite String.eqb_refl; rewrite ?Pa, ?Pb; rewrite ?En; first [reflexivity|exact Hp]);
    try (intros x Hx; unfold set; destruct (String.eqb_spec x "nphi"); [congruence|reflexivity]); try reflexivity.
  - rewrite Et, Ev. destruct f. reflexivity.
  - intros x. rewrite resized_dims. unfold set. rewrite String.eqb_refl, Sa, Pa.
    change (update _ (m_flag F e) "at_least_order_r2") with (at_least_order_r2 f). change (update _ (m_flag F e) "order_r2p1") with (order_r2p1 f). change (update _ (m_flag F e) "order_r3") with (order_r3 f).
    destruct (final_dims _ _ _ x); reflexivity.
  - rewrite Ev. destruct f. reflexivity.
  - intros x. rewrite resized_dims. unfold set. rewrite String.eqb_refl, Sb, Pb.
    change (update _ (m_flag F e') "at_least_order_r2") with (at_least_order_r2 f). change (update _ (m_flag F e') "order_r2p1") with (order_r2p1 f). change (update _ (m_flag F e') "order_r3") with (order_r3 f).
    destruct (final_dims _ _ _ x); reflexivity.
Qed.
Lemma init_initialized e e1 : init e = Ok e1 -> initialized e e1.
Proof. intros H. pose proof (init_same e e eq_refl eq_refl) as R. rewrite H in R. apply R. Qed.

Lemma required_dims r2 r2p1 r3 z x s : (0 < odd_nphi z < 1073741824)%Z -> required r2 r2p1 r3 (odd_nphi z) x s ->
  exists ds, final_dims r2 r2p1 r3 x = Some ds /\ map (val (odd_nphi z)) ds = s.
Proof.
  intros Hz H. set (sh := fun _ : string => (7%Z :: s)).
  destruct (allocate_required r2 r2p1 r3 z sh Hz) as (sh' & E & R & _). destruct (allocate_shapes r2 r2p1 r3 z sh Hz) as (sh2 & E2 & S).
  rewrite E in E2. injection E2 as <-. specialize (R x s H). specialize (S x). destruct (final_dims r2 r2p1 r3 x) as [ds|]; [exists ds; split; congruence|].
  exfalso. assert (C : length s = length (7%Z :: s)) by (unfold sh in S; congruence). cbn in C. lia.
Qed.
Lemma validate_table s f : validate s = Ok f -> In (s, f) order_table.
Proof.
  unfold validate. destruct (String.eqb_spec s "r1"); [injection 1 as <-; subst; left; reflexivity|].
  destruct (String.eqb_spec s "r2"); [injection 1 as <-; subst; right; left; reflexivity|].
  destruct (String.eqb_spec s "r2.1"); [injection 1 as <-; subst; right; right; left; reflexivity|discriminate].
Qed.
Lemma table_function s f f' : In (s, f) order_table -> In (s, f') order_table -> f = f'.
Proof. intros [H|[H|[H|[]]]] [H'|[H'|[H'|[]]]]; congruence. Qed.
Lemma order_flags_table s (e : members) : In (s, mkFlags (m_flag F e "at_least_order_r2") (m_flag F e "order_r2p1") (m_flag F e "order_r3")) order_table ->
  table_flags (flags_of e) /\ s <> "" /\ (m_flag F e "order_r3" = true -> m_flag F e "order_r2p1" = true /\ m_flag F e "at_least_order_r2" = true).
Proof.
  unfold table_flags, flags_of. intros [H|[H|[H|[]]]]; injection H as <- <- <- <-; (split; [cbn; tauto|]; split; [discriminate|intros; split; congruence]).
Qed.
Lemma init_ready e e1 : (0 <= m_int F e "nphi" < 1073741822)%Z -> length (m_array F e "R0c") <> 0 ->
  (forall x, In x axis_members -> length (m_array F e x) = length (m_array F e "R0c")) -> init e = Ok e1 -> ready F (fzero o) e1.
Proof.
  intros Hn Hr Hx H. apply init_initialized in H. destruct H as [N P I Fl T O A].
  pose proof (validate_table _ _ O) as Ot. rewrite <- T in Ot.
  assert (Hb : (0 < odd_nphi (m_int F e "nphi") < 1073741824)%Z) by (pose proof (odd_nphi_odd (m_int F e "nphi")) as Ho; destruct (odd_nphi_least (m_int F e "nphi")) as [[E _]|[E _]]; rewrite E in *; [|lia]; assert (m_int F e "nphi" <> 0%Z) by (intros Ez; rewrite Ez in Ho; discriminate); lia).
  assert (Ax : forall x, In x axis_members -> m_array F e1 x = m_array F e x).
  { intros x Hin. rewrite A. replace (final_dims _ _ _ x) with (@None (list Alloc.dim)); [reflexivity|].
    cbn [In axis_members] in Hin. destruct (m_flag F e1 "at_least_order_r2"), (m_flag F e1 "order_r2p1"), (m_flag F e1 "order_r3"); destruct Hin as [<-|[<-|[<-|[<-|[]]]]]; reflexivity. }
  constructor; [exact Ot| |].
  - unfold allocated. rewrite N. split; [apply odd_nphi_odd|]. split; [exact Hb|]. split.
    { intros x s Hq. destruct (required_dims _ _ _ _ _ _ Hb Hq) as (ds & Ed & Es). rewrite A, Ed, repeat_length, N, Es.
      apply Z2Nat.id. destruct (required_want _ _ _ _ _ _ (Z.lt_le_incl _ _ (proj1 Hb)) Hq) as (k & _ & ->). lia. }
    split; [rewrite Ax by (left; reflexivity); exact Hr|]. split; [|apply (order_flags_table _ _ Ot)].
    intros x Hin. rewrite !Ax by (try exact Hin; left; reflexivity). apply Hx. exact Hin.
  - intros R3 x Hin. rewrite A. rewrite R3. destruct (order_flags_table _ _ Ot) as (_ & _ & G). destruct (G R3) as (G1 & G2). rewrite G1, G2.
    assert (D : final_dims true true true x = Some [DN]).
    { assert (B : forallb (fun x => match final_dims true true true x with Some [DN] => true | _ => false end) never_set = true) by (vm_compute; reflexivity).
      rewrite forallb_forall in B. specialize (B x Hin). destruct (final_dims true true true x) as [[|[] []]|]; try discriminate. reflexivity. }
    rewrite D. cbn [map val fold_right]. rewrite Z.mul_1_r. reflexivity.
Qed.
Lemma keeps_ready e e1 : keeps (grid e) e e1 -> ready F (fzero o) e -> ready F (fzero o) e1.
Proof.
  intros K [O (A1 & A2 & A3 & A4 & A5 & A6) Zr]. 
  assert (N : m_int F e1 "nphi" = m_int F e "nphi") by (apply (k_int _ _ _ K); decide_in).
  assert (Ax : forall x, In x axis_members -> m_array F e1 x = m_array F e x) by (intros; apply (k_array _ _ _ K); apply in_or_app; left; assumption).
  constructor.
  - rewrite (k_text _ _ _ K), !(k_flag _ _ _ K). exact O.
  - unfold allocated. rewrite N, !(k_flag _ _ _ K), (k_text _ _ _ K), (Ax "R0c") by (left; reflexivity). repeat (split; [assumption|]). split.
    { intros x s Hq. destruct (required_want _ _ _ _ _ _ (Z.lt_le_incl _ _ (proj1 A2)) Hq) as (k & Hk & ->). f_equal. apply (k_size _ _ _ K x k Hk).
      specialize (A3 x s Hq). destruct (required_want _ _ _ _ _ _ (Z.lt_le_incl _ _ (proj1 A2)) Hq) as (k' & Hk' & Es). rewrite Es in A3. fold (grid e) in *.
      rewrite Hk in Hk'. injection Hk' as <-. lia. }
    split; [exact A4|]. split; [|exact A6]. intros x Hin. rewrite Ax by exact Hin. apply A5. exact Hin.
  - rewrite (k_flag _ _ _ K), N. intros R3 x Hin. rewrite (k_array _ _ _ K) by (apply in_or_app; right; exact Hin). apply Zr; assumption.
Qed.
Lemma changed_ready e e1 : changed F e e1 -> ready F (fzero o) e -> ready F (fzero o) e1.
Proof.
  intros (C1 & C2 & C3 & C4 & C5 & C6 & C7) [O (A1 & A2 & A3 & A4 & A5 & A6) Zr]. constructor.
  - rewrite C2, !C3. exact O.
  - unfold allocated. rewrite C1, C2, !C3. repeat (split; [assumption|]). split; [|split; [exact C6|split; [exact C7|exact A6]]].
    intros x s Hq. rewrite C5; [apply A3; exact Hq|]. intros Hin. 
    destruct (required_want _ _ _ _ _ _ (Z.lt_le_incl _ _ (proj1 A2)) Hq) as (k & Hk & _).
    cbn [In axis_members] in Hin. destruct Hin as [<-|[<-|[<-|[<-|[]]]]]; discriminate Hk.
  - rewrite C1, C3. intros R3 x Hin. rewrite C4 by exact Hin. apply Zr; assumption.
Qed.
Lemma ready_positive e : ready F (fzero o) e -> (0 < m_int F e "nphi")%Z. Proof. intros [_ (_ & A & _) _]. lia. Qed.
Lemma history_ready e : history F init calculate e -> ready F (fzero o) e.
Proof.
  intros H. induction H.
  - eapply init_ready; eassumption.
  - eapply changed_ready; eassumption.
  - eapply keeps_ready; [eapply calculate_keep; [apply ready_positive; eassumption|eassumption]|eassumption].
Qed.
Lemma ready_size e x s k : ready F (fzero o) e -> required (m_flag F e "at_least_order_r2") (m_flag F e "order_r2p1") (m_flag F e "order_r3") (m_int F e "nphi") x s ->
  want (grid e) x = Some k -> length (m_array F e x) = k.
Proof.
  intros [O (A1 & A2 & A3 & A4 & A5 & A6) Zr] Hq Hk. specialize (A3 x s Hq).
  destruct (required_want _ _ _ _ _ _ (Z.lt_le_incl _ _ (proj1 A2)) Hq) as (k' & Hk' & Es). fold (grid e) in Hk'. rewrite Hk in Hk'. injection Hk' as <-. lia.
Qed.
Lemma ready_same e e' : ready F (fzero o) e -> ready F (fzero o) e' -> same_inputs F e e' -> written e = written e'.
Proof.
  intros R R' (I1 & I2 & I3 & I4).
  assert (Ef : mkFlags (m_flag F e "at_least_order_r2") (m_flag F e "order_r2p1") (m_flag F e "order_r3") =
               mkFlags (m_flag F e' "at_least_order_r2") (m_flag F e' "order_r2p1") (m_flag F e' "order_r3")).
  { apply (table_function (m_text F e "order_r_option")); [apply (rd_order _ _ _ R)|rewrite I4; apply (rd_order _ _ _ R')]. }
  injection Ef as F1 F2 F3. assert (En : m_int F e "nphi" = m_int F e' "nphi") by (apply I1; decide_in).
  apply written_same; try (apply ready_positive; assumption).
  - apply (order_flags_table _ _ (rd_order _ _ _ R)).
  - constructor; auto.
    + intros x Hx. apply in_app_or in Hx. destruct Hx as [Hx|Hx]; [apply I3; exact Hx|]. destruct (m_flag F e "order_r3") eqn:R3; [|destruct Hx].
      rewrite (rd_zero _ _ _ R R3 x Hx). rewrite (rd_zero _ _ _ R' (eq_sym F3) x Hx), En. reflexivity.
    + intros x [<-|[<-|[<-|[]]]]; assumption.
  - intros H2 x k Hx Hk.
    assert (Hq : forall a b c z, a = true -> exists s, required a b c z x s) by (intros a b c z ->; destruct Hx as [<-|[<-|[]]]; eexists; constructor; reflexivity).
    destruct (Hq (m_flag F e "at_least_order_r2") (m_flag F e "order_r2p1") (m_flag F e "order_r3") (m_int F e "nphi") H2) as (s & Q).
    destruct (Hq (m_flag F e' "at_least_order_r2") (m_flag F e' "order_r2p1") (m_flag F e' "order_r3") (m_int F e' "nphi") ltac:(congruence)) as (s' & Q').
    split; [exact (ready_size e x s k R Q Hk)|]. apply (ready_size e' x s' k R' Q'). unfold grid in *. rewrite <- En. exact Hk.
Qed.

(** ** Qsc::run *)
Lemma effect_kind t s s1 x k : section_effect (m_of_Z mo) qsc_keys t s s1 -> In (x, k) qsc_keys ->
  match k with
  | KInt => (exists z, s x = VInt z) -> exists z, s1 x = VInt z
  | KFloat => (exists z, s x = VFloat z) -> exists z, s1 x = VFloat z
  | KStr => (exists z, s x = VStr z) -> exists z, s1 x = VStr z
  | KVec => (exists z, s x = VVec z) -> exists z, s1 x = VVec z
  | _ => True
  end.
Proof.
  intros (H & _) Hi. specialize (H x k Hi). destruct k; try exact I; intros (z & Hz); (destruct (lookup x t) as [v|]; [inversion H; eauto|exists z; congruence]).
Qed.
Lemma input_defines t s : qsc_input (m_of_Z mo) (fzero o) t (default_store o newton_tol) = Ok s ->
  (forall x, In x input_ints -> exists z, s x = VInt z) /\ (forall x, In x input_floats -> exists v, s x = VFloat v) /\
  (exists n, forall x, In x axis_members -> exists v, s x = VVec v /\ length v = n) /\ exists v, s "order_r_option" = VStr v.
Proof.
  intros H. destruct (qsc_input_cases (m_of_Z mo) (fzero o) t (default_store o newton_tol)) as [(_ & s1 & s' & a & He & _ & _ & _ & _ & E & A1 & A2 & A3 & A4 & Ho)|(_ & msg & E)].
  { intros x [<-|[<-|[<-|[<-|[]]]]]; eexists; reflexivity. }
  2: congruence.
  rewrite H in E. injection E as <-.
  assert (N : forall x, In x (input_ints ++ input_floats ++ ["order_r_option"]) -> s x = s1 x).
  { intros x Hx. apply Ho. intros Hk. assert (B : apart axis_keys (input_ints ++ input_floats ++ ["order_r_option"]) = true) by (vm_compute; reflexivity).
    unfold apart in B. rewrite forallb_forall in B. specialize (B x Hx). apply inb_In in Hk. rewrite Hk in B. discriminate. }
  split; [|split; [|split]].
  - intros x Hx. rewrite N by (apply in_or_app; left; exact Hx). apply (effect_kind _ _ _ x KInt He).
    + cbn [In input_ints] in Hx. destruct Hx as [<-|[<-|[<-|[<-|[<-|[<-|[]]]]]]]; cbn; tauto.
    + cbn [In input_ints] in Hx. destruct Hx as [<-|[<-|[<-|[<-|[<-|[<-|[]]]]]]]; eexists; reflexivity.
  - intros x Hx. rewrite N by (apply in_or_app; right; apply in_or_app; left; exact Hx). apply (effect_kind _ _ _ x KFloat He).
    + cbn [In input_floats] in Hx. destruct Hx as [<-|[<-|[<-|[<-|[<-|[<-|[<-|[<-|[]]]]]]]]]; cbn; tauto.
    + cbn [In input_floats] in Hx. destruct Hx as [<-|[<-|[<-|[<-|[<-|[<-|[<-|[<-|[]]]]]]]]]; eexists; reflexivity.
  - exists (max_len a). assert (L : forall l, length l <= max_len a -> length (padded (fzero o) (max_len a) l) = max_len a) by (intros l Hl; unfold padded; rewrite app_length, repeat_length; lia).
    intros x [<-|[<-|[<-|[<-|[]]]]]; eexists; (split; [eassumption|]); apply L; unfold max_len; lia.
  - rewrite N by (apply in_or_app; right; apply in_or_app; right; left; reflexivity). apply (effect_kind _ _ _ "order_r_option" KStr He); [cbn; tauto|eexists; reflexivity].
Qed.
Lemma init_written c c' : (forall x, In x input_ints -> m_int F c x = m_int F c' x) -> (forall x, In x input_floats -> m_float F c x = m_float F c' x) ->
  (forall x, In x axis_members -> m_array F c x = m_array F c' x) -> m_text F c "order_r_option" = m_text F c' "order_r_option" ->
  (do e <- init c; written e) = (do e <- init c'; written e).
Proof.
  intros C1 C2 C3 C4. pose proof (init_same c c' C4 (C1 "nphi" ltac:(decide_in))) as R.
  destruct (init c) as [x| |]; destruct (init c') as [x'| |]; cbn [related] in R; try contradiction; try (rewrite R; reflexivity). cbn [bind].
  destruct R as ([N P I Fl T O A] & [N' P' I' Fl' T' O' A']).
  pose proof (validate_table _ _ O) as Ot. pose proof (validate_table _ _ O') as Ot'. rewrite <- C4 in Ot'.
  pose proof (table_function _ _ _ Ot Ot') as Ef. injection Ef as F1 F2 F3.
  assert (En : m_int F x "nphi" = m_int F x' "nphi") by (rewrite N, N', C1 by decide_in; reflexivity).
  destruct (order_flags_table _ _ Ot) as (Tf & _ & G).
  change (written x = written x'). apply written_same; auto.
  - constructor.
    + intros y Hy. destruct (String.eqb_spec y "nphi") as [->|Hne]; [exact En|]. rewrite I, I' by exact Hne. apply C1. exact Hy.
    + intros y Hy. rewrite Fl, Fl'. apply C2. exact Hy.
    + intros y Hy. rewrite A, A', F1, F2, F3, En. apply in_app_or in Hy. destruct Hy as [Hy|Hy].
      * destruct (final_dims _ _ _ y); [reflexivity|]. apply C3. exact Hy.
      * rewrite <- F3. destruct (m_flag F x "order_r3") eqn:R3; [|destruct Hy].
        assert (B : forallb (fun y => match final_dims true true true y with Some _ => true | None => false end) never_set = true) by (vm_compute; reflexivity).
        rewrite forallb_forall in B. specialize (B y Hy). destruct (G eq_refl) as (G1 & G2).
        rewrite <- F1, <- F2, G1, G2. destruct (final_dims true true true y); [reflexivity|discriminate].
    + intros y [<-|[<-|[<-|[]]]]; assumption.
    + rewrite T, T'. exact C4.
  - intros H2 y k Hy Hk. rewrite A, A', <- F1, <- F2, <- F3, <- En, H2. unfold grid in Hk.
    assert (Dm : exists ds, final_dims true (m_flag F x "order_r2p1") (m_flag F x "order_r3") y = Some ds /\ (ds = [D2N; D2N] /\ y = "r2_matrix" \/ ds = [D2N] /\ y = "r2_rhs")).
    { destruct Hy as [<-|[<-|[]]]; destruct (m_flag F x "order_r2p1"), (m_flag F x "order_r3"); eexists; (split; [reflexivity|]); tauto. }
    destruct Dm as (ds & -> & Dm). rewrite repeat_length. enough (Z.to_nat (fold_right Z.mul 1%Z (map (val (m_int F x "nphi")) ds)) = k) by auto.
    destruct Dm as [(-> & ->)|(-> & ->)]; cbn in Hk; injection Hk as <-; cbn [map val fold_right]; lia.
Qed.
Lemma run_same e e' t : run e t = run e' t.
Proof.
  unfold Run.run. destruct (qsc_input _ _ _ _) as [s| |] eqn:Es; cbn [bind]; auto. destruct (input_defines _ _ Es) as (D1 & D2 & (n & D3) & (order & D4)).
  set (c := load s (constructed o e)). set (c' := load s (constructed o e')).
  assert (C1 : forall x, In x input_ints -> m_int F c x = m_int F c' x) by (intros x Hx; cbn; destruct (D1 x Hx) as (z & ->); reflexivity).
  assert (C2 : forall x, In x input_floats -> m_float F c x = m_float F c' x) by (intros x Hx; cbn; destruct (D2 x Hx) as (z & ->); reflexivity).
  assert (C3 : forall x, In x axis_members -> m_array F c x = m_array F c' x) by (intros x Hx; cbn; destruct (D3 x Hx) as (z & -> & _); reflexivity).
  assert (C4 : m_text F c "order_r_option" = m_text F c' "order_r_option") by (cbn; rewrite D4; reflexivity).
  exact (init_written c c' C1 C2 C3 C4).
Qed.
End Facts.
