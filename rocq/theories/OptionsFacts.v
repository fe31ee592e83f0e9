(** Proofs about [Options]. *)
From Coq Require Import String ZArith List Arith.
From Verif Require Import Base BaseFacts Toml TomlFacts Options OptionsSpec.
Import ListNotations.
Open Scope string_scope.

Lemma validate_cases s :
  (exists f, In (s, f) order_table /\ validate s = Ok f)
  \/ (~ In s (map fst order_table) /\ exists m, validate s = Throw m).
Proof.
  unfold validate.
  destruct (String.eqb_spec s "r1"); [left; subst; eexists; split; [|reflexivity]; simpl; auto|].
  destruct (String.eqb_spec s "r2"); [left; subst; eexists; split; [|reflexivity]; simpl; auto|].
  destruct (String.eqb_spec s "r2.1"); [left; subst; eexists; split; [|reflexivity]; simpl; auto|].
  right. split; [|eauto]. simpl. intuition congruence.
Qed.

Section D.
Context {F : Type}.
Variable of_int : Z -> F.
Variable run : job -> outcome unit.

Lemma driver_usage argc (t : table F) : argc <> 2%Z -> driver of_int argc t run = Ok (1%Z, []).
Proof. intros H. unfold driver. apply Z.eqb_neq in H. rewrite H. reflexivity. Qed.

Lemma driver_general g (t : table F) :
  lookup "general_option" t = Some (TStr g) \/ (lookup "general_option" t = None /\ g = "single") ->
  (exists j, In (g, j) option_table /\ driver of_int 2 t run = (run j ;; Ok (0%Z, [j])))
  \/ (~ In g (map fst option_table) /\ exists m, driver of_int 2 t run = Throw m).
Proof.
  intros H. unfold driver. cbn [Z.eqb Pos.eqb negb].
  assert (E : exists vl s, toml_read of_int t "general_option" "general_option" KStr ([], fun _ => VStr "single")
          = Ok (vl, s) /\ s "general_option" = VStr g).
  { destruct H as [H|[H ->]].
    - rewrite (toml_read_some of_int _ _ _ _ _ _ H). eexists; eexists. split; [reflexivity|]. apply sset_same.
    - rewrite (toml_read_none of_int _ _ _ _ _ H). eexists; eexists. split; reflexivity. }
  destruct E as (vl & s & -> & Hs). cbn [bind snd]. rewrite Hs. cbn [str_of bind].
  destruct (String.eqb_spec g "single"); [left; subst; eexists; split; [|reflexivity]; simpl; auto|].
  destruct (String.eqb_spec g "random"); [left; subst; eexists; split; [|reflexivity]; simpl; auto|].
  destruct (String.eqb_spec g "opt"); [left; subst; eexists; split; [|reflexivity]; simpl; auto|].
  destruct (String.eqb_spec g "multiopt"); [left; subst; eexists; split; [|reflexivity]; simpl; auto|].
  destruct (String.eqb_spec g "multiopt_scan"); [left; subst; eexists; split; [|reflexivity]; simpl; auto 10|].
  right. split; [|eauto]. simpl. intuition congruence.
Qed.

Lemma driver_not_string v (t : table F) :
  lookup "general_option" t = Some v -> (forall g, v <> TStr g) ->
  exists m, driver of_int 2 t run = Throw m.
Proof.
  intros H Hv. unfold driver. cbn [Z.eqb Pos.eqb negb].
  rewrite (toml_read_bad of_int _ _ _ _ _ _ H Hv). cbn. eauto.
Qed.
End D.
