(** Specification vocabulary for output file names (independent of the model). *)
From Coq Require Import String Ascii.
Open Scope string_scope.

(** [s] contains no '/'. *)
Fixpoint no_slash (s : string) : Prop :=
  match s with
  | EmptyString => True
  | String a t => a <> "/"%char /\ no_slash t
  end.

(** [D] is a directory prefix: empty or ending in '/'. *)
Definition is_dir (D : string) : Prop := D = "" \/ exists D', D = D' ++ "/".

