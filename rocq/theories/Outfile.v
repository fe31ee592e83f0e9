(** Model of src/outfile.cpp (qsc::outfile) and of the output file names built in
    src/multiopt.cpp (MultiOpt::run).  [std::string] is Coq's [string]. *)
From Coq Require Import String Ascii List Arith Lia DecimalString.
From Verif Require Import Base.
Open Scope string_scope.

(** std::string::rfind(char): position of the last occurrence, [None] = npos. *)
Fixpoint rfind (c : ascii) (s : string) : option nat :=
  match s with
  | EmptyString => None
  | String a t =>
      match rfind c t with
      | Some k => Some (S k)
      | None => if Ascii.eqb a c then Some 0 else None
      end
  end.

(** std::string::substr(pos, len): throws std::out_of_range if pos > size(). *)
Definition substr (s : string) (pos len : nat) : outcome string :=
  if (pos <=? String.length s)%nat then Ok (substring pos len s) else Throw "std::out_of_range".

(** qsc::outfile, outfile.cpp lines 5-24. *)
Definition outfile (directory_and_infile : string) : outcome string :=
  do dir_in <-
    (match rfind "/" directory_and_infile with
     | Some slash_pos =>
         do d <- substr directory_and_infile 0 (slash_pos + 1);
         do f <- substr directory_and_infile (slash_pos + 1)
                   (String.length directory_and_infile - slash_pos - 1);
         Ok (d, f)
     | None => Ok ("", directory_and_infile)
     end);
  let directory := fst dir_in in
  let infile := snd dir_in in
  if (String.length infile <? 7)%nat then Throw "Input file must begin with 'qsc_in.'"
  else
    do infile_start <- substr infile 0 7;
    if negb (String.eqb infile_start "qsc_in.") then Throw "Input file must begin with 'qsc_in.'"
    else
      do rest <- substr infile 7 (String.length infile - 7);
      Ok (directory ++ "qsc_out." ++ rest ++ ".nc").

(** std::to_string for a non-negative int. *)
Definition to_string (n : nat) : string := NilZero.string_of_uint (Nat.to_uint n).

(** MultiOpt::run, multiopt.cpp lines 19-27: the name given to stage [jopt]. *)
Definition multiopt_stage_name (outfile_base_name : string) (jopt : nat) : outcome string :=
  do stem <- substr outfile_base_name 0 (String.length outfile_base_name - 3);
  Ok (stem ++ "_" ++ to_string jopt ++ ".nc").

(** MultiOpt::run, multiopt.cpp lines 19-27: all the names of a job with [nopts] stages. *)
Fixpoint multiopt_names_from (base : string) (j n : nat) : outcome (list string) :=
  match n with
  | O => Ok nil
  | S n' => do x <- multiopt_stage_name base j;
            do xs <- multiopt_names_from base (S j) n';
            Ok (x :: xs)%list
  end.
Definition multiopt_names (directory_and_infile : string) (nopts : nat) : outcome (list string) :=
  do base <- outfile directory_and_infile;
  multiopt_names_from base 0 nopts.
