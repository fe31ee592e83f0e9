(** Model of src/netcdf_writer.cpp and of the reader class of src/read_netcdf.cpp, over a model of the part of the NetCDF C library that they use.
    A file is the list of its dimensions and of its variables, in the order of their definition.  Attributes (descriptions and units) and failures of
    the file system are not modelled, nor the limits of the classic format on the size of a file.  The writer keeps pointers to the data until
    write_and_close; nothing changes between a call of put and write_and_close in the callers, so the model keeps the data. *)
From Coq Require Import String Ascii ZArith List Arith Bool.
From Verif Require Import Base Outfile.
Import ListNotations.
Local Open Scope string_scope.
Local Open Scope nat_scope.

Section NetCDF.
Variable F : Type.

(** ** The library *)
(** The contents of a variable: NC_INT, NC_FLOAT or NC_DOUBLE (qscfloat), NC_CHAR, in row-major order. *)
Inductive contents := Ints (l : list Z) | Floats (l : list F) | Chars (s : string).
Inductive nc_type := NC_INT | NC_QSCFLOAT | NC_CHAR.
Definition type_of (c : contents) : nc_type := match c with Ints _ => NC_INT | Floats _ => NC_QSCFLOAT | Chars _ => NC_CHAR end.
Record variable := mkVar { v_name : string; v_type : nc_type; v_dims : list nat; v_contents : option contents }.
Record file := mkFile { f_dims : list (string * nat); f_vars : list variable }.
Definition empty_file : file := mkFile [] [].

Fixpoint find_index {A} (p : A -> bool) (l : list A) : option nat :=
  match l with [] => None | x :: l' => if p x then Some 0 else option_map S (find_index p l') end.
(** nc_inq_dimid, nc_inq_varid. *)
Definition inq_dimid (f : file) (name : string) : option nat := find_index (fun d => String.eqb (fst d) name) (f_dims f).
Definition inq_varid (f : file) (name : string) : option nat := find_index (fun v => String.eqb (v_name v) name) (f_vars f).
(** nc_def_dim: the length 0 is NC_UNLIMITED, of which the classic format allows one. *)
Definition def_dim (f : file) (name : string) (len : Z) : outcome (nat * file) :=
  if (len <? 0)%Z then Throw "NetCDF: Invalid dimension size"
  else match inq_dimid f name with
  | Some _ => Throw "NetCDF: String match to name in use"
  | None => if (len =? 0)%Z && existsb (fun d => snd d =? 0) (f_dims f) then Throw "NetCDF: NC_UNLIMITED size already in use"
            else Ok (length (f_dims f), mkFile (f_dims f ++ [(name, Z.to_nat len)])%list (f_vars f))
  end.
(** The lengths of dimensions; None if one of the ids is not defined. *)
Fixpoint lengths (f : file) (ids : list nat) : option (list nat) :=
  match ids with
  | [] => Some []
  | i :: ids' => match nth_error (f_dims f) i, lengths f ids' with Some d, Some l => Some (snd d :: l) | _, _ => None end
  end.
(** nc_def_var: the unlimited dimension can only be the first. *)
Definition def_var (f : file) (name : string) (t : nc_type) (ids : list nat) : outcome (nat * file) :=
  match inq_varid f name with
  | Some _ => Throw "NetCDF: String match to name in use"
  | None =>
    match lengths f ids with
    | None => Throw "NetCDF: Invalid dimension ID or name"
    | Some l => if existsb (Nat.eqb 0) (tl l) then Throw "NetCDF: NC_UNLIMITED in the wrong index"
                else Ok (length (f_vars f), mkFile (f_dims f) (f_vars f ++ [mkVar name t ids None])%list)
    end
  end.
Definition product (l : list nat) : nat := fold_right Nat.mul 1 l.
(** The first n elements of the memory at a pointer. *)
Definition first_elements (n : nat) (c : contents) : outcome contents :=
  match c with
  | Ints l => if n <=? length l then Ok (Ints (firstn n l)) else UB "read out of bounds"
  | Floats l => if n <=? length l then Ok (Floats (firstn n l)) else UB "read out of bounds"
  | Chars s => if n <=? String.length s then Ok (Chars (substring 0 n s)) else UB "read out of bounds"
  end.
(** nc_put_var_*, with the type of the variable: as many elements as the variable has are read at the pointer.  An unlimited dimension that has no
    records has length 0. *)
Definition put_var (f : file) (id : nat) (c : contents) : outcome file :=
  match nth_error (f_vars f) id with
  | None => Throw "NetCDF: Variable not found"
  | Some v =>
    match lengths f (v_dims v) with
    | None => Throw "NetCDF: Invalid dimension ID or name"
    | Some l => do c <- first_elements (product l) c; Ok (mkFile (f_dims f) (upd (f_vars f) id (mkVar (v_name v) (v_type v) (v_dims v) (Some c))))
    end
  end.

(** ** The writer (netcdf_writer.cpp) *)
Record writer := mkW { w_file : file; w_entries : list (nat * contents) }.
(** NetCDFWriter::NetCDFWriter, lines 13-30: a new file, or an existing one. *)
Definition new_writer : writer := mkW empty_file [].
Definition append_writer (f : file) : writer := mkW f [].
(** Lines 39-55. *)
Definition dim (w : writer) (name : string) (val : Z) : outcome (nat * writer) :=
  do p <- def_dim (w_file w) name val; Ok (fst p, mkW (snd p) (w_entries w)).
Definition get_dim (w : writer) (name : string) : outcome nat :=
  match inq_dimid (w_file w) name with Some i => Ok i | None => Throw "NetCDF: Invalid dimension ID or name" end.
(** The common part of the methods put, lines 73-177. *)
Definition define (w : writer) (name : string) (ids : list nat) (c : contents) : outcome writer :=
  do p <- def_var (w_file w) name (type_of c) ids;
  Ok (mkW (snd p) (w_entries w ++ [(fst p, c)])%list).
(** Lines 73-107: scalars. *)
Definition put_int (w : writer) (name : string) (val : Z) : outcome writer := define w name [] (Ints [val]).
Definition put_float (w : writer) (name : string) (val : F) : outcome writer := define w name [] (Floats [val]).
(** Lines 109-135: strings.  The dimension is called dim_ and the length with at least five digits. *)
Fixpoint zeros (n : nat) : string := match n with O => "" | S n' => String "0" (zeros n') end.
Definition dim_str (len : nat) : string := "dim_" ++ zeros (5 - String.length (to_string len)) ++ to_string len.
Definition put_string (w : writer) (name : string) (val : string) : outcome writer :=
  let len := String.length val in
  do p <- match inq_dimid (w_file w) (dim_str len) with
          | Some i => Ok (i, w)
          | None => dim w (dim_str len) (Z.of_nat len)
          end;
  define (snd p) name [fst p] (Chars val).
(** Lines 137-157. *)
Definition put_ints (w : writer) (id : nat) (name : string) (val : list Z) : outcome writer := define w name [id] (Ints val).
Definition put_vector (w : writer) (id : nat) (name : string) (val : list F) : outcome writer := define w name [id] (Floats val).
(** Lines 159-177: arrays of several dimensions; the order of the dimensions is reversed. *)
Definition put_array (w : writer) (ids : list nat) (name : string) (data : list F) : outcome writer := define w name (rev ids) (Floats data).
(** Lines 179-219. *)
Fixpoint write_all (f : file) (l : list (nat * contents)) : outcome file :=
  match l with [] => Ok f | (id, c) :: l' => do f <- put_var f id c; write_all f l' end.
Definition write_and_close (w : writer) : outcome file := write_all (w_file w) (w_entries w).

(** ** The reader (read_netcdf.cpp lines 38-103) *)
Definition read (f : file) (name : string) : outcome contents :=
  match inq_varid f name with
  | None => Throw "NetCDF: Variable not found"
  | Some i =>
    match nth_error (f_vars f) i with
    | Some (mkVar _ _ _ (Some c)) => Ok c
    | _ => Throw "NetCDF: Variable not found"
    end
  end.
(** Lines 54-60.  The library converts numbers; [to_int] and [of_int] are its conversions. *)
Variable to_int : F -> Z.
Variable of_int : Z -> F.
Definition get_int (f : file) (name : string) : outcome Z :=
  do c <- read f name;
  match c with
  | Ints [v] => Ok v | Floats [v] => Ok (to_int v)
  | Chars _ => Throw "NetCDF: Attempt to convert between text & numbers" | _ => UB "write out of bounds"
  end.
(** Lines 62-68. *)
Definition get_float (f : file) (name : string) : outcome F :=
  do c <- read f name;
  match c with
  | Floats [v] => Ok v | Ints [v] => Ok (of_int v)
  | Chars _ => Throw "NetCDF: Attempt to convert between text & numbers" | _ => UB "write out of bounds"
  end.
(** Lines 70-76.  [old] is the vector before the call; its size is not changed. *)
Definition get_vector (f : file) (name : string) (old : list F) : outcome (list F) :=
  do c <- read f name;
  match c with
  | Chars _ => Throw "NetCDF: Attempt to convert between text & numbers"
  | Floats l => if length l <=? length old then Ok (l ++ skipn (length l) old)%list else UB "write out of bounds"
  | Ints l => if length l <=? length old then Ok (map of_int l ++ skipn (length l) old)%list else UB "write out of bounds"
  end.
(** Lines 78-98.  The buffer has 50 characters and is not initialised: what is read of it beyond the characters of the file is undefined. *)
Definition nul : ascii := Ascii.zero.
Fixpoint until_nul (s : string) : option string :=
  match s with "" => None | String c s' => if Ascii.eqb c nul then Some "" else option_map (String c) (until_nul s') end.
Definition get_string (f : file) (name : string) : outcome string :=
  do c <- read f name;
  match c with
  | Chars s =>
    if 50 <? String.length s then UB "write out of bounds"
    else match until_nul s with
         | None => UB "read of uninitialised memory"
         | Some var => match String.index 0 " " var with Some i => Ok (substring 0 i var) | None => Throw "std::length_error" end
         end
  | _ => Throw "NetCDF: Attempt to convert between text & numbers"
  end.
End NetCDF.
Arguments Ints {F} _. Arguments Floats {F} _. Arguments Chars {F} _.
