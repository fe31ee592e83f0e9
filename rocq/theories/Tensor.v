(** Model of src/vector_matrix.hpp and src/vector_matrix.cpp: column-major
    matrices and rank-3/rank-4 tensors stored in a [std::valarray].
    The element type is left abstract ([A]; [qscfloat] in the code).
    Indices and sizes are [nat]; wrap-around of [std::size_t] is not modelled. *)
From Coq Require Import String List Arith Bool Lia.
From Verif Require Import Base.
Import ListNotations.

Section Tensor.
Context {A : Type}.

(** class Matrix, vector_matrix.hpp (private members nrows_, ncols_, len_ and the
    inherited valarray data). *)
Record matrix := mkMatrix { m_nrows : nat; m_ncols : nat; m_len : nat; m_data : list A }.

(** Matrix::Matrix(), vector_matrix.cpp lines 40-47 (a valarray of one
    value-initialised element). *)
Definition matrix_default (zero : A) : matrix := mkMatrix 1 1 1 [zero].

(** Matrix::Matrix(nrows,ncols), vector_matrix.cpp lines 49-55. *)
Definition matrix_new (zero : A) (r c : nat) : matrix :=
  mkMatrix r c (r * c) (repeat zero (r * c)).

(** Matrix::resize, vector_matrix.cpp lines 57-62 (valarray::resize discards the old
    contents and fills with v). *)
Definition matrix_resize (m : matrix) (r c : nat) (v : A) : matrix :=
  mkMatrix r c (r * c) (repeat v (r * c)).

(** Matrix::operator()(m,n), vector_matrix.hpp lines 88-94. *)
Definition matrix_index (m : matrix) (i j : nat) : nat := i + m_nrows m * j.
Definition matrix_get (m : matrix) (i j : nat) : outcome A :=
  aget (m_data m) (matrix_index m i j).
Definition matrix_set (m : matrix) (i j : nat) (v : A) : outcome matrix :=
  do d <- aset (m_data m) (matrix_index m i j) v;
  Ok (mkMatrix (m_nrows m) (m_ncols m) (m_len m) d).

(** Matrix::operator=(const Matrix&), vector_matrix.hpp lines 102-106: only the
    valarray base class is assigned; nrows_, ncols_ and len_ are not.
    (std::valarray::operator= resizes the data to the source's size.) *)
Definition matrix_assign (dst src : matrix) : matrix :=
  mkMatrix (m_nrows dst) (m_ncols dst) (m_len dst) (m_data src).

(** class Rank3Tensor, vector_matrix.hpp lines 110-130. *)
Record tensor3 := mkT3 { t3_d1 : nat; t3_d2 : nat; t3_d3 : nat; t3_data : list A }.

(** Rank3Tensor::Rank3Tensor / resize, vector_matrix.cpp lines 199-214. *)
Definition t3_new (v : A) (d1 d2 d3 : nat) : tensor3 :=
  mkT3 d1 d2 d3 (repeat v (d1 * d2 * d3)).
(** Rank3Tensor::operator(), vector_matrix.hpp lines 124-130. *)
Definition t3_index (t : tensor3) (i j k : nat) : nat := i + t3_d1 t * (j + t3_d2 t * k).
Definition t3_get (t : tensor3) i j k : outcome A := aget (t3_data t) (t3_index t i j k).
Definition t3_set (t : tensor3) i j k v : outcome tensor3 :=
  do d <- aset (t3_data t) (t3_index t i j k) v;
  Ok (mkT3 (t3_d1 t) (t3_d2 t) (t3_d3 t) d).

(** Rank3Tensor::set_row, vector_matrix.cpp lines 216-221. *)
Definition t3_set_row (t : tensor3) (v : list A) (j2 j3 : nat) : outcome tensor3 :=
  if length v =? t3_d1 t then
    for_loop (t3_d1 t)
      (fun j t' =>
         do x <- aget v j;
         do d <- aset (t3_data t') (j + t3_d1 t * (j2 + t3_d2 t * j3)) x;
         Ok (mkT3 (t3_d1 t') (t3_d2 t') (t3_d3 t') d)) t
  else Throw "assert v.size() == d1_".

(** class Rank4Tensor, vector_matrix.hpp lines 134-156. *)
Record tensor4 := mkT4 { t4_d1 : nat; t4_d2 : nat; t4_d3 : nat; t4_d4 : nat; t4_data : list A }.

(** Rank4Tensor::Rank4Tensor / resize, vector_matrix.cpp lines 236-253. *)
Definition t4_new (v : A) (d1 d2 d3 d4 : nat) : tensor4 :=
  mkT4 d1 d2 d3 d4 (repeat v (d1 * d2 * d3 * d4)).
(** Rank4Tensor::operator(), vector_matrix.hpp lines 150-156. *)
Definition t4_index (t : tensor4) (i j k l : nat) : nat :=
  i + t4_d1 t * (j + t4_d2 t * (k + t4_d3 t * l)).
Definition t4_get (t : tensor4) i j k l : outcome A := aget (t4_data t) (t4_index t i j k l).
Definition t4_set (t : tensor4) i j k l v : outcome tensor4 :=
  do d <- aset (t4_data t) (t4_index t i j k l) v;
  Ok (mkT4 (t4_d1 t) (t4_d2 t) (t4_d3 t) (t4_d4 t) d).

(** Rank4Tensor::set_row, vector_matrix.cpp lines 255-260. *)
Definition t4_set_row (t : tensor4) (v : list A) (j2 j3 j4 : nat) : outcome tensor4 :=
  if length v =? t4_d1 t then
    for_loop (t4_d1 t)
      (fun j t' =>
         do x <- aget v j;
         do d <- aset (t4_data t') (j + t4_d1 t * (j2 + t4_d2 t * (j3 + t4_d3 t * j4))) x;
         Ok (mkT4 (t4_d1 t') (t4_d2 t') (t4_d3 t') (t4_d4 t') d)) t
  else Throw "assert v.size() == d1_".

End Tensor.
Arguments matrix : clear implicits.
Arguments tensor3 : clear implicits.
Arguments tensor4 : clear implicits.
