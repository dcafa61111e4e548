(** Specification of arrays with any number of dimensions. *)
From Coq Require Import List Arith.
From Verif Require Import MMeta.
Import ListNotations.

(** The number of entries is the product of the dimensions. *)
Definition array_wf (a : array) : Prop := length (a_data a) = fold_right Nat.mul 1 (a_dims a).
