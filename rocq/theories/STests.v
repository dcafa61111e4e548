(** Specification used for the project's own tests. *)
From Coq Require Import Arith.
From Verif Require Import Tensor.

(** A side of [n] cells is large enough for kernels of radius 1 and [r] under the padding. *)
Definition room (m : pmode) (r n : nat) : Prop := (0 < n)%nat /\
  match m with Zeros | Replicate => True | Circular => (1 <= n /\ r <= n)%nat | Reflect => (1 < n /\ r < n)%nat end.
