(** Specification of the masks and of the animations. *)
From Coq Require Import Reals List Arith Bool String.
From Verif Require Import Base Tensor.
Import ListNotations.
Open Scope R_scope.

(** Coordinate of pixel [k] on an axis of [H] pixels: from -H/2 in steps of 1 + 1/H. *)
Definition pixel (H k : nat) : R := INR k * (1 + / INR H) - INR H / 2.

(** The disc of the given radius, in units of half the side, around (x, y). *)
Definition in_disc (H : nat) (radius x y : R) (i j : nat) : Prop :=
  sqrt ((pixel H j - x) ^ 2 + (pixel H i - y) ^ 2) < radius * (INR H / 2).

(** A mask of a given image: right shape, 0 on the region and 1 elsewhere (or the reverse). *)
Definition mask_of (img : tensor) (region : nat -> nat -> Prop) (inside outside : R) (m : tensor) : Prop :=
  shape m = (1%nat, tC img, tH img, tW img) /\ twf m /\
  forall c i j, (c < tC img)%nat -> (i < tH img)%nat -> (j < tW img)%nat ->
    (region i j -> get m 0 c i j = inside) /\ (~ region i j -> get m 0 c i j = outside).

(** The states an animation shows: [m] live states out of at most [n]. *)
Definition shown {G} (frame : G -> res G) (dead : G -> bool) (n speedup : nat) (u : nat -> G) (m : nat) : Prop :=
  (m <= n)%nat /\ (forall i, (i < m)%nat -> dead (u i) = false /\ iter_res frame speedup (u i) = Ok (u (S i))) /\
  ((m < n)%nat -> dead (u m) = true).
