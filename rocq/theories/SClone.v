(** Specification vocabulary for cloning. *)
From Coq Require Import Reals List Arith.
From Verif Require Import Base Tensor SGrid.
Import ListNotations.
Open Scope R_scope.

(** Number of hidden channels in iteration [i]. *)
Fixpoint width (most h i : nat) : nat :=
  match i with O => h | S j => Nat.min most (5 * width most h j / 4) end.

(** Weights after [k] optimiser steps. *)
Fixpoint after {W : Type} (step : nat -> W -> W) (w : W) (k : nat) : W :=
  match k with O => w | S j => step j (after step w j) end.

(** An iteration of at most [n] steps with the errors [e] runs [k] of them: up to and including the
    first whose error is below the threshold. *)
Definition good (thr : R) (e : option R) : Prop := exists x, e = Some x /\ x < thr.
Definition runs_for (thr : R) (n : nat) (e : nat -> option R) (k : nat) : Prop :=
  (k <= n)%nat /\ (forall j, (S j < k)%nat -> ~ good thr (e j)) /\
  (k = n /\ (forall j, (j < k)%nat -> ~ good thr (e j)) \/ exists j, k = S j /\ good thr (e j)).

(** Mean of the relative deviations of [p] from [t]. *)
Definition deviation (t p : tensor) : R :=
  rsum (tB t) (fun b => rsum (tC t) (fun c => rsum (tH t) (fun i => rsum (tW t) (fun j =>
    Rabs (get p b c i j - get t b c i j) / (Rabs (get t b c i j) + 1 / 10 ^ 9)))))
  / INR (tB t * tC t * tH t * tW t).
