(** What the wrappers should compute, stated without the model's helpers. *)
From Coq Require Import Reals List Arith ZArith Bool.
From Verif Require Import Base Tensor.
Import ListNotations.
Open Scope R_scope.

(** The middle of an axis of length n, leaving out a quarter on each side. *)
Definition in_middle (n i : nat) : Prop := (n / 4 <= i < n - n / 4)%nat.

(** Number of positions below n at which a property holds, as a real. *)
Definition rcount (n : nat) (p : nat -> bool) : R := rsum n (fun k => if p k then 1 else 0).

(** Some cell of sample b exceeds th. *)
Definition some_above (th : R) (t : tensor) (b : nat) : Prop :=
  exists c i j, (c < tC t /\ i < tH t /\ j < tW t)%nat /\ th < get t b c i j.

(** All cells of a tensor are non-negative. *)
Definition nonneg (t : tensor) : Prop := Forall (fun x => 0 <= x) (tdata t).

(** A tensor with at least one cell. *)
Definition inhabited (t : tensor) : Prop := (0 < tB t * tC t * tH t * tW t)%nat.

(** Total of all cells. *)
Definition mass (t : tensor) : R :=
  rsum (tB t) (fun b => rsum (tC t) (fun c => rsum (tH t) (fun i => rsum (tW t) (fun j => get t b c i j)))).

(** Average cell. *)
Definition density (t : tensor) : R := mass t / INR (tB t * tC t * tH t * tW t).

(** Column of the centre of mass of the first sample, in kernel radii. *)
Definition centroid (radius : R) (t : tensor) : R :=
  rsum (tC t) (fun c => rsum (tH t) (fun i => rsum (tW t) (fun j => INR j / radius * get t 0 c i j)))
  / (1 / 1000000 + mass t).

(** Displacement at step k of centroids y 1, y 2, ...: none at the first step or after a centroid
    at zero, and one span more when the centroid went over the right edge. *)
Definition displacement (span : R) (y : nat -> R) (k : nat) : R :=
  match k with
  | 0%nat | 1%nat => 0
  | S k' =>
      if Req_EM_T (y k') 0 then 0
      else y k - y k' + (if Rlt_dec (span - 2) (y k') then if Rlt_dec (y k) 2 then span else 0 else 0)
  end.

(** Relative change of the density from step k to step k+1. *)
Definition growth_rate (m : nat -> R) (k : nat) : R := Rabs (1 - m (S k) / (m k + 1 / 1000000)).

(** The grid died out or no cell grew. *)
Definition halted (u u' : tensor) : Prop :=
  density u' = 0 \/
  forall b c i j, (b < tB u /\ c < tC u /\ i < tH u /\ j < tW u)%nat ->
    get u' b c i j - get u b c i j <= 1 / 100000.

(** Mean of one sample, as total over number of cells. *)
Definition sample_density (t : tensor) (b : nat) : R :=
  rsum (tC t) (fun c => rsum (tH t) (fun i => rsum (tW t) (fun j => get t b c i j))) / INR (tC t * tH t * tW t).
