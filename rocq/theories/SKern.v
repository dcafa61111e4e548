(** Specification vocabulary for activations and kernels, independent of the model. *)
From Coq Require Import Reals ZArith List Arith String.
From Verif Require Import Base PyDict Tensor SGrid.
Import ListNotations.
Open Scope R_scope.

(** How many of the closed-open intervals contain [x]. *)
Fixpoint count_in (ivs : list (R * R)) (x : R) : nat :=
  match ivs with
  | [] => 0
  | (lo, hi) :: t => (if Rle_dec lo x then if Rlt_dec x hi then 1 else 0 else 0) + count_in t x
  end.

(** [x] is at distance at least [d] from every bound, and the bounds are ordered. *)
Definition away (d : R) (ivs : list (R * R)) (x : R) : Prop :=
  forall lo hi, In (lo, hi) ivs -> lo <= hi /\ d <= Rabs (x - lo) /\ d <= Rabs (x - hi).

(** Distance of cell (i,j) from the centre of a kernel of radius [r], in radii. *)
Definition rho (r i j : nat) : R :=
  sqrt ((INR i - INR r) ^ 2 + (INR j - INR r) ^ 2) / INR r.

(** [k] is the (2r+1) x (2r+1) kernel with profile [p]: the profile minus its least value
    [m], divided by 10^-9 plus the total [s] of the shifted profile. *)
Definition fitted (r : nat) (p : nat -> nat -> R) (k : tensor) : Prop :=
  let n := (2 * r + 1)%nat in
  twf k /\ shape k = (1, 1, n, n)%nat /\
  exists m s,
    (forall i j, (i < n)%nat -> (j < n)%nat -> m <= p i j) /\
    (exists i j, (i < n)%nat /\ (j < n)%nat /\ p i j = m) /\
    s = rsum n (fun i => rsum n (fun j => p i j - m)) /\
    forall i j, (i < n)%nat -> (j < n)%nat -> get k 0 0 i j = (p i j - m) / (/ 1000000000 + s).

(** A kernel with non-negative entries and total at most 1. *)
Definition normalised (k : tensor) : Prop :=
  twf k /\ tB k = 1%nat /\ tC k = 1%nat /\
  Forall (fun v => 0 <= v) (tdata k) /\ tsum k <= 1.

(** Entries at equal distance from the centre are equal. *)
Definition radial (r : nat) (k : tensor) : Prop :=
  forall i j i' j', (i < 2 * r + 1)%nat -> (j < 2 * r + 1)%nat -> (i' < 2 * r + 1)%nat -> (j' < 2 * r + 1)%nat ->
  ((Z.of_nat i - Z.of_nat r) ^ 2 + (Z.of_nat j - Z.of_nat r) ^ 2 =
   (Z.of_nat i' - Z.of_nat r) ^ 2 + (Z.of_nat j' - Z.of_nat r) ^ 2)%Z ->
  get k 0 0 i j = get k 0 0 i' j'.



(** The numeric keyword argument [key] is [v]: given as a number, or absent and [v] is the
    default. *)
Definition kwarg (kw : dict) (key : String.string) (default v : R) : Prop :=
  match dget key kw with
  | None => v = default
  | Some (VNum r) => v = r
  | _ => False
  end.
