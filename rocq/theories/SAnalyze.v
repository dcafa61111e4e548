(** What the measures of analyze.py should be, stated without the model's helpers. *)
From Coq Require Import Reals List Arith ZArith Bool.
From Verif Require Import Base Tensor MAnalyze.
Import ListNotations.
Open Scope R_scope.

(** Index i + s on a circle of n cells. *)
Definition wrap (n i : nat) (s : Z) : nat := Z.to_nat ((Z.of_nat i + s) mod Z.of_nat n).

(** Number of cells of an n x m grid with a property. *)
Definition ncells (n m : nat) (p : nat -> nat -> bool) : R :=
  rsum n (fun i => rsum m (fun j => if p i j then 1 else 0)).

(** The part of a wrapped grid within distance h of (x, y). *)
Definition torus_window (h : nat) (g : arr R) (x y : nat) : arr R :=
  mkArr (2 * h + 1) (2 * h + 1)
    (fun i j => av g (wrap (an g) (x + i) (- Z.of_nat h)) (wrap (am g) (y + j) (- Z.of_nat h))).

(** All cells have the same value. *)
Definition constant_grid (g : arr R) : Prop :=
  forall i j i' j', (i < an g /\ j < am g /\ i' < an g /\ j' < am g)%nat -> av g i j = av g i' j'.

(** Joint occurrences of ii in one image and jj at the same place of the other. *)
Definition joint_count (img sh : arr nat) (ii jj : nat) : R :=
  ncells (an img) (am img) (fun i j => Nat.eqb (av img i j) ii && Nat.eqb (av sh i j) jj)%bool.

(** Same size, same entries. *)
Definition same_arr {A} (g h : arr A) : Prop :=
  an g = an h /\ am g = am h /\ forall i j, (i < an g)%nat -> (j < am g)%nat -> av g i j = av h i j.

(** Sample b has no live cell. *)
Definition sample_dead (t : tensor) (b : nat) : Prop :=
  forall c i j, (c < tC t)%nat -> (i < tH t)%nat -> (j < tW t)%nat -> get t b c i j = 0.

(** Sample b has a live cell on the edge of the grid. *)
Definition sample_escaped (t : tensor) (b : nat) : Prop :=
  exists c i j, (c < tC t /\ i < tH t /\ j < tW t)%nat /\
    (i = 0 \/ i = tH t - 1 \/ j = 0 \/ j = tW t - 1)%nat /\ 0 < get t b c i j.

(** lo is the smallest entry, hi the largest. *)
Definition least_entry (g : arr R) (lo : R) : Prop :=
  (exists i j, (i < an g)%nat /\ (j < am g)%nat /\ av g i j = lo) /\
  forall i j, (i < an g)%nat -> (j < am g)%nat -> lo <= av g i j.

Definition largest_entry (g : arr R) (hi : R) : Prop :=
  (exists i j, (i < an g)%nat /\ (j < am g)%nat /\ av g i j = hi) /\
  forall i j, (i < an g)%nat -> (j < am g)%nat -> av g i j <= hi.

(** img is g stretched linearly from 0 to 255 and rounded down; [slack] widens the range. *)
Definition stretched (slack : R) (g : arr R) (img : arr nat) : Prop :=
  an img = an g /\ am img = am g /\
  exists lo hi, least_entry g lo /\ largest_entry g hi /\ 0 < hi - lo + slack /\
  forall i j, (i < an g)%nat -> (j < am g)%nat ->
    INR (av img i j) <= 255 * (av g i j - lo) / (hi - lo + slack) < INR (av img i j) + 1.

(** Share of the cells of img with value v. *)
Definition share (img : arr nat) (v : nat) : R :=
  ncells (an img) (am img) (fun i j => Nat.eqb (av img i j) v) / (INR (an img) * INR (am img)).

(** Average cell of a batch of grids, and its deviation as torch takes it. *)
Definition cells_of (t : tensor) (f : nat -> nat -> nat -> nat -> R) : R :=
  rsum (tB t) (fun b => rsum (tC t) (fun c => rsum (tH t) (fun i => rsum (tW t) (fun j => f b c i j)))).
Definition size_of (t : tensor) : nat := (tB t * tC t * tH t * tW t)%nat.
Definition average (t : tensor) : R := cells_of t (get t) / INR (size_of t).
Definition deviation (t : tensor) : R := sqrt (cells_of t (fun b c i j => (get t b c i j - average t) ^ 2) / INR (size_of t - 1)).

(** A cell less the average in units of the deviation, both shifted by 1e-7. *)
Definition standard (t : tensor) (b c i j : nat) : R :=
  (1 / 10000000 + get t b c i j - average t) / (1 / 10000000 + deviation t).

(** How channel c of one batch goes with channel d of another. *)
Definition agreement (g h : tensor) (c d : nat) : R :=
  rsum (tB g) (fun b => rsum (tH g) (fun i => rsum (tW g) (fun j => standard g b c i j * standard h b d i j))) / INR (size_of g).

(** Mean, deviation from it, least and greatest of some numbers. *)
Definition summary (l : list R) (s : stats) : Prop :=
  l <> [] /\ st_mean s * INR (length l) = lsum l /\ 0 <= st_std s /\ st_std s ^ 2 * INR (length l) = lsum (map (fun x => (x - st_mean s) ^ 2) l) /\
  In (st_min s) l /\ In (st_max s) l /\ forall x, In x l -> st_min s <= x <= st_max s.
