(** Specification vocabulary for grids, independent of the automaton model. *)
From Coq Require Import Reals ZArith List Arith.
From Verif Require Import Base Tensor.
Import ListNotations.
Open Scope R_scope.

(** Index modulo [n], as in mathematics (result in 0..n-1). *)
Definition zmod (a : Z) (n : nat) : nat := Z.to_nat (a mod Z.of_nat n).

(** Content moved down by [dy] rows and right by [dx] columns on the torus (torch.roll). *)
Definition roll (dy dx : Z) (t : tensor) : tensor :=
  build (tB t) (tC t) (tH t) (tW t)
    (fun b c i j => get t b c (zmod (Z.of_nat i - dy) (tH t)) (zmod (Z.of_nat j - dx) (tW t))).

Definition flip_v (t : tensor) : tensor :=
  build (tB t) (tC t) (tH t) (tW t) (fun b c i j => get t b c (tH t - 1 - i) j).

Definition flip_h (t : tensor) : tensor :=
  build (tB t) (tC t) (tH t) (tW t) (fun b c i j => get t b c i (tW t - 1 - j)).

Definition transpose (t : tensor) : tensor :=
  build (tB t) (tC t) (tW t) (tH t) (fun b c i j => get t b c j i).

(** Batch element [k] as a batch of one. *)
Definition batch_elem (k : nat) (t : tensor) : tensor :=
  build 1 (tC t) (tH t) (tW t) (fun _ c i j => get t k c i j).

Definition in_unit (t : tensor) : Prop := Forall (fun x => 0 <= x <= 1) (tdata t).

(** Weighted sum over a (2r+1) x (2r+1) neighbourhood on the torus. *)
Definition toroidal_sum (r H W : nat) (k : nat -> nat -> R) (f : nat -> nat -> R) (i j : nat) : R :=
  rsum (2 * r + 1) (fun y => rsum (2 * r + 1) (fun x =>
    k y x * f (zmod (Z.of_nat i + Z.of_nat y - Z.of_nat r) H) (zmod (Z.of_nat j + Z.of_nat x - Z.of_nat r) W))).

(** A kernel plane that is unchanged by mirroring or by transposition. *)
Definition sym_v (w : tensor) : Prop := forall o c y x,
  (o < tB w)%nat -> (c < tC w)%nat -> (y < tH w)%nat -> (x < tW w)%nat ->
  get w o c (tH w - 1 - y) x = get w o c y x.
Definition sym_h (w : tensor) : Prop := forall o c y x,
  (o < tB w)%nat -> (c < tC w)%nat -> (y < tH w)%nat -> (x < tW w)%nat ->
  get w o c y (tW w - 1 - x) = get w o c y x.
Definition sym_t (w : tensor) : Prop := tH w = tW w /\ forall o c y x,
  (o < tB w)%nat -> (c < tC w)%nat -> (y < tH w)%nat -> (x < tW w)%nat ->
  get w o c x y = get w o c y x.
