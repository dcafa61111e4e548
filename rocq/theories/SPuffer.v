(** What the puffer leaves behind. *)
From Coq Require Import List Arith Bool ZArith.
From Verif Require Import Base SGrid SLife MPatterns.
Import ListNotations.

Definition ones : board := fun _ _ => true.

(** A board with the puffer 13 columns per round further right of where it started at
    ([dy], [dx]), and one full block of four rows and two columns left behind per round. *)
Definition puffed (H W : nat) (dy dx : Z) (k : nat) : board := fun i j =>
  shifted H W dy (dx + 13 * Z.of_nat k) (placed 8 8 get_puffer) i j || existsb (fun m => shifted H W (dy + 2) (dx + 13 * Z.of_nat m - 1) (placed 4 2 ones) i j) (seq 0 k).
