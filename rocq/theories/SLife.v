(** Life-like cellular automata on a torus, independent of the model. *)
From Coq Require Import Reals ZArith List Arith Bool.
From Verif Require Import Base Tensor SGrid.
Import ListNotations.

(** A board; only the cells below its height and width matter. *)
Definition board := nat -> nat -> bool.

Definition b2n (b : bool) : nat := if b then 1 else 0.
Definition b2R (b : bool) : R := if b then 1%R else 0%R.

(** The eight neighbours of a cell. *)
Definition moore_offsets : list (Z * Z) :=
  [(-1, -1); (-1, 0); (-1, 1); (0, -1); (0, 1); (1, -1); (1, 0); (1, 1)]%Z.

(** Number of live neighbours on the H x W torus (on a torus narrower than three cells a
    cell may be its neighbour's neighbour several times over, and counts each time). *)
Definition live_neighbours (H W : nat) (g : board) (i j : nat) : nat :=
  list_sum (map (fun o => b2n (g (zmod (Z.of_nat i + fst o) H) (zmod (Z.of_nat j + snd o) W))) moore_offsets).

(** A dead cell is born when its count is in the birth list, a live one survives when its
    count is in the survival list. *)
Definition life_cell (birth survival : list Z) (alive : bool) (n : nat) : bool :=
  existsb (Z.eqb (Z.of_nat n)) (if alive then survival else birth).

Definition life (birth survival : list Z) (H W : nat) (g : board) : board :=
  fun i j => life_cell birth survival (g i j) (live_neighbours H W g i j).

Fixpoint life_n (birth survival : list Z) (H W n : nat) (g : board) : board :=
  match n with
  | O => g
  | S k => life birth survival H W (life_n birth survival H W k g)
  end.

(** The rule lists: distinct counts between 0 and 8. *)
Definition rule_list (l : list Z) : Prop := NoDup l /\ Forall (fun b => 0 <= b <= 8)%Z l.

(** Every cell of every grid of the batch is within [e] of its board. *)
Definition near (e : R) (u : tensor) (g : nat -> board) : Prop :=
  forall b i j, (b < tB u)%nat -> (i < tH u)%nat -> (j < tW u)%nat -> (Rabs (get u b 0 i j - b2R (g b i j)) <= e)%R.

(** Content moved down [dy] rows and right [dx] columns. *)
Definition shifted (H W : nat) (dy dx : Z) (g : board) : board :=
  fun i j => g (zmod (Z.of_nat i - dy) H) (zmod (Z.of_nat j - dx) W).

(** A pattern in the corner of an otherwise empty board. *)
Definition placed (h w : nat) (p : board) : board := fun i j => Nat.ltb i h && Nat.ltb j w && p i j.

(** Entries of two tensors of one shape differ by at most [d]. *)
Definition close (d : R) (a v : tensor) : Prop :=
  forall b c i j, (b < tB v)%nat -> (c < tC v)%nat -> (i < tH v)%nat -> (j < tW v)%nat -> (Rabs (get a b c i j - get v b c i j) <= d)%R.

(** A run of [f] in which every step may be off by [d] (rounding): each grid is within [d] of
    the step of the one before, has the same shape and stays in [0,1]. *)
Definition rough_run (f : tensor -> res tensor) (d : R) (us : nat -> tensor) : Prop :=
  forall t, twf (us t) /\ shape (us t) = shape (us 0%nat) /\ in_unit (us t) /\ forall v, f (us t) = Ok v -> close d (us (S t)) v.

(** Every birth count is a survival count. *)
Definition sub_rule (birth survival : list Z) : Prop := forall b, In b birth -> In b survival.

(** ** The plane: no edges, nothing wraps *)
Definition plane := Z -> Z -> bool.

Definition plane_live (p : plane) (z w : Z) : nat := list_sum (map (fun o => b2n (p (z + fst o) (w + snd o))%Z) moore_offsets).

Definition plane_life (birth survival : list Z) (p : plane) : plane := fun z w => life_cell birth survival (p z w) (plane_live p z w).

Fixpoint plane_n (birth survival : list Z) (n : nat) (p : plane) : plane :=
  match n with
  | O => p
  | S k => plane_life birth survival (plane_n birth survival k p)
  end.

(** Exactly [n] cells are alive. *)
Definition population (p : plane) (n : nat) : Prop :=
  exists l, NoDup l /\ length l = n /\ forall z w, p z w = true <-> In (z, w) l.

(** A pattern on the otherwise empty plane. *)
Definition on_plane (h w : nat) (p : board) : plane := fun z x =>
  Z.leb 0 z && Z.ltb z (Z.of_nat h) && Z.leb 0 x && Z.ltb x (Z.of_nat w) && p (Z.to_nat z) (Z.to_nat x).
