(** What the theorems about the notebook's automaton say. *)
From Coq Require Import Reals ZArith List Arith Bool.
From Verif Require Import Base SGrid SLife.
Import ListNotations.
Open Scope R_scope.

Definition in_rule (l : list Z) (n : Z) : bool := existsb (Z.eqb n) l.

(** What the smoothed rule is at n live neighbours out of eight: right up to three, half of each
    of two rules at four, and the rule for one more from five on. *)
Definition weight (l : list Z) (n : nat) : R :=
  if Nat.leb n 3 then b2R (in_rule l (Z.of_nat n))
  else if Nat.eqb n 4 then (b2R (in_rule l 4) + b2R (in_rule l 5)) / 2
  else b2R (in_rule l (Z.of_nat n + 1)).

(** The rule that is simulated: four neighbours give birth if both 4 and 5 do, and survival if
    either does. *)
Definition counts : list Z := [0; 1; 2; 3; 4; 5; 6; 7; 8]%Z.
Definition as_read (four : bool -> bool -> bool) (l : list Z) : list Z :=
  filter (fun n => if (n <=? 3)%Z then in_rule l n else if (n =? 4)%Z then four (in_rule l 4) (in_rule l 5) else in_rule l (n + 1)) counts.
Definition read_birth : list Z -> list Z := as_read andb.
Definition read_survival : list Z -> list Z := as_read orb.

(** Rules that are read as meant. *)
Definition low_rule (l : list Z) : Prop := Forall (fun b => 0 <= b <= 3)%Z l.

(** A cell that should be dead is at most [d], one that should be alive at least 1 - [e]. *)
Definition tracks (d e : R) (H W : nat) (x : nat -> nat -> R) (g : board) : Prop :=
  forall i j, (i < H)%nat -> (j < W)%nat -> if g i j then 1 - e <= x i j <= 1 else 0 <= x i j <= d.

(** The kernel of the eight neighbours, each an eighth, and the kernel of the cell itself. *)
Definition eighths (i j : nat) : R := if (Nat.eqb i 1 && Nat.eqb j 1)%bool then 0 else 1 / 8.
Definition delta (i j : nat) : R := if (Nat.eqb i 1 && Nat.eqb j 1)%bool then 1 else 0.

(** The counts in both rules. *)
Definition both_rules (a b : list Z) : list Z := filter (in_rule b) a.
