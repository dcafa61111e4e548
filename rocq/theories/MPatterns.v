(** Model of get_puffer in yuca/patterns.py (get_glider is in MConfigs) and of the function of
    the same name in notebooks/my_helpers.py. *)
From Coq Require Import Arith Bool.

(** pattern[r0:r1, c0:c1] = 1, within the array (patterns.py:22-29). *)
Definition fill (r0 r1 c0 c1 : nat) (p : nat -> nat -> bool) : nat -> nat -> bool :=
  fun i j => if Nat.leb r0 i && Nat.ltb i r1 && Nat.leb c0 j && Nat.ltb j c1 then true else p i j.

(** patterns.py:19-31: the 8 x 8 puffer; [true] is 1. *)
Definition get_puffer : nat -> nat -> bool :=
  let p0 := fun _ _ => false in
  let p1 := fill 3 5 1 2 p0 in
  let p2 := fill 2 3 2 3 p1 in
  let p3 := fill 5 6 2 3 p2 in
  let p4 := fill 1 7 3 4 p3 in
  let p5 := fill 2 3 4 6 p4 in
  let p6 := fill 5 6 4 6 p5 in
  fill 3 5 6 7 p6.

(** notebooks/my_helpers.py:256-263: a 4 x 4 pattern under the same name. *)
Definition note_puffer : nat -> nat -> bool :=
  let p0 := fun _ _ => false in
  let p1 := fill 0 4 0 1 p0 in
  fill 1 3 1 2 p1.
