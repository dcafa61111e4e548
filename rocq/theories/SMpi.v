(** Specification of the parallel evaluation: the serial one. *)
From Coq Require Import Reals List Arith Bool ZArith.
From Verif Require Import Base MEvo MMpi.
Import ListNotations.

(** cmaes.py:465-477: one process evaluates agent 0, 1, ... *)
Definition serial_fitness (P : nat) (fit : vec -> Z -> R) (params : mat) (seed : Z) : list R :=
  map (fun j => fit (nth j params []) seed) (seq 0 P).

(** A history that one process would have. *)
Inductive serial (P : nat) (fit : vec -> Z -> R) (plan : list (list R) -> option (mat * Z)) : list (list R) -> Prop :=
| serial_nil : serial P fit plan []
| serial_snoc h p s : serial P fit plan h -> plan h = Some (p, s) -> serial P fit plan (h ++ [serial_fitness P fit p s]).

(** Everybody is done and no message is left. *)
Definition finished (W : nat) (c : net) : Prop :=
  ne_phase c = Ended /\ forall k, (1 <= k < W)%nat -> ne_arm c k = Left /\ ne_down c k = [] /\ ne_up c k = [].
