(** Specification of the evolution strategy. *)
From Coq Require Import Reals List Arith Bool ZArith Permutation.
From Verif Require Import Base MEvo.
Import ListNotations.
Open Scope R_scope.

(** What np.argsort promises: the indices, sorted by value; nothing about equal values. *)
Definition is_argsort (f : list R) (o : list nat) : Prop :=
  Permutation o (seq 0 (List.length f)) /\
  forall i j, (i <= j < List.length f)%nat -> nth (nth i o 0%nat) f 0 <= nth (nth j o 0%nat) f 0.

(** [e] lists k agents, the best ones, best first. *)
Definition best_agents (k : nat) (f : list R) (e : list nat) : Prop :=
  List.length e = k /\ NoDup e /\
  (forall i, In i e -> (i < List.length f)%nat) /\
  (forall a b, (a <= b < k)%nat -> nth (nth b e 0%nat) f 0 <= nth (nth a e 0%nat) f 0) /\
  (forall i j, In i e -> (j < List.length f)%nat -> ~ In j e -> nth j f 0 <= nth i f 0).

(** Entries of a matrix; symmetric and positive semidefinite matrices of size d. *)
Definition ent (C : mat) (a b : nat) : R := nth b (nth a C []) 0.
Definition square (d : nat) (C : mat) : Prop := List.length C = d /\ forall row, In row C -> List.length row = d.
Definition sym_psd (d : nat) (C : mat) : Prop :=
  square d C /\
  (forall a b, (a < d)%nat -> (b < d)%nat -> ent C a b = ent C b a) /\
  (forall x : nat -> R, 0 <= rsum d (fun a => rsum d (fun b => x a * ent C a b * x b))).

(** The runs of an environment: one outcome per step, a reset before every replicate. *)
Inductive steps_of {W} (step : W -> outcome * W) : W -> list outcome -> W -> Prop :=
| steps_nil w : steps_of step w [] w
| steps_snoc w l w' : steps_of step w l w' -> steps_of step w (l ++ [fst (step w')]) (snd (step w')).

Inductive replicates_of {W} (reset : W -> W) (step : W -> outcome * W) (n : nat) : W -> list (list outcome) -> W -> Prop :=
| reps_nil w : replicates_of reset step n w [] w
| reps_snoc w ls w' l w'' : replicates_of reset step n w ls w' -> steps_of step (reset w') l w'' -> List.length l = n ->
    replicates_of reset step n w (ls ++ [l]) w''.

Definition total (f : outcome -> R) (l : list outcome) : R := fold_right (fun o acc => f o + acc) 0 l.

(** The largest number of a nonempty list. *)
Definition is_max (l : list R) (m : R) : Prop := In m l /\ forall x, In x l -> x <= m.
