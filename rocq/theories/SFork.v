(** Specification of a started search: who takes part, and when a generation can be completed. *)
From Coq Require Import List Arith Bool ZArith String.
From Verif Require Import MFork.
Import ListNotations.

(** The mantles and arms among the processes, in order. *)
Fixpoint workers_in (p : process) : list process :=
  match p with
  | Launcher _ cs => flat_map workers_in cs
  | Broken => []
  | _ => [p]
  end.

(** The variable is not set. *)
Definition unset (env : environ) (name : string) : Prop := env name = None.

(** Messages go to processes that exist, other than the sender. *)
Definition addressed (size : Z) (sends : list (Z * list Z)) : Prop :=
  forall d, In d (map fst sends) -> (0 < d < size)%Z.

(** Whoever is waited for was given something to answer. *)
Definition served (sends : list (Z * list Z)) (receives : list Z) : Prop :=
  forall r, In r receives -> In r (map fst sends).

(** Every agent is given out, once, and in order. *)
Definition covers (P : Z) (sends : list (Z * list Z)) : Prop :=
  List.concat (map snd sends) = map Z.of_nat (seq 0 (Z.to_nat P)).
