(** Specification vocabulary for keyword arguments and their defaults. *)
From Coq Require Import Reals ZArith List String Bool.
From Verif Require Import Base PyDict.
Import ListNotations.
Open Scope R_scope.

(** A value that counts as the number [r]. *)
Inductive counts_as : value -> R -> Prop :=
| counts_float : forall r, counts_as (VNum r) r
| counts_int : forall z, counts_as (VInt z) (IZR z)
| counts_single : forall r, counts_as (VVec [r]) r.

(** The argument named [k] is [r]: given as such, or absent and [r] is the default [x]. *)
Definition number_arg (d : dict) (k : string) (x r : R) : Prop :=
  (dget k d = None /\ r = x) \/ exists v, dget k d = Some v /\ counts_as v r.

Definition vector_arg (d : dict) (k : string) (x l : list R) : Prop :=
  (dget k d = None /\ l = x) \/ dget k d = Some (VVec l).

(** Rows of bounds: a list of pairs, or an empty flat array. *)
Definition bounds_arg (d : dict) (k : string) (x l : list (R * R)) : Prop :=
  (dget k d = None /\ l = x) \/ dget k d = Some (VMat l) \/ (dget k d = Some (VVec []) /\ l = []).

Definition size_arg (d : dict) (k : string) (x n : nat) : Prop :=
  (dget k d = None /\ n = x) \/ dget k d = Some (VInt (Z.of_nat n)).

(** A value that is falsy in Python: None, False, 0, 0.0, "" and empty collections. *)
Inductive falsy : value -> Prop :=
| falsy_none : falsy VNone | falsy_false : falsy (VBool false) | falsy_int : falsy (VInt 0) | falsy_float : falsy (VNum 0)
| falsy_str : falsy (VStr "") | falsy_vec : falsy (VVec []) | falsy_mat : falsy (VMat []) | falsy_dict : falsy (VDict []).

(** The flag "mode": absent or falsy is false, anything else true. *)
Definition mode_arg (d : dict) (b : bool) : Prop :=
  (dget "mode" d = None /\ b = false) \/ exists v, dget "mode" d = Some v /\ (b = false <-> falsy v).
