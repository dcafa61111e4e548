(** Python values and dictionaries (insertion-ordered, unique keys). *)
From Coq Require Import Reals ZArith List String Bool.
From Verif Require Import Base.
Import ListNotations.
Open Scope R_scope.
Open Scope string_scope.

(** The values that occur in configs and keyword arguments. [VVec] is a 1-D array or
    tensor, [VMat] an (n,2) array of interval bounds. *)
Inductive value : Type :=
| VNone
| VBool (b : bool)
| VInt (z : Z)
| VNum (r : R)
| VStr (s : string)
| VVec (l : list R)
| VMat (l : list (R * R))
| VDict (d : list (string * value)).

Definition dict := list (string * value).

(** d.get(k): the value stored under [k], if any. *)
Fixpoint dget (k : string) (d : dict) : option value :=
  match d with
  | [] => None
  | (k', v) :: t => if String.eqb k k' then Some v else dget k t
  end.

(** d[k] = v: overwrite in place, or append a new key. *)
Fixpoint dset (k : string) (v : value) (d : dict) : dict :=
  match d with
  | [] => [(k, v)]
  | (k', v') :: t => if String.eqb k k' then (k', v) :: t else (k', v') :: dset k v t
  end.

(** d[k], raising KeyError. *)
Definition dgetk (k : string) (d : dict) : res value :=
  match dget k d with Some v => Ok v | None => Err KeyError end.

(** yuca/utils.py:24-26 query_kwargs. *)
Definition query_kwargs (key : string) (default : value) (kwargs : dict) : value :=
  match dget key kwargs with Some v => v | None => default end.

(** Python truth value of the scalars used as [mode]. *)
Definition truthy (v : value) : bool :=
  match v with
  | VNone => false
  | VBool b => b
  | VInt z => negb (Z.eqb z 0)
  | VNum r => if Req_EM_T r 0 then false else true
  | VStr s => negb (String.eqb s "")
  | VVec l => match l with [] => false | _ => true end
  | VMat l => match l with [] => false | _ => true end
  | VDict d => match d with [] => false | _ => true end
  end.

(** A number used as a float; a one-element tensor is accepted like the code does. What happens
    to values of other kinds depends on the place and is left out. *)
Definition as_num (v : value) : res R :=
  match v with
  | VNum r => Ok r
  | VInt z => Ok (IZR z)
  | VVec [r] => Ok r
  | _ => Err Unmodelled
  end.

(** A non-negative int used as a size; a negative size raises ValueError in numpy. *)
Definition as_size (v : value) : res nat :=
  match v with
  | VInt z => if Z.leb 0 z then Ok (Z.to_nat z) else Err ValueError
  | _ => Err Unmodelled
  end.

Definition as_str (v : value) : res string :=
  match v with VStr s => Ok s | _ => Err Unmodelled end.

Definition as_dict (v : value) : res dict :=
  match v with VDict d => Ok d | _ => Err Unmodelled end.
