(** Model of yuca/evolve.py: selection of classes by name and grouping of the command line. *)
From Coq Require Import ZArith List String Bool Ascii.
From Verif Require Import Base PyDict MText.
Import ListNotations.
Open Scope string_scope.

(** The classes evolve.py can select. *)
Inductive ca_class : Type := IsMetaCA | IsCCA | IsNCA | IsRxnDfn | IsCODE | IsLenia | IsRandomStepCA.
(** evolve.py:26-133: the environment classes. *)
Inductive env_class : Type := IsSimpleHalting | IsHalting | IsRandom | IsGlider.
(** evolve.py:26-133: the agent classes. *)
Inductive agent_class : Type := IsCPPN | IsCPPNPlus.
(** evolve.py:26-133: the algorithms. *)
Inductive algorithm : Type := IsCMAES | IsCMACES.

(** What is started: the algorithm, the classes stored in kwargs and the other keyword arguments.
    [jb_agent] is None where agent_fn is left as the caller gave it (evolve.py:26-149). *)
Record job : Type := mkJob {
  jb_algorithm : algorithm;
  jb_agent : option agent_class;
  jb_env : env_class;
  jb_ca : ca_class;
  jb_kwargs : dict
}.

(** [kwargs[key]] used as the right operand of [in] (evolve.py:92-149). *)
Definition text_of (key : string) (kwargs : dict) : res string :=
  let* v := dgetk key kwargs in as_str v.

(** evolve.py:31-50, 63-82 and 105-124; [hidden] is the default of hidden_channels. The value of
    ca_fn is replaced by the class; the other changes to kwargs are returned. *)
Definition select_ca (hidden : Z) (kwargs : dict) : res (ca_class * dict) :=
  let* s := text_of "ca_fn" kwargs in
  if contains "MetaCA" s then Ok (IsMetaCA, kwargs)
  else if contains "CCA" s then Ok (IsCCA, kwargs)
  else if contains "NCA" s then
    Ok (IsNCA, dset "hidden_channels" (query_kwargs "hidden_channels" (VInt hidden) kwargs) kwargs)
  else if contains "RxnDfn" s then Ok (IsRxnDfn, dset "external_channels" (VInt 2) kwargs)
  else if contains "CODE" s then Ok (IsCODE, kwargs)
  else if contains "Lenia" s then Ok (IsLenia, kwargs)
  else if contains "RandomStepCA" s then Ok (IsRandomStepCA, kwargs)
  else Err AssertionError.

(** evolve.py:26-57 *)
Definition coevolve (kwargs : dict) : res job :=
  let* r := select_ca 16 kwargs in
  Ok (mkJob IsCMACES (Some IsCPPNPlus) IsGlider (fst r) (snd r)).

(** evolve.py:59-89 *)
Definition pattern_search (kwargs : dict) : res job :=
  let* r := select_ca 256 kwargs in
  Ok (mkJob IsCMAES (Some IsCPPN) IsGlider (fst r) (snd r)).

(** evolve.py:93-102 *)
Definition select_env (kwargs : dict) : res env_class :=
  let* s := text_of "env_fn" kwargs in
  if contains "SimpleHaltingWrapper" s then Ok IsSimpleHalting
  else if contains "HaltingWrapper" s then Ok IsHalting
  else if contains "RandomWrapper" s then Ok IsRandom
  else Err AssertionError.

(** evolve.py:91-133 *)
Definition universe_search (kwargs : dict) : res job :=
  let* e := select_env kwargs in
  let* r := select_ca 16 kwargs in
  Ok (mkJob IsCMAES None e (fst r) (snd r)).

(** evolve.py:135-149: whether the default dtype becomes float64, and what is started. *)
Definition evolve (kwargs : dict) : res (bool * job) :=
  let* d := text_of "dtype" kwargs in
  let* t := text_of "tag" kwargs in
  let* j := if contains "pattern" t then pattern_search kwargs
            else if contains "coevo" t then coevolve kwargs
            else universe_search kwargs in
  Ok (contains "float64" d, j).

(** ** The command line *)

(** [groups[-1].append(a)]: IndexError on an empty list (evolve.py:242). *)
Fixpoint append_last (a : string) (groups : list (list string)) : res (list (list string)) :=
  match groups with
  | [] => Err IndexError
  | [g] => Ok [g ++ [a]]%list
  | g :: t => let* t' := append_last a t in Ok (g :: t')
  end.

(** evolve.py:236-242 *)
Fixpoint group_loop (args : list string) (groups : list (list string)) : res (list (list string)) :=
  match args with
  | [] => Ok groups
  | a :: t =>
      if contains "-" a then group_loop t (groups ++ [[a]])%list
      else let* g := append_last a groups in group_loop t g
  end.

(** Comparison of two lists of strings, and list.sort with it (evolve.py:244). *)
Fixpoint list_leb (x y : list string) : bool :=
  match x, y with
  | [], _ => true
  | _ :: _, [] => false
  | a :: x', b :: y' => if String.eqb a b then list_leb x' y' else String.leb a b
  end.

(** sorted_args.sort() (evolve.py:244), one insertion. *)
Fixpoint insert_group (x : list string) (l : list (list string)) : list (list string) :=
  match l with
  | [] => [x]
  | y :: t => if list_leb x y then x :: l else y :: insert_group x t
  end.

(** evolve.py:244. *)
Fixpoint sort_groups (l : list (list string)) : list (list string) :=
  match l with [] => [] | x :: t => insert_group x (sort_groups t) end.

(** os.path.split(p)[1]: what follows the last slash (evolve.py:233). *)
Fixpoint file_part (p : string) : string :=
  match p with
  | EmptyString => EmptyString
  | String a t => if contains "/" p then file_part t else p
  end.

(** evolve.py:231-246: the program name and the sorted groups. *)
Definition entry_point (argv0 : string) (args : list string) : res (string * list (list string)) :=
  let* g := group_loop args [] in
  Ok (file_part argv0, sort_groups g).
