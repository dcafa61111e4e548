(** What the theorems about the analysis of a directory say. *)
From Coq Require Import Reals ZArith List String Ascii Bool Arith.
From Verif Require Import Base PyDict Tensor MCommon MCca MConfig MAnalyze MMulti SConfig SText.
Import ListNotations.
Open Scope R_scope.
Open Scope string_scope.

(** A name that os.listdir can return. *)
Definition a_name (n : string) : Prop := n <> "" /\ lacks "/" n.

(** A path that is empty or does not end with a slash. *)
Definition no_end_slash (s : string) : Prop := forall d, s <> d ++ "/".

(** The automata that agree with [base] in what only the constructor sets: the channels, the
    padding and the threshold of the living cells. *)
Definition alike (base o : obj) : Prop :=
  ext (o_core o) = ext (o_core base) /\ int_ (o_core o) = int_ (o_core base) /\
  pm (o_core o) = pm (o_core base) /\ thr (o_core o) = thr (o_core base).

(** [r] is the analysis of the configuration [p]: loaded into an automaton of [start], whatever
    its rule was, whatever the draws, the files and the memory. *)
Definition result_of (start : obj -> Prop) (ph : phanes) (p : pcfg) (c : chance) (r : list measure * list Z) : Prop :=
  (exists f ev rng o h o1 h1, start o /\ obj_inv o /\ load_value f ev rng o p h = Ok (o1, h1) /\ universe_of ph o1 c = Ok r) /\
  (forall f ev rng o h o1 h1, start o -> obj_inv o -> load_value f ev rng o p h = Ok (o1, h1) -> universe_of ph o1 c = Ok r).

(** Configurations with constructor arguments that name no file, as make_config writes them. *)
Definition whole (p : pcfg) : Prop := exists kw, p_inst p = Some kw /\
  query_kwargs "ca_config" VNone kw = VNone /\ query_kwargs "input_filepath" VNone kw = VNone.

(** The files of a directory that are looked at are configurations with the property [P]. *)
Definition holds (fs : string -> option file) (my : string) (names : list string) (P : nat -> pcfg -> Prop) : Prop :=
  forall k n, nth_error names k = Some n -> occurs "npy" n -> exists p, fs (os_join my n) = Some (CfgFile p) /\ P k p.

(** What is at [q] afterwards: the result of the last file whose result goes there, [R] saying
    which; what was there before if there is none. *)
Definition saved_as (fs fs' : string -> option file) (target : string -> string) (names : list string) (R : nat -> string -> file -> Prop) : Prop :=
  forall q,
    (exists k n f, nth_error names k = Some n /\ occurs "npy" n /\ target n = q /\ fs' q = Some f /\ R k n f /\
       forall j m, (k < j)%nat -> nth_error names j = Some m -> occurs "npy" m -> target m <> q) \/
    ((forall k n, nth_error names k = Some n -> occurs "npy" n -> target n <> q) /\ fs' q = fs q).
