(** What the theorems about the constructors of the wrappers say. *)
From Coq Require Import Reals ZArith List String Bool Arith.
From Verif Require Import Base PyDict Tensor MActivations MCommon MCca MConfig SConfig.
Import ListNotations.
Open Scope R_scope.
Open Scope string_scope.

(** Constructor arguments that name no file. *)
Definition no_files (kw : dict) : Prop := query_kwargs "ca_config" VNone kw = VNone /\ query_kwargs "input_filepath" VNone kw = VNone.

(** A keyword [ca_config] naming an existing configuration file, whose own constructor arguments
    name no further file. *)
Definition config_given (ev : env) (kw : dict) (pc : pcfg) : Prop :=
  (exists F, query_kwargs "ca_config" VNone kw = VStr F /\ found ev (strip_newlines F) = Some (FConfig pc)) /\
  match p_inst pc with Some k => no_files k | None => True end.

(** [c] is the rule that loading [pc] into a new CCA with the arguments [kw] gives: such a load
    is possible, and every such load gives [c], whatever the draws, the files and the memory. *)
Definition rule_of_config (kw : dict) (pc : pcfg) (c : cca) : Prop :=
  (exists f ev rng dr o h o' h', fresh dr kw = Ok o /\ load_value f ev rng o pc h = Ok (o', h') /\ c = o_core o') /\
  (forall f ev rng dr o h o' h', fresh dr kw = Ok o -> load_value f ev rng o pc h = Ok (o', h') -> c = o_core o').

(** The parameters of the best agent of the last generation of the log named by
    [input_filepath]. *)
Definition log_given (ev : env) (kw : dict) (v : list R) : Prop :=
  exists F l gen rest, query_kwargs "input_filepath" VNone kw = VStr F /\ fs_get (e_fs ev) F = Some (FElite (l ++ [gen])%list) /\ gen = v :: rest.
