(** Model of the constructors of yuca/wrappers/halting_wrapper.py and
    yuca/wrappers/glider_wrapper.py for the default automaton CCA: which rule the wrapped automaton
    has, which settings are read, and the shape of the action space. RandomWrapper
    (random_wrapper.py:16-18) has the constructor of SimpleHaltingWrapper. Devices are left out. *)
From Coq Require Import Reals ZArith List String Bool Arith.
From Verif Require Import Base PyDict Tensor MActivations MCommon MCca MConfig MWrap.
Import ListNotations.
Open Scope R_scope.
Open Scope string_scope.

(** self.ca.get_params().shape: with kernel_params None the array ends in a None (halting_wrapper.py:24-34, 136-144). *)
Definition params_size (o : obj) : nat :=
  match get_params o with
  | Some v => List.length v
  | None => S (List.length (fn_params (gens (o_core o)) ++ fn_params (pers (o_core o))))
  end.

(** halting_wrapper.py:14-36 SimpleHaltingWrapper: the automaton and the length of an action. *)
Definition simple_new (fuel : nat) (ev : env) (rng : nat -> draws) (kw : dict) (h : heap) : res (obj * heap * nat) :=
  let* r := init fuel ev rng kw h in
  Ok (r, params_size (fst r)).

(** halting_wrapper.py:138-141, glider_wrapper.py:32-36: the configuration is loaded (again, the
    constructor of the automaton has read the same keyword). *)
Definition load_again (fuel : nat) (ev : env) (rng : nat -> draws) (kw : dict) (r : obj * heap) : res (obj * heap) :=
  match query_kwargs "ca_config" VNone kw with
  | VNone => Ok r
  | VStr p => restore_config fuel ev rng (fst r) p (snd r)
  | _ => Err Unmodelled
  end.

(** halting_wrapper.py:115-144 HaltingWrapper; [rng'] are the draws of the second load. *)
Definition halting_new (fuel : nat) (ev : env) (rng rng' : nat -> draws) (kw : dict) (h : heap) : res (obj * heap * nat) :=
  let* r := init fuel ev rng kw h in
  let* r' := load_again fuel ev rng' kw r in
  Ok (r', params_size (fst r')).

(** glider_wrapper.py:38-42: without a configuration the parameters of the log are set (again). *)
Definition log_again (ev : env) (kw : dict) (r : obj * heap) : res (obj * heap) :=
  match query_kwargs "input_filepath" VNone kw with
  | VNone => Ok r
  | VStr p =>
      match fs_get (e_fs ev) p with
      | None => Err FileNotFoundError
      | Some e => let* v := elite_params e in let* o := set_params (fst r) v in Ok (o, snd r)
      end
  | _ => Err Unmodelled
  end.

(** What a GliderWrapper has after construction: [gn_ext] is its own external_channels, which
    nothing reads, [gn_shape] the shape of the action space (glider_wrapper.py:19-50). *)
Record glider_init : Type := mkGn { gn_ca : obj; gn_heap : heap; gn_ext : value; gn_shape : nat * nat * nat * nat; gn_y : tensor; gn_x : tensor }.

(** glider_wrapper.py:19-50. *)
Definition glider_new (fuel : nat) (ev : env) (rng rng' : nat -> draws) (kw : dict) (h : heap) : res glider_init :=
  let* r := init fuel ev rng kw h in
  let* b := as_size (query_kwargs "batch_size" (VInt 8) kw) in
  let* d := as_size (query_kwargs "dim" (VInt 128) kw) in
  let* r' := match query_kwargs "ca_config" VNone kw with
             | VNone => log_again ev kw r
             | _ => load_again fuel ev rng' kw r
             end in
  let* rad := as_num (o_radius (fst r')) in
  let* y := y_grid d rad in
  let* x := x_grid d rad in
  Ok (mkGn (fst r') (snd r') (query_kwargs "external_channels" (VInt 1) kw) (b, ext (o_core (fst r')), d, d) y x).
