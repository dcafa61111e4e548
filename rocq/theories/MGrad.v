(** Which parameters of an automaton require gradients (torch's requires_grad), in
    yuca/ca/common.py, yuca/ca/continuous.py, yuca/ca/neural.py and yuca/wrappers/halting_wrapper.py.
    Parameters are objects: numbers in a heap that holds their requires_grad flags. Their values
    are left out here except in the last section. *)
From Coq Require Import List String Bool Arith.
From Verif Require Import Base.
Import ListNotations.
Open Scope nat_scope.

(** What is known of an activation here: how many parameters it registers
    (activations.py: 2 for Gaussian, DoGaussian, DoubleGaussian, CosOverX2, 2 per component of a
    GaussianMixture, 1 for Polynomial, none for SmoothIntervals, Identity and torch's own). *)
Definition fn_size := nat.

(** A CCA: [gr_next] is the next unused number; [gr_reg] the parameters registered by
    include_parameters, by name (kind: true for "gen_fn", indices of function and parameter) (continuous.py:43-704). *)
Record grads : Type := mkGr {
  gr_next : nat;
  gr_flag : nat -> bool;
  gr_use : bool;
  gr_id : list nat; gr_nb : list nat; gr_w : list nat;
  gr_gen : list (list nat); gr_per : list (list nat);
  gr_reg : list ((bool * nat * nat) * nat) }.

(** [param.requires_grad = b] for the parameters in [l] (continuous.py:688-704). *)
Definition put_flags (b : bool) (l : list nat) (f : nat -> bool) : nat -> bool :=
  fun p => if in_dec Nat.eq_dec p l then b else f p.

(** A new number for a parameter object (continuous.py:396-471). *)
Definition with_next (s : grads) (n : nat) (f : nat -> bool) : grads :=
  mkGr n f (gr_use s) (gr_id s) (gr_nb s) (gr_w s) (gr_gen s) (gr_per s) (gr_reg s).

(** n new parameters with the flag [b]; nn.Parameter's default is True (continuous.py:396-471). *)
Definition alloc (n : nat) (b : bool) (s : grads) : list nat * grads :=
  let l := seq (gr_next s) n in (l, with_next s (gr_next s + n) (put_flags b l (gr_flag s))).

(** common.py:118-141 initialize_id_layer: the layer's weight, with the gradient switched off. *)
Definition new_id (s : grads) : grads :=
  let (l, s1) := alloc 1 false s in
  mkGr (gr_next s1) (gr_flag s1) (gr_use s1) l (gr_nb s1) (gr_w s1) (gr_gen s1) (gr_per s1) (gr_reg s1).

(** common.py:203-221 initialize_neighborhood_layer, likewise. *)
Definition new_nb (s : grads) : grads :=
  let (l, s1) := alloc 1 false s in
  mkGr (gr_next s1) (gr_flag s1) (gr_use s1) (gr_id s1) l (gr_w s1) (gr_gen s1) (gr_per s1) (gr_reg s1).

(** continuous.py:396-411 initialize_weight_layer in functional mode: requires_grad = use_grad. *)
Definition new_w (s : grads) : grads :=
  let (l, s1) := alloc 1 (gr_use s) s in
  mkGr (gr_next s1) (gr_flag s1) (gr_use s1) (gr_id s1) (gr_nb s1) l (gr_gen s1) (gr_per s1) (gr_reg s1).

(** add_genesis_fn and add_persistence_fn: the new function's parameters require
    gradients whatever use_grad is (continuous.py:427-448). *)
Definition add_gen (k : fn_size) (s : grads) : grads :=
  let (l, s1) := alloc k true s in
  mkGr (gr_next s1) (gr_flag s1) (gr_use s1) (gr_id s1) (gr_nb s1) (gr_w s1) (gr_gen s1 ++ [l]) (gr_per s1) (gr_reg s1).
(** continuous.py:450-471. *)
Definition add_per (k : fn_size) (s : grads) : grads :=
  let (l, s1) := alloc k true s in
  mkGr (gr_next s1) (gr_flag s1) (gr_use s1) (gr_id s1) (gr_nb s1) (gr_w s1) (gr_gen s1) (gr_per s1 ++ [l]) (gr_reg s1).

(** nn.Module.register_parameter: an entry of the same name is replaced (continuous.py:473-483). *)
Definition key_eqb (a b : bool * nat * nat) : bool :=
  Bool.eqb (fst (fst a)) (fst (fst b)) && Nat.eqb (snd (fst a)) (snd (fst b)) && Nat.eqb (snd a) (snd b).
(** continuous.py:473-483. *)
Definition register (r : list ((bool * nat * nat) * nat)) (k : bool * nat * nat) (p : nat) :=
  filter (fun e => negb (key_eqb (fst e) k)) r ++ [(k, p)].
(** continuous.py:473-483: the parameters of one function. *)
Fixpoint register_fn (kind : bool) (i j : nat) (l : list nat) (r : list ((bool * nat * nat) * nat)) :=
  match l with [] => r | p :: t => register_fn kind i (S j) t (register r (kind, i, j) p) end.
(** continuous.py:473-483: those of all functions. *)
Fixpoint register_fns (kind : bool) (i : nat) (l : list (list nat)) (r : list ((bool * nat * nat) * nat)) :=
  match l with [] => r | f :: t => register_fns kind (S i) t (register_fn kind i 0 f r) end.

(** include_parameters (continuous.py:473-483). *)
Definition include (s : grads) : grads :=
  mkGr (gr_next s) (gr_flag s) (gr_use s) (gr_id s) (gr_nb s) (gr_w s) (gr_gen s) (gr_per s)
    (register_fns false 0 (gr_per s) (register_fns true 0 (gr_gen s) (gr_reg s))).

(** nn.Module.parameters of a CCA: registered parameters and those of the three layers; the
    functions themselves are kept in plain lists (continuous.py:473-483). *)
Definition parameters (s : grads) : list nat := map snd (gr_reg s) ++ gr_id s ++ gr_nb s ++ gr_w s.

(** no_grad (continuous.py:688-704). *)
Definition no_grad (s : grads) : grads :=
  mkGr (gr_next s)
    (put_flags false (List.concat (gr_per s)) (put_flags false (List.concat (gr_gen s))
      (put_flags false (gr_w s) (put_flags false (parameters s) (gr_flag s)))))
    false (gr_id s) (gr_nb s) (gr_w s) (gr_gen s) (gr_per s) (gr_reg s).

(** to_device: as far as gradients are concerned, no_grad (continuous.py:587-612). *)
Definition to_device (s : grads) : grads := no_grad s.

(** common.py:262-276 set_kernel_radius; set_kernel_config (288-294) ends in it. *)
Definition set_radius (s : grads) : grads := to_device (new_nb s).

(** continuous.py:643-686 set_params: the parameters are written in place. *)
Definition set_params (s : grads) : grads := to_device (new_nb (no_grad s)).

(** common.py:47-76 and nn.Module.__init__: an empty module. *)
Definition blank_module (use : bool) (s : grads) : grads :=
  mkGr (gr_next s) (gr_flag s) use [] [] [] [] [] [].

(** continuous.py:427-471: functions of both kinds in turn. *)
Fixpoint add_pairs (l : list (fn_size * fn_size)) (s : grads) : grads :=
  match l with [] => s | (g, p) :: t => add_pairs t (add_per p (add_gen g s)) end.

(** default_init; [fns] are the functions drawn for the channels (continuous.py:267-354). *)
Definition default_init (fns : list (fn_size * fn_size)) (s : grads) : grads :=
  let s0 := mkGr (gr_next s) (gr_flag s) (gr_use s) (gr_id s) (gr_nb s) (gr_w s) [] [] (gr_reg s) in
  include (add_pairs fns (new_w (new_nb (new_id s0)))).

(** A configuration, with the files it leads to already resolved: instant_kwargs and the sizes
    of the genesis and the persistence function. The arguments of the constructor: use_grad, the
    functions of default_init, the configuration that ca_config names if it is found, and
    whether input_filepath is given (continuous.py:102-144). *)
Inductive conf : Type := mkConf (inst : option args) (gen per : fn_size)
(** continuous.py:47-96. *)
with args : Type := mkArgs (use : bool) (fns : list (fn_size * fn_size)) (ca : option conf) (input : bool).

(** load_config (continuous.py:102-144). *)
Fixpoint load_config (c : conf) (s : grads) : grads :=
  match c with
  | mkConf inst g p =>
      let s1 := match inst with Some a => init a s | None => s end in
      let s2 := mkGr (gr_next s1) (gr_flag s1) (gr_use s1) (gr_id s1) (gr_nb s1) (gr_w s1) [] [] (gr_reg s1) in
      let s3 := new_nb (set_radius (new_id s2)) in
      to_device (include (new_w (add_per p (add_gen g s3))))
  end
(** continuous.py:47-96. *)
with init (a : args) (s : grads) : grads :=
  match a with
  | mkArgs use fns ca input =>
      let s1 := default_init fns (blank_module use s) in
      let s2 := match ca with Some c => load_config c s1 | None => s1 end in
      let s3 := if input then set_params s2 else s2 in
      if gr_use s3 then s3 else no_grad s3
  end.

(** No parameter yet (continuous.py:47). *)
Definition empty_heap : grads := mkGr 0 (fun _ => false) false [] [] [] [] [] [].
(** continuous.py:47-96. *)
Definition new_cca (a : args) : grads := init a empty_heap.

(** What a user can do to a CCA. [Steady] stands for what leaves parameters alone: forward,
    get_frame, reset, set_dt, get_params, make_config (continuous.py:98-704). *)
Inductive act : Type :=
| SetParams | LoadConfig (c : conf) | SetRadius | ToDevice | NoGrad | Include
| AddGen (k : fn_size) | AddPer (k : fn_size) | NewWeights | Steady.

(** continuous.py:98-704: one of them. *)
Definition do_act (o : act) (s : grads) : grads :=
  match o with
  | SetParams => set_params s
  | LoadConfig c => load_config c s
  | SetRadius => set_radius s
  | ToDevice => to_device s
  | NoGrad => no_grad s
  | Include => include s
  | AddGen k => add_gen k s
  | AddPer k => add_per k s
  | NewWeights => new_w s
  | Steady => s
  end.
(** continuous.py:98-704: a sequence of them. *)
Definition do_all (h : list act) (s : grads) : grads := fold_left (fun s o => do_act o s) h s.

(** ** Neural automata (neural.py) *)

(** use_grad, the flags of the kernel layers and of the network's weights, for an automaton whose
    network exists (without one the methods below raise, see C85) (neural.py:50-383). *)
Record ngrads : Type := mkNg { ng_use : bool; ng_kernels : bool; ng_w : bool }.

(** initialize_weight_layer: the new weights are frozen, whatever use_grad is (neural.py:265-291). *)
Definition n_weights (s : ngrads) : ngrads := mkNg (ng_use s) (ng_kernels s) false.
(** neural.py:368-373 no_grad, which to_device (314-325), set_params (339-366) and
    set_kernel_radius (common.py:262-276) call. *)
Definition n_no_grad (s : ngrads) : ngrads := mkNg false (ng_kernels s) false.
(** yes_grad (neural.py:375-380). *)
Definition n_yes_grad (s : ngrads) : ngrads := mkNg true (ng_kernels s) true.

(** What a user can do to an NCA (neural.py:84-383). *)
Inductive nact : Type := NSetParams | NToDevice | NNoGrad | NSetRadius | NYesGrad | NWeights | NSteady.
(** neural.py:84-383: one of them. *)
Definition n_act (o : nact) (s : ngrads) : ngrads :=
  match o with
  | NSetParams | NToDevice | NNoGrad | NSetRadius => n_no_grad s
  | NYesGrad => n_yes_grad s
  | NWeights => n_weights s
  | NSteady => s
  end.
(** neural.py:84-383: a sequence of them. *)
Definition n_all (h : list nact) (s : ngrads) : ngrads := fold_left (fun s o => n_act o s) h s.

(** A new network without a configuration (neural.py:59-121). *)
Definition new_nca (use : bool) : ngrads := n_weights (mkNg use false true).

(** ** Training in the halting wrapper *)

(** An optimizer (halting_wrapper.py:202) holds parameters. Its step may change those that
    require gradients, to whatever [upd] says; one that requires none has no gradient and is
    left alone. *)
Section Optimizer.
  Variable V : Type.
  (** halting_wrapper.py:277-278: an optimizer step changes only what requires gradients. *)
  Definition opt_step (held : list nat) (flag : nat -> bool) (upd : nat -> V -> V) (v : nat -> V) : nat -> V :=
    fun p => if in_dec Nat.eq_dec p held then if flag p then upd p (v p) else v p else v p.
End Optimizer.
