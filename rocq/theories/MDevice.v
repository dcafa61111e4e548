(** Model of the devices of the automata and of the objects that own one (yuca/ca/*.py,
    yuca/wrappers/*.py, save_gif of yuca/cmaes.py). A tensor is here nothing but
    its device and whether it has no dimension; every value is forgotten and shapes are assumed to
    fit. Two rules of torch are assumed: an operation takes operands of one device, except that
    CPU tensors without dimensions go with any device; a convolution and torch.cat make no such
    exception. nn.Module.to moves the registered parameters in place. *)
From Coq Require Import List Bool Arith.
From Verif Require Import Base.
Import ListNotations.

(** ** Devices and operations *)

(** torch.device (common.py:50). *)
Inductive device : Set := Cpu | Gpu (n : nat).

(** Equality of devices. Cites common.py:321, the test of the kind of a device. *)
Definition deq (a b : device) : bool :=
  match a, b with Cpu, Cpu => true | Gpu m, Gpu n => Nat.eqb m n | _, _ => false end.

(** A tensor: its device, and whether it has no dimension (common.py:293-298). *)
Record opnd : Set := mkOpnd { o_dev : device; o_zero : bool }.

(** torch.Tensor.to (common.py:296-298). *)
Definition send (d : device) (o : opnd) : opnd := mkOpnd d (o_zero o).

(** A grid (continuous.py:547): four dimensions. *)
Definition grid (d : device) : opnd := mkOpnd d false.

(** Operands that go with any device (continuous.py:567). *)
Definition loose (o : opnd) : bool := deq (o_dev o) Cpu && o_zero o.

(** The device of an operation: that of its first operand that is bound to one
    (continuous.py:537-541, 567). *)
Fixpoint pick (os : list opnd) : device :=
  match os with [] => Cpu | o :: t => if loose o then pick t else o_dev o end.

(** Arithmetic on tensors (continuous.py:537-541, 567). *)
Definition blend (os : list opnd) : res opnd :=
  let d := pick os in
  if forallb (fun o => loose o || deq (o_dev o) d) os then Ok (mkOpnd d (forallb o_zero os)) else Err RuntimeError.

(** torch.cat of two tensors (continuous.py:499, 519; neural.py:306). *)
Definition glue (a b : opnd) : res opnd :=
  if deq (o_dev a) (o_dev b) then Ok (grid (o_dev a)) else Err RuntimeError.

(** A convolution whose weights are on [w] (common.py:222-230, continuous.py:541). *)
Definition conv (w : device) (x : opnd) : res opnd :=
  if deq w (o_dev x) then Ok (grid w) else Err RuntimeError.

(** ** Growth functions *)

(** A growth function: its parameters, the tensors it holds besides them (the amplitudes of a
    mixture, activations.py:222-230; the intervals of SmoothIntervals, activations.py:50), and
    whether the automaton has registered the parameters (continuous.py:466-476). *)
Record gfn : Set := mkGfn { f_own : list opnd; f_free : list opnd; f_reg : bool }.

(** A growth function applied to a tensor (activations.py:187-203). The operations of a
    function are taken at once: every operand meets the argument. *)
Definition grow (f : gfn) (x : opnd) : res opnd := blend (x :: f_own f ++ f_free f).

(** The parameters of a growth function moved (continuous.py:608-612). *)
Definition fsend (d : device) (f : gfn) : gfn := mkGfn (map (send d) (f_own f)) (f_free f) (f_reg f).

(** The functions a new automaton draws (continuous.py:296-352): Gaussian or DoGaussian with two
    parameters of shape (1,) up to the eighth channel, a Polynomial after it, whose coefficients
    are read one by one (activations.py:98-100). *)
Definition drawn (pp : nat) : gfn :=
  if Nat.ltb pp 8 then mkGfn [mkOpnd Cpu false; mkOpnd Cpu false] [] false
  else mkGfn [mkOpnd Cpu true] [] false.

(** ** A continuous automaton *)

(** CCA (continuous.py:46-97). The time step is a tensor or, in RandomStepCA and CODE after a
    step, a python number (random_step_ca.py:81, code.py:69). *)
Record cca : Set := mkCca {
  c_id : device; c_nb : device; c_w : device;
  c_gen : list gfn; c_per : list gfn;
  c_my : device; c_dt : option opnd }.

(** include_parameters (continuous.py:466-476). *)
Definition register (s : cca) : cca :=
  let yes f := mkGfn (f_own f) (f_free f) true in
  mkCca (c_id s) (c_nb s) (c_w s) (map yes (c_gen s)) (map yes (c_per s)) (c_my s) (c_dt s).

(** nn.Module.to (lenia.py:127, continuous.py:594): my_device stays. *)
Definition module_to (d : device) (s : cca) : cca :=
  let go f := if f_reg f then fsend d f else f in
  mkCca d d d (map go (c_gen s)) (map go (c_per s)) (c_my s) (c_dt s).

(** to_device (continuous.py:587-612). The time step is not moved. *)
Definition to_device (d : device) (s : cca) : cca :=
  let s1 := module_to d s in
  mkCca d d d (map (fsend d) (c_gen s1)) (map (fsend d) (c_per s1)) d (c_dt s1).

(** set_dt (common.py:293-298). *)
Definition set_dt (zero : bool) (s : cca) : cca :=
  mkCca (c_id s) (c_nb s) (c_w s) (c_gen s) (c_per s) (c_my s) (Some (mkOpnd (c_my s) zero)).

(** initialize_neighborhood_layer (common.py:201-220). *)
Definition fresh_nb (s : cca) : cca :=
  mkCca (c_id s) Cpu (c_w s) (c_gen s) (c_per s) (c_my s) (c_dt s).

(** set_kernel_radius and set_kernel_config (common.py:260-272, 285-291), set_params
    (continuous.py:648-686, which copies into the parameters where they are). *)
Definition renew_nb (s : cca) : cca := to_device (c_my s) (fresh_nb s).

(** add_genesis_fn and add_persistence_fn (continuous.py:425-464). *)
Definition add_gen (f : gfn) (s : cca) : cca :=
  mkCca (c_id s) (c_nb s) (c_w s) (c_gen s ++ [mkGfn (f_own f) (f_free f) false]) (c_per s) (c_my s) (c_dt s).
(** continuous.py:445-464. *)
Definition add_per (f : gfn) (s : cca) : cca :=
  mkCca (c_id s) (c_nb s) (c_w s) (c_gen s) (c_per s ++ [mkGfn (f_own f) (f_free f) false]) (c_my s) (c_dt s).

(** default_init with my_device set before (continuous.py:265-356). *)
Definition default_init (n : nat) (d : device) : cca :=
  register (set_dt true (mkCca Cpu Cpu Cpu (map drawn (seq 0 n)) (map drawn (seq 0 n)) d None)).

(** The keyword arguments of an automaton that concern devices, with the configuration they name
    (continuous.py:46-97): [Kw device channels input_filepath] and [KwC] with ca_config; and a
    configuration (continuous.py:103-144): [Bare] without instant_kwargs, [Full] with them. Its
    time step counts only by having a dimension or not. *)
Inductive kwargs : Set :=
| Kw (dev : option device) (n : nat) (inp : bool)
| KwC (dev : option device) (n : nat) (inp : bool) (c : config)
(** continuous.py:103-144. *)
with config : Set :=
| Bare (g p : gfn) (zero : bool)
| Full (k : kwargs) (g p : gfn) (zero : bool).

(** query_kwargs("device", "cpu") (common.py:50, continuous.py:50). *)
Definition or_cpu (o : option device) : device := match o with Some d => d | None => Cpu end.

(** load_config after instant_kwargs (continuous.py:108-144): new layers on the CPU, one function
    of each kind, the time step on my_device, and to_device at the end. *)
Definition rebuild (g p : gfn) (zero : bool) (s : cca) : cca :=
  let s1 := mkCca Cpu (c_nb s) (c_w s) [] [] (c_my s) (c_dt s) in
  let s2 := fresh_nb (renew_nb s1) in
  let s3 := set_dt zero (add_per p (add_gen g s2)) in
  let s4 := register (mkCca (c_id s3) (c_nb s3) Cpu (c_gen s3) (c_per s3) (c_my s3) (c_dt s3)) in
  to_device (c_my s4) s4.

(** __init__ and load_config, which call one another (continuous.py:46-97, 103-144). *)
Fixpoint construct (k : kwargs) : cca :=
  match k with
  | Kw d n inp => let s := default_init n (or_cpu d) in if inp then renew_nb s else s
  | KwC d n inp c => let s := load c (default_init n (or_cpu d)) in if inp then renew_nb s else s
  end
(** continuous.py:103-144. *)
with load (c : config) (s : cca) : cca :=
  match c with
  | Bare g p zero => rebuild g p zero s
  | Full k g p zero => rebuild g p zero (construct k)
  end.

(** ** A step *)

(** genesis and persistence (continuous.py:486-520): they start from an empty tensor on
    my_device. *)
Fixpoint growth (acc : opnd) (fs : list gfn) (x : opnd) : res opnd :=
  match fs with
  | [] => Ok acc
  | f :: t => let* y := grow f x in let* acc' := glue acc y in growth acc' t x
  end.

(** update_universe (continuous.py:523-543), in single or double precision. *)
Definition update (s : cca) (id nb : opnd) : res opnd :=
  let* gn := growth (grid (c_my s)) (c_gen s) nb in
  let* generate := blend [id; gn] in
  let* pn := growth (grid (c_my s)) (c_per s) nb in
  let* persist := blend [id; pn] in
  let* genper := blend [generate; persist] in
  conv (c_w s) genper.

(** forward and get_frame (continuous.py:545-571, 573-586). *)
Definition step (s : cca) (x : opnd) : res opnd :=
  let* id := conv (c_id s) x in
  let* nb := conv (c_nb s) x in
  let* u := update s id nb in
  let* du := blend (u :: match c_dt s with Some o => [o] | None => [] end) in
  blend [x; du].

(** RandomStepCA.forward (random_step_ca.py:65-87): a new time step, a python number. *)
Definition random_step (s : cca) (x : opnd) : res (cca * opnd) :=
  let s' := mkCca (c_id s) (c_nb s) (c_w s) (c_gen s) (c_per s) (c_my s) None in
  let* y := step s' x in Ok (s', y).

(** A run (lenia.py:134-135). *)
Fixpoint run (n : nat) (s : cca) (x : opnd) : res opnd :=
  match n with O => Ok x | S m => let* y := step s x in run m s y end.

(** ** Calls *)

(** What a program does to an automaton (continuous.py:103, 425-464, 545, 587, 648;
    common.py:260, 285, 293; lenia.py:127). *)
Inductive call : Set :=
| CTo (d : device) | CSetDt (zero : bool) | CSetParams | CRadius | CKernel
| CLoad (c : config) | CGen (f : gfn) | CPer (f : gfn) | CRegister | CModule (d : device).

(** continuous.py:103, 425-464, 466, 587, 648; common.py:260, 285, 293; lenia.py:127. *)
Definition act (s : cca) (c : call) : cca :=
  match c with
  | CTo d => to_device d s
  | CSetDt z => set_dt z s
  | CSetParams | CRadius | CKernel => renew_nb s
  | CLoad f => load f s
  | CGen f => add_gen f s
  | CPer f => add_per f s
  | CRegister => register s
  | CModule d => module_to d s
  end.

(** Calls in a row (cmaes.py:336-351). *)
Definition acts (s : cca) (cs : list call) : cca := fold_left act cs s.

(** CMAES.save_gif (cmaes.py:324-351): a step on the device of the automaton, the frames on the
    CPU, and back. *)
Definition save_gif (frames : nat) (s : cca) : cca * res unit :=
  match step s (grid (c_my s)) with
  | Err e => (s, Err e)
  | Ok x =>
    let s1 := to_device Cpu s in
    match run frames s1 (send Cpu x) with
    | Err e => (s1, Err e)
    | Ok _ => (to_device (c_my s) s1, Ok tt)
    end
  end.

(** ** Neural automata *)

(** NCA (neural.py:59-90); whether kernel_params is None (neural.py:91-100, 357). *)
Record nca : Set := mkNca { n_id : device; n_nb : device; n_w : device; n_my : device; n_dt : opnd; n_kp : bool }.

(** default_init (neural.py:102-128). *)
Definition nca_init (d : device) : nca := mkNca Cpu Cpu Cpu d (mkOpnd d true) true.

(** to_device (neural.py:311-324). *)
Definition nca_to (d : device) (s : nca) : nca := mkNca d d d d (n_dt s) (n_kp s).

(** set_dt (common.py:293-298). *)
Definition nca_dt (zero : bool) (s : nca) : nca :=
  mkNca (n_id s) (n_nb s) (n_w s) (n_my s) (mkOpnd (n_my s) zero) (n_kp s).

(** set_params (neural.py:340-365). *)
Definition nca_set_params (s : nca) : nca :=
  if n_kp s then nca_to (n_my s) (mkNca (n_id s) Cpu (n_w s) (n_my s) (n_dt s) (n_kp s)) else s.

(** set_kernel_radius (common.py:260-272). *)
Definition nca_radius (s : nca) : nca :=
  nca_to (n_my s) (mkNca (n_id s) Cpu (n_w s) (n_my s) (n_dt s) (n_kp s)).

(** load_config after instant_kwargs (neural.py:146-185); [kp] says that kernel_kwargs is not
    empty. *)
Definition nca_rebuild (kp zero : bool) (s : nca) : nca :=
  let s1 := nca_radius (mkNca Cpu (n_nb s) (n_w s) (n_my s) (n_dt s) kp) in
  let s2 := nca_dt zero (mkNca (n_id s1) Cpu (n_w s1) (n_my s1) (n_dt s1) (n_kp s1)) in
  nca_set_params (mkNca (n_id s2) (n_nb s2) Cpu (n_my s2) (n_dt s2) (n_kp s2)).

(** forward (common.py:316-336, neural.py:302-309). *)
Definition nca_step (s : nca) (x : opnd) : res opnd :=
  let* id := conv (n_id s) x in
  let* nb := conv (n_nb s) x in
  let* both := glue id nb in
  let* u := conv (n_w s) both in
  let* du := blend [n_dt s; u] in
  blend [x; du].

(** Calls of an NCA (neural.py:146-185, 311-324, 340-365; common.py:260-272, 293-298). *)
Inductive ncall : Set := NTo (d : device) | NDt (zero : bool) | NParams | NRadius | NLoad (kp zero : bool).
(** neural.py:146-185, 311-324, 340-365; common.py:260-272, 293-298. *)
Definition nact (s : nca) (c : ncall) : nca :=
  match c with
  | NTo d => nca_to d s
  | NDt z => nca_dt z s
  | NParams => nca_set_params s
  | NRadius => nca_radius s
  | NLoad kp z => nca_rebuild kp z s
  end.

(** ** Reaction and diffusion *)

(** RxnDfn (reaction_diffusion.py:20-40, 202-236). *)
Record rxn : Set := mkRxn {
  r_id : device; r_nb : device; r_my : device;
  r_dx : opnd; r_dt : opnd; r_du : opnd; r_dv : opnd; r_f : opnd; r_k : opnd }.

(** A new one; its keyword arguments are not used (reaction_diffusion.py:20-40, 202-236). *)
Definition rxn_init : rxn :=
  let one := mkOpnd Cpu false in mkRxn Cpu Cpu Cpu one one one one one one.

(** to_device (reaction_diffusion.py:416-435). *)
Definition rxn_to (d : device) (s : rxn) : rxn :=
  mkRxn d d d (send d (r_dx s)) (send d (r_dt s)) (send d (r_du s)) (send d (r_dv s)) (send d (r_f s)) (send d (r_k s)).

(** set_params of a row of numbers (reaction_diffusion.py:387-400). *)
Definition rxn_set_params (s : rxn) : rxn :=
  let z := mkOpnd Cpu true in mkRxn (r_id s) (r_nb s) (r_my s) (r_dx s) (r_dt s) z z z z.

(** set_kernel_radius (common.py:260-272). *)
Definition rxn_radius (s : rxn) : rxn :=
  rxn_to (r_my s) (mkRxn (r_id s) Cpu (r_my s) (r_dx s) (r_dt s) (r_du s) (r_dv s) (r_f s) (r_k s)).

(** set_dx, set_dt, set_diffusion_u, set_diffusion_v (reaction_diffusion.py:55-74,
    common.py:293-298). *)
Inductive knob : Set := Dx | Dt | Du | Dv.
(** reaction_diffusion.py:55-74, common.py:293-298. *)
Definition rxn_set (w : knob) (zero : bool) (s : rxn) : rxn :=
  let o := mkOpnd (r_my s) zero in
  match w with
  | Dx => mkRxn (r_id s) (r_nb s) (r_my s) o (r_dt s) (r_du s) (r_dv s) (r_f s) (r_k s)
  | Dt => mkRxn (r_id s) (r_nb s) (r_my s) (r_dx s) o (r_du s) (r_dv s) (r_f s) (r_k s)
  | Du => mkRxn (r_id s) (r_nb s) (r_my s) (r_dx s) (r_dt s) o (r_dv s) (r_f s) (r_k s)
  | Dv => mkRxn (r_id s) (r_nb s) (r_my s) (r_dx s) (r_dt s) (r_du s) o (r_f s) (r_k s)
  end.

(** load_config (reaction_diffusion.py:76-125): everything anew on the CPU, my_device as it was.
    [zt] and [zx] say whether the file has a time and a space step without dimension. *)
Definition rxn_load (zt zx : bool) (s : rxn) : rxn :=
  let z := mkOpnd Cpu true in mkRxn Cpu Cpu (r_my s) (mkOpnd Cpu zx) (mkOpnd Cpu zt) z z z z.

(** update_universe (reaction_diffusion.py:301-328). *)
Definition rxn_update (s : rxn) (id nb : opnd) : res opnd :=
  let* nabla := blend [nb; r_dx s] in
  let* a := blend [r_du s; nabla] in
  let* b := blend [r_f s; id] in
  let* u := blend [a; id; b] in
  let* c := blend [r_dv s; nabla] in
  let* fk := blend [r_f s; r_k s] in
  let* d := blend [fk; id] in
  let* v := blend [c; id; d] in
  blend [id; u; v].

(** forward (reaction_diffusion.py:335-351). *)
Definition rxn_step (s : rxn) (x : opnd) : res opnd :=
  let* id := conv (r_id s) x in
  let* nb := conv (r_nb s) x in
  let* u := rxn_update s id nb in
  let* du := blend [r_dt s; u] in
  blend [x; du].

(** Calls of a RxnDfn (reaction_diffusion.py:55-125, 387-435; common.py:260). *)
Inductive rcall : Set := RTo (d : device) | RSetParams | RRadius | RSet (w : knob) (zero : bool) | RLoad (zt zx : bool).
(** reaction_diffusion.py:55-125, 387-435; common.py:260. *)
Definition ract (s : rxn) (c : rcall) : rxn :=
  match c with
  | RTo d => rxn_to d s
  | RSetParams => rxn_set_params s
  | RRadius => rxn_radius s
  | RSet w z => rxn_set w z s
  | RLoad zt zx => rxn_load zt zx s
  end.

(** ** Objects that own an automaton *)

(** GliderWrapper (glider_wrapper.py:19-52): its automaton and the displacement grid. *)
Record glider : Set := mkGlider { g_ca : cca; g_grid : device; g_my : device }.

(** __init__ (glider_wrapper.py:19-49, 133-142) without files. *)
Definition glider_new (d : option device) (n : nat) : glider := mkGlider (construct (Kw d n false)) Cpu (or_cpu d).

(** to_device (glider_wrapper.py:152-157): the automaton stays. *)
Definition glider_to (d : device) (w : glider) : glider := mkGlider (g_ca w) d d.

(** meta_step (glider_wrapper.py:70-131) with [n] steps of the automaton. *)
Fixpoint glider_step (n : nat) (w : glider) (x : opnd) : res unit :=
  match n with
  | O => Ok tt
  | S m =>
    let* y := step (g_ca w) x in
    let* p := blend [grid (g_grid w); y] in
    let* d := blend [y; x] in
    glider_step m w y
  end.

(** SimpleHaltingWrapper.step (halting_wrapper.py:56-100) with [n] steps of the automaton. *)
Definition simple_step (n : nat) (s : cca) : cca * res unit :=
  let s1 := renew_nb s in
  (s1, let* x := run n s1 (grid (c_my s1)) in Ok tt).

(** HaltingWrapper (halting_wrapper.py:112-143, 166-203): the automaton, the device of the
    predictor when there is one, and my_device. *)
Record halting : Set := mkHalting { h_ca : cca; h_net : option device; h_my : device }.

(** __init__ (halting_wrapper.py:112-143) without files. *)
Definition halting_new (d : option device) (n : nat) : halting := mkHalting (construct (Kw d n false)) None (or_cpu d).

(** reset (halting_wrapper.py:166-203). *)
Definition halting_reset (w : halting) : halting := mkHalting (h_ca w) (Some Cpu) (h_my w).

(** to_device (halting_wrapper.py:340-348). *)
Definition halting_to (d : device) (w : halting) : halting * res unit :=
  match h_net w with
  | None => (mkHalting (to_device d (h_ca w)) None (h_my w), Err AttributeError)
  | Some _ => (mkHalting (to_device d (h_ca w)) (Some d) d, Ok tt)
  end.

(** One round of step (halting_wrapper.py:236-250, 281-292): [b] steps, a prediction, [n] steps and
    one more. *)
Definition round (b n : nat) (s : cca) (net : device) (x : opnd) : res unit :=
  let* x1 := run b s x in
  let* pred := conv net x1 in
  let* x2 := run n s x1 in
  let* x3 := step s x2 in
  let* diff := blend [x2; x3] in
  let* loss := blend [pred; diff] in
  Ok tt.

(** step (halting_wrapper.py:228-338): the training on the device of the automaton, the evaluation
    on that of the wrapper. [self.train] needs the predictor (halting_wrapper.py:211-215). *)
Definition halting_step (b n : nat) (w : halting) : halting * res unit :=
  let s := renew_nb (h_ca w) in
  let w1 := mkHalting s (h_net w) (h_my w) in
  match h_net w with
  | None => (w1, Err AttributeError)
  | Some net =>
    (w1, let* t := round b n s net (grid (c_my s)) in round b n s net (grid (h_my w)))
  end.
