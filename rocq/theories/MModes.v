(** Model of the other modes of a CCA (yuca/ca/continuous.py): [ca_mode] "neurofunctional" and
    any value that is neither that nor "functional" (the tests use "neural"). These modes differ
    from functional mode in the weights layer, which has random weights and a ReLU, and in the
    default update functions. Configuration and parameter code is that of MConfig.v wherever it
    does not depend on the mode. Devices and gradients are left out. *)
From Coq Require Import Reals ZArith List String Bool Arith.
From Verif Require Import Base PyDict Tensor MActivations MKernels MCommon MCca MConfig.
Import ListNotations.
Open Scope R_scope.
Open Scope string_scope.

(** continuous.py:56: ca_mode, read from the keyword arguments and never written again. *)
Definition mode_of (kw : dict) : value := query_kwargs "ca_mode" (VStr "functional") kw.

(** self.ca_mode == s (continuous.py:294, 402). *)
Definition mode_is (s : string) (kw : dict) : bool :=
  match mode_of kw with VStr x => String.eqb x s | _ => false end.

(** The weights nn.Conv2d draws for the two layers of one initialize_weight_layer, by output and
    input channel (continuous.py:412-423). *)
Record wdraw : Type := mkWd { wd1 : nat -> nat -> R; wd2 : nat -> nat -> R }.

(** continuous.py:396-424 initialize_weight_layer. *)
Definition weights_for (kw : dict) (w : wdraw) (e n : nat) (m : pmode) : res wlayer :=
  if mode_is "functional" kw then init_weights e n m
  else Ok (WMlp (mkL (build n n 1 1 (fun o i _ _ => wd1 w o i)) 1 0 m)
                (mkL (build e n 1 1 (fun o i _ _ => wd2 w o i)) 1 0 m)).

(** continuous.py:294: are default update functions made? *)
Definition with_defaults (kw : dict) : bool := mode_is "functional" kw || mode_is "neurofunctional" kw.

(** The draws of one construction: those of default_init in functional mode, those of its
    weights layer, and those of the weights layer of the load_config that the constructor
    itself calls (continuous.py:76-84, 267-354). *)
Record mdraws : Type := mkMd { md_base : draws; md_init : wdraw; md_load : wdraw }.

(** continuous.py:47-74 with common.py:43-77, then 267-351 default_init, in any mode. *)
Definition fresh_m (d : mdraws) (kw : dict) : res obj :=
  let dr := md_base d in
  let radius := query_kwargs "kernel_radius" (VInt 13) kw in
  let* peaks := as_size (query_kwargs "kernel_peaks" (VInt 3) kw) in
  let* m := as_pmode (query_kwargs "conv_mode" (VStr "circular") kw) in
  let* n := as_size (query_kwargs "internal_channels" (VInt 1) kw) in
  let* e := as_size (query_kwargs "external_channels" (VInt 1) kw) in
  let* th := as_num (query_kwargs "alive_threshold" (VNum (1 / 10)) kw) in
  let* il := init_layer e n m default_id_kernel in
  let* _ := guard (negb (Nat.eqb n 0)) RuntimeError in
  let kp := map (dr_k dr) (seq 0 (peaks * 3)) in
  let* k := mixture_kernel_of radius kp in
  let* ks := stack_kernels n k in
  let* kk := as_kernel (K4 ks) in
  let* nl := init_layer e n m kk in
  let* w := weights_for kw (md_init d) e n m in
  let fns := if with_defaults kw then seq 0 n else [] in
  Ok (mkObj (mkCca e n m th il nl w (map (default_gen dr) fns) (map (default_per dr) fns) (1 / 10))
        (KPVec kp) radius peaks None None None kw).

(** continuous.py:107-144: load_config after the re-initialisation, in any mode. *)
Definition load_body_m (w : wdraw) (o : obj) (cf : cfg) (h : heap) : res (obj * heap) :=
  let c := o_core o in
  let* k1 := match c_id cf with
             | None => Ok default_id_kernel
             | Some l => let* k := get_kernel (hget h l) in as_kernel (K4 k)
             end in
  let* il := init_layer (ext c) (int_ c) (pm c) k1 in
  let* nb := need (c_nb cf) in
  let* _ := get_kernel (hget h nb) in
  let* kp := read_kpar (o_kpar o) (hget h nb) in
  let* rv := dgetk "radius" (hget h nb) in
  let* oh := set_kernel_radius (with_nb o nb kp) rv h in
  let h1 := snd oh in
  let o1 := fst oh in
  let* gl := need (c_gen cf) in
  let* g := make_fn (hget h1 gl) in
  let* pl := need (c_per cf) in
  let* p := make_fn (hget h1 pl) in
  let d := match c_dt cf with Some x => x | None => 1 / 10 end in
  let* wy := weights_for (o_inst o) w (ext c) (int_ c) (pm c) in
  Ok (mkObj (set_layers c il (nbl (o_core o1)) wy g p d) kp (o_radius o1) (o_peaks o)
        (Some nb) (Some gl) (Some pl) (o_inst o), h1).

(** continuous.py:102-105. *)
Definition load_with_m (ini : dict -> heap -> res (obj * heap)) (w : wdraw) (o : obj) (cf : cfg) (h : heap) : res (obj * heap) :=
  let* r := match c_inst cf with Some kw => ini kw h | None => Ok (o, h) end in
  load_body_m w (fst r) cf (snd r).

(** continuous.py:146-173 restore_config. *)
Definition restore_with_m (ini : dict -> heap -> res (obj * heap)) (w : wdraw) (ev : env) (o : obj) (path : string) (h : heap)
  : res (obj * heap) :=
  let p := strip_newlines path in
  let found := match fs_get (e_fs ev) p with
               | Some e => Some e
               | None => fs_get (e_fs ev) (join (e_dir ev) p)
               end in
  match found with
  | None => Ok (o, h)
  | Some e =>
      let* pc := entry_config e in
      let u := unpickle pc h in
      load_with_m ini w o (fst u) (snd u)
  end.

(** continuous.py:47-96 __init__ in any mode; [rng n] are the draws of the n-th nested
    construction, [fuel] bounds the nesting. *)
Fixpoint init_m (fuel : nat) (ev : env) (rng : nat -> mdraws) (kw : dict) (h : heap) : res (obj * heap) :=
  match fuel with
  | O => Err OutOfFuel
  | S f =>
      let* o := fresh_m (rng 0%nat) kw in
      let* r := match query_kwargs "ca_config" VNone kw with
                | VNone => Ok (o, h)
                | VStr p => restore_with_m (init_m f ev (fun k => rng (S k))) (md_load (rng 0%nat)) ev o p h
                | _ => Err Unmodelled
                end in
      match query_kwargs "input_filepath" VNone kw with
      | VNone => Ok r
      | VStr p =>
          match fs_get (e_fs ev) p with
          | None => Err FileNotFoundError
          | Some e =>
              let* v := elite_params e in
              let* o' := set_params (fst r) v in
              Ok (o', snd r)
          end
      | _ => Err Unmodelled
      end
  end.

(** continuous.py:102-144; [w] are the draws of the call's own weights layer. *)
Definition load_config_m (fuel : nat) (ev : env) (rng : nat -> mdraws) (w : wdraw) := load_with_m (init_m fuel ev rng) w.
(** continuous.py:146-172. *)
Definition restore_config_m (fuel : nat) (ev : env) (rng : nat -> mdraws) (w : wdraw) := restore_with_m (init_m fuel ev rng) w ev.

(** Loading a config by value, as after np.load or from make_config's deep copy (continuous.py:102-144). *)
Definition load_value_m (fuel : nat) (ev : env) (rng : nat -> mdraws) (w : wdraw) (o : obj) (p : pcfg) (h : heap) : res (obj * heap) :=
  let u := unpickle p h in load_config_m fuel ev rng w o (fst u) (snd u).

(** continuous.py:102-704: one public call, in any mode. *)
Definition run_cop_m (fuel : nat) (rng : nat -> mdraws) (wd : wdraw) (w : world) (k : cop) : res world :=
  let o := w_obj w in let h := w_heap w in let ev := w_env w in
  match k with
  | OSet p => let* o' := set_params o p in Ok (mkWorld o' h ev)
  | ORadius v => let* r := set_kernel_radius o v h in Ok (mkWorld (fst r) (snd r) ev)
  | OKernel l => let* r := set_kernel_config o l h in Ok (mkWorld (fst r) (snd r) ev)
  | ODt x => Ok (mkWorld (set_dt o x) h ev)
  | OMake => let '(_, o', h') := make_config o h in Ok (mkWorld o' h' ev)
  | OSave path => let '(ev', o', h') := save_config ev o path h in Ok (mkWorld o' h' ev')
  | OLoad cf => let* r := load_config_m fuel ev rng wd o cf h in Ok (mkWorld (fst r) (snd r) ev)
  | ORestore path => let* r := restore_config_m fuel ev rng wd o path h in Ok (mkWorld (fst r) (snd r) ev)
  end.

(** continuous.py:102-704: a sequence of calls, each with the draws it uses. *)
Fixpoint run_cops_m (fuel : nat) (w : world) (ks : list (cop * (nat -> mdraws) * wdraw)) : res world :=
  match ks with
  | [] => Ok w
  | (k, rng, wd) :: t => let* w' := run_cop_m fuel rng wd w k in run_cops_m fuel w' t
  end.
