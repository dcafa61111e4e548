(** Model of the parameter vectors and configuration handling of CCA objects
    (yuca/ca/continuous.py, yuca/ca/common.py) and of Lenia's parameters (yuca/lenia.py).
    Functional mode ([ca_mode] = "functional", the default) only: MModes.v models the other modes
    and C101 relates the two; devices and gradients are left out. *)
From Coq Require Import Reals ZArith List String Ascii Bool Arith.
From Verif Require Import Base PyDict Tensor MActivations MKernels MCommon MCca.
Import ListNotations.
Open Scope R_scope.
Open Scope string_scope.

(** ** Parameter vectors *)

(** params[start:stop].reshape(1) into a parameter of one element (continuous.py:643-686). *)
Definition set1 (p : list R) : res (R * list R) :=
  let* q := take_exact 1 p in Ok (nth 0 (fst q) 0, snd q).

(** The parameters of a mixture: mu and sigma of every Gaussian, not the amplitude (continuous.py:643-686). *)
Fixpoint set_mix (gs : list (R * R * R)) (p : list R) : res (list (R * R * R) * list R) :=
  match gs with
  | [] => Ok ([], p)
  | (a, _, _) :: t =>
      let* m := set1 p in
      let* s := set1 (snd m) in
      let* r := set_mix t (snd s) in
      Ok ((a, fst m, fst s) :: fst r, snd r)
  end.

(** continuous.py:648-661: overwrite the registered parameters of one function, tensor by
    tensor in named_parameters order; returns the function and the rest of the vector. *)
Definition set_act (a : act) (p : list R) : res (act * list R) :=
  match a with
  | AGaussian _ _ md =>
      let* m := set1 p in let* s := set1 (snd m) in Ok (AGaussian (fst m) (fst s) md, snd s)
  | ADoGaussian _ _ dx md =>
      let* m := set1 p in let* s := set1 (snd m) in Ok (ADoGaussian (fst m) (fst s) dx md, snd s)
  | ADoubleGaussian mu sigma md =>
      let* m := take_exact (List.length mu) p in
      let* s := take_exact (List.length sigma) (snd m) in
      Ok (ADoubleGaussian (fst m) (fst s) md, snd s)
  | AMixture gs md => let* r := set_mix gs p in Ok (AMixture (fst r) md, snd r)
  | APolynomial c md => let* q := take_exact (List.length c) p in Ok (APolynomial (fst q) md, snd q)
  | ACosOverX2 _ _ md =>
      let* m := set1 p in let* s := set1 (snd m) in Ok (ACosOverX2 (fst m) (fst s) md, snd s)
  | _ => Ok (a, p)
  end.

(** continuous.py:648-661 and 663-676: all functions of one list. *)
Fixpoint set_acts (l : list act) (p : list R) : res (list act * list R) :=
  match l with
  | [] => Ok ([], p)
  | a :: t =>
      let* q := set_act a p in
      let* r := set_acts t (snd q) in
      Ok (fst q :: fst r, snd r)
  end.

(** continuous.py:615-631 get_genesis_params / get_persistence_params. *)
Definition fn_params (l : list act) : list R := flat_map act_params l.

(** ** Objects *)

(** Config dictionaries live on a heap, since the code keeps and writes through references
    to the dictionaries it was given (continuous.py:102-258). *)
Definition loc := nat.
(** continuous.py:102-258. *)
Definition heap := list dict.

(** Reading an entry of a dictionary by reference (continuous.py:102-258). *)
Definition hget (h : heap) (l : loc) : dict := nth l h [].

(** Writing one (continuous.py:102-258). *)
Fixpoint hset (h : heap) (l : loc) (d : dict) : heap :=
  match h, l with
  | [], _ => []
  | _ :: t, O => d :: t
  | x :: t, S k => x :: hset t k d
  end.

(** A new dictionary (continuous.py:267-354). *)
Definition alloc (d : dict) (h : heap) : loc * heap := (List.length h, (h ++ [d])%list).

(** A CCA object: the fields that its dynamics, parameters and config depend on. The stored
    kernel (neighborhood_kernels) is left out: every method that changes it rebuilds the
    layer at once. id_kernel_config is left out: nothing ever sets it (common.py:71,
    continuous.py:72). *)
Record obj : Type := mkObj {
  o_core : cca;
  o_kpar : kpar;           (* kernel_params *)
  o_radius : value;        (* kernel_radius *)
  o_peaks : nat;           (* kernel_peaks *)
  o_nb : option loc;       (* neighborhood_kernel_config *)
  o_gen : option loc;      (* genesis_fn_config *)
  o_per : option loc;      (* persistence_fn_config *)
  o_inst : dict            (* instant_kwargs, a dict owned by the object *)
}.

(** continuous.py:643-686: the layers of the object. *)
Definition set_layers (c : cca) (il nl : conv_layer) (w : wlayer) (g p : list act) (d : R) : cca :=
  mkCca (ext c) (int_ c) (pm c) (thr c) il nl w g p d.

(** continuous.py:633-641 get_params. [None] when kernel_params is None: numpy then returns
    an object array ending in None. *)
Definition get_params (o : obj) : option (list R) :=
  let f := (fn_params (gens (o_core o)) ++ fn_params (pers (o_core o)))%list in
  match o_kpar o with
  | KPNone => None
  | k => Some (f ++ kp_flat k)%list
  end.

(** continuous.py:643-686 set_params. The kernel slice is cut short without an error. *)
Definition set_params (o : obj) (p : list R) : res obj :=
  let c := o_core o in
  let* g := set_acts (gens c) p in
  let* q := set_acts (pers c) (snd g) in
  match o_kpar o with
  | KPNone => Err AttributeError
  | KPScalar _ => Err IndexError
  | KPVec l =>
      let kp := firstn (List.length l) (snd q) in
      let* k := mixture_kernel_of (o_radius o) kp in
      let* kk := as_kernel (K4 k) in
      let* nl := init_layer (ext c) (int_ c) (pm c) kk in
      Ok (mkObj (set_layers c (idl c) nl (wl c) (fst g) (fst q) (dt c)) (KPVec kp) (o_radius o) (o_peaks o)
            (o_nb o) (o_gen o) (o_per o) (o_inst o))
  end.

(** lenia.py:63-69 get_params and 71-89 set_params: genesis functions only. *)
Definition lenia_get_params (o : obj) : list R := fn_params (gens (o_core o)).

(** lenia.py:71-89. *)
Definition lenia_set_params (o : obj) (p : list R) : res obj :=
  let c := o_core o in
  let* g := set_acts (gens c) p in
  Ok (mkObj (set_layers c (idl c) (nbl c) (wl c) (fst g) (pers c) (dt c)) (o_kpar o) (o_radius o) (o_peaks o)
        (o_nb o) (o_gen o) (o_per o) (o_inst o)).

(** ** Kernel radius, kernel config, time step *)

(** common.py:260-272 set_kernel_radius: writes through to the config dictionary. *)
Definition set_kernel_radius (o : obj) (r : value) (h : heap) : res (obj * heap) :=
  match o_nb o with
  | None => Err TypeError
  | Some l =>
      let d := dset "radius" r (hget h l) in
      let* k := get_kernel d in
      let* kk := as_kernel (K4 k) in
      let* rv := dgetk "radius" d in
      let c := o_core o in
      let* nl := init_layer (ext c) (int_ c) (pm c) kk in
      Ok (mkObj (set_layers c (idl c) nl (wl c) (gens c) (pers c) (dt c)) (o_kpar o) rv (o_peaks o)
            (Some l) (o_gen o) (o_per o) (o_inst o), hset h l d)
  end.

(** continuous.py:125-126, common.py:288-289: kernel_params from the keyword arguments, if any. *)
Definition read_kpar (old : kpar) (d : dict) : res kpar :=
  match dget "kernel_kwargs" d with
  | None => Ok old
  | Some v => let* kw := as_dict v in update_kernel_params KPNone kw
  end.

(** The object with another kernel config and other kernel parameters (common.py:285-291). *)
Definition with_nb (o : obj) (l : loc) (kp : kpar) : obj :=
  mkObj (o_core o) kp (o_radius o) (o_peaks o) (Some l) (o_gen o) (o_per o) (o_inst o).

(** common.py:285-291 set_kernel_config: keeps a reference to the caller's dictionary. *)
Definition set_kernel_config (o : obj) (l : loc) (h : heap) : res (obj * heap) :=
  let d := hget h l in
  let* kp := read_kpar (o_kpar o) d in
  let* rv := dgetk "radius" d in
  set_kernel_radius (with_nb o l kp) rv h.

(** common.py:293-298 set_dt. *)
Definition set_dt (o : obj) (x : R) : obj :=
  mkObj (set_core_dt (o_core o) x) (o_kpar o) (o_radius o) (o_peaks o) (o_nb o) (o_gen o) (o_per o) (o_inst o).

(** ** Construction *)

(** continuous.py:427-448 add_genesis_fn and 450-471 add_persistence_fn: the function to
    append; an unknown name is reported through config['fn'], which raises when absent. *)
Definition make_fn (d : dict) : res (list act) :=
  let* nm := dgetk "name" d in
  let name := match nm with VStr s => s | _ => "" end in
  let one m := let* a := m in Ok [a] in
  if String.eqb name "Gaussian" then one (mk_gaussian d)
  else if String.eqb name "DoGaussian" then one (mk_dogaussian d)
  else if String.eqb name "DoubleGaussian" then one (mk_doublegaussian d)
  else if String.eqb name "GaussianMixture" then one (mk_mixture d)
  else if String.eqb name "Polynomial" then one (mk_polynomial d)
  else if String.eqb name "ReLU" then one (Ok AReLU)
  else if String.eqb name "Tanh" then one (Ok ATanh)
  else if String.eqb name "Identity" then one (Ok AIdentity)
  else if String.eqb name "SmoothIntervals" then one (mk_smoothintervals d)
  else let* _ := dgetk "fn" d in Ok [].

(** nn.Conv2d looks the padding mode up in a set of four names (common.py:201-220): dictionaries
    cannot be hashed; whether a sequence can depends on its class, so these are left out. *)
Definition as_pmode (v : value) : res pmode :=
  match v with
  | VStr s =>
      if String.eqb s "circular" then Ok Circular
      else if String.eqb s "zeros" then Ok Zeros
      else if String.eqb s "reflect" then Ok Reflect
      else if String.eqb s "replicate" then Ok Replicate
      else Err ValueError
  | VDict _ => Err TypeError
  | VVec _ | VMat _ => Err Unmodelled
  | _ => Err ValueError
  end.

(** continuous.py:47-96, the other way round. *)
Definition pmode_str (m : pmode) : string :=
  match m with Circular => "circular" | Zeros => "zeros" | Reflect => "reflect" | Replicate => "replicate" end.

(** The random draws of one default_init: kernel parameters (uniform), mu and sigma
    (normal), the coin flips between Gaussian and DoGaussian, polynomial coefficients
    (uniform) (continuous.py:267-354). *)
Record draws : Type := mkDraws {
  dr_k : nat -> R; dr_mu : nat -> R; dr_sigma : nat -> R;
  dr_g : nat -> bool; dr_p : nat -> bool;
  dr_gc : nat -> nat -> R; dr_pc : nat -> nat -> R
}.

(** continuous.py:299-318 and 320-346 for channel [pp]; per_mu and per_sigma are computed
    from gen_mu and gen_sigma (324-325). *)
Definition default_mu (d : draws) (pp : nat) : R := clamp 0 1 (15 / 100 * (1 + dr_mu d pp * (1 / 10))).
(** continuous.py:267-354. *)
Definition default_sigma (d : draws) (pp : nat) : R := clamp 0 1 (15 / 1000 * (1 + dr_sigma d pp * (1 / 100))).

(** continuous.py:267-354. *)
Definition default_poly (f : nat -> R) : act := APolynomial (map (fun i => f i / 10 ^ i) (seq 0 8)) false.

(** continuous.py:267-354. *)
Definition default_gen (d : draws) (pp : nat) : act :=
  if Nat.ltb pp 8 then
    if dr_g d pp then AGaussian (default_mu d pp) (default_sigma d pp) true
    else ADoGaussian (default_mu d pp) (default_sigma d pp) (1 / 100) true
  else default_poly (dr_gc d pp).

(** continuous.py:267-354. *)
Definition default_per (d : draws) (pp : nat) : act :=
  if Nat.ltb pp 8 then
    if dr_p d pp then AGaussian (clamp 0 1 (default_mu d pp)) (clamp 0 1 (default_sigma d pp)) true
    else ADoGaussian (clamp 0 1 (default_mu d pp)) (clamp 0 1 (default_sigma d pp)) (1 / 100) true
  else default_poly (dr_pc d pp).

(** continuous.py:47-74 with common.py:43-77 (keyword defaults), then 267-351 default_init. *)
Definition fresh (dr : draws) (kw : dict) : res obj :=
  let radius := query_kwargs "kernel_radius" (VInt 13) kw in
  let* peaks := as_size (query_kwargs "kernel_peaks" (VInt 3) kw) in
  let* m := as_pmode (query_kwargs "conv_mode" (VStr "circular") kw) in
  let* n := as_size (query_kwargs "internal_channels" (VInt 1) kw) in
  let* e := as_size (query_kwargs "external_channels" (VInt 1) kw) in
  let* th := as_num (query_kwargs "alive_threshold" (VNum (1 / 10)) kw) in
  let* il := init_layer e n m default_id_kernel in
  let* _ := guard (negb (Nat.eqb n 0)) RuntimeError in
  let kp := map (dr_k dr) (seq 0 (peaks * 3)) in
  let* k := mixture_kernel_of radius kp in
  let* ks := stack_kernels n k in
  let* kk := as_kernel (K4 ks) in
  let* nl := init_layer e n m kk in
  let* w := init_weights e n m in
  Ok (mkObj (mkCca e n m th il nl w (map (default_gen dr) (seq 0 n)) (map (default_per dr) (seq 0 n)) (1 / 10))
        (KPVec kp) radius peaks None None None kw).

(** ** Configurations *)

(** A top-level config dictionary whose entries are references into the heap; a missing
    key is [None] (continuous.py:102-144). *)
Record cfg : Type := mkCfg {
  c_inst : option dict;    (* "instant_kwargs" *)
  c_id : option loc;       (* "identity_kernel_config" *)
  c_nb : option loc;       (* "neighborhood_kernel_config" *)
  c_gen : option loc;      (* "genesis_config" *)
  c_per : option loc;      (* "persistence_config" *)
  c_dt : option R          (* "dt" *)
}.

(** A config by value: the deep copy returned by make_config, or the contents of a file.
    [p_oid] is "id_kernel_config", which make_config writes and nothing reads. [p_same]:
    the genesis and persistence entries are one dictionary (deepcopy and pickle keep that) (continuous.py:175-258). *)
Record pcfg : Type := mkPcfg {
  p_inst : option dict; p_oid : option dict; p_id : option dict; p_nb : option dict;
  p_gen : option dict; p_per : option dict; p_same : bool; p_dt : option R
}.

(** A key that must be there: config[key] (continuous.py:102-144). *)
Definition need {A} (x : option A) : res A := match x with Some a => Ok a | None => Err KeyError end.

(** continuous.py:107-144: load_config after the re-initialisation. *)
Definition load_body (o : obj) (cf : cfg) (h : heap) : res (obj * heap) :=
  let c := o_core o in
  let* k1 := match c_id cf with
             | None => Ok default_id_kernel
             | Some l => let* k := get_kernel (hget h l) in as_kernel (K4 k)
             end in
  let* il := init_layer (ext c) (int_ c) (pm c) k1 in
  let* nb := need (c_nb cf) in
  let* _ := get_kernel (hget h nb) in
  let* kp := read_kpar (o_kpar o) (hget h nb) in
  let* rv := dgetk "radius" (hget h nb) in
  let* oh := set_kernel_radius (with_nb o nb kp) rv h in
  let h1 := snd oh in
  let o1 := fst oh in
  let* gl := need (c_gen cf) in
  let* g := make_fn (hget h1 gl) in
  let* pl := need (c_per cf) in
  let* p := make_fn (hget h1 pl) in
  let d := match c_dt cf with Some x => x | None => 1 / 10 end in
  let* w := init_weights (ext c) (int_ c) (pm c) in
  Ok (mkObj (set_layers c il (nbl (o_core o1)) w g p d) kp (o_radius o1) (o_peaks o)
        (Some nb) (Some gl) (Some pl) (o_inst o), h1).

(** continuous.py:102-105: re-initialisation when the config carries instant_kwargs; [ini]
    is the constructor. *)
Definition load_with (ini : dict -> heap -> res (obj * heap)) (o : obj) (cf : cfg) (h : heap) : res (obj * heap) :=
  let* r := match c_inst cf with Some kw => ini kw h | None => Ok (o, h) end in
  load_body (fst r) cf (snd r).

(** Unpickling allocates every dictionary anew (continuous.py:146-172). *)
Definition alloc_opt (d : option dict) (h : heap) : option loc * heap :=
  match d with
  | None => (None, h)
  | Some x => let r := alloc x h in (Some (fst r), snd r)
  end.

(** np.load(path, allow_pickle=True).reshape(1)[0] (continuous.py:146-172). *)
Definition unpickle (p : pcfg) (h : heap) : cfg * heap :=
  let a := alloc_opt (p_id p) h in
  let b := alloc_opt (p_nb p) (snd a) in
  let g := alloc_opt (p_gen p) (snd b) in
  let q := if p_same p then g else alloc_opt (p_per p) (snd g) in
  (mkCfg (p_inst p) (fst a) (fst b) (fst g) (fst q) (p_dt p), snd q).

(** ** Files *)

(** What a path leads to: a saved config, a saved evolution log (its elite_params entry),
    or a directory (continuous.py:47-96, 146-172). *)
Inductive entry : Type := FConfig (p : pcfg) | FElite (l : list (list (list R))) | FDir.

(** The file system and the default directory (continuous.py:146-172). *)
Record env : Type := mkEnv { e_fs : list (string * entry); e_dir : string }.

(** np.load (continuous.py:146-172). *)
Fixpoint fs_get (fs : list (string * entry)) (p : string) : option entry :=
  match fs with
  | [] => None
  | (q, e) :: t => if String.eqb p q then Some e else fs_get t p
  end.

(** np.save (continuous.py:260-265). *)
Fixpoint fs_set (fs : list (string * entry)) (p : string) (e : entry) : list (string * entry) :=
  match fs with
  | [] => [(p, e)]
  | (q, x) :: t => if String.eqb p q then (q, e) :: t else (q, x) :: fs_set t p e
  end.

(** continuous.py:146-172. *)
Definition newline : ascii := ascii_of_nat 10.

(** filepath.replace("\n", "") (continuous.py:146-172). *)
Fixpoint strip_newlines (s : string) : string :=
  match s with
  | EmptyString => EmptyString
  | String a t => if Ascii.eqb a newline then strip_newlines t else String a (strip_newlines t)
  end.

(** os.path.join(d, p) for a directory without trailing slash (continuous.py:146-172). *)
Definition join (d p : string) : string :=
  match p with
  | String a _ => if Ascii.eqb a "/"%char then p else d ++ "/" ++ p
  | EmptyString => d ++ "/"
  end.

(** np.load(...).reshape(1)[0] as a config: an evolution log has none of its keys (continuous.py:146-172). *)
Definition entry_config (e : entry) : res pcfg :=
  match e with
  | FConfig p => Ok p
  | FElite _ => Ok (mkPcfg None None None None None None false None)
  | FDir => Err OSError
  end.

(** continuous.py:146-173 restore_config. *)
Definition restore_with (ini : dict -> heap -> res (obj * heap)) (ev : env) (o : obj) (path : string) (h : heap)
  : res (obj * heap) :=
  let p := strip_newlines path in
  let found := match fs_get (e_fs ev) p with
               | Some e => Some e
               | None => fs_get (e_fs ev) (join (e_dir ev) p)
               end in
  match found with
  | None => Ok (o, h)
  | Some e =>
      let* pc := entry_config e in
      let u := unpickle pc h in
      load_with ini o (fst u) (snd u)
  end.

(** continuous.py:86-90: parameters of the best individual of the last logged generation. *)
Definition elite_params (e : entry) : res (list R) :=
  match e with
  | FElite l =>
      match last l [] with
      | p :: _ => Ok p
      | [] => Err IndexError
      end
  | FConfig _ => Err KeyError
  | FDir => Err OSError
  end.

(** continuous.py:47-96 __init__. [rng n] are the draws of the n-th nested construction;
    [fuel] bounds the nesting, [OutOfFuel] standing for Python's RecursionError. *)
Fixpoint init (fuel : nat) (ev : env) (rng : nat -> draws) (kw : dict) (h : heap) : res (obj * heap) :=
  match fuel with
  | O => Err OutOfFuel
  | S f =>
      let* o := fresh (rng 0%nat) kw in
      let* r := match query_kwargs "ca_config" VNone kw with
                | VNone => Ok (o, h)
                | VStr p => restore_with (init f ev (fun k => rng (S k))) ev o p h
                | _ => Err Unmodelled
                end in
      match query_kwargs "input_filepath" VNone kw with
      | VNone => Ok r
      | VStr p =>
          match fs_get (e_fs ev) p with
          | None => Err FileNotFoundError
          | Some e =>
              let* v := elite_params e in
              let* o' := set_params (fst r) v in
              Ok (o', snd r)
          end
      | _ => Err Unmodelled
      end
  end.

(** continuous.py:102-144. *)
Definition load_config (fuel : nat) (ev : env) (rng : nat -> draws) := load_with (init fuel ev rng).
(** continuous.py:146-172. *)
Definition restore_config (fuel : nat) (ev : env) (rng : nat -> draws) := restore_with (init fuel ev rng) ev.

(** Loading a config by value, as after np.load or from make_config's deep copy (continuous.py:102-144). *)
Definition load_value (fuel : nat) (ev : env) (rng : nat -> draws) (o : obj) (p : pcfg) (h : heap) : res (obj * heap) :=
  let u := unpickle p h in load_config fuel ev rng o (fst u) (snd u).

(** continuous.py:195-203. *)
Definition kp_value (k : kpar) : dict :=
  match k with
  | KPNone => []
  | KPScalar r => [("parameters", VNum r)]
  | KPVec l => [("parameters", VVec l)]
  end.

(** continuous.py:219-221 and 236-238: the fixed stand-in function config. *)
Definition fixed_fn : dict :=
  [("name", VStr "GaussianMixture"); ("parameters", VVec [15000001 / 100000000; 15 / 1000]); ("mode", VInt 1)].

(** continuous.py:216-226 and 233-243: a missing function config is invented and kept, an
    existing one gets its "parameters" overwritten in place. *)
Definition fn_config (cur : option loc) (params : list R) (h : heap) : loc * heap :=
  match cur with
  | None => alloc fixed_fn h
  | Some l => (l, hset h l (dset "parameters" (VVec params) (hget h l)))
  end.

(** An int put into a config (continuous.py:175-258). *)
Definition nat_value (n : nat) : value := VInt (Z.of_nat n).

(** continuous.py:175-258 make_config: the deep copy and the changed object and heap. *)
Definition make_config (o : obj) (h : heap) : pcfg * obj * heap :=
  let c := o_core o in
  let nb := match o_nb o with
            | Some l => (l, h)
            | None => alloc [("name", VStr "GaussianMixture"); ("kernel_kwargs", VDict (kp_value (o_kpar o)));
                             ("radius", o_radius o)] h
            end in
  let g := fn_config (o_gen o) (fn_params (gens c)) (snd nb) in
  let p := fn_config (o_per o) (fn_params (pers c)) (snd g) in
  let h' := snd p in
  let inst :=
    dset "internal_channels" (nat_value (int_ c)) (dset "external_channels" (nat_value (ext c))
      (dset "conv_mode" (VStr (pmode_str (pm c))) (dset "kernel_peaks" (nat_value (o_peaks o))
        (dset "kernel_radius" (o_radius o) (o_inst o))))) in
  (mkPcfg (Some inst) (Some [("name", VStr "InnerMoore")]) None (Some (hget h' (fst nb)))
     (Some (hget h' (fst g))) (Some (hget h' (fst p))) (Nat.eqb (fst g) (fst p)) (Some (dt c)),
   mkObj c (o_kpar o) (o_radius o) (o_peaks o) (Some (fst nb)) (Some (fst g)) (Some (fst p)) inst, h').

(** np.save appends ".npy" unless the name already ends with it (continuous.py:260-265). *)
Fixpoint ends_with (suf s : string) : bool :=
  if String.eqb s suf then true else match s with EmptyString => false | String _ t => ends_with suf t end.

(** continuous.py:260-265. *)
Definition npy (path : string) : string := if ends_with ".npy" path then path else path ++ ".npy".

(** continuous.py:260-265 save_config without an explicit config. *)
Definition save_config (ev : env) (o : obj) (path : string) (h : heap) : env * obj * heap :=
  let '(p, o', h') := make_config o h in
  (mkEnv (fs_set (e_fs ev) (npy path) (FConfig p)) (e_dir ev), o', h').

(** ** Histories of public calls on one object *)
(** continuous.py:102-704. *)
Inductive cop : Type :=
| OSet (p : list R) | ORadius (v : value) | OKernel (l : loc) | ODt (x : R)
| OMake | OSave (path : string) | OLoad (cf : cfg) | ORestore (path : string).

(** Object, heap and files (continuous.py:102-704). *)
Record world : Type := mkWorld { w_obj : obj; w_heap : heap; w_env : env }.

(** continuous.py:102-704: one call. *)
Definition run_cop (fuel : nat) (rng : nat -> draws) (w : world) (k : cop) : res world :=
  let o := w_obj w in let h := w_heap w in let ev := w_env w in
  match k with
  | OSet p => let* o' := set_params o p in Ok (mkWorld o' h ev)
  | ORadius v => let* r := set_kernel_radius o v h in Ok (mkWorld (fst r) (snd r) ev)
  | OKernel l => let* r := set_kernel_config o l h in Ok (mkWorld (fst r) (snd r) ev)
  | ODt x => Ok (mkWorld (set_dt o x) h ev)
  | OMake => let '(_, o', h') := make_config o h in Ok (mkWorld o' h' ev)
  | OSave path => let '(ev', o', h') := save_config ev o path h in Ok (mkWorld o' h' ev')
  | OLoad cf => let* r := load_config fuel ev rng o cf h in Ok (mkWorld (fst r) (snd r) ev)
  | ORestore path => let* r := restore_config fuel ev rng o path h in Ok (mkWorld (fst r) (snd r) ev)
  end.

(** continuous.py:102-704: a sequence of calls. *)
Fixpoint run_cops (fuel : nat) (rng : nat -> draws) (w : world) (ks : list cop) : res world :=
  match ks with
  | [] => Ok w
  | k :: t => let* w' := run_cop fuel rng w k in run_cops fuel rng w' t
  end.
