(** Model of construction, configurations and files of yuca/ca/neural.py (NCA). *)
From Coq Require Import Reals ZArith List String Bool Arith.
From Verif Require Import Base PyDict Tensor MActivations MKernels MCommon MConfig MNca.
Import ListNotations.
Open Scope R_scope.
Open Scope string_scope.

(** What the constructor sets before it builds any layer: neural.py:59-72 and
    common.py:43-66. [ns_act] is the name of the class in self.act. Channel counts, peaks and
    dropout rate are read as numbers here, where Python would fail at their first use. *)
Record nset : Type := mkNset {
  ns_ext : nat; ns_int : nat; ns_hid : nat; ns_pm : value; ns_thr : R;
  ns_radius : value; ns_peaks : nat; ns_act : string; ns_drop : R; ns_inst : dict
}.

(** An object: its layers, parameters and time step exist ([Some]) only once default_init has
    been run; self.kernel_radius is then [nc_radius]. self.id_kernel_config stays None (neural.py:59-121). *)
Record nobj : Type := mkNobj { no_set : nset; no_body : option nca }.

(** neural.py:40-48, 65-72: the class chosen by the argument "activation". *)
Definition act_names : list string := ["Tanh"; "ReLU"; "SiLU"; "ELU"; "Sigmoid"; "Gaussian"; "Identity"].

(** neural.py:40-48, 65-72. *)
Definition act_class (v : value) : string :=
  match v with
  | VStr s => if existsb (String.eqb s) act_names then s else "Gaussian"
  | _ => "Gaussian"
  end.

(** neural.py:60-72. *)
Definition nca_settings (kw : dict) : res nset :=
  let* h := as_size (query_kwargs "hidden_channels" (VInt 64) kw) in
  let* pk := as_size (query_kwargs "kernel_peaks" (VInt 3) kw) in
  let* e := as_size (query_kwargs "external_channels" (VInt 1) kw) in
  let* n := as_size (query_kwargs "internal_channels" (VInt 1) kw) in
  let* th := as_num (query_kwargs "alive_threshold" (VNum (1 / 10)) kw) in
  let* dp := as_num (query_kwargs "dropout_rate" (VNum (1 / 10)) kw) in
  Ok (mkNset e n h (query_kwargs "conv_mode" (VStr "circular") kw) th (query_kwargs "kernel_radius" (VInt 13) kw) pk
        (act_class (query_kwargs "activation" (VStr "Gaussian") kw)) dp kw).

(** The random weights torch draws when a weight layer is created: layer, output, input channel (neural.py:265-291). *)
Definition wdraws := nat -> nat -> nat -> R.
(** neural.py:265-291. *)
Definition drawn (dr : wdraws) (l o i : nat) : tensor := build o i 1 1 (fun a b _ _ => dr l a b).

(** neural.py:95-121 default_init. *)
Definition default_body (dr : wdraws) (f : nset) : res nca :=
  let* m := as_pmode (ns_pm f) in
  let* r := as_size (ns_radius f) in
  nca_init (ns_ext f) (ns_int f) (ns_hid f) m (ns_thr f) r (ns_peaks f) (VStr (ns_act f)) (ns_drop f)
    (drawn dr 0 (ns_hid f) (ns_ext f + ns_int f)) (drawn dr 1 (ns_hid f) (ns_hid f)) (drawn dr 2 (ns_ext f) (ns_hid f)).

(** A config dictionary by value; a missing key is [None]. make_config writes
    "id_kernel_config" and load_config reads "identity_kernel_config" (neural.py:134-256). *)
Record ncfg : Type := mkNcfg {
  n_inst : option dict;      (* "instant_kwargs" *)
  n_oid : option dict;       (* "id_kernel_config" *)
  n_id : option dict;        (* "identity_kernel_config" *)
  n_nb : option dict;        (* "neighborhood_kernel_config" *)
  n_dt : option R;           (* "dt" *)
  n_params : option (list R) (* "params" *)
}.

(** neural.py:152-155: the kernel arguments, and the dictionary with the empty ones entered. *)
Definition kernel_args (nb : dict) : res (dict * dict) :=
  match dget "kernel_kwargs" nb with
  | Some v => let* kw := as_dict v in Ok (kw, nb)
  | None => Ok ([], dset "kernel_kwargs" (VDict []) nb)
  end.

(** neural.py:139-176: load_config after the re-initialisation. set_kernel_radius moves the layers to the
    device, among them the weight layer (common.py:272, neural.py:311-324, 368-373). *)
Definition nca_load_body (dr : wdraws) (o : nobj) (cf : ncfg) : res nobj :=
  let f := no_set o in
  let* m := as_pmode (ns_pm f) in
  let* k1 := match n_id cf with
             | None => Ok default_id_kernel
             | Some d => let* k := get_kernel d in as_kernel (K4 k)
             end in
  let* il := init_layer (ns_ext f) (ns_int f) m k1 in
  let* nb := need (n_nb cf) in
  let* rv := dgetk "radius" nb in
  let* _ := get_kernel nb in
  let* ka := kernel_args nb in
  let* kp := update_kernel_params KPNone (fst ka) in
  let nb' := dset "radius" rv (snd ka) in
  let* k := get_kernel nb' in
  let* kk := as_kernel (K4 k) in
  let* nl := init_layer (ns_ext f) (ns_int f) m kk in
  let* _ := guard (match no_body o with Some _ => true | None => false end) AttributeError in
  let d := match n_dt cf with Some x => x | None => 1 / 10 end in
  let* _ := guard ((if Rle_dec 0 (ns_drop f) then true else false) && (if Rle_dec (ns_drop f) 1 then true else false)) ValueError in
  let* w := nca_weights (ns_ext f) (ns_int f) (ns_hid f)
              (drawn dr 0 (ns_hid f) (ns_ext f + ns_int f)) (drawn dr 1 (ns_hid f) (ns_hid f)) (drawn dr 2 (ns_ext f) (ns_hid f)) in
  let a := act_squared (nca_act (VStr (ns_act f))) in
  let* p := need (n_params cf) in
  let* s := nca_set_params
              (mkNca (ns_ext f) (ns_int f) (ns_hid f) m (ns_thr f) il nl (fst (fst w)) a (snd (fst w)) a (snd w)
                 (ns_drop f) kk kp (Some nb') rv d) p in
  Ok (mkNobj f (Some s)).

(** neural.py:134-137. *)
Definition nca_load_with (ini : dict -> res nobj) (dr : wdraws) (o : nobj) (cf : ncfg) : res nobj :=
  let* o' := match n_inst cf with Some kw => ini kw | None => Ok o end in
  nca_load_body dr o' cf.

(** neural.py:178-205 restore_config: [fs] gives the configs stored at paths, [dir] is the default
    directory. A path that leads nowhere is only reported. *)
Definition nca_restore_with (ini : dict -> res nobj) (dr : wdraws) (fs : string -> option ncfg) (dir : string)
    (o : nobj) (path : string) : res nobj :=
  let p := strip_newlines path in
  match (match fs p with Some c => Some c | None => fs (join dir p) end) with
  | Some c => nca_load_with ini dr o c
  | None => Ok o
  end.

(** neural.py:59-82 __init__. [rng n] are the draws of the n-th nested construction; [fuel] bounds the
    nesting, [OutOfFuel] standing for Python's RecursionError. *)
Fixpoint nca_new (fuel : nat) (fs : string -> option ncfg) (dir : string) (rng : nat -> wdraws) (kw : dict) : res nobj :=
  match fuel with
  | O => Err OutOfFuel
  | S k =>
      let* f := nca_settings kw in
      match query_kwargs "ca_config" VNone kw with
      | VNone => let* s := default_body (rng 0%nat) f in Ok (mkNobj f (Some s))
      | VStr p => nca_restore_with (nca_new k fs dir (fun i => rng (S i))) (rng 0%nat) fs dir (mkNobj f None) p
      | _ => Err Unmodelled
      end
  end.

(** neural.py:134-173. *)
Definition nca_load (fuel : nat) (fs : string -> option ncfg) (dir : string) (rng : nat -> wdraws) :=
  nca_load_with (nca_new fuel fs dir (fun i => rng (S i))) (rng 0%nat).

(** neural.py:175-201. *)
Definition nca_restore (fuel : nat) (fs : string -> option ncfg) (dir : string) (rng : nat -> wdraws) :=
  nca_restore_with (nca_new fuel fs dir (fun i => rng (S i))) (rng 0%nat) fs dir.

(** [l[-n:]] (neural.py:204-256). *)
Definition tail_of (n : nat) (l : list R) : list R :=
  match n with O => l | _ => skipn (List.length l - n) l end.

(** An assignment to one key of the config (neural.py:204-256). *)
Definition set_cfg (s : nca) (d : dict) : nca :=
  mkNca (nc_ext s) (nc_int s) (nc_hid s) (nc_pm s) (nc_thr s) (nc_idl s) (nc_nbl s)
        (nc_w1 s) (nc_a1 s) (nc_w2 s) (nc_a2 s) (nc_w3 s) (nc_drop s) (nc_kern s) (nc_kpar s) (Some d) (nc_radius s) (nc_dt s).

(** neural.py:207-256 make_config: the deep copy and the changed object. *)
Definition nca_make (o : nobj) : res (ncfg * nobj) :=
  match no_body o with
  | None => Err AttributeError
  | Some s =>
      let f := no_set o in
      let p := nca_get_params s in
      let nb := match nc_cfg s with
                | Some d => d
                | None => [("name", VStr "GaussianMixture");
                           ("kernel_kwargs", VDict [("parameters", VVec (tail_of (ns_peaks f * 3) p))]);
                           ("radius", nc_radius s)]
                end in
      let inst :=
        dset "internal_channels" (nat_value (ns_int f)) (dset "external_channels" (nat_value (ns_ext f))
        (dset "hidden_channels" (nat_value (ns_hid f)) (dset "conv_mode" (ns_pm f)
        (dset "kernel_peaks" (nat_value (ns_peaks f)) (dset "kernel_radius" (nc_radius s)
        (dset "dropout_rate" (VNum (ns_drop f)) (dset "activation" (VStr (ns_act f)) (ns_inst f)))))))) in
      Ok (mkNcfg (Some inst) (Some [("name", VStr "InnerMoore")]) None (Some nb) (Some (nc_dt s)) (Some p),
          mkNobj (mkNset (ns_ext f) (ns_int f) (ns_hid f) (ns_pm f) (ns_thr f) (ns_radius f) (ns_peaks f) (ns_act f) (ns_drop f) inst)
                 (Some (set_cfg s nb)))
  end.

(** neural.py:258-263 save_config without an explicit config. *)
Definition nca_save (fs : string -> option ncfg) (o : nobj) (path : string) : res ((string -> option ncfg) * nobj) :=
  let* r := nca_make o in
  Ok (fun q => if String.eqb q (npy path) then Some (fst r) else fs q, snd r).

(** neural.py:339-366 and 326-337 with an object: both read self.weights_layer; the forward pass
    reads self.id_layer. *)
Definition nobj_set_params (o : nobj) (p : list R) : res nobj :=
  match no_body o with
  | None => Err AttributeError
  | Some s => let* s' := nca_set_params s p in Ok (mkNobj (no_set o) (Some s'))
  end.

(** neural.py:326-337. *)
Definition nobj_get_params (o : nobj) : res (list R) :=
  match no_body o with None => Err AttributeError | Some s => Ok (nca_get_params s) end.

(** common.py:316-336, inherited. *)
Definition nobj_forward (training : bool) (keep : nat -> nat -> nat -> nat -> bool) (o : nobj) (u : tensor) : res tensor :=
  match no_body o with
  | None => Err AttributeError
  | Some s => nca_forward training keep s u
  end.
