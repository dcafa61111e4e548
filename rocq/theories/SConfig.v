(** Specification vocabulary for parameters and configurations. *)
From Coq Require Import Reals ZArith List Arith Bool String.
From Verif Require Import Base PyDict Tensor MActivations MKernels MCommon MCca MConfig SGrid SCca SKern.
Import ListNotations.
Open Scope R_scope.
Open Scope string_scope.

(** Two update functions of the same kind with the same mode, step [dx], amplitudes and
    numbers of parameters; only mu, sigma, omega and coefficients may differ. *)
Definition act_frame (a b : act) : Prop :=
  match a, b with
  | AGaussian _ _ m, AGaussian _ _ m' => m = m'
  | ADoGaussian _ _ x m, ADoGaussian _ _ x' m' => x = x' /\ m = m'
  | ADoubleGaussian u s m, ADoubleGaussian u' s' m' =>
      List.length u = List.length u' /\ List.length s = List.length s' /\ m = m'
  | AMixture gs m, AMixture gs' m' => map (fun g => fst (fst g)) gs = map (fun g => fst (fst g)) gs' /\ m = m'
  | APolynomial c m, APolynomial c' m' => List.length c = List.length c' /\ m = m'
  | ACosOverX2 _ _ m, ACosOverX2 _ _ m' => m = m'
  | _, _ => a = b
  end.

(** Number of entries of the parameter vector that belong to the update functions. *)
Definition fn_count (c : cca) : nat := List.length (fn_params (gens c) ++ fn_params (pers c)).

(** The same rule: every step and every frame of the two automata agree. *)
Definition same_rule (c c' : cca) : Prop :=
  (forall u, cca_forward c' u = cca_forward c u) /\ (forall u, lenia_forward c' u = lenia_forward c u) /\
  (forall u m, get_frame update_universe c' u m = get_frame update_universe c u m).

(** Different rules: some grid is stepped to different results. *)
Definition differ (c c' : cca) : Prop :=
  exists u v v', twf u /\ in_unit u /\ cca_forward c u = Ok v /\ cca_forward c' u = Ok v' /\ v <> v'.

(** The kernel layer in use is the one of the kernel [k]. *)
Definition uses_kernel (c : cca) (k : tensor) : Prop := init_layer (ext c) (int_ c) (pm c) k = Ok (nbl c).

(** Everything of an object except the update functions' parameters and the kernel. *)
Definition kept (o o' : obj) : Prop :=
  let c := o_core o in let c' := o_core o' in
  ext c' = ext c /\ int_ c' = int_ c /\ pm c' = pm c /\ thr c' = thr c /\ idl c' = idl c /\ wl c' = wl c /\ dt c' = dt c /\
  o_radius o' = o_radius o /\ o_peaks o' = o_peaks o /\ o_nb o' = o_nb o /\ o_gen o' = o_gen o /\ o_per o' = o_per o /\
  o_inst o' = o_inst o.

(** A one-plane square kernel of odd side [2r+1] with radial symmetry. *)
Definition odd_kernel (r : nat) (k : tensor) : Prop :=
  shape k = (1, 1, 2 * r + 1, 2 * r + 1)%nat /\ twf k /\ radial r k.

(** What every CCA object satisfies: its layers come from odd square radial kernels, its
    weights are the functional-mode ones, and its channel counts, padding mode, threshold and
    peak count are those of its constructor arguments. *)
Definition obj_inv (o : obj) : Prop :=
  let c := o_core o in let kw := o_inst o in
  (0 < ext c)%nat /\ (0 < int_ c)%nat /\
  (exists r k, odd_kernel r k /\ init_layer (ext c) (int_ c) (pm c) k = Ok (idl c)) /\
  (exists r k, odd_kernel r k /\ uses_kernel c k) /\
  init_weights (ext c) (int_ c) (pm c) = Ok (wl c) /\
  as_pmode (query_kwargs "conv_mode" (VStr "circular") kw) = Ok (pm c) /\
  as_size (query_kwargs "internal_channels" (VInt 1) kw) = Ok (int_ c) /\
  as_size (query_kwargs "external_channels" (VInt 1) kw) = Ok (ext c) /\
  as_num (query_kwargs "alive_threshold" (VNum (1 / 10)) kw) = Ok (thr c) /\
  as_size (query_kwargs "kernel_peaks" (VInt 3) kw) = Ok (o_peaks o).

(** The kernel in use is the Gaussian-mixture kernel of the stored kernel parameters. *)
Definition kernel_synced (o : obj) : Prop :=
  exists r l k, o_radius o = VInt (Z.of_nat r) /\ o_kpar o = KPVec l /\
    get_gaussian_mixture_kernel r l 1 = Ok k /\ uses_kernel (o_core o) k.

(** Kernel configs whose keyword arguments are exactly a mixture's parameter vector. *)
Definition mixture_like (d : dict) : Prop :=
  (dget "name" d = Some (VStr "GaussianMixture") /\
     exists l, dget "kernel_kwargs" d = Some (VDict [("parameters", VVec l)])) \/
  (dget "name" d = Some (VStr "Gaussian") /\
     exists mu sigma, dget "kernel_kwargs" d = Some (VDict [("mu", VNum mu); ("sigma", VNum sigma)])).

(** Update functions given by a GaussianMixture config of (mu, sigma) pairs: amplitudes 1,
    and a number of parameters that is not a multiple of 3. *)
Definition pair_fn (d : dict) (fs : list act) : Prop :=
  dget "name" d = Some (VStr "GaussianMixture") /\
  exists gs, fs = [AMixture gs (truthy (query_kwargs "mode" (VInt 0) d))] /\
    (forall a m s, In (a, m, s) gs -> a = 1) /\ (2 * List.length gs mod 3 <> 0)%nat.

(** An object with one internal channel whose config is complete and up to date: default
    identity kernel, kernel in use equal to the configured one, mixtures of pairs, and
    constructor arguments that name no file. *)
Definition saveable (o : obj) (h : heap) : Prop :=
  let c := o_core o in
  obj_inv o /\ int_ c = 1%nat /\ init_layer (ext c) (int_ c) (pm c) default_id_kernel = Ok (idl c) /\
  (0 < o_peaks o)%nat /\
  query_kwargs "ca_config" VNone (o_inst o) = VNone /\ query_kwargs "input_filepath" VNone (o_inst o) = VNone /\
  exists nb gl pl k r, o_nb o = Some nb /\ o_gen o = Some gl /\ o_per o = Some pl /\ nb <> gl /\ nb <> pl /\ gl <> pl /\
    get_kernel (hget h nb) = Ok k /\ uses_kernel c k /\ (0 < r)%nat /\ o_radius o = VInt (Z.of_nat r) /\
    dget "radius" (hget h nb) = Some (o_radius o) /\ (exists kp, read_kpar KPNone (hget h nb) = Ok kp) /\
    pair_fn (hget h gl) (gens c) /\ pair_fn (hget h pl) (pers c).

(** Random draws of the kernel parameters lie in [0,1). *)
Definition good_rng (rng : nat -> draws) : Prop := forall n i, 0 <= dr_k (rng n) i < 1.

(** What restore_config finds at a path. *)
Definition found (ev : env) (path : string) : option entry :=
  match fs_get (e_fs ev) path with Some e => Some e | None => fs_get (e_fs ev) (join (e_dir ev) path) end.

(** What an object loaded from a configuration without constructor arguments looks like. *)
Definition rule_of (o o' : obj) (ki k : tensor) (g q : list act) (d : R) : Prop :=
  let c := o_core o in let c' := o_core o' in
  obj_inv o' /\ ext c' = ext c /\ int_ c' = int_ c /\ pm c' = pm c /\ thr c' = thr c /\ dt c' = d /\ gens c' = g /\ pers c' = q /\
  init_layer (ext c) (int_ c) (pm c) ki = Ok (idl c') /\ uses_kernel c' k /\ o_peaks o' = o_peaks o /\ o_inst o' = o_inst o.
