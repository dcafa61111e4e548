(** Specification vocabulary for configurations of neural cellular automata. *)
From Coq Require Import Reals ZArith List String Arith.
From Verif Require Import Base PyDict Tensor MActivations MKernels MCommon MConfig MNca MNcaConf SNca.
Import ListNotations.
Open Scope R_scope.
Open Scope string_scope.

(** The activation module [a] is an instance of the class named [c]. *)
Definition of_class (c : string) (a : act) : Prop :=
  match a with
  | AGaussian _ _ md => c = "Gaussian" /\ md = false
  | ATanh => c = "Tanh" | AReLU => c = "ReLU" | ASiLU => c = "SiLU" | AELU => c = "ELU"
  | ASigmoid => c = "Sigmoid" | AIdentity => c = "Identity"
  | _ => False
  end.

(** A kernel config that can be read: a radius of at least 1, arguments and a known kernel. *)
Definition readable (d kw : dict) (r : nat) (k : tensor) : Prop :=
  dget "radius" d = Some (VInt (Z.of_nat r)) /\ r <> 0%nat /\ dget "kernel_kwargs" d = Some (VDict kw) /\ get_kernel d = Ok k.

(** The neighbourhood layer is the mixture of the stored kernel parameters, and the kernel config,
    if any, has arguments of the same total length. *)
Definition mixture_kept (pk : nat) (s : nca) : Prop := exists r l k,
  nc_radius s = VInt (Z.of_nat r) /\ nc_kpar s = KPVec l /\ get_gaussian_mixture_kernel r l 1 = Ok k /\
  init_layer (nc_ext s) (nc_int s) (nc_pm s) k = Ok (nc_nbl s) /\
  match nc_cfg s with
  | None => List.length l = (3 * pk)%nat
  | Some d => exists kw l' k', readable d kw r k' /\ update_kernel_params KPNone kw = Ok (KPVec l') /\ List.length l' = List.length l
  end.

(** There are no kernel parameters and the layer is the kernel of the config. *)
Definition named_kept (s : nca) : Prop := exists r d k,
  nc_radius s = VInt (Z.of_nat r) /\ nc_kpar s = KPNone /\ nc_cfg s = Some d /\ readable d [] r k /\
  init_layer (nc_ext s) (nc_int s) (nc_pm s) k = Ok (nc_nbl s).

(** An object in working order: settings, keyword arguments and layers belong together. *)
Record coherent (o : nobj) (s : nca) : Prop := mkCoherent {
  co_body : no_body o = Some s;
  co_wf : nca_wf s;
  co_ext : nc_ext s = ns_ext (no_set o);
  co_int : nc_int s = ns_int (no_set o);
  co_hid : nc_hid s = ns_hid (no_set o);
  co_thr : nc_thr s = ns_thr (no_set o);
  co_drop : nc_drop s = ns_drop (no_set o);
  co_range : 0 <= ns_drop (no_set o) <= 1;
  co_mode : as_pmode (ns_pm (no_set o)) = Ok (nc_pm s);
  co_peaks : ns_peaks (no_set o) <> 0%nat;
  co_act : In (ns_act (no_set o)) act_names;
  co_a1 : of_class (ns_act (no_set o)) (nc_a1 s);
  co_a2 : of_class (ns_act (no_set o)) (nc_a2 s);
  co_inst_thr : as_num (query_kwargs "alive_threshold" (VNum (1 / 10)) (ns_inst (no_set o))) = Ok (ns_thr (no_set o));
  co_plain : query_kwargs "ca_config" VNone (ns_inst (no_set o)) = VNone;
  co_id : init_layer (nc_ext s) (nc_int s) (nc_pm s) default_id_kernel = Ok (nc_idl s);
  co_kernel : mixture_kept (ns_peaks (no_set o)) s \/ named_kept s
}.

(** Equal in everything that matters for steps and parameters: all but the spare copy of the
    kernel and the kernel config. *)
Definition nca_alike (s s' : nca) : Prop :=
  s' = mkNca (nc_ext s) (nc_int s) (nc_hid s) (nc_pm s) (nc_thr s) (nc_idl s) (nc_nbl s)
        (nc_w1 s) (nc_a1 s) (nc_w2 s) (nc_a2 s) (nc_w3 s) (nc_drop s) (nc_kern s') (nc_kpar s) (nc_cfg s') (nc_radius s) (nc_dt s).

(** The config gives an integer radius of at least 1 and all its kernel parameters have values in
    its parameter vector: the loaded automaton [s] has as many as the kernel arguments. *)
Definition all_given (cf : ncfg) (s : nca) : Prop := exists nb r,
  n_nb cf = Some nb /\ dget "radius" nb = Some (VInt (Z.of_nat r)) /\ r <> 0%nat /\
  match dget "kernel_kwargs" nb with
  | None | Some (VDict []) => True
  | Some (VDict a) => exists l l', update_kernel_params KPNone a = Ok (KPVec l') /\ nc_kpar s = KPVec l /\ List.length l = List.length l'
  | _ => False
  end.

(** Equal but for the neighbourhood layer, the spare kernel and the kernel config. *)
Definition same_but_layer (s s' : nca) : Prop :=
  s' = mkNca (nc_ext s) (nc_int s) (nc_hid s) (nc_pm s) (nc_thr s) (nc_idl s) (nc_nbl s')
        (nc_w1 s) (nc_a1 s) (nc_w2 s) (nc_a2 s) (nc_w3 s) (nc_drop s) (nc_kern s') (nc_kpar s) (nc_cfg s') (nc_radius s) (nc_dt s).
