(** Model of yuca/ca/neural.py (NCA). *)
From Coq Require Import Reals ZArith List String Bool Arith.
From Verif Require Import Base PyDict Tensor MActivations MKernels MCommon.
Import ListNotations.
Open Scope R_scope.
Open Scope string_scope.

(** neural.py:40-48 activation_dict and 64-72: unknown names and non-strings fall back to Gaussian.
    Instances are created without arguments (273, 280). *)
Definition nca_act (v : value) : act :=
  match v with
  | VStr s =>
      if String.eqb s "Tanh" then ATanh
      else if String.eqb s "ReLU" then AReLU
      else if String.eqb s "SiLU" then ASiLU
      else if String.eqb s "ELU" then AELU
      else if String.eqb s "Sigmoid" then ASigmoid
      else if String.eqb s "Identity" then AIdentity
      else AGaussian 0 (1 / 10) false
  | _ => AGaussian 0 (1 / 10) false
  end.

(** The fields of an NCA its dynamics and parameters depend on. The activation modules of
    the weight layer hold parameters of their own when they are Gaussians, so they are
    kept separately ([nc_a1], [nc_a2]) (neural.py:59-121, 265-291). *)
Record nca : Type := mkNca {
  nc_ext : nat; nc_int : nat; nc_hid : nat;
  nc_pm : pmode; nc_thr : R;
  nc_idl : conv_layer; nc_nbl : conv_layer;
  nc_w1 : tensor; nc_a1 : act; nc_w2 : tensor; nc_a2 : act; nc_w3 : tensor;
  nc_drop : R;
  nc_kern : tensor;            (* neighborhood_kernels *)
  nc_kpar : kpar;              (* kernel_params *)
  nc_cfg : option dict;        (* neighborhood_kernel_config *)
  nc_radius : value;           (* kernel_radius *)
  nc_dt : R
}.

(** neural.py:267-286: the 1x1 convolutions. *)
Definition pt_conv (m : pmode) (w : tensor) : conv_layer := mkL w 1 0 m.

(** nn.Dropout in training mode: [keep] is the Bernoulli draw per element; kept elements
    are scaled by 1/(1-p), and everything is zero for p = 1. In evaluation mode dropout is
    the identity (neural.py:265-291). *)
Definition dropout (training : bool) (keep : nat -> nat -> nat -> nat -> bool) (p : R) (t : tensor) : tensor :=
  if training then
    build (tB t) (tC t) (tH t) (tW t) (fun b c i j =>
      if Req_EM_T p 1 then 0 else if keep b c i j then get t b c i j * (1 / (1 - p)) else 0)
  else t.

(** neural.py:267-286 weights_layer and 303-309 update_universe. *)
Definition nca_update (training : bool) (keep : nat -> nat -> nat -> nat -> bool) (s : nca)
    (identity nbhd : tensor) : res tensor :=
  let* x := tcat identity nbhd in
  let* h1 := conv_apply (pt_conv (nc_pm s) (nc_w1 s)) x in
  let* a1 := act_apply (nc_a1 s) h1 in
  let* h2 := conv_apply (pt_conv (nc_pm s) (nc_w2 s)) (dropout training keep (nc_drop s) a1) in
  let* a2 := act_apply (nc_a2 s) h2 in
  let* h3 := conv_apply (pt_conv (nc_pm s) (nc_w3 s)) a2 in
  act_apply ATanh h3.

(** common.py:316-336, inherited. *)
Definition nca_forward (training : bool) (keep : nat -> nat -> nat -> nat -> bool) (s : nca) (u : tensor) : res tensor :=
  ca_forward (mask_if (nc_thr s)) (nc_idl s) (nc_nbl s) (nca_update training keep s) (nc_dt s) u.

(** common.py:338-357, inherited. *)
Definition nca_frame (training : bool) (keep : nat -> nat -> nat -> nat -> bool) (s : nca) (u : tensor) (mode : nat)
  : res (option (list tensor)) :=
  ca_frame (nc_idl s) (nc_nbl s) (nca_update training keep s) (nc_dt s) u mode.

(** neural.py:265-291 initialize_weight_layer: torch's random weights [r1 r2 r3] are squared, and so
    are the parameters of the activation modules, which named_parameters also yields. *)
Definition sq (x : R) : R := x ^ 2.

(** neural.py:265-291. *)
Definition act_squared (a : act) : act :=
  match a with AGaussian m s md => AGaussian (sq m) (sq s) md | _ => a end.

(** neural.py:265-291. *)
Definition nca_weights (e n h : nat) (r1 r2 r3 : tensor) : res (tensor * tensor * tensor) :=
  let fits (t : tensor) (o i : nat) := Nat.eqb (tB t) o && Nat.eqb (tC t) i && Nat.eqb (tH t) 1 && Nat.eqb (tW t) 1 in
  let* _ := guard (fits r1 h (e + n)%nat && fits r2 h h && fits r3 e h) RuntimeError in
  Ok (tmap sq r1, tmap sq r2, tmap sq r3).

(** neural.py:104-106: the default kernel parameters, [1/p, 0.5, 0.15] repeated p times. *)
Fixpoint default_kparams (k : nat) (p : R) : list R :=
  match k with O => [] | S m => 1 / p :: 1 / 2 :: 15 / 100 :: default_kparams m p end.

(** neural.py:59-82 __init__ without ca_config and 95-121 default_init. [peaks] is kernel_peaks. *)
Definition nca_init (e n h : nat) (m : pmode) (thr : R) (radius peaks : nat) (actv : value) (drop : R)
    (r1 r2 r3 : tensor) : res nca :=
  let* il := init_layer e n m default_id_kernel in
  let* _ := guard (negb (Nat.eqb peaks 0)) ZeroDivisionError in
  let kp := default_kparams peaks (INR peaks) in
  let* k := get_gaussian_mixture_kernel radius kp 1 in
  let* ks := stack_kernels n k in
  let* kk := as_kernel (K4 ks) in
  let* nl := init_layer e n m kk in
  let* _ := guard ((if Rle_dec 0 drop then true else false) && (if Rle_dec drop 1 then true else false)) ValueError in
  let* w := nca_weights e n h r1 r2 r3 in
  let a := act_squared (nca_act actv) in
  Ok (mkNca e n h m thr il nl (fst (fst w)) a (snd (fst w)) a (snd w) drop kk (KPVec kp) None (VInt (Z.of_nat radius)) (1 / 10)).

(** neural.py:326-337 get_params: parameters of the weight layer in module order (conv, activation,
    conv, activation, conv), then kernel_params. *)
Definition nca_get_params (s : nca) : list R :=
  (tdata (nc_w1 s) ++ act_params (nc_a1 s) ++ tdata (nc_w2 s) ++ act_params (nc_a2 s) ++ tdata (nc_w3 s) ++ kp_flat (nc_kpar s))%list.

(** neural.py:339-366: one tensor. *)
Definition set_tensor (w : tensor) (p : list R) : res (tensor * list R) :=
  let* q := take_exact (List.length (tdata w)) p in
  Ok (mkT (tB w) (tC w) (tH w) (tW w) (fst q), snd q).

(** The activation modules NCA uses: only a Gaussian has parameters (neural.py:339-366). *)
Definition set_nact (a : act) (p : list R) : res (act * list R) :=
  match a with
  | AGaussian _ _ md =>
      let* q := take_exact 1 p in
      let* r := take_exact 1 (snd q) in
      Ok (AGaussian (nth 0 (fst q) 0) (nth 0 (fst r) 0) md, snd r)
  | _ => Ok (a, p)
  end.

(** neural.py:339-366 set_params. The kernel slice params[start:stop] is cut short without error when
    the vector is too short; kernel_params of rank 0 has no shape[0]. *)
Definition nca_set_params (s : nca) (p : list R) : res nca :=
  let* q1 := set_tensor (nc_w1 s) p in
  let* q2 := set_nact (nc_a1 s) (snd q1) in
  let* q3 := set_tensor (nc_w2 s) (snd q2) in
  let* q4 := set_nact (nc_a2 s) (snd q3) in
  let* q5 := set_tensor (nc_w3 s) (snd q4) in
  let upd kk nl kp := mkNca (nc_ext s) (nc_int s) (nc_hid s) (nc_pm s) (nc_thr s) (nc_idl s) nl
        (fst q1) (fst q2) (fst q3) (fst q4) (fst q5) (nc_drop s) kk kp (nc_cfg s) (nc_radius s) (nc_dt s) in
  match nc_kpar s with
  | KPNone => Ok (upd (nc_kern s) (nc_nbl s) KPNone)
  | KPScalar _ => Err IndexError
  | KPVec l =>
      let kp := firstn (List.length l) (snd q5) in
      let* k := mixture_kernel_of (nc_radius s) kp in
      let* kk := as_kernel (K4 k) in
      let* nl := init_layer (nc_ext s) (nc_int s) (nc_pm s) kk in
      Ok (upd kk nl (KPVec kp))
  end.

(** neural.py:124-132 set_kernel_config: the stored kernel changes, the layer does not. *)
Definition nca_set_kernel_config (s : nca) (cfg : dict) : res nca :=
  let* r := dgetk "radius" cfg in
  let* k := get_kernel cfg in
  let* kp := match dget "kernel_kwargs" cfg with
             | Some v => let* kw := as_dict v in update_kernel_params KPNone kw
             | None => Ok (nc_kpar s)
             end in
  let* kk := as_kernel (K4 k) in
  Ok (mkNca (nc_ext s) (nc_int s) (nc_hid s) (nc_pm s) (nc_thr s) (nc_idl s) (nc_nbl s)
        (nc_w1 s) (nc_a1 s) (nc_w2 s) (nc_a2 s) (nc_w3 s) (nc_drop s) kk kp (Some cfg) r (nc_dt s)).

(** common.py:260-272 set_kernel_radius on an NCA. *)
Definition nca_set_radius (s : nca) (r : value) : res nca :=
  match nc_cfg s with
  | None => Err TypeError
  | Some d =>
      let d' := dset "radius" r d in
      let* k := get_kernel d' in
      let* kk := as_kernel (K4 k) in
      let* nl := init_layer (nc_ext s) (nc_int s) (nc_pm s) kk in
      Ok (mkNca (nc_ext s) (nc_int s) (nc_hid s) (nc_pm s) (nc_thr s) (nc_idl s) nl
            (nc_w1 s) (nc_a1 s) (nc_w2 s) (nc_a2 s) (nc_w3 s) (nc_drop s) kk (nc_kpar s) (Some d') r (nc_dt s))
  end.

(** common.py:293-298 set_dt. *)
Definition nca_set_dt (s : nca) (x : R) : nca :=
  mkNca (nc_ext s) (nc_int s) (nc_hid s) (nc_pm s) (nc_thr s) (nc_idl s) (nc_nbl s)
        (nc_w1 s) (nc_a1 s) (nc_w2 s) (nc_a2 s) (nc_w3 s) (nc_drop s) (nc_kern s) (nc_kpar s) (nc_cfg s) (nc_radius s) x.

(** Public calls that change an NCA (neural.py:84-366). *)
Inductive nca_op : Type :=
| NSetParams (p : list R) | NSetConfig (d : dict) | NSetRadius (r : value) | NSetDt (x : R).

(** neural.py:84-366: one call. *)
Definition nca_run (s : nca) (o : nca_op) : res nca :=
  match o with
  | NSetParams p => nca_set_params s p
  | NSetConfig d => nca_set_kernel_config s d
  | NSetRadius r => nca_set_radius s r
  | NSetDt x => Ok (nca_set_dt s x)
  end.

(** neural.py:84-366: a sequence of calls. *)
Fixpoint nca_runs (s : nca) (os : list nca_op) : res nca :=
  match os with [] => Ok s | o :: t => let* s' := nca_run s o in nca_runs s' t end.
