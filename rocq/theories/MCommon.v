(** Model of yuca/ca/common.py: kernels, convolution layers, alive mask. *)
From Coq Require Import Reals ZArith List String Bool Arith.
From Verif Require Import Base PyDict Tensor MActivations MKernels.
Import ListNotations.
Open Scope R_scope.

(** A kernel argument of rank 2, 3 or 4 (other ranks fail like rank 3) (common.py:84-119, 144-184). *)
Inductive kern : Type :=
| K2 (h w : nat) (d : list R)
| K3 (c h w : nat) (d : list R)
| K4 (t : tensor).

(** common.py:86-119 / 154-184 and continuous.py:358-393: rank-2 kernels are reshaped to
    (1,1,h,w); rank-3 kernels are reshaped to (1,c,h), which fails in the reshape or at the
    rank assertion; non-square kernels fail the assertion. Returns the rank-4 kernel. *)
Definition as_kernel (k : kern) : res tensor :=
  match k with
  | K2 h w d => let* _ := guard (Nat.eqb w h) AssertionError in Ok (mkT 1 1 h w d)
  | K3 c h w d => if Nat.eqb (c * h * w) (c * h) then Err AssertionError else Err RuntimeError
  | K4 t => let* _ := guard (Nat.eqb (tW t) (tH t)) AssertionError in Ok t
  end.

(** The default identity kernel (common.py:100-103, continuous.py:373-376). *)
Definition default_id_kernel : tensor := mkT 1 1 3 3 [0; 0; 0; 0; 1; 0; 0; 0; 0].

(** common.py:126-127, 208-209: number of convolution groups. *)
Definition groups (ext int : nat) : res nat :=
  if Nat.eqb ext 0 then Err ZeroDivisionError
  else if Nat.eqb (int mod ext) 0 then Ok ext else Ok 1%nat.

(** common.py:122-141 initialize_id_layer and 201-220 initialize_neighborhood_layer: a
    bias-free convolution from [ext] to [int] channels whose weight is the given rank-4
    square kernel, expanded to the weight's shape. *)
Definition init_layer (ext int : nat) (m : pmode) (k : tensor) : res conv_layer :=
  let p := ((tW k - 1) / 2)%nat in
  let* g := groups ext int in
  let* w := expand int (ext / g) k in
  Ok (mkL w g p m).

(** common.py:304-313 alive_mask; [universe[:, 3:4]] of a universe with fewer than four
    channels is empty. *)
Definition alive_mask (thr : R) (u : tensor) : res tensor :=
  let mask := build (tB u) (Nat.min 4 (tC u) - 3) (tH u) (tW u)
                (fun b _ i j => if Rlt_dec thr (get u b 3 i j) then 1 else 0) in
  tzip Rmult u mask.

(** The guard of forward: common.py:318-319, continuous.py:543-544, code.py:134-135,
    metaca.py:60-61, random_step_ca.py:73-74. *)
Definition mask_if (thr : R) (u : tensor) : res tensor :=
  if Nat.leb 4 (tC u) then alive_mask thr u else Ok u.

(** torch.clamp(universe + dt * update, 0, 1): common.py:332, continuous.py:560. *)
Definition euler (dt : R) (u upd : tensor) : res tensor :=
  let* s := tzip Rplus u (tmap (fun x => dt * x) upd) in
  Ok (tmap (clamp 0 1) s).

(** common.py:236-243 update_helper: identity and neighbourhood convolutions, then the
    class's update_universe [upd]. *)
Definition ca_update (idl nbl : conv_layer) (upd : tensor -> tensor -> res tensor) (u : tensor) : res tensor :=
  let* identity := conv_apply idl u in
  let* nbhd := conv_apply nbl u in
  upd identity nbhd.

(** common.py:316-336 CA.forward, float32 branch, without the t_count side effect; [msk] is
    the guarded alive mask. continuous.py:541-564 (CCA), code.py:132-144 and
    reaction_diffusion.py:360-375 repeat the same lines. *)
Definition ca_forward (msk : tensor -> res tensor) (idl nbl : conv_layer)
    (upd : tensor -> tensor -> res tensor) (dt : R) (u : tensor) : res tensor :=
  let* m := msk u in
  let* d := ca_update idl nbl upd m in
  euler dt m d.

(** common.py:186-199 initialize_grid. *)
Definition zero_grid (B C H W : nat) : tensor := build B C H W (fun _ _ _ _ => 0).

(** common.py:338-358 CA.get_frame (used by RxnDfn and NCA). *)
Definition ca_frame (idl nbl : conv_layer) (upd : tensor -> tensor -> res tensor) (dt : R)
    (u : tensor) (mode : nat) : res (option (list tensor)) :=
  let* identity := conv_apply idl u in
  let* nbhd := conv_apply nbl u in
  let* d := upd identity nbhd in
  let* new := euler dt u d in
  Ok (match mode with
      | 0%nat => Some [new]
      | 1%nat => Some [new; nbhd]
      | 2%nat => Some [new; d]
      | 3%nat => Some [new; nbhd; d]
      | 4%nat => Some [new; u; nbhd; d]
      | _ => None
      end).

(** torch.cat([x, y], dim=0) (common.py:176-184). *)
Definition cat0 (x y : tensor) : res tensor :=
  let* _ := guard (Nat.eqb (tC x) (tC y) && Nat.eqb (tH x) (tH y) && Nat.eqb (tW x) (tW y)) RuntimeError in
  Ok (mkT (tB x + tB y) (tC x) (tH x) (tW x) (tdata x ++ tdata y)).

(** self.kernel_params: unset, a 0-d array, or a 1-d array (common.py:43-77, 274-283). *)
Inductive kpar : Type := KPNone | KPScalar (r : R) | KPVec (l : list R).

(** common.py:274-283: its entries. *)
Definition kp_flat (k : kpar) : list R :=
  match k with KPNone => [] | KPScalar r => [r] | KPVec l => l end.

(** np.array(value) of a keyword argument that is a number or a vector (common.py:274-283). *)
Definition np_array (v : value) : res kpar :=
  match v with
  | VNum r => Ok (KPScalar r)
  | VInt z => Ok (KPScalar (IZR z))
  | VVec l => Ok (KPVec l)
  | _ => Err Unmodelled
  end.

(** common.py:274-283 update_kernel_params (neural.py:84-93 repeats it): the first keyword
    keeps its rank, np.append flattens from the second on. *)
Fixpoint update_kernel_params (acc : kpar) (kw : dict) : res kpar :=
  match kw with
  | [] => Ok acc
  | (_, v) :: t =>
      let* a := np_array v in
      update_kernel_params (match acc with KPNone => a | _ => KPVec (kp_flat acc ++ kp_flat a) end) t
  end.

(** params[start:stop].reshape(shape): the first [n] entries, or ValueError (continuous.py:643-686). *)
Definition take_exact (n : nat) (p : list R) : res (list R * list R) :=
  let* _ := guard (Nat.leb n (List.length p)) ValueError in
  Ok (firstn n p, skipn n p).

(** Stacking one kernel per internal channel (neural.py:102-114, continuous.py:274-289). *)
Fixpoint stack_kernels (n : nat) (k : tensor) : res tensor :=
  match n with
  | O => Err RuntimeError   (* add_neighborhood_kernel(None): torch.tensor(None) fails *)
  | S O => Ok k
  | S m => let* t := stack_kernels m k in cat0 t k
  end.

(** as the radius of get_gaussian_mixture_kernel (continuous.py:643-686 and common.py:274-283). *)
Definition mixture_kernel_of (radius : value) (kp : list R) : res tensor :=
  let* r := as_size radius in get_gaussian_mixture_kernel r kp 1.
