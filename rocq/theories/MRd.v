(** Model of yuca/ca/reaction_diffusion.py (RxnDfn, the Gray-Scott model). *)
From Coq Require Import Reals ZArith List String Bool Arith.
From Verif Require Import Base PyDict Tensor MActivations MKernels MCommon.
Import ListNotations.
Open Scope R_scope.
Open Scope string_scope.

(** The fields of an RxnDfn object. The channel counts are 2 (33-34), the padding mode is
    the default circular because super().__init__() gets no keywords (24) (reaction_diffusion.py:23-38, 202-238). *)
Record rd : Type := mkRd {
  rd_idl : conv_layer;            (* id_layer *)
  rd_nbl : conv_layer;            (* neighborhood_layer *)
  rd_idcfg : option dict;         (* id_kernel_config, None unless assigned from outside *)
  rd_cfg : option dict;           (* neighborhood_kernel_config *)
  rd_radius : value;              (* kernel_radius *)
  rd_du : R;                      (* diffusion_u *)
  rd_dv : R;                      (* diffusion_v *)
  rd_f : R;                       (* f *)
  rd_k : R;                       (* k *)
  rd_dt : R;                      (* dt *)
  rd_dx : R                       (* dx *)
}.

(** reaction_diffusion.py:241-266 add_neighborhood_kernel: no reshaping; the kernel is stacked twice. *)
Definition rd_add_kernel (k : option kern) : res tensor :=
  let* t := match k with
            | None => Ok get_laplacian_kernel
            | Some (K4 t) => Ok t
            | Some _ => Err AssertionError
            end in
  let* _ := guard (Nat.eqb (tW t) (tH t)) AssertionError in
  cat0 t t.

(** reaction_diffusion.py:241-266 and 303-322: the neighbourhood layer for a kernel. *)
Definition rd_layer (k : option kern) : res conv_layer :=
  let* t := rd_add_kernel k in init_layer 2 2 Circular t.

(** reaction_diffusion.py:204-207: the default kernel config, with kernel_radius 1 (35). *)
Definition rd_default_cfg : dict :=
  [("name", VStr "LaplacianOfGaussian"); ("kernel_kwargs", VDict [("sigma", VNum (1 / 2))]); ("radius", VInt 1)].

(** reaction_diffusion.py:23-38 __init__ with 202-238 default_init. *)
Definition rd_init : res rd :=
  let* k := get_kernel rd_default_cfg in
  let* nl := rd_layer (Some (K4 k)) in
  let* ik := as_kernel (K4 default_id_kernel) in
  let* il := init_layer 2 2 Circular ik in
  Ok (mkRd il nl None (Some rd_default_cfg) (VInt 1)
        (2 / 100000) (1 / 100000) (620 / 10000) (609 / 10000) (1 / 2) (1 / 330)).

(** reaction_diffusion.py:324-353 update_universe. *)
Definition rd_update (s : rd) (identity nbhd : tensor) : res tensor :=
  let* _ := guard (nonzero (rd_dx s ^ 2)) NonFinite in
  let* _ := guard (Nat.leb 2 (tC identity) && Nat.leb 2 (tC nbhd)) IndexError in
  Ok (build (tB identity) (tC identity) (tH identity) (tW identity) (fun b c i j =>
        let nabla_u := get nbhd b 0 i j / rd_dx s ^ 2 in
        let nabla_v := get nbhd b 1 i j / rd_dx s ^ 2 in
        let u := get identity b 0 i j in
        let v := get identity b 1 i j in
        match c with
        | 0%nat => rd_du s * nabla_u - u * v * v + rd_f s * (1 - u)
        | 1%nat => rd_dv s * nabla_v + u * v * v - (rd_f s + rd_k s) * v
        | _ => 0
        end)).

(** reaction_diffusion.py:360-375 forward; alive_mask (356-358) returns the universe unchanged. *)
Definition rd_forward (s : rd) (u : tensor) : res tensor :=
  ca_forward (fun u => Ok u) (rd_idl s) (rd_nbl s) (rd_update s) (rd_dt s) u.

(** common.py:338-358, inherited. *)
Definition rd_frame (s : rd) (u : tensor) (mode : nat) : res (option (list tensor)) :=
  ca_frame (rd_idl s) (rd_nbl s) (rd_update s) (rd_dt s) u mode.

(** torch.sqrt, finite only for non-negative arguments (reaction_diffusion.py:268-301). *)
Definition fsqrt (x : R) : res R := if Rle_dec 0 x then Ok (sqrt x) else Err NonFinite.

(** Division, finite only for a non-zero divisor (reaction_diffusion.py:268-301). *)
Definition fdiv (x y : R) : res R := let* _ := guard (nonzero y) NonFinite in Ok (x / y).

(** reaction_diffusion.py:268-301 initialize_grid with dim = [h, w]. *)
Definition rd_grid (s : rd) (batch h w : nat) : res tensor :=
  let* sf := fsqrt (rd_f s) in
  let* A := fdiv sf (rd_f s + rd_k s) in
  let* q := fsqrt (A ^ 2 - 4) in
  let* uh3 := fdiv (A - q) (2 * A) in
  let vh3 := sf * (A + q) / 2 in
  Ok (build batch 2 h w (fun _ c _ _ => match c with 0%nat => uh3 | _ => vh3 end)).

(** reaction_diffusion.py:378-385 get_params. *)
Definition rd_get_params (s : rd) : list R := [rd_du s; rd_dv s; rd_f s; rd_k s].

(** reaction_diffusion.py:387-400: the four parameters of the object. *)
Definition rd_with (s : rd) (du dv f k : R) : rd :=
  mkRd (rd_idl s) (rd_nbl s) (rd_idcfg s) (rd_cfg s) (rd_radius s) du dv f k (rd_dt s) (rd_dx s).

(** reaction_diffusion.py:387-400 set_params: the first four entries; indexing a shorter vector raises. *)
Definition rd_set_params (s : rd) (p : list R) : res rd :=
  match p with
  | du :: dv :: f :: k :: _ => Ok (rd_with s du dv f k)
  | _ => Err IndexError
  end.

(** [self.x = torch.tensor(config[key])] with a default (94-122) (reaction_diffusion.py:94-122). *)
Definition rd_read (key : string) (default : R) (c : dict) : res R :=
  match dget key c with Some v => as_num v | None => Ok default end.

(** reaction_diffusion.py:76-125 load_config. The kernel radius attribute is not updated. *)
Definition rd_load (s : rd) (c : dict) : res rd :=
  let* ik := match dget "identity_kernel_config" c with
             | None => as_kernel (K4 default_id_kernel)
             | Some v => let* d := as_dict v in let* k := get_kernel d in as_kernel (K4 k)
             end in
  let* il := init_layer 2 2 Circular ik in
  let* v := dgetk "neighborhood_kernel_config" c in
  let* d := as_dict v in
  let* k := get_kernel d in
  let* nl := rd_layer (Some (K4 k)) in
  let* dt := rd_read "dt" (1 / 2) c in
  let* dx := rd_read "dx" (1 / 330) c in
  let* dk := rd_read "decay_rate" (609 / 100000) c in
  let* fr := rd_read "feed_rate" (620 / 100000) c in
  let* du := rd_read "diffusion_u" (2 / 100000) c in
  let* dv := rd_read "diffusion_v" (1 / 100000) c in
  let* pv := dgetk "params" c in
  let* p := as_vec pv in
  rd_set_params (mkRd il nl (rd_idcfg s) (Some d) (rd_radius s) du dv fr dk dt dx) p.

(** reaction_diffusion.py:156-193 make_config. *)
Definition rd_make_config (s : rd) : dict :=
  [("params", VVec (rd_get_params s));
   ("id_kernel_config", VDict (match rd_idcfg s with Some d => d | None => [("name", VStr "InnerMoore")] end));
   ("neighborhood_kernel_config", VDict (match rd_cfg s with
       | Some d => d
       | None => [("name", VStr "LaplacianOfGaussian"); ("kernel_kwargs", VDict []); ("radius", rd_radius s)]
       end));
   ("dt", VNum (rd_dt s)); ("dx", VNum (rd_dx s));
   ("diffusion_u", VNum (rd_du s)); ("diffusion_v", VNum (rd_dv s));
   ("feed_rate", VNum (rd_f s)); ("decay_rate", VNum (rd_k s))].

(** common.py:260-272 set_kernel_radius; item assignment on None raises TypeError. *)
Definition rd_set_radius (s : rd) (r : value) : res rd :=
  match rd_cfg s with
  | None => Err TypeError
  | Some d =>
      let d' := dset "radius" r d in
      let* k := get_kernel d' in
      let* nl := rd_layer (Some (K4 k)) in
      Ok (mkRd (rd_idl s) nl (rd_idcfg s) (Some d') r (rd_du s) (rd_dv s) (rd_f s) (rd_k s) (rd_dt s) (rd_dx s))
  end.

(** common.py:285-291 set_kernel_config (kernel_params is computed but never used here). *)
Definition rd_set_kernel_config (s : rd) (cfg : dict) : res rd :=
  let* _ := match dget "kernel_kwargs" cfg with
            | Some v => let* kw := as_dict v in update_kernel_params KPNone kw
            | None => Ok KPNone
            end in
  let* r := dgetk "radius" cfg in
  rd_set_radius (mkRd (rd_idl s) (rd_nbl s) (rd_idcfg s) (Some cfg) (rd_radius s)
                   (rd_du s) (rd_dv s) (rd_f s) (rd_k s) (rd_dt s) (rd_dx s)) r.

(** reaction_diffusion.py:55-74 set_dx, set_diffusion_u, set_diffusion_v and common.py:293-298 set_dt. *)
Definition rd_set_dx (s : rd) (x : R) : rd :=
  mkRd (rd_idl s) (rd_nbl s) (rd_idcfg s) (rd_cfg s) (rd_radius s) (rd_du s) (rd_dv s) (rd_f s) (rd_k s) (rd_dt s) x.
(** reaction_diffusion.py:62-67. *)
Definition rd_set_du (s : rd) (x : R) : rd := rd_with s x (rd_dv s) (rd_f s) (rd_k s).
(** reaction_diffusion.py:69-74. *)
Definition rd_set_dv (s : rd) (x : R) : rd := rd_with s (rd_du s) x (rd_f s) (rd_k s).
(** common.py:293-298. *)
Definition rd_set_dt (s : rd) (x : R) : rd :=
  mkRd (rd_idl s) (rd_nbl s) (rd_idcfg s) (rd_cfg s) (rd_radius s) (rd_du s) (rd_dv s) (rd_f s) (rd_k s) x (rd_dx s).

(** Method calls on one object, for statements over all histories (reaction_diffusion.py:55-400). *)
Inductive rd_op : Type :=
| RSetParams (p : list R) | RSetRadius (r : value) | RSetDx (x : R) | RSetDu (x : R) | RSetDv (x : R)
| RSetDt (x : R) | RSetConfig (c : dict) | RLoad (c : dict).

(** reaction_diffusion.py:55-400: one call. *)
Definition rd_run (s : rd) (o : rd_op) : res rd :=
  match o with
  | RSetParams p => rd_set_params s p
  | RSetRadius r => rd_set_radius s r
  | RSetDx x => Ok (rd_set_dx s x)
  | RSetDu x => Ok (rd_set_du s x)
  | RSetDv x => Ok (rd_set_dv s x)
  | RSetDt x => Ok (rd_set_dt s x)
  | RSetConfig c => rd_set_kernel_config s c
  | RLoad c => rd_load s c
  end.

(** reaction_diffusion.py:55-400: a sequence of calls. *)
Fixpoint rd_runs (s : rd) (os : list rd_op) : res rd :=
  match os with
  | [] => Ok s
  | o :: r => let* s' := rd_run s o in rd_runs s' r
  end.
