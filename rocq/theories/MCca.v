(** Model of the dynamics of yuca/ca/continuous.py (CCA) and of its subclasses
    Lenia, CODE, RandomStepCA and MetaCA. *)
From Coq Require Import Reals ZArith List String Bool Arith.
From Verif Require Import Base PyDict Tensor MActivations MKernels MCommon.
Import ListNotations.
Open Scope R_scope.

(** The weight layer: one 1x1 convolution in functional mode (continuous.py:402-411), or
    convolution-ReLU-convolution otherwise (414-424). *)
Inductive wlayer : Type :=
| WConv (l : conv_layer)
| WMlp (l1 l2 : conv_layer).

(** continuous.py:396-424, the weights layer. *)
Definition wl_apply (w : wlayer) (t : tensor) : res tensor :=
  match w with
  | WConv l => conv_apply l t
  | WMlp l1 l2 =>
      let* a := conv_apply l1 t in
      conv_apply l2 (tmap (fun x => Rmax x 0) a)
  end.

(** continuous.py:396-411: functional-mode weights, ones(ext,int,1,1) divided by their sum. *)
Definition init_weights (ext int : nat) (m : pmode) : res wlayer :=
  let ones := build ext int 1 1 (fun _ _ _ _ => 1) in
  let s := tsum ones in
  let* _ := guard (nonzero s) NonFinite in
  Ok (WConv (mkL (tmap (fun x => x / s) ones) 1 0 m)).

(** The fields of a CCA that its dynamics depend on (continuous.py:47-96, 267-354). *)
Record cca : Type := mkCca {
  ext : nat;               (* external_channels *)
  int_ : nat;              (* internal_channels *)
  pm : pmode;              (* conv_mode *)
  thr : R;                 (* alive_threshold *)
  idl : conv_layer;        (* id_layer *)
  nbl : conv_layer;        (* neighborhood_layer *)
  wl : wlayer;             (* weights_layer *)
  gens : list act;         (* genesis_fns *)
  pers : list act;         (* persistence_fns *)
  dt : R                   (* dt *)
}.

(** Assembling a CCA in functional mode: add_identity_kernel, initialize_id_layer,
    add_neighborhood_kernel, initialize_neighborhood_layer, initialize_weight_layer, as
    load_config (continuous.py:112-141) and default_init (271-292) do. *)
Definition make_cca (ext int : nat) (m : pmode) (thr : R) (kid knb : kern)
    (gens pers : list act) (dt : R) : res cca :=
  let* k1 := as_kernel kid in
  let* il := init_layer ext int m k1 in
  let* k2 := as_kernel knb in
  let* nl := init_layer ext int m k2 in
  let* w := init_weights ext int m in
  Ok (mkCca ext int m thr il nl w gens pers dt).

(** First failing activation decides the error (continuous.py:486-520). *)
Fixpoint acts_ok (fns : list act) : res unit :=
  match fns with
  | [] => Ok tt
  | a :: t => let* _ := act_ok a in acts_ok t
  end.

(** continuous.py:486-501 persistence and 503-520 genesis: channel ii goes through fns[ii],
    the results are concatenated along the channel dimension. *)
Definition apply_fns (fns : list act) (n : tensor) : res tensor :=
  let* _ := guard (Nat.eqb (tC n) (List.length fns)) AssertionError in
  let* _ := acts_ok fns in
  Ok (build (tB n) (tC n) (tH n) (tW n)
        (fun b c i j => act_fn (nth c fns AIdentity) (get n b c i j))).

(** continuous.py:533-537, code.py:121-130, random_step_ca.py:60-69. *)
Definition update_universe (c : cca) (identity nbhd : tensor) : res tensor :=
  let* g := apply_fns (gens c) nbhd in
  let* generate := tzip Rmult (tmap (fun x => 1 - x) identity) g in
  let* p := apply_fns (pers c) nbhd in
  let* persist := tzip Rmult identity p in
  let* genper := tzip Rplus generate persist in
  wl_apply (wl c) genper.

(** lenia.py:55-60. *)
Definition lenia_update (c : cca) (identity nbhd : tensor) : res tensor :=
  let* growth := apply_fns (gens c) nbhd in
  wl_apply (wl c) growth.

(** continuous.py:523-539 and lenia.py:55-60 as an argument. *)
Definition updater := cca -> tensor -> tensor -> res tensor.

(** id_conv, neighborhood_conv, then update_universe (continuous.py:555-558). *)
Definition update_of (upd : updater) (c : cca) (u : tensor) : res tensor :=
  ca_update (idl c) (nbl c) (upd c) u.

(** continuous.py:541-564 forward, float32 branch, without the t_count side effect. The
    updater is [update_universe] for CCA and [lenia_update] for Lenia. *)
Definition step (upd : updater) (c : cca) (u : tensor) : res tensor :=
  ca_forward (mask_if (thr c)) (idl c) (nbl c) (upd c) (dt c) u.

(** continuous.py:541-564. *)
Definition cca_forward := step update_universe.
(** lenia.py:55-60 with continuous.py:541-564. *)
Definition lenia_forward := step lenia_update.

(** continuous.py:566-585 get_frame: the list of returned tensors for modes 0 to 4, and
    [None] (Python None) for other modes. *)
Definition get_frame (upd : updater) (c : cca) (u : tensor) (mode : nat) : res (option (list tensor)) :=
  let* identity := conv_apply (idl c) u in
  let* nbhd := conv_apply (nbl c) u in
  let* d := upd c identity nbhd in
  let* new := euler (dt c) u d in
  Ok (match mode with
      | 0%nat => Some [new]
      | 1%nat => Some [new; nbhd]
      | 2%nat => Some [new; d]
      | 3%nat => Some [new; nbhd; d]
      | 4%nat => Some [new; u; nbhd; d]
      | _ => None
      end).

(** continuous.py:546-552 with 525-531: the float16 CPU path. [r16] rounds to float16;
    conversions to float32 are exact. *)
Section Half.
  Variable r16 : R -> R.

  (** continuous.py:525-531 in float16. *)
  Definition update_universe16 (c : cca) (identity nbhd : tensor) : res tensor :=
    let* g := apply_fns (gens c) nbhd in
    let* generate := tzip Rmult (tmap (fun x => 1 - x) identity) g in
    let* p := apply_fns (pers c) nbhd in
    let* persist := tzip Rmult identity p in
    let* genper := tzip Rplus (tmap r16 generate) (tmap r16 persist) in
    let* d := wl_apply (wl c) (tmap r16 genper) in
    Ok (tmap r16 d).

  (** continuous.py:546-552. *)
  Definition cca_forward16 (c : cca) (u : tensor) : res tensor :=
    let* m := mask_if (thr c) u in
    let* i0 := conv_apply (idl c) m in
    let* n0 := conv_apply (nbl c) m in
    let* d := update_universe16 c (tmap r16 i0) (tmap r16 n0) in
    let* new := euler (dt c) m d in
    Ok (tmap r16 new).
End Half.

(** ** A call history on one CCA: forward, get_frame and reset, with t_count
    (continuous.py:98-100, 562). *)
Inductive call : Type := CForward (u : tensor) | CFrame (u : tensor) (mode : nat) | CReset.

(** continuous.py:541-585: one call. *)
Definition run_call (upd : updater) (c : cca) (t_count : R) (k : call) : res R :=
  match k with
  | CForward u => let* _ := step upd c u in Ok (t_count + dt c)
  | CFrame u m => let* _ := get_frame upd c u m in Ok t_count
  | CReset => Ok 0
  end.

(** continuous.py:541-585: a sequence of calls. *)
Fixpoint run_calls (upd : updater) (c : cca) (t_count : R) (ks : list call) : res R :=
  match ks with
  | [] => Ok t_count
  | k :: r => let* t := run_call upd c t_count k in run_calls upd c t r
  end.

(** self.dt is a torch tensor after construction and set_dt (common.py:293-298), but CODE
    and RandomStepCA assign a Python float to it. *)
Inductive pydt : Type := DtTensor (r : R) | DtFloat (r : R).

(** common.py:250-253: float objects have no method item(). *)
Definition get_dt (d : pydt) : res R :=
  match d with DtTensor r => Ok r | DtFloat _ => Err AttributeError end.

(** ** RandomStepCA (random_step_ca.py:71-93). [rand] is the np.random.rand() draw. *)
Record rsca : Type := mkRs {
  rs_core : cca; rs_min : R; rs_max : R; rs_prev : R; rs_time : R;
  rs_dt : pydt             (* the Python object in self.dt; its value is [dt rs_core] *)
}.

(** common.py:293-298. *)
Definition set_core_dt (c : cca) (d : R) : cca :=
  mkCca (ext c) (int_ c) (pm c) (thr c) (idl c) (nbl c) (wl c) (gens c) (pers c) d.

(** random_step_ca.py:60-93. *)
Definition rs_forward (s : rsca) (rand : R) (u : tensor) : res (rsca * tensor) :=
  let c := rs_core s in
  let* m := mask_if (thr c) u in
  let* d := update_of update_universe c m in
  let dt' := rand * (rs_max s - rs_min s) + rs_min s in
  let* new := euler dt' m d in
  Ok (mkRs (set_core_dt c dt') (rs_min s) (rs_max s) (1 * dt') (rs_time s + dt') (DtFloat dt'), new).

(** random_step_ca.py:48-50: constructor constants. *)
Definition rs_init (c : cca) : rsca := mkRs c (5 / 100) (25 / 100) (3 / 10) 0 (DtTensor (dt c)).

(** ** CODE (code.py). *)
Record code_ca : Type := mkCode {
  cd_core : cca; cd_prev : R; cd_max : R; cd_min : R; cd_thr : R; cd_time : R;
  cd_dt : pydt             (* the Python object in self.dt *)
}.

(** code.py:132-144 get_new_grid with self.dt = d. *)
Definition code_grid (c : cca) (d : R) (u : tensor) : res tensor :=
  step update_universe (set_core_dt c d) u.

(** code.py:78-82: the largest relative error over cells positive after the two half steps. *)
Definition rel_error (big small : R) : R :=
  let e := Rabs (big - small) in
  let e1 := e * (1 * (if Rlt_dec 0 small then 1 else 0)) in
  if Rlt_dec 0 e1 then e1 / small else e1.

(** code.py:60-118, the error estimate. *)
Definition code_error (c : cca) (h : R) (u : tensor) : res R :=
  let* big := code_grid c h u in
  let* s1 := code_grid c (h * (1 / 2)) u in
  let* s2 := code_grid c (h * (1 / 2)) s1 in
  let* e := tzip rel_error big s2 in
  let* _ := guard (negb (Nat.eqb (List.length (tdata e)) 0)) RuntimeError in
  Ok (lmax (tdata e)).

(** code.py:62-89: the while loop. Returns the accepted step, if any, and the last error
    value ([None] when the loop body never ran, so step_mse is unbound). *)
Fixpoint code_loop (fuel : nat) (c : cca) (min_dt thr h : R) (u : tensor) (mse : option R)
  : res (option R * option R) :=
  match fuel with
  | O => Err OutOfFuel
  | S f =>
      if Rle_dec min_dt h then
        let* e := code_error c h u in
        if Rlt_dec e thr then Ok (Some h, Some e)
        else code_loop f c min_dt thr (h * (3 / 4)) u (Some e)
      else Ok (None, mse)
  end.

(** code.py:60-118 adaptive_euler and 146-150 forward. *)
Definition code_forward (fuel : nat) (s : code_ca) (u : tensor) : res (code_ca * tensor) :=
  let h0 := Rmin (cd_prev s * 2) (cd_max s) in
  let* r := code_loop fuel (cd_core s) (cd_min s) (cd_thr s) h0 u None in
  let d := match fst r with Some h => h | None => cd_min s end in
  match snd r with
  | None => Err UnboundLocalError
  | Some _ =>
      let* new := code_grid (cd_core s) d u in
      Ok (mkCode (set_core_dt (cd_core s) d) d (cd_max s) (cd_min s) (cd_thr s) (cd_time s + d) (DtFloat d), new)
  end.

(** code.py:46-52: default keyword values. *)
Definition code_init (c : cca) : code_ca :=
  mkCode c (3 / 10) (1 / 2) (1 / 100) (1 / 1000) 0 (DtTensor (dt c)).

(** ** MetaCA (metaca.py:54-76). [None] is the 1-element tensor set by reset, whose shape
    differs from every 4-D grid. *)
Record meta_ca : Type := mkMeta { mt_core : cca; mt_ddt : R; mt_dgrid : option tensor }.

(** torch's check of two operands of the same shape (metaca.py:54-72). *)
Definition same_shape (x y : tensor) : bool :=
  Nat.eqb (tB x) (tB y) && Nat.eqb (tC x) (tC y) && Nat.eqb (tH x) (tH y) && Nat.eqb (tW x) (tW y).

(** metaca.py:54-72. *)
Definition meta_dgrid (d : option tensor) (g : tensor) : tensor :=
  match d with
  | Some x => if same_shape g x then x else tmap (fun _ => 0) g
  | None => tmap (fun _ => 0) g
  end.

(** metaca.py:54-72. *)
Definition meta_forward (s : meta_ca) (g : tensor) : res (meta_ca * tensor) :=
  let c := mt_core s in
  let d0 := meta_dgrid (mt_dgrid s) g in
  let* m := mask_if (thr c) g in
  let* uu := update_of update_universe c m in
  let* d1 := tzip Rplus d0 (tmap (fun x => mt_ddt s * x) uu) in
  let* new := euler (dt c) m d1 in
  Ok (mkMeta c (mt_ddt s) (Some d1), new).

(** metaca.py:74-76. *)
Definition meta_reset (s : meta_ca) : meta_ca := mkMeta (mt_core s) (mt_ddt s) None.

(** metaca.py:51: constructor constant. *)
Definition meta_init (c : cca) : meta_ca := mkMeta c (25 / 100) None.

(** ** Repeated calls *)
(** One RandomStepCA forward per draw in [rands] (random_step_ca.py:89-93). *)
Fixpoint rs_run (s : rsca) (rands : list R) (u : tensor) : res (rsca * tensor) :=
  match rands with
  | [] => Ok (s, u)
  | r :: t => let* p := rs_forward s r u in rs_run (fst p) t (snd p)
  end.

(** [n] CODE forwards (code.py:146-150). *)
Fixpoint code_run (fuel n : nat) (s : code_ca) (u : tensor) : res (code_ca * tensor) :=
  match n with
  | O => Ok (s, u)
  | S k => let* p := code_forward fuel s u in code_run fuel k (fst p) (snd p)
  end.

(** [n] MetaCA forwards (metaca.py:54-72). *)
Fixpoint meta_run (n : nat) (s : meta_ca) (u : tensor) : res (meta_ca * tensor) :=
  match n with
  | O => Ok (s, u)
  | S k => let* p := meta_forward s u in meta_run k (fst p) (snd p)
  end.
