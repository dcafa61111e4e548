(** Theorems about the Gray-Scott automaton: parts of C01, C02, C05-C07 and properties C36-C38. *)
From Coq Require Import Reals Lra Lia List Arith Bool ZArith String.
From Verif Require Import Base PyDict Tensor MActivations MKernels MCommon MCca MRd SGrid SCca SKern SRd PTensor PStep PCca PSym PDyn PEqv PKern PKernX PRd.
Import ListNotations.
Open Scope R_scope.
Open Scope string_scope.

(** A new object exists, and so do reachable states with changed kernel and parameters. *)
Example rd_exists : exists s, rd_init = Ok s.
Proof. exact rd_init_ok. Qed.

Example rd_reachable_example : exists s, rd_reachable (fun o => log_op o /\ id_op o) s /\ rd_du s = 3 /\ rd_radius s = VInt 3.
Proof.
  destruct rd_radius_lost as (s0 & s & s' & H0 & H1 & _ & Hr & _).
  exists (rd_set_du s 3). split; [|split; [reflexivity|exact Hr]].
  exists s0, [RSetRadius (VInt 3); RSetDu 3]. split; [exact H0|]. split; [repeat constructor|].
  cbn [rd_runs rd_run]. rewrite H1. reflexivity.
Qed.

(** ** C01 *)
Theorem C01_rd s n u u' : iter_res (rd_forward s) (S n) u = Ok u' -> in_unit u'.
Proof. exact (iter_in_unit (rd_forward s) n (rd_in_unit s) u u'). Qed.

Theorem C01_rd_frame s u mode new l : rd_frame s u mode = Ok (Some (new :: l)) -> in_unit new.
Proof. exact (rd_frame_in_unit s u mode new l). Qed.

(** ** C02 *)
Theorem C02_rd P s n u u' : rd_reachable P s -> twf u -> iter_res (rd_forward s) n u = Ok u' -> shape u' = shape u /\ twf u'.
Proof. exact (fun Hr => iter_shape (rd_forward s) (fun u u' => rd_shape s u u' (rd_inv_layers s (rd_reach_inv P s Hr))) n u u'). Qed.

Theorem C02_rd_accepts P s u : rd_reachable P s -> twf u ->
  (exists u', rd_forward s u = Ok u') <->
  (tC u = 2%nat /\ (0 < tH u)%nat /\ (0 < tW u)%nat /\ fits (rd_idl s) u /\ fits (rd_nbl s) u /\ rd_dx s <> 0).
Proof. exact (rd_accepts P s u). Qed.

(** ** C05-C07 *)
Theorem C05_rd P s dy dx n u : rd_reachable P s -> twf u -> (0 < tH u)%nat -> (0 < tW u)%nat ->
  iter_res (rd_forward s) n (roll dy dx u) = rmap (roll dy dx) (iter_res (rd_forward s) n u).
Proof. exact (rd_roll P s dy dx n u). Qed.

Theorem C06_rd P s n u : rd_reachable P s -> twf u -> (0 < tH u)%nat -> (0 < tW u)%nat ->
  iter_res (rd_forward s) n (flip_v u) = rmap flip_v (iter_res (rd_forward s) n u) /\
  iter_res (rd_forward s) n (flip_h u) = rmap flip_h (iter_res (rd_forward s) n u) /\
  iter_res (rd_forward s) n (transpose u) = rmap transpose (iter_res (rd_forward s) n u).
Proof. exact (rd_flips P s n u). Qed.

Theorem C07_rd P s u k : rd_reachable P s -> twf u -> (k < tB u)%nat ->
  rd_forward s (batch_elem k u) = rmap (batch_elem k) (rd_forward s u).
Proof. exact (rd_batch P s u k). Qed.

(** ** C36 The initial grid *)
Theorem C36_equilibrium (P : rd_op -> Prop) s B H W n : (forall o, P o -> log_op o /\ id_op o) -> rd_reachable P s ->
  0 < rd_f s -> 0 <= rd_k s -> 2 * (rd_f s + rd_k s) <= sqrt (rd_f s) ->
  exists g, rd_grid s B H W = Ok g /\ shape g = (B, 2, H, W)%nat /\ in_unit g /\
   (rd_dx s <> 0 -> (cl_p (rd_nbl s) <= H)%nat -> (cl_p (rd_nbl s) <= W)%nat -> (0 < H)%nat -> (0 < W)%nat ->
    iter_res (rd_forward s) n g = Ok g).
Proof.
  exact (fun HP Hr => match rd_plain_id P s HP Hr with conj A (conj B' C) => rd_equilibrium s B H W n A B' C end).
Qed.

(** The grid is constant in space, both species present and the reaction terms vanish. *)
Theorem C36_values s B H W : 0 < rd_f s -> 0 <= rd_k s -> 2 * (rd_f s + rd_k s) <= sqrt (rd_f s) ->
  exists u0 v0, rd_grid s B H W = Ok (build B 2 H W (fun _ c _ _ => match c with 0%nat => u0 | _ => v0 end)) /\
    react_u (rd_f s) u0 v0 = 0 /\ react_v (rd_f s) (rd_k s) u0 v0 = 0 /\ 0 <= u0 <= 1 /\ 0 < v0 <= 1.
Proof. exact (rd_grid_ok s B H W). Qed.

Theorem C36_outside s B H W : 0 <= rd_k s -> ~ (0 < rd_f s /\ 2 * (rd_f s + rd_k s) <= sqrt (rd_f s)) ->
  rd_grid s B H W = Err NonFinite.
Proof. exact (rd_grid_outside s B H W). Qed.

(** The default parameters lie in the region. *)
Theorem C36_default s : rd_init = Ok s -> 0 < rd_f s /\ 0 <= rd_k s /\ 2 * (rd_f s + rd_k s) <= sqrt (rd_f s) /\ rd_dx s <> 0.
Proof. exact (rd_default_region s). Qed.

Example C36_outside_example : exists s, rd_f s = 1 /\ rd_k s = 1 /\ ~ (0 < rd_f s /\ 2 * (rd_f s + rd_k s) <= sqrt (rd_f s)).
Proof.
  exists (mkRd (mkL default_id_kernel 1 1 Circular) (mkL default_id_kernel 1 1 Circular) None None VNone 1 1 1 1 1 1).
  split; [reflexivity|]. split; [reflexivity|]. cbn [rd_f rd_k]. rewrite sqrt_1. lra.
Qed.

(** ** C37 Diffusion *)
Theorem C37_totals (P : rd_op -> Prop) s u d b : (forall o, P o -> log_op o /\ id_op o) -> rd_reachable P s -> twf u ->
  ca_update (rd_idl s) (rd_nbl s) (rd_update s) u = Ok d -> (b < tB u)%nat ->
  plane_total d b 0 = rsum (tH u) (fun i => rsum (tW u) (fun j => react_u (rd_f s) (get u b 0 i j) (get u b 1 i j))) /\
  plane_total d b 1 = rsum (tH u) (fun i => rsum (tW u) (fun j => react_v (rd_f s) (rd_k s) (get u b 0 i j) (get u b 1 i j))).
Proof. exact (fun HP Hr => match rd_plain_id P s HP Hr with conj A (conj B C) => rd_totals s u d b A B C end). Qed.

(** Each cell: diffusion rate times the weighted neighbour sum over dx^2, plus the reaction. *)
Theorem C37_terms (P : rd_op -> Prop) s u d cfg k r b i j : (forall o, P o -> id_op o) -> rd_reachable P s -> twf u ->
  rd_cfg s = Some cfg -> get_kernel cfg = Ok k -> tH k = (2 * r + 1)%nat ->
  ca_update (rd_idl s) (rd_nbl s) (rd_update s) u = Ok d -> (b < tB u)%nat -> (i < tH u)%nat -> (j < tW u)%nat ->
  get d b 0 i j = rd_du s * (toroidal_sum r (tH u) (tW u) (fun y x => get k 0 0 y x) (get u b 0) i j / rd_dx s ^ 2)
                  + react_u (rd_f s) (get u b 0 i j) (get u b 1 i j) /\
  get d b 1 i j = rd_dv s * (toroidal_sum r (tH u) (tW u) (fun y x => get k 0 0 y x) (get u b 1) i j / rd_dx s ^ 2)
                  + react_v (rd_f s) (rd_k s) (get u b 0 i j) (get u b 1 i j).
Proof. exact (fun HP Hr => rd_terms s u d cfg k r b i j (rd_reach_inv P s Hr) (rd_reach_id P s HP Hr)). Qed.

(** ** C38 Configs; C26 parameters of RxnDfn *)
Theorem C38_round (P : rd_op -> Prop) s s0 : (forall o, P o -> id_op o) -> rd_reachable P s -> rd_idcfg s0 = None ->
  exists s', rd_load s0 (rd_make_config s) = Ok s' /\ rd_get_params s' = rd_get_params s /\
    rd_dt s' = rd_dt s /\ rd_dx s' = rd_dx s /\ (forall u, rd_forward s' u = rd_forward s u) /\
    rd_make_config s' = rd_make_config s /\ rd_radius s' = rd_radius s0.
Proof. exact (fun HP Hr => rd_config_round s s0 (rd_reach_inv P s Hr) (rd_reach_id P s HP Hr)). Qed.

Theorem C38_radius_lost_refuted : exists s0 s s', rd_init = Ok s0 /\ rd_set_radius s0 (VInt 3) = Ok s /\ rd_load s0 (rd_make_config s) = Ok s' /\
  rd_radius s = VInt 3 /\ rd_radius s' = VInt 1 /\ cl_p (rd_nbl s') = 3%nat.
Proof. exact rd_radius_lost. Qed.

Theorem C38_load s c s' : rd_load s c = Ok s' ->
  (dget "dt" c = None -> rd_dt s' = 1 / 2) /\ (dget "dx" c = None -> rd_dx s' = 1 / 330) /\
  (forall x, dget "dt" c = Some (VNum x) -> rd_dt s' = x) /\ (forall x, dget "dx" c = Some (VNum x) -> rd_dx s' = x) /\
  (forall p, dget "params" c = Some (VVec p) -> rd_get_params s' = firstn 4 p).
Proof. exact (rd_load_defaults s c s'). Qed.

Theorem C26_rd s p : rd_set_params s p = (if Nat.ltb (List.length p) 4 then Err IndexError
    else Ok (mkRd (rd_idl s) (rd_nbl s) (rd_idcfg s) (rd_cfg s) (rd_radius s) (nth 0 p 0) (nth 1 p 0) (nth 2 p 0) (nth 3 p 0) (rd_dt s) (rd_dx s)))
  /\ (forall s', rd_set_params s p = Ok s' -> rd_get_params s' = firstn 4 p)
  /\ rd_set_params s (rd_get_params s) = Ok s.
Proof. exact (conj (rd_set_params_total s p) (conj (rd_params_round s p) (rd_params_self s))). Qed.

(** set_kernel_radius: the layer is rebuilt for the new radius, nothing else changes. *)
Theorem C33_rd s r s' : rd_set_radius s r = Ok s' ->
  exists d k q, rd_cfg s = Some d /\ get_kernel (dset "radius" r d) = Ok k /\
    shape k = (1, 1, 2 * q + 1, 2 * q + 1)%nat /\ twf k /\ radial q k /\
    init_layer 2 2 Circular k = Ok (rd_nbl s') /\
    s' = mkRd (rd_idl s) (rd_nbl s') (rd_idcfg s) (Some (dset "radius" r d)) r (rd_du s) (rd_dv s) (rd_f s) (rd_k s) (rd_dt s) (rd_dx s).
Proof. exact (set_radius_facts s r s'). Qed.

Theorem C33_rd_none s r : rd_cfg s = None -> rd_set_radius s r = Err TypeError.
Proof. exact (rd_radius_none s r). Qed.

Print Assumptions C01_rd.
Print Assumptions C01_rd_frame.
Print Assumptions C02_rd.
Print Assumptions C02_rd_accepts.
Print Assumptions C05_rd.
Print Assumptions C06_rd.
Print Assumptions C07_rd.
Print Assumptions C36_equilibrium.
Print Assumptions C36_values.
Print Assumptions C36_outside.
Print Assumptions C36_default.
Print Assumptions C37_totals.
Print Assumptions C37_terms.
Print Assumptions C38_round.
Print Assumptions C38_radius_lost_refuted.
Print Assumptions C38_load.
Print Assumptions C26_rd.
Print Assumptions C33_rd.
Print Assumptions C33_rd_none.
