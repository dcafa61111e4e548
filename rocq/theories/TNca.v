(** Theorems about neural cellular automata: parts of C01, C02, C05-C07, C26, C33 and property C42. *)
From Coq Require Import Reals Lra Lia List Arith Bool ZArith String.
From Verif Require Import Base PyDict Tensor MActivations MKernels MCommon MCca MNca SGrid SCca SNca PTensor PStep PCca PSym PDyn PEqv PKern PKernX PRd PNca.
Import ListNotations.
Open Scope R_scope.
Open Scope string_scope.

(** Constructed automata: what they consist of, and that they exist. *)
Theorem C42_constructed e n h m th radius peaks actv drop r1 r2 r3 s :
  (0 < e)%nat -> (0 < n)%nat -> (0 < h)%nat -> twf r1 -> twf r2 -> twf r3 ->
  nca_init e n h m th radius peaks actv drop r1 r2 r3 = Ok s ->
  nca_wf s /\ nc_ext s = e /\ nc_int s = n /\ nc_hid s = h /\ nc_thr s = th /\ nc_pm s = m /\ nc_dt s = 1 / 10 /\ nc_drop s = drop /\
  0 <= drop <= 1 /\
  cl_m (nc_idl s) = m /\ cl_m (nc_nbl s) = m /\ cl_p (nc_nbl s) = radius /\
  init_layer e n m default_id_kernel = Ok (nc_idl s) /\
  (exists k, get_gaussian_mixture_kernel radius (default_kparams peaks (INR peaks)) 1 = Ok k /\ init_layer e n m k = Ok (nc_nbl s)) /\
  nc_kpar s = KPVec (default_kparams peaks (INR peaks)) /\ nc_radius s = VInt (Z.of_nat radius) /\ nc_cfg s = None /\
  nc_w1 s = tmap sq r1 /\ nc_w2 s = tmap sq r2 /\ nc_w3 s = tmap sq r3 /\
  nc_a1 s = act_squared (nca_act actv) /\ nc_a2 s = act_squared (nca_act actv) /\ peaks <> 0%nat.
Proof. exact (nca_init_facts e n h m th radius peaks actv drop r1 r2 r3 s). Qed.

Theorem C42_constructible e n h m th radius peaks actv drop r1 r2 r3 :
  (0 < e)%nat -> (0 < n)%nat -> radius <> 0%nat -> peaks <> 0%nat -> 0 <= drop <= 1 ->
  shape r1 = (h, e + n, 1, 1)%nat -> shape r2 = (h, h, 1, 1)%nat -> shape r3 = (e, h, 1, 1)%nat ->
  exists s, nca_init e n h m th radius peaks actv drop r1 r2 r3 = Ok s.
Proof. exact (nca_init_ok e n h m th radius peaks actv drop r1 r2 r3). Qed.

(** ** C01 *)
Theorem C01_nca tr keep s n u u' : iter_res (nca_forward tr keep s) (S n) u = Ok u' -> in_unit u'.
Proof. exact (iter_in_unit (nca_forward tr keep s) n (nca_in_unit tr keep s) u u'). Qed.

Theorem C01_nca_frame tr keep s u mode new l : nca_frame tr keep s u mode = Ok (Some (new :: l)) -> in_unit new.
Proof. exact (ca_frame_in_unit _ _ _ _ u mode new l). Qed.

(** ** C02 *)
Theorem C02_nca tr keep s n u u' : nca_wf s -> twf u -> iter_res (nca_forward tr keep s) n u = Ok u' -> shape u' = shape u /\ twf u'.
Proof. exact (fun Hs => iter_shape (nca_forward tr keep s) (fun u u' => nca_shape tr keep s u u' Hs) n u u'). Qed.

Theorem C02_nca_accepts keep s u : nca_wf s -> twf u ->
  (exists u', nca_forward false keep s u = Ok u') <->
  (tC u = nc_ext s /\ nc_int s = nc_ext s /\ (0 < tH u)%nat /\ (0 < tW u)%nat /\ fits (nc_idl s) u /\ fits (nc_nbl s) u /\
   act_ok (nc_a1 s) = Ok tt /\ act_ok (nc_a2 s) = Ok tt).
Proof. exact (nca_accepts keep s u). Qed.

(** An NCA whose internal and external channel counts differ never steps. *)
Theorem C02_nca_bad_channels tr keep s u : nca_wf s -> twf u -> nc_int s <> nc_ext s -> nca_forward tr keep s u = Err RuntimeError.
Proof. exact (nca_bad_channels tr keep s u). Qed.

Example C02_nca_example : nca_wf ex_nca /\ twf ex_cell /\ exists u', nca_forward false (fun _ _ _ _ => true) ex_nca ex_cell = Ok u'.
Proof. exact (conj ex_nca_wf (conj eq_refl (ex_nca_runs false _))). Qed.

(** ** C05-C07, evaluation mode *)
Theorem C05_nca P e n h s keep dy dx q u : nca_reachable P e n h Circular s -> twf u -> (0 < tH u)%nat -> (0 < tW u)%nat ->
  iter_res (nca_forward false keep s) q (roll dy dx u) = rmap (roll dy dx) (iter_res (nca_forward false keep s) q u).
Proof. exact (nca_reach_roll P e n h s keep dy dx q u). Qed.

Theorem C06_nca P e n h m s keep q u : nca_reachable P e n h m s -> twf u -> (0 < tH u)%nat -> (0 < tW u)%nat ->
  iter_res (nca_forward false keep s) q (flip_v u) = rmap flip_v (iter_res (nca_forward false keep s) q u) /\
  iter_res (nca_forward false keep s) q (flip_h u) = rmap flip_h (iter_res (nca_forward false keep s) q u) /\
  iter_res (nca_forward false keep s) q (transpose u) = rmap transpose (iter_res (nca_forward false keep s) q u).
Proof. exact (nca_flips P e n h m s keep q u). Qed.

Theorem C07_nca keep s u k : nca_wf s -> twf u -> (k < tB u)%nat ->
  nca_forward false keep s (batch_elem k u) = rmap (batch_elem k) (nca_forward false keep s u).
Proof. exact (nca_batch keep s u k). Qed.

Definition ex_w (o i : nat) : tensor := build o i 1 1 (fun _ _ _ _ => 1 / 2).
Example C05_nca_example : exists s, nca_reachable (fun _ => True) 2 2 3 Circular s /\ nc_dt s = 1 / 4 /\ nc_ext s = 2%nat.
Proof.
  destruct (C42_constructible 2 2 3 Circular (1 / 10) 5 3 (VStr "Tanh") (1 / 10) (ex_w 3 4) (ex_w 3 3) (ex_w 2 3)
    ltac:(lia) ltac:(lia) ltac:(lia) ltac:(lia) ltac:(lra) eq_refl eq_refl eq_refl) as [s Hs].
  exists (nca_set_dt s (1 / 4)). split; [|split; [reflexivity|]].
  - exists (1 / 10), 5%nat, 3%nat, (VStr "Tanh"), (1 / 10), (ex_w 3 4), (ex_w 3 3), (ex_w 2 3), s, [NSetDt (1 / 4)].
    split; [lia|]. split; [lia|]. split; [lia|]. split; [apply twf_build|]. split; [apply twf_build|]. split; [apply twf_build|].
    split; [exact Hs|]. split; [repeat constructor|reflexivity].
  - cbn [nca_set_dt nc_ext]. apply C42_constructed in Hs; try lia; try apply twf_build.
Qed.

(** ** C42 Bounded updates *)
Theorem C42_range tr keep s idn nb d : nca_update tr keep s idn nb = Ok d -> Forall (fun x => -1 <= x <= 1) (tdata d).
Proof. exact (nca_update_range tr keep s idn nb d). Qed.

Theorem C42_change tr keep s u u' b c i j : nca_wf s -> twf u -> in_unit u -> nca_forward tr keep s u = Ok u' ->
  (b < tB u)%nat -> (c < tC u)%nat -> (i < tH u)%nat -> (j < tW u)%nat ->
  Rabs (get u' b c i j - get (zero_dead (nc_thr s) u) b c i j) <= Rabs (nc_dt s).
Proof. exact (nca_step_bound tr keep s u u' b c i j). Qed.

(** The step in closed form, both modes. *)
Theorem C42_formula tr keep s u u' : nca_wf s -> twf u -> nca_forward tr keep s u = Ok u' ->
  exists idn nb, conv_apply (nc_idl s) (zero_dead (nc_thr s) u) = Ok idn /\ conv_apply (nc_nbl s) (zero_dead (nc_thr s) u) = Ok nb /\
  forall b c i j, (b < tB u)%nat -> (c < tC u)%nat -> (i < tH u)%nat -> (j < tW u)%nat ->
    get u' b c i j = clamp 0 1 (get (zero_dead (nc_thr s) u) b c i j + nc_dt s *
      network s (fun k1 => drop_factor tr (keep b k1 i j) (nc_drop s)) (fun c => get idn b c i j) (fun c => get nb b c i j) c).
Proof. exact (nca_closed tr keep s u u'). Qed.

Theorem C42_eval_deterministic keep keep' s u : nca_forward false keep s u = nca_forward false keep' s u.
Proof. exact eq_refl. Qed.

Theorem C42_training_refuted : exists s u keep keep' v v', nca_wf s /\ twf u /\ in_unit u /\
  nca_forward true keep s u = Ok v /\ nca_forward true keep' s u = Ok v' /\ v <> v'.
Proof. exact nca_training_random. Qed.

(** ** C26 Parameters of an NCA *)
(** After any history, a successful set_params makes get_params return the leading entries. *)
Theorem C26_nca P e n h m s p s' : nca_reachable P e n h m s -> nca_set_params s p = Ok s' ->
  nca_get_params s' = firstn (List.length (nca_get_params s)) p.
Proof. exact (fun Hr H => proj1 (nca_set_get s p s' (ni_rd _ _ _ _ _ (nca_reach_inv P e n h m s Hr)) H)). Qed.

Theorem C26_nca_length P e n h m s : nca_reachable P e n h m s ->
  List.length (nca_get_params s) = (h * (e + n) + h * h + e * h + List.length (act_params (nc_a1 s)) + List.length (act_params (nc_a2 s))
     + List.length (kp_flat (nc_kpar s)))%nat.
Proof. exact (nca_params_length P e n h m s). Qed.

Theorem C26_nca_short P e n h m s p : nca_reachable P e n h m s ->
  (List.length p < h * (e + n) + h * h + e * h + List.length (act_params (nc_a1 s)) + List.length (act_params (nc_a2 s)))%nat ->
  nca_set_params s p = Err ValueError.
Proof. exact (nca_params_short P e n h m s p). Qed.

(** Re-applying an NCA's own parameters keeps its dynamics as long as its kernel was not
    replaced through a config. *)
Theorem C26_nca_self (P : nca_op -> Prop) e n h m s : (forall o, P o -> params_or_dt o) -> nca_reachable P e n h m s ->
  exists s', nca_set_params s (nca_get_params s) = Ok s' /\ nca_get_params s' = nca_get_params s /\
    (forall tr keep u, nca_forward tr keep s' u = nca_forward tr keep s u) /\
    (forall tr keep u md, nca_frame tr keep s' u md = nca_frame tr keep s u md).
Proof. exact (nca_params_self P e n h m s). Qed.

(** A kernel config with a single scalar keyword leaves parameters that cannot be set. *)
Theorem C26_nca_scalar P e n h m s p r : nca_reachable P e n h m s -> nc_kpar s = KPScalar r ->
  (h * (e + n) + h * h + e * h + List.length (act_params (nc_a1 s)) + List.length (act_params (nc_a2 s)) <= List.length p)%nat ->
  nca_set_params s p = Err IndexError.
Proof. exact (nca_params_scalar P e n h m s p r). Qed.

(** ** C33 Kernel configuration of an NCA *)
Theorem C33_nca_config s cfg s' : nca_set_kernel_config s cfg = Ok s' ->
  (forall tr keep u, nca_forward tr keep s' u = nca_forward tr keep s u) /\
  nc_cfg s' = Some cfg /\ (exists k, get_kernel cfg = Ok k /\ as_kernel (K4 k) = Ok (nc_kern s')) /\ dget "radius" cfg = Some (nc_radius s').
Proof. exact (nca_config_stale s cfg s'). Qed.

Theorem C33_nca_radius_none s r : nc_cfg s = None -> nca_set_radius s r = Err TypeError.
Proof. exact (nca_radius_none s r). Qed.

Theorem C33_nca_radius s r s' : nca_set_radius s r = Ok s' -> exists d k kk, nc_cfg s = Some d /\ get_kernel (dset "radius" r d) = Ok k /\
  as_kernel (K4 k) = Ok kk /\ init_layer (nc_ext s) (nc_int s) (nc_pm s) kk = Ok (nc_nbl s') /\ nc_radius s' = r /\ nc_kern s' = kk /\
  nc_cfg s' = Some (dset "radius" r d) /\ nca_get_params s' = nca_get_params s.
Proof. exact (nca_radius_rebuild s r s'). Qed.

Print Assumptions C42_constructed.
Print Assumptions C42_constructible.
Print Assumptions C01_nca.
Print Assumptions C01_nca_frame.
Print Assumptions C02_nca.
Print Assumptions C02_nca_accepts.
Print Assumptions C02_nca_bad_channels.
Print Assumptions C05_nca.
Print Assumptions C06_nca.
Print Assumptions C07_nca.
Print Assumptions C42_range.
Print Assumptions C42_change.
Print Assumptions C42_formula.
Print Assumptions C42_eval_deterministic.
Print Assumptions C42_training_refuted.
Print Assumptions C26_nca.
Print Assumptions C26_nca_length.
Print Assumptions C26_nca_short.
Print Assumptions C26_nca_self.
Print Assumptions C26_nca_scalar.
Print Assumptions C33_nca_config.
Print Assumptions C33_nca_radius_none.
Print Assumptions C33_nca_radius.
