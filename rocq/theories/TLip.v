(** Theorems about how fast nearby grids move apart: property C98. *)
From Coq Require Import Reals Lra Lia List Arith Bool ZArith.
From Verif Require Import Base PyDict Tensor MActivations MKernels MCommon MCca MRd MNca MConfig MConfigs SGrid SCca SKern SRd SNca SConfig SLife SLip PTensor PStep PCca PDyn PRd PNca PConfig PConfigX PConfigY PConfigW PBundle PLip PLipX PLipY Examples.
Import ListNotations.
Open Scope R_scope.

(** Every growth function but SmoothLife's has a slope and a bound on every interval. *)
Theorem C98_functions K a : 0 <= K -> act_ok a = Ok tt -> no_jump a -> lip_on K (act_lip K a) (act_fn a) /\ bounded_on K (act_bound K a) (act_fn a).
Proof. exact (fun HK O J => conj (act_is_lip K a HK O J) (act_is_bounded K a HK O J)). Qed.

Example C98_functions_example : act_ok ex_gen = Ok tt /\ no_jump ex_gen /\ act_lip 1 ex_gen = 2 * (exp (- (1 / 2)) / Rabs (eps9 + 1 / 10)) /\ act_bound 1 ex_gen = 1.
Proof.
  split; [|split; [exact Logic.I|split; reflexivity]]. cbn [ex_gen act_ok]. unfold nonzero, eps9. destruct (Req_EM_T _ 0); [lra|reflexivity].
Qed.

(** SmoothLife's step function has none: it jumps at [ra]. *)
Theorem C98_step_function_refuted : exists ra ri K, ri <= ra /\ forall L, ~ lip_on K L (act_fn (ASmoothLife ra ri)).
Proof.
  exists 1, (1 / 3), 2. split; [lra|]. apply smoothlife_jump; try lra. rewrite Rabs_R1. lra.
Qed.

(** The layers of kernels from the kernel dispatcher take in at most 1. *)
Theorem C98_kernels cfg k e n m l : (0 < e)%nat -> (0 < n)%nat -> (n mod e = 0)%nat -> get_kernel cfg = Ok k -> init_layer e n m k = Ok l -> layer_within 1 l.
Proof. exact (kernel_within cfg k e n m l). Qed.

(** ** One step *)
Theorem C98_step c I K L M A : cca_wf c -> layer_within I (idl c) -> layer_within K (nbl c) -> wl_within A (wl c) -> 0 <= L -> 0 <= M ->
  all_lip K L (gens c) -> all_lip K L (pers c) -> all_bounded K M (gens c) -> all_bounded K M (pers c) ->
  spreads (1 + Rabs (dt c) * (A * ((1 + 2 * I) * (L * K) + 2 * I * M))) (cca_forward c).
Proof. exact (cca_spreads c I K L M A). Qed.

Theorem C98_step_unit c K L M A : cca_wf c -> nonneg_layer (idl c) -> layer_within 1 (idl c) -> layer_within K (nbl c) -> wl_within A (wl c) -> 0 <= L -> 0 <= M ->
  all_lip K L (gens c) -> all_lip K L (pers c) -> all_bounded K M (gens c) -> all_bounded K M (pers c) ->
  spreads (1 + Rabs (dt c) * (A * (L * K + 2 * M))) (cca_forward c).
Proof. exact (cca_spreads_unit c K L M A). Qed.

Theorem C98_weights e n m w : (0 < e)%nat -> (0 < n)%nat -> init_weights e n m = Ok w -> wl_within (1 / INR e) w.
Proof. exact (init_weights_within e n m w). Qed.

(** The automata the library builds: identity kernel, a kernel of the dispatcher, equal weights. *)
Theorem C98_built c cfg k L M : (0 < ext c)%nat -> (0 < int_ c)%nat -> (int_ c mod ext c = 0)%nat -> init_layer (ext c) (int_ c) (pm c) default_id_kernel = Ok (idl c) ->
  get_kernel cfg = Ok k -> init_layer (ext c) (int_ c) (pm c) k = Ok (nbl c) -> init_weights (ext c) (int_ c) (pm c) = Ok (wl c) ->
  0 <= L -> 0 <= M -> tame 1 L M (gens c) -> tame 1 L M (pers c) -> spreads (1 + Rabs (dt c) * (L + 2 * M) / INR (ext c)) (cca_forward c).
Proof. exact (built_spreads c cfg k L M). Qed.

Theorem C98_lenia c I K L A : cca_wf c -> layer_within I (idl c) -> layer_within K (nbl c) -> wl_within A (wl c) -> 0 <= L ->
  all_lip K L (gens c) -> spreads (1 + Rabs (dt c) * (A * (L * K))) (lenia_forward c).
Proof. exact (lenia_spreads c I K L A). Qed.

(** Orbium's error grows at most tenfold per step, Geminium's fivefold, SmoothLife's 146-fold. *)
Theorem C98_orbium fuel ev rng o h r o' h' : obj_inv o -> ext (o_core o) = 1%nat -> (1 <= r)%nat ->
  load_value fuel ev rng o (get_orbium_config (Z.of_nat r)) h = Ok (o', h') -> spreads 10 (cca_forward (o_core o')).
Proof.
  intros I E Hr H. destruct (orbium_load fuel ev rng o h r I Hr) as (o2 & h2 & k & H2 & F & R). rewrite H in H2. injection H2 as <- <-.
  destruct (orbium_kernel r Hr) as (k' & Hk & F'). eapply spreads_weaken; [|eapply (bundle_same o o' _ k' (15 / 100) (15 / 1000) I E ltac:(lra) Hk)]; [lra|].
  assert (k' = k); [|congruence]. eapply fitted_unique; eassumption.
Qed.

Theorem C98_geminium fuel ev rng o h r o' h' : obj_inv o -> ext (o_core o) = 1%nat -> (1 <= r)%nat ->
  load_value fuel ev rng o (get_geminium_config (Z.of_nat r)) h = Ok (o', h') -> spreads 5 (cca_forward (o_core o')).
Proof.
  intros I E Hr H. destruct (geminium_load fuel ev rng o h r I Hr) as (o2 & h2 & k & H2 & F & R). rewrite H in H2. injection H2 as <- <-.
  destruct (geminium_kernel r Hr) as (k' & Hk & F'). eapply spreads_weaken; [|eapply (bundle_same o o' _ k' (26 / 100) (36 / 1000) I E ltac:(lra) Hk)]; [lra|].
  assert (k' = k); [|congruence]. eapply fitted_unique; eassumption.
Qed.

Theorem C98_smoothlife fuel ev rng o h r o' h' : obj_inv o -> ext (o_core o) = 1%nat -> (1 <= r)%nat ->
  load_value fuel ev rng o (get_smooth_life_config (Z.of_nat r) None None) h = Ok (o', h') -> spreads 146 (cca_forward (o_core o')).
Proof.
  intros I E Hr H. destruct (smoothlife_load fuel ev rng o h r None None I Hr) as (o2 & h2 & ki & k & H2 & Fi & F & R). rewrite H in H2. injection H2 as <- <-.
  eapply (smooth_bundle o o' ki k r); eauto.
Qed.

(** Gray-Scott: every reachable state with the kernels of the class. *)
Theorem C98_gray_scott (P : rd_op -> Prop) s : (forall o, P o -> id_op o) -> rd_reachable P s ->
  spreads (1 + Rabs (rd_dt s) * (Rmax (Rabs (rd_du s)) (Rabs (rd_dv s)) / rd_dx s ^ 2 + 3 + (Rabs (rd_f s) + Rabs (rd_k s)))) (rd_forward s).
Proof. exact (fun HP Hr => rd_plain_spreads s (rd_reach_inv P s Hr) (rd_reach_id P s HP Hr)). Qed.

Theorem C98_neural keep s I K A1 A2 A3 L1 M1 L2 : nca_wf s -> layer_within I (nc_idl s) -> layer_within K (nc_nbl s) ->
  layer_within A1 (pt_conv (nc_pm s) (nc_w1 s)) -> layer_within A2 (pt_conv (nc_pm s) (nc_w2 s)) -> layer_within A3 (pt_conv (nc_pm s) (nc_w3 s)) ->
  0 <= L1 -> 0 <= L2 -> 0 <= M1 ->
  lip_on (A1 * Rmax I K) L1 (act_fn (nc_a1 s)) -> bounded_on (A1 * Rmax I K) M1 (act_fn (nc_a1 s)) -> lip_on (A2 * M1) L2 (act_fn (nc_a2 s)) ->
  spreads (1 + Rabs (nc_dt s) * (A3 * (L2 * (A2 * (L1 * (A1 * Rmax I K)))))) (nca_forward false keep s).
Proof. exact (nca_spreads keep s I K A1 A2 A3 L1 M1 L2). Qed.

(** From four channels on the alive mask makes the step jump. *)
Theorem C98_mask_refuted : exists c, cca_wf c /\ forall q, exists e u v u' v', 0 < e /\ near e u v /\ cca_forward c u = Ok u' /\ cca_forward c v = Ok v' /\
  q * e < Rabs (get u' 0 0 0 0 - get v' 0 0 0 0).
Proof. exact (ex_intro _ four (conj four_wf four_jump)). Qed.

(** ** Runs *)
Theorem C98_run f q : step_of f -> 0 <= q -> spreads q f -> forall n e u v, 0 <= e -> (tC u < 4)%nat -> near e u v ->
  (forall u', iter_res f n u = Ok u' -> exists v', iter_res f n v = Ok v' /\ near (q ^ n * e) u' v') /\ (forall er, iter_res f n u = Err er -> iter_res f n v = Err er).
Proof.
  intros S Hq Sp. apply spreads_run; auto. intros u u' T E. destruct (step_of_shape f u u' S T E) as [X _]. unfold shape in X. injection X as _ X _ _. exact X.
Qed.

(** A run in which every step is off by up to [d] stays near the exact run. *)
Theorem C98_rough f q d us : step_of f -> 0 <= q -> 0 <= d -> spreads q f -> rough_run f d us ->
  forall n e v v', 0 <= e -> (tC (us 0%nat) < 4)%nat -> near e (us 0%nat) v -> iter_res f n v = Ok v' -> near (grown q d e n) (us n) v'.
Proof. intros S Hq Hd Sp. apply spreads_rough; auto; intros; [eapply step_of_shape|eapply step_of_unit]; eassumption. Qed.

Theorem C98_grown q d e n : q <> 1 -> grown q d e n = q ^ n * e + d * ((q ^ n - 1) / (q - 1)).
Proof. exact (grown_closed q d e n). Qed.

(** ** Examples *)
Example ex_within : layer_within 1 (idl ex_cca) /\ nonneg_layer (idl ex_cca) /\ layer_within 1 (nbl ex_cca) /\ wl_within 1 (wl ex_cca).
Proof.
  destruct (default_within 1 1 Circular (idl ex_cca) ltac:(lia) ltac:(lia) eq_refl eq_refl) as [A B]. split; [exact A|]. split; [exact B|]. split.
  - intros o Ho. cbn [ex_cca nbl cl_w ex_moore tB] in Ho. assert (o = 0%nat) as -> by lia. cbv -[Rabs Rplus Rdiv Rle IZR].
    rewrite !Rabs_pos_eq by lra. lra.
  - pose proof (init_weights_within 1 1 Circular _ ltac:(lia) ltac:(lia) ex_weights) as W. change (INR 1) with 1 in W. unfold Rdiv in W. rewrite Rmult_1_l, Rinv_1 in W. exact W.
Qed.

(** The running example's error grows at most ninefold per step. *)
Lemma ex_spreads : spreads 9 (cca_forward ex_cca).
Proof.
  destruct ex_within as (W1 & W2 & W3 & W4).
  assert (T : forall mu, tame 1 14 1 [AGaussian mu (1 / 10) true]).
  { intros mu a [<-|[]]. split; [cbn [act_ok]; unfold nonzero, eps9; destruct (Req_EM_T _ 0); [lra|reflexivity]|]. split; [exact Logic.I|]. split; [|cbn [act_bound]; lra].
    cbn [act_lip twice]. pose proof (gauss_lip_le (1 / 10) ltac:(lra)). lra. }
  destruct (tame_lip 1 14 1 _ Rle_0_1 (T (3 / 8))) as [G1 G2]. destruct (tame_lip 1 14 1 _ Rle_0_1 (T (1 / 4))) as [P1 P2].
  pose proof (C98_step_unit ex_cca 1 14 1 1 ex_wf W2 W1 W3 W4 ltac:(lra) ltac:(lra) G1 P1 G2 P2) as Q. eapply spreads_weaken; [|exact Q]. cbn [ex_cca dt]. rewrite Rabs_pos_eq by lra. lra.
Qed.

Lemma ex_near : exists v, near (1 / 100) ex_grid v /\ v <> ex_grid.
Proof.
  pose proof ex_grid_wf as T. pose proof ex_grid_unit as U. unfold in_unit in U. rewrite Forall_forall in U.
  set (g := fun x => Rmin 1 (x + 1 / 100)). exists (tmap g ex_grid). split.
  - split; [exact T|]. split; [unfold twf in *; cbn [tB tC tH tW tmap tdata]; rewrite map_length; exact T|]. split; [reflexivity|]. split; [exact ex_grid_unit|]. split.
    + apply Forall_forall. intros x Hx. cbn [tmap tdata] in Hx. apply in_map_iff in Hx as (y & <- & Hy). specialize (U y Hy). unfold g, Rmin. destruct (Rle_dec 1 (y + 1 / 100)); lra.
    + intros b c i j Hb Hc Hi Hj. rewrite get_tmap by assumption. assert (Y : 0 <= get ex_grid b c i j <= 1) by (apply U, get_in_data; assumption). unfold g, Rmin. destruct (Rle_dec 1 (get ex_grid b c i j + 1 / 100)); apply Rabs_le; lra.
  - intros E. assert (X : get (tmap g ex_grid) 0 0 0 0 = get ex_grid 0 0 0 0) by congruence. rewrite get_tmap in X; try exact T; try (cbn; lia). revert X. unfold get, ex_grid. cbn [tdata nth tC tH tW Nat.mul Nat.add]. unfold g, Rmin. destruct (Rle_dec 1 _); lra.
Qed.

Example C98_run_example : step_of (cca_forward ex_cca) /\ spreads 9 (cca_forward ex_cca) /\ (tC ex_grid < 4)%nat /\ exists v, near (1 / 100) ex_grid v /\ v <> ex_grid.
Proof.
  split; [left; exists ex_cca; split; [exact ex_wf|left; reflexivity]|]. split; [exact ex_spreads|]. split; [cbn; lia|exact ex_near].
Qed.

Example C98_neural_example : nca_wf ex_nca /\ layer_within 1 (nc_idl ex_nca) /\ layer_within 1 (nc_nbl ex_nca) /\ layer_within 2 (pt_conv Circular (nc_w1 ex_nca)) /\
  layer_within 1 (pt_conv Circular (nc_w2 ex_nca)) /\ layer_within 1 (pt_conv Circular (nc_w3 ex_nca)) /\ lip_on 2 1 (act_fn (nc_a1 ex_nca)) /\ bounded_on 2 2 (act_fn (nc_a1 ex_nca)).
Proof.
  destruct (default_within 1 1 Circular ex_idl ltac:(lia) ltac:(lia) eq_refl eq_refl) as [A _]. split; [exact ex_nca_wf|]. split; [exact A|]. split; [exact A|].
  assert (W : forall c, layer_within (INR c) (pt_conv Circular (one_w c))).
  { intros c o Ho. change (o < 1)%nat in Ho. change (rsum c (fun k => rsum 1 (fun y => rsum 1 (fun x => Rabs (get (build 1 c 1 1 (fun _ _ _ _ => 1)) o k y x)))) <= INR c). rewrite <- (Rmult_1_r (INR c)), <- rsum_const. apply rsum_le. intros k Hk. cbn [rsum]. rewrite get_build by (exact Ho || lia || exact Hk). rewrite !Rplus_0_l, Rabs_R1. lra. }
  split; [exact (W 2%nat)|]. split; [exact (W 1%nat)|]. split; [exact (W 1%nat)|]. split; intros x; cbn [ex_nca nc_a1 act_fn]; [intros y _ _; lra|auto].
Qed.
(** Orbium, loaded into a one-channel automaton with default settings, is as [C98_built] has it. *)
Example C98_built_example : exists o h o' h' cfg k, init 1 no_env wit_rng wit_kw [] = Ok (o, h) /\ load_value 1 no_env wit_rng o (get_orbium_config 13) h = Ok (o', h') /\
  let c := o_core o' in ext c = 1%nat /\ int_ c = 1%nat /\ init_layer (ext c) (int_ c) (pm c) default_id_kernel = Ok (idl c) /\
  get_kernel cfg = Ok k /\ init_layer (ext c) (int_ c) (pm c) k = Ok (nbl c) /\ init_weights (ext c) (int_ c) (pm c) = Ok (wl c) /\
  tame 1 (4 / (3 * (15 / 1000))) 1 (gens c) /\ tame 1 (4 / (3 * (15 / 1000))) 1 (pers c).
Proof.
  destruct (wit_init []) as (o & Hi & _ & I & _ & E1 & E2 & E3). destruct (orbium_load 1 no_env wit_rng o [] 13 I ltac:(lia)) as (o' & h' & k & HL & F & R).
  destruct (orbium_kernel 13 ltac:(lia)) as (k' & Hk & F'). assert (k' = k) by (eapply fitted_unique; eassumption). subst k'.
  destruct R as (I' & X1 & X2 & X3 & _ & X5 & X6 & X7 & X8 & X9 & _). pose proof I' as (P1 & P2 & _ & _ & Hw & _). cbv zeta in *. unfold uses_kernel in X9.
  exists o, [], o', h'. eexists. exists k. split; [exact Hi|]. split; [exact HL|]. cbv zeta. split; [congruence|]. split; [congruence|]. rewrite X1, X2, X3 in *. split; [exact X8|]. split; [exact Hk|]. split; [exact X9|]. split; [exact Hw|].
  rewrite X6, X7. split; apply one_mixture_tame; lra.
Qed.

(** A run with errors. *)
Example C98_rough_example : rough_run (cca_forward ex_cca) 1 (fun t => if Nat.even t then ex_grid else tmap (fun x => 1 - x) ex_grid).
Proof.
  assert (W : forall t : nat, twf (if Nat.even t then ex_grid else tmap (fun x => 1 - x) ex_grid)).
  { intros t. destruct (Nat.even t); [exact ex_grid_wf|]. pose proof ex_grid_wf as T. unfold twf in *. cbn [tB tC tH tW tmap tdata]. rewrite map_length. exact T. }
  assert (U : forall t : nat, in_unit (if Nat.even t then ex_grid else tmap (fun x => 1 - x) ex_grid)).
  { intros t. destruct (Nat.even t); [exact ex_grid_unit|]. pose proof ex_grid_unit as U. unfold in_unit in *. rewrite Forall_forall in *. intros x Hx. cbn [tmap tdata] in Hx. apply in_map_iff in Hx as (y & <- & Hy). specialize (U y Hy). lra. }
  assert (Sh : forall t : nat, shape (if Nat.even t then ex_grid else tmap (fun x => 1 - x) ex_grid) = shape ex_grid) by (intros t; destruct (Nat.even t); reflexivity).
  intros t. split; [apply W|]. split; [apply Sh|]. split; [apply U|]. intros v Hv b c i j Hb Hc Hi Hj.
  assert (S : step_of (cca_forward ex_cca)) by (left; exists ex_cca; split; [exact ex_wf|left; reflexivity]).
  destruct (step_of_shape _ _ _ S (W t) Hv) as [V1 V2]. pose proof (step_of_unit _ _ _ S Hv) as V3. pose proof (Sh t) as V4. pose proof (Sh (Datatypes.S t)) as V5. pose proof (W (Datatypes.S t)) as V6. pose proof (U (Datatypes.S t)) as V7.
  set (w := if Nat.even (Datatypes.S t) then _ else _) in *. clearbody w. assert (Q : shape w = shape v) by congruence. unfold in_unit in *. rewrite Forall_forall in *.
  unfold shape in Q. injection Q as Q1 Q2 Q3 Q4. pose proof (V3 _ (get_in_data v b c i j V2 Hb Hc Hi Hj)). rewrite <- Q1 in Hb. rewrite <- Q2 in Hc. rewrite <- Q3 in Hi. rewrite <- Q4 in Hj.
  pose proof (V7 _ (get_in_data w b c i j V6 Hb Hc Hi Hj)). apply Rabs_le. lra.
Qed.

Print Assumptions C98_functions.
Print Assumptions C98_step_function_refuted.
Print Assumptions C98_kernels.
Print Assumptions C98_step.
Print Assumptions C98_step_unit.
Print Assumptions C98_weights.
Print Assumptions C98_built.
Print Assumptions C98_lenia.
Print Assumptions C98_orbium.
Print Assumptions C98_geminium.
Print Assumptions C98_smoothlife.
Print Assumptions C98_gray_scott.
Print Assumptions C98_neural.
Print Assumptions C98_mask_refuted.
Print Assumptions C98_run.
Print Assumptions C98_rough.
Print Assumptions C98_grown.
