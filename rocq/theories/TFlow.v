(** Theorems about the limit of ever smaller time steps: property C99. *)
From Coq Require Import Reals Lra Lia List Arith Bool ZArith.
From Verif Require Import Base PyDict Tensor MActivations MKernels MCommon MCca MRd MNca MConfig MConfigs SGrid SCca SKern SRd SNca SConfig SLife SLip SFlow PTensor PStep PStepX PCca PDyn PCode PRd PNca PConfig PConfigX PConfigY PConfigW PBundle PLip PLipX PLipY PFlow PFlowX PFlowY Examples TLip.
Import ListNotations.
Open Scope R_scope.

(** ** Which automata move along a field *)
Theorem C99_cca c I K L M A : cca_wf c -> layer_within I (idl c) -> layer_within K (nbl c) -> wl_within A (wl c) -> 0 <= L -> 0 <= M ->
  all_lip K L (gens c) -> all_lip K L (pers c) -> all_bounded K M (gens c) -> all_bounded K M (pers c) ->
  driven (A * ((1 + 2 * I) * (L * K) + 2 * I * M)) (A * ((1 + 2 * I) * M)) (cca_at c).
Proof. exact (cca_driven c I K L M A). Qed.

(** The automata the library builds. *)
Theorem C99_built c cfg k L M : (0 < ext c)%nat -> (0 < int_ c)%nat -> (int_ c mod ext c = 0)%nat -> init_layer (ext c) (int_ c) (pm c) default_id_kernel = Ok (idl c) ->
  get_kernel cfg = Ok k -> init_layer (ext c) (int_ c) (pm c) k = Ok (nbl c) -> init_weights (ext c) (int_ c) (pm c) = Ok (wl c) ->
  0 <= L -> 0 <= M -> tame 1 L M (gens c) -> tame 1 L M (pers c) -> driven ((L + 2 * M) / INR (ext c)) (M / INR (ext c)) (cca_at c).
Proof. exact (built_driven c cfg k L M). Qed.

Theorem C99_lenia c I K L M A : cca_wf c -> layer_within I (idl c) -> layer_within K (nbl c) -> wl_within A (wl c) -> 0 <= L -> 0 <= M ->
  all_lip K L (gens c) -> all_bounded K M (gens c) -> driven (A * (L * K)) (A * M) (lenia_at c).
Proof. exact (lenia_driven c I K L M A). Qed.

Theorem C99_orbium fuel ev rng o h r o' h' : obj_inv o -> ext (o_core o) = 1%nat -> (1 <= r)%nat ->
  load_value fuel ev rng o (get_orbium_config (Z.of_nat r)) h = Ok (o', h') -> driven 89 1 (cca_at (o_core o')).
Proof.
  intros I E Hr H. destruct (orbium_load fuel ev rng o h r I Hr) as (o2 & h2 & k & H2 & F & R). rewrite H in H2. injection H2 as <- <-.
  destruct (orbium_kernel r Hr) as (k' & Hk & F'). eapply driven_weaken; [|apply Rle_refl|eapply (same_driven o o' _ k' (15 / 100) (15 / 1000) I E ltac:(lra) Hk)]; [lra|].
  assert (k' = k); [|congruence]. eapply fitted_unique; eassumption.
Qed.

Theorem C99_geminium fuel ev rng o h r o' h' : obj_inv o -> ext (o_core o) = 1%nat -> (1 <= r)%nat ->
  load_value fuel ev rng o (get_geminium_config (Z.of_nat r)) h = Ok (o', h') -> driven 38 1 (cca_at (o_core o')).
Proof.
  intros I E Hr H. destruct (geminium_load fuel ev rng o h r I Hr) as (o2 & h2 & k & H2 & F & R). rewrite H in H2. injection H2 as <- <-.
  destruct (geminium_kernel r Hr) as (k' & Hk & F'). eapply driven_weaken; [|apply Rle_refl|eapply (same_driven o o' _ k' (26 / 100) (36 / 1000) I E ltac:(lra) Hk)]; [lra|].
  assert (k' = k); [|congruence]. eapply fitted_unique; eassumption.
Qed.

Theorem C99_smoothlife fuel ev rng o h r o' h' : obj_inv o -> ext (o_core o) = 1%nat -> (1 <= r)%nat ->
  load_value fuel ev rng o (get_smooth_life_config (Z.of_nat r) None None) h = Ok (o', h') -> driven 145 1 (cca_at (o_core o')).
Proof.
  intros I E Hr H. destruct (smoothlife_load fuel ev rng o h r None None I Hr) as (o2 & h2 & ki & k & H2 & Fi & F & R). rewrite H in H2. injection H2 as <- <-.
  eapply (smooth_driven o o' ki k r); eauto.
Qed.

Theorem C99_gray_scott (P : rd_op -> Prop) s : (forall o, P o -> id_op o) -> rd_reachable P s ->
  driven (Rmax (Rabs (rd_du s)) (Rabs (rd_dv s)) / rd_dx s ^ 2 + 3 + (Rabs (rd_f s) + Rabs (rd_k s)))
         (Rmax (Rabs (rd_du s)) (Rabs (rd_dv s)) / rd_dx s ^ 2 + 1 + Rabs (rd_f s) + (Rabs (rd_f s) + Rabs (rd_k s))) (rd_at s).
Proof. exact (fun HP Hr => rd_plain_driven s (rd_reach_inv P s Hr) (rd_reach_id P s HP Hr)). Qed.

Theorem C99_neural keep s I K A1 A2 A3 L1 M1 L2 : nca_wf s -> layer_within I (nc_idl s) -> layer_within K (nc_nbl s) ->
  layer_within A1 (pt_conv (nc_pm s) (nc_w1 s)) -> layer_within A2 (pt_conv (nc_pm s) (nc_w2 s)) -> layer_within A3 (pt_conv (nc_pm s) (nc_w3 s)) ->
  0 <= L1 -> 0 <= L2 -> 0 <= M1 ->
  lip_on (A1 * Rmax I K) L1 (act_fn (nc_a1 s)) -> bounded_on (A1 * Rmax I K) M1 (act_fn (nc_a1 s)) -> lip_on (A2 * M1) L2 (act_fn (nc_a2 s)) ->
  driven (A3 * (L2 * (A2 * (L1 * (A1 * Rmax I K))))) 1 (nca_at keep s).
Proof. exact (nca_driven keep s I K A1 A2 A3 L1 M1 L2). Qed.

(** ** The limit *)
(** [n] steps of [t / n] have a limit, and only one. *)
Theorem C99_exists L M F t u : 0 <= L -> 0 <= M -> driven L M F -> 0 <= t -> ready F u ->
  exists w, flows F t u w /\ (forall w', flows F t u w' -> w' = w) /\ twf w /\ shape w = shape u /\ in_unit w.
Proof. exact (fun HL HM D => flow_exists L M F HL HM D t u). Qed.

(** How far [n] steps are from it. *)
Theorem C99_rate L M F t u w n : 0 <= L -> 0 <= M -> driven L M F -> 0 <= t -> ready F u -> flows F t u w -> (0 < n)%nat ->
  exists v, iter_res (F (t / INR n)) n u = Ok v /\ near (t / INR n * (M / 2) * (exp (L * t) - 1)) v w.
Proof. exact (fun HL HM D => flow_rate L M F HL HM D t u w n). Qed.

(** Time adds up. *)
Theorem C99_time_adds L M F s t u v w : 0 <= L -> 0 <= M -> driven L M F -> 0 <= s -> 0 <= t -> ready F u -> flows F s u v -> flows F t v w -> flows F (s + t) u w.
Proof. exact (fun HL HM D => flow_add L M F HL HM D s t u v w). Qed.

(** The limit follows the field: over a time [h] it moves as one step of [h] up to [h^2]. *)
Theorem C99_equation L M F t h u v w v' : 0 <= L -> 0 <= M -> driven L M F -> 0 <= t -> 0 <= h -> ready F u -> flows F t u v -> flows F (t + h) u w -> F h v = Ok v' ->
  near (h ^ 2 * L * M / 2) v' w.
Proof.
  intros HL HM D Ht Hh R V W E. pose proof (flow_ready L M F HL HM D t u v Ht R V) as Rv. destruct (flow_exists L M F HL HM D h v Hh Rv) as (x & X & _).
  pose proof (flow_add L M F HL HM D t h u v x Ht Hh R V X) as Y. destruct (flow_exists L M F HL HM D (t + h) u ltac:(lra) R) as (y & _ & Un & _). rewrite (Un w W), <- (Un x Y).
  apply (flow_step L M F HL HM D h v v' x Hh Rv X E).
Qed.

(** It is the only curve that does so. *)
Theorem C99_only L M F K t u v : 0 <= L -> 0 <= M -> driven L M F -> 0 <= K -> 0 <= t -> ready F u -> v 0 = u -> follows F K t v -> flows F t u (v t).
Proof. exact (fun HL HM D => flow_follows L M F HL HM D K t u v). Qed.

(** It depends on the start and on the time in a controlled way. *)
Theorem C99_start L M F t e u v w w' : 0 <= L -> 0 <= M -> driven L M F -> 0 <= t -> 0 <= e -> ready F u -> near e u v -> flows F t u w -> flows F t v w' -> near (exp (L * t) * e) w w'.
Proof. exact (fun HL HM D => flow_lipschitz L M F HL HM D t e u v w w'). Qed.

Theorem C99_time L M F s t u v w : 0 <= L -> 0 <= M -> driven L M F -> 0 <= s <= t -> ready F u -> flows F s u v -> flows F t u w -> near ((t - s) * M) v w.
Proof. exact (fun HL HM D => flow_time L M F HL HM D s t u v w). Qed.

(** ** Changing time steps *)
Theorem C99_variable L M F h0 hs u v w : 0 <= L -> 0 <= M -> driven L M F -> 0 <= h0 -> Forall (fun h => 0 <= h <= h0) hs -> ready F u -> run_steps F hs u = Ok v -> flows F (total hs) u w ->
  near (h0 * (M / 2) * (exp (L * total hs) - 1)) v w.
Proof. exact (fun HL HM D => flow_variable L M F HL HM D h0 hs u v w). Qed.

(** Two runs of one length of time: how the time is cut into steps matters at most this much. *)
Theorem C99_two_runs L M F h0 h1 hs ks u v w : 0 <= L -> 0 <= M -> driven L M F -> 0 <= h0 -> 0 <= h1 -> Forall (fun h => 0 <= h <= h0) hs -> Forall (fun h => 0 <= h <= h1) ks -> ready F u ->
  run_steps F hs u = Ok v -> run_steps F ks u = Ok w -> total hs = total ks -> near ((h0 + h1) * (M / 2) * (exp (L * total hs) - 1)) v w.
Proof.
  intros HL HM D H0 H1 Hs Ks R V W T. assert (T0 : 0 <= total hs) by (clear - Hs; induction Hs as [|h hs [X _] Hs IH]; cbn [total]; lra). destruct (flow_exists L M F HL HM D (total hs) u T0 R) as (x & X & _).
  pose proof (flow_variable L M F HL HM D h0 hs u v x H0 Hs R V X) as A. rewrite T in X. pose proof (flow_variable L M F HL HM D h1 ks u w x H1 Ks R W X) as B. rewrite <- T in B.
  replace ((h0 + h1) * (M / 2) * (exp (L * total hs) - 1)) with (h0 * (M / 2) * (exp (L * total hs) - 1) + h1 * (M / 2) * (exp (L * total hs) - 1)) by ring. eapply near_trans; [exact A|].
  destruct B as (B1 & B2 & B3 & B4 & B5 & B6). repeat (split; [assumption||congruence|]). intros b c i j Hb Hc Hi Hj. rewrite Rabs_minus_sym. unfold shape in B3. injection B3 as Q1 Q2 Q3 Q4. apply B6; congruence.
Qed.

(** CODE, which chooses its steps, and the automaton that draws them at random. *)
Theorem C99_code L M fuel n s u s' u' w : 0 <= L -> 0 <= M -> driven L M (cca_at (cd_core s)) -> 0 <= cd_min s <= cd_max s -> ready (cca_at (cd_core s)) u -> code_run fuel n s u = Ok (s', u') ->
  cd_time s <= cd_time s' /\ (flows (cca_at (cd_core s)) (cd_time s' - cd_time s) u w -> near (cd_max s * (M / 2) * (exp (L * (cd_time s' - cd_time s)) - 1)) u' w).
Proof.
  intros HL HM D Hm R H. destruct (code_run_steps fuel n s u s' u' (proj1 Hm) H) as (hs & Rn & _ & B & T).
  assert (B' : Forall (fun h => 0 <= h <= cd_max s) hs) by (eapply Forall_impl; [|exact B]; cbv beta; intros; lra). assert (T0 : 0 <= total hs) by (clear - B'; induction B' as [|h hs [X _] Hs IH]; cbn [total]; lra).
  split; [lra|]. replace (cd_time s' - cd_time s) with (total hs) by lra. apply (flow_variable L M _ HL HM D (cd_max s) hs u u' w ltac:(lra) B' R Rn).
Qed.

Theorem C99_random L M rands s u s' u' w : 0 <= L -> 0 <= M -> driven L M (cca_at (rs_core s)) -> 0 <= rs_min s <= rs_max s -> Forall (fun r => 0 <= r < 1) rands -> ready (cca_at (rs_core s)) u -> rs_run s rands u = Ok (s', u') ->
  rs_time s <= rs_time s' /\ (flows (cca_at (rs_core s)) (rs_time s' - rs_time s) u w -> near (rs_max s * (M / 2) * (exp (L * (rs_time s' - rs_time s)) - 1)) u' w).
Proof.
  intros HL HM D Hm Hr R H. destruct (rs_run_steps rands s u s' u' (proj2 Hm) Hr H) as (hs & Rn & _ & B & T).
  assert (B' : Forall (fun h => 0 <= h <= rs_max s) hs) by (eapply Forall_impl; [|exact B]; cbv beta; intros; lra). assert (T0 : 0 <= total hs) by (clear - B'; induction B' as [|h hs [X _] Hs IH]; cbn [total]; lra).
  split; [lra|]. replace (rs_time s' - rs_time s) with (total hs) by lra. apply (flow_variable L M _ HL HM D (rs_max s) hs u u' w ltac:(lra) B' R Rn).
Qed.

(** ** Fixed grids *)
(** A grid that one time step leaves unchanged is unchanged by every other and by the limit. *)
Theorem C99_fixed L M F u : 0 <= L -> 0 <= M -> driven L M F -> ready F u ->
  ((exists h, 0 < h /\ F h u = Ok u) <-> (forall t, 0 <= t -> flows F t u u)) /\ (forall h k, 0 < h -> 0 <= k -> F h u = Ok u -> F k u = Ok u).
Proof. exact (fun HL HM D R => conj (flow_fixed L M F HL HM D u R) (fun h k Hh Hk => step_fixed L M F D h k u R Hh Hk)). Qed.

(** A grid no step accepts has no limit. *)
Theorem C99_rejected L M F h u er : driven L M F -> twf u -> (tC u < 4)%nat -> F h u = Err er -> forall t w, ~ flows F t u w.
Proof. exact (fun D => flow_rejected L M F D h u er). Qed.

(** ** Examples *)
Lemma ex_driven : driven 16 1 (cca_at ex_cca).
Proof.
  destruct ex_within as (W1 & W2 & W3 & W4).
  assert (T : forall mu, tame 1 14 1 [AGaussian mu (1 / 10) true]).
  { intros mu a [<-|[]]. split; [cbn [act_ok]; unfold nonzero, eps9; destruct (Req_EM_T _ 0); [lra|reflexivity]|]. split; [exact Logic.I|]. split; [|cbn [act_bound]; lra].
    cbn [act_lip twice]. pose proof (gauss_lip_le (1 / 10) ltac:(lra)). lra. }
  destruct (tame_lip 1 14 1 _ Rle_0_1 (T (3 / 8))) as [G1 G2]. destruct (tame_lip 1 14 1 _ Rle_0_1 (T (1 / 4))) as [P1 P2].
  eapply driven_weaken; [| |apply (cca_driven_unit ex_cca 1 14 1 1 ex_wf W2 W1 W3 W4 ltac:(lra) ltac:(lra) G1 P1 G2 P2)]; lra.
Qed.

Lemma ex_ready : ready (cca_at ex_cca) ex_grid.
Proof.
  split; [exact ex_grid_wf|]. split; [exact ex_grid_unit|]. split; [cbn; lia|]. destruct ex_step as (u' & E). exists (1 / 2), u'. exact E.
Qed.

(** The running example has a limit for every length of time; 1000 steps come within 1/1000 times [exp 16] of where it is at time 1. *)
Example C99_example : exists w, flows (cca_at ex_cca) 1 ex_grid w /\ exists v, iter_res (cca_at ex_cca (1 / INR 1000)) 1000 ex_grid = Ok v /\ near (1 / INR 1000 * (1 / 2) * (exp (16 * 1) - 1)) v w.
Proof.
  destruct (C99_exists 16 1 _ 1 ex_grid ltac:(lra) ltac:(lra) ex_driven ltac:(lra) ex_ready) as (w & W & _). exists w. split; [exact W|]. apply C99_rate; auto using ex_driven, ex_ready; try lra. lia.
Qed.

(** An automaton whose cells grow by themselves: the limit is the exponential function, cut off at 1. *)
Lemma pt_driven d : driven 1 1 (cca_at (pt_cca AIdentity d)).
Proof.
  assert (W : layer_within 1 (unit_layer Circular)). { intros o Ho. change (o < 1)%nat in Ho. assert (o = 0%nat) as -> by lia. unfold row_weight. cbn [unit_layer unit_kernel cl_w tC tH tW rsum]. change (get unit_kernel 0 0 0 0) with 1. change (get (mkT 1 1 1 1 [1]) 0 0 0 0) with 1. rewrite Rabs_R1. lra. }
  assert (G1 : all_lip 1 1 (gens (pt_cca AIdentity d))) by (intros a [<-|[]] x y _ _; cbn [act_fn]; lra). assert (G2 : all_bounded 1 1 (gens (pt_cca AIdentity d))) by (intros a [<-|[]] x Hx; cbn [act_fn]; exact Hx).
  pose proof (lenia_driven (pt_cca AIdentity d) 1 1 1 1 1 (pt_cca_wf _ _) W W W ltac:(lra) ltac:(lra) G1 G2) as Q. rewrite !Rmult_1_l in Q.
  eapply driven_ext; [|exact Q]. intros h u T. unfold cca_at, lenia_at. symmetry. apply cca_eq_lenia; [apply pt_cca_wf|exact T|reflexivity].
Qed.

Lemma exp_local h : 0 <= h <= 1 / 2 -> 1 + h <= exp h <= 1 + h + 2 * h ^ 2.
Proof.
  intros H. split; [apply exp_ge|]. pose proof (exp_ge (- h)) as E. rewrite exp_Ropp in E. pose proof (exp_pos h) as P. apply Rle_trans with (/ (1 - h)).
  - rewrite <- (Rinv_inv (exp h)). apply Rinv_le_contravar; lra.
  - apply (Rmult_le_reg_r (1 - h)); [lra|]. rewrite Rinv_l by lra. assert (0 <= h ^ 2) by apply pow2_ge_0. replace ((1 + h + 2 * h ^ 2) * (1 - h)) with (1 + h ^ 2 * (1 - 2 * h)) by ring. assert (0 <= h ^ 2 * (1 - 2 * h)) by (apply Rmult_le_pos; lra). lra.
Qed.

Lemma grow_local x s h : 0 <= x <= 1 -> 0 <= s -> 0 <= h ->
  Rabs (clamp 0 1 (Rmin 1 (x * exp s) + h * Rmin 1 (x * exp s)) - Rmin 1 (x * exp (s + h))) <= 4 * h ^ 2.
Proof.
  intros Hx Hs Hh. rewrite exp_plus, <- Rmult_assoc. set (y := x * exp s). assert (Y : 0 <= y) by (apply Rmult_le_pos; [lra|left; apply exp_pos]). pose proof (exp_ge h) as E. pose proof (exp_pos h) as P.
  assert (Z : 0 <= Rmin 1 (y * exp h) <= 1). { split; [apply Rmin_glb; [lra|apply Rmult_le_pos; lra]|apply Rmin_l]. } assert (h2 : 0 <= h ^ 2) by apply pow2_ge_0.
  destruct (Rle_dec h (1 / 2)) as [Hh'|Hh'].
  - destruct (exp_local h ltac:(lra)) as [_ E2]. destruct (Rle_dec 1 y) as [Y1|Y1].
    + rewrite (Rmin_left 1 y) by exact Y1. rewrite clamp_hi by lra. rewrite Rmin_left; [rewrite Rminus_diag_eq, Rabs_R0 by reflexivity; lra|]. rewrite <- (Rmult_1_r 1) at 1. apply Rmult_le_compat; lra.
    + rewrite (Rmin_right 1 y) by lra. assert (C : clamp 0 1 (y + h * y) = Rmin 1 (y + h * y)). { assert (0 <= h * y) by (apply Rmult_le_pos; assumption). rewrite <- clip_clamp. unfold clip. apply Rmax_right. apply Rmin_glb; lra. }
      assert (D : 0 <= y * exp h - (y + h * y) <= 2 * h ^ 2). { replace (y * exp h - (y + h * y)) with (y * (exp h - (1 + h))) by ring. split; [apply Rmult_le_pos; lra|]. rewrite <- (Rmult_1_l (2 * h ^ 2)). apply Rmult_le_compat; lra. }
      rewrite C. unfold Rmin. apply Rabs_le. destruct (Rle_dec 1 (y + h * y)), (Rle_dec 1 (y * exp h)); lra.
  - assert (1 <= 4 * h ^ 2). { replace (4 * h ^ 2) with ((2 * h) * (2 * h)) by ring. rewrite <- (Rmult_1_r 1) at 1. apply Rmult_le_compat; lra. }
    match goal with |- Rabs (clamp 0 1 ?a - _) <= _ => pose proof (clamp_range 0 1 a ltac:(lra)) end. apply Rabs_le. lra.
Qed.

Theorem C99_exponential d u t : twf u -> in_unit u -> tC u = 1%nat -> (0 < tH u)%nat -> (0 < tW u)%nat -> 0 <= t ->
  ready (cca_at (pt_cca AIdentity d)) u /\ flows (cca_at (pt_cca AIdentity d)) t u (tmap (fun x => Rmin 1 (x * exp t)) u).
Proof.
  intros T U C H0 W0 Ht. assert (St : forall h v, twf v -> tC v = 1%nat -> (0 < tH v)%nat -> (0 < tW v)%nat -> cca_at (pt_cca AIdentity d) h v = Ok (tmap (fun x => clamp 0 1 (x + h * x)) v)).
  { intros h v Tv Cv Hv Wv. unfold cca_at. rewrite pt_cca_dt. rewrite pt_cca_step by (reflexivity || assumption). reflexivity. }
  assert (R : ready (cca_at (pt_cca AIdentity d)) u). { split; [exact T|]. split; [exact U|]. split; [lia|]. exists 0. eexists. apply St; assumption. }
  assert (Ux : forall x, In x (tdata u) -> 0 <= x <= 1) by (apply Forall_forall; exact U).
  split; [exact R|]. apply (C99_only 1 1 _ 4 t u (fun s => tmap (fun x => Rmin 1 (x * exp s)) u)); auto using pt_driven; try lra.
  - rewrite exp_0. destruct u as [b c hh ww l]. unfold tmap. cbn [tdata tB tC tH tW] in *. f_equal. rewrite <- (map_id l) at 2. apply map_ext_in. intros x Hx. specialize (Ux x Hx). rewrite Rmult_1_r. apply Rmin_right. lra.
  - intros s h w Hs Hh _ E. rewrite St in E by (assumption || apply twf_tmap; assumption). injection E as <-. split; [apply twf_tmap, twf_tmap, T|]. split; [apply twf_tmap, T|]. split; [reflexivity|]. split; [|split].
    + apply Forall_forall. intros x Hx. cbn [tmap tdata] in Hx. apply in_map_iff in Hx as (y & <- & _). apply clamp_range. lra.
    + apply Forall_forall. intros x Hx. cbn [tmap tdata] in Hx. apply in_map_iff in Hx as (y & <- & Hy). specialize (Ux y Hy). split; [apply Rmin_glb; [lra|apply Rmult_le_pos; [lra|left; apply exp_pos]]|apply Rmin_l].
    + intros b c i j Hb Hc Hi Hj. cbn [tmap tB tC tH tW] in Hb, Hc, Hi, Hj. rewrite !get_tmap by (assumption || apply twf_tmap; assumption). apply grow_local; auto. apply Ux, get_in_data; assumption.
Qed.

Example C99_code_example : exists fuel s' u', driven 16 1 (cca_at (cd_core (code_init ex_cca))) /\ ready (cca_at (cd_core (code_init ex_cca))) ex_grid /\ 0 <= cd_min (code_init ex_cca) <= cd_max (code_init ex_cca) /\ code_run fuel 5 (code_init ex_cca) ex_grid = Ok (s', u').
Proof.
  destruct ex_step as (v & E). destruct (code_run_total 5 (code_init ex_cca) ex_grid v) as (fuel & s' & u' & H); try (cbn; lra || lia); [exact ex_wf|exact ex_grid_wf|exact E|].
  exists fuel, s', u'. split; [exact ex_driven|]. split; [exact ex_ready|]. split; [cbn; lra|exact H].
Qed.

Print Assumptions C99_cca.
Print Assumptions C99_built.
Print Assumptions C99_lenia.
Print Assumptions C99_orbium.
Print Assumptions C99_geminium.
Print Assumptions C99_smoothlife.
Print Assumptions C99_gray_scott.
Print Assumptions C99_neural.
Print Assumptions C99_exists.
Print Assumptions C99_rate.
Print Assumptions C99_time_adds.
Print Assumptions C99_equation.
Print Assumptions C99_only.
Print Assumptions C99_start.
Print Assumptions C99_time.
Print Assumptions C99_variable.
Print Assumptions C99_two_runs.
Print Assumptions C99_code.
Print Assumptions C99_random.
Print Assumptions C99_fixed.
Print Assumptions C99_rejected.
Print Assumptions C99_exponential.
