(** C114: what a seed decides. *)
From Coq Require Import Reals List Arith ZArith Lia Lra Bool.
From Verif Require Import Base MEvo MSeed SSeed PSeed PSeedX.
Import ListNotations.
Open Scope R_scope.

(** ** C114 *)

(** Every run with generators is a run of MEvo with some random inputs, so what is proved there for
    all draws holds of it: the same state or the same exception, unless numpy refuses a seed. *)
Theorem C114_refines so cf arms seeds v : (0 < co_size cf)%nat -> choice_sized so ->
  (length (elite_rows (ev_elites v)) <= co_size cf)%nat ->
  exists inputs, told (fun v => v) (t_run_seeds so cf arms seeds v) (run_seeds (setting_of so cf inputs) seeds v).
Proof. intros HP Hc Hv. exact (run_seeds_sim so cf arms seeds HP Hc v Hv). Qed.

(** A seed is refused exactly if it is negative or 2^32 or more. *)
Theorem C114_seed so s : (exists w, seed_all so s = Ok w) <-> (0 <= s < 2 ^ 32)%Z.
Proof.
  split.
  - intros [w H]. destruct (seed_ok_dec s) as [Hs|Hs]; [exact Hs|]. rewrite seed_all_bad in H by exact Hs. discriminate.
  - intros H. eexists. apply seed_all_ok, H.
Qed.

Theorem C114_refused so cf arms x v : ~ (0 <= x < 2 ^ 32)%Z -> t_run_seed so cf arms x v = Err ValueError.
Proof. intros H. unfold t_run_seed. rewrite seed_all_bad by exact H. reflexivity. Qed.

(** A seed that numpy takes also fails if its product with a generation's number is too large ... *)
Theorem C114_overflow so cf arms x v v' w' : (0 < co_size cf)%nat -> t_run_seed so cf arms x v = Ok (v', w') ->
  exists j, (0 < j <= co_gens cf)%nat /\ length (ev_log v') = (length (ev_log v) + j)%nat /\
    (0 <= x < 2 ^ 32)%Z /\ (Z.of_nat (j - 1) * x < 2 ^ 32)%Z.
Proof.
  intros HP E. apply run_seed_log in E as (Hx & j & Hj & Hl & Hi); [|exact HP]. exists j. split; [exact Hj|]. split; [exact Hl|].
  split; [exact Hx|]. apply (Hi (j - 1)%nat). lia.
Qed.

(** ... and only then. *)
Theorem C114_accepted so cf arms x v : (0 <= x < 2 ^ 32)%Z -> (Z.of_nat (co_gens cf - 1) * x < 2 ^ 32)%Z ->
  t_run_seed so cf arms x v <> Err ValueError.
Proof.
  intros Hx Hg. apply run_seed_err; [exact Hx|]. intros i Hi. unfold seed_ok. split; [lia|].
  apply Z.le_lt_trans with (Z.of_nat (co_gens cf - 1) * x)%Z; [|exact Hg]. apply Z.mul_le_mono_nonneg_r; lia.
Qed.

(** In one process a generation does not depend on the generators: every evaluation seeds them anew. *)
Theorem C114_forgets so cf x g v w w' : (0 < co_size cf)%nat ->
  t_generation so cf false x g v w = t_generation so cf false x g v w'.
Proof. exact (generation_forgets so cf x g v w w'). Qed.

(** Nor does the first one depend on the seed, and later ones only on its product with their number:
    what is drawn in them is the same in two searches, or twice in one. *)
Theorem C114_product so cf x x' g g' v w w' : (0 < co_size cf)%nat -> (Z.of_nat g * x = Z.of_nat g' * x')%Z ->
  (g + 1 <> co_gens cf)%nat -> (g' + 1 <> co_gens cf)%nat -> (g <= 6)%nat -> (g' <= 6)%nat ->
  t_generation so cf false x g v w = t_generation so cf false x' g' v w'.
Proof. exact (generation_same so cf x x' g g' v w w'). Qed.

Theorem C114_first so cf x x' v w w' : (0 < co_size cf)%nat -> co_gens cf <> 1%nat ->
  t_generation so cf false x 0 v w = t_generation so cf false x' 0 v w'.
Proof. intros HP Hg. apply generation_same; try lia; exact HP. Qed.

(** The agents drawn after a generation, with truncation selection: in one process from the first
    normal numbers of that product, the same ones for every seed after generation 0 and in every
    generation for seed 0; with arms from those that follow in the stream of the seed. *)
Theorem C114_blocks so cf (arms : bool) x g v w v' w' : (0 < co_size cf)%nat -> calm so -> co_mode cf = 0%nat -> (g + 1 <> co_gens cf)%nat ->
  t_generation so cf arms x g v w = Ok (v', w', false) ->
  let start := if arms then fst w else np_seed so (Z.of_nat g * x) in
  let n := ((co_size cf / 8 + 1) / 2)%nat in
  (forall k, (n <= k < co_size cf)%nat ->
     nth k (ev_pop v') [] = mvn so (ev_means v') (ev_covar v') (block so (length (ev_means v')) (k - n) start)) /\
  fst w' = np_after so (length (ev_means v')) (co_size cf - n) start.
Proof.
  intros HP Hc Hm Hg E start n. pose proof (generation_blocks so cf arms x g v w v' w' HP Hc Hm Hg E) as B. cbv zeta in B.
  assert (En : (elite_keep (co_size cf) * elitism / 2)%nat = n) by (unfold elite_keep, elitism, n; now rewrite Nat.mul_1_r).
  rewrite En in B. exact B.
Qed.

Theorem C114_zero so cf g g' v1 w1 v1' w1' v2 w2 v2' w2' k : (0 < co_size cf)%nat -> calm so -> co_mode cf = 0%nat ->
  (g + 1 <> co_gens cf)%nat -> (g' + 1 <> co_gens cf)%nat ->
  t_generation so cf false 0 g v1 w1 = Ok (v1', w1', false) -> t_generation so cf false 0 g' v2 w2 = Ok (v2', w2', false) ->
  length (ev_means v1') = length (ev_means v2') -> ((co_size cf / 8 + 1) / 2 <= k < co_size cf)%nat ->
  exists z, nth k (ev_pop v1') [] = mvn so (ev_means v1') (ev_covar v1') z /\ nth k (ev_pop v2') [] = mvn so (ev_means v2') (ev_covar v2') z.
Proof.
  intros HP Hc Hm Hg Hg' E1 E2 L Hk.
  destruct (C114_blocks so cf false 0 g v1 w1 v1' w1' HP Hc Hm Hg E1) as [B1 _].
  destruct (C114_blocks so cf false 0 g' v2 w2 v2' w2' HP Hc Hm Hg' E2) as [B2 _]. cbv zeta in B1, B2.
  eexists. split; [exact (B1 k Hk)|]. rewrite (B2 k Hk), L, !Z.mul_0_r. reflexivity.
Qed.

(** The two populations at the start take twice as many blocks as there are agents without an elite. *)
Theorem C114_start so cf v w : let fresh := (co_size cf - length (elite_rows (ev_elites v)))%nat in
  fst (snd (t_start so cf v w)) = np_after so (length (co_means cf)) (fresh + fresh) (fst w).
Proof. exact (start_blocks so cf v w). Qed.

(** A small source: normal numbers that count on from the seed. *)
Definition toy : source :=
  mkSource (Z * nat) unit (fun s => (s, 0%nat)) (fun _ => tt)
    (fun d g => (map (fun a => IZR (fst g) + INR (snd g + a)) (seq 0 d), (fst g, snd g + d)%nat))
    (fun m c z => z) (fun n k g => (repeat 0%nat k, g)) (fun n k g => (seq 0 k, g))
    (fun h => ([], h)) (fun l => seq 0 (length l)) (fun a w => (0, w)) (fun v w => w).

Definition toy_config : config := mkConfig 1 0 2 KParams false [0].

Example toy_fits : calm toy /\ choice_sized toy /\ (0 < co_size toy_config)%nat.
Proof.
  split; [split; reflexivity|]. split; [|cbn; lia]. intros n k g. apply seq_length.
Qed.

Lemma toy_run (arms : bool) : exists v w, t_run_seed toy toy_config arms 1 (new_evo None) = Ok (v, w) /\
  nth 0 (ev_pop v) [] = [if arms then 3 else 0].
Proof.
  unfold t_run_seed. rewrite seed_all_ok by (unfold seed_ok; lia). cbn [bind].
  set (r := t_start toy toy_config (new_evo None) (np_seed toy 1, th_seed toy 1)).
  change (parade (quiet toy toy_config) (fst r)) with (Ok (fst r)). cbn [bind].
  change (co_gens toy_config) with 2%nat. cbn [t_generations].
  assert (E1 : exists v1 w1, t_generation toy toy_config arms 1 0 (fst r) (show toy (fst r) (snd r)) = Ok (v1, w1, false) /\ length (ev_pop v1) = 2%nat /\ length (ev_means v1) = 1%nat).
  { unfold t_generation. destruct arms.
    - rewrite gather_ok by (unfold seed_ok; lia). cbn [guard Nat.leb bind]. change (Nat.leb (co_size toy_config) (length (ev_pop (fst r)))) with true. cbn [guard bind fst snd].
      unfold t_advance. change (Nat.eqb (0 + 1) (co_gens toy_config)) with false. cbv iota.
      rewrite stops_early by lia. eexists _, _. split; [reflexivity|]. split; reflexivity.
    - rewrite evaluate_ok by (unfold seed_ok; lia). change (Nat.leb (co_size toy_config) (length (ev_pop (fst r)))) with true. cbn [guard bind fst snd].
      unfold t_advance. change (Nat.eqb (0 + 1) (co_gens toy_config)) with false. cbv iota.
      rewrite stops_early by lia. eexists _, _. split; [reflexivity|]. split; reflexivity. }
  destruct E1 as (v1 & w1 & E1 & L1 & M1). rewrite E1. cbn [bind fst snd].
  destruct (C114_blocks toy toy_config arms 1 0 _ _ v1 w1 ltac:(cbn; lia) (proj1 toy_fits) eq_refl ltac:(cbn; lia) E1) as [B _].
  specialize (B 0%nat ltac:(cbn; lia)). rewrite M1 in B. clear E1.
  assert (B' : nth 0 (ev_pop v1) [] = [if arms then 3 else 0]).
  { rewrite B. destruct arms; cbn; f_equal; lra. }
  clear B. unfold t_generation. change (co_size toy_config) with 1%nat. rewrite L1. change (Nat.leb 1 2) with true. cbn [guard bind].
  assert (G : exists f w2, (if arms then gather toy else t_evaluate toy) (map (fun j => nth j (ev_pop v1) []) (seq 0 1)) (Z.of_nat 1 * 1)%Z w1 = Ok (f, w2) /\ length f = 1%nat).
  { destruct arms; [rewrite gather_ok by (unfold seed_ok; lia)|rewrite evaluate_ok by (unfold seed_ok; lia)]; eexists _, _; split; reflexivity. }
  destruct G as (f & w2 & G & Lf). cbn [seq map] in G |- *. rewrite G. cbn [bind fst snd].
  unfold t_advance. change (Nat.eqb (1 + 1) (co_gens toy_config)) with true. cbv iota.
  assert (Rk : exists v2, rank_population (quiet toy toy_config) f 1 v1 = Ok v2 /\ ev_pop v2 = ev_pop v1).
  { unfold rank_population. cbn [quiet setting_of se_chance ch_order]. change (argsort toy f) with (seq 0 (length f)). rewrite Lf.
    change (se_keep (setting_of toy toy_config (fun _ => mkTick (fun _ _ => []) [] (fun _ => []) []))) with 1%nat.
    change (select_top 1 (seq 0 1)) with (Ok [0%nat] : res (list nat)). cbn [bind forallb]. rewrite L1. change (Nat.ltb 0 2 && true) with true. cbn [guard bind].
    eexists. split; reflexivity. }
  destruct Rk as (v2 & Rk & P2). rewrite Rk. cbn [bind fst snd]. rewrite stops_early by lia. cbn [bind fst snd].
  set (lg := log_generation (quiet toy toy_config) f v2). assert (PL : ev_pop lg = ev_pop v1) by exact P2. clearbody lg.
  unfold closing. change (se_pattern (quiet toy toy_config)) with false. rewrite PL, L1.
  change (Nat.leb (se_keep (quiet toy toy_config)) 2) with true. cbn [guard bind].
  change (negb (Nat.eqb (se_gens (quiet toy toy_config)) 0)) with true. cbn [guard bind]. unfold parade. rewrite PL, L1.
  change (Nat.leb (Nat.min (se_keep (quiet toy toy_config)) 4) 2) with true. cbn [guard bind].
  change (se_kind (quiet toy toy_config)) with KParams. cbv iota. cbn [bind].
  change (negb (Nat.eqb 2 0)) with true. cbn [guard bind]. eexists _, _. split; [reflexivity|]. rewrite PL. exact B'.
Qed.

(** So a search with arms does not find what one process finds, though it evaluates the same. *)
Theorem C114_arms_refuted : exists so cf x v v1 w1 v2 w2, calm so /\ choice_sized so /\ (0 < co_size cf)%nat /\ (0 <= x < 2 ^ 32)%Z /\
  t_run_seed so cf false x v = Ok (v1, w1) /\ t_run_seed so cf true x v = Ok (v2, w2) /\ nth 0 (ev_pop v1) [] <> nth 0 (ev_pop v2) [].
Proof.
  destruct (toy_run false) as (v1 & w1 & E1 & P1). destruct (toy_run true) as (v2 & w2 & E2 & P2).
  exists toy, toy_config, 1%Z, (new_evo None), v1, w1, v2, w2. destruct toy_fits as (A & B & C).
  split; [exact A|]. split; [exact B|]. split; [exact C|]. split; [lia|]. split; [exact E1|]. split; [exact E2|].
  rewrite P1, P2. intros H. injection H as H. lra.
Qed.

(** With a RandomWrapper the fitness is the mean of numbers that only the clock decides: the thousandths
    of the second, at most 1000 seeds, at each step. Neither agent nor seed matter, and what is drawn
    next comes from the last of those seeds. *)
Theorem C114_random so uniform clock replicates s i : (0 < replicates)%nat -> (0 <= s < 2 ^ 32)%Z ->
  exists ks, length ks = replicates /\ (forall j, (j < replicates)%nat -> (0 <= nth j ks 0 <= 999)%Z /\ nth j ks 0%Z = clock_ms (clock (i + j)%nat)) /\
    random_fitness so uniform clock replicates s i =
      Ok (rsum replicates (fun j => fst (uniform (th_seed so (nth j ks 0%Z)))) / INR replicates,
          (np_seed so (last ks 0%Z), snd (uniform (th_seed so (last ks 0%Z))))).
Proof.
  intros Hr Hs. exists (map (fun j => clock_ms (clock j)) (seq i replicates)).
  assert (L : length (map (fun j => clock_ms (clock j)) (seq i replicates)) = replicates) by (rewrite map_length, seq_length; reflexivity).
  split; [exact L|].
  assert (N : forall j, (j < replicates)%nat -> nth j (map (fun j => clock_ms (clock j)) (seq i replicates)) 0%Z = clock_ms (clock (i + j)%nat)).
  { intros j Hj. rewrite (nth_indep _ 0%Z (clock_ms (clock 0%nat))) by (rewrite L; exact Hj).
    rewrite (map_nth (fun j => clock_ms (clock j)) (seq i replicates) 0%nat). rewrite seq_nth by exact Hj. reflexivity. }
  split; [intros j Hj; rewrite (N j Hj); split; [apply ms_range|reflexivity]|].
  unfold random_fitness. rewrite seed_all_ok by exact Hs. cbn [bind].
  destruct (replicates_eq so uniform clock replicates i (np_seed so s, th_seed so s)) as (w' & E & Hw). rewrite E. cbn [bind fst snd].
  replace (Nat.eqb replicates 0) with false by (symmetry; apply Nat.eqb_neq; lia). cbn [negb guard bind].
  rewrite Hw by lia.
  assert (La : last (map (fun j => clock_ms (clock j)) (seq i replicates)) 0%Z = clock_ms (clock (i + replicates - 1)%nat)).
  { destruct replicates as [|r]; [lia|]. rewrite seq_S, map_app. cbn [map]. rewrite last_last. f_equal. f_equal. lia. }
  rewrite La. f_equal. f_equal. unfold lmean. rewrite map_length, seq_length. f_equal. apply rsum_ext. intros j Hj.
  rewrite (N j Hj).
  rewrite (nth_indep _ 0 (fst (uniform (th_seed so (clock_ms (clock 0%nat)))))) by (rewrite map_length, seq_length; exact Hj).
  rewrite (map_nth (fun j => fst (uniform (th_seed so (clock_ms (clock j))))) (seq i replicates) 0%nat), seq_nth by exact Hj. reflexivity.
Qed.

(** With one replicate there are at most 1000 different fitnesses. *)
Theorem C114_thousand so uniform clock s i r : random_fitness so uniform clock 1 s i = Ok r ->
  In (fst r) (map (fun k => fst (uniform (th_seed so (Z.of_nat k)))) (seq 0 1000)).
Proof.
  intros E. destruct (seed_ok_dec s) as [Hs|Hs]; [|unfold random_fitness in E; rewrite seed_all_bad in E by exact Hs; discriminate].
  destruct (C114_random so uniform clock 1 s i ltac:(lia) Hs) as (ks & L & H & E'). rewrite E in E'. injection E' as ->. cbn [fst].
  destruct (H 0%nat ltac:(lia)) as [Hk _]. apply in_map_iff. exists (Z.to_nat (nth 0 ks 0%Z)). split.
  - rewrite Z2Nat.id by lia. unfold rsum. cbn. lra.
  - apply in_seq. lia.
Qed.

Example C114_random_example : exists r, random_fitness toy (fun h => (1 / 2, h)) (fun _ => 0) 1 0 0 = Ok r /\ fst r = 1 / 2.
Proof.
  destruct (C114_random toy (fun h => (1 / 2, h)) (fun _ => 0) 1 0 0 ltac:(lia) ltac:(lia)) as (ks & L & _ & E).
  eexists. split; [exact E|]. unfold rsum. cbn. lra.
Qed.

(** A seed numpy takes, and the generation in which it is refused. *)
Example C114_overflow_example : (0 <= 2 ^ 31 < 2 ^ 32)%Z /\ (Z.of_nat 1 * 2 ^ 31 < 2 ^ 32)%Z /\ ~ (Z.of_nat 2 * 2 ^ 31 < 2 ^ 32)%Z.
Proof. repeat split; lia. Qed.

(** Two generations under the seed 0. *)
Example C114_zero_example : let cf := mkConfig 1 0 3 KParams false [0] in
  let r := t_start toy cf (new_evo None) (np_seed toy 0, th_seed toy 0) in
  exists v1 w1 v2 w2, t_generation toy cf false 0 0 (fst r) (snd r) = Ok (v1, w1, false) /\
    t_generation toy cf false 0 1 (fst r) (snd r) = Ok (v2, w2, false) /\ length (ev_means v1) = length (ev_means v2).
Proof.
  cbv zeta. set (cf := mkConfig 1 0 3 KParams false [0]).
  set (r := t_start toy cf (new_evo None) (np_seed toy 0, th_seed toy 0)).
  assert (E : forall g, (g <= 1)%nat -> exists v w, t_generation toy cf false 0 g (fst r) (snd r) = Ok (v, w, false) /\ length (ev_means v) = 1%nat).
  { intros g Hg. unfold t_generation. rewrite evaluate_ok by (unfold seed_ok; lia).
    change (Nat.leb (co_size cf) (length (ev_pop (fst r)))) with true. cbn [guard bind fst snd].
    unfold t_advance. replace (Nat.eqb (g + 1) (co_gens cf)) with false by (symmetry; apply Nat.eqb_neq; change (co_gens cf) with 3%nat; lia). cbv iota.
    rewrite stops_early by lia. eexists _, _. split; [reflexivity|]. reflexivity. }
  destruct (E 0%nat ltac:(lia)) as (v1 & w1 & E1 & L1). destruct (E 1%nat ltac:(lia)) as (v2 & w2 & E2 & L2).
  exists v1, w1, v2, w2. split; [exact E1|]. split; [exact E2|]. rewrite L1, L2. reflexivity.
Qed.

Print Assumptions C114_refines.
Print Assumptions C114_seed.
Print Assumptions C114_refused.
Print Assumptions C114_overflow.
Print Assumptions C114_accepted.
Print Assumptions C114_forgets.
Print Assumptions C114_product.
Print Assumptions C114_first.
Print Assumptions C114_blocks.
Print Assumptions C114_zero.
Print Assumptions C114_start.
Print Assumptions C114_arms_refuted.
Print Assumptions C114_random.
Print Assumptions C114_thousand.
