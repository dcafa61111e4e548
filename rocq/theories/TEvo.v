(** Theorems about the evolution strategy: C50-C55 and C70. *)
From Coq Require Import Reals Lra Lia List Arith Bool ZArith Permutation String.
From Verif Require Import Base PyDict Tensor MActivations MKernels MCommon MCca MConfig MCppn SCppn PCppn TCppn SGrid SCca SKern SConfig PTensor PDyn PAct PKern PKernX PKernY PConfig PConfigX PConfigY PConfigZ PConfigW PConfigV TConfig MCoevo MEvo SEvo PEvo PEvoX PCoevo.
Import ListNotations.
Open Scope R_scope.

(** ** C50 Selection *)

(** Whatever order the sort gives to equal fitnesses. *)
Theorem C50_best c keep f : is_argsort f (ch_order c f) -> (keep <= List.length f)%nat ->
  exists e, select 0 keep c f = Ok e /\ best_agents keep f e.
Proof. intros A L. exact (proj1 (select_top_spec f _ keep A) L). Qed.

Theorem C50_too_many c keep f : is_argsort f (ch_order c f) -> (List.length f < keep)%nat -> select 0 keep c f = Err IndexError.
Proof. intros A L. exact (proj2 (select_top_spec f _ keep A) L). Qed.

Theorem C50_keep P : elite_keep P = (1 + P / 8)%nat /\ ((1 <= P)%nat -> (1 <= elite_keep P <= P)%nat).
Proof. split; [unfold elite_keep; lia|apply elite_keep_bounds]. Qed.

(** Every tournament is won by the best of its bracket. *)
Theorem C50_tourney c keep f : (forall m, (m < keep)%nat -> ch_bracket c m <> []) ->
  exists e, select 1 keep c f = Ok e /\ List.length e = keep /\
  forall m, (m < keep)%nat -> In (nth m e 0%nat) (ch_bracket c m) /\ forall i, In i (ch_bracket c m) -> nth i f 0 <= nth (nth m e 0%nat) f 0.
Proof. intros H. eexists. split; [reflexivity|]. exact (tourney_spec keep _ f H). Qed.

(** The lottery: probabilities that fall with the rank like 1/(r+1)^2; the agent drawn for rank r
    is r-th best; no agent is drawn twice. *)
Theorem C50_lottery_prob n : (0 < n)%nat -> rsum n (lottery_prob n) = 1 /\ (forall r, (r < n)%nat -> 0 < lottery_prob n r <= 1) /\
  (forall r, lottery_prob n r * INR (r + 1) ^ 2 = lottery_prob n 0).
Proof.
  intros H. destruct (lottery_spec n H) as (A & B & _). split; [exact A|]. split; [exact B|]. intros r. unfold lottery_prob, lottery_weight.
  assert (INR (r + 1) <> 0) by (apply not_0_INR; lia).
  assert (rsum n (fun r => 1 / INR (r + 1) ^ 2) <> 0).
  { intros E. unfold lottery_prob, Rdiv in A. rewrite rsum_scal_r in A. change (rsum n lottery_weight = 0) in E. rewrite E in A. lra. }
  change (lottery_weight) with (fun r => 1 / INR (r + 1) ^ 2). cbn [Nat.add INR]. field. split; assumption.
Qed.

Theorem C50_lottery c keep f : is_argsort f (ch_order c f) -> NoDup (ch_ranks c) -> (forall r, In r (ch_ranks c) -> (r < List.length f)%nat) ->
  exists e, select 2 keep c f = Ok e /\ List.length e = List.length (ch_ranks c) /\ NoDup e /\ (forall i, In i e -> (i < List.length f)%nat) /\
  forall a b, (a < List.length e)%nat -> (b < List.length e)%nat -> (nth a (ch_ranks c) 0 <= nth b (ch_ranks c) 0)%nat -> nth (nth b e 0%nat) f 0 <= nth (nth a e 0%nat) f 0.
Proof.
  intros A N B. exists (select_lottery (ch_order c f) (ch_ranks c)). split; [reflexivity|]. destruct (lottery_distinct f _ _ A N B) as (D & L & I).
  split; [exact L|]. split; [exact D|]. split; [exact I|]. rewrite L. intros a b Ha Hb Hab. unfold select_lottery.
  assert (X : forall k, (k < List.length (ch_ranks c))%nat -> nth k (map (fun r => nth r (rev (ch_order c f)) 0%nat) (ch_ranks c)) 0%nat = nth (List.length f - 1 - nth k (ch_ranks c) 0%nat) (ch_order c f) 0%nat).
  { intros k Hk. set (h := fun r => nth r (rev (ch_order c f)) 0%nat). rewrite (nth_indep (map h _) 0%nat (h 0%nat)) by (rewrite map_length; exact Hk). rewrite (map_nth h). unfold h.
    pose proof (B _ (nth_In _ 0%nat Hk)) as Bk. pose proof (is_argsort_length _ _ A) as La. rewrite rev_nth by lia. f_equal. lia. }
  rewrite !X by assumption. pose proof (B _ (nth_In _ 0%nat Ha)) as Ba. pose proof (B _ (nth_In _ 0%nat Hb)) as Bb. apply (proj2 A). lia.
Qed.

Theorem C50_modes keep c f m : (3 <= m)%nat -> select m keep c f = Err UnboundLocalError.
Proof. intros H. destruct m as [|[|[|m]]]; try lia. reflexivity. Qed.

Example ex_best : exists c e, is_argsort loss_fit (ch_order c loss_fit) /\ select 0 (elite_keep 24) c loss_fit = Ok e /\ best_agents 4 loss_fit e /\ nth 0 e 0%nat = 5%nat.
Proof.
  exists (mkChance (fun _ => loss_order) (fun _ => []) []), [5; 0; 23; 22]%nat. split; [exact loss_sorted|]. split; [reflexivity|]. split; [|reflexivity].
  destruct (select_top_spec loss_fit loss_order 4 loss_sorted) as [T _]. destruct T as (e & He & Be); [cbn; lia|].
  assert (Ee : e = [5; 0; 23; 22]%nat) by (unfold select_top in He; cbn in He; congruence). now rewrite <- Ee.
Qed.

Example ex_tourney : exists c e, select 1 2 c [1; 3; 2] = Ok e /\ e = [1; 2]%nat.
Proof.
  exists (mkChance (fun _ => []) (fun m => if Nat.eqb m 0 then [0; 1]%nat else [0; 2]%nat) []). eexists. split; [reflexivity|].
  unfold select_tourney, argmax. cbn [seq map Nat.eqb ch_bracket nth argmax_from].
  destruct (Rlt_dec 1 3); [|lra]. destruct (Rlt_dec 1 2); [|lra]. reflexivity.
Qed.

(** ** C51 Elitism *)
Theorem C51_best s f v v' : update_population s f v = Ok v' -> se_mode s = 0%nat -> sorts s -> List.length f = se_size s -> (8 <= se_size s)%nat ->
  exists b, (b < se_size s)%nat /\ (forall k, (k < se_size s)%nat -> nth k f 0 <= nth b f 0) /\ nth 0 (ev_pop v') [] = nth b (ev_pop v) [].
Proof. exact (update_best s f v v'). Qed.

(** The whole new population, for every selection mode: [n] agents are set from the elites, one
    after the other and in place; the others are drawn from the new distribution. *)
Theorem C51_population s f v v' : update_population s f v = Ok v' -> (1 <= se_size s)%nat -> exists e n,
  select (se_mode s) (se_keep s) (se_chance s (ev_time v)) f = Ok e /\ (2 * n <= 1 + se_size s / 8 < 2 * n + 2)%nat /\
  ev_elites v' = Some (map (fun i => nth i (ev_pop v) []) e) /\
  List.length (ev_pop v') = List.length (ev_pop v) /\
  (forall k, (k < n)%nat -> nth k (ev_pop v') [] = if Nat.ltb (nth k e 0%nat) k then nth (nth k e 0%nat) (ev_pop v') [] else nth (nth k e 0%nat) (ev_pop v) []) /\
  (forall k, (n <= k < se_size s)%nat -> nth k (ev_pop v') [] = se_draw s (ev_time v + k) (ev_means v') (ev_covar v')) /\
  (forall k, (se_size s <= k)%nat -> nth k (ev_pop v') [] = nth k (ev_pop v) []).
Proof.
  intros H HP. destruct (update_inv s f v v' H HP) as (e & He & _ & _ & R). cbv zeta in R. destruct R as (R1 & R2 & R3 & _ & _ & _ & _ & R4 & R5 & R6 & R7).
  exists e, (se_keep s * elitism / 2)%nat. split; [exact He|]. split.
  - unfold se_keep, elite_keep, elitism. rewrite Nat.mul_1_r. set (q := (se_size s / 8)%nat). pose proof (Nat.div_mod (q + 1) 2 ltac:(lia)). pose proof (Nat.mod_upper_bound (q + 1) 2 ltac:(lia)). lia.
  - split; [exact R1|]. split; [exact R4|]. split; [exact R5|]. split; [|exact R7]. intros k Hk. rewrite R6 by exact Hk. now rewrite R2, R3.
Qed.

(** Small populations keep nothing. *)
Theorem C51_small s f v v' : update_population s f v = Ok v' -> (1 <= se_size s < 8)%nat ->
  forall k, (k < se_size s)%nat -> nth k (ev_pop v') [] = se_draw s (ev_time v + k) (ev_means v') (ev_covar v').
Proof.
  intros H HP k Hk. destruct (update_inv s f v v' H ltac:(lia)) as (e & _ & _ & _ & R). cbv zeta in R. destruct R as (_ & R2 & R3 & _ & _ & _ & _ & _ & _ & R6 & _).
  rewrite R6; [now rewrite R2, R3|]. unfold se_keep. rewrite kept_small by lia. lia.
Qed.

(** A lower elite that no agent has any more. *)
Theorem C51_refuted : exists s f v v', is_argsort f (ch_order (se_chance s (ev_time v)) f) /\ se_mode s = 0%nat /\ update_population s f v = Ok v' /\
  (forall e, select (se_mode s) (se_keep s) (se_chance s (ev_time v)) f = Ok e -> best_agents (se_keep s) f e /\ nth 1 e 0%nat = 0%nat) /\
  nth 0 (ev_pop v) [] = [0] /\ forall k, nth k (ev_pop v') [] <> [0].
Proof.
  destruct loss_update as (v' & H & B & Z & N). exists loss_set, loss_fit, loss_state, v'. split; [exact loss_sorted|]. split; [reflexivity|]. split; [exact H|]. split; [|split; [exact Z|exact N]].
  intros e He. assert (Ee : e = [5; 0; 23; 22]%nat) by (change (select (se_mode loss_set) (se_keep loss_set) (se_chance loss_set (ev_time loss_state)) loss_fit) with (Ok [5; 0; 23; 22]%nat : res (list nat)) in He; congruence).
  rewrite Ee. split; [exact B|reflexivity].
Qed.

(** When the fitness does not depend on the seed, the largest fitness never falls within a seed. *)
Theorem C51_monotone s x n g v v' : se_mode s = 0%nat -> sorts s -> (8 <= se_size s)%nat -> (forall p a b, se_fit s p a = se_fit s p b) ->
  (g + n <= se_gens s)%nat -> generations s x n g v = Ok v' -> exists new, ev_log v' = (ev_log v ++ new)%list /\
  forall i m m', (S i < List.length new)%nat -> is_max (en_fitness (nth i new (mkEntry [] [] [] []))) m -> is_max (en_fitness (nth (S i) new (mkEntry [] [] [] []))) m' -> m <= m'.
Proof.
  intros M A P F Hg H. destruct (monotone_generations s x n M A P F g v v' Hg H) as (new & L & _ & Mo). exists new. split; [exact L|exact Mo].
Qed.

(** ** C52 The distribution *)
Theorem C52_psd keep E m : sym_psd (List.length (nth 0 E [])) (vec_covar keep E m).
Proof. exact (covar_psd keep E m). Qed.

Theorem C52_start pattern d : sym_psd d (start_covar pattern d) /\
  forall a b, (a < d)%nat -> (b < d)%nat -> ent (start_covar pattern d) a b =
    if Nat.eqb a b then (if pattern then 1 else if Nat.eqb a 0 then 0.15 else 0.000075) else 0.
Proof.
  split; [exact (start_psd pattern d)|]. intros a b Ha Hb. unfold ent, start_covar. rewrite map_seq_nth by exact Ha. rewrite map_seq_nth by exact Hb.
  destruct (Nat.eqb a b); [|reflexivity]. unfold start_weight. destruct pattern; [apply Rabs_R1|]. destruct (Nat.eqb a 0); rewrite Rabs_pos_eq; lra.
Qed.

(** Every covariance logged in any run. *)
Theorem C52_run s xs E v' : run_seeds s xs (new_evo E) = Ok v' -> forall en, In en (ev_log v') -> exists d, sym_psd d (en_covar en).
Proof. intros H. apply (run_seeds_psd s xs _ _ H). intros en []. Qed.

Theorem C52_mean E a : (a < List.length (nth 0 E []))%nat -> nth a (vec_mean E) 0 = rsum (List.length E) (fun i => nth a (nth i E []) 0) / INR (List.length E).
Proof. exact (mean_nth E a). Qed.

(** About the old mean: the spread of the elites plus the square of the move. *)
Theorem C52_shift E m a b : let d := List.length (nth 0 E []) in let k := List.length E in (0 < k)%nat -> (a < d)%nat -> (b < d)%nat ->
  ent (vec_covar k E m) a b = ent (vec_covar k E (vec_mean E)) a b + (nth a (vec_mean E) 0 - nth a m 0) * (nth b (vec_mean E) 0 - nth b m 0).
Proof. exact (covar_shift E m a b). Qed.

(** What an update does to the distribution: the mean is that of the elites, the covariance is
    taken about the mean before. *)
Theorem C52_update s f v v' E : update_population s f v = Ok v' -> (1 <= se_size s)%nat -> ev_elites v' = Some E ->
  ev_means v' = vec_mean E /\ forall a b, (a < List.length (nth 0 E []))%nat -> (b < List.length (nth 0 E []))%nat ->
    ent (ev_covar v') a b = rsum (List.length E) (fun i => (nth a (nth i E []) 0 - nth a (ev_means v) 0) * (nth b (nth i E []) 0 - nth b (ev_means v) 0)) / INR (se_keep s).
Proof.
  intros H HP EE. destruct (update_inv s f v v' H HP) as (e & _ & _ & _ & R). cbv zeta in R. destruct R as (R1 & R2 & R3 & _). rewrite EE in R1. injection R1 as ->.
  split; [exact R2|]. intros a b Ha Hb. rewrite R3, covar_ent by assumption. unfold Rdiv. rewrite Rmult_1_l. apply Rmult_comm.
Qed.

Example ex_covar : ent (vec_covar 2 [[1; 0]; [3; 2]] [0; 0]) 0 1 = 3 /\ ent (vec_covar 2 [[1; 0]; [3; 2]] (vec_mean [[1; 0]; [3; 2]])) 0 1 = 1.
Proof. unfold ent, vec_covar, vec_mean. cbn. split; lra. Qed.

(** ** C53 Early stop *)

(** In the last generation the vector written to the saved automaton is that of an agent with the
    largest fitness. *)
Theorem C53_last s x g v v' : generation s x g v = Ok (v', false) -> (g + 1 = se_gens s)%nat -> se_pattern s = false -> sorts s -> (1 <= se_size s)%nat ->
  exists k, (k < se_size s)%nat /\ (forall j, (j < se_size s)%nat -> se_fit s (nth j (ev_pop v) []) (Z.of_nat g * x) <= se_fit s (nth k (ev_pop v) []) (Z.of_nat g * x)) /\
    ev_saved v' = (ev_saved v ++ [(x, Some (nth k (ev_pop v) []))])%list /\ ev_pop v' = ev_pop v.
Proof.
  intros H G Pt A HP. destruct (generation_saved s x g v v' false H Pt A HP) as (k & Hk & U & L & _). exists k. split; [exact Hk|]. split.
  - intros j Hj. specialize (U j Hj). rewrite !evaluate_nth in U by assumption. exact U.
  - exact (L G eq_refl).
Qed.

Theorem C53_middle s x g v v' : generation s x g v = Ok (v', false) -> (g + 1 <> se_gens s)%nat -> se_pattern s = false -> sorts s -> (1 <= se_size s)%nat -> ev_saved v' = ev_saved v.
Proof. intros H G Pt A HP. destruct (generation_saved s x g v v' false H Pt A HP) as (k & _ & _ & _ & M & _). exact (M G eq_refl). Qed.

(** At an early stop it is what the population update made of that agent; beyond the agents set
    from elites it is a fresh draw, which nobody has evaluated. *)
Theorem C53_early s x g v v' : generation s x g v = Ok (v', true) -> se_pattern s = false -> sorts s -> (1 <= se_size s)%nat -> (g + 1 <> se_gens s)%nat ->
  exists v1 k n, update_population s (evaluate s (ev_pop v) (Z.of_nat g * x)) v = Ok v1 /\ (k < se_size s)%nat /\
    (forall j, (j < se_size s)%nat -> se_fit s (nth j (ev_pop v) []) (Z.of_nat g * x) <= se_fit s (nth k (ev_pop v) []) (Z.of_nat g * x)) /\
    ev_saved v' = (ev_saved v ++ [(x, Some (nth k (ev_pop v1) []))])%list /\ (2 * n <= 1 + se_size s / 8 < 2 * n + 2)%nat /\
    ((n <= k)%nat -> nth k (ev_pop v1) [] = se_draw s (ev_time v + k) (ev_means v1) (ev_covar v1)).
Proof.
  intros H Pt A HP G. destruct (early_saved s x g v v' H Pt A HP G) as (v1 & k & H1 & Hk & U & Sv & _ & D). exists v1, k, (se_keep s * elitism / 2)%nat.
  split; [exact H1|]. split; [exact Hk|]. split; [intros j Hj; specialize (U j Hj); rewrite !evaluate_nth in U by assumption; exact U|]. split; [exact Sv|]. split; [|exact D].
  unfold se_keep, elite_keep, elitism. rewrite Nat.mul_1_r. set (q := (se_size s / 8)%nat). pose proof (Nat.div_mod (q + 1) 2 ltac:(lia)). pose proof (Nat.mod_upper_bound (q + 1) 2 ltac:(lia)). lia.
Qed.

(** A whole run where the saved vector is worse than every agent that was evaluated. *)
Theorem C53_refuted : exists s x v' p, run_seeds s [x] (new_evo None) = Ok v' /\ ev_saved v' = [(x, Some p)] /\ List.length (ev_log v') = 8%nat /\
  forall en r y, In en (ev_log v') -> In r (en_fitness en) -> se_fit s p y < r.
Proof.
  destruct (down_run 1) as (v' & H & S1 & L). exists down_set, 1%Z, v', [- INR 9]. split; [exact H|]. split; [exact S1|].
  assert (Ln : List.length (ev_log v') = 8%nat) by (rewrite <- (map_length en_fitness), L; reflexivity). split; [exact Ln|].
  intros en r y I1 I2. change (se_fit down_set [- INR 9] y) with (- INR 9). assert (I3 : In (en_fitness en) (map en_fitness (ev_log v'))) by (now apply in_map). rewrite L in I3.
  assert (X : exists k, (k < 9)%nat /\ r = - INR k).
  { cbn [In] in I3. repeat (destruct I3 as [E|I3]; [rewrite <- E in I2; destruct I2 as [<-|[]]|]); [exists 0%nat|exists 2%nat|exists 3%nat|exists 4%nat|exists 5%nat|exists 6%nat|exists 7%nat|exists 8%nat|destruct I3]; (split; [lia|]); try reflexivity. cbn. lra. }
  destruct X as (k & Hk & ->). apply Ropp_lt_contravar. now apply lt_INR.
Qed.

(** When it stops: from the eighth generation on, and when the fitnesses are close: their variance,
    which is the mean over all pairs of half the squared difference, is below 0.0004. *)
Theorem C53_when g f : f <> [] -> let n := List.length f in
  stops g f = true <-> (7 <= g)%nat /\ rsum n (fun i => rsum n (fun j => (nth i f 0 - nth j f 0) ^ 2)) < 8 / 10000 * INR n ^ 2.
Proof. exact (stops_spec g f). Qed.

(** The number of generations of a seed. *)
Theorem C53_length s x v v' : generations s x (se_gens s) 0 v = Ok v' -> exists new, ev_log v' = (ev_log v ++ new)%list /\
  (List.length new <= se_gens s)%nat /\
  (forall i, (S i < List.length new)%nat -> stops i (en_fitness (nth i new (mkEntry [] [] [] []))) = false) /\
  ((List.length new < se_gens s)%nat -> (8 <= List.length new)%nat /\ stops (List.length new - 1) (en_fitness (last new (mkEntry [] [] [] []))) = true).
Proof.
  intros H. destruct (generations_log s x _ 0 v v' H) as (new & L & N & St & Sh & _). exists new. split; [exact L|]. split; [exact N|]. split; [exact St|].
  intros Hl. destruct (Sh Hl) as [Ne S1]. cbn [Nat.add] in S1. split; [|exact S1]. unfold stops in S1. apply andb_true_iff in S1 as [_ G]. apply Nat.ltb_lt in G. lia.
Qed.

(** ** C54 Seeds *)

(** After a seed there are elites; the agents of the next seed start from them (kind KParams) or
    are given them by the first picture (kind KPlus); pattern networks start afresh. *)
Theorem C54_next s x v v' : lottery_ok s -> run_seed s x v = Ok v' -> (1 <= se_size s)%nat -> exists E, ev_elites v' = Some E /\ List.length E = se_keep s /\
  (forall k, (k < se_size s)%nat ->
     (se_kind s = KParams -> nth k (ev_pop (start_seed s v')) [] =
        if Nat.ltb k (se_keep s) then nth k E [] else se_draw s (ev_time v' + k) (se_means s) (start_covar (se_pattern s) (List.length (se_means s)))) /\
     (se_kind s = KNet -> nth k (ev_pop (start_seed s v')) [] = se_weights s (ev_time v' + k)) /\
     (se_kind s = KPlus -> forall w, parade s (start_seed s v') = Ok w -> (k < se_keep s)%nat -> nth k (ev_pop w) [] = nth k E [])).
Proof.
  intros LO H HP. destruct (run_seed_elites s x v v' LO H) as (E & EE & L). exists E. split; [exact EE|]. split; [exact L|].
  pose proof (elite_keep_bounds _ HP) as B. intros k Hk.
  assert (Hk2 : (k < Nat.max (List.length (elite_rows (ev_elites v'))) (se_size s))%nat) by lia.
  pose proof (start_nth s v' k Hk2) as N. rewrite EE in N. cbn [elite_rows] in N. rewrite L in N. split; [|split].
  - intros K. rewrite N, K. reflexivity.
  - intros K. rewrite N, K. reflexivity.
  - intros K w Hw Hkk. destruct (parade_same _ _ _ Hw) as (_ & _ & _ & _ & _ & _ & P). destruct (P E K) as [_ P2]; [rewrite (proj1 (proj2 (start_same s v'))); exact EE|].
    rewrite P2. destruct (Nat.ltb_spec k (se_keep s)); [reflexivity|lia].
Qed.

(** Patterns and rules cannot be evolved together under a tag that names patterns: the first
    picture is asked for with a keyword that the co-evolving class does not know, and nothing has
    been logged or saved by then. *)
Theorem C54_tag s xs v : se_kind s = KPlus -> se_pattern s = true -> xs <> [] -> (1 <= se_size s)%nat -> run_seeds s xs v = Err TypeError.
Proof.
  intros K P N L. destruct xs; [congruence|]. cbn [run_seeds]. unfold run_seed, parade. rewrite K, P, start_length.
  pose proof (elite_keep_bounds _ L). destruct (Nat.leb_spec (Nat.min (se_keep s) 4) (2 * Nat.max (List.length (elite_rows (ev_elites v))) (se_size s))) as [_|C]; [reflexivity|].
  unfold se_keep in C. lia.
Qed.

(** The first seed, without a log file. *)
Theorem C54_first s k : (k < se_size s)%nat -> List.length (ev_pop (start_seed s (new_evo None))) = (2 * se_size s)%nat /\
  nth k (ev_pop (start_seed s (new_evo None))) [] = make_agent (se_kind s) (se_weights s k) (se_draw s k (se_means s) (start_covar (se_pattern s) (List.length (se_means s)))).
Proof.
  intros Hk. split; [rewrite start_length; reflexivity|]. rewrite start_nth by (cbn; exact Hk). reflexivity.
Qed.

(** What the first agents of a seed are: the elites of the run before and then draws. Parameters are
    taken as they are; a network has new weights instead; a network with a rule has new weights and
    behind them the rest of the elite or the draw. *)
Theorem C54_agents s v k : (k < Nat.max (List.length (elite_rows (ev_elites v))) (se_size s))%nat ->
  let w := se_weights s (ev_time v + k) in let a := nth k (ev_pop (start_seed s v)) [] in
  let p := if Nat.ltb k (List.length (elite_rows (ev_elites v))) then nth k (elite_rows (ev_elites v)) []
           else se_draw s (ev_time v + k) (se_means s) (start_covar (se_pattern s) (List.length (se_means s))) in
  (se_kind s = KParams -> a = p) /\ (se_kind s = KNet -> a = w) /\
  (se_kind s = KPlus -> List.length a = Nat.max (List.length w) (List.length p) /\
     (forall i, (i < List.length w)%nat -> nth i a 0 = nth i w 0) /\ forall i, (List.length w <= i)%nat -> nth i a 0 = nth i p 0).
Proof.
  intros Hk w a p. assert (E : a = make_agent (se_kind s) w p) by (apply start_nth; exact Hk).
  split; [intros K; rewrite E, K; reflexivity|]. split; [intros K; rewrite E, K; reflexivity|]. intros K. rewrite E, K. cbn [make_agent].
  split; [rewrite app_length, skipn_length; lia|]. split; intros i Hi; [apply app_nth1; exact Hi|]. rewrite app_nth2 by exact Hi.
  rewrite <- (firstn_skipn (List.length w) p) at 2. destruct (le_lt_dec (List.length w) (List.length p)) as [L|L].
  - rewrite (app_nth2 (firstn _ _)) by (rewrite firstn_length; lia). rewrite firstn_length, Nat.min_l by exact L. reflexivity.
  - rewrite skipn_all2 by lia. rewrite app_nil_r. rewrite nth_overflow by (cbn; lia). rewrite nth_overflow; [reflexivity|]. rewrite firstn_length. lia.
Qed.

Example C54_agents_case : let s := mkSetting 2 0 1 KPlus false [0; 0; 0] (fun t _ _ => [INR t; 1; 2]) (fun t => [5; 6]) (fun _ _ => 0) (se_chance up_set) in
  nth 1 (ev_pop (start_seed s (new_evo None))) [] = [5; 6; 2].
Proof. reflexivity. Qed.

(** A second seed that logs other fitnesses than it would without the elites of the first. *)
Theorem C54_refuted : exists s x y v v1 v2, run_seeds s [x] (new_evo None) = Ok v /\ run_seed s y v = Ok v1 /\ run_seed s y (forget v) = Ok v2 /\
  map en_fitness (ev_log v1) <> map en_fitness (ev_log v2).
Proof.
  destruct (up_differs 1 2) as (v & H & v1 & v2 & H1 & H2 & L1 & L2). exists up_set, 1%Z, 2%Z, v, v1, v2. split; [exact H|]. split; [exact H1|]. split; [exact H2|].
  rewrite L1, L2. intros E. injection E. lra.
Qed.

(** All seeds share one log, in order; elite parameters are kept for all generations, or, when
    patterns are evolved, for the last. *)
Theorem C54_log s xs : forall v v', run_seeds s xs v = Ok v' -> exists new, ev_log v' = (ev_log v ++ new)%list /\
  (List.length new <= List.length xs * se_gens s)%nat /\
  ev_params v' = (if se_pattern s then match new with [] => ev_params v | _ => [en_elites (last new (mkEntry [] [] [] []))] end
                  else ev_params v ++ map en_elites new)%list.
Proof.
  induction xs as [|x t IH]; intros v v' H; cbn [run_seeds] in H.
  - injection H as <-. exists []. rewrite app_nil_r. split; [reflexivity|]. split; [cbn; lia|]. cbn [map]. rewrite app_nil_r. destruct (se_pattern s); reflexivity.
  - apply bind_ok in H as (v1 & H1 & H). unfold run_seed in H1. apply bind_ok in H1 as (w0 & W0 & H1). apply bind_ok in H1 as (w1 & W1 & H1). apply bind_ok in H1 as (w2 & W2 & H1). apply bind_ok in H1 as ([] & _ & H1). injection H1 as <-.
    destruct (parade_same _ _ _ W0) as (A0 & _ & B0 & _). destruct (closing_same _ _ _ W2) as (A2 & _ & B2 & _).
    destruct (generations_log s x _ 0 w0 w1 W1) as (n1 & L1 & N1 & _ & _ & P1). destruct (IH w2 v' H) as (n2 & L2 & N2 & P2).
    exists (n1 ++ n2)%list. rewrite L2, A2, L1, A0, app_assoc. split; [reflexivity|]. rewrite app_length. split; [cbn [List.length]; lia|].
    rewrite P2, B2, P1, B0. destruct (se_pattern s).
    + destruct n2 as [|a n2]; [now rewrite app_nil_r|]. assert (La : forall l d, last (l ++ a :: n2) d = last (a :: n2) (d : entry)) by (induction l as [|c l IHl]; intros d; [reflexivity|]; cbn [app]; rewrite <- (IHl d); destruct l; reflexivity).
      rewrite La. destruct n1; reflexivity.
    + now rewrite map_app, app_assoc.
Qed.

(** When patterns are evolved, the first agents end with the elites of the last log entry. *)
Theorem C54_closing s x v v' : run_seed s x v = Ok v' -> se_pattern s = true -> forall k, (k < se_keep s)%nat -> nth k (ev_pop v') [] = nth k (last (ev_params v') []) [].
Proof.
  intros H Pt k Hk. unfold run_seed in H. apply bind_ok in H as (v0 & H0 & H). apply bind_ok in H as (v1 & H1 & H). apply bind_ok in H as (v2 & H2 & H). apply bind_ok in H as ([] & _ & H). injection H as <-.
  destruct (closing_same _ _ _ H2) as (_ & _ & B2 & _ & _ & C). rewrite B2. exact (C Pt k Hk).
Qed.

(** With a log file the means are those of the elites it holds, and the first agents are the
    elites. *)
Theorem C54_resume s E k : (k < List.length E)%nat -> se_kind s = KParams ->
  nth k (ev_pop (start_seed s (new_evo (Some E)))) [] = nth k E [] /\ (forall m, starting_means (Some E) m = vec_mean E) /\ (forall m, starting_means None m = m).
Proof.
  intros Hk K. split; [|split; reflexivity]. rewrite start_nth by (cbn; lia). rewrite K. cbn [new_evo ev_elites elite_rows make_agent]. destruct (Nat.ltb_spec k (List.length E)); [reflexivity|lia].
Qed.

(** ** C55 Coevolution *)

(** The automaton saved as best has as parameters the first weights of the pattern network. *)
Theorem C55_saved o s v o' : get_params o = Some v -> (List.length v <= List.length (cppn_get_params (pl_cppn s)))%nat ->
  save_best o (plus_get_params s) = Ok o' -> get_params o' = Some (firstn (List.length v) (cppn_get_params (pl_cppn s))).
Proof. exact (saved_network o s v o'). Qed.

(** It does not depend on the rule at all. *)
Theorem C55_blind o s1 s2 v : get_params o = Some v -> (List.length v <= List.length (cppn_get_params (pl_cppn s1)))%nat ->
  cppn_get_params (pl_cppn s1) = cppn_get_params (pl_cppn s2) -> save_best o (plus_get_params s1) = save_best o (plus_get_params s2).
Proof. exact (saved_blind o s1 s2 v). Qed.

(** The rule the agent was evaluated with, and the rules written to the log. *)
Theorem C55_evaluated o s o' s' v : get_params o = Some v -> ag_filter (pl_agent s) = false -> rule_of_agent o s = Ok (o', s') ->
  get_params o' = Some (firstn (List.length v) (agent_get (pl_agent s))) /\ plus_get_params s' = plus_get_params s.
Proof. exact (rule_meant o s o' s' v). Qed.

Theorem C55_logged e hid d w b draw h E o v os o' : get_params o = Some v ->
  (forall p, In p E -> (cppn_size e hid + List.length v <= List.length p)%nat) ->
  elite_rules e hid d w b draw h E o = Ok (os, o') ->
  map get_params os = map (fun p => Some (firstn (List.length v) (skipn (cppn_size e hid) p))) E /\ o' = last os o.
Proof. exact (elite_rules_spec e hid d w b draw E h o v os o'). Qed.

(** An automaton that has six parameters and accepts the pairs that the examples need. *)
Lemma orb_obj : exists o, get_params o = Some [15 / 100; 15 / 1000; 15 / 100; 15 / 1000; 0; 1 / 2] /\
  forall p, (6 <= List.length p)%nat -> eps9 + nth 5 p 0 <> 0 -> exists o', set_params o p = Ok o'.
Proof.
  destruct ex_orb as (k & o0 & o1 & _ & _ & I & _ & _ & _ & _ & _ & C1 & C2 & C3 & C4 & C5 & C6 & _ & _ & C9 & C10). cbv zeta in *.
  change (read_kpar (o_kpar o0) (hget orb_heap 0%nat)) with (Ok (KPVec [0; 1 / 2]) : res kpar) in C9. apply Ok_inj in C9.
  change (dget "radius" (hget orb_heap 0%nat)) with (Some (VInt 1)) in C10. injection C10 as C10.
  exists o1. split; [unfold get_params; rewrite <- C9, C5, C6; reflexivity|]. intros p Lp Hp.
  destruct (obj_inv_wf o1 I) as (W & _). destruct (set_accepts o1 p [0; 1 / 2] 1) as [_ A]; auto. apply A.
  unfold fn_count. rewrite C5, C6. split; [cbn; lia|].
  destruct p as [|p0 [|p1 [|p2 [|p3 [|p4 [|p5 t]]]]]]; cbn [List.length] in Lp; try lia. cbn [nth] in Hp.
  destruct (pair_kernel p4 p5) as (k' & Hk' & _); [exact Hp|]. exists k'. exact Hk'.
Qed.

(** An agent whose rule is evaluated, logged with its own parameters, but saved with others. *)
Theorem C55_refuted : exists o s o1 s1 o2, rule_of_agent o s = Ok (o1, s1) /\ save_best o (plus_get_params s) = Ok o2 /\ get_params o1 = Some (agent_get (pl_agent s)) /\ get_params o2 <> get_params o1.
Proof.
  destruct orb_obj as (o & G & A).
  destruct (proj1 (C63_construct 1 2 (fun _ _ => 1) (fun _ _ => 0)) 64%nat ltac:(lia)) as (c & Hc). pose proof (C26_cppn_length _ _ _ _ _ _ Hc) as L.
  destruct (C63_built _ _ _ _ _ _ Hc) as (W & E & D & U & _). destruct (proj1 (C63_channels c 2 W U ltac:(lia)) (or_introl E)) as (t & Ht & _).
  set (r := [1; 2; 3; 4; 5; 6]). pose proof (C26_cppn_accepts c (map INR (seq 1 57))) as Ac. rewrite L, map_length, seq_length in Ac. destruct Ac as (c' & Hc').
  pose proof (proj1 (C26_cppn _ _ _ Hc')) as G'. rewrite L in G'. 
  pose proof eps9_pos' as Ep.
  set (s := mkPlus c (mkAgent r 6 false)).
  destruct (A r) as (o1 & H1); [cbn; lia|cbn; lra|].
  assert (Hr : rule_of_agent o s = Ok (o1, s)) by (unfold rule_of_agent, plus_action, s; cbn [pl_agent pl_cppn agent_action ag_filter ag_params ag_num fst snd]; rewrite Ht; cbn [bind fst snd]; rewrite H1; reflexivity).
  exists o, s, o1, s. destruct (C55_evaluated o s o1 s _ G eq_refl Hr) as [G1 _].
  assert (Hw : forall i, (i < 6)%nat -> nth i (cppn_get_params c) 0 = 1).
  { pose proof Hc as Hc2. unfold cppn_init in Hc2. apply bind_ok in Hc2 as (? & _ & Hc2). injection Hc2 as <-. intros i Hi. do 6 (destruct i as [|i]; [reflexivity|]). lia. }
  destruct (A (plus_get_params s)) as (o2 & H2).
  { unfold plus_get_params, s. cbn [pl_cppn]. rewrite app_length, L. cbn. lia. }
  { unfold plus_get_params, s. cbn [pl_cppn]. rewrite app_nth1 by (rewrite L; cbn; lia). rewrite Hw by lia. lra. }
  exists o2. split; [exact Hr|]. split; [exact H2|]. split; [exact G1|].
  rewrite (C55_saved o s _ o2 G ltac:(unfold s; cbn [pl_cppn]; rewrite L; cbn; lia) H2), G1. intros F. injection F as F. apply (f_equal (fun l => nth 1 l 0)) in F.
  cbn [List.length firstn] in F. unfold s in F. cbn [pl_cppn pl_agent agent_get ag_params] in F. change (nth 1 (firstn 6 r) 0) with 2 in F.
  pose proof (Hw 1%nat ltac:(lia)) as H0. destruct (cppn_get_params c) as [|a [|b l]]; cbn in F, H0; lra.
Qed.

(** ** C70 Fitness *)
Theorem C70_mean W (seed : Z -> W -> W) rs step steps reps x w :
  (steps = 0 \/ reps = 0 -> get_fitness seed rs step steps reps x w = Err ZeroDivisionError)%nat /\
  ((0 < steps)%nat -> (0 < reps)%nat -> exists ls w', replicates_of rs step steps (seed x w) ls w' /\ List.length ls = reps /\
     get_fitness seed rs step steps reps x w = Ok (total ou_reward (List.concat ls) / INR (steps * reps), total ou_active (List.concat ls) / INR (steps * reps), w')).
Proof. exact (get_fitness_spec W seed rs step steps reps x w). Qed.

Theorem C70_bounds W (seed : Z -> W -> W) rs step steps reps x w fit alive w' a b :
  (forall u, a <= ou_reward (fst (step u)) <= b) ->
  get_fitness seed rs step steps reps x w = Ok (fit, alive, w') -> a <= fit <= b.
Proof. exact (fitness_bounds W seed rs step steps reps x w fit alive w' a b). Qed.

(** An environment that counts: two replicates of three steps, each starting at 10. *)
Example ex_fitness : get_fitness (fun _ w => w) (fun _ : nat => 10%nat) (fun w => (mkOut (INR w) 1, S w)) 3 2 13 0%nat = Ok (11, 1, 13%nat).
Proof. unfold get_fitness. cbn. do 2 f_equal. f_equal; lra. Qed.

(** The log of one agent over eight generations. *)
Example ex_run : exists v, run_seeds down_set [13%Z] (new_evo None) = Ok v /\ List.length (ev_log v) = 8%nat.
Proof. destruct (down_run 13) as (v & H & _ & L). exists v. split; [exact H|]. rewrite <- (map_length en_fitness), L. reflexivity. Qed.

Print Assumptions C50_best.
Print Assumptions C50_too_many.
Print Assumptions C50_keep.
Print Assumptions C50_tourney.
Print Assumptions C50_lottery_prob.
Print Assumptions C50_lottery.
Print Assumptions C50_modes.
Print Assumptions C51_best.
Print Assumptions C51_population.
Print Assumptions C51_small.
Print Assumptions C51_refuted.
Print Assumptions C51_monotone.
Print Assumptions C52_psd.
Print Assumptions C52_start.
Print Assumptions C52_run.
Print Assumptions C52_mean.
Print Assumptions C52_shift.
Print Assumptions C52_update.
Print Assumptions C53_last.
Print Assumptions C53_middle.
Print Assumptions C53_early.
Print Assumptions C53_refuted.
Print Assumptions C53_when.
Print Assumptions C53_length.
Print Assumptions C54_next.
Print Assumptions C54_tag.
Print Assumptions C54_first.
Print Assumptions C54_agents.
Print Assumptions C54_refuted.
Print Assumptions C54_log.
Print Assumptions C54_closing.
Print Assumptions C54_resume.
Print Assumptions C55_saved.
Print Assumptions C55_blind.
Print Assumptions C55_evaluated.
Print Assumptions C55_logged.
Print Assumptions C55_refuted.
Print Assumptions C70_mean.
Print Assumptions C70_bounds.
