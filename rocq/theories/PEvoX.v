(** Proofs about whole runs of the evolution strategy. *)
From Coq Require Import Reals Lra Lia List Arith Bool ZArith Permutation.
From Verif Require Import Base MEvo SEvo PEvo.
Import ListNotations.
Open Scope R_scope.

Lemma kept_le P : (1 <= P)%nat -> (elite_keep P * elitism / 2 <= P)%nat.
Proof.
  intros H. pose proof (elite_keep_bounds P H) as B. unfold elitism. rewrite Nat.mul_1_r.
  pose proof (Nat.div_le_upper_bound (elite_keep P) 2 (elite_keep P) ltac:(lia) ltac:(lia)). lia.
Qed.

Lemma kept_small P : (P < 8)%nat -> (elite_keep P * elitism / 2 = 0)%nat.
Proof. intros H. unfold elite_keep, elitism. rewrite (Nat.div_small P 8) by exact H. reflexivity. Qed.

Lemma kept_big P : (8 <= P)%nat -> (1 <= elite_keep P * elitism / 2)%nat.
Proof.
  intros H. unfold elitism. rewrite Nat.mul_1_r. apply Nat.div_le_lower_bound; [lia|]. unfold elite_keep.
  assert (1 <= P / 8)%nat by (apply Nat.div_le_lower_bound; lia). set (q := (P / 8)%nat) in *. lia.
Qed.

Lemma rows_nth (p : mat) (e : list nat) k : (k < List.length e)%nat -> nth k (map (fun i => nth i p []) e) [] = nth (nth k e 0%nat) p [].
Proof. revert k. induction e as [|a t IH]; intros [|k] H; cbn in H; try lia; [reflexivity|]. cbn [map nth]. apply IH. lia. Qed.

(** ** One update *)
Lemma update_inv s f v v' : update_population s f v = Ok v' -> (1 <= se_size s)%nat -> exists e,
  select (se_mode s) (se_keep s) (se_chance s (ev_time v)) f = Ok e /\
  (forall i, In i e -> (i < List.length (ev_pop v))%nat) /\ (se_size s <= List.length (ev_pop v))%nat /\
  let E := map (fun i => nth i (ev_pop v) []) e in
  let n := (se_keep s * elitism / 2)%nat in
  ev_elites v' = Some E /\ ev_means v' = vec_mean E /\ ev_covar v' = vec_covar (se_keep s) E (ev_means v) /\
  ev_saved v' = ev_saved v /\ ev_params v' = ev_params v /\ ev_log v' = ev_log v /\ ev_time v' = (ev_time v + se_size s)%nat /\
  List.length (ev_pop v') = List.length (ev_pop v) /\
  (forall k, (k < n)%nat -> nth k (ev_pop v') [] = if Nat.ltb (nth k e 0%nat) k then nth (nth k e 0%nat) (ev_pop v') [] else nth (nth k e 0%nat) (ev_pop v) []) /\
  (forall k, (n <= k < se_size s)%nat -> nth k (ev_pop v') [] = se_draw s (ev_time v + k) (vec_mean E) (vec_covar (se_keep s) E (ev_means v))) /\
  (forall k, (se_size s <= k)%nat -> nth k (ev_pop v') [] = nth k (ev_pop v) []).
Proof.
  intros H HP. unfold update_population in H. apply bind_ok in H as (e & He & H). apply bind_ok in H as ([] & G1 & H). apply guard_ok in G1.
  cbv zeta in H. apply bind_ok in H as ([] & G2 & H). apply guard_ok in G2. apply andb_true_iff in G2 as [G2 G3]. apply Nat.leb_le in G2, G3.
  injection H as <-. exists e. split; [exact He|]. split; [intros i Hi; rewrite forallb_forall in G1; specialize (G1 i Hi); now apply Nat.ltb_lt in G1|].
  split; [exact G3|]. cbv zeta. cbn [ev_elites ev_means ev_covar ev_saved ev_params ev_log ev_time ev_pop].
  set (E := map (fun i => nth i (ev_pop v) []) e). set (n := (se_keep s * elitism / 2)%nat) in *.
  assert (Hn : (n <= se_size s)%nat) by (apply kept_le; exact HP).
  destruct (keep_elites_spec e n (ev_pop v) G2) as (L & U & K).
  destruct (redraw_spec (fun k => se_draw s (ev_time v + k) (vec_mean E) (vec_covar (se_keep s) E (ev_means v))) n (se_size s) (keep_elites e n (ev_pop v)) Hn ltac:(rewrite L; exact G3)) as (L' & R').
  do 7 (split; [reflexivity|]).
  match goal with |- List.length ?q0 = _ /\ _ => set (q := q0) end. change (List.length q = List.length (keep_elites e n (ev_pop v))) in L'.
  assert (R2 : forall k, nth k q [] = if Nat.leb n k && Nat.ltb k (se_size s) then se_draw s (ev_time v + k) (vec_mean E) (vec_covar (se_keep s) E (ev_means v)) else nth k (keep_elites e n (ev_pop v)) []) by exact R'.
  clearbody q. clear R'. rename R2 into R'.
  split; [now rewrite L', L|]. split; [|split].
  - intros k Hk. rewrite !R'. destruct (Nat.leb_spec n k) as [?|_]; [lia|]. cbn [andb]. rewrite K by exact Hk.
    destruct (Nat.ltb_spec (nth k e 0%nat) k) as [G|]; [|reflexivity]. destruct (Nat.leb_spec n (nth k e 0%nat)); [lia|]. reflexivity.
  - intros k Hk. rewrite R'. destruct (Nat.leb_spec n k) as [_|?]; [|lia]. destruct (Nat.ltb_spec k (se_size s)); [reflexivity|lia].
  - intros k Hk. rewrite R'. destruct (Nat.ltb_spec k (se_size s)) as [?|_]; [lia|]. rewrite andb_false_r. apply U. lia.
Qed.

Lemma rank_inv s f x v v' : rank_population s f x v = Ok v' -> exists e,
  select_top (se_keep s) (ch_order (se_chance s (ev_time v)) f) = Ok e /\ (forall i, In i e -> (i < List.length (ev_pop v))%nat) /\
  let E := map (fun i => nth i (ev_pop v) []) e in
  v' = mkEvo (ev_pop v) (vec_mean E) (vec_covar (se_keep s) E (ev_means v)) (Some E)
         (ev_saved v ++ [(x, if se_pattern s then None else Some (nth 0 E []))]) (ev_params v) (ev_log v) (ev_time v).
Proof.
  intros H. unfold rank_population in H. apply bind_ok in H as (e & He & H). apply bind_ok in H as ([] & G & H). apply guard_ok in G. injection H as <-.
  exists e. split; [exact He|]. split; [|reflexivity]. intros i Hi. rewrite forallb_forall in G. specialize (G i Hi). now apply Nat.ltb_lt in G.
Qed.

(** The order given by the sort is always a valid one. *)
Definition sorts (s : setting) : Prop := forall t f, is_argsort f (ch_order (se_chance s t) f).

Lemma evaluate_length s p x : List.length (evaluate s p x) = se_size s.
Proof. unfold evaluate. now rewrite map_length, seq_length. Qed.

Lemma evaluate_nth s p x k : (k < se_size s)%nat -> nth k (evaluate s p x) 0 = se_fit s (nth k p []) x.
Proof. intros H. unfold evaluate. now rewrite map_seq_nth. Qed.

Lemma top_first s f e t : sorts s -> List.length f = se_size s -> (1 <= se_size s)%nat ->
  select_top (se_keep s) (ch_order (se_chance s t) f) = Ok e ->
  best_agents (se_keep s) f e /\ (nth 0 e 0 < se_size s)%nat /\ (forall k, (k < se_size s)%nat -> nth k f 0 <= nth (nth 0 e 0%nat) f 0).
Proof.
  intros A L HP H. pose proof (elite_keep_bounds (se_size s) HP) as B. destruct (select_top_spec f _ (se_keep s) (A t f)) as [T _].
  destruct T as (e' & E' & Be); [rewrite L; apply B|]. rewrite H in E'. injection E' as <-. split; [exact Be|].
  destruct Be as (Le & N & I & S & O). assert (I0 : In (nth 0 e 0%nat) e) by (apply nth_In; rewrite Le; unfold se_keep; lia).
  split; [specialize (I _ I0); lia|]. intros k Hk. destruct (in_dec Nat.eq_dec k e) as [Hin|Hout].
  - apply In_nth with (d := 0%nat) in Hin as (a & Ha & <-). apply S. lia.
  - apply O; [exact I0|lia|exact Hout].
Qed.

(** Agent 0 after an update has the vector of an agent with the largest fitness. *)
Lemma update_best s f v v' : update_population s f v = Ok v' -> se_mode s = 0%nat -> sorts s -> List.length f = se_size s -> (8 <= se_size s)%nat ->
  exists b, (b < se_size s)%nat /\ (forall k, (k < se_size s)%nat -> nth k f 0 <= nth b f 0) /\ nth 0 (ev_pop v') [] = nth b (ev_pop v) [].
Proof.
  intros H M A L HP. destruct (update_inv s f v v' H ltac:(lia)) as (e & He & _ & _ & R). cbv zeta in R.
  destruct R as (_ & _ & _ & _ & _ & _ & _ & _ & K & _). rewrite M in He. cbn [select] in He.
  destruct (top_first s f e _ A L ltac:(lia) He) as (_ & B0 & B1). exists (nth 0 e 0%nat). split; [exact B0|]. split; [exact B1|].
  rewrite (K 0%nat) by (apply kept_big; exact HP). reflexivity.
Qed.

(** ** Invariants of a run *)
Definition log_psd (v : evo) : Prop := forall en, In en (ev_log v) -> exists d, sym_psd d (en_covar en).
Definition cov_psd (v : evo) : Prop := exists d, sym_psd d (ev_covar v).

Lemma update_psd s f v v' : update_population s f v = Ok v' -> cov_psd v' /\ ev_log v' = ev_log v.
Proof.
  intros H. unfold update_population in H. apply bind_ok in H as (e & _ & H). apply bind_ok in H as ([] & _ & H). cbv zeta in H. apply bind_ok in H as ([] & _ & H).
  injection H as <-. cbn [ev_covar ev_log]. split; [|reflexivity]. eexists. apply covar_psd.
Qed.

Lemma rank_psd s f x v v' : rank_population s f x v = Ok v' -> cov_psd v' /\ ev_log v' = ev_log v.
Proof. intros H. destruct (rank_inv s f x v v' H) as (e & _ & _ & ->). cbn [ev_log]. split; [|reflexivity]. eexists. cbn [ev_covar]. apply covar_psd. Qed.

Lemma advance_psd s x g f v v' : advance s x g f v = Ok v' -> cov_psd v' /\ ev_log v' = ev_log v.
Proof. unfold advance. destruct (Nat.eqb (g + 1) (se_gens s)); [apply rank_psd|apply update_psd]. Qed.

Lemma log_log s f v : ev_log (log_generation s f v) = (ev_log v ++ [mkEntry (elite_rows (ev_elites v)) (ev_means v) (ev_covar v) f])%list.
Proof. reflexivity. Qed.

Lemma generation_psd s x g v v' b : generation s x g v = Ok (v', b) -> log_psd v -> cov_psd v' /\ log_psd v'.
Proof.
  intros H I. unfold generation in H. apply bind_ok in H as ([] & _ & H). cbv zeta in H. apply bind_ok in H as (v1 & H1 & H).
  destruct (advance_psd _ _ _ _ _ _ H1) as [C1 L1].
  assert (I2 : log_psd (log_generation s (evaluate s (ev_pop v) (Z.of_nat g * x)) v1)).
  { intros en Hen. rewrite log_log, L1 in Hen. apply in_app_iff in Hen as [Hen|[<-|[]]]; [exact (I en Hen)|]. exact C1. }
  destruct (stops g (evaluate s (ev_pop v) (Z.of_nat g * x))).
  - apply bind_ok in H as (v3 & H3 & H). injection H as <- <-. destruct (rank_psd _ _ _ _ _ H3) as [C3 L3]. split; [exact C3|]. unfold log_psd. rewrite L3. exact I2.
  - injection H as <- <-. split; [exact C1|exact I2].
Qed.

Lemma generations_psd s x n : forall g v v', generations s x n g v = Ok v' -> log_psd v -> log_psd v'.
Proof.
  induction n as [|n IH]; intros g v v' H I; cbn [generations] in H.
  - injection H as <-. exact I.
  - apply bind_ok in H as ([v1 b] & H1 & H). cbn [fst snd] in H. destruct (generation_psd _ _ _ _ _ _ H1 I) as [_ I1].
    destruct b; [injection H as <-; exact I1|]. eapply IH; eassumption.
Qed.

Lemma give_same s E v v' : give_elites s E v = Ok v' -> ev_log v' = ev_log v /\ ev_elites v' = ev_elites v /\ ev_params v' = ev_params v /\ ev_saved v' = ev_saved v /\
  List.length (ev_pop v') = List.length (ev_pop v) /\ (se_keep s <= List.length (ev_pop v))%nat /\ (se_keep s <= List.length E)%nat /\
  forall k, nth k (ev_pop v') [] = if Nat.ltb k (se_keep s) then nth k E [] else nth k (ev_pop v) [].
Proof.
  intros H. unfold give_elites in H. apply bind_ok in H as ([] & G & H). apply guard_ok in G. apply andb_true_iff in G as [G1 G2]. apply Nat.leb_le in G1, G2.
  injection H as <-. cbn [ev_log ev_elites ev_params ev_saved ev_pop]. split; [reflexivity|]. split; [reflexivity|]. split; [reflexivity|]. split; [reflexivity|].
  split; [apply (fold_upd_length _ (fun _ k => nth k E []))|]. split; [exact G1|]. split; [exact G2|].
  intros k. rewrite (fold_upd_seq _ (fun k => nth k E [])) by (cbn; exact G1). reflexivity.
Qed.

Lemma parade_same s v v' : parade s v = Ok v' -> ev_log v' = ev_log v /\ ev_elites v' = ev_elites v /\ ev_params v' = ev_params v /\ ev_saved v' = ev_saved v /\
  List.length (ev_pop v') = List.length (ev_pop v) /\
  (se_kind s <> KPlus -> v' = v) /\
  (forall E, se_kind s = KPlus -> ev_elites v = Some E -> (se_keep s <= List.length E)%nat /\
     forall k, nth k (ev_pop v') [] = if Nat.ltb k (se_keep s) then nth k E [] else nth k (ev_pop v) []).
Proof.
  unfold parade. intros H. apply bind_ok in H as ([] & _ & H). destruct (se_kind s) eqn:K; try (injection H as <-; repeat split; congruence).
  apply bind_ok in H as ([] & _ & H). destruct (ev_elites v) as [E|] eqn:EE.
  - destruct (give_same s E v v' H) as (A1 & A2 & A3 & A4 & A5 & A6 & A7 & A8). rewrite A2, EE. do 5 (split; [try assumption; reflexivity|]). split; [congruence|].
    intros E' _ [= <-]. split; [exact A7|exact A8].
  - injection H as <-. rewrite EE. do 5 (split; [reflexivity|]). split; congruence.
Qed.

Lemma closing_same s v v' : closing s v = Ok v' -> ev_log v' = ev_log v /\ ev_elites v' = ev_elites v /\ ev_params v' = ev_params v /\ ev_saved v' = ev_saved v /\
  List.length (ev_pop v') = List.length (ev_pop v) /\
  (se_pattern s = true -> forall k, (k < se_keep s)%nat -> nth k (ev_pop v') [] = nth k (last (ev_params v) []) []).
Proof.
  unfold closing. intros H. apply bind_ok in H as ([] & _ & H). destruct (se_pattern s) eqn:Pt.
  - apply bind_ok in H as ([] & _ & H). destruct (give_same _ _ _ _ H) as (A1 & A2 & A3 & A4 & A5 & A6 & A7 & A8). do 5 (split; [assumption|]).
    intros _ k Hk. rewrite A8. destruct (Nat.ltb_spec k (se_keep s)); [reflexivity|lia].
  - apply bind_ok in H as ([] & _ & H). destruct (parade_same _ _ _ H) as (A1 & A2 & A3 & A4 & A5 & _). do 5 (split; [assumption|]). congruence.
Qed.

Lemma start_same s v : ev_log (start_seed s v) = ev_log v /\ ev_elites (start_seed s v) = ev_elites v /\ ev_params (start_seed s v) = ev_params v /\ ev_saved (start_seed s v) = ev_saved v.
Proof. repeat split; reflexivity. Qed.

Lemma run_seed_psd s x v v' : run_seed s x v = Ok v' -> log_psd v -> log_psd v'.
Proof.
  intros H I. unfold run_seed in H. apply bind_ok in H as (v0 & H0 & H). apply bind_ok in H as (v1 & H1 & H). apply bind_ok in H as (v2 & H2 & H). apply bind_ok in H as ([] & _ & H). injection H as <-.
  destruct (parade_same _ _ _ H0) as (A0 & _). destruct (closing_same _ _ _ H2) as (A2 & _). unfold log_psd. rewrite A2.
  apply (generations_psd _ _ _ _ _ _ H1). unfold log_psd. rewrite A0. exact I.
Qed.

Lemma run_seeds_psd s xs : forall v v', run_seeds s xs v = Ok v' -> log_psd v -> log_psd v'.
Proof.
  induction xs as [|x t IH]; intros v v' H I; cbn [run_seeds] in H; [injection H as <-; exact I|].
  apply bind_ok in H as (v1 & H1 & H). eapply IH; [exact H|]. eapply run_seed_psd; eassumption.
Qed.

(** ** Seeds *)
Lemma init_nth s v k : let n := List.length (elite_rows (ev_elites v)) in (k < Nat.max n (se_size s))%nat ->
  nth (List.length (ev_pop v) + k) (ev_pop (initialize_population s v)) [] =
    make_agent (se_kind s) (se_weights s (ev_time v + k))
      (if Nat.ltb k n then nth k (elite_rows (ev_elites v)) [] else se_draw s (ev_time v + k) (ev_means v) (ev_covar v)).
Proof.
  intros n Hk. unfold initialize_population. cbn [ev_pop]. fold n. rewrite app_nth2 by lia.
  replace (List.length (ev_pop v) + k - List.length (ev_pop v))%nat with k by lia.
  destruct (Nat.ltb_spec k n) as [G|G].
  - rewrite app_nth1 by (rewrite map_length, seq_length; exact G). now rewrite map_seq_nth.
  - rewrite app_nth2 by (rewrite map_length, seq_length; exact G). rewrite map_length, seq_length.
    assert (G2 : (k - n < se_size s - n)%nat) by lia.
    match goal with |- nth _ (map ?h ?l) _ = _ => rewrite (nth_indep (map h l) [] (h 0%nat)) by (rewrite map_length, seq_length; exact G2); rewrite (map_nth h l 0%nat) end.
    rewrite seq_nth by exact G2. now replace (n + (k - n))%nat with k by lia.
Qed.

Lemma init_length s v : List.length (ev_pop (initialize_population s v)) = (List.length (ev_pop v) + Nat.max (List.length (elite_rows (ev_elites v))) (se_size s))%nat.
Proof. unfold initialize_population. cbn [ev_pop]. rewrite !app_length, !map_length, !seq_length. lia. Qed.

Lemma start_length s v : List.length (ev_pop (start_seed s v)) = (2 * Nat.max (List.length (elite_rows (ev_elites v))) (se_size s))%nat.
Proof. unfold start_seed. rewrite init_length. unfold reset. rewrite init_length. cbn [ev_pop ev_elites initialize_population List.length]. lia. Qed.

Lemma start_nth s v k : (k < Nat.max (List.length (elite_rows (ev_elites v))) (se_size s))%nat ->
  nth k (ev_pop (start_seed s v)) [] = make_agent (se_kind s) (se_weights s (ev_time v + k))
    (if Nat.ltb k (List.length (elite_rows (ev_elites v))) then nth k (elite_rows (ev_elites v)) []
     else se_draw s (ev_time v + k) (se_means s) (start_covar (se_pattern s) (List.length (se_means s)))).
Proof.
  intros Hk. unfold start_seed. set (r := reset s v).
  assert (Lr : List.length (ev_pop r) = Nat.max (List.length (elite_rows (ev_elites v))) (se_size s)) by (unfold r, reset; rewrite init_length; reflexivity).
  unfold initialize_population at 1. cbn [ev_pop]. rewrite app_nth1 by lia. unfold r, reset.
  match goal with |- nth k (ev_pop (initialize_population s ?v0)) [] = _ => pose proof (init_nth s v0 k) as H end. cbv zeta in H. cbn [ev_pop ev_elites ev_time ev_means ev_covar List.length] in H. apply H. exact Hk.
Qed.

Lemma select_length s t f e : sorts s -> (1 <= List.length f)%nat -> select_top (se_keep s) (ch_order (se_chance s t) f) = Ok e -> List.length e = se_keep s.
Proof.
  intros A L H. unfold select_top in H. apply bind_ok in H as ([] & G & H). apply guard_ok in G. apply Nat.leb_le in G. injection H as <-.
  apply firstn_length_le. now rewrite rev_length.
Qed.

Lemma select_top_length k o e : select_top k o = Ok e -> List.length e = k.
Proof.
  intros H. unfold select_top in H. apply bind_ok in H as ([] & G & H). apply guard_ok in G. apply Nat.leb_le in G. injection H as <-.
  apply firstn_length_le. now rewrite rev_length.
Qed.

(** After a seed there are elites, and they come from the last ranking or update. *)
Definition has_elites (k : nat) (v : evo) : Prop := exists E, ev_elites v = Some E /\ List.length E = k.
Definition lottery_ok (s : setting) : Prop := forall t, List.length (ch_ranks (se_chance s t)) = se_keep s.

Lemma update_elites s f v v' : lottery_ok s -> update_population s f v = Ok v' -> has_elites (se_keep s) v'.
Proof.
  intros LO H. unfold update_population in H. apply bind_ok in H as (e & He & H). apply bind_ok in H as ([] & _ & H). cbv zeta in H. apply bind_ok in H as ([] & _ & H).
  injection H as <-. eexists. split; [reflexivity|]. rewrite map_length. unfold select in He. destruct (se_mode s) as [|[|[|m]]]; [|injection He as <-|injection He as <-|discriminate].
  - exact (select_top_length _ _ _ He).
  - unfold select_tourney. now rewrite map_length, seq_length.
  - unfold select_lottery. rewrite map_length. apply LO.
Qed.

Lemma rank_elites s f x v v' : rank_population s f x v = Ok v' -> has_elites (se_keep s) v'.
Proof.
  intros H. destruct (rank_inv _ _ _ _ _ H) as (e & He & _ & ->). eexists. split; [reflexivity|]. rewrite map_length. exact (select_top_length _ _ _ He).
Qed.

Lemma generation_elites s x g v v' b : lottery_ok s -> generation s x g v = Ok (v', b) -> has_elites (se_keep s) v'.
Proof.
  intros LO H. unfold generation in H. apply bind_ok in H as ([] & _ & H). cbv zeta in H. apply bind_ok in H as (v1 & H1 & H).
  destruct (stops g _).
  - apply bind_ok in H as (v3 & H3 & H). injection H as <- <-. exact (rank_elites _ _ _ _ _ H3).
  - injection H as <- <-. unfold has_elites. cbn [log_generation ev_elites]. unfold advance in H1. destruct (Nat.eqb (g + 1) (se_gens s)); [exact (rank_elites _ _ _ _ _ H1)|exact (update_elites _ _ _ _ LO H1)].
Qed.

Lemma generations_elites s x n : lottery_ok s -> forall g v v', generations s x (S n) g v = Ok v' -> has_elites (se_keep s) v'.
Proof.
  intros LO. induction n as [|n IH]; intros g v v' H.
  - cbn [generations] in H. apply bind_ok in H as ([v1 b] & H1 & H). cbn [fst snd] in H. pose proof (generation_elites _ _ _ _ _ _ LO H1). destruct b; injection H as <-; assumption.
  - remember (S n) as m. cbn [generations] in H. apply bind_ok in H as ([v1 b] & H1 & H). cbn [fst snd] in H. pose proof (generation_elites _ _ _ _ _ _ LO H1).
    destruct b; [injection H as <-; assumption|]. subst m. eapply IH. exact H.
Qed.

Lemma run_seed_elites s x v v' : lottery_ok s -> run_seed s x v = Ok v' -> has_elites (se_keep s) v'.
Proof.
  intros LO H. unfold run_seed in H. apply bind_ok in H as (v0 & H0 & H). apply bind_ok in H as (v1 & H1 & H). apply bind_ok in H as (v2 & H2 & H). apply bind_ok in H as ([] & G & H). injection H as <-.
  apply guard_ok, negb_true_iff, Nat.eqb_neq in G. destruct (se_gens s) as [|n] eqn:En; [congruence|].
  pose proof (generations_elites s x n LO _ _ _ H1) as (E & HE & L). destruct (closing_same _ _ _ H2) as (_ & A & _). exists E. split; [now rewrite A|exact L].
Qed.

(** ** The log *)
Lemma generation_log s x g v v' b : generation s x g v = Ok (v', b) -> exists en, ev_log v' = (ev_log v ++ [en])%list /\ en_fitness en = evaluate s (ev_pop v) (Z.of_nat g * x) /\
  b = stops g (en_fitness en) /\ ev_params v' = (if se_pattern s then [en_elites en] else ev_params v ++ [en_elites en])%list.
Proof.
  intros H. unfold generation in H. apply bind_ok in H as ([] & _ & H). cbv zeta in H. set (f := evaluate s (ev_pop v) (Z.of_nat g * x)) in *. apply bind_ok in H as (v1 & H1 & H).
  assert (P1 : ev_params v1 = ev_params v /\ ev_log v1 = ev_log v).
  { unfold advance in H1. destruct (Nat.eqb (g + 1) (se_gens s)).
    - destruct (rank_inv _ _ _ _ _ H1) as (e & _ & _ & ->). split; reflexivity.
    - unfold update_population in H1. apply bind_ok in H1 as (e & _ & H1). apply bind_ok in H1 as ([] & _ & H1). cbv zeta in H1. apply bind_ok in H1 as ([] & _ & H1). injection H1 as <-. split; reflexivity. }
  destruct P1 as [P1 L1]. exists (mkEntry (elite_rows (ev_elites v1)) (ev_means v1) (ev_covar v1) f). cbn [en_fitness en_elites].
  destruct (stops g f) eqn:St.
  - apply bind_ok in H as (v3 & H3 & H). injection H as <- <-. destruct (rank_inv _ _ _ _ _ H3) as (e & _ & _ & ->). cbn [ev_log ev_params]. rewrite log_log, L1. cbn [log_generation ev_params]. rewrite P1. repeat split.
  - injection H as <- <-. rewrite log_log, L1. cbn [log_generation ev_params]. rewrite P1. repeat split.
Qed.

(** Within a seed: as many entries as generations; fewer only after at least eight, when the last
    fitnesses are close to each other. *)
Lemma generations_log s x n : forall g v v', generations s x n g v = Ok v' -> exists new, ev_log v' = (ev_log v ++ new)%list /\
  (List.length new <= n)%nat /\
  (forall i, (S i < List.length new)%nat -> stops (g + i) (en_fitness (nth i new (mkEntry [] [] [] []))) = false) /\
  ((List.length new < n)%nat -> new <> [] /\ stops (g + List.length new - 1) (en_fitness (last new (mkEntry [] [] [] []))) = true) /\
  ev_params v' = (if se_pattern s then (match new with [] => ev_params v | _ => [en_elites (last new (mkEntry [] [] [] []))] end)
                  else ev_params v ++ map en_elites new)%list.
Proof.
  induction n as [|n IH]; intros g v v' H; cbn [generations] in H.
  - injection H as <-. exists []. rewrite app_nil_r. cbn. split; [reflexivity|]. split; [lia|]. split; [lia|]. split; [lia|]. destruct (se_pattern s); [reflexivity|]. now rewrite app_nil_r.
  - apply bind_ok in H as ([v1 b] & H1 & H). cbn [fst snd] in H. destruct (generation_log _ _ _ _ _ _ H1) as (en & L1 & F1 & B1 & P1).
    destruct b.
    + injection H as <-. exists [en]. split; [exact L1|]. cbn [List.length]. split; [lia|]. split; [lia|]. split.
      * intros _. split; [discriminate|]. cbn [last]. replace (g + 1 - 1)%nat with g by lia. now symmetry.
      * rewrite P1. destruct (se_pattern s); reflexivity.
    + destruct (IH (S g) v1 v' H) as (new & L & N & St & Sh & Pa). exists (en :: new). rewrite L, L1, <- app_assoc. split; [reflexivity|]. cbn [List.length]. split; [lia|]. split; [|split].
      * intros i Hi. destruct i as [|i]; [rewrite Nat.add_0_r; cbn [nth]; now symmetry|]. cbn [nth]. replace (g + S i)%nat with (S g + i)%nat by lia. apply St. lia.
      * intros Hl. split; [discriminate|]. destruct Sh as [Ne S1]; [lia|]. destruct new as [|e2 t]; [congruence|]. cbn [last]. cbn [List.length] in S1 |- *.
        replace (g + S (S (List.length t)) - 1)%nat with (S g + S (List.length t) - 1)%nat by lia. exact S1.
      * rewrite Pa, P1. destruct (se_pattern s).
        -- destruct new; reflexivity.
        -- cbn [map]. now rewrite <- app_assoc.
Qed.

(** ** Progress of the best fitness *)
Lemma update_pop_length s f v v' : update_population s f v = Ok v' -> (1 <= se_size s)%nat -> List.length (ev_pop v') = List.length (ev_pop v).
Proof. intros H HP. destruct (update_inv s f v v' H HP) as (e & _ & _ & _ & R). cbv zeta in R. tauto. Qed.

Lemma monotone_generation s x g v v' : se_mode s = 0%nat -> sorts s -> (8 <= se_size s)%nat -> (forall p a b, se_fit s p a = se_fit s p b) ->
  (g + 1 < se_gens s)%nat -> generation s x g v = Ok (v', false) ->
  forall y z m m', is_max (evaluate s (ev_pop v) y) m -> is_max (evaluate s (ev_pop v') z) m' -> m <= m'.
Proof.
  intros M A HP Fi Hg H y z m m' [I U] [I' U']. unfold generation in H. apply bind_ok in H as ([] & _ & H). cbv zeta in H. set (f := evaluate s (ev_pop v) (Z.of_nat g * x)) in *.
  apply bind_ok in H as (v1 & H1 & H). destruct (stops g f); [apply bind_ok in H as (? & _ & H); discriminate|]. injection H as <-. cbn [log_generation ev_pop] in *.
  unfold advance in H1. destruct (Nat.eqb_spec (g + 1) (se_gens s)); [lia|].
  destruct (update_best s f v v1 H1 M A (evaluate_length _ _ _) HP) as (b & Hb & Ub & E0).
  assert (Eb : m = se_fit s (nth b (ev_pop v) []) z).
  { apply Rle_antisym.
    - apply In_nth with (d := 0) in I as (k & Hk & <-). rewrite evaluate_length in Hk. rewrite evaluate_nth by exact Hk. specialize (Ub k Hk). unfold f in Ub. rewrite !evaluate_nth in Ub by assumption.
      rewrite (Fi _ y (Z.of_nat g * x)%Z), (Fi _ z (Z.of_nat g * x)%Z). exact Ub.
    - apply U. apply (nth_In _ 0) with (n := b) || idtac. rewrite (Fi _ z y), <- (evaluate_nth s (ev_pop v) y b Hb). apply nth_In. rewrite evaluate_length. exact Hb. }
  rewrite Eb, <- E0. apply U'. rewrite <- (evaluate_nth s (ev_pop v1) z 0) by lia. apply nth_In. rewrite evaluate_length. lia.
Qed.

Lemma monotone_generations s x n : se_mode s = 0%nat -> sorts s -> (8 <= se_size s)%nat -> (forall p a b, se_fit s p a = se_fit s p b) ->
  forall g v v', (g + n <= se_gens s)%nat -> generations s x n g v = Ok v' -> exists new, ev_log v' = (ev_log v ++ new)%list /\
  (forall en, hd_error new = Some en -> en_fitness en = evaluate s (ev_pop v) (Z.of_nat g * x)) /\
  forall i m m', (S i < List.length new)%nat -> is_max (en_fitness (nth i new (mkEntry [] [] [] []))) m -> is_max (en_fitness (nth (S i) new (mkEntry [] [] [] []))) m' -> m <= m'.
Proof.
  intros M A HP Fi. induction n as [|n IH]; intros g v v' Hg H; cbn [generations] in H.
  - injection H as <-. exists []. rewrite app_nil_r. split; [reflexivity|]. split; [discriminate|]. cbn. lia.
  - apply bind_ok in H as ([v1 b] & H1 & H). cbn [fst snd] in H. destruct (generation_log _ _ _ _ _ _ H1) as (en & L1 & F1 & _).
    destruct b.
    + injection H as <-. exists [en]. split; [exact L1|]. split; [intros e [= <-]; exact F1|]. cbn. lia.
    + destruct (IH (S g) v1 v' ltac:(lia) H) as (new & L & Hd & Mo). exists (en :: new). rewrite L, L1, <- app_assoc. split; [reflexivity|]. split; [intros e [= <-]; exact F1|].
      intros i m m' Hi I1 I2. destruct i as [|i]; [|cbn [nth] in I1, I2; apply (Mo i m m'); [cbn in Hi; lia|exact I1|exact I2]].
      cbn [nth] in I1. destruct new as [|e2 t]; [cbn in Hi; lia|]. cbn [nth] in I2. rewrite F1 in I1. rewrite (Hd e2 eq_refl) in I2.
      destruct n as [|n]; [cbn [generations] in H; injection H as <-; apply (f_equal (@List.length entry)) in L; rewrite app_length in L; cbn in L; lia|].
      eapply monotone_generation; [exact M|exact A|exact HP|exact Fi| |exact H1|exact I1|exact I2]. lia.
Qed.

(** ** What is saved *)
Lemma generation_saved s x g v v' b : generation s x g v = Ok (v', b) -> se_pattern s = false -> sorts s -> (1 <= se_size s)%nat ->
  let f := evaluate s (ev_pop v) (Z.of_nat g * x) in
  exists k, (k < se_size s)%nat /\ (forall j, (j < se_size s)%nat -> nth j f 0 <= nth k f 0) /\
    ((g + 1 = se_gens s)%nat -> b = false -> ev_saved v' = (ev_saved v ++ [(x, Some (nth k (ev_pop v) []))])%list /\ ev_pop v' = ev_pop v) /\
    ((g + 1 <> se_gens s)%nat -> b = false -> ev_saved v' = ev_saved v) /\
    ((g + 1 <> se_gens s)%nat -> b = true -> exists v1, update_population s f v = Ok v1 /\ ev_pop v' = ev_pop v1) .
Proof.
  intros H Pt A HP. cbv zeta. set (f := evaluate s (ev_pop v) (Z.of_nat g * x)) in *. unfold generation in H. apply bind_ok in H as ([] & _ & H). cbv zeta in H. fold f in H.
  apply bind_ok in H as (v1 & H1 & H).
  assert (Ex : exists e, select_top (se_keep s) (ch_order (se_chance s (ev_time v)) f) = Ok e).
  { destruct (select_top_spec f _ (se_keep s) (A (ev_time v) f)) as [T _]. destruct T as (e & He & _); [unfold f; rewrite evaluate_length; apply elite_keep_bounds; exact HP|]. now exists e. }
  destruct Ex as (e & He). destruct (top_first s f e _ A (evaluate_length _ _ _) HP He) as (Be & B0 & B1). exists (nth 0 e 0%nat). split; [exact B0|]. split; [exact B1|].
  unfold advance in H1. split; [|split].
  - intros E ->. apply Nat.eqb_eq in E. rewrite E in H1. destruct (stops g f); [apply bind_ok in H as (? & _ & H); discriminate|]. injection H as <-.
    destruct (rank_inv _ _ _ _ _ H1) as (e' & He' & _ & ->). rewrite He in He'. injection He' as <-. cbn [log_generation ev_saved ev_pop]. rewrite Pt. split; [|reflexivity].
    rewrite rows_nth by (rewrite (select_top_length _ _ _ He); unfold se_keep; pose proof (elite_keep_bounds _ HP); lia). reflexivity.
  - intros E ->. apply Nat.eqb_neq in E. rewrite E in H1. destruct (stops g f); [apply bind_ok in H as (? & _ & H); discriminate|]. injection H as <-.
    destruct (update_inv _ _ _ _ H1 HP) as (e' & _ & _ & _ & R). cbv zeta in R. cbn [log_generation ev_saved]. tauto.
  - intros E ->. apply Nat.eqb_neq in E. rewrite E in H1. destruct (stops g f); [|discriminate]. apply bind_ok in H as (v3 & H3 & H). injection H as <-.
    exists v1. split; [exact H1|]. destruct (rank_inv _ _ _ _ _ H3) as (e' & _ & _ & ->). reflexivity.
Qed.

(** At an early stop: the vector saved is what the agent with the largest fitness became. *)
Lemma early_saved s x g v v' : generation s x g v = Ok (v', true) -> se_pattern s = false -> sorts s -> (1 <= se_size s)%nat -> (g + 1 <> se_gens s)%nat ->
  let f := evaluate s (ev_pop v) (Z.of_nat g * x) in
  exists v1 k, update_population s f v = Ok v1 /\ (k < se_size s)%nat /\ (forall j, (j < se_size s)%nat -> nth j f 0 <= nth k f 0) /\
    ev_saved v' = (ev_saved v ++ [(x, Some (nth k (ev_pop v1) []))])%list /\ ev_pop v' = ev_pop v1 /\
    ((se_keep s * elitism / 2 <= k)%nat -> nth k (ev_pop v1) [] = se_draw s (ev_time v + k) (ev_means v1) (ev_covar v1)).
Proof.
  intros H Pt A HP Hg. cbv zeta. set (f := evaluate s (ev_pop v) (Z.of_nat g * x)) in *. unfold generation in H. apply bind_ok in H as ([] & _ & H). cbv zeta in H. fold f in H.
  apply bind_ok in H as (v1 & H1 & H). destruct (stops g f); [|discriminate]. apply bind_ok in H as (v3 & H3 & H). injection H as <-.
  unfold advance in H1. apply Nat.eqb_neq in Hg. rewrite Hg in H1. destruct (rank_inv _ _ _ _ _ H3) as (e & He & _ & ->). cbn [log_generation ev_time] in He.
  destruct (top_first s f e _ A (evaluate_length _ _ _) HP He) as (Be & B0 & B1). exists v1, (nth 0 e 0%nat). split; [exact H1|]. split; [exact B0|]. split; [exact B1|].
  destruct (update_inv _ _ _ _ H1 HP) as (e' & _ & _ & _ & Rr). cbv zeta in Rr. destruct Rr as (_ & Em & Ec & Es & _ & _ & _ & _ & _ & Dr & _).
  cbn [ev_saved ev_pop log_generation]. rewrite Pt, Es. split; [|split; [reflexivity|]].
  - rewrite rows_nth by (rewrite (select_top_length _ _ _ He); unfold se_keep; pose proof (elite_keep_bounds _ HP); lia). reflexivity.
  - intros Hk. rewrite Dr by (split; [exact Hk|exact B0]). now rewrite Em, Ec.
Qed.

(** ** The early stop criterion *)
Lemma pairwise n (a : nat -> R) : rsum n (fun i => rsum n (fun j => (a i - a j) ^ 2)) = 2 * (INR n * rsum n (fun i => a i ^ 2) - (rsum n a) ^ 2).
Proof.
  assert (E : forall i, rsum n (fun j => (a i - a j) ^ 2) = INR n * a i ^ 2 - 2 * a i * rsum n a + rsum n (fun j => a j ^ 2)).
  { intros i. rewrite <- (rsum_const n (a i ^ 2)), <- rsum_scal, <- rsum_minus, <- rsum_plus. apply rsum_ext. intros. ring. }
  rewrite (rsum_ext n _ (fun i => INR n * a i ^ 2 - 2 * rsum n a * a i + rsum n (fun j => a j ^ 2))) by (intros i _; rewrite E; ring).
  rewrite rsum_plus, rsum_minus, !rsum_scal, rsum_const. ring.
Qed.

Lemma variance_pairs f : f <> [] -> let n := List.length f in let a := fun i => nth i f 0 in
  rsum n (fun i => (a i - lmean f) ^ 2) / INR n = rsum n (fun i => rsum n (fun j => (a i - a j) ^ 2)) / (2 * INR n ^ 2).
Proof.
  intros Hf n a. assert (K : INR n <> 0) by (apply not_0_INR; unfold n; destruct f; [congruence|discriminate]).
  rewrite pairwise. unfold lmean. fold n. fold a.
  assert (E : rsum n (fun i => (a i - rsum n a / INR n) ^ 2) = rsum n (fun i => a i ^ 2) - 2 * (rsum n a / INR n) * rsum n a + INR n * (rsum n a / INR n) ^ 2).
  { rewrite <- (rsum_const n ((rsum n a / INR n) ^ 2)), <- rsum_scal, <- rsum_minus, <- rsum_plus. apply rsum_ext. intros. ring. }
  unfold a in E |- *. rewrite E. field. exact K.
Qed.

Lemma stops_spec g f : f <> [] -> let n := List.length f in
  stops g f = true <-> (7 <= g)%nat /\ rsum n (fun i => rsum n (fun j => (nth i f 0 - nth j f 0) ^ 2)) < 8 / 10000 * INR n ^ 2.
Proof.
  intros Hf n. unfold stops. rewrite andb_true_iff, Nat.ltb_lt. pose proof (variance_pairs f Hf) as V. cbv zeta in V. fold n in V.
  unfold lstd. fold n. rewrite V. set (Q := rsum n (fun i => rsum n (fun j => (nth i f 0 - nth j f 0) ^ 2))).
  assert (K : 0 < INR n) by (apply lt_0_INR; unfold n; destruct f; [congruence|cbn; lia]).
  assert (Q0 : 0 <= Q) by (apply rsum_nonneg; intros; apply rsum_nonneg; intros; apply pow2_ge_0).
  assert (D : Q / (2 * INR n ^ 2) * (2 * INR n ^ 2) = Q) by (field; lra). set (w := Q / (2 * INR n ^ 2)) in *.
  assert (K2 : 0 < INR n ^ 2) by (apply pow_lt; exact K).
  assert (W : 0 <= w) by (unfold w; apply Rmult_le_pos; [exact Q0|left; apply Rinv_0_lt_compat; lra]).
  destruct (Rlt_dec (sqrt w) (2 / 100)) as [S|S].
  - assert (w < 4 / 10000).
    { pose proof (sqrt_pos w). pose proof (sqrt_sqrt w W). nra. }
    split; [intros [_ G]; split; [lia|nra]|intros [G _]; split; [reflexivity|lia]].
  - assert (4 / 10000 <= w). { apply Rnot_lt_le in S. pose proof (sqrt_sqrt w W). nra. }
    split; [intros [E _]; discriminate|intros [_ G]; nra].
Qed.
