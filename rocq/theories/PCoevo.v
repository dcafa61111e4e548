(** Proofs about coevolution, and the witnesses for the evolution strategy. *)
From Coq Require Import Reals Lra Lia List Arith Bool ZArith Permutation String.
From Verif Require Import Base PyDict Tensor MConfig MCppn SCppn MCoevo MEvo SEvo PCppn PConfig PEvo PEvoX.
Import ListNotations.
Open Scope R_scope.

(** ** Coevolution *)
Lemma saved_network o s v o' : get_params o = Some v -> (List.length v <= List.length (cppn_get_params (pl_cppn s)))%nat ->
  save_best o (plus_get_params s) = Ok o' -> get_params o' = Some (firstn (List.length v) (cppn_get_params (pl_cppn s))).
Proof.
  intros G L H. destruct (set_get _ _ _ H) as (v' & G' & E). rewrite G in G'. injection G' as <-. rewrite E. f_equal.
  unfold plus_get_params. rewrite firstn_app. replace (List.length v - _)%nat with 0%nat by lia. cbn [firstn]. apply app_nil_r.
Qed.

Lemma saved_blind o s1 s2 v : get_params o = Some v -> (List.length v <= List.length (cppn_get_params (pl_cppn s1)))%nat ->
  cppn_get_params (pl_cppn s1) = cppn_get_params (pl_cppn s2) -> save_best o (plus_get_params s1) = save_best o (plus_get_params s2).
Proof.
  intros G L E. unfold save_best, plus_get_params. rewrite <- E. set (w := cppn_get_params (pl_cppn s1)) in *.
  rewrite <- (firstn_skipn (List.length v) w), <- !app_assoc.
  assert (Lf : List.length (firstn (List.length v) w) = List.length v) by (apply firstn_length_le; exact L).
  rewrite !set_tail; try reflexivity; try (exists v; exact G); intros v' G'; rewrite G in G'; injection G' as <-; now rewrite Lf.
Qed.

Lemma rule_meant o s o' s' v : get_params o = Some v -> ag_filter (pl_agent s) = false -> rule_of_agent o s = Ok (o', s') ->
  get_params o' = Some (firstn (List.length v) (agent_get (pl_agent s))) /\ plus_get_params s' = plus_get_params s.
Proof.
  intros G F H. unfold rule_of_agent in H. apply bind_ok in H as ([[r t] s2] & Ha & H). apply bind_ok in H as (o2 & Ho & H). injection H as <- <-.
  unfold plus_action in Ha. apply bind_ok in Ha as (t' & _ & Ha). injection Ha as Hr <- Hs. unfold agent_action in Hr, Hs. rewrite F in Hr, Hs. cbn [fst snd] in *.
  subst r s2. destruct (set_get _ _ _ Ho) as (v' & G' & E). rewrite G in G'. injection G' as <-. split; [exact E|]. reflexivity.
Qed.

Lemma set_length o p o' v : get_params o = Some v -> set_params o p = Ok o' -> exists v', get_params o' = Some v'.
Proof. intros _ H. destruct (set_get _ _ _ H) as (w & _ & E). eexists. exact E. Qed.

(** The rules in the log are the right ones. *)
Lemma plus_init_agent e h d w b p draw s : plus_init e h d w b None (Some p) draw = Ok s ->
  ag_filter (pl_agent s) = false /\ agent_get (pl_agent s) = skipn (List.length (cppn_get_params (pl_cppn s))) p /\ cppn_init e h d w b = Ok (pl_cppn s).
Proof.
  intros H. unfold plus_init in H. apply bind_ok in H as (c & Hc & H). cbv zeta in H. injection H as <-. cbn [pl_agent pl_cppn]. split; [reflexivity|]. split; [reflexivity|exact Hc].
Qed.

Lemma elite_rules_spec e hid d w b draw E : forall h o v os o', get_params o = Some v ->
  (forall p, In p E -> (cppn_size e hid + List.length v <= List.length p)%nat) ->
  elite_rules e hid d w b draw h E o = Ok (os, o') ->
  map get_params os = map (fun p => Some (firstn (List.length v) (skipn (cppn_size e hid) p))) E /\ o' = last os o.
Proof.
  induction E as [|p t IH]; intros h o v os o' G L H; cbn [elite_rules] in H.
  - injection H as <- <-. split; reflexivity.
  - apply bind_ok in H as (s & Hs & H). apply bind_ok in H as ([o1 s1] & Hr & H). apply bind_ok in H as ([os2 o2] & Hk & H). injection H as <- <-. cbn [fst snd] in *.
    destruct (plus_init_agent _ _ _ _ _ _ _ _ Hs) as (F & A & C). destruct (rule_meant _ _ _ _ _ G F Hr) as [G1 _].
    assert (Ls : List.length (cppn_get_params (pl_cppn s)) = cppn_size e hid) by (destruct (cppn_init_wf _ _ _ _ _ _ C) as (W & <- & _); now apply cppn_wf_length).
    rewrite A, Ls in G1. assert (Lp : List.length (firstn (List.length v) (skipn (cppn_size e hid) p)) = List.length v).
    { apply firstn_length_le. rewrite skipn_length. specialize (L p (or_introl eq_refl)). lia. }
    destruct (IH (S h) o1 _ os2 o2 G1) as [M La]; [intros q Hq; rewrite Lp; apply L; now right|exact Hk|]. rewrite Lp in M. cbn [map]. rewrite G1, M. split; [reflexivity|].
    rewrite La. destruct os2 as [|x y]; [reflexivity|]. cbn [last]. clear. revert x. induction y as [|z y IH]; intros x; [reflexivity|]. cbn [last] in *. apply IH.
Qed.

(** ** Early stop: a run of one agent *)
(** One agent, whose draws get worse with time. *)
Definition down_set : setting := mkSetting 1 0 9 KParams false [0] (fun t _ _ => [- INR t]) (fun _ => []) (fun p _ => nth 0 p 0)
  (fun _ => mkChance (fun f => seq 0 (List.length f)) (fun _ => [0%nat]) [0%nat]).

Lemma seq_argsort1 x : is_argsort [x] [0%nat].
Proof. split; [apply Permutation_refl|]. cbn. intros i j H. assert (i = 0%nat) by lia. assert (j = 0%nat) by lia. subst. cbn. lra. Qed.

Definition down_at (a : R) (l : nat) (v : evo) : Prop := ev_pop v = [[a]; [- INR 1]] /\ ev_saved v = [] /\ List.length (ev_log v) = l.

Lemma down_eval p a x : nth 0 p [] = [a] -> evaluate down_set p x = [a].
Proof. intros H. change (evaluate down_set p x) with [nth 0 (nth 0 p []) 0]. unfold vec in *. rewrite H. reflexivity. Qed.

Lemma one_stops g a : stops g [a] = Nat.ltb 6 g.
Proof.
  pose proof (stops_spec g [a] ltac:(discriminate)) as H. cbv zeta in H. destruct (stops g [a]).
  - destruct H as [H _]. destruct (H eq_refl) as [G _]. symmetry. apply Nat.ltb_lt. lia.
  - symmetry. apply Nat.ltb_ge. destruct (Nat.le_gt_cases g 6) as [|G]; [assumption|]. destruct H as [_ H].
    assert (false = true); [|discriminate]. apply H. split; [lia|]. cbn. lra.
Qed.

Lemma down_step g v a x : (g < 7)%nat -> ev_pop v = [[a]; [- INR 1]] -> exists v', generation down_set x g v = Ok (v', false) /\
  ev_pop v' = [[- INR (ev_time v + 0)]; [- INR 1]] /\ ev_saved v' = ev_saved v /\ ev_time v' = (ev_time v + 1)%nat /\
  exists en, ev_log v' = (ev_log v ++ [en])%list /\ en_fitness en = [a].
Proof.
  intros Hg HP. unfold generation. rewrite HP. cbn [se_size down_set List.length Nat.leb guard bind].
  rewrite (down_eval _ a) by reflexivity. cbv zeta. rewrite one_stops. unfold advance.
  destruct (Nat.eqb_spec (g + 1) (se_gens down_set)) as [E|_]; [cbn in E; lia|].
  destruct (Nat.ltb_spec 6 g) as [?|_]; [lia|].
  unfold update_population. rewrite HP. change (se_keep down_set) with 1%nat.
  cbn [down_set se_mode se_chance select select_top ch_order List.length seq rev app Nat.leb guard bind firstn forallb Nat.ltb andb].
  eexists. split; [reflexivity|]. cbn [log_generation ev_pop ev_saved ev_time ev_log]. split; [reflexivity|]. split; [reflexivity|]. split; [reflexivity|].
  eexists. split; [reflexivity|]. reflexivity.
Qed.

Lemma down_stop v a x : ev_pop v = [[a]; [- INR 1]] -> exists v', generation down_set x 7 v = Ok (v', true) /\
  ev_pop v' = [[- INR (ev_time v + 0)]; [- INR 1]] /\ ev_saved v' = (ev_saved v ++ [(x, Some [- INR (ev_time v + 0)])])%list /\
  exists en, ev_log v' = (ev_log v ++ [en])%list /\ en_fitness en = [a].
Proof.
  intros HP. unfold generation. rewrite HP. cbn [se_size down_set List.length Nat.leb guard bind].
  rewrite (down_eval _ a) by reflexivity. cbv zeta. rewrite one_stops. unfold advance.
  destruct (Nat.eqb_spec (7 + 1) (se_gens down_set)) as [E|_]; [discriminate E|]. change (Nat.ltb 6 7) with true. cbv iota.
  unfold update_population. rewrite HP. change (se_keep down_set) with 1%nat.
  cbn [down_set se_mode se_chance select select_top ch_order List.length seq rev app Nat.leb guard bind firstn forallb Nat.ltb andb].
  unfold rank_population. change (se_keep down_set) with 1%nat.
  cbn [down_set se_pattern se_mode se_chance select select_top ch_order List.length seq rev app Nat.leb guard bind firstn forallb Nat.ltb andb log_generation ev_pop ev_saved ev_time ev_log redraw keep_elites fold_left upd elitism Nat.mul Nat.div Nat.divmod fst Nat.sub Nat.add snd].
  eexists. split; [reflexivity|]. cbn [ev_pop ev_saved ev_time ev_log map nth]. split; [reflexivity|]. split; [reflexivity|].
  eexists. split; [reflexivity|]. reflexivity.
Qed.

Lemma down_run x : exists v', run_seeds down_set [x] (new_evo None) = Ok v' /\ ev_saved v' = [(x, Some [- INR 9])] /\
  map en_fitness (ev_log v') = [[0]; [- INR 2]; [- INR 3]; [- INR 4]; [- INR 5]; [- INR 6]; [- INR 7]; [- INR 8]].
Proof.
  set (v0 := start_seed down_set (new_evo None)).
  assert (P0 : ev_pop v0 = [[- INR 0]; [- INR 1]]) by reflexivity. assert (T0 : ev_time v0 = 2%nat) by reflexivity.
  assert (S0 : ev_saved v0 = []) by reflexivity. assert (L0 : map en_fitness (ev_log v0) = []) by reflexivity.
  destruct (down_step 0 v0 _ x ltac:(lia) P0) as (v1 & H1 & P1 & S1 & T1 & n1 & L1 & F1). rewrite T0 in P1, T1. cbn [Nat.add] in P1, T1.
  destruct (down_step 1 v1 _ x ltac:(lia) P1) as (v2 & H2 & P2 & S2 & T2 & n2 & L2 & F2). rewrite T1 in P2, T2. cbn [Nat.add] in P2, T2.
  destruct (down_step 2 v2 _ x ltac:(lia) P2) as (v3 & H3 & P3 & S3 & T3 & n3 & L3 & F3). rewrite T2 in P3, T3. cbn [Nat.add] in P3, T3.
  destruct (down_step 3 v3 _ x ltac:(lia) P3) as (v4 & H4 & P4 & S4 & T4 & n4 & L4 & F4). rewrite T3 in P4, T4. cbn [Nat.add] in P4, T4.
  destruct (down_step 4 v4 _ x ltac:(lia) P4) as (v5 & H5 & P5 & S5 & T5 & n5 & L5 & F5). rewrite T4 in P5, T5. cbn [Nat.add] in P5, T5.
  destruct (down_step 5 v5 _ x ltac:(lia) P5) as (v6 & H6 & P6 & S6 & T6 & n6 & L6 & F6). rewrite T5 in P6, T6. cbn [Nat.add] in P6, T6.
  destruct (down_step 6 v6 _ x ltac:(lia) P6) as (v7 & H7 & P7 & S7 & T7 & n7 & L7 & F7). rewrite T6 in P7, T7. cbn [Nat.add] in P7, T7.
  destruct (down_stop v7 _ x P7) as (v8 & H8 & P8 & S8 & n8 & L8 & F8). rewrite T7 in S8, P8. cbn [Nat.add] in S8, P8.
  exists v8. cbn [run_seeds]. unfold run_seed. fold v0. assert (Pa : parade down_set v0 = Ok v0) by (unfold parade; rewrite P0; reflexivity). rewrite Pa. cbn [bind]. change (se_gens down_set) with 9%nat. cbn [generations]. fold down_set.
  change (mkSetting 1 0 9 KParams false [0] (fun (t : nat) (_ : vec) (_ : mat) => [- INR t]) (fun _ : nat => []) (fun (p : vec) (_ : Z) => nth 0 p 0)
     (fun _ : nat => mkChance (fun f : list R => seq 0 (List.length f)) (fun _ : nat => [0%nat]) [0%nat])) with down_set.
  rewrite H1. cbn [bind fst snd]. rewrite H2. cbn [bind fst snd]. rewrite H3. cbn [bind fst snd]. rewrite H4. cbn [bind fst snd]. rewrite H5. cbn [bind fst snd].
  rewrite H6. cbn [bind fst snd]. rewrite H7. cbn [bind fst snd]. rewrite H8. cbn [bind fst snd].
  assert (C : closing down_set v8 = Ok v8) by (unfold closing, parade; rewrite P8; reflexivity). rewrite C. cbn [bind Nat.eqb negb guard]. split; [reflexivity|]. split.
  - rewrite S8, S7, S6, S5, S4, S3, S2, S1, S0. reflexivity.
  - rewrite L8, L7, L6, L5, L4, L3, L2, L1, !map_app, L0. cbn [map app]. rewrite F1, F2, F3, F4, F5, F6, F7, F8. f_equal. f_equal. cbn [INR]. lra.
Qed.

(** ** Seeds: the second seed starts from the elites of the first *)
Definition up_set : setting := mkSetting 1 0 1 KParams false [0] (fun t _ _ => [INR t]) (fun _ => []) (fun p _ => nth 0 p 0)
  (fun _ => mkChance (fun f => seq 0 (List.length f)) (fun _ => [0%nat]) [0%nat]).
Definition forget (v : evo) : evo := mkEvo (ev_pop v) (ev_means v) (ev_covar v) None (ev_saved v) (ev_params v) (ev_log v) (ev_time v).

Lemma up_gen v a b x : ev_pop v = [[a]; [b]] -> ev_saved v = [] \/ True -> exists v' en, run_seeds up_set [] v = Ok v /\ generation up_set x 0 v = Ok (v', false) /\ ev_pop v' = [[a]; [b]] /\
  ev_elites v' = Some [[a]] /\ ev_time v' = ev_time v /\ ev_log v' = (ev_log v ++ [en])%list /\ en_fitness en = [a].
Proof.
  intros HP _. unfold generation. rewrite HP.
  assert (Ev : evaluate up_set [[a]; [b]] (Z.of_nat 0 * x) = [a]) by reflexivity. rewrite Ev. cbv zeta. rewrite one_stops.
  unfold advance, rank_population. change (se_keep up_set) with 1%nat. rewrite HP.
  cbn [up_set se_gens se_size se_pattern se_mode se_chance select select_top ch_order List.length seq rev app Nat.leb guard bind firstn forallb Nat.ltb andb Nat.eqb Nat.add map nth log_generation ev_pop ev_elites ev_time ev_log elite_rows].
  eexists. eexists. split; [reflexivity|]. split; [reflexivity|]. cbn [ev_pop ev_elites ev_time ev_log]. split; [exact HP || reflexivity|]. repeat split.
Qed.

Lemma up_run v a b x : ev_pop (start_seed up_set v) = [[a]; [b]] -> exists v' en, run_seed up_set x v = Ok v' /\ ev_elites v' = Some [[a]] /\ ev_time v' = ev_time (start_seed up_set v) /\
  ev_log v' = (ev_log v ++ [en])%list /\ en_fitness en = [a].
Proof.
  intros HP. destruct (up_gen _ a b x HP (or_intror I)) as (v' & en & _ & H & P & E & T & L & F). exists v', en. unfold run_seed.
  assert (Pa : parade up_set (start_seed up_set v) = Ok (start_seed up_set v)) by (unfold parade; rewrite HP; reflexivity). rewrite Pa. cbn [bind]. change (se_gens up_set) with 1%nat. cbn [generations]. rewrite H. cbn [bind fst snd].
  assert (C : closing up_set v' = Ok v') by (unfold closing, parade; rewrite P; reflexivity). rewrite C. cbn [bind Nat.eqb negb guard]. split; [reflexivity|]. split; [exact E|]. split; [exact T|]. split; [exact L|exact F].
Qed.

Lemma up_differs x y : exists v, run_seeds up_set [x] (new_evo None) = Ok v /\ exists v1 v2, run_seed up_set y v = Ok v1 /\ run_seed up_set y (forget v) = Ok v2 /\
  map en_fitness (ev_log v1) = [[0]; [0]] /\ map en_fitness (ev_log v2) = [[0]; [2]].
Proof.
  destruct (up_run (new_evo None) (INR 0) (INR 1) x eq_refl) as (v & n & H & E & T & L & F). assert (T2 : ev_time v = 2%nat) by exact T. clear T. rename T2 into T.
  exists v. cbn [run_seeds]. rewrite H. cbn [bind]. split; [reflexivity|].
  assert (P1 : ev_pop (start_seed up_set v) = [[INR 0]; [INR 0]]).
  { unfold start_seed, reset, initialize_population. cbn [ev_pop ev_elites ev_time]. rewrite E. reflexivity. }
  assert (P2 : ev_pop (start_seed up_set (forget v)) = [[INR 2]; [INR 3]]).
  { unfold start_seed, reset, initialize_population. cbn [ev_pop ev_elites ev_time forget]. rewrite T. reflexivity. }
  destruct (up_run v _ _ y P1) as (v1 & n1 & H1 & _ & _ & L1 & F1). destruct (up_run (forget v) _ _ y P2) as (v2 & n2 & H2 & _ & _ & L2 & F2).
  exists v1, v2. split; [exact H1|]. split; [exact H2|]. rewrite L1, L2. cbn [forget ev_log]. rewrite L. cbn [new_evo ev_log app map]. rewrite F, F1, F2. cbn [INR]. split; reflexivity.
Qed.

(** ** Elites: one that is lost *)
Definition loss_fit : list R := map (fun k => if Nat.eqb k 5 then 2 else if Nat.eqb k 0 then 1 else 0) (seq 0 24).
Definition loss_order : list nat := ([1;2;3;4] ++ seq 6 18 ++ [0;5])%nat%list.
Definition loss_set : setting := mkSetting 24 0 9 KParams false [0] (fun _ _ _ => [-1]) (fun _ => []) (fun p _ => nth 0 p 0)
  (fun _ => mkChance (fun _ => loss_order) (fun _ => [0%nat]) [0%nat]).
Definition loss_state : evo := mkEvo (map (fun k => [INR k]) (seq 0 24)) [0] [[1]] None [] [] [] 0.

Lemma loss_rank i : (i < 24)%nat -> nth (nth i loss_order 0%nat) loss_fit 0 = if Nat.eqb i 23 then 2 else if Nat.eqb i 22 then 1 else 0.
Proof. intros H. do 24 (destruct i as [|i]; [reflexivity|]). lia. Qed.

Lemma loss_sorted : is_argsort loss_fit loss_order.
Proof.
  split.
  - change (List.length loss_fit) with 24%nat. apply NoDup_Permutation.
    + unfold loss_order. cbn [seq app]. repeat (constructor; [cbn [In]; intuition discriminate|]). constructor.
    + apply seq_NoDup.
    + intros x. rewrite in_seq. unfold loss_order. cbn [seq app In]. lia.
  - change (List.length loss_fit) with 24%nat. intros i j H. rewrite !loss_rank by lia.
    destruct (Nat.eqb_spec i 23), (Nat.eqb_spec i 22), (Nat.eqb_spec j 23), (Nat.eqb_spec j 22); try lra; lia.
Qed.

Lemma loss_update : exists v', update_population loss_set loss_fit loss_state = Ok v' /\ best_agents 4 loss_fit [5; 0; 23; 22]%nat /\
  nth 0 (ev_pop loss_state) [] = [0] /\ forall k, nth k (ev_pop v') [] <> [0].
Proof.
  assert (H : exists v', update_population loss_set loss_fit loss_state = Ok v').
  { unfold update_population. change (se_keep loss_set) with 4%nat. cbn [loss_set se_mode se_chance select ch_order]. unfold select_top.
    change (Nat.leb 4 (List.length loss_order)) with true. cbn [guard bind]. change (firstn 4 (rev loss_order)) with [5; 0; 23; 22]%nat.
    change (List.length (ev_pop loss_state)) with 24%nat. cbn [forallb Nat.ltb Nat.leb andb guard bind]. eexists. reflexivity. }
  destruct H as (v' & H). exists v'. split; [exact H|].
  destruct (select_top_spec loss_fit loss_order 4 loss_sorted) as [T _]. destruct T as (e & He & Be); [cbn; lia|].
  assert (Ee : e = [5; 0; 23; 22]%nat) by (unfold select_top in He; cbn in He; congruence). rewrite Ee in Be. split; [exact Be|].
  split; [reflexivity|].
  destruct (update_inv _ _ _ _ H ltac:(cbn; lia)) as (e2 & He2 & _ & _ & Rr). cbv zeta in Rr. destruct Rr as (_ & _ & _ & _ & _ & _ & _ & Ln & K & D & U).
  assert (Ee2 : e2 = [5; 0; 23; 22]%nat) by (unfold select_top in He2; cbn in He2; congruence). subst e2. change (se_keep loss_set * elitism / 2)%nat with 2%nat in *.
  change (se_size loss_set) with 24%nat in *.
  assert (K0 : nth 0 (ev_pop v') [] = [INR 5]) by (rewrite (K 0%nat) by lia; reflexivity).
  assert (N5 : INR 5 <> 0) by (apply not_0_INR; discriminate).
  intros k. destruct (Nat.lt_ge_cases k 24) as [Hk|Hk].
  - destruct (Nat.lt_ge_cases k 2) as [H2|H2].
    + destruct k as [|[|k]]; [rewrite K0; congruence| |lia]. rewrite (K 1%nat) by lia. cbn [nth Nat.ltb Nat.leb]. rewrite K0. congruence.
    + rewrite (D k) by lia. cbn [loss_set se_draw]. intros E. injection E. lra.
  - rewrite U by exact Hk. rewrite nth_overflow by (cbn; exact Hk). discriminate.
Qed.
