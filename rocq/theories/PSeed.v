(** Seeds and generators (proofs). *)
From Coq Require Import Reals List Arith ZArith Lia Bool.
From Verif Require Import Base MEvo MSeed SSeed.
Import ListNotations.
Open Scope R_scope.

Lemma seed_all_ok so s : seed_ok s -> seed_all so s = Ok (np_seed so s, th_seed so s).
Proof.
  intros [H1 H2]. unfold seed_all. apply Z.leb_le in H1. apply Z.ltb_lt in H2. rewrite H1, H2. reflexivity.
Qed.

Lemma seed_all_bad so s : ~ seed_ok s -> seed_all so s = Err ValueError.
Proof.
  intros H. unfold seed_all. destruct (Z.leb_spec 0 s) as [H1|H1]; [|reflexivity].
  destruct (Z.ltb_spec s (2 ^ 32)) as [H2|H2]; [|reflexivity]. exfalso. apply H. split; assumption.
Qed.

Lemma seed_ok_dec s : {seed_ok s} + {~ seed_ok s}.
Proof.
  unfold seed_ok. destruct (Z_le_dec 0 s) as [H1|H1]; [|right; intros [H _]; contradiction].
  destruct (Z_lt_dec s (2 ^ 32)) as [H2|H2]; [left; split; assumption|right; intros [_ H]; contradiction].
Qed.

Lemma np_after_add so d a b g : np_after so d (a + b) g = np_after so d b (np_after so d a g).
Proof. revert g. induction a as [|a IH]; intros g; [reflexivity|]. cbn [Nat.add np_after]. apply IH. Qed.

Lemma th_after_add so a b h : th_after so (a + b) h = th_after so b (th_after so a h).
Proof. revert h. induction a as [|a IH]; intros h; [reflexivity|]. cbn [Nat.add th_after]. apply IH. Qed.

Lemma seq_add n : forall k a, map (fun i => n + i)%nat (seq a k) = seq (n + a) k.
Proof. induction k as [|k IH]; intros a; [reflexivity|]. cbn [seq map]. rewrite IH. now replace (n + S a)%nat with (S (n + a)) by lia. Qed.

Lemma redraw_eq so m c : forall k a pop g, t_redraw so (seq a k) m c pop g =
  (fold_left (fun p i => upd i (mvn so m c (block so (length m) (i - a) g)) p) (seq a k) pop, np_after so (length m) k g).
Proof.
  induction k as [|k IH]; intros a pop g; [reflexivity|].
  cbn [seq t_redraw fold_left np_after]. unfold sample. cbn [fst snd]. rewrite IH, Nat.sub_diag. f_equal.
  change (block so (length m) 0 g) with (fst (normals so (length m) g)).
  assert (Ext : forall l p, (forall i, In i l -> (S a <= i)%nat) ->
    fold_left (fun p i => upd i (mvn so m c (block so (length m) (i - S a) (snd (normals so (length m) g)))) p) l p =
    fold_left (fun p i => upd i (mvn so m c (block so (length m) (i - a) g)) p) l p).
  { induction l as [|i l IHl]; intros p Hl; [reflexivity|]. cbn [fold_left].
    assert (Hi : (S a <= i)%nat) by (apply Hl; left; reflexivity).
    replace (block so (length m) (i - a) g) with (block so (length m) (i - S a) (snd (normals so (length m) g))).
    2:{ unfold block. replace (i - a)%nat with (S (i - S a))%nat by lia. reflexivity. }
    apply IHl. intros j Hj. apply Hl. right. exact Hj. }
  apply Ext. intros i Hi. apply in_seq in Hi. lia.
Qed.

Section P.
  Variable so : source.
  Variable cf : config.
  Let P := co_size cf.
  Let keep := elite_keep P.

  (** ** Evaluation *)

  Lemma evaluate_ok agents s w : seed_ok s ->
    t_evaluate so agents s w = Ok (map (fun a => fit_seeded so a s) agents,
      match agents with [] => w | _ => snd (fitness_of so (last agents []) (np_seed so s, th_seed so s)) end).
  Proof.
    intros Hs. revert w. induction agents as [|a t IH]; intros w; [reflexivity|].
    cbn [t_evaluate]. rewrite seed_all_ok by exact Hs. cbn [bind]. rewrite IH. cbn [bind fst snd map].
    destruct t as [|b t]; reflexivity.
  Qed.

  Lemma evaluate_bad agents s w : ~ seed_ok s -> agents <> [] -> t_evaluate so agents s w = Err ValueError.
  Proof. intros Hs Ha. destruct agents as [|a t]; [contradiction|]. cbn [t_evaluate]. rewrite seed_all_bad by exact Hs. reflexivity. Qed.

  Lemma gather_ok agents s w : seed_ok s -> gather so agents s w = Ok (map (fun a => fit_seeded so a s) agents, w).
  Proof. intros Hs. unfold gather. rewrite evaluate_ok by exact Hs. reflexivity. Qed.

  Lemma gather_bad agents s w : ~ seed_ok s -> agents <> [] -> gather so agents s w = Err ValueError.
  Proof. intros Hs Ha. unfold gather. rewrite evaluate_bad by assumption. reflexivity. Qed.

  (** ** Births *)

  Lemma born_elites_eq E : forall h, born_elites so cf E h =
    (map (fun i => make_agent (co_kind cf) (fst (weights so (th_after so i h))) (nth i E [])) (seq 0 (length E)), th_after so (length E) h).
  Proof.
    induction E as [|p t IH]; intros h; [reflexivity|].
    cbn [born_elites length seq map th_after nth]. rewrite IH. cbn [fst snd]. rewrite <- seq_shift, map_map. reflexivity.
  Qed.

  Lemma born_others_eq n m c : forall w, born_others so cf n m c w =
    (map (fun i => make_agent (co_kind cf) (fst (weights so (th_after so i (snd w)))) (mvn so m c (block so (length m) i (fst w)))) (seq 0 n),
     (np_after so (length m) n (fst w), th_after so n (snd w))).
  Proof.
    induction n as [|n IH]; intros [g h]; [reflexivity|].
    cbn [born_others seq map fst snd th_after np_after]. unfold sample. rewrite IH. cbn [fst snd].
    rewrite <- seq_shift, map_map. reflexivity.
  Qed.

  Definition birth (n : nat) (w : gens so) (i : nat) : tick :=
    mkTick (fun m c => mvn so m c (block so (length m) (i - n) (fst w))) (fst (weights so (th_after so i (snd w)))) (fun _ => []) [].

  Lemma init_sim o v w : (length (elite_rows (ev_elites v)) <= P)%nat ->
    (forall i, (i < P)%nat -> o (ev_time v + i)%nat = birth (length (elite_rows (ev_elites v))) w i) ->
    initialize_population (setting_of so cf o) v = fst (t_init so cf v w).
  Proof.
    intros Hn Ho. unfold initialize_population, t_init. rewrite born_elites_eq, born_others_eq. cbn [fst snd].
    set (n := length (elite_rows (ev_elites v))) in *. cbn [setting_of se_size se_kind se_weights se_draw]. fold P.
    f_equal. f_equal. f_equal.
    - apply map_ext_in. intros i Hi. apply in_seq in Hi. rewrite Ho by lia. reflexivity.
    - replace (seq n (P - n)) with (map (fun i => n + i)%nat (seq 0 (P - n))) by (rewrite seq_add, Nat.add_0_r; reflexivity).
      rewrite map_map. apply map_ext_in. intros i Hi. apply in_seq in Hi. rewrite Ho by lia.
      cbn [birth tk_weights tk_draw fst snd]. replace (n + i - n)%nat with i by lia. rewrite th_after_add. reflexivity.
  Qed.

  (** ** Updates *)

  (** numpy's generator after a selection. *)
  Definition selected (fitness : list R) (g : np_state so) : np_state so :=
    match co_mode cf with
    | 1%nat => snd (tourneys so cf keep keep g)
    | 2%nat => snd (choice so (length fitness) keep g)
    | _ => g
    end.

  Definition renewal (fitness : list R) (g : np_state so) (i : nat) : tick :=
    mkTick (fun m c => mvn so m c (block so (length m) (i - keep * elitism / 2) (selected fitness g))) []
           (fun m => nth m (fst (tourneys so cf keep keep g)) []) (fst (choice so (length fitness) keep g)).

  Lemma select_sim o fitness g t : o t = renewal fitness g 0 ->
    t_select so cf fitness g = rmap (fun e => (e, selected fitness g)) (select (co_mode cf) keep (se_chance (setting_of so cf o) t) fitness).
  Proof.
    intros Ho. unfold t_select, select, selected. fold P keep. cbn [setting_of se_chance]. rewrite Ho.
    destruct (co_mode cf) as [|[|[|k]]]; cbn [renewal tk_bracket tk_ranks ch_order ch_bracket ch_ranks].
    - destruct (select_top keep (argsort so fitness)); reflexivity.
    - reflexivity.
    - reflexivity.
    - reflexivity.
  Qed.

  Lemma update_sim o fitness v w : (0 < P)%nat ->
    (forall i, (i < P)%nat -> o (ev_time v + i)%nat = renewal fitness (fst w) i) ->
    update_population (setting_of so cf o) fitness v = rmap fst (t_update so cf fitness v w).
  Proof.
    intros HP Ho. unfold update_population, t_update. fold P keep.
    assert (H0 : o (ev_time v) = renewal fitness (fst w) 0) by (rewrite <- Ho by exact HP; f_equal; lia).
    rewrite (select_sim o fitness (fst w) (ev_time v) H0).
    change (se_mode (setting_of so cf o)) with (co_mode cf). change (se_keep (setting_of so cf o)) with keep.
    destruct (select (co_mode cf) keep (se_chance (setting_of so cf o) (ev_time v)) fitness) as [e|er]; [|reflexivity].
    cbn [bind rmap fst snd]. change (se_size (setting_of so cf o)) with P.
    destruct (forallb _ e); [|reflexivity]. cbn [guard bind].
    destruct (_ && _); [|reflexivity]. cbn [guard bind]. rewrite redraw_eq. cbn [rmap fst]. f_equal. f_equal.
    unfold redraw. set (n := (keep * elitism / 2)%nat).
    assert (Ext : forall l p, (forall i, In i l -> (i < P)%nat) ->
      fold_left (fun p k => upd k (se_draw (setting_of so cf o) (ev_time v + k) (vec_mean (map (fun i => nth i (ev_pop v) []) e)) (vec_covar keep (map (fun i => nth i (ev_pop v) []) e) (ev_means v))) p) l p =
      fold_left (fun p i => upd i (mvn so (vec_mean (map (fun i => nth i (ev_pop v) []) e)) (vec_covar keep (map (fun i => nth i (ev_pop v) []) e) (ev_means v)) (block so (length (vec_mean (map (fun i => nth i (ev_pop v) []) e))) (i - n) (selected fitness (fst w)))) p) l p).
    { induction l as [|i l IHl]; intros p Hl; [reflexivity|]. cbn [fold_left].
      cbn [setting_of se_draw] in *. rewrite Ho by (apply Hl; left; reflexivity). cbn [renewal tk_draw].
      apply IHl. intros j Hj. apply Hl. right. exact Hj. }
    apply Ext. intros i Hi. apply in_seq in Hi. fold n in Hi. lia.
  Qed.

  (** ** A run looks at no earlier times *)

  Definition agree (t : nat) (o1 o2 : nat -> tick) : Prop := forall t', (t <= t')%nat -> o1 t' = o2 t'.

  Lemma agree_le t t' o1 o2 : (t <= t')%nat -> agree t o1 o2 -> agree t' o1 o2.
  Proof. intros H A u Hu. apply A. lia. Qed.

  Lemma init_ext o1 o2 v : agree (ev_time v) o1 o2 ->
    initialize_population (setting_of so cf o1) v = initialize_population (setting_of so cf o2) v.
  Proof.
    intros A. unfold initialize_population. cbn [setting_of se_size se_kind se_weights se_draw]. f_equal. f_equal. f_equal.
    - apply map_ext. intros i. rewrite (A (ev_time v + i)%nat) by lia. reflexivity.
    - apply map_ext. intros i. rewrite (A (ev_time v + i)%nat) by lia. reflexivity.
  Qed.

  Lemma update_ext o1 o2 f v : agree (ev_time v) o1 o2 ->
    update_population (setting_of so cf o1) f v = update_population (setting_of so cf o2) f v.
  Proof.
    intros A. unfold update_population.
    change (se_mode (setting_of so cf o1)) with (co_mode cf). change (se_mode (setting_of so cf o2)) with (co_mode cf).
    change (se_keep (setting_of so cf o1)) with keep. change (se_keep (setting_of so cf o2)) with keep.
    change (se_size (setting_of so cf o1)) with P. change (se_size (setting_of so cf o2)) with P.
    replace (se_chance (setting_of so cf o1) (ev_time v)) with (se_chance (setting_of so cf o2) (ev_time v)).
    2:{ cbn [setting_of se_chance]. rewrite (A (ev_time v)) by lia. reflexivity. }
    destruct (select _ _ _ _) as [e|er]; [|reflexivity]. cbn [bind].
    destruct (guard _ _) as [u|er]; [|reflexivity]. cbn [bind].
    destruct (guard _ _) as [u'|er]; [|reflexivity]. cbn [bind]. f_equal. f_equal.
    unfold redraw. generalize (keep_elites e (keep * elitism / 2) (ev_pop v)).
    generalize (seq (keep * elitism / 2) (P - keep * elitism / 2)).
    induction l as [|i l IH]; intros p; [reflexivity|]. cbn [fold_left]. cbn [setting_of se_draw] in *.
    rewrite (A (ev_time v + i)%nat) by lia. apply IH.
  Qed.

  Lemma update_time s f v v' : update_population s f v = Ok v' -> ev_time v' = (ev_time v + se_size s)%nat.
  Proof.
    unfold update_population. intros E. apply bind_ok in E as (e & _ & E). apply bind_ok in E as (u & _ & E).
    apply bind_ok in E as (u' & _ & E). injection E as <-. reflexivity.
  Qed.

  Lemma rank_time s f x v v' : rank_population s f x v = Ok v' -> ev_time v' = ev_time v.
  Proof.
    unfold rank_population. intros E. apply bind_ok in E as (e & _ & E). apply bind_ok in E as (u & _ & E).
    injection E as <-. reflexivity.
  Qed.

  Lemma generation_ext o1 o2 x g v : agree (ev_time v) o1 o2 ->
    generation (setting_of so cf o1) x g v = generation (setting_of so cf o2) x g v.
  Proof.
    intros A. unfold generation, advance.
    rewrite (update_ext o1 o2) by exact A. reflexivity.
  Qed.

  Lemma generation_time s x g v v' b : generation s x g v = Ok (v', b) ->
    ev_time v' = (ev_time v + if Nat.eqb (g + 1) (se_gens s) then 0 else se_size s)%nat.
  Proof.
    unfold generation, advance. intros E. apply bind_ok in E as (u & _ & E). apply bind_ok in E as (v1 & E1 & E).
    assert (T : ev_time v1 = (ev_time v + if Nat.eqb (g + 1) (se_gens s) then 0 else se_size s)%nat).
    { destruct (Nat.eqb (g + 1) (se_gens s)); [apply rank_time in E1; lia|apply update_time in E1; exact E1]. }
    destruct (stops _ _).
    - apply bind_ok in E as (v3 & E3 & E). injection E as <- _. apply rank_time in E3. rewrite E3. exact T.
    - injection E as <- _. exact T.
  Qed.

  Lemma generations_ext o1 o2 x n : forall g v, agree (ev_time v) o1 o2 ->
    generations (setting_of so cf o1) x n g v = generations (setting_of so cf o2) x n g v.
  Proof.
    induction n as [|n IH]; intros g v A; [reflexivity|]. cbn [generations]. rewrite (generation_ext o1 o2) by exact A.
    destruct (generation (setting_of so cf o2) x g v) as [[v' b]|er] eqn:E; [|reflexivity]. cbn [bind fst snd].
    destruct b; [reflexivity|]. apply IH. apply generation_time in E. eapply agree_le; [|exact A]. lia.
  Qed.

  Lemma generations_time s x n : forall g v v', generations s x n g v = Ok v' -> (ev_time v <= ev_time v')%nat.
  Proof.
    induction n as [|n IH]; intros g v v' E; cbn [generations] in E; [injection E as <-; lia|].
    apply bind_ok in E as ([v1 b] & E1 & E). cbn [fst snd] in E. apply generation_time in E1.
    destruct b; [injection E as <-; lia|]. apply IH in E. lia.
  Qed.

  Lemma give_time s E v v' : give_elites s E v = Ok v' -> ev_time v' = ev_time v.
  Proof. unfold give_elites. intros H. apply bind_ok in H as (u & _ & H). injection H as <-. reflexivity. Qed.

  Lemma parade_time s v v' : parade s v = Ok v' -> ev_time v' = ev_time v.
  Proof.
    unfold parade. intros H. apply bind_ok in H as (u & _ & H).
    destruct (se_kind s); try (injection H as <-; reflexivity).
    apply bind_ok in H as (u' & _ & H). destruct (ev_elites v); [exact (give_time _ _ _ _ H)|injection H as <-; reflexivity].
  Qed.

  Lemma closing_time s v v' : closing s v = Ok v' -> ev_time v' = ev_time v.
  Proof.
    unfold closing. intros H. apply bind_ok in H as (u & _ & H). destruct (se_pattern s).
    - apply bind_ok in H as (u' & _ & H). exact (give_time _ _ _ _ H).
    - apply bind_ok in H as (u' & _ & H). exact (parade_time _ _ _ H).
  Qed.

  Lemma start_time s v : ev_time (start_seed s v) = (ev_time v + se_size s + se_size s)%nat.
  Proof. reflexivity. Qed.

  Lemma start_ext o1 o2 v : agree (ev_time v) o1 o2 -> start_seed (setting_of so cf o1) v = start_seed (setting_of so cf o2) v.
  Proof.
    intros A. unfold start_seed, reset. rewrite (init_ext o1 o2 (mkEvo [] _ _ _ _ _ _ _)) by exact A.
    apply init_ext. eapply agree_le; [|exact A]. cbn [initialize_population ev_time]. lia.
  Qed.

  Lemma run_seed_ext o1 o2 x v : agree (ev_time v) o1 o2 -> run_seed (setting_of so cf o1) x v = run_seed (setting_of so cf o2) x v.
  Proof.
    intros A. unfold run_seed. rewrite (start_ext o1 o2) by exact A.
    change (parade (setting_of so cf o1)) with (parade (setting_of so cf o2)).
    destruct (parade (setting_of so cf o2) (start_seed (setting_of so cf o2) v)) as [v0|er] eqn:E; [|reflexivity].
    cbn [bind]. apply parade_time in E. rewrite start_time in E.
    rewrite (generations_ext o1 o2) by (eapply agree_le; [|exact A]; lia). reflexivity.
  Qed.

  Lemma run_seed_time s x v v' : run_seed s x v = Ok v' -> (ev_time v <= ev_time v')%nat.
  Proof.
    unfold run_seed. intros E. apply bind_ok in E as (v0 & E0 & E). apply bind_ok in E as (v1 & E1 & E).
    apply bind_ok in E as (v2 & E2 & E). apply bind_ok in E as (u & _ & E). injection E as <-.
    apply parade_time in E0. rewrite start_time in E0. apply generations_time in E1. apply closing_time in E2. lia.
  Qed.

  Lemma run_seeds_ext o1 o2 xs : forall v, agree (ev_time v) o1 o2 -> run_seeds (setting_of so cf o1) xs v = run_seeds (setting_of so cf o2) xs v.
  Proof.
    induction xs as [|x xs IH]; intros v A; [reflexivity|]. cbn [run_seeds]. rewrite (run_seed_ext o1 o2) by exact A.
    destruct (run_seed (setting_of so cf o2) x v) as [v'|er] eqn:E; [|reflexivity]. cbn [bind]. apply IH.
    apply run_seed_time in E. eapply agree_le; [exact E|exact A].
  Qed.

  (** One source of random inputs before a time, another from then on. *)
  Definition splice (t : nat) (o1 o2 : nat -> tick) (t' : nat) : tick := if Nat.ltb t' t then o1 t' else o2 t'.

  Lemma splice_before t o1 o2 t' : (t' < t)%nat -> splice t o1 o2 t' = o1 t'.
  Proof. intros H. unfold splice. apply Nat.ltb_lt in H. rewrite H. reflexivity. Qed.

  Lemma splice_after t o1 o2 : agree t (splice t o1 o2) o2.
  Proof. intros t' H. unfold splice. apply Nat.ltb_ge in H. rewrite H. reflexivity. Qed.

  (** ** Generations *)

  Lemma evaluated (arms : bool) v g x w : (0 < P)%nat ->
    (seed_ok (Z.of_nat g * x) /\ exists w', (if arms then gather so else t_evaluate so) (map (fun j => nth j (ev_pop v) []) (seq 0 (co_size cf))) (Z.of_nat g * x)%Z w =
        Ok (evaluate (quiet so cf) (ev_pop v) (Z.of_nat g * x), w')) \/
    (~ seed_ok (Z.of_nat g * x) /\ (if arms then gather so else t_evaluate so) (map (fun j => nth j (ev_pop v) []) (seq 0 (co_size cf))) (Z.of_nat g * x)%Z w = Err ValueError).
  Proof.
    intros HP. unfold evaluate. change (se_size (quiet so cf)) with P. fold P.
    assert (Hn : map (fun j => nth j (ev_pop v) []) (seq 0 P) <> []) by (destruct P; [lia|discriminate]).
    assert (Em : map (fun a => fit_seeded so a (Z.of_nat g * x)) (map (fun j => nth j (ev_pop v) []) (seq 0 P)) =
                 map (fun j => se_fit (quiet so cf) (nth j (ev_pop v) []) (Z.of_nat g * x)) (seq 0 P)) by (rewrite map_map; reflexivity).
    destruct (seed_ok_dec (Z.of_nat g * x)) as [Hs|Hs]; [left|right]; (split; [exact Hs|]).
    - destruct arms; [rewrite gather_ok by exact Hs|rewrite evaluate_ok by exact Hs]; rewrite Em; eexists; reflexivity.
    - destruct arms; [apply gather_bad|apply evaluate_bad]; assumption.
  Qed.

  Lemma generation_sim arms x g v w : (0 < P)%nat ->
    exists k : nat -> tick, forall o, ((g + 1)%nat = co_gens cf \/ forall i, (i < P)%nat -> o (ev_time v + i)%nat = k i) ->
    match t_generation so cf arms x g v w with
    | Ok (v', _, b) => generation (setting_of so cf o) x g v = Ok (v', b)
    | Err ValueError => True
    | Err e => generation (setting_of so cf o) x g v = Err e
    end.
  Proof.
    intros HP. unfold t_generation, generation. fold P.
    change (fun (o : nat -> tick) => se_size (setting_of so cf o)) with (fun _ : nat -> tick => P).
    destruct (guard (Nat.leb P (length (ev_pop v))) IndexError) as [u|er] eqn:Eg.
    2:{ exists (fun _ => mkTick (fun _ _ => []) [] (fun _ => []) []). intros o _. change (se_size (setting_of so cf o)) with P.
        rewrite Eg. cbn [bind]. destruct (Nat.leb P (length (ev_pop v))); [discriminate|]. injection Eg as <-. reflexivity. }
    cbn [bind].
    destruct (evaluated arms v g x w HP) as [[Hs (w' & Ee)]|[Hs Ee]]; fold P in Ee; rewrite Ee; cbn [bind].
    2:{ exists (fun _ => mkTick (fun _ _ => []) [] (fun _ => []) []). intros o _. exact Logic.I. }
    set (f := evaluate (quiet so cf) (ev_pop v) (Z.of_nat g * x)). cbn [fst snd].
    exists (renewal f (fst w')). intros o Ho.
    change (se_size (setting_of so cf o)) with P. rewrite Eg. cbn [bind].
    change (evaluate (setting_of so cf o) (ev_pop v) (Z.of_nat g * x)) with f.
    assert (Ea : rmap fst (t_advance so cf x g f v w') = advance (setting_of so cf o) x g f v).
    { unfold t_advance, advance. change (se_gens (setting_of so cf o)) with (co_gens cf).
      destruct (Nat.eqb_spec (g + 1) (co_gens cf)) as [Hg|Hg].
      - change (rank_population (setting_of so cf o)) with (rank_population (quiet so cf)).
        destruct (rank_population (quiet so cf) f x v); reflexivity.
      - destruct Ho as [Ho|Ho]; [contradiction|]. symmetry. apply update_sim; assumption. }
    rewrite <- Ea. destruct (t_advance so cf x g f v w') as [[v1 w1]|er] eqn:E1; cbn [rmap bind fst snd].
    2:{ destruct er; reflexivity || exact Logic.I. }
    change (log_generation (setting_of so cf o)) with (log_generation (quiet so cf)).
    change (rank_population (setting_of so cf o)) with (rank_population (quiet so cf)).
    destruct (stops g f); [|reflexivity].
    destruct (rank_population (quiet so cf) f x (log_generation (quiet so cf) f v1)) as [v3|er]; cbn [bind]; [reflexivity|].
    destruct er; reflexivity || exact Logic.I.
  Qed.

  Lemma t_generation_time arms x g v w v' w' b : (0 < P)%nat -> t_generation so cf arms x g v w = Ok (v', w', b) ->
    ev_time v' = (ev_time v + if Nat.eqb (g + 1) (co_gens cf) then 0 else P)%nat.
  Proof.
    intros HP E. destruct (generation_sim arms x g v w HP) as (k & H).
    specialize (H (fun t => k (t - ev_time v)%nat)). rewrite E in H. apply generation_time in H; [exact H|].
    right. intros i Hi. f_equal. lia.
  Qed.

  (** The random inputs a run is given can be continued by any others. *)
  Lemma generations_sim arms x n (tail : nat -> tick) : (0 < P)%nat -> forall g v w,
    exists o, told fst (t_generations so cf arms x n g v w) (generations (setting_of so cf o) x n g v) /\
      forall v' w', t_generations so cf arms x n g v w = Ok (v', w') -> (ev_time v <= ev_time v')%nat /\ agree (ev_time v') o tail.
  Proof.
    intros HP. induction n as [|n IH]; intros g v w.
    { exists tail. split; [reflexivity|]. intros v' w' E. injection E as <- _. split; [lia|]. intros t _. reflexivity. }
    cbn [t_generations generations]. destruct (generation_sim arms x g v w HP) as (k & H).
    pose (o1 := fun t => k (t - ev_time v)%nat).
    assert (Ho1 : forall i, (i < P)%nat -> o1 (ev_time v + i)%nat = k i) by (intros i Hi; unfold o1; f_equal; lia).
    destruct (t_generation so cf arms x g v w) as [[[v' w'] b]|er] eqn:E; cbn [bind fst snd].
    - assert (T := t_generation_time arms x g v w v' w' b HP E).
      assert (Hk : forall o2, (g + 1)%nat = co_gens cf \/ (forall i, (i < P)%nat -> splice (ev_time v') o1 o2 (ev_time v + i)%nat = k i)).
      { intros o2. destruct (Nat.eqb_spec (g + 1) (co_gens cf)) as [Hg|Hg]; [left; exact Hg|right].
        intros i Hi. rewrite splice_before by lia. apply Ho1, Hi. }
      destruct b.
      + exists (splice (ev_time v') o1 tail). rewrite (H _ (Hk tail)). split; [reflexivity|].
        intros v2 w2 E2. injection E2 as <- _. split; [lia|apply splice_after].
      + destruct (IH (S g) v' w') as (o2 & H2 & H3). exists (splice (ev_time v') o1 o2).
        rewrite (H _ (Hk o2)). cbn [bind fst snd]. rewrite (generations_ext _ o2) by apply splice_after. split; [exact H2|].
        intros v2 w2 E2. destruct (H3 v2 w2 E2) as [L A]. split; [lia|].
        intros t Ht. rewrite splice_after by lia. apply A, Ht.
    - exists o1. specialize (H o1 (or_intror Ho1)). split; [|discriminate].
      destruct er; try exact Logic.I; rewrite H; reflexivity.
  Qed.

  (** ** How many elites there are *)

  Definition few (v : evo) : Prop := (length (elite_rows (ev_elites v)) <= P)%nat.

  Lemma keep_le : (0 < P)%nat -> (keep <= P)%nat.
  Proof. intros HP. unfold keep, elite_keep. assert (P / 8 < P)%nat by (apply Nat.div_lt; lia). lia. Qed.

  Lemma top_length k l e : select_top k l = Ok e -> length e = k.
  Proof.
    unfold select_top. intros E. apply bind_ok in E as (u & G & E). apply guard_ok, Nat.leb_le in G. injection E as <-.
    rewrite firstn_length, rev_length. lia.
  Qed.

  Lemma rank_few f x v v' : (0 < P)%nat -> rank_population (quiet so cf) f x v = Ok v' -> few v'.
  Proof.
    intros HP E. unfold rank_population in E. apply bind_ok in E as (e & Ee & E). apply bind_ok in E as (u & _ & E).
    injection E as <-. apply top_length in Ee. unfold few. cbn [ev_elites elite_rows]. rewrite map_length, Ee. exact (keep_le HP).
  Qed.

  Lemma select_length f g e : choice_sized so -> t_select so cf f g = Ok e -> length (fst e) = keep.
  Proof.
    intros Hc. unfold t_select. fold P keep. destruct (co_mode cf) as [|[|[|k]]]; intros E.
    - apply bind_ok in E as (e' & Ee & E). injection E as <-. exact (top_length _ _ _ Ee).
    - injection E as <-. cbn [fst]. unfold select_tourney. rewrite map_length, seq_length. reflexivity.
    - injection E as <-. cbn [fst]. unfold select_lottery. rewrite map_length. apply Hc.
    - discriminate.
  Qed.

  Lemma update_few f v w v' w' : (0 < P)%nat -> choice_sized so -> t_update so cf f v w = Ok (v', w') -> few v'.
  Proof.
    intros HP Hc E. unfold t_update in E. apply bind_ok in E as (e & Ee & E). apply bind_ok in E as (u & _ & E).
    apply bind_ok in E as (u' & _ & E). injection E as <- _. unfold few. cbn [ev_elites elite_rows].
    rewrite map_length, (select_length _ _ _ Hc Ee). exact (keep_le HP).
  Qed.

  Lemma generation_few arms x g v w v' w' b : (0 < P)%nat -> choice_sized so ->
    t_generation so cf arms x g v w = Ok (v', w', b) -> few v'.
  Proof.
    intros HP Hc E. unfold t_generation in E. apply bind_ok in E as (u & _ & E). apply bind_ok in E as (f & _ & E).
    apply bind_ok in E as ([v1 w1] & E1 & E). cbn [fst snd] in E.
    destruct (stops _ _).
    - apply bind_ok in E as (v3 & E3 & E). injection E as <- _ _. exact (rank_few _ _ _ _ HP E3).
    - injection E as <- _ _. unfold t_advance in E1. destruct (Nat.eqb _ _).
      + apply bind_ok in E1 as (v2 & E2 & E1). injection E1 as <- _. exact (rank_few _ _ _ _ HP E2).
      + exact (update_few _ _ _ _ _ HP Hc E1).
  Qed.

  Lemma generations_few arms x n : (0 < P)%nat -> choice_sized so -> forall g v w v' w', few v ->
    t_generations so cf arms x n g v w = Ok (v', w') -> few v'.
  Proof.
    intros HP Hc. induction n as [|n IH]; intros g v w v' w' Hv E; cbn [t_generations] in E; [injection E as <- _; exact Hv|].
    apply bind_ok in E as ([[v1 w1] b] & E1 & E). cbn [fst snd] in E. apply generation_few in E1; [|exact HP|exact Hc].
    destruct b; [injection E as <- _; exact E1|exact (IH _ _ _ _ _ E1 E)].
  Qed.

  Lemma give_few s E v v' : give_elites s E v = Ok v' -> ev_elites v' = ev_elites v.
  Proof. unfold give_elites. intros H. apply bind_ok in H as (u & _ & H). injection H as <-. reflexivity. Qed.

  Lemma parade_few s v v' : parade s v = Ok v' -> ev_elites v' = ev_elites v.
  Proof.
    unfold parade. intros H. apply bind_ok in H as (u & _ & H).
    destruct (se_kind s); try (injection H as <-; reflexivity).
    apply bind_ok in H as (u' & _ & H). destruct (ev_elites v) eqn:Ev; [rewrite <- Ev; exact (give_few _ _ _ _ H)|injection H as <-; exact Ev].
  Qed.

  Lemma closing_few s v v' : closing s v = Ok v' -> ev_elites v' = ev_elites v.
  Proof.
    unfold closing. intros H. apply bind_ok in H as (u & _ & H). destruct (se_pattern s).
    - apply bind_ok in H as (u' & _ & H). exact (give_few _ _ _ _ H).
    - apply bind_ok in H as (u' & _ & H). exact (parade_few _ _ _ H).
  Qed.

  Lemma start_few v w : ev_elites (fst (t_start so cf v w)) = ev_elites v.
  Proof. reflexivity. Qed.

  Lemma run_seed_few arms x v v' w' : (0 < P)%nat -> choice_sized so -> few v -> t_run_seed so cf arms x v = Ok (v', w') -> few v'.
  Proof.
    intros HP Hc Hv E. unfold t_run_seed in E. apply bind_ok in E as (w & _ & E). apply bind_ok in E as (v0 & E0 & E).
    apply bind_ok in E as ([v1 w1] & E1 & E). apply bind_ok in E as (v2 & E2 & E). apply bind_ok in E as (u & _ & E).
    injection E as <- _. apply parade_few in E0. rewrite start_few in E0. apply closing_few in E2. cbn [fst] in E2.
    unfold few. rewrite E2. apply generations_few in E1; [exact E1|exact HP|exact Hc|]. unfold few. rewrite E0. exact Hv.
  Qed.

  (** ** Seeds *)

  Lemma start_sim v w : few v ->
    exists o, start_seed (setting_of so cf o) v = fst (t_start so cf v w).
  Proof.
    intros Hv. unfold few in Hv. set (n := length (elite_rows (ev_elites v))) in *.
    pose (r := t_reset so cf v w).
    pose (o1 := fun t => birth n w (t - ev_time v)).
    pose (o2 := fun t => birth n (snd r) (t - (ev_time v + P))).
    exists (splice (ev_time v + P) o1 o2). unfold start_seed, t_start, reset.
    assert (E1 : initialize_population (setting_of so cf (splice (ev_time v + P) o1 o2))
        (mkEvo [] (co_means cf) (start_covar (co_pattern cf) (length (co_means cf))) (ev_elites v) (ev_saved v) (ev_params v) (ev_log v) (ev_time v)) = fst r).
    { apply init_sim; [exact Hv|]. cbn [ev_time ev_elites]. intros i Hi. rewrite splice_before by lia. unfold o1. f_equal. lia. }
    change (se_means (setting_of so cf (splice (ev_time v + P) o1 o2))) with (co_means cf).
    change (se_pattern (setting_of so cf (splice (ev_time v + P) o1 o2))) with (co_pattern cf).
    rewrite E1. fold r. apply init_sim; [exact Hv|].
    assert (T : ev_time (fst r) = (ev_time v + P)%nat) by reflexivity.
    intros i Hi. rewrite T. rewrite splice_after by lia. unfold o2. change (ev_elites (fst r)) with (ev_elites v). fold n. f_equal. lia.
  Qed.

  Lemma run_seed_sim arms x v (tail : nat -> tick) : (0 < P)%nat -> few v ->
    exists o, told fst (t_run_seed so cf arms x v) (run_seed (setting_of so cf o) x v) /\
      forall v' w', t_run_seed so cf arms x v = Ok (v', w') -> agree (ev_time v') o tail.
  Proof.
    intros HP Hv. unfold t_run_seed, run_seed.
    destruct (seed_ok_dec x) as [Hx|Hx].
    2:{ exists (fun _ => mkTick (fun _ _ => []) [] (fun _ => []) []). rewrite seed_all_bad by exact Hx. split; [exact Logic.I|discriminate]. }
    rewrite seed_all_ok by exact Hx. cbn [bind]. set (w := (np_seed so x, th_seed so x)).
    destruct (start_sim v w Hv) as (o1 & H1). set (r := t_start so cf v w) in *.
    destruct (parade (quiet so cf) (fst r)) as [v0|er] eqn:E0; cbn [bind].
    2:{ exists o1. rewrite H1. change (parade (setting_of so cf o1)) with (parade (quiet so cf)). rewrite E0. cbn [bind].
        split; [|discriminate]. destruct er; reflexivity || exact Logic.I. }
    destruct (generations_sim arms x (co_gens cf) tail HP 0 v0 (show so v0 (snd r))) as (o2 & H2 & H3).
    assert (T : ev_time v0 = (ev_time v + P + P)%nat) by (apply parade_time in E0; rewrite E0; reflexivity).
    exists (splice (ev_time v + P + P) o1 o2). set (o := splice (ev_time v + P + P) o1 o2).
    assert (Es : start_seed (setting_of so cf o) v = fst r).
    { rewrite <- H1. unfold start_seed, reset.
      assert (K : forall (u : evo), (ev_time u + P <= ev_time v + P + P)%nat -> (length (elite_rows (ev_elites u)) <= P)%nat ->
        initialize_population (setting_of so cf o) u = initialize_population (setting_of so cf o1) u).
      { intros u Hu Hl. unfold initialize_population. cbn [setting_of se_size se_kind se_weights se_draw]. fold P. f_equal. f_equal. f_equal.
        - apply map_ext_in. intros i Hi. apply in_seq in Hi. unfold o. rewrite splice_before by lia. reflexivity.
        - apply map_ext_in. intros i Hi. apply in_seq in Hi. unfold o. rewrite splice_before by lia. reflexivity. }
      change (se_means (setting_of so cf o)) with (co_means cf). change (se_pattern (setting_of so cf o)) with (co_pattern cf).
      change (se_means (setting_of so cf o1)) with (co_means cf). change (se_pattern (setting_of so cf o1)) with (co_pattern cf).
      rewrite (K (mkEvo [] (co_means cf) _ _ _ _ _ _)); [|cbn [ev_time]; lia|exact Hv].
      apply K; [|exact Hv]. cbn [initialize_population ev_time setting_of se_size]. fold P. lia. }
    rewrite Es. change (parade (setting_of so cf o)) with (parade (quiet so cf)). rewrite E0. cbn [bind].
    change (se_gens (setting_of so cf o)) with (co_gens cf).
    rewrite (generations_ext o o2) by (rewrite T; apply splice_after).
    change (closing (setting_of so cf o)) with (closing (quiet so cf)).
    destruct (t_generations so cf arms x (co_gens cf) 0 v0 (show so v0 (snd r))) as [[v1 w1]|er]; cbn [told fst] in H2.
    2:{ cbn [bind told]. split; [|discriminate]. destruct er; try exact Logic.I; rewrite H2; reflexivity. }
    rewrite H2. cbn [bind fst snd]. destruct (closing (quiet so cf) v1) as [v2|er] eqn:E2; cbn [bind].
    2:{ split; [|discriminate]. destruct er; reflexivity || exact Logic.I. }
    destruct (guard _ _) as [u|er]; cbn [bind told fst].
    2:{ split; [|discriminate]. destruct er; reflexivity || exact Logic.I. }
    split; [reflexivity|]. intros v' w' E. injection E as <- _. apply closing_time in E2.
    destruct (H3 v1 w1 eq_refl) as [L A]. intros t Ht. unfold o. rewrite splice_after by lia. apply A. lia.
  Qed.

  Lemma run_seeds_sim arms xs : (0 < P)%nat -> choice_sized so -> forall v, few v ->
    exists o, told (fun v => v) (t_run_seeds so cf arms xs v) (run_seeds (setting_of so cf o) xs v).
  Proof.
    intros HP Hc. induction xs as [|x xs IH]; intros v Hv.
    { exists (fun _ => mkTick (fun _ _ => []) [] (fun _ => []) []). reflexivity. }
    cbn [t_run_seeds run_seeds].
    destruct (t_run_seed so cf arms x v) as [[v' w']|er] eqn:E; cbn [bind fst].
    - destruct (IH v' (run_seed_few _ _ _ _ _ HP Hc Hv E)) as (o2 & H2).
      destruct (run_seed_sim arms x v o2 HP Hv) as (o & H1 & HA). rewrite E in H1. cbn [told fst] in H1.
      exists o. rewrite H1. cbn [bind]. rewrite (run_seeds_ext o o2) by exact (HA v' w' E). exact H2.
    - destruct (run_seed_sim arms x v (fun _ => mkTick (fun _ _ => []) [] (fun _ => []) []) HP Hv) as (o & H1 & _).
      rewrite E in H1. exists o. cbn [told] in *. destruct er; try exact Logic.I; rewrite H1; reflexivity.
  Qed.
End P.
