(** What a seed decides (proofs). *)
From Coq Require Import Reals List Arith ZArith Lia Lra Bool.
From Verif Require Import Base MEvo MSeed SSeed PSeed.
Import ListNotations.
Open Scope R_scope.

Lemma stops_early g f : (g <= 6)%nat -> stops g f = false.
Proof. intros H. unfold stops. replace (Nat.ltb 6 g) with false by (symmetry; apply Nat.ltb_ge; exact H). apply andb_false_r. Qed.

Lemma guard_err b e e' : guard b e = Err e' -> e' = e.
Proof. destruct b; cbn [guard]; congruence. Qed.

Lemma bind_err A B (m : res A) (k : A -> res B) e : bind m k = Err e -> m = Err e \/ exists a, m = Ok a /\ k a = Err e.
Proof. destruct m as [a|e']; cbn [bind]; intros H; [right; exists a; split; [reflexivity|exact H]|left; congruence]. Qed.

Lemma upd_length {A} (x : A) l : forall n, length (upd n x l) = length l.
Proof. induction l as [|y l IH]; intros [|n]; cbn [upd length]; [reflexivity..|]. now rewrite IH. Qed.

Lemma upd_other {A} (x d : A) l : forall n k, k <> n -> nth k (upd n x l) d = nth k l d.
Proof.
  induction l as [|y l IH]; intros [|n] [|k] H; cbn [upd nth]; try reflexivity; try lia. apply IH. lia.
Qed.

Lemma upd_here {A} (x d : A) l : forall n, (n < length l)%nat -> nth n (upd n x l) d = x.
Proof. induction l as [|y l IH]; intros [|n] H; cbn [upd nth length] in *; try lia; [reflexivity|]. apply IH. lia. Qed.

Lemma fold_upd {A} (f : nat -> A) (d : A) k : forall ls p, NoDup ls -> In k ls -> (k < length p)%nat ->
  nth k (fold_left (fun p i => upd i (f i) p) ls p) d = f k.
Proof.
  assert (Len : forall ls p, length (fold_left (fun p i => upd i (f i) p) ls p) = length p).
  { induction ls as [|i ls IH]; intros p; [reflexivity|]. cbn [fold_left]. rewrite IH. apply upd_length. }
  assert (Out : forall ls p, ~ In k ls -> nth k (fold_left (fun p i => upd i (f i) p) ls p) d = nth k p d).
  { induction ls as [|i ls IH]; intros p H; [reflexivity|]. cbn [fold_left]. rewrite IH by (intros H'; apply H; right; exact H').
    apply upd_other. intros ->. apply H. left. reflexivity. }
  induction ls as [|i ls IH]; intros p N I L; [destruct I|]. cbn [fold_left]. inversion N as [|? ? Ni Nl]; subst.
  destruct (Nat.eq_dec i k) as [->|Hi].
  - rewrite Out by exact Ni. apply upd_here, L.
  - apply IH; [exact Nl| |rewrite upd_length; exact L]. destruct I as [I|I]; [contradiction|exact I].
Qed.

Lemma keep_elites_length e n pop : length (keep_elites e n pop) = length pop.
Proof.
  unfold keep_elites. generalize (seq 0 n) as ls. intros ls. revert pop.
  induction ls as [|i ls IH]; intros pop; [reflexivity|]. cbn [fold_left]. rewrite IH. apply upd_length.
Qed.

Section P.
  Variable so : source.
  Variable cf : config.
  Let P := co_size cf.
  Let keep := elite_keep P.
  Let n := (keep * elitism / 2)%nat.

  (** ** Seeds that numpy refuses *)

  Lemma top_err k l e : select_top k l = Err e -> e = IndexError.
  Proof. unfold select_top. intros H. apply bind_err in H as [H|(a & _ & H)]; [exact (guard_err _ _ _ H)|discriminate]. Qed.

  Lemma rank_err s f x v e : rank_population s f x v = Err e -> e <> ValueError.
  Proof.
    unfold rank_population. intros H. apply bind_err in H as [H|(a & _ & H)]; [apply top_err in H; congruence|].
    apply bind_err in H as [H|(u & _ & H)]; [apply guard_err in H; congruence|discriminate].
  Qed.

  Lemma update_err f v w e : t_update so cf f v w = Err e -> e <> ValueError.
  Proof.
    unfold t_update. intros H. apply bind_err in H as [H|(a & _ & H)].
    - unfold t_select in H. destruct (co_mode cf) as [|[|[|k]]]; [|discriminate|discriminate|congruence].
      apply bind_err in H as [H|(u & _ & H)]; [apply top_err in H; congruence|discriminate].
    - apply bind_err in H as [H|(u & _ & H)]; [apply guard_err in H; congruence|].
      apply bind_err in H as [H|(u' & _ & H)]; [apply guard_err in H; congruence|discriminate].
  Qed.

  Lemma generation_err arms x g v w : seed_ok (Z.of_nat g * x) -> t_generation so cf arms x g v w <> Err ValueError.
  Proof.
    intros Hs H. unfold t_generation in H. apply bind_err in H as [H|(u & _ & H)]; [apply guard_err in H; congruence|].
    apply bind_err in H as [H|(f & _ & H)].
    - destruct arms; [rewrite gather_ok in H by exact Hs|rewrite evaluate_ok in H by exact Hs]; discriminate.
    - apply bind_err in H as [H|(r & _ & H)].
      + unfold t_advance in H. destruct (Nat.eqb _ _).
        * apply bind_err in H as [H|(v1 & _ & H)]; [apply rank_err in H; congruence|discriminate].
        * apply update_err in H; congruence.
      + destruct (stops _ _); [|discriminate].
        apply bind_err in H as [H|(v1 & _ & H)]; [apply rank_err in H; congruence|discriminate].
  Qed.

  Lemma generation_refused arms x g v w r : (0 < P)%nat -> t_generation so cf arms x g v w = Ok r -> seed_ok (Z.of_nat g * x).
  Proof.
    intros HP H. unfold t_generation in H. apply bind_ok in H as (u & _ & H). apply bind_ok in H as (f & Hf & _).
    destruct (seed_ok_dec (Z.of_nat g * x)) as [Hs|Hs]; [exact Hs|exfalso].
    destruct (evaluated so cf arms v g x w HP) as [[Hs' _]|[_ E]]; [contradiction|].
    change (co_size cf) with P in E. change (co_size cf) with P in Hf. rewrite E in Hf. discriminate.
  Qed.

  Lemma generations_err arms x k : forall g v w, (forall i, (g <= i < g + k)%nat -> seed_ok (Z.of_nat i * x)) ->
    t_generations so cf arms x k g v w <> Err ValueError.
  Proof.
    induction k as [|k IH]; intros g v w Hs H; cbn [t_generations] in H; [discriminate|].
    apply bind_err in H as [H|([[v1 w1] b] & _ & H)].
    - revert H. apply generation_err, Hs. lia.
    - cbn [fst snd] in H. destruct b; [discriminate|]. revert H. apply IH. intros i Hi. apply Hs. lia.
  Qed.

  Lemma give_err s E v e : give_elites s E v = Err e -> e <> ValueError.
  Proof. unfold give_elites. intros H. apply bind_err in H as [H|(u & _ & H)]; [apply guard_err in H; congruence|discriminate]. Qed.

  Lemma parade_err s v e : parade s v = Err e -> e <> ValueError.
  Proof.
    unfold parade. intros H. apply bind_err in H as [H|(u & _ & H)]; [apply guard_err in H; congruence|].
    destruct (se_kind s); try discriminate. apply bind_err in H as [H|(u' & _ & H)]; [apply guard_err in H; congruence|].
    destruct (ev_elites v); [exact (give_err _ _ _ _ H)|discriminate].
  Qed.

  Lemma closing_err s v e : closing s v = Err e -> e <> ValueError.
  Proof.
    unfold closing. intros H. apply bind_err in H as [H|(u & _ & H)]; [apply guard_err in H; congruence|].
    destruct (se_pattern s); (apply bind_err in H as [H|(u' & _ & H)]; [apply guard_err in H; congruence|]).
    - exact (give_err _ _ _ _ H).
    - exact (parade_err _ _ _ H).
  Qed.

  Lemma run_seed_err arms x v : seed_ok x -> (forall i, (i < co_gens cf)%nat -> seed_ok (Z.of_nat i * x)) ->
    t_run_seed so cf arms x v <> Err ValueError.
  Proof.
    intros Hx Hs H. unfold t_run_seed in H. rewrite seed_all_ok in H by exact Hx. cbn [bind] in H.
    apply bind_err in H as [H|(v0 & _ & H)]; [apply parade_err in H; congruence|].
    apply bind_err in H as [H|(r & _ & H)]; [revert H; apply generations_err; intros i Hi; apply Hs; lia|].
    apply bind_err in H as [H|(v2 & _ & H)]; [apply closing_err in H; congruence|].
    apply bind_err in H as [H|(u & _ & H)]; [apply guard_err in H; congruence|discriminate].
  Qed.

  (** ** The log grows by one entry in every generation *)

  Lemma rank_log s f x v v' : rank_population s f x v = Ok v' -> ev_log v' = ev_log v.
  Proof.
    unfold rank_population. intros E. apply bind_ok in E as (e & _ & E). apply bind_ok in E as (u & _ & E). injection E as <-. reflexivity.
  Qed.

  Lemma generation_log arms x g v w v' w' b : t_generation so cf arms x g v w = Ok (v', w', b) -> length (ev_log v') = S (length (ev_log v)).
  Proof.
    unfold t_generation. intros E. apply bind_ok in E as (u & _ & E). apply bind_ok in E as (f & _ & E).
    apply bind_ok in E as ([v1 w1] & E1 & E). cbn [fst snd] in E.
    assert (L : ev_log v1 = ev_log v).
    { unfold t_advance in E1. destruct (Nat.eqb _ _).
      - apply bind_ok in E1 as (v2 & E2 & E1). injection E1 as <- _. exact (rank_log _ _ _ _ _ E2).
      - unfold t_update in E1. apply bind_ok in E1 as (e & _ & E1). apply bind_ok in E1 as (u1 & _ & E1).
        apply bind_ok in E1 as (u2 & _ & E1). injection E1 as <- _. reflexivity. }
    destruct (stops _ _).
    - apply bind_ok in E as (v3 & E3 & E). injection E as <- _ _. apply rank_log in E3. rewrite E3.
      cbn [log_generation ev_log]. rewrite app_length, L. cbn [length]. lia.
    - injection E as <- _ _. cbn [log_generation ev_log]. rewrite app_length, L. cbn [length]. lia.
  Qed.

  Lemma generations_log arms x k : (0 < P)%nat -> forall g v w v' w', t_generations so cf arms x k g v w = Ok (v', w') ->
    exists j, (j <= k)%nat /\ (k = 0%nat \/ 0 < j)%nat /\ length (ev_log v') = (length (ev_log v) + j)%nat /\
      forall i, (g <= i < g + j)%nat -> seed_ok (Z.of_nat i * x).
  Proof.
    intros HP. induction k as [|k IH]; intros g v w v' w' E; cbn [t_generations] in E.
    - injection E as <- _. exists 0%nat. split; [lia|]. split; [left; reflexivity|]. split; [lia|]. intros i Hi. lia.
    - apply bind_ok in E as ([[v1 w1] b] & E1 & E). cbn [fst snd] in E.
      pose proof (generation_log _ _ _ _ _ _ _ _ E1) as L. pose proof (generation_refused _ _ _ _ _ _ HP E1) as Hs.
      destruct b.
      + injection E as <- _. exists 1%nat. split; [lia|]. split; [right; lia|]. split; [lia|].
        intros i Hi. replace i with g by lia. exact Hs.
      + apply IH in E as (j & Hj & _ & Hl & Hi). exists (S j). split; [lia|]. split; [right; lia|]. split; [lia|].
        intros i H. destruct (Nat.eq_dec i g) as [->|]; [exact Hs|]. apply Hi. lia.
  Qed.

  Lemma give_log s E v v' : give_elites s E v = Ok v' -> ev_log v' = ev_log v.
  Proof. unfold give_elites. intros H. apply bind_ok in H as (u & _ & H). injection H as <-. reflexivity. Qed.

  Lemma parade_log s v v' : parade s v = Ok v' -> ev_log v' = ev_log v.
  Proof.
    unfold parade. intros H. apply bind_ok in H as (u & _ & H).
    destruct (se_kind s); try (injection H as <-; reflexivity).
    apply bind_ok in H as (u' & _ & H). destruct (ev_elites v) eqn:Ev; [exact (give_log _ _ _ _ H)|injection H as <-; reflexivity].
  Qed.

  Lemma closing_log s v v' : closing s v = Ok v' -> ev_log v' = ev_log v.
  Proof.
    unfold closing. intros H. apply bind_ok in H as (u & _ & H). destruct (se_pattern s).
    - apply bind_ok in H as (u' & _ & H). exact (give_log _ _ _ _ H).
    - apply bind_ok in H as (u' & _ & H). exact (parade_log _ _ _ H).
  Qed.

  Lemma run_seed_log arms x v v' w' : (0 < P)%nat -> t_run_seed so cf arms x v = Ok (v', w') ->
    seed_ok x /\ exists j, (0 < j <= co_gens cf)%nat /\ length (ev_log v') = (length (ev_log v) + j)%nat /\
      forall i, (i < j)%nat -> seed_ok (Z.of_nat i * x).
  Proof.
    intros HP E. unfold t_run_seed in E. destruct (seed_ok_dec x) as [Hx|Hx]; [|rewrite seed_all_bad in E by exact Hx; discriminate].
    split; [exact Hx|]. rewrite seed_all_ok in E by exact Hx. cbn [bind] in E. apply bind_ok in E as (v0 & E0 & E).
    apply bind_ok in E as ([v1 w1] & E1 & E). apply bind_ok in E as (v2 & E2 & E). apply bind_ok in E as (u & G & E).
    injection E as <- _. apply guard_ok, negb_true_iff, Nat.eqb_neq in G.
    apply generations_log in E1 as (j & Hj & H0 & Hl & Hi); [|exact HP].
    apply parade_log in E0. apply closing_log in E2. cbn [fst] in E2.
    change (ev_log (fst (t_start so cf v (np_seed so x, th_seed so x)))) with (ev_log v) in E0.
    exists j. split; [lia|]. split; [rewrite E2, Hl, E0; reflexivity|]. intros i H. apply Hi. lia.
  Qed.

  (** ** One process: evaluating wipes out the generators *)

  Lemma evaluate_forgets agents s w w' : agents <> [] -> t_evaluate so agents s w = t_evaluate so agents s w'.
  Proof. intros H. destruct agents; [contradiction|reflexivity]. Qed.

  Lemma agents_some v : (0 < P)%nat -> map (fun j => nth j (ev_pop v) []) (seq 0 (co_size cf)) <> [].
  Proof. unfold P. intros H. destruct (co_size cf); [lia|discriminate]. Qed.

  Lemma generation_forgets x g v w w' : (0 < P)%nat -> t_generation so cf false x g v w = t_generation so cf false x g v w'.
  Proof.
    intros HP. unfold t_generation. rewrite (evaluate_forgets _ _ w w') by (apply agents_some, HP). reflexivity.
  Qed.

  Lemma generation_same x x' g g' v w w' : (0 < P)%nat -> (Z.of_nat g * x = Z.of_nat g' * x')%Z ->
    (g + 1 <> co_gens cf)%nat -> (g' + 1 <> co_gens cf)%nat -> (g <= 6)%nat -> (g' <= 6)%nat ->
    t_generation so cf false x g v w = t_generation so cf false x' g' v w'.
  Proof.
    intros HP Hx Hg Hg' H6 H6'. rewrite (generation_forgets x' g' v w' w HP). unfold t_generation. rewrite <- Hx.
    destruct (guard _ _); [|reflexivity]. cbn [bind]. destruct (t_evaluate _ _ _ _) as [[f w1]|er]; [|reflexivity]. cbn [bind fst snd].
    unfold t_advance. apply Nat.eqb_neq in Hg. apply Nat.eqb_neq in Hg'. rewrite Hg, Hg'.
    destruct (t_update so cf f v w1) as [[v1 w2]|er]; [|reflexivity]. cbn [bind fst snd].
    rewrite !stops_early by assumption. reflexivity.
  Qed.

  (** ** Which normal numbers an update draws *)

  Lemma update_blocks f v w v' w' : co_mode cf = 0%nat -> t_update so cf f v w = Ok (v', w') ->
    (forall k, (n <= k < P)%nat -> nth k (ev_pop v') [] = mvn so (ev_means v') (ev_covar v') (block so (length (ev_means v')) (k - n) (fst w))) /\
    fst w' = np_after so (length (ev_means v')) (P - n) (fst w).
  Proof.
    intros Hm E. unfold t_update, t_select in E. rewrite Hm in E. fold P keep n in E.
    apply bind_ok in E as (e & Ee & E). apply bind_ok in Ee as (e' & _ & Ee). injection Ee as <-. cbn [fst snd] in E.
    apply bind_ok in E as (u & _ & E). apply bind_ok in E as (u' & G & E).
    apply guard_ok, andb_true_iff in G as [_ G]. apply Nat.leb_le in G.
    injection E as <- <-. rewrite redraw_eq. cbn [ev_pop ev_means ev_covar fst snd].
    set (m := vec_mean (map (fun i => nth i (ev_pop v) []) e')).
    set (c := vec_covar keep (map (fun i => nth i (ev_pop v) []) e') (ev_means v)). split; [|reflexivity].
    intros k Hk. rewrite (fold_upd (fun i => mvn so m c (block so (length m) (i - n) (fst w))) [] k); [reflexivity|apply seq_NoDup|apply in_seq; lia|].
    rewrite keep_elites_length. lia.
  Qed.

  Lemma generation_blocks arms x g v w v' w' : (0 < P)%nat -> calm so -> co_mode cf = 0%nat -> (g + 1 <> co_gens cf)%nat ->
    t_generation so cf arms x g v w = Ok (v', w', false) ->
    let start := if arms then fst w else np_seed so (Z.of_nat g * x) in
    (forall k, (n <= k < P)%nat -> nth k (ev_pop v') [] = mvn so (ev_means v') (ev_covar v') (block so (length (ev_means v')) (k - n) start)) /\
    fst w' = np_after so (length (ev_means v')) (P - n) start.
  Proof.
    intros HP [Hc Hc'] Hm Hg E start. assert (Hs := generation_refused _ _ _ _ _ _ HP E). unfold t_generation in E.
    apply bind_ok in E as (u & _ & E). apply bind_ok in E as ([f w0] & Ef & E).
    apply bind_ok in E as ([v1 w1] & E1 & E). cbn [fst snd] in E, E1.
    assert (Ew : fst w0 = start).
    { unfold start. destruct arms; [rewrite gather_ok in Ef by exact Hs|rewrite evaluate_ok in Ef by exact Hs]; injection Ef as _ <-; [reflexivity|].
      pose proof (agents_some v HP) as Ha. destruct (map _ _) as [|a t]; [contradiction|]. rewrite Hc. reflexivity. }
    unfold t_advance in E1. apply Nat.eqb_neq in Hg. rewrite Hg in E1.
    destruct (stops g f); [apply bind_ok in E as (v3 & _ & E); discriminate|]. injection E as <- <-.
    cbn [log_generation ev_pop ev_means ev_covar]. rewrite Hc', <- Ew. exact (update_blocks _ _ _ _ _ Hm E1).
  Qed.

  Lemma start_blocks v w : fst (snd (t_start so cf v w)) =
    np_after so (length (co_means cf)) ((P - length (elite_rows (ev_elites v))) + (P - length (elite_rows (ev_elites v)))) (fst w).
  Proof.
    unfold t_start, t_reset, t_init. cbn [fst snd ev_elites ev_means ev_covar ev_pop]. fold P. rewrite !born_others_eq. cbn [fst snd].
    rewrite np_after_add. reflexivity.
  Qed.
End P.

Section Clock.
  Variable so : source.

  (** ** The clock *)

  Lemma ms_range t : (0 <= clock_ms t <= 999)%Z.
  Proof.
    unfold clock_ms. destruct (base_fp t) as [F1 F2]. destruct (base_Int_part (frac_part t * 1000)) as [I1 I2].
    assert (L : (-1 < Int_part (frac_part t * 1000))%Z) by (apply lt_IZR; lra).
    assert (U : (Int_part (frac_part t * 1000) < 1000)%Z) by (apply lt_IZR; lra). lia.
  Qed.

  Lemma ms_ok t : seed_ok (clock_ms t).
  Proof. pose proof (ms_range t). unfold seed_ok. lia. Qed.

  Variable uniform : th_state so -> R * th_state so.
  Variable clock : nat -> R.

  Lemma replicates_eq k : forall i w, exists w', random_replicates so uniform clock k i w =
    Ok (map (fun j => fst (uniform (th_seed so (clock_ms (clock j))))) (seq i k), w') /\
    (k <> 0%nat -> w' = (np_seed so (clock_ms (clock (i + k - 1))), snd (uniform (th_seed so (clock_ms (clock (i + k - 1))))))).
  Proof.
    induction k as [|k IH]; intros i w; cbn [random_replicates].
    - exists w. split; [reflexivity|]. intros H. contradiction.
    - rewrite seed_all_ok by apply ms_ok. cbn [bind fst snd].
      destruct (IH (S i) (np_seed so (clock_ms (clock i)), snd (uniform (th_seed so (clock_ms (clock i)))))) as (w' & E & Hw).
      destruct k as [|k].
      + eexists. split; [cbn [random_replicates bind fst snd seq map]; reflexivity|]. intros _. now replace (i + 1 - 1)%nat with i by lia.
      + exists w'. rewrite E. cbn [bind fst snd seq map]. split; [reflexivity|]. intros _. rewrite Hw by discriminate.
        now replace (S i + S k - 1)%nat with (i + S (S k) - 1)%nat by lia.
  Qed.
End Clock.
