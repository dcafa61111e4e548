(** Proofs about what the configurations of a search are made from. *)
From Coq Require Import Reals Lra Lia List Arith Bool ZArith String.
From Verif Require Import Base PyDict MActivations MKernels MCommon MCca MEvo MConfig SConfig MElite SElite PConfig PConfigX PConfigV PEvoX PElite PEliteX.
Import ListNotations.
Open Scope R_scope.

(** ** Which configurations are made *)
Definition makes (ds : list deed) : list (nat * nat) := flat_map (fun d => match d with DMake k i => [(k, i)] | _ => [] end) ds.

Lemma makes_app a b : makes (a ++ b) = (makes a ++ makes b)%list.
Proof. apply flat_map_app. Qed.

Lemma perform_makes cf lf ds : forall w cs w', perform cf lf ds w = Ok (cs, w') -> map fst cs = makes ds.
Proof.
  induction ds as [|d ds IH]; intros w cs w' H; cbn [perform] in H; [injection H as <- <-; reflexivity|].
  apply bind_ok in H as ([c1 w1] & H1 & H). cbn [fst snd] in H. apply bind_ok in H as ([c2 w2] & H2 & H). cbn [fst snd] in H. injection H as <- <-.
  rewrite map_app, (IH _ _ _ H2). change (d :: ds) with ([d] ++ ds)%list. rewrite makes_app. f_equal. destruct d as [p|x|k i|x l]; cbn [do_deed] in H1.
  - apply bind_ok in H1 as (o & _ & H1). injection H1 as <- <-. reflexivity.
  - destruct (save_config _ _ _ _) as [[? ?] ?]. injection H1 as <- <-. reflexivity.
  - destruct (make_config _ _) as [[? ?] ?]. injection H1 as <- <-. reflexivity.
  - injection H1 as <- <-. reflexivity.
Qed.

Definition noise (d : deed) : Prop := match d with DMake _ _ | DSave _ => False | _ => True end.
Definition still (d : deed) : Prop := match d with DSet _ => False | _ => True end.

Lemma noise_makes ds : Forall noise ds -> makes ds = [].
Proof. induction 1 as [|d t N _ IH]; [reflexivity|]. destruct d; cbn in N |- *; try contradiction; exact IH. Qed.

Lemma noise_told L ds : Forall noise ds -> forall kern cur, told L ds kern cur = [].
Proof. induction 1 as [|d t N _ IH]; intros kern cur; [reflexivity|]. destruct d; cbn in N |- *; try contradiction; apply IH. Qed.

Lemma noise_kern L ds : Forall noise ds -> forall kern cur, kern_after L ds kern cur = kern.
Proof.
  induction 1 as [|d t N _ IH]; intros [kd|] cur; try reflexivity. destruct d; cbn [noise] in N; try contradiction; cbn [kern_after]; apply IH.
Qed.

Lemma still_last ds : Forall still ds -> forall cur, last_set ds cur = cur.
Proof. induction 1 as [|d t N _ IH]; intros cur; [reflexivity|]. destruct d; cbn in N |- *; try contradiction; apply IH. Qed.

Lemma still_told L ds : Forall still ds -> forall kern cur, Forall (fun e => snd e = cur) (told L ds kern cur).
Proof. induction 1 as [|d t N _ IH]; intros kern cur; [constructor|]. destruct d; cbn [still] in N; cbn [told]; try contradiction; auto. Qed.

Lemma trial_noise q pop : Forall noise (trial_deeds q pop).
Proof.
  apply Forall_forall. intros d Hd. apply in_flat_map in Hd as (j & _ & Hd). apply in_concat in Hd as (l & Hl & Hd). apply repeat_spec in Hl. subst l.
  unfold step_deeds in Hd. destruct (writes _); [|contradiction]. destruct Hd as [<-|[]]. exact I.
Qed.

Lemma trial_still q pop : writes (qu_wrap q) = false -> Forall still (trial_deeds q pop).
Proof.
  intros W. apply Forall_forall. intros d Hd. apply in_flat_map in Hd as (j & _ & Hd). apply in_concat in Hd as (l & Hl & Hd). apply repeat_spec in Hl. subst l.
  unfold step_deeds in Hd. rewrite W in Hd. contradiction.
Qed.

Lemma elite_still q k E : writes (qu_wrap q) = false -> forall i, Forall still (elite_deeds q k i E).
Proof. intros W. induction E as [|p E IH]; intros i; [constructor|]. cbn [elite_deeds]. unfold step_deeds. rewrite W. constructor; [exact I|apply IH]. Qed.

Lemma picture_noise q n pop : Forall noise (picture_deeds q n pop).
Proof. unfold picture_deeds. destruct (se_pattern _); [constructor|]. apply Forall_forall. intros d Hd. apply in_map_iff in Hd as (j & <- & _). exact I. Qed.

Lemma elite_makes q k E : forall i, makes (elite_deeds q k i E) = map (fun j => (k, j)) (seq i (List.length E)).
Proof.
  induction E as [|p E IH]; intros i; [reflexivity|]. cbn [elite_deeds List.length seq map]. rewrite makes_app. rewrite noise_makes; [cbn; f_equal; apply IH|].
  unfold step_deeds. destruct (writes _); repeat constructor.
Qed.

Lemma rank_makes q x v : makes (rank_deeds q x v) = [].
Proof. unfold rank_deeds. destruct (se_pattern _); reflexivity. Qed.

Definition dummy : MEvo.entry := mkEntry [] [] [] [].
Definition pos_range (log : list MEvo.entry) (a n : nat) : list (nat * nat) :=
  flat_map (fun k => map (fun i => (k, i)) (seq 0 (List.length (en_elites (nth k log dummy))))) (seq a n).

Lemma pos_app log a n m : pos_range log a (n + m) = (pos_range log a n ++ pos_range log (a + n) m)%list.
Proof. unfold pos_range. rewrite seq_app. apply flat_map_app. Qed.

Lemma pos_ext log new a n : (a + n <= List.length log)%nat -> pos_range (log ++ new) a n = pos_range log a n.
Proof.
  intros H. unfold pos_range. rewrite !flat_map_concat_map. f_equal. apply map_ext_in. intros k Hk. apply in_seq in Hk. rewrite app_nth1 by lia. reflexivity.
Qed.

(** The log after a generation. *)
Lemma q_generation_new q x g v v' b ds : q_generation q x g v = Ok (v', b, ds) -> exists en, ev_log v' = (ev_log v ++ [en])%list /\
  (exists sv, ev_saved v' = (ev_saved v ++ sv)%list) /\ makes ds = map (fun j => (List.length (ev_log v), j)) (seq 0 (List.length (en_elites en))).
Proof.
  intros H. destruct (q_generation_inv _ _ _ _ _ _ _ H) as (v1 & _ & A & -> & R). cbv zeta in R. set (s := qu_set q) in *. set (f := evaluate s (ev_pop v) (Z.of_nat g * x)) in *.
  assert (A1 : ev_log v1 = ev_log v /\ exists sv, ev_saved v1 = (ev_saved v ++ sv)%list).
  { split; [exact (proj2 (advance_psd _ _ _ _ _ _ A))|]. unfold advance in A. destruct (Nat.eqb _ _).
    - destruct (rank_inv _ _ _ _ _ A) as (e & _ & _ & ->). eexists. reflexivity.
    - unfold update_population in A. apply bind_ok in A as (e & _ & A). apply bind_ok in A as ([] & _ & A). cbv zeta in A. apply bind_ok in A as ([] & _ & A). injection A as <-. exists []. cbn [ev_saved]. now rewrite app_nil_r. }
  destruct A1 as [Al (sv & As)].
  assert (M : forall t, makes ((trial_deeds q (ev_pop v) ++ (if Nat.eqb (g + 1) (se_gens s) then rank_deeds q x v1 else []) ++
     elite_deeds q (List.length (ev_log v)) 0 (elite_rows (ev_elites v1)) ++ [DLog x (ev_params (log_generation s f v1))]) ++ t)
     = (map (fun j => (List.length (ev_log v), j)) (seq 0 (List.length (elite_rows (ev_elites v1)))) ++ makes t)%list).
  { intros t. rewrite !makes_app, (noise_makes _ (trial_noise q _)), elite_makes. replace (makes (if Nat.eqb (g + 1) (se_gens s) then rank_deeds q x v1 else [])) with (@nil (nat * nat)) by (destruct (Nat.eqb _ _); [now rewrite rank_makes|reflexivity]).
    cbn [app]. unfold makes at 2. cbn [flat_map]. now rewrite app_nil_r. }
  exists (mkEntry (elite_rows (ev_elites v1)) (ev_means v1) (ev_covar v1) f). cbn [en_elites]. destruct (stops g f).
  - destruct R as [R ->]. rewrite M, rank_makes, app_nil_r. destruct (rank_inv _ _ _ _ _ R) as (e & _ & _ & ->). cbn [ev_log ev_saved log_generation]. rewrite Al, As. split; [reflexivity|]. split; [|reflexivity].
    eexists. now rewrite <- app_assoc.
  - destruct R as [-> ->]. specialize (M []). rewrite !app_nil_r in M. rewrite M. cbn [makes flat_map ev_log ev_saved log_generation]. rewrite Al, As. split; [reflexivity|]. split; [eexists; reflexivity|]. reflexivity.
Qed.

Definition grown (v v' : evo) (ds : list deed) : Prop := exists new, ev_log v' = (ev_log v ++ new)%list /\ (exists sv, ev_saved v' = (ev_saved v ++ sv)%list) /\
  makes ds = pos_range (ev_log v') (List.length (ev_log v)) (List.length new).

Lemma grown_trans v1 v2 v3 a b : grown v1 v2 a -> grown v2 v3 b -> grown v1 v3 (a ++ b).
Proof.
  intros (n1 & L1 & (s1 & S1) & M1) (n2 & L2 & (s2 & S2) & M2). exists (n1 ++ n2)%list. split; [now rewrite L2, L1, app_assoc|]. split; [exists (s1 ++ s2)%list; now rewrite S2, S1, app_assoc|].
  rewrite makes_app, M1, M2, (app_length n1), pos_app. f_equal; [|now rewrite L1, app_length]. rewrite L2. symmetry. apply pos_ext. rewrite L1, app_length. lia.
Qed.

Lemma grown_noise v v' a b ds : grown v v' ds -> Forall noise a -> Forall noise b -> grown v v' (a ++ ds ++ b).
Proof. intros (n & A & B & M) Na Nb. exists n. split; [exact A|]. split; [exact B|]. rewrite !makes_app, M, (noise_makes a Na), (noise_makes b Nb), app_nil_r. reflexivity. Qed.

Lemma q_generation_grown q x g v v' b ds : q_generation q x g v = Ok (v', b, ds) -> grown v v' ds.
Proof.
  intros H. destruct (q_generation_new _ _ _ _ _ _ _ H) as (en & E & S & M). exists [en]. split; [exact E|]. split; [exact S|]. rewrite M, E. unfold pos_range. cbn [List.length seq flat_map].
  rewrite app_nth2, Nat.sub_diag by lia. cbn [nth]. now rewrite app_nil_r.
Qed.

Lemma grown_refl v : grown v v [].
Proof. exists []. split; [now rewrite app_nil_r|]. split; [exists []; now rewrite app_nil_r|reflexivity]. Qed.

Lemma q_generations_grown q x n : forall g v v' ds, q_generations q x n g v = Ok (v', ds) -> grown v v' ds.
Proof.
  induction n as [|n IH]; intros g v v' ds H; cbn [q_generations] in H; [injection H as <- <-; apply grown_refl|].
  apply bind_ok in H as ([[v1 b] d1] & H1 & H). cbn [fst snd] in H. pose proof (q_generation_grown _ _ _ _ _ _ _ H1) as G1.
  destruct b; [injection H as <- <-; exact G1|]. apply bind_ok in H as ([v2 d2] & H2 & H). cbn [fst snd] in H. injection H as <- <-. eapply grown_trans; [exact G1|]. eapply IH. exact H2.
Qed.

Lemma q_run_seed_grown q x v v' ds : q_run_seed q x v = Ok (v', ds) -> grown v v' ds.
Proof.
  intros H. destruct (q_run_seed_inv _ _ _ _ _ H) as (v1 & dg & _ & _ & _ & G & C & _ & ->). destruct (closing_same _ _ _ C) as (E1 & _ & _ & E2 & _).
  apply grown_noise; [|apply picture_noise|apply picture_noise]. pose proof (q_generations_grown _ _ _ _ _ _ _ G) as (n & A & B & M). exists n. rewrite E1, E2. auto.
Qed.

Lemma q_run_seeds_grown q xs : forall v v' ds, q_run_seeds q xs v = Ok (v', ds) -> grown v v' ds.
Proof.
  induction xs as [|x t IH]; intros v v' ds H; cbn [q_run_seeds] in H; [injection H as <- <-; apply grown_refl|].
  apply bind_ok in H as ([v1 d1] & H1 & H). cbn [fst snd] in H. apply bind_ok in H as ([v2 d2] & H2 & H). cbn [fst snd] in H. injection H as <- <-.
  eapply grown_trans; [exact (q_run_seed_grown _ _ _ _ _ H1)|]. eapply IH. exact H2.
Qed.

Lemma new_positions q xs v ds E : q_run_seeds q xs (new_evo E) = Ok (v, ds) -> makes ds = positions v.
Proof. intros H. destruct (q_run_seeds_grown _ _ _ _ _ H) as (n & A & _ & M). cbn [new_evo ev_log app] in A. rewrite M, <- A. reflexivity. Qed.

(** ** The halting wrappers: every configuration is made from its elite *)
Definition good (v : evo) (e : event * option dict * list R) : Prop :=
  match fst (fst e) with
  | inl (k, i) => (k < List.length (ev_log v))%nat /\ snd e = elite_at v k i
  | inr x => In (x, Some (snd e)) (ev_saved v)
  end.

Lemma good_grown v v' ds e : grown v v' ds -> good v e -> good v' e.
Proof.
  intros (n & A & (sv & B) & _) G. unfold good in *. destruct (fst (fst e)) as [[k i]|x].
  - destruct G as [G1 G2]. rewrite A, app_length. split; [lia|]. rewrite G2. unfold elite_at. rewrite A, app_nth1 by exact G1. reflexivity.
  - rewrite B. apply in_app_iff. left. exact G.
Qed.

Lemma elite_told L q k E : writes (qu_wrap q) = true -> forall i kern cur,
  Forall (fun e => exists j, fst (fst e) = inl (k, i + j)%nat /\ snd e = nth j E []) (told L (elite_deeds q k i E) kern cur).
Proof.
  intros W. induction E as [|p E IH]; intros i kern cur; [constructor|]. cbn [elite_deeds]. unfold step_deeds. rewrite W. cbn [app told].
  constructor; [exists 0%nat; cbn; split; [now rewrite Nat.add_0_r|reflexivity]|].
  eapply Forall_impl; [|apply IH]. intros e (j & H1 & H2). exists (Datatypes.S j). rewrite H1, H2. split; [f_equal; f_equal; lia|reflexivity].
Qed.

Lemma elite_told_head L q k p E kern cur : writes (qu_wrap q) = true ->
  exists t, told L (elite_deeds q k 0 (p :: E)) kern cur = (inl (k, 0%nat), kern, p) :: t.
Proof. intros W. cbn [elite_deeds]. unfold step_deeds. rewrite W. cbn [app told]. eexists. reflexivity. Qed.

Lemma rank_told L q x v kern cur : se_pattern (qu_set q) = false -> told L (rank_deeds q x v) kern cur = [(inr x, kern, nth 0 (elite_rows (ev_elites v)) [])].
Proof. intros P. unfold rank_deeds. rewrite P. reflexivity. Qed.

Definition has_save (e : event * option dict * list R) : Prop := match fst (fst e) with inr _ => True | inl _ => False end.
(** The last configuration file written is that of the elites. *)
Definition ends_saved (x : Z) (v : evo) (l : list (event * option dict * list R)) : Prop :=
  exists a kern b, l = (a ++ (inr x, kern, nth 0 (elite_rows (ev_elites v)) []) :: b)%list /\ Forall (fun e => ~ has_save e) b.

Lemma q_generation_told L q x g v v' b ds kern cur : writes (qu_wrap q) = true -> se_pattern (qu_set q) = false -> lottery_ok (qu_set q) ->
  q_generation q x g v = Ok (v', b, ds) ->
  Forall (good v') (told L ds kern cur) /\
  (exists t, told L ds kern cur = ((if Nat.eqb (g + 1) (se_gens (qu_set q)) then inr x else inl (List.length (ev_log v), 0%nat), kern, elite_at v' (List.length (ev_log v)) 0)) :: t) /\
  (b = true \/ (g + 1 = se_gens (qu_set q))%nat -> ends_saved x v' (told L ds kern cur)).
Proof.
  intros W P LO H. destruct (q_generation_inv _ _ _ _ _ _ _ H) as (v1 & _ & A & -> & R). cbv zeta in R. set (s := qu_set q) in *. set (f := evaluate s (ev_pop v) (Z.of_nat g * x)) in *.
  set (E := elite_rows (ev_elites v1)) in *. assert (Al : ev_log v1 = ev_log v) by exact (proj2 (advance_psd _ _ _ _ _ _ A)).
  assert (LE : exists p E', E = p :: E').
  { assert (HE : has_elites (se_keep s) v1) by (unfold advance in A; destruct (Nat.eqb _ _); [exact (rank_elites _ _ _ _ _ A)|exact (update_elites _ _ _ _ LO A)]).
    destruct HE as (E0 & H0 & L0). unfold E. rewrite H0. cbn [elite_rows]. pose proof (keep_pos s). destruct E0 as [|p E']; [cbn in L0; lia|]. eauto. }
  destruct LE as (p & E' & LE).
  set (en := mkEntry E (ev_means v1) (ev_covar v1) f).
  assert (Lv : ev_log v' = (ev_log v ++ [en])%list).
  { destruct (stops g f); destruct R as [R _]; [destruct (rank_inv _ _ _ _ _ R) as (e & _ & _ & ->)|rewrite R]; cbn [ev_log log_generation]; rewrite Al; reflexivity. }
  assert (At : forall i, elite_at v' (List.length (ev_log v)) i = nth i E []) by (intros i; unfold elite_at; rewrite Lv, app_nth2, Nat.sub_diag by lia; reflexivity).
  set (tail := fun rest : list deed => (elite_deeds q (List.length (ev_log v)) 0 E ++ [DLog x (ev_params (log_generation s f v1))] ++ rest)%list).
  (* the elite part and what follows *)
  assert (T2 : forall kern cur, Forall (good v') (told L (elite_deeds q (List.length (ev_log v)) 0 E) kern cur) /\
     Forall (fun e => ~ has_save e) (told L (elite_deeds q (List.length (ev_log v)) 0 E) kern cur)).
  { intros k0 c0. pose proof (elite_told L q (List.length (ev_log v)) E W 0 k0 c0) as T. split; (eapply Forall_impl; [|exact T]); intros e (j & H1 & H2).
    - destruct e as [[ev ke] ce]. cbn [fst snd] in H1, H2. subst ev ce. unfold good. cbn [fst snd Nat.add]. split; [rewrite Lv, app_length; cbn; lia|]. rewrite At. reflexivity.
    - destruct e as [[ev ke] ce]. cbn [fst snd] in H1. subst ev. exact (fun z => z). }
  assert (T1 : (g + 1 = se_gens s)%nat -> In (x, Some (nth 0 E [])) (ev_saved v')).
  { intros Hg. assert (S1 : In (x, Some (nth 0 E [])) (ev_saved v1)).
    { unfold advance in A. rewrite (proj2 (Nat.eqb_eq _ _) Hg) in A. destruct (rank_inv _ _ _ _ _ A) as (e & _ & _ & Ev). unfold E. rewrite Ev. cbn [ev_saved ev_elites elite_rows]. apply in_app_iff. right. rewrite P. left. reflexivity. }
    destruct (stops g f); destruct R as [R _]; [destruct (rank_inv _ _ _ _ _ R) as (e & _ & _ & ->)|rewrite R]; cbn [ev_saved log_generation]; [apply in_app_iff; left|]; exact S1. }
  assert (At0 : nth 0 E [] = p) by (rewrite LE; reflexivity).
  set (d1 := if Nat.eqb (g + 1) (se_gens s) then rank_deeds q x v1 else []) in *.
  assert (D1 : forall kern cur, told L d1 kern cur = if Nat.eqb (g + 1) (se_gens s) then [(inr x, kern, p)] else []).
  { intros k0 c0. unfold d1. destruct (Nat.eqb _ _); [|reflexivity]. rewrite (rank_told L q x v1 _ _ P). fold E. now rewrite At0. }
  assert (Head : forall rest, exists t, told L ((trial_deeds q (ev_pop v) ++ d1 ++ elite_deeds q (List.length (ev_log v)) 0 E ++ [DLog x (ev_params (log_generation s f v1))]) ++ rest) kern cur =
     (if Nat.eqb (g + 1) (se_gens s) then inr x else inl (List.length (ev_log v), 0%nat), kern, elite_at v' (List.length (ev_log v)) 0) :: t).
  { intros rest. rewrite <- app_assoc, told_app, (noise_told _ _ (trial_noise q _)). cbn [app]. replace (kern_after L (trial_deeds q (ev_pop v)) kern cur) with kern.
    2:{ symmetry. apply noise_kern, trial_noise. }
    rewrite <- app_assoc, told_app, D1, At, At0. destruct (Nat.eqb (g + 1) (se_gens s)) eqn:Eg.
    - cbn [app]. eexists. reflexivity.
    - cbn [app]. unfold d1. cbn [last_set]. replace (kern_after L [] kern _) with kern by (destruct kern; reflexivity).
      rewrite <- app_assoc, told_app, LE. destruct (elite_told_head L q (List.length (ev_log v)) p E' kern (last_set (trial_deeds q (ev_pop v)) cur) W) as (t & ->). cbn [app]. eexists. reflexivity. }
  assert (Body : forall kern cur, Forall (good v') (told L (trial_deeds q (ev_pop v) ++ d1 ++ elite_deeds q (List.length (ev_log v)) 0 E ++ [DLog x (ev_params (log_generation s f v1))]) kern cur)).
  { intros k0 c0. rewrite told_app, (noise_told _ _ (trial_noise q _)). cbn [app]. rewrite told_app. apply Forall_app. split.
    - rewrite D1. destruct (Nat.eqb_spec (g + 1) (se_gens s)) as [Hg|]; [|constructor]. constructor; [|constructor]. unfold good. cbn [fst snd]. rewrite <- At0. exact (T1 Hg).
    - rewrite told_app. apply Forall_app. split; [apply T2|]. constructor. }
  destruct (stops g f) eqn:St.
  - destruct R as [R ->]. destruct (Head (rank_deeds q x v')) as (t & Ht). split; [|split; [exists t; exact Ht|]].
    + rewrite told_app. apply Forall_app. split; [apply Body|]. rewrite (rank_told L q x v' _ _ P). constructor; [|constructor]. unfold good. cbn [fst snd].
      destruct (rank_inv _ _ _ _ _ R) as (e & _ & _ & ->). cbn [ev_saved ev_elites elite_rows]. apply in_app_iff. right. rewrite P. left. reflexivity.
    + intros _. rewrite told_app, (rank_told L q x v' _ _ P). eexists _, _, []. split; [reflexivity|constructor].
  - destruct R as [-> ->]. destruct (Head []) as (t & Ht). rewrite app_nil_r in Ht. split; [apply Body|]. split; [exists t; exact Ht|].
    intros [?|Hg]; [discriminate|]. rewrite told_app, (noise_told _ _ (trial_noise q _)). cbn [app]. rewrite told_app, D1. rewrite (proj2 (Nat.eqb_eq _ _) Hg).
    unfold ends_saved. exists []. cbn [app]. cbn [log_generation ev_elites]. fold E. rewrite At0. eexists _, _. split; [reflexivity|]. rewrite told_app. apply Forall_app. split; [apply T2|constructor].
Qed.
