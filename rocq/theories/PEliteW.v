(** Proofs about the logs, the cost and the automaton a search leaves behind. *)
From Coq Require Import Reals Lra Lia List Arith Bool ZArith String.
From Verif Require Import Base PyDict MActivations MKernels MCommon MCca MEvo MConfig SConfig MElite PConfig PConfigX PConfigY PConfigV PConfigW PWrapNew SElite PEvoX PElite PEliteX PEliteY PEliteZ.
Import ListNotations.
Open Scope R_scope.

Lemma perform_app cf lf a b : forall w cs w', perform cf lf (a ++ b) w = Ok (cs, w') -> exists c1 w1 c2, perform cf lf a w = Ok (c1, w1) /\ perform cf lf b w1 = Ok (c2, w').
Proof.
  induction a as [|d a IH]; intros w cs w' H; [exists [], w, cs; split; [reflexivity|exact H]|]. cbn [app perform] in H. apply bind_ok in H as ([c0 w0] & H0 & H). cbn [fst snd] in H.
  apply bind_ok in H as ([c w2] & H2 & H). cbn [fst snd] in H. injection H as _ <-. destruct (IH _ _ _ H2) as (c1 & w1 & c2 & P1 & P2). exists (c0 ++ c1)%list, w1, c2. split; [|exact P2].
  cbn [perform]. rewrite H0. cbn [bind fst snd]. rewrite P1. reflexivity.
Qed.

(** ** The log file *)
Definition no_log (d : deed) : Prop := match d with DLog _ _ => False | _ => True end.
Definition logged_last (z : Z) (v : evo) (ds : list deed) : Prop := exists a b, ds = (a ++ DLog z (ev_params v) :: b)%list /\ Forall no_log b.

Lemma quiet_file cf lf path ds : Forall no_log ds -> (forall x, In (DSave x) ds -> path <> npy (cf x)) -> forall w cs w', perform cf lf ds w = Ok (cs, w') ->
  fs_get (e_fs (w_env w')) path = fs_get (e_fs (w_env w)) path.
Proof.
  induction 1 as [|d t N _ IH]; intros S w cs w' H; cbn [perform] in H; [injection H as <- <-; reflexivity|].
  apply bind_ok in H as ([c1 w1] & H1 & H). cbn [fst snd] in H. apply bind_ok in H as ([c2 w2] & H2 & H). cbn [fst snd] in H. injection H as <- <-.
  rewrite (IH (fun x Hx => S x (or_intror Hx)) _ _ _ H2). destruct d as [p|x|k i|x l]; cbn [do_deed no_log] in *.
  - apply bind_ok in H1 as (o & _ & H1). injection H1 as <- <-. reflexivity.
  - unfold save_config in H1. destruct (make_config _ _) as [[c o] h]. injection H1 as <- <-. cbn [w_env e_fs]. apply fs_get_set_neq. apply S. left. reflexivity.
  - destruct (make_config _ _) as [[c o] h]. injection H1 as <- <-. reflexivity.
  - contradiction.
Qed.

Lemma logged_file cf lf z v ds w cs w' : logged_last z v ds -> (forall x, In (DSave x) ds -> npy (lf z) <> npy (cf x)) -> perform cf lf ds w = Ok (cs, w') ->
  fs_get (e_fs (w_env w')) (npy (lf z)) = Some (FElite (ev_params v)).
Proof.
  intros (a & b & -> & N) S H. destruct (perform_app _ _ _ _ _ _ _ H) as (c1 & w1 & c2 & _ & H2). cbn [perform do_deed bind fst snd] in H2. apply bind_ok in H2 as ([c3 w3] & H3 & H2). injection H2 as <- <-.
  assert (Q : forall x, In (DSave x) b -> npy (lf z) <> npy (cf x)) by (intros x Hx; apply S; apply in_app_iff; right; right; exact Hx).
  rewrite (quiet_file cf lf (npy (lf z)) b N Q _ _ _ H3). cbn [w_env e_fs]. apply fs_get_set.
Qed.

Lemma rank_no_log q x v : Forall no_log (rank_deeds q x v).
Proof. unfold rank_deeds. destruct (se_pattern _); repeat constructor. Qed.

Lemma picture_no_log q n pop : Forall no_log (picture_deeds q n pop).
Proof. unfold picture_deeds. destruct (se_pattern _); [constructor|]. apply Forall_forall. intros d Hd. apply in_map_iff in Hd as (j & <- & _). exact I. Qed.

Lemma rank_params s f x v v' : rank_population s f x v = Ok v' -> ev_params v' = ev_params v.
Proof. intros H. destruct (rank_inv _ _ _ _ _ H) as (e & _ & _ & ->). reflexivity. Qed.

Lemma logged_mid z v (a b c r : list deed) : Forall no_log r -> logged_last z v ((a ++ b ++ c ++ [DLog z (ev_params v)]) ++ r).
Proof. intros N. exists (a ++ b ++ c)%list, r. split; [|exact N]. rewrite <- !app_assoc. reflexivity. Qed.

Lemma q_generation_logs q x g v v' b ds : q_generation q x g v = Ok (v', b, ds) -> logged_last x v' ds.
Proof.
  intros H. destruct (q_generation_inv _ _ _ _ _ _ _ H) as (v1 & _ & _ & -> & R). cbv zeta in R. destruct (stops g _); destruct R as [R ->].
  - rewrite <- (rank_params _ _ _ _ _ R). apply logged_mid, rank_no_log.
  - rewrite R. rewrite <- (app_nil_r (_ ++ _)%list). apply logged_mid. constructor.
Qed.

Lemma logged_app z v a b : logged_last z v b -> logged_last z v (a ++ b).
Proof. intros (c & d & -> & N). exists (a ++ c)%list, d. split; [now rewrite <- app_assoc|exact N]. Qed.

Lemma q_generations_logs q x n : forall g v v' ds, q_generations q x (Datatypes.S n) g v = Ok (v', ds) -> logged_last x v' ds.
Proof.
  induction n as [|n IH]; intros g v v' ds H.
  - cbn [q_generations] in H. apply bind_ok in H as ([[v1 b] d1] & H1 & H). cbn [fst snd] in H. pose proof (q_generation_logs _ _ _ _ _ _ _ H1) as Q.
    destruct b; [|cbn [bind fst snd] in H; rewrite app_nil_r in H]; injection H as <- <-; exact Q.
  - remember (Datatypes.S n) as m. cbn [q_generations] in H. apply bind_ok in H as ([[v1 b] d1] & H1 & H). cbn [fst snd] in H. pose proof (q_generation_logs _ _ _ _ _ _ _ H1) as Q.
    destruct b; [injection H as <- <-; exact Q|]. apply bind_ok in H as ([v2 d2] & H2 & H). cbn [fst snd] in H. injection H as <- <-. subst m. apply logged_app. eapply IH. exact H2.
Qed.

Lemma q_run_seed_logs q x v v' ds : q_run_seed q x v = Ok (v', ds) -> logged_last x v' ds.
Proof.
  intros H. destruct (q_run_seed_inv _ _ _ _ _ H) as (v1 & dg & _ & N & _ & G & C & _ & ->). destruct (closing_same _ _ _ C) as (_ & _ & E & _). apply logged_app.
  destruct (se_gens (qu_set q)) as [|n]; [congruence|]. destruct (q_generations_logs _ _ _ _ _ _ _ G) as (a & b & -> & Nb). exists a, (b ++ picture_deeds q (se_keep (qu_set q)) (ev_pop v1))%list.
  rewrite E. split; [now rewrite <- app_assoc|]. apply Forall_app. split; [exact Nb|apply picture_no_log].
Qed.

Lemma q_run_seeds_logs q xs : forall x v v' ds, q_run_seeds q (x :: xs) v = Ok (v', ds) -> logged_last (last (x :: xs) x) v' ds.
Proof.
  induction xs as [|y t IH]; intros x v v' ds H.
  - cbn [q_run_seeds] in H. apply bind_ok in H as ([v1 d1] & H1 & H). cbn [bind fst snd] in H. injection H as <- <-. rewrite app_nil_r. exact (q_run_seed_logs _ _ _ _ _ H1).
  - remember (y :: t) as ys. cbn [q_run_seeds] in H. apply bind_ok in H as ([v1 d1] & H1 & H). cbn [fst snd] in H. apply bind_ok in H as ([v2 d2] & H2 & H). cbn [fst snd] in H. injection H as <- <-. subst ys.
    apply logged_app. change (last (x :: y :: t) x) with (last (y :: t) x). rewrite (last_default t y x y). exact (IH _ _ _ _ H2).
Qed.

Lemma save_seed q xs : forall v v' ds, q_run_seeds q xs v = Ok (v', ds) -> forall y, In (DSave y) ds -> In y xs.
Proof.
  assert (NP : forall n pop y, ~ In (DSave y) (picture_deeds q n pop)).
  { intros n pop y H. unfold picture_deeds in H. destruct (se_pattern _); [contradiction|]. apply in_map_iff in H as (j & H & _). discriminate. }
  assert (NT : forall pop y, ~ In (DSave y) (trial_deeds q pop)).
  { intros pop y H. pose proof (trial_noise q pop) as T. rewrite Forall_forall in T. exact (T _ H). }
  assert (NE : forall E k i y, ~ In (DSave y) (elite_deeds q k i E)).
  { induction E as [|p E IH]; intros k i y H; [contradiction|]. cbn [elite_deeds] in H. apply in_app_iff in H as [H|[H|H]]; [|discriminate|exact (IH _ _ _ H)]. unfold step_deeds in H. destruct (writes _); cbn in H; intuition discriminate. }
  assert (NR : forall x v y, In (DSave y) (rank_deeds q x v) -> y = x).
  { intros x v y H. unfold rank_deeds in H. destruct (se_pattern _); cbn in H; [destruct H as [H|[]]|destruct H as [H|[H|[]]]; [discriminate|]]; injection H as <-; reflexivity. }
  assert (G1 : forall x g v v' b ds, q_generation q x g v = Ok (v', b, ds) -> forall y, In (DSave y) ds -> y = x).
  { intros x g v v' b ds H y Hin. destruct (q_generation_inv _ _ _ _ _ _ _ H) as (v1 & _ & _ & -> & R). cbv zeta in R.
    assert (C : In (DSave y) (trial_deeds q (ev_pop v) ++ (if Nat.eqb (g + 1) (se_gens (qu_set q)) then rank_deeds q x v1 else []) ++
       elite_deeds q (List.length (ev_log v)) 0 (elite_rows (ev_elites v1)) ++ [DLog x (ev_params (log_generation (qu_set q) (evaluate (qu_set q) (ev_pop v) (Z.of_nat g * x)) v1))])%list -> y = x).
    { intros I. apply in_app_iff in I as [I|I]; [destruct (NT _ _ I)|]. apply in_app_iff in I as [I|I]; [destruct (Nat.eqb _ _); [exact (NR _ _ _ I)|contradiction]|].
      apply in_app_iff in I as [I|[I|[]]]; [destruct (NE _ _ _ _ I)|]. discriminate. }
    destruct (stops g _); destruct R as [_ ->]; [|exact (C Hin)]. apply in_app_iff in Hin as [I|I]; [exact (C I)|exact (NR _ _ _ I)]. }
  assert (G2 : forall x n g v v' ds, q_generations q x n g v = Ok (v', ds) -> forall y, In (DSave y) ds -> y = x).
  { intros x. induction n as [|n IH]; intros g v v' ds H y Hin; cbn [q_generations] in H; [injection H as <- <-; contradiction|].
    apply bind_ok in H as ([[v1 b] d1] & H1 & H). cbn [fst snd] in H. destruct b; [injection H as <- <-; exact (G1 _ _ _ _ _ _ H1 _ Hin)|].
    apply bind_ok in H as ([v2 d2] & H2 & H). cbn [fst snd] in H. injection H as <- <-. apply in_app_iff in Hin as [I|I]; [exact (G1 _ _ _ _ _ _ H1 _ I)|exact (IH _ _ _ _ H2 _ I)]. }
  induction xs as [|x t IH]; intros v v' ds H y Hin; cbn [q_run_seeds] in H; [injection H as <- <-; contradiction|].
  apply bind_ok in H as ([v1 d1] & H1 & H). cbn [fst snd] in H. apply bind_ok in H as ([v2 d2] & H2 & H). cbn [fst snd] in H. injection H as <- <-.
  apply in_app_iff in Hin as [I|I]; [left|right; exact (IH _ _ _ H2 _ I)]. destruct (q_run_seed_inv _ _ _ _ _ H1) as (u & dg & _ & _ & _ & G & _ & _ & ->).
  apply in_app_iff in I as [I|I]; [destruct (NP _ _ _ I)|]. apply in_app_iff in I as [I|I]; [|destruct (NP _ _ _ I)]. symmetry. exact (G2 _ _ _ _ _ _ G _ I).
Qed.

Lemma log_written cf lf q x xs v ds w cs w' E : q_run_seeds q (x :: xs) (new_evo E) = Ok (v, ds) -> perform cf lf ds w = Ok (cs, w') ->
  let z := last (x :: xs) x in (forall y, In y (x :: xs) -> npy (lf z) <> npy (cf y)) ->
  fs_get (e_fs (w_env w')) (npy (lf z)) = Some (FElite (ev_params v)).
Proof.
  intros H P z Hz. apply (logged_file cf lf z v ds w cs w' (q_run_seeds_logs _ _ _ _ _ _ H)); [|exact P]. intros y Hy. apply Hz. exact (save_seed _ _ _ _ _ H _ Hy).
Qed.

(** ** What is left in the automaton *)
Lemma perform_params cf lf L gd pd ds : forall kern cur w cs w', Forall (fits L) ds -> holds L gd pd kern cur w -> perform cf lf ds w = Ok (cs, w') -> get_params (w_obj w') = Some (last_set ds cur).
Proof.
  induction ds as [|d ds IH]; intros kern cur w cs w' F H P; cbn [perform] in P; [injection P as <- <-; apply H|].
  apply bind_ok in P as ([c1 w1] & P1 & P). cbn [fst snd] in P. apply bind_ok in P as ([c2 w2] & P2 & P). cbn [fst snd] in P. injection P as <- <-.
  inversion F as [|? ? Fd Ft]; subst. destruct d as [p|x|k i|x l]; cbn [do_deed last_set] in *.
  - apply bind_ok in P1 as (o & S & P1). injection P1 as <- <-. exact (IH kern p _ _ _ Ft (set_holds _ _ _ _ _ _ _ _ H Fd S) P2).
  - unfold save_config in P1. destruct (make_config (w_obj w) (w_heap w)) as [[c o] h] eqn:M. injection P1 as <- <-. exact (IH _ _ _ _ _ Ft (proj2 (make_holds _ _ _ _ _ _ _ _ _ _ H M)) P2).
  - destruct (make_config (w_obj w) (w_heap w)) as [[c o] h] eqn:M. injection P1 as <- <-. exact (IH _ _ _ _ _ Ft (proj2 (make_holds _ _ _ _ _ _ _ _ _ _ H M)) P2).
  - injection P1 as <- <-. exact (IH kern cur _ _ _ Ft (H : holds L gd pd kern cur (mkWorld (w_obj w) (w_heap w) _)) P2).
Qed.

Lemma run_seed_last q x v v' ds cur : se_pattern (qu_set q) = false -> q_run_seed q x v = Ok (v', ds) -> last_set ds cur = nth (se_keep (qu_set q) - 1) (ev_pop v') [].
Proof.
  intros P H. destruct (q_run_seed_inv _ _ _ _ _ H) as (v1 & dg & K & _ & _ & _ & C & _ & ->). rewrite !last_set_app. pose proof (keep_pos (qu_set q)) as Kp. destruct (se_keep (qu_set q)) as [|m] eqn:Em; [lia|].
  rewrite (picture_last q m _ _ P). replace (Datatypes.S m - 1)%nat with m by lia. unfold closing in C. apply bind_ok in C as ([] & _ & C). rewrite P in C. apply bind_ok in C as ([] & _ & C).
  rewrite (proj1 (proj2 (proj2 (proj2 (proj2 (proj2 (parade_same _ _ _ C)))))) K). reflexivity.
Qed.

Lemma run_seeds_last q xs : se_pattern (qu_set q) = false -> forall x v v' ds cur, q_run_seeds q (x :: xs) v = Ok (v', ds) -> last_set ds cur = nth (se_keep (qu_set q) - 1) (ev_pop v') [].
Proof.
  intros P. induction xs as [|y t IH]; intros x v v' ds cur H.
  - cbn [q_run_seeds] in H. apply bind_ok in H as ([v1 d1] & H1 & H). cbn [bind fst snd] in H. injection H as <- <-. rewrite app_nil_r. exact (run_seed_last _ _ _ _ _ cur P H1).
  - remember (y :: t) as ys. cbn [q_run_seeds] in H. apply bind_ok in H as ([v1 d1] & H1 & H). cbn [fst snd] in H. apply bind_ok in H as ([v2 d2] & H2 & H). cbn [fst snd] in H. injection H as <- <-. subst ys.
    rewrite last_set_app. exact (IH _ _ _ _ _ H2).
Qed.

Lemma left_behind cf lf L q x xs v ds w cs w' b : seeks b L q -> q_run_seeds q (x :: xs) (new_evo None) = Ok (v, ds) -> laid_out L (w_obj w) -> plain (w_obj w) -> perform cf lf ds w = Ok (cs, w') ->
  get_params (w_obj w') = Some (nth (se_keep (qu_set q) - 1) (ev_pop v) []).
Proof.
  intros (_ & P & K & S & _ & D) H La Pl Pf. destruct (laid_params _ _ La) as (cur & G).
  assert (Fi : Forall (fits L) ds) by (apply (q_run_seeds_fit L q (x :: xs) D S K (new_evo None) v ds); [constructor|exact H]).
  rewrite (perform_params cf lf L stock_fn stock_fn ds None cur w cs w' Fi) by (exact Pf || (split; [exact G|]; split; [exact La|]; split; [exact Pl|split; reflexivity])).
  rewrite (run_seeds_last q xs P _ _ _ _ cur H). reflexivity.
Qed.

(** ** How often the parameters are written *)
Definition sets (ds : list deed) : nat := List.length (filter (fun d => match d with DSet _ => true | _ => false end) ds).

Lemma sets_app a b : sets (a ++ b) = (sets a + sets b)%nat.
Proof. unfold sets. now rewrite filter_app, app_length. Qed.

Lemma step_sets q p : sets (step_deeds q p) = if writes (qu_wrap q) then 1%nat else 0%nat.
Proof. unfold step_deeds. destruct (writes _); reflexivity. Qed.

Lemma trial_sets q pop : sets (trial_deeds q pop) = if writes (qu_wrap q) then (se_size (qu_set q) * qu_reps q)%nat else 0%nat.
Proof.
  unfold trial_deeds. set (n := se_size (qu_set q)). assert (R : forall j, sets (List.concat (repeat (step_deeds q (nth j pop [])) (qu_reps q))) = if writes (qu_wrap q) then qu_reps q else 0%nat).
  { intros j. induction (qu_reps q) as [|m IH]; [destruct (writes _); reflexivity|]. cbn [repeat List.concat]. rewrite sets_app, step_sets, IH. destruct (writes _); reflexivity. }
  transitivity (if writes (qu_wrap q) then (List.length (seq 0 n) * qu_reps q)%nat else 0%nat); [|now rewrite seq_length].
  induction (seq 0 n) as [|j l IH]; [destruct (writes _); reflexivity|]. cbn [flat_map List.length]. rewrite sets_app, R, IH. destruct (writes _); lia.
Qed.

Lemma elite_sets q k E : forall i, sets (elite_deeds q k i E) = if writes (qu_wrap q) then List.length E else 0%nat.
Proof.
  induction E as [|p E IH]; intros i; [destruct (writes _); reflexivity|]. cbn [elite_deeds]. rewrite sets_app, step_sets. change (sets (DMake k i :: elite_deeds q k (Datatypes.S i) E)) with (sets (elite_deeds q k (Datatypes.S i) E)). rewrite IH. destruct (writes _); reflexivity.
Qed.

Lemma picture_sets q n pop : se_pattern (qu_set q) = false -> sets (picture_deeds q n pop) = n.
Proof.
  intros P. unfold picture_deeds. rewrite P. transitivity (List.length (seq 0 n)); [|apply seq_length]. induction (seq 0 n) as [|j l IH]; [reflexivity|]. cbn [map]. unfold sets in *. cbn [filter List.length]. now rewrite IH.
Qed.

(** Writes per generation without the final ranking. *)
Definition per_generation (q : quest) : nat := if writes (qu_wrap q) then (se_size (qu_set q) * qu_reps q + se_keep (qu_set q))%nat else 0%nat.

Lemma q_generation_sets q x g v v' b ds : se_pattern (qu_set q) = false -> lottery_ok (qu_set q) -> (g <= 6)%nat -> q_generation q x g v = Ok (v', b, ds) ->
  b = false /\ sets ds = (per_generation q + (if Nat.eqb (g + 1) (se_gens (qu_set q)) then 1 else 0))%nat.
Proof.
  intros P LO Hg H. destruct (q_generation_inv _ _ _ _ _ _ _ H) as (v1 & _ & A & -> & R). cbv zeta in R. rewrite stops_early in * by exact Hg. destruct R as [_ ->]. split; [reflexivity|].
  assert (HE : has_elites (se_keep (qu_set q)) v1) by (unfold advance in A; destruct (Nat.eqb _ _); [exact (rank_elites _ _ _ _ _ A)|exact (update_elites _ _ _ _ LO A)]). destruct HE as (E0 & -> & L0). cbn [elite_rows].
  rewrite !sets_app, trial_sets, elite_sets, L0. unfold per_generation, rank_deeds. rewrite P. destruct (Nat.eqb _ _), (writes _); unfold sets; cbn [filter List.length app]; lia.
Qed.

Lemma q_generations_sets q x n : se_pattern (qu_set q) = false -> lottery_ok (qu_set q) -> (se_gens (qu_set q) <= 7)%nat -> forall g v v' ds, (g + Datatypes.S n = se_gens (qu_set q))%nat ->
  q_generations q x (Datatypes.S n) g v = Ok (v', ds) -> sets ds = (Datatypes.S n * per_generation q + 1)%nat.
Proof.
  intros P LO H7. induction n as [|n IH]; intros g v v' ds Hg H.
  - cbn [q_generations] in H. apply bind_ok in H as ([[v1 b] d1] & H1 & H). cbn [fst snd] in H. destruct (q_generation_sets q x g _ _ _ _ P LO ltac:(lia) H1) as [-> S1]. cbn [bind fst snd] in H. rewrite app_nil_r in H. injection H as <- <-.
    rewrite S1. replace (g + 1)%nat with (se_gens (qu_set q)) by lia. rewrite Nat.eqb_refl. lia.
  - remember (Datatypes.S n) as m. cbn [q_generations] in H. apply bind_ok in H as ([[v1 b] d1] & H1 & H). cbn [fst snd] in H. destruct (q_generation_sets q x g _ _ _ _ P LO ltac:(lia) H1) as [-> S1].
    apply bind_ok in H as ([v2 d2] & H2 & H). cbn [fst snd] in H. injection H as <- <-. subst m. rewrite sets_app, S1, (IH (Datatypes.S g) _ _ _ ltac:(lia) H2). destruct (Nat.eqb_spec (g + 1) (se_gens (qu_set q))); lia.
Qed.

Lemma q_run_seeds_sets q xs : se_pattern (qu_set q) = false -> lottery_ok (qu_set q) -> (se_gens (qu_set q) <= 7)%nat -> forall v v' ds, q_run_seeds q xs v = Ok (v', ds) ->
  sets ds = (List.length xs * (Nat.min (se_keep (qu_set q)) 4 + se_gens (qu_set q) * per_generation q + 1 + se_keep (qu_set q)))%nat.
Proof.
  intros P LO H7. induction xs as [|x t IH]; intros v v' ds H; cbn [q_run_seeds] in H; [injection H as <- <-; reflexivity|].
  apply bind_ok in H as ([v1 d1] & H1 & H). cbn [fst snd] in H. apply bind_ok in H as ([v2 d2] & H2 & H). cbn [fst snd] in H. injection H as <- <-. rewrite sets_app, (IH _ _ _ H2).
  destruct (q_run_seed_inv _ _ _ _ _ H1) as (u & dg & _ & N & _ & G & _ & _ & ->). rewrite !sets_app, !picture_sets by exact P. destruct (se_gens (qu_set q)) as [|n] eqn:En; [congruence|].
  rewrite (q_generations_sets q x n P LO ltac:(lia) 0 _ _ _ (eq_sym En) G). cbn [List.length]. lia.
Qed.

(** ** What one gets when the file is loaded *)
Lemma load_values fuel ev rng o2 c h2 o3 h3 kd gd pd : obj_inv o2 -> p_nb c = Some kd -> p_gen c = Some gd -> p_per c = Some pd -> p_same c = false ->
  load_value fuel ev rng o2 c h2 = Ok (o3, h3) ->
  (exists k old, get_kernel kd = Ok k /\ uses_kernel (o_core o3) k /\ read_kpar old kd = Ok (o_kpar o3)) /\ make_fn gd = Ok (gens (o_core o3)) /\ make_fn pd = Ok (pers (o_core o3)).
Proof.
  intros I N G P Sm H. unfold load_value, load_config in H. apply (load_with_inv _ _ _ _ _ _ (init_inv fuel ev rng) I) in H as (_ & Gr & a & Ld & _).
  destruct (unpickle_vals c h2 h3 Gr) as (_ & An & Ag & Ap & _). cbv zeta in *. rewrite Sm in Ap.
  destruct (ld_nb _ _ _ _ Ld) as (l & k & Cn & _ & Hk & Hl & Hp & _). destruct (ld_gen _ _ _ _ Ld) as (g & Cg & _ & Hg). destruct (ld_per _ _ _ _ Ld) as (q & Cq & _ & Hq).
  rewrite Cn, N in An. rewrite Cg, G in Ag. rewrite Cq, P in Ap. cbn [option_map] in *. injection An as An. injection Ag as Ag. injection Ap as Ap.
  rewrite An in Hk, Hp. rewrite Ag in Hg. rewrite Ap in Hq. split; [|split; assumption]. exists k, (o_kpar a). split; [exact Hk|]. split; [|exact Hp].
  unfold uses_kernel. rewrite (ld_ext _ _ _ _ Ld), (ld_int _ _ _ _ Ld), (ld_pm _ _ _ _ Ld). exact Hl.
Qed.

Lemma entry_fn l fs : make_fn (fn_entry l) = Ok fs -> exists gs, read_mixture l = Ok gs /\ fs = [AMixture gs true].
Proof.
  unfold make_fn, dgetk, fn_entry, mk_mixture. cbn [dget String.eqb Ascii.eqb Bool.eqb bind query_kwargs as_vec]. intros H. apply bind_ok in H as (a & H & E). injection E as <-.
  apply bind_ok in H as (gs & Hg & H). injection H as <-. exists gs. split; [exact Hg|reflexivity].
Qed.

Lemma entry_kernel L p k old kp : get_kernel (kernel_entry L p) = Ok k -> read_kpar old (kernel_entry L p) = Ok kp ->
  exists r, la_radius L = VInt (Z.of_nat r) /\ kp = KPVec (slice (la_gen L + la_per L) (la_ker L) p) /\ get_gaussian_mixture_kernel r (slice (la_gen L + la_per L) (la_ker L) p) 1 = Ok k.
Proof.
  intros Hk Hp. assert (M : mixture_like (kernel_entry L p)) by (left; split; [reflexivity|eexists; reflexivity]).
  destruct (mixture_like_kernel _ _ old kp M Hk Hp) as (r & l & E1 & E2 & E3).
  exists r. cbn [kernel_entry dget String.eqb Ascii.eqb Bool.eqb] in E1. injection E1 as E1. cbn in Hp. injection Hp as Hp. rewrite <- Hp in E2. injection E2 as <-. split; [exact E1|]. split; [symmetry; exact Hp|exact E3].
Qed.

(** ** Every configuration of a search can be loaded *)
Definition usable (r : nat) (o : obj) : Prop := obj_inv o /\ clean (o_inst o) /\ o_radius o = VInt (Z.of_nat r) /\ (0 < r)%nat /\ (0 < o_peaks o)%nat /\ kernel_synced o.

Lemma pairs_even n : forall l, List.length l = (2 * n)%nat -> exists gs, pairs l = Ok gs.
Proof.
  induction n as [|n IH]; intros l H; [destruct l; [exists []; reflexivity|discriminate]|]. destruct l as [|a [|b t]]; try (cbn in H; lia).
  destruct (IH t) as [gs E]; [cbn in H; lia|]. exists ((1, a, b) :: gs). cbn [pairs]. rewrite E. reflexivity.
Qed.

Lemma entry_fn_ok l : readable (List.length l) -> exists fs, make_fn (fn_entry l) = Ok fs.
Proof.
  intros [k H]. unfold make_fn, dgetk, fn_entry, mk_mixture. cbn [dget String.eqb Ascii.eqb Bool.eqb bind query_kwargs as_vec].
  assert (R : exists gs, read_mixture l = Ok gs).
  { unfold read_mixture. destruct (Nat.eqb (List.length l mod 3) 0) eqn:E; [eauto|]. destruct H as [H|H]; [exact (pairs_even k l H)|].
    apply Nat.eqb_neq in E. exfalso. apply E. rewrite H, Nat.mul_comm. apply Nat.mod_mul. lia. }
  destruct R as [gs R]. unfold query_kwargs. cbn [dget String.eqb Ascii.eqb Bool.eqb as_vec bind]. rewrite R. cbn [bind]. eauto.
Qed.

Lemma slice_length a n p : (a + n <= List.length p)%nat -> List.length (slice a n p) = n.
Proof. intros H. unfold slice. rewrite firstn_length, skipn_length. lia. Qed.

Lemma entry_kernel_ok L r l k p : la_radius L = VInt (Z.of_nat r) -> l = slice (la_gen L + la_per L) (la_ker L) p -> get_gaussian_mixture_kernel r l 1 = Ok k -> get_kernel (kernel_entry L p) = Ok k.
Proof.
  intros Er -> H. destruct (fit_eq (kernel_entry L p) "GaussianMixture" mk_mixture [("parameters"%string, VVec (slice (la_gen L + la_per L) (la_ker L) p))] r) as [E|[E _]]; try reflexivity; [cbn; rewrite Er; reflexivity| |discriminate].
  rewrite E. unfold get_gaussian_mixture_kernel in H. apply bind_ok in H as (gs & Hg & H). unfold mk_mixture, query_kwargs. cbn [dget String.eqb Ascii.eqb Bool.eqb as_vec bind]. rewrite Hg. exact H.
Qed.

(** The automaton, and that the kernel dictionary makes a kernel. *)
Definition ready (L : layout) (r : nat) (w : world) : Prop := usable r (w_obj w) /\
  exists kern cur, holds L stock_fn stock_fn kern cur w /\ List.length cur = la_size L /\
    match kern with None => True | Some kd => exists p k, kd = kernel_entry L p /\ get_kernel kd = Ok k end.

Lemma config_loadable L r w c o h ev : la_radius L = VInt (Z.of_nat r) -> readable (la_gen L) -> readable (la_per L) -> ready L r w -> make_config (w_obj w) (w_heap w) = (c, o, h) ->
  loadable c /\ ready L r (mkWorld o h ev).
Proof.
  intros Er En Em (U & kern & cur & H & Lc & K) M. destruct (make_holds L _ _ _ _ _ _ _ _ ev H M) as [T H'].
  pose proof (make_config_inst (w_obj w) (w_heap w)) as X. rewrite M in X. destruct X as (E1 & E2 & E3 & E4 & Pi & _ & Pid & R1 & R2 & R3 & R4 & R5 & R6).
  destruct U as (I & (C1 & C2) & Ur & Hr & Hp & Sy). pose proof I as (P1 & P2 & _ & _ & _ & A1 & A2 & A3 & A4 & A5). cbv zeta in *.
  assert (Cl : clean (o_inst o)) by (split; rewrite R6 by discriminate; assumption).
  assert (Kx : exists k, get_kernel (match kern with None => kernel_entry L cur | Some kd => kd end) = Ok k).
  { destruct kern as [kd|]; [destruct K as (p & k & _ & G); eauto|]. destruct Sy as (r' & l & k & S1 & S2 & S3 & _). exists k. destruct H as (G & La & _). destruct (slices L _ _ G La) as (_ & _ & S4).
    rewrite Ur in S1. injection S1 as S1. apply Nat2Z.inj in S1. subst r'. rewrite S2 in S4. injection S4 as S4. exact (entry_kernel_ok L r l k cur Er S4 S3). }
  destruct Kx as [k Gk].
  assert (KE : exists p, match kern with None => kernel_entry L cur | Some kd => kd end = kernel_entry L p) by (destruct kern as [kd|]; [destruct K as (p & _ & -> & _); eauto|eauto]).
  split.
  - intros f ev0 rng o2 h2 G.
    assert (Fn : exists gd pd g q, p_gen c = Some gd /\ p_per c = Some pd /\ p_same c = false /\ make_fn gd = Ok g /\ make_fn pd = Ok q /\ p_nb c = Some (match kern with None => kernel_entry L cur | Some kd => kd end)).
    { destruct kern as [kd|]; cbn [tells] in T.
      - destruct T as (T1 & T2). apply into_stock in T2 as (T2 & T3 & T4). destruct (entry_fn_ok (slice 0 (la_gen L) cur)) as [g Hg]; [rewrite slice_length by (unfold la_size in Lc; lia); exact En|].
        destruct (entry_fn_ok (slice (la_gen L) (la_per L) cur)) as [q Hq]; [rewrite slice_length by (unfold la_size in Lc; lia); exact Em|]. eexists _, _, g, q. repeat split; eassumption.
      - destruct T as (T1 & T2 & T3 & T4). destruct (entry_fn_ok [15000001 / 100000000; 15 / 1000]) as [g Hg]; [exists 1%nat; left; reflexivity|]. eexists _, _, g, g. repeat split; eassumption. }
    destruct Fn as (gd & pd & g & q & F1 & F2 & F3 & F4 & F5 & F6). destruct KE as (p & KE). rewrite KE in F6, Gk.
    eapply (value_ok f ev0 rng o2 h2 c (o_inst o) (kernel_entry L p) gd pd k _ _ g q (pm (o_core (w_obj w))) (ext (o_core (w_obj w))) (int_ (o_core (w_obj w))) (thr (o_core (w_obj w))) r (o_peaks (w_obj w))); try eassumption.
    + rewrite R1. apply pmode_str_inv.
    + rewrite R2. apply nat_value_size.
    + rewrite R3. apply nat_value_size.
    + rewrite R6 by discriminate. exact A4.
    + rewrite R4. apply nat_value_size.
    + rewrite R5. exact Ur.
    + reflexivity.
    + reflexivity.
  - split.
    + split; [exact (make_config_obj_inv _ _ _ _ _ I M)|]. split; [exact Cl|]. cbn [w_obj]. rewrite E3, E4. split; [exact Ur|]. split; [exact Hr|]. split; [exact Hp|].
      destruct Sy as (r' & l & k' & S1 & S2 & S3 & S4). exists r', l, k'. rewrite E1, E2, E3. auto.
    + exists (Some (match kern with None => kernel_entry L cur | Some kd => kd end)), cur. split; [exact H'|]. split; [exact Lc|]. destruct KE as (p & KE). exists p, k. split; assumption.
Qed.

Lemma perform_loadable cf lf L r ds : la_radius L = VInt (Z.of_nat r) -> readable (la_gen L) -> readable (la_per L) -> forall w cs w', Forall (fits L) ds -> ready L r w -> perform cf lf ds w = Ok (cs, w') ->
  Forall (fun e => loadable (snd e)) cs /\ forall path c, fs_get (e_fs (w_env w')) path = Some (FConfig c) -> loadable c \/ fs_get (e_fs (w_env w)) path = Some (FConfig c).
Proof.
  intros Er En Em. induction ds as [|d ds IH]; intros w cs w' F Rd P; cbn [perform] in P; [injection P as <- <-; split; [constructor|auto]|].
  apply bind_ok in P as ([c1 w1] & P1 & P). cbn [fst snd] in P. apply bind_ok in P as ([c2 w2] & P2 & P). cbn [fst snd] in P. injection P as <- <-.
  inversion F as [|? ? Fd Ft]; subst.
  assert (S1 : ready L r w1 /\ Forall (fun e => loadable (snd e)) c1 /\ forall path c, fs_get (e_fs (w_env w1)) path = Some (FConfig c) -> loadable c \/ fs_get (e_fs (w_env w)) path = Some (FConfig c)).
  { destruct d as [p|x|k i|x l]; cbn [do_deed] in P1.
    - apply bind_ok in P1 as (o & S & P1). injection P1 as <- <-. split; [|split; [constructor|auto]]. destruct Rd as ((I & C & Ur & Hr & Hp & Sy) & kern & cur & H & Lc & K).
      destruct (set_params_obj_inv _ _ _ I S) as [I' Sy']. destruct (set_params_inv _ _ _ S) as (_ & _ & _ & _ & _ & _ & _ & _ & _ & _ & _ & _ & _ & _ & Kp).
      destruct Kp as (_ & _ & _ & _ & _ & _ & _ & R1 & R2 & _ & _ & _ & R3). split; [split; [exact I'|]; cbn [w_obj]; rewrite R1, R2, R3; auto 6|].
      exists kern, p. split; [exact (set_holds _ _ _ _ _ _ _ _ H Fd S)|]. split; [exact Fd|exact K].
    - unfold save_config in P1. destruct (make_config (w_obj w) (w_heap w)) as [[c o] h] eqn:M. injection P1 as <- <-.
      destruct (config_loadable L r w c o h (mkEnv (fs_set (e_fs (w_env w)) (npy (cf x)) (FConfig c)) (e_dir (w_env w))) Er En Em Rd M) as [Lo Rd']. split; [exact Rd'|]. split; [constructor|].
      intros path c' G. cbn [w_env e_fs] in G. destruct (string_dec path (npy (cf x))) as [->|N]; [rewrite fs_get_set in G; injection G as <-; left; exact Lo|rewrite fs_get_set_neq in G by exact N; right; exact G].
    - destruct (make_config (w_obj w) (w_heap w)) as [[c o] h] eqn:M. injection P1 as <- <-. destruct (config_loadable L r w c o h (w_env w) Er En Em Rd M) as [Lo Rd'].
      split; [exact Rd'|]. split; [repeat constructor; exact Lo|auto].
    - injection P1 as <- <-. split; [exact Rd|]. split; [constructor|]. intros path c' G. cbn [w_env e_fs] in G. destruct (string_dec path (npy (lf x))) as [->|N]; [rewrite fs_get_set in G; discriminate|rewrite fs_get_set_neq in G by exact N; right; exact G]. }
  destruct S1 as (Rd1 & L1 & G1). destruct (IH w1 c2 w2 Ft Rd1 P2) as (L2 & G2). split; [apply Forall_app; split; assumption|].
  intros path c G. destruct (G2 _ _ G) as [X|X]; [left; exact X|exact (G1 _ _ X)].
Qed.

(** ** The first calls of a search *)
Lemma concat_repeat_one (d : deed) n : List.concat (repeat [d] n) = repeat d n.
Proof. induction n as [|n IH]; [reflexivity|]. cbn [repeat List.concat app]. now rewrite IH. Qed.

Lemma first_calls q x xs v ds b : (1 <= se_size (qu_set q))%nat -> se_kind (qu_set q) = KParams -> se_pattern (qu_set q) = false -> writes (qu_wrap q) = b -> q_run_seeds q (x :: xs) (new_evo None) = Ok (v, ds) ->
  let s := qu_set q in let agent j := se_draw s j (se_means s) (start_covar false (List.length (se_means s))) in
  exists rest, ds = (map (fun j => DSet (agent j)) (seq 0 (Nat.min (se_keep s) 4)) ++ (if b then flat_map (fun j => repeat (DSet (agent j)) (qu_reps q)) (seq 0 (se_size s)) else []) ++ rest)%list.
Proof.
  intros S1 K Pt W H s agent. assert (Ks : (se_keep s <= se_size s)%nat) by (unfold se_keep, elite_keep; fold s in S1; assert (se_size s / 8 < se_size s)%nat by (apply Nat.div_lt; lia); lia).
  cbn [q_run_seeds] in H. apply bind_ok in H as ([v1 d1] & H1 & H). cbn [fst snd] in H. apply bind_ok in H as ([v2 d2] & _ & H). cbn [fst snd] in H. injection H as <- <-.
  destruct (q_run_seed_inv _ _ _ _ _ H1) as (u & dg & _ & Ng & L0 & Gn & _ & _ & ->).
  assert (A : forall j, (j < se_size s)%nat -> nth j (ev_pop (start_seed s (new_evo None))) [] = agent j).
  { intros j Hj. rewrite start_nth by (cbn [new_evo ev_elites elite_rows List.length]; lia). unfold agent, s. rewrite K. cbn [make_agent new_evo ev_elites elite_rows List.length Nat.ltb Nat.leb ev_time Nat.add]. rewrite Pt. reflexivity. }
  assert (Ep : picture_deeds q (Nat.min (se_keep s) 4) (ev_pop (start_seed s (new_evo None))) = map (fun j => DSet (agent j)) (seq 0 (Nat.min (se_keep s) 4))).
  { unfold picture_deeds. rewrite Pt. apply map_ext_in. intros j Hj. apply in_seq in Hj. rewrite A; [reflexivity|]. lia. }
  fold s in Gn. destruct (se_gens s) as [|m] eqn:Eg; [exfalso; apply Ng; exact Eg|]. cbn [q_generations] in Gn. apply bind_ok in Gn as ([[u1 bb] e1] & G1 & Gn).
  unfold q_generation in G1. apply bind_ok in G1 as ([] & Hs & G1). apply guard_ok, Nat.leb_le in Hs. fold s in Hs. apply bind_ok in G1 as ([] & _ & G1). apply bind_ok in G1 as (w1 & _ & G1).
  assert (Et : trial_deeds q (ev_pop (start_seed s (new_evo None))) = if b then flat_map (fun j => repeat (DSet (agent j)) (qu_reps q)) (seq 0 (se_size s)) else []).
  { unfold trial_deeds, step_deeds. rewrite W. fold s. assert (X : forall l, (forall j, In j l -> (j < se_size s)%nat) -> flat_map (fun j => List.concat (repeat (if b then [DSet (nth j (ev_pop (start_seed s (new_evo None))) [])] else []) (qu_reps q))) l = if b then flat_map (fun j => repeat (DSet (agent j)) (qu_reps q)) l else []).
    { induction l as [|j l IH]; intros Hl; cbn [flat_map]; [destruct b; reflexivity|]. rewrite IH by (intros i Hi; apply Hl; now right). destruct b.
      - rewrite A, concat_repeat_one; [reflexivity|]. exact (Hl j (or_introl eq_refl)).
      - assert (Y : forall n, List.concat (repeat (@nil deed) n) = []) by (induction n; [reflexivity|assumption]). now rewrite Y. }
    apply X. intros j Hj. apply in_seq in Hj. lia. }
  assert (E1 : exists r1, e1 = (trial_deeds q (ev_pop (start_seed s (new_evo None))) ++ r1)%list).
  { destruct (stops _ _); [apply bind_ok in G1 as (w2 & _ & G1)|]; injection G1 as _ _ <-; [rewrite <- app_assoc|]; eexists; reflexivity. }
  destruct E1 as (r1 & E1). rewrite Et in E1.
  assert (E2 : exists r2, dg = (e1 ++ r2)%list).
  { cbn [fst snd] in Gn. destruct bb; [injection Gn as <- <-; exists []; now rewrite app_nil_r|]. apply bind_ok in Gn as ([u2 e2] & _ & Gn). cbn [fst snd] in Gn. injection Gn as <- <-. eexists. reflexivity. }
  destruct E2 as (r2 & E2). rewrite E1 in E2. set (tr := if b then _ else _) in *. clearbody tr. subst e1 dg.
  exists (r1 ++ r2 ++ picture_deeds q (se_keep s) (ev_pop u) ++ d2)%list. unfold s in Ep. rewrite Ep. rewrite !app_assoc. reflexivity.
Qed.

(** Without replicates the share of living cells is divided by zero. *)
Lemma no_replicates q x xs : qu_reps q = 0%nat -> (1 <= se_size (qu_set q))%nat -> (1 <= se_gens (qu_set q))%nat -> se_kind (qu_set q) = KParams -> q_run_seeds q (x :: xs) (new_evo None) = Err ZeroDivisionError.
Proof.
  intros R S G K. cbn [q_run_seeds]. unfold q_run_seed. cbv zeta. rewrite K. cbn [guard bind]. unfold parade. rewrite K.
  assert (Ks : (se_keep (qu_set q) <= se_size (qu_set q))%nat) by (unfold se_keep, elite_keep; assert (se_size (qu_set q) / 8 < se_size (qu_set q))%nat by (apply Nat.div_lt; lia); lia).
  assert (L' : List.length (ev_pop (start_seed (qu_set q) (new_evo None))) = (2 * se_size (qu_set q))%nat) by (rewrite (start_length (qu_set q) (new_evo None)); cbn [new_evo ev_elites elite_rows List.length]; lia).
  rewrite (proj2 (Nat.leb_le _ _)) by lia. cbn [guard bind]. destruct (se_gens (qu_set q)) as [|m]; [lia|]. cbn [q_generations]. unfold q_generation at 1. rewrite (proj2 (Nat.leb_le _ _)) by lia. cbn [guard bind].
  rewrite R. cbn [Nat.eqb negb orb]. destruct (se_size (qu_set q)); [lia|]. reflexivity.
Qed.
