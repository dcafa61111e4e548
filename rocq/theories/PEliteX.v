(** Proofs about the calls a search makes on its automaton. *)
From Coq Require Import Reals Lra Lia List Arith Bool ZArith String.
From Verif Require Import Base PyDict MActivations MKernels MCommon MCca MEvo MConfig SConfig MElite SElite PConfig PConfigX PConfigV PEvoX PElite.
Import ListNotations.
Open Scope R_scope.

(** ** The search itself is the one of MEvo *)
Definition erase {A D} (m : res (A * D)) : res A := match m with Ok r => Ok (fst r) | Err e => Err e end.
Definition admitted (q : quest) : Prop :=
  match se_kind (qu_set q) with KPlus => False | KNet => writes (qu_wrap q) = false | KParams => True end /\ qu_reps q <> 0%nat.

Lemma q_generation_erase q x g v : qu_reps q <> 0%nat -> erase (q_generation q x g v) = generation (qu_set q) x g v.
Proof.
  intros R. unfold q_generation, generation. destruct (guard (Nat.leb _ _) IndexError) as [[]|]; [|reflexivity]. cbn [bind].
  destruct (Nat.eqb_spec (qu_reps q) 0) as [E|_]; [contradiction|]. cbn [negb orb guard bind]. cbv zeta.
  destruct (advance _ _ _ _ _) as [v1|]; [|reflexivity]. cbn [bind]. destruct (stops _ _); [|reflexivity].
  destruct (rank_population _ _ _ _); reflexivity.
Qed.

Lemma q_generations_erase q x n : qu_reps q <> 0%nat -> forall g v, erase (q_generations q x n g v) = generations (qu_set q) x n g v.
Proof.
  intros R. induction n as [|n IH]; intros g v; [reflexivity|]. cbn [q_generations generations].
  rewrite <- (q_generation_erase q x g v R). destruct (q_generation q x g v) as [[[v1 b] d]|]; [|reflexivity]. cbn [erase bind fst snd].
  destruct b; [reflexivity|]. rewrite <- IH. destruct (q_generations q x n (Datatypes.S g) v1) as [[v2 d2]|]; reflexivity.
Qed.

Lemma q_run_seed_erase q x v : admitted q -> erase (q_run_seed q x v) = run_seed (qu_set q) x v.
Proof.
  intros [K R]. unfold q_run_seed, run_seed. assert (G : match se_kind (qu_set q) with KPlus => false | KNet => negb (writes (qu_wrap q)) | KParams => true end = true).
  { destruct (se_kind (qu_set q)); [reflexivity|now rewrite K|contradiction]. }
  cbv zeta. rewrite G. cbn [guard bind]. destruct (parade _ _) as [v0|]; [|reflexivity]. cbn [bind]. rewrite <- (q_generations_erase q x _ R).
  destruct (q_generations _ _ _ _ _) as [[v1 d]|]; [|reflexivity]. cbn [erase bind fst snd]. destruct (closing _ _); [|reflexivity]. cbn [bind].
  destruct (guard _ _); reflexivity.
Qed.

Lemma q_run_seeds_erase q xs : admitted q -> forall v, erase (q_run_seeds q xs v) = run_seeds (qu_set q) xs v.
Proof.
  intros A. induction xs as [|x t IH]; intros v; [reflexivity|]. cbn [q_run_seeds run_seeds]. rewrite <- (q_run_seed_erase q x v A).
  destruct (q_run_seed q x v) as [[v1 d]|]; [|reflexivity]. cbn [erase bind fst snd]. rewrite <- IH. destruct (q_run_seeds q t v1) as [[v2 d2]|]; reflexivity.
Qed.

(** ** The vectors fit *)
Definition rows_fit (n : nat) (M : mat) : Prop := Forall (fun p => List.length p = n) M.
Definition fit_evo (n : nat) (v : evo) : Prop := rows_fit n (ev_pop v) /\ rows_fit n (elite_rows (ev_elites v)).

Lemma rows_nth_fit n M i : rows_fit n M -> (i < List.length M)%nat -> List.length (nth i M []) = n.
Proof. intros F H. apply (proj1 (Forall_forall _ M) F). now apply nth_In. Qed.

Lemma upd_fit n k p M : rows_fit n M -> List.length p = n -> rows_fit n (upd k p M).
Proof. intros F P. revert k. induction F as [|y t Hy Ht IH]; intros [|k]; cbn [upd]; constructor; auto; apply IH. Qed.

Lemma upd_length' {A} (l : list A) : forall k x, List.length (upd k x l) = List.length l.
Proof. induction l as [|y t IH]; intros [|k] x; cbn [upd List.length]; auto. Qed.

Lemma redraw_fit n f a P M : (forall k, List.length (f k) = n) -> rows_fit n M -> rows_fit n (redraw f a P M).
Proof. intros H. unfold redraw. generalize (seq a (P - a)). intros l. revert M. induction l as [|k l IH]; intros M F; [exact F|]. cbn [fold_left]. apply IH. now apply upd_fit. Qed.

Lemma keep_fit n e l : forall M, (forall i, (nth i e 0 < List.length M)%nat) -> rows_fit n M ->
  rows_fit n (fold_left (fun p k => upd k (nth (nth k e 0%nat) p []) p) l M).
Proof.
  induction l as [|k l IH]; intros M H F; [exact F|]. cbn [fold_left]. apply IH.
  - intros i. rewrite upd_length'. apply H.
  - apply upd_fit; [exact F|]. apply rows_nth_fit; auto.
Qed.

Lemma map_rows_fit n M e : (forall i, In i e -> (i < List.length M)%nat) -> rows_fit n M -> rows_fit n (map (fun i => nth i M []) e).
Proof. intros H F. apply Forall_forall. intros p Hp. apply in_map_iff in Hp as (i & <- & Hi). apply rows_nth_fit; auto. Qed.

Lemma update_fit n s f v v' : (forall t m c, List.length (se_draw s t m c) = n) -> (1 <= se_size s)%nat -> fit_evo n v -> update_population s f v = Ok v' -> fit_evo n v'.
Proof.
  intros D HP [F _] H. unfold update_population in H. apply bind_ok in H as (e & He & H). apply bind_ok in H as ([] & G & H). cbv zeta in H. apply bind_ok in H as ([] & G2 & H).
  injection H as <-. apply guard_ok in G, G2. apply andb_true_iff in G2 as [_ G2]. apply Nat.leb_le in G2. rewrite forallb_forall in G.
  assert (I : forall i, In i e -> (i < List.length (ev_pop v))%nat) by (intros i Hi; apply Nat.ltb_lt; auto). split; cbn [ev_pop ev_elites elite_rows].
  - apply redraw_fit; [intros; apply D|]. apply keep_fit; [|exact F]. intros i. destruct (Nat.lt_ge_cases i (List.length e)) as [Hi|Hi]; [apply I; now apply nth_In|]. rewrite nth_overflow by exact Hi. lia.
  - now apply map_rows_fit.
Qed.

Lemma rank_fit n s f x v v' : fit_evo n v -> rank_population s f x v = Ok v' -> fit_evo n v'.
Proof. intros [F _] H. destruct (rank_inv _ _ _ _ _ H) as (e & _ & I & ->). split; cbn [ev_pop ev_elites elite_rows]; [exact F|]. now apply map_rows_fit. Qed.

Lemma advance_fit n s x g f v v' : (forall t m c, List.length (se_draw s t m c) = n) -> (1 <= se_size s)%nat -> fit_evo n v -> advance s x g f v = Ok v' -> fit_evo n v'.
Proof. intros D HP F. unfold advance. destruct (Nat.eqb _ _); [now apply rank_fit|now apply update_fit]. Qed.

Lemma start_fit n s v : (forall t m c, List.length (se_draw s t m c) = n) -> se_kind s = KParams -> rows_fit n (elite_rows (ev_elites v)) -> fit_evo n (start_seed s v).
Proof.
  intros D K F. assert (G : forall u, rows_fit n (ev_pop u) -> rows_fit n (elite_rows (ev_elites u)) -> fit_evo n (initialize_population s u)).
  { intros u Fp Fe. split; [|exact Fe]. unfold initialize_population. cbn [ev_pop]. apply Forall_app. split; [exact Fp|]. rewrite K. cbn [make_agent]. apply Forall_app. split.
    - apply Forall_forall. intros p Hp. apply in_map_iff in Hp as (i & <- & Hi). apply in_seq in Hi. apply rows_nth_fit; [exact Fe|lia].
    - apply Forall_forall. intros p Hp. apply in_map_iff in Hp as (i & <- & Hi). apply D. }
  unfold start_seed. destruct (G (mkEvo [] (se_means s) (start_covar (se_pattern s) (List.length (se_means s))) (ev_elites v) (ev_saved v) (ev_params v) (ev_log v) (ev_time v))) as [A B]; [constructor|exact F|].
  apply G; assumption.
Qed.

(** ** One generation *)
Lemma elite_deeds_fit L q k E : forall i, rows_fit (la_size L) E -> Forall (fits L) (elite_deeds q k i E).
Proof.
  induction E as [|p E IH]; intros i F; [constructor|]. inversion F; subst. cbn [elite_deeds]. apply Forall_app. split.
  - unfold step_deeds. destruct (writes _); constructor; [assumption|constructor].
  - constructor; [exact I|]. now apply IH.
Qed.

Lemma trial_deeds_fit L q pop : rows_fit (la_size L) pop -> (se_size (qu_set q) <= List.length pop)%nat -> Forall (fits L) (trial_deeds q pop).
Proof.
  intros F H. apply Forall_forall. intros d Hd. apply in_flat_map in Hd as (j & Hj & Hd). apply in_seq in Hj. apply in_concat in Hd as (l & Hl & Hd).
  apply repeat_spec in Hl. subst l. unfold step_deeds in Hd. destruct (writes _); [|contradiction]. destruct Hd as [<-|[]]. cbn [fits]. apply rows_nth_fit; [exact F|lia].
Qed.

Lemma rank_deeds_fit L q x v : rows_fit (la_size L) (elite_rows (ev_elites v)) -> (1 <= List.length (elite_rows (ev_elites v)))%nat -> Forall (fits L) (rank_deeds q x v).
Proof.
  intros F H. unfold rank_deeds. apply Forall_app. split; [|constructor; [exact I|constructor]]. destruct (se_pattern _); constructor; [|constructor].
  cbn [fits]. apply rows_nth_fit; [exact F|lia].
Qed.

Lemma picture_deeds_fit L q n pop : rows_fit (la_size L) pop -> (n <= List.length pop)%nat -> Forall (fits L) (picture_deeds q n pop).
Proof.
  intros F H. unfold picture_deeds. destruct (se_pattern _); [constructor|]. apply Forall_forall. intros d Hd. apply in_map_iff in Hd as (j & <- & Hj). apply in_seq in Hj.
  cbn [fits]. apply rows_nth_fit; [exact F|lia].
Qed.

Lemma keep_pos s : (1 <= se_keep s)%nat.
Proof. unfold se_keep, elite_keep. lia. Qed.

(** What one generation does, in full. *)
Lemma q_generation_inv q x g v v' b ds : q_generation q x g v = Ok (v', b, ds) -> exists v1,
  let s := qu_set q in let f := evaluate s (ev_pop v) (Z.of_nat g * x) in
  (se_size s <= List.length (ev_pop v))%nat /\ advance s x g f v = Ok v1 /\ b = stops g f /\
  let d := (trial_deeds q (ev_pop v) ++ (if Nat.eqb (g + 1) (se_gens s) then rank_deeds q x v1 else []) ++
            elite_deeds q (List.length (ev_log v)) 0 (elite_rows (ev_elites v1)) ++ [DLog x (ev_params (log_generation s f v1))])%list in
  if b then rank_population s f x (log_generation s f v1) = Ok v' /\ ds = (d ++ rank_deeds q x v')%list
  else v' = log_generation s f v1 /\ ds = d.
Proof.
  intros H. unfold q_generation in H. cbv zeta in H. apply bind_ok in H as ([] & G & H). apply guard_ok, Nat.leb_le in G. apply bind_ok in H as ([] & _ & H).
  apply bind_ok in H as (v1 & A & H). exists v1. cbv zeta. split; [exact G|]. split; [exact A|].
  destruct (stops g _) eqn:St.
  - apply bind_ok in H as (v3 & R & H). injection H as <- <- <-. split; [reflexivity|]. split; [exact R|]. reflexivity.
  - injection H as <- <- <-. split; [reflexivity|]. split; reflexivity.
Qed.

Lemma q_generation_fit L q x g v v' b ds : fitting L (qu_set q) -> (1 <= se_size (qu_set q))%nat -> fit_evo (la_size L) v -> q_generation q x g v = Ok (v', b, ds) ->
  fit_evo (la_size L) v' /\ Forall (fits L) ds.
Proof.
  intros D HP F H. destruct (q_generation_inv _ _ _ _ _ _ _ H) as (v1 & G & A & -> & R). cbv zeta in R.
  pose proof (advance_fit _ _ _ _ _ _ _ D HP F A) as F1.
  assert (Fl : fit_evo (la_size L) (log_generation (qu_set q) (evaluate (qu_set q) (ev_pop v) (Z.of_nat g * x)) v1)) by exact F1.
  assert (Fd : Forall (fits L) (trial_deeds q (ev_pop v) ++ (if Nat.eqb (g + 1) (se_gens (qu_set q)) then rank_deeds q x v1 else []) ++
     elite_deeds q (List.length (ev_log v)) 0 (elite_rows (ev_elites v1)) ++ [DLog x (ev_params (log_generation (qu_set q) (evaluate (qu_set q) (ev_pop v) (Z.of_nat g * x)) v1))])%list).
  { apply Forall_app. split; [apply trial_deeds_fit; [apply F|exact G]|]. apply Forall_app. split.
    - unfold advance in A. destruct (Nat.eqb _ _); [|constructor]. apply rank_deeds_fit; [apply F1|]. destruct (rank_elites _ _ _ _ _ A) as (E & -> & LE). cbn [elite_rows]. rewrite LE. apply keep_pos.
    - apply Forall_app. split; [apply elite_deeds_fit, F1|]. constructor; [exact I|constructor]. }
  destruct (stops g _).
  - destruct R as [R ->]. pose proof (rank_fit _ _ _ _ _ _ Fl R) as F3. split; [exact F3|]. apply Forall_app. split; [exact Fd|].
    apply rank_deeds_fit; [apply F3|]. destruct (rank_elites _ _ _ _ _ R) as (E & -> & LE). cbn [elite_rows]. rewrite LE. apply keep_pos.
  - destruct R as [-> ->]. split; [exact Fl|exact Fd].
Qed.

Lemma q_generations_fit L q x n : fitting L (qu_set q) -> (1 <= se_size (qu_set q))%nat -> forall g v v' ds, fit_evo (la_size L) v -> q_generations q x n g v = Ok (v', ds) ->
  fit_evo (la_size L) v' /\ Forall (fits L) ds.
Proof.
  intros D HP. induction n as [|n IH]; intros g v v' ds F H; cbn [q_generations] in H; [injection H as <- <-; split; [exact F|constructor]|].
  apply bind_ok in H as ([[v1 b] d1] & H1 & H). cbn [fst snd] in H. destruct (q_generation_fit _ _ _ _ _ _ _ _ D HP F H1) as [F1 Fd1].
  destruct b; [injection H as <- <-; auto|]. apply bind_ok in H as ([v2 d2] & H2 & H). cbn [fst snd] in H. injection H as <- <-.
  destruct (IH _ _ _ _ F1 H2) as [F2 Fd2]. split; [exact F2|]. apply Forall_app. auto.
Qed.

Lemma q_run_seed_inv q x v v' ds : q_run_seed q x v = Ok (v', ds) -> exists v1 dg,
  let s := qu_set q in se_kind s <> KPlus /\ (se_gens s <> 0)%nat /\ (Nat.min (se_keep s) 4 <= List.length (ev_pop (start_seed s v)))%nat /\
  q_generations q x (se_gens s) 0 (start_seed s v) = Ok (v1, dg) /\ closing s v1 = Ok v' /\ (se_keep s <= List.length (ev_pop v1))%nat /\
  ds = (picture_deeds q (Nat.min (se_keep s) 4) (ev_pop (start_seed s v)) ++ dg ++ picture_deeds q (se_keep s) (ev_pop v1))%list.
Proof.
  intros H. unfold q_run_seed in H. cbv zeta in H. apply bind_ok in H as ([] & K & H). apply guard_ok in K. apply bind_ok in H as (v0 & P & H).
  apply bind_ok in H as ([v1 dg] & G & H). cbn [fst snd] in H. apply bind_ok in H as (v2 & C & H). apply bind_ok in H as ([] & N & H). injection H as <- <-.
  apply guard_ok, negb_true_iff, Nat.eqb_neq in N. assert (Kn : se_kind (qu_set q) <> KPlus) by (intros E; rewrite E in K; discriminate).
  pose proof (proj1 (proj2 (proj2 (proj2 (proj2 (proj2 (parade_same _ _ _ P)))))) Kn) as E. subst v0.
  exists v1, dg. cbv zeta. split; [exact Kn|]. split; [exact N|]. split.
  { unfold parade in P. apply bind_ok in P as ([] & P & _). now apply guard_ok, Nat.leb_le in P. }
  split; [exact G|]. split; [exact C|]. split; [|reflexivity]. unfold closing in C. apply bind_ok in C as ([] & C & _). now apply guard_ok, Nat.leb_le in C.
Qed.

Lemma q_run_seed_fit L q x v v' ds : fitting L (qu_set q) -> (1 <= se_size (qu_set q))%nat -> se_kind (qu_set q) = KParams -> rows_fit (la_size L) (elite_rows (ev_elites v)) ->
  q_run_seed q x v = Ok (v', ds) -> rows_fit (la_size L) (elite_rows (ev_elites v')) /\ Forall (fits L) ds.
Proof.
  intros D HP K F H. destruct (q_run_seed_inv _ _ _ _ _ H) as (v1 & dg & _ & _ & L0 & G & C & L1 & ->). pose proof (start_fit _ _ v D K F) as F0.
  destruct (q_generations_fit _ _ _ _ D HP _ _ _ _ F0 G) as [F1 Fd]. destruct (closing_same _ _ _ C) as (_ & -> & _). split; [apply F1|].
  apply Forall_app. split; [apply picture_deeds_fit; [apply F0|exact L0]|]. apply Forall_app. split; [exact Fd|]. apply picture_deeds_fit; [apply F1|exact L1].
Qed.

Lemma q_run_seeds_fit L q xs : fitting L (qu_set q) -> (1 <= se_size (qu_set q))%nat -> se_kind (qu_set q) = KParams -> forall v v' ds, rows_fit (la_size L) (elite_rows (ev_elites v)) ->
  q_run_seeds q xs v = Ok (v', ds) -> rows_fit (la_size L) (elite_rows (ev_elites v')) /\ Forall (fits L) ds.
Proof.
  intros D HP K. induction xs as [|x t IH]; intros v v' ds F H; cbn [q_run_seeds] in H; [injection H as <- <-; split; [exact F|constructor]|].
  apply bind_ok in H as ([v1 d1] & H1 & H). cbn [fst snd] in H. apply bind_ok in H as ([v2 d2] & H2 & H). cbn [fst snd] in H. injection H as <- <-.
  destruct (q_run_seed_fit _ _ _ _ _ _ D HP K F H1) as [F1 Fd1]. destruct (IH _ _ _ F1 H2) as [F2 Fd2]. split; [exact F2|]. apply Forall_app. auto.
Qed.
