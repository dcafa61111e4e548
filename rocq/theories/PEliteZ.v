(** Proofs about the configurations of a whole search. *)
From Coq Require Import Reals Lra Lia List Arith Bool ZArith String.
From Verif Require Import Base PyDict MActivations MKernels MCommon MCca MEvo MConfig SConfig MElite SElite PConfig PConfigX PConfigV PEvoX PElite PEliteX PEliteY.
Import ListNotations.
Open Scope R_scope.

Definition traced (L : layout) (x : Z) (first : event) (v v' : evo) (ds : list deed) : Prop := forall kern cur,
  Forall (good v') (told L ds kern cur) /\
  (exists t, told L ds kern cur = (first, kern, elite_at v' (List.length (ev_log v)) 0) :: t) /\
  ends_saved x v' (told L ds kern cur).

Lemma elite_at_grown v v' ds k i : grown v v' ds -> (k < List.length (ev_log v))%nat -> elite_at v' k i = elite_at v k i.
Proof. intros (n & A & _) H. unfold elite_at. rewrite A, app_nth1 by exact H. reflexivity. Qed.

Lemma ends_app x v a b : ends_saved x v b -> ends_saved x v (a ++ b).
Proof. intros (c & k & d & -> & F). exists (a ++ c)%list, k, d. split; [now rewrite <- app_assoc|exact F]. Qed.

Lemma q_generations_traced L q x n : writes (qu_wrap q) = true -> se_pattern (qu_set q) = false -> lottery_ok (qu_set q) ->
  forall g v v' ds, (g + Datatypes.S n = se_gens (qu_set q))%nat -> q_generations q x (Datatypes.S n) g v = Ok (v', ds) ->
  traced L x (if Nat.eqb (g + 1) (se_gens (qu_set q)) then inr x else inl (List.length (ev_log v), 0%nat)) v v' ds.
Proof.
  intros W P LO. induction n as [|n IH]; intros g v v' ds Hg H kern cur.
  - cbn [q_generations] in H. apply bind_ok in H as ([[v1 b] d1] & H1 & H). cbn [fst snd] in H. destruct (q_generation_told L _ _ _ _ _ _ _ kern cur W P LO H1) as (A & B & C).
    assert (E : v' = v1 /\ ds = d1) by (destruct b; [|cbn [bind fst snd] in H; rewrite app_nil_r in H]; injection H as <- <-; auto). destruct E as [-> ->].
    split; [exact A|]. split; [exact B|]. apply C. right. lia.
  - remember (Datatypes.S n) as m. cbn [q_generations] in H. apply bind_ok in H as ([[v1 b] d1] & H1 & H). cbn [fst snd] in H. destruct (q_generation_told L _ _ _ _ _ _ _ kern cur W P LO H1) as (A & B & C).
    destruct b; [injection H as <- <-; auto|]. apply bind_ok in H as ([v2 d2] & H2 & H). cbn [fst snd] in H. injection H as <- <-. subst m.
    pose proof (q_generations_grown _ _ _ _ _ _ _ H2) as G2. pose proof (q_generation_new _ _ _ _ _ _ _ H1) as (en & Le & _).
    destruct (IH (Datatypes.S g) v1 v2 d2 ltac:(lia) H2 (kern_after L d1 kern cur) (last_set d1 cur)) as (A2 & _ & C2). rewrite told_app. split; [|split].
    + apply Forall_app. split; [|exact A2]. eapply Forall_impl; [|exact A]. intros e. exact (good_grown _ _ _ e G2).
    + destruct B as (t & B). rewrite B. cbn [app]. eexists. rewrite (elite_at_grown _ _ _ _ _ G2) by (rewrite Le, app_length; cbn; lia). reflexivity.
    + apply ends_app, C2.
Qed.

Lemma good_same v v' e : ev_log v' = ev_log v -> ev_saved v' = ev_saved v -> good v e -> good v' e.
Proof. intros A B. unfold good, elite_at. rewrite A, B. exact (fun z => z). Qed.

Lemma q_run_seed_traced L q x v v' ds : writes (qu_wrap q) = true -> se_pattern (qu_set q) = false -> lottery_ok (qu_set q) -> q_run_seed q x v = Ok (v', ds) ->
  traced L x (if Nat.eqb 1 (se_gens (qu_set q)) then inr x else inl (List.length (ev_log v), 0%nat)) v v' ds.
Proof.
  intros W P LO H kern cur. destruct (q_run_seed_inv _ _ _ _ _ H) as (v1 & dg & _ & N & _ & G & C & _ & ->). destruct (closing_same _ _ _ C) as (E1 & E2 & _ & E4 & _).
  rewrite told_app, (noise_told _ _ (picture_noise _ _ _)), (noise_kern _ _ (picture_noise _ _ _)), told_app. cbn [app]. rewrite (noise_told _ _ (picture_noise q (se_keep (qu_set q)) _)), app_nil_r.
  destruct (se_gens (qu_set q)) as [|n] eqn:En; [congruence|].
  destruct (q_generations_traced L q x n W P LO 0 _ _ _ (eq_sym En) G kern (last_set (picture_deeds q (Nat.min (se_keep (qu_set q)) 4) (ev_pop (start_seed (qu_set q) v))) cur)) as (A1 & A2 & A3).
  split; [eapply Forall_impl; [|exact A1]; intros e; apply good_same; assumption|]. split.
  - destruct A2 as (t & A2). exists t. rewrite A2, En. cbn [Nat.add]. unfold elite_at. rewrite E1. reflexivity.
  - unfold ends_saved in *. rewrite E2. exact A3.
Qed.

Lemma last_default {A} (t : list A) : forall y a b, last (y :: t) a = last (y :: t) b.
Proof. induction t as [|z u IH]; intros y a b; [reflexivity|]. exact (IH z a b). Qed.

Lemma q_run_seeds_traced L q xs : writes (qu_wrap q) = true -> se_pattern (qu_set q) = false -> lottery_ok (qu_set q) -> forall x v v' ds,
  q_run_seeds q (x :: xs) v = Ok (v', ds) ->
  traced L (last (x :: xs) x) (if Nat.eqb 1 (se_gens (qu_set q)) then inr x else inl (List.length (ev_log v), 0%nat)) v v' ds.
Proof.
  intros W P LO. induction xs as [|y t IH]; intros x v v' ds H.
  - cbn [q_run_seeds] in H. apply bind_ok in H as ([v1 d1] & H1 & H). cbn [bind fst snd] in H. injection H as <- <-. rewrite app_nil_r. exact (q_run_seed_traced L _ _ _ _ _ W P LO H1).
  - intros kern cur. remember (y :: t) as ys. cbn [q_run_seeds] in H. apply bind_ok in H as ([v1 d1] & H1 & H). cbn [fst snd] in H. apply bind_ok in H as ([v2 d2] & H2 & H). cbn [fst snd] in H. injection H as <- <-.
    destruct (q_run_seed_traced L _ _ _ _ _ W P LO H1 kern cur) as (A & B & _). pose proof (q_run_seeds_grown _ _ _ _ _ H2) as G2. subst ys.
    destruct (IH y v1 v2 d2 H2 (kern_after L d1 kern cur) (last_set d1 cur)) as (A2 & _ & C2). rewrite told_app. split; [|split].
    + apply Forall_app. split; [|exact A2]. eapply Forall_impl; [|exact A]. intros e. exact (good_grown _ _ _ e G2).
    + destruct B as (u & B). pose proof (q_run_seed_traced L _ _ _ _ _ W P LO H1 kern cur) as (Ag & _). rewrite B in Ag |- *. cbn [app]. eexists. f_equal. f_equal. symmetry. apply (elite_at_grown _ _ _ _ _ G2).
      destruct (q_run_seed_inv _ _ _ _ _ H1) as (u1 & dg & _ & N & _ & G & C & _ & _). destruct (closing_same _ _ _ C) as (E1 & _). rewrite E1.
      destruct (se_gens (qu_set q)) as [|n]; [congruence|]. cbn [q_generations] in G. apply bind_ok in G as ([[u2 b] d3] & G1 & G). cbn [fst snd] in G.
      destruct (q_generation_new _ _ _ _ _ _ _ G1) as (en & Le & _). assert (Lt : (List.length (ev_log v) < List.length (ev_log u2))%nat) by (rewrite Le, app_length; cbn; lia).
      destruct b; [injection G as <- <-; exact Lt|]. apply bind_ok in G as ([u3 d4] & G3 & G). cbn [fst snd] in G. injection G as <- <-. destruct (q_generations_grown _ _ _ _ _ _ _ G3) as (nn & Ln & _). rewrite Ln, app_length. lia.
    + apply ends_app. replace (last (x :: y :: t) x) with (last (y :: t) y); [exact C2|]. change (last (x :: y :: t) x) with (last (y :: t) x). apply last_default.
Qed.

(** ** Kernel dictionaries *)
Lemma told_some L ds kd : forall cur, Forall (fun e => snd (fst e) = Some kd) (told L ds (Some kd) cur).
Proof. induction ds as [|d ds IH]; intros cur; [constructor|]. destruct d; cbn [told]; auto. Qed.

Lemma told_none L ds : forall cur e t, told L ds None cur = e :: t -> snd (fst e) = None /\ Forall (fun e' => snd (fst e') = Some (kernel_entry L (snd e))) t.
Proof.
  induction ds as [|d ds IH]; intros cur e t H; [discriminate|]. destruct d; cbn [told] in H; try (eapply IH; exact H); injection H as <- <-; (split; [reflexivity|]); apply told_some.
Qed.

Lemma laid_params L o : laid_out L o -> exists cur, get_params o = Some cur.
Proof. intros (_ & _ & (l & K & _) & _). unfold get_params. rewrite K. eauto. Qed.

Lemma into_stock L p c : growth_into L stock_fn stock_fn p c -> growth_of L p c.
Proof. exact (fun H => H). Qed.

Definition matches (L : layout) (gd pd : dict) (m : event * pcfg) (e : event * option dict * list R) : Prop := fst m = fst (fst e) /\ tells L gd pd (snd (fst e)) (snd e) (snd m).

Lemma stored_last cf path x c a b d : path = npy (cf x) -> Forall (fun m : event * pcfg => match fst m with inr _ => False | inl _ => True end) b ->
  stored cf path (a ++ (inr x, c) :: b) d = Some (FConfig c).
Proof.
  intros E F. unfold stored. rewrite fold_left_app. cbn [fold_left fst snd]. rewrite E, String.eqb_refl. generalize (Some (FConfig c)). intros z. revert z.
  induction F as [|m b Hm _ IH]; intros z; [reflexivity|]. destruct m as [[p|y] c']; cbn [fst] in Hm; [|contradiction]. cbn [fold_left fst]. apply IH.
Qed.

Lemma kept_in k i c ms : In (k, i, c) (kept_logs ms) -> In ((inl (k, i)), c) ms.
Proof. intros H. apply in_flat_map in H as ([[[k' i']|x] c'] & Hm & H); cbn in H; [|contradiction]. destruct H as [H|[]]. injection H as -> -> ->. exact Hm. Qed.

Lemma forall2_in {A B} (R : A -> B -> Prop) l m a : Forall2 R l m -> In a l -> exists b, In b m /\ R a b.
Proof. induction 1 as [|x y l m H _ IH]; intros Hi; [contradiction|]. destruct Hi as [<-|Hi]; [exists y; split; [left; reflexivity|exact H]|]. destruct (IH Hi) as (b & Hb & Rb). exists b. split; [right; exact Hb|exact Rb]. Qed.

Lemma dlog_seed q xs : forall v v' ds, q_run_seeds q xs v = Ok (v', ds) -> forall y l, In (DLog y l) ds -> In y xs.
Proof.
  assert (NR : forall x v y l, ~ In (DLog y l) (rank_deeds q x v)) by (intros x v y l H; unfold rank_deeds in H; destruct (se_pattern _); cbn in H; intuition discriminate).
  assert (NP : forall n pop y l, ~ In (DLog y l) (picture_deeds q n pop)).
  { intros n pop y l H. unfold picture_deeds in H. destruct (se_pattern _); [contradiction|]. apply in_map_iff in H as (j & H & _). discriminate. }
  assert (NT : forall pop y l, ~ In (DLog y l) (trial_deeds q pop)).
  { intros pop y l H. apply in_flat_map in H as (j & _ & H). apply in_concat in H as (d & Hd & H). apply repeat_spec in Hd. subst d. unfold step_deeds in H. destruct (writes _); cbn in H; intuition discriminate. }
  assert (NE : forall E k i y l, ~ In (DLog y l) (elite_deeds q k i E)).
  { induction E as [|p E IH]; intros k i y l H; [contradiction|]. cbn [elite_deeds] in H. apply in_app_iff in H as [H|[H|H]]; [|discriminate|exact (IH _ _ _ _ H)]. unfold step_deeds in H. destruct (writes _); cbn in H; intuition discriminate. }
  assert (G1 : forall x g v v' b ds, q_generation q x g v = Ok (v', b, ds) -> forall y l, In (DLog y l) ds -> y = x).
  { intros x g v v' b ds H y l Hin. destruct (q_generation_inv _ _ _ _ _ _ _ H) as (v1 & _ & _ & -> & R). cbv zeta in R.
    assert (C : In (DLog y l) (trial_deeds q (ev_pop v) ++ (if Nat.eqb (g + 1) (se_gens (qu_set q)) then rank_deeds q x v1 else []) ++
       elite_deeds q (List.length (ev_log v)) 0 (elite_rows (ev_elites v1)) ++ [DLog x (ev_params (log_generation (qu_set q) (evaluate (qu_set q) (ev_pop v) (Z.of_nat g * x)) v1))])%list -> y = x).
    { intros I. apply in_app_iff in I as [I|I]; [destruct (NT _ _ _ I)|]. apply in_app_iff in I as [I|I]; [destruct (Nat.eqb _ _); [destruct (NR _ _ _ _ I)|contradiction]|].
      apply in_app_iff in I as [I|[I|[]]]; [destruct (NE _ _ _ _ _ I)|]. injection I as <- _. reflexivity. }
    destruct (stops g _); destruct R as [_ ->]; [|exact (C Hin)]. apply in_app_iff in Hin as [I|I]; [exact (C I)|destruct (NR _ _ _ _ I)]. }
  assert (G2 : forall x n g v v' ds, q_generations q x n g v = Ok (v', ds) -> forall y l, In (DLog y l) ds -> y = x).
  { intros x. induction n as [|n IH]; intros g v v' ds H y l Hin; cbn [q_generations] in H; [injection H as <- <-; contradiction|].
    apply bind_ok in H as ([[v1 b] d1] & H1 & H). cbn [fst snd] in H. destruct b; [injection H as <- <-; exact (G1 _ _ _ _ _ _ H1 _ _ Hin)|].
    apply bind_ok in H as ([v2 d2] & H2 & H). cbn [fst snd] in H. injection H as <- <-. apply in_app_iff in Hin as [I|I]; [exact (G1 _ _ _ _ _ _ H1 _ _ I)|exact (IH _ _ _ _ H2 _ _ I)]. }
  induction xs as [|x t IH]; intros v v' ds H y l Hin; cbn [q_run_seeds] in H; [injection H as <- <-; contradiction|].
  apply bind_ok in H as ([v1 d1] & H1 & H). cbn [fst snd] in H. apply bind_ok in H as ([v2 d2] & H2 & H). cbn [fst snd] in H. injection H as <- <-.
  apply in_app_iff in Hin as [I|I]; [left|right; exact (IH _ _ _ H2 _ _ I)]. destruct (q_run_seed_inv _ _ _ _ _ H1) as (u & dg & _ & _ & _ & G & _ & _ & ->).
  apply in_app_iff in I as [I|I]; [destruct (NP _ _ _ _ I)|]. apply in_app_iff in I as [I|I]; [|destruct (NP _ _ _ _ I)]. symmetry. exact (G2 _ _ _ _ _ _ G _ _ I).
Qed.

Section Final.
  Variable cfg_file log_file : Z -> string.
  Variable L : layout.
  Variable q : quest.

  Definition halting_quest : Prop := writes (qu_wrap q) = true /\ se_pattern (qu_set q) = false /\ se_kind (qu_set q) = KParams /\ (1 <= se_size (qu_set q))%nat /\ lottery_ok (qu_set q) /\ fitting L (qu_set q).

  Lemma new_fit xs v ds : halting_quest -> q_run_seeds q xs (new_evo None) = Ok (v, ds) -> Forall (fits L) ds.
  Proof. intros (_ & _ & K & S & _ & D) H. apply (q_run_seeds_fit L q xs D S K (new_evo None) v ds); [constructor|exact H]. Qed.

  (** An automaton without configurations. *)
  Lemma plain_configs x xs v ds w cs w' : halting_quest -> q_run_seeds q (x :: xs) (new_evo None) = Ok (v, ds) -> laid_out L (w_obj w) -> plain (w_obj w) ->
    perform cfg_file log_file ds w = Ok (cs, w') ->
    map fst cs = positions v /\
    Forall (fun e => p_nb (snd e) = Some (kernel_entry L (elite_at v 0 0))) cs /\
    (if Nat.eqb (se_gens (qu_set q)) 1 then Forall (fun e => growth_of L (elite_at v (fst (fst e)) (snd (fst e))) (snd e)) cs
     else exists c rest, cs = (0%nat, 0%nat, c) :: rest /\ stock_growth c /\ Forall (fun e => growth_of L (elite_at v (fst (fst e)) (snd (fst e))) (snd e)) rest).
  Proof.
    intros HQ H La Pl P. pose proof (new_fit _ _ _ HQ H) as Fi. destruct HQ as (W & Pt & K & S & LO & D). destruct (laid_params _ _ La) as (cur & G).
    split; [rewrite (perform_makes _ _ _ _ _ _ P); exact (new_positions _ _ _ _ _ H)|].
    destruct (perform_told cfg_file log_file L stock_fn stock_fn ds None cur w cs w' Fi) as (ms & F2 & -> & _); [split; [exact G|]; split; [exact La|]; split; [exact Pl|split; reflexivity]|exact P|].
    destruct (q_run_seeds_traced L q xs W Pt LO x _ _ _ H None cur) as (Gd & (t & Ht) & _). cbn [new_evo ev_log List.length] in Ht.
    rewrite (Nat.eqb_sym (se_gens (qu_set q))). remember (Nat.eqb 1 (se_gens (qu_set q))) as b1 eqn:Eb1. clear Eb1.
    destruct (told_none _ _ _ _ _ Ht) as [_ Tt]. cbn [snd] in Tt. rewrite Ht in F2, Gd. inversion F2 as [|m e ms' t' Hm Ft]; subst. inversion Gd as [|? ? _ Gt]; subst.
    destruct m as [me mc]. destruct Hm as [Hm1 Hm2]. cbn [fst snd] in Hm1, Hm2. subst me. destruct Hm2 as [Nb St].
    assert (Rest : Forall (fun e => p_nb (snd e) = Some (kernel_entry L (elite_at v 0 0)) /\ growth_of L (elite_at v (fst (fst e)) (snd (fst e))) (snd e)) (kept_logs ms')).
    { apply Forall_forall. intros [[k i] c] Hin. cbn [fst snd]. apply kept_in in Hin. destruct (forall2_in _ _ _ _ Ft Hin) as ([[ev ke] ce] & He & E1 & E2). cbn [fst snd] in E1, E2. subst ev.
      pose proof (proj1 (Forall_forall _ t) Tt _ He) as E3. cbn [fst snd] in E3. subst ke. pose proof (proj1 (Forall_forall _ t) Gt _ He) as E4. unfold good in E4. cbn [fst snd] in E4. destruct E4 as [_ ->].
      destruct E2 as [E2 E5]. split; [exact E2|]. exact (into_stock _ _ _ E5). }
    assert (Rn : Forall (fun e => p_nb (snd e) = Some (kernel_entry L (elite_at v 0 0))) (kept_logs ms')) by (eapply Forall_impl; [|exact Rest]; intros e [A _]; exact A).
    assert (Rg : Forall (fun e => growth_of L (elite_at v (fst (fst e)) (snd (fst e))) (snd e)) (kept_logs ms')) by (eapply Forall_impl; [|exact Rest]; intros e [_ A]; exact A).
    destruct b1.
    - exact (conj Rn Rg).
    - change (kept_logs ((inl (0%nat, 0%nat), mc) :: ms')) with ((0%nat, 0%nat, mc) :: kept_logs ms'). split; [constructor; [exact Nb|exact Rn]|]. eexists _, _. split; [reflexivity|]. split; [exact St|exact Rg].
  Qed.

  (** The configuration file of the last seed. *)
  Lemma plain_file x xs v ds w cs w' : halting_quest -> q_run_seeds q (x :: xs) (new_evo None) = Ok (v, ds) -> laid_out L (w_obj w) -> plain (w_obj w) ->
    perform cfg_file log_file ds w = Ok (cs, w') -> let z := last (x :: xs) x in (forall y, In y (x :: xs) -> npy (cfg_file z) <> npy (log_file y)) ->
    exists c, fs_get (e_fs (w_env w')) (npy (cfg_file z)) = Some (FConfig c) /\ p_nb c = Some (kernel_entry L (elite_at v 0 0)) /\
      (growth_of L (nth 0 (elite_rows (ev_elites v)) []) c \/ se_gens (qu_set q) = 1%nat /\ stock_growth c) /\
      (se_gens (qu_set q) <> 1%nat -> growth_of L (nth 0 (elite_rows (ev_elites v)) []) c).
  Proof.
    intros HQ H La Pl P z Hz. pose proof (new_fit _ _ _ HQ H) as Fi. destruct HQ as (W & Pt & K & S & LO & D). destruct (laid_params _ _ La) as (cur & G).
    destruct (perform_told cfg_file log_file L stock_fn stock_fn ds None cur w cs w' Fi) as (ms & F2 & _ & Fs); [split; [exact G|]; split; [exact La|]; split; [exact Pl|split; reflexivity]|exact P|].
    destruct (q_run_seeds_traced L q xs W Pt LO x _ _ _ H None cur) as (_ & (t & Ht) & (a & kern & b & Eb & Nb)). cbn [new_evo ev_log List.length] in Ht. fold z in Eb.
    destruct (told_none _ _ _ _ _ Ht) as [_ Tt]. cbn [snd] in Tt.
    rewrite (Fs (npy (cfg_file z))) by (intros y l I; apply Hz; exact (dlog_seed _ _ _ _ _ H _ _ I)).
    rewrite Eb in F2. apply Forall2_app_inv_r in F2 as (ma & mr & Fa & Fr & ->). inversion Fr as [|m e mb b' Hm Fb]; subst. destruct m as [me mc]. destruct Hm as [Hm1 Hm2]. cbn [fst snd] in Hm1, Hm2. subst me.
    exists mc. split.
    { apply stored_last; [reflexivity|]. clear - Fb Nb. induction Fb as [|m e mb b [E _] _ IH]; [constructor|]. inversion Nb as [|? ? N1 N2]; subst. constructor; [|apply IH; exact N2]. destruct m as [me mc], e as [[[p|y] ke] ce]; cbn [fst] in E; subst me; [exact I|]. apply N1. exact I. }
    rewrite Ht in Eb. remember (Nat.eqb 1 (se_gens (qu_set q))) as b1 eqn:Eb1. destruct a as [|a0 a].
    - cbn [app] in Eb. injection Eb as E1 E2 E3 E4. subst kern. destruct Hm2 as [Nk St]. split; [rewrite Nk, <- E3; reflexivity|].
      destruct b1; [|discriminate E1]. symmetry in Eb1. apply Nat.eqb_eq in Eb1. split; [right; split; [congruence|exact St]|]. intros N. congruence.
    - cbn [app] in Eb. injection Eb as E0 E1. assert (I : In (inr z, kern, nth 0 (elite_rows (ev_elites v)) []) t) by (rewrite E1; apply in_app_iff; right; left; reflexivity).
      pose proof (proj1 (Forall_forall _ t) Tt _ I) as E2. cbn [fst snd] in E2. subst kern. destruct Hm2 as [Nk St]. apply into_stock in St. split; [exact Nk|]. split; [left; exact St|]. intros _. exact St.
  Qed.

  (** An automaton loaded from a configuration. *)
  Lemma loaded_configs x xs v ds w cs w' kd gd pd : halting_quest -> q_run_seeds q (x :: xs) (new_evo None) = Ok (v, ds) -> laid_out L (w_obj w) -> loaded_with kd gd pd w ->
    perform cfg_file log_file ds w = Ok (cs, w') ->
    map fst cs = positions v /\ Forall (fun e => p_nb (snd e) = Some kd /\ growth_into L gd pd (elite_at v (fst (fst e)) (snd (fst e))) (snd e)) cs.
  Proof.
    intros HQ H La Pl P. pose proof (new_fit _ _ _ HQ H) as Fi. destruct HQ as (W & Pt & K & S & LO & D). destruct (laid_params _ _ La) as (cur & G).
    split; [rewrite (perform_makes _ _ _ _ _ _ P); exact (new_positions _ _ _ _ _ H)|].
    destruct (perform_told cfg_file log_file L gd pd ds (Some kd) cur w cs w' Fi) as (ms & F2 & -> & _); [split; [exact G|]; split; [exact La|]; exists gd, pd; split; [exact Pl|split; reflexivity]|exact P|].
    destruct (q_run_seeds_traced L q xs W Pt LO x _ _ _ H (Some kd) cur) as (Gd & _).
    apply Forall_forall. intros [[k i] c] Hin. cbn [fst snd]. apply kept_in in Hin. destruct (forall2_in _ _ _ _ F2 Hin) as ([[ev ke] ce] & He & E1 & E2). cbn [fst snd] in E1, E2. subst ev.
    pose proof (proj1 (Forall_forall _ _) (told_some L ds kd cur) _ He) as E3. cbn [fst snd] in E3. subst ke. pose proof (proj1 (Forall_forall _ _) Gd _ He) as E4. unfold good in E4. cbn [fst snd] in E4. destruct E4 as [_ ->]. exact E2.
  Qed.
End Final.

(** ** The other wrappers *)
Lemma random_generation L q x g v v' b ds kern cur : writes (qu_wrap q) = false -> (g + 1 <> se_gens (qu_set q))%nat -> lottery_ok (qu_set q) ->
  q_generation q x g v = Ok (v', b, ds) ->
  Forall (fun e => match fst (fst e) with inl (k, _) => k = List.length (ev_log v) /\ snd e = cur | inr _ => True end) (told L ds kern cur) /\
  (exists t, told L ds kern cur = (inl (List.length (ev_log v), 0%nat), kern, cur) :: t) /\ (b = false -> last_set ds cur = cur).
Proof.
  intros W Hg LO H. destruct (q_generation_inv _ _ _ _ _ _ _ H) as (v1 & _ & A & -> & R). cbv zeta in R. set (s := qu_set q) in *. set (f := evaluate s (ev_pop v) (Z.of_nat g * x)) in *.
  destruct (Nat.eqb_spec (g + 1) (se_gens s)) as [?|_]; [contradiction|]. cbn [app] in R. set (E := elite_rows (ev_elites v1)) in *.
  assert (LE : exists p E', E = p :: E').
  { assert (HE : has_elites (se_keep s) v1) by (unfold advance in A; destruct (Nat.eqb _ _); [exact (rank_elites _ _ _ _ _ A)|exact (update_elites _ _ _ _ LO A)]).
    destruct HE as (E0 & H0 & L0). unfold E. rewrite H0. cbn [elite_rows]. pose proof (keep_pos s). destruct E0 as [|p E']; [cbn in L0; lia|]. eauto. }
  destruct LE as (p & E' & LE).
  set (d := (trial_deeds q (ev_pop v) ++ elite_deeds q (List.length (ev_log v)) 0 E ++ [DLog x (ev_params (log_generation s f v1))])%list) in *.
  assert (Sd : Forall still d) by (apply Forall_app; split; [apply trial_still; exact W|]; apply Forall_app; split; [apply elite_still; exact W|]; constructor; [exact I|constructor]).
  assert (Mk : forall ds kern cur, Forall (fun e => match fst (fst e) with inl ki => In ki (makes ds) | inr _ => True end) (told L ds kern cur)).
  { clear. induction ds as [|d ds IH]; intros kern cur; [constructor|]. destruct d; cbn [told].
    - exact (IH _ _).
    - constructor; [exact I|exact (IH _ _)].
    - constructor; [left; reflexivity|]. eapply Forall_impl; [|exact (IH _ _)]. intros [[[?|?] ?] ?] Hin; cbn in *; auto.
    - exact (IH _ _). }
  assert (Md : makes d = map (fun j => (List.length (ev_log v), j)) (seq 0 (List.length E))).
  { unfold d. rewrite !makes_app, (noise_makes _ (trial_noise q _)), elite_makes. cbn. apply app_nil_r. }
  assert (Q : Forall (fun e => match fst (fst e) with inl (k, _) => k = List.length (ev_log v) /\ snd e = cur | inr _ => True end) (told L d kern cur)).
  { pose proof (Mk d kern cur) as M1. pose proof (still_told L d Sd kern cur) as M2. rewrite Forall_forall in *. intros [[[[k i]|y] ke] ce] Hin; cbn [fst snd]; [|exact I].
    specialize (M1 _ Hin). specialize (M2 _ Hin). cbn [fst snd] in M1, M2. split; [|exact M2]. rewrite Md in M1. apply in_map_iff in M1 as (j & Ej & _). now injection Ej. }
  assert (Hd : exists t, told L d kern cur = (inl (List.length (ev_log v), 0%nat), kern, cur) :: t).
  { unfold d. rewrite told_app, (noise_told _ _ (trial_noise q _)), (noise_kern _ _ (trial_noise q _)), (still_last _ (trial_still q _ W)). cbn [app]. rewrite LE. cbn [elite_deeds]. unfold step_deeds. rewrite W. cbn [app told]. eexists. reflexivity. }
  destruct (stops g f).
  - destruct R as [_ ->]. rewrite told_app. split; [|split; [|discriminate]].
    + apply Forall_app. split; [exact Q|]. unfold rank_deeds. destruct (se_pattern _); cbn [app told]; (constructor; [exact I|constructor]).
    + destruct Hd as (t & ->). cbn [app]. eexists. reflexivity.
  - destruct R as [-> ->]. split; [exact Q|]. split; [exact Hd|]. intros _. apply still_last, Sd.
Qed.

Lemma makes_told L ds : forall kern cur, Forall (fun e => match fst (fst e) with inl ki => In ki (makes ds) | inr _ => True end) (told L ds kern cur).
Proof.
  induction ds as [|d ds IH]; intros kern cur; [constructor|]. destruct d; cbn [told].
  - exact (IH _ _).
  - constructor; [exact I|exact (IH _ _)].
  - constructor; [left; reflexivity|]. eapply Forall_impl; [|exact (IH _ _)]. intros [[[?|?] ?] ?] Hin; cbn in *; auto.
  - exact (IH _ _).
Qed.

Lemma random_generations L q x n : writes (qu_wrap q) = false -> lottery_ok (qu_set q) -> forall g v v' ds kern cur, (g + n = se_gens (qu_set q))%nat ->
  q_generations q x n g v = Ok (v', ds) ->
  Forall (fun e => match fst (fst e) with inl (k, _) => (k + g + 1 < se_gens (qu_set q) + List.length (ev_log v))%nat -> snd e = cur | inr _ => True end) (told L ds kern cur) /\
  ((1 < n)%nat -> exists t, told L ds kern cur = (inl (List.length (ev_log v), 0%nat), kern, cur) :: t).
Proof.
  intros W LO. induction n as [|n IH]; intros g v v' ds kern cur Hg H; cbn [q_generations] in H; [injection H as <- <-; split; [constructor|lia]|].
  apply bind_ok in H as ([[v1 b] d1] & H1 & H). cbn [fst snd] in H. destruct (Nat.eq_dec (g + 1) (se_gens (qu_set q))) as [E|N].
  - assert (n = 0)%nat by lia. subst n. assert (X : ds = d1) by (destruct b; [|cbn [q_generations bind fst snd] in H; rewrite app_nil_r in H]; injection H as <- <-; reflexivity). subst d1. split; [|lia].
    destruct (q_generation_new _ _ _ _ _ _ _ H1) as (en & _ & _ & M). pose proof (makes_told L ds kern cur) as T. rewrite Forall_forall in *. intros [[[[k i]|y] ke] ce] Hin; cbn [fst snd]; [|exact I].
    specialize (T _ Hin). cbn [fst] in T. rewrite M in T. apply in_map_iff in T as (j & Ej & _). injection Ej as <- <-. lia.
  - destruct (random_generation L _ _ _ _ _ _ _ kern cur W N LO H1) as (A & B & C).
    assert (A' : Forall (fun e => match fst (fst e) with inl (k, _) => (k + g + 1 < se_gens (qu_set q) + List.length (ev_log v))%nat -> snd e = cur | inr _ => True end) (told L d1 kern cur)).
    { eapply Forall_impl; [|exact A]. intros [[[[k i]|y] ke] ce]; cbn [fst snd]; [intros [_ ?]; auto|auto]. }
    destruct b; [injection H as <- <-; auto|]. apply bind_ok in H as ([v2 d2] & H2 & H). cbn [fst snd] in H. injection H as <- <-. rewrite told_app, (C eq_refl).
    destruct (IH (Datatypes.S g) v1 v2 d2 (kern_after L d1 kern cur) cur ltac:(lia) H2) as [A2 _]. destruct (q_generation_new _ _ _ _ _ _ _ H1) as (en & Le & _). split.
    + apply Forall_app. split; [exact A'|]. eapply Forall_impl; [|exact A2]. intros [[[[k i]|y] ke] ce]; cbn [fst snd]; [|auto]. rewrite Le, app_length. cbn [List.length]. intros Q Hk. apply Q. lia.
    + intros _. destruct B as (t & ->). cbn [app]. eexists. reflexivity.
Qed.

Lemma picture_last q n pop cur : se_pattern (qu_set q) = false -> last_set (picture_deeds q (Datatypes.S n) pop) cur = nth n pop [].
Proof.
  intros P. unfold picture_deeds. rewrite P, seq_S, map_app, last_set_app. reflexivity.
Qed.

Section Others.
  Variable cfg_file log_file : Z -> string.
  Variable L : layout.
  Variable q : quest.

  Lemma random_configs x v ds w cs w' : writes (qu_wrap q) = false -> se_pattern (qu_set q) = false -> se_kind (qu_set q) = KParams -> (1 <= se_size (qu_set q))%nat ->
    lottery_ok (qu_set q) -> fitting L (qu_set q) -> (2 <= se_gens (qu_set q))%nat ->
    q_run_seeds q [x] (new_evo None) = Ok (v, ds) -> laid_out L (w_obj w) -> plain (w_obj w) -> perform cfg_file log_file ds w = Ok (cs, w') ->
    let s := qu_set q in
    let p := se_draw s (Nat.min (se_keep s) 4 - 1) (se_means s) (start_covar false (List.length (se_means s))) in
    map fst cs = positions v /\ exists c rest, cs = (0%nat, 0%nat, c) :: rest /\ p_nb c = Some (kernel_entry L p) /\ stock_growth c /\
      Forall (fun e => p_nb (snd e) = Some (kernel_entry L p) /\ ((fst (fst e) + 1 < se_gens s)%nat -> growth_of L p (snd e))) rest.
  Proof.
    intros W Pt K S LO D Hg H La Pl P s p.
    assert (Fi : Forall (fits L) ds) by (apply (q_run_seeds_fit L q [x] D S K (new_evo None) v ds); [constructor|exact H]).
    destruct (laid_params _ _ La) as (cur & G). split; [rewrite (perform_makes _ _ _ _ _ _ P); exact (new_positions _ _ _ _ _ H)|].
    destruct (perform_told cfg_file log_file L stock_fn stock_fn ds None cur w cs w' Fi) as (ms & F2 & -> & _); [split; [exact G|]; split; [exact La|]; split; [exact Pl|split; reflexivity]|exact P|].
    cbn [q_run_seeds] in H. apply bind_ok in H as ([v1 d1] & H1 & H). cbn [bind fst snd] in H. injection H as <- <-. rewrite app_nil_r in *.
    destruct (q_run_seed_inv _ _ _ _ _ H1) as (u & dg & _ & _ & _ & Gn & C & _ & ->).
    rewrite told_app, (noise_told _ _ (picture_noise _ _ _)), (noise_kern _ _ (picture_noise _ _ _)), told_app in F2. cbn [app] in F2. rewrite (noise_told _ _ (picture_noise q (se_keep (qu_set q)) _)), app_nil_r in F2.
    assert (Ep : forall c, last_set (picture_deeds q (Nat.min (se_keep (qu_set q)) 4) (ev_pop (start_seed (qu_set q) (new_evo None)))) c = p).
    { intros c. destruct (Nat.min (se_keep (qu_set q)) 4) as [|m] eqn:Em; [pose proof (keep_pos (qu_set q)); lia|]. rewrite (picture_last q m _ _ Pt). rewrite start_nth.
      - rewrite K. cbn [make_agent new_evo ev_elites elite_rows List.length Nat.ltb Nat.leb ev_time Nat.add]. unfold p, s. rewrite Em, Pt. replace (Datatypes.S m - 1)%nat with m by lia. reflexivity.
      - cbn [new_evo ev_elites elite_rows List.length]. assert (se_keep (qu_set q) <= se_size (qu_set q))%nat by (unfold se_keep, elite_keep; assert (se_size (qu_set q) / 8 < se_size (qu_set q))%nat by (apply Nat.div_lt; lia); lia). lia. }
    rewrite Ep in F2. destruct (random_generations L q x _ W LO 0 _ _ _ None p eq_refl Gn) as [A B]. destruct (B ltac:(lia)) as (t & Ht). change (ev_log (start_seed (qu_set q) (new_evo None))) with (@nil MEvo.entry) in *. cbn [List.length] in *.
    destruct (told_none _ _ _ _ _ Ht) as [_ Tt]. cbn [snd] in Tt. rewrite Ht in F2, A. inversion F2 as [|m e ms' t' Hm Ft]; subst. inversion A as [|? ? _ At]; subst.
    destruct m as [me mc]. destruct Hm as [Hm1 Hm2]. cbn [fst snd] in Hm1, Hm2. subst me. destruct Hm2 as [Nb St].
    change (kept_logs ((inl (0%nat, 0%nat), mc) :: ms')) with ((0%nat, 0%nat, mc) :: kept_logs ms'). eexists _, _. split; [reflexivity|]. split; [exact Nb|]. split; [exact St|].
    apply Forall_forall. intros [[k i] c] Hin. cbn [fst snd]. apply kept_in in Hin. destruct (forall2_in _ _ _ _ Ft Hin) as ([[ev ke] ce] & He & E1 & E2). cbn [fst snd] in E1, E2. subst ev.
    pose proof (proj1 (Forall_forall _ t) Tt _ He) as E3. cbn [fst snd] in E3. subst ke. destruct E2 as [E2 E5]. split; [exact E2|]. intros Hk.
    pose proof (proj1 (Forall_forall _ t) At _ He) as E4. cbn [fst snd] in E4. rewrite E4 in E5 by (unfold s in Hk; lia). exact (into_stock _ _ _ E5).
  Qed.

  Lemma still_fits ds : Forall still ds -> Forall (fits L) ds.
  Proof. intros H. eapply Forall_impl; [|exact H]. intros [] N; cbn in *; try exact I. contradiction. Qed.

  Lemma pattern_still xs : writes (qu_wrap q) = false -> se_pattern (qu_set q) = true -> forall v v' ds, q_run_seeds q xs v = Ok (v', ds) -> Forall still ds.
  Proof.
    intros W P. assert (NR : forall x v, Forall still (rank_deeds q x v)) by (intros x v; unfold rank_deeds; rewrite P; constructor; [exact I|constructor]).
    assert (NP : forall n pop, Forall still (picture_deeds q n pop)) by (intros n pop; unfold picture_deeds; rewrite P; constructor).
    assert (G1 : forall x g v v' b ds, q_generation q x g v = Ok (v', b, ds) -> Forall still ds).
    { intros x g v v' b ds H. destruct (q_generation_inv _ _ _ _ _ _ _ H) as (v1 & _ & _ & -> & R). cbv zeta in R.
      assert (C : Forall still (trial_deeds q (ev_pop v) ++ (if Nat.eqb (g + 1) (se_gens (qu_set q)) then rank_deeds q x v1 else []) ++
         elite_deeds q (List.length (ev_log v)) 0 (elite_rows (ev_elites v1)) ++ [DLog x (ev_params (log_generation (qu_set q) (evaluate (qu_set q) (ev_pop v) (Z.of_nat g * x)) v1))])%list).
      { apply Forall_app. split; [apply trial_still; exact W|]. apply Forall_app. split; [destruct (Nat.eqb _ _); [apply NR|constructor]|]. apply Forall_app. split; [apply elite_still; exact W|]. constructor; [exact I|constructor]. }
      destruct (stops g _); destruct R as [_ ->]; [apply Forall_app; split; [exact C|apply NR]|exact C]. }
    assert (G2 : forall x n g v v' ds, q_generations q x n g v = Ok (v', ds) -> Forall still ds).
    { intros x. induction n as [|n IH]; intros g v v' ds H; cbn [q_generations] in H; [injection H as <- <-; constructor|].
      apply bind_ok in H as ([[v1 b] d1] & H1 & H). cbn [fst snd] in H. destruct b; [injection H as <- <-; exact (G1 _ _ _ _ _ _ H1)|].
      apply bind_ok in H as ([v2 d2] & H2 & H). cbn [fst snd] in H. injection H as <- <-. apply Forall_app. split; [exact (G1 _ _ _ _ _ _ H1)|exact (IH _ _ _ _ H2)]. }
    induction xs as [|x t IH]; intros v v' ds H; cbn [q_run_seeds] in H; [injection H as <- <-; constructor|].
    apply bind_ok in H as ([v1 d1] & H1 & H). cbn [fst snd] in H. apply bind_ok in H as ([v2 d2] & H2 & H). cbn [fst snd] in H. injection H as <- <-.
    apply Forall_app. split; [|exact (IH _ _ _ H2)]. destruct (q_run_seed_inv _ _ _ _ _ H1) as (u & dg & _ & _ & _ & G & _ & _ & ->).
    apply Forall_app. split; [apply NP|]. apply Forall_app. split; [exact (G2 _ _ _ _ _ _ G)|apply NP].
  Qed.

  Lemma pattern_configs xs v ds w cs w' kd gd pd p : writes (qu_wrap q) = false -> se_pattern (qu_set q) = true ->
    q_run_seeds q xs (new_evo None) = Ok (v, ds) -> laid_out L (w_obj w) -> loaded_with kd gd pd w -> get_params (w_obj w) = Some p -> perform cfg_file log_file ds w = Ok (cs, w') ->
    map fst cs = positions v /\ Forall (fun e => p_nb (snd e) = Some kd /\ growth_into L gd pd p (snd e)) cs.
  Proof.
    intros W Pt H La Pl G P. pose proof (pattern_still _ W Pt _ _ _ H) as Sd. split; [rewrite (perform_makes _ _ _ _ _ _ P); exact (new_positions _ _ _ _ _ H)|].
    destruct (perform_told cfg_file log_file L gd pd ds (Some kd) p w cs w' (still_fits _ Sd)) as (ms & F2 & -> & _); [split; [exact G|]; split; [exact La|]; exists gd, pd; split; [exact Pl|split; reflexivity]|exact P|].
    apply Forall_forall. intros [[k i] c] Hin. cbn [fst snd]. apply kept_in in Hin. destruct (forall2_in _ _ _ _ F2 Hin) as ([[ev ke] ce] & He & E1 & E2). cbn [fst snd] in E1, E2. subst ev.
    pose proof (proj1 (Forall_forall _ _) (told_some L ds kd p) _ He) as E3. cbn [fst snd] in E3. subst ke. pose proof (proj1 (Forall_forall _ _) (still_told L ds Sd (Some kd) p) _ He) as E4. cbn [snd] in E4. subst ce. exact E2.
  Qed.
End Others.

(** ** The calls succeed when every vector makes a kernel *)
Definition takes (L : layout) (r : nat) (d : deed) : Prop :=
  match d with DSet p => List.length p = la_size L /\ exists k, get_gaussian_mixture_kernel r (slice (la_gen L + la_per L) (la_ker L) p) 1 = Ok k | _ => True end.

Lemma perform_ok cf lf L r gd pd ds : la_radius L = VInt (Z.of_nat r) -> forall kern cur w, Forall (takes L r) ds -> holds L gd pd kern cur w -> obj_inv (w_obj w) ->
  exists cs w', perform cf lf ds w = Ok (cs, w').
Proof.
  intros Er. induction ds as [|d ds IH]; intros kern cur w F H Iv; [exists [], w; reflexivity|]. inversion F as [|? ? Fd Ft]; subst.
  assert (Step : exists c1 w1 kern' cur', do_deed cf lf d w = Ok (c1, w1) /\ holds L gd pd kern' cur' w1 /\ obj_inv (w_obj w1)).
  { destruct d as [p|x|k i|x l]; cbn [do_deed takes] in *.
    - destruct Fd as [Lp K]. pose proof H as (_ & (A & B & (l & C & D) & E) & _). destruct (obj_inv_wf _ Iv) as (Wf & _).
      destruct (proj2 (set_accepts (w_obj w) p l r C ltac:(congruence) Wf)) as [o S].
      { unfold fn_count. rewrite app_length, A, B, Lp, D. split; [unfold la_size; lia|]. exact K. }
      rewrite S. cbn [bind]. eexists _, _, kern, p. split; [reflexivity|]. split; [exact (set_holds _ _ _ _ _ _ _ _ H Lp S)|]. exact (proj1 (set_params_obj_inv _ _ _ Iv S)).
    - unfold save_config. destruct (make_config (w_obj w) (w_heap w)) as [[c o] h] eqn:M. eexists _, _, _, _. split; [reflexivity|].
      split; [exact (proj2 (make_holds _ _ _ _ _ _ _ _ _ _ H M))|]. exact (make_config_obj_inv _ _ _ _ _ Iv M).
    - destruct (make_config (w_obj w) (w_heap w)) as [[c o] h] eqn:M. eexists _, _, _, _. split; [reflexivity|].
      split; [exact (proj2 (make_holds _ _ _ _ _ _ _ _ _ _ H M))|]. exact (make_config_obj_inv _ _ _ _ _ Iv M).
    - eexists _, _, kern, cur. split; [reflexivity|]. split; [exact H|exact Iv]. }
  destruct Step as (c1 & w1 & kern' & cur' & S & H1 & I1). destruct (IH kern' cur' w1 Ft H1 I1) as (c2 & w2 & P2). exists (c1 ++ c2)%list, w2. cbn [perform]. rewrite S. cbn [bind fst snd]. rewrite P2. reflexivity.
Qed.

(** ** A small search: one agent, two generations *)
Definition toy_draw (t : nat) : list R := [1; 1; 1; 1; INR t; 1; 1].
Definition toy_set (n : nat) : setting := mkSetting 1 0 n KParams false [0] (fun t _ _ => toy_draw t) (fun _ => []) (fun p _ => nth 4 p 0)
  (fun _ => mkChance (fun f => seq 0 (List.length f)) (fun _ => [0%nat]) [0%nat]).
Definition toy (w : wrapper) : quest := mkQuest (toy_set 2) w 1.
Definition toy_layout : layout := mkLayout 2 2 3 (VInt 1).

Lemma stops_early g f : (g <= 6)%nat -> stops g f = false.
Proof. intros H. unfold stops. rewrite (proj2 (Nat.ltb_ge 6 g) H). apply andb_false_r. Qed.

Lemma toy_run x : exists v ds, q_run_seeds (toy WHalting) [x] (new_evo None) = Ok (v, ds) /\
  ds = [DSet (toy_draw 0); DSet (toy_draw 0); DSet (toy_draw 0); DMake 0 0; DLog x [[toy_draw 0]];
        DSet (toy_draw 2); DSet (toy_draw 2); DSave x; DSet (toy_draw 2); DMake 1 0; DLog x [[toy_draw 0]; [toy_draw 2]]; DSet (toy_draw 2)] /\
  elite_at v 0 0 = toy_draw 0 /\ elite_at v 1 0 = toy_draw 2 /\ ev_elites v = Some [toy_draw 2].
Proof.
  eexists _, _. split.
  - cbn -[toy_draw stops vec_mean vec_covar start_covar]. rewrite stops_early by lia. cbn -[toy_draw stops vec_mean vec_covar start_covar].
    rewrite stops_early by lia. cbn -[toy_draw stops vec_mean vec_covar start_covar]. reflexivity.
  - repeat split; reflexivity.
Qed.
