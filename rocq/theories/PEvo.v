(** Proofs about the evolution strategy. *)
From Coq Require Import Reals Lra Lia List Arith Bool ZArith Permutation.
From Verif Require Import Base MEvo SEvo.
Import ListNotations.
Open Scope R_scope.

(** ** Fitness *)
Lemma total_app f l1 l2 : total f (l1 ++ l2) = total f l1 + total f l2.
Proof. unfold total. induction l1; cbn; [lra|]. rewrite IHl1. lra. Qed.

Lemma rollout_spec W (step : W -> outcome * W) n w : exists l, List.length l = n /\ steps_of step w l (snd (rollout step n w)) /\
  fst (fst (rollout step n w)) = total ou_reward l /\ snd (fst (rollout step n w)) = total ou_active l.
Proof.
  induction n as [|n IH]; cbn [rollout].
  - exists []. split; [reflexivity|]. split; [constructor|]. split; reflexivity.
  - destruct IH as (l & L & S & T1 & T2). exists (l ++ [fst (step (snd (rollout step n w)))])%list.
    rewrite app_length, L. cbn [List.length fst snd]. split; [lia|]. split; [now constructor|]. rewrite !total_app, <- T1, <- T2. unfold total. cbn. split; lra.
Qed.

Lemma total_concat f ls : total f (concat ls) = fold_right (fun l acc => total f l + acc) 0 ls.
Proof. induction ls; cbn [concat fold_right]; [reflexivity|]. now rewrite total_app, IHls. Qed.

Lemma rsum_snoc l x : rsum (List.length (l ++ [x])) (fun i => nth i (l ++ [x]) 0) = rsum (List.length l) (fun i => nth i l 0) + x.
Proof.
  rewrite app_length. cbn [List.length]. rewrite Nat.add_1_r, rsum_S. f_equal.
  - apply rsum_ext. intros i Hi. now rewrite app_nth1.
  - now rewrite app_nth2, Nat.sub_diag by lia.
Qed.

Lemma replicate_spec W (rs : W -> W) (step : W -> outcome * W) k n w : (0 < k)%nat -> exists ls, List.length ls = n /\ replicates_of rs step k w ls (snd (replicate rs step k n w)) /\
  List.length (fst (fst (replicate rs step k n w))) = n /\
  rsum n (fun i => nth i (fst (fst (replicate rs step k n w))) 0) = total ou_reward (concat ls) / INR k /\
  snd (fst (replicate rs step k n w)) = total ou_active (concat ls) /\ List.length (concat ls) = (k * n)%nat.
Proof.
  intros Hk. induction n as [|n IH]; cbn [replicate].
  - exists []. cbn. split; [reflexivity|]. split; [constructor|]. split; [reflexivity|]. split; [unfold total; cbn; lra|]. split; [reflexivity|]. lia.
  - destruct IH as (ls & L & S & N & T1 & T2 & C). destruct (rollout_spec W step k (rs (snd (replicate rs step k n w)))) as (l & L' & S' & T1' & T2').
    cbn [fst snd]. exists (ls ++ [l])%list. rewrite !concat_app. cbn [concat]. rewrite app_nil_r, !app_length, !total_app, L, L', N, C. cbn [List.length].
    split; [lia|]. split; [econstructor; eassumption|]. split; [lia|]. split; [|split; [|lia]].
    + set (q := fst (fst (replicate rs step k n w))) in *. rewrite rsum_S. rewrite app_nth2 by lia. rewrite N, Nat.sub_diag. cbn [nth].
      rewrite (rsum_ext n _ (fun i => nth i q 0)) by (intros i Hi; apply app_nth1; lia). rewrite T1, T1'. field. apply not_0_INR. lia.
    + now rewrite T2, T2'.
Qed.

Lemma get_fitness_spec W (seed : Z -> W -> W) rs step steps reps s w :
  (steps = 0 \/ reps = 0 -> get_fitness seed rs step steps reps s w = Err ZeroDivisionError)%nat /\
  ((0 < steps)%nat -> (0 < reps)%nat -> exists ls w', replicates_of rs step steps (seed s w) ls w' /\ List.length ls = reps /\
     get_fitness seed rs step steps reps s w = Ok (total ou_reward (concat ls) / INR (steps * reps), total ou_active (concat ls) / INR (steps * reps), w')).
Proof.
  unfold get_fitness. split.
  - intros H. assert (E : (steps * reps = 0)%nat) by (destruct H as [-> | ->]; lia). rewrite E. reflexivity.
  - intros H1 H2. destruct (replicate_spec W rs step steps reps (seed s w) H1) as (ls & L & Rp & N & T1 & T2 & C).
    exists ls, (snd (replicate rs step steps reps (seed s w))). split; [exact Rp|]. split; [exact L|].
    destruct (Nat.eqb_spec (steps * reps) 0) as [E|_]; [nia|]. cbn [negb guard bind]. rewrite N, T1, T2, mult_INR. f_equal. f_equal. f_equal.
    assert (INR steps <> 0) by (apply not_0_INR; lia). assert (INR reps <> 0) by (apply not_0_INR; lia). field. split; assumption.
Qed.

Lemma total_bounds f a b l : (forall o, In o l -> a <= f o <= b) -> INR (List.length l) * a <= total f l <= INR (List.length l) * b.
Proof.
  induction l as [|o l IH]; intros H.
  - cbn. lra.
  - cbn [List.length]. rewrite S_INR. assert (H1 := H o (or_introl eq_refl)). assert (H2 := IH (fun x Hx => H x (or_intror Hx))).
    unfold total in *. cbn [fold_right]. lra.
Qed.

Lemma replicates_len W (rs : W -> W) step n w ls w' : replicates_of rs step n w ls w' -> List.length (concat ls) = (n * List.length ls)%nat.
Proof.
  induction 1 as [|w ls w' l w'' H IH S L]; [cbn; lia|]. rewrite concat_app, !app_length, IH. cbn [concat List.length]. rewrite app_nil_r. lia.
Qed.

Lemma steps_In W (step : W -> outcome * W) w l w' : steps_of step w l w' -> forall o, In o l -> exists u, o = fst (step u).
Proof.
  induction 1 as [|w l w' H IH]; intros o Ho; [destruct Ho|]. apply in_app_iff in Ho as [Ho|[<-|[]]]; [auto|]. eexists. reflexivity.
Qed.

Lemma replicates_In W (rs : W -> W) step n w ls w' : replicates_of rs step n w ls w' -> forall o, In o (concat ls) -> exists u, o = fst (step u).
Proof.
  induction 1 as [|w ls w' l w'' H IH S L]; intros o Ho; [destruct Ho|]. rewrite concat_app in Ho. cbn in Ho. rewrite app_nil_r in Ho.
  apply in_app_iff in Ho as [Ho|Ho]; [auto|]. eapply steps_In; eassumption.
Qed.

Lemma fitness_bounds W (seed : Z -> W -> W) rs step steps reps s w fit alive w' a b :
  (forall u, a <= ou_reward (fst (step u)) <= b) ->
  get_fitness seed rs step steps reps s w = Ok (fit, alive, w') -> a <= fit <= b.
Proof.
  intros B H. destruct (get_fitness_spec W seed rs step steps reps s w) as [Z P].
  destruct (Nat.eq_dec steps 0) as [E|N1]; [rewrite Z in H by auto; discriminate|].
  destruct (Nat.eq_dec reps 0) as [E|N2]; [rewrite Z in H by auto; discriminate|].
  destruct (P ltac:(lia) ltac:(lia)) as (ls & w2 & Rp & L & E). rewrite E in H. injection H as <- <- <-.
  pose proof (replicates_len _ _ _ _ _ _ _ Rp) as C. rewrite L in C.
  assert (T : INR (List.length (concat ls)) * a <= total ou_reward (concat ls) <= INR (List.length (concat ls)) * b).
  { apply total_bounds. intros o Ho. destruct (replicates_In _ _ _ _ _ _ _ Rp o Ho) as (u & ->). apply B. }
  rewrite C in T. assert (Pn : 0 < INR (steps * reps)) by (apply lt_0_INR; nia).
  split; apply Rmult_le_reg_r with (INR (steps * reps)); try exact Pn; unfold Rdiv; rewrite Rmult_assoc, Rinv_l by lra; lra.
Qed.

(** ** Selection *)
Lemma elite_keep_bounds P : (1 <= P)%nat -> (1 <= elite_keep P <= P)%nat.
Proof.
  intros H. unfold elite_keep. pose proof (Nat.div_mod P 8 ltac:(lia)) as D. pose proof (Nat.mod_upper_bound P 8 ltac:(lia)) as M.
  set (q := (P / 8)%nat) in *. lia.
Qed.

Lemma is_argsort_length f o : is_argsort f o -> List.length o = List.length f.
Proof. intros [P _]. apply Permutation_length in P. now rewrite seq_length in P. Qed.

Lemma is_argsort_nth f o i : is_argsort f o -> (i < List.length f)%nat -> (nth i o 0 < List.length f)%nat.
Proof.
  intros A Hi. pose proof (is_argsort_length f o A) as L. destruct A as [P _].
  assert (H : In (nth i o 0%nat) (seq 0 (List.length f))) by (apply (Permutation_in _ P); apply nth_In; lia). apply in_seq in H. lia.
Qed.

Lemma firstn_rev_nth (o : list nat) k i : (i < k)%nat -> (k <= List.length o)%nat -> nth i (firstn k (rev o)) 0%nat = nth (List.length o - S i) o 0%nat.
Proof.
  intros Hi Hk. rewrite <- (rev_nth o 0%nat) by lia.
  rewrite <- (firstn_skipn k (rev o)) at 2. symmetry. apply app_nth1. rewrite firstn_length_le by (rewrite rev_length; lia). exact Hi.
Qed.

Lemma NoDup_firstn A n (l : list A) : NoDup l -> NoDup (firstn n l).
Proof.
  intros H. rewrite <- (firstn_skipn n l) in H. revert H. generalize (firstn n l) (skipn n l). intros a b. induction a as [|x a IH]; cbn; intros H; [constructor|].
  inversion H; subst. constructor; [|auto]. intros I. apply H2. apply in_app_iff. now left.
Qed.

Lemma select_top_spec f o keep : is_argsort f o ->
  ((keep <= List.length f)%nat -> exists e, select_top keep o = Ok e /\ best_agents keep f e) /\
  ((List.length f < keep)%nat -> select_top keep o = Err IndexError).
Proof.
  intros A. pose proof (is_argsort_length f o A) as L. unfold select_top. rewrite L. split; intros Hk; destruct (Nat.leb_spec keep (List.length f)) as [?|?]; try lia; [|reflexivity].
  cbn [guard bind]. exists (firstn keep (rev o)). split; [reflexivity|]. pose proof A as A'. destruct A as [P S].
  assert (N : NoDup o) by (eapply Permutation_NoDup; [apply Permutation_sym; exact P|apply seq_NoDup]).
  assert (N' : NoDup (rev o)) by (eapply Permutation_NoDup; [apply Permutation_rev|exact N]).
  assert (Le : List.length (firstn keep (rev o)) = keep) by (apply firstn_length_le; rewrite rev_length; lia).
  assert (FI : forall i, (i < keep)%nat -> nth i (firstn keep (rev o)) 0%nat = nth (List.length f - 1 - i) o 0%nat).
  { intros i Hi. rewrite firstn_rev_nth by lia. rewrite L. f_equal. lia. }
  split; [exact Le|]. split; [now apply NoDup_firstn|]. split; [|split].
  - intros i Hi. apply In_nth with (d := 0%nat) in Hi as (a & Ha & <-). rewrite Le in Ha. rewrite FI by exact Ha. apply is_argsort_nth; [exact A'|lia].
  - intros a b Hab. rewrite !FI by lia. apply S. lia.
  - intros i j Hi Hj Nj. apply In_nth with (d := 0%nat) in Hi as (a & Ha & <-). rewrite Le in Ha. rewrite FI by exact Ha.
    assert (Ij : In j o) by (apply (Permutation_in _ (Permutation_sym P)); apply in_seq; lia).
    apply In_nth with (d := 0%nat) in Ij as (b & Hb & <-). rewrite L in Hb. apply S. split; [|lia].
    destruct (Nat.le_gt_cases b (List.length f - 1 - a)) as [|G]; [assumption|]. exfalso. apply Nj.
    replace b with (List.length f - 1 - (List.length f - 1 - b))%nat by lia. rewrite <- FI by lia. apply nth_In. rewrite Le. lia.
Qed.

Lemma argmax_from_spec l : forall k best v f, (forall i, (i < List.length l)%nat -> nth i l 0 = f (k + i)%nat) -> v = f best -> (best < k)%nat -> (forall i, (i < k)%nat -> f i <= v) ->
  let r := argmax_from l k best v in (r < k + List.length l)%nat /\ forall i, (i < k + List.length l)%nat -> f i <= f r.
Proof.
  induction l as [|x t IH]; intros k best v f E V B U; cbn [argmax_from List.length]; cbv zeta.
  - split; [lia|]. intros i Hi. rewrite <- V. apply U. lia.
  - assert (Ex : x = f k) by (specialize (E 0%nat ltac:(cbn; lia)); cbn in E; rewrite Nat.add_0_r in E; exact E).
    assert (Et : forall i, (i < List.length t)%nat -> nth i t 0 = f (S k + i)%nat) by (intros i Hi; specialize (E (S i) ltac:(cbn; lia)); cbn in E; rewrite E; f_equal; lia).
    rewrite Nat.add_succ_r. destruct (Rlt_dec v x) as [G|G].
    + apply (IH (S k) k x f Et Ex ltac:(lia)). intros i Hi. destruct (Nat.eq_dec i k) as [->|]; [lra|]. pose proof (U i ltac:(lia)). lra.
    + apply (IH (S k) best v f Et V ltac:(lia)). intros i Hi. destruct (Nat.eq_dec i k) as [->|]; [lra|]. apply U. lia.
Qed.

Lemma argmax_spec l : l <> [] -> (argmax l < List.length l)%nat /\ forall i, (i < List.length l)%nat -> nth i l 0 <= nth (argmax l) l 0.
Proof.
  destruct l as [|x t]; [congruence|]. intros _. cbn [argmax List.length].
  pose proof (argmax_from_spec t 1 0 x (fun i => nth i (x :: t) 0)) as H. cbv zeta in H. apply H.
  - intros i Hi. reflexivity.
  - reflexivity.
  - lia.
  - intros i Hi. destruct i; [cbn; lra|lia].
Qed.

Lemma tourney_spec keep bracket f : (forall m, (m < keep)%nat -> bracket m <> []) ->
  let e := select_tourney keep bracket f in List.length e = keep /\
  forall m, (m < keep)%nat -> In (nth m e 0%nat) (bracket m) /\ forall i, In i (bracket m) -> nth i f 0 <= nth (nth m e 0%nat) f 0.
Proof.
  intros Hb. cbv zeta. unfold select_tourney. rewrite map_length, seq_length. split; [reflexivity|]. intros m Hm.
  rewrite (nth_indep _ 0%nat (nth (argmax (map (fun i => nth i f 0) (bracket 0%nat))) (bracket 0%nat) 0%nat)) by (rewrite map_length, seq_length; exact Hm).
  rewrite (map_nth (fun m => nth (argmax (map (fun i => nth i f 0) (bracket m))) (bracket m) 0%nat) (seq 0 keep) 0%nat m), seq_nth by exact Hm. cbn [Nat.add].
  specialize (Hb m Hm). set (ix := bracket m) in *.
  destruct (argmax_spec (map (fun i => nth i f 0) ix)) as [B U]; [destruct ix; [congruence|discriminate]|]. rewrite map_length in B, U.
  split; [now apply nth_In|]. intros i Hi. apply In_nth with (d := 0%nat) in Hi as (a & Ha & <-). specialize (U a Ha).
  set (g := fun i => nth i f 0) in *.
  rewrite (nth_indep (map g ix) 0 (g 0%nat) (n := a)) in U by (rewrite map_length; exact Ha). rewrite (map_nth g ix 0%nat a) in U.
  rewrite (nth_indep (map g ix) 0 (g 0%nat)) in U by (rewrite map_length; exact B). rewrite (map_nth g ix 0%nat) in U. exact U.
Qed.

Lemma lottery_weight_pos r : 0 < lottery_weight r.
Proof. unfold lottery_weight. apply Rdiv_lt_0_compat; [lra|]. apply pow_lt. apply lt_0_INR. lia. Qed.

Lemma lottery_spec n : (0 < n)%nat -> rsum n (lottery_prob n) = 1 /\ (forall r, (r < n)%nat -> 0 < lottery_prob n r <= 1) /\
  (forall r r', (r < r')%nat -> lottery_prob n r' < lottery_prob n r).
Proof.
  intros Hn. assert (S : 0 < rsum n lottery_weight).
  { eapply Rlt_le_trans; [apply (lottery_weight_pos 0)|]. apply rsum_term_le; [exact Hn|]. intros i _. pose proof (lottery_weight_pos i). lra. }
  assert (One : rsum n (lottery_prob n) = 1). { unfold lottery_prob, Rdiv. rewrite rsum_scal_r. apply Rinv_r. lra. }
  assert (Pos : forall r, 0 < lottery_prob n r) by (intros r; apply Rdiv_lt_0_compat; [apply lottery_weight_pos|exact S]).
  split; [exact One|]. split.
  - intros r Hr. split; [apply Pos|]. rewrite <- One. apply rsum_term_le; [exact Hr|]. intros i _. specialize (Pos i). lra.
  - intros r r' Hr. unfold lottery_prob, Rdiv. apply Rmult_lt_compat_r; [now apply Rinv_0_lt_compat|]. unfold lottery_weight, Rdiv. rewrite !Rmult_1_l.
    assert (P1 : 0 < INR (r + 1)) by (apply lt_0_INR; lia). assert (P2 : INR (r + 1) < INR (r' + 1)) by (apply lt_INR; lia).
    apply Rinv_lt_contravar; [apply Rmult_lt_0_compat; apply pow_lt; lra|]. nra.
Qed.

Lemma lottery_distinct f o ranks : is_argsort f o -> NoDup ranks -> (forall r, In r ranks -> (r < List.length f)%nat) ->
  NoDup (select_lottery o ranks) /\ List.length (select_lottery o ranks) = List.length ranks /\ forall i, In i (select_lottery o ranks) -> (i < List.length f)%nat.
Proof.
  intros A N B. pose proof (is_argsort_length f o A) as L. assert (NR : NoDup (rev o)).
  { eapply Permutation_NoDup; [apply Permutation_rev|]. eapply Permutation_NoDup; [apply Permutation_sym; exact (proj1 A)|apply seq_NoDup]. }
  unfold select_lottery. rewrite map_length. split; [|split; [reflexivity|]].
  - induction ranks as [|r t IH]; cbn; [constructor|]. inversion N; subst. constructor; [|apply IH; [assumption|intros; apply B; now right]].
    intros I. apply in_map_iff in I as (r' & E & Hr'). assert (r' = r); [|congruence].
    apply (proj1 (NoDup_nth (rev o) 0%nat) NR); [rewrite rev_length, L; apply B; now right|rewrite rev_length, L; apply B; now left|exact E].
  - intros i Hi. apply in_map_iff in Hi as (r & <- & Hr). specialize (B r Hr). rewrite rev_nth by lia. rewrite L. apply is_argsort_nth; [exact A|lia].
Qed.

(** ** Populations *)
Lemma upd_length A n (x : A) l : List.length (upd n x l) = List.length l.
Proof. revert n. induction l as [|y t IH]; intros [|n]; cbn; auto. Qed.

Lemma upd_nth A n (x : A) l k d : (n < List.length l)%nat -> nth k (upd n x l) d = if Nat.eqb k n then x else nth k l d.
Proof.
  revert n k. induction l as [|y t IH]; intros [|n] [|k] H; cbn in H |- *; try lia; try reflexivity. apply IH. lia.
Qed.

Lemma fold_upd_length A (g : list A -> nat -> A) ks l : List.length (fold_left (fun p k => upd k (g p k) p) ks l) = List.length l.
Proof. revert l. induction ks as [|k ks IH]; intros l; cbn; [reflexivity|]. now rewrite IH, upd_length. Qed.

Lemma fold_upd_seq A (g : nat -> A) n a l k d : (a + n <= List.length l)%nat ->
  nth k (fold_left (fun p k => upd k (g k) p) (seq a n) l) d = if Nat.leb a k && Nat.ltb k (a + n) then g k else nth k l d.
Proof.
  revert a l. induction n as [|n IH]; intros a l H; cbn [seq fold_left].
  - destruct (Nat.leb_spec a k), (Nat.ltb_spec k (a + 0)); cbn; try reflexivity; lia.
  - rewrite IH by (rewrite upd_length; lia). rewrite upd_nth by lia.
    destruct (Nat.leb_spec (S a) k), (Nat.ltb_spec k (S a + n)), (Nat.leb_spec a k), (Nat.ltb_spec k (a + S n)), (Nat.eqb_spec k a); cbn; try reflexivity; try lia; now subst.
Qed.

Lemma keep_elites_S e n pop : keep_elites e (S n) pop = upd n (nth (nth n e 0%nat) (keep_elites e n pop) []) (keep_elites e n pop).
Proof. unfold keep_elites. rewrite seq_S, fold_left_app. reflexivity. Qed.

(** The overwriting of the first agents, agent by agent: an elite that has itself been overwritten
    already hands on what it was given. *)
Lemma keep_elites_spec e n pop : (n <= List.length pop)%nat -> List.length (keep_elites e n pop) = List.length pop /\
  (forall k, (n <= k)%nat -> nth k (keep_elites e n pop) [] = nth k pop []) /\
  (forall k, (k < n)%nat -> nth k (keep_elites e n pop) [] =
     if Nat.ltb (nth k e 0%nat) k then nth (nth k e 0%nat) (keep_elites e n pop) [] else nth (nth k e 0%nat) pop []).
Proof.
  intros H. induction n as [|n IH].
  - unfold keep_elites. cbn. split; [reflexivity|]. split; [reflexivity|]. lia.
  - rewrite keep_elites_S. destruct (IH ltac:(lia)) as (L & U & K). set (p := keep_elites e n pop) in *.
    rewrite upd_length. split; [exact L|]. split.
    + intros k Hk. rewrite upd_nth by lia. destruct (Nat.eqb_spec k n); [lia|]. apply U. lia.
    + intros k Hk. rewrite !upd_nth by lia. destruct (Nat.eqb_spec k n) as [->|Nk].
      * destruct (Nat.ltb_spec (nth n e 0%nat) n) as [G|G].
        -- destruct (Nat.eqb_spec (nth n e 0%nat) n); [lia|]. reflexivity.
        -- now apply U.
      * rewrite K by lia. destruct (Nat.ltb_spec (nth k e 0%nat) k); [|reflexivity]. destruct (Nat.eqb_spec (nth k e 0%nat) n); [lia|reflexivity].
Qed.

Lemma redraw_spec draw n P pop : (n <= P)%nat -> (P <= List.length pop)%nat -> List.length (redraw draw n P pop) = List.length pop /\
  forall k, nth k (redraw draw n P pop) [] = if Nat.leb n k && Nat.ltb k P then draw k else nth k pop [].
Proof.
  intros H1 H2. unfold redraw. split; [apply (fold_upd_length _ (fun _ k => draw k))|]. intros k. rewrite fold_upd_seq by lia. now replace (n + (P - n))%nat with P by lia.
Qed.

(** ** Mean and covariance *)
Lemma map_seq_nth A (f : nat -> A) n k d : (k < n)%nat -> nth k (map f (seq 0 n)) d = f k.
Proof. intros H. rewrite (nth_indep _ d (f 0%nat)) by (rewrite map_length, seq_length; exact H). rewrite map_nth, seq_nth by exact H. reflexivity. Qed.

Lemma covar_square keep E m : square (List.length (nth 0 E [])) (vec_covar keep E m).
Proof.
  unfold vec_covar, square. rewrite map_length, seq_length. split; [reflexivity|]. intros row H. apply in_map_iff in H as (a & <- & _). now rewrite map_length, seq_length.
Qed.

Lemma covar_ent keep E m a b : let d := List.length (nth 0 E []) in (a < d)%nat -> (b < d)%nat ->
  ent (vec_covar keep E m) a b = 1 / INR keep * rsum (List.length E) (fun i => (nth a (nth i E []) 0 - nth a m 0) * (nth b (nth i E []) 0 - nth b m 0)).
Proof. intros d Ha Hb. unfold ent, vec_covar. fold d. rewrite map_seq_nth by exact Ha. rewrite map_seq_nth by exact Hb. reflexivity. Qed.

Lemma quad_form n d (x : nat -> R) (y : nat -> nat -> R) :
  rsum d (fun a => rsum d (fun b => x a * rsum n (fun i => y i a * y i b) * x b)) = rsum n (fun i => (rsum d (fun a => x a * y i a)) ^ 2).
Proof.
  induction n as [|n IH].
  - cbn [rsum]. rewrite rsum_0; [reflexivity|]. intros. apply rsum_0. intros. ring.
  - rewrite rsum_S, <- IH.
    assert (E : (rsum d (fun a => x a * y n a)) ^ 2 = rsum d (fun a => rsum d (fun b => x a * (y n a * y n b) * x b))).
    { replace ((rsum d (fun a => x a * y n a)) ^ 2) with (rsum d (fun a => x a * y n a) * rsum d (fun b => x b * y n b)) by ring.
      rewrite <- rsum_scal_r. apply rsum_ext. intros a _. rewrite <- rsum_scal. apply rsum_ext. intros b _. ring. }
    rewrite E, <- rsum_plus. apply rsum_ext. intros a _. rewrite <- rsum_plus. apply rsum_ext. intros b _. cbn [rsum]. ring.
Qed.

Lemma covar_psd keep E m : sym_psd (List.length (nth 0 E [])) (vec_covar keep E m).
Proof.
  split; [apply covar_square|]. split.
  - intros a b Ha Hb. rewrite !covar_ent by assumption. f_equal. apply rsum_ext. intros. ring.
  - intros x. set (d := List.length (nth 0 E [])).
    rewrite (rsum_ext d _ (fun a => 1 / INR keep * rsum d (fun b => x a * rsum (List.length E) (fun i => (nth a (nth i E []) 0 - nth a m 0) * (nth b (nth i E []) 0 - nth b m 0)) * x b))).
    + rewrite rsum_scal. rewrite (quad_form (List.length E) d x (fun i a => nth a (nth i E []) 0 - nth a m 0)).
      apply Rmult_le_pos.
      * destruct keep; [cbn; unfold Rdiv; rewrite Rinv_0; lra|]. left. apply Rdiv_lt_0_compat; [lra|]. apply lt_0_INR. lia.
      * apply rsum_nonneg. intros i _. apply pow2_ge_0.
    + intros a Ha. rewrite <- rsum_scal. apply rsum_ext. intros b Hb. rewrite covar_ent by assumption. ring.
Qed.

Lemma mean_nth E a : (a < List.length (nth 0 E []))%nat -> nth a (vec_mean E) 0 = rsum (List.length E) (fun i => nth a (nth i E []) 0) / INR (List.length E).
Proof. intros H. unfold vec_mean. now rewrite map_seq_nth. Qed.

(** Spread of the elites about their own mean, plus the square of the move. *)
Lemma covar_shift E m a b : let d := List.length (nth 0 E []) in let k := List.length E in (0 < k)%nat -> (a < d)%nat -> (b < d)%nat ->
  ent (vec_covar k E m) a b = ent (vec_covar k E (vec_mean E)) a b + (nth a (vec_mean E) 0 - nth a m 0) * (nth b (vec_mean E) 0 - nth b m 0).
Proof.
  intros d k Hk Ha Hb. rewrite !covar_ent by assumption. rewrite !mean_nth by assumption. fold k.
  assert (K : INR k <> 0) by (apply not_0_INR; lia).
  set (A := fun i => nth a (nth i E []) 0). set (B := fun i => nth b (nth i E []) 0).
  assert (X : forall u v, rsum k (fun i => (A i - u) * (B i - v)) = rsum k (fun i => A i * B i) - u * rsum k B - v * rsum k A + INR k * (u * v)).
  { intros u v. rewrite <- (rsum_const k (u * v)), <- !rsum_scal, <- !rsum_minus, <- rsum_plus. apply rsum_ext. intros. ring. }
  change (fun i => nth a (nth i E []) 0) with A. change (fun i => nth b (nth i E []) 0) with B.
  pose proof (X (nth a m 0) (nth b m 0)) as X1. pose proof (X (rsum k A / INR k) (rsum k B / INR k)) as X2.
  unfold A, B in X1, X2 |- *. rewrite X1, X2. field. exact K.
Qed.

Lemma start_psd pattern d : sym_psd d (start_covar pattern d).
Proof.
  assert (En : forall a b, (a < d)%nat -> (b < d)%nat -> ent (start_covar pattern d) a b = if Nat.eqb a b then Rabs (start_weight pattern a) else 0).
  { intros a b Ha Hb. unfold ent, start_covar. rewrite map_seq_nth by exact Ha. rewrite map_seq_nth by exact Hb. reflexivity. }
  split; [|split].
  - unfold square, start_covar. rewrite map_length, seq_length. split; [reflexivity|]. intros row H. apply in_map_iff in H as (a & <- & _). now rewrite map_length, seq_length.
  - intros a b Ha Hb. rewrite !En by assumption. rewrite (Nat.eqb_sym b a). destruct (Nat.eqb_spec a b) as [->|]; reflexivity.
  - intros x. apply rsum_nonneg. intros a Ha. apply rsum_nonneg. intros b Hb. rewrite En by assumption. destruct (Nat.eqb_spec a b) as [->|]; [|lra].
    pose proof (Rabs_pos (start_weight pattern b)). nra.
Qed.
