(** Proofs about the training, evaluation and naming of the step predictor. *)
From Coq Require Import Reals ZArith NArith Lra Lia List String Ascii Bool Arith.
From Verif Require Import Base Tensor MActivations MNca MText MWrap MPredict SGrid SCca SNca SText SPredict PTensor PKern PNca PText PPredict.
Import ListNotations.
Open Scope R_scope.

(** ** Registered names *)
Lemma dec_digits n : every is_digit (dec n).
Proof. exact (pad_digits 0 n). Qed.

Lemma digits_lack a s : (N_of_ascii a < 48 \/ 57 < N_of_ascii a)%N -> every is_digit s -> lacks a s.
Proof.
  intros Ha. unfold lacks. induction s as [|b s IH]; cbn [every]; [trivial|]. intros [Hb Hs]. split; [|auto].
  intros ->. unfold is_digit in Hb. lia.
Qed.

Lemma append_inj a x y : (a ++ x = a ++ y -> x = y)%string.
Proof. induction a as [|b a IH]; cbn [append]; [trivial|]. intros E. apply IH. congruence. Qed.

Definition suffixes : list string := ["_param0"; "_param1"; "_1x1_param0"; "_1x1_param1"]%string.
Definition pname (k : nat) (x : string) : string := ("layer" ++ dec (N.of_nat k) ++ x)%string.

Lemma param_names_eq m : forall ii, param_names m ii = flat_map (fun k => map (pname k) suffixes) (seq ii m).
Proof. induction m as [|m IH]; intros ii; [reflexivity|]. cbn [param_names seq flat_map]. rewrite IH. reflexivity. Qed.

Lemma pname_index k k' x x' : In x suffixes -> In x' suffixes -> pname k x = pname k' x' -> k = k' /\ x = x'.
Proof.
  intros Hx Hx' E. apply append_inj in E.
  assert (F : forall y, In y suffixes -> exists t, y = String "_" t).
  { intros y Hy. cbn in Hy. destruct Hy as [<-|[<-|[<-|[<-|[]]]]]; eexists; reflexivity. }
  destruct (F x Hx) as [t ->]. destruct (F x' Hx') as [t' ->].
  assert (L : forall n, lacks "_" (dec n)) by (intros n; apply digits_lack; [right; reflexivity|apply dec_digits]).
  assert (K : dec (N.of_nat k) = dec (N.of_nat k')).
  { rewrite <- (upto_cut "_" (dec (N.of_nat k)) t (L _)), E. apply upto_cut, L. }
  rewrite K in E. split.
  - apply Nat2N.inj. rewrite <- (dec_number (N.of_nat k)), K. apply dec_number.
  - exact (append_inj _ _ _ E).
Qed.

Lemma param_names_nodup m ii : NoDup (param_names m ii).
Proof.
  rewrite param_names_eq. revert ii. induction m as [|m IH]; intros ii; [constructor|]. cbn [seq flat_map].
  assert (N4 : NoDup suffixes).
  { unfold suffixes. repeat (constructor; [cbn [In]; intros H; decompose [or] H; try discriminate; try contradiction|]). constructor. }
  assert (ND : forall l, NoDup l -> (forall x, In x l -> In x suffixes) -> NoDup (map (pname ii) l)).
  { induction l as [|x l IHl]; intros Hl Hin; [constructor|]. cbn [map]. apply NoDup_cons_iff in Hl as [Hx Hl]. constructor.
    - intros H. apply in_map_iff in H as (y & Ey & Hy). apply pname_index in Ey as [_ Ey].
      + subst y. contradiction. + apply Hin. right. exact Hy. + apply Hin. left. reflexivity.
    - apply IHl; [exact Hl|]. intros y Hy. apply Hin. right. exact Hy. }
  assert (A : forall l1 l2 : list string, NoDup l1 -> NoDup l2 -> (forall x, In x l1 -> In x l2 -> False) -> NoDup (l1 ++ l2)).
  { induction l1 as [|a l1 IHl]; intros l2 H1 H2 H; [exact H2|]. cbn [app]. apply NoDup_cons_iff in H1 as [Ha H1]. constructor.
    - rewrite in_app_iff. intros [X|X]; [contradiction|]. apply (H a); [left; reflexivity|exact X].
    - apply IHl; [exact H1|exact H2|]. intros x X Y. apply (H x); [right; exact X|exact Y]. }
  apply A; [apply ND; auto|apply IH|].
  intros x H1 H2. apply in_map_iff in H1 as (y & Ey & Hy). apply in_flat_map in H2 as (k & Hk & H2). apply in_map_iff in H2 as (z & Ez & Hz).
  subst x. apply pname_index in Ez as [Ez _]; [|assumption|assumption]. subst k. apply in_seq in Hk. lia.
Qed.

(** ** Evaluation *)
Lemma sq_error_eq y z : shape y = shape z -> exists e, sq_error y z = Ok e /\ tsum e = sq_dist y z.
Proof.
  intros H. unfold sq_error. rewrite tzip_same by exact H. eexists. split; [reflexivity|]. rewrite tsum_build. reflexivity.
Qed.

Lemma sq_dist_nonneg y z : 0 <= sq_dist y z.
Proof. unfold sq_dist. repeat (apply rsum_nonneg; intros). apply pow2_ge_0. Qed.

Lemma sq_dist_zero y z : twf y -> twf z -> shape y = shape z -> sq_dist y z = 0 -> y = z.
Proof.
  intros Ty Tz S E. apply tensor_ext; try assumption. intros b c i j Hb Hc Hi Hj.
  unfold sq_dist in E.
  set (d := fun b c i j => (get y b c i j - get z b c i j) ^ 2) in *.
  assert (N0 : forall b c i j, 0 <= d b c i j) by (intros; apply pow2_ge_0).
  assert (N1 : forall b c i, 0 <= rsum (tW y) (d b c i)) by (intros; apply rsum_nonneg; intros; apply N0).
  assert (N2 : forall b c, 0 <= rsum (tH y) (fun i => rsum (tW y) (d b c i))) by (intros; apply rsum_nonneg; intros; apply N1).
  assert (N3 : forall b, 0 <= rsum (tC y) (fun c => rsum (tH y) (fun i => rsum (tW y) (d b c i)))) by (intros; apply rsum_nonneg; intros; apply N2).
  pose proof (rsum_0_inv (tB y) (fun b => rsum (tC y) (fun c => rsum (tH y) (fun i => rsum (tW y) (d b c i)))) (fun k _ => N3 k) (Req_le _ _ E) b Hb) as E1.
  pose proof (rsum_0_inv (tC y) (fun c => rsum (tH y) (fun i => rsum (tW y) (d b c i))) (fun k _ => N2 b k) (Req_le _ _ E1) c Hc) as E2.
  pose proof (rsum_0_inv (tH y) (fun i => rsum (tW y) (d b c i)) (fun k _ => N1 b c k) (Req_le _ _ E2) i Hi) as E3.
  pose proof (rsum_0_inv (tW y) (d b c i) (fun k _ => N0 b c i k) (Req_le _ _ E3) j Hj) as E4. unfold d in E4.
  assert (get y b c i j - get z b c i j = 0) by (apply Rsqr_0_uniq; unfold Rsqr; lra). lra.
Qed.

Lemma sq_dist_self y : sq_dist y y = 0.
Proof. unfold sq_dist. repeat (apply rsum_0; intros). ring. Qed.

(** Batches of inputs of the right kind with targets of the same shape. *)
Definition good_batch (out : nat) (q : tensor * tensor) : Prop :=
  twf (fst q) /\ twf (snd q) /\ shape (fst q) = shape (snd q) /\ tC (fst q) = out /\ (0 < tH (fst q))%nat /\ (0 < tW (fst q))%nat.

Lemma good_predicts r hid out p q : pred_wf r hid out p -> good_batch out q ->
  exists z, predict false no_keep p (fst q) = Ok z /\ shape z = shape (snd q) /\ twf z.
Proof.
  intros Hp (T1 & T2 & S & Ec & H0 & W0).
  pose proof (predict_eq r hid out false no_keep p (fst q) Hp T1 Ec H0 W0) as E. rewrite E. eexists. split; [reflexivity|].
  destruct (predict_rise r hid out false no_keep p (fst q) _ Hp T1 Ec H0 W0 E) as (S1 & T & _). split; [congruence|exact T].
Qed.

Lemma eval_loop_eq r hid out p : pred_wf r hid out p -> forall bs, Forall (good_batch out) bs -> exists zs,
  Forall2 (fun q z => predict false no_keep p (fst q) = Ok z /\ shape z = shape (snd q) /\ twf z) bs zs /\
  forall l n, eval_loop p bs l n = Ok (l + lsum (map (fun d => sq_dist (snd (fst d)) (snd d)) (combine bs zs)),
                                       (n + list_sum (map (fun q => tB (snd q)) bs))%nat).
Proof.
  intros Hp. induction bs as [|[x y] bs IH]; intros Hb.
  - exists []. split; [constructor|]. intros l n. cbn [eval_loop combine map lsum fold_right list_sum]. unfold lsum. cbn [fold_right]. rewrite Rplus_0_r, Nat.add_0_r. reflexivity.
  - apply Forall_cons_iff in Hb as [Hq Hb]. destruct (IH Hb) as (zs & F & E). destruct (good_predicts r hid out p (x, y) Hp Hq) as (z & Ez & Sz & Tz).
    cbn [fst snd] in Ez, Sz. exists (z :: zs). split; [constructor; [auto|exact F]|]. intros l n. cbn [eval_loop]. rewrite Ez. cbn [bind].
    destruct (sq_error_eq y z (eq_sym Sz)) as (e & Ee & Et). rewrite Ee. cbn [bind]. rewrite Et, E. cbn [combine map fst snd].
    f_equal. f_equal.
    + match goal with |- _ = l + lsum (?a :: ?t) => change (lsum (a :: t)) with (a + lsum t) end. ring.
    + match goal with |- _ = (n + list_sum (?a :: ?t))%nat => change (list_sum (a :: t)) with (a + list_sum t)%nat end. lia.
Qed.

Lemma evaluate_eq r hid out p bs : pred_wf r hid out p -> Forall (good_batch out) bs -> exists zs,
  Forall2 (fun q z => predict false no_keep p (fst q) = Ok z /\ shape z = shape (snd q) /\ twf z) bs zs /\
  evaluate_on p bs =
    let samples := list_sum (map (fun q => tB (snd q)) bs) in
    if Nat.eqb (List.length bs) 0 then Err ZeroDivisionError
    else if Nat.eqb samples 0 then Err NonFinite
    else Ok (lsum (map (fun d => sq_dist (snd (fst d)) (snd d)) (combine bs zs)) / INR samples).
Proof.
  intros Hp Hb. destruct (eval_loop_eq r hid out p Hp bs Hb) as (zs & F & E). exists zs. split; [exact F|].
  unfold evaluate_on. rewrite E. cbn [bind fst snd Nat.add]. rewrite Rplus_0_l. destruct bs; reflexivity.
Qed.

Lemma evaluate_nonneg r hid out p bs v : pred_wf r hid out p -> Forall (good_batch out) bs -> evaluate_on p bs = Ok v ->
  0 <= v /\ (v = 0 <-> Forall (fun q => predict false no_keep p (fst q) = Ok (snd q)) bs).
Proof.
  intros Hp Hb H. destruct (evaluate_eq r hid out p bs Hp Hb) as (zs & F & E). rewrite E in H. cbv zeta in H.
  destruct (Nat.eqb (List.length bs) 0); [discriminate|].
  destruct (Nat.eqb_spec (list_sum (map (fun q => tB (snd q)) bs)) 0) as [|Hn]; [discriminate|]. apply Ok_inj in H. subst v.
  set (n := list_sum _) in *. assert (Pn : 0 < INR n) by (apply lt_0_INR; lia). clearbody n. clear E.
  set (S := lsum _).
  assert (G : 0 <= S /\ (S = 0 <-> Forall (fun q => predict false no_keep p (fst q) = Ok (snd q)) bs)).
  { unfold S. clear S n Hn Pn. revert Hb. induction F as [|q z bs zs (Ez & Sz & Tz) F IH]; intros Hb.
    - cbn [combine map]. unfold lsum. cbn [fold_right]. split; [lra|]. split; [constructor|reflexivity].
    - apply Forall_cons_iff in Hb as [(T1 & T2 & S12 & _) Hb]. destruct (IH Hb) as [I1 I2]. cbn [combine map fst snd].
      match goal with |- context [lsum (?a :: ?t)] => change (lsum (a :: t)) with (a + lsum t) end.
      pose proof (sq_dist_nonneg (snd q) z) as Q. split; [lra|]. split.
      + intros E. assert (E1 : sq_dist (snd q) z = 0) by lra. apply sq_dist_zero in E1; try assumption; [|congruence].
        constructor; [congruence|]. apply I2. lra.
      + intros E. apply Forall_cons_iff in E as [E1 E2]. apply I2 in E2. assert (z = snd q) by congruence. subst z.
        rewrite sq_dist_self. lra. }
  destruct G as [G1 G2]. split.
  - apply Rmult_le_pos; [exact G1|]. left. apply Rinv_0_lt_compat. exact Pn.
  - rewrite <- G2. split.
    + intros E. apply Rmult_integral in E as [E|E]; [exact E|]. pose proof (Rinv_0_lt_compat _ Pn). lra.
    + intros ->. lra.
Qed.

(** One batch: evaluation sums the squared errors of a sample, training averages them. *)
Lemma evaluate_scale r hid out p x y z l : pred_wf r hid out p -> good_batch out (x, y) -> (0 < tB y)%nat ->
  predict false no_keep p x = Ok z -> (let* e := sq_error y z in tmean e) = Ok l ->
  evaluate_on p [(x, y)] = Ok (INR (tC y * tH y * tW y) * l).
Proof.
  intros Hp Hb HB Ez El. destruct (evaluate_eq r hid out p [(x, y)] Hp ltac:(constructor; [exact Hb|constructor])) as (zs & F & E).
  rewrite E. inversion F as [|? z' ? zs' (Ez' & Sz & Tz) F' ]; subst. inversion F'; subst. cbn [fst snd] in *. clear F F' E.
  assert (z' = z) by congruence. subst z'. cbn [List.length Nat.eqb map list_sum fold_right fst snd combine]. rewrite Nat.add_0_r.
  destruct (Nat.eqb_spec (tB y) 0); [lia|]. f_equal.
  destruct (sq_error_eq y z (eq_sym Sz)) as (e & Ee & Et). rewrite Ee in El. cbn [bind] in El.
  assert (LE : List.length (tdata e) = (tB y * tC y * tH y * tW y)%nat).
  { unfold sq_error in Ee. rewrite tzip_same in Ee by (symmetry; exact Sz). apply Ok_inj in Ee. subst e. apply twf_build. }
  unfold tmean, lmean in El. destruct (tdata e) as [|a t] eqn:Ed; [discriminate|]. apply Ok_inj in El. rewrite <- Ed in El. rewrite <- Ed in LE.
  change (lsum [sq_dist y z]) with (sq_dist y z + 0). rewrite Rplus_0_r, <- Et. unfold tsum. rewrite <- El, LE, !mult_INR.
  assert (N : tdata e <> []) by congruence. assert (P : (0 < tB y * tC y * tH y * tW y)%nat) by (rewrite <- LE; destruct (tdata e); [congruence|cbn; lia]).
  assert (INR (tB y) <> 0) by (apply not_0_INR; lia). assert (INR (tC y) <> 0) by (apply not_0_INR; nia).
  assert (INR (tH y) <> 0) by (apply not_0_INR; nia). assert (INR (tW y) <> 0) by (apply not_0_INR; nia).
  field. auto.
Qed.

(** ** Smoothed losses *)
Lemma ewma_step l n : ewma l (S n) = 99 / 100 * ewma l n + 1 / 100 * nth (S n) l 0.
Proof.
  unfold ewma. rewrite rsum_S. replace (S n - 1 - n)%nat with 0%nat by lia. cbn [pow]. 
  replace (rsum n (fun k => 1 / 100 * (99 / 100) ^ (S n - 1 - k) * nth (S k) l 0))
    with (99 / 100 * rsum n (fun k => 1 / 100 * (99 / 100) ^ (n - 1 - k) * nth (S k) l 0)).
  - ring.
  - rewrite <- rsum_scal. apply rsum_ext. intros k Hk. replace (S n - 1 - k)%nat with (S (n - 1 - k)) by lia. cbn [pow]. ring.
Qed.

Lemma ewma_prefix l l' n : (n < List.length l)%nat -> ewma (l ++ l') n = ewma l n.
Proof.
  intros H. unfold ewma. rewrite app_nth1 by lia. f_equal. apply rsum_ext. intros k Hk. rewrite app_nth1 by lia. reflexivity.
Qed.

Lemma smooth_push_snoc l s x : smooth_push (l ++ [s]) x = ((l ++ [s]) ++ [s * (99 / 100) + x * (1 / 100)])%list.
Proof. unfold smooth_push. rewrite rev_app_distr. reflexivity. Qed.

Lemma smooth_eq ls : fold_left smooth_push ls [] = map (ewma ls) (seq 0 (List.length ls)).
Proof.
  induction ls as [|x ls IH] using rev_ind; [reflexivity|]. rewrite fold_left_app. cbn [fold_left]. rewrite IH.
  rewrite app_length. cbn [List.length]. rewrite Nat.add_1_r, seq_S. cbn [Nat.add]. rewrite map_app. cbn [map].
  assert (E : map (ewma (ls ++ [x])) (seq 0 (List.length ls)) = map (ewma ls) (seq 0 (List.length ls))).
  { apply map_seq_ext. intros i Hi. apply ewma_prefix. exact Hi. }
  rewrite E. destruct ls as [|y t] eqn:El using rev_ind; [unfold smooth_push, ewma; cbn; f_equal; lra|clear IHt].
  rewrite app_length. cbn [List.length]. rewrite Nat.add_1_r, seq_S. cbn [Nat.add]. rewrite map_app. cbn [map].
  rewrite smooth_push_snoc. f_equal. f_equal. rewrite ewma_step.
  rewrite app_nth2 by (rewrite app_length; cbn; lia). rewrite app_length. cbn [List.length]. replace (S (List.length t) - (List.length t + 1))%nat with 0%nat by lia. cbn [nth].
  rewrite (ewma_prefix (t ++ [y]) [x]) by (rewrite app_length; cbn; lia). ring.
Qed.

Lemma ewma_bounds l a b n : (n < List.length l)%nat -> (forall x, In x l -> a <= x <= b) -> a <= ewma l n <= b.
Proof.
  intros Hn Hl. induction n as [|n IH].
  - unfold ewma. cbn [pow rsum]. pose proof (Hl (nth 0 l 0) (nth_In _ _ Hn)). lra.
  - rewrite ewma_step. pose proof (Hl (nth (S n) l 0) (nth_In _ _ Hn)). specialize (IH ltac:(lia)). lra.
Qed.
