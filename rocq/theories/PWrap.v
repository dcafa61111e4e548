(** Proofs about the wrappers. *)
From Coq Require Import Reals Lra Lia List Arith ZArith Bool.
From Verif Require Import Base Tensor MCommon PTensor PDyn PKern MWrap SWrap.
Import ListNotations.
Open Scope R_scope.

(** ** Means and targets *)

Lemma lsum_bounds l lo hi : Forall (fun x => lo <= x <= hi) l ->
  INR (length l) * lo <= lsum l <= INR (length l) * hi.
Proof.
  induction 1; [simpl; lra|]. cbn [length]. rewrite S_INR. unfold lsum in *; simpl. lra.
Qed.

Lemma lmean_inv l m : lmean l = Ok m -> l <> [] /\ 0 < INR (length l) /\ m = lsum l / INR (length l).
Proof.
  destruct l; [discriminate|]. intros H. split; [congruence|]. split.
  - apply lt_0_INR. simpl; lia.
  - cbv beta delta [lmean] iota in H. congruence.
Qed.

Lemma lmean_bounds l m lo hi : Forall (fun x => lo <= x <= hi) l -> lmean l = Ok m -> lo <= m <= hi.
Proof.
  intros Hl E. apply lmean_inv in E as (_ & Hp & ->). pose proof (lsum_bounds l lo hi Hl) as [H1 H2].
  split; apply Rmult_le_reg_r with (INR (length l)); auto; unfold Rdiv;
    rewrite Rmult_assoc, Rinv_l, Rmult_1_r by lra; lra.
Qed.

Lemma gt_ind_01 th x : gt_ind th x = 0 \/ gt_ind th x = 1.
Proof. unfold gt_ind. destruct (Rlt_dec th x); auto. Qed.

Lemma gt_ind_1 th x : gt_ind th x = 1 <-> th < x.
Proof. unfold gt_ind. destruct (Rlt_dec th x); split; intros; try lra; auto. Qed.

Definition is01 (x : R) : Prop := x = 0 \/ x = 1.

Lemma is01_range l : Forall is01 l -> Forall (fun x => 0 <= x <= 1) l.
Proof. apply Forall_impl. intros x [->| ->]; lra. Qed.

Lemma mean_targets_01 th t l : mean_targets th t = Ok l -> Forall is01 l /\ length l = tB t.
Proof.
  unfold mean_targets. intros H. apply bind_ok in H as (u & _ & H). inversion H; subst l.
  rewrite map_length, seq_length. split; auto. apply Forall_forall. intros x Hx.
  apply in_map_iff in Hx as (b & <- & _). apply gt_ind_01.
Qed.

Lemma max_targets_01 th t l : max_targets th t = Ok l -> Forall is01 l /\ length l = tB t.
Proof.
  unfold max_targets. intros H. apply bind_ok in H as (u & _ & H). inversion H; subst l.
  rewrite map_length, seq_length. split; auto. apply Forall_forall. intros x Hx.
  apply in_map_iff in Hx as (b & <- & _). apply gt_ind_01.
Qed.

Lemma cat_targets_nth x y l : cat_targets x y = Ok l ->
  length x = length y /\ length l = (2 * length x)%nat /\
  forall b, (b < length x)%nat -> nth (2 * b) l 0 = nth b x 0 /\ nth (2 * b + 1) l 0 = nth b y 0.
Proof.
  unfold cat_targets. intros H. apply bind_ok in H as (u & Hu & H). apply guard_ok in Hu.
  apply Nat.eqb_eq in Hu. inversion H; subst l; clear H. split; auto.
  revert y Hu. induction x as [|a x IH]; intros [|c y] Hl; simpl in Hl; try discriminate.
  - split; [reflexivity|]. simpl; lia.
  - injection Hl as Hl. specialize (IH y Hl) as [I1 I2]. cbn [combine flat_map fst snd app]. split.
    + cbn [length]. rewrite I1. simpl; lia.
    + intros [|b] Hb; [split; reflexivity|]. cbn [length] in Hb.
      replace (2 * S b)%nat with (S (S (2 * b))) by lia.
      cbn [nth Nat.add]. apply I2. lia.
Qed.

Lemma cat_targets_01 x y l : Forall is01 x -> Forall is01 y -> cat_targets x y = Ok l -> Forall is01 l.
Proof.
  unfold cat_targets. intros Hx Hy H. apply bind_ok in H as (u & _ & H). inversion H; subst l.
  apply Forall_forall. intros z Hz. apply in_flat_map in Hz as ([p q] & Hp & Hz).
  pose proof (in_combine_l _ _ _ _ Hp). pose proof (in_combine_r _ _ _ _ Hp).
  rewrite Forall_forall in Hx, Hy. simpl in Hz. destruct Hz as [<-|[<-|[]]]; auto.
Qed.

Lemma eval_targets_01 mode g dg l : eval_targets mode g dg = Ok l -> Forall is01 l.
Proof.
  destruct mode as [|[|mode]]; cbn [eval_targets]; intros H.
  - apply max_targets_01 in H; tauto.
  - apply max_targets_01 in H; tauto.
  - apply bind_ok in H as (t0 & H0 & H). apply bind_ok in H as (t1 & H1 & H).
    apply max_targets_01 in H0. apply max_targets_01 in H1. eapply cat_targets_01; [| |exact H]; tauto.
Qed.

Lemma lmax_gt l th : l <> [] -> (th < lmax l <-> exists x, In x l /\ th < x).
Proof.
  intros Hl. split.
  - intros H. exists (lmax l). split; auto. apply lmax_in; auto.
  - intros (x & Hx & H). pose proof (lmax_ge l x Hx). lra.
Qed.

Lemma map_seq_nil {A} (f : nat -> A) n : (0 < n)%nat -> map f (seq 0 n) <> [].
Proof. destruct n; [lia|]. simpl. congruence. Qed.

Lemma sample_max_gt t b th : (0 < tC t)%nat -> (0 < tH t)%nat -> (0 < tW t)%nat ->
  (th < sample_max t b <-> some_above th t b).
Proof.
  intros HC HH HW. unfold sample_max, some_above.
  rewrite lmax_gt by (apply map_seq_nil; auto). split.
  - intros (x & Hx & Hl). apply in_map_iff in Hx as (c & <- & Hc). apply in_seq in Hc.
    apply lmax_gt in Hl as (y & Hy & Hl); [|apply map_seq_nil; auto].
    apply in_map_iff in Hy as (i & <- & Hi). apply in_seq in Hi.
    apply lmax_gt in Hl as (z & Hz & Hl); [|apply map_seq_nil; auto].
    apply in_map_iff in Hz as (j & <- & Hj). apply in_seq in Hj.
    exists c, i, j. repeat split; auto; lia.
  - intros (c & i & j & (Hc & Hi & Hj) & Hl).
    eexists; split; [apply in_map_iff; exists c; split; [reflexivity|apply in_seq; lia]|].
    apply lmax_gt; [apply map_seq_nil; auto|].
    eexists; split; [apply in_map_iff; exists i; split; [reflexivity|apply in_seq; lia]|].
    apply lmax_gt; [apply map_seq_nil; auto|].
    eexists; split; [apply in_map_iff; exists j; split; [reflexivity|apply in_seq; lia]|]. exact Hl.
Qed.

Lemma guard_pos C H W e u : guard (negb (Nat.eqb (C * H * W) 0)) e = Ok u ->
  (0 < C)%nat /\ (0 < H)%nat /\ (0 < W)%nat.
Proof.
  intros G. apply guard_ok in G. apply negb_true_iff, Nat.eqb_neq in G. destruct C, H, W; simpl in *; try lia.
Qed.

Lemma max_targets_nth th t l b : max_targets th t = Ok l -> (b < tB t)%nat ->
  is01 (nth b l 0) /\ (nth b l 0 = 1 <-> some_above th t b).
Proof.
  unfold max_targets. intros H Hb. apply bind_ok in H as (u & Hu & H). apply guard_pos in Hu as (H1 & H2 & H3).
  inversion H; subst l. rewrite nth_map_seq by auto. split; [apply gt_ind_01|].
  rewrite gt_ind_1. apply sample_max_gt; auto.
Qed.

Lemma sample_mean_density t b : (0 < tC t)%nat -> (0 < tH t)%nat -> (0 < tW t)%nat ->
  sample_mean t b = sample_density t b.
Proof.
  intros HC HH HW. unfold sample_mean, sample_density.
  apply lt_0_INR in HC as HC'. apply lt_0_INR in HH as HH'. apply lt_0_INR in HW as HW'.
  unfold Rdiv. rewrite rsum_scal_r.
  rewrite <- Nat.mul_assoc, !mult_INR. field. lra.
Qed.

Lemma mean_targets_nth th t l b : mean_targets th t = Ok l -> (b < tB t)%nat ->
  is01 (nth b l 0) /\ (nth b l 0 = 1 <-> th < sample_density t b).
Proof.
  unfold mean_targets. intros H Hb. apply bind_ok in H as (u & Hu & H). apply guard_pos in Hu as (H1 & H2 & H3).
  inversion H; subst l. rewrite nth_map_seq by auto. split; [apply gt_ind_01|].
  rewrite gt_ind_1, sample_mean_density by auto. reflexivity.
Qed.

Lemma nonneg_get t b c i j : nonneg t -> 0 <= get t b c i j.
Proof.
  intros H. unfold get. destruct (Nat.lt_ge_cases (((b * tC t + c) * tH t + i) * tW t + j) (length (tdata t))) as [L|L].
  - unfold nonneg in H. rewrite Forall_forall in H. apply H. apply nth_In; auto.
  - rewrite nth_overflow by auto. lra.
Qed.

Lemma sample_density_pos t b : nonneg t -> (0 < tC t)%nat -> (0 < tH t)%nat -> (0 < tW t)%nat ->
  (0 < sample_density t b <-> some_above 0 t b).
Proof.
  intros Hn HC HH HW. unfold sample_density.
  assert (Hd : 0 < INR (tC t * tH t * tW t)) by (apply lt_0_INR; nia).
  set (s := rsum (tC t) _).
  assert (Hs : 0 <= s).
  { unfold s. apply rsum_nonneg; intros; apply rsum_nonneg; intros; apply rsum_nonneg; intros; apply nonneg_get; auto. }
  split.
  - intros H. destruct (Rle_lt_dec s 0) as [L|L].
    + replace s with 0 in H by lra. unfold Rdiv in H. rewrite Rmult_0_l in H. lra.
    + destruct (Classical_Prop.classic (some_above 0 t b)) as [|N]; auto. exfalso.
      assert (s = 0); [|lra]. unfold s. apply rsum_0; intros c Hc; apply rsum_0; intros i Hi; apply rsum_0; intros j Hj.
      pose proof (nonneg_get t b c i j Hn) as [G|G]; auto. exfalso. apply N. exists c, i, j. auto.
  - intros (c & i & j & (Hc & Hi & Hj) & G).
    apply Rmult_lt_reg_r with (INR (tC t * tH t * tW t)); auto.
    unfold Rdiv. rewrite Rmult_0_l, Rmult_assoc, Rinv_l, Rmult_1_r by lra.
    eapply Rlt_le_trans; [exact G|]. unfold s.
    eapply Rle_trans; [|apply (rsum_term_le (tC t) c)]; auto.
    2:{ intros; apply rsum_nonneg; intros; apply rsum_nonneg; intros; apply nonneg_get; auto. }
    eapply Rle_trans; [|apply (rsum_term_le (tH t) i)]; auto.
    2:{ intros; apply rsum_nonneg; intros; apply nonneg_get; auto. }
    apply (rsum_term_le (tW t) j (fun j => get t b c i j)); auto. intros; apply nonneg_get; auto.
Qed.

(** ** SimpleHaltingWrapper *)

Lemma sqrt_sq_abs x : sqrt (x ^ 2) = Rabs x.
Proof. rewrite <- Rsqr_pow2. apply sqrt_Rsqr_abs. Qed.

Section Roll.
  Variable St : Type.
  Variable ca : St -> tensor -> res (St * tensor).

  Lemma simple_reward dim n s rand r reward active :
    simple_step St ca dim n s rand = Ok (r, reward, active) ->
    0 <= active <= 1 /\ reward = - Rabs (5001 / 10000 - active) /\ - (5001 / 10000) <= reward <= 0.
  Proof.
    unfold simple_step. intros H. apply bind_ok in H as (r0 & H0 & H). apply bind_ok in H as (tg & Ht & H).
    apply bind_ok in H as (a & Ha & H). apply Ok_inj, pair_equal_spec in H as [H <-].
    apply pair_equal_spec in H as [_ <-].
    apply mean_targets_01 in Ht as [Ht _]. apply is01_range in Ht.
    pose proof (lmean_bounds _ _ _ _ Ht Ha) as Hb. split; auto.
    rewrite sqrt_sq_abs. unfold alive_target. split; auto.
    pose proof (Rabs_pos (5001 / 10000 - a)). split; [|lra].
    assert (Rabs (5001 / 10000 - a) <= 5001 / 10000); [|lra].
    apply Rabs_le. lra.
  Qed.

  Lemma lsum_01_nth l : Forall is01 l ->
    lsum l = rcount (length l) (fun k => if Req_EM_T (nth k l 0) 1 then true else false).
  Proof.
    intros H. rewrite lsum_nth. unfold rcount. apply rsum_ext. intros k Hk.
    rewrite Forall_forall in H. destruct (H (nth k l 0) (nth_In _ _ Hk)) as [E|E]; rewrite E.
    - destruct (Req_EM_T 0 1); lra.
    - destruct (Req_EM_T 1 1); lra.
  Qed.

  Lemma simple_active dim n s rand s' g reward active :
    simple_step St ca dim n s rand = Ok (s', g, reward, active) -> nonneg g ->
    (0 < tB g)%nat /\
    exists p, (forall b, (b < tB g)%nat -> (p b = true <-> some_above 0 g b)) /\
              active = rcount (tB g) p / INR (tB g).
  Proof.
    unfold simple_step. intros H Hn. apply bind_ok in H as (r0 & H0 & H). apply bind_ok in H as (tg & Ht & H).
    apply bind_ok in H as (a & Ha & H). inversion H; subst; clear H. cbn [snd] in *.
    pose proof (mean_targets_01 _ _ _ Ht) as [Hi Hl]. apply lmean_inv in Ha as (Hne & Hp & ->).
    split; [destruct tg; [congruence|rewrite <- Hl; simpl; lia]|].
    exists (fun k => if Req_EM_T (nth k tg 0) 1 then true else false). split.
    - intros b Hb. pose proof (mean_targets_nth _ _ _ _ Ht Hb) as [_ Hx].
      unfold mean_targets in Ht. apply bind_ok in Ht as (u & Hu & _). apply guard_pos in Hu as (H1 & H2 & H3).
      rewrite sample_density_pos in Hx by auto. rewrite <- Hx.
      destruct (Req_EM_T (nth b tg 0) 1); split; intros; auto; try discriminate; contradiction.
    - rewrite lsum_01_nth, Hl by auto. reflexivity.
  Qed.

  Lemma rcount_nat n p : exists k, (k <= n)%nat /\ rcount n p = INR k.
  Proof.
    induction n; [exists 0%nat; split; [lia|reflexivity]|].
    destruct IHn as (k & Hk & E). unfold rcount in *. rewrite rsum_S, E. destruct (p n).
    - exists (S k). split; [lia|]. rewrite S_INR. reflexivity.
    - exists k. split; [lia|]. lra.
  Qed.

  Lemma simple_negative dim n s rand s' g reward active :
    simple_step St ca dim n s rand = Ok (s', g, reward, active) -> (Z.of_nat (tB g) < 10000)%Z -> reward < 0.
  Proof.
    intros H Hb. pose proof (simple_reward _ _ _ _ _ _ _ H) as (_ & Er & _).
    unfold simple_step in H. apply bind_ok in H as (r0 & H0 & H). apply bind_ok in H as (tg & Ht & H).
    apply bind_ok in H as (a & Ha & H). apply Ok_inj, pair_equal_spec in H as [H Eact].
    apply pair_equal_spec in H as [Er0 _]. subst r0 active. cbn [snd] in *.
    pose proof (mean_targets_01 _ _ _ Ht) as [Hi Hl]. apply lmean_inv in Ha as (Hne & Hp & Ea).
    rewrite lsum_01_nth, Hl in Ea by auto. rewrite Hl in Hp.
    destruct (rcount_nat (tB g) (fun k => if Req_EM_T (nth k tg 0) 1 then true else false)) as (k & Hk & Ek).
    rewrite Ek in Ea. rewrite Er.
    assert (Hne2 : 5001 / 10000 - a <> 0).
    { intros E. assert (E2 : 5001 * INR (tB g) = 10000 * INR k).
      { assert (Ea2 : a * INR (tB g) = INR k) by (rewrite Ea; unfold Rdiv; rewrite Rmult_assoc, Rinv_l; lra).
        rewrite <- Ea2. replace a with (5001 / 10000) by lra. field. }
      rewrite !INR_IZR_INZ, <- !mult_IZR in E2. apply eq_IZR in E2.
      assert (D : (10000 | Z.of_nat (tB g))%Z).
      { apply Z.gauss with 5001%Z; [exists (Z.of_nat k); lia|reflexivity]. }
      destruct D as [q Dq]. assert (0 < tB g)%nat by (apply INR_lt; simpl; lra). lia. }
    pose proof (Rabs_pos_lt _ Hne2). lra.
  Qed.

  (** ** Accuracy *)

  Lemma accuracy_bounds p t a : get_accuracy p t = Ok a -> 0 <= a <= 1.
  Proof.
    unfold get_accuracy. intros H. apply bind_ok in H as (u & _ & H).
    eapply lmean_bounds; [|exact H]. apply is01_range, Forall_forall. intros x Hx.
    apply in_map_iff in Hx as (q & <- & _). destruct (Req_EM_T _ _); [right|left]; auto.
  Qed.

  Lemma Int_part_unique x z : IZR z <= x < IZR z + 1 -> Int_part x = z.
  Proof.
    intros H. unfold Int_part. assert (up x = (z + 1)%Z); [|lia].
    symmetry. apply tech_up; rewrite plus_IZR; lra.
  Qed.

  Lemma round_class x : 0 <= x <= 1 ->
    clamp 0 1 (IZR (round_even x)) = if Rlt_dec (1 / 2) x then 1 else 0.
  Proof.
    intros Hx. unfold round_even.
    destruct (Req_dec x 1) as [->|Hn].
    - rewrite (Int_part_unique 1 1) by (simpl; lra). replace (1 - IZR 1) with 0 by (simpl; lra).
      destruct (Rlt_dec 0 (1 / 2)); [|lra]. destruct (Rlt_dec (1 / 2) 1); [|lra].
      apply clamp_id. lra.
    - rewrite (Int_part_unique x 0) by (simpl; lra). replace (x - IZR 0) with x by (simpl; lra).
      destruct (Rlt_dec x (1 / 2)); destruct (Rlt_dec (1 / 2) x); try lra.
      + apply clamp_id. lra.
      + apply clamp_id. lra.
      + cbn [Z.even]. apply clamp_id. lra.
  Qed.

  (** Outside of the unit interval the classes saturate. *)
  Lemma round_class_any x : clamp 0 1 (IZR (round_even x)) = if Rlt_dec (1 / 2) x then 1 else 0.
  Proof.
    destruct (Rle_lt_dec 0 x) as [L|L]; [destruct (Rle_lt_dec x 1) as [M|M]|].
    - apply round_class; auto.
    - assert (1 <= IZR (round_even x)).
      { unfold round_even. destruct (base_Int_part x) as [I1 I2].
        assert (0 < Int_part x)%Z by (apply lt_IZR; simpl; lra).
        assert (1 <= IZR (Int_part x)) by (apply (IZR_le 1); lia).
        destruct (Rlt_dec _ _); auto. destruct (Rlt_dec _ _); [rewrite plus_IZR; lra|].
        destruct (Z.even _); [auto|rewrite plus_IZR; lra]. }
      rewrite clamp_hi by lra. destruct (Rlt_dec (1 / 2) x); lra.
    - assert (IZR (round_even x) <= 0).
      { unfold round_even. destruct (base_Int_part x) as [I1 I2].
        assert (Int_part x < 0)%Z by (apply lt_IZR; simpl; lra).
        assert (IZR (Int_part x) + 1 <= 0) by (rewrite <- plus_IZR; apply (IZR_le _ 0); lia).
        destruct (Rlt_dec _ _); [lra|]. destruct (Rlt_dec _ _); [rewrite plus_IZR; lra|].
        destruct (Z.even _); [lra|rewrite plus_IZR; lra]. }
      rewrite clamp_lo by lra. destruct (Rlt_dec (1 / 2) x); lra.
  Qed.

  Lemma accuracy_agreement p t a : get_accuracy p t = Ok a ->
    length p = length t /\ (0 < length t)%nat /\
    a = rcount (length t) (fun k => Bool.eqb (if Rlt_dec (1 / 2) (nth k p 0) then true else false)
                                             (if Rlt_dec (1 / 2) (nth k t 0) then true else false))
        / INR (length t).
  Proof.
    unfold get_accuracy. intros H. apply bind_ok in H as (u & Hu & H). apply guard_ok, Nat.eqb_eq in Hu.
    apply lmean_inv in H as (Hne & Hp & ->). rewrite map_length, combine_length, Hu, Nat.min_id in *.
    split; auto. split; [apply INR_lt; exact Hp|]. f_equal.
    rewrite lsum_nth, map_length, combine_length, Hu, Nat.min_id. unfold rcount. apply rsum_ext.
    intros k Hk.
    set (h := fun q : R * R => if Req_EM_T (clamp 0 1 (IZR (round_even (snd q)))) (clamp 0 1 (IZR (round_even (fst q)))) then 1 else 0).
    change (nth k (map h (combine p t)) 0 = if Bool.eqb (if Rlt_dec (1 / 2) (nth k p 0) then true else false)
                                             (if Rlt_dec (1 / 2) (nth k t 0) then true else false) then 1 else 0).
    rewrite (nth_indep (map h (combine p t)) 0 (h (0, 0))) by (rewrite map_length, combine_length; lia).
    rewrite map_nth, combine_nth by auto. unfold h. cbn [fst snd]. rewrite !round_class_any.
    destruct (Rlt_dec (1 / 2) (nth k p 0)); destruct (Rlt_dec (1 / 2) (nth k t 0)); cbn [Bool.eqb];
      destruct (Req_EM_T _ _); lra.
  Qed.

  Variable Net : Type.
  Variable net_forward : bool -> Net -> tensor -> res (list R).
  Variable net_learn : Net -> tensor -> list R -> Net.
  Variable ca_reset : St -> St.

  Lemma halting_reward mode n s net rand s' w pred target reward active :
    halting_step St ca Net net_forward net_learn ca_reset mode n s net rand = Ok (s', w, pred, target, reward, active) ->
    -1 <= reward <= 0 /\ 0 <= active <= 1 /\ length pred = length target /\ Forall is01 target /\
    Forall (fun x => 0 <= x <= 1) pred /\
    get_accuracy pred target = Ok (- reward) /\ lmean target = Ok active.
  Proof.
    unfold halting_step. destruct net as [w0|]; [|discriminate]. intros H.
    apply bind_ok in H as (st & _ & H). apply bind_ok in H as (r & Hr & H).
    destruct r as [[[[s1 p1] t1] r1] a1]. inversion H; subst; clear H.
    unfold evaluate in Hr. apply bind_ok in Hr as (g0 & _ & H). apply bind_ok in H as (p0 & _ & H). apply bind_ok in H as (g1 & _ & H).
    apply bind_ok in H as (d & _ & H). apply bind_ok in H as (t & Ht & H).
    apply bind_ok in H as (u & Hu & H). apply bind_ok in H as (a & Ha & H).
    apply bind_ok in H as (act & Hact & H). inversion H; subst; clear H.
    pose proof (accuracy_bounds _ _ _ Ha). pose proof (eval_targets_01 _ _ _ _ Ht) as H01.
    pose proof (lmean_bounds _ _ _ _ (is01_range _ H01) Hact).
    pose proof (accuracy_agreement _ _ _ Ha) as (Hl & _).
    rewrite Ropp_involutive. repeat (split; auto); try lra.
    unfold bce_accepts in Hu. apply bind_ok in Hu as (u2 & _ & Hu). apply guard_ok in Hu.
    rewrite forallb_forall in Hu. apply Forall_forall. intros x Hx. specialize (Hu x Hx).
    destruct (Rle_dec 0 x); [|discriminate]. destruct (Rle_dec x 1); [lra|discriminate].
  Qed.

  (** ** Early exit *)

  Lemma break_sound stop (inv : tensor -> Prop) :
    (forall s g s' g', inv g -> ca s g = Ok (s', g') ->
       inv g' /\ exists b, stop g' = Ok b /\
                           (b = true -> forall s2, exists s3, ca s2 g' = Ok (s3, g'))) ->
    forall n s g, inv g -> rmap snd (break_loop St ca stop n s g) = rmap snd (ca_run St ca n s g).
  Proof.
    intros Hstep. induction n; intros s g Hg; [reflexivity|].
    cbn [break_loop ca_run]. destruct (ca s g) as [[s' g']|e] eqn:E; [|reflexivity].
    cbn [bind fst snd]. destruct (Hstep s g s' g' Hg E) as (Hi & b & Hb & Hfix). rewrite Hb. cbn [bind].
    destruct b; [|apply IHn; auto]. specialize (Hfix eq_refl).
    cbn [rmap snd]. assert (HF : forall m s2, rmap snd (ca_run St ca m s2 g') = Ok g').
    { induction m; intros s2; [reflexivity|]. cbn [ca_run]. destruct (Hfix s2) as (s3 & ->). cbn [bind fst snd]. apply IHm. }
    rewrite HF. reflexivity.
  Qed.

  Lemma while_sound (inv : tensor -> Prop) :
    (forall s g s' g', inv g -> ca s g = Ok (s', g') -> inv g') ->
    (forall g, inv g -> exists m, tmean g = Ok m /\ (~ 0 < m -> forall s2, exists s3, ca s2 g = Ok (s3, g))) ->
    forall n s g, inv g -> rmap snd (while_loop St ca n s g) = rmap snd (ca_run St ca n s g).
  Proof.
    intros Hstep Hm. induction n; intros s g Hg; [reflexivity|].
    cbn [while_loop]. destruct (Hm g Hg) as (m & E & Hz). rewrite E. cbn [bind].
    destruct (Rlt_dec 0 m) as [L|L].
    - cbn [ca_run]. destruct (ca s g) as [[s' g']|e] eqn:Eg; [|reflexivity]. cbn [bind fst snd].
      apply IHn. eapply Hstep; eauto.
    - specialize (Hz L). assert (HF : forall k s2, rmap snd (ca_run St ca k s2 g) = Ok g).
      { induction k; intros s2; [reflexivity|]. cbn [ca_run]. destruct (Hz s2) as (s3 & ->). cbn [bind fst snd]. apply IHk. }
      rewrite HF. reflexivity.
  Qed.

  Lemma lsum_nonneg_zero l : Forall (fun x => 0 <= x) l -> lsum l <= 0 -> Forall (fun x => x = 0) l.
  Proof.
    induction 1 as [|x l Hx Hl IH]; [constructor|]. unfold lsum in *; simpl. intros Hs.
    assert (0 <= lsum l).
    { clear - Hl. induction Hl; unfold lsum in *; simpl; lra. }
    unfold lsum in *. constructor; [lra|]. apply IH. lra.
  Qed.

  Lemma all_zero_grid B C H W t : shape t = (B, C, H, W) -> twf t -> Forall (fun x => x = 0) (tdata t) ->
    t = zero_grid B C H W.
  Proof.
    intros Hs Ht Hz. apply tensor_ext; auto; [apply twf_build|].
    intros b c i j Hb Hc Hi Hj. rewrite get_zero_grid.
    rewrite Forall_forall in Hz. apply Hz. apply get_in_data; auto.
  Qed.

  Section Shaped.
    Variables B C H W : nat.
    Hypothesis pos : (0 < B * C * H * W)%nat.
    Hypothesis keeps : forall s u s' u', shape u = (B, C, H, W) -> twf u -> ca s u = Ok (s', u') ->
      shape u' = (B, C, H, W) /\ twf u' /\ nonneg u'.
    Hypothesis zero_stays : forall s, exists s', ca s (zero_grid B C H W) = Ok (s', zero_grid B C H W).

    Lemma data_pos u : shape u = (B, C, H, W) -> twf u -> tdata u <> [] /\ 0 < INR (length (tdata u)).
    Proof using pos.
      clear keeps zero_stays. unfold shape, twf. intros Hs Hu. assert (length (tdata u) = (B * C * H * W)%nat) as E.
      { rewrite Hu. inversion Hs; subst. reflexivity. }
      split; [intros Hn; rewrite Hn in E; simpl in E; lia|]. rewrite E. apply lt_0_INR. exact pos.
    Qed.

    Lemma mean_zero u : shape u = (B, C, H, W) -> twf u -> nonneg u ->
      exists m, tmean u = Ok m /\ 0 <= m /\ (m <= 0 -> u = zero_grid B C H W).
    Proof using pos.
      intros Hs Hu Hn. destruct (data_pos u Hs Hu) as [Hne Hp]. unfold tmean.
      exists (lsum (tdata u) / INR (length (tdata u))). split; [destruct (tdata u); [congruence|reflexivity]|].
      assert (H0 : 0 <= lsum (tdata u)).
      { clear - Hn. induction Hn; unfold lsum in *; simpl; lra. }
      split.
      - apply Rmult_le_reg_r with (INR (length (tdata u))); auto. unfold Rdiv.
        rewrite Rmult_0_l, Rmult_assoc, Rinv_l by lra. lra.
      - intros Hm. apply all_zero_grid; auto. apply lsum_nonneg_zero; auto.
        apply Rmult_le_compat_r with (r := INR (length (tdata u))) in Hm; [|lra].
        unfold Rdiv in Hm. rewrite Rmult_0_l, Rmult_assoc, Rinv_l in Hm by lra. lra.
    Qed.

    Lemma simple_exit n s g : shape g = (B, C, H, W) -> twf g ->
      rmap snd (break_loop St ca mean_stop n s g) = rmap snd (ca_run St ca n s g).
    Proof using pos keeps zero_stays.
      intros Hs Hg. apply break_sound with (inv := fun u => shape u = (B, C, H, W) /\ twf u); [|auto].
      intros s1 u s' u' [Hu1 Hu2] E. destruct (keeps _ _ _ _ Hu1 Hu2 E) as (H1 & H2 & H3). split; [auto|].
      destruct (mean_zero u' H1 H2 H3) as (m & Em & Hm & Hz). unfold mean_stop. rewrite Em. cbn [bind].
      eexists; split; [reflexivity|]. destruct (Rle_dec m 0) as [L|L]; [|discriminate].
      intros _ s2. rewrite (Hz L). apply zero_stays.
    Qed.

    Lemma eval_exit n s g : shape g = (B, C, H, W) -> twf g ->
      rmap snd (break_loop St ca max_stop n s g) = rmap snd (ca_run St ca n s g).
    Proof using pos keeps zero_stays.
      intros Hs Hg. apply break_sound with (inv := fun u => shape u = (B, C, H, W) /\ twf u); [|auto].
      intros s1 u s' u' [Hu1 Hu2] E. destruct (keeps _ _ _ _ Hu1 Hu2 E) as (H1 & H2 & H3). split; [auto|].
      destruct (data_pos u' H1 H2) as [Hne _]. unfold max_stop, tmax.
      destruct (tdata u') as [|x l] eqn:Ed; [congruence|]. cbn [bind].
      eexists; split; [reflexivity|]. destruct (Req_EM_T (lmax (x :: l)) 0) as [L|L]; [|discriminate].
      intros _ s2. replace u' with (zero_grid B C H W); [apply zero_stays|]. symmetry.
      apply all_zero_grid; auto. rewrite Ed. apply Forall_forall. intros y Hy.
      pose proof (lmax_ge _ _ Hy). unfold nonneg in H3. rewrite Ed, Forall_forall in H3. specialize (H3 y Hy). lra.
    Qed.

    Lemma train_exit n s g : shape g = (B, C, H, W) -> twf g -> nonneg g ->
      rmap snd (while_loop St ca n s g) = rmap snd (ca_run St ca n s g).
    Proof using pos keeps zero_stays.
      intros Hs Hg Hn. apply while_sound with (inv := fun u => shape u = (B, C, H, W) /\ twf u /\ nonneg u); [| |auto].
      - intros s1 u s' u' (Hu1 & Hu2 & _) E. eapply keeps; eauto.
      - intros u (H1 & H2 & H3). destruct (mean_zero u H1 H2 H3) as (m & Em & Hm & Hz).
        exists m. split; auto. intros L s2. rewrite Hz by lra. apply zero_stays.
    Qed.
  End Shaped.

  (** ** How often the automaton is called *)
  Section Count.
    Variable calls : St -> nat.
    Hypothesis counted : forall s g s' g', ca s g = Ok (s', g') ->
      calls s' = S (calls s) /\ exists m, tmean g' = Ok m /\ 0 < m /\ exists x, tmax g' = Ok x /\ x <> 0.
    Hypothesis reset_keeps : forall s, calls (ca_reset s) = calls s.

    Lemma ca_run_calls n : forall s g r, ca_run St ca n s g = Ok r -> calls (fst r) = (n + calls s)%nat.
    Proof using counted.
      induction n; intros s g r E; [inversion E; reflexivity|]. cbn [ca_run] in E.
      apply bind_ok in E as ([s1 g1] & E1 & E2). apply IHn in E2. destruct (counted _ _ _ _ E1) as [C1 _].
      cbn [fst] in *. lia.
    Qed.

    Lemma ca_run_alive n s g r : ca_run St ca (S n) s g = Ok r -> exists m, tmean (snd r) = Ok m /\ 0 < m.
    Proof using counted.
      revert s g. induction n; intros s g E; cbn [ca_run] in E; apply bind_ok in E as ([s1 g1] & E1 & E2).
      - inversion E2; subst r. destruct (counted _ _ _ _ E1) as (_ & m & Hm & Hp & _). exists m; auto.
      - apply (IHn _ _ E2).
    Qed.

    Lemma break_calls_mean n : forall s g r, break_loop St ca mean_stop n s g = Ok r -> calls (fst r) = (n + calls s)%nat.
    Proof using counted.
      induction n; intros s g r E; [inversion E; reflexivity|]. cbn [break_loop] in E.
      apply bind_ok in E as ([s1 g1] & E1 & E2). destruct (counted _ _ _ _ E1) as (C1 & m & Hm & Hp & _).
      unfold mean_stop at 1 in E2. cbn [snd fst] in E2. rewrite Hm in E2. cbn [bind] in E2.
      destruct (Rle_dec m 0); [lra|]. apply IHn in E2. lia.
    Qed.

    Lemma break_calls_max n : forall s g r, break_loop St ca max_stop n s g = Ok r -> calls (fst r) = (n + calls s)%nat.
    Proof using counted.
      induction n; intros s g r E; [inversion E; reflexivity|]. cbn [break_loop] in E.
      apply bind_ok in E as ([s1 g1] & E1 & E2). destruct (counted _ _ _ _ E1) as (C1 & m & Hm & Hp & x & Hx & Hnz).
      unfold max_stop at 1 in E2. cbn [snd fst] in E2. rewrite Hx in E2. cbn [bind] in E2.
      destruct (Req_EM_T x 0); [contradiction|]. apply IHn in E2. lia.
    Qed.

    Lemma while_calls n : forall s g r, (exists m, tmean g = Ok m /\ 0 < m) ->
      while_loop St ca n s g = Ok r -> calls (fst r) = (n + calls s)%nat.
    Proof using counted.
      induction n; intros s g r (m & Hm & Hp) E; [inversion E; reflexivity|]. cbn [while_loop] in E.
      rewrite Hm in E. cbn [bind] in E. destruct (Rlt_dec 0 m); [|lra].
      apply bind_ok in E as ([s1 g1] & E1 & E2). destruct (counted _ _ _ _ E1) as (C1 & m1 & Hm1 & Hp1 & _).
      cbn [fst snd] in E2. apply IHn in E2; [|eauto]. lia.
    Qed.

    Lemma dgrid_calls s g r : dgrid_of St ca s g = Ok r -> calls (fst r) = S (calls s).
    Proof using counted.
      unfold dgrid_of. intros E. apply bind_ok in E as ([s1 g1] & E1 & E). apply bind_ok in E as (d & _ & E).
      inversion E; subst r. destruct (counted _ _ _ _ E1). auto.
    Qed.

    Lemma train_once_calls mode n st rand st' :
      train_once St ca Net net_forward net_learn ca_reset mode n st rand = Ok st' ->
      calls (fst st') = (9 + n + calls (fst st))%nat.
    Proof using counted reset_keeps.
      unfold train_once. intros E. apply bind_ok in E as (r & Er & E). apply bind_ok in E as (p0 & _ & E). apply bind_ok in E as (r1 & Er1 & E).
      apply bind_ok in E as (d & Ed & E). apply bind_ok in E as (t & _ & E). apply bind_ok in E as (u & _ & E).
      inversion E; subst st'. cbn [fst].
      pose proof (ca_run_alive 7 _ _ _ Er) as Ha. apply ca_run_calls in Er. apply while_calls in Er1; auto.
      apply dgrid_calls in Ed. rewrite reset_keeps in Er. unfold bigbang_steps in Er. lia.
    Qed.

    Lemma train_all_calls mode n k : forall rand st st',
      train_all St ca Net net_forward net_learn ca_reset mode n k rand st = Ok st' ->
      calls (fst st') = (k * (9 + n) + calls (fst st))%nat.
    Proof using counted reset_keeps.
      induction k; intros rand st st' E; [inversion E; reflexivity|]. cbn [train_all] in E.
      apply bind_ok in E as (s1 & E1 & E2). apply IHk in E2. apply train_once_calls in E1. lia.
    Qed.

    Lemma halting_calls mode n s net rand s' w pred target reward active :
      halting_step St ca Net net_forward net_learn ca_reset mode n s net rand = Ok (s', w, pred, target, reward, active) ->
      calls s' = (9 * (9 + n) + calls s)%nat.
    Proof using counted reset_keeps.
      unfold halting_step. destruct net as [w0|]; [|discriminate]. intros H.
      apply bind_ok in H as (st & Hst & H). apply bind_ok in H as (r & Hr & H).
      destruct r as [[[[s1 p1] t1] r1] a1]. inversion H; subst; clear H.
      apply train_all_calls in Hst. cbn [fst] in Hst.
      unfold evaluate in Hr. apply bind_ok in Hr as (g0 & Hg0 & H). apply bind_ok in H as (p0 & _ & H). apply bind_ok in H as (g1 & Hg1 & H).
      apply bind_ok in H as (d & Hd & H). apply bind_ok in H as (t & Ht & H).
      apply bind_ok in H as (u & Hu & H). apply bind_ok in H as (a & Ha & H).
      apply bind_ok in H as (act & Hact & H). inversion H; subst; clear H.
      apply ca_run_calls in Hg0. apply break_calls_max in Hg1. apply dgrid_calls in Hd.
      unfold bigbang_steps, train_steps in *. lia.
    Qed.
  End Count.
End Roll.

(** ** Centred grids *)

Lemma neg_from_spec half n : neg_from half n = if Nat.eqb half 0 then 0%nat else (n - half)%nat.
Proof. reflexivity. Qed.

Lemma shape_zero_rows lo hi t : shape (zero_rows lo hi t) = shape t /\ twf (zero_rows lo hi t).
Proof. split; [reflexivity|apply twf_build]. Qed.

Lemma get_zero_rows lo hi t b c i j : (b < tB t)%nat -> (c < tC t)%nat -> (i < tH t)%nat -> (j < tW t)%nat ->
  get (zero_rows lo hi t) b c i j = if Nat.leb lo i && Nat.ltb i hi then 0 else get t b c i j.
Proof.
  intros. unfold zero_rows. rewrite get_build by auto.
  destruct (Nat.leb lo i && Nat.ltb i hi); [ring|reflexivity].
Qed.

Lemma get_zero_cols lo hi t b c i j : (b < tB t)%nat -> (c < tC t)%nat -> (i < tH t)%nat -> (j < tW t)%nat ->
  get (zero_cols lo hi t) b c i j = if Nat.leb lo j && Nat.ltb j hi then 0 else get t b c i j.
Proof.
  intros. unfold zero_cols. rewrite get_build by auto.
  destruct (Nat.leb lo j && Nat.ltb j hi); [ring|reflexivity].
Qed.

Lemma get_centre dim t b c i j : (b < tB t)%nat -> (c < tC t)%nat -> (i < tH t)%nat -> (j < tW t)%nat ->
  get (centre dim t) b c i j =
  if (Nat.leb (neg_from (dim / 4) (tW t)) j || Nat.leb (neg_from (dim / 4) (tH t)) i
      || Nat.ltb j (dim / 4) || Nat.ltb i (dim / 4))%bool then 0 else get t b c i j.
Proof.
  intros Hb Hc Hi Hj. unfold centre. cbv zeta. set (h := (dim / 4)%nat).
  rewrite get_zero_cols by auto. cbn [tW zero_rows zero_cols build].
  replace (Nat.ltb j (tW t)) with true by (symmetry; apply Nat.ltb_lt; auto). rewrite andb_true_r.
  destruct (Nat.leb (neg_from h (tW t)) j); [reflexivity|].
  rewrite get_zero_rows by auto. cbn [tH zero_rows zero_cols build].
  replace (Nat.ltb i (tH t)) with true by (symmetry; apply Nat.ltb_lt; auto). rewrite andb_true_r.
  destruct (Nat.leb (neg_from h (tH t)) i); [reflexivity|].
  rewrite get_zero_cols by auto. cbn [Nat.leb andb orb].
  destruct (Nat.ltb j h); [reflexivity|].
  rewrite get_zero_rows by auto. cbn [Nat.leb andb orb]. reflexivity.
Qed.

Lemma centre_shape dim t : shape (centre dim t) = shape t /\ twf (centre dim t).
Proof. split; [reflexivity|apply twf_build]. Qed.

Lemma centre_kept dim t b c i j : tH t = dim -> tW t = dim -> (4 <= dim)%nat ->
  (b < tB t)%nat -> (c < tC t)%nat -> (i < dim)%nat -> (j < dim)%nat ->
  (in_middle dim i /\ in_middle dim j -> get (centre dim t) b c i j = get t b c i j) /\
  (~ (in_middle dim i /\ in_middle dim j) -> get (centre dim t) b c i j = 0).
Proof.
  intros HH HW Hd Hb Hc Hi Hj. rewrite get_centre by congruence.
  assert (Hh : (1 <= dim / 4)%nat) by (apply Nat.div_le_lower_bound; lia).
  unfold neg_from. replace (Nat.eqb (dim / 4) 0) with false by (symmetry; apply Nat.eqb_neq; lia).
  rewrite HH, HW. unfold in_middle. generalize dependent (dim / 4)%nat. intros h Hh.
  destruct (Nat.leb_spec (dim - h) j), (Nat.leb_spec (dim - h) i), (Nat.ltb_spec j h), (Nat.ltb_spec i h);
    cbn [orb]; split; intros; try reflexivity; lia.
Qed.

Lemma centre_small dim t b c i j : (dim < 4)%nat ->
  (b < tB t)%nat -> (c < tC t)%nat -> (i < tH t)%nat -> (j < tW t)%nat -> get (centre dim t) b c i j = 0.
Proof.
  intros Hd Hb Hc Hi Hj. rewrite get_centre by auto. rewrite (Nat.div_small dim 4) by auto.
  cbn [neg_from Nat.eqb Nat.leb orb]. reflexivity.
Qed.

Lemma centre_zero_grid dim B C H W : (dim < 4)%nat -> forall t, shape t = (B, C, H, W) -> centre dim t = zero_grid B C H W.
Proof.
  intros Hd t Hs. destruct (centre_shape dim t) as [S1 S2].
  assert (S3 : shape (centre dim t) = (B, C, H, W)) by congruence.
  apply tensor_ext; auto; [apply twf_build|]. intros b c i j Hb Hc Hi Hj. rewrite get_zero_grid.
  apply centre_small; auto.
Qed.

(** ** GliderWrapper *)

Lemma tmean_density t m : twf t -> tmean t = Ok m -> m = density t /\ inhabited t.
Proof.
  intros Ht E. apply lmean_inv in E as (Hn & Hp & ->). unfold density, mass, inhabited.
  rewrite Ht in *. split.
  - f_equal. fold (tsum t). rewrite tsum_get by auto. reflexivity.
  - apply INR_lt. exact Hp.
Qed.

Lemma tmean_ok t : twf t -> inhabited t -> tmean t = Ok (density t).
Proof.
  intros Ht Hi. unfold tmean, density, inhabited in *. rewrite <- Ht in *.
  unfold lmean. destruct (tdata t) as [|x l] eqn:E; [simpl in Hi; lia|].
  rewrite <- E. do 2 f_equal. unfold mass. fold (tsum t). rewrite tsum_get by auto. reflexivity.
Qed.

Lemma y_grid_inv dim r yg : y_grid dim r = Ok yg -> r <> 0 /\ yg = build 1 1 dim dim (fun _ _ _ j => INR j / r).
Proof. unfold y_grid. destruct (Req_EM_T r 0); [discriminate|]. intros E. inversion E. auto. Qed.

Lemma prod_sum dim r C u : (0 < tB u)%nat -> tC u = C -> tH u = dim -> tW u = dim ->
  exists p, tzip Rmult (build 1 1 dim dim (fun _ _ _ j => INR j / r)) (first_sample u) = Ok p /\
  tsum p = rsum C (fun c => rsum dim (fun i => rsum dim (fun j => INR j / r * get u 0 c i j))).
Proof.
  intros HB HC HH HW. unfold tzip. cbn [tB tC tH tW build first_sample].
  rewrite HC, HH, HW. unfold bdim at 1. cbn [Nat.eqb bind].
  assert (EC : bdim 1 C = Ok C).
  { unfold bdim. destruct (Nat.eqb_spec 1 C) as [<-|]; reflexivity. }
  rewrite EC, bdim_refl. cbn [bind]. eexists; split; [reflexivity|].
  rewrite tsum_build. cbn [rsum]. rewrite Rplus_0_l.
  apply rsum_ext; intros c Hc; apply rsum_ext; intros i Hi; apply rsum_ext; intros j Hj.
  f_equal.
  - unfold bget. cbn [tB tC tH tW build]. unfold bidx. cbn [Nat.eqb].
    destruct (Nat.eqb_spec dim 1).
    + subst dim. rewrite e, !get_build by lia. replace j with 0%nat by lia. reflexivity.
    + rewrite get_build by lia. reflexivity.
  - unfold bget, first_sample. cbn [tB tC tH tW build]. rewrite HC, HH, HW. unfold bidx. cbn [Nat.eqb].
    destruct (Nat.eqb_spec C 1), (Nat.eqb_spec dim 1); rewrite get_build by lia; f_equal; lia.
Qed.

Lemma span_value dim r yg m : y_grid dim r = Ok yg -> 0 < r -> tmax yg = Ok m -> m = INR (dim - 1) / r.
Proof.
  intros E Hr Em. apply y_grid_inv in E as [_ ->]. unfold tmax in Em.
  set (t := build 1 1 dim dim (fun _ _ _ j => INR j / r)) in *.
  assert (Ht : twf t) by apply twf_build.
  destruct (tdata t) as [|x l] eqn:Ed; [discriminate|]. injection Em as <-.
  change (fold_left Rmax l x) with (lmax (x :: l)). rewrite <- Ed.
  assert (Hn : tdata t <> []) by congruence.
  assert (Hd : (0 < dim)%nat).
  { destruct dim; [|lia]. exfalso. apply Hn. reflexivity. }
  apply Rle_antisym.
  - pose proof (lmax_in _ Hn) as Hi. apply in_data_get in Hi as (b & c & i & j & Hb & Hc & Hi & Hj & E2); auto.
    rewrite E2. unfold t in *. cbn [tB tC tH tW build] in Hb, Hc, Hi, Hj. rewrite get_build by auto.
    unfold Rdiv. apply Rmult_le_compat_r; [left; apply Rinv_0_lt_compat; auto|]. apply le_INR.
    lia.
  - apply lmax_ge. replace (INR (dim - 1) / r) with (get t 0 0 0 (dim - 1)).
    + apply get_in_data; auto; unfold t; cbn [tB tC tH tW build]; lia.
    + unfold t. rewrite get_build by lia. reflexivity.
Qed.

Lemma rdiv_inv x y z : rdiv x y = Ok z -> y <> 0 /\ z = x / y.
Proof. unfold rdiv. destruct (Req_EM_T y 0); [discriminate|]. intros E. apply Ok_inj in E. auto. Qed.

Lemma shape4_inv u B C H W : shape u = (B, C, H, W) -> tB u = B /\ tC u = C /\ tH u = H /\ tW u = W.
Proof. unfold shape. intros E. repeat rewrite pair_equal_spec in E. tauto. Qed.

Definition disp_from (span y0 y1 : R) : R :=
  if Req_EM_T y0 0 then 0
  else y1 - y0 + (if Rlt_dec (span - 2) y0 then if Rlt_dec y1 2 then span else 0 else 0).

Lemma tzip_minus_max a old B C H W : shape a = (B, C, H, W) -> shape old = (B, C, H, W) -> (0 < B * C * H * W)%nat ->
  exists d m, tzip Rminus a old = Ok d /\ tmax d = Ok m /\
  (m <= 1 / 100000 <-> forall b c i j, (b < B /\ c < C /\ i < H /\ j < W)%nat ->
     get a b c i j - get old b c i j <= 1 / 100000).
Proof.
  intros Sa So Hp. apply shape4_inv in Sa as (A1 & A2 & A3 & A4). apply shape4_inv in So as (O1 & O2 & O3 & O4).
  unfold tzip. rewrite A1, A2, A3, A4, O1, O2, O3, O4, !bdim_refl. cbn [bind].
  set (d := build B C H W _). assert (Hd : twf d) by apply twf_build.
  assert (Hg : forall b c i j, (b < B)%nat -> (c < C)%nat -> (i < H)%nat -> (j < W)%nat ->
            get d b c i j = get a b c i j - get old b c i j).
  { intros. unfold d. rewrite get_build by auto. rewrite !bget_get by lia. reflexivity. }
  exists d, (lmax (tdata d)). split; [reflexivity|].
  assert (Hn : tdata d <> []).
  { intros E. unfold twf in Hd. rewrite E in Hd. cbn [tB tC tH tW d build length] in Hd. unfold d in Hd. cbn [tB tC tH tW build] in Hd. lia. }
  split; [unfold tmax; destruct (tdata d); [congruence|reflexivity]|]. split.
  - intros Hm b c i j (Hb & Hc & Hi & Hj). rewrite <- Hg by auto.
    eapply Rle_trans; [|exact Hm]. apply lmax_ge. apply get_in_data; auto.
  - intros Ha. pose proof (lmax_in _ Hn) as Hi. apply in_data_get in Hi as (b & c & i & j & Hb & Hc & Hi & Hj & E2); auto.
    rewrite E2. unfold d in Hb, Hc, Hi, Hj. cbn [tB tC tH tW build] in Hb, Hc, Hi, Hj. rewrite Hg by auto. apply Ha; auto.
Qed.

Lemma tsum_mass t : twf t -> tsum t = mass t.
Proof. intros. unfold mass. apply tsum_get; auto. Qed.

Section Glide.
  Variable St : Type.
  Variable ca : St -> tensor -> res (St * tensor).
  Variable ca_reset : St -> St.
  Variables B C dim : nat.
  Variable r : R.
  Variable span : R.
  Let yg := build 1 1 dim dim (fun _ _ _ j => INR j / r).

  Lemma glider_pass_ok v a :
    shape a = (B, C, dim, dim) -> twf a -> shape (gl_old v) = (B, C, dim, dim) -> (0 < B * C * dim * dim)%nat ->
    1 / 1000000 + mass a <> 0 -> gl_mean0 v + 1 / 1000000 <> 0 ->
    exists stop,
    glider_pass yg span v a =
      Ok (mkGlider (density a) (density a) (centroid r a) a
            (gl_reward v + (disp_from span (gl_y0 v) (centroid r a) - Rabs (1 - density a / (gl_mean0 v + 1 / 1000000))))
            (Some (disp_from span (gl_y0 v) (centroid r a), Rabs (1 - density a / (gl_mean0 v + 1 / 1000000)))), stop)
    /\ (stop = true <-> halted (gl_old v) a).
  Proof.
    intros Sa Ha So Hp Hm1 Hm2. pose proof (shape4_inv _ _ _ _ _ Sa) as (A1 & A2 & A3 & A4).
    assert (Hi : inhabited a) by (unfold inhabited; rewrite A1, A2, A3, A4; exact Hp).
    unfold glider_pass. rewrite tmean_ok by auto. cbn [bind].
    destruct (prod_sum dim r C a) as (p & Ep & Es); auto; [rewrite A1; nia|]. unfold yg. rewrite Ep. cbn [bind].
    rewrite Es, (tsum_mass a) by auto. unfold rdiv at 1, gl_eps at 1.
    destruct (Req_EM_T (1 / 1000000 + mass a) 0) as [|_]; [contradiction|]. cbn [bind].
    unfold rdiv, gl_eps. destruct (Req_EM_T (gl_mean0 v + 1 / 1000000) 0) as [|_]; [contradiction|]. cbn [bind].
    destruct (tzip_minus_max a (gl_old v) _ _ _ _ Sa So Hp) as (d & m & Ed & Em & Hm).
    rewrite Ed. cbn [bind]. rewrite Em. cbn [bind].
    assert (Ec : rsum C (fun c => rsum dim (fun i => rsum dim (fun j => INR j / r * get a 0 c i j))) / (1 / 1000000 + mass a) = centroid r a).
    { unfold centroid. rewrite A2, A3, A4. reflexivity. }
    rewrite Ec.
    match goal with |- context [if Req_EM_T (gl_y0 v) 0 then 0 else ?x] =>
      replace (if Req_EM_T (gl_y0 v) 0 then 0 else x) with (disp_from span (gl_y0 v) (centroid r a)) end.
    2:{ unfold disp_from. destruct (Req_EM_T (gl_y0 v) 0); auto.
        destruct (Rlt_dec (span - 2) (gl_y0 v)); [|lra]. destruct (Rlt_dec (centroid r a) 2); lra. }
    eexists. split; [reflexivity|]. unfold halted.
    apply shape4_inv in So as (O1 & O2 & O3 & O4). rewrite O1, O2, O3, O4, <- Hm.
    destruct (Req_EM_T (density a) 0); [split; auto|]. destruct (Rle_dec m (1 / 100000)); [split; auto|].
    split; [discriminate|]. intros [|]; contradiction.
  Qed.

  Lemma glider_pass_inv v a v' stop :
    shape a = (B, C, dim, dim) -> twf a -> shape (gl_old v) = (B, C, dim, dim) -> (0 < B * C * dim * dim)%nat ->
    glider_pass yg span v a = Ok (v', stop) ->
    v' = mkGlider (density a) (density a) (centroid r a) a
            (gl_reward v + (disp_from span (gl_y0 v) (centroid r a) - Rabs (1 - density a / (gl_mean0 v + 1 / 1000000))))
            (Some (disp_from span (gl_y0 v) (centroid r a), Rabs (1 - density a / (gl_mean0 v + 1 / 1000000))))
    /\ (stop = true <-> halted (gl_old v) a).
  Proof.
    intros Sa Ha So Hp E.
    assert (Hm1 : 1 / 1000000 + mass a <> 0 /\ gl_mean0 v + 1 / 1000000 <> 0).
    { unfold glider_pass in E. apply bind_ok in E as (m & _ & E). apply bind_ok in E as (p & _ & E).
      apply bind_ok in E as (y & Ey & E). apply bind_ok in E as (q & Eq & E).
      apply rdiv_inv in Ey as [Ey _]. apply rdiv_inv in Eq as [Eq _]. unfold gl_eps in *.
      rewrite tsum_mass in Ey by auto. auto. }
    destruct (glider_pass_ok v a Sa Ha So Hp (proj1 Hm1) (proj2 Hm1)) as (st & E2 & Hs).
    rewrite E2 in E. apply Ok_inj, pair_equal_spec in E as [<- <-]. auto.
  Qed.

  Hypothesis pos : (0 < B * C * dim * dim)%nat.
  Hypothesis keeps : forall s u s' u', shape u = (B, C, dim, dim) -> twf u -> ca s u = Ok (s', u') ->
    shape u' = (B, C, dim, dim) /\ twf u'.

  Definition disp_seq (y0 : R) (u : nat -> tensor) (k : nat) : R :=
    disp_from span (match k with O => y0 | _ => centroid r (u k) end) (centroid r (u (S k))).

  Definition dens_seq (u : nat -> tensor) : nat -> R := fun k => density (u k).

  Lemma glider_loop_inv n : forall s a v s' v',
    shape a = (B, C, dim, dim) -> twf a -> gl_old v = a -> gl_mean0 v = density a -> gl_mean v = density a ->
    glider_loop St ca yg span n s a v = Ok (s', v') ->
    exists m (S_ : nat -> St) (u : nat -> tensor),
      (m <= n)%nat /\ (0 < n -> 0 < m)%nat /\ u 0%nat = a /\ S_ 0%nat = s /\ S_ m = s' /\
      (forall k, (k < m)%nat -> ca (S_ k) (u k) = Ok (S_ (S k), u (S k))) /\
      gl_reward v' = gl_reward v + rsum m (fun k => disp_seq (gl_y0 v) u k - growth_rate (dens_seq u) k) /\
      gl_mean v' = density (u m) /\
      gl_last v' = match m with O => gl_last v | S m' => Some (disp_seq (gl_y0 v) u m', growth_rate (dens_seq u) m') end /\
      (forall k, (S k < m)%nat -> ~ halted (u k) (u (S k))) /\
      (m = n \/ exists k, m = S k /\ halted (u k) (u (S k))).
  Proof using pos keeps.
    induction n; intros s a v s' v' Sa Ha Ho Hm0 Hm E.
    - cbn [glider_loop] in E. apply Ok_inj, pair_equal_spec in E as [<- <-].
      exists 0%nat, (fun _ => s), (fun _ => a). cbn [rsum]. repeat split; auto; try lia; try lra.
    - cbn [glider_loop] in E. apply bind_ok in E as ([s1 a1] & E1 & E). cbn [fst snd] in E.
      apply bind_ok in E as ([v1 stop] & Ep & E). cbn [fst snd] in E.
      destruct (keeps _ _ _ _ Sa Ha E1) as [Sa1 Ha1].
      assert (So : shape (gl_old v) = (B, C, dim, dim)) by (rewrite Ho; auto).
      destruct (glider_pass_inv v a1 v1 stop Sa1 Ha1 So pos Ep) as [Ev1 Hstop]. rewrite Ho in Hstop.
      assert (D0 : forall u : nat -> tensor, u 0%nat = a -> u 1%nat = a1 ->
         disp_seq (gl_y0 v) u 0 = disp_from span (gl_y0 v) (centroid r a1) /\
         growth_rate (dens_seq u) 0 = Rabs (1 - density a1 / (gl_mean0 v + 1 / 1000000))).
      { intros u U0 U1. unfold disp_seq, growth_rate, dens_seq. rewrite U0, U1, Hm0. auto. }
      destruct stop.
      + apply Ok_inj, pair_equal_spec in E as [<- <-].
        exists 1%nat, (fun k => match k with O => s | _ => s1 end), (fun k => match k with O => a | _ => a1 end).
        set (u := fun k => match k with O => a | _ => a1 end).
        destruct (D0 u eq_refl eq_refl) as [D1 D2].
        split; [lia|]. split; [lia|]. split; [reflexivity|]. split; [reflexivity|]. split; [reflexivity|].
        split; [intros k Hk; replace k with 0%nat by lia; exact E1|].
        split; [cbn [rsum]; rewrite D1, D2, Ev1; cbn [gl_reward]; lra|].
        split; [rewrite Ev1; reflexivity|]. split; [rewrite D1, D2, Ev1; reflexivity|].
        split; [intros k Hk; lia|]. right. exists 0%nat. split; auto. apply Hstop; auto.
      + assert (Hns : ~ halted a a1) by (intros Hh; apply Hstop in Hh; discriminate).
        destruct (IHn s1 a1 v1 s' v' Sa1 Ha1) as (m & S_ & u & I1 & I2 & I3 & I4 & I5 & I6 & I7 & I8 & I9 & I10 & I11);
          try (rewrite Ev1; reflexivity); auto.
        exists (S m), (fun k => match k with O => s | S k' => S_ k' end),
               (fun k => match k with O => a | S k' => u k' end).
        set (u' := fun k => match k with O => a | S k' => u k' end).
        destruct (D0 u' eq_refl I3) as [D1 D2].
        assert (Ds : forall k, disp_seq (gl_y0 v) u' (S k) = disp_seq (gl_y0 v1) u k).
        { intros [|k]; unfold disp_seq, u'; [|reflexivity]. rewrite I3, Ev1. reflexivity. }
        assert (Gs : forall k, growth_rate (dens_seq u') (S k) = growth_rate (dens_seq u) k) by reflexivity.
        split; [lia|]. split; [lia|]. split; [reflexivity|]. split; [reflexivity|]. split; [exact I5|].
        split. { intros [|k] Hk; [unfold u'; rewrite I4, I3; exact E1|]. apply I6. lia. }
        split. { rewrite rsum_S_l, D1, D2. rewrite I7.
                 rewrite (rsum_ext m (fun k => disp_seq (gl_y0 v) u' (S k) - growth_rate (dens_seq u') (S k))
                                     (fun k => disp_seq (gl_y0 v1) u k - growth_rate (dens_seq u) k))
                   by (intros; rewrite Ds, Gs; reflexivity).
                 rewrite Ev1. cbn [gl_reward]. lra. }
        split; [exact I8|].
        split. { rewrite I9. destruct m as [|m']; [rewrite D1, D2, Ev1; reflexivity|]. rewrite Ds, Gs. reflexivity. }
        split. { intros [|k] Hk; [unfold u'; rewrite I3; exact Hns|]. apply I10. lia. }
        destruct I11 as [->|(k & -> & Hh)]; [left; reflexivity|right; exists (S k); auto].
  Qed.
End Glide.

Section GlideTop.
  Variable St : Type.
  Variable ca : St -> tensor -> res (St * tensor).
  Variable ca_reset : St -> St.
  Variables B C dim : nat.
  Variable r : R.
  Hypothesis keeps : forall s u s' u', shape u = (B, C, dim, dim) -> twf u -> ca s u = Ok (s', u') ->
    shape u' = (B, C, dim, dim) /\ twf u'.

  Lemma glider_sum n s a s' reward disp growth active : 0 < r -> shape a = (B, C, dim, dim) -> twf a ->
    meta_step St ca ca_reset dim r n s a = Ok (s', reward, disp, growth, active) ->
    exists m (S_ : nat -> St) (u : nat -> tensor),
      let span := INR (dim - 1) / r in
      let y := fun k => centroid r (u k) in
      let d := fun k => density (u k) in
      (0 < m <= n)%nat /\ u 0%nat = a /\ S_ 0%nat = ca_reset s /\ S_ m = s' /\
      (forall k, (k < m)%nat -> ca (S_ k) (u k) = Ok (S_ (S k), u (S k))) /\
      reward = rsum m (fun k => displacement span y (S k) - growth_rate d k) /\
      disp = displacement span y m /\ growth = growth_rate d (m - 1) /\ active = d m /\
      (forall k, (S k < m)%nat -> ~ halted (u k) (u (S k))) /\
      ((m < n)%nat -> halted (u (m - 1)%nat) (u m)).
  Proof using keeps.
    intros Hr Sa Ha E. unfold meta_step in E. apply bind_ok in E as (yg & Ey & E).
    apply bind_ok in E as (m0 & Em0 & E). apply bind_ok in E as (span & Es & E).
    apply bind_ok in E as ([s1 v] & El & E). cbn [fst snd] in E.
    pose proof (span_value _ _ _ _ Ey Hr Es) as Hspan. subst span. apply y_grid_inv in Ey as [_ ->].
    destruct (tmean_density _ _ Ha Em0) as [-> Hi]. unfold inhabited in Hi.
    pose proof (shape4_inv _ _ _ _ _ Sa) as (A1 & A2 & A3 & A4). rewrite A1, A2, A3, A4 in Hi.
    destruct (glider_loop_inv St ca B C dim r (INR (dim - 1) / r) Hi keeps n _ _ (mkGlider (density a) (density a) 0 a 0 None) _ _ Sa Ha eq_refl eq_refl eq_refl El)
      as (m & S_ & u & I1 & I2 & I3 & I4 & I5 & I6 & I7 & I8 & I9 & I10 & I11).
    cbn [gl_y0 gl_reward gl_last] in I7, I9.
    destruct m as [|m].
    { rewrite I9 in E. discriminate. }
    rewrite I9 in E.
    assert (Ds : forall k, disp_seq r (INR (dim - 1) / r) 0 u k = displacement (INR (dim - 1) / r) (fun k => centroid r (u k)) (S k)).
    { intros [|k]; unfold disp_seq, disp_from, displacement; [|reflexivity].
      destruct (Req_EM_T 0 0); [reflexivity|lra]. }
    exists (S m), S_, u. cbv zeta.
    repeat rewrite pair_equal_spec in E || apply Ok_inj in E.
    apply Ok_inj in E || idtac. repeat rewrite pair_equal_spec in E. destruct E as ((((E1 & E2) & E3) & E4) & E5).
    split; [lia|]. split; [exact I3|]. split; [exact I4|]. split; [congruence|]. split; [exact I6|].
    split. { rewrite <- E2, I7, Rplus_0_l. apply rsum_ext; intros; rewrite Ds; reflexivity. }
    split; [rewrite <- E3; apply Ds|]. split; [rewrite <- E4; replace (S m - 1)%nat with m by lia; reflexivity|].
    split; [rewrite <- E5; exact I8|]. split; [exact I10|].
    intros Hlt. destruct I11 as [I11|(k & Ek & Hh)]; [lia|]. injection Ek as <-.
    replace (S m - 1)%nat with m by lia. exact Hh.
  Qed.

  Lemma glider_none s a : r <> 0 -> (0 < dim)%nat -> twf a -> inhabited a ->
    meta_step St ca ca_reset dim r 0 s a = Err UnboundLocalError.
  Proof using.
    intros Hr Hd Ha Hi. unfold meta_step, y_grid. destruct (Req_EM_T r 0); [contradiction|]. cbn [bind].
    rewrite tmean_ok by auto. cbn [bind]. unfold tmax.
    destruct (tdata (build 1 1 dim dim (fun _ _ _ j => INR j / r))) as [|x l] eqn:Ed; [|reflexivity].
    pose proof (twf_build 1 1 dim dim (fun _ _ _ j => INR j / r)) as Hw. unfold twf in Hw. rewrite Ed in Hw.
    cbn [tB tC tH tW build length] in Hw. nia.
  Qed.

  Hypothesis total : forall s u, shape u = (B, C, dim, dim) -> twf u -> exists s' u', ca s u = Ok (s', u') /\ nonneg u'.

  Lemma nonneg_mass u : nonneg u -> 0 <= mass u.
  Proof using.
    intros. unfold mass. apply rsum_nonneg; intros; apply rsum_nonneg; intros; apply rsum_nonneg; intros;
      apply rsum_nonneg; intros. apply nonneg_get; auto.
  Qed.

  Lemma nonneg_density u : inhabited u -> nonneg u -> 0 <= density u.
  Proof using.
    intros Hi Hn. unfold density, Rdiv. apply Rmult_le_pos; [apply nonneg_mass; auto|].
    left; apply Rinv_0_lt_compat. apply lt_0_INR. exact Hi.
  Qed.

  Lemma glider_loop_total span n : (0 < B * C * dim * dim)%nat -> forall s a v,
    shape a = (B, C, dim, dim) -> twf a -> gl_old v = a -> 0 <= gl_mean0 v ->
    exists s' v', glider_loop St ca (build 1 1 dim dim (fun _ _ _ j => INR j / r)) span n s a v = Ok (s', v') /\
      ((0 < n)%nat \/ gl_last v <> None -> gl_last v' <> None).
  Proof using keeps total.
    intros Hp. induction n; intros s a v Sa Ha Ho Hm.
    { exists s, v. split; [reflexivity|]. intros [|]; [lia|auto]. }
    cbn [glider_loop]. destruct (total s a Sa Ha) as (s1 & a1 & E1 & Hn). rewrite E1. cbn [bind fst snd].
    destruct (keeps _ _ _ _ Sa Ha E1) as [Sa1 Ha1].
    pose proof (nonneg_mass a1 Hn).
    destruct (glider_pass_ok B C dim r span v a1 Sa1 Ha1) as (stop & Ep & _); auto; try lra; [congruence|].
    rewrite Ep. cbn [bind fst snd]. destruct stop.
    - do 2 eexists. split; [reflexivity|]. intros _. cbn [gl_last]. discriminate.
    - match goal with |- context [glider_loop St ca _ span n s1 a1 ?w] => destruct (IHn s1 a1 w) as (s' & v' & El & Hl) end; auto.
      + cbn [gl_mean0]. apply nonneg_density; auto. unfold inhabited.
        apply shape4_inv in Sa1 as (-> & -> & -> & ->). exact Hp.
      + exists s', v'. split; auto. intros _. apply Hl. right. cbn [gl_last]. discriminate.
  Qed.

  Lemma glider_total n s a : r <> 0 -> (0 < n)%nat -> (0 < B * C * dim * dim)%nat ->
    shape a = (B, C, dim, dim) -> twf a -> nonneg a ->
    exists out, meta_step St ca ca_reset dim r n s a = Ok out.
  Proof using keeps total.
    intros Hr Hn Hp Sa Ha Hna. unfold meta_step, y_grid. destruct (Req_EM_T r 0); [contradiction|]. cbn [bind].
    assert (Hi : inhabited a).
    { unfold inhabited. pose proof (shape4_inv _ _ _ _ _ Sa) as (-> & -> & -> & ->). exact Hp. }
    rewrite tmean_ok by auto. cbn [bind]. unfold tmax.
    destruct (tdata (build 1 1 dim dim (fun _ _ _ j => INR j / r))) as [|x l] eqn:Ed.
    { pose proof (twf_build 1 1 dim dim (fun _ _ _ j => INR j / r)) as Hw. unfold twf in Hw. rewrite Ed in Hw.
      cbn [tB tC tH tW build length] in Hw. nia. }
    cbn [bind].
    match goal with |- context [glider_loop St ca ?yg ?sp n ?s1 a ?w] =>
      destruct (glider_loop_total sp n Hp s1 a w) as (s' & v' & El & Hl) end; auto.
    { cbn [gl_mean0]. apply nonneg_density; auto. }
    rewrite El. cbn [bind fst snd]. destruct (gl_last v') as [[d g]|] eqn:Eg; [eauto|].
    exfalso. apply Hl; auto.
  Qed.
End GlideTop.

Lemma telescope (span : R) (y : nat -> R) m :
  (forall k, (0 < k < S m)%nat -> y k <> 0 /\ ~ (span - 2 < y k /\ y (S k) < 2)) ->
  rsum (S m) (fun k => displacement span y (S k)) = y (S m) - y 1%nat.
Proof.
  induction m; intros Hk.
  - cbn [rsum displacement]. lra.
  - rewrite rsum_S, IHm by (intros; apply Hk; lia).
    destruct (Hk (S m)) as [H1 H2]; [lia|]. cbn [displacement].
    destruct (Req_EM_T (y (S m)) 0); [contradiction|].
    destruct (Rlt_dec (span - 2) (y (S m))); [|lra]. destruct (Rlt_dec (y (S (S m))) 2); [|lra]. exfalso; auto.
Qed.

Lemma centroid_bounds dim r u : 0 < r -> nonneg u -> tB u = 1%nat -> tW u = dim -> (0 < dim)%nat ->
  0 <= centroid r u <= INR (dim - 1) / r.
Proof.
  intros Hr Hn HB HW Hd. unfold centroid. pose proof (nonneg_mass u Hn) as Hm.
  assert (Hri : 0 < / r) by (apply Rinv_0_lt_compat; auto).
  set (s := rsum (tC u) _).
  assert (H0 : 0 <= s).
  { unfold s. apply rsum_nonneg; intros; apply rsum_nonneg; intros; apply rsum_nonneg; intros j Hj.
    apply Rmult_le_pos; [apply Rmult_le_pos; [apply pos_INR|lra]|apply nonneg_get; auto]. }
  assert (H1 : s <= INR (dim - 1) / r * mass u).
  { unfold mass. rewrite HB. cbn [rsum]. rewrite Rplus_0_l. unfold s. rewrite <- rsum_scal. apply rsum_le; intros c Hc.
    rewrite <- rsum_scal. apply rsum_le; intros i Hi. rewrite <- rsum_scal. apply rsum_le; intros j Hj.
    apply Rmult_le_compat_r; [apply nonneg_get; auto|]. unfold Rdiv. apply Rmult_le_compat_r; [lra|].
    apply le_INR. lia. }
  assert (Hsp : 0 <= INR (dim - 1) / r) by (apply Rmult_le_pos; [apply pos_INR|lra]).
  assert (Hd0 : 0 < 1 / 1000000 + mass u) by lra.
  split; [apply Rmult_le_pos; [auto|left; apply Rinv_0_lt_compat; auto]|].
  apply Rmult_le_reg_r with (1 / 1000000 + mass u); auto.
  replace (s / (1 / 1000000 + mass u) * (1 / 1000000 + mass u)) with s by (field; lra). nra.
Qed.

(** ** The halting rollout of a continuous automaton *)
From Verif Require Import MActivations MKernels MCca SGrid SCca PStep PCca PStepX.

Definition cca_stepper (c : cca) : unit -> tensor -> res (unit * tensor) :=
  fun s g => rmap (pair s) (cca_forward c g).

Lemma ca_run_iter c n : forall s u, rmap snd (ca_run unit (cca_stepper c) n s u) = iter_res (cca_forward c) n u.
Proof.
  induction n; intros s u; [reflexivity|]. cbn [ca_run iter_res]. unfold cca_stepper at 1.
  destruct (cca_forward c u); [|reflexivity]. cbn [rmap bind fst snd]. apply IHn.
Qed.

Lemma cca_exit c n u u' : cca_wf c -> init_weights (ext c) (int_ c) (pm c) = Ok (wl c) -> 0 <= dt c ->
  gen_sum0 c <= 0 -> twf u -> inhabited u -> cca_forward c u = Ok u' ->
  rmap snd (break_loop unit (cca_stepper c) mean_stop n tt u) = iter_res (cca_forward c) n u.
Proof.
  intros Hc Hw Hdt Hg Hu Hi E. rewrite <- (ca_run_iter c n tt u).
  assert (Hacc : exists v, cca_forward c u = Ok v) by eauto. apply cca_accepts in Hacc; auto.
  destruct Hacc as (HC & HH & HW & F1 & F2 & L1 & L2 & A1 & A2).
  apply (simple_exit unit (cca_stepper c) (tB u) (tC u) (tH u) (tW u)); auto.
  - intros [] v s' v' Sv Hv Ev. unfold cca_stepper in Ev.
    destruct (cca_forward c v) as [w|] eqn:Ew; [|discriminate]. cbn [rmap] in Ev.
    apply Ok_inj, pair_equal_spec in Ev as [_ <-].
    destruct (cca_shape c v w Hc Hv Ew) as [S1 S2]. split; [congruence|]. split; auto.
    pose proof (step_in_unit _ _ _ _ Ew) as Hin. unfold in_unit in Hin. unfold nonneg.
    eapply Forall_impl; [|exact Hin]. cbv beta. intros x Hx. lra.
  - intros []. assert (Hz : exists v, cca_forward c (zero_grid (tB u) (tC u) (tH u) (tW u)) = Ok v).
    { apply cca_accepts; auto; [apply twf_build|]. cbn [tB tC tH tW zero_grid build]. repeat (split; auto). }
    destruct Hz as (v & Ev). exists tt. unfold cca_stepper. rewrite Ev. cbn [rmap]. rewrite HC in Ev |- *.
    assert (Ez : v = zero_grid (tB u) (ext c) (tH u) (tW u)); [|rewrite Ez; reflexivity].
    apply (zero_stays c (tB u) (tH u) (tW u) 1 v Hc Hw Hdt Hg). cbn [iter_res]. rewrite Ev. reflexivity.
Qed.
