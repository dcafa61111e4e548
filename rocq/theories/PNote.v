(** The notebook's automaton (proofs). *)
From Coq Require Import Reals Lra Lia List Arith Bool ZArith Permutation.
From Verif Require Import Base Tensor MActivations MNote SGrid SKern SLife SNote PTensor PKern PAct.
Import ListNotations.
Open Scope R_scope.

(** ** Agreement *)
Lemma nb_steps_same ivs al x : nb_steps ivs al x = act_fn (ASmoothIntervals ivs al false) x.
Proof. reflexivity. Qed.

(** ** The kernel *)
Lemma rsum_pos n f : (0 < n)%nat -> (forall i, (i < n)%nat -> 0 < f i) -> 0 < rsum n f.
Proof.
  intros Hn. destruct n as [|n]; [lia|]. clear Hn. induction n as [|n IH]; intros H.
  - cbn [rsum]. pose proof (H 0%nat ltac:(lia)). lra.
  - rewrite rsum_S. pose proof (H (S n) ltac:(lia)). assert (0 < rsum (S n) f) by (apply IH; intros; apply H; lia). lra.
Qed.

Lemma normed_sum n k : rsum n (fun yy => rsum n (fun xx => k yy xx)) <> 0 -> rsum n (fun yy => rsum n (fun xx => nb_normed n k yy xx)) = 1.
Proof.
  intros H. unfold nb_normed. cbv zeta. set (t := rsum n (fun yy => rsum n (fun xx => k yy xx))) in *.
  rewrite (rsum_ext n _ (fun yy => rsum n (fun xx => k yy xx) * / t)).
  - rewrite rsum_scal_r. fold t. apply Rinv_r. exact H.
  - intros i _. unfold Rdiv. rewrite rsum_scal_r. reflexivity.
Qed.

Lemma nb_kernel_spec f mu s r k : nb_kernel f mu s r = Ok k -> (0 < r)%nat /\ s <> 0 /\ exists raw, k = nb_normed (2 * r + 1) raw /\
  (forall i j, raw i j = nb_gaussian mu s (sqrt ((INR j - INR r) ^ 2 + (INR i - INR r) ^ 2) / INR r)) /\ 0 < rsum (2 * r + 1) (fun yy => rsum (2 * r + 1) (fun xx => raw yy xx)).
Proof.
  unfold nb_kernel. intros H. apply bind_ok in H as (u & G1 & H). apply guard_ok in G1. apply bind_ok in H as (v & G2 & H). apply guard_ok in G2.
  apply Ok_inj in H. split; [destruct r; [discriminate|lia]|]. split; [apply nonzero_true in G2; exact G2|].
  eexists. split; [symmetry; exact H|]. split; [reflexivity|]. apply rsum_pos; [lia|]. intros i _. apply rsum_pos; [lia|]. intros j _. apply exp_pos.
Qed.

Lemma nb_kernel_sym f mu s r k i j : nb_kernel f mu s r = Ok k -> (i < 2 * r + 1)%nat -> (j < 2 * r + 1)%nat ->
  0 < k i j /\ k (2 * r - i)%nat j = k i j /\ k i (2 * r - j)%nat = k i j /\ k j i = k i j.
Proof.
  intros H Hi Hj. apply nb_kernel_spec in H as (R0 & _ & raw & -> & E & P). unfold nb_normed. cbv zeta. set (t := rsum _ _) in *.
  assert (S : forall a, (a < 2 * r + 1)%nat -> (INR (2 * r - a) - INR r) ^ 2 = (INR a - INR r) ^ 2).
  { intros a Ha. rewrite minus_INR by lia. rewrite mult_INR. change (INR 2) with 2. ring. }
  rewrite !E. rewrite !S by assumption. rewrite (Rplus_comm ((INR i - INR r) ^ 2)). repeat split. apply Rdiv_lt_0_compat; [apply exp_pos|exact P].
Qed.

(** The flip of the convolution does not matter for a kernel symmetric about its centre. *)
Lemma conv_toroidal H W r k x i j : (forall a b, (a < 2 * r + 1)%nat -> (b < 2 * r + 1)%nat -> k (2 * r - a)%nat (2 * r - b)%nat = k a b) ->
  nb_conv H W r k x i j = toroidal_sum r H W k x i j.
Proof.
  intros S. unfold nb_conv, toroidal_sum. rewrite <- rsum_rev. apply rsum_ext. intros a Ha. rewrite <- rsum_rev. apply rsum_ext. intros b Hb.
  replace (2 * r + 1 - 1 - a)%nat with (2 * r - a)%nat by lia. replace (2 * r + 1 - 1 - b)%nat with (2 * r - b)%nat by lia. rewrite S by assumption.
  f_equal. f_equal; f_equal; lia.
Qed.

(** ** The two kernels of the notebook *)
Lemma sq_sqrt2 : 1 < sqrt 2 < 14143 / 10000.
Proof.
  split; [rewrite <- sqrt_1 at 1; apply sqrt_lt_1; lra|].
  replace (14143 / 10000) with (sqrt ((14143 / 10000) ^ 2)) by (apply sqrt_pow2; lra). apply sqrt_lt_1; lra.
Qed.

(** Distances from the centre in a 3 x 3 kernel. *)
Definition rr3 (i j : nat) : R := sqrt ((INR j - INR 1) ^ 2 + (INR i - INR 1) ^ 2) / INR 1.

Lemma rr3_val i j : (i < 3)%nat -> (j < 3)%nat ->
  rr3 i j = if (Nat.eqb i 1 && Nat.eqb j 1)%bool then 0 else if (Nat.eqb i 1 || Nat.eqb j 1)%bool then 1 else sqrt 2.
Proof.
  intros Hi Hj. unfold rr3. change (INR 1) with 1. destruct i as [|[|[|i]]]; [| | |lia]; (destruct j as [|[|[|j]]]; [| | |lia]); cbn [Nat.eqb andb orb];
    change (INR 0) with 0; change (INR 1) with 1; change (INR 2) with 2; unfold Rdiv; rewrite Rinv_1, Rmult_1_r.
  all: try (replace ((0 - 1) ^ 2 + (0 - 1) ^ 2) with 2 by ring; reflexivity).
  all: try (replace ((1 - 1) ^ 2 + (0 - 1) ^ 2) with 1 by ring; apply sqrt_1).
  all: try (replace ((2 - 1) ^ 2 + (0 - 1) ^ 2) with 2 by ring; reflexivity).
  all: try (replace ((0 - 1) ^ 2 + (1 - 1) ^ 2) with 1 by ring; apply sqrt_1).
  all: try (replace ((1 - 1) ^ 2 + (1 - 1) ^ 2) with 0 by ring; apply sqrt_0).
  all: try (replace ((2 - 1) ^ 2 + (1 - 1) ^ 2) with 1 by ring; apply sqrt_1).
  all: try (replace ((0 - 1) ^ 2 + (2 - 1) ^ 2) with 2 by ring; reflexivity).
  all: try (replace ((1 - 1) ^ 2 + (2 - 1) ^ 2) with 1 by ring; apply sqrt_1).
  all: try (replace ((2 - 1) ^ 2 + (2 - 1) ^ 2) with 2 by ring; reflexivity).
Qed.

Lemma sum3 f : rsum 3 (fun yy => rsum 3 (fun xx => f yy xx)) =
  f 0%nat 0%nat + f 0%nat 1%nat + f 0%nat 2%nat + (f 1%nat 0%nat + f 1%nat 1%nat + f 1%nat 2%nat) + (f 2%nat 0%nat + f 2%nat 1%nat + f 2%nat 2%nat).
Proof. cbn [rsum]. ring. Qed.

Lemma exp_le1 z : z <= 0 -> exp z <= 1.
Proof. intros H. rewrite <- exp_0. destruct H as [H| ->]; [left; apply exp_increasing; exact H|right; reflexivity]. Qed.

Lemma exp_mono a b : a <= b -> exp a <= exp b.
Proof. intros [H| ->]; [left; apply exp_increasing; exact H|right; reflexivity]. Qed.

Lemma exp_pow n x : exp x ^ n = exp (INR n * x).
Proof. induction n as [|n IH]; [cbn; rewrite Rmult_0_l, exp_0; reflexivity|]. rewrite S_INR. cbn [pow]. rewrite IH, <- exp_plus. f_equal. ring. Qed.

Lemma exp_neg_half n : exp (- INR n) <= (/ 2) ^ n.
Proof.
  replace (- INR n) with (INR n * (- (1))) by ring. rewrite <- exp_pow. apply pow_incr. split; [left; apply exp_pos|].
  rewrite exp_Ropp. apply Rinv_le_contravar; [lra|]. pose proof (exp_ineq1_le 1). lra.
Qed.

Lemma lt_div a b t : 0 < t -> a * t < b -> a < b / t.
Proof. intros T H. apply Rmult_lt_reg_r with t; [exact T|]. unfold Rdiv. rewrite Rmult_assoc, Rinv_l by lra. lra. Qed.

Lemma div_lt a b t : 0 < t -> b < a * t -> b / t < a.
Proof. intros T H. apply Rmult_lt_reg_r with t; [exact T|]. unfold Rdiv. rewrite Rmult_assoc, Rinv_l by lra. lra. Qed.

Lemma le_div a b t : 0 < t -> a * t <= b -> a <= b / t.
Proof. intros T H. apply Rmult_le_reg_r with t; [exact T|]. unfold Rdiv. rewrite Rmult_assoc, Rinv_l by lra. lra. Qed.

Lemma moore_values : exists k, nb_kernel (nb_gaussian (99 / 100) (3 / 10)) (99 / 100) (3 / 10) 1 = Ok k /\
  forall i j, (i < 3)%nat -> (j < 3)%nat -> if (Nat.eqb i 1 && Nat.eqb j 1)%bool then k i j <= 1 / 100 else 1 / 100 < k i j.
Proof.
  assert (G : exists k, nb_kernel (nb_gaussian (99 / 100) (3 / 10)) (99 / 100) (3 / 10) 1 = Ok k).
  { unfold nb_kernel. cbn [Nat.eqb negb guard bind]. rewrite (proj2 (nonzero_true (3 / 10))) by lra. cbn [guard bind]. eauto. }
  destruct G as [k Hk]. exists k. split; [exact Hk|]. apply nb_kernel_spec in Hk as (_ & _ & raw & -> & E & P).
  change (2 * 1 + 1)%nat with 3%nat in *. unfold nb_normed. cbv zeta. rewrite sum3 in *.
  assert (V : forall i j, (i < 3)%nat -> (j < 3)%nat -> raw i j = nb_gaussian (99 / 100) (3 / 10) (rr3 i j)) by (intros; apply E). clear E.
  set (c := nb_gaussian (99 / 100) (3 / 10) 0). set (e := nb_gaussian (99 / 100) (3 / 10) 1). set (q := nb_gaussian (99 / 100) (3 / 10) (sqrt 2)).
  assert (C : 0 < c <= / 32).
  { split; [apply exp_pos|]. unfold c, nb_gaussian. apply Rle_trans with (exp (- INR 5)).
    - apply exp_mono. change (INR 5) with (1 + 1 + 1 + 1 + 1). lra.
    - pose proof (exp_neg_half 5). lra. }
  assert (Ee : 99 / 100 <= e <= 1).
  { unfold e, nb_gaussian. split; [|apply exp_le1; lra]. pose proof (exp_ineq1_le (- ((1 - 99 / 100) / (3 / 10)) ^ 2 / 2)). lra. }
  assert (Q : 1 / 10 <= q <= 1).
  { unfold q, nb_gaussian. pose proof sq_sqrt2 as [S1 S2]. set (z := (sqrt 2 - 99 / 100) / (3 / 10)).
    assert (Z : 0 <= z <= 3 / 2) by (unfold z; lra). split; [|apply exp_le1; nra].
    apply Rle_trans with (exp (- (2))).
    - rewrite exp_Ropp. replace (exp 2) with (exp 1 * exp 1) by (rewrite <- exp_plus; f_equal; lra). pose proof exp_le_3 as X. pose proof (exp_pos 1).
      apply Rle_trans with (/ 9); [lra|]. apply Rinv_le_contravar; nra.
    - apply exp_mono. nra. }
  rewrite !V, !rr3_val by lia. cbn [Nat.eqb andb orb]. fold c e q.
  set (t := q + e + q + (e + c + e) + (q + e + q)). assert (T : 4 <= t <= 9) by (unfold t; lra).
  intros i j Hi Hj. rewrite V, rr3_val by assumption.
  destruct (Nat.eqb i 1 && Nat.eqb j 1)%bool; [fold c; apply Rmult_le_reg_r with t; [lra|]; unfold Rdiv; rewrite Rmult_assoc, Rinv_l by lra; lra|].
  destruct (Nat.eqb i 1 || Nat.eqb j 1)%bool; [fold e|fold q]; apply lt_div; lra.
Qed.

Lemma moore_stencil : exists k, kernel_moore = Ok k /\ forall i j, (i < 3)%nat -> (j < 3)%nat -> k i j = eighths i j.
Proof.
  destruct moore_values as (k & Hk & V). unfold kernel_moore. rewrite Hk. cbn [bind]. cbv zeta. eexists. split; [reflexivity|]. intros i j Hi Hj.
  set (k2 := fun i j => _). assert (K : forall i j, (i < 3)%nat -> (j < 3)%nat -> k2 i j = if (Nat.eqb i 1 && Nat.eqb j 1)%bool then 0 else 1).
  { intros a b Ha Hb. unfold k2. specialize (V a b Ha Hb). destruct (Nat.eqb a 1 && Nat.eqb b 1)%bool.
    - destruct (Rlt_dec (1 / 100) (k a b)); [lra|]. destruct (Rle_dec (k a b) (1 / 100)); [reflexivity|lra].
    - destruct (Rlt_dec (1 / 100) (k a b)); [|lra]. destruct (Rle_dec 1 (1 / 100)); [lra|reflexivity]. }
  unfold nb_normed. cbv zeta. rewrite sum3. rewrite !K by lia. cbn [Nat.eqb andb]. unfold eighths.
  destruct (Nat.eqb i 1 && Nat.eqb j 1)%bool; field.
Qed.

Lemma eye_stencil : exists k, kernel_eye = Ok k /\ forall i j, (i < 3)%nat -> (j < 3)%nat -> k i j = delta i j.
Proof.
  assert (G : exists k, nb_kernel (nb_gaussian 0 (1 / 10)) 0 (1 / 10) 1 = Ok k).
  { unfold nb_kernel. cbn [Nat.eqb negb guard bind]. rewrite (proj2 (nonzero_true (1 / 10))) by lra. cbn [guard bind]. eauto. }
  destruct G as [k Hk]. unfold kernel_eye. rewrite Hk. cbn [bind]. cbv zeta. eexists. split; [reflexivity|].
  apply nb_kernel_spec in Hk as (_ & _ & raw & -> & E & P). change (2 * 1 + 1)%nat with 3%nat in *.
  assert (V : forall i j, (i < 3)%nat -> (j < 3)%nat -> raw i j = nb_gaussian 0 (1 / 10) (rr3 i j)) by (intros; apply E). clear E.
  assert (C : nb_gaussian 0 (1 / 10) 0 = 1). { unfold nb_gaussian. replace (- ((0 - 0) / (1 / 10)) ^ 2 / 2) with 0 by field. apply exp_0. }
  assert (O : forall u, 1 <= u -> 0 < nb_gaussian 0 (1 / 10) u <= / 1000).
  { intros u Hu. split; [apply exp_pos|]. unfold nb_gaussian. apply Rle_trans with (exp (- INR 10)).
    - apply exp_mono. change (INR 10) with (1 + 1 + 1 + 1 + 1 + 1 + 1 + 1 + 1 + 1). nra.
    - pose proof (exp_neg_half 10). lra. }
  pose proof sq_sqrt2 as [S1 S2]. pose proof (O 1 ltac:(lra)) as O1. pose proof (O (sqrt 2) ltac:(lra)) as O2.
  set (e := nb_gaussian 0 (1 / 10) 1) in *. set (q := nb_gaussian 0 (1 / 10) (sqrt 2)) in *.
  set (nk := nb_normed 3 raw). assert (K : forall a b, (a < 3)%nat -> (b < 3)%nat -> if (Nat.eqb a 1 && Nat.eqb b 1)%bool then 99 / 100 <= nk a b else nk a b < 99 / 100).
  { intros a b Ha Hb. unfold nk, nb_normed. cbv zeta. rewrite sum3. rewrite !V, !rr3_val by lia. cbn [Nat.eqb andb orb]. rewrite C. fold e q.
    set (t := q + e + q + (e + 1 + e) + (q + e + q)). assert (T : 1 <= t <= 101 / 100) by (unfold t; lra).
    destruct (Nat.eqb a 1 && Nat.eqb b 1)%bool; [rewrite C; apply le_div; lra|].
    destruct (Nat.eqb a 1 || Nat.eqb b 1)%bool; [fold e|fold q]; apply div_lt; lra. }
  intros i j Hi Hj.
  set (k1 := fun i j : nat => if Rlt_dec (nk i j) (99 / 100) then 0 else nk i j). assert (K1 : forall a b, (a < 3)%nat -> (b < 3)%nat -> k1 a b = if (Nat.eqb a 1 && Nat.eqb b 1)%bool then nk 1%nat 1%nat else 0).
  { intros a b Ha Hb. unfold k1. specialize (K a b Ha Hb). destruct (Nat.eqb_spec a 1), (Nat.eqb_spec b 1); cbn [andb] in *; subst; destruct (Rlt_dec _ _); try lra; reflexivity. }
  unfold nb_normed. cbv zeta. fold nk. rewrite sum3. rewrite !K1 by lia. cbn [Nat.eqb andb]. specialize (K 1%nat 1%nat ltac:(lia) ltac:(lia)). cbn [Nat.eqb andb] in K. unfold delta.
  destruct (Nat.eqb i 1 && Nat.eqb j 1)%bool; field; lra.
Qed.

(** ** Neighbourhood values *)
Lemma zmod_id i H : (i < H)%nat -> zmod (Z.of_nat i) H = i.
Proof. intros Hi. unfold zmod. rewrite Z.mod_small by lia. apply Nat2Z.id. Qed.

Definition nb_sum (H W : nat) (x : arr) (i j : nat) : R :=
  fold_right Rplus 0 (map (fun o => x (zmod (Z.of_nat i + fst o) H) (zmod (Z.of_nat j + snd o) W)) moore_offsets).

Lemma conv_eighths H W k x i j : (forall a b, (a < 3)%nat -> (b < 3)%nat -> k a b = eighths a b) -> nb_conv H W 1 k x i j = nb_sum H W x i j / 8.
Proof.
  intros K. unfold nb_conv. change (2 * 1 + 1)%nat with 3%nat. rewrite sum3. rewrite !K by lia. unfold eighths. cbn [Nat.eqb andb]. unfold nb_sum, moore_offsets. cbn [map fold_right fst snd].
  replace (Z.of_nat i + Z.of_nat 1 - Z.of_nat 0)%Z with (Z.of_nat i + 1)%Z by lia. replace (Z.of_nat i + Z.of_nat 1 - Z.of_nat 1)%Z with (Z.of_nat i + 0)%Z by lia.
  replace (Z.of_nat i + Z.of_nat 1 - Z.of_nat 2)%Z with (Z.of_nat i + -1)%Z by lia.
  replace (Z.of_nat j + Z.of_nat 1 - Z.of_nat 0)%Z with (Z.of_nat j + 1)%Z by lia. replace (Z.of_nat j + Z.of_nat 1 - Z.of_nat 1)%Z with (Z.of_nat j + 0)%Z by lia.
  replace (Z.of_nat j + Z.of_nat 1 - Z.of_nat 2)%Z with (Z.of_nat j + -1)%Z by lia. lra.
Qed.

Lemma conv_delta H W k x i j : (i < H)%nat -> (j < W)%nat -> (forall a b, (a < 3)%nat -> (b < 3)%nat -> k a b = delta a b) -> nb_conv H W 1 k x i j = x i j.
Proof.
  intros Hi Hj K. unfold nb_conv. change (2 * 1 + 1)%nat with 3%nat. rewrite sum3. rewrite !K by lia. unfold delta. cbn [Nat.eqb andb].
  replace (Z.of_nat i + Z.of_nat 1 - Z.of_nat 1)%Z with (Z.of_nat i) by lia. replace (Z.of_nat j + Z.of_nat 1 - Z.of_nat 1)%Z with (Z.of_nat j) by lia.
  rewrite !zmod_id by assumption. lra.
Qed.

Lemma zmod_lt a n : (0 < n)%nat -> (zmod a n < n)%nat.
Proof. intros Hn. unfold zmod. pose proof (Z.mod_pos_bound a (Z.of_nat n) ltac:(lia)). lia. Qed.

(** The neighbourhood sum of a grid near a board. *)
Lemma sum_tracks d e H W x g i j : (0 < H)%nat -> (0 < W)%nat -> 0 <= d -> 0 <= e -> tracks d e H W x g -> let n := INR (live_neighbours H W g i j) in
  n * (1 - e) <= nb_sum H W x i j <= n + (8 - n) * d /\ (live_neighbours H W g i j <= 8)%nat.
Proof.
  intros HH HW D E T. cbv zeta. unfold live_neighbours, nb_sum.
  assert (G : forall l, let n := list_sum (map (fun o : Z * Z => b2n (g (zmod (Z.of_nat i + fst o) H) (zmod (Z.of_nat j + snd o) W))) l) in
    INR n * (1 - e) <= fold_right Rplus 0 (map (fun o : Z * Z => x (zmod (Z.of_nat i + fst o) H) (zmod (Z.of_nat j + snd o) W)) l) <= INR n + (INR (List.length l) - INR n) * d /\ (n <= List.length l)%nat).
  { induction l as [|o l IH]; cbv zeta in *; [cbn; split; [lra|lia]|]. cbn [map fold_right List.length]. destruct IH as [IH L].
    specialize (T (zmod (Z.of_nat i + fst o) H) (zmod (Z.of_nat j + snd o) W) (zmod_lt _ _ HH) (zmod_lt _ _ HW)).
    unfold list_sum in *. cbn [fold_right]. rewrite plus_INR, (S_INR (List.length l)).
    destruct (g _ _); cbn [b2n]; [change (INR 1) with 1|change (INR 0) with 0]; (split; [|lia]); lra. }
  specialize (G moore_offsets). cbv zeta in G. change (INR (List.length moore_offsets)) with (1 + 1 + 1 + 1 + 1 + 1 + 1 + 1) in G. change (List.length moore_offsets) with 8%nat in G.
  destruct G as [G1 G2]. split; [|exact G2]. lra.
Qed.

(** ** Smoothed intervals *)
Definition piece (b : Z) (x : R) : R := nb_sigmoid x (IZR (2 * b - 1) / 18) (125 / 10000) * (1 - nb_sigmoid x (IZR (2 * b + 1) / 18) (125 / 10000)).

Lemma steps_pieces l x : nb_steps (nb_interval l) (125 / 10000) x = fold_right Rplus 0 (map (fun b => piece b x) l).
Proof.
  unfold nb_steps. assert (G : forall a, fold_left (fun result edges => result + nb_sigmoid x (fst edges) (125 / 10000) * (1 - nb_sigmoid x (snd edges) (125 / 10000))) (nb_interval l) a = a + fold_right Rplus 0 (map (fun b => piece b x) l)).
  { induction l as [|b l IH]; intros a; [cbn; ring|]. cbn [nb_interval map fold_left fold_right fst snd]. fold (nb_interval l). rewrite IH. unfold piece. ring. }
  rewrite G. ring.
Qed.

(** How far a smoothed edge is from a sharp one. *)
Definition edge (d : R) : R := exp (- (320 * d)).

Lemma edge_pos d : 0 < edge d. Proof. apply exp_pos. Qed.
Lemma edge_mono a b : a <= b -> edge b <= edge a. Proof. intros H. unfold edge. apply exp_mono. lra. Qed.

Lemma sig_range x mu : 0 < nb_sigmoid x mu (125 / 10000) < 1. Proof. exact (sigmoid_range x mu _). Qed.
Lemma sig_hi x mu d : mu + d <= x -> 1 - edge d <= nb_sigmoid x mu (125 / 10000).
Proof. intros H. pose proof (sigmoid_hi x mu (125 / 10000) d ltac:(lra) H) as G. unfold edge. replace (320 * d) with (4 * d / (125 / 10000)) by field. unfold nb_sigmoid. unfold sigmoid_1 in G. lra. Qed.
Lemma sig_lo x mu d : x <= mu - d -> nb_sigmoid x mu (125 / 10000) <= edge d.
Proof. intros H. pose proof (sigmoid_lo x mu (125 / 10000) d ltac:(lra) H) as G. unfold edge. replace (320 * d) with (4 * d / (125 / 10000)) by field. exact G. Qed.

Lemma piece_range b x : 0 <= piece b x <= 1.
Proof. unfold piece. pose proof (sig_range x (IZR (2 * b - 1) / 18)). pose proof (sig_range x (IZR (2 * b + 1) / 18)). nra. Qed.

Lemma piece_in b x d1 d2 : IZR (2 * b - 1) / 18 + d1 <= x -> x <= IZR (2 * b + 1) / 18 - d2 -> 1 - edge d1 - edge d2 <= piece b x.
Proof.
  intros H1 H2. apply sig_hi in H1. apply sig_lo in H2. unfold piece. pose proof (sig_range x (IZR (2 * b - 1) / 18)). pose proof (sig_range x (IZR (2 * b + 1) / 18)).
  pose proof (edge_pos d1). pose proof (edge_pos d2). nra.
Qed.

Lemma piece_below b x d : x <= IZR (2 * b - 1) / 18 - d -> piece b x <= edge d.
Proof. intros H. apply sig_lo in H. unfold piece. pose proof (sig_range x (IZR (2 * b - 1) / 18)). pose proof (sig_range x (IZR (2 * b + 1) / 18)). nra. Qed.

Lemma piece_above b x d : IZR (2 * b + 1) / 18 + d <= x -> piece b x <= edge d.
Proof. intros H. apply sig_hi in H. unfold piece. pose proof (sig_range x (IZR (2 * b - 1) / 18)). pose proof (sig_range x (IZR (2 * b + 1) / 18)). nra. Qed.

Lemma edge_1 : edge (1 / 72) <= / 75.
Proof.
  unfold edge. rewrite exp_Ropp. apply Rinv_le_contravar; [lra|]. replace (320 * (1 / 72)) with (INR 80 * (1 / 18)) by (rewrite INR_IZR_INZ; cbn [Z.of_nat Pos.of_succ_nat Pos.succ]; lra).
  rewrite <- exp_pow. apply Rle_trans with ((19 / 18) ^ 80); [lra|]. apply pow_incr. split; [lra|]. pose proof (exp_ineq1_le (1 / 18)). lra.
Qed.

Lemma edge_add a b : edge (a + b) = edge a * edge b.
Proof. unfold edge. rewrite <- exp_plus. f_equal. ring. Qed.

Lemma edge_2 : edge (2 / 72) <= / 5625.
Proof. replace (2 / 72) with (1 / 72 + 1 / 72) by field. rewrite edge_add. pose proof edge_1. pose proof (edge_pos (1 / 72)). nra. Qed.
Lemma edge_3 : edge (3 / 72) <= / 421875.
Proof. replace (3 / 72) with (1 / 72 + 2 / 72) by field. rewrite edge_add. pose proof edge_1. pose proof (edge_pos (1 / 72)). pose proof edge_2. pose proof (edge_pos (2 / 72)). nra. Qed.

(** ** What a rule is read as *)
Lemma sum_perm (f : Z -> R) l l' : Permutation l l' -> fold_right Rplus 0 (map f l) = fold_right Rplus 0 (map f l').
Proof. intros P. induction P; cbn [map fold_right]; lra. Qed.

Lemma in_rule_iff l b : in_rule l b = true <-> In b l.
Proof.
  unfold in_rule. rewrite existsb_exists. split; [intros (x & Hx & E); apply Z.eqb_eq in E; subst; exact Hx|]. intros H. exists b. split; [exact H|apply Z.eqb_refl].
Qed.

Lemma sum_filter (f : Z -> R) p l : fold_right Rplus 0 (map f (filter p l)) = fold_right Rplus 0 (map (fun b => b2R (p b) * f b) l).
Proof. induction l as [|b l IH]; [reflexivity|]. cbn [filter map fold_right]. destruct (p b); cbn [map fold_right b2R]; lra. Qed.

Lemma sum_rule (f : Z -> R) l : rule_list l -> fold_right Rplus 0 (map f l) = fold_right Rplus 0 (map (fun b => b2R (in_rule l b) * f b) counts).
Proof.
  intros [N F]. rewrite <- sum_filter. apply sum_perm. apply NoDup_Permutation; [exact N| |].
  - apply NoDup_filter. unfold counts. repeat constructor; cbn [In]; lia.
  - intros b. rewrite filter_In, in_rule_iff. rewrite Forall_forall in F. split; [|tauto]. intros H. split; [|exact H]. specialize (F b H). unfold counts. cbn [In]. lia.
Qed.

Lemma piece_half_hi x b : x = IZR (2 * b + 1) / 18 -> (1 - edge (1 / 9)) / 2 <= piece b x <= / 2.
Proof.
  intros E. unfold piece. assert (S : nb_sigmoid x (IZR (2 * b + 1) / 18) (125 / 10000) = / 2).
  { unfold nb_sigmoid. rewrite E. replace (-4 * (IZR (2 * b + 1) / 18 - IZR (2 * b + 1) / 18) / (125 / 10000)) with 0 by field. rewrite exp_0. lra. }
  rewrite S. assert (H : IZR (2 * b - 1) / 18 + 1 / 9 <= x). { rewrite E, minus_IZR, plus_IZR. lra. }
  apply sig_hi in H. pose proof (sig_range x (IZR (2 * b - 1) / 18)). lra.
Qed.

Lemma piece_half_lo x b : x = IZR (2 * b - 1) / 18 -> (1 - edge (1 / 9)) / 2 <= piece b x <= / 2.
Proof.
  intros E. unfold piece. assert (S : nb_sigmoid x (IZR (2 * b - 1) / 18) (125 / 10000) = / 2).
  { unfold nb_sigmoid. rewrite E. replace (-4 * (IZR (2 * b - 1) / 18 - IZR (2 * b - 1) / 18) / (125 / 10000)) with 0 by field. rewrite exp_0. lra. }
  rewrite S. assert (H : x <= IZR (2 * b + 1) / 18 - 1 / 9). { rewrite E, minus_IZR, plus_IZR. lra. }
  apply sig_lo in H. pose proof (sig_range x (IZR (2 * b + 1) / 18)). lra.
Qed.

Lemma b2R_cases b : b2R b = 0 \/ b2R b = 1. Proof. destruct b; auto. Qed.

Lemma mul_dev (c p t e : R) : (c = 0 \/ c = 1) -> Rabs (p - t) <= e -> - e <= c * p - c * t <= e.
Proof. intros [-> | ->] H; unfold Rabs in H; destruct (Rcase_abs _) in H; lra. Qed.

Ltac num := rewrite ?minus_IZR, ?plus_IZR, ?mult_IZR; lra.

(** Distance of one smoothed rule from what it is read as. *)
Lemma piece_dev b n : In b counts -> (n <= 8)%nat ->
  Rabs (piece b (INR n / 8) - (if Nat.leb n 3 then b2R (Z.eqb b (Z.of_nat n)) else if Nat.eqb n 4 then (b2R (Z.eqb b 4) + b2R (Z.eqb b 5)) / 2 else b2R (Z.eqb b (Z.of_nat n + 1))))
  <= if (Nat.eqb n 3 && (Z.eqb b 3 || Z.eqb b 4) || Nat.eqb n 5 && (Z.eqb b 5 || Z.eqb b 6))%bool then / 75 + / 5625 else 2 / 5625.
Proof.
  intros Hb Hn. pose proof edge_1 as E1. pose proof edge_2 as E2. pose proof (edge_mono (2 / 72) (1 / 9) ltac:(lra)) as E9. pose proof (edge_pos (1 / 9)) as P9.
  pose proof (edge_pos (1 / 72)). pose proof (edge_pos (2 / 72)). rewrite INR_IZR_INZ.
  unfold counts in Hb. cbn [In] in Hb.
  assert (Hn' : (n = 0 \/ n = 1 \/ n = 2 \/ n = 3 \/ n = 4 \/ n = 5 \/ n = 6 \/ n = 7 \/ n = 8)%nat) by lia.
  repeat match goal with H : _ \/ _ |- _ => destruct H end; try contradiction; subst; cbn [Nat.leb Nat.eqb Z.of_nat Pos.of_succ_nat Pos.succ Z.eqb Pos.eqb Z.add Pos.add andb orb b2R].
  all: match goal with |- Rabs (piece ?b ?x - _) <= _ => pose proof (piece_range b x) end.
  all: match goal with |- Rabs (piece ?b ?x - _) <= _ =>
    first [pose proof (piece_in b x (2 / 72) (2 / 72) ltac:(num) ltac:(num)) | pose proof (piece_in b x (1 / 72) (2 / 72) ltac:(num) ltac:(num)) | pose proof (piece_in b x (2 / 72) (1 / 72) ltac:(num) ltac:(num))
    | pose proof (piece_half_hi x b ltac:(num)) | pose proof (piece_half_lo x b ltac:(num))
    | pose proof (piece_below b x (2 / 72) ltac:(num)) | pose proof (piece_above b x (2 / 72) ltac:(num)) | pose proof (piece_below b x (1 / 72) ltac:(num)) | pose proof (piece_above b x (1 / 72) ltac:(num))] end.
  all: unfold Rabs; destruct (Rcase_abs _); lra.
Qed.

Lemma steps_weight l n : rule_list l -> (n <= 8)%nat -> Rabs (nb_steps (nb_interval l) (125 / 10000) (INR n / 8) - weight l n) <= 1 / 30.
Proof.
  intros RL Hn. rewrite steps_pieces, sum_rule by exact RL. unfold counts. cbn [map fold_right].
  assert (D : forall b, In b counts -> _) by (intros b Hb; exact (mul_dev (b2R (in_rule l b)) _ _ _ (b2R_cases _) (piece_dev b n Hb Hn))).
  assert (N9 : in_rule l 9 = false).
  { destruct (in_rule l 9) eqn:E; [|reflexivity]. apply in_rule_iff in E. destruct RL as [_ F]. rewrite Forall_forall in F. specialize (F _ E). lia. }
  pose proof (D 0%Z ltac:(cbn; lia)) as D0. pose proof (D 1%Z ltac:(cbn; lia)) as D1. pose proof (D 2%Z ltac:(cbn; lia)) as D2. pose proof (D 3%Z ltac:(cbn; lia)) as D3. pose proof (D 4%Z ltac:(cbn; lia)) as D4.
  pose proof (D 5%Z ltac:(cbn; lia)) as D5. pose proof (D 6%Z ltac:(cbn; lia)) as D6. pose proof (D 7%Z ltac:(cbn; lia)) as D7. pose proof (D 8%Z ltac:(cbn; lia)) as D8. clear D.
  unfold weight. generalize dependent (piece 0 (INR n / 8)). generalize dependent (piece 1 (INR n / 8)). generalize dependent (piece 2 (INR n / 8)). generalize dependent (piece 3 (INR n / 8)).
  generalize dependent (piece 4 (INR n / 8)). generalize dependent (piece 5 (INR n / 8)). generalize dependent (piece 6 (INR n / 8)). generalize dependent (piece 7 (INR n / 8)). generalize dependent (piece 8 (INR n / 8)).
  assert (Hn' : (n = 0 \/ n = 1 \/ n = 2 \/ n = 3 \/ n = 4 \/ n = 5 \/ n = 6 \/ n = 7 \/ n = 8)%nat) by lia.
  repeat match goal with H : (n = _) \/ _ |- _ => destruct H end; subst n; cbn [Nat.leb Nat.eqb Z.of_nat Pos.of_succ_nat Pos.succ Z.eqb Pos.eqb Z.add Pos.add andb orb b2R]; rewrite ?N9; cbn [b2R];
    intros; unfold Rabs; destruct (Rcase_abs _); lra.
Qed.

(** ** One step *)
Lemma clamp_dev a b e : Rabs (a - b) <= e -> Rabs (clamp 0 1 a - clamp 0 1 b) <= e.
Proof.
  intros H. unfold clamp, Rmin, Rmax. repeat destruct (Rle_dec _ _); revert H; unfold Rabs; repeat destruct (Rcase_abs _); lra.
Qed.

Section Step.
Context (km ke : arr) (H W : nat).
Hypothesis KM : forall a b, (a < 3)%nat -> (b < 3)%nat -> km a b = eighths a b.
Hypothesis KE : forall a b, (a < 3)%nat -> (b < 3)%nat -> ke a b = delta a b.

Lemma update_eq le B S x i j : (i < H)%nat -> (j < W)%nat -> nb_update le B S H W km ke x i j =
  let n := nb_sum H W x i j / 8 in let b := nb_steps (nb_interval B) (125 / 10000) n in let s := nb_steps (nb_interval S) (125 / 10000) n in
  clamp 0 1 (x i j + (if le then b + s - 1 else ((1 - x i j) * b + x i j * s) * 2 - 1)).
Proof.
  intros Hi Hj. unfold nb_update. cbv zeta. rewrite (conv_eighths _ _ _ _ _ _ KM). rewrite (conv_delta _ _ _ _ _ _ Hi Hj KE). rewrite Rmult_1_l. reflexivity.
Qed.

Lemma exact_sum x g i j : (i < H)%nat -> (j < W)%nat -> tracks 0 0 H W x g -> nb_sum H W x i j = INR (live_neighbours H W g i j) /\ (live_neighbours H W g i j <= 8)%nat /\ x i j = b2R (g i j).
Proof.
  intros Hi Hj T. destruct (sum_tracks 0 0 H W x g i j ltac:(lia) ltac:(lia) ltac:(lra) ltac:(lra) T) as [A B]. split; [lra|]. split; [exact B|].
  specialize (T i j Hi Hj). destruct (g i j); cbn [b2R]; lra.
Qed.

(** One step of an exact board. *)
Lemma step_weight le B S x g i j : rule_list B -> rule_list S -> (i < H)%nat -> (j < W)%nat -> tracks 0 0 H W x g ->
  let n := live_neighbours H W g i j in
  Rabs (nb_update le B S H W km ke x i j - clamp 0 1 (if le then b2R (g i j) + weight B n + weight S n - 1 else if g i j then 2 * weight S n else 2 * weight B n - 1)) <= 1 / 15.
Proof.
  intros RB RS Hi Hj T. cbv zeta. rewrite update_eq by assumption. cbv zeta. destruct (exact_sum x g i j Hi Hj T) as (-> & L & ->). set (n := live_neighbours H W g i j) in *.
  apply clamp_dev. pose proof (steps_weight B n RB L) as D1. pose proof (steps_weight S n RS L) as D2. set (b := nb_steps (nb_interval B) _ _) in *. set (s := nb_steps (nb_interval S) _ _) in *.
  revert D1 D2. destruct le, (g i j); cbn [b2R]; unfold Rabs; repeat destruct (Rcase_abs _); lra.
Qed.
End Step.

Lemma clamp01 a : 0 <= clamp 0 1 a <= 1.
Proof. unfold clamp, Rmin, Rmax. repeat destruct (Rle_dec _ _); lra. Qed.

Lemma in_filter p n : (n <= 8)%nat -> existsb (Z.eqb (Z.of_nat n)) (filter p counts) = p (Z.of_nat n).
Proof.
  intros Hn. fold (in_rule (filter p counts) (Z.of_nat n)). destruct (p (Z.of_nat n)) eqn:E.
  - apply in_rule_iff. apply filter_In. split; [unfold counts; cbn [In]; lia|exact E].
  - destruct (in_rule _ _) eqn:F; [|reflexivity]. apply in_rule_iff, filter_In in F as [_ F]. congruence.
Qed.

(** What [weight] says about a cell. *)
Lemma weight_birth l n : (n <= 8)%nat -> clamp 0 1 (2 * weight l n - 1) = b2R (in_rule (read_birth l) (Z.of_nat n)).
Proof.
  intros Hn. unfold in_rule at 1, read_birth, as_read. rewrite in_filter by exact Hn. unfold weight.
  destruct (Nat.leb_spec n 3) as [L|L].
  - rewrite (proj2 (Z.leb_le _ _)) by lia. destruct (in_rule l (Z.of_nat n)); cbn [b2R]; unfold clamp, Rmin, Rmax; repeat destruct (Rle_dec _ _); lra.
  - rewrite (proj2 (Z.leb_gt _ _)) by lia. destruct (Nat.eqb_spec n 4) as [->|N].
    + cbn [Z.of_nat Pos.of_succ_nat Pos.succ Z.eqb Pos.eqb]. destruct (in_rule l 4), (in_rule l 5); cbn [b2R andb]; unfold clamp, Rmin, Rmax; repeat destruct (Rle_dec _ _); lra.
    + rewrite (proj2 (Z.eqb_neq _ _)) by lia. destruct (in_rule l (Z.of_nat n + 1)); cbn [b2R]; unfold clamp, Rmin, Rmax; repeat destruct (Rle_dec _ _); lra.
Qed.

Lemma weight_survival l n : (n <= 8)%nat -> clamp 0 1 (2 * weight l n) = b2R (in_rule (read_survival l) (Z.of_nat n)).
Proof.
  intros Hn. unfold in_rule at 1, read_survival, as_read. rewrite in_filter by exact Hn. unfold weight.
  destruct (Nat.leb_spec n 3) as [L|L].
  - rewrite (proj2 (Z.leb_le _ _)) by lia. destruct (in_rule l (Z.of_nat n)); cbn [b2R]; unfold clamp, Rmin, Rmax; repeat destruct (Rle_dec _ _); lra.
  - rewrite (proj2 (Z.leb_gt _ _)) by lia. destruct (Nat.eqb_spec n 4) as [->|N].
    + cbn [Z.of_nat Pos.of_succ_nat Pos.succ Z.eqb Pos.eqb]. destruct (in_rule l 4), (in_rule l 5); cbn [b2R orb]; unfold clamp, Rmin, Rmax; repeat destruct (Rle_dec _ _); lra.
    + rewrite (proj2 (Z.eqb_neq _ _)) by lia. destruct (in_rule l (Z.of_nat n + 1)); cbn [b2R]; unfold clamp, Rmin, Rmax; repeat destruct (Rle_dec _ _); lra.
Qed.

Lemma near_tracks d H W x g : (forall i j, (i < H)%nat -> (j < W)%nat -> 0 <= x i j <= 1 /\ Rabs (x i j - b2R (g i j)) <= d) -> tracks d d H W x g.
Proof. intros A i j Hi Hj. destruct (A i j Hi Hj) as [B C]. revert C. destruct (g i j); cbn [b2R]; unfold Rabs; destruct (Rcase_abs _); lra. Qed.

Lemma update_unit le B S H W km ke x i j : 0 <= nb_update le B S H W km ke x i j <= 1.
Proof. apply clamp01. Qed.

Lemma step_life km ke H W B S x g : (forall a b, (a < 3)%nat -> (b < 3)%nat -> km a b = eighths a b) -> (forall a b, (a < 3)%nat -> (b < 3)%nat -> ke a b = delta a b) ->
  rule_list B -> rule_list S -> tracks 0 0 H W x g -> tracks (1 / 15) (1 / 15) H W (nb_update false B S H W km ke x) (life (read_birth B) (read_survival S) H W g).
Proof.
  intros KM KE RB RS T. apply near_tracks. intros i j Hi Hj. split; [apply update_unit|].
  pose proof (step_weight km ke H W KM KE false B S x g i j RB RS Hi Hj T) as D. cbv zeta in D. destruct (exact_sum H W x g i j Hi Hj T) as (_ & L & _).
  unfold life, life_cell. destruct (g i j); [rewrite weight_survival in D by exact L|rewrite weight_birth in D by exact L]; exact D.
Qed.

(** Rules without 4 and 5 are read alike for birth and survival. *)
Lemma read_same l : ~ In 4%Z l -> ~ In 5%Z l -> read_survival l = read_birth l.
Proof.
  intros A B. unfold read_survival, read_birth, as_read. apply filter_ext. intros n. destruct (n <=? 3)%Z; [reflexivity|]. destruct (n =? 4)%Z; [|reflexivity].
  destruct (in_rule l 4) eqn:E; [apply in_rule_iff in E; contradiction|]. destruct (in_rule l 5) eqn:F; [apply in_rule_iff in F; contradiction|]. reflexivity.
Qed.

Lemma weight_read l n : ~ In 4%Z l -> ~ In 5%Z l -> (n <= 8)%nat -> weight l n = b2R (in_rule (read_birth l) (Z.of_nat n)).
Proof.
  intros A B Hn. unfold in_rule at 1, read_birth, as_read. rewrite in_filter by exact Hn. unfold weight.
  destruct (Nat.leb_spec n 3) as [L|L]; [rewrite (proj2 (Z.leb_le _ _)) by lia; reflexivity|]. rewrite (proj2 (Z.leb_gt _ _)) by lia.
  destruct (Nat.eqb_spec n 4) as [->|N]; [|rewrite (proj2 (Z.eqb_neq _ _)) by lia; reflexivity]. cbn [Z.of_nat Pos.of_succ_nat Pos.succ Z.eqb Pos.eqb].
  destruct (in_rule l 4) eqn:E; [apply in_rule_iff in E; contradiction|]. destruct (in_rule l 5) eqn:F; [apply in_rule_iff in F; contradiction|]. cbn [andb b2R]. lra.
Qed.

Lemma step_lenia km ke H W B S x g : (forall a b, (a < 3)%nat -> (b < 3)%nat -> km a b = eighths a b) -> (forall a b, (a < 3)%nat -> (b < 3)%nat -> ke a b = delta a b) ->
  rule_list B -> rule_list S -> (forall n, In n [4; 5]%Z -> ~ In n B /\ ~ In n S) -> tracks 0 0 H W x g ->
  tracks (1 / 15) (1 / 15) H W (nb_update true B S H W km ke x) (life (both_rules (read_birth B) (read_birth S)) (read_birth B ++ read_birth S) H W g).
Proof.
  intros KM KE RB RS N T. apply near_tracks. intros i j Hi Hj. split; [apply update_unit|].
  pose proof (step_weight km ke H W KM KE true B S x g i j RB RS Hi Hj T) as D. cbv zeta in D. destruct (exact_sum H W x g i j Hi Hj T) as (_ & L & _).
  destruct (N 4%Z ltac:(cbn; auto)) as [N1 N2]. destruct (N 5%Z ltac:(cbn; auto)) as [N3 N4]. rewrite !weight_read in D by assumption.
  set (n := live_neighbours H W g i j) in *. unfold life, life_cell. fold n.
  replace (clamp 0 1 _) with (b2R (existsb (Z.eqb (Z.of_nat n)) (if g i j then read_birth B ++ read_birth S else both_rules (read_birth B) (read_birth S)))) in D; [exact D|].
  destruct (g i j).
  - rewrite existsb_app. fold (in_rule (read_birth B) (Z.of_nat n)) (in_rule (read_birth S) (Z.of_nat n)).
    destruct (in_rule (read_birth B) (Z.of_nat n)), (in_rule (read_birth S) (Z.of_nat n)); cbn [orb b2R]; unfold clamp, Rmin, Rmax; repeat destruct (Rle_dec _ _); lra.
  - assert (E : existsb (Z.eqb (Z.of_nat n)) (both_rules (read_birth B) (read_birth S)) = (in_rule (read_birth B) (Z.of_nat n) && in_rule (read_birth S) (Z.of_nat n))%bool).
    { fold (in_rule (both_rules (read_birth B) (read_birth S)) (Z.of_nat n)). apply eq_true_iff_eq. rewrite andb_true_iff, in_rule_iff. unfold both_rules. rewrite filter_In, <- in_rule_iff. reflexivity. }
    rewrite E. destruct (in_rule (read_birth B) (Z.of_nat n)), (in_rule (read_birth S) (Z.of_nat n)); cbn [andb b2R]; unfold clamp, Rmin, Rmax; repeat destruct (Rle_dec _ _); lra.
Qed.

(** Rules up to 3 are read as meant. *)
Lemma read_low l n : low_rule l -> (n <= 8)%nat -> in_rule (read_birth l) (Z.of_nat n) = in_rule l (Z.of_nat n) /\ in_rule (read_survival l) (Z.of_nat n) = in_rule l (Z.of_nat n).
Proof.
  intros F Hn. assert (O : forall z, (3 < z)%Z -> in_rule l z = false).
  { intros z Hz. destruct (in_rule l z) eqn:E; [|reflexivity]. apply in_rule_iff in E. unfold low_rule in F. rewrite Forall_forall in F. specialize (F _ E). lia. }
  unfold in_rule at 1 3, read_birth, read_survival, as_read. rewrite !in_filter by exact Hn. destruct (Z.leb_spec (Z.of_nat n) 3) as [L|L]; [split; reflexivity|].
  rewrite (O (Z.of_nat n)) by lia. rewrite (O 4%Z), (O 5%Z), (O (Z.of_nat n + 1)%Z) by lia. destruct (Z.of_nat n =? 4)%Z; split; reflexivity.
Qed.

(** ** Life for all time *)
Definition dl : R := / 100000.

Lemma edge_tiny : edge (30 / 320) <= / 1000000.
Proof.
  apply Rle_trans with (edge (5 / 72)); [apply edge_mono; lra|]. replace (5 / 72) with (2 / 72 + 3 / 72) by field. rewrite edge_add.
  pose proof edge_2. pose proof edge_3. pose proof (edge_pos (2 / 72)). pose proof (edge_pos (3 / 72)). nra.
Qed.

(** An edge approached by a little. *)
Lemma edge_less d : edge (d - dl) <= edge d * (101 / 100).
Proof.
  replace (d - dl) with (d + - dl) by ring. rewrite edge_add. apply Rmult_le_compat_l; [left; apply edge_pos|]. unfold edge, dl.
  replace (- (320 * - / 100000)) with (320 / 100000) by field.
  pose proof (exp_ineq1_le (- (320 / 100000))) as E. rewrite exp_Ropp in E. pose proof (exp_pos (320 / 100000)) as P.
  assert (Q : exp (320 / 100000) * (1 + - (320 / 100000)) <= 1). { apply Rle_trans with (exp (320 / 100000) * / exp (320 / 100000)); [apply Rmult_le_compat_l; lra|]. rewrite Rinv_r; lra. }
  lra.
Qed.

Section Forever.
Context (km ke : arr) (H W : nat).
Hypothesis KM : forall a b, (a < 3)%nat -> (b < 3)%nat -> km a b = eighths a b.
Hypothesis KE : forall a b, (a < 3)%nat -> (b < 3)%nat -> ke a b = delta a b.

Lemma conway_step x g : tracks dl (1 / 30) H W x g -> tracks dl (1 / 30) H W (nb_update false [3]%Z [2; 3]%Z H W km ke x) (life [3]%Z [2; 3]%Z H W g).
Proof.
  intros T i j Hi Hj. rewrite (update_eq km ke H W KM KE) by assumption. cbv zeta.
  destruct (sum_tracks dl (1 / 30) H W x g i j ltac:(lia) ltac:(lia) ltac:(unfold dl; lra) ltac:(lra) T) as [SB L8]. specialize (T i j Hi Hj).
  unfold life, life_cell. set (k := live_neighbours H W g i j) in *. set (n := nb_sum H W x i j / 8). rewrite !steps_pieces. cbn [map fold_right].
  pose proof (piece_range 2 n) as P2. pose proof (piece_range 3 n) as P3. set (m := x i j) in *.
  pose proof edge_1 as E1. pose proof edge_2 as E2. pose proof edge_3 as E3. pose proof edge_tiny as E5.
  pose proof (edge_less (1 / 72)) as F1. pose proof (edge_less (2 / 72)) as F2. pose proof (edge_less (3 / 72)) as F3.
  assert (K : (k = 0 \/ k = 1 \/ k = 2 \/ k = 3 \/ 4 <= k)%nat) by lia. unfold dl in *.
  destruct K as [K|[K|[K|[K|K]]]].
  1-4: rewrite K in SB |- *; rewrite INR_IZR_INZ in SB; cbn [Z.of_nat Pos.of_succ_nat Pos.succ existsb Z.eqb Pos.eqb orb] in SB |- *.
  - (* none *)
    assert (A2 : piece 2 n <= edge (3 / 72)) by (apply piece_below; unfold n; num).
    assert (A3 : piece 3 n <= edge (30 / 320)) by (apply piece_below; unfold n; num).
    destruct (g i j); cbn [existsb Z.eqb Pos.eqb orb]; split; try apply clamp01; unfold clamp, Rmin, Rmax; repeat destruct (Rle_dec _ _); nra.
  - assert (A2 : piece 2 n <= edge (3 / 72 - / 100000)) by (apply piece_below; unfold n; num).
    assert (A3 : piece 3 n <= edge (30 / 320)) by (apply piece_below; unfold n; num).
    destruct (g i j); cbn [existsb Z.eqb Pos.eqb orb]; split; try apply clamp01; unfold clamp, Rmin, Rmax; repeat destruct (Rle_dec _ _); nra.
  - assert (A3 : piece 3 n <= edge (2 / 72 - / 100000)) by (apply piece_below; unfold n; num).
    assert (A2 : 1 - edge (2 / 72) - edge (2 / 72 - / 100000) <= piece 2 n) by (apply piece_in; unfold n; num).
    destruct (g i j); cbn [existsb Z.eqb Pos.eqb orb]; split; try apply clamp01; unfold clamp, Rmin, Rmax; repeat destruct (Rle_dec _ _); nra.
  - assert (A3 : 1 - edge (5 / 72) - edge (1 / 72 - / 100000) <= piece 3 n) by (apply piece_in; unfold n; num).
    assert (E6 : edge (5 / 72) <= edge (3 / 72)) by (apply edge_mono; lra).
    destruct (g i j); cbn [existsb Z.eqb Pos.eqb orb]; split; try apply clamp01; unfold clamp, Rmin, Rmax; repeat destruct (Rle_dec _ _); nra.
  - assert (Q : 4 <= INR k) by (apply le_INR in K; rewrite INR_IZR_INZ in K; cbn [Z.of_nat Pos.of_succ_nat Pos.succ] in K; exact K).
    assert (A3 : piece 3 n <= edge (30 / 320)) by (apply piece_above; unfold n; num).
    assert (A2 : piece 2 n <= edge (30 / 320)) by (apply piece_above; unfold n; num).
    assert (X : existsb (Z.eqb (Z.of_nat k)) (if g i j then [2; 3]%Z else [3]%Z) = false).
    { destruct (g i j); cbn [existsb]; rewrite ?(proj2 (Z.eqb_neq (Z.of_nat k) 2)), ?(proj2 (Z.eqb_neq (Z.of_nat k) 3)) by lia; reflexivity. }
    rewrite X. destruct (g i j); split; try apply clamp01; unfold clamp, Rmin, Rmax; repeat destruct (Rle_dec _ _); nra.
Qed.

Lemma conway_forever x g t : tracks dl (1 / 30) H W x g -> tracks dl (1 / 30) H W (nb_run false [3]%Z [2; 3]%Z H W km ke t x) (life_n [3]%Z [2; 3]%Z H W t g).
Proof. intros T. induction t as [|t IH]; [exact T|]. cbn [nb_run life_n]. apply conway_step. exact IH. Qed.
End Forever.

(** ** A block in the Lenia version *)
Definition block_board : board := fun i j => (Nat.leb 2 i && Nat.leb i 3 && Nat.leb 2 j && Nat.leb j 3)%bool.
Definition rim : board := fun i j => ((Nat.eqb i 1 || Nat.eqb i 4) && (Nat.leb 2 j && Nat.leb j 3) || (Nat.eqb j 1 || Nat.eqb j 4) && (Nat.leb 2 i && Nat.leb i 3))%bool.
Definition block_grid (p : R) : arr := fun i j => b2R (block_board i j) + p * b2R (rim i j).

Lemma nb_sum_ext H W x y i j : (0 < H)%nat -> (0 < W)%nat -> (forall a b, (a < H)%nat -> (b < W)%nat -> x a b = y a b) -> nb_sum H W x i j = nb_sum H W y i j.
Proof. intros HH HW E. unfold nb_sum. f_equal. apply map_ext. intros o. apply E; apply zmod_lt; assumption. Qed.

Lemma b2R_INR b : b2R b = INR (b2n b). Proof. destruct b; reflexivity. Qed.

Lemma block_sum p i j : nb_sum 6 6 (block_grid p) i j = INR (live_neighbours 6 6 block_board i j) + INR (live_neighbours 6 6 rim i j) * p.
Proof.
  unfold nb_sum, live_neighbours. generalize moore_offsets as l. induction l as [|o l IH]; [cbn; ring|]. cbn [map fold_right]. unfold list_sum in *. cbn [fold_right]. rewrite !plus_INR, IH.
  unfold block_grid at 1. rewrite !b2R_INR. ring.
Qed.

Definition block_ok (i j : nat) : bool :=
  let a := live_neighbours 6 6 block_board i j in let c := live_neighbours 6 6 rim i j in
  if block_board i j then (Nat.eqb a 3 && Nat.eqb c 4 && negb (rim i j))%bool else if rim i j then (Nat.eqb a 2 && Nat.eqb c 2)%bool else (Nat.leb a 1 && Nat.leb c 3)%bool.

Lemma block_counts i j : (i < 6)%nat -> (j < 6)%nat -> block_ok i j = true.
Proof.
  intros Hi Hj. assert (A : forallb (fun a => forallb (block_ok a) (seq 0 6)) (seq 0 6) = true) by (vm_compute; reflexivity).
  rewrite forallb_forall in A. specialize (A i ltac:(apply in_seq; lia)). rewrite forallb_forall in A. apply A. apply in_seq. lia.
Qed.

Lemma block_still i j t : (i < 6)%nat -> (j < 6)%nat -> life_n [3]%Z [2; 3]%Z 6 6 t block_board i j = block_board i j.
Proof.
  revert i j. induction t as [|t IH]; intros i j Hi Hj; [reflexivity|]. cbn [life_n]. unfold life. rewrite IH by assumption.
  replace (live_neighbours 6 6 (life_n [3]%Z [2; 3]%Z 6 6 t block_board) i j) with (live_neighbours 6 6 block_board i j).
  - assert (A : forallb (fun a => forallb (fun b => Bool.eqb (life_cell [3]%Z [2; 3]%Z (block_board a b) (live_neighbours 6 6 block_board a b)) (block_board a b)) (seq 0 6)) (seq 0 6) = true) by (vm_compute; reflexivity).
    rewrite forallb_forall in A. specialize (A i ltac:(apply in_seq; lia)). rewrite forallb_forall in A. specialize (A j ltac:(apply in_seq; lia)). apply Bool.eqb_prop in A. exact A.
  - unfold live_neighbours. f_equal. apply map_ext. intros o. rewrite IH by (apply zmod_lt; lia). reflexivity.
Qed.

Lemma drift n : 1 / 4 <= n <= 1 / 4 + 1 / 288 -> 4 / 100000 <= piece 3 n + (piece 2 n + piece 3 n) - 1.
Proof.
  intros Hn. pose proof edge_1 as E1. pose proof edge_2 as E2. pose proof edge_3 as E3. pose proof (edge_pos (3 / 72)) as P3.
  assert (E6 : edge (6 / 72) <= / 1000000). { replace (6 / 72) with (3 / 72 + 3 / 72) by field. rewrite edge_add. nra. }
  assert (A : 1 - edge (6 / 72) <= nb_sigmoid n (IZR (2 * 2 - 1) / 18) (125 / 10000)) by (apply sig_hi; num).
  assert (F : nb_sigmoid n (IZR (2 * 3 + 1) / 18) (125 / 10000) <= edge (6 / 72)) by (apply sig_lo; num).
  pose proof (sig_range n (IZR (2 * 2 - 1) / 18)) as RA. pose proof (sig_range n (IZR (2 * 3 + 1) / 18)) as RF.
  unfold piece. change (2 * 2 + 1)%Z with (2 * 3 - 1)%Z.
  assert (C : 45 / 1000000 <= nb_sigmoid n (IZR (2 * 3 - 1) / 18) (125 / 10000)).
  { unfold nb_sigmoid. set (z := - 4 * (n - IZR (2 * 3 - 1) / 18) / (125 / 10000)). assert (Z : z <= INR 9). { unfold z. change (INR 9) with (1 + 1 + 1 + 1 + 1 + 1 + 1 + 1 + 1). num. }
    assert (X : exp z <= 19683). { apply Rle_trans with (exp (INR 9)); [apply exp_mono; exact Z|]. replace (INR 9) with (INR 9 * 1) by ring. rewrite <- exp_pow. apply Rle_trans with (3 ^ 9); [|lra]. apply pow_incr. split; [left; apply exp_pos|exact exp_le_3]. }
    pose proof (exp_pos z). apply le_div; [lra|]. nra. }
  set (a := nb_sigmoid n (IZR (2 * 2 - 1) / 18) (125 / 10000)) in *. set (f := nb_sigmoid n (IZR (2 * 3 + 1) / 18) (125 / 10000)) in *. set (c := nb_sigmoid n (IZR (2 * 3 - 1) / 18) (125 / 10000)) in *.
  nra.
Qed.

Section Block.
Context (km ke : arr).
Hypothesis KM : forall a b, (a < 3)%nat -> (b < 3)%nat -> km a b = eighths a b.
Hypothesis KE : forall a b, (a < 3)%nat -> (b < 3)%nat -> ke a b = delta a b.

Lemma block_step x p : (forall a b, (a < 6)%nat -> (b < 6)%nat -> x a b = block_grid p a b) -> 0 <= p <= 1 / 72 ->
  exists p', p + 4 / 100000 <= p' /\ forall i j, (i < 6)%nat -> (j < 6)%nat -> nb_update true [3]%Z [2; 3]%Z 6 6 km ke x i j = block_grid p' i j.
Proof.
  intros E P. set (n := (2 + 2 * p) / 8). set (g := piece 3 n + (piece 2 n + piece 3 n) - 1). pose proof (drift n ltac:(unfold n; lra)) as D. fold g in D.
  exists (clamp 0 1 (p + g)). split; [unfold clamp, Rmin, Rmax; repeat destruct (Rle_dec _ _); lra|]. intros i j Hi Hj.
  rewrite (update_eq km ke 6 6 KM KE) by assumption. cbv zeta. rewrite (nb_sum_ext 6 6 x (block_grid p)) by (try lia; exact E). rewrite (E i j Hi Hj), block_sum.
  pose proof (block_counts i j Hi Hj) as B. unfold block_ok in B. cbv zeta in B. unfold block_grid. rewrite !steps_pieces. cbn [map fold_right].
  pose proof edge_2 as E2. pose proof edge_3 as E3.
  destruct (block_board i j).
  - apply andb_prop in B as [B R]. apply andb_prop in B as [B1 B2]. apply Nat.eqb_eq in B1, B2. rewrite B1, B2. apply negb_true_iff in R. rewrite R. cbn [b2R].
    change (INR 3) with (1 + 1 + 1). change (INR 4) with (1 + 1 + 1 + 1). set (m := (1 + 1 + 1 + (1 + 1 + 1 + 1) * p) / 8).
    pose proof (piece_range 2 m) as R2. pose proof (piece_range 3 m) as R3.
    assert (A : 1 - edge (3 / 72) - edge (1 / 144) <= piece 3 m) by (apply piece_in; unfold m; num).
    assert (E4 : edge (1 / 144) <= 1 / 4).
    { unfold edge. apply Rle_trans with (exp (- INR 2)); [apply exp_mono; change (INR 2) with (1 + 1); lra|]. pose proof (exp_neg_half 2). lra. }
    unfold clamp, Rmin, Rmax; repeat destruct (Rle_dec _ _); lra.
  - destruct (rim i j).
    + apply andb_prop in B as [B1 B2]. apply Nat.eqb_eq in B1, B2. rewrite B1, B2. cbn [b2R]. change (INR 2) with (1 + 1).
      replace ((1 + 1 + (1 + 1) * p) / 8) with n by (unfold n; field). rewrite (Rplus_0_l (p * 1)), (Rplus_0_l (clamp 0 1 (p + g) * 1)), (Rmult_1_r (clamp _ _ _)). unfold g. replace (p * 1 + (piece 3 n + 0 + (piece 2 n + (piece 3 n + 0)) - 1)) with (p + (piece 3 n + (piece 2 n + piece 3 n) - 1)) by ring. reflexivity.
    + apply andb_prop in B as [B1 B2]. apply Nat.leb_le in B1, B2. cbn [b2R]. apply le_INR in B1, B2. change (INR 1) with 1 in B1. change (INR 3) with (1 + 1 + 1) in B2.
      pose proof (pos_INR (live_neighbours 6 6 block_board i j)). pose proof (pos_INR (live_neighbours 6 6 rim i j)).
      set (m := (INR (live_neighbours 6 6 block_board i j) + INR (live_neighbours 6 6 rim i j) * p) / 8).
      assert (M : m <= 1 / 8 + 1 / 128) by (unfold m; nra).
      assert (A2 : piece 2 m <= edge (2 / 72)) by (apply piece_below; num). assert (A3 : piece 3 m <= edge (2 / 72)) by (apply piece_below; num).
      pose proof (piece_range 2 m). pose proof (piece_range 3 m).
      unfold clamp, Rmin, Rmax; repeat destruct (Rle_dec _ _); lra.
Qed.

Lemma block_run t : (exists s, (s <= t)%nat /\ 1 / 72 < nb_run true [3]%Z [2; 3]%Z 6 6 km ke s (block_grid 0) 1%nat 2%nat) \/
  exists p, INR t * (4 / 100000) <= p <= 1 / 72 /\ forall i j, (i < 6)%nat -> (j < 6)%nat -> nb_run true [3]%Z [2; 3]%Z 6 6 km ke t (block_grid 0) i j = block_grid p i j.
Proof.
  induction t as [|t IH]; [right; exists 0; cbn [INR nb_run]; split; [lra|reflexivity]|]. destruct IH as [(s & Hs & X)|(p & P & X)]; [left; exists s; split; [lia|exact X]|].
  pose proof (pos_INR t). destruct (block_step _ p X ltac:(lra)) as (p' & Q & Y). rewrite S_INR.
  destruct (Rlt_dec (1 / 72) p') as [L|L].
  - left. exists (S t). split; [lia|]. cbn [nb_run]. rewrite Y by lia. unfold block_grid. cbn [block_board rim Nat.leb Nat.eqb andb orb b2R]. lra.
  - right. exists p'. split; [lra|exact Y].
Qed.

Lemma block_drifts : exists t, (t <= 400)%nat /\ 1 / 72 < nb_run true [3]%Z [2; 3]%Z 6 6 km ke t (block_grid 0) 1%nat 2%nat.
Proof.
  destruct (block_run 400) as [X|(p & P & _)]; [exact X|]. rewrite INR_IZR_INZ in P. exfalso. change (Z.of_nat 400) with 400%Z in P. lra.
Qed.

Lemma block_exact : tracks 0 0 6 6 (block_grid 0) block_board.
Proof. intros i j _ _. unfold block_grid. destruct (block_board i j); cbn [b2R]; lra. Qed.
End Block.
