(** Proofs about autocorrelation and Phanes.analyze_universe. *)
From Coq Require Import Reals Lra Lia List Arith ZArith Bool.
From Verif Require Import Base Tensor MCommon PTensor PKern MWrap SWrap PWrap MAnalyze SAnalyze PAnalyze.
Import ListNotations.
Open Scope R_scope.

(** ** Autocorrelation *)

Definition sumsq (l : list R) : R := lsum (map (fun x => x ^ 2) l).

Lemma sumsq_nonneg l : 0 <= sumsq l.
Proof. induction l as [|x l IH]; unfold sumsq, lsum in *; cbn [map fold_right]; [lra|]. pose proof (pow2_ge_0 x). lra. Qed.

Lemma sumsq_cons x l : sumsq (x :: l) = x ^ 2 + sumsq l.
Proof. reflexivity. Qed.

Lemma sumsq_nil : sumsq [] = 0.
Proof. reflexivity. Qed.

Lemma lsum_cons x l : lsum (x :: l) = x + lsum l.
Proof. reflexivity. Qed.

Lemma lsum_nil : lsum [] = 0.
Proof. reflexivity. Qed.

Lemma dot_bound a : forall b, Rabs (lsum (map (fun p => fst p * snd p) (combine a b))) <= (sumsq a + sumsq b) / 2.
Proof.
  induction a as [|x a IH]; intros b.
  - cbn [combine map]. rewrite lsum_nil, Rabs_R0, sumsq_nil. pose proof (sumsq_nonneg b). lra.
  - destruct b as [|y b].
    + cbn [combine map]. rewrite lsum_nil, Rabs_R0, sumsq_nil. pose proof (sumsq_nonneg (x :: a)). lra.
    + cbn [combine map fst snd]. rewrite lsum_cons, !sumsq_cons.
      specialize (IH b). eapply Rle_trans; [apply Rabs_triang|].
      assert (H : Rabs (x * y) <= (x ^ 2 + y ^ 2) / 2).
      { pose proof (pow2_ge_0 (x - y)). pose proof (pow2_ge_0 (x + y)). apply Rabs_le. split; nra. }
      lra.
Qed.

Lemma sum_shifted e m l : lsum (map (fun x => (e + x - m) ^ 2) l) =
  INR (length l) * e ^ 2 + 2 * e * (lsum l - INR (length l) * m) + lsum (map (fun x => (x - m) ^ 2) l).
Proof.
  induction l as [|x l IH]; [unfold lsum; cbn [map length fold_right INR]; ring|].
  cbn [map length]. rewrite S_INR, !lsum_cons, IH. ring.
Qed.

Lemma sumsq_div (l : list R) d (f : R -> R) : d <> 0 -> sumsq (map (fun x => f x / d) l) = lsum (map (fun x => f x ^ 2) l) / d ^ 2.
Proof.
  intros Hd. induction l as [|x l IH]; cbn [map]; [rewrite sumsq_nil, lsum_nil; field; auto|].
  rewrite sumsq_cons, lsum_cons, IH. field. auto.
Qed.

Lemma ac_norm_inv l a : ac_norm l = Ok a ->
  (2 <= length l)%nat /\ length a = length l /\ sumsq a <= INR (length l).
Proof.
  unfold ac_norm. intros E. apply bind_ok in E as (m & Em & E). apply bind_ok in E as (s & Es & E).
  unfold lstd in Es. rewrite Em in Es. cbn [bind] in Es.
  destruct (Nat.leb_spec (length l) 1) as [|Hl]; [discriminate|]. apply Ok_inj in Es.
  apply Ok_inj in E as <-. split; [lia|]. rewrite map_length. split; auto.
  apply lmean_inv in Em as (_ & Hp & Em).
  set (v := lsum (map (fun x => (x - m) ^ 2) l)) in *.
  assert (Hv : 0 <= v).
  { unfold v. clear. induction l as [|x l IH]; cbn [map]; [rewrite lsum_nil; lra|]. rewrite lsum_cons.
    pose proof (pow2_ge_0 (x - m)). lra. }
  assert (Hn1 : 0 < INR (length l - 1)) by (apply lt_0_INR; lia).
  assert (Hs0 : 0 <= s) by (rewrite <- Es; apply sqrt_pos).
  assert (Hs2 : s ^ 2 * INR (length l - 1) = v).
  { rewrite <- Es. replace (sqrt (v / INR (length l - 1)) ^ 2) with (sqrt (v / INR (length l - 1)) * sqrt (v / INR (length l - 1))) by ring.
    rewrite sqrt_sqrt; [field; lra|]. apply Rmult_le_pos; auto. left. apply Rinv_0_lt_compat; auto. }
  assert (He : 0 < ac_eps) by (unfold ac_eps; lra).
  rewrite sumsq_div by lra. rewrite sum_shifted. fold v.
  assert (Hm : lsum l - INR (length l) * m = 0).
  { rewrite Em. field. lra. }
  rewrite Hm, <- Hs2. rewrite minus_INR by lia. cbn [INR].
  apply Rmult_le_reg_r with ((ac_eps + s) ^ 2); [apply pow_lt; lra|].
  unfold Rdiv. rewrite Rmult_assoc, Rinv_l by (apply pow_nonzero; lra).
  set (N := INR (length l)) in *.
  assert (H1 : 0 <= N * (ac_eps * s)).
  { apply Rmult_le_pos; [unfold N; apply pos_INR|]. apply Rmult_le_pos; lra. }
  pose proof (pow2_ge_0 s). rewrite Rmult_1_r, Rmult_0_r. 
  replace (N * (ac_eps + s) ^ 2) with (N * ac_eps ^ 2 + N * s ^ 2 + 2 * (N * (ac_eps * s))) by ring. lra.
Qed.

Lemma autocorrelate_bound g1 g2 a : autocorrelate g1 g2 = Ok a -> -1 <= a <= 1.
Proof.
  unfold autocorrelate. intros E. apply bind_ok in E as (u & Hu & E). apply guard_ok, Nat.eqb_eq in Hu.
  apply bind_ok in E as (x & Ex & E). apply bind_ok in E as (y & Ey & E). apply Ok_inj in E as <-.
  apply ac_norm_inv in Ex as (Hx1 & Hx2 & Hx3). apply ac_norm_inv in Ey as (Hy1 & Hy2 & Hy3).
  pose proof (dot_bound x y) as Hd. set (D := lsum _) in *.
  assert (Hn : 0 < INR (length g1)) by (apply lt_0_INR; lia).
  rewrite <- Hu in Hy3. assert (Hab : Rabs D <= INR (length g1)) by lra.
  assert (- INR (length g1) <= D <= INR (length g1)).
  { revert Hd. unfold Rabs. destruct (Rcase_abs D); lra. }
  split; apply Rmult_le_reg_r with (INR (length g1)); auto; unfold Rdiv; rewrite Rmult_assoc, Rinv_l by lra; lra.
Qed.

Lemma autocorrelate_self g a : autocorrelate g g = Ok a -> 0 <= a.
Proof.
  unfold autocorrelate. intros E. apply bind_ok in E as (u & Hu & E).
  apply bind_ok in E as (x & Ex & E). rewrite Ex in E. cbn [bind] in E. apply Ok_inj in E as <-.
  apply ac_norm_inv in Ex as (Hx1 & Hx2 & _). apply Rmult_le_pos.
  - clear. induction x as [|y x IH]; cbn [combine map fst snd]; [rewrite lsum_nil; lra|]. rewrite lsum_cons. nra.
  - left. apply Rinv_0_lt_compat, lt_0_INR. lia.
Qed.

Lemma combine_comm_dot a : forall b,
  lsum (map (fun p => fst p * snd p) (combine a b)) = lsum (map (fun p => fst p * snd p) (combine b a)).
Proof.
  induction a as [|x a IH]; intros [|y b]; try reflexivity.
  cbn [combine map fst snd]. rewrite !lsum_cons, IH. ring.
Qed.

Lemma autocorrelate_sym g1 g2 a : autocorrelate g1 g2 = Ok a -> autocorrelate g2 g1 = Ok a.
Proof.
  unfold autocorrelate. intros E. apply bind_ok in E as (u & Hu & E). apply guard_ok, Nat.eqb_eq in Hu.
  apply bind_ok in E as (x & Ex & E). apply bind_ok in E as (y & Ey & E). apply Ok_inj in E as <-.
  rewrite Hu, Nat.eqb_refl, Ex, Ey. cbn [guard bind]. rewrite combine_comm_dot. reflexivity.
Qed.

(** ** The table of channels *)

Lemma lsum_nonneg_sq m l : 0 <= lsum (map (fun x => (x - m) ^ 2) l).
Proof. induction l as [|x l IH]; cbn [map]; [rewrite lsum_nil; lra|]. rewrite lsum_cons. pose proof (pow2_ge_0 (x - m)). lra. Qed.

Lemma nth_map_lt {A B} (f : A -> B) l k x y : (k < length l)%nat -> nth k (map f l) y = f (nth k l x).
Proof. intros H. rewrite (nth_indep _ y (f x)) by (rewrite map_length; exact H). apply map_nth. Qed.

Lemma cells_of_get t : twf t -> cells_of t (get t) = lsum (tdata t).
Proof. intros Hw. exact (eq_sym (tsum_get t Hw)). Qed.

Lemma get_map f t b c i j : twf t -> (b < tB t)%nat -> (c < tC t)%nat -> (i < tH t)%nat -> (j < tW t)%nat -> get (refill t (map f (tdata t))) b c i j = f (get t b c i j).
Proof. intros Hw Hb Hc Hi Hj. unfold get, refill. cbn [tC tH tW tdata]. apply nth_map_lt. rewrite Hw. apply flat_lt; auto. Qed.

Lemma cells_of_map f t : twf t -> cells_of t (fun b c i j => f (get t b c i j)) = lsum (map f (tdata t)).
Proof.
  intros Hw. assert (Hr : twf (refill t (map f (tdata t)))) by (unfold twf, refill in *; cbn [tdata tB tC tH tW]; rewrite map_length; exact Hw).
  change (lsum (map f (tdata t))) with (tsum (refill t (map f (tdata t)))). rewrite (tsum_get _ Hr). unfold cells_of. cbn [refill tB tC tH tW].
  apply rsum_ext; intros b Hb. apply rsum_ext; intros c Hc. apply rsum_ext; intros i Hi. apply rsum_ext; intros j Hj. symmetry. exact (get_map f t b c i j Hw Hb Hc Hi Hj).
Qed.

Lemma ac_norm_eq t : twf t -> (2 <= size_of t)%nat -> ac_norm (tdata t) = Ok (map (fun x => (1 / 10000000 + x - average t) / (1 / 10000000 + deviation t)) (tdata t)).
Proof.
  intros Hw Hs. assert (Hl : length (tdata t) = size_of t) by exact Hw. unfold ac_norm, lstd.
  assert (Em : lmean (tdata t) = Ok (average t)).
  { unfold lmean. destruct (tdata t) eqn:E; [cbn in Hl; lia|]. rewrite <- E in *. rewrite Hl. unfold average. rewrite cells_of_get by exact Hw. reflexivity. }
  rewrite Em. cbn [bind]. rewrite Hl. destruct (Nat.leb_spec (size_of t) 1); [lia|]. cbn [bind]. unfold deviation. rewrite (cells_of_map (fun x => (x - average t) ^ 2) t Hw). reflexivity.
Qed.

Lemma standard_get t b c i j : twf t -> (b < tB t)%nat -> (c < tC t)%nat -> (i < tH t)%nat -> (j < tW t)%nat ->
  get (refill t (map (fun x => (1 / 10000000 + x - average t) / (1 / 10000000 + deviation t)) (tdata t))) b c i j = standard t b c i j.
Proof. intros. rewrite get_map by assumption. reflexivity. Qed.

Lemma auto_table_ok g h : twf g -> twf h -> shape g = shape h -> (2 <= size_of g)%nat ->
  exists t, auto_table g h = Ok t /\ twf t /\ shape t = (tC g, tC g, 1%nat, 1%nat) /\ forall c d, (c < tC g)%nat -> (d < tC g)%nat -> get t c d 0 0 = agreement g h c d.
Proof.
  intros Wg Wh Sh S2. pose proof Sh as Sh'. unfold shape in Sh'. repeat rewrite pair_equal_spec in Sh'. destruct Sh' as [[[E1 E2] E3] E4].
  assert (S2' : (2 <= size_of h)%nat) by (unfold size_of in *; rewrite <- E1, <- E2, <- E3, <- E4; exact S2).
  unfold auto_table. rewrite <- E1, <- E3, <- E4, Nat.eqb_refl, !Nat.leb_refl. cbn [andb guard bind]. rewrite (ac_norm_eq g Wg S2), (ac_norm_eq h Wh S2'). cbn [bind].
  unfold conv2d. cbn [swap01 refill build tB tC tH tW]. rewrite <- E1, <- E2, <- E3, <- E4, !Nat.mul_1_l, Nat.eqb_refl, !Nat.leb_refl. cbn [andb guard bind]. rewrite !Nat.sub_diag. cbn [Nat.add].
  eexists. split; [reflexivity|]. split; [|split; [reflexivity|]].
  - unfold twf, tmap. cbn [tdata tB tC tH tW build]. rewrite !map_length, seq_length. reflexivity.
  - intros c d Hc Hd. match goal with |- get (tmap ?f ?x) _ _ _ _ = _ => assert (Hx : twf x) by apply twf_build; change (get (tmap f x) c d 0 0) with (get (refill x (map f (tdata x))) c d 0 0); rewrite (get_map f x c d 0 0 Hx) by (cbn [build tB tC tH tW]; lia) end.
    rewrite get_build by lia. unfold agreement. unfold size_of. f_equal. apply rsum_ext; intros b Hb. apply rsum_ext; intros i Hi. apply rsum_ext; intros j Hj. cbn [Nat.add].
    assert (D : (d / (tC g / 1))%nat = 0%nat) by (rewrite Nat.div_1_r; apply Nat.div_small; exact Hd). rewrite D. cbn [Nat.mul Nat.add].
    unfold swap01. cbn [refill tB tC tH tW]. rewrite !get_build by lia.
    rewrite (standard_get g b c i j) by (assumption || lia). rewrite (standard_get h b d i j) by (assumption || lia). ring.
Qed.

Lemma dot_cells g h : twf g -> twf h -> shape g = shape h ->
  let z t := map (fun x => (1 / 10000000 + x - average t) / (1 / 10000000 + deviation t)) (tdata t) in
  lsum (map (fun p => fst p * snd p) (combine (z g) (z h))) = cells_of g (fun b c i j => standard g b c i j * standard h b c i j).
Proof.
  intros Wg Wh Sh z. pose proof Sh as Sh'. unfold shape in Sh'. repeat rewrite pair_equal_spec in Sh'. destruct Sh' as [[[E1 E2] E3] E4].
  set (q := refill g (map (fun p => fst p * snd p) (combine (z g) (z h)))).
  assert (Lz : length (z g) = size_of g /\ length (z h) = size_of g).
  { unfold z. rewrite !map_length. split; [exact Wg|]. rewrite Wh. unfold size_of. congruence. }
  assert (Hq : twf q) by (unfold twf, q, refill; cbn [tdata tB tC tH tW]; rewrite map_length, combine_length, (proj1 Lz), (proj2 Lz); apply Nat.min_id).
  change (tsum q = cells_of g (fun b c i j => standard g b c i j * standard h b c i j)). rewrite (tsum_get q Hq). unfold cells_of. cbn [q refill tB tC tH tW].
  apply rsum_ext; intros b Hb. apply rsum_ext; intros c Hc. apply rsum_ext; intros i Hi. apply rsum_ext; intros j Hj.
  rewrite <- (standard_get g b c i j) by assumption. rewrite <- (standard_get h b c i j) by (assumption || lia). fold (z g) (z h).
  unfold get, q, refill. cbn [tC tH tW tdata]. rewrite <- E2, <- E3, <- E4. pose proof (flat_lt (tB g) (tC g) (tH g) (tW g) b c i j Hb Hc Hi Hj) as Hk. set (k := (((b * tC g + c) * tH g + i) * tW g + j)%nat) in *.
  rewrite (nth_map_lt _ _ k (0, 0)) by (rewrite combine_length, (proj1 Lz), (proj2 Lz), Nat.min_id; exact Hk). rewrite combine_nth by (destruct Lz; congruence). reflexivity.
Qed.

Lemma trace g h : twf g -> twf h -> shape g = shape h -> (2 <= size_of g)%nat ->
  autocorrelate (tdata g) (tdata h) = Ok (rsum (tC g) (fun c => agreement g h c c)).
Proof.
  intros Wg Wh Sh S2. pose proof Sh as Sh'. unfold shape in Sh'. repeat rewrite pair_equal_spec in Sh'. destruct Sh' as [[[E1 E2] E3] E4].
  assert (S2' : (2 <= size_of h)%nat) by (unfold size_of in *; rewrite <- E1, <- E2, <- E3, <- E4; exact S2).
  unfold autocorrelate. assert (L : length (tdata g) = length (tdata h)) by (rewrite Wg, Wh; congruence). rewrite L, Nat.eqb_refl. cbn [guard bind].
  rewrite (ac_norm_eq g Wg S2), (ac_norm_eq h Wh S2'). cbn [bind]. rewrite (dot_cells g h Wg Wh Sh), <- L, Wg. f_equal. unfold agreement, cells_of, size_of. rewrite rsum_swap.
  unfold Rdiv. rewrite Rmult_comm, <- rsum_scal. apply rsum_ext; intros c Hc. ring.
Qed.

Lemma standard_sq t : twf t -> (2 <= size_of t)%nat -> cells_of t (fun b c i j => standard t b c i j ^ 2) <= INR (size_of t).
Proof.
  intros Hw Hs. pose proof (ac_norm_eq t Hw Hs) as E. apply ac_norm_inv in E as (_ & _ & E). rewrite Hw in E. fold (size_of t) in E. eapply Rle_trans; [|exact E]. unfold sumsq. rewrite map_map.
  apply Req_le. exact (cells_of_map (fun x => ((1 / 10000000 + x - average t) / (1 / 10000000 + deviation t)) ^ 2) t Hw).
Qed.

Lemma channel_sq t c : (c < tC t)%nat -> rsum (tB t) (fun b => rsum (tH t) (fun i => rsum (tW t) (fun j => standard t b c i j ^ 2))) <= cells_of t (fun b c i j => standard t b c i j ^ 2).
Proof.
  intros Hc. unfold cells_of. apply rsum_le; intros b Hb.
  apply (rsum_term_le (tC t) c (fun c => rsum (tH t) (fun i => rsum (tW t) (fun j => standard t b c i j ^ 2)))); [exact Hc|]. intros. apply rsum_nonneg; intros; apply rsum_nonneg; intros; apply pow2_ge_0.
Qed.

Lemma agreement_bound g h c d : twf g -> twf h -> shape g = shape h -> (2 <= size_of g)%nat -> (c < tC g)%nat -> (d < tC g)%nat -> -1 <= agreement g h c d <= 1.
Proof.
  intros Wg Wh Sh S2 Hc Hd. pose proof Sh as Sh'. unfold shape in Sh'. repeat rewrite pair_equal_spec in Sh'. destruct Sh' as [[[E1 E2] E3] E4].
  assert (ES : size_of h = size_of g) by (unfold size_of; congruence). assert (S2' : (2 <= size_of h)%nat) by lia.
  pose proof (channel_sq g c Hc) as A1. pose proof (channel_sq h d ltac:(lia)) as A2. pose proof (standard_sq g Wg S2) as B1. pose proof (standard_sq h Wh S2') as B2. rewrite ES in B2. rewrite <- E1, <- E3, <- E4 in A2.
  assert (N : 0 < INR (size_of g)) by (apply lt_0_INR; lia). unfold agreement. set (D := rsum (tB g) _).
  assert (HD : Rabs D <= INR (size_of g)).
  { unfold D. eapply Rle_trans; [apply rsum_abs|]. eapply Rle_trans with (rsum (tB g) (fun b => rsum (tH g) (fun i => rsum (tW g) (fun j => standard g b c i j ^ 2))) / 2 + rsum (tB g) (fun b => rsum (tH g) (fun i => rsum (tW g) (fun j => standard h b d i j ^ 2))) / 2); [|lra].
    unfold Rdiv. rewrite !(Rmult_comm _ (/ 2)), <- !rsum_scal, <- rsum_plus. apply rsum_le; intros b Hb. eapply Rle_trans; [apply rsum_abs|]. rewrite <- !rsum_scal, <- rsum_plus. apply rsum_le; intros i Hi. eapply Rle_trans; [apply rsum_abs|]. rewrite <- !rsum_scal, <- rsum_plus. apply rsum_le; intros j Hj.
    set (x := standard g b c i j). set (y := standard h b d i j). pose proof (pow2_ge_0 (x - y)). pose proof (pow2_ge_0 (x + y)). apply Rabs_le. split; nra. }
  assert (- INR (size_of g) <= D <= INR (size_of g)) by (revert HD; unfold Rabs; destruct (Rcase_abs D); lra).
  split; apply Rmult_le_reg_r with (INR (size_of g)); auto; unfold Rdiv; rewrite Rmult_assoc, Rinv_l by lra; lra.
Qed.

Lemma agreement_sym g h c d : shape g = shape h -> agreement g h c d = agreement h g d c.
Proof.
  intros Sh. unfold shape in Sh. repeat rewrite pair_equal_spec in Sh. destruct Sh as [[[E1 E2] E3] E4]. unfold agreement, size_of. rewrite E1, E2, E3, E4. f_equal.
  apply rsum_ext; intros b Hb. apply rsum_ext; intros i Hi. apply rsum_ext; intros j Hj. ring.
Qed.

(** ** Four numbers about a list *)

Lemma lmean_of l : l <> [] -> lmean l = Ok (lsum l / INR (length l)).
Proof. destruct l; [congruence|reflexivity]. Qed.

Lemma pstd_of l : l <> [] -> pstd l = Ok (sqrt (lsum (map (fun x => (x - lsum l / INR (length l)) ^ 2) l) / INR (length l))).
Proof. intros H. unfold pstd. rewrite lmean_of by exact H. reflexivity. Qed.

Lemma pstd_inv l m s : lmean l = Ok m -> pstd l = Ok s -> 0 <= s /\ s ^ 2 * INR (length l) = lsum (map (fun x => (x - m) ^ 2) l).
Proof.
  intros Em Es. unfold pstd in Es. rewrite Em in Es. cbn [bind] in Es. apply Ok_inj in Es. apply lmean_inv in Em as (_ & Hp & _). subst s. split; [apply sqrt_pos|].
  set (v := lsum _). assert (0 <= v) by apply lsum_nonneg_sq. replace (sqrt (v / INR (length l)) ^ 2) with (sqrt (v / INR (length l)) * sqrt (v / INR (length l))) by ring.
  rewrite sqrt_sqrt; [field; lra|]. apply Rmult_le_pos; auto. left. apply Rinv_0_lt_compat; auto.
Qed.

Lemma stats_summary l s : stats_of l = Ok s -> summary l s.
Proof.
  unfold stats_of. destruct l as [|x0 l0] eqn:El; [discriminate|]. rewrite <- El. intros E. apply bind_ok in E as (m & Em & E). apply bind_ok in E as (d & Ed & E). apply Ok_inj in E as <-.
  assert (Hn : l <> []) by (rewrite El; discriminate). destruct (pstd_inv l m d Em Ed) as [D1 D2]. apply lmean_inv in Em as (_ & Hp & Em).
  unfold summary. cbn [st_mean st_std st_min st_max]. split; [exact Hn|]. split; [rewrite Em; field; lra|]. split; [exact D1|]. split; [exact D2|]. split; [apply lmin_in, Hn|]. split; [apply lmax_in, Hn|].
  intros x Hx. split; [apply lmin_le, Hx|apply lmax_ge, Hx].
Qed.

Lemma spread_list l m lo hi : (forall x, In x l -> lo <= x <= hi) -> lsum (map (fun x => (x - m) ^ 2) l) <= (m + m - lo - hi) * (INR (length l) * m - lsum l) + INR (length l) * ((m - lo) * (hi - m)).
Proof.
  induction l as [|x l IH]; intros H; cbn [map length]; [rewrite !lsum_nil; cbn [INR]; lra|]. rewrite !lsum_cons, S_INR. specialize (IH (fun y Hy => H y (or_intror Hy))).
  pose proof (H x (or_introl eq_refl)) as Hx. assert (0 <= (x - lo) * (hi - x)) by (apply Rmult_le_pos; lra). nra.
Qed.

Lemma std_half l m s lo hi : (forall x, In x l -> lo <= x <= hi) -> lmean l = Ok m -> pstd l = Ok s -> s <= (hi - lo) / 2.
Proof.
  intros H Em Es. destruct (pstd_inv l m s Em Es) as [S0 S2]. pose proof (lmean_bounds l m lo hi ltac:(apply Forall_forall; exact H) Em) as Hm.
  pose proof (spread_list l m lo hi H) as B. apply lmean_inv in Em as (_ & Hp & Em). assert (Z : INR (length l) * m - lsum l = 0) by (rewrite Em; field; lra). rewrite Z, Rmult_0_r, Rplus_0_l, <- S2 in B.
  assert (Q : s ^ 2 <= (m - lo) * (hi - m)) by (apply Rmult_le_reg_r with (INR (length l)); lra).
  assert (Q2 : (m - lo) * (hi - m) <= ((hi - lo) / 2) ^ 2) by (pose proof (pow2_ge_0 (m - lo - (hi - m))); nra).
  apply Rsqr_incr_0_var; [unfold Rsqr; lra|lra].
Qed.

Lemma summary_bounds l s : summary l s -> st_min s <= st_mean s <= st_max s /\ 0 <= st_std s <= (st_max s - st_min s) / 2 /\ (st_std s = 0 <-> st_min s = st_max s).
Proof.
  intros (Hn & Em & S0 & S2 & I1 & I2 & Hb). assert (Hp : 0 < INR (length l)) by (apply lt_0_INR; destruct l; [congruence|cbn; lia]).
  assert (El : lmean l = Ok (st_mean s)) by (rewrite lmean_of by exact Hn; f_equal; rewrite <- Em; field; lra).
  assert (Es : pstd l = Ok (st_std s)).
  { unfold pstd. rewrite El. cbn [bind]. f_equal. rewrite <- S2. replace (st_std s ^ 2 * INR (length l) / INR (length l)) with (Rsqr (st_std s)) by (unfold Rsqr; field; lra). apply sqrt_Rsqr, S0. }
  split; [exact (lmean_bounds l _ _ _ ltac:(apply Forall_forall; exact Hb) El)|]. split; [split; [exact S0|exact (std_half l _ _ _ _ Hb El Es)]|]. split.
  - intros Z. rewrite Z in S2. replace (0 ^ 2 * INR (length l)) with 0 in S2 by ring.
    assert (A : forall x, In x l -> x = st_mean s).
    { symmetry in S2. clear - S2. induction l as [|y l IH]; [intros x []|]. intros x [-> |Hx]; cbn [map] in S2; rewrite lsum_cons in S2; pose proof (lsum_nonneg_sq (st_mean s) l); pose proof (pow2_ge_0 (x - st_mean s)).
      - assert (Q : (x - st_mean s) ^ 2 = 0) by lra. assert (x - st_mean s = 0) by (apply Rsqr_0_uniq; unfold Rsqr; lra). lra.
      - pose proof (pow2_ge_0 (y - st_mean s)). apply IH; [lra|exact Hx]. }
    rewrite (A _ I1), (A _ I2). reflexivity.
  - intros Z. pose proof (std_half l _ _ _ _ Hb El Es) as H. rewrite Z in H. lra.
Qed.

(** ** Starting grids *)

Lemma neg_half_spec b : neg_half b = (- Z.of_nat ((b + 1) / 2))%Z.
Proof.
  unfold neg_half. destruct (Nat.Even_or_Odd b) as [[k ->]|[k ->]].
  - replace ((2 * k + 1) / 2)%nat with k.
    + replace (- Z.of_nat (2 * k))%Z with (- Z.of_nat k * 2)%Z by lia. rewrite Z.div_mul; lia.
    + apply Nat.div_unique with 1%nat; lia.
  - replace ((2 * k + 1 + 1) / 2)%nat with (k + 1)%nat.
    + symmetry. apply Z.div_unique with 1%Z; lia.
    + apply Nat.div_unique with 0%nat; lia.
Qed.

Lemma halves b : (b / 2 + (b + 1) / 2 = b)%nat.
Proof.
  destruct (Nat.Even_or_Odd b) as [[k ->]|[k ->]].
  - replace (2 * k / 2)%nat with k by (first [apply Nat.div_unique with 0%nat; lia | apply Nat.div_unique with 1%nat; lia | symmetry; apply Nat.div_unique with 0%nat; lia]).
    replace ((2 * k + 1) / 2)%nat with k by (first [apply Nat.div_unique with 0%nat; lia | apply Nat.div_unique with 1%nat; lia | symmetry; apply Nat.div_unique with 1%nat; lia]). lia.
  - replace ((2 * k + 1) / 2)%nat with k by (first [apply Nat.div_unique with 0%nat; lia | apply Nat.div_unique with 1%nat; lia | symmetry; apply Nat.div_unique with 1%nat; lia]).
    replace ((2 * k + 1 + 1) / 2)%nat with (k + 1)%nat by (first [apply Nat.div_unique with 0%nat; lia | apply Nat.div_unique with 1%nat; lia | symmetry; apply Nat.div_unique with 0%nat; lia]). lia.
Qed.

(** The slice has lower end b/2 and dim - b entries, unless b = 0. *)
Lemma box_slice dim : let b := (dim / 2)%nat in
  slice_norm dim (Z.of_nat (b / 2)) = (b / 2)%nat /\
  slice_norm dim (neg_half b) = if Nat.eqb b 0 then 0%nat else (dim - (b + 1) / 2)%nat.
Proof.
  intros b. assert (Hb : (2 * b <= dim)%nat) by (unfold b; pose proof (Nat.mul_div_le dim 2); lia).
  pose proof (halves b) as Hh. split.
  - rewrite slice_norm_in by lia. lia.
  - rewrite neg_half_spec. destruct (Nat.eqb_spec b 0) as [E|E].
    + rewrite E. reflexivity.
    + unfold slice_norm. destruct (Z.ltb_spec (- Z.of_nat ((b + 1) / 2)) 0); [lia|].
      assert ((b + 1) / 2 = 0)%nat by lia. assert (b / 2 <= (b + 1) / 2)%nat by (apply Nat.div_le_mono; lia). lia.
Qed.

Lemma start_random_even B b rand : (0 < b)%nat -> exists t, start_random B (2 * b) rand = Ok t /\
  shape t = (B, 1, 2 * b, 2 * b)%nat /\ twf t /\
  forall k i j, (k < B)%nat -> (i < 2 * b)%nat -> (j < 2 * b)%nat ->
    ((b / 2 <= i < b / 2 + b)%nat /\ (b / 2 <= j < b / 2 + b)%nat -> get t k 0 i j = rand k (i - b / 2)%nat (j - b / 2)%nat) /\
    (~ ((b / 2 <= i < b / 2 + b)%nat /\ (b / 2 <= j < b / 2 + b)%nat) -> get t k 0 i j = 0).
Proof.
  intros Hb. unfold start_random. cbv zeta. pose proof (box_slice (2 * b)) as [S1 S2].
  assert (E2 : (2 * b / 2)%nat = b) by (symmetry; apply Nat.div_unique with 0%nat; lia). rewrite E2 in *.
  rewrite S1, S2. destruct (Nat.eqb_spec b 0) as [|_]; [lia|]. pose proof (halves b) as Hh.
  replace (2 * b - (b + 1) / 2 - b / 2)%nat with b by lia. rewrite Nat.eqb_refl. cbn [orb guard bind].
  eexists; split; [reflexivity|]. split; [reflexivity|]. split; [apply twf_build|].
  intros k i j Hk Hi Hj. rewrite get_build by lia. generalize dependent (b / 2)%nat. intros h _ Hh.
  destruct (Nat.leb_spec h i), (Nat.ltb_spec i (h + b)), (Nat.leb_spec h j), (Nat.ltb_spec j (h + b)); cbn [andb];
    split; intros Hc; try lia; try reflexivity.
  unfold bidx. destruct (Nat.eqb_spec b 1); [|reflexivity]. f_equal; lia.
Qed.

Lemma start_random_odd B b rand : (2 <= b)%nat -> start_random B (2 * b + 1) rand = Err RuntimeError.
Proof.
  intros Hb. unfold start_random. cbv zeta. pose proof (box_slice (2 * b + 1)) as [S1 S2].
  assert (E2 : ((2 * b + 1) / 2)%nat = b) by (symmetry; apply Nat.div_unique with 1%nat; lia). rewrite E2 in *.
  rewrite S1, S2. destruct (Nat.eqb_spec b 0) as [|_]; [lia|]. pose proof (halves b) as Hh.
  replace (2 * b + 1 - (b + 1) / 2 - b / 2)%nat with (b + 1)%nat by lia.
  destruct (Nat.eqb_spec b (b + 1)); [lia|]. destruct (Nat.eqb_spec b 1); [lia|]. reflexivity.
Qed.

Lemma start_random_three B rand : exists t, start_random B 3 rand = Ok t /\
  forall k i j, (k < B)%nat -> (i < 3)%nat -> (j < 3)%nat ->
    get t k 0 i j = if (Nat.ltb i 2 && Nat.ltb j 2)%bool then rand k 0%nat 0%nat else 0.
Proof.
  eexists; split; [reflexivity|]. intros k i j Hk Hi Hj. rewrite get_build by lia.
  assert (i = 0 \/ i = 1 \/ i = 2)%nat as [->|[->| ->]] by lia;
  assert (j = 0 \/ j = 1 \/ j = 2)%nat as [->|[->| ->]] by lia; reflexivity.
Qed.

Lemma start_pattern_kept dim t k c i j : (2 <= dim)%nat -> tH t = dim -> tW t = dim ->
  (k < tB t)%nat -> (c < tC t)%nat -> (i < dim)%nat -> (j < dim)%nat ->
  let b := (dim / 2)%nat in
  let inside x := (b / 2 <= x < dim - (b + 1) / 2)%nat in
  (inside i /\ inside j -> get (start_pattern dim t) k c i j = get t k c i j) /\
  (~ (inside i /\ inside j) -> get (start_pattern dim t) k c i j = 0).
Proof.
  intros Hd HH HW Hk Hc Hi Hj b inside. unfold start_pattern. cbv zeta.
  pose proof (box_slice dim) as [_ S2]. fold b in S2. fold b. rewrite S2.
  assert (Hb : (1 <= b)%nat) by (unfold b; apply Nat.div_le_lower_bound; lia).
  destruct (Nat.eqb_spec b 0) as [|_]; [lia|]. unfold inside. clear inside S2.
  rewrite get_zero_cols by (cbn [tB tC tH tW zero_rows zero_cols build]; congruence).
  rewrite get_zero_rows by (cbn [tB tC tH tW zero_rows zero_cols build]; congruence).
  rewrite get_zero_cols by (cbn [tB tC tH tW zero_rows zero_cols build]; congruence).
  rewrite get_zero_rows by congruence.
  generalize (b / 2)%nat, ((b + 1) / 2)%nat. intros h h'.
  destruct (Nat.leb_spec (dim - h') j), (Nat.ltb_spec j dim), (Nat.leb_spec (dim - h') i), (Nat.ltb_spec i dim); try lia;
    cbn [andb Nat.leb]; destruct (Nat.ltb_spec j h), (Nat.ltb_spec i h); split; intros; try reflexivity; lia.
Qed.

(** ** Measures *)

Lemma collect_forall {A} (P : A -> Prop) (l : list (res A)) : forall r, (forall x a, In x l -> x = Ok a -> P a) ->
  collect l = Ok r -> Forall P r /\ length r = length l.
Proof.
  induction l as [|x l IH]; intros r Hl E; cbn [collect] in E.
  - apply Ok_inj in E as <-. split; [constructor|reflexivity].
  - apply bind_ok in E as (a & Ea & E). apply bind_ok in E as (r' & Er & E). apply Ok_inj in E as <-.
    destruct (IH r') as [H1 H2]; auto; [intros; eapply Hl; eauto; right; auto|]. split; [|simpl; congruence].
    constructor; auto. apply (Hl x); auto. left; auto.
Qed.

Lemma spatial_all_bounds w t r : spatial_all w t = Ok r -> Forall (fun h => - log2 (1 + an_eps) <= h <= 8) r.
Proof.
  unfold spatial_all. intros E. apply (collect_forall (fun h => - log2 (1 + an_eps) <= h <= 8)) in E as [E _]; auto.
  intros x a Hx Ha. apply in_flat_map in Hx as (b & _ & Hx). apply in_flat_map in Hx as (c & _ & Hx).
  apply in_flat_map in Hx as (i & Hi & Hx). apply in_map_iff in Hx as (j & <- & Hj).
  apply in_seq in Hi. apply in_seq in Hj.
  destruct (spatial_wrapped_ok w (plane t b c) i j) as (h & E2 & Hb); try (cbn [plane an am]; lia).
  rewrite E2 in Ha. apply Ok_inj in Ha as <-. exact Hb.
Qed.

Lemma get_escape t b c i j : (b < tB t)%nat -> (c < tC t)%nat -> (i < tH t)%nat -> (j < tW t)%nat ->
  get (escape_mask t) b c i j = if (on_border (tH t) i || on_border (tW t) j)%bool then 1 else 0.
Proof. intros. unfold escape_mask. rewrite get_build by auto. reflexivity. Qed.

Lemma border_iff t i j :
  ((on_border (tH t) i || on_border (tW t) j)%bool = true) <-> (i = 0 \/ i = tH t - 1 \/ j = 0 \/ j = tW t - 1)%nat.
Proof.
  unfold on_border. rewrite !orb_true_iff, !Nat.eqb_eq. tauto.
Qed.

Lemma border_sum_pos t b : nonneg t -> (b < tB t)%nat -> (0 < border_sum t b <-> sample_escaped t b).
Proof.
  intros Hn Hb. unfold border_sum.
  assert (Hterm : forall c i j, (c < tC t)%nat -> (i < tH t)%nat -> (j < tW t)%nat -> 0 <= get (escape_mask t) b c i j * get t b c i j).
  { intros. apply Rmult_le_pos; [|apply nonneg_get; auto]. rewrite get_escape by auto. destruct (_ || _)%bool; lra. }
  split.
  - intros H. destruct (Classical_Prop.classic (sample_escaped t b)) as [|N]; auto. exfalso.
    rewrite rsum_0 in H; [lra|]. intros c Hc; apply rsum_0; intros i Hi; apply rsum_0; intros j Hj.
    rewrite get_escape by auto. destruct (on_border (tH t) i || on_border (tW t) j)%bool eqn:Eb; [|ring].
    apply border_iff in Eb. pose proof (nonneg_get t b c i j Hn) as [G|G]; [|rewrite <- G; ring].
    exfalso. apply N. exists c, i, j. auto.
  - intros (c & i & j & (Hc & Hi & Hj) & He & G). apply border_iff in He.
    eapply Rlt_le_trans; [exact G|].
    apply Rle_trans with (get (escape_mask t) b c i j * get t b c i j).
    { rewrite get_escape by auto. rewrite He. lra. }
    eapply Rle_trans; [|apply (rsum_term_le (tC t) c)]; auto.
    2:{ intros; apply rsum_nonneg; intros; apply rsum_nonneg; intros; auto. }
    eapply Rle_trans; [|apply (rsum_term_le (tH t) i)]; auto.
    2:{ intros; apply rsum_nonneg; intros; auto. }
    apply (rsum_term_le (tW t) j (fun j => get (escape_mask t) b c i j * get t b c i j)); auto.
Qed.

Lemma lmean_rcount l m : Forall is01 l -> lmean l = Ok m ->
  m = rcount (length l) (fun k => if Req_EM_T (nth k l 0) 1 then true else false) / INR (length l).
Proof. intros Hl E. apply lmean_inv in E as (_ & _ & ->). rewrite lsum_01_nth by auto. reflexivity. Qed.

Lemma table_size g h t : auto_table g h = Ok t -> twf g -> (2 <= size_of g)%nat.
Proof. unfold auto_table. intros E Hw. apply bind_ok in E as (u & _ & E). apply bind_ok in E as (a & Ea & _). apply ac_norm_inv in Ea as (H & _). rewrite Hw in H. exact H. Qed.

Lemma table_entries g h t x : auto_table g h = Ok t -> twf g -> twf h -> shape g = shape h -> In x (tdata t) -> exists c d, (c < tC g)%nat /\ (d < tC g)%nat /\ x = agreement g h c d.
Proof.
  intros E Wg Wh Sh Hx. destruct (auto_table_ok g h Wg Wh Sh (table_size g h t E Wg)) as (t' & E' & Wt & St & G). rewrite E in E'. apply Ok_inj in E' as <-.
  unfold shape in St. repeat rewrite pair_equal_spec in St. destruct St as [[[S1 S2] S3] S4]. apply (In_nth _ _ 0) in Hx as (k & Hk & <-). rewrite Wt, S1, S2, S3, S4, !Nat.mul_1_r in Hk.
  assert (HC : (0 < tC g)%nat) by (destruct (tC g); [cbn in Hk; lia|lia]). exists (k / tC g)%nat, (k mod tC g)%nat. assert (Hd : (k mod tC g < tC g)%nat) by (apply Nat.mod_upper_bound; lia). assert (Hc : (k / tC g < tC g)%nat) by (apply Nat.div_lt_upper_bound; lia).
  split; [exact Hc|]. split; [exact Hd|]. rewrite <- (G _ _ Hc Hd). unfold get. rewrite S2, S3, S4, !Nat.mul_1_r, !Nat.add_0_r, (Nat.mul_comm _ (tC g)), <- Nat.div_mod by lia. reflexivity.
Qed.

Lemma table_bounds g h t s : twf g -> twf h -> shape g = shape h -> auto_table g h = Ok t -> summary (tdata t) s -> -1 <= st_min s /\ st_max s <= 1.
Proof.
  intros Wg Wh Sh E (_ & _ & _ & _ & I1 & I2 & _). pose proof (table_size g h t E Wg) as S2.
  destruct (table_entries g h t _ E Wg Wh Sh I1) as (c & d & Hc & Hd & ->). destruct (table_entries g h t _ E Wg Wh Sh I2) as (c' & d' & Hc' & Hd' & ->).
  split; apply agreement_bound; assumption.
Qed.

Lemma table_one g h t s a : twf g -> twf h -> shape g = shape h -> tC g = 1%nat -> auto_table g h = Ok t -> summary (tdata t) s -> autocorrelate (tdata g) (tdata h) = Ok a -> s = mkStats a 0 a a.
Proof.
  intros Wg Wh Sh C1 E Su A. pose proof (table_size g h t E Wg) as S2. rewrite (trace g h Wg Wh Sh S2), C1 in A. apply Ok_inj in A. cbn [rsum] in A. rewrite Rplus_0_l in A.
  assert (En : forall x, In x (tdata t) -> x = a) by (intros x Hx; destruct (table_entries g h t x E Wg Wh Sh Hx) as (c & d & Hc & Hd & ->); rewrite <- A; f_equal; lia).
  destruct (summary_bounds _ _ Su) as (B1 & B2 & B3). pose proof Su as (_ & _ & _ & _ & I1 & I2 & _). apply En in I1. apply En in I2. destruct s as [m d lo hi]. cbn [st_mean st_std st_min st_max] in *. subst lo hi. f_equal; [lra|]. apply B3. reflexivity.
Qed.

Lemma measure_inv w grid old act me : measure_of w grid old = Ok (act, me) ->
  mean_targets 0 grid = Ok act /\ (0 < tB grid)%nat /\
  0 <= me_mort me <= 1 /\ 0 <= me_fert me <= 1 /\ (twf grid -> twf old -> shape grid = shape old -> -1 <= st_min (me_auto me) /\ st_max (me_auto me) <= 1) /\ - log2 (1 + an_eps) <= me_entropy me <= 8 /\ 0 <= me_spread me <= (8 + log2 (1 + an_eps)) / 2 /\
  (exists p, (forall b, (b < tB grid)%nat -> (p b = true <-> ~ 0 < sample_density grid b)) /\
     me_mort me = rcount (tB grid) p / INR (tB grid)) /\
  (nonneg grid -> exists p, (forall b, (b < tB grid)%nat -> (p b = true <-> sample_escaped grid b)) /\
     me_fert me = rcount (tB grid) p / INR (tB grid)) /\
  (exists t, auto_table grid old = Ok t /\ summary (tdata t) (me_auto me)) /\
  (exists ent, spatial_all w grid = Ok ent /\ lmean ent = Ok (me_entropy me) /\ pstd ent = Ok (me_spread me)).
Proof.
  unfold measure_of. intros E. apply bind_ok in E as (a & Ea & E). apply bind_ok in E as (tb & Etb & E). apply bind_ok in E as (au & Eau & E).
  apply bind_ok in E as (m & Em & E). apply bind_ok in E as (f & Ef & E).
  apply bind_ok in E as (ent & Eent & E). apply bind_ok in E as (em & Eem & E). apply bind_ok in E as (es & Ees & E).
  apply Ok_inj, pair_equal_spec in E as [<- <-]. cbn [me_mort me_fert me_auto me_entropy me_spread].
  pose proof (mean_targets_01 _ _ _ Ea) as [A1 A2].
  set (fl := map (fun b => gt_ind 0 (border_sum grid b)) (seq 0 (tB grid))) in *.
  assert (F1 : Forall is01 fl).
  { apply Forall_forall. intros x Hx. apply in_map_iff in Hx as (b & <- & _). apply gt_ind_01. }
  assert (F2 : length fl = tB grid) by (unfold fl; rewrite map_length, seq_length; auto).
  pose proof (lmean_bounds _ _ _ _ (is01_range _ A1) Em). pose proof (lmean_bounds _ _ _ _ (is01_range _ F1) Ef).
  pose proof (stats_summary _ _ Eau) as Sau. pose proof (lmean_bounds _ _ _ _ (spatial_all_bounds _ _ _ Eent) Eem).
  pose proof (proj1 (pstd_inv _ _ _ Eem Ees)) as S0. pose proof (std_half _ _ _ _ _ ltac:(apply Forall_forall; exact (spatial_all_bounds _ _ _ Eent)) Eem Ees) as S1.
  assert (Ba : twf grid -> twf old -> shape grid = shape old -> -1 <= st_min au /\ st_max au <= 1) by (intros; exact (table_bounds grid old tb au H2 H3 H4 Etb Sau)).
  assert (HB : (0 < tB grid)%nat).
  { apply lmean_inv in Em as (Hne & _). rewrite <- A2. destruct a; [congruence|simpl; lia]. }
  assert (HBR : 0 < INR (tB grid)) by (apply lt_0_INR; auto).
  split; auto. split; auto. split; [lra|]. split; [lra|]. split; [exact Ba|]. split; [lra|]. split; [lra|]. split; [|split; [|split; eauto]].
  - exists (fun k => negb (if Req_EM_T (nth k a 0) 1 then true else false)). split.
    + intros b Hb. pose proof (mean_targets_nth _ _ _ _ Ea Hb) as [_ Hx]. rewrite <- Hx.
      destruct (Req_EM_T (nth b a 0) 1); cbn [negb]; split; intros; auto; try discriminate; contradiction.
    + rewrite (lmean_rcount _ _ A1 Em), A2. unfold rcount.
      rewrite (rsum_ext (tB grid) (fun k => if negb _ then 1 else 0) (fun k => 1 - (if (if Req_EM_T (nth k a 0) 1 then true else false) then 1 else 0))).
      * rewrite rsum_minus, rsum_const. field. lra.
      * intros. destruct (Req_EM_T (nth i a 0) 1); cbn [negb]; lra.
  - intros Hn. exists (fun k => if Req_EM_T (nth k fl 0) 1 then true else false). split.
    + intros b Hb. rewrite <- (border_sum_pos grid b Hn Hb). unfold fl. rewrite nth_map_seq by auto. rewrite <- gt_ind_1.
      destruct (Req_EM_T (gt_ind 0 (border_sum grid b)) 1); split; intros; auto; try discriminate; contradiction.
    + rewrite (lmean_rcount _ _ F1 Ef), F2. reflexivity.
Qed.

(** ** The loop *)

Lemma update_last_length step last act : length last = length act -> length (update_last step last act) = length last.
Proof. intros H. unfold update_last. rewrite map_length, combine_length. lia. Qed.

Lemma update_last_nth step last act b : length last = length act -> (b < length last)%nat -> Forall is01 act ->
  nth b (update_last step last act) 0%Z =
  if (Z.eqb (nth b last 0%Z) (-1) && (if Req_EM_T (nth b act 0) 1 then false else true))%bool then step else nth b last 0%Z.
Proof.
  intros Hl Hb Ha. unfold update_last.
  set (f := fun p : Z * R => if Z.eqb (fst p * (if Req_EM_T (snd p) 0 then 1 else 0)) (-1) then step else fst p).
  rewrite (nth_indep (map f (combine last act)) 0%Z (f (0%Z, 0))) by (rewrite map_length, combine_length; lia).
  rewrite map_nth, combine_nth by auto. unfold f. cbn [fst snd].
  rewrite Forall_forall in Ha. destruct (Ha (nth b act 0)) as [E|E]; [apply nth_In; lia| |]; rewrite E.
  - destruct (Req_EM_T 0 0); [|lra]. destruct (Req_EM_T 0 1); [lra|]. rewrite Z.mul_1_r, andb_true_r. reflexivity.
  - destruct (Req_EM_T 1 0); [lra|]. destruct (Req_EM_T 1 1); [|lra]. rewrite Z.mul_0_r, andb_false_r. reflexivity.
Qed.

Section Loop.
  Variable St : Type.
  Variable ca : St -> tensor -> res (St * tensor).
  Variable w : nat.
  Variable B : nat.
  Hypothesis keeps : forall s u s' u', tB u = B -> twf u -> ca s u = Ok (s', u') -> tB u' = B /\ twf u'.

  Definition alive (u : tensor) (b : nat) : Prop := 0 < sample_density u b.
  Definition me0 : measure := mkMeasure 0 0 (mkStats 0 0 0 0) 0 0.

  Lemma universe_loop_inv n : forall step s g last ms last',
    (0 <= step)%Z -> tB g = B -> twf g -> length last = B ->
    universe_loop St ca w n step s g last = Ok (ms, last') ->
    exists m (S_ : nat -> St) (u : nat -> tensor),
      (m <= n)%nat /\ (0 < n -> 0 < m)%nat /\ u 0%nat = g /\ S_ 0%nat = s /\
      (forall k, (k < m)%nat -> ca (S_ k) (u k) = Ok (S_ (S k), u (S k))) /\
      length ms = m /\
      (forall k, (k < m)%nat -> exists act, measure_of w (u (S k)) (u k) = Ok (act, nth k ms me0)) /\
      ((m < n)%nat -> density (u m) = 0) /\ (forall k, (0 < k < m)%nat -> density (u k) <> 0) /\
      length last' = B /\
      forall b, (b < B)%nat ->
        (nth b last 0 <> -1 -> nth b last' 0 = nth b last 0)%Z /\
        (nth b last 0%Z = (-1)%Z ->
           (nth b last' 0%Z = (-1)%Z /\ forall k, (k < m)%nat -> alive (u (S k)) b) \/
           (exists k, (k < m)%nat /\ nth b last' 0%Z = (step + Z.of_nat k)%Z /\ ~ alive (u (S k)) b /\
                      forall k', (k' < k)%nat -> alive (u (S k')) b)).
  Proof using keeps.
    induction n; intros step s g last ms last' Hst Hg Hw Hl E.
    - cbn [universe_loop] in E. apply Ok_inj, pair_equal_spec in E as [<- <-].
      exists 0%nat, (fun _ => s), (fun _ => g). repeat (split; auto); try lia. left. split; auto. intros; lia.
    - cbn [universe_loop] in E. apply bind_ok in E as ([s1 g1] & E1 & E). cbn [fst snd] in E.
      apply bind_ok in E as ([act me] & Em & E). cbn [fst snd] in E. apply bind_ok in E as (mean & Emean & E).
      destruct (keeps _ _ _ _ Hg Hw E1) as [Hg1 Hw1].
      destruct (tmean_density _ _ Hw1 Emean) as [-> _].
      pose proof (measure_inv _ _ _ _ _ Em) as (Ha & HB0 & _). pose proof (mean_targets_01 _ _ _ Ha) as [A1 A2].
      set (last1 := update_last step last act) in *.
      assert (Hl1 : length last1 = B) by (unfold last1; rewrite update_last_length; congruence).
      assert (Hlast1 : forall b, (b < B)%nat ->
        (alive g1 b -> nth b last1 0%Z = nth b last 0%Z) /\
        (~ alive g1 b -> nth b last1 0%Z = if Z.eqb (nth b last 0%Z) (-1) then step else nth b last 0%Z)).
      { intros b Hb. unfold last1. rewrite update_last_nth by (auto; congruence).
        pose proof (mean_targets_nth 0 g1 act b Ha ltac:(congruence)) as [_ Hx]. unfold alive. rewrite <- Hx.
        destruct (Req_EM_T (nth b act 0) 1); split; intros; try contradiction; try (rewrite andb_false_r; reflexivity);
          try (rewrite andb_true_r; reflexivity). }
      destruct (Req_EM_T (density g1) 0) as [Hd|Hd].
      + apply Ok_inj, pair_equal_spec in E as [<- <-].
        exists 1%nat, (fun k => match k with O => s | _ => s1 end), (fun k => match k with O => g | _ => g1 end).
        split; [lia|]. split; [lia|]. split; [reflexivity|]. split; [reflexivity|].
        split; [intros k Hk; replace k with 0%nat by lia; exact E1|]. split; [reflexivity|].
        split; [intros k Hk; replace k with 0%nat by lia; exists act; exact Em|].
        split; [intros _; exact Hd|]. split; [intros; lia|]. split; [auto|].
        intros b Hb. destruct (Hlast1 b Hb) as [L1 L2]. split.
        * intros Hne. destruct (Classical_Prop.classic (alive g1 b)) as [Al|Al]; [auto|]. rewrite L2 by auto.
          destruct (Z.eqb_spec (nth b last 0%Z) (-1)); [contradiction|reflexivity].
        * intros He. destruct (Classical_Prop.classic (alive g1 b)) as [Al|Al].
          -- left. rewrite L1 by auto. split; [exact He|]. intros k Hk. exact Al.
          -- right. exists 0%nat. rewrite L2, He by auto. change (Z.eqb (-1) (-1)) with true. cbv iota. split; [lia|]. split; [lia|]. split; [exact Al|]. intros; lia.
      + apply bind_ok in E as ([ms1 last2] & Er & E). cbn [fst snd] in E.
        apply Ok_inj, pair_equal_spec in E as [<- <-].
        destruct (IHn (step + 1)%Z s1 g1 last1 ms1 last2 ltac:(lia) Hg1 Hw1 Hl1 Er)
          as (m & S_ & u & I1 & I2 & I3 & I4 & I5 & I6 & I7 & I8 & I9 & I10 & I11).
        exists (S m), (fun k => match k with O => s | S k' => S_ k' end), (fun k => match k with O => g | S k' => u k' end).
        split; [lia|]. split; [lia|]. split; [reflexivity|]. split; [reflexivity|].
        split. { intros [|k] Hk; [rewrite I4, I3; exact E1|]. apply I5. lia. }
        split; [cbn [length]; congruence|].
        split. { intros [|k] Hk; [exists act; rewrite I3; exact Em|]. apply I7. lia. }
        split. { intros Hk. apply I8. lia. }
        split. { intros [|[|k]] Hk; [lia|rewrite I3; exact Hd|]. apply I9. lia. }
        split; [auto|].
        intros b Hb. destruct (Hlast1 b Hb) as [L1 L2]. destruct (I11 b Hb) as [J1 J2]. split.
        * intros Hne. assert (El : nth b last1 0%Z = nth b last 0%Z).
          { destruct (Classical_Prop.classic (alive g1 b)) as [Al|Al]; [auto|]. rewrite L2 by auto.
            destruct (Z.eqb_spec (nth b last 0%Z) (-1)); [contradiction|reflexivity]. }
          rewrite J1; congruence.
        * intros He. destruct (Classical_Prop.classic (alive g1 b)) as [Al|Al].
          -- specialize (L1 Al). rewrite He in L1. destruct (J2 L1) as [[K1 K2]|(k & K1 & K2 & K3 & K4)].
             ++ left. split; auto. intros [|k] Hk; [rewrite I3; exact Al|]. apply K2. lia.
             ++ right. exists (S k). split; [lia|]. split; [lia|]. split; [exact K3|].
                intros [|k'] Hk'; [rewrite I3; exact Al|]. apply K4. lia.
          -- right. exists 0%nat. specialize (L2 Al). rewrite He in L2. change (Z.eqb (-1) (-1)) with true in L2. cbv iota in L2.
             split; [lia|]. split; [|split; [rewrite I3; exact Al|intros; lia]].
             rewrite J1; [rewrite L2; lia|]. rewrite L2. lia.
  Qed.

  Lemma analyze_inv n s g ms last : tB g = B -> twf g -> analyze_from St ca w n s g = Ok (ms, last) ->
    exists m (S_ : nat -> St) (u : nat -> tensor),
      (m <= n)%nat /\ (0 < n -> 0 < m)%nat /\ u 0%nat = g /\ S_ 0%nat = s /\
      (forall k, (k < m)%nat -> ca (S_ k) (u k) = Ok (S_ (S k), u (S k))) /\
      length ms = m /\
      (forall k, (k < m)%nat -> exists act, measure_of w (u (S k)) (u k) = Ok (act, nth k ms me0)) /\
      ((m < n)%nat -> density (u m) = 0) /\ (forall k, (0 < k < m)%nat -> density (u k) <> 0) /\
      length last = B /\
      forall b, (b < B)%nat ->
        (nth b last 0%Z = (-1)%Z /\ forall k, (k < m)%nat -> alive (u (S k)) b) \/
        (exists k, (k < m)%nat /\ nth b last 0%Z = Z.of_nat k /\ ~ alive (u (S k)) b /\
                   forall k', (k' < k)%nat -> alive (u (S k')) b).
  Proof using keeps.
    intros Hg Hw E. unfold analyze_from in E.
    apply (universe_loop_inv n 0%Z s g) in E as (m & S_ & u & I1 & I2 & I3 & I4 & I5 & I6 & I7 & I8 & I9 & I10 & I11);
      auto; try lia; [|rewrite repeat_length; auto].
    exists m, S_, u. repeat (split; auto). intros b Hb. destruct (I11 b Hb) as [_ J]. apply J.
    rewrite Hg. clear -Hb. revert b Hb. induction B; intros [|b] Hb; cbn [repeat nth]; try lia. apply IHn. lia.
  Qed.
End Loop.
