(** Facts about the activation functions. *)
From Coq Require Import Reals Lra Lia List Arith Bool ZArith String.
From Verif Require Import Base PyDict Tensor MActivations SKern.
Import ListNotations.
Open Scope R_scope.

Lemma act_apply_inv a t v : act_apply a t = Ok v -> v = tmap (act_fn a) t /\ act_ok a = Ok tt.
Proof.
  unfold act_apply. intros H. apply bind_ok in H as ([] & H1 & H2). injection H2 as <-. auto.
Qed.

Lemma act_apply_range (P : R -> Prop) a t v : (forall x, P (act_fn a x)) -> act_apply a t = Ok v -> Forall P (tdata v).
Proof.
  intros HP H. apply act_apply_inv in H as [-> _]. cbn [tmap tdata].
  apply Forall_forall. intros y Hy. apply in_map_iff in Hy as (x & <- & _). apply HP.
Qed.

Lemma gauss_range mu s x : 0 < gauss mu s x <= 1.
Proof.
  unfold gauss. split; [apply exp_pos|]. rewrite <- exp_0.
  set (z := (x - mu) / (eps9 + s)). pose proof (pow2_ge_0 z).
  assert (Hz : - z ^ 2 / 2 <= 0) by lra.
  destruct Hz as [Hz|Hz]; [left; apply exp_increasing; exact Hz|right; f_equal; exact Hz].
Qed.

Lemma exp_eq_1 z : exp z = 1 -> z = 0.
Proof. intros H. apply exp_inv. rewrite exp_0. exact H. Qed.

Lemma gauss_peak mu s x : eps9 + s <> 0 -> (gauss mu s x = 1 <-> x = mu).
Proof.
  intros Hs. unfold gauss. split.
  - intros H. apply exp_eq_1 in H.
    assert (Hz : ((x - mu) / (eps9 + s)) ^ 2 = 0) by lra.
    assert (Hy : (x - mu) / (eps9 + s) = 0) by (simpl in Hz; nra).
    assert (x - mu = (x - mu) / (eps9 + s) * (eps9 + s)) by (field; auto).
    rewrite Hy in H0. lra.
  - intros ->. replace (mu - mu) with 0 by ring. unfold Rdiv. rewrite Rmult_0_l, pow_i by lia.
    rewrite Ropp_0, Rmult_0_l. apply exp_0.
Qed.

Lemma nonzero_true x : nonzero x = true <-> x <> 0.
Proof. unfold nonzero. destruct (Req_EM_T x 0); split; congruence. Qed.

Lemma eps9_pos' : 0 < eps9.
Proof. unfold eps9. apply Rinv_0_lt_compat. lra. Qed.

(** Gaussians get smaller away from the centre. *)
Lemma gauss_le mu s x y : Rabs (x - mu) <= Rabs (y - mu) -> eps9 + s <> 0 -> gauss mu s y <= gauss mu s x.
Proof.
  intros H Hs. unfold gauss.
  assert (Hq : ((x - mu) / (eps9 + s)) ^ 2 <= ((y - mu) / (eps9 + s)) ^ 2).
  { unfold Rdiv. rewrite !Rpow_mult_distr. apply Rmult_le_compat_r; [apply pow2_ge_0|].
    apply pow_maj_Rabs with (n := 2%nat) in H as H'.
    rewrite <- (pow2_abs (y - mu)). rewrite <- (pow2_abs (x - mu)).
    pose proof (Rabs_pos (x - mu)). simpl. nra. }
  destruct (Req_dec (((x - mu) / (eps9 + s)) ^ 2) (((y - mu) / (eps9 + s)) ^ 2)) as [E|E].
  - rewrite E. lra.
  - left. apply exp_increasing. lra.
Qed.

(** ** Ranges *)
Lemma gaussian0_range mu s x : 0 < act_fn (AGaussian mu s false) x <= 1.
Proof. apply gauss_range. Qed.

Lemma gaussian1_range mu s x : -1 < act_fn (AGaussian mu s true) x <= 1.
Proof. cbn [act_fn]. pose proof (gauss_range mu s x). lra. Qed.

Lemma mixture_range gs (mode : bool) x : (if mode then -1 else 0) <= act_fn (AMixture gs mode) x <= 1.
Proof. cbn [act_fn]. destruct mode; apply clamp_range; lra. Qed.

Lemma double_range mu s (mode : bool) x : (if mode then -1 else 0) <= act_fn (ADoubleGaussian mu s mode) x <= 1.
Proof. cbn [act_fn]. destruct mode; apply clamp_range; lra. Qed.

Lemma cos_quot_range mu om x : Rabs (cos (om * Rabs (mu - x)) / (1 + (10 * Rabs (mu - x)) ^ 2))
  <= / (1 + 100 * (x - mu) ^ 2).
Proof.
  assert (E : 1 + (10 * Rabs (mu - x)) ^ 2 = 1 + 100 * (x - mu) ^ 2).
  { rewrite Rpow_mult_distr, pow2_abs. ring. }
  rewrite E. pose proof (pow2_ge_0 (x - mu)).
  assert (Hp : 0 < 1 + 100 * (x - mu) ^ 2) by lra.
  unfold Rdiv. rewrite Rabs_mult, (Rabs_pos_eq (/ _)) by (left; apply Rinv_0_lt_compat; exact Hp).
  rewrite <- (Rmult_1_l (/ (1 + _))) at 2. apply Rmult_le_compat_r; [left; apply Rinv_0_lt_compat; exact Hp|].
  pose proof (COS_bound (om * Rabs (mu - x))). apply Rabs_le. lra.
Qed.

Lemma inv_le_1 z : 1 <= z -> 0 < / z <= 1.
Proof.
  intros Hz. split; [apply Rinv_0_lt_compat; lra|]. rewrite <- Rinv_1. apply Rinv_le_contravar; lra.
Qed.

Lemma cosx2_range mu om (mode : bool) x :
  Rabs (act_fn (ACosOverX2 mu om mode) x - (if mode then 0 else 1)) <= / (1 + 100 * (x - mu) ^ 2) /\
  (if mode then -1 else 0) <= act_fn (ACosOverX2 mu om mode) x <= (if mode then 1 else 2).
Proof.
  pose proof (cos_quot_range mu om x) as H. cbn [act_fn]. cbv zeta.
  set (q := cos _ / _) in *.
  assert (Hi : 0 < / (1 + 100 * (x - mu) ^ 2) <= 1).
  { apply inv_le_1. pose proof (pow2_ge_0 (x - mu)). lra. }
  assert (Hq : -1 <= q <= 1).
  { pose proof (Rle_abs q). pose proof (Rle_abs (- q)). rewrite Rabs_Ropp in *. lra. }
  destruct mode.
  - replace (q - 0) with q by ring. split; [exact H|lra].
  - replace (q + 1 - 1) with q by ring. split; [exact H|lra].
Qed.

Lemma cosx2_peak mu om (mode : bool) : act_fn (ACosOverX2 mu om mode) mu = if mode then 1 else 2.
Proof.
  cbn [act_fn]. cbv zeta. replace (mu - mu) with 0 by ring.
  rewrite Rabs_R0, !Rmult_0_r, cos_0, pow_i by lia. destruct mode; lra.
Qed.

Lemma sigmoid_range x mu al : 0 < sigmoid_1 x mu al < 1.
Proof.
  unfold sigmoid_1. pose proof (exp_pos (- 4 * (x - mu) / al)) as He.
  set (e := exp _) in *. unfold Rdiv. rewrite Rmult_1_l. split.
  - apply Rinv_0_lt_compat. lra.
  - rewrite <- Rinv_1 at 2. apply Rinv_lt_contravar; lra.
Qed.

Lemma interval_fold ivs al x : forall acc,
  fold_left (fun r b => r + sigmoid_1 x (fst b) al * (1 - sigmoid_1 x (snd b) al)) ivs acc =
  acc + lsum (map (fun b => sigmoid_1 x (fst b) al * (1 - sigmoid_1 x (snd b) al)) ivs).
Proof.
  induction ivs as [|b t IH]; intros acc; cbn [fold_left map].
  - unfold lsum; simpl; lra.
  - rewrite IH. unfold lsum; simpl; lra.
Qed.

Lemma interval_sum_eq ivs al x : interval_sum ivs al x =
  lsum (map (fun b => sigmoid_1 x (fst b) al * (1 - sigmoid_1 x (snd b) al)) ivs).
Proof. unfold interval_sum. rewrite interval_fold. lra. Qed.

Lemma interval_sum_range ivs al x : 0 <= interval_sum ivs al x <= INR (List.length ivs).
Proof.
  rewrite interval_sum_eq. induction ivs as [|[lo hi] t IH].
  - unfold lsum; simpl; lra.
  - cbn [map List.length]. rewrite S_INR. unfold lsum in *. simpl fold_right.
    pose proof (sigmoid_range x lo al). pose proof (sigmoid_range x hi al).
    cbn [fst snd]. nra.
Qed.

Lemma intervals_range ivs al (mode : bool) x :
  if mode then -1 <= act_fn (ASmoothIntervals ivs al mode) x <= 2 * INR (List.length ivs) - 1
  else 0 <= act_fn (ASmoothIntervals ivs al mode) x <= INR (List.length ivs).
Proof. pose proof (interval_sum_range ivs al x). cbn [act_fn]. destruct mode; lra. Qed.

Lemma smoothlife_indicator ra ri x :
  (ri <= x <= ra -> act_fn (ASmoothLife ra ri) x = 1) /\
  (~ (ri <= x <= ra) -> act_fn (ASmoothLife ra ri) x = 0).
Proof.
  cbn [act_fn]. cbv zeta. destruct (Rlt_dec ra x) as [H1|H1], (Rle_dec ri x) as [H2|H2];
    split; intros H; try reflexivity; try lra.
Qed.

Lemma tanh_range x : -1 < tanh x < 1.
Proof.
  unfold tanh, sinh, cosh. pose proof (exp_pos x). pose proof (exp_pos (- x)).
  set (a := exp x) in *. set (b := exp (- x)) in *.
  replace ((a - b) / 2 / ((a + b) / 2)) with ((a - b) / (a + b)) by (field; lra).
  split.
  - apply Rmult_lt_reg_r with (a + b); [lra|]. unfold Rdiv. rewrite Rmult_assoc, Rinv_l by lra. lra.
  - apply Rmult_lt_reg_r with (a + b); [lra|]. unfold Rdiv. rewrite Rmult_assoc, Rinv_l by lra. lra.
Qed.

(** ** DoGaussian *)
Lemma dog_growth_range mu s dx x : -3 < act_fn (ADoGaussian mu s dx true) x < 0.
Proof.
  cbn [act_fn]. cbv zeta.
  pose proof (gauss_range mu s (x + dx)) as H1. pose proof (gauss_range mu s (x - dx)) as H2.
  unfold gauss in H1, H2. lra.
Qed.

Lemma dog_at mu s dx : eps9 + s <> 0 ->
  act_fn (ADoGaussian mu s dx true) (mu + dx) = exp (- (2 * dx / (eps9 + s)) ^ 2 / 2) - 3.
Proof.
  intros Hs. cbn [act_fn]. cbv zeta.
  replace (mu + dx - dx - mu) with 0 by ring. replace (mu + dx + dx - mu) with (2 * dx) by ring.
  unfold Rdiv at 4. rewrite Rmult_0_l, pow_i by lia. rewrite Ropp_0. unfold Rdiv at 3. rewrite Rmult_0_l, exp_0. ring.
Qed.

Lemma dog_near_minus_3 mu s d : eps9 + s <> 0 -> 0 < d ->
  exists dx x, act_fn (ADoGaussian mu s dx true) x < -3 + d.
Proof.
  intros Hs Hd. set (L := Rmax 1 (/ d)).
  assert (HL : 1 <= L /\ / d <= L) by (split; [apply Rmax_l|apply Rmax_r]). destruct HL as [L1 L2].
  exists ((eps9 + s) * L), (mu + (eps9 + s) * L). rewrite dog_at by auto.
  replace (2 * ((eps9 + s) * L) / (eps9 + s)) with (2 * L) by (field; auto).
  assert (E : exp (- (2 * L) ^ 2 / 2) < d); [|lra].
  assert (Hle : - (2 * L) ^ 2 / 2 <= - (2 * L)) by (simpl; nra).
  apply Rle_lt_trans with (exp (- (2 * L))).
  { destruct Hle as [Hl|Hl]; [left; apply exp_increasing; exact Hl|right; f_equal; exact Hl]. }
  rewrite exp_Ropp. rewrite <- (Rinv_inv d). apply Rinv_lt_contravar.
  - apply Rmult_lt_0_compat; [apply Rinv_0_lt_compat; lra|apply exp_pos].
  - pose proof (exp_ineq1 (2 * L)). lra.
Qed.

(** ** Mixtures *)
Lemma mixture_fold l x : forall acc,
  fold_left (fun r g => let '(a, m, s) := g in r + a * gauss m s x) l acc =
  acc + lsum (map (fun g => let '(a, m, s) := g in a * gauss m s x) l).
Proof.
  induction l as [|[[a m] s] t IH]; intros acc; cbn [fold_left map].
  - unfold lsum; simpl; lra.
  - rewrite IH. unfold lsum; simpl; lra.
Qed.

Lemma mixture_sum_eq gs x : mixture_sum gs x = lsum (map (fun g => let '(a, m, s) := g in a * gauss m s x) gs).
Proof.
  destruct gs as [|[[a m] s] t]; [reflexivity|]. cbn [mixture_sum map]. rewrite mixture_fold. reflexivity.
Qed.

Lemma triples_spec n : forall l, List.length l = (3 * n)%nat ->
  triples l = map (fun i => (nth (3 * i) l 0, nth (3 * i + 1) l 0, nth (3 * i + 2) l 0)) (seq 0 n).
Proof.
  induction n as [|n IH]; intros l Hl.
  - destruct l; [reflexivity|simpl in Hl; lia].
  - destruct l as [|a [|m [|s t]]]; try (simpl in Hl; lia).
    cbn [triples seq map]. f_equal. rewrite <- seq_shift, map_map.
    rewrite IH by (simpl in Hl; lia). apply map_ext_in. intros i _.
    replace (3 * S i)%nat with (S (S (S (3 * i)))) by lia. reflexivity.
Qed.

Lemma pairs_spec n : forall l, List.length l = (2 * n)%nat ->
  pairs l = Ok (map (fun i => (1, nth (2 * i) l 0, nth (2 * i + 1) l 0)) (seq 0 n)).
Proof.
  induction n as [|n IH]; intros l Hl.
  - destruct l; [reflexivity|simpl in Hl; lia].
  - destruct l as [|m [|s t]]; try (simpl in Hl; lia).
    cbn [pairs seq map]. rewrite IH by (simpl in Hl; lia). cbn [bind]. do 2 f_equal.
    rewrite <- seq_shift, map_map. apply map_ext_in. intros i _.
    replace (2 * S i)%nat with (S (S (2 * i))) by lia. reflexivity.
Qed.

Lemma pairs_odd n : forall l, List.length l = (2 * n + 1)%nat -> pairs l = Err IndexError.
Proof.
  induction n as [|n IH]; intros l Hl.
  - destruct l as [|a [|b t]]; try (simpl in Hl; lia). reflexivity.
  - destruct l as [|m [|s t]]; try (simpl in Hl; lia). cbn [pairs]. rewrite IH by (simpl in Hl; lia). reflexivity.
Qed.

Lemma read_triples l n : List.length l = (3 * n)%nat ->
  read_mixture l = Ok (map (fun i => (nth (3 * i) l 0, nth (3 * i + 1) l 0, nth (3 * i + 2) l 0)) (seq 0 n)).
Proof.
  intros Hl. unfold read_mixture. rewrite Hl, Nat.mul_comm, Nat.mod_mul by lia. cbn [Nat.eqb].
  f_equal. apply triples_spec; auto.
Qed.

Lemma read_pairs l n : List.length l = (2 * n)%nat -> (List.length l mod 3 <> 0)%nat ->
  read_mixture l = Ok (map (fun i => (1, nth (2 * i) l 0, nth (2 * i + 1) l 0)) (seq 0 n)).
Proof.
  intros Hl H3. unfold read_mixture. destruct (Nat.eqb_spec (List.length l mod 3) 0); [contradiction|].
  apply pairs_spec; auto.
Qed.

Lemma read_odd l n : List.length l = (2 * n + 1)%nat -> (List.length l mod 3 <> 0)%nat ->
  read_mixture l = Err IndexError.
Proof.
  intros Hl H3. unfold read_mixture. destruct (Nat.eqb_spec (List.length l mod 3) 0); [contradiction|].
  eapply pairs_odd; eauto.
Qed.

Lemma mixture_value gs (mode : bool) t v : act_apply (AMixture gs mode) t = Ok v ->
  gs <> [] /\ v = tmap (fun x =>
    let s := lsum (map (fun g => let '(a, m, s) := g in a * exp (- ((x - m) / (/ 1000000000 + s)) ^ 2 / 2)) gs) in
    if mode then clamp (-1) 1 (2 * s - 1) else clamp 0 1 s) t.
Proof.
  intros H. apply act_apply_inv in H as [-> Hok]. split.
  - intros ->. discriminate Hok.
  - unfold tmap. f_equal. apply map_ext. intros x. cbn [act_fn]. cbv zeta.
    rewrite mixture_sum_eq. change (/ 1000000000) with eps9.
    change (fun g : R * R * R => let '(a, m, s) := g in a * exp (- ((x - m) / (eps9 + s)) ^ 2 / 2))
      with (fun g : R * R * R => let '(a, m, s) := g in a * gauss m s x).
    destruct mode; [rewrite Rmult_comm|]; reflexivity.
Qed.

Lemma mixture_applies gs (mode : bool) t : gs <> [] -> (forall a m s, In (a, m, s) gs -> 0 <= s) ->
  exists v, act_apply (AMixture gs mode) t = Ok v.
Proof.
  intros Hn Hs. unfold act_apply. cbn [act_ok]. destruct gs as [|g r] eqn:E; [congruence|].
  rewrite <- E in *. assert (F : forallb (fun g => nonzero (eps9 + snd g)) gs = true).
  { apply forallb_forall. intros [[a m] s] Hin. apply nonzero_true. cbn [snd].
    specialize (Hs a m s Hin). pose proof eps9_pos'. lra. }
  rewrite F. cbn [guard bind]. eauto.
Qed.

(** ** Smooth intervals *)
Lemma sigmoid_hi x mu al d : 0 < al -> mu + d <= x -> 1 - sigmoid_1 x mu al <= exp (- (4 * d / al)).
Proof.
  intros Ha Hx. unfold sigmoid_1. set (z := - 4 * (x - mu) / al).
  assert (Hz : z <= - (4 * d / al)).
  { unfold z. replace (- 4 * (x - mu) / al) with (- (4 * (x - mu) / al)) by (field; lra).
    apply Ropp_le_contravar. unfold Rdiv. apply Rmult_le_compat_r; [left; apply Rinv_0_lt_compat; exact Ha|]. lra. }
  pose proof (exp_pos z) as Hp.
  apply Rle_trans with (exp z).
  - replace (1 - 1 / (1 + exp z)) with (exp z * / (1 + exp z)) by (field; lra).
    rewrite <- (Rmult_1_r (exp z)) at 3. apply Rmult_le_compat_l; [lra|]. apply inv_le_1; lra.
  - destruct Hz as [Hz|Hz]; [left; apply exp_increasing; exact Hz|right; f_equal; exact Hz].
Qed.

Lemma sigmoid_lo x mu al d : 0 < al -> x <= mu - d -> sigmoid_1 x mu al <= exp (- (4 * d / al)).
Proof.
  intros Ha Hx. unfold sigmoid_1. set (z := - 4 * (x - mu) / al).
  assert (Hz : 4 * d / al <= z).
  { unfold z. replace (- 4 * (x - mu) / al) with (4 * (mu - x) / al) by (field; lra).
    unfold Rdiv. apply Rmult_le_compat_r; [left; apply Rinv_0_lt_compat; exact Ha|]. lra. }
  pose proof (exp_pos z) as Hp. rewrite exp_Ropp.
  unfold Rdiv at 1. rewrite Rmult_1_l. apply Rinv_le_contravar; [apply exp_pos|].
  apply Rle_trans with (exp z); [|lra].
  destruct Hz as [Hz|Hz]; [left; apply exp_increasing; exact Hz|right; f_equal; exact Hz].
Qed.

Lemma one_interval x lo hi al d : 0 < al -> 0 <= d -> lo <= hi -> d <= Rabs (x - lo) -> d <= Rabs (x - hi) ->
  Rabs (sigmoid_1 x lo al * (1 - sigmoid_1 x hi al)
        - INR (if Rle_dec lo x then if Rlt_dec x hi then 1 else 0 else 0)) <= 2 * exp (- (4 * d / al)).
Proof.
  intros Ha Hd Hlh Hl Hh.
  pose proof (sigmoid_range x lo al) as S1. pose proof (sigmoid_range x hi al) as S2.
  set (e := exp (- (4 * d / al))). pose proof (exp_pos (- (4 * d / al))) as He. fold e in He.
  destruct (Rle_dec lo x) as [C1|C1]; [destruct (Rlt_dec x hi) as [C2|C2]|]; cbn [INR].
  - rewrite Rabs_pos_eq in Hl by lra. rewrite Rabs_left in Hh by lra.
    pose proof (sigmoid_hi x lo al d Ha ltac:(lra)) as B1. fold e in B1.
    pose proof (sigmoid_lo x hi al d Ha ltac:(lra)) as B2. fold e in B2.
    apply Rabs_le. nra.
  - apply Rnot_lt_le in C2. rewrite (Rabs_pos_eq (x - hi)) in Hh by lra.
    pose proof (sigmoid_hi x hi al d Ha ltac:(lra)) as B2. fold e in B2.
    apply Rabs_le. nra.
  - apply Rnot_le_lt in C1. rewrite Rabs_left in Hl by lra.
    pose proof (sigmoid_lo x lo al d Ha ltac:(lra)) as B1. fold e in B1.
    apply Rabs_le. nra.
Qed.

Lemma intervals_approx ivs al d x : 0 < al -> 0 <= d -> away d ivs x ->
  Rabs (act_fn (ASmoothIntervals ivs al false) x - INR (count_in ivs x))
  <= 2 * INR (List.length ivs) * exp (- (4 * d / al)).
Proof.
  intros Ha Hd. cbn [act_fn]. rewrite interval_sum_eq.
  induction ivs as [|[lo hi] t IH]; intros Haw.
  - cbn. rewrite Rabs_pos_eq; lra.
  - cbn [count_in map List.length]. rewrite plus_INR, S_INR.
    assert (IHt := IH (fun lo' hi' Hin => Haw lo' hi' (or_intror Hin))). clear IH.
    destruct (Haw lo hi (or_introl eq_refl)) as (A1 & A2 & A3).
    pose proof (one_interval x lo hi al d Ha Hd A1 A2 A3) as H1.
    unfold lsum in *. cbn [fold_right fst snd].
    set (q := INR (if Rle_dec lo x then _ else _)) in *.
    set (p := sigmoid_1 x lo al * _) in *. set (s := fold_right Rplus 0 _) in *.
    replace (p + s - (q + INR (count_in t x))) with ((p - q) + (s - INR (count_in t x))) by ring.
    eapply Rle_trans; [apply Rabs_triang|]. lra.
Qed.

Lemma intervals_growth ivs al x :
  act_fn (ASmoothIntervals ivs al true) x = 2 * act_fn (ASmoothIntervals ivs al false) x - 1.
Proof. cbn [act_fn]. cbv zeta. ring. Qed.

(** ** Polynomials *)
Lemma poly_from_eq coef x : forall ii acc,
  poly_from ii coef acc x = acc + rsum (List.length coef) (fun k => nth k coef 0 * x ^ (ii + k)).
Proof.
  induction coef as [|v t IH]; intros ii acc; cbn [poly_from List.length].
  - simpl. lra.
  - rewrite IH, rsum_S_l. cbn [nth]. rewrite Nat.add_0_r.
    rewrite (rsum_ext _ (fun i => nth i t 0 * x ^ (ii + S i)) (fun k => nth k t 0 * x ^ (S ii + k))); [lra|].
    intros i _. f_equal. f_equal. lia.
Qed.

Lemma poly_value coef (mode : bool) x : act_fn (APolynomial coef mode) x =
  let s := rsum (List.length coef) (fun k => nth k coef 0 * x ^ k) in if mode then 2 * s - 1 else s.
Proof.
  cbn [act_fn]. cbv zeta. rewrite poly_from_eq.
  rewrite (rsum_ext _ _ (fun k => nth k coef 0 * x ^ k)) by (intros; reflexivity).
  destruct mode; lra.
Qed.

(** ** Construction of mixtures from a config *)
Lemma mk_of d l : dget "parameters" d = Some (VVec l) ->
  mk_mixture d = (let* gs := read_mixture l in Ok (AMixture gs (truthy (query_kwargs "mode" (VInt 0) d)))).
Proof. intros H. unfold mk_mixture. unfold query_kwargs at 1. rewrite H. reflexivity. Qed.

Lemma mk_triples d l n : dget "parameters" d = Some (VVec l) -> List.length l = (3 * n)%nat ->
  mk_mixture d = Ok (AMixture (map (fun i => (nth (3 * i) l 0, nth (3 * i + 1) l 0, nth (3 * i + 2) l 0)) (seq 0 n))
                       (truthy (query_kwargs "mode" (VInt 0) d))).
Proof. intros H Hl. rewrite (mk_of d l H), (read_triples l n Hl). reflexivity. Qed.

Lemma mk_pairs d l n : dget "parameters" d = Some (VVec l) -> List.length l = (2 * n)%nat ->
  (List.length l mod 3 <> 0)%nat ->
  mk_mixture d = Ok (AMixture (map (fun i => (1, nth (2 * i) l 0, nth (2 * i + 1) l 0)) (seq 0 n))
                       (truthy (query_kwargs "mode" (VInt 0) d))).
Proof. intros H Hl H3. rewrite (mk_of d l H), (read_pairs l n Hl H3). reflexivity. Qed.

Lemma mk_odd d l n : dget "parameters" d = Some (VVec l) -> List.length l = (2 * n + 1)%nat ->
  (List.length l mod 3 <> 0)%nat -> mk_mixture d = Err IndexError.
Proof. intros H Hl H3. rewrite (mk_of d l H), (read_odd l n Hl H3). reflexivity. Qed.

Lemma mk_empty d t : dget "parameters" d = Some (VVec []) ->
  exists a, mk_mixture d = Ok a /\ act_apply a t = Err IndexError.
Proof. intros H. rewrite (mk_of d [] H). cbn. eexists. split; reflexivity. Qed.
