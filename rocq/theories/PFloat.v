(** Rounding in Coq.Floats.SpecFloat: what its operations compute. *)
From Coq Require Import Reals Lra Lia ZArith List Bool Floats.SpecFloat.
From Verif Require Import SFloat.
Open Scope R_scope.

(** ** Powers of two *)

Lemma bpow_pos e : 0 < bpow e.
Proof. unfold bpow. apply powerRZ_lt. lra. Qed.

Lemma bpow_add a b : bpow (a + b) = bpow a * bpow b.
Proof. unfold bpow. apply powerRZ_add. lra. Qed.

Lemma bpow_Z k : (0 <= k)%Z -> bpow k = IZR (2 ^ k).
Proof.
  intros H. unfold bpow. rewrite <- (Z2Nat.id k H). rewrite <- pow_powerRZ. rewrite <- pow_IZR. f_equal.
Qed.

Lemma bpow_0 : bpow 0 = 1.
Proof. reflexivity. Qed.

Lemma bpow_1 : bpow 1 = 2.
Proof. unfold bpow. apply powerRZ_1. Qed.

Lemma bpow_le a b : (a <= b)%Z -> bpow a <= bpow b.
Proof.
  intros H. replace b with (a + (b - a))%Z by lia. rewrite bpow_add. rewrite <- (Rmult_1_r (bpow a)) at 1.
  apply Rmult_le_compat_l; [apply Rlt_le, bpow_pos|]. rewrite bpow_Z by lia. apply IZR_le. apply (Z.pow_le_mono_r 2 0); lia.
Qed.

Lemma bpow_lt a b : (a < b)%Z -> bpow a < bpow b.
Proof.
  intros H. apply Rlt_le_trans with (bpow (a + 1)); [|apply bpow_le; lia]. rewrite bpow_add, bpow_1. pose proof (bpow_pos a). lra.
Qed.

Lemma bpow_lt_inv a b : bpow a < bpow b -> (a < b)%Z.
Proof. intros H. destruct (Z_lt_le_dec a b) as [L|L]; [exact L|]. apply bpow_le in L. lra. Qed.

Lemma bpow_le_inv a b : bpow a <= bpow b -> (a <= b)%Z.
Proof. intros H. destruct (Z_le_gt_dec a b) as [L|L]; [exact L|]. assert (M : (b < a)%Z) by lia. apply bpow_lt in M. lra. Qed.

Lemma bpow_half e : bpow (e - 1) = bpow e / 2.
Proof. replace e with (e - 1 + 1)%Z at 2 by lia. rewrite (bpow_add (e - 1) 1), bpow_1. field. Qed.

(** ** Digits *)

Lemma digits_bounds m : (2 ^ (Zpos (digits2_pos m) - 1) <= Zpos m < 2 ^ Zpos (digits2_pos m))%Z.
Proof.
  induction m as [m IH|m IH|]; cbn [digits2_pos]; [| |cbn; lia];
    rewrite Pos2Z.inj_succ; (replace (Z.succ (Zpos (digits2_pos m)) - 1)%Z with (Z.succ (Zpos (digits2_pos m) - 1)) by lia);
    rewrite !Z.pow_succ_r by lia; lia.
Qed.

Lemma digits_unique m d : (0 < d)%Z -> (2 ^ (d - 1) <= Zpos m < 2 ^ d)%Z -> Zpos (digits2_pos m) = d.
Proof.
  intros D H. pose proof (digits_bounds m) as B. set (k := Zpos (digits2_pos m)) in *. assert (K : (0 < k)%Z) by (unfold k; lia).
  destruct (Z.lt_trichotomy k d) as [L|[L|L]]; [exfalso| |exfalso]; [|exact L|].
  - assert (Q : (2 ^ k <= 2 ^ (d - 1))%Z) by (apply Z.pow_le_mono_r; lia). lia.
  - assert (Q : (2 ^ d <= 2 ^ (k - 1))%Z) by (apply Z.pow_le_mono_r; lia). lia.
Qed.

Lemma digits_le m k : (0 <= k)%Z -> (Zpos m < 2 ^ k)%Z -> (Zpos (digits2_pos m) <= k)%Z.
Proof.
  intros K H. pose proof (digits_bounds m) as B. destruct (Z_le_gt_dec (Zpos (digits2_pos m)) k) as [L|L]; [exact L|].
  assert (Q : (2 ^ k <= 2 ^ (Zpos (digits2_pos m) - 1))%Z) by (apply Z.pow_le_mono_r; lia). lia.
Qed.

Lemma digits_ge m k : (2 ^ k <= Zpos m)%Z -> (k + 1 <= Zpos (digits2_pos m))%Z.
Proof.
  intros H. pose proof (digits_bounds m) as B. destruct (Z_le_gt_dec (k + 1) (Zpos (digits2_pos m))) as [L|L]; [exact L|].
  assert (Q : (2 ^ (Zpos (digits2_pos m)) <= 2 ^ k)%Z) by (apply Z.pow_le_mono_r; lia). lia.
Qed.

(** ** Shifting right *)

(** After [k] shifts of [m]: the quotient, the next bit, and whether anything else was lost. *)
Definition shifted (m k : Z) (a : shr_record) : Prop :=
  (0 <= shr_m a)%Z /\
  exists t, (2 * m = shr_m a * 2 ^ (k + 1) + (if shr_r a then 2 ^ k else 0) + t)%Z /\ (0 <= t < 2 ^ k)%Z /\ (shr_s a = true <-> t <> 0%Z).

Lemma shifted_1 m k a : (0 <= k)%Z -> shifted m k a -> shifted m (k + 1) (shr_1 a).
Proof.
  intros K (P & t & E & B & Q). destruct a as [M r s]. cbn [shr_m shr_r shr_s] in *.
  assert (X : exists M' bit, shr_1 {| shr_m := M; shr_r := r; shr_s := s |} = {| shr_m := M'; shr_r := bit; shr_s := orb r s |} /\
              (M = 2 * M' + (if bit : bool then 1 else 0))%Z /\ (0 <= M')%Z).
  { destruct M as [|[p|p|]|p]; cbn [shr_1]; [exists 0%Z, false|exists (Zpos p), true|exists (Zpos p), false|exists 0%Z, true|lia]; repeat split; lia. }
  destruct X as (M' & bit & -> & EM & PM). split; [exact PM|]. cbn [shr_m shr_r shr_s].
  exists ((if r then 2 ^ k else 0) + t)%Z. assert (P2 : (2 ^ (k + 1) = 2 * 2 ^ k)%Z) by (rewrite <- Z.pow_succ_r by lia; f_equal; lia).
  assert (P3 : (2 ^ (k + 1 + 1) = 2 * 2 ^ (k + 1))%Z) by (rewrite <- Z.pow_succ_r by lia; f_equal; lia).
  assert (P0 : (0 < 2 ^ k)%Z) by (apply Z.pow_pos_nonneg; lia).
  split; [|split].
  - rewrite E, P3, EM. destruct bit, r; ring.
  - rewrite P2. destruct r; lia.
  - destruct r; cbn [orb]; [split; [lia|reflexivity]|exact Q].
Qed.

Lemma shifted_iter p : forall m k a, (0 <= k)%Z -> shifted m k a -> shifted m (k + Zpos p) (iter_pos shr_1 p a).
Proof.
  induction p as [p IH|p IH|]; intros m k a K H; cbn [iter_pos].
  - replace (k + Zpos p~1)%Z with (k + 1 + Zpos p + Zpos p)%Z by lia. apply IH; [lia|]. apply IH; [lia|]. apply shifted_1; assumption.
  - replace (k + Zpos p~0)%Z with (k + Zpos p + Zpos p)%Z by lia. apply IH; [lia|]. apply IH; assumption.
  - apply shifted_1; assumption.
Qed.

Lemma shifted_0 m : (0 <= m)%Z -> shifted m 0 (shr_record_of_loc m loc_Exact).
Proof. intros H. split; [exact H|]. exists 0%Z. cbn [shr_record_of_loc shr_m shr_r shr_s]. change (2 ^ (0 + 1))%Z with 2%Z. change (2 ^ 0)%Z with 1%Z.
  split; [lia|]. split; [lia|]. split; [discriminate|congruence].
Qed.

Lemma shr_spec m e n : (0 <= m)%Z -> (0 <= n)%Z ->
  exists a, shr (shr_record_of_loc m loc_Exact) e n = (a, (e + n)%Z) /\ shifted m n a.
Proof.
  intros M N. destruct n as [|p|p]; [|exists (iter_pos shr_1 p (shr_record_of_loc m loc_Exact))|lia]; cbn [shr].
  - exists (shr_record_of_loc m loc_Exact). split; [f_equal; lia|]. apply shifted_0, M.
  - split; [reflexivity|]. apply (shifted_iter p m 0); [lia|]. apply shifted_0, M.
Qed.

(** Half to even. *)
Lemma nearest_spec m k a : (0 <= k)%Z -> shifted m k a ->
  let q := round_nearest_even (shr_m a) (loc_of_shr_record a) in
  (0 <= q)%Z /\ (Z.abs (2 * m - q * 2 ^ (k + 1)) <= 2 ^ k)%Z /\ (Z.abs (2 * m - q * 2 ^ (k + 1)) = 2 ^ k -> Z.even q = true)%Z.
Proof.
  intros K (P & t & E & B & Q). destruct a as [M r s]. cbn [shr_m shr_r shr_s] in *.
  assert (P2 : (2 ^ (k + 1) = 2 * 2 ^ k)%Z) by (rewrite <- Z.pow_succ_r by lia; f_equal; lia).
  assert (P0 : (0 < 2 ^ k)%Z) by (apply Z.pow_pos_nonneg; lia). rewrite P2 in *. revert P0 E B. generalize (2 ^ k)%Z. intros w P0 E B.
  destruct r, s; cbn [loc_of_shr_record round_nearest_even].
  - assert (t <> 0%Z) by (apply Q; reflexivity). split; [lia|]. split; lia.
  - assert (t = 0%Z) by (destruct (Z.eq_dec t 0) as [X|X]; [exact X|apply Q in X; discriminate]). subst t.
    destruct (Z.even M) eqn:EM; [split; [lia|split; [lia|intros _; exact EM]]|]. split; [lia|]. split; [lia|]. intros _.
    rewrite Z.even_add, EM. reflexivity.
  - assert (t <> 0%Z) by (apply Q; reflexivity). split; [lia|]. split; lia.
  - assert (t = 0%Z) by (destruct (Z.eq_dec t 0) as [X|X]; [exact X|apply Q in X; discriminate]). subst t. split; [lia|]. split; lia.
Qed.

Section Format.
Variables prec emax : Z.
Hypothesis Hprec : (1 < prec)%Z.
Hypothesis Hmax : (prec < emax)%Z.

Notation fexp := (fexp prec emax).
Notation emin := (emin prec emax).
Notation rep := (rep prec emax).
Notation rounded := (rounded prec emax).
Notation number := (number prec emax).
Notation result := (result prec emax).

(** What the significand becomes: [q] steps of size [2 ^ fexp (d + e)]. *)
Lemma round_steps s m e : let d := Zpos (digits2_pos m) in let n := (fexp (d + e) - e)%Z in (0 <= n)%Z ->
  exists q, (0 <= q)%Z /\ (Z.abs (2 * Zpos m - q * 2 ^ (n + 1)) <= 2 ^ n)%Z /\ (Z.abs (2 * Zpos m - q * 2 ^ (n + 1)) = 2 ^ n -> Z.even q = true)%Z /\
    ((n <= d)%Z -> (q <= 2 ^ (d - n))%Z) /\ ((d < n)%Z -> q = 0%Z) /\ ((n <= d - 1)%Z -> (2 ^ (d - 1 - n) <= q)%Z) /\
    ((q = 0%Z /\ binary_round_aux prec emax s (Zpos m) e loc_Exact = S754_zero s) \/
     exists M E, binary_round_aux prec emax s (Zpos m) e loc_Exact = (if Zle_bool E (emax - prec) then S754_finite s M E else S754_infinity s) /\
       IZR (Zpos M) * bpow E = IZR q * bpow (fexp (d + e)) /\ canonical_mantissa prec emax M E = true).
Proof.
  intros d n Hn. destruct (shr_spec (Zpos m) e n ltac:(lia) Hn) as (a & Ea & Sa).
  destruct (nearest_spec (Zpos m) n a Hn Sa) as (Q0 & Q1 & Qt).
  set (q := round_nearest_even (shr_m a) (loc_of_shr_record a)) in *. exists q.
  pose proof (digits_bounds m) as B. fold d in B. assert (D : (0 < d)%Z) by (unfold d; lia).
  assert (P1 : (2 ^ (n + 1) = 2 * 2 ^ n)%Z) by (rewrite <- Z.pow_succ_r by lia; f_equal; lia).
  assert (P0 : (0 < 2 ^ n)%Z) by (apply Z.pow_pos_nonneg; lia).
  assert (B1 : (n <= d)%Z -> (q <= 2 ^ (d - n))%Z).
  { intros L. assert (X : (2 ^ d = 2 ^ (d - n) * 2 ^ n)%Z) by (rewrite <- Z.pow_add_r by lia; f_equal; lia). rewrite X in B. rewrite P1 in Q1. nia. }
  assert (B2 : (d < n)%Z -> q = 0%Z).
  { intros L. assert (X : (2 * 2 ^ d <= 2 ^ n)%Z) by (rewrite <- Z.pow_succ_r by lia; apply Z.pow_le_mono_r; lia). rewrite P1 in Q1. nia. }
  assert (B3 : (n <= d - 1)%Z -> (2 ^ (d - 1 - n) <= q)%Z).
  { intros L. assert (X : (2 ^ (d - 1) = 2 ^ (d - 1 - n) * 2 ^ n)%Z) by (rewrite <- Z.pow_add_r by lia; f_equal; lia). rewrite X in B. rewrite P1 in Q1. nia. }
  split; [exact Q0|]. split; [exact Q1|]. split; [exact Qt|]. split; [exact B1|]. split; [exact B2|]. split; [exact B3|].
  unfold binary_round_aux, shr_fexp. change (Zdigits2 (Zpos m)) with d. fold n. rewrite Ea. fold q.
  assert (Ee : (e + n)%Z = fexp (d + e)) by (unfold n; lia). rewrite Ee. set (e' := fexp (d + e)) in *.
  destruct (Z.eq_dec q 0) as [Z0|NZ].
  { left. split; [exact Z0|]. rewrite Z0. cbn [Zdigits2 shr_record_of_loc].
    destruct (shr_spec 0 e' (Z.max 0 (fexp (0 + e') - e')) ltac:(lia) ltac:(lia)) as (a2 & E2 & S2).
    assert (E3 : shr (shr_record_of_loc 0 loc_Exact) e' (fexp (0 + e') - e') = (a2, (e' + Z.max 0 (fexp (0 + e') - e'))%Z)).
    { destruct (Z_le_gt_dec (fexp (0 + e') - e') 0) as [L|L].
      - rewrite Z.max_l in E2 |- * by lia. rewrite <- E2. destruct (fexp (0 + e') - e')%Z; [reflexivity|lia|reflexivity].
      - rewrite Z.max_r in E2 |- * by lia. exact E2. }
    cbn [shr_record_of_loc] in E3. rewrite E3. destruct S2 as (S2 & t & S3 & S4 & _).
    assert (S5 : shr_m a2 = 0%Z).
    { assert (PP : (0 < 2 ^ (Z.max 0 (fexp (0 + e') - e') + 1))%Z) by (apply Z.pow_pos_nonneg; lia).
      assert (0 <= (if shr_r a2 then 2 ^ Z.max 0 (fexp (0 + e') - e') else 0))%Z by (destruct (shr_r a2); [apply Z.pow_nonneg; lia|lia]). nia. }
    rewrite S5. reflexivity. }
  right. assert (Hq : exists p, q = Zpos p) by (destruct q as [|p|p]; [contradiction|eauto|lia]). destruct Hq as [p Ep].
  assert (L1 : (n <= d)%Z) by (destruct (Z_le_gt_dec n d) as [L|L]; [exact L|rewrite B2 in NZ by lia; congruence]).
  specialize (B1 L1). rewrite Ep in *. change (Zdigits2 (Zpos p)) with (Zpos (digits2_pos p)). pose proof (digits_bounds p) as Bp. set (d2 := Zpos (digits2_pos p)) in *.
  assert (Fe : forall z, fexp z = Z.max (z - prec) emin) by reflexivity.
  destruct (Z.eq_dec (Zpos p) (2 ^ (d - n))) as [T|T].
  - (* the next power of two *)
    assert (D2 : d2 = (d - n + 1)%Z).
    { apply digits_unique; [lia|]. rewrite T. replace (d - n + 1 - 1)%Z with (d - n)%Z by lia. split; [lia|]. apply Z.pow_lt_mono_r; lia. }
    rewrite D2. replace (d - n + 1 + e')%Z with (d + e + 1)%Z by lia.
    assert (C : (fexp (d + e + 1) - e' = 0 \/ (fexp (d + e + 1) - e' = 1 /\ e' = d + e - prec))%Z) by (unfold e'; rewrite !Fe; lia).
    destruct C as [C|[C C2]].
    + rewrite C. cbn [shr shr_record_of_loc shr_m]. exists p, e'. split; [reflexivity|]. split; [reflexivity|].
      unfold canonical_mantissa. fold d2. rewrite D2. replace (d - n + 1 + e')%Z with (d + e + 1)%Z by lia. apply Zeq_is_eq_bool. lia.
    + rewrite C. assert (DN : (d - n = prec)%Z) by lia.
      assert (Hp : exists p', p = xO p').
      { destruct p as [p'|p'|]; [|eauto|]; exfalso.
        - rewrite DN in T. replace prec with (Z.succ (prec - 1)) in T by lia. rewrite Z.pow_succ_r in T by lia. lia.
        - rewrite DN in T. assert ((1 < 2 ^ prec)%Z) by (apply Z.pow_gt_1; lia). lia. }
      destruct Hp as [p' ->]. cbn [shr iter_pos shr_record_of_loc shr_1 shr_m]. exists p', (e' + 1)%Z. split; [reflexivity|]. split.
      * rewrite bpow_add, bpow_1. rewrite (Pos2Z.inj_xO p'), mult_IZR. ring.
      * unfold canonical_mantissa. assert (D3 : Zpos (digits2_pos p') = (d - n)%Z).
        { unfold d2 in D2. cbn [digits2_pos] in D2. lia. }
        assert (EM : (emin <= e')%Z) by (unfold e'; rewrite Fe; lia). rewrite D3. apply Zeq_is_eq_bool. rewrite Fe. lia.
  - assert (L2 : (Zpos p < 2 ^ (d - n))%Z) by lia.
    assert (L3 : (d2 <= d - n)%Z) by (apply digits_le; lia).
    assert (NP : (n <= d - 1)%Z) by (destruct (Z.eq_dec n d) as [X|X]; [subst n; rewrite X, Z.sub_diag in L2; cbn in L2; lia|lia]).
    specialize (B3 NP). apply digits_ge in B3. fold d2 in B3. assert (D2 : d2 = (d - n)%Z) by lia.
    rewrite D2. replace (d - n + e')%Z with (d + e)%Z by lia. fold e'. rewrite Z.sub_diag. cbn [shr shr_record_of_loc shr_m].
    exists p, e'. split; [reflexivity|]. split; [reflexivity|]. unfold canonical_mantissa. fold d2. rewrite D2.
    replace (d - n + e')%Z with (d + e)%Z by lia. apply Zeq_is_eq_bool. reflexivity.
Qed.

(** A number of the format in the binade of [m * 2 ^ e] is a whole number of steps. *)
Lemma rep_steps r d e : rep r -> (0 < d)%Z -> bpow (d + e - 1) <= r -> exists K, r = IZR K * bpow (fexp (d + e)).
Proof.
  intros (K & E & -> & B & M) D L. assert (Fe : fexp (d + e) = Z.max (d + e - prec) emin) by reflexivity. set (e' := fexp (d + e)) in *.
  destruct (Z_le_gt_dec e' E) as [X|X].
  - exists (K * 2 ^ (E - e'))%Z. rewrite mult_IZR, <- bpow_Z, Rmult_assoc, <- bpow_add by lia. do 2 f_equal. lia.
  - exists (2 ^ (prec - 1))%Z. rewrite <- bpow_Z, <- bpow_add by lia. replace (prec - 1 + e')%Z with (d + e - 1)%Z by lia.
    apply Rle_antisym; [|exact L]. apply Rle_trans with (IZR (2 ^ prec) * bpow E).
    + apply Rmult_le_compat_r; [apply Rlt_le, bpow_pos|]. apply IZR_le. lia.
    + rewrite <- bpow_Z, <- bpow_add by lia. apply bpow_le. lia.
Qed.

Lemma steps_rounded m e q : let d := Zpos (digits2_pos m) in let n := (fexp (d + e) - e)%Z in (0 <= n)%Z ->
  (0 <= q)%Z -> (Z.abs (2 * Zpos m - q * 2 ^ (n + 1)) <= 2 ^ n)%Z ->
  ((n <= d)%Z -> (q <= 2 ^ (d - n))%Z) -> ((d < n)%Z -> q = 0%Z) -> ((n <= d - 1)%Z -> (2 ^ (d - 1 - n) <= q)%Z) ->
  rounded (IZR (Zpos m) * bpow e) (IZR q * bpow (fexp (d + e))).
Proof.
  intros d n Hn Q0 Q1 B1 B2 B3. pose proof (digits_bounds m) as B. fold d in B. assert (D : (0 < d)%Z) by (unfold d; lia).
  assert (Fe : fexp (d + e) = Z.max (d + e - prec) emin) by reflexivity. set (e' := fexp (d + e)) in *.
  set (u := bpow e'). set (x := IZR (Zpos m) * bpow e). assert (U : 0 < u) by apply bpow_pos.
  assert (P1 : (2 ^ (n + 1) = 2 * 2 ^ n)%Z) by (rewrite <- Z.pow_succ_r by lia; f_equal; lia).
  assert (Un : u = IZR (2 ^ n) * bpow e) by (unfold u; rewrite <- bpow_Z, <- bpow_add by lia; f_equal; lia).
  assert (Near : Rabs (IZR q * u - x) <= u / 2).
  { rewrite P1 in Q1. assert (W := Z.abs_le (2 * Zpos m - q * (2 * 2 ^ n)) (2 ^ n)). apply W in Q1 as [W1 W2]. clear W.
    apply IZR_le in W1, W2. rewrite minus_IZR, !mult_IZR in W1, W2. rewrite opp_IZR in W1. pose proof (bpow_pos e) as E0.
    apply (Rmult_le_compat_r (bpow e) _ _ (Rlt_le _ _ E0)) in W1. apply (Rmult_le_compat_r (bpow e) _ _ (Rlt_le _ _ E0)) in W2.
    apply Rabs_le. rewrite Un. unfold x. revert W1 W2. generalize (IZR (Zpos m)) (IZR q) (IZR (2 ^ n)) (bpow e). clear. intros; split; lra. }
  assert (Lo : bpow (d + e - 1) <= x).
  { unfold x. replace (d + e - 1)%Z with (d - 1 + e)%Z by lia. rewrite bpow_add, bpow_Z by lia. apply Rmult_le_compat_r; [apply Rlt_le, bpow_pos|]. apply IZR_le. lia. }
  assert (Hi : x < bpow (d + e)).
  { unfold x. rewrite bpow_add, (bpow_Z d) by lia. apply Rmult_lt_compat_r; [apply bpow_pos|]. apply IZR_lt. lia. }
  assert (X0 : 0 < x) by (eapply Rlt_le_trans; [apply bpow_pos|exact Lo]).
  assert (V0 : 0 <= IZR q * u) by (apply Rmult_le_pos; [apply (IZR_le 0); lia|lra]).
  assert (Ne : IZR q * u <= x + u / 2 /\ x - u / 2 <= IZR q * u) by (unfold Rabs in Near; destruct (Rcase_abs _) in Near; lra).
  assert (Mul : forall K, Rabs (IZR q * u - x) <= Rabs (IZR K * u - x)).
  { intros K. destruct (Z.eq_dec K q) as [->|Hk]; [lra|]. apply Rle_trans with (u / 2); [exact Near|].
    destruct Ne as [Ne1 Ne2]. destruct (Z_lt_le_dec K q) as [G|G].
    - assert (A : IZR K + 1 <= IZR q) by (rewrite <- plus_IZR; apply IZR_le; lia). apply (Rmult_le_compat_r u _ _ (Rlt_le _ _ U)) in A.
      rewrite Rabs_left1; lra.
    - assert (A : IZR q + 1 <= IZR K) by (rewrite <- plus_IZR; apply IZR_le; lia). apply (Rmult_le_compat_r u _ _ (Rlt_le _ _ U)) in A.
      rewrite Rabs_pos_eq; lra. }
  assert (Below : forall K r, r <= IZR K * u -> IZR K * u <= x -> Rabs (IZR q * u - x) <= Rabs (r - x)).
  { intros K r R1 R2. eapply Rle_trans; [apply (Mul K)|]. rewrite !Rabs_left1 by lra. lra. }
  split; [|split].
  - exists q, e'. split; [reflexivity|]. split; [|lia]. rewrite Z.abs_eq by lia. destruct (Z_le_gt_dec n d) as [L|L]; [|rewrite B2 by lia; apply Z.pow_nonneg; lia].
    apply Z.le_trans with (2 ^ (d - n))%Z; [exact (B1 L)|]. apply Z.pow_le_mono_r; lia.
  - intros r Hr. destruct (Rle_lt_dec r 0) as [T|T]; [apply (Below 0%Z); lra|].
    destruct (Z_le_gt_dec n (d - 1)) as [L|L].
    + destruct (Rle_lt_dec r (bpow (d + e - 1))) as [X|X].
      * apply (Below (2 ^ (d - 1 - n))%Z); unfold u; rewrite <- bpow_Z, <- bpow_add by lia; replace (d - 1 - n + e')%Z with (d + e - 1)%Z by lia; assumption.
      * destruct (rep_steps r d e Hr D ltac:(lra)) as [K EK]. fold e' in EK. fold u in EK. rewrite EK. apply Mul.
    + destruct Hr as (K & E & -> & _ & M). replace (IZR K * bpow E) with (IZR (K * 2 ^ (E - e')) * u); [apply Mul|]. unfold u.
      rewrite mult_IZR, <- bpow_Z, Rmult_assoc, <- bpow_add by lia. do 2 f_equal. lia.
  - rewrite (Rabs_pos_eq x) by lra. apply Rle_trans with (u / 2); [exact Near|]. unfold u. rewrite <- bpow_half.
    pose proof (bpow_pos (- prec)) as Z1. pose proof (bpow_pos (emin - 1)) as Z2.
    destruct (Z_le_gt_dec emin (d + e - prec)) as [L|L].
    + replace (e' - 1)%Z with (- prec + (d + e - 1))%Z by lia. rewrite bpow_add. apply (Rmult_le_compat_l (bpow (- prec)) _ _ (Rlt_le _ _ Z1)) in Lo. lra.
    + replace (e' - 1)%Z with (emin - 1)%Z by lia. pose proof (Rmult_lt_0_compat _ _ Z1 X0). lra.
Qed.

Notation sgn s := (if s : bool then -1 else 1).

Lemma rep_opp r : rep r -> rep (- r).
Proof. intros (K & E & -> & B & M). exists (- K)%Z, E. rewrite opp_IZR, Z.abs_opp. split; [ring|split; assumption]. Qed.

Lemma rep_0 : rep 0.
Proof. exists 0%Z, emin. split; [ring|]. split; [apply Z.pow_nonneg; lia|lia]. Qed.

Lemma rounded_opp x v : rounded x v -> rounded (- x) (- v).
Proof.
  intros (R & U & N). split; [apply rep_opp, R|]. split.
  - intros r Hr. apply rep_opp in Hr. specialize (U _ Hr). replace (- v - - x) with (- (v - x)) by ring. replace (r - - x) with (- (- r - x)) by ring.
    rewrite !Rabs_Ropp. exact U.
  - rewrite Rabs_Ropp. replace (- v - - x) with (- (v - x)) by ring. rewrite Rabs_Ropp. exact N.
Qed.

Lemma rounded_rep x : rep x -> rounded x x.
Proof.
  intros H. split; [exact H|]. split; rewrite Rminus_diag_eq, Rabs_R0 by reflexivity; [intros; apply Rabs_pos|].
  pose proof (bpow_pos (- prec)). pose proof (bpow_pos (emin - 1)). pose proof (Rabs_pos x). nra.
Qed.

(** Rounding never jumps over a number of the format. *)
Lemma rounded_le x v r : rounded x v -> rep r -> x <= r -> v <= r.
Proof.
  intros (_ & U & _) Hr L. destruct (Rle_lt_dec v r) as [T|T]; [exact T|exfalso]. specialize (U r Hr). rewrite !Rabs_pos_eq in U by lra. lra.
Qed.

Lemma rounded_ge x v r : rounded x v -> rep r -> r <= x -> r <= v.
Proof.
  intros (_ & U & _) Hr L. destruct (Rle_lt_dec r v) as [T|T]; [exact T|exfalso]. specialize (U r Hr). rewrite !Rabs_left1 in U by lra. lra.
Qed.

Lemma canonical_digits M E : canonical_mantissa prec emax M E = true ->
  (Zpos (digits2_pos M) <= prec)%Z /\ (emin <= E)%Z /\ ((emin < E)%Z -> Zpos (digits2_pos M) = prec).
Proof.
  unfold canonical_mantissa. intros H. apply Zeq_bool_eq in H. assert (Fe : forall z, fexp z = Z.max (z - prec) emin) by reflexivity. rewrite Fe in H. lia.
Qed.

Lemma mantissa_lt M E : canonical_mantissa prec emax M E = true -> IZR (Zpos M) * bpow E < bpow (prec + E).
Proof.
  intros H. apply canonical_digits in H as (H & _). pose proof (digits_bounds M) as B. rewrite bpow_add, (bpow_Z prec) by lia.
  apply Rmult_lt_compat_r; [apply bpow_pos|]. apply IZR_lt. apply Z.lt_le_trans with (2 ^ Zpos (digits2_pos M))%Z; [lia|]. apply Z.pow_le_mono_r; lia.
Qed.

Lemma sgn_abs (s : bool) x : 0 <= x -> Rabs (sgn s * x) = x.
Proof. intros H. destruct s; [replace (-1 * x) with (- x) by ring; rewrite Rabs_Ropp|rewrite Rmult_1_l]; apply Rabs_pos_eq, H. Qed.

Lemma rounded_sgn (s : bool) x v : rounded x v -> rounded (sgn s * x) (sgn s * v).
Proof. intros H. destruct s; [replace (-1 * x) with (- x) by ring; replace (-1 * v) with (- v) by ring; apply rounded_opp, H|rewrite !Rmult_1_l; exact H]. Qed.

Lemma round_aux_result s m e : (e <= fexp (Zpos (digits2_pos m) + e))%Z ->
  result (sgn s * (IZR (Zpos m) * bpow e)) (binary_round_aux prec emax s (Zpos m) e loc_Exact).
Proof.
  intros H. destruct (round_steps s m e ltac:(lia)) as (q & Q0 & Q1 & _ & B1 & B2 & B3 & Q).
  pose proof (steps_rounded m e q ltac:(lia) Q0 Q1 B1 B2 B3) as R. apply (rounded_sgn s) in R. eexists. split; [exact R|]. clear R B1 B2 B3 Q1.
  destruct Q as [[-> ->]|(M & E & -> & V & C)].
  - left. rewrite Rmult_0_l, Rmult_0_r, Rabs_R0. split; [apply bpow_pos|]. split; [split; [exact I|reflexivity]|reflexivity].
  - rewrite <- V. destruct (Zle_bool E (emax - prec)) eqn:L; [left|right].
    + rewrite sgn_abs by (apply Rmult_le_pos; [apply IZR_le; lia|apply Rlt_le, bpow_pos]). apply Zle_bool_imp_le in L.
      split; [|split; [split; [exact I|]|]].
      * eapply Rlt_le_trans; [apply mantissa_lt, C|]. apply bpow_le. lia.
      * cbn [valid_binary]. unfold bounded. rewrite C. apply Zle_imp_le_bool in L. rewrite L. reflexivity.
      * cbn [value]. ring.
    + assert (L' : (emax - prec < E)%Z) by (apply Z.leb_gt; exact L).
      destruct (canonical_digits M E C) as (_ & _ & D). assert (EM : emin = (3 - emax - prec)%Z) by reflexivity. specialize (D ltac:(lia)).
      assert (G : bpow emax <= IZR (Zpos M) * bpow E).
      { apply Rle_trans with (bpow (prec - 1 + E)); [apply bpow_le; lia|]. rewrite bpow_add, (bpow_Z (prec - 1)) by lia.
        apply Rmult_le_compat_r; [apply Rlt_le, bpow_pos|]. apply IZR_le. pose proof (digits_bounds M) as B. rewrite D in B. lia. }
      destruct s; [right; split; [lra|reflexivity]|left; split; [lra|reflexivity]].
Qed.

Lemma align_value m e e' : IZR (Zpos (fst (shl_align m e e'))) * bpow (snd (shl_align m e e')) = IZR (Zpos m) * bpow e /\
  (Zpos (digits2_pos (fst (shl_align m e e'))) + snd (shl_align m e e') = Zpos (digits2_pos m) + e)%Z /\
  (snd (shl_align m e e') = Z.min e e')%Z.
Proof.
  unfold shl_align. destruct (e' - e)%Z eqn:X; cbn [fst snd]; [split; [reflexivity|split; [reflexivity|lia]]..|].
  assert (S : Zpos (shift_pos p m) = (Zpos m * 2 ^ Zpos p)%Z) by (rewrite shift_pos_correct; apply Z.mul_comm).
  split; [|split; [|lia]].
  - rewrite S, mult_IZR, <- bpow_Z by lia. rewrite Rmult_assoc, <- bpow_add. do 2 f_equal. lia.
  - rewrite (digits_unique (shift_pos p m) (Zpos (digits2_pos m) + Zpos p)); [lia|lia|]. rewrite S. pose proof (digits_bounds m) as B.
    replace (Zpos (digits2_pos m) + Zpos p - 1)%Z with (Zpos (digits2_pos m) - 1 + Zpos p)%Z by lia. rewrite !Z.pow_add_r by lia.
    assert (0 < 2 ^ Zpos p)%Z by (apply Z.pow_pos_nonneg; lia). nia.
Qed.

Lemma round_result s m e : result (sgn s * (IZR (Zpos m) * bpow e)) (binary_round prec emax s m e).
Proof.
  unfold binary_round. pose proof (align_value m e (fexp (Zpos (digits2_pos m) + e))) as (V & D & E).
  destruct (shl_align m e (fexp (Zpos (digits2_pos m) + e))) as [mz ez]. cbn [fst snd] in *. rewrite <- V. apply round_aux_result. rewrite D. lia.
Qed.

Lemma normalize_result m e s : result (IZR m * bpow e) (binary_normalize prec emax m e s).
Proof.
  destruct m as [|p|p]; cbn [binary_normalize].
  - exists 0. rewrite Rmult_0_l. split; [apply rounded_rep, rep_0|]. left. rewrite Rabs_R0. split; [apply bpow_pos|]. split; [split; [exact I|reflexivity]|reflexivity].
  - pose proof (round_result false p e) as H. rewrite Rmult_1_l in H. exact H.
  - pose proof (round_result true p e) as H. replace (IZR (Zneg p) * bpow e) with (-1 * (IZR (Zpos p) * bpow e)); [exact H|].
    change (Zneg p) with (- Zpos p)%Z. rewrite opp_IZR. ring.
Qed.

(** ** Numbers *)

Lemma number_rep x : number x -> rep (value x) /\ Rabs (value x) < bpow emax.
Proof.
  intros [F V]. destruct x as [s|s| |s M E]; try contradiction F; cbn [value].
  - split; [apply rep_0|]. rewrite Rabs_R0. apply bpow_pos.
  - cbn [valid_binary] in V. unfold bounded in V. apply andb_true_iff in V as [C L]. apply Zle_bool_imp_le in L. rewrite Rmult_assoc.
    split; [|rewrite sgn_abs by (apply Rmult_le_pos; [apply IZR_le; lia|apply Rlt_le, bpow_pos]); eapply Rlt_le_trans; [apply mantissa_lt, C|apply bpow_le; lia]].
    destruct (canonical_digits M E C) as (D1 & D2 & _). pose proof (digits_bounds M) as B.
    assert (Q : rep (IZR (Zpos M) * bpow E)).
    { exists (Zpos M), E. split; [reflexivity|]. split; [|exact D2]. cbn [Z.abs]. apply Z.le_trans with (2 ^ Zpos (digits2_pos M))%Z; [lia|]. apply Z.pow_le_mono_r; lia. }
    destruct s; [replace (-1 * (IZR (Zpos M) * bpow E)) with (- (IZR (Zpos M) * bpow E)) by ring; apply rep_opp, Q|rewrite Rmult_1_l; exact Q].
Qed.

Lemma number_result x : number x -> result (value x) x.
Proof. intros H. destruct (number_rep x H) as [R B]. exists (value x). split; [apply rounded_rep, R|]. left. split; [exact B|]. split; [exact H|reflexivity]. Qed.

Lemma result_zero s : result 0 (S754_zero s).
Proof. apply (number_result (S754_zero s)). split; [exact I|reflexivity]. Qed.

Lemma cond_value (s : bool) m e : IZR (cond_Zopp s (Zpos m)) * bpow e = sgn s * (IZR (Zpos m) * bpow e).
Proof. destruct s; cbn [cond_Zopp]; [rewrite opp_IZR|]; ring. Qed.

Lemma align_to m e e' : (e' <= e)%Z -> IZR (Zpos (fst (shl_align m e e'))) * bpow e' = IZR (Zpos m) * bpow e.
Proof. intros H. destruct (align_value m e e') as (V & _ & E). rewrite E, Z.min_r in V by exact H. exact V. Qed.

Lemma add_result x y : number x -> number y -> result (value x + value y) (SFadd prec emax x y).
Proof.
  intros Hx Hy. destruct x as [sx|sx| |sx mx ex]; try contradiction (proj1 Hx); destruct y as [sy|sy| |sy my ey]; try contradiction (proj1 Hy); cbn [SFadd].
  - cbn [value]. rewrite Rplus_0_r. destruct (Bool.eqb sx sy); apply result_zero.
  - change (value (S754_zero sx)) with 0. rewrite Rplus_0_l. apply number_result, Hy.
  - change (value (S754_zero sy)) with 0. rewrite Rplus_0_r. apply number_result, Hx.
  - cbv zeta. set (ez := Z.min ex ey).
    replace (value (S754_finite sx mx ex) + value (S754_finite sy my ey)) with
      (IZR (cond_Zopp sx (Zpos (fst (shl_align mx ex ez))) + cond_Zopp sy (Zpos (fst (shl_align my ey ez)))) * bpow ez); [apply normalize_result|].
    rewrite plus_IZR, Rmult_plus_distr_r, !cond_value, !align_to by (unfold ez; lia). cbn [value]. ring.
Qed.

Lemma sub_result x y : number x -> number y -> result (value x - value y) (SFsub prec emax x y).
Proof.
  intros Hx Hy. destruct x as [sx|sx| |sx mx ex]; try contradiction (proj1 Hx); destruct y as [sy|sy| |sy my ey]; try contradiction (proj1 Hy); cbn [SFsub].
  - cbn [value]. rewrite Rminus_0_r. destruct (Bool.eqb sx (negb sy)); apply result_zero.
  - change (value (S754_zero sx)) with 0. replace (0 - value (S754_finite sy my ey)) with (value (S754_finite (negb sy) my ey)) by (cbn [value]; destruct sy; cbn [negb]; ring).
    apply number_result. split; [exact I|exact (proj2 Hy)].
  - change (value (S754_zero sy)) with 0. rewrite Rminus_0_r. apply number_result, Hx.
  - cbv zeta. set (ez := Z.min ex ey).
    replace (value (S754_finite sx mx ex) - value (S754_finite sy my ey)) with
      (IZR (cond_Zopp sx (Zpos (fst (shl_align mx ex ez))) - cond_Zopp sy (Zpos (fst (shl_align my ey ez)))) * bpow ez); [apply normalize_result|].
    rewrite minus_IZR. unfold Rminus at 1. rewrite Rmult_plus_distr_r, Ropp_mult_distr_l_reverse, !cond_value, !align_to by (unfold ez; lia). cbn [value]. ring.
Qed.

Lemma product_value sx mx ex sy my ey :
  value (S754_finite sx mx ex) * value (S754_finite sy my ey) = sgn (xorb sx sy) * (IZR (Zpos (mx * my)) * bpow (ex + ey)).
Proof. cbn [value]. rewrite Pos2Z.inj_mul, mult_IZR, bpow_add. destruct sx, sy; cbn [xorb]; ring. Qed.

Lemma mul_result x y : number x -> number y -> result (value x * value y) (SFmul prec emax x y).
Proof.
  intros Hx Hy. destruct x as [sx|sx| |sx mx ex]; try contradiction (proj1 Hx); destruct y as [sy|sy| |sy my ey]; try contradiction (proj1 Hy); cbn [SFmul].
  1-3: match goal with |- result ?a _ => replace a with 0 by (cbn [value]; ring) end; apply result_zero.
  rewrite product_value. apply round_aux_result.
  destruct Hx as [_ Vx], Hy as [_ Vy]. cbn [valid_binary] in Vx, Vy. unfold bounded in Vx, Vy. apply andb_true_iff in Vx as [Cx _], Vy as [Cy _].
  destruct (canonical_digits _ _ Cx) as (X1 & X2 & X3). destruct (canonical_digits _ _ Cy) as (Y1 & Y2 & Y3).
  pose proof (digits_bounds mx) as Bx. pose proof (digits_bounds my) as By. set (dx := Zpos (digits2_pos mx)) in *. set (dy := Zpos (digits2_pos my)) in *.
  assert (D : (dx + dy - 1 <= Zpos (digits2_pos (mx * my)))%Z).
  { replace (dx + dy - 1)%Z with (dx + dy - 2 + 1)%Z by lia. apply digits_ge. replace (dx + dy - 2)%Z with (dx - 1 + (dy - 1))%Z by lia.
    rewrite Z.pow_add_r by lia. rewrite Pos2Z.inj_mul. assert (0 < 2 ^ (dx - 1))%Z by (apply Z.pow_pos_nonneg; lia). nia. }
  assert (Fe : forall z, fexp z = Z.max (z - prec) emin) by reflexivity. rewrite Fe. assert (EM : emin = (3 - emax - prec)%Z) by reflexivity. lia.
Qed.

(** ** Using results *)

Lemma result_bounded x z r : result x z -> rep r -> r < bpow emax -> Rabs x <= r -> number z /\ Rabs (value z) <= r.
Proof.
  intros (v & Rn & C) Hr B X. assert (X' : x <= r /\ - r <= x) by (unfold Rabs in X; destruct (Rcase_abs x) in X; lra).
  pose proof (rounded_le _ _ _ Rn Hr (proj1 X')). pose proof (rounded_ge _ _ _ Rn (rep_opp r Hr) (proj2 X')).
  destruct C as [(A & N & V)|[[A _]|[A _]]]; [|lra|lra]. split; [exact N|]. rewrite V. apply Rabs_le. lra.
Qed.

Lemma result_near x z : result x z -> finite z -> Rabs (value z - x) <= bpow (- prec) * Rabs x + bpow (emin - 1).
Proof. intros (v & (_ & _ & N) & [(A & _ & V)|[[_ ->]|[_ ->]]]) F; [rewrite V; exact N|contradiction F|contradiction F]. Qed.

Lemma result_not_nan x z : result x z -> z <> S754_nan.
Proof. intros (v & _ & [(_ & [F _] & _)|[[_ ->]|[_ ->]]]); [|discriminate|discriminate]. intros ->. exact F. Qed.
End Format.
