(** Division rounds to nearest too. *)
From Coq Require Import Reals ZArith List Bool Lia Lra Arith Floats.SpecFloat.
From Verif Require Import MFloat SFloat PFloat.
Open Scope R_scope.

Lemma iter_pos_nat {A} (f : A -> A) p : forall a, iter_pos f p a = Nat.iter (Pos.to_nat p) f a.
Proof.
  assert (C : forall n a, Nat.iter n f (f a) = f (Nat.iter n f a)) by (induction n as [|n IH]; intros a; [reflexivity|cbn; f_equal; apply IH]).
  assert (P : forall n m a, Nat.iter n f (Nat.iter m f a) = Nat.iter (n + m) f a) by (induction n as [|n IH]; intros m a; [reflexivity|cbn; f_equal; apply IH]).
  induction p as [p IH|p IH|]; intros a; cbn [iter_pos]; [| |reflexivity]; rewrite !IH, P; [|f_equal; lia].
  rewrite C. replace (Pos.to_nat p~1) with (Datatypes.S (Pos.to_nat p + Pos.to_nat p)) by lia. reflexivity.
Qed.

(** The quarter of a step that a location stands for. *)
Definition quarter (l : location) : Z := match l with loc_Exact => 0 | loc_Inexact Lt => 1 | loc_Inexact Eq => 2 | loc_Inexact Gt => 3 end.

Lemma quarter_shifts q l : (0 <= q)%Z -> (0 < 4 * q + quarter l)%Z -> shr_1 (shr_1 (shr_record_of_loc (4 * q + quarter l) loc_Exact)) = shr_record_of_loc q l.
Proof. intros Hq. destruct q as [|p|p]; [| |lia]; destruct l as [|[| |]]; cbn; try lia; reflexivity. Qed.

Lemma quarter_range l : (0 <= quarter l <= 3)%Z.
Proof. destruct l as [|[| |]]; cbn; lia. Qed.

Lemma location_spec m r : (0 < m)%Z -> (0 <= r < m)%Z -> let l := new_location m r in
  (quarter l = 0 /\ r = 0 \/ quarter l = 1 /\ 0 < r /\ 2 * r < m \/ quarter l = 2 /\ 2 * r = m \/ quarter l = 3 /\ m < 2 * r)%Z.
Proof.
  intros Hm Hr l. unfold l, new_location. destruct (Z.even m) eqn:E; unfold new_location_even, new_location_odd; destruct (Zeq_bool r 0) eqn:Z0.
  - apply Zeq_bool_eq in Z0. left. split; [reflexivity|exact Z0].
  - apply Zeq_bool_neq in Z0. destruct (Z.compare_spec (2 * r) m) as [C|C|C]; cbn [quarter]; lia.
  - apply Zeq_bool_eq in Z0. left. split; [reflexivity|exact Z0].
  - apply Zeq_bool_neq in Z0. assert (2 * r <> m)%Z by (intros X; rewrite <- X, Z.even_mul in E; discriminate E).
    destruct (Z.compare_spec (2 * r + 1) m) as [C|C|C]; cbn [quarter]; lia.
Qed.

Section Format.
Variables prec emax : Z.
Hypothesis Hprec : (1 < prec)%Z.
Hypothesis Hmax : (prec < emax)%Z.

Notation fexp := (fexp prec emax).
Notation emin := (emin prec emax).
Notation rep := (rep prec emax).
Notation rounded := (rounded prec emax).
Notation number := (number prec emax).
Notation result := (result prec emax).
Notation sgn s := (if s : bool then -1 else 1).

Lemma real_rounded X d e q : let n := (fexp (d + e) - e)%Z in (0 < d)%Z -> (0 <= n)%Z -> (0 <= q)%Z ->
  0 < X -> ((n <= d - 1)%Z -> IZR (2 ^ (d - 1)) <= X) -> Rabs (2 * X - IZR (q * 2 ^ (n + 1))) <= IZR (2 ^ n) ->
  ((n <= d)%Z -> (q <= 2 ^ (d - n))%Z) -> ((d < n)%Z -> q = 0%Z) -> ((n <= d - 1)%Z -> (2 ^ (d - 1 - n) <= q)%Z) ->
  rounded (X * bpow e) (IZR q * bpow (fexp (d + e))).
Proof.
  intros n D Hn Q0 X1 Lo' Q1 B1 B2 B3.
  assert (Fe : fexp (d + e) = Z.max (d + e - prec) emin) by reflexivity. set (e' := fexp (d + e)) in *.
  set (u := bpow e'). set (x := X * bpow e). assert (U : 0 < u) by apply bpow_pos.
  assert (P1 : (2 ^ (n + 1) = 2 * 2 ^ n)%Z) by (rewrite <- Z.pow_succ_r by lia; f_equal; lia).
  assert (Un : u = IZR (2 ^ n) * bpow e) by (unfold u; rewrite <- bpow_Z, <- bpow_add by lia; f_equal; lia).
  assert (Near : Rabs (IZR q * u - x) <= u / 2).
  { rewrite P1, !mult_IZR in Q1. pose proof (bpow_pos e) as E0. replace (IZR q * u - x) with (- ((2 * X - IZR q * (2 * IZR (2 ^ n))) * (bpow e / 2))) by (rewrite Un; unfold x; field).
    rewrite Rabs_Ropp, Rabs_mult, (Rabs_pos_eq (bpow e / 2)) by lra. apply (Rmult_le_compat_r (bpow e / 2)) in Q1; [|lra]. rewrite Un. lra. }
  assert (Lo : (n <= d - 1)%Z -> bpow (d + e - 1) <= x).
  { intros Ln. unfold x. replace (d + e - 1)%Z with (d - 1 + e)%Z by lia. rewrite bpow_add, bpow_Z by lia. apply Rmult_le_compat_r; [apply Rlt_le, bpow_pos|]. apply Lo'; exact Ln. }
  assert (X0 : 0 < x) by (apply Rmult_lt_0_compat; [exact X1|apply bpow_pos]).
  assert (V0 : 0 <= IZR q * u) by (apply Rmult_le_pos; [apply (IZR_le 0); lia|lra]).
  assert (Ne : IZR q * u <= x + u / 2 /\ x - u / 2 <= IZR q * u) by (unfold Rabs in Near; destruct (Rcase_abs _) in Near; lra).
  assert (Mul : forall K, Rabs (IZR q * u - x) <= Rabs (IZR K * u - x)).
  { intros K. destruct (Z.eq_dec K q) as [->|Hk]; [lra|]. apply Rle_trans with (u / 2); [exact Near|].
    destruct Ne as [Ne1 Ne2]. destruct (Z_lt_le_dec K q) as [G|G].
    - assert (A : IZR K + 1 <= IZR q) by (rewrite <- plus_IZR; apply IZR_le; lia). apply (Rmult_le_compat_r u _ _ (Rlt_le _ _ U)) in A.
      rewrite Rabs_left1; lra.
    - assert (A : IZR q + 1 <= IZR K) by (rewrite <- plus_IZR; apply IZR_le; lia). apply (Rmult_le_compat_r u _ _ (Rlt_le _ _ U)) in A.
      rewrite Rabs_pos_eq; lra. }
  assert (Below : forall K r, r <= IZR K * u -> IZR K * u <= x -> Rabs (IZR q * u - x) <= Rabs (r - x)).
  { intros K r R1 R2. eapply Rle_trans; [apply (Mul K)|]. rewrite !Rabs_left1 by lra. lra. }
  split; [|split].
  - exists q, e'. split; [reflexivity|]. split; [|lia]. rewrite Z.abs_eq by lia. destruct (Z_le_gt_dec n d) as [L|L]; [|rewrite B2 by lia; apply Z.pow_nonneg; lia].
    apply Z.le_trans with (2 ^ (d - n))%Z; [exact (B1 L)|]. apply Z.pow_le_mono_r; lia.
  - intros r Hr. destruct (Rle_lt_dec r 0) as [T|T]; [apply (Below 0%Z); lra|].
    destruct (Z_le_gt_dec n (d - 1)) as [L|L]; [specialize (Lo L)|].
    + destruct (Rle_lt_dec r (bpow (d + e - 1))) as [Y|Y].
      * apply (Below (2 ^ (d - 1 - n))%Z); unfold u; rewrite <- bpow_Z, <- bpow_add by lia; replace (d - 1 - n + e')%Z with (d + e - 1)%Z by lia; assumption.
      * destruct (rep_steps prec emax Hprec r d e Hr D ltac:(lra)) as [K EK]. fold e' in EK. fold u in EK. rewrite EK. apply Mul.
    + destruct Hr as (K & E & -> & _ & M). replace (IZR K * bpow E) with (IZR (K * 2 ^ (E - e')) * u); [apply Mul|]. unfold u.
      rewrite mult_IZR, <- bpow_Z, Rmult_assoc, <- bpow_add by lia. do 2 f_equal. lia.
  - rewrite (Rabs_pos_eq x) by lra. apply Rle_trans with (u / 2); [exact Near|]. unfold u. rewrite <- bpow_half.
    pose proof (bpow_pos (- prec)) as Z1. pose proof (bpow_pos (emin - 1)) as Z2.
    destruct (Z_le_gt_dec emin (d + e - prec)) as [L|L].
    + specialize (Lo ltac:(lia)). replace (e' - 1)%Z with (- prec + (d + e - 1))%Z by lia. rewrite bpow_add. apply (Rmult_le_compat_l (bpow (- prec)) _ _ (Rlt_le _ _ Z1)) in Lo. lra.
    + replace (e' - 1)%Z with (emin - 1)%Z by lia. pose proof (Rmult_lt_0_compat _ _ Z1 X0). lra.
Qed.

Lemma steps_result s x q f z : rounded x (IZR q * bpow f) -> (0 <= q)%Z ->
  ((q = 0%Z /\ z = S754_zero s) \/ exists M E, z = (if Zle_bool E (emax - prec) then S754_finite s M E else S754_infinity s) /\ IZR (Zpos M) * bpow E = IZR q * bpow f /\ canonical_mantissa prec emax M E = true) ->
  result (sgn s * x) z.
Proof.
  intros R Q0 Q. apply (rounded_sgn prec emax s) in R. eexists. split; [exact R|]. clear R.
  destruct Q as [[-> ->]|(M & E & -> & V & C)].
  - left. rewrite Rmult_0_l, Rmult_0_r, Rabs_R0. split; [apply bpow_pos|]. split; [split; [exact I|reflexivity]|reflexivity].
  - rewrite <- V. destruct (Zle_bool E (emax - prec)) eqn:L; [left|right].
    + rewrite (sgn_abs) by (apply Rmult_le_pos; [apply IZR_le; lia|apply Rlt_le, bpow_pos]). apply Zle_bool_imp_le in L.
      split; [|split; [split; [exact I|]|]].
      * eapply Rlt_le_trans; [apply (mantissa_lt prec emax Hprec), C|]. apply bpow_le. lia.
      * cbn [valid_binary]. unfold bounded. rewrite C. apply Zle_imp_le_bool in L. rewrite L. reflexivity.
      * cbn [value]. ring.
    + assert (L' : (emax - prec < E)%Z) by (apply Z.leb_gt; exact L).
      destruct (canonical_digits prec emax M E C) as (_ & _ & D). assert (EM : emin = (3 - emax - prec)%Z) by reflexivity. specialize (D ltac:(lia)).
      assert (G : bpow emax <= IZR (Zpos M) * bpow E).
      { apply Rle_trans with (bpow (prec - 1 + E)); [apply bpow_le; lia|]. rewrite bpow_add, (bpow_Z (prec - 1)) by lia.
        apply Rmult_le_compat_r; [apply Rlt_le, bpow_pos|]. apply IZR_le. pose proof (digits_bounds M) as B. rewrite D in B. lia. }
      destruct s; [right; split; [lra|reflexivity]|left; split; [lra|reflexivity]].
Qed.

Lemma digits_quarter q l : (0 < q)%Z -> Zdigits2 (4 * q + quarter l) = (Zdigits2 q + 2)%Z.
Proof.
  intros Hq. pose proof (quarter_range l) as R. destruct q as [|p|p]; try lia. assert (E : exists p', (4 * Zpos p + quarter l)%Z = Zpos p') by (destruct (4 * Zpos p + quarter l)%Z eqn:E; [lia|eauto|lia]).
  destruct E as [p' E]. rewrite E. cbn [Zdigits2]. pose proof (digits_bounds p) as B. apply digits_unique; [lia|]. rewrite <- E.
  replace (Zpos (digits2_pos p) + 2 - 1)%Z with (2 + (Zpos (digits2_pos p) - 1))%Z by lia. replace (Zpos (digits2_pos p) + 2)%Z with (2 + Zpos (digits2_pos p))%Z by lia. rewrite !Z.pow_add_r by lia. lia.
Qed.

Lemma digits_small m : (0 < m <= 3)%Z -> (1 <= Zdigits2 m <= 2)%Z.
Proof. intros H. assert (C : (m = 1 \/ m = 2 \/ m = 3)%Z) by lia. destruct C as [->|[-> | ->]]; cbn; lia. Qed.

Lemma sticky s q e l : (0 <= q)%Z -> (0 < 4 * q + quarter l)%Z -> (e <= fexp (Zdigits2 q + e))%Z -> (q = 0%Z -> (e <= emin)%Z) ->
  binary_round_aux prec emax s q e l = binary_round_aux prec emax s (4 * q + quarter l) (e - 2) loc_Exact.
Proof.
  intros Hq Hp He H0. unfold binary_round_aux. replace (shr_fexp prec emax (4 * q + quarter l) (e - 2) loc_Exact) with (shr_fexp prec emax q e l); [reflexivity|].
  unfold shr_fexp. assert (Fe : forall z, fexp z = Z.max (z - prec) emin) by reflexivity.
  assert (N : (fexp (Zdigits2 (4 * q + quarter l) + (e - 2)) - (e - 2) = fexp (Zdigits2 q + e) - e + 2)%Z).
  { destruct (Z.eq_dec q 0) as [->|NZ].
    - pose proof (digits_small (4 * 0 + quarter l) ltac:(pose proof (quarter_range l); lia)). specialize (H0 eq_refl). rewrite !Fe. cbn [Zdigits2]. lia.
    - rewrite digits_quarter by lia. replace (Zdigits2 q + 2 + (e - 2))%Z with (Zdigits2 q + e)%Z by lia. lia. }
  rewrite N. set (n := (fexp (Zdigits2 q + e) - e)%Z) in *. assert (Hn : (0 <= n)%Z) by (unfold n; lia). rewrite <- (quarter_shifts q l Hq Hp). set (a := shr_record_of_loc (4 * q + quarter l) loc_Exact).
  destruct n as [|p|p]; [| |lia]; cbn [shr Z.add iter_pos]; [f_equal; lia|]. f_equal; [|lia].
  rewrite !iter_pos_nat. rewrite Pos2Nat.inj_add. change (Pos.to_nat 2) with 2%nat.
  assert (P : forall k b, Nat.iter k shr_1 (shr_1 b) = shr_1 (Nat.iter k shr_1 b)) by (induction k as [|k IH]; intros b; [reflexivity|cbn; f_equal; apply IH]).
  rewrite !P, Nat.add_comm. reflexivity.
Qed.

Lemma div_core s m1 e1 m2 e2 : let '(q, e, l) := SFdiv_core_binary prec emax (Zpos m1) e1 (Zpos m2) e2 in
  result (sgn s * ((IZR (Zpos m1) * bpow e1) / (IZR (Zpos m2) * bpow e2))) (binary_round_aux prec emax s q e l).
Proof.
  unfold SFdiv_core_binary. change (Zdigits2 (Zpos m1)) with (Zpos (digits2_pos m1)). change (Zdigits2 (Zpos m2)) with (Zpos (digits2_pos m2)). 
  pose proof (digits_bounds m1) as D1. pose proof (digits_bounds m2) as D2. set (d1 := Zpos (digits2_pos m1)) in *. set (d2 := Zpos (digits2_pos m2)) in *.
  assert (Fe : forall z, fexp z = Z.max (z - prec) emin) by reflexivity. assert (P1 : (0 < d1)%Z) by (unfold d1; lia). assert (P2 : (0 < d2)%Z) by (unfold d2; lia).
  set (X := (d1 + e1 - (d2 + e2))%Z). set (e := Z.min (fexp X) (e1 - e2)). set (k := (e1 - e2 - e)%Z). assert (Hk : (0 <= k)%Z) by (unfold k, e; lia).
  assert (HE : (e <= fexp X)%Z) by (unfold e; lia).
  replace (match k with Z0 => Zpos m1 | Zpos _ => Z.shiftl (Zpos m1) k | Zneg _ => 0%Z end) with (Zpos m1 * 2 ^ k)%Z by (destruct k as [|p|p]; [ring|rewrite Z.shiftl_mul_pow2 by lia; reflexivity|lia]).
  assert (PK : (0 < 2 ^ k)%Z) by (apply Z.pow_pos_nonneg; lia). set (m := (Zpos m1 * 2 ^ k)%Z). assert (Hm : (0 < m)%Z) by (unfold m; lia).
  pose proof (Z_div_mod m (Zpos m2) ltac:(lia)) as DM. destruct (Z.div_eucl m (Zpos m2)) as [q r]. destruct DM as [DM RM]. set (l := new_location (Zpos m2) r).
  pose proof (location_spec (Zpos m2) r ltac:(lia) RM) as LS. cbv zeta in LS. fold l in LS. pose proof (quarter_range l) as QR.
  assert (Hq : (0 <= q)%Z) by nia. assert (Hp : (0 < 4 * q + quarter l)%Z) by (destruct (Z.eq_dec q 0) as [->|]; [|lia]; lia).
  assert (Lm : (2 ^ (d1 - 1 + k) <= m)%Z) by (rewrite Z.pow_add_r by lia; unfold m; nia).
  assert (Zq : q = 0%Z -> (e <= emin)%Z).
  { intros ->. assert (m < 2 ^ d2)%Z by lia. assert (d1 - 1 + k < d2)%Z by (apply (Z.pow_lt_mono_r_iff 2); lia). rewrite Fe in HE. unfold X, k in *. lia. }
  assert (Fq : (e <= fexp (Zdigits2 q + e))%Z).
  { destruct (Z.eq_dec q 0) as [E0|NZ]; [specialize (Zq E0); subst q; rewrite Fe; cbn [Zdigits2]; lia|].
    assert (Dq : (d1 + k - d2 <= Zdigits2 q)%Z).
    { destruct q as [|p|p]; try lia. cbn [Zdigits2]. pose proof (digits_bounds p) as B. assert (m < 2 ^ (d2 + Zpos (digits2_pos p)))%Z by (rewrite Z.pow_add_r by lia; nia).
      assert (d1 - 1 + k < d2 + Zpos (digits2_pos p))%Z by (apply (Z.pow_lt_mono_r_iff 2); lia). lia. }
    rewrite Fe in HE |- *. unfold X, k in *. lia. }
  rewrite sticky by assumption.
  set (Y := IZR m / IZR (Zpos m2)). assert (M2 : 0 < IZR (Zpos m2)) by (apply IZR_lt; lia).
  assert (VY : (IZR (Zpos m1) * bpow e1) / (IZR (Zpos m2) * bpow e2) = (4 * Y) * bpow (e - 2)).
  { unfold Y, m. rewrite mult_IZR, <- bpow_Z by exact Hk. replace e1 with (k + 2 + (e - 2) + e2)%Z at 1 by (unfold k; lia). rewrite !bpow_add. change (bpow 2) with (2 * (2 * 1)). pose proof (bpow_pos e2). field. split; lra. }
  rewrite VY. assert (YE : IZR (Zpos m2) * (4 * Y) = 4 * IZR m) by (unfold Y; field; lra).
  assert (RY : IZR m = IZR (Zpos m2) * IZR q + IZR r) by (rewrite <- mult_IZR, <- plus_IZR; f_equal; lia).
  destruct (4 * q + quarter l)%Z as [|mm|mm] eqn:EM; [lia| |lia]. clear Hp.
  assert (ND : (2 <= fexp (Zpos (digits2_pos mm) + (e - 2)) - (e - 2))%Z).
  { destruct (Z.eq_dec q 0) as [E0|NZ].
    - specialize (Zq E0). rewrite Fe. lia.
    - pose proof (digits_quarter q l ltac:(lia)) as DQ. rewrite EM in DQ. change (Zdigits2 (Zpos mm)) with (Zpos (digits2_pos mm)) in DQ. rewrite DQ. replace (Zdigits2 q + 2 + (e - 2))%Z with (Zdigits2 q + e)%Z by lia. lia. }
  destruct (round_steps prec emax Hprec s mm (e - 2) ltac:(lia)) as (q' & Q0 & Q1 & _ & B1 & B2 & B3 & Q). pose proof (digits_bounds mm) as Bm.
  set (d := Zpos (digits2_pos mm)) in *. set (n := (fexp (d + (e - 2)) - (e - 2))%Z) in *.
  eapply steps_result; [|exact Q0|exact Q].
  assert (W : exists w, (2 ^ n = 4 * w)%Z) by (exists (2 ^ (n - 2))%Z; replace n with (2 + (n - 2))%Z at 1 by lia; rewrite Z.pow_add_r by lia; reflexivity). destruct W as [w W].
  assert (W2 : (2 ^ (n + 1) = 8 * w)%Z) by (rewrite Z.pow_add_r, W by lia; change (2 ^ 1)%Z with 2%Z; lia).
  apply real_rounded; try assumption; try (unfold d; lia); try (fold n; lia).
  - assert (0 < IZR m) by (apply IZR_lt; lia). unfold Y. apply Rmult_lt_0_compat; [lra|]. apply Rdiv_lt_0_compat; assumption.
  - intros Ln. fold d in Ln. assert (Hq1 : (0 < q)%Z) by (destruct (Z.eq_dec q 0) as [E0|]; [|lia]; exfalso; pose proof (digits_small (Zpos mm) ltac:(lia)) as S; change (Zdigits2 (Zpos mm)) with d in S; lia).
    assert (L4 : (2 ^ (d - 1) <= 4 * q)%Z).
    { assert (exists v, (2 ^ (d - 1) = 4 * v)%Z) as [v V] by (exists (2 ^ (d - 3))%Z; replace (d - 1)%Z with (2 + (d - 3))%Z by lia; rewrite Z.pow_add_r by lia; reflexivity). lia. }
    apply IZR_le in L4. rewrite mult_IZR in L4. assert (0 <= IZR r) by (apply (IZR_le 0); lia). apply Rle_trans with (4 * IZR q); [exact L4|].
    apply Rmult_le_reg_l with (IZR (Zpos m2)); [exact M2|]. rewrite YE, RY. lra.
  - fold d. fold n. rewrite W, W2 in *. apply Rabs_le. apply Z.abs_le in Q1.
    assert (G : (- (4 * w) * Zpos m2 <= 8 * m - q' * (8 * w) * Zpos m2 <= 4 * w * Zpos m2)%Z).
    { assert (A : (2 * Zpos mm = 8 * q + 2 * quarter l)%Z) by lia. rewrite A in Q1. subst m. rewrite DM in *. clear - LS Q1 RM. set (c := (q' * (8 * w))%Z) in *. assert (C : exists j, c = (4 * j)%Z) by (exists (q' * 2 * w)%Z; unfold c; ring). destruct C as [j C]. clearbody c. subst c.
      destruct LS as [[T R]|[[T R]|[[T R]|[T R]]]]; rewrite T in Q1; nia. }
    destruct G as [Ga Gb]. apply IZR_le in Ga, Gb. rewrite minus_IZR in Ga, Gb. rewrite !mult_IZR in Ga, Gb. rewrite opp_IZR in Ga. rewrite !mult_IZR in Ga. rewrite !mult_IZR. rewrite !mult_IZR in Gb.
    split; apply Rmult_le_reg_l with (IZR (Zpos m2)); try exact M2; lra.
Qed.

Lemma div_result x y : number x -> number y -> value y <> 0 -> result (value x / value y) (SFdiv prec emax x y).
Proof.
  intros Hx Hy Ny. destruct x as [sx|sx| |sx mx ex]; try contradiction (proj1 Hx); destruct y as [sy|sy| |sy my ey]; try contradiction (proj1 Hy); try (exfalso; apply Ny; reflexivity); cbn [SFdiv].
  - match goal with |- result ?a _ => replace a with 0 by (change (value (S754_zero sx)) with 0; unfold Rdiv; ring) end. apply result_zero; assumption.
  - pose proof (div_core (xorb sx sy) mx ex my ey) as D. destruct (SFdiv_core_binary prec emax (Zpos mx) ex (Zpos my) ey) as [[q e] l].
    assert (0 < IZR (Zpos my)) by (apply IZR_lt; lia). pose proof (bpow_pos ey).
    match goal with |- result ?a _ => match type of D with result ?b _ => replace a with b; [exact D|] end end. cbn [value]. destruct sx, sy; cbn [xorb]; field; split; lra.
Qed.
End Format.
