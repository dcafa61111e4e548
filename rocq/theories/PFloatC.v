(** The clock in floats. *)
From Coq Require Import Reals ZArith List Bool Lia Lra Arith Floats.SpecFloat.
From Verif Require Import MFloat SFloat PFloat PFloatX.
Import ListNotations.
Open Scope R_scope.

Section Clock.
Variables prec emax : Z.
Hypothesis Hprec : (1 < prec)%Z.
Hypothesis Hmax : (prec < emax)%Z.
Notation number := (number prec emax).
Notation rep := (rep prec emax).
Notation rounded := (rounded prec emax).
Notation emin := (emin prec emax).

Variable dt : fl.
Variable k : Z.
Hypothesis Ndt : number dt.
Hypothesis Klo : bpow (k - 1) < value dt.
Hypothesis Khi : value dt < bpow k.
Hypothesis Kmax : (prec + k < emax)%Z.

Lemma k_emin : (emin < k)%Z.
Proof.
  destruct (number_rep prec emax Hprec dt Ndt) as [(K & E & V & B & M) _]. assert (P : 0 < value dt) by (pose proof (bpow_pos (k - 1)); lra).
  assert (K1 : (1 <= K)%Z). { rewrite V in P. destruct (Z_le_gt_dec K 0) as [L|L]; [|lia]. apply IZR_le in L. pose proof (bpow_pos E). nra. }
  apply bpow_lt_inv. apply Rle_lt_trans with (value dt); [|exact Khi]. rewrite V. apply Rle_trans with (bpow E); [apply bpow_le; exact M|].
  apply IZR_le in K1. pose proof (bpow_pos E). nra.
Qed.

(** Whole numbers of steps. *)
Lemma rep_grid r q : rep r -> bpow (prec + q) < r -> exists K, r = IZR K * bpow (q + 1).
Proof.
  intros (K & E & -> & B & M) L. destruct (Z_le_gt_dec E q) as [X|X].
  - exfalso. assert (A : IZR K * bpow E <= bpow (prec + q)); [|lra]. rewrite bpow_add, (bpow_Z prec) by lia.
    apply Rle_trans with (IZR (2 ^ prec) * bpow E); [apply Rmult_le_compat_r; [apply Rlt_le, bpow_pos|]; apply IZR_le; lia|].
    apply Rmult_le_compat_l; [apply IZR_le; apply Z.pow_nonneg; lia|]. apply bpow_le. exact X.
  - exists (K * 2 ^ (E - (q + 1)))%Z. rewrite mult_IZR, <- bpow_Z, Rmult_assoc, <- bpow_add by lia. do 2 f_equal. lia.
Qed.

Lemma top_stays v : rounded (bpow (prec + k) + value dt) v -> v = bpow (prec + k).
Proof.
  intros Rn. pose proof Rn as (R & U & _). pose proof k_emin as KE. pose proof (bpow_pos (k - 1)) as P0. set (t := bpow (prec + k)) in *.
  assert (Rt : rep t) by (apply (rep_bpow prec emax Hprec); lia).
  pose proof (rounded_ge _ _ _ _ _ Rn Rt ltac:(lra)) as G. apply Rle_antisym; [|exact G]. apply Rnot_lt_le. intros L.
  destruct (rep_grid v k R L) as [K EK]. assert (T : t = IZR (2 ^ (prec - 1)) * bpow (k + 1)) by (unfold t; rewrite <- bpow_Z, <- bpow_add by lia; f_equal; lia).
  pose proof (bpow_pos (k + 1)) as PK. assert (A : IZR (2 ^ (prec - 1)) < IZR K) by (apply Rmult_lt_reg_r with (bpow (k + 1)); [exact PK|]; rewrite <- T, <- EK; exact L).
  apply lt_IZR in A. assert (A' : IZR (2 ^ (prec - 1)) + 1 <= IZR K) by (rewrite <- plus_IZR; apply IZR_le; lia).
  apply (Rmult_le_compat_r (bpow (k + 1)) _ _ (Rlt_le _ _ PK)) in A'. rewrite <- EK, Rmult_plus_distr_r, <- T, Rmult_1_l in A'.
  assert (D : bpow (k + 1) = 2 * bpow k) by (rewrite bpow_add, bpow_1; ring). specialize (U t Rt). rewrite Rabs_pos_eq in U by lra. rewrite Rabs_left in U by lra. lra.
Qed.

Lemma below_moves t v : rep t -> 0 <= t -> t < bpow (prec + k) -> rounded (t + value dt) v -> t < v <= bpow (prec + k).
Proof.
  intros Rt T0 T1 Rn. pose proof Rn as (R & U & _). pose proof k_emin as KE. pose proof (bpow_pos (k - 1)) as P0. pose proof (bpow_pos k) as Pk.
  assert (D : bpow k = 2 * bpow (k - 1)) by (rewrite bpow_half; field).
  assert (Top : rep (bpow (prec + k))) by (apply (rep_bpow prec emax Hprec); lia).
  assert (Next : exists s, 0 < s <= bpow k /\ rep (t + s) /\ (t <= bpow (prec + k) - bpow k)).
  { destruct Rt as (K & E & V & B & M). pose proof (bpow_pos E) as PE.
    assert (K0 : (0 <= K)%Z). { destruct (Z_le_gt_dec 0 K) as [L|L]; [exact L|]. assert (L' : IZR K <= -1) by (apply (IZR_le K (-1)); lia). rewrite V in T0. nra. }
    destruct (Z_le_gt_dec k E) as [X|X].
    - set (J := (K * 2 ^ (E - k))%Z). assert (VJ : t = IZR J * bpow k) by (rewrite V; unfold J; rewrite mult_IZR, <- bpow_Z, Rmult_assoc, <- bpow_add by lia; do 2 f_equal; lia).
      assert (JL : (J < 2 ^ prec)%Z).
      { apply lt_IZR. apply Rmult_lt_reg_r with (bpow k); [exact Pk|]. rewrite <- VJ, <- bpow_Z, <- bpow_add by lia. exact T1. }
      assert (J0 : (0 <= J)%Z) by (unfold J; apply Z.mul_nonneg_nonneg; [exact K0|apply Z.pow_nonneg; lia]).
      exists (bpow k). split; [lra|]. split.
      + exists (J + 1)%Z, k. split; [rewrite VJ, plus_IZR; ring|]. split; lia.
      + assert (Q : IZR J + 1 <= IZR (2 ^ prec)) by (rewrite <- plus_IZR; apply IZR_le; lia). apply (Rmult_le_compat_r (bpow k) _ _ (Rlt_le _ _ Pk)) in Q.
        rewrite <- bpow_Z, <- bpow_add, Rmult_plus_distr_r, <- VJ in Q by lia. lra.
    - assert (Room : t <= bpow (prec + k) - bpow k).
      { assert (Q : t <= bpow (prec + k - 1)).
        { rewrite V. replace (prec + k - 1)%Z with (prec + (k - 1))%Z by lia. rewrite bpow_add, (bpow_Z prec) by lia.
          apply Rmult_le_compat; [apply IZR_le; lia|lra|apply IZR_le; lia|apply bpow_le; lia]. }
        assert (Q2 : bpow (prec + k) = 2 * bpow (prec + k - 1)) by (rewrite bpow_half; field).
        assert (Q3 : bpow k <= bpow (prec + k - 1)) by (apply bpow_le; lia). lra. }
      destruct (Z.eq_dec K (2 ^ prec)) as [Y|Y].
      + exists (bpow (E + 1)). split; [split; [apply bpow_pos|apply bpow_le; lia]|]. split; [|exact Room].
        exists (2 ^ (prec - 1) + 1)%Z, (E + 1)%Z. split; [|split; [|lia]].
        * rewrite V, Y, plus_IZR, Rmult_plus_distr_r, Rmult_1_l. f_equal. rewrite <- !bpow_Z, <- !bpow_add by lia. f_equal. lia.
        * rewrite Z.abs_eq by (assert (0 <= 2 ^ (prec - 1))%Z by (apply Z.pow_nonneg; lia); lia).
          replace prec with (Z.succ (prec - 1)) at 2 by lia. rewrite Z.pow_succ_r by lia. assert (1 <= 2 ^ (prec - 1))%Z by (change 1%Z with (2 ^ 0)%Z; apply Z.pow_le_mono_r; lia). lia.
      + exists (bpow E). split; [split; [exact PE|apply bpow_le; lia]|]. split; [|exact Room]. exists (K + 1)%Z, E. split; [rewrite V, plus_IZR; ring|]. split; lia. }
  destruct Next as (s & (S0 & S1) & Rs & Room). split.
  - pose proof (rounded_ge _ _ _ _ _ Rn Rt ltac:(lra)) as G. destruct (Rle_lt_or_eq_dec _ _ G) as [L|L]; [exact L|exfalso].
    specialize (U _ Rs). rewrite <- L in U. rewrite Rabs_left in U by lra. unfold Rabs in U. destruct (Rcase_abs _) in U; lra.
  - apply (rounded_le _ _ _ _ _ Rn Top). lra.
Qed.

Lemma rep_gap a b : rep a -> rep b -> a < b -> a + bpow emin <= b.
Proof.
  intros (K & E & -> & _ & M) (K' & E' & -> & _ & M') L. pose proof (bpow_pos emin) as P.
  assert (G : forall K E, (emin <= E)%Z -> IZR K * bpow E = IZR (K * 2 ^ (E - emin)) * bpow emin) by (intros; rewrite mult_IZR, <- bpow_Z, Rmult_assoc, <- bpow_add by lia; do 2 f_equal; lia).
  rewrite (G K E M), (G K' E' M') in *. apply Rmult_lt_reg_r in L; [|exact P]. apply lt_IZR in L.
  assert (Q : IZR (K * 2 ^ (E - emin)) + 1 <= IZR (K' * 2 ^ (E' - emin))) by (rewrite <- plus_IZR; apply IZR_le; lia).
  apply (Rmult_le_compat_r (bpow emin) _ _ (Rlt_le _ _ P)) in Q. lra.
Qed.

Lemma clock_state n : number (fclock prec emax dt n) /\ 0 <= value (fclock prec emax dt n) <= bpow (prec + k) /\
  (value (fclock prec emax dt n) < bpow (prec + k) -> value (fclock prec emax dt n) < value (fclock prec emax dt (Datatypes.S n))) /\
  (value (fclock prec emax dt n) = bpow (prec + k) -> value (fclock prec emax dt (Datatypes.S n)) = bpow (prec + k)).
Proof.
  assert (Step : forall t, number t -> 0 <= value t <= bpow (prec + k) ->
    number (fadd prec emax t dt) /\ value t <= value (fadd prec emax t dt) <= bpow (prec + k) /\
    (value t < bpow (prec + k) -> value t < value (fadd prec emax t dt)) /\ (value t = bpow (prec + k) -> value (fadd prec emax t dt) = bpow (prec + k))).
  { intros t Nt [T0 T1]. destruct (number_rep prec emax Hprec t Nt) as [Rt _]. destruct (add_result prec emax Hprec Hmax t dt Nt Ndt) as (v & Rn & C).
    assert (B : value t <= v <= bpow (prec + k) /\ (value t < bpow (prec + k) -> value t < v) /\ (value t = bpow (prec + k) -> v = bpow (prec + k))).
    { destruct (Rle_lt_or_eq_dec _ _ T1) as [L|L].
      - pose proof (below_moves _ _ Rt T0 L Rn) as [A1 A2]. repeat split; lra.
      - rewrite L in Rn. pose proof (top_stays v Rn). repeat split; lra. }
    assert (L : bpow (prec + k) < bpow emax) by (apply bpow_lt; lia).
    destruct C as [(_ & N & V)|[[A _]|[A _]]]; [|exfalso; lra|exfalso; pose proof (bpow_pos emax); lra]. unfold fadd. rewrite V. tauto. }
  induction n as [|n (N & B & _)].
  - assert (N0 : number (fclock prec emax dt 0)) by (split; [exact I|reflexivity]). assert (B0 : 0 <= value (fclock prec emax dt 0) <= bpow (prec + k)) by (cbn; pose proof (bpow_pos (prec + k)); lra).
    destruct (Step _ N0 B0) as (_ & _ & S2 & S3). auto.
  - destruct (Step _ N B) as (N' & B' & _). change (fadd prec emax (fclock prec emax dt n) dt) with (fclock prec emax dt (Datatypes.S n)) in N', B'.
    assert (B2 : 0 <= value (fclock prec emax dt (Datatypes.S n)) <= bpow (prec + k)) by lra. destruct (Step _ N' B2) as (_ & _ & S2 & S3). auto.
Qed.

Lemma clock_stops : exists N, forall n, (N <= n)%nat -> value (fclock prec emax dt n) = bpow (prec + k).
Proof.
  pose proof k_emin as KE. set (N := Z.to_nat (2 ^ (prec + k - emin))).
  assert (Pr : forall n, value (fclock prec emax dt n) = bpow (prec + k) \/ INR n * bpow emin <= value (fclock prec emax dt n)).
  { induction n as [|n IH]; [right; cbn; lra|]. destruct (clock_state n) as (Nn & B & S1 & S2). destruct IH as [IH|IH]; [left; exact (S2 IH)|].
    destruct (Rle_lt_or_eq_dec _ _ (proj2 B)) as [L|L]; [|left; exact (S2 L)]. right. rewrite S_INR. specialize (S1 L). destruct (clock_state (Datatypes.S n)) as (Nn' & _).
    pose proof (rep_gap _ _ (proj1 (number_rep _ _ Hprec _ Nn)) (proj1 (number_rep _ _ Hprec _ Nn')) S1). lra. }
  exists N. intros n Hn. destruct (Pr n) as [E|L]; [exact E|]. destruct (clock_state n) as (_ & B & _). apply Rle_antisym; [apply B|].
  eapply Rle_trans; [|exact L]. apply Rle_trans with (INR N * bpow emin); [|apply Rmult_le_compat_r; [apply Rlt_le, bpow_pos|apply le_INR; exact Hn]].
  unfold N. rewrite INR_IZR_INZ, Z2Nat.id by (apply Z.pow_nonneg; lia). rewrite <- bpow_Z, <- bpow_add by lia. right. f_equal. lia.
Qed.
End Clock.

(** ** A time step that is a power of two *)
Section Power.
Variables prec emax : Z.
Hypothesis Hprec : (1 < prec)%Z.
Hypothesis Hmax : (prec < emax)%Z.
Notation number := (number prec emax).
Notation emin := (emin prec emax).

Lemma pow_emin d j : number d -> value d = bpow j -> (emin <= j)%Z.
Proof.
  intros Nd V. destruct (number_rep prec emax Hprec d Nd) as [(K & E & VK & B & M) _]. pose proof (bpow_pos j) as P. pose proof (bpow_pos E) as PE. rewrite V in VK.
  assert (K1 : (1 <= K)%Z). { destruct (Z_le_gt_dec K 0) as [L|L]; [|lia]. apply IZR_le in L. nra. }
  apply bpow_le_inv. rewrite VK. apply Rle_trans with (bpow E); [apply bpow_le; exact M|]. apply IZR_le in K1. nra.
Qed.

(** Half a step above a power of two is rounded back to it: its significand is even. *)
Lemma tie x d j : number x -> number d -> value x = bpow (prec + j) -> value d = bpow j -> (prec + j < emax)%Z ->
  number (fadd prec emax x d) /\ value (fadd prec emax x d) = bpow (prec + j).
Proof.
  intros Nx Nd Vx Vd Hj. pose proof (pow_emin d j Nd Vd) as Ej. pose proof (bpow_pos (prec + j)) as Px. pose proof (bpow_pos j) as Pj.
  destruct x as [sx|sx| |sx mx ex]; try contradiction (proj1 Nx); [cbn in Vx; lra|].
  destruct d as [sd|sd| |sd md ed]; try contradiction (proj1 Nd); [cbn in Vd; lra|].
  assert (Sx : sx = false). { destruct sx; [|reflexivity]. cbn [value] in Vx. pose proof (bpow_pos ex). assert (0 < IZR (Zpos mx)) by (apply IZR_lt; lia). nra. }
  assert (Sd : sd = false). { destruct sd; [|reflexivity]. cbn [value] in Vd. pose proof (bpow_pos ed). assert (0 < IZR (Zpos md)) by (apply IZR_lt; lia). nra. }
  subst sx sd. cbn [value] in Vx, Vd. rewrite Rmult_1_l in Vx, Vd. unfold fadd. cbn [SFadd cond_Zopp]. cbv zeta. set (ez := Z.min ex ed).
  pose proof (align_to mx ex ez ltac:(unfold ez; lia)) as A1. pose proof (align_to md ed ez ltac:(unfold ez; lia)) as A2.
  rewrite Vx in A1. rewrite Vd in A2. set (a := fst (shl_align mx ex ez)) in *. set (c := fst (shl_align md ed ez)) in *. change (Zpos a + Zpos c)%Z with (Zpos (a + c)). cbn [binary_normalize].
  assert (V : IZR (Zpos (a + c)) * bpow ez = bpow (prec + j) + bpow j) by (rewrite Pos2Z.inj_add, plus_IZR; lra). clearbody a c. clear A1 A2.
  unfold binary_round. pose proof (align_value (a + c) ez (fexp prec emax (Zpos (digits2_pos (a + c)) + ez))) as (V2 & D & E).
  destruct (shl_align (a + c) ez (fexp prec emax (Zpos (digits2_pos (a + c)) + ez))) as [m e]. cbn [fst snd] in *. rewrite V in V2. rewrite <- D in E. clear D.
  assert (He : (e <= fexp prec emax (Zpos (digits2_pos m) + e))%Z) by lia. clear E V.
  destruct (round_steps prec emax Hprec false m e ltac:(lia)) as (q & Q0 & Q1 & Qt & _ & _ & _ & Q). pose proof (digits_bounds m) as Bm.
  set (dg := Zpos (digits2_pos m)) in *.
  assert (Dg : (dg + e = prec + j + 1)%Z).
  { assert (L1 : bpow (dg - 1 + e) <= bpow (prec + j) + bpow j).
    { rewrite <- V2, bpow_add, (bpow_Z (dg - 1)) by (unfold dg; lia). apply Rmult_le_compat_r; [apply Rlt_le, bpow_pos|]. apply IZR_le. lia. }
    assert (L2 : bpow (prec + j) + bpow j < bpow (dg + e)).
    { rewrite <- V2, bpow_add, (bpow_Z dg) by (unfold dg; lia). apply Rmult_lt_compat_r; [apply bpow_pos|]. apply IZR_lt. lia. }
    assert (L3 : bpow (prec + j) + bpow j < bpow (prec + j + 1)) by (rewrite (bpow_add (prec + j) 1), bpow_1; pose proof (bpow_lt j (prec + j) ltac:(lia)); lra).
    assert (bpow (dg - 1 + e) < bpow (prec + j + 1)) as G1 by lra. assert (bpow (prec + j) < bpow (dg + e)) as G2 by lra. apply bpow_lt_inv in G1, G2. lia. }
  assert (Fe : fexp prec emax (dg + e) = (j + 1)%Z) by (rewrite Dg; unfold fexp; lia). rewrite Fe in *. set (n := (j + 1 - e)%Z) in *.
  assert (Hn : (0 <= n)%Z) by lia.
  assert (M2 : (2 * Zpos m = (2 ^ prec + 1) * 2 ^ n)%Z).
  { apply eq_IZR. rewrite !mult_IZR, plus_IZR, <- !bpow_Z by lia. apply (Rmult_eq_reg_r (bpow e)); [|apply Rgt_not_eq, bpow_pos].
    replace (2 * IZR (Zpos m) * bpow e) with (2 * (IZR (Zpos m) * bpow e)) by ring. rewrite V2. rewrite Rmult_assoc, <- bpow_add. unfold n. replace (j + 1 - e + e)%Z with (j + 1)%Z by lia. rewrite !bpow_add, bpow_1. ring. }
  assert (P0 : (0 < 2 ^ n)%Z) by (apply Z.pow_pos_nonneg; lia). assert (P1 : (2 ^ (n + 1) = 2 * 2 ^ n)%Z) by (rewrite <- Z.pow_succ_r by lia; f_equal; lia).
  assert (P2 : (2 ^ prec = 4 * 2 ^ (prec - 2))%Z) by (replace prec with (2 + (prec - 2))%Z at 1 by lia; rewrite Z.pow_add_r by lia; reflexivity).
  assert (Hq : q = (2 * 2 ^ (prec - 2))%Z).
  { rewrite M2, P1, P2 in Q1, Qt. revert Q1 Qt P0. generalize (2 ^ n)%Z (2 ^ (prec - 2))%Z. intros w z Q1 Qt P0.
    assert (C : (q = 2 * z \/ q = 2 * z + 1)%Z).
    { replace ((4 * z + 1) * w - q * (2 * w))%Z with ((4 * z + 1 - 2 * q) * w)%Z in Q1 by ring. rewrite Z.abs_mul, (Z.abs_eq w) in Q1 by lia. nia. }
    destruct C as [C|C]; [exact C|]. exfalso. assert (T : (Z.even q = true)%Z).
    { apply Qt. rewrite C. replace ((4 * z + 1) * w - (2 * z + 1) * (2 * w))%Z with (- w)%Z by ring. lia. }
    rewrite C in T. rewrite Z.even_add, Z.even_mul in T. cbn in T. discriminate T. }
  assert (Vq : IZR q * bpow (j + 1) = bpow (prec + j)).
  { rewrite Hq, mult_IZR, <- bpow_Z by lia. replace 2 with (bpow 1) by exact bpow_1. rewrite <- !bpow_add. f_equal. lia. }
  destruct Q as [[Z0 _]|(M & E & EQ & VM & C)]; [rewrite Z0 in Vq; lra|]. rewrite Vq in VM. rewrite EQ.
  destruct (canonical_digits prec emax M E C) as (D1 & D2 & D3). pose proof (digits_bounds M) as BM.
  assert (LE : (E <= emax - prec)%Z).
  { assert (L1 : bpow (Zpos (digits2_pos M) - 1 + E) <= bpow (prec + j)).
    { rewrite <- VM, bpow_add, (bpow_Z (Zpos (digits2_pos M) - 1)) by lia. apply Rmult_le_compat_r; [apply Rlt_le, bpow_pos|]. apply IZR_le. lia. }
    apply bpow_le_inv in L1. unfold canonical_mantissa in C. apply Zeq_bool_eq in C. unfold fexp, SpecFloat.emin in C. lia. }
  rewrite (proj1 (Zle_is_le_bool _ _) LE). split; [|cbn [value]; rewrite Rmult_1_l; exact VM].
  split; [exact Logic.I|]. cbn [valid_binary]. unfold bounded. rewrite C, (proj1 (Zle_is_le_bool _ _) LE). reflexivity.
Qed.

Lemma clock_power dt j n : number dt -> value dt = bpow j -> (prec + j < emax)%Z ->
  number (fclock prec emax dt n) /\ value (fclock prec emax dt n) = IZR (Z.min (Z.of_nat n) (2 ^ prec)) * bpow j.
Proof.
  intros Nd Vd Hj. pose proof (pow_emin dt j Nd Vd) as Ej. pose proof (bpow_pos j) as Pj. assert (P0 : (0 < 2 ^ prec)%Z) by (apply Z.pow_pos_nonneg; lia).
  induction n as [|n [N V]]; [split; [split; [exact Logic.I|reflexivity]|cbn; rewrite Z.min_l by lia; ring]|]. cbn [fclock].
  destruct (Z_lt_le_dec (Z.of_nat n) (2 ^ prec)) as [L|L].
  - rewrite Z.min_l in V by lia. rewrite Z.min_l by lia.
    assert (X : value (fclock prec emax dt n) + value dt = IZR (Z.of_nat (Datatypes.S n)) * bpow j) by (rewrite V, Vd, Nat2Z.inj_succ, succ_IZR; ring).
    assert (R : SFloat.rep prec emax (IZR (Z.of_nat (Datatypes.S n)) * bpow j)) by (exists (Z.of_nat (Datatypes.S n)), j; split; [reflexivity|split; [lia|exact Ej]]).
    pose proof (add_result prec emax Hprec Hmax _ _ N Nd) as Q. rewrite X in Q.
    assert (B : IZR (Z.of_nat (Datatypes.S n)) * bpow j <= bpow (prec + j)) by (rewrite bpow_add, (bpow_Z prec) by lia; apply Rmult_le_compat_r; [lra|apply IZR_le; lia]).
    assert (B0 : 0 <= IZR (Z.of_nat (Datatypes.S n)) * bpow j) by (apply Rmult_le_pos; [apply IZR_le; lia|lra]).
    assert (BX : bpow (prec + j) < bpow emax) by (apply bpow_lt; lia).
    destruct Q as (v & Rn & Cs). assert (Ev : v = IZR (Z.of_nat (Datatypes.S n)) * bpow j).
    { apply Rle_antisym; [exact (rounded_le _ _ _ _ _ Rn R (Rle_refl _))|exact (rounded_ge _ _ _ _ _ Rn R (Rle_refl _))]. }
    destruct Cs as [(_ & Nz & Vz)|[(H & _)|(H & _)]]; [split; [exact Nz|unfold fadd; rewrite Vz; exact Ev]|lra|lra].
  - rewrite Z.min_r in V |- * by lia. rewrite <- bpow_Z, <- bpow_add in V |- * by lia. exact (tie _ dt j N Nd V Vd Hj).
Qed.
End Power.
