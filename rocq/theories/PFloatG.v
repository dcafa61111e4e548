(** The Gaussian in floats. *)
From Coq Require Import Reals ZArith List Bool Lia Lra Arith Floats.SpecFloat.
From Verif Require Import MFloat SFloat PFloat PFloatX PFloatC.
Import ListNotations.
Open Scope R_scope.

(** ** Signs *)
Definition signed (s : bool) (x : fl) : Prop := x = S754_zero s \/ x = S754_infinity s \/ exists m e, x = S754_finite s m e.

Lemma shr_1_pos a : (0 <= shr_m a)%Z -> (0 <= shr_m (shr_1 a))%Z.
Proof. destruct a as [m r s]. destruct m as [|[p|p|]|p]; cbn; lia. Qed.

Lemma iter_pos_pos p : forall a, (0 <= shr_m a)%Z -> (0 <= shr_m (iter_pos shr_1 p a))%Z.
Proof. induction p as [p IH|p IH|]; intros a H; cbn [iter_pos]; [apply IH, IH, shr_1_pos, H|apply IH, IH, H|apply shr_1_pos, H]. Qed.

Lemma shr_fexp_pos prec emax m e l : (0 <= m)%Z -> (0 <= shr_m (fst (shr_fexp prec emax m e l)))%Z.
Proof.
  intros H. unfold shr_fexp, shr. assert (A : (0 <= shr_m (shr_record_of_loc m l))%Z) by (destruct l as [|[| |]]; exact H).
  destruct (_ - e)%Z; cbn [fst]; [exact A|apply iter_pos_pos, A|exact A].
Qed.

Lemma round_aux_sign prec emax s m e l : (0 <= m)%Z -> signed s (binary_round_aux prec emax s m e l).
Proof.
  intros H. unfold binary_round_aux. pose proof (shr_fexp_pos prec emax m e l H) as A. destruct (shr_fexp prec emax m e l) as [a e']. cbn [fst] in A.
  assert (B : (0 <= round_nearest_even (shr_m a) (loc_of_shr_record a))%Z) by (destruct (loc_of_shr_record a) as [|[| |]]; cbn; try lia; destruct (Z.even _); lia).
  pose proof (shr_fexp_pos prec emax _ e' loc_Exact B) as C. destruct (shr_fexp prec emax _ e' loc_Exact) as [a' e'']. cbn [fst] in C.
  destruct (shr_m a') as [|p|p]; [left; reflexivity| |lia]. destruct (e'' <=? emax - prec)%Z; [right; right; eauto|right; left; reflexivity].
Qed.

Lemma signed_not_nan s x : signed s x -> x <> S754_nan.
Proof. intros [->|[->|(m & e & ->)]]; discriminate. Qed.

Lemma square_sign prec emax q : q <> S754_nan -> signed false (fmul prec emax q q).
Proof.
  intros H. destruct q as [s|s| |s m e]; [..|]; cbn; try rewrite xorb_nilpotent; [left; reflexivity|right; left; reflexivity|contradiction|].
  apply round_aux_sign. lia.
Qed.

Lemma opp_sign s x : signed s x -> signed (negb s) (SFopp x).
Proof. intros [->|[->|(m & e & ->)]]; [left; reflexivity|right; left; reflexivity|right; right; exists m, e; reflexivity]. Qed.

Lemma div_sign prec emax s x s' m e : signed s x -> signed (xorb s s') (SFdiv prec emax x (S754_finite s' m e)).
Proof.
  intros [->|[->|(m' & e' & ->)]]; [left; reflexivity|right; left; reflexivity|]. cbn [SFdiv].
  assert (Q : (0 <= fst (fst (SFdiv_core_binary prec emax (Zpos m') e' (Zpos m) e)))%Z).
  { unfold SFdiv_core_binary. set (k := match _ with Z0 => _ | Zpos _ => _ | Zneg _ => _ end). assert (K : (0 <= k)%Z) by (unfold k; destruct (_ - _)%Z; [lia|apply Z.shiftl_nonneg; lia|lia]).
    pose proof (Z_div_mod k (Zpos m) ltac:(lia)) as D. destruct (Z.div_eucl k (Zpos m)) as [q r]. cbn [fst]. nia. }
  destruct (SFdiv_core_binary prec emax (Zpos m') e' (Zpos m) e) as [[mz ez] lz]. apply round_aux_sign. exact Q.
Qed.

Lemma not_nan_signed x : x <> S754_nan -> exists s, signed s x.
Proof. destruct x as [s|s| |s m e]; intros H; [| |contradiction|]; exists s; [left; reflexivity|right; left; reflexivity|right; right; eauto]. Qed.

Section G.
Variables prec emax : Z.
Hypothesis Hprec : (1 < prec)%Z.
Hypothesis Hmax : (prec < emax)%Z.
Notation number := (number prec emax).
Notation rep := (rep prec emax).
Notation emin := (emin prec emax).

(** Two numbers of one value are one number. *)
Lemma number_inj x y : number x -> number y -> value x = value y -> value x <> 0 -> x = y.
Proof.
  assert (P : forall m e, 0 < IZR (Zpos m) * bpow e) by (intros; apply Rmult_lt_0_compat; [apply IZR_lt; lia|apply bpow_pos]).
  intros [Fx Vx] [Fy Vy] E N. destruct x as [sx|sx| |sx mx ex]; try contradiction Fx; [cbn in N; lra|]. destruct y as [sy|sy| |sy my ey]; try contradiction Fy; [exfalso; apply N; rewrite E; reflexivity|].
  cbn [valid_binary] in Vx, Vy. unfold bounded in Vx, Vy. apply andb_true_iff in Vx, Vy. destruct Vx as [Vx _], Vy as [Vy _].
  assert (S : sx = sy). { cbn [value] in E. pose proof (P mx ex). pose proof (P my ey). destruct sx, sy; try reflexivity; exfalso; lra. }
  subst sy. assert (E2 : IZR (Zpos mx) * bpow ex = IZR (Zpos my) * bpow ey) by (cbn [value] in E; destruct sx; lra).
  destruct (Z.lt_trichotomy ex ey) as [L|[L|L]].
  - pose proof (pos_lt prec emax Hprec _ _ _ _ Vx Vy L). lra.
  - subst ey. apply Rmult_eq_reg_r in E2; [|pose proof (bpow_pos ex); lra]. apply eq_IZR in E2. injection E2 as ->. reflexivity.
  - pose proof (pos_lt prec emax Hprec _ _ _ _ Vy Vx L). lra.
Qed.

(** An addend below half a step is lost. *)
Lemma absorbed q a x : number a -> number x -> 0 <= value a < bpow q -> bpow (prec + q) <= value x -> fadd prec emax a x = x.
Proof.
  intros Na Nx [A0 A1] X. pose proof (bpow_pos (prec + q)) as P. destruct (number_rep prec emax Hprec x Nx) as [Rx Bx].
  destruct (add_result prec emax Hprec Hmax a x Na Nx) as (v & Rn & C). pose proof Rn as (R & U & _).
  assert (V : v = value x).
  { pose proof (rounded_ge _ _ _ _ _ Rn Rx ltac:(lra)) as G. apply Rle_antisym; [|exact G]. apply Rnot_lt_le. intros L.
    destruct (rep_grid prec emax Hprec v q R ltac:(lra)) as [K EK].
    assert (GX : exists J, value x = IZR J * bpow (q + 1)).
    { destruct (Rle_lt_or_eq_dec _ _ X) as [Y|Y]; [exact (rep_grid prec emax Hprec _ q Rx Y)|]. exists (2 ^ (prec - 1))%Z. rewrite <- Y, <- bpow_Z, <- bpow_add by lia. f_equal. lia. }
    destruct GX as [J EJ]. pose proof (bpow_pos (q + 1)) as PK. assert (D : bpow (q + 1) = 2 * bpow q) by (rewrite bpow_add, bpow_1; ring).
    assert (A : IZR J < IZR K) by (apply Rmult_lt_reg_r with (bpow (q + 1)); [exact PK|]; lra).
    apply lt_IZR in A. assert (A' : IZR J + 1 <= IZR K) by (rewrite <- plus_IZR; apply IZR_le; lia).
    apply (Rmult_le_compat_r (bpow (q + 1)) _ _ (Rlt_le _ _ PK)) in A'. specialize (U (value x) Rx).
    rewrite Rabs_pos_eq in U by lra. rewrite Rabs_left1 in U by lra. lra. }
  rewrite V in C. destruct C as [(_ & N & E)|[[A _]|[A _]]]; [|exfalso; unfold Rabs in Bx; destruct (Rcase_abs _) in Bx; lra|exfalso; pose proof (bpow_pos emax); lra].
  apply number_inj; [exact N|exact Nx|exact E|fold (fadd prec emax); unfold fadd; rewrite E; lra].
Qed.

Lemma two_number : number (binary_normalize prec emax 2 0 false) /\ value (binary_normalize prec emax 2 0 false) = 2.
Proof.
  apply (result_exact prec emax 2); [|rewrite <- bpow_1; apply (rep_bpow prec emax Hprec); unfold SpecFloat.emin; lia|rewrite Rabs_pos_eq by lra; rewrite <- bpow_1; apply bpow_lt; lia].
  replace 2 with (IZR 2 * bpow 0) by (rewrite bpow_0; ring). apply normalize_result; assumption.
Qed.

Lemma finite_nonzero x : number x -> value x <> 0 -> exists s m e, x = S754_finite s m e.
Proof. intros [F _] N. destruct x as [s|s| |s m e]; try contradiction F; [cbn in N; lra|eauto]. Qed.

Lemma gauss_width eps mu sigma : gauss_ok prec emax eps mu sigma -> number (fadd prec emax eps sigma) /\ 0 < value (fadd prec emax eps sigma).
Proof.
  intros (Ne & E & Nm & Ns & S). destruct (number_rep prec emax Hprec eps Ne) as [Re _]. pose proof (add_result prec emax Hprec Hmax eps sigma Ne Ns) as R.
  destruct (result_bounded prec emax _ _ 2 R) as [N B]; [rewrite <- bpow_1; apply (rep_bpow prec emax Hprec); unfold SpecFloat.emin; lia|rewrite <- bpow_1; apply bpow_lt; lia|rewrite Rabs_pos_eq; lra|].
  split; [exact N|]. destruct R as (v & Rn & C). pose proof (rounded_ge _ _ _ _ _ Rn Re ltac:(lra)) as G. unfold fadd in *.
  destruct C as [(_ & _ & V)|[[_ V]|[_ V]]]; [lra|rewrite V in N; contradiction (proj1 N)|rewrite V in N; contradiction (proj1 N)].
Qed.

Lemma gauss_exponent eps mu sigma x : gauss_ok prec emax eps mu sigma -> number x ->
  let q := SFdiv prec emax (fsub prec emax x mu) (fadd prec emax eps sigma) in
  minus (SFdiv prec emax (SFopp (fmul prec emax q q)) (binary_normalize prec emax 2 0 false)).
Proof.
  intros G Nx q. destruct (gauss_width _ _ _ G) as [Nw W]. destruct (finite_nonzero _ Nw ltac:(lra)) as (s & m & e & Ew).
  assert (Q : q <> S754_nan).
  { unfold q. rewrite Ew. destruct G as (_ & _ & Nm & _). pose proof (result_not_nan _ _ _ _ (sub_result prec emax Hprec Hmax x mu Nx Nm)) as A. fold (fsub prec emax) in A.
    destruct (not_nan_signed _ A) as [s' S]. eapply signed_not_nan, div_sign. exact S. }
  apply square_sign with (prec := prec) (emax := emax) in Q. apply opp_sign in Q. destruct two_number as [N2 V2]. destruct (finite_nonzero _ N2 ltac:(lra)) as (s2 & m2 & e2 & E2). rewrite E2.
  assert (S2 : s2 = false). { rewrite E2 in V2. cbn [value] in V2. destruct s2; [|reflexivity]. exfalso. assert (0 < IZR (Zpos m2) * bpow e2) by (apply Rmult_lt_0_compat; [apply IZR_lt; lia|apply bpow_pos]). lra. }
  subst s2. apply (div_sign prec emax _ _ false m2 e2) in Q. cbn [negb xorb] in Q. destruct Q as [->|[->|(m' & e' & ->)]]; [exists 1%positive, 0%Z; auto|exists 1%positive, 0%Z; auto|exists m', e'; auto].
Qed.

Lemma gauss_range exp eps mu sigma mode x z : exp_like prec emax exp -> gauss_ok prec emax eps mu sigma -> number x -> fgauss prec emax exp eps mu sigma mode x z ->
  number z /\ Rabs (value z) <= 1.
Proof.
  intros (_ & E & _) G Nx (e & He & ->). specialize (E _ _ (gauss_exponent _ _ _ _ G Nx) He). destruct E as [Ne Be]. destruct two_number as [N2 V2]. destruct (one_number prec emax Hprec Hmax) as [N1 V1].
  destruct mode; [|split; [exact Ne|rewrite Rabs_pos_eq; lra]].
  pose proof (mul_result prec emax Hprec Hmax _ _ Ne N2) as R. rewrite V2 in R.
  destruct (result_bounded prec emax _ _ 2 R) as [N B]; [rewrite <- bpow_1; apply (rep_bpow prec emax Hprec); unfold SpecFloat.emin; lia|rewrite <- bpow_1; apply bpow_lt; lia|rewrite Rabs_pos_eq; lra|].
  assert (Z0 : 0 <= value (SFmul prec emax e (binary_normalize prec emax 2 0 false))).
  { destruct R as (v & Rn & C). pose proof (rounded_ge _ _ _ _ 0 Rn (rep_0 prec emax) ltac:(lra)) as Gv.
    destruct C as [(_ & _ & V)|[[_ V]|[_ V]]]; rewrite V; [lra|cbn; lra|cbn; lra]. }
  fold (fmul prec emax) in *. pose proof (sub_result prec emax Hprec Hmax _ _ N N1) as R'. fold (fsub prec emax) in R'. rewrite V1 in R'.
  rewrite Rabs_pos_eq in B by exact Z0. apply (result_bounded prec emax _ _ 1 R').
  - rewrite <- bpow_0. apply (rep_bpow prec emax Hprec). unfold SpecFloat.emin. lia.
  - apply (one_lt_emax prec emax Hprec Hmax).
  - unfold Rabs. destruct (Rcase_abs _); lra.
Qed.

Lemma gauss_nan exp eps mu sigma mode z : exp_like prec emax exp -> fgauss prec emax exp eps mu sigma mode S754_nan z -> is_nan z.
Proof.
  intros (_ & _ & E) (e & He & ->). rewrite (sub_nan_l prec emax) in He. assert (D : forall y, SFdiv prec emax S754_nan y = S754_nan) by (intros []; reflexivity).
  cbv zeta in He. rewrite D in He. rewrite (E _ _ eq_refl He). destruct mode; [|reflexivity]. rewrite mul_nan_l, sub_nan_l. reflexivity.
Qed.

Lemma gauss_good exp eps mu sigma mode x z : exp_like prec emax exp -> fgauss prec emax exp eps mu sigma mode x z -> good prec emax z.
Proof.
  intros (E & _) (e & He & ->). specialize (E _ _ He). destruct mode; [|exact E]. destruct two_number as [[_ N2] _]. destruct (one_number prec emax Hprec Hmax) as [[_ N1] _].
  apply (sub_valid prec emax Hprec Hmax); [|exact N1]. apply (mul_valid prec emax Hprec Hmax); [exact E|exact N2].
Qed.
End G.
