(** What the float operations do with NaN, signs, order and bounds. *)
From Coq Require Import Reals ZArith List Bool Lia Lra Arith Permutation Floats.SpecFloat.
From Verif Require Import Tensor MFloat SFloat PFloat.
Import ListNotations.
Open Scope R_scope.

(** ** NaN *)
Section Nan.
Variables prec emax : Z.
Notation NaN := S754_nan.

Lemma add_nan_l y : fadd prec emax NaN y = NaN.
Proof. destruct y; reflexivity. Qed.
Lemma add_nan_r x : fadd prec emax x NaN = NaN.
Proof. destruct x; reflexivity. Qed.
Lemma sub_nan_l y : fsub prec emax NaN y = NaN.
Proof. destruct y; reflexivity. Qed.
Lemma sub_nan_r x : fsub prec emax x NaN = NaN.
Proof. destruct x; reflexivity. Qed.
Lemma mul_nan_l y : fmul prec emax NaN y = NaN.
Proof. destruct y; reflexivity. Qed.
Lemma mul_nan_r x : fmul prec emax x NaN = NaN.
Proof. destruct x; reflexivity. Qed.
Lemma fma_nan_s x y : ffma prec emax x y NaN = NaN.
Proof. destruct x, y; reflexivity. Qed.
Lemma fma_nan_x y z : ffma prec emax NaN y z = NaN.
Proof. destruct y, z; reflexivity. Qed.
Lemma fma_nan_y x z : ffma prec emax x NaN z = NaN.
Proof. destruct x, z; reflexivity. Qed.
Lemma clamp_nan : fclamp prec emax NaN = NaN.
Proof. unfold fclamp. cbn [SFltb SFcompare]. unfold SFltb. destruct (fone prec emax); reflexivity. Qed.

(** One NaN among the factors makes the total NaN, whatever the order and the weights. *)
Lemma total_nan l s : total prec emax l s -> (exists x y, In (x, y) l /\ (x = NaN \/ y = NaN)) -> s = NaN.
Proof.
  induction 1 as [|x y|l s x y H IH|l1 l2 s1 s2 H1 IH1 H2 IH2|l l' s P H IH]; intros (a & b & I & N).
  - contradiction I.
  - destruct I as [E|[]]. injection E as -> ->. destruct N as [-> | ->]; [apply mul_nan_l|apply mul_nan_r].
  - destruct I as [E|I].
    + injection E as -> ->. destruct N as [-> | ->]; [apply fma_nan_x|apply fma_nan_y].
    + rewrite IH by eauto. apply fma_nan_s.
  - apply in_app_or in I as [I|I]; [rewrite IH1 by eauto; apply add_nan_l|rewrite IH2 by eauto; apply add_nan_r].
  - apply IH. exists a, b. split; [|exact N]. apply Permutation_in with l'; [apply Permutation_sym, P|exact I].
Qed.
End Nan.

Section Format.
Variables prec emax : Z.
Hypothesis Hprec : (1 < prec)%Z.
Hypothesis Hmax : (prec < emax)%Z.
Notation number := (number prec emax).
Notation rep := (rep prec emax).
Notation result := (result prec emax).
Notation rounded := (rounded prec emax).
Notation emin := (emin prec emax).
Notation fadd := (fadd prec emax).
Notation fsub := (fsub prec emax).
Notation fmul := (fmul prec emax).
Notation ffma := (ffma prec emax).
Notation fone := (fone prec emax).
Notation fclamp := (fclamp prec emax).
Notation total := (total prec emax).
Notation valid x := (valid_binary prec emax x = true).

Lemma Emin : emin = (3 - emax - prec)%Z.
Proof. reflexivity. Qed.

Lemma result_valid x z : result x z -> valid z.
Proof. intros (v & _ & [(_ & [_ V] & _)|[[_ ->]|[_ ->]]]); [exact V|reflexivity|reflexivity]. Qed.

Lemma fma_result x y z : number x -> number y -> number z -> result (value x * value y + value z) (ffma x y z).
Proof.
  intros Hx Hy Hz. destruct x as [sx|sx| |sx mx ex]; try contradiction (proj1 Hx); destruct y as [sy|sy| |sy my ey]; try contradiction (proj1 Hy).
  1-3: unfold ffma; match goal with |- result (?p + _) (_ (_ ?a ?b) _) => replace p with 0 by (cbn [value]; ring);
    assert (P : number (MFloat.fmul prec emax a b) /\ value (MFloat.fmul prec emax a b) = 0) by (split; [split; [exact I|reflexivity]|reflexivity]) end;
    destruct P as [P1 P2]; rewrite <- P2; apply add_result; auto.
  destruct z as [sz|sz| |sz mz ez]; try contradiction (proj1 Hz); unfold ffma.
  - change (value (S754_zero sz)) with 0. rewrite Rplus_0_r. apply mul_result; auto.
  - cbv zeta. set (e := Z.min (ex + ey) ez).
    match goal with |- result ?a (binary_normalize _ _ ?m e false) => replace a with (IZR m * bpow e) end; [apply normalize_result; auto|].
    rewrite product_value, plus_IZR, Rmult_plus_distr_r, !cond_value, !align_to by (unfold e; lia). cbn [value]. ring.
Qed.

Lemma cast_result x : finite x -> result (value x) (fcast prec emax x).
Proof.
  destruct x as [s|s| |s m e]; intros F; try contradiction F; cbn [fcast value].
  - apply result_zero; auto.
  - rewrite Rmult_assoc, <- cond_value. apply normalize_result; auto.
Qed.

Lemma valid_finite x : valid x -> finite x -> number x.
Proof. intros V F. split; assumption. Qed.

Lemma add_valid x y : valid x -> valid y -> valid (fadd x y).
Proof.
  intros Vx Vy. assert (D : finite x \/ ~ finite x) by (destruct x; cbn; auto). assert (D' : finite y \/ ~ finite y) by (destruct y; cbn; auto).
  destruct D as [F|F], D' as [F'|F']; [eapply result_valid, add_result; auto; split; assumption|..];
    destruct x as [sx|sx| |sx mx ex]; cbn in F; try (exfalso; tauto); destruct y as [sy|sy| |sy my ey]; cbn in F'; try (exfalso; tauto); cbn; try reflexivity;
    try (destruct (Bool.eqb sx sy); reflexivity).
Qed.

Lemma sub_valid x y : valid x -> valid y -> valid (fsub x y).
Proof.
  intros Vx Vy. assert (D : finite x \/ ~ finite x) by (destruct x; cbn; auto). assert (D' : finite y \/ ~ finite y) by (destruct y; cbn; auto).
  destruct D as [F|F], D' as [F'|F']; [eapply result_valid, sub_result; auto; split; assumption|..];
    destruct x as [sx|sx| |sx mx ex]; cbn in F; try (exfalso; tauto); destruct y as [sy|sy| |sy my ey]; cbn in F'; try (exfalso; tauto); cbn; try reflexivity;
    try (destruct (Bool.eqb sx (negb sy)); reflexivity).
Qed.

Lemma mul_valid x y : valid x -> valid y -> valid (fmul x y).
Proof.
  intros Vx Vy. assert (D : finite x \/ ~ finite x) by (destruct x; cbn; auto). assert (D' : finite y \/ ~ finite y) by (destruct y; cbn; auto).
  destruct D as [F|F], D' as [F'|F']; [eapply result_valid, mul_result; auto; split; assumption|..];
    destruct x as [sx|sx| |sx mx ex]; cbn in F; try (exfalso; tauto); destruct y as [sy|sy| |sy my ey]; cbn in F'; try (exfalso; tauto); cbn; try reflexivity.
Qed.

Lemma fma_valid x y z : valid x -> valid y -> valid z -> valid (ffma x y z).
Proof.
  intros Vx Vy Vz. destruct x as [sx|sx| |sx mx ex].
  1-3: apply (add_valid (fmul _ y) z); auto; apply (mul_valid _ y); auto.
  destruct y as [sy|sy| |sy my ey].
  1-3: apply (add_valid (fmul (S754_finite sx mx ex) _) z); auto; apply (mul_valid (S754_finite sx mx ex) _); auto.
  destruct z as [sz|sz| |sz mz ez]; [apply (mul_valid (S754_finite sx mx ex) (S754_finite sy my ey)); auto|reflexivity|reflexivity|].
  eapply result_valid, fma_result; split; auto; exact I.
Qed.

Lemma cast_valid x : valid (fcast prec emax x).
Proof. destruct x as [s|s| |s m e]; try reflexivity. apply (result_valid (value (S754_finite s m e))), cast_result. exact I. Qed.

Lemma total_valid l s : total l s -> Forall (fun p => valid (fst p) /\ valid (snd p)) l -> valid s.
Proof.
  induction 1 as [|x y|l s x y H IH|l1 l2 s1 s2 H1 IH1 H2 IH2|l l' s P H IH]; intros F.
  - reflexivity.
  - apply Forall_inv in F as [F1 F2]. apply mul_valid; assumption.
  - pose proof (Forall_inv F) as [F1 F2]. apply Forall_inv_tail in F. apply fma_valid; auto.
  - apply Forall_app in F as [F1 F2]. apply add_valid; auto.
  - apply IH. apply Permutation_sym in P. eapply Permutation_Forall; eassumption.
Qed.

(** ** One *)
Lemma rep_Z K E : (Z.abs K <= 2 ^ prec)%Z -> (emin <= E)%Z -> rep (IZR K * bpow E).
Proof. intros A B. exists K, E. auto. Qed.

Lemma rep_bpow E : (emin <= E)%Z -> rep (bpow E).
Proof. intros B. rewrite <- (Rmult_1_l (bpow E)). apply rep_Z; [|exact B]. cbn [Z.abs]. change 1%Z with (2 ^ 0)%Z. apply Z.pow_le_mono_r; lia. Qed.

Lemma result_exact x z : result x z -> rep x -> Rabs x < bpow emax -> number z /\ value z = x.
Proof.
  intros (v & Rn & C) Hr B. assert (V : v = x).
  { apply Rle_antisym; [eapply (rounded_le prec emax)|eapply (rounded_ge prec emax)]; try eassumption; lra. }
  subst v. destruct C as [(_ & N & V)|[[A _]|[A _]]]; [split; assumption|exfalso; unfold Rabs in B; destruct (Rcase_abs x) in B; lra..].
Qed.

Lemma one_lt_emax : 1 < bpow emax.
Proof. rewrite <- bpow_0. apply bpow_lt. lia. Qed.

Lemma one_number : number fone /\ value fone = 1.
Proof.
  apply (result_exact 1); [|rewrite <- bpow_0; apply rep_bpow; rewrite Emin; lia|rewrite Rabs_R1; apply one_lt_emax].
  unfold MFloat.fone. rewrite <- (Rmult_1_r 1) at 1. rewrite <- bpow_0. apply normalize_result; auto.
Qed.

(** ** Order *)
Lemma pos_lt m1 e1 m2 e2 : canonical_mantissa prec emax m1 e1 = true -> canonical_mantissa prec emax m2 e2 = true -> (e1 < e2)%Z ->
  IZR (Zpos m1) * bpow e1 < IZR (Zpos m2) * bpow e2.
Proof.
  intros C1 C2 L. apply Rlt_le_trans with (bpow (prec + e1)); [apply (mantissa_lt prec emax Hprec), C1|].
  destruct (canonical_digits prec emax m1 e1 C1) as (_ & M1 & _). destruct (canonical_digits prec emax m2 e2 C2) as (_ & _ & D). specialize (D ltac:(lia)).
  pose proof (digits_bounds m2) as B. rewrite D in B. apply Rle_trans with (bpow (prec - 1 + e2)); [apply bpow_le; lia|].
  rewrite bpow_add, (bpow_Z (prec - 1)) by lia. apply Rmult_le_compat_r; [apply Rlt_le, bpow_pos|]. apply IZR_le. lia.
Qed.

Lemma pos_compare m1 e1 m2 e2 : canonical_mantissa prec emax m1 e1 = true -> canonical_mantissa prec emax m2 e2 = true ->
  match (match Z.compare e1 e2 with Lt => Lt | Gt => Gt | Eq => Pos.compare m1 m2 end) with
  | Lt => IZR (Zpos m1) * bpow e1 < IZR (Zpos m2) * bpow e2
  | Eq => IZR (Zpos m1) * bpow e1 = IZR (Zpos m2) * bpow e2
  | Gt => IZR (Zpos m2) * bpow e2 < IZR (Zpos m1) * bpow e1
  end.
Proof.
  intros C1 C2. destruct (Z.compare_spec e1 e2) as [E|E|E]; [|apply pos_lt; assumption|apply pos_lt; assumption].
  subst e2. destruct (Pos.compare_spec m1 m2) as [M|M|M]; [subst; reflexivity|..]; apply Rmult_lt_compat_r; try apply bpow_pos; apply IZR_lt; lia.
Qed.

Lemma ltb_number x y : number x -> number y -> SFltb x y = true <-> value x < value y.
Proof.
  intros Hx Hy. assert (P : forall m e, 0 < IZR (Zpos m) * bpow e) by (intros; apply Rmult_lt_0_compat; [apply IZR_lt; lia|apply bpow_pos]).
  destruct x as [sx|sx| |sx mx ex]; try contradiction (proj1 Hx); destruct y as [sy|sy| |sy my ey]; try contradiction (proj1 Hy); unfold SFltb; cbn [SFcompare value].
  - split; [discriminate|lra].
  - specialize (P my ey). destruct sy; (split; [try discriminate|]); intros; auto; rewrite ?Rmult_assoc in *; lra.
  - specialize (P mx ex). destruct sx; (split; [try discriminate|]); intros; auto; rewrite ?Rmult_assoc in *; lra.
  - pose proof (P mx ex) as Px. pose proof (P my ey) as Py. destruct Hx as [_ Vx], Hy as [_ Vy]. cbn [valid_binary] in Vx, Vy. unfold bounded in Vx, Vy.
    apply andb_true_iff in Vx as [Cx _], Vy as [Cy _]. pose proof (pos_compare mx ex my ey Cx Cy) as Q. unfold Pos.compare in Q. rewrite !Rmult_assoc.
    change (Pcompare mx my Eq) with (Pos.compare_cont Eq mx my). 
    destruct sx, sy; [|split; [intros; lra|reflexivity]|split; [discriminate|intros; lra]|];
      destruct (Z.compare ex ey); try destruct (Pos.compare_cont Eq mx my); cbn [CompOpp]; (split; [try discriminate|]); intros; auto; lra.
Qed.

(** ** Clamping *)
Lemma clamp_not_nan x : valid x -> x <> S754_nan -> number (fclamp x) /\ 0 <= value (fclamp x) <= 1.
Proof.
  intros V N. destruct one_number as [O1 O2]. assert (Z1 : number fzero) by (split; [exact I|reflexivity]). unfold MFloat.fclamp; cbv zeta.
  assert (D : (x = S754_infinity true \/ x = S754_infinity false) \/ finite x) by (destruct x as [|[]| |]; cbn; auto; congruence).
  assert (Zc : (if SFltb fone fzero then fone else fzero) = fzero).
  { destruct (SFltb fone fzero) eqn:E; [|reflexivity]. apply (ltb_number _ _ O1 Z1) in E. rewrite O2 in E. cbn [value fzero] in E. lra. }
  destruct D as [[-> | ->]|F].
  - change (SFltb (S754_infinity true) fzero) with true. cbv iota. rewrite Zc. split; [exact Z1|cbn; lra].
  - change (SFltb (S754_infinity false) fzero) with false. cbv iota. assert (L : SFltb fone (S754_infinity false) = true).
    { destruct O1 as [O1 _]. unfold SFltb. destruct (MFloat.fone prec emax); try contradiction O1; reflexivity. }
    rewrite L. split; [exact O1|lra].
  - assert (Hx : number x) by (split; assumption). destruct (SFltb x fzero) eqn:E1.
    + rewrite Zc. split; [exact Z1|cbn; lra].
    + assert (G : 0 <= value x). { apply Rnot_lt_le. intros G. apply (ltb_number x fzero Hx Z1) in G. congruence. }
      destruct (SFltb fone x) eqn:E2; [split; [exact O1|lra]|]. split; [exact Hx|]. split; [exact G|].
      apply Rnot_lt_le. intros G'. rewrite <- O2 in G'. apply (ltb_number fone x O1 Hx) in G'. congruence.
Qed.

Lemma clamp_value x : number x -> value (fclamp x) = clamp 0 1 (value x).
Proof.
  intros Hx. destruct one_number as [O1 O2]. assert (Z1 : number fzero) by (split; [exact I|reflexivity]). unfold MFloat.fclamp, clamp; cbv zeta.
  assert (Zc : (if SFltb fone fzero then fone else fzero) = fzero).
  { destruct (SFltb fone fzero) eqn:E; [|reflexivity]. apply (ltb_number _ _ O1 Z1) in E. rewrite O2 in E. cbn [value fzero] in E. lra. }
  destruct (SFltb x fzero) eqn:E1.
  - apply (ltb_number x fzero Hx Z1) in E1. cbn [value fzero] in E1. rewrite Zc. cbn [value fzero]. rewrite Rmax_right, Rmin_left; lra.
  - assert (G : 0 <= value x). { apply Rnot_lt_le. intros G. apply (ltb_number x fzero Hx Z1) in G. congruence. }
    rewrite (Rmax_left (value x) 0) by exact G. destruct (SFltb fone x) eqn:E2.
    + apply (ltb_number fone x O1 Hx) in E2. rewrite O2 in E2. rewrite O2, Rmin_right; lra.
    + rewrite Rmin_left; [reflexivity|]. apply Rnot_lt_le. intros G'. rewrite <- O2 in G'. apply (ltb_number fone x O1 Hx) in G'. congruence.
Qed.

(** ** Totals *)
Definition dot (l : list (fl * fl)) : R := fold_right (fun p s => value (fst p) * value (snd p) + s) 0 l.
Definition mass (l : list (fl * fl)) : R := fold_right (fun p s => Rabs (value (fst p) * value (snd p)) + s) 0 l.

Lemma dot_app a b : dot (a ++ b) = dot a + dot b.
Proof. unfold dot. induction a as [|p a IH]; cbn [app fold_right]; lra. Qed.
Lemma mass_app a b : mass (a ++ b) = mass a + mass b.
Proof. unfold mass. induction a as [|p a IH]; cbn [app fold_right]; lra. Qed.
Lemma dot_perm a b : Permutation a b -> dot a = dot b.
Proof. unfold dot. induction 1; cbn [fold_right]; lra. Qed.
Lemma mass_perm a b : Permutation a b -> mass a = mass b.
Proof. unfold mass. induction 1; cbn [fold_right]; lra. Qed.
Lemma mass_pos a : 0 <= mass a.
Proof. induction a as [|p a IH]; cbn; [lra|]. fold (mass a). pose proof (Rabs_pos (value (fst p) * value (snd p))). lra. Qed.
Lemma dot_mass a : Rabs (dot a) <= mass a.
Proof. induction a as [|p a IH]; cbn; [rewrite Rabs_R0; lra|]. fold (mass a) (dot a). eapply Rle_trans; [apply Rabs_triang|]. lra. Qed.

(** Products up to K * 2 ^ E give a total up to their number times as much. *)
Lemma total_bounded K E l s : (0 <= K)%Z -> (emin <= E)%Z -> total l s -> (Z.of_nat (length l) * K <= 2 ^ prec)%Z -> IZR (Z.of_nat (length l) * K) * bpow E < bpow emax ->
  Forall (fun p => number (fst p) /\ number (snd p) /\ Rabs (value (fst p) * value (snd p)) <= IZR K * bpow E) l ->
  number s /\ Rabs (value s) <= IZR (Z.of_nat (length l) * K) * bpow E.
Proof.
  intros K0 HE. pose proof (bpow_pos E) as PE. induction 1 as [|x y|l s x y H IH|l1 l2 s1 s2 H1 IH1 H2 IH2|l l' s P H IH]; intros LK LM F.
  - split; [split; [exact I|reflexivity]|]. cbn. rewrite Rabs_R0, Rmult_0_l. lra.
  - apply Forall_inv in F as (F1 & F2 & F3). cbn [fst snd] in *. cbn [length] in *. apply (result_bounded prec emax (value x * value y)); auto; [apply mul_result; auto|apply rep_Z; [lia|exact HE]|].
    rewrite Z.mul_1_l. exact F3.
  - pose proof (Forall_inv F) as (F1 & F2 & F3). apply Forall_inv_tail in F. cbn [fst snd length] in *.
    assert (Q : IZR (Z.of_nat (length l) * K) * bpow E <= IZR (Z.of_nat (S (length l)) * K) * bpow E) by (apply Rmult_le_compat_r; [lra|]; apply IZR_le; nia).
    destruct (IH ltac:(nia) ltac:(lra) F) as [N B].
    apply (result_bounded prec emax (value x * value y + value s)); auto; [apply fma_result; auto|apply rep_Z; [nia|exact HE]|].
    eapply Rle_trans; [apply Rabs_triang|]. rewrite Nat2Z.inj_succ. unfold Z.succ. rewrite Z.mul_add_distr_r, plus_IZR, Rmult_plus_distr_r, Z.mul_1_l. lra.
  - apply Forall_app in F as [Fa Fb]. rewrite app_length in *. rewrite Nat2Z.inj_add in *. rewrite Z.mul_add_distr_r, plus_IZR, Rmult_plus_distr_r in *.
    assert (A1 : 0 <= IZR (Z.of_nat (length l1) * K) * bpow E) by (apply Rmult_le_pos; [apply IZR_le; nia|lra]).
    assert (A2 : 0 <= IZR (Z.of_nat (length l2) * K) * bpow E) by (apply Rmult_le_pos; [apply IZR_le; nia|lra]).
    destruct (IH1 ltac:(nia) ltac:(lra) Fa) as [N1 B1]. destruct (IH2 ltac:(nia) ltac:(lra) Fb) as [N2 B2].
    rewrite <- Rmult_plus_distr_r, <- plus_IZR, <- Z.mul_add_distr_r in *.
    apply (result_bounded prec emax (value s1 + value s2)); auto; [apply add_result; auto|apply rep_Z; [nia|exact HE]|].
    eapply Rle_trans; [apply Rabs_triang|]. rewrite Z.mul_add_distr_r, plus_IZR, Rmult_plus_distr_r. lra.
  - rewrite <- (Permutation_length P) in *. apply IH; auto. apply Permutation_sym in P. eapply Permutation_Forall; eassumption.
Qed.

(** ** A total with one term that is not zero is exact *)
Definition nzs (l : list (fl * fl)) : nat := fold_right (fun p n => if Req_EM_T (value (fst p) * value (snd p)) 0 then n else Datatypes.S n) O l.

Lemma nzs_app a b : nzs (a ++ b) = (nzs a + nzs b)%nat.
Proof. unfold nzs. induction a as [|p a IH]; cbn [app fold_right]; [reflexivity|]. rewrite IH. destruct (Req_EM_T _ 0); reflexivity. Qed.
Lemma nzs_perm a b : Permutation a b -> nzs a = nzs b.
Proof. unfold nzs. induction 1; cbn [fold_right]; repeat destruct (Req_EM_T _ 0); congruence. Qed.
Lemma nzs_0 a : nzs a = O -> dot a = 0.
Proof. unfold nzs, dot. induction a as [|p a IH]; cbn [fold_right]; [reflexivity|]. destruct (Req_EM_T _ 0) as [E|E]; [|discriminate]. intros H. rewrite IH by exact H. lra. Qed.

Definition exact_terms (l : list (fl * fl)) : Prop :=
  Forall (fun p => number (fst p) /\ number (snd p) /\ rep (value (fst p) * value (snd p)) /\ Rabs (value (fst p) * value (snd p)) < bpow emax) l.

Lemma lone_dot l : exact_terms l -> (nzs l <= 1)%nat -> rep (dot l) /\ Rabs (dot l) < bpow emax.
Proof.
  induction l as [|p l IH]; intros F N.
  - cbn. split; [apply rep_0; auto|]. rewrite Rabs_R0. apply bpow_pos.
  - pose proof (Forall_inv F) as (_ & _ & F3 & F4). apply Forall_inv_tail in F. specialize (IH F). unfold dot, nzs in *. cbn [fold_right] in *.
    destruct (Req_EM_T _ 0) as [E|E] in N.
    + rewrite E, Rplus_0_l. auto.
    + pose proof (nzs_0 l ltac:(unfold nzs; lia)) as D0. unfold dot in D0. rewrite D0, Rplus_0_r. split; assumption.
Qed.

Lemma total_lone l s : total l s -> exact_terms l -> (nzs l <= 1)%nat -> number s /\ value s = dot l.
Proof.
  induction 1 as [|x y|l s x y H IH|l1 l2 s1 s2 H1 IH1 H2 IH2|l l' s P H IH]; intros F N.
  - split; [split; [exact I|reflexivity]|reflexivity].
  - destruct (lone_dot _ F N) as [D1 D2]. apply Forall_inv in F as (F1 & F2 & _). apply result_exact; auto. unfold dot. cbn [fold_right fst snd]. rewrite Rplus_0_r. apply mul_result; auto.
  - destruct (lone_dot _ F N) as [D1 D2]. pose proof (Forall_inv F) as (F1 & F2 & _). apply Forall_inv_tail in F.
    assert (N' : (nzs l <= 1)%nat) by (unfold nzs in *; cbn [fold_right] in N; destruct (Req_EM_T _ 0) in N; lia).
    destruct (IH F N') as [S1 S2]. apply result_exact; auto. unfold dot in *. cbn [fold_right fst snd]. rewrite <- S2. apply fma_result; auto.
  - destruct (lone_dot _ F N) as [D1 D2]. apply Forall_app in F as [Fa Fb]. rewrite nzs_app in N.
    destruct (IH1 Fa ltac:(lia)) as [A1 A2]. destruct (IH2 Fb ltac:(lia)) as [B1 B2]. apply result_exact; auto. rewrite dot_app, <- A2, <- B2. apply add_result; auto.
  - rewrite <- (nzs_perm _ _ P) in N. rewrite <- (dot_perm _ _ P). apply IH; auto. apply Permutation_sym in P. eapply Permutation_Forall; eassumption.
Qed.

(** ** The error of a total *)
Notation ulp := (bpow (- prec)).
Notation eta := (bpow (emin - 1)).
Definition gam (n : nat) : R := (1 + ulp) ^ (2 * n).

Lemma gam_1 n : 1 <= gam n.
Proof. unfold gam. apply pow_R1_Rle. pose proof (bpow_pos (- prec)). lra. Qed.

Lemma gam_step a b : (a < b)%nat -> (1 + ulp) * gam a <= gam b.
Proof.
  intros H. unfold gam. change ((1 + ulp) * (1 + ulp) ^ (2 * a)) with ((1 + ulp) ^ (Datatypes.S (2 * a))). apply Rle_pow; [|lia]. pose proof (bpow_pos (- prec)). lra.
Qed.

Lemma err_grow U g g' A k h e : 1 <= U -> U * g <= g' -> 0 <= A -> 0 <= k * h -> e <= (g - 1) * A + g * (k * h) -> U * e + (U - 1) * A <= (g' - 1) * A + g' * (k * h).
Proof.
  intros H1 H2 H3 H4 H5. apply (Rmult_le_compat_l U) in H5; [|lra].
  assert (Q1 : 0 <= (g' - U * g) * A) by (apply Rmult_le_pos; lra). assert (Q2 : 0 <= (g' - U * g) * (k * h)) by (apply Rmult_le_pos; lra). nra.
Qed.

Lemma total_error K E l s : (0 <= K)%Z -> (emin <= E)%Z -> total l s -> (Z.of_nat (length l) * K <= 2 ^ prec)%Z -> IZR (Z.of_nat (length l) * K) * bpow E < bpow emax ->
  Forall (fun p => number (fst p) /\ number (snd p) /\ Rabs (value (fst p) * value (snd p)) <= IZR K * bpow E) l ->
  Rabs (value s - dot l) <= (gam (length l) - 1) * mass l + gam (length l) * (INR (2 * length l - 1) * eta).
Proof.
  intros K0 HE T. pose proof (bpow_pos E) as PE. pose proof (bpow_pos (- prec)) as PU. pose proof (bpow_pos (emin - 1)) as PH.
  assert (TB := fun l s => total_bounded K E l s K0 HE).
  induction T as [|x y|l s x y H IH|l1 l2 s1 s2 H1 IH1 H2 IH2|l l' s P H IH]; intros LK LM F.
  - unfold dot, mass. cbn [fold_right value MFloat.fzero length]. change (INR (2 * 0 - 1)) with 0. rewrite Rminus_0_r, Rabs_R0, Rmult_0_l, !Rmult_0_r. lra.
  - destruct (TB _ _ (total_one _ _ x y) LK LM F) as [N _]. apply Forall_inv in F as (F1 & F2 & F3). cbn [fst snd] in *.
    pose proof (result_near prec emax (value x * value y) _ (mul_result _ _ Hprec Hmax x y F1 F2) (proj1 N)) as R. change (SFmul prec emax x y) with (fmul x y) in R.
    unfold dot, mass. cbn [fold_right fst snd length]. rewrite !Rplus_0_r. pose proof (gam_step 0 1 ltac:(lia)) as G. change (gam 0) with 1 in G. rewrite Rmult_1_r in G.
    change (INR (2 * 1 - 1)) with 1. pose proof (Rabs_pos (value x * value y)) as B. pose proof (gam_1 1). eapply Rle_trans; [exact R|].
    assert (Q1 : 0 <= (gam 1 - 1 - ulp) * Rabs (value x * value y)) by (apply Rmult_le_pos; lra). assert (Q2 : 0 <= (gam 1 - 1) * eta) by (apply Rmult_le_pos; lra). lra.
  - destruct (TB _ _ (total_fma _ _ l s x y H) LK LM F) as [N _].
    pose proof (Forall_inv F) as (F1 & F2 & F3). apply Forall_inv_tail in F. cbn [fst snd length] in *.
    assert (Q : IZR (Z.of_nat (length l) * K) * bpow E <= IZR (Z.of_nat (Datatypes.S (length l)) * K) * bpow E) by (apply Rmult_le_compat_r; [lra|]; apply IZR_le; nia).
    assert (LK' : (Z.of_nat (length l) * K <= 2 ^ prec)%Z) by nia. assert (LM' : IZR (Z.of_nat (length l) * K) * bpow E < bpow emax) by lra.
    destruct (TB _ _ H LK' LM' F) as [N1 _]. specialize (IH LK' LM' F).
    pose proof (result_near prec emax _ _ (fma_result x y s F1 F2 N1) (proj1 N)) as R.
    unfold dot, mass in *. cbn [fold_right fst snd]. fold (dot l) (mass l) in *. set (n := length l) in *. set (a := value x * value y) in *.
    pose proof (gam_step n (Datatypes.S n) ltac:(lia)) as G. pose proof (gam_1 (Datatypes.S n)) as G1.
    assert (A0 : 0 <= mass l) by apply mass_pos. assert (C0 : 0 <= INR (2 * n - 1) * eta) by (apply Rmult_le_pos; [apply pos_INR|lra]).
    pose proof (err_grow (1 + ulp) (gam n) (gam (Datatypes.S n)) (mass l) (INR (2 * n - 1)) eta _ ltac:(lra) G A0 C0 IH) as W.
    assert (D1 : Rabs (dot l) <= mass l) by apply dot_mass. assert (I : INR (2 * n - 1) + 1 <= INR (2 * Datatypes.S n - 1)).
    { rewrite <- S_INR. apply le_INR. lia. }
    assert (V : Rabs (value s) <= mass l + Rabs (value s - dot l)) by (replace (value s) with (dot l + (value s - dot l)) at 1 by ring; eapply Rle_trans; [apply Rabs_triang|]; lra).
    assert (V2 : Rabs (a + value s) <= Rabs a + (mass l + Rabs (value s - dot l))) by (eapply Rle_trans; [apply Rabs_triang|]; lra).
    replace (value (ffma x y s) - (a + dot l)) with ((value (ffma x y s) - (a + value s)) + (value s - dot l)) by ring.
    eapply Rle_trans; [apply Rabs_triang|]. apply (Rmult_le_compat_l ulp) in V2; [|lra]. pose proof (Rabs_pos a) as Pa.
    assert (Gu : 1 + ulp <= gam (Datatypes.S n)) by (pose proof (gam_1 n); eapply Rle_trans; [|exact G]; rewrite <- (Rmult_1_r (1 + ulp)) at 1; apply Rmult_le_compat_l; lra).
    assert (Q1 : 0 <= (gam (Datatypes.S n) - 1 - ulp) * Rabs a) by (apply Rmult_le_pos; lra).
    assert (Q2 : gam (Datatypes.S n) * (INR (2 * n - 1) * eta) + eta <= gam (Datatypes.S n) * (INR (2 * Datatypes.S n - 1) * eta)).
    { apply Rle_trans with (gam (Datatypes.S n) * ((INR (2 * n - 1) + 1) * eta)); [|apply Rmult_le_compat_l; [lra|]; apply Rmult_le_compat_r; lra].
      assert (0 <= (gam (Datatypes.S n) - 1) * eta) by (apply Rmult_le_pos; lra). lra. }
    lra.
  - destruct (TB _ _ (total_app _ _ l1 l2 s1 s2 H1 H2) LK LM F) as [N _].
    pose proof F as F'. apply Forall_app in F' as [Fa Fb]. rewrite app_length in *. set (n1 := length l1) in *. set (n2 := length l2) in *.
    assert (Q : IZR (Z.of_nat n1 * K) * bpow E <= IZR (Z.of_nat (n1 + n2) * K) * bpow E) by (apply Rmult_le_compat_r; [lra|]; apply IZR_le; nia).
    assert (Q' : IZR (Z.of_nat n2 * K) * bpow E <= IZR (Z.of_nat (n1 + n2) * K) * bpow E) by (apply Rmult_le_compat_r; [lra|]; apply IZR_le; nia).
    specialize (IH1 ltac:(nia) ltac:(lra) Fa). specialize (IH2 ltac:(nia) ltac:(lra) Fb).
    destruct (TB _ _ H1 ltac:(fold n1; nia) ltac:(fold n1; lra) Fa) as [N1 _]. destruct (TB _ _ H2 ltac:(fold n2; nia) ltac:(fold n2; lra) Fb) as [N2 _].
    rewrite dot_app, mass_app. pose proof (add_result _ _ Hprec Hmax s1 s2 N1 N2) as R. change (SFadd prec emax s1 s2) with (fadd s1 s2) in R.
    assert (Em : forall l' s', total l' s' -> length l' = O -> value s' = 0).
    { intros l' s' T' L'. destruct l'; [|discriminate L']. destruct (total_bounded 0 E [] s' ltac:(lia) HE T') as [_ B]; [cbn; apply Z.pow_nonneg; lia|cbn; rewrite Rmult_0_l; apply bpow_pos|constructor|].
      cbn in B. rewrite Rmult_0_l in B. pose proof (Rabs_pos (value s')). destruct (Req_dec (value s') 0) as [Y|Y]; [exact Y|apply Rabs_pos_lt in Y; lra]. }
    destruct (Nat.eq_dec n2 0) as [E2|E2]; [|destruct (Nat.eq_dec n1 0) as [E1|E1]].
    + pose proof (Em _ _ H2 E2) as S2. rewrite S2, Rplus_0_r in R. destruct (number_rep _ _ Hprec s1 N1) as [R1 R2]. destruct (result_exact _ _ R R1 R2) as [_ ->].
      destruct l2; [|discriminate E2]. rewrite E2, Nat.add_0_r. cbn [dot mass fold_right]. rewrite !Rplus_0_r. exact IH1.
    + pose proof (Em _ _ H1 E1) as S1. rewrite S1, Rplus_0_l in R. destruct (number_rep _ _ Hprec s2 N2) as [R1 R2]. destruct (result_exact _ _ R R1 R2) as [_ ->].
      destruct l1; [|discriminate E1]. rewrite E1, Nat.add_0_l. cbn [dot mass fold_right]. rewrite !Rplus_0_l. exact IH2.
    + pose proof (result_near prec emax _ _ R (proj1 N)) as R'. pose proof (mass_pos l1) as A1. pose proof (mass_pos l2) as A2.
      assert (C1 : 0 <= INR (2 * n1 - 1) * eta) by (apply Rmult_le_pos; [apply pos_INR|lra]). assert (C2 : 0 <= INR (2 * n2 - 1) * eta) by (apply Rmult_le_pos; [apply pos_INR|lra]).
      pose proof (err_grow (1 + ulp) _ _ (mass l1) (INR (2 * n1 - 1)) eta _ ltac:(lra) (gam_step n1 (n1 + n2) ltac:(lia)) A1 C1 IH1) as W1.
      pose proof (err_grow (1 + ulp) _ _ (mass l2) (INR (2 * n2 - 1)) eta _ ltac:(lra) (gam_step n2 (n1 + n2) ltac:(lia)) A2 C2 IH2) as W2.
      pose proof (dot_mass l1) as D1. pose proof (dot_mass l2) as D2. pose proof (gam_1 (n1 + n2)) as G1.
      assert (V : Rabs (value s1 + value s2) <= mass l1 + mass l2 + Rabs (value s1 - dot l1) + Rabs (value s2 - dot l2)).
      { replace (value s1 + value s2) with (dot l1 + dot l2 + (value s1 - dot l1) + (value s2 - dot l2)) by ring.
        eapply Rle_trans; [apply Rabs_triang|]. apply Rplus_le_compat_r. eapply Rle_trans; [apply Rabs_triang|]. apply Rplus_le_compat_r. eapply Rle_trans; [apply Rabs_triang|]. lra. }
      apply (Rmult_le_compat_l ulp) in V; [|lra].
      replace (value (fadd s1 s2) - (dot l1 + dot l2)) with ((value (fadd s1 s2) - (value s1 + value s2)) + ((value s1 - dot l1) + (value s2 - dot l2))) by ring.
      eapply Rle_trans; [apply Rabs_triang|]. pose proof (Rabs_triang (value s1 - dot l1) (value s2 - dot l2)) as Tr.
      assert (I : INR (2 * (n1 + n2) - 1) = INR (2 * n1 - 1) + INR (2 * n2 - 1) + 1) by (rewrite <- plus_INR, <- S_INR; f_equal; lia). rewrite I.
      assert (Q2 : 0 <= (gam (n1 + n2) - 1) * eta) by (apply Rmult_le_pos; lra). lra.
  - rewrite <- (Permutation_length P) in *. rewrite <- (dot_perm _ _ P), <- (mass_perm _ _ P). apply IH; auto. apply Permutation_sym in P. eapply Permutation_Forall; eassumption.
Qed.
End Format.
