(** Sums in floats that are free of error: C113. *)
From Coq Require Import Reals ZArith List Bool Lia Lra Arith Permutation Floats.SpecFloat.
From Verif Require Import Base Tensor PTensor PSym PDyn MFloat MFloatRd SFloat SRound SFloatRd SLip SGrid SLife PLife SExact PFloat PFloatX PFloatY PFloatZ PFloatE PFloatR PFloatD PFloatRd PFloatRdE.
Import ListNotations.
Open Scope R_scope.

Lemma sum_of_dot l : sum_of l = dot l.
Proof. unfold sum_of, dot. induction l as [|p l IH]; cbn [map fold_right]; [reflexivity|]. rewrite IH. reflexivity. Qed.
Lemma weight_of_mass l : weight_of l = mass l.
Proof. unfold weight_of, mass. induction l as [|p l IH]; cbn [map fold_right]; [reflexivity|]. rewrite IH. reflexivity. Qed.

Section Exact.
Variables p e : Z.
Hypothesis P1 : (1 < p)%Z.
Hypothesis P2 : (p < e)%Z.

Definition whole (E : Z) (l : list (fl * fl)) : Prop :=
  Forall (fun q => number p e (fst q) /\ number p e (snd q) /\ exists a : Z, value (fst q) * value (snd q) = IZR a * bpow E) l.

Lemma whole_dot E l : whole E l -> exists a, dot l = IZR a * bpow E.
Proof.
  induction 1 as [|q l (_ & _ & a & A) H [c IH]]; [exists 0%Z; cbn; ring|]. exists (a + c)%Z. unfold dot in *. cbn [fold_right]. rewrite IH, A, plus_IZR. ring.
Qed.

Lemma whole_rep E l : (emin p e <= E)%Z -> (p + E < e)%Z -> whole E l -> mass l <= bpow (p + E) -> rep p e (dot l) /\ Rabs (dot l) < bpow e.
Proof.
  intros HE HM W M. destruct (whole_dot E l W) as [a A]. pose proof (dot_mass l) as D. pose proof (bpow_pos E) as PE. split; [|pose proof (bpow_lt (p + E) e HM); lra].
  exists a, E. split; [exact A|]. split; [|exact HE]. apply le_IZR. rewrite abs_IZR, <- bpow_Z by lia.
  apply Rmult_le_reg_r with (bpow E); [exact PE|]. rewrite <- bpow_add. rewrite <- (Rabs_pos_eq (bpow E)) at 1 by lra. rewrite <- Rabs_mult, <- A. lra.
Qed.

Lemma total_exact E l s : (emin p e <= E)%Z -> (p + E < e)%Z -> total p e l s -> whole E l -> mass l <= bpow (p + E) -> number p e s /\ value s = dot l.
Proof.
  intros HE HM. induction 1 as [|x y|l s x y H IH|l1 l2 s1 s2 H1 IH1 H2 IH2|l l' s Q H IH]; intros F N.
  - split; [split; [exact Logic.I|reflexivity]|reflexivity].
  - destruct (whole_rep E _ HE HM F N) as [D1 D2]. apply Forall_inv in F as (F1 & F2 & _). apply result_exact; auto. unfold dot. cbn [fold_right fst snd]. rewrite Rplus_0_r. apply mul_result; auto.
  - destruct (whole_rep E _ HE HM F N) as [D1 D2]. pose proof (Forall_inv F) as (F1 & F2 & _). apply Forall_inv_tail in F.
    assert (N' : mass l <= bpow (p + E)) by (unfold mass in *; cbn [fold_right fst snd] in N; pose proof (Rabs_pos (value x * value y)); lra).
    destruct (IH F N') as [S1 S2]. apply result_exact; auto. unfold dot in *. cbn [fold_right fst snd]. rewrite <- S2. apply fma_result; auto.
  - destruct (whole_rep E _ HE HM F N) as [D1 D2]. apply Forall_app in F as [Fa Fb]. rewrite mass_app in N. pose proof (mass_pos l1). pose proof (mass_pos l2).
    destruct (IH1 Fa ltac:(lra)) as [A1 A2]. destruct (IH2 Fb ltac:(lra)) as [B1 B2]. apply result_exact; auto. rewrite dot_app, <- A2, <- B2. apply add_result; auto.
  - rewrite <- (mass_perm _ _ Q) in N. rewrite <- (dot_perm _ _ Q). apply IH; auto. apply Permutation_sym in Q. eapply Permutation_Forall; eassumption.
Qed.

(** ** Convolutions *)
Lemma zero_multiple E : multiple p e E fzero.
Proof. split; [split; [exact Logic.I|reflexivity]|]. exists 0%Z. cbn. ring. Qed.

Lemma conv_exact n m l u v b E1 E2 K B : flayer_wf n m l -> fconv p e l u v -> (b < fB u)%nat -> cells (fl_w l) (multiple p e E1) -> batch_cells b u (fun x => multiple p e E2 x /\ Rabs (value x) <= B) ->
  layer_within K (real_layer l) -> 0 <= B -> K * B <= bpow (p + (E1 + E2)) -> (emin p e <= E1 + E2)%Z -> (p + (E1 + E2) < e)%Z ->
  forall o i j, (o < fB (fl_w l))%nat -> (i < fH u)%nat -> (j < fW u)%nat ->
    number p e (fget v b o i j) /\ value (fget v b o i j) = convf (real_layer l) (fH u) (fW u) (fun c y x => value (fget u b c y x)) o i j.
Proof.
  intros Wf Hc Hb Cw Cu HK B0 Fit HE HM o i j Ho Hi Hj. pose proof Hc as (C1 & C2 & C3 & C4 & C5 & V1 & V2 & V3 & V4 & T). specialize (T b o i j Hb Ho Hi Hj). pose proof Wf as (_ & _ & _ & _ & HB' & _).
  assert (Fa : Forall (fun q => multiple p e E1 (fst q) /\ (multiple p e E2 (snd q) /\ Rabs (value (snd q)) <= B)) (window l u b o i j)).
  { apply (window_cells n m l u b o i j (multiple p e E1) (fun x => multiple p e E2 x /\ Rabs (value x) <= B)); auto; try lia. split; [apply zero_multiple|]. cbn. rewrite Rabs_R0. exact B0. }
  assert (Wh : whole (E1 + E2) (window l u b o i j)).
  { eapply Forall_impl; [|exact Fa]. intros q ([N1 [a A]] & [N2 [c D]] & _). split; [exact N1|]. split; [exact N2|]. exists (a * c)%Z. rewrite A, D, mult_IZR, bpow_add. ring. }
  set (f := fun c y x => value (fget u b c y x)).
  assert (Pv : forall c y x, (c < fC (fl_w l))%nat -> (y < fH (fl_w l))%nat -> (x < fW (fl_w l))%nat ->
     let ch := ((o / (fB (fl_w l) / fl_g l)) * fC (fl_w l) + c)%nat in
     value (fpad (fl_m l) (fl_p l) u b ch (i + y) (j + x)) = pval (fl_m l) (fH u) (fW u) (fl_p l) (f ch) (i + y) (j + x) /\ Rabs (pval (fl_m l) (fH u) (fW u) (fl_p l) (f ch) (i + y) (j + x)) <= B).
  { intros c y x Hcc Hy Hx. cbv zeta. destruct Wf as (G & (q & Q) & _). unfold fpad, pval.
    destruct (pad_src (fl_m l) (fH u) (fl_p l) (i + y)) as [y'|] eqn:X1; [|cbn; rewrite Rabs_R0; split; [reflexivity|lra]].
    destruct (pad_src (fl_m l) (fW u) (fl_p l) (j + x)) as [x'|] eqn:X2; [|cbn; rewrite Rabs_R0; split; [reflexivity|lra]].
    split; [reflexivity|]. apply Cu.
    - rewrite C1. apply (group_lt _ _ _ _ _ q); assumption.
    - eapply pad_src_lt; [exact C4|lia| |exact X1]. lia.
    - eapply pad_src_lt; [exact C5|lia| |exact X2]. lia. }
  assert (Ma : mass (window l u b o i j) <= bpow (p + (E1 + E2))).
  { eapply Rle_trans; [|exact Fit]. rewrite mass_window. eapply Rle_trans; [apply (row_bound (real_layer l) o _ B Ho)|apply Rmult_le_compat_r; [exact B0|apply HK; exact Ho]].
    intros c y x Hcc Hy Hx. cbn [real_layer cl_w] in *. rewrite real_get by assumption. rewrite Rabs_mult. apply Rmult_le_compat_l; [apply Rabs_pos|].
    destruct (Pv c y x Hcc Hy Hx) as [A1 A2]. rewrite A1. exact A2. }
  destruct (total_exact (E1 + E2) _ _ HE HM T Wh Ma) as [N V]. split; [exact N|]. rewrite V, dot_window. unfold convf. cbv zeta. cbn [real_layer cl_w cl_g cl_m cl_p]. 
  change (tC (real_tensor (fl_w l))) with (fC (fl_w l)). change (tH (real_tensor (fl_w l))) with (fH (fl_w l)). change (tW (real_tensor (fl_w l))) with (fW (fl_w l)). change (tB (real_tensor (fl_w l))) with (fB (fl_w l)).
  apply rsum_ext. intros c Hcc. apply rsum_ext. intros y Hy. apply rsum_ext. intros x Hx. rewrite real_get by assumption. f_equal. apply Pv; assumption.
Qed.

(** The layer over real numbers makes exactly this of the universe. *)
Lemma conv_exact_apply n m l u v E1 E2 K B : flayer_wf n m l -> fconv p e l u v -> (0 < fH u)%nat -> (0 < fW u)%nat -> cells (fl_w l) (multiple p e E1) -> cells u (fun x => multiple p e E2 x /\ Rabs (value x) <= B) ->
  layer_within K (real_layer l) -> 0 <= B -> K * B <= bpow (p + (E1 + E2)) -> (emin p e <= E1 + E2)%Z -> (p + (E1 + E2) < e)%Z ->
  conv_apply (real_layer l) (real_tensor u) = Ok (real_tensor v) /\ cells v (number p e).
Proof.
  intros Wf Hc HH HW Cw Cu HK B0 Fit HE HM. pose proof (fun b Hb => conv_exact n m l u v b E1 E2 K B Wf Hc Hb Cw (fun c i j => Cu b c i j Hb) HK B0 Fit HE HM) as X.
  pose proof Hc as (C1 & C2 & C3 & C4 & C5 & V1 & V2 & V3 & V4 & _). pose proof Wf as (_ & _ & _ & _ & HB' & HCC). split.
  - rewrite (layer_apply_eq n m _ _ (real_layer_wf p e l u v n m Wf Hc)).
    assert (Rdy : layer_ready n (real_layer l) (real_tensor u) = true).
    { unfold layer_ready. cbn [real_layer cl_m cl_p real_tensor build tC tH tW]. rewrite C4, C5. apply Nat.ltb_lt in HH, HW. rewrite HH, HW. rewrite C1, HCC, Nat.eqb_refl. reflexivity. }
    rewrite Rdy. f_equal. change (real_tensor v) with (build (fB v) (fC v) (fH v) (fW v) (fun b c i j => value (fget v b c i j))). rewrite V1, V2, V3, V4, HB'. change (tB (real_tensor u)) with (fB u). change (tH (real_tensor u)) with (fH u). change (tW (real_tensor u)) with (fW u). apply build_ext. intros b o i j Hb Ho Hi Hj.
    destruct (X b Hb o i j ltac:(rewrite HB'; exact Ho) Hi Hj) as [_ V]. rewrite V.
    apply (convf_ext_ready n m (real_layer l) (real_tensor u)); try assumption; [exact (real_layer_wf p e l u v n m Wf Hc)|].
    intros c y x Hcc Hy Hx. apply real_get; try assumption. rewrite C1, HCC. exact Hcc.
  - intros b o i j Hb Ho Hi Hj. apply X; lia.
Qed.

(** ** Counting neighbours *)
Lemma eighth_within l : flayer_wf 1 1 l -> fH (fl_w l) = 3%nat -> fW (fl_w l) = 3%nat ->
  (forall y x, (y < 3)%nat -> (x < 3)%nat -> value (fget (fl_w l) 0 0 y x) = if Nat.eqb y 1 && Nat.eqb x 1 then 0 else 1 / 8) -> layer_within 1 (real_layer l).
Proof.
  intros (G & _ & _ & _ & B & C) H3 W3 V o Ho. cbn [real_layer cl_w] in Ho. change (tB (real_tensor (fl_w l))) with (fB (fl_w l)) in Ho. replace o with 0%nat by lia.
  assert (C1 : fC (fl_w l) = 1%nat) by (apply Nat.eq_mul_1 in C; lia). unfold row_weight. cbn [real_layer cl_w].
  change (tC (real_tensor (fl_w l))) with (fC (fl_w l)). change (tH (real_tensor (fl_w l))) with (fH (fl_w l)). change (tW (real_tensor (fl_w l))) with (fW (fl_w l)).
  rewrite C1, H3, W3. cbn [rsum]. rewrite !real_get by lia. rewrite !V by lia. cbn [Nat.eqb andb]. rewrite !(Rabs_pos_eq (1 / 8)), Rabs_R0 by lra. lra.
Qed.

Lemma count_exact l u v b (g : board) i j : flayer_wf 1 1 l -> fl_m l = Circular -> fl_p l = 1%nat -> fconv p e l u v -> (3 <= p)%Z -> cells (fl_w l) (number p e) ->
  (forall y x, (y < 3)%nat -> (x < 3)%nat -> value (fget (fl_w l) 0 0 y x) = if Nat.eqb y 1 && Nat.eqb x 1 then 0 else 1 / 8) ->
  (b < fB u)%nat -> (forall y x, (y < fH u)%nat -> (x < fW u)%nat -> number p e (fget u b 0 y x) /\ value (fget u b 0 y x) = b2R (g y x)) ->
  (i < fH u)%nat -> (j < fW u)%nat -> number p e (fget v b 0 i j) /\ value (fget v b 0 i j) = INR (live_neighbours (fH u) (fW u) g i j) / 8.
Proof.
  intros Wf Cm Cp Hc P3 Cn V Hb Hg Hi Hj. pose proof Hc as (C1 & C2 & C3 & C4 & C5 & V1 & V2 & V3 & V4 & _). rewrite Cp in C2, C3. pose proof Wf as (G & _ & _ & _ & B & C). rewrite C in C1.
  assert (CC : fC (fl_w l) = 1%nat) by (apply Nat.eq_mul_1 in C; lia). rewrite Cm, Cp in C4, C5. cbn [pad_allowed] in C4, C5. apply Nat.leb_le in C4, C5.
  destruct (conv_exact 1 1 l u v b (-3) 0 1 1 Wf Hc Hb) with (o := 0%nat) (i := i) (j := j) as [N Q]; try assumption; try lia; try lra.
  - intros o c y x Ho Hcc Hy Hx. split; [apply Cn; assumption|]. replace o with 0%nat by lia. replace c with 0%nat by lia. rewrite V by lia.
    destruct (_ && _)%bool; [exists 0%Z; ring|exists 1%Z]. change (bpow (-3)) with (/ (2 * (2 * (2 * 1)))). lra.
  - intros c y x Hcc Hy Hx. replace c with 0%nat by lia. destruct (Hg y x Hy Hx) as [N E]. split; [split; [exact N|]|]; rewrite E.
    + exists (if g y x then 1 else 0)%Z. rewrite bpow_0. unfold b2R. destruct (g y x); ring.
    + unfold b2R. destruct (g y x); [rewrite Rabs_R1|rewrite Rabs_R0]; lra.
  - apply eighth_within; assumption.
  - rewrite Rmult_1_l, <- bpow_0. apply bpow_le. lia.
  - unfold emin. lia.
  - split; [exact N|]. rewrite Q. apply Rminus_diag_uniq.
    assert (A : Rabs (toroidal_sum 1 (fH u) (fW u) (fun y x => value (fget (fl_w l) 0 0 y x)) (fun y x => value (fget u b 0 y x)) i j - INR (live_neighbours (fH u) (fW u) g i j) / 8) <= 0).
    { apply moore_near; try lia; [exact V|]. intros y x Hy Hx. rewrite (proj2 (Hg y x Hy Hx)), Rminus_diag_eq, Rabs_R0 by reflexivity. lra. }
    replace (convf _ _ _ _ _ _ _) with (toroidal_sum 1 (fH u) (fW u) (fun y x => value (fget (fl_w l) 0 0 y x)) (fun y x => value (fget u b 0 y x)) i j).
    { match goal with |- ?z = 0 => pose proof (Rabs_pos z); destruct (Req_dec z 0) as [Y|Y]; [exact Y|apply Rabs_pos_lt in Y; lra] end. }
    unfold convf. cbv zeta. cbn [real_layer cl_w cl_g cl_m cl_p].
    change (tC (real_tensor (fl_w l))) with (fC (fl_w l)). change (tH (real_tensor (fl_w l))) with (fH (fl_w l)). change (tW (real_tensor (fl_w l))) with (fW (fl_w l)). change (tB (real_tensor (fl_w l))) with (fB (fl_w l)).
    rewrite CC, C2, C3, Cm, Cp. cbn [rsum]. rewrite Rplus_0_l. unfold toroidal_sum. apply rsum_ext. intros y Hy. apply rsum_ext. intros x Hx. rewrite real_get by lia. f_equal.
    unfold pval. rewrite !pad_src_circ by lia. assert (G1 : fl_g l = 1%nat) by (apply Nat.eq_mul_1 in C; lia). rewrite G1, B. change (0 / (1 / 1) * 1 + 0)%nat with 0%nat. f_equal. f_equal; unfold zmod; f_equal; f_equal; lia.
Qed.

(** ** The state u = 1, v = 0 *)
Lemma full_nbhd l u v b E K : flayer_wf 2 2 l -> apart l -> fl_m l = Circular -> fconv p e l u v -> (b < fB u)%nat -> cells (fl_w l) (multiple p e E) -> layer_within K (real_layer l) -> cancels l ->
  K <= bpow (p + E) -> (emin p e <= E)%Z -> (p + E < e)%Z -> full_u p e u b ->
  forall o i j, (o < 2)%nat -> (i < fH u)%nat -> (j < fW u)%nat -> number p e (fget v b o i j) /\ value (fget v b o i j) = 0.
Proof.
  intros Wf [Ag Ac] Cm Hc Hb Cw HK Z Fit HE HM Fu o i j Ho Hi Hj. pose proof Hc as (C1 & C2 & C3 & C4 & C5 & V1 & V2 & V3 & V4 & _). pose proof Wf as (G & _ & _ & _ & B & C). rewrite C in C1.
  destruct (conv_exact 2 2 l u v b E 0 K 1 Wf Hc Hb Cw) with (o := o) (i := i) (j := j) as [N Q]; try assumption; try lia; try lra.
  - intros c y x Hcc Hy Hx. destruct (Fu y x Hy Hx) as [[N0 E0] [N1 E1]]. destruct c as [|[|c]]; [| |lia].
    + rewrite E0, Rabs_R1. split; [|lra]. split; [exact N0|]. exists 1%Z. rewrite E0, bpow_0. ring.
    + rewrite E1, Rabs_R0. split; [|lra]. split; [exact N1|]. exists 0%Z. rewrite E1. ring.
  - rewrite Z.add_0_r, Rmult_1_r. exact Fit.
  - split; [exact N|]. rewrite Q. unfold convf. cbv zeta. cbn [real_layer cl_w cl_g cl_m cl_p].
    change (tC (real_tensor (fl_w l))) with (fC (fl_w l)). change (tH (real_tensor (fl_w l))) with (fH (fl_w l)). change (tW (real_tensor (fl_w l))) with (fW (fl_w l)). change (tB (real_tensor (fl_w l))) with (fB (fl_w l)).
    rewrite Ac, Ag, B, Cm. change (2 / 2)%nat with 1%nat. rewrite Nat.div_1_r. cbn [rsum]. rewrite Rplus_0_l. rewrite Nat.mul_1_r, Nat.add_0_r.
    rewrite Cm in C4, C5. cbn [pad_allowed] in C4, C5. apply Nat.leb_le in C4, C5.
    transitivity (rsum (fH (fl_w l)) (fun y => rsum (fW (fl_w l)) (fun x => value (fget (fl_w l) o 0 y x))) * (if Nat.eqb o 0 then 1 else 0)); [|rewrite Z by lia; ring].
    rewrite Rmult_comm, <- rsum_scal. apply rsum_ext. intros y Hy. rewrite <- rsum_scal. apply rsum_ext. intros x Hx. rewrite real_get by lia. rewrite Rmult_comm. f_equal.
    unfold pval. rewrite !pad_src_circ by lia. destruct (Fu (zmod (Z.of_nat (i + y) - Z.of_nat (fl_p l)) (fH u)) (zmod (Z.of_nat (j + x) - Z.of_nat (fl_p l)) (fW u))) as [[_ E0] [_ E1]]; [apply zmod_lt; lia..|].
    destruct o as [|[|o]]; [exact E0|exact E1|lia].
Qed.

Lemma full_step c u u' b E K : frd_wf c -> passes_on p e (g_idl c) -> apart (g_nbl c) -> cells (fl_w (g_nbl c)) (multiple p e E) -> layer_within K (real_layer (g_nbl c)) -> cancels (g_nbl c) ->
  K <= bpow (p + E) -> (emin p e <= E)%Z -> (p + E < e)%Z -> sound_rd p e c -> frd_step p e c u u' -> (b < fB u)%nat -> full_u p e u b -> full_u p e u' b.
Proof.
  intros (Wi & Wn & Ci & Cn) Ps Ap Cw HK Z Fit HE HM (Ndu & Ndv & Nf & Nk & Ndt & Nfk & Nxx & Vxx) (HC & idn & nb & Vi & Vn & S1 & S2 & S3 & S4 & St) Hb Fu i j Hi Hj. rewrite S3 in Hi. rewrite S4 in Hj.
  pose proof (full_nbhd (g_nbl c) u nb b E K Wn Ap Cn Vn Hb Cw HK Z Fit HE HM Fu) as Zn.
  assert (Un : batch_cells b u (number p e)) by (intros k y x Hk Hy Hx; destruct (Fu y x Hy Hx) as [[N0 _] [N1 _]]; destruct k as [|[|k]]; [exact N0|exact N1|lia]).
  assert (Id : forall o, (o < 2)%nat -> number p e (fget idn b o i j) /\ value (fget idn b o i j) = if Nat.eqb o 0 then 1 else 0).
  { intros o Ho. pose proof Wi as (_ & _ & _ & _ & B & C). pose proof Ps as (C1 & _). rewrite C1, Nat.mul_1_r in C.
    destruct (passed_on p e (g_idl c) u idn b o i j P1 P2 Ps Vi Un Hb ltac:(lia) Hi Hj) as [N V]. split; [exact N|]. rewrite V, B, C. change (2 / 2)%nat with 1%nat. rewrite Nat.div_1_r.
    destruct (Fu i j Hi Hj) as [[_ E0] [_ E1]]. destruct o as [|[|o]]; [exact E0|exact E1|lia]. }
  destruct (Id 0%nat ltac:(lia)) as [Nu Vu]. destruct (Id 1%nat ltac:(lia)) as [Nv Vv]. cbn [Nat.eqb] in Vu, Vv. destruct (Fu i j Hi Hj) as [[N0 E0] [N1 E1]].
  assert (Zv : nought p e (fget idn b 1 i j)) by (split; assumption).
  assert (Nab : forall o, (o < 2)%nat -> nought p e (fnabla p e c (fget nb b o i j))).
  { intros o Ho. destruct (Zn o i j Ho Hi Hj) as [N V]. apply zero_result. pose proof (div_result p e P1 P2 _ _ N Nxx ltac:(lra)) as R. rewrite V in R. unfold Rdiv in R. rewrite Rmult_0_l in R. exact R. }
  destruct (one_number p e P1 P2) as [No Vo].
  assert (Om : nought p e (fsub p e (fone p e) (fget idn b 0 i j))).
  { apply zero_result. pose proof (sub_result p e P1 P2 _ _ No Nu) as R. rewrite Vo, Vu in R. replace (1 - 1) with 0 in R by ring. exact R. }
  assert (Uv : nought p e (fmul p e (fmul p e (fget idn b 0 i j) (fget idn b 1 i j)) (fget idn b 1 i j))).
  { apply mul_nought; try assumption. apply (mul_nought p e P1 P2 _ _ Nu Zv). }
  assert (Rt : forall o, (o < 2)%nat -> nought p e (frate p e c o (fget idn b 0 i j) (fget idn b 1 i j) (fget nb b 0 i j) (fget nb b 1 i j))).
  { intros o Ho. destruct o as [|[|o]]; [| |lia]; cbn [frate].
    - apply add_nought; try assumption; [apply sub_nought; try assumption|]; apply mul_nought; try assumption. apply Nab. lia.
    - apply sub_nought; try assumption; [apply add_nought; try assumption|]; apply mul_nought; try assumption. apply Nab. lia. }
  assert (Fin : forall o r, (o < 2)%nat -> number p e (fget u b o i j) -> value (fget u b o i j) = r -> 0 <= r <= 1 -> number p e (fget u' b o i j) /\ value (fget u' b o i j) = r).
  { intros o r Ho N V Hr. rewrite St by lia. destruct (mul_nought p e P1 P2 _ _ Ndt (Rt o Ho)) as [Nd Vd].
    pose proof (add_result p e P1 P2 _ _ N Nd) as R. rewrite Vd, Rplus_0_r in R. destruct (number_rep p e P1 _ N) as [R1 R2]. destruct (result_exact p e _ _ R R1 R2) as [Na Va]. change SFadd with fadd in Na, Va.
    rewrite (clamp_value p e P1 P2 _ Na), Va, V. split; [apply (clamp_not_nan p e P1 P2); [exact (proj2 Na)|]; intros X; rewrite X in Na; exact (proj1 Na)|]. unfold clamp, Rmin, Rmax. repeat (destruct (Rle_dec _ _)); lra. }
  split; [apply Fin; try assumption; [lia|lra]|apply Fin; try assumption; [lia|lra]].
Qed.
End Exact.
