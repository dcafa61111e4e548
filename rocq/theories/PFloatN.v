(** The two layers of a neural automaton in floats (C110). *)
From Coq Require Import Reals ZArith List Bool Lia Lra Arith Floats.SpecFloat.
From Verif Require Import Base Tensor PTensor PSym PDyn MCca MFloat SFloat SRound SLip SLife SFloatN PFloat PFloatX PFloatY PFloatZ PFloatE PFloatR PLip PFloatD.
Import ListNotations.
Open Scope R_scope.

(** relu makes no error. *)
Lemma relu_exact p e x : (1 < p)%Z -> number p e x -> number p e (frelu x) /\ value (frelu x) = Rmax (value x) 0.
Proof.
  intros Hp N. assert (Z : number p e fzero) by (split; [exact I|reflexivity]). unfold frelu. destruct (SFltb x fzero) eqn:E.
  - apply (ltb_number p e Hp _ _ N Z) in E. split; [exact Z|]. cbn [value fzero] in *. rewrite Rmax_right; lra.
  - split; [exact N|]. rewrite Rmax_left; [reflexivity|]. apply Rnot_lt_le. intros L. change 0 with (value fzero) in L. apply (ltb_number p e Hp _ _ N Z) in L. congruence.
Qed.

Lemma relu_lip x y : Rabs (Rmax x 0 - Rmax y 0) <= Rabs (x - y).
Proof. unfold Rmax. destruct (Rle_dec x 0), (Rle_dec y 0); unfold Rabs; repeat destruct (Rcase_abs _); lra. Qed.

(** The real layer takes what the float layer takes. *)
Lemma real_conv d n m l u v t : flayer_wf n m l -> fconv (cprec d) (cemax d) l u v -> (0 < fH u)%nat -> (0 < fW u)%nat -> tB t = fB u -> tC t = fC u -> tH t = fH u -> tW t = fW u ->
  conv_apply (real_layer l) t = Ok (build (fB u) m (fH u) (fW u) (fun b o i j => convf (real_layer l) (fH u) (fW u) (get t b) o i j)).
Proof.
  intros Wf Hc HH HW T1 T2 T3 T4. pose proof Hc as (C1 & C2 & C3 & C4 & C5 & _). pose proof Wf as (_ & _ & _ & _ & HB' & HCC).
  rewrite (layer_apply_eq n m _ _ (real_layer_wf _ _ l u v n m Wf Hc)).
  assert (Rdy : layer_ready n (real_layer l) t = true).
  { unfold layer_ready. cbn [real_layer cl_m cl_p]. rewrite T2, T3, T4, C4, C5. apply Nat.ltb_lt in HH, HW. rewrite HH, HW. rewrite C1, HCC, Nat.eqb_refl. reflexivity. }
  rewrite Rdy, T1, T3, T4. reflexivity.
Qed.

Lemma network_error d n h m l1 l2 u v Q F B W1 W2 : dtype_ok d -> flayer_wf n h l1 -> flayer_wf h m l2 ->
  let P := fun x => number (cprec d) (cemax d) x /\ Rabs (value x) <= 1 in cells (fl_w l1) P -> cells (fl_w l2) P ->
  fwl (cprec d) (cemax d) (FMlp l1 l2) u v -> (0 < fH u)%nat -> (0 < fW u)%nat ->
  cells u (fun x => number (cprec d) (cemax d) x /\ Rabs (value x) <= IZR Q * bpow F /\ Rabs (value x) <= B) ->
  layer_within W1 (real_layer l1) -> layer_within W2 (real_layer l2) -> 0 <= B -> (0 <= Q)%Z ->
  room d (Z.of_nat (window_size l1) * Q) F -> room d (Z.of_nat (window_size l2) * (Z.of_nat (window_size l1) * Q)) F ->
  exists t, wl_apply (real_wl (FMlp l1 l2)) (real_tensor u) = Ok t /\ shape (real_tensor v) = shape t /\ cells v (number (cprec d) (cemax d)) /\
    let E := dot_err d (window_size l1) (W1 * B) in close (W2 * E + dot_err d (window_size l2) (W2 * (W1 * B + E))) (real_tensor v) t.
Proof.
  intros Hd Wf1 Wf2 P C1 C2 (a & A1 & A2) HH HW Cu K1 K2 B0 Q0 R1 R2. unfold window_size in *. destruct (dtype_c d Hd) as [P1 P2].
  pose proof A1 as (_ & _ & _ & _ & _ & V1 & V2 & V3 & V4 & _). pose proof A2 as (_ & _ & _ & _ & _ & X1 & X2 & X3 & X4 & _). cbn [fmap fB fC fH fW] in X1, X3, X4.
  pose proof Wf1 as (_ & _ & Hh & _ & B1 & _). pose proof Wf2 as (_ & _ & Hm & _ & B2 & Cc2).
  assert (U : forall b, (b < fB u)%nat -> batch_cells b u (within d Q F)) by (intros b Hb c i j Hc Hi Hj; destruct (Cu b c i j Hb Hc Hi Hj) as (N & D & _); split; assumption).
  pose proof (fun b Hb => conv_within d n h l1 u a b Q F Hd Wf1 C1 R1 Q0 A1 Hb (U b Hb)) as Ua.
  assert (Ur : forall b, (b < fB u)%nat -> batch_cells b (fmap frelu a) (within d (Z.of_nat (side l1) * Q) F)).
  { intros b Hb c i j Hc Hi Hj. cbn [fmap fget fB fC fH fW] in *. destruct (Ua b Hb c i j Hc Hi Hj) as [N D]. destruct (relu_exact _ _ _ P1 N) as [N' V']. split; [exact N'|]. rewrite V'.
    eapply Rle_trans; [|exact D]. unfold Rmax. destruct (Rle_dec _ 0); [rewrite Rabs_R0; apply Rabs_pos|apply Rle_refl]. }
  pose proof (fun b Hb => conv_within d h m l2 (fmap frelu a) v b _ F Hd Wf2 C2 R2 ltac:(lia) A2 Hb (Ur b ltac:(cbn [fmap fB] in Hb; lia))) as Uv.
  set (E := dot_err d (side l1) (W1 * B)).
  assert (K10 : 0 <= W1) by (apply (within_nonneg W1 (real_layer l1)); [cbn; lia|exact K1]).
  assert (E0 : 0 <= E) by (apply dot_err_nonneg; apply Rmult_le_pos; assumption).
  set (t1 := build (fB u) h (fH u) (fW u) (fun b o i j => convf (real_layer l1) (fH u) (fW u) (get (real_tensor u) b) o i j)).
  assert (T1 : conv_apply (real_layer l1) (real_tensor u) = Ok t1) by (apply (real_conv d n h l1 u a); auto).
  set (t2 := tmap (fun x => Rmax x 0) t1).
  assert (S2 : tB t2 = fB u /\ tC t2 = h /\ tH t2 = fH u /\ tW t2 = fW u) by (repeat split). destruct S2 as (S21 & S22 & S23 & S24).
  assert (T2 : conv_apply (real_layer l2) t2 = Ok (build (fB u) m (fH u) (fW u) (fun b o i j => convf (real_layer l2) (fH u) (fW u) (get t2 b) o i j))).
  { rewrite (real_conv d h m l2 (fmap frelu a) v t2); cbn [fmap fB fC fH fW]; rewrite ?V1, ?V2, ?V3, ?V4; auto; lia. }
  assert (Ne : forall b c i j, (b < fB u)%nat -> (c < h)%nat -> (i < fH u)%nat -> (j < fW u)%nat -> Rabs (value (fget (fmap frelu a) b c i j) - get t2 b c i j) <= E /\ Rabs (get t2 b c i j) <= W1 * B).
  { intros b c i j Hb Hc Hi Hj. cbn [fmap fget]. destruct (Ua b Hb c i j ltac:(lia) ltac:(lia) ltac:(lia)) as [N _]. destruct (relu_exact _ _ _ P1 N) as [_ V']. rewrite V'.
    assert (G2 : get t2 b c i j = Rmax (convf (real_layer l1) (fH u) (fW u) (get (real_tensor u) b) c i j) 0).
    { unfold t2. rewrite get_tmap by (try apply twf_build; cbn [t1 build tB tC tH tW]; auto). unfold t1. rewrite get_build by auto. reflexivity. }
    assert (Hu : forall c i j, (c < fC u)%nat -> (i < fH u)%nat -> (j < fW u)%nat -> Rabs (value (fget u b c i j) - get (real_tensor u) b c i j) <= 0 /\ Rabs (get (real_tensor u) b c i j) <= B).
    { intros c' i' j' Hc' Hi' Hj'. rewrite real_get by assumption. split; [rewrite Rminus_diag_eq, Rabs_R0 by reflexivity; lra|]. apply Cu; assumption. }
    pose proof (conv_error d n h l1 u a b (get (real_tensor u) b) B 0 W1 Hd Wf1 C1 A1 Hb Hu K1 B0 (Rle_refl 0) c i j Q F R1 Q0 (U b Hb) ltac:(lia) Hi Hj) as Er.
    rewrite Rmult_0_r, Rplus_0_l, Rplus_0_r in Er. fold E in Er. rewrite G2. split; [eapply Rle_trans; [apply relu_lip|exact Er]|].
    pose proof (conv_real_bound d n h l1 u a b (get (real_tensor u) b) B 0 W1 Wf1 A1 Hb Hu K1 B0 (Rle_refl 0) c i j ltac:(lia) Hi Hj) as Bd.
    eapply Rle_trans; [|exact Bd]. unfold Rmax. destruct (Rle_dec _ 0); [rewrite Rabs_R0; apply Rabs_pos|apply Rle_refl]. }
  eexists. split; [cbn [real_wl wl_apply]; rewrite T1; cbn [bind]; exact T2|]. split.
  { unfold shape. cbn [real_tensor build tB tC tH tW]. rewrite X1, X2, X3, X4, V1, V3, V4, B2. reflexivity. }
  split. { intros b c i j Hb Hc Hi Hj. apply (Uv b); cbn [fmap fB]; lia. }
  cbv zeta. intros b o i j Hb Ho Hi Hj. cbn [build tB tC tH tW] in Hb, Ho, Hi, Hj. rewrite real_get by lia. rewrite get_build by assumption.
  pose proof (conv_error d h m l2 (fmap frelu a) v b (get t2 b) (W1 * B) E W2 Hd Wf2 C2 A2) as Er. cbn [fmap fB fC fH fW] in Er. rewrite V1, V2, V3, V4, B1 in Er.
  apply (Er Hb (fun c i j => Ne b c i j Hb) K2 (Rmult_le_pos _ _ K10 B0) E0 o i j _ F R2 ltac:(lia) (Ur b Hb) ltac:(lia) Hi Hj).
Qed.

(** ** Neural automata never make a NaN *)
Lemma step_net d c h A T u u' b : dtype_ok d -> fcca_wf c -> tame_network d c h A T -> fstep d c u u' -> (b < fB u)%nat ->
  batch_cells b u (unit_number (sprec d) (semax d)) -> batch_cells b u' (unit_number (sprec d) (semax d)).
Proof.
  intros H (W1 & W2 & W3) (F1 & F2 & (l1 & l2 & Ew & Eh & F3 & F3') & F4 & F5 & (F6 & F7) & A0 & T0 & Rm & RN & RI)
    (Ec & idn & nb & gp & upd & S1 & S2 & (G1 & G2 & G3 & G4 & G5) & S3 & U1 & U2 & U3 & U4 & U5) Hb Hu.
  destruct (dtype_c d H) as [P1 P2]. destruct (dtype_s d H) as [Q1 Q2]. set (m := fmask (sprec d) (semax d) (f_thr c) u) in *.
  pose proof (mask_unit _ _ (f_thr c) u b Q1 Q2 Hu) as Gm. fold m in Gm. destruct (mask_shape (sprec d) (semax d) (f_thr c) u) as (M1 & M2 & M3 & M4). fold m in M1, M2, M3, M4.
  assert (Gm32 : batch_cells b (fmap (up d) m) (within d 1 0)).
  { intros o i j Ho Hi Hj. cbn [fmap fget fB fC fH fW] in *. destruct (Gm o i j Ho Hi Hj) as [N B]. destruct (up_number d _ H N) as [N' V']. split; [exact N'|]. rewrite V', bpow_0, Rabs_pos_eq; lra. }
  set (Ni := Z.of_nat (side (f_idl c))) in *. set (Nn := Z.of_nat (side (f_nbl c))) in *.
  pose proof W1 as (_ & _ & Hint & _ & W1a & _). pose proof W2 as (_ & _ & _ & _ & W2a & _).
  set (In := Z.of_nat (f_int c)) in *. set (Hh := Z.of_nat h) in *. assert (RI' : (Hh * (In * (2 * Ni + 1)) + 1 <= 2 ^ sprec d)%Z) by (unfold Hh, In, Ni; lia). clear RI.
  rewrite Ew in S3, W3. cbn [fwl fwl_wf] in S3, W3. destruct W3 as (h' & (W3 & Wp & Wg) & (W4 & Wp' & Wg')). pose proof W3 as (_ & _ & Hh0 & _ & W3a & W3b). pose proof W4 as (_ & _ & _ & _ & W4a & W4b). rewrite Wg, Nat.mul_1_l in W3b. rewrite Wg', Nat.mul_1_l in W4b.
  assert (h' = h) by congruence. subst h'. assert (H1 : (1 <= Hh)%Z) by (unfold Hh; lia).
  assert (I1 : (1 <= In)%Z) by (unfold In; lia). assert (Ni0 : (0 <= Ni)%Z) by (unfold Ni; lia). assert (Nn0 : (0 <= Nn)%Z) by (unfold Nn; lia).
  assert (RR : forall n E, (0 <= n)%Z -> (n <= Hh * (In * (2 * Ni + 1)) + 1)%Z -> (0 <= E)%Z -> (E <= A + T)%Z -> room d n E) by (intros n E; unfold room; lia).
  assert (Bi : batch_cells b idn (within d Ni 0)).
  { rewrite <- (Z.mul_1_r Ni). eapply (conv_within d _ _ (f_idl c)); try eassumption; try lia; [apply RR; fold Ni; nia|cbn [fmap fB]; lia]. }
  assert (Bn : batch_cells b nb (within d Nn 0)).
  { rewrite <- (Z.mul_1_r Nn). eapply (conv_within d _ _ (f_nbl c)); try eassumption; try lia; [fold Nn; unfold room; lia|cbn [fmap fB]; lia]. }
  pose proof S1 as (_ & _ & _ & _ & _ & X1 & X2 & X3 & X4 & _). pose proof S2 as (_ & _ & _ & _ & _ & J1 & J2 & J3 & J4 & _). cbn [fmap fB fC fH fW] in X1, X3, X4, J1, J3, J4.
  assert (Bg : batch_cells b (fmap (up d) gp) (within d (2 * Ni + 1) A)).
  { intros k i j Hk Hi Hj. cbn [fmap fget fB fC fH fW] in *. rewrite G2 in Hk. rewrite G3 in Hi. rewrite G4 in Hj.
    destruct (G5 b k i j Hb Hk Hi Hj) as (g & p & E1 & E2 & ->).
    assert (Xi : within d Ni 0 (up d (down d (fget idn b k i j)))) by (apply stored; [exact H|apply RR; nia|apply Bi; congruence]).
    assert (Xn : within d Nn 0 (up d (down d (fget nb b k i j)))) by (apply stored; [exact H|unfold room; lia|apply Bn; congruence]).
    assert (Xn' : number (cprec d) (cemax d) (up d (down d (fget nb b k i j))) /\ Rabs (value (up d (down d (fget nb b k i j)))) <= INR (side (f_nbl c))).
    { destruct Xn as [Xa Xb]. split; [exact Xa|]. rewrite bpow_0, Rmult_1_r in Xb. unfold Nn in Xb. rewrite <- INR_IZR_INZ in Xb. exact Xb. }
    assert (Xg : within d 1 A g) by (destruct (F6 _ _ _ Xn' E1) as [Y1 Y2]; split; [exact Y1|]; rewrite Rmult_1_l; exact Y2).
    assert (Xp : within d 1 A p) by (destruct (F7 _ _ _ Xn' E2) as [Y1 Y2]; split; [exact Y1|]; rewrite Rmult_1_l; exact Y2).
    apply stored; [exact H|apply RR; nia|]. replace (2 * Ni + 1)%Z with ((1 + Ni) * 1 + Ni * 1)%Z by lia. apply add_within; [exact H|apply RR; nia|..].
    - apply stored; [exact H|apply RR; nia|]. rewrite <- (Z.add_0_l A). apply mul_within; [exact H|apply RR; nia|lia|lia| |exact Xg].
      apply sub_within; [exact H|apply RR; nia|apply one_within; exact H|exact Xi].
    - apply stored; [exact H|apply RR; nia|]. rewrite <- (Z.add_0_l A). apply mul_within; [exact H|apply RR; nia|lia|lia|exact Xi|exact Xp]. }
  destruct S3 as (a & S3 & S4). assert (Sd : Z.of_nat (side l1) = In) by (rewrite Wp, W3b; unfold In; lia). assert (Sd' : Z.of_nat (side l2) = Hh) by (rewrite Wp', W4b; unfold Hh; lia).
  assert (Ba : batch_cells b a (within d (In * (2 * Ni + 1)) A)).
  { rewrite <- Sd. eapply (conv_within d _ _ l1); try eassumption; [rewrite Sd; apply RR; nia|lia|cbn [fmap fB]; lia]. }
  pose proof S3 as (_ & _ & _ & _ & _ & K1 & K2 & K3 & K4 & _). cbn [fmap fB fC fH fW] in K1, K3, K4.
  assert (Br : batch_cells b (fmap frelu a) (within d (In * (2 * Ni + 1)) A)).
  { intros k i j Hk Hi Hj. cbn [fmap fget fB fC fH fW] in *. destruct (Ba k i j Hk Hi Hj) as [N D]. destruct (relu_exact _ _ _ P1 N) as [N' V']. split; [exact N'|]. rewrite V'.
    eapply Rle_trans; [|exact D]. unfold Rmax. destruct (Rle_dec _ 0); [rewrite Rabs_R0; apply Rabs_pos|apply Rle_refl]. }
  assert (Bd : batch_cells b upd (within d (Hh * (In * (2 * Ni + 1))) A)).
  { rewrite <- Sd'. eapply (conv_within d _ _ l2); try eassumption; [rewrite Sd'; apply RR; nia|nia|cbn [fmap fB]; lia]. }
  pose proof S4 as (_ & _ & _ & _ & _ & L1 & L2 & L3 & L4 & _). cbn [fmap fB fC fH fW] in L1, L3, L4. rewrite K1 in L1. rewrite K3 in L3. rewrite K4 in L4.
  intros o i j Ho Hi Hj. rewrite U2 in Ho. rewrite U3 in Hi. rewrite U4 in Hj. rewrite U5 by assumption. apply down_unit; [exact H|].
  assert (Fin : within d (Hh * (In * (2 * Ni + 1)) + 1) (A + T) (fadd (cprec d) (cemax d) (fget (fmap (up d) m) b o i j) (fmul (cprec d) (cemax d) (f_dt c) (up d (down d (fget upd b o i j)))))).
  { rewrite Z.add_comm. apply add_within; [exact H|apply RR; nia|..].
    - apply (within_le d 1 1 0 (A + T)); try lia. apply Gm32; cbn [fmap fB fC fH fW]; congruence.
    - replace (Hh * (In * (2 * Ni + 1)))%Z with (1 * (Hh * (In * (2 * Ni + 1))))%Z by lia. rewrite (Z.add_comm A T). apply mul_within; [exact H|apply RR; nia|lia|nia| |].
      + split; [exact F4|]. rewrite Rmult_1_l. exact F5.
      + apply stored; [exact H|apply RR; nia|]. apply Bd; congruence. }
  destruct Fin as [N _]. apply clamp_not_nan; auto; [exact (proj2 N)|]. intros E. rewrite E in N. exact (proj1 N).
Qed.

Lemma run_net d c h A T n u u' b : dtype_ok d -> fcca_wf c -> tame_network d c h A T -> fruns d c n u u' -> (b < fB u)%nat ->
  batch_cells b u (unit_number (sprec d) (semax d)) -> batch_cells b u' (unit_number (sprec d) (semax d)).
Proof.
  intros H W F R Hb Hu. induction R as [u|n u v w R IH S]; [exact Hu|]. destruct (runs_same _ _ _ _ _ R) as (A1 & _). eapply step_net; eauto. lia.
Qed.
