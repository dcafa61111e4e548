(** A step of a neural automaton in floats against the step in real numbers (C110). *)
From Coq Require Import Reals ZArith List Bool Lia Lra Arith Floats.SpecFloat.
From Verif Require Import Base Tensor MActivations MCommon MCca MFloat SGrid SCca SLip SLife SFloat SRound SFloatN PTensor PStep PCca PLip PFloat PFloatX PFloatY PFloatZ PFloatE PFloatR PFloatN.
Import ListNotations.
Open Scope R_scope.

(** The numbers a step goes through, as [step_parts] of PFloatE. *)
Lemma net_parts d c h A T u u' b : dtype_ok d -> fcca_wf c -> tame_network d c h A T -> fstep d c u u' -> (b < fB u)%nat ->
  batch_cells b u (unit_number (sprec d) (semax d)) ->
  let P := cprec d in let X := cemax d in let st := fun x => up d (down d x) in
  let m := fmap (up d) (fmask (sprec d) (semax d) (f_thr c) u) in
  exists l1 l2 idn nb gp hid upd n E n' E',
    f_wl c = FMlp l1 l2 /\ fconv P X (f_idl c) m idn /\ fconv P X (f_nbl c) m nb /\ fconv P X l1 gp hid /\ fconv P X l2 (fmap frelu hid) upd /\
    (fB gp = fB u /\ fC gp = f_int c /\ fH gp = fH u /\ fW gp = fW u) /\
    batch_cells b m (within d 1 0) /\ room d (Z.of_nat (side (f_idl c)) * 1) 0 /\ room d (Z.of_nat (side (f_nbl c)) * 1) 0 /\ 
    room d (Z.of_nat (side l1) * n) E /\ room d (Z.of_nat (side l2) * (Z.of_nat (side l1) * n)) E /\ (0 <= n)%Z /\ batch_cells b gp (within d n E) /\ batch_cells b hid (within d (Z.of_nat (side l1) * n) E) /\ batch_cells b (fmap frelu hid) (within d (Z.of_nat (side l1) * n) E) /\ 
    batch_cells b idn (tight d) /\ batch_cells b nb (tight d) /\ batch_cells b upd (tight d) /\
    (forall k i j, (k < f_int c)%nat -> (i < fH u)%nat -> (j < fW u)%nat ->
       let x := st (fget idn b k i j) in let y := st (fget nb b k i j) in
       Rabs (value y) <= INR (side (f_nbl c)) /\
       exists g p, f_gen c k y g /\ f_per c k y p /\ number P X g /\ number P X p /\
         let a := fsub P X (fone P X) x in
         number P X a /\ tight d (fmul P X a g) /\ tight d (fmul P X x p) /\ tight d (fadd P X (st (fmul P X a g)) (st (fmul P X x p))) /\
         fget gp b k i j = st (fadd P X (st (fmul P X a g)) (st (fmul P X x p)))) /\
    (forall o i j, (o < fC u)%nat -> (i < fH u)%nat -> (j < fW u)%nat ->
       let y := st (fget upd b o i j) in
       number P X (fmul P X (f_dt c) y) /\ room d n' E' /\ within d n' E' (fadd P X (fget m b o i j) (fmul P X (f_dt c) y)) /\
       fget u' b o i j = down d (fclamp P X (fadd P X (fget m b o i j) (fmul P X (f_dt c) y)))).
Proof.
  intros H (W1 & W2 & W3) (F1 & F2 & (l1 & l2 & Ew & Eh & F3 & F3') & F4 & F5 & (F6 & F7) & A0 & T0 & Rm & RN & RI)
    (Ec & idn & nb & gp & upd & S1 & S2 & (G1 & G2 & G3 & G4 & G5) & S3 & U1 & U2 & U3 & U4 & U5) Hb Hu P0 X0 st m0.
  destruct (dtype_c d H) as [P1 P2]. destruct (dtype_s d H) as [Q1 Q2]. set (m := fmask (sprec d) (semax d) (f_thr c) u) in *.
  pose proof (mask_unit _ _ (f_thr c) u b Q1 Q2 Hu) as Gm. fold m in Gm. destruct (mask_shape (sprec d) (semax d) (f_thr c) u) as (M1 & M2 & M3 & M4). fold m in M1, M2, M3, M4.
  assert (Gm32 : batch_cells b (fmap (up d) m) (within d 1 0)).
  { intros o i j Ho Hi Hj. cbn [fmap fget fB fC fH fW] in *. destruct (Gm o i j Ho Hi Hj) as [N B]. destruct (up_number d _ H N) as [N' V']. split; [exact N'|]. rewrite V', bpow_0, Rabs_pos_eq; lra. }
  set (Ni := Z.of_nat (side (f_idl c))) in *. set (Nn := Z.of_nat (side (f_nbl c))) in *.
  pose proof W1 as (_ & _ & Hint & _ & W1a & _). pose proof W2 as (_ & _ & _ & _ & W2a & _).
  set (In := Z.of_nat (f_int c)) in *. set (Hh := Z.of_nat h) in *. assert (RI' : (Hh * (In * (2 * Ni + 1)) + 1 <= 2 ^ sprec d)%Z) by (unfold Hh, In, Ni; lia). clear RI.
  rewrite Ew in S3, W3. cbn [fwl fwl_wf] in S3, W3. destruct W3 as (h' & (W3 & Wp & Wg) & (W4 & Wp' & Wg')). pose proof W3 as (_ & _ & Hh0 & _ & W3a & W3b). pose proof W4 as (_ & _ & _ & _ & W4a & W4b). rewrite Wg, Nat.mul_1_l in W3b. rewrite Wg', Nat.mul_1_l in W4b.
  assert (h' = h) by congruence. subst h'. assert (H1 : (1 <= Hh)%Z) by (unfold Hh; lia).
  assert (I1 : (1 <= In)%Z) by (unfold In; lia). assert (Ni0 : (0 <= Ni)%Z) by (unfold Ni; lia). assert (Nn0 : (0 <= Nn)%Z) by (unfold Nn; lia).
  assert (RR : forall n E, (0 <= n)%Z -> (n <= Hh * (In * (2 * Ni + 1)) + 1)%Z -> (0 <= E)%Z -> (E <= A + T)%Z -> room d n E) by (intros n E; unfold room; lia).
  assert (RoI : room d (Ni * 1) 0) by (apply RR; nia). assert (RoN : room d (Nn * 1) 0) by (unfold room; lia).
  assert (Bi : batch_cells b idn (within d (Ni * 1) 0)) by (eapply (conv_within d _ _ (f_idl c)); try eassumption; try lia; cbn [fmap fB]; lia).
  assert (Bn : batch_cells b nb (within d (Nn * 1) 0)) by (eapply (conv_within d _ _ (f_nbl c)); try eassumption; try lia; cbn [fmap fB]; lia).
  pose proof S1 as (_ & _ & _ & _ & _ & X1 & X2 & X3 & X4 & _). pose proof S2 as (_ & _ & _ & _ & _ & J1 & J2 & J3 & J4 & _). cbn [fmap fB fC fH fW] in X1, X3, X4, J1, J3, J4.
  assert (Cell : forall k i j, (k < f_int c)%nat -> (i < fH u)%nat -> (j < fW u)%nat ->
       let x := st (fget idn b k i j) in let y := st (fget nb b k i j) in
       Rabs (value y) <= INR (side (f_nbl c)) /\
       exists g p, f_gen c k y g /\ f_per c k y p /\ number P0 X0 g /\ number P0 X0 p /\
         let a := fsub P0 X0 (fone P0 X0) x in
         number P0 X0 a /\ tight d (fmul P0 X0 a g) /\ tight d (fmul P0 X0 x p) /\ tight d (fadd P0 X0 (st (fmul P0 X0 a g)) (st (fmul P0 X0 x p))) /\
         fget (fmap (up d) gp) b k i j = st (fadd P0 X0 (st (fmul P0 X0 a g)) (st (fmul P0 X0 x p))) /\ within d (2 * Ni + 1) A (fget (fmap (up d) gp) b k i j)).
  { intros k i j Hk Hi Hj x y. destruct (G5 b k i j Hb Hk Hi Hj) as (g & p & E1 & E2 & E3).
    assert (Xi : within d Ni 0 x) by (apply stored; [exact H|apply RR; nia|rewrite <- (Z.mul_1_r Ni); apply Bi; congruence]).
    assert (Xn : within d Nn 0 y) by (apply stored; [exact H|unfold room; lia|rewrite <- (Z.mul_1_r Nn); apply Bn; congruence]).
    assert (Xn' : number (cprec d) (cemax d) y /\ Rabs (value y) <= INR (side (f_nbl c))).
    { destruct Xn as [Xa Xb]. split; [exact Xa|]. rewrite bpow_0, Rmult_1_r in Xb. unfold Nn in Xb. rewrite <- INR_IZR_INZ in Xb. exact Xb. }
    split; [exact (proj2 Xn')|]. exists g, p. split; [exact E1|]. split; [exact E2|].
    assert (Xg : within d 1 A g) by (destruct (F6 _ _ _ Xn' E1) as [Y1 Y2]; split; [exact Y1|]; rewrite Rmult_1_l; exact Y2).
    assert (Xp : within d 1 A p) by (destruct (F7 _ _ _ Xn' E2) as [Y1 Y2]; split; [exact Y1|]; rewrite Rmult_1_l; exact Y2).
    split; [exact (proj1 Xg)|]. split; [exact (proj1 Xp)|]. intros a.
    assert (Xa : within d (1 + Ni) 0 a) by (apply sub_within; [exact H|apply RR; nia|apply one_within; exact H|exact Xi]).
    assert (X5 : within d ((1 + Ni) * 1) A (fmul P0 X0 a g)) by (rewrite <- (Z.add_0_l A); apply mul_within; [exact H|apply RR; nia|lia|lia|exact Xa|exact Xg]).
    assert (X6 : within d (Ni * 1) A (fmul P0 X0 x p)) by (rewrite <- (Z.add_0_l A); apply mul_within; [exact H|apply RR; nia|lia|lia|exact Xi|exact Xp]).
    assert (X7 : within d ((1 + Ni) * 1 + Ni * 1) A (fadd P0 X0 (st (fmul P0 X0 a g)) (st (fmul P0 X0 x p)))).
    { apply add_within; [exact H|apply RR; nia|..]; apply stored; try assumption; apply RR; nia. }
    split; [exact (proj1 Xa)|]. split; [exists ((1 + Ni) * 1)%Z, A; split; [apply RR; nia|exact X5]|]. split; [exists (Ni * 1)%Z, A; split; [apply RR; nia|exact X6]|].
    split; [exists ((1 + Ni) * 1 + Ni * 1)%Z, A; split; [apply RR; nia|exact X7]|]. cbn [fmap fget]. rewrite E3. split; [reflexivity|].
    apply stored; [exact H|apply RR; nia|]. replace (2 * Ni + 1)%Z with ((1 + Ni) * 1 + Ni * 1)%Z by lia. exact X7. }
  assert (Bg : batch_cells b (fmap (up d) gp) (within d (2 * Ni + 1) A)).
  { intros k i j Hk Hi Hj. cbn [fmap fB fC fH fW] in Hk, Hi, Hj. rewrite G2 in Hk. rewrite G3 in Hi. rewrite G4 in Hj. destruct (Cell k i j Hk Hi Hj) as (_ & g & p & _ & _ & _ & _ & _ & _ & _ & _ & _ & Z). exact Z. }
  destruct S3 as (a & S3 & S4). assert (Sd : Z.of_nat (side l1) = In) by (rewrite Wp, W3b; unfold In; lia). assert (Sd' : Z.of_nat (side l2) = Hh) by (rewrite Wp', W4b; unfold Hh; lia).
  assert (RoW : room d (Z.of_nat (side l1) * (2 * Ni + 1)) A) by (rewrite Sd; apply RR; nia).
  assert (RoW' : room d (Z.of_nat (side l2) * (Z.of_nat (side l1) * (2 * Ni + 1))) A) by (rewrite Sd, Sd'; apply RR; nia).
  assert (Ba : batch_cells b a (within d (Z.of_nat (side l1) * (2 * Ni + 1)) A)) by (eapply (conv_within d _ _ l1); try eassumption; [lia|cbn [fmap fB]; lia]).
  pose proof S3 as (_ & _ & _ & _ & _ & K1 & K2 & K3 & K4 & _). cbn [fmap fB fC fH fW] in K1, K3, K4.
  assert (Br : batch_cells b (fmap frelu a) (within d (Z.of_nat (side l1) * (2 * Ni + 1)) A)).
  { intros k i j Hk Hi Hj. cbn [fmap fget fB fC fH fW] in *. destruct (Ba k i j Hk Hi Hj) as [N D]. destruct (relu_exact _ _ _ P1 N) as [N' V']. split; [exact N'|]. rewrite V'.
    eapply Rle_trans; [|exact D]. unfold Rmax. destruct (Rle_dec _ 0); [rewrite Rabs_R0; apply Rabs_pos|apply Rle_refl]. }
  assert (Bd : batch_cells b upd (within d (Z.of_nat (side l2) * (Z.of_nat (side l1) * (2 * Ni + 1))) A)) by (eapply (conv_within d _ _ l2); try eassumption; [lia|cbn [fmap fB]; lia]).
  pose proof S4 as (_ & _ & _ & _ & _ & L1 & L2 & L3 & L4 & _). cbn [fmap fB fC fH fW] in L1, L3, L4. rewrite K1 in L1. rewrite K3 in L3. rewrite K4 in L4.
  exists l1, l2, idn, nb, (fmap (up d) gp), a, upd, (2 * Ni + 1)%Z, A, (Hh * (In * (2 * Ni + 1)) + 1)%Z, (A + T)%Z.
  split; [exact Ew|]. split; [exact S1|]. split; [exact S2|]. split; [exact S3|]. split; [exact S4|]. split; [cbn [fmap fB fC fH fW]; auto|]. split; [exact Gm32|]. split; [exact RoI|]. split; [exact RoN|].
  split; [exact RoW|]. split; [exact RoW'|]. split; [lia|]. split; [exact Bg|]. split; [exact Ba|]. split; [exact Br|].
  split; [intros k i j Hk Hi Hj; eexists _, _; split; [exact RoI|apply Bi; assumption]|].
  split; [intros k i j Hk Hi Hj; eexists _, _; split; [exact RoN|apply Bn; assumption]|].
  split; [intros k i j Hk Hi Hj; eexists _, _; split; [exact RoW'|apply Bd; assumption]|].
  split.
  { intros k i j Hk Hi Hj x y. destruct (Cell k i j Hk Hi Hj) as (Z1 & g & p & Z2 & Z3 & Z4 & Z5 & Z6 & Z7 & Z8 & Z9 & Z10 & _). split; [exact Z1|]. exists g, p. repeat (split; [assumption|]). exact Z10. }
  intros o i j Ho Hi Hj y. rewrite U5 by assumption.
  assert (Xm : within d (1 * (Hh * (In * (2 * Ni + 1)))) (T + A) (fmul P0 X0 (f_dt c) y)).
  { apply mul_within; [exact H|apply RR; nia|lia|nia| |].
    - split; [exact F4|]. rewrite Rmult_1_l. exact F5.
    - apply stored; [exact H|apply RR; nia|]. rewrite <- Sd, <- Sd'. apply Bd; congruence. }
  split; [exact (proj1 Xm)|]. split; [apply RR; nia|]. split; [|reflexivity].
  rewrite Z.add_comm. apply add_within; [exact H|apply RR; nia|..].
  - apply (within_le d 1 1 0 (A + T)); try lia. apply Gm32; cbn [fmap fB fC fH fW]; congruence.
  - rewrite (Z.add_comm A T). replace (Hh * (In * (2 * Ni + 1)))%Z with (1 * (Hh * (In * (2 * Ni + 1))))%Z by lia. exact Xm.
Qed.

(** One cell, as [step_cell] of PFloatR. *)
Section NetStep.
Variables (d : dtype) (c : fcca) (A0 T0 : Z) (m : pmode) (gs ps : list act) (h : nat) (I K A1 A2 L M alpha : R).
Hypothesis Hd : dtype_ok d.
Hypothesis Hwf : fcca_wf c.
Hypothesis Ht : tame_network d c h A0 T0.
Hypothesis Nt : number (sprec d) (semax d) (f_thr c).
Let rc := real_cca c m gs ps.
Variable Q : R.
Hypothesis HQ : K + sd d K (dot_err d (window_size (f_nbl c)) K) <= Q.
Hypothesis HI : layer_within I (idl rc).
Hypothesis HK : layer_within K (nbl rc).
Variables (n1 n2 : flayer).
Hypothesis Hn : f_wl c = FMlp n1 n2.
Hypothesis HA1 : layer_within A1 (real_layer n1).
Hypothesis HA2 : layer_within A2 (real_layer n2).
Hypothesis HL : 0 <= L.
Hypothesis Lg : forall k, (k < f_int c)%nat -> lip_on Q L (gen_at rc k).
Hypothesis Lp : forall k, (k < f_int c)%nat -> lip_on Q L (per_at rc k).
Hypothesis Mg : forall k, (k < f_int c)%nat -> bounded_on K M (gen_at rc k).
Hypothesis Mp : forall k, (k < f_int c)%nat -> bounded_on K M (per_at rc k).
Hypothesis Fg : follows d Q alpha (f_int c) gs (f_gen c).
Hypothesis Fp : follows d Q alpha (f_int c) ps (f_per c).

Lemma net_cell u u' b o i j : fstep d c u u' -> (b < fB u)%nat -> (o < fC u)%nat -> (i < fH u)%nat -> (j < fW u)%nat -> batch_cells b u (unit_number (sprec d) (semax d)) ->
  Rabs (value (fget u' b o i j) - step_val (mask_fn (thr rc)) (idl rc) (nbl rc) (cca_ufn rc) (dt rc) (real_tensor u) b o i j) <= network_err d c h I K A1 A2 L M alpha.
Proof.
  intros S Hb Ho Hi Hj Hu. destruct (dtype_c d Hd) as [P1 P2].
  assert (Ec : fC u = f_ext c) by (destruct S as [E _]; exact E).
  destruct (net_parts d c h A0 T0 u u' b Hd Hwf Ht S Hb Hu) as (l1 & l2 & idn & nb & gp & hid & upd & n & E & n' & E' & Ew & S1 & S2 & S3 & S4 & (G1 & G2 & G3 & G4) & Bm & RoI & RoN & RoW & RoW' & N0 & Bg & Ba & Br & Ti & Tn & Td & Cell & Out).
  set (mm := fmap (up d) (fmask (sprec d) (semax d) (f_thr c) u)) in *.
  destruct (mask_shape (sprec d) (semax d) (f_thr c) u) as (M1 & M2 & M3 & M4).
  assert (SB : fB mm = fB u) by exact M1. assert (SC : fC mm = fC u) by exact M2. assert (SH : fH mm = fH u) by exact M3. assert (SW : fW mm = fW u) by exact M4.
  set (mr := mval (mask_fn (thr rc)) (real_tensor u) b).
  assert (Hm : forall k i j, (k < fC mm)%nat -> (i < fH mm)%nat -> (j < fW mm)%nat -> Rabs (value (fget mm b k i j) - mr k i j) <= 0 /\ Rabs (mr k i j) <= 1).
  { intros k y x Hk Hy Hx. rewrite SC in Hk. rewrite SH in Hy. rewrite SW in Hx. destruct (mask_value d c u b k y x Hd Nt Hu Hb Hk Hy Hx) as [V B]. fold mm in V. split; [|exact B].
    rewrite V. unfold mr, rc. cbn [real_cca thr]. rewrite Rminus_diag_eq, Rabs_R0 by reflexivity. lra. }
  pose proof Hwf as (Wi & Wn & Ww). pose proof Ht as (Ci & Cn & (l1' & l2' & Ew2 & Eh & Cw & Cw') & Ndt & _). rewrite Ew in Ew2. injection Ew2 as <- <-. rewrite Ew in Hn. injection Hn as <- <-.
  pose proof Wi as (_ & _ & Hint & _ & BI & _). pose proof Wn as (_ & _ & _ & _ & BN & _).
  set (vR := fun k y x => convf (idl rc) (fH u) (fW u) mr k y x). set (wR := fun k y x => convf (nbl rc) (fH u) (fW u) mr k y x).
  set (gR := fun k y x => (1 - vR k y x) * gen_at rc k (wR k y x) + vR k y x * per_at rc k (wR k y x)).
  set (Ei := id_err d (window_size (f_idl c)) I). set (Eg := growth_err d (window_size (f_nbl c)) K L alpha).
  set (E4 := mixed_err d (window_size (f_idl c)) (window_size (f_nbl c)) I K L M alpha).
  assert (Gr : forall k y x, (k < f_int c)%nat -> (y < fH u)%nat -> (x < fW u)%nat -> Rabs (value (fget gp b k y x) - gR k y x) <= E4 /\ Rabs (gR k y x) <= (1 + 2 * I) * M).
  { intros k y x Hk Hy Hx.
    assert (KI : (k < fB (fl_w (f_idl c)))%nat) by congruence. assert (KN : (k < fB (fl_w (f_nbl c)))%nat) by congruence.
    pose proof S1 as (_ & _ & _ & _ & _ & I1 & I2 & I3 & I4 & _). pose proof S2 as (_ & _ & _ & _ & _ & J1 & J2 & J3 & J4 & _).
    assert (vB : Rabs (vR k y x) <= I).
    { pose proof (conv_real_bound d _ _ (f_idl c) mm idn b mr 1 0 I Wi S1 ltac:(lia) Hm HI ltac:(lra) ltac:(lra) k y x KI ltac:(lia) ltac:(lia)) as Z. rewrite Rmult_1_r, SH, SW in Z. exact Z. }
    assert (wB : Rabs (wR k y x) <= K).
    { pose proof (conv_real_bound d _ _ (f_nbl c) mm nb b mr 1 0 K Wn S2 ltac:(lia) Hm HK ltac:(lra) ltac:(lra) k y x KN ltac:(lia) ltac:(lia)) as Z. rewrite Rmult_1_r, SH, SW in Z. exact Z. }
    assert (vE : Rabs (value (fget idn b k y x) - vR k y x) <= dot_err d (window_size (f_idl c)) I).
    { pose proof (conv_error d _ _ (f_idl c) mm idn b mr 1 0 I Hd Wi Ci S1 ltac:(lia) Hm HI ltac:(lra) ltac:(lra) k y x 1%Z 0%Z RoI ltac:(lia) Bm KI ltac:(lia) ltac:(lia)) as Z.
      rewrite SH, SW, Rmult_0_r, Rplus_0_l, Rplus_0_r, Rmult_1_r in Z. exact Z. }
    assert (wE : Rabs (value (fget nb b k y x) - wR k y x) <= dot_err d (window_size (f_nbl c)) K).
    { pose proof (conv_error d _ _ (f_nbl c) mm nb b mr 1 0 K Hd Wn Cn S2 ltac:(lia) Hm HK ltac:(lra) ltac:(lra) k y x 1%Z 0%Z RoN ltac:(lia) Bm KN ltac:(lia) ltac:(lia)) as Z.
      rewrite SH, SW, Rmult_0_r, Rplus_0_l, Rplus_0_r, Rmult_1_r in Z. exact Z. }
    destruct (Cell k y x Hk Hy Hx) as (_ & g & p & Rg & Rp & Ng & Np & Na & T1 & T2 & T3 & Eq).
    assert (Tx : tight d (fget idn b k y x)) by (apply Ti; congruence). assert (Ty : tight d (fget nb b k y x)) by (apply Tn; congruence).
    set (fx := up d (down d (fget idn b k y x))) in *. set (fy := up d (down d (fget nb b k y x))) in *.
    assert (xE : Rabs (value fx - vR k y x) <= Ei) by (apply sd_stored; assumption).
    assert (yE : Rabs (value fy - wR k y x) <= sd d K (dot_err d (window_size (f_nbl c)) K)) by (apply sd_stored; assumption).
    assert (Yq : Rabs (value fy) <= Q) by (replace (value fy) with ((value fy - wR k y x) + wR k y x) by ring; eapply Rle_trans; [apply Rabs_triang|]; lra).
    assert (KQ : K <= Q) by (pose proof (Rabs_pos (value fy - wR k y x)); lra).
    assert (Nx : number (cprec d) (cemax d) fx) by (apply tight_number, tight_stored; assumption). assert (Ny : number (cprec d) (cemax d) fy) by (apply tight_number, tight_stored; assumption).
    assert (Gen : forall f fs r, lip_on Q L (r k) -> (forall z, r k z = act_fn (nth k fs AIdentity) z) -> follows d Q alpha (f_int c) fs f -> forall z, f k fy z -> Rabs (value z - r k (wR k y x)) <= Eg).
    { intros f fs r Lh Hh Fh z Hz. pose proof (Fh k fy z Hk Ny Yq Hz) as Z1. rewrite <- Hh in Z1. pose proof (Lh (value fy) (wR k y x) Yq ltac:(lra)) as Z2.
      apply (Rmult_le_compat_l L) in yE; [|exact HL]. replace (value z - r k (wR k y x)) with ((value z - r k (value fy)) + (r k (value fy) - r k (wR k y x))) by ring.
      eapply Rle_trans; [apply Rabs_triang|]. unfold Eg, growth_err. lra. }
    assert (gE : Rabs (value g - gen_at rc k (wR k y x)) <= Eg) by (apply (Gen (f_gen c) gs (gen_at rc)); [apply Lg; exact Hk|intros; reflexivity|exact Fg|exact Rg]).
    assert (pE : Rabs (value p - per_at rc k (wR k y x)) <= Eg) by (apply (Gen (f_per c) ps (per_at rc)); [apply Lp; exact Hk|intros; reflexivity|exact Fp|exact Rp]).
    assert (gB : Rabs (gen_at rc k (wR k y x)) <= M) by (apply (Mg k Hk); lra). assert (pB : Rabs (per_at rc k (wR k y x)) <= M) by (apply (Mp k Hk); lra).
    set (gg := gen_at rc k (wR k y x)) in *. set (pp := per_at rc k (wR k y x)) in *. set (v := vR k y x) in *.
    destruct (one_number _ _ P1 P2) as [N1 V1].
    assert (aB : Rabs (1 - v) <= 1 + I) by (unfold Rabs in *; destruct (Rcase_abs v); destruct (Rcase_abs (1 - v)); lra).
    assert (aE : Rabs (value (fsub (cprec d) (cemax d) (fone (cprec d) (cemax d)) fx) - (1 - v)) <= rd d (1 + I) Ei).
    { eapply rd_result; [apply sub_result; assumption|exact (proj1 Na)| |exact aB]. rewrite V1. replace (1 - value fx - (1 - v)) with (- (value fx - v)) by ring. rewrite Rabs_Ropp. exact xE. }
    set (fa := fsub (cprec d) (cemax d) (fone (cprec d) (cemax d)) fx) in *.
    assert (B2 : Rabs ((1 - v) * gg) <= (1 + I) * M) by (apply abs_prod; assumption). assert (B3 : Rabs (v * pp) <= I * M) by (apply abs_prod; assumption).
    assert (E2 : Rabs (value (up d (down d (fmul (cprec d) (cemax d) fa g))) - (1 - v) * gg) <= sd d ((1 + I) * M) (rd d ((1 + I) * M) ((1 + I) * Eg + rd d (1 + I) Ei * (M + Eg)))).
    { apply sd_stored; [exact Hd|exact T1| |exact B2]. eapply rd_result; [apply mul_result; assumption|exact (proj1 (tight_number _ _ T1))| |exact B2]. apply prod_err; assumption. }
    assert (E3 : Rabs (value (up d (down d (fmul (cprec d) (cemax d) fx p))) - v * pp) <= sd d (I * M) (rd d (I * M) (I * Eg + Ei * (M + Eg)))).
    { apply sd_stored; [exact Hd|exact T2| |exact B3]. eapply rd_result; [apply mul_result; assumption|exact (proj1 (tight_number _ _ T2))| |exact B3]. apply prod_err; assumption. }
    assert (B4 : Rabs (gR k y x) <= (1 + 2 * I) * M) by (unfold gR; fold v gg pp; eapply Rle_trans; [apply Rabs_triang|]; lra).
    split; [|exact B4]. rewrite Eq. unfold E4, mixed_err. cbv zeta. apply sd_stored; [exact Hd|exact T3| |exact B4].
    eapply rd_result; [apply add_result; try assumption; apply tight_number, tight_stored; assumption|exact (proj1 (tight_number _ _ T3))| |exact B4].
    unfold gR. fold v gg pp. set (z1 := value (up d (down d (fmul (cprec d) (cemax d) fa g)))) in *. set (z2 := value (up d (down d (fmul (cprec d) (cemax d) fx p)))) in *.
    replace (z1 + z2 - ((1 - v) * gg + v * pp)) with ((z1 - (1 - v) * gg) + (z2 - v * pp)) by ring. eapply Rle_trans; [apply Rabs_triang|]. apply Rplus_le_compat; assumption. }
  rewrite Ew in Ww. cbn [fwl_wf] in Ww. destruct Ww as (h' & Ww1 & Ww2). pose proof Ww1 as (Wl1 & Wp1 & Wg1). pose proof Wl1 as (_ & _ & Hh0 & _ & BW1 & CW1). rewrite Wg1, Nat.mul_1_l in CW1. pose proof Ww2 as (Wl2 & Wp2 & Wg2). pose proof Wl2 as (_ & _ & _ & _ & BW2 & CW2). rewrite Wg2, Nat.mul_1_l in CW2.
  assert (h' = h) by congruence. subst h'.
  pose proof S3 as (_ & K2 & K3 & _ & _ & L1 & L2 & L3 & L4 & _). rewrite Wp1 in K2, K3. pose proof S4 as (_ & K2' & K3' & _ & _ & L1' & L2' & L3' & L4' & _). rewrite Wp2 in K2', K3'. cbn [fmap fB fC fH fW] in L1', L3', L4'.
  assert (OW : (o < fB (fl_w l2))%nat) by congruence.
  assert (Hg : forall k y x, (k < fC gp)%nat -> (y < fH gp)%nat -> (x < fW gp)%nat -> Rabs (value (fget gp b k y x) - gR k y x) <= E4 /\ Rabs (gR k y x) <= (1 + 2 * I) * M) by (rewrite G2, G3, G4; exact Gr).
  destruct (Gr 0%nat i j Hint Hi Hj) as [Z1 Z2]. assert (E40 : 0 <= E4) by (eapply Rle_trans; [apply Rabs_pos|exact Z1]). assert (B40 : 0 <= (1 + 2 * I) * M) by (eapply Rle_trans; [apply Rabs_pos|exact Z2]).
  assert (Sz1 : side l1 = f_int c) by (rewrite Wp1, CW1; cbn; lia). assert (Sz2 : side l2 = h) by (rewrite Wp2, CW2; cbn; lia).
  set (B0 := (1 + 2 * I) * M) in *. set (Eh1 := A1 * E4 + dot_err d (f_int c) (A1 * (B0 + E4))).
  set (hR := fun k y x => Rmax (pt_fn (real_layer l1) (fun k => gR k y x) k) 0).
  assert (Hh : forall k y x, (k < fC (fmap frelu hid))%nat -> (y < fH (fmap frelu hid))%nat -> (x < fW (fmap frelu hid))%nat -> Rabs (value (fget (fmap frelu hid) b k y x) - hR k y x) <= Eh1 /\ Rabs (hR k y x) <= A1 * B0).
  { intros k y x Hk Hy Hx. cbn [fmap fget fC fH fW] in Hk, Hy, Hx |- *. rewrite L2 in Hk. rewrite L3 in Hy. rewrite L4 in Hx.
    pose proof (conv_real_bound d _ _ l1 gp hid b gR _ _ A1 Wl1 S3 ltac:(lia) Hg HA1 B40 E40 k y x Hk Hy Hx) as hB.
    pose proof (conv_error d _ _ l1 gp hid b gR _ _ A1 Hd Wl1 Cw S3 ltac:(lia) Hg HA1 B40 E40 k y x n E RoW N0 Bg Hk Hy Hx) as hE.
    rewrite (conv_pt l1 _ _ gR k y x _ _ Ww1 ltac:(lia) ltac:(lia) Hk Hy Hx) in hB, hE. rewrite Sz1 in hE. fold Eh1 in hE.
    destruct (Ba k y x ltac:(lia) ltac:(lia) ltac:(lia)) as [Nh _]. destruct (relu_exact _ _ _ P1 Nh) as [_ Vh]. rewrite Vh. unfold hR. split; [eapply Rle_trans; [apply relu_lip|exact hE]|].
    eapply Rle_trans; [|exact hB]. unfold Rmax. destruct (Rle_dec _ 0); [rewrite Rabs_R0; apply Rabs_pos|apply Rle_refl]. }
  destruct (Hh 0%nat i j) as [Z3 Z4]; [cbn [fmap fC fH fW]; lia..|]. assert (Eh0 : 0 <= Eh1) by (eapply Rle_trans; [apply Rabs_pos|exact Z3]). assert (Bh0 : 0 <= A1 * B0) by (eapply Rle_trans; [apply Rabs_pos|exact Z4]).
  pose proof (conv_real_bound d _ _ l2 (fmap frelu hid) upd b hR _ _ A2 Wl2 S4 ltac:(cbn [fmap fB]; lia) Hh HA2 Bh0 Eh0 o i j OW ltac:(cbn [fmap fH]; lia) ltac:(cbn [fmap fW]; lia)) as uB.
  pose proof (conv_error d _ _ l2 (fmap frelu hid) upd b hR _ _ A2 Hd Wl2 Cw' S4 ltac:(cbn [fmap fB]; lia) Hh HA2 Bh0 Eh0 o i j _ E RoW' ltac:(lia) Br OW ltac:(cbn [fmap fH]; lia) ltac:(cbn [fmap fW]; lia)) as uE.
  rewrite (conv_pt l2 _ _ hR o i j _ _ Ww2 ltac:(lia) ltac:(lia) OW) in uB, uE by (cbn [fmap fH fW]; lia). rewrite Sz2 in uE.
  assert (Uf : cca_ufn rc (fun k => convf (idl rc) (fH u) (fW u) mr k i j) (fun k => convf (nbl rc) (fH u) (fW u) mr k i j) o = pt_fn (real_layer l2) (fun k => hR k i j) o).
  { unfold cca_ufn, rc. cbn [real_cca wl]. rewrite Ew. reflexivity. }
  set (uR := pt_fn (real_layer l2) (fun k => hR k i j) o) in *. set (B := A1 * B0) in *.
  assert (Td1 : tight d (fget upd b o i j)) by (apply Td; congruence).
  pose proof (sd_stored d _ uR (A2 * B) _ Hd Td1 uE uB) as sE. set (E5 := sd d (A2 * B) _) in sE.
  destruct (Out o i j Ho Hi Hj) as (Nm & Rm' & Wm & Fin). set (fy := up d (down d (fget upd b o i j))) in *. set (t := Rabs (value (f_dt c))).
  assert (Ny : number (cprec d) (cemax d) fy) by (apply tight_number, tight_stored; assumption).
  assert (dB : Rabs (value (f_dt c) * uR) <= t * (A2 * B)) by (apply abs_prod; [apply Rle_refl|exact uB]).
  assert (dE : Rabs (value (fmul (cprec d) (cemax d) (f_dt c) fy) - value (f_dt c) * uR) <= rd d (t * (A2 * B)) (t * E5)).
  { eapply rd_result; [apply mul_result; assumption|exact (proj1 Nm)| |exact dB]. rewrite <- Rmult_minus_distr_l, Rabs_mult. apply Rmult_le_compat_l; [apply Rabs_pos|exact sE]. }
  destruct (Hm o i j ltac:(lia) ltac:(lia) ltac:(lia)) as [mE mB]. assert (mE' : value (fget mm b o i j) = mr o i j) by (unfold Rabs in mE; destruct (Rcase_abs _) in mE; lra).
  assert (sB : Rabs (mr o i j + value (f_dt c) * uR) <= 1 + t * (A2 * B)) by (eapply Rle_trans; [apply Rabs_triang|]; lra).
  assert (Nmm : number (cprec d) (cemax d) (fget mm b o i j)) by (apply Bm; lia).
  assert (aE : Rabs (value (fadd (cprec d) (cemax d) (fget mm b o i j) (fmul (cprec d) (cemax d) (f_dt c) fy)) - (mr o i j + value (f_dt c) * uR)) <= rd d (1 + t * (A2 * B)) (rd d (t * (A2 * B)) (t * E5))).
  { eapply rd_result; [apply add_result; assumption|exact (proj1 (proj1 Wm))| |exact sB]. rewrite mE'. replace (mr o i j + value (fmul (cprec d) (cemax d) (f_dt c) fy) - (mr o i j + value (f_dt c) * uR)) with (value (fmul (cprec d) (cemax d) (f_dt c) fy) - value (f_dt c) * uR) by ring. exact dE. }
  unfold step_val. change (tH (real_tensor u)) with (fH u). change (tW (real_tensor u)) with (fW u). fold mr. rewrite Uf. change (dt rc) with (value (f_dt c)).
  rewrite Fin. set (s := fadd (cprec d) (cemax d) (fget mm b o i j) (fmul (cprec d) (cemax d) (f_dt c) fy)) in *.
  assert (Ns : number (cprec d) (cemax d) s) by exact (proj1 Wm).
  assert (cE : Rabs (value (fclamp (cprec d) (cemax d) s) - clamp 0 1 (mr o i j + value (f_dt c) * uR)) <= rd d (1 + t * (A2 * B)) (rd d (t * (A2 * B)) (t * E5))).
  { rewrite (clamp_value _ _ P1 P2 s Ns). eapply Rle_trans; [apply clamp_lip|exact aE]. }
  assert (cB : Rabs (clamp 0 1 (mr o i j + value (f_dt c) * uR)) <= 1) by (unfold clamp, Rmin, Rmax, Rabs; repeat (destruct (Rle_dec _ _) || destruct (Rcase_abs _)); lra).
  destruct (clamp_not_nan _ _ P1 P2 s (proj2 Ns)) as [Nc Bc]; [intros X; rewrite X in Ns; exact (proj1 Ns)|].
  destruct (down_unit d _ Hd (conj Nc Bc)) as [Nd Bd].
  assert (Tc : tight d (fclamp (cprec d) (cemax d) s)).
  { exists 1%Z, 0%Z. split; [|split; [exact Nc|rewrite bpow_0, Rabs_pos_eq; lra]]. destruct Rm' as (_ & R2 & R3 & R4). destruct (dtype_s d Hd). split; [lia|]. split; [|split; [lia|lia]].
    change 1%Z with (2 ^ 0)%Z. apply Z.pow_le_mono_r; lia. }
  pose proof (sd_stored d _ _ 1 _ Hd Tc cE cB) as Fe. destruct (up_number d _ Hd Nd) as [_ Vu]. rewrite Vu in Fe.
  eapply Rle_trans; [exact Fe|]. apply Req_le. unfold network_err. cbv zeta. fold t E4 B0. fold B. unfold E5, Eh1. reflexivity.
Qed.
End NetStep.

Lemma net_close d c h l1 l2 A0 T0 m gs ps I K A1 A2 Q L M alpha u u' v : dtype_ok d -> fcca_wf c -> tame_network d c h A0 T0 -> number (sprec d) (semax d) (f_thr c) ->
  f_wl c = FMlp l1 l2 -> layer_within A1 (real_layer l1) -> layer_within A2 (real_layer l2) -> rule_bounds d c gs ps I K (A1 * A2) Q L M alpha -> cells u (unit_number (sprec d) (semax d)) -> fstep d c u u' -> (0 < fH u)%nat -> (0 < fW u)%nat ->
  cca_forward (real_cca c m gs ps) (real_tensor u) = Ok v -> shape (real_tensor u') = shape v /\ close (network_err d c h I K A1 A2 L M alpha) (real_tensor u') v.
Proof.
  intros Hd W Ht Nt Ew W1 W2 (BI & BK & BA & HQ & HL & HM & Lg & Lp & G1 & G2 & G3 & G4 & F1 & F2) Hu S HH HW E. rewrite (real_accepts d c m gs ps u u' W S HH HW) in E.
  destruct (cca_chk _); [|discriminate E]. cbn [bind] in E. injection E as <-. destruct (step_same _ _ _ _ S) as (S1 & S2 & S3 & S4). split; [unfold shape, real_tensor; cbn; congruence|].
  intros b o i j. cbn [build tB tC tH tW]. intros Hb Ho Hi Hj. rewrite get_build by assumption. rewrite real_get by congruence. 
  assert (N : forall (fns : list act) k, length fns = f_int c -> (k < f_int c)%nat -> In (nth k fns AIdentity) fns) by (intros fns k El Hk; apply nth_In; lia).
  apply (net_cell d c A0 T0 m gs ps h I K A1 A2 L M alpha Hd W Ht Nt Q HQ BI BK l1 l2 Ew W1 W2 HL); try assumption; try (intros k Hk; first [apply G1, N; assumption|apply G2, N; assumption|apply G3, N; assumption|apply G4, N; assumption]).
  intros c' i' j' X1 X2 X3. apply Hu; assumption.
Qed.

Lemma net_run_near d c h l1 l2 A0 T0 m gs ps I K A1 A2 Q L M alpha q : dtype_ok d -> fcca_wf c -> tame_network d c h A0 T0 -> number (sprec d) (semax d) (f_thr c) ->
  f_wl c = FMlp l1 l2 -> layer_within A1 (real_layer l1) -> layer_within A2 (real_layer l2) -> rule_bounds d c gs ps I K (A1 * A2) Q L M alpha -> 0 <= q -> spreads q (cca_forward (real_cca c m gs ps)) -> 
  forall n u u', fruns d c n u u' -> cells u (unit_number (sprec d) (semax d)) -> (0 < fB u)%nat -> (0 < fH u)%nat -> (0 < fW u)%nat -> (fC u < 4)%nat ->
  forall e v v', 0 <= e -> SLip.near e (real_tensor u) v -> iter_res (cca_forward (real_cca c m gs ps)) n v = Ok v' ->
  cells u' (unit_number (sprec d) (semax d)) /\ (fB u' = fB u /\ fC u' = fC u /\ fH u' = fH u /\ fW u' = fW u) /\ 0 <= grown q (network_err d c h I K A1 A2 L M alpha) e n /\ SLip.near (grown q (network_err d c h I K A1 A2 L M alpha) e n) (real_tensor u') v'.
Proof.
  intros Hd W Ht Nt Ew W1 W2 Rb Hq Sp n u u' R Hu HB HH HW HC. induction R as [u|n u w w' R IH S]; intros e v v' He Nv E.
  - cbn in E. injection E as <-. split; [exact Hu|]. split; [repeat split; reflexivity|]. split; [exact He|exact Nv].
  - destruct (iter_res_last _ _ _ _ E) as (x & E1 & E2). destruct (IH Hu HB HH HW HC e v x He Nv E1) as (Cw & (X1 & X2 & X3 & X4) & G0 & Nx).
    destruct (Sp _ x (real_tensor w) G0) as [Sp1 _]; [|apply near_sym, Nx|].
    { destruct Nx as (_ & _ & Sx & _). unfold shape in Sx. injection Sx as _ Sx _ _. rewrite <- Sx. change (tC (real_tensor w)) with (fC w). lia. }
    destruct (Sp1 _ E2) as (z & Ez & Nz). destruct (net_close d c h l1 l2 A0 T0 m gs ps I K A1 A2 Q L M alpha w w' z Hd W Ht Nt Ew W1 W2 Rb Cw S ltac:(lia) ltac:(lia) Ez) as [Sh Cl].
    destruct (step_same _ _ _ _ S) as (S1 & S2 & S3 & S4).
    assert (Cw' : cells w' (unit_number (sprec d) (semax d))).
    { intros b o i j Hb Ho Hi Hj. rewrite S1 in Hb. apply (step_net d c h A0 T0 w w' b Hd W Ht S Hb); try assumption. intros o' i' j' Y1 Y2 Y3. apply Cw; assumption. }
    assert (Ge : 0 <= network_err d c h I K A1 A2 L M alpha).
    { assert (Hc : (0 < fC w)%nat) by (destruct W as ((_ & _ & _ & Wp & _) & _), S as (Ec & _); lia).
      unfold shape in Sh. injection Sh as Y1 Y2 Y3 Y4. cbn in Y1, Y2, Y3, Y4. eapply Rle_trans; [apply Rabs_pos|]. apply (Cl 0%nat 0%nat 0%nat 0%nat); lia. }
    split; [exact Cw'|]. split; [repeat split; congruence|]. cbn [grown]. split; [assert (0 <= q * grown q (network_err d c h I K A1 A2 L M alpha) e n) by (apply Rmult_le_pos; assumption); lra|].
    destruct Nz as (T1 & T2 & Sz & U1 & U2 & D). split; [apply real_tensor_twf|]. split; [exact T1|]. split; [congruence|]. split; [apply (real_unit d); assumption|]. split; [exact U1|].
    intros b o i j Hb Ho Hi Hj. replace (get (real_tensor w') b o i j - get v' b o i j) with ((get (real_tensor w') b o i j - get z b o i j) + (get z b o i j - get v' b o i j)) by ring.
    assert (shape v' = shape (real_tensor w')) as Sv by congruence. unfold shape in Sh, Sv. injection Sh as Y1 Y2 Y3 Y4. injection Sv as V1 V2 V3 V4. cbn in Hb, Ho, Hi, Hj, Y1, Y2, Y3, Y4, V1, V2, V3, V4.
    eapply Rle_trans; [apply Rabs_triang|]. rewrite Rplus_comm. apply Rplus_le_compat; [rewrite Rabs_minus_sym; apply D; lia|apply Cl; lia].
Qed.
