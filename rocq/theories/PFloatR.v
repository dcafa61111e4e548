(** A step in floats against the step in real numbers. *)
From Coq Require Import Reals ZArith List Bool Lia Lra Arith Floats.SpecFloat.
From Verif Require Import Base Tensor MActivations MCommon MCca MFloat SGrid SCca SLip SLife SFloat SRound PTensor PStep PCca PLip PFloat PFloatX PFloatY PFloatZ PFloatE.
Import ListNotations.
Open Scope R_scope.

Lemma mask_value d c u b k i j : dtype_ok d -> number (sprec d) (semax d) (f_thr c) -> batch_cells b u (unit_number (sprec d) (semax d)) ->
  (b < fB u)%nat -> (k < fC u)%nat -> (i < fH u)%nat -> (j < fW u)%nat ->
  value (fget (fmap (up d) (fmask (sprec d) (semax d) (f_thr c) u)) b k i j) = mval (mask_fn (value (f_thr c))) (real_tensor u) b k i j /\
  Rabs (mval (mask_fn (value (f_thr c))) (real_tensor u) b k i j) <= 1.
Proof.
  intros H Nt Hu Hb Hk Hi Hj. destruct (dtype_s d H) as [Q1 Q2]. destruct (Hu k i j Hk Hi Hj) as [N B].
  assert (E : value (fget (fmask (sprec d) (semax d) (f_thr c) u) b k i j) = mval (mask_fn (value (f_thr c))) (real_tensor u) b k i j).
  { unfold mval, mask_fn, fmask. change (tC (real_tensor u)) with (fC u). rewrite !real_get by assumption. destruct (Nat.leb_spec 4 (fC u)) as [L|L]; [|reflexivity].
    cbn [fget]. rewrite real_get by (auto; lia). destruct (Hu 3%nat i j ltac:(lia) Hi Hj) as [N3 _]. pose proof (ltb_number _ _ Q1 _ _ Nt N3) as LT.
    destruct (one_number _ _ Q1 Q2) as [O1 O2]. destruct (number_rep _ _ Q1 _ N) as [R1 R2].
    destruct (SFltb (f_thr c) (fget u b 3 i j)).
    - pose proof (mul_result _ _ Q1 Q2 _ _ N O1) as R. rewrite O2, Rmult_1_r in R. destruct (result_exact _ _ _ _ R R1 R2) as [_ V]. fold (fmul (sprec d) (semax d)) in V. rewrite V.
      destruct (Rlt_dec _ _) as [_|X]; [ring|]. exfalso. apply X. apply LT. reflexivity.
    - assert (Z1 : number (sprec d) (semax d) fzero) by (split; [exact Logic.I|reflexivity]).
      pose proof (mul_result _ _ Q1 Q2 _ _ N Z1) as R. change (value fzero) with 0 in R. rewrite Rmult_0_r in R.
      destruct (result_exact _ _ _ _ R (rep_0 _ _)) as [_ V]; [rewrite Rabs_R0; apply bpow_pos|]. fold (fmul (sprec d) (semax d)) in V. rewrite V.
      destruct (Rlt_dec _ _) as [X|_]; [|ring]. apply LT in X. discriminate X. }
  destruct (mask_unit _ _ (f_thr c) u b Q1 Q2 Hu k i j) as [Nm Bm]; try (destruct (mask_shape (sprec d) (semax d) (f_thr c) u) as (M1 & M2 & M3 & M4); congruence).
  cbn [fmap fget]. destruct (up_number d _ H Nm) as [_ V]. rewrite V, <- E. split; [reflexivity|]. rewrite Rabs_pos_eq; lra.
Qed.

Lemma conv_pt l H W f o i j n e : fpt_layer n e l -> fH (fl_w l) = 1%nat -> fW (fl_w l) = 1%nat -> (o < fB (fl_w l))%nat -> (i < H)%nat -> (j < W)%nat ->
  convf (real_layer l) H W f o i j = pt_fn (real_layer l) (fun k => f k i j) o.
Proof.
  intros ((G & (q & Q) & _ & _ & HB & HE) & P & G1) H1 W1 Ho Hi Hj. unfold convf, pt_fn. cbv zeta. cbn [real_layer cl_w cl_g cl_p cl_m real_tensor tB tC tH tW build]. rewrite H1, W1. apply rsum_ext. intros k Hk. cbn [rsum].
  rewrite !Rplus_0_l, !Nat.add_0_r. rewrite G1, Nat.div_1_r, Nat.div_small, Nat.mul_0_l, Nat.add_0_l by exact Ho. f_equal.
  unfold pval. rewrite P, !pad_src_0 by assumption. reflexivity.
Qed.

Section Step.
Variables (d : dtype) (c : fcca) (A0 T0 : Z) (m : pmode) (gs ps : list act) (I K A L M alpha : R).
Hypothesis Hd : dtype_ok d.
Hypothesis Hwf : fcca_wf c.
Hypothesis Ht : tame_rule d c A0 T0.
Hypothesis Nt : number (sprec d) (semax d) (f_thr c).
Let rc := real_cca c m gs ps.
Variable Q : R.
Hypothesis HQ : K + sd d K (dot_err d (window_size (f_nbl c)) K) <= Q.
Hypothesis HI : layer_within I (idl rc).
Hypothesis HK : layer_within K (nbl rc).
Hypothesis HA : wl_within A (wl rc).
Hypothesis HL : 0 <= L.
Hypothesis Lg : forall k, (k < f_int c)%nat -> lip_on Q L (gen_at rc k).
Hypothesis Lp : forall k, (k < f_int c)%nat -> lip_on Q L (per_at rc k).
Hypothesis Mg : forall k, (k < f_int c)%nat -> bounded_on K M (gen_at rc k).
Hypothesis Mp : forall k, (k < f_int c)%nat -> bounded_on K M (per_at rc k).
Hypothesis Fg : follows d Q alpha (f_int c) gs (f_gen c).
Hypothesis Fp : follows d Q alpha (f_int c) ps (f_per c).
Notation err := (step_err d (window_size (f_idl c)) (window_size (f_nbl c)) (f_int c) I K A L M alpha (Rabs (value (f_dt c)))).

Lemma step_cell u u' b o i j : fstep d c u u' -> (b < fB u)%nat -> (o < fC u)%nat -> (i < fH u)%nat -> (j < fW u)%nat -> batch_cells b u (unit_number (sprec d) (semax d)) ->
  Rabs (value (fget u' b o i j) - step_val (mask_fn (thr rc)) (idl rc) (nbl rc) (cca_ufn rc) (dt rc) (real_tensor u) b o i j) <= err.
Proof.
  intros S Hb Ho Hi Hj Hu. destruct (dtype_c d Hd) as [P1 P2].
  assert (Ec : fC u = f_ext c) by (destruct S as [E _]; exact E).
  destruct (step_parts d c A0 T0 u u' b Hd Hwf Ht S Hb Hu) as (wlay & idn & nb & gp & upd & n & E & n' & E' & Ew & S1 & S2 & S3 & (G1 & G2 & G3 & G4) & Bm & RoI & RoN & RoW & N0 & Bg & Ti & Tn & Td & Cell & Out).
  set (mm := fmap (up d) (fmask (sprec d) (semax d) (f_thr c) u)) in *.
  destruct (mask_shape (sprec d) (semax d) (f_thr c) u) as (M1 & M2 & M3 & M4).
  assert (SB : fB mm = fB u) by exact M1. assert (SC : fC mm = fC u) by exact M2. assert (SH : fH mm = fH u) by exact M3. assert (SW : fW mm = fW u) by exact M4.
  set (mr := mval (mask_fn (thr rc)) (real_tensor u) b).
  assert (Hm : forall k i j, (k < fC mm)%nat -> (i < fH mm)%nat -> (j < fW mm)%nat -> Rabs (value (fget mm b k i j) - mr k i j) <= 0 /\ Rabs (mr k i j) <= 1).
  { intros k y x Hk Hy Hx. rewrite SC in Hk. rewrite SH in Hy. rewrite SW in Hx. destruct (mask_value d c u b k y x Hd Nt Hu Hb Hk Hy Hx) as [V B]. fold mm in V. split; [|exact B].
    rewrite V. unfold mr, rc. cbn [real_cca thr]. rewrite Rminus_diag_eq, Rabs_R0 by reflexivity. lra. }
  pose proof Hwf as (Wi & Wn & Ww). pose proof Ht as (Ci & Cn & (wl2 & Ew2 & Cw) & Ndt & _). rewrite Ew in Ew2. injection Ew2 as <-.
  pose proof Wi as (_ & _ & Hint & _ & BI & _). pose proof Wn as (_ & _ & _ & _ & BN & _).
  set (vR := fun k y x => convf (idl rc) (fH u) (fW u) mr k y x). set (wR := fun k y x => convf (nbl rc) (fH u) (fW u) mr k y x).
  set (gR := fun k y x => (1 - vR k y x) * gen_at rc k (wR k y x) + vR k y x * per_at rc k (wR k y x)).
  set (Ei := id_err d (window_size (f_idl c)) I). set (Eg := growth_err d (window_size (f_nbl c)) K L alpha).
  set (E4 := mixed_err d (window_size (f_idl c)) (window_size (f_nbl c)) I K L M alpha).
  assert (Gr : forall k y x, (k < f_int c)%nat -> (y < fH u)%nat -> (x < fW u)%nat -> Rabs (value (fget gp b k y x) - gR k y x) <= E4 /\ Rabs (gR k y x) <= (1 + 2 * I) * M).
  { intros k y x Hk Hy Hx.
    assert (KI : (k < fB (fl_w (f_idl c)))%nat) by congruence. assert (KN : (k < fB (fl_w (f_nbl c)))%nat) by congruence.
    pose proof S1 as (_ & _ & _ & _ & _ & I1 & I2 & I3 & I4 & _). pose proof S2 as (_ & _ & _ & _ & _ & J1 & J2 & J3 & J4 & _).
    assert (vB : Rabs (vR k y x) <= I).
    { pose proof (conv_real_bound d _ _ (f_idl c) mm idn b mr 1 0 I Wi S1 ltac:(lia) Hm HI ltac:(lra) ltac:(lra) k y x KI ltac:(lia) ltac:(lia)) as Z. rewrite Rmult_1_r, SH, SW in Z. exact Z. }
    assert (wB : Rabs (wR k y x) <= K).
    { pose proof (conv_real_bound d _ _ (f_nbl c) mm nb b mr 1 0 K Wn S2 ltac:(lia) Hm HK ltac:(lra) ltac:(lra) k y x KN ltac:(lia) ltac:(lia)) as Z. rewrite Rmult_1_r, SH, SW in Z. exact Z. }
    assert (vE : Rabs (value (fget idn b k y x) - vR k y x) <= dot_err d (window_size (f_idl c)) I).
    { pose proof (conv_error d _ _ (f_idl c) mm idn b mr 1 0 I Hd Wi Ci S1 ltac:(lia) Hm HI ltac:(lra) ltac:(lra) k y x 1%Z 0%Z RoI ltac:(lia) Bm KI ltac:(lia) ltac:(lia)) as Z.
      rewrite SH, SW, Rmult_0_r, Rplus_0_l, Rplus_0_r, Rmult_1_r in Z. exact Z. }
    assert (wE : Rabs (value (fget nb b k y x) - wR k y x) <= dot_err d (window_size (f_nbl c)) K).
    { pose proof (conv_error d _ _ (f_nbl c) mm nb b mr 1 0 K Hd Wn Cn S2 ltac:(lia) Hm HK ltac:(lra) ltac:(lra) k y x 1%Z 0%Z RoN ltac:(lia) Bm KN ltac:(lia) ltac:(lia)) as Z.
      rewrite SH, SW, Rmult_0_r, Rplus_0_l, Rplus_0_r, Rmult_1_r in Z. exact Z. }
    destruct (Cell k y x Hk Hy Hx) as (_ & g & p & Rg & Rp & Ng & Np & Na & T1 & T2 & T3 & Eq).
    assert (Tx : tight d (fget idn b k y x)) by (apply Ti; congruence). assert (Ty : tight d (fget nb b k y x)) by (apply Tn; congruence).
    set (fx := up d (down d (fget idn b k y x))) in *. set (fy := up d (down d (fget nb b k y x))) in *.
    assert (xE : Rabs (value fx - vR k y x) <= Ei) by (apply sd_stored; assumption).
    assert (yE : Rabs (value fy - wR k y x) <= sd d K (dot_err d (window_size (f_nbl c)) K)) by (apply sd_stored; assumption).
    assert (Yq : Rabs (value fy) <= Q) by (replace (value fy) with ((value fy - wR k y x) + wR k y x) by ring; eapply Rle_trans; [apply Rabs_triang|]; lra).
    assert (KQ : K <= Q) by (pose proof (Rabs_pos (value fy - wR k y x)); lra).
    assert (Nx : number (cprec d) (cemax d) fx) by (apply tight_number, tight_stored; assumption). assert (Ny : number (cprec d) (cemax d) fy) by (apply tight_number, tight_stored; assumption).
    assert (Gen : forall f fs h, lip_on Q L (h k) -> (forall z, h k z = act_fn (nth k fs AIdentity) z) -> follows d Q alpha (f_int c) fs f -> forall z, f k fy z -> Rabs (value z - h k (wR k y x)) <= Eg).
    { intros f fs h Lh Hh Fh z Hz. pose proof (Fh k fy z Hk Ny Yq Hz) as Z1. rewrite <- Hh in Z1. pose proof (Lh (value fy) (wR k y x) Yq ltac:(lra)) as Z2.
      apply (Rmult_le_compat_l L) in yE; [|exact HL]. replace (value z - h k (wR k y x)) with ((value z - h k (value fy)) + (h k (value fy) - h k (wR k y x))) by ring.
      eapply Rle_trans; [apply Rabs_triang|]. unfold Eg, growth_err. lra. }
    assert (gE : Rabs (value g - gen_at rc k (wR k y x)) <= Eg) by (apply (Gen (f_gen c) gs (gen_at rc)); [apply Lg; exact Hk|intros; reflexivity|exact Fg|exact Rg]).
    assert (pE : Rabs (value p - per_at rc k (wR k y x)) <= Eg) by (apply (Gen (f_per c) ps (per_at rc)); [apply Lp; exact Hk|intros; reflexivity|exact Fp|exact Rp]).
    assert (gB : Rabs (gen_at rc k (wR k y x)) <= M) by (apply (Mg k Hk); lra). assert (pB : Rabs (per_at rc k (wR k y x)) <= M) by (apply (Mp k Hk); lra).
    set (gg := gen_at rc k (wR k y x)) in *. set (pp := per_at rc k (wR k y x)) in *. set (v := vR k y x) in *.
    destruct (one_number _ _ P1 P2) as [N1 V1].
    assert (aB : Rabs (1 - v) <= 1 + I) by (unfold Rabs in *; destruct (Rcase_abs v); destruct (Rcase_abs (1 - v)); lra).
    assert (aE : Rabs (value (fsub (cprec d) (cemax d) (fone (cprec d) (cemax d)) fx) - (1 - v)) <= rd d (1 + I) Ei).
    { eapply rd_result; [apply sub_result; assumption|exact (proj1 Na)| |exact aB]. rewrite V1. replace (1 - value fx - (1 - v)) with (- (value fx - v)) by ring. rewrite Rabs_Ropp. exact xE. }
    set (fa := fsub (cprec d) (cemax d) (fone (cprec d) (cemax d)) fx) in *.
    assert (B2 : Rabs ((1 - v) * gg) <= (1 + I) * M) by (apply abs_prod; assumption). assert (B3 : Rabs (v * pp) <= I * M) by (apply abs_prod; assumption).
    assert (E2 : Rabs (value (up d (down d (fmul (cprec d) (cemax d) fa g))) - (1 - v) * gg) <= sd d ((1 + I) * M) (rd d ((1 + I) * M) ((1 + I) * Eg + rd d (1 + I) Ei * (M + Eg)))).
    { apply sd_stored; [exact Hd|exact T1| |exact B2]. eapply rd_result; [apply mul_result; assumption|exact (proj1 (tight_number _ _ T1))| |exact B2]. apply prod_err; assumption. }
    assert (E3 : Rabs (value (up d (down d (fmul (cprec d) (cemax d) fx p))) - v * pp) <= sd d (I * M) (rd d (I * M) (I * Eg + Ei * (M + Eg)))).
    { apply sd_stored; [exact Hd|exact T2| |exact B3]. eapply rd_result; [apply mul_result; assumption|exact (proj1 (tight_number _ _ T2))| |exact B3]. apply prod_err; assumption. }
    assert (B4 : Rabs (gR k y x) <= (1 + 2 * I) * M) by (unfold gR; fold v gg pp; eapply Rle_trans; [apply Rabs_triang|]; lra).
    split; [|exact B4]. rewrite Eq. unfold E4, mixed_err. cbv zeta. apply sd_stored; [exact Hd|exact T3| |exact B4].
    eapply rd_result; [apply add_result; try assumption; apply tight_number, tight_stored; assumption|exact (proj1 (tight_number _ _ T3))| |exact B4].
    unfold gR. fold v gg pp. set (z1 := value (up d (down d (fmul (cprec d) (cemax d) fa g)))) in *. set (z2 := value (up d (down d (fmul (cprec d) (cemax d) fx p)))) in *.
    replace (z1 + z2 - ((1 - v) * gg + v * pp)) with ((z1 - (1 - v) * gg) + (z2 - v * pp)) by ring. eapply Rle_trans; [apply Rabs_triang|]. apply Rplus_le_compat; assumption. }
  rewrite Ew in Ww. cbn [fwl_wf] in Ww. pose proof Ww as (Wl & Wp & Wg). pose proof Wl as (_ & _ & _ & _ & BW & CW). rewrite Wg, Nat.mul_1_l in CW.
  pose proof S3 as (_ & K2 & K3 & _ & _ & L1 & L2 & L3 & L4 & _). rewrite Wp in K2, K3.
  assert (OW : (o < fB (fl_w wlay))%nat) by congruence.
  assert (HAw : layer_within A (real_layer wlay)) by (unfold rc in HA; cbn [real_cca wl] in HA; rewrite Ew in HA; exact HA).
  assert (Hg : forall k y x, (k < fC gp)%nat -> (y < fH gp)%nat -> (x < fW gp)%nat -> Rabs (value (fget gp b k y x) - gR k y x) <= E4 /\ Rabs (gR k y x) <= (1 + 2 * I) * M) by (rewrite G2, G3, G4; exact Gr).
  destruct (Gr 0%nat i j Hint Hi Hj) as [Z1 Z2]. assert (E40 : 0 <= E4) by (eapply Rle_trans; [apply Rabs_pos|exact Z1]). assert (B40 : 0 <= (1 + 2 * I) * M) by (eapply Rle_trans; [apply Rabs_pos|exact Z2]).
  pose proof (conv_real_bound d _ _ wlay gp upd b gR _ _ A Wl S3 ltac:(lia) Hg HAw B40 E40 o i j OW ltac:(lia) ltac:(lia)) as uB.
  pose proof (conv_error d _ _ wlay gp upd b gR _ _ A Hd Wl Cw S3 ltac:(lia) Hg HAw B40 E40 o i j n E RoW N0 Bg OW ltac:(lia) ltac:(lia)) as uE.
  rewrite (conv_pt wlay _ _ gR o i j _ _ Ww ltac:(lia) ltac:(lia) OW) in uB, uE by lia.
  assert (Sz : side wlay = f_int c) by (rewrite Wp, CW; cbn; lia). rewrite Sz in uE.
  assert (Uf : cca_ufn rc (fun k => convf (idl rc) (fH u) (fW u) mr k i j) (fun k => convf (nbl rc) (fH u) (fW u) mr k i j) o = pt_fn (real_layer wlay) (fun k => gR k i j) o).
  { unfold cca_ufn, rc. cbn [real_cca wl]. rewrite Ew. reflexivity. }
  set (uR := pt_fn (real_layer wlay) (fun k => gR k i j) o) in *. set (B := (1 + 2 * I) * M) in *.
  assert (Td1 : tight d (fget upd b o i j)) by (apply Td; lia).
  pose proof (sd_stored d _ uR (A * B) _ Hd Td1 uE uB) as sE. set (E5 := sd d (A * B) _) in sE.
  destruct (Out o i j Ho Hi Hj) as (Nm & Rm' & Wm & Fin). set (fy := up d (down d (fget upd b o i j))) in *. set (h := Rabs (value (f_dt c))).
  assert (Ny : number (cprec d) (cemax d) fy) by (apply tight_number, tight_stored; assumption).
  assert (dB : Rabs (value (f_dt c) * uR) <= h * (A * B)) by (apply abs_prod; [apply Rle_refl|exact uB]).
  assert (dE : Rabs (value (fmul (cprec d) (cemax d) (f_dt c) fy) - value (f_dt c) * uR) <= rd d (h * (A * B)) (h * E5)).
  { eapply rd_result; [apply mul_result; assumption|exact (proj1 Nm)| |exact dB]. rewrite <- Rmult_minus_distr_l, Rabs_mult. apply Rmult_le_compat_l; [apply Rabs_pos|exact sE]. }
  destruct (Hm o i j ltac:(lia) ltac:(lia) ltac:(lia)) as [mE mB]. assert (mE' : value (fget mm b o i j) = mr o i j) by (unfold Rabs in mE; destruct (Rcase_abs _) in mE; lra).
  assert (sB : Rabs (mr o i j + value (f_dt c) * uR) <= 1 + h * (A * B)) by (eapply Rle_trans; [apply Rabs_triang|]; lra).
  assert (Nmm : number (cprec d) (cemax d) (fget mm b o i j)) by (apply Bm; lia).
  assert (aE : Rabs (value (fadd (cprec d) (cemax d) (fget mm b o i j) (fmul (cprec d) (cemax d) (f_dt c) fy)) - (mr o i j + value (f_dt c) * uR)) <= rd d (1 + h * (A * B)) (rd d (h * (A * B)) (h * E5))).
  { eapply rd_result; [apply add_result; assumption|exact (proj1 (proj1 Wm))| |exact sB]. rewrite mE'. replace (mr o i j + value (fmul (cprec d) (cemax d) (f_dt c) fy) - (mr o i j + value (f_dt c) * uR)) with (value (fmul (cprec d) (cemax d) (f_dt c) fy) - value (f_dt c) * uR) by ring. exact dE. }
  unfold step_val. change (tH (real_tensor u)) with (fH u). change (tW (real_tensor u)) with (fW u). fold mr. rewrite Uf. change (dt rc) with (value (f_dt c)).
  rewrite Fin. set (s := fadd (cprec d) (cemax d) (fget mm b o i j) (fmul (cprec d) (cemax d) (f_dt c) fy)) in *.
  assert (Ns : number (cprec d) (cemax d) s) by exact (proj1 Wm).
  assert (cE : Rabs (value (fclamp (cprec d) (cemax d) s) - clamp 0 1 (mr o i j + value (f_dt c) * uR)) <= rd d (1 + h * (A * B)) (rd d (h * (A * B)) (h * E5))).
  { rewrite (clamp_value _ _ P1 P2 s Ns). eapply Rle_trans; [apply clamp_lip|exact aE]. }
  assert (cB : Rabs (clamp 0 1 (mr o i j + value (f_dt c) * uR)) <= 1) by (unfold clamp, Rmin, Rmax, Rabs; repeat (destruct (Rle_dec _ _) || destruct (Rcase_abs _)); lra).
  destruct (clamp_not_nan _ _ P1 P2 s (proj2 Ns)) as [Nc Bc]; [intros X; rewrite X in Ns; exact (proj1 Ns)|].
  destruct (down_unit d _ Hd (conj Nc Bc)) as [Nd Bd].
  assert (Tc : tight d (fclamp (cprec d) (cemax d) s)).
  { exists 1%Z, 0%Z. split; [|split; [exact Nc|rewrite bpow_0, Rabs_pos_eq; lra]]. destruct Rm' as (_ & R2 & R3 & R4). destruct (dtype_s d Hd). split; [lia|]. split; [|split; [lia|lia]].
    change 1%Z with (2 ^ 0)%Z. apply Z.pow_le_mono_r; lia. }
  pose proof (sd_stored d _ _ 1 _ Hd Tc cE cB) as Fe. destruct (up_number d _ Hd Nd) as [_ Vu]. rewrite Vu in Fe.
  eapply Rle_trans; [exact Fe|]. apply Req_le. unfold step_err. cbv zeta. fold h B E4. unfold E5. reflexivity.
Qed.
End Step.

Lemma unit_round_pos d : 0 < unit_round d.
Proof. apply bpow_pos. Qed.
Lemma dot_err_nonneg d n S : 0 <= S -> 0 <= dot_err d n S.
Proof.
  intros HS. pose proof (unit_round_pos d) as U. unfold dot_err. pose proof (pow_R1_Rle (1 + unit_round d) (2 * n) ltac:(lra)) as P. pose proof (pos_INR (2 * n - 1)) as N. assert (Hh : 0 < half_step d) by apply bpow_pos.
  apply Rplus_le_le_0_compat; repeat apply Rmult_le_pos; lra.
Qed.
Lemma sd_above d B e : 0 <= B -> 0 <= e -> e <= sd d B e.
Proof.
  intros HB He. destruct d; cbn [sd]; [lra|]. pose proof (bpow_pos (- 11)). pose proof (bpow_pos (- 25)). assert (0 <= bpow (- 11) * (B + e)) by (apply Rmult_le_pos; lra). lra.
Qed.
Lemma within_nonneg W l : (0 < tB (cl_w l))%nat -> layer_within W l -> 0 <= W.
Proof.
  intros H HW. eapply Rle_trans; [|apply (HW 0%nat H)]. unfold row_weight. apply rsum_nonneg; intros; apply rsum_nonneg; intros; apply rsum_nonneg; intros; apply Rabs_pos.
Qed.

Lemma real_tensor_twf u : twf (real_tensor u).
Proof. apply twf_build. Qed.
Lemma real_unit d u : dtype_ok d -> cells u (unit_number (sprec d) (semax d)) -> in_unit (real_tensor u).
Proof.
  intros H Hu. apply Forall_forall. intros x Hx. unfold real_tensor, build in Hx. cbn [tdata] in Hx. apply in_map_iff in Hx as (n & <- & Hn). apply in_seq in Hn. 
  assert (W0 : fW u <> 0%nat) by (intros E; rewrite E in Hn; lia). assert (H0 : fH u <> 0%nat) by (intros E; rewrite E in Hn; lia). assert (C0 : fC u <> 0%nat) by (intros E; rewrite E in Hn; lia).
  apply (Hu _ _ _ _); [|apply Nat.mod_upper_bound; assumption..]. repeat apply Nat.div_lt_upper_bound; try assumption. lia.
Qed.

Lemma real_layer_wf p e l u v n x : flayer_wf n x l -> fconv p e l u v -> layer_wf n x (real_layer l).
Proof.
  intros (G & (q & Q) & Hx & Hn & HB & HE) (_ & H1 & H2 & _). split; [split; [exact G|exists q; exact Q]|]. split; [apply twf_build|].
  repeat split; assumption.
Qed.

Lemma real_cca_wf d c m gs ps u u' : fcca_wf c -> fstep d c u u' -> cca_wf (real_cca c m gs ps).
Proof.
  intros (W1 & W2 & W3) (_ & idn & nb & gp & upd & S1 & S2 & _ & S3 & _). split; [eapply real_layer_wf; eassumption|]. split; [eapply real_layer_wf; eassumption|].
  cbn [real_cca wl ext int_]. destruct (f_wl c) as [l|l1 l2]; cbn [real_wl wl_wf fwl fwl_wf] in *.
  - destruct W3 as (W & P & G). split; [eapply real_layer_wf; eassumption|split; assumption].
  - destruct W3 as (h & (W & P & G) & (W' & P' & G')), S3 as (a & S3 & S4). exists h. split; (split; [eapply real_layer_wf; eassumption|split; assumption]).
Qed.

Lemma real_step_ready d c m gs ps u u' : fcca_wf c -> fstep d c u u' -> (0 < fH u)%nat -> (0 < fW u)%nat ->
  step_ready (ext (real_cca c m gs ps)) (idl (real_cca c m gs ps)) (nbl (real_cca c m gs ps)) (real_tensor u) = true.
Proof.
  intros ((_ & _ & _ & _ & _ & E1) & (_ & _ & _ & _ & _ & E2) & _) (Ec & idn & nb & gp & upd & S1 & S2 & _) HH HW. destruct (mask_shape (sprec d) (semax d) (f_thr c) u) as (M1 & M2 & M3 & M4).
  destruct S1 as (_ & _ & _ & A1 & A2 & _), S2 as (_ & _ & _ & B1 & B2 & _). cbn [fmap fH fW] in *. rewrite M3 in A1, B1. rewrite M4 in A2, B2.
  unfold step_ready, layer_ready. cbn [real_cca ext idl nbl real_layer cl_m cl_p real_tensor build tC tH tW]. rewrite A1, A2, B1, B2, Ec, Nat.eqb_refl.
  apply Nat.ltb_lt in HH, HW. rewrite HH, HW. reflexivity.
Qed.

Lemma real_accepts d c m gs ps u u' : fcca_wf c -> fstep d c u u' -> (0 < fH u)%nat -> (0 < fW u)%nat ->
  cca_forward (real_cca c m gs ps) (real_tensor u) = let* _ := cca_chk (real_cca c m gs ps) in
    Ok (build (fB u) (fC u) (fH u) (fW u) (step_val (mask_fn (value (f_thr c))) (real_layer (f_idl c)) (real_layer (f_nbl c)) (cca_ufn (real_cca c m gs ps)) (value (f_dt c)) (real_tensor u))).
Proof.
  intros W S HH HW. rewrite cca_forward_nf; [|eapply real_cca_wf; eassumption|apply real_tensor_twf]. rewrite (real_step_ready d c m gs ps u u' W S HH HW).
  destruct S as [Ec _]. change (ext (real_cca c m gs ps)) with (f_ext c). rewrite <- Ec. reflexivity.
Qed.

Lemma step_close d c A0 T0 m gs ps I K A Q L M alpha u u' v : dtype_ok d -> fcca_wf c -> tame_rule d c A0 T0 -> number (sprec d) (semax d) (f_thr c) ->
  rule_bounds d c gs ps I K A Q L M alpha -> cells u (unit_number (sprec d) (semax d)) -> fstep d c u u' -> (0 < fH u)%nat -> (0 < fW u)%nat ->
  cca_forward (real_cca c m gs ps) (real_tensor u) = Ok v -> shape (real_tensor u') = shape v /\ close (rule_err d c I K A L M alpha) (real_tensor u') v.
Proof.
  intros Hd W Ht Nt (BI & BK & BA & HQ & HL & HM & Lg & Lp & G1 & G2 & G3 & G4 & F1 & F2) Hu S HH HW E. rewrite (real_accepts d c m gs ps u u' W S HH HW) in E.
  destruct (cca_chk _); [|discriminate E]. cbn [bind] in E. injection E as <-. destruct (step_same _ _ _ _ S) as (S1 & S2 & S3 & S4). split; [unfold shape, real_tensor; cbn; congruence|].
  intros b o i j. cbn [build tB tC tH tW]. intros Hb Ho Hi Hj. rewrite get_build by assumption. rewrite real_get by congruence. unfold rule_err.
  assert (N : forall (fns : list act) k, length fns = f_int c -> (k < f_int c)%nat -> In (nth k fns AIdentity) fns) by (intros fns k El Hk; apply nth_In; lia).
  apply (step_cell d c A0 T0 m gs ps I K A L M alpha Hd W Ht Nt Q HQ BI BK BA HL); try assumption; try (intros k Hk; first [apply G1, N; assumption|apply G2, N; assumption|apply G3, N; assumption|apply G4, N; assumption]).
  intros c' i' j' X1 X2 X3. apply Hu; assumption.
Qed.

Lemma iter_res_last {T} (f : T -> res T) n a b : iter_res f (Datatypes.S n) a = Ok b -> exists x, iter_res f n a = Ok x /\ f x = Ok b.
Proof.
  revert a. induction n as [|n IH]; intros a E.
  - exists a. cbn in E |- *. destruct (f a); [split; [reflexivity|exact E]|discriminate E].
  - change (bind (f a) (iter_res f (Datatypes.S n)) = Ok b) in E. change (exists x, bind (f a) (iter_res f n) = Ok x /\ f x = Ok b). destruct (f a) as [y|]; [|discriminate E]. exact (IH y E).
Qed.

Lemma near_sym e u v : SLip.near e u v -> SLip.near e v u.
Proof.
  intros (A & B & C & D & E & F). repeat split; auto; try apply D; try apply E; auto. unfold shape in C. injection C as C1 C2 C3 C4. intros b c i j. rewrite <- C1, <- C2, <- C3, <- C4. intros. rewrite Rabs_minus_sym. apply F; assumption.
Qed.

Lemma run_near d c A0 T0 m gs ps I K A Q L M alpha q : dtype_ok d -> fcca_wf c -> tame_rule d c A0 T0 -> number (sprec d) (semax d) (f_thr c) ->
  rule_bounds d c gs ps I K A Q L M alpha -> 0 <= q -> spreads q (cca_forward (real_cca c m gs ps)) -> 
  forall n u u', fruns d c n u u' -> cells u (unit_number (sprec d) (semax d)) -> (0 < fB u)%nat -> (0 < fH u)%nat -> (0 < fW u)%nat -> (fC u < 4)%nat ->
  forall e v v', 0 <= e -> SLip.near e (real_tensor u) v -> iter_res (cca_forward (real_cca c m gs ps)) n v = Ok v' ->
  cells u' (unit_number (sprec d) (semax d)) /\ (fB u' = fB u /\ fC u' = fC u /\ fH u' = fH u /\ fW u' = fW u) /\ 0 <= grown q (rule_err d c I K A L M alpha) e n /\ SLip.near (grown q (rule_err d c I K A L M alpha) e n) (real_tensor u') v'.
Proof.
  intros Hd W Ht Nt Rb Hq Sp n u u' R Hu HB HH HW HC. induction R as [u|n u w w' R IH S]; intros e v v' He Nv E.
  - cbn in E. injection E as <-. split; [exact Hu|]. split; [repeat split; reflexivity|]. split; [exact He|exact Nv].
  - destruct (iter_res_last _ _ _ _ E) as (x & E1 & E2). destruct (IH Hu HB HH HW HC e v x He Nv E1) as (Cw & (X1 & X2 & X3 & X4) & G0 & Nx).
    destruct (Sp _ x (real_tensor w) G0) as [Sp1 _]; [|apply near_sym, Nx|].
    { destruct Nx as (_ & _ & Sx & _). unfold shape in Sx. injection Sx as _ Sx _ _. rewrite <- Sx. change (tC (real_tensor w)) with (fC w). lia. }
    destruct (Sp1 _ E2) as (z & Ez & Nz). destruct (step_close d c A0 T0 m gs ps I K A Q L M alpha w w' z Hd W Ht Nt Rb Cw S ltac:(lia) ltac:(lia) Ez) as [Sh Cl].
    destruct (step_same _ _ _ _ S) as (S1 & S2 & S3 & S4).
    assert (Cw' : cells w' (unit_number (sprec d) (semax d))).
    { intros b o i j Hb Ho Hi Hj. rewrite S1 in Hb. apply (step_tame d c A0 T0 w w' b Hd W Ht S Hb); try assumption. intros o' i' j' Y1 Y2 Y3. apply Cw; assumption. }
    assert (Ge : 0 <= rule_err d c I K A L M alpha).
    { assert (Hc : (0 < fC w)%nat) by (destruct W as ((_ & _ & _ & Wp & _) & _), S as (Ec & _); lia).
      unfold shape in Sh. injection Sh as Y1 Y2 Y3 Y4. cbn in Y1, Y2, Y3, Y4. eapply Rle_trans; [apply Rabs_pos|]. apply (Cl 0%nat 0%nat 0%nat 0%nat); lia. }
    split; [exact Cw'|]. split; [repeat split; congruence|]. cbn [grown]. split; [assert (0 <= q * grown q (rule_err d c I K A L M alpha) e n) by (apply Rmult_le_pos; assumption); lra|].
    destruct Nz as (T1 & T2 & Sz & U1 & U2 & D). split; [apply real_tensor_twf|]. split; [exact T1|]. split; [congruence|]. split; [apply (real_unit d); assumption|]. split; [exact U1|].
    intros b o i j Hb Ho Hi Hj. replace (get (real_tensor w') b o i j - get v' b o i j) with ((get (real_tensor w') b o i j - get z b o i j) + (get z b o i j - get v' b o i j)) by ring.
    assert (shape v' = shape (real_tensor w')) as Sv by congruence. unfold shape in Sh, Sv. injection Sh as Y1 Y2 Y3 Y4. injection Sv as V1 V2 V3 V4. cbn in Hb, Ho, Hi, Hj, Y1, Y2, Y3, Y4, V1, V2, V3, V4.
    eapply Rle_trans; [apply Rabs_triang|]. rewrite Rplus_comm. apply Rplus_le_compat; [rewrite Rabs_minus_sym; apply D; lia|apply Cl; lia].
Qed.
