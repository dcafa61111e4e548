(** Theorems about rounding errors: properties C110 and C111. *)
From Coq Require Import Reals ZArith List Bool Lia Lra Arith Floats.SpecFloat.
From Verif Require Import Base Tensor MActivations MCommon MCca MFloat SGrid SCca SLip SLife SFloat SRound PTensor PStep PCca PLip PFloat PFloatX PFloatY PFloatC PFloatG PFloatZ PFloatE PFloatR PFloatD PFloatH TFloat TLip MUtils PUtils.
Import ListNotations.
Open Scope R_scope.

(** ** C110: a step in floats and the step in real numbers *)

(** The real automaton takes the step whenever the float one does. *)
Theorem C110_accepted d c m gs ps u u' : fcca_wf c -> fstep d c u u' -> (0 < fH u)%nat -> (0 < fW u)%nat -> length gs = f_int c -> length ps = f_int c ->
  (forall a, In a gs \/ In a ps -> act_ok a = Ok tt) -> exists v, cca_forward (real_cca c m gs ps) (real_tensor u) = Ok v.
Proof.
  intros W S HH HW Lg Lp Ok_. rewrite (real_accepts d c m gs ps u u' W S HH HW). unfold cca_chk.
  assert (C : forall fns, length fns = f_int c -> (forall a, In a fns -> act_ok a = Ok tt) -> fns_chk (f_int c) fns = Ok tt) by (intros fns El Ok1; unfold fns_chk; rewrite El, Nat.eqb_refl; cbn [guard bind]; clear El; induction fns as [|a fns IH]; [reflexivity|]; cbn [acts_ok]; rewrite (Ok1 a (or_introl eq_refl)); apply IH; intros b Hb; apply Ok1; right; exact Hb).
  cbn [real_cca int_ gens pers]. rewrite (C gs Lg), (C ps Lp) by auto. eexists. reflexivity.
Qed.

(** Every cell of the float step is within [rule_err] of the exact step. *)
Theorem C110_step d c A0 T0 m gs ps I K A Q L M alpha u u' v : dtype_ok d -> fcca_wf c -> tame_rule d c A0 T0 -> number (sprec d) (semax d) (f_thr c) ->
  rule_bounds d c gs ps I K A Q L M alpha -> cells u (unit_number (sprec d) (semax d)) -> fstep d c u u' -> (0 < fH u)%nat -> (0 < fW u)%nat ->
  cca_forward (real_cca c m gs ps) (real_tensor u) = Ok v -> shape (real_tensor u') = shape v /\ close (rule_err d c I K A L M alpha) (real_tensor u') v.
Proof. exact (step_close d c A0 T0 m gs ps I K A Q L M alpha u u' v). Qed.

Lemma rule_radius d c gs ps I K A Q L M alpha : fcca_wf c -> rule_bounds d c gs ps I K A Q L M alpha -> K <= Q.
Proof.
  intros (_ & (_ & _ & Hn & _ & HB & _) & _) (_ & BK & _ & HQ & _). assert (K0 : 0 <= K) by (apply (within_nonneg K (real_layer (f_nbl c))); [cbn; lia|exact BK]).
  pose proof (sd_above d K _ K0 (dot_err_nonneg d (window_size (f_nbl c)) K K0)). pose proof (dot_err_nonneg d (window_size (f_nbl c)) K K0). lra.
Qed.

Lemma self_near d u : dtype_ok d -> cells u (unit_number (sprec d) (semax d)) -> SLip.near 0 (real_tensor u) (real_tensor u).
Proof.
  intros Hd Hu. split; [apply real_tensor_twf|]. split; [apply real_tensor_twf|]. split; [reflexivity|]. split; [apply (real_unit d); assumption|]. split; [apply (real_unit d); assumption|].
  intros. rewrite Rminus_diag_eq, Rabs_R0 by reflexivity. lra.
Qed.

Lemma iter_res_snoc {T} (f : T -> res T) n a x b : iter_res f n a = Ok x -> f x = Ok b -> iter_res f (Datatypes.S n) a = Ok b.
Proof.
  revert a. induction n as [|n IH]; intros a E Eb.
  - cbn in E |- *. injection E as <-. rewrite Eb. reflexivity.
  - change (bind (f a) (iter_res f n) = Ok x) in E. change (bind (f a) (iter_res f (Datatypes.S n)) = Ok b). destruct (f a) as [y|]; [|discriminate E]. exact (IH y E Eb).
Qed.

(** Runs of fewer than four channels: where the rule multiplies errors by at most [q] (C98),
    the real automaton makes the same run and the errors of the steps add up. *)
Theorem C110_run d c A0 T0 m gs ps I K A Q L M alpha q n u u' : dtype_ok d -> fcca_wf c -> tame_rule d c A0 T0 -> number (sprec d) (semax d) (f_thr c) ->
  rule_bounds d c gs ps I K A Q L M alpha -> (forall a, In a gs \/ In a ps -> act_ok a = Ok tt) -> 0 <= q -> spreads q (cca_forward (real_cca c m gs ps)) ->
  fruns d c n u u' -> cells u (unit_number (sprec d) (semax d)) -> (0 < fB u)%nat -> (0 < fH u)%nat -> (0 < fW u)%nat -> (fC u < 4)%nat ->
  exists v, iter_res (cca_forward (real_cca c m gs ps)) n (real_tensor u) = Ok v /\ SLip.near (grown q (rule_err d c I K A L M alpha) 0 n) (real_tensor u') v.
Proof.
  intros Hd W Ht Nt Rb Oks q0 Sp R Hu HB HH HW HC. pose proof (self_near d u Hd Hu) as N0.
  assert (Near : forall n w v, fruns d c n u w -> iter_res (cca_forward (real_cca c m gs ps)) n (real_tensor u) = Ok v -> _) by
    (intros n0 w v R0 E0; exact (run_near d c A0 T0 m gs ps I K A Q L M alpha q Hd W Ht Nt Rb q0 Sp n0 u w R0 Hu HB HH HW HC 0 (real_tensor u) v (Rle_refl 0) N0 E0)).
  assert (Ex : exists v, iter_res (cca_forward (real_cca c m gs ps)) n (real_tensor u) = Ok v).
  { revert Near. induction R as [u|n u w w' R IH S]; intros Near; [eexists; reflexivity|]. destruct (IH Hu HB HH HW HC N0 Near) as [v E]. destruct (Near _ _ _ R E) as (_ & (X1 & X2 & X3 & X4) & G & Nv).
    pose proof Rb as (_ & _ & _ & _ & _ & _ & Lg & Lp & _). destruct (C110_accepted d c m gs ps w w' W S ltac:(lia) ltac:(lia) Lg Lp Oks) as [z Ez].
    destruct (Sp _ (real_tensor w) v G ltac:(cbn [real_tensor build tC]; lia) Nv) as [P _]. destruct (P z Ez) as (v' & Ev & _). exists v'. eapply iter_res_snoc; eassumption. }
  destruct Ex as [v E]. exists v. split; [exact E|]. apply (Near _ _ _ R E).
Qed.

(** Such a [q] from the bounds on the rule. *)
Theorem C110_spread d c m gs ps I K A Q L M alpha u u' : fcca_wf c -> rule_bounds d c gs ps I K A Q L M alpha -> fstep d c u u' ->
  spreads (1 + Rabs (value (f_dt c)) * (A * ((1 + 2 * I) * (L * K) + 2 * I * M))) (cca_forward (real_cca c m gs ps)).
Proof.
  intros W Rb S. pose proof (rule_radius _ _ _ _ _ _ _ _ _ _ _ W Rb) as KQ. destruct Rb as (BI & BK & BA & HQ & HL & HM & Lg & Lp & G1 & G2 & G3 & G4 & F1 & F2).
  assert (Lk : forall fns, all_lip Q L fns -> all_lip K L fns) by (intros fns H a Ha x y X Y; apply (H a Ha); lra).
  apply (C98_step (real_cca c m gs ps) I K L M A (real_cca_wf d c m gs ps u u' W S) BI BK BA HL HM (Lk _ G1) (Lk _ G2) G3 G4).
Qed.

(** ** C111: the Gaussian in floats and the Gaussian *)

(** Divisions too give the exact result rounded to a nearest float. *)
Theorem C111_division prec emax x y : (1 < prec)%Z -> (prec < emax)%Z -> number prec emax x -> number prec emax y -> value y <> 0 -> result prec emax (value x / value y) (SFdiv prec emax x y).
Proof. exact (fun P M => div_result prec emax P M x y). Qed.

Theorem C111_gaussian prec emax ex beta eps mu sigma mode Q A B x z : (1 < prec)%Z -> (prec < emax)%Z -> gauss_fits prec emax eps mu sigma Q A B -> exp_like prec emax ex -> exp_within beta ex ->
  number prec emax x -> Rabs (value x) <= Q -> fgauss prec emax ex eps mu sigma mode x z ->
  Rabs (value z - act_fn (AGaussian (value mu) (value sigma) mode) (value x)) <= if mode then 2 * beta + 26 * bpow (- prec) else beta + 11 * bpow (- prec).
Proof. exact (fun P M => gauss_near prec emax P M ex beta eps mu sigma mode Q A B x z). Qed.

(** The real growth functions of a rule with Gaussians. *)
Definition gaussians (n : nat) (mu sigma : nat -> fl) (mode : bool) : list act := map (fun k => AGaussian (value (mu k)) (value (sigma k)) mode) (seq 0 n).

Lemma gaussians_nth n mu sigma mode k : (k < n)%nat -> nth k (gaussians n mu sigma mode) AIdentity = AGaussian (value (mu k)) (value (sigma k)) mode.
Proof. intros H. unfold gaussians. rewrite (nth_indep _ _ (AGaussian (value (mu 0%nat)) (value (sigma 0%nat)) mode)) by (rewrite map_length, seq_length; exact H). rewrite (map_nth (fun k => AGaussian (value (mu k)) (value (sigma k)) mode)), seq_nth by exact H. reflexivity. Qed.

Lemma gaussians_facts prec emax eps mu sigma mode n Q A B : (forall k, (k < n)%nat -> gauss_fits prec emax (eps k) (mu k) (sigma k) Q A B) ->
  length (gaussians n mu sigma mode) = n /\ forall a, In a (gaussians n mu sigma mode) -> act_ok a = Ok tt /\ no_jump a /\ exists k, (k < n)%nat /\ a = AGaussian (value (mu k)) (value (sigma k)) mode.
Proof.
  intros F. split; [unfold gaussians; rewrite map_length; apply seq_length|]. intros a Ha. apply in_map_iff in Ha as (k & <- & Hk). apply in_seq in Hk. destruct (F k ltac:(lia)) as (_ & _ & _ & _ & _ & _ & HB & _).
  split; [|split; [exact Logic.I|exists k; split; [lia|reflexivity]]]. cbn [act_ok]. unfold nonzero. pose proof (bpow_pos (- B)). destruct (Req_EM_T _ 0); [lra|reflexivity].
Qed.

(** So rules with Gaussian growth have the bounds that C110 asks for. *)
Theorem C111_rule d c ex beta eps mu sigma eps' mu' sigma' mode I K A Q L E1 E2 : dtype_ok d -> exp_like (cprec d) (cemax d) ex -> exp_within beta ex -> 0 <= K <= Q ->
  (forall k, (k < f_int c)%nat -> gauss_fits (cprec d) (cemax d) (eps k) (mu k) (sigma k) Q E1 E2 /\ gauss_fits (cprec d) (cemax d) (eps' k) (mu' k) (sigma' k) Q E1 E2) ->
  (forall k x z, f_gen c k x z -> fgauss (cprec d) (cemax d) ex (eps k) (mu k) (sigma k) mode x z) ->
  (forall k x z, f_per c k x z -> fgauss (cprec d) (cemax d) ex (eps' k) (mu' k) (sigma' k) mode x z) ->
  layer_within I (real_layer (f_idl c)) -> layer_within K (real_layer (f_nbl c)) -> wl_within A (real_wl (f_wl c)) -> K + sd d K (dot_err d (window_size (f_nbl c)) K) <= Q ->
  0 <= L -> (forall k, (k < f_int c)%nat -> (if mode then 2 else 1) * gauss_lip (value (sigma k)) <= L /\ (if mode then 2 else 1) * gauss_lip (value (sigma' k)) <= L) ->
  rule_bounds d c (gaussians (f_int c) mu sigma mode) (gaussians (f_int c) mu' sigma' mode) I K A Q L 1 (if mode then 2 * beta + 26 * unit_round d else beta + 11 * unit_round d) /\
  forall a, In a (gaussians (f_int c) mu sigma mode) \/ In a (gaussians (f_int c) mu' sigma' mode) -> act_ok a = Ok tt.
Proof.
  intros D El Ew HK F Gg Gp BI BK BA HQ HL Sl. destruct (dtype_c d D) as [P1 P2].
  destruct (gaussians_facts (cprec d) (cemax d) eps mu sigma mode (f_int c) Q E1 E2 ltac:(intros; apply F; assumption)) as [N1 A1].
  destruct (gaussians_facts (cprec d) (cemax d) eps' mu' sigma' mode (f_int c) Q E1 E2 ltac:(intros; apply F; assumption)) as [N2 A2].
  split; [|intros a [Ha|Ha]; [apply A1, Ha|apply A2, Ha]]. repeat (split; [assumption || lra|]).
  assert (Lip : forall (m s : nat -> fl) a (k : nat), act_ok a = Ok tt -> no_jump a -> a = AGaussian (value (m k)) (value (s k)) mode -> (if mode then 2 else 1) * gauss_lip (value (s k)) <= L -> lip_on Q L (act_fn a) /\ bounded_on K 1 (act_fn a)).
  { intros m s a k O J E Lk. split.
    - intros x y X Y. eapply Rle_trans; [apply (act_is_lip Q a ltac:(lra) O J x y X Y)|]. apply Rmult_le_compat_r; [apply Rabs_pos|]. subst a. cbn [act_lip]. unfold twice. destruct mode; lra.
    - subst a. exact (act_is_bounded K _ (proj1 HK) O J). }
  split; [intros a Ha; destruct (A1 a Ha) as (O & J & k & Hk & E); eapply (Lip mu sigma); eauto; apply Sl, Hk|].
  split; [intros a Ha; destruct (A2 a Ha) as (O & J & k & Hk & E); eapply (Lip mu' sigma'); eauto; apply Sl, Hk|].
  split; [intros a Ha; destruct (A1 a Ha) as (O & J & k & Hk & E); eapply (Lip mu sigma); eauto; apply Sl, Hk|].
  split; [intros a Ha; destruct (A2 a Ha) as (O & J & k & Hk & E); eapply (Lip mu' sigma'); eauto; apply Sl, Hk|].
  split; intros k x z Hk Nx HX H; rewrite gaussians_nth by exact Hk; eapply gauss_near; eauto; apply F, Hk.
Qed.

(** ** Examples: float32 with an exponential that is off by less than 2^-24 *)
Definition low_exp (x : fl) : fl := match x with S754_nan => S754_nan | _ => binary_normalize 24 128 (Int_part (Rmin 1 (exp_value x) * 16777216)) (-24) false end.
Definition near_exp (x z : fl) : Prop := z = low_exp x.
Definition near_gauss (_ : nat) : fl -> fl -> Prop := fgauss 24 128 near_exp eps32 tenth32 sigma32 true.
Definition near_fcca : fcca := mkFc 1 1 tenth32 (mkFL ex_idw 1 1 Circular) (mkFL ex_nbw 1 1 Circular) (FConv (mkFL (mkF 1 1 1 1 (fun _ _ _ _ => one32)) 1 0 Circular)) near_gauss near_gauss tenth32.
Definition near_grid : ftensor := mkF 1 1 5 5 (fun _ _ _ j => match j with 2%nat => half32 | _ => fzero end).

Lemma bpow_24 : bpow (-24) = / 16777216.
Proof. change (-24)%Z with (- (24))%Z. rewrite bpow_inv by lia. reflexivity. Qed.

Lemma exp_value_pos x : 0 <= exp_value x.
Proof. unfold exp_value. destruct x as [|[]| |]; try lra; left; apply exp_pos. Qed.

Lemma low_exp_value x : x <> S754_nan -> unit_number 24 128 (low_exp x) /\ Rabs (value (low_exp x) - Rmin 1 (exp_value x)) <= bpow (-24).
Proof.
  intros Nx. assert (E : low_exp x = binary_normalize 24 128 (Int_part (Rmin 1 (exp_value x) * 16777216)) (-24) false) by (destruct x; (contradiction || reflexivity)). rewrite E. clear E.
  pose proof (exp_value_pos x) as P. set (y := Rmin 1 (exp_value x)) in *. assert (Y : 0 <= y <= 1) by (split; [apply Rmin_glb; lra|apply Rmin_l]).
  destruct (base_Int_part (y * 16777216)) as [B1 B2]. set (n := Int_part (y * 16777216)) in *.
  assert (N0 : (0 <= n)%Z) by (apply le_IZR; apply Rnot_lt_le; intros H; assert (n <= -1)%Z by (apply lt_IZR in H; lia); apply IZR_le in H0; lra).
  assert (N1 : (n <= 16777216)%Z) by (apply le_IZR; lra). rewrite bpow_24.
  destruct (result_exact 24 128 _ _ (normalize_result 24 128 ltac:(lia) ltac:(lia) n (-24) false)) as [Nz Vz].
  - apply rep_Z; [change (2 ^ 24)%Z with 16777216%Z|unfold emin]; lia.
  - rewrite bpow_24. apply IZR_le in N0, N1. rewrite Rabs_pos_eq by nra. apply (Rle_lt_trans _ 1); [lra|]. rewrite <- bpow_0. apply bpow_lt. lia.
  - rewrite bpow_24 in Vz. apply IZR_le in N0, N1. split; [split; [exact Nz|rewrite Vz; lra]|]. rewrite Vz. apply Rabs_le. lra.
Qed.

Lemma near_exp_like : exp_like 24 128 near_exp.
Proof.
  assert (G : forall x, x <> S754_nan -> unit_number 24 128 (low_exp x)) by (intros x Hx; exact (proj1 (low_exp_value x Hx))). split; [|split].
  - intros x z ->. destruct x as [s|s| |s p e]; [apply G; discriminate..|reflexivity|apply G; discriminate].
  - intros x z (m & e & [->|[->| ->]]) ->; apply G; discriminate.
  - intros x z -> ->. reflexivity.
Qed.

Lemma near_exp_within : exp_within (bpow (-24)) near_exp.
Proof.
  intros x z Mx ->. assert (Nx : x <> S754_nan) by (destruct Mx as (m & e & [->|[->| ->]]); discriminate). destruct (low_exp_value x Nx) as [_ B]. rewrite Rmin_right in B; [exact B|].
  destruct Mx as (m & e & [->|[->| ->]]); cbn [exp_value value]; [rewrite exp_0; lra|lra|]. rewrite <- exp_0. apply exp_le_mono. pose proof (bpow_pos e). assert (0 < IZR (Zpos m)) by (apply IZR_lt; lia). nra.
Qed.

Lemma value_tenth : value tenth32 = 13421773 / 134217728.
Proof. cbn [value tenth32]. change (-27)%Z with (- (27))%Z. rewrite bpow_inv by lia. change (2 ^ 27)%Z with 134217728%Z. field. Qed.
Lemma value_sigma : value sigma32 = 16106127 / 1073741824.
Proof. cbn [value sigma32]. change (-30)%Z with (- (30))%Z. rewrite bpow_inv by lia. change (2 ^ 30)%Z with 1073741824%Z. field. Qed.
Lemma value_eps : value eps32 = 9007199 / 9007199254740992.
Proof. cbn [value eps32]. change (-53)%Z with (- (53))%Z. rewrite bpow_inv by lia. change (2 ^ 53)%Z with 9007199254740992%Z. field. Qed.
Lemma value_eighth : value eighth32 = 1 / 8.
Proof. cbn [value eighth32]. change (-26)%Z with (- (26))%Z. rewrite bpow_inv by lia. change (2 ^ 26)%Z with 67108864%Z. field. Qed.

Lemma near_fits : gauss_fits 24 128 eps32 tenth32 sigma32 2 2 7.
Proof.
  split; [lia|]. split; [exact ex_gauss_ok|]. split.
  { change (- (24))%Z with (-24)%Z. rewrite value_eps, bpow_24. unfold eps9. apply Rabs_le. lra. }
  split; [lia|]. split; [lia|]. split; [rewrite value_tenth, Rabs_pos_eq by lra; rewrite (bpow_Z 2) by lia; change (2 ^ 2)%Z with 4%Z; lra|].
  split; [rewrite value_sigma, bpow_inv by lia; change (2 ^ 7)%Z with 128%Z; unfold eps9; lra|]. unfold emin. split; lia.
Qed.

Lemma near_slope : 2 * gauss_lip (value sigma32) <= 134.
Proof.
  unfold gauss_lip. rewrite value_sigma. assert (E : exp (- (1 / 2)) <= 1) by (apply (Rle_trans _ (exp 0)); [apply exp_le_mono; lra|rewrite exp_0; lra]). assert (W : 15 / 1000 < eps9 + 16106127 / 1073741824) by (unfold eps9; lra).
  rewrite Rabs_pos_eq by lra. apply (Rmult_le_reg_r (eps9 + 16106127 / 1073741824)); [lra|]. unfold Rdiv at 1. rewrite <- Rmult_assoc. rewrite Rmult_assoc with (r3 := eps9 + 16106127 / 1073741824). rewrite Rinv_l by lra. lra.
Qed.

Lemma near_layers : layer_within 1 (real_layer (f_idl near_fcca)) /\ layer_within 1 (real_layer (f_nbl near_fcca)) /\ wl_within 1 (real_wl (f_wl near_fcca)).
Proof.
  assert (Z : Rabs (value fzero) = 0) by (cbn; apply Rabs_R0). assert (O : Rabs (value one32) = 1) by (rewrite one32_value; apply Rabs_R1). assert (E : Rabs (value eighth32) = 1 / 8) by (rewrite value_eighth; apply Rabs_pos_eq; lra).
  split; [|split]; intros o Ho; cbn in Ho; (replace o with 0%nat by lia); unfold row_weight; cbn [real_layer cl_w near_fcca f_idl f_nbl fl_w real_tensor build tC tH tW]; cbv -[value fzero one32 eighth32 Rabs Rplus Rle R1 R0 IZR]; rewrite ?Z, ?O, ?E; lra.
Qed.

Definition near_fns : list act := gaussians 1 (fun _ => tenth32) (fun _ => sigma32) true.
Definition alpha32 : R := 2 * bpow (-24) + 26 * unit_round f32.

Lemma unit_round_32 : unit_round f32 = / 16777216.
Proof. exact bpow_24. Qed.
Lemma half_step_32 : half_step f32 = / 2 ^ 150.
Proof. unfold half_step. change (emin (cprec f32) (cemax f32) - 1)%Z with (- (150))%Z. rewrite bpow_inv by lia. f_equal. change 150%Z with (Z.of_nat 150). rewrite <- pow_IZR. reflexivity. Qed.

Example C111_rule_example : rule_bounds f32 near_fcca near_fns near_fns 1 1 1 2 134 1 alpha32 /\ forall a, In a near_fns \/ In a near_fns -> act_ok a = Ok tt.
Proof.
  destruct near_layers as (B1 & B2 & B3). pose proof near_fits as F. pose proof near_slope as S.
  apply (C111_rule f32 near_fcca near_exp (bpow (-24)) (fun _ => eps32) (fun _ => tenth32) (fun _ => sigma32) (fun _ => eps32) (fun _ => tenth32) (fun _ => sigma32) true 1 1 1 2 134 2 7);
    [exact D32|exact near_exp_like|exact near_exp_within|lra|auto|auto|auto|assumption..| |lra|auto].
  unfold sd, f32, dot_err. fold f32. change (window_size (f_nbl near_fcca)) with 9%nat. rewrite unit_round_32, half_step_32. cbn [Nat.mul Nat.add Nat.sub INR pow]. lra.
Qed.

Lemma near_err : rule_err f32 near_fcca 1 1 1 134 1 alpha32 <= 1 / 20000.
Proof.
  assert (D9 : 0 <= dot_err f32 9 1 <= 19 / 16777216).
  { unfold dot_err. rewrite unit_round_32, half_step_32. cbn [Nat.mul Nat.add Nat.sub INR pow]. lra. }
  assert (Hh : 0 <= half_step f32 <= / 16777216) by (rewrite half_step_32; cbn [pow]; lra).
  unfold rule_err, step_err, mixed_err, growth_err, id_err, alpha32. change (window_size (f_nbl near_fcca)) with 9%nat. change (window_size (f_idl near_fcca)) with 9%nat. change (f_int near_fcca) with 1%nat. change (f_dt near_fcca) with tenth32.
  rewrite value_tenth, (Rabs_pos_eq (13421773 / 134217728)) by lra. unfold sd, f32. fold f32. cbv zeta. set (D := dot_err f32 9 1) in *. unfold dot_err, rd. rewrite unit_round_32, bpow_24. set (h := half_step f32) in *.
  cbn [Nat.mul Nat.add Nat.sub INR pow].
  set (Eg := 2 * / 16777216 + 26 * / 16777216 + 134 * D). assert (G : 0 <= Eg <= 2574 / 16777216) by (unfold Eg; lra).
  set (R1 := D + (/ 16777216 * (1 + 1 + D) + h)). assert (B1 : 0 <= R1 <= 23 / 16777216) by (unfold R1; lra).
  set (P1 := R1 * (1 + Eg)). assert (B2 : 0 <= P1 <= 24 / 16777216).
  { unfold P1. split; [apply Rmult_le_pos; lra|]. eapply Rle_trans; [apply Rmult_le_compat; [lra|lra|apply (proj2 B1)|apply Rplus_le_compat_l, (proj2 G)]|lra]. }
  set (P2 := D * (1 + Eg)). assert (B3 : 0 <= P2 <= 20 / 16777216).
  { unfold P2. split; [apply Rmult_le_pos; lra|]. eapply Rle_trans; [apply Rmult_le_compat; [lra|lra|apply (proj2 D9)|apply Rplus_le_compat_l, (proj2 G)]|lra]. }
  clearbody D h Eg R1 P1 P2. lra.
Qed.

Lemma near_answers : answers near_gauss.
Proof. apply (gauss_answers 24 128 near_exp low_exp). intros x. reflexivity. Qed.
Lemma near_step u : fC u = 1%nat -> fH u = 5%nat -> fW u = 5%nat -> exists u', fstep f32 near_fcca u u'.
Proof. intros E1 E2 E3. apply step_exists; [exact ex_fcca_wf|exact E1|unfold has_room; rewrite E2, E3; repeat split; reflexivity..|exact near_answers|exact near_answers]. Qed.
Lemma near_tame : tame_rule f32 near_fcca 0 0.
Proof.
  destruct (ex_weights (fun x => number 24 128 x /\ Rabs (value x) <= 1)) as (A & B & C); [apply abs32, unit32; reflexivity..|].
  apply (C109_no_nan f32 near_fcca near_exp (fun _ => eps32) (fun _ => tenth32) (fun _ => sigma32) true D32 near_exp_like); [intros; exact ex_gauss_ok|exact A|exact B|eexists; split; [reflexivity|exact C]|apply abs32, unit32; reflexivity|auto|auto|cbn; lia|cbn; lia].
Qed.
Lemma near_cells : cells near_grid (unit_number 24 128).
Proof. intros b c i j _ _ _ _. cbn. destruct j as [|[|[|j]]]; apply unit32; reflexivity. Qed.

(** The neighbourhood of 3 x 3 cells with Orbium's growth width: steps off by less than 1/20000. *)
Example C110_step_example : dtype_ok f32 /\ fcca_wf near_fcca /\ tame_rule f32 near_fcca 0 0 /\ number 24 128 (f_thr near_fcca) /\ rule_bounds f32 near_fcca near_fns near_fns 1 1 1 2 134 1 alpha32 /\
  cells near_grid (unit_number 24 128) /\ rule_err f32 near_fcca 1 1 1 134 1 alpha32 <= 1 / 20000 /\
  exists u' v, fstep f32 near_fcca near_grid u' /\ cca_forward (real_cca near_fcca Circular near_fns near_fns) (real_tensor near_grid) = Ok v /\ close (1 / 20000) (real_tensor u') v.
Proof.
  destruct C111_rule_example as [Rb Ok_]. assert (N : number 24 128 (f_thr near_fcca)) by (split; [exact Logic.I|reflexivity]). split; [exact D32|]. split; [exact ex_fcca_wf|]. split; [exact near_tame|]. split; [exact N|]. split; [exact Rb|]. split; [exact near_cells|]. split; [exact near_err|].
  destruct (near_step near_grid eq_refl eq_refl eq_refl) as [u' S]. destruct (C110_accepted f32 near_fcca Circular near_fns near_fns near_grid u' ex_fcca_wf S ltac:(cbn; lia) ltac:(cbn; lia) eq_refl eq_refl Ok_) as [v E].
  exists u', v. split; [exact S|]. split; [exact E|]. destruct (C110_step f32 near_fcca 0 0 Circular near_fns near_fns 1 1 1 2 134 1 alpha32 near_grid u' v D32 ex_fcca_wf near_tame N Rb near_cells S ltac:(cbn; lia) ltac:(cbn; lia) E) as [_ Cl].
  intros b c i j H1 H2 H3 H4. eapply Rle_trans; [apply Cl; assumption|exact near_err].
Qed.

(** A run of two steps. *)
Example C110_run_example : exists q u2 v, 0 <= q /\ spreads q (cca_forward (real_cca near_fcca Circular near_fns near_fns)) /\ fruns f32 near_fcca 2 near_grid u2 /\
  iter_res (cca_forward (real_cca near_fcca Circular near_fns near_fns)) 2 (real_tensor near_grid) = Ok v /\ SLip.near (grown q (rule_err f32 near_fcca 1 1 1 134 1 alpha32) 0 2) (real_tensor u2) v.
Proof.
  destruct C111_rule_example as [Rb Ok_]. destruct (near_step near_grid eq_refl eq_refl eq_refl) as [u1 S1]. destruct (step_same _ _ _ _ S1) as (X1 & X2 & X3 & X4).
  destruct (near_step u1 X2 X3 X4) as [u2 S2]. assert (R2 : fruns f32 near_fcca 2 near_grid u2) by (econstructor; [econstructor; [constructor|exact S1]|exact S2]).
  pose proof (C110_spread f32 near_fcca Circular near_fns near_fns 1 1 1 2 134 1 alpha32 _ _ ex_fcca_wf Rb S1) as Sp. set (q := 1 + _) in Sp.
  assert (Hq : 0 <= q) by (unfold q; pose proof (Rabs_pos (value (f_dt near_fcca))); lra).
  destruct (C110_run f32 near_fcca 0 0 Circular near_fns near_fns 1 1 1 2 134 1 alpha32 q 2 near_grid u2 D32 ex_fcca_wf near_tame ltac:(split; [exact Logic.I|reflexivity]) Rb Ok_ Hq Sp R2 near_cells ltac:(cbn; lia) ltac:(cbn; lia) ltac:(cbn; lia) ltac:(cbn; lia)) as (v & E & Nv).
  exists q, u2, v. auto.
Qed.

Example C111_gaussian_example : gauss_fits 24 128 eps32 tenth32 sigma32 2 2 7 /\ exp_like 24 128 near_exp /\ exp_within (bpow (-24)) near_exp /\ number 24 128 half32 /\ Rabs (value half32) <= 2 /\
  exists z, fgauss 24 128 near_exp eps32 tenth32 sigma32 true half32 z.
Proof.
  split; [exact near_fits|]. split; [exact near_exp_like|]. split; [exact near_exp_within|]. split; [split; [exact Logic.I|reflexivity]|]. split; [destruct (abs32 half32) as [_ H]; [apply unit32; reflexivity|lra]|].
  destruct near_answers as [g H]. exists (g 0%nat half32). apply H.
Qed.

Example C111_division_example : number 24 128 one32 /\ number 24 128 tenth32 /\ value tenth32 <> 0 /\ SFdiv 24 128 one32 tenth32 = S754_finite false 10485760 (-20).
Proof. split; [split; [exact Logic.I|reflexivity]|]. split; [split; [exact Logic.I|reflexivity]|]. split; [rewrite value_tenth; lra|vm_compute; reflexivity]. Qed.

(** ** C47 once more: the masks in double precision *)

(** [ceil_double] is the ceiling. *)
Theorem C47_ceiling x : finite x -> IZR (ceil_double x) - 1 < value x <= IZR (ceil_double x).
Proof.
  destruct x as [s|s| |s m e]; intros F; try contradiction F; [cbn; lra|]. cbn [ceil_double value].
  assert (V : (if s then -1 else 1) * IZR (Zpos m) = IZR (cond_Zopp s (Zpos m))) by (destruct s; cbn [cond_Zopp]; [rewrite opp_IZR|]; ring). rewrite V. set (v := cond_Zopp s (Zpos m)).
  destruct (Z.leb_spec 0 e) as [L|L].
  - rewrite bpow_Z by exact L. rewrite <- mult_IZR. lra.
  - replace (bpow e) with (/ IZR (2 ^ (- e))) by (rewrite <- bpow_inv by lia; f_equal; lia). set (t := (2 ^ (- e))%Z). assert (T : (0 < t)%Z) by (apply Z.pow_pos_nonneg; lia).
    pose proof (Z.div_mod (- v) t ltac:(lia)) as D. pose proof (Z.mod_pos_bound (- v) t T) as M. set (q := ((- v) / t)%Z) in *. set (r := ((- v) mod t)%Z) in *.
    assert (E : IZR v = - (IZR t * IZR q + IZR r)) by (rewrite <- mult_IZR, <- plus_IZR, <- opp_IZR; f_equal; lia). rewrite E, opp_IZR.
    destruct M as [M1 M2]. apply IZR_le in M1. apply IZR_lt in M2, T. assert (I : 0 < / IZR t) by (apply Rinv_0_lt_compat; lra).
    replace (- (IZR t * IZR q + IZR r) * / IZR t) with (- IZR q - IZR r * / IZR t) by (field; lra).
    assert (0 <= IZR r * / IZR t) by (apply Rmult_le_pos; lra). assert (IZR r * / IZR t < 1) by (apply (Rmult_lt_reg_r (IZR t)); [lra|]; rewrite Rmult_assoc, Rinv_l by lra; lra). lra.
Qed.

Lemma double_exact z : (0 <= z <= 2 ^ 53)%Z -> number 53 1024 (double_of z) /\ value (double_of z) = IZR z.
Proof.
  intros H. unfold double_of. replace (IZR z) with (IZR z * bpow 0) by (rewrite bpow_0; ring). apply (result_exact 53 1024); [apply normalize_result; lia|apply rep_Z; [lia|unfold emin; lia]|].
  rewrite bpow_0, Rmult_1_r, Rabs_pos_eq by (apply IZR_le; lia). apply (Rle_lt_trans _ (IZR (2 ^ 53))); [apply IZR_le; lia|]. rewrite <- bpow_Z by lia. apply bpow_lt. lia.
Qed.

(** np.arange makes as many points as the image has rows, or one more, for all but gigantic images ... *)
Theorem C47_double_points r : (1 <= r)%nat -> (2 * Z.of_nat r + 1 <= 2 ^ 51)%Z -> axis_len_double r = (2 * r)%nat \/ axis_len_double r = (2 * r + 1)%nat.
Proof.
  intros H1 H2. unfold axis_len_double. cbv zeta. set (N := (2 * Z.of_nat r + 1)%Z) in *. set (M := (2 * Z.of_nat r)%Z) in *.
  destruct (double_exact N ltac:(unfold N in *; lia)) as [Nn Vn]. destruct (double_exact M ltac:(unfold N, M in *; lia)) as [Nm Vm].
  assert (HM : 2 <= IZR M) by (apply IZR_le; unfold M; lia). assert (HN : IZR N = IZR M + 1) by (unfold N; fold M; rewrite plus_IZR; reflexivity).
  assert (HB : IZR N <= 2251799813685248) by (apply IZR_le; exact H2).
  assert (Eta : bpow (emin 53 1024 - 1) <= / 1152921504606846976).
  { change (/ 1152921504606846976) with (/ IZR (2 ^ 60)). rewrite <- bpow_inv by lia. apply bpow_le. unfold emin. lia. }
  assert (U : bpow (- (53)) = / 9007199254740992) by (rewrite bpow_inv by lia; reflexivity).
  assert (Rep : forall k, (0 <= k <= 53)%Z -> rep 53 1024 (bpow k)) by (intros k Hk; apply rep_bpow; [lia|unfold emin; lia]).
  pose proof (div_result 53 1024 ltac:(lia) ltac:(lia) (double_of N) (double_of M) Nn Nm ltac:(rewrite Vm; lra)) as R1. rewrite Vn, Vm in R1. set (s := SFdiv 53 1024 (double_of N) (double_of M)) in *.
  assert (X1 : 1 <= IZR N / IZR M <= 2).
  { split; apply (Rmult_le_reg_r (IZR M)); try lra; unfold Rdiv; rewrite Rmult_assoc, Rinv_l by lra; lra. }
  destruct (result_bounded 53 1024 _ _ (bpow 1) R1) as [Ns Bs]; [apply Rep; lia|apply bpow_lt; lia|rewrite bpow_1, Rabs_pos_eq by lra; lra|].
  assert (V1 : Rabs (value s - IZR N / IZR M) <= / 9007199254740992 * (IZR N / IZR M) + / 1152921504606846976 /\ 1 <= value s).
  { destruct R1 as (v & (Rv & Nr & Er) & C). assert (Ev : value s = v).
    { destruct C as [(_ & _ & C)|[(_ & C)|(_ & C)]]; [exact C|rewrite C in Ns; contradiction (proj1 Ns)..]. }
    rewrite Ev. pose proof (rounded_ge 53 1024 _ _ _ (conj Rv (conj Nr Er)) (Rep 0%Z ltac:(lia)) ltac:(rewrite bpow_0; lra)) as G. rewrite bpow_0 in G. rewrite U, (Rabs_pos_eq (IZR N / IZR M)) in Er by lra. split; [lra|exact G]. }
  destruct V1 as [E1 G1]. set (w := value s) in *.
  assert (W : 0 < / w <= 1) by (split; [apply Rinv_0_lt_compat; lra|rewrite <- Rinv_1; apply Rinv_le_contravar; lra]).
  pose proof (div_result 53 1024 ltac:(lia) ltac:(lia) (double_of N) s Nn Ns ltac:(fold w; lra)) as R2. rewrite Vn in R2. fold w in R2. set (q := SFdiv 53 1024 (double_of N) s) in *.
  assert (X2 : 0 <= IZR N / w <= IZR N) by (unfold Rdiv; split; [apply Rmult_le_pos; lra|rewrite <- (Rmult_1_r (IZR N)) at 2; apply Rmult_le_compat_l; lra]).
  destruct (result_bounded 53 1024 _ _ (bpow 51) R2) as [Nq Bq]; [apply Rep; lia|apply bpow_lt; lia|rewrite Rabs_pos_eq by lra; rewrite bpow_Z by lia; change (IZR (2 ^ 51)) with 2251799813685248; lra|].
  assert (E2 : Rabs (value q - IZR N / w) <= / 9007199254740992 * IZR N + / 1152921504606846976).
  { destruct R2 as (v & (Rv & Nr & Er) & C). assert (Ev : value q = v).
    { destruct C as [(_ & _ & C)|[(_ & C)|(_ & C)]]; [exact C|rewrite C in Nq; contradiction (proj1 Nq)..]. }
    rewrite Ev. rewrite U, (Rabs_pos_eq (IZR N / w)) in Er by lra. assert (/ 9007199254740992 * (IZR N / w) <= / 9007199254740992 * IZR N) by (apply Rmult_le_compat_l; lra). lra. }
  assert (E3 : Rabs (IZR N / w - IZR M) <= / 9007199254740992 * IZR N + IZR M * / 1152921504606846976).
  { replace (IZR N / w - IZR M) with (/ w * (IZR M * - (w - IZR N / IZR M))) by (field; lra). rewrite Rabs_mult, (Rabs_pos_eq (/ w)) by lra.
    rewrite Rabs_mult, Rabs_Ropp, (Rabs_pos_eq (IZR M)) by lra. pose proof (Rabs_pos (w - IZR N / IZR M)) as P.
    apply (Rle_trans _ (1 * (IZR M * Rabs (w - IZR N / IZR M)))); [apply Rmult_le_compat_r; [apply Rmult_le_pos; lra|lra]|]. rewrite Rmult_1_l.
    apply (Rle_trans _ (IZR M * (/ 9007199254740992 * (IZR N / IZR M) + / 1152921504606846976))); [apply Rmult_le_compat_l; lra|]. right. field. lra. }
  assert (T : Rabs (value q - IZR M) < 1).
  { replace (value q - IZR M) with ((value q - IZR N / w) + (IZR N / w - IZR M)) by ring. eapply Rle_lt_trans; [apply Rabs_triang|]. lra. }
  apply Rabs_def2 in T. pose proof (C47_ceiling q (proj1 Nq)) as C. set (c := ceil_double q) in *.
  assert (L1 : (M - 1 < c)%Z) by (apply lt_IZR; rewrite minus_IZR; lra). assert (L2 : (c < M + 2)%Z) by (apply lt_IZR; rewrite plus_IZR; lra).
  unfold M in *. lia.
Qed.

(** ... so the mask of an even square image is the one counted in exact numbers, or the call raises ValueError;
    r = 29 shows that the second happens (C47_double). *)
Theorem C47_double_even img br co r : (1 <= r)%nat -> (2 * Z.of_nat r + 1 <= 2 ^ 51)%Z -> tH img = (2 * r)%nat -> tW img = (2 * r)%nat -> (1 <= tC img)%nat ->
  get_bite_mask axis_len_double img br co = get_bite_mask axis_len img br co \/ get_bite_mask axis_len_double img br co = Err ValueError.
Proof.
  intros H1 H2 HH HW HC. destruct (C47_double_points r H1 H2) as [E|E].
  - left. unfold get_bite_mask. replace (tH img / 2)%nat with r by (rewrite HH, Nat.mul_comm, Nat.div_mul; lia). rewrite E, (axis_len_exact r H1). reflexivity.
  - right. apply (proj2 (bite_errors axis_len_double img br co ltac:(lia))); [lia|..]; replace (tH img / 2)%nat with r by (rewrite HH, Nat.mul_comm, Nat.div_mul; lia); rewrite E; [lia|left; lia].
Qed.

Example C47_double_cases : axis_len_double 2 = 4%nat /\ axis_len_double 29 = 59%nat /\ ceil_double (double_of 7) = 7%Z /\ ceil_double (SFdiv 53 1024 (double_of 7) (double_of 2)) = 4%Z.
Proof. repeat split; vm_compute; reflexivity. Qed.

Print Assumptions C110_accepted.
Print Assumptions C110_step.
Print Assumptions C110_run.
Print Assumptions C110_spread.
Print Assumptions C111_division.
Print Assumptions C111_gaussian.
Print Assumptions C111_rule.
Print Assumptions C47_ceiling.
Print Assumptions C47_double_points.
Print Assumptions C47_double_even.
