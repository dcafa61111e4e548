(** Facts about kernels. *)
From Coq Require Import Reals Lra Lia List Arith Bool ZArith String.
From Verif Require Import Base PyDict Tensor MActivations MKernels MCommon SGrid SKern PTensor PAct.
Import ListNotations.
Open Scope R_scope.

Lemma off_eq r i : off r i = INR i - INR r.
Proof. unfold off. rewrite minus_IZR, <- !INR_IZR_INZ. reflexivity. Qed.

Lemma grid_rho r i j : sqrt (off r j ^ 2 + off r i ^ 2) / INR r = rho r i j.
Proof. unfold rho. rewrite !off_eq, Rplus_comm. reflexivity. Qed.

Lemma Ok_inj A (a b : A) : Ok a = Ok b -> a = b.
Proof. congruence. Qed.

Lemma shape_inv t B C H W : shape t = (B, C, H, W) -> tB t = B /\ tC t = C /\ tH t = H /\ tW t = W.
Proof. unfold shape. intros E. inversion E. auto. Qed.

(** ** Normalisation *)
Lemma normalize_fitted r p :
  fitted r p (normalize (build 1 1 (r * 2 + 1) (r * 2 + 1) (fun _ _ i j => p i j))).
Proof.
  replace (r * 2 + 1)%nat with (2 * r + 1)%nat by lia.
  set (n := (2 * r + 1)%nat). set (k0 := build 1 1 n n (fun _ _ i j => p i j)).
  assert (W0 : twf k0) by apply twf_build.
  assert (G0 : forall i j, (i < n)%nat -> (j < n)%nat -> get k0 0 0 i j = p i j).
  { intros i j Hi Hj. unfold k0. rewrite get_build by lia. reflexivity. }
  assert (N0 : tdata k0 <> []).
  { intros E. assert (Hl : List.length (tdata k0) = (1 * 1 * n * n)%nat) by exact W0.
    rewrite E in Hl. cbn [List.length] in Hl. unfold n in Hl. lia. }
  unfold fitted. fold n. split; [|split].
  - unfold normalize. cbv zeta. apply twf_tmap, twf_tmap, W0.
  - reflexivity.
  - exists (lmin (tdata k0)), (tsum (tmap (fun v => v - lmin (tdata k0)) k0)).
    split; [|split; [|split]].
    + intros i j Hi Hj. rewrite <- G0 by auto. apply lmin_le. apply get_in_data; auto; cbn; lia.
    + destruct (in_data_get k0 _ W0 (lmin_in _ N0)) as (b & c & i & j & Hb & Hc & Hi & Hj & E).
      cbn in Hb, Hc, Hi, Hj. replace b with 0%nat in E by lia. replace c with 0%nat in E by lia.
      exists i, j. split; [auto|split; [auto|]]. rewrite <- G0 by auto. congruence.
    + unfold k0 at 2. rewrite tmap_build, tsum_build. cbn [rsum]. rewrite !Rplus_0_l. reflexivity.
    + intros i j Hi Hj. unfold normalize. cbv zeta.
      rewrite get_tmap; [|apply twf_tmap; auto|cbn; lia..].
      rewrite get_tmap; [|auto|cbn; lia..]. rewrite G0 by auto. reflexivity.
Qed.

Lemma radial_kernel_inv a r s k : radial_kernel a r s = Ok k ->
  r <> 0%nat /\ act_ok a = Ok tt /\ fitted r (fun i j => act_fn a (rho r i j * s)) k.
Proof.
  unfold radial_kernel, kernel_grid. intros H.
  apply bind_ok in H as (g & Hg & H). apply bind_ok in Hg as ([] & Hr & Hg). apply Ok_inj in Hg; subst g.
  apply bind_ok in H as (q & Hq & H). apply Ok_inj in H; subst k. apply guard_ok in Hr.
  apply act_apply_inv in Hq as [-> Hok].
  split; [|split; [exact Hok|]].
  - intros ->. discriminate Hr.
  - rewrite tmap_build. rewrite (build_ext _ _ _ _ _ (fun _ _ i j => act_fn a (rho r i j * s))).
    + apply normalize_fitted.
    + intros. cbv beta. rewrite grid_rho. reflexivity.
Qed.

Lemma radial_kernel_ok a r s : r <> 0%nat -> act_ok a = Ok tt ->
  exists k, radial_kernel a r s = Ok k /\ fitted r (fun i j => act_fn a (rho r i j * s)) k.
Proof.
  intros Hr Ha. destruct (radial_kernel a r s) as [k|e] eqn:E.
  - exists k. split; [reflexivity|]. apply radial_kernel_inv in E. tauto.
  - exfalso. unfold radial_kernel, kernel_grid in E. destruct (Nat.eqb_spec r 0); [contradiction|].
    cbn [guard bind negb] in E. unfold act_apply in E. rewrite Ha in E. discriminate E.
Qed.

Lemma radial_kernel_0 a s : radial_kernel a 0 s = Err NonFinite.
Proof. reflexivity. Qed.

(** ** What a fitted kernel looks like *)
Section Fitted.
  Variables (r : nat) (p : nat -> nat -> R) (k : tensor).
  Hypothesis F : fitted r p k.
  Let n := (2 * r + 1)%nat.

  Lemma fitted_wf : twf k /\ shape k = (1, 1, n, n)%nat.
  Proof. destruct F as (H1 & H2 & _). auto. Qed.

  Lemma fitted_sum_form : exists m s,
    (forall i j, (i < n)%nat -> (j < n)%nat -> m <= p i j) /\
    (exists i j, (i < n)%nat /\ (j < n)%nat /\ p i j = m) /\
    s = rsum n (fun i => rsum n (fun j => p i j - m)) /\ 0 <= s /\
    (forall i j, (i < n)%nat -> (j < n)%nat -> get k 0 0 i j = (p i j - m) / (eps9 + s)) /\
    tsum k = s / (eps9 + s).
  Proof.
    destruct F as (Hw & Hs & m & s & Hm & Hex & Es & Hg). fold n in Hs, Hm, Hex, Es, Hg. exists m, s.
    assert (S0 : 0 <= s).
    { rewrite Es. apply rsum_nonneg. intros i Hi. apply rsum_nonneg. intros j Hj.
      specialize (Hm i j Hi Hj). lra. }
    split; [auto|]. split; [auto|]. split; [auto|]. split; [auto|]. split; [auto|].
    apply shape_inv in Hs as (E1 & E2 & E3 & E4). rewrite (tsum_get k Hw), E1, E2, E3, E4. cbn [rsum]. rewrite !Rplus_0_l.
    rewrite (rsum_ext n _ (fun i => rsum n (fun j => p i j - m) * / (eps9 + s))).
    - rewrite rsum_scal_r. rewrite <- Es. reflexivity.
    - intros i Hi. rewrite <- rsum_scal_r. apply rsum_ext. intros j Hj. rewrite Hg by auto. reflexivity.
  Qed.

  Lemma fitted_entry v : In v (tdata k) -> exists i j, (i < n)%nat /\ (j < n)%nat /\ v = get k 0 0 i j.
  Proof.
    destruct fitted_wf as [Hw Hs]. apply shape_inv in Hs as (E1 & E2 & E3 & E4). intros Hv.
    apply in_data_get in Hv as (b & c & i & j & Hb & Hc & Hi & Hj & ->); [|auto].
    replace b with 0%nat by lia. replace c with 0%nat by lia. exists i, j. split; [lia|split; [lia|auto]].
  Qed.

  Lemma fitted_normalised : normalised k /\ tsum k < 1 /\ In 0 (tdata k).
  Proof.
    destruct fitted_wf as [Hw Hs]. apply shape_inv in Hs as (E1 & E2 & E3 & E4).
    destruct fitted_sum_form as (m & s & Hm & (i0 & j0 & Hi0 & Hj0 & E0) & Es & S0 & Hg & Ht).
    pose proof eps9_pos'.
    assert (Hlt : tsum k < 1).
    { rewrite Ht. apply Rmult_lt_reg_r with (eps9 + s); [lra|]. unfold Rdiv.
      rewrite Rmult_assoc, Rinv_l by lra. lra. }
    split; [|split; [exact Hlt|]].
    - split; [auto|]. split; [auto|]. split; [auto|]. split; [|lra].
      apply Forall_forall. intros v Hv. apply fitted_entry in Hv as (i & j & Hi & Hj & ->).
      rewrite Hg by auto. apply Rmult_le_pos.
      + specialize (Hm i j Hi Hj). lra.
      + left. apply Rinv_0_lt_compat. lra.
    - replace 0 with (get k 0 0 i0 j0).
      + apply get_in_data; auto; lia.
      + rewrite Hg by auto. rewrite E0. unfold Rdiv. rewrite Rminus_diag_eq by reflexivity. apply Rmult_0_l.
  Qed.

  Lemma fitted_zero_iff : (forall v, In v (tdata k) -> v = 0) <->
    (forall i j i' j', (i < n)%nat -> (j < n)%nat -> (i' < n)%nat -> (j' < n)%nat -> p i j = p i' j').
  Proof.
    destruct fitted_wf as [Hw Hs]. apply shape_inv in Hs as (E1 & E2 & E3 & E4).
    destruct fitted_sum_form as (m & s & Hm & (i0 & j0 & Hi0 & Hj0 & E0) & Es & S0 & Hg & Ht).
    pose proof eps9_pos'. split.
    - intros Hz. assert (Hp : forall i j, (i < n)%nat -> (j < n)%nat -> p i j = m).
      { intros i j Hi Hj. assert (Hin : In (get k 0 0 i j) (tdata k)) by (apply get_in_data; auto; lia).
        apply Hz in Hin. rewrite Hg in Hin by auto.
        assert (E : p i j - m = (p i j - m) / (eps9 + s) * (eps9 + s)) by (field; lra).
        rewrite Hin in E. lra. }
      intros. rewrite !Hp; auto.
    - intros Hc v Hv. apply fitted_entry in Hv as (i & j & Hi & Hj & ->). rewrite Hg by auto.
      rewrite (Hc i j i0 j0) by auto. rewrite E0. unfold Rdiv. rewrite Rminus_diag_eq by reflexivity. apply Rmult_0_l.
  Qed.
End Fitted.

Lemma rho_eq r i j i' j' :
  ((Z.of_nat i - Z.of_nat r) ^ 2 + (Z.of_nat j - Z.of_nat r) ^ 2 =
   (Z.of_nat i' - Z.of_nat r) ^ 2 + (Z.of_nat j' - Z.of_nat r) ^ 2)%Z -> rho r i j = rho r i' j'.
Proof.
  intros E. unfold rho. f_equal. f_equal.
  apply (f_equal IZR) in E. rewrite !plus_IZR, !Z.pow_2_r, !mult_IZR, !minus_IZR in E.
  rewrite !INR_IZR_INZ. simpl pow. rewrite !Rmult_1_r. exact E.
Qed.

Lemma fitted_radial r f k : fitted r (fun i j => f (rho r i j)) k -> radial r k.
Proof.
  intros F i j i' j' Hi Hj Hi' Hj' E.
  destruct (fitted_sum_form r _ k F) as (m & s & _ & _ & _ & _ & Hg & _).
  rewrite !Hg by auto. rewrite (rho_eq r i j i' j' E). reflexivity.
Qed.

Lemma radial_sym r k : shape k = (1, 1, 2 * r + 1, 2 * r + 1)%nat -> radial r k -> sym_v k /\ sym_h k /\ sym_t k.
Proof.
  intros Hs Hr. apply shape_inv in Hs as (E1 & E2 & E3 & E4).
  split; [|split].
  - intros o c y x Ho Hc Hy Hx. replace o with 0%nat by lia. replace c with 0%nat by lia.
    apply Hr; try lia. rewrite E3.
    replace (Z.of_nat (2 * r + 1 - 1 - y)) with (2 * Z.of_nat r - Z.of_nat y)%Z by lia. ring.
  - intros o c y x Ho Hc Hy Hx. replace o with 0%nat by lia. replace c with 0%nat by lia.
    apply Hr; try lia. rewrite E4.
    replace (Z.of_nat (2 * r + 1 - 1 - x)) with (2 * Z.of_nat r - Z.of_nat x)%Z by lia. ring.
  - split; [congruence|]. intros o c y x Ho Hc Hy Hx. replace o with 0%nat by lia. replace c with 0%nat by lia.
    apply Hr; lia.
Qed.

(** ** Moore neighbourhoods *)
Definition moore (r : nat) : tensor :=
  build 1 1 (r * 2 + 1) (r * 2 + 1)
    (fun _ _ i j => if Nat.eqb i r && Nat.eqb j r then 0 else / (INR (2 * r + 1) ^ 2 - 1)).

Lemma rsum_except n k a : (k < n)%nat ->
  rsum n (fun i => if Nat.eqb i k then 0 else a) = (INR n - 1) * a.
Proof.
  intros Hk. rewrite (rsum_ext n _ (fun i => a - (if Nat.eqb i k then a else 0))).
  - rewrite rsum_minus, rsum_const. rewrite (rsum_single n k _ Hk).
    + rewrite Nat.eqb_refl. ring.
    + intros i Hi Hne. destruct (Nat.eqb_spec i k); [contradiction|reflexivity].
  - intros i Hi. destruct (Nat.eqb i k); ring.
Qed.

Lemma moore_total r : tsum (build 1 1 (r * 2 + 1) (r * 2 + 1)
  (fun _ _ i j => if Nat.eqb i r && Nat.eqb j r then 0 else 1)) = INR (2 * r + 1) ^ 2 - 1.
Proof.
  rewrite tsum_build. cbn [rsum]. rewrite !Rplus_0_l. replace (r * 2 + 1)%nat with (2 * r + 1)%nat by lia.
  set (n := (2 * r + 1)%nat).
  rewrite (rsum_ext n _ (fun i => INR n - (if Nat.eqb i r then 1 else 0))).
  - rewrite rsum_minus, rsum_const. rewrite (rsum_single n r);
      [|unfold n; lia|intros i Hi Hne; destruct (Nat.eqb_spec i r); [contradiction|reflexivity]].
    rewrite Nat.eqb_refl. ring.
  - intros i Hi. destruct (Nat.eqb i r) eqn:E; cbn [andb].
    + rewrite rsum_except by (unfold n; lia). ring.
    + rewrite rsum_const. ring.
Qed.

Lemma moore_count_pos r : r <> 0%nat -> 8 <= INR (2 * r + 1) ^ 2 - 1.
Proof.
  intros Hr. assert (3 <= INR (2 * r + 1)).
  { replace 3 with (INR 3) by (simpl; lra). apply le_INR. lia. }
  revert H. generalize (INR (2 * r + 1)). intros x Hx. nra.
Qed.

Lemma as_size_ok v r : as_size v = Ok r -> v = VInt (Z.of_nat r).
Proof.
  destruct v; try discriminate. cbn [as_size]. destruct (Z.leb_spec 0 z); [|discriminate].
  intros E. injection E as <-. rewrite Z2Nat.id by auto. reflexivity.
Qed.

Lemma as_size_of r : as_size (VInt (Z.of_nat r)) = Ok r.
Proof. cbn [as_size]. destruct (Z.leb_spec 0 (Z.of_nat r)); [|lia]. rewrite Nat2Z.id. reflexivity. Qed.

Lemma dgetk_ok k d v : dgetk k d = Ok v -> dget k d = Some v.
Proof. unfold dgetk. destruct (dget k d); [intros E; injection E as <-; auto|discriminate]. Qed.

(** ** Laplacian of Gaussian *)
Lemma lsum_const_minus l a : lsum (map (fun v => v - a) l) = lsum l - INR (List.length l) * a.
Proof.
  induction l as [|x t IH]; [unfold lsum; simpl; lra|]. cbn [map List.length]. rewrite S_INR.
  change (lsum (x - a :: map (fun v => v - a) t)) with (x - a + lsum (map (fun v => v - a) t)).
  rewrite IH. change (lsum (x :: t)) with (x + lsum t). ring.
Qed.

Lemma lsum_map_div l a : lsum (map (fun v => v / a) l) = lsum l / a.
Proof.
  induction l as [|x t IH]; [unfold lsum; simpl; unfold Rdiv; ring|]. cbn [map].
  change (lsum (x / a :: map (fun v => v / a) t)) with (x / a + lsum (map (fun v => v / a) t)).
  rewrite IH. change (lsum (x :: t)) with (x + lsum t). unfold Rdiv; ring.
Qed.

Lemma lsum_nonneg l : (forall v, In v l -> 0 <= v) -> 0 <= lsum l.
Proof.
  induction l as [|x t IH]; intros H; [unfold lsum; simpl; lra|].
  change (lsum (x :: t)) with (x + lsum t).
  assert (0 <= x) by (apply H; left; auto). assert (0 <= lsum t) by (apply IH; intros; apply H; right; auto). lra.
Qed.

Lemma lsum_le_0 l : (forall v, In v l -> 0 <= v) -> lsum l <= 0 -> forall v, In v l -> v = 0.
Proof.
  induction l as [|x t IH]; intros H Hs v Hv; [contradiction|].
  change (lsum (x :: t)) with (x + lsum t) in Hs.
  assert (0 <= x) by (apply H; left; auto).
  assert (0 <= lsum t) by (apply lsum_nonneg; intros; apply H; right; auto).
  destruct Hv as [<-|Hv]; [lra|]. apply IH; auto; [intros; apply H; right; auto|lra].
Qed.

Lemma log_apply_sums s t k : log_apply s t = Ok k -> tsum k = 0 /\ tsum (tmap Rabs k) = 1 /\ shape k = shape t.
Proof.
  unfold log_apply. intros H. apply bind_ok in H as ([] & _ & H). cbv zeta in H.
  apply bind_ok in H as ([] & Hn & H). apply bind_ok in H as ([] & Ht & H). apply Ok_inj in H; subst k.
  apply guard_ok in Hn, Ht. apply nonzero_true in Ht.
  set (raw := tmap (log_raw s) t) in *. set (mean := tsum raw / INR (List.length (tdata raw))) in *.
  set (cen := tmap (fun v => v - mean) raw) in *. set (tot := tsum (tmap Rabs cen)) in *.
  assert (Hnz : INR (List.length (tdata raw)) <> 0).
  { apply not_0_INR. intros E. rewrite E in Hn. discriminate Hn. }
  assert (Hc : tsum cen = 0).
  { unfold cen, tsum, tmap; cbn [tdata]. rewrite lsum_const_minus. unfold mean, tsum. field. exact Hnz. }
  assert (Tp : 0 < tot).
  { assert (0 <= tot); [|lra]. unfold tot, tsum. apply lsum_nonneg. intros v Hv. cbn [tmap tdata] in Hv.
    apply in_map_iff in Hv as (x & <- & _). apply Rabs_pos. }
  split; [|split; [|reflexivity]].
  - unfold tsum, tmap; cbn [tdata]. rewrite lsum_map_div. fold (tsum cen). rewrite Hc. unfold Rdiv. ring.
  - unfold tsum. cbn [tmap tdata]. rewrite map_map.
    rewrite (map_ext _ (fun v => Rabs v / tot)).
    + rewrite <- (map_map Rabs (fun v => v / tot)), lsum_map_div. change (lsum (map Rabs (tdata cen))) with tot. field. lra.
    + intros v. unfold Rdiv. rewrite Rabs_mult, (Rabs_pos_eq (/ tot)); [reflexivity|]. left. apply Rinv_0_lt_compat, Tp.
Qed.

Lemma log_raw_0 s : log_raw s 0 = - (1 / (PI * s ^ 4)).
Proof.
  unfold log_raw. replace (0 ^ 2) with 0 by ring. unfold Rdiv. rewrite Ropp_0, !Rmult_0_l, exp_0. ring.
Qed.

Lemma log_raw_gt s x : s <> 0 -> x <> 0 -> log_raw s 0 < log_raw s x.
Proof.
  intros Hs Hx. rewrite log_raw_0. unfold log_raw. set (q := x ^ 2 / (2 * s ^ 2)).
  replace (- x ^ 2 / (2 * s ^ 2)) with (- q) by (unfold q, Rdiv; ring).
  assert (Hq : 0 < q).
  { unfold q. apply Rmult_lt_0_compat; [|apply Rinv_0_lt_compat].
    - simpl. rewrite Rmult_1_r. apply Rsqr_pos_lt. auto.
    - assert (0 < s * s) by (apply Rsqr_pos_lt; auto). simpl. lra. }
  assert (Hc : 0 < 1 / (PI * s ^ 4)).
  { unfold Rdiv. rewrite Rmult_1_l. apply Rinv_0_lt_compat. apply Rmult_lt_0_compat; [apply PI_RGT_0|].
    assert (0 < s * s) by (apply Rsqr_pos_lt; auto). simpl. nra. }
  assert (He : (1 - q) * exp (- q) < 1).
  { pose proof (exp_pos (- q)). rewrite exp_Ropp in *.
    assert (1 < exp q) by (pose proof (exp_ineq1 q ltac:(lra)); lra).
    assert (/ exp q < 1) by (rewrite <- Rinv_1; apply Rinv_lt_contravar; lra). nra. }
  set (cc := 1 / (PI * s ^ 4)) in *. nra.
Qed.

Lemma log_apply_ok s r : s <> 0 -> r <> 0%nat ->
  exists k, (let* g := kernel_grid r 1 in log_apply s g) = Ok k.
Proof.
  intros Hs Hr. unfold kernel_grid. destruct (Nat.eqb_spec r 0); [contradiction|]. cbn [negb guard bind].
  set (g := build _ _ _ _ _). unfold log_apply. rewrite (proj2 (nonzero_true s) Hs). cbn [guard bind]. cbv zeta.
  assert (Wg : twf g) by apply twf_build.
  assert (Hl : List.length (tdata (tmap (log_raw s) g)) = ((r * 2 + 1) * (r * 2 + 1))%nat).
  { cbn [tmap tdata]. rewrite map_length. rewrite Wg. cbn. lia. }
  destruct (Nat.eqb_spec (List.length (tdata (tmap (log_raw s) g))) 0) as [E|E]; [lia|].
  cbn [negb guard bind].
  set (mean := tsum _ / INR _). set (tot := tsum _).
  destruct (nonzero tot) eqn:Et; [cbn [guard bind]; eauto|].
  exfalso. unfold nonzero in Et. destruct (Req_EM_T tot 0) as [Ez|]; [|discriminate].
  assert (Hall : forall i j, (i < r * 2 + 1)%nat -> (j < r * 2 + 1)%nat -> log_raw s (rho r i j) = mean).
  { intros i j Hi Hj.
    assert (Hz : Rabs (log_raw s (get g 0 0 i j) - mean) = 0).
    { apply (lsum_le_0 (tdata (tmap Rabs (tmap (fun v => v - mean) (tmap (log_raw s) g))))).
      - intros v Hv. cbn [tmap tdata] in Hv. apply in_map_iff in Hv as (x & <- & _). apply Rabs_pos.
      - unfold tot, tsum in Ez. lra.
      - cbn [tmap tdata]. apply (in_map Rabs), (in_map (fun v => v - mean)), (in_map (log_raw s)).
        apply get_in_data; auto; cbn; lia. }
    unfold g in Hz. rewrite get_build in Hz by lia. rewrite grid_rho, Rmult_1_r in Hz.
    destruct (Req_dec (log_raw s (rho r i j) - mean) 0) as [Hd|Hd]; [lra|]. apply Rabs_no_R0 in Hd. contradiction. }
  assert (Hc : rho r r r = 0).
  { unfold rho. rewrite Rminus_diag_eq by reflexivity. replace (0 ^ 2 + 0 ^ 2) with 0 by ring.
    rewrite sqrt_0. unfold Rdiv. ring. }
  assert (Hd : rho r r (r + 1) <> 0).
  { unfold rho. rewrite Rminus_diag_eq by reflexivity. rewrite plus_INR. cbn [INR].
    replace (0 ^ 2 + (INR r + 1 - INR r) ^ 2) with 1 by ring. rewrite sqrt_1.
    unfold Rdiv. rewrite Rmult_1_l. apply Rinv_neq_0_compat, not_0_INR, Hr. }
  pose proof (Hall r r ltac:(lia) ltac:(lia)) as H1. pose proof (Hall r (r + 1)%nat ltac:(lia) ltac:(lia)) as H2.
  rewrite Hc in H1. pose proof (log_raw_gt s _ Hs Hd). lra.
Qed.

Lemma log_apply_get s t k : twf t -> log_apply s t = Ok k ->
  twf k /\ exists mean tot, 0 < tot /\ forall b c i j, (b < tB t)%nat -> (c < tC t)%nat -> (i < tH t)%nat -> (j < tW t)%nat ->
    get k b c i j = (log_raw s (get t b c i j) - mean) / tot.
Proof.
  intros Wt. unfold log_apply. intros H. apply bind_ok in H as ([] & _ & H). cbv zeta in H.
  apply bind_ok in H as ([] & Hn & H). apply bind_ok in H as ([] & Ht & H). apply Ok_inj in H; subst k.
  split; [repeat apply twf_tmap; exact Wt|].
  eexists _, _. split; cycle 1.
  { intros b c i j Hb Hc Hi Hj.
    rewrite get_tmap; [|repeat apply twf_tmap; exact Wt|auto..].
    rewrite get_tmap; [|repeat apply twf_tmap; exact Wt|auto..].
    rewrite get_tmap; auto. }
  apply guard_ok, nonzero_true in Ht. match type of Ht with ?x <> 0 => assert (0 <= x); [|lra] end.
  unfold tsum. apply lsum_nonneg. intros v Hv. cbn [tmap tdata] in Hv.
  apply in_map_iff in Hv as (x & <- & _). apply Rabs_pos.
Qed.

Lemma log_kernel_radial s r k : (let* g := kernel_grid r 1 in log_apply s g) = Ok k ->
  r <> 0%nat /\ twf k /\ shape k = (1, 1, 2 * r + 1, 2 * r + 1)%nat /\ radial r k /\ tsum k = 0 /\ tsum (tmap Rabs k) = 1.
Proof.
  intros H. apply bind_ok in H as (g & Hg & H). unfold kernel_grid in Hg.
  apply bind_ok in Hg as ([] & Hr & Hg). apply Ok_inj in Hg; subst g. apply guard_ok in Hr.
  destruct (log_apply_get s _ k (twf_build _ _ _ _ _) H) as (Wk & mean & tot & _ & Hk).
  destruct (log_apply_sums _ _ _ H) as (S1 & S2 & Sh). unfold shape in Sh. cbn in Sh.
  split; [intros ->; discriminate Hr|]. split; [exact Wk|].
  split; [unfold shape; rewrite Sh; repeat (f_equal; try lia)|].
  split; [|auto].
  intros i j i' j' Hi Hj Hi' Hj' E. rewrite !Hk by (cbn; lia). rewrite !get_build by lia.
  rewrite !grid_rho. rewrite (rho_eq r i j i' j' E). reflexivity.
Qed.

(** ** get_kernel, all families *)
(** The non-Laplacian, non-Moore family with a given name. *)
Definition fam (name : string) : option ((dict -> res act)) :=
  (if String.eqb name "Gaussian" then Some mk_gaussian
   else if String.eqb name "GaussianMixture" then Some mk_mixture
   else if String.eqb name "CosOverX2" then Some mk_cosx2
   else if String.eqb name "DoGaussian" then Some mk_dogaussian
   else if String.eqb name "SmoothLifeKernel" then Some mk_smoothlife
   else None)%string.

Inductive kcase (cfg : dict) (k : tensor) : Prop :=
| KInner : dget "name" cfg = Some (VStr "InnerMoore") ->
    k = build 1 1 3 3 (fun _ _ i j => if Nat.eqb i 1 && Nat.eqb j 1 then 1 else 0) -> kcase cfg k
| KMoore r : dget "name" cfg = Some (VStr "MooreLike") -> dget "radius" cfg = Some (VInt (Z.of_nat r)) ->
    r <> 0%nat -> k = moore r -> kcase cfg k
| KFit name mk kw a r : dget "name" cfg = Some (VStr name) -> fam name = Some mk ->
    dget "kernel_kwargs" cfg = Some (VDict kw) -> mk kw = Ok a ->
    dget "radius" cfg = Some (VInt (Z.of_nat r)) -> r <> 0%nat -> act_ok a = Ok tt ->
    fitted r (fun i j => act_fn a (rho r i j)) k -> kcase cfg k
| KLife0 : dget "name" cfg = Some (VStr "SmoothLifeKernel") -> dget "radius" cfg = Some (VInt 0) ->
    k = build 1 1 1 1 (fun _ _ _ _ => 0) -> kcase cfg k
| KLog s r : dget "name" cfg = Some (VStr "LaplacianOfGaussian") ->
    dget "radius" cfg = Some (VInt (Z.of_nat r)) ->
    (let* g := kernel_grid r 1 in log_apply s g) = Ok k -> kcase cfg k.

Lemma fitted_ext r p q k : (forall i j, p i j = q i j) -> fitted r p k -> fitted r q k.
Proof.
  intros E (H1 & H2 & m & s & H3 & (i & j & Hi & Hj & H4) & H5 & H6).
  split; [auto|]. split; [auto|]. exists m, s. split; [|split; [|split]].
  - intros. rewrite <- E. auto.
  - exists i, j. rewrite <- E. auto.
  - rewrite H5. apply rsum_ext; intros. apply rsum_ext; intros. rewrite E. reflexivity.
  - intros. rewrite <- E. auto.
Qed.

Lemma radial_1_fitted a r k : radial_kernel a r 1 = Ok k ->
  r <> 0%nat /\ act_ok a = Ok tt /\ fitted r (fun i j => act_fn a (rho r i j)) k.
Proof.
  intros H. apply radial_kernel_inv in H as (H1 & H2 & H3). split; [auto|]. split; [auto|].
  eapply fitted_ext; [|exact H3]. intros. cbv beta. rewrite Rmult_1_r. reflexivity.
Qed.

Lemma get_kernel_cases cfg k : get_kernel cfg = Ok k -> kcase cfg k.
Proof.
  unfold get_kernel. intros H. apply bind_ok in H as (nm & Hnm & H). apply dgetk_ok in Hnm.
  assert (exists name, nm = VStr name) as [name E0] by (destruct nm; try discriminate H; eauto).
  rewrite E0 in H, Hnm. clear E0. cbv zeta in H.
  destruct (String.eqb_spec name "InnerMoore") as [->|N1].
  { apply Ok_inj in H; subst k. apply KInner; auto. }
  destruct (String.eqb_spec name "MooreLike") as [->|N2].
  { apply bind_ok in H as (rv & Hrv & H). apply dgetk_ok in Hrv.
    apply bind_ok in H as (r & Hr & H). apply as_size_ok in Hr. subst rv. cbv zeta in H.
    rewrite moore_total in H. apply bind_ok in H as ([] & Hg & H). apply Ok_inj in H; subst k.
    apply guard_ok, nonzero_true in Hg. assert (R0 : r <> 0%nat).
    { intros ->. apply Hg. simpl. ring. }
    apply (KMoore cfg _ r); auto. rewrite tmap_build. unfold moore. apply build_ext. intros b c i j _ _ _ _.
    pose proof (moore_count_pos r R0).
    destruct (Nat.eqb i r && Nat.eqb j r); [|unfold Rdiv; ring]. unfold Rdiv. ring. }
  cbv zeta in H.
  destruct (String.eqb name "LaplacianOfGaussian") eqn:EL.
  { apply String.eqb_eq in EL. subst name.
    cbn [String.eqb Ascii.eqb Bool.eqb] in H.
    apply bind_ok in H as (kw & Hkw & H). apply bind_ok in H as (kwargs & Hk & H).
    apply bind_ok in H as (sigma & Hs & H). apply bind_ok in H as (rv & Hrv & H). apply dgetk_ok in Hrv.
    apply bind_ok in H as (r & Hr & H). apply as_size_ok in Hr. subst rv.
    eapply KLog; eauto. }
  assert (Hfit : forall (mk : dict -> res act) (kf : act -> nat -> res tensor),
    (let* kw := dgetk "kernel_kwargs" cfg in let* kwargs := as_dict kw in let* a := mk kwargs in
     let* rv := dgetk "radius" cfg in let* r := as_size rv in kf a r) = Ok k ->
    exists kw a r, dget "kernel_kwargs" cfg = Some (VDict kw) /\ mk kw = Ok a /\
      dget "radius" cfg = Some (VInt (Z.of_nat r)) /\ kf a r = Ok k).
  { intros mk kf Hm. apply bind_ok in Hm as (kw & Hkw & Hm). apply dgetk_ok in Hkw.
    apply bind_ok in Hm as (kwargs & Hk & Hm). destruct kw; try discriminate Hk. cbn [as_dict] in Hk.
    injection Hk as ->.
    apply bind_ok in Hm as (a & Ha & Hm). apply bind_ok in Hm as (rv & Hrv & Hm). apply dgetk_ok in Hrv.
    apply bind_ok in Hm as (r & Hr & Hm). apply as_size_ok in Hr. subst rv. eauto 10. }
  destruct (String.eqb name "Gaussian") eqn:E1.
  { apply Hfit in H as (kw & a & r & H1 & H2 & H3 & H4). apply radial_1_fitted in H4 as (H5 & H6 & H7).
    apply (KFit cfg k name mk_gaussian kw a r); auto. unfold fam. rewrite E1. reflexivity. }
  destruct (String.eqb name "GaussianMixture") eqn:E2.
  { apply Hfit in H as (kw & a & r & H1 & H2 & H3 & H4). apply radial_1_fitted in H4 as (H5 & H6 & H7).
    apply (KFit cfg k name mk_mixture kw a r); auto. unfold fam. rewrite E1, E2. reflexivity. }
  destruct (String.eqb name "CosOverX2") eqn:E3.
  { apply Hfit in H as (kw & a & r & H1 & H2 & H3 & H4). apply radial_1_fitted in H4 as (H5 & H6 & H7).
    apply (KFit cfg k name mk_cosx2 kw a r); auto. unfold fam. rewrite E1, E2, E3. reflexivity. }
  destruct (String.eqb name "DoGaussian") eqn:E4.
  { apply Hfit in H as (kw & a & r & H1 & H2 & H3 & H4). apply radial_1_fitted in H4 as (H5 & H6 & H7).
    apply (KFit cfg k name mk_dogaussian kw a r); auto. unfold fam. rewrite E1, E2, E3, E4. reflexivity. }
  destruct (String.eqb name "SmoothLifeKernel") eqn:E5.
  { apply Hfit in H as (kw & a & r & H1 & H2 & H3 & H4). unfold smoothlife_kernel in H4.
    destruct (Nat.eqb_spec r 0) as [->|R0].
    - apply Ok_inj in H4; subst k. apply String.eqb_eq in E5. subst name. apply KLife0; auto.
    - apply radial_1_fitted in H4 as (H5 & H6 & H7).
      apply (KFit cfg k name mk_smoothlife kw a r); auto. unfold fam. rewrite E1, E2, E3, E4, E5. reflexivity. }
  discriminate H.
Qed.

(** Conversely, a named family with accepted parameters and radius at least 1 gives its
    fitted kernel. *)
Lemma get_kernel_fit cfg name mk kw a r : dget "name" cfg = Some (VStr name) -> fam name = Some mk ->
  dget "kernel_kwargs" cfg = Some (VDict kw) -> mk kw = Ok a ->
  dget "radius" cfg = Some (VInt (Z.of_nat r)) -> r <> 0%nat -> act_ok a = Ok tt ->
  exists k, get_kernel cfg = Ok k /\ radial_kernel a r 1 = Ok k /\ fitted r (fun i j => act_fn a (rho r i j)) k.
Proof.
  intros Hn Hf Hkw Ha Hr R0 Hok. destruct (radial_kernel_ok a r 1 R0 Hok) as (k & Ek & _).
  exists k. assert (F : fitted r (fun i j => act_fn a (rho r i j)) k) by (apply radial_1_fitted; auto).
  split; [|auto]. unfold get_kernel, dgetk. rewrite Hn. cbn [bind]. cbv zeta.
  unfold fam in Hf. rewrite Hkw, Hr.
  destruct (String.eqb_spec name "Gaussian") as [->|N1].
  { injection Hf as <-. cbn -[as_size radial_kernel mk_gaussian Z.of_nat]. rewrite Ha. cbn [bind]. rewrite as_size_of. exact Ek. }
  destruct (String.eqb_spec name "GaussianMixture") as [->|N2].
  { injection Hf as <-. cbn -[as_size radial_kernel mk_mixture Z.of_nat]. rewrite Ha. cbn [bind]. rewrite as_size_of. exact Ek. }
  destruct (String.eqb_spec name "CosOverX2") as [->|N3].
  { injection Hf as <-. cbn -[as_size radial_kernel mk_cosx2 Z.of_nat]. rewrite Ha. cbn [bind]. rewrite as_size_of. exact Ek. }
  destruct (String.eqb_spec name "DoGaussian") as [->|N4].
  { injection Hf as <-. cbn -[as_size radial_kernel mk_dogaussian Z.of_nat]. rewrite Ha. cbn [bind]. rewrite as_size_of. exact Ek. }
  destruct (String.eqb_spec name "SmoothLifeKernel") as [->|N5]; [|discriminate].
  injection Hf as <-. cbn -[as_size smoothlife_kernel radial_kernel mk_smoothlife Z.of_nat]. rewrite Ha. cbn [bind].
  rewrite as_size_of. cbn [bind]. unfold smoothlife_kernel. destruct (Nat.eqb_spec r 0); [contradiction|]. exact Ek.
Qed.
