(** Kernels inside automata: ranges of convolutions, conservation, symmetry of automata
    with kernels from get_kernel. *)
From Coq Require Import Reals Lra Lia List Arith Bool ZArith String.
From Verif Require Import Base PyDict Tensor MActivations MKernels MCommon MCca SGrid SCca SKern PTensor PStep PCca PSym PDyn PEqv PStepX PAct PKern.
Import ListNotations.
Open Scope R_scope.

(** ** Kernels from get_kernel *)
Lemma inner_sum : tsum (build 1 1 3 3 (fun _ _ i j => if Nat.eqb i 1 && Nat.eqb j 1 then 1 else 0)) = 1.
Proof. rewrite tsum_build. cbn [rsum Nat.eqb andb]. lra. Qed.

Lemma moore_sum r : r <> 0%nat -> tsum (moore r) = 1.
Proof.
  intros Hr. pose proof (moore_count_pos r Hr) as Hc. unfold moore.
  set (a := INR (2 * r + 1) ^ 2 - 1) in *.
  rewrite tsum_build. rewrite (rsum_ext 1 _ (fun b => rsum 1 (fun c => rsum (r * 2 + 1) (fun i => rsum (r * 2 + 1)
     (fun j => (if Nat.eqb i r && Nat.eqb j r then 0 else 1))) * / a))).
  - rewrite (rsum_ext 1 _ (fun b => rsum 1 (fun c => rsum (r * 2 + 1) (fun i => rsum (r * 2 + 1)
     (fun j => (if Nat.eqb i r && Nat.eqb j r then 0 else 1)))) * / a)) by (intros; apply rsum_scal_r).
    rewrite rsum_scal_r.
    pose proof (moore_total r) as Ht. rewrite tsum_build in Ht. rewrite Ht. fold a. field. lra.
  - intros b _. apply rsum_ext. intros c _. rewrite <- rsum_scal_r. apply rsum_ext. intros i _.
    rewrite <- rsum_scal_r. apply rsum_ext. intros j _. destruct (Nat.eqb i r && Nat.eqb j r); ring.
Qed.

Lemma build_nonneg B C H W f : (forall b c i j, 0 <= f b c i j) -> Forall (fun v => 0 <= v) (tdata (build B C H W f)).
Proof.
  intros Hf. apply Forall_forall. intros v Hv. cbn [build tdata] in Hv.
  apply in_map_iff in Hv as (x & <- & _). apply Hf.
Qed.

Lemma moore_normalised r : r <> 0%nat -> normalised (moore r).
Proof.
  intros Hr. split; [apply twf_build|]. split; [reflexivity|]. split; [reflexivity|].
  split; [|rewrite moore_sum by auto; lra].
  apply build_nonneg. intros. destruct (_ && _); [lra|]. left. apply Rinv_0_lt_compat.
  pose proof (moore_count_pos r Hr). lra.
Qed.

Lemma inner_normalised : normalised (build 1 1 3 3 (fun _ _ i j => if Nat.eqb i 1 && Nat.eqb j 1 then 1 else 0)).
Proof.
  split; [apply twf_build|]. split; [reflexivity|]. split; [reflexivity|].
  split; [|rewrite inner_sum; lra]. apply build_nonneg. intros. destruct (_ && _); lra.
Qed.

Lemma zero1_normalised : normalised (build 1 1 1 1 (fun _ _ _ _ => 0)).
Proof.
  split; [apply twf_build|]. split; [reflexivity|]. split; [reflexivity|].
  split; [|rewrite tsum_build; cbn [rsum]; lra]. apply build_nonneg. intros. lra.
Qed.

Lemma get_kernel_normalised cfg k : get_kernel cfg = Ok k ->
  dget "name" cfg <> Some (VStr "LaplacianOfGaussian") -> normalised k.
Proof.
  intros H HL. destruct (get_kernel_cases cfg k H).
  - subst. apply inner_normalised.
  - subst. apply moore_normalised; auto.
  - eapply fitted_normalised; eauto.
  - subst. apply zero1_normalised.
  - congruence.
Qed.

Lemma radius_eq (z : option value) r r' : z = Some (VInt (Z.of_nat r)) -> z = Some (VInt (Z.of_nat r')) -> r = r'.
Proof. intros -> E. injection E as E. lia. Qed.

Lemma centre_iff r i j : Nat.eqb i r && Nat.eqb j r =
  Z.eqb ((Z.of_nat i - Z.of_nat r) ^ 2 + (Z.of_nat j - Z.of_nat r) ^ 2) 0.
Proof.
  set (a := (Z.of_nat i - Z.of_nat r)%Z). set (b := (Z.of_nat j - Z.of_nat r)%Z).
  assert (Ha := Z.pow_even_nonneg a 2 ltac:(exists 1%Z; reflexivity)).
  assert (Hb := Z.pow_even_nonneg b 2 ltac:(exists 1%Z; reflexivity)).
  destruct (Z.eqb_spec (a ^ 2 + b ^ 2) 0) as [E|E].
  - assert (Ea : (a ^ 2 = 0)%Z) by lia. assert (Eb : (b ^ 2 = 0)%Z) by lia.
    apply Z.pow_eq_0_iff in Ea, Eb. unfold a, b in *.
    rewrite (proj2 (Nat.eqb_eq i r)), (proj2 (Nat.eqb_eq j r)) by lia. reflexivity.
  - destruct (Nat.eqb_spec i r) as [->|]; [|reflexivity]. destruct (Nat.eqb_spec j r) as [->|]; [|reflexivity].
    exfalso. apply E. unfold a, b. rewrite !Z.sub_diag. reflexivity.
Qed.

Lemma moore_radial r : radial r (moore r).
Proof.
  intros i j i' j' Hi Hj Hi' Hj' E. unfold moore. rewrite !get_build by lia.
  rewrite !centre_iff, E. reflexivity.
Qed.

Lemma inner_radial : radial 1 (build 1 1 3 3 (fun _ _ i j => if Nat.eqb i 1 && Nat.eqb j 1 then 1 else 0)).
Proof.
  intros i j i' j' Hi Hj Hi' Hj' E. rewrite !get_build by lia.
  rewrite !centre_iff, E. reflexivity.
Qed.

(** Every kernel has some radius, an odd square shape and is radial. *)
Lemma get_kernel_radial cfg k : get_kernel cfg = Ok k ->
  exists r, shape k = (1, 1, 2 * r + 1, 2 * r + 1)%nat /\ twf k /\ radial r k /\
    (dget "name" cfg = Some (VStr "InnerMoore") /\ r = 1%nat \/
     dget "name" cfg <> Some (VStr "InnerMoore") /\ dget "radius" cfg = Some (VInt (Z.of_nat r))).
Proof.
  intros H. destruct (get_kernel_cases cfg k H) as [Hn ->|r Hn Hr R0 ->|name mk kw a r Hn Hf Hkw Ha Hr R0 Hok F|Hn Hr ->|s r Hn Hr HL].
  - exists 1%nat. split; [reflexivity|]. split; [apply twf_build|]. split; [apply inner_radial|]. left. auto.
  - exists r. split; [unfold shape, moore; cbn [tB tC tH tW build]; rewrite (Nat.mul_comm r 2); reflexivity|]. split; [apply twf_build|]. split; [apply moore_radial|].
    right. split; [rewrite Hn; discriminate|auto].
  - exists r. destruct (fitted_wf r _ k F) as [W S]. split; [exact S|]. split; [exact W|].
    split; [eapply (fitted_radial r (act_fn a)); exact F|]. right. split; [|auto].
    rewrite Hn. intros E. injection E as ->. discriminate Hf.
  - exists 0%nat. split; [reflexivity|]. split; [apply twf_build|]. split.
    + intros i j i' j' Hi Hj Hi' Hj' _. rewrite !get_build by lia. reflexivity.
    + right. split; [rewrite Hn; discriminate|exact Hr].
  - destruct (log_kernel_radial s r k HL) as (R0 & W & S & Rd & _). exists r.
    split; [exact S|]. split; [exact W|]. split; [exact Rd|]. right. split; [rewrite Hn; discriminate|auto].
Qed.

Lemma get_kernel_sym cfg k : get_kernel cfg = Ok k -> sym_v k /\ sym_h k /\ sym_t k.
Proof. intros H. apply get_kernel_radial in H as (r & S & _ & Rd & _). eapply radial_sym; eauto. Qed.

Lemma get_kernel_radius0 cfg k : dget "radius" cfg = Some (VInt 0) -> get_kernel cfg = Ok k ->
  dget "name" cfg = Some (VStr "InnerMoore") \/
  dget "name" cfg = Some (VStr "SmoothLifeKernel") /\ k = mkT 1 1 1 1 [0].
Proof.
  intros H0 H. destruct (get_kernel_cases cfg k H) as [Hn ->|r Hn Hr R0 ->|name mk kw a r Hn Hf Hkw Ha Hr R0 Hok F|Hn Hr ->|s r Hn Hr HL].
  - auto.
  - exfalso. apply R0. apply (radius_eq _ r 0 Hr). exact H0.
  - exfalso. apply R0. apply (radius_eq _ r 0 Hr). exact H0.
  - right. split; [auto|reflexivity].
  - exfalso. apply log_kernel_radial in HL as (R0 & _). apply R0. apply (radius_eq _ r 0 Hr). exact H0.
Qed.

(** ** Convolution with a normalised kernel *)
Lemma pval_unit mo H W p f i j : (forall y x, (y < H)%nat -> (x < W)%nat -> 0 <= f y x <= 1) ->
  pad_allowed mo H p = true -> pad_allowed mo W p = true -> (0 < H)%nat -> (0 < W)%nat ->
  (i < H + 2 * p)%nat -> (j < W + 2 * p)%nat -> 0 <= pval mo H W p f i j <= 1.
Proof.
  intros Hf PH PW H0 W0 Hi Hj. unfold pval.
  destruct (pad_src mo H p i) as [y|] eqn:Ey; [|lra]. destruct (pad_src mo W p j) as [x|] eqn:Ex; [|lra].
  apply Hf; eapply pad_src_lt; eauto.
Qed.

Lemma conv_unit e n m k l r u v : (0 < e)%nat -> (0 < n)%nat ->
  tH k = (2 * r + 1)%nat -> tW k = (2 * r + 1)%nat -> normalised k ->
  init_layer e n m k = Ok l -> twf u -> in_unit u -> conv_apply l u = Ok v ->
  Forall (fun x => 0 <= x <= (if Nat.eqb (n mod e) 0 then 1 else INR e)) (tdata v).
Proof.
  intros He Hn Kh Kw (Wk & KB & KC & Knn & Ksum) Hl Hu Hin Hv.
  destruct (init_layer_wf e n m k l r He Hn Kh Kw Hl) as (Wl & Hp & Hm).
  rewrite (layer_apply_eq e n l u Wl) in Hv. destruct (layer_ready e l u) eqn:Er; [|discriminate].
  apply Ok_inj in Hv. subst v. apply layer_ready_inv in Er as (Ec & H0 & W0 & P1 & P2).
  assert (Eg : cl_g l = if Nat.eqb (n mod e) 0 then e else 1%nat).
  { unfold init_layer in Hl. rewrite groups_eq in Hl by auto. cbn [bind] in Hl.
    apply bind_ok in Hl as (w & _ & E). apply Ok_inj in E. subst l. reflexivity. }
  destruct Wl as (Hg & Hwf & _ & _ & EB & EC & EH & EW).
  assert (Ein : INR (tC (cl_w l)) = if Nat.eqb (n mod e) 0 then 1 else INR e).
  { rewrite Eg in EC. destruct (Nat.eqb (n mod e) 0).
    - replace (tC (cl_w l)) with 1%nat by nia. reflexivity.
    - f_equal. lia. }
  rewrite <- Ein.
  apply Forall_forall. intros x Hx. apply in_data_get in Hx as (b & o & i & j & Hb & Ho & Hi & Hj & ->); [|apply twf_build].
  cbn in Hb, Ho, Hi, Hj. rewrite get_build by auto. unfold convf.
  assert (Hinner : forall c, (c < tC (cl_w l))%nat ->
    0 <= rsum (tH (cl_w l)) (fun y => rsum (tW (cl_w l)) (fun x => get (cl_w l) o c y x *
      pval (cl_m l) (tH u) (tW u) (cl_p l) (get u b ((o / (tB (cl_w l) / cl_g l)) * tC (cl_w l) + c)) (i + y) (j + x))) <= 1).
  { intros c Hc. rewrite EH, EW, Hp.
    assert (Hpv : forall y x, (y < 2 * r + 1)%nat -> (x < 2 * r + 1)%nat ->
       0 <= pval (cl_m l) (tH u) (tW u) r (get u b ((o / (tB (cl_w l) / cl_g l)) * tC (cl_w l) + c)) (i + y) (j + x) <= 1).
    { intros y x Hy Hx. apply pval_unit; auto; try lia; try (rewrite <- Hp; auto).
      intros y' x' Hy' Hx'. unfold in_unit in Hin. rewrite Forall_forall in Hin. apply Hin, get_in_data; auto.
      pose proof (group_lt l o Hg ltac:(lia)). rewrite Ec. nia. }
    assert (Hw : forall y x, (y < 2 * r + 1)%nat -> (x < 2 * r + 1)%nat -> get (cl_w l) o c y x = get k 0 0 y x).
    { intros y x Hy Hx. rewrite (init_layer_w e n m k l) by (auto; lia). unfold bget, bidx. rewrite KB, KC. cbn [Nat.eqb].
      destruct (Nat.eqb_spec (tH k) 1), (Nat.eqb_spec (tW k) 1); try reflexivity; f_equal; lia. }
    assert (Hk0 : forall y x, (y < 2 * r + 1)%nat -> (x < 2 * r + 1)%nat -> 0 <= get k 0 0 y x).
    { intros y x Hy Hx. rewrite Forall_forall in Knn. apply Knn, get_in_data; auto; lia. }
    split.
    - apply rsum_nonneg. intros y Hy. apply rsum_nonneg. intros x Hx. rewrite Hw by auto.
      apply Rmult_le_pos; [apply Hk0; auto|apply Hpv; auto].
    - apply Rle_trans with (tsum k); [|exact Ksum]. rewrite (tsum_get k Wk), KB, KC, Kh, Kw. cbn [rsum].
      rewrite !Rplus_0_l. apply rsum_le. intros y Hy. apply rsum_le. intros x Hx. rewrite Hw by auto.
      specialize (Hpv y x Hy Hx). specialize (Hk0 y x Hy Hx). nra. }
  split; [apply rsum_nonneg; intros c Hc; apply Hinner; auto|].
  rewrite <- (Rmult_1_r (INR (tC (cl_w l)))). rewrite <- rsum_const. apply rsum_le. intros c Hc. apply Hinner; auto.
Qed.

(** ** Totals on the torus *)
Lemma rsum_zshift n c f : (0 < n)%nat -> rsum n (fun i => f (zmod (Z.of_nat i + c) n)) = rsum n f.
Proof.
  intros Hn. set (k := Z.to_nat (c mod Z.of_nat n)).
  rewrite (rsum_ext n _ (fun i => f ((i + k) mod n)%nat)); [apply rsum_mod_shift|].
  intros i Hi. f_equal. unfold zmod. apply Nat2Z.inj.
  rewrite Z2Nat.id by (apply Z.mod_pos_bound; lia).
  rewrite Nat2Z.inj_mod, Nat2Z.inj_add. unfold k. rewrite Z2Nat.id by (apply Z.mod_pos_bound; lia).
  rewrite Zplus_mod_idemp_r. reflexivity.
Qed.

Lemma toroidal_total r H W k f : (0 < H)%nat -> (0 < W)%nat ->
  rsum H (fun i => rsum W (fun j => toroidal_sum r H W k f i j)) =
  rsum (2 * r + 1) (fun y => rsum (2 * r + 1) (fun x => k y x)) * rsum H (fun i => rsum W (fun j => f i j)).
Proof.
  intros H0 W0. unfold toroidal_sum. set (n := (2 * r + 1)%nat).
  rewrite (rsum_ext H _ (fun i => rsum n (fun y => rsum n (fun x => rsum W (fun j =>
     k y x * f (zmod (Z.of_nat i + Z.of_nat y - Z.of_nat r) H) (zmod (Z.of_nat j + Z.of_nat x - Z.of_nat r) W)))))).
  2:{ intros i Hi. rewrite rsum_swap. apply rsum_ext. intros y Hy. apply rsum_swap. }
  rewrite rsum_swap. rewrite <- rsum_scal_r. apply rsum_ext. intros y Hy.
  rewrite rsum_swap. rewrite <- rsum_scal_r. apply rsum_ext. intros x Hx.
  rewrite (rsum_ext H _ (fun i => k y x * (fun i' => rsum W (fun j => f i' j)) (zmod (Z.of_nat i + (Z.of_nat y - Z.of_nat r)) H))).
  - rewrite rsum_scal. f_equal. apply (rsum_zshift H _ (fun i' => rsum W (fun j => f i' j))). auto.
  - intros i Hi. rewrite rsum_scal. f_equal.
    rewrite <- (rsum_zshift W (Z.of_nat x - Z.of_nat r) (fun j => f _ j) W0). apply rsum_ext. intros j Hj.
    f_equal; f_equal; lia.
Qed.

(** Total of one output plane of a circular depthwise convolution. *)
Lemma conv_total e k l r u v b o : (0 < e)%nat ->
  shape k = (1, 1, 2 * r + 1, 2 * r + 1)%nat -> twf k ->
  init_layer e e Circular k = Ok l -> tC u = e -> (0 < tH u)%nat -> (0 < tW u)%nat ->
  conv_apply l u = Ok v -> (b < tB u)%nat -> (o < e)%nat ->
  rsum (tH u) (fun i => rsum (tW u) (fun j => get v b o i j)) =
  tsum k * rsum (tH u) (fun i => rsum (tW u) (fun j => get u b o i j)).
Proof.
  intros He Sk Wk Hl Hc H0 W0 Hv Hb Ho. apply shape_inv in Sk as (K1 & K2 & K3 & K4).
  destruct (init_layer_wf e e Circular k l r He He K3 K4 Hl) as (Wl & Hp & Hm).
  assert (Hr : (r <= tH u)%nat /\ (r <= tW u)%nat).
  { rewrite (layer_apply_eq e e l u Wl) in Hv. destruct (layer_ready e l u) eqn:Er; [|discriminate].
    apply layer_ready_inv in Er as (_ & _ & _ & P1 & P2). rewrite Hm, Hp in P1, P2.
    split; eapply circ_allowed; eauto. }
  destruct (nbhd_conv_spec e e k l r u He He K3 K4 Hl Hc (proj1 Hr) (proj2 Hr) H0 W0) as (v' & Ev & _ & Hg).
  assert (v' = v) by congruence. subst v'.
  rewrite (rsum_ext (tH u) _ (fun i => rsum (tW u) (fun j => toroidal_sum r (tH u) (tW u) (fun y x => get k 0 0 y x) (get u b o) i j))).
  - rewrite toroidal_total by auto. f_equal. rewrite (tsum_get k Wk), K1, K2, K3, K4. cbn [rsum]. rewrite !Rplus_0_l. reflexivity.
  - intros i Hi. apply rsum_ext. intros j Hj. rewrite Hg by auto.
    rewrite Nat.mod_same, Nat.eqb_refl, Nat.div_same, Nat.div_1_r by lia.
    unfold toroidal_sum. apply rsum_ext. intros y Hy. apply rsum_ext. intros x Hx. f_equal.
    unfold bget, bidx. rewrite K1, K2. cbn [Nat.eqb].
    destruct (Nat.eqb_spec (tH k) 1), (Nat.eqb_spec (tW k) 1); try reflexivity; f_equal; lia.
Qed.

(** Constant planes under every padding that repeats grid values. *)
Lemma conv_const e k l m r u v a b o i j : (0 < e)%nat ->
  shape k = (1, 1, 2 * r + 1, 2 * r + 1)%nat -> twf k ->
  init_layer e e m k = Ok l -> m <> Zeros -> tC u = e ->
  (forall i j, (i < tH u)%nat -> (j < tW u)%nat -> get u b o i j = a) ->
  conv_apply l u = Ok v -> (b < tB u)%nat -> (o < e)%nat -> (i < tH u)%nat -> (j < tW u)%nat ->
  get v b o i j = tsum k * a.
Proof.
  intros He Sk Wk Hl Hz Hc Ha Hv Hb Ho Hi Hj. apply shape_inv in Sk as (K1 & K2 & K3 & K4).
  destruct (init_layer_wf e e m k l r He He K3 K4 Hl) as (Wl & Hp & Hm).
  rewrite (layer_apply_eq e e l u Wl) in Hv. destruct (layer_ready e l u) eqn:Er; [|discriminate].
  apply Ok_inj in Hv. subst v. rewrite get_build by auto.
  apply layer_ready_inv in Er as (_ & H0 & W0 & P1 & P2).
  assert (Eg : cl_g l = e).
  { unfold init_layer in Hl. rewrite groups_eq, Nat.mod_same in Hl by lia. cbn [Nat.eqb bind] in Hl.
    apply bind_ok in Hl as (w & _ & E). apply Ok_inj in E. subst l. reflexivity. }
  destruct Wl as (Hg & Hwf & _ & _ & EB & EC & EH & EW).
  assert (EC1 : tC (cl_w l) = 1%nat) by nia.
  unfold convf. rewrite EC1, EH, EW, Hp, EB, Eg. cbn [rsum]. rewrite Rplus_0_l.
  rewrite Nat.div_same, Nat.div_1_r, Nat.mul_1_r, Nat.add_0_r by lia.
  rewrite (tsum_get k Wk), K1, K2, K3, K4. cbn [rsum]. rewrite !Rplus_0_l. rewrite <- rsum_scal_r.
  apply rsum_ext. intros y Hy. rewrite <- rsum_scal_r. apply rsum_ext. intros x Hx.
  f_equal.
  - rewrite (init_layer_w e e m k l) by (auto; lia). unfold bget, bidx. rewrite K1, K2. cbn [Nat.eqb].
    destruct (Nat.eqb_spec (tH k) 1), (Nat.eqb_spec (tW k) 1); try reflexivity; f_equal; lia.
  - unfold pval. rewrite Hm in *. rewrite Hp in *.
    assert (Hsome : forall n q z, exists y', pad_src m n q z = Some y').
    { intros n q z. destruct m; [contradiction|..]; cbn [pad_src].
      - destruct (Nat.ltb z q); [eauto|]. destruct (Nat.ltb z (q + n)); eauto.
      - destruct (Nat.ltb z q); [eauto|]. destruct (Nat.ltb z (q + n)); eauto.
      - eauto. }
    destruct (Hsome (tH u) r (i + y)%nat) as [y' Ey]. destruct (Hsome (tW u) r (j + x)%nat) as [x' Ex].
    rewrite Ey, Ex. apply Ha; eapply pad_src_lt; eauto; lia.
Qed.

(** ** Laplacians *)
Lemma laplacian_sum : tsum get_laplacian_kernel = 0.
Proof. unfold tsum, get_laplacian_kernel, lsum. cbn [tdata fold_right]. lra. Qed.

Lemma log_kernel_sum cfg k : dget "name" cfg = Some (VStr "LaplacianOfGaussian") -> get_kernel cfg = Ok k ->
  tsum k = 0 /\ tsum (tmap Rabs k) = 1.
Proof.
  intros Hn H. destruct (get_kernel_cases cfg k H) as [Hn' ->|r Hn' Hr R0 ->|name mk kw a r Hn' Hf Hkw Ha Hr R0 Hok F|Hn' Hr ->|s r Hn' Hr HL].
  - congruence.
  - congruence.
  - rewrite Hn in Hn'. injection Hn' as <-. discriminate Hf.
  - congruence.
  - apply log_kernel_radial in HL. tauto.
Qed.

Lemma log_kernel_exists cfg kw s r : dget "name" cfg = Some (VStr "LaplacianOfGaussian") ->
  dget "kernel_kwargs" cfg = Some (VDict kw) -> as_num (query_kwargs "sigma" (VNum (1 / 2)) kw) = Ok s ->
  dget "radius" cfg = Some (VInt (Z.of_nat r)) -> s <> 0 -> r <> 0%nat -> exists k, get_kernel cfg = Ok k.
Proof.
  intros Hn Hk Hs Hr S0 R0. unfold get_kernel, dgetk. rewrite Hn, Hk, Hr.
  cbn -[as_size kernel_grid log_apply as_num query_kwargs Z.of_nat]. rewrite Hs. cbn [bind]. rewrite as_size_of.
  apply log_apply_ok; auto.
Qed.

(** ** Symmetric automata *)
Lemma layer_sym e n m k l r : (0 < e)%nat -> (0 < n)%nat -> shape k = (1, 1, 2 * r + 1, 2 * r + 1)%nat ->
  init_layer e n m k = Ok l ->
  (sym_v k -> sym_v (cl_w l)) /\ (sym_h k -> sym_h (cl_w l)) /\ (sym_t k -> sym_t (cl_w l)).
Proof.
  intros He Hn Sk Hl. apply shape_inv in Sk as (K1 & K2 & K3 & K4).
  destruct (init_layer_wf e n m k l r He Hn K3 K4 Hl) as ((Hg & Hwf & _ & _ & EB & EC & EH & EW) & Hp & Hm).
  rewrite Hp in EH, EW.
  assert (Hw : forall o c y x, (o < n)%nat -> (c < tC (cl_w l))%nat -> (y < 2 * r + 1)%nat -> (x < 2 * r + 1)%nat ->
    get (cl_w l) o c y x = get k 0 0 y x).
  { intros o c y x Ho Hc Hy Hx. rewrite (init_layer_w e n m k l) by (auto; lia). unfold bget, bidx. rewrite K1, K2. cbn [Nat.eqb].
    destruct (Nat.eqb_spec (tH k) 1), (Nat.eqb_spec (tW k) 1); try reflexivity; f_equal; lia. }
  split; [|split].
  - intros S o c y x Ho Hc Hy Hx. rewrite !Hw by lia. rewrite EH. specialize (S 0%nat 0%nat y x).
    rewrite K3 in S. apply S; lia.
  - intros S o c y x Ho Hc Hy Hx. rewrite !Hw by lia. rewrite EW. specialize (S 0%nat 0%nat y x).
    rewrite K4 in S. apply S; lia.
  - intros [_ S]. split; [congruence|]. intros o c y x Ho Hc Hy Hx. rewrite !Hw by lia.
    apply S; lia.
Qed.

Lemma id_kernel_sym : sym_v default_id_kernel /\ sym_h default_id_kernel /\ sym_t default_id_kernel.
Proof.
  apply (radial_sym 1); [reflexivity|].
  intros i j i' j' Hi Hj Hi' Hj' E.
  destruct i as [|[|[|]]], j as [|[|[|]]], i' as [|[|[|]]], j' as [|[|[|]]]; try lia; reflexivity.
Qed.

(** An automaton built with the default identity kernel and a kernel from get_kernel. *)
Lemma built_mirror e n m th cfg k g p d c : (0 < e)%nat -> (0 < n)%nat -> get_kernel cfg = Ok k ->
  make_cca e n m th (K4 default_id_kernel) (K4 k) g p d = Ok c ->
  cca_wf c /\ mirror_v c /\ mirror_h c /\ mirror_t c.
Proof.
  intros He Hn Hk Hc. destruct (get_kernel_radial cfg k Hk) as (r & Sk & Wk & Rk & _).
  destruct (radial_sym r k Sk Rk) as (V & H & T). destruct id_kernel_sym as (V' & H' & T').
  pose proof (shape_inv _ _ _ _ _ Sk) as (K1 & K2 & K3 & K4).
  assert (Ak : as_kernel (MCommon.K4 k) = Ok k).
  { cbn [as_kernel]. rewrite K3, K4, Nat.eqb_refl. reflexivity. }
  destruct (make_cca_wf e n m th (MCommon.K4 default_id_kernel) (MCommon.K4 k) g p d c default_id_kernel k 1 r He Hn eq_refl Ak eq_refl K4 Hc)
    as (Wf & E1 & E2 & E3 & E4 & E5 & E6 & E7 & E8 & E9 & E10 & E11 & E12 & E13).
  destruct (layer_sym e n m default_id_kernel (idl c) 1 He Hn eq_refl E11) as (a1 & a2 & a3).
  destruct (layer_sym e n m k (nbl c) r He Hn Sk E12) as (b1 & b2 & b3).
  split; [exact Wf|]. split; [split; auto|]. split; split; auto.
Qed.

(** ** Automata whose functions are all negative *)
Lemma built_rule n m th knb kt pn g p d c u u' : (0 < n)%nat ->
  as_kernel knb = Ok kt -> tW kt = (2 * pn + 1)%nat ->
  make_cca n n m th (K4 default_id_kernel) knb g p d = Ok c -> twf u -> cca_forward c u = Ok u' ->
  shape u' = shape u /\ twf u' /\ List.length g = n /\ List.length p = n /\
  let mm := zero_dead th u in
  exists nb, forall b o i j, (b < tB u)%nat -> (o < n)%nat -> (i < tH u)%nat -> (j < tW u)%nat ->
    get u' b o i j = clamp 0 1 (get mm b o i j + d *
      (rsum n (fun q => (1 - get mm b q i j) * act_fn (nth q g AIdentity) (get nb b q i j)
                        + get mm b q i j * act_fn (nth q p AIdentity) (get nb b q i j)) / (INR n * INR n))).
Proof.
  intros Hn Hk kW Hc Hu Hf.
  destruct (make_cca_wf n n m th (K4 default_id_kernel) knb g p d c default_id_kernel kt 1 pn Hn Hn eq_refl Hk eq_refl kW Hc)
    as (Wf & E1 & E2 & E3 & E4 & E5 & E6 & E7 & E8 & E9 & E10 & E11 & E12 & E13).
  pose proof (make_cca_pm _ _ _ _ _ _ _ _ _ _ Hc) as Epm.
  destruct (proj1 (cca_accepts c u Wf Hu)) as (A1 & _ & _ & _ & _ & A6 & A7 & _); [eauto|].
  destruct (cca_shape c u u' Wf Hu Hf) as [S1 S2].
  split; [exact S1|]. split; [exact S2|]. split; [congruence|]. split; [congruence|].
  destruct (cca_rule c u u' Wf Hu) as (m' & idn & nb & Em & Ei & Enb & Hv); auto.
  { rewrite E1, E2, Epm. exact E13. }
  rewrite mask_if_zero_dead in Em by auto. apply Ok_inj in Em. subst m'. rewrite E3 in *.
  intros mm. fold mm in Ei, Enb, Hv.
  destruct (mask_dims _ _ (mask_if_cell th) u mm Hu ltac:(unfold mm; apply mask_if_zero_dead; auto)) as [Mw Ms].
  assert (Eid : idn = mm) by (apply (id_conv_identity n m (idl c) mm idn); auto). subst idn.
  exists nb. intros b o i j Hb Ho Hi Hj. rewrite (Hv b o i j) by (auto; lia). rewrite E1, E2, E4, E5, E6. reflexivity.
Qed.

Lemma zero_dead_le th u b c i j : twf u -> in_unit u -> (b < tB u)%nat -> (c < tC u)%nat -> (i < tH u)%nat -> (j < tW u)%nat ->
  0 <= get (zero_dead th u) b c i j <= get u b c i j /\ get u b c i j <= 1.
Proof.
  intros Hu Hin Hb Hc Hi Hj. unfold in_unit in Hin. rewrite Forall_forall in Hin.
  assert (Hx := Hin _ (get_in_data u b c i j Hu Hb Hc Hi Hj)).
  unfold zero_dead. destruct (Nat.leb 4 (tC u)); [|lra]. rewrite get_build by auto.
  destruct (Rlt_dec th (get u b 3 i j)); lra.
Qed.

Lemma shrink_step n m th knb kt pn g p d c u u' : (0 < n)%nat ->
  as_kernel knb = Ok kt -> tW kt = (2 * pn + 1)%nat ->
  make_cca n n m th (K4 default_id_kernel) knb g p d = Ok c -> twf u -> in_unit u -> 0 <= d ->
  (forall a x, In a g -> act_fn a x <= 0) -> (forall a x, In a p -> act_fn a x <= 0) ->
  cca_forward c u = Ok u' ->
  shape u' = shape u /\ twf u' /\ in_unit u' /\
  (forall b o i j, (b < tB u)%nat -> (o < tC u)%nat -> (i < tH u)%nat -> (j < tW u)%nat ->
     get u' b o i j <= get u b o i j) /\ tsum u' <= tsum u.
Proof.
  intros Hn Hk kW Hc Hu Hin Hd Hg Hp Hf.
  destruct (built_rule n m th knb kt pn g p d c u u' Hn Hk kW Hc Hu Hf) as (S1 & S2 & Lg & Lp & nb & Hv).
  destruct (make_cca_wf n n m th (K4 default_id_kernel) knb g p d c default_id_kernel kt 1 pn Hn Hn eq_refl Hk eq_refl kW Hc)
    as (Wf & E1 & _).
  destruct (proj1 (cca_accepts c u Wf Hu)) as (A1 & _); [eauto|]. rewrite E1 in A1.
  split; [exact S1|]. split; [exact S2|]. split; [eapply step_in_unit; exact Hf|].
  assert (Hle : forall b o i j, (b < tB u)%nat -> (o < tC u)%nat -> (i < tH u)%nat -> (j < tW u)%nat ->
     get u' b o i j <= get u b o i j).
  { intros b o i j Hb Ho Hi Hj. rewrite Hv by (auto; lia).
    assert (Hm := fun q Hq => zero_dead_le th u b q i j Hu Hin Hb Hq Hi Hj).
    set (s := rsum n _). assert (Hs : s <= 0).
    { unfold s. rewrite <- (rsum_0 n (fun _ => 0)) by auto. apply rsum_le. intros q Hq.
      assert (G := Hg (nth q g AIdentity) (get nb b q i j) ltac:(apply nth_In; lia)).
      assert (P := Hp (nth q p AIdentity) (get nb b q i j) ltac:(apply nth_In; lia)).
      specialize (Hm q ltac:(lia)). nra. }
    assert (Hpos : 0 < INR n) by (apply lt_0_INR; auto).
    assert (Hq : d * (s / (INR n * INR n)) <= 0).
    { assert (0 < / (INR n * INR n)) by (apply Rinv_0_lt_compat; nra).
      assert (s / (INR n * INR n) <= 0) by (unfold Rdiv; nra). nra. }
    destruct (Hm o Ho) as [Ho1 Ho2].
    apply Rle_trans with (clamp 0 1 (get (zero_dead th u) b o i j)); [apply clamp_mono; lra|].
    rewrite clamp_id by lra. lra. }
  split; [exact Hle|].
  apply shape_inv in S1 as (s1 & s2 & s3 & s4).
  rewrite (tsum_get u Hu), (tsum_get u' S2), s1, s2, s3, s4.
  apply rsum_le; intros b Hb. apply rsum_le; intros o Ho. apply rsum_le; intros i Hi. apply rsum_le; intros j Hj. auto.
Qed.

Lemma shrink_steps n m th knb kt pn g p d c k : (0 < n)%nat ->
  as_kernel knb = Ok kt -> tW kt = (2 * pn + 1)%nat ->
  make_cca n n m th (K4 default_id_kernel) knb g p d = Ok c -> 0 <= d ->
  (forall a x, In a g -> act_fn a x <= 0) -> (forall a x, In a p -> act_fn a x <= 0) ->
  forall u u', twf u -> in_unit u -> iter_res (cca_forward c) k u = Ok u' ->
  shape u' = shape u /\ twf u' /\
  (forall b o i j, (b < tB u)%nat -> (o < tC u)%nat -> (i < tH u)%nat -> (j < tW u)%nat ->
     get u' b o i j <= get u b o i j) /\ tsum u' <= tsum u.
Proof.
  intros Hn Hk kW Hc Hd Hg Hp. induction k as [|k IH]; intros u u' Hu Hin H; cbn [iter_res] in H.
  - apply Ok_inj in H. subst u'. split; [reflexivity|]. split; [auto|]. split; [intros; lra|lra].
  - apply bind_ok in H as (v & Hv & H).
    destruct (shrink_step n m th knb kt pn g p d c u v Hn Hk kW Hc Hu Hin Hd Hg Hp Hv) as (s1 & s2 & s3 & s4 & s5).
    destruct (IH v u' s2 s3 H) as (t1 & t2 & t3 & t4).
    apply shape_inv in s1 as q. destruct q as (q1 & q2 & q3 & q4).
    split; [congruence|]. split; [auto|]. split; [|lra].
    intros b o i j Hb Ho Hi Hj. eapply Rle_trans; [apply t3; lia|apply s4; auto].
Qed.

(** ** Edge kernels *)
Definition edge_dist (r : nat) (mode : bool) (dx : R) (i j : nat) : R :=
  if mode then sqrt ((INR j - INR r - dx) ^ 2 + (INR i - INR r) ^ 2) / INR r
  else sqrt ((INR j - INR r) ^ 2 + (INR i - INR r - dx) ^ 2) / INR r.

Lemma edge_kernel_inv a r mode dx k : edge_kernel a r mode dx = Ok k ->
  r <> 0%nat /\ act_ok a = Ok tt /\
  fitted r (fun i j => act_fn a (edge_dist r mode dx i j) - act_fn a (edge_dist r mode (- dx) i j)) k.
Proof.
  unfold edge_kernel, edge_grid. destruct (Nat.eqb_spec r 0) as [->|R0]; [discriminate|].
  cbn [negb guard bind]. intros H. apply bind_ok in H as (k1 & H1 & H). apply bind_ok in H as (k2 & H2 & H).
  apply bind_ok in H as (q & Hq & H). apply Ok_inj in H. subst k.
  apply act_apply_inv in H1 as [-> Hok]. apply act_apply_inv in H2 as [-> _].
  split; [auto|]. split; [auto|].
  rewrite !tmap_build in Hq. rewrite tzip_same in Hq by reflexivity. apply Ok_inj in Hq. subst q. cbn [tB tC tH tW build].
  rewrite (build_ext 1 1 _ _ _ (fun _ _ i j => act_fn a (edge_dist r mode dx i j) - act_fn a (edge_dist r mode (- dx) i j))).
  - apply normalize_fitted.
  - intros b c i j Hb Hc Hi Hj. rewrite !get_build by auto. rewrite !off_eq. unfold edge_dist.
    destruct mode; reflexivity.
Qed.

Lemma edge_kernel_ok a r mode dx : r <> 0%nat -> act_ok a = Ok tt -> exists k, edge_kernel a r mode dx = Ok k.
Proof.
  intros R0 Ha. unfold edge_kernel, edge_grid. destruct (Nat.eqb_spec r 0) as [->|_]; [contradiction|].
  cbn [negb guard bind]. unfold act_apply. rewrite Ha. cbn [bind].
  rewrite !tmap_build. rewrite tzip_same by reflexivity. cbn [bind]. eauto.
Qed.

(** The kernel and its mirror image along the edge direction add up to a constant. *)
Lemma edge_antisym a r (mode : bool) dx k : edge_kernel a r mode dx = Ok k ->
  exists s, forall i j, (i < 2 * r + 1)%nat -> (j < 2 * r + 1)%nat ->
    get k 0 0 i j + (if mode then get k 0 0 i (2 * r - j) else get k 0 0 (2 * r - i) j) = s.
Proof.
  intros H. apply edge_kernel_inv in H as (R0 & _ & F).
  destruct (fitted_sum_form r _ k F) as (m & s & _ & _ & _ & _ & Hg & _).
  exists (- (2 * m) / (eps9 + s)). intros i j Hi Hj.
  assert (E : forall q, (q < 2 * r + 1)%nat -> INR (2 * r - q) - INR r = - (INR q - INR r)).
  { intros q Hq. rewrite minus_INR by lia. rewrite mult_INR. simpl. ring. }
  destruct mode; rewrite !Hg by lia; unfold edge_dist; rewrite E by auto.
  - replace (- (INR j - INR r) - dx) with (- (INR j - INR r - - dx)) by ring.
    replace (- (INR j - INR r) - - dx) with (- (INR j - INR r - dx)) by ring.
    rewrite <- !(Rsqr_pow2 (- _)), <- !Rsqr_neg, !Rsqr_pow2. unfold Rdiv. ring.
  - replace (- (INR i - INR r) - dx) with (- (INR i - INR r - - dx)) by ring.
    replace (- (INR i - INR r) - - dx) with (- (INR i - INR r - dx)) by ring.
    rewrite <- !(Rsqr_pow2 (- _)), <- !Rsqr_neg, !Rsqr_pow2. unfold Rdiv. ring.
Qed.
