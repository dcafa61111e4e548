(** Proofs about the assertions of the project's tests. *)
From Coq Require Import Reals Lra Lia List Arith Bool ZArith String.
From Verif Require Import Base PyDict Tensor MActivations MKernels MCommon MCca MConfig MRd MUtils SGrid SCca SKern SConfig SUtils SRd STests.
From Verif Require Import PNca PStepX PAct PTensor PStep PCca PDyn PKern PKernX PKernY PConfig PConfigX PConfigY PDefaults PRd PUtils.
Import ListNotations.
Open Scope R_scope.

Lemma pow2_gt_0 x : x <> 0 -> 0 < x ^ 2.
Proof. intros H. replace (x ^ 2) with (Rsqr x) by (unfold Rsqr; ring). apply Rsqr_pos_lt. exact H. Qed.

(** ** Growth functions (testing/yuca/test_activations.py) *)
Lemma exp_sq_lt q a b : q <> 0 -> a ^ 2 < b ^ 2 -> exp (- (b / q) ^ 2 / 2) < exp (- (a / q) ^ 2 / 2).
Proof.
  intros Q H. apply exp_increasing. unfold Rdiv. rewrite !Rpow_mult_distr. assert (0 < (/ q) ^ 2) by (apply pow2_gt_0, Rinv_neq_0_compat, Q).
  assert (a ^ 2 * (/ q) ^ 2 < b ^ 2 * (/ q) ^ 2) by (apply Rmult_lt_compat_r; assumption). lra.
Qed.

Lemma gaussian_peak mu s d : eps9 + s <> 0 -> d <> 0 -> act_fn (AGaussian mu s false) (mu + d) < act_fn (AGaussian mu s false) mu.
Proof.
  intros Q D. cbn [act_fn]. unfold gauss. apply exp_sq_lt; [exact Q|]. replace (mu - mu) with 0 by ring. replace (mu + d - mu) with d by ring.
  rewrite pow_i by lia. apply pow2_gt_0. exact D.
Qed.

Lemma dog_sign mu s dx d : eps9 + s <> 0 -> let f := act_fn (ADoGaussian mu s dx false) in
  f mu = 0 /\ (0 < d * dx -> f (mu + d) < 0 /\ 0 < f (mu - d)).
Proof.
  intros Q f. unfold f. cbn [act_fn]. cbv zeta. split.
  - replace (mu + dx - mu) with dx by ring. replace (mu - dx - mu) with (- dx) by ring. replace ((- dx / (eps9 + s)) ^ 2) with ((dx / (eps9 + s)) ^ 2) by (unfold Rdiv; ring). ring.
  - intros D. assert (A : (d - dx) ^ 2 < (d + dx) ^ 2) by (replace ((d + dx) ^ 2) with ((d - dx) ^ 2 + 4 * (d * dx)) by ring; lra). split.
    + replace (mu + d + dx - mu) with (d + dx) by ring. replace (mu + d - dx - mu) with (d - dx) by ring. pose proof (exp_sq_lt _ _ _ Q A). lra.
    + replace (mu - d + dx - mu) with (- (d - dx)) by ring. replace (mu - d - dx - mu) with (- (d + dx)) by ring.
      pose proof (exp_sq_lt (eps9 + s) (- (d - dx)) (- (d + dx)) Q). assert ((- (d - dx)) ^ 2 < (- (d + dx)) ^ 2) by (replace ((- (d - dx)) ^ 2) with ((d - dx) ^ 2) by ring; replace ((- (d + dx)) ^ 2) with ((d + dx) ^ 2) by ring; exact A). lra.
Qed.

(** ** Kernels (testing/yuca/test_kernels.py) *)
Lemma fitted_gap r p k g i j i' j' : fitted r p k -> (i < 2 * r + 1)%nat -> (j < 2 * r + 1)%nat -> (i' < 2 * r + 1)%nat -> (j' < 2 * r + 1)%nat ->
  1 / 1000 <= g -> g <= p i j - p i' j' -> 1 - 5 / 1000000 < tsum k < 1.
Proof.
  intros F Hi Hj Hi' Hj' G Hp. destruct (fitted_normalised r p k F) as (_ & T1 & _). destruct (fitted_sum_form r p k F) as (m & s & Hm & _ & Es & S0 & _ & Ht). split; [|exact T1].
  assert (S : g <= s).
  { rewrite Es. apply Rle_trans with (rsum (2 * r + 1) (fun j => p i j - m)).
    - apply Rle_trans with (p i j - m); [pose proof (Hm i' j' Hi' Hj'); lra|]. apply (rsum_term_le _ j (fun j => p i j - m)); [exact Hj|]. intros x Hx. pose proof (Hm i x Hi Hx). lra.
    - apply (rsum_term_le _ i (fun i => rsum (2 * r + 1) (fun j => p i j - m))); [exact Hi|]. intros x Hx. apply rsum_nonneg. intros y Hy. pose proof (Hm x y Hx Hy). lra. }
  rewrite Ht. assert (0 < eps9 + s) by (unfold eps9; lra). apply (Rmult_lt_reg_r (eps9 + s)); [assumption|]. unfold Rdiv at 2. rewrite Rmult_assoc, Rinv_l by lra. unfold eps9. lra.
Qed.

Lemma rho_centre r : (1 <= r)%nat -> rho r r r = 0.
Proof. intros H. unfold rho. replace ((INR r - INR r) ^ 2 + (INR r - INR r) ^ 2) with 0 by ring. rewrite sqrt_0. unfold Rdiv. ring. Qed.

Lemma rho_corner r : (1 <= r)%nat -> rho r 0 0 = sqrt 2.
Proof.
  intros H. assert (0 < INR r) by (apply lt_0_INR; lia). unfold rho. cbn [INR]. replace ((0 - INR r) ^ 2 + (0 - INR r) ^ 2) with (2 * (INR r * INR r)) by ring.
  rewrite sqrt_mult by nra. rewrite sqrt_square by lra. unfold Rdiv. rewrite Rmult_assoc, Rinv_r by lra. ring.
Qed.

Lemma rho_edge r : (1 <= r)%nat -> rho r r 0 = 1.
Proof.
  intros H. assert (0 < INR r) by (apply lt_0_INR; lia). unfold rho. cbn [INR]. replace ((INR r - INR r) ^ 2 + (0 - INR r) ^ 2) with (INR r * INR r) by ring.
  rewrite sqrt_square by lra. apply Rinv_r. lra.
Qed.

Lemma sqrt2_bounds : 141 / 100 <= sqrt 2 <= 142 / 100.
Proof.
  split.
  - rewrite <- (sqrt_square (141 / 100)) by lra. apply sqrt_le_1_alt. lra.
  - rewrite <- (sqrt_square (142 / 100)) by lra. apply sqrt_le_1_alt. lra.
Qed.

Lemma exp_le x y : x <= y -> exp x <= exp y.
Proof. intros [H|H]; [left; apply exp_increasing; exact H|right; f_equal; exact H]. Qed.

Lemma exp_neg_le x : 0 <= x -> exp (- x) <= / (1 + x).
Proof. intros H. rewrite exp_Ropp. apply Rinv_le_contravar; [lra|]. pose proof (exp_ineq1_le x). lra. Qed.

Lemma kwarg_none kw key d : dget key kw = None -> kwarg kw key d d.
Proof. unfold kwarg. intros ->. reflexivity. Qed.

(** A config as the test builds it, for any radius and any arguments that leave the class's own
    alone. *)
Lemma gaussian_sum cfg kw r : dget "kernel_kwargs" cfg = Some (VDict kw) -> dget "radius" cfg = Some (VInt (Z.of_nat r)) -> (1 <= r)%nat -> dget "mode" kw = None ->
  dget "name" cfg = Some (VStr "Gaussian") -> dget "mu" kw = None -> dget "sigma" kw = None -> exists k, get_kernel cfg = Ok k /\ 1 - 5 / 1000000 < tsum k < 1.
Proof.
  intros H1 H2 R M N K1 K2. destruct (gaussian_kernel cfg kw r H1 H2 R M 0 (1 / 10) N (kwarg_none _ _ _ K1) (kwarg_none _ _ _ K2)) as (k & E & F); [lra|].
  exists k. split; [exact E|]. refine (fitted_gap r _ k (1 / 2) r r 0 0 F ltac:(lia) ltac:(lia) ltac:(lia) ltac:(lia) ltac:(lra) _). cbv beta.
  rewrite rho_centre, rho_corner by exact R. pose proof sqrt2_bounds as B.
  replace (- ((0 - 0) / (/ 1000000000 + 1 / 10)) ^ 2 / 2) with 0 by (field; lra). rewrite exp_0.
  set (z := (sqrt 2 - 0) / (/ 1000000000 + 1 / 10)). assert (Z : 2 <= z). { unfold z. apply (Rmult_le_reg_r (/ 1000000000 + 1 / 10)); [lra|]. unfold Rdiv at 2. rewrite Rmult_assoc, Rinv_l by lra. lra. }
  assert (1 <= z ^ 2 / 2) by nra. pose proof (exp_neg_le (z ^ 2 / 2) ltac:(lra)) as X. replace (- z ^ 2 / 2) with (- (z ^ 2 / 2)) by lra. assert (/ (1 + z ^ 2 / 2) <= / 2) by (apply Rinv_le_contravar; lra). lra.
Qed.

Lemma cosx2_sum cfg kw r : dget "kernel_kwargs" cfg = Some (VDict kw) -> dget "radius" cfg = Some (VInt (Z.of_nat r)) -> (1 <= r)%nat -> dget "mode" kw = None ->
  dget "name" cfg = Some (VStr "CosOverX2") -> dget "mu" kw = None -> dget "omega" kw = None -> exists k, get_kernel cfg = Ok k /\ 1 - 5 / 1000000 < tsum k < 1.
Proof.
  intros H1 H2 R M N K1 K2. destruct (cosx2_kernel cfg kw r H1 H2 R M 0 (2512 / 100) N (kwarg_none _ _ _ K1) (kwarg_none _ _ _ K2)) as (k & E & F).
  exists k. split; [exact E|]. refine (fitted_gap r _ k (1 / 2) r r 0 0 F ltac:(lia) ltac:(lia) ltac:(lia) ltac:(lia) ltac:(lra) _). cbv beta.
  rewrite rho_centre, rho_corner by exact R. pose proof sqrt2_bounds as B. replace (0 - 0) with 0 by ring. rewrite Rabs_R0, !Rmult_0_r, cos_0, pow_i by lia.
  replace (0 - sqrt 2) with (- sqrt 2) by ring. rewrite Rabs_Ropp, Rabs_pos_eq by lra. set (t := 2512 / 100 * sqrt 2). pose proof (COS_bound t) as C.
  assert (D : 2 <= 1 + (10 * sqrt 2) ^ 2) by nra. assert (cos t / (1 + (10 * sqrt 2) ^ 2) <= 1 / 2).
  { apply (Rmult_le_reg_r (1 + (10 * sqrt 2) ^ 2)); [lra|]. unfold Rdiv at 1. rewrite Rmult_assoc, Rinv_l by lra. lra. }
  unfold Rdiv at 2. rewrite Rplus_0_r, Rinv_1. lra.
Qed.

Lemma smoothlife_sum cfg kw r : dget "kernel_kwargs" cfg = Some (VDict kw) -> dget "radius" cfg = Some (VInt (Z.of_nat r)) -> (1 <= r)%nat ->
  dget "name" cfg = Some (VStr "SmoothLifeKernel") -> dget "r_a" kw = None -> dget "r_i" kw = None -> exists k, get_kernel cfg = Ok k /\ 1 - 5 / 1000000 < tsum k < 1.
Proof.
  intros H1 H2 R N K1 K2. destruct (smoothlife_kernel_spec cfg kw r H1 H2 R 1 (1 / 3) N (kwarg_none _ _ _ K1) (kwarg_none _ _ _ K2)) as (k & E & F).
  exists k. split; [exact E|]. refine (fitted_gap r _ k (1 / 2) r 0 r r F ltac:(lia) ltac:(lia) ltac:(lia) ltac:(lia) ltac:(lra) _). cbv beta.
  rewrite rho_centre, rho_edge by exact R. destruct (Rle_dec (1 / 3) 1); [|lra]. destruct (Rle_dec 1 1); [|lra]. destruct (Rle_dec (1 / 3) 0); lra.
Qed.

Lemma mixture_sum cfg kw r : dget "kernel_kwargs" cfg = Some (VDict kw) -> dget "radius" cfg = Some (VInt (Z.of_nat r)) -> (1 <= r)%nat -> dget "mode" kw = None ->
  dget "name" cfg = Some (VStr "GaussianMixture") -> dget "parameters" kw = None -> exists k, get_kernel cfg = Ok k /\ 1 - 5 / 1000000 < tsum k < 1.
Proof.
  intros H1 H2 R M N K1. destruct (mixture_kernel cfg kw r H1 H2 R M [1 / 2; 15 / 100] [(1, 1 / 2, 15 / 100)] N) as (k & E & F).
  { right. auto. } { reflexivity. } { discriminate. } { intros a m s [Q|[]]. injection Q as _ _ <-. lra. }
  exists k. split; [exact E|]. refine (fitted_gap r _ k (1 / 1000) r r 0 0 F ltac:(lia) ltac:(lia) ltac:(lia) ltac:(lia) ltac:(lra) _). cbv beta. cbn [map lsum fold_right].
  rewrite rho_centre, rho_corner by exact R. pose proof sqrt2_bounds as B. set (q := / 1000000000 + 15 / 100).
  assert (Q0 : 15 / 100 < q < 16 / 100) by (unfold q; lra).
  assert (A : exp (Ropp 6) <= exp (- ((0 - 1 / 2) / q) ^ 2 / 2)).
  { apply exp_le. assert (((0 - 1 / 2) / q) ^ 2 <= 12); [|lra]. replace (((0 - 1 / 2) / q) ^ 2) with ((1 / 4) * / (q * q)) by (field; lra).
    assert (/ (q * q) <= / (225 / 10000)) by (apply Rinv_le_contravar; nra). lra. }
  assert (C : exp (- ((sqrt 2 - 1 / 2) / q) ^ 2 / 2) <= exp (Ropp 6) * / 7).
  { apply Rle_trans with (exp (Ropp 6) * exp (Ropp 6)); [rewrite <- exp_plus; apply exp_le|apply Rmult_le_compat_l; [left; apply exp_pos|]].
    - assert (24 <= ((sqrt 2 - 1 / 2) / q) ^ 2); [|lra]. assert (5 <= (sqrt 2 - 1 / 2) / q); [|nra]. apply (Rmult_le_reg_r q); [lra|]. replace ((sqrt 2 - 1 / 2) / q * q) with (sqrt 2 - 1 / 2) by (field; lra). lra.
    - pose proof (exp_neg_le 6 ltac:(lra)) as X. replace (1 + 6) with 7 in X by lra. exact X. }
  assert (D : / 729 <= exp (Ropp 6)).
  { rewrite exp_Ropp. apply Rinv_le_contravar; [apply exp_pos|]. replace 6 with (1 + (1 + (1 + (1 + (1 + 1))))) by lra. rewrite !exp_plus. pose proof exp_le_3. pose proof (exp_pos 1).
    assert (exp 1 * exp 1 <= 9) by nra. assert (0 < exp 1 * exp 1) by nra. replace (exp 1 * (exp 1 * (exp 1 * (exp 1 * (exp 1 * exp 1))))) with ((exp 1 * exp 1) * ((exp 1 * exp 1) * (exp 1 * exp 1))) by ring. set (t := exp 1 * exp 1) in *. assert (t * t <= 81) by nra. assert (0 < t * t) by nra. nra. }
  assert (U : forall x, exp (- (x / q) ^ 2 / 2) <= 1). { intros x. replace 1 with (exp 0) by apply exp_0. apply exp_le. pose proof (pow2_ge_0 (x / q)). lra. }
  rewrite !(clamp_id 0 1) by (split; [pose proof (exp_pos (- ((0 - 1 / 2) / q) ^ 2 / 2)); pose proof (exp_pos (- ((sqrt 2 - 1 / 2) / q) ^ 2 / 2)); lra|pose proof (U (0 - 1 / 2)); pose proof (U (sqrt 2 - 1 / 2)); lra]). lra.
Qed.

(** ** A fresh CCA (testing/yuca/ca/test_continuous.py) *)
Lemma default_ok d pp : act_ok (default_gen d pp) = Ok tt /\ act_ok (default_per d pp) = Ok tt.
Proof.
  pose proof (default_sigma_range d pp) as [S _]. pose proof (clamp_range 0 1 (default_sigma d pp) ltac:(lra)) as S'.
  assert (A : forall s, 0 <= s -> guard (nonzero (eps9 + s)) NonFinite = Ok tt).
  { intros s H. assert (0 < eps9) by (unfold eps9; lra). replace (nonzero (eps9 + s)) with true; [reflexivity|]. symmetry. apply nonzero_true. lra. }
  unfold default_gen, default_per. split.
  - destruct (Nat.ltb pp 8); [destruct (dr_g d pp); apply A; lra|reflexivity].
  - destruct (Nat.ltb pp 8); [destruct (dr_p d pp); apply A; lra|reflexivity].
Qed.

Lemma acts_ok_map (f : nat -> act) l : (forall i, act_ok (f i) = Ok tt) -> acts_ok (map f l) = Ok tt.
Proof. intros H. induction l as [|i l IH]; [reflexivity|]. cbn [map acts_ok]. rewrite H. exact IH. Qed.

Lemma room_pad m r n : room m r n -> pad_allowed m n 1 = true /\ pad_allowed m n r = true.
Proof. intros [P H]. destruct m; cbn [pad_allowed]; rewrite ?Nat.leb_le, ?Nat.ltb_lt; auto; lia. Qed.

Lemma fresh_steps dr kw o r u : fresh dr kw = Ok o -> o_radius o = VInt (Z.of_nat r) -> twf u -> tC u = ext (o_core o) ->
  room (pm (o_core o)) r (tH u) -> room (pm (o_core o)) r (tW u) -> exists u', cca_forward (o_core o) u = Ok u'.
Proof.
  intros F Hr W C RH RW. pose proof F as F'. apply fresh_inv in F' as (I & (r' & l & k & Sr & _ & Sk & SU) & _ & _ & _ & _ & _ & _ & _ & G & P & Hil).
  assert (r' = r) by (rewrite Hr in Sr; injection Sr as Sr; lia). subst r'.
  pose proof I as I'. destruct I' as (P1 & P2 & _). destruct (obj_inv_wf o I) as (CW & _). apply (cca_accepts _ u CW W).
  apply mixture_kernel_shape in Sk as (Sh & _). unfold uses_kernel in SU.
  destruct (layer_of_kernel _ _ _ default_id_kernel 1 _ P1 P2 eq_refl Hil) as (_ & Q1 & M1). destruct (layer_of_kernel _ _ _ k r _ P1 P2 Sh SU) as (_ & Q2 & M2).
  destruct (room_pad _ _ _ RH) as [A1 A2]. destruct (room_pad _ _ _ RW) as [B1 B2]. destruct RH as [H0 _]. destruct RW as [W0 _].
  rewrite G, P, !map_length, !seq_length. unfold fits. rewrite Q1, M1, Q2, M2.
  repeat split; auto; apply acts_ok_map; intros i; apply default_ok.
Qed.

Lemma frame_modes upd c u l : get_frame upd c u 0 = Ok (Some l) -> forall m, (m <= 4)%nat ->
  exists l', get_frame upd c u m = Ok (Some l') /\ List.length l' = nth m [1; 2; 2; 3; 4]%nat 0%nat /\ nth 0 l' u = nth 0 l u.
Proof.
  unfold get_frame. intros H. apply bind_ok in H as (a & Ea & H). apply bind_ok in H as (n & En & H). apply bind_ok in H as (d & Ed & H). apply bind_ok in H as (x & Ex & H).
  injection H as <-. intros m Hm. rewrite Ea. cbn [bind]. rewrite En. cbn [bind]. rewrite Ed. cbn [bind]. rewrite Ex. cbn [bind]. do 5 (destruct m as [|m]; [eexists; split; [reflexivity|split; reflexivity]|]). lia.
Qed.

Lemma list_lower (l : list R) : exists b, forall x, In x l -> b < x.
Proof.
  induction l as [|a l [b IH]]; [exists 0; intros x []|]. exists (Rmin b (a - 1)). intros x [<-|H].
  - pose proof (Rmin_r b (a - 1)). lra.
  - specialize (IH x H). pose proof (Rmin_l b (a - 1)). lra.
Qed.

Definition with_thr (c : cca) (t : R) : cca := mkCca (ext c) (int_ c) (pm c) t (idl c) (nbl c) (wl c) (gens c) (pers c) (dt c).

Lemma frame_succeeds c u v : cca_wf c -> twf u -> cca_forward c u = Ok v -> exists l, get_frame update_universe c u 0 = Ok (Some l).
Proof.
  intros CW W H. assert (A : exists v, cca_forward c u = Ok v) by eauto. apply (cca_accepts c u CW W) in A.
  destruct (list_lower (tdata u)) as [b Hb]. assert (A' : exists v, cca_forward (with_thr c b) u = Ok v) by (apply (cca_accepts (with_thr c b) u CW W); exact A).
  destruct A' as [v' A']. unfold cca_forward in A'. rewrite (forward_is_frame_of_masked _ _ _ W) in A'. cbn [thr with_thr] in A'.
  assert (Z : zero_dead b u = u). { unfold zero_dead. destruct (Nat.leb_spec 4 (tC u)) as [L4|L4]; [|reflexivity]. apply tensor_ext; [apply twf_build|exact W|reflexivity|]. cbn [build tB tC tH tW].
    intros x ch i j B1 B2 B3 B4. rewrite get_build by assumption. destruct (Rlt_dec b (get u x 3 i j)) as [|N]; [reflexivity|]. exfalso. apply N, Hb. apply get_in_data; auto; lia. }
  rewrite Z in A'. change (get_frame update_universe (with_thr c b) u 0) with (get_frame update_universe c u 0) in A'.
  destruct (get_frame update_universe c u 0) as [[l|]|] eqn:E; [eauto| |discriminate A'].
  unfold get_frame in E. apply bind_ok in E as (? & _ & E). apply bind_ok in E as (? & _ & E). apply bind_ok in E as (? & _ & E). apply bind_ok in E as (? & _ & E). discriminate E.
Qed.

Lemma fresh_frames dr kw o r u m : fresh dr kw = Ok o -> o_radius o = VInt (Z.of_nat r) -> twf u -> tC u = ext (o_core o) ->
  room (pm (o_core o)) r (tH u) -> room (pm (o_core o)) r (tW u) -> (m <= 4)%nat ->
  exists l, get_frame update_universe (o_core o) u m = Ok (Some l) /\ List.length l = nth m [1; 2; 2; 3; 4]%nat 0%nat.
Proof.
  intros F Hr W C RH RW Hm. destruct (fresh_steps dr kw o r u F Hr W C RH RW) as [v Hv]. pose proof (fresh_inv _ _ _ F) as (I & _). destruct (obj_inv_wf o I) as (CW & _).
  destruct (frame_succeeds _ _ _ CW W Hv) as [l Hl]. destruct (frame_modes _ _ _ _ Hl m Hm) as (l' & E & L & _). eauto.
Qed.

Lemma fresh_params dr kw o r p : fresh dr kw = Ok o -> o_radius o = VInt (Z.of_nat r) -> (0 < o_peaks o)%nat -> (0 < r)%nat ->
  List.length p = (fn_count (o_core o) + 3 * o_peaks o)%nat -> (forall x, In x p -> 0 <= x) ->
  exists o', set_params o p = Ok o' /\ get_params o' = Some p.
Proof.
  intros F Hr P0 R0 Hl Hp. pose proof F as F'. apply fresh_inv in F' as (I & _ & Ek & _). destruct (obj_inv_wf o I) as (CW & _).
  assert (Lk : List.length (map (dr_k dr) (seq 0 (o_peaks o * 3))) = (3 * o_peaks o)%nat) by (rewrite map_length, seq_length; lia).
  destruct (proj2 (set_accepts o p _ r Ek Hr CW)) as [o' Ho].
  { split; [lia|]. rewrite Lk. apply (triple_kernel_ok r _ (o_peaks o)); try lia.
    - rewrite firstn_length, skipn_length. lia.
    - intros x Hx. apply Hp. rewrite <- (firstn_skipn (fn_count (o_core o)) p). apply in_or_app. right. rewrite <- (firstn_skipn (3 * o_peaks o) (skipn _ p)). apply in_or_app. left. exact Hx. }
  exists o'. split; [exact Ho|]. destruct (set_get _ _ _ Ho) as (v & Ev & ->). f_equal. apply firstn_all2.
  unfold get_params in Ev. rewrite Ek in Ev. injection Ev as <-. cbn [kp_flat]. rewrite app_length, Lk. fold (fn_count (o_core o)). lia.
Qed.

(** ** Masks (testing/yuca/test_utils.py) *)
Lemma pixel_centre r : (1 <= r)%nat -> pixel (2 * r) r = 1 / 2.
Proof. intros H. unfold pixel. assert (0 < INR r) by (apply lt_0_INR; lia). rewrite mult_INR. cbn [INR]. field. lra. Qed.

Lemma aperture_centre img r a c : (1 <= r)%nat -> tH img = (2 * r)%nat -> tW img = (2 * r)%nat -> (c < tC img)%nat -> 1 < a * (sqrt 2 * INR r) ->
  exists m, get_aperture axis_len img a = Ok m /\ (a < 975 / 1000 \/ (0 < tB img)%nat -> get m 0 c r r = 1).
Proof.
  intros R HH HW Hc Ha. destruct (aperture_spec img r a R HH HW) as [A B]. destruct (Rlt_dec a (975 / 1000)) as [L|L].
  - destruct (A L) as (m & E & _ & _ & G). exists m. split; [exact E|]. intros _. apply (G c r r Hc ltac:(lia) ltac:(lia)). unfold in_disc. rewrite HH, pixel_centre by exact R.
    replace ((1 / 2 - 0) ^ 2 + (1 / 2 - 0) ^ 2) with (/ 2) by lra. pose proof sqrt2_bounds as Q. assert (Q2 : sqrt 2 * sqrt 2 = 2) by (apply sqrt_sqrt; lra).
    rewrite sqrt_inv. apply (Rmult_lt_reg_l (sqrt 2)); [lra|]. rewrite Rinv_r by lra. rewrite mult_INR. cbn [INR]. lra.
  - rewrite B by lra. eexists. split; [reflexivity|]. intros [|HB]; [lra|]. rewrite get_build by lia. reflexivity.
Qed.
(** ** The equilibrium grid (testing/yuca/ca/test_reaction_diffusion.py) *)
Lemma rd_values s B H W : rd_init = Ok s -> exists u0 v0,
  rd_grid s B H W = Ok (build B 2 H W (fun _ c _ _ => match c with 0%nat => u0 | _ => v0 end)) /\
  Rabs (u0 - 42012 / 100000) < 5 / 1000000 /\ Rabs (v0 - 29253 / 100000) < 5 / 1000000.
Proof.
  intros E. pose proof (rd_default_region s E) as (F0 & K0 & HR & _). apply rd_init_facts in E as (_ & _ & _ & _ & P & _).
  unfold rd_get_params in P. injection P as _ _ Ef Ek. rewrite Ef, Ek in *. unfold rd_grid. rewrite Ef, Ek.
  set (sf := sqrt (620 / 10000)) in *. assert (S2 : sf * sf = 620 / 10000) by (apply sqrt_sqrt; lra). assert (S0 : 0 < sf) by (apply sqrt_lt_R0; lra).
  rewrite fsqrt_ok by lra. cbn [bind]. fold sf. rewrite fdiv_ok by lra. cbn [bind]. set (A := sf / (620 / 10000 + 609 / 10000)).
  assert (A2 : A ^ 2 = 620 / 10000 / ((1229 / 10000) ^ 2)) by (unfold A; replace (620 / 10000 + 609 / 10000) with (1229 / 10000) by lra; unfold Rdiv at 1; rewrite Rpow_mult_distr; replace (sf ^ 2) with (sf * sf) by ring; rewrite S2; field).
  assert (A0 : 0 < A) by (unfold A; apply Rdiv_lt_0_compat; lra).
  rewrite fsqrt_ok by (rewrite A2; lra). cbn [bind]. set (q := sqrt (A ^ 2 - 4)). assert (Q2 : q * q = A ^ 2 - 4) by (apply sqrt_sqrt; rewrite A2; lra). assert (Q0 : 0 <= q) by apply sqrt_pos.
  rewrite fdiv_ok by lra. cbn [bind]. do 2 eexists. split; [reflexivity|].
  set (D := q / A). assert (D0 : 0 <= D) by (unfold D; apply Rmult_le_pos; [lra|left; apply Rinv_0_lt_compat; lra]).
  assert (D2 : D * D = 1 - 4 * (1229 / 10000) ^ 2 / (620 / 10000)).
  { unfold D. replace (q / A * (q / A)) with (q * q * / A ^ 2) by (field; lra). rewrite Q2. replace ((A ^ 2 - 4) * / A ^ 2) with (1 - 4 * / A ^ 2) by (field; lra). rewrite A2. field. }
  assert (DL : 159754 / 1000000 <= D) by (destruct (Rle_dec (159754 / 1000000) D); [assumption|exfalso; nra]).
  assert (DU : D <= 159756 / 1000000) by (destruct (Rle_dec D (159756 / 1000000)); [assumption|exfalso; nra]).
  replace ((A - q) / (2 * A)) with ((1 - D) / 2) by (unfold D; field; lra).
  replace (sf * (A + q) / 2) with (620 / 1229 * (1 + D) / 2).
  2: { unfold D. replace (1 + q / A) with ((A + q) / A) by (field; lra). unfold A at 2. replace (620 / 10000 + 609 / 10000) with (1229 / 10000) by lra.
       replace (620 / 1229) with ((sf * sf) / (1229 / 10000)) by (rewrite S2; field). field. lra. }
  split; apply Rabs_def1; lra.
Qed.

Lemma tsum_build_lt B C H W f g b c i j :
  (forall b c i j, (b < B)%nat -> (c < C)%nat -> (i < H)%nat -> (j < W)%nat -> f b c i j <= g b c i j) ->
  (b < B)%nat -> (c < C)%nat -> (i < H)%nat -> (j < W)%nat -> f b c i j < g b c i j -> tsum (build B C H W f) < tsum (build B C H W g).
Proof.
  intros L Hb Hc Hi Hj S. unfold tsum, build. cbn [tdata]. rewrite !lsum_map_seq. apply rsum_lt.
  - intros n Hn. assert (W <> 0)%nat by (intros ->; rewrite Nat.mul_0_r in Hn; lia). assert (H <> 0)%nat by (intros ->; rewrite Nat.mul_0_r in Hn; cbn in Hn; lia). assert (C <> 0)%nat by (intros ->; rewrite Nat.mul_0_r in Hn; cbn in Hn; lia).
    apply L; try (apply Nat.mod_upper_bound; assumption). apply Nat.div_lt_upper_bound; [assumption|]. apply Nat.div_lt_upper_bound; [assumption|]. apply Nat.div_lt_upper_bound; [assumption|].
    replace (W * (H * (C * B)))%nat with (B * C * H * W)%nat by ring. exact Hn.
  - exists (((b * C + c) * H + i) * W + j)%nat. split; [apply flat_lt; assumption|].
    destruct (flat_decode C H W b c i j Hc Hi Hj) as (E1 & E2 & E3 & E4). cbv zeta in *. rewrite E1, E2, E3, E4. exact S.
Qed.

Lemma corner_outside r a : (1 <= r)%nat -> a < 975 / 1000 -> ~ in_disc (2 * r) a 0 0 0 0.
Proof.
  intros R A. unfold in_disc, pixel. assert (P : 0 < INR r) by (apply lt_0_INR; lia). rewrite mult_INR. cbn [INR].
  replace ((0 * (1 + / ((1 + 1) * INR r)) - (1 + 1) * INR r / 2 - 0) ^ 2 + (0 * (1 + / ((1 + 1) * INR r)) - (1 + 1) * INR r / 2 - 0) ^ 2) with (2 * (INR r * INR r)) by (field; lra).
  rewrite sqrt_mult by nra. rewrite sqrt_square by lra. pose proof sqrt2_bounds. nra.
Qed.

Lemma aperture_sum img r a c : (1 <= r)%nat -> tB img = 1%nat -> tH img = (2 * r)%nat -> tW img = (2 * r)%nat -> twf img -> a < 975 / 1000 ->
  (forall x, In x (tdata img) -> 0 <= x) -> (c < tC img)%nat -> 0 < get img 0 c 0 0 ->
  exists m p, get_aperture axis_len img a = Ok m /\ tzip Rmult img m = Ok p /\ tsum p < tsum img.
Proof.
  intros R HB HH HW W A Nn Hc Pos. destruct (proj1 (aperture_spec img r a R HH HW) A) as (m & E & Sm & Wm & G). exists m.
  eexists. split; [exact E|]. split; [apply tzip_same; rewrite Sm; unfold shape; rewrite HB; reflexivity|]. replace (tsum img) with (tsum (build (tB img) (tC img) (tH img) (tW img) (get img))) by (rewrite (build_get img W); reflexivity).
  apply (tsum_build_lt _ _ _ _ _ _ 0 c 0 0); try lia.
  - intros b k i j Hb Hk Hi Hj. rewrite HB in Hb. assert (b = 0)%nat by lia. subst b. assert (V : 0 <= get img 0 k i j) by (apply Nn; apply get_in_data; auto; lia).
    destruct (G k i j Hk Hi Hj) as [G1 G2]. destruct (Rlt_dec (sqrt ((pixel (tH img) j - 0) ^ 2 + (pixel (tH img) i - 0) ^ 2)) (a * (INR (tH img) / 2))) as [L|L].
    + rewrite G1 by exact L. lra.
    + rewrite G2 by exact L. lra.
  - destruct (G c 0 0 Hc ltac:(lia) ltac:(lia))%nat as [_ G2]. rewrite G2 by (rewrite HH; apply corner_outside; assumption). lra.
Qed.

Lemma bite_sum_fails : exists img co m, shape img = (1, 1, 2, 2)%nat /\ twf img /\ (forall x, In x (tdata img) -> 0 <= x < 1) /\ 0 <= fst co < 1 /\ 0 <= snd co < 1 /\
  get_bite_mask axis_len img (1 / 2) co = Ok m /\ tsum m < tsum img.
Proof.
  set (img := build 1 1 2 2 (fun _ _ _ _ => 9 / 10)). destruct (bite_mask_spec img 1 (1 / 2) (1 / 2, 1 / 2) ltac:(lia) eq_refl eq_refl) as (m & E & Sm & Wm & G).
  exists img, (1 / 2, 1 / 2), m. split; [reflexivity|]. split; [apply twf_build|]. split; [intros x Hx; cbn in Hx; intuition lra|]. split; [cbn [fst]; lra|]. split; [cbn [snd]; lra|].
  split; [exact E|]. assert (P0 : pixel 2 0 = -1) by (unfold pixel; cbn [INR]; lra). assert (P1 : pixel 2 1 = 1 / 2) by (unfold pixel; cbn [INR]; lra).
  assert (V : get m 0 0 1 1 = 0).
  { apply (G 0 1 1 ltac:(cbn; lia) ltac:(cbn; lia) ltac:(cbn; lia))%nat. unfold in_disc. cbn [fst snd]. change (tH img) with 2%nat. rewrite P1. replace ((1 / 2 - 1 / 2) ^ 2 + (1 / 2 - 1 / 2) ^ 2) with 0 by lra. rewrite sqrt_0. cbn [INR]. lra. }
  assert (U : forall i j, (i < 2)%nat -> (j < 2)%nat -> get m 0 0 i j <= 1).
  { intros i j Hi Hj. destruct (G 0 i j ltac:(cbn; lia) Hi Hj)%nat as [G1 G2]. unfold in_disc in *. match type of G1 with (?a < ?b) -> _ => destruct (Rlt_dec a b) as [L|L] end; [rewrite G1 by exact L|rewrite G2 by exact L]; lra. }
  rewrite <- (build_get m Wm). apply shape_inv in Sm as (-> & -> & -> & ->). cbn -[get Rdiv]. unfold tsum, build. cbn -[get Rdiv]. unfold lsum. cbn -[get Rdiv].
  rewrite V. pose proof (U 0 0 ltac:(lia) ltac:(lia))%nat. pose proof (U 0 1 ltac:(lia) ltac:(lia))%nat. pose proof (U 1 0 ltac:(lia) ltac:(lia))%nat. lra.
Qed.
