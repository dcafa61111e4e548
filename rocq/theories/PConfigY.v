(** Re-applying an automaton's own parameters: when it keeps the rule, and when not. *)
From Coq Require Import Reals Lra Lia List Arith Bool ZArith String.
From Verif Require Import Base PyDict Tensor MActivations MKernels MCommon MCca MNca MConfig SGrid SCca SKern SConfig PTensor PStep PCca PDyn PStepX PAct PKern PKernX PKernY PNca PConfig PConfigX.
Import ListNotations.
Open Scope R_scope.
Open Scope string_scope.

Lemma bind_run A B (m : res A) (k : A -> res B) a : m = Ok a -> bind m k = k a.
Proof. intros ->. reflexivity. Qed.

(** ** In sync: re-applying changes nothing *)
Lemma synced_self o v : kernel_synced o -> get_params o = Some v -> set_params o v = Ok o.
Proof.
  intros (r & l & k & Er & El & Ek & U) H. unfold get_params in H. rewrite El in H. cbn [kp_flat] in H. injection H as <-.
  unfold set_params. cbv zeta. rewrite <- app_assoc, set_acts_self. cbn [bind snd fst]. rewrite set_acts_self. cbn [bind snd fst].
  rewrite El, firstn_all, Er. unfold mixture_kernel_of. rewrite as_size_of. cbn [bind]. rewrite Ek. cbn [bind].
  destruct (mixture_kernel_shape _ _ _ Ek) as (_ & _ & _ & A). rewrite A. cbn [bind]. unfold uses_kernel in U. rewrite U. cbn [bind].
  destruct o as [c kp rd pk nb gn pr inst]. destruct c. cbn in *. subst kp rd. reflexivity.
Qed.

Lemma radial_kernel_ext a b r s : act_ok a = act_ok b -> (forall x, act_fn a x = act_fn b x) -> radial_kernel a r s = radial_kernel b r s.
Proof.
  intros E F. unfold radial_kernel, act_apply. rewrite E. destruct (kernel_grid r s); [|reflexivity]. cbn [bind].
  destruct (act_ok b); [|reflexivity]. cbn [bind]. f_equal. f_equal. unfold tmap. f_equal. apply map_ext. exact F.
Qed.

Lemma clamp_unit x : 0 <= x <= 1 -> clamp 0 1 x = x.
Proof. intros H. unfold clamp. rewrite Rmax_left, Rmin_left; lra. Qed.

Lemma one_gauss_mixture r mu sigma : get_gaussian_mixture_kernel r [mu; sigma] 1 = radial_kernel (AGaussian mu sigma false) r 1.
Proof.
  unfold get_gaussian_mixture_kernel. change (read_mixture [mu; sigma]) with (Ok [(1, mu, sigma)] : res (list (R * R * R))). cbn [bind].
  apply radial_kernel_ext.
  - cbn [act_ok forallb snd]. rewrite andb_true_r. reflexivity.
  - intros x. cbn [act_fn mixture_sum fold_left]. rewrite Rmult_1_l. apply clamp_unit. pose proof (gauss_range mu sigma x). lra.
Qed.

Lemma fit_eq cfg name mk kw r : dget "name" cfg = Some (VStr name) -> fam name = Some mk ->
  dget "kernel_kwargs" cfg = Some (VDict kw) -> dget "radius" cfg = Some (VInt (Z.of_nat r)) ->
  get_kernel cfg = (let* a := mk kw in radial_kernel a r 1) \/ (name = "SmoothLifeKernel" /\ get_kernel cfg = let* a := mk kw in smoothlife_kernel a r).
Proof.
  intros N F K Rr. unfold get_kernel, dgetk. rewrite N. cbn [bind].
  unfold fam in F.
  destruct (String.eqb_spec name "Gaussian"); [subst name; left; injection F as <-; cbn [String.eqb Ascii.eqb Bool.eqb]; rewrite K; cbn [bind as_dict]; rewrite Rr; destruct (mk_gaussian kw); cbn [bind]; [rewrite as_size_of; reflexivity|reflexivity]|].
  destruct (String.eqb_spec name "GaussianMixture"); [subst name; left; injection F as <-; cbn [String.eqb Ascii.eqb Bool.eqb]; rewrite K; cbn [bind as_dict]; rewrite Rr; destruct (mk_mixture kw); cbn [bind]; [rewrite as_size_of; reflexivity|reflexivity]|].
  destruct (String.eqb_spec name "CosOverX2"); [subst name; left; injection F as <-; cbn [String.eqb Ascii.eqb Bool.eqb]; rewrite K; cbn [bind as_dict]; rewrite Rr; destruct (mk_cosx2 kw); cbn [bind]; [rewrite as_size_of; reflexivity|reflexivity]|].
  destruct (String.eqb_spec name "DoGaussian"); [subst name; left; injection F as <-; cbn [String.eqb Ascii.eqb Bool.eqb]; rewrite K; cbn [bind as_dict]; rewrite Rr; destruct (mk_dogaussian kw); cbn [bind]; [rewrite as_size_of; reflexivity|reflexivity]|].
  destruct (String.eqb_spec name "SmoothLifeKernel"); [subst name; right; injection F as <-; cbn [String.eqb Ascii.eqb Bool.eqb]; rewrite K; cbn [bind as_dict]; rewrite Rr; destruct (mk_smoothlife kw); cbn [bind]; [rewrite as_size_of; auto|auto]|].
  discriminate.
Qed.

Lemma mixture_like_name d : mixture_like d -> dget "name" d <> Some (VStr "InnerMoore").
Proof. intros [[-> _]|[-> _]]; discriminate. Qed.

(** The kernel and the stored parameters of a mixture-like config belong together. *)
Lemma mixture_like_kernel d k old kp : mixture_like d -> get_kernel d = Ok k -> read_kpar old d = Ok kp ->
  exists r l, dget "radius" d = Some (VInt (Z.of_nat r)) /\ kp = KPVec l /\ get_gaussian_mixture_kernel r l 1 = Ok k.
Proof.
  intros M Hk Hp. pose proof (get_kernel_odd d k Hk) as (r & _ & C). destruct C as [[C _]|[_ C]]; [elim (mixture_like_name d M C)|].
  exists r. destruct M as [[N (l & K)]|[N (mu & sigma & K)]].
  - exists l. split; [exact C|]. unfold read_kpar in Hp. rewrite K in Hp. cbn in Hp. split; [congruence|].
    destruct (fit_eq d _ mk_mixture _ r N eq_refl K C) as [E|[E _]]; [|discriminate]. rewrite E in Hk.
    change (mk_mixture [("parameters", VVec l)]) with (let* gs := read_mixture l in Ok (AMixture gs false)) in Hk.
    unfold get_gaussian_mixture_kernel. destruct (read_mixture l); [exact Hk|discriminate].
  - exists [mu; sigma]. split; [exact C|]. unfold read_kpar in Hp. rewrite K in Hp. cbn in Hp. split; [congruence|].
    destruct (fit_eq d _ mk_gaussian _ r N eq_refl K C) as [E|[E _]]; [|discriminate]. rewrite E in Hk. rewrite one_gauss_mixture. exact Hk.
Qed.

Lemma loaded_synced o cf h o' l : loaded o cf h o' -> c_nb cf = Some l -> mixture_like (hget h l) -> kernel_synced o'.
Proof.
  intros L C M. pose proof (ld_ext _ _ _ _ L) as Xe. pose proof (ld_int _ _ _ _ L) as Xi. pose proof (ld_pm _ _ _ _ L) as Xp.
  destruct (ld_nb _ _ _ _ L) as (l' & k & C' & _ & Hk & U & Hp & Hr). rewrite C in C'. injection C' as <-.
  destruct (mixture_like_kernel _ _ _ _ M Hk Hp) as (r & q & Er & Eq & Em). exists r, q, k.
  split; [congruence|]. split; [exact Eq|]. split; [exact Em|]. unfold uses_kernel. rewrite Xe, Xi, Xp. exact U.
Qed.

Lemma load_synced fuel ev rng o cf h o' h' l : load_config fuel ev rng o cf h = Ok (o', h') -> c_nb cf = Some l ->
  mixture_like (hget h l) -> kernel_synced o'.
Proof.
  unfold load_config, load_with. intros H C M. apply bind_ok in H as ([o1 h1] & Hr & H). cbn [fst snd] in H. apply load_body_inv in H as [-> L].
  apply (loaded_synced o1 cf h1 o' l L C).
  assert (hget h1 l = hget h l); [|congruence].
  assert (Hl : (l < List.length h)%nat) by (destruct M as [[N _]|[N _]]; eapply hget_some; exact N).
  destruct (c_inst cf) as [kw|].
  - apply init_inv in Hr as [_ G]. apply grows_get; auto.
  - apply Ok_inj in Hr. injection Hr as <- <-. reflexivity.
Qed.

Lemma set_config_synced o l h o' h' : set_kernel_config o l h = Ok (o', h') -> mixture_like (hget h l) -> kernel_synced o'.
Proof.
  unfold set_kernel_config. cbv zeta. intros H M. apply bind_ok in H as (kp & Hp & H). apply bind_ok in H as (rv & Hr & H). apply dgetk_ok in Hr.
  apply set_radius_inv in H as (l' & k & E & Hk & U & Er & _ & Eo). cbn [with_nb o_nb] in E. injection E as <-. rewrite (dset_same _ _ _ Hr) in Hk.
  destruct (mixture_like_kernel _ _ _ _ M Hk Hp) as (r & q & Er' & Eq & Em). exists r, q, k.
  split; [congruence|]. split; [rewrite Eo; exact Eq|]. split; [exact Em|exact U].
Qed.

Lemma init_synced fuel ev rng kw h o h' : query_kwargs "ca_config" VNone kw = VNone ->
  init fuel ev rng kw h = Ok (o, h') -> kernel_synced o.
Proof.
  destruct fuel as [|f]; [discriminate|]. cbn [init]. intros C H. apply bind_ok in H as (o0 & Hf & H). apply fresh_inv in Hf as (I & K & _).
  rewrite C in H. cbn [bind] in H. destruct (query_kwargs "input_filepath" VNone kw); try discriminate.
  - apply Ok_inj in H. injection H as <- <-. exact K.
  - destruct (fs_get (e_fs ev) s); [|discriminate]. apply bind_ok in H as (v & _ & H). apply bind_ok in H as (o2 & Hs & H).
    apply Ok_inj in H. injection H as <- <-. cbn [fst] in Hs. apply set_params_obj_inv in Hs as [_ K2]; auto.
Qed.

(** ** Constructing objects *)
Lemma stack_ok n k : (0 < n)%nat -> exists t, stack_kernels n k = Ok t /\ tC t = tC k /\ tH t = tH k /\ tW t = tW k.
Proof.
  destruct n as [|n]; [lia|]. intros _. induction n as [|n (t & E & F1 & F2 & F3)]; [exists k; auto|].
  change (stack_kernels (S (S n)) k) with (let* t := stack_kernels (S n) k in cat0 t k). rewrite E. cbn [bind].
  unfold cat0. rewrite F1, F2, F3, !Nat.eqb_refl. cbn [andb guard bind]. eexists. split; [reflexivity|auto].
Qed.

Lemma triples_sigma l a m s : (forall x, In x l -> 0 <= x) -> In (a, m, s) (triples l) -> 0 <= s.
Proof.
  revert a m s. assert (P : forall n l, (List.length l <= n)%nat -> (forall x, In x l -> 0 <= x) -> forall a m s, In (a, m, s) (triples l) -> 0 <= s).
  { induction n as [|n IH]; intros l' Hl Hp a m s Hi.
    - destruct l'; [contradiction|cbn [List.length] in Hl; lia].
    - destruct l' as [|x [|y [|z t]]]; try contradiction. cbn [triples] in Hi. destruct Hi as [E|Hi].
      + injection E as <- <- <-. apply Hp. right. right. left. reflexivity.
      + apply (IH t) with (a := a) (m := m); auto; [cbn [List.length] in Hl; lia|]. intros q Hq. apply Hp. right. right. right. exact Hq. }
  intros a m s Hp. exact (P (List.length l) l (le_n _) Hp a m s).
Qed.

Lemma triple_kernel_ok r l n : r <> 0%nat -> (0 < n)%nat -> List.length l = (3 * n)%nat -> (forall x, In x l -> 0 <= x) ->
  exists k, get_gaussian_mixture_kernel r l 1 = Ok k.
Proof.
  intros Hr Hn Hl Hp. unfold get_gaussian_mixture_kernel, read_mixture. rewrite Hl.
  replace ((3 * n) mod 3)%nat with 0%nat by (rewrite Nat.mul_comm, Nat.mod_mul; lia). cbn [Nat.eqb bind].
  destruct (radial_kernel_ok (AMixture (triples l) false) r 1 Hr) as (k & Ek & _); [|eauto].
  cbn [act_ok]. destruct (triples l) as [|g t] eqn:E.
  - destruct l as [|x [|y [|z t]]]; cbn [List.length] in Hl; try lia. discriminate.
  - rewrite <- E. clear E g t.
    assert (F : forallb (fun g : R * R * R => nonzero (eps9 + snd g)) (triples l) = true); [|rewrite F; reflexivity].
    apply forallb_forall. intros [[a m] s] Hg. cbn [snd]. apply nonzero_true. apply triples_sigma in Hg; auto. pose proof eps9_pos'. lra.
Qed.

Lemma fresh_ok dr kw m e n th r pk :
  as_pmode (query_kwargs "conv_mode" (VStr "circular") kw) = Ok m ->
  as_size (query_kwargs "internal_channels" (VInt 1) kw) = Ok n ->
  as_size (query_kwargs "external_channels" (VInt 1) kw) = Ok e ->
  as_num (query_kwargs "alive_threshold" (VNum (1 / 10)) kw) = Ok th ->
  as_size (query_kwargs "kernel_peaks" (VInt 3) kw) = Ok pk ->
  query_kwargs "kernel_radius" (VInt 13) kw = VInt (Z.of_nat r) ->
  (0 < e)%nat -> (0 < n)%nat -> (0 < pk)%nat -> (0 < r)%nat -> (forall i, 0 <= dr_k dr i) ->
  exists o, fresh dr kw = Ok o.
Proof.
  intros Hm Hn He Ht Hp Hr E0 N0 P0 R0 Hk. unfold fresh. cbv zeta. rewrite Hp, Hm, Hn, He, Ht, Hr. cbn [bind].
  destruct (init_layer_ok e n m default_id_kernel) as [il Eil]; auto. rewrite Eil. cbn [bind].
  destruct (Nat.eqb_spec n 0); [lia|]. cbn [negb guard bind].
  destruct (triple_kernel_ok r (map (dr_k dr) (seq 0 (pk * 3))) pk) as [k Ek]; try lia.
  { rewrite map_length, seq_length. lia. }
  { intros x Hx. apply in_map_iff in Hx as (i & <- & _). apply Hk. }
  unfold mixture_kernel_of. rewrite as_size_of. cbn [bind]. rewrite Ek. cbn [bind]. destruct (mixture_kernel_shape _ _ _ Ek) as (Sk & Wk & _).
  destruct (stack_ok n k N0) as (ks & E & F1 & F2 & F3). rewrite E. cbn [bind as_kernel].
  pose proof Sk as Sk'. apply shape_inv in Sk' as (K1 & K2 & K3 & K4). rewrite F2, F3, K3, K4, Nat.eqb_refl. cbn [guard bind].
  rewrite (stack_layer e n m k ks r E0 Sk Wk E). destruct (init_layer_ok e n m k) as [nl Enl]; auto. rewrite Enl. cbn [bind].
  destruct (init_weights_ok e n m E0 N0) as [w Ew]. rewrite Ew. cbn [bind]. eauto.
Qed.

(** ** A probe grid that reads one kernel entry *)
Definition dot (y x : nat) : tensor := build 1 1 3 3 (fun _ _ i j => if Nat.eqb i y && Nat.eqb j x then 1 / 2 else 0).

Lemma dot_wf y x : twf (dot y x).
Proof. apply twf_build. Qed.

Lemma dot_unit y x : in_unit (dot y x).
Proof.
  unfold in_unit, dot, build. cbn [tdata]. apply Forall_forall. intros v Hv. apply in_map_iff in Hv as (n & <- & _).
  match goal with |- context [if ?b then _ else _] => destruct b end; lra.
Qed.

Lemma dot_get y x i j : (i < 3)%nat -> (j < 3)%nat -> get (dot y x) 0 0 i j = if Nat.eqb i y && Nat.eqb j x then 1 / 2 else 0.
Proof. intros Hi Hj. unfold dot. rewrite get_build by lia. reflexivity. Qed.

Lemma dot_sum y x k : (y < 3)%nat -> (x < 3)%nat -> toroidal_sum 1 3 3 k (get (dot y x) 0 0) 1 1 = k y x * (1 / 2).
Proof.
  intros Hy Hx. unfold toroidal_sum. change (2 * 1 + 1)%nat with 3%nat.
  assert (Z0 : forall q, (q < 3)%nat -> zmod (Z.of_nat 1 + Z.of_nat q - Z.of_nat 1) 3 = q).
  { intros q Hq. destruct q as [|[|[|]]]; try lia; reflexivity. }
  rewrite (rsum_single 3 y _ Hy).
  - rewrite (rsum_single 3 x _ Hx).
    + rewrite !Z0 by auto. rewrite dot_get by auto. rewrite !Nat.eqb_refl. reflexivity.
    + intros j Hj N. rewrite !Z0 by auto. rewrite dot_get by auto. destruct (Nat.eqb_spec j x); [contradiction|]. rewrite andb_false_r. ring.
  - intros i Hi N. apply rsum_0. intros j Hj. rewrite !Z0 by auto. rewrite dot_get by auto. destruct (Nat.eqb_spec i y); [contradiction|]. cbn [andb]. ring.
Qed.

(** One channel, circular, default identity kernel, identity update functions, time step 1. *)
Definition plain (c : cca) : Prop :=
  ext c = 1%nat /\ int_ c = 1%nat /\ pm c = Circular /\ gens c = [AIdentity] /\ pers c = [AIdentity] /\ dt c = 1 /\
  init_layer 1 1 Circular default_id_kernel = Ok (idl c) /\ init_weights 1 1 Circular = Ok (wl c).

Lemma plain_made c k : plain c -> odd_kernel 1 k -> uses_kernel c k ->
  make_cca 1 1 Circular (thr c) (K4 default_id_kernel) (K4 k) [AIdentity] [AIdentity] 1 = Ok c.
Proof.
  intros (E1 & E2 & E3 & E4 & E5 & E6 & E7 & E8) O U. unfold uses_kernel in U. rewrite E1, E2, E3 in U.
  unfold make_cca. rewrite (as_kernel_odd 1 _ default_id_odd). rewrite (bind_run _ _ _ _ _ eq_refl). rewrite E7.
  rewrite (bind_run _ _ _ _ _ eq_refl). rewrite (as_kernel_odd 1 k O). rewrite (bind_run _ _ _ _ _ eq_refl). rewrite U.
  rewrite (bind_run _ _ _ _ _ eq_refl). rewrite E8. rewrite (bind_run _ _ _ _ _ eq_refl).
  destruct c. cbn in *. subst. reflexivity.
Qed.

Lemma probe c k y x : plain c -> odd_kernel 1 k -> uses_kernel c k -> (y < 3)%nat -> (x < 3)%nat -> (y <> 1 \/ x <> 1)%nat ->
  0 <= get k 0 0 y x <= 1 -> exists v, cca_forward c (dot y x) = Ok v /\ get v 0 0 1 1 = get k 0 0 y x / 2.
Proof.
  intros P O U Hy Hx N B. pose proof (plain_made c k P O U) as M. destruct O as (S & W & _). apply shape_inv in S as (S1 & S2 & S3 & S4).
  destruct (step_formula 1 1 (thr c) k [AIdentity] [AIdentity] 1 c (dot y x)) as (v & E & _ & _ & F); auto using dot_wf; try (cbn; lia).
  exists v. split; [exact E|]. rewrite F by (cbn; lia).
  assert (Zd : zero_dead (thr c) (dot y x) = dot y x) by reflexivity. rewrite Zd.
  change (tH (dot y x)) with 3%nat. change (tW (dot y x)) with 3%nat. cbn [rsum]. rewrite dot_sum by auto. cbn [nth act_fn INR].
  rewrite dot_get by lia.
  assert (Ec : Nat.eqb 1 y && Nat.eqb 1 x = false) by (destruct y as [|[|]], x as [|[|]]; try reflexivity; lia). rewrite Ec.
  unfold clamp. rewrite Rmax_left, Rmin_left; lra.
Qed.

Lemma probe_differ c c' k k' y x : plain c -> plain c' -> odd_kernel 1 k -> odd_kernel 1 k' -> uses_kernel c k -> uses_kernel c' k' ->
  (y < 3)%nat -> (x < 3)%nat -> (y <> 1 \/ x <> 1)%nat -> 0 <= get k 0 0 y x <= 1 -> 0 <= get k' 0 0 y x <= 1 ->
  get k 0 0 y x <> get k' 0 0 y x -> differ c c'.
Proof.
  intros P P' O O' U U' Hy Hx N B B' D. destruct (probe c k y x) as (v & E & F); auto. destruct (probe c' k' y x) as (v' & E' & F'); auto.
  exists (dot y x), v, v'. split; [apply dot_wf|]. split; [apply dot_unit|]. split; [exact E|]. split; [exact E'|].
  intros Q. apply D. rewrite Q in F. lra.
Qed.

(** ** Entries of radius-1 kernels *)
Lemma rho1 i j : (i < 3)%nat -> (j < 3)%nat -> rho 1 i j = 0 \/ rho 1 i j = 1 \/ rho 1 i j = sqrt 2.
Proof.
  intros Hi Hj. unfold rho. cbn [INR].
  assert (S0 : forall a b c, a + b = c -> sqrt (a + b) / 1 = sqrt c) by (intros; subst; field).
  destruct i as [|[|[|]]], j as [|[|[|]]]; try lia; cbn [INR];
    first [left; rewrite (S0 _ _ 0) by ring; apply sqrt_0 | right; left; rewrite (S0 _ _ 1) by ring; apply sqrt_1 | right; right; rewrite (S0 _ _ 2) by ring; reflexivity].
Qed.

Lemma rho1_c : rho 1 1 1 = 0.
Proof. unfold rho. cbn [INR]. replace ((1 - 1) ^ 2 + (1 - 1) ^ 2) with 0 by ring. rewrite sqrt_0. field. Qed.
Lemma rho1_e : rho 1 0 1 = 1.
Proof. unfold rho. cbn [INR]. replace ((0 - 1) ^ 2 + (1 - 1) ^ 2) with 1 by ring. rewrite sqrt_1. field. Qed.
Lemma rho1_d : rho 1 0 0 = sqrt 2.
Proof. unfold rho. cbn [INR]. replace ((0 - 1) ^ 2 + (0 - 1) ^ 2) with 2 by ring. field. Qed.

Lemma sqrt2_bounds : 14 / 10 < sqrt 2 < 15 / 10.
Proof.
  assert (0 <= sqrt 2) by apply sqrt_pos. assert (sqrt 2 * sqrt 2 = 2) by (apply sqrt_sqrt; lra). split; nra.
Qed.

Lemma fitted_zero r p k i j : fitted r p k -> (i < 2 * r + 1)%nat -> (j < 2 * r + 1)%nat ->
  (forall a b, (a < 2 * r + 1)%nat -> (b < 2 * r + 1)%nat -> p i j <= p a b) -> get k 0 0 i j = 0.
Proof.
  intros (_ & _ & m & s & Hm & (a & b & Ha & Hb & E) & _ & G) Hi Hj L. rewrite G by auto.
  pose proof (Hm i j Hi Hj). pose proof (L a b Ha Hb). replace (p i j - m) with 0 by lra. unfold Rdiv. ring.
Qed.

Lemma fitted_pos r p k i j a b : fitted r p k -> (i < 2 * r + 1)%nat -> (j < 2 * r + 1)%nat -> (a < 2 * r + 1)%nat -> (b < 2 * r + 1)%nat ->
  p a b < p i j -> 0 < get k 0 0 i j <= 1.
Proof.
  intros (_ & _ & m & s & Hm & _ & Es & G) Hi Hj Ha Hb L. rewrite G by auto. pose proof (Hm a b Ha Hb).
  assert (p i j - m <= s).
  { rewrite Es. eapply Rle_trans; [|apply (rsum_term_le (2 * r + 1) i); auto].
    - apply (rsum_term_le (2 * r + 1) j (fun q => p i q - m)); auto. intros q Hq. pose proof (Hm i q Hi Hq). lra.
    - intros q Hq. apply rsum_nonneg. intros q' Hq'. pose proof (Hm q q' Hq Hq'). lra. }
  assert (0 < / 1000000000) by lra. split.
  - apply Rdiv_lt_0_compat; lra.
  - apply (Rmult_le_reg_r (/ 1000000000 + s)); [lra|]. unfold Rdiv. rewrite Rmult_assoc, Rinv_l by lra. lra.
Qed.

Section Radius1.
  Variables (a : act) (k : tensor).
  Hypothesis K : radial_kernel a 1 1 = Ok k.

  Lemma k1_fit : fitted 1 (fun i j => act_fn a (rho 1 i j)) k.
  Proof. apply radial_1_fitted in K as (_ & _ & F). exact F. Qed.

  Lemma k1_odd : odd_kernel 1 k.
  Proof. pose proof k1_fit as F. destruct (fitted_wf 1 _ k F) as [W S]. split; [exact S|]. split; [exact W|]. exact (fitted_radial 1 (act_fn a) k F). Qed.

  Lemma k1_corner_zero : act_fn a (sqrt 2) <= act_fn a 0 -> act_fn a (sqrt 2) <= act_fn a 1 -> get k 0 0 0 0 = 0.
  Proof.
    intros L0 L1. apply (fitted_zero 1 _ k 0 0 k1_fit); try lia. intros i j Hi Hj. rewrite rho1_d.
    destruct (rho1 i j Hi Hj) as [E|[E|E]]; rewrite E; lra.
  Qed.

  Lemma k1_edge_zero : act_fn a 1 <= act_fn a 0 -> act_fn a 1 <= act_fn a (sqrt 2) -> get k 0 0 0 1 = 0.
  Proof.
    intros L0 L1. apply (fitted_zero 1 _ k 0 1 k1_fit); try lia. intros i j Hi Hj. rewrite rho1_e.
    destruct (rho1 i j Hi Hj) as [E|[E|E]]; rewrite E; lra.
  Qed.

  Lemma k1_corner_pos : act_fn a 0 < act_fn a (sqrt 2) -> 0 < get k 0 0 0 0 <= 1.
  Proof. intros L. apply (fitted_pos 1 _ k 0 0 1 1 k1_fit); try lia. rewrite rho1_d, rho1_c. exact L. Qed.

  Lemma k1_edge_pos : act_fn a (sqrt 2) < act_fn a 1 -> 0 < get k 0 0 0 1 <= 1.
  Proof. intros L. apply (fitted_pos 1 _ k 0 1 0 0 k1_fit); try lia. rewrite rho1_d, rho1_e. exact L. Qed.
End Radius1.

Lemma gauss_lt mu s x y : 0 < eps9 + s -> Rabs (x - mu) < Rabs (y - mu) -> gauss mu s y < gauss mu s x.
Proof.
  intros Hs H. unfold gauss. apply exp_increasing.
  assert (Q : (x - mu) ^ 2 < (y - mu) ^ 2).
  { rewrite <- (pow2_abs (x - mu)), <- (pow2_abs (y - mu)). pose proof (Rabs_pos (x - mu)). nra. }
  unfold Rdiv. rewrite !Rpow_mult_distr. set (q := (/ (eps9 + s)) ^ 2). assert (0 < q) by (unfold q; apply pow_lt, Rinv_0_lt_compat; lra). nra.
Qed.

(** ** Witnesses: kernels that are not mixtures *)
Definition wit_dr : draws :=
  mkDraws (fun i => match i with 0%nat => 1 / 2 | 1%nat => 0 | _ => 1 / 2 end) (fun _ => 0) (fun _ => 0) (fun _ => true) (fun _ => true) (fun _ _ => 0) (fun _ _ => 0).
Definition wit_kw : dict := [("kernel_radius", VInt 1); ("kernel_peaks", VInt 1)].
Definition no_env : env := mkEnv [] "".
Definition wit_cfg : cfg := mkCfg None None (Some 0%nat) (Some 1%nat) (Some 1%nat) (Some 1).
Definition wit_heap (nb : dict) : heap := [nb; [("name", VStr "Identity")]].

(** Construct with default kernel parameters, load a config with this neighbourhood kernel,
    re-apply the object's own parameters: the rule is another one. *)
Definition reapply_differs (nb : dict) : Prop :=
  exists o0 o1 v o2, init 1 no_env (fun _ => wit_dr) wit_kw (wit_heap nb) = Ok (o0, wit_heap nb) /\
    load_config 1 no_env (fun _ => wit_dr) o0 wit_cfg (wit_heap nb) = Ok (o1, wit_heap nb) /\
    get_params o1 = Some v /\ set_params o1 v = Ok o2 /\ differ (o_core o1) (o_core o2).

Lemma reapply nb k kp k' y x : get_kernel nb = Ok k -> odd_kernel 1 k -> dget "radius" nb = Some (VInt 1) ->
  read_kpar (KPVec [1 / 2; 0; 1 / 2]) nb = Ok (KPVec kp) -> get_gaussian_mixture_kernel 1 kp 1 = Ok k' ->
  (y < 3)%nat -> (x < 3)%nat -> (y <> 1 \/ x <> 1)%nat -> 0 <= get k 0 0 y x <= 1 -> 0 <= get k' 0 0 y x <= 1 ->
  get k 0 0 y x <> get k' 0 0 y x -> reapply_differs nb.
Proof.
  intros Hk Ok1 Hr Hp Hk' Hy Hx N B B' D.
  destruct (fresh_ok wit_dr wit_kw Circular 1 1 (1 / 10) 1 1) as [o0 F]; try reflexivity; try lia.
  { intros [|[|i]]; cbn [dr_k wit_dr]; lra. }
  pose proof F as F'. apply fresh_inv in F' as (I & _ & Ekp & _ & _ & _ & _ & Ei & _). destruct I as (_ & _ & _ & _ & W & Ipm & Iint & Iext & _ & Ipk). cbv zeta in *. rewrite Ei in *.
  change (as_pmode (query_kwargs "conv_mode" (VStr "circular") wit_kw)) with (Ok Circular : res pmode) in Ipm. apply Ok_inj in Ipm.
  change (as_size (query_kwargs "internal_channels" (VInt 1) wit_kw)) with (Ok 1%nat : res nat) in Iint. apply Ok_inj in Iint.
  change (as_size (query_kwargs "external_channels" (VInt 1) wit_kw)) with (Ok 1%nat : res nat) in Iext. apply Ok_inj in Iext.
  change (as_size (query_kwargs "kernel_peaks" (VInt 3) wit_kw)) with (Ok 1%nat : res nat) in Ipk. apply Ok_inj in Ipk.
  rewrite <- Ipk in Ekp. cbn [Nat.mul Nat.add seq map wit_dr dr_k] in Ekp.
  destruct (init_layer_ok 1 1 Circular default_id_kernel) as [il Eil]; auto.
  destruct Ok1 as (Sk & Wk & Rk). pose proof Sk as Sk'. apply shape_inv in Sk' as (K1 & K2 & K3 & K4).
  destruct (init_layer_ok 1 1 Circular k) as [nl Enl]; auto; try congruence; try lia.
  rewrite <- Ipm, <- Iint, <- Iext in W.
  set (h := wit_heap nb).
  assert (L : load_body o0 wit_cfg h = Ok (mkObj (set_layers (o_core o0) il nl (wl (o_core o0)) [AIdentity] [AIdentity] 1) (KPVec kp) (VInt 1) (o_peaks o0)
        (Some 0%nat) (Some 1%nat) (Some 1%nat) (o_inst o0), h)).
  { apply (load_body_ok o0 wit_cfg h default_id_kernel 0%nat k (KPVec kp) (VInt 1) 1%nat [AIdentity] 1%nat [AIdentity]); try reflexivity; try assumption.
    - rewrite Ekp. exact Hp.
    - rewrite <- Ipm, <- Iint, <- Iext. exact Eil.
    - rewrite <- Ipm, <- Iint, <- Iext. exact Enl.
    - rewrite <- Ipm, <- Iint, <- Iext. exact W. }
  set (o1 := mkObj _ _ _ _ _ _ _ _) in L.
  assert (P1 : plain (o_core o1)).
  { unfold plain. cbn [o1 o_core set_layers ext int_ pm gens pers dt idl wl]. repeat split; auto. }
  destruct (mixture_kernel_shape _ _ _ Hk') as (Sk2 & Wk2 & Rk2 & Ak2). pose proof Sk2 as Sk2'. apply shape_inv in Sk2' as (Q1 & Q2 & Q3 & Q4).
  destruct (init_layer_ok 1 1 Circular k') as [nl2 Enl2]; auto; try congruence; try lia.
  set (o2 := mkObj (set_layers (o_core o1) il nl2 (wl (o_core o0)) [AIdentity] [AIdentity] 1) (KPVec kp) (VInt 1) (o_peaks o0)
        (Some 0%nat) (Some 1%nat) (Some 1%nat) (o_inst o0)).
  exists o0, o1, kp, o2.
  split. { cbn [init]. rewrite F. cbn [bind]. reflexivity. }
  split. { unfold load_config, load_with. cbn [wit_cfg c_inst bind fst snd]. exact L. }
  split; [reflexivity|]. split.
  - unfold set_params. cbv zeta. cbn [o1 o_core set_layers gens pers set_acts set_act bind fst snd o_kpar]. rewrite firstn_all.
    unfold mixture_kernel_of. change (as_size (o_radius o1)) with (Ok 1%nat : res nat). cbn [bind]. rewrite Hk'. cbn [bind]. rewrite Ak2. cbn [bind ext int_ pm set_layers].
    rewrite <- Ipm, <- Iint, <- Iext. rewrite Enl2. cbn [bind]. reflexivity.
  - assert (P2 : plain (o_core o2)).
    { unfold plain. cbn [o2 o1 o_core set_layers ext int_ pm gens pers dt idl wl]. repeat split; auto. }
    assert (U1 : uses_kernel (o_core o1) k).
    { unfold uses_kernel. cbn [o1 o_core set_layers ext int_ pm nbl]. rewrite <- Ipm, <- Iint, <- Iext. exact Enl. }
    assert (U2 : uses_kernel (o_core o2) k').
    { unfold uses_kernel. cbn [o2 o1 o_core set_layers ext int_ pm nbl]. rewrite <- Ipm, <- Iint, <- Iext. exact Enl2. }
    assert (O1 : odd_kernel 1 k) by (split; [exact Sk|split; assumption]).
    assert (O2 : odd_kernel 1 k') by (split; [exact Sk2|split; assumption]).
    exact (probe_differ (o_core o1) (o_core o2) k k' y x P1 P2 O1 O2 U1 U2 Hy Hx N B B' D).
Qed.

Lemma pair_kernel mu s : eps9 + s <> 0 -> exists k, get_gaussian_mixture_kernel 1 [mu; s] 1 = Ok k /\ radial_kernel (AGaussian mu s false) 1 1 = Ok k.
Proof.
  intros H. rewrite one_gauss_mixture. destruct (radial_kernel_ok (AGaussian mu s false) 1 1) as (k & E & _); [lia| |eauto].
  cbn [act_ok]. replace (nonzero (eps9 + s)) with true by (symmetry; apply nonzero_true; exact H). reflexivity.
Qed.

Definition kcfg (name : string) (kw : dict) : dict := [("name", VStr name); ("kernel_kwargs", VDict kw); ("radius", VInt 1)].

Lemma abs_lt_cases x y : 0 <= x -> x < y -> Rabs x < Rabs y.
Proof. intros. rewrite !Rabs_pos_eq; lra. Qed.

Lemma moore_reapply : reapply_differs [("name", VStr "MooreLike"); ("radius", VInt 1)].
Proof.
  destruct (moore_spec [("name", VStr "MooreLike"); ("radius", VInt 1)] 1 eq_refl eq_refl (le_n 1)) as (k & Hk & _ & G).
  destruct (get_kernel_odd _ _ Hk) as (r & O & C). assert (r = 1%nat) as ->.
  { destruct C as [[C _]|[_ C]]; [discriminate|]. change (VInt 1) with (VInt (Z.of_nat 1)) in C. cbn [dget String.eqb Ascii.eqb Bool.eqb] in C. injection C. lia. }
  destruct (triple_kernel_ok 1 [1 / 2; 0; 1 / 2] 1) as [k' Hk']; try lia; [reflexivity| |].
  { intros x [<-|[<-|[<-|[]]]]; lra. }
  assert (Z : get k' 0 0 0 0 = 0).
  { unfold get_gaussian_mixture_kernel in Hk'. apply bind_ok in Hk' as (gs & Hg & Hk'). change (read_mixture [1 / 2; 0; 1 / 2]) with (Ok [(1 / 2, 0, 1 / 2)] : res (list (R * R * R))) in Hg.
    apply Ok_inj in Hg. subst gs.
    assert (V : forall x, act_fn (AMixture [(1 / 2, 0, 1 / 2)] false) x = 1 / 2 * gauss 0 (1 / 2) x).
    { intros x. cbn [act_fn mixture_sum fold_left]. apply clamp_unit. pose proof (gauss_range 0 (1 / 2) x). lra. }
    pose proof eps9_pos'. pose proof sqrt2_bounds.
    apply (k1_corner_zero _ _ Hk'); rewrite !V; apply Rmult_le_compat_l; try lra; apply Rlt_le, gauss_lt; try lra; rewrite !Rminus_0_r; apply abs_lt_cases; lra. }
  assert (V : get k 0 0 0 0 = / 8). { rewrite G by lia. cbn [Nat.eqb andb]. f_equal. cbn [INR Nat.mul Nat.add]. ring. }
  apply (reapply _ k [1 / 2; 0; 1 / 2] k' 0 0); auto; try lia; try reflexivity; rewrite ?V, ?Z; lra.
Qed.

Lemma smoothlife_reapply : reapply_differs (kcfg "SmoothLifeKernel" [("r_a", VNum (105 / 100)); ("r_i", VNum (1 / 3))]).
Proof.
  pose proof eps9_pos'. pose proof sqrt2_bounds. set (nb := kcfg _ _).
  destruct (radial_kernel_ok (ASmoothLife (105 / 100) (1 / 3)) 1 1) as (k & Hk & _); [lia|reflexivity|].
  assert (E : get_kernel nb = Ok k) by exact Hk.
  destruct (pair_kernel (105 / 100) (1 / 3)) as (k' & Hk' & Hr'); [lra|].
  assert (Z : get k 0 0 0 0 = 0).
  { destruct (smoothlife_indicator (105 / 100) (1 / 3) (sqrt 2)) as [_ V]. destruct (smoothlife_indicator (105 / 100) (1 / 3) 1) as [V1 _].
    destruct (smoothlife_indicator (105 / 100) (1 / 3) 0) as [_ V0].
    apply (k1_corner_zero _ _ Hk); rewrite V by lra; [rewrite V0 by lra|rewrite V1 by lra]; lra. }
  assert (P : 0 < get k' 0 0 0 0 <= 1).
  { apply (k1_corner_pos _ _ Hr'). cbn [act_fn]. apply gauss_lt; [lra|].
    rewrite (Rabs_left (0 - 105 / 100)) by lra. rewrite Rabs_pos_eq by lra. lra. }
  apply (reapply nb k [105 / 100; 1 / 3] k' 0 0 E (k1_odd _ _ Hk)); auto; try lia; try reflexivity; rewrite ?Z; lra.
Qed.

Lemma cosx2_reapply : reapply_differs (kcfg "CosOverX2" [("mu", VNum 0); ("omega", VNum PI)]).
Proof.
  pose proof eps9_pos'. pose proof sqrt2_bounds. pose proof PI_RGT_0. set (nb := kcfg _ _).
  destruct (radial_kernel_ok (ACosOverX2 0 PI false) 1 1) as (k & Hk & _); [lia|reflexivity|].
  assert (E : get_kernel nb = Ok k) by exact Hk.
  destruct (pair_kernel 0 PI) as (k' & Hk' & Hr'); [lra|].
  assert (V1 : act_fn (ACosOverX2 0 PI false) 1 = 1 - / 101).
  { cbn [act_fn]. rewrite (Rabs_left (0 - 1)) by lra. replace (- (0 - 1)) with 1 by ring. rewrite Rmult_1_r, cos_PI. field. }
  assert (Z : get k 0 0 0 1 = 0).
  { apply (k1_edge_zero _ _ Hk); rewrite V1.
    - pose proof (cosx2_peak 0 PI false) as C. cbv iota in C. rewrite C. lra.
    - destruct (cosx2_range 0 PI false (sqrt 2)) as [C _]. cbv iota in C.
      assert (S2 : (sqrt 2 - 0) ^ 2 = 2) by (rewrite Rminus_0_r; apply pow2_sqrt; lra). rewrite S2 in C.
      replace (1 + 100 * 2) with 201 in C by ring. pose proof (Rle_abs (- (act_fn (ACosOverX2 0 PI false) (sqrt 2) - 1))) as A. rewrite Rabs_Ropp in A. lra. }
  assert (P : 0 < get k' 0 0 0 1 <= 1).
  { apply (k1_edge_pos _ _ Hr'). cbn [act_fn]. apply gauss_lt; [lra|]. rewrite !Rminus_0_r. apply abs_lt_cases; lra. }
  apply (reapply nb k [0; PI] k' 0 1 E (k1_odd _ _ Hk)); auto; try lia; try reflexivity; rewrite ?Z; lra.
Qed.

Lemma dogaussian_reapply : reapply_differs (kcfg "DoGaussian" [("mu", VNum (sqrt 2)); ("sigma", VNum (1 / 2))]).
Proof.
  pose proof eps9_pos'. pose proof sqrt2_bounds. set (nb := kcfg _ _).
  destruct (radial_kernel_ok (ADoGaussian (sqrt 2) (1 / 2) (1 / 100) false) 1 1) as (k & Hk & _); [lia| |].
  { cbn [act_ok]. replace (nonzero (eps9 + 1 / 2)) with true by (symmetry; apply nonzero_true; lra). reflexivity. }
  assert (E : get_kernel nb = Ok k) by exact Hk.
  destruct (pair_kernel (sqrt 2) (1 / 2)) as (k' & Hk' & Hr'); [lra|].
  assert (V : forall x, act_fn (ADoGaussian (sqrt 2) (1 / 2) (1 / 100) false) x = gauss (sqrt 2) (1 / 2) (x + 1 / 100) - gauss (sqrt 2) (1 / 2) (x - 1 / 100)) by reflexivity.
  assert (V0 : act_fn (ADoGaussian (sqrt 2) (1 / 2) (1 / 100) false) (sqrt 2) = 0).
  { rewrite V. unfold gauss. replace (sqrt 2 + 1 / 100 - sqrt 2) with (1 / 100) by ring. replace (sqrt 2 - 1 / 100 - sqrt 2) with (- (1 / 100)) by ring.
    replace ((- (1 / 100) / (eps9 + 1 / 2)) ^ 2) with ((1 / 100 / (eps9 + 1 / 2)) ^ 2) by (field; lra). ring. }
  assert (Vp : forall x, x <= 1 -> 0 <= act_fn (ADoGaussian (sqrt 2) (1 / 2) (1 / 100) false) x).
  { intros x Hx. rewrite V. assert (gauss (sqrt 2) (1 / 2) (x - 1 / 100) < gauss (sqrt 2) (1 / 2) (x + 1 / 100)); [|lra].
    apply gauss_lt; [lra|]. rewrite !Rabs_left by lra. lra. }
  assert (Z : get k 0 0 0 0 = 0).
  { apply (k1_corner_zero _ _ Hk); rewrite V0; apply Vp; lra. }
  assert (P : 0 < get k' 0 0 0 0 <= 1).
  { apply (k1_corner_pos _ _ Hr'). cbn [act_fn]. apply gauss_lt; [lra|]. replace (sqrt 2 - sqrt 2) with 0 by ring. rewrite Rabs_R0. apply Rabs_pos_lt. lra. }
  apply (reapply nb k [sqrt 2; 1 / 2] k' 0 0 E (k1_odd _ _ Hk)); auto; try lia; try reflexivity; rewrite ?Z; lra.
Qed.

(** A Gaussian kernel whose keyword arguments are given in the other order. *)
Lemma swapped_reapply : reapply_differs (kcfg "Gaussian" [("sigma", VNum (1 / 10)); ("mu", VNum 1)]).
Proof.
  pose proof eps9_pos'. pose proof sqrt2_bounds. set (nb := kcfg _ _).
  destruct (pair_kernel 1 (1 / 10)) as (k & _ & Hk); [lra|].
  assert (E : get_kernel nb = Ok k) by exact Hk.
  destruct (pair_kernel (1 / 10) 1) as (k' & Hk' & Hr'); [lra|].
  assert (Z : get k' 0 0 0 0 = 0).
  { apply (k1_corner_zero _ _ Hr'); cbn [act_fn]; apply Rlt_le, gauss_lt; try lra; rewrite (Rabs_pos_eq (sqrt 2 - 1 / 10)) by lra.
    - rewrite Rabs_left by lra. lra.
    - rewrite Rabs_pos_eq by lra. lra. }
  assert (P : 0 < get k 0 0 0 0 <= 1).
  { apply (k1_corner_pos _ _ Hk). cbn [act_fn]. apply gauss_lt; [lra|]. rewrite (Rabs_left (0 - 1)) by lra. rewrite Rabs_pos_eq by lra. lra. }
  apply (reapply nb k [1 / 10; 1] k' 0 0 E (k1_odd _ _ Hk)); auto; try lia; try reflexivity; rewrite ?Z; lra.
Qed.
