(** The kernel families with their profiles written out; builders and get_kernel. *)
From Coq Require Import Reals Lra Lia List Arith Bool ZArith String.
From Verif Require Import Base PyDict Tensor MActivations MKernels SGrid SKern PTensor PAct PKern PKernX.
Import ListNotations.
Open Scope R_scope.

Lemma kwarg_num kw key d v : kwarg kw key d v -> as_num (query_kwargs key (VNum d) kw) = Ok v.
Proof.
  unfold kwarg, query_kwargs. destruct (dget key kw) as [w|]; [destruct w; try contradiction|]; intros ->; reflexivity.
Qed.

Lemma no_mode kw : dget "mode" kw = None -> truthy (query_kwargs "mode" (VInt 0) kw) = false.
Proof. unfold query_kwargs. intros ->. reflexivity. Qed.

Section Families.
  Variables (cfg kw : dict) (r : nat).
  Hypothesis Hkw : dget "kernel_kwargs" cfg = Some (VDict kw).
  Hypothesis Hr : dget "radius" cfg = Some (VInt (Z.of_nat r)).
  Hypothesis R0 : (1 <= r)%nat.
  Hypothesis Hmode : dget "mode" kw = None.

  Lemma gaussian_kernel mu s : dget "name" cfg = Some (VStr "Gaussian") ->
    kwarg kw "mu" 0 mu -> kwarg kw "sigma" (1 / 10) s -> / 1000000000 + s <> 0 ->
    exists k, get_kernel cfg = Ok k /\
      fitted r (fun i j => exp (- ((rho r i j - mu) / (/ 1000000000 + s)) ^ 2 / 2)) k.
  Proof.
    intros Hn Hmu Hs Hne.
    destruct (get_kernel_fit cfg "Gaussian" mk_gaussian kw (AGaussian mu s false) r Hn eq_refl Hkw) as (k & H1 & _ & H2); auto; try lia.
    - unfold mk_gaussian. rewrite (kwarg_num _ _ _ _ Hmu), (kwarg_num _ _ _ _ Hs), (no_mode kw Hmode). reflexivity.
    - cbn [act_ok]. unfold eps9. rewrite (proj2 (nonzero_true _) Hne). reflexivity.
    - exists k. split; [exact H1|]. exact H2.
  Qed.

  Lemma dogaussian_kernel mu s dx : dget "name" cfg = Some (VStr "DoGaussian") ->
    kwarg kw "mu" 0 mu -> kwarg kw "sigma" (1 / 10) s -> kwarg kw "dx" (1 / 100) dx -> / 1000000000 + s <> 0 ->
    exists k, get_kernel cfg = Ok k /\
      fitted r (fun i j => exp (- ((rho r i j + dx - mu) / (/ 1000000000 + s)) ^ 2 / 2)
                         - exp (- ((rho r i j - dx - mu) / (/ 1000000000 + s)) ^ 2 / 2)) k.
  Proof.
    intros Hn Hmu Hs Hdx Hne.
    destruct (get_kernel_fit cfg "DoGaussian" mk_dogaussian kw (ADoGaussian mu s dx false) r Hn eq_refl Hkw) as (k & H1 & _ & H2); auto; try lia.
    - unfold mk_dogaussian. rewrite (kwarg_num _ _ _ _ Hmu), (kwarg_num _ _ _ _ Hs), (kwarg_num _ _ _ _ Hdx), (no_mode kw Hmode). reflexivity.
    - cbn [act_ok]. unfold eps9. rewrite (proj2 (nonzero_true _) Hne). reflexivity.
    - exists k. split; [exact H1|]. exact H2.
  Qed.

  Lemma cosx2_kernel mu om : dget "name" cfg = Some (VStr "CosOverX2") ->
    kwarg kw "mu" 0 mu -> kwarg kw "omega" (2512 / 100) om ->
    exists k, get_kernel cfg = Ok k /\
      fitted r (fun i j => cos (om * Rabs (mu - rho r i j)) / (1 + (10 * Rabs (mu - rho r i j)) ^ 2) + 1) k.
  Proof.
    intros Hn Hmu Hom.
    destruct (get_kernel_fit cfg "CosOverX2" mk_cosx2 kw (ACosOverX2 mu om false) r Hn eq_refl Hkw) as (k & H1 & _ & H2); auto; try lia.
    - unfold mk_cosx2. rewrite (kwarg_num _ _ _ _ Hmu), (kwarg_num _ _ _ _ Hom), (no_mode kw Hmode). reflexivity.
    - exists k. split; [exact H1|]. exact H2.
  Qed.

  Lemma smoothlife_kernel_spec ra ri : dget "name" cfg = Some (VStr "SmoothLifeKernel") ->
    kwarg kw "r_a" 1 ra -> kwarg kw "r_i" (1 / 3) ri ->
    exists k, get_kernel cfg = Ok k /\
      fitted r (fun i j => if Rle_dec ri (rho r i j) then if Rle_dec (rho r i j) ra then 1 else 0 else 0) k.
  Proof.
    intros Hn Hra Hri.
    destruct (get_kernel_fit cfg "SmoothLifeKernel" mk_smoothlife kw (ASmoothLife ra ri) r Hn eq_refl Hkw) as (k & H1 & _ & H2); auto; try lia.
    - unfold mk_smoothlife. rewrite (kwarg_num _ _ _ _ Hra), (kwarg_num _ _ _ _ Hri). reflexivity.
    - exists k. split; [exact H1|]. eapply fitted_ext; [|exact H2]. intros i j. cbv beta.
      destruct (smoothlife_indicator ra ri (rho r i j)) as [A B].
      destruct (Rle_dec ri (rho r i j)); [destruct (Rle_dec (rho r i j) ra)|]; [apply A; lra|apply B; lra|apply B; lra].
  Qed.

  Lemma mixture_kernel l gs : dget "name" cfg = Some (VStr "GaussianMixture") ->
    (dget "parameters" kw = Some (VVec l) \/ dget "parameters" kw = None /\ l = [1 / 2; 15 / 100]) ->
    read_mixture l = Ok gs -> gs <> [] -> (forall a m s, In (a, m, s) gs -> 0 <= s) ->
    exists k, get_kernel cfg = Ok k /\
      fitted r (fun i j => clamp 0 1 (lsum (map (fun g => let '(a, m, s) := g in
        a * exp (- ((rho r i j - m) / (/ 1000000000 + s)) ^ 2 / 2)) gs))) k.
  Proof.
    intros Hn Hl Hgs Hne Hs.
    destruct (get_kernel_fit cfg "GaussianMixture" mk_mixture kw (AMixture gs false) r Hn eq_refl Hkw) as (k & H1 & _ & H2); auto; try lia.
    - unfold mk_mixture. assert (E : as_vec (query_kwargs "parameters" (VVec [1 / 2; 15 / 100]) kw) = Ok l).
      { unfold query_kwargs. destruct Hl as [-> | [-> ->]]; reflexivity. }
      rewrite E. cbn [bind]. rewrite Hgs. cbn [bind]. rewrite (no_mode kw Hmode). reflexivity.
    - destruct (mixture_applies gs false (mkT 0 0 0 0 []) Hne Hs) as [v Hv]. apply act_apply_inv in Hv. tauto.
    - exists k. split; [exact H1|]. eapply fitted_ext; [|exact H2]. intros i j. cbn [act_fn]. cbv zeta.
      rewrite mixture_sum_eq. reflexivity.
  Qed.
End Families.

(** ** Builders *)
Definition cfg_of (name : string) (kwargs : dict) (radius : nat) : dict :=
  [("name", VStr name); ("kernel_kwargs", VDict kwargs); ("radius", VInt (Z.of_nat radius))]%string.

Lemma builder_gaussian r mu s :
  get_kernel (cfg_of "Gaussian" [("mu", VNum mu); ("sigma", VNum s)]%string r) = get_gaussian_kernel r mu s 1.
Proof.
  unfold get_kernel, cfg_of, dgetk. cbn -[as_size radial_kernel Z.of_nat]. rewrite as_size_of. reflexivity.
Qed.

Lemma builder_cosx2 r mu om :
  get_kernel (cfg_of "CosOverX2" [("mu", VNum mu); ("omega", VNum om)]%string r) = get_cosx2_kernel r mu om 1.
Proof.
  unfold get_kernel, cfg_of, dgetk. cbn -[as_size radial_kernel Z.of_nat]. rewrite as_size_of. reflexivity.
Qed.

Lemma builder_dogaussian r mu s :
  get_kernel (cfg_of "DoGaussian" [("mu", VNum mu); ("sigma", VNum s)]%string r) = get_dogaussian_kernel r mu s.
Proof.
  unfold get_kernel, cfg_of, dgetk. cbn -[as_size radial_kernel Z.of_nat Rdiv]. rewrite as_size_of. reflexivity.
Qed.

Lemma builder_mixture r l :
  get_kernel (cfg_of "GaussianMixture" [("parameters", VVec l)]%string r) = get_gaussian_mixture_kernel r l 1.
Proof.
  unfold get_kernel, cfg_of, dgetk. cbn -[as_size radial_kernel Z.of_nat read_mixture].
  unfold get_gaussian_mixture_kernel, mk_mixture. cbn -[as_size radial_kernel Z.of_nat read_mixture].
  destruct (read_mixture l); cbn [bind]; [|reflexivity]. rewrite as_size_of. reflexivity.
Qed.

Definition kernel_names : list string :=
  ["Gaussian"; "GaussianMixture"; "CosOverX2"; "DoGaussian"; "SmoothLifeKernel"; "InnerMoore"; "MooreLike"; "LaplacianOfGaussian"]%string.

Lemma unknown_kernel cfg name : dget "name" cfg = Some (VStr name) -> ~ In name kernel_names ->
  get_kernel cfg = Err AssertionError.
Proof.
  intros Hn Hnot. unfold get_kernel, dgetk. rewrite Hn. cbn [bind]. cbv zeta.
  repeat match goal with
  | |- context [String.eqb name ?x] =>
      destruct (String.eqb_spec name x) as [->|_]; [exfalso; apply Hnot; unfold kernel_names; simpl; tauto|]
  end. reflexivity.
Qed.

Lemma unnamed_kernel cfg : dget "name" cfg = None -> get_kernel cfg = Err KeyError.
Proof. intros Hn. unfold get_kernel, dgetk. rewrite Hn. reflexivity. Qed.

Lemma missing_radius cfg name : dget "name" cfg = Some (VStr name) -> dget "radius" cfg = None ->
  name <> "InnerMoore"%string -> forall k, get_kernel cfg <> Ok k.
Proof.
  intros Hn Hr Hi k H. apply get_kernel_radial in H as (r & _ & _ & _ & [[E _]|[_ E]]); [|congruence].
  rewrite Hn in E. injection E as E. contradiction.
Qed.

(** ** Scaled builders *)
Lemma builder_scaled a r s k : radial_kernel a r s = Ok k ->
  fitted r (fun i j => act_fn a (rho r i j * s)) k /\ normalised k /\ radial r k.
Proof.
  intros H. apply radial_kernel_inv in H as (_ & _ & F). split; [exact F|].
  split; [eapply fitted_normalised; eauto|]. apply (fitted_radial r (fun x => act_fn a (x * s))). exact F.
Qed.

Lemma builders_normalised r mu s om l sc k :
  get_gaussian_kernel r mu s sc = Ok k \/ get_cosx2_kernel r mu om sc = Ok k \/
  get_gaussian_mixture_kernel r l sc = Ok k \/ get_dogaussian_kernel r mu s = Ok k -> normalised k /\ tsum k < 1 /\ radial r k.
Proof.
  assert (G : forall a z, radial_kernel a r z = Ok k -> normalised k /\ tsum k < 1 /\ radial r k).
  { intros a z H. destruct (builder_scaled a r z k H) as (F & N & Rd). split; [exact N|]. split; [|exact Rd].
    eapply fitted_normalised; eauto. }
  intros [H|[H|[H|H]]]; try (eapply G; exact H).
  unfold get_gaussian_mixture_kernel in H. apply bind_ok in H as (gs & _ & H). eapply G; exact H.
Qed.

Lemma edge_normalised a r (mode : bool) dx k : edge_kernel a r mode dx = Ok k ->
  r <> 0%nat /\ act_ok a = Ok tt /\ normalised k /\ tsum k < 1 /\
  fitted r (fun i j => act_fn a (edge_dist r mode dx i j) - act_fn a (edge_dist r mode (- dx) i j)) k.
Proof.
  intros H. destruct (edge_kernel_inv a r mode dx k H) as (R0 & Ha & F).
  destruct (fitted_normalised r _ k F) as (N & S & _). auto.
Qed.

Lemma edge_exists r mu s (mode : bool) dx : (1 <= r)%nat -> / 1000000000 + s <> 0 ->
  (exists k, get_gaussian_edge_kernel r mu s mode dx = Ok k) /\ (exists k, get_dogaussian_edge_kernel r mu s mode dx = Ok k).
Proof.
  intros R0 Hs. split; apply edge_kernel_ok; try lia; cbn [act_ok]; unfold eps9; rewrite (proj2 (nonzero_true _) Hs); reflexivity.
Qed.

Lemma moore_spec cfg r : dget "name" cfg = Some (VStr "MooreLike") ->
  dget "radius" cfg = Some (VInt (Z.of_nat r)) -> (1 <= r)%nat ->
  exists k, get_kernel cfg = Ok k /\ tsum k = 1 /\
  forall i j, (i < 2 * r + 1)%nat -> (j < 2 * r + 1)%nat ->
    get k 0 0 i j = if Nat.eqb i r && Nat.eqb j r then 0 else / (INR (2 * r + 1) ^ 2 - 1).
Proof.
  intros Hn Hr R0. assert (R1 : r <> 0%nat) by lia. pose proof (moore_count_pos r R1) as Hc.
  assert (Ek : exists k, get_kernel cfg = Ok k).
  { unfold get_kernel, dgetk. rewrite Hn, Hr. cbn -[as_size nonzero tsum build Z.of_nat]. rewrite as_size_of.
    cbn -[nonzero tsum build]. rewrite moore_total.
    rewrite (proj2 (nonzero_true _)) by lra. cbn [guard bind]. eauto. }
  destruct Ek as [k Hk]. exists k. split; [exact Hk|].
  destruct (get_kernel_cases cfg k Hk) as [Hn' E|r' Hn' Hr' R' E|name mk kw a r' Hn' Hf Hkw Ha Hr' R' Hok F|Hn' Hr' E|s r' Hn' Hr' HL];
    try congruence.
  - assert (r' = r) by (eapply radius_eq; eauto). subst. split; [apply moore_sum; auto|].
    intros i j Hi Hj. unfold moore. rewrite get_build by lia. reflexivity.
  - rewrite Hn in Hn'. injection Hn' as <-. discriminate Hf.
Qed.

Lemma inner_spec cfg : dget "name" cfg = Some (VStr "InnerMoore") -> get_kernel cfg = Ok MCommon.default_id_kernel.
Proof. intros Hn. unfold get_kernel, dgetk. rewrite Hn. reflexivity. Qed.

Lemma log_profile cfg kw s r k : dget "name" cfg = Some (VStr "LaplacianOfGaussian") ->
  dget "kernel_kwargs" cfg = Some (VDict kw) -> kwarg kw "sigma" (1 / 2) s ->
  dget "radius" cfg = Some (VInt (Z.of_nat r)) -> get_kernel cfg = Ok k ->
  exists mean tot, 0 < tot /\ forall i j, (i < 2 * r + 1)%nat -> (j < 2 * r + 1)%nat ->
    get k 0 0 i j = (- (1 / (PI * s ^ 4)) * (1 - rho r i j ^ 2 / (2 * s ^ 2)) * exp (- (rho r i j ^ 2) / (2 * s ^ 2)) - mean) / tot.
Proof.
  intros Hn Hk Hs Hr H. unfold get_kernel, dgetk in H. rewrite Hn, Hk, Hr in H.
  cbn -[as_size kernel_grid log_apply as_num query_kwargs Z.of_nat] in H.
  rewrite (kwarg_num _ _ _ _ Hs) in H. cbn [bind] in H. rewrite as_size_of in H. cbn [bind] in H.
  apply bind_ok in H as (g & Hg & H). unfold kernel_grid in Hg.
  apply bind_ok in Hg as ([] & _ & Hg). apply Ok_inj in Hg; subst g.
  destruct (log_apply_get s _ k (twf_build _ _ _ _ _) H) as (Wk & mean & tot & Ht & Hget).
  exists mean, tot. split; [exact Ht|]. intros i j Hi Hj. rewrite Hget by (cbn; lia). rewrite get_build by lia.
  rewrite grid_rho, Rmult_1_r. reflexivity.
Qed.

Lemma zero_sum_const e k l m r u v a b o i j : (0 < e)%nat ->
  shape k = (1, 1, 2 * r + 1, 2 * r + 1)%nat -> twf k -> tsum k = 0 ->
  MCommon.init_layer e e m k = Ok l -> m <> Zeros -> tC u = e ->
  (forall i j, (i < tH u)%nat -> (j < tW u)%nat -> get u b o i j = a) ->
  conv_apply l u = Ok v -> (b < tB u)%nat -> (o < e)%nat -> (i < tH u)%nat -> (j < tW u)%nat ->
  get v b o i j = 0.
Proof.
  intros He Sk Wk Z0 Hl Hm Hc Ha Hv Hb Ho Hi Hj.
  rewrite (conv_const e k l m r u v a b o i j He Sk Wk Hl Hm Hc Ha Hv Hb Ho Hi Hj), Z0. ring.
Qed.

Lemma zero_sum_total e k l r u v b o : (0 < e)%nat ->
  shape k = (1, 1, 2 * r + 1, 2 * r + 1)%nat -> twf k -> tsum k = 0 ->
  MCommon.init_layer e e Circular k = Ok l -> tC u = e -> (0 < tH u)%nat -> (0 < tW u)%nat ->
  conv_apply l u = Ok v -> (b < tB u)%nat -> (o < e)%nat ->
  rsum (tH u) (fun i => rsum (tW u) (fun j => get v b o i j)) = 0.
Proof.
  intros He Sk Wk Z0 Hl Hc H0 W0 Hv Hb Ho.
  rewrite (conv_total e k l r u v b o He Sk Wk Hl Hc H0 W0 Hv Hb Ho), Z0. ring.
Qed.

Lemma get_kernel_unit cfg k e q m l u v : (0 < e)%nat -> (0 < q)%nat -> get_kernel cfg = Ok k ->
  dget "name" cfg <> Some (VStr "LaplacianOfGaussian") ->
  MCommon.init_layer e (q * e) m k = Ok l -> twf u -> in_unit u -> conv_apply l u = Ok v -> in_unit v.
Proof.
  intros He Hq Hk HL Hl Hu Hin Hv. destruct (get_kernel_radial cfg k Hk) as (r & Sk & _).
  apply shape_inv in Sk as (k1 & k2 & k3 & k4).
  pose proof (conv_unit e (q * e) m k l r u v He ltac:(nia) k3 k4 (get_kernel_normalised cfg k Hk HL) Hl Hu Hin Hv) as H.
  rewrite Nat.mod_mul in H by lia. exact H.
Qed.

Lemma unit_normalised : normalised (mkT 1 1 1 1 [1]).
Proof.
  split; [reflexivity|]. split; [reflexivity|]. split; [reflexivity|]. split.
  - repeat constructor. lra.
  - unfold tsum, lsum. cbn. lra.
Qed.

Lemma mixed_exceeds : exists k l u v, normalised k /\ MCommon.init_layer 2 1 Circular k = Ok l /\
  twf u /\ in_unit u /\ conv_apply l u = Ok v /\ ~ in_unit v.
Proof.
  exists (mkT 1 1 1 1 [1]). eexists. exists (mkT 1 2 1 1 [1; 1]). eexists.
  split; [exact unit_normalised|]. split; [reflexivity|]. split; [reflexivity|].
  split; [unfold in_unit; cbn [tdata]; repeat constructor; lra|]. split; [reflexivity|].
  unfold in_unit. intros H. cbn in H. inversion H as [|x t Hx _]. lra.
Qed.
