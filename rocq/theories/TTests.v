(** * C100 The project's own tests, for all inputs

    What testing/yuca asserts of a few literal or drawn inputs, stated for all of them. Shapes,
    ranges, round trips and files are already under C02, C15, C24, C31, C38, C47 and C84. *)
From Coq Require Import Reals Lra Lia List Arith Bool ZArith String.
From Verif Require Import Base PyDict Tensor MActivations MKernels MCommon MCca MConfig MRd MUtils SGrid SCca SKern SConfig SUtils SRd STests.
From Verif Require Import PTensor PStep PCca PDyn PKern PKernX PKernY PNca PConfig PConfigX PConfigY PRd PUtils PTests.
Import ListNotations.
Open Scope R_scope.

(** test_activations.py:123-146: a Gaussian is largest at its mean, strictly. *)
Theorem C100_gaussian mu s d : eps9 + s <> 0 -> d <> 0 -> act_fn (AGaussian mu s false) (mu + d) < act_fn (AGaussian mu s false) mu.
Proof. exact (gaussian_peak mu s d). Qed.

(** test_activations.py:178-210: a difference of Gaussians vanishes at its mean and has opposite
    signs on the two sides, the sign of [dx] deciding which. *)
Theorem C100_dogaussian mu s dx d : eps9 + s <> 0 -> let f := act_fn (ADoGaussian mu s dx false) in
  f mu = 0 /\ (0 < d * dx -> f (mu + d) < 0 /\ 0 < f (mu - d)).
Proof. exact (dog_sign mu s dx d). Qed.

Example ex_dog : eps9 + 1 / 10 <> 0 /\ 0 < 1 / 10 * (1 / 100) /\ 0 < - (1 / 10) * - (1 / 100).
Proof. unfold eps9. lra. Qed.

(** test_kernels.py:16-46: a kernel built from a config that leaves the parameters of its class
    at their defaults sums to 1 up to five places, for every radius. *)
Theorem C100_kernel_sums cfg kw r : dget "kernel_kwargs" cfg = Some (VDict kw) ->
  dget "radius" cfg = Some (VInt (Z.of_nat r)) -> (1 <= r)%nat ->
  (dget "name" cfg = Some (VStr "Gaussian") /\ dget "mode" kw = None /\ dget "mu" kw = None /\ dget "sigma" kw = None) \/
  (dget "name" cfg = Some (VStr "GaussianMixture") /\ dget "mode" kw = None /\ dget "parameters" kw = None) \/
  (dget "name" cfg = Some (VStr "CosOverX2") /\ dget "mode" kw = None /\ dget "mu" kw = None /\ dget "omega" kw = None) \/
  (dget "name" cfg = Some (VStr "SmoothLifeKernel") /\ dget "r_a" kw = None /\ dget "r_i" kw = None) ->
  exists k, get_kernel cfg = Ok k /\ 1 - 5 / 1000000 < tsum k < 1.
Proof.
  intros H1 H2 R [(N & M & A & B)|[(N & M & A)|[(N & M & A & B)|(N & A & B)]]].
  - exact (gaussian_sum cfg kw r H1 H2 R M N A B).
  - exact (mixture_sum cfg kw r H1 H2 R M N A).
  - exact (cosx2_sum cfg kw r H1 H2 R M N A B).
  - exact (smoothlife_sum cfg kw r H1 H2 R N A B).
Qed.

Example ex_kernel_sums name : In name ["Gaussian"; "GaussianMixture"; "CosOverX2"; "SmoothLifeKernel"]%string ->
  exists k, get_kernel [("name", VStr name); ("radius", VInt 1); ("kernel_kwargs", VDict [("radius", VInt 1)])] = Ok k /\ 1 - 5 / 1000000 < tsum k < 1.
Proof.
  intros H. apply (C100_kernel_sums _ [("radius", VInt 1)] 1); [reflexivity|reflexivity|lia|].
  destruct H as [<-|[<-|[<-|[<-|[]]]]]; [left|right; left|right; right; left|right; right; right]; repeat split.
Qed.

(** test_continuous.py:19-33, 97-108: whatever is drawn, a CCA made from scratch with any channel
    counts, padding, peaks and radius steps every grid of its channels that the padding has
    room for, keeps its shape, and get_frame returns 1, 2, 2, 3 and 4 tensors. *)
Theorem C100_steps dr kw m e n th r pk :
  as_pmode (query_kwargs "conv_mode" (VStr "circular") kw) = Ok m ->
  as_size (query_kwargs "internal_channels" (VInt 1) kw) = Ok n ->
  as_size (query_kwargs "external_channels" (VInt 1) kw) = Ok e ->
  as_num (query_kwargs "alive_threshold" (VNum (1 / 10)) kw) = Ok th ->
  as_size (query_kwargs "kernel_peaks" (VInt 3) kw) = Ok pk ->
  query_kwargs "kernel_radius" (VInt 13) kw = VInt (Z.of_nat r) ->
  (0 < e)%nat -> (0 < n)%nat -> (0 < pk)%nat -> (0 < r)%nat -> (forall i, 0 <= dr_k dr i) ->
  exists o, fresh dr kw = Ok o /\
  forall u, twf u -> tC u = e -> room m r (tH u) -> room m r (tW u) ->
    (exists v, cca_forward (o_core o) u = Ok v /\ shape v = shape u) /\
    (forall k, (k <= 4)%nat -> exists l, get_frame update_universe (o_core o) u k = Ok (Some l) /\ List.length l = nth k [1; 2; 2; 3; 4]%nat 0%nat).
Proof.
  intros Hm Hn He Ht Hp Hr E0 N0 P0 R0 Hk. destruct (fresh_ok dr kw m e n th r pk Hm Hn He Ht Hp Hr E0 N0 P0 R0 Hk) as [o F]. exists o. split; [exact F|].
  pose proof F as F'. apply fresh_inv in F' as (I & _ & _ & Er & _ & _ & _ & Ei & _). pose proof I as I'. destruct I' as (_ & _ & _ & _ & _ & Ipm & _ & Iext & _). rewrite Ei in Ipm, Iext.
  rewrite Hm in Ipm. apply Ok_inj in Ipm. rewrite He in Iext. apply Ok_inj in Iext. rewrite Hr in Er. subst m e.
  intros u W C RH RW. split.
  - destruct (fresh_steps dr kw o r u F Er W C RH RW) as [v Hv]. exists v. split; [exact Hv|]. destruct (obj_inv_wf o I) as (CW & _). exact (proj1 (cca_shape _ _ _ CW W Hv)).
  - intros k K. exact (fresh_frames dr kw o r u k F Er W C RH RW K).
Qed.

(** The test with four external channels, and 16 internal ones. *)
Example ex_steps dr : (forall i, 0 <= dr_k dr i) -> exists o, fresh dr [("internal_channels", VInt 16); ("external_channels", VInt 4)] = Ok o /\
  forall u, shape u = (9, 4, 32, 32)%nat -> twf u -> exists v, cca_forward (o_core o) u = Ok v /\ shape v = shape u.
Proof.
  intros K. destruct (C100_steps dr [("internal_channels", VInt 16); ("external_channels", VInt 4)] Circular 4 16 (1 / 10) 13 3) as (o & F & G); try reflexivity; try lia; [exact K|].
  exists o. split; [exact F|]. intros u Hs W. apply shape_inv in Hs as (_ & H2 & H3 & H4). apply (G u W H2); unfold room; rewrite ?H3, ?H4; lia.
Qed.

(** test_continuous.py:151-177: such a CCA accepts every vector of non-negative numbers of the
    right length and gives it back. *)
Theorem C100_params dr kw o r p : fresh dr kw = Ok o -> o_radius o = VInt (Z.of_nat r) -> (0 < o_peaks o)%nat -> (0 < r)%nat ->
  List.length p = (fn_count (o_core o) + 3 * o_peaks o)%nat -> (forall x, In x p -> 0 <= x) ->
  exists o', set_params o p = Ok o' /\ get_params o' = Some p.
Proof. exact (fresh_params dr kw o r p). Qed.

Example ex_params : exists o p o', fresh wit_dr wit_kw = Ok o /\ List.length p = (fn_count (o_core o) + 3 * o_peaks o)%nat /\ (3 <= List.length p)%nat /\
  get_params o <> Some p /\ set_params o p = Ok o' /\ get_params o' = Some p.
Proof.
  destruct (fresh_ok wit_dr wit_kw Circular 1 1 (1 / 10) 1 1) as [o F]; try reflexivity; try lia. { intros [|[|i]]; cbn [dr_k wit_dr]; lra. }
  pose proof F as F'. apply fresh_inv in F' as (I & _ & Ek & Er & _ & _ & _ & Ei & _). pose proof I as (_ & _ & _ & _ & _ & _ & _ & _ & _ & Ipk). rewrite Ei in Ipk.
  change (as_size (query_kwargs "kernel_peaks" (VInt 3) wit_kw)) with (Ok 1%nat : res nat) in Ipk. apply Ok_inj in Ipk. change (query_kwargs "kernel_radius" (VInt 13) wit_kw) with (VInt (Z.of_nat 1)) in Er.
  set (p := repeat 1 (fn_count (o_core o) + 3 * o_peaks o)). assert (Lp : List.length p = (fn_count (o_core o) + 3 * o_peaks o)%nat) by apply repeat_length.
  destruct (C100_params wit_dr wit_kw o 1 p F Er ltac:(lia) ltac:(lia) Lp) as (o' & S & G). { intros x Hx. apply repeat_spec in Hx. lra. }
  exists o, p, o'. repeat split; auto; [lia|]. unfold get_params. rewrite Ek. cbn [kp_flat]. intros H. injection H as H. rewrite <- Ipk in H. cbn [Nat.mul seq map] in H.
  assert (X : In (dr_k wit_dr 0) p) by (rewrite <- H; apply in_or_app; right; left; reflexivity). apply repeat_spec in X. cbn [dr_k wit_dr] in X. lra.
Qed.

(** test_reaction_diffusion.py:14-45: the initial grid, of any batch size and any sides. *)
Theorem C100_equilibrium s B H W : rd_init = Ok s -> exists u0 v0,
  rd_grid s B H W = Ok (build B 2 H W (fun _ c _ _ => match c with 0%nat => u0 | _ => v0 end)) /\
  Rabs (u0 - 42012 / 100000) < 5 / 1000000 /\ Rabs (v0 - 29253 / 100000) < 5 / 1000000.
Proof. exact (rd_values s B H W). Qed.

Example ex_equilibrium : exists s, rd_init = Ok s.
Proof. exact rd_init_ok. Qed.

(** test_utils.py:163-176: the centre of an even square image is inside every aperture wider
    than the distance of that pixel from the middle. *)
Theorem C100_aperture_centre img r a c : (1 <= r)%nat -> tH img = (2 * r)%nat -> tW img = (2 * r)%nat -> (c < tC img)%nat ->
  1 < a * (sqrt 2 * INR r) ->
  exists m, get_aperture axis_len img a = Ok m /\ (a < 975 / 1000 \/ (0 < tB img)%nat -> get m 0 c r r = 1).
Proof. exact (aperture_centre img r a c). Qed.

(** The radii of the test, at least 1/10, on the images of the test, of side 256. *)
Example ex_aperture_centre a : 1 / 10 <= a -> 1 < a * (sqrt 2 * INR 128).
Proof. intros H. pose proof sqrt2_bounds. rewrite INR_IZR_INZ. cbn [Z.of_nat Pos.of_succ_nat Pos.succ]. nra. Qed.

(** test_utils.py:149-161: an aperture takes something away from every non-negative image with
    a positive corner. *)
Theorem C100_aperture_sum img r a c : (1 <= r)%nat -> tB img = 1%nat -> tH img = (2 * r)%nat -> tW img = (2 * r)%nat -> twf img -> a < 975 / 1000 ->
  (forall x, In x (tdata img) -> 0 <= x) -> (c < tC img)%nat -> 0 < get img 0 c 0 0 ->
  exists m p, get_aperture axis_len img a = Ok m /\ tzip Rmult img m = Ok p /\ tsum p < tsum img.
Proof. exact (aperture_sum img r a c). Qed.

Example ex_aperture_sum : exists m p, get_aperture axis_len (build 1 1 4 4 (fun _ _ _ _ => 1)) (1 / 2) = Ok m /\
  tzip Rmult (build 1 1 4 4 (fun _ _ _ _ => 1)) m = Ok p /\ tsum p < tsum (build 1 1 4 4 (fun _ _ _ _ => 1)).
Proof.
  apply (C100_aperture_sum (build 1 1 4 4 (fun _ _ _ _ => 1)) 2 (1 / 2) 0); try lia; try lra; try (cbn; lia); try apply twf_build.
  - intros x Hx. cbn [build tdata] in Hx. apply in_map_iff in Hx as (? & <- & _). lra.
  - rewrite get_build by lia. lra.
Qed.

(** test_utils.py:201-213 asserts that the centre of a mask of radius 1/2 is 0. get_mask
    compares the image's values, not positions, so this depends on the draw. *)
Theorem C100_mask_centre_refuted : exists img, shape img = (1, 1, 2, 2)%nat /\ (forall x, In x (tdata img) -> 0 <= x < 1) /\
  get (tmap (fun x => mask_at x (1 / 2)) img) 0 0 1 1 <> 0.
Proof.
  exists (build 1 1 2 2 (fun _ _ _ _ => 3 / 4)). split; [reflexivity|]. split; [intros x Hx; cbn in Hx; intuition lra|].
  cbn. unfold mask_at. destruct (Rlt_dec (3 / 4) (1 / 2)); lra.
Qed.

(** test_utils.py:229-239 asserts that a bite mask sums to more than the image. *)
Theorem C100_bite_sum_refuted : exists img co m, shape img = (1, 1, 2, 2)%nat /\ twf img /\ (forall x, In x (tdata img) -> 0 <= x < 1) /\ 0 <= fst co < 1 /\ 0 <= snd co < 1 /\
  get_bite_mask axis_len img (1 / 2) co = Ok m /\ tsum m < tsum img.
Proof. exact bite_sum_fails. Qed.

(** test_utils.py:33-52 asserts that what a misspelt keyword gives, the default, differs from the
    value passed. *)
Theorem C100_query_refuted : exists default value, (exists n, default = VInt n /\ (n = 0 \/ n = 1)%Z) /\ (exists x, value = VNum x /\ 0 <= x < 1) /\
  as_num (query_kwargs "variable" default [("varialbe", value)]) = as_num value.
Proof.
  exists (VInt 0), (VNum 0). split; [exists 0%Z; auto|]. split; [exists 0; split; [reflexivity|lra]|]. reflexivity.
Qed.

Print Assumptions C100_gaussian.
Print Assumptions C100_dogaussian.
Print Assumptions C100_kernel_sums.
Print Assumptions C100_steps.
Print Assumptions C100_params.
Print Assumptions C100_equilibrium.
Print Assumptions C100_aperture_centre.
Print Assumptions C100_aperture_sum.
Print Assumptions C100_mask_centre_refuted.
Print Assumptions C100_bite_sum_refuted.
Print Assumptions C100_query_refuted.
