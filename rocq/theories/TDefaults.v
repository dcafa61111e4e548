(** Theorems about constructor arguments and defaults: C81 (activation classes), C82 (a new
    CCA), C83 (new adaptive and random-step automata). *)
From Coq Require Import Reals ZArith Lra Lia List String Bool Arith.
From Verif Require Import Base PyDict Tensor MActivations MKernels MCommon MCca MConfig SCca SDefaults PTensor PKern PAct PCode PStep PConfigX PConfigY PDefaults Examples.
Import ListNotations.
Open Scope R_scope.

(** ** C81 Activation classes *)
Theorem C81_gaussian d a : mk_gaussian d = Ok a <->
  exists mu sigma b, a = AGaussian mu sigma b /\ number_arg d "mu" 0 mu /\ number_arg d "sigma" (1 / 10) sigma /\ mode_arg d b.
Proof. exact (gaussian_args d a). Qed.

Theorem C81_dogaussian d a : mk_dogaussian d = Ok a <->
  exists mu sigma dx b, a = ADoGaussian mu sigma dx b /\ number_arg d "mu" 0 mu /\ number_arg d "sigma" (1 / 10) sigma /\ number_arg d "dx" (1 / 100) dx /\ mode_arg d b.
Proof. exact (dogaussian_args d a). Qed.

Theorem C81_polynomial d a : mk_polynomial d = Ok a <->
  exists c b, a = APolynomial c b /\ vector_arg d "coefficients" [1 / 10; 1 / 10; 1 / 10] c /\ mode_arg d b.
Proof. exact (polynomial_args d a). Qed.

Theorem C81_cosx2 d a : mk_cosx2 d = Ok a <->
  exists mu om b, a = ACosOverX2 mu om b /\ number_arg d "mu" 0 mu /\ number_arg d "omega" (2512 / 100) om /\ mode_arg d b.
Proof. exact (cosx2_args d a). Qed.

Theorem C81_intervals d a : mk_smoothintervals d = Ok a <->
  exists ivs al b, a = ASmoothIntervals ivs al b /\ bounds_arg d "parameters" [(185 / 1000, 375 / 1000)] ivs /\ number_arg d "alpha" (125 / 10000) al /\ mode_arg d b.
Proof. exact (smoothintervals_args d a). Qed.

Theorem C81_smoothlife d a : mk_smoothlife d = Ok a <->
  exists ra ri, a = ASmoothLife ra ri /\ number_arg d "r_a" 1 ra /\ number_arg d "r_i" (1 / 3) ri.
Proof. exact (smoothlife_args d a). Qed.

(** Without parameters a mixture is one Gaussian with mean 1/2, deviation 0.15 and amplitude 1. *)
Theorem C81_mixture_default d b : dget "parameters" d = None -> mode_arg d b ->
  mk_mixture d = Ok (AMixture [(1, 1 / 2, 15 / 100)] b).
Proof.
  intros H M. apply mode_arg_iff in M. unfold mk_mixture. unfold query_kwargs at 1. rewrite H, M. reflexivity.
Qed.

(** Arguments of the modelled kinds (numbers as floats, integers or one-element arrays; arrays for
    coefficients) never raise, except that bounds given as a flat array raise IndexError. *)
Theorem C81_errors d e : mk_gaussian d = Err e \/ mk_dogaussian d = Err e \/ mk_polynomial d = Err e \/ mk_cosx2 d = Err e \/ mk_smoothlife d = Err e -> e = Unmodelled.
Proof. exact (number_errors d e). Qed.

Theorem C81_interval_errors d e : mk_smoothintervals d = Err e -> e = Unmodelled \/ e = IndexError /\ exists x l, dget "parameters" d = Some (VVec (x :: l)).
Proof. exact (intervals_errors d e). Qed.

Theorem C81_flat_bounds d x l : dget "parameters" d = Some (VVec (x :: l)) -> mk_smoothintervals d = Err IndexError.
Proof. exact (intervals_flat d x l). Qed.

(** DoubleGaussian needs arrays for both arguments: one element stands for both peaks, and its own
    defaults, which are scalars, raise. *)
Theorem C81_double d lm ls : dget "mu" d = Some (VVec lm) -> dget "sigma" d = Some (VVec ls) ->
  exists mu sigma b, mk_doublegaussian d = Ok (ADoubleGaussian mu sigma b) /\
    ((exists x, lm = [x] /\ mu = [x; x]) \/ (List.length lm <> 1%nat /\ mu = lm)) /\
    ((exists x, ls = [x] /\ sigma = [x; x]) \/ (List.length ls <> 1%nat /\ sigma = ls)) /\ mode_arg d b.
Proof. exact (double_args d lm ls). Qed.

Theorem C81_double_default d : dget "mu" d = None \/ (exists lm, dget "mu" d = Some (VVec lm) /\ dget "sigma" d = None) ->
  mk_doublegaussian d = Err IndexError.
Proof. exact (double_default d). Qed.

(** Unless an argument is of a kind left out, that is the only exception of DoubleGaussian. *)
Theorem C81_double_errors d e : mk_doublegaussian d = Err e -> e = Unmodelled \/
  e = IndexError /\ (dget "mu" d = None \/ dget "sigma" d = None \/ exists k v, (k = "mu" \/ k = "sigma")%string /\ dget k d = Some v /\
    ((exists r, v = VNum r) \/ exists z, v = VInt z)).
Proof. exact (double_errors d e). Qed.

Example C81_example :
  mk_gaussian [("mu", VInt 2); ("mode", VNum 0)]%string = Ok (AGaussian 2 (1 / 10) false) /\
  mk_dogaussian [("sigma", VVec [3]); ("mode", VStr "growth")]%string = Ok (ADoGaussian 0 3 (1 / 100) true) /\
  mk_gaussian [("mu", VVec [1; 2])]%string = Err Unmodelled /\
  mk_smoothintervals [("parameters", VVec [1; 2])]%string = Err IndexError /\
  mk_doublegaussian [] = Err IndexError /\
  mk_doublegaussian [("mu", VVec [1]); ("sigma", VVec [2; 3])]%string = Ok (ADoubleGaussian [1; 1] [2; 3] false).
Proof.
  split; [apply C81_gaussian; exists 2, (1 / 10), false; repeat split|].
  - right. exists (VInt 2). split; [reflexivity|constructor].
  - left. split; reflexivity.
  - right. exists (VNum 0). split; [reflexivity|]. split; [constructor|reflexivity].
  - split; [apply C81_dogaussian; exists 0, 3, (1 / 100), true; repeat split|repeat split; reflexivity].
    + left. split; reflexivity.
    + right. exists (VVec [3]). split; [reflexivity|constructor].
    + left. split; reflexivity.
    + right. exists (VStr "growth"). split; [reflexivity|]. split; [discriminate|intros F; inversion F].
Qed.

(** ** C82 A new CCA *)
Theorem C82_arguments dr kw o : fresh dr kw = Ok o ->
  size_arg kw "external_channels" 1 (ext (o_core o)) /\ size_arg kw "internal_channels" 1 (int_ (o_core o)) /\
  size_arg kw "kernel_peaks" 3 (o_peaks o) /\ number_arg kw "alive_threshold" (1 / 10) (thr (o_core o)) /\
  (dget "kernel_radius" kw = None /\ o_radius o = VInt 13 \/ dget "kernel_radius" kw = Some (o_radius o)) /\
  (dget "conv_mode" kw = None /\ pm (o_core o) = Circular \/ exists s, dget "conv_mode" kw = Some (VStr s) /\
     (s = "circular" /\ pm (o_core o) = Circular \/ s = "zeros" /\ pm (o_core o) = Zeros \/
      s = "reflect" /\ pm (o_core o) = Reflect \/ s = "replicate" /\ pm (o_core o) = Replicate)%string).
Proof. exact (fresh_args dr kw o). Qed.

Theorem C82_parameters dr kw o : fresh dr kw = Ok o ->
  dt (o_core o) = 1 / 10 /\ o_kpar o = KPVec (map (dr_k dr) (seq 0 (o_peaks o * 3))) /\
  List.length (gens (o_core o)) = int_ (o_core o) /\ List.length (pers (o_core o)) = int_ (o_core o).
Proof.
  intros F. apply fresh_inv in F as (_ & _ & K & _ & _ & _ & _ & _ & T & G & P & _). split; [exact T|]. split; [exact K|].
  rewrite G, P, !map_length, seq_length. auto.
Qed.

(** The first eight channels: genesis and persistence have the same mean and deviation, 0.15 and 0.015
    up to the drawn relative deviations, and are drawn to be Gaussian or its derivative, in growth mode. *)
Theorem C82_functions dr kw o k : fresh dr kw = Ok o -> (k < int_ (o_core o))%nat -> (k < 8)%nat ->
  exists mu sigma, 0 <= mu <= 1 /\ 0 <= sigma <= 1 /\
  (-10 <= dr_mu dr k <= 56 -> mu = 15 / 100 + 15 / 1000 * dr_mu dr k) /\
  (-100 <= dr_sigma dr k <= 6566 -> sigma = 15 / 1000 + 15 / 100000 * dr_sigma dr k) /\
  nth_error (gens (o_core o)) k = Some (if dr_g dr k then AGaussian mu sigma true else ADoGaussian mu sigma (1 / 100) true) /\
  nth_error (pers (o_core o)) k = Some (if dr_p dr k then AGaussian mu sigma true else ADoGaussian mu sigma (1 / 100) true).
Proof.
  intros F K K8. destruct (fresh_functions dr kw o k F K) as (g & p & Hg & Hp & -> & -> & _ & _). rewrite Hg, Hp.
  destruct (default_shared dr k K8) as (mu & sg & A & B & C & D & -> & ->). exists mu, sg. auto 8.
Qed.

(** Later channels: polynomials with eight drawn coefficients, the i-th divided by 10^i. *)
Theorem C82_polynomials dr kw o k : fresh dr kw = Ok o -> (k < int_ (o_core o))%nat -> (8 <= k)%nat ->
  exists c c', nth_error (gens (o_core o)) k = Some (APolynomial c false) /\ nth_error (pers (o_core o)) k = Some (APolynomial c' false) /\
  List.length c = 8%nat /\ List.length c' = 8%nat /\
  forall i, (i < 8)%nat -> nth i c 0 = dr_gc dr k i / 10 ^ i /\ nth i c' 0 = dr_pc dr k i / 10 ^ i.
Proof.
  intros F K K8. destruct (fresh_functions dr kw o k F K) as (g & p & Hg & Hp & -> & -> & _ & _). rewrite Hg, Hp.
  destruct (default_polys dr k K8) as (c & c' & -> & -> & A & B & C). exists c, c'. auto.
Qed.

Example C82_example : exists o, fresh wit_dr [("internal_channels", VInt 9)]%string = Ok o /\ int_ (o_core o) = 9%nat /\ pm (o_core o) = Circular.
Proof.
  destruct (fresh_ok wit_dr [("internal_channels", VInt 9)]%string Circular 1 9 (1 / 10) 13 3) as [o Ho]; try reflexivity; try lia.
  - intros i. unfold wit_dr. cbn [dr_k]. destruct i as [|[|i]]; lra.
  - exists o. split; [exact Ho|]. destruct (C82_arguments _ _ _ Ho) as (_ & A & _ & _ & _ & B). split.
    + destruct A as [[A _]|A]; [discriminate A|]. assert (E : VInt 9 = VInt (Z.of_nat (int_ (o_core o)))) by (exact (f_equal (fun x => match x with Some v => v | None => VNone end) A)).
      injection E as E. lia.
    + destruct B as [[_ B]|(s & B & _)]; [exact B|discriminate B].
Qed.

(** ** C83 New adaptive and random-step automata *)
Theorem C83_code fuel n c u s' u' : code_run fuel n (code_init c) u = Ok (s', u') ->
  List.length (code_steps fuel n (code_init c) u) = n /\
  Forall (fun d => 1 / 100 <= d <= 1 / 2) (code_steps fuel n (code_init c) u) /\
  cd_time s' = lsum (code_steps fuel n (code_init c) u) /\ INR n / 100 <= cd_time s' <= INR n / 2.
Proof.
  intros H. apply code_run_time in H; [|unfold code_init; cbn [cd_min]; lra]. destruct H as (L & F & T).
  unfold code_init in F, T. cbn [cd_min cd_max cd_time] in F, T. split; [exact L|]. split; [exact F|].
  assert (T' : cd_time s' = lsum (code_steps fuel n (code_init c) u)) by (rewrite T; unfold code_init; ring).
  split; [exact T'|]. rewrite T'. fold (code_init c) in F. clear T T'. set (l := code_steps fuel n (code_init c) u) in *. rewrite <- L. clear - F. clearbody l.
  induction F as [|d l D _ IH]; [cbn; lra|]. cbv beta in D. change (lsum (d :: l)) with (d + lsum l). cbn [List.length]. rewrite S_INR. lra.
Qed.

(** The first call tries 0.5, 0.375, ... down to 0.01 and takes the first with error below 0.001. *)
Theorem C83_code_first fuel c u s' u' : code_forward fuel (code_init c) u = Ok (s', u') ->
  exists k, (forall i, (i < k)%nat -> 1 / 100 <= tried (1 / 2) i /\ exists e, code_error c (tried (1 / 2) i) u = Ok e /\ 1 / 1000 <= e) /\
   ((cd_prev s' = tried (1 / 2) k /\ 1 / 100 <= tried (1 / 2) k /\ exists e, code_error c (tried (1 / 2) k) u = Ok e /\ e < 1 / 1000)
    \/ (cd_prev s' = 1 / 100 /\ tried (1 / 2) k < 1 / 100)).
Proof.
  intros H. apply code_forward_spec in H as (_ & _ & _ & _ & _ & _ & _ & _ & k & A & B).
  assert (E : h0 (code_init c) = 1 / 2) by (unfold h0, code_init; cbn [cd_prev cd_max]; rewrite Rmin_right; lra).
  rewrite E in A, B. exists k. split; [exact A|exact B].
Qed.

Theorem C83_random rands c u s' u' : Forall (fun r => 0 <= r < 1) rands -> rs_run (rs_init c) rands u = Ok (s', u') ->
  rs_time s' = lsum (map (fun r => r / 5 + 1 / 20) rands) /\
  INR (List.length rands) / 20 <= rs_time s' <= INR (List.length rands) / 4.
Proof.
  intros F H. pose proof (rs_run_time _ _ _ _ _ H) as (T & _ & _).
  pose proof (rs_run_min rands (rs_init c) u s' u' ltac:(unfold rs_init; cbn; lra) F H) as B.
  unfold rs_init in T, B. cbn [rs_time rs_min rs_max] in T, B. split; [|lra]. rewrite T.
  rewrite Rplus_0_l. f_equal. apply map_ext. intros r. unfold rs_dt_of. cbn [rs_min rs_max]. lra.
Qed.

(** Before the first call both report the time step of the underlying CCA, a previous step of 0.3 and time 0. *)
Theorem C83_start c : get_dt (cd_dt (code_init c)) = Ok (dt c) /\ get_dt (rs_dt (rs_init c)) = Ok (dt c) /\
  cd_prev (code_init c) = 3 / 10 /\ rs_prev (rs_init c) = 3 / 10 /\ cd_time (code_init c) = 0 /\ rs_time (rs_init c) = 0 /\
  cd_core (code_init c) = c /\ rs_core (rs_init c) = c.
Proof. repeat split; reflexivity. Qed.

Example C83_example : (exists fuel s' u', code_run fuel 5 (code_init ex_cca) ex_grid = Ok (s', u')) /\
  exists s' u', rs_run (rs_init ex_cca) [1 / 2; 0] ex_grid = Ok (s', u').
Proof.
  destruct ex_step as [v Hv]. split.
  - apply (code_run_total 5 (code_init ex_cca) ex_grid v); try exact ex_wf; try reflexivity; auto; unfold code_init; cbn; lia || lra.
  - destruct (rs_run_total [1 / 2; 0] (rs_init ex_cca) ex_grid v) as (s' & u' & H); eauto using ex_wf, ex_grid_wf.
Qed.
Print Assumptions C81_gaussian.
Print Assumptions C81_dogaussian.
Print Assumptions C81_polynomial.
Print Assumptions C81_cosx2.
Print Assumptions C81_intervals.
Print Assumptions C81_smoothlife.
Print Assumptions C81_mixture_default.
Print Assumptions C81_errors.
Print Assumptions C81_interval_errors.
Print Assumptions C81_flat_bounds.
Print Assumptions C81_double.
Print Assumptions C81_double_default.
Print Assumptions C81_double_errors.
Print Assumptions C82_arguments.
Print Assumptions C82_parameters.
Print Assumptions C82_functions.
Print Assumptions C82_polynomials.
Print Assumptions C83_code.
Print Assumptions C83_code_first.
Print Assumptions C83_random.
Print Assumptions C83_start.
