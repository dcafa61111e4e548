(** Proofs about constructors and their defaults. *)
From Coq Require Import Reals ZArith Lra Lia List String Bool Arith.
From Verif Require Import Base PyDict Tensor MActivations MKernels MCommon MCca MConfig SDefaults PTensor PKern PAct SCca PCode PEqv PConfigX PConfigY.
Import ListNotations.
Open Scope R_scope.

Lemma truthy_falsy v : truthy v = false <-> falsy v.
Proof.
  split.
  - destruct v as [|b|z|r|s|l|l|d]; cbn [truthy]; intros H.
    + constructor.
    + destruct b; [discriminate|constructor].
    + apply negb_false_iff, Z.eqb_eq in H. subst z. constructor.
    + destruct (Req_EM_T r 0) as [->|]; [constructor|discriminate].
    + apply negb_false_iff, String.eqb_eq in H. subst s. constructor.
    + destruct l; [constructor|discriminate].
    + destruct l; [constructor|discriminate].
    + destruct d; [constructor|discriminate].
  - intros [ ]; cbn [truthy]; try reflexivity. destruct (Req_EM_T 0 0); [reflexivity|contradiction].
Qed.

Lemma mode_arg_iff d b : mode_arg d b <-> truthy (query_kwargs "mode" (VInt 0) d) = b.
Proof.
  unfold mode_arg, query_kwargs. destruct (dget "mode" d) as [v|]; split.
  - intros [[H _]|(w & H & F)]; [discriminate|]. injection H as <-. destruct b.
    + destruct (truthy v) eqn:E; [reflexivity|]. apply truthy_falsy in E. apply F in E. discriminate.
    + apply truthy_falsy, F. reflexivity.
  - intros H. right. exists v. split; [reflexivity|]. rewrite <- truthy_falsy, H. reflexivity.
  - intros [[_ ->]|(w & H & _)]; [reflexivity|discriminate].
  - intros <-. left. split; reflexivity.
Qed.

Lemma as_num_iff v r : as_num v = Ok r <-> counts_as v r.
Proof.
  split.
  - destruct v as [|b|z|x|s|l|l|d]; cbn [as_num]; try discriminate; intros H; try (injection H as <-; constructor).
    destruct l as [|x [|y l]]; try discriminate. injection H as <-. constructor.
  - intros [ ]; reflexivity.
Qed.

Lemma number_arg_iff d k x r : number_arg d k x r <-> as_num (query_kwargs k (VNum x) d) = Ok r.
Proof.
  unfold number_arg, query_kwargs. destruct (dget k d) as [v|].
  - rewrite as_num_iff. split; [intros [[H _]|(w & H & C)]; [discriminate|]; injection H as <-; exact C|]. intros C. right. exists v. auto.
  - cbn [as_num]. split; [intros [[_ ->]|(w & H & _)]; [reflexivity|discriminate]|]. intros H. injection H as <-. left. auto.
Qed.

Lemma as_num_err v e : as_num v = Err e -> e = Unmodelled.
Proof. destruct v as [|b|z|x|s|[|y [|? l]]|l|d]; cbn [as_num]; congruence. Qed.

Lemma vector_arg_iff d k x l : vector_arg d k x l <-> as_vec (query_kwargs k (VVec x) d) = Ok l.
Proof.
  unfold vector_arg, query_kwargs. destruct (dget k d) as [v|].
  - split; [intros [[H _]|H]; [discriminate|]; injection H as ->; reflexivity|]. intros H. right. destruct v; try discriminate. injection H as ->. reflexivity.
  - cbn [as_vec]. split; [intros [[_ ->]|H]; [reflexivity|discriminate]|]. intros H. injection H as <-. left. auto.
Qed.

Lemma as_vec_err v e : as_vec v = Err e -> e = Unmodelled.
Proof. destruct v; cbn [as_vec]; congruence. Qed.

Lemma bounds_arg_iff d k x l : bounds_arg d k x l <-> as_intervals (query_kwargs k (VMat x) d) = Ok l.
Proof.
  unfold bounds_arg, query_kwargs. destruct (dget k d) as [v|].
  - split.
    + intros [[H _]|[H|[H ->]]]; [discriminate| |]; injection H as ->; reflexivity.
    + intros H. right. destruct v as [| | | | |[|a w]| |]; try discriminate; cbn [as_intervals] in H; injection H as <-; auto.
  - cbn [as_intervals]. split; [intros [[_ ->]|[H|[H _]]]; [reflexivity|discriminate|discriminate]|]. intros H. injection H as <-. left. auto.
Qed.

Lemma as_size_iff v n : as_size v = Ok n <-> v = VInt (Z.of_nat n).
Proof.
  split; [intros H; apply as_size_ok; exact H|]. intros ->. apply as_size_of.
Qed.

Lemma size_arg_iff d k x n : size_arg d k x n <-> as_size (query_kwargs k (VInt (Z.of_nat x)) d) = Ok n.
Proof.
  unfold size_arg, query_kwargs. destruct (dget k d) as [v|].
  - rewrite as_size_iff. split; [intros [[H _]|H]; [discriminate|congruence]|]. intros ->. auto.
  - rewrite as_size_of. split; [intros [[_ ->]|H]; [reflexivity|discriminate]|]. intros H. injection H as <-. auto.
Qed.

(** ** Activation classes *)
Lemma gaussian_args d a : mk_gaussian d = Ok a <->
  exists mu sigma b, a = AGaussian mu sigma b /\ number_arg d "mu" 0 mu /\ number_arg d "sigma" (1 / 10) sigma /\ mode_arg d b.
Proof.
  unfold mk_gaussian. split.
  - intros H. apply bind_ok in H as (mu & H1 & H). apply bind_ok in H as (sg & H2 & H). apply Ok_inj in H. subst a.
    exists mu, sg, (truthy (query_kwargs "mode" (VInt 0) d)). rewrite !number_arg_iff, mode_arg_iff. auto.
  - intros (mu & sg & b & -> & H1 & H2 & H3). apply number_arg_iff in H1, H2. apply mode_arg_iff in H3. rewrite H1, H2, H3. reflexivity.
Qed.

Lemma dogaussian_args d a : mk_dogaussian d = Ok a <->
  exists mu sigma dx b, a = ADoGaussian mu sigma dx b /\ number_arg d "mu" 0 mu /\ number_arg d "sigma" (1 / 10) sigma /\ number_arg d "dx" (1 / 100) dx /\ mode_arg d b.
Proof.
  unfold mk_dogaussian. split.
  - intros H. apply bind_ok in H as (mu & H1 & H). apply bind_ok in H as (sg & H2 & H). apply bind_ok in H as (dx & H3 & H). apply Ok_inj in H. subst a.
    exists mu, sg, dx, (truthy (query_kwargs "mode" (VInt 0) d)). rewrite !number_arg_iff, mode_arg_iff. auto 6.
  - intros (mu & sg & dx & b & -> & H1 & H2 & H3 & H4). apply number_arg_iff in H1, H2, H3. apply mode_arg_iff in H4. rewrite H1, H2, H3, H4. reflexivity.
Qed.

Lemma polynomial_args d a : mk_polynomial d = Ok a <->
  exists c b, a = APolynomial c b /\ vector_arg d "coefficients" [1 / 10; 1 / 10; 1 / 10] c /\ mode_arg d b.
Proof.
  unfold mk_polynomial. split.
  - intros H. apply bind_ok in H as (c & H1 & H). apply Ok_inj in H. subst a.
    exists c, (truthy (query_kwargs "mode" (VInt 0) d)). rewrite vector_arg_iff, mode_arg_iff. auto.
  - intros (c & b & -> & H1 & H2). apply vector_arg_iff in H1. apply mode_arg_iff in H2. rewrite H1, H2. reflexivity.
Qed.

Lemma cosx2_args d a : mk_cosx2 d = Ok a <->
  exists mu om b, a = ACosOverX2 mu om b /\ number_arg d "mu" 0 mu /\ number_arg d "omega" (2512 / 100) om /\ mode_arg d b.
Proof.
  unfold mk_cosx2. split.
  - intros H. apply bind_ok in H as (mu & H1 & H). apply bind_ok in H as (sg & H2 & H). apply Ok_inj in H. subst a.
    exists mu, sg, (truthy (query_kwargs "mode" (VInt 0) d)). rewrite !number_arg_iff, mode_arg_iff. auto.
  - intros (mu & sg & b & -> & H1 & H2 & H3). apply number_arg_iff in H1, H2. apply mode_arg_iff in H3. rewrite H1, H2, H3. reflexivity.
Qed.

Lemma smoothintervals_args d a : mk_smoothintervals d = Ok a <->
  exists ivs al b, a = ASmoothIntervals ivs al b /\ bounds_arg d "parameters" [(185 / 1000, 375 / 1000)] ivs /\ number_arg d "alpha" (125 / 10000) al /\ mode_arg d b.
Proof.
  unfold mk_smoothintervals. split.
  - intros H. apply bind_ok in H as (mu & H1 & H). apply bind_ok in H as (sg & H2 & H). apply Ok_inj in H. subst a.
    exists mu, sg, (truthy (query_kwargs "mode" (VInt 0) d)). rewrite bounds_arg_iff, number_arg_iff, mode_arg_iff. auto.
  - intros (mu & sg & b & -> & H1 & H2 & H3). apply bounds_arg_iff in H1. apply number_arg_iff in H2. apply mode_arg_iff in H3. rewrite H1. cbn [bind]. rewrite H2, H3. reflexivity.
Qed.

Lemma smoothlife_args d a : mk_smoothlife d = Ok a <->
  exists ra ri, a = ASmoothLife ra ri /\ number_arg d "r_a" 1 ra /\ number_arg d "r_i" (1 / 3) ri.
Proof.
  unfold mk_smoothlife. split.
  - intros H. apply bind_ok in H as (mu & H1 & H). apply bind_ok in H as (sg & H2 & H). apply Ok_inj in H. subst a.
    exists mu, sg. rewrite !number_arg_iff. auto.
  - intros (mu & sg & -> & H1 & H2). apply number_arg_iff in H1, H2. rewrite H1, H2. reflexivity.
Qed.

Lemma bind_err {A B} (x : res A) (f : A -> res B) e : bind x f = Err e -> x = Err e \/ exists a, x = Ok a /\ f a = Err e.
Proof. destruct x as [a|e']; cbn [bind]; [right; exists a; auto|left; congruence]. Qed.

Lemma number_errors d e : mk_gaussian d = Err e \/ mk_dogaussian d = Err e \/ mk_polynomial d = Err e \/ mk_cosx2 d = Err e \/ mk_smoothlife d = Err e -> e = Unmodelled.
Proof.
  unfold mk_gaussian, mk_dogaussian, mk_polynomial, mk_cosx2, mk_smoothlife.
  intros [H|[H|[H|[H|H]]]];
    repeat (apply bind_err in H as [H|(? & _ & H)]; [try (apply as_num_err in H); try (apply as_vec_err in H); exact H|]); discriminate.
Qed.

(** Intervals: a flat non-empty array has rank 1, and its elements no bounds. *)
Lemma intervals_flat d x l : dget "parameters" d = Some (VVec (x :: l)) -> mk_smoothintervals d = Err IndexError.
Proof. intros H. unfold mk_smoothintervals, query_kwargs at 1. rewrite H. reflexivity. Qed.

Lemma intervals_errors d e : mk_smoothintervals d = Err e -> e = Unmodelled \/ e = IndexError /\ exists x l, dget "parameters" d = Some (VVec (x :: l)).
Proof.
  unfold mk_smoothintervals. intros H. apply bind_err in H as [H|(? & _ & H)].
  - unfold query_kwargs in H. destruct (dget "parameters" d) as [v|]; [|discriminate].
    destruct v as [| | | | |[|x l]| |]; cbn [as_intervals] in H; try discriminate; injection H as <-; auto.
    right. split; [reflexivity|]. exists x, l. reflexivity.
  - apply bind_err in H as [H|(? & _ & H)]; [left; apply as_num_err in H; exact H|discriminate].
Qed.

(** DoubleGaussian: scalars, also the defaults, have no length. *)
Definition doubled (l m : list R) : Prop := (exists x, l = [x] /\ m = [x; x]) \/ (List.length l <> 1%nat /\ m = l).

Lemma dbl_vec_ok l : exists m, dbl_vec (VVec l) = Ok m /\ doubled l m.
Proof.
  destruct l as [|x [|y l]]; cbn [dbl_vec].
  - exists []. split; [reflexivity|]. right. split; [discriminate|reflexivity].
  - exists [x; x]. split; [reflexivity|]. left. exists x. auto.
  - exists (x :: y :: l). split; [reflexivity|]. right. split; [cbn; lia|reflexivity].
Qed.

Lemma double_args d lm ls : dget "mu" d = Some (VVec lm) -> dget "sigma" d = Some (VVec ls) ->
  exists mu sigma b, mk_doublegaussian d = Ok (ADoubleGaussian mu sigma b) /\ doubled lm mu /\ doubled ls sigma /\ mode_arg d b.
Proof.
  intros H1 H2. destruct (dbl_vec_ok lm) as (mu & E1 & D1), (dbl_vec_ok ls) as (sg & E2 & D2).
  exists mu, sg, (truthy (query_kwargs "mode" (VInt 0) d)). unfold mk_doublegaussian. unfold query_kwargs at 1 2. rewrite H1, H2, E1. cbn [bind]. rewrite E2. cbn [bind].
  split; [reflexivity|]. split; [exact D1|]. split; [exact D2|]. apply mode_arg_iff. reflexivity.
Qed.

Lemma double_default d : dget "mu" d = None \/ (exists lm, dget "mu" d = Some (VVec lm) /\ dget "sigma" d = None) -> mk_doublegaussian d = Err IndexError.
Proof.
  unfold mk_doublegaussian. intros [H|(lm & H1 & H2)].
  - unfold query_kwargs at 1. rewrite H. reflexivity.
  - unfold query_kwargs at 1 2. rewrite H1, H2. destruct (dbl_vec_ok lm) as (mu & E1 & _). rewrite E1. reflexivity.
Qed.

Lemma dbl_vec_err v e : dbl_vec v = Err e -> e = Unmodelled \/ e = IndexError /\ ((exists r, v = VNum r) \/ exists z, v = VInt z).
Proof.
  destruct v as [|b|z|x|s|[|y [|? l]]|l|d]; cbn [dbl_vec]; intros H; injection H as <- || discriminate; auto; right; split; eauto.
Qed.

Lemma double_errors d e : mk_doublegaussian d = Err e -> e = Unmodelled \/
  e = IndexError /\ (dget "mu" d = None \/ dget "sigma" d = None \/ exists k v, (k = "mu" \/ k = "sigma")%string /\ dget k d = Some v /\
    ((exists r, v = VNum r) \/ exists z, v = VInt z)).
Proof.
  unfold mk_doublegaussian. intros H. apply bind_err in H as [H|(? & _ & H)]; [|apply bind_err in H as [H|(? & _ & H)]; [|discriminate]];
  apply dbl_vec_err in H as [H|[E H]]; auto; right; (split; [exact E|]); unfold query_kwargs in H.
  - destruct (dget "mu" d) as [v|] eqn:D; [|auto]. right. right. exists "mu"%string, v. auto.
  - destruct (dget "sigma" d) as [v|] eqn:D; [|auto]. right. right. exists "sigma"%string, v. auto.
Qed.

(** ** New automata *)
Lemma fresh_args dr kw o : fresh dr kw = Ok o ->
  size_arg kw "external_channels" 1 (ext (o_core o)) /\ size_arg kw "internal_channels" 1 (int_ (o_core o)) /\
  size_arg kw "kernel_peaks" 3 (o_peaks o) /\ number_arg kw "alive_threshold" (1 / 10) (thr (o_core o)) /\
  (dget "kernel_radius" kw = None /\ o_radius o = VInt 13 \/ dget "kernel_radius" kw = Some (o_radius o)) /\
  (dget "conv_mode" kw = None /\ pm (o_core o) = Circular \/ exists s, dget "conv_mode" kw = Some (VStr s) /\
     (s = "circular" /\ pm (o_core o) = Circular \/ s = "zeros" /\ pm (o_core o) = Zeros \/
      s = "reflect" /\ pm (o_core o) = Reflect \/ s = "replicate" /\ pm (o_core o) = Replicate)%string).
Proof.
  intros F. unfold fresh in F. cbv zeta in F. apply bind_ok in F as (pk & Hpk & F). apply bind_ok in F as (m & Hm & F).
  apply bind_ok in F as (n & Hn & F). apply bind_ok in F as (e & He & F). apply bind_ok in F as (th & Hth & F).
  apply bind_ok in F as (il & Hil & F). apply bind_ok in F as (x & G & F).
  apply bind_ok in F as (k & Hk & F). apply bind_ok in F as (ks & Hks & F). apply bind_ok in F as (kk & Hkk & F).
  apply bind_ok in F as (nl & Hnl & F). apply bind_ok in F as (w & Hw & F). apply Ok_inj in F. subst o.
  cbn [o_core ext int_ pm thr o_peaks o_radius].
  split; [apply (size_arg_iff kw "external_channels" 1); exact He|]. split; [apply (size_arg_iff kw "internal_channels" 1); exact Hn|].
  split; [apply (size_arg_iff kw "kernel_peaks" 3); exact Hpk|]. split; [apply number_arg_iff; exact Hth|]. split.
  - unfold query_kwargs. destruct (dget "kernel_radius" kw); auto.
  - unfold query_kwargs in Hm. destruct (dget "conv_mode" kw) as [v|]; [right|left].
    + destruct v as [| | | |s| | |]; try discriminate. exists s. split; [reflexivity|]. cbn [as_pmode] in Hm.
      destruct (String.eqb_spec s "circular"); [injection Hm as <-; auto|].
      destruct (String.eqb_spec s "zeros"); [injection Hm as <-; auto|].
      destruct (String.eqb_spec s "reflect"); [injection Hm as <-; auto|].
      destruct (String.eqb_spec s "replicate"); [injection Hm as <-; auto|discriminate].
    + cbn in Hm. injection Hm as <-. auto.
Qed.

Lemma default_mu_range d pp : 0 <= default_mu d pp <= 1 /\ (-10 <= dr_mu d pp <= 56 -> default_mu d pp = 15 / 100 + 15 / 1000 * dr_mu d pp).
Proof.
  unfold default_mu. split; [apply clamp_range; lra|]. intros H. rewrite clamp_unit by lra. lra.
Qed.

Lemma default_sigma_range d pp : 0 <= default_sigma d pp <= 1 /\ (-100 <= dr_sigma d pp <= 6566 -> default_sigma d pp = 15 / 1000 + 15 / 100000 * dr_sigma d pp).
Proof.
  unfold default_sigma. split; [apply clamp_range; lra|]. intros H. rewrite clamp_unit by lra. lra.
Qed.

Lemma fresh_functions dr kw o k : fresh dr kw = Ok o -> (k < int_ (o_core o))%nat ->
  exists g p, nth_error (gens (o_core o)) k = Some g /\ nth_error (pers (o_core o)) k = Some p /\
    g = default_gen dr k /\ p = default_per dr k /\
    List.length (gens (o_core o)) = int_ (o_core o) /\ List.length (pers (o_core o)) = int_ (o_core o).
Proof.
  intros F K. apply fresh_inv in F as (_ & _ & _ & _ & _ & _ & _ & _ & _ & G & P & _). rewrite G, P.
  exists (default_gen dr k), (default_per dr k). rewrite !map_length, seq_length.
  assert (N : nth_error (seq 0 (int_ (o_core o))) k = Some k).
  { rewrite (nth_error_nth' _ 0%nat) by (rewrite seq_length; exact K). rewrite seq_nth by exact K. reflexivity. }
  rewrite !(map_nth_error _ _ _ N). auto 8.
Qed.

Lemma default_shared d pp : (pp < 8)%nat -> exists mu sigma, 0 <= mu <= 1 /\ 0 <= sigma <= 1 /\
  (-10 <= dr_mu d pp <= 56 -> mu = 15 / 100 + 15 / 1000 * dr_mu d pp) /\
  (-100 <= dr_sigma d pp <= 6566 -> sigma = 15 / 1000 + 15 / 100000 * dr_sigma d pp) /\
  default_gen d pp = (if dr_g d pp then AGaussian mu sigma true else ADoGaussian mu sigma (1 / 100) true) /\
  default_per d pp = (if dr_p d pp then AGaussian mu sigma true else ADoGaussian mu sigma (1 / 100) true).
Proof.
  intros K. pose proof (default_mu_range d pp) as [A B]. pose proof (default_sigma_range d pp) as [C D].
  exists (default_mu d pp), (default_sigma d pp). split; [exact A|]. split; [exact C|]. split; [exact B|]. split; [exact D|].
  unfold default_gen, default_per. apply Nat.ltb_lt in K. rewrite K. rewrite !clamp_unit by assumption. auto.
Qed.

Lemma default_polys d pp : (8 <= pp)%nat -> exists c c', default_gen d pp = APolynomial c false /\ default_per d pp = APolynomial c' false /\
  List.length c = 8%nat /\ List.length c' = 8%nat /\
  forall i, (i < 8)%nat -> nth i c 0 = dr_gc d pp i / 10 ^ i /\ nth i c' 0 = dr_pc d pp i / 10 ^ i.
Proof.
  intros K. unfold default_gen, default_per, default_poly. apply Nat.ltb_ge in K. rewrite K.
  do 2 eexists. split; [reflexivity|]. split; [reflexivity|]. rewrite !map_length, seq_length. split; [reflexivity|]. split; [reflexivity|].
  intros i Hi.
  assert (N : forall f : nat -> R, nth i (map f (seq 0 8)) 0 = f i).
  { intros f. rewrite (nth_indep _ 0 (f 0%nat)) by (rewrite map_length, seq_length; exact Hi). rewrite map_nth, seq_nth by exact Hi. reflexivity. }
  rewrite !N. auto.
Qed.

(** A random-step automaton runs on every grid its CCA accepts. *)
Lemma rs_forward_total s r u v : cca_wf (rs_core s) -> twf u -> cca_forward (rs_core s) u = Ok v ->
  exists s' u', rs_forward s r u = Ok (s', u').
Proof.
  intros W U H. destruct (cca_total (rs_core s) (rs_dt_of s r) u u v W U U eq_refl H) as [w Hw].
  unfold cca_forward, step, ca_forward in Hw. cbn [thr idl nbl dt set_core_dt] in Hw.
  apply bind_ok in Hw as (m & Hm & Hw). apply bind_ok in Hw as (d & Hd & Hw).
  unfold rs_forward. rewrite Hm. cbn [bind].
  unfold update_of. change (update_universe (set_core_dt (rs_core s) (rs_dt_of s r))) with (update_universe (rs_core s)) in Hd.
  rewrite Hd. cbn [bind]. fold (rs_dt_of s r). rewrite Hw. cbn [bind]. eauto.
Qed.

Lemma rs_run_total rands : forall s u v, cca_wf (rs_core s) -> twf u -> cca_forward (rs_core s) u = Ok v ->
  exists s' u', rs_run s rands u = Ok (s', u').
Proof.
  induction rands as [|r rs IH]; intros s u v W U H; cbn [rs_run]; [eauto|].
  destruct (rs_forward_total s r u v W U H) as (s1 & u1 & H1). rewrite H1. cbn [bind fst snd].
  pose proof (rs_forward_shape s r u s1 u1 W U H1) as Sh.
  pose proof (rs_forward_spec s r u s1 u1 H1) as (C & _).
  destruct Sh as (Sh & Tw & _).
  destruct (cca_total (rs_core s) (rs_dt_of s r) u u1 v W U Tw Sh H) as [w Hw].
  apply (IH s1 u1 w); [rewrite C; exact W|exact Tw|rewrite C; exact Hw].
Qed.
