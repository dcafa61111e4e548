(** Properties C56-C59: the wrappers that score automata and patterns. *)
From Coq Require Import Reals Lra Lia List Arith ZArith Bool.
From Verif Require Import Base Tensor MActivations MKernels MCommon MCca SGrid SCca PTensor PDyn PStep PCca PStepX
  MWrap SWrap PWrap PKern Examples.
Import ListNotations.
Open Scope R_scope.

(** ** C56 Halting rewards are bounded *)

Theorem C56_simple St ca dim n s rand r reward active :
  simple_step St ca dim n s rand = Ok (r, reward, active) ->
  0 <= active <= 1 /\ reward = - Rabs (5001 / 10000 - active) /\ - (5001 / 10000) <= reward <= 0.
Proof. exact (simple_reward St ca dim n s rand r reward active). Qed.

(** The active share counts the samples with a live cell. *)
Theorem C56_active St ca dim n s rand s' g reward active :
  simple_step St ca dim n s rand = Ok (s', g, reward, active) -> nonneg g ->
  (0 < tB g)%nat /\
  exists p, (forall b, (b < tB g)%nat -> (p b = true <-> some_above 0 g b)) /\
            active = rcount (tB g) p / INR (tB g).
Proof. exact (simple_active St ca dim n s rand s' g reward active). Qed.

(** The target 0.5001 is never met by fewer than 10000 samples. *)
Theorem C56_negative St ca dim n s rand s' g reward active :
  simple_step St ca dim n s rand = Ok (s', g, reward, active) -> (Z.of_nat (tB g) < 10000)%Z -> reward < 0.
Proof. exact (simple_negative St ca dim n s rand s' g reward active). Qed.

Theorem C56_accuracy p t a : get_accuracy p t = Ok a -> 0 <= a <= 1.
Proof. exact (accuracy_bounds p t a). Qed.

(** Accuracy is the share of positions where prediction and target are on the same side of 1/2. *)
Theorem C56_agreement p t a : get_accuracy p t = Ok a ->
  length p = length t /\ (0 < length t)%nat /\
  a = rcount (length t) (fun k => Bool.eqb (if Rlt_dec (1 / 2) (nth k p 0) then true else false)
                                           (if Rlt_dec (1 / 2) (nth k t 0) then true else false))
      / INR (length t).
Proof. exact (accuracy_agreement p t a). Qed.

Theorem C56_halting St ca Net fwd learn rst mode n s net rand s' w pred target reward active :
  halting_step St ca Net fwd learn rst mode n s net rand = Ok (s', w, pred, target, reward, active) ->
  -1 <= reward <= 0 /\ 0 <= active <= 1 /\ length pred = length target /\
  Forall (fun x => x = 0 \/ x = 1) target /\ Forall (fun x => 0 <= x <= 1) pred /\
  get_accuracy pred target = Ok (- reward) /\ lmean target = Ok active.
Proof. exact (halting_reward St ca Net fwd learn rst mode n s net rand s' w pred target reward active). Qed.

(** What the evaluation targets say: cells above 0.00001 in the last grid or in the last change. *)
Theorem C56_vanishing g dg l b : eval_targets 0 g dg = Ok l -> (b < tB g)%nat ->
  (nth b l 0 = 0 \/ nth b l 0 = 1) /\ (nth b l 0 = 1 <-> some_above (1 / 100000) g b).
Proof. exact (max_targets_nth (1 / 100000) g l b). Qed.

Theorem C56_dynamism g dg l b : eval_targets 1 g dg = Ok l -> (b < tB dg)%nat ->
  (nth b l 0 = 0 \/ nth b l 0 = 1) /\ (nth b l 0 = 1 <-> some_above (1 / 100000) dg b).
Proof. exact (max_targets_nth (1 / 100000) dg l b). Qed.

Theorem C56_both mode g dg l b : eval_targets (S (S mode)) g dg = Ok l -> (b < tB g)%nat ->
  tB dg = tB g /\ length l = (2 * tB g)%nat /\
  (nth (2 * b) l 0 = 1 <-> some_above (1 / 100000) g b) /\
  (nth (2 * b + 1) l 0 = 1 <-> some_above (1 / 100000) dg b).
Proof.
  intros H Hb. cbn [eval_targets] in H. apply bind_ok in H as (t0 & H0 & H). apply bind_ok in H as (t1 & H1 & H).
  apply cat_targets_nth in H as (L & L2 & Hn).
  pose proof (max_targets_01 _ _ _ H0) as [_ E0]. pose proof (max_targets_01 _ _ _ H1) as [_ E1].
  assert (tB dg = tB g) by congruence. destruct (Hn b) as [N1 N2]; [congruence|]. rewrite N1, N2.
  split; auto. split; [congruence|]. split.
  - apply (max_targets_nth _ _ _ _ H0 Hb).
  - apply (max_targets_nth _ _ _ _ H1). congruence.
Qed.

(** The targets in training use the mean of a sample, and its maximum only for vanishing in mode 2. *)
Theorem C56_training mode g dg l b : train_targets mode g dg = Ok l -> (b < tB g)%nat -> (b < tB dg)%nat ->
  match mode with
  | 0%nat => nth b l 0 = 1 <-> 1 / 10000 < sample_density g b
  | 1%nat => nth b l 0 = 1 <-> 1 / 10000 < sample_density dg b
  | _ => (nth (2 * b) l 0 = 1 <-> some_above (1 / 100000) g b) /\
         (nth (2 * b + 1) l 0 = 1 <-> 1 / 10000 < sample_density dg b)
  end.
Proof.
  intros H Hb Hb'. destruct mode as [|[|mode]].
  - apply (mean_targets_nth _ _ _ _ H Hb).
  - apply (mean_targets_nth _ _ _ _ H Hb').
  - cbn [train_targets] in H. apply bind_ok in H as (t0 & H0 & H). apply bind_ok in H as (t1 & H1 & H).
    apply cat_targets_nth in H as (L & L2 & Hn).
    pose proof (max_targets_01 _ _ _ H0) as [_ E0].
    destruct (Hn b) as [N1 N2]; [congruence|]. rewrite N1, N2. split.
    + apply (max_targets_nth _ _ _ _ H0 Hb).
    + apply (mean_targets_nth _ _ _ _ H1). auto.
Qed.

(** Without a call of [reset] there is no predictor. *)
Theorem C56_needs_reset St ca Net fwd learn rst mode n s rand :
  halting_step St ca Net fwd learn rst mode n s None rand = Err AttributeError.
Proof. reflexivity. Qed.

(** An evaluation of an automaton that stays alive takes 9 rollouts of 9 + ca_steps steps. *)
Theorem C56_calls St ca Net fwd learn rst (calls : St -> nat) mode n s net rand s' w pred target reward active :
  (forall s g s' g', ca s g = Ok (s', g') ->
     calls s' = S (calls s) /\ exists m, tmean g' = Ok m /\ 0 < m /\ exists x, tmax g' = Ok x /\ x <> 0) ->
  (forall s, calls (rst s) = calls s) ->
  halting_step St ca Net fwd learn rst mode n s net rand = Ok (s', w, pred, target, reward, active) ->
  calls s' = (9 * (9 + n) + calls s)%nat.
Proof. exact (fun H1 H2 => halting_calls St ca Net fwd learn rst calls H1 H2 mode n s net rand s' w pred target reward active). Qed.

(** RandomWrapper: the reward is the draw whatever the action, and the active share is no share. *)
Theorem C56_random action action' draw : 0 <= draw < 1 ->
  random_step action draw = random_step action' draw /\ 0 <= fst (random_step action draw) < 1 /\ snd (random_step action draw) < 0.
Proof. unfold random_step. cbn [fst snd]. intros. split; [reflexivity|]. lra. Qed.

(** An identity automaton and two samples, one of them dead. *)
Definition still : unit -> tensor -> res (unit * tensor) := fun s g => Ok (s, g).
Definition ex_rand : tensor := build 2 1 4 4 (fun b _ _ _ => if Nat.eqb b 0 then 1 else 0).

Lemma lmean_cons x l : lmean (x :: l) = Ok (lsum (x :: l) / INR (length (x :: l))).
Proof. reflexivity. Qed.

Example ex_simple : exists g, simple_step unit still 4 0 tt ex_rand = Ok (tt, g, - (1 / 10000), 1 / 2).
Proof.
  exists (centre 4 ex_rand). unfold simple_step. cbn [break_loop bind snd].
  set (g := centre 4 ex_rand).
  assert (Hg : forall b i j, (b < 2)%nat -> (i < 4)%nat -> (j < 4)%nat -> get g b 0 i j =
     if (Nat.leb 3 j || Nat.leb 3 i || Nat.ltb j 1 || Nat.ltb i 1)%bool then 0 else if Nat.eqb b 0 then 1 else 0).
  { intros b i j Hb Hi Hj. unfold g. rewrite get_centre by (cbn; lia).
    change (4 / 4)%nat with 1%nat. cbn [neg_from Nat.eqb ex_rand build tW tH].
    change (4 - 1)%nat with 3%nat. unfold ex_rand. rewrite get_build by lia. reflexivity. }
  assert (Hm : mean_targets 0 g = Ok [1; 0]).
  { unfold mean_targets. cbn [g centre zero_cols zero_rows build tC tH tW tB ex_rand].
    change (Nat.eqb (1 * 4 * 4) 0) with false. cbn [negb guard bind seq map]. do 2 f_equal; [|f_equal].
    - apply gt_ind_1. rewrite sample_mean_density by (cbn; lia). apply sample_density_pos; try (cbn; lia).
      + unfold nonneg. apply Forall_forall. intros x Hx. apply in_data_get in Hx as (b & c & i & j & Hb & Hc & Hi & Hj & ->); [|apply twf_build].
        cbn [g centre zero_cols zero_rows build tC tH tW tB ex_rand] in Hb, Hc, Hi, Hj.
        replace c with 0%nat by lia. rewrite Hg by auto.
        destruct (Nat.leb 3 j || Nat.leb 3 i || Nat.ltb j 1 || Nat.ltb i 1)%bool; [lra|]. destruct (Nat.eqb b 0); lra.
      + exists 0%nat, 1%nat, 1%nat. split; [cbn; lia|]. rewrite Hg by lia. cbn. lra.
    - unfold gt_ind. destruct (Rlt_dec _ _) as [L|]; auto. exfalso.
      rewrite sample_mean_density in L by (cbn; lia). unfold sample_density in L.
      cbn [g centre zero_cols zero_rows build tC tH tW tB ex_rand] in L.
      rewrite rsum_0 in L; [lra|]. intros c Hc. replace c with 0%nat by lia.
      apply rsum_0; intros i Hi; apply rsum_0; intros j Hj. rewrite Hg by lia. cbn [Nat.eqb].
      destruct (_ || _)%bool; reflexivity. }
  rewrite Hm. cbn [bind]. rewrite lmean_cons. cbn [bind].
  assert (E : lsum [1; 0] / INR (length [1; 0]) = 1 / 2) by (cbn; field).
  rewrite E. rewrite sqrt_sq_abs. unfold alive_target. rewrite Rabs_pos_eq by lra.
  replace (5001 / 10000 - 1 / 2) with (1 / 10000) by lra. reflexivity.
Qed.

Example ex_accuracy : get_accuracy [3 / 4; 1 / 2; 1] [1; 1; 0] = Ok (1 / 3).
Proof.
  unfold get_accuracy. cbn [length Nat.eqb guard bind combine map fst snd]. rewrite !round_class_any.
  destruct (Rlt_dec (1 / 2) (3 / 4)); [|lra]. destruct (Rlt_dec (1 / 2) (1 / 2)); [lra|].
  destruct (Rlt_dec (1 / 2) 1); [|lra]. destruct (Rlt_dec (1 / 2) 0); [lra|].
  destruct (Req_EM_T 1 1); [|lra]. destruct (Req_EM_T 1 0); [lra|]. destruct (Req_EM_T 0 1); [lra|].
  rewrite lmean_cons. f_equal. cbn. field.
Qed.

(** One live cell, a predictor that always says 3/4: a complete step with 8 trainings. *)
Definition ex_one : tensor := mkT 1 1 1 1 [1].

Example ex_halting : exists s' w, halting_step unit still unit (fun _ _ _ => Ok [3 / 4]) (fun w _ _ => w) (fun s => s) 0 0
  tt (Some tt) (fun _ => ex_one) = Ok (s', w, [3 / 4], [1], -1, 1).
Proof.
  exists tt, tt.
  assert (Hd : dgrid_of unit still tt ex_one = Ok (tt, mkT 1 1 1 1 [Rabs (1 - 1)])) by reflexivity.
  assert (Hb : bce_accepts [3 / 4] [1] = Ok tt).
  { unfold bce_accepts. cbn [length Nat.eqb guard bind forallb].
    destruct (Rle_dec 0 (3 / 4)); [|lra]. destruct (Rle_dec (3 / 4) 1); [|lra]. reflexivity. }
  assert (Ht : mean_targets (1 / 10000) ex_one = Ok [1]).
  { unfold mean_targets. cbn [ex_one tB tC tH tW Nat.mul Nat.add Nat.eqb negb guard bind seq map]. do 2 f_equal.
    apply gt_ind_1. unfold sample_mean. cbn. lra. }
  assert (Hm : max_targets (1 / 100000) ex_one = Ok [1]).
  { unfold max_targets. cbn [ex_one tB tC tH tW Nat.mul Nat.add Nat.eqb negb guard bind seq map]. do 2 f_equal.
    apply gt_ind_1. unfold sample_max. cbn. lra. }
  assert (Ho : train_once unit still unit (fun _ _ _ => Ok [3 / 4]) (fun w _ _ => w) (fun s => s) 0 0 (tt, tt) ex_one = Ok (tt, tt)).
  { unfold train_once, bigbang_steps. cbn [ca_run still bind fst snd while_loop]. rewrite Hd. cbn [bind fst snd train_targets].
    rewrite Ht. cbn [bind]. rewrite Hb. reflexivity. }
  unfold halting_step, train_steps. cbn [train_all]. rewrite !Ho. cbn [bind]. rewrite !Ho. cbn [bind].
  rewrite !Ho. cbn [bind]. rewrite !Ho. cbn [bind]. rewrite !Ho. cbn [bind]. rewrite !Ho. cbn [bind].
  rewrite !Ho. cbn [bind]. rewrite !Ho. cbn [bind].
  unfold evaluate, bigbang_steps. cbn [ca_run still bind fst snd break_loop]. rewrite Hd. cbn [bind fst snd eval_targets].
  rewrite Hm. cbn [bind]. rewrite Hb. cbn [bind].
  assert (Ha : get_accuracy [3 / 4] [1] = Ok 1).
  { unfold get_accuracy. cbn [length Nat.eqb guard bind combine map fst snd]. rewrite !round_class_any.
    destruct (Rlt_dec (1 / 2) (3 / 4)); [|lra]. destruct (Rlt_dec (1 / 2) 1); [|lra].
    destruct (Req_EM_T 1 1); [|lra]. rewrite lmean_cons. f_equal. cbn. field. }
  rewrite Ha. cbn [bind]. rewrite lmean_cons. cbn [bind snd].
  assert (E : lsum [1] / INR (length [1]) = 1) by (cbn; field). rewrite E. reflexivity.
Qed.

(** ** C57 Early exit of the halting rollout is sound *)

Theorem C57_simple St ca B C H W n s g :
  (0 < B * C * H * W)%nat ->
  (forall s u s' u', shape u = (B, C, H, W) -> twf u -> ca s u = Ok (s', u') ->
     shape u' = (B, C, H, W) /\ twf u' /\ nonneg u') ->
  (forall s, exists s', ca s (zero_grid B C H W) = Ok (s', zero_grid B C H W)) ->
  shape g = (B, C, H, W) -> twf g ->
  rmap snd (break_loop St ca mean_stop n s g) = rmap snd (ca_run St ca n s g).
Proof. exact (fun Hp Hk Hz => simple_exit St ca B C H W Hp Hk Hz n s g). Qed.

(** The evaluation loop of HaltingWrapper, which stops at maximum zero. *)
Theorem C57_evaluation St ca B C H W n s g :
  (0 < B * C * H * W)%nat ->
  (forall s u s' u', shape u = (B, C, H, W) -> twf u -> ca s u = Ok (s', u') ->
     shape u' = (B, C, H, W) /\ twf u' /\ nonneg u') ->
  (forall s, exists s', ca s (zero_grid B C H W) = Ok (s', zero_grid B C H W)) ->
  shape g = (B, C, H, W) -> twf g ->
  rmap snd (break_loop St ca max_stop n s g) = rmap snd (ca_run St ca n s g).
Proof. exact (fun Hp Hk Hz => eval_exit St ca B C H W Hp Hk Hz n s g). Qed.

(** Its training loop, which looks before stepping. *)
Theorem C57_training St ca B C H W n s g :
  (0 < B * C * H * W)%nat ->
  (forall s u s' u', shape u = (B, C, H, W) -> twf u -> ca s u = Ok (s', u') ->
     shape u' = (B, C, H, W) /\ twf u' /\ nonneg u') ->
  (forall s, exists s', ca s (zero_grid B C H W) = Ok (s', zero_grid B C H W)) ->
  shape g = (B, C, H, W) -> twf g -> nonneg g ->
  rmap snd (while_loop St ca n s g) = rmap snd (ca_run St ca n s g).
Proof. exact (fun Hp Hk Hz => train_exit St ca B C H W Hp Hk Hz n s g). Qed.

(** The continuous automaton whose genesis functions do not grow on nothing. *)
Theorem C57_cca c n u u' : cca_wf c -> init_weights (ext c) (int_ c) (pm c) = Ok (wl c) -> 0 <= dt c ->
  gen_sum0 c <= 0 -> twf u -> inhabited u -> cca_forward c u = Ok u' ->
  rmap snd (break_loop unit (fun s g => rmap (pair s) (cca_forward c g)) mean_stop n tt u) =
  iter_res (cca_forward c) n u.
Proof. exact (cca_exit c n u u'). Qed.

(** Without the condition on the zero universe the exit changes the outcome. *)
Theorem C57_refuted : exists (ca : bool -> tensor -> res (bool * tensor)) n g, twf g /\ inhabited g /\
  (forall s u s' u', ca s u = Ok (s', u') -> nonneg u' /\ shape u' = (1, 1, 1, 1)%nat /\ twf u') /\
  rmap snd (break_loop bool ca mean_stop n false g) <> rmap snd (ca_run bool ca n false g).
Proof.
  exists (fun (s : bool) (_ : tensor) => Ok (true, if s then mkT 1 1 1 1 [1] else mkT 1 1 1 1 [0])), 2%nat, (mkT 1 1 1 1 [1]).
  split; [reflexivity|]. split; [unfold inhabited; cbn; lia|]. split.
  - intros s u s' u' E. apply Ok_inj, pair_equal_spec in E as [_ <-].
    destruct s; (split; [unfold nonneg; repeat constructor; lra|split; reflexivity]).
  - cbn [ca_run break_loop bind fst snd]. unfold mean_stop at 1, tmean. cbn [tdata]. rewrite lmean_cons. cbn [bind].
    assert (E : lsum [0] / INR (length [0]) = 0) by (cbn; field). rewrite E.
    destruct (Rle_dec 0 0); [|lra]. cbn [rmap snd]. intros Hx. apply Ok_inj in Hx.
    assert (Hy : tdata (mkT 1 1 1 1 [0]) = tdata (mkT 1 1 1 1 [1])) by (rewrite Hx; reflexivity).
    cbn [tdata] in Hy. inversion Hy. lra.
Qed.

Example ex_exit : exists u', cca_wf ex_cca /\ init_weights (ext ex_cca) (int_ ex_cca) (pm ex_cca) = Ok (wl ex_cca) /\
  0 <= dt ex_cca /\ gen_sum0 ex_cca <= 0 /\ twf ex_grid /\ inhabited ex_grid /\ cca_forward ex_cca ex_grid = Ok u'.
Proof.
  destruct ex_step as (u' & E). exists u'. split; [exact ex_wf|]. split; [exact ex_weights|].
  split; [cbn; lra|]. split; [|split; [reflexivity|split; [unfold inhabited; cbn; lia|exact E]]].
  unfold gen_sum0. cbn [int_ ex_cca gens rsum nth]. rewrite Rplus_0_l. unfold ex_gen. apply gaussian_zero_sign.
  - pose proof eps9_pos. lra.
  - unfold eps9. assert (ln 2 <= 1).
    { apply Rnot_lt_le. intros L. apply exp_increasing in L. rewrite exp_ln in L by lra.
      assert (1 + 1 < exp 1) by (apply exp_ineq1; lra). lra. }
    assert (H2 : (1 / 10 + / 1000000000) ^ 2 <= 11 / 1000) by lra. 
    assert (0 <= (1 / 10 + / 1000000000) ^ 2) by lra. nra.
Qed.

(** ** C58 Centred initial grids *)

Theorem C58_middle dim t b c i j : tH t = dim -> tW t = dim -> (4 <= dim)%nat ->
  (b < tB t)%nat -> (c < tC t)%nat -> (i < dim)%nat -> (j < dim)%nat ->
  (in_middle dim i /\ in_middle dim j -> get (centre dim t) b c i j = get t b c i j) /\
  (~ (in_middle dim i /\ in_middle dim j) -> get (centre dim t) b c i j = 0).
Proof. exact (centre_kept dim t b c i j). Qed.

Theorem C58_small dim t B C H W : (dim < 4)%nat -> shape t = (B, C, H, W) -> centre dim t = zero_grid B C H W.
Proof. exact (fun Hd => centre_zero_grid dim B C H W Hd t). Qed.

Theorem C58_shape dim t : shape (centre dim t) = shape t /\ twf (centre dim t).
Proof. exact (centre_shape dim t). Qed.

Example ex_centre : in_middle 5 1 /\ in_middle 5 3 /\ ~ in_middle 5 4 /\ ~ in_middle 5 0.
Proof. unfold in_middle. change (5 / 4)%nat with 1%nat. lia. Qed.

(** ** C59 Glider reward telescopes *)

Theorem C59_sum St ca rst B C dim r n s a s' reward disp growth active :
  (forall s u s' u', shape u = (B, C, dim, dim) -> twf u -> ca s u = Ok (s', u') ->
     shape u' = (B, C, dim, dim) /\ twf u') ->
  0 < r -> shape a = (B, C, dim, dim) -> twf a ->
  meta_step St ca rst dim r n s a = Ok (s', reward, disp, growth, active) ->
  exists m (S_ : nat -> St) (u : nat -> tensor),
    let span := INR (dim - 1) / r in
    let y := fun k => centroid r (u k) in
    let d := fun k => density (u k) in
    (0 < m <= n)%nat /\ u 0%nat = a /\ S_ 0%nat = rst s /\ S_ m = s' /\
    (forall k, (k < m)%nat -> ca (S_ k) (u k) = Ok (S_ (S k), u (S k))) /\
    reward = rsum m (fun k => displacement span y (S k) - growth_rate d k) /\
    disp = displacement span y m /\ growth = growth_rate d (m - 1) /\ active = d m /\
    (forall k, (S k < m)%nat -> ~ halted (u k) (u (S k))) /\
    ((m < n)%nat -> halted (u (m - 1)%nat) (u m)).
Proof. exact (fun Hk => glider_sum St ca rst B C dim r Hk n s a s' reward disp growth active). Qed.

Theorem C59_telescopes span y m :
  (forall k, (0 < k < S m)%nat -> y k <> 0 /\ ~ (span - 2 < y k /\ y (S k) < 2)) ->
  rsum (S m) (fun k => displacement span y (S k)) = y (S m) - y 1%nat.
Proof. exact (telescope span y m). Qed.

Theorem C59_no_steps St ca rst dim r s a : r <> 0 -> (0 < dim)%nat -> twf a -> inhabited a ->
  meta_step St ca rst dim r 0 s a = Err UnboundLocalError.
Proof. exact (glider_none St ca rst dim r s a). Qed.

Theorem C59_accepts St ca rst B C dim r n s a :
  (forall s u s' u', shape u = (B, C, dim, dim) -> twf u -> ca s u = Ok (s', u') ->
     shape u' = (B, C, dim, dim) /\ twf u') ->
  (forall s u, shape u = (B, C, dim, dim) -> twf u -> exists s' u', ca s u = Ok (s', u') /\ nonneg u') ->
  r <> 0 -> (0 < n)%nat -> (0 < B * C * dim * dim)%nat -> shape a = (B, C, dim, dim) -> twf a -> nonneg a ->
  exists out, meta_step St ca rst dim r n s a = Ok out.
Proof. exact (fun Hk Ht => glider_total St ca rst B C dim r Hk Ht n s a). Qed.

(** The correction is one cell short of a lap. *)
Theorem C59_span dim r yg m : y_grid dim r = Ok yg -> 0 < r -> tmax yg = Ok m -> m = INR (dim - 1) / r.
Proof. exact (span_value dim r yg m). Qed.

Theorem C59_centroid dim r u : 0 < r -> nonneg u -> tB u = 1%nat -> tW u = dim -> (0 < dim)%nat ->
  0 <= centroid r u <= INR (dim - 1) / r.
Proof. exact (centroid_bounds dim r u). Qed.

(** The rows grid is kept too; it is the transpose. *)
Theorem C59_grids dim r xg yg i j : x_grid dim r = Ok xg -> y_grid dim r = Ok yg -> (i < dim)%nat -> (j < dim)%nat ->
  get yg 0 0 i j = INR j / r /\ get xg 0 0 i j = INR i / r.
Proof.
  unfold x_grid, y_grid. destruct (Req_EM_T r 0); [discriminate|]. intros E1 E2 Hi Hj.
  apply Ok_inj in E1 as <-. apply Ok_inj in E2 as <-. rewrite !get_build by lia. auto.
Qed.

(** A world that moves everything one column to the right. *)
Definition roll (t : tensor) : tensor :=
  build (tB t) (tC t) (tH t) (tW t) (fun b c i j => get t b c i ((j + tW t - 1) mod tW t)).
Definition roller : unit -> tensor -> res (unit * tensor) := fun s g => Ok (s, tmap (fun x => Rmax x 0) (roll g)).

Example ex_glider n a : (0 < n)%nat -> shape a = (1, 1, 8, 8)%nat -> twf a -> nonneg a ->
  exists out, meta_step unit roller (fun s => s) 8 2 n tt a = Ok out.
Proof.
  intros Hn Sa Ha Hna. apply (C59_accepts unit roller (fun s => s) 1 1 8 2); auto; try lra; try (cbn; lia).
  - intros [] u s' u' Su Hu E. unfold roller in E. apply Ok_inj, pair_equal_spec in E as [_ <-].
    split; [exact Su|]. apply twf_tmap, twf_build.
  - intros [] u Su Hu. do 2 eexists. split; [reflexivity|]. unfold nonneg. cbn [tdata tmap].
    apply Forall_forall. intros x Hx. apply in_map_iff in Hx as (z & <- & _). apply Rmax_r.
Qed.

Example ex_telescope : let y := fun k => 1 + INR k in
  (forall k, (0 < k < 4)%nat -> y k <> 0 /\ ~ (10 - 2 < y k /\ y (S k) < 2)) /\
  rsum 4 (fun k => displacement 10 y (S k)) = 3.
Proof.
  intros y.
  assert (Hk : forall k, (0 < k < 4)%nat -> y k <> 0 /\ ~ (10 - 2 < y k /\ y (S k) < 2)).
  { intros k Hk. unfold y. pose proof (pos_INR k). assert (INR k <= INR 3) by (apply le_INR; lia). cbn [INR] in *.
    split; [lra|]. intros [H1 _]. lra. }
  split; auto. rewrite (C59_telescopes 10 y 3 Hk). unfold y. cbn. lra.
Qed.
Print Assumptions C56_simple.
Print Assumptions C56_active.
Print Assumptions C56_negative.
Print Assumptions C56_accuracy.
Print Assumptions C56_agreement.
Print Assumptions C56_halting.
Print Assumptions C56_vanishing.
Print Assumptions C56_dynamism.
Print Assumptions C56_both.
Print Assumptions C56_training.
Print Assumptions C56_needs_reset.
Print Assumptions C56_calls.
Print Assumptions C56_random.
Print Assumptions C57_simple.
Print Assumptions C57_evaluation.
Print Assumptions C57_training.
Print Assumptions C57_cca.
Print Assumptions C57_refuted.
Print Assumptions C58_middle.
Print Assumptions C58_small.
Print Assumptions C58_shape.
Print Assumptions C59_sum.
Print Assumptions C59_telescopes.
Print Assumptions C59_no_steps.
Print Assumptions C59_accepts.
Print Assumptions C59_span.
Print Assumptions C59_centroid.
Print Assumptions C59_grids.
