(** Proofs about the step predictor. *)
From Coq Require Import Reals ZArith NArith Lra Lia List String Ascii Bool Arith.
From Verif Require Import Base Tensor MActivations MNca MText MWrap MPredict SGrid SCca SNca SText SPredict PTensor PKern PNca PText.
Import ListNotations.
Open Scope R_scope.

(** ** One pass *)
Lemma pval_zeros H W r f i j : pval Zeros H W r f i j = at0 H W f (Z.of_nat i - Z.of_nat r) (Z.of_nat j - Z.of_nat r).
Proof.
  unfold pval, at0, pad_src.
  destruct (Nat.ltb_spec i r) as [A|A].
  - destruct (Z.leb_spec 0 (Z.of_nat i - Z.of_nat r)); [lia|reflexivity].
  - destruct (Z.leb_spec 0 (Z.of_nat i - Z.of_nat r)); [|lia]. cbn [andb].
    destruct (Nat.ltb_spec i (r + H)) as [B|B].
    + destruct (Z.ltb_spec (Z.of_nat i - Z.of_nat r) (Z.of_nat H)); [|lia]. cbn [andb].
      destruct (Nat.ltb_spec j r) as [C|C].
      * destruct (Z.leb_spec 0 (Z.of_nat j - Z.of_nat r)); [lia|reflexivity].
      * destruct (Z.leb_spec 0 (Z.of_nat j - Z.of_nat r)); [|lia]. cbn [andb].
        destruct (Nat.ltb_spec j (r + W)) as [D|D].
        -- destruct (Z.ltb_spec (Z.of_nat j - Z.of_nat r) (Z.of_nat W)); [|lia].
           f_equal; lia.
        -- destruct (Z.ltb_spec (Z.of_nat j - Z.of_nat r) (Z.of_nat W)); [lia|reflexivity].
    + destruct (Z.ltb_spec (Z.of_nat i - Z.of_nat r) (Z.of_nat H)); [lia|reflexivity].
Qed.

Lemma window_apply r hid out l x : window_layer r hid out l -> tC x = out -> (0 < tH x)%nat -> (0 < tW x)%nat ->
  exists y, bconv_apply l x = Ok y /\ shape y = (tB x, hid, tH x, tW x) /\ twf y /\
  forall b h i j, (b < tB x)%nat -> (h < hid)%nat -> (i < tH x)%nat -> (j < tW x)%nat ->
    Rmax (get y b h i j) 0 = hidden_unit l r x b h i j.
Proof.
  intros (Wf & Ep & Eg & Em) Ec H0 W0. unfold bconv_apply. rewrite (layer_apply_eq _ _ _ _ Wf).
  assert (RR : layer_ready out (bl_c l) x = true).
  { unfold layer_ready. rewrite Em. cbn [pad_allowed]. rewrite Ec, Nat.eqb_refl.
    destruct (Nat.ltb_spec 0 (tH x)); [|lia]. destruct (Nat.ltb_spec 0 (tW x)); [reflexivity|lia]. }
  rewrite RR. cbn [bind tB tC tH tW build]. eexists. split; [reflexivity|]. split; [reflexivity|]. split; [apply twf_build|].
  intros b h i j Hb Hh Hi Hj. rewrite get_build by assumption.
  fold (build (tB x) hid (tH x) (tW x) (fun b o i j => convf (bl_c l) (tH x) (tW x) (get x b) o i j)).
  rewrite get_build by assumption. unfold hidden_unit. f_equal. f_equal.
  destruct Wf as (Hg & Hwf & Hn & He & EB & EC & EH & EW). unfold convf. rewrite Em, Ep, EB, Eg in *.
  rewrite EH, EW, <- Ec in *. rewrite Nat.mul_1_l in EC. rewrite EC.
  apply rsum_ext; intros c Hc. apply rsum_ext; intros y Hy. apply rsum_ext; intros z Hz. f_equal.
  rewrite Nat.div_1_r, Nat.div_small by lia. cbn [Nat.mul Nat.add]. rewrite pval_zeros. f_equal; lia.
Qed.

Lemma point_apply hid out l x : point_layer hid out l -> tC x = hid -> (0 < tH x)%nat -> (0 < tW x)%nat ->
  exists y, bconv_apply l x = Ok y /\ shape y = (tB x, out, tH x, tW x) /\ twf y /\
  forall b o i j, (b < tB x)%nat -> (o < out)%nat -> (i < tH x)%nat -> (j < tW x)%nat ->
    get y b o i j = rsum hid (fun h => get (cl_w (bl_c l)) o h 0 0 * get x b h i j) + nth o (bl_b l) 0.
Proof.
  intros ((Wf & Ep & Eg) & Em) Ec H0 W0. unfold bconv_apply. rewrite (layer_apply_eq _ _ _ _ Wf).
  assert (RR : layer_ready hid (bl_c l) x = true).
  { unfold layer_ready. rewrite Em. cbn [pad_allowed]. rewrite Ec, Nat.eqb_refl.
    destruct (Nat.ltb_spec 0 (tH x)); [|lia]. destruct (Nat.ltb_spec 0 (tW x)); [reflexivity|lia]. }
  rewrite RR. cbn [bind tB tC tH tW build]. eexists. split; [reflexivity|]. split; [reflexivity|]. split; [apply twf_build|].
  intros b h i j Hb Hh Hi Hj. rewrite get_build by assumption.
  fold (build (tB x) out (tH x) (tW x) (fun b o i j => convf (bl_c l) (tH x) (tW x) (get x b) o i j)).
  rewrite get_build by assumption. f_equal.
  destruct Wf as (Hg & Hwf & Hn & He & EB & EC & EH & EW). unfold convf. rewrite Em, Ep, EB, Eg in *.
  rewrite EH, EW. rewrite Nat.mul_1_l in EC. rewrite EC. cbn [Nat.mul Nat.add].
  apply rsum_ext; intros c Hc. cbn [rsum]. rewrite !Rplus_0_l. f_equal.
  rewrite Nat.div_1_r, Nat.div_small by lia. cbn [Nat.mul Nat.add]. rewrite !Nat.add_0_r, pval_zeros. unfold at0.
  destruct (Z.leb_spec 0 (Z.of_nat i - Z.of_nat 0)); [|lia]. destruct (Z.ltb_spec (Z.of_nat i - Z.of_nat 0) (Z.of_nat (tH x))); [|lia].
  destruct (Z.leb_spec 0 (Z.of_nat j - Z.of_nat 0)); [|lia]. destruct (Z.ltb_spec (Z.of_nat j - Z.of_nat 0) (Z.of_nat (tW x))); [|lia].
  cbn [andb]. f_equal; lia.
Qed.

Definition factors (tr : bool) (keep : nat -> nat -> nat -> nat -> nat -> bool) (p : R) (k b h i j : nat) : R :=
  drop_factor tr (keep k b h i j) p.

Lemma dropout_get tr keep p t b c i j : twf t -> (b < tB t)%nat -> (c < tC t)%nat -> (i < tH t)%nat -> (j < tW t)%nat ->
  get (dropout tr keep p t) b c i j = drop_factor tr (keep b c i j) p * get t b c i j.
Proof.
  intros Ht Hb Hc Hi Hj. unfold dropout, drop_factor. destruct tr; [|lra]. rewrite get_build by assumption.
  destruct (Req_EM_T p 1); [lra|]. destruct (keep b c i j); lra.
Qed.

Lemma dropout_shape tr keep p t : twf t -> shape (dropout tr keep p t) = shape t /\ twf (dropout tr keep p t).
Proof. intros Ht. unfold dropout. destruct tr; [|auto]. split; [reflexivity|apply twf_build]. Qed.

Lemma in01_guard p : 0 <= p <= 1 -> (if Rle_dec 0 p then true else false) && (if Rle_dec p 1 then true else false) = true.
Proof. intros [A B]. destruct (Rle_dec 0 p); [|contradiction]. destruct (Rle_dec p 1); [reflexivity|contradiction]. Qed.

Lemma block_eq r hid out tr keep p k la lb x : 0 <= pr_dropout p <= 1 ->
  nth_error (pr_layers p) k = Some la -> window_layer r hid out la ->
  nth_error (pr_layers p) (k + 1) = Some lb -> point_layer hid out lb ->
  twf x -> tC x = out -> (0 < tH x)%nat -> (0 < tW x)%nat ->
  predict_block tr keep p k x = Ok (pass la lb r hid (factors tr keep (pr_dropout p) k) x).
Proof.
  intros Hd Ea Wa Eb Wb Tx Ec H0 W0. unfold predict_block, layer_at. rewrite Ea. cbn [bind].
  destruct (window_apply r hid out la x Wa Ec H0 W0) as (y & Ey & Sy & Ty & Gy). rewrite Ey. cbn [bind].
  unfold f_dropout. rewrite in01_guard by assumption. cbn [guard bind]. rewrite Eb. cbn [bind].
  unfold shape in Sy. apply pair_equal_spec in Sy as [Sy S4]. apply pair_equal_spec in Sy as [Sy S3]. apply pair_equal_spec in Sy as [S1 S2].
  set (q := tmap (act_fn AReLU) y). assert (Tq : twf q) by (apply twf_tmap; assumption).
  destruct (dropout_shape tr (keep k) (pr_dropout p) q Tq) as [Sd Td]. unfold shape in Sd.
  apply pair_equal_spec in Sd as [Sd D4]. apply pair_equal_spec in Sd as [Sd D3]. apply pair_equal_spec in Sd as [D1 D2].
  assert (Q1 : tB q = tB x) by exact S1. assert (Q2 : tC q = hid) by exact S2. assert (Q3 : tH q = tH x) by exact S3. assert (Q4 : tW q = tW x) by exact S4.
  rewrite Q1 in D1. rewrite Q2 in D2. rewrite Q3 in D3. rewrite Q4 in D4.
  destruct (point_apply hid out lb (dropout tr (keep k) (pr_dropout p) q) Wb ltac:(congruence) ltac:(lia) ltac:(lia)) as (z & Ez & Sz & Tz & Gz).
  rewrite Ez. cbn [bind]. rewrite D1, D3, D4 in *.
  rewrite tzip_same.
  2:{ cbn [shape tmap tB tC tH tW]. unfold shape in Sz |- *. cbn [tmap tB tC tH tW]. rewrite Sz, Ec. reflexivity. }
  f_equal. unfold pass. apply build_ext. intros b o i j Hb Ho Hi Hj. f_equal.
  unfold shape in Sz. apply pair_equal_spec in Sz as [Sz Z4]. apply pair_equal_spec in Sz as [Sz Z3]. apply pair_equal_spec in Sz as [Z1 Z2].
  rewrite get_tmap by (try assumption; lia). unfold pass_gain. cbn [act_fn]. unfold logistic.
  rewrite Gz by (try assumption; lia).
  assert (E : rsum hid (fun h => get (cl_w (bl_c lb)) o h 0 0 * get (dropout tr (keep k) (pr_dropout p) q) b h i j) =
              rsum hid (fun h => get (cl_w (bl_c lb)) o h 0 0 * (factors tr keep (pr_dropout p) k b h i j * hidden_unit la r x b h i j))).
  { apply rsum_ext; intros h Hh. f_equal. rewrite dropout_get by (try assumption; lia). unfold factors. f_equal.
    unfold q. rewrite get_tmap by (try assumption; lia). cbn [act_fn]. apply Gy; assumption. }
  rewrite E. reflexivity.
Qed.

(** ** The whole forward pass *)
Lemma pass_shape la lb r hid g x : shape (pass la lb r hid g x) = shape x /\ twf (pass la lb r hid g x).
Proof. split; [reflexivity|apply twf_build]. Qed.

Lemma nth_of_error {A} (l : list A) k a d : nth_error l k = Some a -> nth k l d = a.
Proof. intros H. apply nth_error_nth. exact H. Qed.

Lemma half_up_step n k : (2 * k < n)%nat -> (half_up n - k)%nat = S (half_up n - S k).
Proof. intros H. unfold half_up. pose proof (Nat.div_mod (n + 1) 2 ltac:(lia)). pose proof (Nat.mod_upper_bound (n + 1) 2 ltac:(lia)). lia. Qed.

Lemma half_up_end n k : (n <= 2 * k)%nat -> (half_up n - k)%nat = 0%nat.
Proof. intros H. unfold half_up. pose proof (Nat.div_mod (n + 1) 2 ltac:(lia)). lia. Qed.

Lemma predict_loop_eq r hid out tr keep p : pred_wf r hid out p -> forall fuel k x,
  (pr_repeats p <= fuel + 2 * k)%nat -> twf x -> tC x = out -> (0 < tH x)%nat -> (0 < tW x)%nat ->
  predict_loop fuel tr keep p (2 * k) x =
  Ok (passes (half_up (pr_repeats p) - k) k (pr_layers p) r hid (factors tr keep (pr_dropout p)) x).
Proof.
  intros [Hd Hl] fuel. induction fuel as [|f IH]; intros k x Hf Tx Ec H0 W0; cbn [predict_loop].
  - destruct (Nat.ltb_spec (2 * k) (pr_repeats p)); [lia|]. rewrite half_up_end by assumption. reflexivity.
  - destruct (Nat.ltb_spec (2 * k) (pr_repeats p)) as [L|L].
    + destruct (Hl k ltac:(lia)) as ((la & Ea & Wa) & (lb & Eb & Wb)).
      rewrite (block_eq r hid out tr keep p (2 * k) la lb x Hd Ea Wa Eb Wb Tx Ec H0 W0). cbn [bind].
      replace (2 * k + 2)%nat with (2 * S k)%nat by lia. rewrite half_up_step by assumption. cbn [passes].
      rewrite (nth_of_error _ _ _ blank Ea), (nth_of_error _ _ _ blank Eb).
      apply IH; try assumption; [lia|apply twf_build].
    + rewrite half_up_end by assumption. reflexivity.
Qed.

Lemma predict_eq r hid out tr keep p x : pred_wf r hid out p -> twf x -> tC x = out -> (0 < tH x)%nat -> (0 < tW x)%nat ->
  predict tr keep p x = Ok (passes (half_up (pr_repeats p)) 0 (pr_layers p) r hid (factors tr keep (pr_dropout p)) x).
Proof.
  intros Hp Tx Ec H0 W0. unfold predict. change 0%nat with (2 * 0)%nat at 1.
  rewrite (predict_loop_eq r hid out tr keep p Hp) by (try assumption; lia). rewrite Nat.sub_0_r. reflexivity.
Qed.

Lemma predict_eval_masks r hid out keep keep' p x : pred_wf r hid out p -> twf x -> tC x = out -> (0 < tH x)%nat -> (0 < tW x)%nat ->
  predict false keep p x = predict false keep' p x.
Proof. intros Hp Tx Ec H0 W0. rewrite !(predict_eq r hid out) by assumption. reflexivity. Qed.

Lemma logistic_range z : 0 < logistic z < 1.
Proof.
  unfold logistic. pose proof (exp_pos (- z)). split.
  - apply Rdiv_lt_0_compat; lra.
  - apply Rmult_lt_reg_r with (1 + exp (- z)); [lra|]. unfold Rdiv. rewrite Rmult_1_l, Rinv_l by lra. lra.
Qed.

Lemma passes_range n : forall k ls r hid g x, twf x ->
  shape (passes n k ls r hid g x) = shape x /\ twf (passes n k ls r hid g x) /\
  forall b c i j, (b < tB x)%nat -> (c < tC x)%nat -> (i < tH x)%nat -> (j < tW x)%nat ->
    get x b c i j <= get (passes n k ls r hid g x) b c i j <= get x b c i j + INR n /\
    (n <> 0%nat -> get x b c i j < get (passes n k ls r hid g x) b c i j < get x b c i j + INR n).
Proof.
  induction n as [|n IH]; intros k ls r hid g x Tx.
  - cbn [passes]. split; [reflexivity|]. split; [assumption|]. intros. cbn [INR]. split; [lra|congruence].
  - cbn [passes]. set (y := pass _ _ _ _ _ x).
    destruct (IH (S k) ls r hid g y (twf_build _ _ _ _ _)) as (S1 & T1 & G1). split; [exact S1|]. split; [exact T1|].
    intros b c i j Hb Hc Hi Hj. destruct (G1 b c i j Hb Hc Hi Hj) as [[A B] _].
    assert (Y : get x b c i j < get y b c i j < get x b c i j + 1).
    { unfold y, pass. rewrite get_build by assumption. unfold pass_gain. match goal with |- context [logistic ?z] => pose proof (logistic_range z) end. lra. }
    rewrite S_INR. split; [lra|]. intros _. lra.
Qed.

Lemma predict_rise r hid out tr keep p x y : pred_wf r hid out p -> twf x -> tC x = out -> (0 < tH x)%nat -> (0 < tW x)%nat ->
  predict tr keep p x = Ok y -> shape y = shape x /\ twf y /\
  forall b c i j, (b < tB x)%nat -> (c < tC x)%nat -> (i < tH x)%nat -> (j < tW x)%nat ->
    (pr_repeats p = 0%nat -> get y b c i j = get x b c i j) /\
    (pr_repeats p <> 0%nat -> get x b c i j < get y b c i j < get x b c i j + INR (half_up (pr_repeats p))).
Proof.
  intros Hp Tx Ec H0 W0 H. rewrite (predict_eq r hid out) in H by assumption. apply Ok_inj in H. subst y.
  destruct (passes_range (half_up (pr_repeats p)) 0 (pr_layers p) r hid (factors tr keep (pr_dropout p)) x Tx) as (S1 & T1 & G).
  split; [exact S1|]. split; [exact T1|]. intros b c i j Hb Hc Hi Hj. destruct (G b c i j Hb Hc Hi Hj) as [_ B]. split.
  - intros E. rewrite E. reflexivity.
  - intros E. apply B. unfold half_up. pose proof (Nat.div_mod (pr_repeats p + 1) 2 ltac:(lia)).
    pose proof (Nat.mod_upper_bound (pr_repeats p + 1) 2 ltac:(lia)). lia.
Qed.

(** Only the first [2 * half_up repeats] layers are read. *)
Lemma predict_loop_prefix fuel tr keep p q : pr_repeats p = pr_repeats q -> pr_dropout p = pr_dropout q ->
  (forall k, (k < 2 * half_up (pr_repeats p))%nat -> nth_error (pr_layers p) k = nth_error (pr_layers q) k) ->
  forall k x, predict_loop fuel tr keep p (2 * k) x = predict_loop fuel tr keep q (2 * k) x.
Proof.
  intros Er Ed El. induction fuel as [|f IH]; intros k x; cbn [predict_loop]; rewrite <- Er; [reflexivity|].
  destruct (Nat.ltb_spec (2 * k) (pr_repeats p)) as [L|L]; [|reflexivity].
  assert (B : predict_block tr keep p (2 * k) x = predict_block tr keep q (2 * k) x).
  { pose proof (half_up_step _ _ L). unfold predict_block, layer_at. rewrite <- !El by lia. rewrite Ed. reflexivity. }
  rewrite B. destruct (predict_block tr keep q (2 * k) x) as [x'|e]; cbn [bind]; [|reflexivity].
  replace (2 * k + 2)%nat with (2 * S k)%nat by lia. apply IH.
Qed.

Lemma predict_prefix tr keep p q x : pr_repeats p = pr_repeats q -> pr_dropout p = pr_dropout q ->
  (forall k, (k < 2 * half_up (pr_repeats p))%nat -> nth_error (pr_layers p) k = nth_error (pr_layers q) k) ->
  predict tr keep p x = predict tr keep q x.
Proof. intros Er Ed El. unfold predict. rewrite <- Er. change 0%nat with (2 * 0)%nat. apply predict_loop_prefix; assumption. Qed.

(** An odd number of repetitions and the next even one are the same function of the layers. *)
Lemma predict_loop_odd f1 f2 tr keep p q m : pr_repeats p = (2 * m + 1)%nat -> pr_repeats q = (2 * m + 2)%nat ->
  pr_dropout p = pr_dropout q ->
  (forall k, (k < 2 * m + 2)%nat -> nth_error (pr_layers p) k = nth_error (pr_layers q) k) ->
  forall k x, (2 * m + 1 <= f1 + 2 * k)%nat -> (2 * m + 1 <= f2 + 2 * k)%nat ->
  predict_loop f1 tr keep p (2 * k) x = predict_loop f2 tr keep q (2 * k) x.
Proof.
  intros Ep Eq Ed El. revert f2. induction f1 as [|f IH]; intros f2 k x H1 H2.
  - destruct f2; cbn [predict_loop]; rewrite Ep, Eq;
      (destruct (Nat.ltb_spec (2 * k) (2 * m + 1)); [lia|]); (destruct (Nat.ltb_spec (2 * k) (2 * m + 2)); [lia|reflexivity]).
  - destruct f2 as [|f2]; cbn [predict_loop]; rewrite Ep, Eq.
    + destruct (Nat.ltb_spec (2 * k) (2 * m + 1)); [lia|]. destruct (Nat.ltb_spec (2 * k) (2 * m + 2)); [lia|reflexivity].
    + destruct (Nat.ltb_spec (2 * k) (2 * m + 1)) as [L|L]; destruct (Nat.ltb_spec (2 * k) (2 * m + 2)) as [L'|L']; try lia; [|reflexivity].
      assert (B : predict_block tr keep p (2 * k) x = predict_block tr keep q (2 * k) x).
      { unfold predict_block, layer_at. rewrite <- !El by lia. rewrite Ed. reflexivity. }
      rewrite B. destruct (predict_block tr keep q (2 * k) x) as [x'|e]; cbn [bind]; [|reflexivity].
      replace (2 * k + 2)%nat with (2 * S k)%nat by lia. apply IH; lia.
Qed.

Lemma init_layers_nth d r hid out m : forall ii k, (k < m)%nat ->
  nth_error (init_layers d r hid out m ii) (2 * k) = Some (new_layer d (2 * (ii + k)) hid out (2 * r + 1) r) /\
  nth_error (init_layers d r hid out m ii) (2 * k + 1) = Some (new_layer d (2 * (ii + k) + 1) out hid 1 0).
Proof.
  induction m as [|m IH]; intros ii k Hk; [lia|]. destruct k as [|k].
  - rewrite Nat.add_0_r. split; reflexivity.
  - replace (2 * S k)%nat with (S (S (2 * k))) by lia. replace (S (S (2 * k)) + 1)%nat with (S (S (2 * k + 1))) by lia.
    cbn [init_layers nth_error]. destruct (IH (S ii) k ltac:(lia)) as [A B]. replace (ii + S k)%nat with (S ii + k)%nat by lia. auto.
Qed.

Lemma init_layers_length d r hid out m : forall ii, List.length (init_layers d r hid out m ii) = (2 * m)%nat.
Proof. induction m as [|m IH]; intros ii; [reflexivity|]. cbn [init_layers List.length]. rewrite IH. lia. Qed.

Lemma new_layer_wf d n o i k p : (0 < o)%nat -> (0 < i)%nat -> k = (2 * p + 1)%nat ->
  layer_wf i o (bl_c (new_layer d n o i k p)).
Proof.
  intros Ho Hi Hk. unfold new_layer, layer_wf. cbn [bl_c cl_w cl_g cl_p cl_m build tB tC tH tW].
  split; [split; [cbn [cl_g]; lia|exists o; cbn [cl_w cl_g build tB]; lia]|].
  split; [apply twf_build|]. repeat (split; [lia|]). lia.
Qed.

Lemma init_pred_wf d L r hid out dr : (0 < hid)%nat -> (0 < out)%nat -> 0 <= dr <= 1 ->
  pred_wf r hid out (init_predictor d L r hid out dr).
Proof.
  intros Hh Ho Hd. split; [exact Hd|]. cbn [init_predictor pr_repeats pr_layers]. intros k Hk.
  destruct (init_layers_nth d r hid out L 0 k Hk) as [A B]. rewrite A, B. split; eexists; (split; [reflexivity|]).
  - split; [apply new_layer_wf; auto|]. repeat split.
  - split; [|reflexivity]. split; [apply new_layer_wf; auto|]. split; reflexivity.
Qed.

Lemma nth_error_init_mono d r hid out m m' k : (k < 2 * m)%nat -> (k < 2 * m')%nat ->
  nth_error (init_layers d r hid out m 0) k = nth_error (init_layers d r hid out m' 0) k.
Proof.
  intros H1 H2. pose proof (Nat.div_mod k 2 ltac:(lia)) as E. pose proof (Nat.mod_upper_bound k 2 ltac:(lia)).
  destruct (init_layers_nth d r hid out m 0 (k / 2) ltac:(lia)) as [A B].
  destruct (init_layers_nth d r hid out m' 0 (k / 2) ltac:(lia)) as [A' B'].
  destruct (Nat.eq_dec (k mod 2) 0) as [Z|Z].
  - replace k with (2 * (k / 2))%nat by lia. rewrite A, A'. reflexivity.
  - replace k with (2 * (k / 2) + 1)%nat by lia. rewrite B, B'. reflexivity.
Qed.

Lemma even_repeats_add_nothing d r hid out dr m tr keep x :
  predict tr keep (init_predictor d (2 * m + 2) r hid out dr) x = predict tr keep (init_predictor d (2 * m + 1) r hid out dr) x.
Proof.
  symmetry. unfold predict. cbn [init_predictor pr_repeats]. change 0%nat with (2 * 0)%nat.
  apply predict_loop_odd with (m := m); cbn [init_predictor pr_repeats pr_layers pr_dropout]; try reflexivity; try lia.
  intros k Hk. apply nth_error_init_mono; lia.
Qed.

(** ** What is refused *)
Lemma predict_bad_channels r hid out tr keep p x : pred_wf r hid out p -> pr_repeats p <> 0%nat -> tC x <> out ->
  predict tr keep p x = Err RuntimeError.
Proof.
  intros [_ Hl] Hr Hc. destruct (Hl 0%nat ltac:(lia)) as ((la & Ea & Wa) & _). unfold predict.
  destruct (pr_repeats p) as [|n] eqn:En; [congruence|]. cbn [predict_loop]. rewrite En. cbn [Nat.ltb Nat.leb].
  unfold predict_block, layer_at. change (2 * 0)%nat with 0%nat in Ea. rewrite Ea. cbn [bind]. unfold bconv_apply.
  destruct Wa as (Wf & _). rewrite (layer_apply_eq _ _ _ _ Wf). unfold layer_ready.
  destruct (Nat.eqb_spec (tC x) out); [contradiction|]. reflexivity.
Qed.

Lemma predict_bad_dropout r hid out tr keep p x la : pr_repeats p <> 0%nat -> ~ (0 <= pr_dropout p <= 1) ->
  nth_error (pr_layers p) 0 = Some la -> window_layer r hid out la -> tC x = out -> (0 < tH x)%nat -> (0 < tW x)%nat ->
  predict tr keep p x = Err ValueError.
Proof.
  intros Hr Hd Ea Wa Ec H0 W0. unfold predict.
  destruct (pr_repeats p) as [|n] eqn:En; [congruence|]. cbn [predict_loop]. rewrite En. cbn [Nat.ltb Nat.leb].
  unfold predict_block, layer_at. rewrite Ea. cbn [bind].
  destruct (window_apply r hid out la x Wa Ec H0 W0) as (y & Ey & _). rewrite Ey. cbn [bind]. unfold f_dropout.
  destruct (Rle_dec 0 (pr_dropout p)); [|reflexivity]. destruct (Rle_dec (pr_dropout p) 1); [exfalso; apply Hd; lra|reflexivity].
Qed.

Lemma predict_missing_layer r hid out tr keep p x la : pr_repeats p <> 0%nat -> 0 <= pr_dropout p <= 1 ->
  pr_layers p = [] \/ pr_layers p = [la] /\ window_layer r hid out la /\ tC x = out /\ (0 < tH x)%nat /\ (0 < tW x)%nat ->
  predict tr keep p x = Err IndexError.
Proof.
  intros Hr Hd Hl. unfold predict. destruct (pr_repeats p) as [|n] eqn:En; [congruence|].
  cbn [predict_loop]. rewrite En. cbn [Nat.ltb Nat.leb]. unfold predict_block, layer_at.
  destruct Hl as [-> | (-> & Wa & Ec & H0 & W0)]; [reflexivity|]. cbn [nth_error bind].
  destruct (window_apply r hid out la x Wa Ec H0 W0) as (y & Ey & _). rewrite Ey. cbn [bind]. unfold f_dropout.
  rewrite in01_guard by assumption. reflexivity.
Qed.

(** ** Registered parameters *)
Lemma param_names_length m : forall ii, List.length (param_names m ii) = (4 * m)%nat.
Proof. induction m as [|m IH]; intros ii; [reflexivity|]. cbn [param_names]. rewrite app_length, IH. cbn [List.length]. lia. Qed.
