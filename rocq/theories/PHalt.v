(** Proofs about the predictor of the halting wrapper. *)
From Coq Require Import Reals ZArith NArith Lra Lia List String Ascii Bool Arith.
From Verif Require Import Base Tensor MActivations MNca MText MWrap MPredict MHalt SGrid SCca SNca SText SPredict SHalt PTensor PKern PNca PText PPredict PPredictX.
Import ListNotations.
Open Scope R_scope.

(** ** One layer *)
Lemma at0_ext H W f f' i j : (forall a b, (a < H)%nat -> (b < W)%nat -> f a b = f' a b) -> at0 H W f i j = at0 H W f' i j.
Proof.
  intros E. unfold at0. destruct (Z.leb_spec 0 i); [|reflexivity]. destruct (Z.ltb_spec i (Z.of_nat H)); [|reflexivity].
  destruct (Z.leb_spec 0 j); [|reflexivity]. destruct (Z.ltb_spec j (Z.of_nat W)); [|reflexivity]. cbn [andb]. apply E; lia.
Qed.

Definition same_in (C H W : nat) (f f' : nat -> nat -> nat -> R) : Prop :=
  forall c i j, (c < C)%nat -> (i < H)%nat -> (j < W)%nat -> f c i j = f' c i j.

Lemma window3_ext l C H W f f' o i j : same_in C H W f f' -> window3 l C H W f o i j = window3 l C H W f' o i j.
Proof.
  intros E. unfold window3. f_equal. apply rsum_ext; intros c Hc. apply rsum_ext; intros y _. apply rsum_ext; intros z _.
  f_equal. apply at0_ext. intros. apply E; assumption.
Qed.

Lemma rectified_ext l C n H W g f f' : same_in C H W f f' -> same_in n H W (rectified l C H W g f) (rectified l C H W g f').
Proof. intros E o i j _ _ _. unfold rectified. rewrite (window3_ext l C H W f f') by exact E. reflexivity. Qed.

Lemma halve_lt i H : (i < H / 2)%nat -> (2 * i + 1 < H)%nat.
Proof. intros L. pose proof (Nat.div_mod H 2 ltac:(lia)). lia. Qed.

Lemma quarter_ext C H W f f' : same_in C H W f f' -> same_in C (H / 2) (W / 2) (quarter f) (quarter f').
Proof.
  intros E c i j Hc Hi Hj. apply halve_lt in Hi, Hj. unfold quarter. f_equal. apply rsum_ext; intros y Hy. apply rsum_ext; intros z Hz.
  apply E; lia.
Qed.

Lemma block_ext b k ext H W g f f' : same_in ext H W f f' ->
  same_in ext (H / 2) (W / 2) (block_fun b k ext H W g f) (block_fun b k ext H W g f').
Proof. intros E. unfold block_fun. apply quarter_ext. apply rectified_ext, rectified_ext, rectified_ext, E. Qed.

Lemma belief_ext bs final : forall k ext H W g f f' o, same_in ext H W f f' ->
  belief bs final k ext H W g f o = belief bs final k ext H W g f' o.
Proof.
  induction bs as [|b t IH]; intros k ext H W g f f' o E; cbn [belief].
  - f_equal. apply rsum_ext; intros i _. apply rsum_ext; intros j _. f_equal. apply window3_ext, E.
  - apply IH. apply block_ext, E.
Qed.

Lemma window_ready r n ext l x : window_layer r n ext l ->
  layer_ready ext (bl_c l) x = Nat.eqb (tC x) ext && Nat.ltb 0 (tH x) && Nat.ltb 0 (tW x).
Proof. intros (_ & _ & _ & Em). unfold layer_ready. rewrite Em. cbn [pad_allowed]. rewrite !andb_true_r. reflexivity. Qed.

Lemma window_value n ext l x : window_layer 1 n ext l ->
  bconv_apply l x =
    if Nat.eqb (tC x) ext && Nat.ltb 0 (tH x) && Nat.ltb 0 (tW x)
    then Ok (build (tB x) n (tH x) (tW x) (fun b => window3 l ext (tH x) (tW x) (get x b)))
    else Err RuntimeError.
Proof.
  intros HW. pose proof HW as (Wf & Ep & Eg & Em). unfold bconv_apply. rewrite (layer_apply_eq _ _ _ _ Wf), (window_ready 1 n ext) by assumption.
  destruct (Nat.eqb (tC x) ext && Nat.ltb 0 (tH x) && Nat.ltb 0 (tW x)) eqn:RR; [|reflexivity].
  apply andb_true_iff in RR as [RR _]. apply andb_true_iff in RR as [Ec _]. apply Nat.eqb_eq in Ec.
  cbn [bind]. f_equal.
  change (tB (build (tB x) n (tH x) (tW x) (fun b o i j => convf (bl_c l) (tH x) (tW x) (get x b) o i j))) with (tB x).
  change (tC (build (tB x) n (tH x) (tW x) (fun b o i j => convf (bl_c l) (tH x) (tW x) (get x b) o i j))) with n.
  change (tH (build (tB x) n (tH x) (tW x) (fun b o i j => convf (bl_c l) (tH x) (tW x) (get x b) o i j))) with (tH x).
  change (tW (build (tB x) n (tH x) (tW x) (fun b o i j => convf (bl_c l) (tH x) (tW x) (get x b) o i j))) with (tW x).
  apply build_ext. intros b h i j Hb Hh Hi Hj. rewrite get_build by assumption. unfold window3. f_equal.
  destruct Wf as (Hg & Hwf & Hn & He & EB & EC & EH & EW). unfold convf. rewrite Em, Ep, EB, Eg in *.
  rewrite EH, EW. rewrite Nat.mul_1_l in EC. rewrite EC. change (2 * 1 + 1)%nat with 3%nat.
  apply rsum_ext; intros c Hc. apply rsum_ext; intros y Hy. apply rsum_ext; intros z Hz. f_equal.
  rewrite Nat.div_1_r, Nat.div_small by lia. cbn [Nat.mul Nat.add]. rewrite pval_zeros. f_equal; lia.
Qed.

Definition hfactors (tr : bool) (keep : nat -> nat -> nat -> nat -> nat -> bool) (p : R) (b n o i j : nat) : R :=
  drop_factor tr (keep n b o i j) p.

Lemma stage_eq n ext tr keep p l x : window_layer 1 n ext l ->
  halt_stage tr keep p l x =
    if Nat.eqb (tC x) ext && Nat.ltb 0 (tH x) && Nat.ltb 0 (tW x)
    then Ok (build (tB x) n (tH x) (tW x) (fun b =>
           rectified l ext (tH x) (tW x) (fun o i j => drop_factor tr (keep b o i j) p) (get x b)))
    else Err RuntimeError.
Proof.
  intros HW. unfold halt_stage. rewrite (window_value n ext) by assumption.
  destruct (Nat.eqb (tC x) ext && Nat.ltb 0 (tH x) && Nat.ltb 0 (tW x)); [|reflexivity]. cbn [bind]. f_equal.
  set (y := build (tB x) n (tH x) (tW x) (fun b => window3 l ext (tH x) (tW x) (get x b))).
  assert (Ty : twf y) by apply twf_build. destruct (dropout_shape tr keep p y Ty) as [Sd Td].
  rewrite tmap_eq_build by exact Td.
  unfold shape in Sd. apply pair_equal_spec in Sd as [Sd D4]. apply pair_equal_spec in Sd as [Sd D3]. apply pair_equal_spec in Sd as [D1 D2].
  rewrite D1, D2, D3, D4. change (tB y) with (tB x). change (tC y) with n. change (tH y) with (tH x). change (tW y) with (tW x).
  apply build_ext. intros b o i j Hb Ho Hi Hj. cbn [act_fn]. unfold rectified. f_equal.
  rewrite dropout_get by (try assumption). f_equal. unfold y. rewrite get_build by assumption. reflexivity.
Qed.

Lemma pool_eq t : twf t -> (2 <= tH t)%nat -> (2 <= tW t)%nat ->
  avg_pool2 t = Ok (build (tB t) (tC t) (tH t / 2) (tW t / 2) (fun b => quarter (get t b))).
Proof.
  intros Tt H2 W2. unfold avg_pool2.
  assert (A : (0 < tH t / 2)%nat) by (apply Nat.div_str_pos; lia). assert (B : (0 < tW t / 2)%nat) by (apply Nat.div_str_pos; lia).
  apply Nat.ltb_lt in A, B. rewrite A, B. cbn [andb guard bind]. f_equal. apply build_ext. intros b c i j Hb Hc Hi Hj.
  unfold quarter. cbn [rsum]. rewrite !Nat.add_0_r, !Rplus_0_l. f_equal. ring.
Qed.

Lemma pool_small t : (tH t < 2)%nat \/ (tW t < 2)%nat -> avg_pool2 t = Err RuntimeError.
Proof.
  intros [L|L]; unfold avg_pool2; rewrite (Nat.div_small _ _ L); cbn [Nat.ltb Nat.leb andb guard bind]; [reflexivity|].
  rewrite andb_false_r. reflexivity.
Qed.

Lemma ready_true (x : tensor) ext : tC x = ext -> (0 < tH x)%nat -> (0 < tW x)%nat ->
  Nat.eqb (tC x) ext && Nat.ltb 0 (tH x) && Nat.ltb 0 (tW x) = true.
Proof. intros E A B. rewrite E, Nat.eqb_refl. apply Nat.ltb_lt in A, B. rewrite A, B. reflexivity. Qed.

Lemma ready_false (x : tensor) ext : tC x <> ext \/ tH x = 0%nat \/ tW x = 0%nat ->
  Nat.eqb (tC x) ext && Nat.ltb 0 (tH x) && Nat.ltb 0 (tW x) = false.
Proof.
  intros [E|[E|E]].
  - apply Nat.eqb_neq in E. rewrite E. reflexivity.
  - rewrite E. cbn [Nat.ltb Nat.leb]. rewrite andb_false_r. reflexivity.
  - rewrite E. cbn [Nat.ltb Nat.leb]. rewrite andb_false_r. reflexivity.
Qed.

Lemma block_eq_gen ext tr keep p k bl x : hblock_wf ext bl -> tC x = ext -> (0 < tH x)%nat -> (0 < tW x)%nat ->
  exists y, halt_block tr keep p k bl x = avg_pool2 y /\ shape y = (tB x, ext, tH x, tW x) /\ twf y /\
  forall b, (b < tB x)%nat -> same_in ext (tH x) (tW x) (get y b)
    (rectified (hb_2 bl) 32 (tH x) (tW x) (hfactors tr keep p b (3 * k + 2)%nat)
    (rectified (hb_1 bl) 32 (tH x) (tW x) (hfactors tr keep p b (3 * k + 1)%nat)
    (rectified (hb_0 bl) ext (tH x) (tW x) (hfactors tr keep p b (3 * k)%nat) (get x b)))).
Proof.
  intros (W0 & W1 & W2) Ec H0 V0. unfold halt_block.
  rewrite (stage_eq 32 ext) by assumption. rewrite ready_true by assumption. cbn [bind].
  match goal with |- context [build (tB x) 32 (tH x) (tW x) ?F] => set (f0 := F) end. set (x0 := build _ _ _ _ f0).
  rewrite (stage_eq 32 32) by assumption. rewrite (ready_true x0 32) by (try reflexivity; assumption). cbn [bind].
  change (tB x0) with (tB x). change (tH x0) with (tH x). change (tW x0) with (tW x).
  match goal with |- context [build (tB x) 32 (tH x) (tW x) ?F] => set (f1 := F) end. set (x1 := build _ _ _ _ f1).
  rewrite (stage_eq ext 32) by assumption. rewrite (ready_true x1 32) by (try reflexivity; assumption). cbn [bind].
  change (tB x1) with (tB x). change (tH x1) with (tH x). change (tW x1) with (tW x).
  eexists. split; [reflexivity|]. split; [reflexivity|]. split; [apply twf_build|].
  intros b Hb c i j Hc Hi Hj. rewrite get_build by assumption.
  apply (rectified_ext (hb_2 bl) 32 ext); try assumption. intros c1 i1 j1 Hc1 Hi1 Hj1.
  unfold x1. rewrite get_build by assumption. unfold f1.
  apply (rectified_ext (hb_1 bl) 32 32); try assumption. intros c2 i2 j2 Hc2 Hi2 Hj2.
  unfold x0. rewrite get_build by assumption. reflexivity.
Qed.

Lemma hblock_eq ext tr keep p k bl x : hblock_wf ext bl -> tC x = ext -> (2 <= tH x)%nat -> (2 <= tW x)%nat ->
  exists y, halt_block tr keep p k bl x = Ok y /\ shape y = (tB x, ext, tH x / 2, tW x / 2)%nat /\ twf y /\
  forall b, (b < tB x)%nat -> same_in ext (tH x / 2) (tW x / 2) (get y b)
    (block_fun bl k ext (tH x) (tW x) (hfactors tr keep p b) (get x b)).
Proof.
  intros Wb Ec H2 W2. destruct (block_eq_gen ext tr keep p k bl x Wb Ec ltac:(lia) ltac:(lia)) as (y & Ey & Sy & Ty & Gy).
  unfold shape in Sy. apply pair_equal_spec in Sy as [Sy S4]. apply pair_equal_spec in Sy as [Sy S3]. apply pair_equal_spec in Sy as [S1 S2].
  rewrite Ey, pool_eq by (try assumption; lia). rewrite S1, S2, S3, S4. eexists. split; [reflexivity|]. split; [reflexivity|].
  split; [apply twf_build|]. intros b Hb c i j Hc Hi Hj. rewrite get_build by assumption. unfold block_fun.
  apply (quarter_ext ext (tH x) (tW x)); try assumption. apply Gy, Hb.
Qed.

(** ** All blocks *)
Lemma half_ge n H : (2 ^ S n <= H)%nat -> (2 ^ n <= H / 2)%nat.
Proof. intros L. apply Nat.div_le_lower_bound; [lia|]. cbn [Nat.pow] in L. lia. Qed.

Lemma pow2_pos n : (1 <= 2 ^ n)%nat.
Proof. induction n; cbn [Nat.pow]; lia. Qed.

Lemma blocks_eq ext tr keep p bs : Forall (hblock_wf ext) bs -> forall k x,
  tC x = ext -> twf x -> (2 ^ List.length bs <= tH x)%nat -> (2 ^ List.length bs <= tW x)%nat ->
  exists y, halt_blocks tr keep p k bs x = Ok y /\ tB y = tB x /\ tC y = ext /\ twf y /\ (0 < tH y)%nat /\ (0 < tW y)%nat /\
  forall final b o, (b < tB x)%nat ->
    belief [] final (k + List.length bs) ext (tH y) (tW y) (hfactors tr keep p b) (get y b) o =
    belief bs final k ext (tH x) (tW x) (hfactors tr keep p b) (get x b) o.
Proof.
  induction 1 as [|bl bs Wb Wbs IH]; intros k x Ec Tx HH HW; cbn [List.length] in *.
  - exists x. cbn [halt_blocks]. cbn [Nat.pow] in *. repeat (split; [auto; lia|]). intros. reflexivity.
  - pose proof (pow2_pos (List.length bs)). pose proof (half_ge _ _ HH). pose proof (half_ge _ _ HW). cbn [Nat.pow] in HH, HW.
    destruct (hblock_eq ext tr keep p k bl x Wb Ec ltac:(lia) ltac:(lia)) as (y & Ey & Sy & Ty & Gy).
    unfold shape in Sy. apply pair_equal_spec in Sy as [Sy S4]. apply pair_equal_spec in Sy as [Sy S3]. apply pair_equal_spec in Sy as [S1 S2].
    destruct (IH (S k) y S2 Ty ltac:(rewrite S3; assumption) ltac:(rewrite S4; assumption)) as (z & Ez & Z1 & Z2 & Z3 & Z4 & Z5 & Gz).
    exists z. cbn [halt_blocks]. rewrite Ey. cbn [bind]. split; [exact Ez|]. split; [congruence|]. split; [assumption|].
    split; [assumption|]. split; [assumption|]. split; [assumption|]. intros final b o Hb.
    etransitivity; [apply (Gz final b o); lia|]. rewrite S3, S4. cbn [belief]. apply belief_ext. apply Gy, Hb.
Qed.

Lemma forward_refuses ext final tr keep p bs : Forall (hblock_wf ext) bs -> (exists out, window_layer 1 out ext final) -> forall k x,
  ~ predictable ext (List.length bs) x ->
  (let* y := halt_blocks tr keep p k bs x in bconv_apply final y) = Err RuntimeError.
Proof.
  intros HB (out & HF). induction HB as [|bl bs Wb Wbs IH]; intros k x HN; cbn [List.length halt_blocks] in *.
  - cbn [bind]. rewrite (window_value out ext) by assumption. rewrite ready_false; [reflexivity|].
    unfold predictable in HN. cbn [Nat.pow] in HN.
    destruct (Nat.eq_dec (tC x) ext); [|auto]. destruct (Nat.eq_dec (tH x) 0); [auto|]. destruct (Nat.eq_dec (tW x) 0); [auto|].
    exfalso. apply HN. repeat split; [assumption|lia|lia].
  - destruct (Nat.eqb (tC x) ext && Nat.ltb 0 (tH x) && Nat.ltb 0 (tW x)) eqn:RR.
    + apply andb_true_iff in RR as [RR R3]. apply andb_true_iff in RR as [R1 R2].
      apply Nat.eqb_eq in R1. apply Nat.ltb_lt in R2, R3.
      destruct (le_lt_dec 2 (tH x)) as [LH|LH]; [destruct (le_lt_dec 2 (tW x)) as [LW|LW]|].
      * destruct (hblock_eq ext tr keep p k bl x Wb R1 LH LW) as (y & Ey & Sy & Ty & Gy).
        unfold shape in Sy. apply pair_equal_spec in Sy as [Sy S4]. apply pair_equal_spec in Sy as [Sy S3]. apply pair_equal_spec in Sy as [S1 S2].
        rewrite Ey. cbn [bind]. apply IH. unfold predictable. intros (_ & A & B). apply HN. split; [assumption|].
        rewrite S3 in A. rewrite S4 in B. cbn [Nat.pow].
        pose proof (Nat.div_mod (tH x) 2 ltac:(lia)). pose proof (Nat.div_mod (tW x) 2 ltac:(lia)). split; lia.
      * destruct (block_eq_gen ext tr keep p k bl x Wb R1 R2 R3) as (y & Ey & Sy & _).
        unfold shape in Sy. apply pair_equal_spec in Sy as [Sy S4]. rewrite Ey, pool_small by (right; lia). reflexivity.
      * destruct (block_eq_gen ext tr keep p k bl x Wb R1 R2 R3) as (y & Ey & Sy & _).
        unfold shape in Sy. apply pair_equal_spec in Sy as [Sy S4]. apply pair_equal_spec in Sy as [Sy S3].
        rewrite Ey, pool_small by (left; lia). reflexivity.
    + destruct Wb as (W0 & _). unfold halt_block. rewrite (stage_eq 32 ext) by assumption. rewrite RR. reflexivity.
Qed.

(** ** Predictions *)
Lemma nth_rows (B C : nat) (f : nat -> nat -> R) :
  List.length (flat_map (fun b => map (f b) (seq 0 C)) (seq 0 B)) = (B * C)%nat /\
  forall b c, (b < B)%nat -> (c < C)%nat -> nth (b * C + c) (flat_map (fun b => map (f b) (seq 0 C)) (seq 0 B)) 0 = f b c.
Proof.
  assert (G : forall B s, List.length (flat_map (fun b => map (f b) (seq 0 C)) (seq s B)) = (B * C)%nat /\
    forall b c, (b < B)%nat -> (c < C)%nat -> nth (b * C + c) (flat_map (fun b => map (f b) (seq 0 C)) (seq s B)) 0 = f (s + b)%nat c).
  { clear B. induction B as [|B IH]; intros s; [split; [reflexivity|lia]|]. cbn [seq flat_map]. destruct (IH (S s)) as [L N]. split.
    - rewrite app_length, map_length, seq_length, L. lia.
    - intros b c Hb Hc. destruct b as [|b].
      + cbn [Nat.mul Nat.add]. rewrite app_nth1 by (rewrite map_length, seq_length; assumption).
        rewrite (nth_indep _ 0 (f s 0%nat)) by (rewrite map_length, seq_length; assumption).
        rewrite map_nth, seq_nth by assumption. rewrite Nat.add_0_r. reflexivity.
      + rewrite app_nth2; rewrite map_length, seq_length; [|lia]. replace (S b * C + c - C)%nat with (b * C + c)%nat by lia.
        rewrite N by lia. f_equal. lia. }
  destruct (G B 0%nat) as [L N]. split; assumption.
Qed.

Lemma forward_eq ext blocks out tr keep net x : hnet_wf ext blocks out net -> twf x -> predictable ext blocks x ->
  exists l, halt_forward tr keep net x = Ok l /\ List.length l = (tB x * out)%nat /\
  forall b o, (b < tB x)%nat -> (o < out)%nat ->
    nth (b * out + o) l 0 = belief (hn_blocks net) (hn_final net) 0 ext (tH x) (tW x) (hfactors tr keep (hn_drop net) b) (get x b) o.
Proof.
  intros (Len & HB & HF) Tx (Ec & HH & HW). unfold halt_forward.
  destruct (blocks_eq ext tr keep (hn_drop net) (hn_blocks net) HB 0 x Ec Tx) as (y & Ey & Y1 & Y2 & Y3 & Y4 & Y5 & Gy);
    [rewrite Len; assumption|rewrite Len; assumption|].
  rewrite Ey. cbn [bind]. rewrite (window_value out ext) by assumption. rewrite ready_true by assumption. cbn [bind].
  eexists. split; [reflexivity|]. set (z := build _ _ _ _ _). assert (Tz : twf z) by apply twf_build.
  unfold plane_means. change (tB (tmap (act_fn ASigmoid) z)) with (tB y). change (tC (tmap (act_fn ASigmoid) z)) with out.
  change (tH (tmap (act_fn ASigmoid) z)) with (tH y). change (tW (tmap (act_fn ASigmoid) z)) with (tW y).
  match goal with |- context [flat_map (fun b => map (fun c => @?F b c) (seq 0 out))] =>
    destruct (nth_rows (tB y) out F) as [L N] end.
  rewrite Y1 in L, N |- *. split; [exact L|]. intros b o Hb Ho. rewrite N by assumption.
  etransitivity; [|apply (Gy (hn_final net) b o Hb)]. cbn [belief]. f_equal. apply rsum_ext; intros i Hi. apply rsum_ext; intros j Hj.
  rewrite get_tmap by (try assumption; change (tB z) with (tB y); lia). cbn [act_fn]. unfold logistic. unfold z.
  rewrite get_build by (try assumption; lia). reflexivity.
Qed.

Lemma forward_err ext blocks out tr keep net x : hnet_wf ext blocks out net -> ~ predictable ext blocks x ->
  halt_forward tr keep net x = Err RuntimeError.
Proof.
  intros (Len & HB & HF) HN. unfold halt_forward.
  pose proof (forward_refuses ext (hn_final net) tr keep (hn_drop net) (hn_blocks net) HB (ex_intro _ out HF) 0 x ltac:(rewrite Len; assumption)) as E.
  destruct (halt_blocks tr keep (hn_drop net) 0 (hn_blocks net) x) as [y|e]; cbn [bind] in *; [rewrite E; reflexivity|]. congruence.
Qed.

Lemma mean_strict H W (f : nat -> nat -> R) : (0 < H)%nat -> (0 < W)%nat -> (forall i j, 0 < f i j < 1) ->
  0 < rsum H (fun i => rsum W (fun j => f i j)) / INR (H * W) < 1.
Proof.
  intros HH HW F. assert (P : 0 < INR (H * W)) by (apply lt_0_INR; nia).
  assert (A : forall i, 0 < rsum W (fun j => f i j) < INR W).
  { intros i. split.
    - rewrite <- (rsum_0 W (fun _ => 0)) by reflexivity. apply rsum_lt; [intros; left; apply F|exists 0%nat; split; [assumption|apply F]].
    - replace (INR W) with (rsum W (fun _ => 1)) by (rewrite rsum_const; ring).
      apply rsum_lt; [intros; left; apply F|exists 0%nat; split; [assumption|apply F]]. }
  split.
  - apply Rdiv_lt_0_compat; [|assumption]. rewrite <- (rsum_0 H (fun _ => 0)) by reflexivity.
    apply rsum_lt; [intros; left; apply A|exists 0%nat; split; [assumption|apply A]].
  - apply Rmult_lt_reg_r with (INR (H * W)); [assumption|]. unfold Rdiv. rewrite Rmult_assoc, Rinv_l, Rmult_1_r, Rmult_1_l by lra.
    rewrite mult_INR. rewrite <- rsum_const. apply rsum_lt; [intros; left; apply A|exists 0%nat; split; [assumption|apply A]].
Qed.

Lemma belief_range bs final : forall k ext H W g f o, (2 ^ List.length bs <= H)%nat -> (2 ^ List.length bs <= W)%nat ->
  0 < belief bs final k ext H W g f o < 1.
Proof.
  induction bs as [|b t IH]; intros k ext H W g f o HH HW; cbn [belief List.length] in *.
  - cbn [Nat.pow] in *. apply mean_strict; [lia|lia|]. intros. apply logistic_range.
  - apply IH; apply half_ge; assumption.
Qed.

Lemma nth_in_range (l : list R) n (P : R -> Prop) : List.length l = n -> (forall k, (k < n)%nat -> P (nth k l 0)) -> Forall P l.
Proof. intros L H. apply Forall_forall. intros v Hv. apply (In_nth _ _ 0) in Hv as (k & Hk & <-). apply H. lia. Qed.

Lemma forward_strict ext blocks out tr keep net x l : hnet_wf ext blocks out net -> twf x -> (0 < out)%nat ->
  halt_forward tr keep net x = Ok l -> List.length l = (tB x * out)%nat /\ Forall (fun v => 0 < v < 1) l.
Proof.
  intros Hw Tx Ho E. assert (PD : predictable ext blocks x).
  { destruct (Nat.eq_dec (tC x) ext) as [A|A]; [destruct (le_lt_dec (2 ^ blocks) (tH x)) as [B|B]; [destruct (le_lt_dec (2 ^ blocks) (tW x)) as [D|D]|]|];
      [repeat split; assumption| | |]; rewrite (forward_err ext blocks out) in E by (try assumption; unfold predictable; lia); discriminate. }
  destruct (forward_eq ext blocks out tr keep net x Hw Tx PD) as (l' & E' & L & N). rewrite E in E'. apply Ok_inj in E'. subst l'.
  split; [assumption|]. apply (nth_in_range l (tB x * out)); [assumption|]. intros k Hk.
  pose proof (Nat.div_mod k out ltac:(lia)) as DM. pose proof (Nat.mod_upper_bound k out ltac:(lia)).
  assert (k / out < tB x)%nat by (apply Nat.div_lt_upper_bound; lia).
  replace k with (k / out * out + k mod out)%nat by lia. rewrite N by assumption.
  destruct PD as (_ & A & B). destruct Hw as (Len & _). apply belief_range; rewrite Len; assumption.
Qed.

(** ** Construction *)
Lemma new_window d n o i : (0 < o)%nat -> (0 < i)%nat -> window_layer 1 o i (new_layer d n o i 3 1).
Proof. intros Ho Hi. split; [apply new_layer_wf; auto|]. repeat split. Qed.

Lemma new_blocks_wf d ext m : (0 < ext)%nat -> forall ii, List.length (new_blocks d ext m ii) = m /\ Forall (hblock_wf ext) (new_blocks d ext m ii).
Proof.
  intros He. induction m as [|m IH]; intros ii; [split; constructor|]. cbn [new_blocks List.length]. destruct (IH (S ii)) as [A B]. split; [lia|].
  constructor; [|assumption]. split; [|split]; apply new_window; lia.
Qed.

Lemma new_blocks_nth d ext m : forall ii k, (k < m)%nat -> nth_error (new_blocks d ext m ii) k =
  Some (mkHB (new_layer d (3 * (ii + k)) 32 ext 3 1) (new_layer d (3 * (ii + k) + 1) 32 32 3 1) (new_layer d (3 * (ii + k) + 2) ext 32 3 1)).
Proof.
  induction m as [|m IH]; intros ii k Hk; [lia|]. destruct k as [|k].
  - rewrite Nat.add_0_r. reflexivity.
  - cbn [new_blocks nth_error]. rewrite IH by lia. replace (S ii + k)%nat with (ii + S k)%nat by lia. reflexivity.
Qed.

Lemma halt_outputs_pos mode : (0 < halt_outputs mode)%nat.
Proof. unfold halt_outputs. destruct (Nat.eqb mode 2); lia. Qed.

Lemma init_ok d ext blocks mode p : (0 < ext)%nat -> blocks = 0%nat \/ 0 <= p <= 1 ->
  exists net, init_halting d ext blocks mode p = Ok net /\ hnet_wf ext blocks (halt_outputs mode) net.
Proof.
  intros He Hp. unfold init_halting.
  assert (G : Nat.eqb blocks 0 || (if Rle_dec 0 p then true else false) && (if Rle_dec p 1 then true else false) = true).
  { destruct Hp as [->|Hp]; [reflexivity|]. rewrite in01_guard by assumption. apply orb_true_r. }
  rewrite G. cbn [guard bind]. eexists. split; [reflexivity|]. destruct (new_blocks_wf d ext blocks He 0) as [A B].
  split; [assumption|]. split; [assumption|]. apply new_window; [apply halt_outputs_pos|assumption].
Qed.

Lemma init_bad d ext blocks mode p : blocks <> 0%nat -> ~ (0 <= p <= 1) -> init_halting d ext blocks mode p = Err ValueError.
Proof.
  intros Hb Hp. unfold init_halting. apply Nat.eqb_neq in Hb. rewrite Hb. cbn [orb].
  destruct (Rle_dec 0 p); [|reflexivity]. destruct (Rle_dec p 1); [exfalso; apply Hp; lra|reflexivity].
Qed.

(** Names of the parameters. *)
Lemma halt_name_eq q ii : In q halt_parts -> exists r, halt_name q ii = (r ++ "_layer" ++ dec (N.of_nat ii))%string /\
  In (q, r) [("0.weight", "0weight"); ("0.bias", "0bias"); ("3.weight", "3weight"); ("3.bias", "3bias"); ("6.weight", "6weight"); ("6.bias", "6bias")]%string.
Proof.
  intros Hq. unfold halt_name. cbn [halt_parts In] in Hq.
  destruct Hq as [E|[E|[E|[E|[E|[E|[]]]]]]]; subst q; eexists; (split; [reflexivity|]); cbn [In]; tauto.
Qed.

Lemma halt_name_inj q q' k k' : In q halt_parts -> In q' halt_parts -> halt_name q k = halt_name q' k' -> q = q' /\ k = k'.
Proof.
  intros Hq Hq' E. destruct (halt_name_eq q k Hq) as (r & E1 & R1). destruct (halt_name_eq q' k' Hq') as (r' & E2 & R2).
  rewrite E1, E2 in E. clear E1 E2.
  assert (C : r = r').
  { cbn [In] in R1, R2.
    repeat match goal with H : _ \/ _ |- _ => destruct H as [H|H] | H : False |- _ => contradiction end;
    apply pair_equal_spec in R1 as [_ <-]; apply pair_equal_spec in R2 as [_ <-]; try reflexivity; cbn [append] in E; congruence. }
  subst r'. apply append_inj in E. apply append_inj in E. split.
  - cbn [In] in R1, R2.
    repeat match goal with H : _ \/ _ |- _ => destruct H as [H|H] | H : False |- _ => contradiction end; congruence.
  - apply Nat2N.inj. rewrite <- (dec_number (N.of_nat k)), E. apply dec_number.
Qed.

Lemma halt_names_length m : List.length (halt_names m) = (6 * m)%nat.
Proof.
  assert (G : forall s, List.length (flat_map (fun ii => map (fun q => halt_name q ii) halt_parts) (seq s m)) = (6 * m)%nat); [|apply G].
  induction m as [|m IH]; intros s; [reflexivity|]. cbn [seq flat_map]. rewrite app_length, IH.
  rewrite map_length. cbn [halt_parts List.length]. lia.
Qed.

Lemma NoDup_app_intro {A} (l1 l2 : list A) : NoDup l1 -> NoDup l2 -> (forall x, In x l1 -> In x l2 -> False) -> NoDup (l1 ++ l2).
Proof.
  induction l1 as [|a l1 IHl]; intros H1 H2 H; [exact H2|]. cbn [app]. apply NoDup_cons_iff in H1 as [Ha H1]. constructor.
  - rewrite in_app_iff. intros [X|X]; [contradiction|]. apply (H a); [left; reflexivity|exact X].
  - apply IHl; [exact H1|exact H2|]. intros x X Y. apply (H x); [right; exact X|exact Y].
Qed.

Lemma halt_names_nodup m : NoDup (halt_names m).
Proof.
  unfold halt_names. generalize 0%nat. induction m as [|m IH]; intros s; [constructor|]. cbn [seq flat_map].
  assert (N6 : NoDup halt_parts).
  { unfold halt_parts. repeat (constructor; [cbn [In]; intros H; decompose [or] H; try discriminate; try contradiction|]). constructor. }
  assert (ND : forall l, NoDup l -> (forall x, In x l -> In x halt_parts) -> NoDup (map (fun q => halt_name q s) l)).
  { induction l as [|x l IHl]; intros Hl Hin; [constructor|]. cbn [map]. apply NoDup_cons_iff in Hl as [Hx Hl]. constructor.
    - intros H. apply in_map_iff in H as (y & Ey & Hy). apply halt_name_inj in Ey as [Ey _].
      + subst y. contradiction. + apply Hin. right. exact Hy. + apply Hin. left. reflexivity.
    - apply IHl; [exact Hl|]. intros y Hy. apply Hin. right. exact Hy. }
  apply NoDup_app_intro; [apply ND; auto|apply IH|].
  intros x H1 H2. apply in_map_iff in H1 as (y & Ey & Hy). apply in_flat_map in H2 as (k & Hk & H2). apply in_map_iff in H2 as (z & Ez & Hz).
  subst x. apply halt_name_inj in Ez as [_ Ez]; [|assumption|assumption]. subst k. apply in_seq in Hk. lia.
Qed.

(** ** The wrapper's step *)
Section Step.
  Variable St : Type.
  Variable ca : St -> tensor -> res (St * tensor).
  Variable rst : St -> St.
  Variables B ext D : nat.
  Hypothesis HT : ca_total St ca B ext D D.
  Hypothesis Hpos : (0 < B * ext * D * D)%nat.

  Lemma run_total n : forall s u, shape u = (B, ext, D, D) -> twf u ->
    exists s' u', ca_run St ca n s u = Ok (s', u') /\ shape u' = (B, ext, D, D) /\ twf u'.
  Proof.
    induction n as [|n IH]; intros s u Su Tu; cbn [ca_run]; [eauto|].
    destruct (HT s u Su Tu) as (s1 & u1 & E & S1 & T1). rewrite E. cbn [bind fst snd]. apply IH; assumption.
  Qed.

  Lemma cells u : shape u = (B, ext, D, D) -> twf u -> tdata u <> [].
  Proof.
    intros Su Tu E. unfold twf in Tu. unfold shape in Su. apply pair_equal_spec in Su as [Su S4]. apply pair_equal_spec in Su as [Su S3].
    apply pair_equal_spec in Su as [S1 S2]. rewrite E, S1, S2, S3, S4 in Tu. cbn [List.length] in Tu. lia.
  Qed.

  Lemma mean_exists u : shape u = (B, ext, D, D) -> twf u -> exists m, tmean u = Ok m.
  Proof. intros Su Tu. pose proof (cells u Su Tu). unfold tmean, lmean. destruct (tdata u); [contradiction|eauto]. Qed.

  Lemma max_exists u : shape u = (B, ext, D, D) -> twf u -> exists m, tmax u = Ok m.
  Proof. intros Su Tu. pose proof (cells u Su Tu). unfold tmax. destruct (tdata u); [contradiction|eauto]. Qed.

  Lemma while_total n : forall s u, shape u = (B, ext, D, D) -> twf u ->
    exists s' u', while_loop St ca n s u = Ok (s', u') /\ shape u' = (B, ext, D, D) /\ twf u'.
  Proof.
    induction n as [|n IH]; intros s u Su Tu; cbn [while_loop]; [eauto|].
    destruct (mean_exists u Su Tu) as [m Em]. rewrite Em. cbn [bind]. destruct (Rlt_dec 0 m); [|eauto].
    destruct (HT s u Su Tu) as (s1 & u1 & E & S1 & T1). rewrite E. cbn [bind fst snd]. apply IH; assumption.
  Qed.

  Lemma break_total n : forall s u, shape u = (B, ext, D, D) -> twf u ->
    exists s' u', break_loop St ca max_stop n s u = Ok (s', u') /\ shape u' = (B, ext, D, D) /\ twf u'.
  Proof.
    induction n as [|n IH]; intros s u Su Tu; cbn [break_loop]; [eauto|].
    destruct (HT s u Su Tu) as (s1 & u1 & E & S1 & T1). rewrite E. cbn [bind fst snd].
    destruct (max_exists u1 S1 T1) as [m Em]. unfold max_stop. rewrite Em. cbn [bind]. destruct (Req_EM_T m 0); [eauto|]. apply IH; assumption.
  Qed.

  Lemma dgrid_total s u : shape u = (B, ext, D, D) -> twf u ->
    exists s' d, dgrid_of St ca s u = Ok (s', d) /\ shape d = (B, ext, D, D) /\ twf d.
  Proof.
    intros Su Tu. destruct (HT s u Su Tu) as (s1 & u1 & E & S1 & T1). unfold dgrid_of. rewrite E. cbn [bind fst snd].
    rewrite tzip_same by congruence. cbn [bind]. exists s1. eexists. split; [reflexivity|]. split; [exact Su|apply twf_build].
  Qed.

  Lemma one_target th u : shape u = (B, ext, D, D) ->
    exists l l', mean_targets th u = Ok l /\ max_targets th u = Ok l' /\ List.length l = B /\ List.length l' = B.
  Proof.
    intros Su. unfold shape in Su. apply pair_equal_spec in Su as [Su S4]. apply pair_equal_spec in Su as [Su S3].
    apply pair_equal_spec in Su as [S1 S2].
    assert (N : Nat.eqb (ext * D * D) 0 = false) by (apply Nat.eqb_neq; nia).
    unfold mean_targets, max_targets. rewrite S1, S2, S3, S4, N. cbn [negb guard bind]. eexists. eexists. split; [reflexivity|]. split; [reflexivity|].
    rewrite !map_length, !seq_length. auto.
  Qed.

  Definition columns (mode : nat) : nat := if Nat.ltb mode 2 then 1 else 2.

  Lemma cat_total x y : List.length x = B -> List.length y = B -> exists l, cat_targets x y = Ok l /\ List.length l = (B * 2)%nat.
  Proof.
    intros Hx Hy. unfold cat_targets. rewrite Hx, Hy, Nat.eqb_refl. cbn [guard bind]. eexists. split; [reflexivity|].
    clear Hpos HT. revert y B Hx Hy. induction x as [|a x IH]; intros y n Hx Hy; destruct y as [|c y]; cbn [List.length] in *; subst; try lia; [reflexivity|].
    cbn [combine flat_map]. rewrite app_length. rewrite (IH y (List.length x)) by lia. cbn [List.length]. lia.
  Qed.

  Lemma train_targets_total mode u d : shape u = (B, ext, D, D) -> shape d = (B, ext, D, D) ->
    exists l, train_targets mode u d = Ok l /\ List.length l = (B * columns mode)%nat.
  Proof.
    intros Su Sd. destruct (one_target (1 / 10000) u Su) as (a & _ & Ea & _ & La & _).
    destruct (one_target (1 / 10000) d Sd) as (b & _ & Eb & _ & Lb & _). destruct (one_target (1 / 100000) u Su) as (_ & c & _ & Ec & _ & Lc).
    destruct mode as [|[|m]]; cbn [train_targets columns Nat.ltb Nat.leb].
    - exists a. split; [assumption|lia].
    - exists b. split; [assumption|lia].
    - rewrite Ec, Eb. cbn [bind]. apply cat_total; assumption.
  Qed.

  Lemma eval_targets_total mode u d : shape u = (B, ext, D, D) -> shape d = (B, ext, D, D) ->
    exists l, eval_targets mode u d = Ok l /\ List.length l = (B * columns mode)%nat.
  Proof.
    intros Su Sd. destruct (one_target (1 / 100000) u Su) as (_ & a & _ & Ea & _ & La).
    destruct (one_target (1 / 100000) d Sd) as (_ & b & _ & Eb & _ & Lb).
    destruct mode as [|[|m]]; cbn [eval_targets columns Nat.ltb Nat.leb].
    - exists a. split; [assumption|lia].
    - exists b. split; [assumption|lia].
    - rewrite Ea, Eb. cbn [bind]. apply cat_total; assumption.
  Qed.

  Lemma bce_ok pred target : List.length pred = List.length target -> Forall (fun v => 0 < v < 1) pred -> bce_accepts pred target = Ok tt.
  Proof.
    intros L F. unfold bce_accepts. rewrite L, Nat.eqb_refl. cbn [guard bind].
    assert (E : forallb (fun p => if Rle_dec 0 p then if Rle_dec p 1 then true else false else false) pred = true).
    { apply forallb_forall. intros v Hv. rewrite Forall_forall in F. specialize (F v Hv).
      destruct (Rle_dec 0 v); [|lra]. destruct (Rle_dec v 1); [reflexivity|lra]. }
    rewrite E. reflexivity.
  Qed.

  Variable masks : nat -> nat -> nat -> nat -> nat -> nat -> bool.
  Variable update : nat -> hnet -> tensor -> list R -> hnet.
  Variable blocks : nat.
  Variable mode : nat.
  Hypothesis HU : forall k w x t, hnet_wf ext blocks (halt_outputs mode) w -> hnet_wf ext blocks (halt_outputs mode) (update k w x t).

  Notation fwd := (halt_net_forward masks).
  Notation learn := (halt_net_learn update).

  Lemma fwd_total tr w u : hnet_wf ext blocks (halt_outputs mode) (snd w) -> (2 ^ blocks <= D)%nat -> shape u = (B, ext, D, D) -> twf u ->
    exists l, fwd tr w u = Ok l /\ List.length l = (B * halt_outputs mode)%nat /\ Forall (fun v => 0 < v < 1) l.
  Proof.
    intros Hw HD Su Tu. unfold halt_net_forward.
    assert (S' := Su). unfold shape in S'. apply pair_equal_spec in S' as [S' S4]. apply pair_equal_spec in S' as [S' S3].
    apply pair_equal_spec in S' as [S1 S2].
    destruct (forward_eq ext blocks (halt_outputs mode) tr (masks (fst w)) (snd w) u Hw Tu) as (l & E & _);
      [repeat split; congruence || lia|].
    destruct (forward_strict ext blocks (halt_outputs mode) tr (masks (fst w)) (snd w) u l Hw Tu (halt_outputs_pos mode) E) as [L F].
    exists l. rewrite S1 in L. auto.
  Qed.

  Lemma modes_agree : (mode <= 2)%nat -> halt_outputs mode = columns mode.
  Proof. intros H. destruct mode as [|[|[|m]]]; try reflexivity. lia. Qed.

  Lemma train_once_total n st rand : (mode <= 2)%nat -> hnet_wf ext blocks (halt_outputs mode) (snd (snd st)) -> (2 ^ blocks <= D)%nat ->
    shape rand = (B, ext, D, D) -> twf rand ->
    exists st', train_once St ca _ fwd learn rst mode n st rand = Ok st' /\
      hnet_wf ext blocks (halt_outputs mode) (snd (snd st')) /\ fst (snd st') = S (fst (snd st)).
  Proof.
    intros Hm Hw HD Sr Tr. unfold train_once.
    destruct (run_total bigbang_steps (rst (fst st)) rand Sr Tr) as (s1 & u1 & E1 & S1 & T1). rewrite E1. cbn [bind fst snd].
    destruct (fwd_total true (snd st) u1 Hw HD S1 T1) as (p & Ep & Lp & Fp). rewrite Ep. cbn [bind].
    destruct (while_total n s1 u1 S1 T1) as (s2 & u2 & E2 & S2 & T2). rewrite E2. cbn [bind fst snd].
    destruct (dgrid_total s2 u2 S2 T2) as (s3 & d & E3 & S3 & T3). rewrite E3. cbn [bind fst snd].
    destruct (train_targets_total mode u2 d S2 S3) as (t & Et & Lt). rewrite Et. cbn [bind].
    rewrite bce_ok; [|rewrite Lp, Lt, modes_agree by assumption; reflexivity|assumption]. cbn [bind].
    eexists. split; [reflexivity|]. cbn [snd fst halt_net_learn]. split; [apply HU, Hw|reflexivity].
  Qed.

  Lemma train_all_total n k : forall rand st, (mode <= 2)%nat -> hnet_wf ext blocks (halt_outputs mode) (snd (snd st)) -> (2 ^ blocks <= D)%nat ->
    (forall i, shape (rand i) = (B, ext, D, D) /\ twf (rand i)) ->
    exists st', train_all St ca _ fwd learn rst mode n k rand st = Ok st' /\
      hnet_wf ext blocks (halt_outputs mode) (snd (snd st')) /\ fst (snd st') = (k + fst (snd st))%nat.
  Proof.
    induction k as [|k IH]; intros rand st Hm Hw HD HR; cbn [train_all]; [eauto|].
    destruct (HR 0%nat) as [Sr Tr]. destruct (train_once_total n st (rand 0%nat) Hm Hw HD Sr Tr) as (st1 & E & H1 & N1). rewrite E. cbn [bind].
    destruct (IH (fun i => rand (S i)) st1 Hm H1 HD (fun i => HR (S i))) as (st' & E' & H' & N'). exists st'.
    split; [exact E'|]. split; [exact H'|]. rewrite N', N1. lia.
  Qed.

  Lemma step_total n s k w rand : (mode <= 2)%nat -> hnet_wf ext blocks (halt_outputs mode) w -> (2 ^ blocks <= D)%nat ->
    (forall i, shape (rand i) = (B, ext, D, D) /\ twf (rand i)) ->
    exists s' w' pred target reward active,
      halting_step St ca _ fwd learn rst mode n s (Some (k, w)) rand = Ok (s', ((8 + k)%nat, w'), pred, target, reward, active) /\
      hnet_wf ext blocks (halt_outputs mode) w' /\ List.length pred = (B * halt_outputs mode)%nat /\ Forall (fun v => 0 < v < 1) pred.
  Proof.
    intros Hm Hw HD HR. unfold halting_step.
    destruct (train_all_total n train_steps rand (s, (k, w)) Hm Hw HD HR) as ((s1 & k1 & w1) & E & H1 & N1). cbn [fst snd] in H1, N1. rewrite E. cbn [bind].
    destruct (HR train_steps) as [Sr Tr]. unfold evaluate. cbn [fst snd].
    destruct (run_total bigbang_steps s1 (rand train_steps) Sr Tr) as (s2 & u2 & E2 & S2 & T2). rewrite E2. cbn [bind fst snd].
    destruct (fwd_total false (k1, w1) u2 H1 HD S2 T2) as (p & Ep & Lp & Fp). rewrite Ep. cbn [bind].
    destruct (break_total n s2 u2 S2 T2) as (s3 & u3 & E3 & S3 & T3). rewrite E3. cbn [bind fst snd].
    destruct (dgrid_total s3 u3 S3 T3) as (s4 & d & E4 & S4 & T4). rewrite E4. cbn [bind fst snd].
    destruct (eval_targets_total mode u3 d S3 S4) as (t & Et & Lt). rewrite Et. cbn [bind].
    assert (LL : List.length p = List.length t) by (rewrite Lp, Lt, modes_agree by assumption; reflexivity).
    rewrite bce_ok by assumption. cbn [bind].
    assert (NE : (0 < List.length p)%nat) by (rewrite Lp; pose proof (halt_outputs_pos mode); nia).
    assert (exists a, get_accuracy p t = Ok a) as [a Ea].
    { unfold get_accuracy. rewrite LL, Nat.eqb_refl. cbn [guard bind]. destruct p as [|p0 p]; [cbn [List.length] in NE; lia|].
      destruct t as [|t0 t]; [discriminate LL|]. cbn [combine map lmean]. eauto. }
    rewrite Ea. cbn [bind].
    assert (exists m, lmean t = Ok m) as [m Em].
    { destruct t as [|t0 t]; [cbn [List.length] in LL; lia|]. cbn [lmean]. eauto. }
    rewrite Em. cbn [bind]. do 6 eexists. split; [rewrite N1; reflexivity|]. auto.
  Qed.

  Lemma step_bad_mode n s k w rand : (2 < mode)%nat -> hnet_wf ext blocks (halt_outputs mode) w -> (2 ^ blocks <= D)%nat ->
    (forall i, shape (rand i) = (B, ext, D, D) /\ twf (rand i)) ->
    halting_step St ca _ fwd learn rst mode n s (Some (k, w)) rand = Err ValueError.
  Proof.
    intros Hm Hw HD HR. unfold halting_step, train_steps. cbn [train_all]. destruct (HR 0%nat) as [Sr Tr]. unfold train_once. cbn [fst snd].
    destruct (run_total bigbang_steps (rst s) (rand 0%nat) Sr Tr) as (s1 & u1 & E1 & S1 & T1). rewrite E1. cbn [bind fst snd].
    destruct (fwd_total true (k, w) u1 Hw HD S1 T1) as (p & Ep & Lp & Fp). rewrite Ep. cbn [bind].
    destruct (while_total n s1 u1 S1 T1) as (s2 & u2 & E2 & S2 & T2). rewrite E2. cbn [bind fst snd].
    destruct (dgrid_total s2 u2 S2 T2) as (s3 & d & E3 & S3 & T3). rewrite E3. cbn [bind fst snd].
    destruct (train_targets_total mode u2 d S2 S3) as (t & Et & Lt). rewrite Et. cbn [bind].
    unfold bce_accepts.
    assert (N : Nat.eqb (List.length p) (List.length t) = false).
    { apply Nat.eqb_neq. rewrite Lp, Lt. unfold halt_outputs, columns. destruct (Nat.eqb_spec mode 2); [lia|]. destruct (Nat.ltb_spec mode 2); [lia|]. nia. }
    rewrite N. reflexivity.
  Qed.

  Lemma step_small n s k w rand : hnet_wf ext blocks (halt_outputs mode) w -> (D < 2 ^ blocks)%nat ->
    (forall i, shape (rand i) = (B, ext, D, D) /\ twf (rand i)) ->
    halting_step St ca _ fwd learn rst mode n s (Some (k, w)) rand = Err RuntimeError.
  Proof.
    intros Hw HD HR. unfold halting_step, train_steps. cbn [train_all]. destruct (HR 0%nat) as [Sr Tr]. unfold train_once. cbn [fst snd].
    destruct (run_total bigbang_steps (rst s) (rand 0%nat) Sr Tr) as (s1 & u1 & E1 & S1 & T1). rewrite E1. cbn [bind fst snd].
    unfold halt_net_forward. cbn [fst snd]. rewrite (forward_err ext blocks (halt_outputs mode)); [reflexivity|assumption|].
    unfold shape in S1. apply pair_equal_spec in S1 as [S1 A4]. intros (_ & _ & A). lia.
  Qed.
End Step.
