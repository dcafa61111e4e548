(** Proofs about the value of the entropies and of the autocorrelation. *)
From Coq Require Import Reals Lra Lia List Arith ZArith Bool.
From Verif Require Import Base Tensor MCommon PTensor PKern MWrap SWrap PWrap MAnalyze SAnalyze PAnalyze PAnalyzeX.
Import ListNotations.
Open Scope R_scope.

(** ** The image *)

Lemma lmax_shift (l : list R) lo : l <> [] -> lmax (map (fun x => x - lo) l) = lmax l - lo.
Proof.
  intros Hl. assert (Hm : map (fun x => x - lo) l <> []) by (destruct l; [congruence|simpl; congruence]).
  apply Rle_antisym.
  - pose proof (lmax_in _ Hm) as H. apply in_map_iff in H as (x & Ex & Hx). rewrite <- Ex.
    pose proof (lmax_ge _ _ Hx). lra.
  - apply lmax_ge. apply in_map_iff. exists (lmax l). split; auto. apply lmax_in; auto.
Qed.

Lemma least_lmin g : cells g <> [] -> least_entry g (lmin (cells g)).
Proof.
  intros H. split.
  - pose proof (lmin_in _ H) as Hi. apply in_cells in Hi as (i & j & Hi & Hj & E). exists i, j. auto.
  - intros i j Hi Hj. apply lmin_le. apply in_cells. exists i, j. auto.
Qed.

Lemma largest_lmax g : cells g <> [] -> largest_entry g (lmax (cells g)).
Proof.
  intros H. split.
  - pose proof (lmax_in _ H) as Hi. apply in_cells in Hi as (i & j & Hi & Hj & E). exists i, j. auto.
  - intros i j Hi Hj. apply lmax_ge. apply in_cells. exists i, j. auto.
Qed.

Lemma least_unique g a b : least_entry g a -> least_entry g b -> a = b.
Proof.
  intros [(i & j & Hi & Hj & <-) H1] [(i' & j' & Hi' & Hj' & <-) H2]. apply Rle_antisym; auto.
Qed.

Lemma largest_unique g a b : largest_entry g a -> largest_entry g b -> a = b.
Proof.
  intros [(i & j & Hi & Hj & <-) H1] [(i' & j' & Hi' & Hj' & <-) H2]. apply Rle_antisym; auto.
Qed.

Lemma image_stretched slack g img : 0 <= slack -> uint8_image slack g = Ok img -> stretched slack g img.
Proof.
  intros Hs E. pose proof (uint8_image_inv slack g img Hs E) as (H1 & H2 & H3 & H4 & _).
  unfold uint8_image in E. destruct (cells g) as [|x0 l0] eqn:Ec; [discriminate|].
  assert (Hne : cells g <> []) by (rewrite Ec; congruence). rewrite <- Ec in *. clear x0 l0 Ec.
  split; auto. split; auto. exists (lmin (cells g)), (lmax (cells g)).
  pose proof (least_lmin g Hne) as HL. pose proof (largest_lmax g Hne) as HM.
  rewrite lmax_shift in E by auto. set (lo := lmin (cells g)) in *. set (hi := lmax (cells g)) in *.
  destruct (Req_EM_T (hi - lo + slack) 0) as [|Hd]; [discriminate|]. apply Ok_inj in E as <-.
  assert (Hr : lo <= hi).
  { destruct HL as [(i & j & Hi & Hj & E1) _]. destruct HM as [_ HM]. rewrite <- E1. auto. }
  assert (Hd0 : 0 < hi - lo + slack) by lra.
  split; auto. split; auto. split; auto. intros i j Hi Hj. cbn [amap av].
  replace (255 * (av g i j - lo) / (hi - lo + slack)) with (255 * ((av g i j - lo) / (hi - lo + slack))) by (field; lra).
  set (y := 255 * _). assert (Hy : 0 <= y).
  { unfold y. apply Rmult_le_pos; [lra|]. apply Rmult_le_pos; [|left; apply Rinv_0_lt_compat; auto].
    destruct HL as [_ HL]. specialize (HL i j Hi Hj). lra. }
  unfold to_uint8. pose proof (Int_part_nonneg y Hy). rewrite INR_IZR_INZ, Z2Nat.id by auto.
  destruct (base_Int_part y). lra.
Qed.

Lemma floor_unique (a b : nat) x : INR a <= x < INR a + 1 -> INR b <= x < INR b + 1 -> a = b.
Proof.
  intros H1 H2. assert (INR a < INR (S b)) by (rewrite S_INR; lra). assert (INR b < INR (S a)) by (rewrite S_INR; lra).
  apply INR_lt in H. apply INR_lt in H0. lia.
Qed.

(** Images are determined by what they stretch. *)
Lemma stretched_unique slack g img img' : stretched slack g img -> stretched slack g img' -> same_arr img img'.
Proof.
  intros (A1 & A2 & lo & hi & L1 & L2 & D & V) (A1' & A2' & lo' & hi' & L1' & L2' & D' & V').
  pose proof (least_unique _ _ _ L1 L1'). pose proof (largest_unique _ _ _ L2 L2'). subst lo' hi'.
  split; [congruence|]. split; [congruence|]. intros i j Hi Hj. rewrite A1 in Hi. rewrite A2 in Hj.
  eapply floor_unique; eauto.
Qed.

(** The converse: whatever stretches the grid is the image. *)
Lemma stretched_image slack g img : 0 <= slack -> stretched slack g img ->
  exists img', uint8_image slack g = Ok img' /\ same_arr img' img.
Proof.
  intros Hs H. pose proof H as (A1 & A2 & lo & hi & L1 & L2 & D & V).
  assert (exists img', uint8_image slack g = Ok img') as (img' & E).
  { unfold uint8_image. destruct L1 as [(i & j & Hi & Hj & E1) L1].
    assert (Hin : In lo (cells g)) by (apply in_cells; exists i, j; auto).
    destruct (cells g) as [|x0 l0] eqn:Ec; [contradiction|]. assert (Hne : cells g <> []) by (rewrite Ec; congruence).
    rewrite <- Ec in *. rewrite lmax_shift by auto.
    rewrite (least_unique g (lmin (cells g)) lo), (largest_unique g (lmax (cells g)) hi); auto.
    - destruct (Req_EM_T _ 0); [lra|eauto].
    - apply largest_lmax; auto.
    - apply least_lmin; auto.
    - split; auto. exists i, j. auto. }
  exists img'. split; auto. eapply stretched_unique; eauto. apply image_stretched; auto.
Qed.

(** ** The entropy *)

Lemma share_histogram img v : in_bytes img -> histogram img v / rsum 256 (histogram img) = share img v.
Proof.
  intros H. rewrite histogram_total by exact H. rewrite histogram_cells. reflexivity.
Qed.

Lemma entropy_value slack g h : 0 <= slack -> grid_entropy slack g = Ok h ->
  exists img, stretched slack g img /\ h = - rsum 256 (fun v => share img v * log2 (an_eps + share img v)).
Proof.
  intros Hs E. unfold grid_entropy in E. apply bind_ok in E as (img & Ei & E). exists img.
  pose proof (uint8_image_inv slack g img Hs Ei) as (H1 & H2 & H3 & H4 & H5).
  split; [apply image_stretched; auto|]. apply Ok_inj in E as <-. f_equal. apply rsum_ext. intros v _.
  rewrite share_histogram; auto. unfold in_bytes. rewrite H3, H4. auto.
Qed.

Lemma share_ext img img' v : same_arr img img' -> share img v = share img' v.
Proof.
  intros (H1 & H2 & H3). unfold share, ncells. rewrite <- H1, <- H2. f_equal. apply rsum_ext. intros i Hi.
  apply rsum_ext. intros j Hj. rewrite H3 by auto. reflexivity.
Qed.

Lemma entropy_from slack g img : 0 <= slack -> stretched slack g img ->
  grid_entropy slack g = Ok (- rsum 256 (fun v => share img v * log2 (an_eps + share img v))).
Proof.
  intros Hs H. destruct (stretched_image slack g img Hs H) as (img' & E & He).
  pose proof (uint8_image_inv slack g img' Hs E) as (H1 & H2 & H3 & H4 & H5).
  unfold grid_entropy. rewrite E. cbn [bind]. do 2 f_equal. apply rsum_ext. intros v _.
  rewrite share_histogram by (unfold in_bytes; rewrite H3, H4; auto). rewrite (share_ext _ _ v He). reflexivity.
Qed.

(** Positive scaling and shifting of the values does not change the entropy. *)
Lemma entropy_affine g a b : 0 < a -> grid_entropy 0 (amap (fun x => a * x + b) g) = grid_entropy 0 g.
Proof.
  intros Ha. unfold grid_entropy.
  assert (E : match uint8_image 0 (amap (fun x => a * x + b) g), uint8_image 0 g with
              | Ok u, Ok v => same_arr u v | Err e, Err f => e = f | _, _ => False end).
  { set (g' := amap _ g). destruct (uint8_image 0 g) as [img|e] eqn:E1.
    - pose proof (image_stretched 0 g img (Rle_refl 0) E1) as (A1 & A2 & lo & hi & L1 & L2 & D & V).
      assert (Hst : stretched 0 g' img).
      { split; [exact A1|]. split; [exact A2|]. exists (a * lo + b), (a * hi + b). split; [|split; [|split]].
        - destruct L1 as [(i & j & Hi & Hj & Ev) L1]. split; [exists i, j; cbn; rewrite Ev; auto|].
          intros x y Hx Hy. cbn. specialize (L1 x y Hx Hy). nra.
        - destruct L2 as [(i & j & Hi & Hj & Ev) L2]. split; [exists i, j; cbn; rewrite Ev; auto|].
          intros x y Hx Hy. cbn. specialize (L2 x y Hx Hy). nra.
        - nra.
        - intros i j Hi Hj. cbn [g' amap av]. specialize (V i j Hi Hj).
          replace (255 * (a * av g i j + b - (a * lo + b)) / (a * hi + b - (a * lo + b) + 0))
            with (255 * (av g i j - lo) / (hi - lo + 0)) by (field; nra). exact V. }
      destruct (stretched_image 0 g' img (Rle_refl 0) Hst) as (img' & -> & He). exact He.
    - destruct (uint8_image 0 g') as [img|e'] eqn:E2.
      + exfalso. pose proof (image_stretched 0 g' img (Rle_refl 0) E2) as (A1 & A2 & lo & hi & L1 & L2 & D & V).
        assert (H1 : (0 < an g)%nat /\ (0 < am g)%nat) by (apply uint8_image_inv in E2 as (? & ? & _); [auto|lra]).
        destruct (image_plain g (proj1 H1) (proj2 H1)) as [I1 I2].
        destruct (Classical_Prop.classic (constant_grid g)) as [Hc|Hc].
        * destruct L1 as [(i & j & Hi & Hj & Ev) _]. destruct L2 as [(i' & j' & Hi' & Hj' & Ev') _].
          cbn [g' amap an am av] in *. rewrite (Hc i j i' j') in Ev by auto. lra.
        * destruct (I2 Hc) as (img2 & E3). congruence.
      + unfold uint8_image in E1, E2. unfold g' in E2. rewrite cells_amap in E2. destruct (cells g); cbn [map] in E2; [congruence|].
        destruct (Req_EM_T _ 0); [|discriminate]. destruct (Req_EM_T _ 0) in E2; [|discriminate]. congruence. }
  destruct (uint8_image 0 (amap (fun x => a * x + b) g)) as [u|]; destruct (uint8_image 0 g) as [v|]; try contradiction; cbn [bind].
  - apply cells_ext in E. unfold histogram. rewrite E. reflexivity.
  - congruence.
Qed.

(** Two values: the entropy of a coin. *)
Lemma entropy_two g a b k : a < b ->
  (forall i j, (i < an g)%nat -> (j < am g)%nat -> av g i j = a \/ av g i j = b) ->
  k = ncells (an g) (am g) (fun i j => if Req_EM_T (av g i j) b then true else false) ->
  0 < k < INR (an g) * INR (am g) ->
  let p := k / (INR (an g) * INR (am g)) in
  grid_entropy 0 g = Ok (- (p * log2 (an_eps + p) + (1 - p) * log2 (an_eps + (1 - p)))).
Proof.
  intros Hab Hv Hk Hb p. set (N := INR (an g) * INR (am g)) in *.
  set (img := mkArr (an g) (am g) (fun i j => if Req_EM_T (av g i j) b then 255%nat else 0%nat)).
  assert (Hst : stretched 0 g img).
  { split; [reflexivity|]. split; [reflexivity|]. exists a, b. split; [|split; [|split]].
    - split; [|intros i j Hi Hj; destruct (Hv i j Hi Hj) as [-> | ->]; lra].
      destruct (Classical_Prop.classic (exists i j, (i < an g)%nat /\ (j < am g)%nat /\ av g i j = a)) as [|Hn]; auto.
      exfalso. assert (k = N); [|lra]. rewrite Hk. unfold ncells, N.
      rewrite (rsum_ext (an g) _ (fun _ => INR (am g))); [rewrite rsum_const; ring|]. intros i Hi.
      rewrite (rsum_ext (am g) _ (fun _ => 1)); [rewrite rsum_const; ring|]. intros j Hj.
      destruct (Req_EM_T (av g i j) b); [reflexivity|]. exfalso. apply Hn. exists i, j. destruct (Hv i j Hi Hj); [auto|contradiction].
    - split; [|intros i j Hi Hj; destruct (Hv i j Hi Hj) as [-> | ->]; lra].
      destruct (Classical_Prop.classic (exists i j, (i < an g)%nat /\ (j < am g)%nat /\ av g i j = b)) as [|Hn]; auto.
      exfalso. assert (k = 0); [|lra]. rewrite Hk. apply rsum_0. intros i Hi. apply rsum_0. intros j Hj.
      destruct (Req_EM_T (av g i j) b); [|reflexivity]. exfalso. apply Hn. exists i, j. auto.
    - lra.
    - intros i j Hi Hj. cbn [img av]. destruct (Req_EM_T (av g i j) b) as [E|E].
      + rewrite E. replace (255 * (b - a) / (b - a + 0)) with 255 by (field; lra).
        replace (INR 255) with 255 by (rewrite INR_IZR_INZ; reflexivity). lra.
      + destruct (Hv i j Hi Hj) as [E2|]; [|contradiction]. rewrite E2.
        replace (255 * (a - a) / (b - a + 0)) with 0 by (field; lra). cbn [INR]. lra. }
  rewrite (entropy_from 0 g img (Rle_refl 0) Hst). do 2 f_equal.
  assert (S255 : share img 255 = p).
  { unfold share, p. cbn [img an am]. fold N. f_equal. rewrite Hk. apply rsum_ext. intros i _. apply rsum_ext. intros j _.
    cbn [img av]. destruct (Req_EM_T (av g i j) b); reflexivity. }
  assert (S0 : share img 0 = 1 - p).
  { unfold share, p. cbn [img an am]. fold N. replace (1 - k / N) with ((N - k) / N) by (field; lra). f_equal. rewrite Hk. unfold N, ncells.
    replace (INR (an g) * INR (am g)) with (rsum (an g) (fun _ => INR (am g))) by (rewrite rsum_const; ring).
    rewrite <- rsum_minus. apply rsum_ext. intros i _.
    replace (INR (am g)) with (rsum (am g) (fun _ => 1)) by (rewrite rsum_const; ring).
    rewrite <- rsum_minus. apply rsum_ext. intros j _. cbn [img av]. destruct (Req_EM_T (av g i j) b); cbn [Nat.eqb]; lra. }
  assert (Sv : forall v, v <> 0%nat -> v <> 255%nat -> share img v = 0).
  { intros v H0 H1. unfold share. replace (ncells _ _ _) with 0; [unfold Rdiv; ring|]. symmetry.
    apply rsum_0. intros i _. apply rsum_0. intros j _. cbn [img av].
    destruct (Req_EM_T (av g i j) b); destruct (Nat.eqb_spec 0 v), (Nat.eqb_spec 255 v); try congruence; lia || reflexivity. }
  assert (Hr : forall f, rsum 256 f = rsum 255 f + f 255%nat) by reflexivity. rewrite Hr, S255. rewrite (rsum_single 255 0).
  - rewrite S0. ring.
  - lia.
  - intros i Hi Hne. rewrite Sv by lia. ring.
Qed.

(** ** Conditional entropy *)

(** The image whose values are paired with those of the image itself. *)
Lemma conditional_value g d h : conditional_entropy g d = Ok h ->
  exists img dx dy, stretched 0 g img /\
    (d = 0 /\ dx = -1 /\ dy = 0 \/ d = 1 /\ dx = 0 /\ dy = 1 \/ d = 2 /\ dx = 1 /\ dy = 0 \/ d = 3 /\ dx = 0 /\ dy = -1)%Z /\
    let table ii jj := ncells (an g) (am g) (fun i j =>
      Bool.eqb (Nat.eqb (av img i j) ii) (Nat.eqb (av img (wrap (an g) i dx) (wrap (am g) j dy)) jj)) in
    let column jj := rsum 256 (fun ii => table ii jj) in
    let total := rsum 256 column in
    h = - rsum 256 (fun ii => rsum 256 (fun jj => table ii jj / total * log2 (an_eps + table ii jj / column jj))).
Proof.
  unfold conditional_entropy. intros E. apply bind_ok in E as (s & Es & E). apply bind_ok in E as (img & Ei & E).
  apply bind_ok in E as (sh & Esh & E). apply Ok_inj in E as <-.
  pose proof (image_stretched 0 g img (Rle_refl 0) Ei) as Hst.
  pose proof (uint8_image_inv 0 g img (Rle_refl 0) Ei) as (H1 & H2 & H3 & H4 & H5).
  pose proof (direction_small d s Es) as [D0 D1].
  destruct (shift_ok img (fst s) (snd s)) as (q & Eq & Q1 & Q2 & Q3); try lia. rewrite Eq in Esh. apply Ok_inj in Esh as <-.
  exists img, (fst s), (snd s). split; auto. split.
  { clear -Es. unfold direction_shift in Es.
    destruct d as [|[[|[]|]|[]|]|]; try discriminate; apply Ok_inj in Es as <-; cbn [fst snd]; lia. }
  cbv beta zeta. set (table := fun ii jj => ncells (an g) (am g) (fun i j =>
      Bool.eqb (Nat.eqb (av img i j) ii) (Nat.eqb (av img (wrap (an g) i (fst s)) (wrap (am g) j (snd s))) jj))).
  change (table_entropy (joint_table img q) = - rsum 256 (fun ii => rsum 256 (fun jj =>
    table ii jj / rsum 256 (fun j => rsum 256 (fun i => table i j)) * log2 (an_eps + table ii jj / rsum 256 (fun i => table i jj))))).
  unfold table_entropy. cbv zeta.
  assert (Et : forall ii jj, joint_table img q ii jj = table ii jj).
  { intros. rewrite joint_table_eq by auto. unfold table. rewrite H3, H4. unfold ncells. apply rsum_ext. intros i Hi.
    apply rsum_ext. intros j Hj. rewrite Q3, H3, H4. reflexivity. }
  f_equal. apply rsum_ext. intros ii _. apply rsum_ext. intros jj _. rewrite Et. f_equal; [f_equal|].
  - rewrite rsum_swap. apply rsum_ext. intros a _. apply rsum_ext. intros b _. apply Et.
  - f_equal. f_equal. f_equal. apply rsum_ext. intros; apply Et.
Qed.

Lemma conditional_direction g d : ~ (0 <= d <= 3)%Z -> conditional_entropy g d = Err UnboundLocalError.
Proof.
  intros H. unfold conditional_entropy, direction_shift.
  destruct d as [|[[p|p|]|[p|p|]|]|p]; try reflexivity; exfalso; lia.
Qed.

Lemma multi_value g h : multiconditional_entropy g = Ok h ->
  exists a b c d, conditional_entropy g 0 = Ok a /\ conditional_entropy g 1 = Ok b /\
    conditional_entropy g 2 = Ok c /\ conditional_entropy g 3 = Ok d /\ h = (a + b + c + d) / 4.
Proof.
  unfold multiconditional_entropy. cbn [multi_loop]. intros E.
  apply bind_ok in E as (a & Ea & E). apply bind_ok in E as (b & Eb & E).
  apply bind_ok in E as (c & Ec & E). apply bind_ok in E as (d & Ed & E). apply Ok_inj in E as <-.
  exists a, b, c, d. repeat (split; auto). field.
Qed.

(** ** Autocorrelation of a grid with itself *)

Lemma dot_self l : lsum (map (fun p => fst p * snd p) (combine l l)) = sumsq l.
Proof.
  induction l as [|x l IH]; [reflexivity|]. cbn [combine map fst snd]. rewrite lsum_cons, sumsq_cons, IH. ring.
Qed.

Lemma self_value g a : autocorrelate g g = Ok a -> exists s, lstd g = Ok s /\ 0 <= s /\
  a = (ac_eps ^ 2 + (1 - / INR (length g)) * s ^ 2) / (ac_eps + s) ^ 2.
Proof.
  unfold autocorrelate. intros E. apply bind_ok in E as (u & Hu & E).
  apply bind_ok in E as (x & Ex & E). rewrite Ex in E. cbn [bind] in E. apply Ok_inj in E as <-.
  unfold ac_norm in Ex. apply bind_ok in Ex as (m & Em & Ex). apply bind_ok in Ex as (s & Es & Ex).
  apply Ok_inj in Ex as <-. exists s. split; auto.
  unfold lstd in Es. rewrite Em in Es. cbn [bind] in Es.
  destruct (Nat.leb_spec (length g) 1) as [|Hl]; [discriminate|]. apply Ok_inj in Es.
  apply lmean_inv in Em as (_ & Hp & Em).
  set (v := lsum (map (fun x => (x - m) ^ 2) g)) in *.
  assert (Hv : 0 <= v).
  { unfold v. clear. induction g as [|x l IH]; cbn [map]; [rewrite lsum_nil; lra|]. rewrite lsum_cons.
    pose proof (pow2_ge_0 (x - m)). lra. }
  assert (Hn1 : 0 < INR (length g - 1)) by (apply lt_0_INR; lia).
  assert (Hs0 : 0 <= s) by (rewrite <- Es; apply sqrt_pos).
  assert (Hs2 : s ^ 2 * INR (length g - 1) = v).
  { rewrite <- Es. replace (sqrt (v / INR (length g - 1)) ^ 2) with (sqrt (v / INR (length g - 1)) * sqrt (v / INR (length g - 1))) by ring.
    rewrite sqrt_sqrt; [field; lra|]. apply Rmult_le_pos; auto. left. apply Rinv_0_lt_compat; auto. }
  assert (He : 0 < ac_eps) by (unfold ac_eps; lra). split; auto.
  rewrite dot_self, sumsq_div by lra. rewrite sum_shifted. fold v.
  assert (Hm : lsum g - INR (length g) * m = 0).
  { rewrite Em. field. lra. }
  rewrite Hm, <- Hs2. rewrite minus_INR by lia. cbn [INR]. field. lra.
Qed.

Lemma lsum_repeat c n : lsum (repeat c n) = INR n * c.
Proof. induction n; [cbn; ring|]. cbn [repeat]. rewrite lsum_cons, IHn, S_INR. ring. Qed.

Lemma constant_auto c n : (2 <= n)%nat -> autocorrelate (repeat c n) (repeat c n) = Ok 1.
Proof.
  intros Hn. unfold autocorrelate, ac_norm, lstd.
  assert (Em : lmean (repeat c n) = Ok c).
  { assert (Hp : 0 < INR n) by (apply lt_0_INR; lia).
    unfold lmean. destruct (repeat c n) eqn:E; [destruct n; [lia|discriminate]|]. rewrite <- E.
    rewrite lsum_repeat, repeat_length. f_equal. field. lra. }
  rewrite Em, !repeat_length, Nat.eqb_refl. cbn [guard bind]. destruct (Nat.leb_spec n 1); [lia|]. cbn [bind].
  set (v := lsum (map (fun x => (x - c) ^ 2) (repeat c n))).
  assert (Ev : v = 0).
  { unfold v. clear. induction n; [reflexivity|]. cbn [repeat map]. rewrite lsum_cons, IHn. ring. }
  rewrite Ev. replace (0 / INR (n - 1)) with 0 by (unfold Rdiv; ring). rewrite sqrt_0. f_equal.
  assert (He : 0 < ac_eps) by (unfold ac_eps; lra).
  rewrite dot_self. rewrite sumsq_div by lra. rewrite sum_shifted. fold v. rewrite Ev, lsum_repeat, repeat_length.
  assert (Hp : 0 < INR n) by (apply lt_0_INR; lia). field. lra.
Qed.

Lemma auto_errors g1 g2 :
  (length g1 <> length g2 -> autocorrelate g1 g2 = Err RuntimeError) /\
  (length g1 = length g2 -> (length g1 < 2)%nat -> autocorrelate g1 g2 = Err NonFinite) /\
  (length g1 = length g2 -> (2 <= length g1)%nat -> exists a, autocorrelate g1 g2 = Ok a).
Proof.
  unfold autocorrelate. split; [|split].
  - intros H. apply Nat.eqb_neq in H. rewrite H. reflexivity.
  - intros H Hl. rewrite <- H, Nat.eqb_refl. cbn [guard bind]. unfold ac_norm, lstd.
    destruct g1 as [|x [|y g1]]; [reflexivity|reflexivity|cbn [length] in Hl; lia].
  - intros H Hl. rewrite <- H, Nat.eqb_refl. cbn [guard bind].
    assert (Hn : forall l, (2 <= length l)%nat -> exists a, ac_norm l = Ok a).
    { intros l Hl2. unfold ac_norm, lstd. destruct l as [|x [|y l]]; [cbn in Hl2; lia|cbn in Hl2; lia|].
      unfold lmean. cbn [bind]. destruct (Nat.leb_spec (length (x :: y :: l)) 1); [cbn [length] in *; lia|]. cbn [bind]. eauto. }
    destruct (Hn g1 Hl) as (a & ->). destruct (Hn g2) as (b & ->); [lia|]. cbn [bind]. eauto.
Qed.

(** ** The analysis goes through *)

Lemma collect_ok {A} (l : list (res A)) : (forall x, In x l -> exists a, x = Ok a) -> exists r, collect l = Ok r.
Proof.
  induction l as [|x l IH]; intros H; [exists []; reflexivity|]. cbn [collect].
  destruct (H x) as (a & ->); [left; auto|]. cbn [bind]. destruct IH as (r & ->); [intros; apply H; right; auto|]. cbn [bind]. eauto.
Qed.

Lemma collect_length {A} (l : list (res A)) : forall r, collect l = Ok r -> length r = length l.
Proof. intros r E. apply (collect_forall (fun _ => True)) in E as [_ E]; auto. Qed.

Lemma flat_map_nonempty {A B} (f : A -> list B) l a : In a l -> f a <> [] -> flat_map f l <> [].
Proof.
  intros Ha Hf. destruct (f a) as [|b t] eqn:E; [congruence|]. intros E2.
  assert (Hb : In b (flat_map f l)) by (apply in_flat_map; exists a; split; auto; rewrite E; left; auto). rewrite E2 in Hb. contradiction.
Qed.

Lemma spatial_all_ok w t : inhabited t -> exists r, spatial_all w t = Ok r /\ r <> [].
Proof.
  unfold inhabited. intros H. assert (H1 : (0 < tB t /\ 0 < tC t /\ 0 < tH t /\ 0 < tW t)%nat) by nia.
  destruct H1 as (H1 & H2 & H3 & H4). unfold spatial_all.
  match goal with |- exists r, collect ?l = _ /\ _ => assert (Hl : l <> []) end.
  { apply flat_map_nonempty with 0%nat; [apply in_seq; lia|]. apply flat_map_nonempty with 0%nat; [apply in_seq; lia|].
    apply flat_map_nonempty with 0%nat; [apply in_seq; lia|]. destruct (tW t); [lia|cbn; congruence]. }
  match goal with |- exists r, collect ?l = _ /\ _ => set (L := l) in * end.
  assert (Hc : exists r, collect L = Ok r).
  { apply collect_ok. intros x Hx. unfold L in Hx. apply in_flat_map in Hx as (b & _ & Hx). apply in_flat_map in Hx as (c & _ & Hx).
    apply in_flat_map in Hx as (i & Hi & Hx). apply in_map_iff in Hx as (j & <- & Hj). apply in_seq in Hi. apply in_seq in Hj.
    destruct (spatial_wrapped_ok w (plane t b c) i j) as (h & E2 & _); try (cbn [plane an am]; lia). eauto. }
  destruct Hc as (r & E). exists r. split; auto. apply collect_length in E. destruct r; [|congruence]. destruct L; [congruence|discriminate].
Qed.

Lemma lmean_ok l : l <> [] -> exists m, lmean l = Ok m.
Proof. destruct l; [congruence|]. unfold lmean. eauto. Qed.

Lemma measure_ok w grid old : twf grid -> twf old -> shape grid = shape old -> inhabited grid ->
  (2 <= tB grid * tC grid * tH grid * tW grid)%nat -> exists r, measure_of w grid old = Ok r.
Proof.
  intros Hg Ho Hs Hi H2. unfold measure_of, mean_targets. pose proof Hi as Hp. unfold inhabited in Hp.
  destruct (Nat.eqb_spec (tC grid * tH grid * tW grid) 0) as [E|_]; [nia|]. cbn [negb guard bind].
  assert (HB : (0 < tB grid)%nat) by nia.
  destruct (auto_table_ok grid old Hg Ho Hs H2) as (tb & -> & Wt & St & _). cbn [bind].
  assert (Ht : exists s, stats_of (tdata tb) = Ok s).
  { unfold stats_of. destruct (tdata tb) as [|x l] eqn:Ed; [|cbn; eauto]. unfold shape in St. repeat rewrite pair_equal_spec in St. destruct St as [[[S1 S2] S3] S4]. unfold twf in Wt. rewrite Ed, S1, S2, S3, S4 in Wt. cbn [length] in Wt. assert (0 < tC grid)%nat by nia. assert (0 < tC grid * tC grid)%nat by (apply Nat.mul_pos_pos; assumption). lia. }
  destruct Ht as (s & ->). cbn [bind]. assert (Hne : forall f : nat -> R, map f (seq 0 (tB grid)) <> []) by (intros; destruct (tB grid); [lia|cbn; congruence]).
  destruct (lmean_ok _ (Hne (fun b => gt_ind 0 (sample_mean grid b)))) as (m & ->). cbn [bind].
  destruct (lmean_ok _ (Hne (fun b => gt_ind 0 (border_sum grid b)))) as (f & ->). cbn [bind].
  destruct (spatial_all_ok w grid Hi) as (r & -> & Hr). cbn [bind]. rewrite (lmean_of r Hr), (pstd_of r Hr). cbn [bind]. eauto.
Qed.

Lemma analyze_total St (ca : St -> tensor -> res (St * tensor)) w B C H W :
  (2 <= B * C * H * W)%nat ->
  (forall s u, shape u = (B, C, H, W) -> twf u -> exists s' u', ca s u = Ok (s', u') /\ shape u' = (B, C, H, W) /\ twf u') ->
  forall n s g, shape g = (B, C, H, W) -> twf g -> exists r, analyze_from St ca w n s g = Ok r.
Proof.
  intros H2 Hca n s g Hs Hw. unfold analyze_from. generalize (repeat (-1)%Z (tB g)) as last. generalize 0%Z as step.
  revert s g Hs Hw. induction n; intros s g Hs Hw step last; cbn [universe_loop]; [eauto|].
  destruct (Hca s g Hs Hw) as (s' & u' & -> & Hs' & Hw'). cbn [bind fst snd].
  destruct (shape4_inv _ _ _ _ _ Hs') as (E1 & E2 & E3 & E4).
  destruct (measure_ok w u' g) as (r & ->); auto; [congruence|unfold inhabited; rewrite E1, E2, E3, E4; lia|rewrite E1, E2, E3, E4; exact H2|].
  cbn [bind].
  destruct (lmean_ok (tdata u')) as (m & Em).
  { unfold twf in Hw'. intros E. rewrite E, E1, E2, E3, E4 in Hw'. cbn [length] in Hw'. lia. }
  unfold tmean. rewrite Em. cbn [bind]. destruct (Req_EM_T m 0); [eauto|].
  destruct (IHn s' u' Hs' Hw' (step + 1)%Z (update_last step last (fst r))) as (rest & ->). cbn [bind]. eauto.
Qed.
