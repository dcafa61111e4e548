(** Proofs about the measures of analyze.py. *)
From Coq Require Import Reals Lra Lia List Arith ZArith Bool.
From Verif Require Import Base Tensor MCommon PTensor PKern MWrap SWrap PWrap MAnalyze SAnalyze.
Import ListNotations.
Open Scope R_scope.

(** ** Arrays *)

Lemma lsum_flat_map {A} (f : A -> list R) l : lsum (flat_map f l) = lsum (map (fun a => lsum (f a)) l).
Proof. induction l; [reflexivity|]. cbn [flat_map map]. rewrite lsum_app, IHl. reflexivity. Qed.

Lemma map_flat_map {A B C} (h : B -> C) (f : A -> list B) l : map h (flat_map f l) = flat_map (fun a => map h (f a)) l.
Proof. induction l; [reflexivity|]. cbn [flat_map]. rewrite map_app, IHl. reflexivity. Qed.

Lemma lsum_cells {A} (h : A -> R) (g : arr A) :
  lsum (map h (cells g)) = rsum (an g) (fun i => rsum (am g) (fun j => h (av g i j))).
Proof.
  unfold cells. rewrite map_flat_map, lsum_flat_map.
  rewrite (map_ext _ (fun i => rsum (am g) (fun j => h (av g i j)))); [apply lsum_map_seq|].
  intros i. rewrite map_map. apply lsum_map_seq.
Qed.

Lemma in_cells {A} (g : arr A) x : In x (cells g) <-> exists i j, (i < an g)%nat /\ (j < am g)%nat /\ x = av g i j.
Proof.
  unfold cells. rewrite in_flat_map. split.
  - intros (i & Hi & Hx). apply in_seq in Hi. apply in_map_iff in Hx as (j & <- & Hj). apply in_seq in Hj.
    exists i, j. repeat split; auto; lia.
  - intros (i & j & Hi & Hj & ->). exists i. split; [apply in_seq; lia|]. apply in_map_iff. exists j. split; auto.
    apply in_seq; lia.
Qed.

Lemma cells_length {A} (g : arr A) : length (cells g) = (an g * am g)%nat.
Proof.
  unfold cells.
  assert (H : forall l : list nat, length (flat_map (fun i => map (av g i) (seq 0 (am g))) l) = (length l * am g)%nat).
  { induction l; [reflexivity|]. cbn [flat_map length]. rewrite app_length, IHl, map_length, seq_length. lia. }
  rewrite H, seq_length. reflexivity.
Qed.

Lemma cells_amap {A B} (f : A -> B) g : cells (amap f g) = map f (cells g).
Proof.
  unfold cells. rewrite map_flat_map. cbn [an am av amap]. apply flat_map_ext. intros i. rewrite map_map. reflexivity.
Qed.

Lemma cells_ext {A} (g h : arr A) : same_arr g h -> cells g = cells h.
Proof.
  intros (H1 & H2 & H3). unfold cells. rewrite <- H1, <- H2.
  assert (H : forall l : list nat, (forall i, In i l -> (i < an g)%nat) ->
    flat_map (fun i => map (av g i) (seq 0 (am g))) l = flat_map (fun i => map (av h i) (seq 0 (am g))) l).
  { induction l; intros Hl; [reflexivity|]. cbn [flat_map]. rewrite IHl by (intros; apply Hl; right; auto). f_equal.
    apply map_seq_ext. intros j Hj. apply H3; auto. apply Hl. left; auto. }
  apply H. intros i Hi. apply in_seq in Hi. lia.
Qed.

Lemma combine_app {A B} (a c : list A) (b d : list B) : length a = length b ->
  combine (a ++ c) (b ++ d) = combine a b ++ combine c d.
Proof. revert b. induction a; intros [|y b] H; simpl in *; try discriminate; auto. f_equal. apply IHa. lia. Qed.

Lemma combine_map_seq {A B} (f : nat -> A) (h : nat -> B) l : combine (map f l) (map h l) = map (fun j => (f j, h j)) l.
Proof. induction l; [reflexivity|]. simpl. f_equal. auto. Qed.

Lemma cells_combine {A B} (g : arr A) (h : arr B) : an h = an g -> am h = am g ->
  combine (cells g) (cells h) = cells (mkArr (an g) (am g) (fun i j => (av g i j, av h i j))).
Proof.
  intros H1 H2. unfold cells. rewrite H1, H2. cbn [an am av].
  generalize (seq 0 (an g)). induction l; [reflexivity|]. cbn [flat_map].
  rewrite combine_app by (rewrite !map_length; reflexivity). rewrite IHl, combine_map_seq. reflexivity.
Qed.

(** ** Shifts *)

Lemma pad_wrap_inv {A} p (g q : arr A) : pad_wrap p g = Ok q ->
  (0 < an g)%nat /\ (0 < am g)%nat /\ an q = (an g + 2 * p)%nat /\ am q = (am g + 2 * p)%nat /\
  forall i j, av q i j = av g (wrap (an g) i (- Z.of_nat p)) (wrap (am g) j (- Z.of_nat p)).
Proof.
  unfold pad_wrap. destruct (Nat.eqb_spec (an g) 0); [discriminate|]. destruct (Nat.eqb_spec (am g) 0); [discriminate|].
  cbn [orb]. intros E. apply Ok_inj in E as <-. cbn [an am av]. repeat split; try lia.
Qed.

Lemma pad_wrap_ok {A} p (g : arr A) : (0 < an g)%nat -> (0 < am g)%nat -> exists q, pad_wrap p g = Ok q.
Proof.
  intros H1 H2. unfold pad_wrap. destruct (Nat.eqb_spec (an g) 0); [lia|]. destruct (Nat.eqb_spec (am g) 0); [lia|].
  cbn [orb]. eauto.
Qed.

Lemma slice_norm_in n x : (0 <= x <= Z.of_nat n)%Z -> slice_norm n x = Z.to_nat x.
Proof. intros H. unfold slice_norm. destruct (Z.ltb_spec x 0); lia. Qed.

Lemma wrap_add n a i s : wrap n (a + i) s = wrap n i (Z.of_nat a + s).
Proof. unfold wrap. f_equal. f_equal. lia. Qed.

Lemma shift_ok {A} (g : arr A) s0 s1 : (0 < an g)%nat -> (0 < am g)%nat -> (-1 <= s0 <= 1)%Z -> (-1 <= s1 <= 1)%Z ->
  exists q, np_shift g s0 s1 = Ok q /\ an q = an g /\ am q = am g /\
  forall i j, av q i j = av g (wrap (an g) i s0) (wrap (am g) j s1).
Proof.
  intros H1 H2 Hs0 Hs1. unfold np_shift. destruct (pad_wrap_ok 1 g H1 H2) as (p & Ep). rewrite Ep. cbn [bind].
  apply pad_wrap_inv in Ep as (_ & _ & E1 & E2 & E3). eexists; split; [reflexivity|].
  unfold slice2. cbn [an am av]. rewrite E1, E2. rewrite !slice_norm_in by lia.
  split; [lia|]. split; [lia|]. intros i j. rewrite E3, !wrap_add.
  do 2 f_equal; lia.
Qed.

Lemma shift_far {A} (g q : arr A) s0 s1 : np_shift g s0 s1 = Ok q ->
  ((2 <= s0 <= Z.of_nat (an g) + 1)%Z -> Z.of_nat (an q) = (Z.of_nat (an g) + 1 - s0)%Z) /\
  ((- Z.of_nat (an g) - 1 <= s0 <= -2)%Z -> an q = 0%nat) /\
  ((2 <= s1 <= Z.of_nat (am g) + 1)%Z -> Z.of_nat (am q) = (Z.of_nat (am g) + 1 - s1)%Z) /\
  ((- Z.of_nat (am g) - 1 <= s1 <= -2)%Z -> am q = 0%nat).
Proof.
  unfold np_shift. intros E. apply bind_ok in E as (p & Ep & E). apply Ok_inj in E as <-.
  apply pad_wrap_inv in Ep as (_ & _ & E1 & E2 & E3). unfold slice2. cbn [an am av]. rewrite E1, E2. unfold slice_norm.
  repeat split; intros H; repeat match goal with |- context [(?a <? ?b)%Z] => destruct (Z.ltb_spec a b) end; lia.
Qed.

Lemma shift_empty {A} (g : arr A) s0 s1 : an g = 0%nat \/ am g = 0%nat -> np_shift g s0 s1 = Err ValueError.
Proof.
  unfold np_shift, pad_wrap. intros [->| ->]; cbn [Nat.eqb orb bind]; [reflexivity|]. rewrite orb_true_r. reflexivity.
Qed.

(** ** Images *)

Lemma Int_part_le x z : x <= IZR z -> (Int_part x <= z)%Z.
Proof. intros H. destruct (base_Int_part x) as [H1 _]. apply le_IZR. lra. Qed.

Lemma Int_part_nonneg x : 0 <= x -> (0 <= Int_part x)%Z.
Proof.
  intros H. destruct (base_Int_part x) as [_ H2]. assert (-1 < Int_part x)%Z; [|lia].
  apply lt_IZR. simpl. lra.
Qed.

Lemma uint8_image_inv slack g img : 0 <= slack -> uint8_image slack g = Ok img ->
  (0 < an g)%nat /\ (0 < am g)%nat /\ an img = an g /\ am img = am g /\
  forall i j, (i < an g)%nat -> (j < am g)%nat -> (av img i j < 256)%nat.
Proof.
  intros Hs E. unfold uint8_image in E. destruct (cells g) as [|x0 l0] eqn:Ec; [discriminate|].
  assert (Hp : (0 < an g * am g)%nat) by (rewrite <- cells_length, Ec; simpl; lia).
  set (l := x0 :: l0) in *. set (lo := lmin l) in *. set (range := lmax (map (fun x => x - lo) l)) in *.
  destruct (Req_EM_T (range + slack) 0) as [|Hn]; [discriminate|]. apply Ok_inj in E as <-.
  split; [nia|]. split; [nia|]. cbn [amap an am av]. split; auto. split; auto. intros i j Hi Hj.
  assert (Hin : In (av g i j) l) by (rewrite <- Ec; apply in_cells; exists i, j; auto).
  assert (H1 : 0 <= av g i j - lo) by (pose proof (lmin_le _ _ Hin); unfold lo; lra).
  assert (H2 : av g i j - lo <= range).
  { unfold range. apply lmax_ge. apply in_map_iff. exists (av g i j). auto. }
  unfold to_uint8. set (y := 255 * ((av g i j - lo) / (range + slack))).
  assert (Hd : 0 < range + slack) by lra.
  assert (Hq : 0 <= (av g i j - lo) / (range + slack) <= 1).
  { split; apply Rmult_le_reg_r with (range + slack); auto; unfold Rdiv; rewrite Rmult_assoc, Rinv_l by lra; lra. }
  assert (Hy : y <= IZR 255) by (unfold y; lra).
  apply Int_part_le in Hy. assert (Hy0 : 0 <= y) by (unfold y; lra). apply Int_part_nonneg in Hy0. lia.
Qed.

Lemma uint8_image_ok slack g : (0 < an g)%nat -> (0 < am g)%nat -> 0 < slack -> exists img, uint8_image slack g = Ok img.
Proof.
  intros H1 H2 Hs. unfold uint8_image. destruct (cells g) as [|x0 l0] eqn:Ec.
  { pose proof (cells_length g) as Hl. rewrite Ec in Hl. simpl in Hl. nia. }
  destruct (Req_EM_T _ 0) as [E|]; [|eauto]. exfalso.
  assert (0 <= lmax (map (fun x => x - lmin (x0 :: l0)) (x0 :: l0))); [|lra].
  eapply Rle_trans; [|apply lmax_ge; apply in_map; apply lmin_in; congruence]. lra.
Qed.

Lemma range_zero g : (0 < an g)%nat -> (0 < am g)%nat ->
  (lmax (map (fun x => x - lmin (cells g)) (cells g)) = 0 <-> constant_grid g).
Proof.
  intros H1 H2. set (lo := lmin (cells g)).
  assert (Hne : cells g <> []).
  { intros E. pose proof (cells_length g) as Hl. rewrite E in Hl. simpl in Hl. nia. }
  split.
  - intros E i j i' j' (Hi & Hj & Hi' & Hj').
    assert (Hv : forall a b, (a < an g)%nat -> (b < am g)%nat -> av g a b = lo).
    { intros a b Ha Hb. assert (Hin : In (av g a b) (cells g)) by (apply in_cells; exists a, b; auto).
      pose proof (lmin_le _ _ Hin). fold lo in H.
      assert (av g a b - lo <= 0) by (rewrite <- E; apply lmax_ge; apply in_map_iff; exists (av g a b); auto). lra. }
    rewrite !Hv; auto.
  - intros Hc. assert (Hlo : In lo (cells g)) by (apply lmin_in; auto).
    apply in_cells in Hlo as (i & j & Hi & Hj & El).
    assert (Hne2 : map (fun x => x - lo) (cells g) <> []) by (destruct (cells g); [congruence|simpl; congruence]).
    pose proof (lmax_in _ Hne2) as Hin. apply in_map_iff in Hin as (x & Ex & Hx).
    apply in_cells in Hx as (i' & j' & Hi' & Hj' & ->). rewrite <- Ex, El, (Hc i' j' i j); auto. lra.
Qed.

Lemma image_plain g : (0 < an g)%nat -> (0 < am g)%nat ->
  (constant_grid g -> uint8_image 0 g = Err NonFinite) /\
  (~ constant_grid g -> exists img, uint8_image 0 g = Ok img).
Proof.
  intros H1 H2. pose proof (range_zero g H1 H2) as Hz. unfold uint8_image.
  destruct (cells g) as [|x0 l0] eqn:Ec.
  { pose proof (cells_length g) as Hl. rewrite Ec in Hl. simpl in Hl. nia. }
  split; intros Hc.
  - destruct (Req_EM_T _ 0) as [|N]; [reflexivity|]. exfalso. apply N. rewrite Rplus_0_r. apply Hz; auto.
  - destruct (Req_EM_T _ 0) as [E|]; [|eauto]. exfalso. apply Hc, Hz. lra.
Qed.

Lemma uint8_image_ext slack g h : same_arr g h ->
  match uint8_image slack g, uint8_image slack h with
  | Ok a, Ok b => same_arr a b
  | Err e, Err f => e = f
  | _, _ => False
  end.
Proof.
  intros Hs. pose proof (cells_ext g h Hs) as Ec. destruct Hs as (H1 & H2 & H3). unfold uint8_image. rewrite <- Ec.
  destruct (cells g); [reflexivity|]. destruct (Req_EM_T _ 0); [reflexivity|].
  unfold same_arr. cbn [amap an am av]. repeat split; auto. intros. rewrite H3; auto.
Qed.

(** ** Histograms *)

Lemma histogram_cells img v : histogram img v = ncells (an img) (am img) (fun i j => Nat.eqb (av img i j) v).
Proof. unfold histogram, count_of, ncells. rewrite lsum_cells. reflexivity. Qed.

Lemma one_hot K x : (x < K)%nat -> rsum K (fun v => if Nat.eqb x v then 1 else 0) = 1.
Proof.
  intros H. rewrite (rsum_single K x); auto.
  - rewrite Nat.eqb_refl. reflexivity.
  - intros i Hi Hne. destruct (Nat.eqb_spec x i); [congruence|reflexivity].
Qed.

Lemma histogram_total img : (forall i j, (i < an img)%nat -> (j < am img)%nat -> (av img i j < 256)%nat) ->
  rsum 256 (histogram img) = INR (an img) * INR (am img).
Proof.
  intros Hv. rewrite (rsum_ext 256 _ (fun v => rsum (an img) (fun i => rsum (am img) (fun j => if Nat.eqb (av img i j) v then 1 else 0))))
    by (intros; apply histogram_cells).
  rewrite rsum_swap. rewrite (rsum_ext (an img) _ (fun _ => INR (am img))); [apply rsum_const|].
  intros i Hi. rewrite rsum_swap. rewrite (rsum_ext (am img) _ (fun _ => 1)); [rewrite rsum_const; ring|].
  intros j Hj. apply one_hot. auto.
Qed.

Lemma ncells_nonneg n m p : 0 <= ncells n m p.
Proof. unfold ncells. apply rsum_nonneg; intros; apply rsum_nonneg; intros. destruct (p i i0); lra. Qed.

(** ** Entropy bounds *)

Lemma an_eps_pos : 0 < an_eps.
Proof. unfold an_eps. lra. Qed.

Lemma ln2_pos : 0 < ln 2.
Proof. rewrite <- ln_1. apply ln_increasing; lra. Qed.

Lemma ln_le_sub1 x : 0 < x -> ln x <= x - 1.
Proof.
  intros Hx. apply Rnot_lt_le. intros L. apply exp_increasing in L. rewrite exp_ln in L by auto.
  pose proof (exp_ineq1_le (x - 1)). lra.
Qed.

Lemma ln_256 : ln 256 = 8 * ln 2.
Proof.
  replace 256 with (2 ^ 8) by (simpl; lra). rewrite ln_pow by lra. simpl INR. lra.
Qed.

Lemma entropy_terms q : (0 < 256)%nat -> (forall v, (v < 256)%nat -> 0 <= q v) -> rsum 256 q = 1 ->
  - log2 (1 + an_eps) <= - rsum 256 (fun v => q v * log2 (an_eps + q v)) <= 8.
Proof.
  intros _ Hq H1. pose proof an_eps_pos as He. pose proof ln2_pos as H2.
  assert (Hle : forall v, (v < 256)%nat -> q v <= 1).
  { intros v Hv. rewrite <- H1. apply rsum_term_le; auto. }
  unfold log2. split.
  - apply Ropp_le_contravar.
    replace (ln (1 + an_eps) / ln 2) with (rsum 256 (fun v => q v * (ln (1 + an_eps) / ln 2)))
      by (rewrite rsum_scal_r, H1; ring).
    apply rsum_le. intros v Hv. apply Rmult_le_compat_l; auto. unfold Rdiv. apply Rmult_le_compat_r.
    + left; apply Rinv_0_lt_compat; auto.
    + specialize (Hle v Hv). specialize (Hq v Hv). destruct (Req_dec (an_eps + q v) (1 + an_eps)) as [->|N]; [lra|].
      left. apply ln_increasing; lra.
  - assert (G : 0 <= rsum 256 (fun v => q v * (ln (an_eps + q v) + ln 256))).
    { assert (G2 : rsum 256 (fun v => q v - 1 / 256) <= rsum 256 (fun v => q v * (ln (an_eps + q v) + ln 256))).
      { apply rsum_le. intros v Hv. specialize (Hq v Hv).
        assert (Hp : 0 < an_eps + q v) by lra.
        assert (L : ln (/ (256 * (an_eps + q v))) <= / (256 * (an_eps + q v)) - 1).
        { apply ln_le_sub1. apply Rinv_0_lt_compat. lra. }
        rewrite ln_Rinv, ln_mult in L by lra.
        assert (L2 : 1 - / (256 * (an_eps + q v)) <= ln (an_eps + q v) + ln 256) by lra.
        apply Rle_trans with (q v * (1 - / (256 * (an_eps + q v)))); [|apply Rmult_le_compat_l; auto].
        assert (L3 : q v * / (256 * (an_eps + q v)) <= 1 / 256).
        { apply Rmult_le_reg_r with (256 * (an_eps + q v)); [lra|]. rewrite Rmult_assoc, Rinv_l by lra. lra. }
        lra. }
      rewrite rsum_minus, H1, rsum_const in G2. replace (INR 256) with 256 in G2 by (simpl; lra). lra. }
    rewrite (rsum_ext 256 _ (fun v => q v * ln (an_eps + q v) + q v * ln 256)) in G by (intros; ring).
    rewrite rsum_plus, rsum_scal_r, H1, ln_256 in G.
    rewrite (rsum_ext 256 _ (fun v => q v * ln (an_eps + q v) * / ln 2)) by (intros; unfold Rdiv; ring).
    rewrite rsum_scal_r. apply Rmult_le_reg_r with (ln 2); auto.
    replace (- (rsum 256 (fun v => q v * ln (an_eps + q v)) * / ln 2) * ln 2) with (- rsum 256 (fun v => q v * ln (an_eps + q v))).
    + lra.
    + field. lra.
Qed.

Lemma normalise p K : 0 < rsum K p -> rsum K (fun v => p v / rsum K p) = 1.
Proof. intros H. unfold Rdiv. rewrite rsum_scal_r. apply Rinv_r. lra. Qed.

Lemma entropy_bounds slack g h : 0 <= slack -> grid_entropy slack g = Ok h -> - log2 (1 + an_eps) <= h <= 8.
Proof.
  intros Hs E. unfold grid_entropy in E. apply bind_ok in E as (img & Ei & E).
  apply uint8_image_inv in Ei as (H1 & H2 & H3 & H4 & H5); auto.
  assert (Ht : rsum 256 (histogram img) = INR (an img) * INR (am img)).
  { apply histogram_total. rewrite H3, H4. auto. }
  assert (Hp : 0 < rsum 256 (histogram img)).
  { rewrite Ht, H3, H4. apply Rmult_lt_0_compat; apply lt_0_INR; auto. }
  apply Ok_inj in E as <-. apply (entropy_terms (fun v => histogram img v / rsum 256 (histogram img))).
  - lia.
  - intros v Hv. apply Rmult_le_pos; [rewrite histogram_cells; apply ncells_nonneg|left; apply Rinv_0_lt_compat; auto].
  - apply normalise; auto.
Qed.

Lemma grid_entropy_ext slack g h : same_arr g h -> grid_entropy slack g = grid_entropy slack h.
Proof.
  intros Hs. pose proof (uint8_image_ext slack g h Hs) as Hx. unfold grid_entropy.
  destruct (uint8_image slack g) as [a|]; destruct (uint8_image slack h) as [b|]; try contradiction; cbn [bind].
  - apply cells_ext in Hx. unfold histogram. rewrite Hx. reflexivity.
  - congruence.
Qed.

Lemma constant_entropy g : (0 < an g)%nat -> (0 < am g)%nat -> constant_grid g ->
  grid_entropy an_eps g = Ok (- log2 (1 + an_eps)).
Proof.
  intros H1 H2 Hc. pose proof (proj2 (range_zero g H1 H2) Hc) as Hr. unfold grid_entropy, uint8_image.
  destruct (cells g) as [|x0 l0] eqn:Ec.
  { pose proof (cells_length g) as Hl. rewrite Ec in Hl. simpl in Hl. nia. }
  pose proof an_eps_pos. rewrite Hr. destruct (Req_EM_T (0 + an_eps) 0); [lra|]. cbn [bind].
  set (img := amap _ g).
  assert (Hi : forall i j, (i < an g)%nat -> (j < am g)%nat -> av img i j = 0%nat).
  { intros i j Hi Hj. unfold img. cbn [amap av].
    assert (E : av g i j = lmin (x0 :: l0)).
    { assert (Hin : In (lmin (x0 :: l0)) (cells g)) by (rewrite Ec; apply lmin_in; congruence).
      apply in_cells in Hin as (i' & j' & Hi' & Hj' & ->). apply Hc; auto. }
    rewrite E, Rminus_diag_eq by reflexivity. unfold Rdiv. rewrite Rmult_0_l, Rmult_0_r. unfold to_uint8.
    rewrite (Int_part_unique 0 0) by (simpl; lra). reflexivity. }
  assert (Hn : 0 < INR (an g) * INR (am g)) by (apply Rmult_lt_0_compat; apply lt_0_INR; auto).
  assert (Hh : forall v, histogram img v = if Nat.eqb 0 v then INR (an g) * INR (am g) else 0).
  { intros v. rewrite histogram_cells. unfold ncells. cbn [img amap an am].
    rewrite (rsum_ext (an g) _ (fun _ => if Nat.eqb 0 v then INR (am g) else 0)).
    - rewrite rsum_const. destruct (Nat.eqb 0 v); ring.
    - intros i Hi2. rewrite (rsum_ext (am g) _ (fun _ => if Nat.eqb 0 v then 1 else 0)).
      + rewrite rsum_const. destruct (Nat.eqb 0 v); ring.
      + intros j Hj. rewrite Hi by auto. reflexivity. }
  assert (Ht : rsum 256 (histogram img) = INR (an g) * INR (am g)).
  { apply (histogram_total img). intros i j Hi2 Hj. rewrite Hi by auto. lia. }
  rewrite Ht. do 2 f_equal.
  rewrite (rsum_single 256 0).
  - rewrite Hh. cbn [Nat.eqb]. set (N := INR (an g) * INR (am g)) in *. replace (N / N) with 1 by (field; lra). rewrite Rmult_1_l. f_equal. ring.
  - lia.
  - intros i _ Hne. rewrite Hh. destruct (Nat.eqb_spec 0 i); [congruence|]. unfold Rdiv at 1. ring.
Qed.

(** ** Spatial entropy *)

Lemma spatial_wrapped_eq w g x y : (0 < an g)%nat -> (0 < am g)%nat -> (x < an g)%nat -> (y < am g)%nat ->
  spatial_wrapped w g x y = grid_entropy an_eps (torus_window ((w - 1) / 2) g x y).
Proof.
  intros H1 H2 Hx Hy. unfold spatial_wrapped. set (h := ((w - 1) / 2)%nat).
  destruct (pad_wrap_ok h g H1 H2) as (p & Ep). rewrite Ep. cbn [bind].
  apply pad_wrap_inv in Ep as (_ & _ & E1 & E2 & E3). apply grid_entropy_ext. unfold slice2, torus_window, same_arr.
  cbn [an am av]. rewrite E1, E2, !slice_norm_in by lia. split; [lia|]. split; [lia|]. intros i j _ _.
  rewrite E3, !Nat2Z.id. reflexivity.
Qed.

Lemma spatial_wrapped_ok w g x y : (0 < an g)%nat -> (0 < am g)%nat -> (x < an g)%nat -> (y < am g)%nat ->
  exists h, spatial_wrapped w g x y = Ok h /\ - log2 (1 + an_eps) <= h <= 8.
Proof.
  intros H1 H2 Hx Hy. rewrite spatial_wrapped_eq by auto. pose proof an_eps_pos.
  destruct (uint8_image_ok an_eps (torus_window ((w - 1) / 2) g x y)) as (img & Ei); try (cbn [torus_window an am]; lia); auto.
  assert (E : exists h, grid_entropy an_eps (torus_window ((w - 1) / 2) g x y) = Ok h).
  { unfold grid_entropy. rewrite Ei. cbn [bind]. eauto. }
  destruct E as (h & E). exists h. split; auto. apply entropy_bounds in E; auto. lra.
Qed.

Lemma wrap_lt n i s : (0 < n)%nat -> (wrap n i s < n)%nat.
Proof. intros H. unfold wrap. pose proof (Z.mod_pos_bound (Z.of_nat i + s) (Z.of_nat n)). lia. Qed.

Lemma wrap_wrap n i s t : (0 < n)%nat -> wrap n (wrap n i s) t = wrap n i (s + t).
Proof.
  intros H. unfold wrap. pose proof (Z.mod_pos_bound (Z.of_nat i + s) (Z.of_nat n)).
  rewrite Z2Nat.id by lia. f_equal. rewrite Zplus_mod_idemp_l. f_equal. lia.
Qed.

(** Shifting the grid shifts the entropies. *)
Lemma spatial_shift w g q dx dy x y : (x < an g)%nat -> (y < am g)%nat ->
  an q = an g -> am q = am g ->
  (forall i j, (i < an g)%nat -> (j < am g)%nat -> av q i j = av g (wrap (an g) i dx) (wrap (am g) j dy)) ->
  spatial_wrapped w q x y = spatial_wrapped w g (wrap (an g) x dx) (wrap (am g) y dy).
Proof.
  intros Hx Hy Eq1 Eq2 Eq3. assert (0 < an g)%nat by lia. assert (0 < am g)%nat by lia.
  rewrite (spatial_wrapped_eq w q) by lia. rewrite (spatial_wrapped_eq w g) by (auto using wrap_lt).
  apply grid_entropy_ext. unfold torus_window, same_arr. cbn [an am av]. split; [lia|]. split; [lia|].
  intros i j _ _. rewrite Eq1, Eq2. rewrite Eq3 by (apply wrap_lt; auto). rewrite !wrap_wrap by auto.
  rewrite <- !(Nat.add_comm i), <- !(Nat.add_comm j), !(wrap_add _ i), !(wrap_add _ j), !wrap_wrap by auto.
  f_equal; f_equal; lia.
Qed.

(** The clipped variant reaches h cells back but only h-1 cells ahead. *)
Lemma clipped_rows h x n x0 x1 i : clipped_window h x n = (x0, x1) -> (x < n)%nat ->
  ((x0 <= Z.of_nat i < x1)%Z <-> (x <= i + h /\ i < x + h /\ i < n)%nat).
Proof. unfold clipped_window. intros E Hx. apply pair_equal_spec in E as [<- <-]. lia. Qed.

Lemma spatial_clipped_eq w g x y : (x < an g)%nat -> (y < am g)%nat ->
  let h := ((w - 1) / 2)%nat in
  spatial_clipped w g x y =
  grid_entropy 0 (mkArr (Nat.min (x + h) (an g) - (x - h)) (Nat.min (y + h) (am g) - (y - h))
                        (fun i j => av g (x - h + i)%nat (y - h + j)%nat)).
Proof.
  intros Hx Hy h. unfold spatial_clipped. fold h. unfold clipped_window. apply grid_entropy_ext.
  unfold slice2, same_arr. cbn [an am av]. rewrite !slice_norm_in by lia.
  split; [lia|]. split; [lia|]. intros i j _ _. f_equal; lia.
Qed.

Lemma spatial_clipped_empty w g x y : (w < 3)%nat -> (x < an g)%nat -> (y < am g)%nat ->
  spatial_clipped w g x y = Err ValueError.
Proof.
  intros Hw Hx Hy. rewrite spatial_clipped_eq by auto. replace ((w - 1) / 2)%nat with 0%nat.
  - unfold grid_entropy, uint8_image.
    match goal with |- context [cells ?a] => assert (E : cells a = []) end.
    { apply length_zero_iff_nil. rewrite cells_length. cbn [an am]. lia. }
    rewrite E. reflexivity.
  - symmetry. apply Nat.div_small. lia.
Qed.

(** ** The joint table *)

Lemma joint_table_eq img sh ii jj : an sh = an img -> am sh = am img ->
  joint_table img sh ii jj =
  ncells (an img) (am img) (fun i j => Bool.eqb (Nat.eqb (av img i j) ii) (Nat.eqb (av sh i j) jj)).
Proof. intros H1 H2. unfold joint_table, ncells. rewrite cells_combine, lsum_cells by auto. reflexivity. Qed.

Lemma cell_column K u v jj : (u < K)%nat -> (v < K)%nat ->
  rsum K (fun ii => if Bool.eqb (Nat.eqb u ii) (Nat.eqb v jj) then 1 else 0) =
  if Nat.eqb v jj then 1 else INR K - 1.
Proof.
  intros Hu Hv. destruct (Nat.eqb v jj).
  - rewrite (rsum_ext K _ (fun ii => if Nat.eqb u ii then 1 else 0)); [apply one_hot; auto|].
    intros. destruct (Nat.eqb u i); reflexivity.
  - rewrite (rsum_ext K _ (fun ii => 1 - (if Nat.eqb u ii then 1 else 0))).
    + rewrite rsum_minus, one_hot, rsum_const by auto. ring.
    + intros. destruct (Nat.eqb u i); cbn [Bool.eqb]; ring.
Qed.

Lemma INR_256 : INR 256 = 256.
Proof. simpl. lra. Qed.

Lemma cell_total u v : (u < 256)%nat -> (v < 256)%nat ->
  rsum 256 (fun ii => rsum 256 (fun jj => if Bool.eqb (Nat.eqb u ii) (Nat.eqb v jj) then 1 else 0)) = 65026.
Proof.
  intros Hu Hv. rewrite rsum_swap.
  rewrite (rsum_ext 256 _ (fun jj => 255 - 254 * (if Nat.eqb v jj then 1 else 0))).
  - rewrite rsum_minus, rsum_const, rsum_scal, one_hot, INR_256 by auto. lra.
  - intros jj Hj. rewrite cell_column, INR_256 by auto. destruct (Nat.eqb v jj); lra.
Qed.

Definition in_bytes (g : arr nat) : Prop := forall i j, (i < an g)%nat -> (j < am g)%nat -> (av g i j < 256)%nat.

Lemma table_total img sh : an sh = an img -> am sh = am img -> in_bytes img -> in_bytes sh ->
  rsum 256 (fun ii => rsum 256 (fun jj => joint_table img sh ii jj)) = 65026 * (INR (an img) * INR (am img)).
Proof.
  intros H1 H2 B1 B2.
  rewrite (rsum_ext 256 _ (fun ii => rsum (an img) (fun i => rsum (am img) (fun j => rsum 256 (fun jj =>
      if Bool.eqb (Nat.eqb (av img i j) ii) (Nat.eqb (av sh i j) jj) then 1 else 0))))).
  2:{ intros ii _. rewrite (rsum_ext 256 _ (fun jj => ncells (an img) (am img) (fun i j => Bool.eqb (Nat.eqb (av img i j) ii) (Nat.eqb (av sh i j) jj))))
        by (intros; apply joint_table_eq; auto).
      unfold ncells. rewrite rsum_swap. apply rsum_ext. intros i _. rewrite rsum_swap. reflexivity. }
  rewrite rsum_swap. rewrite (rsum_ext (an img) _ (fun _ => INR (am img) * 65026)).
  - rewrite rsum_const. ring.
  - intros i Hi. rewrite rsum_swap. rewrite (rsum_ext (am img) _ (fun _ => 65026)).
    + apply rsum_const.
    + intros j Hj. apply cell_total; [apply B1|apply B2]; congruence.
Qed.

Lemma table_column img sh jj : an sh = an img -> am sh = am img -> in_bytes img -> in_bytes sh ->
  rsum 256 (fun ii => joint_table img sh ii jj) =
  255 * (INR (an img) * INR (am img)) - 254 * histogram sh jj.
Proof.
  intros H1 H2 B1 B2.
  rewrite (rsum_ext 256 _ (fun ii => ncells (an img) (am img) (fun i j => Bool.eqb (Nat.eqb (av img i j) ii) (Nat.eqb (av sh i j) jj))))
    by (intros; apply joint_table_eq; auto).
  unfold ncells. rewrite rsum_swap. rewrite histogram_cells. unfold ncells. rewrite H1, H2.
  rewrite <- rsum_scal. replace (255 * (INR (an img) * INR (am img))) with (rsum (an img) (fun _ => INR (am img) * 255))
    by (rewrite rsum_const; ring).
  rewrite <- rsum_minus. apply rsum_ext. intros i Hi.
  rewrite rsum_swap, <- (rsum_const (am img) 255), <- rsum_scal, <- rsum_minus. apply rsum_ext. intros j Hj.
  rewrite cell_column, INR_256 by (try (apply B1); try (apply B2); congruence).
  destruct (Nat.eqb (av sh i j) jj); lra.
Qed.

Lemma histogram_le sh v : histogram sh v <= INR (an sh) * INR (am sh).
Proof.
  rewrite histogram_cells. unfold ncells.
  replace (INR (an sh) * INR (am sh)) with (rsum (an sh) (fun _ => INR (am sh) * 1)) by (rewrite rsum_const; ring).
  apply rsum_le. intros i Hi. rewrite <- rsum_const. apply rsum_le. intros j Hj. destruct (Nat.eqb (av sh i j) v); lra.
Qed.

Lemma joint_count_total img sh : an sh = an img -> am sh = am img -> in_bytes img -> in_bytes sh ->
  rsum 256 (fun ii => rsum 256 (fun jj => joint_count img sh ii jj)) = INR (an img) * INR (am img).
Proof.
  intros H1 H2 B1 B2. unfold joint_count, ncells.
  rewrite (rsum_ext 256 _ (fun ii => rsum (an img) (fun i => rsum (am img) (fun j => rsum 256 (fun jj =>
      if (Nat.eqb (av img i j) ii && Nat.eqb (av sh i j) jj)%bool then 1 else 0))))).
  2:{ intros ii _. rewrite rsum_swap. apply rsum_ext. intros i _. rewrite rsum_swap. reflexivity. }
  rewrite rsum_swap. rewrite (rsum_ext (an img) _ (fun _ => INR (am img))); [apply rsum_const|].
  intros i Hi. rewrite rsum_swap. rewrite (rsum_ext (am img) _ (fun _ => 1)); [rewrite rsum_const; ring|].
  intros j Hj. rewrite (rsum_ext 256 _ (fun ii => if Nat.eqb (av img i j) ii then 1 else 0)).
  - apply one_hot. auto.
  - intros ii _. destruct (Nat.eqb (av img i j) ii); cbn [andb].
    + apply one_hot. apply B2; congruence.
    + apply rsum_0. auto.
Qed.

(** ** Conditional entropy *)

Lemma table_entropy_bounds p :
  (forall i j, 0 <= p i j) -> (forall j, (j < 256)%nat -> 0 < rsum 256 (fun i => p i j)) ->
  - log2 (1 + an_eps) <= table_entropy p <= 8.
Proof.
  intros Hp Hc. unfold table_entropy. cbv zeta. set (total := rsum 256 (fun i => rsum 256 (fun j => p i j))).
  set (col := fun j => rsum 256 (fun k => p k j)).
  assert (Ht : total = rsum 256 col) by (unfold total, col; apply rsum_swap).
  assert (Htp : 0 < total).
  { rewrite Ht. apply Rlt_le_trans with (col 0%nat); [apply Hc; lia|].
    apply rsum_term_le; [lia|]. intros j Hj. left. apply Hc. auto. }
  assert (E : - rsum 256 (fun i => rsum 256 (fun j => p i j / total * log2 (an_eps + p i j / rsum 256 (fun k => p k j)))) =
              rsum 256 (fun j => col j / total * (- rsum 256 (fun i => p i j / col j * log2 (an_eps + p i j / col j))))).
  { rewrite rsum_swap. replace (- rsum 256 (fun j => rsum 256 (fun i => p i j / total * log2 (an_eps + p i j / rsum 256 (fun k => p k j)))))
      with (rsum 256 (fun j => -1 * rsum 256 (fun i => p i j / total * log2 (an_eps + p i j / rsum 256 (fun k => p k j)))))
      by (rewrite rsum_scal; ring).
    apply rsum_ext. intros j Hj. fold (col j). specialize (Hc j Hj). fold (col j) in Hc.
    replace (col j / total * - rsum 256 (fun i => p i j / col j * log2 (an_eps + p i j / col j)))
      with (-1 * (col j / total * rsum 256 (fun i => p i j / col j * log2 (an_eps + p i j / col j)))) by ring.
    f_equal. rewrite <- rsum_scal. apply rsum_ext. intros i _. field. lra. }
  rewrite E.
  assert (Hb : forall j, (j < 256)%nat ->
    - log2 (1 + an_eps) <= - rsum 256 (fun i => p i j / col j * log2 (an_eps + p i j / col j)) <= 8).
  { intros j Hj. specialize (Hc j Hj). fold (col j) in Hc. apply (entropy_terms (fun i => p i j / col j)).
    - lia.
    - intros v _. apply Rmult_le_pos; auto. left. apply Rinv_0_lt_compat. auto.
    - unfold Rdiv. rewrite rsum_scal_r. apply Rinv_r. unfold col in Hc |- *. lra. }
  assert (Hw : forall j, (j < 256)%nat -> 0 <= col j / total).
  { intros j Hj. apply Rmult_le_pos; [left; apply Hc; auto|left; apply Rinv_0_lt_compat; auto]. }
  assert (Hs : rsum 256 (fun j => col j / total) = 1).
  { unfold Rdiv. rewrite rsum_scal_r, <- Ht. apply Rinv_r. lra. }
  split.
  - replace (- log2 (1 + an_eps)) with (rsum 256 (fun j => col j / total * - log2 (1 + an_eps))) by (rewrite rsum_scal_r, Hs; ring).
    apply rsum_le. intros j Hj. apply Rmult_le_compat_l; auto. apply Hb; auto.
  - apply Rle_trans with (rsum 256 (fun j => col j / total * 8)); [|rewrite rsum_scal_r, Hs; lra].
    apply rsum_le. intros j Hj. apply Rmult_le_compat_l; auto. apply Hb; auto.
Qed.

Lemma direction_small d s : direction_shift d = Ok s -> (-1 <= fst s <= 1)%Z /\ (-1 <= snd s <= 1)%Z.
Proof.
  unfold direction_shift. destruct d as [|[[|[]|]|[]|]|]; try discriminate; intros E; apply Ok_inj in E as <-; cbn [fst snd]; lia.
Qed.

Lemma shift_bytes img q s0 s1 : in_bytes img -> (-1 <= s0 <= 1)%Z -> (-1 <= s1 <= 1)%Z -> np_shift img s0 s1 = Ok q ->
  an q = an img /\ am q = am img /\ in_bytes q.
Proof.
  intros Hb H0 H1 E.
  assert (Hp : (0 < an img)%nat /\ (0 < am img)%nat).
  { unfold np_shift in E. apply bind_ok in E as (p & Ep & _). apply pad_wrap_inv in Ep as (? & ? & _). auto. }
  destruct (shift_ok img s0 s1 (proj1 Hp) (proj2 Hp) H0 H1) as (q' & E' & A1 & A2 & A3).
  rewrite E' in E. apply Ok_inj in E as <-. split; auto. split; auto. intros i j Hi Hj. rewrite A3.
  apply Hb; apply wrap_lt; tauto.
Qed.

Lemma conditional_bounds g d h : conditional_entropy g d = Ok h -> - log2 (1 + an_eps) <= h <= 8.
Proof.
  unfold conditional_entropy. intros E. apply bind_ok in E as (s & Es & E). apply bind_ok in E as (img & Ei & E).
  apply bind_ok in E as (sh & Esh & E). apply Ok_inj in E as <-.
  apply direction_small in Es as [S0 S1]. apply uint8_image_inv in Ei as (H1 & H2 & H3 & H4 & H5); [|lra].
  assert (B1 : in_bytes img) by (unfold in_bytes; rewrite H3, H4; auto).
  destruct (shift_bytes img sh _ _ B1 S0 S1 Esh) as (A1 & A2 & B2).
  apply table_entropy_bounds.
  - intros i j. rewrite joint_table_eq by auto. apply ncells_nonneg.
  - intros j Hj. rewrite table_column by auto. pose proof (histogram_le sh j) as Hl. rewrite A1, A2 in Hl.
    assert (0 < INR (an img) * INR (am img)) by (apply Rmult_lt_0_compat; apply lt_0_INR; congruence). lra.
Qed.

Lemma multi_loop_bounds g ds : forall acc h lo hi, lo <= acc <= hi -> multi_loop g ds acc = Ok h ->
  lo + INR (length ds) * (- log2 (1 + an_eps) / 4) <= h <= hi + INR (length ds) * 2.
Proof.
  induction ds as [|d ds IH]; intros acc h lo hi Ha E.
  - apply Ok_inj in E as <-. simpl. lra.
  - cbn [multi_loop] in E. apply bind_ok in E as (x & Ex & E). apply conditional_bounds in Ex.
    apply (IH _ _ (lo + - log2 (1 + an_eps) / 4) (hi + 2)) in E; [|lra].
    cbn [length]. rewrite S_INR. lra.
Qed.

Lemma multi_bounds g h : multiconditional_entropy g = Ok h -> - log2 (1 + an_eps) <= h <= 8.
Proof.
  unfold multiconditional_entropy. intros E. apply (multi_loop_bounds g _ 0 h 0 0) in E; [|lra].
  cbn [length INR] in E. lra.
Qed.

Lemma conditional_ok g d : (0 < an g)%nat -> (0 < am g)%nat -> ~ constant_grid g -> (0 <= d <= 3)%Z ->
  exists h, conditional_entropy g d = Ok h.
Proof.
  intros H1 H2 Hc Hd. unfold conditional_entropy.
  assert (Es : exists s, direction_shift d = Ok s).
  { assert (d = 0 \/ d = 1 \/ d = 2 \/ d = 3)%Z as [->|[->|[->| ->]]] by lia; eexists; reflexivity. }
  destruct Es as (s & Es). rewrite Es. cbn [bind]. destruct (proj2 (image_plain g H1 H2) Hc) as (img & Ei). rewrite Ei. cbn [bind].
  apply direction_small in Es as [S0 S1]. apply uint8_image_inv in Ei as (_ & _ & H3 & H4 & _); [|lra].
  destruct (shift_ok img (fst s) (snd s)) as (q & Eq & _); try lia; auto. rewrite Eq. cbn [bind]. eauto.
Qed.

Lemma multi_ok g : (0 < an g)%nat -> (0 < am g)%nat -> ~ constant_grid g -> exists h, multiconditional_entropy g = Ok h.
Proof.
  intros H1 H2 Hc. unfold multiconditional_entropy. cbn [multi_loop].
  destruct (conditional_ok g 0 H1 H2 Hc) as (a & ->); [lia|]. cbn [bind].
  destruct (conditional_ok g 1 H1 H2 Hc) as (b & ->); [lia|]. cbn [bind].
  destruct (conditional_ok g 2 H1 H2 Hc) as (c & ->); [lia|]. cbn [bind].
  destruct (conditional_ok g 3 H1 H2 Hc) as (d & ->); [lia|]. cbn [bind]. eauto.
Qed.
