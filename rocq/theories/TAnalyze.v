(** Properties C60-C62 and C71-C73: shifts, entropies and the measures of a universe (yuca/analyze.py). *)
From Coq Require Import Reals Lra Lia List Arith ZArith Bool.
From Verif Require Import Base Tensor MCommon PTensor PKern MWrap SWrap PWrap MAnalyze SAnalyze PAnalyze PAnalyzeX PAnalyzeY.
Import ListNotations.
Open Scope R_scope.

(** ** C60: shifts *)

Theorem C60_shift A (g : arr A) s0 s1 : (0 < an g)%nat -> (0 < am g)%nat -> (-1 <= s0 <= 1)%Z -> (-1 <= s1 <= 1)%Z ->
  exists q, np_shift g s0 s1 = Ok q /\ an q = an g /\ am q = am g /\
  forall i j, av q i j = av g (wrap (an g) i s0) (wrap (am g) j s1).
Proof. exact (shift_ok g s0 s1). Qed.

(** Beyond one cell the result is smaller than the grid. *)
Theorem C60_far A (g q : arr A) s0 s1 : np_shift g s0 s1 = Ok q ->
  ((2 <= s0 <= Z.of_nat (an g) + 1)%Z -> Z.of_nat (an q) = (Z.of_nat (an g) + 1 - s0)%Z) /\
  ((- Z.of_nat (an g) - 1 <= s0 <= -2)%Z -> an q = 0%nat) /\
  ((2 <= s1 <= Z.of_nat (am g) + 1)%Z -> Z.of_nat (am q) = (Z.of_nat (am g) + 1 - s1)%Z) /\
  ((- Z.of_nat (am g) - 1 <= s1 <= -2)%Z -> am q = 0%nat).
Proof. exact (shift_far g q s0 s1). Qed.

Theorem C60_empty A (g : arr A) s0 s1 : an g = 0%nat \/ am g = 0%nat -> np_shift g s0 s1 = Err ValueError.
Proof. exact (shift_empty g s0 s1). Qed.

Example ex_shift : exists q, np_shift (mkArr 2 3 (fun i j => (10 * i + j)%nat)) 1 (-1) = Ok q /\
  cells q = [12; 10; 11; 2; 0; 1]%nat.
Proof. eexists. split; reflexivity. Qed.

(** ** C61: grid entropy *)

Theorem C61_bounds slack g h : 0 <= slack -> grid_entropy slack g = Ok h -> - log2 (1 + an_eps) <= h <= 8.
Proof. exact (entropy_bounds slack g h). Qed.

(** The value: the entropy of the 256 shares of the stretched image. *)
Theorem C61_value slack g h : 0 <= slack -> grid_entropy slack g = Ok h ->
  exists img, stretched slack g img /\ h = - rsum 256 (fun v => share img v * log2 (1 / 1000000000 + share img v)).
Proof. exact (entropy_value slack g h). Qed.

Theorem C61_from slack g img : 0 <= slack -> stretched slack g img ->
  grid_entropy slack g = Ok (- rsum 256 (fun v => share img v * log2 (1 / 1000000000 + share img v))).
Proof. exact (entropy_from slack g img). Qed.

(** Every cell is counted exactly once. *)
Theorem C61_histogram slack g img : 0 <= slack -> uint8_image slack g = Ok img ->
  rsum 256 (histogram img) = INR (an g) * INR (am g) /\
  forall v, histogram img v = ncells (an g) (am g) (fun i j => Nat.eqb (av img i j) v).
Proof.
  intros Hs E. apply uint8_image_inv in E as (H1 & H2 & H3 & H4 & H5); auto. rewrite <- H3, <- H4 in *. split.
  - apply histogram_total. exact H5.
  - intros v. apply histogram_cells.
Qed.

(** Phanes: constant grids have the least entropy. The plain function divides zero by zero. *)
Theorem C61_constant g : (0 < an g)%nat -> (0 < am g)%nat -> constant_grid g ->
  grid_entropy an_eps g = Ok (- log2 (1 + 1 / 1000000000)) /\ grid_entropy 0 g = Err NonFinite.
Proof.
  intros H1 H2 Hc. split; [exact (constant_entropy g H1 H2 Hc)|]. unfold grid_entropy.
  rewrite (proj1 (image_plain g H1 H2) Hc). reflexivity.
Qed.

(** Outside these cases both succeed; an empty grid raises. *)
Theorem C61_succeeds g : (0 < an g)%nat -> (0 < am g)%nat ->
  (exists h, grid_entropy an_eps g = Ok h) /\ (~ constant_grid g -> exists h, grid_entropy 0 g = Ok h).
Proof.
  intros H1 H2. unfold grid_entropy. split.
  - destruct (uint8_image_ok an_eps g H1 H2 an_eps_pos) as (img & ->). cbn [bind]. eauto.
  - intros Hc. destruct (proj2 (image_plain g H1 H2) Hc) as (img & ->). cbn [bind]. eauto.
Qed.

Theorem C61_empty slack g : an g = 0%nat \/ am g = 0%nat -> grid_entropy slack g = Err ValueError.
Proof.
  intros H. unfold grid_entropy, uint8_image. pose proof (cells_length g) as Hl.
  destruct (cells g); [reflexivity|]. cbn [length] in Hl. destruct H as [H|H]; rewrite H in Hl; lia.
Qed.

(** A grid of two values has the entropy of a coin. *)
Theorem C61_two g a b k : a < b ->
  (forall i j, (i < an g)%nat -> (j < am g)%nat -> av g i j = a \/ av g i j = b) ->
  k = ncells (an g) (am g) (fun i j => if Req_EM_T (av g i j) b then true else false) ->
  0 < k < INR (an g) * INR (am g) ->
  let p := k / (INR (an g) * INR (am g)) in
  grid_entropy 0 g = Ok (- (p * log2 (1 / 1000000000 + p) + (1 - p) * log2 (1 / 1000000000 + (1 - p)))).
Proof. exact (entropy_two g a b k). Qed.

(** Rescaling the values does not change the plain entropy. *)
Theorem C61_affine g a b : 0 < a -> grid_entropy 0 (amap (fun x => a * x + b) g) = grid_entropy 0 g.
Proof. exact (entropy_affine g a b). Qed.

(** Phanes.get_spatial_entropy: one window of the torus around every cell. *)
Theorem C61_spatial w g x y : (0 < an g)%nat -> (0 < am g)%nat -> (x < an g)%nat -> (y < am g)%nat ->
  spatial_wrapped w g x y = grid_entropy an_eps (torus_window ((w - 1) / 2) g x y) /\
  exists h, spatial_wrapped w g x y = Ok h /\ - log2 (1 + 1 / 1000000000) <= h <= 8.
Proof.
  intros H1 H2 H3 H4. split; [exact (spatial_wrapped_eq w g x y H1 H2 H3 H4)|].
  exact (spatial_wrapped_ok w g x y H1 H2 H3 H4).
Qed.

(** It moves with the grid. *)
Theorem C61_equivariant w g q dx dy x y : (x < an g)%nat -> (y < am g)%nat ->
  an q = an g -> am q = am g ->
  (forall i j, (i < an g)%nat -> (j < am g)%nat -> av q i j = av g (wrap (an g) i dx) (wrap (am g) j dy)) ->
  spatial_wrapped w q x y = spatial_wrapped w g (wrap (an g) x dx) (wrap (am g) y dy).
Proof. exact (spatial_shift w g q dx dy x y). Qed.

(** The module-level function cuts its windows off at the border and leaves out their last row and column. *)
Theorem C61_clipped w g x y : (x < an g)%nat -> (y < am g)%nat ->
  let h := ((w - 1) / 2)%nat in
  spatial_clipped w g x y =
  grid_entropy 0 (mkArr (Nat.min (x + h) (an g) - (x - h)) (Nat.min (y + h) (am g) - (y - h))
                        (fun i j => av g (x - h + i)%nat (y - h + j)%nat)).
Proof. exact (spatial_clipped_eq w g x y). Qed.

Theorem C61_clipped_empty w g x y : (w < 3)%nat -> (x < an g)%nat -> (y < am g)%nat ->
  spatial_clipped w g x y = Err ValueError.
Proof. exact (spatial_clipped_empty w g x y). Qed.

Example ex_coin : grid_entropy 0 (mkArr 2 2 (fun i j => if Nat.eqb i j then 5 else 3)) =
  Ok (- (1/2 * log2 (1 / 1000000000 + 1/2) + (1 - 1/2) * log2 (1 / 1000000000 + (1 - 1/2)))).
Proof.
  pose proof (C61_two (mkArr 2 2 (fun i j => if Nat.eqb i j then 5 else 3)) 3 5 2) as H. cbn [an am av INR] in H.
  replace (2 / ((1 + 1) * (1 + 1))) with (1 / 2) in H by field. apply H; clear H.
  - lra.
  - intros i j _ _. destruct (Nat.eqb i j); auto.
  - unfold ncells. cbn [rsum Nat.eqb].
    repeat match goal with |- context [Req_EM_T ?a ?b] => destruct (Req_EM_T a b); try lra end.
  - lra.
Qed.

(** ** C62: the joint histogram *)

Theorem C62_total img sh : an sh = an img -> am sh = am img ->
  (forall i j, (i < an img)%nat -> (j < am img)%nat -> (av img i j < 256)%nat) ->
  (forall i j, (i < an sh)%nat -> (j < am sh)%nat -> (av sh i j < 256)%nat) ->
  rsum 256 (fun ii => rsum 256 (fun jj => joint_table img sh ii jj)) = 65026 * (INR (an img) * INR (am img)) /\
  rsum 256 (fun ii => rsum 256 (fun jj => joint_count img sh ii jj)) = INR (an img) * INR (am img).
Proof. intros H1 H2 B1 B2. split; [exact (table_total img sh H1 H2 B1 B2)|exact (joint_count_total img sh H1 H2 B1 B2)]. Qed.

Theorem C62_column img sh jj : an sh = an img -> am sh = am img ->
  (forall i j, (i < an img)%nat -> (j < am img)%nat -> (av img i j < 256)%nat) ->
  (forall i j, (i < an sh)%nat -> (j < am sh)%nat -> (av sh i j < 256)%nat) ->
  rsum 256 (fun ii => joint_table img sh ii jj) =
  255 * (INR (an img) * INR (am img)) - 254 * ncells (an sh) (am sh) (fun i j => Nat.eqb (av sh i j) jj).
Proof. intros H1 H2 B1 B2. rewrite <- histogram_cells. exact (table_column img sh jj H1 H2 B1 B2). Qed.

(** The table counts a pair of values that never occurs. *)
Theorem C62_refuted : exists img sh ii jj, an sh = an img /\ am sh = am img /\
  (forall i j, (av img i j < 256)%nat /\ (av sh i j < 256)%nat) /\
  joint_count img sh ii jj = 0 /\ joint_table img sh ii jj = 1.
Proof.
  exists (mkArr 1 1 (fun _ _ => 0%nat)), (mkArr 1 1 (fun _ _ => 0%nat)), 1%nat, 1%nat.
  repeat split; try (cbn [av]; lia).
  - unfold joint_count, ncells. cbn. lra.
  - unfold joint_table, lsum. cbn. lra.
Qed.

(** What the conditional entropy is: that of the agreement table between a cell and its neighbour. *)
Theorem C62_value g d h : conditional_entropy g d = Ok h ->
  exists img dx dy, stretched 0 g img /\
    (d = 0 /\ dx = -1 /\ dy = 0 \/ d = 1 /\ dx = 0 /\ dy = 1 \/ d = 2 /\ dx = 1 /\ dy = 0 \/ d = 3 /\ dx = 0 /\ dy = -1)%Z /\
    let table ii jj := ncells (an g) (am g) (fun i j =>
      Bool.eqb (Nat.eqb (av img i j) ii) (Nat.eqb (av img (wrap (an g) i dx) (wrap (am g) j dy)) jj)) in
    let column jj := rsum 256 (fun ii => table ii jj) in
    let total := rsum 256 column in
    h = - rsum 256 (fun ii => rsum 256 (fun jj => table ii jj / total * log2 (1 / 1000000000 + table ii jj / column jj))).
Proof. exact (conditional_value g d h). Qed.

Theorem C62_bounds g d h : conditional_entropy g d = Ok h -> - log2 (1 + 1 / 1000000000) <= h <= 8.
Proof. exact (conditional_bounds g d h). Qed.

Theorem C62_succeeds g d : (0 < an g)%nat -> (0 < am g)%nat -> ~ constant_grid g -> (0 <= d <= 3)%Z ->
  exists h, conditional_entropy g d = Ok h.
Proof. exact (conditional_ok g d). Qed.

Theorem C62_direction g d : ~ (0 <= d <= 3)%Z -> conditional_entropy g d = Err UnboundLocalError.
Proof. exact (conditional_direction g d). Qed.

Theorem C62_multi g h : multiconditional_entropy g = Ok h ->
  (exists a b c d, conditional_entropy g 0 = Ok a /\ conditional_entropy g 1 = Ok b /\
    conditional_entropy g 2 = Ok c /\ conditional_entropy g 3 = Ok d /\ h = (a + b + c + d) / 4) /\
  - log2 (1 + 1 / 1000000000) <= h <= 8.
Proof. intros E. split; [exact (multi_value g h E)|exact (multi_bounds g h E)]. Qed.

Theorem C62_multi_succeeds g : (0 < an g)%nat -> (0 < am g)%nat -> ~ constant_grid g ->
  exists h, multiconditional_entropy g = Ok h.
Proof. exact (multi_ok g). Qed.

Example ex_conditional : exists h, multiconditional_entropy (mkArr 2 2 (fun i j => INR (i + j))) = Ok h.
Proof.
  apply C62_multi_succeeds; cbn [an am]; try lia. intros Hc.
  specialize (Hc 0%nat 0%nat 0%nat 1%nat). cbn in Hc. assert (0 = 1); [apply Hc; lia|lra].
Qed.

(** ** C71: starting grids *)

(** Even sizes: a box of random cells from b/2 on, zeros around it. *)
Theorem C71_even B b rand : (0 < b)%nat -> exists t, start_random B (2 * b) rand = Ok t /\
  shape t = (B, 1, 2 * b, 2 * b)%nat /\ twf t /\
  forall k i j, (k < B)%nat -> (i < 2 * b)%nat -> (j < 2 * b)%nat ->
    ((b / 2 <= i < b / 2 + b)%nat /\ (b / 2 <= j < b / 2 + b)%nat -> get t k 0 i j = rand k (i - b / 2)%nat (j - b / 2)%nat) /\
    (~ ((b / 2 <= i < b / 2 + b)%nat /\ (b / 2 <= j < b / 2 + b)%nat) -> get t k 0 i j = 0).
Proof. exact (start_random_even B b rand). Qed.

(** Odd sizes from five on: the slice is one cell larger than the box. *)
Theorem C71_odd B b rand : (2 <= b)%nat -> start_random B (2 * b + 1) rand = Err RuntimeError.
Proof. exact (start_random_odd B b rand). Qed.

(** Size three: one random cell is spread over four. *)
Theorem C71_three B rand : exists t, start_random B 3 rand = Ok t /\
  forall k i j, (k < B)%nat -> (i < 3)%nat -> (j < 3)%nat ->
    get t k 0 i j = if (Nat.ltb i 2 && Nat.ltb j 2)%bool then rand k 0%nat 0%nat else 0.
Proof. exact (start_random_three B rand). Qed.

Theorem C71_fits B dim rand : (exists t, start_random B dim rand = Ok t) <-> (Nat.Even dim \/ dim = 1%nat \/ dim = 3%nat).
Proof.
  split.
  - intros [t E]. destruct (Nat.Even_or_Odd dim) as [He|[b ->]]; [auto|]. right.
    assert (b = 0 \/ b = 1 \/ 2 <= b)%nat as [->|[->|Hb]] by lia; [left; reflexivity|right; reflexivity|].
    rewrite C71_odd in E by auto. discriminate.
  - intros [[b ->]|[->| ->]].
    + destruct b; [eexists; reflexivity|]. destruct (C71_even B (S b) rand) as (t & E & _); [lia|]. eauto.
    + eexists; reflexivity.
    + eexists; reflexivity.
Qed.

Theorem C71_pattern dim t k c i j : (2 <= dim)%nat -> tH t = dim -> tW t = dim ->
  (k < tB t)%nat -> (c < tC t)%nat -> (i < dim)%nat -> (j < dim)%nat ->
  let b := (dim / 2)%nat in
  let inside x := (b / 2 <= x < dim - (b + 1) / 2)%nat in
  (inside i /\ inside j -> get (start_pattern dim t) k c i j = get t k c i j) /\
  (~ (inside i /\ inside j) -> get (start_pattern dim t) k c i j = 0).
Proof. exact (start_pattern_kept dim t k c i j). Qed.

Example ex_box : exists t, start_random 1 6 (fun _ _ _ => 1) = Ok t /\ get t 0 0 0 1 = 0 /\ get t 0 0 1 1 = 1 /\
  get t 0 0 3 3 = 1 /\ get t 0 0 3 4 = 0.
Proof.
  destruct (C71_even 1 3 (fun _ _ _ => 1)) as (t & E & _ & _ & H); [lia|]. exists t. split; [exact E|].
  cbn [Nat.div Nat.divmod fst] in H.
  split; [apply H; cbn; lia|]. split; [apply H; cbn; lia|]. split; [apply H; cbn; lia|apply H; cbn; lia].
Qed.

(** ** C72: analyze_universe *)

(** One measure per step until the grid's mean is zero; the entry of a sample in last_step is the first
    step after which its mean is not positive, and -1 if there is none. *)
Theorem C72_run St ca w B n s g ms last :
  (forall s u s' u', tB u = B -> twf u -> ca s u = Ok (s', u') -> tB u' = B /\ twf u') ->
  tB g = B -> twf g -> analyze_from St ca w n s g = Ok (ms, last) ->
  exists m (S_ : nat -> St) (u : nat -> tensor),
    (m <= n)%nat /\ (0 < n -> 0 < m)%nat /\ u 0%nat = g /\ S_ 0%nat = s /\
    (forall k, (k < m)%nat -> ca (S_ k) (u k) = Ok (S_ (S k), u (S k))) /\
    length ms = m /\
    (forall k, (k < m)%nat -> exists act, measure_of w (u (S k)) (u k) = Ok (act, nth k ms (mkMeasure 0 0 (mkStats 0 0 0 0) 0 0))) /\
    ((m < n)%nat -> density (u m) = 0) /\ (forall k, (0 < k < m)%nat -> density (u k) <> 0) /\
    length last = B /\
    forall b, (b < B)%nat ->
      (nth b last 0%Z = (-1)%Z /\ forall k, (k < m)%nat -> 0 < sample_density (u (S k)) b) \/
      (exists k, (k < m)%nat /\ nth b last 0%Z = Z.of_nat k /\ ~ 0 < sample_density (u (S k)) b /\
                 forall k', (k' < k)%nat -> 0 < sample_density (u (S k')) b).
Proof. exact (fun Hk => analyze_inv St ca w B Hk n s g ms last). Qed.

(** Mortality is the share of samples without positive mean, fertility the share with a live cell on the edge;
    the autocorrelation is told by mean, deviation, least and greatest entry of its table, the entropy by mean
    and deviation. *)
Theorem C72_measures w grid old act me : measure_of w grid old = Ok (act, me) ->
  0 <= me_mort me <= 1 /\ 0 <= me_fert me <= 1 /\
  (twf grid -> twf old -> shape grid = shape old -> -1 <= st_min (me_auto me) /\ st_max (me_auto me) <= 1) /\
  - log2 (1 + 1 / 1000000000) <= me_entropy me <= 8 /\ 0 <= me_spread me <= (8 + log2 (1 + 1 / 1000000000)) / 2 /\
  (exists p, (forall b, (b < tB grid)%nat -> (p b = true <-> ~ 0 < sample_density grid b)) /\
     me_mort me = rcount (tB grid) p / INR (tB grid)) /\
  (nonneg grid -> exists p, (forall b, (b < tB grid)%nat -> (p b = true <-> sample_escaped grid b)) /\
     me_fert me = rcount (tB grid) p / INR (tB grid)) /\
  (exists t, auto_table grid old = Ok t /\ summary (tdata t) (me_auto me)) /\
  (exists ent, spatial_all w grid = Ok ent /\ lmean ent = Ok (me_entropy me) /\ pstd ent = Ok (me_spread me)).
Proof. intros E. destruct (measure_inv w grid old act me E) as (_ & _ & H). exact H. Qed.

Theorem C72_succeeds St (ca : St -> tensor -> res (St * tensor)) w B C H W :
  (2 <= B * C * H * W)%nat ->
  (forall s u, shape u = (B, C, H, W) -> twf u -> exists s' u', ca s u = Ok (s', u') /\ shape u' = (B, C, H, W) /\ twf u') ->
  forall n s g, shape g = (B, C, H, W) -> twf g -> exists r, analyze_from St ca w n s g = Ok r.
Proof. exact (analyze_total St ca w B C H W). Qed.

(** An automaton that keeps the grid once and then clears it: two measures, last step 1. *)
Example ex_universe : let ca := fun (s : bool) (u : tensor) => Ok (true, if s then tmap (fun _ => 0) u else u) in
  exists ms, analyze_from bool ca 3 5 false (mkT 1 1 2 2 [1; 0; 0; 1]) = Ok (ms, [1%Z]) /\ length ms = 2%nat.
Proof.
  intros ca. set (g := mkT 1 1 2 2 [1; 0; 0; 1]).
  assert (Hk : forall s u s' u', ca s u = Ok (s', u') -> shape u' = shape u /\ (twf u -> twf u')).
  { intros s u s' u' E. unfold ca in E. apply Ok_inj, pair_equal_spec in E as [_ <-]. destruct s; split; auto.
    unfold twf. cbn [tmap tdata tB tC tH tW]. rewrite map_length. auto. }
  destruct (C72_succeeds bool ca 3 1 1 2 2) with (n := 5%nat) (s := false) (g := g) as ([ms last] & E); try reflexivity.
  { lia. }
  { intros s u Hs Hu. destruct (ca s u) as [[s' u']|] eqn:E; [|discriminate]. exists s', u'. split; auto.
    destruct (Hk _ _ _ _ E). split; [congruence|auto]. }
  exists ms. rewrite E.
  destruct (C72_run bool ca 3 1 5 false g ms last) as (m & S_ & u & I1 & I2 & I3 & I4 & I5 & I6 & I7 & I8 & I9 & I10 & I11); auto; try reflexivity.
  { intros s v s' v' Hv Hw Ev. destruct (Hk _ _ _ _ Ev) as [Hs Hw']. split; auto.
    unfold shape in Hs. repeat rewrite pair_equal_spec in Hs. destruct Hs as [[[Hs _] _] _]. congruence. }
  assert (U1 : (0 < m)%nat -> S_ 1%nat = true /\ u 1%nat = g).
  { intros H. specialize (I5 0%nat H). rewrite I3, I4 in I5. unfold ca in I5. apply Ok_inj, pair_equal_spec in I5 as [<- <-]. auto. }
  destruct U1 as [U1 U1']; [lia|].
  assert (Dg : density g <> 0).
  { intros D. cbv in D. assert (1 * / 2 = 0 -> False) by lra. unfold density in *. revert D.
    intros D. field_simplify in D. lra. }
  assert (Hm1 : m <> 1%nat).
  { intros ->. specialize (I8 ltac:(lia)). rewrite U1' in I8. contradiction. }
  assert (U2 : u 2%nat = tmap (fun _ => 0) g).
  { specialize (I5 1%nat ltac:(lia)). rewrite U1, U1' in I5. unfold ca in I5. apply Ok_inj, pair_equal_spec in I5 as [_ <-]. reflexivity. }
  assert (D2 : density (u 2%nat) = 0).
  { rewrite U2. unfold density, mass. cbn. lra. }
  assert (Hm : m = 2%nat).
  { destruct (Nat.eq_dec m 2); auto. exfalso. apply (I9 2%nat); [lia|exact D2]. }
  subst m. split; [|auto]. do 2 f_equal. destruct last as [|z [|]]; cbn [length] in I10; try lia. f_equal.
  destruct (I11 0%nat ltac:(lia)) as [[_ H]|(k & Hk1 & Hz & Hd & _)].
  - exfalso. specialize (H 1%nat ltac:(lia)). rewrite U2 in H. unfold sample_density in H. cbn in H. lra.
  - cbn [nth] in Hz. assert (k = 0 \/ k = 1)%nat as [-> | ->] by lia; [|exact Hz]. exfalso. apply Hd. rewrite U1'.
    unfold sample_density. cbn. lra.
Qed.

(** ** C73: autocorrelation *)

Theorem C73_bound g1 g2 a : autocorrelate g1 g2 = Ok a -> -1 <= a <= 1.
Proof. exact (autocorrelate_bound g1 g2 a). Qed.

Theorem C73_symmetric g1 g2 a : autocorrelate g1 g2 = Ok a -> autocorrelate g2 g1 = Ok a.
Proof. exact (autocorrelate_sym g1 g2 a). Qed.

(** With itself: slightly below one, since the standard deviation is unbiased and widened. *)
Theorem C73_self g a : autocorrelate g g = Ok a -> 0 <= a /\ exists s, lstd g = Ok s /\ 0 <= s /\
  a = ((1 / 10000000) ^ 2 + (1 - / INR (length g)) * s ^ 2) / (1 / 10000000 + s) ^ 2.
Proof. intros E. split; [exact (autocorrelate_self g a E)|exact (self_value g a E)]. Qed.

Theorem C73_constant c n : (2 <= n)%nat -> autocorrelate (repeat c n) (repeat c n) = Ok 1.
Proof. exact (constant_auto c n). Qed.

Theorem C73_errors g1 g2 :
  (length g1 <> length g2 -> autocorrelate g1 g2 = Err RuntimeError) /\
  (length g1 = length g2 -> (length g1 < 2)%nat -> autocorrelate g1 g2 = Err NonFinite) /\
  (length g1 = length g2 -> (2 <= length g1)%nat -> exists a, autocorrelate g1 g2 = Ok a).
Proof. exact (auto_errors g1 g2). Qed.

Example ex_auto : exists a, autocorrelate [1; 2; 3] [3; 2; 1] = Ok a.
Proof. apply C73_errors; cbn; lia. Qed.

(** For batches of several channels: one number for every pair of channels, how they go together in units of
    the deviations of all cells. *)
Theorem C73_table g h : twf g -> twf h -> shape g = shape h -> (2 <= size_of g)%nat ->
  exists t, auto_table g h = Ok t /\ shape t = (tC g, tC g, 1%nat, 1%nat) /\ forall c d, (c < tC g)%nat -> (d < tC g)%nat -> get t c d 0 0 = agreement g h c d /\ -1 <= get t c d 0 0 <= 1 /\ get t c d 0 0 = agreement h g d c.
Proof.
  intros Wg Wh Sh S2. destruct (auto_table_ok g h Wg Wh Sh S2) as (t & E & _ & St & G). exists t. split; [exact E|]. split; [exact St|]. intros c d Hc Hd. rewrite (G c d Hc Hd). split; [reflexivity|]. split; [apply agreement_bound; assumption|apply agreement_sym; exact Sh].
Qed.

(** The diagonal adds up to the autocorrelation of all cells taken together. *)
Theorem C73_trace g h t : twf g -> twf h -> shape g = shape h -> auto_table g h = Ok t -> autocorrelate (tdata g) (tdata h) = Ok (rsum (tC g) (fun c => get t c c 0 0)).
Proof.
  intros Wg Wh Sh E. pose proof (table_size g h t E Wg) as S2. destruct (auto_table_ok g h Wg Wh Sh S2) as (t' & E' & _ & _ & G). rewrite E in E'. apply Ok_inj in E' as <-.
  rewrite (trace g h Wg Wh Sh S2). f_equal. apply rsum_ext; intros c Hc. symmetry. apply G; assumption.
Qed.

(** So with one channel mean, least and greatest are this number and the deviation is zero. *)
Theorem C73_one_channel g h t s a : twf g -> twf h -> shape g = shape h -> tC g = 1%nat -> auto_table g h = Ok t -> stats_of (tdata t) = Ok s -> autocorrelate (tdata g) (tdata h) = Ok a -> s = mkStats a 0 a a.
Proof. intros Wg Wh Sh C1 E Es A. exact (table_one g h t s a Wg Wh Sh C1 E (stats_summary _ _ Es) A). Qed.

(** Grids that do not fit raise, as do batches of different size. *)
Theorem C73_misfit g h : tB g <> tB h \/ (tH g < tH h)%nat \/ (tW g < tW h)%nat -> auto_table g h = Err RuntimeError.
Proof.
  intros H. unfold auto_table. destruct (Nat.eqb_spec (tB g) (tB h)); [|reflexivity]. destruct (Nat.leb_spec (tH h) (tH g)); [|reflexivity]. destruct (Nat.leb_spec (tW h) (tW g)); [lia|reflexivity].
Qed.

(** Mean, deviation, least and greatest: the mean lies between the others, the deviation is at most half their
    distance and zero only if all numbers are the same. *)
Theorem C73_stats l : (l = [] -> stats_of l = Err ValueError) /\ (l <> [] -> exists s, stats_of l = Ok s) /\
  forall s, stats_of l = Ok s -> summary l s /\ st_min s <= st_mean s <= st_max s /\ 0 <= st_std s <= (st_max s - st_min s) / 2 /\ (st_std s = 0 <-> st_min s = st_max s).
Proof.
  split; [intros ->; reflexivity|]. split; [destruct l; [congruence|cbn; eauto]|]. intros s E. apply stats_summary in E. split; [exact E|exact (summary_bounds l s E)].
Qed.

(** Two channels that are opposite to one another: the table has both signs. *)
Definition ex_pair : tensor := mkT 1 2 1 2 [0; 1; 1; 0].
Example C73_table_example : twf ex_pair /\ (2 <= size_of ex_pair)%nat /\ agreement ex_pair ex_pair 0 0 = agreement ex_pair ex_pair 1 1 /\ agreement ex_pair ex_pair 0 1 < 0 < agreement ex_pair ex_pair 0 0 /\
  exists t s, auto_table ex_pair ex_pair = Ok t /\ stats_of (tdata t) = Ok s /\ st_min s < 0 < st_max s.
Proof.
  assert (Wt : twf ex_pair) by reflexivity. assert (S2 : (2 <= size_of ex_pair)%nat) by (cbn; lia). split; [exact Wt|]. split; [exact S2|].
  set (D := 1 / 10000000 + deviation ex_pair). assert (HD : 0 < D) by (unfold D, deviation; pose proof (sqrt_pos (cells_of ex_pair (fun b c i j => (get ex_pair b c i j - average ex_pair) ^ 2) / INR (size_of ex_pair - 1))); lra).
  assert (Av : average ex_pair = 1 / 2) by (unfold average, cells_of, size_of; cbn; lra).
  assert (St : standard ex_pair 0 0 0 0 = (1 / 10000000 - 1 / 2) / D /\ standard ex_pair 0 0 0 1 = (1 / 10000000 + 1 / 2) / D /\ standard ex_pair 0 1 0 0 = (1 / 10000000 + 1 / 2) / D /\ standard ex_pair 0 1 0 1 = (1 / 10000000 - 1 / 2) / D).
  { unfold standard. fold D. rewrite Av. cbn [get ex_pair tC tH tW tdata nth Nat.mul Nat.add]. repeat split; (f_equal; lra). }
  destruct St as (Z1 & Z2 & Z3 & Z4). assert (I : 0 < / D) by (apply Rinv_0_lt_compat; exact HD). assert (I2 : 0 < / D * / D) by (apply Rmult_lt_0_compat; exact I).
  assert (A00 : agreement ex_pair ex_pair 0 0 = ((1 / 10000000 - 1 / 2) ^ 2 + (1 / 10000000 + 1 / 2) ^ 2) / 4 * (/ D * / D)) by (unfold agreement; change (size_of ex_pair) with 4%nat; change (tB ex_pair) with 1%nat; change (tH ex_pair) with 1%nat; change (tW ex_pair) with 2%nat; cbn [rsum]; rewrite Z1, Z2; cbn [INR]; field; apply Rgt_not_eq; exact HD).
  assert (A11 : agreement ex_pair ex_pair 1 1 = ((1 / 10000000 - 1 / 2) ^ 2 + (1 / 10000000 + 1 / 2) ^ 2) / 4 * (/ D * / D)) by (unfold agreement; change (size_of ex_pair) with 4%nat; change (tB ex_pair) with 1%nat; change (tH ex_pair) with 1%nat; change (tW ex_pair) with 2%nat; cbn [rsum]; rewrite Z3, Z4; cbn [INR]; field; apply Rgt_not_eq; exact HD).
  assert (A01 : agreement ex_pair ex_pair 0 1 = 2 * ((1 / 10000000 - 1 / 2) * (1 / 10000000 + 1 / 2)) / 4 * (/ D * / D)) by (unfold agreement; change (size_of ex_pair) with 4%nat; change (tB ex_pair) with 1%nat; change (tH ex_pair) with 1%nat; change (tW ex_pair) with 2%nat; cbn [rsum]; rewrite Z1, Z2, Z3, Z4; cbn [INR]; field; apply Rgt_not_eq; exact HD).
  assert (Ng : agreement ex_pair ex_pair 0 1 < 0) by (rewrite A01; nra). assert (Ps : 0 < agreement ex_pair ex_pair 0 0) by (rewrite A00; apply Rmult_lt_0_compat; lra).
  split; [congruence|]. split; [split; assumption|].
  destruct (auto_table_ok ex_pair ex_pair Wt Wt eq_refl S2) as (t & E & Wtt & Sh & G). exists t. destruct (C73_stats (tdata t)) as (_ & Hs & Hb). destruct Hs as [s Es].
  { unfold shape in Sh. repeat rewrite pair_equal_spec in Sh. destruct Sh as [[[S1 S2'] S3] S4]. unfold twf in Wtt. rewrite S1, S2', S3, S4 in Wtt. intros N. rewrite N in Wtt. discriminate. }
  exists s. split; [exact E|]. split; [exact Es|]. destruct (Hb s Es) as ((_ & _ & _ & _ & _ & _ & B) & _).
  unfold shape in Sh. repeat rewrite pair_equal_spec in Sh. destruct Sh as [[[S1 S2'] S3] S4].
  assert (G00 : In (agreement ex_pair ex_pair 0 0) (tdata t)) by (rewrite <- (G 0 0)%nat by (cbn; lia); apply get_in_data; auto; rewrite ?S1, ?S2', ?S3, ?S4; cbn; lia).
  assert (G01 : In (agreement ex_pair ex_pair 0 1) (tdata t)) by (rewrite <- (G 0 1)%nat by (cbn; lia); apply get_in_data; auto; rewrite ?S1, ?S2', ?S3, ?S4; cbn; lia).
  apply B in G00. apply B in G01. lra.
Qed.

Example C73_misfit_example : tB (mkT 1 1 1 1 [0]) <> tB (mkT 2 1 1 1 [0; 0]).
Proof. discriminate. Qed.

Print Assumptions C73_table.
Print Assumptions C73_trace.
Print Assumptions C73_one_channel.
Print Assumptions C73_misfit.
Print Assumptions C73_stats.
Print Assumptions C60_shift.
Print Assumptions C60_far.
Print Assumptions C60_empty.
Print Assumptions C61_bounds.
Print Assumptions C61_value.
Print Assumptions C61_from.
Print Assumptions C61_histogram.
Print Assumptions C61_constant.
Print Assumptions C61_succeeds.
Print Assumptions C61_empty.
Print Assumptions C61_two.
Print Assumptions C61_affine.
Print Assumptions C61_spatial.
Print Assumptions C61_equivariant.
Print Assumptions C61_clipped.
Print Assumptions C61_clipped_empty.
Print Assumptions C62_total.
Print Assumptions C62_column.
Print Assumptions C62_refuted.
Print Assumptions C62_value.
Print Assumptions C62_bounds.
Print Assumptions C62_succeeds.
Print Assumptions C62_direction.
Print Assumptions C62_multi.
Print Assumptions C62_multi_succeeds.
Print Assumptions C71_even.
Print Assumptions C71_odd.
Print Assumptions C71_three.
Print Assumptions C71_fits.
Print Assumptions C71_pattern.
Print Assumptions C72_run.
Print Assumptions C72_measures.
Print Assumptions C72_succeeds.
Print Assumptions C73_bound.
Print Assumptions C73_symmetric.
Print Assumptions C73_self.
Print Assumptions C73_constant.
Print Assumptions C73_errors.
