(** Gray-Scott universes that fade out (proofs). *)
From Coq Require Import Reals Lra Lia List Arith Bool ZArith String.
From Verif Require Import Base PyDict Tensor MActivations MKernels MCommon MCca MRd PTensor PStep PCca PDyn PSym SGrid SCca SKern PKern PKernX SRd PRd SFade PFade.
Import ListNotations.
Open Scope R_scope.

(** ** Diffusion *)
Lemma rsum_centre n r f : (r < n)%nat -> (forall y, (y < n)%nat -> y <> r -> f y <= 0) -> rsum n f <= f r.
Proof.
  intros Hr H. replace (f r) with (rsum n (fun y => if Nat.eqb y r then f y else 0)).
  - apply rsum_le. intros y Hy. destruct (Nat.eqb_spec y r); [lra|auto].
  - rewrite (rsum_single n r); [rewrite Nat.eqb_refl; reflexivity|exact Hr|]. intros y _ N. destruct (Nat.eqb_spec y r); [contradiction|reflexivity].
Qed.

Lemma levels_down r a k H W f M i j : levelling r a k -> (i < H)%nat -> (j < W)%nat -> (forall y x, (y < H)%nat -> (x < W)%nat -> f y x <= M) ->
  toroidal_sum r H W k f i j <= a * (M - f i j).
Proof.
  intros (Hc & Ho & Hs) Hi Hj Hf. set (g := fun y x => f (zmod (Z.of_nat i + Z.of_nat y - Z.of_nat r) H) (zmod (Z.of_nat j + Z.of_nat x - Z.of_nat r) W)).
  assert (G : forall y x, g y x <= M) by (intros y x; apply Hf; apply zmod_lt; lia).
  assert (C : g r r = f i j). { unfold g. replace (Z.of_nat i + Z.of_nat r - Z.of_nat r)%Z with (Z.of_nat i) by lia. replace (Z.of_nat j + Z.of_nat r - Z.of_nat r)%Z with (Z.of_nat j) by lia. rewrite !zmod_small by assumption. reflexivity. }
  assert (E : toroidal_sum r H W k f i j = rsum (2 * r + 1) (fun y => rsum (2 * r + 1) (fun x => k y x * (g y x - M)))).
  { rewrite (rsum_ext _ (fun y => rsum (2 * r + 1) (fun x => k y x * (g y x - M))) (fun y => rsum (2 * r + 1) (fun x => k y x * g y x) - rsum (2 * r + 1) (fun x => k y x) * M)).
    - rewrite rsum_minus, rsum_scal_r, Hs. unfold toroidal_sum, g. ring.
    - intros y _. rewrite <- rsum_scal_r, <- rsum_minus. apply rsum_ext. intros x _. ring. }
  rewrite E. eapply Rle_trans; [apply (rsum_centre _ r); [lia|]|].
  - intros y Hy N. rewrite <- (Rmult_0_r (INR (2 * r + 1))), <- rsum_const. apply rsum_le. intros x Hx. specialize (Ho y x Hy Hx ltac:(lia)). specialize (G y x). assert (0 <= k y x * (M - g y x)) by (apply Rmult_le_pos; lra). lra.
  - eapply Rle_trans; [apply (rsum_centre _ r); [lia|]|].
    + intros x Hx N. specialize (Ho r x ltac:(lia) Hx ltac:(lia)). specialize (G r x). assert (0 <= k r x * (M - g r x)) by (apply Rmult_le_pos; lra). lra.
    + rewrite Hc, C. right. ring.
Qed.

Lemma levels_up r a k H W f m i j : levelling r a k -> (i < H)%nat -> (j < W)%nat -> (forall y x, (y < H)%nat -> (x < W)%nat -> m <= f y x) ->
  a * (m - f i j) <= toroidal_sum r H W k f i j.
Proof.
  intros L Hi Hj Hf. pose proof (levels_down r a k H W (fun y x => - f y x) (- m) i j L Hi Hj) as Q. cbv beta in Q.
  assert (E : toroidal_sum r H W k (fun y x => - f y x) i j = - toroidal_sum r H W k f i j).
  { unfold toroidal_sum. replace (- rsum (2 * r + 1) (fun y => rsum (2 * r + 1) (fun x => k y x * f (zmod (Z.of_nat i + Z.of_nat y - Z.of_nat r) H) (zmod (Z.of_nat j + Z.of_nat x - Z.of_nat r) W))))
      with (rsum (2 * r + 1) (fun y => rsum (2 * r + 1) (fun x => k y x * f (zmod (Z.of_nat i + Z.of_nat y - Z.of_nat r) H) (zmod (Z.of_nat j + Z.of_nat x - Z.of_nat r) W))) * -1) by ring.
    rewrite <- rsum_scal_r. apply rsum_ext. intros y _. rewrite <- rsum_scal_r. apply rsum_ext. intros x _. ring. }
  rewrite E in Q. assert (X : forall y x, (y < H)%nat -> (x < W)%nat -> - f y x <= - m) by (intros y x Hy Hx; specialize (Hf y x Hy Hx); lra). specialize (Q X). lra.
Qed.

(** ** One step *)
Lemma rd_cell s u u' : rd_layers s -> twf u -> rd_forward s u = Ok u' -> exists d, ca_update (rd_idl s) (rd_nbl s) (rd_update s) u = Ok d /\
  (tC u = 2%nat -> shape d = shape u -> forall b c i j, (b < tB u)%nat -> (c < 2)%nat -> (i < tH u)%nat -> (j < tW u)%nat -> get u' b c i j = clamp 0 1 (get u b c i j + rd_dt s * get d b c i j)).
Proof.
  intros L T E. unfold rd_forward, ca_forward in E. cbn [bind] in E. apply bind_ok in E as (d & Ed & E). exists d. split; [exact Ed|]. intros Ec Sd b c i j Hb Hc Hi Hj.
  assert (Td : twf d).
  { unfold ca_update in Ed. apply bind_ok in Ed as (x & _ & Ed). apply bind_ok in Ed as (y & _ & Ed). unfold rd_update in Ed. apply bind_ok in Ed as (? & _ & Ed). apply bind_ok in Ed as (? & _ & Ed). apply Ok_inj in Ed. subst d. apply twf_build. }
  unfold euler in E. rewrite tzip_same in E by (change (shape u = shape d); congruence). cbn [bind] in E. injection E as <-. unfold shape in Sd. injection Sd as S1 S2 S3 S4.
  rewrite tmap_build, get_build by (auto; congruence). rewrite get_tmap by (auto; congruence). reflexivity.
Qed.

Record wash (s : rd) (r : nat) (a : R) : Prop := mkWash {
  wa_inv : rd_inv s;
  wa_id : rd_id s;
  wa_ker : exists cfg k, rd_cfg s = Some cfg /\ get_kernel cfg = Ok k /\ tH k = (2 * r + 1)%nat /\ levelling r a (fun y x => get k 0 0 y x);
  wa_a : 0 <= a; wa_dt : 0 <= rd_dt s; wa_du : 0 <= rd_du s; wa_dv : 0 <= rd_dv s; wa_f : 0 <= rd_f s; wa_k : 0 <= rd_k s;
  wa_u : rd_dt s * (rd_du s / rd_dx s ^ 2 * a + rd_f s) <= 1;
  wa_v : rd_dt s * (rd_dv s / rd_dx s ^ 2 * a + (rd_f s + rd_k s)) <= 1 }.

Lemma wash_cell s r a u u' : wash s r a -> twf u -> rd_forward s u = Ok u' -> tC u = 2%nat /\ 0 < rd_dx s ^ 2 /\ exists Lu Lv : nat -> nat -> nat -> R,
  (forall b i j M, (b < tB u)%nat -> (i < tH u)%nat -> (j < tW u)%nat -> channel_below 1 M u -> Lv b i j <= a * (M - get u b 1 i j)) /\
  (forall b i j m, (b < tB u)%nat -> (i < tH u)%nat -> (j < tW u)%nat -> channel_above 0 m u -> a * (m - get u b 0 i j) <= Lu b i j) /\
  forall b i j, (b < tB u)%nat -> (i < tH u)%nat -> (j < tW u)%nat ->
    get u' b 0 i j = clamp 0 1 (get u b 0 i j + rd_dt s * (rd_du s * (Lu b i j / rd_dx s ^ 2) + react_u (rd_f s) (get u b 0 i j) (get u b 1 i j))) /\
    get u' b 1 i j = clamp 0 1 (get u b 1 i j + rd_dt s * (rd_dv s * (Lv b i j / rd_dx s ^ 2) + react_v (rd_f s) (rd_k s) (get u b 0 i j) (get u b 1 i j))).
Proof.
  intros W T E. destruct (rd_cell s u u' (rd_inv_layers s (wa_inv _ _ _ W)) T E) as (d & Ed & G). destruct (rd_update_parts s u d (wa_inv _ _ _ W) (wa_id _ _ _ W) T Ed) as (nb & _ & X & Ec & Sd & H0 & W0 & _).
  destruct (wa_ker _ _ _ W) as (cfg & k & K1 & K2 & K3 & L). split; [exact Ec|]. split; [assert (0 <= rd_dx s ^ 2) by apply pow2_ge_0; lra|].
  exists (fun b i j => toroidal_sum r (tH u) (tW u) (fun y x => get k 0 0 y x) (get u b 0) i j), (fun b i j => toroidal_sum r (tH u) (tW u) (fun y x => get k 0 0 y x) (get u b 1) i j). split; [|split].
  - intros b i j M Hb Hi Hj C. apply levels_down; auto.
  - intros b i j m Hb Hi Hj C. apply levels_up; auto.
  - intros b i j Hb Hi Hj. destruct (rd_terms s u d cfg k r b i j (wa_inv _ _ _ W) (wa_id _ _ _ W) T K1 K2 K3 Ed Hb Hi Hj) as [D0 D1]. rewrite !(G Ec Sd) by (auto; lia). rewrite D0, D1. auto.
Qed.

Lemma unit_get u b c i j : twf u -> in_unit u -> (b < tB u)%nat -> (c < tC u)%nat -> (i < tH u)%nat -> (j < tW u)%nat -> 0 <= get u b c i j <= 1.
Proof. intros T U. apply (below_get 1 u b c i j T U). Qed.

Lemma clamp_le x y : 0 <= y -> x <= y -> clamp 0 1 x <= y.
Proof. intros H1 H2. unfold clamp. eapply Rle_trans; [apply Rmin_l|]. apply Rmax_lub; assumption. Qed.

Lemma clamp_ge x y : y <= 1 -> y <= x -> y <= clamp 0 1 x.
Proof. intros H1 H2. unfold clamp. apply Rmin_glb; [|exact H1]. eapply Rle_trans; [exact H2|apply Rmax_l]. Qed.

Lemma rate_pos D a b dt X : 0 <= dt -> 0 <= D -> 0 <= a -> 0 < X -> dt * (D / X * a + b) <= 1 -> dt * b <= 1 /\ 0 <= dt * (D / X * a).
Proof.
  intros H1 H2 H3 H4 H5. assert (0 <= dt * (D / X * a)). { apply Rmult_le_pos; [exact H1|]. apply Rmult_le_pos; [|exact H3]. unfold Rdiv. apply Rmult_le_pos; [exact H2|left; apply Rinv_0_lt_compat; exact H4]. } split; lra.
Qed.

Lemma diffuse_le D a dt X L z : 0 <= dt -> 0 <= D -> 0 < X -> L <= a * z -> dt * (D * (L / X)) <= dt * (D / X * a) * z.
Proof.
  intros H1 H2 H3 H4. replace (dt * (D / X * a) * z) with (dt * (D * (a * z / X))) by (field; lra). apply Rmult_le_compat_l; [exact H1|]. apply Rmult_le_compat_l; [exact H2|]. unfold Rdiv. apply Rmult_le_compat_r; [left; apply Rinv_0_lt_compat; exact H3|exact H4].
Qed.

Lemma wash_v s r a u u' M : wash s r a -> twf u -> in_unit u -> 0 <= M <= rd_f s + rd_k s -> channel_below 1 M u -> rd_forward s u = Ok u' ->
  channel_below 1 (M * (1 - rd_dt s * (rd_f s + rd_k s - M))) u'.
Proof.
  intros W T U HM C E. destruct (wash_cell s r a u u' W T E) as (Ec & X & Lu & Lv & Hv & _ & G). destruct (rd_shape s u u' (rd_inv_layers s (wa_inv _ _ _ W)) T E) as [Sh _]. unfold shape in Sh. injection Sh as S1 S2 S3 S4.
  intros b i j Hb Hi Hj. rewrite S1 in Hb. rewrite S3 in Hi. rewrite S4 in Hj. destruct (G b i j Hb Hi Hj) as [_ ->]. specialize (Hv b i j M Hb Hi Hj C). specialize (C b i j Hb Hi Hj).
  pose proof (unit_get u b 0 i j T U Hb ltac:(lia) Hi Hj) as Uu. pose proof (unit_get u b 1 i j T U Hb ltac:(lia) Hi Hj) as Uv. set (x := get u b 0 i j) in *. set (v := get u b 1 i j) in *. set (L := Lv b i j) in *.
  destruct (rate_pos _ _ _ _ _ (wa_dt _ _ _ W) (wa_dv _ _ _ W) (wa_a _ _ _ W) X (wa_v _ _ _ W)) as [Q1 Q2]. pose proof (diffuse_le _ _ _ _ L (M - v) (wa_dt _ _ _ W) (wa_dv _ _ _ W) X Hv) as Q3. pose proof (wa_v _ _ _ W) as Q4. pose proof (wa_dt _ _ _ W) as Q5.
  set (ka := rd_dt s * (rd_dv s / rd_dx s ^ 2 * a)) in *. set (g := rd_f s + rd_k s) in *. set (dt := rd_dt s) in *. rewrite Rmult_plus_distr_l in Q4. fold ka in Q4.
  assert (R : x * v ^ 2 <= M * v). { replace (x * v ^ 2) with (x * v * v) by ring. apply Rmult_le_compat_r; [lra|]. rewrite <- (Rmult_1_l M). apply Rmult_le_compat; lra. }
  assert (R' : dt * (x * v ^ 2) <= dt * (M * v)) by (apply Rmult_le_compat_l; assumption). assert (P : 0 <= dt * M) by (apply Rmult_le_pos; lra).
  assert (F : 0 <= (M - v) * (1 - ka - dt * g + dt * M)) by (apply Rmult_le_pos; lra). unfold react_v. fold g. apply clamp_le.
  - apply Rmult_le_pos; lra.
  - lra.
Qed.

Lemma wash_u s r a u u' M w : wash s r a -> twf u -> in_unit u -> 0 <= M -> 0 <= w -> channel_below 1 M u -> channel_above 0 (1 - w) u -> rd_forward s u = Ok u' ->
  channel_above 0 (1 - ((1 - rd_dt s * rd_f s) * w + rd_dt s * M ^ 2)) u'.
Proof.
  intros W T U HM Hw C A E. destruct (wash_cell s r a u u' W T E) as (Ec & X & Lu & Lv & _ & Hu & G). destruct (rd_shape s u u' (rd_inv_layers s (wa_inv _ _ _ W)) T E) as [Sh _]. unfold shape in Sh. injection Sh as S1 S2 S3 S4.
  intros b i j Hb Hi Hj. rewrite S1 in Hb. rewrite S3 in Hi. rewrite S4 in Hj. destruct (G b i j Hb Hi Hj) as [-> _]. specialize (Hu b i j (1 - w) Hb Hi Hj A). specialize (C b i j Hb Hi Hj). specialize (A b i j Hb Hi Hj).
  pose proof (unit_get u b 0 i j T U Hb ltac:(lia) Hi Hj) as Uu. pose proof (unit_get u b 1 i j T U Hb ltac:(lia) Hi Hj) as Uv. set (x := get u b 0 i j) in *. set (v := get u b 1 i j) in *. set (L := Lu b i j) in *.
  destruct (rate_pos _ _ _ _ _ (wa_dt _ _ _ W) (wa_du _ _ _ W) (wa_a _ _ _ W) X (wa_u _ _ _ W)) as [Q1 Q2]. pose proof (diffuse_le _ a _ _ (- L) (x - (1 - w)) (wa_dt _ _ _ W) (wa_du _ _ _ W) X ltac:(lra)) as Q3. pose proof (wa_u _ _ _ W) as Q4. pose proof (wa_dt _ _ _ W) as Q5.
  set (ka := rd_dt s * (rd_du s / rd_dx s ^ 2 * a)) in *. set (dt := rd_dt s) in *. rewrite Rmult_plus_distr_l in Q4. fold ka in Q4. replace (dt * (rd_du s * (- L / rd_dx s ^ 2))) with (- (dt * (rd_du s * (L / rd_dx s ^ 2)))) in Q3 by (unfold Rdiv; ring).
  assert (R : x * v ^ 2 <= 1 * M ^ 2). { apply Rmult_le_compat; [lra|apply pow_le; lra|lra|apply pow_incr; lra]. }
  assert (R' : dt * (x * v ^ 2) <= dt * (1 * M ^ 2)) by (apply Rmult_le_compat_l; assumption). assert (P : 0 <= dt * M ^ 2) by (apply Rmult_le_pos; [lra|apply pow_le; lra]). assert (P1 : 0 <= (1 - dt * rd_f s) * w) by (apply Rmult_le_pos; lra).
  assert (F : 0 <= (w - (1 - x)) * (1 - ka - dt * rd_f s)) by (apply Rmult_le_pos; lra). unfold react_u. apply clamp_ge; lra.
Qed.

(** ** Runs *)
Lemma rd_iter_shape s n : forall u u', rd_layers s -> twf u -> in_unit u -> iter_res (rd_forward s) n u = Ok u' -> twf u' /\ in_unit u' /\ shape u' = shape u.
Proof.
  induction n as [|n IH]; intros u u' L T U E; cbn [iter_res] in E; [injection E as <-; auto|]. apply bind_ok in E as (v & E1 & E2). destruct (rd_shape s u v L T E1) as [S1 T1]. pose proof (rd_in_unit s u v E1) as U1. destruct (IH v u' L T1 U1 E2) as (A & B & C). repeat split; auto. congruence.
Qed.

Lemma wash_q s r a M : wash s r a -> 0 < rd_dx s ^ 2 -> 0 <= M <= rd_f s + rd_k s -> 0 <= 1 - rd_dt s * (rd_f s + rd_k s - M) <= 1.
Proof.
  intros W X HM. destruct (rate_pos _ _ _ _ _ (wa_dt _ _ _ W) (wa_dv _ _ _ W) (wa_a _ _ _ W) X (wa_v _ _ _ W)) as [Q1 _]. pose proof (wa_dt _ _ _ W) as D.
  assert (0 <= rd_dt s * M) by (apply Rmult_le_pos; lra). assert (0 <= rd_dt s * (rd_f s + rd_k s - M)) by (apply Rmult_le_pos; lra). lra.
Qed.

Lemma below_weaken c M M' u : M <= M' -> channel_below c M u -> channel_below c M' u.
Proof. intros H C b i j Hb Hi Hj. eapply Rle_trans; [apply C; auto|exact H]. Qed.

Lemma above_weaken c m m' u : m' <= m -> channel_above c m u -> channel_above c m' u.
Proof. intros H C b i j Hb Hi Hj. eapply Rle_trans; [exact H|apply C; auto]. Qed.

Lemma wash_run_v s r a n : forall u u' M, wash s r a -> twf u -> in_unit u -> 0 <= M <= rd_f s + rd_k s -> channel_below 1 M u -> iter_res (rd_forward s) n u = Ok u' ->
  channel_below 1 (M * (1 - rd_dt s * (rd_f s + rd_k s - M)) ^ n) u'.
Proof.
  induction n as [|n IH]; intros u u' M W T U HM C E; cbn [iter_res] in E.
  - injection E as <-. rewrite pow_O, Rmult_1_r. exact C.
  - apply bind_ok in E as (v & E1 & E2). destruct (wash_cell s r a u v W T E1) as (_ & X & _). pose proof (wash_q s r a M W X HM) as Q. pose proof (wash_v s r a u v M W T U HM C E1) as C1. destruct (rd_shape s u v (rd_inv_layers s (wa_inv _ _ _ W)) T E1) as [_ T1]. pose proof (rd_in_unit s u v E1) as U1.
    set (q := 1 - rd_dt s * (rd_f s + rd_k s - M)) in *. assert (M1 : 0 <= M * q <= M). { split; [apply Rmult_le_pos; lra|]. rewrite <- (Rmult_1_r M) at 2. apply Rmult_le_compat_l; lra. }
    assert (H1 : 0 <= M * q <= rd_f s + rd_k s) by lra. pose proof (IH v u' (M * q) W T1 U1 H1 C1 E2) as C2. eapply below_weaken; [|exact C2]. cbn [pow]. rewrite (Rmult_assoc M q). apply Rmult_le_compat_l; [lra|]. apply Rmult_le_compat_l; [lra|].
    apply pow_incr. split; [apply (wash_q s r a _ W X H1)|]. unfold q at 2. assert (rd_dt s * (rd_f s + rd_k s - M) <= rd_dt s * (rd_f s + rd_k s - M * q)) by (apply Rmult_le_compat_l; [apply (wa_dt _ _ _ W)|lra]). lra.
Qed.

(** Once v is at most [M], u makes up for what is missing. *)
Lemma wash_run_u s r a n : forall u u' M w, wash s r a -> 0 < rd_f s -> 0 < rd_dt s -> twf u -> in_unit u -> 0 <= M <= rd_f s + rd_k s -> 0 <= w -> channel_below 1 M u -> channel_above 0 (1 - (w + M ^ 2 / rd_f s)) u -> iter_res (rd_forward s) n u = Ok u' ->
  channel_above 0 (1 - ((1 - rd_dt s * rd_f s) ^ n * w + M ^ 2 / rd_f s)) u'.
Proof.
  induction n as [|n IH]; intros u u' M w W Hf Hd T U HM Hw C A E; cbn [iter_res] in E.
  - injection E as <-. rewrite pow_O, Rmult_1_l. exact A.
  - apply bind_ok in E as (v & E1 & E2). destruct (wash_cell s r a u v W T E1) as (_ & X & _). pose proof (wash_q s r a M W X HM) as Q. pose proof (wash_v s r a u v M W T U HM C E1) as C1. destruct (rd_shape s u v (rd_inv_layers s (wa_inv _ _ _ W)) T E1) as [_ T1]. pose proof (rd_in_unit s u v E1) as U1.
    destruct (rate_pos _ _ _ _ _ (wa_dt _ _ _ W) (wa_du _ _ _ W) (wa_a _ _ _ W) X (wa_u _ _ _ W)) as [Q1 _].
    assert (P : 0 <= M ^ 2 / rd_f s) by (unfold Rdiv; apply Rmult_le_pos; [apply pow_le; lra|left; apply Rinv_0_lt_compat; exact Hf]).
    pose proof (wash_u s r a u v M (w + M ^ 2 / rd_f s) W T U (proj1 HM) ltac:(lra) C A E1) as A1.
    assert (C1' : channel_below 1 M v). { eapply below_weaken; [|exact C1]. rewrite <- (Rmult_1_r M) at 3. apply Rmult_le_compat_l; lra. }
    cbn [pow]. rewrite (Rmult_comm (1 - rd_dt s * rd_f s)), Rmult_assoc. apply (IH v u' M ((1 - rd_dt s * rd_f s) * w) W Hf Hd T1 U1 HM); auto; [apply Rmult_le_pos; lra|]. eapply above_weaken; [|exact A1]. right. field. lra.
Qed.

Lemma iter_split {A} (f : A -> res A) m n : forall u w, iter_res f (m + n) u = Ok w -> exists v, iter_res f m u = Ok v /\ iter_res f n v = Ok w.
Proof. induction m as [|m IH]; intros u w E; cbn [iter_res Nat.add] in *; [exists u; auto|]. apply bind_ok in E as (x & E1 & E2). destruct (IH x w E2) as (v & V1 & V2). exists v. rewrite E1. cbn [bind]. auto. Qed.

Lemma get_nonneg u b c i j : in_unit u -> 0 <= get u b c i j.
Proof.
  intros U. unfold get. match goal with |- 0 <= nth ?n ?l 0 => destruct (nth_in_or_default n l 0) as [I| ->]; [|lra] end. unfold in_unit in U. rewrite Forall_forall in U. apply U in I. lra.
Qed.

Lemma washed_out s r a M eps : wash s r a -> rd_dx s <> 0 -> 0 < rd_f s -> 0 < rd_dt s -> 0 <= M < rd_f s + rd_k s -> 0 < eps ->
  exists N, forall n u u', (N <= n)%nat -> twf u -> in_unit u -> channel_below 1 M u -> iter_res (rd_forward s) n u = Ok u' -> channel_below 1 eps u' /\ channel_above 0 (1 - eps) u'.
Proof.
  intros W X0 Hf Hd HM He. assert (X : 0 < rd_dx s ^ 2) by (assert (rd_dx s ^ 2 <> 0) by (apply pow_nonzero; exact X0); assert (0 <= rd_dx s ^ 2) by apply pow2_ge_0; lra).
  pose proof (wash_q s r a M W X ltac:(lra)) as Q. set (q := 1 - rd_dt s * (rd_f s + rd_k s - M)) in *. assert (Q1 : Rabs q < 1). { rewrite Rabs_pos_eq by lra. unfold q. assert (0 < rd_dt s * (rd_f s + rd_k s - M)) by (apply Rmult_lt_0_compat; lra). lra. }
  destruct (rate_pos _ _ _ _ _ (wa_dt _ _ _ W) (wa_du _ _ _ W) (wa_a _ _ _ W) X (wa_u _ _ _ W)) as [P0 _]. set (p := 1 - rd_dt s * rd_f s) in *. assert (P1 : Rabs p < 1). { rewrite Rabs_pos_eq by (unfold p; lra). unfold p. assert (0 < rd_dt s * rd_f s) by (apply Rmult_lt_0_compat; lra). lra. }
  pose proof (wa_k _ _ _ W) as Hk.
  (* the level of v at which u can only miss eps / 2 *)
  set (m := Rmin (Rmin eps (rd_f s)) (Rmin 1 (eps * rd_f s / 2))). assert (Em : 0 < eps * rd_f s) by (apply Rmult_lt_0_compat; assumption).
  assert (m0 : 0 < m) by (unfold m; repeat apply Rmin_glb_lt; lra). assert (m1 : m <= eps) by (unfold m; eapply Rle_trans; [apply Rmin_l|apply Rmin_l]). assert (m2 : m <= rd_f s) by (unfold m; eapply Rle_trans; [apply Rmin_l|apply Rmin_r]).
  assert (m3 : m <= 1) by (unfold m; eapply Rle_trans; [apply Rmin_r|apply Rmin_l]). assert (m4 : m <= eps * rd_f s / 2) by (unfold m; eapply Rle_trans; [apply Rmin_r|apply Rmin_r]).
  assert (m5 : m ^ 2 / rd_f s <= eps / 2). { apply (Rmult_le_reg_r (rd_f s)); [exact Hf|]. unfold Rdiv at 1. rewrite Rmult_assoc, Rinv_l by lra. assert (m * m <= 1 * m) by (apply Rmult_le_compat_r; lra). lra. }
  assert (m6 : 0 <= m ^ 2 / rd_f s) by (unfold Rdiv; apply Rmult_le_pos; [apply pow_le; lra|left; apply Rinv_0_lt_compat; exact Hf]).
  destruct (pow_lt_1_zero q Q1 (m / (M + 1)) ltac:(apply Rdiv_lt_0_compat; lra)) as (N1 & H1). destruct (pow_lt_1_zero p P1 (eps / 2) ltac:(lra)) as (N2 & H2).
  assert (B : forall n u u', (N1 <= n)%nat -> twf u -> in_unit u -> channel_below 1 M u -> iter_res (rd_forward s) n u = Ok u' -> channel_below 1 m u').
  { intros n u u' Hn T U C E. pose proof (wash_run_v s r a n u u' M W T U ltac:(lra) C E) as V. fold q in V. eapply below_weaken; [|exact V]. specialize (H1 n Hn). pose proof (Rle_abs (q ^ n)). assert (M * q ^ n <= (M + 1) * (m / (M + 1))).
    { apply Rle_trans with ((M + 1) * q ^ n); [apply Rmult_le_compat_r; [apply pow_le; lra|lra]|apply Rmult_le_compat_l; lra]. } replace ((M + 1) * (m / (M + 1))) with m in H0 by (field; lra). exact H0. }
  exists (N1 + N2)%nat. intros n u u' Hn T U C E. split; [eapply below_weaken; [exact m1|]; apply (B n u u'); auto; lia|].
  replace n with (N1 + (n - N1))%nat in E by lia. destruct (iter_split _ _ _ _ _ E) as (v & E1 & E2). destruct (rd_iter_shape s N1 u v (rd_inv_layers s (wa_inv _ _ _ W)) T U E1) as (T1 & U1 & _). pose proof (B N1 u v (Nat.le_refl _) T U C E1) as C1.
  assert (A1 : channel_above 0 (1 - (1 + m ^ 2 / rd_f s)) v). { intros b i j _ _ _. pose proof (get_nonneg v b 0 i j U1). lra. }
  pose proof (wash_run_u s r a (n - N1) v u' m 1 W Hf Hd T1 U1 ltac:(lra) ltac:(lra) C1 A1 E2) as A2. fold p in A2. eapply above_weaken; [|exact A2]. specialize (H2 (n - N1)%nat ltac:(lia)). pose proof (Rle_abs (p ^ (n - N1))). lra.
Qed.

(** ** The Laplacian of a Gaussian on a 3 x 3 kernel *)
Lemma bell_tail x : (x - 1) * exp (- x) <= 1 / 4.
Proof.
  assert (E : exp x = exp 1 * exp 1 * exp (x - 2)) by (rewrite <- !exp_plus; f_equal; ring). assert (E1 : 2 <= exp 1) by (pose proof (exp_ineq1 1 ltac:(lra)); lra).
  assert (E2 : x - 1 <= exp (x - 2)). { pose proof (exp_ineq1_le (x - 2)). lra. }
  pose proof (exp_pos (x - 2)) as P. assert (E3 : 4 * (x - 1) <= exp x). { rewrite E. apply Rle_trans with (4 * exp (x - 2)); [lra|]. apply Rmult_le_compat_r; [lra|]. replace 4 with (2 * 2) by ring. apply Rmult_le_compat; lra. }
  rewrite exp_Ropp. pose proof (exp_pos x) as Px. apply (Rmult_le_reg_r (exp x)); [exact Px|]. rewrite Rmult_assoc, Rinv_l by lra. lra.
Qed.

Lemma log_levelling s k : s <> 0 -> s ^ 2 <= 1 / 2 -> (let* g := kernel_grid 1 1 in log_apply s g) = Ok k -> shape k = (1, 1, 3, 3)%nat /\ levelling 1 (1 / 2) (fun y x => get k 0 0 y x).
Proof.
  intros S0 S1 H. destruct (log_kernel_radial s 1 k H) as (_ & Wk & Sh & _ & T1 & T2). split; [exact Sh|]. cbn [Nat.mul Nat.add] in Sh.
  apply bind_ok in H as (g & Hg & H). unfold kernel_grid in Hg. cbn [Nat.eqb negb guard bind] in Hg. injection Hg as <-.
  destruct (log_apply_get s _ k (twf_build _ _ _ _ _) H) as (_ & mean & tot & Ht & Hk).
  assert (P2 : 0 < s ^ 2) by (assert (s ^ 2 <> 0) by (apply pow_nonzero; exact S0); assert (0 <= s ^ 2) by apply pow2_ge_0; lra).
  set (t := 1 / (2 * s ^ 2)). assert (Ht1 : 1 <= t). { unfold t. apply (Rmult_le_reg_r (2 * s ^ 2)); [lra|]. unfold Rdiv. rewrite Rmult_assoc, Rinv_l by lra. lra. }
  assert (A0 : 0 < 1 / (PI * s ^ 4)). { apply Rdiv_lt_0_compat; [lra|]. apply Rmult_lt_0_compat; [apply PI_RGT_0|]. replace (s ^ 4) with (s ^ 2 * s ^ 2) by ring. apply Rmult_lt_0_compat; exact P2. } set (A := 1 / (PI * s ^ 4)) in *.
  assert (G : forall n x, x ^ 2 = INR n -> log_raw s x = A * ((INR n * t - 1) * exp (- (INR n * t)))). { intros n x Ex. unfold log_raw. rewrite Ex. fold A. replace (INR n / (2 * s ^ 2)) with (INR n * t) by (unfold t; field; exact S0). replace (- INR n / (2 * s ^ 2)) with (- (INR n * t)) by (unfold t; field; exact S0). ring. }
  assert (Q : forall y x n, (y < 3)%nat -> (x < 3)%nat -> off 1 x ^ 2 + off 1 y ^ 2 = INR n -> get k 0 0 y x = (A * ((INR n * t - 1) * exp (- (INR n * t))) - mean) / tot).
  { intros y x n Hy Hx En. rewrite Hk by (cbn; lia). rewrite get_build by lia. rewrite (G n); [reflexivity|]. change (off 1 x * (off 1 x * 1) + off 1 y * (off 1 y * 1)) with (off 1 x ^ 2 + off 1 y ^ 2). rewrite En, Rmult_1_r. unfold Rdiv. rewrite Rinv_1, Rmult_1_r, <- Rsqr_pow2. apply Rsqr_sqrt. apply pos_INR. }
  assert (O0 : off 1 0 ^ 2 = 1) by (unfold off; cbn; lra). assert (O1 : off 1 1 ^ 2 = 0) by (unfold off; cbn; lra). assert (O2 : off 1 2 ^ 2 = 1) by (unfold off; cbn; lra).
  set (e := (A * ((INR 1 * t - 1) * exp (- (INR 1 * t))) - mean) / tot). set (c := (A * ((INR 2 * t - 1) * exp (- (INR 2 * t))) - mean) / tot). set (z := (A * ((INR 0 * t - 1) * exp (- (INR 0 * t))) - mean) / tot).
  assert (K00 : get k 0 0 0 0 = c) by (apply Q; [lia|lia|cbn [INR]; lra]). assert (K01 : get k 0 0 0 1 = e) by (apply Q; [lia|lia|cbn [INR]; lra]). assert (K02 : get k 0 0 0 2 = c) by (apply Q; [lia|lia|cbn [INR]; lra]).
  assert (K10 : get k 0 0 1 0 = e) by (apply Q; [lia|lia|cbn [INR]; lra]). assert (K11 : get k 0 0 1 1 = z) by (apply Q; [lia|lia|cbn [INR]; lra]). assert (K12 : get k 0 0 1 2 = e) by (apply Q; [lia|lia|cbn [INR]; lra]).
  assert (K20 : get k 0 0 2 0 = c) by (apply Q; [lia|lia|cbn [INR]; lra]). assert (K21 : get k 0 0 2 1 = e) by (apply Q; [lia|lia|cbn [INR]; lra]). assert (K22 : get k 0 0 2 2 = c) by (apply Q; [lia|lia|cbn [INR]; lra]).
  pose proof (shape_inv _ _ _ _ _ Sh) as (D1 & D2 & D3 & D4).
  assert (Sm : z + 4 * e + 4 * c = 0). { rewrite (tsum_get k Wk), D1, D2, D3, D4 in T1. cbn [rsum] in T1. rewrite K00, K01, K02, K10, K11, K12, K20, K21, K22 in T1. lra. }
  pose proof (bell_tail (INR 1 * t)) as B1. pose proof (bell_tail (INR 2 * t)) as B2. set (h1 := (INR 1 * t - 1) * exp (- (INR 1 * t))) in *. set (h2 := (INR 2 * t - 1) * exp (- (INR 2 * t))) in *.
  assert (N1 : 0 <= h1) by (apply Rmult_le_pos; [cbn [INR]; lra|left; apply exp_pos]). assert (N2 : 0 <= h2) by (apply Rmult_le_pos; [cbn [INR]; lra|left; apply exp_pos]).
  assert (Z0 : z = (- A - mean) / tot) by (unfold z; cbn [INR]; rewrite Rmult_0_l, Ropp_0, exp_0; f_equal; ring).
  assert (It : 0 < / tot) by (apply Rinv_0_lt_compat; exact Ht).
  assert (Em : 9 * mean = A * (-1 + 4 * h1 + 4 * h2)). { rewrite Z0 in Sm. unfold e, c in Sm. apply (Rmult_eq_reg_r (/ tot)); [|lra]. unfold Rdiv in Sm. lra. }
  assert (E0 : 0 <= e). { unfold e. unfold Rdiv. apply Rmult_le_pos; [|lra]. assert (0 <= A * (5 * h1 + 1 - 4 * h2)) by (apply Rmult_le_pos; lra). lra. }
  assert (C0 : 0 <= c). { unfold c. unfold Rdiv. apply Rmult_le_pos; [|lra]. assert (0 <= A * (5 * h2 + 1 - 4 * h1)) by (apply Rmult_le_pos; lra). lra. }
  assert (Sa : z = - (1 / 2)). { rewrite (tsum_get (tmap Rabs k) (twf_tmap _ _ Wk)) in T2. cbn [tB tC tH tW tmap] in T2. rewrite D1, D2, D3, D4 in T2. cbn [rsum] in T2. rewrite !get_tmap in T2 by (auto; rewrite ?D1, ?D2, ?D3, ?D4; lia). rewrite K00, K01, K02, K10, K11, K12, K20, K21, K22 in T2. rewrite !(Rabs_pos_eq e), !(Rabs_pos_eq c) in T2 by assumption. rewrite (Rabs_left1 z) in T2 by lra. lra. }
  split; [|split].
  - rewrite K11. exact Sa.
  - intros y x Hy Hx N. cbn [Nat.mul Nat.add] in Hy, Hx. destruct y as [|[|[|y]]]; [| | |lia]; (destruct x as [|[|[|x]]]; [| | |lia]); rewrite ?K00, ?K01, ?K02, ?K10, ?K12, ?K20, ?K21, ?K22; try assumption. exfalso. apply N. auto.
  - cbn [Nat.mul Nat.add rsum]. rewrite K00, K01, K02, K10, K11, K12, K20, K21, K22. lra.
Qed.

Lemma log_cfg cfg kw sg k : names_log cfg -> dget "kernel_kwargs" cfg = Some (VDict kw) -> as_num (query_kwargs "sigma" (VNum (1 / 2)) kw) = Ok sg -> dget "radius" cfg = Some (VInt 1) ->
  sg ^ 2 <= 1 / 2 -> get_kernel cfg = Ok k -> tH k = 3%nat /\ levelling 1 (1 / 2) (fun y x => get k 0 0 y x).
Proof.
  intros Hn Hk Hs Hr Hb E. unfold get_kernel, dgetk in E. unfold names_log in Hn. rewrite Hn, Hk, Hr in E.
  cbn -[as_size kernel_grid log_apply as_num query_kwargs Z.of_nat] in E. rewrite Hs in E. cbn [bind] in E. change (as_size (VInt 1)) with (as_size (VInt (Z.of_nat 1))) in E. rewrite as_size_of in E. cbn [bind] in E.
  assert (S0 : sg <> 0). { intros ->. apply bind_ok in E as (g & _ & E). unfold log_apply in E. apply bind_ok in E as ([] & E0 & _). apply guard_ok in E0. apply nonzero_iff in E0. apply E0. reflexivity. }
  destruct (log_levelling sg k S0 Hb E) as [Sh L]. apply shape_inv in Sh as (_ & _ & D & _). auto.
Qed.

Lemma log_wash s cfg kw sg : rd_inv s -> rd_id s -> rd_cfg s = Some cfg -> names_log cfg -> dget "kernel_kwargs" cfg = Some (VDict kw) -> as_num (query_kwargs "sigma" (VNum (1 / 2)) kw) = Ok sg -> dget "radius" cfg = Some (VInt 1) -> sg ^ 2 <= 1 / 2 ->
  0 <= rd_dt s -> 0 <= rd_du s -> 0 <= rd_dv s -> 0 <= rd_f s -> 0 <= rd_k s -> rd_dt s * (rd_du s / (2 * rd_dx s ^ 2) + rd_f s) <= 1 -> rd_dt s * (rd_dv s / (2 * rd_dx s ^ 2) + (rd_f s + rd_k s)) <= 1 -> rd_dx s <> 0 ->
  wash s 1 (1 / 2).
Proof.
  intros I D C Hn Hk Hs Hr Hb H1 H2 H3 H4 H5 H6 H7 X. constructor; auto; try lra.
  - pose proof I as [_ (cfg' & k & r & E1 & E2 & _) _]. assert (cfg' = cfg) by congruence. subst cfg'. exists cfg, k. destruct (log_cfg cfg kw sg k Hn Hk Hs Hr Hb E2). auto.
  - replace (rd_du s / rd_dx s ^ 2 * (1 / 2)) with (rd_du s / (2 * rd_dx s ^ 2)) by (field; exact X). exact H6.
  - replace (rd_dv s / rd_dx s ^ 2 * (1 / 2)) with (rd_dv s / (2 * rd_dx s ^ 2)) by (field; exact X). exact H7.
Qed.

Lemma default_wash s : rd_init = Ok s -> wash s 1 (1 / 2) /\ rd_dx s <> 0 /\ rd_dt s = 1 / 2 /\ rd_f s = 620 / 10000 /\ rd_k s = 609 / 10000.
Proof.
  intros E. destruct (rd_init_facts s E) as (I & C & D & _ & P & T & X). unfold rd_get_params in P. injection P as P1 P2 P3 P4. split; [|rewrite X; repeat split; auto; lra].
  apply (log_wash s rd_default_cfg [("sigma"%string, VNum (1 / 2))] (1 / 2)); auto; try reflexivity; try lra; rewrite ?T, ?P1, ?P2, ?P3, ?P4, ?X; lra.
Qed.

(** ** Uniform states at rest *)
Lemma rest_cell f k dt u v : 0 < f -> 0 <= k -> 0 < dt -> 0 <= u <= 1 -> 0 <= v <= 1 -> clamp 0 1 (u + dt * react_u f u v) = u -> clamp 0 1 (v + dt * react_v f k u v) = v -> react_u f u v = 0 /\ react_v f k u v = 0.
Proof.
  intros Hf Hk Hd Hu Hv E1 E2.
  assert (D : forall x y, 0 <= x <= 1 -> clamp 0 1 (x + dt * y) = x -> y = 0 \/ (x = 0 /\ y < 0) \/ (x = 1 /\ 0 < y)).
  { intros x y Hx E. destruct (Rtotal_order y 0) as [L|[L|L]]; [|left; exact L|].
    - right. left. assert (dt * y < 0) by (assert (0 < dt * - y) by (apply Rmult_lt_0_compat; lra); lra). split; [|exact L]. revert E; unfold clamp, Rmin, Rmax; repeat destruct Rle_dec; intros; lra.
    - right. right. assert (0 < dt * y) by (apply Rmult_lt_0_compat; lra). split; [|lra]. revert E; unfold clamp, Rmin, Rmax; repeat destruct Rle_dec; intros; lra. }
  assert (Ru : react_u f u v = 0).
  { destruct (D u _ Hu E1) as [Z|[[-> Z]|[-> Z]]]; [exact Z| |]; unfold react_u in Z.
    - exfalso. lra.
    - exfalso. assert (0 <= v ^ 2) by apply pow2_ge_0. lra. }
  split; [exact Ru|]. destruct (D v _ Hv E2) as [Z|[[-> Z]|[-> Z]]]; [exact Z| |]; unfold react_v in Z; unfold react_u in Ru.
  - exfalso. lra.
  - exfalso. assert (0 <= f * u) by (apply Rmult_le_pos; lra). lra.
Qed.

Lemma rest_iff f k u v : 0 < f -> 0 <= k -> (react_u f u v = 0 /\ react_v f k u v = 0) <-> (u = 1 /\ v = 0) \/ (u * v = f + k /\ f * (1 - u) = (f + k) * v).
Proof.
  intros Hf Hk. unfold react_u, react_v. split.
  - intros [E1 E2]. assert (P : v * (u * v - (f + k)) = 0) by lra. apply Rmult_integral in P as [->|P].
    + left. split; [|reflexivity]. assert (Q : f * (1 - u) = 0) by lra. apply Rmult_integral in Q as [Q|Q]; lra.
    + right. assert (Q : u * v = f + k) by lra. split; [exact Q|]. rewrite <- Q. lra.
  - intros [[-> ->]|[E1 E2]]; [split; ring|]. rewrite E2. replace (u * v ^ 2) with (u * v * v) by ring. rewrite E1. split; ring.
Qed.

Lemma rest_only f k u v : 0 < f -> 0 <= k -> f < 4 * (f + k) ^ 2 -> u * v = f + k -> f * (1 - u) = (f + k) * v -> False.
Proof.
  intros Hf Hk H E1 E2. assert (E3 : f * (u * (1 - u)) = (f + k) ^ 2) by (replace (f * (u * (1 - u))) with (u * (f * (1 - u))) by ring; rewrite E2; replace (u * ((f + k) * v)) with ((f + k) * (u * v)) by ring; rewrite E1; ring).
  assert (E4 : 0 <= f * (2 * u - 1) ^ 2) by (apply Rmult_le_pos; [lra|apply pow2_ge_0]). lra.
Qed.

Lemma rest_grid s B H W u0 v0 : rd_inv s -> rd_id s -> rd_log s -> 0 < rd_f s -> 0 <= rd_k s -> 0 < rd_dt s -> rd_dx s <> 0 -> 0 <= u0 <= 1 -> 0 <= v0 <= 1 ->
  (cl_p (rd_nbl s) <= H)%nat -> (cl_p (rd_nbl s) <= W)%nat -> (0 < B)%nat -> (0 < H)%nat -> (0 < W)%nat ->
  let g := build B 2 H W (fun _ c _ _ => match c with 0%nat => u0 | _ => v0 end) in
  rd_forward s g = Ok g <-> (u0 = 1 /\ v0 = 0) \/ (u0 * v0 = rd_f s + rd_k s /\ rd_f s * (1 - u0) = (rd_f s + rd_k s) * v0).
Proof.
  intros Hi Hid Hl Hf Hk Hd X Hu Hv PH PW B0 H0 W0 g. rewrite <- (rest_iff _ _ u0 v0 Hf Hk). split.
  - intros E. destruct (rd_cell s g g (rd_inv_layers s Hi) (twf_build _ _ _ _ _) E) as (d & Ed & G). destruct (rd_update_parts s g d Hi Hid (twf_build _ _ _ _ _) Ed) as (nb & En & _ & _ & Sd & _ & _ & Gd).
    pose proof (G eq_refl Sd 0%nat 0%nat 0%nat 0%nat B0 ltac:(lia) H0 W0) as G0. pose proof (G eq_refl Sd 0%nat 1%nat 0%nat 0%nat B0 ltac:(lia) H0 W0) as G1. destruct (Gd 0%nat 0%nat 0%nat B0 H0 W0) as [D0 D1].
    assert (Z : forall c, (c < 2)%nat -> get nb 0 c 0 0 = 0).
    { pose proof Hi as [_ (cfg & k & r & E1 & E2 & S' & W' & _ & El) _]. destruct Hl as (d' & E1' & Hl). assert (d' = cfg) by congruence. subst d'. intros c Hc.
      rewrite (conv_const 2 k (rd_nbl s) Circular r g nb (match c with 0%nat => u0 | _ => v0 end) 0 c 0 0); auto; try lia; try discriminate.
      - rewrite (proj1 (log_kernel_sum cfg k Hl E2)). ring.
      - intros y x Hy Hx. unfold g. rewrite get_build by (assumption || lia). reflexivity. }
    rewrite Z in D0, D1 by lia. rewrite D0 in G0. rewrite D1 in G1. unfold g in G0, G1. rewrite !get_build in G0, G1 by lia. cbn [fst snd] in G0, G1.
    replace (rd_du s * (0 / rd_dx s ^ 2) + react_u (rd_f s) u0 v0) with (react_u (rd_f s) u0 v0) in G0 by (unfold Rdiv; ring). replace (rd_dv s * (0 / rd_dx s ^ 2) + react_v (rd_f s) (rd_k s) u0 v0) with (react_v (rd_f s) (rd_k s) u0 v0) in G1 by (unfold Rdiv; ring).
    apply (rest_cell _ _ (rd_dt s)); auto.
  - intros [R1 R2]. apply rd_fixed; auto.
Qed.
