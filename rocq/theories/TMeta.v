(** Theorems about the functions that stand alone: C96. *)
From Coq Require Import Reals Lra Lia List Bool Arith Permutation.
From Verif Require Import Base Tensor MActivations MMeta SMeta PTensor PAct.
Import ListNotations.
Open Scope R_scope.

(** ** C96 Growth functions from intervals and from channels; targets *)

(** The function built from intervals is the module SmoothIntervals without its mode, at every
    value. *)
Theorem C96_steps intervals alpha x : alpha <> 0 ->
  smooth_steps Floats intervals alpha x = Ok (map (act_fn (ASmoothIntervals intervals alpha false)) x).
Proof.
  intros A. unfold smooth_steps. destruct intervals as [|b t]; [reflexivity|]. cbn [guard bind].
  replace (nonzero alpha) with true by (unfold nonzero; destruct (Req_EM_T alpha 0); [contradiction|reflexivity]). reflexivity.
Qed.

(** With alpha = 0 numpy divides by zero, except where there is nothing to divide. *)
Theorem C96_steps_zero intervals x : smooth_steps Floats intervals 0 x =
  match intervals, x with [], _ => Ok (map (fun _ => 0) x) | _, [] => Ok [] | _, _ => Err NonFinite end.
Proof.
  unfold smooth_steps. destruct intervals as [|b t]; [reflexivity|]. cbn [guard bind]. replace (nonzero 0) with false by (unfold nonzero; destruct (Req_EM_T 0 0); [reflexivity|contradiction]).
  destruct x; reflexivity.
Qed.

(** It takes no integers, unless there is no interval. *)
Theorem C96_steps_integers intervals alpha x : intervals <> [] -> smooth_steps Ints intervals alpha x = Err TypeError.
Proof. intros N. destruct intervals; [contradiction|reflexivity]. Qed.

Lemma nonzero_true x : nonzero x = true <-> x <> 0.
Proof. unfold nonzero. destruct (Req_EM_T x 0); split; intros; congruence. Qed.

Lemma widths B H W f : forallb nonzero (tdata (build B 1 H W f)) = true <-> forall b i j, (b < B)%nat -> (i < H)%nat -> (j < W)%nat -> f b 0%nat i j <> 0.
Proof.
  rewrite forallb_forall. split.
  - intros G b i j Hb Hi Hj. apply nonzero_true, G. rewrite <- (get_build B 1 H W f b 0 i j) by lia. unfold get. cbn [tC tH tW build]. apply nth_In. cbn [tdata build].
    rewrite map_length, seq_length. assert ((b * 1 + 0) * H + i < B * 1 * H)%nat by nia. nia.
  - intros G x I. cbn [tdata build] in I. apply in_map_iff in I as (n & <- & I). apply in_seq in I. apply nonzero_true.
    assert (W <> 0)%nat by nia. assert (H <> 0)%nat by nia. rewrite Nat.div_1_r, Nat.mod_1_r. apply G.
    + apply Nat.div_lt_upper_bound; [assumption|]. apply Nat.div_lt_upper_bound; [assumption|]. nia.
    + apply Nat.mod_upper_bound. assumption.
    + apply Nat.mod_upper_bound. assumption.
Qed.

(** It works on inputs with three channels or more and no width -1e-7. *)
Theorem C96_meta_ok mode x : (exists v, meta_mixture mode x = Ok v) <->
  (3 <= tC x)%nat /\ forall b i j, (b < tB x)%nat -> (i < tH x)%nat -> (j < tW x)%nat -> get x b 2 i j <> - (1 / 10000000).
Proof.
  unfold meta_mixture. destruct (Nat.leb_spec 3 (tC x)) as [C|C]; cbn [guard bind].
  2:{ split; [intros [v E]; discriminate E|intros [X _]; lia]. }
  destruct (forallb nonzero _) eqn:F; cbn [guard bind].
  - split; [|intros _; eexists; reflexivity]. intros _. split; [exact C|]. intros b i j Hb Hi Hj. pose proof (proj1 (widths _ _ _ _) F b i j Hb Hi Hj) as G. unfold eps7 in G. lra.
  - split; [intros [v E]; discriminate E|]. intros [_ G]. exfalso. rewrite <- not_true_iff_false in F. apply F, widths. intros b i j Hb Hi Hj. pose proof (G b i j Hb Hi Hj). unfold eps7. lra.
Qed.

Theorem C96_meta_channels mode x : (tC x < 3)%nat -> meta_mixture mode x = Err IndexError.
Proof. intros H. unfold meta_mixture. replace (Nat.leb 3 (tC x)) with false by (symmetry; apply Nat.leb_gt; lia). reflexivity. Qed.

Lemma meta_get mode x v b i j : meta_mixture mode x = Ok v -> (b < tB x)%nat -> (i < tH x)%nat -> (j < tW x)%nat ->
  let g := exp (- ((get x b 0 i j - get x b 1 i j) / (1 / 10000000 + get x b 2 i j)) ^ 2 / 2) in get v b 0 i j = if mode then g * 2 - 1 else g.
Proof.
  intros E Hb Hi Hj. unfold meta_mixture in E. destruct (Nat.leb 3 (tC x)); [|discriminate E]. cbn [guard bind] in E. destruct (forallb _ _); [|discriminate E]. cbn [guard bind] in E.
  injection E as <-. cbv zeta. rewrite !get_build by lia. unfold eps7. replace (1 / 10000000) with (/ 10000000) by lra. reflexivity.
Qed.

(** Each value of the result is the Gaussian of channel 0 around channel 1 with width channel 2, at
    the same place and in the same batch element; it has one channel. *)
Theorem C96_meta_value mode x v : meta_mixture mode x = Ok v ->
  shape v = (tB x, 1%nat, tH x, tW x) /\
  forall b i j, (b < tB x)%nat -> (i < tH x)%nat -> (j < tW x)%nat ->
    let g := exp (- ((get x b 0 i j - get x b 1 i j) / (1 / 10000000 + get x b 2 i j)) ^ 2 / 2) in get v b 0 i j = if mode then 2 * g - 1 else g.
Proof.
  intros E. split.
  - unfold meta_mixture in E. destruct (Nat.leb 3 (tC x)); [|discriminate E]. cbn [guard bind] in E. destruct (forallb _ _); [|discriminate E]. cbn [guard bind] in E. injection E as <-. reflexivity.
  - intros b i j Hb Hi Hj. pose proof (meta_get mode x v b i j E Hb Hi Hj) as G. cbv zeta in *. rewrite G. destruct mode; [ring|reflexivity].
Qed.

(** So it lies in (0,1], or in (-1,1] as a growth; the top is reached exactly where the value is
    its mean. *)
Theorem C96_meta_range (mode : bool) x v b i j : meta_mixture mode x = Ok v -> (b < tB x)%nat -> (i < tH x)%nat -> (j < tW x)%nat ->
  (if mode then -1 else 0) < get v b 0 i j <= 1 /\ (get v b 0 i j = 1 <-> get x b 0 i j = get x b 1 i j).
Proof.
  intros E Hb Hi Hj. pose proof (proj1 (C96_meta_ok mode x) (ex_intro _ v E)) as [_ N]. specialize (N b i j Hb Hi Hj).
  pose proof (meta_get mode x v b i j E Hb Hi Hj) as G. cbv zeta in G. set (s := 1 / 10000000 + get x b 2 i j - eps9) in *.
  assert (S : eps9 + s = 1 / 10000000 + get x b 2 i j) by (unfold s; ring).
  assert (K : get v b 0 i j = if mode then gauss (get x b 1 i j) s (get x b 0 i j) * 2 - 1 else gauss (get x b 1 i j) s (get x b 0 i j)).
  { rewrite G. unfold gauss. rewrite S. reflexivity. }
  assert (NZ : eps9 + s <> 0) by (rewrite S; lra).
  pose proof (gauss_range (get x b 1 i j) s (get x b 0 i j)) as A. pose proof (gauss_peak (get x b 1 i j) s (get x b 0 i j) NZ) as P. rewrite K. split; [destruct mode; lra|].
  rewrite <- P. destruct mode; split; intros; lra.
Qed.

(** Channels from the fourth on make no difference. *)
Theorem C96_meta_rest mode x y : tB x = tB y -> tH x = tH y -> tW x = tW y -> (3 <= tC x)%nat -> (3 <= tC y)%nat ->
  (forall b c i j, (b < tB x)%nat -> (c < 3)%nat -> (i < tH x)%nat -> (j < tW x)%nat -> get x b c i j = get y b c i j) ->
  meta_mixture mode x = meta_mixture mode y.
Proof.
  intros EB EH EW Cx Cy G. unfold meta_mixture. rewrite (proj2 (Nat.leb_le _ _) Cx), (proj2 (Nat.leb_le _ _) Cy). cbn [guard bind]. rewrite <- EB, <- EH, <- EW.
  assert (Wd : build (tB x) 1 (tH x) (tW x) (fun b _ i j => eps7 + get x b 2 i j) = build (tB x) 1 (tH x) (tW x) (fun b _ i j => eps7 + get y b 2 i j)).
  { apply build_ext. intros. rewrite G by lia. reflexivity. }
  rewrite Wd. destruct (forallb _ _); [|reflexivity]. cbn [guard bind]. f_equal. apply build_ext. intros. rewrite !G by lia. reflexivity.
Qed.

(** make_target adds a batch dimension to an image with channels and changes no value. *)
Theorem C96_target img c h w : array_wf img -> a_dims img = [c; h; w] ->
  exists t, make_target img = Ok t /\ shape t = (1%nat, c, h, w) /\
    forall k i j, (k < c)%nat -> (i < h)%nat -> (j < w)%nat -> get t 0 k i j = nth ((k * h + i) * w + j) (a_data img) 0.
Proof.
  intros F E. unfold make_target. unfold array_wf in F. rewrite E in *. cbn [fold_right] in F. replace (Nat.eqb (length (a_data img)) (1 * c * h * w)) with true by (symmetry; apply Nat.eqb_eq; rewrite F; ring).
  cbn [guard bind]. eexists. split; [reflexivity|]. split; [reflexivity|]. intros. reflexivity.
Qed.

(** Other arrays: fewer dimensions are refused; more are dropped when they are of size one, or when
    the image is empty, and refused otherwise. *)
Theorem C96_target_few img : (length (a_dims img) < 3)%nat -> make_target img = Err IndexError.
Proof. intros H. unfold make_target. destruct (a_dims img) as [|a [|b [|c r]]]; try reflexivity. cbn [length] in H. lia. Qed.

Theorem C96_target_more img c h w rest : array_wf img -> a_dims img = c :: h :: w :: rest ->
  ((exists t, make_target img = Ok t) <-> fold_right Nat.mul 1%nat rest = 1%nat \/ (c * h * w = 0)%nat).
Proof.
  intros F E. unfold make_target. unfold array_wf in F. rewrite E in *. cbn [fold_right] in F. set (p := fold_right Nat.mul 1%nat rest) in *.
  destruct (Nat.eqb_spec (length (a_data img)) (1 * c * h * w)) as [L|L]; cbn [guard bind].
  - split; [|intros _; eexists; reflexivity]. intros _. rewrite F in L. destruct (Nat.eq_dec (c * h * w) 0) as [Z|Z]; [right; exact Z|left]. nia.
  - split; [intros [t X]; discriminate X|]. intros [P|P]; exfalso; apply L; rewrite F; [rewrite P; ring|nia].
Qed.

Example ex_meta : exists v, meta_mixture true (mkT 1 3 1 2 [1/2; 1/4; 1/2; 1/2; 1/10; 1/10]) = Ok v /\ get v 0 0 0 0 = 1 /\ get v 0 0 0 1 < 1.
Proof.
  set (x := mkT 1 3 1 2 [1/2; 1/4; 1/2; 1/2; 1/10; 1/10]).
  destruct (proj2 (C96_meta_ok true x)) as [v E].
  { split; [cbn; lia|]. intros b i j Hb Hi Hj. cbn [tB tH tW x] in *. replace b with 0%nat by lia. replace i with 0%nat by lia. destruct j as [|[|j]]; [| |lia]; cbn; lra. }
  exists v. split; [exact E|]. split.
  - apply (C96_meta_range true x v 0 0 0 E); cbn; lia || reflexivity.
  - destruct (C96_meta_range true x v 0 0 1 E) as [[_ U] P]; [cbn; lia..|]. assert (get v 0 0 0 1 <> 1) by (intros X; apply P in X; cbn in X; lra). lra.
Qed.

Example ex_target : make_target (mkA [2; 1; 2]%nat [1; 2; 3; 4]) = Ok (mkT 1 2 1 2 [1; 2; 3; 4]) /\
  make_target (mkA [2; 2]%nat [1; 2; 3; 4]) = Err IndexError /\ make_target (mkA [1; 1; 2; 2]%nat [1; 2; 3; 4]) = Err RuntimeError.
Proof. repeat split. Qed.

Example ex_steps : exists r, smooth_steps Floats [(1/4, 1/2)] (1/80) [3/8; 2] = Ok r /\ smooth_steps Ints [(1/4, 1/2)] (1/80) [0; 1] = Err TypeError.
Proof. eexists. split; [apply C96_steps; lra|reflexivity]. Qed.

Print Assumptions C96_steps.
Print Assumptions C96_steps_integers.
Print Assumptions C96_meta_ok.
Print Assumptions C96_meta_channels.
Print Assumptions C96_meta_value.
Print Assumptions C96_meta_range.
Print Assumptions C96_meta_rest.
Print Assumptions C96_target.
Print Assumptions C96_target_few.
Print Assumptions C96_target_more.
Print Assumptions C96_steps_zero.
