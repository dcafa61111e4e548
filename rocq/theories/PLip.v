(** Lipschitz bounds of the growth functions (proofs). *)
From Coq Require Import Reals Lra Lia List Arith Bool.
From Verif Require Import Base Tensor MActivations MCommon SGrid SLip.
Import ListNotations.
Open Scope R_scope.

Lemma Rabs_le_inv x k : Rabs x <= k -> - k <= x <= k.
Proof. unfold Rabs. destruct (Rcase_abs x); lra. Qed.

Lemma lim_ext f g x l : (forall y, f y = g y) -> derivable_pt_lim f x l -> derivable_pt_lim g x l.
Proof. intros E H eps P. destruct (H eps P) as [d Hd]. exists d. intros h N S. rewrite <- !E. apply Hd; assumption. Qed.

Lemma lip_derive K L f f' : (forall c, Rabs c <= K -> derivable_pt_lim f c (f' c) /\ Rabs (f' c) <= L) -> lip_on K L f.
Proof.
  intros D x y Hx Hy. assert (B : forall c, Rmin y x <= c <= Rmax y x -> Rabs c <= K).
  { intros c Hc. apply Rabs_le. apply Rabs_le_inv in Hx, Hy. unfold Rmin, Rmax in Hc. destruct (Rle_dec y x); lra. }
  destruct (MVT_abs f f' y x) as (c & E & Hc); [intros c Hc; apply D, B, Hc|]. rewrite E. apply Rmult_le_compat_r; [apply Rabs_pos|]. apply D, B, Hc.
Qed.

Lemma lip_weaken K L L' f : L <= L' -> lip_on K L f -> lip_on K L' f.
Proof. intros H P x y Hx Hy. eapply Rle_trans; [apply P; assumption|]. apply Rmult_le_compat_r; [apply Rabs_pos|exact H]. Qed.

Lemma lip_ext K L f g : (forall x, f x = g x) -> lip_on K L f -> lip_on K L g.
Proof. intros E P x y Hx Hy. rewrite <- !E. apply P; assumption. Qed.

Lemma lip_plus K L L' f g : lip_on K L f -> lip_on K L' g -> lip_on K (L + L') (fun x => f x + g x).
Proof.
  intros P Q x y Hx Hy. replace (f x + g x - (f y + g y)) with ((f x - f y) + (g x - g y)) by ring. eapply Rle_trans; [apply Rabs_triang|].
  rewrite Rmult_plus_distr_r. apply Rplus_le_compat; [apply P|apply Q]; assumption.
Qed.

Lemma lip_scal K L f a : lip_on K L f -> lip_on K (Rabs a * L) (fun x => a * f x).
Proof. intros P x y Hx Hy. replace (a * f x - a * f y) with (a * (f x - f y)) by ring. rewrite Rabs_mult, Rmult_assoc. apply Rmult_le_compat_l; [apply Rabs_pos|apply P; assumption]. Qed.

Lemma lip_shift K L f c : lip_on K L f -> lip_on K L (fun x => f x + c).
Proof. intros P x y Hx Hy. replace (f x + c - (f y + c)) with (f x - f y) by ring. apply P; assumption. Qed.

Lemma lip_clamp K L f lo hi : lip_on K L f -> lip_on K L (fun x => clamp lo hi (f x)).
Proof. intros P x y Hx Hy. eapply Rle_trans; [apply clamp_lip|apply P; assumption]. Qed.

(** Without a bound on the argument. *)
Definition lip (L : R) (f : R -> R) : Prop := forall x y, Rabs (f x - f y) <= L * Rabs (x - y).

Lemma lip_all L f K : lip L f -> lip_on K L f.
Proof. intros P x y _ _. apply P. Qed.

Lemma lip_global L f : (forall K, lip_on K L f) -> lip L f.
Proof. intros P x y. apply (P (Rmax (Rabs x) (Rabs y))); [apply Rmax_l|apply Rmax_r]. Qed.

Lemma lip_comp L L' f g : 0 <= L -> lip L f -> lip L' g -> lip (L * L') (fun x => f (g x)).
Proof. intros H P Q x y. eapply Rle_trans; [apply P|]. rewrite Rmult_assoc. apply Rmult_le_compat_l; [exact H|apply Q]. Qed.

Lemma lip_affine a b : lip (Rabs a) (fun x => a * x + b).
Proof. intros x y. replace (a * x + b - (a * y + b)) with (a * (x - y)) by ring. rewrite Rabs_mult. lra. Qed.

(** ** Gaussians *)
Lemma bell_lip : lip (exp (- (1 / 2))) (fun t => exp (- t ^ 2 / 2)).
Proof.
  apply lip_global. intros K. apply (lip_derive K _ _ (fun t => exp (- t ^ 2 / 2) * - t)). intros c _. split.
  - apply (derivable_pt_lim_comp (fun t => - t ^ 2 / 2) exp); [|apply derivable_pt_lim_exp]. apply (lim_ext (mult_real_fct (- (1 / 2)) Rsqr)).
    + intros y. unfold mult_real_fct, Rsqr. field.
    + replace (- c) with (- (1 / 2) * (2 * c)) by field. apply derivable_pt_lim_scal, derivable_pt_lim_Rsqr.
  - rewrite Rabs_mult, Rabs_Ropp, (Rabs_pos_eq (exp _)) by (left; apply exp_pos).
    assert (T : Rabs c <= exp ((c ^ 2 - 1) / 2)).
    { apply Rsqr_incr_0; [|apply Rabs_pos|left; apply exp_pos]. unfold Rsqr. rewrite <- exp_plus. rewrite <- Rabs_mult, (Rabs_pos_eq (c * c)) by nra.
      replace ((c ^ 2 - 1) / 2 + (c ^ 2 - 1) / 2) with (c * c - 1) by field. pose proof (exp_ineq1_le (c * c - 1)). lra. }
    eapply Rle_trans; [apply Rmult_le_compat_l; [left; apply exp_pos|exact T]|]. rewrite <- exp_plus. right. f_equal. field.
Qed.

Lemma gauss_is_lip mu sigma : eps9 + sigma <> 0 -> lip (gauss_lip sigma) (gauss mu sigma).
Proof.
  intros N. unfold gauss_lip, Rdiv. rewrite <- Rabs_inv. intros x y. unfold gauss.
  pose proof (lip_comp _ _ _ _ (Rlt_le _ _ (exp_pos _)) bell_lip (lip_affine (/ (eps9 + sigma)) (- mu / (eps9 + sigma))) x y) as Q. cbv beta in Q.
  replace (/ (eps9 + sigma) * x + - mu / (eps9 + sigma)) with ((x - mu) / (eps9 + sigma)) in Q by (field; exact N).
  replace (/ (eps9 + sigma) * y + - mu / (eps9 + sigma)) with ((y - mu) / (eps9 + sigma)) in Q by (field; exact N). exact Q.
Qed.

Lemma gauss_01 mu sigma x : 0 <= gauss mu sigma x <= 1.
Proof.
  unfold gauss. split; [left; apply exp_pos|]. rewrite <- exp_0. destruct (Req_dec (- ((x - mu) / (eps9 + sigma)) ^ 2 / 2) 0) as [->|D]; [lra|]. left. apply exp_increasing.
  assert (0 <= ((x - mu) / (eps9 + sigma)) ^ 2) by (replace (((x - mu) / (eps9 + sigma)) ^ 2) with (Rsqr ((x - mu) / (eps9 + sigma))) by (unfold Rsqr; ring); apply Rle_0_sqr). lra.
Qed.

Lemma mixture_lip gs K : (forall g, In g gs -> eps9 + snd g <> 0) -> lip_on K (fold_right (fun g s => Rabs (fst (fst g)) * gauss_lip (snd g) + s) 0 gs) (mixture_sum gs).
Proof.
  assert (F : forall t f L, lip_on K L f -> (forall g, In g t -> eps9 + snd g <> 0) ->
    lip_on K (L + fold_right (fun g s => Rabs (fst (fst g)) * gauss_lip (snd g) + s) 0 t) (fun x => fold_left (fun result g => let '(a, m, s) := g in result + a * gauss m s x) t (f x))).
  { induction t as [|[[a m] s] t IH]; intros f L P N; cbn [fold_left fold_right fst snd]; [rewrite Rplus_0_r; exact P|].
    rewrite <- Rplus_assoc. apply (IH (fun x => f x + a * gauss m s x)); [|intros g Hg; apply N; right; exact Hg].
    apply lip_plus; [exact P|]. apply lip_scal, lip_all, gauss_is_lip. apply (N (a, m, s)). left. reflexivity. }
  destruct gs as [|[[a m] s] t]; intros N; cbn [fold_right mixture_sum fst snd].
  - intros x y _ _. rewrite Rminus_diag_eq, Rabs_R0 by reflexivity. lra.
  - apply (F t (fun x => a * gauss m s x)); [|intros g Hg; apply N; right; exact Hg]. apply lip_scal, lip_all, gauss_is_lip. apply (N (a, m, s)). left. reflexivity.
Qed.

(** ** The logistic function *)
Definition logistic (t : R) : R := 1 / (1 + exp (- t)).

Lemma logistic_01 t : 0 < logistic t < 1.
Proof.
  unfold logistic. pose proof (exp_pos (- t)). split; [apply Rdiv_lt_0_compat; lra|]. apply (Rmult_lt_reg_r (1 + exp (- t))); [lra|]. unfold Rdiv. rewrite Rmult_assoc, Rinv_l by lra. lra.
Qed.

Lemma logistic_lip : lip (1 / 4) logistic.
Proof.
  apply lip_global. intros K. apply (lip_derive K _ _ (fun t => logistic t * (1 - logistic t))). intros c _. pose proof (exp_pos (- c)) as E. split.
  - unfold logistic. replace (1 / (1 + exp (- c)) * (1 - 1 / (1 + exp (- c)))) with ((0 * (1 + exp (- c)) - (0 + exp (- c) * (- 1)) * 1) / Rsqr (1 + exp (- c))) by (unfold Rsqr; field; lra).
    apply (derivable_pt_lim_div (fct_cte 1) (fun t => 1 + exp (- t))); [apply derivable_pt_lim_const| |lra].
    apply (derivable_pt_lim_plus (fct_cte 1) (fun t => exp (- t))); [apply derivable_pt_lim_const|]. apply (derivable_pt_lim_comp (fun t => - t) exp); [|apply derivable_pt_lim_exp].
    apply (derivable_pt_lim_opp (fun t => t)), derivable_pt_lim_id.
  - pose proof (logistic_01 c) as B. set (s := logistic c) in *. rewrite Rabs_pos_eq by nra. assert (0 <= (s - 1 / 2) * (s - 1 / 2)) by (apply Rle_0_sqr). lra.
Qed.

Lemma sigmoid_logistic x mu alpha : sigmoid_1 x mu alpha = logistic (4 / alpha * x + - (4 / alpha * mu)).
Proof. unfold sigmoid_1, logistic. do 4 f_equal. unfold Rdiv. ring. Qed.

Lemma sigmoid_lip mu alpha : alpha <> 0 -> lip (1 / Rabs alpha) (fun x => sigmoid_1 x mu alpha).
Proof.
  intros N x y. rewrite !sigmoid_logistic. pose proof (lip_comp (1 / 4) _ _ _ ltac:(lra) logistic_lip (lip_affine (4 / alpha) (- (4 / alpha * mu))) x y) as Q. cbv beta in Q.
  replace (1 / Rabs alpha) with (1 / 4 * Rabs (4 / alpha)); [exact Q|]. unfold Rdiv. rewrite Rabs_mult, Rabs_inv, (Rabs_pos_eq 4) by (lra || exact N). field. apply Rabs_no_R0. exact N.
Qed.

Lemma interval_lip ivs alpha K : (ivs = [] \/ alpha <> 0) -> lip_on K (INR (List.length ivs) * (2 / Rabs alpha)) (interval_sum ivs alpha).
Proof.
  intros N. unfold interval_sum. assert (F : forall t f L, (t = [] \/ alpha <> 0) -> lip_on K L f -> lip_on K (L + INR (List.length t) * (2 / Rabs alpha)) (fun x => fold_left (fun result bounds => result + sigmoid_1 x (fst bounds) alpha * (1 - sigmoid_1 x (snd bounds) alpha)) t (f x))).
  { induction t as [|[lo hi] t IH]; intros f L Nt P; cbn [fold_left List.length fst snd].
    - replace (L + INR 0 * (2 / Rabs alpha)) with L by (change (INR 0) with 0; lra). exact P.
    - destruct Nt as [Nt|Nt]; [discriminate|]. rewrite S_INR. replace (L + (INR (List.length t) + 1) * (2 / Rabs alpha)) with (L + 2 / Rabs alpha + INR (List.length t) * (2 / Rabs alpha)) by ring.
      apply (IH (fun x => f x + sigmoid_1 x lo alpha * (1 - sigmoid_1 x hi alpha))); [right; exact Nt|]. apply lip_plus; [exact P|].
      intros x y _ _. pose proof (sigmoid_lip lo alpha Nt x y) as A. pose proof (sigmoid_lip hi alpha Nt x y) as B. cbv beta in A, B.
      assert (R1 : forall m z, 0 < sigmoid_1 z m alpha < 1) by (intros m z; rewrite sigmoid_logistic; apply logistic_01).
      pose proof (R1 lo x). pose proof (R1 lo y). pose proof (R1 hi x). pose proof (R1 hi y).
      set (a := sigmoid_1 x lo alpha) in *. set (a' := sigmoid_1 y lo alpha) in *. set (b := sigmoid_1 x hi alpha) in *. set (b' := sigmoid_1 y hi alpha) in *.
      replace (a * (1 - b) - a' * (1 - b')) with ((a - a') * (1 - b) + a' * (b' - b)) by ring. eapply Rle_trans; [apply Rabs_triang|]. rewrite !Rabs_mult.
      rewrite (Rabs_pos_eq (1 - b)) by lra. rewrite (Rabs_pos_eq a') by lra. rewrite (Rabs_minus_sym b' b). unfold Rdiv in *. pose proof (Rabs_pos (a - a')). pose proof (Rabs_pos (b - b')).
      replace (2 * / Rabs alpha * Rabs (x - y)) with (1 * / Rabs alpha * Rabs (x - y) + 1 * / Rabs alpha * Rabs (x - y)) by ring. nra. }
  pose proof (F ivs (fun _ => 0) 0 N) as G. rewrite Rplus_0_l in G. apply G. intros x y _ _. rewrite Rminus_diag_eq, Rabs_R0 by reflexivity. lra.
Qed.

(** ** Polynomials *)
Lemma pow_lip K n : 0 <= K -> lip_on K (INR n * K ^ (n - 1)) (fun x => x ^ n).
Proof.
  intros HK. induction n as [|n IH].
  - intros x y _ _. cbn [pow]. rewrite Rminus_diag_eq, Rabs_R0 by reflexivity. change (INR 0) with 0. lra.
  - intros x y Hx Hy. cbn [pow]. replace (x * x ^ n - y * y ^ n) with ((x - y) * x ^ n + y * (x ^ n - y ^ n)) by ring. eapply Rle_trans; [apply Rabs_triang|]. rewrite !Rabs_mult.
    specialize (IH x y Hx Hy). replace (S n - 1)%nat with n by lia. rewrite S_INR.
    assert (X : Rabs (x ^ n) <= K ^ n) by (rewrite <- RPow_abs; apply pow_incr; split; [apply Rabs_pos|exact Hx]).
    pose proof (Rabs_pos (x - y)) as P. pose proof (Rabs_pos (x ^ n - y ^ n)) as P2. pose proof (pow_le K n HK) as Pn.
    assert (A : Rabs (x - y) * Rabs (x ^ n) <= Rabs (x - y) * K ^ n) by (apply Rmult_le_compat_l; assumption).
    assert (B : Rabs y * Rabs (x ^ n - y ^ n) <= K * (INR n * K ^ (n - 1) * Rabs (x - y))) by (apply Rmult_le_compat; [apply Rabs_pos|exact P2|exact Hy|exact IH]).
    assert (C : K * (INR n * K ^ (n - 1) * Rabs (x - y)) = INR n * K ^ n * Rabs (x - y)).
    { destruct n as [|m]; [change (INR 0) with 0; ring|]. replace (S m - 1)%nat with m by lia. cbn [pow]. ring. }
    rewrite C in B. lra.
Qed.

Lemma poly_is_lip K coef : 0 <= K -> forall ii f L, lip_on K L f -> lip_on K (L + poly_lip K ii coef) (fun x => poly_from ii coef (f x) x).
Proof.
  intros HK. induction coef as [|v t IH]; intros ii f L P; cbn [poly_from poly_lip]; [rewrite Rplus_0_r; exact P|]. rewrite <- Rplus_assoc.
  apply (IH (S ii) (fun x => f x + v * x ^ ii)). apply lip_plus; [exact P|]. apply lip_scal, pow_lip, HK.
Qed.

(** ** The others *)
Lemma cos_lip : lip 1 cos.
Proof.
  apply lip_global. intros K. apply (lip_derive K _ _ (fun t => - sin t)). intros c _. split; [apply derivable_pt_lim_cos|]. rewrite Rabs_Ropp. apply Rabs_le. apply SIN_bound.
Qed.

Lemma witch_lip : lip 1 (fun t => / (1 + t ^ 2)).
Proof.
  intros x y. assert (Px : 0 < 1 + x ^ 2) by nra. assert (Py : 0 < 1 + y ^ 2) by nra.
  replace (/ (1 + x ^ 2) - / (1 + y ^ 2)) with ((y - x) * ((x + y) / ((1 + x ^ 2) * (1 + y ^ 2)))) by (field; lra).
  rewrite Rabs_mult, (Rabs_minus_sym y x). rewrite (Rmult_comm 1). apply Rmult_le_compat_l; [apply Rabs_pos|]. assert (PP : 0 < (1 + x ^ 2) * (1 + y ^ 2)) by nra.
  unfold Rdiv. rewrite Rabs_mult, Rabs_inv, (Rabs_pos_eq ((1 + x ^ 2) * (1 + y ^ 2))) by lra. apply (Rmult_le_reg_r ((1 + x ^ 2) * (1 + y ^ 2))); [exact PP|]. rewrite Rmult_assoc, Rinv_l by lra.
  rewrite Rmult_1_r, Rmult_1_l. apply Rabs_le.
  pose proof (Rle_0_sqr (x - 1 / 2)) as Q1. pose proof (Rle_0_sqr (y - 1 / 2)) as Q2. pose proof (Rle_0_sqr (x + 1 / 2)) as Q3. pose proof (Rle_0_sqr (y + 1 / 2)) as Q4. pose proof (Rle_0_sqr (x * y)) as Q5. unfold Rsqr in *. split; lra.
Qed.

Lemma cosx2_lip mu omega : lip (Rabs omega + 10) (fun x => cos (omega * Rabs (mu - x)) / (1 + (10 * Rabs (mu - x)) ^ 2)).
Proof.
  intros x y. set (s := Rabs (mu - x)). set (t := Rabs (mu - y)).
  assert (D : Rabs (s - t) <= Rabs (x - y)). { unfold s, t. eapply Rle_trans; [apply Rabs_triang_inv2|]. replace (mu - x - (mu - y)) with (- (x - y)) by ring. rewrite Rabs_Ropp. lra. }
  pose proof (cos_lip (omega * s) (omega * t)) as A. pose proof (witch_lip (10 * s) (10 * t)) as B. cbv beta in A, B.
  replace (omega * s - omega * t) with (omega * (s - t)) in A by ring. replace (10 * s - 10 * t) with (10 * (s - t)) in B by ring. rewrite Rabs_mult in A, B. rewrite (Rabs_pos_eq 10) in B by lra.
  unfold Rdiv. set (a := cos (omega * s)) in *. set (a' := cos (omega * t)) in *.
  assert (Wb : 0 <= / (1 + (10 * s) ^ 2) <= 1). { assert (P : 1 <= 1 + (10 * s) ^ 2) by nra. split; [left; apply Rinv_0_lt_compat; lra|]. apply Rle_trans with (/ 1); [apply Rinv_le_contravar; lra|rewrite Rinv_1; lra]. }
  set (w := / (1 + (10 * s) ^ 2)) in *. set (w' := / (1 + (10 * t) ^ 2)) in *. assert (Ab : Rabs a' <= 1) by (apply Rabs_le, COS_bound).
  replace (a * w - a' * w') with ((a - a') * w + a' * (w - w')) by ring. eapply Rle_trans; [apply Rabs_triang|]. rewrite !Rabs_mult, (Rabs_pos_eq w) by lra.
  pose proof (Rabs_pos (a - a')). pose proof (Rabs_pos (w - w')). pose proof (Rabs_pos omega). pose proof (Rabs_pos (s - t)). pose proof (Rabs_pos a').
  assert (Rabs (a - a') * w <= Rabs omega * Rabs (x - y)) by nra. assert (Rabs a' * Rabs (w - w') <= 10 * Rabs (x - y)) by nra. lra.
Qed.

Lemma tanh_logistic x : tanh x = 2 * logistic (2 * x) + -1.
Proof.
  unfold tanh, sinh, cosh, logistic. pose proof (exp_pos x) as P. pose proof (exp_pos (- x)) as N. assert (E : exp (- (2 * x)) = exp (- x) * exp (- x)) by (rewrite <- exp_plus; f_equal; ring).
  assert (I : exp x * exp (- x) = 1) by (rewrite <- exp_plus, Rplus_opp_r; apply exp_0). rewrite E. assert (Q : 0 < exp (- x) * exp (- x)) by nra.
  apply (Rmult_eq_reg_r ((exp x + exp (- x)) * (1 + exp (- x) * exp (- x)))); [|nra]. field_simplify; [|lra|lra]. nra.
Qed.

Lemma tanh_lip : lip 1 tanh.
Proof.
  intros x y. rewrite !tanh_logistic. pose proof (logistic_lip (2 * x) (2 * y)) as Q. replace (2 * x - 2 * y) with (2 * (x - y)) in Q by ring. rewrite Rabs_mult, (Rabs_pos_eq 2) in Q by lra.
  replace (2 * logistic (2 * x) + -1 - (2 * logistic (2 * y) + -1)) with (2 * (logistic (2 * x) - logistic (2 * y))) by ring. rewrite Rabs_mult, (Rabs_pos_eq 2) by lra. lra.
Qed.

Lemma relu_lip : lip 1 (fun x => Rmax x 0).
Proof. intros x y. unfold Rmax. rewrite Rmult_1_l. destruct (Rle_dec x 0), (Rle_dec y 0); unfold Rabs; repeat destruct (Rcase_abs _); lra. Qed.

Lemma silu_lip K : 0 <= K -> lip_on K (1 + K / 4) (fun x => x / (1 + exp (- x))).
Proof.
  intros HK x y Hx Hy. replace (x / (1 + exp (- x))) with (x * logistic x) by (unfold logistic; field; pose proof (exp_pos (- x)); lra). replace (y / (1 + exp (- y))) with (y * logistic y) by (unfold logistic; field; pose proof (exp_pos (- y)); lra).
  replace (x * logistic x - y * logistic y) with ((x - y) * logistic x + y * (logistic x - logistic y)) by ring. eapply Rle_trans; [apply Rabs_triang|]. rewrite !Rabs_mult.
  pose proof (logistic_01 x) as B. rewrite (Rabs_pos_eq (logistic x)) by lra. pose proof (logistic_lip x y) as Q. pose proof (Rabs_pos (x - y)). pose proof (Rabs_pos y). pose proof (Rabs_pos (logistic x - logistic y)).
  assert (Rabs y * Rabs (logistic x - logistic y) <= K * (1 / 4 * Rabs (x - y))) by (apply Rmult_le_compat; assumption). nra.
Qed.

Lemma exp_le_mono a b : a <= b -> exp a <= exp b.
Proof. intros [H| ->]; [left; apply exp_increasing; exact H|lra]. Qed.

Lemma elu_lip : lip 1 (fun x => if Rlt_dec 0 x then x else exp x - 1).
Proof.
  assert (E : forall a b, a <= 0 -> b <= 0 -> Rabs (exp a - exp b) <= Rabs (a - b)).
  { assert (G : forall a b, a <= b -> b <= 0 -> exp b - exp a <= b - a).
    { intros a b L Z. replace (exp a) with (exp b * exp (a - b)) by (rewrite <- exp_plus; f_equal; ring). pose proof (exp_ineq1_le (a - b)). pose proof (exp_pos b). pose proof (exp_le_mono b 0 Z) as U. rewrite exp_0 in U. nra. }
    intros a b A B. destruct (Rle_dec a b) as [L|L].
    - rewrite Rabs_minus_sym, (Rabs_minus_sym a b). pose proof (exp_le_mono a b L). rewrite !Rabs_pos_eq by lra. apply G; assumption.
    - assert (b <= a) by lra. pose proof (exp_le_mono b a H). rewrite !Rabs_pos_eq by lra. apply G; assumption. }
  intros x y. rewrite Rmult_1_l. destruct (Rlt_dec 0 x) as [X|X], (Rlt_dec 0 y) as [Y|Y].
  - lra.
  - pose proof (exp_ineq1_le y). pose proof (exp_le_mono y 0 ltac:(lra)) as U. rewrite exp_0 in U. rewrite !Rabs_pos_eq by lra. lra.
  - pose proof (exp_ineq1_le x). pose proof (exp_le_mono x 0 ltac:(lra)) as U. rewrite exp_0 in U. rewrite Rabs_minus_sym, (Rabs_minus_sym x y). rewrite !Rabs_pos_eq by lra. lra.
  - replace (exp x - 1 - (exp y - 1)) with (exp x - exp y) by ring. apply E; lra.
Qed.

(** ** All of them *)
Lemma lip_twice K L f mode : lip_on K L f -> lip_on K (twice mode L) (fun x => if mode then f x * 2 - 1 else f x).
Proof.
  intros P. destruct mode; cbn [twice]; [|exact P]. intros x y Hx Hy. replace (f x * 2 - 1 - (f y * 2 - 1)) with (2 * (f x - f y)) by ring. rewrite Rabs_mult, (Rabs_pos_eq 2) by lra. specialize (P x y Hx Hy). lra.
Qed.

Lemma nonzero_ne x : nonzero x = true -> x <> 0.
Proof. unfold nonzero. destruct (Req_EM_T x 0); [discriminate|auto]. Qed.

Lemma guard_true b e u : guard b e = Ok u -> b = true.
Proof. destruct b; [reflexivity|discriminate]. Qed.

Lemma act_is_lip K a : 0 <= K -> act_ok a = Ok tt -> no_jump a -> lip_on K (act_lip K a) (act_fn a).
Proof.
  intros HK O J. destruct a; cbn [act_ok no_jump] in O, J; cbn [act_lip]; try contradiction.
  - apply guard_true, nonzero_ne in O. apply (lip_twice K _ (gauss mu sigma) mode), lip_all, gauss_is_lip, O.
  - apply guard_true, nonzero_ne in O.
    assert (G1 : lip (gauss_lip sigma) (fun x => exp (- ((x + dx - mu) / (eps9 + sigma)) ^ 2 / 2))).
    { intros x y. pose proof (gauss_is_lip mu sigma O (x + dx) (y + dx)) as Q. replace (x + dx - (y + dx)) with (x - y) in Q by ring. exact Q. }
    assert (G2 : lip (gauss_lip sigma) (fun x => exp (- ((x - dx - mu) / (eps9 + sigma)) ^ 2 / 2))).
    { intros x y. pose proof (gauss_is_lip mu sigma O (x - dx) (y - dx)) as Q. replace (x - dx - (y - dx)) with (x - y) in Q by ring. exact Q. }
    destruct mode; intros x y _ _; specialize (G1 x y); specialize (G2 x y); cbn [act_fn]; cbv beta in G1, G2.
    + match goal with |- Rabs (?a - ?b * 2 - 1 - (?c - ?d * 2 - 1)) <= _ => replace (a - b * 2 - 1 - (c - d * 2 - 1)) with ((a - c) + - (2 * (b - d))) by ring end.
      eapply Rle_trans; [apply Rabs_triang|]. rewrite Rabs_Ropp, Rabs_mult, (Rabs_pos_eq 2) by lra. lra.
    + match goal with |- Rabs (?a - ?b - (?c - ?d)) <= _ => replace (a - b - (c - d)) with ((a - c) + - (b - d)) by ring end.
      eapply Rle_trans; [apply Rabs_triang|]. rewrite Rabs_Ropp. lra.
  - apply bind_ok in O as (u & _ & O). apply guard_true, andb_prop in O as [O1 O2]. apply nonzero_ne in O1, O2.
    assert (S : lip_on K (gauss_lip (nth 0 sigma 0) + gauss_lip (nth 1 sigma 0)) (fun x => gauss (nth 0 mu 0) (nth 0 sigma 0) x + gauss (nth 1 mu 0) (nth 1 sigma 0) x)) by (apply lip_plus; apply lip_all, gauss_is_lip; assumption).
    destruct mode; cbn [act_fn]; [exact (lip_clamp K _ _ (-1) 1 (lip_twice K _ _ true S))|exact (lip_clamp K _ _ 0 1 S)].
  - assert (N : forall g, In g gs -> eps9 + snd g <> 0).
    { destruct gs as [|g0 t]; [discriminate|]. apply guard_true in O. rewrite forallb_forall in O. intros g Hg. apply nonzero_ne, (O g Hg). }
    pose proof (mixture_lip gs K N) as S. destruct mode; cbn [act_fn]; [exact (lip_clamp K _ _ (-1) 1 (lip_twice K _ _ true S))|exact (lip_clamp K _ _ 0 1 S)].
  - apply (lip_twice K _ (fun x => poly_from 0 coef 0 x)). pose proof (poly_is_lip K coef HK 0%nat (fun _ => 0) 0) as S. rewrite Rplus_0_l in S. apply S. intros x y _ _. rewrite Rminus_diag_eq, Rabs_R0 by reflexivity. lra.
  - pose proof (lip_all _ _ K (cosx2_lip mu omega)) as S. destruct mode; cbn [act_fn]; [exact S|exact (lip_shift K _ _ 1 S)].
  - apply (lip_twice K _ (interval_sum ivs alpha)), interval_lip. destruct ivs; [left; reflexivity|]. right. apply guard_true, nonzero_ne in O. exact O.
  - intros x y _ _. cbn [act_fn]. lra.
  - apply lip_all, relu_lip.
  - apply lip_all, tanh_lip.
  - apply lip_all, logistic_lip.
  - apply silu_lip, HK.
  - apply lip_all, elu_lip.
Qed.

Lemma lip_bound K L f : lip_on K L f -> 0 <= L -> 0 <= K -> bounded_on K (Rabs (f 0) + L * K) f.
Proof.
  intros P HL HK x Hx. specialize (P x 0 Hx ltac:(rewrite Rabs_R0; exact HK)). rewrite Rminus_0_r in P. replace (f x) with (f 0 + (f x - f 0)) by ring. eapply Rle_trans; [apply Rabs_triang|].
  assert (L * Rabs x <= L * K) by (apply Rmult_le_compat_l; assumption). lra.
Qed.

Lemma gauss_lip_pos s : 0 <= gauss_lip s.
Proof. unfold gauss_lip, Rdiv. apply Rmult_le_pos; [left; apply exp_pos|]. destruct (Req_dec (eps9 + s) 0) as [->|N]; [rewrite Rabs_R0; rewrite Rinv_0; lra|]. left. apply Rinv_0_lt_compat, Rabs_pos_lt, N. Qed.

Lemma inv_pos_le x : 0 <= x -> 0 <= / x.
Proof. intros [H| <-]; [left; apply Rinv_0_lt_compat, H|rewrite Rinv_0; lra]. Qed.

Lemma poly_lip_pos K coef : 0 <= K -> forall ii, 0 <= poly_lip K ii coef.
Proof.
  intros HK. induction coef as [|v t IH]; intros ii; cbn [poly_lip]; [lra|]. specialize (IH (S ii)). assert (0 <= Rabs v * (INR ii * K ^ (ii - 1))) by (apply Rmult_le_pos; [apply Rabs_pos|apply Rmult_le_pos; [apply pos_INR|apply pow_le, HK]]). lra.
Qed.

Lemma twice_pos m L : 0 <= L -> 0 <= twice m L.
Proof. destruct m; cbn [twice]; lra. Qed.

Lemma act_lip_pos K a : 0 <= K -> 0 <= act_lip K a.
Proof.
  intros HK. destruct a; cbn [act_lip]; try lra.
  - apply twice_pos, gauss_lip_pos.
  - pose proof (gauss_lip_pos sigma). destruct mode; lra.
  - apply twice_pos. pose proof (gauss_lip_pos (nth 0 sigma 0)). pose proof (gauss_lip_pos (nth 1 sigma 0)). lra.
  - apply twice_pos. induction gs as [|g t IH]; cbn [fold_right]; [lra|]. assert (0 <= Rabs (fst (fst g)) * gauss_lip (snd g)) by (apply Rmult_le_pos; [apply Rabs_pos|apply gauss_lip_pos]). lra.
  - apply twice_pos, poly_lip_pos, HK.
  - pose proof (Rabs_pos omega). lra.
  - apply twice_pos, Rmult_le_pos; [apply pos_INR|]. unfold Rdiv. pose proof (inv_pos_le (Rabs alpha) (Rabs_pos _)). lra.
Qed.

Lemma clamp_bound lo hi x : lo <= hi -> lo <= clamp lo hi x <= hi.
Proof. intros H. unfold clamp, Rmin, Rmax. repeat destruct (Rle_dec _ _); lra. Qed.

Lemma interval_range ivs alpha x : 0 <= interval_sum ivs alpha x <= INR (List.length ivs).
Proof.
  unfold interval_sum. assert (F : forall t r, r <= fold_left (fun result bounds => result + sigmoid_1 x (fst bounds) alpha * (1 - sigmoid_1 x (snd bounds) alpha)) t r <= r + INR (List.length t)).
  { induction t as [|[lo hi] t IH]; intros r; cbn [fold_left List.length fst snd]; [change (INR 0) with 0; lra|]. rewrite S_INR. specialize (IH (r + sigmoid_1 x lo alpha * (1 - sigmoid_1 x hi alpha))).
    assert (B : forall m, 0 < sigmoid_1 x m alpha < 1) by (intros m; rewrite sigmoid_logistic; apply logistic_01). pose proof (B lo) as B1. pose proof (B hi) as B2.
    set (a := sigmoid_1 x lo alpha) in *. set (b := sigmoid_1 x hi alpha) in *. assert (0 <= a * (1 - b) <= 1) by nra. lra. }
  specialize (F ivs 0). lra.
Qed.

Lemma act_is_bounded K a : 0 <= K -> act_ok a = Ok tt -> no_jump a -> bounded_on K (act_bound K a) (act_fn a).
Proof.
  intros HK O J. pose proof (lip_bound K _ _ (act_is_lip K a HK O J) (act_lip_pos K a HK) HK) as G. destruct a; cbn [act_bound]; try exact G; intros x _; cbn [act_fn].
  - pose proof (gauss_01 mu sigma x). destruct mode; apply Rabs_le; lra.
  - pose proof (gauss_01 mu sigma (x + dx)) as G1. pose proof (gauss_01 mu sigma (x - dx)) as G2. unfold gauss in G1, G2. destruct mode; apply Rabs_le; lra.
  - destruct mode; apply Rabs_le; [pose proof (clamp_bound (-1) 1 ((gauss (nth 0 mu 0) (nth 0 sigma 0) x + gauss (nth 1 mu 0) (nth 1 sigma 0) x) * 2 - 1) ltac:(lra))|pose proof (clamp_bound 0 1 (gauss (nth 0 mu 0) (nth 0 sigma 0) x + gauss (nth 1 mu 0) (nth 1 sigma 0) x) ltac:(lra))]; lra.
  - destruct mode; apply Rabs_le; [pose proof (clamp_bound (-1) 1 (mixture_sum gs x * 2 - 1) ltac:(lra))|pose proof (clamp_bound 0 1 (mixture_sum gs x) ltac:(lra))]; lra.
  - assert (B : -1 <= cos (omega * Rabs (mu - x)) / (1 + (10 * Rabs (mu - x)) ^ 2) <= 1).
    { pose proof (COS_bound (omega * Rabs (mu - x))) as C. set (c := cos _) in *. set (s := 10 * Rabs (mu - x)). assert (P : 1 <= 1 + s ^ 2) by nra. split; apply (Rmult_le_reg_r (1 + s ^ 2)); try lra; unfold Rdiv; rewrite Rmult_assoc, Rinv_l by lra; lra. }
    destruct mode; apply Rabs_le; lra.
  - pose proof (interval_range ivs alpha x) as B. destruct mode; apply Rabs_le; [|lra]. pose proof (Rmax_l 1 (2 * INR (List.length ivs) - 1)). pose proof (Rmax_r 1 (2 * INR (List.length ivs) - 1)). lra.
  - rewrite tanh_logistic. pose proof (logistic_01 (2 * x)). apply Rabs_le. lra.
  - pose proof (logistic_01 x) as B. unfold logistic in B. apply Rabs_le. lra.
Qed.
