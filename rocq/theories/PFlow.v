From Coq Require Import Reals Lra Lia List Arith Bool ZArith.
From Verif Require Import Base Tensor SGrid SLip SFlow PTensor PDyn PLipX.
Import ListNotations.
Open Scope R_scope.

Definition clip (x : R) : R := Rmax 0 (Rmin 1 x).

Lemma clip_clamp x : clip x = clamp 0 1 x.
Proof. unfold clip, clamp, Rmax, Rmin. repeat (destruct (Rle_dec _ _)); lra. Qed.

Lemma clip_cases x : (x <= 0 /\ clip x = 0) \/ (0 <= x <= 1 /\ clip x = x) \/ (1 <= x /\ clip x = 1).
Proof. unfold clip, Rmax, Rmin. destruct (Rle_dec 1 x) as [A|A]; [right; right; destruct (Rle_dec 0 1); lra|]. destruct (Rle_dec 0 x) as [Q|Q]; [right; left|left]; lra. Qed.

Ltac clips := repeat match goal with
  | |- context [clip ?x] => let K := fresh "K" in let E := fresh "E" in pose proof (clip_cases x) as K; destruct K as [[K E]|[[K E]|[K E]]]; rewrite E in *; clear E
  | X : context [clip ?x] |- _ => let K := fresh "K" in let E := fresh "E" in pose proof (clip_cases x) as K; destruct K as [[K E]|[[K E]|[K E]]]; rewrite E in *; clear E
  end.

Lemma clip_lip x y : Rabs (clip x - clip y) <= Rabs (x - y).
Proof. rewrite !clip_clamp. apply clamp_lip. Qed.

Lemma clip_range x : 0 <= clip x <= 1.
Proof. rewrite clip_clamp. apply clamp_range. lra. Qed.

Lemma clip_id x : 0 <= x <= 1 -> clip x = x.
Proof. rewrite clip_clamp. apply clamp_id. Qed.

(** Two moves in one direction are one move. *)
Lemma clip_twice x a s t : 0 <= x <= 1 -> 0 <= s -> 0 <= t -> clip (clip (x + s * a) + t * a) = clip (x + (s + t) * a).
Proof.
  intros Hx Hs Ht. destruct (Rle_dec 0 a) as [Ha|Ha].
  - pose proof (Rmult_le_pos _ _ Hs Ha). pose proof (Rmult_le_pos _ _ Ht Ha). rewrite Rmult_plus_distr_r. set (p := s * a) in *. set (q := t * a) in *. unfold clip, Rmax, Rmin. repeat (destruct (Rle_dec _ _)); lra.
  - assert (0 <= s * - a) by (apply Rmult_le_pos; lra). assert (0 <= t * - a) by (apply Rmult_le_pos; lra). rewrite Rmult_plus_distr_r.
    replace (s * a) with (- (s * - a)) by ring. replace (t * a) with (- (t * - a)) by ring. set (p := s * - a) in *. set (q := t * - a) in *. unfold clip, Rmax, Rmin. repeat (destruct (Rle_dec _ _)); lra.
Qed.

Lemma exp_ge x : 1 + x <= exp x.
Proof.
  destruct (Req_dec x 0) as [->|N]; [rewrite exp_0; lra|]. left. apply exp_ineq1. exact N.
Qed.

Lemma pow_exp x n : 0 <= x -> (1 + x) ^ n <= exp (INR n * x).
Proof.
  intros H. induction n as [|n IH]; [cbn [pow INR]; rewrite Rmult_0_l, exp_0; lra|]. rewrite S_INR, Rmult_plus_distr_r, Rmult_1_l, exp_plus. cbn [pow]. rewrite Rmult_comm.
  apply Rmult_le_compat; [apply pow_le; lra|lra|exact IH|apply exp_ge].
Qed.

Section Flow.
  Variables (B C H W : nat) (g : tensor -> nat -> nat -> nat -> nat -> R) (L M : R).
  Hypothesis L0 : 0 <= L.
  Hypothesis M0 : 0 <= M.

  Definition good (u : tensor) : Prop := twf u /\ shape u = (B, C, H, W) /\ in_unit u.
  Definition inside (b c i j : nat) : Prop := (b < B)%nat /\ (c < C)%nat /\ (i < H)%nat /\ (j < W)%nat.
  Definition within (e : R) (u v : tensor) : Prop := forall b c i j, inside b c i j -> Rabs (get u b c i j - get v b c i j) <= e.

  Hypothesis gM : forall u b c i j, good u -> inside b c i j -> Rabs (g u b c i j) <= M.
  Hypothesis gL : forall e u v b c i j, good u -> good v -> within e u v -> inside b c i j -> Rabs (g u b c i j - g v b c i j) <= L * e.

  Lemma good_range u b c i j : good u -> inside b c i j -> 0 <= get u b c i j <= 1.
  Proof.
    intros (T & S & U) (Hb & Hc & Hi & Hj). unfold in_unit in U. rewrite Forall_forall in U. apply U. unfold shape in S. injection S as S1 S2 S3 S4. apply get_in_data; [exact T|congruence..].
  Qed.

  Lemma within_refl u : within 0 u u.
  Proof. intros b c i j _. rewrite Rminus_diag_eq, Rabs_R0 by reflexivity. lra. Qed.

  Lemma within_sym e u v : within e u v -> within e v u.
  Proof. intros X b c i j I. rewrite Rabs_minus_sym. apply X, I. Qed.

  Lemma within_trans a b u v w : within a u v -> within b v w -> within (a + b) u w.
  Proof.
    intros X Y p c i j I. replace (get u p c i j - get w p c i j) with ((get u p c i j - get v p c i j) + (get v p c i j - get w p c i j)) by ring.
    eapply Rle_trans; [apply Rabs_triang|]. apply Rplus_le_compat; [apply X, I|apply Y, I].
  Qed.

  Lemma within_le a b u v : a <= b -> within a u v -> within b u v.
  Proof. intros X Y p c i j I. eapply Rle_trans; [apply Y, I|exact X]. Qed.

  Definition S (h : R) (u : tensor) : tensor := build B C H W (fun b c i j => clip (get u b c i j + h * g u b c i j)).

  Lemma S_good h u : good (S h u).
  Proof. split; [apply twf_build|]. split; [reflexivity|]. apply forall_build. intros. apply clip_range. Qed.

  Lemma S_get h u b c i j : inside b c i j -> get (S h u) b c i j = clip (get u b c i j + h * g u b c i j).
  Proof. intros (Hb & Hc & Hi & Hj). apply get_build; assumption. Qed.

  Fixpoint it (n : nat) (h : R) (u : tensor) : tensor := match n with O => u | Datatypes.S m => S h (it m h u) end.

  Lemma it_good n h u : good u -> good (it n h u).
  Proof. intros G. destruct n; [exact G|apply S_good]. Qed.

  Lemma it_add n m h u : it (n + m) h u = it n h (it m h u).
  Proof. induction n as [|n IH]; [reflexivity|]. cbn [Nat.add it]. rewrite IH. reflexivity. Qed.

  Lemma S_lip h e u v : 0 <= h -> good u -> good v -> within e u v -> within ((1 + h * L) * e) (S h u) (S h v).
  Proof.
    intros Hh Gu Gv X b c i j I. rewrite !S_get by exact I. eapply Rle_trans; [apply clip_lip|].
    replace (get u b c i j + h * g u b c i j - (get v b c i j + h * g v b c i j)) with ((get u b c i j - get v b c i j) + h * (g u b c i j - g v b c i j)) by ring.
    eapply Rle_trans; [apply Rabs_triang|]. rewrite Rabs_mult, (Rabs_pos_eq h) by exact Hh. pose proof (X b c i j I). pose proof (Rmult_le_compat_l h _ _ Hh (gL e u v b c i j Gu Gv X I)). lra.
  Qed.

  Lemma S_move h u : 0 <= h -> good u -> within (h * M) u (S h u).
  Proof.
    intros Hh G b c i j I. rewrite S_get by exact I. rewrite <- (clip_id (get u b c i j)) at 1 by (apply good_range; assumption). eapply Rle_trans; [apply clip_lip|].
    replace (get u b c i j - (get u b c i j + h * g u b c i j)) with (- (h * g u b c i j)) by ring. rewrite Rabs_Ropp, Rabs_mult, (Rabs_pos_eq h) by exact Hh. apply Rmult_le_compat_l; [exact Hh|apply gM; assumption].
  Qed.

  Lemma it_move n h u : 0 <= h -> good u -> within (INR n * h * M) u (it n h u).
  Proof.
    intros Hh G. induction n as [|n IH]; [cbn [it INR]; rewrite !Rmult_0_l; apply within_refl|].
    cbn [it]. rewrite S_INR. replace ((INR n + 1) * h * M) with (INR n * h * M + h * M) by ring. eapply within_trans; [exact IH|]. apply S_move; [exact Hh|apply it_good, G].
  Qed.

  Lemma it_lip n h e u v : 0 <= h -> good u -> good v -> within e u v -> within ((1 + h * L) ^ n * e) (it n h u) (it n h v).
  Proof.
    intros Hh Gu Gv X. induction n as [|n IH]; [cbn [it pow]; rewrite Rmult_1_l; exact X|]. cbn [it pow]. rewrite Rmult_assoc. apply S_lip; auto using it_good.
  Qed.

  Lemma it_lip_exp n h e u v : 0 <= h -> 0 <= e -> good u -> good v -> within e u v -> within (exp (INR n * h * L) * e) (it n h u) (it n h v).
  Proof.
    intros Hh He Gu Gv X. eapply within_le; [|apply it_lip; eassumption]. apply Rmult_le_compat_r; [exact He|]. rewrite Rmult_assoc. apply pow_exp. apply Rmult_le_pos; assumption.
  Qed.

  (** Smaller steps with the field of the first grid. *)
  Lemma frozen d u : 0 <= d -> good u -> forall k, within (L * M * d ^ 2 * (INR k * (INR k - 1) / 2)) (S (INR k * d) u) (it k d u).
  Proof.
    intros Hd G k. induction k as [|k IH].
    - cbn [INR it]. intros b c i j I. rewrite S_get by exact I. rewrite Rmult_0_l, Rmult_0_l, Rplus_0_r, clip_id by (apply good_range; assumption). rewrite Rminus_diag_eq, Rabs_R0 by reflexivity. lra.
    - assert (K0 : 0 <= INR k) by apply pos_INR. assert (K1 : 0 <= INR k * d) by (apply Rmult_le_pos; assumption). intros b c i j I. cbn [it]. rewrite !S_get by exact I. rewrite S_INR.
      replace ((INR k + 1) * d) with (INR k * d + d) by ring. rewrite <- (clip_twice (get u b c i j)) by (assumption || apply good_range; assumption). rewrite <- (S_get (INR k * d) u) by exact I.
      eapply Rle_trans; [apply clip_lip|]. specialize (IH b c i j I).
      pose proof (gL _ _ _ b c i j G (it_good k d u G) (it_move k d u Hd G) I) as Q. apply (Rmult_le_compat_l d _ _ Hd) in Q.
      match goal with |- Rabs (?a + d * ?x - (?e + d * ?y)) <= _ => replace (a + d * x - (e + d * y)) with ((a - e) + d * (x - y)) by ring end.
      eapply Rle_trans; [apply Rabs_triang|]. rewrite Rabs_mult, (Rabs_pos_eq d) by exact Hd.
      eapply Rle_trans; [apply Rplus_le_compat; [exact IH|exact Q]|]. right. field.
  Qed.

  Lemma refine_one m h u : (0 < m)%nat -> 0 <= h -> good u -> within (h ^ 2 * L * M / 2) (S h u) (it m (h / INR m) u).
  Proof.
    intros Hm Hh G. assert (P : 0 < INR m) by (apply lt_0_INR; exact Hm). assert (P1 : 1 <= INR m) by (apply (le_INR 1); exact Hm).
    assert (Hd : 0 <= h / INR m) by (apply Rmult_le_pos; [exact Hh|left; apply Rinv_0_lt_compat, P]).
    pose proof (frozen (h / INR m) u Hd G m) as F. replace (INR m * (h / INR m)) with h in F by (field; lra). eapply within_le; [|exact F].
    replace (L * M * (h / INR m) ^ 2 * (INR m * (INR m - 1) / 2)) with (h ^ 2 * L * M / 2 - h ^ 2 * L * M / 2 * / INR m) by (field; lra).
    assert (0 <= h ^ 2 * L * M / 2 * / INR m); [|lra]. apply Rmult_le_pos; [|left; apply Rinv_0_lt_compat, P]. unfold Rdiv. apply Rmult_le_pos; [|lra]. apply Rmult_le_pos; [|exact M0]. apply Rmult_le_pos; [apply pow2_ge_0|exact L0].
  Qed.

  Definition err (h t : R) : R := h * (M / 2) * (exp (L * t) - 1).

  Lemma err_pos h t : 0 <= h -> 0 <= t -> 0 <= err h t.
  Proof.
    intros Hh Ht. unfold err. apply Rmult_le_pos; [apply Rmult_le_pos; lra|]. pose proof (exp_ge (L * t)). pose proof (Rmult_le_pos _ _ L0 Ht). lra.
  Qed.

  Lemma refine n m h u : (0 < m)%nat -> 0 <= h -> good u -> within (h * (M / 2) * ((1 + h * L) ^ n - 1)) (it n h u) (it (n * m) (h / INR m) u).
  Proof.
    intros Hm Hh G. induction n as [|n IH]; [cbn [Nat.mul it pow]; eapply within_le; [|apply within_refl]; lra|].
    cbn [Nat.mul it pow]. rewrite it_add. pose proof (it_good n h u G) as G1. pose proof (it_good (n * m) (h / INR m) u G) as G2.
    pose proof (S_lip h _ _ _ Hh G1 G2 IH) as A. pose proof (refine_one m h _ Hm Hh G2) as Bd. pose proof (within_trans _ _ _ _ _ A Bd) as X. eapply within_le; [|exact X]. right. field.
  Qed.

  Lemma refine_exp n m h u : (0 < m)%nat -> 0 <= h -> good u -> within (err h (INR n * h)) (it n h u) (it (n * m) (h / INR m) u).
  Proof.
    intros Hm Hh G. eapply within_le; [|apply refine; assumption]. unfold err. apply Rmult_le_compat_l; [apply Rmult_le_pos; lra|].
    pose proof (pow_exp (h * L) n (Rmult_le_pos _ _ Hh L0)) as P. replace (L * (INR n * h)) with (INR n * (h * L)) by ring. lra.
  Qed.

  (** Steps of [t/n] and of [t/m]. *)
  Lemma compare t n m u : 0 <= t -> (0 < n)%nat -> (0 < m)%nat -> good u -> within (err (t / INR n) t + err (t / INR m) t) (it n (t / INR n) u) (it m (t / INR m) u).
  Proof.
    intros Ht Hn Hm G. assert (Pn : 0 < INR n) by (apply lt_0_INR; exact Hn). assert (Pm : 0 < INR m) by (apply lt_0_INR; exact Hm).
    assert (Dn : 0 <= t / INR n) by (apply Rmult_le_pos; [exact Ht|left; apply Rinv_0_lt_compat, Pn]). assert (Dm : 0 <= t / INR m) by (apply Rmult_le_pos; [exact Ht|left; apply Rinv_0_lt_compat, Pm]).
    pose proof (refine_exp n m (t / INR n) u Hm Dn G) as A. pose proof (refine_exp m n (t / INR m) u Hn Dm G) as Bd.
    replace (INR n * (t / INR n)) with t in A by (field; lra). replace (INR m * (t / INR m)) with t in Bd by (field; lra).
    replace (t / INR m / INR n) with (t / INR n / INR m) in Bd by (field; lra). rewrite (Nat.mul_comm m n) in Bd. eapply within_trans; [exact A|apply within_sym, Bd].
  Qed.

  Definition lim (t : R) (u w : tensor) : Prop := good w /\ forall n, (0 < n)%nat -> within (err (t / INR n) t) (it n (t / INR n) u) w.

  Lemma small x eps : 0 <= x -> 0 < eps -> exists N, (0 < N)%nat /\ forall n, (N <= n)%nat -> x / INR n < eps.
  Proof.
    intros Hx He. destruct (archimed (x / eps)) as [A _]. set (z := up (x / eps)) in *. exists (Datatypes.S (Z.to_nat z)). split; [lia|]. intros n Hn.
    assert (Q : x / eps < INR n). { assert (0 <= x / eps) by (apply Rmult_le_pos; [exact Hx|left; apply Rinv_0_lt_compat, He]). assert (Z0 : (0 <= z)%Z) by (apply le_IZR; lra).
      eapply Rlt_le_trans; [exact A|]. rewrite <- (Z2Nat.id z Z0), <- INR_IZR_INZ. apply le_INR. lia. }
    assert (P : 0 < INR n) by (apply lt_0_INR; lia). apply (Rmult_lt_reg_r (INR n)); [exact P|]. unfold Rdiv. rewrite Rmult_assoc, Rinv_l, Rmult_1_r by lra.
    apply (Rmult_lt_compat_r eps) in Q; [|exact He]. unfold Rdiv in Q. rewrite Rmult_assoc, Rinv_l, Rmult_1_r in Q by lra. lra.
  Qed.

  Lemma err_div t n : err (t / INR n) t = err t t / INR n.
  Proof. unfold err, Rdiv. ring. Qed.

  Lemma lim_exists t u : 0 <= t -> good u -> exists w, lim t u w.
  Proof.
    intros Ht G. set (X := fun b c i j n => if Nat.ltb b B && Nat.ltb c C && Nat.ltb i H && Nat.ltb j W then get (it (Datatypes.S n) (t / INR (Datatypes.S n)) u) b c i j else 0).
    assert (E0 : 0 <= err t t) by (apply err_pos; assumption).
    assert (Cy : forall b c i j, Cauchy_crit (X b c i j)).
    { intros b c i j eps He. destruct (small (err t t) (eps / 2) E0 ltac:(lra)) as (N & _ & HN). exists N. intros n m Hn Hm. unfold R_dist, X.
      destruct (Nat.ltb_spec b B) as [H1|]; [|cbn [andb]; rewrite Rminus_diag_eq, Rabs_R0 by reflexivity; exact He]. destruct (Nat.ltb_spec c C) as [H2|]; [|cbn [andb]; rewrite Rminus_diag_eq, Rabs_R0 by reflexivity; exact He].
      destruct (Nat.ltb_spec i H) as [H3|]; [|cbn [andb]; rewrite Rminus_diag_eq, Rabs_R0 by reflexivity; exact He]. destruct (Nat.ltb_spec j W) as [H4|]; [|cbn [andb]; rewrite Rminus_diag_eq, Rabs_R0 by reflexivity; exact He].
      cbn [andb]. eapply Rle_lt_trans; [apply (compare t (Datatypes.S n) (Datatypes.S m) u Ht ltac:(lia) ltac:(lia) G b c i j); repeat split; assumption|]. rewrite !err_div.
      pose proof (HN (Datatypes.S n) ltac:(lia)). pose proof (HN (Datatypes.S m) ltac:(lia)). lra. }
    set (l := fun b c i j => proj1_sig (R_complete _ (Cy b c i j))). assert (Cv : forall b c i j, Un_cv (X b c i j) (l b c i j)) by (intros b c i j; exact (proj2_sig (R_complete _ (Cy b c i j)))). clearbody l.
    assert (Bd : forall n b c i j, (0 < n)%nat -> inside b c i j -> Rabs (get (it n (t / INR n) u) b c i j - l b c i j) <= err (t / INR n) t).
    { intros n b c i j Hn I. apply le_epsilon. intros eps He. destruct (Cv b c i j (eps / 2) ltac:(lra)) as (N1 & H1). destruct (small (err t t) (eps / 2) E0 ltac:(lra)) as (N2 & _ & H2).
      set (m := (N1 + N2)%nat). specialize (H1 m ltac:(unfold m; lia)). specialize (H2 (Datatypes.S m) ltac:(unfold m; lia)). pose proof (compare t n (Datatypes.S m) u Ht Hn ltac:(lia) G b c i j I) as Q. rewrite (err_div t (Datatypes.S m)) in Q.
      unfold R_dist, X in H1. destruct I as (I1 & I2 & I3 & I4). rewrite (proj2 (Nat.ltb_lt _ _) I1), (proj2 (Nat.ltb_lt _ _) I2), (proj2 (Nat.ltb_lt _ _) I3), (proj2 (Nat.ltb_lt _ _) I4) in H1. cbn [andb] in H1.
      set (y := get (it (Datatypes.S m) _ u) b c i j) in *. set (x := get (it n _ u) b c i j) in *. replace (x - l b c i j) with ((x - y) + (y - l b c i j)) by ring. eapply Rle_trans; [apply Rabs_triang|]. lra. }
    exists (build B C H W (fun b c i j => clip (l b c i j))).
    assert (R : forall b c i j, inside b c i j -> clip (l b c i j) = l b c i j).
    { intros b c i j I. apply clip_id. assert (K : forall eps, 0 < eps -> - eps <= l b c i j <= 1 + eps).
      { intros eps He. destruct (small (err t t) eps E0 He) as (N & N0 & HN). specialize (HN N (le_n N)). specialize (Bd N b c i j N0 I). rewrite err_div in Bd. pose proof (good_range _ b c i j (it_good N (t / INR N) u G) I).
        apply Rabs_def2 in HN || idtac. assert (Bl : Rabs (get (it N (t / INR N) u) b c i j - l b c i j) <= eps) by lra. apply Rabs_def2b in Bl || idtac. unfold Rabs in Bl. destruct (Rcase_abs _) in Bl; lra. }
      split; apply le_epsilon; intros eps He; specialize (K eps He); lra. }
    split.
    - split; [apply twf_build|]. split; [reflexivity|]. apply forall_build. intros. apply clip_range.
    - intros n Hn b c i j I. pose proof I as (I1 & I2 & I3 & I4). rewrite get_build by assumption. rewrite R by exact I. apply Bd; assumption.
  Qed.

  Lemma within_eq u v : good u -> good v -> (forall eps, 0 < eps -> within eps u v) -> u = v.
  Proof.
    intros (T1 & S1 & _) (T2 & S2 & _) X. apply tensor_ext; auto; [congruence|]. intros b c i j Hb Hc Hi Hj. unfold shape in S1. injection S1 as E1 E2 E3 E4. rewrite E1 in Hb. rewrite E2 in Hc. rewrite E3 in Hi. rewrite E4 in Hj.
    apply cond_eq. intros eps He. specialize (X (eps / 2) ltac:(lra) b c i j (conj Hb (conj Hc (conj Hi Hj)))). lra.
  Qed.

  Lemma lim_near t u w eps : 0 <= t -> lim t u w -> 0 < eps -> exists N, (0 < N)%nat /\ forall n, (N <= n)%nat -> within eps (it n (t / INR n) u) w.
  Proof.
    intros Ht (Gw & Hl) He. destruct (small (err t t) eps (err_pos t t Ht Ht) He) as (N & N0 & HN). exists N. split; [exact N0|]. intros n Hn. eapply within_le; [|apply Hl; lia]. rewrite err_div. left. apply HN, Hn.
  Qed.

  Lemma lim_unique t u w w' : 0 <= t -> lim t u w -> lim t u w' -> w = w'.
  Proof.
    intros Ht X Y. apply within_eq; [apply X|apply Y|]. intros eps He. destruct (lim_near t u w (eps / 2) Ht X ltac:(lra)) as (N & _ & HN). destruct (lim_near t u w' (eps / 2) Ht Y ltac:(lra)) as (N' & _ & HN').
    replace eps with (eps / 2 + eps / 2) by field. eapply within_trans; [apply within_sym, (HN (N + N')%nat); lia|apply HN'; lia].
  Qed.

  Lemma lim_lip t e u v w w' : 0 <= t -> 0 <= e -> good u -> good v -> within e u v -> lim t u w -> lim t v w' -> within (exp (L * t) * e) w w'.
  Proof.
    intros Ht He Gu Gv X A Bd b c i j I. apply le_epsilon. intros eps Hp. destruct (lim_near t u w (eps / 2) Ht A ltac:(lra)) as (N & N0 & HN). destruct (lim_near t v w' (eps / 2) Ht Bd ltac:(lra)) as (N' & _ & HN').
    set (n := (N + N')%nat). assert (P : 0 < INR n) by (apply lt_0_INR; unfold n; lia). assert (D : 0 <= t / INR n) by (apply Rmult_le_pos; [exact Ht|left; apply Rinv_0_lt_compat, P]).
    pose proof (it_lip_exp n (t / INR n) e u v D He Gu Gv X) as Q. replace (INR n * (t / INR n) * L) with (L * t) in Q by (field; lra).
    pose proof (within_trans _ _ _ _ _ (within_sym _ _ _ (HN n ltac:(unfold n; lia))) (within_trans _ _ _ _ _ Q (HN' n ltac:(unfold n; lia))) b c i j I). lra.
  Qed.

  Lemma lim_move t u w : 0 <= t -> good u -> lim t u w -> within (t * M) u w.
  Proof.
    intros Ht G A b c i j I. apply le_epsilon. intros eps Hp. destruct (lim_near t u w eps Ht A Hp) as (N & N0 & HN). assert (P : 0 < INR N) by (apply lt_0_INR; exact N0).
    assert (D : 0 <= t / INR N) by (apply Rmult_le_pos; [exact Ht|left; apply Rinv_0_lt_compat, P]). pose proof (it_move N (t / INR N) u D G) as Q. replace (INR N * (t / INR N) * M) with (t * M) in Q by (field; lra).
    exact (within_trans _ _ _ _ _ Q (HN N (le_n N)) b c i j I).
  Qed.

  Lemma lim_step h u w : 0 <= h -> good u -> lim h u w -> within (h ^ 2 * L * M / 2) (S h u) w.
  Proof.
    intros Hh G A b c i j I. apply le_epsilon. intros eps Hp. destruct (lim_near h u w eps Hh A Hp) as (N & N0 & HN). exact (within_trans _ _ _ _ _ (refine_one N h u N0 Hh G) (HN N (le_n N)) b c i j I).
  Qed.

  (** Continuity in time. *)
  Lemma it_time n h k u : 0 <= h -> 0 <= k -> good u -> within (INR n * (Rabs (h - k) * M) * exp (INR n * h * L)) (it n h u) (it n k u).
  Proof.
    intros Hh Hk G. assert (D : 0 <= Rabs (h - k) * M) by (apply Rmult_le_pos; [apply Rabs_pos|exact M0]).
    assert (Q : within (INR n * (Rabs (h - k) * M) * (1 + h * L) ^ n) (it n h u) (it n k u)).
    { assert (Hq : 0 <= h * L) by (apply Rmult_le_pos; assumption). induction n as [|n IH]; [cbn [it INR pow]; eapply within_le; [|apply within_refl]; lra|]. cbn [it]. pose proof (it_good n h u G) as G1. pose proof (it_good n k u G) as G2.
      pose proof (S_lip h _ _ _ Hh G1 G2 IH) as A. assert (Bd : within (Rabs (h - k) * M) (S h (it n k u)) (S k (it n k u))).
      { intros b c i j I. rewrite !S_get by exact I. eapply Rle_trans; [apply clip_lip|]. replace (get (it n k u) b c i j + h * g (it n k u) b c i j - (get (it n k u) b c i j + k * g (it n k u) b c i j)) with ((h - k) * g (it n k u) b c i j) by ring.
        rewrite Rabs_mult. apply Rmult_le_compat_l; [apply Rabs_pos|apply gM; assumption]. }
      eapply within_le; [|exact (within_trans _ _ _ _ _ A Bd)]. cbn [pow]. rewrite S_INR. assert (P1 : 1 <= (1 + h * L) * (1 + h * L) ^ n).
      { rewrite <- (Rmult_1_r 1) at 1. apply Rmult_le_compat; try lra. apply pow_R1_Rle. lra. }
      pose proof (Rmult_le_compat_l _ _ _ D P1). lra. }
    eapply within_le; [|exact Q]. apply Rmult_le_compat_l; [apply Rmult_le_pos; [apply pos_INR|exact D]|]. rewrite Rmult_assoc. apply pow_exp, Rmult_le_pos; assumption.
  Qed.

  Lemma lim_time t s u w w' : 0 <= t -> 0 <= s -> good u -> lim t u w -> lim s u w' -> within (Rabs (t - s) * M * exp (L * t)) w w'.
  Proof.
    intros Ht Hs G A Bd b c i j I. apply le_epsilon. intros eps Hp. destruct (lim_near t u w (eps / 2) Ht A ltac:(lra)) as (N & N0 & HN). destruct (lim_near s u w' (eps / 2) Hs Bd ltac:(lra)) as (N' & _ & HN').
    set (n := (N + N')%nat). assert (P : 0 < INR n) by (apply lt_0_INR; unfold n; lia). assert (D : 0 <= t / INR n) by (apply Rmult_le_pos; [exact Ht|left; apply Rinv_0_lt_compat, P]).
    assert (D' : 0 <= s / INR n) by (apply Rmult_le_pos; [exact Hs|left; apply Rinv_0_lt_compat, P]).
    pose proof (it_time n (t / INR n) (s / INR n) u D D' G) as Q. replace (INR n * (t / INR n) * L) with (L * t) in Q by (field; lra).
    replace (t / INR n - s / INR n) with ((t - s) * / INR n) in Q by (field; lra). rewrite Rabs_mult, (Rabs_pos_eq (/ INR n)) in Q by (left; apply Rinv_0_lt_compat, P).
    replace (INR n * (Rabs (t - s) * / INR n * M)) with (Rabs (t - s) * M) in Q by (field; lra).
    pose proof (within_trans _ _ _ _ _ (within_sym _ _ _ (HN n ltac:(unfold n; lia))) (within_trans _ _ _ _ _ Q (HN' n ltac:(unfold n; lia))) b c i j I). lra.
  Qed.

  (** Times that are multiples of one. *)
  Lemma lim_multiples a k d u v w : 0 <= d -> good u -> lim (INR a * d) u v -> lim (INR k * d) v w -> lim (INR (a + k) * d) u w.
  Proof.
    intros Hd G A Bd. assert (Ta : 0 <= INR a * d) by (apply Rmult_le_pos; [apply pos_INR|exact Hd]). assert (Tk : 0 <= INR k * d) by (apply Rmult_le_pos; [apply pos_INR|exact Hd]). assert (Tt : 0 <= INR (a + k) * d) by (apply Rmult_le_pos; [apply pos_INR|exact Hd]).
    destruct (lim_exists (INR (a + k) * d) u Tt G) as (x & X). replace w with x; [exact X|]. apply within_eq; [apply X|apply Bd|]. intros eps Hp.
    (* steps of length d / m *)
    assert (Z : forall p y z, lim (INR p * d) y z -> good y -> forall eps, 0 < eps -> exists N, (0 < N)%nat /\ forall m, (N <= m)%nat -> within eps (it (p * m) (d / INR m) y) z).
    { clear - Hd L0 M0 gM gL. intros p y z Hl Gy eps Hp. destruct p as [|p].
      - exists 1%nat. split; [lia|]. intros m Hm. cbn [Nat.mul it]. cbn [INR] in Hl. rewrite Rmult_0_l in Hl. pose proof (lim_move 0 y z (Rle_refl 0) Gy Hl) as Q. rewrite Rmult_0_l in Q. eapply within_le; [|exact Q]. lra.
      - assert (Tp : 0 <= INR (Datatypes.S p) * d) by (apply Rmult_le_pos; [apply pos_INR|exact Hd]). destruct (lim_near _ _ _ eps Tp Hl Hp) as (N & N0 & HN). exists N. split; [exact N0|]. intros m Hm. specialize (HN (Datatypes.S p * m)%nat ltac:(nia)).
        replace (INR (Datatypes.S p) * d / INR (Datatypes.S p * m)) with (d / INR m) in HN; [exact HN|]. rewrite mult_INR. assert (INR (Datatypes.S p) <> 0) by (apply not_0_INR; lia). assert (INR m <> 0) by (apply not_0_INR; lia). field. split; assumption. }
    assert (Ek : 0 < exp (INR k * d * L)) by apply exp_pos.
    destruct (Z a u v A G (eps / 3 / exp (INR k * d * L)) ltac:(apply Rdiv_lt_0_compat; lra)) as (N1 & N1p & H1). destruct (Z k v w Bd (proj1 A) (eps / 3) ltac:(lra)) as (N2 & _ & H2). destruct (Z (a + k)%nat u x X G (eps / 3) ltac:(lra)) as (N3 & _ & H3).
    set (m := (N1 + N2 + N3)%nat). specialize (H1 m ltac:(unfold m; lia)). specialize (H2 m ltac:(unfold m; lia)). specialize (H3 m ltac:(unfold m; lia)). rewrite Nat.mul_add_distr_r, Nat.add_comm, it_add in H3.
    assert (P : 0 < INR m) by (apply lt_0_INR; unfold m; lia). assert (D : 0 <= d / INR m) by (apply Rmult_le_pos; [exact Hd|left; apply Rinv_0_lt_compat, P]).
    assert (Q : within (exp (INR (k * m) * (d / INR m) * L) * (eps / 3 / exp (INR k * d * L))) (it (k * m) (d / INR m) (it (a * m) (d / INR m) u)) (it (k * m) (d / INR m) v)).
    { apply it_lip_exp; [exact D|left; apply Rdiv_lt_0_compat; lra|apply it_good, G|apply A|exact H1]. }
    replace (INR (k * m) * (d / INR m) * L) with (INR k * d * L) in Q by (rewrite mult_INR; field; lra). replace (exp (INR k * d * L) * (eps / 3 / exp (INR k * d * L))) with (eps / 3) in Q by (field; lra).
    replace eps with (eps / 3 + (eps / 3 + eps / 3)) by field. eapply within_trans; [apply within_sym, H3|]. eapply within_trans; [exact Q|exact H2].
  Qed.

  Lemma lim_add s t u v w : 0 <= s -> 0 <= t -> good u -> lim s u v -> lim t v w -> lim (s + t) u w.
  Proof.
    intros Hs Ht G A Bd. destruct (lim_exists (s + t) u ltac:(lra) G) as (x & X). replace w with x; [exact X|]. apply within_eq; [apply X|apply Bd|]. intros eps Hp.
    destruct (Req_dec t 0) as [->|Nt].
    { pose proof (lim_move 0 v w (Rle_refl 0) (proj1 A) Bd) as Q. rewrite Rmult_0_l in Q. rewrite Rplus_0_r in X. rewrite (lim_unique s u x v Hs X A). eapply within_le; [|exact Q]. lra. }
    assert (T0 : 0 < t) by lra. set (K := M * exp (L * s) * exp (L * t) + M * exp (L * (s + t)) + 1). pose proof (exp_pos (L * s)) as P1. pose proof (exp_pos (L * t)) as P2. pose proof (exp_pos (L * (s + t))) as P3.
    assert (K0 : 0 < K). { unfold K. assert (0 <= M * exp (L * s) * exp (L * t)) by (apply Rmult_le_pos; [apply Rmult_le_pos; lra|lra]). assert (0 <= M * exp (L * (s + t))) by (apply Rmult_le_pos; lra). lra. }
    destruct (small (t * K) eps ltac:(apply Rmult_le_pos; lra) Hp) as (n & n0 & Hn). specialize (Hn n (le_n n)). assert (Pn : 0 < INR n) by (apply lt_0_INR; exact n0). set (d := t / INR n).
    assert (d0 : 0 < d) by (apply Rdiv_lt_0_compat; assumption). assert (En : INR n * d = t) by (unfold d; field; lra).
    (* s' a multiple of d near s *)
    destruct (archimed (s / d)) as [A1 A2]. set (z := up (s / d)) in *. assert (Sd : 0 <= s / d) by (apply Rmult_le_pos; [exact Hs|left; apply Rinv_0_lt_compat, d0]). assert (z0 : (0 <= z)%Z) by (apply le_IZR; lra).
    set (a := Z.to_nat z). assert (Ea : INR a = IZR z) by (unfold a; rewrite INR_IZR_INZ, Z2Nat.id by exact z0; reflexivity).
    assert (Ds : Rabs (s - INR a * d) <= d). { rewrite Ea. assert (E : s = s / d * d) by (field; lra). assert (s < IZR z * d) by (rewrite E; apply Rmult_lt_compat_r; lra). assert (IZR z * d <= s + d). { replace (s + d) with ((s / d + 1) * d) by (field; lra). apply Rmult_le_compat_r; lra. } apply Rabs_le. lra. }
    assert (Sa : 0 <= INR a * d) by (apply Rmult_le_pos; [apply pos_INR|lra]).
    destruct (lim_exists (INR a * d) u Sa G) as (v' & A'). destruct (lim_exists (INR n * d) v' ltac:(lra) (proj1 A')) as (w' & B'). pose proof (lim_multiples a n d u v' w' ltac:(lra) G A' B') as X'. rewrite plus_INR, Rmult_plus_distr_r, En in X'. rewrite En in B'.
    pose proof (lim_time s (INR a * d) u v v' Hs Sa G A A') as Q1. assert (E0 : 0 <= Rabs (s - INR a * d) * M * exp (L * s)) by (apply Rmult_le_pos; [apply Rmult_le_pos; [apply Rabs_pos|exact M0]|lra]). pose proof (lim_lip t _ v v' w w' Ht E0 (proj1 A) (proj1 A') Q1 Bd B') as Q2.
    pose proof (lim_time (s + t) (INR a * d + t) u x w' ltac:(lra) ltac:(lra) G X X') as Q3. replace (s + t - (INR a * d + t)) with (s - INR a * d) in Q3 by ring.
    eapply within_le; [|exact (within_trans _ _ _ _ _ Q3 (within_sym _ _ _ Q2))]. apply Rle_trans with (d * K).
    - replace (Rabs (s - INR a * d) * M * exp (L * (s + t)) + exp (L * t) * (Rabs (s - INR a * d) * M * exp (L * s))) with (Rabs (s - INR a * d) * (M * exp (L * s) * exp (L * t) + M * exp (L * (s + t)))) by ring.
      apply Rmult_le_compat; [apply Rabs_pos| |exact Ds|unfold K; lra]. assert (0 <= M * exp (L * s) * exp (L * t)) by (apply Rmult_le_pos; [apply Rmult_le_pos; lra|lra]). assert (0 <= M * exp (L * (s + t))) by (apply Rmult_le_pos; lra). lra.
    - unfold d. replace (t / INR n * K) with (t * K / INR n) by (field; lra). lra.
  Qed.

  (** Steps of different lengths up to [h0]. *)
  Fixpoint its (hs : list R) (u : tensor) : tensor := match hs with [] => u | h :: t => its t (S h u) end.

  Lemma its_lim h0 hs : 0 <= h0 -> Forall (fun h => 0 <= h <= h0) hs -> forall u v w t e, 0 <= t -> 0 <= e -> good u -> good v -> within e v u -> lim (total hs) u w ->
    within (exp (L * total hs) * e + h0 * (M / 2) * (exp (L * total hs) - 1)) (its hs v) w.
  Proof.
    intros H0. induction 1 as [|h hs [Hh Hh0] F IH]; intros u v w t e Ht He Gu Gv X Hl; cbn [its total] in *.
    - rewrite Rmult_0_r, exp_0, Rmult_1_l. pose proof (lim_move 0 u w (Rle_refl 0) Gu Hl) as Q. rewrite Rmult_0_l in Q. eapply within_le; [|exact (within_trans _ _ _ _ _ X Q)]. lra.
    - assert (T0 : 0 <= total hs) by (clear - F; induction F as [|h hs [A _] F IH]; cbn [total]; lra).
      destruct (lim_exists h u Hh Gu) as (u1 & L1). destruct (lim_exists (total hs) u1 T0 (proj1 L1)) as (w1 & L2). pose proof (lim_add h (total hs) u u1 w1 Hh T0 Gu L1 L2) as L3. assert (T1 : 0 <= h + total hs) by lra. rewrite (lim_unique _ _ _ _ T1 Hl L3). clear Hl L3 w.
      pose proof (within_trans _ _ _ _ _ (S_lip h e v u Hh Gv Gu X) (lim_step h u u1 Hh Gu L1)) as Y.
      assert (E1 : 0 <= (1 + h * L) * e + h ^ 2 * L * M / 2). { apply Rplus_le_le_0_compat; [apply Rmult_le_pos; [|exact He]; assert (0 <= h * L) by (apply Rmult_le_pos; assumption); lra|]. unfold Rdiv. apply Rmult_le_pos; [|lra]. apply Rmult_le_pos; [apply Rmult_le_pos; [apply pow2_ge_0|exact L0]|exact M0]. }
      specialize (IH u1 (S h v) w1 0 _ (Rle_refl 0) E1 (proj1 L1) (S_good h v) Y L2). eapply within_le; [|exact IH].
      rewrite (Rmult_plus_distr_l L h), exp_plus. set (E := exp (L * total hs)) in *. assert (P : 0 < E) by apply exp_pos. pose proof (exp_ge (L * h)) as Q. set (x := L * h) in *. assert (x0 : 0 <= x) by (apply Rmult_le_pos; assumption).
      assert (Z1 : E * ((1 + h * L) * e) <= exp x * E * e). { replace (E * ((1 + h * L) * e)) with ((1 + x) * (E * e)) by (unfold x; ring). rewrite Rmult_assoc. apply Rmult_le_compat_r; [apply Rmult_le_pos; lra|exact Q]. }
      assert (Z2 : h ^ 2 * L * M / 2 <= h0 * (M / 2) * x). { unfold x. replace (h ^ 2 * L * M / 2) with (h * (M / 2 * (L * h))) by field. rewrite Rmult_assoc. apply Rmult_le_compat_r; [apply Rmult_le_pos; [lra|exact x0]|exact Hh0]. }
      assert (Z3 : E * (h ^ 2 * L * M / 2) + h0 * (M / 2) * (E - 1) <= h0 * (M / 2) * (exp x * E - 1)).
      { assert (A : E * (h ^ 2 * L * M / 2) <= E * (h0 * (M / 2) * x)) by (apply Rmult_le_compat_l; lra). assert (Bm : 0 <= h0 * (M / 2)) by (apply Rmult_le_pos; lra).
        assert (Cc : h0 * (M / 2) * (E * (1 + x)) <= h0 * (M / 2) * (E * exp x)) by (apply Rmult_le_compat_l; [exact Bm|apply Rmult_le_compat_l; lra]). lra. }
      rewrite Rmult_plus_distr_l. lra.
  Qed.

  (** Curves that the steps follow. *)
  Lemma curve_lim K t u v : 0 <= K -> 0 <= t -> good u -> (forall s, 0 <= s <= t -> good (v s)) -> v 0 = u ->
    (forall s h, 0 <= s -> 0 <= h -> s + h <= t -> within (K * h ^ 2) (S h (v s)) (v (s + h))) -> lim t u (v t).
  Proof.
    intros HK Ht G Gv E X. destruct (lim_exists t u Ht G) as (w & Wl). replace (v t) with w; [exact Wl|]. symmetry.
    assert (Q : forall n, (0 < n)%nat -> within (t ^ 2 * K * exp (L * t) / INR n) (it n (t / INR n) u) (v t)).
    { intros n Hn. assert (P : 0 < INR n) by (apply lt_0_INR; exact Hn). set (h := t / INR n). assert (Hh : 0 <= h) by (apply Rmult_le_pos; [exact Ht|left; apply Rinv_0_lt_compat, P]). assert (Hq : 0 <= h * L) by (apply Rmult_le_pos; assumption).
      assert (Z : forall k, (k <= n)%nat -> within (INR k * (K * h ^ 2) * (1 + h * L) ^ k) (it k h u) (v (INR k * h))).
      { induction k as [|k IH]; intros Hk; [cbn [it INR]; rewrite !Rmult_0_l, E; apply within_refl|]. specialize (IH ltac:(lia)). assert (K0 : 0 <= INR k * h) by (apply Rmult_le_pos; [apply pos_INR|exact Hh]).
        assert (K1 : INR k * h + h <= t). { replace t with (INR n * h) by (unfold h; field; lra). replace (INR k * h + h) with (INR (Datatypes.S k) * h) by (rewrite S_INR; ring). apply Rmult_le_compat_r; [exact Hh|apply le_INR, Hk]. }
        cbn [it]. replace (INR (Datatypes.S k) * h) with (INR k * h + h) by (rewrite S_INR; ring). rewrite S_INR. pose proof (S_lip h _ _ _ Hh (it_good k h u G) (Gv (INR k * h) ltac:(lra)) IH) as A. pose proof (X (INR k * h) h K0 Hh K1) as Bd.
        eapply within_le; [|exact (within_trans _ _ _ _ _ A Bd)]. cbn [pow]. fold (pow (1 + h * L) k). assert (P1 : 1 <= (1 + h * L) * (1 + h * L) ^ k) by (rewrite <- (Rmult_1_r 1) at 1; apply Rmult_le_compat; try lra; apply pow_R1_Rle; lra).
        assert (D : 0 <= K * h ^ 2) by (apply Rmult_le_pos; [exact HK|apply pow2_ge_0]). pose proof (Rmult_le_compat_l _ _ _ D P1). cbn [pow] in *. lra. }
      specialize (Z n (le_n n)). replace (INR n * h) with t in Z by (unfold h; field; lra). eapply within_le; [|exact Z].
      replace (t ^ 2 * K * exp (L * t) / INR n) with (INR n * (K * h ^ 2) * exp (L * t)) by (unfold h; field; lra). apply Rmult_le_compat_l; [apply Rmult_le_pos; [lra|apply Rmult_le_pos; [exact HK|apply pow2_ge_0]]|].
      eapply Rle_trans; [apply pow_exp; exact Hq|]. right. f_equal. unfold h. field. lra. }
    apply within_eq; [apply Gv; lra|apply Wl|]. intros eps He. destruct (lim_near t u w (eps / 2) Ht Wl ltac:(lra)) as (N & N0 & HN). destruct (small (t ^ 2 * K * exp (L * t)) (eps / 2)) as (N' & _ & HN'); [|lra|].
    { apply Rmult_le_pos; [apply Rmult_le_pos; [apply pow2_ge_0|exact HK]|left; apply exp_pos]. }
    replace eps with (eps / 2 + eps / 2) by field. apply (within_trans _ _ _ (it (N + N') (t / INR (N + N')) u)); [apply within_sym; eapply within_le; [|apply Q; lia]; left; apply HN'; lia|apply HN; lia].
  Qed.

  (** Grids that one step leaves unchanged. *)
  Lemma fixed_all h k u : 0 < h -> 0 <= k -> good u -> S h u = u -> S k u = u.
  Proof.
    intros Hh Hk G E. apply within_eq; [apply S_good|exact G|]. intros eps He b c i j I. rewrite S_get by exact I.
    assert (X : clip (get u b c i j + h * g u b c i j) = get u b c i j) by (rewrite <- S_get by exact I; rewrite E; reflexivity). pose proof (good_range u b c i j G I) as Rg. set (x := get u b c i j) in *. set (a := g u b c i j) in *.
    assert (Y : clip (x + k * a) = x); [|rewrite Y, Rminus_diag_eq, Rabs_R0 by reflexivity; lra].
    destruct (Rtotal_order a 0) as [A|[A|A]].
    - assert (x = 0). { assert (0 < h * - a) by (apply Rmult_lt_0_compat; lra). replace (h * a) with (- (h * - a)) in X by ring. clips; lra. }
      assert (0 <= k * - a) by (apply Rmult_le_pos; lra). replace (k * a) with (- (k * - a)) by ring. clips; lra.
    - rewrite A, Rmult_0_r, Rplus_0_r. apply clip_id, Rg.
    - assert (x = 1). { assert (0 < h * a) by (apply Rmult_lt_0_compat; lra). clips; lra. }
      assert (0 <= k * a) by (apply Rmult_le_pos; lra). clips; lra.
  Qed.

  Lemma fixed_lim h t u : 0 < h -> 0 <= t -> good u -> S h u = u -> lim t u u.
  Proof.
    intros Hh Ht G E. split; [exact G|]. intros n Hn. assert (P : 0 < INR n) by (apply lt_0_INR; exact Hn). assert (D : 0 <= t / INR n) by (apply Rmult_le_pos; [exact Ht|left; apply Rinv_0_lt_compat, P]).
    assert (X : it n (t / INR n) u = u). { clear Hn P. induction n as [|n IH]; [reflexivity|]. set (d := t / INR (Datatypes.S n)) in *. clearbody d. cbn [it]. assert (Y : forall m, it m d u = u) by (induction m as [|m IHm]; [reflexivity|]; cbn [it]; rewrite IHm; apply (fixed_all h d u Hh D G E)). rewrite Y. apply (fixed_all h d u Hh D G E). }
    rewrite X. eapply within_le; [|apply within_refl]. apply err_pos; assumption.
  Qed.

  (** A grid the limit never leaves. *)
  Lemma lim_fixed h u : 0 <= h -> good u -> (forall t, 0 <= t -> lim t u u) -> S h u = u.
  Proof.
    intros Hh G X. assert (Y : forall k, 0 < k -> within (k ^ 2 * L * M / 2) (S k u) u) by (intros k Hk; apply lim_step; auto; [lra|apply X; lra]).
    apply within_eq; [apply S_good|exact G|]. intros eps He b c i j I. rewrite S_get by exact I. pose proof (good_range u b c i j G I) as Rg.
    assert (Z : forall k, 0 < k -> Rabs (clip (get u b c i j + k * g u b c i j) - get u b c i j) <= k ^ 2 * L * M / 2) by (intros k Hk; rewrite <- S_get by exact I; apply Y; assumption).
    set (x := get u b c i j) in *. set (a := g u b c i j) in *. set (q := L * M) in *. assert (q0 : 0 <= q) by (apply Rmult_le_pos; assumption).
    assert (Sm : forall p, 0 < p -> exists k, 0 < k /\ k <= 1 /\ k * (q / 2) < p).
    { intros p Hp. exists (Rmin 1 (p / (q + 1))). assert (P2 : 0 < p / (q + 1)) by (apply Rdiv_lt_0_compat; lra). split; [apply Rmin_pos; lra|]. split; [apply Rmin_l|].
      apply Rle_lt_trans with (p / (q + 1) * (q / 2)); [apply Rmult_le_compat_r; [lra|apply Rmin_r]|]. apply (Rmult_lt_reg_r (q + 1)); [lra|]. replace (p / (q + 1) * (q / 2) * (q + 1)) with (p * (q / 2)) by (field; lra).
      assert (0 <= p * q) by (apply Rmult_le_pos; lra). lra. }
    assert (F : clip (x + h * a) = x); [|rewrite F, Rminus_diag_eq, Rabs_R0 by reflexivity; lra].
    assert (Dead : a = 0 \/ (a < 0 /\ x = 0) \/ (0 < a /\ x = 1)).
    { destruct (Rtotal_order a 0) as [A|[A|A]]; [right; left|left; exact A|right; right]; (split; [exact A|]).
      - destruct (Req_dec x 0) as [|Nx]; [assumption|exfalso]. assert (p0 : 0 < Rmin (x) (- a)) by (apply Rmin_pos; lra). destruct (Sm _ p0) as (k & K0 & K1 & K2). specialize (Z k K0).
        set (p := Rmin (x) (- a)) in *. assert (px : p <= x) by apply Rmin_l. assert (Pa : p <= - a) by apply Rmin_r. clearbody p.
        assert (ka : k * p <= k * (- a)) by (apply Rmult_le_compat_l; lra). replace (k ^ 2 * L * M / 2) with (k * (k * (q / 2))) in Z by (unfold q; field).
        assert (kk : k * (k * (q / 2)) < k * p) by (apply Rmult_lt_compat_l; lra). assert (kp : k * p <= 1 * p) by (apply Rmult_le_compat_r; lra).
        replace (k * a) with (- (k * - a)) in Z by ring. set (y := k * (k * (q / 2))) in *. clearbody y. clips; unfold Rabs in Z; destruct (Rcase_abs _) in Z; lra.
      - destruct (Req_dec x 1) as [|Nx]; [assumption|exfalso]. assert (p0 : 0 < Rmin (1 - x) (a)) by (apply Rmin_pos; lra). destruct (Sm _ p0) as (k & K0 & K1 & K2). specialize (Z k K0).
        set (p := Rmin (1 - x) (a)) in *. assert (px : p <= 1 - x) by apply Rmin_l. assert (Pa : p <= a) by apply Rmin_r. clearbody p.
        assert (ka : k * p <= k * (a)) by (apply Rmult_le_compat_l; lra). replace (k ^ 2 * L * M / 2) with (k * (k * (q / 2))) in Z by (unfold q; field).
        assert (kk : k * (k * (q / 2)) < k * p) by (apply Rmult_lt_compat_l; lra). assert (kp : k * p <= 1 * p) by (apply Rmult_le_compat_r; lra).
        set (y := k * (k * (q / 2))) in *. clearbody y. clips; unfold Rabs in Z; destruct (Rcase_abs _) in Z; lra. }
    destruct Dead as [->|[[A ->]|[A ->]]].
    - rewrite Rmult_0_r, Rplus_0_r. apply clip_id, Rg.
    - assert (0 <= h * - a) by (apply Rmult_le_pos; lra). replace (h * a) with (- (h * - a)) by ring. clips; lra.
    - assert (0 <= h * a) by (apply Rmult_le_pos; lra). clips; lra.
  Qed.
End Flow.
