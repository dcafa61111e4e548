(** The step in floats: range, NaN, and rules that stay finite. *)
From Coq Require Import Reals ZArith List Bool Lia Lra Arith Permutation Floats.SpecFloat.
From Verif Require Import Base Tensor SGrid PTensor PSym MFloat SFloat PFloat PFloatX.
Import ListNotations.
Open Scope R_scope.

(** ** Windows *)
Lemma window_in l u b o i j p : In p (window l u b o i j) <-> exists c y x, (c < fC (fl_w l))%nat /\ (y < fH (fl_w l))%nat /\ (x < fW (fl_w l))%nat /\
  p = (fget (fl_w l) o c y x, fpad (fl_m l) (fl_p l) u b ((o / (fB (fl_w l) / fl_g l)) * fC (fl_w l) + c) (i + y) (j + x)).
Proof.
  unfold window. rewrite in_flat_map. split.
  - intros (c & Hc & H). apply in_flat_map in H as (y & Hy & H). apply in_map_iff in H as (x & <- & Hx). apply in_seq in Hc, Hy, Hx. exists c, y, x. repeat split; lia.
  - intros (c & y & x & Hc & Hy & Hx & ->). exists c. split; [apply in_seq; lia|]. apply in_flat_map. exists y. split; [apply in_seq; lia|].
    apply in_map_iff. exists x. split; [reflexivity|apply in_seq; lia].
Qed.

Lemma window_length l u b o i j : length (window l u b o i j) = (fC (fl_w l) * (fH (fl_w l) * fW (fl_w l)))%nat.
Proof.
  unfold window. assert (G : forall (A B : Type) (f : A -> list B) n (q : list A), (forall a, In a q -> length (f a) = n) -> length (flat_map f q) = (length q * n)%nat).
  { intros A B f n q. induction q as [|a q IH]; intros H; [reflexivity|]. cbn [flat_map length]. rewrite app_length, IH, H; [lia|left; reflexivity|intros; apply H; right; assumption]. }
  rewrite (G _ _ _ (fH (fl_w l) * fW (fl_w l))%nat), seq_length; [reflexivity|]. intros c _.
  rewrite (G _ _ _ (fW (fl_w l))), seq_length; [reflexivity|]. intros y _. rewrite map_length, seq_length. reflexivity.
Qed.

Lemma group_lt (C O g o k q : nat) : (0 < g)%nat -> O = (g * q)%nat -> (o < O)%nat -> (k < C)%nat -> ((o / (O / g)) * C + k < g * C)%nat.
Proof.
  intros Hg E Ho Hk. subst O. rewrite (Nat.mul_comm g q), Nat.div_mul by lia.
  assert (o / q < g)%nat by (apply Nat.div_lt_upper_bound; nia). nia.
Qed.

(** What holds of the entries of a batch element (and of zero) holds of its padded entries. *)
Lemma pad_cells m p u b (P : fl -> Prop) c i j : pad_allowed m (fH u) p = true -> pad_allowed m (fW u) p = true -> (c < fC u)%nat -> (0 < fH u)%nat -> (0 < fW u)%nat ->
  (i < fH u + 2 * p)%nat -> (j < fW u + 2 * p)%nat -> P fzero -> batch_cells b u P -> P (fpad m p u b c i j).
Proof.
  intros A1 A2 Hc H0 W0 Hi Hj Z H. unfold fpad. destruct (pad_src m (fH u) p i) as [y|] eqn:E1; [|exact Z]. destruct (pad_src m (fW u) p j) as [x|] eqn:E2; [|exact Z].
  apply H; auto; eapply pad_src_lt; eassumption.
Qed.

Lemma window_cells e n l u b o i j (P Q : fl -> Prop) : flayer_wf e n l -> fC u = (fl_g l * fC (fl_w l))%nat -> fH (fl_w l) = (2 * fl_p l + 1)%nat -> fW (fl_w l) = (2 * fl_p l + 1)%nat ->
  pad_allowed (fl_m l) (fH u) (fl_p l) = true -> pad_allowed (fl_m l) (fW u) (fl_p l) = true -> (o < n)%nat -> (i < fH u)%nat -> (j < fW u)%nat ->
  cells (fl_w l) P -> Q fzero -> batch_cells b u Q -> Forall (fun p => P (fst p) /\ Q (snd p)) (window l u b o i j).
Proof.
  intros (G & (q & Hq) & Hn & He & HB & HE) HC HH HW A1 A2 Ho Hi Hj HP Z HQ. apply Forall_forall. intros p Hp. apply window_in in Hp as (c & y & x & Hc & Hy & Hx & ->). cbn [fst snd].
  split; [apply HP; lia|]. apply pad_cells; auto; try lia. rewrite HC. eapply group_lt; eauto; lia.
Qed.

(** ** Formats *)
Lemma dtype_c d : dtype_ok d -> (1 < cprec d)%Z /\ (cprec d < cemax d)%Z.
Proof. destruct d; cbn; lia. Qed.
Lemma dtype_s d : dtype_ok d -> (1 < sprec d)%Z /\ (sprec d < semax d)%Z.
Proof. destruct d; cbn; lia. Qed.

Lemma up_good d x : dtype_ok d -> good (sprec d) (semax d) x -> good (cprec d) (cemax d) (up d x).
Proof. destruct d; cbn [up cprec cemax sprec semax]; intros H; [auto|]. intros _. apply cast_valid; lia. Qed.
Lemma down_good d x : dtype_ok d -> good (cprec d) (cemax d) x -> good (sprec d) (semax d) (down d x).
Proof. destruct d; cbn [down cprec cemax sprec semax]; intros H; [auto|]. intros _. apply cast_valid; lia. Qed.
Lemma up_nan d : up d S754_nan = S754_nan.
Proof. destruct d; reflexivity. Qed.
Lemma down_nan d : down d S754_nan = S754_nan.
Proof. destruct d; reflexivity. Qed.

Lemma rep_wider p e p' e' r : (p <= p')%Z -> (e <= e')%Z -> rep p e r -> rep p' e' r.
Proof.
  intros Hp He (K & E & -> & B & M). exists K, E. split; [reflexivity|]. unfold emin in *. split; [|lia].
  eapply Z.le_trans; [exact B|]. destruct (Z_le_gt_dec 0 p) as [L|L]; [apply Z.pow_le_mono_r; lia|]. rewrite (Z.pow_neg_r 2 p) by lia. apply Z.pow_nonneg. lia.
Qed.

Lemma up_number d x : dtype_ok d -> number (sprec d) (semax d) x -> number (cprec d) (cemax d) (up d x) /\ value (up d x) = value x.
Proof.
  intros H N. destruct d as [p e|]; cbn [up cprec cemax sprec semax] in *; [auto|].
  destruct (number_rep 11 16 ltac:(lia) x N) as [R B]. apply (result_exact 24 128).
  - apply cast_result; try lia. exact (proj1 N).
  - eapply rep_wider; [| |exact R]; lia.
  - eapply Rlt_trans; [exact B|]. apply bpow_lt. lia.
Qed.

Lemma down_unit d x : dtype_ok d -> unit_number (cprec d) (cemax d) x -> unit_number (sprec d) (semax d) (down d x).
Proof.
  intros H [N B]. destruct d as [p e|]; cbn [down cprec cemax sprec semax] in *; [split; auto|].
  destruct (cast_result 11 16 ltac:(lia) ltac:(lia) x (proj1 N)) as (v & Rn & C).
  assert (V0 : 0 <= v) by exact (rounded_ge 11 16 _ _ 0 Rn (rep_0 11 16) (proj1 B)).
  assert (V1 : v <= 1).
  { assert (R1 : rep 11 16 1) by (exists 1%Z, 0%Z; rewrite bpow_0; split; [ring|]; split; cbv; discriminate). exact (rounded_le 11 16 _ _ 1 Rn R1 (proj2 B)). }
  assert (L : 1 < bpow 16) by (rewrite <- bpow_0; apply bpow_lt; lia).
  destruct C as [(_ & N' & V)|[[A _]|[A _]]]; [split; [exact N'|rewrite V; lra]| |]; exfalso; revert L A V0 V1; generalize (bpow 16); intros; lra.
Qed.

(** ** Range *)
Lemma mask_good p e thr u : (1 < p)%Z -> (p < e)%Z -> cells u (good p e) -> cells (fmask p e thr u) (good p e).
Proof.
  intros Hp He H. unfold fmask. destruct (Nat.leb_spec 4 (fC u)); [|exact H]. intros b c i j Hb Hc Hi Hj. cbn [fget fB fC fH fW] in *.
  apply mul_valid; auto; [apply H; assumption|]. destruct (SFltb _ _); [apply (proj2 (proj1 (one_number p e Hp He)))|reflexivity].
Qed.

Lemma mask_shape p e thr u : fB (fmask p e thr u) = fB u /\ fC (fmask p e thr u) = fC u /\ fH (fmask p e thr u) = fH u /\ fW (fmask p e thr u) = fW u.
Proof. unfold fmask. destruct (Nat.leb 4 (fC u)); auto. Qed.

Lemma conv_good p e a n l u v : (1 < p)%Z -> (p < e)%Z -> flayer_wf a n l -> cells (fl_w l) (good p e) -> cells u (good p e) -> fconv p e l u v -> cells v (good p e).
Proof.
  intros Hp He W HW Hu (C1 & C2 & C3 & C4 & C5 & V1 & V2 & V3 & V4 & T) b o i j Hb Ho Hi Hj. rewrite V1 in Hb. rewrite V2 in Ho. rewrite V3 in Hi. rewrite V4 in Hj.
  eapply total_valid; [exact Hp|exact He|apply T; assumption|]. pose proof W as (_ & _ & _ & _ & HB & _).
  apply (window_cells a n l u b o i j (good p e) (good p e)); auto; [lia|reflexivity|]. intros c i' j' Hc Hi' Hj'. apply Hu; assumption.
Qed.

Lemma wl_good p e a n w u v : (1 < p)%Z -> (p < e)%Z -> fwl_wf a n w -> fwl_cells w (good p e) -> cells u (good p e) -> fwl p e w u v -> cells v (good p e).
Proof.
  intros Hp He W HW Hu H. destruct w as [l|l1 l2]; cbn [fwl fwl_wf fwl_cells] in *.
  - destruct W as [W _]. eapply conv_good; eauto.
  - destruct W as (h & [W1 _] & [W2 _]). destruct HW as [HW1 HW2]. destruct H as (x & H1 & H2).
    pose proof (conv_good p e _ _ _ _ _ Hp He W1 HW1 Hu H1) as G. eapply conv_good; [exact Hp|exact He|exact W2|exact HW2| |exact H2].
    intros b c i j Hb Hc Hi Hj. cbn [fmap fget fB fC fH fW] in *. unfold frelu. destruct (SFltb _ _); [reflexivity|]. apply G; assumption.
Qed.

Lemma wl_shape p e a n w u v : fwl_wf a n w -> fwl p e w u v -> fB v = fB u /\ fC v = a /\ fH v = fH u /\ fW v = fW u /\ fC u = n.
Proof.
  intros W H. destruct w as [l|l1 l2]; cbn [fwl fwl_wf] in *.
  - destruct W as ((_ & _ & _ & _ & W1 & W2) & _). destruct H as (C1 & _ & _ & _ & _ & V1 & V2 & V3 & V4 & _). repeat split; congruence.
  - destruct W as (h & ((_ & _ & _ & _ & W1 & W2) & _) & ((_ & _ & _ & _ & W3 & W4) & _)). destruct H as (x & (C1 & _ & _ & _ & _ & V1 & V2 & V3 & V4 & _) & (D1 & _ & _ & _ & _ & U1 & U2 & U3 & U4 & _)).
    cbn [fmap fB fC fH fW] in *. repeat split; congruence.
Qed.

Lemma clamp_range d x : dtype_ok d -> good (cprec d) (cemax d) x -> nan_or_unit (sprec d) (semax d) (down d (fclamp (cprec d) (cemax d) x)).
Proof.
  intros H G. destruct (dtype_c d H) as [P1 P2]. assert (D : x = S754_nan \/ x <> S754_nan) by (destruct x; auto; right; discriminate).
  destruct D as [-> |N]; [left; rewrite clamp_nan, down_nan; reflexivity|right].
  apply down_unit; [exact H|]. apply clamp_not_nan; assumption.
Qed.

Lemma step_range d c u u' : dtype_ok d -> fcca_wf c -> floats d c -> cells u (good (sprec d) (semax d)) -> fstep d c u u' -> cells u' (nan_or_unit (sprec d) (semax d)).
Proof.
  intros H (W1 & W2 & W3) (F1 & F2 & F3 & F4 & F5 & F6) Hu (Ec & idn & nb & gp & upd & S1 & S2 & (G1 & G2 & G3 & G4 & G5) & S3 & U1 & U2 & U3 & U4 & U5).
  destruct (dtype_c d H) as [P1 P2]. destruct (dtype_s d H) as [Q1 Q2]. set (m := fmask (sprec d) (semax d) (f_thr c) u) in *.
  pose proof (mask_good _ _ (f_thr c) u Q1 Q2 Hu) as Gm. fold m in Gm. destruct (mask_shape (sprec d) (semax d) (f_thr c) u) as (M1 & M2 & M3 & M4). fold m in M1, M2, M3, M4.
  assert (Gm32 : cells (fmap (up d) m) (good (cprec d) (cemax d))) by (intros b o i j Hb Ho Hi Hj; apply up_good; auto).
  pose proof (conv_good _ _ _ _ _ _ _ P1 P2 W1 F1 Gm32 S1) as Gi. pose proof (conv_good _ _ _ _ _ _ _ P1 P2 W2 F2 Gm32 S2) as Gn.
  pose proof S1 as (_ & _ & _ & _ & _ & I1 & I2 & I3 & I4 & _). pose proof S2 as (_ & _ & _ & _ & _ & J1 & J2 & J3 & J4 & _). cbn [fmap fB fC fH fW] in I1, I3, I4, J1, J3, J4.
  destruct W1 as (_ & _ & _ & _ & W1a & _). destruct W2 as (_ & _ & _ & _ & W2a & _).
  assert (Gg : cells (fmap (up d) gp) (good (cprec d) (cemax d))).
  { intros b k i j Hb Hk Hi Hj. cbn [fmap fget fB fC fH fW] in *. rewrite G1 in Hb. rewrite G2 in Hk. rewrite G3 in Hi. rewrite G4 in Hj.
    destruct (G5 b k i j Hb Hk Hi Hj) as (g & p & E1 & E2 & ->). apply up_good; [exact H|]. apply down_good; [exact H|].
    assert (Xi : good (cprec d) (cemax d) (up d (down d (fget idn b k i j)))) by (apply up_good, down_good, Gi; auto; congruence).
    assert (Xn : good (cprec d) (cemax d) (up d (down d (fget nb b k i j)))) by (apply up_good, down_good, Gn; auto; congruence).
    apply add_valid; auto; (apply up_good; [exact H|]; apply down_good; [exact H|]; apply mul_valid; auto).
    - apply sub_valid; auto. apply (proj2 (proj1 (one_number _ _ P1 P2))).
    - eapply F5; [exact Xn|exact E1].
    - eapply F6; [exact Xn|exact E2]. }
  pose proof (wl_good _ _ _ _ _ _ _ P1 P2 W3 F3 Gg S3) as Gd. destruct (wl_shape _ _ _ _ _ _ _ W3 S3) as (L1 & L2 & L3 & L4 & _). cbn [fmap fB fC fH fW] in L1, L3, L4.
  intros b o i j Hb Ho Hi Hj. rewrite U1 in Hb. rewrite U2 in Ho. rewrite U3 in Hi. rewrite U4 in Hj. rewrite U5 by assumption. apply clamp_range; [exact H|].
  apply add_valid; auto; [apply Gm32; cbn [fmap fB fC fH fW]; congruence|]. apply mul_valid; auto. apply up_good, down_good, Gd; auto; congruence.
Qed.

Lemma nan_or_unit_good p e x : nan_or_unit p e x -> good p e x.
Proof. intros [-> |[[_ V] _]]; [reflexivity|exact V]. Qed.

Lemma run_range d c n u u' : dtype_ok d -> fcca_wf c -> floats d c -> cells u (good (sprec d) (semax d)) -> fruns d c n u u' -> (0 < n)%nat -> cells u' (nan_or_unit (sprec d) (semax d)).
Proof.
  intros H W F Hu R. assert (A : cells u' (good (sprec d) (semax d)) /\ ((0 < n)%nat -> cells u' (nan_or_unit (sprec d) (semax d)))); [|tauto].
  induction R as [u|n u v w R IH S]; [split; [exact Hu|lia]|]. destruct (IH Hu) as [A _]. pose proof (step_range d c v w H W F A S) as X. split; [|auto].
  intros b o i j Hb Ho Hi Hj. apply nan_or_unit_good. apply X; assumption.
Qed.

(** ** NaN spreads *)
Lemma mask_nan p e thr u b c i j : is_nan (fget u b c i j) -> is_nan (fget (fmask p e thr u) b c i j).
Proof. unfold fmask, is_nan. destruct (Nat.leb 4 (fC u)); [|auto]. cbn [fget]. intros ->. apply mul_nan_l. Qed.

Lemma wl_nan p e a n w u v b k i j : fwl_wf a n w -> fwl p e w u v -> (b < fB u)%nat -> (k < n)%nat -> (i < fH u)%nat -> (j < fW u)%nat -> is_nan (fget u b k i j) -> nan_at v b i j.
Proof.
  assert (One : forall a' n' l u v b k i j, fpt_layer n' a' l -> fconv p e l u v -> (b < fB u)%nat -> (k < n')%nat -> (i < fH u)%nat -> (j < fW u)%nat -> is_nan (fget u b k i j) -> nan_at v b i j).
  { clear. intros a n l u v b k i j ((G & (q & Hq) & Hn & He & HB & HE) & Hp & Hg) (C1 & C2 & C3 & C4 & C5 & V1 & V2 & V3 & V4 & T) Hb Hk Hi Hj N o Ho.
    rewrite V2 in Ho. apply (total_nan p e (window l u b o i j) _ (T b o i j Hb Ho Hi Hj)). rewrite Hg in *. rewrite Hp in *.
    exists (fget (fl_w l) o k 0%nat 0%nat), (fget u b k i j). split; [|right; exact N]. apply window_in. exists k, 0%nat, 0%nat. repeat split; try lia. f_equal.
    unfold fpad. rewrite !Nat.add_0_r, Hp.
    assert (S0 : forall n x, (x < n)%nat -> pad_src (fl_m l) n 0 x = Some x).
    { intros n0 x Hx. destruct (fl_m l); simpl; try (rewrite (proj2 (Nat.ltb_lt x n0) Hx); f_equal; lia).
      f_equal. replace (x + n0 - 0)%nat with (x + 1 * n0)%nat by lia. rewrite Nat.mod_add by lia. apply Nat.mod_small; exact Hx. }
    rewrite !S0 by assumption. rewrite Hg, Nat.div_1_r, Nat.div_small by lia. f_equal. }
  intros W H Hb Hk Hi Hj N. destruct w as [l|l1 l2]; cbn [fwl fwl_wf] in *.
  - eapply One; eauto.
  - destruct W as (h & W1 & W2). destruct H as (x & H1 & H2). pose proof H1 as (_ & _ & _ & _ & _ & V1 & V2 & V3 & V4 & _).
    pose proof W1 as ((_ & _ & Hh & _ & HB & _) & _). assert (X := One _ _ _ _ _ b k i j W1 H1 Hb Hk Hi Hj N 0%nat ltac:(lia)).
    eapply (One _ _ _ _ _ b 0%nat i j W2 H2); cbn [fmap fB fH fW fget]; try lia. unfold is_nan in *. rewrite X. reflexivity.
Qed.

(** The places whose neighbourhood of radius [r] contains (y, x): all their channels become NaN. *)
Lemma step_nan d c u u' r b ch y x s t : fcca_wf c -> fl_m (f_nbl c) = Circular -> fl_p (f_nbl c) = r -> nan_through (f_gen c) -> fstep d c u u' ->
  (b < fB u)%nat -> (ch < fC u)%nat -> (y < fH u)%nat -> (x < fW u)%nat -> is_nan (fget u b ch y x) ->
  (Z.abs s <= Z.of_nat r)%Z -> (Z.abs t <= Z.of_nat r)%Z -> nan_at u' b (moved y s (fH u)) (moved x t (fW u)).
Proof.
  intros (W1 & W2 & W3) Hm Hr Hg (Ec & idn & nb & gp & upd & S1 & S2 & (G1 & G2 & G3 & G4 & G5) & S3 & U1 & U2 & U3 & U4 & U5) Hb Hch Hy Hx N Hs Ht.
  set (m := fmask (sprec d) (semax d) (f_thr c) u) in *. destruct (mask_shape (sprec d) (semax d) (f_thr c) u) as (M1 & M2 & M3 & M4). fold m in M1, M2, M3, M4.
  set (i := moved y s (fH u)). set (j := moved x t (fW u)).
  assert (Hi : (i < fH u)%nat) by (apply zmod_lt; lia). assert (Hj : (j < fW u)%nat) by (apply zmod_lt; lia).
  destruct W2 as (Gg & (q & Hq) & Hn & He & HB & HE). destruct S2 as (C1 & C2 & C3 & C4 & C5 & V1 & V2 & V3 & V4 & T). cbn [fmap fB fC fH fW] in C1, C4, C5, V1, V3, V4, T.
  rewrite M1, M3, M4 in *. rewrite Hm, Hr in *. cbn [pad_allowed] in C4, C5. apply Nat.leb_le in C4, C5.
  set (w := fl_w (f_nbl c)) in *. set (g := fl_g (f_nbl c)) in *. set (k := (ch / fC w * q)%nat).
  assert (Cw : (0 < fC w)%nat) by nia. assert (Hq0 : (0 < q)%nat) by nia.
  assert (Hd : (ch / fC w < g)%nat) by (apply Nat.div_lt_upper_bound; nia).
  assert (Hk : (k < f_int c)%nat) by (unfold k; rewrite <- HB, Hq; apply Nat.mul_lt_mono_pos_r; assumption).
  assert (Nn : is_nan (fget nb b k i j)).
  { apply (total_nan _ _ _ _ (T b k i j Hb ltac:(lia) Hi Hj)).
    exists (fget w k (ch mod fC w) (Z.to_nat (Z.of_nat r - s)) (Z.to_nat (Z.of_nat r - t))), (up d (fget m b ch y x)).
    split; [|right; unfold m; rewrite (mask_nan _ _ _ _ _ _ _ _ N); apply up_nan].
    apply window_in. exists (ch mod fC w)%nat, (Z.to_nat (Z.of_nat r - s)), (Z.to_nat (Z.of_nat r - t)).
    split; [fold w; apply Nat.mod_upper_bound; lia|]. split; [fold w; lia|]. split; [fold w; lia|]. fold w g. f_equal.
    unfold fpad. cbn [fmap fH fW fget]. rewrite M3, M4, Hm, Hr, !pad_src_circ by lia.
    assert (Cc : ((k / (fB w / g)) * fC w + ch mod fC w)%nat = ch).
    { rewrite Hq, (Nat.mul_comm g q), Nat.div_mul by lia. unfold k. rewrite Nat.div_mul by lia. rewrite Nat.mul_comm. symmetry. apply Nat.div_mod. lia. }
    assert (Back : forall (a : nat) (sh : Z) n, (a < n)%nat -> (Z.abs sh <= Z.of_nat r)%Z -> zmod (Z.of_nat (moved a sh n + Z.to_nat (Z.of_nat r - sh)) - Z.of_nat r) n = a).
    { intros a sh n Ha Hsh. unfold moved, zmod at 1. apply Nat2Z.inj. rewrite Z2Nat.id by (apply Z.mod_pos_bound; lia). rewrite Nat2Z.inj_add, Z2Nat.id by lia.
      unfold zmod. rewrite Z2Nat.id by (apply Z.mod_pos_bound; lia).
      replace ((Z.of_nat a + sh) mod Z.of_nat n + (Z.of_nat r - sh) - Z.of_nat r)%Z with ((Z.of_nat a + sh) mod Z.of_nat n + - sh)%Z by lia.
      rewrite Zplus_mod_idemp_l. replace (Z.of_nat a + sh + - sh)%Z with (Z.of_nat a) by lia. apply Z.mod_small. lia. }
    unfold i, j. rewrite !Back by assumption. rewrite Cc. reflexivity. }
  assert (Ng : is_nan (fget gp b k i j)).
  { destruct (G5 b k i j Hb Hk Hi Hj) as (gv & pv & E1 & _ & ->). unfold is_nan in *. rewrite Nn, down_nan, up_nan in E1. apply Hg in E1; [|reflexivity]. unfold is_nan in E1. subst gv.
    rewrite mul_nan_r, down_nan, up_nan, add_nan_l. apply down_nan. }
  assert (Nd : nan_at upd b i j).
  { eapply (wl_nan _ _ _ _ _ (fmap (up d) gp) upd b k i j W3 S3); cbn [fmap fB fH fW fget]; try congruence. unfold is_nan in *. rewrite Ng. apply up_nan. }
  destruct (wl_shape _ _ _ _ _ _ _ W3 S3) as (L1 & L2 & L3 & L4 & _).
  intros o Ho. rewrite U2 in Ho. unfold is_nan. rewrite U5 by assumption. rewrite (Nd o ltac:(lia)). rewrite down_nan, up_nan, mul_nan_r, add_nan_r, clamp_nan. apply down_nan.
Qed.

Lemma step_same d c u u' : fstep d c u u' -> fB u' = fB u /\ fC u' = fC u /\ fH u' = fH u /\ fW u' = fW u.
Proof. intros (Ec & idn & nb & gp & upd & S1 & S2 & _ & S3 & U1 & U2 & U3 & U4 & U5). auto. Qed.

Lemma runs_same d c n u u' : fruns d c n u u' -> fB u' = fB u /\ fC u' = fC u /\ fH u' = fH u /\ fW u' = fW u.
Proof.
  induction 1 as [u|n u v w R IH S]; [auto|]. apply step_same in S. destruct IH as (A1 & A2 & A3 & A4), S as (B1 & B2 & B3 & B4). repeat split; congruence.
Qed.

Lemma moved_split y s s' n : (0 < n)%nat -> moved (moved y s n) s' n = moved y (s + s') n.
Proof.
  intros Hn. unfold moved, zmod. f_equal. rewrite Z2Nat.id by (apply Z.mod_pos_bound; lia). rewrite Zplus_mod_idemp_l. f_equal. lia.
Qed.

Lemma run_nan d c r n u u' : fcca_wf c -> fl_m (f_nbl c) = Circular -> fl_p (f_nbl c) = r -> nan_through (f_gen c) -> fruns d c n u u' ->
  forall b ch y x s t, (b < fB u)%nat -> (ch < fC u)%nat -> (y < fH u)%nat -> (x < fW u)%nat -> is_nan (fget u b ch y x) -> (0 < n)%nat ->
  (Z.abs s <= Z.of_nat (n * r))%Z -> (Z.abs t <= Z.of_nat (n * r))%Z -> nan_at u' b (moved y s (fH u)) (moved x t (fW u)).
Proof.
  intros W Hm Hr Hg. induction 1 as [u|n u v w R IH S]; intros b ch y x s t Hb Hch Hy Hx N Hn Hs Ht; [lia|].
  destruct (runs_same _ _ _ _ _ R) as (A1 & A2 & A3 & A4).
  destruct (Nat.eq_dec n 0) as [E|E].
  - subst n. inversion R; subst. eapply step_nan; eauto; lia.
  - assert (Sp : forall s, (Z.abs s <= Z.of_nat (Datatypes.S n * r))%Z -> exists a b, s = (a + b)%Z /\ (Z.abs a <= Z.of_nat (n * r))%Z /\ (Z.abs b <= Z.of_nat r)%Z).
    { intros z Hz. destruct (Z_le_gt_dec (Z.abs z) (Z.of_nat (n * r))) as [L|L]; [exists z, 0%Z; lia|].
      destruct (Z_le_gt_dec 0 z); [exists (Z.of_nat (n * r)), (z - Z.of_nat (n * r))%Z|exists (- Z.of_nat (n * r))%Z, (z + Z.of_nat (n * r))%Z]; lia. }
    destruct (Sp s Hs) as (s1 & s2 & -> & Hs1 & Hs2). destruct (Sp t Ht) as (t1 & t2 & -> & Ht1 & Ht2).
    rewrite <- !moved_split by lia. rewrite <- A3, <- A4.
    eapply (step_nan d c v w r b 0%nat); eauto; try lia.
    + rewrite A3. apply zmod_lt; lia.
    + rewrite A4. apply zmod_lt; lia.
    + rewrite A3, A4. eapply IH; eauto; lia.
Qed.

Lemma moved_any y i n k : (y < n)%nat -> (i < n)%nat -> (n <= 2 * k + 1)%nat -> exists s, (Z.abs s <= Z.of_nat k)%Z /\ moved y s n = i.
Proof.
  intros Hy Hi Hk. assert (M : forall q, (q = 0 \/ q = 1 \/ q = -1)%Z -> moved y (Z.of_nat i - Z.of_nat y + q * Z.of_nat n) n = i).
  { intros q _. unfold moved, zmod. apply Nat2Z.inj. rewrite Z2Nat.id by (apply Z.mod_pos_bound; lia).
    replace (Z.of_nat y + (Z.of_nat i - Z.of_nat y + q * Z.of_nat n))%Z with (Z.of_nat i + q * Z.of_nat n)%Z by lia. rewrite Z_mod_plus_full. apply Z.mod_small. lia. }
  destruct (Z_le_gt_dec (Z.abs (Z.of_nat i - Z.of_nat y)) (Z.of_nat k)) as [L|L].
  - exists (Z.of_nat i - Z.of_nat y + 0 * Z.of_nat n)%Z. split; [lia|apply M; auto].
  - destruct (Z_le_gt_dec (Z.of_nat y) (Z.of_nat i)).
    + exists (Z.of_nat i - Z.of_nat y + -1 * Z.of_nat n)%Z. split; [lia|apply M; auto].
    + exists (Z.of_nat i - Z.of_nat y + 1 * Z.of_nat n)%Z. split; [lia|apply M; auto].
Qed.

Lemma run_nan_all d c r n u u' b ch y x : fcca_wf c -> fl_m (f_nbl c) = Circular -> fl_p (f_nbl c) = r -> nan_through (f_gen c) -> fruns d c n u u' ->
  (b < fB u)%nat -> (ch < fC u)%nat -> (y < fH u)%nat -> (x < fW u)%nat -> is_nan (fget u b ch y x) -> (0 < n)%nat ->
  (fH u <= 2 * (n * r) + 1)%nat -> (fW u <= 2 * (n * r) + 1)%nat -> batch_cells b u' is_nan.
Proof.
  intros W Hm Hr Hg R Hb Hch Hy Hx N Hn HH HW c' i j Hc Hi Hj. destruct (runs_same _ _ _ _ _ R) as (A1 & A2 & A3 & A4).
  rewrite A3 in Hi. rewrite A4 in Hj. destruct (moved_any y i (fH u) (n * r) Hy Hi HH) as (s & Hs & <-). destruct (moved_any x j (fW u) (n * r) Hx Hj HW) as (t & Ht & <-).
  eapply run_nan; eauto.
Qed.

(** ** Rules that stay finite *)
Definition room (d : dtype) (n E : Z) : Prop := (0 <= n)%Z /\ (n <= 2 ^ sprec d)%Z /\ (0 <= E)%Z /\ (sprec d + E < semax d)%Z.
Notation side l := (fC (fl_w l) * ((2 * fl_p l + 1) * (2 * fl_p l + 1)))%nat.

Lemma room_lt d n E : dtype_ok d -> room d n E -> IZR n * bpow E < bpow (semax d).
Proof.
  intros H (R0 & R1 & R2 & R3). destruct (dtype_s d H) as [Q1 Q2]. apply Rle_lt_trans with (bpow (sprec d + E)); [|apply bpow_lt; lia].
  rewrite bpow_add, (bpow_Z (sprec d)) by lia. apply Rmult_le_compat_r; [apply Rlt_le, bpow_pos|]. apply IZR_le. exact R1.
Qed.

Lemma room_c d n E : dtype_ok d -> room d n E -> rep (cprec d) (cemax d) (IZR n * bpow E) /\ IZR n * bpow E < bpow (cemax d) /\ (n <= 2 ^ cprec d)%Z /\ (emin (cprec d) (cemax d) <= E)%Z.
Proof.
  intros H R. pose proof (room_lt d n E H R) as L. destruct R as (R0 & R1 & R2 & R3). destruct (dtype_s d H) as [Q1 Q2]. destruct (dtype_c d H) as [P1 P2].
  assert (S1 : (sprec d <= cprec d)%Z) by (destruct d; cbn; lia). assert (S2 : (semax d <= cemax d)%Z) by (destruct d; cbn; lia).
  assert (S3 : (n <= 2 ^ cprec d)%Z) by (eapply Z.le_trans; [exact R1|]; apply Z.pow_le_mono_r; lia).
  assert (S4 : (emin (cprec d) (cemax d) <= E)%Z) by (unfold emin; lia).
  split; [exists n, E; split; [reflexivity|split; [lia|exact S4]]|]. split; [|split; assumption]. eapply Rlt_le_trans; [exact L|]. apply bpow_le. exact S2.
Qed.

Definition within (d : dtype) (n E : Z) (x : fl) : Prop := number (cprec d) (cemax d) x /\ Rabs (value x) <= IZR n * bpow E.

Lemma stored d n E x : dtype_ok d -> room d n E -> within d n E x -> within d n E (up d (down d x)).
Proof.
  intros H R [N B]. destruct d as [p e|]; [split; assumption|]. pose proof (room_lt HalfCpu n E H R) as L. destruct R as (R0 & R1 & R2 & R3).
  cbn [up down cprec cemax sprec semax within] in *. unfold within. cbn [cprec cemax].
  destruct (result_bounded 11 16 (value x) (fcast 11 16 x) (IZR n * bpow E)) as [N' B'].
  - apply cast_result; try lia. exact (proj1 N).
  - exists n, E. split; [reflexivity|]. split; [lia|]. unfold emin. lia.
  - exact L.
  - exact B.
  - destruct (up_number HalfCpu (fcast 11 16 x) H N') as [N2 V2]. cbn [up cprec cemax] in N2, V2. split; [exact N2|]. rewrite V2. exact B'.
Qed.

Lemma within_le d n n' E E' x : (n <= n')%Z -> (0 <= n)%Z -> (E <= E')%Z -> within d n E x -> within d n' E' x.
Proof.
  intros L L0 L' [N B]. split; [exact N|]. eapply Rle_trans; [exact B|]. apply Rmult_le_compat; [apply IZR_le; lia|apply Rlt_le, bpow_pos|apply IZR_le; lia|apply bpow_le; lia].
Qed.

Lemma result_within d n E r z : dtype_ok d -> room d n E -> result (cprec d) (cemax d) r z -> Rabs r <= IZR n * bpow E -> within d n E z.
Proof. intros H R X B. destruct (room_c d n E H R) as (R1 & R2 & _). apply (result_bounded _ _ _ _ _ X R1 R2 B). Qed.

Lemma mul_within d a E b F x y : dtype_ok d -> room d (a * b) (E + F) -> (0 <= a)%Z -> (0 <= b)%Z -> within d a E x -> within d b F y -> within d (a * b) (E + F) (fmul (cprec d) (cemax d) x y).
Proof.
  intros H R A0 B0 [N1 B1] [N2 B2]. destruct (dtype_c d H) as [P1 P2]. eapply result_within; [exact H|exact R|apply mul_result; auto|].
  rewrite Rabs_mult, mult_IZR, bpow_add. replace (IZR a * IZR b * (bpow E * bpow F)) with ((IZR a * bpow E) * (IZR b * bpow F)) by ring.
  apply Rmult_le_compat; auto using Rabs_pos.
Qed.

Lemma add_within d a b E x y : dtype_ok d -> room d (a + b) E -> within d a E x -> within d b E y -> within d (a + b) E (fadd (cprec d) (cemax d) x y).
Proof.
  intros H R [N1 B1] [N2 B2]. destruct (dtype_c d H) as [P1 P2]. eapply result_within; [exact H|exact R|apply add_result; auto|].
  eapply Rle_trans; [apply Rabs_triang|]. rewrite plus_IZR. lra.
Qed.

Lemma sub_within d a b E x y : dtype_ok d -> room d (a + b) E -> within d a E x -> within d b E y -> within d (a + b) E (fsub (cprec d) (cemax d) x y).
Proof.
  intros H R [N1 B1] [N2 B2]. destruct (dtype_c d H) as [P1 P2]. eapply result_within; [exact H|exact R|apply sub_result; auto|].
  unfold Rminus. eapply Rle_trans; [apply Rabs_triang|]. rewrite Rabs_Ropp, plus_IZR. lra.
Qed.

Lemma one_within d : dtype_ok d -> within d 1 0 (fone (cprec d) (cemax d)).
Proof. intros H. destruct (dtype_c d H) as [P1 P2]. destruct (one_number _ _ P1 P2) as [N V]. split; [exact N|]. rewrite V, Rabs_R1, bpow_0. lra. Qed.

Lemma mask_unit p e thr u b : (1 < p)%Z -> (p < e)%Z -> batch_cells b u (unit_number p e) -> batch_cells b (fmask p e thr u) (unit_number p e).
Proof.
  intros Hp He H. unfold fmask. destruct (Nat.leb_spec 4 (fC u)); [|exact H]. intros c i j Hc Hi Hj. cbn [fget fB fC fH fW] in *.
  destruct (H c i j Hc Hi Hj) as [N B]. destruct (one_number p e Hp He) as [O1 O2]. destruct (number_rep p e Hp _ N) as [R1 R2].
  assert (Z1 : number p e fzero) by (split; [exact I|reflexivity]).
  destruct (SFltb thr (fget u b 3 i j)).
  - pose proof (mul_result p e Hp He _ _ N O1) as R. rewrite O2, Rmult_1_r in R. destruct (result_exact p e _ _ R R1 R2) as [X V]. split; [exact X|]. unfold fmul. rewrite V. exact B.
  - pose proof (mul_result p e Hp He _ _ N Z1) as R. change (value fzero) with 0 in R. rewrite Rmult_0_r in R.
    destruct (result_exact p e _ _ R (rep_0 p e)) as [X V]; [rewrite Rabs_R0; apply bpow_pos|]. split; [exact X|]. unfold fmul. rewrite V. lra.
Qed.

(** A convolution of entries within n * 2^E under weights within 2^M. *)
Lemma conv_within_by M d e n l u v b q E : dtype_ok d -> flayer_wf e n l -> cells (fl_w l) (fun x => number (cprec d) (cemax d) x /\ Rabs (value x) <= bpow M) ->
  room d (Z.of_nat (side l) * q) (M + E) -> (0 <= q)%Z -> fconv (cprec d) (cemax d) l u v -> (b < fB u)%nat -> batch_cells b u (within d q E) ->
  batch_cells b v (within d (Z.of_nat (side l) * q) (M + E)).
Proof.
  intros H W HW R Q0 (C1 & C2 & C3 & C4 & C5 & V1 & V2 & V3 & V4 & T) Hb HU o i j Ho Hi Hj. destruct (dtype_c d H) as [P1 P2].
  rewrite V2 in Ho. rewrite V3 in Hi. rewrite V4 in Hj. destruct (room_c d _ (M + E) H R) as (R1 & R2 & R3 & R4).
  assert (EL : length (window l u b o i j) = side l) by (rewrite window_length, C2, C3; reflexivity).
  unfold within. rewrite <- EL. apply (total_bounded (cprec d) (cemax d) P1 P2 q (M + E)); auto; rewrite ?EL; auto.
  pose proof W as (_ & _ & _ & _ & HB & _).
  eapply Forall_impl; [|apply (window_cells e n l u b o i j (fun x => number (cprec d) (cemax d) x /\ Rabs (value x) <= bpow M) (within d q E)); auto; try lia].
  - intros p [[N1 B1] [N2 B2]]. split; [exact N1|]. split; [exact N2|]. rewrite Rabs_mult. replace (IZR q * bpow (M + E)) with (bpow M * (IZR q * bpow E)) by (rewrite bpow_add; ring). apply Rmult_le_compat; auto using Rabs_pos.
  - split; [split; [exact I|reflexivity]|]. cbn [value fzero]. rewrite Rabs_R0. apply Rmult_le_pos; [apply IZR_le; lia|apply Rlt_le, bpow_pos].
Qed.

(** Weights in [-1,1]. *)
Lemma conv_within d e n l u v b q E : dtype_ok d -> flayer_wf e n l -> cells (fl_w l) (fun x => number (cprec d) (cemax d) x /\ Rabs (value x) <= 1) ->
  room d (Z.of_nat (side l) * q) E -> (0 <= q)%Z -> fconv (cprec d) (cemax d) l u v -> (b < fB u)%nat -> batch_cells b u (within d q E) ->
  batch_cells b v (within d (Z.of_nat (side l) * q) E).
Proof. intros H W HW. rewrite <- bpow_0 in HW. exact (conv_within_by 0 d e n l u v b q E H W HW). Qed.

Lemma step_tame d c A T u u' b : dtype_ok d -> fcca_wf c -> tame_rule d c A T -> fstep d c u u' -> (b < fB u)%nat ->
  batch_cells b u (unit_number (sprec d) (semax d)) -> batch_cells b u' (unit_number (sprec d) (semax d)).
Proof.
  intros H (W1 & W2 & W3) (F1 & F2 & (wlay & Ew & F3) & F4 & F5 & (F6 & F7) & A0 & T0 & Rm & RN & RI)
    (Ec & idn & nb & gp & upd & S1 & S2 & (G1 & G2 & G3 & G4 & G5) & S3 & U1 & U2 & U3 & U4 & U5) Hb Hu.
  destruct (dtype_c d H) as [P1 P2]. destruct (dtype_s d H) as [Q1 Q2]. set (m := fmask (sprec d) (semax d) (f_thr c) u) in *.
  pose proof (mask_unit _ _ (f_thr c) u b Q1 Q2 Hu) as Gm. fold m in Gm. destruct (mask_shape (sprec d) (semax d) (f_thr c) u) as (M1 & M2 & M3 & M4). fold m in M1, M2, M3, M4.
  assert (Gm32 : batch_cells b (fmap (up d) m) (within d 1 0)).
  { intros o i j Ho Hi Hj. cbn [fmap fget fB fC fH fW] in *. destruct (Gm o i j Ho Hi Hj) as [N B]. destruct (up_number d _ H N) as [N' V']. split; [exact N'|]. rewrite V', bpow_0, Rabs_pos_eq; lra. }
  set (Ni := Z.of_nat (side (f_idl c))) in *. set (Nn := Z.of_nat (side (f_nbl c))) in *.
  pose proof W1 as (_ & _ & Hint & _ & W1a & _). pose proof W2 as (_ & _ & _ & _ & W2a & _).
  set (In := Z.of_nat (f_int c)) in *. assert (RI' : (In * (2 * Ni + 1) + 1 <= 2 ^ sprec d)%Z) by (unfold In, Ni; lia). clear RI.
  assert (I1 : (1 <= In)%Z) by (unfold In; lia). assert (Ni0 : (0 <= Ni)%Z) by (unfold Ni; lia). assert (Nn0 : (0 <= Nn)%Z) by (unfold Nn; lia).
  assert (RR : forall n E, (0 <= n)%Z -> (n <= In * (2 * Ni + 1) + 1)%Z -> (0 <= E)%Z -> (E <= A + T)%Z -> room d n E) by (intros n E; unfold room; lia).
  assert (Bi : batch_cells b idn (within d Ni 0)).
  { rewrite <- (Z.mul_1_r Ni). eapply (conv_within d _ _ (f_idl c)); try eassumption; try lia; [apply RR; fold Ni; nia|cbn [fmap fB]; lia]. }
  assert (Bn : batch_cells b nb (within d Nn 0)).
  { rewrite <- (Z.mul_1_r Nn). eapply (conv_within d _ _ (f_nbl c)); try eassumption; try lia; [fold Nn; unfold room; lia|cbn [fmap fB]; lia]. }
  pose proof S1 as (_ & _ & _ & _ & _ & X1 & X2 & X3 & X4 & _). pose proof S2 as (_ & _ & _ & _ & _ & J1 & J2 & J3 & J4 & _). cbn [fmap fB fC fH fW] in X1, X3, X4, J1, J3, J4.
  assert (Bg : batch_cells b (fmap (up d) gp) (within d (2 * Ni + 1) A)).
  { intros k i j Hk Hi Hj. cbn [fmap fget fB fC fH fW] in *. rewrite G2 in Hk. rewrite G3 in Hi. rewrite G4 in Hj.
    destruct (G5 b k i j Hb Hk Hi Hj) as (g & p & E1 & E2 & ->).
    assert (Xi : within d Ni 0 (up d (down d (fget idn b k i j)))) by (apply stored; [exact H|apply RR; nia|apply Bi; congruence]).
    assert (Xn : within d Nn 0 (up d (down d (fget nb b k i j)))) by (apply stored; [exact H|unfold room; lia|apply Bn; congruence]).
    assert (Xn' : number (cprec d) (cemax d) (up d (down d (fget nb b k i j))) /\ Rabs (value (up d (down d (fget nb b k i j)))) <= INR (side (f_nbl c))).
    { destruct Xn as [Xa Xb]. split; [exact Xa|]. rewrite bpow_0, Rmult_1_r in Xb. unfold Nn in Xb. rewrite <- INR_IZR_INZ in Xb. exact Xb. }
    assert (Xg : within d 1 A g) by (destruct (F6 _ _ _ Xn' E1) as [Y1 Y2]; split; [exact Y1|]; rewrite Rmult_1_l; exact Y2).
    assert (Xp : within d 1 A p) by (destruct (F7 _ _ _ Xn' E2) as [Y1 Y2]; split; [exact Y1|]; rewrite Rmult_1_l; exact Y2).
    apply stored; [exact H|apply RR; nia|]. replace (2 * Ni + 1)%Z with ((1 + Ni) * 1 + Ni * 1)%Z by lia. apply add_within; [exact H|apply RR; nia|..].
    - apply stored; [exact H|apply RR; nia|]. rewrite <- (Z.add_0_l A). apply mul_within; [exact H|apply RR; nia|lia|lia| |exact Xg].
      apply sub_within; [exact H|apply RR; nia|apply one_within; exact H|exact Xi].
    - apply stored; [exact H|apply RR; nia|]. rewrite <- (Z.add_0_l A). apply mul_within; [exact H|apply RR; nia|lia|lia|exact Xi|exact Xp]. }
  rewrite Ew in S3, W3. cbn [fwl fwl_wf] in S3, W3. destruct W3 as (W3 & Wp & Wg). pose proof W3 as (_ & _ & _ & _ & W3a & W3b). rewrite Wg, Nat.mul_1_l in W3b.
  assert (Sd : Z.of_nat (side wlay) = In) by (rewrite Wp, W3b; unfold In; lia).
  assert (Bd : batch_cells b upd (within d (In * (2 * Ni + 1)) A)).
  { rewrite <- Sd. eapply (conv_within d _ _ wlay); try eassumption; [rewrite Sd; apply RR; nia|lia|cbn [fmap fB]; lia]. }
  pose proof S3 as (_ & _ & _ & _ & _ & L1 & L2 & L3 & L4 & _). cbn [fmap fB fC fH fW] in L1, L3, L4.
  intros o i j Ho Hi Hj. rewrite U2 in Ho. rewrite U3 in Hi. rewrite U4 in Hj. rewrite U5 by assumption. apply down_unit; [exact H|].
  assert (Fin : within d (In * (2 * Ni + 1) + 1) (A + T) (fadd (cprec d) (cemax d) (fget (fmap (up d) m) b o i j) (fmul (cprec d) (cemax d) (f_dt c) (up d (down d (fget upd b o i j)))))).
  { rewrite Z.add_comm. apply add_within; [exact H|apply RR; nia|..].
    - apply (within_le d 1 1 0 (A + T)); try lia. apply Gm32; cbn [fmap fB fC fH fW]; congruence.
    - replace (In * (2 * Ni + 1))%Z with (1 * (In * (2 * Ni + 1)))%Z by lia. rewrite (Z.add_comm A T). apply mul_within; [exact H|apply RR; nia|lia|nia| |].
      + split; [exact F4|]. rewrite Rmult_1_l. exact F5.
      + apply stored; [exact H|apply RR; nia|]. apply Bd; congruence. }
  destruct Fin as [N _]. apply clamp_not_nan; auto; [exact (proj2 N)|]. intros E. rewrite E in N. exact (proj1 N).
Qed.

Lemma run_tame d c A T n u u' b : dtype_ok d -> fcca_wf c -> tame_rule d c A T -> fruns d c n u u' -> (b < fB u)%nat ->
  batch_cells b u (unit_number (sprec d) (semax d)) -> batch_cells b u' (unit_number (sprec d) (semax d)).
Proof.
  intros H W F R Hb Hu. induction R as [u|n u v w R IH S]; [exact Hu|]. destruct (runs_same _ _ _ _ _ R) as (A1 & _). eapply step_tame; eauto. lia.
Qed.
