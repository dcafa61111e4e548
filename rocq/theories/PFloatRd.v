(** The Gray-Scott step in floats. *)
From Coq Require Import Reals ZArith List Bool Lia Lra Arith Floats.SpecFloat.
From Verif Require Import Base Tensor MActivations MCommon MCca MFloat SGrid SCca SLip SFloat SRound PTensor PSym PStep PCca PLip PLipX MRd PRd MFloatRd SFloatRd PFloat PFloatX PFloatY PFloatZ PFloatD PFloatE PFloatR PFloatG.
Import ListNotations.
Open Scope R_scope.
Notation value := SFloat.value.

Lemma frd_same p e c u u' : frd_step p e c u u' -> fB u' = fB u /\ fC u' = fC u /\ fH u' = fH u /\ fW u' = fW u.
Proof. intros (_ & idn & nb & _ & _ & S1 & S2 & S3 & S4 & _). auto. Qed.

Lemma frd_runs_same p e c n u u' : frd_runs p e c n u u' -> fB u' = fB u /\ fC u' = fC u /\ fH u' = fH u /\ fW u' = fW u.
Proof. induction 1 as [u|n u v w R IH S]; [auto|]. apply frd_same in S. destruct IH as (A1 & A2 & A3 & A4), S as (B1 & B2 & B3 & B4). repeat split; congruence. Qed.

(** ** Steps exist *)
Lemma frd_exists p e c u : frd_wf c -> fC u = 2%nat -> has_room (g_idl c) u -> has_room (g_nbl c) u -> exists u', frd_step p e c u u'.
Proof.
  intros (Wi & Wn & _) HC Ri Rn. destruct (conv_exists p e (g_idl c) u Ri) as [idn Vi]; [destruct Wi as (_ & _ & _ & _ & _ & E); congruence|].
  destruct (conv_exists p e (g_nbl c) u Rn) as [nb Vn]; [destruct Wn as (_ & _ & _ & _ & _ & E); congruence|].
  exists (mkF (fB u) (fC u) (fH u) (fW u) (fun b o i j => fclamp p e (fadd p e (fget u b o i j)
        (fmul p e (g_dt c) (frate p e c o (fget idn b 0 i j) (fget idn b 1 i j) (fget nb b 0 i j) (fget nb b 1 i j)))))).
  split; [exact HC|]. exists idn, nb. cbn [fB fC fH fW fget]. repeat (split; [assumption || reflexivity|]). reflexivity.
Qed.

(** ** Range *)
Lemma div_nan_l p e y : SFdiv p e S754_nan y = S754_nan. Proof. destruct y; reflexivity. Qed.

Lemma div_good p e x y : (1 < p)%Z -> (p < e)%Z -> good p e x -> good p e y -> good p e (SFdiv p e x y).
Proof.
  intros P1 P2 Hx Hy. destruct x as [s|s| |s m x'], y as [t|t| |t n y']; try reflexivity.
  assert (N : number p e (S754_finite t n y')) by (split; [exact Logic.I|exact Hy]).
  apply (result_valid p e) with (x := value (S754_finite s m x') / value (S754_finite t n y')). apply div_result; auto; [split; [exact Logic.I|exact Hx]|].
  cbn [value]. pose proof (bpow_pos y') as B. assert (0 < IZR (Zpos n)) by (apply IZR_lt; lia). intros E. apply Rmult_integral in E as [E|E]; [|lra]. apply Rmult_integral in E as [E|E]; destruct t; lra.
Qed.

Section Good.
Variables (p e : Z) (c : frd).
Hypothesis P1 : (1 < p)%Z.
Hypothesis P2 : (p < e)%Z.

Lemma rate_good o u v nu nv : frd_floats p e c -> good p e u -> good p e v -> good p e nu -> good p e nv -> good p e (frate p e c o u v nu nv).
Proof.
  intros (_ & _ & Fx & _ & Fu & Fv & Ff & Fk) Hu Hv Hnu Hnv.
  assert (M : forall x y, good p e x -> good p e y -> good p e (fmul p e x y)) by (intros; apply mul_valid; assumption).
  assert (Ad : forall x y, good p e x -> good p e y -> good p e (fadd p e x y)) by (intros; apply add_valid; assumption).
  assert (Su : forall x y, good p e x -> good p e y -> good p e (fsub p e x y)) by (intros; apply sub_valid; assumption).
  assert (N : forall n, good p e n -> good p e (fnabla p e c n)) by (intros n Hn; apply div_good; auto).
  assert (O : good p e (fone p e)) by exact (proj2 (proj1 (one_number p e P1 P2))).
  destruct o as [|[|o]]; cbn [frate]; auto 8. reflexivity.
Qed.

Lemma frd_range u u' : frd_wf c -> frd_floats p e c -> cells u (good p e) -> frd_step p e c u u' -> cells u' (nan_or_unit p e).
Proof.
  intros (Wi & Wn & _) F Hu (HC & idn & nb & Vi & Vn & S1 & S2 & S3 & S4 & S) b o i j Hb Ho Hi Hj. pose proof F as (Fi & Fn & _ & Ft & _).
  pose proof (conv_good p e _ _ _ _ _ P1 P2 Wi Fi Hu Vi) as Gi. pose proof (conv_good p e _ _ _ _ _ P1 P2 Wn Fn Hu Vn) as Gn.
  rewrite S1 in Hb. rewrite S2 in Ho. rewrite S3 in Hi. rewrite S4 in Hj. rewrite S by assumption.
  destruct Vi as (_ & _ & _ & _ & _ & I1 & I2 & I3 & I4 & _), Vn as (_ & _ & _ & _ & _ & N1 & N2 & N3 & N4 & _).
  pose proof Wi as (_ & _ & _ & _ & Bi & _). pose proof Wn as (_ & _ & _ & _ & Bn & _).
  apply (clamp_range (Native p e)); [split; assumption|]. cbn [cprec cemax]. apply add_valid; [assumption..|apply Hu; assumption|]. apply mul_valid; [assumption..|].
  apply rate_good; auto; first [apply Gi; lia|apply Gn; lia].
Qed.

Lemma frd_run_range n u u' : frd_wf c -> frd_floats p e c -> cells u (good p e) -> frd_runs p e c n u u' -> (0 < n)%nat -> cells u' (nan_or_unit p e).
Proof.
  intros W F Hu R. induction R as [u|n u v w R IH S]; intros Hn; [lia|]. destruct n as [|n].
  - inversion R; subst. eapply frd_range; eassumption.
  - assert (Hv : cells v (nan_or_unit p e)) by (apply IH; auto; lia). eapply frd_range; [exact W|exact F| |exact S]. intros b o i j H1 H2 H3 H4. apply nan_or_unit_good, Hv; assumption.
Qed.
End Good.

(** ** NaN *)
Lemma conv_nan p e l u v r b ch y x s t : flayer_wf 2 2 l -> fl_m l = Circular -> fl_p l = r -> fconv p e l u v ->
  (b < fB u)%nat -> (ch < fC u)%nat -> (y < fH u)%nat -> (x < fW u)%nat -> is_nan (fget u b ch y x) ->
  (Z.abs s <= Z.of_nat r)%Z -> (Z.abs t <= Z.of_nat r)%Z -> is_nan (fget v b ch (moved y s (fH u)) (moved x t (fW u))).
Proof.
  intros W Hm Hr (C1 & C2 & C3 & C4 & C5 & V1 & V2 & V3 & V4 & T) Hb Hch Hy Hx N Hs Ht.
  set (i := moved y s (fH u)). set (j := moved x t (fW u)).
  assert (Hi : (i < fH u)%nat) by (apply zmod_lt; lia). assert (Hj : (j < fW u)%nat) by (apply zmod_lt; lia).
  destruct W as (Gg & (q & Hq) & Hn & He & HB & HE). rewrite Hm, Hr in *. cbn [pad_allowed] in C4, C5. apply Nat.leb_le in C4, C5.
  assert (Cc : ((ch / (fB (fl_w l) / fl_g l)) * fC (fl_w l) + ch mod fC (fl_w l))%nat = ch /\ (ch mod fC (fl_w l) < fC (fl_w l))%nat).
  { rewrite HE in C1. rewrite HB in *. destruct (fl_g l) as [|[|[|g]]]; [lia| | |destruct (fC (fl_w l)); lia].
    - assert (fC (fl_w l) = 2%nat) as -> by lia. destruct ch as [|[|ch]]; [split; [reflexivity|cbn; lia]..|lia].
    - assert (fC (fl_w l) = 1%nat) as -> by lia. destruct ch as [|[|ch]]; [split; [reflexivity|cbn; lia]..|lia]. }
  destruct Cc as [Cc Cl]. apply (total_nan _ _ _ _ (T b ch i j Hb ltac:(lia) Hi Hj)).
  exists (fget (fl_w l) ch (ch mod fC (fl_w l)) (Z.to_nat (Z.of_nat r - s)) (Z.to_nat (Z.of_nat r - t))), (fget u b ch y x). split; [|right; exact N].
  apply window_in. exists (ch mod fC (fl_w l))%nat, (Z.to_nat (Z.of_nat r - s)), (Z.to_nat (Z.of_nat r - t)).
  split; [exact Cl|]. split; [lia|]. split; [lia|]. f_equal. unfold fpad. rewrite Hm, Hr, !pad_src_circ by lia.
  assert (Back : forall (a : nat) (sh : Z) n, (a < n)%nat -> (Z.abs sh <= Z.of_nat r)%Z -> zmod (Z.of_nat (moved a sh n + Z.to_nat (Z.of_nat r - sh)) - Z.of_nat r) n = a).
  { intros a sh n Ha Hsh. unfold moved, zmod at 1. apply Nat2Z.inj. rewrite Z2Nat.id by (apply Z.mod_pos_bound; lia). rewrite Nat2Z.inj_add, Z2Nat.id by lia.
    unfold zmod. rewrite Z2Nat.id by (apply Z.mod_pos_bound; lia).
    replace ((Z.of_nat a + sh) mod Z.of_nat n + (Z.of_nat r - sh) - Z.of_nat r)%Z with ((Z.of_nat a + sh) mod Z.of_nat n + - sh)%Z by lia.
    rewrite Zplus_mod_idemp_l. replace (Z.of_nat a + sh + - sh)%Z with (Z.of_nat a) by lia. apply Z.mod_small. lia. }
  unfold i, j. rewrite !Back by assumption. rewrite Cc. reflexivity.
Qed.

Ltac nans := repeat (rewrite mul_nan_l || rewrite mul_nan_r || rewrite add_nan_l || rewrite add_nan_r || rewrite sub_nan_l || rewrite sub_nan_r || rewrite clamp_nan); reflexivity.

(** The other channel catches it at the same place, the same one as far as the kernel reaches. *)
Lemma frd_nan_here p e c u u' b ch y x : frd_wf c -> frd_step p e c u u' -> (b < fB u)%nat -> (ch < fC u)%nat -> (y < fH u)%nat -> (x < fW u)%nat ->
  is_nan (fget u b ch y x) -> nan_at u' b y x.
Proof.
  intros (Wi & Wn & Mi & Mn) (HC & idn & nb & Vi & Vn & S1 & S2 & S3 & S4 & S) Hb Hch Hy Hx N o Ho. rewrite S2 in Ho. unfold is_nan. rewrite S by assumption.
  pose proof (conv_nan p e _ u idn _ b ch y x 0 0 Wi Mi eq_refl Vi Hb Hch Hy Hx N ltac:(lia) ltac:(lia)) as Q.
  assert (Z0 : forall a n, (a < n)%nat -> moved a 0 n = a) by (intros a n Ha; unfold moved, zmod; rewrite Z.add_0_r, Z.mod_small by lia; apply Nat2Z.id).
  rewrite !Z0 in Q by assumption. unfold is_nan in *. destruct ch as [|[|ch]]; [| |lia]; (destruct o as [|[|o]]; [| |lia]); cbn [frate]; rewrite Q; nans.
Qed.

Lemma frd_nan_reach p e c r u u' b ch y x s t : frd_wf c -> fl_p (g_nbl c) = r -> frd_step p e c u u' -> (b < fB u)%nat -> (ch < fC u)%nat -> (y < fH u)%nat -> (x < fW u)%nat ->
  is_nan (fget u b ch y x) -> (Z.abs s <= Z.of_nat r)%Z -> (Z.abs t <= Z.of_nat r)%Z -> is_nan (fget u' b ch (moved y s (fH u)) (moved x t (fW u))).
Proof.
  intros (Wi & Wn & Mi & Mn) Hr (HC & idn & nb & Vi & Vn & S1 & S2 & S3 & S4 & S) Hb Hch Hy Hx N Hs Ht. unfold is_nan. rewrite S; [|assumption..|apply zmod_lt; lia|apply zmod_lt; lia].
  pose proof (conv_nan p e _ u nb r b ch y x s t Wn Mn Hr Vn Hb Hch Hy Hx N Hs Ht) as Q. unfold is_nan in *.
  destruct ch as [|[|ch]]; [| |lia]; cbn [frate]; unfold fnabla; rewrite Q, div_nan_l; nans.
Qed.

Lemma frd_run_nan p e c r n u u' : frd_wf c -> fl_p (g_nbl c) = r -> frd_runs p e c n u u' ->
  forall b ch y x s t, (b < fB u)%nat -> (ch < fC u)%nat -> (y < fH u)%nat -> (x < fW u)%nat -> is_nan (fget u b ch y x) ->
  (Z.abs s <= Z.of_nat (n * r))%Z -> (Z.abs t <= Z.of_nat (n * r))%Z -> is_nan (fget u' b ch (moved y s (fH u)) (moved x t (fW u))).
Proof.
  intros W Hr. induction 1 as [u|n u v w R IH S]; intros b ch y x s t Hb Hch Hy Hx N Hs Ht.
  - assert (s = 0%Z /\ t = 0%Z) as [-> ->] by lia. assert (Z0 : forall a n, (a < n)%nat -> moved a 0 n = a) by (intros a n Ha; unfold moved, zmod; rewrite Z.add_0_r, Z.mod_small by lia; apply Nat2Z.id). rewrite !Z0 by assumption. exact N.
  - destruct (frd_runs_same _ _ _ _ _ _ R) as (A1 & A2 & A3 & A4).
    assert (Sp : forall s, (Z.abs s <= Z.of_nat (Datatypes.S n * r))%Z -> exists a b, s = (a + b)%Z /\ (Z.abs a <= Z.of_nat (n * r))%Z /\ (Z.abs b <= Z.of_nat r)%Z).
    { intros z Hz. destruct (Z_le_gt_dec (Z.abs z) (Z.of_nat (n * r))) as [L|L]; [exists z, 0%Z; lia|].
      destruct (Z_le_gt_dec 0 z); [exists (Z.of_nat (n * r)), (z - Z.of_nat (n * r))%Z|exists (- Z.of_nat (n * r))%Z, (z + Z.of_nat (n * r))%Z]; lia. }
    destruct (Sp s Hs) as (s1 & s2 & -> & Hs1 & Hs2). destruct (Sp t Ht) as (t1 & t2 & -> & Ht1 & Ht2).
    rewrite <- !moved_split by lia. rewrite <- A3, <- A4.
    eapply (frd_nan_reach p e c r v w b ch); eauto; try lia.
    + rewrite A3. apply zmod_lt; lia.
    + rewrite A4. apply zmod_lt; lia.
    + rewrite A3, A4. eapply IH; eauto; lia.
Qed.

Lemma frd_nan_all p e c r n u u' b ch y x : frd_wf c -> fl_p (g_nbl c) = r -> frd_runs p e c n u u' -> (b < fB u)%nat -> (ch < fC u)%nat -> (y < fH u)%nat -> (x < fW u)%nat ->
  is_nan (fget u b ch y x) -> (0 < n)%nat -> (fH u <= 2 * ((n - 1) * r) + 1)%nat -> (fW u <= 2 * ((n - 1) * r) + 1)%nat ->
  forall c' i j, (c' < fC u')%nat -> (i < fH u')%nat -> (j < fW u')%nat -> is_nan (fget u' b c' i j).
Proof.
  intros W Hr R Hb Hch Hy Hx N Hn HH HW c' i j Hc Hi Hj. destruct n as [|n]; [lia|]. inversion R as [|n' u0 v w R' S]; subst. destruct (frd_runs_same _ _ _ _ _ _ R') as (A1 & A2 & A3 & A4).
  destruct (frd_same _ _ _ _ _ S) as (B1 & B2 & B3 & B4). rewrite Nat.sub_succ, Nat.sub_0_r in *. rewrite B3, A3 in Hi. rewrite B4, A4 in Hj.
  destruct (moved_any y i (fH u) (n * fl_p (g_nbl c)) Hy Hi HH) as (s & Hs & <-). destruct (moved_any x j (fW u) (n * fl_p (g_nbl c)) Hx Hj HW) as (t & Ht & <-).
  refine (frd_nan_here p e c v u' b ch _ _ W S ltac:(lia) ltac:(lia) _ _ _ c' Hc); [rewrite A3; apply zmod_lt; lia|rewrite A4; apply zmod_lt; lia|]. eapply frd_run_nan; eauto.
Qed.
