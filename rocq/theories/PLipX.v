(** Lipschitz bounds of the steps (proofs). *)
From Coq Require Import Reals Lra Lia List Arith Bool.
From Verif Require Import Base Tensor MActivations MCommon MCca MRd MNca PTensor PStep PCca PDyn PRd SNca PNca SGrid SCca SLife SLip PLip.
Import ListNotations.
Open Scope R_scope.

Lemma forall_build (P : R -> Prop) B C H W f : (forall b c i j, P (f b c i j)) -> Forall P (tdata (build B C H W f)).
Proof. intros A. apply Forall_forall. intros x Hx. unfold build in Hx. cbn [tdata] in Hx. apply in_map_iff in Hx as (y & <- & _). apply A. Qed.

(** ** Convolutions *)
Definition inr (e H W : nat) (P : R -> Prop) (f : nat -> nat -> nat -> R) : Prop :=
  forall c y x, (c < e)%nat -> (y < H)%nat -> (x < W)%nat -> P (f c y x).

Lemma convf_abs e n l u f t o i j : layer_wf e n l -> layer_ready e l u = true -> (o < n)%nat -> (i < tH u)%nat -> (j < tW u)%nat -> 0 <= t ->
  inr e (tH u) (tW u) (fun x => Rabs x <= t) f -> Rabs (convf l (tH u) (tW u) f o i j) <= row_weight l o * t.
Proof.
  intros (Hg & Hwf & Hn & He & EB & EC & EH & EW) Hr Ho Hi Hj Ht Hf. apply layer_ready_inv in Hr as (Ec & H0 & W0 & P1 & P2).
  unfold convf, row_weight. rewrite <- rsum_scal_r. eapply Rle_trans; [apply rsum_abs|]. apply rsum_le. intros c Hc.
  rewrite <- rsum_scal_r. eapply Rle_trans; [apply rsum_abs|]. apply rsum_le. intros y Hy. rewrite <- rsum_scal_r. eapply Rle_trans; [apply rsum_abs|]. apply rsum_le. intros x Hx.
  rewrite Rabs_mult. apply Rmult_le_compat_l; [apply Rabs_pos|]. unfold pval.
  destruct (pad_src (cl_m l) (tH u) (cl_p l) (i + y)) eqn:E1; [|rewrite Rabs_R0; exact Ht].
  destruct (pad_src (cl_m l) (tW u) (cl_p l) (j + x)) eqn:E2; [|rewrite Rabs_R0; exact Ht].
  apply Hf.
  - rewrite <- EB in Ho. pose proof (group_lt l o Hg Ho). nia.
  - eapply pad_src_lt; [exact P1|auto| |exact E1]. lia.
  - eapply pad_src_lt; [exact P2|auto| |exact E2]. lia.
Qed.

Lemma convf_minus l H W f g o i j : convf l H W (fun c y x => f c y x - g c y x) o i j = convf l H W f o i j - convf l H W g o i j.
Proof.
  unfold convf. rewrite <- rsum_minus. apply rsum_ext. intros c _. rewrite <- rsum_minus. apply rsum_ext. intros y _. rewrite <- rsum_minus. apply rsum_ext. intros x _.
  unfold pval. destruct (pad_src _ _ _ _); [|ring]. destruct (pad_src _ _ _ _); ring.
Qed.

Lemma convf_pos e n l u f o i j : layer_wf e n l -> layer_ready e l u = true -> (o < n)%nat -> (i < tH u)%nat -> (j < tW u)%nat -> nonneg_layer l ->
  inr e (tH u) (tW u) (fun x => 0 <= x) f -> 0 <= convf l (tH u) (tW u) f o i j.
Proof.
  intros (Hg & Hwf & Hn & He & EB & EC & EH & EW) Hr Ho Hi Hj N Hf. apply layer_ready_inv in Hr as (Ec & H0 & W0 & P1 & P2).
  unfold convf. apply rsum_nonneg. intros c Hc. apply rsum_nonneg. intros y Hy. apply rsum_nonneg. intros x Hx. apply Rmult_le_pos; [apply N|]. unfold pval.
  destruct (pad_src (cl_m l) (tH u) (cl_p l) (i + y)) eqn:E1; [|lra].
  destruct (pad_src (cl_m l) (tW u) (cl_p l) (j + x)) eqn:E2; [|lra].
  apply Hf.
  - rewrite <- EB in Ho. pose proof (group_lt l o Hg Ho). nia.
  - eapply pad_src_lt; [exact P1|auto| |exact E1]. lia.
  - eapply pad_src_lt; [exact P2|auto| |exact E2]. lia.
Qed.

Lemma row_weight_pos l o : 0 <= row_weight l o.
Proof. unfold row_weight. apply rsum_nonneg. intros c _. apply rsum_nonneg. intros y _. apply rsum_nonneg. intros x _. apply Rabs_pos. Qed.

Lemma within_pos K l e n : layer_wf e n l -> layer_within K l -> 0 <= K.
Proof. intros (_ & _ & Hn & _ & EB & _) H. eapply Rle_trans; [apply (row_weight_pos l 0)|apply H; lia]. Qed.

(** ** The update of a cell *)
Definition ufn_lip (e n : nat) (Pv Pw : R -> Prop) (A B Q : R) (ufn : (nat -> R) -> (nat -> R) -> nat -> R) : Prop :=
  forall t v v' w w', 0 <= t ->
  (forall k, (k < n)%nat -> Pv (v k) /\ Pv (v' k) /\ Rabs (v k - v' k) <= A * t) ->
  (forall k, (k < n)%nat -> Pw (w k) /\ Pw (w' k) /\ Rabs (w k - w' k) <= B * t) ->
  forall o, (o < e)%nat -> Rabs (ufn v w o - ufn v' w' o) <= Q * t.

Definition conv_into (P : R -> Prop) (e n : nat) (l : conv_layer) : Prop :=
  forall u f o i j, layer_ready e l u = true -> (o < n)%nat -> (i < tH u)%nat -> (j < tW u)%nat ->
  inr e (tH u) (tW u) (fun x => 0 <= x <= 1) f -> P (convf l (tH u) (tW u) f o i j).

Lemma into_abs e n l K : layer_wf e n l -> layer_within K l -> conv_into (fun x => Rabs x <= K) e n l.
Proof.
  intros W H u f o i j R Ho Hi Hj Hf. eapply Rle_trans; [apply (convf_abs e n l u f 1); auto; [lra|]|].
  - intros c y x Hc Hy Hx. apply Rabs_le. specialize (Hf c y x Hc Hy Hx). cbv beta in Hf. lra.
  - rewrite Rmult_1_r. apply H. destruct W as (_ & _ & _ & _ & EB & _). lia.
Qed.

Lemma into_unit e n l : layer_wf e n l -> nonneg_layer l -> layer_within 1 l -> conv_into (fun x => 0 <= x <= 1) e n l.
Proof.
  intros W N H u f o i j R Ho Hi Hj Hf. split.
  - apply (convf_pos e n); auto. intros c y x Hc Hy Hx. apply (Hf c y x Hc Hy Hx).
  - eapply Rle_trans; [apply Rle_abs|]. apply (into_abs e n l 1 W H u f o i j R Ho Hi Hj Hf).
Qed.

Section Step.
  Variables (e n : nat) (msk : tensor -> res tensor) (mfn : nat -> (nat -> R) -> nat -> R).
  Variables (idl nbl : conv_layer) (upd : tensor -> tensor -> res tensor) (chk : res unit).
  Variables (ufn : (nat -> R) -> (nat -> R) -> nat -> R) (dt : R) (Pv Pw : R -> Prop) (I K Q : R).
  Hypothesis Hmask : cell_mask msk mfn.
  Hypothesis Hmid : forall C v c, (C < 4)%nat -> mfn C v c = v c.
  Hypothesis Hid : layer_wf e n idl.
  Hypothesis Hnb : layer_wf e n nbl.
  Hypothesis Hupd : pointwise e n upd chk ufn.
  Hypothesis Hlip : chk = Ok tt -> ufn_lip e n Pv Pw I K Q ufn.
  Hypothesis Wid : layer_within I idl.
  Hypothesis Wnb : layer_within K nbl.
  Hypothesis Pid : conv_into Pv e n idl.
  Hypothesis Pnb : conv_into Pw e n nbl.

  Lemma step_spreads : 0 <= Q -> spreads (1 + Rabs dt * Q) (ca_forward msk idl nbl upd dt).
  Proof.
    intros HQ ee u v He HC (Tu & Tv & Hs & Uu & Uv & Hd).
    rewrite !(ca_forward_nf e n msk mfn idl nbl upd chk ufn dt Hmask Hid Hnb Hupd) by assumption.
    assert (Er : step_ready e idl nbl u = step_ready e idl nbl v) by (unfold step_ready; rewrite (layer_ready_shape e idl u v Hs), (layer_ready_shape e nbl u v Hs); reflexivity).
    rewrite Er. destruct (step_ready e idl nbl v) eqn:Rv; [|split; [discriminate|intros er H; exact H]].
    destruct chk as [[]|er0]; [|split; [discriminate|intros er H; exact H]]. cbn [bind]. split; [|discriminate].
    intros u' E. injection E as <-. eexists. split; [reflexivity|].
    unfold step_ready in Er, Rv. apply andb_true_iff in Er as [Ru1 Ru2]. apply andb_true_iff in Rv as [Rv1 Rv2].
    pose proof Hs as Hs'. unfold shape in Hs'. injection Hs' as S1 S2 S3 S4.
    pose proof (layer_ready_inv _ _ _ Ru1) as (Ec & _).
    unfold in_unit in Uu, Uv. rewrite Forall_forall in Uu, Uv.
    assert (IU : forall b, (b < tB u)%nat -> inr e (tH u) (tW u) (fun x => 0 <= x <= 1) (mval mfn u b)).
    { intros b Hb c y x Hc Hy Hx. unfold mval. rewrite Hmid by exact HC. apply Uu, get_in_data; auto. lia. }
    assert (IV : forall b, (b < tB u)%nat -> inr e (tH v) (tW v) (fun x => 0 <= x <= 1) (mval mfn v b)).
    { intros b Hb c y x Hc Hy Hx. unfold mval. rewrite Hmid by lia. apply Uv, get_in_data; auto; lia. }
    assert (ID : forall b, (b < tB u)%nat -> inr e (tH u) (tW u) (fun x => Rabs x <= ee) (fun c y x => mval mfn u b c y x - mval mfn v b c y x)).
    { intros b Hb c y x Hc Hy Hx. unfold mval. rewrite !Hmid by lia. apply Hd; auto. lia. }
    assert (EB1 : tB (cl_w idl) = n) by (destruct Hid as (_ & _ & _ & _ & X & _); exact X).
    assert (EB2 : tB (cl_w nbl) = n) by (destruct Hnb as (_ & _ & _ & _ & X & _); exact X).
    repeat split; try apply twf_build.
    - unfold shape. cbn [tB tC tH tW build]. congruence.
    - apply forall_build. intros b c i j. apply clamp_range. lra.
    - apply forall_build. intros b c i j. apply clamp_range. lra.
    - cbn [tB tC tH tW build]. intros b c i j Hb Hc Hi Hj. rewrite !get_build by (auto; congruence). unfold step_val. eapply Rle_trans; [apply clamp_lip|].
      match goal with |- Rabs (?a + dt * ?x - (?b + dt * ?y)) <= _ => replace (a + dt * x - (b + dt * y)) with ((a - b) + dt * (x - y)) by ring end.
      eapply Rle_trans; [apply Rabs_triang|]. rewrite Rmult_plus_distr_r, Rmult_1_l. apply Rplus_le_compat; [apply (ID b Hb c i j Hc Hi Hj)|].
      rewrite Rabs_mult, Rmult_assoc. apply Rmult_le_compat_l; [apply Rabs_pos|]. rewrite <- S3, <- S4. apply Hlip; auto.
      + intros k Hk. split; [apply Pid; auto|]. split; [rewrite S3, S4; apply Pid; auto; congruence|]. rewrite <- convf_minus. eapply Rle_trans; [apply (convf_abs e n idl u _ ee); auto|]. apply Rmult_le_compat_r; [exact He|apply Wid; lia].
      + intros k Hk. split; [apply Pnb; auto|]. split; [rewrite S3, S4; apply Pnb; auto; congruence|]. rewrite <- convf_minus. eapply Rle_trans; [apply (convf_abs e n nbl u _ ee); auto|]. apply Rmult_le_compat_r; [exact He|apply Wnb; lia].
  Qed.
End Step.

(** ** Weight layers *)
Lemma pt_abs a b l v t o : pt_layer a b l -> (o < b)%nat -> 0 <= t -> (forall c, (c < a)%nat -> Rabs (v c) <= t) -> Rabs (pt_fn l v o) <= row_weight l o * t.
Proof.
  intros ((_ & _ & _ & _ & EB & EC & EH & EW) & Hp & Hg) Ho Ht Hv. unfold pt_fn, row_weight. rewrite Hp in EH, EW. rewrite Hg in EC. rewrite EH, EW.
  rewrite <- rsum_scal_r. eapply Rle_trans; [apply rsum_abs|]. apply rsum_le. intros c Hc. change (2 * 0 + 1)%nat with 1%nat. cbn [rsum]. rewrite !Rplus_0_l, Rabs_mult. apply Rmult_le_compat_l; [apply Rabs_pos|apply Hv; lia].
Qed.

Lemma pt_minus l v v' o : pt_fn l (fun c => v c - v' c) o = pt_fn l v o - pt_fn l v' o.
Proof. unfold pt_fn. rewrite <- rsum_minus. apply rsum_ext. intros c _. ring. Qed.

Lemma pt_within a b l v t o A : pt_layer a b l -> layer_within A l -> (o < b)%nat -> 0 <= t -> (forall c, (c < a)%nat -> Rabs (v c) <= t) -> Rabs (pt_fn l v o) <= A * t.
Proof.
  intros P W Ho Ht Hv. eapply Rle_trans; [apply (pt_abs a b); eauto|]. apply Rmult_le_compat_r; [exact Ht|]. apply W. destruct P as ((_ & _ & _ & _ & EB & _) & _). lia.
Qed.

Lemma wl_lip e n w A t v v' o : wl_wf e n w -> wl_within A w -> (o < e)%nat -> 0 <= t -> (forall k, (k < n)%nat -> Rabs (v k - v' k) <= t) -> Rabs (wl_fn w v o - wl_fn w v' o) <= A * t.
Proof.
  intros Hw Ha Ho Ht Hv. destruct w as [l|l1 l2]; cbn [wl_wf wl_within wl_fn] in *.
  - rewrite <- pt_minus. apply (pt_within n e); assumption.
  - destruct Hw as (h & P1 & P2). destruct Ha as (a & b & Ha & Hb & W1 & W2 & Hab). rewrite <- pt_minus. apply Rle_trans with (b * (a * t)).
    + apply (pt_within h e); try assumption; [apply Rmult_le_pos; assumption|]. intros c Hc. eapply Rle_trans; [apply relu_lip|]. rewrite Rmult_1_l, <- pt_minus. apply (pt_within n h); assumption.
    + replace (b * (a * t)) with (a * b * t) by ring. apply Rmult_le_compat_r; assumption.
Qed.

Lemma init_weights_within e n m w : (0 < e)%nat -> (0 < n)%nat -> init_weights e n m = Ok w -> wl_within (1 / INR e) w.
Proof.
  intros He Hn H. pose proof H as H'. unfold init_weights in H. apply bind_ok in H as (u & _ & E). assert (exists l, w = WConv l) as (l & ->) by (injection E as <-; eauto).
  clear E. cbn [wl_within]. intros o Ho. pose proof (wl_init_wf e n m _ He Hn H') as ((_ & _ & _ & _ & EB & EC & EH & EW) & Hp & Hg). cbn [wl_wf] in *.
  unfold row_weight. rewrite Hp in EH, EW. rewrite Hg in EC. rewrite EH, EW. replace (tC (cl_w l)) with n by lia.
  assert (W : forall c, (c < n)%nat -> get (cl_w l) o c 0 0 = 1 / (INR e * INR n)).
  { intros c Hc. pose proof (init_weights_fn e n m (WConv l) (fun k => if Nat.eqb k c then 1 else 0) o He Hn H' ltac:(lia)) as F. cbn [wl_fn] in F. unfold pt_fn in F. replace (tC (cl_w l)) with n in F by lia.
    rewrite (rsum_single n c) in F; [|exact Hc|intros k _ D; rewrite (proj2 (Nat.eqb_neq k c) D); ring].
    rewrite (rsum_single n c) in F; [|exact Hc|intros k _ D; rewrite (proj2 (Nat.eqb_neq k c) D); reflexivity]. rewrite Nat.eqb_refl, Rmult_1_r in F. exact F. }
  assert (P1 : 0 < INR e) by (apply lt_0_INR; exact He). assert (P2 : 0 < INR n) by (apply lt_0_INR; exact Hn).
  rewrite (rsum_ext n _ (fun _ => 1 / (INR e * INR n))).
  - rewrite rsum_const. right. field. lra.
  - intros c Hc. change (2 * 0 + 1)%nat with 1%nat. cbn [rsum]. rewrite !Rplus_0_l, W by exact Hc. apply Rabs_pos_eq. left. apply Rdiv_lt_0_compat; [lra|]. apply Rmult_lt_0_compat; assumption.
Qed.

(** ** CCA and Lenia *)

Lemma mix_bound I K L M v v' w w' t (g p : R -> R) : 0 <= t -> 0 <= L -> 0 <= M -> lip_on K L g -> lip_on K L p -> bounded_on K M g -> bounded_on K M p ->
  Rabs v <= I -> Rabs v' <= I -> Rabs w <= K -> Rabs w' <= K -> Rabs (v - v') <= I * t -> Rabs (w - w') <= K * t ->
  Rabs ((1 - v) * g w + v * p w - ((1 - v') * g w' + v' * p w')) <= ((1 + 2 * I) * (L * K) + 2 * I * M) * t.
Proof.
  intros Ht HL HM Lg Lp Bg Bp Hv Hv' Hw Hw' Dv Dw.
  replace ((1 - v) * g w + v * p w - ((1 - v') * g w' + v' * p w')) with ((1 - v) * (g w - g w') + (v * (p w - p w') + (v - v') * (p w' - g w'))) by ring.
  specialize (Lg w w' Hw Hw'). specialize (Lp w w' Hw Hw'). specialize (Bg w' Hw'). specialize (Bp w' Hw').
  assert (D : L * Rabs (w - w') <= L * K * t) by (rewrite Rmult_assoc; apply Rmult_le_compat_l; assumption).
  assert (A1 : Rabs (1 - v) <= 1 + I). { eapply Rle_trans; [apply Rabs_triang|]. rewrite Rabs_R1, Rabs_Ropp. lra. }
  assert (A2 : Rabs (p w' - g w') <= 2 * M). { eapply Rle_trans; [apply Rabs_triang|]. rewrite Rabs_Ropp. lra. }
  assert (P0 : forall x, 0 <= Rabs x) by apply Rabs_pos.
  eapply Rle_trans; [apply Rabs_triang|]. eapply Rle_trans; [apply Rplus_le_compat_l, Rabs_triang|]. rewrite !Rabs_mult.
  assert (B1 : Rabs (1 - v) * Rabs (g w - g w') <= (1 + I) * (L * K * t)) by (apply Rmult_le_compat; auto; lra).
  assert (B2 : Rabs v * Rabs (p w - p w') <= I * (L * K * t)) by (apply Rmult_le_compat; auto; lra).
  assert (B3 : Rabs (v - v') * Rabs (p w' - g w') <= I * t * (2 * M)) by (apply Rmult_le_compat; auto). lra.
Qed.

Lemma mix_unit K L M v v' w w' t (g p : R -> R) : 0 <= t -> 0 <= L -> 0 <= M -> lip_on K L g -> lip_on K L p -> bounded_on K M g -> bounded_on K M p ->
  0 <= v <= 1 -> 0 <= v' <= 1 -> Rabs w <= K -> Rabs w' <= K -> Rabs (v - v') <= 1 * t -> Rabs (w - w') <= K * t ->
  Rabs ((1 - v) * g w + v * p w - ((1 - v') * g w' + v' * p w')) <= (L * K + 2 * M) * t.
Proof.
  intros Ht HL HM Lg Lp Bg Bp Hv Hv' Hw Hw' Dv Dw.
  replace ((1 - v) * g w + v * p w - ((1 - v') * g w' + v' * p w')) with ((1 - v) * (g w - g w') + (v * (p w - p w') + (v - v') * (p w' - g w'))) by ring.
  specialize (Lg w w' Hw Hw'). specialize (Lp w w' Hw Hw'). specialize (Bg w' Hw'). specialize (Bp w' Hw').
  assert (D : L * Rabs (w - w') <= L * K * t) by (rewrite Rmult_assoc; apply Rmult_le_compat_l; assumption).
  assert (A2 : Rabs (p w' - g w') <= 2 * M). { eapply Rle_trans; [apply Rabs_triang|]. rewrite Rabs_Ropp. lra. }
  assert (P0 : forall x, 0 <= Rabs x) by apply Rabs_pos.
  eapply Rle_trans; [apply Rabs_triang|]. eapply Rle_trans; [apply Rplus_le_compat_l, Rabs_triang|]. rewrite !Rabs_mult. rewrite (Rabs_pos_eq (1 - v)) by lra. rewrite (Rabs_pos_eq v) by lra.
  assert (B1 : (1 - v) * Rabs (g w - g w') <= (1 - v) * (L * K * t)) by (apply Rmult_le_compat_l; lra).
  assert (B2 : v * Rabs (p w - p w') <= v * (L * K * t)) by (apply Rmult_le_compat_l; lra).
  assert (B3 : Rabs (v - v') * Rabs (p w' - g w') <= 1 * t * (2 * M)) by (apply Rmult_le_compat; auto). lra.
Qed.

Lemma wl_within_pos e n w A : wl_wf e n w -> wl_within A w -> 0 <= A.
Proof.
  intros Hw Ha. destruct w as [l|l1 l2]; cbn [wl_wf wl_within] in *; [destruct Hw as (Hw & _); apply (within_pos A l n e Hw Ha)|].
  destruct Ha as (a & b & H1 & H2 & _ & _ & H3). eapply Rle_trans; [apply Rmult_le_pos; [exact H1|exact H2]|exact H3].
Qed.

Lemma nth_lip c k fns K L : fns_chk (int_ c) fns = Ok tt -> all_lip K L fns -> (k < int_ c)%nat -> lip_on K L (act_fn (nth k fns AIdentity)).
Proof.
  intros C H Hk. apply H, nth_In. unfold fns_chk in C. apply bind_ok in C as (x & C & _). apply guard_ok in C. apply Nat.eqb_eq in C. lia.
Qed.

Lemma nth_bounded c k fns K M : fns_chk (int_ c) fns = Ok tt -> all_bounded K M fns -> (k < int_ c)%nat -> bounded_on K M (act_fn (nth k fns AIdentity)).
Proof.
  intros C H Hk. apply H, nth_In. unfold fns_chk in C. apply bind_ok in C as (x & C & _). apply guard_ok in C. apply Nat.eqb_eq in C. lia.
Qed.

Lemma cca_chk_parts c : cca_chk c = Ok tt -> fns_chk (int_ c) (gens c) = Ok tt /\ fns_chk (int_ c) (pers c) = Ok tt.
Proof. unfold cca_chk. intros H. apply bind_ok in H as ([] & A & B). auto. Qed.

Lemma mask_fn_small th C v k : (C < 4)%nat -> mask_fn th C v k = v k.
Proof. intros H. unfold mask_fn. rewrite (proj2 (Nat.leb_gt 4 C) H). reflexivity. Qed.

Lemma cca_ufn_lip c I K L M A : cca_wf c -> layer_within I (idl c) -> layer_within K (nbl c) -> wl_within A (wl c) -> 0 <= L -> 0 <= M ->
  all_lip K L (gens c) -> all_lip K L (pers c) -> all_bounded K M (gens c) -> all_bounded K M (pers c) ->
  cca_chk c = Ok tt -> ufn_lip (ext c) (int_ c) (fun x => Rabs x <= I) (fun x => Rabs x <= K) I K (A * ((1 + 2 * I) * (L * K) + 2 * I * M)) (cca_ufn c).
Proof.
  intros Hc Wi Wn Wa HL HM Lg Lp Bg Bp. pose proof Hc as (H1 & H2 & H3). pose proof (within_pos I _ _ _ H1 Wi) as HI. pose proof (within_pos K _ _ _ H2 Wn) as HK. pose proof (wl_within_pos _ _ _ _ H3 Wa) as HA.
  assert (HQ : 0 <= (1 + 2 * I) * (L * K) + 2 * I * M) by (apply Rplus_le_le_0_compat; apply Rmult_le_pos; try lra; apply Rmult_le_pos; lra).
  intros CK t v v' w w' Ht Hv Hw o Ho. apply cca_chk_parts in CK as [C1 C2]. unfold cca_ufn. rewrite Rmult_assoc. apply (wl_lip (ext c) (int_ c)); auto; [apply Rmult_le_pos; assumption|].
  intros k Hk. destruct (Hv k Hk) as (V1 & V2 & V3). destruct (Hw k Hk) as (W1 & W2 & W3). unfold gen_at, per_at. apply mix_bound; auto; try (eapply nth_lip; eassumption); eapply nth_bounded; eassumption.
Qed.

Lemma cca_spreads c I K L M A : cca_wf c -> layer_within I (idl c) -> layer_within K (nbl c) -> wl_within A (wl c) -> 0 <= L -> 0 <= M ->
  all_lip K L (gens c) -> all_lip K L (pers c) -> all_bounded K M (gens c) -> all_bounded K M (pers c) ->
  spreads (1 + Rabs (dt c) * (A * ((1 + 2 * I) * (L * K) + 2 * I * M))) (cca_forward c).
Proof.
  intros Hc Wi Wn Wa HL HM Lg Lp Bg Bp. pose proof Hc as (H1 & H2 & H3). pose proof (within_pos I _ _ _ H1 Wi) as HI. pose proof (within_pos K _ _ _ H2 Wn) as HK. pose proof (wl_within_pos _ _ _ _ H3 Wa) as HA.
  assert (HQ : 0 <= (1 + 2 * I) * (L * K) + 2 * I * M) by (apply Rplus_le_le_0_compat; apply Rmult_le_pos; try lra; apply Rmult_le_pos; lra).
  unfold cca_forward, step. apply (step_spreads (ext c) (int_ c) _ (mask_fn (thr c)) _ _ _ (cca_chk c) (cca_ufn c) _ (fun x => Rabs x <= I) (fun x => Rabs x <= K) I K); auto using mask_if_cell, update_universe_pointwise, into_abs.
  - intros C v k. apply mask_fn_small.
  - intros CK. apply (cca_ufn_lip c I K L M A); auto.
  - apply Rmult_le_pos; assumption.
Qed.

Lemma cca_ufn_lip_unit c K L M A : cca_wf c -> nonneg_layer (idl c) -> layer_within 1 (idl c) -> layer_within K (nbl c) -> wl_within A (wl c) -> 0 <= L -> 0 <= M ->
  all_lip K L (gens c) -> all_lip K L (pers c) -> all_bounded K M (gens c) -> all_bounded K M (pers c) ->
  cca_chk c = Ok tt -> ufn_lip (ext c) (int_ c) (fun x => 0 <= x <= 1) (fun x => Rabs x <= K) 1 K (A * (L * K + 2 * M)) (cca_ufn c).
Proof.
  intros Hc Ni Wi Wn Wa HL HM Lg Lp Bg Bp. pose proof Hc as (H1 & H2 & H3). pose proof (within_pos K _ _ _ H2 Wn) as HK. pose proof (wl_within_pos _ _ _ _ H3 Wa) as HA.
  assert (HQ : 0 <= L * K + 2 * M) by (apply Rplus_le_le_0_compat; try apply Rmult_le_pos; lra).
  intros CK t v v' w w' Ht Hv Hw o Ho. apply cca_chk_parts in CK as [C1 C2]. unfold cca_ufn. rewrite Rmult_assoc. apply (wl_lip (ext c) (int_ c)); auto; [apply Rmult_le_pos; assumption|].
  intros k Hk. destruct (Hv k Hk) as (V1 & V2 & V3). destruct (Hw k Hk) as (W1 & W2 & W3). unfold gen_at, per_at. apply (mix_unit K); auto; try (eapply nth_lip; eassumption); eapply nth_bounded; eassumption.
Qed.

Lemma cca_spreads_unit c K L M A : cca_wf c -> nonneg_layer (idl c) -> layer_within 1 (idl c) -> layer_within K (nbl c) -> wl_within A (wl c) -> 0 <= L -> 0 <= M ->
  all_lip K L (gens c) -> all_lip K L (pers c) -> all_bounded K M (gens c) -> all_bounded K M (pers c) ->
  spreads (1 + Rabs (dt c) * (A * (L * K + 2 * M))) (cca_forward c).
Proof.
  intros Hc Ni Wi Wn Wa HL HM Lg Lp Bg Bp. pose proof Hc as (H1 & H2 & H3). pose proof (within_pos K _ _ _ H2 Wn) as HK. pose proof (wl_within_pos _ _ _ _ H3 Wa) as HA.
  assert (HQ : 0 <= L * K + 2 * M) by (apply Rplus_le_le_0_compat; try apply Rmult_le_pos; lra).
  unfold cca_forward, step. apply (step_spreads (ext c) (int_ c) _ (mask_fn (thr c)) _ _ _ (cca_chk c) (cca_ufn c) _ (fun x => 0 <= x <= 1) (fun x => Rabs x <= K) 1 K); auto using mask_if_cell, update_universe_pointwise, into_abs, into_unit.
  - intros C v k. apply mask_fn_small.
  - intros CK. apply (cca_ufn_lip_unit c K L M A); auto.
  - apply Rmult_le_pos; assumption.
Qed.

Lemma lenia_ufn_lip c I K L A : cca_wf c -> layer_within I (idl c) -> layer_within K (nbl c) -> wl_within A (wl c) -> 0 <= L -> all_lip K L (gens c) ->
  fns_chk (int_ c) (gens c) = Ok tt -> ufn_lip (ext c) (int_ c) (fun x => Rabs x <= I) (fun x => Rabs x <= K) I K (A * (L * K)) (lenia_ufn c).
Proof.
  intros Hc Wi Wn Wa HL Lg. pose proof Hc as (H1 & H2 & H3). pose proof (within_pos K _ _ _ H2 Wn) as HK. pose proof (wl_within_pos _ _ _ _ H3 Wa) as HA.
  assert (HQ : 0 <= L * K) by (apply Rmult_le_pos; assumption).
  intros CK t v v' w w' Ht Hv Hw o Ho. unfold lenia_ufn. rewrite Rmult_assoc. apply (wl_lip (ext c) (int_ c)); auto; [apply Rmult_le_pos; assumption|].
  intros k Hk. destruct (Hw k Hk) as (W1 & W2 & W3). unfold gen_at. eapply Rle_trans; [apply (nth_lip c k (gens c) K L CK Lg Hk); assumption|]. rewrite Rmult_assoc. apply Rmult_le_compat_l; assumption.
Qed.

Lemma lenia_spreads c I K L A : cca_wf c -> layer_within I (idl c) -> layer_within K (nbl c) -> wl_within A (wl c) -> 0 <= L ->
  all_lip K L (gens c) -> spreads (1 + Rabs (dt c) * (A * (L * K))) (lenia_forward c).
Proof.
  intros Hc Wi Wn Wa HL Lg. pose proof Hc as (H1 & H2 & H3). pose proof (within_pos K _ _ _ H2 Wn) as HK. pose proof (wl_within_pos _ _ _ _ H3 Wa) as HA.
  assert (HQ : 0 <= L * K) by (apply Rmult_le_pos; assumption).
  unfold lenia_forward, step. apply (step_spreads (ext c) (int_ c) _ (mask_fn (thr c)) _ _ _ (fns_chk (int_ c) (gens c)) (lenia_ufn c) _ (fun x => Rabs x <= I) (fun x => Rabs x <= K) I K); auto using mask_if_cell, lenia_update_pointwise, into_abs.
  - intros C v k. apply mask_fn_small.
  - intros CK. apply (lenia_ufn_lip c I K L A); auto.
  - apply Rmult_le_pos; assumption.
Qed.

(** ** Gray-Scott *)
Lemma rd_ufn_lip s I K : rd_layers s -> layer_within I (rd_idl s) -> layer_within K (rd_nbl s) ->
  rd_chk s = Ok tt -> ufn_lip 2 2 (fun x => Rabs x <= I) (fun x => Rabs x <= K) I K (Rmax (Rabs (rd_du s)) (Rabs (rd_dv s)) * K / rd_dx s ^ 2 + 3 * I ^ 3 + (Rabs (rd_f s) + Rabs (rd_k s)) * I) (rd_ufn s).
Proof.
  intros (H1 & H2 & _) Wi Wn. pose proof (within_pos I _ _ _ H1 Wi) as HI. pose proof (within_pos K _ _ _ H2 Wn) as HK.
  set (D := Rmax (Rabs (rd_du s)) (Rabs (rd_dv s))). assert (D1 : Rabs (rd_du s) <= D) by apply Rmax_l. assert (D2 : Rabs (rd_dv s) <= D) by apply Rmax_r.
  pose proof (Rabs_pos (rd_f s)) as F0. pose proof (Rabs_pos (rd_k s)) as K0. assert (X0 : 0 <= rd_dx s ^ 2) by (replace (rd_dx s ^ 2) with (Rsqr (rd_dx s)) by (unfold Rsqr; ring); apply Rle_0_sqr).
  assert (HD : 0 <= D) by (eapply Rle_trans; [apply Rabs_pos|exact D1]). assert (I3 : 0 <= I ^ 3) by (apply pow_le; exact HI).
  assert (HDK : 0 <= D * K / rd_dx s ^ 2) by (unfold Rdiv; apply Rmult_le_pos; [apply Rmult_le_pos; assumption|apply inv_pos_le; exact X0]). 
  intros CK t v v' w w' Ht Hv Hw o Ho.
  assert (P0 : forall x, 0 <= Rabs x) by apply Rabs_pos.
  assert (Cub : Rabs (v 0%nat * v 1%nat * v 1%nat - v' 0%nat * v' 1%nat * v' 1%nat) <= 3 * I ^ 3 * t).
  { destruct (Hv 0%nat ltac:(lia)) as (A1 & A2 & A3). destruct (Hv 1%nat ltac:(lia)) as (B1 & B2 & B3).
    replace (v 0%nat * v 1%nat * v 1%nat - v' 0%nat * v' 1%nat * v' 1%nat) with ((v 0%nat - v' 0%nat) * (v 1%nat * v 1%nat) + (v' 0%nat * v 1%nat * (v 1%nat - v' 1%nat) + v' 0%nat * v' 1%nat * (v 1%nat - v' 1%nat))) by ring.
    eapply Rle_trans; [apply Rabs_triang|]. eapply Rle_trans; [apply Rplus_le_compat_l, Rabs_triang|]. rewrite !Rabs_mult.
    assert (E1 : Rabs (v 0%nat - v' 0%nat) * (Rabs (v 1%nat) * Rabs (v 1%nat)) <= I * t * (I * I)) by (apply Rmult_le_compat; auto; [apply Rmult_le_pos; auto|apply Rmult_le_compat; auto]).
    assert (E2 : Rabs (v' 0%nat) * Rabs (v 1%nat) * Rabs (v 1%nat - v' 1%nat) <= I * I * (I * t)) by (apply Rmult_le_compat; auto; [apply Rmult_le_pos; auto|apply Rmult_le_compat; auto]).
    assert (E3 : Rabs (v' 0%nat) * Rabs (v' 1%nat) * Rabs (v 1%nat - v' 1%nat) <= I * I * (I * t)) by (apply Rmult_le_compat; auto; [apply Rmult_le_pos; auto|apply Rmult_le_compat; auto]).
    replace (3 * I ^ 3 * t) with (I * t * (I * I) + (I * I * (I * t) + I * I * (I * t))) by ring. lra. }
  assert (Dif : forall d k, Rabs d <= D -> (k < 2)%nat -> Rabs (d * (w k / rd_dx s ^ 2) - d * (w' k / rd_dx s ^ 2)) <= D * K / rd_dx s ^ 2 * t).
  { intros d k Hd Hk. destruct (Hw k Hk) as (_ & _ & B). unfold Rdiv. replace (d * (w k * / rd_dx s ^ 2) - d * (w' k * / rd_dx s ^ 2)) with (d * (w k - w' k) * / rd_dx s ^ 2) by ring.
    rewrite !Rabs_mult, (Rabs_pos_eq (/ rd_dx s ^ 2)) by (apply inv_pos_le; exact X0). replace (D * K * / rd_dx s ^ 2 * t) with (D * (K * t) * / rd_dx s ^ 2) by ring. apply Rmult_le_compat_r; [apply inv_pos_le; exact X0|]. apply Rmult_le_compat; auto. }
  set (XX := rd_dx s ^ 2) in *. destruct o as [|[|o]]; [| |lia]; cbn [rd_ufn]; fold XX.
  + destruct (Hv 0%nat ltac:(lia)) as (_ & _ & A3). specialize (Dif (rd_du s) 0%nat D1 ltac:(lia)).
    match goal with |- Rabs (?a - ?b + rd_f s * (1 - ?c) - (?a' - ?b' + rd_f s * (1 - ?c'))) <= _ => replace (a - b + rd_f s * (1 - c) - (a' - b' + rd_f s * (1 - c'))) with ((a - a') + (- (b - b') + - (rd_f s * (c - c')))) by ring end.
    eapply Rle_trans; [apply Rabs_triang|]. eapply Rle_trans; [apply Rplus_le_compat_l, Rabs_triang|]. rewrite !Rabs_Ropp, (Rabs_mult (rd_f s)).
    assert (E : Rabs (rd_f s) * Rabs (v 0%nat - v' 0%nat) <= (Rabs (rd_f s) + Rabs (rd_k s)) * (I * t)) by (apply Rmult_le_compat; auto; lra). lra.
  + destruct (Hv 1%nat ltac:(lia)) as (_ & _ & A3). specialize (Dif (rd_dv s) 1%nat D2 ltac:(lia)).
    match goal with |- Rabs (?a + ?b - ?g * ?c - (?a' + ?b' - ?g * ?c')) <= _ => replace (a + b - g * c - (a' + b' - g * c')) with ((a - a') + ((b - b') + - (g * (c - c')))) by ring end.
    eapply Rle_trans; [apply Rabs_triang|]. eapply Rle_trans; [apply Rplus_le_compat_l, Rabs_triang|]. rewrite !Rabs_Ropp, (Rabs_mult (rd_f s + rd_k s)).
    assert (E : Rabs (rd_f s + rd_k s) * Rabs (v 1%nat - v' 1%nat) <= (Rabs (rd_f s) + Rabs (rd_k s)) * (I * t)) by (apply Rmult_le_compat; auto; apply Rabs_triang). lra.
Qed.

Lemma rd_spreads s I K : rd_layers s -> layer_within I (rd_idl s) -> layer_within K (rd_nbl s) ->
  spreads (1 + Rabs (rd_dt s) * (Rmax (Rabs (rd_du s)) (Rabs (rd_dv s)) * K / rd_dx s ^ 2 + 3 * I ^ 3 + (Rabs (rd_f s) + Rabs (rd_k s)) * I)) (rd_forward s).
Proof.
  intros RL Wi Wn. pose proof RL as (H1 & H2 & _). pose proof (within_pos I _ _ _ H1 Wi) as HI. pose proof (within_pos K _ _ _ H2 Wn) as HK.
  set (D := Rmax (Rabs (rd_du s)) (Rabs (rd_dv s))). assert (D1 : Rabs (rd_du s) <= D) by apply Rmax_l. assert (D2 : Rabs (rd_dv s) <= D) by apply Rmax_r.
  pose proof (Rabs_pos (rd_f s)) as F0. pose proof (Rabs_pos (rd_k s)) as K0. assert (X0 : 0 <= rd_dx s ^ 2) by (replace (rd_dx s ^ 2) with (Rsqr (rd_dx s)) by (unfold Rsqr; ring); apply Rle_0_sqr).
  assert (HD : 0 <= D) by (eapply Rle_trans; [apply Rabs_pos|exact D1]). assert (I3 : 0 <= I ^ 3) by (apply pow_le; exact HI).
  assert (HDK : 0 <= D * K / rd_dx s ^ 2) by (unfold Rdiv; apply Rmult_le_pos; [apply Rmult_le_pos; assumption|apply inv_pos_le; exact X0]). 
  unfold rd_forward. apply (step_spreads 2 2 _ (fun _ v c => v c) _ _ _ (rd_chk s) (rd_ufn s) _ (fun x => Rabs x <= I) (fun x => Rabs x <= K) I K); auto using no_mask_cell, rd_update_pointwise, into_abs.
  - intros CK. apply rd_ufn_lip; assumption.
  - assert (0 <= (Rabs (rd_f s) + Rabs (rd_k s)) * I) by (apply Rmult_le_pos; lra). lra.
Qed.

(** ** Neural automata *)
Lemma nca_ufn_lip s I K A1 A2 A3 L1 M1 L2 : nca_wf s -> layer_within I (nc_idl s) -> layer_within K (nc_nbl s) ->
  layer_within A1 (pt_conv (nc_pm s) (nc_w1 s)) -> layer_within A2 (pt_conv (nc_pm s) (nc_w2 s)) -> layer_within A3 (pt_conv (nc_pm s) (nc_w3 s)) ->
  0 <= L1 -> 0 <= L2 -> 0 <= M1 ->
  lip_on (A1 * Rmax I K) L1 (act_fn (nc_a1 s)) -> bounded_on (A1 * Rmax I K) M1 (act_fn (nc_a1 s)) -> lip_on (A2 * M1) L2 (act_fn (nc_a2 s)) ->
  nca_chk s = Ok tt -> ufn_lip (nc_ext s) (nc_int s) (fun x => Rabs x <= I) (fun x => Rabs x <= K) I K (A3 * (L2 * (A2 * (L1 * (A1 * Rmax I K))))) (nca_ufn s).
Proof.
  intros Hw Wi Wn W1 W2 W3 HL1 HL2 HM1 F1 B1 F2. pose proof Hw as (H1 & H2 & N1 & N2 & N3). pose proof (within_pos I _ _ _ H1 Wi) as HI. pose proof (within_pos K _ _ _ H2 Wn) as HK.
  pose proof (weight_pt (nc_pm s) _ _ _ N1) as P1. pose proof (weight_pt (nc_pm s) _ _ _ N2) as P2. pose proof (weight_pt (nc_pm s) _ _ _ N3) as P3.
  pose proof (within_pos A1 _ _ _ (proj1 P1) W1) as HA1. pose proof (within_pos A2 _ _ _ (proj1 P2) W2) as HA2. pose proof (within_pos A3 _ _ _ (proj1 P3) W3) as HA3.
  assert (HX : 0 <= Rmax I K) by (eapply Rle_trans; [exact HI|apply Rmax_l]).
  assert (HQ1 : 0 <= A1 * Rmax I K) by (apply Rmult_le_pos; assumption). assert (HQ2 : 0 <= L1 * (A1 * Rmax I K)) by (apply Rmult_le_pos; assumption).
  assert (HQ3 : 0 <= A2 * (L1 * (A1 * Rmax I K))) by (apply Rmult_le_pos; assumption). assert (HQ4 : 0 <= L2 * (A2 * (L1 * (A1 * Rmax I K)))) by (apply Rmult_le_pos; assumption).
  intros CK t v v' w w' Ht Hv Hw' o Ho. unfold nca_ufn. destruct (Nat.eqb_spec (nc_int s) (nc_ext s)) as [E|E].
  2:{ rewrite Rminus_diag_eq, Rabs_R0 by reflexivity. apply Rmult_le_pos; [apply Rmult_le_pos; assumption|exact Ht]. }
  unfold network. eapply Rle_trans; [apply tanh_lip|]. rewrite Rmult_1_l.
  change (mat_vec (nc_w3 s)) with (pt_fn (pt_conv (nc_pm s) (nc_w3 s))). change (mat_vec (nc_w2 s)) with (pt_fn (pt_conv (nc_pm s) (nc_w2 s))). change (mat_vec (nc_w1 s)) with (pt_fn (pt_conv (nc_pm s) (nc_w1 s))).
  set (x := fun c => if Nat.ltb c (nc_int s) then v c else w (c - nc_int s)%nat). set (x' := fun c => if Nat.ltb c (nc_int s) then v' c else w' (c - nc_int s)%nat).
  assert (X : forall c, (c < nc_ext s + nc_int s)%nat -> Rabs (x c) <= Rmax I K /\ Rabs (x' c) <= Rmax I K /\ Rabs (x c - x' c) <= Rmax I K * t).
  { intros c Hc. unfold x, x'. destruct (Nat.ltb_spec c (nc_int s)) as [Lc|Lc].
    - destruct (Hv c Lc) as (V1 & V2 & V3). pose proof (Rmax_l I K). repeat split; try lra. eapply Rle_trans; [exact V3|apply Rmult_le_compat_r; assumption].
    - destruct (Hw' (c - nc_int s)%nat ltac:(lia)) as (V1 & V2 & V3). pose proof (Rmax_r I K). repeat split; try lra. eapply Rle_trans; [exact V3|apply Rmult_le_compat_r; assumption]. }
  assert (Y : forall h, (h < nc_hid s)%nat -> Rabs (act_fn (nc_a1 s) (pt_fn (pt_conv (nc_pm s) (nc_w1 s)) x h)) <= M1 /\ Rabs (act_fn (nc_a1 s) (pt_fn (pt_conv (nc_pm s) (nc_w1 s)) x' h)) <= M1 /\
     Rabs (act_fn (nc_a1 s) (pt_fn (pt_conv (nc_pm s) (nc_w1 s)) x h) - act_fn (nc_a1 s) (pt_fn (pt_conv (nc_pm s) (nc_w1 s)) x' h)) <= L1 * (A1 * Rmax I K) * t).
  { intros h Hh. assert (R1 : Rabs (pt_fn (pt_conv (nc_pm s) (nc_w1 s)) x h) <= A1 * Rmax I K) by (apply (pt_within _ _ _ _ _ _ _ P1); auto; intros c Hc; apply X; exact Hc).
    assert (R2 : Rabs (pt_fn (pt_conv (nc_pm s) (nc_w1 s)) x' h) <= A1 * Rmax I K) by (apply (pt_within _ _ _ _ _ _ _ P1); auto; intros c Hc; apply X; exact Hc).
    split; [apply B1, R1|]. split; [apply B1, R2|]. eapply Rle_trans; [apply F1; assumption|]. rewrite Rmult_assoc. apply Rmult_le_compat_l; [exact HL1|]. rewrite <- pt_minus, Rmult_assoc.
    apply (pt_within _ _ _ _ _ _ _ P1); auto; [apply Rmult_le_pos; assumption|]. intros c Hc. apply X, Hc. }
  rewrite <- pt_minus, Rmult_assoc. apply (pt_within _ _ _ _ _ _ _ P3); auto; [apply Rmult_le_pos; assumption|]. intros h2 Hh2.
  set (y := fun k1 => 1 * act_fn (nc_a1 s) (pt_fn (pt_conv (nc_pm s) (nc_w1 s)) x k1)). set (y' := fun k1 => 1 * act_fn (nc_a1 s) (pt_fn (pt_conv (nc_pm s) (nc_w1 s)) x' k1)).
  assert (R1 : Rabs (pt_fn (pt_conv (nc_pm s) (nc_w2 s)) y h2) <= A2 * M1) by (apply (pt_within _ _ _ _ _ _ _ P2); auto; intros h Hh; unfold y; rewrite Rmult_1_l; apply Y; exact Hh).
  assert (R2 : Rabs (pt_fn (pt_conv (nc_pm s) (nc_w2 s)) y' h2) <= A2 * M1) by (apply (pt_within _ _ _ _ _ _ _ P2); auto; intros h Hh; unfold y'; rewrite Rmult_1_l; apply Y; exact Hh).
  eapply Rle_trans; [apply F2; assumption|]. rewrite Rmult_assoc. apply Rmult_le_compat_l; [exact HL2|]. rewrite <- pt_minus, Rmult_assoc.
  apply (pt_within _ _ _ _ _ _ _ P2); auto; [apply Rmult_le_pos; assumption|]. intros h Hh. unfold y, y'. rewrite !Rmult_1_l. apply Y, Hh.
Qed.

Lemma nca_spreads keep s I K A1 A2 A3 L1 M1 L2 : nca_wf s -> layer_within I (nc_idl s) -> layer_within K (nc_nbl s) ->
  layer_within A1 (pt_conv (nc_pm s) (nc_w1 s)) -> layer_within A2 (pt_conv (nc_pm s) (nc_w2 s)) -> layer_within A3 (pt_conv (nc_pm s) (nc_w3 s)) ->
  0 <= L1 -> 0 <= L2 -> 0 <= M1 ->
  lip_on (A1 * Rmax I K) L1 (act_fn (nc_a1 s)) -> bounded_on (A1 * Rmax I K) M1 (act_fn (nc_a1 s)) -> lip_on (A2 * M1) L2 (act_fn (nc_a2 s)) ->
  spreads (1 + Rabs (nc_dt s) * (A3 * (L2 * (A2 * (L1 * (A1 * Rmax I K)))))) (nca_forward false keep s).
Proof.
  intros Hw Wi Wn W1 W2 W3 HL1 HL2 HM1 F1 B1 F2. pose proof Hw as (H1 & H2 & N1 & N2 & N3). pose proof (within_pos I _ _ _ H1 Wi) as HI. pose proof (within_pos K _ _ _ H2 Wn) as HK.
  pose proof (weight_pt (nc_pm s) _ _ _ N1) as P1. pose proof (weight_pt (nc_pm s) _ _ _ N2) as P2. pose proof (weight_pt (nc_pm s) _ _ _ N3) as P3.
  pose proof (within_pos A1 _ _ _ (proj1 P1) W1) as HA1. pose proof (within_pos A2 _ _ _ (proj1 P2) W2) as HA2. pose proof (within_pos A3 _ _ _ (proj1 P3) W3) as HA3.
  assert (HX : 0 <= Rmax I K) by (eapply Rle_trans; [exact HI|apply Rmax_l]).
  assert (HQ1 : 0 <= A1 * Rmax I K) by (apply Rmult_le_pos; assumption). assert (HQ2 : 0 <= L1 * (A1 * Rmax I K)) by (apply Rmult_le_pos; assumption).
  assert (HQ3 : 0 <= A2 * (L1 * (A1 * Rmax I K))) by (apply Rmult_le_pos; assumption). assert (HQ4 : 0 <= L2 * (A2 * (L1 * (A1 * Rmax I K)))) by (apply Rmult_le_pos; assumption).
  unfold nca_forward. apply (step_spreads (nc_ext s) (nc_int s) _ (mask_fn (nc_thr s)) _ _ _ (nca_chk s) (nca_ufn s) _ (fun x => Rabs x <= I) (fun x => Rabs x <= K) I K); auto using mask_if_cell, nca_eval_pointwise, into_abs.
  - intros C v k. apply mask_fn_small.
  - intros CK. apply (nca_ufn_lip s I K A1 A2 A3 L1 M1 L2); auto.
  - apply Rmult_le_pos; assumption.
Qed.

(** ** Runs *)
Lemma spreads_run q f : 0 <= q -> spreads q f -> (forall u u', twf u -> f u = Ok u' -> tC u' = tC u) -> forall n e u v, 0 <= e -> (tC u < 4)%nat -> near e u v ->
  (forall u', iter_res f n u = Ok u' -> exists v', iter_res f n v = Ok v' /\ near (q ^ n * e) u' v') /\ (forall er, iter_res f n u = Err er -> iter_res f n v = Err er).
Proof.
  intros Hq S Sh n. induction n as [|n IH]; intros e u v He HC N; cbn [iter_res pow].
  - split; [|discriminate]. intros u' E. injection E as <-. exists v. rewrite Rmult_1_l. auto.
  - destruct (S e u v He HC N) as [S1 S2]. destruct (f u) as [u1|er1] eqn:E1.
    + destruct (S1 u1 eq_refl) as (v1 & E2 & N1). rewrite E2. cbn [bind]. pose proof N as (Tu & _). rewrite <- (Sh u u1 Tu E1) in HC.
      destruct (IH (q * e) u1 v1 ltac:(apply Rmult_le_pos; assumption) HC N1) as [I1 I2]. split; [|exact I2]. intros u' E. destruct (I1 u' E) as (v' & E' & N'). exists v'. split; [exact E'|].
      replace (q * q ^ n * e) with (q ^ n * (q * e)) by ring. exact N'.
    + rewrite (S2 er1 eq_refl). cbn [bind]. split; [discriminate|]. intros er H. exact H.
Qed.

Lemma near_trans a b u v w : near a u v -> near b v w -> near (a + b) u w.
Proof.
  intros (T1 & T2 & S1 & U1 & U2 & D1) (_ & T3 & S2 & _ & U3 & D2). split; [exact T1|]. split; [exact T3|]. split; [congruence|]. split; [exact U1|]. split; [exact U3|].
  intros p c i j Hp Hc Hi Hj. replace (get u p c i j - get w p c i j) with ((get u p c i j - get v p c i j) + (get v p c i j - get w p c i j)) by ring. eapply Rle_trans; [apply Rabs_triang|]. injection S1 as E1 E2 E3 E4.
  apply Rplus_le_compat; [apply D1; assumption|apply D2; congruence].
Qed.

Lemma spreads_rough q d f us : 0 <= q -> 0 <= d -> spreads q f -> (forall u u', twf u -> f u = Ok u' -> shape u' = shape u /\ twf u') -> (forall u u', f u = Ok u' -> in_unit u') -> rough_run f d us ->
  forall n e v v', 0 <= e -> (tC (us 0%nat) < 4)%nat -> near e (us 0%nat) v -> iter_res f n v = Ok v' -> near (grown q d e n) (us n) v'.
Proof.
  intros Hq Hd S Sh Un R n. induction n as [|n IH]; intros e v v' He HC N E; cbn [grown].
  - cbn [iter_res] in E. injection E as <-. exact N.
  - apply iter_last in E as (w & E1 & E2). specialize (IH e v w He HC N E1).
    assert (G : 0 <= grown q d e n) by (clear - Hq Hd He; induction n as [|n IH]; cbn [grown]; [exact He|]; apply Rplus_le_le_0_compat; [apply Rmult_le_pos; assumption|exact Hd]).
    destruct (R n) as (Tn & Sn & Un' & Cn). destruct (R (Datatypes.S n)) as (Ts & Ss & Us & _).
    assert (HC' : (tC (us n) < 4)%nat) by (unfold shape in Sn; injection Sn as _ Sn _ _; lia).
    destruct (S _ _ _ G HC' IH) as [S1 S2]. destruct (f (us n)) as [x|er] eqn:Ex; [|rewrite (S2 er eq_refl) in E2; discriminate].
    destruct (S1 x eq_refl) as (v1 & Ev & Nv). assert (v1 = v') by congruence. subst v1. rewrite Rplus_comm. apply (near_trans d (q * grown q d e n) (us (Datatypes.S n)) x v'); [|exact Nv].
    destruct (Sh _ _ Tn Ex) as [Sx Tx]. split; [exact Ts|]. split; [exact Tx|]. split; [congruence|]. split; [exact Us|]. split; [exact (Un _ _ Ex)|].
    intros b c i j Hb Hc Hi Hj. assert (Q : shape (us (Datatypes.S n)) = shape x) by congruence. unfold shape in Q. injection Q as Q1 Q2 Q3 Q4. apply (Cn x eq_refl); congruence.
Qed.

Lemma grown_closed q d e n : q <> 1 -> grown q d e n = q ^ n * e + d * ((q ^ n - 1) / (q - 1)).
Proof. intros H. induction n as [|n IH]; cbn [grown pow]; [field; lra|]. rewrite IH. field. lra. Qed.
