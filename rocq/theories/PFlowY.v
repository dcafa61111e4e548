(** The steps of the automata move along a field (proofs). *)
From Coq Require Import Reals Lra Lia List Arith Bool ZArith.
From Verif Require Import Base PyDict Tensor MActivations MKernels MCommon MCca MRd MNca MConfig MConfigs PTensor PStep PCca PDyn PCode PRd SRd SNca PNca SGrid SCca SConfig SLife SLip SKern PKern PKernX PKernY PConfig PConfigX PLip PLipX PLipY PBundle SFlow PFlow PFlowX.
Import ListNotations.
Open Scope R_scope.

Definition ufn_bound (e n : nat) (Pv Pw : R -> Prop) (M : R) (ufn : (nat -> R) -> (nat -> R) -> nat -> R) : Prop :=
  forall v w, (forall k, (k < n)%nat -> Pv (v k)) -> (forall k, (k < n)%nat -> Pw (w k)) -> forall o, (o < e)%nat -> Rabs (ufn v w o) <= M.

Section Step.
  Variables (e n : nat) (msk : tensor -> res tensor) (mfn : nat -> (nat -> R) -> nat -> R).
  Variables (idl nbl : conv_layer) (upd : tensor -> tensor -> res tensor) (chk : res unit).
  Variables (ufn : (nat -> R) -> (nat -> R) -> nat -> R) (Pv Pw : R -> Prop) (I K Q M : R).
  Hypothesis Hmask : cell_mask msk mfn.
  Hypothesis Hmid : forall C v c, (C < 4)%nat -> mfn C v c = v c.
  Hypothesis Hid : layer_wf e n idl.
  Hypothesis Hnb : layer_wf e n nbl.
  Hypothesis Hupd : pointwise e n upd chk ufn.
  Hypothesis Hlip : chk = Ok tt -> ufn_lip e n Pv Pw I K Q ufn.
  Hypothesis Hbnd : chk = Ok tt -> ufn_bound e n Pv Pw M ufn.
  Hypothesis Wid : layer_within I idl.
  Hypothesis Wnb : layer_within K nbl.
  Hypothesis Pid : conv_into Pv e n idl.
  Hypothesis Pnb : conv_into Pw e n nbl.

  Lemma fwd_ok h u u' : twf u -> ca_forward msk idl nbl upd h u = Ok u' ->
    chk = Ok tt /\ layer_ready e idl u = true /\ layer_ready e nbl u = true /\ tC u = e /\ u' = build (tB u) e (tH u) (tW u) (step_val mfn idl nbl ufn h u).
  Proof.
    intros T E. rewrite (ca_forward_nf e n msk mfn idl nbl upd chk ufn h Hmask Hid Hnb Hupd u T) in E. destruct (step_ready e idl nbl u) eqn:R; [|discriminate]. unfold step_ready in R. apply andb_true_iff in R as [R1 R2].
    destruct chk as [[]|]; [|discriminate]. cbn [bind] in E. injection E as <-. pose proof (layer_ready_inv _ _ _ R1) as (Ec & _). auto.
  Qed.

  Lemma mval_get u b c i j : (tC u < 4)%nat -> mval mfn u b c i j = get u b c i j.
  Proof. intros H. unfold mval. rewrite Hmid by exact H. reflexivity. Qed.

  Lemma unit_inr u b : twf u -> in_unit u -> tC u = e -> (tC u < 4)%nat -> (b < tB u)%nat -> inr e (tH u) (tW u) (fun x => 0 <= x <= 1) (mval mfn u b).
  Proof. intros T U Ec HC Hb c y x Hc Hy Hx. rewrite mval_get by exact HC. unfold in_unit in U. rewrite Forall_forall in U. apply U, get_in_data; auto. lia. Qed.

  Lemma step_driven : 0 <= Q -> driven Q M (fun h => ca_forward msk idl nbl upd h).
  Proof.
    intros HQ. exists (upd_val mfn idl nbl ufn). split; [|split; [|split]].
    - intros h k u v er Tu Tv Sh _ E. rewrite (ca_forward_nf e n msk mfn idl nbl upd chk ufn h Hmask Hid Hnb Hupd u Tu) in E. rewrite (ca_forward_nf e n msk mfn idl nbl upd chk ufn k Hmask Hid Hnb Hupd v Tv).
      assert (Er : step_ready e idl nbl u = step_ready e idl nbl v) by (unfold step_ready; rewrite (layer_ready_shape e idl u v Sh), (layer_ready_shape e nbl u v Sh); reflexivity).
      rewrite <- Er. destruct (step_ready e idl nbl u); [|exact E]. destruct chk as [[]|]; [discriminate|exact E].
    - intros h u u' T HC E. destruct (fwd_ok h u u' T E) as (_ & _ & _ & Ec & ->). split; [apply twf_build|]. split; [unfold shape; cbn [tB tC tH tW build]; congruence|].
      intros b c i j Hb Hc Hi Hj. rewrite get_build by (auto; congruence). unfold step_val, upd_val. rewrite <- clip_clamp. unfold clip. rewrite mval_get by exact HC. reflexivity.
    - intros h u u' T U HC E b c i j Hb Hc Hi Hj. destruct (fwd_ok h u u' T E) as (Ck & R1 & R2 & Ec & _). unfold upd_val. apply Hbnd; auto; [| |congruence].
      + intros k Hk. apply Pid; auto. apply unit_inr; assumption.
      + intros k Hk. apply Pnb; auto. apply unit_inr; assumption.
    - intros h ee u v u' N HC E b c i j Hb Hc Hi Hj. pose proof N as (Tu & Tv & Hs & Uu & Uv & Hd). destruct (fwd_ok h u u' Tu E) as (Ck & R1 & R2 & Ec & _).
      pose proof Hs as Hs'. unfold shape in Hs'. injection Hs' as S1 S2 S3 S4.
      assert (He : 0 <= ee) by (eapply Rle_trans; [apply Rabs_pos|apply (Hd b c i j Hb Hc Hi Hj)]).
      assert (EB1 : tB (cl_w idl) = n) by (destruct Hid as (_ & _ & _ & _ & X & _); exact X). assert (EB2 : tB (cl_w nbl) = n) by (destruct Hnb as (_ & _ & _ & _ & X & _); exact X).
      assert (IU : inr e (tH u) (tW u) (fun x => 0 <= x <= 1) (mval mfn u b)) by (apply unit_inr; assumption).
      assert (IV : inr e (tH v) (tW v) (fun x => 0 <= x <= 1) (mval mfn v b)) by (apply unit_inr; auto; congruence || lia).
      assert (ID : inr e (tH u) (tW u) (fun x => Rabs x <= ee) (fun c y x => mval mfn u b c y x - mval mfn v b c y x)) by (intros c' y x Hc' Hy Hx; rewrite !mval_get by lia; apply Hd; auto; lia).
      pose proof (layer_ready_shape e idl u v Hs) as Rv1. pose proof (layer_ready_shape e nbl u v Hs) as Rv2.
      unfold upd_val. rewrite <- S3, <- S4. apply (Hlip Ck ee); auto; [| |congruence].
      + intros k Hk. split; [apply Pid; auto|]. split; [rewrite S3, S4; apply Pid; auto; congruence|]. rewrite <- convf_minus. eapply Rle_trans; [apply (convf_abs e n idl u _ ee); auto|]. apply Rmult_le_compat_r; [exact He|apply Wid; lia].
      + intros k Hk. split; [apply Pnb; auto|]. split; [rewrite S3, S4; apply Pnb; auto; congruence|]. rewrite <- convf_minus. eapply Rle_trans; [apply (convf_abs e n nbl u _ ee); auto|]. apply Rmult_le_compat_r; [exact He|apply Wnb; lia].
  Qed.
End Step.

Lemma pt_zero l o : pt_fn l (fun _ => 0) o = 0.
Proof. unfold pt_fn. apply rsum_zero_all || (rewrite (rsum_ext _ _ (fun _ => 0)); [|intros; ring]; rewrite rsum_const; ring). Qed.

Lemma wl_zero w o : wl_fn w (fun _ => 0) o = 0.
Proof.
  destruct w as [l|l1 l2]; cbn [wl_fn]; [apply pt_zero|]. unfold pt_fn at 1. rewrite (rsum_ext _ _ (fun _ => 0)); [rewrite rsum_const; ring|]. intros c _. rewrite pt_zero, Rmax_left by lra. ring.
Qed.

Lemma wl_bound e n w A t v o : wl_wf e n w -> wl_within A w -> (o < e)%nat -> 0 <= t -> (forall k, (k < n)%nat -> Rabs (v k) <= t) -> Rabs (wl_fn w v o) <= A * t.
Proof.
  intros Hw Ha Ho Ht Hv. pose proof (wl_lip e n w A t v (fun _ => 0) o Hw Ha Ho Ht) as X. rewrite wl_zero, Rminus_0_r in X. apply X. intros k Hk. rewrite Rminus_0_r. apply Hv, Hk.
Qed.

Lemma cca_driven c I K L M A : cca_wf c -> layer_within I (idl c) -> layer_within K (nbl c) -> wl_within A (wl c) -> 0 <= L -> 0 <= M ->
  all_lip K L (gens c) -> all_lip K L (pers c) -> all_bounded K M (gens c) -> all_bounded K M (pers c) ->
  driven (A * ((1 + 2 * I) * (L * K) + 2 * I * M)) (A * ((1 + 2 * I) * M)) (cca_at c).
Proof.
  intros Hc Wi Wn Wa HL HM Lg Lp Bg Bp. pose proof Hc as (H1 & H2 & H3). pose proof (within_pos I _ _ _ H1 Wi) as HI. pose proof (within_pos K _ _ _ H2 Wn) as HK. pose proof (wl_within_pos _ _ _ _ H3 Wa) as HA.
  assert (HQ : 0 <= (1 + 2 * I) * (L * K) + 2 * I * M) by (apply Rplus_le_le_0_compat; apply Rmult_le_pos; try lra; apply Rmult_le_pos; lra).
  apply (step_driven (ext c) (int_ c) (mask_if (thr c)) (mask_fn (thr c)) (idl c) (nbl c) (update_universe c) (cca_chk c) (cca_ufn c) (fun x => Rabs x <= I) (fun x => Rabs x <= K) I K); auto using mask_if_cell, update_universe_pointwise, into_abs.
  - intros C v k. apply mask_fn_small.
  - intros CK. apply cca_ufn_lip; assumption.
  - intros CK v w Hv Hw o Ho. apply cca_chk_parts in CK as [C1 C2]. unfold cca_ufn. apply (wl_bound (ext c) (int_ c)); auto; [apply Rmult_le_pos; lra|]. intros k Hk. specialize (Hv k Hk). specialize (Hw k Hk). unfold gen_at, per_at.
    pose proof (nth_bounded c k _ K M C1 Bg Hk _ Hw) as G. pose proof (nth_bounded c k _ K M C2 Bp Hk _ Hw) as P. eapply Rle_trans; [apply Rabs_triang|]. rewrite !Rabs_mult.
    assert (A1 : Rabs (1 - v k) <= 1 + I). { eapply Rle_trans; [apply Rabs_triang|]. rewrite Rabs_R1, Rabs_Ropp. lra. }
    assert (B1 : Rabs (1 - v k) * Rabs (act_fn (nth k (gens c) AIdentity) (w k)) <= (1 + I) * M) by (apply Rmult_le_compat; auto using Rabs_pos). assert (B2 : Rabs (v k) * Rabs (act_fn (nth k (pers c) AIdentity) (w k)) <= I * M) by (apply Rmult_le_compat; auto using Rabs_pos). lra.
  - apply Rmult_le_pos; assumption.
Qed.

Lemma cca_driven_unit c K L M A : cca_wf c -> nonneg_layer (idl c) -> layer_within 1 (idl c) -> layer_within K (nbl c) -> wl_within A (wl c) -> 0 <= L -> 0 <= M ->
  all_lip K L (gens c) -> all_lip K L (pers c) -> all_bounded K M (gens c) -> all_bounded K M (pers c) ->
  driven (A * (L * K + 2 * M)) (A * M) (cca_at c).
Proof.
  intros Hc Ni Wi Wn Wa HL HM Lg Lp Bg Bp. pose proof Hc as (H1 & H2 & H3). pose proof (within_pos K _ _ _ H2 Wn) as HK. pose proof (wl_within_pos _ _ _ _ H3 Wa) as HA.
  assert (HQ : 0 <= L * K + 2 * M) by (apply Rplus_le_le_0_compat; try apply Rmult_le_pos; lra).
  apply (step_driven (ext c) (int_ c) (mask_if (thr c)) (mask_fn (thr c)) (idl c) (nbl c) (update_universe c) (cca_chk c) (cca_ufn c) (fun x => 0 <= x <= 1) (fun x => Rabs x <= K) 1 K); auto using mask_if_cell, update_universe_pointwise, into_abs, into_unit.
  - intros C v k. apply mask_fn_small.
  - intros CK. apply cca_ufn_lip_unit; assumption.
  - intros CK v w Hv Hw o Ho. apply cca_chk_parts in CK as [C1 C2]. unfold cca_ufn. apply (wl_bound (ext c) (int_ c)); auto. intros k Hk. specialize (Hv k Hk). specialize (Hw k Hk). unfold gen_at, per_at.
    pose proof (nth_bounded c k _ K M C1 Bg Hk _ Hw) as G. pose proof (nth_bounded c k _ K M C2 Bp Hk _ Hw) as P. eapply Rle_trans; [apply Rabs_triang|]. rewrite !Rabs_mult, (Rabs_pos_eq (1 - v k)), (Rabs_pos_eq (v k)) by lra.
    assert (B1 : (1 - v k) * Rabs (act_fn (nth k (gens c) AIdentity) (w k)) <= (1 - v k) * M) by (apply Rmult_le_compat_l; lra). assert (B2 : v k * Rabs (act_fn (nth k (pers c) AIdentity) (w k)) <= v k * M) by (apply Rmult_le_compat_l; lra). lra.
  - apply Rmult_le_pos; assumption.
Qed.

Lemma lenia_driven c I K L M A : cca_wf c -> layer_within I (idl c) -> layer_within K (nbl c) -> wl_within A (wl c) -> 0 <= L -> 0 <= M ->
  all_lip K L (gens c) -> all_bounded K M (gens c) -> driven (A * (L * K)) (A * M) (lenia_at c).
Proof.
  intros Hc Wi Wn Wa HL HM Lg Bg. pose proof Hc as (H1 & H2 & H3). pose proof (within_pos K _ _ _ H2 Wn) as HK. pose proof (wl_within_pos _ _ _ _ H3 Wa) as HA.
  assert (HQ : 0 <= L * K) by (apply Rmult_le_pos; assumption).
  apply (step_driven (ext c) (int_ c) (mask_if (thr c)) (mask_fn (thr c)) (idl c) (nbl c) (lenia_update c) (fns_chk (int_ c) (gens c)) (lenia_ufn c) (fun x => Rabs x <= I) (fun x => Rabs x <= K) I K); auto using mask_if_cell, lenia_update_pointwise, into_abs.
  - intros C v k. apply mask_fn_small.
  - intros CK. apply lenia_ufn_lip; assumption.
  - intros CK v w Hv Hw o Ho. unfold lenia_ufn. apply (wl_bound (ext c) (int_ c)); auto. intros k Hk. unfold gen_at. apply (nth_bounded c k _ K M CK Bg Hk). apply Hw, Hk.
  - apply Rmult_le_pos; assumption.
Qed.

Lemma rd_driven s I K : rd_layers s -> layer_within I (rd_idl s) -> layer_within K (rd_nbl s) ->
  driven (Rmax (Rabs (rd_du s)) (Rabs (rd_dv s)) * K / rd_dx s ^ 2 + 3 * I ^ 3 + (Rabs (rd_f s) + Rabs (rd_k s)) * I)
         (Rmax (Rabs (rd_du s)) (Rabs (rd_dv s)) * K / rd_dx s ^ 2 + I ^ 3 + Rabs (rd_f s) + (Rabs (rd_f s) + Rabs (rd_k s)) * I) (rd_at s).
Proof.
  intros RL Wi Wn. pose proof RL as (H1 & H2 & _). pose proof (within_pos I _ _ _ H1 Wi) as HI. pose proof (within_pos K _ _ _ H2 Wn) as HK.
  set (D := Rmax (Rabs (rd_du s)) (Rabs (rd_dv s))). assert (D1 : Rabs (rd_du s) <= D) by apply Rmax_l. assert (D2 : Rabs (rd_dv s) <= D) by apply Rmax_r.
  pose proof (Rabs_pos (rd_f s)) as F0. pose proof (Rabs_pos (rd_k s)) as K0. assert (X0 : 0 <= rd_dx s ^ 2) by apply pow2_ge_0.
  assert (HD : 0 <= D) by (eapply Rle_trans; [apply Rabs_pos|exact D1]). assert (I3 : 0 <= I ^ 3) by (apply pow_le; exact HI).
  assert (HDK : 0 <= D * K / rd_dx s ^ 2) by (unfold Rdiv; apply Rmult_le_pos; [apply Rmult_le_pos; assumption|apply inv_pos_le; exact X0]).
  assert (FK : 0 <= (Rabs (rd_f s) + Rabs (rd_k s)) * I) by (apply Rmult_le_pos; lra).
  apply (step_driven 2 2 (fun u => Ok u) (fun _ v c => v c) (rd_idl s) (rd_nbl s) (rd_update s) (rd_chk s) (rd_ufn s) (fun x => Rabs x <= I) (fun x => Rabs x <= K) I K); auto using no_mask_cell, rd_update_pointwise, into_abs; [|intros CK v w Hv Hw o Ho|lra].
  - intros CK. apply rd_ufn_lip; assumption.
  - assert (P0 : forall x, 0 <= Rabs x) by apply Rabs_pos. pose proof (Hv 0%nat ltac:(lia)) as V0. pose proof (Hv 1%nat ltac:(lia)) as V1. cbv beta in V0, V1.
    assert (Cub : Rabs (v 0%nat * v 1%nat * v 1%nat) <= I ^ 3). { rewrite !Rabs_mult. replace (I ^ 3) with (I * I * I) by ring. apply Rmult_le_compat; auto; [apply Rmult_le_pos; auto|apply Rmult_le_compat; auto]. }
    assert (Dif : forall d k, Rabs d <= D -> (k < 2)%nat -> Rabs (d * (w k / rd_dx s ^ 2)) <= D * K / rd_dx s ^ 2).
    { intros d k Hd Hk. pose proof (Hw k Hk) as B. cbv beta in B. unfold Rdiv. rewrite !Rabs_mult, (Rabs_pos_eq (/ rd_dx s ^ 2)) by (apply inv_pos_le; exact X0). rewrite <- Rmult_assoc. apply Rmult_le_compat_r; [apply inv_pos_le; exact X0|]. apply Rmult_le_compat; auto. }
    set (XX := rd_dx s ^ 2) in *. destruct o as [|[|o]]; [| |lia]; cbn [rd_ufn]; fold XX.
    + specialize (Dif (rd_du s) 0%nat D1 ltac:(lia)). set (a := rd_du s * (w 0%nat / XX)) in *. set (p := v 0%nat * v 1%nat * v 1%nat) in *. replace (a - p + rd_f s * (1 - v 0%nat)) with (a + (- p + (rd_f s + - (rd_f s * v 0%nat)))) by ring.
      eapply Rle_trans; [apply Rabs_triang|]. eapply Rle_trans; [apply Rplus_le_compat_l, Rabs_triang|]. eapply Rle_trans; [apply Rplus_le_compat_l, Rplus_le_compat_l, Rabs_triang|]. rewrite !Rabs_Ropp, (Rabs_mult (rd_f s)).
      assert (E : Rabs (rd_f s) * Rabs (v 0%nat) <= (Rabs (rd_f s) + Rabs (rd_k s)) * I) by (apply Rmult_le_compat; auto; lra). lra.
    + specialize (Dif (rd_dv s) 1%nat D2 ltac:(lia)). set (a := rd_dv s * (w 1%nat / XX)) in *. set (p := v 0%nat * v 1%nat * v 1%nat) in *. replace (a + p - (rd_f s + rd_k s) * v 1%nat) with (a + (p + - ((rd_f s + rd_k s) * v 1%nat))) by ring.
      eapply Rle_trans; [apply Rabs_triang|]. eapply Rle_trans; [apply Rplus_le_compat_l, Rabs_triang|]. rewrite !Rabs_Ropp, (Rabs_mult (rd_f s + rd_k s)).
      assert (E : Rabs (rd_f s + rd_k s) * Rabs (v 1%nat) <= (Rabs (rd_f s) + Rabs (rd_k s)) * I) by (apply Rmult_le_compat; auto; apply Rabs_triang). lra.
Qed.

Lemma nca_driven keep s I K A1 A2 A3 L1 M1 L2 : nca_wf s -> layer_within I (nc_idl s) -> layer_within K (nc_nbl s) ->
  layer_within A1 (pt_conv (nc_pm s) (nc_w1 s)) -> layer_within A2 (pt_conv (nc_pm s) (nc_w2 s)) -> layer_within A3 (pt_conv (nc_pm s) (nc_w3 s)) ->
  0 <= L1 -> 0 <= L2 -> 0 <= M1 ->
  lip_on (A1 * Rmax I K) L1 (act_fn (nc_a1 s)) -> bounded_on (A1 * Rmax I K) M1 (act_fn (nc_a1 s)) -> lip_on (A2 * M1) L2 (act_fn (nc_a2 s)) ->
  driven (A3 * (L2 * (A2 * (L1 * (A1 * Rmax I K))))) 1 (nca_at keep s).
Proof.
  intros Hw Wi Wn W1 W2 W3 HL1 HL2 HM1 F1 B1 F2. pose proof Hw as (H1 & H2 & N1 & N2 & N3). pose proof (within_pos I _ _ _ H1 Wi) as HI. pose proof (within_pos K _ _ _ H2 Wn) as HK.
  pose proof (weight_pt (nc_pm s) _ _ _ N1) as P1. pose proof (weight_pt (nc_pm s) _ _ _ N2) as P2. pose proof (weight_pt (nc_pm s) _ _ _ N3) as P3.
  pose proof (within_pos A1 _ _ _ (proj1 P1) W1) as HA1. pose proof (within_pos A2 _ _ _ (proj1 P2) W2) as HA2. pose proof (within_pos A3 _ _ _ (proj1 P3) W3) as HA3.
  assert (HX : 0 <= Rmax I K) by (eapply Rle_trans; [exact HI|apply Rmax_l]).
  apply (step_driven (nc_ext s) (nc_int s) (mask_if (nc_thr s)) (mask_fn (nc_thr s)) (nc_idl s) (nc_nbl s) (nca_update false keep s) (nca_chk s) (nca_ufn s) (fun x => Rabs x <= I) (fun x => Rabs x <= K) I K); auto using mask_if_cell, nca_eval_pointwise, into_abs.
  - intros C v k. apply mask_fn_small.
  - intros CK. apply (nca_ufn_lip s I K A1 A2 A3 L1 M1 L2); assumption.
  - intros CK v w Hv Hw' o Ho. unfold nca_ufn. destruct (Nat.eqb (nc_int s) (nc_ext s)); [|rewrite Rabs_R0; lra]. unfold network. apply Rabs_le. match goal with |- _ <= tanh ?x <= _ => pose proof (tanh_bound x) end. lra.
  - repeat (apply Rmult_le_pos; [assumption|]). assumption.
Qed.

Lemma built_driven c cfg k L M : (0 < ext c)%nat -> (0 < int_ c)%nat -> (int_ c mod ext c = 0)%nat -> init_layer (ext c) (int_ c) (pm c) default_id_kernel = Ok (idl c) ->
  get_kernel cfg = Ok k -> init_layer (ext c) (int_ c) (pm c) k = Ok (nbl c) -> init_weights (ext c) (int_ c) (pm c) = Ok (wl c) ->
  0 <= L -> 0 <= M -> tame 1 L M (gens c) -> tame 1 L M (pers c) -> driven ((L + 2 * M) / INR (ext c)) (M / INR (ext c)) (cca_at c).
Proof.
  intros He Hn Hm Hi Hk Hl Hw HL HM Tg Tp. pose proof Hk as Ho. apply get_kernel_odd in Ho as (r & (S & W & _) & _). apply shape_inv in S as (K1 & K2 & K3 & K4).
  destruct (default_within _ _ _ _ He Hn Hm Hi) as [D1 D2]. destruct (tame_lip 1 L M _ Rle_0_1 Tg) as [G1 G2]. destruct (tame_lip 1 L M _ Rle_0_1 Tp) as [P1 P2].
  assert (C : cca_wf c). { split; [|split]; [apply (init_layer_wf _ _ _ default_id_kernel _ 1 He Hn eq_refl eq_refl Hi)|apply (init_layer_wf _ _ _ k _ r He Hn K3 K4 Hl)|apply (wl_init_wf _ _ _ _ He Hn Hw)]. }
  pose proof (cca_driven_unit c 1 L M (1 / INR (ext c)) C D2 D1 (kernel_within cfg k _ _ _ _ He Hn Hm Hk Hl) (init_weights_within _ _ _ _ He Hn Hw) HL HM G1 P1 G2 P2) as Q.
  pose proof (lt_0_INR _ He). replace ((L + 2 * M) / INR (ext c)) with (1 / INR (ext c) * (L * 1 + 2 * M)) by (field; lra). replace (M / INR (ext c)) with (1 / INR (ext c) * M) by (field; lra). exact Q.
Qed.

Lemma driven_weaken L L' M M' F : L <= L' -> M <= M' -> driven L M F -> driven L' M' F.
Proof.
  intros HL HM (g & D1 & D2 & D3 & D4). exists g. split; [exact D1|]. split; [exact D2|]. split.
  - intros h u u' T U C E b c i j Hb Hc Hi Hj. eapply Rle_trans; [apply (D3 h u u'); assumption|exact HM].
  - intros h e u v u' N C E b c i j Hb Hc Hi Hj. eapply Rle_trans; [apply (D4 h e u v u' N C E b c i j Hb Hc Hi Hj)|]. apply Rmult_le_compat_r; [|exact HL]. destruct N as (_ & _ & _ & _ & _ & X). eapply Rle_trans; [apply Rabs_pos|apply (X b c i j Hb Hc Hi Hj)].
Qed.

Lemma driven_ext L M F G : (forall h u, twf u -> F h u = G h u) -> driven L M F -> driven L M G.
Proof.
  intros E (g & D1 & D2 & D3 & D4). exists g. split; [|split; [|split]].
  - intros h k u v er Tu Tv Sh C X. rewrite <- E in X by exact Tu. rewrite <- E by exact Tv. apply (D1 h k u v er); assumption.
  - intros h u u' T C X. rewrite <- E in X by exact T. apply (D2 h u u'); assumption.
  - intros h u u' T U C X. rewrite <- E in X by exact T. apply (D3 h u u'); assumption.
  - intros h e u v u' N C X. rewrite <- E in X by apply N. apply (D4 h e u v u'); assumption.
Qed.

(** Orbium and Geminium: equal growth functions. *)
Lemma same_driven o o' cfg k mu s : obj_inv o -> ext (o_core o) = 1%nat -> 0 < s -> get_kernel cfg = Ok k ->
  rule_of o o' default_id_kernel k [AMixture [(1, mu, s)] true] [AMixture [(1, mu, s)] true] (1 / 10) -> driven (4 / (3 * s)) 1 (cca_at (o_core o')).
Proof.
  intros Io E1 Hs Hk Rl. destruct (same_facts o o' cfg k mu s Io E1 Hs Hk Rl) as (P1 & P2 & Hm & C & Wi & Hn & Hw & X6 & X7 & Ee & X5). cbv zeta in *. set (c := o_core o') in *.
  assert (P : 0 <= 4 / (3 * s)) by (left; apply Rdiv_lt_0_compat; lra). pose proof (one_mixture_tame mu s Hs) as T. destruct (tame_lip 1 _ 1 _ Rle_0_1 T) as [G1 G2].
  pose proof (lenia_driven c 1 1 (4 / (3 * s)) 1 (1 / INR (ext c)) C Wi (kernel_within cfg k _ _ _ _ P1 P2 Hm Hk Hn) (init_weights_within _ _ _ _ P1 P2 Hw) P ltac:(lra)) as Q. rewrite X6 in Q. specialize (Q G1 G2).
  rewrite Ee in Q. change (INR 1) with 1 in Q. replace (1 / 1 * (4 / (3 * s) * 1)) with (4 / (3 * s)) in Q by (field; lra). replace (1 / 1 * 1) with 1 in Q by lra.
  eapply driven_ext; [|exact Q]. intros h u T'. unfold cca_at, lenia_at. symmetry. apply cca_eq_lenia; [apply set_core_dt_wf, C|exact T'|]. cbn [gens pers set_core_dt]. congruence.
Qed.

Lemma smooth_driven o o' ki k p p' : obj_inv o -> ext (o_core o) = 1%nat -> (1 <= p)%nat -> fitted p p' ki -> (exists r' p2, fitted r' p2 k) ->
  rule_of o o' ki k [ASmoothIntervals [(278 / 1000, 365 / 1000)] (28 / 1000) true] [ASmoothIntervals [(267 / 1000, 445 / 1000)] (147 / 1000) true] 1 -> driven 145 1 (cca_at (o_core o')).
Proof.
  intros Io E1 Hp Fi Fk Rl. destruct (smooth_facts o o' ki k p p' Io E1 Hp Fi Fk Rl) as (C & N1 & W1 & W2 & Wl & G1 & Q1 & G2 & Q2 & Ed).
  eapply driven_weaken; [| |apply (cca_driven_unit _ 1 143 1 1 C N1 W1 W2 Wl ltac:(lra) ltac:(lra) G1 Q1 G2 Q2)]; lra.
Qed.

Lemma rd_plain_driven s : rd_inv s -> rd_id s -> driven (Rmax (Rabs (rd_du s)) (Rabs (rd_dv s)) / rd_dx s ^ 2 + 3 + (Rabs (rd_f s) + Rabs (rd_k s)))
  (Rmax (Rabs (rd_du s)) (Rabs (rd_dv s)) / rd_dx s ^ 2 + 1 + Rabs (rd_f s) + (Rabs (rd_f s) + Rabs (rd_k s))) (rd_at s).
Proof.
  intros Hi Hd. pose proof (rd_inv_layers s Hi) as HL. destruct (ri_nbl s Hi) as (d & k & r & _ & Hk & S & W & _ & Hl). unfold rd_id in Hd.
  pose proof (rd_driven s 1 1 HL (proj1 (default_within 2 2 _ _ ltac:(lia) ltac:(lia) eq_refl Hd)) (kernel_within d k 2 2 _ _ ltac:(lia) ltac:(lia) eq_refl Hk Hl)) as Q.
  rewrite Rmult_1_r, pow1, !Rmult_1_r in Q. exact Q.
Qed.

(** ** Runs with changing steps *)
Lemma total_lsum hs : total hs = lsum hs.
Proof. induction hs as [|h hs IH]; [reflexivity|]. cbn [total]. rewrite IH. reflexivity. Qed.

Lemma code_run_steps fuel n : forall s u s' u', 0 <= cd_min s -> code_run fuel n s u = Ok (s', u') -> exists hs, run_steps (cca_at (cd_core s)) hs u = Ok u' /\ List.length hs = n /\
  Forall (fun h => cd_min s <= h <= cd_max s) hs /\ cd_time s' = cd_time s + total hs.
Proof.
  induction n as [|n IH]; intros s u s' u' Hm H; cbn [code_run] in H.
  - injection H as <- <-. exists []. cbn [run_steps total List.length]. repeat split; [constructor|ring].
  - apply bind_ok in H as ([s1 u1] & H1 & H). cbn [fst snd] in H. pose proof (code_forward_bounds _ _ _ _ _ Hm H1) as [Hb _]. pose proof (code_forward_spec _ _ _ _ _ H1) as (E1 & E2 & E3 & E4 & E5 & Eg).
    assert (Eg' : cca_forward (set_core_dt (cd_core s) (cd_prev s1)) u = Ok u1) by tauto. destruct (IH s1 u1 s' u' ltac:(lra) H) as (hs & R & Ln & B & T).
    exists (cd_prev s1 :: hs). split; [|split; [cbn [List.length]; congruence|split]].
    + cbn [run_steps]. unfold cca_at at 1. rewrite Eg'. cbn [bind]. rewrite E1 in R. exact R.
    + constructor; [exact Hb|]. rewrite E2, E3 in B. exact B || (rewrite E3, E2 in B; exact B).
    + cbn [total]. rewrite T. lra.
Qed.

Lemma rs_run_steps rands : forall s u s' u', rs_min s <= rs_max s -> Forall (fun r => 0 <= r < 1) rands -> rs_run s rands u = Ok (s', u') -> exists hs, run_steps (cca_at (rs_core s)) hs u = Ok u' /\
  List.length hs = List.length rands /\ Forall (fun h => rs_min s <= h <= rs_max s) hs /\ rs_time s' = rs_time s + total hs.
Proof.
  induction rands as [|r rs IH]; intros s u s' u' Hm Hr H; cbn [rs_run] in H.
  - injection H as <- <-. exists []. cbn [run_steps total List.length]. repeat split; [constructor|ring].
  - apply bind_ok in H as ([s1 u1] & H1 & H). cbn [fst snd] in H. inversion Hr as [|? ? R0 Hr']; subst. pose proof (rs_dt_range s r Hm R0) as Rd. apply rs_forward_spec in H1 as (E1 & E2 & E3 & E4 & E5 & _ & Eg).
    destruct (IH s1 u1 s' u' ltac:(lra) Hr' H) as (hs & R & Ln & B & T). exists (rs_dt_of s r :: hs). split; [|split; [cbn [List.length]; congruence|split]].
    + cbn [run_steps]. unfold cca_at at 1. rewrite Eg. cbn [bind]. rewrite E1 in R. exact R.
    + constructor; [exact Rd|]. rewrite E2, E3 in B. exact B.
    + cbn [total]. rewrite T. lra.
Qed.
