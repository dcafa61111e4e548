(** Universes that fade out (proofs). *)
From Coq Require Import Reals Lra Lia List Arith Bool.
From Verif Require Import Base Tensor MActivations MCommon MCca PTensor PStep PCca PDyn PCode PKernX SGrid SCca SLip PLip PLipX PLipY SFlow PFlow PFlowX PFlowY SFade.
Import ListNotations.
Open Scope R_scope.

Lemma convf_mono e n l u f g o i j : layer_wf e n l -> layer_ready e l u = true -> (o < n)%nat -> (i < tH u)%nat -> (j < tW u)%nat -> nonneg_layer l ->
  (forall c y x, (c < e)%nat -> (y < tH u)%nat -> (x < tW u)%nat -> f c y x <= g c y x) -> convf l (tH u) (tW u) f o i j <= convf l (tH u) (tW u) g o i j.
Proof.
  intros W Rd Ho Hi Hj N H. pose proof (convf_pos e n l u (fun c y x => g c y x - f c y x) o i j W Rd Ho Hi Hj N) as P. rewrite convf_minus in P.
  assert (0 <= convf l (tH u) (tW u) g o i j - convf l (tH u) (tW u) f o i j); [|lra]. apply P. intros c y x Hc Hy Hx. specialize (H c y x Hc Hy Hx). lra.
Qed.

Lemma thin_convf e n l u M b o i j : layer_wf e n l -> layer_ready e l u = true -> thin M l u -> (b < tB u)%nat -> (o < n)%nat -> (i < tH u)%nat -> (j < tW u)%nat ->
  convf l (tH u) (tW u) (get u b) o i j <= M.
Proof.
  intros W Rd T Hb Ho Hi Hj. pose proof (layer_apply_eq e n l u W) as E. rewrite Rd in E. specialize (T _ E). rewrite Forall_forall in T.
  rewrite <- (get_build (tB u) n (tH u) (tW u) (fun b o i j => convf l (tH u) (tW u) (get u b) o i j) b o i j) by assumption. apply T, get_in_data; auto. apply twf_build.
Qed.

Lemma thin_of e n l u M : layer_wf e n l ->
  (layer_ready e l u = true -> forall b o i j, (b < tB u)%nat -> (o < n)%nat -> (i < tH u)%nat -> (j < tW u)%nat -> convf l (tH u) (tW u) (get u b) o i j <= M) -> thin M l u.
Proof.
  intros W H nb E. rewrite (layer_apply_eq e n l u W) in E. destruct (layer_ready e l u); [|discriminate]. injection E as <-. specialize (H eq_refl).
  apply Forall_forall. intros x Hx. apply in_data_get in Hx as (b & o & i & j & Hb & Ho & Hi & Hj & ->); [|apply twf_build]. cbn [tB tC tH tW build] in *. rewrite get_build by assumption. auto.
Qed.

Lemma below_get M u b c i j : twf u -> below M u -> (b < tB u)%nat -> (c < tC u)%nat -> (i < tH u)%nat -> (j < tW u)%nat -> 0 <= get u b c i j <= M.
Proof. intros T H Hb Hc Hi Hj. unfold below in H. rewrite Forall_forall in H. apply H, get_in_data; auto. Qed.

Lemma below_of M u : twf u -> (forall b c i j, (b < tB u)%nat -> (c < tC u)%nat -> (i < tH u)%nat -> (j < tW u)%nat -> 0 <= get u b c i j <= M) -> below M u.
Proof. intros T H. apply Forall_forall. intros x Hx. apply in_data_get in Hx as (b & c & i & j & Hb & Hc & Hi & Hj & ->); auto. Qed.

(** Where no cell exceeds [M] no average of cells does. *)
Lemma below_thin e n l M u : layer_wf e n l -> layer_within 1 l -> twf u -> 0 <= M -> below M u -> thin M l u.
Proof.
  intros W Wn T HM B. apply (thin_of e n); auto. intros Rd b o i j Hb Ho Hi Hj. pose proof (layer_ready_inv _ _ _ Rd) as (Ec & _). eapply Rle_trans; [apply Rle_abs|]. eapply Rle_trans; [apply (convf_abs e n l u _ M); auto|].
  - intros c y x Hc Hy Hx. pose proof (below_get M u b c y x T B Hb ltac:(lia) Hy Hx). apply Rabs_le. lra.
  - rewrite <- (Rmult_1_l M) at 2. apply Rmult_le_compat_r; [exact HM|]. apply Wn. destruct W as (_ & _ & _ & _ & EB & _). lia.
Qed.

Lemma dimmed_trans a b u v w : 0 <= b -> dimmed a u v -> dimmed b v w -> dimmed (a + b) u w.
Proof.
  intros Hb (T1 & S1 & D1) (T2 & S2 & D2). split; [exact T2|]. split; [congruence|]. intros p c i j Hp Hc Hi Hj. unfold shape in S1. injection S1 as E1 E2 E3 E4.
  specialize (D1 p c i j Hp Hc Hi Hj). specialize (D2 p c i j ltac:(lia) ltac:(lia) ltac:(lia) ltac:(lia)). split; [lra|]. eapply Rle_trans; [apply D2|].
  apply Rmax_lub; [apply Rmax_l|]. destruct (Rle_dec 0 (get u p c i j - a)).
  - rewrite Rmax_right in D1 by assumption. eapply Rle_trans; [|apply Rmax_r]. lra.
  - rewrite Rmax_left in D1 by lra. eapply Rle_trans; [|apply Rmax_l]. lra.
Qed.

Lemma dimmed_refl u : twf u -> in_unit u -> dimmed 0 u u.
Proof.
  intros T U. split; [exact T|]. split; [reflexivity|]. intros b c i j Hb Hc Hi Hj. pose proof (below_get 1 u b c i j T U Hb Hc Hi Hj). split; [lra|]. eapply Rle_trans; [|apply Rmax_r]. lra.
Qed.

Lemma dimmed_weaken d d' u v : d' <= d -> dimmed d u v -> dimmed d' u v.
Proof. intros H (T & S & D). split; [exact T|]. split; [exact S|]. intros b c i j Hb Hc Hi Hj. specialize (D b c i j Hb Hc Hi Hj). split; [lra|]. eapply Rle_trans; [apply D|]. apply Rle_max_compat_l. lra. Qed.

Lemma dimmed_below d M u v : twf u -> below M u -> dimmed d u v -> below (Rmax 0 (M - d)) v.
Proof.
  intros T B (T' & S & D). apply below_of; [exact T'|]. unfold shape in S. injection S as E1 E2 E3 E4. rewrite E1, E2, E3, E4. intros b c i j Hb Hc Hi Hj. specialize (D b c i j Hb Hc Hi Hj). split; [lra|].
  eapply Rle_trans; [apply D|]. apply Rle_max_compat_l. pose proof (below_get M u b c i j T B Hb Hc Hi Hj). lra.
Qed.

Lemma below_blank M u : M <= 0 -> below M u -> blank u.
Proof. intros H. apply Forall_impl. intros x Hx. lra. Qed.

Lemma dimmed_blank d M u v : twf u -> below M u -> M <= d -> dimmed d u v -> blank v.
Proof. intros T B H D. apply (below_blank (Rmax 0 (M - d))); [apply Rmax_lub; lra|]. eapply dimmed_below; eassumption. Qed.

Lemma dimmed_unit d u v : 0 <= d -> twf u -> in_unit u -> dimmed d u v -> in_unit v.
Proof.
  intros Hd T U D. pose proof (dimmed_below d 1 u v T U D) as B. revert B. apply Forall_impl. intros x [X1 X2]. split; [exact X1|]. eapply Rle_trans; [exact X2|]. apply Rmax_lub; lra.
Qed.

Section Fade.
  Variables (e n : nat) (msk : tensor -> res tensor) (mfn : nat -> (nat -> R) -> nat -> R).
  Variables (idl nbl : conv_layer) (upd : tensor -> tensor -> res tensor) (chk : res unit).
  Variables (ufn : (nat -> R) -> (nat -> R) -> nat -> R) (Pv : R -> Prop) (M d : R).
  Hypothesis Hmask : cell_mask msk mfn.
  Hypothesis Hdown : forall C v c, 0 <= v c -> 0 <= mfn C v c <= v c.
  Hypothesis Hid : layer_wf e n idl.
  Hypothesis Hnb : layer_wf e n nbl.
  Hypothesis Hupd : pointwise e n upd chk ufn.
  Hypothesis Pid : conv_into Pv e n idl.
  Hypothesis Nnb : nonneg_layer nbl.
  Hypothesis Hd : 0 <= d.
  Hypothesis Hsink : chk = Ok tt -> forall v w, (forall k, (k < n)%nat -> Pv (v k)) -> (forall k, (k < n)%nat -> 0 <= w k <= M) -> forall o, (o < e)%nat -> ufn v w o <= - d.

  Lemma step_parts h u u' : twf u -> ca_forward msk idl nbl upd h u = Ok u' ->
    chk = Ok tt /\ layer_ready e idl u = true /\ layer_ready e nbl u = true /\ tC u = e /\ u' = build (tB u) e (tH u) (tW u) (step_val mfn idl nbl ufn h u).
  Proof.
    intros T E. rewrite (ca_forward_nf e n msk mfn idl nbl upd chk ufn h Hmask Hid Hnb Hupd u T) in E. destruct (step_ready e idl nbl u) eqn:R; [|discriminate]. unfold step_ready in R. apply andb_true_iff in R as [R1 R2].
    destruct chk as [[]|]; [|discriminate]. cbn [bind] in E. injection E as <-. pose proof (layer_ready_inv _ _ _ R1) as (Ec & _). auto.
  Qed.

  Lemma fade_step h u u' : 0 <= h -> twf u -> in_unit u -> thin M nbl u -> ca_forward msk idl nbl upd h u = Ok u' -> dimmed (h * d) u u' /\ thin M nbl u'.
  Proof.
    intros Hh T U Th E. destruct (step_parts h u u' T E) as (Ck & R1 & R2 & Ec & Eu).
    assert (Mv : forall b c i j, (b < tB u)%nat -> (c < e)%nat -> (i < tH u)%nat -> (j < tW u)%nat -> 0 <= mval mfn u b c i j <= get u b c i j).
    { intros b c i j Hb Hc Hi Hj. unfold mval. apply (Hdown (tC u) (fun k => get u b k i j) c). pose proof (below_get 1 u b c i j T U Hb ltac:(lia) Hi Hj). lra. }
    assert (D : dimmed (h * d) u u').
    { subst u'. split; [apply twf_build|]. split; [unfold shape; cbn [tB tC tH tW build]; congruence|]. intros b c i j Hb Hc Hi Hj. rewrite Ec in Hc. rewrite get_build by assumption. unfold step_val.
      set (z := ufn _ _ c). assert (Z : z <= - d).
      { unfold z. apply Hsink; auto.
        - intros k Hk. apply Pid; auto. intros c' y x Hc' Hy Hx. pose proof (Mv b c' y x Hb Hc' Hy Hx). pose proof (below_get 1 u b c' y x T U Hb ltac:(lia) Hy Hx). lra.
        - intros k Hk. split.
          + apply (convf_pos e n); auto. intros c' y x Hc' Hy Hx. apply (Mv b c' y x); auto.
          + eapply Rle_trans; [apply (convf_mono e n nbl u _ (get u b)); auto; intros c' y x Hc' Hy Hx; apply Mv; auto|]. apply (thin_convf e n); auto. }
      clearbody z. pose proof (Mv b c i j Hb Hc Hi Hj) as Mb. split; [apply clamp_range; lra|]. unfold clamp. eapply Rle_trans; [apply Rmin_l|]. rewrite Rmax_comm. apply Rle_max_compat_l.
      assert (h * z <= h * - d) by (apply Rmult_le_compat_l; lra). lra. }
    split; [exact D|]. destruct D as (T' & S & D). pose proof (layer_ready_shape e nbl u' u S) as Rs. unfold shape in S. injection S as E1 E2 E3 E4.
    apply (thin_of e n); auto. intros Rd b o i j Hb Ho Hi Hj. rewrite Rs in Rd. rewrite E1 in Hb. rewrite E3 in Hi. rewrite E4 in Hj. rewrite E3, E4. eapply Rle_trans; [apply (convf_mono e n nbl u _ (get u b)); auto|apply (thin_convf e n); auto].
    intros c y x Hc Hy Hx. eapply Rle_trans; [apply D; auto; lia|]. pose proof (below_get 1 u b c y x T U Hb ltac:(lia) Hy Hx). assert (0 <= h * d) by (apply Rmult_le_pos; assumption). apply Rmax_lub; lra.
  Qed.

  Lemma fade_steps hs : forall u u', Forall (fun h => 0 <= h) hs -> twf u -> in_unit u -> thin M nbl u -> run_steps (fun h => ca_forward msk idl nbl upd h) hs u = Ok u' -> dimmed (total hs * d) u u' /\ thin M nbl u'.
  Proof.
    induction hs as [|h hs IH]; intros u u' Hs T U Th E; cbn [run_steps total] in *.
    - injection E as <-. rewrite Rmult_0_l. auto using dimmed_refl.
    - apply bind_ok in E as (v & E1 & E2). inversion Hs as [|? ? Hh Hs']; subst. destruct (fade_step h u v Hh T U Th E1) as [D1 T1]. assert (P : 0 <= h * d) by (apply Rmult_le_pos; assumption).
      destruct (IH v u' Hs' ltac:(apply D1) (dimmed_unit _ _ _ P T U D1) T1 E2) as [D2 T2]. split; [|exact T2]. rewrite Rmult_plus_distr_r. eapply dimmed_trans; eauto. apply Rmult_le_pos; [|assumption].
      clear - Hs'. induction Hs'; cbn [total]; lra.
  Qed.
End Fade.

Lemma iter_steps (F : R -> tensor -> res tensor) h n : forall u, iter_res (F h) n u = run_steps F (repeat h n) u.
Proof. induction n as [|n IH]; intros u; cbn [iter_res repeat run_steps]; [reflexivity|]. destruct (F h u); cbn [bind]; auto. Qed.

Lemma total_repeat h n : total (repeat h n) = INR n * h.
Proof. induction n as [|n IH]; cbn [repeat total]; [cbn; ring|]. rewrite IH, S_INR. ring. Qed.

Lemma repeat_pos h n : 0 <= h -> Forall (fun h => 0 <= h) (repeat h n).
Proof. intros H. induction n; constructor; auto. Qed.

Lemma mask_down th C v c : 0 <= v c -> 0 <= mask_fn th C v c <= v c.
Proof. intros H. unfold mask_fn. destruct (Nat.leb 4 C); [|lra]. destruct (Rlt_dec _ _); lra. Qed.

Lemma mean_sinks e n m w v c o : (0 < e)%nat -> (0 < n)%nat -> init_weights e n m = Ok w -> (o < e)%nat -> (forall k, (k < n)%nat -> v k <= - c) -> wl_fn w v o <= - (c / INR e).
Proof.
  intros He Hn Hw Ho Hv. rewrite (init_weights_fn e n m w v o He Hn Hw Ho). assert (P1 : 0 < INR e) by (apply lt_0_INR; exact He). assert (P2 : 0 < INR n) by (apply lt_0_INR; exact Hn).
  replace (- (c / INR e)) with (INR n * - c / (INR e * INR n)) by (field; lra). unfold Rdiv. apply Rmult_le_compat_r; [left; apply Rinv_0_lt_compat, Rmult_lt_0_compat; assumption|].
  rewrite <- (rsum_const n (- c)). apply rsum_le. exact Hv.
Qed.

Lemma nth_sinking c k fns M d : fns_chk (int_ c) fns = Ok tt -> sinking M d fns -> (k < int_ c)%nat -> forall x, 0 <= x <= M -> act_fn (nth k fns AIdentity) x <= - d.
Proof.
  intros C H Hk. apply H, nth_In. unfold fns_chk in C. apply bind_ok in C as (x & C & _). apply guard_ok in C. apply Nat.eqb_eq in C. lia.
Qed.

Lemma cca_pos c : cca_wf c -> (0 < ext c)%nat /\ (0 < int_ c)%nat.
Proof. intros ((_ & _ & A & B & _) & _). auto. Qed.

Lemma cca_fades c M d hs u u' : cca_wf c -> nonneg_layer (idl c) -> layer_within 1 (idl c) -> nonneg_layer (nbl c) -> init_weights (ext c) (int_ c) (pm c) = Ok (wl c) ->
  0 <= d -> sinking M d (gens c) -> sinking M d (pers c) -> Forall (fun h => 0 <= h) hs -> twf u -> in_unit u -> thin M (nbl c) u ->
  run_steps (cca_at c) hs u = Ok u' -> dimmed (total hs * (d / INR (ext c))) u u' /\ thin M (nbl c) u'.
Proof.
  intros Hc Ni Wi Nn Hw Hd Sg Sp Hs T U Th E. pose proof Hc as (H1 & H2 & H3). destruct (cca_pos c Hc) as [Pe Pn]. assert (0 < INR (ext c)) by (apply lt_0_INR; exact Pe).
  eapply (fade_steps (ext c) (int_ c) (mask_if (thr c)) (mask_fn (thr c)) (idl c) (nbl c) (update_universe c) (cca_chk c) (cca_ufn c) (fun x => 0 <= x <= 1) M (d / INR (ext c))); eauto using mask_if_cell, update_universe_pointwise, into_unit, mask_down.
  - unfold Rdiv. apply Rmult_le_pos; [assumption|left; apply Rinv_0_lt_compat; assumption].
  - intros CK v w Hv Hw' o Ho. apply cca_chk_parts in CK as [C1 C2]. unfold cca_ufn. apply (mean_sinks (ext c) (int_ c) (pm c)); auto. intros k Hk. specialize (Hv k Hk). cbv beta in Hv. specialize (Hw' k Hk). unfold gen_at, per_at.
    pose proof (nth_sinking c k _ M d C1 Sg Hk _ Hw') as G. pose proof (nth_sinking c k _ M d C2 Sp Hk _ Hw') as P.
    match goal with |- (1 - ?a) * ?g + ?a * ?p <= _ => assert ((1 - a) * g <= (1 - a) * - d) by (apply Rmult_le_compat_l; lra); assert (a * p <= a * - d) by (apply Rmult_le_compat_l; lra) end. lra.
Qed.

Lemma any_into e n l : conv_into (fun _ => True) e n l.
Proof. intros u f o i j _ _ _ _ _. exact I. Qed.

Lemma lenia_fades c M d hs u u' : cca_wf c -> nonneg_layer (nbl c) -> init_weights (ext c) (int_ c) (pm c) = Ok (wl c) ->
  0 <= d -> sinking M d (gens c) -> Forall (fun h => 0 <= h) hs -> twf u -> in_unit u -> thin M (nbl c) u ->
  run_steps (lenia_at c) hs u = Ok u' -> dimmed (total hs * (d / INR (ext c))) u u' /\ thin M (nbl c) u'.
Proof.
  intros Hc Nn Hw Hd Sg Hs T U Th E. pose proof Hc as (H1 & H2 & H3). destruct (cca_pos c Hc) as [Pe Pn]. assert (0 < INR (ext c)) by (apply lt_0_INR; exact Pe).
  eapply (fade_steps (ext c) (int_ c) (mask_if (thr c)) (mask_fn (thr c)) (idl c) (nbl c) (lenia_update c) (fns_chk (int_ c) (gens c)) (lenia_ufn c) (fun _ => True) M (d / INR (ext c))); eauto using mask_if_cell, lenia_update_pointwise, any_into, mask_down.
  - unfold Rdiv. apply Rmult_le_pos; [assumption|left; apply Rinv_0_lt_compat; assumption].
  - intros CK v w _ Hw' o Ho. unfold lenia_ufn. apply (mean_sinks (ext c) (int_ c) (pm c)); auto. intros k Hk. specialize (Hw' k Hk). unfold gen_at. apply (nth_sinking c k _ M d CK Sg Hk _ Hw').
Qed.

(** The limit of ever smaller steps fades at the same rate. *)
Lemma flow_fades (F : R -> tensor -> res tensor) d u w t : (forall n v, iter_res (F (t / INR n)) n u = Ok v -> (0 < n)%nat -> dimmed (t * d) u v) -> flows F t u w -> dimmed (t * d) u w.
Proof.
  intros H Fl. assert (A : forall eps, 0 < eps -> exists v, dimmed (t * d) u v /\ near eps v w).
  { intros eps He. destruct (Fl eps He) as (N & HN). destruct (HN (N + 1)%nat ltac:(lia) ltac:(lia)) as (v & E & Nr). exists v. split; [|exact Nr]. eapply H; [exact E|lia]. }
  destruct (A 1 ltac:(lra)) as (v & (Tv & Sv & _) & (_ & Tw & Sw & _)). split; [exact Tw|]. split; [congruence|]. intros b c i j Hb Hc Hi Hj.
  assert (B : forall eps, 0 < eps -> - eps <= get w b c i j <= Rmax 0 (get u b c i j - t * d) + eps).
  { intros eps He. destruct (A eps He) as (v' & (Tv' & Sv' & D) & (_ & _ & _ & _ & _ & Nr)). specialize (D b c i j Hb Hc Hi Hj). unfold shape in Sv'. injection Sv' as E1 E2 E3 E4. specialize (Nr b c i j ltac:(lia) ltac:(lia) ltac:(lia) ltac:(lia)).
    unfold Rabs in Nr. destruct (Rcase_abs _) in Nr; lra. }
  split.
  - apply Rnot_lt_le. intros X. specialize (B (- get w b c i j / 2) ltac:(lra)). lra.
  - apply Rnot_lt_le. intros X. specialize (B ((get w b c i j - Rmax 0 (get u b c i j - t * d)) / 2) ltac:(lra)). lra.
Qed.

(** ** Growth functions *)
Lemma gauss_low mu s z x : 0 < eps9 + s -> 0 <= z -> x <= mu - z * (eps9 + s) -> gauss mu s x <= exp (- (z ^ 2 / 2)).
Proof.
  intros Hs Hz Hx. unfold gauss. assert (Q : z ^ 2 <= ((x - mu) / (eps9 + s)) ^ 2).
  { replace (((x - mu) / (eps9 + s)) ^ 2) with (((mu - x) / (eps9 + s)) ^ 2) by (field; lra). apply pow_incr. split; [exact Hz|]. apply (Rmult_le_reg_r (eps9 + s)); [exact Hs|]. unfold Rdiv. rewrite Rmult_assoc, Rinv_l by lra. lra. }
  set (q := ((x - mu) / (eps9 + s)) ^ 2) in *. destruct (Req_dec (z ^ 2) q) as [->|N]; [right; f_equal; field|]. left. apply exp_increasing. lra.
Qed.

Lemma mixture_low z x gs : 0 <= z -> Forall (fun g => 0 < eps9 + snd g /\ x <= snd (fst g) - z * (eps9 + snd g)) gs ->
  mixture_sum gs x <= fold_right (fun g t => Rabs (fst (fst g)) + t) 0 gs * exp (- (z ^ 2 / 2)).
Proof.
  intros Hz H. assert (One : forall a m s, 0 < eps9 + s /\ x <= m - z * (eps9 + s) -> a * gauss m s x <= Rabs a * exp (- (z ^ 2 / 2))).
  { intros a m s [P Q]. pose proof (gauss_low m s z x P Hz Q) as G. assert (0 <= gauss m s x) by (left; apply exp_pos). apply Rle_trans with (Rabs a * gauss m s x); [apply Rmult_le_compat_r; [assumption|apply Rle_abs]|apply Rmult_le_compat_l; [apply Rabs_pos|exact G]]. }
  assert (All : forall gs r, Forall (fun g => 0 < eps9 + snd g /\ x <= snd (fst g) - z * (eps9 + snd g)) gs ->
    fold_left (fun (result : R) (g : R * R * R) => let '(a, m, s) := g in result + a * gauss m s x) gs r <= r + fold_right (fun g t => Rabs (fst (fst g)) + t) 0 gs * exp (- (z ^ 2 / 2))).
  { intros l. induction l as [|[[a m] s] l IH]; intros r F; cbn [fold_left fold_right]; [lra|]. inversion F as [|? ? F1 F2]; subst. cbn [fst snd] in *. eapply Rle_trans; [apply IH; exact F2|]. pose proof (One a m s F1). lra. }
  destruct gs as [|[[a m] s] gs]; cbn [mixture_sum fold_right]; [lra|]. inversion H as [|? ? F1 F2]; subst. eapply Rle_trans; [apply All; exact F2|]. cbn [fst snd] in *. pose proof (One a m s F1). lra.
Qed.

(** The level [- (1 - 2 A)] where the sum of the bumps is at most [A]. *)
Lemma gaussian_sinks mu s z M : 0 < eps9 + s -> 0 <= z -> M <= mu - z * (eps9 + s) -> sinking M (1 - 2 * exp (- (z ^ 2 / 2))) [AGaussian mu s true].
Proof. intros Hs Hz HM a [<-|[]] x Hx. cbn [act_fn]. pose proof (gauss_low mu s z x Hs Hz ltac:(lra)). lra. Qed.

Lemma mixture_sinks gs z M : 0 <= z -> Forall (fun g => 0 < eps9 + snd g /\ M <= snd (fst g) - z * (eps9 + snd g)) gs ->
  sinking M (1 - 2 * (fold_right (fun g t => Rabs (fst (fst g)) + t) 0 gs * exp (- (z ^ 2 / 2)))) [AMixture gs true].
Proof.
  intros Hz HM a [<-|[]] x Hx. cbn [act_fn]. assert (F : Forall (fun g => 0 < eps9 + snd g /\ x <= snd (fst g) - z * (eps9 + snd g)) gs) by (eapply Forall_impl; [|exact HM]; cbv beta; intros g [A B]; split; lra).
  pose proof (mixture_low z x gs Hz F) as Q. assert (0 <= fold_right (fun g t => Rabs (fst (fst g)) + t) 0 gs) by (clear; induction gs as [|g gs IH]; cbn [fold_right]; [lra|]; pose proof (Rabs_pos (fst (fst g))); lra).
  assert (P : 0 <= fold_right (fun g t => Rabs (fst (fst g)) + t) 0 gs * exp (- (z ^ 2 / 2))) by (apply Rmult_le_pos; [assumption|left; apply exp_pos]).
  unfold clamp. eapply Rle_trans; [apply Rmin_l|]. apply Rmax_lub; lra.
Qed.

Lemma sigmoid_low x mu al z : 0 < al -> x <= mu - z * al -> 0 <= sigmoid_1 x mu al <= / (1 + exp (4 * z)).
Proof.
  intros Ha Hx. unfold sigmoid_1. pose proof (exp_pos (- 4 * (x - mu) / al)) as P. pose proof (exp_pos (4 * z)) as P2. assert (E : exp (4 * z) <= exp (- 4 * (x - mu) / al)).
  { assert (Q : 4 * z <= - 4 * (x - mu) / al). { apply (Rmult_le_reg_r al); [exact Ha|]. unfold Rdiv. rewrite (Rmult_assoc _ (/ al)), Rinv_l by lra. lra. } destruct (Req_dec (4 * z) (- 4 * (x - mu) / al)) as [->|N]; [lra|]. left. apply exp_increasing. lra. }
  unfold Rdiv at 1. split; [rewrite Rmult_1_l; left; apply Rinv_0_lt_compat; lra|]. unfold Rdiv. rewrite Rmult_1_l. apply Rinv_le_contravar; [lra|]. unfold Rdiv in E. lra.
Qed.

Lemma sigmoid_range x mu al : 0 <= sigmoid_1 x mu al <= 1.
Proof.
  unfold sigmoid_1. pose proof (exp_pos (- 4 * (x - mu) / al)) as P. set (q := exp _) in *. assert (A : / (1 + q) <= / 1) by (apply Rinv_le_contravar; lra). rewrite Rinv_1 in A. unfold Rdiv. rewrite Rmult_1_l. split; [left; apply Rinv_0_lt_compat; lra|exact A].
Qed.

Lemma intervals_sink ivs al z M : 0 < al -> Forall (fun b => M <= fst b - z * al) ivs -> sinking M (1 - 2 * (INR (List.length ivs) / (1 + exp (4 * z)))) [ASmoothIntervals ivs al true].
Proof.
  intros Ha HM a [<-|[]] x Hx. cbn [act_fn]. unfold interval_sum.
  assert (All : forall l r, Forall (fun b => M <= fst b - z * al) l -> fold_left (fun result bounds => result + sigmoid_1 x (fst bounds) al * (1 - sigmoid_1 x (snd bounds) al)) l r <= r + INR (List.length l) / (1 + exp (4 * z))).
  { intros l. induction l as [|b l IH]; intros r F; cbn [fold_left]; [cbn [List.length INR]; lra|]. inversion F as [|? ? F1 F2]; subst. eapply Rle_trans; [apply IH; exact F2|]. cbn [List.length]. rewrite S_INR.
    pose proof (sigmoid_low x (fst b) al z Ha ltac:(lra)) as [S1 S2]. pose proof (sigmoid_range x (snd b) al). assert (sigmoid_1 x (fst b) al * (1 - sigmoid_1 x (snd b) al) <= / (1 + exp (4 * z)) * 1) by (apply Rmult_le_compat; lra). lra. }
  specialize (All ivs 0 HM). lra.
Qed.
