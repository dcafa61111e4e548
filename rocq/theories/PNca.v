(** Proofs about neural cellular automata. *)
From Coq Require Import Reals Lra Lia List Arith Bool ZArith String.
From Verif Require Import Base PyDict Tensor MActivations MKernels MCommon MCca MRd MNca SGrid SCca SNca PTensor PStep PCca PSym PDyn PEqv SKern PAct PKern PKernX PRd.
Import ListNotations.
Open Scope R_scope.

Lemma weight_pt m o i w : weight o i w -> pt_layer i o (pt_conv m w).
Proof.
  intros (Hw & S & Ho & Hi). apply shape_inv in S as (S1 & S2 & S3 & S4).
  split; [|split; reflexivity]. unfold layer_wf, groups_ok, pt_conv. cbn [cl_w cl_g cl_p].
  split; [split; [lia|exists o; lia]|]. split; [exact Hw|]. repeat split; lia.
Qed.

Lemma pt_conv_apply m o i w t : weight o i w -> tC t = i -> (0 < tH t)%nat -> (0 < tW t)%nat ->
  conv_apply (pt_conv m w) t = Ok (build (tB t) o (tH t) (tW t) (fun b k y x => mat_vec w (fun c => get t b c y x) k)).
Proof. intros Hw Hc H0 W0. exact (pt_apply i o (pt_conv m w) t (weight_pt m o i w Hw) Hc H0 W0). Qed.

Lemma pt_conv_bad m o i w t : weight o i w -> tC t <> i -> conv_apply (pt_conv m w) t = Err RuntimeError.
Proof.
  intros Hw Hc. destruct (weight_pt m o i w Hw) as (Hl & _). rewrite (layer_apply_eq i o _ t Hl).
  unfold layer_ready. destruct (Nat.eqb_spec (tC t) i); [contradiction|reflexivity].
Qed.

Lemma mat_vec_ext o i w v v' k : weight o i w -> (forall c, (c < i)%nat -> v c = v' c) -> mat_vec w v k = mat_vec w v' k.
Proof.
  intros (_ & S & _) Hv. apply shape_inv in S as (_ & S2 & _). unfold mat_vec. apply rsum_ext. intros c Hc. rewrite Hv by lia. reflexivity.
Qed.

Definition nca_chk (s : nca) : res unit :=
  let* _ := guard (Nat.eqb (nc_int s) (nc_ext s)) RuntimeError in
  let* _ := act_ok (nc_a1 s) in act_ok (nc_a2 s).

(** Closed form of the update, with and without dropout. *)
Lemma nca_update_eq tr keep s idn nb : nca_wf s -> twf idn -> twf nb -> shape idn = shape nb -> tC idn = nc_int s ->
  (0 < tH idn)%nat -> (0 < tW idn)%nat ->
  nca_update tr keep s idn nb = let* _ := nca_chk s in
    Ok (build (tB idn) (nc_ext s) (tH idn) (tW idn) (fun b k i j =>
          network s (fun k1 => drop_factor tr (keep b k1 i j) (nc_drop s))
            (fun c => get idn b c i j) (fun c => get nb b c i j) k)).
Proof.
  intros (Hi & Hn & W1 & W2 & W3) Ti Tn Hs Hc H0 W0. injection Hs as S1 S2 S3 S4.
  unfold nca_update, tcat, nca_chk. rewrite <- S1, <- S3, <- S4, !Nat.eqb_refl. cbn [guard bind andb].
  set (x := build _ _ _ _ _).
  assert (Cx : tC x = (nc_int s + nc_int s)%nat) by (unfold x; cbn [tC build]; congruence).
  destruct (Nat.eqb_spec (nc_int s) (nc_ext s)) as [E|E].
  2:{ cbn [guard bind]. rewrite (pt_conv_bad _ _ _ _ x W1) by lia. reflexivity. }
  cbn [guard bind].
  rewrite (pt_conv_apply _ _ _ _ x W1) by (auto; lia). cbn [bind]. unfold act_apply.
  destruct (act_ok (nc_a1 s)) as [[]|]; [|reflexivity]. cbn [bind]. rewrite tmap_build.
  change (tB x) with (tB idn). change (tH x) with (tH idn). change (tW x) with (tW idn).
  set (h := build (tB idn) (nc_hid s) (tH idn) (tW idn) _).
  assert (Hd : dropout tr keep (nc_drop s) h = build (tB idn) (nc_hid s) (tH idn) (tW idn) (fun b k i j =>
     drop_factor tr (keep b k i j) (nc_drop s) * get h b k i j)).
  { unfold dropout, drop_factor. destruct tr.
    - cbn [tB tC tH tW build h]. apply build_ext. intros b k i j Hb Hk Hi' Hj.
      destruct (Req_EM_T (nc_drop s) 1); [ring|]. destruct (keep b k i j); ring.
    - rewrite <- (build_get h (twf_build _ _ _ _ _)) at 1. cbn [tB tC tH tW build h]. fold h.
      apply build_ext. intros. ring. }
  rewrite Hd. clear Hd.
  rewrite (pt_conv_apply _ _ _ _ _ W2) by (auto; reflexivity). cbn [bind tB tH tW build].
  destruct (act_ok (nc_a2 s)) as [[]|]; [|reflexivity]. cbn [bind]. rewrite tmap_build.
  rewrite (pt_conv_apply _ _ _ _ _ W3) by (auto; reflexivity). cbn [bind tB tH tW build act_ok]. rewrite tmap_build.
  f_equal. apply build_ext. intros b k i j Hb Hk Hi' Hj. cbn [act_fn]. unfold network. f_equal.
  apply (mat_vec_ext _ _ _ _ _ _ W3). intros k2 Hk2. cbv beta. rewrite get_build by auto. f_equal.
  apply (mat_vec_ext _ _ _ _ _ _ W2). intros k1 Hk1. cbv beta. rewrite get_build by auto. f_equal.
  unfold h. rewrite get_build by auto. f_equal.
  apply (mat_vec_ext _ _ _ _ _ _ W1). intros c Hcc. unfold x. rewrite get_build by (auto; lia). rewrite Hc. reflexivity.
Qed.

Definition nca_ufn (s : nca) (v w : nat -> R) (k : nat) : R :=
  if Nat.eqb (nc_int s) (nc_ext s) then network s (fun _ => 1) v w k else 0.

Lemma nca_eval_pointwise keep s : nca_wf s ->
  pointwise (nc_ext s) (nc_int s) (nca_update false keep s) (nca_chk s) (nca_ufn s).
Proof.
  intros Hw. split.
  - intros idn nb W1 W2 Hs Hc H0 W0. rewrite nca_update_eq by auto. unfold nca_chk, nca_ufn.
    destruct (Nat.eqb (nc_int s) (nc_ext s)); reflexivity.
  - intros v v' w w' k Hk Hv Hw'. unfold nca_ufn. destruct (Nat.eqb_spec (nc_int s) (nc_ext s)) as [E|]; [|reflexivity].
    unfold network. f_equal. destruct Hw as (_ & _ & W1 & W2 & W3).
    apply (mat_vec_ext _ _ _ _ _ _ W3). intros k2 Hk2. f_equal.
    apply (mat_vec_ext _ _ _ _ _ _ W2). intros k1 Hk1. f_equal. f_equal.
    apply (mat_vec_ext _ _ _ _ _ _ W1). intros c Hc. 
    destruct (Nat.ltb_spec c (nc_int s)); [apply Hv; auto|]. apply Hw'. lia.
Qed.

(** ** Range and size of an update *)
Lemma tanh_bound x : -1 <= tanh x <= 1.
Proof.
  unfold tanh, sinh, cosh. pose proof (exp_pos x). pose proof (exp_pos (- x)).
  set (a := exp x) in *. set (b := exp (- x)) in *.
  replace ((a - b) / 2 / ((a + b) / 2)) with ((a - b) / (a + b)) by (field; lra).
  split; apply Rmult_le_reg_r with (a + b); try lra;
    replace ((a - b) / (a + b) * (a + b)) with (a - b) by (field; lra); lra.
Qed.

Lemma nca_update_range tr keep s idn nb d : nca_update tr keep s idn nb = Ok d -> Forall (fun x => -1 <= x <= 1) (tdata d).
Proof.
  unfold nca_update. intros H. apply bind_ok in H as (x & _ & H). apply bind_ok in H as (h1 & _ & H).
  apply bind_ok in H as (a1 & _ & H). apply bind_ok in H as (h2 & _ & H). apply bind_ok in H as (a2 & _ & H).
  apply bind_ok in H as (h3 & _ & H). unfold act_apply in H. cbn [act_ok bind] in H. apply Ok_inj in H. subst d.
  apply Forall_forall. intros y Hy. cbn [tdata tmap] in Hy. apply in_map_iff in Hy as (z & <- & _). cbn [act_fn]. apply tanh_bound.
Qed.

Lemma euler_get dt u d u' b c i j : euler dt u d = Ok u' -> twf d -> shape u = shape d ->
  (b < tB u)%nat -> (c < tC u)%nat -> (i < tH u)%nat -> (j < tW u)%nat ->
  get u' b c i j = clamp 0 1 (get u b c i j + dt * get d b c i j) /\ shape u' = shape u /\ twf u'.
Proof.
  intros H Hd Hs Hb Hc Hi Hj. unfold euler in H. rewrite (tmap_eq_build _ d Hd) in H.
  rewrite tzip_same in H by (rewrite Hs; reflexivity). cbn [bind] in H. apply Ok_inj in H. subst u'. rewrite tmap_build.
  split; [|split; [reflexivity|apply twf_build]].
  apply shape_inv in Hs as (S1 & S2 & S3 & S4). rewrite !get_build by (auto; congruence). reflexivity.
Qed.

Lemma nca_update_shape tr keep s u d : nca_wf s -> twf u ->
  ca_update (nc_idl s) (nc_nbl s) (nca_update tr keep s) u = Ok d ->
  shape d = shape u /\ twf d /\ nc_int s = nc_ext s /\ tC u = nc_ext s.
Proof.
  intros Hw Hu H. pose proof Hw as (L1 & L2 & _). unfold ca_update in H.
  rewrite (layer_apply_eq _ _ _ u L1), (layer_apply_eq _ _ _ u L2) in H.
  destruct (layer_ready (nc_ext s) (nc_idl s) u) eqn:R1; [|discriminate].
  destruct (layer_ready (nc_ext s) (nc_nbl s) u) eqn:R2; [|discriminate]. cbn [bind] in H.
  apply layer_ready_inv in R1 as (Ec & H0 & W0 & _).
  rewrite nca_update_eq in H; auto using twf_build. unfold nca_chk in H.
  destruct (Nat.eqb_spec (nc_int s) (nc_ext s)) as [E|]; [|discriminate]. cbn [guard bind] in H.
  apply bind_ok in H as (x & _ & H). apply Ok_inj in H. subst d.
  split; [unfold shape; cbn [tB tC tH tW build]; congruence|]. split; [apply twf_build|auto].
Qed.

Lemma clamp_step x y : 0 <= x <= 1 -> Rabs (clamp 0 1 (x + y) - x) <= Rabs y.
Proof.
  intros Hx. rewrite <- (clamp_id 0 1 x Hx) at 2. eapply Rle_trans; [apply clamp_lip|].
  replace (x + y - x) with y by ring. lra.
Qed.

Lemma zero_dead_unit th u : twf u -> in_unit u -> in_unit (zero_dead th u) /\ twf (zero_dead th u) /\ shape (zero_dead th u) = shape u.
Proof.
  intros Hu Hin. unfold zero_dead. destruct (Nat.leb 4 (tC u)); [|auto].
  split; [|split; [apply twf_build|reflexivity]]. apply Forall_forall. intros x Hx.
  destruct (in_data_get _ x (twf_build _ _ _ _ _) Hx) as (b & c & i & j & Hb & Hc & Hi & Hj & ->).
  cbn [tB tC tH tW build] in Hb, Hc, Hi, Hj. rewrite get_build by auto.
  destruct (Rlt_dec th (get u b 3 i j)); [|lra]. unfold in_unit in Hin. rewrite Forall_forall in Hin. apply Hin. apply get_in_data; auto.
Qed.

Lemma nca_step_bound tr keep s u u' b c i j : nca_wf s -> twf u -> in_unit u -> nca_forward tr keep s u = Ok u' ->
  (b < tB u)%nat -> (c < tC u)%nat -> (i < tH u)%nat -> (j < tW u)%nat ->
  Rabs (get u' b c i j - get (zero_dead (nc_thr s) u) b c i j) <= Rabs (nc_dt s).
Proof.
  intros Hw Hu Hin H Hb Hc Hi Hj. unfold nca_forward, ca_forward in H. rewrite mask_if_zero_dead in H by auto. cbn [bind] in H.
  destruct (zero_dead_unit (nc_thr s) u Hu Hin) as (Zi & Zw & Zs). set (m := zero_dead (nc_thr s) u) in *.
  apply bind_ok in H as (d & Hd & H). destruct (nca_update_shape tr keep s m d Hw Zw Hd) as (Sd & Wd & _).
  apply shape_inv in Zs as (Z1 & Z2 & Z3 & Z4).
  destruct (euler_get _ _ _ _ b c i j H Wd) as (G & _ & _); try congruence. rewrite G.
  assert (Hm : 0 <= get m b c i j <= 1).
  { unfold in_unit in Zi. rewrite Forall_forall in Zi. apply Zi. apply get_in_data; auto; congruence. }
  eapply Rle_trans; [apply clamp_step; exact Hm|]. rewrite Rabs_mult.
  assert (Hr : -1 <= get d b c i j <= 1).
  { unfold ca_update in Hd. apply bind_ok in Hd as (x & _ & Hd). apply bind_ok in Hd as (y & _ & Hd).
    apply nca_update_range in Hd. rewrite Forall_forall in Hd. apply Hd. apply shape_inv in Sd as (S1 & S2 & S3 & S4).
    apply get_in_data; auto; congruence. }
  assert (Rabs (get d b c i j) <= 1) by (apply Rabs_le; lra). pose proof (Rabs_pos (nc_dt s)). nra.
Qed.

Lemma nca_in_unit tr keep s u u' : nca_forward tr keep s u = Ok u' -> in_unit u'.
Proof. apply ca_forward_in01. Qed.

Lemma ca_frame_in_unit idl nbl upd dt u mode new l : ca_frame idl nbl upd dt u mode = Ok (Some (new :: l)) -> in_unit new.
Proof.
  unfold ca_frame. intros H. apply bind_ok in H as (i & _ & H). apply bind_ok in H as (nb & _ & H).
  apply bind_ok in H as (d & _ & H). apply bind_ok in H as (w & E & H). apply Ok_inj in H.
  assert (w = new) by (destruct mode as [|[|[|[|[|]]]]]; congruence). subst w. eapply euler_in01; eauto.
Qed.

Lemma nca_bad_channels tr keep s u : nca_wf s -> twf u -> nc_int s <> nc_ext s -> nca_forward tr keep s u = Err RuntimeError.
Proof.
  intros Hw Hu Hn. pose proof Hw as (L1 & L2 & _).
  unfold nca_forward, ca_forward. rewrite mask_if_zero_dead by auto. cbn [bind].
  set (m := zero_dead (nc_thr s) u). 
  assert (Hm : twf m) by (unfold m, zero_dead; destruct (Nat.leb 4 (tC u)); [apply twf_build|auto]).
  unfold ca_update. rewrite (layer_apply_eq _ _ _ m L1), (layer_apply_eq _ _ _ m L2).
  destruct (layer_ready (nc_ext s) (nc_idl s) m) eqn:R1; [|reflexivity].
  destruct (layer_ready (nc_ext s) (nc_nbl s) m) eqn:R2; [|reflexivity]. cbn [bind].
  apply layer_ready_inv in R1 as (Ec & H0 & W0 & _).
  rewrite nca_update_eq; auto using twf_build. unfold nca_chk.
  destruct (Nat.eqb_spec (nc_int s) (nc_ext s)); [contradiction|]. reflexivity.
Qed.

(** ** Symmetries in evaluation mode *)
Lemma nca_shape tr keep s u u' : nca_wf s -> twf u -> nca_forward tr keep s u = Ok u' -> shape u' = shape u /\ twf u'.
Proof.
  intros Hw Hu H. unfold nca_forward, ca_forward in H. rewrite mask_if_zero_dead in H by auto. cbn [bind] in H.
  set (m := zero_dead (nc_thr s) u) in *.
  assert (Hm : twf m /\ shape m = shape u) by (unfold m, zero_dead; destruct (Nat.leb 4 (tC u)); [split; [apply twf_build|reflexivity]|auto]).
  destruct Hm as [Zw Zs].
  apply bind_ok in H as (d & Hd & H). destruct (nca_update_shape tr keep s m d Hw Zw Hd) as (Sd & Wd & _).
  unfold euler in H. rewrite (tmap_eq_build _ d Wd) in H.
  rewrite tzip_same in H by (rewrite <- Sd; reflexivity). cbn [bind] in H. apply Ok_inj in H. subst u'. rewrite tmap_build.
  split; [rewrite <- Zs; reflexivity|apply twf_build].
Qed.

Lemma nca_sub keep s fb fs B' H' W' u : nca_wf s -> twf u ->
  compat (nc_int s) (nc_idl s) (nc_nbl s) fb fs (tB u) (tH u) (tW u) B' H' W' ->
  nca_forward false keep s (pull fb fs B' H' W' u) = rmap (pull fb fs B' H' W') (nca_forward false keep s u).
Proof.
  intros Hw Hu Hc. pose proof Hw as (H1 & H2 & _). unfold nca_forward.
  eapply ca_forward_compat; eauto using mask_if_cell, nca_eval_pointwise.
Qed.

Definition nca_carrier (s : nca) : cca := carrier (nc_ext s) (nc_int s) (nc_idl s) (nc_nbl s).

Lemma nca_carrier_wf s : nca_wf s -> cca_wf (nca_carrier s).
Proof.
  intros (H1 & H2 & _). pose proof H1 as (_ & _ & Hn & He & _). apply carrier_wf; auto.
Qed.

Lemma nca_iter_natural keep s g n u : nca_wf s -> natural (nca_carrier s) g -> twf u ->
  (0 < tH u)%nat -> (0 < tW u)%nat ->
  iter_res (nca_forward false keep s) n (g u) = rmap g (iter_res (nca_forward false keep s) n u).
Proof.
  intros Hl Hg. apply iter_natural.
  - intros; apply (nca_shape false keep s); auto.
  - intros v Hv H0 W0. apply (step_natural (nca_carrier s)); auto.
    + intros w Hw. apply nca_shape in Hw; tauto.
    + intros. apply nca_sub; auto.
Qed.

Lemma nca_roll keep s dy dx n u : nca_wf s -> cl_m (nc_idl s) = Circular -> cl_m (nc_nbl s) = Circular ->
  twf u -> (0 < tH u)%nat -> (0 < tW u)%nat ->
  iter_res (nca_forward false keep s) n (roll dy dx u) = rmap (roll dy dx) (iter_res (nca_forward false keep s) n u).
Proof.
  intros Hw M1 M2. apply nca_iter_natural; auto. apply natural_weaken, natural_roll. split; auto.
Qed.

Lemma nca_batch keep s u k : nca_wf s -> twf u -> (k < tB u)%nat ->
  nca_forward false keep s (batch_elem k u) = rmap (batch_elem k) (nca_forward false keep s u).
Proof.
  intros Hl Hu Hk. rewrite batch_elem_pull.
  rewrite (nca_sub keep s (fun _ => k) id_map 1 (tH u) (tW u) u Hl Hu) by (apply compat_batch; auto).
  destruct (nca_forward false keep s u) as [v|] eqn:E; [|reflexivity].
  apply nca_shape in E as [S _]; auto. apply shape_inv in S as (A1 & A2 & A3 & A4). cbn [rmap].
  rewrite batch_elem_pull, A3, A4. reflexivity.
Qed.

(** Training mode: rolling the grid and the dropout draws together. *)
Lemma nca_closed tr keep s u u' : nca_wf s -> twf u -> nca_forward tr keep s u = Ok u' ->
  exists idn nb, conv_apply (nc_idl s) (zero_dead (nc_thr s) u) = Ok idn /\ conv_apply (nc_nbl s) (zero_dead (nc_thr s) u) = Ok nb /\
  forall b c i j, (b < tB u)%nat -> (c < tC u)%nat -> (i < tH u)%nat -> (j < tW u)%nat ->
    get u' b c i j = clamp 0 1 (get (zero_dead (nc_thr s) u) b c i j + nc_dt s *
      network s (fun k1 => drop_factor tr (keep b k1 i j) (nc_drop s)) (fun c => get idn b c i j) (fun c => get nb b c i j) c).
Proof.
  intros Hw Hu H. unfold nca_forward, ca_forward in H. rewrite mask_if_zero_dead in H by auto. cbn [bind] in H.
  set (m := zero_dead (nc_thr s) u) in *.
  assert (Hm : twf m /\ shape m = shape u) by (unfold m, zero_dead; destruct (Nat.leb 4 (tC u)); [split; [apply twf_build|reflexivity]|auto]).
  destruct Hm as [Zw Zs].
  apply bind_ok in H as (d & Hd & H). destruct (nca_update_shape tr keep s m d Hw Zw Hd) as (Sd & Wd & En & Ec).
  pose proof Hd as Hd'. unfold ca_update in Hd'. apply bind_ok in Hd' as (idn & E1 & Hd'). apply bind_ok in Hd' as (nb & E2 & Hd').
  exists idn, nb. split; [exact E1|]. split; [exact E2|]. intros b c i j Hb Hc Hi Hj.
  apply shape_inv in Zs as (Z1 & Z2 & Z3 & Z4).
  destruct (euler_get _ _ _ _ b c i j H Wd) as (G & _ & _); try congruence. rewrite G. f_equal. f_equal. f_equal.
  pose proof Hw as (L1 & L2 & _).
  rewrite (layer_apply_eq _ _ _ m L1) in E1. rewrite (layer_apply_eq _ _ _ m L2) in E2.
  destruct (layer_ready (nc_ext s) (nc_idl s) m) eqn:R1; [|discriminate].
  destruct (layer_ready (nc_ext s) (nc_nbl s) m) eqn:R2; [|discriminate].
  apply layer_ready_inv in R1 as (_ & H0 & W0 & _).
  apply Ok_inj in E1. apply Ok_inj in E2.
  assert (T1 : twf idn) by (subst idn; apply twf_build). assert (T2 : twf nb) by (subst nb; apply twf_build).
  assert (S1 : shape idn = (tB m, nc_int s, tH m, tW m)) by (subst idn; reflexivity).
  assert (S2 : shape nb = (tB m, nc_int s, tH m, tW m)) by (subst nb; reflexivity).
  rewrite nca_update_eq in Hd'; auto; try congruence; try (apply shape_inv in S1 as (? & ? & ? & ?); congruence).
  apply bind_ok in Hd' as (x & _ & Hd'). apply Ok_inj in Hd'. subst d.
  apply shape_inv in S1 as (A1 & A2 & A3 & A4). rewrite get_build; try congruence.
Qed.

(** ** Construction *)
Lemma nca_weights_ok e n h r1 r2 r3 w : nca_weights e n h r1 r2 r3 = Ok w ->
  shape r1 = (h, e + n, 1, 1)%nat /\ shape r2 = (h, h, 1, 1)%nat /\ shape r3 = (e, h, 1, 1)%nat /\
  w = (tmap sq r1, tmap sq r2, tmap sq r3).
Proof.
  unfold nca_weights. intros H. apply bind_ok in H as (x & Hx & H). apply guard_ok in Hx. apply Ok_inj in H.
  rewrite !andb_true_iff, !Nat.eqb_eq in Hx.
  destruct Hx as (((((A1 & A2) & A3) & A4) & (((B1 & B2) & B3) & B4)) & (((C1 & C2) & C3) & C4)).
  unfold shape. rewrite A1, A2, A3, A4, B1, B2, B3, B4, C1, C2, C3, C4. auto.
Qed.

Lemma stack_shape n k t : shape k = (1, 1, tH k, tW k)%nat -> twf k -> stack_kernels n k = Ok t ->
  tB t = n /\ tC t = 1%nat /\ tH t = tH k /\ tW t = tW k /\ twf t /\ (0 < n)%nat /\
  forall b i j, (b < n)%nat -> (i < tH k)%nat -> (j < tW k)%nat -> get t b 0 i j = get k 0 0 i j.
Proof.
  intros Sk Wk. apply shape_inv in Sk as (K1 & K2 & _). revert t. induction n as [|n IH]; intros t; [discriminate|].
  destruct n as [|n].
  - cbn [stack_kernels]. intros E. apply Ok_inj in E. subst t. repeat split; auto; try lia. intros b i j Hb Hi Hj. replace b with 0%nat by lia. reflexivity.
  - intros E. change (stack_kernels (S (S n)) k) with (let* t := stack_kernels (S n) k in cat0 t k) in E.
    apply bind_ok in E as (t' & E & H). destruct (IH t' E) as (A1 & A2 & A3 & A4 & A5 & A6 & A7).
    unfold cat0 in H. apply bind_ok in H as (x & _ & H). apply Ok_inj in H. subst t. unfold twf in *. cbn [tB tC tH tW tdata].
    rewrite app_length, A5, Wk, A1, A2, A3, A4, K1, K2. repeat split; try lia.
    assert (L5 : List.length (tdata t') = (S n * 1 * tH k * tW k)%nat) by (rewrite A5, A1, A2, A3, A4; reflexivity).
    intros b i j Hb Hi Hj. unfold get. cbn [tB tC tH tW tdata].
    destruct (Nat.lt_ge_cases b (S n)) as [Hlt|Hge].
    + rewrite app_nth1 by (rewrite L5; apply flat_lt; auto; lia).
      pose proof (A7 b i j Hlt Hi Hj) as G. unfold get in G. rewrite A2, A3, A4 in G. exact G.
    + assert (b = S n) by lia. subst b. rewrite app_nth2 by (rewrite L5; nia).
      rewrite L5, K2. f_equal. nia.
Qed.

Lemma stack_layer e n m k t r : (0 < e)%nat -> shape k = (1, 1, 2 * r + 1, 2 * r + 1)%nat -> twf k ->
  stack_kernels n k = Ok t -> init_layer e n m t = init_layer e n m k.
Proof.
  intros He Sk Wk Ht. apply shape_inv in Sk as (K1 & K2 & K3 & K4).
  destruct (stack_shape n k t) as (A1 & A2 & A3 & A4 & A5 & A6 & A7); auto.
  { unfold shape. rewrite K1, K2. reflexivity. }
  unfold init_layer. rewrite A4. rewrite groups_eq by auto. cbn [bind].
  assert (Ex : expand n (e / (if Nat.eqb (n mod e) 0 then e else 1)) t = expand n (e / (if Nat.eqb (n mod e) 0 then e else 1)) k); [|rewrite Ex; reflexivity].
  generalize (e / (if Nat.eqb (n mod e) 0 then e else 1))%nat. intros I.
  unfold expand. rewrite A1, A2, A3, A4, K1, K2, !Nat.eqb_refl, orb_true_r. cbn [orb andb guard bind Nat.eqb]. f_equal.
  apply build_ext. intros b c i j Hb Hc Hi Hj. unfold bget, bidx. rewrite A1, A2, A3, A4, K1, K2. cbn [Nat.eqb].
  apply A7.
  - destruct (Nat.eqb_spec n 1); lia.
  - destruct (Nat.eqb_spec (tH k) 1); lia.
  - destruct (Nat.eqb_spec (tW k) 1); lia.
Qed.

Lemma mixture_kernel_shape r l k : get_gaussian_mixture_kernel r l 1 = Ok k ->
  shape k = (1, 1, 2 * r + 1, 2 * r + 1)%nat /\ twf k /\ radial r k /\ as_kernel (K4 k) = Ok k.
Proof.
  unfold get_gaussian_mixture_kernel. intros H. apply bind_ok in H as (gs & _ & H).
  apply radial_1_fitted in H as (R0 & _ & F). destruct (fitted_wf r _ k F) as [W S].
  split; [exact S|]. split; [exact W|]. split; [eapply (fitted_radial r (act_fn (AMixture gs false))); exact F|].
  apply shape_inv in S as (_ & _ & K3 & K4). unfold as_kernel. rewrite K3, K4, Nat.eqb_refl. reflexivity.
Qed.

Lemma tmap_weight o i r : twf r -> shape r = (o, i, 1, 1)%nat -> (0 < o)%nat -> (0 < i)%nat -> weight o i (tmap sq r).
Proof. intros W S Ho Hi. split; [apply twf_tmap; auto|]. split; [exact S|auto]. Qed.

Lemma nca_init_facts e n h m th radius peaks actv drop r1 r2 r3 s :
  (0 < e)%nat -> (0 < n)%nat -> (0 < h)%nat -> twf r1 -> twf r2 -> twf r3 ->
  nca_init e n h m th radius peaks actv drop r1 r2 r3 = Ok s ->
  nca_wf s /\ nc_ext s = e /\ nc_int s = n /\ nc_hid s = h /\ nc_thr s = th /\ nc_pm s = m /\ nc_dt s = 1 / 10 /\ nc_drop s = drop /\
  0 <= drop <= 1 /\
  cl_m (nc_idl s) = m /\ cl_m (nc_nbl s) = m /\ cl_p (nc_nbl s) = radius /\
  init_layer e n m default_id_kernel = Ok (nc_idl s) /\
  (exists k, get_gaussian_mixture_kernel radius (default_kparams peaks (INR peaks)) 1 = Ok k /\ init_layer e n m k = Ok (nc_nbl s)) /\
  nc_kpar s = KPVec (default_kparams peaks (INR peaks)) /\ nc_radius s = VInt (Z.of_nat radius) /\ nc_cfg s = None /\
  nc_w1 s = tmap sq r1 /\ nc_w2 s = tmap sq r2 /\ nc_w3 s = tmap sq r3 /\
  nc_a1 s = act_squared (nca_act actv) /\ nc_a2 s = act_squared (nca_act actv) /\ peaks <> 0%nat.
Proof.
  intros He Hn Hh T1 T2 T3 H. unfold nca_init in H. apply bind_ok in H as (il & Eil & H).
  apply bind_ok in H as (? & Gp & H). apply guard_ok in Gp. apply negb_true_iff, Nat.eqb_neq in Gp.
  apply bind_ok in H as (k & Ek & H). destruct (mixture_kernel_shape _ _ _ Ek) as (Sk & Wk & Rk & _).
  apply bind_ok in H as (ks & Eks & H). apply bind_ok in H as (kk & Ekk & H).
  pose proof (stack_layer e n m k ks radius He Sk Wk Eks) as Est.
  assert (kk = ks).
  { unfold as_kernel in Ekk. apply bind_ok in Ekk as (? & _ & Ekk). apply Ok_inj in Ekk. auto. }
  subst kk. rewrite Est in H. apply bind_ok in H as (nl & Enl & H).
  apply bind_ok in H as (? & Gd & H). apply guard_ok in Gd.
  assert (Hd : 0 <= drop <= 1) by (destruct (Rle_dec 0 drop), (Rle_dec drop 1); try discriminate; lra).
  apply bind_ok in H as (w & Ew & H). apply nca_weights_ok in Ew as (S1 & S2 & S3 & ->).
  apply Ok_inj in H. subst s. unfold nca_wf. cbn [nc_ext nc_int nc_hid nc_thr nc_pm nc_dt nc_drop nc_idl nc_nbl nc_kpar nc_radius nc_cfg nc_w1 nc_w2 nc_w3 nc_a1 nc_a2 fst snd].
  destruct (init_layer_wf e n m default_id_kernel il 1 He Hn eq_refl eq_refl Eil) as (L1 & P1 & M1).
  apply shape_inv in Sk as (_ & _ & K3 & K4).
  destruct (init_layer_wf e n m k nl radius He Hn K3 K4 Enl) as (L2 & P2 & M2).
  split; [split; [exact L1|split; [exact L2|]]; split; [|split]; apply tmap_weight; auto; lia|].
  repeat (split; [solve [auto | eauto]|]). auto.
Qed.

Lemma default_kparams_triples p v : List.length (default_kparams p v) = (3 * p)%nat /\
  triples (default_kparams p v) = repeat (1 / v, 1 / 2, 15 / 100) p.
Proof. induction p as [|p [IH1 IH2]]; cbn [default_kparams List.length triples repeat]; [auto|]. rewrite IH2. split; [lia|reflexivity]. Qed.

Lemma nca_init_ok e n h m th radius peaks actv drop r1 r2 r3 :
  (0 < e)%nat -> (0 < n)%nat -> radius <> 0%nat -> peaks <> 0%nat -> 0 <= drop <= 1 ->
  shape r1 = (h, e + n, 1, 1)%nat -> shape r2 = (h, h, 1, 1)%nat -> shape r3 = (e, h, 1, 1)%nat ->
  exists s, nca_init e n h m th radius peaks actv drop r1 r2 r3 = Ok s.
Proof.
  intros He Hn Hr Hp Hd S1 S2 S3. unfold nca_init.
  destruct (init_layer_ok e n m default_id_kernel) as [il Eil]; auto. rewrite Eil. cbn [bind].
  destruct (Nat.eqb_spec peaks 0); [contradiction|]. cbn [negb guard bind].
  destruct (default_kparams_triples peaks (INR peaks)) as [Hl Ht].
  assert (Ek : exists k, get_gaussian_mixture_kernel radius (default_kparams peaks (INR peaks)) 1 = Ok k).
  { unfold get_gaussian_mixture_kernel, read_mixture. rewrite Hl.
    replace ((3 * peaks) mod 3)%nat with 0%nat by (rewrite Nat.mul_comm, Nat.mod_mul; lia).
    cbn [Nat.eqb bind]. rewrite Ht.
    destruct (radial_kernel_ok (AMixture (repeat (1 / INR peaks, 1 / 2, 15 / 100) peaks) false) radius 1 Hr) as (k & Ek & _); [|eauto].
    cbn [act_ok]. destruct peaks as [|p]; [contradiction|]. cbn [repeat].
    assert (F : forallb (fun g : R * R * R => nonzero (eps9 + snd g)) ((1 / INR (S p), 1 / 2, 15 / 100) :: repeat (1 / INR (S p), 1 / 2, 15 / 100) p) = true).
    { apply forallb_forall. intros g Hg. apply (repeat_spec (S p)) in Hg. subst g. cbn [snd]. apply nonzero_true.
      pose proof eps9_pos'. lra. }
    rewrite F. reflexivity. }
  destruct Ek as [k Ek]. rewrite Ek. cbn [bind]. destruct (mixture_kernel_shape _ _ _ Ek) as (Sk & Wk & Rk & _).
  assert (Es : forall q, exists ks, stack_kernels (S q) k = Ok ks /\ tC ks = tC k /\ tH ks = tH k /\ tW ks = tW k).
  { induction q as [|q [ks (E & F1 & F2 & F3)]]; [eexists; split; [reflexivity|auto]|].
    change (stack_kernels (S (S q)) k) with (let* t := stack_kernels (S q) k in cat0 t k). rewrite E. cbn [bind].
    unfold cat0. rewrite F1, F2, F3, !Nat.eqb_refl. cbn [andb guard bind]. eexists. split; [reflexivity|auto]. }
  destruct n as [|q]; [lia|]. destruct (Es q) as (ks & E & F1 & F2 & F3). rewrite E. cbn [bind].
  apply shape_inv in Sk as (K1 & K2 & K3 & K4).
  unfold as_kernel. rewrite F2, F3, K3, K4, Nat.eqb_refl. cbn [guard bind].
  assert (Sk : shape k = (1, 1, 2 * radius + 1, 2 * radius + 1)%nat) by (unfold shape; congruence).
  rewrite (stack_layer e (S q) m k ks radius He Sk Wk E).
  destruct (init_layer_ok e (S q) m k) as [nl Enl]; auto. rewrite Enl. cbn [bind].
  destruct (Rle_dec 0 drop); [|lra]. destruct (Rle_dec drop 1); [|lra]. cbn [andb guard bind].
  apply shape_inv in S1 as (A1 & A2 & A3 & A4). apply shape_inv in S2 as (B1 & B2 & B3 & B4). apply shape_inv in S3 as (C1 & C2 & C3 & C4).
  unfold nca_weights. rewrite A1, A2, A3, A4, B1, B2, B3, B4, C1, C2, C3, C4, !Nat.eqb_refl. cbn [Nat.eqb andb guard bind]. eauto.
Qed.

(** ** Parameters *)
Lemma take_exact_ok n p q : take_exact n p = Ok q -> q = (firstn n p, skipn n p) /\ (n <= List.length p)%nat.
Proof.
  unfold take_exact. intros H. apply bind_ok in H as (? & G & H). apply guard_ok in G. apply Nat.leb_le in G. apply Ok_inj in H. auto.
Qed.

Lemma set_tensor_ok w p q : set_tensor w p = Ok q ->
  (List.length (tdata w) <= List.length p)%nat /\
  q = (mkT (tB w) (tC w) (tH w) (tW w) (firstn (List.length (tdata w)) p), skipn (List.length (tdata w)) p).
Proof.
  unfold set_tensor. intros H. apply bind_ok in H as (x & Hx & H). apply take_exact_ok in Hx as [-> Hl].
  apply Ok_inj in H. subst q. auto.
Qed.

Lemma set_nact_ok a p q : set_nact a p = Ok q -> act_params a = [] \/ (exists m s md, a = AGaussian m s md) ->
  (List.length (act_params a) <= List.length p)%nat /\ act_params (fst q) = firstn (List.length (act_params a)) p /\
  snd q = skipn (List.length (act_params a)) p.
Proof.
  intros H Ha. destruct a; try (cbn [set_nact] in H; apply Ok_inj in H; subst q; destruct Ha as [Ha|(? & ? & ? & ?)]; [|congruence]; cbn [fst snd]; rewrite Ha; cbn [List.length firstn skipn]; split; [lia|auto]).
  cbn [set_nact] in H. apply bind_ok in H as (x & Hx & H). apply take_exact_ok in Hx as [-> Hl]. cbn [fst snd] in H.
  apply bind_ok in H as (y & Hy & H). apply take_exact_ok in Hy as [-> Hl']. cbn [fst snd] in H. apply Ok_inj in H. subst q.
  cbn [act_params List.length fst snd]. destruct p as [|p1 p]; [cbn in Hl; lia|]. destruct p as [|p2 p]; [cbn in Hl'; lia|].
  cbn [firstn skipn nth List.length act_params]. split; [lia|auto].
Qed.

Definition nact_ok (a : act) : Prop := act_params a = [] \/ (exists m s md, a = AGaussian m s md).

Lemma nca_acts v : nact_ok (act_squared (nca_act v)).
Proof.
  unfold nca_act. destruct v; try (right; do 3 eexists; reflexivity).
  repeat match goal with |- context [if ?b then _ else _] => destruct b end;
    first [left; reflexivity | right; do 3 eexists; reflexivity].
Qed.

Lemma set_nact_short a p : nact_ok a -> (List.length p < List.length (act_params a))%nat -> set_nact a p = Err ValueError.
Proof.
  intros [Ha|(m & s & md & ->)] Hl; [rewrite Ha in Hl; cbn in Hl; lia|].
  cbn [set_nact]. destruct p as [|x [|y p]]; [reflexivity|reflexivity|cbn in Hl; lia].
Qed.

Lemma set_nact_exists a p : nact_ok a -> (List.length (act_params a) <= List.length p)%nat -> exists q, set_nact a p = Ok q.
Proof.
  intros [Ha|(m & s & md & ->)] Hl.
  - destruct a; try (eexists; reflexivity). discriminate.
  - cbn [set_nact]. destruct p as [|x [|y p]]; cbn in Hl; try lia. eexists. reflexivity.
Qed.

Lemma set_nact_self a p : nact_ok a -> set_nact a (act_params a ++ p) = Ok (a, p).
Proof.
  intros [Ha|(m & s & md & ->)]; [rewrite Ha|reflexivity]. destruct a; try reflexivity. discriminate.
Qed.

Lemma set_nact_kind a p q : nact_ok a -> set_nact a p = Ok q -> nact_ok (fst q).
Proof.
  intros [Ha|(m & s & md & ->)] H.
  - destruct a; try (cbn [set_nact] in H; apply Ok_inj in H; subst q; left; exact Ha). discriminate.
  - cbn [set_nact] in H. apply bind_ok in H as (x & _ & H). apply bind_ok in H as (y & _ & H). apply Ok_inj in H. subst q.
    right. do 3 eexists. reflexivity.
Qed.

Lemma set_tensor_short w p : (List.length p < List.length (tdata w))%nat -> set_tensor w p = Err ValueError.
Proof. intros H. unfold set_tensor, take_exact. destruct (Nat.leb_spec (List.length (tdata w)) (List.length p)); [lia|]. reflexivity. Qed.

Lemma set_tensor_self w p : set_tensor w (tdata w ++ p) = Ok (w, p).
Proof.
  unfold set_tensor, take_exact. rewrite app_length.
  destruct (Nat.leb_spec (List.length (tdata w)) (List.length (tdata w) + List.length p)); [|lia]. cbn [guard bind fst snd].
  rewrite firstn_app, firstn_all, Nat.sub_diag, skipn_app, skipn_all, Nat.sub_diag. cbn [firstn skipn app].
  rewrite app_nil_r. destruct w; reflexivity.
Qed.

Definition nca_ready (s : nca) : Prop := nact_ok (nc_a1 s) /\ nact_ok (nc_a2 s).

(** The entries of the vector that belong to the network rather than to the kernel. *)
Definition net_params (s : nca) : list R :=
  (tdata (nc_w1 s) ++ act_params (nc_a1 s) ++ tdata (nc_w2 s) ++ act_params (nc_a2 s) ++ tdata (nc_w3 s))%list.

Lemma get_net s : nca_get_params s = (net_params s ++ kp_flat (nc_kpar s))%list.
Proof. unfold nca_get_params, net_params. rewrite <- !app_assoc. reflexivity. Qed.

Lemma firstn_plus (A : Type) n m (l : list A) : firstn (n + m) l = (firstn n l ++ firstn m (skipn n l))%list.
Proof.
  revert l. induction n as [|n IH]; intros l; [reflexivity|]. destruct l as [|x l]; cbn [firstn skipn Nat.add app].
  - rewrite firstn_nil. reflexivity.
  - f_equal. apply IH.
Qed.

Lemma skipn_plus (A : Type) n m (l : list A) : skipn m (skipn n l) = skipn (n + m) l.
Proof.
  revert l. induction n as [|n IH]; intros l; [reflexivity|]. destruct l as [|x l]; cbn [skipn Nat.add]; [apply skipn_nil|apply IH].
Qed.

Lemma nca_set_get s p s' : nca_ready s -> nca_set_params s p = Ok s' ->
  nca_get_params s' = firstn (List.length (nca_get_params s)) p /\ nca_ready s' /\
  (List.length (net_params s) <= List.length p)%nat.
Proof.
  intros [R1 R2] H. unfold nca_set_params in H.
  apply bind_ok in H as (q1 & E1 & H). apply set_tensor_ok in E1 as [L1 ->]. cbn [fst snd] in H.
  apply bind_ok in H as (q2 & E2 & H). pose proof (set_nact_kind _ _ _ R1 E2) as K2. apply set_nact_ok in E2 as (L2 & A2 & S2); [|exact R1].
  apply bind_ok in H as (q3 & E3 & H). apply set_tensor_ok in E3 as [L3 ->]. cbn [fst snd] in H.
  apply bind_ok in H as (q4 & E4 & H). pose proof (set_nact_kind _ _ _ R2 E4) as K4. apply set_nact_ok in E4 as (L4 & A4 & S4); [|exact R2].
  apply bind_ok in H as (q5 & E5 & H). apply set_tensor_ok in E5 as [L5 ->]. cbn [fst snd] in H.
  rewrite S4, S2 in *. rewrite !skipn_plus in *. rewrite !skipn_length in *. rewrite ?Nat.add_assoc in *.
  assert (LL : (List.length (net_params s) <= List.length p)%nat) by (unfold net_params; rewrite !app_length; lia).
  assert (G : forall kk nl kp n, kp_flat kp = firstn n (skipn (List.length (net_params s)) p) ->
    List.length (kp_flat (nc_kpar s)) = n ->
    nca_get_params (mkNca (nc_ext s) (nc_int s) (nc_hid s) (nc_pm s) (nc_thr s) (nc_idl s) nl
        (mkT (tB (nc_w1 s)) (tC (nc_w1 s)) (tH (nc_w1 s)) (tW (nc_w1 s)) (firstn (List.length (tdata (nc_w1 s))) p))
        (fst q2)
        (mkT (tB (nc_w2 s)) (tC (nc_w2 s)) (tH (nc_w2 s)) (tW (nc_w2 s))
           (firstn (List.length (tdata (nc_w2 s))) (skipn (List.length (tdata (nc_w1 s)) + List.length (act_params (nc_a1 s))) p)))
        (fst q4)
        (mkT (tB (nc_w3 s)) (tC (nc_w3 s)) (tH (nc_w3 s)) (tW (nc_w3 s))
           (firstn (List.length (tdata (nc_w3 s))) (skipn (List.length (tdata (nc_w1 s)) + List.length (act_params (nc_a1 s)) + List.length (tdata (nc_w2 s)) + List.length (act_params (nc_a2 s))) p)))
        (nc_drop s) kk kp (nc_cfg s) (nc_radius s) (nc_dt s)) = firstn (List.length (nca_get_params s)) p).
  { intros kk nl kp n Hk Hn. rewrite (get_net s). rewrite app_length, Hn.
    unfold nca_get_params. cbn [nc_w1 nc_w2 nc_w3 nc_a1 nc_a2 nc_kpar tdata]. rewrite Hk, A2, A4.
    unfold net_params. rewrite !app_length.
    rewrite !firstn_plus, !skipn_plus, <- !app_assoc.
    rewrite !Nat.add_assoc. reflexivity. }
  assert (EN : List.length (net_params s) = (List.length (tdata (nc_w1 s)) + List.length (act_params (nc_a1 s)) + List.length (tdata (nc_w2 s)) +
    List.length (act_params (nc_a2 s)) + List.length (tdata (nc_w3 s)))%nat) by (unfold net_params; rewrite !app_length; lia).
  destruct (nc_kpar s) as [|r|l] eqn:EK.
  - apply Ok_inj in H. subst s'. split; [|split; [split; assumption|exact LL]]. apply G with (n := 0%nat); reflexivity.
  - discriminate.
  - apply bind_ok in H as (k & _ & H). apply bind_ok in H as (kk & _ & H). apply bind_ok in H as (nl & _ & H).
    apply Ok_inj in H. subst s'. split; [|split; [split; assumption|exact LL]].
    apply G with (n := List.length l); [|reflexivity]. cbn [kp_flat]. rewrite EN. reflexivity.
Qed.

Lemma nca_set_short s p : nca_ready s -> (List.length p < List.length (net_params s))%nat -> nca_set_params s p = Err ValueError.
Proof.
  intros [R1 R2] Hl. unfold net_params in Hl. rewrite !app_length in Hl. unfold nca_set_params.
  destruct (le_lt_dec (List.length (tdata (nc_w1 s))) (List.length p)) as [L1|L1]; [|rewrite set_tensor_short by auto; reflexivity].
  destruct (set_tensor (nc_w1 s) p) as [q1|x] eqn:E1; cbn [bind].
  2:{ unfold set_tensor, take_exact in E1. destruct (Nat.leb_spec (List.length (tdata (nc_w1 s))) (List.length p)); [discriminate|lia]. }
  apply set_tensor_ok in E1 as [_ ->]. cbn [fst snd].
  destruct (le_lt_dec (List.length (act_params (nc_a1 s))) (List.length (skipn (List.length (tdata (nc_w1 s))) p))) as [L2|L2]; [|rewrite set_nact_short by auto; reflexivity].
  destruct (set_nact_exists _ _ R1 L2) as [q2 E2]. rewrite E2. cbn [bind]. apply set_nact_ok in E2 as (_ & _ & S2); [|exact R1].
  rewrite S2, skipn_plus in *. rewrite skipn_length in *.
  destruct (le_lt_dec (List.length (tdata (nc_w2 s))) (List.length (skipn (List.length (tdata (nc_w1 s)) + List.length (act_params (nc_a1 s))) p))) as [L3|L3]; [|rewrite set_tensor_short by auto; reflexivity].
  destruct (set_tensor (nc_w2 s) _) as [q3|x] eqn:E3; cbn [bind].
  2:{ unfold set_tensor, take_exact in E3. match type of E3 with context [Nat.leb ?a ?b] => destruct (Nat.leb_spec a b) end; [discriminate|lia]. }
  apply set_tensor_ok in E3 as [_ ->]. cbn [fst snd]. rewrite skipn_length in L3. rewrite skipn_plus.
  match goal with |- context [set_nact (nc_a2 s) ?y] => set (t4 := y) end.
  assert (L4' : List.length t4 = (List.length p - (List.length (tdata (nc_w1 s)) + List.length (act_params (nc_a1 s)) + List.length (tdata (nc_w2 s))))%nat) by (unfold t4; apply skipn_length).
  destruct (le_lt_dec (List.length (act_params (nc_a2 s))) (List.length t4)) as [L4|L4]; [|rewrite set_nact_short by auto; reflexivity].
  destruct (set_nact_exists _ _ R2 L4) as [q4 E4]. rewrite E4. cbn [bind]. apply set_nact_ok in E4 as (_ & _ & S4); [|exact R2].
  rewrite S4. rewrite set_tensor_short; [reflexivity|]. rewrite skipn_length. lia.
Qed.

(** States whose layer is the mixture of the stored kernel parameters. *)
Definition nca_synced (s : nca) : Prop := nca_ready s /\ exists r l k,
  nc_radius s = VInt (Z.of_nat r) /\ nc_kpar s = KPVec l /\ get_gaussian_mixture_kernel r l 1 = Ok k /\
  init_layer (nc_ext s) (nc_int s) (nc_pm s) k = Ok (nc_nbl s).

Lemma nca_init_synced e n h m th radius peaks actv drop r1 r2 r3 s :
  (0 < e)%nat -> (0 < n)%nat -> (0 < h)%nat -> twf r1 -> twf r2 -> twf r3 ->
  nca_init e n h m th radius peaks actv drop r1 r2 r3 = Ok s -> nca_synced s.
Proof.
  intros He Hn Hh T1 T2 T3 H.
  pose proof (nca_init_facts e n h m th radius peaks actv drop r1 r2 r3 s He Hn Hh T1 T2 T3 H)
    as (_ & X1 & X2 & _ & _ & X3 & _ & _ & _ & _ & _ & _ & _ & (k & Ek & El) & Ekp & Er & _ & _ & _ & _ & Ea1 & Ea2 & _).
  split.
  - split; [rewrite Ea1|rewrite Ea2]; apply nca_acts.
  - exists radius, (default_kparams peaks (INR peaks)), k. rewrite X1, X2, X3. auto.
Qed.

Lemma nca_set_synced s p s' : nca_synced s -> nca_set_params s p = Ok s' -> nca_synced s'.
Proof.
  intros [R (r & l & k & Er & El & _ & _)] H. destruct (nca_set_get s p s' R H) as (_ & R' & _). split; [exact R'|].
  unfold nca_set_params in H.
  apply bind_ok in H as (q1 & _ & H). apply bind_ok in H as (q2 & _ & H). apply bind_ok in H as (q3 & _ & H).
  apply bind_ok in H as (q4 & _ & H). apply bind_ok in H as (q5 & _ & H). rewrite El, Er in H.
  unfold mixture_kernel_of in H. rewrite as_size_of in H. cbn [bind] in H.
  apply bind_ok in H as (k' & Ek & H). destruct (mixture_kernel_shape _ _ _ Ek) as (_ & _ & _ & Ak). rewrite Ak in H. cbn [bind] in H.
  apply bind_ok in H as (nl & Enl & H). apply Ok_inj in H. subst s'. cbn [nc_radius nc_kpar nc_ext nc_int nc_pm nc_nbl].
  do 3 eexists. split; [reflexivity|]. split; [reflexivity|]. split; [exact Ek|exact Enl].
Qed.

Definition same_but_kern (s s' : nca) : Prop :=
  s' = mkNca (nc_ext s) (nc_int s) (nc_hid s) (nc_pm s) (nc_thr s) (nc_idl s) (nc_nbl s)
        (nc_w1 s) (nc_a1 s) (nc_w2 s) (nc_a2 s) (nc_w3 s) (nc_drop s) (nc_kern s') (nc_kpar s) (nc_cfg s) (nc_radius s) (nc_dt s).

Lemma nca_set_self s : nca_synced s -> exists s', nca_set_params s (nca_get_params s) = Ok s' /\ same_but_kern s s'.
Proof.
  intros [[R1 R2] (r & l & k & Er & El & Ek & Enl)]. unfold nca_set_params, nca_get_params.
  rewrite set_tensor_self. cbn [bind fst snd]. rewrite set_nact_self by auto. cbn [bind fst snd].
  rewrite set_tensor_self. cbn [bind fst snd]. rewrite set_nact_self by auto. cbn [bind fst snd].
  rewrite set_tensor_self. cbn [bind fst snd]. rewrite El, Er. cbn [kp_flat]. rewrite firstn_all.
  unfold mixture_kernel_of. rewrite as_size_of. cbn [bind]. rewrite Ek. cbn [bind].
  destruct (mixture_kernel_shape _ _ _ Ek) as (_ & _ & _ & Ak). rewrite Ak. cbn [bind]. rewrite Enl. cbn [bind].
  eexists. split; [reflexivity|]. unfold same_but_kern. cbn [nc_kern]. rewrite El, Er. reflexivity.
Qed.

Lemma same_but_kern_forward s s' : same_but_kern s s' -> forall tr keep u, nca_forward tr keep s' u = nca_forward tr keep s u.
Proof. intros -> tr keep u. reflexivity. Qed.

Lemma same_but_kern_frame s s' : same_but_kern s s' -> forall tr keep u m, nca_frame tr keep s' u m = nca_frame tr keep s u m.
Proof. intros -> tr keep u m. reflexivity. Qed.

Lemma nca_scalar_kpar s p r : nc_kpar s = KPScalar r -> nca_ready s -> (List.length (net_params s) <= List.length p)%nat ->
  nca_set_params s p = Err IndexError.
Proof.
  intros EK [R1 R2] Hl. unfold net_params in Hl. rewrite !app_length in Hl. unfold nca_set_params.
  assert (ST : forall w y, (List.length (tdata w) <= List.length y)%nat -> exists z, set_tensor w y = Ok z).
  { intros w y Hy. unfold set_tensor, take_exact. destruct (Nat.leb_spec (List.length (tdata w)) (List.length y)); [|lia]. cbn [guard bind]. eauto. }
  destruct (ST (nc_w1 s) p ltac:(lia)) as [q1 E1]. rewrite E1. cbn [bind]. apply set_tensor_ok in E1 as [_ ->]. cbn [fst snd].
  destruct (set_nact_exists (nc_a1 s) (skipn (List.length (tdata (nc_w1 s))) p) R1 ltac:(rewrite skipn_length; lia)) as [q2 E2]. rewrite E2. cbn [bind].
  apply set_nact_ok in E2 as (_ & _ & S2); [|exact R1]. rewrite S2.
  destruct (ST (nc_w2 s) (skipn (List.length (act_params (nc_a1 s))) (skipn (List.length (tdata (nc_w1 s))) p)) ltac:(rewrite !skipn_length; lia)) as [q3 E3].
  rewrite E3. cbn [bind]. apply set_tensor_ok in E3 as [_ ->]. cbn [fst snd].
  match goal with |- context [set_nact (nc_a2 s) ?y] => destruct (set_nact_exists (nc_a2 s) y R2 ltac:(rewrite !skipn_length; lia)) as [q4 E4] end.
  rewrite E4. cbn [bind]. apply set_nact_ok in E4 as (_ & _ & S4); [|exact R2]. rewrite S4.
  match goal with |- context [set_tensor (nc_w3 s) ?y] => destruct (ST (nc_w3 s) y ltac:(rewrite !skipn_length; lia)) as [q5 E5] end.
  rewrite E5. cbn [bind]. rewrite EK. reflexivity.
Qed.

(** ** Kernel configuration (set_kernel_config leaves the layer alone) *)
Lemma nca_config_stale s cfg s' : nca_set_kernel_config s cfg = Ok s' ->
  (forall tr keep u, nca_forward tr keep s' u = nca_forward tr keep s u) /\
  nc_cfg s' = Some cfg /\ (exists k, get_kernel cfg = Ok k /\ as_kernel (K4 k) = Ok (nc_kern s')) /\ dget "radius" cfg = Some (nc_radius s').
Proof.
  unfold nca_set_kernel_config. intros H. apply bind_ok in H as (r & Er & H). apply bind_ok in H as (k & Ek & H).
  apply bind_ok in H as (kp & _ & H). apply bind_ok in H as (kk & Ekk & H). apply Ok_inj in H. subst s'.
  split; [reflexivity|]. cbn [nc_cfg nc_kern nc_radius]. split; [reflexivity|]. split; [eauto|].
  unfold dgetk in Er. destruct (dget "radius" cfg); [|discriminate]. apply Ok_inj in Er. congruence.
Qed.

Lemma nca_radius_none s r : nc_cfg s = None -> nca_set_radius s r = Err TypeError.
Proof. intros H. unfold nca_set_radius. rewrite H. reflexivity. Qed.

Lemma nca_radius_rebuild s r s' : nca_set_radius s r = Ok s' -> exists d k kk, nc_cfg s = Some d /\ get_kernel (dset "radius" r d) = Ok k /\
  as_kernel (K4 k) = Ok kk /\ init_layer (nc_ext s) (nc_int s) (nc_pm s) kk = Ok (nc_nbl s') /\ nc_radius s' = r /\ nc_kern s' = kk /\
  nc_cfg s' = Some (dset "radius" r d) /\ nca_get_params s' = nca_get_params s.
Proof.
  unfold nca_set_radius. destruct (nc_cfg s) as [d|] eqn:Ed; [|discriminate]. intros H.
  apply bind_ok in H as (k & Ek & H). apply bind_ok in H as (kk & Ekk & H). apply bind_ok in H as (nl & Enl & H). apply Ok_inj in H. subst s'.
  exists d, k, kk. cbn [nc_nbl nc_radius nc_kern nc_cfg]. split; [auto|]. split; [exact Ek|]. split; [exact Ekk|]. split; [exact Enl|]. auto.
Qed.

(** ** Histories of calls *)
Record nca_inv (e n h : nat) (m : pmode) (s : nca) : Prop := mkNInv {
  ni_wf : nca_wf s; ni_e : nc_ext s = e; ni_n : nc_int s = n; ni_h : nc_hid s = h; ni_m : nc_pm s = m;
  ni_id : init_layer e n m default_id_kernel = Ok (nc_idl s);
  ni_nb : exists k r, shape k = (1, 1, 2 * r + 1, 2 * r + 1)%nat /\ twf k /\ radial r k /\ init_layer e n m k = Ok (nc_nbl s);
  ni_rd : nca_ready s;
  ni_d : 0 <= nc_drop s <= 1 }.

Lemma nca_init_inv e n h m th radius peaks actv drop r1 r2 r3 s :
  (0 < e)%nat -> (0 < n)%nat -> (0 < h)%nat -> twf r1 -> twf r2 -> twf r3 ->
  nca_init e n h m th radius peaks actv drop r1 r2 r3 = Ok s -> nca_inv e n h m s.
Proof.
  intros He Hn Hh T1 T2 T3 H.
  pose proof (nca_init_facts e n h m th radius peaks actv drop r1 r2 r3 s He Hn Hh T1 T2 T3 H)
    as (Hw & X1 & X2 & X3 & X4 & X5 & X6 & X7 & X8 & _ & _ & _ & Ei & (k & Ek & El) & Ekp & Er & _ & _ & _ & _ & Ea1 & Ea2 & _).
  constructor; auto.
  - destruct (mixture_kernel_shape _ _ _ Ek) as (Sk & Wk & Rk & _). exists k, radius. auto.
  - split; [rewrite Ea1|rewrite Ea2]; apply nca_acts.
  - rewrite X7. exact X8.
Qed.

Lemma set_tensor_weight o i w p q : weight o i w -> set_tensor w p = Ok q -> weight o i (fst q).
Proof.
  intros (W & S & Ho & Hi) H. apply set_tensor_ok in H as [L ->]. cbn [fst]. apply shape_inv in S as (S1 & S2 & S3 & S4).
  split; [|split; [unfold shape; cbn [tB tC tH tW]; congruence|auto]].
  unfold twf in *. cbn [tB tC tH tW tdata]. rewrite firstn_length. lia.
Qed.

Lemma layer_of_kernel e n m k r l : (0 < e)%nat -> (0 < n)%nat -> shape k = (1, 1, 2 * r + 1, 2 * r + 1)%nat ->
  init_layer e n m k = Ok l -> layer_wf e n l /\ cl_p l = r /\ cl_m l = m.
Proof.
  intros He Hn S H. apply shape_inv in S as (_ & _ & K3 & K4).
  destruct (init_layer_wf e n m k l r He Hn K3 K4 H) as (A & B & C). auto.
Qed.

Lemma nca_pos s : nca_wf s -> (0 < nc_ext s)%nat /\ (0 < nc_int s)%nat.
Proof. intros (H1 & _). destruct H1 as (_ & _ & Hn & He & _). auto. Qed.

Lemma nca_run_inv e n h m o s s' : nca_inv e n h m s -> nca_run s o = Ok s' -> nca_inv e n h m s'.
Proof.
  intros [Hw X1 X2 X3 X4 Ei Enb Rd Hd] H. pose proof (nca_pos s Hw) as [He Hn]. rewrite X1 in He. rewrite X2 in Hn.
  pose proof Hw as (L1 & L2 & W1 & W2 & W3). destruct o as [p|d|r|x]; cbn [nca_run] in H.
  - pose proof (nca_set_get s p s' Rd H) as (_ & Rd' & _).
    unfold nca_set_params in H.
    apply bind_ok in H as (q1 & E1 & H). apply bind_ok in H as (q2 & _ & H). apply bind_ok in H as (q3 & E3 & H).
    apply bind_ok in H as (q4 & _ & H). apply bind_ok in H as (q5 & E5 & H).
    pose proof (set_tensor_weight _ _ _ _ _ W1 E1) as V1. pose proof (set_tensor_weight _ _ _ _ _ W2 E3) as V2. pose proof (set_tensor_weight _ _ _ _ _ W3 E5) as V3.
    destruct (nc_kpar s) as [|x|l] eqn:EK; [|discriminate|].
    + apply Ok_inj in H. subst s'. constructor; auto. unfold nca_wf. auto 10.
    + unfold mixture_kernel_of in H. apply bind_ok in H as (k & Ek & H). apply bind_ok in Ek as (rr & _ & Ek).
      destruct (mixture_kernel_shape _ _ _ Ek) as (Sk & Wk & Rk & Ak). rewrite Ak in H. cbn [bind] in H.
      apply bind_ok in H as (nl & Enl & H). apply Ok_inj in H. subst s'. rewrite X1, X2, X4 in Enl.
      destruct (layer_of_kernel e n m k rr nl He Hn Sk Enl) as (L2' & _ & _).
      constructor; auto.
      * unfold nca_wf. cbn [nc_ext nc_int nc_hid nc_idl nc_nbl nc_w1 nc_w2 nc_w3]. rewrite X1, X2 in *. auto 10.
      * cbn [nc_nbl]. exists k, rr. auto.
  - unfold nca_set_kernel_config in H. apply bind_ok in H as (r & _ & H). apply bind_ok in H as (k & _ & H).
    apply bind_ok in H as (kp & _ & H). apply bind_ok in H as (kk & _ & H). apply Ok_inj in H. subst s'.
    constructor; auto.
  - unfold nca_set_radius in H. destruct (nc_cfg s) as [d|]; [|discriminate].
    apply bind_ok in H as (k & Ek & H). destruct (get_kernel_radial _ _ Ek) as (rr & Sk & Wk & Rk & _).
    apply bind_ok in H as (kk & Ekk & H).
    assert (kk = k) by (unfold as_kernel in Ekk; apply bind_ok in Ekk as (? & _ & Ekk); apply Ok_inj in Ekk; auto). subst kk.
    apply bind_ok in H as (nl & Enl & H). apply Ok_inj in H. subst s'. rewrite X1, X2, X4 in Enl.
    destruct (layer_of_kernel e n m k rr nl He Hn Sk Enl) as (L2' & _ & _).
    constructor; auto.
    + unfold nca_wf. cbn [nc_ext nc_int nc_hid nc_idl nc_nbl nc_w1 nc_w2 nc_w3]. rewrite X1, X2 in *. auto 10.
    + cbn [nc_nbl]. exists k, rr. auto.
  - apply Ok_inj in H. subst s'. constructor; auto.
Qed.

Lemma nca_reach_inv P e n h m s : nca_reachable P e n h m s -> nca_inv e n h m s.
Proof.
  intros (th & radius & peaks & actv & drop & r1 & r2 & r3 & s0 & os & He & Hn & Hh & T1 & T2 & T3 & E & _ & H).
  apply nca_init_inv in E; auto. clear - E H. revert s0 E H. induction os as [|o os IH]; intros s0 E H; cbn [nca_runs] in H.
  - apply Ok_inj in H. subst; auto.
  - apply bind_ok in H as (s1 & E1 & H). eapply IH; [|exact H]. eapply nca_run_inv; eauto.
Qed.

Lemma nca_reach_synced (P : nca_op -> Prop) e n h m s : (forall o, P o -> params_or_dt o) -> nca_reachable P e n h m s -> nca_synced s.
Proof.
  intros HP (th & radius & peaks & actv & drop & r1 & r2 & r3 & s0 & os & He & Hn & Hh & T1 & T2 & T3 & E & Ho & H).
  apply nca_init_synced in E; auto. clear - HP E Ho H. revert s0 E H. induction Ho as [|o os Hp Ho IH]; intros s0 E H; cbn [nca_runs] in H.
  - apply Ok_inj in H. subst; auto.
  - apply bind_ok in H as (s1 & E1 & H). eapply IH; [|exact H]. apply HP in Hp. destruct o; try contradiction; cbn [nca_run] in E1.
    + eapply nca_set_synced; eauto.
    + apply Ok_inj in E1. subst s1. exact E.
Qed.

Lemma nca_mirror e n h m s : nca_inv e n h m s -> mirror_v (nca_carrier s) /\ mirror_h (nca_carrier s) /\ mirror_t (nca_carrier s).
Proof.
  intros [Hw X1 X2 X3 X4 Ei (k' & r' & S' & W' & Rd' & E') Rd Hd].
  pose proof (nca_pos s Hw) as [He Hn]. rewrite X1 in He. rewrite X2 in Hn.
  destruct id_kernel_facts as (S & W & R0).
  destruct (layer_sym e n m default_id_kernel _ 1 He Hn S Ei) as (A1 & A2 & A3).
  destruct (layer_sym e n m k' _ r' He Hn S' E') as (B1 & B2 & B3).
  destruct (radial_sym 1 default_id_kernel S R0) as (C1 & C2 & C3). destruct (radial_sym r' k' S' Rd') as (D1 & D2 & D3).
  unfold mirror_v, mirror_h, mirror_t, nca_carrier, carrier. cbn [idl nbl]. auto 10.
Qed.

Lemma nca_flips P e n h m s keep q u : nca_reachable P e n h m s -> twf u -> (0 < tH u)%nat -> (0 < tW u)%nat ->
  iter_res (nca_forward false keep s) q (flip_v u) = rmap flip_v (iter_res (nca_forward false keep s) q u) /\
  iter_res (nca_forward false keep s) q (flip_h u) = rmap flip_h (iter_res (nca_forward false keep s) q u) /\
  iter_res (nca_forward false keep s) q (transpose u) = rmap transpose (iter_res (nca_forward false keep s) q u).
Proof.
  intros Hr Hu H0 W0. apply nca_reach_inv in Hr. pose proof (ni_wf _ _ _ _ _ Hr) as Hw.
  destruct (nca_mirror _ _ _ _ _ Hr) as (M1 & M2 & M3). pose proof (nca_carrier_wf s Hw) as Hc.
  split; [|split]; apply nca_iter_natural; auto; apply natural_weaken.
  - apply natural_flip_v; auto.
  - apply natural_flip_h; auto.
  - apply natural_transpose; auto.
Qed.

Lemma nca_reach_roll P e n h s keep dy dx q u : nca_reachable P e n h Circular s -> twf u -> (0 < tH u)%nat -> (0 < tW u)%nat ->
  iter_res (nca_forward false keep s) q (roll dy dx u) = rmap (roll dy dx) (iter_res (nca_forward false keep s) q u).
Proof.
  intros Hr. apply nca_reach_inv in Hr. destruct Hr as [Hw X1 X2 X3 X4 Ei (k' & r' & S' & W' & Rd' & E') Rd Hd].
  pose proof (nca_pos s Hw) as [He Hn]. rewrite X1 in He. rewrite X2 in Hn.
  destruct (layer_of_kernel _ _ _ _ 1 _ He Hn (proj1 id_kernel_facts) Ei) as (_ & _ & M1).
  destruct (layer_of_kernel _ _ _ _ r' _ He Hn S' E') as (_ & _ & M2). apply nca_roll; auto.
Qed.

(** The step succeeds exactly when: *)
Lemma nca_accepts keep s u : nca_wf s -> twf u ->
  (exists u', nca_forward false keep s u = Ok u') <->
  (tC u = nc_ext s /\ nc_int s = nc_ext s /\ (0 < tH u)%nat /\ (0 < tW u)%nat /\ fits (nc_idl s) u /\ fits (nc_nbl s) u /\
   act_ok (nc_a1 s) = Ok tt /\ act_ok (nc_a2 s) = Ok tt).
Proof.
  intros Hw Hu. pose proof Hw as (H1 & H2 & _). unfold nca_forward.
  rewrite (ca_forward_nf _ _ _ _ _ _ _ _ _ _ (mask_if_cell (nc_thr s)) H1 H2 (nca_eval_pointwise keep s Hw) u Hu).
  unfold step_ready, layer_ready, fits, nca_chk.
  split.
  - intros (u' & H). destruct (_ && _) eqn:Ev in H; [|discriminate].
    apply andb_true_iff in Ev as [V1 V2]. rewrite !andb_true_iff in V1, V2. rewrite !Nat.ltb_lt, Nat.eqb_eq in V1, V2.
    destruct (Nat.eqb_spec (nc_int s) (nc_ext s)); [|discriminate].
    apply bind_ok in H as (x & Hx & _). apply bind_ok in Hx as ([] & Hx & Hy). 
    destruct (act_ok (nc_a1 s)) as [[]|]; [|discriminate]. destruct (act_ok (nc_a2 s)) as [[]|]; [|discriminate]. tauto.
  - intros (A & E & B & C & (D1 & D2) & (D3 & D4) & D5 & D6). rewrite D1, D2, D3, D4, A, E, Nat.eqb_refl, D5, D6.
    rewrite (proj2 (Nat.ltb_lt _ _) B), (proj2 (Nat.ltb_lt _ _) C). cbn [andb bind]. rewrite ?Nat.eqb_refl. cbn [andb bind guard]. eauto.
Qed.

(** ** A concrete NCA *)
Definition one_w (c : nat) : tensor := build 1 c 1 1 (fun _ _ _ _ => 1).
Definition ex_idl : conv_layer := mkL default_id_kernel 1 1 Circular.
Definition ex_nca : nca := mkNca 1 1 1 Circular (1 / 10) ex_idl ex_idl (one_w 2) AIdentity (one_w 1) AIdentity (one_w 1) (1 / 2)
  default_id_kernel KPNone None (VInt 1) 1.
Definition ex_cell : tensor := mkT 1 1 1 1 [1 / 2].

Lemma ex_nca_wf : nca_wf ex_nca.
Proof.
  assert (L : layer_wf 1 1 ex_idl).
  { destruct (layer_of_kernel 1 1 Circular default_id_kernel 1 ex_idl ltac:(lia) ltac:(lia) eq_refl eq_refl) as (A & _). exact A. }
  split; [exact L|]. split; [exact L|]. unfold weight. cbn [ex_nca nc_hid nc_ext nc_int nc_w1 nc_w2 nc_w3].
  split; [|split]; (split; [apply twf_build|split; [reflexivity|lia]]).
Qed.

Lemma tanh_pos x : 0 < x -> 0 < tanh x.
Proof.
  intros H. unfold tanh, sinh, cosh.
  assert (H1 : exp (- x) < exp x) by (apply exp_increasing; lra). pose proof (exp_pos x). pose proof (exp_pos (- x)).
  apply Rmult_lt_0_compat; [lra|]. apply Rinv_0_lt_compat. lra.
Qed.

Lemma ex_nca_runs tr keep : exists u', nca_forward tr keep ex_nca ex_cell = Ok u'.
Proof.
  unfold nca_forward, ca_forward. rewrite mask_if_zero_dead by reflexivity. cbn [bind].
  change (zero_dead (nc_thr ex_nca) ex_cell) with ex_cell. unfold ca_update.
  change (nc_idl ex_nca) with ex_idl. change (nc_nbl ex_nca) with ex_idl.
  destruct (nbhd_conv_spec 1 1 default_id_kernel ex_idl 1 ex_cell) as (v & Ev & _); try reflexivity; try (cbn; lia).
  assert (v = ex_cell) by (eapply (id_conv_identity 1 Circular ex_idl); eauto; reflexivity). subst v.
  rewrite Ev. cbn [bind]. rewrite nca_update_eq; try reflexivity; try (cbn; lia); [|exact ex_nca_wf].
  change (nca_chk ex_nca) with (Ok tt). cbn [bind]. unfold euler. eexists. reflexivity.
Qed.

Lemma ex_nca_value tr keep u' : nca_forward tr keep ex_nca ex_cell = Ok u' ->
  get u' 0 0 0 0 = clamp 0 1 (1 / 2 + tanh (drop_factor tr (keep 0%nat 0%nat 0%nat 0%nat) (1 / 2))).
Proof.
  intros H. destruct (nca_closed tr keep ex_nca ex_cell u' ex_nca_wf eq_refl H) as (idn & nb & E1 & E2 & G).
  rewrite (G 0 0 0 0)%nat by (cbn; lia).
  change (zero_dead (nc_thr ex_nca) ex_cell) with ex_cell in *.
  assert (idn = ex_cell) by (eapply (id_conv_identity 1 Circular ex_idl); eauto; reflexivity). 
  assert (nb = ex_cell) by (eapply (id_conv_identity 1 Circular ex_idl); eauto; reflexivity). subst idn nb.
  f_equal. unfold network, mat_vec. cbn [ex_nca nc_w1 nc_w2 nc_w3 nc_a1 nc_a2 nc_dt nc_drop rsum act_fn nc_int].
  change (tC (one_w 1)) with 1%nat. change (tC (one_w 2)) with 2%nat. cbn [rsum]. unfold one_w.
  rewrite !get_build by lia. cbn [Nat.ltb Nat.leb Nat.sub]. replace (get ex_cell 0 0 0 0) with (1 / 2) by reflexivity.
  match goal with |- 1 / 2 + 1 * tanh ?x = 1 / 2 + tanh ?y => replace x with y by field end. ring.
Qed.

Lemma nca_training_random : exists s u keep keep' v v', nca_wf s /\ twf u /\ in_unit u /\
  nca_forward true keep s u = Ok v /\ nca_forward true keep' s u = Ok v' /\ v <> v'.
Proof.
  exists ex_nca, ex_cell, (fun _ _ _ _ => true), (fun _ _ _ _ => false).
  destruct (ex_nca_runs true (fun _ _ _ _ => true)) as [v Hv]. destruct (ex_nca_runs true (fun _ _ _ _ => false)) as [v' Hv'].
  exists v, v'. split; [exact ex_nca_wf|]. split; [reflexivity|]. split; [repeat constructor; lra|]. split; [exact Hv|]. split; [exact Hv'|].
  intros E. apply ex_nca_value in Hv, Hv'. rewrite E, Hv' in Hv. unfold drop_factor in Hv.
  destruct (Req_EM_T (1 / 2) 1); [lra|].
  replace (tanh 0) with 0 in Hv by (unfold tanh, sinh; rewrite Ropp_0; unfold Rdiv; ring).
  pose proof (tanh_pos (1 / (1 - 1 / 2)) ltac:(lra)) as T.
  set (x := tanh (1 / (1 - 1 / 2))) in *.
  assert (A : clamp 0 1 (1 / 2 + 0) = 1 / 2) by (unfold clamp; rewrite Rmax_left, Rmin_left; lra).
  assert (B : 1 / 2 < clamp 0 1 (1 / 2 + x)) by (unfold clamp; rewrite Rmax_left by lra; apply Rmin_glb_lt; lra). lra.
Qed.

Lemma net_length e n h m s : nca_inv e n h m s ->
  List.length (net_params s) = (h * (e + n) + h * h + e * h + List.length (act_params (nc_a1 s)) + List.length (act_params (nc_a2 s)))%nat.
Proof.
  intros [Hw X1 X2 X3 X4 _ _ _ _]. destruct Hw as (_ & _ & (W1 & S1 & _) & (W2 & S2 & _) & (W3 & S3 & _)).
  apply shape_inv in S1 as (A1 & A2 & A3 & A4). apply shape_inv in S2 as (B1 & B2 & B3 & B4). apply shape_inv in S3 as (C1 & C2 & C3 & C4).
  unfold twf in *. unfold net_params. rewrite !app_length, W1, W2, W3, A1, A2, A3, A4, B1, B2, B3, B4, C1, C2, C3, C4, X1, X2, X3. lia.
Qed.

Lemma nca_params_length P e n h m s : nca_reachable P e n h m s ->
  List.length (nca_get_params s) = (h * (e + n) + h * h + e * h + List.length (act_params (nc_a1 s)) + List.length (act_params (nc_a2 s))
     + List.length (kp_flat (nc_kpar s)))%nat.
Proof. intros Hr. apply nca_reach_inv in Hr. rewrite get_net, app_length, (net_length e n h m s Hr). reflexivity. Qed.

Lemma nca_params_short P e n h m s p : nca_reachable P e n h m s ->
  (List.length p < h * (e + n) + h * h + e * h + List.length (act_params (nc_a1 s)) + List.length (act_params (nc_a2 s)))%nat ->
  nca_set_params s p = Err ValueError.
Proof.
  intros Hr Hl. apply nca_reach_inv in Hr. apply nca_set_short; [exact (ni_rd _ _ _ _ _ Hr)|]. rewrite (net_length e n h m s Hr). exact Hl.
Qed.

Lemma nca_params_scalar P e n h m s p r : nca_reachable P e n h m s -> nc_kpar s = KPScalar r ->
  (h * (e + n) + h * h + e * h + List.length (act_params (nc_a1 s)) + List.length (act_params (nc_a2 s)) <= List.length p)%nat ->
  nca_set_params s p = Err IndexError.
Proof.
  intros Hr Hk Hl. apply nca_reach_inv in Hr. eapply nca_scalar_kpar; eauto; [exact (ni_rd _ _ _ _ _ Hr)|].
  rewrite (net_length e n h m s Hr). exact Hl.
Qed.

Lemma nca_params_self (P : nca_op -> Prop) e n h m s : (forall o, P o -> params_or_dt o) -> nca_reachable P e n h m s ->
  exists s', nca_set_params s (nca_get_params s) = Ok s' /\ nca_get_params s' = nca_get_params s /\
    (forall tr keep u, nca_forward tr keep s' u = nca_forward tr keep s u) /\
    (forall tr keep u md, nca_frame tr keep s' u md = nca_frame tr keep s u md).
Proof.
  intros HP Hr. destruct (nca_set_self s (nca_reach_synced P e n h m s HP Hr)) as (s' & E & S). exists s'. split; [exact E|].
  split; [rewrite S; reflexivity|]. split; [apply same_but_kern_forward; exact S|apply same_but_kern_frame; exact S].
Qed.
