(** Closed formula of a CCA step, its change bound, and small concrete automata. *)
From Coq Require Import Reals Lra Lia List Arith Bool ZArith.
From Verif Require Import Base PyDict Tensor MActivations MKernels MCommon MCca SGrid SCca PTensor PStep PCca PSym PDyn PEqv PCode.
Import ListNotations.
Open Scope R_scope.

Lemma make_cca_pm e n m th kid knb g p d c : make_cca e n m th kid knb g p d = Ok c -> pm c = m.
Proof.
  unfold make_cca. intros H. repeat (apply bind_ok in H as (? & _ & H)). injection H as <-. reflexivity.
Qed.

(** A fresh automaton with the default identity kernel, equal channel counts and one
    toroidal kernel shared by all channels. *)
Lemma step_formula n r th k g p d c u : (0 < n)%nat ->
  tB k = 1%nat -> tC k = 1%nat -> tH k = (2 * r + 1)%nat -> tW k = (2 * r + 1)%nat ->
  make_cca n n Circular th (K4 default_id_kernel) (K4 k) g p d = Ok c ->
  twf u -> tC u = n -> (1 <= tH u)%nat -> (1 <= tW u)%nat -> (r <= tH u)%nat -> (r <= tW u)%nat ->
  List.length g = n -> List.length p = n -> acts_ok g = Ok tt -> acts_ok p = Ok tt ->
  let m := zero_dead th u in
  let N := fun b q i j => toroidal_sum r (tH u) (tW u) (fun y x => get k 0 0 y x) (get m b q) i j in
  exists u', cca_forward c u = Ok u' /\ shape u' = shape u /\ twf u' /\
  forall b o i j, (b < tB u)%nat -> (o < n)%nat -> (i < tH u)%nat -> (j < tW u)%nat ->
    get u' b o i j = clamp 0 1 (get m b o i j + d *
      (rsum n (fun q => (1 - get m b q i j) * act_fn (nth q g AIdentity) (N b q i j)
                        + get m b q i j * act_fn (nth q p AIdentity) (N b q i j)) / (INR n * INR n))).
Proof.
  intros Hn kB kC kH kW Hc Hu Cu H1 W1 Hr Wr Lg Lp Ag Ap m N.
  assert (Hk4 : as_kernel (K4 k) = Ok k) by (cbn [as_kernel]; rewrite kH, kW, Nat.eqb_refl; reflexivity).
  destruct (make_cca_wf n n Circular th (K4 default_id_kernel) (K4 k) g p d c default_id_kernel k 1 r Hn Hn eq_refl Hk4 eq_refl kW Hc)
    as (Wf & E1 & E2 & E3 & E4 & E5 & E6 & E7 & E8 & E9 & E10 & E11 & E12 & E13).
  pose proof (make_cca_pm _ _ _ _ _ _ _ _ _ _ Hc) as Epm.
  assert (Hex : exists u', cca_forward c u = Ok u').
  { apply cca_accepts; auto. unfold fits. rewrite E1, E2, E4, E5, E7, E8, E9, E10. cbn [pad_allowed].
    repeat (split; auto); try (apply Nat.leb_le; lia). }
  destruct Hex as [u' Hf]. exists u'. split; auto.
  destruct (cca_shape c u u' Wf Hu Hf) as [Su Wu]. split; auto. split; auto.
  destruct (cca_rule c u u' Wf Hu) as (m' & idn & nb & Em & Ei & Enb & Hv); auto.
  { rewrite E1, E2, Epm. exact E13. }
  rewrite mask_if_zero_dead in Em by auto. injection Em as <-. rewrite E3 in *. fold m in Ei, Enb, Hv.
  destruct (mask_dims _ _ (mask_if_cell th) u m Hu ltac:(unfold m; apply mask_if_zero_dead; auto)) as [Mw Ms].
  injection Ms as M1 M2 M3 M4.
  assert (Eid : idn = m) by (apply (id_conv_identity n Circular (idl c) m idn); auto).
  destruct (nbhd_conv_spec n n k (nbl c) r m) as (v & Ev & _ & Hnb); auto; try lia.
  assert (v = nb) by congruence. subst v idn.
  intros b o i j Hb Ho Hi Hj. rewrite (Hv b o i j) by (auto; lia). rewrite E1, E2, E4, E5, E6.
  f_equal. f_equal. f_equal. f_equal. apply rsum_ext. intros q Hq.
  assert (Eq : get nb b q i j = N b q i j).
  { rewrite Hnb by lia. rewrite Nat.mod_same, Nat.eqb_refl, Nat.div_same, Nat.div_1_r by lia.
    unfold N. rewrite M3, M4. unfold toroidal_sum.
    apply rsum_ext; intros y Hy. apply rsum_ext; intros x Hx. f_equal.
    unfold bget. rewrite kB, kC. unfold bidx. cbn [Nat.eqb].
    destruct (tH k =? 1)%nat eqn:EH; destruct (tW k =? 1)%nat eqn:EW; try reflexivity;
      rewrite ?Nat.eqb_eq, ?Nat.eqb_neq in *; replace r with 0%nat in * by lia;
      replace y with 0%nat by lia; replace x with 0%nat by lia; reflexivity. }
  rewrite Eq. reflexivity.
Qed.

(** ** Change bound for such automata *)
Lemma zero_dead_unit th u : twf u -> in_unit u -> in_unit (zero_dead th u).
Proof.
  intros Hu Hin. unfold zero_dead. destruct (Nat.leb 4 (tC u)); auto.
  unfold in_unit. apply Forall_forall. intros x Hx.
  apply in_data_get in Hx as (b & c & i & j & Hb & Hc & Hi & Hj & ->); [|apply twf_build].
  cbn in Hb, Hc, Hi, Hj. rewrite get_build by auto. destruct (Rlt_dec th (get u b 3 i j)); [|lra].
  unfold in_unit in Hin. rewrite Forall_forall in Hin. apply Hin. apply get_in_data; auto.
Qed.

Lemma change_bound n m th kid knb kt pn g p d c u u' : (0 < n)%nat -> kid = K4 default_id_kernel ->
  as_kernel knb = Ok kt -> tW kt = (2 * pn + 1)%nat ->
  make_cca n n m th kid knb g p d = Ok c -> twf u -> 0 <= d -> in_unit u ->
  (forall a x, In a g -> -1 <= act_fn a x <= 1) -> (forall a x, In a p -> -1 <= act_fn a x <= 1) ->
  cca_forward c u = Ok u' ->
  forall b o i j, (b < tB u)%nat -> (o < n)%nat -> (i < tH u)%nat -> (j < tW u)%nat ->
  Rabs (get u' b o i j - get (zero_dead th u) b o i j) <= d / INR n.
Proof.
  intros Hn -> Hk kW Hc Hu Hd Hin Hg Hp Hf b o i j Hb Ho Hi Hj.
  destruct (make_cca_wf n n m th (K4 default_id_kernel) knb g p d c default_id_kernel kt 1 pn Hn Hn eq_refl Hk eq_refl kW Hc)
    as (Wf & E1 & E2 & E3 & E4 & E5 & E6 & E7 & E8 & E9 & E10 & E11 & E12 & E13).
  pose proof (make_cca_pm _ _ _ _ _ _ _ _ _ _ Hc) as Epm.
  destruct (proj1 (cca_accepts c u Wf Hu)) as (A1 & _ & _ & _ & _ & A6 & A7 & _); [eauto|].
  (* functions outside the list never matter: replace the default by a bounded one *)
  set (c' := mkCca (ext c) (int_ c) (pm c) (thr c) (idl c) (nbl c) (wl c)
               (gens c) (pers c) (dt c)).
  rewrite <- E3, <- E6, <- E1.
  destruct (cca_rule c u u' Wf Hu) as (m' & idn & nb & Em & Ei & Enb & Hv); auto.
  { rewrite E1, E2, Epm. exact E13. }
  rewrite mask_if_zero_dead in Em by auto. injection Em as <-. set (mm := zero_dead (thr c) u) in *.
  destruct (mask_dims _ _ (mask_if_cell (thr c)) u mm Hu ltac:(unfold mm; apply mask_if_zero_dead; auto)) as [Mw Ms].
  injection Ms as M1 M2 M3 M4.
  assert (Eid : idn = mm) by (apply (id_conv_identity n m (idl c) mm idn); auto). subst idn.
  rewrite (Hv b o i j) by (auto; lia).
  assert (Hmu : in_unit mm) by (apply zero_dead_unit; auto).
  assert (Hr : forall q, (q < n)%nat -> 0 <= get mm b q i j <= 1).
  { intros q Hq. unfold in_unit in Hmu. rewrite Forall_forall in Hmu. apply Hmu.
    apply get_in_data; auto; lia. }
  set (S := rsum (int_ c) _).
  assert (HS : Rabs S <= INR n).
  { unfold S. rewrite E2. rewrite <- (Rmult_1_r (INR n)). apply rsum_bound; [lra|]. intros q Hq.
    apply convex_abs; auto.
    - apply Hg. rewrite <- E4. apply nth_In. rewrite A6, E2. auto.
    - apply Hp. rewrite <- E5. apply nth_In. rewrite A7, E2. auto. }
  assert (Hpos : 0 < INR n) by (apply lt_0_INR; auto).
  assert (Hx : 0 <= get mm b o i j <= 1) by (apply Hr; auto).
  rewrite <- (clamp_id 0 1 (get mm b o i j)) at 2 by lra.
  eapply Rle_trans; [apply clamp_lip|].
  replace (get mm b o i j + dt c * (S / (INR (ext c) * INR (int_ c))) - get mm b o i j)
    with (dt c / INR (ext c) * (S / INR (int_ c))) by (rewrite E1, E2; field; lra).
  rewrite Rabs_mult. rewrite (Rabs_right (dt c / INR (ext c))).
  2:{ apply Rle_ge. rewrite E1, E6. apply Rmult_le_pos; [lra|]. apply Rlt_le, Rinv_0_lt_compat; auto. }
  rewrite <- (Rmult_1_r (dt c / INR (ext c))) at 2. apply Rmult_le_compat_l.
  { rewrite E1, E6. apply Rmult_le_pos; [lra|]. apply Rlt_le, Rinv_0_lt_compat; auto. }
  rewrite E2. unfold Rdiv. rewrite Rabs_mult, (Rabs_right (/ INR n)) by (apply Rle_ge, Rlt_le, Rinv_0_lt_compat; auto).
  apply Rmult_le_reg_r with (INR n); auto. rewrite Rmult_assoc, Rinv_l, Rmult_1_r by lra. lra.
Qed.

(** ** One-cell automata: 1x1 kernels and one update function for both roles *)
Definition unit_kernel : tensor := mkT 1 1 1 1 [1].
Definition unit_layer (m : pmode) : conv_layer := mkL unit_kernel 1 0 m.
Definition pt_cca (a : act) (d : R) : cca :=
  mkCca 1 1 Circular (1 / 10) (unit_layer Circular) (unit_layer Circular) (WConv (unit_layer Circular)) [a] [a] d.

Lemma pt_cca_built a d :
  make_cca 1 1 Circular (1 / 10) (K4 unit_kernel) (K4 unit_kernel) [a] [a] d = Ok (pt_cca a d).
Proof.
  unfold make_cca. cbn [as_kernel unit_kernel tH tW Nat.eqb guard bind].
  assert (E : init_layer 1 1 Circular unit_kernel = Ok (unit_layer Circular)) by reflexivity.
  fold unit_kernel. rewrite E. cbn [bind].
  assert (Ew : init_weights 1 1 Circular = Ok (WConv (unit_layer Circular))).
  { unfold init_weights. cbv -[Rplus Rmult Rdiv R1 R0 nonzero guard bind IZR].
    replace (1 + 0) with 1 by ring. unfold nonzero. destruct (Req_EM_T 1 0); [lra|]. cbn [guard bind].
    unfold unit_layer, unit_kernel. repeat f_equal. field. }
  rewrite Ew. reflexivity.
Qed.

Lemma pt_cca_wf a d : cca_wf (pt_cca a d).
Proof.
  destruct (make_cca_wf 1 1 Circular (1 / 10) (K4 unit_kernel) (K4 unit_kernel) [a] [a] d (pt_cca a d) unit_kernel unit_kernel 0 0)
    as [H _]; auto using pt_cca_built.
Qed.

Lemma unit_convf m H W f i j : (i < H)%nat -> (j < W)%nat -> convf (unit_layer m) H W f 0 i j = f 0%nat i j.
Proof.
  intros Hi Hj. unfold convf, unit_layer, unit_kernel. cbn [cl_w cl_g cl_p cl_m tB tC tH tW].
  cbn [rsum]. replace (get _ 0 0 0 0) with 1 by reflexivity.
  unfold pval. rewrite !Nat.add_0_r, !pad_src_0 by auto.
  change (0 / (1 / 1) * 1)%nat with 0%nat. ring.
Qed.

Lemma pt_cca_step a d u : act_ok a = Ok tt -> twf u -> tC u = 1%nat -> (0 < tH u)%nat -> (0 < tW u)%nat ->
  cca_forward (pt_cca a d) u = Ok (tmap (fun x => clamp 0 1 (x + d * act_fn a x)) u).
Proof.
  intros Ha Hu Hc H0 W0. rewrite cca_forward_nf by (auto using pt_cca_wf).
  assert (Er : step_ready (ext (pt_cca a d)) (idl (pt_cca a d)) (nbl (pt_cca a d)) u = true).
  { apply step_ready_iff. unfold fits. cbn [pt_cca ext idl nbl unit_layer cl_m cl_p pad_allowed].
    repeat split; auto; apply Nat.leb_le; lia. }
  rewrite Er. unfold cca_chk, fns_chk. cbn [pt_cca int_ gens pers List.length Nat.eqb guard bind acts_ok].
  rewrite Ha. cbn [bind]. f_equal. rewrite (tmap_eq_build _ u Hu). cbn [ext]. rewrite Hc.
  apply build_ext. intros b o i j Hb Ho Hi Hj. replace o with 0%nat by lia.
  unfold step_val, cca_ufn, gen_at, per_at. cbn [pt_cca thr idl nbl dt wl wl_fn gens pers].
  unfold pt_fn. change (tC (cl_w (unit_layer Circular))) with 1%nat. cbn [rsum].
  rewrite !unit_convf by auto.
  unfold mval, mask_fn. rewrite Hc. cbn [Nat.leb nth]. f_equal. f_equal. f_equal.
  replace (get (cl_w (unit_layer Circular)) 0 0 0 0) with 1 by reflexivity. ring.
Qed.

Lemma pt_cca_dt a d d' : set_core_dt (pt_cca a d) d' = pt_cca a d'.
Proof. reflexivity. Qed.

(** ** CODE: elements of a batch influence each other *)
Definition wit_act : act := APolynomial [2; -6; 8] false.
Definition wit_code : code_ca := code_init (pt_cca wit_act (1 / 10)).
Definition wit_batch : tensor := mkT 2 1 1 1 [1 / 4; 0].
Definition wit_alone : tensor := mkT 1 1 1 1 [1 / 4].

Lemma wit_elem : batch_elem 0 wit_batch = wit_alone.
Proof. reflexivity. Qed.

Lemma wit_fn x : act_fn wit_act x = 2 - 6 * x + 8 * x ^ 2.
Proof. unfold wit_act. cbn [act_fn poly_from]. simpl. ring. Qed.

Lemma tzip_tmap f g r u : twf u -> tzip r (tmap f u) (tmap g u) = Ok (tmap (fun x => r (f x) (g x)) u).
Proof.
  intros Hu. rewrite tzip_same by reflexivity. rewrite (tmap_eq_build (fun x => r (f x) (g x)) u Hu). f_equal.
  cbn [tmap tB tC tH tW]. apply build_ext. intros b c i j Hb Hc Hi Hj.
  fold (tmap f u). fold (tmap g u). rewrite !get_tmap by auto. reflexivity.
Qed.

Definition pt_step (a : act) (h x : R) : R := clamp 0 1 (x + h * act_fn a x).

Lemma pt_code_error a d h u : act_ok a = Ok tt -> twf u -> tC u = 1%nat -> (0 < tH u)%nat -> (0 < tW u)%nat ->
  tdata u <> [] ->
  code_error (pt_cca a d) h u =
  Ok (lmax (map (fun x => rel_error (pt_step a h x) (pt_step a (h * (1 / 2)) (pt_step a (h * (1 / 2)) x))) (tdata u))).
Proof.
  intros Ha Hu Hc H0 W0 Hd. unfold code_error, code_grid. change (step update_universe) with cca_forward.
  rewrite !pt_cca_dt. rewrite !pt_cca_step by auto. cbn [bind].
  rewrite pt_cca_step by (auto; apply twf_tmap; auto). cbn [bind].
  assert (Em : forall f g, tmap f (tmap g u) = tmap (fun x => f (g x)) u).
  { intros f g. unfold tmap; cbn [tdata tB tC tH tW]. rewrite map_map. reflexivity. }
  rewrite Em, tzip_tmap by auto. cbn [bind tmap tdata]. rewrite map_length.
  destruct (tdata u) as [|x l] eqn:E; [congruence|]. cbn [List.length Nat.eqb negb guard bind]. reflexivity.
Qed.

Lemma wit_step_a : pt_step wit_act (1 / 2) (1 / 4) = 3 / 4.
Proof. unfold pt_step. rewrite wit_fn. rewrite clamp_id by (split; lra). field. Qed.

Lemma wit_err_a : rel_error (pt_step wit_act (1 / 2) (1 / 4))
  (pt_step wit_act (1 / 2 * (1 / 2)) (pt_step wit_act (1 / 2 * (1 / 2)) (1 / 4))) = 0.
Proof.
  assert (E1 : pt_step wit_act (1 / 2 * (1 / 2)) (1 / 4) = 1 / 2).
  { unfold pt_step. rewrite wit_fn. rewrite clamp_id by (split; lra). field. }
  assert (E2 : pt_step wit_act (1 / 2 * (1 / 2)) (1 / 2) = 3 / 4).
  { unfold pt_step. rewrite wit_fn. rewrite clamp_id by (split; lra). field. }
  rewrite wit_step_a, E1, E2. unfold rel_error. replace (3 / 4 - 3 / 4) with 0 by ring. rewrite Rabs_R0, Rmult_0_l.
  destruct (Rlt_dec 0 0); lra.
Qed.

Lemma wit_err_b : rel_error (pt_step wit_act (1 / 2) 0)
  (pt_step wit_act (1 / 2 * (1 / 2)) (pt_step wit_act (1 / 2 * (1 / 2)) 0)) = 1 / 3.
Proof.
  assert (E0 : pt_step wit_act (1 / 2) 0 = 1).
  { unfold pt_step. rewrite wit_fn. rewrite clamp_id by (split; lra). field. }
  assert (E1 : pt_step wit_act (1 / 2 * (1 / 2)) 0 = 1 / 2).
  { unfold pt_step. rewrite wit_fn. rewrite clamp_id by (split; lra). field. }
  assert (E2 : pt_step wit_act (1 / 2 * (1 / 2)) (1 / 2) = 3 / 4).
  { unfold pt_step. rewrite wit_fn. rewrite clamp_id by (split; lra). field. }
  rewrite E0, E1, E2. unfold rel_error. rewrite (Rabs_right (1 - 3 / 4)) by lra.
  destruct (Rlt_dec 0 (3 / 4)); [|lra]. destruct (Rlt_dec 0 ((1 - 3 / 4) * (1 * 1))); [field|lra].
Qed.

Lemma wit_error_alone : code_error (cd_core wit_code) (1 / 2) wit_alone = Ok 0.
Proof.
  unfold wit_code, code_init. cbn [cd_core]. rewrite pt_code_error by (reflexivity || discriminate || (cbn; lia)).
  cbn [wit_alone tdata map lmax fold_left]. rewrite wit_err_a. reflexivity.
Qed.

Lemma wit_error_batch : code_error (cd_core wit_code) (1 / 2) wit_batch = Ok (1 / 3).
Proof.
  unfold wit_code, code_init. cbn [cd_core]. rewrite pt_code_error by (reflexivity || discriminate || (cbn; lia)).
  cbn [wit_batch tdata map lmax fold_left]. rewrite wit_err_a, wit_err_b. rewrite Rmax_right by lra. reflexivity.
Qed.

Lemma wit_h0 : h0 wit_code = 1 / 2.
Proof. unfold h0, wit_code, code_init. cbn [cd_prev cd_max]. rewrite Rmin_right; lra. Qed.

Lemma code_batch_dependent : exists s u k, cca_wf (cd_core s) /\ twf u /\ (k < tB u)%nat /\
  exists fuel s1 u1 s2 u2, code_forward fuel s u = Ok (s1, u1) /\
    code_forward fuel s (batch_elem k u) = Ok (s2, u2) /\ batch_elem k u1 <> u2.
Proof.
  exists wit_code, wit_batch, 0%nat. split; [apply pt_cca_wf|]. split; [reflexivity|]. split; [cbn; lia|].
  rewrite wit_elem.
  assert (Hc : cca_wf (cd_core wit_code)) by apply pt_cca_wf.
  assert (Fa : cca_forward (cd_core wit_code) wit_alone = Ok (tmap (pt_step wit_act (1 / 10)) wit_alone)).
  { apply pt_cca_step; reflexivity || (cbn; lia). }
  assert (Fb : cca_forward (cd_core wit_code) wit_batch = Ok (tmap (pt_step wit_act (1 / 10)) wit_batch)).
  { apply pt_cca_step; reflexivity || (cbn; lia). }
  destruct (code_forward_total wit_code wit_batch _ Hc eq_refl ltac:(cbn; lia) Fb) as [N1 T1];
    try (unfold wit_code, code_init; cbn; lra).
  destruct (code_forward_total wit_code wit_alone _ Hc eq_refl ltac:(cbn; lia) Fa) as [N2 T2];
    try (unfold wit_code, code_init; cbn; lra).
  destruct (T1 (S (N1 + N2)) ltac:(lia)) as (s1 & u1 & C1).
  destruct (T2 (S (N1 + N2)) ltac:(lia)) as (s2 & u2 & C2).
  exists (S (N1 + N2)), s1, u1, s2, u2. split; [exact C1|]. split; [exact C2|].
  apply code_forward_spec in C1 as (_ & _ & _ & _ & _ & _ & G1 & _ & k1 & K1 & R1).
  apply code_forward_spec in C2 as (_ & _ & _ & _ & _ & _ & G2 & _ & k2 & K2 & R2).
  rewrite wit_h0 in *.
  assert (P2 : cd_prev s2 = 1 / 2).
  { destruct k2.
    - rewrite tried_0 in R2. destruct R2 as [(-> & _)|(_ & L)]; auto.
      unfold wit_code, code_init in L. cbn [cd_min] in L. lra.
    - destruct (K2 0%nat ltac:(lia)) as (_ & e & Ee & Le). rewrite tried_0, wit_error_alone in Ee.
      injection Ee as <-. unfold wit_code, code_init in Le. cbn [cd_thr] in Le. lra. }
  assert (P1 : cd_prev s1 <= 3 / 8).
  { destruct k1.
    - rewrite tried_0 in R1. destruct R1 as [(_ & _ & e & Ee & Le)|(_ & L)].
      + rewrite wit_error_batch in Ee. injection Ee as <-. unfold wit_code, code_init in Le. cbn [cd_thr] in Le. lra.
      + unfold wit_code, code_init in L. cbn [cd_min] in L. lra.
    - destruct R1 as [(-> & _)|(-> & _)].
      + rewrite <- tried_S. eapply Rle_trans; [apply tried_dec; lra|lra].
      + unfold wit_code, code_init. cbn [cd_min]. lra. }
  unfold wit_code, code_init in G1, G2. cbn [cd_core] in G1, G2. rewrite pt_cca_dt in G1, G2.
  rewrite pt_cca_step in G1 by (reflexivity || (cbn; lia)).
  rewrite pt_cca_step in G2 by (reflexivity || (cbn; lia)).
  injection G1 as <-. injection G2 as <-. rewrite P2.
  intros E. apply (f_equal (fun t => get t 0 0 0 0)) in E.
  unfold batch_elem in E. rewrite get_build in E by (cbn; lia).
  change (get (tmap (pt_step wit_act (cd_prev s1)) wit_batch) 0 0 0 0 = get (tmap (pt_step wit_act (1 / 2)) wit_alone) 0 0 0 0) in E.
  rewrite !get_tmap in E by (reflexivity || (cbn; lia)).
  change (get wit_batch 0 0 0 0) with (1 / 4) in E. change (get wit_alone 0 0 0 0) with (1 / 4) in E.
  rewrite wit_step_a in E. unfold pt_step in E. rewrite wit_fn in E.
  assert (Hle : clamp 0 1 (1 / 4 + cd_prev s1 * (2 - 6 * (1 / 4) + 8 * (1 / 4) ^ 2)) <= clamp 0 1 (5 / 8)).
  { apply clamp_mono. simpl. lra. }
  rewrite (clamp_id 0 1 (5 / 8)) in Hle by lra. lra.
Qed.

(** ** forward and get_frame differ with four channels *)
Definition frame_cca : cca :=
  mkCca 4 4 Circular (1 / 10)
    (mkL (mkT 4 1 1 1 [1; 1; 1; 1]) 4 0 Circular) (mkL (mkT 4 1 1 1 [1; 1; 1; 1]) 4 0 Circular)
    (WConv (mkL (mkT 4 4 1 1 (repeat (1 / 16) 16)) 1 0 Circular))
    [AIdentity; AIdentity; AIdentity; AIdentity] [AIdentity; AIdentity; AIdentity; AIdentity] 0.
Definition frame_grid : tensor := mkT 1 4 1 1 [1; 0; 0; 0].

Lemma frame_cca_wf : cca_wf frame_cca.
Proof.
  unfold cca_wf, frame_cca, wl_wf, pt_layer, layer_wf, groups_ok, twf.
  cbn [ext int_ idl nbl wl cl_w cl_g cl_p cl_m tB tC tH tW tdata List.length repeat].
  repeat split; try lia; try reflexivity; try (exists 1%nat; reflexivity); exists 4%nat; reflexivity.
Qed.

Definition set_thr (c : cca) (t : R) : cca :=
  mkCca (ext c) (int_ c) (pm c) t (idl c) (nbl c) (wl c) (gens c) (pers c) (dt c).

Lemma frame_step t : cca_forward (set_thr frame_cca t) frame_grid =
  Ok (build 1 4 1 1 (fun b c i j => clamp 0 1 (mask_fn t 4 (fun k => get frame_grid b k i j) c))).
Proof.
  rewrite cca_forward_nf by (reflexivity || exact frame_cca_wf).
  assert (Er : step_ready (ext (set_thr frame_cca t)) (idl (set_thr frame_cca t)) (nbl (set_thr frame_cca t)) frame_grid = true).
  { apply step_ready_iff. unfold fits. cbn. auto 10. }
  rewrite Er. assert (Ek : cca_chk (set_thr frame_cca t) = Ok tt) by reflexivity. rewrite Ek. cbn [bind].
  change (ext (set_thr frame_cca t)) with 4%nat. change (dt (set_thr frame_cca t)) with 0. change (thr (set_thr frame_cca t)) with t.
  f_equal. change (tB frame_grid) with 1%nat. change (tH frame_grid) with 1%nat. change (tW frame_grid) with 1%nat.
  apply build_ext. intros b c i j Hb Hc Hi Hj. unfold step_val, mval. change (tC frame_grid) with 4%nat.
  f_equal. ring.
Qed.

Lemma frame_differs : exists c u r1 r2, cca_wf c /\ twf u /\ tC u = 4%nat /\
  cca_forward c u = Ok r1 /\ get_frame update_universe c u 0 = Ok (Some [r2]) /\ r1 <> r2.
Proof.
  set (r t := build 1 4 1 1 (fun b c i j => clamp 0 1 (mask_fn t 4 (fun k => get frame_grid b k i j) c))).
  exists frame_cca, frame_grid, (r (1 / 10)), (r (-1)).
  split; [exact frame_cca_wf|]. split; [reflexivity|]. split; [reflexivity|].
  split; [exact (frame_step (1 / 10))|]. split.
  - assert (Ez : zero_dead (-1) frame_grid = frame_grid).
    { unfold zero_dead. cbn [frame_grid tC Nat.leb]. fold frame_grid.
      rewrite <- (build_get frame_grid) at 4 by reflexivity. cbn [frame_grid tB tC tH tW]. fold frame_grid.
      apply build_ext. intros b c i j Hb Hc Hi Hj. destruct (Rlt_dec (-1) (get frame_grid b 3 i j)) as [|n]; [reflexivity|].
      exfalso. apply n. replace b with 0%nat by lia. replace i with 0%nat by lia. replace j with 0%nat by lia.
      change (get frame_grid 0 3 0 0) with 0. lra. }
    pose proof (frame_step (-1)) as Hs. unfold cca_forward in Hs.
    rewrite forward_is_frame_of_masked in Hs by reflexivity. cbn [thr set_thr] in Hs. rewrite Ez in Hs.
    change (get_frame update_universe (set_thr frame_cca (-1)) frame_grid 0)
      with (get_frame update_universe frame_cca frame_grid 0) in Hs.
    unfold get_frame in *.
    destruct (conv_apply (idl frame_cca) frame_grid) as [x1|]; [|discriminate Hs]. cbn [bind] in *.
    destruct (conv_apply (nbl frame_cca) frame_grid) as [x2|]; [|discriminate Hs]. cbn [bind] in *.
    destruct (update_universe frame_cca x1 x2) as [x3|]; [|discriminate Hs]. cbn [bind] in *.
    destruct (euler (dt frame_cca) frame_grid x3) as [x4|]; [|discriminate Hs]. cbn [bind rmap] in *.
    injection Hs as ->. reflexivity.
  - intros E. apply (f_equal (fun t => get t 0 0 0 0)) in E. unfold r in E.
    rewrite !get_build in E by lia. unfold mask_fn in E. cbn [Nat.leb] in E.
    change (get frame_grid 0 3 0 0) with 0 in E. change (get frame_grid 0 0 0 0) with 1 in E.
    destruct (Rlt_dec (1 / 10) 0); [lra|]. destruct (Rlt_dec (-1) 0); [|lra].
    rewrite Rmult_0_r, Rmult_1_r, !clamp_id in E by lra. lra.
Qed.
