(** Proofs about the CCA and Lenia dynamics. *)
From Coq Require Import Reals Lra Lia List Arith Bool ZArith.
From Verif Require Import Base PyDict Tensor MActivations MKernels MCommon MCca PTensor PStep PCca PSym SGrid SCca.
Import ListNotations.
Open Scope R_scope.

(** ** Construction *)
Lemma make_cca_wf e n m th kid knb g p d c kt nt pi pn :
  (0 < e)%nat -> (0 < n)%nat -> as_kernel kid = Ok kt -> as_kernel knb = Ok nt ->
  tW kt = (2 * pi + 1)%nat -> tW nt = (2 * pn + 1)%nat ->
  make_cca e n m th kid knb g p d = Ok c ->
  cca_wf c /\ ext c = e /\ int_ c = n /\ thr c = th /\ gens c = g /\ pers c = p /\ dt c = d /\
  cl_p (idl c) = pi /\ cl_p (nbl c) = pn /\ cl_m (idl c) = m /\ cl_m (nbl c) = m /\
  init_layer e n m kt = Ok (idl c) /\ init_layer e n m nt = Ok (nbl c) /\ init_weights e n m = Ok (wl c).
Proof.
  intros He Hn Hk Hnk Ek En H. unfold make_cca in H. rewrite Hk, Hnk in H. cbn [bind] in H.
  apply bind_ok in H as (il & Hil & H). apply bind_ok in H as (nl & Hnl & H).
  apply bind_ok in H as (w & Hw & E). injection E as <-. simpl.
  assert (Hsq : forall k t, as_kernel k = Ok t -> tH t = tW t).
  { intros k t. destruct k as [h w' dd|? ? ? ?|t']; simpl.
    - destruct (Nat.eqb_spec w' h); simpl; [|discriminate]. intros E; injection E as <-; simpl; auto.
    - destruct (Nat.eqb _ _); discriminate.
    - destruct (Nat.eqb_spec (tW t') (tH t')); simpl; [|discriminate]. intros E; injection E as <-; auto. }
  pose proof (Hsq _ _ Hk) as S1. pose proof (Hsq _ _ Hnk) as S2.
  destruct (init_layer_wf e n m kt il pi He Hn) as (W1 & P1 & M1); auto; [congruence|].
  destruct (init_layer_wf e n m nt nl pn He Hn) as (W2 & P2 & M2); auto; [congruence|].
  unfold cca_wf; simpl. repeat split; auto; try apply W1; try apply W2.
  eapply wl_init_wf; eauto.
Qed.

Lemma make_cca_ok e n m th kt nt g p d :
  (0 < e)%nat -> (0 < n)%nat -> tH kt = tW kt -> tH nt = tW nt -> tC kt = 1%nat -> tC nt = 1%nat ->
  (tB kt = 1%nat \/ tB kt = n) -> (tB nt = 1%nat \/ tB nt = n) ->
  exists c, make_cca e n m th (K4 kt) (K4 nt) g p d = Ok c.
Proof.
  intros He Hn S1 S2 C1 C2 B1 B2. unfold make_cca. simpl.
  rewrite S1, S2, !Nat.eqb_refl. cbn [guard bind].
  destruct (init_layer_ok e n m kt He B1 C1) as (l1 & ->). cbn [bind].
  destruct (init_layer_ok e n m nt He B2 C2) as (l2 & ->). cbn [bind].
  destruct (init_weights_ok e n m He Hn) as (w & ->). cbn [bind]. eauto.
Qed.

(** ** C01 range *)
Lemma step_in_unit upd c u u' : step upd c u = Ok u' -> in_unit u'.
Proof. unfold step. apply ca_forward_in01. Qed.

Lemma iter_last {A} (f : A -> res A) n a b : iter_res f (S n) a = Ok b ->
  exists a', iter_res f n a = Ok a' /\ f a' = Ok b.
Proof.
  revert a. induction n; intros a H; cbn [iter_res] in *.
  - apply bind_ok in H as (x & Hx & E). injection E as <-. eauto.
  - apply bind_ok in H as (x & Hx & E). destruct (IHn x E) as (a' & Ha & Hf).
    exists a'. rewrite Hx. auto.
Qed.

Lemma iter_snoc {A} (f : A -> res A) n a : iter_res f (S n) a = (let* b := iter_res f n a in f b).
Proof.
  revert a; induction n; intros a.
  - cbn [iter_res bind]. destruct (f a); reflexivity.
  - cbn [iter_res] in *. destruct (f a) as [b|]; [|reflexivity]. cbn [bind]. apply IHn.
Qed.

Lemma steps_in_unit upd c n u u' : iter_res (step upd c) (S n) u = Ok u' -> in_unit u'.
Proof. intros H. apply iter_last in H as (a & _ & H). eapply step_in_unit; eauto. Qed.

Lemma get_frame_in_unit upd c u mode l new : get_frame upd c u mode = Ok (Some (new :: l)) -> in_unit new.
Proof.
  unfold get_frame. intros H. apply bind_ok in H as (i & _ & H). apply bind_ok in H as (nb & _ & H).
  apply bind_ok in H as (d & _ & H). apply bind_ok in H as (nw & Hn & H). apply euler_in01 in Hn.
  destruct mode as [|[|[|[|[|]]]]]; inversion H; subst; auto.
Qed.

Lemma rs_in_unit s r u s' u' : rs_forward s r u = Ok (s', u') -> in_unit u'.
Proof.
  unfold rs_forward. intros H. apply bind_ok in H as (m & _ & H). apply bind_ok in H as (d & _ & H).
  apply bind_ok in H as (nw & Hn & H). injection H as _ <-. eapply euler_in01; eauto.
Qed.

Lemma code_in_unit fuel s u s' u' : code_forward fuel s u = Ok (s', u') -> in_unit u'.
Proof.
  unfold code_forward. intros H. apply bind_ok in H as (r & _ & H). destruct (snd r); [|discriminate].
  apply bind_ok in H as (nw & Hn & H). injection H as _ <-. eapply step_in_unit; eauto.
Qed.

Lemma meta_in_unit s u s' u' : meta_forward s u = Ok (s', u') -> in_unit u'.
Proof.
  unfold meta_forward. intros H. apply bind_ok in H as (m & _ & H). apply bind_ok in H as (d & _ & H).
  apply bind_ok in H as (d1 & _ & H). apply bind_ok in H as (nw & Hn & H). injection H as _ <-.
  eapply euler_in01; eauto.
Qed.

(** ** C02 shape *)
Lemma cca_shape c u u' : cca_wf c -> twf u -> cca_forward c u = Ok u' -> shape u' = shape u /\ twf u'.
Proof.
  intros (H1 & H2 & H3) Hu. unfold cca_forward, step.
  apply (ca_forward_shape (ext c) (int_ c) _ (mask_fn (thr c)) _ _ _ (cca_chk c) (cca_ufn c));
    auto using mask_if_cell, update_universe_pointwise.
Qed.

Lemma lenia_shape c u u' : cca_wf c -> twf u -> lenia_forward c u = Ok u' -> shape u' = shape u /\ twf u'.
Proof.
  intros (H1 & H2 & H3) Hu. unfold lenia_forward, step.
  apply (ca_forward_shape (ext c) (int_ c) _ (mask_fn (thr c)) _ _ _ (fns_chk (int_ c) (gens c)) (lenia_ufn c));
    auto using mask_if_cell, lenia_update_pointwise.
Qed.

Lemma iter_shape (f : tensor -> res tensor) :
  (forall u u', twf u -> f u = Ok u' -> shape u' = shape u /\ twf u') ->
  forall n u u', twf u -> iter_res f n u = Ok u' -> shape u' = shape u /\ twf u'.
Proof.
  intros Hf n. induction n; intros u u' Hu H; cbn [iter_res] in H.
  - injection H as <-; auto.
  - apply bind_ok in H as (x & Hx & H). destruct (Hf u x Hu Hx) as [S1 W1].
    destruct (IHn x u' W1 H) as [S2 W2]. split; congruence.
Qed.

(** Which universes a CCA accepts. *)
Lemma step_ready_iff e l1 l2 u : step_ready e l1 l2 u = true <->
  tC u = e /\ (0 < tH u)%nat /\ (0 < tW u)%nat /\ fits l1 u /\ fits l2 u.
Proof.
  unfold step_ready, layer_ready, fits. rewrite !andb_true_iff, Nat.eqb_eq, !Nat.ltb_lt. tauto.
Qed.

Lemma cca_accepts c u : cca_wf c -> twf u ->
  (exists u', cca_forward c u = Ok u') <->
  (tC u = ext c /\ (0 < tH u)%nat /\ (0 < tW u)%nat /\ fits (idl c) u /\ fits (nbl c) u /\
   List.length (gens c) = int_ c /\ List.length (pers c) = int_ c /\
   acts_ok (gens c) = Ok tt /\ acts_ok (pers c) = Ok tt).
Proof.
  intros Hc Hu. rewrite cca_forward_nf by auto. split.
  - intros (u' & H). destruct (step_ready (ext c) (idl c) (nbl c) u) eqn:Er; [|discriminate].
    apply step_ready_iff in Er. apply bind_ok in H as (x & Hx & _). unfold cca_chk, fns_chk in Hx.
    apply bind_ok in Hx as (x1 & Hg & Hp). apply bind_ok in Hg as (x2 & Hg1 & Hg2).
    apply bind_ok in Hp as (x3 & Hp1 & Hp2). apply guard_ok in Hg1. apply guard_ok in Hp1.
    apply Nat.eqb_eq in Hg1. apply Nat.eqb_eq in Hp1. destruct x, x1. intuition congruence.
  - intros (Ec & Hh & Hw & F1 & F2 & Lg & Lp & Ag & Ap).
    rewrite (proj2 (step_ready_iff _ _ _ _)) by tauto.
    unfold cca_chk, fns_chk. rewrite Lg, Lp, Nat.eqb_refl, Ag, Ap. simpl. eauto.
Qed.

Lemma cca_bad_channels c u : cca_wf c -> twf u -> tC u <> ext c -> cca_forward c u = Err RuntimeError.
Proof.
  intros Hc Hu Hn. rewrite cca_forward_nf by auto.
  destruct (step_ready (ext c) (idl c) (nbl c) u) eqn:Er; [|reflexivity].
  apply step_ready_iff in Er. tauto.
Qed.

Lemma cca_bad_padding c u : cca_wf c -> twf u -> cl_m (nbl c) = Circular ->
  (tH u < cl_p (nbl c) \/ tW u < cl_p (nbl c))%nat -> cca_forward c u = Err RuntimeError.
Proof.
  intros Hc Hu Hm Hp. rewrite cca_forward_nf by auto.
  destruct (step_ready (ext c) (idl c) (nbl c) u) eqn:Er; [|reflexivity].
  apply step_ready_iff in Er. destruct Er as (_ & _ & _ & _ & F1 & F2). rewrite Hm in *. simpl in *.
  apply Nat.leb_le in F1. apply Nat.leb_le in F2. lia.
Qed.

Lemma cca_bad_count c u : cca_wf c -> twf u -> tC u = ext c -> (0 < tH u)%nat -> (0 < tW u)%nat ->
  fits (idl c) u -> fits (nbl c) u -> List.length (gens c) <> int_ c -> cca_forward c u = Err AssertionError.
Proof.
  intros Hc Hu Ec Hh Hw F1 F2 Hn. rewrite cca_forward_nf by auto.
  rewrite (proj2 (step_ready_iff _ _ _ _)) by tauto.
  unfold cca_chk, fns_chk. destruct (Nat.eqb_spec (int_ c) (length (gens c))); [congruence|]. reflexivity.
Qed.

(** ** C03 identity convolution *)
Lemma default_id_get y x : (y < 3)%nat -> (x < 3)%nat ->
  get default_id_kernel 0 0 y x = if Nat.eqb y 1 && Nat.eqb x 1 then 1 else 0.
Proof.
  intros Hy Hx. destruct y as [|[|[|]]]; try lia; destruct x as [|[|[|]]]; try lia; reflexivity.
Qed.

Lemma pad_src_mid m n x : (0 < n)%nat -> (x < n)%nat -> pad_src m n 1 (x + 1) = Some x.
Proof.
  intros Hn Hx. destruct m; simpl.
  - destruct (Nat.ltb_spec (x + 1) 1); [lia|]. destruct (Nat.ltb_spec (x + 1) (S n)); [|lia]. f_equal; lia.
  - destruct (Nat.ltb_spec (x + 1) 1); [lia|]. destruct (Nat.ltb_spec (x + 1) (S n)); [|lia]. f_equal; lia.
  - destruct (Nat.ltb_spec (x + 1) 1); [lia|]. destruct (Nat.ltb_spec (x + 1) (S n)); [|lia]. f_equal; lia.
  - f_equal. replace (x + 1 + n - 1)%nat with (x + 1 * n)%nat by lia. rewrite Nat.mod_add by lia.
    apply Nat.mod_small; auto.
Qed.

Lemma id_layer_convf e n m l H W f o i j : (0 < e)%nat -> (0 < n)%nat ->
  init_layer e n m default_id_kernel = Ok l -> (o < n)%nat -> (i < H)%nat -> (j < W)%nat ->
  convf l H W f o i j =
    if Nat.eqb (n mod e) 0 then f (o / (n / e))%nat i j else rsum e (fun c => f c i j).
Proof.
  intros He Hn Hl Ho Hi Hj.
  destruct (init_layer_wf e n m default_id_kernel l 1 He Hn eq_refl eq_refl Hl)
    as ((Hg & Hwf & _ & _ & EB & EC & EH & EW) & Hp & Hm).
  assert (Eg : cl_g l = if Nat.eqb (n mod e) 0 then e else 1%nat).
  { unfold init_layer in Hl. rewrite groups_eq in Hl by auto. cbn [bind] in Hl.
    apply bind_ok in Hl as (w & _ & E). injection E as <-. reflexivity. }
  assert (Hinner : forall c, (c < tC (cl_w l))%nat ->
    rsum (tH (cl_w l)) (fun y => rsum (tW (cl_w l)) (fun x => get (cl_w l) o c y x *
      pval (cl_m l) H W (cl_p l) (f ((o / (tB (cl_w l) / cl_g l)) * tC (cl_w l) + c)%nat) (i + y) (j + x)))
    = f ((o / (n / cl_g l)) * tC (cl_w l) + c)%nat i j).
  { intros c Hc. rewrite EH, EW, Hp. change (2 * 1 + 1)%nat with 3%nat.
    assert (Hw : forall y x, (y < 3)%nat -> (x < 3)%nat ->
      get (cl_w l) o c y x = if Nat.eqb y 1 && Nat.eqb x 1 then 1 else 0).
    { intros y x Hy Hx. rewrite (init_layer_w e n m default_id_kernel l) by (auto; simpl; lia).
      unfold bget. cbn [tB tC tH tW default_id_kernel bidx Nat.eqb]. apply default_id_get; auto. }
    rewrite (rsum_single 3 1).
    2: lia.
    2:{ intros y Hy Hne. apply rsum_0. intros x Hx. rewrite Hw by auto.
        destruct (Nat.eqb_spec y 1); [lia|]. simpl. lra. }
    rewrite (rsum_single 3 1).
    2: lia.
    2:{ intros x Hx Hne. rewrite Hw by auto.
        destruct (Nat.eqb_spec x 1); [lia|]. simpl. lra. }
    rewrite Hw by auto. simpl (Nat.eqb 1 1 && Nat.eqb 1 1). cbn iota. rewrite Rmult_1_l.
    unfold pval. rewrite !pad_src_mid by lia. rewrite EB. reflexivity. }
  unfold convf. rewrite (rsum_ext _ _ _ Hinner).
  rewrite Eg in *. destruct (Nat.eqb_spec (n mod e) 0) as [E|E].
  - assert (EC1 : tC (cl_w l) = 1%nat) by nia. rewrite EC1. simpl. rewrite Rplus_0_l. f_equal; lia.
  - assert (EC1 : tC (cl_w l) = e) by lia. rewrite EC1, Nat.div_1_r, (Nat.div_small o n) by auto. reflexivity.
Qed.

Lemma id_conv_spec e n m l u v b k i j : (0 < e)%nat -> (0 < n)%nat ->
  init_layer e n m default_id_kernel = Ok l -> twf u -> conv_apply l u = Ok v ->
  (b < tB u)%nat -> (k < n)%nat -> (i < tH u)%nat -> (j < tW u)%nat ->
  get v b k i j = if Nat.eqb (n mod e) 0 then get u b (k / (n / e)) i j
                  else rsum e (fun c => get u b c i j).
Proof.
  intros He Hn Hl Hu Hv Hb Hk Hi Hj.
  destruct (init_layer_wf e n m default_id_kernel l 1 He Hn eq_refl eq_refl Hl) as (Hw & Hp & Hm).
  rewrite (layer_apply_eq e n l u Hw) in Hv. destruct (layer_ready e l u); [|discriminate].
  injection Hv as <-. rewrite get_build by auto. rewrite (id_layer_convf e n m l) by auto.
  reflexivity.
Qed.

Lemma id_conv_identity e m l u v : (0 < e)%nat ->
  init_layer e e m default_id_kernel = Ok l -> twf u -> conv_apply l u = Ok v -> v = u.
Proof.
  intros He Hl Hu Hv.
  destruct (init_layer_wf e e m default_id_kernel l 1 He He eq_refl eq_refl Hl) as (Hw & Hp & Hm).
  pose proof Hv as Hv'.
  rewrite (layer_apply_eq e e l u Hw) in Hv'. destruct (layer_ready e l u) eqn:Er; [|discriminate].
  injection Hv' as Ev. apply layer_ready_inv in Er as (Ec & _).
  apply tensor_ext; auto.
  - rewrite <- Ev. apply twf_build.
  - rewrite <- Ev. unfold shape; simpl. congruence.
  - assert (E1 : tB v = tB u /\ tC v = e /\ tH v = tH u /\ tW v = tW u) by (rewrite <- Ev; simpl; auto).
    destruct E1 as (-> & -> & -> & ->). intros b c i j Hb Hc Hi Hj.
    rewrite (id_conv_spec e e m l u v b c i j) by auto.
    rewrite Nat.mod_same by lia. simpl (Nat.eqb 0 0). cbn iota.
    rewrite Nat.div_same by lia. rewrite Nat.div_1_r. reflexivity.
Qed.

Lemma id_conv_accepts e n m l u : (0 < e)%nat -> (0 < n)%nat ->
  init_layer e n m default_id_kernel = Ok l -> tC u = e -> (1 < tH u)%nat -> (1 < tW u)%nat ->
  exists v, conv_apply l u = Ok v.
Proof.
  intros He Hn Hl Hc H1 W1.
  destruct (init_layer_wf e n m default_id_kernel l 1 He Hn eq_refl eq_refl Hl) as (Hw & Hp & Hm).
  rewrite (layer_apply_eq e n l u Hw). unfold layer_ready. rewrite Hp, Hc, Nat.eqb_refl.
  rewrite !(proj2 (Nat.ltb_lt 0 _)) by lia.
  assert (Ha : forall k, (1 < k)%nat -> pad_allowed (cl_m l) k 1 = true).
  { intros k Hk. destruct (cl_m l); cbn [pad_allowed]; auto; try (apply Nat.ltb_lt; lia). }
  rewrite !Ha by auto. simpl. eauto.
Qed.

(** ** C04 toroidal sum *)
Lemma nbhd_convf e n k l r H W f o i j : (0 < e)%nat -> (0 < n)%nat ->
  tH k = (2 * r + 1)%nat -> tW k = (2 * r + 1)%nat ->
  init_layer e n Circular k = Ok l -> (o < n)%nat -> (r <= H)%nat -> (r <= W)%nat -> (i < H)%nat -> (j < W)%nat ->
  convf l H W f o i j =
    if Nat.eqb (n mod e) 0 then toroidal_sum r H W (fun y x => bget k o 0 y x) (f (o / (n / e))%nat) i j
    else rsum e (fun c => toroidal_sum r H W (fun y x => bget k o c y x) (f c) i j).
Proof.
  intros He Hn Kh Kw Hl Ho RH RW Hi Hj.
  destruct (init_layer_wf e n Circular k l r He Hn Kh Kw Hl)
    as ((Hg & Hwf & _ & _ & EB & EC & EH & EW) & Hp & Hm).
  assert (Eg : cl_g l = if Nat.eqb (n mod e) 0 then e else 1%nat).
  { unfold init_layer in Hl. rewrite groups_eq in Hl by auto. cbn [bind] in Hl.
    apply bind_ok in Hl as (w & _ & E). injection E as <-. reflexivity. }
  assert (Hinner : forall c, (c < tC (cl_w l))%nat ->
    rsum (tH (cl_w l)) (fun y => rsum (tW (cl_w l)) (fun x => get (cl_w l) o c y x *
      pval (cl_m l) H W (cl_p l) (f ((o / (tB (cl_w l) / cl_g l)) * tC (cl_w l) + c)%nat) (i + y) (j + x)))
    = toroidal_sum r H W (fun y x => bget k o c y x) (f ((o / (n / cl_g l)) * tC (cl_w l) + c)%nat) i j).
  { intros c Hc. rewrite EH, EW, Hp, Hm, EB. unfold toroidal_sum.
    apply rsum_ext; intros y Hy. apply rsum_ext; intros x Hx.
    rewrite (init_layer_w e n Circular k l) by (auto; lia). f_equal.
    unfold pval. rewrite !pad_src_circ by lia. f_equal; f_equal; lia. }
  unfold convf. rewrite (rsum_ext _ _ _ Hinner).
  rewrite Eg in *. destruct (Nat.eqb_spec (n mod e) 0) as [E|E].
  - assert (EC1 : tC (cl_w l) = 1%nat) by nia. rewrite EC1. simpl. rewrite Rplus_0_l.
    replace (o / (n / e) * 1 + 0)%nat with (o / (n / e))%nat by lia. reflexivity.
  - assert (EC1 : tC (cl_w l) = e) by lia. rewrite EC1, Nat.div_1_r, (Nat.div_small o n) by auto. reflexivity.
Qed.

Lemma nbhd_conv_spec e n k l r u : (0 < e)%nat -> (0 < n)%nat ->
  tH k = (2 * r + 1)%nat -> tW k = (2 * r + 1)%nat ->
  init_layer e n Circular k = Ok l -> tC u = e -> (r <= tH u)%nat -> (r <= tW u)%nat ->
  (0 < tH u)%nat -> (0 < tW u)%nat ->
  exists v, conv_apply l u = Ok v /\ shape v = (tB u, n, tH u, tW u) /\
  forall b o i j, (b < tB u)%nat -> (o < n)%nat -> (i < tH u)%nat -> (j < tW u)%nat ->
  get v b o i j =
    if Nat.eqb (n mod e) 0
    then toroidal_sum r (tH u) (tW u) (fun y x => bget k o 0 y x) (get u b (o / (n / e))) i j
    else rsum e (fun c => toroidal_sum r (tH u) (tW u) (fun y x => bget k o c y x) (get u b c) i j).
Proof.
  intros He Hn Kh Kw Hl Hc RH RW H0 W0.
  destruct (init_layer_wf e n Circular k l r He Hn Kh Kw Hl) as (Hw & Hp & Hm).
  rewrite (layer_apply_eq e n l u Hw). unfold layer_ready. rewrite Hp, Hm, Hc, Nat.eqb_refl.
  rewrite !(proj2 (Nat.ltb_lt 0 _)) by lia. cbn [pad_allowed]. rewrite !(proj2 (Nat.leb_le r _)) by lia.
  cbn [andb]. eexists; split; [reflexivity|]. split; [reflexivity|].
  intros b o i j Hb Ho Hi Hj. rewrite get_build by auto. apply (nbhd_convf e n k l r); auto.
Qed.

(** ** C08 the update rule *)
Lemma cca_rule c u u' : cca_wf c -> twf u -> init_weights (ext c) (int_ c) (pm c) = Ok (wl c) ->
  cca_forward c u = Ok u' ->
  exists m idn nb, mask_if (thr c) u = Ok m /\ conv_apply (idl c) m = Ok idn /\ conv_apply (nbl c) m = Ok nb /\
  forall b o i j, (b < tB u)%nat -> (o < ext c)%nat -> (i < tH u)%nat -> (j < tW u)%nat ->
    get u' b o i j = clamp 0 1 (get m b o i j + dt c *
      (rsum (int_ c) (fun k =>
         (1 - get idn b k i j) * act_fn (nth k (gens c) AIdentity) (get nb b k i j)
         + get idn b k i j * act_fn (nth k (pers c) AIdentity) (get nb b k i j))
       / (INR (ext c) * INR (int_ c)))).
Proof.
  intros Hc Hu Hw H. pose proof Hc as (H1 & H2 & H3).
  assert (He : (0 < ext c)%nat) by (destruct H1 as (_ & _ & _ & ? & _); auto).
  assert (Hn : (0 < int_ c)%nat) by (destruct H1 as (_ & _ & ? & _); auto).
  rewrite cca_forward_nf in H by auto.
  destruct (step_ready (ext c) (idl c) (nbl c) u) eqn:Er; [|discriminate].
  apply bind_ok in H as (x & _ & E). injection E as <-.
  pose proof Er as Er'. apply step_ready_iff in Er' as (Ec & _).
  destruct (mask_if_cell (thr c)) as [Hm _]. rewrite Hm by auto.
  set (m := build _ _ _ _ _).
  assert (Hms : shape m = shape u) by reflexivity.
  unfold step_ready in Er. apply andb_true_iff in Er as [R1 R2].
  exists m. rewrite (layer_apply_eq _ _ _ m H1), (layer_apply_eq _ _ _ m H2).
  rewrite (layer_ready_shape (ext c) (idl c) m u Hms), (layer_ready_shape (ext c) (nbl c) m u Hms), R1, R2.
  eexists; eexists; repeat split; try reflexivity.
  intros b o i j Hb Ho Hi Hj. rewrite get_build by auto. unfold step_val.
  assert (Hg : get m b o i j = mval (mask_fn (thr c)) u b o i j) by (unfold m; rewrite get_build; auto; congruence).
  rewrite Hg. f_equal. f_equal. f_equal. unfold cca_ufn.
  rewrite (init_weights_fn (ext c) (int_ c) (pm c)) by auto. f_equal.
  apply rsum_ext. intros k Hk. change (tB m) with (tB u). change (tH m) with (tH u). change (tW m) with (tW u).
  rewrite !get_build by auto. unfold gen_at, per_at, mval.
  assert (E1 : convf (idl c) (tH u) (tW u) (fun c0 i0 j0 => mask_fn (thr c) (tC u) (fun k0 => get u b k0 i0 j0) c0) k i j
     = convf (idl c) (tH u) (tW u) (get m b) k i j).
  { apply (convf_ext_ready (ext c) (int_ c) (idl c) u); auto. intros c' y' x' Hc' Hy Hx.
    unfold m. rewrite get_build; auto; congruence. }
  assert (E2 : convf (nbl c) (tH u) (tW u) (fun c0 i0 j0 => mask_fn (thr c) (tC u) (fun k0 => get u b k0 i0 j0) c0) k i j
     = convf (nbl c) (tH u) (tW u) (get m b) k i j).
  { apply (convf_ext_ready (ext c) (int_ c) (nbl c) u); auto. intros c' y' x' Hc' Hy Hx.
    unfold m. rewrite get_build; auto; congruence. }
  rewrite E1, E2. reflexivity.
Qed.

(** All external channels receive the same update. *)
Lemma cca_same_update c m d : cca_wf c -> twf m -> init_weights (ext c) (int_ c) (pm c) = Ok (wl c) ->
  update_of update_universe c m = Ok d -> forall b o o' i j,
  (b < tB m)%nat -> (o < ext c)%nat -> (o' < ext c)%nat -> (i < tH m)%nat -> (j < tW m)%nat ->
  get d b o i j = get d b o' i j.
Proof.
  intros Hc Hu Hw H. pose proof Hc as (H1 & H2 & H3).
  assert (He : (0 < ext c)%nat) by (destruct H1 as (_ & _ & _ & ? & _); auto).
  assert (Hn : (0 < int_ c)%nat) by (destruct H1 as (_ & _ & ? & _); auto).
  unfold update_of in H.
  pose proof (ca_update_nf (ext c) (int_ c) (fun u => Ok u) _ _ _ _ _ _ no_mask_cell H1 H2
                (update_universe_pointwise c H3) m Hu) as Hnf.
  cbn [bind] in Hnf. rewrite Hnf in H.
  destruct (step_ready (ext c) (idl c) (nbl c) m); [|discriminate].
  apply bind_ok in H as (x & _ & E). injection E as <-.
  intros. rewrite !get_build by auto. unfold upd_val, cca_ufn.
  rewrite !(init_weights_fn (ext c) (int_ c) (pm c)) by auto. reflexivity.
Qed.

(** ** C09 *)
Lemma cca_eq_lenia c u : cca_wf c -> twf u -> gens c = pers c -> cca_forward c u = lenia_forward c u.
Proof.
  intros Hc Hu Hgp. rewrite cca_forward_nf, lenia_forward_nf by auto.
  destruct (step_ready (ext c) (idl c) (nbl c) u) eqn:Er; [|reflexivity].
  unfold cca_chk. rewrite <- Hgp. destruct (fns_chk (int_ c) (gens c)) as [[]|]; [|reflexivity]. cbn [bind].
  f_equal. apply build_ext. intros b o i j Hb Ho Hi Hj. unfold step_val. f_equal. f_equal. f_equal.
  unfold cca_ufn, lenia_ufn. destruct Hc as (_ & _ & H3). apply (wl_fn_ext (ext c) (int_ c)); auto.
  intros k Hk. unfold gen_at, per_at. rewrite <- Hgp. ring.
Qed.

Lemma iter_ext {A} (f g : A -> res A) (P : A -> Prop) :
  (forall a, P a -> f a = g a) -> (forall a b, P a -> f a = Ok b -> P b) ->
  forall n a, P a -> iter_res f n a = iter_res g n a.
Proof.
  intros He Hp n. induction n; intros a Ha; cbn [iter_res]; [reflexivity|].
  rewrite He by auto. destruct (g a) as [b|] eqn:Eg; [|reflexivity]. cbn [bind].
  apply IHn. apply (Hp a); auto. rewrite He; auto.
Qed.

Lemma cca_eq_lenia_iter c n u : cca_wf c -> twf u -> gens c = pers c ->
  iter_res (cca_forward c) n u = iter_res (lenia_forward c) n u.
Proof.
  intros Hc Hu Hg. apply (iter_ext _ _ twf); auto.
  - intros; apply cca_eq_lenia; auto.
  - intros a b Ha Hb. apply cca_shape in Hb; tauto.
Qed.

(** ** C10 the dead universe *)
Lemma convf_zero l H W f o i j : (forall c y x, f c y x = 0) -> convf l H W f o i j = 0.
Proof.
  intros Hf. unfold convf. apply rsum_0; intros c _. apply rsum_0; intros y _. apply rsum_0; intros x _.
  unfold pval. repeat match goal with |- context [match ?z with _ => _ end] => destruct z end; rewrite ?Hf; lra.
Qed.

Lemma get_zero_grid B C H W b c i j : get (zero_grid B C H W) b c i j = 0.
Proof.
  unfold get, zero_grid, build; simpl.
  destruct (lt_dec (((b * C + c) * H + i) * W + j) (B * C * H * W)).
  - rewrite nth_map_seq; auto.
  - apply nth_overflow. rewrite map_length, seq_length. lia.
Qed.

Lemma mask_fn_zero th C v c : (forall k, v k = 0) -> mask_fn th C v c = 0.
Proof. intros Hv. unfold mask_fn. rewrite Hv. destruct (Nat.leb 4 C); [lra|reflexivity]. Qed.

Lemma zero_step c B H W u' : cca_wf c -> init_weights (ext c) (int_ c) (pm c) = Ok (wl c) ->
  cca_forward c (zero_grid B (ext c) H W) = Ok u' ->
  u' = build B (ext c) H W (fun _ _ _ _ => clamp 0 1 (dt c * (gen_sum0 c / (INR (ext c) * INR (int_ c))))).
Proof.
  intros Hc Hw E. pose proof Hc as (H1 & H2 & H3).
  assert (He : (0 < ext c)%nat) by (destruct H1 as (_ & _ & _ & ? & _); auto).
  assert (Hn : (0 < int_ c)%nat) by (destruct H1 as (_ & _ & ? & _); auto).
  rewrite cca_forward_nf in E by (auto; apply twf_build).
  destruct (step_ready _ _ _ _) eqn:Er; [|discriminate].
  apply bind_ok in E as (x & _ & E). injection E as <-.
  apply build_ext. intros b o i j Hb Ho Hi Hj. unfold step_val.
  assert (Hz : forall b c' i j, mval (mask_fn (thr c)) (zero_grid B (ext c) H W) b c' i j = 0).
  { intros. unfold mval. apply mask_fn_zero. intros; apply get_zero_grid. }
  rewrite Hz, Rplus_0_l. f_equal. f_equal. unfold cca_ufn.
  rewrite (init_weights_fn (ext c) (int_ c) (pm c)) by auto. f_equal. unfold gen_sum0.
  apply rsum_ext; intros k Hk. rewrite !convf_zero by auto. unfold gen_at, per_at. ring.
Qed.

Lemma zero_fixed_iff c B H W u' : cca_wf c -> init_weights (ext c) (int_ c) (pm c) = Ok (wl c) ->
  0 < dt c -> (0 < B)%nat -> (0 < H)%nat -> (0 < W)%nat ->
  cca_forward c (zero_grid B (ext c) H W) = Ok u' ->
  (u' = zero_grid B (ext c) H W <-> gen_sum0 c <= 0).
Proof.
  intros Hc Hw Hd HB HH HW E. pose proof Hc as (H1 & H2 & H3).
  assert (He : (0 < ext c)%nat) by (destruct H1 as (_ & _ & _ & ? & _); auto).
  assert (Hn : (0 < int_ c)%nat) by (destruct H1 as (_ & _ & ? & _); auto).
  pose proof (zero_step c B H W u' Hc Hw E) as ->.
  assert (Hpos : 0 < INR (ext c) * INR (int_ c)) by (apply Rmult_lt_0_compat; apply lt_0_INR; auto).
  assert (Hinv : 0 < / (INR (ext c) * INR (int_ c))) by (apply Rinv_0_lt_compat; auto).
  split.
  - intros Eq. assert (G : get (build B (ext c) H W (fun _ _ _ _ : nat => clamp 0 1 (dt c * (gen_sum0 c / (INR (ext c) * INR (int_ c)))))) 0 0 0 0 = 0)
      by (rewrite Eq; apply get_zero_grid).
    rewrite get_build in G by auto.
    destruct (Rle_dec (gen_sum0 c) 0) as [|Hgt]; auto. apply Rnot_le_lt in Hgt.
    assert (0 < dt c * (gen_sum0 c / (INR (ext c) * INR (int_ c)))).
    { unfold Rdiv. apply Rmult_lt_0_compat; auto. apply Rmult_lt_0_compat; auto. }
    unfold clamp in G. rewrite Rmax_left in G by lra. unfold Rmin in G. destruct (Rle_dec _ 1); lra.
  - intros Hle. apply build_ext. intros. apply clamp_lo; [lra|]. unfold Rdiv.
    assert (gen_sum0 c * / (INR (ext c) * INR (int_ c)) <= 0) by nra. nra.
Qed.

Lemma zero_stays c B H W n u' : cca_wf c -> init_weights (ext c) (int_ c) (pm c) = Ok (wl c) ->
  0 <= dt c -> gen_sum0 c <= 0 ->
  iter_res (cca_forward c) n (zero_grid B (ext c) H W) = Ok u' -> u' = zero_grid B (ext c) H W.
Proof.
  intros Hc Hw Hd Hg. pose proof Hc as (H1 & H2 & H3).
  assert (He : (0 < ext c)%nat) by (destruct H1 as (_ & _ & _ & ? & _); auto).
  assert (Hn : (0 < int_ c)%nat) by (destruct H1 as (_ & _ & ? & _); auto).
  assert (Hinv : 0 < / (INR (ext c) * INR (int_ c))).
  { apply Rinv_0_lt_compat. apply Rmult_lt_0_compat; apply lt_0_INR; auto. }
  induction n; intros E; cbn [iter_res] in E; [congruence|].
  apply bind_ok in E as (x & Hx & E). pose proof (zero_step c B H W x Hc Hw Hx) as Ex.
  assert (Exz : x = zero_grid B (ext c) H W).
  { rewrite Ex. apply build_ext. intros. apply clamp_lo; [lra|]. unfold Rdiv.
    assert (gen_sum0 c * / (INR (ext c) * INR (int_ c)) <= 0) by nra. nra. }
  apply IHn. rewrite <- Exz at 1. exact E.
Qed.

(** Gaussian growth function at zero. *)
Lemma gaussian_zero_sign mu sigma : 0 < eps9 + sigma ->
  (act_fn (AGaussian mu sigma true) 0 <= 0 <-> 2 * ln 2 * (sigma + eps9) ^ 2 <= mu ^ 2).
Proof.
  intros Hs. simpl act_fn. unfold gauss.
  replace (- ((0 - mu) / (eps9 + sigma)) ^ 2 / 2) with (- (mu ^ 2 / (2 * (eps9 + sigma) ^ 2))) by (field; lra).
  set (q := (eps9 + sigma) ^ 2). replace ((sigma + eps9) ^ 2) with q by (unfold q; f_equal; ring).
  assert (Hq : 0 < q) by (unfold q; apply pow_lt; auto).
  assert (Eln : exp (- ln 2) = / 2) by (rewrite exp_Ropp, exp_ln; lra).
  set (z := mu ^ 2 / (2 * q)). assert (Hz : z * (2 * q) = mu ^ 2) by (unfold z; field; lra).
  split; intros Hh.
  - assert (Hle : exp (- z) <= exp (- ln 2)) by lra.
    destruct (Rle_dec (ln 2) z) as [Hz2|Hz2]; [nra|]. apply Rnot_le_lt in Hz2.
    assert (exp (- ln 2) < exp (- z)) by (apply exp_increasing; lra). lra.
  - assert (Hz2 : ln 2 <= z) by nra.
    assert (exp (- z) <= exp (- ln 2)); [|lra].
    destruct (Req_dec z (ln 2)) as [->|]; [lra|]. left; apply exp_increasing; lra.
Qed.

(** ** C11 mask *)
Lemma mask_if_zero_dead th u : twf u -> mask_if th u = Ok (zero_dead th u).
Proof.
  intros Hu. destruct (mask_if_cell th) as [Hm _]. rewrite Hm by auto. f_equal. unfold zero_dead, mask_fn.
  destruct (Nat.leb 4 (tC u)); [|apply build_get; auto].
  apply build_ext. intros. destruct (Rlt_dec th _); lra.
Qed.

Lemma forward_is_frame_of_masked upd c u : twf u ->
  step upd c u = rmap (fun r => match r with Some (x :: _) => x | _ => u end) (get_frame upd c (zero_dead (thr c) u) 0).
Proof.
  intros Hu. unfold step, ca_forward. rewrite mask_if_zero_dead by auto. cbn [bind].
  unfold get_frame, ca_update.
  destruct (conv_apply (idl c) (zero_dead (thr c) u)); [|reflexivity]. cbn [bind].
  destruct (conv_apply (nbl c) (zero_dead (thr c) u)); [|reflexivity]. cbn [bind].
  destruct (upd c a a0); [|reflexivity]. cbn [bind].
  destruct (euler (dt c) (zero_dead (thr c) u) a1); reflexivity.
Qed.

Lemma forward_is_frame_small upd c u : twf u -> (tC u < 4)%nat ->
  get_frame upd c u 0 = rmap (fun x => Some [x]) (step upd c u).
Proof.
  intros Hu Hc. unfold step, ca_forward. rewrite mask_if_zero_dead by auto. cbn [bind].
  assert (Ez : zero_dead (thr c) u = u).
  { unfold zero_dead. destruct (Nat.leb_spec 4 (tC u)); [lia|reflexivity]. }
  rewrite Ez. unfold get_frame, ca_update.
  destruct (conv_apply (idl c) u); [|reflexivity]. cbn [bind].
  destruct (conv_apply (nbl c) u); [|reflexivity]. cbn [bind].
  destruct (upd c a a0); [|reflexivity]. cbn [bind].
  destruct (euler (dt c) u a1); reflexivity.
Qed.

(** ** C12 time *)
Lemma run_calls_time upd c ks : forall t t', run_calls upd c t ks = Ok t' ->
  t' = (if has_reset ks then 0 else t) + INR (since_reset ks) * dt c.
Proof.
  induction ks as [|k r IH]; intros t t' H; cbn [run_calls] in H.
  - injection H as <-. simpl. lra.
  - apply bind_ok in H as (t1 & H1 & H). apply IH in H. destruct k as [u|u m|]; cbn [run_call] in H1.
    + apply bind_ok in H1 as (x & _ & E). injection E as <-. unfold has_reset in *. cbn [existsb orb since_reset].
      destruct (existsb _ r) eqn:Ex; [auto|]. rewrite S_INR. lra.
    + apply bind_ok in H1 as (x & _ & E). injection E as <-. unfold has_reset in *. cbn [existsb orb since_reset]. auto.
    + injection H1 as <-. unfold has_reset in *. cbn [existsb orb since_reset].
      destruct (existsb _ r); lra.
Qed.

(** ** C13 half precision *)
Lemma tmap_id t : tmap (fun x => x) t = t.
Proof. destruct t. unfold tmap; simpl. rewrite map_id. reflexivity. Qed.

Lemma half_exact c u : cca_forward16 (fun x => x) c u = cca_forward c u.
Proof.
  unfold cca_forward16, cca_forward, step, ca_forward, ca_update.
  destruct (mask_if (thr c) u) as [m|]; [|reflexivity]. cbn [bind].
  destruct (conv_apply (idl c) m) as [i|]; [|reflexivity]. cbn [bind].
  destruct (conv_apply (nbl c) m) as [nb|]; [|reflexivity]. cbn [bind].
  rewrite !tmap_id. unfold update_universe16, update_universe.
  destruct (apply_fns (gens c) nb); [|reflexivity]. cbn [bind].
  destruct (tzip Rmult _ _); [|reflexivity]. cbn [bind].
  destruct (apply_fns (pers c) nb); [|reflexivity]. cbn [bind].
  destruct (tzip Rmult i _); [|reflexivity]. cbn [bind].
  rewrite !tmap_id. destruct (tzip Rplus _ _); [|reflexivity]. cbn [bind]. rewrite tmap_id.
  destruct (wl_apply (wl c) _); [|reflexivity]. cbn [bind]. rewrite tmap_id.
  destruct (euler _ _ _); [|reflexivity]. cbn [bind]. rewrite tmap_id. reflexivity.
Qed.

Lemma half_range r16 c u u' : (forall x y, x <= y -> r16 x <= r16 y) -> r16 0 = 0 -> r16 1 = 1 ->
  cca_forward16 r16 c u = Ok u' -> in_unit u'.
Proof.
  intros Hm H0 H1 H. unfold cca_forward16 in H.
  apply bind_ok in H as (m & _ & H). apply bind_ok in H as (i & _ & H). apply bind_ok in H as (nb & _ & H).
  apply bind_ok in H as (d & _ & H). apply bind_ok in H as (nw & Hn & H). injection H as <-.
  apply euler_in01 in Hn. unfold in_unit, in01 in *. rewrite Forall_forall in *.
  intros x Hx. simpl in Hx. apply in_map_iff in Hx as (y & <- & Hy). destruct (Hn y Hy).
  split; [rewrite <- H0|rewrite <- H1]; auto.
Qed.

(** ** C14 bounded change *)
Lemma rsum_bound n f M : 0 <= M -> (forall k, (k < n)%nat -> Rabs (f k) <= M) -> Rabs (rsum n f) <= INR n * M.
Proof.
  intros HM Hf. eapply Rle_trans; [apply rsum_abs|]. rewrite <- rsum_const. apply rsum_le; auto.
Qed.

Lemma convex_abs a x y : 0 <= a <= 1 -> -1 <= x <= 1 -> -1 <= y <= 1 -> Rabs ((1 - a) * x + a * y) <= 1.
Proof. intros. apply Rabs_le. split; nra. Qed.

Lemma cca_change c u u' : cca_wf c -> twf u -> init_weights (ext c) (int_ c) (pm c) = Ok (wl c) ->
  0 <= dt c -> in_unit u ->
  (forall k x, -1 <= act_fn (nth k (gens c) AIdentity) x <= 1) ->
  (forall k x, -1 <= act_fn (nth k (pers c) AIdentity) x <= 1) ->
  (forall m idn, mask_if (thr c) u = Ok m -> conv_apply (idl c) m = Ok idn -> in_unit idn) ->
  cca_forward c u = Ok u' ->
  forall b o i j, (b < tB u)%nat -> (o < ext c)%nat -> (i < tH u)%nat -> (j < tW u)%nat ->
  Rabs (get u' b o i j - get (zero_dead (thr c) u) b o i j) <= dt c / INR (ext c).
Proof.
  intros Hc Hu Hw Hd Hin HG HP Hid H b o i j Hb Ho Hi Hj.
  pose proof Hc as (H1 & H2 & H3).
  assert (He : (0 < ext c)%nat) by (destruct H1 as (_ & _ & _ & ? & _); auto).
  assert (Hn : (0 < int_ c)%nat) by (destruct H1 as (_ & _ & ? & _); auto).
  assert (Ec : tC u = ext c).
  { assert (Ha : exists u', cca_forward c u = Ok u') by eauto. apply cca_accepts in Ha; auto. tauto. }
  destruct (cca_rule c u u' Hc Hu Hw H) as (m & idn & nb & Hm & Hi' & Hnb & Hr).
  rewrite Hr by auto. pose proof Hm as Hm'. rewrite mask_if_zero_dead in Hm' by auto. injection Hm' as <-.
  set (m := zero_dead (thr c) u) in *.
  assert (Hmw : twf m) by (unfold m, zero_dead; destruct (Nat.leb 4 (tC u)); auto; apply twf_build).
  assert (Hms : shape m = shape u) by (unfold m, zero_dead; destruct (Nat.leb 4 (tC u)); auto).
  injection Hms as M1 M2 M3 M4.
  assert (Hm01 : 0 <= get m b o i j <= 1).
  { unfold in_unit in Hin. rewrite Forall_forall in Hin.
    assert (0 <= get u b o i j <= 1) by (apply Hin, get_in_data; auto; congruence).
    unfold m, zero_dead. destruct (Nat.leb 4 (tC u)); auto.
    rewrite get_build by (auto; congruence). destruct (Rlt_dec _ _); lra. }
  rewrite <- (clamp_id 0 1 (get m b o i j)) at 2 by lra.
  eapply Rle_trans; [apply clamp_lip|].
  set (S := rsum _ _). replace (get m b o i j + dt c * (S / (INR (ext c) * INR (int_ c))) - get m b o i j)
    with (dt c * (S / (INR (ext c) * INR (int_ c)))) by ring.
  assert (HS : Rabs S <= INR (int_ c) * 1).
  { unfold S. apply rsum_bound; [lra|]. intros k Hk. apply convex_abs; auto.
    pose proof (Hid m idn Hm Hi') as Hid'. unfold in_unit in Hid'. rewrite Forall_forall in Hid'.
    rewrite (layer_apply_eq _ _ _ m H1) in Hi'. destruct (layer_ready _ _ m); [|discriminate].
    injection Hi' as <-. apply Hid', get_in_data; simpl; auto; try apply twf_build; congruence. }
  assert (P1 : 0 < INR (ext c)) by (apply lt_0_INR; auto).
  assert (P2 : 0 < INR (int_ c)) by (apply lt_0_INR; auto).
  unfold Rdiv. rewrite Rabs_mult, (Rabs_pos_eq (dt c)) by auto.
  apply Rmult_le_compat_l; auto. rewrite Rabs_mult, (Rabs_pos_eq (/ _)).
  2:{ left. apply Rinv_0_lt_compat. nra. }
  replace (/ INR (ext c)) with (INR (int_ c) * 1 * / (INR (ext c) * INR (int_ c))) by (field; lra).
  apply Rmult_le_compat_r; auto. left. apply Rinv_0_lt_compat. nra.
Qed.
