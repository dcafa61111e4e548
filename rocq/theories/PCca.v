(** The CCA and Lenia update rules act cell by cell; closed form of their steps. *)
From Coq Require Import Reals Lra Lia List Arith Bool.
From Verif Require Import Base PyDict Tensor MActivations MKernels MCommon MCca PTensor PStep SGrid SCca.
Import ListNotations.
Open Scope R_scope.

(** ** 1x1 layers *)
Definition pt_fn (l : conv_layer) (v : nat -> R) (o : nat) : R :=
  rsum (tC (cl_w l)) (fun c => get (cl_w l) o c 0 0 * v c).

Lemma pad_src_0 m n x : (x < n)%nat -> pad_src m n 0 x = Some x.
Proof.
  intros Hx. destruct m; simpl.
  - rewrite (proj2 (Nat.ltb_lt x n) Hx). f_equal; lia.
  - rewrite (proj2 (Nat.ltb_lt x n) Hx). f_equal; lia.
  - rewrite (proj2 (Nat.ltb_lt x n) Hx). f_equal; lia.
  - f_equal. replace (x + n - 0)%nat with (x + 1 * n)%nat by lia. rewrite Nat.mod_add by lia.
    apply Nat.mod_small; auto.
Qed.

Lemma pad_allowed_0 m n : (0 < n)%nat -> pad_allowed m n 0 = true.
Proof. intros Hn. destruct m; simpl; auto; apply Nat.ltb_lt; auto. Qed.

Lemma pt_apply a b l t : pt_layer a b l -> tC t = a -> (0 < tH t)%nat -> (0 < tW t)%nat ->
  conv_apply l t = Ok (build (tB t) b (tH t) (tW t) (fun n o i j => pt_fn l (fun c => get t n c i j) o)).
Proof.
  intros (Hl & Hp & Hg) Hc H0 W0. rewrite (layer_apply_eq a b l t Hl).
  assert (Hr : layer_ready a l t = true).
  { unfold layer_ready. rewrite Hp, Hc, Nat.eqb_refl, !pad_allowed_0 by auto.
    rewrite !(proj2 (Nat.ltb_lt _ _)) by auto. reflexivity. }
  rewrite Hr. f_equal. apply build_ext. intros n o i j Hn Ho Hi Hj.
  destruct Hl as (_ & _ & _ & _ & EB & EC & EH & EW). rewrite Hp in EH, EW. rewrite Hg in EC.
  unfold convf, pt_fn. apply rsum_ext; intros c Hc'. rewrite EH, EW. simpl. rewrite !Rplus_0_l.
  f_equal. unfold pval. rewrite Hp, !Nat.add_0_r, !pad_src_0 by auto. f_equal.
  rewrite Hg, Nat.div_1_r, EB, (Nat.div_small o b) by auto. lia.
Qed.

Lemma pt_fn_ext a b l v v' o : pt_layer a b l -> (forall c, (c < a)%nat -> v c = v' c) -> pt_fn l v o = pt_fn l v' o.
Proof.
  intros (Hl & Hp & Hg) Hv. destruct Hl as (_ & _ & _ & _ & EB & EC & EH & EW). rewrite Hg in EC.
  unfold pt_fn. apply rsum_ext; intros c Hc. rewrite Hv by lia. reflexivity.
Qed.

(** ** Weight layers: from [n] internal to [e] external channels *)
Definition wl_fn (w : wlayer) (v : nat -> R) (o : nat) : R :=
  match w with
  | WConv l => pt_fn l v o
  | WMlp l1 l2 => pt_fn l2 (fun h => Rmax (pt_fn l1 v h) 0) o
  end.

Lemma wl_apply_eq e n w t : wl_wf e n w -> tC t = n -> (0 < tH t)%nat -> (0 < tW t)%nat ->
  wl_apply w t = Ok (build (tB t) e (tH t) (tW t) (fun b o i j => wl_fn w (fun c => get t b c i j) o)).
Proof.
  intros Hw Hc H0 W0. destruct w as [l|l1 l2]; simpl in *.
  - apply (pt_apply n); auto.
  - destruct Hw as (h & H1 & H2). rewrite (pt_apply n h l1 t H1 Hc H0 W0). cbn [bind].
    rewrite tmap_build. rewrite (pt_apply h e l2 _ H2); auto. f_equal.
    apply build_ext. intros b o i j Hb Ho Hi Hj. apply (pt_fn_ext h e l2); auto.
    intros c Hc'. rewrite get_build; auto.
Qed.

Lemma wl_fn_ext e n w v v' o : wl_wf e n w -> (forall c, (c < n)%nat -> v c = v' c) -> wl_fn w v o = wl_fn w v' o.
Proof.
  intros Hw Hv. destruct w as [l|l1 l2]; simpl in *.
  - apply (pt_fn_ext n e); auto.
  - destruct Hw as (h & H1 & H2). apply (pt_fn_ext h e l2); auto. intros c Hc.
    f_equal. apply (pt_fn_ext n h); auto.
Qed.

(** ** update_universe *)
Definition fns_chk (n : nat) (fns : list act) : res unit :=
  let* _ := guard (Nat.eqb n (List.length fns)) AssertionError in acts_ok fns.

Lemma apply_fns_eq fns t : apply_fns fns t =
  let* _ := fns_chk (tC t) fns in
  Ok (build (tB t) (tC t) (tH t) (tW t) (fun b c i j => act_fn (nth c fns AIdentity) (get t b c i j))).
Proof.
  unfold apply_fns, fns_chk. destruct (Nat.eqb (tC t) (length fns)); [|reflexivity]. reflexivity.
Qed.

Definition cca_chk (c : cca) : res unit :=
  let* _ := fns_chk (int_ c) (gens c) in fns_chk (int_ c) (pers c).

Definition gen_at (c : cca) (k : nat) (x : R) : R := act_fn (nth k (gens c) AIdentity) x.
Definition per_at (c : cca) (k : nat) (x : R) : R := act_fn (nth k (pers c) AIdentity) x.

Definition cca_ufn (c : cca) (v w : nat -> R) (o : nat) : R :=
  wl_fn (wl c) (fun k => (1 - v k) * gen_at c k (w k) + v k * per_at c k (w k)) o.

Lemma update_universe_pointwise c : wl_wf (ext c) (int_ c) (wl c) ->
  pointwise (ext c) (int_ c) (update_universe c) (cca_chk c) (cca_ufn c).
Proof.
  intros Hw. split.
  - intros idn nb Hi Hn Hs Hc H0 W0. pose proof Hs as Hs'. unfold shape in Hs'.
    injection Hs' as E1 E2 E3 E4. unfold update_universe, cca_chk.
    rewrite !apply_fns_eq. rewrite <- E2, Hc.
    destruct (fns_chk (int_ c) (gens c)) as [[]|]; [|reflexivity]. cbn [bind].
    rewrite tzip_same by (unfold shape; simpl; congruence). cbn [bind].
    destruct (fns_chk (int_ c) (pers c)) as [[]|]; [|reflexivity]. cbn [bind].
    rewrite tzip_same by (unfold shape; simpl; congruence). cbn [bind].
    rewrite tzip_same by (unfold shape; simpl; congruence). cbn [bind].
    rewrite (wl_apply_eq (ext c) (int_ c)) by auto. f_equal. cbn [tB tC tH tW build tmap].
    apply build_ext. intros b o i j Hb Ho Hi' Hj. unfold cca_ufn.
    apply (wl_fn_ext (ext c) (int_ c)); auto. intros k Hk.
    assert (Hk' : (k < tC idn)%nat) by lia.
    rewrite get_build by auto. rewrite get_build by auto. rewrite (get_build _ (tC idn)) by auto.
    rewrite get_tmap by auto. unfold gen_at, per_at. rewrite !get_build; auto; congruence.
  - intros v v' w w' k Hk Hv Hw'. unfold cca_ufn. apply (wl_fn_ext (ext c) (int_ c)); auto.
    intros ch Hch. rewrite Hv, Hw' by auto. reflexivity.
Qed.

Definition lenia_ufn (c : cca) (v w : nat -> R) (o : nat) : R := wl_fn (wl c) (fun k => gen_at c k (w k)) o.

Lemma lenia_update_pointwise c : wl_wf (ext c) (int_ c) (wl c) ->
  pointwise (ext c) (int_ c) (lenia_update c) (fns_chk (int_ c) (gens c)) (lenia_ufn c).
Proof.
  intros Hw. split.
  - intros idn nb Hi Hn Hs Hc H0 W0. pose proof Hs as Hs'. unfold shape in Hs'.
    injection Hs' as E1 E2 E3 E4. unfold lenia_update. rewrite apply_fns_eq. rewrite <- E2, Hc.
    destruct (fns_chk (int_ c) (gens c)) as [[]|]; [|reflexivity]. cbn [bind].
    rewrite (wl_apply_eq (ext c) (int_ c)); auto; cbn [tB tC tH tW build]; try congruence.
    f_equal. rewrite E1, E3, E4. apply build_ext. intros b o i j Hb Ho Hi' Hj. unfold lenia_ufn.
    apply (wl_fn_ext (ext c) (int_ c)); auto. intros k Hk. rewrite get_build; auto; congruence.
  - intros v v' w w' k Hk Hv Hw'. unfold lenia_ufn. apply (wl_fn_ext (ext c) (int_ c)); auto.
    intros ch Hch. rewrite Hw' by auto. reflexivity.
Qed.

(** ** Well-formed automata *)
Lemma set_core_dt_wf c d : cca_wf c -> cca_wf (set_core_dt c d).
Proof. auto. Qed.

Lemma wl_init_wf e n m w : (0 < e)%nat -> (0 < n)%nat -> init_weights e n m = Ok w -> wl_wf e n w.
Proof.
  intros He Hn H. unfold init_weights in H. apply bind_ok in H as (u & _ & E). injection E as <-.
  simpl. unfold pt_layer, layer_wf, groups_ok. cbn [cl_w cl_g cl_p cl_m tB tC tH tW tmap build].
  repeat split; auto; try lia.
  - exists e; lia.
  - unfold twf; simpl. rewrite !map_length, seq_length. lia.
Qed.

Lemma init_weights_ok e n m : (0 < e)%nat -> (0 < n)%nat -> exists w, init_weights e n m = Ok w.
Proof.
  intros He Hn. unfold init_weights. rewrite tsum_build. simpl.
  rewrite (rsum_ext e _ (fun _ => INR n)) by (intros; rewrite (rsum_ext n _ (fun _ => 1)) by (intros; lra); rewrite rsum_const; lra).
  rewrite rsum_const. unfold nonzero. destruct (Req_EM_T (INR e * INR n) 0) as [E|E].
  - exfalso. assert (0 < INR e) by (apply lt_0_INR; auto). assert (0 < INR n) by (apply lt_0_INR; auto). nra.
  - simpl. eauto.
Qed.

(** Functional-mode weights are all 1/(ext*int). *)
Lemma init_weights_fn e n m w v o : (0 < e)%nat -> (0 < n)%nat -> init_weights e n m = Ok w -> (o < e)%nat ->
  wl_fn w v o = rsum n (fun k => v k) / (INR e * INR n).
Proof.
  intros He Hn H Ho. unfold init_weights in H.
  assert (Es : tsum (build e n 1 1 (fun _ _ _ _ => 1)) = INR e * INR n).
  { rewrite tsum_build. simpl.
    rewrite (rsum_ext e _ (fun _ => INR n)) by (intros; rewrite (rsum_ext n _ (fun _ => 1)) by (intros; lra); rewrite rsum_const; lra).
    rewrite rsum_const. lra. }
  rewrite Es in H. apply bind_ok in H as (u & _ & E). injection E as <-.
  unfold wl_fn, pt_fn. cbn [cl_w]. rewrite tmap_build. cbn [tC build].
  unfold Rdiv at 2. rewrite <- rsum_scal_r. apply rsum_ext; intros c Hc.
  rewrite get_build by lia. unfold Rdiv. lra.
Qed.

(** ** Closed forms of the steps *)
Lemma cca_forward_nf c u : cca_wf c -> twf u ->
  cca_forward c u =
    if step_ready (ext c) (idl c) (nbl c) u then
      let* _ := cca_chk c in
      Ok (build (tB u) (ext c) (tH u) (tW u)
           (step_val (mask_fn (thr c)) (idl c) (nbl c) (cca_ufn c) (dt c) u))
    else Err RuntimeError.
Proof.
  intros (H1 & H2 & H3) Hu. unfold cca_forward, step.
  apply (ca_forward_nf (ext c) (int_ c)); auto using mask_if_cell, update_universe_pointwise.
Qed.

Lemma lenia_forward_nf c u : cca_wf c -> twf u ->
  lenia_forward c u =
    if step_ready (ext c) (idl c) (nbl c) u then
      let* _ := fns_chk (int_ c) (gens c) in
      Ok (build (tB u) (ext c) (tH u) (tW u)
           (step_val (mask_fn (thr c)) (idl c) (nbl c) (lenia_ufn c) (dt c) u))
    else Err RuntimeError.
Proof.
  intros (H1 & H2 & H3) Hu. unfold lenia_forward, step.
  apply (ca_forward_nf (ext c) (int_ c)); auto using mask_if_cell, lenia_update_pointwise.
Qed.
