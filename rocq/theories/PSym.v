(** Symmetries: rolls, mirrors, transposition and batch selection commute with layers. *)
From Coq Require Import Reals Lra Lia List Arith Bool ZArith.
From Verif Require Import Base Tensor MCommon PTensor PStep SGrid SCca.
Import ListNotations.
Open Scope R_scope.

Lemma zmod_lt a n : (0 < n)%nat -> (zmod a n < n)%nat.
Proof. intros Hn. unfold zmod. pose proof (Z.mod_pos_bound a (Z.of_nat n)). lia. Qed.

Lemma zmod_of_nat a n : (0 < n)%nat -> Z.of_nat (zmod a n) = (a mod Z.of_nat n)%Z.
Proof. intros Hn. unfold zmod. pose proof (Z.mod_pos_bound a (Z.of_nat n)). lia. Qed.

Lemma zmod_eq a b n : (0 < n)%nat -> (a mod Z.of_nat n = b mod Z.of_nat n)%Z -> zmod a n = zmod b n.
Proof. intros Hn E. unfold zmod. rewrite E. reflexivity. Qed.

Lemma zmod_small i n : (i < n)%nat -> zmod (Z.of_nat i) n = i.
Proof. intros Hi. unfold zmod. rewrite Z.mod_small by lia. lia. Qed.

Lemma zmod_add_idemp a b n : (0 < n)%nat -> zmod (Z.of_nat (zmod a n) + b) n = zmod (a + b) n.
Proof. intros Hn. unfold zmod at 1 3. rewrite zmod_of_nat by auto. rewrite Zplus_mod_idemp_l. reflexivity. Qed.

(** Circular padding reads index (x - p) mod n. *)
Lemma pad_src_circ n p x : (0 < n)%nat -> (p <= n)%nat ->
  pad_src Circular n p x = Some (zmod (Z.of_nat x - Z.of_nat p) n).
Proof.
  intros Hn Hp. simpl. f_equal. unfold zmod. apply Nat2Z.inj.
  rewrite Z2Nat.id by (apply Z.mod_pos_bound; lia). rewrite Nat2Z.inj_mod.
  replace (Z.of_nat (x + n - p)) with (Z.of_nat x - Z.of_nat p + 1 * Z.of_nat n)%Z by lia.
  apply Z_mod_plus_full.
Qed.

Lemma circ_allowed n p : pad_allowed Circular n p = true -> (p <= n)%nat.
Proof. simpl. apply Nat.leb_le. Qed.

Lemma zmod_shift n i y p d : (0 < n)%nat ->
  zmod (Z.of_nat (zmod (Z.of_nat (i + y) - p) n) - d) n = zmod (Z.of_nat (zmod (Z.of_nat i - d) n + y) - p) n.
Proof.
  intros Hn. unfold Z.sub at 1. rewrite zmod_add_idemp by auto.
  replace (Z.of_nat (zmod (Z.of_nat i - d) n + y) - p)%Z
    with (Z.of_nat (zmod (Z.of_nat i - d) n) + (Z.of_nat y - p))%Z by lia.
  rewrite zmod_add_idemp by auto. f_equal. lia.
Qed.

(** *** Rolls *)
Definition roll_map (dy dx : Z) (H W i j : nat) : nat * nat :=
  (zmod (Z.of_nat i - dy) H, zmod (Z.of_nat j - dx) W).

Lemma roll_commutes n l dy dx H W : cl_m l = Circular -> (0 < H)%nat -> (0 < W)%nat ->
  conv_commutes n l (roll_map dy dx H W) H W H W.
Proof.
  intros Hm H0 W0. split; [reflexivity|]. intros A1 A2 f o i j Ho Hi Hj. unfold convf. rewrite Hm in *.
  apply circ_allowed in A1. apply circ_allowed in A2.
  apply rsum_ext; intros c _. apply rsum_ext; intros y _. apply rsum_ext; intros x _. f_equal.
  unfold pval. rewrite !pad_src_circ by auto. unfold roll_map; cbn [fst snd].
  f_equal; apply zmod_shift; auto.
Qed.

(** *** Mirrors *)
Lemma mod_unique a q r n : (r < n)%nat -> (a = q * n + r)%nat -> (a mod n = r)%nat.
Proof. intros Hr ->. rewrite Nat.add_comm, Nat.mod_add by lia. apply Nat.mod_small; auto. Qed.

Lemma pad_src_mirror m n p x : pad_allowed m n p = true -> (0 < n)%nat -> (x < n + 2 * p)%nat ->
  pad_src m n p (n + 2 * p - 1 - x) = option_map (fun y => (n - 1 - y)%nat) (pad_src m n p x).
Proof.
  intros Ha Hn Hx. destruct m; simpl in *.
  - destruct (Nat.ltb_spec (n + (p + (p + 0)) - 1 - x) p), (Nat.ltb_spec x p), (Nat.ltb_spec x (p + n)),
      (Nat.ltb_spec (n + (p + (p + 0)) - 1 - x) (p + n)); simpl; try reflexivity; try (exfalso; lia); f_equal; lia.
  - apply Nat.ltb_lt in Ha.
    destruct (Nat.ltb_spec (n + (p + (p + 0)) - 1 - x) p), (Nat.ltb_spec x p), (Nat.ltb_spec x (p + n)),
      (Nat.ltb_spec (n + (p + (p + 0)) - 1 - x) (p + n)); simpl; try reflexivity; try (exfalso; lia); f_equal; lia.
  - destruct (Nat.ltb_spec (n + (p + (p + 0)) - 1 - x) p), (Nat.ltb_spec x p), (Nat.ltb_spec x (p + n)),
      (Nat.ltb_spec (n + (p + (p + 0)) - 1 - x) (p + n)); simpl; try reflexivity; try (exfalso; lia); f_equal; lia.
  - apply Nat.leb_le in Ha. f_equal.
    set (a := (x + n - p)%nat).
    assert (Hm : (a mod n < n)%nat) by (apply Nat.mod_upper_bound; lia).
    pose proof (Nat.div_mod a n ltac:(lia)) as Ed.
    assert (Hle : (a <= 3 * n - 1)%nat) by (unfold a; lia).
    assert (Hq : (a / n <= 2)%nat).
    { apply Nat.lt_succ_r. apply Nat.div_lt_upper_bound; lia. }
    apply (mod_unique _ (2 - a / n)%nat); [lia|].
    replace (n + (p + (p + 0)) - 1 - x + n - p)%nat with (3 * n - 1 - a)%nat by (unfold a; lia).
    set (q := (a / n)%nat) in *. set (r := (a mod n)%nat) in *. nia.
Qed.

Definition flip_v_map (H i j : nat) : nat * nat := ((H - 1 - i)%nat, j).
Definition flip_h_map (W i j : nat) : nat * nat := (i, (W - 1 - j)%nat).

Lemma flip_v_commutes e n l H W : layer_wf e n l -> sym_v (cl_w l) -> (0 < H)%nat -> (0 < W)%nat ->
  conv_commutes n l (flip_v_map H) H W H W.
Proof.
  intros (Hg & Hwf & Hn & He & EB & EC & EH & EW) Hs H0 W0. split; [reflexivity|].
  intros A1 A2 f o i j Ho Hi Hj. unfold convf.
  apply rsum_ext; intros c Hc. rewrite <- (rsum_rev (tH (cl_w l))).
  apply rsum_ext; intros y Hy. apply rsum_ext; intros x Hx.
  rewrite Hs by (auto; lia). f_equal.
  unfold pval, flip_v_map; cbn [fst snd].
  rewrite EH in Hy |- *.
  replace (H - 1 - i + y)%nat with (H + 2 * cl_p l - 1 - (i + (2 * cl_p l + 1 - 1 - y)))%nat by lia.
  rewrite pad_src_mirror by (auto; lia).
  destruct (pad_src (cl_m l) H (cl_p l) (i + (2 * cl_p l + 1 - 1 - y))) eqn:E1; cbn [option_map]; reflexivity.
Qed.

Lemma flip_h_commutes e n l H W : layer_wf e n l -> sym_h (cl_w l) -> (0 < H)%nat -> (0 < W)%nat ->
  conv_commutes n l (flip_h_map W) H W H W.
Proof.
  intros (Hg & Hwf & Hn & He & EB & EC & EH & EW) Hs H0 W0. split; [reflexivity|].
  intros A1 A2 f o i j Ho Hi Hj. unfold convf.
  apply rsum_ext; intros c Hc. apply rsum_ext; intros y Hy.
  rewrite <- (rsum_rev (tW (cl_w l))). apply rsum_ext; intros x Hx.
  rewrite Hs by (auto; lia). f_equal.
  unfold pval, flip_h_map; cbn [fst snd].
  rewrite EW in Hx |- *.
  replace (W - 1 - j + x)%nat with (W + 2 * cl_p l - 1 - (j + (2 * cl_p l + 1 - 1 - x)))%nat by lia.
  rewrite pad_src_mirror by (auto; lia).
  destruct (pad_src (cl_m l) H (cl_p l) (i + y)); [|reflexivity].
  destruct (pad_src (cl_m l) W (cl_p l) (j + (2 * cl_p l + 1 - 1 - x))) eqn:E1; cbn [option_map]; reflexivity.
Qed.

(** *** Transposition *)
Definition tr_map (i j : nat) : nat * nat := (j, i).

Lemma transpose_commutes e n l H W : layer_wf e n l -> sym_t (cl_w l) ->
  conv_commutes n l tr_map H W W H.
Proof.
  intros (Hg & Hwf & Hn & He & EB & EC & EH & EW) [Hq Hs]. split; [apply andb_comm|].
  intros A1 A2 f o i j Ho Hi Hj. unfold convf, tr_map; cbn [fst snd].
  apply rsum_ext; intros c Hc. rewrite rsum_swap. rewrite Hq.
  apply rsum_ext; intros y Hy. apply rsum_ext; intros x Hx.
  rewrite (Hs o c y x) by (rewrite ?Hq; auto; lia). f_equal.
  unfold pval. destruct (pad_src (cl_m l) W (cl_p l) (i + x)), (pad_src (cl_m l) H (cl_p l) (j + y)); reflexivity.
Qed.

(** *** No spatial change *)
Definition id_map (i j : nat) : nat * nat := (i, j).

Lemma id_commutes n l H W : conv_commutes n l id_map H W H W.
Proof. split; [reflexivity|]. intros. reflexivity. Qed.

(** The named transformations are pulls. *)
Lemma roll_pull dy dx t : roll dy dx t = pull (fun b => b) (roll_map dy dx (tH t) (tW t)) (tB t) (tH t) (tW t) t.
Proof. reflexivity. Qed.
Lemma flip_v_pull t : flip_v t = pull (fun b => b) (flip_v_map (tH t)) (tB t) (tH t) (tW t) t.
Proof. reflexivity. Qed.
Lemma flip_h_pull t : flip_h t = pull (fun b => b) (flip_h_map (tW t)) (tB t) (tH t) (tW t) t.
Proof. reflexivity. Qed.
Lemma transpose_pull t : transpose t = pull (fun b => b) tr_map (tB t) (tW t) (tH t) t.
Proof. reflexivity. Qed.
Lemma batch_elem_pull k t : batch_elem k t = pull (fun _ => k) id_map 1 (tH t) (tW t) t.
Proof. reflexivity. Qed.

(** ** A substitution that is compatible with two layers *)
Record compat (n : nat) (l1 l2 : conv_layer) (fb : nat -> nat) (fs : nat -> nat -> nat * nat)
    (B H W B' H' W' : nat) : Prop := mkCompat {
  cp_fb : forall b, (b < B')%nat -> (fb b < B)%nat;
  cp_fs : forall i j, (i < H')%nat -> (j < W')%nat -> (fst (fs i j) < H)%nat /\ (snd (fs i j) < W)%nat;
  cp_pos : (0 < H')%nat /\ (0 < W')%nat <-> (0 < H)%nat /\ (0 < W)%nat;
  cp_1 : conv_commutes n l1 fs H W H' W';
  cp_2 : conv_commutes n l2 fs H W H' W' }.

Definition dims (t : tensor) (B H W : nat) : Prop := tB t = B /\ tH t = H /\ tW t = W.

Section Pull.
  Variables (fb : nat -> nat) (fs : nat -> nat -> nat * nat) (B H W B' H' W' : nat).
  Hypothesis Hfb : forall b, (b < B')%nat -> (fb b < B)%nat.
  Hypothesis Hfs : forall i j, (i < H')%nat -> (j < W')%nat -> (fst (fs i j) < H)%nat /\ (snd (fs i j) < W)%nat.
  Let F := pull fb fs B' H' W'.

  Lemma pull_tmap f t : twf t -> dims t B H W -> F (tmap f t) = tmap f (F t).
  Proof.
    intros Hw (E1 & E2 & E3). unfold F, pull. rewrite tmap_build. cbn [tC tmap].
    apply build_ext. intros b c i j Hb Hc Hi Hj. destruct (Hfs i j Hi Hj). specialize (Hfb b Hb).
    rewrite get_tmap; auto; congruence.
  Qed.

  Lemma pull_tzip f x y : dims x B H W -> shape x = shape y ->
    tzip f (F x) (F y) = rmap F (tzip f x y).
  Proof.
    intros (E1 & E2 & E3) Hs. rewrite (tzip_same f x y Hs). unfold shape in Hs. injection Hs as _ S2 _ _.
    rewrite tzip_same by (unfold shape, F, pull; simpl; congruence). cbn [rmap]. f_equal.
    unfold F, pull; cbn [tB tC tH tW build]. apply build_ext. intros b c i j Hb Hc Hi Hj.
    destruct (Hfs i j Hi Hj). specialize (Hfb b Hb).
    rewrite !get_build; auto; congruence.
  Qed.

  Lemma twf_pull t : twf (F t).
  Proof. apply twf_build. Qed.
End Pull.

Section Mask.
  Variables (fb : nat -> nat) (fs : nat -> nat -> nat * nat) (B' H' W' : nat).
  Variables (msk : tensor -> res tensor) (mfn : nat -> (nat -> R) -> nat -> R).
  Hypothesis Hmask : cell_mask msk mfn.

  Lemma mask_pull u : twf u ->
    (forall b, (b < B')%nat -> (fb b < tB u)%nat) ->
    (forall i j, (i < H')%nat -> (j < W')%nat -> (fst (fs i j) < tH u)%nat /\ (snd (fs i j) < tW u)%nat) ->
    msk (pull fb fs B' H' W' u) = rmap (pull fb fs B' H' W') (msk u).
  Proof.
    intros Hu Hfb Hfs. destruct Hmask as [Hm Hloc]. rewrite (Hm u Hu). rewrite Hm by apply twf_build.
    cbn [rmap]. f_equal. unfold pull; cbn [tB tC tH tW build]. apply build_ext. intros b c i j Hb Hc Hi Hj.
    destruct (Hfs i j Hi Hj). specialize (Hfb b Hb). rewrite get_build; auto.
    apply Hloc; auto. intros k Hk. rewrite get_build; auto.
  Qed.

  Lemma mask_dims u m : twf u -> msk u = Ok m -> twf m /\ shape m = shape u.
  Proof.
    intros Hu. destruct Hmask as [Hm _]. rewrite Hm by auto. intros E; injection E as <-.
    split; [apply twf_build|reflexivity].
  Qed.
End Mask.

Lemma ca_update_pull e n idl nbl upd chk ufn fb fs B' H' W' u :
  layer_wf e n idl -> layer_wf e n nbl -> pointwise e n upd chk ufn -> twf u ->
  compat n idl nbl fb fs (tB u) (tH u) (tW u) B' H' W' ->
  ca_update idl nbl upd (pull fb fs B' H' W' u) = rmap (pull fb fs B' H' W') (ca_update idl nbl upd u).
Proof.
  intros Hid Hnb Hupd Hu [Hfb Hfs H0 [Pi Ci] [Pn Cn]].
  pose proof (ca_update_nf e n (fun u => Ok u) _ idl nbl upd chk ufn no_mask_cell Hid Hnb Hupd) as Hnf.
  cbn [bind] in Hnf. rewrite (Hnf u Hu). rewrite Hnf by apply twf_build.
  set (p := pull fb fs B' H' W' u) in *.
  assert (Er : step_ready e idl nbl p = step_ready e idl nbl u).
  { assert (Ea : forall (l : conv_layer),
      pad_allowed (cl_m l) (tH u) (cl_p l) && pad_allowed (cl_m l) (tW u) (cl_p l) =
      pad_allowed (cl_m l) H' (cl_p l) && pad_allowed (cl_m l) W' (cl_p l) ->
      layer_ready e l p = layer_ready e l u).
    { intros l Ep. unfold layer_ready, p, pull; cbn [tB tC tH tW build].
      rewrite <- !andb_assoc. f_equal.
      assert (E0 : Nat.ltb 0 H' && Nat.ltb 0 W' = Nat.ltb 0 (tH u) && Nat.ltb 0 (tW u)).
      { destruct (Nat.ltb_spec 0 H'), (Nat.ltb_spec 0 W'), (Nat.ltb_spec 0 (tH u)), (Nat.ltb_spec 0 (tW u));
          simpl; auto; exfalso; lia. }
      rewrite !andb_assoc, E0. rewrite <- !andb_assoc. rewrite Ep. reflexivity. }
    unfold step_ready. rewrite (Ea idl Pi), (Ea nbl Pn). reflexivity. }
  rewrite Er. destruct (step_ready e idl nbl u) eqn:Es; [|reflexivity].
  destruct chk as [[]|]; [|reflexivity]. cbn [bind rmap]. f_equal.
  unfold step_ready in Es. apply andb_true_iff in Es as [R1 R2]. apply andb_true_iff in Er as [R1' R2'].
  pose proof (layer_ready_inv _ _ _ R1) as (Ec & Hh & Hw & A1 & A2).
  pose proof (layer_ready_inv _ _ _ R2) as (_ & _ & _ & A3 & A4).
  change (tB p) with B'. change (tH p) with H'. change (tW p) with W'.
  unfold pull; cbn [tC build]. apply build_ext. intros b c i j Hb Hc Hi Hj.
  destruct (Hfs i j Hi Hj) as [Hy Hx]. specialize (Hfb b Hb). rewrite get_build by auto.
  destruct Hupd as [_ Hloc]. unfold upd_val, mval. change (tH p) with H'. change (tW p) with W'.
  apply Hloc; auto.
  - intros k Hk. rewrite <- Ci by auto. apply (convf_ext_ready e n idl p); auto.
    intros c' y x Hc' Hy' Hx'. unfold p, pull. rewrite get_build; auto; congruence.
  - intros k Hk. rewrite <- Cn by auto. apply (convf_ext_ready e n nbl p); auto.
    intros c' y x Hc' Hy' Hx'. unfold p, pull. rewrite get_build; auto; congruence.
Qed.

Lemma ca_forward_compat e n msk mfn idl nbl upd chk ufn dt fb fs B' H' W' u :
  cell_mask msk mfn -> layer_wf e n idl -> layer_wf e n nbl -> pointwise e n upd chk ufn -> twf u ->
  compat n idl nbl fb fs (tB u) (tH u) (tW u) B' H' W' ->
  ca_forward msk idl nbl upd dt (pull fb fs B' H' W' u) = rmap (pull fb fs B' H' W') (ca_forward msk idl nbl upd dt u).
Proof. intros. destruct H4. eapply ca_forward_pull; eauto. Qed.

(** Substitutions compatible with two layers. *)
Lemma compat_roll n l1 l2 dy dx B H W : cl_m l1 = Circular -> cl_m l2 = Circular -> (0 < H)%nat -> (0 < W)%nat ->
  compat n l1 l2 (fun b => b) (roll_map dy dx H W) B H W B H W.
Proof.
  intros. constructor; auto; try tauto.
  - intros. split; apply zmod_lt; auto.
  - apply roll_commutes; auto.
  - apply roll_commutes; auto.
Qed.

Lemma compat_flip_v e n l1 l2 B H W : layer_wf e n l1 -> layer_wf e n l2 -> sym_v (cl_w l1) -> sym_v (cl_w l2) ->
  (0 < H)%nat -> (0 < W)%nat -> compat n l1 l2 (fun b => b) (flip_v_map H) B H W B H W.
Proof.
  intros. constructor; auto; try tauto.
  - intros. simpl. lia.
  - eapply flip_v_commutes; eauto.
  - eapply flip_v_commutes; eauto.
Qed.

Lemma compat_flip_h e n l1 l2 B H W : layer_wf e n l1 -> layer_wf e n l2 -> sym_h (cl_w l1) -> sym_h (cl_w l2) ->
  (0 < H)%nat -> (0 < W)%nat -> compat n l1 l2 (fun b => b) (flip_h_map W) B H W B H W.
Proof.
  intros. constructor; auto; try tauto.
  - intros. simpl. lia.
  - eapply flip_h_commutes; eauto.
  - eapply flip_h_commutes; eauto.
Qed.

Lemma compat_transpose e n l1 l2 B H W : layer_wf e n l1 -> layer_wf e n l2 -> sym_t (cl_w l1) -> sym_t (cl_w l2) ->
  compat n l1 l2 (fun b => b) tr_map B H W B W H.
Proof.
  intros. constructor; try (eapply transpose_commutes; eauto).
  - auto.
  - intros. simpl. lia.
  - lia.
Qed.

Lemma compat_batch n l1 l2 k B H W : (k < B)%nat -> compat n l1 l2 (fun _ => k) id_map B H W 1 H W.
Proof.
  intros. constructor; auto; try tauto.
  - apply id_commutes.
  - apply id_commutes.
Qed.
