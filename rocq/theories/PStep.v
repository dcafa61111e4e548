(** Generic facts about one automaton step (CA.forward with any cell-wise
    update_universe): closed form, range, shape, symmetries. *)
From Coq Require Import Reals Lra Lia List Arith Bool.
From Verif Require Import Base Tensor MCommon PTensor SGrid SCca.
Import ListNotations.
Open Scope R_scope.

(** update_universe acts cell by cell: it raises as [chk] says, and otherwise new channel
    [k] of a cell is [ufn identity-channels neighbourhood-channels k]. *)
Definition pointwise (e n : nat) (upd : tensor -> tensor -> res tensor) (chk : res unit)
    (ufn : (nat -> R) -> (nat -> R) -> nat -> R) : Prop :=
  (forall idn nb, twf idn -> twf nb -> shape idn = shape nb -> tC idn = n ->
     (0 < tH idn)%nat -> (0 < tW idn)%nat ->
     upd idn nb = let* _ := chk in
       Ok (build (tB idn) e (tH idn) (tW idn)
            (fun b k i j => ufn (fun c => get idn b c i j) (fun c => get nb b c i j) k))) /\
  (forall v v' w w' k, (k < e)%nat -> (forall c, (c < n)%nat -> v c = v' c) ->
     (forall c, (c < n)%nat -> w c = w' c) -> ufn v w k = ufn v' w' k).

(** The guarded mask acts cell by cell and never raises. *)
Definition cell_mask (msk : tensor -> res tensor) (mfn : nat -> (nat -> R) -> nat -> R) : Prop :=
  (forall u, twf u -> msk u =
     Ok (build (tB u) (tC u) (tH u) (tW u) (fun b c i j => mfn (tC u) (fun k => get u b k i j) c))) /\
  (forall C v v' c, (c < C)%nat -> (forall k, (k < C)%nat -> v k = v' k) -> mfn C v c = mfn C v' c).

Definition mask_fn (thr : R) (C : nat) (v : nat -> R) (c : nat) : R :=
  if Nat.leb 4 C then v c * (if Rlt_dec thr (v 3%nat) then 1 else 0) else v c.

Lemma mask_if_cell thr : cell_mask (mask_if thr) (mask_fn thr).
Proof.
  split.
  - intros u Hu. unfold mask_if, mask_fn. destruct (Nat.leb_spec 4 (tC u)) as [H4|H4].
    + unfold alive_mask. replace (Nat.min 4 (tC u) - 3)%nat with 1%nat by lia. cbv zeta.
      unfold tzip. cbn [tB tC tH tW build]. rewrite !bdim_refl.
      assert (E : bdim (tC u) 1 = Ok (tC u)).
      { unfold bdim. destruct (Nat.eqb_spec (tC u) 1); [lia|]. reflexivity. }
      rewrite E. cbn [bind]. f_equal. apply build_ext. intros b c i j Hb Hc Hi Hj.
      rewrite bget_get by auto. f_equal. unfold bget. cbn [tB tC tH tW build].
      rewrite (bidx_lt (tB u)), (bidx_lt (tH u)), (bidx_lt (tW u)) by auto.
      change (bidx 1 c) with 0%nat. rewrite get_build by lia. reflexivity.
    + rewrite <- (build_get u Hu) at 1. reflexivity.
  - intros C v v' c Hc Hv. unfold mask_fn. destruct (Nat.leb_spec 4 C); rewrite ?Hv by lia; reflexivity.
Qed.

Lemma no_mask_cell : cell_mask (fun u => Ok u) (fun _ v c => v c).
Proof.
  split; [|auto]. intros u Hu. rewrite <- (build_get u Hu) at 1. reflexivity.
Qed.

Section Generic.
  Variables (e n : nat) (msk : tensor -> res tensor) (mfn : nat -> (nat -> R) -> nat -> R).
  Variables (idl nbl : conv_layer) (upd : tensor -> tensor -> res tensor) (chk : res unit).
  Variables (ufn : (nat -> R) -> (nat -> R) -> nat -> R) (dt : R).
  Hypothesis Hmask : cell_mask msk mfn.
  Hypothesis Hid : layer_wf e n idl.
  Hypothesis Hnb : layer_wf e n nbl.
  Hypothesis Hupd : pointwise e n upd chk ufn.

  (** The masked universe as an index function. *)
  Definition mval (u : tensor) (b c i j : nat) : R := mfn (tC u) (fun k => get u b k i j) c.

  (** The step as an index function. *)
  Definition step_val (u : tensor) (b c i j : nat) : R :=
    clamp 0 1 (mval u b c i j + dt *
      ufn (fun k => convf idl (tH u) (tW u) (mval u b) k i j)
          (fun k => convf nbl (tH u) (tW u) (mval u b) k i j) c).

  Definition upd_val (u : tensor) (b c i j : nat) : R :=
    ufn (fun k => convf idl (tH u) (tW u) (mval u b) k i j)
        (fun k => convf nbl (tH u) (tW u) (mval u b) k i j) c.

  Definition step_ready (u : tensor) : bool := layer_ready e idl u && layer_ready e nbl u.

  Lemma layer_ready_shape l x y : shape x = shape y -> layer_ready e l x = layer_ready e l y.
  Proof. unfold shape. intros E. injection E as E1 E2 E3 E4. unfold layer_ready. rewrite E2, E3, E4. reflexivity. Qed.

  Lemma ca_update_nf u : twf u ->
    (let* m := msk u in ca_update idl nbl upd m) =
      if step_ready u then
        let* _ := chk in Ok (build (tB u) e (tH u) (tW u) (upd_val u))
      else Err RuntimeError.
  Proof.
    intros Hu. destruct Hmask as [Hm _]. rewrite Hm by auto. cbn [bind].
    set (m := build _ _ _ _ _).
    assert (Hms : shape m = shape u) by reflexivity.
    assert (Hmw : twf m) by apply twf_build.
    assert (Hmg : forall b c i j, (b < tB u)%nat -> (c < tC u)%nat -> (i < tH u)%nat -> (j < tW u)%nat ->
              get m b c i j = mval u b c i j).
    { intros. unfold m. rewrite get_build; auto. }
    unfold ca_update, step_ready.
    rewrite (layer_apply_eq e n idl m Hid), (layer_apply_eq e n nbl m Hnb).
    rewrite (layer_ready_shape idl m u Hms), (layer_ready_shape nbl m u Hms).
    destruct (layer_ready e idl u) eqn:R1; [|reflexivity].
    destruct (layer_ready e nbl u) eqn:R2; [|reflexivity]. cbn [bind andb].
    pose proof (layer_ready_inv _ _ _ R1) as (_ & H0 & W0 & _).
    destruct Hupd as [Hu1 Hu2]. rewrite Hu1; try apply twf_build; try reflexivity; try exact H0; try exact W0.
    destruct chk as [[]|]; [|reflexivity]. cbn [bind].
    f_equal. apply build_ext. intros b c i j Hb Hc Hi Hj. cbn [tB tC tH tW build] in *.
    unfold upd_val. apply Hu2; auto.
    + intros k Hk. rewrite get_build; auto. change (tH m) with (tH u). change (tW m) with (tW u).
      pose proof (layer_ready_inv _ _ _ R1) as (Ec & _).
      apply (convf_ext_ready e n idl u); auto. intros; apply Hmg; auto. lia.
    + intros k Hk. rewrite get_build; auto. change (tH m) with (tH u). change (tW m) with (tW u).
      pose proof (layer_ready_inv _ _ _ R2) as (Ec & _).
      apply (convf_ext_ready e n nbl u); auto. intros; apply Hmg; auto. lia.
  Qed.

  Lemma ca_forward_nf u : twf u ->
    ca_forward msk idl nbl upd dt u =
      if step_ready u then
        let* _ := chk in Ok (build (tB u) e (tH u) (tW u) (step_val u))
      else Err RuntimeError.
  Proof.
    intros Hu. pose proof (ca_update_nf u Hu) as Hn. unfold ca_forward.
    destruct Hmask as [Hm _]. rewrite Hm by auto. rewrite Hm in Hn by auto. cbn [bind] in *.
    set (m := build _ _ _ _ _) in *. rewrite Hn.
    destruct (step_ready u) eqn:Er; [|reflexivity].
    destruct chk as [[]|]; [|reflexivity]. cbn [bind].
    assert (Ec : tC u = e).
    { unfold step_ready in Er. apply andb_true_iff in Er as [R1 _]. apply layer_ready_inv in R1. tauto. }
    unfold euler. rewrite tmap_build. rewrite tzip_same.
    2:{ unfold shape, m; cbn [tB tC tH tW build]. congruence. }
    cbn [bind]. rewrite tmap_build. f_equal. unfold m; cbn [tB tC tH tW build]. rewrite Ec.
    apply build_ext. intros b c i j Hb Hc Hi Hj. rewrite !get_build by (auto; congruence).
    unfold step_val, upd_val. unfold mval. rewrite Ec. reflexivity.
  Qed.

  (** Shape and well-formedness of a successful step. *)
  Lemma ca_forward_shape u u' : twf u -> ca_forward msk idl nbl upd dt u = Ok u' ->
    shape u' = shape u /\ twf u'.
  Proof.
    intros Hu. rewrite ca_forward_nf by auto.
    destruct (step_ready u) eqn:Er; [|discriminate].
    destruct chk as [[]|]; [|discriminate]. cbn [bind]. intros E; injection E as <-.
    unfold step_ready in Er. apply andb_true_iff in Er as [R1 _]. apply layer_ready_inv in R1 as (Ec & _).
    split; [unfold shape; simpl; congruence|apply twf_build].
  Qed.

  (** ** Index substitutions: batch selection [fb] and a spatial map [fs]. *)
  Definition pull (fb : nat -> nat) (fs : nat -> nat -> nat * nat) (B H W : nat) (t : tensor) : tensor :=
    build B (tC t) H W (fun b c i j => get t (fb b) c (fst (fs i j)) (snd (fs i j))).

  (** [fs] maps the H' x W' plane into the H x W plane and commutes with the layer. *)
  Definition conv_commutes (l : conv_layer) (fs : nat -> nat -> nat * nat) (H W H' W' : nat) : Prop :=
    (pad_allowed (cl_m l) H (cl_p l) && pad_allowed (cl_m l) W (cl_p l) =
     pad_allowed (cl_m l) H' (cl_p l) && pad_allowed (cl_m l) W' (cl_p l)) /\
    (pad_allowed (cl_m l) H (cl_p l) = true -> pad_allowed (cl_m l) W (cl_p l) = true ->
     forall f o i j, (o < n)%nat -> (i < H')%nat -> (j < W')%nat ->
      convf l H' W' (fun c y x => f c (fst (fs y x)) (snd (fs y x))) o i j =
      convf l H W f o (fst (fs i j)) (snd (fs i j))).

  Lemma ca_forward_pull fb fs B' H' W' u : twf u ->
    (forall b, (b < B')%nat -> (fb b < tB u)%nat) ->
    (forall i j, (i < H')%nat -> (j < W')%nat -> (fst (fs i j) < tH u)%nat /\ (snd (fs i j) < tW u)%nat) ->
    ((0 < H')%nat /\ (0 < W')%nat <-> (0 < tH u)%nat /\ (0 < tW u)%nat) ->
    conv_commutes idl fs (tH u) (tW u) H' W' ->
    conv_commutes nbl fs (tH u) (tW u) H' W' ->
    ca_forward msk idl nbl upd dt (pull fb fs B' H' W' u) =
    rmap (pull fb fs B' H' W') (ca_forward msk idl nbl upd dt u).
  Proof.
    intros Hu Hfb Hfs H0 [Pi Ci] [Pn Cn].
    rewrite (ca_forward_nf u Hu). rewrite ca_forward_nf by apply twf_build.
    assert (Er : step_ready (pull fb fs B' H' W' u) = step_ready u).
    { assert (Ea : forall (l : conv_layer) H W,
        pad_allowed (cl_m l) H (cl_p l) && pad_allowed (cl_m l) W (cl_p l) =
        pad_allowed (cl_m l) H' (cl_p l) && pad_allowed (cl_m l) W' (cl_p l) ->
        H = tH u -> W = tW u ->
        layer_ready e l (pull fb fs B' H' W' u) = layer_ready e l u).
      { intros l H W Ep -> ->. unfold layer_ready, pull; cbn [tB tC tH tW build].
        rewrite <- !andb_assoc. f_equal.
        assert (E0 : Nat.ltb 0 H' && Nat.ltb 0 W' = Nat.ltb 0 (tH u) && Nat.ltb 0 (tW u)).
        { destruct (Nat.ltb_spec 0 H'), (Nat.ltb_spec 0 W'), (Nat.ltb_spec 0 (tH u)), (Nat.ltb_spec 0 (tW u));
            simpl; auto; exfalso; lia. }
        rewrite !andb_assoc, E0. rewrite <- !andb_assoc. rewrite Ep. reflexivity. }
      unfold step_ready. rewrite (Ea idl _ _ Pi), (Ea nbl _ _ Pn) by reflexivity. reflexivity. }
    rewrite Er. destruct (step_ready u) eqn:Es; [|reflexivity].
    destruct chk as [[]|]; [|reflexivity]. cbn [bind rmap]. f_equal.
    unfold step_ready in Es. apply andb_true_iff in Es as [R1 R2].
    apply andb_true_iff in Er as [R1' R2'].
    pose proof (layer_ready_inv _ _ _ R1) as (Ec & Hh & Hw & A1 & A2).
    pose proof (layer_ready_inv _ _ _ R2) as (_ & _ & _ & A3 & A4).
    change (tB (pull fb fs B' H' W' u)) with B'. change (tH (pull fb fs B' H' W' u)) with H'.
    change (tW (pull fb fs B' H' W' u)) with W'.
    set (p := pull fb fs B' H' W' u) in *. unfold pull. cbn [tC build].
    apply build_ext. intros b c i j Hb Hc Hi Hj.
    destruct (Hfs i j Hi Hj) as [Hy Hx]. specialize (Hfb b Hb).
    rewrite get_build by auto.
    assert (Hg : forall c y x, (c < e)%nat -> (y < H')%nat -> (x < W')%nat ->
       mval p b c y x = mval u (fb b) c (fst (fs y x)) (snd (fs y x))).
    { intros c' y x Hc' Hy' Hx'. unfold mval. destruct Hmask as [_ Hloc].
      change (tC p) with (tC u). apply Hloc; [lia|].
      intros k Hk. unfold p, pull. rewrite get_build; auto. }
    unfold step_val. change (tH p) with H'. change (tW p) with W'.
    rewrite Hg by auto. f_equal. f_equal. f_equal.
    destruct Hupd as [_ Hloc]. apply Hloc; auto.
    + intros k Hk. rewrite <- Ci by auto.
      apply (convf_ext_ready e n idl p); auto.
    + intros k Hk. rewrite <- Cn by auto.
      apply (convf_ext_ready e n nbl p); auto.
  Qed.
End Generic.

(** Every output cell of a step is clamped, whatever the layers are. *)
Definition in01 (t : tensor) : Prop := Forall (fun x => 0 <= x <= 1) (tdata t).

Lemma euler_in01 d u upd u' : euler d u upd = Ok u' -> in01 u'.
Proof.
  unfold euler. intros H. apply bind_ok in H as (s & _ & E). injection E as <-.
  unfold in01. apply Forall_forall. intros x Hx. simpl in Hx. apply in_map_iff in Hx as (y & <- & _).
  apply clamp_range; lra.
Qed.

Lemma ca_forward_in01 msk idl nbl upd dt u u' : ca_forward msk idl nbl upd dt u = Ok u' -> in01 u'.
Proof.
  unfold ca_forward. intros H. apply bind_ok in H as (m & _ & H). apply bind_ok in H as (d & _ & H).
  eapply euler_in01; eauto.
Qed.
