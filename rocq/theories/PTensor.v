(** Facts about broadcasting, padding and convolution. *)
From Coq Require Import Reals Lra Lia List Arith Bool.
From Verif Require Import Base Tensor MCommon SGrid SCca.
Import ListNotations.
Open Scope R_scope.

Lemma bidx_lt d i : (i < d)%nat -> bidx d i = i.
Proof. unfold bidx. destruct (Nat.eqb_spec d 1); lia. Qed.

Lemma bget_get t b c i j : (b < tB t)%nat -> (c < tC t)%nat -> (i < tH t)%nat -> (j < tW t)%nat ->
  bget t b c i j = get t b c i j.
Proof. intros. unfold bget. rewrite !bidx_lt by auto. reflexivity. Qed.

Lemma bdim_refl a : bdim a a = Ok a.
Proof. unfold bdim. rewrite Nat.eqb_refl. reflexivity. Qed.

Lemma tzip_same f x y : shape x = shape y ->
  tzip f x y = Ok (build (tB x) (tC x) (tH x) (tW x) (fun b c i j => f (get x b c i j) (get y b c i j))).
Proof.
  intros Hs. unfold shape in Hs. injection Hs as E1 E2 E3 E4.
  unfold tzip. rewrite <- E1, <- E2, <- E3, <- E4, !bdim_refl. simpl. f_equal.
  apply build_ext. intros. rewrite !bget_get; try congruence; reflexivity.
Qed.

(** Value of the padded plane [f] of size H x W at padded position (i,j). *)
Definition pval (m : pmode) (H W p : nat) (f : nat -> nat -> R) (i j : nat) : R :=
  match pad_src m H p i, pad_src m W p j with
  | Some y, Some x => f y x
  | _, _ => 0
  end.

(** Convolution of the channel planes [f], at output channel [o] and position (i,j). *)
Definition convf (l : conv_layer) (H W : nat) (f : nat -> nat -> nat -> R) (o i j : nat) : R :=
  let w := cl_w l in
  rsum (tC w) (fun c => rsum (tH w) (fun y => rsum (tW w) (fun x =>
    get w o c y x *
    pval (cl_m l) H W (cl_p l) (f ((o / (tB w / cl_g l)) * tC w + c)%nat) (i + y) (j + x)))).

(** Whether a layer accepts a tensor. *)
Definition conv_ready (l : conv_layer) (t : tensor) : bool :=
  (pad_allowed (cl_m l) (tH t) (cl_p l) && pad_allowed (cl_m l) (tW t) (cl_p l))
  && Nat.eqb (tC t) (cl_g l * tC (cl_w l))
  && (Nat.leb (tH (cl_w l)) (tH t + 2 * cl_p l) && Nat.leb (tW (cl_w l)) (tW t + 2 * cl_p l)).

Lemma convf_ext l H W f g o i j :
  (forall c y x, (y < H)%nat -> (x < W)%nat -> f c y x = g c y x) ->
  (0 < H)%nat -> (0 < W)%nat ->
  (forall n p x y, pad_src (cl_m l) n p x = Some y -> (n = H \/ n = W) -> p = cl_p l ->
     (x < n + 2 * p)%nat -> (y < n)%nat) ->
  (i + tH (cl_w l) <= H + 2 * cl_p l)%nat -> (j + tW (cl_w l) <= W + 2 * cl_p l)%nat ->
  convf l H W f o i j = convf l H W g o i j.
Proof.
  intros Hfg HH HW Hs Hi Hj. unfold convf. apply rsum_ext; intros c Hc.
  apply rsum_ext; intros y Hy. apply rsum_ext; intros x Hx. f_equal.
  unfold pval. destruct (pad_src (cl_m l) H (cl_p l) (i + y)) eqn:E1; auto.
  destruct (pad_src (cl_m l) W (cl_p l) (j + x)) eqn:E2; auto.
  apply Hfg.
  - eapply Hs; [exact E1|auto|auto|lia].
  - eapply Hs; [exact E2|auto|auto|lia].
Qed.

(** Padding reads only existing cells. *)
Lemma pad_src_lt m n p x y : pad_allowed m n p = true -> (0 < n)%nat -> (x < n + 2 * p)%nat ->
  pad_src m n p x = Some y -> (y < n)%nat.
Proof.
  intros Ha Hn Hx. destruct m; simpl in *.
  - destruct (Nat.ltb_spec x p); [discriminate|]. destruct (Nat.ltb_spec x (p + n)); [|discriminate].
    intros E; injection E as <-; lia.
  - apply Nat.ltb_lt in Ha. destruct (Nat.ltb_spec x p); [intros E; injection E as <-; lia|].
    destruct (Nat.ltb_spec x (p + n)); intros E; injection E as <-; lia.
  - destruct (Nat.ltb_spec x p); [intros E; injection E as <-; lia|].
    destruct (Nat.ltb_spec x (p + n)); intros E; injection E as <-; lia.
  - intros E; injection E as <-. apply Nat.mod_upper_bound; lia.
Qed.

(** Group count divides the output channels (torch refuses other layers). *)
Lemma group_lt l o : groups_ok l -> (o < tB (cl_w l))%nat -> (o / (tB (cl_w l) / cl_g l) < cl_g l)%nat.
Proof.
  intros [Hg [q Hq]] Ho. rewrite Hq in *.
  rewrite Nat.mul_comm, Nat.div_mul by lia.
  apply Nat.div_lt_upper_bound; nia.
Qed.

(** The layer, in closed form. *)
Lemma conv_apply_eq l t : groups_ok l ->
  conv_apply l t =
    if conv_ready l t then
      Ok (build (tB t) (tB (cl_w l)) (tH t + 2 * cl_p l - tH (cl_w l) + 1) (tW t + 2 * cl_p l - tW (cl_w l) + 1)
            (fun b o i j => convf l (tH t) (tW t) (get t b) o i j))
    else Err RuntimeError.
Proof.
  intros Hg. unfold conv_apply, pad2d, conv_ready.
  destruct (pad_allowed (cl_m l) (tH t) (cl_p l) && pad_allowed (cl_m l) (tW t) (cl_p l)); [|reflexivity].
  cbn [guard bind andb]. unfold conv2d. cbn [tB tC tH tW build].
  destruct (Nat.eqb_spec (tC t) (cl_g l * tC (cl_w l))) as [Ec|]; [|reflexivity]. cbn [guard bind andb].
  destruct (Nat.leb_spec (tH (cl_w l)) (tH t + 2 * cl_p l)) as [Hh|]; [|reflexivity].
  destruct (Nat.leb_spec (tW (cl_w l)) (tW t + 2 * cl_p l)) as [Hw|]; [|reflexivity]. cbn [guard bind andb]. f_equal.
  apply build_ext. intros b o i j Hb Ho Hi Hj. unfold convf.
  apply rsum_ext; intros c Hc. apply rsum_ext; intros y Hy. apply rsum_ext; intros x Hx.
  rewrite get_build; auto; try lia.
  pose proof (group_lt l o Hg Ho). nia.
Qed.

(** A layer as built by [init_layer]: from [e] to [n] channels, square odd kernel of
    half-width [p]. *)
(** Acceptance condition of such a layer. *)
Definition layer_ready (e : nat) (l : conv_layer) (t : tensor) : bool :=
  Nat.eqb (tC t) e && Nat.ltb 0 (tH t) && Nat.ltb 0 (tW t)
  && pad_allowed (cl_m l) (tH t) (cl_p l) && pad_allowed (cl_m l) (tW t) (cl_p l).

Lemma layer_apply_eq e n l t : layer_wf e n l ->
  conv_apply l t =
    if layer_ready e l t then
      Ok (build (tB t) n (tH t) (tW t) (fun b o i j => convf l (tH t) (tW t) (get t b) o i j))
    else Err RuntimeError.
Proof.
  intros (Hg & Hwf & Hn & He & EB & EC & EH & EW). rewrite conv_apply_eq by auto.
  unfold conv_ready, layer_ready. rewrite EC, EH, EW, EB.
  destruct (pad_allowed (cl_m l) (tH t) (cl_p l)) eqn:E1; [|destruct (Nat.eqb _ _), (Nat.ltb _ _), (Nat.ltb _ _); reflexivity].
  destruct (pad_allowed (cl_m l) (tW t) (cl_p l)) eqn:E2; [|destruct (Nat.eqb _ _), (Nat.ltb _ _), (Nat.ltb _ _); reflexivity].
  cbn [andb]. rewrite !andb_true_r.
  destruct (Nat.eqb_spec (tC t) e) as [Ec|]; [|reflexivity]. cbn [andb].
  destruct (Nat.leb_spec (2 * cl_p l + 1) (tH t + 2 * cl_p l)) as [H1|H1];
    destruct (Nat.ltb_spec 0 (tH t)) as [H2|H2]; try lia; cbn [andb]; auto.
  destruct (Nat.leb_spec (2 * cl_p l + 1) (tW t + 2 * cl_p l)) as [H3|H3];
    destruct (Nat.ltb_spec 0 (tW t)) as [H4|H4]; try lia; cbn [andb]; auto.
  f_equal. f_equal; lia.
Qed.

Lemma layer_ready_inv e l t : layer_ready e l t = true ->
  tC t = e /\ (0 < tH t)%nat /\ (0 < tW t)%nat /\
  pad_allowed (cl_m l) (tH t) (cl_p l) = true /\ pad_allowed (cl_m l) (tW t) (cl_p l) = true.
Proof.
  unfold layer_ready. intros Hr. repeat (apply andb_true_iff in Hr as [Hr ?]).
  apply Nat.eqb_eq in Hr. repeat split; auto; apply Nat.ltb_lt; auto.
Qed.

(** [convf] of a ready layer only reads cells in range. *)
Lemma convf_ext_ready e n l t f g o i j : layer_wf e n l -> layer_ready e l t = true ->
  (o < n)%nat -> (i < tH t)%nat -> (j < tW t)%nat ->
  (forall c y x, (c < e)%nat -> (y < tH t)%nat -> (x < tW t)%nat -> f c y x = g c y x) ->
  convf l (tH t) (tW t) f o i j = convf l (tH t) (tW t) g o i j.
Proof.
  intros (Hg & Hwf & Hn & He & EB & EC & EH & EW) Hr Ho Hi Hj Hfg.
  apply layer_ready_inv in Hr as (Ec & H0 & W0 & P1 & P2).
  unfold convf. apply rsum_ext; intros c Hc. apply rsum_ext; intros y Hy. apply rsum_ext; intros x Hx.
  f_equal. unfold pval.
  destruct (pad_src (cl_m l) (tH t) (cl_p l) (i + y)) eqn:E1; auto.
  destruct (pad_src (cl_m l) (tW t) (cl_p l) (j + x)) eqn:E2; auto.
  apply Hfg.
  - rewrite <- EB in Ho. pose proof (group_lt l o Hg Ho). nia.
  - eapply pad_src_lt; [exact P1|auto| |exact E1]. lia.
  - eapply pad_src_lt; [exact P2|auto| |exact E2]. lia.
Qed.

(** ** Layers built by [init_layer] *)
Lemma groups_eq e n : (0 < e)%nat -> groups e n = Ok (if Nat.eqb (n mod e) 0 then e else 1%nat).
Proof. intros He. unfold groups. destruct (Nat.eqb_spec e 0); [lia|]. destruct (Nat.eqb (n mod e) 0); auto. Qed.

Lemma expand_ok O I k w : expand O I k = Ok w ->
  w = build O I (tH k) (tW k) (fun o c y x => bget k o c y x) /\
  (tB k = 1%nat \/ tB k = O) /\ (tC k = 1%nat \/ tC k = I).
Proof.
  unfold expand. intros H. apply bind_ok in H as (u & Hg & E). apply guard_ok in Hg. injection E as <-.
  apply andb_true_iff in Hg as [G1 G2]. apply orb_true_iff in G1; apply orb_true_iff in G2.
  rewrite !Nat.eqb_eq in G1, G2. auto.
Qed.

Lemma init_layer_wf e n m k l p : (0 < e)%nat -> (0 < n)%nat ->
  tH k = (2 * p + 1)%nat -> tW k = (2 * p + 1)%nat ->
  init_layer e n m k = Ok l -> layer_wf e n l /\ cl_p l = p /\ cl_m l = m.
Proof.
  intros He Hn EH EW. unfold init_layer. rewrite groups_eq by auto.
  assert (Ep : ((tW k - 1) / 2)%nat = p).
  { rewrite EW. replace (2 * p + 1 - 1)%nat with (p * 2)%nat by lia. apply Nat.div_mul; lia. }
  remember ((tW k - 1) / 2)%nat as q eqn:Eq. clear Eq.
  intros H. cbn [bind] in H. apply bind_ok in H as (w & Hw & E). injection E as <-.
  apply expand_ok in Hw as (Ew & _ & _).
  subst w. unfold layer_wf, groups_ok. cbn [cl_w cl_g cl_p cl_m tB tC tH tW build].
  rewrite Ep, EH, EW. repeat split; auto.
  - destruct (Nat.eqb (n mod e) 0); lia.
  - destruct (Nat.eqb_spec (n mod e) 0) as [E|E]; [|exists n; lia].
    exists (n / e)%nat. apply Nat.div_exact; lia.
  - apply (twf_build n _ (2 * p + 1) (2 * p + 1)).
  - destruct (Nat.eqb_spec (n mod e) 0) as [E|E].
    + rewrite Nat.div_same by lia. lia.
    + rewrite Nat.div_1_r. lia.
Qed.

(** [init_layer] succeeds for a kernel with one plane, or one plane per output channel. *)
Lemma init_layer_ok e n m k : (0 < e)%nat -> (tB k = 1%nat \/ tB k = n) -> tC k = 1%nat ->
  exists l, init_layer e n m k = Ok l.
Proof.
  intros He HB HC. unfold init_layer. rewrite groups_eq by auto. cbn [bind].
  unfold expand. rewrite HC. cbn [Nat.eqb orb].
  destruct HB as [-> | ->]; rewrite Nat.eqb_refl, ?orb_true_r; cbn [orb andb guard bind]; eauto.
Qed.

(** Weight entries of such a layer are those of the kernel. *)
Lemma init_layer_w e n m k l o c y x : (0 < e)%nat -> init_layer e n m k = Ok l ->
  (o < n)%nat -> (c < tC (cl_w l))%nat -> (y < tH k)%nat -> (x < tW k)%nat ->
  get (cl_w l) o c y x = bget k o c y x.
Proof.
  intros He. unfold init_layer. rewrite groups_eq by auto. cbn [bind].
  intros H. apply bind_ok in H as (w & Hw & E). injection E as <-.
  apply expand_ok in Hw as (Ew & _ & _). subst w. cbn [cl_w tC build].
  intros. rewrite get_build; auto.
Qed.
