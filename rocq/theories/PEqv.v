(** Symmetries of the steps of each automaton class. *)
From Coq Require Import Reals Lra Lia List Arith Bool ZArith.
From Verif Require Import Base PyDict Tensor MActivations MKernels MCommon MCca PTensor PStep PCca PSym PDyn SGrid SCca.
Import ListNotations.
Open Scope R_scope.

(** A grid transformation [g] and a step [f] commute, errors included. *)
Definition commutes (g : tensor -> tensor) (f : tensor -> res tensor) : Prop :=
  forall u, twf u -> f (g u) = rmap g (f u).

Lemma commutes_iter g f : commutes g f -> (forall u u', twf u -> f u = Ok u' -> twf u') ->
  forall n, commutes g (iter_res f n).
Proof.
  intros Hc Hw n. induction n; intros u Hu; cbn [iter_res]; [reflexivity|].
  rewrite Hc by auto. destruct (f u) as [x|] eqn:E; [|reflexivity]. cbn [bind rmap].
  apply IHn. eapply Hw; eauto.
Qed.

(** A layout-preserving substitution of a shape-preserving step. *)
Section Sub.
  Variables (c : cca) (fb : nat -> nat) (fs : nat -> nat -> nat * nat) (B' H' W' : nat).
  Let F := pull fb fs B' H' W'.
  Hypothesis Hwf : cca_wf c.

  Lemma cca_sub u : twf u -> compat (int_ c) (idl c) (nbl c) fb fs (tB u) (tH u) (tW u) B' H' W' ->
    cca_forward c (F u) = rmap F (cca_forward c u).
  Proof.
    intros Hu Hc. destruct Hwf as (H1 & H2 & H3).
    apply (ca_forward_compat (ext c) (int_ c) _ (mask_fn (thr c)) _ _ _ (cca_chk c) (cca_ufn c));
      auto using mask_if_cell, update_universe_pointwise.
  Qed.

  Lemma lenia_sub u : twf u -> compat (int_ c) (idl c) (nbl c) fb fs (tB u) (tH u) (tW u) B' H' W' ->
    lenia_forward c (F u) = rmap F (lenia_forward c u).
  Proof.
    intros Hu Hc. destruct Hwf as (H1 & H2 & H3).
    apply (ca_forward_compat (ext c) (int_ c) _ (mask_fn (thr c)) _ _ _ (fns_chk (int_ c) (gens c)) (lenia_ufn c));
      auto using mask_if_cell, lenia_update_pointwise.
  Qed.

  Lemma update_of_sub u : twf u -> compat (int_ c) (idl c) (nbl c) fb fs (tB u) (tH u) (tW u) B' H' W' ->
    update_of update_universe c (F u) = rmap F (update_of update_universe c u).
  Proof.
    intros Hu Hc. destruct Hwf as (H1 & H2 & H3). unfold update_of.
    apply (ca_update_pull (ext c) (int_ c) _ _ _ (cca_chk c) (cca_ufn c));
      auto using update_universe_pointwise.
  Qed.

  Lemma update_of_shape u d : twf u -> update_of update_universe c u = Ok d -> twf d /\ shape d = shape u.
  Proof.
    intros Hu E. destruct Hwf as (H1 & H2 & H3). unfold update_of in E.
    pose proof (ca_update_nf (ext c) (int_ c) (fun u => Ok u) _ _ _ _ _ _ no_mask_cell H1 H2
                  (update_universe_pointwise c H3) u Hu) as Hnf.
    cbn [bind] in Hnf. rewrite Hnf in E.
    destruct (step_ready (ext c) (idl c) (nbl c) u) eqn:Er; [|discriminate].
    apply bind_ok in E as (x & _ & E). injection E as <-. split; [apply twf_build|].
    apply step_ready_iff in Er as (Ec & _). unfold shape; simpl. congruence.
  Qed.

  Lemma euler_sub d u x : twf u -> twf x -> shape x = shape u ->
    (forall b, (b < B')%nat -> (fb b < tB u)%nat) ->
    (forall i j, (i < H')%nat -> (j < W')%nat -> (fst (fs i j) < tH u)%nat /\ (snd (fs i j) < tW u)%nat) ->
    euler d (F u) (F x) = rmap F (euler d u x).
  Proof.
    intros Hu Hx Hs Hfb Hfs. pose proof Hs as Hs'. unfold shape in Hs'. injection Hs' as S1 S2 S3 S4.
    unfold euler, F.
    rewrite <- (pull_tmap fb fs (tB u) (tH u) (tW u) B' H' W' Hfb Hfs (fun y => d * y) x) by (auto; repeat split; auto).
    rewrite (pull_tzip fb fs (tB u) (tH u) (tW u) B' H' W' Hfb Hfs) by (repeat split; auto).
    rewrite tzip_same by (auto; rewrite <- Hs; reflexivity). cbn [bind rmap]. f_equal.
    symmetry. apply (pull_tmap fb fs (tB u) (tH u) (tW u) B' H' W' Hfb Hfs); [apply twf_build|].
    repeat split; reflexivity.
  Qed.
End Sub.

(** RandomStepCA. *)
Lemma rs_sub s r fb fs B' H' W' u : cca_wf (rs_core s) -> twf u ->
  compat (int_ (rs_core s)) (idl (rs_core s)) (nbl (rs_core s)) fb fs (tB u) (tH u) (tW u) B' H' W' ->
  rs_forward s r (pull fb fs B' H' W' u) =
  rmap (fun p => (fst p, pull fb fs B' H' W' (snd p))) (rs_forward s r u).
Proof.
  intros Hwf Hu Hc. destruct (Hc) as [Hfb Hfs H0 C1 C2]. unfold rs_forward.
  rewrite (mask_pull fb fs B' H' W' _ _ (mask_if_cell (thr (rs_core s)))) by auto.
  destruct (mask_if (thr (rs_core s)) u) as [m|] eqn:Em; [|reflexivity]. cbn [bind rmap].
  destruct (mask_dims _ _ (mask_if_cell (thr (rs_core s))) u m Hu Em) as [Mw Ms].
  pose proof Ms as Ms'. unfold shape in Ms'. injection Ms' as M1 M2 M3 M4.
  rewrite (update_of_sub (rs_core s)) by (auto; rewrite ?M1, ?M3, ?M4; auto).
  destruct (update_of update_universe (rs_core s) m) as [d|] eqn:Ed; [|reflexivity]. cbn [bind rmap].
  destruct (update_of_shape (rs_core s) Hwf m d Mw Ed) as [Dw Ds].
  rewrite euler_sub by (auto; rewrite ?M1, ?M3, ?M4; auto).
  destruct (euler _ m d); reflexivity.
Qed.

(** MetaCA. *)
Lemma same_shape_iff x y : same_shape x y = true <-> shape x = shape y.
Proof.
  unfold same_shape, shape. rewrite !andb_true_iff, !Nat.eqb_eq. split.
  - intros [[[-> ->] ->] ->]; auto.
  - intros E; injection E; auto.
Qed.

Lemma tmap_const_build r t : twf t -> tmap (fun _ => r) t = build (tB t) (tC t) (tH t) (tW t) (fun _ _ _ _ => r).
Proof. intros Ht. rewrite (tmap_eq_build _ t Ht). reflexivity. Qed.

(** The momentum used for a grid: stored momentum if the shapes agree, else zero. *)
Lemma meta_dgrid_wf s u : meta_wf s -> twf u ->
  twf (meta_dgrid (mt_dgrid s) u) /\ shape (meta_dgrid (mt_dgrid s) u) = shape u.
Proof.
  intros [_ Hd] Hu. unfold meta_dgrid. destruct (mt_dgrid s) as [d|].
  - destruct (same_shape u d) eqn:E.
    + split; auto. symmetry. apply same_shape_iff; auto.
    + split; [apply twf_tmap; auto|reflexivity].
  - split; [apply twf_tmap; auto|reflexivity].
Qed.

Lemma meta_forward_wf s u s' u' : meta_wf s -> twf u -> meta_forward s u = Ok (s', u') ->
  meta_wf s' /\ twf u' /\ shape u' = shape u /\
  exists d, mt_dgrid s' = Some d /\ shape d = shape u /\ mt_core s' = mt_core s /\ mt_ddt s' = mt_ddt s.
Proof.
  intros Hs Hu H. destruct (meta_dgrid_wf s u Hs Hu) as [Gw Gs]. destruct (Hs) as [Hc Hd].
  unfold meta_forward in H. apply bind_ok in H as (m & Em & H). apply bind_ok in H as (uu & Eu & H).
  apply bind_ok in H as (d1 & Ed & H). apply bind_ok in H as (nw & En & H). injection H as <- <-.
  destruct (mask_dims _ _ (mask_if_cell (thr (mt_core s))) u m Hu Em) as [Mw Ms].
  destruct (update_of_shape (mt_core s) Hc m uu Mw Eu) as [Uw Us].
  assert (Us' : shape (tmap (fun x => mt_ddt s * x) uu) = shape u) by (rewrite <- Ms, <- Us; reflexivity).
  rewrite tzip_same in Ed by (rewrite Gs, Us'; reflexivity).
  injection Ed as <-. set (d1 := build _ _ _ _ _) in *.
  assert (Dw : twf d1) by apply twf_build.
  assert (Ds : shape d1 = shape u) by (rewrite <- Gs; reflexivity).
  unfold euler in En. rewrite tzip_same in En by (rewrite Ms, <- Ds; reflexivity).
  cbn [bind] in En. injection En as <-.
  split; [|split; [|split]].
  - split; [exact Hc|exact Dw].
  - apply twf_tmap, twf_build.
  - rewrite <- Ms; reflexivity.
  - exists d1. cbn [mt_dgrid mt_core mt_ddt]. auto.
Qed.

Lemma meta_sub s fb fs B' H' W' u : meta_wf s -> twf u ->
  match mt_dgrid s with Some d => shape d = shape u | None => True end ->
  compat (int_ (mt_core s)) (idl (mt_core s)) (nbl (mt_core s)) fb fs (tB u) (tH u) (tW u) B' H' W' ->
  let F := pull fb fs B' H' W' in
  meta_forward (meta_map F s) (F u) = rmap (fun p => (meta_map F (fst p), F (snd p))) (meta_forward s u).
Proof.
  intros Hs Hu Hd Hc F. destruct (Hc) as [Hfb Hfs H0 C1 C2]. destruct (Hs) as [Hwf Hdw].
  assert (Eg : meta_dgrid (mt_dgrid (meta_map F s)) (F u) = F (meta_dgrid (mt_dgrid s) u)).
  { unfold meta_map, meta_dgrid; simpl. destruct (mt_dgrid s) as [d|]; simpl.
    - assert (E1 : same_shape u d = true) by (apply same_shape_iff; auto).
      assert (E2 : same_shape (F u) (F d) = true).
      { apply same_shape_iff. unfold shape, F, pull; simpl. unfold shape in Hd. injection Hd as _ Ec _ _. congruence. }
      rewrite E1, E2. reflexivity.
    - unfold F. rewrite <- (pull_tmap fb fs (tB u) (tH u) (tW u) B' H' W' Hfb Hfs) by (auto; repeat split; auto). reflexivity. }
  destruct (meta_dgrid_wf s u Hs Hu) as [Gw Gs].
  unfold meta_forward. rewrite Eg. cbn [mt_core mt_ddt meta_map].
  set (g := meta_dgrid (mt_dgrid s) u) in *.
  unfold F at 1. rewrite (mask_pull fb fs B' H' W' _ _ (mask_if_cell (thr (mt_core s)))) by auto.
  destruct (mask_if (thr (mt_core s)) u) as [m|] eqn:Em; [|reflexivity]. cbn [bind rmap].
  destruct (mask_dims _ _ (mask_if_cell (thr (mt_core s))) u m Hu Em) as [Mw Ms].
  pose proof Ms as Ms'. unfold shape in Ms'. injection Ms' as M1 M2 M3 M4.
  rewrite (update_of_sub (mt_core s)) by (auto; rewrite ?M1, ?M3, ?M4; auto).
  destruct (update_of update_universe (mt_core s) m) as [d|] eqn:Ed; [|reflexivity]. cbn [bind rmap].
  destruct (update_of_shape (mt_core s) Hwf m d Mw Ed) as [Dw Ds].
  pose proof Gs as Gs'. unfold shape in Gs'. injection Gs' as G1 G2 G3 G4.
  pose proof Ds as Ds'. unfold shape in Ds'. injection Ds' as D1 D2 D3 D4.
  unfold F.
  rewrite <- (pull_tmap fb fs (tB u) (tH u) (tW u) B' H' W' Hfb Hfs) by (auto; repeat split; congruence).
  rewrite (pull_tzip fb fs (tB u) (tH u) (tW u) B' H' W' Hfb Hfs).
  2:{ repeat split; congruence. }
  2:{ rewrite Gs. unfold shape; simpl. congruence. }
  destruct (tzip Rplus g (tmap (fun x => mt_ddt s * x) d)) as [d1|] eqn:E1; [|reflexivity]. cbn [bind rmap].
  rewrite tzip_same in E1 by (rewrite Gs; unfold shape; simpl; congruence). injection E1 as <-.
  rewrite euler_sub.
  - destruct (euler _ m _); reflexivity.
  - auto.
  - apply twf_build.
  - unfold shape; simpl; congruence.
  - rewrite M1; auto.
  - rewrite M3, M4; auto.
Qed.

(** CODE. The substitution must reach every cell, since the error is a maximum. *)
Definition onto (fb : nat -> nat) (fs : nat -> nat -> nat * nat) (B H W B' H' W' : nat) : Prop :=
  (forall b, (b < B)%nat -> exists b', (b' < B')%nat /\ fb b' = b) /\
  (forall i j, (i < H)%nat -> (j < W)%nat -> exists i' j', (i' < H')%nat /\ (j' < W')%nat /\ fs i' j' = (i, j)).

Lemma lmax_same l l' : l <> [] -> (forall x, In x l <-> In x l') -> lmax l = lmax l'.
Proof.
  intros Hl He. assert (Hl' : l' <> []).
  { destruct l as [|a l]; [congruence|]. intros ->. apply (proj1 (He a)). simpl; auto. }
  apply Rle_antisym.
  - apply lmax_ge. apply He. apply lmax_in; auto.
  - apply lmax_ge. apply He. apply lmax_in; auto.
Qed.

Lemma pull_same_entries fb fs B H W B' H' W' t : twf t -> dims t B H W ->
  (forall b, (b < B')%nat -> (fb b < B)%nat) ->
  (forall i j, (i < H')%nat -> (j < W')%nat -> (fst (fs i j) < H)%nat /\ (snd (fs i j) < W)%nat) ->
  onto fb fs B H W B' H' W' ->
  forall x, In x (tdata t) <-> In x (tdata (pull fb fs B' H' W' t)).
Proof.
  intros Hw (E1 & E2 & E3) Hfb Hfs [O1 O2] x. split; intros Hin.
  - apply in_data_get in Hin as (b & c & i & j & Hb & Hc & Hi & Hj & ->); auto.
    destruct (O1 b) as (b' & Hb' & Eb); [lia|]. destruct (O2 i j) as (i' & j' & Hi' & Hj' & Ef); [lia|lia|].
    assert (Eg : get (pull fb fs B' H' W' t) b' c i' j' = get t b c i j).
    { unfold pull. rewrite get_build by auto. rewrite Eb, Ef. reflexivity. }
    rewrite <- Eg. apply get_in_data; auto. apply twf_build.
  - apply in_data_get in Hin as (b & c & i & j & Hb & Hc & Hi & Hj & ->); [|apply twf_build].
    simpl in *. unfold pull. rewrite get_build by auto. destruct (Hfs i j); auto.
    apply get_in_data; auto; rewrite ?E1, ?E2, ?E3; auto.
Qed.

Lemma code_error_sub c fb fs B' H' W' h u : cca_wf c -> twf u ->
  compat (int_ c) (idl c) (nbl c) fb fs (tB u) (tH u) (tW u) B' H' W' ->
  onto fb fs (tB u) (tH u) (tW u) B' H' W' ->
  code_error c h (pull fb fs B' H' W' u) = code_error c h u.
Proof.
  intros Hwf Hu Hc Ho. destruct (Hc) as [Hfb Hfs H0 C1 C2]. unfold code_error, code_grid.
  change (step update_universe) with cca_forward.
  rewrite (cca_sub (set_core_dt c h)) by auto.
  destruct (cca_forward (set_core_dt c h) u) as [big|] eqn:E1; [|reflexivity]. cbn [bind rmap].
  rewrite (cca_sub (set_core_dt c (h * (1 / 2)))) by auto.
  destruct (cca_forward (set_core_dt c (h * (1 / 2))) u) as [s1|] eqn:E2; [|reflexivity]. cbn [bind rmap].
  apply cca_shape in E1 as [Sb Wb]; auto. apply cca_shape in E2 as [S1 W1]; auto.
  pose proof S1 as S1'. unfold shape in S1'. injection S1' as A1 A2 A3 A4.
  rewrite (cca_sub (set_core_dt c (h * (1 / 2))) fb fs B' H' W' Hwf s1) by (auto; rewrite A1, A3, A4; auto).
  destruct (cca_forward (set_core_dt c (h * (1 / 2))) s1) as [s2|] eqn:E3; [|reflexivity]. cbn [bind rmap].
  apply cca_shape in E3 as [S2 W2]; auto.
  pose proof Sb as Sb'. unfold shape in Sb'. injection Sb' as B1 B2 B3 B4.
  rewrite (pull_tzip fb fs (tB u) (tH u) (tW u) B' H' W' Hfb Hfs) by (repeat split; congruence).
  rewrite tzip_same by congruence. cbn [bind rmap].
  set (t := build _ _ _ _ _).
  assert (Hse : forall x, In x (tdata t) <-> In x (tdata (pull fb fs B' H' W' t))).
  { apply (pull_same_entries fb fs (tB u) (tH u) (tW u)); auto; [apply twf_build|repeat split; auto]. }
  destruct (tdata t) as [|a l] eqn:El.
  - destruct (tdata (pull fb fs B' H' W' t)) as [|a' l'] eqn:El'.
    + reflexivity.
    + exfalso. apply (proj2 (Hse a')). simpl; auto.
  - destruct (tdata (pull fb fs B' H' W' t)) as [|a' l'] eqn:El'.
    + exfalso. apply (proj1 (Hse a)). simpl; auto.
    + cbn [List.length Nat.eqb negb guard bind]. f_equal. symmetry. apply lmax_same; [discriminate|auto].
Qed.

Lemma code_loop_sub c fb fs B' H' W' u : cca_wf c -> twf u ->
  compat (int_ c) (idl c) (nbl c) fb fs (tB u) (tH u) (tW u) B' H' W' ->
  onto fb fs (tB u) (tH u) (tW u) B' H' W' ->
  forall fuel mn th h mse, code_loop fuel c mn th h (pull fb fs B' H' W' u) mse = code_loop fuel c mn th h u mse.
Proof.
  intros Hwf Hu Hc Ho fuel. induction fuel; intros mn th h mse; cbn [code_loop]; [reflexivity|].
  destruct (Rle_dec mn h); [|reflexivity]. rewrite code_error_sub by auto.
  destruct (code_error c h u); [|reflexivity]. cbn [bind]. destruct (Rlt_dec a th); auto.
Qed.

Lemma code_sub fuel s fb fs B' H' W' u : cca_wf (cd_core s) -> twf u ->
  compat (int_ (cd_core s)) (idl (cd_core s)) (nbl (cd_core s)) fb fs (tB u) (tH u) (tW u) B' H' W' ->
  onto fb fs (tB u) (tH u) (tW u) B' H' W' ->
  code_forward fuel s (pull fb fs B' H' W' u) =
  rmap (fun p => (fst p, pull fb fs B' H' W' (snd p))) (code_forward fuel s u).
Proof.
  intros Hwf Hu Hc Ho. unfold code_forward. rewrite code_loop_sub by auto.
  destruct (code_loop _ _ _ _ _ u _) as [r|]; [|reflexivity]. cbn [bind].
  destruct (snd r); [|reflexivity]. unfold code_grid. change (step update_universe) with cca_forward.
  match goal with |- context [cca_forward (set_core_dt _ ?d) _] => rewrite (cca_sub (set_core_dt (cd_core s) d)) by auto end.
  destruct (cca_forward _ u); reflexivity.
Qed.

(** ** Named symmetries of a CCA *)
(** A grid transformation written as a substitution depending only on the grid's size. *)
Record subst (g : tensor -> tensor) (sb : nat -> nat) (sf : nat -> nat -> nat -> nat -> nat * nat)
    (oB oH oW : nat -> nat -> nat -> nat) : Prop := mkSubst {
  sb_eq : forall t, g t = pull sb (sf (tH t) (tW t)) (oB (tB t) (tH t) (tW t)) (oH (tB t) (tH t) (tW t)) (oW (tB t) (tH t) (tW t)) t }.

Definition natural (c : cca) (g : tensor -> tensor) : Prop :=
  exists sb sf oB oH oW, subst g sb sf oB oH oW /\
  forall B H W, (0 < H)%nat -> (0 < W)%nat ->
    compat (int_ c) (idl c) (nbl c) sb (sf H W) B H W (oB B H W) (oH B H W) (oW B H W).

Definition natural_onto (c : cca) (g : tensor -> tensor) : Prop :=
  exists sb sf oB oH oW, subst g sb sf oB oH oW /\
  forall B H W, (0 < H)%nat -> (0 < W)%nat ->
    compat (int_ c) (idl c) (nbl c) sb (sf H W) B H W (oB B H W) (oH B H W) (oW B H W) /\
    onto sb (sf H W) B H W (oB B H W) (oH B H W) (oW B H W).

Lemma natural_roll c dy dx : circular c -> natural_onto c (roll dy dx).
Proof.
  intros [C1 C2].
  exists (fun b => b), (fun H W => roll_map dy dx H W), (fun B _ _ => B), (fun _ H _ => H), (fun _ _ W => W).
  split; [constructor; intros; apply roll_pull|]. intros B H W HH HW. split; [apply compat_roll; auto|].
  split; [eauto|]. intros i j Hi Hj.
  exists (zmod (Z.of_nat i + dy) H), (zmod (Z.of_nat j + dx) W).
  repeat split; try (apply zmod_lt; auto). unfold roll_map, Z.sub. rewrite !zmod_add_idemp by auto.
  f_equal.
  - replace (Z.of_nat i + dy + - dy)%Z with (Z.of_nat i) by lia. apply zmod_small; auto.
  - replace (Z.of_nat j + dx + - dx)%Z with (Z.of_nat j) by lia. apply zmod_small; auto.
Qed.

Lemma natural_flip_v c : cca_wf c -> mirror_v c -> natural_onto c flip_v.
Proof.
  intros (H1 & H2 & _) [C1 C2].
  exists (fun b => b), (fun H W => flip_v_map H), (fun B _ _ => B), (fun _ H _ => H), (fun _ _ W => W).
  split; [constructor; intros; apply flip_v_pull|]. intros B H W HH HW.
  split; [eapply compat_flip_v; eauto|]. split; [eauto|]. intros i j Hi Hj.
  exists (H - 1 - i)%nat, j. repeat split; auto; [lia|]. unfold flip_v_map. f_equal. lia.
Qed.

Lemma natural_flip_h c : cca_wf c -> mirror_h c -> natural_onto c flip_h.
Proof.
  intros (H1 & H2 & _) [C1 C2].
  exists (fun b => b), (fun H W => flip_h_map W), (fun B _ _ => B), (fun _ H _ => H), (fun _ _ W => W).
  split; [constructor; intros; apply flip_h_pull|]. intros B H W HH HW.
  split; [eapply compat_flip_h; eauto|]. split; [eauto|]. intros i j Hi Hj.
  exists i, (W - 1 - j)%nat. repeat split; auto; [lia|]. unfold flip_h_map. f_equal. lia.
Qed.

Lemma natural_transpose c : cca_wf c -> mirror_t c -> natural_onto c transpose.
Proof.
  intros (H1 & H2 & _) [C1 C2].
  exists (fun b => b), (fun H W => tr_map), (fun B _ _ => B), (fun _ _ W => W), (fun _ H _ => H).
  split; [constructor; intros; apply transpose_pull|]. intros B H W HH HW.
  split; [eapply compat_transpose; eauto|]. split; [eauto|]. intros i j Hi Hj. exists j, i. auto.
Qed.

Lemma natural_weaken c g : natural_onto c g -> natural c g.
Proof.
  intros (sb & sf & oB & oH & oW & Hs & Hc). exists sb, sf, oB, oH, oW. split; auto.
  intros. apply Hc; auto.
Qed.

(** Steps preserve the shape, so the substitution is the same before and after. *)
Lemma natural_apply c g u v : natural c g -> twf u -> (0 < tH u)%nat -> (0 < tW u)%nat -> shape v = shape u ->
  exists fb fs B' H' W', g u = pull fb fs B' H' W' u /\ g v = pull fb fs B' H' W' v /\
    compat (int_ c) (idl c) (nbl c) fb fs (tB u) (tH u) (tW u) B' H' W'.
Proof.
  intros (sb & sf & oB & oH & oW & [Hs] & Hc) Hu H0 W0 Hv. unfold shape in Hv. injection Hv as V1 V2 V3 V4.
  do 5 eexists. split; [apply Hs|]. split; [rewrite (Hs v), V1, V3, V4; reflexivity|]. apply Hc; auto.
Qed.

Lemma empty_sub g c u : natural c g -> twf u -> (tH u = 0 \/ tW u = 0)%nat ->
  exists sb sf oB oH oW, subst g sb sf oB oH oW.
Proof. intros (sb & sf & oB & oH & oW & Hs & _) _ _. do 5 eexists; eauto. Qed.

(** Generic: a shape-preserving step that commutes with every compatible substitution
    commutes with every natural transformation, on non-empty grids. *)
Lemma step_natural c g (f : tensor -> res tensor) u : natural c g -> twf u -> (0 < tH u)%nat -> (0 < tW u)%nat ->
  (forall v, f u = Ok v -> shape v = shape u) ->
  (forall fb fs B' H' W', compat (int_ c) (idl c) (nbl c) fb fs (tB u) (tH u) (tW u) B' H' W' ->
     f (pull fb fs B' H' W' u) = rmap (pull fb fs B' H' W') (f u)) ->
  f (g u) = rmap g (f u).
Proof.
  intros Hg Hu H0 W0 Hsh Hf. destruct (f u) as [v|e] eqn:E.
  - destruct (natural_apply c g u v Hg Hu H0 W0 (Hsh v eq_refl)) as (fb & fs & B' & H' & W' & E1 & E2 & Hc).
    rewrite E1, (Hf _ _ _ _ _ Hc). cbn [rmap]. rewrite E2. reflexivity.
  - destruct (natural_apply c g u u Hg Hu H0 W0 eq_refl) as (fb & fs & B' & H' & W' & E1 & _ & Hc).
    rewrite E1, (Hf _ _ _ _ _ Hc). reflexivity.
Qed.

Lemma cca_natural c g u : cca_wf c -> natural c g -> twf u -> (0 < tH u)%nat -> (0 < tW u)%nat ->
  cca_forward c (g u) = rmap g (cca_forward c u).
Proof.
  intros Hwf Hg Hu H0 W0. apply (step_natural c); auto.
  - intros v Hv. apply cca_shape in Hv; tauto.
  - intros. apply cca_sub; auto.
Qed.

Lemma lenia_natural c g u : cca_wf c -> natural c g -> twf u -> (0 < tH u)%nat -> (0 < tW u)%nat ->
  lenia_forward c (g u) = rmap g (lenia_forward c u).
Proof.
  intros Hwf Hg Hu H0 W0. apply (step_natural c); auto.
  - intros v Hv. apply lenia_shape in Hv; tauto.
  - intros. apply lenia_sub; auto.
Qed.

(** Iteration on non-empty grids. *)
Lemma iter_natural (f : tensor -> res tensor) (g : tensor -> tensor) :
  (forall u u', twf u -> f u = Ok u' -> shape u' = shape u /\ twf u') ->
  (forall u, twf u -> (0 < tH u)%nat -> (0 < tW u)%nat -> f (g u) = rmap g (f u)) ->
  forall n u, twf u -> (0 < tH u)%nat -> (0 < tW u)%nat -> iter_res f n (g u) = rmap g (iter_res f n u).
Proof.
  intros Hs Hf n. induction n; intros u Hu H0 W0; cbn [iter_res]; [reflexivity|].
  rewrite Hf by auto. destruct (f u) as [v|] eqn:E; [|reflexivity]. cbn [bind rmap].
  destruct (Hs u v Hu E) as [S1 W1]. injection S1 as A1 A2 A3 A4. apply IHn; auto; congruence.
Qed.

Lemma cca_iter_natural c g n u : cca_wf c -> natural c g -> twf u -> (0 < tH u)%nat -> (0 < tW u)%nat ->
  iter_res (cca_forward c) n (g u) = rmap g (iter_res (cca_forward c) n u).
Proof.
  intros Hwf Hg. apply iter_natural.
  - intros; apply (cca_shape c); auto.
  - intros; apply cca_natural; auto.
Qed.

Lemma lenia_iter_natural c g n u : cca_wf c -> natural c g -> twf u -> (0 < tH u)%nat -> (0 < tW u)%nat ->
  iter_res (lenia_forward c) n (g u) = rmap g (iter_res (lenia_forward c) n u).
Proof.
  intros Hwf Hg. apply iter_natural.
  - intros; apply (lenia_shape c); auto.
  - intros; apply lenia_natural; auto.
Qed.

(** RandomStepCA runs. *)
Lemma natural_dt c d g : natural c g -> natural (set_core_dt c d) g.
Proof. auto. Qed.

Lemma rs_forward_shape s r u s' u' : cca_wf (rs_core s) -> twf u -> rs_forward s r u = Ok (s', u') ->
  shape u' = shape u /\ twf u' /\ rs_core s' = set_core_dt (rs_core s) (rs_prev s') .
Proof.
  intros Hwf Hu H. unfold rs_forward in H. apply bind_ok in H as (m & Em & H). apply bind_ok in H as (d & Ed & H).
  apply bind_ok in H as (nw & En & H). injection H as <- <-.
  destruct (mask_dims _ _ (mask_if_cell (thr (rs_core s))) u m Hu Em) as [Mw Ms].
  destruct (update_of_shape (rs_core s) Hwf m d Mw Ed) as [Dw Ds].
  unfold euler in En. rewrite tzip_same in En by (rewrite <- Ds; reflexivity). cbn [bind] in En. injection En as <-.
  split; [|split].
  - rewrite <- Ms; reflexivity.
  - apply twf_tmap, twf_build.
  - cbn [rs_core rs_prev]. f_equal. ring.
Qed.

Lemma rs_natural s r g u : cca_wf (rs_core s) -> natural (rs_core s) g -> twf u -> (0 < tH u)%nat -> (0 < tW u)%nat ->
  rs_forward s r (g u) = rmap (on_grid g) (rs_forward s r u).
Proof.
  intros Hwf Hg Hu H0 W0. destruct (rs_forward s r u) as [[s' v]|e] eqn:E.
  - destruct (rs_forward_shape s r u s' v Hwf Hu E) as (Sv & _).
    destruct (natural_apply _ g u v Hg Hu H0 W0 Sv) as (fb & fs & B' & H' & W' & E1 & E2 & Hc).
    rewrite E1, (rs_sub s r fb fs B' H' W' u Hwf Hu Hc), E. unfold on_grid; simpl. rewrite E2. reflexivity.
  - destruct (natural_apply _ g u u Hg Hu H0 W0 eq_refl) as (fb & fs & B' & H' & W' & E1 & _ & Hc).
    rewrite E1, (rs_sub s r fb fs B' H' W' u Hwf Hu Hc), E. reflexivity.
Qed.

Lemma rs_run_natural g rands : forall s u, cca_wf (rs_core s) -> natural (rs_core s) g -> twf u ->
  (0 < tH u)%nat -> (0 < tW u)%nat -> rs_run s rands (g u) = rmap (on_grid g) (rs_run s rands u).
Proof.
  induction rands as [|r rs IH]; intros s u Hwf Hg Hu H0 W0; cbn [rs_run]; [reflexivity|].
  rewrite rs_natural by auto. destruct (rs_forward s r u) as [[s' v]|e] eqn:E; [|reflexivity].
  cbn [bind rmap on_grid fst snd]. destruct (rs_forward_shape s r u s' v Hwf Hu E) as (Sv & Vw & Ec).
  injection Sv as A1 A2 A3 A4. apply IH; try congruence; auto.
  - rewrite Ec. apply set_core_dt_wf; auto.
  - rewrite Ec. apply natural_dt; auto.
Qed.

(** CODE runs. *)
Lemma code_forward_shape fuel s u s' u' : cca_wf (cd_core s) -> twf u -> code_forward fuel s u = Ok (s', u') ->
  shape u' = shape u /\ twf u' /\ cd_core s' = set_core_dt (cd_core s) (cd_prev s').
Proof.
  intros Hwf Hu H. unfold code_forward in H. apply bind_ok in H as (r & _ & H). destruct (snd r); [|discriminate].
  apply bind_ok in H as (nw & Hn & H). injection H as <- <-.
  unfold code_grid in Hn. apply (cca_shape (set_core_dt (cd_core s) _)) in Hn as [S W]; auto.
Qed.

Lemma code_natural fuel s g u : cca_wf (cd_core s) -> natural_onto (cd_core s) g -> twf u ->
  (0 < tH u)%nat -> (0 < tW u)%nat -> code_forward fuel s (g u) = rmap (on_grid g) (code_forward fuel s u).
Proof.
  intros Hwf (sb & sf & oB & oH & oW & [Hs] & Hc) Hu H0 W0.
  destruct (Hc (tB u) (tH u) (tW u) H0 W0) as [Hcm Hon].
  rewrite (Hs u), (code_sub fuel s _ _ _ _ _ u Hwf Hu Hcm Hon).
  destruct (code_forward fuel s u) as [[s' v]|e] eqn:E; [|reflexivity].
  destruct (code_forward_shape fuel s u s' v Hwf Hu E) as (Sv & _). injection Sv as A1 A2 A3 A4.
  unfold on_grid; cbn [rmap fst snd]. rewrite (Hs v), A1, A3, A4. reflexivity.
Qed.

Lemma code_run_natural g fuel n : forall s u, cca_wf (cd_core s) -> natural_onto (cd_core s) g -> twf u ->
  (0 < tH u)%nat -> (0 < tW u)%nat -> code_run fuel n s (g u) = rmap (on_grid g) (code_run fuel n s u).
Proof.
  induction n as [|n IH]; intros s u Hwf Hg Hu H0 W0; cbn [code_run]; [reflexivity|].
  rewrite code_natural by auto. destruct (code_forward fuel s u) as [[s' v]|e] eqn:E; [|reflexivity].
  cbn [bind rmap on_grid fst snd]. destruct (code_forward_shape fuel s u s' v Hwf Hu E) as (Sv & Vw & Ec).
  injection Sv as A1 A2 A3 A4. apply IH; try congruence; auto.
  - rewrite Ec. apply set_core_dt_wf; auto.
  - rewrite Ec. destruct Hg as (sb & sf & oB & oH & oW & Hs & Hc). exists sb, sf, oB, oH, oW. auto.
Qed.

(** MetaCA runs from reset. *)
Lemma meta_natural s g u : meta_wf s -> match mt_dgrid s with Some d => shape d = shape u | None => True end ->
  natural (mt_core s) g -> twf u -> (0 < tH u)%nat -> (0 < tW u)%nat ->
  meta_forward (meta_map g s) (g u) = rmap (fun p => (meta_map g (fst p), g (snd p))) (meta_forward s u).
Proof.
  intros Hs Hd Hg Hu H0 W0. destruct Hg as (sb & sf & oB & oH & oW & [Hp] & Hc).
  specialize (Hc (tB u) (tH u) (tW u) H0 W0). pose proof (meta_sub s _ _ _ _ _ u Hs Hu Hd Hc) as E. cbv zeta in E.
  set (F := pull sb (sf (tH u) (tW u)) _ _ _) in E.
  assert (HF : forall v, shape v = shape u -> g v = F v).
  { intros v Hv. injection Hv as A1 A2 A3 A4. rewrite (Hp v), A1, A3, A4. reflexivity. }
  assert (Hm : forall s', match mt_dgrid s' with Some d => shape d = shape u | None => True end -> meta_map g s' = meta_map F s').
  { intros [c' dd [d|]] Hd'; unfold meta_map; simpl in *; [rewrite HF by auto; reflexivity|reflexivity]. }
  rewrite (Hm s Hd), (HF u eq_refl), E. destruct (meta_forward s u) as [[s' v]|e] eqn:Em; [|reflexivity].
  destruct (meta_forward_wf s u s' v Hs Hu Em) as (_ & _ & Sv & d & Ed & Sd & _).
  cbn [rmap fst snd]. rewrite Hm by (rewrite Ed; auto). rewrite (HF v) by auto. reflexivity.
Qed.

Lemma meta_run_natural g n : forall s u, meta_wf s ->
  match mt_dgrid s with Some d => shape d = shape u | None => True end ->
  natural (mt_core s) g -> twf u -> (0 < tH u)%nat -> (0 < tW u)%nat ->
  meta_run n (meta_map g s) (g u) = rmap (fun p => (meta_map g (fst p), g (snd p))) (meta_run n s u).
Proof.
  induction n as [|n IH]; intros s u Hs Hd Hg Hu H0 W0; cbn [meta_run]; [reflexivity|].
  rewrite meta_natural by auto. destruct (meta_forward s u) as [[s' v]|e] eqn:E; [|reflexivity].
  cbn [bind rmap fst snd]. destruct (meta_forward_wf s u s' v Hs Hu E) as (Ws & Wv & Sv & d & Ed & Sd & Ec & _).
  pose proof Sv as Sv'. injection Sv' as A1 A2 A3 A4. apply IH; try congruence; auto.
  - rewrite Ed. congruence.
Qed.

(** ** Batch elements *)
Lemma cca_batch c u k : cca_wf c -> twf u -> (k < tB u)%nat ->
  cca_forward c (batch_elem k u) = rmap (batch_elem k) (cca_forward c u).
Proof.
  intros Hwf Hu Hk. rewrite batch_elem_pull.
  rewrite (cca_sub c (fun _ => k) id_map 1 (tH u) (tW u) Hwf u Hu) by (apply compat_batch; auto).
  destruct (cca_forward c u) as [v|] eqn:E; [|reflexivity].
  apply cca_shape in E as [S _]; auto. injection S as A1 A2 A3 A4. cbn [rmap].
  rewrite batch_elem_pull, A3, A4. reflexivity.
Qed.

Lemma lenia_batch c u k : cca_wf c -> twf u -> (k < tB u)%nat ->
  lenia_forward c (batch_elem k u) = rmap (batch_elem k) (lenia_forward c u).
Proof.
  intros Hwf Hu Hk. rewrite batch_elem_pull.
  rewrite (lenia_sub c (fun _ => k) id_map 1 (tH u) (tW u) Hwf u Hu) by (apply compat_batch; auto).
  destruct (lenia_forward c u) as [v|] eqn:E; [|reflexivity].
  apply lenia_shape in E as [S _]; auto. injection S as A1 A2 A3 A4. cbn [rmap].
  rewrite batch_elem_pull, A3, A4. reflexivity.
Qed.

Lemma cca_batch_iter c n : forall u k, cca_wf c -> twf u -> (k < tB u)%nat ->
  iter_res (cca_forward c) n (batch_elem k u) = rmap (batch_elem k) (iter_res (cca_forward c) n u).
Proof.
  induction n; intros u k Hwf Hu Hk; cbn [iter_res]; [reflexivity|].
  rewrite cca_batch by auto. destruct (cca_forward c u) as [v|] eqn:E; [|reflexivity]. cbn [bind rmap].
  apply cca_shape in E as [S W]; auto. injection S as A1 A2 A3 A4. apply IHn; auto. congruence.
Qed.
