(** Property theorems about the predictor of the halting wrapper (C90). *)
From Coq Require Import Reals ZArith NArith Lra Lia List String Bool Arith.
From Verif Require Import Base Tensor MActivations MNca MText MCca MWrap MPredict MHalt SGrid SCca SNca SText SPredict SHalt PTensor PKern PNca PDyn PWrap PPredict PHalt.
Import ListNotations.
Open Scope R_scope.

(** ** Construction *)

(** A new predictor is well formed for a probability of dropout, and its layers hold what was
    drawn for them, in order. *)
Theorem C90_init : forall d ext blocks mode p, (0 < ext)%nat -> blocks = 0%nat \/ 0 <= p <= 1 ->
  exists net, init_halting d ext blocks mode p = Ok net /\ hnet_wf ext blocks (if Nat.eqb mode 2 then 2 else 1) net /\ hn_drop net = p /\
  (forall k, (k < blocks)%nat -> exists b, nth_error (hn_blocks net) k = Some b /\
    (forall o c y z, (o < 32)%nat -> (c < ext)%nat -> (y < 3)%nat -> (z < 3)%nat -> get (cl_w (bl_c (hb_0 b))) o c y z = dw_w d (3 * k) o c y z) /\
    (forall o c y z, (o < 32)%nat -> (c < 32)%nat -> (y < 3)%nat -> (z < 3)%nat -> get (cl_w (bl_c (hb_1 b))) o c y z = dw_w d (3 * k + 1) o c y z) /\
    (forall o c y z, (o < ext)%nat -> (c < 32)%nat -> (y < 3)%nat -> (z < 3)%nat -> get (cl_w (bl_c (hb_2 b))) o c y z = dw_w d (3 * k + 2) o c y z) /\
    bl_b (hb_0 b) = map (dw_b d (3 * k)) (seq 0 32) /\ bl_b (hb_1 b) = map (dw_b d (3 * k + 1)) (seq 0 32) /\
    bl_b (hb_2 b) = map (dw_b d (3 * k + 2)) (seq 0 ext) /\
    block_entries b = ((ext * 9 * 32 + 32) + (32 * 9 * 32 + 32) + (32 * 9 * ext + ext))%nat) /\
  (forall o c y z, (o < if Nat.eqb mode 2 then 2 else 1)%nat -> (c < ext)%nat -> (y < 3)%nat -> (z < 3)%nat -> get (cl_w (bl_c (hn_final net))) o c y z = dw_w d (3 * blocks) o c y z) /\
  bl_b (hn_final net) = map (dw_b d (3 * blocks)) (seq 0 (if Nat.eqb mode 2 then 2 else 1)).
Proof.
  intros d ext blocks mode p He Hp. destruct (init_ok d ext blocks mode p He Hp) as (net & E & Hw). exists net. split; [exact E|].
  split; [exact Hw|]. unfold init_halting in E. apply bind_ok in E as (u & _ & E). apply Ok_inj in E. subst net. cbn [hn_drop hn_blocks].
  split; [reflexivity|]. split; [|split; [intros; apply get_build; assumption|reflexivity]]. intros k Hk. eexists. split; [apply new_blocks_nth, Hk|]. rewrite Nat.add_0_l. cbn [hb_0 hb_1 hb_2 new_layer bl_c bl_b cl_w].
  split; [intros; apply get_build; assumption|]. split; [intros; apply get_build; assumption|]. split; [intros; apply get_build; assumption|].
  split; [reflexivity|]. split; [reflexivity|]. split; [reflexivity|].
  unfold block_entries. cbn [hb_0 hb_1 hb_2 new_layer bl_c bl_b cl_w]. rewrite !map_length, !seq_length.
  rewrite (twf_build 32 ext 3 3 (dw_w d (3 * k)) : List.length _ = _), (twf_build 32 32 3 3 (dw_w d (3 * k + 1)) : List.length _ = _),
    (twf_build ext 32 3 3 (dw_w d (3 * k + 2)) : List.length _ = _). cbn [build tB tC tH tW]. lia.
Qed.

(** Anything but a probability is refused as soon as there is a block. *)
Theorem C90_bad_dropout : forall d ext blocks mode p, blocks <> 0%nat -> ~ (0 <= p <= 1) -> init_halting d ext blocks mode p = Err ValueError.
Proof. exact init_bad. Qed.

(** The parameters of the blocks are registered under different names, six for a block, so that
    the optimizer is given all of them. *)
Theorem C90_names : forall m, List.length (halt_names m) = (6 * m)%nat /\ NoDup (halt_names m) /\
  forall k, (k < m)%nat -> forall q, In q ["0weight"; "0bias"; "3weight"; "3bias"; "6weight"; "6bias"]%string ->
    In (q ++ "_layer" ++ dec (N.of_nat k))%string (halt_names m).
Proof.
  intros m. split; [apply halt_names_length|]. split; [apply halt_names_nodup|]. intros k Hk q Hq. unfold halt_names. apply in_flat_map.
  exists k. split; [apply in_seq; lia|]. cbn [In] in Hq. unfold halt_parts. cbn [map]. cbn [In].
  destruct Hq as [E|[E|[E|[E|[E|[E|[]]]]]]]; subst q.
  - left. reflexivity.
  - right; left. reflexivity.
  - do 2 right; left. reflexivity.
  - do 3 right; left. reflexivity.
  - do 4 right; left. reflexivity.
  - do 5 right; left. reflexivity.
Qed.

(** ** The forward pass *)

(** The prediction for sample [b] and output [o] is the belief of the network in that sample. *)
Theorem C90_forward : forall ext blocks out tr keep net x, hnet_wf ext blocks out net -> twf x -> predictable ext blocks x ->
  exists l, halt_forward tr keep net x = Ok l /\ List.length l = (tB x * out)%nat /\
  forall b o, (b < tB x)%nat -> (o < out)%nat ->
    nth (b * out + o) l 0 =
    belief (hn_blocks net) (hn_final net) 0 ext (tH x) (tW x) (fun n c i j => drop_factor tr (keep n b c i j) (hn_drop net)) (get x b) o.
Proof. exact forward_eq. Qed.

(** Everything else is refused. *)
Theorem C90_refused : forall ext blocks out tr keep net x, hnet_wf ext blocks out net -> ~ predictable ext blocks x ->
  halt_forward tr keep net x = Err RuntimeError.
Proof. exact forward_err. Qed.

(** Every prediction is strictly between 0 and 1. *)
Theorem C90_probability : forall ext blocks out tr keep net x l, hnet_wf ext blocks out net -> twf x -> (0 < out)%nat ->
  halt_forward tr keep net x = Ok l -> List.length l = (tB x * out)%nat /\ Forall (fun v => 0 < v < 1) l.
Proof. exact forward_strict. Qed.

(** In evaluation mode the prediction for a sample depends on nothing but the network and that
    sample: not on the rest of the batch, not on its place in it, not on dropout. *)
Theorem C90_samples : forall ext blocks out keep keep' net x x' l l' b b' o, hnet_wf ext blocks out net -> twf x -> twf x' ->
  halt_forward false keep net x = Ok l -> halt_forward false keep' net x' = Ok l' ->
  tH x = tH x' -> tW x = tW x' -> (b < tB x)%nat -> (b' < tB x')%nat -> (o < out)%nat ->
  (forall c i j, (c < ext)%nat -> (i < tH x)%nat -> (j < tW x)%nat -> get x b c i j = get x' b' c i j) ->
  nth (b * out + o) l 0 = nth (b' * out + o) l' 0.
Proof.
  intros ext blocks out keep keep' net x x' l l' b b' o Hw Tx Tx' E E' EH EW Hb Hb' Ho Same.
  assert (P : forall y ky ly, halt_forward false ky net y = Ok ly -> predictable ext blocks y).
  { intros y ky ly F. destruct (Nat.eq_dec (tC y) ext); [destruct (le_lt_dec (2 ^ blocks) (tH y)); [destruct (le_lt_dec (2 ^ blocks) (tW y))|]|];
      [repeat split; assumption| | |]; rewrite (forward_err ext blocks out) in F by (try assumption; unfold predictable; lia); discriminate. }
  destruct (forward_eq ext blocks out false keep net x Hw Tx (P _ _ _ E)) as (m & F & _ & N). rewrite E in F. apply Ok_inj in F. subst m.
  destruct (forward_eq ext blocks out false keep' net x' Hw Tx' (P _ _ _ E')) as (m & F & _ & N'). rewrite E' in F. apply Ok_inj in F. subst m.
  rewrite N, N' by assumption. rewrite <- EH, <- EW. unfold hfactors, drop_factor. apply belief_ext. exact Same.
Qed.

(** ** The wrapper's step with this predictor *)

(** With an automaton that answers, a mode of the three, and grids that can be halved for every
    block, an evaluation of the wrapper completes: eight training steps are made, the predictor
    stays well formed, and there is one prediction for every sample and output. *)
Theorem C90_step : forall St ca rst B ext D, ca_total St ca B ext D D -> (0 < B * ext * D * D)%nat ->
  forall masks update blocks mode,
  (forall k w x t, hnet_wf ext blocks (halt_outputs mode) w -> hnet_wf ext blocks (halt_outputs mode) (update k w x t)) ->
  forall n s k w rand, (mode <= 2)%nat -> hnet_wf ext blocks (halt_outputs mode) w -> (2 ^ blocks <= D)%nat ->
  (forall i, shape (rand i) = (B, ext, D, D) /\ twf (rand i)) ->
  exists s' w' pred target reward active,
    halting_step St ca _ (halt_net_forward masks) (halt_net_learn update) rst mode n s (Some (k, w)) rand
      = Ok (s', ((8 + k)%nat, w'), pred, target, reward, active) /\
    hnet_wf ext blocks (halt_outputs mode) w' /\ List.length pred = (B * halt_outputs mode)%nat /\ Forall (fun v => 0 < v < 1) pred.
Proof. exact step_total. Qed.

(** Any other mode has targets for two outputs and predictions for one. *)
Theorem C90_bad_mode : forall St ca rst B ext D, ca_total St ca B ext D D -> (0 < B * ext * D * D)%nat ->
  forall masks update blocks mode n s k w rand, (2 < mode)%nat -> hnet_wf ext blocks (halt_outputs mode) w -> (2 ^ blocks <= D)%nat ->
  (forall i, shape (rand i) = (B, ext, D, D) /\ twf (rand i)) ->
  halting_step St ca _ (halt_net_forward masks) (halt_net_learn update) rst mode n s (Some (k, w)) rand = Err ValueError.
Proof. exact step_bad_mode. Qed.

(** Grids too small for the number of blocks are refused. *)
Theorem C90_small : forall St ca rst B ext D, ca_total St ca B ext D D -> (0 < B * ext * D * D)%nat ->
  forall masks update blocks mode n s k w rand, hnet_wf ext blocks (halt_outputs mode) w -> (D < 2 ^ blocks)%nat ->
  (forall i, shape (rand i) = (B, ext, D, D) /\ twf (rand i)) ->
  halting_step St ca _ (halt_net_forward masks) (halt_net_learn update) rst mode n s (Some (k, w)) rand = Err RuntimeError.
Proof. exact step_small. Qed.

(** A continuous automaton that accepts one grid of a shape answers for all grids of it. *)
Theorem C90_cca : forall c B D u u', cca_wf c -> shape u = (B, ext c, D, D) -> twf u -> cca_forward c u = Ok u' ->
  ca_total unit (fun s g => rmap (pair s) (cca_forward c g)) B (ext c) D D.
Proof.
  intros c B D u u' Hc Su Tu E s v Sv Tv.
  assert (A : exists v', cca_forward c v = Ok v').
  { apply (cca_accepts c v Hc Tv). pose proof (proj1 (cca_accepts c u Hc Tu) (ex_intro _ u' E)) as A.
    assert (X := eq_trans Sv (eq_sym Su)). unfold shape in X. apply pair_equal_spec in X as [X X4]. apply pair_equal_spec in X as [X X3].
    apply pair_equal_spec in X as [X1 X2]. unfold fits in *. rewrite X2, X3, X4. exact A. }
  destruct A as [v' Ev]. exists s, v'. rewrite Ev. cbn [rmap]. split; [reflexivity|].
  destruct (cca_shape c v v' Hc Tv Ev) as [S' T']. split; [congruence|exact T'].
Qed.

(** ** Examples *)

(** Weights 1 and biases 0 everywhere. *)
Definition unit_draws : draws := mkDraws (fun _ _ _ _ _ => 1) (fun _ _ => 0).

(** Without blocks, one sample of one cell with value 3: the prediction is logistic(3). *)
Example C90_no_blocks : exists net l, init_halting unit_draws 1 0 0 (1 / 2) = Ok net /\ halt_forward true (fun _ _ _ _ _ => false) net (mkT 1 1 1 1 [3]) = Ok l /\
  nth 0 l 0 = logistic 3.
Proof.
  destruct (C90_init unit_draws 1 0 0 (1 / 2) ltac:(lia) ltac:(left; reflexivity)) as (net & E & Hw & _). exists net.
  destruct (C90_forward 1 0 1 true (fun _ _ _ _ _ => false) net (mkT 1 1 1 1 [3]) Hw eq_refl) as (l & El & _ & N); [repeat split; cbn; lia|].
  exists l. split; [exact E|]. split; [exact El|]. specialize (N 0%nat 0%nat ltac:(cbn; lia) ltac:(lia)). change (0 * 1 + 0)%nat with 0%nat in N. rewrite N.
  unfold init_halting in E. cbn [Nat.eqb orb guard bind] in E. apply Ok_inj in E. subst net. cbn [hn_blocks hn_final hn_drop new_blocks belief tH tW rsum].
  rewrite !Rplus_0_l. change (INR (1 * 1)) with 1. unfold Rdiv. rewrite Rinv_1, Rmult_1_r. f_equal.
  unfold window3. cbn [rsum new_layer bl_c bl_b cl_w]. rewrite !get_build by (cbn; lia). cbn. lra.
Qed.

(** One block with all weights and biases 0 predicts 1/2 for both outputs. *)
Definition zero_draws : draws := mkDraws (fun _ _ _ _ _ => 0) (fun _ _ => 0).

Example C90_zero : exists net l, init_halting zero_draws 1 1 2 0 = Ok net /\ halt_forward false (fun _ _ _ _ _ => true) net (mkT 1 1 2 2 [1; 2; 3; 4]) = Ok l /\
  List.length l = 2%nat /\ nth 1 l 0 = 1 / 2.
Proof.
  destruct (C90_init zero_draws 1 1 2 0 ltac:(lia) ltac:(right; lra)) as (net & E & Hw & _). exists net.
  destruct (C90_forward 1 1 2 false (fun _ _ _ _ _ => true) net (mkT 1 1 2 2 [1; 2; 3; 4]) Hw eq_refl) as (l & El & L & N); [repeat split; cbn; lia|].
  exists l. split; [exact E|]. split; [exact El|]. split; [exact L|]. specialize (N 0%nat 1%nat ltac:(cbn; lia) ltac:(lia)). change (0 * 2 + 1)%nat with 1%nat in N. rewrite N.
  unfold init_halting in E. apply bind_ok in E as (u & _ & E). apply Ok_inj in E. subst net. cbn [hn_blocks hn_final hn_drop new_blocks belief tH tW].
  change (2 / 2)%nat with 1%nat. cbn [rsum]. rewrite !Rplus_0_l. change (INR (1 * 1)) with 1. unfold Rdiv at 1. rewrite Rinv_1, Rmult_1_r.
  match goal with |- logistic ?w = _ => assert (Z : w = 0) end.
  { unfold window3. cbn [new_layer bl_c bl_b cl_w halt_outputs Nat.eqb].
    rewrite (rsum_0 1); [cbn; lra|]. intros c Hc. apply rsum_0. intros y Hy. apply rsum_0. intros z Hz. rewrite get_build by lia. cbn [dw_w zero_draws]. lra. }
  rewrite Z. unfold logistic. rewrite Ropp_0, exp_0. lra.
Qed.

(** The step of C90_step for an automaton that does nothing, on one cell, with no blocks. *)
Example C90_step_example : exists net s' w' pred target reward active, init_halting unit_draws 1 0 0 0 = Ok net /\
  halting_step unit (fun s g => Ok (s, g)) _ (halt_net_forward (fun _ _ _ _ _ _ => true)) (halt_net_learn (fun _ w _ _ => w)) (fun s => s) 0 3 tt
    (Some (0%nat, net)) (fun _ => mkT 1 1 1 1 [1]) = Ok (s', (8%nat, w'), pred, target, reward, active).
Proof.
  destruct (C90_init unit_draws 1 0 0 0 ltac:(lia) ltac:(left; reflexivity)) as (net & E & Hw & _). exists net.
  destruct (C90_step unit (fun s g => Ok (s, g)) (fun s => s) 1 1 1) with (masks := fun (_ _ _ _ _ _ : nat) => true) (update := fun (_ : nat) (w : hnet) (_ : tensor) (_ : list R) => w)
    (blocks := 0%nat) (mode := 0%nat) (n := 3%nat) (s := tt) (k := 0%nat) (w := net) (rand := fun _ : nat => mkT 1 1 1 1 [1])
    as (s' & w' & pred & target & reward & active & H & _); try (cbn; lia).
  - intros s u Su Tu. exists s, u. auto.
  - auto.
  - exact Hw.
  - intros _. split; reflexivity.
  - exists s', w', pred, target, reward, active. split; [exact E|exact H].
Qed.

(** Five cells cannot be halved three times. *)
Example C90_refused_example : exists net, init_halting unit_draws 1 3 0 0 = Ok net /\
  forall keep, halt_forward false keep net (build 1 1 5 5 (fun _ _ _ _ => 1)) = Err RuntimeError.
Proof.
  destruct (C90_init unit_draws 1 3 0 0 ltac:(lia) ltac:(right; lra)) as (net & E & Hw & _). exists net. split; [exact E|]. intros keep.
  apply (C90_refused 1 3 1); [exact Hw|]. intros (_ & A & _). cbn in A. lia.
Qed.

Print Assumptions C90_init.
Print Assumptions C90_bad_dropout.
Print Assumptions C90_names.
Print Assumptions C90_forward.
Print Assumptions C90_refused.
Print Assumptions C90_probability.
Print Assumptions C90_samples.
Print Assumptions C90_step.
Print Assumptions C90_bad_mode.
Print Assumptions C90_small.
Print Assumptions C90_cca.
