(** Proofs about the Gray-Scott automaton. *)
From Coq Require Import Reals Lra Lia List Arith Bool ZArith String.
From Verif Require Import Base PyDict Tensor MActivations MKernels MCommon MCca MRd SGrid SCca SRd PTensor PStep PCca PSym PDyn PEqv SKern PKern PKernX.
Import ListNotations.
Open Scope R_scope.

(** ** The neighbourhood layer *)
Lemma cat0_get k t b c i j : twf k -> tB k = 1%nat -> cat0 k k = Ok t ->
  (b < 2)%nat -> (c < tC k)%nat -> (i < tH k)%nat -> (j < tW k)%nat ->
  get t b c i j = get k 0 c i j /\ tB t = 2%nat /\ tC t = tC k /\ tH t = tH k /\ tW t = tW k /\ twf t.
Proof.
  intros Hw HB. unfold cat0. rewrite !Nat.eqb_refl. cbn [guard bind andb]. intros E Hb Hc Hi Hj.
  apply Ok_inj in E. subst t. unfold get, twf in *. cbn [tB tC tH tW tdata].
  split; [|rewrite HB, app_length, Hw, HB; repeat split; lia].
  destruct b as [|[|b]]; [| |lia].
  - rewrite app_nth1; [reflexivity|]. rewrite Hw, HB. apply (flat_lt 1 (tC k) (tH k) (tW k) 0 c i j); auto.
  - rewrite app_nth2.
    + f_equal. rewrite Hw, HB. lia.
    + rewrite Hw, HB. nia.
Qed.

Lemma cat0_ok k : exists t, cat0 k k = Ok t /\ tB t = (tB k + tB k)%nat /\ tC t = tC k /\ tH t = tH k /\ tW t = tW k.
Proof. unfold cat0. rewrite !Nat.eqb_refl. cbn [guard bind andb]. eexists. repeat split. Qed.

(** Stacking the kernel twice gives the same layer as expanding it. *)
Lemma rd_layer_single k r : shape k = (1, 1, 2 * r + 1, 2 * r + 1)%nat -> twf k ->
  rd_layer (Some (K4 k)) = init_layer 2 2 Circular k.
Proof.
  intros Sk Wk. apply shape_inv in Sk as (K1 & K2 & K3 & K4).
  unfold rd_layer, rd_add_kernel. cbn [bind]. rewrite K3, K4, Nat.eqb_refl. cbn [guard bind].
  destruct (cat0_ok k) as (t & Et & T1 & T2 & T3 & T4). rewrite Et. cbn [bind].
  unfold init_layer. rewrite T4. change (groups 2 2) with (Ok 2%nat). cbn [bind]. change (2 / 2)%nat with 1%nat.
  assert (Ex : expand 2 1 t = expand 2 1 k); [|rewrite Ex; reflexivity].
  unfold expand. rewrite T1, T2, K1, K2. cbn [Nat.eqb Nat.add orb andb guard bind]. f_equal.
  rewrite T3, T4. apply build_ext. intros b c i j Hb Hc Hi Hj.
  assert (c = 0)%nat by lia. subst c. unfold bget, bidx. rewrite T1, T2, T3, T4, K1, K2. cbn [Nat.eqb Nat.add].
  apply (cat0_get k t b 0); auto; try lia.
  - destruct (Nat.eqb_spec (tH k) 1); lia.
  - destruct (Nat.eqb_spec (tW k) 1); lia.
Qed.

(** ** What every reachable state satisfies *)
Definition rd_layers (s : rd) : Prop :=
  layer_wf 2 2 (rd_idl s) /\ layer_wf 2 2 (rd_nbl s) /\ cl_m (rd_idl s) = Circular /\ cl_m (rd_nbl s) = Circular.

Record rd_inv (s : rd) : Prop := mkInv {
  ri_idl : exists k r, shape k = (1, 1, 2 * r + 1, 2 * r + 1)%nat /\ twf k /\ radial r k /\ init_layer 2 2 Circular k = Ok (rd_idl s);
  ri_nbl : exists d k r, rd_cfg s = Some d /\ get_kernel d = Ok k /\
             shape k = (1, 1, 2 * r + 1, 2 * r + 1)%nat /\ twf k /\ radial r k /\ init_layer 2 2 Circular k = Ok (rd_nbl s);
  ri_idcfg : rd_idcfg s = None }.

Lemma kernel_layer d k : get_kernel d = Ok k ->
  exists r, shape k = (1, 1, 2 * r + 1, 2 * r + 1)%nat /\ twf k /\ radial r k /\
    (exists l, init_layer 2 2 Circular k = Ok l) /\ rd_layer (Some (K4 k)) = init_layer 2 2 Circular k /\ as_kernel (K4 k) = Ok k.
Proof.
  intros H. apply get_kernel_radial in H as (r & S & W & Rd & _). exists r.
  split; [exact S|]. split; [exact W|]. split; [exact Rd|].
  pose proof (rd_layer_single k r S W). apply shape_inv in S as (K1 & K2 & K3 & K4).
  split; [apply init_layer_ok; auto; lia|]. split; [assumption|].
  unfold as_kernel. rewrite K3, K4, Nat.eqb_refl. reflexivity.
Qed.

Lemma id_kernel_facts : shape default_id_kernel = (1, 1, 2 * 1 + 1, 2 * 1 + 1)%nat /\ twf default_id_kernel /\ radial 1 default_id_kernel.
Proof.
  split; [reflexivity|]. split; [reflexivity|]. intros i j i' j' Hi Hj Hi' Hj'.
  destruct i as [|[|[|]]], j as [|[|[|]]], i' as [|[|[|]]], j' as [|[|[|]]]; try lia; cbn; intros; try lia; reflexivity.
Qed.

Lemma rd_default_kernel : exists k, get_kernel rd_default_cfg = Ok k.
Proof. eapply (log_kernel_exists rd_default_cfg _ (1 / 2) 1); try reflexivity; try lra; lia. Qed.

Lemma rd_init_ok : exists s, rd_init = Ok s.
Proof.
  unfold rd_init. destruct rd_default_kernel as [k Ek]. rewrite Ek. cbn [bind].
  destruct (kernel_layer _ _ Ek) as (r & S & W & Rd & [l El] & E2 & _). rewrite E2, El. cbn [bind].
  unfold as_kernel. cbn [default_id_kernel tW tH Nat.eqb guard bind]. fold default_id_kernel.
  destruct (init_layer_ok 2 2 Circular default_id_kernel) as [il Eil]; auto. rewrite Eil. cbn [bind]. eauto.
Qed.

Lemma rd_init_facts s : rd_init = Ok s ->
  rd_inv s /\ rd_cfg s = Some rd_default_cfg /\ init_layer 2 2 Circular default_id_kernel = Ok (rd_idl s) /\
  rd_radius s = VInt 1 /\ rd_get_params s = [2 / 100000; 1 / 100000; 620 / 10000; 609 / 10000] /\ rd_dt s = 1 / 2 /\ rd_dx s = 1 / 330.
Proof.
  unfold rd_init. intros H. apply bind_ok in H as (k & Ek & H).
  destruct (kernel_layer _ _ Ek) as (r & S & W & Rd & [l El] & E2 & _). rewrite E2, El in H. cbn [bind] in H.
  unfold as_kernel in H. cbn [default_id_kernel tW tH Nat.eqb guard bind] in H. fold default_id_kernel in H.
  apply bind_ok in H as (il & Eil & H). apply Ok_inj in H. subst s. cbn [rd_cfg rd_radius rd_idl rd_dt rd_dx].
  split; [|repeat split; auto].
  destruct id_kernel_facts as (S1 & W1 & R1).
  constructor; cbn [rd_idl rd_nbl rd_cfg rd_idcfg]; [| |reflexivity].
  - exists default_id_kernel, 1%nat. auto.
  - exists rd_default_cfg, k, r. repeat split; auto; apply shape_inv in S; tauto.
Qed.

Lemma set_radius_facts s r s' : rd_set_radius s r = Ok s' ->
  exists d k q, rd_cfg s = Some d /\ get_kernel (dset "radius" r d) = Ok k /\
    shape k = (1, 1, 2 * q + 1, 2 * q + 1)%nat /\ twf k /\ radial q k /\
    init_layer 2 2 Circular k = Ok (rd_nbl s') /\
    s' = mkRd (rd_idl s) (rd_nbl s') (rd_idcfg s) (Some (dset "radius" r d)) r (rd_du s) (rd_dv s) (rd_f s) (rd_k s) (rd_dt s) (rd_dx s).
Proof.
  unfold rd_set_radius. destruct (rd_cfg s) as [d|]; [|discriminate].
  intros H. apply bind_ok in H as (k & Ek & H).
  destruct (kernel_layer _ _ Ek) as (q & S & W & Rd & [l El] & E2 & _). rewrite E2, El in H. cbn [bind] in H.
  apply Ok_inj in H. subst s'. cbn [rd_nbl]. exists d, k, q. auto 10.
Qed.

Lemma set_config_facts s c s' : rd_set_kernel_config s c = Ok s' ->
  exists d r k q, d = c /\ dget "radius" c = Some r /\ get_kernel (dset "radius" r d) = Ok k /\
    shape k = (1, 1, 2 * q + 1, 2 * q + 1)%nat /\ twf k /\ radial q k /\
    init_layer 2 2 Circular k = Ok (rd_nbl s') /\
    s' = mkRd (rd_idl s) (rd_nbl s') (rd_idcfg s) (Some (dset "radius" r d)) r (rd_du s) (rd_dv s) (rd_f s) (rd_k s) (rd_dt s) (rd_dx s).
Proof.
  unfold rd_set_kernel_config. intros H. apply bind_ok in H as (x & _ & H). apply bind_ok in H as (r & Er & H).
  apply set_radius_facts in H as (d & k & q & E1 & E2 & E3). cbn [rd_cfg] in E1. injection E1 as <-.
  exists c, r, k, q. split; [reflexivity|]. split; [|split; [exact E2|exact E3]].
  unfold dgetk in Er. destruct (dget "radius" c); [|discriminate]. apply Ok_inj in Er. congruence.
Qed.

Lemma set_params_facts s p s' : rd_set_params s p = Ok s' ->
  s' = mkRd (rd_idl s) (rd_nbl s) (rd_idcfg s) (rd_cfg s) (rd_radius s) (nth 0 p 0) (nth 1 p 0) (nth 2 p 0) (nth 3 p 0) (rd_dt s) (rd_dx s)
  /\ (4 <= List.length p)%nat.
Proof.
  destruct p as [|a [|b [|c [|d p]]]]; cbn [rd_set_params]; try discriminate.
  intros E. apply Ok_inj in E. subst s'. split; [reflexivity|]. cbn [List.length]. lia.
Qed.

Lemma load_facts s c s' : rd_load s c = Ok s' ->
  exists kid qi d k q, 
    (match dget "identity_kernel_config" c with
     | None => kid = default_id_kernel
     | Some v => exists di, v = VDict di /\ get_kernel di = Ok kid end) /\
    shape kid = (1, 1, 2 * qi + 1, 2 * qi + 1)%nat /\ twf kid /\ radial qi kid /\ init_layer 2 2 Circular kid = Ok (rd_idl s') /\
    dget "neighborhood_kernel_config" c = Some (VDict d) /\ get_kernel d = Ok k /\
    shape k = (1, 1, 2 * q + 1, 2 * q + 1)%nat /\ twf k /\ radial q k /\ init_layer 2 2 Circular k = Ok (rd_nbl s') /\
    rd_idcfg s' = rd_idcfg s /\ rd_cfg s' = Some d /\ rd_radius s' = rd_radius s.
Proof.
  unfold rd_load. intros H. apply bind_ok in H as (kid & Ek & H). apply bind_ok in H as (il & Eil & H).
  apply bind_ok in H as (v & Ev & H). apply bind_ok in H as (d & Ed & H). apply bind_ok in H as (k & Ekk & H).
  destruct (kernel_layer _ _ Ekk) as (q & S & W & Rd & [l El] & E2 & _). rewrite E2, El in H. cbn [bind] in H.
  apply bind_ok in H as (? & _ & H). apply bind_ok in H as (? & _ & H). apply bind_ok in H as (? & _ & H).
  apply bind_ok in H as (? & _ & H). apply bind_ok in H as (? & _ & H). apply bind_ok in H as (? & _ & H).
  apply bind_ok in H as (? & _ & H). apply bind_ok in H as (p & _ & H).
  apply set_params_facts in H as [-> _]. cbn [rd_idl rd_nbl rd_idcfg rd_cfg rd_radius].
  assert (Ev' : dget "neighborhood_kernel_config" c = Some (VDict d)).
  { unfold dgetk in Ev. destruct (dget "neighborhood_kernel_config" c) as [w|]; [|discriminate].
    apply Ok_inj in Ev. subst w. destruct v; cbn [as_dict] in Ed; try discriminate. apply Ok_inj in Ed. congruence. }
  assert (Hid : exists qi, (match dget "identity_kernel_config" c with
     | None => kid = default_id_kernel
     | Some v => exists di, v = VDict di /\ get_kernel di = Ok kid end) /\
     shape kid = (1, 1, 2 * qi + 1, 2 * qi + 1)%nat /\ twf kid /\ radial qi kid).
  { destruct (dget "identity_kernel_config" c) as [w|].
    - apply bind_ok in Ek as (di & Edi & Ek). apply bind_ok in Ek as (kk & Ekk' & Ek).
      destruct (kernel_layer _ _ Ekk') as (qi & S1 & W1 & R1 & _ & _ & E3). rewrite E3 in Ek. apply Ok_inj in Ek. subst kk.
      exists qi. split; [|auto]. exists di. split; [|exact Ekk']. destruct w; cbn [as_dict] in Edi; try discriminate. apply Ok_inj in Edi. congruence.
    - assert (kid = default_id_kernel) by (apply Ok_inj in Ek; auto). subst kid. exists 1%nat.
      split; [reflexivity|apply id_kernel_facts]. }
  destruct Hid as (qi & H1 & H2 & H3 & H4).
  exists kid, qi, d, k, q. repeat (split; [solve [auto]|]). auto.
Qed.

Lemma rd_run_inv o s s' : rd_inv s -> rd_run s o = Ok s' -> rd_inv s'.
Proof.
  intros [Hi Hn Hc] H. destruct o; cbn [rd_run] in H.
  - apply set_params_facts in H as [-> _]. constructor; auto.
  - apply set_radius_facts in H as (d & k & q & E1 & E2 & E3 & E4 & E5 & E6 & ->). constructor; cbn [rd_idl rd_nbl rd_cfg rd_idcfg]; auto.
    exists (dset "radius" r d), k, q. auto 10.
  - apply Ok_inj in H. subst s'. constructor; auto.
  - apply Ok_inj in H. subst s'. constructor; auto.
  - apply Ok_inj in H. subst s'. constructor; auto.
  - apply Ok_inj in H. subst s'. constructor; auto.
  - apply set_config_facts in H as (d & r & k & q & Ed & E1 & E2 & E3 & E4 & E5 & E6 & ->). constructor; cbn [rd_idl rd_nbl rd_cfg rd_idcfg]; auto.
    exists (dset "radius" r d), k, q. auto 10.
  - apply load_facts in H as (kid & qi & d & k & q & _ & H2 & H3 & H4 & H5 & H6 & H7 & H8 & H9 & H10 & H11 & H12 & H13 & H14).
    constructor; [exists kid, qi; auto|exists d, k, q; auto 10|congruence].
Qed.

Lemma rd_runs_inv os : forall s s', rd_inv s -> rd_runs s os = Ok s' -> rd_inv s'.
Proof.
  induction os as [|o os IH]; intros s s' Hi H; cbn [rd_runs] in H.
  - apply Ok_inj in H. subst; auto.
  - apply bind_ok in H as (s1 & E & H). eapply IH; [|exact H]. eapply rd_run_inv; eauto.
Qed.

Lemma rd_reach_inv P s : rd_reachable P s -> rd_inv s.
Proof. intros (s0 & os & E & _ & H). eapply rd_runs_inv; [|exact H]. apply rd_init_facts in E; tauto. Qed.

Lemma rd_inv_layers s : rd_inv s -> rd_layers s.
Proof.
  intros [(k & r & S & W & _ & E) (d & k' & r' & _ & _ & S' & W' & _ & E') _].
  apply shape_inv in S as (_ & _ & K3 & K4). apply shape_inv in S' as (_ & _ & K3' & K4').
  destruct (init_layer_wf 2 2 Circular k _ r ltac:(lia) ltac:(lia) K3 K4 E) as (A & _ & B).
  destruct (init_layer_wf 2 2 Circular k' _ r' ltac:(lia) ltac:(lia) K3' K4' E') as (A' & _ & B').
  unfold rd_layers. auto.
Qed.

(** Restricted histories: Laplacian kernel, default identity. *)
Lemma dset_get_other k k' v d : k <> k' -> dget k (dset k' v d) = dget k d.
Proof.
  intros Hn. induction d as [|[a w] d IH]; cbn [dset dget].
  - destruct (String.eqb_spec k k'); [contradiction|reflexivity].
  - destruct (String.eqb_spec k' a) as [->|Ha]; cbn [dget].
    + destruct (String.eqb_spec k a); [contradiction|reflexivity].
    + destruct (String.eqb k a); auto.
Qed.

Definition rd_log (s : rd) : Prop := exists d, rd_cfg s = Some d /\ names_log d.

Lemma rd_run_log o s s' : rd_log s -> log_op o -> rd_run s o = Ok s' -> rd_log s'.
Proof.
  intros (d & Hd & Hl) Ho H. destruct o; cbn [rd_run] in H.
  - apply set_params_facts in H as [-> _]. exists d; auto.
  - apply set_radius_facts in H as (d' & k & q & E1 & E2 & E3 & E4 & E5 & E6 & ->). 
    exists (dset "radius" r d'). split; [reflexivity|]. unfold names_log. rewrite dset_get_other by discriminate.
    assert (d' = d) by congruence. subst; auto.
  - apply Ok_inj in H. subst s'. exists d; auto.
  - apply Ok_inj in H. subst s'. exists d; auto.
  - apply Ok_inj in H. subst s'. exists d; auto.
  - apply Ok_inj in H. subst s'. exists d; auto.
  - apply set_config_facts in H as (d' & r & k & q & Ed & E1 & E2 & E3 & E4 & E5 & E6 & ->).
    exists (dset "radius" r d'). split; [reflexivity|]. unfold names_log. rewrite dset_get_other by discriminate. subst d'; exact Ho.
  - destruct Ho as (d' & Hd' & Hl'). apply load_facts in H as (kid & qi & d1 & k & q & _ & H2 & H3 & H4 & H5 & H6 & H7 & H8 & H9 & H10 & H11 & H12 & H13 & H14).
    exists d1. split; [exact H13|]. assert (d1 = d') by congruence. subst; auto.
Qed.

Definition rd_id (s : rd) : Prop := init_layer 2 2 Circular default_id_kernel = Ok (rd_idl s).

Lemma rd_run_id o s s' : rd_id s -> id_op o -> rd_run s o = Ok s' -> rd_id s'.
Proof.
  unfold rd_id. intros Hi Ho H. destruct o; cbn [rd_run] in H.
  - apply set_params_facts in H as [-> _]. auto.
  - apply set_radius_facts in H as (d' & k & q & E1 & E2 & E3 & E4 & E5 & E6 & ->). auto.
  - apply Ok_inj in H. subst s'. auto.
  - apply Ok_inj in H. subst s'. auto.
  - apply Ok_inj in H. subst s'. auto.
  - apply Ok_inj in H. subst s'. auto.
  - apply set_config_facts in H as (d' & r & k & q & Ed & E1 & E2 & E3 & E4 & E5 & E6 & ->). auto.
  - apply load_facts in H as (kid & qi & d1 & k & q & H1 & H2 & H3 & H4 & H5 & _).
    cbn [id_op] in Ho. rewrite Ho in H1. subst kid. exact H5.
Qed.

Lemma rd_reach_log (P : rd_op -> Prop) s : (forall o, P o -> log_op o) -> rd_reachable P s -> rd_log s.
Proof.
  intros HP (s0 & os & E & HF & H). apply rd_init_facts in E as (_ & E & _).
  assert (H0 : rd_log s0) by (eexists; split; [exact E|reflexivity]). clear E.
  revert s0 H H0. induction HF as [|o os Ho HF IH]; intros s0 H H0; cbn [rd_runs] in H.
  - apply Ok_inj in H. subst; auto.
  - apply bind_ok in H as (s1 & E & H). eapply IH; [exact H|]. eapply rd_run_log; [exact H0| |exact E]. auto.
Qed.

Lemma rd_reach_id (P : rd_op -> Prop) s : (forall o, P o -> id_op o) -> rd_reachable P s -> rd_id s.
Proof.
  intros HP (s0 & os & E & HF & H). apply rd_init_facts in E as (_ & _ & E & _).
  assert (H0 : rd_id s0) by exact E. clear E.
  revert s0 H H0. induction HF as [|o os Ho HF IH]; intros s0 H H0; cbn [rd_runs] in H.
  - apply Ok_inj in H. subst; auto.
  - apply bind_ok in H as (s1 & E & H). eapply IH; [exact H|]. eapply rd_run_id; [exact H0| |exact E]. auto.
Qed.

(** ** The step *)
Definition rd_chk (s : rd) : res unit := guard (nonzero (rd_dx s ^ 2)) NonFinite.

Definition rd_ufn (s : rd) (v w : nat -> R) (c : nat) : R :=
  match c with
  | 0%nat => rd_du s * (w 0%nat / rd_dx s ^ 2) - v 0%nat * v 1%nat * v 1%nat + rd_f s * (1 - v 0%nat)
  | 1%nat => rd_dv s * (w 1%nat / rd_dx s ^ 2) + v 0%nat * v 1%nat * v 1%nat - (rd_f s + rd_k s) * v 1%nat
  | _ => 0
  end.

Lemma rd_update_pointwise s : pointwise 2 2 (rd_update s) (rd_chk s) (rd_ufn s).
Proof.
  split.
  - intros idn nb W1 W2 Hs Hc H0 W0. injection Hs as E1 E2 E3 E4. unfold rd_update, rd_chk.
    destruct (guard (nonzero (rd_dx s ^ 2)) NonFinite); [|reflexivity]. cbn [bind].
    rewrite <- E2, Hc. cbn [Nat.leb andb guard bind]. reflexivity.
  - intros v v' w w' k Hk Hv Hw. destruct k as [|[|k]]; [| |lia]; cbn [rd_ufn]; rewrite !Hv, !Hw by lia; reflexivity.
Qed.

(** A carrier for the general symmetry lemmas, which only look at layers and channels. *)
Definition carrier (e n : nat) (l1 l2 : conv_layer) : cca :=
  mkCca e n Circular 0 l1 l2 (WConv (mkL (build e n 1 1 (fun _ _ _ _ => 0)) 1 0 Circular)) [] [] 0.

Lemma carrier_wf e n l1 l2 : (0 < e)%nat -> (0 < n)%nat -> layer_wf e n l1 -> layer_wf e n l2 -> cca_wf (carrier e n l1 l2).
Proof.
  intros He Hn H1 H2. split; [exact H1|]. split; [exact H2|]. cbn [carrier wl wl_wf ext int_].
  split; [|split; reflexivity]. unfold layer_wf, groups_ok. cbn [cl_w cl_g cl_p tB tC tH tW build].
  split; [split; [lia|exists e; lia]|]. split; [apply twf_build|]. repeat split; lia.
Qed.

Lemma rd_shape s u u' : rd_layers s -> twf u -> rd_forward s u = Ok u' -> shape u' = shape u /\ twf u'.
Proof.
  intros (H1 & H2 & _) Hu. unfold rd_forward.
  apply (ca_forward_shape 2 2 _ _ _ _ _ _ _ _ no_mask_cell H1 H2 (rd_update_pointwise s) u u' Hu).
Qed.

Lemma rd_sub s fb fs B' H' W' u : rd_layers s -> twf u ->
  compat 2 (rd_idl s) (rd_nbl s) fb fs (tB u) (tH u) (tW u) B' H' W' ->
  rd_forward s (pull fb fs B' H' W' u) = rmap (pull fb fs B' H' W') (rd_forward s u).
Proof.
  intros (H1 & H2 & _) Hu Hc. unfold rd_forward.
  eapply ca_forward_compat; eauto using no_mask_cell, rd_update_pointwise.
Qed.

Lemma rd_iter_natural s g n u : rd_layers s -> natural (carrier 2 2 (rd_idl s) (rd_nbl s)) g -> twf u ->
  (0 < tH u)%nat -> (0 < tW u)%nat ->
  iter_res (rd_forward s) n (g u) = rmap g (iter_res (rd_forward s) n u).
Proof.
  intros Hl Hg. apply iter_natural.
  - intros; apply (rd_shape s); auto.
  - intros v Hv H0 W0. apply (step_natural (carrier 2 2 (rd_idl s) (rd_nbl s))); auto.
    + intros w Hw. apply rd_shape in Hw; tauto.
    + intros. apply rd_sub; auto.
Qed.

Lemma rd_roll P s dy dx n u : rd_reachable P s -> twf u -> (0 < tH u)%nat -> (0 < tW u)%nat ->
  iter_res (rd_forward s) n (roll dy dx u) = rmap (roll dy dx) (iter_res (rd_forward s) n u).
Proof.
  intros Hr. pose proof (rd_inv_layers s (rd_reach_inv P s Hr)) as Hl. apply rd_iter_natural; auto.
  apply natural_weaken, natural_roll. destruct Hl as (_ & _ & A & B). split; auto.
Qed.

Lemma rd_mirror s : rd_inv s ->
  mirror_v (carrier 2 2 (rd_idl s) (rd_nbl s)) /\ mirror_h (carrier 2 2 (rd_idl s) (rd_nbl s)) /\ mirror_t (carrier 2 2 (rd_idl s) (rd_nbl s)).
Proof.
  intros [(k & r & S & W & Rd & E) (d & k' & r' & _ & _ & S' & W' & Rd' & E') _].
  destruct (layer_sym 2 2 Circular k _ r ltac:(lia) ltac:(lia) S E) as (A1 & A2 & A3).
  destruct (layer_sym 2 2 Circular k' _ r' ltac:(lia) ltac:(lia) S' E') as (B1 & B2 & B3).
  destruct (radial_sym r k S Rd) as (C1 & C2 & C3). destruct (radial_sym r' k' S' Rd') as (D1 & D2 & D3).
  unfold mirror_v, mirror_h, mirror_t, carrier. cbn [idl nbl]. auto 10.
Qed.

Lemma rd_flips P s n u : rd_reachable P s -> twf u -> (0 < tH u)%nat -> (0 < tW u)%nat ->
  iter_res (rd_forward s) n (flip_v u) = rmap flip_v (iter_res (rd_forward s) n u) /\
  iter_res (rd_forward s) n (flip_h u) = rmap flip_h (iter_res (rd_forward s) n u) /\
  iter_res (rd_forward s) n (transpose u) = rmap transpose (iter_res (rd_forward s) n u).
Proof.
  intros Hr Hu H0 W0. pose proof (rd_reach_inv P s Hr) as Hi. pose proof (rd_inv_layers s Hi) as Hl.
  destruct (rd_mirror s Hi) as (M1 & M2 & M3).
  assert (Hw : cca_wf (carrier 2 2 (rd_idl s) (rd_nbl s))) by (apply carrier_wf; try lia; apply Hl).
  split; [|split]; apply rd_iter_natural; auto; apply natural_weaken.
  - apply natural_flip_v; auto.
  - apply natural_flip_h; auto.
  - apply natural_transpose; auto.
Qed.

Lemma rd_batch P s u k : rd_reachable P s -> twf u -> (k < tB u)%nat ->
  rd_forward s (batch_elem k u) = rmap (batch_elem k) (rd_forward s u).
Proof.
  intros Hr Hu Hk. pose proof (rd_inv_layers s (rd_reach_inv P s Hr)) as Hl. rewrite batch_elem_pull.
  rewrite (rd_sub s (fun _ => k) id_map 1 (tH u) (tW u) u Hl Hu) by (apply compat_batch; auto).
  destruct (rd_forward s u) as [v|] eqn:E; [|reflexivity].
  apply rd_shape in E as [S _]; auto. apply shape_inv in S as (A1 & A2 & A3 & A4). cbn [rmap].
  rewrite batch_elem_pull, A3, A4. reflexivity.
Qed.

Lemma rd_in_unit s u u' : rd_forward s u = Ok u' -> in_unit u'.
Proof. apply ca_forward_in01. Qed.

Lemma rd_frame_in_unit s u mode new l : rd_frame s u mode = Ok (Some (new :: l)) -> in_unit new.
Proof.
  unfold rd_frame, ca_frame. intros H. apply bind_ok in H as (i & _ & H). apply bind_ok in H as (nb & _ & H).
  apply bind_ok in H as (d & _ & H). apply bind_ok in H as (w & E & H). apply Ok_inj in H.
  assert (w = new) by (destruct mode as [|[|[|[|[|]]]]]; congruence). subst w. eapply euler_in01; eauto.
Qed.

(** Exactly when a step succeeds. *)
Lemma nonzero_iff x : nonzero x = true <-> x <> 0.
Proof. unfold nonzero. destruct (Req_EM_T x 0); split; congruence. Qed.

Lemma rd_accepts P s u : rd_reachable P s -> twf u ->
  (exists u', rd_forward s u = Ok u') <->
  (tC u = 2%nat /\ (0 < tH u)%nat /\ (0 < tW u)%nat /\ fits (rd_idl s) u /\ fits (rd_nbl s) u /\ rd_dx s <> 0).
Proof.
  intros Hr Hu. destruct (rd_inv_layers s (rd_reach_inv P s Hr)) as (H1 & H2 & _).
  unfold rd_forward. rewrite (ca_forward_nf 2 2 _ _ _ _ _ _ _ _ no_mask_cell H1 H2 (rd_update_pointwise s) u Hu).
  unfold step_ready, layer_ready, fits, rd_chk.
  assert (D : nonzero (rd_dx s ^ 2) = true <-> rd_dx s <> 0).
  { rewrite nonzero_iff. split; intros Hn E; apply Hn; [rewrite E; ring|].
    destruct (Req_dec (rd_dx s) 0); auto. exfalso. apply (pow_nonzero (rd_dx s) 2); auto. }
  split.
  - intros (u' & H). destruct (_ && _) eqn:Ev in H; [|discriminate].
    apply andb_true_iff in Ev as [V1 V2]. rewrite !andb_true_iff in V1, V2. rewrite !Nat.ltb_lt, Nat.eqb_eq in V1, V2.
    apply bind_ok in H as (x & Hx & _). apply guard_ok in Hx. tauto.
  - intros (A & B & C & (D1 & D2) & (D3 & D4) & D5). rewrite D1, D2, D3, D4, A.
    rewrite (proj2 (Nat.ltb_lt _ _) B), (proj2 (Nat.ltb_lt _ _) C). cbn [Nat.eqb andb].
    rewrite (proj2 D D5). cbn [guard bind]. eauto.
Qed.

(** ** Closed form of the update *)
Lemma rd_conv_id s u v : rd_id s -> twf u -> conv_apply (rd_idl s) u = Ok v -> v = u.
Proof. intros Hi Hu Hv. exact (id_conv_identity 2 Circular (rd_idl s) u v ltac:(lia) Hi Hu Hv). Qed.

Lemma rd_update_parts s u d : rd_inv s -> rd_id s -> twf u ->
  ca_update (rd_idl s) (rd_nbl s) (rd_update s) u = Ok d ->
  exists nb, conv_apply (rd_nbl s) u = Ok nb /\ rd_dx s ^ 2 <> 0 /\ tC u = 2%nat /\ shape d = shape u /\ (0 < tH u)%nat /\ (0 < tW u)%nat /\
  forall b i j, (b < tB u)%nat -> (i < tH u)%nat -> (j < tW u)%nat ->
    get d b 0 i j = rd_du s * (get nb b 0 i j / rd_dx s ^ 2) + react_u (rd_f s) (get u b 0 i j) (get u b 1 i j) /\
    get d b 1 i j = rd_dv s * (get nb b 1 i j / rd_dx s ^ 2) + react_v (rd_f s) (rd_k s) (get u b 0 i j) (get u b 1 i j).
Proof.
  intros Hi Hid Hu H. destruct (rd_inv_layers s Hi) as (L1 & L2 & _).
  unfold ca_update in H. apply bind_ok in H as (idn & E1 & H). apply bind_ok in H as (nb & E2 & H).
  pose proof (rd_conv_id s u idn Hid Hu E1). subst idn. exists nb. split; [exact E2|].
  rewrite (layer_apply_eq 2 2 _ u L1) in E1. destruct (layer_ready 2 (rd_idl s) u) eqn:R1; [|discriminate].
  apply layer_ready_inv in R1 as (Ec & H0 & W0 & _).
  unfold rd_update in H. apply bind_ok in H as (x & Hx & H). apply guard_ok in Hx. apply nonzero_iff in Hx.
  apply bind_ok in H as (y & _ & H). apply Ok_inj in H. subst d.
  split; [exact Hx|]. split; [exact Ec|]. split; [unfold shape; cbn [tB tC tH tW build]; reflexivity|].
  split; [exact H0|]. split; [exact W0|].
  intros b i j Hb Hi' Hj. rewrite !get_build by lia. unfold react_u, react_v. split; ring.
Qed.

(** Diffusion terms sum to zero. *)
Lemma rd_nbl_zero s u nb b c : rd_inv s -> rd_log s -> twf u -> tC u = 2%nat -> (0 < tH u)%nat -> (0 < tW u)%nat ->
  conv_apply (rd_nbl s) u = Ok nb -> (b < tB u)%nat -> (c < 2)%nat ->
  rsum (tH u) (fun i => rsum (tW u) (fun j => get nb b c i j)) = 0.
Proof.
  intros [_ (d & k & r & E1 & E2 & S & W & _ & El) _] (d' & E1' & Hl) Hu Hc H0 W0 Hv Hb Hcc.
  assert (d' = d) by congruence. subst d'.
  rewrite (conv_total 2 k (rd_nbl s) r u nb b c ltac:(lia) S W El Hc H0 W0 Hv Hb Hcc).
  rewrite (proj1 (log_kernel_sum d k Hl E2)). ring.
Qed.

Lemma rd_totals s u d b : rd_inv s -> rd_id s -> rd_log s -> twf u ->
  ca_update (rd_idl s) (rd_nbl s) (rd_update s) u = Ok d -> (b < tB u)%nat ->
  plane_total d b 0 = rsum (tH u) (fun i => rsum (tW u) (fun j => react_u (rd_f s) (get u b 0 i j) (get u b 1 i j))) /\
  plane_total d b 1 = rsum (tH u) (fun i => rsum (tW u) (fun j => react_v (rd_f s) (rd_k s) (get u b 0 i j) (get u b 1 i j))).
Proof.
  intros Hi Hid Hl Hu H Hb. destruct (rd_update_parts s u d Hi Hid Hu H) as (nb & E & Hx & Hc & Sd & H0 & W0 & Hg).
  apply shape_inv in Sd as (_ & _ & S3 & S4). unfold plane_total. rewrite S3, S4.
  assert (G : forall c a (re : nat -> nat -> R) (g : nat -> nat -> R), (c < 2)%nat ->
    (forall i j, (i < tH u)%nat -> (j < tW u)%nat -> g i j = a * (get nb b c i j / rd_dx s ^ 2) + re i j) ->
    rsum (tH u) (fun i => rsum (tW u) (fun j => g i j)) = rsum (tH u) (fun i => rsum (tW u) (fun j => re i j))).
  { intros c a re g Hcc Hre.
    rewrite (rsum_ext (tH u) _ (fun i => (a / rd_dx s ^ 2) * rsum (tW u) (fun j => get nb b c i j) + rsum (tW u) (fun j => re i j))).
    - rewrite rsum_plus, rsum_scal, (rd_nbl_zero s u nb b c) by auto. ring.
    - intros i Hi'. rewrite (rsum_ext (tW u) _ (fun j => (a / rd_dx s ^ 2) * get nb b c i j + re i j)).
      + rewrite rsum_plus, rsum_scal. reflexivity.
      + intros j Hj. rewrite Hre by auto. field. intros E0. apply Hx. rewrite E0. ring. }
  split; [apply (G 0%nat (rd_du s)); [lia|intros; apply Hg; auto]|apply (G 1%nat (rd_dv s)); [lia|intros; apply Hg; auto]].
Qed.

(** The Laplacian term is the toroidal weighted sum with the configured kernel. *)
Lemma rd_terms s u d cfg k r b i j : rd_inv s -> rd_id s -> twf u ->
  rd_cfg s = Some cfg -> get_kernel cfg = Ok k -> tH k = (2 * r + 1)%nat ->
  ca_update (rd_idl s) (rd_nbl s) (rd_update s) u = Ok d -> (b < tB u)%nat -> (i < tH u)%nat -> (j < tW u)%nat ->
  get d b 0 i j = rd_du s * (toroidal_sum r (tH u) (tW u) (fun y x => get k 0 0 y x) (get u b 0) i j / rd_dx s ^ 2)
                  + react_u (rd_f s) (get u b 0 i j) (get u b 1 i j) /\
  get d b 1 i j = rd_dv s * (toroidal_sum r (tH u) (tW u) (fun y x => get k 0 0 y x) (get u b 1) i j / rd_dx s ^ 2)
                  + react_v (rd_f s) (rd_k s) (get u b 0 i j) (get u b 1 i j).
Proof.
  intros Hi Hid Hu Hcfg Hk Hr H Hb Hi' Hj.
  destruct (rd_update_parts s u d Hi Hid Hu H) as (nb & E & Hx & Hc & Sd & H0 & W0 & Hg).
  destruct Hi as [_ (d' & k' & r' & E1 & E2 & S & W & _ & El) _].
  assert (d' = cfg) by congruence. subst d'. assert (k' = k) by congruence. subst k'.
  apply shape_inv in S as (K1 & K2 & K3 & K4). assert (r' = r) by lia. subst r'.
  destruct (init_layer_wf 2 2 Circular k _ r ltac:(lia) ltac:(lia) K3 K4 El) as (Wl & Hp & Hm).
  assert (Hrr : (r <= tH u)%nat /\ (r <= tW u)%nat).
  { rewrite (layer_apply_eq 2 2 _ u Wl) in E. destruct (layer_ready 2 (rd_nbl s) u) eqn:Er; [|discriminate].
    apply layer_ready_inv in Er as (_ & _ & _ & P1 & P2). rewrite Hm, Hp in P1, P2.
    split; eapply circ_allowed; eauto. }
  destruct (nbhd_conv_spec 2 2 k _ r u ltac:(lia) ltac:(lia) K3 K4 El Hc (proj1 Hrr) (proj2 Hrr) H0 W0) as (v' & Ev & _ & Hv).
  assert (v' = nb) by congruence. subst v'.
  assert (T : forall o, (o < 2)%nat -> get nb b o i j = toroidal_sum r (tH u) (tW u) (fun y x => get k 0 0 y x) (get u b o) i j).
  { intros o Ho. rewrite Hv by auto. change (Nat.eqb (2 mod 2) 0) with true. cbv iota. change (2 / 2)%nat with 1%nat.
    rewrite Nat.div_1_r. unfold toroidal_sum. apply rsum_ext. intros y Hy. apply rsum_ext. intros x Hx'. f_equal.
    unfold bget, bidx. rewrite K1, K2. cbn [Nat.eqb].
    destruct (Nat.eqb_spec (tH k) 1), (Nat.eqb_spec (tW k) 1); try reflexivity; f_equal; lia. }
  destruct (Hg b i j Hb Hi' Hj) as [G1 G2]. rewrite <- !T by lia. auto.
Qed.

(** ** The initial grid *)
Lemma eq_alg f k A q sf : 0 < f -> 0 <= k -> 0 < sf -> sf * sf = f -> A = sf / (f + k) -> 0 <= q -> q * q = A ^ 2 - 4 -> 2 <= A ->
  let u := (A - q) / (2 * A) in let v := sf * (A + q) / 2 in
  react_u f u v = 0 /\ react_v f k u v = 0 /\ 0 <= u <= 1 /\ 0 < v <= 1.
Proof.
  intros Hf Hk Hs Es EA Hq Eq HA u v.
  assert (Hfk : 0 < f + k) by lra.
  assert (EA' : A * (f + k) = sf) by (rewrite EA; field; lra).
  assert (Hle : q <= A). { apply Rnot_lt_le. intros Hlt. assert (A * A < q * q) by nra. lra. }
  assert (Euv : u * v ^ 2 = f * (A + q) / (2 * A)).
  { unfold u, v. replace ((A - q) / (2 * A) * (sf * (A + q) / 2) ^ 2) with
      ((sf * sf) * (A ^ 2 - q * q) * (A + q) / (8 * A)) by (field; lra). rewrite Es, Eq. field. lra. }
  split; [|split; [|split]].
  - unfold react_u. rewrite Euv. unfold u. field. lra.
  - unfold react_v. rewrite Euv. unfold v.
    replace ((f + k) * (sf * (A + q) / 2)) with ((A * (f + k)) * sf * (A + q) / (2 * A)) by (field; lra).
    rewrite EA', Es. ring.
  - unfold u. split.
    + apply Rmult_le_pos; [lra|]. left. apply Rinv_0_lt_compat. lra.
    + apply Rmult_le_reg_r with (2 * A); [lra|]. replace ((A - q) / (2 * A) * (2 * A)) with (A - q) by (field; lra). lra.
  - unfold v. split; [nra|]. apply Rle_trans with (sf * A); [nra|].
    assert (sf * A * (f + k) = f) by (rewrite Rmult_assoc, EA'; exact Es).
    apply Rmult_le_reg_r with (f + k); [lra|]. lra.
Qed.

Lemma fsqrt_ok x : 0 <= x -> fsqrt x = Ok (sqrt x).
Proof. intros. unfold fsqrt. destruct (Rle_dec 0 x); [reflexivity|contradiction]. Qed.
Lemma fsqrt_err x : x < 0 -> fsqrt x = Err NonFinite.
Proof. intros. unfold fsqrt. destruct (Rle_dec 0 x); [lra|reflexivity]. Qed.
Lemma fdiv_ok x y : y <> 0 -> fdiv x y = Ok (x / y).
Proof. intros H. unfold fdiv. apply nonzero_iff in H. rewrite H. reflexivity. Qed.
Lemma fdiv_0 x : fdiv x 0 = Err NonFinite.
Proof. unfold fdiv, nonzero. destruct (Req_EM_T 0 0); [reflexivity|contradiction]. Qed.

Lemma rd_grid_ok s B H W : 0 < rd_f s -> 0 <= rd_k s -> 2 * (rd_f s + rd_k s) <= sqrt (rd_f s) ->
  exists u0 v0, rd_grid s B H W = Ok (build B 2 H W (fun _ c _ _ => match c with 0%nat => u0 | _ => v0 end)) /\
    react_u (rd_f s) u0 v0 = 0 /\ react_v (rd_f s) (rd_k s) u0 v0 = 0 /\ 0 <= u0 <= 1 /\ 0 < v0 <= 1.
Proof.
  intros Hf Hk Hr. set (sf := sqrt (rd_f s)) in *. set (A := sf / (rd_f s + rd_k s)).
  assert (Hfk : 0 < rd_f s + rd_k s) by lra.
  assert (HA : 2 <= A).
  { unfold A. apply Rmult_le_reg_r with (rd_f s + rd_k s); [lra|].
    replace (sf / (rd_f s + rd_k s) * (rd_f s + rd_k s)) with sf by (field; lra). lra. }
  unfold rd_grid. rewrite fsqrt_ok by lra. cbn [bind]. fold sf. rewrite fdiv_ok by lra. cbn [bind]. fold A.
  assert (HA2 : 0 <= A ^ 2 - 4) by nra.
  rewrite fsqrt_ok by auto. cbn [bind]. rewrite fdiv_ok by lra. cbn [bind].
  eexists _, _. split; [reflexivity|]. apply eq_alg; auto; try lra.
  - unfold sf. apply sqrt_sqrt; lra.
  - apply sqrt_pos.
  - apply sqrt_sqrt; auto.
Qed.

Lemma rd_grid_outside s B H W : 0 <= rd_k s -> ~ (0 < rd_f s /\ 2 * (rd_f s + rd_k s) <= sqrt (rd_f s)) ->
  rd_grid s B H W = Err NonFinite.
Proof.
  intros Hk Hn. unfold rd_grid. destruct (Rlt_le_dec (rd_f s) 0) as [Hf|Hf]; [rewrite fsqrt_err by auto; reflexivity|].
  rewrite fsqrt_ok by auto. cbn [bind]. destruct (Req_dec (rd_f s + rd_k s) 0) as [E|E].
  { rewrite E, fdiv_0. reflexivity. }
  rewrite fdiv_ok by auto. cbn [bind]. set (A := sqrt (rd_f s) / (rd_f s + rd_k s)).
  assert (Hfk : 0 < rd_f s + rd_k s) by lra.
  assert (HA0 : 0 <= A) by (unfold A; apply Rmult_le_pos; [apply sqrt_pos|left; apply Rinv_0_lt_compat; auto]).
  assert (HA : A < 2).
  { unfold A. apply Rmult_lt_reg_r with (rd_f s + rd_k s); [lra|].
    replace (sqrt (rd_f s) / (rd_f s + rd_k s) * (rd_f s + rd_k s)) with (sqrt (rd_f s)) by (field; lra).
    destruct Hf as [Hf|Hf]; [|rewrite <- Hf, sqrt_0; lra]. apply Rnot_le_lt. intros Hc. apply Hn. split; [auto|lra]. }
  rewrite fsqrt_err by nra. reflexivity.
Qed.

Lemma const_grid_unit B H W u0 v0 : 0 <= u0 <= 1 -> 0 <= v0 <= 1 ->
  in_unit (build B 2 H W (fun _ c _ _ => match c with 0%nat => u0 | _ => v0 end)).
Proof.
  intros Hu Hv. unfold in_unit. apply Forall_forall. intros x Hx. cbn [tdata build] in Hx.
  apply in_map_iff in Hx as (n & <- & _). destruct ((n / W / H) mod 2)%nat; auto.
Qed.

Lemma rd_fixed s B H W u0 v0 : rd_inv s -> rd_id s -> rd_log s ->
  react_u (rd_f s) u0 v0 = 0 -> react_v (rd_f s) (rd_k s) u0 v0 = 0 -> 0 <= u0 <= 1 -> 0 <= v0 <= 1 ->
  rd_dx s <> 0 -> (cl_p (rd_nbl s) <= H)%nat -> (cl_p (rd_nbl s) <= W)%nat -> (0 < H)%nat -> (0 < W)%nat ->
  let g := build B 2 H W (fun _ c _ _ => match c with 0%nat => u0 | _ => v0 end) in
  rd_forward s g = Ok g.
Proof.
  intros Hi Hid Hl Ru Rv Hu Hv Hdx PH PW H0 W0 g.
  assert (Hg : twf g) by apply twf_build.
  assert (Gg : forall b c i j, (b < B)%nat -> (c < 2)%nat -> (i < H)%nat -> (j < W)%nat -> get g b c i j = match c with 0%nat => u0 | _ => v0 end).
  { intros. unfold g. rewrite get_build by auto. reflexivity. }
  pose proof (rd_inv_layers s Hi) as (L1 & L2 & M1 & M2).
  destruct (init_layer_wf 2 2 Circular default_id_kernel _ 1 ltac:(lia) ltac:(lia) eq_refl eq_refl Hid) as (_ & P1 & _).
  assert (Ha : exists d, ca_update (rd_idl s) (rd_nbl s) (rd_update s) g = Ok d).
  { unfold ca_update. rewrite (layer_apply_eq 2 2 _ g L1), (layer_apply_eq 2 2 _ g L2).
    assert (R1 : layer_ready 2 (rd_idl s) g = true).
    { unfold layer_ready. rewrite M1, P1. cbn [tC tH tW g build Nat.eqb pad_allowed].
      rewrite !andb_true_iff, !Nat.leb_le, !Nat.ltb_lt. lia. }
    assert (R2 : layer_ready 2 (rd_nbl s) g = true).
    { unfold layer_ready. rewrite M2. cbn [tC tH tW g build Nat.eqb pad_allowed].
      rewrite !andb_true_iff, !Nat.leb_le, !Nat.ltb_lt. lia. }
    rewrite R1, R2. cbn [bind]. unfold rd_update.
    assert (D : nonzero (rd_dx s ^ 2) = true) by (apply nonzero_iff; apply pow_nonzero; auto).
    rewrite D. cbn [guard bind tC build Nat.leb andb]. eauto. }
  destruct Ha as [d Hd]. unfold rd_forward, ca_forward. cbn [bind]. rewrite Hd. cbn [bind].
  destruct (rd_update_parts s g d Hi Hid Hg Hd) as (nb & E & Hx & _ & Sd & _ & _ & Gd).
  assert (Zd : forall b c i j, (b < B)%nat -> (c < 2)%nat -> (i < H)%nat -> (j < W)%nat -> get d b c i j = 0).
  { destruct Hi as [_ (cfg & k & r & E1 & E2 & S & W' & _ & El) _]. destruct Hl as (d' & E1' & Hl).
    assert (d' = cfg) by congruence. subst d'.
    assert (Z : forall b c i j, (b < B)%nat -> (c < 2)%nat -> (i < H)%nat -> (j < W)%nat -> get nb b c i j = 0).
    { intros b c i j Hb Hc Hi' Hj.
      rewrite (conv_const 2 k (rd_nbl s) Circular r g nb (match c with 0%nat => u0 | _ => v0 end) b c i j); auto; try lia; try discriminate.
      rewrite (proj1 (log_kernel_sum cfg k Hl E2)). ring. }
    intros b c i j Hb Hc Hi' Hj. destruct (Gd b i j Hb Hi' Hj) as [G1 G2].
    rewrite !Gg in G1, G2 by (auto; lia).
    destruct c as [|[|c]]; [rewrite G1, Ru|rewrite G2, Rv|lia]; rewrite Z by (auto; lia); field; exact Hdx. }
  apply shape_inv in Sd as (S1 & S2 & S3 & S4).
  assert (Ed : twf d).
  { unfold ca_update in Hd. apply bind_ok in Hd as (x & _ & Hd). apply bind_ok in Hd as (y & _ & Hd).
    unfold rd_update in Hd. apply bind_ok in Hd as (? & _ & Hd). apply bind_ok in Hd as (? & _ & Hd). apply Ok_inj in Hd. subst d. apply twf_build. }
  unfold euler. rewrite (tmap_eq_build _ d Ed). rewrite tzip_same by (unfold shape; cbn [tB tC tH tW build]; congruence).
  cbn [bind]. rewrite tmap_build. f_equal. unfold g at 6. rewrite S1, S2, S3, S4. cbn [tB tC tH tW g build].
  unfold g. apply build_ext. intros b c i j Hb Hc Hi' Hj. fold g. rewrite get_build by auto. rewrite Gg, Zd by auto.
  rewrite Rmult_0_r, Rplus_0_r. apply clamp_id. destruct c; auto.
Qed.

Lemma rd_equilibrium s B H W n : rd_inv s -> rd_id s -> rd_log s ->
  0 < rd_f s -> 0 <= rd_k s -> 2 * (rd_f s + rd_k s) <= sqrt (rd_f s) ->
  exists g, rd_grid s B H W = Ok g /\ shape g = (B, 2, H, W)%nat /\ in_unit g /\
   (rd_dx s <> 0 -> (cl_p (rd_nbl s) <= H)%nat -> (cl_p (rd_nbl s) <= W)%nat -> (0 < H)%nat -> (0 < W)%nat ->
    iter_res (rd_forward s) n g = Ok g).
Proof.
  intros Hi Hid Hl Hf Hk Hr. destruct (rd_grid_ok s B H W Hf Hk Hr) as (u0 & v0 & E & Ru & Rv & Hu & Hv).
  eexists. split; [exact E|]. split; [reflexivity|]. split; [apply const_grid_unit; lra|].
  intros. induction n; cbn [iter_res]; [reflexivity|].
  rewrite (rd_fixed s B H W u0 v0) by (auto; lra). cbn [bind]. exact IHn.
Qed.

(** ** Parameters and configs *)
Lemma rd_params_round s p s' : rd_set_params s p = Ok s' -> rd_get_params s' = firstn 4 p.
Proof.
  intros H. apply set_params_facts in H as [-> Hl]. destruct p as [|a [|b [|c [|d p]]]]; cbn [List.length] in Hl; try lia. reflexivity.
Qed.

Lemma rd_params_self s : rd_set_params s (rd_get_params s) = Ok s.
Proof. destruct s. reflexivity. Qed.

Lemma rd_params_short s p : (List.length p < 4)%nat -> rd_set_params s p = Err IndexError.
Proof. destruct p as [|a [|b [|c [|d p]]]]; cbn [List.length]; intros; try lia; reflexivity. Qed.

Lemma rd_config_round s s0 : rd_inv s -> rd_id s -> rd_idcfg s0 = None ->
  exists s', rd_load s0 (rd_make_config s) = Ok s' /\ rd_get_params s' = rd_get_params s /\
    rd_dt s' = rd_dt s /\ rd_dx s' = rd_dx s /\ (forall u, rd_forward s' u = rd_forward s u) /\
    rd_make_config s' = rd_make_config s /\ rd_radius s' = rd_radius s0.
Proof.
  intros [_ (d & k & r & E1 & E2 & S & W & _ & El) Ei] Hid H0.
  unfold rd_load, rd_make_config. rewrite E1, Ei. unfold dgetk. cbn [dget String.eqb Ascii.eqb Bool.eqb].
  unfold as_kernel at 1. cbn [default_id_kernel tW tH Nat.eqb guard bind]. fold default_id_kernel.
  unfold rd_id in Hid. rewrite Hid. cbn [bind as_dict]. rewrite E2. cbn [bind].
  rewrite (rd_layer_single k r S W), El. cbn [bind].
  unfold rd_read. cbn [dget String.eqb Ascii.eqb Bool.eqb as_num bind as_vec rd_get_params rd_set_params rd_with].
  eexists. split; [reflexivity|]. cbn [rd_get_params rd_idl rd_nbl rd_idcfg rd_cfg rd_radius rd_du rd_dv rd_f rd_k rd_dt rd_dx].
  rewrite H0. repeat split.
Qed.

(** ** Further facts for the theorems *)
Lemma rd_plain_id (P : rd_op -> Prop) s : (forall o, P o -> log_op o /\ id_op o) -> rd_reachable P s -> rd_inv s /\ rd_id s /\ rd_log s.
Proof.
  intros HP H. split; [eapply rd_reach_inv; eauto|]. split.
  - eapply (rd_reach_id P); eauto. intros o Ho. apply HP; auto.
  - eapply (rd_reach_log P); eauto. intros o Ho. apply HP; auto.
Qed.

Lemma rd_default_region s : rd_init = Ok s -> 0 < rd_f s /\ 0 <= rd_k s /\ 2 * (rd_f s + rd_k s) <= sqrt (rd_f s) /\ rd_dx s <> 0.
Proof.
  intros H. apply rd_init_facts in H as (_ & _ & _ & _ & Hp & _ & Hx). unfold rd_get_params in Hp. injection Hp as _ _ Hf Hk.
  rewrite Hf, Hk, Hx. split; [lra|]. split; [lra|]. split; [|lra].
  rewrite <- (sqrt_Rsqr (2 * (620 / 10000 + 609 / 10000))) by lra. apply sqrt_le_1_alt. unfold Rsqr. lra.
Qed.

Lemma rd_radius_lost : exists s0 s s', rd_init = Ok s0 /\ rd_set_radius s0 (VInt 3) = Ok s /\ rd_load s0 (rd_make_config s) = Ok s' /\
  rd_radius s = VInt 3 /\ rd_radius s' = VInt 1 /\ cl_p (rd_nbl s') = 3%nat.
Proof.
  destruct rd_init_ok as [s0 H0]. pose proof (rd_init_facts s0 H0) as (Hi & Hc & Hid & Hr & _).
  set (d := dset "radius" (VInt 3) rd_default_cfg).
  assert (Ek : exists k, get_kernel d = Ok k).
  { eapply (log_kernel_exists d _ (1 / 2) 3); try reflexivity; try lra; lia. }
  destruct Ek as [k Ek]. destruct (kernel_layer d k Ek) as (r & Sk & Wk & Rk & [l El] & Er & _).
  assert (Es : exists s, rd_set_radius s0 (VInt 3) = Ok s /\ rd_radius s = VInt 3 /\ rd_cfg s = Some d /\ rd_nbl s = l).
  { unfold rd_set_radius. rewrite Hc. fold d. rewrite Ek. cbn [bind]. rewrite Er, El. cbn [bind]. eexists. split; [reflexivity|]. auto. }
  destruct Es as (s & Es & Rs & Cs & Ls).
  assert (Hi' : rd_inv s) by (eapply (rd_run_inv (RSetRadius (VInt 3))); eauto).
  assert (Hid' : rd_id s) by (eapply (rd_run_id (RSetRadius (VInt 3))); eauto; exact I).
  destruct (rd_config_round s s0 Hi' Hid' (ri_idcfg _ Hi)) as (s' & E' & _ & _ & _ & _ & _ & R').
  exists s0, s, s'. split; [exact H0|]. split; [exact Es|]. split; [exact E'|]. split; [exact Rs|]. split; [congruence|].
  apply load_facts in E' as (kid & qi & d' & k' & q & _ & _ & _ & _ & _ & G & Ek' & Sk' & _ & _ & El' & _).
  unfold rd_make_config in G. rewrite Cs in G. cbn [dget String.eqb Ascii.eqb Bool.eqb] in G.
  assert (d' = d) by congruence. subst d'. assert (k' = k) by congruence. subst k'.
  apply shape_inv in Sk' as (_ & _ & K3 & K4).
  destruct (init_layer_wf 2 2 Circular k (rd_nbl s') q ltac:(lia) ltac:(lia) K3 K4 El') as (_ & Pl & _).
  destruct (get_kernel_radial d k Ek) as (r3 & S3 & _ & _ & [[Hn _]|[_ Hr3]]); [discriminate|].
  apply shape_inv in S3 as (_ & _ & K3' & _).
  assert (VInt 3 = VInt (Z.of_nat r3)) by (cbn in Hr3; congruence). injection H as H. lia.
Qed.

Lemma rd_load_defaults s c s' : rd_load s c = Ok s' ->
  (dget "dt" c = None -> rd_dt s' = 1 / 2) /\ (dget "dx" c = None -> rd_dx s' = 1 / 330) /\
  (forall x, dget "dt" c = Some (VNum x) -> rd_dt s' = x) /\ (forall x, dget "dx" c = Some (VNum x) -> rd_dx s' = x) /\
  (forall p, dget "params" c = Some (VVec p) -> rd_get_params s' = firstn 4 p).
Proof.
  unfold rd_load. intros H.
  apply bind_ok in H as (ik & _ & H). apply bind_ok in H as (il & _ & H). apply bind_ok in H as (v & _ & H). apply bind_ok in H as (d & _ & H).
  apply bind_ok in H as (k & _ & H). apply bind_ok in H as (nl & _ & H). apply bind_ok in H as (t & Et & H). apply bind_ok in H as (x & Ex & H).
  apply bind_ok in H as (dk & _ & H). apply bind_ok in H as (fr & _ & H). apply bind_ok in H as (du & _ & H). apply bind_ok in H as (dv & _ & H).
  apply bind_ok in H as (pv & Epv & H). apply bind_ok in H as (p & Ep & H).
  pose proof (rd_params_round _ _ _ H) as G. apply set_params_facts in H as [-> _]. cbn [rd_dt rd_dx].
  unfold rd_read in Et, Ex.
  assert (Q : forall q, dget "params" c = Some (VVec q) -> q = p).
  { intros q Hq. unfold dgetk in Epv. rewrite Hq in Epv. apply Ok_inj in Epv. subst pv. cbn in Ep. apply Ok_inj in Ep. auto. }
  split; [intros E; rewrite E in Et; apply Ok_inj in Et; auto|].
  split; [intros E; rewrite E in Ex; apply Ok_inj in Ex; auto|].
  split; [intros y E; rewrite E in Et; apply Ok_inj in Et; auto|].
  split; [intros y E; rewrite E in Ex; apply Ok_inj in Ex; auto|].
  intros q Hq. rewrite (Q q Hq). exact G.
Qed.

Lemma iter_in_unit f n : (forall u u', f u = Ok u' -> in_unit u') -> forall u u', iter_res f (S n) u = Ok u' -> in_unit u'.
Proof.
  intros Hf. induction n as [|n IH]; intros u u' H.
  - cbn [iter_res] in H. apply bind_ok in H as (w & E & H). apply Ok_inj in H. subst. eauto.
  - change (iter_res f (S (S n)) u) with (let* w := f u in iter_res f (S n) w) in H. apply bind_ok in H as (w & _ & H). eauto.
Qed.

Lemma rd_radius_none s r : rd_cfg s = None -> rd_set_radius s r = Err TypeError.
Proof. intros H. unfold rd_set_radius. rewrite H. reflexivity. Qed.

Lemma rd_set_params_total s p : rd_set_params s p = (if Nat.ltb (List.length p) 4 then Err IndexError
    else Ok (mkRd (rd_idl s) (rd_nbl s) (rd_idcfg s) (rd_cfg s) (rd_radius s) (nth 0 p 0) (nth 1 p 0) (nth 2 p 0) (nth 3 p 0) (rd_dt s) (rd_dx s))).
Proof. destruct p as [|a [|b [|c [|d p]]]]; reflexivity. Qed.
