(** C91: constructors of the wrappers. *)
From Coq Require Import Reals ZArith List String Bool Arith Lia Lra.
From Verif Require Import Base PyDict Tensor MActivations MKernels MCommon MCca MConfig MWrap MWrapNew SKern SCca SConfig SWrapNew.
From Verif Require Import PTensor PKern PConfig PConfigX PConfigY PConfigZ PConfigW PConfigV PWrapNew.
Import ListNotations.
Open Scope R_scope.
Open Scope string_scope.

(** With a configuration file, both wrappers have exactly the rule of that file, whether or not a
    log was given too; the second load cannot fail. *)
Theorem C91_config fuel ev rng rng' kw h pc r : config_given ev kw pc -> good_rng rng' -> init fuel ev rng kw h = Ok r ->
  exists o h', halting_new fuel ev rng rng' kw h = Ok (o, h', params_size o) /\ rule_of_config kw pc (o_core o) /\
    (forall g, glider_new fuel ev rng rng' kw h = Ok g -> gn_ca g = o).
Proof.
  intros [(F & C & Fd) Pl] G Hi. destruct (again_ok fuel ev rng rng' kw h F pc r C Fd Pl G Hi) as [[o h'] Ha].
  exists o, h'. split; [unfold halting_new; rewrite Hi; cbn [bind]; rewrite Ha; reflexivity|]. split.
  - assert (Y : forall f ev0 rng0 dr o0 h0 o1 h1, fresh dr kw = Ok o0 -> load_value f ev0 rng0 o0 pc h0 = Ok (o1, h1) -> o_core o = o_core o1).
    { intros f' ev' rng2 dr o0 h0 o1 h1 Hf Hl. exact (again_config _ _ _ _ _ _ _ _ _ _ _ C Fd Pl Hi Ha _ _ _ _ _ _ _ _ Hf Hl). }
    split; [|exact Y]. destruct r as [or hr]. destruct (init_config _ _ _ _ _ _ _ _ _ C Fd Hi) as (f & oa & ob & _ & Fa & La & _).
    do 8 eexists. split; [exact Fa|]. split; [exact La|]. exact (Y _ _ _ _ _ _ _ _ Fa La).
  - intros g Hg. unfold glider_new in Hg. rewrite Hi in Hg. cbn [bind] in Hg. rewrite C in Hg. rewrite Ha in Hg.
    apply bind_ok in Hg as (b & _ & Hg). apply bind_ok in Hg as (d & _ & Hg). cbn [bind fst snd] in Hg. apply bind_ok in Hg as (ra & _ & Hg).
    apply bind_ok in Hg as (y & _ & Hg). apply bind_ok in Hg as (x & _ & Hg). apply Ok_inj in Hg. subst g. reflexivity.
Qed.

Example C91_config_example : config_given both_env both_kw both_pc /\ good_rng wit_rng /\ exists r, init 1 both_env wit_rng both_kw [] = Ok r.
Proof.
  split; [|split; [exact wit_good|destruct both_differ as (o & h & oh & h2 & n & g & H & _); eauto]].
  split; [exists "c"; split; reflexivity|exact I].
Qed.

(** A CCA built with the same arguments has the parameters of the log; the wrappers do not: some
    grid is stepped differently. *)
Theorem C91_same_refuted : exists ev kw rng o h v oh hh n g, log_given ev kw v /\ init 1 ev rng kw [] = Ok (o, h) /\ get_params o = Some v /\
  halting_new 1 ev rng rng kw [] = Ok (oh, hh, n) /\ glider_new 1 ev rng rng kw [] = Ok g /\ differ (o_core o) (o_core oh) /\ differ (o_core o) (o_core (gn_ca g)).
Proof.
  destruct both_differ as (o & h & oh & h2 & n & g & H1 & H2 & H3 & H4 & H5 & H6).
  exists both_env, both_kw, wit_rng, o, h, both_vec, oh, h2, n, g. split; [exists "l", [], [both_vec], []; repeat split|]. repeat (split; [assumption|]). assumption.
Qed.

(** Without a configuration file, or with one that does not exist, the wrappers have the
    automaton the constructor of CCA gives. *)
Theorem C91_none fuel ev rng rng' kw h r :
  (query_kwargs "ca_config" VNone kw = VNone \/ exists F, query_kwargs "ca_config" VNone kw = VStr F /\ found ev (strip_newlines F) = None) ->
  init fuel ev rng kw h = Ok r -> halting_new fuel ev rng rng' kw h = Ok (r, params_size (fst r)) /\
    (forall g, glider_new fuel ev rng rng' kw h = Ok g -> gn_ca g = fst r).
Proof.
  intros C Hi. assert (Ha : load_again fuel ev rng' kw r = Ok r).
  { destruct C as [C|(F & C & Fd)]; [unfold load_again; rewrite C; reflexivity|exact (again_missing _ _ _ _ _ _ C Fd)]. }
  split; [unfold halting_new; rewrite Hi; cbn [bind]; rewrite Ha; reflexivity|]. intros g Hg. unfold glider_new in Hg. rewrite Hi in Hg. cbn [bind] in Hg.
  assert (Hb : match query_kwargs "ca_config" VNone kw with VNone => log_again ev kw r | _ => load_again fuel ev rng' kw r end = Ok r).
  { destruct C as [C|(F & C & Fd)]; rewrite C; [exact (log_again_same _ _ _ _ _ _ C Hi)|exact Ha]. }
  rewrite Hb in Hg. apply bind_ok in Hg as (b & _ & Hg). apply bind_ok in Hg as (d & _ & Hg). cbn [bind fst snd] in Hg. apply bind_ok in Hg as (ra & _ & Hg).
  apply bind_ok in Hg as (y & _ & Hg). apply bind_ok in Hg as (x & _ & Hg). apply Ok_inj in Hg. subst g. reflexivity.
Qed.

(** With a log only, the parameters are those of the best agent of its last generation. *)
Theorem C91_log fuel ev rng rng' kw h r v : query_kwargs "ca_config" VNone kw = VNone -> log_given ev kw v -> init fuel ev rng kw h = Ok r ->
  exists n, get_params (fst r) = Some (firstn n v) /\ params_size (fst r) = List.length (firstn n v) /\ (forall g, glider_new fuel ev rng rng' kw h = Ok g -> get_params (gn_ca g) = Some (firstn n v)).
Proof.
  intros C (F & l & gen & rest & Q & Fs & E) Hi. pose proof (C91_none fuel ev rng rng' kw h r (or_introl C) Hi) as [_ Hg].
  destruct fuel as [|f]; [discriminate|]. rewrite init_S, C, Q, Fs in Hi. apply bind_ok in Hi as (o0 & H0 & Hi). cbn [bind fst snd] in Hi.
  apply bind_ok in Hi as (w & Hw & Hi). cbn [elite_params] in Hw. rewrite last_last, E in Hw. apply Ok_inj in Hw. subst w.
  apply bind_ok in Hi as (o1 & H1 & Hi). apply Ok_inj in Hi. subst r. cbn [fst] in *. apply set_get in H1 as (u & _ & G). exists (List.length u).
  split; [exact G|]. split; [unfold params_size; rewrite G; reflexivity|]. intros g X. rewrite (Hg g X). exact G.
Qed.

Definition log_kw : dict := [("kernel_radius", VInt 1); ("kernel_peaks", VInt 1); ("input_filepath", VStr "l")].

(** A log whose best agent has as many parameters as the automaton. *)
Example C91_log_example : exists ev v r, query_kwargs "ca_config" VNone log_kw = VNone /\ log_given ev log_kw v /\ init 1 ev wit_rng log_kw [] = Ok r /\
  (exists g, glider_new 1 ev wit_rng wit_rng log_kw [] = Ok g) /\ get_params (fst r) = Some v /\ List.length v = params_size (fst r).
Proof.
  destruct (fresh_ok wit_dr log_kw Circular 1 1 (1 / 10) 1 1) as [o0 F0]; try reflexivity; try lia.
  { intros [|[|i]]; cbn [dr_k wit_dr]; lra. }
  pose proof (fresh_inv _ _ _ F0) as (I0 & _ & K0 & R0 & _ & _ & _ & E0 & _).
  assert (Pk : o_peaks o0 = 1%nat).
  { destruct I0 as (_ & _ & _ & _ & _ & _ & _ & _ & _ & Ipk). cbv zeta in *. rewrite E0 in *.
    change (as_size (query_kwargs "kernel_peaks" (VInt 3) log_kw)) with (Ok 1%nat : res nat) in Ipk. apply Ok_inj in Ipk. auto. }
  rewrite Pk in K0. change (query_kwargs "kernel_radius" (VInt 13) log_kw) with (VInt 1) in R0.
  set (a := repeat (1 / 2) (params_size o0)).
  destruct (action_accepted o0 1 _ 1 a I0 K0) as (o1 & S1 & G1); try reflexivity; try lia; try exact R0.
  { unfold a. apply repeat_length. }
  { intros x Hx. apply repeat_spec in Hx. lra. }
  exists (mkEnv [("l", FElite [[a]])] "d"), a, (o1, []). split; [reflexivity|]. split; [exists "l", [], [a], []; repeat split|].
  assert (Hi : init 1 (mkEnv [("l", FElite [[a]])] "d") wit_rng log_kw [] = Ok (o1, [])).
  { rewrite init_S. change (wit_rng 0%nat) with wit_dr. rewrite F0. cbn [bind]. change (query_kwargs "ca_config" VNone log_kw) with VNone. cbn iota.
    change (query_kwargs "input_filepath" VNone log_kw) with (VStr "l"). cbn iota. cbn [bind].
    change (fs_get (e_fs (mkEnv [("l", FElite [[a]])] "d")) "l") with (Some (FElite [[a]])). cbn iota. change (elite_params (FElite [[a]])) with (Ok a). cbn [bind fst snd]. rewrite S1. reflexivity. }
  split; [exact Hi|].
  assert (R1 : o_radius o1 = VInt 1).
  { apply set_params_inv in S1 as (? & ? & ? & ? & _ & _ & _ & _ & _ & _ & _ & _ & _ & _ & Kp). destruct Kp as (A1 & A2 & A3 & A4 & A5 & A6 & A7 & A8 & A9 & _). cbv zeta in *. congruence. }
  split; [|split; [exact G1|unfold params_size; cbn [fst]; rewrite G1; reflexivity]].
  eexists. unfold glider_new. rewrite Hi. cbn [bind]. change (as_size (query_kwargs "batch_size" (VInt 8) log_kw)) with (Ok 8%nat : res nat). cbn [bind].
  change (as_size (query_kwargs "dim" (VInt 128) log_kw)) with (Ok 128%nat : res nat). cbn [bind]. change (query_kwargs "ca_config" VNone log_kw) with VNone. cbn iota.
  rewrite (log_again_same 1 _ wit_rng log_kw [] _ eq_refl Hi). cbn [bind fst snd]. rewrite R1. cbn [as_num bind]. unfold y_grid, x_grid.
  destruct (Req_EM_T (IZR 1) 0) as [Q|Q]; [lra|]. cbn [bind]. reflexivity.
Qed.

(** The channels of a GliderWrapper's actions are those of the configuration, not its own
    external_channels. *)
Theorem C91_channels fuel ev rng rng' kw h pc k g : config_given ev kw pc -> p_inst pc = Some k -> good_rng rng' -> glider_new fuel ev rng rng' kw h = Ok g ->
  exists b d n, as_size (query_kwargs "batch_size" (VInt 8) kw) = Ok b /\ as_size (query_kwargs "dim" (VInt 128) kw) = Ok d /\
    as_size (query_kwargs "external_channels" (VInt 1) k) = Ok n /\ gn_shape g = (b, n, d, d) /\ gn_ext g = query_kwargs "external_channels" (VInt 1) kw.
Proof.
  intros [(F & C & Fd) Pl] Ei G Hg. rewrite Ei in Pl. unfold glider_new in Hg. apply bind_ok in Hg as ([o h'] & Hi & Hg).
  apply bind_ok in Hg as (b & Hb & Hg). apply bind_ok in Hg as (d & Hd & Hg). rewrite C in Hg. apply bind_ok in Hg as ([o2 h2] & Ha & Hg).
  apply bind_ok in Hg as (ra & _ & Hg). apply bind_ok in Hg as (y & _ & Hg). apply bind_ok in Hg as (x & _ & Hg). apply Ok_inj in Hg. subst g. cbn [fst snd gn_shape gn_ext].
  unfold load_again in Ha. rewrite C in Ha. rewrite (restore_value _ _ _ _ _ _ _ Fd) in Ha. destruct (load_channels_of _ _ _ _ _ _ _ _ _ Ei Pl Ha) as [X _].
  exists b, d, (ext (o_core o2)). auto.
Qed.

Definition chan_inst : dict := [("kernel_radius", VInt 1); ("kernel_peaks", VInt 1); ("external_channels", VInt 2)].
Definition chan_pc : pcfg := mkPcfg (Some chan_inst) None None (Some moore1) (Some fixed_fn) (Some fixed_fn) false (Some 1).
Definition chan_kw : dict := [("kernel_radius", VInt 1); ("kernel_peaks", VInt 1); ("ca_config", VStr "c")].
Definition chan_env : env := mkEnv [("c", FConfig chan_pc)] "d".

(** A configuration with two external channels given to a wrapper with one: actions have two. *)
Example C91_channels_example : config_given chan_env chan_kw chan_pc /\ exists g, glider_new 2 chan_env wit_rng wit_rng chan_kw [] = Ok g /\
  gn_shape g = (8, 2, 128, 128)%nat /\ gn_ext g = VInt 1.
Proof.
  assert (CG : config_given chan_env chan_kw chan_pc). { split; [exists "c"; split; reflexivity|split; reflexivity]. }
  split; [exact CG|].
  destruct (fresh_ok wit_dr chan_kw Circular 1 1 (1 / 10) 1 1) as [o0 F0]; try reflexivity; try lia.
  { intros [|[|i]]; cbn [dr_k wit_dr]; lra. }
  destruct moore1_kernel as (k & Hk & _).
  assert (LV : forall f rng o h, good_rng rng -> exists o3 h3, load_value (S f) chan_env rng o chan_pc h = Ok (o3, h3)).
  { intros f rng o h G. apply (value_ok f chan_env rng o h chan_pc chan_inst moore1 fixed_fn fixed_fn k KPNone (VInt 1) [far] [far] Circular 2 1 (1 / 10) 1 1); try reflexivity; try lia; auto using fixed_make. split; reflexivity. }
  destruct (LV 0%nat (fun k => wit_rng (S k)) o0 []) as (o1 & h1 & L1). { intros n i. apply wit_good. }
  assert (Hi : init 2 chan_env wit_rng chan_kw [] = Ok (o1, h1)).
  { rewrite init_S. change (wit_rng 0%nat) with wit_dr. rewrite F0. cbn [bind]. change (query_kwargs "ca_config" VNone chan_kw) with (VStr "c"). cbn iota.
    rewrite (restore_value _ _ _ _ _ chan_pc) by reflexivity. rewrite L1. reflexivity. }
  destruct (LV 1%nat wit_rng o1 h1 wit_good) as (o2 & h2 & L2).
  assert (Ha : load_again 2 chan_env wit_rng chan_kw (o1, h1) = Ok (o2, h2)).
  { unfold load_again. change (query_kwargs "ca_config" VNone chan_kw) with (VStr "c"). cbn iota. rewrite (restore_value _ _ _ _ _ chan_pc) by reflexivity. exact L2. }
  assert (R2 : o_radius o2 = VInt 1).
  { unfold load_value in L2. rewrite (unpickle_refs chan_pc h1 moore1 fixed_fn fixed_fn) in L2 by reflexivity. cbn [fst snd] in L2.
    destruct (hget_tail h1 moore1 fixed_fn fixed_fn) as (T1 & _ & _). set (hx := (h1 ++ _)%list) in *. unfold load_config, load_with in L2. cbn [chan_pc p_inst c_inst] in L2.
    rewrite init_plain in L2 by reflexivity. apply bind_ok in L2 as ([oa ha] & Ha' & L2). apply bind_ok in Ha' as (ob & _ & Ha'). apply Ok_inj in Ha'. apply pair_equal_spec in Ha' as [_ <-].
    cbn [fst snd] in L2. apply load_body_inv in L2 as [_ L]. destruct (ld_nb _ _ _ _ L) as (l & k2 & Cn & _ & _ & _ & _ & Hrr). cbn [c_nb] in Cn. injection Cn as <-. rewrite T1 in Hrr.
    change (dget "radius" moore1) with (Some (VInt 1)) in Hrr. injection Hrr as Hrr. congruence. }
  assert (exists g, glider_new 2 chan_env wit_rng wit_rng chan_kw [] = Ok g) as [g Hg].
  { eexists. unfold glider_new. rewrite Hi. cbn [bind]. change (as_size (query_kwargs "batch_size" (VInt 8) chan_kw)) with (Ok 8%nat : res nat). cbn [bind].
    change (as_size (query_kwargs "dim" (VInt 128) chan_kw)) with (Ok 128%nat : res nat). cbn [bind].
    change (query_kwargs "ca_config" VNone chan_kw) with (VStr "c"). cbn iota. rewrite Ha. cbn [bind fst snd]. rewrite R2. cbn [as_num bind]. unfold y_grid, x_grid.
    destruct (Req_EM_T (IZR 1) 0) as [Q|Q]; [lra|]. cbn [bind]. reflexivity. }
  exists g. split; [exact Hg|]. destruct (C91_channels _ _ _ _ _ _ _ _ _ CG eq_refl wit_good Hg) as (b & d & n & Hb & Hd & Hn & S & E).
  change (as_size (query_kwargs "batch_size" (VInt 8) chan_kw)) with (Ok 8%nat : res nat) in Hb. apply Ok_inj in Hb.
  change (as_size (query_kwargs "dim" (VInt 128) chan_kw)) with (Ok 128%nat : res nat) in Hd. apply Ok_inj in Hd.
  change (as_size (query_kwargs "external_channels" (VInt 1) chan_inst)) with (Ok 2%nat : res nat) in Hn. apply Ok_inj in Hn. subst. split; [exact S|exact E].
Qed.

(** Every vector of numbers in [0,1) of the length of the action space is accepted by the
    wrapped automaton, whose parameters it becomes, if the kernel parameters are triples and the
    radius is positive, as in a new automaton. *)
Theorem C91_action o n l r a : obj_inv o -> o_kpar o = KPVec l -> List.length l = (3 * n)%nat -> (0 < n)%nat -> o_radius o = VInt (Z.of_nat r) -> (0 < r)%nat ->
  List.length a = params_size o -> (forall x, In x a -> 0 <= x < 1) -> exists o', set_params o a = Ok o' /\ get_params o' = Some a.
Proof. intros I K L Hn Hr R La Pa. apply (action_accepted o n l r a); auto. intros x Hx. apply Pa in Hx. lra. Qed.

(** Without kernel parameters an action is one longer than the update functions need, and every
    action is refused. *)
Theorem C91_no_kernel o a : o_kpar o = KPNone -> List.length a = params_size o -> params_size o = S (fn_count (o_core o)) /\ set_params o a = Err AttributeError.
Proof.
  intros K L. rewrite params_size_spec, K in *. split; [lia|]. apply set_none; [exact K|lia].
Qed.

Example C91_action_example : exists o l (a : list R), obj_inv o /\ o_kpar o = KPVec l /\ List.length l = 3%nat /\ o_radius o = VInt 1 /\ List.length a = params_size o /\ a <> [] /\ (forall x, In x a -> 0 <= x < 1).
Proof.
  destruct (fresh_ok wit_dr log_kw Circular 1 1 (1 / 10) 1 1) as [o0 F0]; try reflexivity; try lia.
  { intros [|[|i]]; cbn [dr_k wit_dr]; lra. }
  pose proof (fresh_inv _ _ _ F0) as (I0 & _ & K0 & R0 & _ & _ & _ & E0 & _).
  assert (Pk : o_peaks o0 = 1%nat).
  { destruct I0 as (_ & _ & _ & _ & _ & _ & _ & _ & _ & Ipk). cbv zeta in *. rewrite E0 in *.
    change (as_size (query_kwargs "kernel_peaks" (VInt 3) log_kw)) with (Ok 1%nat : res nat) in Ipk. apply Ok_inj in Ipk. auto. }
  rewrite Pk in K0. exists o0. eexists. exists (repeat (1 / 2) (params_size o0)). split; [exact I0|]. split; [exact K0|]. split; [reflexivity|]. split; [exact R0|].
  split; [apply repeat_length|]. split; [rewrite params_size_spec, K0; cbn [kp_flat List.length map seq Nat.mul Nat.add]; rewrite Nat.add_comm; discriminate|]. intros x Hx. apply repeat_spec in Hx. lra.
Qed.

Example C91_no_kernel_example : exists o (a : list R), o_kpar o = KPNone /\ List.length a = params_size o /\ a <> [].
Proof.
  destruct (fresh_ok wit_dr log_kw Circular 1 1 (1 / 10) 1 1) as [o0 F0]; try reflexivity; try lia.
  { intros [|[|i]]; cbn [dr_k wit_dr]; lra. }
  set (o := mkObj (o_core o0) KPNone (o_radius o0) (o_peaks o0) None None None log_kw). exists o, (repeat (1 / 2) (params_size o)). split; [reflexivity|].
  split; [apply repeat_length|]. rewrite params_size_spec. cbn [o o_kpar]. rewrite Nat.add_comm. discriminate.
Qed.

(** The grids kept by a new glider wrapper: columns over the radius and rows over the radius; the size of its
    batches is that asked for, or eight grids of 128 by 128 cells. *)
Theorem C91_glider_grids fuel ev rng rng' kw h g : glider_new fuel ev rng rng' kw h = Ok g ->
  exists b d r, VInt (Z.of_nat b) = query_kwargs "batch_size" (VInt 8) kw /\ VInt (Z.of_nat d) = query_kwargs "dim" (VInt 128) kw /\ as_num (o_radius (gn_ca g)) = Ok r /\ r <> 0 /\
    gn_shape g = (b, ext (o_core (gn_ca g)), d, d) /\ shape (gn_y g) = (1, 1, d, d)%nat /\ shape (gn_x g) = (1, 1, d, d)%nat /\
    forall i j, (i < d)%nat -> (j < d)%nat -> get (gn_y g) 0 0 i j = INR j / r /\ get (gn_x g) 0 0 i j = INR i / r.
Proof.
  assert (Z : forall v n, as_size v = Ok n -> VInt (Z.of_nat n) = v).
  { intros v n H. destruct v; try discriminate. cbn [as_size] in H. destruct (Z.leb_spec 0 z); [|discriminate]. apply Ok_inj in H. subst n. rewrite Z2Nat.id by assumption. reflexivity. }
  unfold glider_new. intros H. apply bind_ok in H as (r0 & _ & H). apply bind_ok in H as (b & Hb & H). apply bind_ok in H as (d & Hd & H). apply bind_ok in H as (r' & _ & H).
  apply bind_ok in H as (r & Hr & H). apply bind_ok in H as (y & Hy & H). apply bind_ok in H as (x & Hx & H). apply Ok_inj in H. subst g. cbn [gn_ca gn_shape gn_y gn_x].
  exists b, d, r. split; [exact (Z _ _ Hb)|]. split; [exact (Z _ _ Hd)|]. split; [exact Hr|]. unfold y_grid, x_grid in *. destruct (Req_EM_T r 0) as [E|E]; [discriminate|].
  apply Ok_inj in Hy as <-. apply Ok_inj in Hx as <-. split; [exact E|]. split; [reflexivity|]. split; [reflexivity|]. split; [reflexivity|]. intros i j Hi Hj. rewrite !get_build by lia. auto.
Qed.

Print Assumptions C91_config.
Print Assumptions C91_same_refuted.
Print Assumptions C91_none.
Print Assumptions C91_log.
Print Assumptions C91_channels.
Print Assumptions C91_action.
Print Assumptions C91_no_kernel.
Print Assumptions C91_glider_grids.
