(** * C101 The modes of a CCA

    ca_mode "functional" is the default; "neurofunctional" puts two layers of random weights with
    a rectifier behind the update functions; any other value does so too and leaves out the default
    update functions. *)
From Coq Require Import Reals Lra Lia List Arith Bool ZArith String.
From Verif Require Import Base PyDict Tensor MActivations MKernels MCommon MCca MConfig MModes SGrid SCca SKern SConfig STests SModes.
From Verif Require Import PTensor PStep PCca PDyn PAct PKern PKernX PKernY PNca PConfig PConfigX PConfigY PConfigW PConfigZ PTests PModes TConfig.
Import ListNotations.
Open Scope R_scope.
Open Scope string_scope.

(** Functional mode: the general constructor and loader are those of functional mode, whatever
    weights are drawn, as long as no file names another mode. *)
Theorem C101_functional fuel ev rng kw h : is_functional (named_mode kw) -> files_in is_functional ev ->
  init_m fuel ev rng kw h = init fuel ev (fun n => md_base (rng n)) kw h.
Proof.
  intros M F. apply related_functional. apply (init_sim is_functional ev fuel); auto. intros v V. left. exact V.
Qed.

Theorem C101_functional_load fuel ev rng w o cf h : obj_inv o -> is_functional (named_mode (o_inst o)) -> files_in is_functional ev ->
  (forall kw, c_inst cf = Some kw -> is_functional (named_mode kw)) ->
  load_config_m fuel ev rng w o cf h = load_config fuel ev (fun n => md_base (rng n)) o cf h.
Proof.
  intros I M F C. apply related_functional. rewrite <- (with_weights_self o) at 2.
  apply (load_with_sim is_functional); auto.
  - apply (init_sim is_functional ev fuel); auto. intros v V. left. exact V.
  - exists no_weights. rewrite weights_for_functional by exact M. destruct I as (_ & _ & _ & _ & W & _). exact W.
Qed.

Theorem C101_functional_restore fuel ev rng w o path h : obj_inv o -> is_functional (named_mode (o_inst o)) -> files_in is_functional ev ->
  restore_config_m fuel ev rng w o path h = restore_config fuel ev (fun n => md_base (rng n)) o path h.
Proof.
  intros I M F. apply related_functional. rewrite <- (with_weights_self o) at 2.
  apply (restore_with_sim is_functional); auto.
  - apply (init_sim is_functional ev fuel); auto. intros v V. left. exact V.
  - exists no_weights. rewrite weights_for_functional by exact M. destruct I as (_ & _ & _ & _ & W & _). exact W.
Qed.

(** "neurofunctional": the object of functional mode in everything but the weights layer, and the
    same failures. *)
Theorem C101_twins fuel ev rng kw h : is_functionlike (named_mode kw) -> files_in is_functionlike ev ->
  twins (init fuel ev (fun n => md_base (rng n)) kw h) (init_m fuel ev rng kw h).
Proof. intros M F. apply (related_twins is_functionlike). apply (init_sim is_functionlike ev fuel); auto. Qed.

(** Every object of every mode, after every sequence of calls. *)
Theorem C101_proper fuel ev rng kw h o0 h0 ks w : init_m fuel ev rng kw h = Ok (o0, h0) ->
  run_cops_m fuel (mkWorld o0 h0 ev) ks = Ok w -> proper (w_obj w).
Proof. intros H K. apply minv_proper. eapply run_cops_minv; [|exact K]. exact (init_minv fuel ev rng kw h o0 h0 H). Qed.

(** What is proved of well-formed automata holds in every mode. *)
Theorem C101_wf o : proper o -> let c := o_core o in
  cca_wf c /\ mirror_v c /\ mirror_h c /\ mirror_t c /\ cl_m (idl c) = pm c /\ cl_m (nbl c) = pm c.
Proof. intros P. apply minv_proper, minv_wf in P. tauto. Qed.

(** set_params, set_kernel_radius, set_kernel_config, set_dt and make_config keep the weights. *)
Theorem C101_kept fuel rng wd w k w' : proper (w_obj w) -> run_cop_m fuel rng wd w k = Ok w' ->
  match k with OLoad _ | ORestore _ => False | _ => True end -> wl (o_core (w_obj w')) = wl (o_core (w_obj w)).
Proof.
  intros I H. apply minv_proper in I. destruct w as [o h ev]. cbn [w_obj] in I. destruct k; cbn [run_cop_m w_obj w_heap w_env] in H; intros K; try contradiction.
  - apply bind_ok in H as (o' & Hs & H). apply Ok_inj in H. subst w'. exact (proj2 (set_params_minv _ _ _ I Hs)).
  - apply bind_ok in H as ([o' h'] & Hs & H). apply Ok_inj in H. subst w'. exact (proj2 (set_radius_minv _ _ _ _ _ I Hs)).
  - apply bind_ok in H as ([o' h'] & Hs & H). apply Ok_inj in H. subst w'. unfold set_kernel_config in Hs. cbv zeta in Hs.
    apply bind_ok in Hs as (kp & _ & Hs). apply bind_ok in Hs as (rv & _ & Hs).
    exact (proj2 (set_radius_minv (with_nb o l kp) _ _ _ _ I Hs)).
  - apply Ok_inj in H. subst w'. reflexivity.
  - destruct (make_config o h) as [[p o'] h'] eqn:E. apply Ok_inj in H. subst w'. exact (proj2 (make_config_minv _ _ _ _ _ I E)).
  - unfold save_config in H. destruct (make_config o h) as [[p o'] h'] eqn:E. apply Ok_inj in H. subst w'. exact (proj2 (make_config_minv _ _ _ _ _ I E)).
Qed.

(** A load gives the weights just drawn, none of the old ones. *)
Theorem C101_redrawn fuel ev rng wd o cf h o' h' : proper o -> load_config_m fuel ev rng wd o cf h = Ok (o', h') -> proper o' /\
  (named_mode (o_inst o') <> VStr "functional" -> exists l1 l2, wl (o_core o') = WMlp l1 l2 /\
     (forall k i, (k < int_ (o_core o'))%nat -> (i < int_ (o_core o'))%nat -> weight l1 k i = wd1 wd k i) /\
     (forall k i, (k < ext (o_core o'))%nat -> (i < int_ (o_core o'))%nat -> weight l2 k i = wd2 wd k i)).
Proof.
  intros P H. apply minv_proper in P.
  apply (load_with_minv (init_m fuel ev rng) wd o cf h o' h' (init_minv fuel ev rng) P) in H as (A & B & _).
  split; [apply minv_proper; exact A|]. intros M. rewrite weights_for_other in B by exact M. injection B as B. do 2 eexists. split; [symmetry; exact B|].
  split; intros k i Hk Hi; unfold weight; cbn [cl_w]; rewrite get_build by lia; reflexivity.
Qed.

(** The rule in these modes: one growth per cell and internal channel, independent of the weights,
    which functional mode averages and the other modes send through the two layers. Up to three
    external channels (with four or more, dead cells are masked first). *)
Theorem C101_cell o l1 l2 u : proper o -> named_mode (o_inst o) <> VStr "functional" -> wl (o_core o) = WMlp l1 l2 -> (ext (o_core o) < 4)%nat -> twf u ->
  exists g : nat -> nat -> nat -> nat -> R, forall b ch i j, (b < tB u)%nat -> (ch < ext (o_core o))%nat -> (i < tH u)%nat -> (j < tW u)%nat ->
    (forall v, cca_forward (o_core o) u = Ok v ->
       get v b ch i j = clamp 0 1 (get u b ch i j + dt (o_core o) * two_layers (int_ (o_core o)) (weight l1) (weight l2) (g b i j) ch)) /\
    (forall w0 v, obj_inv (with_weights o w0) -> cca_forward (o_core (with_weights o w0)) u = Ok v ->
       get v b ch i j = clamp 0 1 (get u b ch i j + dt (o_core o) * (rsum (int_ (o_core o)) (g b i j) / (INR (ext (o_core o)) * INR (int_ (o_core o)))))).
Proof.
  intros P M W H4 Hu. exists (growth (o_core o) u). intros b ch i j Hb Hch Hi Hj. destruct (C101_wf o P) as (CW & _). split.
  - intros v V. rewrite (forward_cell _ u v b ch i j CW Hu H4 V Hb Hch Hi Hj). rewrite (proper_draw o l1 l2 P M W), neuro_fn by assumption. reflexivity.
  - intros w0 v I V. destruct (obj_inv_wf _ I) as (CW0 & _). rewrite (forward_cell _ u v b ch i j CW0 Hu H4 V Hb Hch Hi Hj).
    destruct I as (E0 & N0 & _ & _ & W0 & _). cbv zeta in *. rewrite (init_weights_fn _ _ _ _ _ ch E0 N0 W0 Hch). reflexivity.
Qed.

(** A new automaton of a mode with default functions steps every grid with room, whatever the weights. *)
Theorem C101_steps d kw o r u : fresh_m d kw = Ok o -> is_functionlike (named_mode kw) -> o_radius o = VInt (Z.of_nat r) -> twf u -> tC u = ext (o_core o) ->
  room (pm (o_core o)) r (tH u) -> room (pm (o_core o)) r (tW u) ->
  exists u', cca_forward (o_core o) u = Ok u' /\ shape u' = shape u /\ twf u' /\ in_unit u'.
Proof. exact (fresh_m_steps d kw o r u). Qed.

(** Any other mode: no grid can be stepped, before or after set_params, though parameters can be
    read and written (test_multiverse's "neural" automata are only asked for their parameters). *)
Theorem C101_neural d kw o r u : fresh_m d kw = Ok o -> ~ is_functionlike (named_mode kw) -> o_radius o = VInt (Z.of_nat r) -> twf u -> tC u = ext (o_core o) ->
  room (pm (o_core o)) r (tH u) -> room (pm (o_core o)) r (tW u) ->
  cca_forward (o_core o) u = Err AssertionError /\
  forall p o', set_params o p = Ok o' -> cca_forward (o_core o') u = Err AssertionError.
Proof.
  intros F M Hr Hu Hc RH RW. pose proof (fresh_m_minv d kw o F) as [I _]. destruct (neural_fresh d kw o F M) as (G & _).
  destruct (neural_fits d kw o r u F M Hr RH RW) as [F1 F2]. split.
  - apply neural_stuck; auto; [apply RH|apply RW].
  - intros p o' Hs. destruct (neural_set_fits d kw o r p o' u F M Hr Hs RH RW) as (I' & G' & E' & F1' & F2').
    apply neural_stuck; auto; [congruence|apply RH|apply RW].
Qed.

Theorem C101_neural_params d kw o r p : fresh_m d kw = Ok o -> ~ is_functionlike (named_mode kw) -> o_radius o = VInt (Z.of_nat r) -> (0 < o_peaks o)%nat -> (0 < r)%nat ->
  (exists v, get_params o = Some v /\ List.length v = (3 * o_peaks o)%nat) /\
  (List.length p = (3 * o_peaks o)%nat -> (forall x, In x p -> 0 <= x) -> exists o', set_params o p = Ok o' /\ get_params o' = Some p).
Proof.
  intros F M Hr P0 R0. split; [|intros; apply (neural_params d kw o r p); assumption].
  destruct (neural_fresh d kw o F M) as (_ & _ & _ & E & _). eexists. split; [exact E|]. rewrite map_length, seq_length. reflexivity.
Qed.

(** Saving and loading keeps everything but the weights, in every mode ... *)
Theorem C101_round o h f ev rng w o2 h2 p o' h' : proper o -> (exists w0, saveable (with_weights o w0) h) -> good_rng (fun n => md_base (rng n)) -> make_config o h = (p, o', h') ->
  exists o3 h3 wy, load_value_m (S f) ev rng w o2 p h2 = Ok (o3, h3) /\ o_core o3 = o_core (with_weights o wy) /\
    (named_mode (o_inst o) = VStr "functional" -> wy = wl (o_core o)).
Proof.
  intros P Sv G HM. destruct (round_m o h f ev rng w o2 h2 p o' h' Sv G HM) as (o3 & h3 & wy & L & E & W). exists o3, h3, wy. split; [exact L|]. split; [exact E|].
  intros M. rewrite weights_for_functional in W by exact M. destruct (proj1 P M) as (_ & _ & _ & _ & W' & _). cbv zeta in W'. congruence.
Qed.

(** ... and outside functional mode it can change the rule of every automaton that does anything. *)
Theorem C101_forgets o h f ev rng o2 h2 p o' h' u u' : proper o -> named_mode (o_inst o) <> VStr "functional" -> (ext (o_core o) < 4)%nat ->
  (exists w0, saveable (with_weights o w0) h) -> good_rng (fun n => md_base (rng n)) -> make_config o h = (p, o', h') ->
  twf u -> in_unit u -> cca_forward (o_core o) u = Ok u' -> u' <> u ->
  exists w o3 h3, load_value_m (S f) ev rng w o2 p h2 = Ok (o3, h3) /\ differ (o_core o) (o_core o3) /\
    gens (o_core o3) = gens (o_core o) /\ pers (o_core o3) = pers (o_core o) /\ idl (o_core o3) = idl (o_core o) /\ nbl (o_core o3) = nbl (o_core o) /\ dt (o_core o3) = dt (o_core o).
Proof. intros P. apply minv_proper in P. exact (forgets o h f ev rng o2 h2 p o' h' u u' P). Qed.

(** ** One internal channel: a channel can only grow or only decay *)

(** A loaded automaton that steps any grid has one internal channel. *)
Theorem C101_loaded_one fuel ev rng wd o cf h o' h' u u' : proper o -> load_config_m fuel ev rng wd o cf h = Ok (o', h') -> twf u ->
  cca_forward (o_core o') u = Ok u' -> int_ (o_core o') = 1%nat.
Proof.
  intros P H Hu S. apply minv_proper in P.
  apply (load_with_minv (init_m fuel ev rng) wd o cf h o' h' (init_minv fuel ev rng) P) in H as (A & _ & o1 & _ & w0 & o0 & L & E & _).
  destruct (minv_wf o' A) as (CW & _ & _ & _ & _ & _ & _ & N0). assert (X : exists v, cca_forward (o_core o') u = Ok v) by eauto.
  apply (cca_accepts _ u CW Hu) in X as (_ & _ & _ & _ & _ & G & _). destruct (ld_gen _ _ _ _ L) as (g & _ & _ & Hg). apply make_fn_length in Hg.
  assert (Eg : gens (o_core o') = gens (o_core o0)) by (rewrite E; reflexivity). rewrite Eg in G. lia.
Qed.

Section OneChannel.
Variable o : obj.
Hypothesis (P : proper o) (M : named_mode (o_inst o) <> VStr "functional") (N1 : int_ (o_core o) = 1%nat) (H4 : (ext (o_core o) < 4)%nat).

(** Over all runs from all grids, the channel never decreases, or over all of them it never increases. *)
Theorem C101_monotone ch : (ch < ext (o_core o))%nat ->
  (forall p u v, twf u -> in_unit u -> iter_res (cca_forward (o_core o)) p u = Ok v -> rises ch u v) \/
  (forall p u v, twf u -> in_unit u -> iter_res (cca_forward (o_core o)) p u = Ok v -> falls ch u v).
Proof.
  pose proof (proj2 (minv_proper o) P) as I. destruct (minv_neuro o I M) as [w W]. destruct (minv_wf o I) as (CW & _).
  exact (run_monotone _ w CW H4 W (one_channel_signed _ w N1) ch).
Qed.

(** No oscillators and no gliders: a grid that comes back, moved or not, is a still life. *)
Theorem C101_no_gliders p u dy dx : twf u -> in_unit u -> iter_res (cca_forward (o_core o)) (S p) u = Ok (roll dy dx u) ->
  cca_forward (o_core o) u = Ok u.
Proof.
  intros Hu U H. pose proof (proj2 (minv_proper o) P) as I. destruct (minv_neuro o I M) as [w W]. destruct (minv_wf o I) as (CW & _).
  apply (no_return _ w CW H4 W (one_channel_signed _ w N1) p u _ Hu U H). intros b ch Hb Hch.
  assert (X : exists v, cca_forward (o_core o) u = Ok v). { cbn [iter_res] in H. apply bind_ok in H as (x & Hx & _). eauto. }
  apply (cca_accepts _ u CW Hu) in X as (Ec & A & B & _). apply roll_total; auto; lia.
Qed.

(** Every cell of every run converges. *)
Theorem C101_settles us b ch i j : twf (us 0%nat) -> in_unit (us 0%nat) -> (forall t, cca_forward (o_core o) (us t) = Ok (us (S t))) ->
  (b < tB (us 0%nat))%nat -> (ch < ext (o_core o))%nat -> (i < tH (us 0%nat))%nat -> (j < tW (us 0%nat))%nat ->
  exists l, Un_cv (fun t => get (us t) b ch i j) l.
Proof.
  intros Hu U S. pose proof (proj2 (minv_proper o) P) as I. destruct (minv_neuro o I M) as [w W]. destruct (minv_wf o I) as (CW & _).
  exact (run_converges _ w CW H4 W (one_channel_signed _ w N1) us Hu U S b ch i j).
Qed.
End OneChannel.

(** ** Cases that meet the hypotheses *)
Definition mode_kw (m : string) : dict := ("ca_mode", VStr m) :: wit_kw.
Definition wit_md (w : wdraw) : mdraws := mkMd wit_dr w no_weights.

(** A new automaton of any mode, with one channel and radius 1. *)
Lemma ex_new m w : exists o, fresh_m (wit_md w) (mode_kw m) = Ok o /\ named_mode (mode_kw m) = VStr m /\ o_radius o = VInt (Z.of_nat 1) /\ o_peaks o = 1%nat /\
  proper o /\ int_ (o_core o) = 1%nat /\ ext (o_core o) = 1%nat /\ pm (o_core o) = Circular /\ o_inst o = mode_kw m.
Proof.
  destruct (fresh_ok wit_dr (mode_kw m) Circular 1 1 (1 / 10) 1 1) as [o0 F]; try reflexivity; try lia.
  { intros [|[|i]]; cbn [dr_k wit_dr]; lra. }
  pose proof (fresh_m_spec (wit_md w) (mode_kw m)) as S. cbn [wit_md md_base] in S. rewrite F in S. destruct S as (wy & W & S).
  apply fresh_inv in F as (I & _ & _ & Er & _ & _ & _ & Ei & _). pose proof (fresh_m_minv _ _ _ S) as [P Ei'].
  destruct I as (_ & _ & _ & _ & _ & Ipm & Iint & Iext & _ & Ipk). cbv zeta in *. rewrite Ei in *.
  change (as_pmode (query_kwargs "conv_mode" (VStr "circular") (mode_kw m))) with (Ok Circular : res pmode) in Ipm. apply Ok_inj in Ipm.
  change (as_size (query_kwargs "internal_channels" (VInt 1) (mode_kw m))) with (Ok 1%nat : res nat) in Iint. apply Ok_inj in Iint.
  change (as_size (query_kwargs "external_channels" (VInt 1) (mode_kw m))) with (Ok 1%nat : res nat) in Iext. apply Ok_inj in Iext.
  change (as_size (query_kwargs "kernel_peaks" (VInt 3) (mode_kw m))) with (Ok 1%nat : res nat) in Ipk. apply Ok_inj in Ipk.
  eexists. split; [exact S|]. split; [reflexivity|]. apply minv_proper in P. split; [|split; [|split; [exact P|]]]; unfold drop_fns; destruct (with_defaults (mode_kw m)); cbn [with_weights with_rule o_radius o_peaks o_core int_ ext pm o_inst]; auto.
Qed.

Example ex_steps : exists o u, fresh_m (wit_md (mkWd (fun _ _ => 2) (fun _ _ => -1))) (mode_kw "neurofunctional") = Ok o /\ is_functionlike (named_mode (mode_kw "neurofunctional")) /\
  o_radius o = VInt (Z.of_nat 1) /\ twf u /\ tC u = ext (o_core o) /\ room (pm (o_core o)) 1 (tH u) /\ room (pm (o_core o)) 1 (tW u) /\ int_ (o_core o) = 1%nat /\ (ext (o_core o) < 4)%nat.
Proof.
  destruct (ex_new "neurofunctional" (mkWd (fun _ _ => 2) (fun _ _ => -1))) as (o & F & M & R & _ & _ & N & E & Pm & _). exists o, (zero_grid 1 1 2 2).
  rewrite E, N, Pm. repeat (split; [first [assumption|right; reflexivity|apply twf_build|reflexivity]|]). unfold room. cbn [zero_grid build tH tW]. repeat split; lia.
Qed.

Example ex_neural : exists o, fresh_m (wit_md no_weights) (mode_kw "neural") = Ok o /\ ~ is_functionlike (named_mode (mode_kw "neural")) /\ o_radius o = VInt (Z.of_nat 1) /\ o_peaks o = 1%nat /\
  cca_forward (o_core o) (zero_grid 1 1 2 2) = Err AssertionError.
Proof.
  destruct (ex_new "neural" no_weights) as (o & F & M & R & Pk & _ & N & E & Pm & _). exists o.
  assert (X : ~ is_functionlike (named_mode (mode_kw "neural"))) by (intros [H|H]; discriminate H).
  split; [exact F|]. split; [exact X|]. split; [exact R|]. split; [exact Pk|].
  apply (C101_neural (wit_md no_weights) (mode_kw "neural") o 1 (zero_grid 1 1 2 2) F X R); [apply twf_build|rewrite E; reflexivity| |]; rewrite Pm; unfold room; cbn [zero_grid build tH tW]; repeat split; lia.
Qed.

(** A saveable automaton of functional mode put into neurofunctional mode. *)
Definition in_neuro (o : obj) (w : wdraw) : obj :=
  with_weights (mkObj (o_core o) (o_kpar o) (o_radius o) (o_peaks o) (o_nb o) (o_gen o) (o_per o) (dset "ca_mode" (VStr "neurofunctional") (o_inst o)))
    (neuro_layer w (ext (o_core o)) (int_ (o_core o)) (pm (o_core o))).

Lemma in_neuro_ok o w h : saveable o h -> proper (in_neuro o w) /\ (exists w0, saveable (with_weights (in_neuro o w) w0) h) /\ named_mode (o_inst (in_neuro o w)) = VStr "neurofunctional".
Proof.
  intros (I & S). pose proof I as (E0 & N0 & P3 & P4 & P5 & P6 & P7 & P8 & P9 & P10). cbv zeta in *.
  assert (M : named_mode (o_inst (in_neuro o w)) = VStr "neurofunctional") by (change (query_kwargs "ca_mode" (VStr "functional") (o_inst (in_neuro o w)) = VStr "neurofunctional"); apply query_dset_eq).
  assert (I' : obj_inv (with_weights (in_neuro o w) (wl (o_core o)))).
  { unfold obj_inv, in_neuro. cbv zeta. cbn [with_weights o_core ext int_ pm thr idl nbl wl o_inst o_peaks]. rewrite !query_dset_neq by discriminate.
    repeat (split; [assumption|]). assumption. }
  split; [|split; [|exact M]].
  - split; intros H; [congruence|]. exists (wl (o_core o)). do 2 eexists. split; [exact I'|]. split; [reflexivity|]. split; (split; [|reflexivity]); apply pt_build; assumption.
  - exists (wl (o_core o)). split; [exact I'|]. destruct S as (S1 & S2 & S3 & S4 & S5 & S6).
    cbn [with_weights in_neuro o_core ext int_ pm idl o_peaks o_inst]. rewrite !query_dset_neq by discriminate. repeat (split; [assumption|]). exact S6.
Qed.

Lemma ex_orbium : exists o, saveable o orb_heap /\ gens (o_core o) = [orb_act] /\ pers (o_core o) = [orb_act] /\ ext (o_core o) = 1%nat.
Proof.
  destruct ex_orb as (k & o0 & o1 & Hi & H & _ & Ei & Epk & _ & _ & _ & C1 & C2 & C3 & C4 & C5 & C6 & _). cbv zeta in *. exists o1. split; [|auto].
  destruct (wit_init orb_heap) as (x & X1 & _ & I & _). rewrite X1 in Hi. apply Ok_inj in Hi. injection Hi as ->.
  apply (load_saveable 1 no_env wit_rng o0 (cfg3 None) orb_heap o1 orb_heap 0%nat 1%nat 2%nat I H); try reflexivity; try discriminate; auto.
  + exists 1%nat, [15 / 100; 15 / 1000]. repeat split. discriminate.
  + exists 1%nat, [15 / 100; 15 / 1000]. repeat split. discriminate.
  + lia.
  + exists 1%nat. split; [lia|reflexivity].
  + rewrite Ei. reflexivity.
  + rewrite Ei. reflexivity.
Qed.

Lemma orb_zero : act_fn orb_act 0 < 0.
Proof.
  unfold orb_act. cbn [act_fn MActivations.mixture_sum fold_left]. unfold gauss.
  set (q := ((0 - 15 / 100) / (eps9 + 15 / 1000)) ^ 2).
  assert (Q : 2 <= q).
  { unfold q, eps9. match goal with |- _ <= (?a / ?b) ^ 2 => assert (B : 0 < b) by lra; replace ((a / b) ^ 2) with (a ^ 2 / b ^ 2) by (field; lra);
      apply (Rmult_le_reg_r (b ^ 2)); [apply pow_lt; exact B|]; unfold Rdiv at 2; rewrite Rmult_assoc, Rinv_l, Rmult_1_r by (apply pow_nonzero; lra) end. nra. }
  assert (E : exp (- q / 2) <= exp (Ropp 1)) by (destruct (Req_dec q 2) as [->|]; [right; f_equal; lra|left; apply exp_increasing; lra]).
  rewrite exp_Ropp in E. pose proof (exp_ineq1 1 ltac:(lra)). assert (/ exp 1 < / 2) by (apply Rinv_lt_contravar; lra).
  set (x := exp (- q / 2)) in *. unfold clamp, Rmax, Rmin. repeat destruct Rle_dec; lra.
Qed.

Example ex_forgets : exists o h u u', proper o /\ named_mode (o_inst o) <> VStr "functional" /\ (ext (o_core o) < 4)%nat /\ int_ (o_core o) = 1%nat /\
  (exists w0, saveable (with_weights o w0) h) /\ twf u /\ in_unit u /\ cca_forward (o_core o) u = Ok u' /\ u' <> u.
Proof.
  destruct ex_orbium as (o0 & S0 & G & Pe & E). destruct (C27_kept o0 orb_heap S0) as (_ & K & _). specialize (K 1). set (o1 := set_dt o0 1) in *.
  set (w := mkWd (fun _ _ => -1) (fun _ _ => 1)). destruct (in_neuro_ok o1 w orb_heap K) as (P & Sv & M). set (o := in_neuro o1 w) in *.
  destruct K as (_ & N1 & _). cbv zeta in N1. destruct (C101_wf o P) as (CW & _ & _ & _ & M1 & M2).
  set (s := (cl_p (idl (o_core o)) + cl_p (nbl (o_core o)) + 1)%nat). set (u := zero_grid 1 1 s s).
  assert (Pd : forall m p, (p < s)%nat -> pad_allowed m s p = true) by (intros m p Hp; destruct m; cbn [pad_allowed]; auto; rewrite ?Nat.ltb_lt, ?Nat.leb_le; lia).
  assert (A : exists u', cca_forward (o_core o) u = Ok u').
  { apply (cca_accepts (o_core o) u CW); [apply twf_build|]. change (gens (o_core o)) with (gens (o_core o0)). change (pers (o_core o)) with (pers (o_core o0)). change (int_ (o_core o)) with (int_ (o_core o1)).
    rewrite G, Pe, N1. change (ext (o_core o)) with (ext (o_core o0)). rewrite E. cbn [u zero_grid build tC tH tW List.length]. unfold fits. cbn [zero_grid build tC tH tW].
    assert (ao : acts_ok [orb_act] = Ok tt). { unfold orb_act. cbn [acts_ok act_ok forallb snd]. replace (nonzero _) with true by (symmetry; apply nonzero_true; unfold eps9; lra). reflexivity. }
    repeat split; auto; try (apply Pd); unfold s; lia. }
  destruct A as [u' A]. exists o, orb_heap, u, u'. split; [exact P|]. split; [rewrite M; discriminate|]. split; [change (ext (o_core o)) with (ext (o_core o0)); lia|].
  split; [exact N1|]. split; [exact Sv|]. split; [apply twf_build|]. split.
  { unfold in_unit, u, zero_grid, build. cbn [tdata]. apply Forall_forall. intros v Hv. apply in_map_iff in Hv as (n & <- & _). lra. }
  split; [exact A|]. intros X. assert (Z : get u' 0 0 0 0 = 0) by (rewrite X; apply get_zero_grid). revert Z.
  rewrite (forward_cell (o_core o) u u' 0 0 0 0) by (auto; try apply twf_build; change (ext (o_core o)) with (ext (o_core o0)); cbn [u zero_grid build tB tH tW]; unfold s; lia).
  unfold u at 1. rewrite get_zero_grid. change (wl (o_core o)) with (neuro_layer w (ext (o_core o1)) (int_ (o_core o1)) (pm (o_core o1))). rewrite neuro_fn by (change (ext (o_core o1)) with (ext (o_core o0)); lia).
  rewrite N1. unfold two_layers, growth. cbn [rsum wd1 wd2 w]. unfold gen_at, per_at. change (gens (o_core o)) with (gens (o_core o0)). change (pers (o_core o)) with (pers (o_core o0)). rewrite G, Pe. cbn [nth].
  assert (Hz : forall b c' i j, mval (mask_fn (thr (o_core o))) u b c' i j = 0) by (intros; unfold mval; apply mask_fn_zero; intros; apply get_zero_grid).
  rewrite !convf_zero by auto. change (dt (o_core o)) with 1. pose proof orb_zero. set (x := act_fn orb_act 0) in *.
  unfold clamp, Rmax, Rmin. repeat destruct Rle_dec; lra.
Qed.

Print Assumptions C101_functional.
Print Assumptions C101_functional_load.
Print Assumptions C101_functional_restore.
Print Assumptions C101_twins.
Print Assumptions C101_proper.
Print Assumptions C101_wf.
Print Assumptions C101_kept.
Print Assumptions C101_redrawn.
Print Assumptions C101_cell.
Print Assumptions C101_steps.
Print Assumptions C101_neural.
Print Assumptions C101_neural_params.
Print Assumptions C101_round.
Print Assumptions C101_forgets.
Print Assumptions C101_loaded_one.
Print Assumptions C101_monotone.
Print Assumptions C101_no_gliders.
Print Assumptions C101_settles.
