(** Failures of saving and loading: what is lost, overwritten or never terminates. *)
From Coq Require Import Reals Lra Lia List Arith Bool ZArith String Ascii.
From Verif Require Import Base PyDict Tensor MActivations MKernels MCommon MCca MNca MConfig SGrid SCca SKern SConfig PTensor PStep PCca PDyn PStepX PAct PKern PKernX PKernY PNca PConfig PConfigX PConfigY PConfigZ.
Import ListNotations.
Open Scope R_scope.
Open Scope string_scope.

(** ** Reloading in general *)
Definition clean (kw : dict) : Prop := query_kwargs "ca_config" VNone kw = VNone /\ query_kwargs "input_filepath" VNone kw = VNone.

(** Loading a config by value that carries constructor arguments without file names. *)
Lemma value_inv fuel ev rng o2 h2 p kw dn dg dp o3 h3 : p_inst p = Some kw -> clean kw -> p_id p = None -> p_nb p = Some dn -> p_gen p = Some dg -> p_per p = Some dp -> p_same p = false ->
  load_value fuel ev rng o2 p h2 = Ok (o3, h3) ->
  exists o4, fresh (rng 0%nat) kw = Ok o4 /\ obj_inv o3 /\ o_inst o3 = kw /\ o_peaks o3 = o_peaks o4 /\
    let c := o_core o4 in let c3 := o_core o3 in
    ext c3 = ext c /\ int_ c3 = int_ c /\ pm c3 = pm c /\ thr c3 = thr c /\ dt c3 = match p_dt p with Some x => x | None => 1 / 10 end /\
    init_layer (ext c) (int_ c) (pm c) default_id_kernel = Ok (idl c3) /\
    (exists k, get_kernel dn = Ok k /\ uses_kernel c3 k) /\ make_fn dg = Ok (gens c3) /\ make_fn dp = Ok (pers c3).
Proof.
  intros Ei [C F] Eid Pn Pg Pp Ps HL. unfold load_value in HL. rewrite (unpickle_refs p h2 _ _ _ Eid Pn Pg Pp Ps) in HL. cbv zeta in HL. cbn [fst snd] in HL. rewrite Ei in HL.
  destruct (hget_tail h2 dn dg dp) as (T1 & T2 & T3). set (hx := (h2 ++ _)%list) in *. unfold load_config, load_with in HL. cbn [c_inst] in HL.
  apply bind_ok in HL as ([o4 h4] & Hi & HL). cbn [fst snd] in HL. apply load_body_inv in HL as [-> L].
  destruct fuel as [|f]; [discriminate|]. rewrite init_plain in Hi by assumption.
  apply bind_ok in Hi as (o5 & Hf & Hi). apply Ok_inj in Hi. injection Hi as -> <-. pose proof Hf as Hf'. apply fresh_inv in Hf' as (I4 & _ & _ & _ & _ & _ & _ & Ei4 & _).
  pose proof (loaded_inv _ _ _ _ I4 L) as I3. exists o4.
  destruct (ld_id _ _ _ _ L) as (k1 & Hk1 & Hil). destruct (ld_nb _ _ _ _ L) as (l & k & Cn & _ & Hk & Hnl & _ & _).
  destruct (ld_gen _ _ _ _ L) as (g & Cg & _ & Hg). destruct (ld_per _ _ _ _ L) as (q & Cp & _ & Hq).
  pose proof (ld_ext _ _ _ _ L) as X1. pose proof (ld_int _ _ _ _ L) as X2. pose proof (ld_pm _ _ _ _ L) as X3.
  pose proof (ld_thr _ _ _ _ L) as X4. pose proof (ld_dt _ _ _ _ L) as X5. pose proof (ld_peaks _ _ _ _ L) as X6. pose proof (ld_inst _ _ _ _ L) as X7.
  cbn [c_id c_nb c_gen c_per c_dt] in *. injection Cn as <-. injection Cg as <-. injection Cp as <-. rewrite T1 in Hk. rewrite T2 in Hg. rewrite T3 in Hq.
  destruct Hk1 as [[_ ->]|(z & Hz & _)]; [|discriminate].
  split; [exact Hf|]. split; [exact I3|]. split; [congruence|]. split; [exact X6|]. cbv zeta. do 5 (split; [assumption|]). split; [exact Hil|].
  split; [exists k; split; [exact Hk|]; unfold uses_kernel; congruence|]. split; assumption.
Qed.

(** The reload succeeds when its pieces do. *)
Lemma value_ok f ev rng o2 h2 p kw dn dg dp k kp rv g q m e n th r pk : p_inst p = Some kw -> clean kw -> p_id p = None -> p_nb p = Some dn -> p_gen p = Some dg -> p_per p = Some dp -> p_same p = false ->
  as_pmode (query_kwargs "conv_mode" (VStr "circular") kw) = Ok m -> as_size (query_kwargs "internal_channels" (VInt 1) kw) = Ok n ->
  as_size (query_kwargs "external_channels" (VInt 1) kw) = Ok e -> as_num (query_kwargs "alive_threshold" (VNum (1 / 10)) kw) = Ok th ->
  as_size (query_kwargs "kernel_peaks" (VInt 3) kw) = Ok pk -> query_kwargs "kernel_radius" (VInt 13) kw = VInt (Z.of_nat r) ->
  (0 < e)%nat -> (0 < n)%nat -> (0 < r)%nat -> (0 < pk)%nat -> good_rng rng ->
  get_kernel dn = Ok k -> read_kpar KPNone dn = Ok kp -> dget "radius" dn = Some rv -> make_fn dg = Ok g -> make_fn dp = Ok q ->
  exists o3 h3, load_value (S f) ev rng o2 p h2 = Ok (o3, h3).
Proof.
  intros Ei [C F] Eid Pn Pg Pp Ps Q1 Q2 Q3 Q4 Q5 Q6 He Hn Hr Hp G Hk Hkp Hrv Hg Hq.
  unfold load_value. rewrite (unpickle_refs p h2 _ _ _ Eid Pn Pg Pp Ps). cbv zeta. cbn [fst snd]. rewrite Ei.
  destruct (hget_tail h2 dn dg dp) as (T1 & T2 & T3). set (hx := (h2 ++ _)%list) in *. unfold load_config, load_with. cbn [c_inst].
  rewrite init_plain by assumption.
  destruct (fresh_ok (rng 0%nat) kw m e n th r pk) as [o4 Hf]; auto. { intros i. apply G. }
  rewrite Hf. cbn [bind fst snd]. pose proof Hf as Hf'. apply fresh_inv in Hf' as (I4 & _ & _ & _ & _ & _ & _ & Ei4 & _ & _ & _ & Hil).
  pose proof I4 as (A1 & A2 & _ & _ & Iw & _). cbv zeta in *.
  destruct (read_kpar_any _ _ (o_kpar o4) Hkp) as [kp' Hkp'].
  pose proof Hk as Hk2. apply get_kernel_odd in Hk2 as (rr & (Sk & Wk & _) & _). apply shape_inv in Sk as (K1 & K2 & K3 & K4).
  destruct (init_layer_ok (ext (o_core o4)) (int_ (o_core o4)) (pm (o_core o4)) k) as [nl Enl]; auto; try congruence.
  eexists. eexists. eapply (load_body_ok o4 _ hx default_id_kernel (List.length h2) k kp'); cbn [c_id c_nb c_gen c_per]; try reflexivity.
  - rewrite T1. exact Hk.
  - rewrite T1. exact Hkp'.
  - rewrite T1. exact Hrv.
  - rewrite T2. exact Hg.
  - rewrite T3. exact Hq.
  - exact Hil.
  - exact Enl.
  - exact Iw.
Qed.

(** ** Update functions that do not survive *)
Lemma intervals_reread d ivs al md : dget "name" d = Some (VStr "SmoothIntervals") -> make_fn d = Ok [ASmoothIntervals ivs al md] ->
  make_fn (dset "parameters" (VVec (fn_params [ASmoothIntervals ivs al md])) d) = Ok [ASmoothIntervals [] al md].
Proof.
  intros N H. unfold make_fn, dgetk in *. rewrite dget_dset_neq by discriminate. rewrite N in *. cbn [bind String.eqb Ascii.eqb Bool.eqb] in *.
  unfold mk_smoothintervals in *. rewrite query_dset_eq. rewrite !query_dset_neq by discriminate.
  apply bind_ok in H as (a & H & E). apply bind_ok in H as (iv & _ & H). apply bind_ok in H as (al' & Hal & H). apply Ok_inj in H. subst a.
  apply Ok_inj in E. injection E as _ <- <-. cbn [fn_params flat_map act_params app as_intervals bind]. rewrite Hal. reflexivity.
Qed.

Lemma empty_intervals al md x : act_fn (ASmoothIntervals [] al md) x = if md then - 1 else 0.
Proof. cbn [act_fn]. cbv zeta. cbn [interval_sum fold_left]. destruct md; ring. Qed.

(** With no intervals left and growth mode, one step of size 1 kills every grid. *)
Lemma dead_rule c u u' al al' : cca_wf c -> init_weights (ext c) (int_ c) (pm c) = Ok (wl c) -> cca_forward c u = Ok u' -> twf u -> in_unit u -> ext c = 1%nat -> int_ c = 1%nat -> dt c = 1 ->
  gens c = [ASmoothIntervals [] al true] -> pers c = [ASmoothIntervals [] al' true] -> u' = zero_grid (tB u) 1 (tH u) (tW u).
Proof.
  intros Hc Hw E Hu Hin E1 E2 Ed Eg Ep. destruct (cca_shape c u u' Hc Hu E) as [Su Wu].
  assert (A : exists u', cca_forward c u = Ok u') by eauto. apply cca_accepts in A; auto. destruct A as (Ec & H1 & H2 & _).
  destruct (cca_rule c u u' Hc Hu Hw E) as (m & idn & nb & Hm & _ & _ & Hr). rewrite mask_if_zero_dead in Hm by auto. apply Ok_inj in Hm.
  assert (Em : m = u). { rewrite <- Hm. unfold zero_dead. rewrite Ec, E1. reflexivity. } rewrite Em in *. clear Hm Em.
  apply shape_inv in Su as (S1 & S2 & S3 & S4).
  apply tensor_ext; [exact Wu|apply twf_build| |].
  - unfold shape. rewrite S1, S2, S3, S4, Ec, E1. reflexivity.
  - intros b o i j Hb Ho Hi Hj. rewrite S1, S2, S3, S4, Ec, E1 in *. rewrite get_zero_grid. rewrite Hr by (rewrite ?E1; auto).
    rewrite E2, Eg, Ep, Ed. cbn [rsum nth INR]. rewrite !empty_intervals.
    assert (0 <= get u b o i j <= 1).
    { unfold in_unit in Hin. rewrite Forall_forall in Hin. apply Hin, get_in_data; auto. rewrite Ec. exact Ho. }
    apply clamp_lo; [lra|]. match goal with |- ?x <= 0 => replace x with (get u b o i j - 1) by field end. lra.
Qed.

(** ** Witness machinery *)
Definition wit_rng : nat -> draws := fun _ => wit_dr.

Lemma wit_good : good_rng wit_rng.
Proof. intros n [|[|i]]; cbn [dr_k wit_rng wit_dr]; lra. Qed.

Definition moore1 : dict := [("name", VStr "MooreLike"); ("radius", VInt 1)].
Definition cfg3 (id : option loc) : cfg := mkCfg None id (Some 0%nat) (Some 1%nat) (Some 2%nat) (Some 1).

Lemma wit_init h : exists o0, init 1 no_env wit_rng wit_kw h = Ok (o0, h) /\ fresh wit_dr wit_kw = Ok o0 /\ obj_inv o0 /\ o_inst o0 = wit_kw /\
  ext (o_core o0) = 1%nat /\ int_ (o_core o0) = 1%nat /\ pm (o_core o0) = Circular.
Proof.
  destruct (fresh_ok wit_dr wit_kw Circular 1 1 (1 / 10) 1 1) as [o0 F]; try reflexivity; try lia.
  { intros [|[|i]]; cbn [dr_k wit_dr]; lra. }
  exists o0. split. { rewrite init_plain by reflexivity. change (wit_rng 0%nat) with wit_dr. rewrite F. reflexivity. }
  split; [exact F|]. apply fresh_inv in F as (I & _ & _ & _ & _ & _ & _ & Ei & _). split; [exact I|]. split; [exact Ei|].
  destruct I as (_ & _ & _ & _ & W & Ipm & Iint & Iext & _). cbv zeta in *. rewrite Ei in *.
  change (as_pmode (query_kwargs "conv_mode" (VStr "circular") wit_kw)) with (Ok Circular : res pmode) in Ipm. apply Ok_inj in Ipm.
  change (as_size (query_kwargs "internal_channels" (VInt 1) wit_kw)) with (Ok 1%nat : res nat) in Iint. apply Ok_inj in Iint.
  change (as_size (query_kwargs "external_channels" (VInt 1) wit_kw)) with (Ok 1%nat : res nat) in Iext. apply Ok_inj in Iext. auto.
Qed.

(** Everything known about an object after construction and loading [nb; gd; pd; ...]. *)
Definition made3 (id : option loc) (kid k : tensor) (g q : list act) (h : heap) (o0 o1 : obj) : Prop :=
  init 1 no_env wit_rng wit_kw h = Ok (o0, h) /\ load_config 1 no_env wit_rng o0 (cfg3 id) h = Ok (o1, h) /\
  obj_inv o1 /\ o_inst o1 = wit_kw /\ o_peaks o1 = 1%nat /\ o_nb o1 = Some 0%nat /\ o_gen o1 = Some 1%nat /\ o_per o1 = Some 2%nat /\
  let c := o_core o1 in ext c = 1%nat /\ int_ c = 1%nat /\ pm c = Circular /\ dt c = 1 /\ gens c = g /\ pers c = q /\
  init_layer 1 1 Circular kid = Ok (idl c) /\ uses_kernel c k /\ read_kpar (o_kpar o0) (hget h 0%nat) = Ok (o_kpar o1) /\
  dget "radius" (hget h 0%nat) = Some (o_radius o1).

Lemma make3 id kid k kp rv g q nbd gd pd rest : let h := nbd :: gd :: pd :: rest in
  match id with None => Ok default_id_kernel | Some l => get_kernel (hget h l) end = Ok kid ->
  get_kernel nbd = Ok k -> read_kpar KPNone nbd = Ok kp -> dget "radius" nbd = Some rv -> make_fn gd = Ok g -> make_fn pd = Ok q ->
  exists o0 o1, made3 id kid k g q h o0 o1.
Proof.
  intros h Hid Hk Hkp Hrv Hg Hq. destruct (wit_init h) as (o0 & Hi & _ & I0 & Ei & E1 & E2 & E3).
  assert (Kid : exists il, init_layer 1 1 Circular kid = Ok il).
  { assert (exists r, odd_kernel r kid) as (r & S & _).
    { destruct id as [l|]; [apply get_kernel_odd in Hid as (r & O & _); eauto|]. apply Ok_inj in Hid. subst. eexists. apply default_id_odd. }
    apply shape_inv in S as (S1 & S2 & S3 & S4). apply init_layer_ok; auto; congruence. }
  destruct Kid as [il Eil]. pose proof Hk as Hk2. apply get_kernel_odd in Hk2 as (r & (S & _) & _). apply shape_inv in S as (S1 & S2 & S3 & S4).
  destruct (init_layer_ok 1 1 Circular k) as [nl Enl]; auto.
  pose proof I0 as (_ & _ & _ & _ & W & _). cbv zeta in W. rewrite E1, E2, E3 in W.
  destruct (read_kpar_any _ _ (o_kpar o0) Hkp) as [kp' Hkp'].
  assert (X : exists o1, load_config 1 no_env wit_rng o0 (cfg3 id) h = Ok (o1, h)).
  { eexists. unfold load_config, load_with. cbn [cfg3 c_inst bind fst snd].
    eapply (load_body_ok o0 (cfg3 id) h kid 0%nat k kp' rv 1%nat g 2%nat q); try reflexivity; try assumption; rewrite ?E1, ?E2, ?E3; eassumption. }
  destruct X as [o1 HL]. exists o0, o1. unfold made3. split; [exact Hi|]. split; [exact HL|].
  unfold load_config, load_with in HL. cbn [cfg3 c_inst bind fst snd] in HL. apply load_body_inv in HL as [_ L].
  split; [eapply loaded_inv; eauto|]. pose proof (ld_inst _ _ _ _ L) as X1. pose proof (ld_peaks _ _ _ _ L) as X2.
  pose proof (ld_ext _ _ _ _ L) as X3. pose proof (ld_int _ _ _ _ L) as X4. pose proof (ld_pm _ _ _ _ L) as X5. pose proof (ld_dt _ _ _ _ L) as X6.
  destruct (ld_id _ _ _ _ L) as (k1 & Hk1 & Hil). destruct (ld_nb _ _ _ _ L) as (l & k2 & Cn & En & Hk2 & Hnl & Hkp2 & Hrr).
  destruct (ld_gen _ _ _ _ L) as (lg & Cg & Eg & Hg2). destruct (ld_per _ _ _ _ L) as (lp & Cp & Ep & Hq2).
  cbn [c_id c_nb c_gen c_per c_dt] in *. injection Cn as <-. injection Cg as <-. injection Cp as <-.
  change (hget h 0%nat) with nbd in *. change (hget h 1%nat) with gd in Hg2. change (hget h 2%nat) with pd in Hq2.
  assert (k1 = kid) as ->.
  { destruct id as [z|]; destruct Hk1 as [[A B]|(z' & A & B)]; try discriminate; [injection A as <-; congruence|congruence]. }
  rewrite Hk in Hk2. apply Ok_inj in Hk2. subst k2. rewrite Hg in Hg2. apply Ok_inj in Hg2. rewrite Hq in Hq2. apply Ok_inj in Hq2.
  assert (Pk : o_peaks o0 = 1%nat).
  { destruct I0 as (_ & _ & _ & _ & _ & _ & _ & _ & _ & Ipk). cbv zeta in *. rewrite Ei in Ipk.
    change (as_size (query_kwargs "kernel_peaks" (VInt 3) wit_kw)) with (Ok 1%nat : res nat) in Ipk. apply Ok_inj in Ipk. congruence. }
  rewrite E1, E2, E3 in *. split; [congruence|]. split; [congruence|]. do 3 (split; [assumption|]). cbv zeta. do 6 (split; [first [congruence|exact X6]|]). split; [exact Hil|].
  split; [unfold uses_kernel; rewrite X3, X4, X5; exact Hnl|]. split; assumption.
Qed.

Lemma save3 id kid k g q g' q' nbd gd pd rest o0 o1 : let h := nbd :: gd :: pd :: rest in
  made3 id kid k g q h o0 o1 -> get_kernel nbd = Ok k -> (exists r, (0 < r)%nat /\ o_radius o1 = VInt (Z.of_nat r)) -> (exists kp, read_kpar KPNone nbd = Ok kp) ->
  make_fn (dset "parameters" (VVec (fn_params g)) gd) = Ok g' -> make_fn (dset "parameters" (VVec (fn_params q)) pd) = Ok q' ->
  exists p o1' h' o3 h3, make_config o1 h = (p, o1', h') /\ load_value 1 no_env wit_rng o0 p h' = Ok (o3, h3) /\
    let c := o_core o3 in obj_inv o3 /\ ext c = 1%nat /\ int_ c = 1%nat /\ pm c = Circular /\ dt c = 1 /\ gens c = g' /\ pers c = q' /\
    init_layer 1 1 Circular default_id_kernel = Ok (idl c) /\ uses_kernel c k.
Proof.
  intros h (_ & _ & I & Ei & Ep & En & Eg & Eq & E1 & E2 & E3 & E4 & E5 & E6 & _ & _ & _ & E9) Hk (r & R0 & Hr) (kp & Hkp) Hg Hq. cbv zeta in *.
  destruct (make_config o1 h) as [[p o1'] h'] eqn:HM. pose proof (make_config_inst o1 h) as M. rewrite HM in M. destruct M as (Ec & _ & Er & Ep' & Pi & Pd & Pid & Q1 & Q2 & Q3 & Q4 & Q5 & Q6).
  assert (N : (0 <> 1 /\ 0 <> 2 /\ 1 <> 2 /\ 1 < List.length h /\ 2 < List.length h)%nat) by (cbn [h List.length]; lia). destruct N as (N1 & N2 & N3 & L1 & L2).
  pose proof (make_config_refs o1 h 0%nat 1%nat 2%nat En Eg Eq N1 N2 N3 L1 L2) as Q. rewrite HM in Q. destruct Q as (_ & Pn & Pg & Pp & Ps & _).
  change (hget h 0%nat) with nbd in *. change (hget h 1%nat) with gd in Pg. change (hget h 2%nat) with pd in Pp. rewrite E5 in Pg. rewrite E6 in Pp.
  pose proof I as (_ & _ & _ & _ & _ & _ & _ & _ & It & _). cbv zeta in It.
  assert (Cl : clean (o_inst o1')). { split; rewrite Q6 by discriminate; rewrite Ei; reflexivity. }
  rewrite E1, E2, E3, Ep in *.
  destruct (value_ok 0 no_env wit_rng o0 h' p (o_inst o1') nbd _ _ k kp (o_radius o1) g' q' Circular 1 1 (thr (o_core o1)) r 1 Pi Cl Pid Pn Pg Pp Ps) as (o3 & h3 & HL); auto using wit_good.
  - rewrite Q1. reflexivity.
  - rewrite Q2. apply nat_value_size.
  - rewrite Q3. apply nat_value_size.
  - rewrite Q6 by discriminate. exact It.
  - rewrite Q4. apply nat_value_size.
  - rewrite Q5. exact Hr.
  - exists p, o1', h', o3, h3. split; [reflexivity|]. split; [exact HL|].
    destruct (value_inv 1 no_env wit_rng o0 h' p (o_inst o1') nbd _ _ o3 h3 Pi Cl Pid Pn Pg Pp Ps HL) as (o4 & Hf & I3 & Ei3 & _ & B1 & B2 & B3 & B4 & B5 & B6 & (k' & Hk' & U) & Bg & Bq). cbv zeta in *.
    rewrite Hk in Hk'. apply Ok_inj in Hk'. subst k'. rewrite Hg in Bg. apply Ok_inj in Bg. rewrite Hq in Bq. apply Ok_inj in Bq. rewrite Pd, E4 in B5.
    pose proof I3 as (_ & _ & _ & _ & _ & C1 & C2 & C3 & _). cbv zeta in *. rewrite Ei3, Q1 in C1. rewrite Ei3, Q2, nat_value_size in C2. rewrite Ei3, Q3, nat_value_size in C3.
    rewrite pmode_str_inv in C1. apply Ok_inj in C1, C2, C3. rewrite <- B1, <- B2, <- B3, <- C1, <- C2, <- C3 in B6.
    split; [exact I3|]. repeat (split; [congruence|]). exact U.
Qed.

(** Save and reload differ, from a config with references into the heap. *)
Definition reload_differs (id : option loc) (h : heap) : Prop :=
  exists o0 o1 p o1' h' o3 h3, init 1 no_env wit_rng wit_kw h = Ok (o0, h) /\ load_config 1 no_env wit_rng o0 (cfg3 id) h = Ok (o1, h) /\
    make_config o1 h = (p, o1', h') /\ load_value 1 no_env wit_rng o0 p h' = Ok (o3, h3) /\ differ (o_core o1) (o_core o3).

Lemma zero_run c kid k g q : cca_wf c -> init_weights (ext c) (int_ c) (pm c) = Ok (wl c) -> ext c = 1%nat -> int_ c = 1%nat -> pm c = Circular -> dt c = 1 ->
  init_layer 1 1 Circular kid = Ok (idl c) -> odd_kernel 1 kid -> uses_kernel c k -> odd_kernel 1 k -> gens c = [g] -> pers c = [q] -> act_ok g = Ok tt -> act_ok q = Ok tt ->
  cca_forward c (zero_grid 1 1 3 3) = Ok (build 1 1 3 3 (fun _ _ _ _ => clamp 0 1 (act_fn g 0))).
Proof.
  intros Hc Hw E1 E2 E3 E4 Hil (Si & _) U (Sk & _) Eg Eq Ag Aq. unfold uses_kernel in U. rewrite E1, E2, E3 in U.
  assert (P : (0 < 1)%nat) by lia.
  destruct (layer_of_kernel 1 1 Circular kid 1 _ P P Si Hil) as (_ & P1 & M1). destruct (layer_of_kernel 1 1 Circular k 1 _ P P Sk U) as (_ & P2 & M2).
  assert (A : exists u', cca_forward c (zero_grid 1 1 3 3) = Ok u').
  { apply cca_accepts; [exact Hc|apply twf_build|]. rewrite E1, E2, Eg, Eq. unfold fits. rewrite P1, P2, M1, M2.
    change (tC (zero_grid 1 1 3 3)) with 1%nat. change (tH (zero_grid 1 1 3 3)) with 3%nat. change (tW (zero_grid 1 1 3 3)) with 3%nat.
    unfold acts_ok. cbn [fold_right List.length]. repeat split; try lia; rewrite ?Ag, ?Aq; reflexivity. }
  destruct A as [u' E]. rewrite E. f_equal. replace (zero_grid 1 1 3 3) with (zero_grid 1 (ext c) 3 3) in E by (rewrite E1; reflexivity). rewrite (zero_step c 1 3 3 u' Hc Hw E). rewrite E1. apply build_ext. intros.
  unfold gen_sum0. rewrite E2, E4, Eg. cbn [rsum nth INR]. f_equal. field.
Qed.

Lemma zero_differ c c' kid kid' k k' g q g' q' : cca_wf c -> cca_wf c' -> init_weights (ext c) (int_ c) (pm c) = Ok (wl c) -> init_weights (ext c') (int_ c') (pm c') = Ok (wl c') ->
  ext c = 1%nat -> int_ c = 1%nat -> pm c = Circular -> dt c = 1 -> ext c' = 1%nat -> int_ c' = 1%nat -> pm c' = Circular -> dt c' = 1 ->
  init_layer 1 1 Circular kid = Ok (idl c) -> odd_kernel 1 kid -> uses_kernel c k -> odd_kernel 1 k -> init_layer 1 1 Circular kid' = Ok (idl c') -> odd_kernel 1 kid' -> uses_kernel c' k' -> odd_kernel 1 k' ->
  gens c = [g] -> pers c = [q] -> act_ok g = Ok tt -> act_ok q = Ok tt -> gens c' = [g'] -> pers c' = [q'] -> act_ok g' = Ok tt -> act_ok q' = Ok tt ->
  clamp 0 1 (act_fn g 0) <> clamp 0 1 (act_fn g' 0) -> differ c c'.
Proof.
  intros. eexists (zero_grid 1 1 3 3), _, _. split; [apply twf_build|]. split.
  { unfold in_unit, zero_grid, build. cbn [tdata]. apply Forall_forall. intros v Hv. apply in_map_iff in Hv as (n & <- & _). lra. }
  split; [eapply (zero_run c kid k); eassumption|]. split; [eapply (zero_run c' kid' k'); eassumption|].
  intros Q. apply (f_equal (fun t => get t 0 0 0 0)) in Q. rewrite !get_build in Q by lia. contradiction.
Qed.

Lemma moore1_kernel : exists k, get_kernel moore1 = Ok k /\ odd_kernel 1 k /\ get k 0 0 0 0 = / 8.
Proof.
  destruct (moore_spec moore1 1 eq_refl eq_refl (le_n 1)) as (k & Hk & _ & G). exists k. split; [exact Hk|].
  destruct (get_kernel_odd _ _ Hk) as (r & O & C). assert (r = 1%nat) as ->.
  { destruct C as [[C _]|[_ C]]; [discriminate|]. change (VInt 1) with (VInt (Z.of_nat 1)) in C. cbn [moore1 dget String.eqb Ascii.eqb Bool.eqb] in C. injection C. lia. }
  split; [exact O|]. rewrite G by lia. cbn [Nat.eqb andb]. f_equal. cbn [INR Nat.mul Nat.add]. ring.
Qed.

Lemma reload_zero g q g' q' gd pd : make_fn gd = Ok [g] -> make_fn pd = Ok [q] ->
  make_fn (dset "parameters" (VVec (fn_params [g])) gd) = Ok [g'] -> make_fn (dset "parameters" (VVec (fn_params [q])) pd) = Ok [q'] ->
  act_ok g = Ok tt -> act_ok q = Ok tt -> act_ok g' = Ok tt -> act_ok q' = Ok tt ->
  clamp 0 1 (act_fn g 0) <> clamp 0 1 (act_fn g' 0) -> reload_differs None [moore1; gd; pd].
Proof.
  intros Hg Hq Hg' Hq' A1 A2 A3 A4 D. destruct moore1_kernel as (k & Hk & Ok1 & _).
  destruct (make3 None default_id_kernel k KPNone (VInt 1) [g] [q] moore1 gd pd []) as (o0 & o1 & M); auto.
  destruct (save3 None default_id_kernel k [g] [q] [g'] [q'] moore1 gd pd [] o0 o1 M) as (p & o1' & h' & o3 & h3 & HM & HL & I3 & B1 & B2 & B3 & B4 & B5 & B6 & B7 & B8); eauto.
  { exists 1%nat. split; [lia|]. destruct M as (_ & _ & _ & _ & _ & _ & _ & _ & _ & _ & _ & _ & _ & _ & _ & _ & _ & Er). cbv zeta in Er.
    change (dget "radius" (hget [moore1; gd; pd] 0%nat)) with (Some (VInt 1)) in Er. change (Z.of_nat 1) with 1%Z. congruence. }
  { exists KPNone. reflexivity. }
  destruct M as (Hi & HL0 & I1 & _ & _ & _ & _ & _ & C1 & C2 & C3 & C4 & C5 & C6 & C7 & C8 & _). cbv zeta in *.
  exists o0, o1, p, o1', h', o3, h3. repeat (split; [assumption|]).
  destruct (obj_inv_wf _ I1) as (W1 & _). destruct (obj_inv_wf _ I3) as (W3 & _).
  destruct I1 as (_ & _ & _ & _ & X1 & _). destruct I3 as (_ & _ & _ & _ & X3 & _). cbv zeta in *.
  eapply (zero_differ (o_core o1) (o_core o3) default_id_kernel default_id_kernel k k g q g' q'); eauto using default_id_odd.
Qed.

(** SmoothIntervals lose their intervals. *)
Definition iv_cfg : dict := [("name", VStr "SmoothIntervals"); ("parameters", VMat [(-1, 1)]); ("alpha", VNum 1); ("mode", VInt 0)].

Lemma sigmoid_open x mu al : 0 < sigmoid_1 x mu al < 1.
Proof.
  unfold sigmoid_1. pose proof (exp_pos (- 4 * (x - mu) / al)). split.
  - apply Rdiv_lt_0_compat; lra.
  - apply (Rmult_lt_reg_r (1 + exp (- 4 * (x - mu) / al))); [lra|]. unfold Rdiv. rewrite Rmult_assoc, Rinv_l by lra. lra.
Qed.

Lemma iv_positive : 0 < clamp 0 1 (act_fn (ASmoothIntervals [(-1, 1)] 1 false) 0).
Proof.
  cbn [act_fn]. cbv zeta. cbn [interval_sum fold_left fst snd]. pose proof (sigmoid_open 0 (-1) 1). pose proof (sigmoid_open 0 1 1).
  set (a := sigmoid_1 0 (-1) 1) in *. set (b := sigmoid_1 0 1 1) in *. assert (0 < a * (1 - b)) by (apply Rmult_lt_0_compat; lra).
  unfold clamp. rewrite Rmax_left by lra. apply Rmin_glb_lt; lra.
Qed.

Lemma nonzero1 : nonzero 1 = true.
Proof. apply nonzero_true. lra. Qed.

Lemma iv_ok ivs : act_ok (ASmoothIntervals ivs 1 false) = Ok tt.
Proof. cbn [act_ok]. rewrite nonzero1. destruct ivs; reflexivity. Qed.

Lemma iv_make : make_fn iv_cfg = Ok [ASmoothIntervals [(-1, 1)] 1 false].
Proof. reflexivity. Qed.

Lemma intervals_differ : reload_differs None [moore1; iv_cfg; iv_cfg].
Proof.
  apply (reload_zero (ASmoothIntervals [(-1, 1)] 1 false) (ASmoothIntervals [(-1, 1)] 1 false) (ASmoothIntervals [] 1 false) (ASmoothIntervals [] 1 false));
    try exact iv_make; try (apply intervals_reread; [reflexivity|exact iv_make]); try apply iv_ok.
  rewrite empty_intervals. pose proof iv_positive. intros E. rewrite E in H. rewrite clamp_lo in H by lra. lra.
Qed.

(** Amplitudes are lost. *)
Definition amp_cfg : dict := [("name", VStr "GaussianMixture"); ("parameters", VVec [1 / 2; 0; 1 / 10]); ("mode", VInt 0)].

Lemma amp_make : make_fn amp_cfg = Ok [AMixture [(1 / 2, 0, 1 / 10)] false].
Proof. reflexivity. Qed.

Lemma mix_ok a : act_ok (AMixture [(a, 0, 1 / 10)] false) = Ok tt.
Proof.
  pose proof eps9_pos'. cbn [act_ok forallb snd fst]. replace (nonzero (eps9 + 1 / 10)) with true by (symmetry; apply nonzero_true; lra). reflexivity.
Qed.

Lemma mix_at0 a : 0 <= a <= 1 -> clamp 0 1 (act_fn (AMixture [(a, 0, 1 / 10)] false) 0) = a.
Proof.
  intros H. cbn [act_fn mixture_sum fold_left]. assert (E : gauss 0 (1 / 10) 0 = 1).
  { unfold gauss. replace (- ((0 - 0) / (eps9 + 1 / 10)) ^ 2 / 2) with 0; [apply exp_0|unfold Rdiv; ring]. }
  rewrite E. rewrite !clamp_unit; try lra. rewrite clamp_unit; lra.
Qed.

Lemma amplitude_differ : reload_differs None [moore1; amp_cfg; amp_cfg].
Proof.
  apply (reload_zero (AMixture [(1 / 2, 0, 1 / 10)] false) (AMixture [(1 / 2, 0, 1 / 10)] false) (AMixture [(1, 0, 1 / 10)] false) (AMixture [(1, 0, 1 / 10)] false));
    try exact amp_make; try (rewrite (mixture_reread amp_cfg _ false eq_refl eq_refl); reflexivity); try apply mix_ok.
  rewrite !mix_at0; lra.
Qed.

(** A non-default identity kernel is lost. *)
Definition const_cfg (a : R) : dict := [("name", VStr "Polynomial"); ("coefficients", VVec [a]); ("mode", VInt 0)].

Lemma const_value a x : act_fn (APolynomial [a] false) x = a.
Proof. cbn [act_fn poly_from pow]. ring. Qed.

Lemma id_run c kid k : cca_wf c -> init_weights (ext c) (int_ c) (pm c) = Ok (wl c) -> ext c = 1%nat -> int_ c = 1%nat -> pm c = Circular -> dt c = 1 ->
  init_layer 1 1 Circular kid = Ok (idl c) -> odd_kernel 1 kid -> uses_kernel c k -> odd_kernel 1 k -> gens c = [APolynomial [0] false] -> pers c = [APolynomial [1] false] ->
  0 <= get kid 0 0 0 0 <= 1 -> exists v, cca_forward c (dot 0 0) = Ok v /\ get v 0 0 1 1 = get kid 0 0 0 0 / 2.
Proof.
  intros Hc Hw E1 E2 E3 E4 Hil (Si & _) U (Sk & _) Eg Eq B. unfold uses_kernel in U. rewrite E1, E2, E3 in U.
  assert (P : (0 < 1)%nat) by lia.
  destruct (layer_of_kernel 1 1 Circular kid 1 _ P P Si Hil) as (_ & P1 & M1). destruct (layer_of_kernel 1 1 Circular k 1 _ P P Sk U) as (_ & P2 & M2).
  assert (A : exists u', cca_forward c (dot 0 0) = Ok u').
  { apply cca_accepts; [exact Hc|apply dot_wf|]. rewrite E1, E2, Eg, Eq. unfold fits. rewrite P1, P2, M1, M2.
    change (tC (dot 0 0)) with 1%nat. change (tH (dot 0 0)) with 3%nat. change (tW (dot 0 0)) with 3%nat. cbn [List.length]. repeat split; try lia. }
  destruct A as [v E]. exists v. split; [exact E|].
  destruct (cca_rule c (dot 0 0) v Hc (dot_wf 0 0) Hw E) as (m & idn & nb & Hm & Hi & _ & Hr).
  assert (Em : m = dot 0 0). { rewrite mask_if_zero_dead in Hm by (try apply dot_wf). apply Ok_inj in Hm. rewrite <- Hm. reflexivity. } subst m.
  apply shape_inv in Si as (K1 & K2 & K3 & K4).
  destruct (nbhd_conv_spec 1 1 kid (idl c) 1 (dot 0 0) P P K3 K4 Hil) as (w & Hw' & _ & G); try reflexivity; try (cbn; lia).
  rewrite Hi in Hw'. apply Ok_inj in Hw'. subst w.
  rewrite Hr; [|cbn; lia|rewrite E1; lia|cbn; lia|cbn; lia]. rewrite E1, E2, E4, Eg, Eq. cbn [rsum nth INR]. rewrite !const_value.
  rewrite G by (cbn; lia). change (1 mod 1)%nat with 0%nat. cbn [Nat.eqb]. change (0 / (1 / 1))%nat with 0%nat.
  change (tH (dot 0 0)) with 3%nat. change (tW (dot 0 0)) with 3%nat. rewrite dot_sum by lia. rewrite dot_get by lia. cbn [Nat.eqb andb].
  assert (Bg : bget kid 0 0 0 0 = get kid 0 0 0 0) by (unfold bget; rewrite K1, K2, K3, K4; reflexivity). rewrite Bg.
  unfold clamp. rewrite Rmax_left, Rmin_left; lra.
Qed.

Lemma identity_differ : reload_differs (Some 3%nat) [moore1; const_cfg 0; const_cfg 1; moore1].
Proof.
  destruct moore1_kernel as (k & Hk & Ok1 & V).
  destruct (make3 (Some 3%nat) k k KPNone (VInt 1) [APolynomial [0] false] [APolynomial [1] false] moore1 (const_cfg 0) (const_cfg 1) [moore1]) as (o0 & o1 & M); auto.
  destruct (save3 (Some 3%nat) k k _ _ [APolynomial [0] false] [APolynomial [1] false] moore1 (const_cfg 0) (const_cfg 1) [moore1] o0 o1 M) as (p & o1' & h' & o3 & h3 & HM & HL & I3 & B1 & B2 & B3 & B4 & B5 & B6 & B7 & B8); eauto.
  { exists 1%nat. split; [lia|]. destruct M as (_ & _ & _ & _ & _ & _ & _ & _ & _ & _ & _ & _ & _ & _ & _ & _ & _ & Er). cbv zeta in Er.
    change (dget "radius" (hget [moore1; const_cfg 0; const_cfg 1; moore1] 0%nat)) with (Some (VInt 1)) in Er. change (Z.of_nat 1) with 1%Z. congruence. }
  { exists KPNone. reflexivity. }
  destruct M as (Hi & HL0 & I1 & _ & _ & _ & _ & _ & C1 & C2 & C3 & C4 & C5 & C6 & C7 & C8 & _). cbv zeta in *.
  exists o0, o1, p, o1', h', o3, h3. repeat (split; [assumption|]).
  destruct (obj_inv_wf _ I1) as (W1 & _). destruct (obj_inv_wf _ I3) as (W3 & _).
  destruct I1 as (_ & _ & _ & _ & X1 & _). destruct I3 as (_ & _ & _ & _ & X3 & _). cbv zeta in *.
  destruct (id_run (o_core o1) k k) as (v & Ev & Gv); auto; [lra|].
  destruct (id_run (o_core o3) default_id_kernel k) as (v' & Ev' & Gv'); auto using default_id_odd. { change (get default_id_kernel 0 0 0 0) with 0. lra. }
  exists (dot 0 0), v, v'. split; [apply dot_wf|]. split; [apply dot_unit|]. split; [exact Ev|]. split; [exact Ev'|].
  intros Q. rewrite Q in Gv. change (get default_id_kernel 0 0 0 0) with 0 in Gv'. lra.
Qed.

(** ** Several internal channels *)
Lemma make_fn_length d fs : make_fn d = Ok fs -> (List.length fs <= 1)%nat.
Proof.
  unfold make_fn. intros H. apply bind_ok in H as (nm & _ & H). cbv zeta in H.
  assert (One : forall m : res act, (let* a := m in Ok [a]) = Ok fs -> (List.length fs <= 1)%nat).
  { intros m E. apply bind_ok in E as (a & _ & E). apply Ok_inj in E. subst. cbn. lia. }
  repeat match type of H with (if ?b then _ else _) = _ => destruct b; [exact (One _ H)|] end.
  apply bind_ok in H as (x & _ & H). apply Ok_inj in H. subst. cbn. lia.
Qed.

Lemma load_channels fuel ev rng o cf h o' h' u : obj_inv o -> load_config fuel ev rng o cf h = Ok (o', h') -> int_ (o_core o') <> 1%nat ->
  twf u -> tC u = ext (o_core o') -> (0 < tH u)%nat -> (0 < tW u)%nat -> fits (idl (o_core o')) u -> fits (nbl (o_core o')) u ->
  cca_forward (o_core o') u = Err AssertionError.
Proof.
  intros I H N Hu Ec H1 H2 F1 F2. apply (load_with_inv (init fuel ev rng) o cf h o' h' (init_inv fuel ev rng) I) in H as (I' & _ & o1 & L & _).
  destruct (ld_gen _ _ _ _ L) as (g & _ & _ & Hg). apply make_fn_length in Hg.
  destruct (obj_inv_wf _ I') as (W & _). apply cca_bad_count; auto. destruct I' as (_ & P & _). cbv zeta in P. lia.
Qed.
