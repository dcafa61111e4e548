From Coq Require Import Reals ZArith List String Bool Arith Lia Lra.
From Verif Require Import Base PyDict Tensor MActivations MKernels MCommon MCca MConfig MWrap MWrapNew SKern SCca SConfig.
From Verif Require Import PTensor PAct PKern PNca PDyn PStep PCca PConfig PConfigX PConfigY PConfigZ PConfigW PConfigV.
Import ListNotations.
Open Scope R_scope.
Open Scope string_scope.

(** ** What unpickling yields *)
Lemma alloc_opt_grows d h : grows h (snd (alloc_opt d h)).
Proof. destruct d as [d|]; cbn [alloc_opt alloc fst snd]; [exists [d]; reflexivity|apply grows_refl]. Qed.

Lemma alloc_opt_get d h h' : grows (snd (alloc_opt d h)) h' -> option_map (hget h') (fst (alloc_opt d h)) = d.
Proof.
  destruct d as [d|]; cbn [alloc_opt alloc fst snd option_map]; [|reflexivity]. intros [x ->]. f_equal. unfold hget.
  rewrite <- app_assoc. rewrite app_nth2 by lia. rewrite Nat.sub_diag. reflexivity.
Qed.

Lemma unpickle_vals p h h' : grows (snd (unpickle p h)) h' -> let cf := fst (unpickle p h) in
  option_map (hget h') (c_id cf) = p_id p /\ option_map (hget h') (c_nb cf) = p_nb p /\ option_map (hget h') (c_gen cf) = p_gen p /\
  option_map (hget h') (c_per cf) = (if p_same p then p_gen p else p_per p) /\ c_dt cf = p_dt p /\ c_inst cf = p_inst p.
Proof.
  unfold unpickle. cbv zeta. cbn [fst snd c_id c_nb c_gen c_per c_dt c_inst].
  pose proof (alloc_opt_grows (p_nb p) (snd (alloc_opt (p_id p) h))) as Ga. pose proof (alloc_opt_get (p_id p) h h') as Va.
  set (a := alloc_opt (p_id p) h) in *.
  pose proof (alloc_opt_grows (p_gen p) (snd (alloc_opt (p_nb p) (snd a)))) as Gb. pose proof (alloc_opt_get (p_nb p) (snd a) h') as Vb.
  set (b := alloc_opt (p_nb p) (snd a)) in *.
  pose proof (alloc_opt_grows (p_per p) (snd (alloc_opt (p_gen p) (snd b)))) as Gg. pose proof (alloc_opt_get (p_gen p) (snd b) h') as Vg.
  set (g := alloc_opt (p_gen p) (snd b)) in *. pose proof (alloc_opt_get (p_per p) (snd g) h') as Vq.
  intros G. assert (G' : grows (snd g) h') by (destruct (p_same p); [exact G|eauto using grows_trans]).
  split; [eauto using grows_trans|]. split; [eauto using grows_trans|]. split; [eauto using grows_trans|]. split; [|split; reflexivity].
  destruct (p_same p); auto.
Qed.

(** ** The rule a configuration without file names gives *)
Definition frame (c c' : cca) : Prop := ext c' = ext c /\ int_ c' = int_ c /\ pm c' = pm c /\ thr c' = thr c.

Lemma frame_trans a b c : frame a b -> frame b c -> frame a c.
Proof. unfold frame. intros (A1 & A2 & A3 & A4) (B1 & B2 & B3 & B4). repeat split; congruence. Qed.

Lemma frame_sym a b : frame a b -> frame b a.
Proof. unfold frame. intros (A1 & A2 & A3 & A4). repeat split; congruence. Qed.

Lemma same_kw_frame o o' : obj_inv o -> obj_inv o' -> o_inst o = o_inst o' -> frame (o_core o) (o_core o').
Proof.
  intros (_ & _ & _ & _ & _ & A1 & A2 & A3 & A4 & _) (_ & _ & _ & _ & _ & B1 & B2 & B3 & B4 & _) E. cbv zeta in *. rewrite E in *.
  unfold frame. repeat split; congruence.
Qed.

Definition plain (pc : pcfg) : Prop := match p_inst pc with Some kw => clean kw | None => True end.

Lemma om_some {A B} (f : A -> B) (x : option A) a y : option_map f x = y -> x = Some a -> y = Some (f a).
Proof. intros <- ->. reflexivity. Qed.

Lemma load_core fuel fuel' ev ev' rng rng' o o' p h h' o1 h1 o2 h2 : obj_inv o -> obj_inv o' -> plain p -> (p_inst p = None -> frame (o_core o) (o_core o')) ->
  load_value fuel ev rng o p h = Ok (o1, h1) -> load_value fuel' ev' rng' o' p h' = Ok (o2, h2) -> o_core o1 = o_core o2 /\ (frame (o_core o) (o_core o1) \/ p_inst p <> None).
Proof.
  intros I I' Pl Fr H1 H2. unfold load_value, load_config in H1, H2.
  apply (load_with_inv _ _ _ _ _ _ (init_inv fuel ev rng) I) in H1 as (J1 & G1 & a & L1 & Ia & C1).
  apply (load_with_inv _ _ _ _ _ _ (init_inv fuel' ev' rng') I') in H2 as (J2 & G2 & b & L2 & Ib & C2).
  destruct (unpickle_vals p h h1 G1) as (A1 & A2 & A3 & A4 & A5 & A6). destruct (unpickle_vals p h' h2 G2) as (B1 & B2 & B3 & B4 & B5 & B6). cbv zeta in *.
  rewrite A6 in C1. rewrite B6 in C2.
  assert (F : frame (o_core a) (o_core b)).
  { unfold plain in Pl. destruct (p_inst p) as [kw|].
    - destruct Pl as [P1 P2]. destruct fuel as [|f]; [discriminate|]. destruct fuel' as [|f']; [discriminate|]. rewrite init_plain in C1, C2 by assumption.
      apply bind_ok in C1 as (x & X & C1). apply Ok_inj in C1. injection C1 as -> _. apply bind_ok in C2 as (y & Y & C2). apply Ok_inj in C2. injection C2 as -> _.
      apply same_kw_frame; auto. apply fresh_inv in X as (_ & _ & _ & _ & _ & _ & _ & -> & _). apply fresh_inv in Y as (_ & _ & _ & _ & _ & _ & _ & -> & _). reflexivity.
    - destruct C1 as [-> _]. destruct C2 as [-> _]. apply Fr. reflexivity. }
  split.
  - destruct F as (F1 & F2 & F3 & F4).
    destruct (ld_id _ _ _ _ L1) as (k1 & Hk1 & Hi1). destruct (ld_id _ _ _ _ L2) as (k2 & Hk2 & Hi2).
    destruct (ld_nb _ _ _ _ L1) as (l1 & n1 & N1 & _ & Hn1 & Hl1 & _). destruct (ld_nb _ _ _ _ L2) as (l2 & n2 & N2 & _ & Hn2 & Hl2 & _).
    destruct (ld_gen _ _ _ _ L1) as (g1 & Cg1 & _ & Hg1). destruct (ld_gen _ _ _ _ L2) as (g2 & Cg2 & _ & Hg2).
    destruct (ld_per _ _ _ _ L1) as (q1 & Cq1 & _ & Hq1). destruct (ld_per _ _ _ _ L2) as (q2 & Cq2 & _ & Hq2).
    pose proof (ld_ext _ _ _ _ L1) as X1. pose proof (ld_int _ _ _ _ L1) as X2. pose proof (ld_pm _ _ _ _ L1) as X3. pose proof (ld_thr _ _ _ _ L1) as X4. pose proof (ld_dt _ _ _ _ L1) as X5. pose proof (ld_wl _ _ _ _ L1) as X6.
    pose proof (ld_ext _ _ _ _ L2) as Y1. pose proof (ld_int _ _ _ _ L2) as Y2. pose proof (ld_pm _ _ _ _ L2) as Y3. pose proof (ld_thr _ _ _ _ L2) as Y4. pose proof (ld_dt _ _ _ _ L2) as Y5. pose proof (ld_wl _ _ _ _ L2) as Y6.
    assert (k1 = k2) as ->.
    { destruct Hk1 as [[E1 ->]|(z1 & E1 & K1)]; destruct Hk2 as [[E2 ->]|(z2 & E2 & K2)]; try reflexivity; rewrite E1 in A1; rewrite E2 in B1; cbn [option_map] in A1, B1; try congruence. }
    pose proof (om_some _ _ _ _ A2 N1) as Z1. pose proof (om_some _ _ _ _ B2 N2) as Z2. rewrite Z1 in Z2. injection Z2 as Z2. rewrite Z2 in Hn1.
    pose proof (om_some _ _ _ _ A3 Cg1) as Z3. pose proof (om_some _ _ _ _ B3 Cg2) as Z4. rewrite Z3 in Z4. injection Z4 as Z4. rewrite Z4 in Hg1.
    pose proof (om_some _ _ _ _ A4 Cq1) as Z5. pose proof (om_some _ _ _ _ B4 Cq2) as Z6. rewrite Z5 in Z6. injection Z6 as Z6. rewrite Z6 in Hq1.
    rewrite A5 in X5. rewrite B5 in Y5.
    rewrite F1, F2, F3 in Hi2, Hl2, Y6.
    destruct (o_core o1) as [e1 i1 m1 t1 il1 nl1 wl1 gs1 ps1 d1]. destruct (o_core o2) as [e2 i2 m2 t2 il2 nl2 wl2 gs2 ps2 d2].
    cbn [ext int_ pm thr idl nbl wl gens pers dt] in *. f_equal; congruence.
  - destruct (p_inst p); [right; discriminate|]. left. destruct C1 as [-> _].
    pose proof (ld_ext _ _ _ _ L1) as X1. pose proof (ld_int _ _ _ _ L1) as X2. pose proof (ld_pm _ _ _ _ L1) as X3. pose proof (ld_thr _ _ _ _ L1) as X4. repeat split; assumption.
Qed.

Lemma restore_value fuel ev rng o F pc h : found ev (strip_newlines F) = Some (FConfig pc) ->
  restore_config fuel ev rng o F h = load_value fuel ev rng o pc h.
Proof. intros E. unfold restore_config. rewrite (restore_found _ _ _ _ _ _ E). reflexivity. Qed.

Lemma kept_frame o o' : kept o o' -> frame (o_core o) (o_core o').
Proof. intros (A1 & A2 & A3 & A4 & _). cbv zeta in *. repeat split; assumption. Qed.

(** A constructor call with a configuration file: up to the parameters of a log, the rule of that
    file. *)
Lemma init_config fuel ev rng kw h F pc o h' : query_kwargs "ca_config" VNone kw = VStr F -> found ev (strip_newlines F) = Some (FConfig pc) ->
  init fuel ev rng kw h = Ok (o, h') -> exists f o0 o1, fuel = S f /\ fresh (rng 0%nat) kw = Ok o0 /\
    load_value f ev (fun k => rng (S k)) o0 pc h = Ok (o1, h') /\ frame (o_core o1) (o_core o) /\
    match query_kwargs "input_filepath" VNone kw with
    | VNone => o = o1
    | VStr p => exists e v, fs_get (e_fs ev) p = Some e /\ elite_params e = Ok v /\ set_params o1 v = Ok o
    | _ => False
    end.
Proof.
  intros C Fd H. destruct fuel as [|f]; [discriminate|]. cbn [init] in H. rewrite C in H. apply bind_ok in H as (o0 & H0 & H).
  apply bind_ok in H as ([o1 h1] & H1 & H). exists f, o0, o1. split; [reflexivity|]. split; [exact H0|].
  change (restore_with (init f ev (fun k => rng (S k))) ev o0 F h) with (restore_config f ev (fun k => rng (S k)) o0 F h) in H1.
  rewrite (restore_value _ _ _ _ _ _ _ Fd) in H1. destruct (query_kwargs "input_filepath" VNone kw) as [| | | |p| | |]; try discriminate.
  - apply Ok_inj in H. injection H as <- <-. split; [exact H1|]. split; [repeat split|reflexivity].
  - destruct (fs_get (e_fs ev) p) as [e|] eqn:Ee; [|discriminate]. apply bind_ok in H as (v & Hv & H). apply bind_ok in H as (o' & Ho & H).
    apply Ok_inj in H. injection H as <- <-. cbn [fst snd] in *. split; [exact H1|]. split; [|exists e, v; auto].
    apply set_params_inv in Ho as (l & g & q & k & _ & _ & _ & _ & _ & _ & _ & _ & _ & _ & K). apply kept_frame. exact K.
Qed.

Lemma again_config fuel ev rng rng' kw h F pc r o2 h2 : query_kwargs "ca_config" VNone kw = VStr F -> found ev (strip_newlines F) = Some (FConfig pc) -> plain pc ->
  init fuel ev rng kw h = Ok r -> load_again fuel ev rng' kw r = Ok (o2, h2) ->
  forall f' ev' rng2 dr o0 h0 o1 h1, fresh dr kw = Ok o0 -> load_value f' ev' rng2 o0 pc h0 = Ok (o1, h1) -> o_core o2 = o_core o1.
Proof.
  intros C Fd Pl Hi Ha f' ev' rng2 dr o0 h0 o1 h1 Hf Hl. destruct r as [o h']. unfold load_again in Ha. rewrite C in Ha. cbn [fst snd] in Ha.
  rewrite (restore_value _ _ _ _ _ _ _ Fd) in Ha. pose proof (init_inv _ _ _ _ _ _ _ Hi) as [I _].
  destruct (init_config _ _ _ _ _ _ _ _ _ C Fd Hi) as (f & oa & ob & -> & Fa & La & Fr & _).
  pose proof (fresh_inv _ _ _ Hf) as (I0 & _ & _ & _ & _ & _ & _ & E0 & _). pose proof (fresh_inv _ _ _ Fa) as (Ia & _ & _ & _ & _ & _ & _ & Ea & _).
  assert (F0 : frame (o_core o0) (o_core oa)) by (apply same_kw_frame; auto; congruence).
  assert (FA : p_inst pc = None -> frame (o_core o0) (o_core o)).
  { intros N. destruct (load_core _ _ _ _ _ _ _ _ _ _ _ _ _ _ _ Ia Ia Pl (fun _ => frame_trans _ _ _ (frame_sym _ _ F0) F0) La La) as [_ [X|X]]; [|contradiction].
    eauto using frame_trans. }
  symmetry. eapply load_core; [exact I0|exact I|exact Pl|exact FA|exact Hl|exact Ha].
Qed.

Lemma again_missing fuel ev rng' kw r F : query_kwargs "ca_config" VNone kw = VStr F -> found ev (strip_newlines F) = None -> load_again fuel ev rng' kw r = Ok r.
Proof.
  intros C Fd. unfold load_again. rewrite C. unfold restore_config, restore_with. cbv zeta. unfold found in Fd. rewrite Fd. destruct r; reflexivity.
Qed.

(** ** Setting the parameters of the same log again *)
Lemma firstn_again {A} n (l : list A) : firstn (List.length (firstn n l)) l = firstn n l.
Proof. rewrite firstn_length. destruct (Nat.le_gt_cases n (List.length l)); [rewrite Nat.min_l by lia; reflexivity|]. rewrite Nat.min_r by lia. rewrite firstn_all, firstn_all2 by lia. reflexivity. Qed.

Lemma set_again o v o' : set_params o v = Ok o' -> set_params o' v = Ok o'.
Proof.
  intros H. apply set_params_inv in H as (l & g & q & k & E1 & L & E2 & E3 & E4 & P & F1 & F2 & K & U & Kp).
  destruct Kp as (A1 & A2 & A3 & A4 & A5 & A6 & A7 & A8 & A9 & A10 & A11 & A12 & A13). cbv zeta in *.
  assert (V : v = (fn_params g ++ fn_params q ++ skipn (fn_count (o_core o)) v)%list).
  { rewrite app_assoc, P, firstn_skipn. reflexivity. }
  set (t := skipn (fn_count (o_core o)) v) in *. unfold set_params. cbv zeta. rewrite <- E3, <- E4, V, set_acts_self. cbn [bind fst snd]. rewrite set_acts_self. cbn [bind fst snd].
  rewrite E2, firstn_again, A8, K. cbn [bind]. unfold mixture_kernel_of in K. apply bind_ok in K as (r & _ & K). apply mixture_kernel_shape in K as (_ & _ & _ & Ek).
  rewrite Ek. cbn [bind]. unfold uses_kernel in U. rewrite U. cbn [bind]. f_equal. rewrite E3, E4. rewrite <- A8, <- E2. destruct o' as [c' kp' ra' pk' nb' ge' pe' in']. destruct c'. reflexivity.
Qed.

Lemma log_again_same fuel ev rng kw h r : query_kwargs "ca_config" VNone kw = VNone -> init fuel ev rng kw h = Ok r -> log_again ev kw r = Ok r.
Proof.
  intros C H. destruct fuel as [|f]; [discriminate|]. cbn [init] in H. rewrite C in H. apply bind_ok in H as (o0 & H0 & H). cbn [bind fst snd] in H. unfold log_again.
  destruct (query_kwargs "input_filepath" VNone kw) as [| | | |p| | |]; try discriminate; [reflexivity|]. destruct (fs_get (e_fs ev) p) as [e|]; [|discriminate].
  apply bind_ok in H as (v & Hv & H). apply bind_ok in H as (o' & Ho & H). apply Ok_inj in H. subst r. cbn [fst snd]. rewrite Hv. cbn [bind]. rewrite (set_again _ _ _ Ho). reflexivity.
Qed.

(** ** Actions *)
Lemma params_size_spec o : params_size o = (fn_count (o_core o) + match o_kpar o with KPNone => 1 | k => List.length (kp_flat k) end)%nat.
Proof.
  unfold params_size, get_params, fn_count. destruct (o_kpar o); cbv zeta; rewrite ?app_length; lia.
Qed.

Lemma action_accepted o n l r a : obj_inv o -> o_kpar o = KPVec l -> List.length l = (3 * n)%nat -> (0 < n)%nat -> o_radius o = VInt (Z.of_nat r) -> (0 < r)%nat ->
  List.length a = params_size o -> (forall x, In x a -> 0 <= x) -> exists o', set_params o a = Ok o' /\ get_params o' = Some a.
Proof.
  intros I Ek Ll Hn Er Hr La Pa. rewrite params_size_spec, Ek in La. cbn [kp_flat] in La.
  assert (X : exists o', set_params o a = Ok o').
  { apply (set_accepts o a l r Ek Er); [apply obj_inv_wf; exact I|]. split; [lia|]. apply (triple_kernel_ok r _ n); [lia|exact Hn| |].
    - rewrite firstn_length, skipn_length. lia.
    - intros x Hx. apply Pa. rewrite <- (firstn_skipn (fn_count (o_core o)) a). apply in_or_app. right. rewrite <- (firstn_skipn (List.length l) (skipn _ a)). apply in_or_app. left. exact Hx. }
  destruct X as [o' H]. exists o'. split; [exact H|]. apply set_get in H as (v & E & ->). unfold get_params in E. rewrite Ek in E. cbv zeta in E. injection E as <-. f_equal. apply firstn_all2.
  rewrite app_length. cbn [kp_flat]. unfold fn_count in La. lia.
Qed.

Lemma init_S f ev rng kw h : init (S f) ev rng kw h =
  let* o := fresh (rng 0%nat) kw in
  let* r := match query_kwargs "ca_config" VNone kw with
            | VNone => Ok (o, h)
            | VStr p => restore_config f ev (fun k => rng (S k)) o p h
            | _ => Err Unmodelled
            end in
  match query_kwargs "input_filepath" VNone kw with
  | VNone => Ok r
  | VStr p =>
      match fs_get (e_fs ev) p with
      | None => Err FileNotFoundError
      | Some e => let* v := elite_params e in let* o' := set_params (fst r) v in Ok (o', snd r)
      end
  | _ => Err Unmodelled
  end.
Proof. reflexivity. Qed.

(** ** A wrapper that ignores the log *)
Definition both_kw : dict := [("kernel_radius", VInt 1); ("kernel_peaks", VInt 1); ("ca_config", VStr "c"); ("input_filepath", VStr "l")].
Definition both_pc : pcfg := mkPcfg None None None (Some moore1) (Some fixed_fn) (Some fixed_fn) false (Some 1).
Definition both_vec : list R := [0; 1 / 10; 0; 1 / 10; 1 / 2; 0; 1 / 2].
Definition both_env : env := mkEnv [("c", FConfig both_pc); ("l", FElite [[both_vec]])] "d".

Definition far : act := AMixture [(1, 15000001 / 100000000, 15 / 1000)] true.

(** Everything known about an automaton that has loaded [both_pc]. *)
Definition both_made (o o1 : obj) : Prop :=
  obj_inv o1 /\ o_kpar o1 = o_kpar o /\ o_radius o1 = VInt 1 /\
  let c := o_core o1 in ext c = 1%nat /\ int_ c = 1%nat /\ pm c = Circular /\ dt c = 1 /\ gens c = [far] /\ pers c = [far] /\
  init_layer 1 1 Circular default_id_kernel = Ok (idl c) /\ exists k, odd_kernel 1 k /\ uses_kernel c k.

Lemma both_load f ev rng o h : obj_inv o -> ext (o_core o) = 1%nat -> int_ (o_core o) = 1%nat -> pm (o_core o) = Circular ->
  exists o1 h1, load_value f ev rng o both_pc h = Ok (o1, h1) /\ both_made o o1.
Proof.
  intros I E1 E2 E3. destruct moore1_kernel as (k & Hk & Ok1 & _).
  unfold load_value. rewrite (unpickle_refs both_pc h moore1 fixed_fn fixed_fn) by reflexivity. cbn [fst snd].
  destruct (hget_tail h moore1 fixed_fn fixed_fn) as (T1 & T2 & T3). set (hx := (h ++ _)%list) in *.
  set (cf := mkCfg _ _ _ _ _ _).
  destruct (init_layer_ok 1 1 Circular default_id_kernel) as [il Eil]; auto.
  pose proof Ok1 as (S & _). apply shape_inv in S as (S1 & S2 & S3 & S4).
  destruct (init_layer_ok 1 1 Circular k) as [nl Enl]; auto.
  pose proof I as (_ & _ & _ & _ & W & _). cbv zeta in W. rewrite E1, E2, E3 in W.
  assert (X : exists o1, load_config f ev rng o cf hx = Ok (o1, hx)).
  { eexists. unfold load_config, load_with. cbn [cf c_inst both_pc p_inst bind fst snd].
    eapply (load_body_ok o cf hx default_id_kernel (List.length h) k (o_kpar o) (VInt 1) (S (List.length h)) [far] (S (S (List.length h))) [far]);
      try reflexivity; rewrite ?T1, ?T2, ?T3, ?E1, ?E2, ?E3; try eassumption; try apply fixed_make; reflexivity. }
  destruct X as [o1 HL]. exists o1, hx. split; [exact HL|]. unfold both_made.
  unfold load_config, load_with in HL. cbn [cf c_inst both_pc p_inst bind fst snd] in HL. apply load_body_inv in HL as [_ L].
  split; [eapply loaded_inv; eauto|]. pose proof (ld_ext _ _ _ _ L) as X3. pose proof (ld_int _ _ _ _ L) as X4. pose proof (ld_pm _ _ _ _ L) as X5. pose proof (ld_dt _ _ _ _ L) as X6.
  destruct (ld_id _ _ _ _ L) as (k1 & Hk1 & Hil). destruct (ld_nb _ _ _ _ L) as (l & k2 & Cn & En & Hk2 & Hnl & Hkp2 & Hrr).
  destruct (ld_gen _ _ _ _ L) as (lg & Cg & Eg & Hg2). destruct (ld_per _ _ _ _ L) as (lp & Cp & Ep & Hq2).
  cbn [cf c_id c_nb c_gen c_per c_dt both_pc p_dt] in *. injection Cn as <-. injection Cg as <-. injection Cp as <-.
  rewrite T1 in Hk2, Hkp2, Hrr. rewrite T2 in Hg2. rewrite T3 in Hq2. rewrite Hk in Hk2. apply Ok_inj in Hk2. subst k2.
  rewrite fixed_make in Hg2, Hq2. apply Ok_inj in Hg2, Hq2.
  change (read_kpar (o_kpar o) moore1) with (Ok (o_kpar o)) in Hkp2. apply Ok_inj in Hkp2.
  change (dget "radius" moore1) with (Some (VInt 1)) in Hrr. injection Hrr as Hrr.
  destruct Hk1 as [[_ ->]|(z & Z & _)]; [|discriminate]. rewrite E1, E2, E3 in *. cbv zeta.
  split; [congruence|]. split; [congruence|]. do 3 (split; [congruence|]); split; [exact X6|]; unfold far; do 2 (split; [congruence|]). split; [exact Hil|].
  exists k. split; [exact Ok1|]. unfold uses_kernel. rewrite X3, X4, X5. exact Hnl.
Qed.

Lemma gauss_at0 s : gauss 0 s 0 = 1.
Proof. unfold gauss. replace (- ((0 - 0) / (eps9 + s)) ^ 2 / 2) with 0; [apply exp_0|unfold Rdiv; ring]. Qed.

Lemma near_value : clamp 0 1 (act_fn (AMixture [(1, 0, 1 / 10)] true) 0) = 1.
Proof.
  cbn [act_fn mixture_sum fold_left]. rewrite gauss_at0. replace (clamp (-1) 1 _) with 1; [apply clamp_id; lra|]. symmetry. rewrite clamp_id; lra.
Qed.

Lemma far_gauss : 0 < gauss (15000001 / 100000000) (15 / 1000) 0 <= 1 / 2.
Proof.
  unfold gauss. split; [apply exp_pos|]. set (y := ((0 - 15000001 / 100000000) / (eps9 + 15 / 1000)) ^ 2 / 2).
  replace (- ((0 - 15000001 / 100000000) / (eps9 + 15 / 1000)) ^ 2 / 2) with (- y) by (unfold y, Rdiv; ring).
  assert (Y : 1 <= y).
  { unfold y, eps9. replace (((0 - 15000001 / 100000000) / (/ 1000000000 + 15 / 1000)) ^ 2 / 2) with ((150000010 / 15000001) ^ 2 / 2) by field.
    assert (9 <= 150000010 / 15000001) by (apply Rmult_le_reg_r with 15000001; [lra|]; unfold Rdiv; rewrite Rmult_assoc, Rinv_l by lra; lra). nra. }
  rewrite exp_Ropp. pose proof (exp_ineq1_le y). apply Rle_trans with (/ 2); [apply Rinv_le_contravar; lra|lra].
Qed.

Lemma far_value : clamp 0 1 (act_fn far 0) = 0.
Proof.
  unfold far. cbn [act_fn mixture_sum fold_left]. pose proof far_gauss as G. apply clamp_lo; [lra|].
  rewrite clamp_id; lra.
Qed.

Lemma mixt_ok m s md : 0 < s -> act_ok (AMixture [(1, m, s)] md) = Ok tt.
Proof.
  intros H. pose proof eps9_pos'. cbn [act_ok forallb snd fst]. replace (nonzero (eps9 + s)) with true by (symmetry; apply nonzero_true; lra). reflexivity.
Qed.

(** CCA(ca_config, input_filepath) has the rule of the log; the wrappers with the same arguments
    that of the configuration. *)
Lemma both_differ : exists o h1 oh h2 n gw, init 1 both_env wit_rng both_kw [] = Ok (o, h1) /\ halting_new 1 both_env wit_rng wit_rng both_kw [] = Ok (oh, h2, n) /\
  glider_new 1 both_env wit_rng wit_rng both_kw [] = Ok gw /\ get_params o = Some both_vec /\
  differ (o_core o) (o_core oh) /\ differ (o_core o) (o_core (gn_ca gw)).
Proof.
  destruct (fresh_ok wit_dr both_kw Circular 1 1 (1 / 10) 1 1) as [o0 F0]; try reflexivity; try lia.
  { intros [|[|i]]; cbn [dr_k wit_dr]; lra. }
  pose proof (fresh_inv _ _ _ F0) as (I0 & _ & K0 & _ & _ & _ & _ & E0 & _).
  assert (P0 : o_peaks o0 = 1%nat /\ ext (o_core o0) = 1%nat /\ int_ (o_core o0) = 1%nat /\ pm (o_core o0) = Circular).
  { destruct I0 as (_ & _ & _ & _ & _ & Ipm & Iint & Iext & _ & Ipk). cbv zeta in *. rewrite E0 in *.
    change (as_pmode (query_kwargs "conv_mode" (VStr "circular") both_kw)) with (Ok Circular : res pmode) in Ipm. apply Ok_inj in Ipm.
    change (as_size (query_kwargs "internal_channels" (VInt 1) both_kw)) with (Ok 1%nat : res nat) in Iint. apply Ok_inj in Iint.
    change (as_size (query_kwargs "external_channels" (VInt 1) both_kw)) with (Ok 1%nat : res nat) in Iext. apply Ok_inj in Iext.
    change (as_size (query_kwargs "kernel_peaks" (VInt 3) both_kw)) with (Ok 1%nat : res nat) in Ipk. apply Ok_inj in Ipk. auto. }
  destruct P0 as (Pk & X1 & X2 & X3). rewrite Pk in K0.
  destruct (both_load 0 both_env (fun k => wit_rng (S k)) o0 [] I0 X1 X2 X3) as (o1 & h1 & L1 & M1).
  destruct M1 as (I1 & K1 & R1 & C1 & C2 & C3 & C4 & C5 & C6 & C7 & k1 & Ok1 & U1). cbv zeta in *. rewrite K0 in K1.
  assert (S : exists o, set_params o1 both_vec = Ok o /\ get_params o = Some both_vec).
  { apply (action_accepted o1 1 _ 1 both_vec I1 K1); try reflexivity; try lia.
    - rewrite R1. reflexivity.
    - rewrite params_size_spec, K1. unfold fn_count. rewrite C5, C6. reflexivity.
    - intros x Hx. unfold both_vec in Hx. cbn [In] in Hx. lra. }
  destruct S as (o & So & Go).
  assert (Hi : init 1 both_env wit_rng both_kw [] = Ok (o, h1)).
  { rewrite init_S. change (wit_rng 0%nat) with wit_dr. rewrite F0. cbn [bind].
    change (query_kwargs "ca_config" VNone both_kw) with (VStr "c"). cbn iota.
    rewrite (restore_value _ _ _ _ _ both_pc) by reflexivity. rewrite L1. cbn [bind].
    change (query_kwargs "input_filepath" VNone both_kw) with (VStr "l"). cbn iota.
    change (fs_get (e_fs both_env) "l") with (Some (FElite [[both_vec]])). cbn iota. change (elite_params (FElite [[both_vec]])) with (Ok both_vec). cbn [bind fst snd]. rewrite So. reflexivity. }
  pose proof (set_params_obj_inv _ _ _ I1 So) as [I2 _].
  apply set_params_inv in So as (l & g & q & k2 & Sk & _ & Sk2 & Sg & Sq & Sp & Fg & Fq & Sm & Su & Kp). rewrite K1 in Sk. injection Sk as <-.
  pose proof Kp as Kp'. destruct Kp' as (D1 & D2 & D3 & D4 & D5 & D6 & D7 & D8 & _). cbv zeta in *. rewrite C1 in D1. rewrite C2 in D2. rewrite C3 in D3. rewrite C4 in D7.
  assert (G2 : gens (o_core o) = [AMixture [(1, 0, 1 / 10)] true] /\ pers (o_core o) = [AMixture [(1, 0, 1 / 10)] true]).
  { unfold fn_count in Sp. rewrite C5, C6 in Sp. rewrite C5 in Fg. rewrite C6 in Fq.
    assert (N : forall z, Forall2 act_frame [far] z -> exists m s, z = [AMixture [(1, m, s)] true]).
    { intros z Hz. inversion Hz as [|a b t1 t2 Ha Ht]; subst. inversion Ht; subst. destruct b; cbn [act_frame far] in Ha; try discriminate Ha. destruct Ha as [Ha <-]. destruct gs as [|[[x m] s] [|? ?]]; try discriminate Ha. cbn in Ha. injection Ha as <-. exists m, s. reflexivity. }
    destruct (N g Fg) as (m1 & s1 & ->). destruct (N q Fq) as (m2 & s2 & ->). cbn in Sp. injection Sp as -> -> -> ->. split; congruence. }
  destruct G2 as [G1 G2].
  destruct (both_load 1 both_env wit_rng o h1 I2 D1 D2 D3) as (oh & h2 & L2 & M2).
  destruct M2 as (I3 & K3 & R3 & B1 & B2 & B3 & B4 & B5 & B6 & B7 & k3 & Ok3 & U3). cbv zeta in *.
  assert (Ha : load_again 1 both_env wit_rng both_kw (o, h1) = Ok (oh, h2)).
  { unfold load_again. change (query_kwargs "ca_config" VNone both_kw) with (VStr "c"). cbn iota. rewrite (restore_value _ _ _ _ _ both_pc) by reflexivity. exact L2. }
  assert (Df : differ (o_core o) (o_core oh)).
  { destruct (obj_inv_wf _ I2) as (W2 & _). destruct (obj_inv_wf _ I3) as (W3 & _).
    destruct I2 as (_ & _ & _ & _ & Y2 & _). destruct I3 as (_ & _ & _ & _ & Y3 & _). cbv zeta in *.
    unfold mixture_kernel_of in Sm. rewrite R1 in Sm. apply bind_ok in Sm as (r & Hr & Sm). change (VInt 1) with (VInt (Z.of_nat 1)) in Hr. rewrite as_size_of in Hr. apply Ok_inj in Hr. subst r.
    apply mixture_kernel_shape in Sm as (Z1 & Z2 & Z3 & _).
    eapply (zero_differ (o_core o) (o_core oh) default_id_kernel default_id_kernel k2 k3 _ _ far far); eauto using default_id_odd; try (apply mixt_ok; lra).
    - rewrite D5. exact C7.
    - split; [exact Z1|]. split; assumption.
    - rewrite near_value, far_value. lra. }
  exists o, h1, oh, h2, (params_size oh). eexists. split; [exact Hi|]. split.
  { unfold halting_new. rewrite Hi. cbn [bind]. rewrite Ha. reflexivity. }
  split.
  { unfold glider_new. rewrite Hi. cbn [bind]. change (as_size (query_kwargs "batch_size" (VInt 8) both_kw)) with (Ok 8%nat : res nat). cbn [bind].
    change (as_size (query_kwargs "dim" (VInt 128) both_kw)) with (Ok 128%nat : res nat). cbn [bind].
    change (query_kwargs "ca_config" VNone both_kw) with (VStr "c"). cbn iota. rewrite Ha. cbn [bind fst snd]. rewrite R3. cbn [as_num bind]. unfold y_grid, x_grid.
    destruct (Req_EM_T (IZR 1) 0) as [Q|Q]; [lra|]. cbn [bind]. reflexivity. }
  split; [exact Go|]. split; [exact Df|]. cbn [gn_ca]. exact Df.
Qed.

(** ** The second load cannot fail *)
Lemma fresh_again dr dr' kw o : fresh dr kw = Ok o -> (forall i, 0 <= dr_k dr' i) -> exists o', fresh dr' kw = Ok o'.
Proof.
  intros H G. apply fresh_inv in H as (I & S & K & R & _ & _ & _ & E & _). destruct S as (r & l & k & Er & Ek & Hk & _).
  destruct I as (I1 & I2 & _ & _ & _ & I3 & I4 & I5 & I6 & I7). cbv zeta in *. rewrite E in *.
  assert (R0 : r <> 0%nat /\ l <> []).
  { unfold get_gaussian_mixture_kernel in Hk. apply bind_ok in Hk as (gs & Hg & Hk). apply radial_1_fitted in Hk as (A & B & _). split; [exact A|].
    intros ->. cbn [read_mixture List.length] in Hg. cbn in Hg. apply Ok_inj in Hg. subst gs. discriminate. }
  destruct R0 as [R0 L0].
  apply (fresh_ok dr' kw (pm (o_core o)) (ext (o_core o)) (int_ (o_core o)) (thr (o_core o)) r (o_peaks o)); auto; try congruence; try lia.
  destruct (o_peaks o); [|lia]. rewrite K in Ek. cbn in Ek. injection Ek as <-. contradiction.
Qed.

Lemma load_body_again o o' cf cf' h h' o1 h1 : frame (o_core o) (o_core o') -> load_body o cf h = Ok (o1, h1) ->
  option_map (hget h) (c_id cf) = option_map (hget h') (c_id cf') -> option_map (hget h) (c_nb cf) = option_map (hget h') (c_nb cf') ->
  option_map (hget h) (c_gen cf) = option_map (hget h') (c_gen cf') -> option_map (hget h) (c_per cf) = option_map (hget h') (c_per cf') ->
  exists o2, load_body o' cf' h' = Ok (o2, h').
Proof.
  intros (F1 & F2 & F3 & _) H E1 E2 E3 E4. apply load_body_inv in H as [_ L].
  destruct (ld_id _ _ _ _ L) as (k1 & Hk1 & Hil). destruct (ld_nb _ _ _ _ L) as (l & k & Cn & _ & Hk & Hnl & Hkp & Hr).
  destruct (ld_gen _ _ _ _ L) as (g & Cg & _ & Hg). destruct (ld_per _ _ _ _ L) as (q & Cp & _ & Hq). pose proof (ld_wl _ _ _ _ L) as Hw.
  rewrite Cn in E2. rewrite Cg in E3. rewrite Cp in E4. cbn [option_map] in E2, E3, E4.
  destruct (c_nb cf') as [l'|] eqn:Dn; [|discriminate]. destruct (c_gen cf') as [g'|] eqn:Dg; [|discriminate]. destruct (c_per cf') as [q'|] eqn:Dp; [|discriminate].
  cbn [option_map] in E2, E3, E4. injection E2 as E2. injection E3 as E3. injection E4 as E4. rewrite E2 in *. rewrite E3 in *. rewrite E4 in *.
  assert (X : exists kp, read_kpar (o_kpar o') (hget h' l') = Ok kp).
  { unfold read_kpar in Hkp |- *. destruct (dget "kernel_kwargs" (hget h' l')); eauto. }
  destruct X as [kp X]. eexists. rewrite <- F1, <- F2, <- F3 in Hil, Hnl, Hw. eapply (load_body_ok o' cf' h' k1 l' k kp _ g' _ q' _); eauto.
  destruct Hk1 as [[A ->]|(z & A & B)]; rewrite A in E1; cbn [option_map] in E1; destruct (c_id cf') as [z'|]; try discriminate; [reflexivity|].
  cbn [option_map] in E1. injection E1 as <-. exact B.
Qed.

Lemma load_value_again fuel fuel' ev ev' rng rng' o o' p h h' o1 h1 : obj_inv o -> obj_inv o' -> plain p -> (p_inst p = None -> frame (o_core o) (o_core o')) -> good_rng rng' ->
  load_value fuel ev rng o p h = Ok (o1, h1) -> exists o2 h2, load_value (S fuel') ev' rng' o' p h' = Ok (o2, h2).
Proof.
  intros I I' Pl Fr G H. unfold load_value, load_config, load_with in H |- *. apply bind_ok in H as ([a ha] & Ha & H). cbn [fst snd] in H.
  assert (X : exists b hb, match c_inst (fst (unpickle p h')) with Some kw => init (S fuel') ev' rng' kw (snd (unpickle p h')) | None => Ok (o', snd (unpickle p h')) end = Ok (b, hb) /\ hb = snd (unpickle p h') /\ ha = snd (unpickle p h) /\ frame (o_core a) (o_core b)).
  { rewrite unpickle_inst in *. unfold plain in Pl. destruct (p_inst p) as [kw|].
    - destruct Pl as [P1 P2]. destruct fuel as [|f]; [discriminate|]. rewrite init_plain in Ha |- * by assumption. apply bind_ok in Ha as (x & X & Ha). apply Ok_inj in Ha. injection Ha as -> <-.
      destruct (fresh_again _ (rng' 0%nat) _ _ X) as [y Y]; [intros i; apply G|]. exists y, (snd (unpickle p h')). rewrite Y. split; [reflexivity|]. split; [reflexivity|]. split; [reflexivity|].
      apply fresh_inv in X as (Ix & _ & _ & _ & _ & _ & _ & Ex & _). apply fresh_inv in Y as (Iy & _ & _ & _ & _ & _ & _ & Ey & _). apply same_kw_frame; auto. congruence.
    - apply Ok_inj in Ha. injection Ha as <- <-. exists o', (snd (unpickle p h')). repeat split; apply Fr; reflexivity. }
  destruct X as (b & hb & -> & -> & -> & F). cbn [bind fst snd].
  destruct (unpickle_vals p h _ (grows_refl _)) as (A1 & A2 & A3 & A4 & _). destruct (unpickle_vals p h' _ (grows_refl _)) as (B1 & B2 & B3 & B4 & _). cbv zeta in *.
  destruct (load_body_again a b _ (fst (unpickle p h')) _ (snd (unpickle p h')) _ _ F H) as [o2 E]; try congruence. eauto.
Qed.

Lemma again_ok fuel ev rng rng' kw h F pc r : query_kwargs "ca_config" VNone kw = VStr F -> found ev (strip_newlines F) = Some (FConfig pc) -> plain pc -> good_rng rng' ->
  init fuel ev rng kw h = Ok r -> exists r', load_again fuel ev rng' kw r = Ok r'.
Proof.
  intros C Fd Pl G Hi. destruct r as [o h']. unfold load_again. rewrite C. cbn [fst snd]. rewrite (restore_value _ _ _ _ _ _ _ Fd).
  pose proof (init_inv _ _ _ _ _ _ _ Hi) as [I _]. destruct (init_config _ _ _ _ _ _ _ _ _ C Fd Hi) as (f & oa & ob & -> & Fa & La & Fr & _).
  pose proof (fresh_inv _ _ _ Fa) as (Ia & _).
  destruct (load_value_again f f ev ev (fun k => rng (S k)) rng' oa o pc h h' ob h' Ia I Pl) as (o2 & h2 & E); auto; [|eauto].
  intros N. destruct (load_core _ _ _ _ _ _ _ _ _ _ _ _ _ _ _ Ia Ia Pl (fun _ => conj eq_refl (conj eq_refl (conj eq_refl eq_refl))) La La) as [_ [X|X]]; [|contradiction].
  eauto using frame_trans.
Qed.

Lemma load_channels_of fuel ev rng o p h kw o1 h1 : p_inst p = Some kw -> clean kw -> load_value fuel ev rng o p h = Ok (o1, h1) ->
  as_size (query_kwargs "external_channels" (VInt 1) kw) = Ok (ext (o_core o1)) /\ as_size (query_kwargs "internal_channels" (VInt 1) kw) = Ok (int_ (o_core o1)).
Proof.
  intros E [P1 P2] H. unfold load_value, load_config, load_with in H. rewrite unpickle_inst, E in H. apply bind_ok in H as ([a ha] & Ha & H). cbn [fst snd] in H.
  destruct fuel as [|f]; [discriminate|]. rewrite init_plain in Ha by assumption. apply bind_ok in Ha as (x & X & Ha). apply Ok_inj in Ha. injection Ha as -> <-.
  apply load_body_inv in H as [_ L]. rewrite (ld_ext _ _ _ _ L), (ld_int _ _ _ _ L). apply fresh_inv in X as (I & _ & _ & _ & _ & _ & _ & Ex & _).
  destruct I as (_ & _ & _ & _ & _ & _ & A & B & _). cbv zeta in *. rewrite Ex in *. auto.
Qed.
