(** Saving and reloading configurations. *)
From Coq Require Import Reals Lra Lia List Arith Bool ZArith String Ascii.
From Verif Require Import Base PyDict Tensor MActivations MKernels MCommon MCca MNca MConfig SGrid SCca SKern SConfig PTensor PStep PCca PDyn PStepX PAct PKern PKernX PKernY PNca PConfig PConfigX PConfigY.
Import ListNotations.
Open Scope R_scope.
Open Scope string_scope.

(** ** What make_config writes *)
Lemma make_config_refs o h nb gl pl : o_nb o = Some nb -> o_gen o = Some gl -> o_per o = Some pl -> nb <> gl -> nb <> pl -> gl <> pl ->
  (gl < List.length h)%nat -> (pl < List.length h)%nat ->
  let d1 := dset "parameters" (VVec (fn_params (gens (o_core o)))) (hget h gl) in
  let d2 := dset "parameters" (VVec (fn_params (pers (o_core o)))) (hget h pl) in
  let '(p, o', h') := make_config o h in
  h' = hset (hset h gl d1) pl d2 /\ p_nb p = Some (hget h nb) /\ p_gen p = Some d1 /\ p_per p = Some d2 /\ p_same p = false /\
  o_nb o' = Some nb /\ o_gen o' = Some gl /\ o_per o' = Some pl /\
  hget h' nb = hget h nb /\ hget h' gl = d1 /\ hget h' pl = d2.
Proof.
  intros En Eg Ep N1 N2 N3 L1 L2. cbv zeta. unfold make_config. cbv zeta. rewrite En, Eg, Ep. cbn [fn_config fst snd p_nb p_gen p_per p_same o_nb o_gen o_per].
  rewrite (hget_hset_neq h gl pl) by auto.
  assert (A : hget (hset (hset h gl (dset "parameters" (VVec (fn_params (gens (o_core o)))) (hget h gl))) pl
     (dset "parameters" (VVec (fn_params (pers (o_core o)))) (hget h pl))) nb = hget h nb).
  { rewrite !hget_hset_neq by auto. reflexivity. }
  assert (B : hget (hset (hset h gl (dset "parameters" (VVec (fn_params (gens (o_core o)))) (hget h gl))) pl
     (dset "parameters" (VVec (fn_params (pers (o_core o)))) (hget h pl))) gl = dset "parameters" (VVec (fn_params (gens (o_core o)))) (hget h gl)).
  { rewrite hget_hset_neq by auto. apply hget_hset_eq. exact L1. }
  assert (C : hget (hset (hset h gl (dset "parameters" (VVec (fn_params (gens (o_core o)))) (hget h gl))) pl
     (dset "parameters" (VVec (fn_params (pers (o_core o)))) (hget h pl))) pl = dset "parameters" (VVec (fn_params (pers (o_core o)))) (hget h pl)).
  { apply hget_hset_eq. rewrite hset_length. exact L2. }
  rewrite A, B, C. destruct (Nat.eqb_spec gl pl); [contradiction|]. repeat split; reflexivity.
Qed.

(** ** Reading back mixtures *)
Lemma mixp_app gs : forall a m s, mixp ((a, m, s) :: gs) = m :: s :: mixp gs.
Proof. reflexivity. Qed.

Lemma pairs_mixp gs : pairs (mixp gs) = Ok (map (fun g : R * R * R => let '(_, m, s) := g in (1, m, s)) gs).
Proof. induction gs as [|[[a m] s] t IH]; [reflexivity|]. rewrite mixp_app. cbn [pairs]. rewrite IH. reflexivity. Qed.

Lemma ones_id gs : (forall a m s, In (a, m, s) gs -> a = 1) -> map (fun g : R * R * R => let '(_, m, s) := g in (1, m, s)) gs = gs.
Proof.
  induction gs as [|[[a m] s] t IH]; intros H; [reflexivity|]. cbn [map]. rewrite IH by (intros; eapply H; right; eauto).
  rewrite (H a m s) by (left; reflexivity). reflexivity.
Qed.

(** A mixture written back by make_config and read again. *)
Lemma mixture_reread d gs md : dget "name" d = Some (VStr "GaussianMixture") -> truthy (query_kwargs "mode" (VInt 0) d) = md ->
  make_fn (dset "parameters" (VVec (fn_params [AMixture gs md])) d) =
  Ok [AMixture (if Nat.eqb (2 * List.length gs mod 3) 0 then triples (mixp gs) else map (fun g : R * R * R => let '(_, m, s) := g in (1, m, s)) gs) md].
Proof.
  intros N M. unfold make_fn, dgetk. rewrite dget_dset_neq by discriminate. rewrite N. cbn [bind String.eqb Ascii.eqb Bool.eqb].
  unfold mk_mixture. rewrite query_dset_eq. cbn [as_vec bind]. rewrite query_dset_neq by discriminate. rewrite M.
  assert (E : fn_params [AMixture gs md] = mixp gs) by (unfold fn_params; cbn [flat_map act_params]; rewrite app_nil_r; reflexivity).
  rewrite E. unfold read_mixture. rewrite mixp_length. destruct (Nat.eqb_spec (2 * List.length gs mod 3) 0); [reflexivity|].
  rewrite pairs_mixp. reflexivity.
Qed.

Lemma pair_fn_reread d fs : pair_fn d fs -> make_fn (dset "parameters" (VVec (fn_params fs)) d) = Ok fs.
Proof.
  intros (N & gs & -> & A & L). rewrite (mixture_reread d gs _ N eq_refl). destruct (Nat.eqb_spec (2 * List.length gs mod 3) 0); [contradiction|].
  rewrite ones_id by exact A. reflexivity.
Qed.

Lemma pair_fn_dset d fs : pair_fn d fs -> pair_fn (dset "parameters" (VVec (fn_params fs)) d) fs.
Proof. intros (N & gs & -> & A & L). split; [rewrite dget_dset_neq by discriminate; exact N|]. exists gs. rewrite query_dset_neq by discriminate. auto. Qed.

Lemma pair_fn_make d l n : dget "name" d = Some (VStr "GaussianMixture") -> dget "parameters" d = Some (VVec l) ->
  List.length l = (2 * n)%nat -> (List.length l mod 3 <> 0)%nat -> exists fs, make_fn d = Ok fs /\ pair_fn d fs.
Proof.
  intros N P E L. eexists. split.
  - unfold make_fn, dgetk. rewrite N. cbn [bind String.eqb Ascii.eqb Bool.eqb]. rewrite (mk_pairs d l n P E L). cbn [bind]. reflexivity.
  - split; [exact N|]. eexists. split; [reflexivity|]. split.
    + intros a m s H. apply in_map_iff in H as (i & H & _). congruence.
    + rewrite map_length, seq_length, <- E. exact L.
Qed.

(** ** Reloading *)
Lemma unpickle_refs p h dn dg dp : p_id p = None -> p_nb p = Some dn -> p_gen p = Some dg -> p_per p = Some dp -> p_same p = false ->
  unpickle p h = (mkCfg (p_inst p) None (Some (List.length h)) (Some (S (List.length h))) (Some (S (S (List.length h)))) (p_dt p), (h ++ [dn; dg; dp])%list).
Proof.
  intros E1 E2 E3 E4 E5. unfold unpickle. rewrite E1, E2, E3, E4, E5. cbn [alloc_opt alloc fst snd].
  rewrite !app_length. cbn [List.length]. rewrite <- !app_assoc. cbn [app]. repeat f_equal; lia.
Qed.

Lemma hget_tail h dn dg dp : hget (h ++ [dn; dg; dp])%list (List.length h) = dn /\ hget (h ++ [dn; dg; dp])%list (S (List.length h)) = dg /\
  hget (h ++ [dn; dg; dp])%list (S (S (List.length h))) = dp.
Proof.
  unfold hget. repeat split; rewrite app_nth2 by lia.
  - rewrite Nat.sub_diag. reflexivity.
  - replace (S (List.length h) - List.length h)%nat with 1%nat by lia. reflexivity.
  - replace (S (S (List.length h)) - List.length h)%nat with 2%nat by lia. reflexivity.
Qed.

Lemma init_plain f ev rng kw h : query_kwargs "ca_config" VNone kw = VNone -> query_kwargs "input_filepath" VNone kw = VNone ->
  init (S f) ev rng kw h = let* o := fresh (rng 0%nat) kw in Ok (o, h).
Proof. intros C I. cbn [init]. rewrite C, I. destruct (fresh (rng 0%nat) kw); reflexivity. Qed.

(** Everything a successful reload fixes. *)
Lemma reload_inv fuel ev rng o h nb gl pl p o' h' o2 h2 o3 h3 :
  o_nb o = Some nb -> o_gen o = Some gl -> o_per o = Some pl -> nb <> gl -> nb <> pl -> gl <> pl ->
  (gl < List.length h)%nat -> (pl < List.length h)%nat -> obj_inv o ->
  query_kwargs "ca_config" VNone (o_inst o) = VNone -> query_kwargs "input_filepath" VNone (o_inst o) = VNone ->
  make_config o h = (p, o', h') -> load_value fuel ev rng o2 p h2 = Ok (o3, h3) ->
  let c := o_core o in let c3 := o_core o3 in
  ext c3 = ext c /\ int_ c3 = int_ c /\ pm c3 = pm c /\ thr c3 = thr c /\ dt c3 = dt c /\ wl c3 = wl c /\
  init_layer (ext c) (int_ c) (pm c) default_id_kernel = Ok (idl c3) /\
  (exists k, get_kernel (hget h nb) = Ok k /\ uses_kernel c3 k) /\
  make_fn (dset "parameters" (VVec (fn_params (gens c))) (hget h gl)) = Ok (gens c3) /\
  make_fn (dset "parameters" (VVec (fn_params (pers c))) (hget h pl)) = Ok (pers c3) /\ obj_inv o3.
Proof.
  intros En Eg Ep N1 N2 N3 L1 L2 I C F HM HL. cbv zeta. pose proof (make_config_inst o h) as M. pose proof (make_config_refs o h nb gl pl En Eg Ep N1 N2 N3 L1 L2) as Q.
  rewrite HM in M, Q. destruct M as (E1 & _ & _ & E4 & Ei & Ed & Eid & Q1 & Q2 & Q3 & Q4 & Q5 & Q6). destruct Q as (_ & Pn & Pg & Pp & Ps & _).
  unfold load_value in HL. rewrite (unpickle_refs p h2 _ _ _ Eid Pn Pg Pp Ps) in HL. cbv zeta in HL. cbn [fst snd] in HL. rewrite Ei, Ed in HL.
  destruct (hget_tail h2 (hget h nb) (dset "parameters" (VVec (fn_params (gens (o_core o)))) (hget h gl)) (dset "parameters" (VVec (fn_params (pers (o_core o)))) (hget h pl))) as (T1 & T2 & T3).
  set (hx := (h2 ++ _)%list) in *. unfold load_config, load_with in HL. cbn [c_inst] in HL.
  apply bind_ok in HL as ([o4 h4] & Hi & HL). cbn [fst snd] in HL. apply load_body_inv in HL as [-> L].
  destruct fuel as [|f]; [discriminate|]. rewrite init_plain in Hi; [|rewrite Q6 by discriminate; exact C|rewrite Q6 by discriminate; exact F].
  apply bind_ok in Hi as (o5 & Hf & Hi). apply Ok_inj in Hi. injection Hi as -> <-. pose proof Hf as Hf'. apply fresh_inv in Hf' as (I4 & _ & _ & _ & _ & _ & _ & Ei4 & _).
  pose proof (loaded_inv _ _ _ _ I4 L) as I3. destruct I4 as (_ & _ & _ & _ & _ & A1 & A2 & A3 & A4 & _). cbv zeta in *. rewrite Ei4 in *.
  rewrite Q1, pmode_str_inv in A1. rewrite Q2, nat_value_size in A2. rewrite Q3, nat_value_size in A3. rewrite Q6 in A4 by discriminate.
  apply Ok_inj in A1, A2, A3. destruct I as (_ & _ & _ & _ & Iw & _ & _ & _ & It & _). cbv zeta in *.
  rewrite It in A4. apply Ok_inj in A4.
  destruct (ld_id _ _ _ _ L) as (k1 & Hk1 & Hil). destruct (ld_nb _ _ _ _ L) as (l & k & Cn & _ & Hk & Hnl & _ & _).
  destruct (ld_gen _ _ _ _ L) as (g & Cg & _ & Hg). destruct (ld_per _ _ _ _ L) as (q & Cp & _ & Hq).
  pose proof (ld_ext _ _ _ _ L) as X1. pose proof (ld_int _ _ _ _ L) as X2. pose proof (ld_pm _ _ _ _ L) as X3.
  pose proof (ld_thr _ _ _ _ L) as X4. pose proof (ld_dt _ _ _ _ L) as X5. pose proof (ld_wl _ _ _ _ L) as X6.
  rewrite <- A1, <- A2, <- A3 in *.
  cbn [c_id c_nb c_gen c_per c_dt] in *. injection Cn as <-. injection Cg as <-. injection Cp as <-. rewrite T1 in Hk. rewrite T2 in Hg. rewrite T3 in Hq.
  destruct Hk1 as [[_ ->]|(z & Hz & _)]; [|discriminate].
  do 6 (split; [first [assumption|congruence]|]). split; [exact Hil|].
  split; [exists k; split; [exact Hk|]; unfold uses_kernel; congruence|]. split; [exact Hg|]. split; [exact Hq|exact I3].
Qed.

(** Round trip for saveable objects. *)
Lemma read_kpar_any d kp old : read_kpar KPNone d = Ok kp -> exists kp', read_kpar old d = Ok kp'.
Proof. unfold read_kpar. destruct (dget "kernel_kwargs" d); eauto. Qed.

Lemma core_eq c c' : ext c' = ext c -> int_ c' = int_ c -> pm c' = pm c -> thr c' = thr c -> idl c' = idl c -> nbl c' = nbl c -> wl c' = wl c ->
  gens c' = gens c -> pers c' = pers c -> dt c' = dt c -> c' = c.
Proof. destruct c, c'. cbn. intros. subst. reflexivity. Qed.

Lemma saveable_lengths o h nb gl pl : o_nb o = Some nb -> pair_fn (hget h gl) (gens (o_core o)) -> pair_fn (hget h pl) (pers (o_core o)) ->
  (gl < List.length h)%nat /\ (pl < List.length h)%nat.
Proof. intros _ (N & _) (N' & _). split; eapply hget_some; eauto. Qed.

Lemma saveable_round o h f ev rng o2 h2 p o' h' : saveable o h -> good_rng rng -> make_config o h = (p, o', h') ->
  exists o3 h3, load_value (S f) ev rng o2 p h2 = Ok (o3, h3) /\ o_core o3 = o_core o.
Proof.
  intros (I & E1 & Eid & Pk & C & F & nb & gl & pl & k & r & En & Eg & Ep & N1 & N2 & N3 & Hk & U & R0 & Er & Hr & (kp & Hkp) & Pg & Pp) G HM. cbv zeta in *.
  destruct (saveable_lengths o h nb gl pl En Pg Pp) as [L1 L2].
  assert (X : exists o3 h3, load_value (S f) ev rng o2 p h2 = Ok (o3, h3)).
  { pose proof (make_config_inst o h) as M. pose proof (make_config_refs o h nb gl pl En Eg Ep N1 N2 N3 L1 L2) as Q.
    rewrite HM in M, Q. destruct M as (_ & _ & _ & E4 & Ei & Ed & Eid' & Q1 & Q2 & Q3 & Q4 & Q5 & Q6). destruct Q as (_ & Pn & Pgd & Ppd & Ps & _).
    unfold load_value. rewrite (unpickle_refs p h2 _ _ _ Eid' Pn Pgd Ppd Ps). cbv zeta. cbn [fst snd]. rewrite Ei, Ed.
    destruct (hget_tail h2 (hget h nb) (dset "parameters" (VVec (fn_params (gens (o_core o)))) (hget h gl)) (dset "parameters" (VVec (fn_params (pers (o_core o)))) (hget h pl))) as (T1 & T2 & T3).
    set (hx := (h2 ++ _)%list) in *. unfold load_config, load_with. cbn [c_inst].
    rewrite init_plain; [|rewrite Q6 by discriminate; exact C|rewrite Q6 by discriminate; exact F].
    destruct I as (I1 & I2 & _ & _ & Iw & _ & _ & _ & It & _). cbv zeta in *.
    destruct (fresh_ok (rng 0%nat) (o_inst o') (pm (o_core o)) (ext (o_core o)) (int_ (o_core o)) (thr (o_core o)) r (o_peaks o)) as [o4 Hf]; auto.
    - rewrite Q1. apply pmode_str_inv.
    - rewrite Q2. apply nat_value_size.
    - rewrite Q3. apply nat_value_size.
    - rewrite Q6 by discriminate. exact It.
    - rewrite Q4. apply nat_value_size.
    - congruence.
    - intros i. apply G.
    - rewrite Hf. cbn [bind fst snd]. pose proof Hf as Hf'. apply fresh_inv in Hf' as (I4 & _ & _ & _ & _ & _ & _ & Ei4 & _).
      destruct I4 as (_ & _ & _ & _ & _ & A1 & A2 & A3 & _). cbv zeta in *. rewrite Ei4 in *.
      rewrite Q1, pmode_str_inv in A1. rewrite Q2, nat_value_size in A2. rewrite Q3, nat_value_size in A3. apply Ok_inj in A1, A2, A3.
      destruct (read_kpar_any _ _ (o_kpar o4) Hkp) as [kp' Hkp'].
      eexists. eexists. eapply (load_body_ok o4 _ hx default_id_kernel (List.length h2) k kp'); cbn [c_id c_nb c_gen c_per]; try reflexivity.
      + rewrite T1. exact Hk.
      + rewrite T1. exact Hkp'.
      + rewrite T1. exact Hr.
      + rewrite T2. apply pair_fn_reread. exact Pg.
      + rewrite T3. apply pair_fn_reread. exact Pp.
      + rewrite <- A1, <- A2, <- A3. exact Eid.
      + rewrite <- A1, <- A2, <- A3. exact U.
      + rewrite <- A1, <- A2, <- A3. exact Iw. }
  destruct X as (o3 & h3 & HL). exists o3, h3. split; [exact HL|].
  destruct (reload_inv (S f) ev rng o h nb gl pl p o' h' o2 h2 o3 h3 En Eg Ep N1 N2 N3 L1 L2 I C F HM HL) as (B1 & B2 & B3 & B4 & B5 & B6 & B7 & (k' & Hk' & U') & B9 & B10 & _). cbv zeta in *.
  rewrite (pair_fn_reread _ _ Pg) in B9. rewrite (pair_fn_reread _ _ Pp) in B10. apply Ok_inj in B9, B10. rewrite Eid in B7. apply Ok_inj in B7.
  rewrite Hk in Hk'. apply Ok_inj in Hk'. subst k'. unfold uses_kernel in U, U'. rewrite B1, B2, B3, U in U'. apply Ok_inj in U'.
  apply core_eq; congruence.
Qed.

(** Which calls keep an object saveable. *)
Lemma saveable_make o h p o' h' : saveable o h -> make_config o h = (p, o', h') -> saveable o' h'.
Proof.
  intros (I & E1 & Eid & Pk & C & F & nb & gl & pl & k & r & En & Eg & Ep & N1 & N2 & N3 & Hk & U & R0 & Er & Hr & Hkp & Pg & Pp) HM. cbv zeta in *.
  destruct (saveable_lengths o h nb gl pl En Pg Pp) as [L1 L2].
  pose proof (make_config_inst o h) as M. pose proof (make_config_refs o h nb gl pl En Eg Ep N1 N2 N3 L1 L2) as Q.
  rewrite HM in M, Q. destruct M as (Ec & Ek & Erd & E4 & _ & _ & _ & _ & _ & _ & _ & _ & Q6). destruct Q as (_ & _ & _ & _ & _ & En' & Eg' & Ep' & T1 & T2 & T3).
  unfold saveable. cbv zeta. rewrite Ec, E4. split; [eapply make_config_obj_inv; eauto|]. repeat (split; [first [assumption|rewrite Q6 by discriminate; assumption]|]).
  exists nb, gl, pl, k, r. rewrite Erd, T1, T2, T3. repeat (split; [assumption|]). split; apply pair_fn_dset; assumption.
Qed.

Lemma saveable_dt o h x : saveable o h -> saveable (set_dt o x) h.
Proof. intros H. exact H. Qed.

Lemma saveable_radius o h r o' h' : saveable o h -> (0 < r)%nat -> set_kernel_radius o (VInt (Z.of_nat r)) h = Ok (o', h') -> saveable o' h'.
Proof.
  intros (I & E1 & Eid & Pk & C & F & nb & gl & pl & k & r0 & En & Eg & Ep & N1 & N2 & N3 & Hk & U & R0 & Er & Hr & Hkp & Pg & Pp) Rp HM. cbv zeta in *.
  pose proof (set_radius_obj_inv _ _ _ _ _ I HM) as I'.
  assert (L0 : (nb < List.length h)%nat) by (eapply hget_some; exact Hr).
  apply set_radius_inv in HM as (l & k' & El & Hk' & U' & Er' & Eh & Eo). rewrite En in El. injection El as <-.
  unfold saveable. cbv zeta. split; [exact I'|]. rewrite Eo. cbn [o_core o_inst o_peaks set_layers ext int_ pm idl gens pers].
  repeat (split; [assumption|]). exists nb, gl, pl, k', r. rewrite Eh, hget_hset_eq by exact L0. rewrite !hget_hset_neq by auto. cbn [o_nb o_gen o_per o_radius].
  repeat (split; [first [assumption|reflexivity]|]). split.
  { unfold uses_kernel in *. cbn [set_layers ext int_ pm nbl]. rewrite Eo in U' at 1 2 3. exact U'. }
  repeat (split; [first [assumption|reflexivity]|]). split; [apply dget_dset_eq|]. split; [|split; assumption].
  destruct Hkp as [kp Hkp]. exists kp. unfold read_kpar in *. rewrite dget_dset_neq by discriminate. exact Hkp.
Qed.

(** Parameters of the update functions may change as long as the kernel ones stay. *)
Lemma frame_mix gs md l : Forall2 act_frame [AMixture gs md] l -> exists gs', l = [AMixture gs' md] /\ map (fun g => fst (fst g)) gs = map (fun g => fst (fst g)) gs'.
Proof.
  intros H. inversion H as [|? b ? t Hf Ht]; subst. inversion Ht; subst. destruct b; cbn [act_frame] in Hf; try discriminate. destruct Hf as [A ->]. eauto.
Qed.

Lemma pair_fn_frame d fs fs' : pair_fn d fs -> Forall2 act_frame fs fs' -> pair_fn d fs'.
Proof.
  intros (N & gs & -> & A & L) H. split; [exact N|]. apply frame_mix in H as (gs' & -> & E). exists gs'. split; [reflexivity|].
  assert (El : List.length gs = List.length gs') by (rewrite <- (map_length (fun g => fst (fst g)) gs), E, map_length; reflexivity).
  split; [|rewrite <- El; exact L]. intros a m s Hi. assert (Ha : In a (map (fun g : R * R * R => fst (fst g)) gs)).
  { rewrite E. apply in_map_iff. exists (a, m, s). auto. }
  apply in_map_iff in Ha as ([[a' m'] s'] & Ea & Hi'). cbn in Ea. subst a'. eapply A; eauto.
Qed.

Lemma saveable_set o h q o' l : saveable o h -> kernel_synced o -> o_kpar o = KPVec l ->
  firstn (List.length l) (skipn (fn_count (o_core o)) q) = l -> set_params o q = Ok o' -> saveable o' h /\ kernel_synced o'.
Proof.
  intros (I & E1 & Eid & Pk & C & F & nb & gl & pl & k & r & En & Eg & Ep & N1 & N2 & N3 & Hk & U & R0 & Er & Hr & Hkp & Pg & Pp) (r' & l' & km & Sr & Sl & Sk & SU) El Eq HS. cbv zeta in *.
  pose proof HS as HS'. apply set_params_obj_inv in HS' as [I' S']; auto. split; [|exact S'].
  apply set_params_inv in HS as (l2 & g & p & k2 & El2 & _ & _ & Eg2 & Ep2 & _ & Fg & Fp & Hk2 & U2 & Kp). subst g p.
  rewrite El in El2. injection El2 as <-. rewrite Eq in Hk2. rewrite El in Sl. injection Sl as <-.
  unfold mixture_kernel_of in Hk2. rewrite Sr, as_size_of in Hk2. cbn [bind] in Hk2. rewrite Sk in Hk2. apply Ok_inj in Hk2. subst k2.
  destruct Kp as (A1 & A2 & A3 & A4 & A5 & A6 & A7 & A8 & A9 & A10 & A11 & A12 & A13). cbv zeta in *.
  unfold saveable. cbv zeta. split; [exact I'|]. rewrite A1, A2, A3, A5, A8, A9, A10, A11, A12, A13. repeat (split; [assumption|]).
  exists nb, gl, pl, k, r. repeat (split; [assumption|]). split.
  { unfold uses_kernel in *. rewrite A1, A2, A3 in *. rewrite U2 in SU. apply Ok_inj in SU. congruence. }
  repeat (split; [assumption|]). split; eapply pair_fn_frame; eauto.
Qed.

(** Loading establishes it. *)
Lemma load_saveable fuel ev rng o cf h o' h' nb gl pl : obj_inv o -> load_config fuel ev rng o cf h = Ok (o', h') ->
  c_id cf = None -> c_nb cf = Some nb -> c_gen cf = Some gl -> c_per cf = Some pl -> nb <> gl -> nb <> pl -> gl <> pl ->
  (exists n l, dget "name" (hget h gl) = Some (VStr "GaussianMixture") /\ dget "parameters" (hget h gl) = Some (VVec l) /\ List.length l = (2 * n)%nat /\ (List.length l mod 3 <> 0)%nat) ->
  (exists n l, dget "name" (hget h pl) = Some (VStr "GaussianMixture") /\ dget "parameters" (hget h pl) = Some (VVec l) /\ List.length l = (2 * n)%nat /\ (List.length l mod 3 <> 0)%nat) ->
  int_ (o_core o') = 1%nat -> (0 < o_peaks o')%nat -> (exists r, (0 < r)%nat /\ dget "radius" (hget h nb) = Some (VInt (Z.of_nat r))) ->
  query_kwargs "ca_config" VNone (o_inst o') = VNone -> query_kwargs "input_filepath" VNone (o_inst o') = VNone ->
  saveable o' h'.
Proof.
  intros I H Cid Cn Cg Cp N1 N2 N3 (ng & lg & Gn & Gp & Gl & Gm) (np & lp & Pn & Pp & Pl & Pm) E1 Pk (r & R0 & Hr) C F.
  apply (load_with_inv (init fuel ev rng) o cf h o' h' (init_inv fuel ev rng) I) in H as (I' & G & o1 & L & _).
  assert (T1 : hget h' gl = hget h gl) by (apply grows_get; [exact G|eapply hget_some; exact Gn]).
  assert (T2 : hget h' pl = hget h pl) by (apply grows_get; [exact G|eapply hget_some; exact Pn]).
  assert (T3 : hget h' nb = hget h nb) by (apply grows_get; [exact G|eapply hget_some; exact Hr]).
  destruct (ld_id _ _ _ _ L) as (k1 & Hk1 & Hil). destruct (ld_nb _ _ _ _ L) as (l & k & Cn' & En & Hk & Hnl & Hkp & Hrr).
  destruct (ld_gen _ _ _ _ L) as (g & Cg' & Eg & Hg). destruct (ld_per _ _ _ _ L) as (q & Cp' & Ep & Hq).
  rewrite Cn in Cn'. injection Cn' as <-. rewrite Cg in Cg'. injection Cg' as <-. rewrite Cp in Cp'. injection Cp' as <-.
  destruct Hk1 as [[_ ->]|(z & Hz & _)]; [|congruence].
  pose proof (ld_ext _ _ _ _ L) as X1. pose proof (ld_int _ _ _ _ L) as X2. pose proof (ld_pm _ _ _ _ L) as X3.
  unfold saveable. cbv zeta. split; [exact I'|]. split; [exact E1|]. split; [congruence|]. split; [exact Pk|]. split; [exact C|]. split; [exact F|].
  exists nb, gl, pl, k, r. repeat (split; [assumption|]). split; [unfold uses_kernel; congruence|]. split; [exact R0|]. split; [congruence|]. split; [exact Hrr|].
  split. { unfold read_kpar in *. destruct (dget "kernel_kwargs" (hget h' nb)) as [v|]; [exists (o_kpar o'); exact Hkp|exists KPNone; reflexivity]. }
  rewrite T1 in *. rewrite T2 in *. split.
  - destruct (pair_fn_make (hget h gl) lg ng Gn Gp Gl Gm) as (fs & Ef & Pf). rewrite Hg in Ef. apply Ok_inj in Ef. subst fs. exact Pf.
  - destruct (pair_fn_make (hget h pl) lp np Pn Pp Pl Pm) as (fs & Ef & Pf). rewrite Hq in Ef. apply Ok_inj in Ef. subst fs. exact Pf.
Qed.
