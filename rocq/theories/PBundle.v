(** The bundled configurations (proofs). *)
From Coq Require Import Reals Lra Lia List Arith Bool ZArith String.
From Verif Require Import Base PyDict Tensor MActivations MKernels MCommon MCca MNca MConfig MConfigs SGrid SCca SKern SConfig PTensor PDyn PAct PKern PKernX PKernY PConfig PConfigX PConfigY PConfigZ.
Import ListNotations.
Open Scope R_scope.
Open Scope string_scope.

Lemma unpickle_all p h dn dg dp : p_nb p = Some dn -> p_gen p = Some dg -> p_per p = Some dp -> p_same p = false ->
  exists nb gl pl, c_id (fst (unpickle p h)) = (match p_id p with Some _ => Some (List.length h) | None => None end) /\
    (forall di, p_id p = Some di -> hget (snd (unpickle p h)) (List.length h) = di) /\
    c_nb (fst (unpickle p h)) = Some nb /\ hget (snd (unpickle p h)) nb = dn /\
    c_gen (fst (unpickle p h)) = Some gl /\ hget (snd (unpickle p h)) gl = dg /\
    c_per (fst (unpickle p h)) = Some pl /\ hget (snd (unpickle p h)) pl = dp /\
    c_dt (fst (unpickle p h)) = p_dt p /\ c_inst (fst (unpickle p h)) = p_inst p /\ nb <> gl /\ nb <> pl /\ gl <> pl.
Proof.
  intros E2 E3 E4 E5. unfold unpickle. rewrite E2, E3, E4, E5. destruct (p_id p) as [di|]; cbn [alloc_opt alloc fst snd c_id c_nb c_gen c_per c_dt c_inst];
  rewrite ?app_length; cbn [List.length]; do 3 eexists; split; try reflexivity.
  - split; [intros x E; injection E as <-; unfold hget; rewrite <- !app_assoc, app_nth2, Nat.sub_diag by lia; reflexivity|].
    split; [reflexivity|]. split; [unfold hget; rewrite <- !app_assoc, app_nth2 by lia; replace (List.length h + 1 - List.length h)%nat with 1%nat by lia; reflexivity|].
    split; [reflexivity|]. split; [unfold hget; rewrite <- !app_assoc, app_nth2 by lia; replace (List.length h + 1 + 1 - List.length h)%nat with 2%nat by lia; reflexivity|].
    split; [reflexivity|]. split; [unfold hget; rewrite <- !app_assoc, app_nth2 by lia; replace (List.length h + 1 + 1 + 1 - List.length h)%nat with 3%nat by lia; reflexivity|].
    split; [reflexivity|]. split; [reflexivity|]. repeat split; lia.
  - split; [discriminate|].
    split; [reflexivity|]. split; [unfold hget; rewrite <- !app_assoc, app_nth2, Nat.sub_diag by lia; reflexivity|].
    split; [reflexivity|]. split; [unfold hget; rewrite <- !app_assoc, app_nth2 by lia; replace (List.length h + 1 - List.length h)%nat with 1%nat by lia; reflexivity|].
    split; [reflexivity|]. split; [unfold hget; rewrite <- !app_assoc, app_nth2 by lia; replace (List.length h + 1 + 1 - List.length h)%nat with 2%nat by lia; reflexivity|].
    split; [reflexivity|]. split; [reflexivity|]. repeat split; lia.
Qed.

Lemma bundle_load fuel ev rng o h p dn dg dp ki k kp rv g q : obj_inv o -> p_inst p = None -> p_nb p = Some dn -> p_gen p = Some dg -> p_per p = Some dp -> p_same p = false ->
  match p_id p with None => Ok default_id_kernel | Some d => get_kernel d end = Ok ki ->
  get_kernel dn = Ok k -> read_kpar (o_kpar o) dn = Ok kp -> dget "radius" dn = Some rv -> make_fn dg = Ok g -> make_fn dp = Ok q ->
  exists o' h', load_value fuel ev rng o p h = Ok (o', h') /\ rule_of o o' ki k g q (match p_dt p with Some x => x | None => 1 / 10 end).
Proof.
  intros I E1 E2 E3 E4 E5 Hki Hk Hkp Hr Hg Hq. unfold load_value, load_config, load_with.
  destruct (unpickle_all p h dn dg dp E2 E3 E4 E5) as (nb & gl & pl & U1 & U2 & U3 & U4 & U5 & U6 & U7 & U8 & U9 & U10 & _).
  rewrite U10, E1. cbn [bind fst snd]. set (cf := fst (unpickle p h)) in *. set (hx := snd (unpickle p h)) in *.
  pose proof I as (A1 & A2 & _ & _ & Iw & _). cbv zeta in *.
  assert (OKK : forall kk, get_kernel (match p_id p with None => [("name", VStr "InnerMoore")] | Some d => d end) = Ok kk -> exists il, init_layer (ext (o_core o)) (int_ (o_core o)) (pm (o_core o)) kk = Ok il).
  { intros kk Hkk. apply get_kernel_odd in Hkk as (rr & (Sk & _) & _). apply shape_inv in Sk as (K1 & K2 & K3 & K4). apply init_layer_ok; auto; congruence. }
  assert (OKN : exists nl, init_layer (ext (o_core o)) (int_ (o_core o)) (pm (o_core o)) k = Ok nl).
  { pose proof Hk as Hkk. apply get_kernel_odd in Hkk as (rr & (Sk & _) & _). apply shape_inv in Sk as (K1 & K2 & K3 & K4). apply init_layer_ok; auto; congruence. }
  destruct OKN as [nl Enl]. assert (OKI : exists il, init_layer (ext (o_core o)) (int_ (o_core o)) (pm (o_core o)) ki = Ok il).
  { apply OKK. destruct (p_id p); [exact Hki|]. apply Ok_inj in Hki. subst ki. reflexivity. }
  destruct OKI as [il Eil].
  assert (LB : load_body o cf hx = Ok (mkObj (set_layers (o_core o) il nl (wl (o_core o)) g q (match c_dt cf with Some x => x | None => 1 / 10 end)) kp rv (o_peaks o) (Some nb) (Some gl) (Some pl) (o_inst o), hx)).
  { apply (load_body_ok o cf hx ki nb k kp rv gl g pl q (wl (o_core o)) il nl); auto; try (rewrite ?U4, ?U6, ?U8; assumption).
    rewrite U1. destruct (p_id p) as [di|] eqn:Ei; [|exact Hki]. rewrite (U2 di eq_refl). exact Hki. }
  eexists. eexists. split; [exact LB|]. apply load_body_inv in LB as [_ L]. unfold rule_of. cbv zeta. split; [exact (loaded_inv _ _ _ _ I L)|].
  rewrite U9. cbn [o_core o_peaks o_inst set_layers ext int_ pm thr dt gens pers idl nbl]. do 7 (split; [reflexivity|]). split; [exact Eil|]. split; [exact Enl|]. split; reflexivity.
Qed.

(** Loading is a function of the state, so what a successful load gives is known. *)
Lemma orbium_kernel r : (1 <= r)%nat -> exists k, get_kernel [("name", VStr "Gaussian"); ("radius", VInt (Z.of_nat r)); ("kernel_kwargs", VDict [("mu", VNum (1 / 2)); ("sigma", VNum (15 / 100))])] = Ok k /\
  fitted r (fun i j => act_fn (AGaussian (1 / 2) (15 / 100) false) (rho r i j)) k.
Proof.
  intros Hr. pose proof eps9_pos'. destruct (get_kernel_fit [("name", VStr "Gaussian"); ("radius", VInt (Z.of_nat r)); ("kernel_kwargs", VDict [("mu", VNum (1 / 2)); ("sigma", VNum (15 / 100))])]
    "Gaussian" mk_gaussian [("mu", VNum (1 / 2)); ("sigma", VNum (15 / 100))] (AGaussian (1 / 2) (15 / 100) false) r) as (k & Hk & _ & F); try reflexivity; try lia.
  - cbn [act_ok]. assert (nonzero (eps9 + 15 / 100) = true) as -> by (apply nonzero_true; lra). reflexivity.
  - eauto.
Qed.

Definition gem_kernel : list (R * R * R) := [(5 / 10, 93809 / 1000000, 33 / 1000); (1, 28143 / 100000, 33 / 1000); (2 / 3, 46904 / 100000, 33 / 1000)].

Lemma geminium_kernel r : (1 <= r)%nat -> exists k, get_kernel [("name", VStr "GaussianMixture"); ("radius", VInt (Z.of_nat r)); ("kernel_kwargs", VDict [("parameters", VVec [5 / 10; 93809 / 1000000; 33 / 1000;
                                                           1; 28143 / 100000; 33 / 1000; 2 / 3; 46904 / 100000; 33 / 1000])])] = Ok k /\
  fitted r (fun i j => act_fn (AMixture gem_kernel false) (rho r i j)) k.
Proof.
  intros Hr. pose proof eps9_pos'. destruct (get_kernel_fit [("name", VStr "GaussianMixture"); ("radius", VInt (Z.of_nat r)); ("kernel_kwargs", VDict [("parameters", VVec [5 / 10; 93809 / 1000000; 33 / 1000;
                                                           1; 28143 / 100000; 33 / 1000; 2 / 3; 46904 / 100000; 33 / 1000])])]
    "GaussianMixture" mk_mixture [("parameters", VVec [5 / 10; 93809 / 1000000; 33 / 1000; 1; 28143 / 100000; 33 / 1000; 2 / 3; 46904 / 100000; 33 / 1000])]
    (AMixture gem_kernel false) r) as (k & Hk & _ & F); try reflexivity; try lia.
  - cbn [act_ok gem_kernel forallb snd]. assert (nonzero (eps9 + 33 / 1000) = true) as -> by (apply nonzero_true; lra). reflexivity.
  - eauto.
Qed.

Lemma smoothlife_kernel r a b : (1 <= r)%nat -> exists k, get_kernel [("name", VStr "SmoothLifeKernel"); ("kernel_kwargs", VDict [("r_a", VNum a); ("r_i", VNum b)]); ("radius", VInt (Z.of_nat r))] = Ok k /\
  fitted r (fun i j => act_fn (ASmoothLife a b) (rho r i j)) k.
Proof.
  intros Hr. destruct (get_kernel_fit [("name", VStr "SmoothLifeKernel"); ("kernel_kwargs", VDict [("r_a", VNum a); ("r_i", VNum b)]); ("radius", VInt (Z.of_nat r))]
    "SmoothLifeKernel" mk_smoothlife [("r_a", VNum a); ("r_i", VNum b)] (ASmoothLife a b) r) as (k & Hk & _ & F); try reflexivity; try lia. eauto.
Qed.

Lemma orbium_load fuel ev rng o h r : obj_inv o -> (1 <= r)%nat -> exists o' h' k, load_value fuel ev rng o (get_orbium_config (Z.of_nat r)) h = Ok (o', h') /\
  fitted r (fun i j => act_fn (AGaussian (1 / 2) (15 / 100) false) (rho r i j)) k /\
  rule_of o o' default_id_kernel k [AMixture [(1, 15 / 100, 15 / 1000)] true] [AMixture [(1, 15 / 100, 15 / 1000)] true] (1 / 10).
Proof.
  intros I Hr. destruct (orbium_kernel r Hr) as (k & Hk & F).
  destruct (bundle_load fuel ev rng o h (get_orbium_config (Z.of_nat r)) [("name", VStr "Gaussian"); ("radius", VInt (Z.of_nat r)); ("kernel_kwargs", VDict [("mu", VNum (1 / 2)); ("sigma", VNum (15 / 100))])]
    [("name", VStr "GaussianMixture"); ("parameters", VVec [15 / 100; 15 / 1000]); ("mode", VInt 1)] [("name", VStr "GaussianMixture"); ("parameters", VVec [15 / 100; 15 / 1000]); ("mode", VInt 1)]
    default_id_kernel k (KPVec [1 / 2; 15 / 100]) (VInt (Z.of_nat r)) [AMixture [(1, 15 / 100, 15 / 1000)] true] [AMixture [(1, 15 / 100, 15 / 1000)] true]) as (o' & h' & HL & HR); auto.
  exists o', h', k. auto.
Qed.

Lemma geminium_load fuel ev rng o h r : obj_inv o -> (1 <= r)%nat -> exists o' h' k, load_value fuel ev rng o (get_geminium_config (Z.of_nat r)) h = Ok (o', h') /\
  fitted r (fun i j => act_fn (AMixture gem_kernel false) (rho r i j)) k /\
  rule_of o o' default_id_kernel k [AMixture [(1, 26 / 100, 36 / 1000)] true] [AMixture [(1, 26 / 100, 36 / 1000)] true] (1 / 10).
Proof.
  intros I Hr. destruct (geminium_kernel r Hr) as (k & Hk & F).
  destruct (bundle_load fuel ev rng o h (get_geminium_config (Z.of_nat r)) [("name", VStr "GaussianMixture"); ("radius", VInt (Z.of_nat r)); ("kernel_kwargs", VDict [("parameters", VVec [5 / 10; 93809 / 1000000; 33 / 1000;
                                                           1; 28143 / 100000; 33 / 1000; 2 / 3; 46904 / 100000; 33 / 1000])])]
    [("name", VStr "GaussianMixture"); ("parameters", VVec [26 / 100; 36 / 1000]); ("mode", VInt 1)] [("name", VStr "GaussianMixture"); ("parameters", VVec [26 / 100; 36 / 1000]); ("mode", VInt 1)]
    default_id_kernel k (KPVec [5 / 10; 93809 / 1000000; 33 / 1000; 1; 28143 / 100000; 33 / 1000; 2 / 3; 46904 / 100000; 33 / 1000]) (VInt (Z.of_nat r))
    [AMixture [(1, 26 / 100, 36 / 1000)] true] [AMixture [(1, 26 / 100, 36 / 1000)] true]) as (o' & h' & HL & HR); auto.
  exists o', h', k. auto.
Qed.

Lemma smoothlife_fn l al : make_fn [("name", VStr "SmoothIntervals"); ("parameters", tensor_of_pairs l); ("alpha", VNum al); ("mode", VInt 1)] = Ok [ASmoothIntervals l al true].
Proof.
  unfold make_fn, dgetk. cbn [dget find fst snd String.eqb Ascii.eqb Bool.eqb bind]. unfold mk_smoothintervals, query_kwargs. cbn [dget String.eqb Ascii.eqb Bool.eqb].
  assert (as_intervals (tensor_of_pairs l) = Ok l) as -> by (destruct l; reflexivity). reflexivity.
Qed.

Lemma smoothlife_load fuel ev rng o h r b s : obj_inv o -> (1 <= r)%nat -> exists o' h' ki k, load_value fuel ev rng o (get_smooth_life_config (Z.of_nat r) b s) h = Ok (o', h') /\
  fitted r (fun i j => act_fn (ASmoothLife (1 / 3) 0) (rho r i j)) ki /\ fitted r (fun i j => act_fn (ASmoothLife (105 / 100) (1 / 3)) (rho r i j)) k /\
  rule_of o o' ki k [ASmoothIntervals (match b with None => [(278 / 1000, 365 / 1000)] | Some l => l end) (28 / 1000) true]
    [ASmoothIntervals (match s with None => [(267 / 1000, 445 / 1000)] | Some l => l end) (147 / 1000) true] 1.
Proof.
  intros I Hr. destruct (smoothlife_kernel r (1 / 3) 0 Hr) as (ki & Hki & Fi). destruct (smoothlife_kernel r (105 / 100) (1 / 3) Hr) as (k & Hk & F).
  destruct (bundle_load fuel ev rng o h (get_smooth_life_config (Z.of_nat r) b s) [("name", VStr "SmoothLifeKernel"); ("kernel_kwargs", VDict [("r_a", VNum (105 / 100)); ("r_i", VNum (1 / 3))]); ("radius", VInt (Z.of_nat r))]
    [("name", VStr "SmoothIntervals"); ("parameters", tensor_of_pairs (match b with None => [(278 / 1000, 365 / 1000)] | Some l => l end)); ("alpha", VNum (28 / 1000)); ("mode", VInt 1)]
    [("name", VStr "SmoothIntervals"); ("parameters", tensor_of_pairs (match s with None => [(267 / 1000, 445 / 1000)] | Some l => l end)); ("alpha", VNum (147 / 1000)); ("mode", VInt 1)]
    ki k (KPVec [105 / 100; 1 / 3]) (VInt (Z.of_nat r))
    [ASmoothIntervals (match b with None => [(278 / 1000, 365 / 1000)] | Some l => l end) (28 / 1000) true]
    [ASmoothIntervals (match s with None => [(267 / 1000, 445 / 1000)] | Some l => l end) (147 / 1000) true]) as (o' & h' & HL & HR); auto using smoothlife_fn.
  exists o', h', ki, k. auto.
Qed.

(** Orbium and Geminium objects survive saving and loading. *)
Lemma orbium_saveable fuel ev rng o h r o' h' : obj_inv o -> (1 <= r)%nat -> int_ (o_core o) = 1%nat -> (0 < o_peaks o)%nat ->
  query_kwargs "ca_config" VNone (o_inst o) = VNone -> query_kwargs "input_filepath" VNone (o_inst o) = VNone ->
  load_value fuel ev rng o (get_orbium_config (Z.of_nat r)) h = Ok (o', h') \/ load_value fuel ev rng o (get_geminium_config (Z.of_nat r)) h = Ok (o', h') -> saveable o' h'.
Proof.
  intros I Hr E1 Pk C F [HL|HL].
  - destruct (orbium_load fuel ev rng o h r I Hr) as (o2 & h2 & k & HL2 & _ & (_ & _ & X2 & _ & _ & _ & _ & _ & _ & _ & X8 & X9)). rewrite HL in HL2. apply Ok_inj in HL2. apply pair_equal_spec in HL2 as [<- <-].
    destruct (unpickle_all (get_orbium_config (Z.of_nat r)) h _ _ _ eq_refl eq_refl eq_refl eq_refl) as (nb & gl & pl & U1 & U2 & U3 & U4 & U5 & U6 & U7 & U8 & U9 & U10 & N1 & N2 & N3).
    unfold load_value in HL. eapply (load_saveable fuel ev rng o _ _ o' h' nb gl pl I HL); auto; try congruence.
    + rewrite U6. exists 1%nat. eexists. split; [reflexivity|]. split; [reflexivity|]. split; [reflexivity|discriminate].
    + rewrite U8. exists 1%nat. eexists. split; [reflexivity|]. split; [reflexivity|]. split; [reflexivity|discriminate].
    + rewrite U4. exists r. split; [lia|reflexivity].
  - destruct (geminium_load fuel ev rng o h r I Hr) as (o2 & h2 & k & HL2 & _ & (_ & _ & X2 & _ & _ & _ & _ & _ & _ & _ & X8 & X9)). rewrite HL in HL2. apply Ok_inj in HL2. apply pair_equal_spec in HL2 as [<- <-].
    destruct (unpickle_all (get_geminium_config (Z.of_nat r)) h _ _ _ eq_refl eq_refl eq_refl eq_refl) as (nb & gl & pl & U1 & U2 & U3 & U4 & U5 & U6 & U7 & U8 & U9 & U10 & N1 & N2 & N3).
    unfold load_value in HL. eapply (load_saveable fuel ev rng o _ _ o' h' nb gl pl I HL); auto; try congruence.
    + rewrite U6. exists 1%nat. eexists. split; [reflexivity|]. split; [reflexivity|]. split; [reflexivity|discriminate].
    + rewrite U8. exists 1%nat. eexists. split; [reflexivity|]. split; [reflexivity|]. split; [reflexivity|discriminate].
    + rewrite U4. exists r. split; [lia|reflexivity].
Qed.
