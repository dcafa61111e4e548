(** Theorems about parameter vectors and configurations of continuous automata: C24, C25,
    C27-C32, parts of C26 and C33, and C65. *)
From Coq Require Import Reals Lra Lia List Arith Bool ZArith String Ascii.
From Verif Require Import Base PyDict Tensor MActivations MKernels MCommon MCca MNca MConfig SGrid SCca SKern SConfig PTensor PDyn PAct PKern PKernX PKernY PConfig PConfigX PConfigY PConfigZ PConfigW PConfigV.
Import ListNotations.
Open Scope R_scope.
Open Scope string_scope.

(** An object built and loaded from a Gaussian kernel and two pair mixtures. *)
Definition orb_fn : dict := [("name", VStr "GaussianMixture"); ("parameters", VVec [15 / 100; 15 / 1000]); ("mode", VInt 1)].
Definition orb_act : act := AMixture [(1, 15 / 100, 15 / 1000)] true.
Definition orb_heap : heap := [gk_cfg; orb_fn; orb_fn].

Example ex_orb : exists k o0 o1, made3 None default_id_kernel k [orb_act] [orb_act] orb_heap o0 o1.
Proof.
  pose proof eps9_pos'. destruct (pair_kernel 0 (1 / 2)) as (k & _ & Hk); [lra|]. exists k.
  apply (make3 None default_id_kernel k (KPVec [0; 1 / 2]) (VInt 1) [orb_act] [orb_act] gk_cfg orb_fn orb_fn []); auto.
Qed.

(** ** C24 Parameter vectors *)

(** Getting after setting: the object's own number of entries of the vector. *)
Theorem C24_round o p o' : set_params o p = Ok o' -> exists v, get_params o = Some v /\ get_params o' = Some (firstn (List.length v) p).
Proof. exact (set_get o p o'). Qed.

(** What set_params changes and what it keeps. *)
Theorem C24_frame o p o' : set_params o p = Ok o' -> exists l g q k,
  o_kpar o = KPVec l /\ (fn_count (o_core o) <= List.length p)%nat /\
  o_kpar o' = KPVec (firstn (List.length l) (skipn (fn_count (o_core o)) p)) /\
  g = gens (o_core o') /\ q = pers (o_core o') /\
  (fn_params g ++ fn_params q = firstn (fn_count (o_core o)) p)%list /\
  Forall2 act_frame (gens (o_core o)) g /\ Forall2 act_frame (pers (o_core o)) q /\
  mixture_kernel_of (o_radius o) (firstn (List.length l) (skipn (fn_count (o_core o)) p)) = Ok k /\
  uses_kernel (o_core o') k /\ kept o o'.
Proof. exact (set_params_inv o p o'). Qed.

Theorem C24_short o p : (List.length p < fn_count (o_core o))%nat -> set_params o p = Err ValueError.
Proof. exact (set_short o p). Qed.

Theorem C24_tail o p t : (forall v, get_params o = Some v -> List.length v = List.length p) ->
  (exists v, get_params o = Some v) -> set_params o (p ++ t) = set_params o p.
Proof. exact (set_tail o p t). Qed.

(** Exactly which vectors are accepted. *)
Theorem C24_accepts o p l r : o_kpar o = KPVec l -> o_radius o = VInt (Z.of_nat r) -> cca_wf (o_core o) ->
  ((exists o', set_params o p = Ok o') <->
   ((fn_count (o_core o) <= List.length p)%nat /\ exists k, get_gaussian_mixture_kernel r (firstn (List.length l) (skipn (fn_count (o_core o)) p)) 1 = Ok k)).
Proof. exact (set_accepts o p l r). Qed.

(** Kernel parameters that are None or a single number make set_params raise. *)
Theorem C24_raises o p : (fn_count (o_core o) <= List.length p)%nat ->
  (o_kpar o = KPNone -> set_params o p = Err AttributeError) /\ (forall r, o_kpar o = KPScalar r -> set_params o p = Err IndexError).
Proof. exact (fun H => conj (fun E => set_none o p E H) (fun r E => set_scalar o p r E H)). Qed.

(** The same two update functions are determined by their parameters. *)
Theorem C24_inj l a b : Forall2 act_frame l a -> Forall2 act_frame l b -> fn_params a = fn_params b -> a = b.
Proof. exact (fn_params_inj l a b). Qed.

Example ex_set : exists o p o', List.length p = 6%nat /\ get_params o <> Some p /\ set_params o p = Ok o' /\ get_params o' = Some p.
Proof.
  destruct ex_orb as (k & o0 & o1 & _ & _ & I & _ & _ & _ & _ & _ & C1 & C2 & C3 & C4 & C5 & C6 & _ & _ & C9 & C10). cbv zeta in *.
  change (read_kpar (o_kpar o0) (hget orb_heap 0%nat)) with (Ok (KPVec [0; 1 / 2]) : res kpar) in C9. apply Ok_inj in C9.
  change (dget "radius" (hget orb_heap 0%nat)) with (Some (VInt 1)) in C10. injection C10 as C10.
  set (p := [1; 2; 3; 4; 5; 6]). pose proof eps9_pos'.
  destruct (obj_inv_wf o1 I) as (W & _). destruct (set_accepts o1 p [0; 1 / 2] 1) as [_ A]; auto.
  destruct A as [o' S].
  - unfold fn_count. rewrite C5, C6. split; [cbn; lia|]. destruct (pair_kernel 5 6) as (k' & Hk' & _); [lra|]. exists k'. exact Hk'.
  - exists o1, p, o'. split; [reflexivity|]. assert (G : get_params o1 = Some [15 / 100; 15 / 1000; 15 / 100; 15 / 1000; 0; 1 / 2]).
    { unfold get_params. rewrite <- C9, C5, C6. reflexivity. }
    split; [rewrite G; intros E; injection E; intros; lra|]. split; [exact S|]. destruct (set_get o1 p o' S) as (v & Ev & E). rewrite G in Ev. injection Ev as <-. exact E.
Qed.

(** ** C25 Re-applying the object's own parameters *)
Theorem C25_self o v : kernel_synced o -> get_params o = Some v -> set_params o v = Ok o.
Proof. exact (synced_self o v). Qed.

(** Objects whose kernel is that of their parameters: fresh ones, those loaded from or set to
    a Gaussian (mu before sigma) or GaussianMixture kernel, and any after a set_params. *)
Theorem C25_synced :
  (forall fuel ev rng kw h o h', query_kwargs "ca_config" VNone kw = VNone -> init fuel ev rng kw h = Ok (o, h') -> kernel_synced o) /\
  (forall fuel ev rng o cf h o' h' l, load_config fuel ev rng o cf h = Ok (o', h') -> c_nb cf = Some l -> mixture_like (hget h l) -> kernel_synced o') /\
  (forall o l h o' h', set_kernel_config o l h = Ok (o', h') -> mixture_like (hget h l) -> kernel_synced o') /\
  (forall o p o', obj_inv o -> set_params o p = Ok o' -> kernel_synced o').
Proof. exact (conj init_synced (conj load_synced (conj set_config_synced (fun o p o' I H => proj2 (set_params_obj_inv o p o' I H))))). Qed.

(** The parameters of a kernel are the numbers among its arguments, in the order of the arguments; a single
    number stays a scalar. *)
Definition numbers_of (v : value) (l : list R) : Prop :=
  (exists r, v = VNum r /\ l = [r]) \/ (exists z, v = VInt z /\ l = [IZR z]) \/ v = VVec l.

Theorem C25_arguments kw ls : Forall2 (fun a l => numbers_of (snd a) l) kw ls ->
  exists kp, update_kernel_params KPNone kw = Ok kp /\ kp_flat kp = List.concat ls /\ (kp = KPNone <-> kw = []) /\
    (forall r, kp = KPScalar r <-> exists a, kw = [a] /\ numbers_of (snd a) [r] /\ snd a <> VVec [r]).
Proof.
  assert (A : forall v l, numbers_of v l -> exists k, np_array v = Ok k /\ kp_flat k = l /\ k <> KPNone /\ (forall r, k = KPScalar r <-> l = [r] /\ v <> VVec l)).
  { intros v l [(r & -> & ->)|[(z & -> & ->)| ->]]; (eexists; split; [reflexivity|]; split; [reflexivity|]; split; [discriminate|]); intros r'; split; try (intros E; injection E as <-; split; [reflexivity|discriminate]).
    - intros [E _]. injection E as <-. reflexivity.
    - intros [E _]. injection E as <-. reflexivity.
    - discriminate.
    - intros [_ N]. congruence. }
  assert (G : forall w m acc, acc <> KPNone -> Forall2 (fun a l => numbers_of (snd a) l) w m ->
    exists kp, update_kernel_params acc w = Ok kp /\ kp_flat kp = (kp_flat acc ++ List.concat m)%list /\ kp <> KPNone /\ (w <> [] -> forall r, kp <> KPScalar r) /\ (w = [] -> kp = acc)).
  { induction w as [|[k v] w IH]; intros m acc N F; inversion F as [|? l ? m' H F']; subst.
    - exists acc. cbn. rewrite app_nil_r. repeat split; auto; congruence.
    - cbn [snd] in H. destruct (A v l H) as (kk & E & Fl & Nk & _). cbn [update_kernel_params]. rewrite E. cbn [bind].
      destruct (IH m' (KPVec (kp_flat acc ++ kp_flat kk)) ltac:(discriminate) F') as (kp & E' & Fl' & N' & Sc & Em). exists kp.
      replace (match acc with KPNone => kk | _ => KPVec (kp_flat acc ++ kp_flat kk) end) with (KPVec (kp_flat acc ++ kp_flat kk)) by (destruct acc; congruence).
      split; [exact E'|]. split; [rewrite Fl'; cbn [kp_flat List.concat]; rewrite Fl, app_assoc; reflexivity|]. split; [exact N'|]. split; [|discriminate].
      intros _ r. destruct w; [rewrite (Em eq_refl); discriminate|apply Sc; discriminate]. }
  intros F. destruct F as [|[k v] l w m H F].
  - exists KPNone. repeat split; try discriminate. intros (a & E & _). discriminate.
  - cbn [snd] in H. destruct (A v l H) as (kk & E & Fl & Nk & Sc). cbn [update_kernel_params]. rewrite E. cbn [bind].
    destruct (G w m kk Nk F) as (kp & E' & Fl' & N' & Sn & Em). exists kp. split; [exact E'|]. split; [rewrite Fl', Fl; reflexivity|]. split; [split; [contradiction|discriminate]|].
    intros r. split.
    + intros K. destruct w as [|a w]; [|contradiction (Sn ltac:(discriminate) r K)]. exists (k, v). rewrite (Em eq_refl) in K. apply Sc in K as [-> K]. auto.
    + intros (a & Ea & Ha & Hn). injection Ea as <- ->. rewrite (Em eq_refl). cbn [snd] in *. apply Sc.
      destruct Ha as [(r' & -> & Q)|[(z & -> & Q)|Q]]; [| |contradiction].
      * destruct H as [(r'' & Q1 & ->)|[(z & Q1 & _)|Q1]]; [|discriminate..]. injection Q1 as <-. split; [congruence|discriminate].
      * destruct H as [(r'' & Q1 & _)|[(z' & Q1 & ->)|Q1]]; [discriminate| |discriminate]. injection Q1 as <-. split; [congruence|discriminate].
Qed.

Example C25_arguments_case : exists kp, update_kernel_params KPNone [("mu", VNum (1 / 2)); ("sigma", VVec [1; 2]); ("n", VInt 3)] = Ok kp /\ kp_flat kp = [1 / 2; 1; 2; 3].
Proof.
  destruct (C25_arguments [("mu", VNum (1 / 2)); ("sigma", VVec [1; 2]); ("n", VInt 3)] [[1 / 2]; [1; 2]; [3]]) as (kp & E & F & _); [|exists kp; split; [exact E|exact F]].
  constructor; [left; exists (1 / 2); split; reflexivity|]. constructor; [right; right; reflexivity|]. constructor; [right; left; exists 3%Z; split; reflexivity|constructor].
Qed.

(** Other kernels: the rule changes. Moore neighbourhood (the kernel parameters left over from
    the construction are used), SmoothLife, CosOverX2, DoGaussian, and a Gaussian whose keyword
    arguments are given sigma first. *)
Theorem C25_moore_refuted : reapply_differs [("name", VStr "MooreLike"); ("radius", VInt 1)].
Proof. exact moore_reapply. Qed.

Theorem C25_smoothlife_refuted : reapply_differs (kcfg "SmoothLifeKernel" [("r_a", VNum (105 / 100)); ("r_i", VNum (1 / 3))]).
Proof. exact smoothlife_reapply. Qed.

Theorem C25_cosx2_refuted : reapply_differs (kcfg "CosOverX2" [("mu", VNum 0); ("omega", VNum PI)]).
Proof. exact cosx2_reapply. Qed.

Theorem C25_dogaussian_refuted : reapply_differs (kcfg "DoGaussian" [("mu", VNum (sqrt 2)); ("sigma", VNum (1 / 2))]).
Proof. exact dogaussian_reapply. Qed.

Theorem C25_swapped_refuted : reapply_differs (kcfg "Gaussian" [("sigma", VNum (1 / 10)); ("mu", VNum 1)]).
Proof. exact swapped_reapply. Qed.

Example ex_synced : exists o v, kernel_synced o /\ get_params o = Some v /\ v <> [].
Proof.
  destruct ex_orb as (k & o0 & o1 & _ & H & _ & _ & _ & _ & _ & _ & C1 & C2 & C3 & C4 & C5 & C6 & _ & _ & C9 & _). cbv zeta in *.
  change (read_kpar (o_kpar o0) (hget orb_heap 0%nat)) with (Ok (KPVec [0; 1 / 2]) : res kpar) in C9. apply Ok_inj in C9.
  exists o1. eexists. split; [eapply load_synced; [exact H|reflexivity|]|].
  - right. split; [reflexivity|]. exists 0, (1 / 2). reflexivity.
  - split; [unfold get_params; rewrite <- C9; reflexivity|]. rewrite C5, C6. discriminate.
Qed.

(** ** C26 Lenia *)
Theorem C26_lenia o p o' : lenia_set_params o p = Ok o' ->
  lenia_get_params o' = firstn (List.length (lenia_get_params o)) p /\ (List.length (lenia_get_params o) <= List.length p)%nat /\
  Forall2 act_frame (gens (o_core o)) (gens (o_core o')) /\ pers (o_core o') = pers (o_core o) /\ nbl (o_core o') = nbl (o_core o) /\
  o_kpar o' = o_kpar o /\ kept o o'.
Proof. exact (lenia_set_get o p o'). Qed.

Theorem C26_lenia_accepts o p : if Nat.ltb (List.length p) (List.length (fn_params (gens (o_core o)))) then lenia_set_params o p = Err ValueError
  else exists o', lenia_set_params o p = Ok o'.
Proof.
  destruct (Nat.ltb_spec (List.length p) (List.length (fn_params (gens (o_core o))))); [apply lenia_set_short|apply lenia_set_exists]; assumption.
Qed.

Theorem C26_lenia_self o : lenia_get_params o = fn_params (gens (o_core o)) /\ lenia_set_params o (lenia_get_params o) = Ok o.
Proof. exact (conj eq_refl (lenia_set_self o)). Qed.

(** ** C27 Saving and loading *)

(** The round trip: same channels, kernels, update functions and time step, so the same rule. *)
Theorem C27_round o h f ev rng o2 h2 p o' h' : saveable o h -> good_rng rng -> make_config o h = (p, o', h') ->
  exists o3 h3, load_value (S f) ev rng o2 p h2 = Ok (o3, h3) /\ o_core o3 = o_core o.
Proof. exact (saveable_round o h f ev rng o2 h2 p o' h'). Qed.

(** Loading a config of the stated class gives such an object ... *)
Theorem C27_loaded fuel ev rng o cf h o' h' nb gl pl : obj_inv o -> load_config fuel ev rng o cf h = Ok (o', h') ->
  c_id cf = None -> c_nb cf = Some nb -> c_gen cf = Some gl -> c_per cf = Some pl -> nb <> gl -> nb <> pl -> gl <> pl ->
  (exists n l, dget "name" (hget h gl) = Some (VStr "GaussianMixture") /\ dget "parameters" (hget h gl) = Some (VVec l) /\ List.length l = (2 * n)%nat /\ (List.length l mod 3 <> 0)%nat) ->
  (exists n l, dget "name" (hget h pl) = Some (VStr "GaussianMixture") /\ dget "parameters" (hget h pl) = Some (VVec l) /\ List.length l = (2 * n)%nat /\ (List.length l mod 3 <> 0)%nat) ->
  int_ (o_core o') = 1%nat -> (0 < o_peaks o')%nat -> (exists r, (0 < r)%nat /\ dget "radius" (hget h nb) = Some (VInt (Z.of_nat r))) ->
  query_kwargs "ca_config" VNone (o_inst o') = VNone -> query_kwargs "input_filepath" VNone (o_inst o') = VNone ->
  saveable o' h'.
Proof. exact (load_saveable fuel ev rng o cf h o' h' nb gl pl). Qed.

(** ... and make_config, set_dt, set_kernel_radius, and set_params that keeps the kernel's
    parameters, leave it one. *)
Theorem C27_kept o h : saveable o h ->
  (forall p o' h', make_config o h = (p, o', h') -> saveable o' h') /\
  (forall x, saveable (set_dt o x) h) /\
  (forall r o' h', (0 < r)%nat -> set_kernel_radius o (VInt (Z.of_nat r)) h = Ok (o', h') -> saveable o' h') /\
  (forall q o' l, kernel_synced o -> o_kpar o = KPVec l -> firstn (List.length l) (skipn (fn_count (o_core o)) q) = l -> set_params o q = Ok o' ->
     saveable o' h /\ kernel_synced o').
Proof.
  exact (fun H => conj (fun p o' h' => saveable_make o h p o' h' H) (conj (fun x => saveable_dt o h x H)
    (conj (fun r o' h' => saveable_radius o h r o' h' H) (fun q o' l => saveable_set o h q o' l H)))).
Qed.

(** What any reload recovers, whatever the update functions. *)
Theorem C27_recovers fuel ev rng o h nb gl pl p o' h' o2 h2 o3 h3 :
  o_nb o = Some nb -> o_gen o = Some gl -> o_per o = Some pl -> nb <> gl -> nb <> pl -> gl <> pl ->
  (gl < List.length h)%nat -> (pl < List.length h)%nat -> obj_inv o ->
  query_kwargs "ca_config" VNone (o_inst o) = VNone -> query_kwargs "input_filepath" VNone (o_inst o) = VNone ->
  make_config o h = (p, o', h') -> load_value fuel ev rng o2 p h2 = Ok (o3, h3) ->
  let c := o_core o in let c3 := o_core o3 in
  ext c3 = ext c /\ int_ c3 = int_ c /\ pm c3 = pm c /\ thr c3 = thr c /\ dt c3 = dt c /\ wl c3 = wl c /\
  init_layer (ext c) (int_ c) (pm c) default_id_kernel = Ok (idl c3) /\
  (exists k, get_kernel (hget h nb) = Ok k /\ uses_kernel c3 k) /\
  make_fn (dset "parameters" (VVec (fn_params (gens c))) (hget h gl)) = Ok (gens c3) /\
  make_fn (dset "parameters" (VVec (fn_params (pers c))) (hget h pl)) = Ok (pers c3) /\ obj_inv o3.
Proof. exact (reload_inv fuel ev rng o h nb gl pl p o' h' o2 h2 o3 h3). Qed.

(** Intervals are lost: what is read back has none. *)
Theorem C27_intervals d ivs al md : dget "name" d = Some (VStr "SmoothIntervals") -> make_fn d = Ok [ASmoothIntervals ivs al md] ->
  make_fn (dset "parameters" (VVec (fn_params [ASmoothIntervals ivs al md])) d) = Ok [ASmoothIntervals [] al md].
Proof. exact (intervals_reread d ivs al md). Qed.

(** A reloaded Life-like rule kills every grid in one step. *)
Theorem C27_life_dies c u u' al al' : cca_wf c -> init_weights (ext c) (int_ c) (pm c) = Ok (wl c) -> cca_forward c u = Ok u' -> twf u -> in_unit u -> ext c = 1%nat -> int_ c = 1%nat -> dt c = 1 ->
  gens c = [ASmoothIntervals [] al true] -> pers c = [ASmoothIntervals [] al' true] -> u' = zero_grid (tB u) 1 (tH u) (tW u).
Proof. exact (dead_rule c u u' al al'). Qed.

(** Mixtures lose their amplitudes; with a multiple of three peaks the rest is misread too. *)
Theorem C27_amplitudes d gs md : dget "name" d = Some (VStr "GaussianMixture") -> truthy (query_kwargs "mode" (VInt 0) d) = md ->
  make_fn (dset "parameters" (VVec (fn_params [AMixture gs md])) d) =
  Ok [AMixture (if Nat.eqb (2 * List.length gs mod 3) 0 then triples (flat_map (fun g : R * R * R => let '(_, m, s) := g in [m; s]) gs)
                else map (fun g : R * R * R => let '(_, m, s) := g in (1, m, s)) gs) md].
Proof. exact (mixture_reread d gs md). Qed.

(** Several internal channels: a loaded object cannot step. *)
Theorem C27_channels fuel ev rng o cf h o' h' u : obj_inv o -> load_config fuel ev rng o cf h = Ok (o', h') -> int_ (o_core o') <> 1%nat ->
  twf u -> tC u = ext (o_core o') -> (0 < tH u)%nat -> (0 < tW u)%nat -> fits (idl (o_core o')) u -> fits (nbl (o_core o')) u ->
  cca_forward (o_core o') u = Err AssertionError.
Proof. exact (load_channels fuel ev rng o cf h o' h' u). Qed.

Theorem C27_intervals_refuted : reload_differs None [moore1; iv_cfg; iv_cfg].
Proof. exact intervals_differ. Qed.

Theorem C27_amplitudes_refuted : reload_differs None [moore1; amp_cfg; amp_cfg].
Proof. exact amplitude_differ. Qed.

Theorem C27_identity_refuted : reload_differs (Some 3%nat) [moore1; const_cfg 0; const_cfg 1; moore1].
Proof. exact identity_differ. Qed.

Example ex_saveable : exists o, saveable o orb_heap /\ gens (o_core o) = [orb_act] /\ kernel_synced o.
Proof.
  destruct ex_orb as (k & o0 & o1 & Hi & H & _ & Ei & Epk & _ & _ & _ & C1 & C2 & C3 & C4 & C5 & C6 & _). cbv zeta in *. exists o1. split; [|split; [exact C5|]].
  - destruct (wit_init orb_heap) as (x & X1 & _ & I & _). rewrite X1 in Hi. apply Ok_inj in Hi. injection Hi as ->.
    apply (load_saveable 1 no_env wit_rng o0 (cfg3 None) orb_heap o1 orb_heap 0%nat 1%nat 2%nat I H); try reflexivity; try discriminate; auto.
    + exists 1%nat, [15 / 100; 15 / 1000]. repeat split. discriminate.
    + exists 1%nat, [15 / 100; 15 / 1000]. repeat split. discriminate.
    + lia.
    + exists 1%nat. split; [lia|reflexivity].
    + rewrite Ei. reflexivity.
    + rewrite Ei. reflexivity.
  - eapply load_synced; [exact H|reflexivity|]. right. split; [reflexivity|]. exists 0, (1 / 2). reflexivity.
Qed.

(** ** C28 Saved kernels go stale *)
Theorem C28_stale o q o' h nb : o_nb o = Some nb -> o_gen o <> Some nb -> o_per o <> Some nb -> (nb < List.length h)%nat -> set_params o q = Ok o' ->
  p_nb (fst (fst (make_config o' h))) = Some (hget h nb) /\
  exists k l, mixture_kernel_of (o_radius o) l = Ok k /\ o_kpar o' = KPVec l /\ uses_kernel (o_core o') k.
Proof. exact (stale_nb o q o' h nb). Qed.

(** set_kernel_radius after set_params goes back to the config's kernel while the parameter
    vector still shows the new values. *)
Theorem C28_radius o q o' h nb r o2 h2 : o_nb o = Some nb -> set_params o q = Ok o' -> set_kernel_radius o' r h = Ok (o2, h2) ->
  o_kpar o2 = o_kpar o' /\ exists k, get_kernel (dset "radius" r (hget h nb)) = Ok k /\ uses_kernel (o_core o2) k.
Proof. exact (radius_reverts o q o' h nb r o2 h2). Qed.

(** Load, set_params, save, reload: another rule. *)
Theorem C28_refuted : stale_differs.
Proof. exact stale_witness. Qed.

(** ** C29 The first config of a fresh object *)
Theorem C29_first o h p o' h' : o_gen o = None -> o_per o = None -> make_config o h = (p, o', h') ->
  p_gen p = Some fixed_fn /\ p_per p = Some fixed_fn /\
  forall p2 o2 h2, make_config o' h' = (p2, o2, h2) ->
    p_gen p2 = Some (dset "parameters" (VVec (fn_params (gens (o_core o)))) fixed_fn) /\
    p_per p2 = Some (dset "parameters" (VVec (fn_params (pers (o_core o)))) fixed_fn).
Proof. exact (fresh_config o h p o' h'). Qed.

Theorem C29_idempotent o h p o' h' p2 o2 h2 : o_gen o = None -> o_per o = None -> make_config o h = (p, o', h') -> make_config o' h' = (p2, o2, h2) ->
  (p_gen p2 = p_gen p <-> fn_params (gens (o_core o)) = [15000001 / 100000000; 15 / 1000]).
Proof. exact (fresh_not_idempotent o h p o' h' p2 o2 h2). Qed.

(** Reloading it gives the fixed functions with the object's own kernel. *)
Theorem C29_reload dr kw o h p o' h' fuel ev rng o2 h2 o3 h3 : fresh dr kw = Ok o -> clean kw -> make_config o h = (p, o', h') -> load_value fuel ev rng o2 p h2 = Ok (o3, h3) ->
  gens (o_core o3) = [AMixture [(1, 15000001 / 100000000, 15 / 1000)] true] /\ pers (o_core o3) = [AMixture [(1, 15000001 / 100000000, 15 / 1000)] true] /\
  nbl (o_core o3) = nbl (o_core o) /\ idl (o_core o3) = idl (o_core o) /\ dt (o_core o3) = 1 / 10.
Proof. exact (fresh_reload dr kw o h p o' h' fuel ev rng o2 h2 o3 h3). Qed.

Example ex_fresh : exists o, fresh wit_dr wit_kw = Ok o /\ o_gen o = None /\ o_per o = None /\ fn_params (gens (o_core o)) = [15 / 100; 15 / 1000].
Proof.
  destruct (wit_init []) as (o & _ & F & _ & _ & _ & E & _). exists o. split; [exact F|]. apply fresh_inv in F as (_ & _ & _ & _ & _ & Eg & Ep & _ & _ & G & _).
  split; [exact Eg|]. split; [exact Ep|]. rewrite G, E. cbn [seq map fn_params flat_map default_gen Nat.ltb Nat.leb wit_dr dr_g act_params app].
  unfold default_mu, default_sigma. cbn [dr_mu dr_sigma wit_dr]. rewrite !clamp_unit by lra. f_equal; [lra|]. f_equal. lra.
Qed.

(** ** C30 Shared config dictionaries *)
Theorem C30_references fuel ev rng o cf h o' h' : obj_inv o -> load_config fuel ev rng o cf h = Ok (o', h') ->
  o_nb o' = c_nb cf /\ o_gen o' = c_gen cf /\ o_per o' = c_per cf.
Proof. exact (load_refs fuel ev rng o cf h o' h'). Qed.

Theorem C30_second fuel ev rng o cf h o1 h1 p o1' h1' oB fuel' ev' rng' oB' h2 gl pl : obj_inv o -> obj_inv oB ->
  load_config fuel ev rng o cf h = Ok (o1, h1) -> make_config o1 h1 = (p, o1', h1') -> load_config fuel' ev' rng' oB cf h1' = Ok (oB', h2) ->
  c_gen cf = Some gl -> c_per cf = Some pl -> (gl < List.length h)%nat -> (pl < List.length h)%nat ->
  (gl <> pl -> make_fn (dset "parameters" (VVec (fn_params (gens (o_core o1)))) (hget h gl)) = Ok (gens (o_core oB'))) /\
  (gl <> pl -> make_fn (dset "parameters" (VVec (fn_params (pers (o_core o1)))) (hget h pl)) = Ok (pers (o_core oB'))) /\
  (gl = pl -> make_fn (dset "parameters" (VVec (fn_params (pers (o_core o1)))) (hget h gl)) = Ok (gens (o_core oB'))).
Proof. exact (second_load fuel ev rng o cf h o1 h1 p o1' h1' oB fuel' ev' rng' oB' h2 gl pl). Qed.

Theorem C30_radius fuel ev rng o cf h o1 h1 r o1' h1' oB fuel' ev' rng' oB' h2 nb : obj_inv o -> obj_inv oB ->
  load_config fuel ev rng o cf h = Ok (o1, h1) -> set_kernel_radius o1 r h1 = Ok (o1', h1') -> load_config fuel' ev' rng' oB cf h1' = Ok (oB', h2) ->
  c_nb cf = Some nb -> (nb < List.length h)%nat -> o_radius oB' = r /\ exists k, get_kernel (dset "radius" r (hget h nb)) = Ok k /\ uses_kernel (o_core oB') k.
Proof. exact (second_load_radius fuel ev rng o cf h o1 h1 r o1' h1' oB fuel' ev' rng' oB' h2 nb). Qed.

Theorem C30_refuted : reuse_differs.
Proof. exact reuse_witness. Qed.

(** ** C31 Files that refer to themselves *)
Theorem C31_save ev o F h ev' o' h' : obj_inv o -> query_kwargs "ca_config" VNone (o_inst o) = VStr F -> npy F = F -> strip_newlines F = F ->
  save_config ev o F h = (ev', o', h') ->
  (forall fuel rng o2 h2 r, restore_config fuel ev' rng o2 F h2 <> Ok r) /\
  (forall fuel rng kw h2 r, query_kwargs "ca_config" VNone kw = VStr F -> init fuel ev' rng kw h2 <> Ok r) /\
  (forall r, (0 < o_peaks o)%nat -> (0 < r)%nat -> o_radius o = VInt (Z.of_nat r) ->
     forall fuel rng o2 h2, good_rng rng -> restore_config fuel ev' rng o2 F h2 = Err OutOfFuel).
Proof. exact (save_self_loops ev o F h ev' o' h'). Qed.

(** Any cycle of files, each naming another of the cycle. *)
Theorem C31_cycle ev (S : pcfg -> Prop) : self_set ev S ->
  (forall fuel rng o path pc h r, found ev (strip_newlines path) = Some (FConfig pc) -> S pc -> restore_config fuel ev rng o path h <> Ok r) /\
  (forall fuel rng kw F pc h r, query_kwargs "ca_config" VNone kw = VStr F -> found ev (strip_newlines F) = Some (FConfig pc) -> S pc -> init fuel ev rng kw h <> Ok r) /\
  (forall fuel rng o path pc h, found ev (strip_newlines path) = Some (FConfig pc) -> S pc ->
     (forall pc kw, S pc -> p_inst pc = Some kw -> forall n, exists o, fresh (rng n) kw = Ok o) -> restore_config fuel ev rng o path h = Err OutOfFuel).
Proof.
  exact (fun H => conj (fun fuel rng o path pc h r => restore_self ev S fuel rng o path pc h r H) (conj (init_self ev S H)
    (fun fuel rng o path pc h => restore_deep ev S fuel rng o path pc h H))).
Qed.

(** A file whose constructor arguments name no config: one nested construction is enough, so
    the outcome does not depend on the recursion limit. *)
Theorem C31_plain ev rng o path pc h f : found ev (strip_newlines path) = Some (FConfig pc) ->
  match p_inst pc with Some kw => query_kwargs "ca_config" VNone kw = VNone | None => True end ->
  restore_config (S f) ev rng o path h = restore_config 1 ev rng o path h /\
  (p_inst pc = None -> restore_config 0 ev rng o path h = restore_config 1 ev rng o path h).
Proof. exact (restore_plain ev rng o path pc h f). Qed.

(** Built from orbium.npy and saved back to it. *)
Definition orb_file : pcfg := mkPcfg None None None (Some gk_cfg) (Some orb_fn) (Some orb_fn) false (Some 1).
Definition orb_env : env := mkEnv [("orbium.npy", FConfig orb_file)] "ca_configs".
Definition orb_kw : dict := [("ca_config", VStr "orbium.npy"); ("kernel_radius", VInt 1); ("kernel_peaks", VInt 1)].

Example ex_self : exists o h, init 1 orb_env wit_rng orb_kw [] = Ok (o, h) /\ obj_inv o /\ query_kwargs "ca_config" VNone (o_inst o) = VStr "orbium.npy" /\
  npy "orbium.npy" = "orbium.npy" /\ strip_newlines "orbium.npy" = "orbium.npy" /\ (0 < o_peaks o)%nat /\ o_radius o = VInt (Z.of_nat 1).
Proof.
  destruct (fresh_ok wit_dr orb_kw Circular 1 1 (1 / 10) 1 1) as [o0 F]; try reflexivity; try lia.
  { intros [|[|i]]; cbn [dr_k wit_dr]; lra. }
  pose proof F as F'. apply fresh_inv in F' as (I & _ & _ & _ & _ & _ & _ & Ei & _ & _ & _ & Hil).
  pose proof I as (P1 & P2 & _ & _ & W & _ & _ & _ & _ & Ipk). cbv zeta in *. rewrite Ei in Ipk. change (as_size (query_kwargs "kernel_peaks" (VInt 3) orb_kw)) with (Ok 1%nat : res nat) in Ipk. apply Ok_inj in Ipk.
  pose proof eps9_pos'. destruct (pair_kernel 0 (1 / 2)) as (k & _ & Hk); [lra|].
  pose proof (k1_odd _ _ Hk) as (Sh & _). apply shape_inv in Sh as (S1 & S2 & S3 & S4).
  destruct (init_layer_ok (ext (o_core o0)) (int_ (o_core o0)) (pm (o_core o0)) k) as [nl Enl]; auto; try congruence.
  assert (EQ : init 1 orb_env wit_rng orb_kw [] = load_body o0 (fst (unpickle orb_file [])) (snd (unpickle orb_file []))).
  { cbn [init]. change (wit_rng 0%nat) with wit_dr. rewrite F. cbn [bind]. change (query_kwargs "ca_config" VNone orb_kw) with (VStr "orbium.npy").
    change (query_kwargs "input_filepath" VNone orb_kw) with VNone. cbv iota. erewrite restore_found by reflexivity. cbn [entry_config bind]. unfold load_with.
    change (c_inst (fst (unpickle orb_file []))) with (None : option dict). cbn [bind fst snd].
    destruct (load_body o0 (fst (unpickle orb_file [])) (snd (unpickle orb_file []))); reflexivity. }
  assert (E : exists o h, init 1 orb_env wit_rng orb_kw [] = Ok (o, h)).
  { rewrite EQ. rewrite (load_body_ok o0 (fst (unpickle orb_file [])) (snd (unpickle orb_file [])) default_id_kernel 0%nat k (KPVec [0; 1 / 2]) (VInt 1) 1%nat [orb_act] 2%nat [orb_act] (wl (o_core o0)) (idl (o_core o0)) nl); eauto. }
  destruct E as (o & h & E). exists o, h. split; [exact E|]. split; [eapply init_inv; exact E|]. rewrite EQ in E. apply load_body_inv in E as [_ L].
  rewrite (ld_inst _ _ _ _ L), (ld_peaks _ _ _ _ L), Ei. split; [reflexivity|]. split; [reflexivity|]. split; [reflexivity|]. split; [lia|].
  destruct (ld_nb _ _ _ _ L) as (l & k' & C & _ & _ & _ & _ & Hr). injection C as <-. change (dget "radius" (hget (snd (unpickle orb_file [])) 0%nat)) with (Some (VInt 1)) in Hr.
  injection Hr as <-. reflexivity.
Qed.

(** The padding modes that a configuration can name: four names, each of a different mode; other
    names, numbers and None raise ValueError. *)
Theorem C27_padding v m : as_pmode v = Ok m <-> v = VStr (match m with Circular => "circular" | Zeros => "zeros" | Reflect => "reflect" | Replicate => "replicate" end).
Proof.
  split.
  - destruct v as [| | | |s| | |]; try discriminate. cbn [as_pmode]. destruct (String.eqb_spec s "circular"); [intros E; injection E as <-; congruence|]. destruct (String.eqb_spec s "zeros"); [intros E; injection E as <-; congruence|].
    destruct (String.eqb_spec s "reflect"); [intros E; injection E as <-; congruence|]. destruct (String.eqb_spec s "replicate"); [intros E; injection E as <-; congruence|discriminate].
  - intros ->. destruct m; reflexivity.
Qed.

Theorem C27_padding_errors v e : as_pmode v = Err e -> e = match v with VDict _ => TypeError | VVec _ | VMat _ => Unmodelled | _ => ValueError end.
Proof.
  destruct v as [| | | |s| | |]; cbn [as_pmode]; try (intros E; injection E as <-; reflexivity).
  destruct (String.eqb s "circular"), (String.eqb s "zeros"), (String.eqb s "reflect"), (String.eqb s "replicate"); try discriminate; intros E; injection E as <-; reflexivity.
Qed.

Example C27_padding_example : as_pmode (VStr "reflect") = Ok Reflect /\ as_pmode (VStr "valid") = Err ValueError /\ as_pmode VNone = Err ValueError.
Proof. repeat split. Qed.

(** ** C32 Path resolution *)
Theorem C32_paths fuel ev rng o path h : let q := drop_newlines path in
  (forall pc, fs_get (e_fs ev) q = Some (FConfig pc) -> restore_config fuel ev rng o path h = load_value fuel ev rng o pc h) /\
  (forall pc, fs_get (e_fs ev) q = None -> fs_get (e_fs ev) (join (e_dir ev) q) = Some (FConfig pc) -> restore_config fuel ev rng o path h = load_value fuel ev rng o pc h) /\
  (fs_get (e_fs ev) q = None -> fs_get (e_fs ev) (join (e_dir ev) q) = None -> restore_config fuel ev rng o path h = Ok (o, h)) /\
  restore_config fuel ev rng o q h = restore_config fuel ev rng o path h.
Proof. exact (restore_cases fuel ev rng o path h). Qed.

(** The second place is below the directory, unless the path is absolute. *)
Theorem C32_join d p : (forall q, p = String "/" q -> join d p = p) /\ ((forall q, p <> String "/" q) -> join d p = d ++ "/" ++ p).
Proof.
  split; [intros q ->; reflexivity|]. intros H. destruct p as [|a q]; [reflexivity|]. cbn [join]. destruct (Ascii.eqb_spec a "/") as [->|N]; [exfalso; apply (H q); reflexivity|reflexivity].
Qed.

(** A saved config is found again under the path it was saved to, and no other file changes. *)
Theorem C32_saved ev o path h ev' o' h' : save_config ev o path h = (ev', o', h') -> exists p,
  make_config o h = (p, o', h') /\ fs_get (e_fs ev') (npy path) = Some (FConfig p) /\ e_dir ev' = e_dir ev /\
  (forall q, q <> npy path -> fs_get (e_fs ev') q = fs_get (e_fs ev) q).
Proof.
  unfold save_config. destruct (make_config o h) as [[p o1] h1]. intros E. injection E as <- <- <-. exists p. cbn [e_fs e_dir].
  split; [reflexivity|]. split; [apply fs_get_set|]. split; [reflexivity|]. intros q N. apply fs_get_set_neq. exact N.
Qed.

Example ex_paths : drop_newlines (String newline "a.npy") = "a.npy" /\ join "ca_configs" "a.npy" = "ca_configs/a.npy" /\ join "ca_configs" "/x/a.npy" = "/x/a.npy" /\
  npy "a" = "a.npy" /\ npy "a.npy" = "a.npy".
Proof. repeat split. Qed.

(** ** C33 The kernel radius of a CCA *)
Theorem C33_cca o r h o' h' : (0 < ext (o_core o))%nat -> (0 < int_ (o_core o))%nat -> set_kernel_radius o (VInt (Z.of_nat r)) h = Ok (o', h') -> exists l, o_nb o = Some l /\
  o_radius o' = VInt (Z.of_nat r) /\ h' = hset h l (dset "radius" (VInt (Z.of_nat r)) (hget h l)) /\
  tH (cl_w (nbl (o_core o'))) = (if match dget "name" (hget h l) with Some (VStr s) => String.eqb s "InnerMoore" | _ => false end then 3 else 2 * r + 1)%nat /\
  tW (cl_w (nbl (o_core o'))) = tH (cl_w (nbl (o_core o'))) /\
  (exists k, get_kernel (dset "radius" (VInt (Z.of_nat r)) (hget h l)) = Ok k /\ uses_kernel (o_core o') k) /\
  gens (o_core o') = gens (o_core o) /\ pers (o_core o') = pers (o_core o) /\ o_kpar o' = o_kpar o /\
  kept (mkObj (o_core o) (o_kpar o) (VInt (Z.of_nat r)) (o_peaks o) (o_nb o) (o_gen o) (o_per o) (o_inst o)) o'.
Proof. exact (radius_spec o r h o' h'). Qed.

Theorem C33_cca_none o r h : o_nb o = None -> set_kernel_radius o r h = Err TypeError.
Proof. intros E. unfold set_kernel_radius. rewrite E. reflexivity. Qed.

(** Only the radius entry of the one dictionary changes. *)
Theorem C33_cca_write h l v : (l < List.length h)%nat ->
  dget "radius" (hget (hset h l (dset "radius" v (hget h l))) l) = Some v /\
  (forall k, k <> "radius" -> dget k (hget (hset h l (dset "radius" v (hget h l))) l) = dget k (hget h l)) /\
  (forall l', l' <> l -> hget (hset h l (dset "radius" v (hget h l))) l' = hget h l').
Proof.
  intros L. rewrite hget_hset_eq by exact L. split; [apply dget_dset_eq|]. split; [intros k N; apply dget_dset_neq; exact N|]. intros l' N. apply hget_hset_neq. congruence.
Qed.

(** ** C65 What every object satisfies after any history of public calls *)
Theorem C65_reachable fuel ev rng kw h o h' ks w : init fuel ev rng kw h = Ok (o, h') -> run_cops fuel rng (mkWorld o h' ev) ks = Ok w ->
  obj_inv (w_obj w) /\ cca_wf (o_core (w_obj w)) /\ mirror_v (o_core (w_obj w)) /\ mirror_h (o_core (w_obj w)) /\ mirror_t (o_core (w_obj w)) /\
  cl_m (idl (o_core (w_obj w))) = pm (o_core (w_obj w)) /\ cl_m (nbl (o_core (w_obj w))) = pm (o_core (w_obj w)).
Proof.
  intros Hi Hr. assert (I : obj_inv (w_obj w)) by (eapply run_cops_inv; [|exact Hr]; apply (init_inv fuel ev rng kw h o h' Hi)). split; [exact I|exact (obj_inv_wf _ I)].
Qed.

Example ex_history : exists o h w, init 1 no_env wit_rng wit_kw orb_heap = Ok (o, h) /\
  run_cops 1 wit_rng (mkWorld o h no_env) [OLoad (cfg3 None); OMake; ODt (1 / 2); OSave "x"] = Ok w /\ dt (o_core (w_obj w)) = 1 / 2.
Proof.
  destruct ex_orb as (k & o0 & o1 & Hi & H & _). exists o0, orb_heap.
  destruct (make_config o1 orb_heap) as [[p o2] h2] eqn:E2. destruct (make_config (set_dt o2 (1 / 2)) h2) as [[p3 o3] h3] eqn:E3.
  exists (mkWorld o3 h3 (mkEnv (fs_set (e_fs no_env) (npy "x") (FConfig p3)) (e_dir no_env))). split; [exact Hi|].
  cbn [run_cops run_cop w_obj w_heap w_env]. rewrite H. cbn [bind fst snd w_obj w_heap w_env]. rewrite E2. cbn [bind w_obj w_heap w_env]. unfold save_config. rewrite E3. cbn [bind].
  split; [reflexivity|]. cbn [w_obj]. pose proof (make_config_inst (set_dt o2 (1 / 2)) h2) as M. rewrite E3 in M. destruct M as (Ec & _). rewrite Ec. reflexivity.
Qed.

Print Assumptions C24_round.
Print Assumptions C24_frame.
Print Assumptions C24_short.
Print Assumptions C24_tail.
Print Assumptions C24_accepts.
Print Assumptions C24_raises.
Print Assumptions C24_inj.
Print Assumptions C25_self.
Print Assumptions C25_synced.
Print Assumptions C25_arguments.
Print Assumptions C25_moore_refuted.
Print Assumptions C25_smoothlife_refuted.
Print Assumptions C25_cosx2_refuted.
Print Assumptions C25_dogaussian_refuted.
Print Assumptions C25_swapped_refuted.
Print Assumptions C26_lenia.
Print Assumptions C26_lenia_accepts.
Print Assumptions C26_lenia_self.
Print Assumptions C27_round.
Print Assumptions C27_loaded.
Print Assumptions C27_kept.
Print Assumptions C27_recovers.
Print Assumptions C27_intervals.
Print Assumptions C27_life_dies.
Print Assumptions C27_amplitudes.
Print Assumptions C27_channels.
Print Assumptions C27_intervals_refuted.
Print Assumptions C27_amplitudes_refuted.
Print Assumptions C27_identity_refuted.
Print Assumptions C28_stale.
Print Assumptions C28_radius.
Print Assumptions C28_refuted.
Print Assumptions C29_first.
Print Assumptions C29_idempotent.
Print Assumptions C29_reload.
Print Assumptions C30_references.
Print Assumptions C30_second.
Print Assumptions C30_radius.
Print Assumptions C30_refuted.
Print Assumptions C31_save.
Print Assumptions C31_cycle.
Print Assumptions C31_plain.
Print Assumptions C32_paths.
Print Assumptions C32_saved.
Print Assumptions C33_cca.
Print Assumptions C33_cca_none.
Print Assumptions C33_cca_write.
Print Assumptions C65_reachable.
Print Assumptions C27_padding.
Print Assumptions C27_padding_errors.
Print Assumptions C32_join.
