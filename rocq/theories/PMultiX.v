(** Which automata can be analysed, and witnesses for the analysis of a directory. *)
From Coq Require Import Reals ZArith NArith List String Ascii Bool Arith Lia Lra.
From Verif Require Import Base PyDict Tensor MText MActivations MKernels MCommon MCca MConfig MAnalyze MClone MMulti SKern SCca SConfig SText SMulti.
From Verif Require Import PTensor PKern PKernY PText PClone PNca PConfig PConfigX PConfigY PConfigZ PConfigW PConfigV PWrapNew PStep PCca PDyn PAnalyzeX PAnalyzeY PMulti.
Import ListNotations.
Open Scope R_scope.
Open Scope string_scope.

(** ** Which automata can be analysed *)
Definition accepts (c : cca) (d : nat) : Prop :=
  ext c = 1%nat /\ pad_allowed (cl_m (idl c)) d (cl_p (idl c)) = true /\ pad_allowed (cl_m (nbl c)) d (cl_p (nbl c)) = true /\
  List.length (gens c) = int_ c /\ List.length (pers c) = int_ c /\ acts_ok (gens c) = Ok tt /\ acts_ok (pers c) = Ok tt.

Lemma accepts_iff c u B d : cca_wf c -> twf u -> shape u = (B, 1, d, d)%nat -> (0 < d)%nat -> ((exists u', cca_forward c u = Ok u') <-> accepts c d).
Proof.
  intros W U S D. apply shape_inv in S as (_ & S2 & S3 & S4). rewrite cca_accepts by assumption. unfold fits, accepts. rewrite S2, S3, S4. intuition.
Qed.

Lemma universe_accepts ph o c b : obj_inv o -> truthy (ph_cppn ph) = false -> ph_dim ph = (2 * b)%nat -> (0 < b)%nat -> (0 < ph_batch ph)%nat -> (0 < ph_steps ph)%nat ->
  ((exists r, universe_of ph o c = Ok r) <-> (exists r, o_radius o = VInt (Z.of_nat r)) /\ accepts (o_core o) (2 * b)).
Proof.
  intros I T D Hb Hn Hs. destruct (obj_inv_wf _ I) as (W & _). destruct (start_random_even (ph_batch ph) b (ch_box c) Hb) as (g & G & Sg & Wg & _).
  assert (FG : first_grid ph c = Ok g). { unfold first_grid. rewrite T, D. exact G. }
  split.
  - intros [r H]. unfold universe_of in H. apply bind_ok in H as (x & Hx & H). rewrite FG in H. cbn [bind] in H. split.
    + destruct (o_radius o) as [| |z| | | | |]; try discriminate. cbn [as_size] in Hx. destruct (Z.leb_spec 0 z); [|discriminate]. exists (Z.to_nat z). rewrite Z2Nat.id by assumption. reflexivity.
    + apply (accepts_iff _ g (ph_batch ph)); auto; [lia|]. destruct (ph_steps ph) as [|n]; [lia|]. cbn [analyze_from universe_loop] in H.
      apply bind_ok in H as (y & Hy & _). apply bind_ok in Hy as (v & Hv & _). eauto.
  - intros [(r & Er) A]. unfold universe_of. rewrite Er, as_size_of, FG. cbn [bind]. apply (analyze_total _ _ _ (ph_batch ph) 1 (2 * b) (2 * b)); auto.
    + nia.
    + intros s u Su Wu. destruct (proj2 (accepts_iff _ u _ _ W Wu Su ltac:(lia)) A) as [v V]. exists tt, v. rewrite V. destruct (cca_shape _ _ _ W Wu V) as [V1 V2]. cbn [bind]. split; [reflexivity|]. split; [congruence|exact V2].
Qed.

Lemma universe_nonempty ph o c r : (0 < ph_steps ph)%nat -> universe_of ph o c = Ok r -> fst r <> [].
Proof.
  intros Hs H. unfold universe_of in H. apply bind_ok in H as (x & _ & H). apply bind_ok in H as (g & _ & H). destruct (ph_steps ph) as [|n]; [lia|]. cbn [analyze_from universe_loop] in H.
  apply bind_ok in H as (y & _ & H). apply bind_ok in H as (m & _ & H). apply bind_ok in H as (z & _ & H). destruct (Req_EM_T z 0).
  - apply Ok_inj in H. subst r. discriminate.
  - apply bind_ok in H as (q & _ & H). apply Ok_inj in H. subst r. discriminate.
Qed.

Lemma universe_refused ph o c b : obj_inv o -> truthy (ph_cppn ph) = false -> ph_dim ph = (2 * b)%nat -> (0 < b)%nat -> (0 < ph_steps ph)%nat ->
  (exists r, o_radius o = VInt (Z.of_nat r)) -> (ext (o_core o) <> 1%nat \/ pad_allowed (cl_m (nbl (o_core o))) (2 * b) (cl_p (nbl (o_core o))) = false) -> universe_of ph o c = Err RuntimeError.
Proof.
  intros I T D Hb Hs (r & Er) Q. destruct (obj_inv_wf _ I) as (W & _). destruct (start_random_even (ph_batch ph) b (ch_box c) Hb) as (g & G & Sg & Wg & _).
  unfold universe_of, first_grid. rewrite T, D, G, Er, as_size_of. cbn [bind]. destruct (ph_steps ph) as [|n]; [lia|]. cbn [analyze_from universe_loop].
  rewrite cca_forward_nf by assumption. replace (step_ready (ext (o_core o)) (idl (o_core o)) (nbl (o_core o)) g) with false; [reflexivity|].
  symmetry. apply not_true_is_false. rewrite step_ready_iff. apply shape_inv in Sg as (_ & S2 & S3 & _). unfold fits. rewrite S2, S3. intros (X & _ & _ & _ & Y & _). destruct Q as [Q|Q]; congruence.
Qed.

(** ** Configurations with a Moore kernel *)
Definition moore_cfg (r : nat) : dict := [("name", VStr "MooreLike"); ("radius", VInt (Z.of_nat r))].
Definition mode_kw (m : string) : dict := [("kernel_radius", VInt 1); ("kernel_peaks", VInt 1); ("conv_mode", VStr m)].
Definition moore_pc (inst : option dict) (r : nat) : pcfg := mkPcfg inst None None (Some (moore_cfg r)) (Some fixed_fn) (Some fixed_fn) false (Some 1).

Lemma moore_r_kernel r : (1 <= r)%nat -> exists k, get_kernel (moore_cfg r) = Ok k /\ odd_kernel r k.
Proof.
  intros R1. destruct (moore_spec (moore_cfg r) r eq_refl eq_refl R1) as (k & Hk & _). exists k. split; [exact Hk|].
  destruct (get_kernel_odd _ _ Hk) as (r' & O & C). assert (r' = r) as ->; [|exact O].
  destruct C as [[C _]|[_ C]]; [discriminate|]. change (dget "radius" (moore_cfg r)) with (Some (VInt (Z.of_nat r))) in C. injection C. lia.
Qed.

(** Everything known about an automaton that has loaded one of them. *)
Lemma moore_loaded fuel ev rng o inst r h o1 h1 : obj_inv o -> (1 <= r)%nat -> load_value fuel ev rng o (moore_pc inst r) h = Ok (o1, h1) ->
  obj_inv o1 /\ o_radius o1 = VInt (Z.of_nat r) /\ gens (o_core o1) = [far] /\ pers (o_core o1) = [far] /\
  cl_p (nbl (o_core o1)) = r /\ cl_p (idl (o_core o1)) = 1%nat /\ cl_m (nbl (o_core o1)) = pm (o_core o1) /\ cl_m (idl (o_core o1)) = pm (o_core o1).
Proof.
  intros I R1 H. unfold load_value, load_config in H. apply (load_with_inv _ _ _ _ _ _ (init_inv fuel ev rng) I) in H as (J & G & a & L & Ia & _).
  destruct (unpickle_vals (moore_pc inst r) h h1 G) as (A1 & A2 & A3 & A4 & _). cbv zeta in *. cbn [moore_pc p_id p_nb p_gen p_per p_same] in A1, A2, A3, A4.
  destruct (ld_id _ _ _ _ L) as (k1 & Hk1 & Hil). destruct (ld_nb _ _ _ _ L) as (l & k & Cn & _ & Hk & Hnl & _ & Hr).
  destruct (ld_gen _ _ _ _ L) as (lg & Cg & _ & Hg). destruct (ld_per _ _ _ _ L) as (lp & Cp & _ & Hq).
  apply (om_some _ _ _ _ A2) in Cn. apply (om_some _ _ _ _ A3) in Cg. apply (om_some _ _ _ _ A4) in Cp. injection Cn as Cn. injection Cg as Cg. injection Cp as Cp.
  rewrite <- Cn in Hk, Hr. rewrite <- Cg in Hg. rewrite <- Cp in Hq. rewrite fixed_make in Hg, Hq. apply Ok_inj in Hg, Hq.
  change (dget "radius" (moore_cfg r)) with (Some (VInt (Z.of_nat r))) in Hr. injection Hr as Hr.
  destruct (moore_r_kernel r R1) as (k' & Hk' & O'). rewrite Hk in Hk'. apply Ok_inj in Hk'. subst k'.
  assert (k1 = default_id_kernel) as ->. { destruct Hk1 as [[_ X]|(z & Z & _)]; [exact X|]. apply (om_some _ _ _ _ A1) in Z. discriminate. }
  destruct Ia as (P1 & P2 & _). cbv zeta in *. destruct O' as (S & _). destruct default_id_odd as (S1 & _).
  destruct (layer_of_kernel _ _ _ _ _ _ P1 P2 S Hnl) as (_ & X1 & X2). destruct (layer_of_kernel _ _ _ _ _ _ P1 P2 S1 Hil) as (_ & Y1 & Y2).
  rewrite (ld_pm _ _ _ _ L). unfold far. do 7 (split; [first [exact J|congruence]|]); congruence.
Qed.

Lemma moore_load_whole f ev rng o m r h : (1 <= r)%nat -> good_rng rng -> exists o1 h1, load_value (S f) ev rng o (moore_pc (Some (mode_kw (pmode_str m))) r) h = Ok (o1, h1) /\
  ext (o_core o1) = 1%nat /\ int_ (o_core o1) = 1%nat /\ pm (o_core o1) = m.
Proof.
  intros R1 G. destruct (moore_r_kernel r R1) as (k & Hk & _). set (kw := mode_kw (pmode_str m)).
  assert (Q : as_pmode (query_kwargs "conv_mode" (VStr "circular") kw) = Ok m) by (destruct m; reflexivity).
  destruct (value_ok f ev rng o h (moore_pc (Some kw) r) kw (moore_cfg r) fixed_fn fixed_fn k KPNone (VInt (Z.of_nat r)) [far] [far] m 1 1 (1 / 10) 1 1) as (o1 & h1 & H); try reflexivity; try lia; auto.
  { split; reflexivity. }
  exists o1, h1. split; [exact H|].
  destruct (value_inv (S f) ev rng o h (moore_pc (Some kw) r) kw (moore_cfg r) fixed_fn fixed_fn o1 h1) as (o4 & _ & J & Ei & _); auto; [split; reflexivity|].
  destruct J as (_ & _ & _ & _ & _ & J1 & J2 & J3 & _). cbv zeta in *. rewrite Ei in *. rewrite Q in J1. apply Ok_inj in J1.
  change (as_size (query_kwargs "internal_channels" (VInt 1) kw)) with (Ok 1%nat : res nat) in J2. change (as_size (query_kwargs "external_channels" (VInt 1) kw)) with (Ok 1%nat : res nat) in J3.
  apply Ok_inj in J2, J3. auto.
Qed.

Lemma moore_load_bare f ev rng o r h : obj_inv o -> ext (o_core o) = 1%nat -> int_ (o_core o) = 1%nat -> (1 <= r)%nat -> exists o1 h1, load_value f ev rng o (moore_pc None r) h = Ok (o1, h1) /\
  ext (o_core o1) = 1%nat /\ int_ (o_core o1) = 1%nat /\ pm (o_core o1) = pm (o_core o).
Proof.
  intros I E1 E2 R1. destruct (moore_r_kernel r R1) as (k & Hk & Ok1).
  assert (X : exists o1 h1, load_value f ev rng o (moore_pc None r) h = Ok (o1, h1)).
  { unfold load_value. rewrite (unpickle_refs (moore_pc None r) h (moore_cfg r) fixed_fn fixed_fn) by reflexivity. cbn [fst snd].
    destruct (hget_tail h (moore_cfg r) fixed_fn fixed_fn) as (T1 & T2 & T3). set (hx := (h ++ _)%list) in *. set (cf := mkCfg _ _ _ _ _ _).
    destruct (init_layer_ok 1 1 (pm (o_core o)) default_id_kernel) as [il Eil]; auto. destruct Ok1 as (S & _). apply shape_inv in S as (S1 & S2 & S3 & S4).
    destruct (init_layer_ok 1 1 (pm (o_core o)) k) as [nl Enl]; auto. pose proof I as (_ & _ & _ & _ & W & _). cbv zeta in W. rewrite E1, E2 in W.
    eexists; eexists. unfold load_config, load_with. cbn [cf c_inst moore_pc p_inst bind fst snd].
    eapply (load_body_ok o cf hx default_id_kernel (List.length h) k (o_kpar o) (VInt (Z.of_nat r)) (S (List.length h)) [far] (S (S (List.length h))) [far]);
      try reflexivity; rewrite ?T1, ?T2, ?T3, ?E1, ?E2; try eassumption; try apply fixed_make; reflexivity. }
  destruct X as (o1 & h1 & H). exists o1, h1. split; [exact H|]. destruct (load_alike _ _ _ _ (moore_pc None r) _ _ _ I eq_refl H) as (A1 & A2 & A3 & _). repeat split; congruence.
Qed.

Lemma moore_accepts o1 r d : gens (o_core o1) = [far] -> pers (o_core o1) = [far] -> ext (o_core o1) = 1%nat -> int_ (o_core o1) = 1%nat ->
  cl_p (nbl (o_core o1)) = r -> cl_p (idl (o_core o1)) = 1%nat -> cl_m (nbl (o_core o1)) = pm (o_core o1) -> cl_m (idl (o_core o1)) = pm (o_core o1) ->
  pad_allowed (pm (o_core o1)) d 1 = true -> pad_allowed (pm (o_core o1)) d r = true -> accepts (o_core o1) d.
Proof.
  intros E1 E2 E3 E4 E5 E6 E7 E8 P1 P2. unfold accepts. rewrite E1, E2, E3, E4, E5, E6, E7, E8. unfold acts_ok, far. cbn [List.length fold_right].
  rewrite mixt_ok by lra. repeat split; assumption.
Qed.

(** ** A small analyser *)
Definition small (o : obj) : phanes := mkPhanes o 1 1 2 (VBool false) "d/".
Definition some_chance : nat -> chance := fun _ => mkChance (fun _ _ _ => 1) (zero_grid 1 1 2 2).
Definition here : string := "/w/x".

Lemma small_reads my n rg fuel ev w o p o1 h1 : w_files w (os_join my n) = Some (CfgFile p) -> load_value fuel ev rg (w_ca w) p (w_heap w) = Ok (o1, h1) ->
  obj_inv o1 -> (exists r, o_radius o1 = VInt (Z.of_nat r)) -> accepts (o_core o1) 2 -> exists r,
  one_file fuel ev (fun _ => true) (small o) my rg (some_chance 0) w n = Ok (mkWorld o1 h1 (put (w_files w) (save_path my "False" n) (ResFile (mkResult n (VBool false) 1 r)))) /\ universe_of (small o) o1 (some_chance 0) = Ok r.
Proof.
  intros F L I Er A. destruct (proj2 (universe_accepts (small o) o1 (some_chance 0) 1 I eq_refl eq_refl (le_n _) (le_n _) (le_n _)) (conj Er A)) as [r U].
  exists r. split; [|exact U]. unfold one_file. rewrite F. cbn [file_config bind]. rewrite L. cbn [bind fst snd]. rewrite U. cbn [bind].
  pose proof (universe_nonempty (small o) o1 (some_chance 0) r (le_n _) U) as N.
  replace (Nat.eqb (List.length (fst r)) 0) with false by (destruct (fst r); [contradiction|reflexivity]). reflexivity.
Qed.

(** Loading a whole Moore configuration of radius one into any automaton: it can be analysed. *)
Lemma small_whole my n f ev rg w o m : good_rng rg -> obj_inv (w_ca w) -> w_files w (os_join my n) = Some (CfgFile (moore_pc (Some (mode_kw (pmode_str m))) 1)) ->
  exists o1 h1 r, one_file (S f) ev (fun _ => true) (small o) my rg (some_chance 0) w n = Ok (mkWorld o1 h1 (put (w_files w) (save_path my "False" n) (ResFile (mkResult n (VBool false) 1 r)))) /\
    obj_inv o1 /\ ext (o_core o1) = 1%nat /\ int_ (o_core o1) = 1%nat /\ pm (o_core o1) = m.
Proof.
  intros G I F. destruct (moore_load_whole f ev rg (w_ca w) m 1 (w_heap w) (le_n _) G) as (o1 & h1 & L & E1 & E2 & E3).
  destruct (moore_loaded _ _ _ _ _ _ _ _ _ I (le_n _) L) as (J & R & A1 & A2 & A3 & A4 & A5 & A6).
  destruct (small_reads my n rg (S f) ev w o _ o1 h1 F L J) as (r & O & _).
  - exists 1%nat. exact R.
  - apply (moore_accepts o1 1); auto; rewrite E3; destruct m; reflexivity.
  - exists o1, h1, r. auto.
Qed.

Definition order_fs (q : string) : option file :=
  if String.eqb q "/w/x/d/a.npy" then Some (CfgFile (moore_pc (Some (mode_kw "reflect")) 1))
  else if String.eqb q "/w/x/d/b.npy" then Some (CfgFile (moore_pc None 2)) else None.

Lemma order_runs o h : obj_inv o -> ext (o_core o) = 1%nat -> int_ (o_core o) = 1%nat -> pm (o_core o) = Circular ->
  exists fs1 fs2, analyze_multiverse 1 no_env (fun _ => true) (fun _ => Some ["b.npy"; "a.npy"]) here (fun _ => wit_rng) some_chance (small o) h order_fs = (fs1, None) /\
    analyze_multiverse 1 no_env (fun _ => true) (fun _ => Some ["a.npy"; "b.npy"]) here (fun _ => wit_rng) some_chance (small o) h order_fs = (fs2, Some RuntimeError) /\
    (exists r, fs1 "/w/x/ca_analysis/bcppnFalse_analysis.npy" = Some (ResFile r)) /\ fs2 "/w/x/ca_analysis/bcppnFalse_analysis.npy" = None.
Proof.
  intros I E1 E2 E3.
  assert (My : os_join here (ph_dir (small o)) = "/w/x/d/") by reflexivity.
  assert (La : os_join "/w/x/d/" "a.npy" = "/w/x/d/a.npy") by reflexivity.
  assert (Lb : os_join "/w/x/d/" "b.npy" = "/w/x/d/b.npy") by reflexivity.
  assert (Sa : save_path "/w/x/d/" "False" "a.npy" = "/w/x/ca_analysis/acppnFalse_analysis.npy") by reflexivity.
  assert (Sb : save_path "/w/x/d/" "False" "b.npy" = "/w/x/ca_analysis/bcppnFalse_analysis.npy") by reflexivity.
  assert (Ca : contains "npy" "a.npy" = true) by reflexivity. assert (Cb : contains "npy" "b.npy" = true) by reflexivity.
  assert (B : exists fs1, analyze_multiverse 1 no_env (fun _ => true) (fun _ => Some ["b.npy"; "a.npy"]) here (fun _ => wit_rng) some_chance (small o) h order_fs = (fs1, None) /\ exists r, fs1 "/w/x/ca_analysis/bcppnFalse_analysis.npy" = Some (ResFile r)).
  { unfold analyze_multiverse. cbv zeta. rewrite My. set (w0 := mkWorld (ph_ca (small o)) h order_fs).
    destruct (moore_load_bare 1 no_env wit_rng o 2 h I E1 E2 ltac:(lia)) as (o1 & h1 & L & X1 & X2 & X3).
    destruct (moore_loaded 1 no_env wit_rng o None 2 h o1 h1 I ltac:(lia) L) as (J & R & A1 & A2 & A3 & A4 & A5 & A6).
    destruct (small_reads "/w/x/d/" "b.npy" wit_rng 1 no_env w0 o (moore_pc None 2) o1 h1) as (r & O & _); auto.
    { eexists. exact R. }
    { apply (moore_accepts o1 2); auto; rewrite X3, E3; reflexivity. }
    set (w1 := mkWorld o1 h1 _) in O.
    destruct (small_whole "/w/x/d/" "a.npy" 0 no_env wit_rng w1 o Reflect wit_good J) as (o2 & h2 & r2 & O2 & _).
    { rewrite La. cbn [w1 w_files]. unfold put. rewrite Sb. reflexivity. }
    assert (E : multi_loop 1 no_env (fun _ => true) (small o) "/w/x/d/" (fun _ => wit_rng) some_chance ["b.npy"; "a.npy"] 0 w0 = (mkWorld o2 h2 (put (w_files w1) (save_path "/w/x/d/" "False" "a.npy") (ResFile (mkResult "a.npy" (VBool false) 1 r2))), None)).
    { cbn [multi_loop]. rewrite Ca, Cb. change (some_chance 1) with (some_chance 0). rewrite O. cbv beta iota. rewrite O2. reflexivity. }
    rewrite E. cbn [fst snd w_files]. eexists. split; [reflexivity|]. exists (mkResult "b.npy" (VBool false) 1 r). unfold put at 1. rewrite Sa. cbn [String.eqb Ascii.eqb Bool.eqb]. cbn [w1 w_files]. unfold put. rewrite Sb. reflexivity. }
  assert (C : exists fs2, analyze_multiverse 1 no_env (fun _ => true) (fun _ => Some ["a.npy"; "b.npy"]) here (fun _ => wit_rng) some_chance (small o) h order_fs = (fs2, Some RuntimeError) /\ fs2 "/w/x/ca_analysis/bcppnFalse_analysis.npy" = None).
  { unfold analyze_multiverse. cbv zeta. rewrite My. set (w0 := mkWorld (ph_ca (small o)) h order_fs).
    destruct (small_whole "/w/x/d/" "a.npy" 0 no_env wit_rng w0 o Reflect wit_good I) as (o1 & h1 & r & O & J & X1 & X2 & X3).
    { rewrite La. reflexivity. }
    set (w1 := mkWorld o1 h1 _) in O.
    destruct (moore_load_bare 1 no_env wit_rng o1 2 h1 J X1 X2 ltac:(lia)) as (o2 & h2 & L & Y1 & Y2 & Y3).
    destruct (moore_loaded 1 no_env wit_rng o1 None 2 h1 o2 h2 J ltac:(lia) L) as (J2 & R & A1 & A2 & A3 & A4 & A5 & A6).
    assert (O2 : one_file 1 no_env (fun _ => true) (small o) "/w/x/d/" wit_rng (some_chance 0) w1 "b.npy" = Err RuntimeError).
    { unfold one_file. rewrite Lb. replace (w_files w1 "/w/x/d/b.npy") with (Some (CfgFile (moore_pc None 2))) by (cbn [w1 w_files]; unfold put; rewrite Sa; reflexivity).
      cbn [file_config bind w1 w_ca w_heap]. rewrite L. cbn [bind fst snd]. rewrite (universe_refused (small o) o2 (some_chance 0) 1); auto.
      - eexists. exact R.
      - right. rewrite A5, A3, Y3, X3. reflexivity. }
    assert (E : multi_loop 1 no_env (fun _ => true) (small o) "/w/x/d/" (fun _ => wit_rng) some_chance ["a.npy"; "b.npy"] 0 w0 = (w1, Some RuntimeError)).
    { cbn [multi_loop]. rewrite Ca, Cb. change (some_chance 1) with (some_chance 0). rewrite O. cbv beta iota. rewrite O2. reflexivity. }
    rewrite E. cbn [fst snd w_files]. eexists. split; [reflexivity|]. cbn [w1 w_files]. unfold put. rewrite Sa. reflexivity. }
  destruct B as (fs1 & B1 & B2). destruct C as (fs2 & C1 & C2). exists fs1, fs2. auto.
Qed.

Definition clash_fs (q : string) : option file :=
  if (String.eqb q "/w/x/d/r.npy" || String.eqb q "/w/x/d/r.npy~")%bool then Some (CfgFile (moore_pc (Some (mode_kw "circular")) 1)) else None.

Lemma clash_run o h : obj_inv o -> exists fs1, analyze_multiverse 1 no_env (fun _ => true) (fun _ => Some ["r.npy"; "r.npy~"]) here (fun _ => wit_rng) some_chance (small o) h clash_fs = (fs1, None) /\
  forall q r, fs1 q = Some (ResFile r) -> re_name r = "r.npy~".
Proof.
  intros I. unfold analyze_multiverse. cbv zeta.
  assert (My : os_join here (ph_dir (small o)) = "/w/x/d/") by reflexivity. rewrite My. set (w0 := mkWorld (ph_ca (small o)) h clash_fs).
  assert (La : os_join "/w/x/d/" "r.npy" = "/w/x/d/r.npy") by reflexivity.
  assert (Lb : os_join "/w/x/d/" "r.npy~" = "/w/x/d/r.npy~") by reflexivity.
  assert (Sa : save_path "/w/x/d/" "False" "r.npy" = "/w/x/ca_analysis/rcppnFalse_analysis.npy") by reflexivity.
  assert (Sb : save_path "/w/x/d/" "False" "r.npy~" = "/w/x/ca_analysis/rcppnFalse_analysis.npy") by reflexivity.
  assert (Ca : contains "npy" "r.npy" = true) by reflexivity. assert (Cb : contains "npy" "r.npy~" = true) by reflexivity.
  destruct (small_whole "/w/x/d/" "r.npy" 0 no_env wit_rng w0 o Circular wit_good I) as (o1 & h1 & r1 & O1 & J & _).
  { rewrite La. reflexivity. }
  set (w1 := mkWorld o1 h1 _) in O1.
  destruct (small_whole "/w/x/d/" "r.npy~" 0 no_env wit_rng w1 o Circular wit_good J) as (o2 & h2 & r2 & O2 & _).
  { rewrite Lb. cbn [w1 w_files]. unfold put. rewrite Sa. reflexivity. }
  assert (E : multi_loop 1 no_env (fun _ => true) (small o) "/w/x/d/" (fun _ => wit_rng) some_chance ["r.npy"; "r.npy~"] 0 w0 = (mkWorld o2 h2 (put (w_files w1) (save_path "/w/x/d/" "False" "r.npy~") (ResFile (mkResult "r.npy~" (VBool false) 1 r2))), None)).
  { cbn [multi_loop]. rewrite Ca, Cb. change (some_chance 1) with (some_chance 0). rewrite O1. cbv beta iota. rewrite O2. reflexivity. }
  rewrite E. cbn [fst snd w_files]. eexists. split; [reflexivity|]. intros q r. unfold put at 1. rewrite Sb. destruct (String.eqb_spec "/w/x/ca_analysis/rcppnFalse_analysis.npy" q) as [<-|N].
  - intros X. injection X as <-. reflexivity.
  - cbn [w1 w_files]. unfold put. rewrite Sa. destruct (String.eqb_spec "/w/x/ca_analysis/rcppnFalse_analysis.npy" q); [contradiction|]. cbn [w0 w_files]. unfold clash_fs. destruct (_ || _)%bool; discriminate.
Qed.
