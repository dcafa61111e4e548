(** Stale, shared and self-referring configurations; path resolution; kernel radius. *)
From Coq Require Import Reals Lra Lia List Arith Bool ZArith String Ascii.
From Verif Require Import Base PyDict Tensor MActivations MKernels MCommon MCca MNca MConfig SGrid SCca SKern SConfig PTensor PStep PCca PDyn PStepX PAct PKern PKernX PKernY PNca PConfig PConfigX PConfigY PConfigZ PConfigW.
Import ListNotations.
Open Scope R_scope.
Open Scope string_scope.

(** ** C28: the saved kernel does not follow set_params *)
Lemma make_config_nb o h nb : o_nb o = Some nb -> o_gen o <> Some nb -> o_per o <> Some nb -> (nb < List.length h)%nat ->
  p_nb (fst (fst (make_config o h))) = Some (hget h nb) /\ o_nb (snd (fst (make_config o h))) = Some nb.
Proof.
  intros En Ng Np L. unfold make_config. cbv zeta. rewrite En. cbn [fst snd p_nb o_nb]. split; [|reflexivity]. f_equal.
  assert (A : forall cur v h', cur <> Some nb -> (nb < List.length h')%nat -> hget (snd (fn_config cur v h')) nb = hget h' nb /\ (nb < List.length (snd (fn_config cur v h')))%nat).
  { intros [l|] v h' N L'; cbn [fn_config alloc snd].
    - rewrite hset_length. split; [|exact L']. apply hget_hset_neq. congruence.
    - rewrite app_length. split; [apply hget_app; exact L'|lia]. }
  destruct (A (o_gen o) (fn_params (gens (o_core o))) h Ng L) as [A1 A2].
  destruct (A (o_per o) (fn_params (pers (o_core o))) _ Np A2) as [A3 _]. rewrite A3. exact A1.
Qed.

Lemma stale_nb o q o' h nb : o_nb o = Some nb -> o_gen o <> Some nb -> o_per o <> Some nb -> (nb < List.length h)%nat -> set_params o q = Ok o' ->
  p_nb (fst (fst (make_config o' h))) = Some (hget h nb) /\
  exists k l, mixture_kernel_of (o_radius o) l = Ok k /\ o_kpar o' = KPVec l /\ uses_kernel (o_core o') k.
Proof.
  intros En Ng Np L H. apply set_params_inv in H as (l & g & p & k & _ & _ & El & _ & _ & _ & _ & _ & Hk & U & Kp).
  destruct Kp as (_ & _ & _ & _ & _ & _ & _ & _ & _ & K1 & K2 & K3 & _). split.
  - apply make_config_nb; try congruence.
  - exists k, (firstn (List.length l) (skipn (fn_count (o_core o)) q)). auto.
Qed.

(** set_kernel_radius goes back to the config's kernel, keeping the parameter vector. *)
Lemma radius_reverts o q o' h nb r o2 h2 : o_nb o = Some nb -> set_params o q = Ok o' -> set_kernel_radius o' r h = Ok (o2, h2) ->
  o_kpar o2 = o_kpar o' /\ exists k, get_kernel (dset "radius" r (hget h nb)) = Ok k /\ uses_kernel (o_core o2) k.
Proof.
  intros En H HR. apply set_params_inv in H as (l & g & p & k & _ & _ & _ & _ & _ & _ & _ & _ & _ & _ & Kp).
  destruct Kp as (_ & _ & _ & _ & _ & _ & _ & _ & _ & K1 & _ & _ & _).
  apply set_radius_inv in HR as (l' & k' & El & Hk' & U' & _ & _ & Eo). rewrite K1, En in El. injection El as <-.
  split; [rewrite Eo; reflexivity|]. eauto.
Qed.

Definition gk_cfg : dict := kcfg "Gaussian" [("mu", VNum 0); ("sigma", VNum (1 / 2))].
Definition ident : dict := [("name", VStr "Identity")].

Definition stale_differs : Prop :=
  let h := [gk_cfg; ident; ident] in
  exists o0 o1 o2 p o2' h' o3 h3, init 1 no_env wit_rng wit_kw h = Ok (o0, h) /\ load_config 1 no_env wit_rng o0 (cfg3 None) h = Ok (o1, h) /\
    set_params o1 [sqrt 2; 1 / 2] = Ok o2 /\ make_config o2 h = (p, o2', h') /\ load_value 1 no_env wit_rng o0 p h' = Ok (o3, h3) /\
    differ (o_core o2) (o_core o3).

Lemma stale_witness : stale_differs.
Proof.
  unfold stale_differs. cbv zeta. pose proof eps9_pos'. pose proof sqrt2_bounds.
  destruct (pair_kernel 0 (1 / 2)) as (k & _ & Hk); [lra|]. destruct (pair_kernel (sqrt 2) (1 / 2)) as (k' & Hk' & Hr'); [lra|].
  assert (E : get_kernel gk_cfg = Ok k) by exact Hk.
  assert (Z : get k 0 0 0 0 = 0).
  { apply (k1_corner_zero _ _ Hk); cbn [act_fn]; apply Rlt_le, gauss_lt; try lra; rewrite !Rminus_0_r; apply abs_lt_cases; lra. }
  assert (P : 0 < get k' 0 0 0 0 <= 1).
  { apply (k1_corner_pos _ _ Hr'). cbn [act_fn]. apply gauss_lt; [lra|]. replace (sqrt 2 - sqrt 2) with 0 by ring. rewrite Rabs_R0, Rabs_left by lra. lra. }
  destruct (make3 None default_id_kernel k (KPVec [0; 1 / 2]) (VInt 1) [AIdentity] [AIdentity] gk_cfg ident ident []) as (o0 & o1 & M); auto.
  destruct M as (Hi & HL0 & I1 & Ei & Epk & En & Eg & Eq & C1 & C2 & C3 & C4 & C5 & C6 & C7 & C8 & C9 & C10). cbv zeta in *.
  change (read_kpar (o_kpar o0) (hget [gk_cfg; ident; ident] 0%nat)) with (Ok (KPVec [0; 1 / 2]) : res kpar) in C9. apply Ok_inj in C9.
  change (dget "radius" (hget [gk_cfg; ident; ident] 0%nat)) with (Some (VInt 1)) in C10. injection C10 as C10.
  destruct (mixture_kernel_shape _ _ _ Hk') as (Sk2 & Wk2 & Rk2 & Ak2). pose proof Sk2 as Sk2'. apply shape_inv in Sk2' as (Q1 & Q2 & Q3 & Q4).
  destruct (init_layer_ok 1 1 Circular k') as [nl2 Enl2]; auto; try congruence; try lia.
  assert (S2 : exists o2, set_params o1 [sqrt 2; 1 / 2] = Ok o2).
  { unfold set_params. cbv zeta. rewrite C5, C6. cbn [set_acts set_act bind fst snd]. rewrite <- C9. cbn [List.length firstn].
    unfold mixture_kernel_of. rewrite <- C10. change (as_size (VInt 1)) with (Ok 1%nat : res nat). cbn [bind]. rewrite Hk'. cbn [bind]. rewrite Ak2. cbn [bind].
    rewrite C1, C2, C3, Enl2. cbn [bind]. eauto. }
  destruct S2 as [o2 S2]. pose proof S2 as S2'. pose proof S2 as S3. apply set_params_obj_inv in S3 as [I2 _]; [|exact I1].
  apply set_params_inv in S2' as (l & g & p & k2 & El & _ & _ & Eg2 & Eq2 & _ & Fg & Fp & Hk2 & U2 & Kp). subst g p.
  rewrite <- C9 in El. injection El as <-. rewrite C5 in Fg. rewrite C6 in Fp.
  assert (G2 : gens (o_core o2) = [AIdentity]).
  { inversion Fg as [|? b ? t Hf Ht]; subst. inversion Ht; subst. destruct b; cbn [act_frame] in Hf; try discriminate. reflexivity. }
  assert (G3 : pers (o_core o2) = [AIdentity]).
  { inversion Fp as [|? b ? t Hf Ht]; subst. inversion Ht; subst. destruct b; cbn [act_frame] in Hf; try discriminate. reflexivity. }
  assert (k2 = k') as ->.
  { unfold fn_count in Hk2. rewrite C5, C6 in Hk2. cbn [fn_params flat_map act_params app List.length skipn firstn] in Hk2. unfold mixture_kernel_of in Hk2.
    rewrite <- C10 in Hk2. change (as_size (VInt 1)) with (Ok 1%nat : res nat) in Hk2. cbn [bind] in Hk2. congruence. }
  destruct Kp as (A1 & A2 & A3 & A4 & A5 & A6 & A7 & A8 & A9 & A10 & A11 & A12 & A13). cbv zeta in *.
  assert (P2 : plain (o_core o2)).
  { unfold plain. rewrite A1, A2, A3, A5, A6, A7, C1, C2, C3, C4. destruct I1 as (_ & _ & _ & _ & W & _). cbv zeta in W. rewrite C1, C2, C3 in W. auto 10. }
  destruct (make_config o2 [gk_cfg; ident; ident]) as [[p o2'] h'] eqn:HM.
  pose proof (make_config_inst o2 [gk_cfg; ident; ident]) as Mi. rewrite HM in Mi. destruct Mi as (Ec & _ & Er & Ep' & Pi & Pd & Pid & R1 & R2 & R3 & R4 & R5 & R6).
  assert (N : (0 <> 1 /\ 0 <> 2 /\ 1 <> 2 /\ 1 < 3 /\ 2 < 3)%nat) by lia. destruct N as (N1 & N2 & N3 & L1 & L2).
  assert (F1 : o_nb o2 = Some 0%nat) by (rewrite A10; exact En). assert (F2 : o_gen o2 = Some 1%nat) by (rewrite A11; exact Eg). assert (F3 : o_per o2 = Some 2%nat) by (rewrite A12; exact Eq).
  pose proof (make_config_refs o2 [gk_cfg; ident; ident] 0%nat 1%nat 2%nat F1 F2 F3 N1 N2 N3 L1 L2) as Q. rewrite HM in Q. destruct Q as (_ & Pn & Pg & Pp & Ps & _).
  change (hget [gk_cfg; ident; ident] 0%nat) with gk_cfg in *. change (hget [gk_cfg; ident; ident] 1%nat) with ident in Pg. change (hget [gk_cfg; ident; ident] 2%nat) with ident in Pp.
  pose proof I2 as (_ & _ & _ & _ & _ & _ & _ & _ & It & _). cbv zeta in It.
  assert (Cl : clean (o_inst o2')). { split; rewrite R6 by discriminate; rewrite A13, Ei; reflexivity. }
  destruct (value_ok 0 no_env wit_rng o0 h' p (o_inst o2') gk_cfg _ _ k (KPVec [0; 1 / 2]) (VInt 1) [AIdentity] [AIdentity] Circular 1 1 (thr (o_core o2)) 1 1 Pi Cl Pid Pn Pg Pp Ps) as (o3 & h3 & HL); auto using wit_good.
  - rewrite R1, A3, C3. reflexivity.
  - rewrite R2, A2, C2. apply nat_value_size.
  - rewrite R3, A1, C1. apply nat_value_size.
  - rewrite R6 by discriminate. exact It.
  - rewrite R4, A9, Epk. apply nat_value_size.
  - rewrite R5, A8. symmetry. exact C10.
  - exists o0, o1, o2, p, o2', h', o3, h3. split; [exact Hi|]. split; [exact HL0|]. split; [exact S2|]. split; [exact HM|]. split; [exact HL|].
    destruct (value_inv 1 no_env wit_rng o0 h' p (o_inst o2') gk_cfg _ _ o3 h3 Pi Cl Pid Pn Pg Pp Ps HL) as (o4 & Hf & I3 & Ei3 & _ & B1 & B2 & B3 & B4 & B5 & B6 & (k3 & Hk3 & U3) & Bg & Bq). cbv zeta in *.
    rewrite E in Hk3. apply Ok_inj in Hk3. subst k3.
    pose proof I3 as (_ & _ & _ & _ & W3 & D1 & D2 & D3 & _). cbv zeta in *. rewrite Ei3, R1, A3, C3 in D1. rewrite Ei3, R2, A2, C2, nat_value_size in D2. rewrite Ei3, R3, A1, C1, nat_value_size in D3.
    rewrite pmode_str_inv in D1. apply Ok_inj in D1, D2, D3. rewrite <- B1, <- B2, <- B3, <- D1, <- D2, <- D3 in B6. rewrite <- D1, <- D2, <- D3 in W3.
    assert (P3 : plain (o_core o3)).
    { unfold plain. split; [congruence|]. split; [congruence|]. split; [congruence|].
      change (make_fn (dset "parameters" (VVec (fn_params (gens (o_core o2)))) ident)) with (Ok [AIdentity] : res (list act)) in Bg.
      change (make_fn (dset "parameters" (VVec (fn_params (pers (o_core o2)))) ident)) with (Ok [AIdentity] : res (list act)) in Bq.
      apply Ok_inj in Bg, Bq. rewrite Pd, A7, C4 in B5. auto. }
    assert (O1 : odd_kernel 1 k) by exact (k1_odd _ _ Hk). assert (O2 : odd_kernel 1 k') by exact (k1_odd _ _ Hr').
    apply (probe_differ (o_core o2) (o_core o3) k' k 0 0 P2 P3 O2 O1 U2 U3); try lia; rewrite ?Z; lra.
Qed.

(** ** C29: the first config of an object without function configs *)
Lemma fresh_config o h p o' h' : o_gen o = None -> o_per o = None -> make_config o h = (p, o', h') ->
  p_gen p = Some fixed_fn /\ p_per p = Some fixed_fn /\
  forall p2 o2 h2, make_config o' h' = (p2, o2, h2) ->
    p_gen p2 = Some (dset "parameters" (VVec (fn_params (gens (o_core o)))) fixed_fn) /\
    p_per p2 = Some (dset "parameters" (VVec (fn_params (pers (o_core o)))) fixed_fn).
Proof.
  intros Eg Ep HM.
  assert (A : exists h0, o_core o' = o_core o /\ (exists nb, o_nb o' = Some nb) /\ o_gen o' = Some (List.length h0) /\ o_per o' = Some (S (List.length h0)) /\ h' = ((h0 ++ [fixed_fn]) ++ [fixed_fn])%list /\
    p_gen p = Some fixed_fn /\ p_per p = Some fixed_fn).
  { unfold make_config in HM. cbv zeta in HM. rewrite Eg, Ep in HM. cbn [fn_config alloc fst snd] in HM.
    set (nb := match o_nb o with Some l => (l, h) | None => _ end) in HM. injection HM as <- <- <-. exists (snd nb). cbn [o_core o_gen o_per o_nb p_gen p_per].
    split; [reflexivity|]. split; [eauto|]. split; [reflexivity|]. split; [rewrite app_length; cbn [List.length]; f_equal; lia|]. split; [reflexivity|].
    split; f_equal; unfold hget.
    - rewrite app_nth1 by (rewrite app_length; cbn; lia). rewrite app_nth2, Nat.sub_diag by lia. reflexivity.
    - rewrite app_nth2 by lia. rewrite Nat.sub_diag. reflexivity. }
  destruct A as (h0 & Ec & (nb & En) & Eg' & Ep' & -> & P1 & P2). split; [exact P1|]. split; [exact P2|].
  intros p2 o2 h2 HM2. unfold make_config in HM2. cbv zeta in HM2. rewrite En, Eg', Ep', Ec in HM2. cbn [fn_config fst snd] in HM2. injection HM2 as <- <- <-. cbn [p_gen p_per].
  set (hx := ((h0 ++ [fixed_fn]) ++ [fixed_fn])%list) in *.
  assert (L : List.length hx = S (S (List.length h0))) by (unfold hx; rewrite !app_length; cbn [List.length]; lia).
  assert (G1 : hget hx (List.length h0) = fixed_fn).
  { unfold hx, hget. rewrite app_nth1 by (rewrite app_length; cbn; lia). rewrite app_nth2, Nat.sub_diag by lia. reflexivity. }
  assert (G2 : hget hx (S (List.length h0)) = fixed_fn).
  { unfold hx, hget. rewrite app_nth2 by (rewrite app_length; cbn; lia). rewrite app_length. cbn [List.length]. replace (S (List.length h0) - (List.length h0 + 1))%nat with 0%nat by lia. reflexivity. }
  split; f_equal.
  - rewrite hget_hset_neq by lia. rewrite hget_hset_eq by lia. rewrite G1. reflexivity.
  - rewrite hget_hset_eq by (rewrite hset_length; lia). rewrite hget_hset_neq by lia. rewrite G2. reflexivity.
Qed.

Lemma fixed_make : make_fn fixed_fn = Ok [AMixture [(1, 15000001 / 100000000, 15 / 1000)] true].
Proof. reflexivity. Qed.

Lemma fresh_not_idempotent o h p o' h' p2 o2 h2 : o_gen o = None -> o_per o = None -> make_config o h = (p, o', h') -> make_config o' h' = (p2, o2, h2) ->
  (p_gen p2 = p_gen p <-> fn_params (gens (o_core o)) = [15000001 / 100000000; 15 / 1000]).
Proof.
  intros Eg Ep H1 H2. destruct (fresh_config o h p o' h' Eg Ep H1) as (P1 & _ & P3). destruct (P3 p2 o2 h2 H2) as [P4 _]. rewrite P1, P4.
  cbn [fixed_fn dset String.eqb Ascii.eqb Bool.eqb]. split; intros E; [injection E as E; exact E|rewrite E; reflexivity].
Qed.

(** Reloading a fresh object's config gives the fixed functions, whatever the object's were. *)
Lemma fresh_reload dr kw o h p o' h' fuel ev rng o2 h2 o3 h3 : fresh dr kw = Ok o -> clean kw -> make_config o h = (p, o', h') -> load_value fuel ev rng o2 p h2 = Ok (o3, h3) ->
  gens (o_core o3) = [AMixture [(1, 15000001 / 100000000, 15 / 1000)] true] /\ pers (o_core o3) = [AMixture [(1, 15000001 / 100000000, 15 / 1000)] true] /\
  nbl (o_core o3) = nbl (o_core o) /\ idl (o_core o3) = idl (o_core o) /\ dt (o_core o3) = 1 / 10.
Proof.
  intros Hf [C F] HM HL. pose proof Hf as Hf'. apply fresh_inv in Hf' as (I & (r & l & k & Sr & Sl & Sk & SU) & _ & _ & En & Eg & Ep & Ei & Ed & _ & _ & Hil).
  pose proof (make_config_inst o h) as M. rewrite HM in M. destruct M as (Ec & _ & Er & Epk & Pi & Pd & Pid & R1 & R2 & R3 & R4 & R5 & R6).
  destruct (fresh_config o h p o' h' Eg Ep HM) as (Pg & Pp & _).
  assert (Cl : clean (o_inst o')). { split; rewrite R6 by discriminate; rewrite Ei; assumption. }
  assert (X : p_nb p = Some [("name", VStr "GaussianMixture"); ("kernel_kwargs", VDict (kp_value (o_kpar o))); ("radius", o_radius o)] /\ p_same p = false).
  { unfold make_config in HM. cbv zeta in HM. rewrite En, Eg, Ep in HM. cbn [fn_config alloc fst snd] in HM. injection HM as <- <- <-. cbn [p_nb p_same]. split.
    - f_equal. unfold hget. rewrite app_nth1 by (rewrite !app_length; cbn; lia). rewrite app_nth1 by (rewrite !app_length; cbn; lia). rewrite app_nth2, Nat.sub_diag by lia. reflexivity.
    - apply Nat.eqb_neq. rewrite !app_length. cbn. lia. }
  destruct X as [Pn Ps].
  destruct (value_inv fuel ev rng o2 h2 p (o_inst o') _ _ _ o3 h3 Pi Cl Pid Pn Pg Pp Ps HL) as (o4 & _ & I3 & Ei3 & _ & B1 & B2 & B3 & B4 & B5 & B6 & (k3 & Hk3 & U3) & Bg & Bq). cbv zeta in *.
  rewrite fixed_make in Bg, Bq. apply Ok_inj in Bg, Bq.
  pose proof I3 as (_ & _ & _ & _ & _ & D1 & D2 & D3 & _). cbv zeta in *. rewrite Ei3, R1, pmode_str_inv in D1. rewrite Ei3, R2, nat_value_size in D2. rewrite Ei3, R3, nat_value_size in D3.
  apply Ok_inj in D1, D2, D3. rewrite <- B1, <- B2, <- B3, <- D1, <- D2, <- D3, Hil in B6. apply Ok_inj in B6.
  assert (k3 = k) as ->.
  { rewrite Sl, Sr in Hk3. cbn [kp_value] in Hk3. 
    eapply (mixture_like_kernel _ _ KPNone) in Hk3 as (r' & l' & E1 & E2 & E3); [| left; split; [reflexivity|eexists; reflexivity] | reflexivity].
    cbn [dget String.eqb Ascii.eqb Bool.eqb] in E1. injection E1 as E1. apply Nat2Z.inj in E1. injection E2 as <-. subst r'. congruence. }
  unfold uses_kernel in SU, U3. rewrite <- D1, <- D2, <- D3, SU in U3. apply Ok_inj in U3. rewrite Pd, Ed in B5. auto.
Qed.

(** ** C30: shared dictionaries *)
Lemma load_refs fuel ev rng o cf h o' h' : obj_inv o -> load_config fuel ev rng o cf h = Ok (o', h') ->
  o_nb o' = c_nb cf /\ o_gen o' = c_gen cf /\ o_per o' = c_per cf.
Proof.
  intros I H. apply (load_with_inv (init fuel ev rng) o cf h o' h' (init_inv fuel ev rng) I) in H as (_ & _ & o1 & L & _).
  destruct (ld_nb _ _ _ _ L) as (l & k & C1 & E1 & _). destruct (ld_gen _ _ _ _ L) as (g & C2 & E2 & _). destruct (ld_per _ _ _ _ L) as (q & C3 & E3 & _). split; [|split]; congruence.
Qed.

(** A second load of the same dictionaries after make_config. *)
Lemma second_load fuel ev rng o cf h o1 h1 p o1' h1' oB fuel' ev' rng' oB' h2 gl pl : obj_inv o -> obj_inv oB ->
  load_config fuel ev rng o cf h = Ok (o1, h1) -> make_config o1 h1 = (p, o1', h1') -> load_config fuel' ev' rng' oB cf h1' = Ok (oB', h2) ->
  c_gen cf = Some gl -> c_per cf = Some pl -> (gl < List.length h)%nat -> (pl < List.length h)%nat ->
  (gl <> pl -> make_fn (dset "parameters" (VVec (fn_params (gens (o_core o1)))) (hget h gl)) = Ok (gens (o_core oB'))) /\
  (gl <> pl -> make_fn (dset "parameters" (VVec (fn_params (pers (o_core o1)))) (hget h pl)) = Ok (pers (o_core oB'))) /\
  (gl = pl -> make_fn (dset "parameters" (VVec (fn_params (pers (o_core o1)))) (hget h gl)) = Ok (gens (o_core oB'))).
Proof.
  intros I IB H1 HM H2 Cg Cp Lg Lp. destruct (load_refs _ _ _ _ _ _ _ _ I H1) as (En & Eg & Ep).
  pose proof H1 as H1'. apply (load_with_inv (init fuel ev rng) o cf h o1 h1 (init_inv fuel ev rng) I) in H1' as (_ & G1 & o0 & L0 & _).
  destruct (ld_nb _ _ _ _ L0) as (nb & k & Cn & _). rewrite Cn in En. rewrite Cg in Eg. rewrite Cp in Ep.
  assert (Ll : (List.length h <= List.length h1)%nat) by (destruct G1 as [x ->]; rewrite app_length; lia).
  apply (load_with_inv (init fuel' ev' rng') oB cf h1' oB' h2 (init_inv fuel' ev' rng') IB) in H2 as (_ & G2 & oB0 & L2 & _).
  destruct (ld_gen _ _ _ _ L2) as (g & Cg2 & _ & Hg). destruct (ld_per _ _ _ _ L2) as (q & Cp2 & _ & Hq).
  rewrite Cg in Cg2. injection Cg2 as <-. rewrite Cp in Cp2. injection Cp2 as <-.
  unfold make_config in HM. cbv zeta in HM. rewrite En, Eg, Ep in HM. cbn [fn_config fst snd] in HM. injection HM as _ _ <-.
  rewrite (grows_get _ h2 gl G2) in Hg by (rewrite !hset_length; lia). rewrite (grows_get _ h2 pl G2) in Hq by (rewrite !hset_length; lia).
  assert (Bg : hget h1 gl = hget h gl) by (apply grows_get; auto). assert (Bp : hget h1 pl = hget h pl) by (apply grows_get; auto).
  split; [|split]; intros N.
  - rewrite hget_hset_neq in Hg by auto. rewrite hget_hset_eq in Hg by lia. rewrite Bg in Hg. exact Hg.
  - rewrite hget_hset_eq in Hq by (rewrite hset_length; lia). rewrite hget_hset_neq in Hq by auto. rewrite Bp in Hq. exact Hq.
  - subst pl. rewrite hget_hset_eq in Hg by (rewrite hset_length; lia). rewrite hget_hset_eq in Hg by lia. rewrite Bg in Hg.
    assert (DD : forall k v w d, dset k v (dset k w d) = dset k v d).
    { clear. induction d as [|[a b] t IH]; cbn [dset]; [rewrite String.eqb_refl; reflexivity|].
      destruct (String.eqb_spec k a) as [->|N]; cbn [dset]; [rewrite String.eqb_refl; reflexivity|]. destruct (String.eqb_spec k a); [contradiction|]. rewrite IH. reflexivity. }
    rewrite DD in Hg. exact Hg.
Qed.

(** A second load after set_kernel_radius sees the new radius. *)
Lemma second_load_radius fuel ev rng o cf h o1 h1 r o1' h1' oB fuel' ev' rng' oB' h2 nb : obj_inv o -> obj_inv oB ->
  load_config fuel ev rng o cf h = Ok (o1, h1) -> set_kernel_radius o1 r h1 = Ok (o1', h1') -> load_config fuel' ev' rng' oB cf h1' = Ok (oB', h2) ->
  c_nb cf = Some nb -> (nb < List.length h)%nat -> o_radius oB' = r /\ exists k, get_kernel (dset "radius" r (hget h nb)) = Ok k /\ uses_kernel (o_core oB') k.
Proof.
  intros I IB H1 HR H2 Cn Ln. destruct (load_refs _ _ _ _ _ _ _ _ I H1) as (En & _ & _). rewrite Cn in En.
  pose proof H1 as H1'. apply (load_with_inv (init fuel ev rng) o cf h o1 h1 (init_inv fuel ev rng) I) in H1' as (_ & G1 & _).
  assert (Ll : (List.length h <= List.length h1)%nat) by (destruct G1 as [x ->]; rewrite app_length; lia).
  apply set_radius_inv in HR as (l & k & El & _ & _ & _ & Eh & _). rewrite En in El. injection El as <-.
  apply (load_with_inv (init fuel' ev' rng') oB cf h1' oB' h2 (init_inv fuel' ev' rng') IB) in H2 as (_ & G2 & oB0 & L2 & _).
  destruct (ld_nb _ _ _ _ L2) as (nb' & k' & Cn' & _ & Hk & Hl & _ & Hr). rewrite Cn in Cn'. injection Cn' as <-.
  assert (E : hget h2 nb = dset "radius" r (hget h nb)).
  { rewrite (grows_get _ h2 nb G2) by (rewrite Eh, hset_length; lia). rewrite Eh, hget_hset_eq by lia. rewrite (grows_get h h1 nb G1) by auto. reflexivity. }
  rewrite E in Hk, Hr. rewrite dget_dset_eq in Hr. split; [congruence|]. exists k'. split; [exact Hk|]. unfold uses_kernel.
  rewrite (ld_ext _ _ _ _ L2), (ld_int _ _ _ _ L2), (ld_pm _ _ _ _ L2). exact Hl.
Qed.

(** Witness: load, make_config, load the same config into a second object. *)
Definition reuse_differs : Prop :=
  let h := [moore1; iv_cfg; iv_cfg] in
  exists o0 o1 p o1' h' o3, init 1 no_env wit_rng wit_kw h = Ok (o0, h) /\ load_config 1 no_env wit_rng o0 (cfg3 None) h = Ok (o1, h) /\
    make_config o1 h = (p, o1', h') /\ load_config 1 no_env wit_rng o0 (cfg3 None) h' = Ok (o3, h') /\ differ (o_core o1) (o_core o3).

Lemma reuse_witness : reuse_differs.
Proof.
  unfold reuse_differs. cbv zeta. set (g := ASmoothIntervals [(-1, 1)] 1 false). set (g' := ASmoothIntervals [] 1 false).
  destruct moore1_kernel as (k & Hk & Ok1 & _).
  destruct (make3 None default_id_kernel k KPNone (VInt 1) [g] [g] moore1 iv_cfg iv_cfg []) as (o0 & o1 & M); auto.
  destruct M as (Hi & HL0 & I1 & _ & _ & En & Eg & Eq & C1 & C2 & C3 & C4 & C5 & C6 & C7 & C8 & _). cbv zeta in *.
  set (gd := dset "parameters" (VVec []) iv_cfg).
  assert (HM : exists p o1', make_config o1 [moore1; iv_cfg; iv_cfg] = (p, o1', [moore1; gd; gd])).
  { unfold make_config. cbv zeta. rewrite En, Eg, Eq, C5, C6. cbn [fn_config fst snd]. eexists. eexists. reflexivity. }
  destruct HM as (p & o1' & HM).
  assert (Hg' : make_fn gd = Ok [g']) by reflexivity.
  destruct (make3 None default_id_kernel k KPNone (VInt 1) [g'] [g'] moore1 gd gd []) as (o0' & o3 & M); auto.
  destruct M as (Hi' & HL1 & I3 & _ & _ & _ & _ & _ & D1 & D2 & D3 & D4 & D5 & D6 & D7 & D8 & _). cbv zeta in *.
  assert (o0' = o0) as ->.
  { destruct (wit_init [moore1; gd; gd]) as (x & X1 & X2 & _). destruct (wit_init [moore1; iv_cfg; iv_cfg]) as (y & Y1 & Y2 & _).
    rewrite X1 in Hi'. rewrite Y1 in Hi. apply Ok_inj in Hi, Hi'. injection Hi as <-. injection Hi' as <-. rewrite X2 in Y2. apply Ok_inj in Y2. exact Y2. }
  exists o0, o1, p, o1', [moore1; gd; gd], o3. repeat (split; [assumption|]).
  destruct (obj_inv_wf _ I1) as (W1 & _). destruct (obj_inv_wf _ I3) as (W3 & _).
  destruct I1 as (_ & _ & _ & _ & X1 & _). destruct I3 as (_ & _ & _ & _ & X3 & _). cbv zeta in *.
  eapply (zero_differ (o_core o1) (o_core o3) default_id_kernel default_id_kernel k k g g g' g'); eauto using default_id_odd; try apply iv_ok.
  unfold g'. rewrite empty_intervals. pose proof iv_positive as P. intros E. fold g in P. rewrite E in P. rewrite clamp_lo in P by lra. lra.
Qed.

(** ** C31: files that refer to themselves *)
Lemma restore_found ini ev o path h e : found ev (strip_newlines path) = Some e ->
  restore_with ini ev o path h = let* pc := entry_config e in load_with ini o (fst (unpickle pc h)) (snd (unpickle pc h)).
Proof. intros E. unfold restore_with, found in *. cbv zeta. rewrite E. reflexivity. Qed.

(** A set of configs each of which names, as constructor argument, a file of the set. *)
Definition self_set (ev : env) (S : pcfg -> Prop) : Prop :=
  forall pc, S pc -> exists kw F pc', p_inst pc = Some kw /\ query_kwargs "ca_config" VNone kw = VStr F /\
    found ev (strip_newlines F) = Some (FConfig pc') /\ S pc'.

Lemma unpickle_inst pc h : c_inst (fst (unpickle pc h)) = p_inst pc.
Proof. reflexivity. Qed.

Lemma init_self ev S : self_set ev S -> forall fuel rng kw F pc h r, query_kwargs "ca_config" VNone kw = VStr F -> found ev (strip_newlines F) = Some (FConfig pc) -> S pc ->
  init fuel ev rng kw h <> Ok r.
Proof.
  intros HS. induction fuel as [|f IH]; intros rng kw F pc h r C Fd Sp H; [discriminate|]. cbn [init] in H. rewrite C in H.
  apply bind_ok in H as (o & _ & H). apply bind_ok in H as ([o1 h1] & H & _). rewrite (restore_found _ _ _ _ _ _ Fd) in H. cbn [entry_config bind] in H.
  unfold load_with in H. rewrite unpickle_inst in H. destruct (HS pc Sp) as (kw' & F' & pc' & E1 & E2 & E3 & E4). rewrite E1 in H.
  apply bind_ok in H as (z & Hz & _). eapply (IH _ _ _ _ _ _ E2 E3 E4). exact Hz.
Qed.

Lemma restore_self ev S fuel rng o path pc h r : self_set ev S -> found ev (strip_newlines path) = Some (FConfig pc) -> S pc ->
  restore_config fuel ev rng o path h <> Ok r.
Proof.
  intros HS Fd Sp H. unfold restore_config in H. rewrite (restore_found _ _ _ _ _ _ Fd) in H. cbn [entry_config bind] in H. unfold load_with in H. rewrite unpickle_inst in H.
  destruct (HS pc Sp) as (kw' & F' & pc' & E1 & E2 & E3 & E4). rewrite E1 in H. apply bind_ok in H as (z & Hz & _). eapply (init_self ev S HS _ _ _ _ _ _ _ E2 E3 E4). exact Hz.
Qed.

(** When every construction on the way is possible, what happens is unbounded recursion. *)
Lemma init_deep ev Q : self_set ev Q -> forall fuel rng kw F pc h, (forall n, exists o, fresh (rng n) kw = Ok o) ->
  (forall pc kw, Q pc -> p_inst pc = Some kw -> forall n, exists o, fresh (rng n) kw = Ok o) ->
  query_kwargs "ca_config" VNone kw = VStr F -> found ev (strip_newlines F) = Some (FConfig pc) -> Q pc -> init fuel ev rng kw h = Err OutOfFuel.
Proof.
  intros HS. induction fuel as [|f IH]; intros rng kw F pc h Hf Hs C Fd Sp; [reflexivity|]. cbn [init]. rewrite C.
  destruct (Hf 0%nat) as [o Ho]. rewrite Ho. cbn [bind]. rewrite (restore_found _ _ _ _ _ _ Fd). cbn [entry_config bind].
  unfold load_with. rewrite unpickle_inst. destruct (HS pc Sp) as (kw' & F' & pc' & E1 & E2 & E3 & E4). rewrite E1.
  rewrite (IH _ kw' F' pc'); auto.
  - intros n. apply (Hs pc kw' Sp E1 (S n)).
  - intros pc2 kw2 S2 K2 n. apply (Hs pc2 kw2 S2 K2 (S n)).
Qed.

Lemma restore_deep ev Q fuel rng o path pc h : self_set ev Q -> found ev (strip_newlines path) = Some (FConfig pc) -> Q pc ->
  (forall pc kw, Q pc -> p_inst pc = Some kw -> forall n, exists o, fresh (rng n) kw = Ok o) ->
  restore_config fuel ev rng o path h = Err OutOfFuel.
Proof.
  intros HS Fd Sp Hs. unfold restore_config. rewrite (restore_found _ _ _ _ _ _ Fd). cbn [entry_config bind]. unfold load_with. rewrite unpickle_inst.
  destruct (HS pc Sp) as (kw' & F' & pc' & E1 & E2 & E3 & E4). rewrite E1.
  rewrite (init_deep ev Q HS fuel rng kw' F' pc'); auto. intros n. apply (Hs pc kw' Sp E1).
Qed.

Lemma fs_get_set fs p e : fs_get (fs_set fs p e) p = Some e.
Proof.
  induction fs as [|[q x] t IH]; cbn [fs_set fs_get]; [rewrite String.eqb_refl; reflexivity|].
  destruct (String.eqb_spec p q) as [->|N]; cbn [fs_get]; [rewrite String.eqb_refl; reflexivity|]. destruct (String.eqb_spec p q); [contradiction|exact IH].
Qed.

Lemma fs_get_set_neq fs p q e : p <> q -> fs_get (fs_set fs q e) p = fs_get fs p.
Proof.
  intros N. induction fs as [|[z x] t IH]; cbn [fs_set fs_get].
  - destruct (String.eqb_spec p q); [contradiction|reflexivity].
  - destruct (String.eqb_spec q z) as [->|N']; cbn [fs_get].
    + destruct (String.eqb_spec p z); [contradiction|reflexivity].
    + destruct (String.eqb_spec p z); [reflexivity|exact IH].
Qed.

Lemma save_self ev o F h ev' o' h' : obj_inv o -> query_kwargs "ca_config" VNone (o_inst o) = VStr F -> npy F = F -> strip_newlines F = F ->
  save_config ev o F h = (ev', o', h') -> exists pc, found ev' F = Some (FConfig pc) /\ self_set ev' (fun q => q = pc) /\ p_inst pc = Some (o_inst o') /\ obj_inv o' /\
    o_peaks o' = o_peaks o /\ o_radius o' = o_radius o /\ query_kwargs "kernel_radius" (VInt 13) (o_inst o') = o_radius o.
Proof.
  intros I C N St H. unfold save_config in H. destruct (make_config o h) as [[p o1] h1] eqn:HM. injection H as <- <- <-.
  pose proof (make_config_inst o h) as M. rewrite HM in M. destruct M as (Ec & _ & Er & Epk & Pi & Pd & Pid & R1 & R2 & R3 & R4 & R5 & R6).
  exists p. assert (Fd : found (mkEnv (fs_set (e_fs ev) (npy F) (FConfig p)) (e_dir ev)) F = Some (FConfig p)).
  { unfold found. cbn [e_fs e_dir]. rewrite N, fs_get_set. reflexivity. }
  split; [exact Fd|]. split.
  - intros q ->. exists (o_inst o1), F, p. split; [exact Pi|]. split; [rewrite R6 by discriminate; exact C|]. rewrite St. split; [exact Fd|reflexivity].
  - split; [exact Pi|]. split; [eapply make_config_obj_inv; eauto|]. auto.
Qed.

Lemma constructible o rng r : obj_inv o -> good_rng rng -> (0 < o_peaks o)%nat -> (0 < r)%nat -> query_kwargs "kernel_radius" (VInt 13) (o_inst o) = VInt (Z.of_nat r) ->
  forall n, exists o', fresh (rng n) (o_inst o) = Ok o'.
Proof.
  intros (I1 & I2 & _ & _ & _ & I6 & I7 & I8 & I9 & I10) G Pk R0 Er n. cbv zeta in *.
  apply (fresh_ok (rng n) (o_inst o) (pm (o_core o)) (ext (o_core o)) (int_ (o_core o)) (thr (o_core o)) r (o_peaks o)); auto. intros i. apply G.
Qed.

Lemma save_self_loops ev o F h ev' o' h' : obj_inv o -> query_kwargs "ca_config" VNone (o_inst o) = VStr F -> npy F = F -> strip_newlines F = F ->
  save_config ev o F h = (ev', o', h') ->
  (forall fuel rng o2 h2 r, restore_config fuel ev' rng o2 F h2 <> Ok r) /\
  (forall fuel rng kw h2 r, query_kwargs "ca_config" VNone kw = VStr F -> init fuel ev' rng kw h2 <> Ok r) /\
  (forall r, (0 < o_peaks o)%nat -> (0 < r)%nat -> o_radius o = VInt (Z.of_nat r) ->
     forall fuel rng o2 h2, good_rng rng -> restore_config fuel ev' rng o2 F h2 = Err OutOfFuel).
Proof.
  intros I C N St H. destruct (save_self ev o F h ev' o' h' I C N St H) as (pc & Fd & HS & Pi & I' & E1 & E2 & E3). split; [|split].
  - intros fuel rng o2 h2 r. apply (restore_self ev' (fun q => q = pc) fuel rng o2 F pc h2 r HS); [rewrite St; exact Fd|reflexivity].
  - intros fuel rng kw h2 r Ck. apply (init_self ev' (fun q => q = pc) HS fuel rng kw F pc h2 r Ck); [rewrite St; exact Fd|reflexivity].
  - intros r Pk R0 Er fuel rng o2 h2 G. apply (restore_deep ev' (fun q => q = pc) fuel rng o2 F pc h2 HS); [rewrite St; exact Fd|reflexivity|].
    intros pc2 kw -> K. rewrite Pi in K. injection K as <-. apply (constructible o' rng r I' G); try congruence; try lia.
Qed.

(** A file whose constructor arguments name no file: one level of construction suffices. *)
Lemma restore_plain ev rng o path pc h f : found ev (strip_newlines path) = Some (FConfig pc) ->
  match p_inst pc with Some kw => query_kwargs "ca_config" VNone kw = VNone | None => True end ->
  restore_config (S f) ev rng o path h = restore_config 1 ev rng o path h /\
  (p_inst pc = None -> restore_config 0 ev rng o path h = restore_config 1 ev rng o path h).
Proof.
  intros Fd C. unfold restore_config. rewrite !(restore_found _ _ _ _ _ _ Fd). cbn [entry_config bind]. unfold load_with. rewrite unpickle_inst.
  split; [|intros E; rewrite E; reflexivity]. destruct (p_inst pc) as [kw|]; [|reflexivity]. cbn [init]. rewrite C. reflexivity.
Qed.

(** ** C32: path resolution *)
Definition drop_newlines (s : string) : string := string_of_list_ascii (filter (fun a => negb (Ascii.eqb a newline)) (list_ascii_of_string s)).

Lemma strip_is_drop s : strip_newlines s = drop_newlines s.
Proof.
  unfold drop_newlines. induction s as [|a t IH]; [reflexivity|]. cbn [strip_newlines list_ascii_of_string filter]. rewrite IH.
  destruct (Ascii.eqb a newline); reflexivity.
Qed.

Lemma strip_idem s : strip_newlines (strip_newlines s) = strip_newlines s.
Proof.
  induction s as [|a t IH]; [reflexivity|]. cbn [strip_newlines]. destruct (Ascii.eqb a newline) eqn:E; [exact IH|]. cbn [strip_newlines]. rewrite E, IH. reflexivity.
Qed.

Lemma restore_cases fuel ev rng o path h : let q := drop_newlines path in
  (forall pc, fs_get (e_fs ev) q = Some (FConfig pc) -> restore_config fuel ev rng o path h = load_value fuel ev rng o pc h) /\
  (forall pc, fs_get (e_fs ev) q = None -> fs_get (e_fs ev) (join (e_dir ev) q) = Some (FConfig pc) -> restore_config fuel ev rng o path h = load_value fuel ev rng o pc h) /\
  (fs_get (e_fs ev) q = None -> fs_get (e_fs ev) (join (e_dir ev) q) = None -> restore_config fuel ev rng o path h = Ok (o, h)) /\
  restore_config fuel ev rng o q h = restore_config fuel ev rng o path h.
Proof.
  cbv zeta. rewrite <- strip_is_drop. unfold restore_config, restore_with, load_value, load_config. cbv zeta. split; [|split; [|split]].
  - intros pc E. rewrite E. reflexivity.
  - intros pc E E2. rewrite E, E2. reflexivity.
  - intros E E2. rewrite E, E2. reflexivity.
  - rewrite strip_idem. reflexivity.
Qed.

(** ** C33: the kernel radius *)
Lemma radius_spec o r h o' h' : (0 < ext (o_core o))%nat -> (0 < int_ (o_core o))%nat -> set_kernel_radius o (VInt (Z.of_nat r)) h = Ok (o', h') -> exists l, o_nb o = Some l /\
  o_radius o' = VInt (Z.of_nat r) /\ h' = hset h l (dset "radius" (VInt (Z.of_nat r)) (hget h l)) /\
  tH (cl_w (nbl (o_core o'))) = (if match dget "name" (hget h l) with Some (VStr s) => String.eqb s "InnerMoore" | _ => false end then 3 else 2 * r + 1)%nat /\
  tW (cl_w (nbl (o_core o'))) = tH (cl_w (nbl (o_core o'))) /\
  (exists k, get_kernel (dset "radius" (VInt (Z.of_nat r)) (hget h l)) = Ok k /\ uses_kernel (o_core o') k) /\
  gens (o_core o') = gens (o_core o) /\ pers (o_core o') = pers (o_core o) /\ o_kpar o' = o_kpar o /\
  kept (mkObj (o_core o) (o_kpar o) (VInt (Z.of_nat r)) (o_peaks o) (o_nb o) (o_gen o) (o_per o) (o_inst o)) o'.
Proof.
  intros P1 P2 H. apply set_radius_inv in H as (l & k & El & Hk & U & Er & Eh & Eo). exists l. split; [exact El|]. split; [exact Er|]. split; [exact Eh|].
  pose proof Hk as Hk2. apply get_kernel_odd in Hk2 as (q & (S & W & Rd) & C). apply shape_inv in S as (S1 & S2 & S3 & S4). rewrite dget_dset_neq in C by discriminate. rewrite dget_dset_eq in C.
  assert (D : tH (cl_w (nbl (o_core o'))) = (2 * q + 1)%nat /\ tW (cl_w (nbl (o_core o'))) = (2 * q + 1)%nat).
  { pose proof U as U'. unfold uses_kernel in U'. rewrite Eo in U' at 1 2 3. cbn [o_core set_layers ext int_ pm] in U'.
    destruct (init_layer_wf _ _ _ k _ q P1 P2 S3 S4 U') as (L & Lp & _). destruct L as (_ & _ & _ & _ & L). intuition congruence. }
  destruct D as [D1 D2]. split.
  - rewrite D1. destruct C as [[C ->]|[C E]].
    + rewrite C. reflexivity.
    + injection E as E. apply Nat2Z.inj in E. subst q. destruct (dget "name" (hget h l)) as [[]|]; try reflexivity.
      destruct (String.eqb_spec s "InnerMoore"); [subst; contradiction|reflexivity].
  - split; [congruence|]. split; [eauto|]. rewrite Eo. cbn [o_core set_layers gens pers o_kpar]. split; [reflexivity|]. split; [reflexivity|]. split; [reflexivity|].
    unfold kept. cbn. repeat split; reflexivity.
Qed.
