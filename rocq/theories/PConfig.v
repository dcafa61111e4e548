(** Parameter vectors of CCA objects. *)
From Coq Require Import Reals Lra Lia List Arith Bool ZArith String.
From Verif Require Import Base PyDict Tensor MActivations MKernels MCommon MCca MNca MConfig SGrid SCca SKern SConfig PTensor PStep PCca PKern PKernX PNca.
Import ListNotations.
Open Scope R_scope.
Open Scope string_scope.

Lemma set1_cons x p : set1 (x :: p) = Ok (x, p).
Proof. reflexivity. Qed.

Lemma set1_nil : set1 [] = Err ValueError.
Proof. reflexivity. Qed.

Lemma take_exact_le n p : (n <= List.length p)%nat -> take_exact n p = Ok (firstn n p, skipn n p).
Proof. intros H. unfold take_exact. destruct (Nat.leb_spec n (List.length p)); [reflexivity|lia]. Qed.

Lemma take_exact_gt n p : (List.length p < n)%nat -> take_exact n p = Err ValueError.
Proof. intros H. unfold take_exact. destruct (Nat.leb_spec n (List.length p)); [lia|reflexivity]. Qed.

(** ** One function *)
Definition mixp (gs : list (R * R * R)) : list R := flat_map (fun g => let '(_, m, s) := g in [m; s]) gs.

Lemma mixp_length gs : List.length (mixp gs) = (2 * List.length gs)%nat.
Proof. induction gs as [|[[a m] s] t IH]; [reflexivity|]. cbn [mixp flat_map app List.length] in *. unfold mixp in *. rewrite IH. lia. Qed.

Lemma set_mix_le gs p : (2 * List.length gs <= List.length p)%nat ->
  exists gs', set_mix gs p = Ok (gs', skipn (2 * List.length gs) p) /\ mixp gs' = firstn (2 * List.length gs) p /\
    map (fun g => fst (fst g)) gs = map (fun g => fst (fst g)) gs'.
Proof.
  revert p. induction gs as [|[[a m] s] t IH]; intros p Hl.
  - exists []. repeat split.
  - cbn [List.length] in *. destruct p as [|x [|y p]]; cbn [List.length] in Hl; try lia.
    destruct (IH p ltac:(lia)) as (gs' & E & M & A). exists ((a, x, y) :: gs').
    replace (2 * S (List.length t))%nat with (S (S (2 * List.length t))) by lia.
    cbn [set_mix]. rewrite !set1_cons. cbn [bind fst snd]. rewrite set1_cons. cbn [bind fst snd]. rewrite E. cbn [bind fst snd skipn firstn].
    split; [reflexivity|]. split; [unfold mixp in *; cbn [flat_map app]; rewrite M; reflexivity|].
    cbn [map fst]. rewrite A. reflexivity.
Qed.

Lemma set_mix_gt gs p : (List.length p < 2 * List.length gs)%nat -> set_mix gs p = Err ValueError.
Proof.
  revert p. induction gs as [|[[a m] s] t IH]; intros p Hl; cbn [List.length] in *; [lia|].
  cbn [set_mix]. destruct p as [|x [|y p]]; [reflexivity|reflexivity|]. cbn [List.length] in Hl.
  rewrite set1_cons. cbn [bind fst snd]. rewrite set1_cons. cbn [bind fst snd]. rewrite IH by lia. reflexivity.
Qed.

Lemma firstn2 (x y : R) p : firstn 2 (x :: y :: p) = [x; y].
Proof. reflexivity. Qed.

Lemma set_act_le a p : (List.length (act_params a) <= List.length p)%nat ->
  exists a', set_act a p = Ok (a', skipn (List.length (act_params a)) p) /\
    act_params a' = firstn (List.length (act_params a)) p /\ act_frame a a'.
Proof.
  intros Hl. destruct a; cbn [act_params List.length] in Hl;
    try (cbn [act_params List.length set_act skipn firstn]; eexists; split; [reflexivity|split; reflexivity]).
  - destruct p as [|x [|y p]]; cbn [List.length] in Hl; try lia. eexists. split; [reflexivity|]. split; reflexivity.
  - destruct p as [|x [|y p]]; cbn [List.length] in Hl; try lia. eexists. split; [reflexivity|]. split; [reflexivity|]. split; reflexivity.
  - rewrite app_length in Hl. cbn [act_params set_act]. rewrite app_length.
    rewrite take_exact_le by lia. cbn [bind fst snd]. rewrite take_exact_le by (rewrite skipn_length; lia). cbn [bind fst snd].
    rewrite skipn_plus. eexists. split; [reflexivity|]. cbn [act_params act_frame]. rewrite firstn_plus. split; [reflexivity|].
    rewrite !firstn_length, skipn_length. repeat split; lia.
  - change (flat_map _ gs) with (mixp gs) in Hl. cbn [act_params set_act]. change (flat_map _ gs) with (mixp gs).
    rewrite mixp_length in *. destruct (set_mix_le gs p Hl) as (gs' & E & M & A). rewrite E. cbn [bind fst snd].
    eexists. split; [reflexivity|]. split; [exact M|split; [exact A|reflexivity]].
  - cbn [act_params set_act]. rewrite take_exact_le by lia. cbn [bind fst snd]. eexists. split; [reflexivity|]. cbn [act_params act_frame].
    split; [reflexivity|]. rewrite firstn_length. split; [lia|reflexivity].
  - destruct p as [|x [|y p]]; cbn [List.length] in Hl; try lia. eexists. split; [reflexivity|]. split; reflexivity.
Qed.

Lemma set_act_gt a p : (List.length p < List.length (act_params a))%nat -> set_act a p = Err ValueError.
Proof.
  intros Hl. destruct a; cbn [act_params List.length] in Hl; try lia.
  - destruct p as [|x [|y p]]; cbn [List.length] in Hl; try lia; reflexivity.
  - destruct p as [|x [|y p]]; cbn [List.length] in Hl; try lia; reflexivity.
  - rewrite app_length in Hl. cbn [set_act]. destruct (le_lt_dec (List.length mu) (List.length p)).
    + rewrite take_exact_le by lia. cbn [bind fst snd]. rewrite take_exact_gt by (rewrite skipn_length; lia). reflexivity.
    + rewrite take_exact_gt by lia. reflexivity.
  - change (flat_map _ gs) with (mixp gs) in Hl. rewrite mixp_length in Hl. cbn [set_act]. rewrite set_mix_gt by auto. reflexivity.
  - cbn [set_act]. rewrite take_exact_gt by auto. reflexivity.
  - destruct p as [|x [|y p]]; cbn [List.length] in Hl; try lia; reflexivity.
Qed.

(** Kind and parameters determine the function. *)
Lemma mixp_inj gs gs' : mixp gs = mixp gs' -> map (fun g => fst (fst g)) gs = map (fun g => fst (fst g)) gs' -> gs = gs'.
Proof.
  revert gs'. induction gs as [|[[a m] s] t IH]; intros [|[[a' m'] s'] t'] E A; try discriminate; [reflexivity|].
  cbn [map fst] in A. cbn [mixp flat_map app] in E. injection E as E1 E2 E3. injection A as A1 A2. subst. f_equal. apply IH; auto.
Qed.

Lemma app_split (A : Type) (a b c d : list A) : List.length a = List.length c -> (a ++ b = c ++ d)%list -> a = c /\ b = d.
Proof.
  revert c. induction a as [|x a IH]; intros [|y c] L E; try discriminate; [auto|].
  cbn [app] in E. injection E as -> E. destruct (IH c) as [-> ->]; auto.
Qed.

Lemma act_frame_inj a b c : act_frame a b -> act_frame a c -> act_params b = act_params c -> b = c.
Proof.
  intros Fb Fc E. destruct a, b; cbn [act_frame] in Fb; try discriminate Fb; try contradiction; destruct c; cbn [act_frame] in Fc; try discriminate Fc; try contradiction; try congruence.
  - cbn [act_params] in E. congruence.
  - cbn [act_params] in E. destruct Fb, Fc. congruence.
  - cbn [act_params] in E. destruct Fb as (L1 & L2 & M1), Fc as (L3 & L4 & M2). apply app_split in E as [-> ->]; congruence.
  - cbn [act_params] in E. destruct Fb as (L1 & M1), Fc as (L3 & M2). f_equal; [|congruence]. apply mixp_inj; [exact E|congruence].
  - cbn [act_params] in E. destruct Fb as (L1 & M1), Fc as (L3 & M2). congruence.
  - cbn [act_params] in E. congruence.
Qed.

Lemma act_frame_refl a : act_frame a a.
Proof. destruct a; cbn [act_frame]; auto. Qed.

Lemma act_frame_count a b : act_frame a b -> List.length (act_params a) = List.length (act_params b).
Proof.
  destruct a, b; cbn [act_frame]; intros F; try discriminate F; try contradiction; try reflexivity.
  - cbn [act_params]. rewrite !app_length. lia.
  - cbn [act_params]. change (List.length (mixp gs) = List.length (mixp gs0)). rewrite !mixp_length.
    destruct F as [F _]. apply (f_equal (@List.length R)) in F. rewrite !map_length in F. lia.
  - cbn [act_params]. tauto.
Qed.

(** ** Lists of functions *)
Lemma set_acts_le l p : (List.length (fn_params l) <= List.length p)%nat ->
  exists l', set_acts l p = Ok (l', skipn (List.length (fn_params l)) p) /\
    fn_params l' = firstn (List.length (fn_params l)) p /\ Forall2 act_frame l l'.
Proof.
  revert p. induction l as [|a t IH]; intros p Hl.
  - exists []. repeat split. constructor.
  - unfold fn_params in *. cbn [flat_map] in *. rewrite app_length in *.
    destruct (set_act_le a p ltac:(lia)) as (a' & E & P & F).
    destruct (IH (skipn (List.length (act_params a)) p)) as (t' & E' & P' & F'); [rewrite skipn_length; lia|].
    exists (a' :: t'). cbn [set_acts]. rewrite E. cbn [bind fst snd]. rewrite E'. cbn [bind fst snd flat_map].
    rewrite skipn_plus, P, P', firstn_plus. split; [reflexivity|]. split; [reflexivity|]. constructor; auto.
Qed.

Lemma set_acts_gt l p : (List.length p < List.length (fn_params l))%nat -> set_acts l p = Err ValueError.
Proof.
  revert p. induction l as [|a t IH]; intros p Hl; [cbn in Hl; lia|].
  unfold fn_params in *. cbn [flat_map] in *. rewrite app_length in Hl. cbn [set_acts].
  destruct (le_lt_dec (List.length (act_params a)) (List.length p)) as [L|L].
  - destruct (set_act_le a p L) as (a' & E & P & F). rewrite E. cbn [bind fst snd]. rewrite IH; [reflexivity|]. rewrite skipn_length. lia.
  - rewrite set_act_gt by auto. reflexivity.
Qed.

Lemma set_acts_inv l p q : set_acts l p = Ok q -> (List.length (fn_params l) <= List.length p)%nat /\
  snd q = skipn (List.length (fn_params l)) p /\ fn_params (fst q) = firstn (List.length (fn_params l)) p /\ Forall2 act_frame l (fst q).
Proof.
  intros H. destruct (le_lt_dec (List.length (fn_params l)) (List.length p)) as [L|L].
  - destruct (set_acts_le l p L) as (l' & E & P & F). rewrite E in H. apply Ok_inj in H. subst q. cbn [fst snd]. auto.
  - rewrite set_acts_gt in H by auto. discriminate.
Qed.

Lemma fn_params_inj l l' m : Forall2 act_frame l l' -> Forall2 act_frame l m -> fn_params l' = fn_params m -> l' = m.
Proof.
  intros F1. revert m. induction F1 as [|a b t t' Fb Ft IH]; intros m F2 E; inversion F2 as [|? c ? u Fc Fu]; subst; [reflexivity|].
  unfold fn_params in *. cbn [flat_map] in E. apply app_split in E as [E1 E2].
  - f_equal; [eapply act_frame_inj; eauto|auto].
  - rewrite <- (act_frame_count a b Fb), <- (act_frame_count a c Fc). reflexivity.
Qed.

Lemma frame_refl l : Forall2 act_frame l l.
Proof. induction l; constructor; auto using act_frame_refl. Qed.

Lemma set_acts_self l p : set_acts l (fn_params l ++ p) = Ok (l, p).
Proof.
  destruct (set_acts_le l (fn_params l ++ p)) as (l' & E & P & F); [rewrite app_length; lia|].
  rewrite E. rewrite firstn_app, firstn_all, Nat.sub_diag in P. cbn [firstn] in P. rewrite app_nil_r in P.
  rewrite skipn_app, skipn_all, Nat.sub_diag. cbn [skipn app]. f_equal. f_equal.
  apply (fn_params_inj l l' l F (frame_refl l)). rewrite P. reflexivity.
Qed.

Lemma frame_fn_count l l' : Forall2 act_frame l l' -> List.length (fn_params l') = List.length (fn_params l).
Proof.
  induction 1 as [|a b t t' F Ft IH]; [reflexivity|]. unfold fn_params in *. cbn [flat_map]. rewrite !app_length, IH.
  rewrite (act_frame_count a b F). reflexivity.
Qed.

(** ** The whole vector *)
Lemma set_params_inv o p o' : set_params o p = Ok o' -> exists l g q k,
  o_kpar o = KPVec l /\ (fn_count (o_core o) <= List.length p)%nat /\
  o_kpar o' = KPVec (firstn (List.length l) (skipn (fn_count (o_core o)) p)) /\
  g = gens (o_core o') /\ q = pers (o_core o') /\
  (fn_params g ++ fn_params q = firstn (fn_count (o_core o)) p)%list /\
  Forall2 act_frame (gens (o_core o)) g /\ Forall2 act_frame (pers (o_core o)) q /\
  mixture_kernel_of (o_radius o) (firstn (List.length l) (skipn (fn_count (o_core o)) p)) = Ok k /\
  uses_kernel (o_core o') k /\ kept o o'.
Proof.
  unfold set_params. intros H. cbv zeta in H. set (c := o_core o) in *.
  apply bind_ok in H as (g & Hg & H). apply bind_ok in H as (q & Hq & H).
  apply set_acts_inv in Hg as (L1 & S1 & P1 & F1). apply set_acts_inv in Hq as (L2 & S2 & P2 & F2).
  rewrite S1 in L2, S2, P2. rewrite skipn_length in L2. rewrite skipn_plus in S2.
  assert (Ec : fn_count c = (List.length (fn_params (gens c)) + List.length (fn_params (pers c)))%nat) by (unfold fn_count; apply app_length).
  destruct (o_kpar o) as [|r|l] eqn:Ek; [discriminate|discriminate|].
  apply bind_ok in H as (k & Hk & H). apply bind_ok in H as (kk & Hkk & H). apply bind_ok in H as (nl & Hnl & H).
  apply Ok_inj in H. subst o'. cbn [o_core o_kpar o_radius set_layers gens pers].
  exists l, (fst g), (fst q), k. rewrite Ec, <- S2. split; [reflexivity|]. split; [lia|]. split; [reflexivity|].
  split; [reflexivity|]. split; [reflexivity|]. split; [rewrite P1, P2, firstn_plus; reflexivity|]. split; [exact F1|]. split; [exact F2|].
  split; [exact Hk|]. assert (kk = k) by (unfold mixture_kernel_of in Hk; apply bind_ok in Hk as (r & _ & Hk);
    apply mixture_kernel_shape in Hk as (_ & _ & _ & E); congruence). subst kk.
  split; [exact Hnl|]. repeat split.
Qed.

Lemma set_get o p o' : set_params o p = Ok o' -> exists v, get_params o = Some v /\ get_params o' = Some (firstn (List.length v) p).
Proof.
  intros H. apply set_params_inv in H as (l & g & q & k & E1 & L & E2 & -> & -> & P & _).
  unfold get_params. rewrite E1, E2. cbn [kp_flat]. eexists. split; [reflexivity|].
  rewrite P. rewrite app_length. fold (fn_count (o_core o)). rewrite firstn_plus. reflexivity.
Qed.

Lemma set_short o p : (List.length p < fn_count (o_core o))%nat -> set_params o p = Err ValueError.
Proof.
  unfold fn_count. rewrite app_length. intros Hl. unfold set_params. cbv zeta. set (c := o_core o) in *.
  destruct (le_lt_dec (List.length (fn_params (gens c))) (List.length p)) as [L|L].
  - destruct (set_acts_le (gens c) p L) as (g & E & _). rewrite E. cbn [bind fst snd].
    rewrite set_acts_gt by (rewrite skipn_length; lia). reflexivity.
  - rewrite set_acts_gt by auto. reflexivity.
Qed.

Lemma set_reaches o p : (fn_count (o_core o) <= List.length p)%nat -> exists g q,
  set_acts (gens (o_core o)) p = Ok g /\ set_acts (pers (o_core o)) (snd g) = Ok q /\ snd q = skipn (fn_count (o_core o)) p.
Proof.
  unfold fn_count. rewrite app_length. intros Hl.
  destruct (set_acts_le (gens (o_core o)) p ltac:(lia)) as (g & E & _). exists (g, skipn (List.length (fn_params (gens (o_core o)))) p).
  cbn [snd]. destruct (set_acts_le (pers (o_core o)) (skipn (List.length (fn_params (gens (o_core o)))) p)) as (q & E' & _); [rewrite skipn_length; lia|].
  eexists. split; [exact E|]. split; [exact E'|]. cbn [snd]. apply skipn_plus.
Qed.

Lemma set_none o p : o_kpar o = KPNone -> (fn_count (o_core o) <= List.length p)%nat -> set_params o p = Err AttributeError.
Proof. intros E Hl. destruct (set_reaches o p Hl) as (g & q & E1 & E2 & _). unfold set_params. rewrite E1. cbn [bind]. rewrite E2. cbn [bind]. rewrite E. reflexivity. Qed.

Lemma set_scalar o p r : o_kpar o = KPScalar r -> (fn_count (o_core o) <= List.length p)%nat -> set_params o p = Err IndexError.
Proof. intros E Hl. destruct (set_reaches o p Hl) as (g & q & E1 & E2 & _). unfold set_params. rewrite E1. cbn [bind]. rewrite E2. cbn [bind]. rewrite E. reflexivity. Qed.

(** Entries beyond the object's own parameters are ignored. *)
Lemma set_acts_tail l p t q : set_acts l p = Ok q -> set_acts l (p ++ t) = Ok (fst q, snd q ++ t)%list.
Proof.
  intros H. pose proof (set_acts_inv l p q H) as (L & S & P & F).
  destruct (set_acts_le l (p ++ t)) as (l' & E & P' & F'); [rewrite app_length; lia|]. rewrite E.
  assert (l' = fst q) as ->.
  { apply (fn_params_inj l l' (fst q) F' F). rewrite P, P', firstn_app. replace (List.length (fn_params l) - List.length p)%nat with 0%nat by lia.
    cbn [firstn]. apply app_nil_r. }
  rewrite S, skipn_app. replace (List.length (fn_params l) - List.length p)%nat with 0%nat by lia. reflexivity.
Qed.

Lemma set_tail o p t : (forall v, get_params o = Some v -> List.length v = List.length p) ->
  (exists v, get_params o = Some v) -> set_params o (p ++ t) = set_params o p.
Proof.
  intros Hlen [v Ev]. specialize (Hlen v Ev). unfold get_params in Ev.
  unfold set_params. cbv zeta.
  assert (Hc : (fn_count (o_core o) <= List.length p)%nat).
  { rewrite <- Hlen. unfold fn_count. destruct (o_kpar o); [discriminate| |]; injection Ev as <-; rewrite !app_length; lia. }
  destruct (set_reaches o p Hc) as (g & q & E1 & E2 & E3). rewrite E1, (set_acts_tail _ _ t _ E1). cbn [bind fst snd].
  rewrite E2, (set_acts_tail _ _ t _ E2). cbn [bind fst snd]. destruct (o_kpar o) as [|r|l]; try reflexivity.
  injection Ev as Ev. assert (Hq : List.length (snd q) = List.length l).
  { rewrite E3, skipn_length, <- Hlen, <- Ev. rewrite app_length. unfold fn_count. cbn [kp_flat]. lia. }
  rewrite firstn_app, <- Hq, Nat.sub_diag. cbn [firstn]. rewrite app_nil_r. reflexivity.
Qed.

Lemma set_accepts o p l r : o_kpar o = KPVec l -> o_radius o = VInt (Z.of_nat r) -> cca_wf (o_core o) ->
  ((exists o', set_params o p = Ok o') <->
   ((fn_count (o_core o) <= List.length p)%nat /\ exists k, get_gaussian_mixture_kernel r (firstn (List.length l) (skipn (fn_count (o_core o)) p)) 1 = Ok k)).
Proof.
  intros Ek Er Hw. split.
  - intros [o' H]. apply set_params_inv in H as (l' & g & q & k & E1 & L & _ & _ & _ & _ & _ & _ & K & _).
    rewrite Ek in E1. injection E1 as <-. split; [exact L|]. exists k. rewrite Er in K. unfold mixture_kernel_of in K. rewrite as_size_of in K. exact K.
  - intros (L & k & K). destruct (set_reaches o p L) as (g & q & E1 & E2 & E3). unfold set_params. rewrite E1. cbn [bind].
    rewrite E2. cbn [bind]. rewrite Ek, E3, Er. unfold mixture_kernel_of. rewrite as_size_of. cbn [bind]. rewrite K. cbn [bind].
    apply mixture_kernel_shape in K as (S & W & _ & A). rewrite A. cbn [bind].
    destruct Hw as ((_ & _ & Hn & He & _) & _). apply shape_inv in S as (S1 & S2 & S3 & S4).
    destruct (init_layer_ok (ext (o_core o)) (int_ (o_core o)) (pm (o_core o)) k) as [nl Enl]; auto; try lia.
    rewrite Enl. cbn [bind]. eexists. reflexivity.
Qed.

(** ** Lenia *)
Lemma lenia_set_get o p o' : lenia_set_params o p = Ok o' ->
  lenia_get_params o' = firstn (List.length (lenia_get_params o)) p /\ (List.length (lenia_get_params o) <= List.length p)%nat /\
  Forall2 act_frame (gens (o_core o)) (gens (o_core o')) /\ pers (o_core o') = pers (o_core o) /\ nbl (o_core o') = nbl (o_core o) /\
  o_kpar o' = o_kpar o /\ kept o o'.
Proof.
  unfold lenia_set_params, lenia_get_params. cbv zeta. intros H. apply bind_ok in H as (g & Hg & H). apply set_acts_inv in Hg as (L & S & P & F).
  apply Ok_inj in H. subst o'. cbn [o_core set_layers gens pers nbl o_kpar]. repeat split; auto.
Qed.

Lemma lenia_set_short o p : (List.length p < List.length (lenia_get_params o))%nat -> lenia_set_params o p = Err ValueError.
Proof. intros H. unfold lenia_set_params. cbv zeta. rewrite set_acts_gt by exact H. reflexivity. Qed.

Lemma lenia_set_exists o p : (List.length (lenia_get_params o) <= List.length p)%nat -> exists o', lenia_set_params o p = Ok o'.
Proof.
  intros H. unfold lenia_set_params. cbv zeta. destruct (set_acts_le (gens (o_core o)) p H) as (g & E & _). rewrite E. cbn [bind]. eexists. reflexivity.
Qed.

Lemma lenia_set_self o : lenia_set_params o (lenia_get_params o) = Ok o.
Proof.
  unfold lenia_set_params, lenia_get_params. cbv zeta. rewrite <- (app_nil_r (fn_params _)), set_acts_self. cbn [bind fst snd].
  destruct o as [c kp r pk nb g p i]. destruct c. reflexivity.
Qed.
