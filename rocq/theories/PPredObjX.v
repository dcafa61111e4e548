(** Proofs about predictors that share one global name: a predictor that is the model itself, batches and the script. *)
From Coq Require Import Reals ZArith NArith Lra Lia List String Ascii Bool Arith Permutation.
From Verif Require Import Base Tensor MActivations MNca MText MWrap MPredict MPredObj SGrid SCca SNca SText SPredict SPredObj PTensor PKern PNca PText PPredict PPredictX PPredictY PPredObj.
Import ListNotations.
Open Scope R_scope.

Section Own.
  Variable Opt : Type.
  Variable learn : Opt -> predictor -> (nat -> nat -> nat -> nat -> nat -> bool) -> tensor * tensor -> Opt * predictor.
  Variable masks : nat -> nat -> nat -> nat -> nat -> nat -> bool.
  Local Notation obj_epoch := (obj_epoch Opt learn masks).
  Local Notation obj_fit_loop := (obj_fit_loop Opt learn masks).
  Local Notation obj_fit := (obj_fit Opt learn masks).
  Local Notation later d := (fun j => masks (d + j)%nat).

  Definition keeps_repeats : Prop := forall o p keep q, pr_repeats (snd (learn o p keep q)) = pr_repeats p.

  Definition own_world (w : pworld) (k : nat) (p : predictor) (tag : string) (b : bool) (d : nat) : pworld :=
    mkPW (set_nth k (fun _ => mkPO p tag b) (w_objs w)) (w_model w) (w_files w) d.

  Lemma own_model w k p tag b d s : the_model w = Ok (k, s) -> the_model (own_world w k p tag b d) = Ok (k, mkPO p tag b).
  Proof.
    intros E. apply the_model_ok in E as [E1 E2]. apply the_model_ok. cbn [own_world w_model w_objs]. split; [exact E1|].
    rewrite set_nth_nth, Nat.eqb_refl, E2. reflexivity.
  Qed.

  Lemma own_own w k p tag b d p' tag' b' d' : own_world (own_world w k p tag b d) k p' tag' b' d' = own_world w k p' tag' b' d'.
  Proof. unfold own_world. cbn [w_objs w_model w_files w_drawn]. rewrite set_nth_twice. reflexivity. Qed.

  Lemma own_same w k s : the_model w = Ok (k, s) -> own_world w k (po_pred s) (po_tag s) (po_train s) (w_drawn w) = w.
  Proof.
    intros E. apply the_model_ok in E as [E1 E2]. unfold own_world.
    rewrite (set_nth_id k _ (w_objs w) s E2) by (destruct s; reflexivity). destruct w; reflexivity.
  Qed.

  Lemma set_mode_own w k s b : the_model w = Ok (k, s) -> set_mode k b w = own_world w k (po_pred s) (po_tag s) b (w_drawn w).
  Proof.
    intros E. apply the_model_ok in E as [E1 E2]. unfold set_mode, own_world. f_equal. apply (set_nth_at k _ _ _ s E2). reflexivity.
  Qed.

  Lemma epoch_own k d0 : keeps_repeats -> forall bs w o pg s n, the_model w = Ok (k, s) -> po_train s = true -> (0 < pr_repeats (po_pred s))%nat ->
    w_drawn w = (d0 + n)%nat ->
    match train_epoch Opt learn (later d0) (mkFit Opt o (po_pred s) n pg) bs with
    | Ok st => obj_epoch w k o pg bs = (own_world w k (ft_pred Opt st) (po_tag s) true (d0 + ft_steps Opt st), Ok (ft_opt Opt st, ft_prog Opt st)) /\
               pr_repeats (ft_pred Opt st) = pr_repeats (po_pred s)
    | Err e => snd (obj_epoch w k o pg bs) = Err e /\ w_files (fst (obj_epoch w k o pg bs)) = w_files w
    end.
  Proof.
    intros KR. induction bs as [|[x y] bs IH]; intros w o pg s n E T Hr Hd.
    - cbn [train_epoch MPredObj.obj_epoch ft_pred ft_steps ft_opt ft_prog]. split; [|reflexivity]. f_equal.
      rewrite <- Hd, <- T. symmetry. apply own_same. exact E.
    - cbn [train_epoch MPredObj.obj_epoch ft_pred ft_steps ft_opt ft_prog]. unfold call_model. rewrite E, T, Hd.
      destruct (predict true (masks (d0 + n)%nat) (po_pred s) x) as [z|e]; cbn [bind snd fst w_files]; [|auto].
      destruct (sq_error y z) as [e|e]; cbn [bind snd fst w_files]; [|auto].
      destruct (tmean e) as [loss|e']; cbn [bind snd fst w_files]; [|auto].
      destruct (Nat.eqb_spec (pr_repeats (po_pred s)) 0); [lia|]. cbn [negb guard bind].
      unfold obj_learn. rewrite Nat.eqb_refl. cbn [w_objs]. pose proof (proj1 (the_model_ok w k s) E) as [E1 E2]. rewrite E2. cbn [fst snd].
      set (rr := learn o (po_pred s) (masks (d0 + n)%nat) (x, y)).
      set (w2 := set_pred k (snd rr) _).
      assert (W2 : w2 = own_world w k (snd rr) (po_tag s) true (d0 + (n + 1))).
      { unfold w2, set_pred, own_world. cbn [w_objs w_model w_files w_drawn]. f_equal; [|lia].
        apply (set_nth_at k _ _ _ s E2). rewrite T. reflexivity. }
      rewrite W2. clearbody w2. clear w2 W2.
      pose proof (own_model w k (snd rr) (po_tag s) true (d0 + (n + 1)) s E) as E'.
      set (pg' := mkProg _ _ _).
      specialize (IH (own_world w k (snd rr) (po_tag s) true (d0 + (n + 1))) (fst rr) pg' (mkPO (snd rr) (po_tag s) true) (n + 1)%nat E' eq_refl).
      cbn [po_pred po_tag] in IH. pose proof (KR o (po_pred s) (masks (d0 + n)%nat) (x, y)) as KR'. fold rr in KR'. rewrite KR' in IH.
      specialize (IH Hr eq_refl). replace (Datatypes.S n) with (n + 1)%nat by lia. fold pg'.
      destruct (train_epoch Opt learn (later d0) (mkFit Opt (fst rr) (snd rr) (n + 1) pg') bs) as [st|e'].
      + destruct IH as [I1 I2]. split; [|exact I2]. rewrite I1, own_own. reflexivity.
      + destruct IH as [I1 I2]. split; [exact I1|]. rewrite I2. reflexivity.
  Qed.

  Definition out_of (r : res (fit_state Opt)) : res (Opt * progress) :=
    match r with Ok st => Ok (ft_opt Opt st, ft_prog Opt st) | Err e => Err e end.

  Lemma fit_loop_own k d0 E disp root tag train val : keeps_repeats -> forall n epoch w st s,
    the_model w = Ok (k, s) -> po_pred s = ft_pred Opt st -> (0 < pr_repeats (po_pred s))%nat -> w_drawn w = (d0 + ft_steps Opt st)%nat ->
    let r := fit_loop Opt learn (later d0) n epoch E disp root tag train val st (w_files w) in
    let r' := obj_fit_loop n epoch E disp root tag train val w k (ft_opt Opt st) (ft_prog Opt st) in
    w_files (fst r') = fst r /\ snd r' = out_of (snd r) /\
    forall st', snd r = Ok st' -> exists b, w_objs (fst r') = set_nth k (fun _ => mkPO (ft_pred Opt st') (po_tag s) b) (w_objs w).
  Proof.
    intros KR. induction n as [|n IH]; intros epoch w st s Em Ep Hr Hd; cbn zeta; cbn [MPredObj.obj_fit_loop fit_loop].
    - cbn [fst snd out_of]. split; [reflexivity|]. split; [reflexivity|]. intros st' H. apply Ok_inj in H. subst st'.
      exists (po_train s). apply the_model_ok in Em as [E1 E2]. symmetry. apply (set_nth_id k _ _ s E2). rewrite <- Ep. destruct s; reflexivity.
    - rewrite (set_mode_own w k s true Em). set (w0 := own_world w k (po_pred s) (po_tag s) true (w_drawn w)).
      pose proof (own_model w k (po_pred s) (po_tag s) true (w_drawn w) s Em) as E0. fold w0 in E0.
      pose proof (epoch_own k d0 KR (train epoch) w0 (ft_opt Opt st) (ft_prog Opt st) _ (ft_steps Opt st) E0 eq_refl Hr Hd) as EO.
      cbn [po_pred po_tag] in EO. rewrite Ep in EO.
      replace (mkFit Opt (ft_opt Opt st) (ft_pred Opt st) (ft_steps Opt st) (ft_prog Opt st)) with st in EO by (destruct st; reflexivity).
      destruct (train_epoch Opt learn (later d0) st (train epoch)) as [s1|e].
      2:{ destruct EO as [I1 I2]. destruct (obj_epoch w0 k _ _ (train epoch)) as [w1 r1]. cbn [fst snd] in *. subst r1. cbn [fst snd out_of].
          split; [exact I2|]. split; [reflexivity|]. discriminate. }
      destruct EO as [EO R1]. rewrite EO. unfold w0. rewrite own_own. set (w1 := own_world w k (ft_pred Opt s1) (po_tag s) true (d0 + ft_steps Opt s1)).
      pose proof (own_model w k (ft_pred Opt s1) (po_tag s) true (d0 + ft_steps Opt s1) s Em) as E1. fold w1 in E1.
      destruct (Nat.eqb disp 0); [cbn [fst snd out_of]; split; [reflexivity|split; [reflexivity|discriminate]]|].
      destruct (_ || _).
      + unfold obj_validate, validate. destruct val as [bs|]; [|cbn [fst snd out_of]; split; [reflexivity|split; [reflexivity|discriminate]]].
        rewrite (evaluate_own masks w1 k bs _ E1). cbn [po_pred].
        destruct (evaluate_on (ft_pred Opt s1) bs) as [v|e]; cbn [bind]; [|cbn [fst snd out_of]; split; [reflexivity|split; [reflexivity|discriminate]]].
        set (w2 := own_world w k (ft_pred Opt s1) (po_tag s) false (d0 + ft_steps Opt s1)).
        assert (W2 : set_mode k false w1 = w2) by (rewrite (set_mode_own w1 k _ false E1); unfold w1, w2; rewrite own_own; reflexivity).
        rewrite W2. cbn [ft_prog]. set (pg2 := mkProg _ _ _). change (w_files w2) with (w_files w).
        destruct (np_save (w_files w) (progress_path root tag) pg2) as [f1|e]; [|cbn [fst snd out_of]; split; [reflexivity|split; [reflexivity|discriminate]]].
        destruct (torch_save f1 (model_path root tag)) as [f2|e]; [|cbn [fst snd out_of]; split; [reflexivity|split; [reflexivity|discriminate]]].
        pose proof (own_model w k (ft_pred Opt s1) (po_tag s) false (d0 + ft_steps Opt s1) s Em) as E2. fold w2 in E2.
        assert (E2' : the_model (set_files f2 w2) = Ok (k, mkPO (ft_pred Opt s1) (po_tag s) false)) by exact E2.
        destruct (IH (Datatypes.S epoch) (set_files f2 w2) (mkFit Opt (ft_opt Opt s1) (ft_pred Opt s1) (ft_steps Opt s1) pg2) _ E2' eq_refl ltac:(cbn [po_pred]; rewrite R1, <- Ep; exact Hr) eq_refl) as (I1 & I2 & I3).
        cbn [ft_opt ft_prog w_files set_files] in I1, I2, I3. split; [exact I1|]. split; [exact I2|]. intros st' H. destruct (I3 st' H) as (b & I4). exists b. rewrite I4.
        unfold w2, set_files, own_world. cbn [w_objs po_tag]. rewrite set_nth_twice. reflexivity.
      + destruct (IH (Datatypes.S epoch) w1 s1 _ E1 eq_refl ltac:(cbn [po_pred]; rewrite R1, <- Ep; exact Hr) eq_refl) as (I1 & I2 & I3).
        split; [exact I1|]. split; [exact I2|]. intros st' H. destruct (I3 st' H) as (b & I4). exists b. rewrite I4.
        unfold w1, own_world. cbn [w_objs po_tag]. rewrite set_nth_twice. reflexivity.
  Qed.

  Lemma fit_own w k s E disp root train val o : keeps_repeats -> the_model w = Ok (k, s) -> (0 < pr_repeats (po_pred s))%nat ->
    let r := fit Opt learn (fun j => masks (w_drawn w + j)%nat) E disp root (po_tag s) train val o (po_pred s) (w_files w) in
    let r' := obj_fit E disp root train val w k o in
    w_files (fst r') = fst r /\ snd r' = out_of (snd r) /\
    forall st', snd r = Ok st' -> exists b, w_objs (fst r') = set_nth k (fun _ => mkPO (ft_pred Opt st') (po_tag s) b) (w_objs w).
  Proof.
    intros KR Em Hr. cbn zeta. unfold MPredObj.obj_fit, fit. pose proof (proj1 (the_model_ok w k s) Em) as [E1 E2]. rewrite E2.
    destruct (pr_layers (po_pred s)) as [|l0 ll]; [cbn [fst snd out_of]; split; [reflexivity|split; [reflexivity|discriminate]]|].
    set (dd := match disp with Some d => d | None => _ end).
    pose proof (mode_model w k true k s Em) as E0. rewrite Nat.eqb_refl in E0.
    destruct (fit_loop_own k (w_drawn w) E dd root (po_tag s) train val KR E 0 (set_mode k true w) (mkFit Opt o (po_pred s) 0 (mkProg [] [] [])) _ E0 eq_refl Hr
      ltac:(cbn [set_mode w_drawn ft_steps]; lia)) as (I1 & I2 & I3).
    split; [exact I1|]. split; [exact I2|]. intros st' H. destruct (I3 st' H) as (b & I4). exists b. etransitivity; [exact I4|].
    unfold set_mode. cbn [w_objs po_tag]. rewrite set_nth_twice. reflexivity.
  Qed.

  (** The weights learnt in the first epoch stay, though fit raises. *)
  Lemma fit_own_outcome r hid out n disp root train val w k s o :
    keeps_repeats -> (forall o p kp q, pred_wf r hid out p -> pred_wf r hid out (snd (learn o p kp q))) ->
    the_model w = Ok (k, s) -> pred_wf r hid out (po_pred s) -> (0 < pr_repeats (po_pred s))%nat -> tree (w_files w) -> (0 < out)%nat -> disp <> Some 0%nat ->
    Forall (good_batch out) (train 0%nat) -> Forall (fun q => (0 < tB (fst q))%nat) (train 0%nat) ->
    Forall (good_batch out) val -> list_sum (map (fun q => tB (snd q)) val) <> 0%nat ->
    w_files w (root ++ ["logs"%string])%list = Some NDir -> w_files w (progress_path root (po_tag s)) <> Some NDir ->
    exists ls o' p' v, training Opt learn (fun j => masks (w_drawn w + j)%nat) 0 o (po_pred s) (train 0%nat) ls o' p' /\ evaluate_on p' val = Ok v /\
      obj_fit (Datatypes.S n) disp root train (Some val) w k o =
      (mkPW (set_nth k (fun _ => mkPO p' (po_tag s) false) (w_objs w)) (w_model w)
         (put (w_files w) (progress_path root (po_tag s)) (NProgress (mkProg (map (ewma ls) (seq 0 (List.length ls))) [0%nat] [v])))
         (w_drawn w + List.length (train 0%nat)), Err RuntimeError).
  Proof.
    intros KR Hl Em Hp Hr Ht Ho Hd Hb HB Hv HV Hlogs Hpp.
    assert (Hne : pr_layers (po_pred s) <> []) by (destruct Hp as [_ Hp]; destruct (Hp 0%nat Hr) as [(l & E & _) _]; destruct (pr_layers (po_pred s)); discriminate).
    destruct (train_runs Opt learn (fun j => masks (w_drawn w + j)%nat) r hid out Hl (train 0%nat) Hb ltac:(eapply Forall_impl; [|exact HB]; cbv beta; auto) (mkFit Opt o (po_pred s) 0 (mkProg [] [] [])) Hp)
      as (ls & o' & p' & TR & Hp' & E & EL & _). cbn [ft_opt ft_pred ft_steps ft_prog pg_smooth pg_epochs pg_val Nat.add] in TR, E.
    destruct (evaluate_eq r hid out p' val Hp' Hv) as (zs & _ & EV). cbv zeta in EV.
    destruct (Nat.eqb_spec (List.length val) 0) as [Z|Z]; [destruct val; [exfalso; apply HV; reflexivity|discriminate]|].
    destruct (Nat.eqb_spec (list_sum (map (fun q => tB (snd q)) val)) 0) as [Z'|Z']; [contradiction|].
    eexists ls, o', p', _. split; [exact TR|]. split; [exact EV|].
    pose proof (proj1 (the_model_ok w k s) Em) as [M1 M2].
    pose proof (mode_model w k true k s Em) as E0. rewrite Nat.eqb_refl in E0.
    pose proof (epoch_own k (w_drawn w) KR (train 0%nat) (set_mode k true w) o (mkProg [] [] []) _ 0%nat E0 eq_refl Hr ltac:(cbn [set_mode w_drawn]; lia)) as EO.
    cbn [po_pred po_tag] in EO. rewrite E in EO. destruct EO as [EO _]. cbn [ft_pred ft_steps ft_opt ft_prog] in EO.
    assert (NS : forall g, np_save (w_files w) (progress_path root (po_tag s)) g = Ok (put (w_files w) (progress_path root (po_tag s)) (NProgress g))).
    { intros g. unfold np_save. assert (X : removelast (progress_path root (po_tag s)) = (root ++ ["logs"%string])%list) by apply removelast_two.
      rewrite X, Hlogs. destruct (w_files w (progress_path root (po_tag s))) as [[| | |]|]; congruence. }
    unfold MPredObj.obj_fit. rewrite M2. destruct (pr_layers (po_pred s)) as [|l0 ll]; [congruence|]. clear Hne.
    cbn [MPredObj.obj_fit_loop].
    assert (MM : set_mode k true (set_mode k true w) = set_mode k true w) by (unfold set_mode; cbn [w_objs w_model w_files w_drawn]; rewrite set_nth_twice; reflexivity).
    rewrite MM, EO.
    set (dd := match disp with Some d => d | None => _ end).
    assert (Hdd : dd <> 0%nat) by (unfold dd; destruct disp as [[|j]|]; [congruence| |]; lia).
    rewrite (proj2 (Nat.eqb_neq dd 0) Hdd), (Nat.mod_0_l dd Hdd), Nat.eqb_refl. cbn [orb].
    set (w1 := own_world (set_mode k true w) k p' (po_tag s) true (w_drawn w + List.length (train 0%nat))).
    pose proof (own_model (set_mode k true w) k p' (po_tag s) true (w_drawn w + List.length (train 0%nat)) _ E0) as E1. fold w1 in E1.
    unfold obj_validate. rewrite (evaluate_own masks w1 k val _ E1). cbn [po_pred]. rewrite EV. cbn [pg_smooth pg_epochs pg_val app].
    set (w2 := own_world w k p' (po_tag s) false (w_drawn w + List.length (train 0%nat))).
    assert (W2 : set_mode k false w1 = w2).
    { rewrite (set_mode_own w1 k _ false E1). unfold w1, w2. rewrite own_own. unfold own_world, set_mode. cbn [w_objs w_model w_files w_drawn po_pred po_tag].
      rewrite set_nth_twice. reflexivity. }
    rewrite W2. change (w_files w2) with (w_files w). rewrite NS.
    erewrite model_save_fails; [|exact Ht|apply NS].
    rewrite <- smooth_eq. reflexivity.
  Qed.

  (** Through another object in evaluation mode. *)
  Lemma fit_other_outcome r hid out n disp root train val w k s g m o :
    the_model w = Ok (g, m) -> g <> k -> po_train m = false -> nth_error (w_objs w) k = Some s -> pr_layers (po_pred s) <> [] ->
    pred_wf r hid out (po_pred m) -> (0 < pr_repeats (po_pred m))%nat -> tree (w_files w) -> (0 < out)%nat -> disp <> Some 0%nat ->
    Forall (good_batch out) (train 0%nat) -> Forall (fun q => (0 < tB (fst q))%nat) (train 0%nat) ->
    Forall (good_batch out) val -> list_sum (map (fun q => tB (snd q)) val) <> 0%nat ->
    w_files w (root ++ ["logs"%string])%list = Some NDir -> w_files w (progress_path root (po_tag s)) <> Some NDir ->
    exists ls v, fixed_losses (po_pred m) (train 0%nat) ls /\ evaluate_on (po_pred m) val = Ok v /\
      obj_fit (Datatypes.S n) disp root train (Some val) w k o =
      (set_files (put (w_files w) (progress_path root (po_tag s)) (NProgress (mkProg (map (ewma ls) (seq 0 (List.length ls))) [0%nat] [v])))
         (set_mode k false w), Err RuntimeError).
  Proof.
    intros Em N T Es Hne Hp Hr Ht Ho Hd Hb HB Hv HV Hlogs Hpp.
    destruct (evaluate_eq r hid out (po_pred m) val Hp Hv) as (zs & _ & EV). cbv zeta in EV.
    destruct (Nat.eqb_spec (List.length val) 0) as [Z|Z]; [destruct val; [exfalso; apply HV; reflexivity|discriminate]|].
    destruct (Nat.eqb_spec (list_sum (map (fun q => tB (snd q)) val)) 0) as [Z'|Z']; [contradiction|].
    pose proof (mode_model w k true g m Em) as E0. rewrite (proj2 (Nat.eqb_neq g k) N) in E0.
    destruct (epoch_fixed Opt learn masks r hid out k (train 0%nat) (set_mode k true w) g m o (mkProg [] [] []) E0 N T Hp Hr Hb
      ltac:(eapply Forall_impl; [|exact HB]; cbv beta; auto)) as (ls & FL & EO). cbn [pg_smooth pg_epochs pg_val] in EO.
    assert (NS : forall g, np_save (w_files w) (progress_path root (po_tag s)) g = Ok (put (w_files w) (progress_path root (po_tag s)) (NProgress g))).
    { intros q. unfold np_save. assert (X : removelast (progress_path root (po_tag s)) = (root ++ ["logs"%string])%list) by apply removelast_two.
      rewrite X, Hlogs. destruct (w_files w (progress_path root (po_tag s))) as [[| | |]|]; congruence. }
    eexists ls, _. split; [exact FL|]. split; [exact EV|].
    unfold MPredObj.obj_fit. rewrite Es. destruct (pr_layers (po_pred s)) as [|l0 ll]; [congruence|]. clear Hne.
    cbn [MPredObj.obj_fit_loop].
    assert (MM : forall b, set_mode k b (set_mode k true w) = set_mode k b w) by (intros b; unfold set_mode; cbn [w_objs w_model w_files w_drawn]; rewrite set_nth_twice; reflexivity).
    rewrite MM, EO.
    set (dd := match disp with Some d => d | None => _ end).
    assert (Hdd : dd <> 0%nat) by (unfold dd; destruct disp as [[|j]|]; [congruence| |]; lia).
    rewrite (proj2 (Nat.eqb_neq dd 0) Hdd), (Nat.mod_0_l dd Hdd), Nat.eqb_refl. cbn [orb].
    unfold obj_validate. rewrite (evaluate_other masks (set_mode k true w) k val g m E0 N T), EV. cbn [pg_smooth pg_epochs pg_val app].
    rewrite MM. change (w_files (set_mode k false w)) with (w_files w). rewrite NS.
    erewrite model_save_fails; [|exact Ht|apply NS]. rewrite <- smooth_eq. reflexivity.
  Qed.
End Own.
