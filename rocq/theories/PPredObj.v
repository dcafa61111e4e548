(** Proofs about predictors that share one global name. *)
From Coq Require Import Reals ZArith NArith Lra Lia List String Ascii Bool Arith Permutation.
From Verif Require Import Base Tensor MActivations MNca MText MWrap MPredict MPredObj SGrid SCca SNca SText SPredict SPredObj PTensor PKern PNca PText PPredict PPredictX PPredictY.
Import ListNotations.
Open Scope R_scope.

(** ** Lists of objects *)
Lemma combine_seq_nth {A} (l : list A) : forall a k, nth_error (combine (seq a (List.length l)) l) k = option_map (fun x => ((a + k)%nat, x)) (nth_error l k).
Proof.
  induction l as [|x l IH]; intros a k; cbn [List.length seq combine]; [destruct k; reflexivity|].
  destruct k as [|k]; cbn [nth_error option_map]; [rewrite Nat.add_0_r; reflexivity|]. rewrite IH.
  replace (S a + k)%nat with (a + S k)%nat by lia. reflexivity.
Qed.

Lemma set_nth_nth {A} k (g : A -> A) l j :
  nth_error (set_nth k g l) j = if Nat.eqb j k then option_map g (nth_error l j) else nth_error l j.
Proof.
  unfold set_nth. rewrite nth_error_map, combine_seq_nth. cbn [Nat.add].
  destruct (nth_error l j) as [x|]; cbn [option_map fst snd]; destruct (Nat.eqb j k); reflexivity.
Qed.

Lemma set_nth_length {A} k (g : A -> A) l : List.length (set_nth k g l) = List.length l.
Proof. unfold set_nth. rewrite map_length, combine_length, seq_length. lia. Qed.

Lemma nth_error_ext {A} (l l' : list A) : (forall j, nth_error l j = nth_error l' j) -> l = l'.
Proof.
  revert l'. induction l as [|x l IH]; intros [|y l'] H; [reflexivity|specialize (H 0%nat); discriminate|specialize (H 0%nat); discriminate|].
  f_equal; [specialize (H 0%nat); cbn in H; congruence|]. apply IH. intros j. exact (H (S j)).
Qed.

Lemma set_nth_twice {A} k (g h : A -> A) l : set_nth k h (set_nth k g l) = set_nth k (fun x => h (g x)) l.
Proof.
  apply nth_error_ext. intros j. rewrite !set_nth_nth. destruct (Nat.eqb j k); [|reflexivity]. destruct (nth_error l j); reflexivity.
Qed.

Lemma set_nth_id {A} k (g : A -> A) l s : nth_error l k = Some s -> g s = s -> set_nth k g l = l.
Proof.
  intros E Hg. apply nth_error_ext. intros j. rewrite set_nth_nth. destruct (Nat.eqb_spec j k) as [->|]; [|reflexivity].
  rewrite E. cbn. congruence.
Qed.

Lemma set_nth_at {A} k (g h : A -> A) l s : nth_error l k = Some s -> g s = h s -> set_nth k g l = set_nth k h l.
Proof.
  intros E Hg. apply nth_error_ext. intros j. rewrite !set_nth_nth. destruct (Nat.eqb_spec j k) as [->|]; [|reflexivity].
  rewrite E. cbn. congruence.
Qed.

(** ** The same nets *)
Lemma same_nets_refl k w : same_nets k w w.
Proof. split; [reflexivity|]. split; [reflexivity|]. intros j [p t b] H. exists b. auto. Qed.

Lemma same_nets_trans k u v w : same_nets k u v -> same_nets k v w -> same_nets k u w.
Proof.
  intros (M1 & L1 & H1) (M2 & L2 & H2). split; [congruence|]. split; [congruence|]. intros j s E.
  destruct (H1 j s E) as (b & E1 & B1). destruct (H2 j _ E1) as (c & E2 & B2). exists c. cbn [po_pred po_tag po_train] in *.
  split; [exact E2|]. intros N. rewrite B2, B1; auto.
Qed.

Lemma same_nets_mode k b w : same_nets k w (set_mode k b w).
Proof.
  split; [reflexivity|]. split; [apply set_nth_length|]. intros j s E. cbn [set_mode w_objs]. rewrite set_nth_nth, E.
  destruct (Nat.eqb_spec j k) as [->|N]; cbn [option_map]; [exists b; split; [reflexivity|congruence]|].
  exists (po_train s). destruct s; auto.
Qed.

Lemma same_nets_files k f w : same_nets k w (set_files f w).
Proof. destruct (same_nets_refl k w) as (A & B & C). split; [exact A|]. split; [exact B|exact C]. Qed.

Section Objects.
  Variable Opt : Type.
  Variable learn : Opt -> predictor -> (nat -> nat -> nat -> nat -> nat -> bool) -> tensor * tensor -> Opt * predictor.
  Variable masks : nat -> nat -> nat -> nat -> nat -> nat -> bool.
  Local Notation call_model := (call_model masks).
  Local Notation obj_eval_loop := (obj_eval_loop masks).
  Local Notation obj_evaluate := (obj_evaluate masks).
  Local Notation obj_epoch := (obj_epoch Opt learn masks).
  Local Notation obj_validate := (obj_validate masks).
  Local Notation obj_fit_loop := (obj_fit_loop Opt learn masks).
  Local Notation obj_fit := (obj_fit Opt learn masks).

  Lemma the_model_ok w g m : the_model w = Ok (g, m) <-> w_model w = Some g /\ nth_error (w_objs w) g = Some m.
  Proof.
    unfold the_model. destruct (w_model w) as [h|]; [|split; [discriminate|intros [E _]; discriminate]].
    destruct (nth_error (w_objs w) h) as [n|] eqn:E.
    - split; [intros H; injection H as -> ->; auto|]. intros [H1 H2]. injection H1 as ->. congruence.
    - split; [discriminate|]. intros [H1 H2]. injection H1 as ->. congruence.
  Qed.

  Lemma call_model_frame w x : same_nets 0 w (fst (call_model w x)) /\ w_files (fst (call_model w x)) = w_files w /\ w_objs (fst (call_model w x)) = w_objs w.
  Proof.
    unfold MPredObj.call_model. destruct (the_model w) as [[g m]|e]; [|split; [apply same_nets_refl|auto]].
    destruct (po_train m); cbn [fst w_files w_objs]; (split; [|auto]); [|apply same_nets_refl].
    destruct (same_nets_refl 0 w) as (A & B & C). split; [exact A|]. split; [exact B|exact C].
  Qed.

  Lemma call_model_same w x : w_model (fst (call_model w x)) = w_model w /\ w_objs (fst (call_model w x)) = w_objs w /\ w_files (fst (call_model w x)) = w_files w.
  Proof. destruct (call_model_frame w x) as ((A & _) & B & C). auto. Qed.

  Lemma eval_loop_same bs : forall w l n, w_model (fst (obj_eval_loop w bs l n)) = w_model w /\
    w_objs (fst (obj_eval_loop w bs l n)) = w_objs w /\ w_files (fst (obj_eval_loop w bs l n)) = w_files w.
  Proof.
    induction bs as [|[x y] bs IH]; intros w l n; cbn [MPredObj.obj_eval_loop]; [auto|].
    destruct (call_model_same w x) as (A & B & C). destruct (call_model w x) as [w1 [z|e]]; cbn [fst] in *; [|auto].
    destruct (sq_error y z) as [e|e]; cbn [fst]; [|auto]. destruct (IH w1 (l + tsum e) (n + tB y)%nat) as (A' & B' & C'). 
    split; [congruence|]. split; congruence.
  Qed.

  Lemma evaluate_same w k bs : w_model (fst (obj_evaluate w k bs)) = w_model w /\
    w_objs (fst (obj_evaluate w k bs)) = w_objs (set_mode k false w) /\ w_files (fst (obj_evaluate w k bs)) = w_files w.
  Proof.
    unfold MPredObj.obj_evaluate. destruct (eval_loop_same bs (set_mode k false w) 0 0) as (A & B & C).
    destruct (obj_eval_loop _ _ _ _) as [w1 [r|e]]; cbn [fst] in *; auto.
  Qed.

  Lemma same_nets_of k w w' : w_model w' = w_model w -> w_objs w' = w_objs w -> same_nets k w w'.
  Proof. intros A B. destruct (same_nets_refl k w) as (A' & B' & C'). unfold same_nets. rewrite A, B. auto. Qed.

  Lemma evaluate_frame w k bs : same_nets k w (fst (obj_evaluate w k bs)).
  Proof.
    destruct (evaluate_same w k bs) as (A & B & C). apply (same_nets_trans k w (set_mode k false w)); [apply same_nets_mode|].
    apply same_nets_of; assumption.
  Qed.

  (** *** Evaluation with a model that is not in training mode *)
  Lemma eval_loop_mode bs : forall w g m l n, the_model w = Ok (g, m) -> po_train m = false ->
    obj_eval_loop w bs l n = (w, eval_loop (po_pred m) bs l n).
  Proof.
    induction bs as [|[x y] bs IH]; intros w g m l n E T; cbn [MPredObj.obj_eval_loop eval_loop]; [reflexivity|].
    unfold MPredObj.call_model. rewrite E, T. destruct (predict false no_keep (po_pred m) x) as [z|e]; cbn [bind]; [|reflexivity].
    destruct (sq_error y z) as [e|e]; cbn [bind]; [|reflexivity]. apply (IH w g m); assumption.
  Qed.

  Lemma evaluate_mode w k bs g m : the_model (set_mode k false w) = Ok (g, m) -> po_train m = false ->
    obj_evaluate w k bs = (set_mode k false w, evaluate_on (po_pred m) bs).
  Proof.
    intros E T. unfold MPredObj.obj_evaluate. rewrite (eval_loop_mode bs _ g m _ _ E T). unfold evaluate_on.
    destruct (eval_loop (po_pred m) bs 0 0) as [r|e]; reflexivity.
  Qed.

  Lemma mode_model w k b g m : the_model w = Ok (g, m) ->
    the_model (set_mode k b w) = Ok (g, if Nat.eqb g k then mkPO (po_pred m) (po_tag m) b else m).
  Proof.
    intros E. apply the_model_ok in E as [E1 E2]. apply the_model_ok. cbn [set_mode w_model w_objs]. split; [exact E1|].
    rewrite set_nth_nth, E2. destruct (Nat.eqb g k); reflexivity.
  Qed.

  Lemma evaluate_own w k bs s : the_model w = Ok (k, s) -> obj_evaluate w k bs = (set_mode k false w, evaluate_on (po_pred s) bs).
  Proof.
    intros E. apply (mode_model w k false) in E. rewrite Nat.eqb_refl in E.
    apply (evaluate_mode w k bs k (mkPO (po_pred s) (po_tag s) false) E eq_refl).
  Qed.

  Lemma evaluate_other w k bs g m : the_model w = Ok (g, m) -> g <> k -> po_train m = false ->
    obj_evaluate w k bs = (set_mode k false w, evaluate_on (po_pred m) bs).
  Proof.
    intros E N T. apply (mode_model w k false) in E. rewrite (proj2 (Nat.eqb_neq g k) N) in E. apply (evaluate_mode w k bs g m E T).
  Qed.

  Lemma evaluate_unbound w k bs : w_model w = None ->
    obj_evaluate w k bs = (set_mode k false w, Err (match bs with [] => ZeroDivisionError | _ => NameError end)).
  Proof.
    intros E. unfold MPredObj.obj_evaluate. destruct bs as [|[x y] bs]; cbn [MPredObj.obj_eval_loop]; [reflexivity|].
    unfold MPredObj.call_model, the_model. cbn [set_mode w_model]. rewrite E. reflexivity.
  Qed.

  (** *** Training through another object *)
  Lemma epoch_other k bs : forall w g o pg, w_model w = Some g -> g <> k ->
    w_model (fst (obj_epoch w k o pg bs)) = w_model w /\ w_objs (fst (obj_epoch w k o pg bs)) = w_objs w /\ w_files (fst (obj_epoch w k o pg bs)) = w_files w.
  Proof.
    induction bs as [|[x y] bs IH]; intros w g o pg E N; cbn [MPredObj.obj_epoch]; [auto|].
    destruct (call_model_same w x) as (A & B & C).
    assert (TM : forall g' m, the_model w = Ok (g', m) -> g' = g) by (intros g' m H; apply the_model_ok in H as [H _]; congruence).
    destruct (the_model w) as [[g' m]|e]; destruct (call_model w x) as [w1 [z|e']]; cbn [fst] in *; auto.
    specialize (TM g' m eq_refl). subst g'.
    match goal with |- context [match ?t with Ok _ => _ | Err _ => _ end] => destruct t as [loss|e] end; cbn [fst]; [|auto].
    assert (L : obj_learn Opt learn w1 k g o (masks (w_drawn w)) (x, y) = (o, w1)) by (unfold obj_learn; rewrite (proj2 (Nat.eqb_neq g k) N); reflexivity).
    rewrite L. cbn [fst snd]. destruct (IH w1 g o (mkProg (smooth_push (pg_smooth pg) loss) (pg_epochs pg) (pg_val pg)) ltac:(congruence) N) as (A' & B' & C').
    split; [congruence|]. split; congruence.
  Qed.

  Lemma epoch_unbound k bs w o pg : w_model w = None -> obj_epoch w k o pg bs = (w, match bs with [] => Ok (o, pg) | _ => Err NameError end).
  Proof.
    intros E. destruct bs as [|[x y] bs]; cbn [MPredObj.obj_epoch]; [reflexivity|].
    unfold MPredObj.call_model, the_model. rewrite E. reflexivity.
  Qed.

  Lemma validate_frame w k pg e val : same_nets k w (fst (obj_validate w k pg e val)) /\ w_files (fst (obj_validate w k pg e val)) = w_files w.
  Proof.
    unfold MPredObj.obj_validate. destruct val as [bs|]; [|split; [apply same_nets_mode|reflexivity]].
    pose proof (evaluate_frame w k bs) as F. destruct (evaluate_same w k bs) as (_ & _ & C).
    destruct (obj_evaluate w k bs) as [w1 [v|e']]; cbn [fst] in *; auto.
  Qed.

  Lemma fit_loop_other k g root tag train val : g <> k -> forall n epoch E disp w o pg, w_model w = Some g ->
    same_nets k w (fst (obj_fit_loop n epoch E disp root tag train val w k o pg)).
  Proof.
    intros N. induction n as [|n IH]; intros epoch E disp w o pg Hw; cbn [MPredObj.obj_fit_loop]; [apply same_nets_refl|].
    pose proof (same_nets_mode k true w) as S0. set (w0 := set_mode k true w) in *.
    destruct (epoch_other k (train epoch) w0 g o pg Hw N) as (A & B & C).
    destruct (obj_epoch w0 k o pg (train epoch)) as [w1 [[o1 pg1]|e]]; cbn [fst] in A, B, C; pose proof (same_nets_of k w0 w1 A B) as S1;
      pose proof (same_nets_trans _ _ _ _ S0 S1) as S01; [|exact S01].
    destruct (Nat.eqb disp 0); [exact S01|].
    destruct (_ || _).
    - destruct (validate_frame w1 k pg1 epoch val) as [S2 F2].
      destruct (obj_validate w1 k pg1 epoch val) as [w2 [pg2|e]]; cbn [fst] in S2; pose proof (same_nets_trans _ _ _ _ S01 S2) as S012; [|exact S012].
      destruct (np_save _ _ _) as [f1|e]; [|exact S012]. destruct (torch_save _ _) as [f2|e].
      + apply (same_nets_trans k w (set_files f2 w2)); [apply (same_nets_trans k w w2); [exact S012|apply same_nets_files]|].
        apply IH. cbn [set_files w_model]. destruct S012 as (M & _). congruence.
      + apply (same_nets_trans k w w2); [exact S012|apply same_nets_files].
    - apply (same_nets_trans k w w1); [exact S01|]. apply IH. destruct S01 as (M & _). congruence.
  Qed.

  Lemma fit_other w k g E disp root train val o : w_model w = Some g -> g <> k ->
    same_nets k w (fst (obj_fit E disp root train val w k o)).
  Proof.
    intros Hw N. unfold MPredObj.obj_fit. destruct (nth_error (w_objs w) k) as [s|]; [|apply same_nets_refl].
    destruct (pr_layers (po_pred s)); [apply same_nets_mode|].
    apply (same_nets_trans k w (set_mode k true w)); [apply same_nets_mode|]. apply (fit_loop_other k g); [exact N|exact Hw].
  Qed.

  (** The first epoch decides, as the model cannot be saved. *)
  Lemma obj_fit_first n disp root train val w k o s : tree (w_files w) -> nth_error (w_objs w) k = Some s -> pr_layers (po_pred s) <> [] ->
    (forall w0, w_files (fst (obj_epoch w0 k o (mkProg [] [] []) (train 0%nat))) = w_files w0) ->
    obj_fit (S n) disp root train val w k o =
    match obj_epoch (set_mode k true w) k o (mkProg [] [] []) (train 0%nat) with
    | (w1, Err e) => (w1, Err e)
    | (w1, Ok (o1, pg1)) =>
        match disp with
        | Some O => (w1, Err ZeroDivisionError)
        | _ => match obj_validate w1 k pg1 0 val with
               | (w2, Err e) => (w2, Err e)
               | (w2, Ok pg2) => match np_save (w_files w2) (progress_path root (po_tag s)) pg2 with
                                 | Err e => (w2, Err e)
                                 | Ok f1 => (set_files f1 w2, Err RuntimeError)
                                 end
               end
        end
    end.
  Proof.
    intros Ht Es Hl HF. unfold MPredObj.obj_fit. rewrite Es. destruct (pr_layers (po_pred s)) as [|l0 ll]; [congruence|]. clear Hl.
    cbn [MPredObj.obj_fit_loop].
    assert (MM : set_mode k true (set_mode k true w) = set_mode k true w).
    { unfold set_mode. cbn [w_objs w_model w_files w_drawn]. rewrite set_nth_twice. reflexivity. }
    rewrite MM. specialize (HF (set_mode k true w)).
    destruct (obj_epoch (set_mode k true w) k o _ (train 0%nat)) as [w1 [[o1 pg1]|e]]; [|reflexivity]. cbn [fst set_mode w_files] in HF.
    set (d := match disp with Some d => d | None => _ end).
    assert (Hd : Nat.eqb d 0 = match disp with Some O => true | _ => false end).
    { unfold d. destruct disp as [[|j]|]; try reflexivity. apply Nat.eqb_neq. lia. }
    rewrite Hd.
    assert (HB : d <> 0%nat -> Nat.eqb (0 mod d) 0 || Nat.eqb 0 (S n - 1) = true).
    { intros Hn. rewrite Nat.mod_0_l by exact Hn. reflexivity. }
    destruct (validate_frame w1 k pg1 0 val) as [_ F2]. rewrite HF in F2.
    destruct disp as [[|j]|]; [reflexivity| |]; rewrite HB by (unfold d; lia);
      (destruct (obj_validate w1 k pg1 0 val) as [w2 [pg2|e]]; cbn [fst] in F2; [|reflexivity]);
      (destruct (np_save (w_files w2) _ _) as [f1|e] eqn:E; [|reflexivity]);
      (rewrite (model_save_fails _ _ _ _ _ (eq_ind_r tree Ht F2) E); reflexivity).
  Qed.

  (** Weights of self do not matter: fixed losses of the model. *)
  Lemma epoch_fixed r hid out k bs : forall w g m o pg, the_model w = Ok (g, m) -> g <> k -> po_train m = false ->
    pred_wf r hid out (po_pred m) -> (0 < pr_repeats (po_pred m))%nat ->
    Forall (good_batch out) bs -> Forall (fun q => (0 < tB (fst q))%nat /\ (0 < out)%nat) bs ->
    exists ls, fixed_losses (po_pred m) bs ls /\
      obj_epoch w k o pg bs = (w, Ok (o, mkProg (fold_left smooth_push ls (pg_smooth pg)) (pg_epochs pg) (pg_val pg))).
  Proof.
    induction bs as [|[x y] bs IH]; intros w g m o pg E N T Hp Hr Hb Hn.
    - exists []. split; [constructor|]. cbn [MPredObj.obj_epoch fold_left]. destruct pg; reflexivity.
    - apply Forall_cons_iff in Hb as [Hq Hb]. apply Forall_cons_iff in Hn as [Hq' Hn]. cbn [fst] in Hq'.
      destruct (good_predicts r hid out (po_pred m) (x, y) Hp Hq) as (z & Ez & Sz & Tz). cbn [fst snd] in Ez, Sz.
      assert (Sx : shape x = shape y) by apply Hq. assert (Cx : tC x = out) by apply Hq. assert (H0 : (0 < tH x)%nat) by apply Hq. assert (W0 : (0 < tW x)%nat) by apply Hq.
      unfold shape in Sx. apply pair_equal_spec in Sx as [Sx Q4]. apply pair_equal_spec in Sx as [Sx Q3]. apply pair_equal_spec in Sx as [Q1 Q2].
      assert (EL : (let* e := sq_error y z in let* loss := tmean e in
                   let* _ := guard (negb (Nat.eqb (pr_repeats (po_pred m)) 0)) RuntimeError in Ok loss) =
                   Ok (sq_dist y z / INR (tB y * tC y * tH y * tW y))).
      { destruct (sq_error_eq y z (eq_sym Sz)) as (e & Ee & Et). rewrite Ee. cbn [bind].
        assert (LE : List.length (tdata e) = (tB y * tC y * tH y * tW y)%nat).
        { unfold sq_error in Ee. rewrite tzip_same in Ee by (symmetry; exact Sz). apply Ok_inj in Ee. subst e. apply twf_build. }
        assert (PB : (0 < tB y * tC y)%nat) by (apply Nat.mul_pos_pos; lia).
        assert (PH : (0 < tB y * tC y * tH y)%nat) by (apply Nat.mul_pos_pos; lia).
        assert (PW : (0 < tB y * tC y * tH y * tW y)%nat) by (apply Nat.mul_pos_pos; lia).
        unfold tmean, lmean. destruct (tdata e) as [|a t] eqn:Ed; [cbn in LE; lia|]. rewrite <- Ed. cbn [bind].
        destruct (Nat.eqb_spec (pr_repeats (po_pred m)) 0); [lia|]. cbn [negb guard bind]. rewrite Ed, LE, <- Ed.
        unfold tsum in Et. rewrite Et. reflexivity. }
      destruct (IH w g m o (mkProg (smooth_push (pg_smooth pg) (sq_dist y z / INR (tB y * tC y * tH y * tW y))) (pg_epochs pg) (pg_val pg)) E N T Hp Hr Hb Hn) as (ls & F & EE).
      exists (sq_dist y z / INR (tB y * tC y * tH y * tW y) :: ls). split.
      + constructor; [|exact F]. exists z. cbn [fst snd]. split; [exact Ez|]. split; [congruence|reflexivity].
      + cbn [MPredObj.obj_epoch]. unfold MPredObj.call_model. rewrite E, T, Ez, EL.
        assert (L : obj_learn Opt learn w k g o (masks (w_drawn w)) (x, y) = (o, w)) by (unfold obj_learn; rewrite (proj2 (Nat.eqb_neq g k) N); reflexivity).
        rewrite L. cbn [fst snd]. rewrite EE. reflexivity.
  Qed.
End Objects.
