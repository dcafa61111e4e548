(** Property theorems about predictors that share one global name, and about the script of the step predictor
    (C105, C106). *)
From Coq Require Import Reals ZArith NArith Lra Lia List Ascii String Bool Arith Permutation.
From Verif Require Import Base Tensor MActivations MNca MText MWrap MPredict MPredObj SGrid SCca SNca SText SPredict SPredObj PTensor PKern PNca PText PPredict PPredictX PPredictY PPredObj PPredObjX PPredObjY PPredObjZ TPredict.
Import ListNotations.
Open Scope R_scope.

(** ** C105: the global name *)

(** On the object that [model] names, evaluate returns that object's loss, and afterwards only the mode of that
    object has changed. *)
Theorem C105_own_evaluate : forall masks w k bs s, w_model w = Some k -> nth_error (w_objs w) k = Some s ->
  obj_evaluate masks w k bs = (set_mode k false w, evaluate_on (po_pred s) bs).
Proof. intros masks w k bs s H1 H2. apply evaluate_own. apply the_model_ok. auto. Qed.

(** On any other object it returns the loss of the object that [model] names, provided that is in evaluation mode:
    the object it is called on has no say. *)
Theorem C105_other_evaluate : forall masks w k bs g m, w_model w = Some g -> nth_error (w_objs w) g = Some m -> g <> k -> po_train m = false ->
  obj_evaluate masks w k bs = (set_mode k false w, evaluate_on (po_pred m) bs).
Proof. intros masks w k bs g m H1 H2. apply evaluate_other. apply the_model_ok. auto. Qed.

(** Whatever happens, evaluation changes no network, no file and no mode but that of the object it is called on. *)
Theorem C105_evaluate_keeps : forall masks w k bs, same_nets k w (fst (obj_evaluate masks w k bs)) /\
  w_files (fst (obj_evaluate masks w k bs)) = w_files w.
Proof. intros masks w k bs. split; [apply evaluate_frame|apply evaluate_same]. Qed.

(** Two predictors; the global names the first. *)
Definition two (b : bool) (g : option nat) : pworld :=
  mkPW [mkPO (ex_pred 1) "a" b; mkPO (init_predictor ones 3 0 1 1 (1 / 2)) "b" true] g ex_files 0.

Example C105_other_case : forall masks, snd (obj_evaluate masks (two false (Some 0%nat)) 1 [(one_cell, mkT 1 1 1 1 [1 + logistic 1])]) = Ok 0.
Proof.
  intros masks. rewrite (C105_other_evaluate masks (two false (Some 0%nat)) 1 _ 0 (mkPO (ex_pred 1) "a" false)) by (reflexivity || lia). apply C76_case.
Qed.

(** Evaluation does not switch the model itself to evaluation mode: when it was left in training mode, the loss
    depends on the dropout masks. *)
Lemma one_pass keep : predict true keep (ex_pred 1) one_cell =
  Ok (mkT 1 1 1 1 [1 + logistic (drop_factor true (keep 0 0 0 0 0)%nat (1 / 10))]).
Proof.
  rewrite (C74_passes 1 1 1) by (try apply ex_pred_wf; try reflexivity; cbn; lia). f_equal.
  change (half_up (pr_repeats (ex_pred 1))) with 1%nat. cbn [passes]. unfold pass. cbn [one_cell tB tC tH tW].
  apply tensor_ext; [apply twf_build|reflexivity|reflexivity|]. cbn [tB tC tH tW build]. intros b c i j Hb Hc Hi Hj.
  assert (b = 0 /\ c = 0 /\ i = 0 /\ j = 0)%nat as (-> & -> & -> & ->) by lia.
  match goal with |- get ?t 0 0 0 0 = _ => change t with (build 1 1 1 1 (fun b o i j : nat => get one_cell b o i j +
    pass_gain (nth (2 * 0) (pr_layers (ex_pred 1)) blank) (nth (2 * 0 + 1) (pr_layers (ex_pred 1)) blank) 1 1 (fun h => drop_factor true (keep (2 * 0) b h i j)%nat (pr_dropout (ex_pred 1))) one_cell b o i j)) end.
  rewrite get_build by lia. change (get one_cell 0 0 0 0) with 1.
  match goal with |- _ = get ?t 0 0 0 0 => change (get t 0 0 0 0) with (1 + logistic (drop_factor true (keep 0 0 0 0 0)%nat (1 / 10))) end.
  f_equal. unfold pass_gain. f_equal. cbn [rsum].
  change (nth (2 * 0) (pr_layers (ex_pred 1)) blank) with (new_layer ones 0 1 1 3 1).
  change (nth (2 * 0 + 1) (pr_layers (ex_pred 1)) blank) with (new_layer ones 1 1 1 1 0).
  change (nth 0 (bl_b (new_layer ones 1 1 1 1 0)) 0) with 0.
  change (get (cl_w (bl_c (new_layer ones 1 1 1 1 0))) 0 0 0 0) with 1.
  change (2 * 0)%nat with 0%nat. change (pr_dropout (ex_pred 1)) with (1 / 10).
  assert (E : hidden_unit (new_layer ones 0 1 1 3 1) 1 one_cell 0 0 0 0 = 1).
  { unfold hidden_unit. change (nth 0 (bl_b (new_layer ones 0 1 1 3 1)) 0) with 0.
    change (tC one_cell) with 1%nat. change (tH one_cell) with 1%nat. change (tW one_cell) with 1%nat. change (2 * 1 + 1)%nat with 3%nat. cbn [rsum].
    assert (W : forall y z, (y < 3)%nat -> (z < 3)%nat -> get (cl_w (bl_c (new_layer ones 0 1 1 3 1))) 0 0 y z = 1).
    { intros y z Hy Hz. cbn [new_layer bl_c cl_w]. rewrite get_build by lia. reflexivity. }
    rewrite ?W by lia. unfold at0. cbn [Z.of_nat Z.add Z.sub Z.opp Z.leb Z.ltb Z.compare andb Pos.of_succ_nat Pos.succ Pos.compare Pos.compare_cont Z.pos_sub Pos.add Pos.sub Pos.pred_double Pos.sub_mask].
    change (get one_cell 0 0) with (fun i j : nat => get one_cell 0 0 i j). cbv beta.
    change (Z.to_nat 0) with 0%nat. change (get one_cell 0 0 0 0) with 1. rewrite Rmax_left; lra. }
  rewrite E. lra.
Qed.

Lemma logistic_0 : logistic 0 = 1 / 2.
Proof. unfold logistic. rewrite Ropp_0, exp_0. lra. Qed.

Lemma logistic_up a b : a < b -> logistic a < logistic b.
Proof.
  intros H. unfold logistic. unfold Rdiv. rewrite !Rmult_1_l. pose proof (exp_pos (- a)). pose proof (exp_pos (- b)).
  assert (exp (- b) < exp (- a)) by (apply exp_increasing; lra). apply Rinv_lt_contravar; nra.
Qed.

Theorem C105_training_mode_refuted : exists w k bs g m masks masks', w_model w = Some g /\ nth_error (w_objs w) g = Some m /\
  snd (obj_evaluate masks w k bs) = Ok 0 /\ exists v, snd (obj_evaluate masks' w k bs) = Ok v /\ v <> 0.
Proof.
  exists (two true (Some 0%nat)), 1%nat, [(one_cell, mkT 1 1 1 1 [1 + 1 / 2])], 0%nat, (mkPO (ex_pred 1) "a" true), (fun _ _ _ _ _ _ => false), (fun _ _ _ _ _ _ => true).
  split; [reflexivity|]. split; [reflexivity|].
  assert (G : forall masks, snd (obj_evaluate masks (two true (Some 0%nat)) 1 [(one_cell, mkT 1 1 1 1 [1 + 1 / 2])]) =
            Ok ((1 / 2 - logistic (drop_factor true (masks 0 0 0 0 0 0)%nat (1 / 10))) ^ 2)).
  { intros masks. unfold obj_evaluate. cbn [obj_eval_loop]. unfold call_model.
    assert (TM : the_model (set_mode 1 false (two true (Some 0%nat))) = Ok (0%nat, mkPO (ex_pred 1) "a" true)) by reflexivity.
    rewrite TM. cbn [po_train po_pred]. rewrite one_pass. unfold sq_error. rewrite tzip_same by reflexivity. cbn [snd fst]. f_equal.
    rewrite tsum_build. cbn [tB tC tH tW rsum Nat.add Nat.eqb]. rewrite !Rplus_0_l. cbn [INR]. unfold get. cbn. 
    f_equal. field. }
  split.
  - rewrite G. f_equal. replace (drop_factor true false (1 / 10)) with 0 by (unfold drop_factor; destruct (Req_EM_T (1 / 10) 1); reflexivity).
    rewrite logistic_0. ring.
  - eexists. split; [apply G|].
    assert (D : drop_factor true true (1 / 10) = 10 / 9) by (unfold drop_factor; destruct (Req_EM_T (1 / 10) 1); [exfalso; lra|field]).
    pose proof (logistic_up 0 (10 / 9) ltac:(lra)) as L. rewrite logistic_0 in L. apply pow_nonzero. intros Q. rewrite D in Q. lra.
Qed.

(** When the module is imported, nothing binds the name: evaluation and training of anything that has samples raise
    NameError, and no network and no file changes. *)
Theorem C105_unbound_evaluate : forall masks w k bs, w_model w = None ->
  obj_evaluate masks w k bs = (set_mode k false w, Err (match bs with [] => ZeroDivisionError | _ => NameError end)).
Proof. exact evaluate_unbound. Qed.

Theorem C105_unbound_fit : forall Opt learn masks w k s n disp root train val o, w_model w = None ->
  nth_error (w_objs w) k = Some s -> pr_layers (po_pred s) <> [] -> train 0%nat <> [] ->
  obj_fit Opt learn masks (S n) disp root train val w k o = (set_mode k true w, Err NameError).
Proof.
  intros Opt learn masks w k s n disp root train val o Hm Hs Hl Ht. unfold obj_fit. rewrite Hs. destruct (pr_layers (po_pred s)) as [|l0 ll]; [congruence|].
  cbn [obj_fit_loop].
  assert (MM : set_mode k true (set_mode k true w) = set_mode k true w) by (unfold set_mode; cbn [w_objs w_model w_files w_drawn]; rewrite set_nth_twice; reflexivity).
  rewrite MM, epoch_unbound by exact Hm. destruct (train 0%nat); [congruence|reflexivity].
Qed.

Example C105_unbound_case : obj_fit unit (fun o p _ _ => (o, p)) (fun _ _ _ _ _ _ => true) 5 None [] (fun _ => [(one_cell, one_cell)]) None (two false None) 0 tt
  = (two true None, Err NameError).
Proof. rewrite (C105_unbound_fit _ _ _ _ _ (mkPO (ex_pred 1) "a" false)); (reflexivity || discriminate). Qed.

(** Training the object that [model] names is the training of C75: the same files and outcome; its masks are the
    next ones. *)
Theorem C105_own_fit : forall Opt learn masks w k s E disp root train val o,
  (forall o p keep q, pr_repeats (snd (learn o p keep q)) = pr_repeats p) ->
  w_model w = Some k -> nth_error (w_objs w) k = Some s -> (0 < pr_repeats (po_pred s))%nat ->
  let r := fit Opt learn (fun j => masks (w_drawn w + j)%nat) E disp root (po_tag s) train val o (po_pred s) (w_files w) in
  let r' := obj_fit Opt learn masks E disp root train val w k o in
  w_files (fst r') = fst r /\
  snd r' = match snd r with Ok st => Ok (ft_opt Opt st, ft_prog Opt st) | Err e => Err e end /\
  forall st, snd r = Ok st -> exists b, w_objs (fst r') = set_nth k (fun _ => mkPO (ft_pred Opt st) (po_tag s) b) (w_objs w).
Proof. intros Opt learn masks w k s E disp root train val o KR H1 H2 Hr. apply fit_own; [exact KR|apply the_model_ok; auto|exact Hr]. Qed.

(** It raises on good data, but the network keeps what the first epoch taught it. *)
Theorem C105_own_learns : forall Opt learn masks r hid out n disp root train val w k s o,
  (forall o p keep q, pr_repeats (snd (learn o p keep q)) = pr_repeats p) ->
  (forall o p kp q, pred_wf r hid out p -> pred_wf r hid out (snd (learn o p kp q))) ->
  w_model w = Some k -> nth_error (w_objs w) k = Some s -> pred_wf r hid out (po_pred s) -> (0 < pr_repeats (po_pred s))%nat ->
  tree (w_files w) -> (0 < out)%nat -> disp <> Some 0%nat ->
  Forall (good_batch out) (train 0%nat) -> Forall (fun q => (0 < tB (fst q))%nat) (train 0%nat) ->
  Forall (good_batch out) val -> list_sum (map (fun q => tB (snd q)) val) <> 0%nat ->
  w_files w (root ++ ["logs"%string])%list = Some NDir -> w_files w (root ++ ["logs"; po_tag s ++ ".npy"]%string)%list <> Some NDir ->
  exists ls o' p' v, training Opt learn (fun j => masks (w_drawn w + j)%nat) 0 o (po_pred s) (train 0%nat) ls o' p' /\ evaluate_on p' val = Ok v /\
    obj_fit Opt learn masks (S n) disp root train (Some val) w k o =
    (mkPW (set_nth k (fun _ => mkPO p' (po_tag s) false) (w_objs w)) (w_model w)
       (put (w_files w) (root ++ ["logs"; po_tag s ++ ".npy"]%string)%list (NProgress (mkProg (map (ewma ls) (seq 0 (List.length ls))) [0%nat] [v])))
       (w_drawn w + List.length (train 0%nat)), Err RuntimeError).
Proof.
  intros Opt learn masks r hid out n disp root train val w k s o KR Hl H1 H2. apply fit_own_outcome; [exact KR|exact Hl|apply the_model_ok; auto].
Qed.

(** An optimizer that sets the dropout probability to 1/2. *)
Example C105_own_learns_case : exists v u,
  obj_fit unit (fun o p _ _ => (o, mkPred (pr_repeats p) (pr_layers p) (1 / 2))) (fun _ _ _ _ _ _ => true) 3 None [] (fun _ => [(one_cell, one_cell)])
    (Some [(one_cell, one_cell)]) (two false (Some 0%nat)) 0 tt =
  (mkPW [mkPO (mkPred 1 (pr_layers (ex_pred 1)) (1 / 2)) "a" false; mkPO (init_predictor ones 3 0 1 1 (1 / 2)) "b" true] (Some 0%nat)
     (put ex_files ["logs"; "a.npy"]%string (NProgress (mkProg [v] [0%nat] [u]))) 1, Err RuntimeError).
Proof.
  assert (GB : good_batch 1 (one_cell, one_cell)) by (unfold good_batch; cbn; repeat split; try reflexivity; lia).
  destruct (C105_own_learns unit (fun o p _ _ => (o, mkPred (pr_repeats p) (pr_layers p) (1 / 2))) (fun _ _ _ _ _ _ => true) 1 1 1 2 None [] (fun _ => [(one_cell, one_cell)])
    [(one_cell, one_cell)] (two false (Some 0%nat)) 0 (mkPO (ex_pred 1) "a" false) tt)
    as (ls & o' & p' & v & TR & EV & E); try (repeat constructor; fail); auto; try discriminate.
  - intros o p kp q [_ H]. split; [cbn; lra|exact H].
  - apply ex_pred_wf.
  - apply ex_files_tree.
  - inversion TR as [|? ? ? ? ? z ? ls' ? ? _ _ TR']; subst. inversion TR'; subst. eexists _, v. rewrite E. reflexivity.
Qed.

(** Training any other object teaches nothing to anyone: its optimizer holds its own parameters, and the gradients
    are those of the model. *)
Theorem C105_other_fit : forall Opt learn masks w k g E disp root train val o, w_model w = Some g -> g <> k ->
  same_nets k w (fst (obj_fit Opt learn masks E disp root train val w k o)).
Proof. exact fit_other. Qed.

(** Its progress file shows the losses of the other object, none of which has been minimised. *)
Theorem C105_other_outcome : forall Opt learn masks r hid out n disp root train val w k s g m o,
  w_model w = Some g -> nth_error (w_objs w) g = Some m -> g <> k -> po_train m = false -> nth_error (w_objs w) k = Some s -> pr_layers (po_pred s) <> [] ->
  pred_wf r hid out (po_pred m) -> (0 < pr_repeats (po_pred m))%nat -> tree (w_files w) -> (0 < out)%nat -> disp <> Some 0%nat ->
  Forall (good_batch out) (train 0%nat) -> Forall (fun q => (0 < tB (fst q))%nat) (train 0%nat) ->
  Forall (good_batch out) val -> list_sum (map (fun q => tB (snd q)) val) <> 0%nat ->
  w_files w (root ++ ["logs"%string])%list = Some NDir -> w_files w (root ++ ["logs"; po_tag s ++ ".npy"]%string)%list <> Some NDir ->
  exists ls v, fixed_losses (po_pred m) (train 0%nat) ls /\ evaluate_on (po_pred m) val = Ok v /\
    obj_fit Opt learn masks (S n) disp root train (Some val) w k o =
    (set_files (put (w_files w) (root ++ ["logs"; po_tag s ++ ".npy"]%string)%list (NProgress (mkProg (map (ewma ls) (seq 0 (List.length ls))) [0%nat] [v])))
       (set_mode k false w), Err RuntimeError).
Proof.
  intros Opt learn masks r hid out n disp root train val w k s g m o H1 H2. apply fit_other_outcome. apply the_model_ok. auto.
Qed.

Example C105_other_outcome_case : exists v u,
  obj_fit unit (fun o p _ _ => (o, ex_pred 7)) (fun _ _ _ _ _ _ => true) 3 None [] (fun _ => [(one_cell, one_cell)]) (Some [(one_cell, one_cell)]) (two false (Some 0%nat)) 1 tt =
  (mkPW [mkPO (ex_pred 1) "a" false; mkPO (init_predictor ones 3 0 1 1 (1 / 2)) "b" false] (Some 0%nat)
     (put ex_files ["logs"; "b.npy"]%string (NProgress (mkProg [v] [0%nat] [u]))) 0, Err RuntimeError).
Proof.
  assert (GB : good_batch 1 (one_cell, one_cell)) by (unfold good_batch; cbn; repeat split; try reflexivity; lia).
  destruct (C105_other_outcome unit (fun o p _ _ => (o, ex_pred 7)) (fun _ _ _ _ _ _ => true) 1 1 1 2 None [] (fun _ => [(one_cell, one_cell)])
    [(one_cell, one_cell)] (two false (Some 0%nat)) 1 (mkPO (init_predictor ones 3 0 1 1 (1 / 2)) "b" true) 0 (mkPO (ex_pred 1) "a" false) tt)
    as (ls & v & FL & EV & E); try (repeat constructor; fail); auto; try discriminate.
  - apply ex_pred_wf.
  - apply ex_files_tree.
  - inversion FL as [|q l0 ? ls' _ FL']; subst. inversion FL'; subst. exists (ewma [l0] 0), v. rewrite E. reflexivity.
Qed.

(** ** C106: batches, the final evaluation and the script *)

(** How the samples are ordered and cut into batches does not matter: the loss is the mean over the samples. *)
Theorem C106_batches : forall r hid out p x y bs, pred_wf r hid out p -> good_data out x y ->
  Permutation (List.concat bs) (seq 0 (tB x)) -> (0 < tB x)%nat ->
  evaluate_on p (map (fun l => (rows x l, rows y l)) bs) = Ok (sq_dist y (forecast r hid p x) / INR (tB x)).
Proof.
  intros r hid out p x y bs Hp Hd P HN.
  assert (F : Forall (fun k => (k < tB x)%nat) (List.concat bs)).
  { apply (perm_below (seq 0 (tB x))); [apply Permutation_sym; exact P|]. apply Forall_forall. intros k Hk. apply in_seq in Hk. lia. }
  rewrite (evaluate_batches r hid out p x y bs Hp Hd).
  - f_equal. rewrite (mean_error_perm _ _ _ _ P). apply mean_error_all. destruct Hd as (_ & _ & S & _). unfold shape in S. congruence.
  - apply Forall_forall. intros l Hl. apply Forall_forall. intros k Hk. rewrite Forall_forall in F. apply F. apply in_concat. exists l. auto.
  - intros Z. rewrite Z in P. apply Permutation_nil in P. destruct (tB x); [lia|discriminate].
Qed.

(** Predicting commutes with picking samples. *)
Theorem C106_samplewise : forall r hid out p x idx, pred_wf r hid out p -> twf x -> tC x = out -> (0 < tH x)%nat -> (0 < tW x)%nat ->
  Forall (fun k => (k < tB x)%nat) idx ->
  exists z, predict false no_keep p x = Ok z /\ predict false no_keep p (rows x idx) = Ok (rows z idx).
Proof.
  intros r hid out p x idx Hp Tx Ec H0 W0 F. exists (forecast r hid p x). split; [apply (predict_forecast r hid out); assumption|].
  rewrite <- forecast_rows by exact F. apply (predict_forecast r hid out); try assumption. apply rows_wf.
Qed.

(** Three samples of one cell in two batches and in another order. *)
Definition cells3 : tensor := mkT 3 1 1 1 [1; 2; 3].
Example C106_batches_case : evaluate_on (ex_pred 1) [(mkT 2 1 1 1 [3; 1], mkT 2 1 1 1 [3; 1]); (mkT 1 1 1 1 [2], mkT 1 1 1 1 [2])] =
  Ok (sq_dist cells3 (forecast 1 1 (ex_pred 1) cells3) / 3).
Proof.
  assert (E : evaluate_on (ex_pred 1) (map (fun l => (rows cells3 l, rows cells3 l)) [[2; 0]; [1]]%nat) =
              Ok (sq_dist cells3 (forecast 1 1 (ex_pred 1) cells3) / INR (tB cells3))).
  { apply (C106_batches 1 1 1); [apply ex_pred_wf| | |cbn; lia].
    - unfold good_data. cbn. repeat split; lia.
    - cbn [List.concat app seq cells3 tB]. apply perm_trans with [0; 2; 1]%nat; [apply perm_swap|]. apply perm_skip. apply perm_swap. }
  change (map _ _) with [(mkT 2 1 1 1 [3; 1], mkT 2 1 1 1 [3; 1]); (mkT 1 1 1 1 [2], mkT 1 1 1 1 [2])] in E. rewrite E. f_equal. f_equal. cbn. lra.
Qed.

(** The final evaluation writes its three lines if and only if all three losses can be computed and the file can be
    written; the losses are those of the object that [model] names, the file name is its own. *)
Theorem C106_end_evaluate : forall masks show root w k s tr va te, w_model w = Some k -> nth_error (w_objs w) k = Some s ->
  end_evaluate masks show root w k tr va te =
  match (let* a := evaluate_on (po_pred s) tr in let* b := evaluate_on (po_pred s) va in let* c := evaluate_on (po_pred s) te in
         write_text (w_files w) (root ++ ["logs"; po_tag s ++ "_final.txt"]%string)%list (end_msg show (po_tag s) a b c)) with
  | Ok f => (set_files f (set_mode k false w), Ok tt)
  | Err e => (set_mode k false w, Err e)
  end.
Proof. intros masks show root w k s tr va te H1 H2. apply end_evaluate_own. apply the_model_ok. auto. Qed.

Theorem C106_end_evaluate_other : forall masks show root w k s g m tr va te, w_model w = Some g -> nth_error (w_objs w) g = Some m ->
  g <> k -> po_train m = false -> nth_error (w_objs w) k = Some s ->
  end_evaluate masks show root w k tr va te =
  match (let* a := evaluate_on (po_pred m) tr in let* b := evaluate_on (po_pred m) va in let* c := evaluate_on (po_pred m) te in
         write_text (w_files w) (root ++ ["logs"; po_tag s ++ "_final.txt"]%string)%list (end_msg show (po_tag s) a b c)) with
  | Ok f => (set_files f (set_mode k false w), Ok tt)
  | Err e => (set_mode k false w, Err e)
  end.
Proof. intros masks show root w k s g m tr va te H1 H2. apply end_evaluate_other. apply the_model_ok. auto. Qed.

(** With at least one epoch the script raises in its first run, and it writes no report: nothing changes but perhaps
    the progress file of that run. *)
Theorem C106_epochs : forall Opt learn masks show s root f,
  (forall o p keep q, pr_repeats (snd (learn o p keep q)) = pr_repeats p) ->
  su_epochs Opt s <> 0%nat -> tree f -> su_seeds Opt s <> [] ->
  (exists e, snd (script Opt learn masks show s root f) = Err e) /\
  (forall p, (forall seed, p <> root ++ ["logs"; po_tag (script_object Opt s 0 seed 1) ++ ".npy"]%string)%list ->
     w_files (fst (script Opt learn masks show s root f)) p = f p) /\
  (forall tag, w_files (fst (script Opt learn masks show s root f)) (root ++ ["logs"; tag ++ "_final.txt"]%string)%list =
     f (root ++ ["logs"; tag ++ "_final.txt"]%string)%list).
Proof.
  intros Opt learn masks show s root f KR HE Ht HS. destruct (script_epochs Opt learn masks show s root f KR HE Ht HS) as (e & E & F).
  split; [exists e; exact E|]. split; [exact F|]. intros tag. apply F. intros seed Q.
  apply (run_tag_path (progress_path root (po_tag (script_object Opt s 0 seed 1))) (final_path root tag) root _ _ eq_refl eq_refl). symmetry. exact Q.
Qed.

(** Without epochs it evaluates untrained networks: for different seeds it writes three reports per seed, each with
    the mean errors over the training, validation and test samples, and nothing else. *)
Theorem C106_no_epochs : forall Opt learn masks show s root x y x' y', su_epochs Opt s = 0%nat ->
  su_load Opt s (su_in Opt s) = Some x -> su_load Opt s (su_tgt Opt s) = Some y ->
  su_load Opt s (test_file (su_in Opt s)) = Some x' -> su_load Opt s (test_file (su_tgt Opt s)) = Some y' ->
  good_data 1 x y -> good_data 1 x' y' -> (forall i j l, Permutation l (su_shuffle Opt s i j l)) ->
  (10 <= tB x)%nat -> (0 < tB x')%nat -> NoDup (su_seeds Opt s) ->
  let tag := fun i seed rep => po_tag (script_object Opt s i seed rep) in
  let grid := flat_map (fun seed => [(seed, 1%nat); (seed, 2%nat); (seed, 4%nat)]) (su_seeds Opt s) in
  let cut := (tB x / 10)%nat in
  forall f, f (root ++ ["logs"%string])%list = Some NDir ->
  (forall i seed rep, f (root ++ ["logs"; tag i seed rep ++ "_final.txt"]%string)%list <> Some NDir) ->
  snd (script Opt learn masks show s root f) = Ok tt /\
  List.length (w_objs (fst (script Opt learn masks show s root f))) = (3 * List.length (su_seeds Opt s))%nat /\
  (forall q, (forall k seed rep, nth_error grid k = Some (seed, rep) -> q <> root ++ ["logs"; tag k seed rep ++ "_final.txt"]%string)%list ->
     w_files (fst (script Opt learn masks show s root f)) q = f q) /\
  (forall k seed rep, nth_error grid k = Some (seed, rep) ->
     let p := init_predictor (su_draws Opt s seed) rep 31 8 1 (1 / 10) in
     w_files (fst (script Opt learn masks show s root f)) (root ++ ["logs"; tag k seed rep ++ "_final.txt"]%string)%list =
     Some (NText (end_msg show (tag k seed rep) (mean_error (forecast 31 8 p x) y (seq cut (tB x - cut)))
       (mean_error (forecast 31 8 p x) y (seq 0 cut)) (mean_error (forecast 31 8 p x') y' (seq 0 (tB x')))))) /\
  (forall k k' seed rep seed' rep', k <> k' -> nth_error grid k = Some (seed, rep) -> nth_error grid k' = Some (seed', rep') ->
     tag k seed rep <> tag k' seed' rep').
Proof.
  intros Opt learn masks show s root x y x' y' HE Hx Hy Hx' Hy' Hd Hd' HP H10 Hte ND. cbn zeta. intros f Hlogs Hdir.
  destruct (script_zero Opt learn masks show s root x y x' y' HE Hx Hy Hx' Hy' Hd Hd' HP ltac:(lia) f H10 Hte ND Hlogs Hdir) as (I1 & I2 & I3 & I4).
  split; [exact I1|]. split; [exact I2|]. split; [exact I3|]. split; [exact I4|].
  intros k k' seed rep seed' rep' N E1 E2. apply (tags_differ Opt s (su_seeds Opt s) k k' seed rep seed' rep' ND N E1 E2).
Qed.

(** With fewer than ten samples there is no validation sample, and the script raises ZeroDivisionError at once. *)
Theorem C106_few_samples : forall Opt learn masks show s root x y x' y' f, su_epochs Opt s = 0%nat ->
  su_load Opt s (su_in Opt s) = Some x -> su_load Opt s (su_tgt Opt s) = Some y ->
  su_load Opt s (test_file (su_in Opt s)) = Some x' -> su_load Opt s (test_file (su_tgt Opt s)) = Some y' ->
  good_data 1 x y -> good_data 1 x' y' -> (forall i j l, Permutation l (su_shuffle Opt s i j l)) ->
  (0 < tB x < 10)%nat -> su_seeds Opt s <> [] ->
  snd (script Opt learn masks show s root f) = Err ZeroDivisionError /\ w_files (fst (script Opt learn masks show s root f)) = f.
Proof.
  intros Opt learn masks show s root x y x' y' f HE Hx Hy Hx' Hy' Hd Hd' HP HN HS.
  apply (script_few Opt learn masks show s root x y x' y'); try assumption; lia.
Qed.

(** Ten one-cell samples and one seed: the default files, which are their own test files. *)
Definition tens (n : nat) : tensor := build n 1 1 1 (fun b _ _ _ => INR b).
Definition ex_setup (n : nat) : setup unit :=
  mkSetup unit (fun name => if string_dec name default_inputs then Some (tens n) else if string_dec name default_targets then Some (tens n) else None)
    default_inputs default_targets 0 [13%N] (fun _ => ones) (fun i => (1700000000000 + N.of_nat i)%N) (fun _ _ l => rev l) tt.

Example script_tag_case : script_tag default_inputs = "geminium"%string.
Proof. vm_compute. reflexivity. Qed.

Example C106_cases : forall learn masks show,
  snd (script unit learn masks show (ex_setup 9) [] ex_files) = Err ZeroDivisionError.
Proof.
  intros learn masks show.
  assert (T1 : test_file default_inputs = default_inputs) by (vm_compute; reflexivity).
  assert (T2 : test_file default_targets = default_targets) by (vm_compute; reflexivity).
  apply (C106_few_samples unit learn masks show (ex_setup 9) [] (tens 9) (tens 9) (tens 9) (tens 9) ex_files); cbn [ex_setup su_epochs su_load su_in su_tgt su_seeds su_shuffle]; rewrite ?T1, ?T2; try reflexivity; try discriminate.
  - unfold good_data. cbn. repeat split; lia.
  - unfold good_data. cbn. repeat split; lia.
  - intros. apply Permutation_rev.
  - cbn. lia.
Qed.

Example C106_no_epochs_case : forall learn masks show,
  snd (script unit learn masks show (ex_setup 10) [] ex_files) = Ok tt.
Proof.
  intros learn masks show.
  assert (T1 : test_file default_inputs = default_inputs) by (vm_compute; reflexivity).
  assert (T2 : test_file default_targets = default_targets) by (vm_compute; reflexivity).
  destruct (C106_no_epochs unit learn masks show (ex_setup 10) [] (tens 10) (tens 10) (tens 10) (tens 10)) with (f := ex_files) as (I & _);
    cbn [ex_setup su_epochs su_load su_in su_tgt su_seeds su_shuffle]; rewrite ?T1, ?T2; try reflexivity; try discriminate; try exact I.
  - unfold good_data. cbn. repeat split; lia.
  - unfold good_data. cbn. repeat split; lia.
  - intros. apply Permutation_rev.
  - cbn. lia.
  - repeat constructor. intros [].
Qed.

(** A network without layers has nothing to optimise; without validation samples the first validation raises. *)
Theorem C105_no_layers : forall Opt learn masks w k s E disp root train val o, nth_error (w_objs w) k = Some s -> pr_layers (po_pred s) = [] ->
  obj_fit Opt learn masks E disp root train val w k o = (set_mode k true w, Err ValueError).
Proof. intros Opt learn masks w k s E disp root train val o Hs Hl. unfold obj_fit. rewrite Hs, Hl. reflexivity. Qed.

Theorem C105_no_validation : forall Opt learn masks w k s n disp root train o, nth_error (w_objs w) k = Some s -> pr_layers (po_pred s) <> [] -> train 0%nat = [] -> disp <> Some 0%nat ->
  obj_fit Opt learn masks (S n) disp root train None w k o = (set_mode k false w, Err TypeError).
Proof.
  intros Opt learn masks w k s n disp root train o Hs Hl Ht Hd. unfold obj_fit. rewrite Hs. destruct (pr_layers (po_pred s)) as [|l0 ll]; [congruence|].
  cbn [obj_fit_loop]. rewrite Ht. cbn [obj_epoch].
  assert (D : Nat.eqb (match disp with Some d => d | None => Nat.max 1 (S n / 10) end) 0 = false) by (apply Nat.eqb_neq; destruct disp as [d|]; [congruence|lia]). rewrite D.
  apply Nat.eqb_neq in D. rewrite Nat.mod_0_l by exact D. cbn [Nat.eqb orb obj_validate].
  unfold set_mode; cbn [w_objs w_model w_files w_drawn]. rewrite !set_nth_twice. reflexivity.
Qed.

Example C105_no_layers_case : pr_layers (po_pred (mkPO (mkPred 0 [] 0) "a"%string false)) = [] /\
  obj_fit unit (fun o p _ _ => (o, p)) (fun _ _ _ _ _ _ => true) 5 None [] (fun _ => []) None (two false None) 0 tt = (two false None, Err TypeError).
Proof. split; [reflexivity|]. rewrite (C105_no_validation _ _ _ _ _ (mkPO (ex_pred 1) "a" false)); (reflexivity || discriminate). Qed.

(** Its networks: radius 31, eight hidden channels, one channel, dropout 0.1. *)
Theorem C106_object : forall Opt s i seed rep, let o := script_object Opt s i seed rep in
  pred_wf 31 8 1 (po_pred o) /\ pr_repeats (po_pred o) = rep /\ pr_dropout (po_pred o) = 1 / 10 /\ po_train o = true /\
  exists rest, po_tag o = (script_tag (su_in Opt s) ++ "_l_" ++ dec (N.of_nat rep) ++ "_kr_31_hid8_seed" ++ dec seed ++ rest)%string.
Proof.
  intros Opt s i seed rep. cbn [script_object po_pred po_train po_tag]. split; [apply init_pred_wf; try lia; lra|]. repeat (split; [reflexivity|]).
  exists ("_" ++ fingerprint (su_time Opt s i))%string. unfold exp_tag. change (dec 31) with "31"%string. change (dec 8) with "8"%string. reflexivity.
Qed.

(** The tag is the first eight characters of the file's stem, or all of them. *)
Lemma split_lacks c s : ~ In c (list_ascii_of_string s) -> split c s = [s].
Proof.
  induction s as [|a t IH]; intros H; [reflexivity|]. cbn [split list_ascii_of_string] in *. destruct (Ascii.eqb_spec a c) as [->|N]; [exfalso; apply H; left; reflexivity|].
  rewrite IH by (intros X; apply H; right; exact X). reflexivity.
Qed.

Lemma split_nonempty c s : split c s <> [].
Proof. destruct s as [|a t]; cbn [split]; [discriminate|]. destruct (Ascii.eqb a c); [discriminate|]. destruct (split c t); discriminate. Qed.

Lemma split_last c d s : ~ In c (list_ascii_of_string s) -> last (split c (d ++ String c s)) ""%string = s.
Proof.
  intros H. induction d as [|a t IH]; cbn [append split].
  - rewrite Ascii.eqb_refl, (split_lacks c s H). reflexivity.
  - pose proof (split_nonempty c (t ++ String c s)) as N. destruct (Ascii.eqb a c).
    + destruct (split c (t ++ String c s)) eqn:E; [congruence|]. cbn [last] in *. exact IH.
    + destruct (split c (t ++ String c s)) as [|p [|q r]] eqn:E; [congruence| |exact IH].
      exfalso. apply (f_equal (@List.length string)) in E. cbn in E. revert E. clear. intros E.
      assert (G : forall t, (2 <= List.length (split c (t ++ String c s)))%nat).
      { clear. induction t as [|b t IH]; cbn [append split]; [rewrite Ascii.eqb_refl; cbn; pose proof (split_nonempty c s); destruct (split c s); [congruence|cbn; lia]|].
        destruct (Ascii.eqb b c); [cbn; lia|]. destruct (split c (t ++ String c s)) as [|p r]; cbn in *; lia. }
      specialize (G t). lia.
Qed.

Lemma substring_cut n s : exists rest, s = (substring 0 n s ++ rest)%string /\ (String.length (substring 0 n s) = n \/ rest = ""%string /\ (String.length s < n)%nat).
Proof.
  revert s. induction n as [|n IH]; intros s.
  - exists s. destruct s; (split; [reflexivity|left; reflexivity]).
  - destruct s as [|a s]; [exists ""%string; split; [reflexivity|right; split; [reflexivity|cbn; lia]]|]. destruct (IH s) as (rest & E & L). exists rest. cbn [substring append String.length].
    split; [f_equal; exact E|]. destruct L as [L|[L1 L2]]; [left; lia|right; split; [exact L1|lia]].
Qed.

Theorem C106_tag : forall dir name, ~ In "/"%char (list_ascii_of_string name) -> let tag := script_tag (dir ++ "/" ++ name) in
  exists rest, stem name = (tag ++ rest)%string /\ (String.length tag = 8%nat \/ rest = ""%string /\ (String.length (stem name) < 8)%nat).
Proof. intros dir name H. cbv zeta. unfold script_tag. cbn [append]. rewrite split_last by exact H. apply substring_cut. Qed.

(** Missing files and unequal numbers of samples. *)
Theorem C106_missing : forall Opt learn masks show s root f, su_seeds Opt s <> [] -> su_load Opt s (su_in Opt s) = None \/ (su_load Opt s (su_in Opt s) <> None /\ su_load Opt s (su_tgt Opt s) = None) ->
  script Opt learn masks show s root f = (mkPW [] None f 0, Err FileNotFoundError).
Proof.
  intros Opt learn masks show s root f HS H. unfold script. destruct (su_seeds Opt s) as [|seed t]; [congruence|]. cbn [script_grid flat_map map app script_loop]. unfold script_run, load_tensor.
  destruct H as [-> |[A ->]]; [reflexivity|]. destruct (su_load Opt s (su_in Opt s)); [reflexivity|congruence].
Qed.

Theorem C106_unequal : forall Opt learn masks show s root f x y, su_seeds Opt s <> [] -> su_load Opt s (su_in Opt s) = Some x -> su_load Opt s (su_tgt Opt s) = Some y -> tB x <> tB y ->
  script Opt learn masks show s root f = (mkPW [] None f 0, Err AssertionError).
Proof.
  intros Opt learn masks show s root f x y HS Hx Hy N. unfold script. destruct (su_seeds Opt s) as [|seed t]; [congruence|]. cbn [script_grid flat_map map app script_loop]. unfold script_run, load_tensor.
  rewrite Hx, Hy. cbn [bind]. apply Nat.eqb_neq in N. rewrite N. reflexivity.
Qed.

Theorem C106_unequal_test : forall Opt learn masks show s root f x y x' y', su_seeds Opt s <> [] -> su_epochs Opt s = 0%nat ->
  su_load Opt s (su_in Opt s) = Some x -> su_load Opt s (su_tgt Opt s) = Some y -> tB x = tB y -> (0 < tB x)%nat ->
  su_load Opt s (test_file (su_in Opt s)) = Some x' -> su_load Opt s (test_file (su_tgt Opt s)) = Some y' -> tB x' <> tB y' ->
  snd (script Opt learn masks show s root f) = Err AssertionError /\ w_files (fst (script Opt learn masks show s root f)) = f.
Proof.
  intros Opt learn masks show s root f x y x' y' HS HE Hx Hy N P Hx' Hy' N'. unfold script. destruct (su_seeds Opt s) as [|seed t]; [congruence|]. cbn [script_grid flat_map map app script_loop]. unfold script_run, load_tensor.
  rewrite Hx, Hy, Hx', Hy', HE. cbn [bind]. apply Nat.eqb_eq in N. rewrite N. apply Nat.eqb_neq in N'. rewrite N'. destruct (Nat.eqb (tB x) 0) eqn:Z; [apply Nat.eqb_eq in Z; lia|]. cbn [negb guard bind].
  unfold obj_fit. cbn [w_objs List.length app nth_error]. cbn. split; reflexivity.
Qed.

Example C106_files_cases : forall learn masks show,
  snd (script unit learn masks show (mkSetup unit (fun _ => None) default_inputs default_targets 0 [13%N] (fun _ => ones) (fun _ => 0%N) (fun _ _ l => l) tt) [] ex_files) = Err FileNotFoundError /\
  snd (script unit learn masks show (mkSetup unit (fun n => if string_dec n default_inputs then Some (tens 10) else Some (tens 11)) default_inputs default_targets 0 [13%N] (fun _ => ones) (fun _ => 0%N) (fun _ _ l => l) tt) [] ex_files) = Err AssertionError.
Proof. intros. split; reflexivity. Qed.

Print Assumptions C105_own_evaluate.
Print Assumptions C105_other_evaluate.
Print Assumptions C105_evaluate_keeps.
Print Assumptions C105_training_mode_refuted.
Print Assumptions C105_unbound_evaluate.
Print Assumptions C105_unbound_fit.
Print Assumptions C105_own_fit.
Print Assumptions C105_own_learns.
Print Assumptions C105_other_fit.
Print Assumptions C105_other_outcome.
Print Assumptions C106_batches.
Print Assumptions C106_samplewise.
Print Assumptions C106_end_evaluate.
Print Assumptions C106_end_evaluate_other.
Print Assumptions C106_epochs.
Print Assumptions C106_no_epochs.
Print Assumptions C106_few_samples.
Print Assumptions C105_no_layers.
Print Assumptions C105_no_validation.
Print Assumptions C106_object.
Print Assumptions C106_tag.
Print Assumptions C106_missing.
Print Assumptions C106_unequal.
Print Assumptions C106_unequal_test.
