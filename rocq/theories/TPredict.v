(** Property theorems about the step predictor (C74 - C77). *)
From Coq Require Import Reals ZArith NArith Lra Lia List String Bool Arith.
From Verif Require Import Base Tensor MActivations MNca MText MWrap MPredict SGrid SCca SNca SText SPredict PTensor PKern PNca PText PPredict PPredictX PPredictY.
Import ListNotations.
Open Scope R_scope.

(** A predictor with two repetitions, radius 1, one hidden and one outer channel, weights 1
    and biases 0, and a universe of one cell with value 1. *)
Definition ones : draws := mkDraws (fun _ _ _ _ _ => 1) (fun _ _ => 0).
Definition ex_pred (n : nat) : predictor := init_predictor ones n 1 1 1 (1 / 10).
Definition one_cell : tensor := mkT 1 1 1 1 [1].

Lemma ex_pred_wf n : pred_wf 1 1 1 (ex_pred n).
Proof. apply init_pred_wf; try lia. lra. Qed.

(** ** C74: the forward pass *)

(** A new predictor is well formed, has two layers per repetition, and four registered
    parameters per repetition, under different names. *)
Theorem C74_init : forall d L r hid out dr, (0 < hid)%nat -> (0 < out)%nat -> 0 <= dr <= 1 ->
  pred_wf r hid out (init_predictor d L r hid out dr) /\
  List.length (pr_layers (init_predictor d L r hid out dr)) = (2 * L)%nat /\
  List.length (param_names L 0) = (4 * L)%nat /\ NoDup (param_names L 0).
Proof.
  intros. split; [apply init_pred_wf; assumption|]. split; [apply init_layers_length|].
  split; [apply param_names_length|apply param_names_nodup].
Qed.

(** The layers hold what was drawn for them: the window layer of repetition [k] the draws
    number [2k], its 1x1 layer the draws number [2k+1]. *)
Theorem C74_init_weights : forall d L r hid out dr k, (k < L)%nat -> exists la lb,
  nth_error (pr_layers (init_predictor d L r hid out dr)) (2 * k) = Some la /\
  nth_error (pr_layers (init_predictor d L r hid out dr)) (2 * k + 1) = Some lb /\
  (forall h c y x, (h < hid)%nat -> (c < out)%nat -> (y <= 2 * r)%nat -> (x <= 2 * r)%nat ->
     get (cl_w (bl_c la)) h c y x = dw_w d (2 * k) h c y x) /\
  (forall o h, (o < out)%nat -> (h < hid)%nat -> get (cl_w (bl_c lb)) o h 0 0 = dw_w d (2 * k + 1) o h 0 0) /\
  (forall h, (h < hid)%nat -> nth h (bl_b la) 0 = dw_b d (2 * k) h) /\
  (forall o, (o < out)%nat -> nth o (bl_b lb) 0 = dw_b d (2 * k + 1) o).
Proof.
  intros d L r hid out dr k Hk. destruct (init_layers_nth d r hid out L 0 k Hk) as [A B]. cbn [Nat.add] in A, B.
  eexists _, _. split; [exact A|]. split; [exact B|]. cbn [new_layer bl_c bl_b cl_w].
  split; [intros; apply get_build; lia|]. split; [intros; apply get_build; lia|]. split; intros; apply nth_map_seq; assumption.
Qed.

(** The output is that of half as many passes as there are repetitions (rounded up): pass [k]
    uses layers [2k] and [2k+1]; every pass adds to a cell the logistic function of a combination
    of rectified window sums, 0 being read outside of the universe. In training the hidden units
    carry dropout factors, in evaluation none. *)
Theorem C74_passes : forall r hid out tr keep p x, pred_wf r hid out p -> twf x -> tC x = out -> (0 < tH x)%nat -> (0 < tW x)%nat ->
  predict tr keep p x =
  Ok (passes (half_up (pr_repeats p)) 0 (pr_layers p) r hid (fun k b h i j => drop_factor tr (keep k b h i j) (pr_dropout p)) x).
Proof. exact predict_eq. Qed.

Example C74_passes_case : forall keep, predict false keep (ex_pred 2) one_cell = Ok (mkT 1 1 1 1 [1 + logistic 1]).
Proof.
  intros keep. rewrite (C74_passes 1 1 1) by (try apply ex_pred_wf; try reflexivity; cbn; lia). f_equal.
  change (half_up (pr_repeats (ex_pred 2))) with 1%nat. cbn [passes]. unfold pass. cbn [one_cell tB tC tH tW].
  apply tensor_ext; [apply twf_build|reflexivity|reflexivity|]. cbn [tB tC tH tW build]. intros b c i j Hb Hc Hi Hj.
  assert (b = 0 /\ c = 0 /\ i = 0 /\ j = 0)%nat as (-> & -> & -> & ->) by lia.
  match goal with |- get ?t 0 0 0 0 = _ => change t with (build 1 1 1 1 (fun b o i j : nat => get one_cell b o i j +
    pass_gain (nth (2 * 0) (pr_layers (ex_pred 2)) blank) (nth (2 * 0 + 1) (pr_layers (ex_pred 2)) blank) 1 1 (fun h => drop_factor false (keep (2 * 0) b h i j)%nat (pr_dropout (ex_pred 2))) one_cell b o i j)) end.
  rewrite get_build by lia. change (get one_cell 0 0 0 0) with 1. change (get (mkT 1 1 1 1 [1 + logistic 1]) 0 0 0 0) with (1 + logistic 1).
  f_equal. unfold pass_gain. f_equal. cbn [rsum]. unfold drop_factor.
  change (nth (2 * 0) (pr_layers (ex_pred 2)) blank) with (new_layer ones 0 1 1 3 1).
  change (nth (2 * 0 + 1) (pr_layers (ex_pred 2)) blank) with (new_layer ones 1 1 1 1 0).
  change (nth 0 (bl_b (new_layer ones 1 1 1 1 0)) 0) with 0.
  change (get (cl_w (bl_c (new_layer ones 1 1 1 1 0))) 0 0 0 0) with 1.
  assert (E : hidden_unit (new_layer ones 0 1 1 3 1) 1 one_cell 0 0 0 0 = 1).
  { unfold hidden_unit. change (nth 0 (bl_b (new_layer ones 0 1 1 3 1)) 0) with 0.
    change (tC one_cell) with 1%nat. change (tH one_cell) with 1%nat. change (tW one_cell) with 1%nat. change (2 * 1 + 1)%nat with 3%nat. cbn [rsum].
    assert (W : forall y z, (y < 3)%nat -> (z < 3)%nat -> get (cl_w (bl_c (new_layer ones 0 1 1 3 1))) 0 0 y z = 1).
    { intros y z Hy Hz. cbn [new_layer bl_c cl_w]. rewrite get_build by lia. reflexivity. }
    rewrite ?W by lia. unfold at0. cbn [Z.of_nat Z.add Z.sub Z.opp Z.leb Z.ltb Z.compare andb Pos.of_succ_nat Pos.succ Pos.compare Pos.compare_cont Z.pos_sub Pos.add Pos.sub Pos.pred_double Pos.sub_mask].
    change (get one_cell 0 0) with (fun i j : nat => get one_cell 0 0 i j). cbv beta.
    change (Z.to_nat 0) with 0%nat. change (get one_cell 0 0 0 0) with 1. rewrite Rmax_left; lra. }
  rewrite E. lra.
Qed.

(** Every cell rises, by less than the number of passes; the shape stays. *)
Theorem C74_rises : forall r hid out tr keep p x y, pred_wf r hid out p -> twf x -> tC x = out -> (0 < tH x)%nat -> (0 < tW x)%nat ->
  predict tr keep p x = Ok y -> shape y = shape x /\ twf y /\
  forall b c i j, (b < tB x)%nat -> (c < tC x)%nat -> (i < tH x)%nat -> (j < tW x)%nat ->
    (pr_repeats p = 0%nat -> get y b c i j = get x b c i j) /\
    (pr_repeats p <> 0%nat -> get x b c i j < get y b c i j < get x b c i j + INR (half_up (pr_repeats p))).
Proof. exact predict_rise. Qed.

(** The later half of the layers is never read. *)
Theorem C74_unused_layers : forall tr keep p q x, pr_repeats p = pr_repeats q -> pr_dropout p = pr_dropout q ->
  (forall k, (k < 2 * half_up (pr_repeats p))%nat -> nth_error (pr_layers p) k = nth_error (pr_layers q) k) ->
  predict tr keep p x = predict tr keep q x.
Proof. exact predict_prefix. Qed.

Example C74_unused_layers_case : exists p q, pr_layers p <> pr_layers q /\ pred_wf 1 1 1 p /\ pred_wf 1 1 1 q /\
  forall tr keep x, predict tr keep p x = predict tr keep q x.
Proof.
  exists (ex_pred 2), (mkPred 2 (firstn 2 (pr_layers (ex_pred 2)) ++ skipn 2 (pr_layers (init_predictor (mkDraws (fun _ _ _ _ _ => 2) (fun _ _ => 0)) 2 1 1 1 (1 / 10)))) (1 / 10)).
  split; [|split; [apply ex_pred_wf|split]].
  - intros E. apply (f_equal (fun l => get (cl_w (bl_c (nth 2 l blank))) 0 0 0 0)) in E. cbn in E. lra.
  - split; [cbn [pr_dropout]; lra|]. cbn [pr_repeats pr_layers]. intros k Hk. assert (k = 0 \/ k = 1)%nat as [-> | ->] by lia.
    + destruct (ex_pred_wf 2) as [_ H]. exact (H 0%nat ltac:(cbn; lia)).
    + destruct (init_pred_wf (mkDraws (fun _ _ _ _ _ => 2) (fun _ _ => 0)) 2 1 1 1 (1 / 10) ltac:(lia) ltac:(lia) ltac:(lra)) as [_ H]. exact (H 1%nat ltac:(cbn; lia)).
  - intros tr keep x. apply C74_unused_layers; try reflexivity. cbn [ex_pred init_predictor pr_repeats]. intros k Hk.
    change (half_up 2) with 1%nat in Hk. assert (k = 0 \/ k = 1)%nat as [-> | ->] by lia; reflexivity.
Qed.

(** From the same draws, an even number of repetitions gives the same function as one less. *)
Theorem C74_even_repeats : forall d r hid out dr m tr keep x,
  predict tr keep (init_predictor d (2 * m + 2) r hid out dr) x = predict tr keep (init_predictor d (2 * m + 1) r hid out dr) x.
Proof. exact even_repeats_add_nothing. Qed.

(** Universes with another number of channels, probabilities outside of [0, 1] and missing
    layers are refused. *)
Theorem C74_refusals : forall r hid out tr keep p x,
  (pred_wf r hid out p -> pr_repeats p <> 0%nat -> tC x <> out -> predict tr keep p x = Err RuntimeError) /\
  (forall la, pr_repeats p <> 0%nat -> ~ (0 <= pr_dropout p <= 1) -> nth_error (pr_layers p) 0 = Some la -> window_layer r hid out la ->
     tC x = out -> (0 < tH x)%nat -> (0 < tW x)%nat -> predict tr keep p x = Err ValueError) /\
  (forall la, pr_repeats p <> 0%nat -> 0 <= pr_dropout p <= 1 ->
     pr_layers p = [] \/ pr_layers p = [la] /\ window_layer r hid out la /\ tC x = out /\ (0 < tH x)%nat /\ (0 < tW x)%nat ->
     predict tr keep p x = Err IndexError).
Proof.
  intros r hid out tr keep p x. split; [apply predict_bad_channels|]. split.
  - intros la. apply predict_bad_dropout.
  - intros la. apply predict_missing_layer.
Qed.

(** ** C75: training *)

(** With at least one epoch, fit never returns: at the latest it fails when it saves the model
    below the progress file, which it has just written as an ordinary file. *)
Theorem C75_fit_fails : forall Opt learn masks n disp root tag train val o p f, tree f ->
  exists e, snd (fit Opt learn masks (S n) disp root tag train val o p f) = Err e.
Proof. exact fit_fails. Qed.

(** All it leaves behind is the progress file of epoch 0, if anything. *)
Theorem C75_fit_files : forall Opt learn masks n disp root tag train val o p f, tree f ->
  fst (fit Opt learn masks (S n) disp root tag train val o p f) = f \/
  exists g, pg_epochs g = [0%nat] /\ List.length (pg_val g) = 1%nat /\
    fst (fit Opt learn masks (S n) disp root tag train val o p f) = put f (root ++ ["logs"; tag ++ ".npy"]%string)%list (NProgress g).
Proof. exact fit_files. Qed.

(** On data of the right kind, with a directory for the logs, the progress file holds the
    exponentially weighted averages of the losses of the first epoch and one validation loss. *)
Theorem C75_fit_outcome : forall Opt learn masks r hid out n disp root tag train val o p f,
  (forall o p k q, pred_wf r hid out p -> pred_wf r hid out (snd (learn o p k q))) ->
  pred_wf r hid out p -> (0 < pr_repeats p)%nat -> tree f -> (0 < out)%nat -> disp <> Some 0%nat ->
  Forall (good_batch out) (train 0%nat) -> Forall (fun q => (0 < tB (fst q))%nat) (train 0%nat) ->
  Forall (good_batch out) val -> list_sum (map (fun q => tB (snd q)) val) <> 0%nat ->
  f (root ++ ["logs"%string])%list = Some NDir -> f (root ++ ["logs"; tag ++ ".npy"]%string)%list <> Some NDir ->
  exists ls o' p' v, training Opt learn masks 0 o p (train 0%nat) ls o' p' /\ evaluate_on p' val = Ok v /\
    List.length ls = List.length (train 0%nat) /\
    fit Opt learn masks (S n) disp root tag train (Some val) o p f =
    (put f (root ++ ["logs"; tag ++ ".npy"]%string)%list (NProgress (mkProg (map (ewma ls) (seq 0 (List.length ls))) [0%nat] [v])), Err RuntimeError).
Proof. exact fit_outcome. Qed.

Definition ex_files : files := fun p => match p with [] => Some NDir | ["logs"%string] => Some NDir | _ => None end.

Lemma ex_files_tree : tree ex_files.
Proof.
  intros p c H. destruct p as [|a [|b p]]; [reflexivity| |].
  - exfalso. apply H. cbn [app ex_files]. destruct a as [|x a]; [reflexivity|]. 
    unfold ex_files. destruct x as [[] [] [] [] [] [] [] []]; try reflexivity.
    repeat (match goal with |- context [match ?t with _ => _ end] => destruct t; try reflexivity end).
  - exfalso. apply H. cbn [app]. unfold ex_files. destruct a as [|x a]; [reflexivity|].
    destruct x as [[] [] [] [] [] [] [] []]; try reflexivity.
    repeat (match goal with |- context [match ?t with _ => _ end] => destruct t; try reflexivity end).
Qed.

Example C75_fit_case : exists v w, 
  fit unit (fun o p _ _ => (o, p)) (fun _ _ _ _ _ _ => true) 3 None [] "run" (fun _ => [(one_cell, one_cell)]) (Some [(one_cell, one_cell)]) tt (ex_pred 1) ex_files =
  (put ex_files ["logs"; "run.npy"]%string (NProgress (mkProg [v] [0%nat] [w])), Err RuntimeError).
Proof.
  assert (GB : good_batch 1 (one_cell, one_cell)) by (unfold good_batch; cbn; repeat split; try reflexivity; lia).
  destruct (C75_fit_outcome unit (fun o p _ _ => (o, p)) (fun _ _ _ _ _ _ => true) 1 1 1 2 None [] "run"%string (fun _ => [(one_cell, one_cell)])
    [(one_cell, one_cell)] tt (ex_pred 1) ex_files) as (ls & o' & p' & v & TR & EV & EL & E); try (repeat constructor; fail); auto.
  - apply ex_pred_wf.
  - apply ex_files_tree.
  - discriminate.
  - cbn. lia.
  - discriminate.
  - destruct ls as [|x [|y ls]]; try discriminate. eexists _, v. rewrite E. reflexivity.
Qed.

(** Validation needs a loader with samples, and the display interval must not be 0. *)
Theorem C75_no_validation : forall Opt learn masks n disp root tag train o p f s1, tree f -> pr_layers p <> [] -> disp <> Some 0%nat ->
  train_epoch Opt learn masks (mkFit Opt o p 0 (mkProg [] [] [])) (train 0%nat) = Ok s1 ->
  fit Opt learn masks (S n) disp root tag train None o p f = (f, Err TypeError) /\
  fit Opt learn masks (S n) disp root tag train (Some []) o p f = (f, Err ZeroDivisionError).
Proof. exact fit_no_val. Qed.

Theorem C75_zero_interval : forall Opt learn masks n root tag train val o p f s1, tree f -> pr_layers p <> [] ->
  train_epoch Opt learn masks (mkFit Opt o p 0 (mkProg [] [] [])) (train 0%nat) = Ok s1 ->
  fit Opt learn masks (S n) (Some 0%nat) root tag train val o p f = (f, Err ZeroDivisionError).
Proof. exact fit_bad_disp. Qed.

(** Without layers there is nothing to optimise, and fit refuses. *)
Theorem C75_no_layers : forall Opt learn masks n disp root tag train val o d r hid out dr f,
  fit Opt learn masks n disp root tag train val o (init_predictor d 0 r hid out dr) f = (f, Err ValueError).
Proof. intros. apply fit_no_layers. reflexivity. Qed.

(** No epochs: nothing happens. *)
Theorem C75_no_epochs : forall Opt learn masks disp root tag train val o p f, pr_layers p <> [] ->
  fit Opt learn masks 0 disp root tag train val o p f = (f, Ok (mkFit Opt o p 0 (mkProg [] [] []))).
Proof. exact fit_none. Qed.

(** A pass over good batches succeeds, with one loss for each batch; none is negative. *)
Theorem C75_epoch_runs : forall Opt learn masks r hid out,
  (forall o p k q, pred_wf r hid out p -> pred_wf r hid out (snd (learn o p k q))) ->
  forall bs, Forall (good_batch out) bs -> Forall (fun q => (0 < tB (fst q))%nat /\ (0 < out)%nat) bs ->
  forall s, pred_wf r hid out (ft_pred Opt s) ->
  exists ls o' p', training Opt learn masks (ft_steps Opt s) (ft_opt Opt s) (ft_pred Opt s) bs ls o' p' /\ pred_wf r hid out p' /\
    train_epoch Opt learn masks s bs = Ok (mkFit Opt o' p' (ft_steps Opt s + List.length bs)
      (mkProg (fold_left smooth_push ls (pg_smooth (ft_prog Opt s))) (pg_epochs (ft_prog Opt s)) (pg_val (ft_prog Opt s)))) /\
    List.length ls = List.length bs /\ Forall (fun l => 0 <= l) ls.
Proof. exact train_runs. Qed.

(** The smoothed losses are exponentially weighted averages and stay within the bounds of the
    losses. *)
Theorem C75_smooth : forall ls, fold_left smooth_push ls [] = map (ewma ls) (seq 0 (List.length ls)) /\
  forall a b n, (n < List.length ls)%nat -> (forall x, In x ls -> a <= x <= b) -> a <= ewma ls n <= b.
Proof. intros ls. split; [apply smooth_eq|]. intros a b n. apply ewma_bounds. Qed.

Example C75_smooth_case : fold_left smooth_push [1; 2] [] = [1; 101 / 100].
Proof. cbn [fold_left]. unfold smooth_push. cbn [rev app]. f_equal. f_equal. lra. Qed.

(** ** C76: evaluation *)

(** The evaluation loss is the total squared error divided by the number of samples. *)
Theorem C76_evaluate : forall r hid out p bs, pred_wf r hid out p -> Forall (good_batch out) bs -> exists zs,
  Forall2 (fun q z => predict false no_keep p (fst q) = Ok z /\ shape z = shape (snd q) /\ twf z) bs zs /\
  evaluate_on p bs =
    let samples := list_sum (map (fun q => tB (snd q)) bs) in
    if Nat.eqb (List.length bs) 0 then Err ZeroDivisionError
    else if Nat.eqb samples 0 then Err NonFinite
    else Ok (lsum (map (fun d => sq_dist (snd (fst d)) (snd d)) (combine bs zs)) / INR samples).
Proof. exact evaluate_eq. Qed.

(** It is not negative, and 0 exactly if every batch is predicted without error. *)
Theorem C76_evaluate_zero : forall r hid out p bs v, pred_wf r hid out p -> Forall (good_batch out) bs -> evaluate_on p bs = Ok v ->
  0 <= v /\ (v = 0 <-> Forall (fun q => predict false no_keep p (fst q) = Ok (snd q)) bs).
Proof. exact evaluate_nonneg. Qed.

(** For a batch it is the number of cells of a sample times the mean squared error that
    training minimises. *)
Theorem C76_scale : forall r hid out p x y z l, pred_wf r hid out p -> good_batch out (x, y) -> (0 < tB y)%nat ->
  predict false no_keep p x = Ok z -> (let* e := sq_error y z in tmean e) = Ok l ->
  evaluate_on p [(x, y)] = Ok (INR (tC y * tH y * tW y) * l).
Proof. exact evaluate_scale. Qed.

Example C76_case : evaluate_on (ex_pred 1) [(one_cell, mkT 1 1 1 1 [1 + logistic 1])] = Ok 0.
Proof.
  assert (GB : good_batch 1 (one_cell, mkT 1 1 1 1 [1 + logistic 1])) by (unfold good_batch; cbn; repeat split; try reflexivity; lia).
  destruct (C76_evaluate 1 1 1 (ex_pred 1) [(one_cell, mkT 1 1 1 1 [1 + logistic 1])] (ex_pred_wf 1) ltac:(constructor; [exact GB|constructor])) as (zs & F & E).
  inversion F as [|q z ? zs' (Ez & _) F']; subst. inversion F'; subst. cbn [fst snd] in Ez.
  change (ex_pred 1) with (init_predictor ones (2 * 0 + 1) 1 1 1 (1 / 10)) in Ez. rewrite <- C74_even_repeats in Ez.
  change (init_predictor ones (2 * 0 + 2) 1 1 1 (1 / 10)) with (ex_pred 2) in Ez. rewrite C74_passes_case in Ez. apply Ok_inj in Ez. subst z.
  rewrite E. cbn [List.length map list_sum fold_right snd fst tB Nat.add Nat.eqb combine]. rewrite sq_dist_self. cbn. f_equal. lra.
Qed.

(** ** C77: the script *)

(** The first tenth of the samples (rounded down) is for validation, the rest for training;
    with fewer than ten samples there is no validation data. Inputs stay with their targets. *)
Theorem C77_split : forall (A B : Type) (d : list A) (t : list B), List.length d = List.length t ->
  (val_part (split_point d) d ++ train_part (split_point d) d = d)%list /\
  List.length (val_part (split_point d) d) = (List.length d / 10)%nat /\
  List.length (train_part (split_point d) d) = (List.length d - List.length d / 10)%nat /\
  (val_part (split_point d) d = [] <-> (List.length d < 10)%nat) /\
  (combine (val_part (split_point d) d) (val_part (split_point d) t) ++
   combine (train_part (split_point d) d) (train_part (split_point d) t) = combine d t)%list.
Proof.
  intros A B d t H. destruct (split_partition d) as (P1 & P2 & P3 & P4). split; [exact P1|]. split; [exact P2|]. split; [exact P3|].
  split; [exact P4|apply split_pairs; exact H].
Qed.

(** Batches without shuffling: consecutive, none empty, none larger than the batch size. *)
Theorem C77_batches : forall (A : Type) fuel size (d : list A), (0 < size)%nat -> (List.length d <= fuel)%nat ->
  List.concat (load_batches fuel size d) = d /\ Forall (fun b => b <> [] /\ (List.length b <= size)%nat) (load_batches fuel size d).
Proof. intros A. exact batches_partition. Qed.

Example C77_batches_case : load_batches 5 2 [1; 2; 3; 4; 5] = [[1; 2]; [3; 4]; [5]].
Proof. reflexivity. Qed.

(** The test file is the input file itself exactly if "train" does not occur in its name; so it
    is for both default arguments, and the predictor is tested on the data it was trained on. *)
Theorem C77_test_file : (forall s, replaced "train" "test" s (test_file s)) /\
  (forall s, test_file s = s <-> ~ occurs "train" s) /\
  test_file default_inputs = default_inputs /\ test_file default_targets = default_targets.
Proof.
  split; [intros s; apply str_replace_spec; discriminate|]. split; [exact test_file_same|]. split; reflexivity.
Qed.

Example C77_test_file_case : test_file "data/train_x_train.pt" = "data/test_x_test.pt"%string.
Proof. reflexivity. Qed.

(** Two runs with the same settings get the same name, and hence the same files, exactly if the
    times of their creation agree modulo 1000 seconds. *)
Theorem C77_names_collide : forall tag l r h s a b, (100000 <= a)%N -> (100000 <= b)%N ->
  (exp_tag tag l r h s a = exp_tag tag l r h s b <-> (a mod 1000000 = b mod 1000000)%N).
Proof. exact exp_tag_same. Qed.

Example C77_name_case : exp_tag "geminium" 2 31 8 13 1668600123456 = "geminium_l_2_kr_31_hid8_seed13_123456"%string.
Proof. vm_compute. reflexivity. Qed.
Print Assumptions C74_init.
Print Assumptions C74_init_weights.
Print Assumptions C74_passes.
Print Assumptions C74_rises.
Print Assumptions C74_unused_layers.
Print Assumptions C74_even_repeats.
Print Assumptions C74_refusals.
Print Assumptions C75_fit_fails.
Print Assumptions C75_fit_files.
Print Assumptions C75_fit_outcome.
Print Assumptions C75_no_validation.
Print Assumptions C75_zero_interval.
Print Assumptions C75_no_layers.
Print Assumptions C75_no_epochs.
Print Assumptions C75_epoch_runs.
Print Assumptions C75_smooth.
Print Assumptions C76_evaluate.
Print Assumptions C76_evaluate_zero.
Print Assumptions C76_scale.
Print Assumptions C77_split.
Print Assumptions C77_batches.
Print Assumptions C77_test_file.
Print Assumptions C77_names_collide.
