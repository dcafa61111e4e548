(** Proofs about batches, the final evaluation and the script of the step predictor. *)
From Coq Require Import Reals ZArith NArith Lra Lia List String Ascii Bool Arith Permutation.
From Verif Require Import Base Tensor MActivations MNca MText MWrap MPredict MPredObj SGrid SCca SNca SText SPredict SPredObj PTensor PKern PNca PText PPredict PPredictX PPredictY PPredObj PPredObjX.
Import ListNotations.
Open Scope R_scope.

(** ** Batches *)
Lemma rows_wf t idx : twf (rows t idx) /\ shape (rows t idx) = (List.length idx, tC t, tH t, tW t).
Proof. unfold rows. split; [apply twf_build|reflexivity]. Qed.

Lemma get_rows t idx b c i j : (b < List.length idx)%nat -> (c < tC t)%nat -> (i < tH t)%nat -> (j < tW t)%nat ->
  get (rows t idx) b c i j = get t (nth b idx 0%nat) c i j.
Proof. intros. unfold rows. rewrite get_build by assumption. reflexivity. Qed.

Lemma hidden_rows la r x idx b h i j : (b < List.length idx)%nat ->
  hidden_unit la r (rows x idx) b h i j = hidden_unit la r x (nth b idx 0%nat) h i j.
Proof.
  intros Hb. unfold hidden_unit. cbn [rows build tC tH tW]. f_equal. f_equal.
  apply rsum_ext; intros c Hc. apply rsum_ext; intros y Hy. apply rsum_ext; intros z Hz. f_equal. unfold at0.
  set (u := (Z.of_nat i + Z.of_nat y - Z.of_nat r)%Z). set (v := (Z.of_nat j + Z.of_nat z - Z.of_nat r)%Z).
  destruct (Z.leb_spec 0 u); [|reflexivity]. destruct (Z.ltb_spec u (Z.of_nat (tH x))); [|reflexivity].
  destruct (Z.leb_spec 0 v); [|reflexivity]. destruct (Z.ltb_spec v (Z.of_nat (tW x))); [|reflexivity]. cbn [andb].
  apply get_rows; try assumption; lia.
Qed.

Lemma pass_rows la lb r hid x idx : Forall (fun k => (k < tB x)%nat) idx ->
  pass la lb r hid (fun _ _ _ _ => 1) (rows x idx) = rows (pass la lb r hid (fun _ _ _ _ => 1) x) idx.
Proof.
  intros F. unfold pass at 1. unfold rows at 5. cbn [rows build tB tC tH tW pass].
  apply build_ext. intros b o i j Hb Ho Hi Hj.
  assert (Hn : (nth b idx 0 < tB x)%nat) by (rewrite Forall_forall in F; apply F, nth_In; exact Hb).
  unfold pass. rewrite (get_build (tB x) (tC x) (tH x) (tW x)) by assumption.
  change (build (List.length idx) (tC x) (tH x) (tW x) (fun b0 c i0 j0 => get x (nth b0 idx 0%nat) c i0 j0)) with (rows x idx).
  rewrite get_rows by assumption. f_equal. unfold pass_gain. f_equal. f_equal. apply rsum_ext. intros h Hh. rewrite hidden_rows by exact Hb. reflexivity.
Qed.

Lemma passes_rows n : forall k ls r hid x idx, Forall (fun k => (k < tB x)%nat) idx ->
  passes n k ls r hid (fun _ _ _ _ _ => 1) (rows x idx) = rows (passes n k ls r hid (fun _ _ _ _ _ => 1) x) idx.
Proof.
  induction n as [|n IH]; intros k ls r hid x idx F; cbn [passes]; [reflexivity|]. rewrite pass_rows by exact F. apply IH. exact F.
Qed.

Lemma forecast_rows r hid p x idx : Forall (fun k => (k < tB x)%nat) idx -> forecast r hid p (rows x idx) = rows (forecast r hid p x) idx.
Proof. apply passes_rows. Qed.

Lemma predict_forecast r hid out p x : pred_wf r hid out p -> twf x -> tC x = out -> (0 < tH x)%nat -> (0 < tW x)%nat ->
  predict false no_keep p x = Ok (forecast r hid p x) /\ shape (forecast r hid p x) = shape x /\ twf (forecast r hid p x).
Proof.
  intros Hp Tx Ec H0 W0. pose proof (predict_eq r hid out false no_keep p x Hp Tx Ec H0 W0) as E.
  destruct (predict_rise r hid out false no_keep p x _ Hp Tx Ec H0 W0 E) as (S1 & T & _).
  change (passes _ _ _ _ _ _ x) with (forecast r hid p x) in E, S1, T. auto.
Qed.

Lemma rsum_nth (F : nat -> R) l : rsum (List.length l) (fun b => F (nth b l 0%nat)) = lsum (map F l).
Proof.
  rewrite lsum_nth, map_length. apply rsum_ext. intros b Hb. rewrite (nth_indep (map F l) 0 (F 0%nat)) by (rewrite map_length; exact Hb).
  rewrite map_nth. reflexivity.
Qed.

Lemma sq_dist_rows y z idx : shape y = shape z -> sq_dist (rows y idx) (rows z idx) = lsum (map (sample_error z y) idx).
Proof.
  intros S. unfold shape in S. apply pair_equal_spec in S as [S Q4]. apply pair_equal_spec in S as [S Q3]. apply pair_equal_spec in S as [Q1 Q2].
  rewrite <- rsum_nth. unfold sq_dist. change (tB (rows y idx)) with (List.length idx). apply rsum_ext. intros b Hb. unfold sample_error.
  change (tC (rows y idx)) with (tC y). change (tH (rows y idx)) with (tH y). change (tW (rows y idx)) with (tW y).
  apply rsum_ext; intros c Hc. apply rsum_ext; intros i Hi. apply rsum_ext; intros j Hj. rewrite !get_rows by (congruence || assumption || lia). reflexivity.
Qed.

Lemma eval_rows r hid out p x y : pred_wf r hid out p -> good_data out x y -> forall bs, Forall (Forall (fun k => (k < tB x)%nat)) bs ->
  forall l n, eval_loop p (map (fun l => (rows x l, rows y l)) bs) l n =
    Ok (l + lsum (map (sample_error (forecast r hid p x) y) (List.concat bs)), (n + List.length (List.concat bs))%nat).
Proof.
  intros Hp (Tx & Ty & Sxy & Ec & H0 & W0). destruct (predict_forecast r hid out p x Hp Tx Ec H0 W0) as (_ & Sz & _).
  induction bs as [|idx bs IH]; intros F l n; cbn [map eval_loop List.concat].
  - unfold lsum. cbn [map fold_right List.length]. rewrite Rplus_0_r, Nat.add_0_r. reflexivity.
  - apply Forall_cons_iff in F as [F0 F]. destruct (rows_wf x idx) as [Tr Sr].
    destruct (predict_forecast r hid out p (rows x idx) Hp Tr Ec H0 W0) as (E & S & T).
    rewrite E. cbn [bind]. rewrite forecast_rows in * by exact F0.
    destruct (sq_error_eq (rows y idx) (rows (forecast r hid p x) idx)) as (e & Ee & Et).
    { rewrite !(proj2 (rows_wf _ _)). unfold shape in Sxy, Sz. congruence. }
    rewrite Ee. cbn [bind]. rewrite Et, sq_dist_rows by congruence. rewrite (IH F). change (tB (rows y idx)) with (List.length idx).
    rewrite map_app, lsum_app, app_length. f_equal. f_equal; [ring|lia].
Qed.

(** Only the samples matter, not the batches they come in. *)
Lemma evaluate_batches r hid out p x y bs : pred_wf r hid out p -> good_data out x y -> Forall (Forall (fun k => (k < tB x)%nat)) bs ->
  List.concat bs <> [] ->
  evaluate_on p (map (fun l => (rows x l, rows y l)) bs) = Ok (mean_error (forecast r hid p x) y (List.concat bs)).
Proof.
  intros Hp Hd F N. unfold evaluate_on. rewrite (eval_rows r hid out p x y Hp Hd bs F). cbn [bind fst snd Nat.add]. rewrite Rplus_0_l.
  destruct bs as [|b bs]; [exfalso; apply N; reflexivity|]. cbn [map]. destruct (Nat.eqb_spec (List.length (List.concat (b :: bs))) 0) as [Z|Z].
  - exfalso. apply N. destruct (List.concat (b :: bs)); [reflexivity|discriminate].
  - reflexivity.
Qed.

Lemma mean_error_perm z y l l' : Permutation l l' -> mean_error z y l = mean_error z y l'.
Proof.
  intros P. unfold mean_error. rewrite (Permutation_length P). f_equal. apply lsum_perm. apply Permutation_map. exact P.
Qed.

Lemma mean_error_all z y n : tB y = n -> mean_error z y (seq 0 n) = sq_dist y z / INR n.
Proof.
  intros E. unfold mean_error. rewrite seq_length, lsum_map_seq. f_equal. unfold sq_dist. rewrite E. reflexivity.
Qed.

Lemma evaluate_loader r hid out p size x y idx : pred_wf r hid out p -> good_data out x y -> (0 < size)%nat ->
  Forall (fun k => (k < tB x)%nat) idx ->
  evaluate_on p (loader size x y idx) = match idx with [] => Err ZeroDivisionError | _ => Ok (mean_error (forecast r hid p x) y idx) end.
Proof.
  intros Hp Hd Hs F. destruct (batches_partition (List.length idx) size idx Hs (Nat.le_refl _)) as [C B]. unfold loader.
  destruct idx as [|a idx]; [reflexivity|]. rewrite (evaluate_batches r hid out p x y _ Hp Hd).
  - rewrite C. reflexivity.
  - rewrite Forall_forall in F. apply Forall_forall. intros l Hl. apply Forall_forall. intros k Hk. apply F. rewrite <- C. apply in_concat. exists l. auto.
  - rewrite C. discriminate.
Qed.

Lemma perm_below (l l' : list nat) n : Permutation l l' -> Forall (fun k => (k < n)%nat) l -> Forall (fun k => (k < n)%nat) l'.
Proof. intros P F. rewrite Forall_forall in *. intros k Hk. apply F. apply (Permutation_in k (Permutation_sym P)). exact Hk. Qed.

(** ** Names *)
Lemma dec_cut n m s t : (dec n ++ String "_" s = dec m ++ String "_" t -> n = m /\ s = t)%string.
Proof.
  intros E. assert (L : forall n, lacks "_" (dec n)) by (intros q; apply digits_lack; [right; reflexivity|apply dec_digits]).
  assert (K : dec n = dec m) by (rewrite <- (upto_cut "_" (dec n) s (L _)), E; apply upto_cut, L).
  split; [rewrite <- (dec_number n), K; apply dec_number|]. rewrite K in E. apply append_inj in E. injection E. auto.
Qed.

Lemma exp_tag_inj tag l r h s a l' s' b : exp_tag tag l r h s a = exp_tag tag l' r h s' b -> l = l' /\ s = s'.
Proof.
  unfold exp_tag. intros E. apply append_inj in E. apply append_inj in E.
  change ("_kr_" ++ ?x)%string with (String "_" ("kr_" ++ x)) in E. apply dec_cut in E as [El E]. split; [exact El|].
  apply append_inj in E. change ("_hid" ++ ?x)%string with (String "_" ("hid" ++ x)) in E. apply dec_cut in E as [_ E].
  apply append_inj in E. change ("_seed" ++ ?x)%string with (String "_" ("seed" ++ x)) in E. apply dec_cut in E as [_ E].
  apply append_inj in E. change ("_" ++ ?x)%string with (String "_" x) in E. apply dec_cut in E as [E _]. exact E.
Qed.

Lemma append_inj_r (x y a : string) : (x ++ a = y ++ a -> x = y)%string.
Proof.
  intros E. revert y E. induction x as [|c x IH]; intros [|d y] E; cbn [append] in E; [reflexivity| | |].
  - exfalso. apply (f_equal String.length) in E. cbn [String.length] in E. rewrite length_app_s in E. lia.
  - exfalso. apply (f_equal String.length) in E. cbn [String.length] in E. rewrite length_app_s in E. lia.
  - injection E as -> E. f_equal. apply IH. exact E.
Qed.

Lemma final_path_inj root a b : final_path root a = final_path root b -> a = b.
Proof. unfold final_path. intros E. apply app_inv_head in E. injection E as E. exact (append_inj_r _ _ _ E). Qed.
