(** Proofs about the fit loop, the files it writes, and the script of the step predictor. *)
From Coq Require Import Reals ZArith NArith Lra Lia List String Ascii Bool Arith.
From Verif Require Import Base Tensor MActivations MNca MText MWrap MPredict SGrid SCca SNca SText SPredict PTensor PKern PNca PText PPredict PPredictX.
Import ListNotations.
Open Scope R_scope.

(** ** Files *)
Lemma path_eqb_eq p q : path_eqb p q = true <-> p = q.
Proof. unfold path_eqb. destruct (list_eq_dec string_dec p q); split; congruence. Qed.

Lemma put_same f p n : put f p n p = Some n.
Proof. unfold put. assert (E : path_eqb p p = true) by (apply path_eqb_eq; reflexivity). rewrite E. reflexivity. Qed.

Lemma put_other f p n q : q <> p -> put f p n q = f q.
Proof. intros H. unfold put. destruct (path_eqb q p) eqn:E; [apply path_eqb_eq in E; contradiction|reflexivity]. Qed.

Lemma np_save_ok f p v f1 : np_save f p v = Ok f1 -> f (removelast p) = Some NDir /\ f p <> Some NDir /\ f1 = put f p (NProgress v).
Proof.
  unfold np_save. destruct (f (removelast p)) as [[| | |]|] eqn:E; try discriminate.
  destruct (f p) as [[| | |]|] eqn:E'; try discriminate; intros H; apply Ok_inj in H; (split; [reflexivity|split; [congruence|auto]]).
Qed.

Lemma removelast_two (A : Type) (l : list A) a b : removelast (l ++ [a; b]) = (l ++ [a])%list.
Proof. change [a; b] with ([a] ++ [b])%list. rewrite app_assoc. apply removelast_last. Qed.

Lemma model_save_fails f root tag v f1 : tree f -> np_save f (progress_path root tag) v = Ok f1 ->
  torch_save f1 (model_path root tag) = Err RuntimeError.
Proof.
  intros Ht H. apply np_save_ok in H as (_ & Hp & ->). unfold torch_save, model_path. rewrite removelast_two.
  set (pp := progress_path root tag) in *. rewrite put_other.
  2:{ intros E. apply (f_equal (@List.length string)) in E. rewrite app_length in E. cbn [List.length] in E. lia. }
  destruct (f (pp ++ ["models"%string])%list) as [n|] eqn:E; [|reflexivity].
  exfalso. apply Hp. apply (Ht pp "models"%string). congruence.
Qed.

Lemma list_eq_nil {A} (l : list A) : {l = []} + {l <> []}.
Proof. destruct l; [left; reflexivity|right; discriminate]. Qed.

(** ** Training *)
Section Fit.
  Variable Opt : Type.
  Variable learn : Opt -> predictor -> (nat -> nat -> nat -> nat -> nat -> bool) -> tensor * tensor -> Opt * predictor.
  Variable masks : nat -> nat -> nat -> nat -> nat -> nat -> bool.
  Local Notation fit := (fit Opt learn masks).
  Local Notation fit_loop := (fit_loop Opt learn masks).
  Local Notation train_epoch := (train_epoch Opt learn masks).
  Local Notation training := (training Opt learn masks).

  Lemma fit_first n disp root tag train val o p f : tree f -> pr_layers p <> [] ->
    fit (S n) disp root tag train val o p f =
    match train_epoch (mkFit Opt o p 0 (mkProg [] [] [])) (train 0%nat) with
    | Err e => (f, Err e)
    | Ok s1 =>
        match disp with
        | Some O => (f, Err ZeroDivisionError)
        | _ => match validate Opt s1 0 val with
               | Err e => (f, Err e)
               | Ok s2 => match np_save f (progress_path root tag) (ft_prog Opt s2) with
                          | Err e => (f, Err e)
                          | Ok f1 => (f1, Err RuntimeError)
                          end
               end
        end
    end.
  Proof.
    intros Ht Hl. unfold MPredict.fit. destruct (pr_layers p) as [|l0 ll]; [congruence|]. clear Hl. cbn [MPredict.fit_loop].
    destruct (train_epoch _ _) as [s1|e]; [|reflexivity].
    set (d := match disp with Some d => d | None => _ end).
    assert (Hd : Nat.eqb d 0 = match disp with Some O => true | _ => false end).
    { unfold d. destruct disp as [[|k]|]; try reflexivity. apply Nat.eqb_neq. lia. }
    rewrite Hd.
    assert (G : forall X : files * res (fit_state Opt), X =
       (if Nat.eqb (0 mod d) 0 || Nat.eqb 0 (S n - 1) then X else X)) by (intros X; destruct (_ || _); reflexivity).
    assert (HB : d <> 0%nat -> Nat.eqb (0 mod d) 0 || Nat.eqb 0 (S n - 1) = true).
    { intros Hn. rewrite Nat.mod_0_l by exact Hn. reflexivity. }
    destruct disp as [[|k]|]; [reflexivity| |]; rewrite HB by (unfold d; lia);
      (destruct (validate Opt s1 0 val) as [s2|e]; [|reflexivity]);
      (destruct (np_save f _ _) as [f1|e] eqn:E; [|reflexivity]); rewrite (model_save_fails _ _ _ _ _ Ht E); reflexivity.
  Qed.

  Lemma fit_fails n disp root tag train val o p f : tree f -> exists e, snd (fit (S n) disp root tag train val o p f) = Err e.
  Proof.
    intros Ht. destruct (list_eq_nil (pr_layers p)) as [N|N]; [exists ValueError; unfold MPredict.fit; rewrite N; reflexivity|].
    rewrite fit_first by assumption. destruct (train_epoch _ _) as [s1|e]; [|eexists; reflexivity].
    destruct disp as [[|k]|]; [eexists; reflexivity| |]; (destruct (validate Opt s1 0 val) as [s2|e]; [|eexists; reflexivity]);
      (destruct (np_save f (progress_path root tag) (ft_prog Opt s2)); eexists; reflexivity).
  Qed.

  Lemma fit_none disp root tag train val o p f : pr_layers p <> [] ->
    fit 0 disp root tag train val o p f = (f, Ok (mkFit Opt o p 0 (mkProg [] [] []))).
  Proof. unfold MPredict.fit. destruct (pr_layers p); [congruence|reflexivity]. Qed.

  Lemma fit_no_layers n disp root tag train val o p f : pr_layers p = [] -> fit n disp root tag train val o p f = (f, Err ValueError).
  Proof. unfold MPredict.fit. intros ->. reflexivity. Qed.

  Lemma fit_files n disp root tag train val o p f : tree f ->
    fst (fit (S n) disp root tag train val o p f) = f \/
    exists g, pg_epochs g = [0%nat] /\ List.length (pg_val g) = 1%nat /\
      fst (fit (S n) disp root tag train val o p f) = put f (progress_path root tag) (NProgress g).
  Proof.
    intros Ht. destruct (list_eq_nil (pr_layers p)) as [N|N]; [left; unfold MPredict.fit; rewrite N; reflexivity|].
    rewrite fit_first by assumption. destruct (train_epoch _ _) as [s1|e] eqn:E1; [|auto].
    assert (K : forall bs s s', train_epoch s bs = Ok s' -> pg_epochs (ft_prog Opt s') = pg_epochs (ft_prog Opt s) /\ pg_val (ft_prog Opt s') = pg_val (ft_prog Opt s)).
    { induction bs as [|[x y] bs IH]; intros s s' H; cbn [MPredict.train_epoch] in H; [apply Ok_inj in H; subst; auto|].
      apply bind_ok in H as (z & _ & H). apply bind_ok in H as (e & _ & H). apply bind_ok in H as (l & _ & H). apply IH in H. exact H. }
    apply K in E1 as [E1 E1']. cbn [ft_prog pg_epochs pg_val] in E1, E1'.
    destruct disp as [[|k]|]; [auto| |];
      (destruct (validate Opt s1 0 val) as [s2|e] eqn:E2; [|auto]); (destruct (np_save f (progress_path root tag) (ft_prog Opt s2)) as [f1|e] eqn:E3; [|auto]);
      (apply np_save_ok in E3 as (_ & _ & ->)); right; exists (ft_prog Opt s2);
      (unfold validate in E2; destruct val as [bs|]; [|discriminate]; apply bind_ok in E2 as (v & _ & E2); apply Ok_inj in E2; subst s2);
      cbn [ft_prog pg_epochs pg_val]; rewrite E1, E1'; auto.
  Qed.

  (** Without a validation loader, and without validation samples. *)
  Lemma fit_no_val n disp root tag train o p f s1 : tree f -> pr_layers p <> [] -> disp <> Some 0%nat ->
    train_epoch (mkFit Opt o p 0 (mkProg [] [] [])) (train 0%nat) = Ok s1 ->
    fit (S n) disp root tag train None o p f = (f, Err TypeError) /\
    fit (S n) disp root tag train (Some []) o p f = (f, Err ZeroDivisionError).
  Proof.
    intros Ht Hl Hd E. rewrite !fit_first by assumption. rewrite E. split; destruct disp as [[|k]|]; try congruence; reflexivity.
  Qed.

  Lemma fit_bad_disp n root tag train val o p f s1 : tree f -> pr_layers p <> [] ->
    train_epoch (mkFit Opt o p 0 (mkProg [] [] [])) (train 0%nat) = Ok s1 ->
    fit (S n) (Some 0%nat) root tag train val o p f = (f, Err ZeroDivisionError).
  Proof. intros Ht Hl E. rewrite fit_first by assumption. rewrite E. reflexivity. Qed.

  (** Training on data of the right kind. *)
  Lemma train_runs r hid out : (forall o p k q, pred_wf r hid out p -> pred_wf r hid out (snd (learn o p k q))) ->
    forall bs, Forall (good_batch out) bs -> Forall (fun q => (0 < tB (fst q))%nat /\ (0 < out)%nat) bs ->
    forall s, pred_wf r hid out (ft_pred Opt s) ->
    exists ls o' p', training (ft_steps Opt s) (ft_opt Opt s) (ft_pred Opt s) bs ls o' p' /\ pred_wf r hid out p' /\
      train_epoch s bs = Ok (mkFit Opt o' p' (ft_steps Opt s + List.length bs)
        (mkProg (fold_left smooth_push ls (pg_smooth (ft_prog Opt s))) (pg_epochs (ft_prog Opt s)) (pg_val (ft_prog Opt s)))) /\
      List.length ls = List.length bs /\ Forall (fun l => 0 <= l) ls.
  Proof.
    intros Hl. induction bs as [|[x y] bs IH]; intros Hb Hn s Hp.
    - exists [], (ft_opt Opt s), (ft_pred Opt s). split; [constructor|]. split; [exact Hp|]. split; [|split; [reflexivity|constructor]].
      cbn [MPredict.train_epoch List.length fold_left]. rewrite Nat.add_0_r. destruct s as [a b c [d e g]]; reflexivity.
    - apply Forall_cons_iff in Hb as [Hq Hb]. apply Forall_cons_iff in Hn as [Hq' Hn].
      destruct Hq as (T1 & T2 & S12 & Ec & H0 & W0). cbn [fst snd] in *.
      pose proof (predict_eq r hid out true (masks (ft_steps Opt s)) _ x Hp T1 Ec H0 W0) as Ez.
      destruct (predict_rise r hid out true (masks (ft_steps Opt s)) _ x _ Hp T1 Ec H0 W0 Ez) as (Sz & Tz & _).
      set (z := passes _ _ _ _ _ _ x) in *. clearbody z.
      assert (Syz : shape y = shape z) by congruence.
      cbn [MPredict.train_epoch]. rewrite Ez. cbn [bind]. unfold sq_error at 1. rewrite tzip_same by exact Syz. cbn [bind].
      set (e := build _ _ _ _ _).
      assert (Te : tsum e = sq_dist y z) by (unfold e; rewrite tsum_build; reflexivity).
      assert (LE : List.length (tdata e) = (tB y * tC y * tH y * tW y)%nat) by (unfold e; apply twf_build).
      unfold shape in S12. apply pair_equal_spec in S12 as [S12 Q4]. apply pair_equal_spec in S12 as [S12 Q3]. apply pair_equal_spec in S12 as [Q1 Q2].
      assert (PP : (0 < tB y * tC y * tH y * tW y)%nat) by (repeat apply Nat.mul_pos_pos; lia).
      assert (Em : tmean e = Ok (sq_dist y z / INR (tB y * tC y * tH y * tW y))).
      { unfold tmean, lmean. destruct (tdata e) as [|a t] eqn:Ed; [cbn in LE; lia|]. rewrite <- Ed, <- LE, <- Te, Ed. unfold tsum. rewrite Ed. reflexivity. }
      rewrite Em. cbn [bind].
      destruct (IH Hb Hn (mkFit Opt (fst (learn (ft_opt Opt s) (ft_pred Opt s) (masks (ft_steps Opt s)) (x, y)))
                           (snd (learn (ft_opt Opt s) (ft_pred Opt s) (masks (ft_steps Opt s)) (x, y))) (S (ft_steps Opt s))
                           (mkProg (smooth_push (pg_smooth (ft_prog Opt s)) (sq_dist y z / INR (tB y * tC y * tH y * tW y))) (pg_epochs (ft_prog Opt s)) (pg_val (ft_prog Opt s))))
                  (Hl _ _ _ _ Hp)) as (ls & o' & p' & TR & Hp' & E & EL & F).
      exists (sq_dist y z / INR (tB y * tC y * tH y * tW y) :: ls), o', p'. split; [|split; [exact Hp'|split; [|split; [cbn [List.length]; lia|]]]].
      + apply (training_cons Opt learn masks _ _ _ x y z); assumption.
      + rewrite E. cbn [ft_opt ft_pred ft_steps ft_prog pg_smooth pg_epochs pg_val fold_left List.length]. f_equal. f_equal. lia.
      + constructor; [|exact F]. apply Rmult_le_pos; [apply sq_dist_nonneg|]. left. apply Rinv_0_lt_compat, lt_0_INR. exact PP.
  Qed.

  Lemma fit_outcome r hid out n disp root tag train val o p f :
    (forall o p k q, pred_wf r hid out p -> pred_wf r hid out (snd (learn o p k q))) ->
    pred_wf r hid out p -> (0 < pr_repeats p)%nat -> tree f -> (0 < out)%nat -> disp <> Some 0%nat ->
    Forall (good_batch out) (train 0%nat) -> Forall (fun q => (0 < tB (fst q))%nat) (train 0%nat) ->
    Forall (good_batch out) val -> list_sum (map (fun q => tB (snd q)) val) <> 0%nat ->
    f (root ++ ["logs"%string])%list = Some NDir -> f (progress_path root tag) <> Some NDir ->
    exists ls o' p' v, training 0 o p (train 0%nat) ls o' p' /\ evaluate_on p' val = Ok v /\
      List.length ls = List.length (train 0%nat) /\
      fit (S n) disp root tag train (Some val) o p f =
      (put f (progress_path root tag) (NProgress (mkProg (map (ewma ls) (seq 0 (List.length ls))) [0%nat] [v])), Err RuntimeError).
  Proof.
    intros Hl Hp Hr Ht Ho Hd Hb HB Hv HV Hlogs Hpp.
    assert (Hne : pr_layers p <> []) by (destruct Hp as [_ Hp]; destruct (Hp 0%nat Hr) as [(l & E & _) _]; destruct (pr_layers p); discriminate).
    destruct (train_runs r hid out Hl (train 0%nat) Hb ltac:(eapply Forall_impl; [|exact HB]; cbv beta; auto) (mkFit Opt o p 0 (mkProg [] [] [])) Hp)
      as (ls & o' & p' & TR & Hp' & E & EL & _). cbn [ft_opt ft_pred ft_steps ft_prog pg_smooth pg_epochs pg_val] in TR, E.
    destruct (evaluate_eq r hid out p' val Hp' Hv) as (zs & _ & EV). cbv zeta in EV.
    destruct (Nat.eqb_spec (List.length val) 0) as [Z|Z]; [destruct val; [exfalso; apply HV; reflexivity|discriminate]|].
    destruct (Nat.eqb_spec (list_sum (map (fun q => tB (snd q)) val)) 0) as [Z'|Z']; [contradiction|].
    eexists ls, o', p', _. split; [exact TR|]. split; [exact EV|]. split; [exact EL|].
    rewrite fit_first by assumption. rewrite E.
    assert (NS : forall g, np_save f (progress_path root tag) g = Ok (put f (progress_path root tag) (NProgress g))).
    { intros g. unfold np_save. assert (X : removelast (progress_path root tag) = (root ++ ["logs"%string])%list) by apply removelast_two.
      rewrite X, Hlogs. destruct (f (progress_path root tag)) as [[| | |]|]; congruence. }
    unfold validate. cbn [ft_pred]. rewrite EV. cbn [bind ft_prog pg_smooth pg_epochs pg_val app]. rewrite NS, <- smooth_eq.
    destruct disp as [[|k]|]; [congruence| |]; reflexivity.
  Qed.
End Fit.

(** ** The script *)
Lemma split_partition {A} (d : list A) :
  (val_part (split_point d) d ++ train_part (split_point d) d = d)%list /\
  List.length (val_part (split_point d) d) = (List.length d / 10)%nat /\
  List.length (train_part (split_point d) d) = (List.length d - List.length d / 10)%nat /\
  (val_part (split_point d) d = [] <-> (List.length d < 10)%nat).
Proof.
  unfold val_part, train_part, split_point. pose proof (Nat.div_le_upper_bound (List.length d) 10 (List.length d) ltac:(lia) ltac:(lia)) as L.
  split; [apply firstn_skipn|]. split; [apply firstn_length_le; exact L|]. split; [apply skipn_length|]. split.
  - intros E. apply (f_equal (@List.length A)) in E. rewrite firstn_length_le in E by exact L. cbn [List.length] in E.
    apply Nat.div_small_iff in E; lia.
  - intros E. rewrite Nat.div_small by exact E. reflexivity.
Qed.

Lemma split_pairs {A B} (d : list A) (t : list B) : List.length d = List.length t ->
  (combine (val_part (split_point d) d) (val_part (split_point d) t) ++
   combine (train_part (split_point d) d) (train_part (split_point d) t) = combine d t)%list.
Proof.
  intros _. unfold val_part, train_part. generalize (split_point d) as k. intros k. revert d t.
  induction k as [|k IH]; intros d t; [reflexivity|]. destruct d as [|a d]; [reflexivity|]. destruct t as [|b t].
  - cbn [firstn skipn combine app]. destruct (skipn k d); reflexivity.
  - cbn [firstn skipn combine app]. f_equal. apply IH.
Qed.

Lemma batches_partition {A} fuel size (d : list A) : (0 < size)%nat -> (List.length d <= fuel)%nat ->
  List.concat (load_batches fuel size d) = d /\ Forall (fun b => b <> [] /\ (List.length b <= size)%nat) (load_batches fuel size d).
Proof.
  intros Hs. revert d. induction fuel as [|f IH]; intros d Hf.
  - destruct d; [split; [reflexivity|constructor]|cbn in Hf; lia].
  - destruct d as [|a d]; [split; [reflexivity|constructor]|]. cbn [load_batches List.concat].
    destruct (IH (skipn size (a :: d))) as [I1 I2]; [rewrite skipn_length; cbn [List.length] in *; lia|].
    rewrite I1. split; [apply firstn_skipn|]. constructor; [|exact I2]. split; [destruct size; [lia|discriminate]|].
    rewrite firstn_length. lia.
Qed.

(** ** Text *)
Lemma substring_all s : substring 0 (String.length s) s = s.
Proof. induction s as [|a s IH]; [reflexivity|]. cbn [String.length substring]. rewrite IH. reflexivity. Qed.

Lemma substring_drop p r : substring (String.length p) (String.length (p ++ r) - String.length p) (p ++ r)%string = r.
Proof.
  rewrite length_app_s. replace (String.length p + String.length r - String.length p)%nat with (String.length r) by lia.
  induction p as [|a p IH]; cbn [append String.length substring]; [apply substring_all|exact IH].
Qed.

Lemma substring_tail p r : substring (String.length p) (String.length r) (p ++ r)%string = r.
Proof. induction p as [|a p IH]; cbn [append String.length substring]; [apply substring_all|exact IH]. Qed.

Lemma occurs_nil_of old : occurs old "" -> old = ""%string.
Proof. intros (l & r & E). destruct l; [|discriminate]. destruct old; [reflexivity|discriminate]. Qed.

Lemma replace_loop_spec old new : old <> ""%string -> forall fuel s, (String.length s < fuel)%nat -> replaced old new s (replace_loop fuel old new s).
Proof.
  intros Ho fuel. induction fuel as [|f IH]; intros s Hf; [lia|]. cbn [replace_loop].
  destruct (prefix old s) eqn:P.
  - apply prefix_app in P as [r ->]. rewrite substring_drop.
    apply (replaced_first old new ""%string r). { intros; cbn [String.length]; lia. }
    apply IH. rewrite length_app_s in Hf. destruct old; [contradiction|]. cbn [String.length] in Hf. lia.
  - destruct s as [|a s].
    + apply replaced_none. intros H. apply occurs_nil_of in H. contradiction.
    + cbn [String.length] in Hf. specialize (IH s ltac:(lia)).
      assert (N : forall r, String a s <> (old ++ r)%string).
      { intros r E. assert (prefix old (String a s) = true) by (apply prefix_app; eauto). congruence. }
      revert N IH. generalize (replace_loop f old new s) as q. clear. intros q N IH. destruct IH as [s H | l r t H1 H2].
      * apply replaced_none. intros (l & r & E). destruct l as [|b l]; [apply (N r); exact E|].
        cbn [append] in E. apply H. exists l, r. congruence.
      * change (replaced old new (String a l ++ old ++ r) (String a l ++ new ++ t)). apply replaced_first; [|exact H2].
        intros l' r' E. destruct l' as [|b l'].
        -- exfalso. apply (N r'). exact E.
        -- cbn [append String.length] in *. apply le_n_S. apply (H1 l' r'). congruence.
Qed.

Lemma str_replace_spec old new s : old <> ""%string -> replaced old new s (str_replace old new s).
Proof. intros Ho. apply replace_loop_spec; [exact Ho|lia]. Qed.

Lemma replaced_length old new s t : (String.length new < String.length old)%nat -> replaced old new s t ->
  (String.length t <= String.length s)%nat /\ (occurs old s -> (String.length t < String.length s)%nat).
Proof.
  intros Hn H. induction H as [s H|l r t H1 H2 [I1 I2]]; [split; [lia|contradiction]|].
  rewrite !length_app_s. split; [lia|]. intros _. lia.
Qed.

Lemma replace_absent old new s : old <> ""%string -> ~ occurs old s -> str_replace old new s = s.
Proof.
  intros Ho H. pose proof (str_replace_spec old new s Ho) as R. revert R H. generalize (str_replace old new s) as q. intros q R H.
  destruct R as [s _ | l r t H1 H2]; [reflexivity|]. exfalso. apply H. exists l, r. reflexivity.
Qed.

Lemma test_file_same s : test_file s = s <-> ~ occurs "train" s.
Proof.
  unfold test_file. split; [|apply replace_absent; discriminate].
  intros E O. pose proof (str_replace_spec "train" "test" s ltac:(discriminate)) as R. rewrite E in R.
  apply replaced_length in R as [_ R]; [|cbn; lia]. specialize (R O). lia.
Qed.

(** ** Names of runs *)
Lemma digits_same s t : every is_digit s -> every is_digit t -> String.length s = String.length t ->
  number_of s = number_of t -> s = t.
Proof.
  unfold number_of. revert t. induction s as [|a s IH]; intros [|b t] Hs Ht Hl E; try discriminate; [reflexivity|].
  cbn [every] in Hs, Ht. destruct Hs as [Ha Hs], Ht as [Hb Ht]. cbn [String.length] in Hl. injection Hl as Hl.
  cbn [reads] in E. rewrite (reads_split _ s), (reads_split _ t), Hl in E.
  pose proof (reads_bound s Hs) as B1. pose proof (reads_bound t Ht) as B2. rewrite Hl in B1.
  set (q := (10 ^ N.of_nat (String.length t))%N) in *. unfold is_digit in Ha, Hb.
  assert (EN : (N_of_ascii a - 48 = N_of_ascii b - 48)%N).
  { destruct (N.lt_trichotomy (N_of_ascii a - 48) (N_of_ascii b - 48)) as [L|[L|L]]; [exfalso|exact L|exfalso]; nia. }
  assert (Eab : a = b) by (rewrite <- (ascii_N_embedding a), <- (ascii_N_embedding b); f_equal; lia).
  subst b. f_equal. apply IH; try assumption. nia.
Qed.

Lemma string_cut s k : (k <= String.length s)%nat -> exists a b, s = (a ++ b)%string /\ String.length b = k.
Proof.
  intros H. remember (String.length s - k)%nat as m eqn:Em. revert s H Em. induction m as [|m IH]; intros s H Em.
  - exists ""%string, s. split; [reflexivity|lia].
  - destruct s as [|c s]; [cbn in Em; lia|]. cbn [String.length] in H, Em. destruct (IH s ltac:(lia) ltac:(lia)) as (a & b & -> & L).
    exists (String c a), b. split; [reflexivity|exact L].
Qed.

Lemma fingerprint_reads ms : (100000 <= ms)%N -> String.length (fingerprint ms) = 6%nat /\ every is_digit (fingerprint ms) /\
  number_of (fingerprint ms) = (ms mod 1000000)%N.
Proof.
  intros H. unfold fingerprint, last_chars.
  assert (L : (6 <= String.length (dec ms))%nat).
  { pose proof (reads_bound (dec ms) (dec_digits ms)) as B. fold (number_of (dec ms)) in B. rewrite dec_number in B.
    destruct (le_lt_dec 6 (String.length (dec ms))) as [|X]; [assumption|]. exfalso.
    pose proof (N.pow_le_mono_r 10 (N.of_nat (String.length (dec ms))) 5 ltac:(lia) ltac:(lia)) as Y. change (10 ^ 5)%N with 100000%N in Y. lia. }
  destruct (string_cut (dec ms) 6 L) as (a & b & E & Lb).
  assert (S : substring (String.length (dec ms) - 6) 6 (dec ms) = b).
  { rewrite E, length_app_s, Lb. replace (String.length a + 6 - 6)%nat with (String.length a) by lia. rewrite <- Lb. apply substring_tail. }
  rewrite S. pose proof (dec_digits ms) as D. rewrite E in D. apply every_app in D as [_ D]. split; [exact Lb|]. split; [exact D|].
  pose proof (dec_number ms) as N. rewrite E in N. unfold number_of in *.
  assert (RA : forall u acc v, reads acc (u ++ v) = reads (reads acc u) v).
  { induction u as [|c u IH]; intros acc v; cbn [append reads]; [reflexivity|apply IH]. }
  rewrite RA, reads_split, Lb in N. change (10 ^ N.of_nat 6)%N with 1000000%N in N.
  pose proof (reads_bound b D) as B. rewrite Lb in B. change (10 ^ N.of_nat 6)%N with 1000000%N in B.
  apply (N.mod_unique ms 1000000 (reads 0 a)); [exact B|]. lia.
Qed.

Lemma fingerprint_same a b : (100000 <= a)%N -> (100000 <= b)%N ->
  (fingerprint a = fingerprint b <-> (a mod 1000000 = b mod 1000000)%N).
Proof.
  intros Ha Hb. destruct (fingerprint_reads a Ha) as (L1 & D1 & N1). destruct (fingerprint_reads b Hb) as (L2 & D2 & N2). split.
  - intros E. rewrite <- N1, <- N2, E. reflexivity.
  - intros E. apply digits_same; congruence.
Qed.

Lemma exp_tag_same tag l r h s a b : (100000 <= a)%N -> (100000 <= b)%N ->
  (exp_tag tag l r h s a = exp_tag tag l r h s b <-> (a mod 1000000 = b mod 1000000)%N).
Proof.
  intros Ha Hb. rewrite <- fingerprint_same by assumption. unfold exp_tag. split; [|intros ->; reflexivity].
  intros E. repeat (apply append_inj in E). exact E.
Qed.
