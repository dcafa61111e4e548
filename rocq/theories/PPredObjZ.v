(** Proofs about the final evaluation and the script of the step predictor. *)
From Coq Require Import Reals ZArith NArith Lra Lia List String Ascii Bool Arith Permutation.
From Verif Require Import Base Tensor MActivations MNca MText MWrap MPredict MPredObj SGrid SCca SNca SText SPredict SPredObj PTensor PKern PNca PText PPredict PPredictX PPredictY PPredObj PPredObjX PPredObjY.
Import ListNotations.
Open Scope R_scope.

Section Script.
  Variable Opt : Type.
  Variable learn : Opt -> predictor -> (nat -> nat -> nat -> nat -> nat -> bool) -> tensor * tensor -> Opt * predictor.
  Variable masks : nat -> nat -> nat -> nat -> nat -> nat -> bool.
  Variable show : R -> string.
  Local Notation end_evaluate := (end_evaluate masks show).
  Local Notation script_run := (script_run Opt learn masks show).
  Local Notation script_loop := (script_loop Opt learn masks show).
  Local Notation script := (script Opt learn masks show).
  Local Notation setup := (setup Opt).

  Lemma end_evaluate_own root w k s tr va te : the_model w = Ok (k, s) ->
    end_evaluate root w k tr va te =
    match (let* a := evaluate_on (po_pred s) tr in let* b := evaluate_on (po_pred s) va in let* c := evaluate_on (po_pred s) te in
           write_text (w_files w) (final_path root (po_tag s)) (end_msg show (po_tag s) a b c)) with
    | Ok f => (set_files f (set_mode k false w), Ok tt)
    | Err e => (set_mode k false w, Err e)
    end.
  Proof.
    intros Em. unfold MPredObj.end_evaluate. pose proof (proj1 (the_model_ok w k s) Em) as [M1 M2]. rewrite M2.
    rewrite (evaluate_own masks w k tr s Em). destruct (evaluate_on (po_pred s) tr) as [a|e]; cbn [bind]; [|reflexivity].
    pose proof (mode_model w k false k s Em) as E0. rewrite Nat.eqb_refl in E0.
    assert (MM : set_mode k false (set_mode k false w) = set_mode k false w) by (unfold set_mode; cbn [w_objs w_model w_files w_drawn]; rewrite set_nth_twice; reflexivity).
    rewrite (evaluate_own masks _ k va _ E0), MM. cbn [po_pred]. destruct (evaluate_on (po_pred s) va) as [b|e]; cbn [bind]; [|reflexivity].
    rewrite (evaluate_own masks _ k te _ E0), MM. cbn [po_pred]. destruct (evaluate_on (po_pred s) te) as [c|e]; cbn [bind]; [|reflexivity].
    change (w_files (set_mode k false w)) with (w_files w). destruct (write_text _ _ _); reflexivity.
  Qed.

  (** An evaluation through another object in evaluation mode writes the losses of that object under the own name. *)
  Lemma end_evaluate_other root w k s g m tr va te : the_model w = Ok (g, m) -> g <> k -> po_train m = false -> nth_error (w_objs w) k = Some s ->
    end_evaluate root w k tr va te =
    match (let* a := evaluate_on (po_pred m) tr in let* b := evaluate_on (po_pred m) va in let* c := evaluate_on (po_pred m) te in
           write_text (w_files w) (final_path root (po_tag s)) (end_msg show (po_tag s) a b c)) with
    | Ok f => (set_files f (set_mode k false w), Ok tt)
    | Err e => (set_mode k false w, Err e)
    end.
  Proof.
    intros Em N T M2. unfold MPredObj.end_evaluate. rewrite M2.
    rewrite (evaluate_other masks w k tr g m Em N T). destruct (evaluate_on (po_pred m) tr) as [a|e]; cbn [bind]; [|reflexivity].
    pose proof (mode_model w k false g m Em) as E0. rewrite (proj2 (Nat.eqb_neq g k) N) in E0.
    assert (MM : set_mode k false (set_mode k false w) = set_mode k false w) by (unfold set_mode; cbn [w_objs w_model w_files w_drawn]; rewrite set_nth_twice; reflexivity).
    rewrite (evaluate_other masks _ k va g m E0 N T), MM. destruct (evaluate_on (po_pred m) va) as [b|e]; cbn [bind]; [|reflexivity].
    rewrite (evaluate_other masks _ k te g m E0 N T), MM. destruct (evaluate_on (po_pred m) te) as [c|e]; cbn [bind]; [|reflexivity].
    change (w_files (set_mode k false w)) with (w_files w). destruct (write_text _ _ _); reflexivity.
  Qed.

  (** *** One run *)
  Definition born (s : setup) (i : nat) (seed : N) (rep : nat) (w : pworld) : pworld :=
    mkPW (w_objs w ++ [script_object Opt s i seed rep]) (Some (List.length (w_objs w))) (w_files w) (w_drawn w).

  Lemma born_model s i seed rep w : the_model (born s i seed rep w) = Ok (List.length (w_objs w), script_object Opt s i seed rep).
  Proof.
    apply the_model_ok. cbn [born w_model w_objs]. split; [reflexivity|]. rewrite nth_error_app2, Nat.sub_diag by lia. reflexivity.
  Qed.

  Lemma run_tag_path (p q : path) root a b : p = progress_path root a -> q = final_path root b -> p <> q.
  Proof.
    intros -> -> E. unfold progress_path, final_path in E. apply app_inv_head in E. injection E as E.
    assert (L : forall t u : string, (t ++ "y")%string <> (u ++ "t")%string).
    { intros t u H. assert (G : forall s c, MPredict.last_chars 1 (s ++ String c "") = String c "").
      { intros s0 c. unfold MPredict.last_chars. rewrite length_app_s. cbn [String.length].
        replace (String.length s0 + 1 - 1)%nat with (String.length s0) by lia. apply (substring_tail s0 (String c "")). }
      apply (f_equal (MPredict.last_chars 1)) in H. rewrite !G in H. discriminate. }
    apply (L (a ++ ".np")%string (b ++ "_final.tx")%string).
    rewrite !append_assoc_s. exact E.
  Qed.

  Lemma run_epochs s root i seed rep w : keeps_repeats Opt learn -> su_epochs Opt s <> 0%nat -> tree (w_files w) -> (0 < rep)%nat ->
    exists e, snd (script_run s root i seed rep w) = Err e /\
      (forall p, p <> progress_path root (po_tag (script_object Opt s i seed rep)) -> w_files (fst (script_run s root i seed rep w)) p = w_files w p).
  Proof.
    intros KR HE Ht Hr. unfold MPredObj.script_run.
    match goal with |- context [match ?t with Ok _ => _ | Err _ => _ end] => destruct t as [[x y]|e] end; [|exists e; auto].
    cbn zeta.
    match goal with |- context [MPredObj.obj_fit Opt learn masks ?E ?d ?r ?t ?v ?w' ?k ?o] => 
      pose proof (fit_own Opt learn masks w' k (script_object Opt s i seed rep) E d r t v o KR (born_model s i seed rep w) Hr) as F;
      set (tr := t) in *; set (va := v) in * end.
    cbn zeta in F. destruct F as (F1 & F2 & _). destruct (su_epochs Opt s) as [|n]; [congruence|].
    match type of F1 with context [fit ?a ?b ?c ?d ?e ?f ?g ?h ?j ?k ?l ?m] => 
      destruct (fit_fails a b c n e f g h j k l m Ht) as (e0 & FE); pose proof (fit_files a b c n e f g h j k l m Ht) as FF end.
    rewrite FE in F2. cbn [out_of] in F2.
    change (mkPW (w_objs w ++ [script_object Opt s i seed rep]) (Some (List.length (w_objs w))) (w_files w) (w_drawn w)) with (born s i seed rep w) in *.
    destruct (obj_fit Opt learn masks (Datatypes.S n) None root tr va (born s i seed rep w) (List.length (w_objs w)) (su_opt Opt s)) as [w2 r2].
    cbn [fst snd] in *. subst r2. exists e0. cbn [fst snd]. split; [reflexivity|]. intros p Hp. rewrite F1.
    destruct FF as [FF|(g & _ & _ & FF)]; rewrite FF; [reflexivity|]. apply put_other. exact Hp.
  Qed.

  Lemma script_epochs s root f : keeps_repeats Opt learn -> su_epochs Opt s <> 0%nat -> tree f -> su_seeds Opt s <> [] ->
    exists e, snd (script s root f) = Err e /\
      (forall p, (forall seed, p <> progress_path root (po_tag (script_object Opt s 0 seed 1))) -> w_files (fst (script s root f)) p = f p).
  Proof.
    intros KR HE Ht HS. unfold MPredObj.script. destruct (su_seeds Opt s) as [|seed seeds]; [congruence|].
    cbn [script_grid flat_map map app MPredObj.script_loop].
    destruct (run_epochs s root 0 seed 1 (mkPW [] None f 0) KR HE Ht ltac:(lia)) as (e & E & F).
    destruct (script_run s root 0 seed 1 (mkPW [] None f 0)) as [w1 r1]. cbn [fst snd] in *. subst r1. exists e. cbn [fst snd]. split; [reflexivity|].
    intros p Hp. apply F. apply Hp.
  Qed.

  (** *** No epochs *)
  Section Zero.
    Variable s : setup.
    Variable root : path.
    Variables x y x' y' : tensor.
    Hypothesis HE : su_epochs Opt s = 0%nat.
    Hypothesis Hx : su_load Opt s (su_in Opt s) = Some x.
    Hypothesis Hy : su_load Opt s (su_tgt Opt s) = Some y.
    Hypothesis Hx' : su_load Opt s (test_file (su_in Opt s)) = Some x'.
    Hypothesis Hy' : su_load Opt s (test_file (su_tgt Opt s)) = Some y'.
    Hypothesis Hd : good_data 1 x y.
    Hypothesis Hd' : good_data 1 x' y'.
    Hypothesis HP : forall i j l, Permutation l (su_shuffle Opt s i j l).
    Hypothesis HN : (0 < tB x)%nat.

    Let n := (tB x / 10)%nat.
    Local Notation obj i seed rep := (script_object Opt s i seed rep).

    (** The text that the run number [i] writes. *)
    Definition report (i : nat) (seed : N) (rep : nat) : string :=
      let p := po_pred (obj i seed rep) in
      end_msg show (po_tag (obj i seed rep)) (mean_error (forecast 31 8 p x) y (seq n (tB x - n)))
        (mean_error (forecast 31 8 p x) y (seq 0 n)) (mean_error (forecast 31 8 p x') y' (seq 0 (tB x'))).

    Lemma obj_wf i seed rep : pred_wf 31 8 1 (po_pred (obj i seed rep)).
    Proof. apply init_pred_wf; try lia. lra. Qed.

    Lemma obj_layers i seed rep : (0 < rep)%nat -> pr_layers (po_pred (obj i seed rep)) <> [].
    Proof. intros H. destruct rep as [|m]; [lia|]. discriminate. Qed.

    Lemma train_indices : skipn n (seq 0 (tB x)) = seq n (tB x - n).
    Proof.
      clear. subst n. set (k := (tB x / 10)%nat). assert (L : (k <= tB x)%nat) by (apply Nat.div_le_upper_bound; lia).
      replace (tB x) with (k + (tB x - k))%nat at 1 by lia. rewrite seq_app, skipn_app, seq_length, Nat.sub_diag.
      rewrite skipn_all2 by (rewrite seq_length; lia). reflexivity.
    Qed.

    Lemma val_indices : firstn n (seq 0 (tB x)) = seq 0 n.
    Proof.
      clear. subst n. set (k := (tB x / 10)%nat). assert (L : (k <= tB x)%nat) by (apply Nat.div_le_upper_bound; lia).
      replace (tB x) with (k + (tB x - k))%nat at 1 by lia. rewrite seq_app, firstn_app, seq_length, Nat.sub_diag.
      rewrite firstn_all2 by (rewrite seq_length; lia). apply app_nil_r.
    Qed.

    Lemma below_seq a k m : (a + k <= m)%nat -> Forall (fun j => (j < m)%nat) (seq a k).
    Proof. intros H. apply Forall_forall. intros j Hj. apply in_seq in Hj. lia. Qed.

    Lemma run_zero i seed rep w : (0 < rep)%nat ->
      script_run s root i seed rep w =
      match (if Nat.ltb (tB x) 10 then Err ZeroDivisionError else if Nat.eqb (tB x') 0 then Err ZeroDivisionError
             else write_text (w_files w) (final_path root (po_tag (obj i seed rep))) (report i seed rep)) with
      | Ok f => (set_files f (set_mode (List.length (w_objs w)) false (born s i seed rep w)), Ok tt)
      | Err e => (set_mode (List.length (w_objs w)) false (born s i seed rep w), Err e)
      end.
    Proof.
      intros Hr. unfold MPredObj.script_run, load_tensor. rewrite Hx, Hy. cbn [bind].
      assert (ES : tB x = tB y) by (destruct Hd as (_ & _ & S & _); unfold shape in S; congruence).
      assert (ES' : tB x' = tB y') by (destruct Hd' as (_ & _ & S & _); unfold shape in S; congruence).
      rewrite <- ES, Nat.eqb_refl. cbn [guard bind]. destruct (Nat.eqb_spec (tB x) 0); [lia|]. cbn [negb guard bind]. cbn zeta.
      change (mkPW (w_objs w ++ [script_object Opt s i seed rep]) (Some (List.length (w_objs w))) (w_files w) (w_drawn w)) with (born s i seed rep w).
      unfold split_point, train_part, val_part. rewrite seq_length. fold n. rewrite train_indices, val_indices, HE.
      unfold obj_fit. pose proof (born_model s i seed rep w) as BM. pose proof (proj1 (the_model_ok _ _ _) BM) as [B1 B2]. rewrite B2.
      destruct (pr_layers (po_pred (obj i seed rep))) as [|l0 ll] eqn:EL; [exfalso; apply (obj_layers i seed rep Hr); exact EL|].
      cbn [obj_fit_loop]. rewrite Hx', Hy'. cbn [bind]. rewrite <- ES', Nat.eqb_refl. cbn [guard bind].
      set (me := List.length (w_objs w)) in *.
      pose proof (mode_model (born s i seed rep w) me true me _ BM) as E0. rewrite Nat.eqb_refl in E0.
      rewrite (end_evaluate_own root _ me _ _ _ _ E0). cbn [po_pred po_tag].
      assert (MM : set_mode me false (set_mode me true (born s i seed rep w)) = set_mode me false (born s i seed rep w)) by (unfold set_mode; cbn [w_objs w_model w_files w_drawn]; rewrite set_nth_twice; reflexivity).
      rewrite MM. change (w_files (set_mode me true (born s i seed rep w))) with (w_files w).
      assert (Ln : (n <= tB x)%nat) by (apply Nat.div_le_upper_bound; lia).
      assert (Lt : (n < tB x)%nat) by (apply Nat.div_lt; lia).
      pose proof (HP i 0%nat (seq n (tB x - n))) as P. set (sh := su_shuffle Opt s i 0 (seq n (tB x - n))) in *.
      assert (Psh : sh <> []).
      { intros Z. rewrite Z in P. apply Permutation_sym, Permutation_nil in P. destruct (tB x - n)%nat eqn:Q; [lia|discriminate]. }
      pose proof (obj_wf i seed rep) as PW. set (p := po_pred (obj i seed rep)) in *.
      rewrite (evaluate_loader 31 8 1 p script_size x y sh PW Hd ltac:(unfold script_size; lia) (perm_below _ _ _ P (below_seq n (tB x - n) (tB x) ltac:(lia)))).
      destruct sh as [|a0 sh]; [congruence|]. cbn [bind]. rewrite <- (mean_error_perm _ _ _ _ P).
      rewrite (evaluate_loader 31 8 1 p script_size x y (seq 0 n) PW Hd ltac:(unfold script_size; lia) (below_seq 0 n (tB x) Ln)).
      destruct (Nat.ltb_spec (tB x) 10) as [L10|L10].
      { assert (Z : n = 0%nat) by (apply Nat.div_small; exact L10). rewrite Z. reflexivity. }
      assert (L1 : (0 < n)%nat) by (apply Nat.div_str_pos; lia). destruct (seq 0 n) as [|b0 sv] eqn:ESV; [destruct n; [lia|discriminate]|]. rewrite <- ESV. cbn [bind].
      rewrite (evaluate_loader 31 8 1 p script_size x' y' (seq 0 (tB x')) PW Hd' ltac:(unfold script_size; lia) (below_seq 0 (tB x') (tB x') (Nat.le_refl _))).
      destruct (Nat.eqb_spec (tB x') 0) as [Z|Z]; [rewrite Z; reflexivity|].
      destruct (seq 0 (tB x')) as [|c0 st] eqn:EST; [destruct (tB x'); [lia|discriminate]|]. rewrite <- EST. cbn [bind].
      unfold report. cbn zeta. fold p. reflexivity.
    Qed.

    Local Notation tag i seed rep := (po_tag (obj i seed rep)).

    (** The runs in their order. *)
    Lemma loop_zero : (10 <= tB x)%nat -> (0 < tB x')%nat -> forall grid i w, Forall (fun q => (0 < snd q)%nat) grid ->
      w_files w (root ++ ["logs"%string])%list = Some NDir ->
      (forall i seed rep, w_files w (final_path root (tag i seed rep)) <> Some NDir) ->
      snd (script_loop s root i grid w) = Ok tt /\
      List.length (w_objs (fst (script_loop s root i grid w))) = (List.length (w_objs w) + List.length grid)%nat /\
      (forall q, (forall k seed rep, nth_error grid k = Some (seed, rep) -> q <> final_path root (tag (i + k) seed rep)) ->
         w_files (fst (script_loop s root i grid w)) q = w_files w q) /\
      (forall k seed rep, nth_error grid k = Some (seed, rep) ->
         (forall k' seed' rep', (k < k')%nat -> nth_error grid k' = Some (seed', rep') -> tag (i + k') seed' rep' <> tag (i + k) seed rep) ->
         w_files (fst (script_loop s root i grid w)) (final_path root (tag (i + k) seed rep)) = Some (NText (report (i + k) seed rep))).
    Proof.
      intros H10 Hte. induction grid as [|[seed rep] grid IH]; intros i w Hg Hlogs Hdir; cbn [MPredObj.script_loop].
      - cbn [fst snd List.length]. split; [reflexivity|]. split; [lia|]. split; [reflexivity|]. intros [|k] sd rp H; discriminate.
      - apply Forall_cons_iff in Hg as [Hr Hg]. cbn [snd] in Hr. rewrite (run_zero i seed rep w Hr).
        destruct (Nat.ltb_spec (tB x) 10); [lia|]. destruct (Nat.eqb_spec (tB x') 0); [lia|].
        set (fp := final_path root (tag i seed rep)).
        assert (RL : removelast fp = (root ++ ["logs"%string])%list) by apply removelast_two.
        assert (WT : write_text (w_files w) fp (report i seed rep) = Ok (put (w_files w) fp (NText (report i seed rep)))).
        { unfold write_text. rewrite RL, Hlogs. pose proof (Hdir i seed rep) as Q. fold fp in Q. destruct (w_files w fp) as [[| | |]|]; congruence. }
        rewrite WT. set (w1 := set_files _ _).
        assert (F1 : w_files w1 = put (w_files w) fp (NText (report i seed rep))) by reflexivity.
        assert (NL : (root ++ ["logs"%string])%list <> fp).
        { unfold fp, final_path. intros Q. apply app_inv_head in Q. discriminate. }
        destruct (IH (Datatypes.S i) w1 Hg) as (I1 & I2 & I3 & I4).
        { rewrite F1, put_other by exact NL. exact Hlogs. }
        { intros i' sd rp. rewrite F1. unfold put. destruct (path_eqb _ _); [discriminate|apply Hdir]. }
        assert (LW : List.length (w_objs w1) = (List.length (w_objs w) + 1)%nat).
        { unfold w1. cbn [set_files set_mode born w_objs]. rewrite set_nth_length, app_length. reflexivity. }
        split; [exact I1|]. split; [rewrite I2, LW; cbn [List.length]; lia|]. split.
        + intros q Hq. rewrite I3.
          * rewrite F1. apply put_other. pose proof (Hq 0%nat seed rep eq_refl) as Q. rewrite Nat.add_0_r in Q. exact Q.
          * intros k sd rp Hk. pose proof (Hq (Datatypes.S k) sd rp Hk) as Q. replace (i + Datatypes.S k)%nat with (Datatypes.S i + k)%nat in Q by lia. exact Q.
        + intros [|k] sd rp Hk Hlast.
          * cbn [nth_error] in Hk. injection Hk as <- <-. rewrite Nat.add_0_r in *. fold fp. rewrite I3.
            -- rewrite F1. apply put_same.
            -- intros k' sd' rp' Hk' Q. apply final_path_inj in Q. apply (Hlast (Datatypes.S k') sd' rp' ltac:(lia) Hk').
               replace (i + Datatypes.S k')%nat with (Datatypes.S i + k')%nat by lia. symmetry. exact Q.
          * cbn [nth_error] in Hk. replace (i + Datatypes.S k)%nat with (Datatypes.S i + k)%nat in * by lia. apply I4; [exact Hk|].
            intros k' sd' rp' L Hk'. replace (Datatypes.S i + k')%nat with (i + Datatypes.S k')%nat by lia. apply (Hlast (Datatypes.S k') sd' rp'); [lia|exact Hk'].
    Qed.

    Lemma grid_positive seeds : Forall (fun q : N * nat => (0 < snd q)%nat) (script_grid seeds).
    Proof.
      apply Forall_forall. intros [sd rp] H. unfold script_grid in H. apply in_flat_map in H as (sd' & _ & H). cbn [map In] in H.
      destruct H as [H|[H|[H|[]]]]; injection H as <- <-; cbn; lia.
    Qed.

    Lemma grid_length seeds : List.length (script_grid seeds) = (3 * List.length seeds)%nat.
    Proof. unfold script_grid. induction seeds as [|a l IH]; [reflexivity|]. cbn [flat_map]. rewrite app_length, IH. cbn. lia. Qed.

    Lemma grid_nodup seeds : NoDup seeds -> NoDup (script_grid seeds).
    Proof.
      unfold script_grid. induction 1 as [|a l Ha Hl IH]; [constructor|]. cbn [flat_map map app].
      assert (X : forall r, ~ In (a, r) (flat_map (fun seed : N => map (pair seed) [1; 2; 4]%nat) l)).
      { intros r H. apply in_flat_map in H as (a' & Ha' & H). cbn [map In] in H. destruct H as [H|[H|[H|[]]]]; injection H as -> _; contradiction. }
      repeat (constructor; [cbn [In]; intros H; repeat (destruct H as [H|H]; [discriminate|]); try (exact (X _ H)); contradiction|]). exact IH.
    Qed.

    Lemma tags_differ seeds k k' seed rep seed' rep' : NoDup seeds -> k <> k' ->
      nth_error (script_grid seeds) k = Some (seed, rep) -> nth_error (script_grid seeds) k' = Some (seed', rep') ->
      forall i i', tag i seed rep <> tag i' seed' rep'.
    Proof.
      intros ND N E1 E2 i i' E. cbn [script_object po_tag] in E. apply exp_tag_inj in E as [El Es]. apply Nat2N.inj in El. subst seed' rep'.
      apply N. apply (proj1 (NoDup_nth_error (script_grid seeds)) (grid_nodup seeds ND)); [|congruence].
      apply nth_error_Some. congruence.
    Qed.

    Lemma script_zero f : (10 <= tB x)%nat -> (0 < tB x')%nat -> NoDup (su_seeds Opt s) ->
      f (root ++ ["logs"%string])%list = Some NDir -> (forall i seed rep, f (final_path root (tag i seed rep)) <> Some NDir) ->
      snd (script s root f) = Ok tt /\ List.length (w_objs (fst (script s root f))) = (3 * List.length (su_seeds Opt s))%nat /\
      (forall q, (forall k seed rep, nth_error (script_grid (su_seeds Opt s)) k = Some (seed, rep) -> q <> final_path root (tag k seed rep)) ->
         w_files (fst (script s root f)) q = f q) /\
      (forall k seed rep, nth_error (script_grid (su_seeds Opt s)) k = Some (seed, rep) ->
         w_files (fst (script s root f)) (final_path root (tag k seed rep)) = Some (NText (report k seed rep))).
    Proof.
      intros H10 Hte ND Hlogs Hdir. unfold MPredObj.script.
      destruct (loop_zero H10 Hte (script_grid (su_seeds Opt s)) 0 (mkPW [] None f 0) (grid_positive _) Hlogs Hdir) as (I1 & I2 & I3 & I4).
      split; [exact I1|]. split; [rewrite I2, grid_length; reflexivity|]. split; [exact I3|].
      intros k seed rep Hk. apply I4; [exact Hk|]. intros k' seed' rep' L Hk'.
      apply (tags_differ (su_seeds Opt s) k' k seed' rep' seed rep ND); [lia|exact Hk'|exact Hk].
    Qed.

    Lemma script_few f : (tB x < 10)%nat -> su_seeds Opt s <> [] -> snd (script s root f) = Err ZeroDivisionError /\ w_files (fst (script s root f)) = f.
    Proof.
      intros H10 HS. unfold MPredObj.script. destruct (su_seeds Opt s) as [|seed seeds]; [congruence|].
      cbn [script_grid flat_map map app MPredObj.script_loop]. rewrite run_zero by lia.
      destruct (Nat.ltb_spec (tB x) 10); [|lia]. split; reflexivity.
    Qed.
  End Zero.
End Script.
