(** Proofs about cloning. *)
From Coq Require Import Reals ZArith Lra Lia List String Ascii Bool Arith.
From Verif Require Import Base Tensor MText MWrap MPredict MClone SGrid SWrap SText SPredict SClone PTensor PKern PWrap PText PPredict PPredictX PPredictY.
Import ListNotations.
Open Scope R_scope.

Lemma below_true a b : below a b = true <-> exists x, a = Some x /\ (b = None \/ exists y, b = Some y /\ x < y).
Proof.
  destruct a as [x|], b as [y|]; cbn [below].
  - destruct (Rlt_dec x y); split; try discriminate; intros H.
    + exists x. split; [reflexivity|]. right. exists y. auto.
    + reflexivity.
    + destruct H as (z & Ez & [H|(w & Ew & H)]); [discriminate|]. injection Ez as <-. injection Ew as <-. contradiction.
  - split; [|reflexivity]. intros _. exists x. auto.
  - split; [discriminate|]. intros (z & Ez & _). discriminate.
  - split; [discriminate|]. intros (z & Ez & _). discriminate.
Qed.

Lemma below_false a b : below a b = false <-> forall x, a = Some x -> exists y, b = Some y /\ y <= x.
Proof.
  destruct a as [x|], b as [y|]; cbn [below].
  - destruct (Rlt_dec x y); split; try discriminate; intros H.
    + destruct (H x eq_refl) as (z & Ez & L). injection Ez as <-. lra.
    + intros z Ez. injection Ez as <-. exists y. split; [reflexivity|lra].
    + reflexivity.
  - split; [discriminate|]. intros H. destruct (H x eq_refl) as (z & Ez & _). discriminate.
  - split; [|reflexivity]. intros _ z Ez. discriminate.
  - split; [|reflexivity]. intros _ z Ez. discriminate.
Qed.

Lemma good_below thr e : good thr e <-> below e (Some thr) = true.
Proof.
  rewrite below_true. unfold good. split.
  - intros (x & E & L). exists x. split; [exact E|]. right. exists thr. auto.
  - intros (x & E & [H|(y & Ey & L)]); [discriminate|]. injection Ey as <-. exists x. auto.
Qed.

Lemma not_good_below thr e : ~ good thr e <-> below e (Some thr) = false.
Proof. rewrite good_below. destruct (below e (Some thr)); split; congruence. Qed.

Section Clone.
  Variable Auto W : Type.
  Variable load : string -> res Auto.
  Variable fresh : nat -> Auto -> nat -> nat -> W.
  Variable error : nat -> Auto -> nat -> nat -> W -> option R.
  Variable learn : nat -> Auto -> nat -> nat -> W -> W.
  Variable most steps iters : nat.
  Variable threshold : R.

  Notation clone_steps := (clone_steps Auto W error learn threshold).
  Notation clone_iters := (clone_iters Auto W fresh error learn most steps threshold).
  Notation clone_all := (clone_all Auto W load fresh error learn most steps iters threshold).

  Lemma set_net_last (old : list W) v w : set_net W (List.length old) w (old ++ [v]) = (old ++ [w])%list.
  Proof.
    unfold set_net. rewrite firstn_app, firstn_all, Nat.sub_diag. cbn [firstn]. rewrite app_nil_r. f_equal. f_equal.
    rewrite skipn_all2; [reflexivity|]. rewrite app_length. cbn. lia.
  Qed.

  Lemma runs_for_S thr n e m : ~ good thr (e 0%nat) -> runs_for thr n (fun j => e (S j)) m -> runs_for thr (S n) e (S m).
  Proof.
    intros H0 (A & B & C). split; [lia|]. split.
    - intros [|j] Hj; [exact H0|]. apply (B j). lia.
    - destruct C as [[E C]|(j & -> & C)].
      + left. split; [lia|]. intros [|j] Hj; [exact H0|]. apply (C j). lia.
      + right. exists (S j). split; [reflexivity|exact C].
  Qed.

  Lemma runs_for_ext thr n e e' m : (forall j, e j = e' j) -> runs_for thr n e m -> runs_for thr n e' m.
  Proof.
    intros E (A & B & C). split; [exact A|]. split; [intros j Hj; rewrite <- E; auto|].
    destruct C as [[C D]|(j & C & D)]; [left; split; [exact C|]; intros j Hj; rewrite <- E; auto|].
    right. exists j. split; [exact C|]. rewrite <- E. exact D.
  Qed.

  (** One iteration. *)
  Lemma clone_steps_spec c ca i w0 n : forall k ib (s : clone_state W) old,
    let wt := after (learn c ca i) w0 in
    let e := fun j => error c ca i j (wt j) in
    cl_nets W s = (old ++ [wt k])%list ->
    (ib = None \/ exists x, ib = Some x /\ threshold <= x) ->
    (forall x, below (Some x) (cl_best W s) = true -> below (Some x) ib = true) ->
    let s' := clone_steps n k c ca i (List.length old) ib s in
    exists m, runs_for threshold n (fun j => e (k + j)%nat) m /\ cl_nets W s' = (old ++ [wt (k + m)%nat])%list /\
      ((cl_best W s' = cl_best W s /\ cl_ref W s' = cl_ref W s /\ forall j, (j < m)%nat -> below (e (k + j)%nat) (cl_best W s) = false) \/
       (exists x, cl_best W s' = Some x /\ cl_ref W s' = Some (List.length old) /\ below (Some x) (cl_best W s) = true /\
          (exists j, (j < m)%nat /\ e (k + j)%nat = Some x) /\ forall j, (j < m)%nat -> below (e (k + j)%nat) (Some x) = false)).
  Proof.
    induction n as [|n IH]; intros k ib s old wt e En Hib Hle s'; subst s'; cbn [MClone.clone_steps].
    - exists 0%nat. rewrite Nat.add_0_r. split; [|split; [exact En|left; repeat split; intros; lia]].
      split; [lia|]. split; [intros; lia|]. left. split; [reflexivity|intros; lia].
    - rewrite En, nth_error_app2, Nat.sub_diag by lia. cbn [nth_error]. rewrite set_net_last.
      fold (e k). change (learn c ca i k (wt k)) with (wt (S k)).
      destruct (below (e k) ib) eqn:B1.
      + set (s1 := if below (e k) (cl_best W s) then _ else _).
        assert (En1 : cl_nets W s1 = (old ++ [wt (S k)])%list) by (unfold s1; destruct (below (e k) (cl_best W s)); reflexivity).
        destruct (below (e k) (Some threshold)) eqn:B2.
        * (* break *)
          exists 1%nat. rewrite Nat.add_1_r. split; [|split; [exact En1|]].
          { split; [lia|]. split; [intros; lia|]. right. exists 0%nat. split; [reflexivity|]. rewrite Nat.add_0_r. apply good_below. exact B2. }
          unfold s1. destruct (below (e k) (cl_best W s)) eqn:B3; cbn [cl_best cl_ref].
          { right. pose proof B3 as B3'. apply below_true in B3' as (x & Ex & _). exists x. rewrite Ex in *. split; [reflexivity|]. split; [reflexivity|]. split; [exact B3|].
            split; [exists 0%nat; rewrite Nat.add_0_r; split; [lia|exact Ex]|]. intros j Hj. replace (k + j)%nat with k by lia. rewrite Ex.
            apply below_false. intros y Ey. injection Ey as <-. exists x. split; [reflexivity|lra]. }
          { left. split; [reflexivity|]. split; [reflexivity|]. intros j Hj. replace (k + j)%nat with k by lia. exact B3. }
        * (* go on with the error as the iteration's best *)
          apply below_true in B1 as B1'. destruct B1' as (x & Ex & _).
          assert (Hx : threshold <= x).
          { apply (proj1 (below_false (e k) (Some threshold))) with (x := x) in B2; [|exact Ex]. destruct B2 as (y & Ey & L). injection Ey as <-. exact L. }
          assert (Hb1 : forall y, below (Some y) (cl_best W s1) = true -> below (Some y) (e k) = true).
          { intros y. unfold s1. destruct (below (e k) (cl_best W s)) eqn:B3; cbn [cl_best]; [auto|]. intros Hy.
            rewrite Ex in *. apply (proj1 (below_false _ _)) with (x := x) in B3; [|reflexivity]. destruct B3 as (z & Ez & L). rewrite Ez in Hy.
            apply below_true in Hy as (y' & Ey & [Hy|(z' & Ez' & Hy)]); [discriminate|]. injection Ey as <-. injection Ez' as <-.
            apply below_true. exists y. split; [reflexivity|]. right. exists x. split; [reflexivity|lra]. }
          specialize (IH (S k) (e k) s1 old). cbv zeta in IH. fold wt in IH. fold e in IH.
          destruct IH as (m & Rm & Nm & Cm); [exact En1|right; exists x; auto|exact Hb1|].
          exists (S m). rewrite Nat.add_succ_r. split.
          { apply runs_for_S; [rewrite Nat.add_0_r; apply not_good_below; exact B2|].
            destruct Rm as (R1 & R2 & R3). split; [exact R1|]. split; [intros j Hj; replace (k + S j)%nat with (S k + j)%nat by lia; auto|].
            destruct R3 as [[R3 R4]|(j & R3 & R4)]; [left; split; [exact R3|]; intros j Hj; replace (k + S j)%nat with (S k + j)%nat by lia; auto|].
            right. exists j. split; [exact R3|]. replace (k + S j)%nat with (S k + j)%nat by lia. exact R4. }
          split; [exact Nm|].
          assert (SH : forall (P : nat -> Prop), P k -> (forall j, (j < m)%nat -> P (S k + j)%nat) -> forall j, (j < S m)%nat -> P (k + j)%nat).
          { intros P P0 PS [|j] Hj; [rewrite Nat.add_0_r; exact P0|]. replace (k + S j)%nat with (S k + j)%nat by lia. apply PS. lia. }
          assert (S1 : below (e k) (cl_best W s) = true /\ cl_best W s1 = e k /\ cl_ref W s1 = Some (List.length old) \/
                       below (e k) (cl_best W s) = false /\ cl_best W s1 = cl_best W s /\ cl_ref W s1 = cl_ref W s).
          { unfold s1. destruct (below (e k) (cl_best W s)); [left|right]; repeat split. }
          clearbody s1. destruct S1 as [(B3 & Eb & Er)|(B3 & Eb & Er)]; rewrite ?Eb, ?Er in Cm.
          { right. destruct Cm as [(C1 & C2 & C3)|(y & C1 & C2 & C3 & (j & Hj & C4) & C5)].
            - exists x. rewrite C1, C2, Ex. split; [reflexivity|]. split; [reflexivity|]. split; [rewrite <- Ex; exact B3|].
              split; [exists 0%nat; rewrite Nat.add_0_r; split; [lia|exact Ex]|].
              apply (SH (fun q => below (e q) (Some x) = false)); [|rewrite <- Ex; exact C3]. rewrite Ex. apply below_false. intros z Ez. injection Ez as <-. exists x. split; [reflexivity|lra].
            - exists y. split; [exact C1|]. split; [exact C2|]. rewrite Ex in C3. apply below_true in C3 as (y' & Ey & [C3|(x' & Ex' & C3)]); [discriminate|]. injection Ey as <-. injection Ex' as <-.
              split.
              + rewrite Ex in B3. apply below_true in B3 as (x' & Ex' & [B3|(z & Ez & B3)]); injection Ex' as <-; apply below_true; exists y; split; auto.
                right. exists z. split; [exact Ez|lra].
              + split; [exists (S j); split; [lia|replace (k + S j)%nat with (S k + j)%nat by lia; exact C4]|].
                apply (SH (fun q => below (e q) (Some y) = false)); [|exact C5]. rewrite Ex. apply below_false. intros z Ez. injection Ez as <-. exists y. split; [reflexivity|lra]. }
          { destruct Cm as [(C1 & C2 & C3)|(y & C1 & C2 & C3 & (j & Hj & C4) & C5)].
            - left. split; [exact C1|]. split; [exact C2|]. apply (SH (fun q => below (e q) (cl_best W s) = false)); [exact B3|exact C3].
            - right. exists y. split; [exact C1|]. split; [exact C2|]. split; [exact C3|].
              split; [exists (S j); split; [lia|replace (k + S j)%nat with (S k + j)%nat by lia; exact C4]|].
              apply (SH (fun q => below (e q) (Some y) = false)); [|exact C5].
              apply below_false. intros z Ez. apply (proj1 (below_false _ _)) with (x := z) in B3; [|exact Ez]. destruct B3 as (t & Et & L).
              apply below_true in C3 as (y' & Ey & [C3|(t' & Et' & C3)]); [congruence|]. injection Ey as <-. exists y. split; [reflexivity|]. assert (t = t') by congruence. lra. }
      + (* not an improvement *)
        assert (NG : ~ good threshold (e k)).
        { intros (x & Ex & L). apply (proj1 (below_false _ _)) with (x := x) in B1; [|exact Ex]. destruct B1 as (y & Ey & Ly).
          destruct Hib as [Hib|(z & Ez & Lz)]; [congruence|]. assert (y = z) by congruence. lra. }
        assert (B3 : below (e k) (cl_best W s) = false).
        { destruct (below (e k) (cl_best W s)) eqn:B3; [|reflexivity]. exfalso. pose proof B3 as B3'. apply below_true in B3' as (x & Ex & _). rewrite Ex in *.
          apply Hle in B3. congruence. }
        specialize (IH (S k) ib (mkCl W (old ++ [wt (S k)])%list (cl_best W s) (cl_ref W s)) old). cbv zeta in IH. fold wt in IH. fold e in IH. cbn [cl_nets cl_best cl_ref] in IH.
        destruct IH as (m & Rm & Nm & Cm); [reflexivity|exact Hib|exact Hle|].
        assert (SH : forall (P : nat -> Prop), P k -> (forall j, (j < m)%nat -> P (S k + j)%nat) -> forall j, (j < S m)%nat -> P (k + j)%nat).
        { intros P P0 PS [|j] Hj; [rewrite Nat.add_0_r; exact P0|]. replace (k + S j)%nat with (S k + j)%nat by lia. apply PS. lia. }
        exists (S m). rewrite Nat.add_succ_r. split.
        { apply runs_for_S; [rewrite Nat.add_0_r; exact NG|].
          destruct Rm as (R1 & R2 & R3). split; [exact R1|]. split; [intros j Hj; replace (k + S j)%nat with (S k + j)%nat by lia; auto|].
          destruct R3 as [[R3 R4]|(j & R3 & R4)]; [left; split; [exact R3|]; intros j Hj; replace (k + S j)%nat with (S k + j)%nat by lia; auto|].
          right. exists j. split; [exact R3|]. replace (k + S j)%nat with (S k + j)%nat by lia. exact R4. }
        split; [exact Nm|].
        destruct Cm as [(C1 & C2 & C3)|(y & C1 & C2 & C3 & (j & Hj & C4) & C5)].
        * left. split; [exact C1|]. split; [exact C2|]. apply (SH (fun q => below (e q) (cl_best W s) = false)); [exact B3|exact C3].
        * right. exists y. split; [exact C1|]. split; [exact C2|]. split; [exact C3|].
          split; [exists (S j); split; [lia|replace (k + S j)%nat with (S k + j)%nat by lia; exact C4]|].
          apply (SH (fun q => below (e q) (Some y) = false)); [|exact C5].
          apply below_false. intros z Ez. apply (proj1 (below_false _ _)) with (x := z) in B3; [|exact Ez]. destruct B3 as (t & Et & L).
          apply below_true in C3 as (y' & Ey & [C3|(t' & Et' & C3)]); [congruence|]. injection Ey as <-. exists y. split; [reflexivity|]. assert (t = t') by congruence. lra.
  Qed.

  Lemma width_shift h i : width most (widen most h) i = width most h (S i).
  Proof. induction i as [|i IH]; [reflexivity|]. cbn [width] in *. rewrite IH. reflexivity. Qed.

  (** All iterations for a configuration. *)
  Definition net (c : nat) (ca : Auto) (h i j : nat) : nat -> W := after (learn c ca (i + j)) (fresh c ca (i + j) (width most h j)).

  Lemma clone_iters_spec c ca n : forall i h (s : clone_state W),
    let e := fun j k => error c ca (i + j) k (net c ca h i j k) in
    let s' := clone_iters n i c ca h s in
    exists ks, (forall j, (j < n)%nat -> runs_for threshold steps (e j) (ks j)) /\
      cl_nets W s' = (cl_nets W s ++ map (fun j => net c ca h i j (ks j)) (seq 0 n))%list /\
      ((cl_best W s' = cl_best W s /\ cl_ref W s' = cl_ref W s /\ forall j k, (j < n)%nat -> (k < ks j)%nat -> below (e j k) (cl_best W s) = false) \/
       (exists x j, (j < n)%nat /\ cl_best W s' = Some x /\ cl_ref W s' = Some (List.length (cl_nets W s) + j)%nat /\ below (Some x) (cl_best W s) = true /\
          (exists k, (k < ks j)%nat /\ e j k = Some x) /\
          (forall j' k, (j' < n)%nat -> (k < ks j')%nat -> below (e j' k) (Some x) = false) /\
          (forall j' k, (j' < j)%nat -> (k < ks j')%nat -> e j' k <> Some x))).
  Proof.
    induction n as [|n IH]; intros i h s e s'; subst s'; cbn [MClone.clone_iters].
    - exists (fun _ => 0%nat). split; [intros; lia|]. split; [cbn; rewrite app_nil_r; reflexivity|]. left. repeat split. intros; lia.
    - set (s1 := mkCl W (cl_nets W s ++ [fresh c ca i h]) (cl_best W s) (cl_ref W s)).
      destruct (clone_steps_spec c ca i (fresh c ca i h) steps 0 None s1 (cl_nets W s)) as (m & Rm & Nm & Cm);
        [reflexivity|left; reflexivity|intros x _; reflexivity|]. cbn [Nat.add] in Rm, Nm, Cm.
      set (s2 := clone_steps steps 0 c ca i (List.length (cl_nets W s)) None s1) in *. cbn [s1 cl_best cl_ref] in Cm.
      specialize (IH (S i) (widen most h) s2). cbv zeta in IH. destruct IH as (ks & Rk & Nk & Ck).
      set (s3 := clone_iters n (S i) c ca (widen most h) s2) in *.
      assert (EN : forall j, net c ca (widen most h) (S i) j = net c ca h i (S j)).
      { intros j. unfold net. rewrite width_shift. replace (S i + j)%nat with (i + S j)%nat by lia. reflexivity. }
      assert (EE : forall j k, error c ca (S i + j) k (net c ca (widen most h) (S i) j k) = e (S j) k).
      { intros j k. unfold e. rewrite EN. replace (S i + j)%nat with (i + S j)%nat by lia. reflexivity. }
      assert (E0 : forall k, error c ca i k (after (learn c ca i) (fresh c ca i h) k) = e 0%nat k).
      { intros k. unfold e, net. cbn [width]. rewrite Nat.add_0_r. reflexivity. }
      assert (W0 : after (learn c ca i) (fresh c ca i h) m = net c ca h i 0 m).
      { unfold net. cbn [width]. rewrite Nat.add_0_r. reflexivity. }
      assert (L2 : List.length (cl_nets W s2) = S (List.length (cl_nets W s))) by (rewrite Nm, app_length; cbn; lia).
      exists (fun j => match j with O => m | S q => ks q end). split.
      { intros [|j] Hj; [exact (runs_for_ext _ _ _ _ _ E0 Rm)|]. exact (runs_for_ext _ _ _ _ _ (EE j) (Rk j ltac:(lia))). }
      split.
      { rewrite Nk, Nm, <- app_assoc. f_equal. cbn [seq map app]. f_equal; [exact W0|]. rewrite <- seq_shift, map_map. apply map_ext. intros j. rewrite EN. reflexivity. }
      destruct Cm as [(C1 & C2 & C3)|(x & C1 & C2 & C3 & (k0 & Hk0 & C4) & C5)].
      + destruct Ck as [(D1 & D2 & D3)|(y & j & Hj & D1 & D2 & D3 & (k1 & Hk1 & D4) & D5 & D6)].
        * left. split; [congruence|]. split; [congruence|]. intros [|j] k Hj Hk; [rewrite <- E0; apply C3; exact Hk|].
          rewrite <- EE, <- C1. apply D3; [lia|exact Hk].
        * right. exists y, (S j). split; [lia|]. split; [exact D1|]. split; [rewrite D2, L2; f_equal; lia|]. rewrite <- C1. split; [exact D3|].
          assert (F0 : forall k, (k < m)%nat -> below (e 0%nat k) (Some y) = false /\ e 0%nat k <> Some y).
          { intros k Hk. specialize (C3 k Hk). rewrite E0 in C3. rewrite <- C1 in C3. split.
            - apply below_false. intros z Ez. apply (proj1 (below_false _ _)) with (x := z) in C3; [|exact Ez]. destruct C3 as (t & Et & L).
              apply below_true in D3 as (y' & Ey & [D3|(t' & Et' & D3)]); [congruence|]. injection Ey as <-. exists y. split; [reflexivity|]. assert (t = t') by congruence. lra.
            - intros Ez. rewrite Ez in C3. congruence. }
          split; [exists k1; split; [exact Hk1|rewrite <- EE; exact D4]|].
          split; [intros [|j'] k Hj' Hk; [apply F0; exact Hk|rewrite <- EE; apply D5; [lia|exact Hk]]|].
          intros [|j'] k Hj' Hk; [apply F0; exact Hk|rewrite <- EE; apply D6; [lia|exact Hk]].
      + destruct Ck as [(D1 & D2 & D3)|(y & j & Hj & D1 & D2 & D3 & (k1 & Hk1 & D4) & D5 & D6)].
        * right. exists x, 0%nat. split; [lia|]. split; [congruence|]. split; [rewrite Nat.add_0_r; congruence|]. split; [exact C3|].
          split; [exists k0; split; [exact Hk0|rewrite <- E0; exact C4]|].
          split; [|intros; lia]. intros [|j'] k Hj' Hk; [rewrite <- E0; apply C5; exact Hk|rewrite <- EE, <- C1; apply D3; [lia|exact Hk]].
        * right. exists y, (S j). split; [lia|]. split; [exact D1|]. split; [rewrite D2, L2; f_equal; lia|].
          rewrite C1 in D3. apply below_true in D3 as (y' & Ey & [D3|(x' & Ex & D3)]); [discriminate|]. injection Ey as <-. injection Ex as <-.
          split.
          { apply below_true in C3 as (x' & Ex & [C3|(z & Ez & C3)]); injection Ex as <-; apply below_true; exists y; split; auto. right. exists z. split; [exact Ez|lra]. }
          assert (F0 : forall k, (k < m)%nat -> below (e 0%nat k) (Some y) = false /\ e 0%nat k <> Some y).
          { intros k Hk. specialize (C5 k Hk). rewrite E0 in C5. split.
            - apply below_false. intros z Ez. apply (proj1 (below_false _ _)) with (x := z) in C5; [|exact Ez]. destruct C5 as (t & Et & L). injection Et as <-.
              exists y. split; [reflexivity|lra].
            - intros Ez. apply (proj1 (below_false _ _)) with (x := y) in C5; [|exact Ez]. destruct C5 as (t & Et & L). injection Et as <-. lra. }
          split; [exists k1; split; [exact Hk1|rewrite <- EE; exact D4]|].
          split; [intros [|j'] k Hj' Hk; [apply F0; exact Hk|rewrite <- EE; apply D5; [lia|exact Hk]]|].
          intros [|j'] k Hj' Hk; [apply F0; exact Hk|rewrite <- EE; apply D6; [lia|exact Hk]].
  Qed.

  (** References stay valid. *)
  Definition ref_ok (s : clone_state W) : Prop := forall a, cl_ref W s = Some a -> (a < List.length (cl_nets W s))%nat.

  (** What a configuration leaves: the overall least error and the network of the first
      iteration that attained it, as it was at the end of that iteration. *)
  Lemma clone_config c ca h (s : clone_state W) : ref_ok s ->
    let s0 := mkCl W (cl_nets W s) None (cl_ref W s) in
    let s' := clone_iters iters 0 c ca h s0 in
    exists ks, (forall j, (j < iters)%nat -> runs_for threshold steps (fun k => error c ca j k (net c ca h 0 j k)) (ks j)) /\
      List.length (cl_nets W s') = (List.length (cl_nets W s) + iters)%nat /\ ref_ok s' /\
      (cl_best W s' = None /\ held W s' = held W s /\ (forall j k, (j < iters)%nat -> (k < ks j)%nat -> error c ca j k (net c ca h 0 j k) = None) \/
       exists x j, (j < iters)%nat /\ cl_best W s' = Some x /\ held W s' = Some (net c ca h 0 j (ks j)) /\ (0 < ks j)%nat /\
         (exists k, (k < ks j)%nat /\ error c ca j k (net c ca h 0 j k) = Some x) /\
         (forall j' k y, (j' < iters)%nat -> (k < ks j')%nat -> error c ca j' k (net c ca h 0 j' k) = Some y -> x <= y) /\
         (forall j' k, (j' < j)%nat -> (k < ks j')%nat -> error c ca j' k (net c ca h 0 j' k) <> Some x)).
  Proof.
    intros Hr s0 s'. destruct (clone_iters_spec c ca iters 0 h s0) as (ks & Rk & Nk & Ck). fold s' in Nk, Ck. cbn [Nat.add s0 cl_nets cl_best cl_ref] in Rk, Nk, Ck.
    exists ks. split; [exact Rk|].
    assert (EL : List.length (cl_nets W s') = (List.length (cl_nets W s) + iters)%nat) by (rewrite Nk, app_length, map_length, seq_length; reflexivity).
    split; [exact EL|]. destruct Ck as [(D1 & D2 & D3)|(x & j & Hj & D1 & D2 & D3 & (k1 & Hk1 & D4) & D5 & D6)].
    - split; [intros a Ha; rewrite D2 in Ha; apply Hr in Ha; rewrite EL; lia|]. left. split; [exact D1|]. split.
      + unfold held. rewrite D2. destruct (cl_ref W s) as [a|] eqn:Ea; [|reflexivity]. rewrite Nk. apply nth_error_app1. apply Hr. exact Ea.
      + intros j k Hj Hk. specialize (D3 j k Hj Hk). destruct (error c ca j k (net c ca h 0 j k)); [discriminate|reflexivity].
    - split; [intros a Ha; rewrite D2 in Ha; injection Ha as <-; rewrite EL; lia|]. right. exists x, j. split; [exact Hj|]. split; [exact D1|]. split.
      + unfold held. rewrite D2, Nk, nth_error_app2 by lia. replace (List.length (cl_nets W s) + j - List.length (cl_nets W s))%nat with j by lia.
        rewrite nth_error_map. rewrite (nth_error_nth' _ 0%nat) by (rewrite seq_length; exact Hj). rewrite seq_nth by exact Hj. reflexivity.
      + split; [lia|]. split; [exists k1; auto|]. split; [|exact D6].
        intros j' k y Hj' Hk Ey. specialize (D5 j' k Hj' Hk). apply (proj1 (below_false _ _)) with (x := y) in D5; [|exact Ey].
        destruct D5 as (t & Et & L). injection Et as <-. exact L.
  Qed.

  (** Paths: without the placeholder every configuration is saved to the same file. *)
  Lemma next_path_none path cfg : ~ occurs "ca_config" path -> next_path path cfg = path.
  Proof.
    intros H. unfold next_path. destruct (contains "ca_config" path) eqn:E; [|reflexivity]. apply contains_occurs in E. contradiction.
  Qed.

  Lemma clone_all_paths cfgs : forall c h path s fs, ~ occurs "ca_config" path ->
    Forall (fun v => vd_path v = path) (snd (fst (clone_all cfgs c h path s fs))) /\
    (forall q, q <> path -> fst (fst (clone_all cfgs c h path s fs)) q = fs q).
  Proof.
    induction cfgs as [|cfg t IH]; intros c h path s fs H; cbn [MClone.clone_all fst snd]; [split; [constructor|auto]|].
    destruct (load cfg) as [ca|er]; cbn [fst snd]; [|split; [constructor|auto]].
    rewrite next_path_none by exact H.
    match goal with |- context [clone_all t (S c) h path ?s1 ?f1] => destruct (IH (S c) h path s1 f1 H) as [I1 I2]; set (r := clone_all t (S c) h path s1 f1) in * end.
    split; [constructor; [reflexivity|exact I1]|]. intros q Hq. rewrite I2 by exact Hq.
    destruct (String.eqb q path) eqn:E; [apply String.eqb_eq in E; contradiction|reflexivity].
  Qed.

  (** The verdicts name the configurations in order, one per configuration that could be loaded;
      without an error all of them. *)
  Lemma clone_all_names cfgs : forall c h path s fs,
    let r := clone_all cfgs c h path s fs in
    (snd r = Ok tt /\ map vd_name (snd (fst r)) = cfgs /\ (forall cfg, In cfg cfgs -> exists ca, load cfg = Ok ca)) \/
    (exists l cfg t er, cfgs = (l ++ cfg :: t)%list /\ load cfg = Err er /\ snd r = Err er /\ map vd_name (snd (fst r)) = l /\
       (forall q, In q l -> exists ca, load q = Ok ca)).
  Proof.
    induction cfgs as [|cfg t IH]; intros c h path s fs r; subst r; cbn [MClone.clone_all fst snd].
    - left. repeat split. intros cfg [].
    - destruct (load cfg) as [ca|er] eqn:El; cbn [fst snd].
      + match goal with |- context [clone_all t (S c) h ?p ?s1 ?f1] => destruct (IH (S c) h p s1 f1) as [(I1 & I2 & I3)|(l & cfg' & t' & er & I1 & I2 & I3 & I4 & I5)] end.
        * left. split; [exact I1|]. split; [cbn [map vd_name]; f_equal; exact I2|]. intros q [<-|Hq]; [exists ca; exact El|auto].
        * right. exists (cfg :: l), cfg', t', er. split; [rewrite I1; reflexivity|]. split; [exact I2|]. split; [exact I3|]. split; [cbn [map vd_name]; f_equal; exact I4|].
          intros q [<-|Hq]; [exists ca; exact El|auto].
      + right. exists [], cfg, t, er. repeat split; auto. intros q [].
  Qed.

  (** The verdict about the threshold is right. *)
  Lemma clone_all_met cfgs : forall c h path s fs, Forall (fun v => vd_met v = true <-> exists x, vd_best v = Some x /\ x < threshold) (snd (fst (clone_all cfgs c h path s fs))).
  Proof.
    induction cfgs as [|cfg t IH]; intros c h path s fs; cbn [MClone.clone_all fst snd]; [constructor|].
    destruct (load cfg) as [ca|er]; cbn [fst snd]; [|constructor]. constructor; [|apply IH]. cbn [vd_met vd_best]. rewrite <- good_below. reflexivity.
  Qed.

  (** One configuration. *)
  Lemma clone_one cfg ca c h path s fs : load cfg = Ok ca ->
    clone_all [cfg] c h path s fs =
    (fun q => if String.eqb q (next_path path cfg) then Some (held W (clone_iters iters 0 c ca h (mkCl W (cl_nets W s) None (cl_ref W s)))) else fs q,
     [mkVerdict cfg (cl_best W (clone_iters iters 0 c ca h (mkCl W (cl_nets W s) None (cl_ref W s))))
        (below (cl_best W (clone_iters iters 0 c ca h (mkCl W (cl_nets W s) None (cl_ref W s)))) (Some threshold)) (next_path path cfg)], Ok tt).
  Proof. intros E. cbn [MClone.clone_all]. rewrite E. reflexivity. Qed.

  (** A list is processed front to back. *)
  Definition clone_step_state (c : nat) (ca : Auto) (h : nat) (s : clone_state W) : clone_state W :=
    clone_iters iters 0 c ca h (mkCl W (cl_nets W s) None (cl_ref W s)).

  (** The file that the last configuration is saved to holds its network. *)
  Lemma clone_all_last cfgs cfg ca : forall c h path s fs, ref_ok s -> (forall q, In q cfgs -> exists a, load q = Ok a) -> load cfg = Ok ca ->
    exists s1 path1, ref_ok s1 /\ fst (fst (clone_all (cfgs ++ [cfg]) c h path s fs)) (next_path path1 cfg) =
      Some (held W (clone_step_state (c + List.length cfgs) ca h s1)) /\
      (~ occurs "ca_config" path -> path1 = path) /\
      (match cfgs with [] => path1 = path | f :: _ => ~ occurs "ca_config" (next_path path f) -> path1 = next_path path f end).
  Proof.
    induction cfgs as [|f t IH]; intros c h path s fs Hr Hl El.
    - exists s, path. split; [exact Hr|]. cbn [app]. rewrite (clone_one cfg ca) by exact El. cbn [fst]. rewrite String.eqb_refl, Nat.add_0_r. repeat split.
    - cbn [app MClone.clone_all]. destruct (Hl f (or_introl eq_refl)) as [a Ea]. rewrite Ea. cbn [fst snd].
      match goal with |- context [clone_all (t ++ [cfg]) (S c) h ?p ?s1 ?f1] => destruct (IH (S c) h p s1 f1) as (s2 & path2 & I0 & I1 & I2 & I3) end.
      + destruct (clone_config c a h s Hr) as (ks & _ & _ & R & _). exact R.
      + intros q Hq. apply Hl. right. exact Hq.
      + exact El.
      + exists s2, path2. split; [exact I0|]. split; [rewrite I1; cbn [List.length]; do 3 f_equal; lia|]. split.
        * intros H. rewrite next_path_none in I2 by exact H. apply I2. exact H.
        * intros H. apply I2. exact H.
  Qed.
End Clone.

(** ** Widths *)
Lemma width_cap most h i : (width most h (S i) <= most)%nat.
Proof. cbn [width]. apply Nat.le_min_l. Qed.

Lemma width_small most h i : (h <= 3)%nat -> (h <= most)%nat -> width most h i = h.
Proof.
  intros H Hm. induction i as [|i IH]; [reflexivity|]. cbn [width]. rewrite IH.
  assert (5 * h / 4 = h)%nat by (destruct h as [|[|[|[|h]]]]; try lia; reflexivity). lia.
Qed.

Lemma five_quarters h : (4 <= h)%nat -> (h < 5 * h / 4)%nat.
Proof. intros H. apply Nat.div_le_lower_bound; lia. Qed.

Lemma width_grows most h i : (4 <= width most h i)%nat -> (width most h i < most)%nat -> (width most h i < width most h (S i))%nat.
Proof. intros H Hm. cbn [width]. pose proof (five_quarters _ H). lia. Qed.

Lemma width_ge4 most h i : (4 <= h)%nat -> (4 <= most)%nat -> (4 <= width most h i)%nat.
Proof. intros H Hm. induction i as [|i IH]; [exact H|]. cbn [width]. pose proof (five_quarters _ IH). lia. Qed.

Lemma width_stays most h i : (4 <= most)%nat -> width most h i = most -> width most h (S i) = most.
Proof. intros Hm E. cbn [width]. rewrite E. pose proof (five_quarters _ Hm). lia. Qed.

Lemma width_reaches most h : (4 <= h)%nat -> (4 <= most)%nat -> forall i, (most - h < i)%nat -> width most h i = most.
Proof.
  intros H Hm.
  assert (G : forall i, (Nat.min most (h + i) <= width most h (S i))%nat).
  { induction i as [|i IH].
    - cbn [width]. pose proof (five_quarters _ H). lia.
    - pose proof (width_ge4 most h (S i) H Hm) as G4. pose proof (width_cap most h i) as Cp.
      destruct (Nat.eq_dec (width most h (S i)) most) as [E|E]; [rewrite (width_stays _ _ _ Hm E); lia|].
      pose proof (width_grows most h (S i) G4 ltac:(lia)). lia. }
  intros [|i] Hi; [lia|]. specialize (G i). pose proof (width_cap most h i). lia.
Qed.

(** ** Errors *)
Lemma clone_loss_eq t p : twf t -> twf p -> shape t = shape p -> (0 < tB t * tC t * tH t * tW t)%nat ->
  clone_loss t p = Ok (deviation t p) /\ relative_error t p = Ok (deviation t p).
Proof.
  intros Tt Tp Sh N. pose proof Sh as Sh'. unfold shape in Sh'. rewrite !pair_equal_spec in Sh'. destruct Sh' as (((S1 & S2) & S3) & S4).
  assert (E9 : (10 ^ 9 = 1000000000)%R) by (cbn [pow]; lra).
  split.
  - unfold clone_loss. rewrite tzip_same by exact Sh. cbn [bind].
    rewrite tzip_same by reflexivity. cbn [bind].
    rewrite tmean_ok; [|apply twf_build|exact N]. f_equal. unfold density, mass, deviation. cbn [tB tC tH tW build tmap]. f_equal.
    apply rsum_ext; intros b Hb. apply rsum_ext; intros c Hc. apply rsum_ext; intros i Hi. apply rsum_ext; intros j Hj.
    rewrite get_build by assumption. rewrite !get_tmap by (try apply twf_build; assumption). rewrite get_build by assumption.
    rewrite Rabs_minus_sym, E9. f_equal. lra.
  - unfold relative_error. rewrite tzip_same by (symmetry; exact Sh). cbn [bind].
    rewrite tzip_same by (unfold shape; cbn [tmap build tB tC tH tW]; congruence). cbn [bind].
    rewrite tmean_ok; [|apply twf_build|unfold inhabited; cbn [tmap build tB tC tH tW]; rewrite <- S1, <- S2, <- S3, <- S4; exact N].
    f_equal. unfold density, mass, deviation. cbn [tB tC tH tW build tmap]. rewrite <- S1, <- S2, <- S3, <- S4. f_equal.
    apply rsum_ext; intros b Hb. apply rsum_ext; intros c Hc. apply rsum_ext; intros i Hi. apply rsum_ext; intros j Hj.
    rewrite get_build by congruence. rewrite !get_tmap by (try apply twf_build; cbn [build tB tC tH tW]; congruence). rewrite get_build by congruence.
    rewrite E9. reflexivity.
Qed.

Lemma deviation_terms t p b c i j : 0 <= Rabs (get p b c i j - get t b c i j) / (Rabs (get t b c i j) + 1 / 10 ^ 9).
Proof.
  assert (0 < Rabs (get t b c i j) + 1 / 10 ^ 9).
  { pose proof (Rabs_pos (get t b c i j)). assert (0 < 1 / 10 ^ 9) by (apply Rdiv_lt_0_compat; [lra|apply pow_lt; lra]). lra. }
  apply Rmult_le_pos; [apply Rabs_pos|]. apply Rlt_le, Rinv_0_lt_compat. assumption.
Qed.

Lemma deviation_nonneg t p : (0 < tB t * tC t * tH t * tW t)%nat -> 0 <= deviation t p.
Proof.
  intros N. unfold deviation. apply Rmult_le_pos; [|apply Rlt_le, Rinv_0_lt_compat, lt_0_INR; exact N].
  apply rsum_nonneg; intros b Hb. apply rsum_nonneg; intros c Hc. apply rsum_nonneg; intros i Hi. apply rsum_nonneg; intros j Hj. apply deviation_terms.
Qed.

Lemma deviation_zero t p : twf t -> twf p -> shape t = shape p -> (0 < tB t * tC t * tH t * tW t)%nat -> (deviation t p = 0 <-> p = t).
Proof.
  intros Tt Tp Sh N. split.
  - intros E. unfold deviation in E. apply Rmult_integral in E as [E|E]; [|exfalso; apply (Rinv_neq_0_compat (INR (tB t * tC t * tH t * tW t))); [apply not_0_INR; lia|exact E]].
    symmetry. apply tensor_ext; try assumption. intros b c i j Hb Hc Hi Hj.
    set (d := fun b c i j => Rabs (get p b c i j - get t b c i j) / (Rabs (get t b c i j) + 1 / 10 ^ 9)) in *.
    assert (N0 : forall b c i j, 0 <= d b c i j) by (intros; apply deviation_terms).
    assert (N1 : forall b c i, 0 <= rsum (tW t) (d b c i)) by (intros; apply rsum_nonneg; intros; apply N0).
    assert (N2 : forall b c, 0 <= rsum (tH t) (fun i => rsum (tW t) (d b c i))) by (intros; apply rsum_nonneg; intros; apply N1).
    assert (N3 : forall b, 0 <= rsum (tC t) (fun c => rsum (tH t) (fun i => rsum (tW t) (d b c i)))) by (intros; apply rsum_nonneg; intros; apply N2).
    pose proof (rsum_0_inv (tB t) (fun b => rsum (tC t) (fun c => rsum (tH t) (fun i => rsum (tW t) (d b c i)))) (fun k _ => N3 k) (Req_le _ _ E) b Hb) as E1.
    pose proof (rsum_0_inv (tC t) (fun c => rsum (tH t) (fun i => rsum (tW t) (d b c i))) (fun k _ => N2 b k) (Req_le _ _ E1) c Hc) as E2.
    pose proof (rsum_0_inv (tH t) (fun i => rsum (tW t) (d b c i)) (fun k _ => N1 b c k) (Req_le _ _ E2) i Hi) as E3.
    pose proof (rsum_0_inv (tW t) (d b c i) (fun k _ => N0 b c i k) (Req_le _ _ E3) j Hj) as E4. unfold d in E4.
    assert (P : 0 < Rabs (get t b c i j) + 1 / 10 ^ 9).
    { pose proof (Rabs_pos (get t b c i j)). assert (0 < 1 / 10 ^ 9) by (apply Rdiv_lt_0_compat; [lra|apply pow_lt; lra]). lra. }
    apply Rmult_integral in E4 as [E4|E4]; [|exfalso; apply (Rinv_neq_0_compat _ (Rgt_not_eq _ _ P) E4)].
    destruct (Req_dec (get p b c i j - get t b c i j) 0) as [Z|Z]; [lra|]. apply Rabs_no_R0 in Z. contradiction.
  - intros ->. unfold deviation.
    assert (Z : rsum (tB t) (fun b => rsum (tC t) (fun c => rsum (tH t) (fun i => rsum (tW t) (fun j => Rabs (get t b c i j - get t b c i j) / (Rabs (get t b c i j) + 1 / 10 ^ 9))))) = 0).
    { apply rsum_0. intros b _. apply rsum_0. intros c _. apply rsum_0. intros i _. apply rsum_0. intros j _.
      rewrite Rminus_diag_eq by reflexivity. rewrite Rabs_R0. unfold Rdiv. ring. }
    rewrite Z. unfold Rdiv. ring.
Qed.

(** ** Stems of paths *)
Lemma last_slash_none s : last_slash s = None <-> lacks "/" s.
Proof.
  induction s as [|a t IH]; cbn [last_slash lacks every]; [tauto|]. unfold lacks in IH.
  destruct (last_slash t) as [[d f]|]; [split; [discriminate|intros [_ H]; apply IH in H; discriminate]|].
  destruct (Ascii.eqb a "/") eqn:E; [apply Ascii.eqb_eq in E; split; [discriminate|intros [H _]; contradiction]|].
  apply Ascii.eqb_neq in E. split; [|reflexivity]. intros _. split; [exact E|apply IH; reflexivity].
Qed.

Lemma last_slash_some d f : lacks "/" f -> last_slash (d ++ String "/" f)%string = Some ((d ++ "/")%string, f).
Proof.
  intros H. apply last_slash_none in H. induction d as [|a d IH]; cbn [append last_slash]; [rewrite H; reflexivity|]. rewrite IH. reflexivity.
Qed.

Lemma path_stem_plain s : lacks "/" s -> path_stem s = stem s.
Proof. intros H. unfold path_stem. apply last_slash_none in H. rewrite H. reflexivity. Qed.

Lemma path_stem_dir d f : lacks "/" f -> path_stem (d ++ String "/" f)%string = (d ++ String "/" (stem f))%string.
Proof. intros H. unfold path_stem. rewrite last_slash_some by exact H. rewrite append_assoc_s. reflexivity. Qed.
