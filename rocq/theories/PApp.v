(** Proofs about the demonstration server. *)
From Coq Require Import Reals Lra Lia ZArith List Arith Bool String Permutation.
From Verif Require Import Base Tensor MText MLibrarian MAnalyze MApp SApp SLibrarian PLibrarian.
Import ListNotations.
Open Scope string_scope.
Open Scope list_scope.
Open Scope nat_scope.

(** ** Placing *)
Lemma corner_small k : k <= 90 -> corner k = Z.of_nat ((96 - k) / 2 - 3).
Proof.
  intros H. unfold corner. assert (E : 3 <= (96 - k) / 2) by (apply Nat.div_le_lower_bound; lia).
  rewrite Nat2Z.inj_sub by exact E. rewrite Nat2Z.inj_div, Nat2Z.inj_sub by lia. reflexivity.
Qed.

Lemma slice_small n z : z <= n -> slice_norm n (Z.of_nat z) = z.
Proof. intros H. unfold slice_norm. destruct (Z.ltb_spec (Z.of_nat z) 0); [lia|]. rewrite Nat2Z.id. lia. Qed.

Lemma window k : k <= 90 -> slice_norm 96 (corner k) = (96 - k) / 2 - 3 /\
  slice_norm 96 (corner k + Z.of_nat k) = (96 - k) / 2 - 3 + k /\ (96 - k) / 2 - 3 + k <= 96.
Proof.
  intros H. rewrite (corner_small k H). assert (U : (96 - k) / 2 - 3 + k <= 96).
  { assert ((96 - k) / 2 <= 96 - k) by (apply Nat.div_le_upper_bound; lia). lia. }
  split; [apply slice_small; lia|]. split; [|exact U].
  rewrite <- Nat2Z.inj_add. apply slice_small. exact U.
Qed.

Lemma window_big k : 90 < k -> slice_norm 96 (corner k + Z.of_nat k) - slice_norm 96 (corner k) <> k.
Proof.
  intros H. unfold corner. pose proof (Z.div_mod (96 - Z.of_nat k) 2 ltac:(lia)) as D.
  pose proof (Z.mod_pos_bound (96 - Z.of_nat k) 2 ltac:(lia)) as B.
  set (q := ((96 - Z.of_nat k) / 2)%Z) in *. unfold slice_norm.
  destruct (Z.ltb_spec (q - 3 + Z.of_nat k) 0); destruct (Z.ltb_spec (q - 3) 0); lia.
Qed.

Lemma place_fits p : fits p -> exists g, place p = Ok g /\ centred p g.
Proof.
  intros (HB & HC & HH & HW). unfold place.
  destruct (window (tH p) HH) as (E1 & E2 & E3). destruct (window (tW p) HW) as (F1 & F2 & F3).
  rewrite E1, E2, F1, F2, HB, HC.
  replace ((96 - tH p) / 2 - 3 + tH p - ((96 - tH p) / 2 - 3)) with (tH p) by lia.
  replace ((96 - tW p) / 2 - 3 + tW p - ((96 - tW p) / 2 - 3)) with (tW p) by lia.
  set (i0 := (96 - tH p) / 2 - 3) in *. set (j0 := (96 - tW p) / 2 - 3) in *.
  rewrite !Nat.eqb_refl. cbn [guard bind andb orb]. eexists. split; [reflexivity|].
  split; [reflexivity|]. split.
  - intros i j Hi Hj. fold i0 j0. rewrite get_build by lia.
    destruct (Nat.leb_spec i0 (i0 + i)); [|lia]. destruct (Nat.ltb_spec (i0 + i) (i0 + tH p)); [|lia].
    destruct (Nat.leb_spec j0 (j0 + j)); [|lia]. destruct (Nat.ltb_spec (j0 + j) (j0 + tW p)); [|lia].
    cbn [andb]. unfold bget. f_equal; unfold bidx.
    + rewrite HB. reflexivity.
    + rewrite HC. reflexivity.
    + destruct (Nat.eqb_spec (tH p) 1); lia.
    + destruct (Nat.eqb_spec (tW p) 1); lia.
  - intros i j Hi Hj N. fold i0 j0 in N. rewrite get_build by lia.
    destruct (Nat.leb_spec i0 i); [|reflexivity]. destruct (Nat.ltb_spec i (i0 + tH p)); [|reflexivity].
    destruct (Nat.leb_spec j0 j); [|reflexivity]. destruct (Nat.ltb_spec j (j0 + tW p)); [|reflexivity].
    exfalso. apply N. lia.
Qed.

Lemma place_too_big p : ~ fits p -> place p = Err RuntimeError.
Proof.
  intros N. unfold place.
  destruct (Nat.eqb_spec (tB p) 1) as [HB|]; [|reflexivity].
  destruct (Nat.eqb_spec (tC p) 1) as [HC|]; [|reflexivity]. cbn [andb].
  destruct (Nat.le_gt_cases (tH p) 90) as [HH|HH].
  - destruct (Nat.le_gt_cases (tW p) 90) as [HW|HW]; [exfalso; apply N; repeat split; assumption|].
    pose proof (window_big _ HW) as E.
    destruct (Nat.eqb_spec (tW p) (slice_norm 96 (corner (tW p) + Z.of_nat (tW p)) - slice_norm 96 (corner (tW p)))); [congruence|].
    destruct (Nat.eqb_spec (tW p) 1); [lia|]. cbn [orb]. rewrite andb_false_r. reflexivity.
  - pose proof (window_big _ HH) as E.
    destruct (Nat.eqb_spec (tH p) (slice_norm 96 (corner (tH p) + Z.of_nat (tH p)) - slice_norm 96 (corner (tH p)))); [congruence|].
    destruct (Nat.eqb_spec (tH p) 1); [lia|]. reflexivity.
Qed.

(** ** Lists *)
Lemma pop_last_app {X} (l : list X) x : pop_last (l ++ [x]) = Some (x, l).
Proof. unfold pop_last. rewrite rev_app_distr. cbn. rewrite rev_involutive. reflexivity. Qed.

Lemma pop_last_none {X} (l : list X) : pop_last l = None <-> l = [].
Proof.
  split; [|intros ->; reflexivity]. unfold pop_last. destruct (rev l) eqn:E; [|discriminate].
  intros _. rewrite <- (rev_involutive l), E. reflexivity.
Qed.

Lemma list_last {X} (l : list X) : l = [] \/ exists a x, l = a ++ [x].
Proof. destruct l as [|y t]; [auto|]. right. destruct (@exists_last _ (y :: t)) as (a & x & E); [discriminate|]. eauto. Qed.

Lemma rotation_refl {X} (l : list X) : rotation l l.
Proof. exists [], l. split; [reflexivity|]. rewrite app_nil_r. reflexivity. Qed.

Lemma rotation_step {X} (x : X) l : rotation (x :: l) (l ++ [x]).
Proof. exists [x], l. split; reflexivity. Qed.

Lemma rotation_trans {X} (l m n : list X) : rotation l m -> rotation m n -> rotation l n.
Proof.
  intros (a & b & -> & ->) (c & e & E & ->).
  apply app_eq_app in E. destruct E as (z & [[-> ->]|[-> ->]]).
  - exists (a ++ c), z. split; rewrite <- ?app_assoc; reflexivity.
  - exists z, (e ++ b). split; [rewrite <- app_assoc; reflexivity|]. rewrite <- app_assoc. reflexivity.
Qed.

Lemma rotation_sym {X} (l m : list X) : rotation l m -> rotation m l.
Proof. intros (a & b & -> & ->). exists b, a. split; reflexivity. Qed.

Lemma rotation_perm {X} (l m : list X) : rotation l m -> Permutation l m.
Proof. intros (a & b & -> & ->). apply Permutation_app_comm. Qed.

Lemma rotation_nil {X} (m : list X) : rotation [] m -> m = [].
Proof. intros H. apply Permutation_nil. apply rotation_perm. exact H. Qed.

Lemma perm_all {X} (P : X -> Prop) l m : Permutation l m -> Forall P l -> Forall P m.
Proof. intros Q H. rewrite Forall_forall in *. intros x I. apply H. exact (Permutation_in x (Permutation_sym Q) I). Qed.

(** ** Showing an entry *)
Lemma show_ok {C} (k : machine C) d name s : usable k d name ->
  exists p m s', load d name = Ok (p, m) /\ show k d name s = (s', Ok (m_commit m)) /\
    centred p (a_grid s') /\ a_index s' = a_index s ++ [name] /\ a_alias s' = ("alias: " ++ name)%string /\
    a_ca s' = fst (restore k (a_ca s) (m_config m)) /\
    a_config s' = (String nl "CA config: " ++ stem (m_config m) ++ " ")%string /\
    a_entry s' = (String nl "evolved with: " ++ m_entry m)%string /\
    a_git s' = (String nl "at git commit hash: " ++ String nl " " ++ m_commit m)%string /\
    a_callbacks s' = a_callbacks s /\ a_label s' = a_label s /\ a_period s' = a_period s /\ a_step s' = a_step s.
Proof.
  intros (p & m & L & F & R). destruct (place_fits p F) as (g & G & Z).
  exists p, m. unfold show. rewrite L. specialize (R (a_ca s)). destruct (restore k (a_ca s) (m_config m)) as [c x] eqn:E.
  cbn [snd] in R. subst x. rewrite G. eexists. split; [reflexivity|]. split; [reflexivity|].
  unfold with_texts, with_index, with_grid, with_ca. cbn [a_grid a_index a_alias a_ca a_callbacks a_label a_period a_step fst a_config a_entry a_git].
  split; [exact Z|]. repeat (split; [reflexivity|]). reflexivity.
Qed.

Lemma not_hidden d name p m : load d name = Ok (p, m) -> ~ hidden_entry d name -> m_commit m <> "none".
Proof. intros L N E. apply N. exists p, m. split; assumption. Qed.

Lemma load_fun (d : dir tensor) name p m p' m' : load d name = Ok (p, m) -> load d name = Ok (p', m') -> p = p' /\ m = m'.
Proof. intros H1 H2. rewrite H1 in H2. injection H2 as -> ->. split; reflexivity. Qed.

(** ** Next *)
Lemma next_one {C} (k : machine C) d f x rest s : a_index s = x :: rest -> usable k d x ->
  exists s1, a_index s1 = rest ++ [x] /\ showing d x s1 /\
    a_callbacks s1 = a_callbacks s /\ a_label s1 = a_label s /\ a_period s1 = a_period s /\ a_step s1 = a_step s /\
    (visible_entry d x -> reset_next (S f) k d s = (s1, None)) /\
    (hidden_entry d x -> reset_next (S f) k d s = reset_next f k d s1).
Proof.
  intros I U. destruct (show_ok k d x (with_index rest (with_grid blank s)) U)
    as (p & m & s1 & L & E & Z & Ix & Al & _ & _ & _ & _ & Cb & Lb & Pe & St).
  exists s1. split; [exact Ix|]. split; [exists p, m; auto|].
  split; [exact Cb|]. split; [exact Lb|]. split; [exact Pe|]. split; [exact St|].
  cbn [reset_next]. change (a_index (with_grid blank s)) with (a_index s). rewrite I. cbn [pop_first]. rewrite E.
  split.
  - intros (p' & m' & L' & N). destruct (load_fun _ _ _ _ _ _ L L') as [<- <-].
    destruct (String.eqb_spec (m_commit m) "none"); [contradiction|reflexivity].
  - intros (p' & m' & L' & N). destruct (load_fun _ _ _ _ _ _ L L') as [<- <-]. rewrite N. reflexivity.
Qed.

Lemma next_skips {C} (k : machine C) d a : forall x b s fuel, a_index s = a ++ x :: b ->
  Forall (usable k d) (a_index s) -> Forall (hidden_entry d) a -> visible_entry d x -> List.length a < fuel ->
  exists s', reset_next fuel k d s = (s', None) /\ a_index s' = b ++ a ++ [x] /\ showing d x s' /\
    a_callbacks s' = a_callbacks s /\ a_label s' = a_label s /\ a_period s' = a_period s /\ a_step s' = a_step s.
Proof.
  induction a as [|y a IH]; intros x b s fuel I U Hh V L; (destruct fuel as [|f]; [cbn in L; lia|]).
  - cbn [app] in I. rewrite I in U. apply Forall_inv in U as Ux.
    destruct (next_one k d f x b s I Ux) as (s1 & Ix & Sh & Cb & Lb & Pe & St & Ev & _).
    exists s1. split; [exact (Ev V)|]. split; [exact Ix|]. repeat (split; [assumption|]). assumption.
  - cbn [app] in I. rewrite I in U. apply Forall_inv in U as Uy. apply Forall_inv_tail in U as Ut.
    destruct (next_one k d f y (a ++ x :: b) s I Uy) as (s1 & Ix & Sh & Cb & Lb & Pe & St & _ & Eh).
    rewrite (Eh (Forall_inv Hh)).
    destruct (IH x (b ++ [y]) s1 f) as (s' & E & Ix' & Sh' & Cb' & Lb' & Pe' & St').
    + rewrite Ix, <- app_assoc. reflexivity.
    + rewrite Ix. apply Forall_app. split; [exact Ut|]. constructor; [exact Uy|constructor].
    + exact (Forall_inv_tail Hh).
    + exact V.
    + cbn in L. lia.
    + exists s'. split; [exact E|]. split; [rewrite Ix', <- app_assoc; reflexivity|]. split; [exact Sh'|].
      rewrite Cb', Lb', Pe', St'. auto.
Qed.

Lemma next_hidden {C} (k : machine C) d fuel : forall s, Forall (usable k d) (a_index s) -> a_index s <> [] ->
  Forall (hidden_entry d) (a_index s) -> exists s', reset_next fuel k d s = (s', Some OutOfFuel) /\ rotation (a_index s) (a_index s').
Proof.
  induction fuel as [|f IH]; intros s U N Hh.
  - exists s. split; [reflexivity|apply rotation_refl].
  - destruct (a_index s) as [|x rest] eqn:I; [contradiction|].
    destruct (next_one k d f x rest s I (Forall_inv U)) as (s1 & Ix & _ & _ & _ & _ & _ & _ & Eh).
    rewrite (Eh (Forall_inv Hh)). destruct (IH s1) as (s' & E & R).
    + rewrite Ix. apply Forall_app. split; [exact (Forall_inv_tail U)|]. constructor; [exact (Forall_inv U)|constructor].
    + rewrite Ix. destruct rest; discriminate.
    + rewrite Ix. apply Forall_app. split; [exact (Forall_inv_tail Hh)|]. constructor; [exact (Forall_inv Hh)|constructor].
    + exists s'. split; [exact E|]. rewrite Ix in R. exact (rotation_trans _ _ _ (rotation_step x rest) R).
Qed.

(** ** Previous *)
Lemma prev_one {C} (k : machine C) d f x y a s : a_index s ++ [] = a ++ [x; y] \/ (a = [] /\ a_index s = [y] /\ x = y) -> usable k d x ->
  exists s1, (a_index s = [y] -> a_index s1 = [y]) /\ (a_index s = a ++ [x; y] -> a_index s1 = y :: a ++ [x]) /\ showing d x s1 /\
    a_callbacks s1 = a_callbacks s /\ a_label s1 = a_label s /\ a_period s1 = a_period s /\ a_step s1 = a_step s /\
    (visible_entry d x -> reset_prev (S f) k d s = (s1, None)) /\
    (hidden_entry d x -> reset_prev (S f) k d s = reset_prev f k d s1).
Proof.
  intros I U. rewrite app_nil_r in I.
  assert (Q : exists rest, (match pop_last (a_index s) with None => None | Some (n, r) => pop_last (n :: r) end) = Some (x, rest) /\
            (a_index s = [y] -> rest = []) /\ (a_index s = a ++ [x; y] -> rest = y :: a)).
  { destruct I as [I|(-> & I & ->)]; rewrite I.
    - replace (a ++ [x; y]) with ((a ++ [x]) ++ [y]) by (rewrite <- app_assoc; reflexivity). rewrite pop_last_app.
      change (y :: a ++ [x]) with ((y :: a) ++ [x]). rewrite pop_last_app. exists (y :: a). split; [reflexivity|].
      split; [|reflexivity]. intros E. exfalso. apply (f_equal (@List.length _)) in E. rewrite !app_length in E. cbn in E. lia.
    - exists []. split; [reflexivity|]. split; [reflexivity|discriminate]. }
  destruct Q as (rest & Q & R1 & R2).
  destruct (show_ok k d x (with_index rest (with_grid blank s)) U)
    as (p & m & s1 & L & E & Z & Ix & Al & _ & _ & _ & _ & Cb & Lb & Pe & St).
  cbn [a_index with_index with_grid] in Ix.
  exists s1. split.
  { intros H. rewrite Ix, (R1 H). destruct I as [I|(-> & I' & ->)]; [|reflexivity].
    exfalso. rewrite I in H. apply (f_equal (@List.length _)) in H. rewrite app_length in H. cbn in H. lia. }
  split; [intros H; rewrite Ix, (R2 H); reflexivity|]. split; [exists p, m; auto|].
  split; [exact Cb|]. split; [exact Lb|]. split; [exact Pe|]. split; [exact St|].
  cbn [reset_prev]. change (a_index (with_grid blank s)) with (a_index s).
  destruct (pop_last (a_index s)) as [[n r]|]; [|discriminate]. rewrite Q, E.
  split.
  - intros (p' & m' & L' & N). destruct (load_fun _ _ _ _ _ _ L L') as [<- <-].
    destruct (String.eqb_spec (m_commit m) "none"); [contradiction|reflexivity].
  - intros (p' & m' & L' & N). destruct (load_fun _ _ _ _ _ _ L L') as [<- <-]. rewrite N. reflexivity.
Qed.

Lemma prev_skips {C} (k : machine C) d h : forall b x y s fuel, a_index s = b ++ x :: h ++ [y] ->
  Forall (usable k d) (a_index s) -> Forall (hidden_entry d) h -> visible_entry d x -> List.length h < fuel ->
  exists s', reset_prev fuel k d s = (s', None) /\ a_index s' = h ++ y :: b ++ [x] /\ showing d x s' /\
    a_callbacks s' = a_callbacks s /\ a_label s' = a_label s /\ a_period s' = a_period s /\ a_step s' = a_step s.
Proof.
  induction h as [|z h' IH] using rev_ind; intros b x y s fuel I U Hh V L; (destruct fuel as [|f]; [cbn in L; lia|]).
  - cbn [app] in I. assert (Ux : usable k d x) by (rewrite I in U; apply Forall_app in U; exact (Forall_inv (proj2 U))).
    destruct (prev_one k d f x y b s) as (s1 & _ & Ix & Sh & Cb & Lb & Pe & St & Ev & _); [left; rewrite app_nil_r; exact I|exact Ux|].
    exists s1. split; [exact (Ev V)|]. split; [exact (Ix I)|]. repeat (split; [assumption|]). assumption.
  - apply Forall_app in Hh as [Hh Hz]. apply Forall_inv in Hz.
    assert (I' : a_index s = (b ++ x :: h') ++ [z; y]) by (rewrite I, <- !app_assoc; cbn [app]; reflexivity).
    assert (Uz : usable k d z) by (rewrite I' in U; apply Forall_app in U; exact (Forall_inv (proj2 U))).
    destruct (prev_one k d f z y (b ++ x :: h') s) as (s1 & _ & Ix & Sh & Cb & Lb & Pe & St & _ & Eh); [left; rewrite app_nil_r; exact I'|exact Uz|].
    rewrite (Eh Hz). specialize (Ix I').
    destruct (IH (y :: b) x z s1 f) as (s' & E & Ix' & Sh' & Cb' & Lb' & Pe' & St').
    + rewrite Ix. cbn [app]. rewrite <- app_assoc. reflexivity.
    + rewrite Ix. apply perm_all with (l := a_index s); [|exact U]. rewrite I'.
      change [z; y] with ([z] ++ [y]). rewrite app_assoc. apply Permutation_sym, Permutation_cons_append.
    + exact Hh.
    + exact V.
    + rewrite app_length in L. cbn in L. lia.
    + exists s'. split; [exact E|]. split; [rewrite Ix', <- app_assoc; reflexivity|]. split; [exact Sh'|].
      rewrite Cb', Lb', Pe', St'. auto.
Qed.

(** When nothing else can be seen, going back comes round to the entry on display. *)
Lemma prev_round {C} (k : machine C) d h y s fuel : a_index s = h ++ [y] ->
  Forall (usable k d) (a_index s) -> Forall (hidden_entry d) h -> visible_entry d y -> List.length h < fuel ->
  exists s', reset_prev fuel k d s = (s', None) /\ a_index s' = h ++ [y] /\ showing d y s'.
Proof.
  destruct (list_last h) as [->|(h' & z & ->)]; intros I U Hh V L; (destruct fuel as [|f]; [lia|]).
  - cbn [app] in I. assert (Uy : usable k d y) by (rewrite I in U; exact (Forall_inv U)).
    destruct (prev_one k d f y y [] s) as (s1 & Ix & _ & Sh & _ & _ & _ & _ & Ev & _); [right; auto|exact Uy|].
    exists s1. split; [exact (Ev V)|]. split; [exact (Ix I)|exact Sh].
  - apply Forall_app in Hh as [Hh Hz]. apply Forall_inv in Hz.
    assert (I' : a_index s = h' ++ [z; y]) by (rewrite I, <- app_assoc; reflexivity).
    assert (Uz : usable k d z) by (rewrite I' in U; apply Forall_app in U; exact (Forall_inv (proj2 U))).
    destruct (prev_one k d f z y h' s) as (s1 & _ & Ix & _ & _ & _ & _ & _ & _ & Eh); [left; rewrite app_nil_r; exact I'|exact Uz|].
    rewrite (Eh Hz). specialize (Ix I').
    destruct (prev_skips k d h' [] y z s1 f) as (s' & E & Ix' & Sh' & _).
    + rewrite Ix. reflexivity.
    + rewrite Ix. apply perm_all with (l := a_index s); [|exact U]. rewrite I'.
      change [z; y] with ([z] ++ [y]). rewrite app_assoc. apply Permutation_sym, Permutation_cons_append.
    + exact Hh.
    + exact V.
    + rewrite app_length in L. cbn in L. lia.
    + exists s'. split; [exact E|]. split; [rewrite Ix', <- app_assoc; reflexivity|exact Sh'].
Qed.

Lemma prev_hidden {C} (k : machine C) d fuel : forall s, Forall (usable k d) (a_index s) -> a_index s <> [] ->
  Forall (hidden_entry d) (a_index s) -> exists s', reset_prev fuel k d s = (s', Some OutOfFuel) /\ rotation (a_index s) (a_index s').
Proof.
  induction fuel as [|f IH]; intros s U N Hh.
  - exists s. split; [reflexivity|apply rotation_refl].
  - destruct (list_last (a_index s)) as [I|(a & y & I)]; [contradiction|].
    destruct (list_last a) as [->|(b & x & ->)].
    + cbn [app] in I. rewrite I in U, Hh. destruct (prev_one k d f y y [] s) as (s1 & Ix & _ & _ & _ & _ & _ & _ & _ & Eh); [right; auto|exact (Forall_inv U)|].
      rewrite (Eh (Forall_inv Hh)). specialize (Ix I). rewrite I, <- Ix. apply IH; rewrite Ix; [exact U|discriminate|exact Hh].
    + rewrite <- app_assoc in I. cbn [app] in I.
      assert (P : Permutation (a_index s) (y :: b ++ [x])).
      { rewrite I. change [x; y] with ([x] ++ [y]). rewrite app_assoc. apply Permutation_sym, Permutation_cons_append. }
      assert (Ux : usable k d x) by (rewrite I in U; apply Forall_app in U; exact (Forall_inv (proj2 U))).
      assert (Hx : hidden_entry d x) by (rewrite I in Hh; apply Forall_app in Hh; exact (Forall_inv (proj2 Hh))).
      destruct (prev_one k d f x y b s) as (s1 & _ & Ix & _ & _ & _ & _ & _ & _ & Eh); [left; rewrite app_nil_r; exact I|exact Ux|].
      rewrite (Eh Hx). specialize (Ix I). destruct (IH s1) as (s' & E & R).
      * rewrite Ix. exact (perm_all _ _ _ P U).
      * rewrite Ix. discriminate.
      * rewrite Ix. exact (perm_all _ _ _ P Hh).
      * exists s'. split; [exact E|]. rewrite Ix in R. apply rotation_trans with (y :: b ++ [x]); [|exact R].
        rewrite I. exists (b ++ [x]), [y]. split; [rewrite <- app_assoc; reflexivity|reflexivity].
Qed.

(** ** This *)
Lemma append_empty s : (s ++ "")%string = s.
Proof. induction s as [|a s IH]; [reflexivity|]. cbn. rewrite IH. reflexivity. Qed.

Lemma this_ok {C} (k : machine C) d a y s : a_index s = a ++ [y] -> usable k d y ->
  exists p m s', load d y = Ok (p, m) /\ reset_this k d s = (s', None) /\ a_index s' = a_index s /\ centred p (a_grid s') /\
    a_alias s' = ("alias: " ++ y)%string /\ a_ca s' = fst (restore k (a_ca s) (m_config m)) /\
    a_config s' = (String nl "CA config: " ++ stem (m_config m) ++ " ")%string /\
    a_entry s' = (String nl "evolved with: " ++ String nl (m_entry m))%string /\
    (m_notes m = "" -> a_git s' = (String nl "at git commit hash: " ++ String nl (m_commit m))%string) /\
    (m_notes m <> "" -> a_git s' = (String nl "at git commit hash: " ++ String nl (m_commit m) ++ String nl (String nl "note: ") ++ m_notes m)%string) /\
    a_callbacks s' = a_callbacks s /\ a_label s' = a_label s /\ a_period s' = a_period s /\ a_step s' = a_step s.
Proof.
  intros I (p & m & L & F & R). destruct (place_fits p F) as (g & G & Z).
  exists p, m. unfold reset_this. change (a_index (with_grid blank s)) with (a_index s). rewrite I, pop_last_app, L.
  specialize (R (a_ca s)).
  change (a_ca (with_index (a ++ [y]) (with_index a (with_grid blank s)))) with (a_ca s).
  destruct (restore k (a_ca s) (m_config m)) as [c x] eqn:E.
  cbn [snd] in R. subst x. rewrite G. eexists. split; [reflexivity|]. split; [reflexivity|].
  unfold with_texts, with_index, with_grid, with_ca. cbn [a_grid a_index a_alias a_ca a_callbacks a_label a_period a_step fst a_config a_entry a_git].
  split; [reflexivity|]. split; [exact Z|]. split; [reflexivity|]. split; [reflexivity|]. split; [reflexivity|]. split; [reflexivity|].
  split.
  { intros N. rewrite N, String.eqb_refl. unfold nls. rewrite append_empty. reflexivity. }
  split.
  { intros N. destruct (String.eqb_spec (m_notes m) ""); [contradiction|]. reflexivity. }
  repeat (split; [reflexivity|]). reflexivity.
Qed.

(** ** There and back *)
Lemma next_prev {C} (k : machine C) d s cur a fuel : a_index s = a ++ [cur] -> Forall (usable k d) (a_index s) ->
  visible_entry d cur -> List.length (a_index s) <= fuel ->
  exists s1 s2, reset_next fuel k d s = (s1, None) /\ reset_prev fuel k d s1 = (s2, None) /\
    a_index s2 = a_index s /\ showing d cur s2.
Proof.
  intros I U V L.
  assert (D : (Forall (hidden_entry d) a) \/ exists h x b, a = h ++ x :: b /\ Forall (hidden_entry d) h /\ visible_entry d x).
  { rewrite I in U. apply Forall_app in U as [U _]. clear I L V. induction a as [|z a IH]; [left; constructor|].
    apply Forall_inv in U as Uz. apply Forall_inv_tail in U. destruct Uz as (p & m & Lz & _).
    destruct (string_dec (m_commit m) "none") as [E|E].
    - assert (Hz : hidden_entry d z) by (exists p, m; auto). destruct (IH U) as [H|(h & x & b & -> & H & V)].
      + left. constructor; assumption.
      + right. exists (z :: h), x, b. split; [reflexivity|]. split; [constructor; assumption|assumption].
    - right. exists [], z, a. split; [reflexivity|]. split; [constructor|exists p, m; auto]. }
  assert (N : List.length (a_index s) = S (List.length a)) by (rewrite I, app_length; cbn; lia).
  destruct D as [Hh|(h & x & b & -> & Hh & Vx)].
  - destruct (next_skips k d a cur [] s fuel I U Hh V ltac:(lia)) as (s1 & E1 & I1 & _).
    cbn [app] in I1. destruct (prev_round k d a cur s1 fuel I1) as (s2 & E2 & I2 & Sh).
    + rewrite I1, <- I. exact U.
    + exact Hh.
    + exact V.
    + lia.
    + exists s1, s2. split; [exact E1|]. split; [exact E2|]. split; [rewrite I2, I; reflexivity|exact Sh].
  - assert (I' : a_index s = h ++ x :: b ++ [cur]) by (rewrite I, <- app_assoc; reflexivity).
    rewrite app_length in N. cbn in N.
    destruct (next_skips k d h x (b ++ [cur]) s fuel I' U Hh Vx ltac:(lia)) as (s1 & E1 & I1 & _).
    assert (I1' : a_index s1 = b ++ cur :: h ++ [x]) by (rewrite I1, <- app_assoc; reflexivity).
    destruct (prev_skips k d h b cur x s1 fuel I1') as (s2 & E2 & I2 & Sh & _).
    + rewrite I1'. apply (perm_all _ (a_index s)); [|exact U]. rewrite I'.
      apply Permutation_trans with ((b ++ [cur]) ++ h ++ [x]).
      * change (x :: b ++ [cur]) with ([x] ++ b ++ [cur]). rewrite app_assoc. apply Permutation_app_comm.
      * rewrite <- app_assoc. apply Permutation_refl.
    + exact Hh.
    + exact V.
    + lia.
    + exists s1, s2. split; [exact E1|]. split; [exact E2|]. split; [rewrite I2, I'; reflexivity|exact Sh].
Qed.

(** ** Histories *)
Definition browse (e : event) : Prop := e = ENext \/ e = EPrev \/ e = EThis.

Lemma show_index {C} (k : machine C) d name s s' x : show k d name s = (s', x) ->
  (a_index s' = a_index s /\ exists e, x = Err e) \/ (a_index s' = a_index s ++ [name] /\ exists h, x = Ok h).
Proof.
  unfold show. destruct (load d name) as [[p m]|e]; [|intros E; injection E as <- <-; left; eauto].
  destruct (restore k (a_ca s) (m_config m)) as [c [e|]]; [intros E; injection E as <- <-; left; split; [reflexivity|eauto]|].
  destruct (place p) as [g|e]; intros E; injection E as <- <-; [right|left]; split; eauto; reflexivity.
Qed.

Lemma show_controls {C} (k : machine C) d name s s' x : show k d name s = (s', x) ->
  a_callbacks s' = a_callbacks s /\ a_label s' = a_label s /\ a_period s' = a_period s /\ a_step s' = a_step s.
Proof.
  unfold show. destruct (load d name) as [[p m]|e]; [|intros E; injection E as <- <-; auto].
  destruct (restore k (a_ca s) (m_config m)) as [c [e|]]; [intros E; injection E as <- <-; repeat split; reflexivity|].
  destruct (place p) as [g|e]; intros E; injection E as <- <-; repeat split; reflexivity.
Qed.

Definition same_controls {C} (s s' : server C) : Prop :=
  a_callbacks s' = a_callbacks s /\ a_label s' = a_label s /\ a_period s' = a_period s /\ a_step s' = a_step s.

Lemma next_controls {C} (k : machine C) d fuel : forall s s' x, reset_next fuel k d s = (s', x) -> same_controls s s'.
Proof.
  induction fuel as [|f IH]; intros s s' x E; [injection E as <- <-; repeat split; reflexivity|].
  cbn [reset_next] in E. change (a_index (with_grid blank s)) with (a_index s) in E.
  destruct (pop_first (a_index s)) as [[n r]|]; [|injection E as <- <-; repeat split; reflexivity].
  destruct (show k d n (with_index r (with_grid blank s))) as [s1 [h|e]] eqn:Q;
    apply show_controls in Q; destruct Q as (Q1 & Q2 & Q3 & Q4).
  - destruct (String.eqb h "none").
    + destruct (IH _ _ _ E) as (P1 & P2 & P3 & P4). unfold same_controls. rewrite P1, P2, P3, P4. auto.
    + injection E as <- <-. repeat split; assumption.
  - injection E as <- <-. repeat split; assumption.
Qed.

Lemma prev_controls {C} (k : machine C) d fuel : forall s s' x, reset_prev fuel k d s = (s', x) -> same_controls s s'.
Proof.
  induction fuel as [|f IH]; intros s s' x E; [injection E as <- <-; repeat split; reflexivity|].
  cbn [reset_prev] in E. change (a_index (with_grid blank s)) with (a_index s) in E.
  destruct (pop_last (a_index s)) as [[n r]|]; [|injection E as <- <-; repeat split; reflexivity].
  destruct (pop_last (n :: r)) as [[n' r']|]; [|injection E as <- <-; repeat split; reflexivity].
  destruct (show k d n' (with_index r' (with_grid blank s))) as [s1 [h|e]] eqn:Q;
    apply show_controls in Q; destruct Q as (Q1 & Q2 & Q3 & Q4).
  - destruct (String.eqb h "none").
    + destruct (IH _ _ _ E) as (P1 & P2 & P3 & P4). unfold same_controls. rewrite P1, P2, P3, P4. auto.
    + injection E as <- <-. repeat split; assumption.
  - injection E as <- <-. repeat split; assumption.
Qed.

Lemma this_controls {C} (k : machine C) d s s' x : reset_this k d s = (s', x) -> same_controls s s'.
Proof.
  unfold reset_this. destruct (pop_last _) as [[n r]|]; [|intros E; injection E as <- <-; repeat split; reflexivity].
  destruct (load d n) as [[p m]|e]; [|intros E; injection E as <- <-; repeat split; reflexivity].
  destruct (restore k _ (m_config m)) as [c [e|]]; [intros E; injection E as <- <-; repeat split; reflexivity|].
  destruct (place p) as [g|e]; intros E; injection E as <- <-; repeat split; reflexivity.
Qed.

(** What the buttons can do to the index, whatever fails: a rotation, with entries removed. *)
Definition shrunk (l l' : list string) : Prop := exists r, Permutation l (l' ++ r).

Lemma shrunk_refl l : shrunk l l.
Proof. exists []. rewrite app_nil_r. apply Permutation_refl. Qed.
Lemma shrunk_trans l m n : shrunk l m -> shrunk m n -> shrunk l n.
Proof.
  intros (r & H) (q & K). exists (q ++ r). apply Permutation_trans with (m ++ r); [exact H|].
  apply Permutation_trans with ((n ++ q) ++ r); [apply Permutation_app_tail; exact K|]. rewrite app_assoc. apply Permutation_refl.
Qed.

Lemma pop_last_some {X} (l : list X) x r : pop_last l = Some (x, r) -> l = r ++ [x].
Proof.
  destruct (list_last l) as [->|(a & y & ->)]; [discriminate|]. rewrite pop_last_app. intros E. injection E as -> ->. reflexivity.
Qed.

Lemma next_shrinks {C} (k : machine C) d fuel : forall s s' x, reset_next fuel k d s = (s', x) -> shrunk (a_index s) (a_index s').
Proof.
  induction fuel as [|f IH]; intros s s' x E; [injection E as <- <-; apply shrunk_refl|].
  cbn [reset_next] in E. change (a_index (with_grid blank s)) with (a_index s) in E.
  destruct (pop_first (a_index s)) as [[n r]|] eqn:Pf; [|injection E as <- <-; apply shrunk_refl].
  assert (I : a_index s = n :: r) by (destruct (a_index s); [discriminate|injection Pf as -> ->; reflexivity]).
  destruct (show k d n (with_index r (with_grid blank s))) as [s1 x1] eqn:Q.
  apply show_index in Q. cbn [a_index with_index] in Q. destruct Q as [(Q & e & ->)|(Q & h & ->)].
  - injection E as <- <-. rewrite Q, I. exists [n]. apply Permutation_cons_append.
  - assert (P : shrunk (a_index s) (a_index s1)).
    { rewrite Q, I. exists []. rewrite app_nil_r. apply Permutation_cons_append. }
    destruct (String.eqb h "none"); [exact (shrunk_trans _ _ _ P (IH _ _ _ E))|injection E as <- <-; exact P].
Qed.

Lemma prev_shrinks {C} (k : machine C) d fuel : forall s s' x, reset_prev fuel k d s = (s', x) -> shrunk (a_index s) (a_index s').
Proof.
  induction fuel as [|f IH]; intros s s' x E; [injection E as <- <-; apply shrunk_refl|].
  cbn [reset_prev] in E. change (a_index (with_grid blank s)) with (a_index s) in E.
  destruct (pop_last (a_index s)) as [[n r]|] eqn:Pf; [|injection E as <- <-; apply shrunk_refl].
  destruct (pop_last (n :: r)) as [[n' r']|] eqn:Pg; [|injection E as <- <-; apply shrunk_refl].
  apply pop_last_some in Pf, Pg.
  assert (W : Permutation (a_index s) (r' ++ [n'])) by (rewrite Pf, <- Pg; apply Permutation_sym, Permutation_cons_append).
  destruct (show k d n' (with_index r' (with_grid blank s))) as [s1 x1] eqn:Q.
  apply show_index in Q. cbn [a_index with_index] in Q. destruct Q as [(Q & e & ->)|(Q & h & ->)].
  - injection E as <- <-. rewrite Q. exists [n']. exact W.
  - assert (P : shrunk (a_index s) (a_index s1)) by (rewrite Q; exists []; rewrite app_nil_r; exact W).
    destruct (String.eqb h "none"); [exact (shrunk_trans _ _ _ P (IH _ _ _ E))|injection E as <- <-; exact P].
Qed.

Lemma this_shrinks {C} (k : machine C) d s s' x : reset_this k d s = (s', x) -> shrunk (a_index s) (a_index s').
Proof.
  unfold reset_this. change (a_index (with_grid blank s)) with (a_index s).
  destruct (pop_last (a_index s)) as [[n r]|] eqn:Pf; [|intros E; injection E as <- <-; apply shrunk_refl].
  apply pop_last_some in Pf. rewrite Pf.
  destruct (load d n) as [[p m]|e]; [|intros E; injection E as <- <-; exists [n]; apply Permutation_refl].
  destruct (restore k _ (m_config m)) as [c [e|]]; [intros E; injection E as <- <-; apply shrunk_refl|].
  destruct (place p) as [g|e]; intros E; injection E as <- <-; apply shrunk_refl.
Qed.

Lemma go_index {C} (s s' : server C) x : go s = (s', x) ->
  a_index s' = a_index s /\ a_grid s' = a_grid s /\ a_ca s' = a_ca s /\ a_step s' = a_step s /\ a_period s' = a_period s /\ a_alias s' = a_alias s.
Proof.
  unfold go. destruct (a_label s); [intros E; injection E as <- <-; repeat split; reflexivity|].
  destruct (a_callbacks s); intros E; injection E as <- <-; repeat split; reflexivity.
Qed.

Lemma go_twice_index {C} (s s' : server C) x : go_twice s = (s', x) ->
  a_index s' = a_index s /\ a_grid s' = a_grid s /\ a_ca s' = a_ca s /\ a_step s' = a_step s /\ a_period s' = a_period s /\ a_alias s' = a_alias s.
Proof.
  unfold go_twice. destruct (go s) as [s1 [e|]] eqn:G; apply go_index in G; destruct G as (A1 & A2 & A3 & A4 & A5 & A6).
  - intros E. injection E as <- <-. auto 10.
  - intros E. apply go_index in E. destruct E as (B1 & B2 & B3 & B4 & B5 & B6).
    rewrite B1, B2, B3, B4, B5, B6. auto 10.
Qed.

Lemma update_frame {C} (k : machine C) s s' x : update k s = (s', x) ->
  a_index s' = a_index s /\ a_callbacks s' = a_callbacks s /\ a_label s' = a_label s /\ a_period s' = a_period s /\ a_alias s' = a_alias s /\
  match x with None => a_step s' = S (a_step s) /\ snd (forward k (a_ca s) (a_grid s)) = Ok (a_grid s')
             | Some e => a_step s' = a_step s /\ a_grid s' = a_grid s /\ snd (forward k (a_ca s) (a_grid s)) = Err e end /\
  a_ca s' = fst (forward k (a_ca s) (a_grid s)).
Proof.
  unfold update. destruct (forward k (a_ca s) (a_grid s)) as [c [g|e]]; intros E; injection E as <- <-; repeat split; reflexivity.
Qed.

Lemma react_shrinks {C} (k : machine C) d fuel e s s' x : react fuel k d e s = (s', x) -> shrunk (a_index s) (a_index s').
Proof.
  destruct e; cbn [react]; intros E.
  - exact (next_shrinks k d fuel s s' x E).
  - exact (prev_shrinks k d fuel s s' x E).
  - exact (this_shrinks k d s s' x E).
  - apply go_index in E. rewrite (proj1 E). apply shrunk_refl.
  - apply go_twice_index in E. rewrite (proj1 E). apply shrunk_refl.
  - apply go_twice_index in E. rewrite (proj1 E). apply shrunk_refl.
  - apply update_frame in E. rewrite (proj1 E). apply shrunk_refl.
Qed.

Lemma history_shrinks {C} (k : machine C) d fuel es : forall s, shrunk (a_index s) (a_index (fst (history_of fuel k d es s))).
Proof.
  induction es as [|e es IH]; intros s; cbn [history_of]; [apply shrunk_refl|].
  destruct (react fuel k d e s) as [s1 x] eqn:R. specialize (IH s1). destruct (history_of fuel k d es s1) as [s2 r].
  cbn [fst] in *. exact (shrunk_trans _ _ _ (react_shrinks k d fuel e s s1 x R) IH).
Qed.

(** With a usable library and something to see, nothing fails and the index only turns. *)
Lemma exists_visible {C} (k : machine C) d l : Forall (usable k d) l ->
  Forall (hidden_entry d) l \/ exists h x b, l = h ++ x :: b /\ Forall (hidden_entry d) h /\ visible_entry d x.
Proof.
  intros U. induction l as [|z a IH]; [left; constructor|].
  apply Forall_inv in U as Uz. apply Forall_inv_tail in U. destruct Uz as (p & m & Lz & _).
  destruct (string_dec (m_commit m) "none") as [E|E].
  - assert (Hz : hidden_entry d z) by (exists p, m; auto). destruct (IH U) as [H|(h & x & b & -> & H & V)].
    + left. constructor; assumption.
    + right. exists (z :: h), x, b. split; [reflexivity|]. split; [constructor; assumption|assumption].
  - right. exists [], z, a. split; [reflexivity|]. split; [constructor|exists p, m; auto].
Qed.

Lemma hidden_visible d n : hidden_entry d n -> visible_entry d n -> False.
Proof. intros (p & m & L & E) (p' & m' & L' & E'). destruct (load_fun _ _ _ _ _ _ L L') as [<- <-]. contradiction. Qed.

Lemma all_hidden_not d l : Forall (hidden_entry d) l -> Exists (visible_entry d) l -> False.
Proof. intros H E. apply Exists_exists in E. destruct E as (n & I & V). rewrite Forall_forall in H. exact (hidden_visible d n (H n I) V). Qed.

Lemma rev_split {C} (k : machine C) d l : Forall (usable k d) l ->
  Forall (hidden_entry d) l \/ exists b x h, l = b ++ x :: h /\ Forall (hidden_entry d) h /\ visible_entry d x.
Proof.
  intros U. assert (U' : Forall (usable k d) (rev l)) by (apply Forall_rev; exact U).
  destruct (exists_visible k d (rev l) U') as [H|(h & x & b & E & H & V)].
  - left. rewrite <- (rev_involutive l). apply Forall_rev. exact H.
  - right. exists (rev b), x, (rev h). split; [|split; [apply Forall_rev; exact H|exact V]].
    rewrite <- (rev_involutive l), E, rev_app_distr. cbn [rev]. rewrite <- app_assoc. reflexivity.
Qed.

Lemma browse_ok {C} (k : machine C) d fuel e s : Forall (usable k d) (a_index s) -> Exists (visible_entry d) (a_index s) ->
  List.length (a_index s) <= fuel -> browse e ->
  exists s' n a, react fuel k d e s = (s', None) /\ rotation (a_index s) (a_index s') /\ a_index s' = a ++ [n] /\ showing d n s' /\
    (e <> EThis -> visible_entry d n).
Proof.
  intros U V L B. destruct B as [E0|[E0|E0]]; subst e; cbn [react].
  - destruct (exists_visible k d (a_index s) U) as [H|(h & x & b & E & H & W)]; [destruct (all_hidden_not d _ H V)|].
    assert (L' : List.length h < fuel) by (rewrite E, app_length in L; cbn in L; lia).
    destruct (next_skips k d h x b s fuel E U H W L') as (s' & R & I & Sh & _).
    exists s', x, (b ++ h). split; [exact R|]. split; [|split; [rewrite I, app_assoc; reflexivity|split; [exact Sh|auto]]].
    rewrite E, I. exists (h ++ [x]), b. split; [rewrite <- app_assoc; reflexivity|reflexivity].
  - destruct (list_last (a_index s)) as [E|(a & y & E)]; [rewrite E in V; inversion V|].
    assert (Ua : Forall (usable k d) a) by (rewrite E in U; apply Forall_app in U; exact (proj1 U)).
    destruct (rev_split k d a Ua) as [H|(b & x & h & -> & H & W)].
    + assert (Vy : visible_entry d y).
      { apply Exists_exists in V. destruct V as (n & Hn & Vn). rewrite E in Hn. apply in_app_or in Hn. destruct Hn as [Hn|[<-|[]]]; [|exact Vn].
        rewrite Forall_forall in H. destruct (hidden_visible d n (H n Hn) Vn). }
      assert (L' : List.length a < fuel) by (rewrite E, app_length in L; cbn in L; lia).
      destruct (prev_round k d a y s fuel E U H Vy L') as (s' & R & I & Sh).
      exists s', y, a. split; [exact R|]. split; [rewrite I, E; apply rotation_refl|]. split; [exact I|]. split; [exact Sh|auto].
    + assert (E' : a_index s = b ++ x :: h ++ [y]) by (rewrite E, <- app_assoc; reflexivity).
      assert (L' : List.length h < fuel) by (rewrite E', app_length in L; cbn in L; rewrite app_length in L; lia).
      destruct (prev_skips k d h b x y s fuel E' U H W L') as (s' & R & I & Sh & _).
      exists s', x, (h ++ y :: b). split; [exact R|]. split; [|split; [rewrite I, <- app_assoc; reflexivity|split; [exact Sh|auto]]].
      rewrite E', I. exists (b ++ [x]), (h ++ [y]). split; rewrite <- app_assoc; reflexivity.
  - destruct (list_last (a_index s)) as [E|(a & y & E)]; [rewrite E in V; inversion V|].
    assert (Uy : usable k d y) by (rewrite E in U; apply Forall_app in U; exact (Forall_inv (proj2 U))).
    destruct (this_ok k d a y s E Uy) as (p & m & s' & Ld & R & I & Z & Al & _).
    exists s', y, a. split; [exact R|]. split; [rewrite I; apply rotation_refl|]. split; [rewrite I; exact E|]. split; [exists p, m; auto|].
    intros N. destruct (N eq_refl).
Qed.

Lemma perm_exists {X} (P : X -> Prop) l m : Permutation l m -> Exists P l -> Exists P m.
Proof.
  intros Q H. rewrite Exists_exists in *. destruct H as (x & I & K). exists x. split; [exact (Permutation_in x Q I)|exact K].
Qed.

Lemma react_index {C} (k : machine C) d fuel e s : Forall (usable k d) (a_index s) -> Exists (visible_entry d) (a_index s) ->
  List.length (a_index s) <= fuel -> rotation (a_index s) (a_index (fst (react fuel k d e s))).
Proof.
  intros U V L. destruct e.
  - destruct (browse_ok k d fuel ENext s U V L) as (s' & n & a & R & Q & _); [left; reflexivity|]. rewrite R. exact Q.
  - destruct (browse_ok k d fuel EPrev s U V L) as (s' & n & a & R & Q & _); [right; left; reflexivity|]. rewrite R. exact Q.
  - destruct (browse_ok k d fuel EThis s U V L) as (s' & n & a & R & Q & _); [right; right; reflexivity|]. rewrite R. exact Q.
  - cbn [react]. destruct (go s) as [s' x] eqn:E. apply go_index in E. cbn [fst]. rewrite (proj1 E). apply rotation_refl.
  - cbn [react]. destruct (faster s) as [s' x] eqn:E. apply go_twice_index in E. cbn [fst]. rewrite (proj1 E). apply rotation_refl.
  - cbn [react]. destruct (slower s) as [s' x] eqn:E. apply go_twice_index in E. cbn [fst]. rewrite (proj1 E). apply rotation_refl.
  - cbn [react]. destruct (update k s) as [s' x] eqn:E. apply update_frame in E. cbn [fst]. rewrite (proj1 E). apply rotation_refl.
Qed.

Lemma history_rotates {C} (k : machine C) d fuel es : forall s, Forall (usable k d) (a_index s) -> Exists (visible_entry d) (a_index s) ->
  List.length (a_index s) <= fuel ->
  rotation (a_index s) (a_index (fst (history_of fuel k d es s))) /\
  (forall e x, In (e, x) (snd (history_of fuel k d es s)) -> browse e -> x = None).
Proof.
  induction es as [|e es IH]; intros s U V L; cbn [history_of]; [split; [apply rotation_refl|intros ? ? []]|].
  pose proof (react_index k d fuel e s U V L) as Q. destruct (react fuel k d e s) as [s1 x] eqn:R. cbn [fst] in Q.
  pose proof (rotation_perm _ _ Q) as P.
  destruct (IH s1 (perm_all _ _ _ P U) (perm_exists _ _ _ P V)) as [H1 H2]; [rewrite <- (Permutation_length P); exact L|].
  destruct (history_of fuel k d es s1) as [s2 r]. cbn [fst snd] in *. split; [exact (rotation_trans _ _ _ Q H1)|].
  intros e' x' [E|I] B; [|exact (H2 e' x' I B)]. injection E as <- <-.
  destruct (browse_ok k d fuel e s U V L B) as (s' & n & a & R' & _). rewrite R in R'. injection R' as _ ->. reflexivity.
Qed.

(** Once round: as many "next" as there are entries show every entry once, in order. *)
Lemma next_round {C} (k : machine C) d b : forall a s fuel, a_index s = b ++ a -> 0 < fuel ->
  Forall (usable k d) (a_index s) -> Forall (visible_entry d) (a_index s) ->
  exists ss, List.length ss = List.length b /\ Forall2 (showing d) b ss /\
    snd (history_of fuel k d (repeat ENext (List.length b)) s) = repeat (ENext, None) (List.length b) /\
    a_index (fst (history_of fuel k d (repeat ENext (List.length b)) s)) = a ++ b /\
    (forall i, i < List.length b -> nth_error ss i = Some (fst (history_of fuel k d (repeat ENext (S i)) s))).
Proof.
  induction b as [|x b IH]; intros a s fuel I F U V.
  - exists []. split; [reflexivity|]. split; [constructor|]. split; [reflexivity|]. split; [cbn; rewrite I, app_nil_r; reflexivity|].
    intros i H. cbn in H. lia.
  - destruct fuel as [|f]; [lia|]. cbn [app] in I. rewrite I in U, V.
    destruct (next_one k d f x (b ++ a) s I (Forall_inv U)) as (s1 & Ix & Sh & _ & _ & _ & _ & Ev & _).
    specialize (Ev (Forall_inv V)). rewrite <- app_assoc in Ix.
    destruct (IH (a ++ [x]) s1 (S f) Ix ltac:(lia)) as (ss & H1 & H2 & H3 & H4 & H5).
    { rewrite Ix. rewrite app_assoc. apply (perm_all _ (x :: b ++ a)); [apply Permutation_cons_append|exact U]. }
    { rewrite Ix. rewrite app_assoc. apply (perm_all _ (x :: b ++ a)); [apply Permutation_cons_append|exact V]. }
    exists (s1 :: ss). cbn [List.length repeat]. split; [rewrite H1; reflexivity|]. split; [constructor; assumption|].
    cbn [history_of]. cbn [react]. rewrite Ev.
    destruct (history_of (S f) k d (repeat ENext (List.length b)) s1) as [s2 r] eqn:R. cbn [fst snd] in *.
    split; [rewrite H3; reflexivity|]. split; [rewrite H4, <- app_assoc; reflexivity|].
    intros i Hi. destruct i as [|i]; cbn [nth_error].
    + cbn [repeat history_of fst]. reflexivity.
    + rewrite (H5 i) by lia. f_equal. change (repeat ENext (S (S i))) with (ENext :: repeat ENext (S i)).
      set (es := repeat ENext (S i)). destruct (history_of (S f) k d es s1) as [s3 r3]. reflexivity.
Qed.

(** ** Failures *)
Lemma next_fails {C} (k : machine C) d f x rest s e : a_index s = x :: rest -> load d x = Err e ->
  exists s', reset_next (S f) k d s = (s', Some e) /\ a_index s' = rest /\ a_grid s' = blank /\ a_alias s' = a_alias s.
Proof.
  intros I L. cbn [reset_next]. change (a_index (with_grid blank s)) with (a_index s). rewrite I. cbn [pop_first].
  unfold show. rewrite L. eexists. split; [reflexivity|]. repeat split; reflexivity.
Qed.

Lemma next_unplaceable {C} (k : machine C) d f x rest s p m : a_index s = x :: rest -> load d x = Ok (p, m) ->
  (snd (restore k (a_ca s) (m_config m)) <> None \/ ~ fits p) ->
  exists s' e, reset_next (S f) k d s = (s', Some e) /\ a_index s' = rest /\ a_grid s' = blank /\ a_alias s' = a_alias s /\
    a_ca s' = fst (restore k (a_ca s) (m_config m)).
Proof.
  intros I L H. cbn [reset_next]. change (a_index (with_grid blank s)) with (a_index s). rewrite I. cbn [pop_first].
  unfold show. rewrite L. change (a_ca (with_index rest (with_grid blank s))) with (a_ca s).
  destruct (restore k (a_ca s) (m_config m)) as [c [e|]]; cbn [fst snd] in *.
  - eexists. exists e. split; [reflexivity|]. repeat split; reflexivity.
  - destruct H as [H|H]; [congruence|]. rewrite (place_too_big p H). eexists. eexists. split; [reflexivity|]. repeat split; reflexivity.
Qed.

Lemma prev_fails {C} (k : machine C) d f x y b s e : a_index s = b ++ [x; y] -> load d x = Err e ->
  exists s', reset_prev (S f) k d s = (s', Some e) /\ a_index s' = y :: b /\ a_grid s' = blank /\ a_alias s' = a_alias s.
Proof.
  intros I L. cbn [reset_prev]. change (a_index (with_grid blank s)) with (a_index s). rewrite I.
  replace (b ++ [x; y]) with ((b ++ [x]) ++ [y]) by (rewrite <- app_assoc; reflexivity). rewrite pop_last_app.
  change (y :: b ++ [x]) with ((y :: b) ++ [x]). rewrite pop_last_app.
  unfold show. rewrite L. eexists. split; [reflexivity|]. repeat split; reflexivity.
Qed.

Lemma this_fails {C} (k : machine C) d y b s e : a_index s = b ++ [y] -> load d y = Err e ->
  exists s', reset_this k d s = (s', Some e) /\ a_index s' = b /\ a_grid s' = blank /\ a_alias s' = a_alias s.
Proof.
  intros I L. unfold reset_this. change (a_index (with_grid blank s)) with (a_index s). rewrite I, pop_last_app, L.
  eexists. split; [reflexivity|]. repeat split; reflexivity.
Qed.

Lemma this_unplaceable {C} (k : machine C) d y b s p m : a_index s = b ++ [y] -> load d y = Ok (p, m) ->
  (snd (restore k (a_ca s) (m_config m)) <> None \/ ~ fits p) ->
  exists s' e, reset_this k d s = (s', Some e) /\ a_index s' = a_index s /\ a_grid s' = blank /\ a_alias s' = a_alias s /\
    a_ca s' = fst (restore k (a_ca s) (m_config m)).
Proof.
  intros I L H. unfold reset_this. change (a_index (with_grid blank s)) with (a_index s). rewrite I, pop_last_app, L.
  change (a_ca (with_index (b ++ [y]) (with_index b (with_grid blank s)))) with (a_ca s).
  destruct (restore k (a_ca s) (m_config m)) as [c [e|]]; cbn [fst snd] in *.
  - eexists. exists e. split; [reflexivity|]. repeat split; reflexivity.
  - destruct H as [H|H]; [congruence|]. rewrite (place_too_big p H). eexists. eexists. split; [reflexivity|]. repeat split; reflexivity.
Qed.

Lemma empty_index {C} (k : machine C) d f s : a_index s = [] ->
  snd (reset_next (S f) k d s) = Some IndexError /\ snd (reset_prev (S f) k d s) = Some IndexError /\ snd (reset_this k d s) = Some IndexError.
Proof.
  intros I. cbn [reset_next reset_prev]. unfold reset_this. change (a_index (with_grid blank s)) with (a_index s). rewrite I.
  repeat split; reflexivity.
Qed.

(** ** The timer *)
Definition speed (p : R) : Prop := exists n, n <= 6 /\ p = (128 * 2 ^ n)%R.

Definition timer_inv {C} (s : server C) : Prop :=
  speed (a_period s) /\ a_callbacks s = (if a_label s then [] else [a_period s]).

Lemma pow_mono n m : n <= m -> (2 ^ n <= 2 ^ m)%R.
Proof. intros H. apply Rle_pow; [lra|exact H]. Qed.

Lemma speed_half p : speed p -> speed (Rmax (p / 2) 128).
Proof.
  intros (n & L & ->). destruct n as [|n].
  - exists 0. split; [lia|]. rewrite Rmax_right; cbn; lra.
  - exists n. split; [lia|]. rewrite Rmax_left; cbn [pow]; [lra|]. pose proof (pow_R1_Rle 2 n ltac:(lra)). lra.
Qed.

Lemma speed_double p : speed p -> speed (Rmin (p * 2) 8192).
Proof.
  intros (n & L & ->). destruct (Nat.eq_dec n 6) as [->|N].
  - exists 6. split; [lia|]. rewrite Rmin_right; cbn; lra.
  - exists (S n). split; [lia|]. rewrite Rmin_left; cbn [pow]; [lra|]. pose proof (pow_mono n 5 ltac:(lia)). cbn [pow] in H. lra.
Qed.

Lemma go_toggle {C} (s : server C) : timer_inv s -> exists s', go s = (s', None) /\ timer_inv s' /\
  a_label s' = negb (a_label s) /\ a_period s' = a_period s.
Proof.
  intros (P & K). unfold go. destruct (a_label s) eqn:Lb.
  - eexists. split; [reflexivity|]. split; [|split; reflexivity]. split; [exact P|]. cbn. rewrite K. reflexivity.
  - rewrite K. eexists. split; [reflexivity|]. split; [|split; reflexivity]. split; [exact P|]. reflexivity.
Qed.

Lemma go_new_period {C} (s : server C) p : timer_inv s -> speed p -> exists s', go_twice (with_period p s) = (s', None) /\
  timer_inv s' /\ a_label s' = a_label s /\ a_period s' = p.
Proof.
  intros (P & K) Q. unfold go_twice, go, with_period. cbn [a_label a_callbacks a_period]. rewrite K. destruct (a_label s) eqn:Lb.
  - cbn. eexists. split; [reflexivity|]. split; [|split; reflexivity]. split; [exact Q|]. reflexivity.
  - cbn. eexists. split; [reflexivity|]. split; [|split; reflexivity]. split; [exact Q|]. reflexivity.
Qed.

Lemma same_timer {C} (s s' : server C) : same_controls s s' -> timer_inv s -> timer_inv s'.
Proof. intros (A & B & D & _) (P & K). unfold timer_inv. rewrite A, B, D. split; assumption. Qed.

Lemma react_timer {C} (k : machine C) d fuel e s : timer_inv s -> timer_inv (fst (react fuel k d e s)) /\
  (e = EGo \/ e = EFaster \/ e = ESlower -> snd (react fuel k d e s) = None) /\
  (e <> EGo -> a_label (fst (react fuel k d e s)) = a_label s) /\
  (e <> EFaster -> e <> ESlower -> a_period (fst (react fuel k d e s)) = a_period s).
Proof.
  intros T. destruct e; cbn [react].
  - destruct (reset_next fuel k d s) as [s' x] eqn:E. apply next_controls in E. cbn [fst snd].
    split; [exact (same_timer _ _ E T)|]. destruct E as (A & B & D & F). split; [intros [H|[H|H]]; discriminate|]. split; intros; assumption.
  - destruct (reset_prev fuel k d s) as [s' x] eqn:E. apply prev_controls in E. cbn [fst snd].
    split; [exact (same_timer _ _ E T)|]. destruct E as (A & B & D & F). split; [intros [H|[H|H]]; discriminate|]. split; intros; assumption.
  - destruct (reset_this k d s) as [s' x] eqn:E. apply this_controls in E. cbn [fst snd].
    split; [exact (same_timer _ _ E T)|]. destruct E as (A & B & D & F). split; [intros [H|[H|H]]; discriminate|]. split; intros; assumption.
  - destruct (go_toggle s T) as (s' & E & T' & Lb & Pe). rewrite E. cbn [fst snd]. split; [exact T'|]. split; [reflexivity|].
    split; [intros H; destruct (H eq_refl)|intros; exact Pe].
  - unfold faster. destruct (go_new_period s _ T (speed_half _ (proj1 T))) as (s' & E & T' & Lb & Pe). rewrite E. cbn [fst snd].
    split; [exact T'|]. split; [reflexivity|]. split; [intros; exact Lb|intros H; destruct (H eq_refl)].
  - unfold slower. destruct (go_new_period s _ T (speed_double _ (proj1 T))) as (s' & E & T' & Lb & Pe). rewrite E. cbn [fst snd].
    split; [exact T'|]. split; [reflexivity|]. split; [intros; exact Lb|intros _ H; destruct (H eq_refl)].
  - destruct (update k s) as [s' x] eqn:E. apply update_frame in E. cbn [fst snd]. destruct E as (A & B & D & F & _).
    split; [destruct T as [P K]; split; [rewrite F; exact P|rewrite B, D, F; exact K]|]. split; [intros [H|[H|H]]; discriminate|]. split; intros; assumption.
Qed.

Lemma history_timer {C} (k : machine C) d fuel es : forall s, timer_inv s -> timer_inv (fst (history_of fuel k d es s)) /\
  (forall e x, In (e, x) (snd (history_of fuel k d es s)) -> e = EGo \/ e = EFaster \/ e = ESlower -> x = None).
Proof.
  induction es as [|e es IH]; intros s T; cbn [history_of]; [split; [exact T|intros ? ? []]|].
  destruct (react_timer k d fuel e s T) as (T1 & E1 & _). destruct (react fuel k d e s) as [s1 x]. cbn [fst snd] in *.
  destruct (IH s1 T1) as [T2 E2]. destruct (history_of fuel k d es s1) as [s2 r]. cbn [fst snd] in *. split; [exact T2|].
  intros e' x' [E|I] B; [injection E as <- <-; exact (E1 B)|exact (E2 e' x' I B)].
Qed.

Lemma start_timer {C} (k : machine C) d c : timer_inv (fst (start k d c)) /\ a_label (fst (start k d c)) = true /\
  a_period (fst (start k d c)) = 512%R /\ a_step (fst (start k d c)) = 0.
Proof.
  assert (B : forall s' : server C, a_callbacks s' = [] -> a_label s' = true -> a_period s' = 512%R -> timer_inv s').
  { intros s' E1 E2 E3. split; [rewrite E3; exists 2; split; [lia|cbn; lra]|rewrite E1, E2; reflexivity]. }
  unfold start. destruct (load d "orbium_orbium000") as [[p m]|e]; [|cbn; split; [apply B; reflexivity|auto]].
  destruct (place p) as [g|e]; [|cbn; split; [apply B; reflexivity|auto]].
  destruct (restore k c (m_config m)) as [c1 [e|]]; [cbn; split; [apply B; reflexivity|auto]|].
  destruct (reset_this k d _) as [s' x] eqn:E. apply this_controls in E. destruct E as (E1 & E2 & E3 & E4). cbn [fst].
  split; [apply B; assumption|]. auto.
Qed.

Lemma start_index {C} (k : machine C) d c s : start k d c = (s, None) -> a_index s = update_index d /\
  exists a n, a_index s = a ++ [n] /\ showing d n s.
Proof.
  unfold start. destruct (load d "orbium_orbium000") as [[p m]|e]; [|discriminate].
  destruct (place p) as [g|e]; [|discriminate]. destruct (restore k c (m_config m)) as [c1 [e|]]; [discriminate|].
  set (s0 := with_ca c1 _). assert (I : a_index s0 = update_index d) by reflexivity. clearbody s0. clear p m g.
  unfold reset_this. change (a_index (with_grid blank s0)) with (a_index s0).
  destruct (pop_last (a_index s0)) as [[n r]|] eqn:Pf; [|discriminate]. apply pop_last_some in Pf.
  destruct (load d n) as [[p m]|e] eqn:L; [|discriminate].
  destruct (restore k _ (m_config m)) as [c2 [e|]]; [discriminate|].
  destruct (place p) as [g|e] eqn:G; [|discriminate]. intros E. injection E as <-.
  assert (F : fits p).
  { unfold fits. destruct (Nat.eq_dec (tB p) 1), (Nat.eq_dec (tC p) 1), (le_lt_dec (tH p) 90), (le_lt_dec (tW p) 90); auto;
      rewrite place_too_big in G; try discriminate; unfold fits; lia. }
  destruct (place_fits p F) as (g' & G' & Z). rewrite G in G'. injection G' as <-.
  cbn [a_index with_texts with_grid with_ca with_index]. split; [rewrite <- I, Pf; reflexivity|].
  exists r, n. split; [reflexivity|]. exists p, m. split; [exact L|]. split; [exact Z|reflexivity].
Qed.

(** ** The step counter *)
Lemma react_step {C} (k : machine C) d fuel e s s' x : react fuel k d e s = (s', x) ->
  a_step s' = updates [(e, x)] + a_step s.
Proof.
  destruct e; cbn [react]; intros E.
  - apply next_controls in E. destruct E as (_ & _ & _ & E). destruct x; exact E.
  - apply prev_controls in E. destruct E as (_ & _ & _ & E). destruct x; exact E.
  - apply this_controls in E. destruct E as (_ & _ & _ & E). destruct x; exact E.
  - apply go_index in E. destruct E as (_ & _ & _ & E & _). destruct x; exact E.
  - apply go_twice_index in E. destruct E as (_ & _ & _ & E & _). destruct x; exact E.
  - apply go_twice_index in E. destruct E as (_ & _ & _ & E & _). destruct x; exact E.
  - apply update_frame in E. destruct E as (_ & _ & _ & _ & _ & E & _). destruct x; cbn; exact (proj1 E).
Qed.

Lemma updates_cons e x r : updates ((e, x) :: r) = updates [(e, x)] + updates r.
Proof. destruct e, x; reflexivity. Qed.

Lemma history_step {C} (k : machine C) d fuel es : forall s,
  a_step (fst (history_of fuel k d es s)) = updates (snd (history_of fuel k d es s)) + a_step s.
Proof.
  induction es as [|e es IH]; intros s; cbn [history_of]; [reflexivity|].
  destruct (react fuel k d e s) as [s1 x] eqn:R. specialize (IH s1). destruct (history_of fuel k d es s1) as [s2 r].
  cbn [fst snd] in *. rewrite IH, updates_cons, (react_step _ _ _ _ _ _ _ R). lia.
Qed.

(** ** Repeated speed changes *)
Lemma faster_period {C} (s : server C) : timer_inv s -> a_period (fst (faster s)) = Rmax (a_period s / 2) 128.
Proof. intros T. unfold faster. destruct (go_new_period s _ T (speed_half _ (proj1 T))) as (s' & E & _ & _ & P). rewrite E. exact P. Qed.
Lemma slower_period {C} (s : server C) : timer_inv s -> a_period (fst (slower s)) = Rmin (a_period s * 2) 8192.
Proof. intros T. unfold slower. destruct (go_new_period s _ T (speed_double _ (proj1 T))) as (s' & E & _ & _ & P). rewrite E. exact P. Qed.

Lemma speed_changes {C} (k : machine C) d fuel n : forall s, timer_inv s ->
  a_period (fst (history_of fuel k d (repeat EFaster n) s)) = Rmax (a_period s / 2 ^ n) 128 /\
  a_period (fst (history_of fuel k d (repeat ESlower n) s)) = Rmin (a_period s * 2 ^ n) 8192.
Proof.
  induction n as [|n IH]; intros s T.
  - cbn [repeat history_of fst pow]. destruct T as [(m & Lm & ->) _]. pose proof (pow_R1_Rle 2 m ltac:(lra)) as H1.
    pose proof (pow_mono m 6 Lm) as H2. cbn [pow] in H2. split; [rewrite Rmax_left; lra|rewrite Rmin_left; lra].
  - cbn [repeat history_of]. cbn [react]. split.
    + pose proof (react_timer k d fuel EFaster s T) as (T1 & _). cbn [react] in T1.
      pose proof (faster_period s T) as P. destruct (faster s) as [s1 x]. cbn [fst] in *.
      destruct (IH s1 T1) as [H _]. destruct (history_of fuel k d (repeat EFaster n) s1) as [s2 r]. cbn [fst] in *.
      rewrite H, P. pose proof (pow_R1_Rle 2 n ltac:(lra)) as Hn. cbn [pow].
      destruct (Rle_dec 128 (a_period s / 2)) as [G|G].
      * rewrite (Rmax_left (a_period s / 2)) by exact G. f_equal. field. lra.
      * rewrite (Rmax_right (a_period s / 2)) by lra.
        assert (A : (128 / 2 ^ n <= 128)%R) by (apply Rmult_le_reg_r with (2 ^ n)%R; [lra|]; unfold Rdiv; rewrite Rmult_assoc, Rinv_l by lra; nra).
        assert (B : (a_period s / (2 * 2 ^ n) <= 128)%R).
        { apply Rmult_le_reg_r with (2 * 2 ^ n)%R; [lra|]. unfold Rdiv. rewrite Rmult_assoc, Rinv_l by lra. nra. }
        rewrite !Rmax_right by assumption. reflexivity.
    + pose proof (react_timer k d fuel ESlower s T) as (T1 & _). cbn [react] in T1.
      pose proof (slower_period s T) as P. destruct (slower s) as [s1 x]. cbn [fst] in *.
      destruct (IH s1 T1) as [_ H]. destruct (history_of fuel k d (repeat ESlower n) s1) as [s2 r]. cbn [fst] in *.
      rewrite H, P. pose proof (pow_R1_Rle 2 n ltac:(lra)) as Hn. cbn [pow].
      destruct (Rle_dec (a_period s * 2) 8192) as [G|G].
      * rewrite (Rmin_left (a_period s * 2)) by exact G. f_equal. ring.
      * rewrite (Rmin_right (a_period s * 2)) by lra. rewrite !Rmin_right by nra. reflexivity.
Qed.

(** A stored pattern is never skipped, even when its commit hash was given as "none": the
    hash is read back with the end of its line. *)
Lemma stored_visible fuel v (d : dir tensor) p name cfg ca entry commit notes e d1 d2 :
  store fuel v d p name cfg ca entry commit notes = Some (e, d1, d2) ->
  plain (chosen_config v cfg ca) -> plain commit -> plain (notes_text notes) -> plain entry -> visible_entry d2 e.
Proof.
  intros S A B D E. exists p. eexists. split; [exact (load_plain fuel v d p name cfg ca entry commit notes e d1 d2 S A B D E)|].
  cbn [m_commit]. clear. intros H. do 4 (destruct commit as [|? commit]; [discriminate|injection H as -> H]).
  destruct commit; discriminate.
Qed.
