(** Lemmas about the text primitives. *)
From Coq Require Import NArith List Arith Bool String Ascii Lia Permutation Sorting.Sorted.
From Verif Require Import MText SText.
Import ListNotations.
Open Scope string_scope.

Lemma digit_code d : (d < 10)%N -> N_of_ascii (digit d) = (48 + d)%N.
Proof. intros H. unfold digit. apply N_ascii_embedding. lia. Qed.

Lemma append_assoc_s a b c : (a ++ b) ++ c = a ++ (b ++ c).
Proof. induction a as [|x a IH]; cbn; [reflexivity|]. now rewrite IH. Qed.

Lemma append_nil_s a : a ++ "" = a.
Proof. induction a as [|x a IH]; cbn; [reflexivity|]. now rewrite IH. Qed.

Lemma length_app_s a b : String.length (a ++ b) = String.length a + String.length b.
Proof. induction a as [|x a IH]; cbn; [reflexivity|]. now rewrite IH. Qed.

Lemma every_app P a b : every P (a ++ b) <-> every P a /\ every P b.
Proof. induction a as [|x a IH]; cbn; [tauto|]. rewrite IH. tauto. Qed.

(** ** Decimal numerals *)

Lemma dec_loop_reads fuel n acc :
  (n < 2 ^ N.of_nat fuel)%N -> fuel <> O -> reads 0 (dec_loop fuel n acc) = reads n acc.
Proof.
  revert n acc. induction fuel as [|f IH]; intros n acc Hn Hf; [lia|].
  cbn [dec_loop]. destruct (N.ltb_spec n 10) as [H|H].
  - cbn [reads]. rewrite N.mod_small by lia. rewrite digit_code by lia. f_equal. lia.
  - assert (Hf' : f <> O).
    { intros ->. change (2 ^ N.of_nat 1)%N with 2%N in Hn. lia. }
    rewrite IH; [| |exact Hf'].
    + cbn [reads]. pose proof (N.mod_lt n 10 ltac:(lia)). rewrite digit_code by lia.
      f_equal. pose proof (N.div_mod n 10 ltac:(lia)) as D. clear Hn.
      revert D. generalize (n / 10)%N (n mod 10)%N. intros q r D. lia.
    + apply N.div_lt_upper_bound; [lia|].
      rewrite Nnat.Nat2N.inj_succ, N.pow_succ_r' in Hn. revert Hn. generalize (2 ^ N.of_nat f)%N. intros q Hn. lia.
Qed.

Lemma size_bound n : (n < 2 ^ N.of_nat (S (N.size_nat n)))%N.
Proof.
  rewrite Nnat.Nat2N.inj_succ, N.pow_succ_r'.
  pose proof (N.size_gt n) as H.
  assert (E : N.of_nat (N.size_nat n) = N.size n).
  { clear H. destruct n as [|p]; [reflexivity|]. cbn [N.size_nat N.size].
    induction p; cbn [Pos.size_nat Pos.size]; rewrite ?Nnat.Nat2N.inj_succ, ?IHp; reflexivity. }
  rewrite E. revert H. generalize (2 ^ N.size n)%N. intros q H. lia.
Qed.

Lemma dec_number n : number_of (dec n) = n.
Proof. unfold number_of, dec. rewrite dec_loop_reads; [reflexivity|apply size_bound|lia]. Qed.

Lemma zeros_number k s : number_of (zeros k s) = number_of s.
Proof. induction k as [|k IH]; cbn; [reflexivity|]. exact IH. Qed.

Lemma pad_number w n : number_of (pad w n) = n.
Proof. unfold pad. rewrite zeros_number. apply dec_number. Qed.

Lemma pad_inj w n m : pad w n = pad w m -> n = m.
Proof. intros E. rewrite <- (pad_number w n), E. apply pad_number. Qed.

Lemma dec_loop_digits fuel n acc : every is_digit acc -> every is_digit (dec_loop fuel n acc).
Proof.
  revert n acc. induction fuel as [|f IH]; intros n acc Ha; [exact Ha|]. cbn [dec_loop].
  assert (Hd : every is_digit (String (digit (n mod 10)) acc)).
  { split; [|exact Ha]. unfold is_digit. pose proof (N.mod_lt n 10 ltac:(lia)) as H. rewrite digit_code by exact H.
    revert H. generalize (n mod 10)%N. intros q H. lia. }
  destruct (N.ltb n 10); [exact Hd|]. now apply IH.
Qed.

Lemma pad_digits w n : every is_digit (pad w n).
Proof.
  unfold pad. generalize (w - String.length (dec n)). intros k. induction k as [|k IH]; cbn [zeros].
  - unfold dec. apply dec_loop_digits. exact I.
  - split; [|exact IH]. unfold is_digit. vm_compute. split; discriminate.
Qed.

Lemma dec_loop_length fuel n acc k :
  (n < 10 ^ N.of_nat k)%N -> k <> O -> String.length (dec_loop fuel n acc) <= k + String.length acc.
Proof.
  revert n acc k. induction fuel as [|f IH]; intros n acc k Hn Hk; cbn [dec_loop]; [lia|].
  destruct (N.ltb_spec n 10) as [H|H]; [cbn; lia|].
  destruct k as [|k]; [lia|].
  assert (Hk' : k <> O). { intros ->. change (10 ^ N.of_nat 1)%N with 10%N in Hn. lia. }
  eapply Nat.le_trans; [apply (IH _ _ k); [|exact Hk']|cbn; lia].
  apply N.div_lt_upper_bound; [lia|]. rewrite Nnat.Nat2N.inj_succ, N.pow_succ_r' in Hn. exact Hn.
Qed.

Lemma zeros_length k s : String.length (zeros k s) = k + String.length s.
Proof. induction k as [|k IH]; cbn; [reflexivity|]. now rewrite IH. Qed.

Lemma pad_length w n : (n < 10 ^ N.of_nat w)%N -> w <> O -> String.length (pad w n) = w.
Proof.
  intros Hn Hw. unfold pad. rewrite zeros_length.
  pose proof (dec_loop_length (S (N.size_nat n)) n "" w Hn Hw) as H. unfold dec. cbn [String.length] in H.
  cbn [String.length] in *. lia.
Qed.

Lemma pad_nonempty w n : pad w n <> "".
Proof.
  unfold pad. generalize (w - String.length (dec n)). intros [|k]; cbn [zeros]; [|discriminate].
  unfold dec. cbn [dec_loop]. 
  assert (G : forall f m a s, dec_loop f m (String a s) <> "").
  { intros f. induction f as [|f IH]; intros m a s; cbn [dec_loop]; [discriminate|].
    destruct (N.ltb m 10); [discriminate|]. apply IH. }
  destruct (N.ltb n 10); [discriminate|]. apply G.
Qed.

Lemma reads_split acc s : reads acc s = (acc * 10 ^ N.of_nat (String.length s) + reads 0 s)%N.
Proof.
  revert acc. induction s as [|a t IH]; intros acc; cbn [reads String.length].
  - rewrite N.pow_0_r. lia.
  - rewrite (IH (10 * acc + _)%N), (IH (10 * 0 + _)%N), Nnat.Nat2N.inj_succ, N.pow_succ_r'. lia.
Qed.

Lemma reads_bound s : every is_digit s -> (reads 0 s < 10 ^ N.of_nat (String.length s))%N.
Proof.
  induction s as [|a t IH]; intros H; cbn [reads String.length].
  - rewrite N.pow_0_r. lia.
  - destruct H as [Ha Ht]. specialize (IH Ht). unfold is_digit in Ha.
    rewrite reads_split, Nnat.Nat2N.inj_succ, N.pow_succ_r'.
    set (P := (10 ^ N.of_nat (String.length t))%N) in *.
    assert ((10 * 0 + (N_of_ascii a - 48)) <= 9)%N by lia.
    assert ((10 * 0 + (N_of_ascii a - 48)) * P <= 9 * P)%N by (apply N.mul_le_mono_r; lia). lia.
Qed.

(** Numerals of the same length are ordered as strings as they are as numbers. *)
Lemma before_reads s t :
  every is_digit s -> every is_digit t -> String.length s = String.length t ->
  (reads 0 s < reads 0 t)%N -> before s t.
Proof.
  revert t. induction s as [|a s IH]; intros [|b t] Hs Ht HL Hlt; cbn in HL; try discriminate.
  destruct Hs as [Ha Hs], Ht as [Hb Ht]. injection HL as HL.
  destruct (N.lt_trichotomy (N_of_ascii a) (N_of_ascii b)) as [H|[H|H]].
  - now apply before_head.
  - assert (a = b) by (rewrite <- (ascii_N_embedding a), H; apply ascii_N_embedding). subst b.
    apply before_tail. apply IH; try assumption.
    cbn [reads] in Hlt. rewrite (reads_split _ s), (reads_split _ t), HL in Hlt. lia.
  - exfalso. cbn [reads] in Hlt. rewrite (reads_split _ s), (reads_split _ t), HL in Hlt.
    pose proof (reads_bound t Ht) as B. set (P := (10 ^ N.of_nat (String.length t))%N) in *.
    unfold is_digit in Ha, Hb.
    assert ((10 * 0 + (N_of_ascii b - 48) + 1) * P <= (10 * 0 + (N_of_ascii a - 48)) * P)%N
      by (apply N.mul_le_mono_r; lia). lia.
Qed.

Lemma before_prefix p s t : before s t -> before (p ++ s) (p ++ t).
Proof. intros H. induction p as [|a p IH]; cbn; [exact H|]. now apply before_tail. Qed.

Lemma before_suffix s t u v : String.length s = String.length t -> before s t -> before (s ++ u) (t ++ v).
Proof.
  intros HL H. induction H; cbn in *; [discriminate| |].
  - now apply before_head.
  - apply before_tail. apply IHbefore. lia.
Qed.

Lemma pad_before w n m : (n < m)%N -> (m < 10 ^ N.of_nat w)%N -> w <> O -> before (pad w n) (pad w m).
Proof.
  intros H Hm Hw. apply before_reads.
  - apply pad_digits.
  - apply pad_digits.
  - rewrite !pad_length by lia. reflexivity.
  - pose proof (pad_number w n) as E1. pose proof (pad_number w m) as E2. unfold number_of in *. lia.
Qed.

(** ** Order and sorting *)

Lemma before_irrefl s : ~ before s s.
Proof. intros H. remember s as t in H at 2. induction H; try discriminate; injection Heqt; intros; subst; [lia|auto]. Qed.

Lemma before_trans s t u : before s t -> before t u -> before s u.
Proof.
  intros H. revert u. induction H; intros u Hu; inversion Hu; subst.
  - constructor.
  - constructor.
  - apply before_head. lia.
  - now apply before_head.
  - now apply before_head.
  - apply before_tail. auto.
Qed.

Lemma compare_before s t : String.compare s t = Lt <-> before s t.
Proof.
  revert t. induction s as [|a s IH]; intros [|b t]; cbn.
  - split; [discriminate|]. intros H. inversion H.
  - split; [constructor|reflexivity].
  - split; [discriminate|]. intros H. inversion H.
  - unfold Ascii.compare. destruct (N.compare_spec (N_of_ascii a) (N_of_ascii b)) as [H|H|H].
    + assert (a = b) by (rewrite <- (ascii_N_embedding a), H; apply ascii_N_embedding). subst b.
      rewrite IH. split; [apply before_tail|]. intros G. inversion G; subst; [lia|assumption].
    + split; [|reflexivity]. intros _. now apply before_head.
    + split; [discriminate|]. intros G. inversion G; subst; lia.
Qed.

Lemma leb_not_after s t : String.leb s t = true <-> not_after s t.
Proof.
  unfold String.leb, not_after. destruct (String.compare s t) eqn:E.
  - apply String.compare_eq_iff in E. subst. split; [now left|reflexivity].
  - apply compare_before in E. split; [now right|reflexivity].
  - split; [discriminate|]. intros [->|H].
    + pose proof (String.compare_antisym t t) as A. rewrite E in A. discriminate.
    + apply compare_before in H. congruence.
Qed.

Lemma not_after_trans s t u : not_after s t -> not_after t u -> not_after s u.
Proof.
  intros [->|H1] [<-|H2]; [now left|now right|now right|]. right. eapply before_trans; eassumption.
Qed.

Lemma not_after_antisym s t : not_after s t -> not_after t s -> s = t.
Proof.
  intros [E|H1] [E2|H2]; try congruence. exfalso. apply (before_irrefl s). eapply before_trans; eassumption.
Qed.

Lemma leb_total_s s t : String.leb s t = false -> not_after t s.
Proof.
  intros H. apply leb_not_after. destruct (String.leb_total s t) as [H1|H1]; [congruence|exact H1].
Qed.

Lemma insert_perm x l : Permutation (x :: l) (insert x l).
Proof.
  induction l as [|y t IH]; cbn; [reflexivity|]. destruct (String.leb x y); [reflexivity|].
  rewrite perm_swap. now apply perm_skip.
Qed.

Lemma sort_perm l : Permutation l (sort l).
Proof. induction l as [|x t IH]; cbn; [reflexivity|]. rewrite <- insert_perm. now apply perm_skip. Qed.

Lemma insert_sorted x l : StronglySorted not_after l -> StronglySorted not_after (insert x l).
Proof.
  induction l as [|y t IH]; intros H; cbn.
  - constructor; constructor.
  - inversion H as [|? ? Ht Hy]; subst. destruct (String.leb x y) eqn:E.
    + apply leb_not_after in E. constructor; [exact H|]. constructor; [exact E|].
      eapply Forall_impl; [|exact Hy]. intros z. now apply not_after_trans.
    + apply leb_total_s in E. constructor; [auto|].
      rewrite <- insert_perm. constructor; assumption.
Qed.

Lemma sort_sorted l : StronglySorted not_after (sort l).
Proof. induction l as [|x t IH]; cbn; [constructor|]. now apply insert_sorted. Qed.

Lemma sorted_unique l m :
  StronglySorted not_after l -> StronglySorted not_after m -> Permutation l m -> l = m.
Proof.
  revert m. induction l as [|x l IH]; intros m Hl Hm P.
  - apply Permutation_nil in P. now subst.
  - destruct m as [|y m]; [apply Permutation_sym, Permutation_nil in P; discriminate|].
    inversion Hl as [|? ? Hl' Hx]; subst. inversion Hm as [|? ? Hm' Hy]; subst.
    assert (E : x = y).
    { assert (I1 : In x (y :: m)) by (eapply Permutation_in; [exact P|now left]).
      assert (I2 : In y (x :: l)) by (eapply Permutation_in; [apply Permutation_sym; exact P|now left]).
      destruct I1 as [->|I1]; [reflexivity|]. destruct I2 as [->|I2]; [reflexivity|].
      rewrite Forall_forall in Hx, Hy. apply not_after_antisym; auto. }
    subst y. f_equal. apply IH; try assumption. eapply Permutation_cons_inv; exact P.
Qed.

Lemma sort_of_perm l m : StronglySorted not_after m -> Permutation l m -> sort l = m.
Proof.
  intros Hm P. apply sorted_unique; [apply sort_sorted|exact Hm|]. rewrite <- sort_perm. exact P.
Qed.

(** ** Substrings *)

Lemma prefix_app p s : prefix p s = true <-> exists r, s = p ++ r.
Proof.
  revert s. induction p as [|a p IH]; intros s; cbn.
  - split; [now exists s|]. destruct s; reflexivity.
  - destruct s as [|b s]; cbn.
    + split; [discriminate|]. intros (r & E). discriminate.
    + destruct (ascii_dec a b) as [->|N].
      * rewrite IH. split; intros (r & E); exists r; [now rewrite E|]. now injection E.
      * split; [discriminate|]. intros (r & E). injection E. congruence.
Qed.

Lemma contains_occurs sub s : contains sub s = true <-> occurs sub s.
Proof.
  induction s as [|a t IH].
  - cbn [contains]. rewrite orb_false_r, prefix_app. split.
    + intros (r & E). now exists "", r.
    + intros (l & r & E). destruct l; [|discriminate]. now exists r.
  - cbn [contains]. rewrite orb_true_iff, prefix_app, IH. split.
    + intros [(r & E)|(l & r & E)]; [now exists "", r|]. exists (String a l), r. cbn. now rewrite <- E.
    + intros (l & r & E). destruct l as [|b l]; [left; now exists r|]. right.
      cbn in E. injection E as -> E. now exists l, r.
Qed.

(** A substring cannot straddle a character it does not have. *)
Lemma occurs_across sub l d r : lacks d sub -> occurs sub (l ++ String d r) -> occurs sub l \/ occurs sub r \/ sub = "".
Proof.
  intros Hd (a & b & E). revert a E. induction l as [|x l IH]; intros a E; cbn in E.
  - destruct a as [|y a]; cbn in E.
    + destruct sub as [|z sub]; [now right; right|]. cbn in E. injection E as -> _. destruct Hd as [C _]. congruence.
    + injection E as _ E. right. left. now exists a, b.
  - destruct a as [|y a].
    + cbn in E. (* sub starts here *)
      assert (P : forall sub', lacks d sub' -> forall l', l' ++ String d r = sub' ++ b -> exists q, l' = sub' ++ q).
      { clear. intros sub'. induction sub' as [|z s IH]; intros Hl l' E; [now exists l'|].
        destruct l' as [|w l']; cbn in E; injection E as -> E.
        - destruct Hl as [C _]. congruence.
        - destruct Hl as [_ Hl]. destruct (IH Hl l' E) as (q & ->). now exists q. }
      destruct (P sub Hd (String x l)) as (q & Eq); [exact E|]. left. exists "", q. exact Eq.
    + cbn in E. injection E as -> E. destruct (IH a E) as [(u & v & ->)|[H|H]].
      * left. now exists (String y u), v.
      * now right; left.
      * now right; right.
Qed.

Lemma occurs_suffix sub l r : occurs sub r -> occurs sub (l ++ r).
Proof. intros (a & b & ->). exists (l ++ a), b. now rewrite append_assoc_s. Qed.

Lemma occurs_prefix sub l r : occurs sub l -> occurs sub (l ++ r).
Proof. intros (a & b & ->). exists a, (b ++ r). now rewrite !append_assoc_s. Qed.

Lemma occurs_digits sub l ds r :
  sub <> "" -> every is_digit ds -> every (fun a => ~ is_digit a) sub -> ds <> "" ->
  ~ occurs sub r -> occurs sub (l ++ ds ++ r) -> occurs sub l.
Proof.
  intros Hne Hds Hsub Hn Hr. 
  assert (L : forall d, is_digit d -> lacks d sub).
  { intros d Hd. clear - Hsub Hd. induction sub as [|a s IH]; [exact I|]. destruct Hsub as [H1 H2].
    split; [intros ->; contradiction|]. exact (IH H2). }
  assert (T : forall ds', every is_digit ds' -> ~ occurs sub (ds' ++ r)).
  { intros ds'. induction ds' as [|d ds' IH]; intros H O; [exact (Hr O)|]. destruct H as [H1 H2].
    destruct (occurs_across sub "" d (ds' ++ r) (L d H1) O) as [(u & v & E)|[O'|E]].
    - destruct u; [|discriminate]. destruct sub; [contradiction|discriminate].
    - exact (IH H2 O').
    - contradiction. }
  destruct ds as [|d ds]; [contradiction|]. destruct Hds as [H1 H2]. intros O. cbn in O.
  destruct (occurs_across sub l d (ds ++ r) (L d H1) O) as [O'|[O'|E]]; [exact O'| |contradiction].
  exfalso. exact (T ds H2 O').
Qed.

(** ** Lines and fields *)

Lemma universal_id s : lacks cr s -> universal s = s.
Proof.
  induction s as [|a t IH]; intros H; [reflexivity|]. destruct H as [Ha Ht]. cbn.
  destruct (Ascii.eqb_spec a cr); [congruence|]. now rewrite IH.
Qed.

Lemma lines_cons p r : lacks nl p -> lines (p ++ String nl r) = (p ++ String nl "") :: lines r.
Proof.
  induction p as [|a p IH]; intros H; [reflexivity|]. destruct H as [Ha Hp].
  cbn [append lines]. destruct (Ascii.eqb_spec a nl); [congruence|]. now rewrite (IH Hp).
Qed.

Lemma lines_last p : lacks nl p -> p <> "" -> lines p = [p].
Proof.
  induction p as [|a p IH]; intros H Hne; [contradiction|]. destruct H as [Ha Hp].
  cbn [lines]. destruct (Ascii.eqb_spec a nl); [congruence|].
  destruct p as [|b p]; [reflexivity|]. now rewrite IH.
Qed.

Lemma split_hd c s : exists r, split c s = upto c s :: r.
Proof.
  induction s as [|a t (r & IH)]; [now exists []|]. cbn [split upto].
  destruct (Ascii.eqb a c); [eexists; reflexivity|]. rewrite IH. now exists r.
Qed.

Lemma split_second c p s : lacks c p -> nth_error (split c (p ++ String c s)) 1 = Some (upto c s).
Proof.
  induction p as [|a p IH]; intros H.
  - cbn [append split]. rewrite Ascii.eqb_refl. destruct (split_hd c s) as (r & ->). reflexivity.
  - destruct H as [Ha Hp]. cbn [append split]. destruct (Ascii.eqb_spec a c); [congruence|].
    specialize (IH Hp). destruct (split c (p ++ String c s)) as [|q l]; [discriminate|]. exact IH.
Qed.

Lemma split_none c s : lacks c s -> split c s = [s].
Proof.
  induction s as [|a t IH]; intros H; [reflexivity|]. destruct H as [Ha Ht]. cbn [split].
  destruct (Ascii.eqb_spec a c); [congruence|]. now rewrite IH.
Qed.

Lemma upto_app c s t : lacks c s -> upto c (s ++ t) = s ++ upto c t.
Proof.
  induction s as [|a s IH]; intros H; [reflexivity|]. destruct H as [Ha Hs]. cbn.
  destruct (Ascii.eqb_spec a c); [congruence|]. now rewrite IH.
Qed.

Lemma upto_cut c s t : lacks c s -> upto c (s ++ String c t) = s.
Proof. intros H. rewrite upto_app by exact H. cbn. rewrite Ascii.eqb_refl. apply append_nil_s. Qed.

(** ** Stems *)

Lemma last_dot_app p s : lacks "." s -> last_dot (p ++ String "." s) = Some p.
Proof.
  intros H. induction p as [|a p IH]; cbn [append last_dot].
  - assert (E : last_dot s = None).
    { clear - H. induction s as [|a s IH]; [reflexivity|]. destruct H as [Ha Hs]. cbn. rewrite (IH Hs).
      destruct (Ascii.eqb_spec a "."); [congruence|reflexivity]. }
    rewrite E. reflexivity.
  - now rewrite IH.
Qed.

Lemma all_dots_digits p ds : every is_digit ds -> ds <> "" -> all_dots (p ++ ds) = false.
Proof.
  intros H Hn. induction p as [|a p IH]; cbn [append all_dots].
  - destruct ds as [|d ds]; [contradiction|]. destruct H as [H _]. cbn.
    destruct (Ascii.eqb_spec d "."); [|reflexivity]. subst. unfold is_digit in H. vm_compute in H.
    destruct H as [H _]. now elim H.
  - rewrite IH. apply andb_false_r.
Qed.

Lemma stem_prefix s : exists r, s = stem s ++ r.
Proof.
  unfold stem. destruct (last_dot s) as [p|] eqn:E; [|exists ""; now rewrite append_nil_s].
  destruct (all_dots p); [exists ""; now rewrite append_nil_s|].
  revert p E. induction s as [|a t IH]; intros p E; [discriminate|]. cbn in E.
  destruct (last_dot t) as [q|].
  - injection E as <-. destruct (IH q eq_refl) as (r & ->). now exists r.
  - destruct (Ascii.eqb a "."); [|discriminate]. injection E as <-. now exists (String a t).
Qed.
