(** Proofs about recorded runs. *)
From Coq Require Import Reals Lra Lia ZArith NArith List Arith Bool String Ascii Permutation Sorted.
From Verif Require Import Base Tensor MText SText PText MLibrarian PLibrarian MUtils SUtils PUtils MFilm SFilm.
Import ListNotations.
Local Open Scope list_scope.

(** ** Paths *)

Lemma path_eqb_eq p q : path_eqb p q = true <-> p = q.
Proof. unfold path_eqb. destruct (list_eq_dec string_dec p q); split; congruence. Qed.

Lemma path_eqb_neq p q : p <> q -> path_eqb p q = false.
Proof. intros H. destruct (path_eqb p q) eqn:E; [apply path_eqb_eq in E; contradiction|reflexivity]. Qed.

Lemma path_eqb_refl p : path_eqb p p = true.
Proof. apply path_eqb_eq. reflexivity. Qed.

Lemma strip_some p : forall q r, strip p q = Some r <-> q = (p ++ r)%list.
Proof.
  induction p as [|a p IH]; intros q r; cbn [strip app]; [split; congruence|].
  destruct q as [|b q]; [split; discriminate|]. destruct (String.eqb_spec a b) as [->|N]; [rewrite IH; split; congruence|]. split; congruence.
Qed.

Lemma strip_under p q : (exists r, strip p q = Some r) <-> under p q.
Proof. unfold under. split; intros [r H]; exists r; apply strip_some; exact H. Qed.

Lemma strip_none p q : strip p q = None <-> ~ under p q.
Proof. rewrite <- strip_under. destruct (strip p q); split; intros H; try discriminate; eauto. - exfalso. eauto. - intros [r X]. discriminate. Qed.

Lemma under_dec p q : under p q \/ ~ under p q.
Proof. rewrite <- strip_none, <- strip_under. destruct (strip p q); eauto. Qed.

Lemma under_refl p : under p p.
Proof. exists []. symmetry. apply app_nil_r. Qed.

Lemma under_app p r : under p (p ++ r).
Proof. exists r. reflexivity. Qed.

Lemma under_trans p q r : under p q -> under q r -> under p r.
Proof. intros [a ->] [b ->]. exists (a ++ b)%list. symmetry. apply app_assoc. Qed.

Lemma under_nil p : under [] p.
Proof. exists p. reflexivity. Qed.

Lemma under_antisym p q : under p q -> under q p -> p = q.
Proof.
  intros [a ->] [b E]. rewrite <- app_assoc in E. rewrite <- (app_nil_r p) in E at 1. apply app_inv_head in E.
  symmetry in E. apply app_eq_nil in E as [-> _]. symmetry. apply app_nil_r.
Qed.

Lemma snoc_inj (p q : path) a b : (p ++ [a])%list = (q ++ [b])%list -> p = q /\ a = b.
Proof. apply app_inj_tail. Qed.

Lemma under_snoc p q a : under p (q ++ [a]) -> p = (q ++ [a])%list \/ under p q.
Proof.
  intros [r E]. destruct r as [|x r0]; [|destruct (@exists_last _ (x :: r0) ltac:(discriminate)) as (r' & b & Er); rewrite Er in E].
  - left. rewrite app_nil_r in E. congruence.
  - right. rewrite app_assoc in E. apply snoc_inj in E as [-> _]. apply under_app.
Qed.

Lemma removelast_snoc (p : path) a : removelast (p ++ [a]) = p.
Proof. apply removelast_last. Qed.

Lemma path_last (p : path) : p <> [] -> exists q a, p = (q ++ [a])%list.
Proof. intros H. destruct (@exists_last _ p H) as (q & a & E). eauto. Qed.

(** ** Entries *)

Lemma fget_cons {I} (f : fsys I) p : p <> [] -> fget f p = entry f p.
Proof. destruct p; [contradiction|reflexivity]. Qed.

Lemma snoc_nonnil (p : path) a : (p ++ [a])%list <> [].
Proof. destruct p; discriminate. Qed.

Lemma entry_in {I} (f : fsys I) p : entry f p <> None <-> In p (map fst f).
Proof.
  induction f as [|[q n] t IH]; cbn [entry map fst In]; [split; [congruence|contradiction]|].
  destruct (path_eqb p q) eqn:E; [apply path_eqb_eq in E; subst; split; auto; discriminate|].
  rewrite IH. split; [auto|]. intros [->|H]; [rewrite path_eqb_refl in E; discriminate|exact H].
Qed.

Lemma entry_some {I} (f : fsys I) p n : entry f p = Some n -> In (p, n) f.
Proof.
  induction f as [|[q m] t IH]; cbn [entry]; [discriminate|]. destruct (path_eqb p q) eqn:E; [|right; auto].
  apply path_eqb_eq in E. subst. intros H. injection H as ->. left. reflexivity.
Qed.

Lemma entry_none {I} (f : fsys I) p : ~ In p (map fst f) -> entry f p = None.
Proof. intros H. destruct (entry f p) eqn:E; [|reflexivity]. exfalso. apply H, entry_in. congruence. Qed.

Lemma in_entry {I} (f : fsys I) p n : NoDup (map fst f) -> In (p, n) f -> entry f p = Some n.
Proof.
  induction f as [|[q m] t IH]; cbn [entry map fst In]; [contradiction|]. intros D H. inversion_clear D as [|? ? D1 D2].
  destruct H as [E|H]; [injection E as -> ->; rewrite path_eqb_refl; reflexivity|].
  rewrite path_eqb_neq; [auto|]. intros ->. apply D1. apply (in_map fst) in H. exact H.
Qed.

Lemma entry_fput {I} (f : fsys I) p n q : entry (fput f p n) q = if path_eqb q p then Some n else entry f q.
Proof.
  induction f as [|[r m] t IH]; cbn [fput entry].
  - reflexivity.
  - destruct (path_eqb p r) eqn:E; cbn [entry].
    + apply path_eqb_eq in E. subst r. destruct (path_eqb q p); reflexivity.
    + rewrite IH. destruct (path_eqb q r) eqn:E'; [|reflexivity]. apply path_eqb_eq in E'. subst r.
      destruct (path_eqb q p) eqn:E''; [|reflexivity]. apply path_eqb_eq in E''. subst q. rewrite path_eqb_refl in E. discriminate.
Qed.

Lemma fget_fput {I} (f : fsys I) p n q : p <> [] -> fget (fput f p n) q = if path_eqb q p then Some n else fget f q.
Proof.
  intros H. destruct q as [|a q]; [rewrite path_eqb_neq by congruence; reflexivity|]. rewrite !fget_cons by discriminate. apply entry_fput.
Qed.

Lemma keys_fput {I} (f : fsys I) p n : (In p (map fst f) /\ map fst (fput f p n) = map fst f) \/ (~ In p (map fst f) /\ map fst (fput f p n) = map fst f ++ [p]).
Proof.
  induction f as [|[r m] t IH]; cbn [fput map fst]; [right; auto|].
  destruct (path_eqb p r) eqn:E; cbn [map fst In].
  - apply path_eqb_eq in E. subst r. left. auto.
  - destruct IH as [[A ->]|[A ->]]; [left; auto|]. right. split; [|reflexivity]. intros [->|B]; [rewrite path_eqb_refl in E; discriminate|contradiction].
Qed.

Lemma keys_fput_in {I} (f : fsys I) p n q : In q (map fst (fput f p n)) <-> q = p \/ In q (map fst f).
Proof.
  destruct (keys_fput f p n) as [[A ->]|[A ->]]; [split; [auto|intros [->|H]; auto]|].
  rewrite in_app_iff. cbn [In]. split; [intros [H|[H|[]]]; auto|intros [->|H]; auto].
Qed.

Lemma nodup_fput {I} (f : fsys I) p n : NoDup (map fst f) -> NoDup (map fst (fput f p n)).
Proof.
  intros D. destruct (keys_fput f p n) as [[A ->]|[A ->]]; [exact D|].
  apply (Permutation_NoDup (Permutation_cons_append (map fst f) p)). constructor; assumption.
Qed.

(** Files and directories stay in directories. *)
Lemma tidy_fput {I} (f : fsys I) p n : tidy f -> p <> [] -> fget f (removelast p) = Some NDir -> (n = NDir \/ fget f p <> Some NDir) -> tidy (fput f p n).
Proof.
  intros [D T] N P K. split; [apply nodup_fput; exact D|]. intros q m H.
  assert (Q : q = p \/ In q (map fst f)) by (apply (in_map fst) in H; apply keys_fput_in in H; exact H).
  assert (X : q <> [] /\ fget f (removelast q) = Some NDir).
  { destruct Q as [->|Q]; [auto|]. apply in_map_iff in Q as ([q' m'] & E & Q). cbn [fst] in E. subst q'. exact (T q m' Q). }
  destruct X as [X1 X2]. split; [exact X1|]. rewrite fget_fput by exact N. destruct (path_eqb (removelast q) p) eqn:E; [|exact X2].
  apply path_eqb_eq in E. destruct K as [->|K]; [reflexivity|]. exfalso. apply K. rewrite <- E. exact X2.
Qed.

Lemma tidy_up {I} (f : fsys I) p q : tidy f -> under p q -> fget f q <> None -> q = p \/ fget f p = Some NDir.
Proof.
  intros T [r ->]. revert p. induction r as [|a r IH] using rev_ind; intros p H; [left; apply app_nil_r|].
  right. destruct T as [D T]. rewrite app_assoc in H.
  assert (E : fget f (p ++ r) = Some NDir).
  { rewrite fget_cons in H by apply snoc_nonnil. apply entry_in in H. apply in_map_iff in H as ([q n] & E & H). cbn [fst] in E. subst q.
    destruct (T _ _ H) as [_ X]. rewrite removelast_snoc in X. exact X. }
  destruct (IH p) as [X|X]; [congruence| |exact X]. rewrite <- X. exact E.
Qed.

(** ** Removing *)

Lemma entry_filter {I} (P : path * node I -> bool) (f : fsys I) q : NoDup (map fst f) ->
  entry (filter P f) q = match entry f q with Some n => if P (q, n) then Some n else None | None => None end.
Proof.
  induction f as [|[r m] t IH]; cbn [filter map fst]; intros D; [reflexivity|]. inversion_clear D as [|? ? D1 D2]. specialize (IH D2).
  cbn [entry]. destruct (P (r, m)) eqn:E; cbn [entry].
  - destruct (path_eqb q r) eqn:E'; [apply path_eqb_eq in E'; subst; rewrite E; reflexivity|exact IH].
  - destruct (path_eqb q r) eqn:E'; [|exact IH]. apply path_eqb_eq in E'. subst. rewrite E, IH, (entry_none t r D1). reflexivity.
Qed.

Lemma nodup_filter {I} (P : path * node I -> bool) (f : fsys I) : NoDup (map fst f) -> NoDup (map fst (filter P f)).
Proof.
  induction f as [|[r m] t IH]; cbn [filter map fst]; intros D; [exact D|]. inversion_clear D as [|? ? D1 D2].
  destruct (P (r, m)); [|auto]. cbn [map fst]. constructor; [|auto]. intros H. apply D1. apply in_map_iff in H as (x & E & H).
  apply filter_In in H as [H _]. rewrite <- E. apply in_map. exact H.
Qed.

Lemma fget_rm_r {I} (f : fsys I) p q : NoDup (map fst f) -> p <> [] -> (under p q -> fget (rm_r f p) q = None) /\ (~ under p q -> fget (rm_r f p) q = fget f q).
Proof.
  intros D N. destruct q as [|a q].
  - split; [|reflexivity]. intros [r E]. symmetry in E. apply app_eq_nil in E as [E _]. contradiction.
  - rewrite !fget_cons by discriminate. unfold rm_r. rewrite entry_filter by exact D. cbn [fst]. split; intros U.
    + apply strip_under in U as [r ->]. destruct (entry f (a :: q)); reflexivity.
    + apply strip_none in U. rewrite U. destruct (entry f (a :: q)); reflexivity.
Qed.

Lemma fget_rm_png {I} (f : fsys I) p q : NoDup (map fst f) -> ~ under p q -> fget (rm_png f p) q = fget f q.
Proof.
  intros D U. destruct q as [|a q]; [reflexivity|]. rewrite !fget_cons by discriminate. unfold rm_png. rewrite entry_filter by exact D. cbn [fst].
  apply strip_none in U. rewrite U. destruct (entry f (a :: q)); reflexivity.
Qed.

(** ** Listing *)

Lemma names_in {I} (f : fsys I) p x : In x (names f p) <-> fget f (p ++ [x]) <> None.
Proof.
  rewrite fget_cons by apply snoc_nonnil. rewrite entry_in. unfold names. rewrite in_flat_map. split.
  - intros ([q n] & H & X). cbn [fst] in X. destruct (strip p q) as [[|y [|]]|] eqn:E; try contradiction. destruct X as [->|[]].
    apply strip_some in E. subst q. apply (in_map fst) in H. exact H.
  - intros H. apply in_map_iff in H as ([q n] & E & H). cbn [fst] in E. subst q. exists ((p ++ [x])%list, n). split; [exact H|]. cbn [fst].
    rewrite (proj2 (strip_some p (p ++ [x]) [x]) eq_refl). left. reflexivity.
Qed.

Lemma names_nodup {I} (f : fsys I) p : NoDup (map fst f) -> NoDup (names f p).
Proof.
  induction f as [|[q n] t IH]; intros D; [constructor|]. cbn [map fst] in D. inversion_clear D as [|? ? D1 D2].
  unfold names. cbn [flat_map fst]. destruct (strip p q) as [[|y [|]]|] eqn:E; cbn [app]; try (apply IH; exact D2).
  constructor; [|apply IH; exact D2]. intros H. apply strip_some in E. subst q. apply D1. apply entry_in. rewrite <- fget_cons by apply snoc_nonnil. apply names_in. exact H.
Qed.

(** ** Making directories *)

Lemma mkdir_p_spec {I} rest : forall (f : fsys I) done, tidy f -> fget f done = Some NDir ->
  (forall q, under q (done ++ rest) -> fget f q = None \/ fget f q = Some NDir) ->
  tidy (mkdir_p f done rest) /\
  forall q, fget (mkdir_p f done rest) q = if strip q (done ++ rest) then (if strip q done then fget f q else Some NDir) else fget f q.
Proof.
  induction rest as [|a t IH]; intros f done T Hd Ho; cbn [mkdir_p].
  - split; [exact T|]. intros q. rewrite app_nil_r. destruct (strip q done); reflexivity.
  - assert (A : (done ++ a :: t)%list = ((done ++ [a]) ++ t)%list) by (rewrite <- app_assoc; reflexivity). rewrite A in *.
    destruct (Ho (done ++ [a])%list (under_app _ _)) as [E|E]; rewrite E.
    + assert (T' : tidy (fput f (done ++ [a]) NDir)) by (apply tidy_fput; [exact T|apply snoc_nonnil|rewrite removelast_snoc; exact Hd|left; reflexivity]).
      destruct (IH (fput f (done ++ [a]) NDir) (done ++ [a])%list T') as [T2 G].
      { rewrite fget_fput by apply snoc_nonnil. rewrite path_eqb_refl. reflexivity. }
      { intros q U. rewrite fget_fput by apply snoc_nonnil. destruct (path_eqb q (done ++ [a])); [auto|apply Ho; exact U]. }
      split; [exact T2|]. intros q. rewrite G, fget_fput by apply snoc_nonnil.
      destruct (strip q ((done ++ [a]) ++ t)) eqn:S1.
      * destruct (strip q (done ++ [a])) eqn:S2.
        -- destruct (path_eqb q (done ++ [a])) eqn:S3.
           ++ apply path_eqb_eq in S3. subst q. destruct (strip (done ++ [a]) done) eqn:S4; [|reflexivity].
              apply strip_some in S4. apply (f_equal (@List.length string)) in S4. rewrite !app_length in S4. cbn [List.length] in S4. lia.
           ++ destruct (strip q done) eqn:S4; [reflexivity|]. apply strip_none in S4. exfalso. apply strip_some in S2.
              assert (U : under q (done ++ [a])) by (eexists; exact S2). apply under_snoc in U as [->|U]; [rewrite path_eqb_refl in S3; discriminate|contradiction].
        -- destruct (strip q done) eqn:S4; [|reflexivity]. exfalso. apply strip_none in S2. apply S2. apply strip_some in S4. rewrite S4, <- app_assoc. apply under_app.
      * rewrite path_eqb_neq; [reflexivity|]. intros ->. apply strip_none in S1. apply S1. apply under_app.
    + destruct (IH f (done ++ [a])%list T E Ho) as [T2 G]. split; [exact T2|]. intros q. rewrite G.
      destruct (strip q ((done ++ [a]) ++ t)) eqn:S1; [|reflexivity]. destruct (strip q (done ++ [a])) eqn:S2.
      * destruct (strip q done) eqn:S4; [reflexivity|]. apply strip_none in S4. apply strip_some in S2.
        assert (U : under q (done ++ [a])) by (eexists; exact S2). apply under_snoc in U as [->|U]; [exact E|contradiction].
      * destruct (strip q done) eqn:S4; [|reflexivity]. exfalso. apply strip_none in S2. apply S2. apply strip_some in S4. rewrite S4, <- app_assoc. apply under_app.
Qed.

(** The files at the beginning of the loop. *)
Definition prepared {I} (f : fsys I) (frames : path) : fsys I := match fget f frames with Some _ => f | None => mkdir_p f [] frames end.

Lemma prepared_spec {I} (f : fsys I) frames : tidy f -> open_way f frames -> tidy (prepared f frames) /\
  forall q, (under q frames -> fget (prepared f frames) q = Some NDir) /\ (~ under q frames -> fget (prepared f frames) q = fget f q).
Proof.
  intros T O. unfold prepared. destruct (fget f frames) eqn:E.
  - split; [exact T|]. intros q. split; [|auto]. intros U. destruct (tidy_up f q frames T U ltac:(congruence)) as [X|X]; [|exact X].
    subst q. destruct (O frames (under_refl _)) as [Y|Y]; [congruence|exact Y].
  - destruct (mkdir_p_spec frames f [] T eq_refl O) as [T2 G]. cbn [app] in G. split; [exact T2|]. intros q. rewrite G. split; intros U.
    + apply strip_under in U as [r ->]. destruct q; reflexivity.
    + apply strip_none in U. rewrite U. reflexivity.
Qed.

(** ** The loop *)

Section Loop.
Context {G I : Type}.
Variables (frame : G -> res (output G)) (dead : G -> res bool) (render : G -> res I).
Variables (n sp : nat) (frames : path) (u : nat -> G) (pic : nat -> I).
Hypothesis Hframes : frames <> [].

Notation fp i := (frames ++ [frame_name n i]).

Lemma fp_inj i j : fp i = fp j -> i = j.
Proof. intros E. apply snoc_inj in E as [_ E]. exact (frame_inj n i j E). Qed.

Lemma fp_not_under i q : under q frames -> q <> fp i.
Proof.
  intros [r E] ->. apply (f_equal (@List.length string)) in E. rewrite !app_length in E. cbn [List.length] in E. lia.
Qed.

Lemma film_prefix f0 : tidy f0 -> (forall q, under q frames -> fget f0 q = Some NDir) ->
  forall s, (s <= n)%nat -> (forall i, (i < s)%nat -> shot frame dead render sp u pic i) -> (forall i, (i < s)%nat -> fget f0 (fp i) <> Some NDir) ->
  exists f, filmed f0 f frames n s pic /\
    film_loop frame dead render n sp frames n 0 None (One (u 0%nat)) f0 =
    film_loop frame dead render n sp frames (n - s) s (if Nat.eqb s 0 then None else Some (s - 1)%nat) (One (u s)) f.
Proof.
  intros T D. induction s as [|s IH]; intros Hs Hu Hd.
  - exists f0. rewrite Nat.sub_0_r. split; [|reflexivity]. split; [exact T|]. split; [exact D|]. split; [intros i Hi; lia|auto].
  - destruct IH as (f & (FT & FD & FN & FO) & E); [lia|intros; apply Hu; lia|intros; apply Hd; lia|].
    destruct (Hu s ltac:(lia)) as (H1 & H2 & H3).
    assert (A : fget f (fp s) <> Some NDir).
    { destruct (under_dec (fp s) frames) as [U|U]; [exfalso; apply (fp_not_under s _ U); reflexivity|].
      rewrite FO; [apply Hd; lia|exact U|]. intros i Hi C. apply fp_inj in C. lia. }
    exists (fput f (fp s) (NPic (pic s))). split.
    + split; [apply tidy_fput; [exact FT|apply snoc_nonnil|rewrite removelast_snoc; apply FD, under_refl|right; exact A]|].
      split; [intros q U; rewrite fget_fput, path_eqb_neq by (apply snoc_nonnil || apply fp_not_under, U); apply FD, U|].
      split.
      * intros i Hi. rewrite fget_fput by apply snoc_nonnil. destruct (path_eqb (fp i) (fp s)) eqn:C.
        -- apply path_eqb_eq in C. apply fp_inj in C. subst. reflexivity.
        -- apply FN. destruct (Nat.eq_dec i s) as [->|]; [rewrite path_eqb_refl in C; discriminate|lia].
      * intros q U Hq. rewrite fget_fput by apply snoc_nonnil. rewrite path_eqb_neq by (apply Hq; lia). apply FO; [exact U|]. intros; apply Hq; lia.
    + rewrite E. replace (n - s)%nat with (S (n - S s)) by lia. cbn [film_loop]. rewrite H1, H2.
      unfold write. rewrite removelast_snoc, (FD frames (under_refl _)).
      replace (match fget f (fp s) with Some NDir => Err OSError | _ => Ok (fput f (fp s) (NPic (pic s))) end) with (Ok (fput f (fp s) (NPic (pic s))))
        by (destruct (fget f (fp s)) as [[]|]; congruence).
      cbn beta iota. rewrite H3. cbn [Nat.eqb]. rewrite Nat.sub_succ, Nat.sub_0_r. reflexivity.
Qed.

Lemma film_run f0 m : tidy f0 -> (forall q, under q frames -> fget f0 q = Some NDir) ->
  recorded frame dead render n sp u pic m -> (0 < n)%nat -> (forall i, (i < m)%nat -> fget f0 (fp i) <> Some NDir) ->
  exists f, filmed f0 f frames n m pic /\
    film_loop frame dead render n sp frames n 0 None (One (u 0%nat)) f0 = (f, Ok (Some (if Nat.ltb m n then m else (n - 1)%nat))).
Proof.
  intros T D (R1 & R2 & R3) Hn Hd. destruct (film_prefix f0 T D m R1 R2 Hd) as (f & F & E). exists f. split; [exact F|]. rewrite E.
  destruct (Nat.ltb_spec m n) as [L|L].
  - replace (n - m)%nat with (S (n - S m)) by lia. cbn [film_loop]. rewrite (R3 L). reflexivity.
  - replace (n - m)%nat with 0%nat by lia. cbn [film_loop]. rewrite (proj2 (Nat.eqb_neq m 0)) by lia. repeat f_equal. lia.
Qed.

(** ** Reels *)

Lemma reel_filmed f0 f k m old : reel f0 frames n k old -> filmed f0 f frames n m pic -> reel f frames n (Nat.max k m) (over m pic old).
Proof.
  intros R (FT & FD & FN & FO) x Hx. unfold over.
  assert (U : ~ under (frames ++ [x]) frames).
  { intros [r E]. apply (f_equal (@List.length string)) in E. rewrite !app_length in E. cbn [List.length] in E. lia. }
  assert (Q : (exists i, (i < m)%nat /\ x = frame_name n i) \/ (forall i, (i < m)%nat -> x <> frame_name n i)).
  { clear. induction m as [|j [IH|IH]]; [right; lia| |].
    - left. destruct IH as (i & H & E). exists i. split; [lia|exact E].
    - destruct (string_dec x (frame_name n j)) as [->|N]; [left; exists j; auto|]. right. intros i Hi. destruct (Nat.eq_dec i j) as [->|]; [exact N|apply IH; lia]. }
  destruct Q as [(i & Hi & ->)|Q].
  - left. exists i. split; [lia|]. split; [reflexivity|]. rewrite (proj2 (Nat.ltb_lt i m) Hi). apply FN, Hi.
  - assert (E : fget f (frames ++ [x]) = fget f0 (frames ++ [x])).
    { apply FO; [exact U|]. intros i Hi C. apply snoc_inj in C as [_ C]. exact (Q i Hi C). }
    rewrite E. destruct (R x Hx) as [(i & Hi & -> & C)|[H C]].
    + left. exists i. split; [lia|]. split; [reflexivity|]. destruct (Nat.ltb_spec i m) as [L|L]; [exfalso; exact (Q i L eq_refl)|exact C].
    + right. split; [|exact C]. intros i Hi. destruct (le_lt_dec m i) as [L|L]; [apply H; lia|apply Q, L].
Qed.

Lemma reel_nodir (f : fsys I) k (old : nat -> I) i : reel f frames n k old -> fget f (fp i) <> Some NDir.
Proof. intros R. destruct (R _ (frame_png n i)) as [(j & _ & E & C)|[_ C]]; rewrite C; discriminate. Qed.

Lemma open_pics_filter f l : open_pics (I:=I) f frames l = open_pics f frames (filter (contains "png") l).
Proof.
  induction l as [|x t IH]; [reflexivity|]. cbn [open_pics filter]. destruct (contains "png" x) eqn:E; [|exact IH].
  cbn [open_pics]. rewrite E, IH. reflexivity.
Qed.

Lemma frame_sorted k : numbered n k -> StronglySorted not_after (map (frame_name n) (seq 0 k)).
Proof.
  intros Hk. unfold numbered in Hk.
  assert (B : forall i j, (i < j < k)%nat -> before (frame_name n i) (frame_name n j)).
  { intros i j [H1 H2]. unfold frame_name. apply before_prefix.
    assert (W : exists w, (if Nat.leb (n / 10 + 1) 5 then 5%nat else 10%nat) = w /\ w <> O /\ (N.of_nat j < 10 ^ N.of_nat w)%N).
    { pose proof (Nat.div_mod n 10 ltac:(lia)) as DM. pose proof (Nat.mod_upper_bound n 10 ltac:(lia)) as MU.
      destruct (Nat.leb_spec (n / 10 + 1) 5) as [L|L].
      - exists 5%nat. rewrite (proj2 (Nat.ltb_lt n 50)) in Hk by lia. repeat split; [lia|]. change (N.of_nat 5) with 5%N. lia.
      - exists 10%nat. rewrite (proj2 (Nat.ltb_ge n 50)) in Hk by lia. repeat split; [lia|]. change (N.of_nat 10) with 10%N. lia. }
    destruct W as (w & -> & Hw & Hj). apply before_suffix.
    - rewrite !pad_length; [reflexivity| | | |]; try exact Hw; lia.
    - apply pad_before; [lia|exact Hj|exact Hw]. }
  assert (Q : forall a c, (a + c <= k)%nat -> StronglySorted not_after (map (frame_name n) (seq a c))).
  { intros a c. revert a. induction c as [|c IH]; intros a Ha; [constructor|]. cbn [seq map]. constructor; [apply IH; lia|].
    apply Forall_forall. intros x Hx. apply in_map_iff in Hx as (j & <- & Hj). apply in_seq in Hj. right. apply B. lia. }
  apply Q. lia.
Qed.

Lemma open_reel (f : fsys I) k (r : nat -> I) : tidy f -> reel f frames n k r -> numbered n k -> open_pics f frames (sort (names f frames)) = Ok (map r (seq 0 k)).
Proof.
  intros [D T] R Hk. rewrite open_pics_filter, filter_png_sort.
  assert (P : Permutation (filter (contains "png") (names f frames)) (map (frame_name n) (seq 0 k))).
  { apply NoDup_Permutation.
    - apply NoDup_filter, names_nodup, D.
    - apply FinFun.Injective_map_NoDup; [intros i j; apply frame_inj|apply seq_NoDup].
    - intros x. rewrite filter_In, names_in, in_map_iff. split.
      + intros [Hx Hp]. destruct (R x Hp) as [(i & Hi & -> & _)|[_ C]]; [|congruence]. exists i. split; [reflexivity|]. apply in_seq. lia.
      + intros (i & <- & Hi). apply in_seq in Hi. split; [|apply frame_png].
        destruct (R _ (frame_png n i)) as [(j & _ & E & C)|[C _]]; [congruence|]. exfalso. apply (C i); [lia|reflexivity]. }
  rewrite (sort_of_perm _ _ (frame_sorted k Hk) P).
  assert (Q : forall l, (forall i, In i l -> (i < k)%nat) -> open_pics f frames (map (frame_name n) l) = Ok (map r l)).
  { induction l as [|i l IH]; intros H; [reflexivity|]. cbn [map open_pics]. rewrite frame_png.
    destruct (R _ (frame_png n i)) as [(j & _ & E & C)|[C _]]; [|exfalso; apply (C i); [apply H; now left|reflexivity]].
    apply frame_inj in E. subst j. rewrite C, IH by (intros; apply H; now right). reflexivity. }
  apply Q. intros i Hi. apply in_seq in Hi. lia.
Qed.

End Loop.

(** ** The animation *)

Definition gif_file {I} (f : fsys I) (gifs : path) : fsys I := match fget f gifs with Some _ => f | None => fput f gifs NDir end.

Lemma gif_file_get {I} (f : fsys I) gifs : gifs <> [] -> (fget f gifs = Some NDir \/ fget f gifs = None) ->
  forall q, fget (gif_file f gifs) q = if path_eqb q gifs then Some NDir else fget f q.
Proof.
  intros N P q. unfold gif_file. destruct (path_eqb q gifs) eqn:E.
  - apply path_eqb_eq in E. subst q. destruct P as [P|P]; rewrite P; [exact P|]. rewrite fget_fput, path_eqb_refl by exact N. reflexivity.
  - destruct P as [P|P]; rewrite P; [reflexivity|]. rewrite fget_fput, E by exact N. reflexivity.
Qed.

Lemma gif_ok {I} (f : fsys I) frames gifs tag id first rest : tidy f -> fget f frames = Some NDir ->
  open_pics f frames (sort (names f frames)) = Ok (first :: rest) -> gifs <> [] ->
  (fget f gifs = Some NDir \/ (fget f gifs = None /\ fget f (removelast gifs) = Some NDir)) ->
  fget f (gifs ++ [gif_name tag id]) <> Some NDir ->
  exists f2, gif f frames gifs tag id = (rm_png f2 frames, Ok (gifs ++ [gif_name tag id])) /\ tidy f2 /\
    forall q, fget f2 q = if path_eqb q (gifs ++ [gif_name tag id]) then Some (NGif (first :: first :: rest)) else if path_eqb q gifs then Some NDir else fget f q.
Proof.
  intros T D O N P A. unfold gif. rewrite D, O. cbv zeta. set (p := gifs ++ [gif_name tag id]) in *.
  assert (M : (match fget f gifs with Some _ => Ok f | None => mkdir f gifs end) = Ok (gif_file f gifs)).
  { unfold gif_file, mkdir. destruct P as [P|[P Q]]; rewrite P; [reflexivity|]. rewrite Q. reflexivity. }
  rewrite M. assert (T1 : tidy (gif_file f gifs)).
  { unfold gif_file. destruct P as [P|[P Q]]; rewrite P; [exact T|]. apply tidy_fput; [exact T|exact N|exact Q|left; reflexivity]. }
  assert (Pn : p <> gifs).
  { intros C. apply (f_equal (@List.length string)) in C. unfold p in C. rewrite app_length in C. cbn [List.length] in C. lia. }
  assert (F1 : forall q, fget (gif_file f gifs) q = if path_eqb q gifs then Some NDir else fget f q) by (apply gif_file_get; [exact N|tauto]).
  assert (A1 : fget (gif_file f gifs) p <> Some NDir) by (rewrite F1, path_eqb_neq by exact Pn; exact A).
  assert (Dg : fget (gif_file f gifs) (removelast p) = Some NDir) by (unfold p; rewrite removelast_snoc, F1, path_eqb_refl; reflexivity).
  exists (fput (gif_file f gifs) p (NGif (first :: first :: rest))). unfold write. rewrite Dg.
  split; [destruct (fget (gif_file f gifs) p) as [[]|]; congruence|].
  split; [apply tidy_fput; [exact T1|apply snoc_nonnil|exact Dg|right; exact A1]|].
  intros q. rewrite fget_fput by apply snoc_nonnil. rewrite F1. reflexivity.
Qed.

Lemma tidy_filter {I} (P : path * node I -> bool) (f : fsys I) : tidy f ->
  (forall p n, In (p, n) f -> P (p, n) = true -> forall m, fget f (removelast p) = Some m -> removelast p = [] \/ P (removelast p, m) = true) -> tidy (filter P f).
Proof.
  intros [D T] H. split; [apply nodup_filter, D|]. intros p n Hp. apply filter_In in Hp as [Hp Pp]. destruct (T p n Hp) as [N E]. split; [exact N|].
  destruct (H p n Hp Pp _ E) as [X|X]; [rewrite X; reflexivity|]. destruct (removelast p) as [|a q] eqn:Q; [reflexivity|].
  rewrite fget_cons in * by discriminate. rewrite entry_filter by exact D. rewrite E.
  match type of X with ?t = _ => change ((if t then Some NDir else None) = Some (@NDir I)) end. rewrite X. reflexivity.
Qed.

Lemma tidy_rm_r {I} (f : fsys I) p : tidy f -> tidy (rm_r f p).
Proof.
  intros T. apply tidy_filter; [exact T|]. intros q n Hq Pq m _. right. cbn [fst] in *. destruct (strip p q) eqn:S1; [discriminate|].
  destruct (strip p (removelast q)) eqn:S2; [|reflexivity]. exfalso. apply strip_none in S1. apply S1. apply strip_some in S2.
  destruct T as [_ T]. destruct (T q n Hq) as [N _]. destruct (path_last q N) as (q' & a & ->). rewrite removelast_snoc in S2. subst q'.
  rewrite <- app_assoc. apply under_app.
Qed.

Lemma tidy_rm_png {I} (f : fsys I) p : tidy f -> tidy (rm_png f p).
Proof.
  intros T. apply tidy_filter; [exact T|]. intros q n Hq _ m E. right. cbn [fst snd]. destruct T as [_ T]. destruct (T q n Hq) as [_ X].
  rewrite X in E. injection E as <-. destruct (strip p (removelast q)) as [[|y [|]]|]; reflexivity.
Qed.

(** ** Whatever happens *)

Lemma write_else {I} (f f' : fsys I) p n : write f p n = Ok f' -> p <> [] -> (NoDup (map fst f) -> NoDup (map fst f')) /\ forall q, q <> p -> fget f' q = fget f q.
Proof.
  unfold write. intros E N. assert (E' : f' = fput f p n) by (destruct (fget f (removelast p)) as [[]|]; try discriminate; destruct (fget f p) as [[]|]; congruence).
  subst f'. split; [apply nodup_fput|]. intros q Hq. rewrite fget_fput, path_eqb_neq by assumption. reflexivity.
Qed.

Lemma mkdir_p_else {I} rest : forall (f : fsys I) done, (NoDup (map fst f) -> NoDup (map fst (mkdir_p f done rest))) /\
  forall q, ~ under q (done ++ rest) -> fget (mkdir_p f done rest) q = fget f q.
Proof.
  induction rest as [|a t IH]; intros f done; cbn [mkdir_p]; [auto|].
  assert (A : done ++ a :: t = (done ++ [a]) ++ t) by (rewrite <- app_assoc; reflexivity). rewrite A.
  destruct (fget f (done ++ [a])) as [[]|]; try (split; auto; fail).
  - apply IH.
  - destruct (IH (fput f (done ++ [a]) NDir) (done ++ [a])) as [N E]. split; [intros D; apply N, nodup_fput, D|].
    intros q U. rewrite E by exact U. rewrite fget_fput by apply snoc_nonnil. rewrite path_eqb_neq; [reflexivity|]. intros ->. apply U, under_app.
Qed.

Lemma film_loop_else {G I} (frame : G -> res (output G)) dead (render : G -> res I) n sp frames k : forall step last grid f f' r,
  film_loop frame dead render n sp frames k step last grid f = (f', r) ->
  (NoDup (map fst f) -> NoDup (map fst f')) /\ forall q, ~ under frames q -> fget f' q = fget f q.
Proof.
  induction k as [|k IH]; intros step last grid f f' r; cbn [film_loop]; [intros E; injection E as <- _; auto|].
  destruct grid as [g|]; [|intros E; injection E as <- _; auto].
  destruct (dead g) as [[]|e]; try (intros E; injection E as <- _; auto; fail).
  destruct (render g) as [i|e]; [|intros E; injection E as <- _; auto].
  destruct (write f (frames ++ [frame_name n step]) (NPic i)) as [f1|e] eqn:W; [|intros E; injection E as <- _; auto].
  destruct (write_else _ _ _ _ W (snoc_nonnil _ _)) as [W1 W2].
  assert (W3 : forall q, ~ under frames q -> fget f1 q = fget f q) by (intros q U; apply W2; intros ->; apply U, under_app).
  destruct (advance frame sp (One g)) as [g'|e]; [|intros E; injection E as <- _; auto].
  intros E. destruct (IH _ _ _ _ _ _ E) as [N1 N2]. split; [auto|]. intros q U. rewrite N2, W3 by exact U. reflexivity.
Qed.

Lemma gif_else {I} (f f' : fsys I) frames gifs tag id r : gifs <> [] -> gif f frames gifs tag id = (f', r) -> NoDup (map fst f) ->
  NoDup (map fst f') /\ forall q, ~ under frames q -> q <> gifs -> q <> gifs ++ [gif_name tag id] -> fget f' q = fget f q.
Proof.
  intros N E D. unfold gif in E. destruct (fget f frames) as [[]|]; try (injection E as <- _; auto; fail).
  destruct (open_pics f frames (sort (names f frames))) as [[|first rest]|e]; try (injection E as <- _; auto; fail).
  destruct (match fget f gifs with Some _ => Ok f | None => mkdir f gifs end) as [f1|e] eqn:M; [|injection E as <- _; auto].
  assert (M1 : NoDup (map fst f1) /\ forall q, q <> gifs -> fget f1 q = fget f q).
  { destruct (fget f gifs) eqn:Q; [injection M as <-; auto|]. unfold mkdir in M.
    assert (M' : f1 = fput f gifs NDir) by (destruct (fget f (removelast gifs)) as [[]|]; congruence). subst f1.
    split; [apply nodup_fput, D|]. intros q Hq. rewrite fget_fput, path_eqb_neq by assumption. reflexivity. }
  destruct M1 as [M1 M2]. cbv zeta in E.
  destruct (write f1 (gifs ++ [gif_name tag id]) (NGif (first :: first :: rest))) as [f2|e] eqn:W; [|injection E as <- _; auto].
  destruct (write_else _ _ _ _ W (snoc_nonnil _ _)) as [W1 W2]. injection E as <- _. split; [apply nodup_filter; auto|].
  intros q U Q1 Q2. rewrite fget_rm_png, W2, M2 by auto. reflexivity.
Qed.

Lemma film_else {G I} (frame : G -> res (output G)) dead (render : G -> res I) n sp frames gif_path tag id grid f f' r :
  film frame dead render n sp frames gif_path tag id grid f = (f', r) -> NoDup (map fst f) -> frames <> [] ->
  NoDup (map fst f') /\
  forall q, ~ under frames q -> ~ under q frames -> q <> gif_path ++ [tag_dir tag] -> q <> (gif_path ++ [tag_dir tag]) ++ [gif_name (snd tag) id] -> fget f' q = fget f q.
Proof.
  intros E D N. unfold film in E. fold (prepared f frames) in E.
  assert (P : NoDup (map fst (prepared f frames)) /\ forall q, ~ under q frames -> fget (prepared f frames) q = fget f q).
  { unfold prepared. destruct (fget f frames); [auto|]. destruct (mkdir_p_else frames f []) as [A B]. split; [auto|]. exact B. }
  destruct P as [P1 P2]. destruct (film_loop _ _ _ _ _ _ _ _ _ _ _) as [f1 r1] eqn:L.
  apply film_loop_else in L as [L1 L2]. specialize (L1 P1).
  assert (Q : NoDup (map fst f1) /\ forall q, ~ under frames q -> ~ under q frames -> fget f1 q = fget f q) by (split; [exact L1|intros q U V; rewrite L2, P2 by assumption; reflexivity]).
  destruct Q as [_ Q]. destruct r1 as [[step|]|e]; try (injection E as <- _; split; auto; fail).
  destruct (Nat.ltb 0 step).
  - destruct (gif f1 frames (gif_path ++ [tag_dir tag]) (snd tag) id) as [f2 r2] eqn:Gf.
    destruct (gif_else _ _ _ _ _ _ _ (snoc_nonnil _ _) Gf L1) as [G1 G2]. destruct r2 as [p|e]; injection E as <- _; (split; [try apply nodup_filter; auto|]); intros q U V Q1 Q2.
    + rewrite (proj2 (fget_rm_r f2 frames q G1 N) U), G2, Q by assumption. reflexivity.
    + rewrite G2, Q by assumption. reflexivity.
  - injection E as <- _. split; [apply nodup_filter; auto|]. intros q U V Q1 Q2. rewrite (proj2 (fget_rm_r f1 frames q L1 N) U), Q by assumption. reflexivity.
Qed.

Lemma rm_r_gone {I} (f : fsys I) p q : p <> [] -> under p q -> fget (rm_r f p) q = None.
Proof.
  intros N U. destruct q as [|a q]; [destruct U as [r E]; symmetry in E; apply app_eq_nil in E as [E _]; contradiction|].
  rewrite fget_cons by discriminate. apply entry_none. intros H. apply in_map_iff in H as ([q' n] & E & H). cbn [fst] in E. subst q'.
  apply filter_In in H as [_ H]. cbn [fst] in H. apply strip_under in U as [r U]. rewrite U in H. discriminate.
Qed.

Lemma film_swept {G I} (frame : G -> res (output G)) dead (render : G -> res I) n sp frames gif_path tag id grid f f' r :
  film frame dead render n sp frames gif_path tag id grid f = (f', Ok r) -> frames <> [] -> forall q, under frames q -> fget f' q = None.
Proof.
  intros E N q U. unfold film in E. destruct (film_loop _ _ _ _ _ _ _ _ _ _ _) as [f1 [[step|]|e]]; try discriminate.
  destruct (Nat.ltb 0 step); [destruct (gif _ _ _ _ _) as [f2 [p|e]]; [|discriminate]|]; injection E as <- _; apply rm_r_gone; assumption.
Qed.

(** ** A whole recording *)

Section Film.
Context {G I : Type}.
Variables (frame : G -> res (output G)) (dead : G -> res bool) (render : G -> res I).
Variables (n sp : nat) (frames gif_path : path) (tag : option string * string) (id : N) (u : nat -> G) (pic : nat -> I) (f : fsys I).
Hypotheses (Hframes : frames <> []) (Ht : tidy f) (Ho : open_way f frames).

Let gifs := gif_path ++ [tag_dir tag].
Let place := gifs ++ [gif_name (snd tag) id].

Lemma reel_prepared k old : reel f frames n k old -> reel (prepared f frames) frames n k old.
Proof.
  intros R x Hx. destruct (prepared_spec f frames Ht Ho) as [_ P].
  assert (U : ~ under (frames ++ [x]) frames).
  { intros [r E]. apply (f_equal (@List.length string)) in E. rewrite !app_length in E. cbn [List.length] in E. lia. }
  rewrite (proj2 (P _) U). exact (R x Hx).
Qed.

Lemma filmed_prepared f1 m : filmed (prepared f frames) f1 frames n m pic -> filmed f f1 frames n m pic.
Proof.
  intros (T & D & N & O). split; [exact T|]. split; [exact D|]. split; [exact N|]. intros q U H. rewrite O by assumption.
  apply (prepared_spec f frames Ht Ho). exact U.
Qed.

Lemma film_frames k old m : reel f frames n k old -> recorded frame dead render n sp u pic m -> (0 < n)%nat ->
  exists f1, filmed f f1 frames n m pic /\ reel f1 frames n (Nat.max k m) (over m pic old) /\
    film frame dead render n sp frames gif_path tag id (u 0%nat) f =
    if Nat.ltb 0 (if Nat.ltb m n then m else n - 1)
    then match gif f1 frames gifs (snd tag) id with (f2, Err e) => (f2, Err e) | (f2, Ok p) => (rm_r f2 frames, Ok (Some p)) end
    else (rm_r f1 frames, Ok None).
Proof.
  intros R H Hn. destruct (prepared_spec f frames Ht Ho) as [PT PD].
  pose proof (reel_prepared k old R) as R'.
  destruct (film_run frame dead render n sp frames u pic (prepared f frames) m PT (fun q U => proj1 (PD q) U) H Hn) as (f1 & F & E).
  { intros i Hi. exact (reel_nodir n frames _ k old i R'). }
  exists f1. split; [apply filmed_prepared, F|]. split; [exact (reel_filmed n frames pic _ _ k m old R' F)|].
  unfold film. fold (prepared f frames). cbv zeta. rewrite E. reflexivity.
Qed.

Lemma film_ok k old m : reel f frames n k old -> numbered n (Nat.max k m) -> recorded frame dead render n sp u pic m -> (2 <= n)%nat -> (1 <= m)%nat ->
  gif_place f frames gif_path (tag_dir tag) (gif_name (snd tag) id) ->
  let r := over m pic old in
  exists f', film frame dead render n sp frames gif_path tag id (u 0%nat) f = (f', Ok (Some place)) /\ tidy f' /\
    (forall q, under frames q -> fget f' q = None) /\
    (~ under frames place -> fget f' place = Some (NGif (r 0%nat :: map r (seq 0 (Nat.max k m))))) /\
    (~ under frames gifs -> fget f' gifs = Some NDir) /\
    (forall q, ~ under frames q -> under q frames -> fget f' q = Some NDir) /\
    (forall q, ~ under frames q -> ~ under q frames -> q <> gifs -> q <> place -> fget f' q = fget f q).
Proof.
  intros R Hk H Hn Hm (G1 & G2 & G3) r. destruct (film_frames k old m R H ltac:(lia)) as (f1 & F & R1 & E). rewrite E.
  replace (Nat.ltb 0 (if Nat.ltb m n then m else n - 1)) with true by (symmetry; apply Nat.ltb_lt; destruct (Nat.ltb m n); lia).
  fold gifs in G1, G2, G3. fold place in G2, G3. destruct F as (FT & FD & FN & FO).
  assert (O : open_pics f1 frames (sort (names f1 frames)) = Ok (r 0%nat :: map r (seq 1 (Nat.max k m - 1)))).
  { rewrite (open_reel n frames f1 _ _ FT R1 Hk). replace (Nat.max k m) with (S (Nat.max k m - 1)) at 1 by lia. reflexivity. }
  assert (NF : forall q, ~ under frames q -> ~ under q frames -> fget f1 q = fget f q).
  { intros q U V. apply FO; [exact V|]. intros i _ ->. apply U, under_app. }
  assert (P : fget f1 gifs = Some NDir \/ (fget f1 gifs = None /\ fget f1 (removelast gifs) = Some NDir)).
  { destruct (under_dec gifs frames) as [U|U]; [left; apply FD, U|]. destruct G1 as [G1|[G0 G1]]; [contradiction|].
    rewrite NF by assumption. unfold gifs at 3. rewrite removelast_snoc. destruct G1 as [G1|[G1 G4]]; [left; exact G1|]. right. split; [exact G1|].
    destruct (under_dec gif_path frames) as [V|V]; [apply FD, V|]. destruct G4 as [G4|G4]; [contradiction|].
    rewrite NF; [exact G4| |exact V]. intros W. apply G0. eapply under_trans; [exact W|apply under_app]. }
  assert (A : fget f1 place <> Some NDir).
  { rewrite FO; [exact G3|exact G2|]. intros i _ C. apply snoc_inj in C as [_ C]. unfold gif_name, frame_name in C. discriminate C. }
  destruct (gif_ok f1 frames gifs (snd tag) id _ _ FT (FD frames (under_refl _)) O (snoc_nonnil _ _) P A) as (f2 & Eg & T2 & F2).
  rewrite Eg. fold place. exists (rm_r (rm_png f2 frames) frames). split; [reflexivity|].
  assert (T3 : tidy (rm_png f2 frames)) by (apply tidy_rm_png, T2). split; [apply tidy_rm_r, T3|].
  split; [intros q; apply rm_r_gone, Hframes|].
  assert (X : forall q, ~ under frames q -> fget (rm_r (rm_png f2 frames) frames) q = fget f2 q).
  { intros q U. rewrite (proj2 (fget_rm_r _ frames q (proj1 T3) Hframes) U). apply fget_rm_png; [apply T2|exact U]. }
  assert (Pn : place <> gifs).
  { intros C. apply (f_equal (@List.length string)) in C. unfold place in C. rewrite app_length in C. cbn [List.length] in C. lia. }
  split; [intros U; rewrite X, F2 by exact U; fold place; rewrite path_eqb_refl; replace (Nat.max k m) with (S (Nat.max k m - 1)) at 2 by lia; reflexivity|].
  split; [intros U; rewrite X, F2 by exact U; fold place; rewrite path_eqb_neq by congruence; rewrite path_eqb_refl; reflexivity|].
  split.
  - intros q U V. rewrite X, F2 by exact U. fold place. rewrite path_eqb_neq by (intros ->; contradiction).
    destruct (path_eqb q gifs); [reflexivity|]. apply FD, V.
  - intros q U V Q1 Q2. rewrite X, F2 by exact U. fold place. rewrite !path_eqb_neq by assumption. apply NF; assumption.
Qed.

(** One more frame. *)
Lemma film_shot k old s : reel f frames n k old -> (s < n)%nat -> (forall i, (i < s)%nat -> shot frame dead render sp u pic i) ->
  dead (u s) = Ok false -> render (u s) = Ok (pic s) ->
  exists f1, film_loop frame dead render n sp frames n 0 None (One (u 0%nat)) (prepared f frames) =
      match advance frame sp (One (u s)) with
      | Err e => (f1, Err e)
      | Ok g => film_loop frame dead render n sp frames (n - S s) (S s) (Some s) g f1
      end /\ filmed f f1 frames n (S s) pic /\ reel f1 frames n (Nat.max k (S s)) (over (S s) pic old).
Proof.
  intros R Hs Hu D1 D2. destruct (prepared_spec f frames Ht Ho) as [PT PD].
  pose proof (reel_prepared k old R) as R'.
  destruct (film_prefix frame dead render n sp frames u pic (prepared f frames) PT (fun q U => proj1 (PD q) U) s ltac:(lia) Hu) as (f1 & F & E).
  { intros i Hi. exact (reel_nodir n frames _ k old i R'). }
  destruct F as (FT & FD & FN & FO).
  assert (U : ~ under (frames ++ [frame_name n s]) frames) by (intros U; apply (fp_not_under n frames s _ U); reflexivity).
  assert (A : fget f1 (frames ++ [frame_name n s]) <> Some NDir).
  { rewrite FO; [exact (reel_nodir n frames _ k old s R')|exact U|]. intros i Hi C. apply (fp_inj n frames) in C. lia. }
  exists (fput f1 (frames ++ [frame_name n s]) (NPic (pic s))).
  assert (Fs : filmed (prepared f frames) (fput f1 (frames ++ [frame_name n s]) (NPic (pic s))) frames n (S s) pic).
  { split; [apply tidy_fput; [exact FT|apply snoc_nonnil|rewrite removelast_snoc; apply FD, under_refl|right; exact A]|].
    split; [intros q V; rewrite fget_fput, path_eqb_neq by (apply snoc_nonnil || apply (fp_not_under n frames), V); apply FD, V|].
    split.
    - intros i Hi. rewrite fget_fput by apply snoc_nonnil. destruct (path_eqb (frames ++ [frame_name n i]) (frames ++ [frame_name n s])) eqn:C.
      + apply path_eqb_eq in C. apply (fp_inj n frames) in C. subst. reflexivity.
      + apply FN. destruct (Nat.eq_dec i s) as [->|]; [rewrite path_eqb_refl in C; discriminate|lia].
    - intros q V Hq. rewrite fget_fput by apply snoc_nonnil. rewrite path_eqb_neq by (apply Hq; lia). apply FO; [exact V|]. intros; apply Hq; lia. }
  split; [|split; [apply filmed_prepared, Fs|exact (reel_filmed n frames pic _ _ k (S s) old R' Fs)]].
  rewrite E. replace (n - s)%nat with (S (n - S s)) by lia. cbn [film_loop]. rewrite D1, D2.
  unfold write. rewrite removelast_snoc, (FD frames (under_refl _)).
  destruct (fget f1 (frames ++ [frame_name n s])) as [[]|]; try congruence; reflexivity.
Qed.

(** An automaton that raises. *)
Lemma film_raise k old s e : reel f frames n k old -> (s < n)%nat -> (forall i, (i < s)%nat -> shot frame dead render sp u pic i) ->
  dead (u s) = Ok false -> render (u s) = Ok (pic s) -> advance frame sp (One (u s)) = Err e ->
  exists f1, film frame dead render n sp frames gif_path tag id (u 0%nat) f = (f1, Err e) /\ filmed f f1 frames n (S s) pic /\ reel f1 frames n (Nat.max k (S s)) (over (S s) pic old).
Proof.
  intros R Hs Hu D1 D2 D3. destruct (film_shot k old s R Hs Hu D1 D2) as (f1 & E & F). exists f1. split; [|exact F].
  unfold film. fold (prepared f frames). cbv zeta. rewrite E, D3. reflexivity.
Qed.

(** An automaton that returns tuples. *)
Lemma film_tuple k old : reel f frames n k old -> (2 <= n)%nat -> dead (u 0%nat) = Ok false -> render (u 0%nat) = Ok (pic 0%nat) -> advance frame sp (One (u 0%nat)) = Ok Tuple ->
  exists f1, film frame dead render n sp frames gif_path tag id (u 0%nat) f = (f1, Err AttributeError) /\ filmed f f1 frames n 1 pic.
Proof.
  intros R Hn D1 D2 D3. destruct (film_shot k old 0 R ltac:(lia) ltac:(lia) D1 D2) as (f1 & E & F & _). exists f1. split; [|exact F].
  unfold film. fold (prepared f frames). cbv zeta. rewrite E, D3. replace (n - 1)%nat with (S (n - 2)) by lia. reflexivity.
Qed.

(** Nothing to animate. *)
Lemma film_none k old m : reel f frames n k old -> recorded frame dead render n sp u pic m -> (0 < n)%nat -> (n = 1%nat \/ m = 0%nat) ->
  exists f', film frame dead render n sp frames gif_path tag id (u 0%nat) f = (f', Ok None) /\ tidy f' /\
    (forall q, under frames q -> fget f' q = None) /\
    (forall q, ~ under frames q -> under q frames -> fget f' q = Some NDir) /\
    (forall q, ~ under frames q -> ~ under q frames -> fget f' q = fget f q).
Proof.
  intros R H Hn Hm. destruct (film_frames k old m R H Hn) as (f1 & F & R1 & E). rewrite E.
  replace (Nat.ltb 0 (if Nat.ltb m n then m else n - 1)) with false by (symmetry; apply Nat.ltb_ge; destruct H as [H _]; destruct (Nat.ltb_spec m n); lia).
  destruct F as (FT & FD & FN & FO). exists (rm_r f1 frames). split; [reflexivity|]. split; [apply tidy_rm_r, FT|].
  split; [intros q; apply rm_r_gone, Hframes|]. split; intros q U V; rewrite (proj2 (fget_rm_r _ frames q (proj1 FT) Hframes) U); [apply FD, V|].
  apply FO; [exact V|]. intros i _ ->. apply U, under_app.
Qed.

(** Nothing at all. *)
Lemma film_zero g : exists f', film frame dead render 0 sp frames gif_path tag id g f = (f', Err UnboundLocalError) /\
  (forall q, under q frames -> fget f' q = Some NDir) /\ forall q, ~ under q frames -> fget f' q = fget f q.
Proof.
  exists (prepared f frames). split; [reflexivity|]. destruct (prepared_spec f frames Ht Ho) as [_ P]. split; intros q; apply P.
Qed.

Lemma reel_missing old : fget f frames = None -> reel f frames n 0 old.
Proof.
  intros E x _. right. split; [lia|]. destruct (fget f (frames ++ [x])) eqn:C; [|reflexivity].
  destruct (tidy_up f frames (frames ++ [x]) Ht (under_app _ _) ltac:(congruence)) as [X|X]; [|congruence].
  rewrite X in C. congruence.
Qed.

(** No directory to put the animation in. *)
Lemma film_no_parent k old m : reel f frames n k old -> numbered n (Nat.max k m) -> recorded frame dead render n sp u pic m -> (2 <= n)%nat -> (1 <= m)%nat ->
  ~ under frames gif_path -> ~ under gif_path frames -> fget f gif_path = None ->
  exists f1, film frame dead render n sp frames gif_path tag id (u 0%nat) f = (f1, Err FileNotFoundError) /\ filmed f f1 frames n m pic.
Proof.
  intros R Hk H Hn Hm G1 G2 G3. destruct (film_frames k old m R H ltac:(lia)) as (f1 & F & R1 & E). rewrite E.
  replace (Nat.ltb 0 (if Nat.ltb m n then m else n - 1)) with true by (symmetry; apply Nat.ltb_lt; destruct (Nat.ltb m n); lia).
  pose proof F as F0. destruct F as (FT & FD & FN & FO). exists f1. split; [|exact F0].
  assert (O : open_pics f1 frames (sort (names f1 frames)) = Ok (over m pic old 0%nat :: map (over m pic old) (seq 1 (Nat.max k m - 1)))).
  { rewrite (open_reel n frames f1 _ _ FT R1 Hk). replace (Nat.max k m) with (S (Nat.max k m - 1)) at 1 by lia. reflexivity. }
  assert (P : fget f1 gif_path = None).
  { rewrite FO; [exact G3|exact G2|]. intros i _ ->. apply G1, under_app. }
  assert (Q : fget f1 gifs = None).
  { destruct (fget f1 gifs) eqn:C; [|reflexivity]. destruct (tidy_up f1 gif_path gifs FT (under_app _ _) ltac:(congruence)) as [X|X]; [|congruence].
    rewrite X in C. congruence. }
  unfold gif. rewrite (FD frames (under_refl _)), O, Q. unfold mkdir. unfold gifs. rewrite removelast_snoc, P. reflexivity.
Qed.

End Film.

(** ** Pictures *)

Open Scope R_scope.

Lemma all_ok_spec {A B} (g : A -> res B) l r : all_ok g l = Ok r -> List.length r = List.length l /\ forall i d e, (i < List.length l)%nat -> g (nth i l d) = Ok (nth i r e).
Proof.
  revert r. induction l as [|a t IH]; intros r; cbn [all_ok]; [intros E; injection E as <-; split; [reflexivity|intros i d e Hi; cbn in Hi; lia]|].
  destruct (g a) as [b|] eqn:Ga; [|discriminate]. cbn [bind]. destruct (all_ok g t) as [s|] eqn:At; [|discriminate]. cbn [bind]. intros E. injection E as <-.
  destruct (IH s eq_refl) as [L N]. cbn [List.length]. split; [congruence|]. intros [|i] d e Hi; [exact Ga|]. apply N. lia.
Qed.

Lemma all_ok_total {A B} (g : A -> res B) l : (forall a, In a l -> exists b, g a = Ok b) -> exists r, all_ok g l = Ok r.
Proof.
  induction l as [|a t IH]; intros H; [exists []; reflexivity|]. cbn [all_ok]. destruct (H a (or_introl eq_refl)) as [b ->]. cbn [bind].
  destruct IH as [r ->]; [intros; apply H; now right|]. cbn [bind]. eauto.
Qed.

Lemma all_ok_ext {A B} (g h : A -> res B) l : (forall a, In a l -> g a = h a) -> all_ok g l = all_ok h l.
Proof.
  induction l as [|a t IH]; intros H; [reflexivity|]. cbn [all_ok]. rewrite (H a (or_introl eq_refl)). rewrite IH by (intros; apply H; now right). reflexivity.
Qed.

Lemma byte_ok x b : byte x = Ok b -> level x b /\ (0 <= b <= 255)%Z.
Proof.
  unfold byte, level. destruct (Rle_dec 0 x) as [H|]; [|discriminate]. destruct (Rlt_dec (255 * x) 256) as [H'|]; [|discriminate]. intros E. injection E as <-.
  destruct (base_Int_part (255 * x)) as [B1 B2]. split; [split; lra|].
  assert (A1 : (-1 < Int_part (255 * x))%Z) by (apply lt_IZR; lra). assert (A2 : (Int_part (255 * x) < 256)%Z) by (apply lt_IZR; lra). lia.
Qed.

Lemma byte_total x : 0 <= x <= 1 -> exists b, byte x = Ok b.
Proof. intros H. unfold byte. destruct (Rle_dec 0 x); [|lra]. destruct (Rlt_dec (255 * x) 256); [eauto|lra]. Qed.

Lemma inverted_nth px c : (c < List.length px)%nat -> nth c (inverted px) 0%Z = if Nat.ltb c 3 then (255 - nth c px 0)%Z else nth c px 0%Z.
Proof.
  unfold inverted. destruct px as [|a [|b [|d t]]]; destruct c as [|[|[|c]]]; cbn [List.length firstn skipn map app nth Nat.ltb Nat.leb];
    intros H; try reflexivity; lia.
Qed.

Lemma inverted_length px : List.length (inverted px) = List.length px.
Proof. unfold inverted. rewrite app_length, map_length, firstn_length, skipn_length. lia. Qed.

Lemma inverted_bytes px : (forall v, In v px -> (0 <= v <= 255)%Z) -> forall v, In v (inverted px) -> (0 <= v <= 255)%Z.
Proof.
  intros H v Hv. unfold inverted in Hv. apply in_app_iff in Hv as [Hv|Hv].
  - apply in_map_iff in Hv as (w & <- & Hw). assert (K : In w px) by (rewrite <- (firstn_skipn 3 px); apply in_or_app; left; exact Hw). specialize (H w K). lia.
  - apply H. rewrite <- (firstn_skipn 3 px). apply in_or_app. right. exact Hv.
Qed.

(** The values behind the colours of a cell. *)
Definition tones (cmap : R -> list R) (g : tensor) (i j : nat) : list R :=
  if Nat.leb 4 (tC g) then [get g 0 0 i j; get g 0 1 i j; get g 0 2 i j; get g 0 3 i j]
  else if Nat.eqb (tC g) 3 then [get g 0 0 i j; get g 0 1 i j; get g 0 2 i j]
  else if Nat.eqb (tC g) 2 then [0; get g 0 0 i j; get g 0 1 i j]
  else cmap (get g 0 0 i j).

Lemma byte_0 : byte 0 = Ok 0%Z.
Proof.
  unfold byte. destruct (Rle_dec 0 0); [|lra]. destruct (Rlt_dec (255 * 0) 256); [|lra]. f_equal. rewrite Rmult_0_r.
  destruct (base_Int_part 0) as [B1 B2]. assert (A1 : (-1 < Int_part 0)%Z) by (apply lt_IZR; lra). assert (A2 : (Int_part 0 < 1)%Z) by (apply lt_IZR; lra). lia.
Qed.

Lemma colours_tones cmap g i j : colours cmap g i j = all_ok byte (tones cmap g i j).
Proof.
  unfold colours, tones. destruct (Nat.leb 4 (tC g)); [reflexivity|]. destruct (Nat.eqb (tC g) 3); [reflexivity|]. destruct (Nat.eqb (tC g) 2); [|reflexivity].
  cbn [all_ok]. rewrite byte_0. reflexivity.
Qed.

Lemma all_byte_in l r v : all_ok byte l = Ok r -> In v r -> (0 <= v <= 255)%Z.
Proof.
  intros E H. destruct (all_ok_spec _ _ _ E) as [L N]. destruct (In_nth r v 0%Z H) as (c & Hc & <-).
  specialize (N c 0 0%Z ltac:(lia)). apply byte_ok in N. apply N.
Qed.

Lemma render_cell cmap inv g pic : render_grid cmap inv g = Ok pic -> List.length pic = tH g /\
  (forall i, (i < tH g)%nat -> List.length (nth i pic []) = tW g) /\
  forall i j, (i < tH g)%nat -> (j < tW g)%nat -> exists px, all_ok byte (tones cmap g i j) = Ok px /\ cell pic i j = if inv then inverted px else px.
Proof.
  unfold render_grid. destruct (negb (Nat.eqb (tB g) 0) && negb (Nat.eqb (tC g) 0)); [|discriminate]. cbn [guard bind]. intros E.
  destruct (all_ok_spec _ _ _ E) as [L N]. rewrite seq_length in L, N. split; [exact L|].
  assert (Q : forall i, (i < tH g)%nat -> all_ok (fun j => let* px := colours cmap g i j in Ok (if inv then inverted px else px)) (seq 0 (tW g)) = Ok (nth i pic [])).
  { intros i Hi. specialize (N i 0%nat [] Hi). rewrite seq_nth in N by exact Hi. exact N. }
  split; [intros i Hi; destruct (all_ok_spec _ _ _ (Q i Hi)) as [L' _]; rewrite seq_length in L'; exact L'|].
  intros i j Hi Hj. destruct (all_ok_spec _ _ _ (Q i Hi)) as [_ N']. rewrite seq_length in N'. specialize (N' j 0%nat [] Hj). rewrite seq_nth in N' by exact Hj.
  cbn [Nat.add] in N'. rewrite colours_tones in N'. destruct (all_ok byte (tones cmap g i j)) as [px|]; [|discriminate]. cbn [bind] in N'. injection N' as N'.
  exists px. split; [reflexivity|]. symmetry. exact N'.
Qed.

Lemma render_sized cmap inv g pic : render_grid cmap inv g = Ok pic -> sized pic (tH g) (tW g).
Proof.
  intros E. destruct (render_cell _ _ _ _ E) as (L & W & C). split; [exact L|]. split; [exact W|]. intros i j v Hi Hj Hv.
  destruct (C i j Hi Hj) as (px & P & Q). rewrite Q in Hv.
  assert (K : forall v, In v px -> (0 <= v <= 255)%Z) by (intros w; apply all_byte_in with (1 := P)).
  destruct inv; [exact (inverted_bytes px K v Hv)|exact (K v Hv)].
Qed.

Lemma render_tinted cmap inv g pic i j : render_grid cmap inv g = Ok pic -> (i < tH g)%nat -> (j < tW g)%nat ->
  List.length (cell pic i j) = List.length (tones cmap g i j) /\
  forall c, (c < List.length (tones cmap g i j))%nat -> tinted inv c (nth c (tones cmap g i j) 0) (nth c (cell pic i j) 0%Z).
Proof.
  intros E Hi Hj. destruct (render_cell _ _ _ _ E) as (_ & _ & C). destruct (C i j Hi Hj) as (px & P & Q). rewrite Q.
  destruct (all_ok_spec _ _ _ P) as [L N]. split; [destruct inv; rewrite ?inverted_length; exact L|]. intros c Hc.
  specialize (N c 0 0%Z Hc). apply byte_ok in N as [N _]. exists (nth c px 0%Z). split; [exact N|].
  destruct inv; [apply inverted_nth; lia|reflexivity].
Qed.

Lemma render_total cmap inv g : (0 < tB g)%nat -> (0 < tC g)%nat -> (forall i j, (i < tH g)%nat -> (j < tW g)%nat -> Forall (fun x => 0 <= x <= 1) (tones cmap g i j)) ->
  exists pic, render_grid cmap inv g = Ok pic.
Proof.
  intros B C H. unfold render_grid. rewrite (proj2 (Nat.eqb_neq _ _)), (proj2 (Nat.eqb_neq (tC g) 0)) by lia. cbn [guard negb andb bind].
  apply all_ok_total. intros i Hi. apply in_seq in Hi. apply all_ok_total. intros j Hj. apply in_seq in Hj. rewrite colours_tones.
  destruct (all_ok_total byte (tones cmap g i j)) as [px ->]; [|cbn [bind]; eauto].
  intros x Hx. apply byte_total. specialize (H i j ltac:(lia) ltac:(lia)). rewrite Forall_forall in H. exact (H x Hx).
Qed.

Lemma render_same cmap inv g h : (0 < tB g)%nat -> (0 < tC g)%nat -> (0 < tB h)%nat -> (0 < tC h)%nat -> tH g = tH h -> tW g = tW h ->
  (forall i j, (i < tH g)%nat -> (j < tW g)%nat -> tones cmap g i j = tones cmap h i j) -> render_grid cmap inv g = render_grid cmap inv h.
Proof.
  intros B C B' C' EH EW H. unfold render_grid. rewrite !(proj2 (Nat.eqb_neq _ _)) by lia. cbn [guard negb andb bind]. rewrite <- EH, <- EW.
  apply all_ok_ext. intros i Hi. apply in_seq in Hi. apply all_ok_ext. intros j Hj. apply in_seq in Hj. rewrite !colours_tones, H by lia. reflexivity.
Qed.

Lemma tinted_close inv c x y v : tinted inv c x v -> tinted inv c y v -> Rabs (x - y) < 1 / 255.
Proof.
  intros (b & [B1 B2] & E) (b' & [B3 B4] & E'). assert (b = b') by (destruct (inv && Nat.ltb c 3); lia). subst b'. apply Rabs_def1; lra.
Qed.

(** ** A recording after another *)

Lemma filmed_open {I} (f f1 : fsys I) frames n m pic : filmed f f1 frames n m pic -> open_way f1 frames.
Proof. intros (_ & D & _) q U. right. apply D, U. Qed.

Lemma gif_place_filmed {I} (f f1 : fsys I) frames gif_path dir tag id n m pic : filmed f f1 frames n m pic ->
  gif_place f frames gif_path dir (gif_name tag id) -> gif_place f1 frames gif_path dir (gif_name tag id).
Proof.
  intros (_ & FD & _ & FO) (G1 & G2 & G3). cbv zeta in *.
  assert (NF : forall q, ~ under frames q -> ~ under q frames -> fget f1 q = fget f q).
  { intros q U V. apply FO; [exact V|]. intros i _ ->. apply U, under_app. }
  split; [|split; [exact G2|]].
  - destruct (under_dec (gif_path ++ [dir]) frames) as [U|U]; [left; exact U|]. destruct G1 as [G1|[G0 G1]]; [contradiction|]. right. split; [exact G0|].
    rewrite NF by assumption. destruct G1 as [G1|[G1 G4]]; [left; exact G1|]. right. split; [exact G1|].
    destruct (under_dec gif_path frames) as [V|V]; [left; exact V|]. destruct G4 as [G4|G4]; [contradiction|]. right. rewrite NF; [exact G4| |exact V].
    intros W. apply G0. eapply under_trans; [exact W|apply under_app].
  - rewrite FO; [exact G3|exact G2|]. intros i _ C. apply snoc_inj in C as [_ C]. unfold gif_name, frame_name in C. discriminate C.
Qed.

Lemma frame_width_same n n' i : Nat.ltb n 50 = Nat.ltb n' 50 -> frame_name n i = frame_name n' i.
Proof.
  intros H. unfold frame_name. replace (Nat.leb (n' / 10 + 1) 5) with (Nat.leb (n / 10 + 1) 5); [reflexivity|].
  pose proof (Nat.div_mod n 10 ltac:(lia)). pose proof (Nat.mod_upper_bound n 10 ltac:(lia)).
  pose proof (Nat.div_mod n' 10 ltac:(lia)). pose proof (Nat.mod_upper_bound n' 10 ltac:(lia)).
  destruct (Nat.ltb_spec n 50), (Nat.ltb_spec n' 50); try discriminate; destruct (Nat.leb_spec (n / 10 + 1) 5), (Nat.leb_spec (n' / 10 + 1) 5); try reflexivity; lia.
Qed.

Lemma reel_width {I} (f : fsys I) frames n n' k pic : Nat.ltb n 50 = Nat.ltb n' 50 -> reel f frames n k pic -> reel f frames n' k pic.
Proof.
  intros H R x Hx. destruct (R x Hx) as [(i & Hi & -> & E)|[N E]].
  - left. exists i. split; [exact Hi|]. split; [apply frame_width_same, H|exact E].
  - right. split; [|exact E]. intros i Hi. rewrite <- (frame_width_same n n' i H). apply N, Hi.
Qed.
