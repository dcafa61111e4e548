(** Proofs about make_gif by itself: C102. *)
From Coq Require Import Lia ZArith NArith List Arith Bool String Ascii Sorting.Permutation Sorting.Sorted.
From Verif Require Import Base Tensor MText SText MUtils MFilm SFilm.
From Verif Require Import PTensor PText PUtils PFilm.
Import ListNotations.
Local Open Scope list_scope.

Lemma ends_png_ok s : ends_png s = true <-> exists t, s = (t ++ "png")%string.
Proof.
  induction s as [|a s IH]; cbn [ends_png].
  - split; [discriminate|]. intros [[|b t] E]; discriminate E.
  - rewrite orb_true_iff, IH, String.eqb_eq. split.
    + intros [E|[t ->]]; [exists ""%string; exact E|exists (String a t); reflexivity].
    + intros [[|b t] E]; [left; exact E|]. right. exists t. cbn [append] in E. congruence.
Qed.

Lemma matches_shown s : matches_png s = true <-> shown s.
Proof.
  unfold matches_png, shown. rewrite andb_true_iff, ends_png_ok, negb_true_iff. split; intros [A B]; (split; [exact A|]).
  - intros [t E]. rewrite (proj2 (prefix_app "." s)) in B; [discriminate|]. exists t. exact E.
  - destruct (prefix "." s) eqn:E; [|reflexivity]. exfalso. apply B. apply prefix_app in E. exact E.
Qed.

Lemma shown_dec s : shown s \/ ~ shown s.
Proof. rewrite <- matches_shown. destruct (matches_png s); [left; reflexivity|right; discriminate]. Qed.

Lemma shown_occurs s : shown s -> occurs "png" s.
Proof. intros [[t ->] _]. exists t, ""%string. reflexivity. Qed.

Lemma suffix_png u : forall v, (u ++ ".gif")%string <> (v ++ "png")%string.
Proof.
  induction u as [|a u IH]; intros v H.
  - destruct v as [|b [|b1 [|b2 [|b3 [|b4 v]]]]]; discriminate H.
  - destruct v as [|b v]; cbn [append] in H; [|injection H as _ H; exact (IH v H)].
    injection H as _ H. destruct u as [|a1 [|a2 [|a3 u]]]; discriminate H.
Qed.

Lemma gif_not_shown tag id : ~ shown (gif_name tag id).
Proof.
  intros [[t E] _]. apply (suffix_png ("gif_" ++ tag ++ "_" ++ pad 4 id) t).
  rewrite <- E. unfold gif_name. rewrite !append_assoc_s. reflexivity.
Qed.

Section Gif.
Context {I : Type}.
Implicit Types f : fsys I.

Lemma open_listed f frames (pic : string -> I) l : (forall x, In x l -> contains "png" x = true /\ fget f (frames ++ [x]) = Some (NPic (pic x))) ->
  open_pics f frames l = Ok (map pic l).
Proof.
  induction l as [|x t IH]; intros H; [reflexivity|]. cbn [open_pics map]. destruct (H x (or_introl eq_refl)) as [-> ->].
  rewrite IH by (intros y Hy; apply H; right; exact Hy). reflexivity.
Qed.

Lemma open_sorted f frames (pic : string -> I) l : NoDup (map fst f) -> NoDup l -> StronglySorted not_after l ->
  (forall x, In x l <-> occurs "png" x /\ fget f (frames ++ [x]) <> None) -> (forall x, In x l -> fget f (frames ++ [x]) = Some (NPic (pic x))) ->
  open_pics f frames (sort (names f frames)) = Ok (map pic l).
Proof.
  intros D N S L P. rewrite open_pics_filter, filter_png_sort.
  rewrite (sort_of_perm _ l S).
  - apply open_listed. intros x Hx. split; [apply contains_occurs, L, Hx|apply P, Hx].
  - apply NoDup_Permutation; [apply NoDup_filter, names_nodup, D|exact N|]. intros x. rewrite filter_In, names_in, L, contains_occurs. tauto.
Qed.

Lemma rm_png_in f frames x : NoDup (map fst f) ->
  fget (rm_png f frames) (frames ++ [x]) =
  match fget f (frames ++ [x]) with Some NDir => Some NDir | Some n => if matches_png x then None else Some n | None => None end.
Proof.
  intros D. rewrite !fget_cons by apply snoc_nonnil. unfold rm_png. rewrite entry_filter by exact D. cbn [fst snd].
  rewrite (proj2 (strip_some frames (frames ++ [x]) [x]) eq_refl).
  destruct (entry f (frames ++ [x])) as [[]|]; try reflexivity; destruct (matches_png x); reflexivity.
Qed.

Lemma rm_png_else f frames q : NoDup (map fst f) -> (forall x, shown x -> q <> frames ++ [x]) -> fget (rm_png f frames) q = fget f q.
Proof.
  intros D H. destruct q as [|a q]; [reflexivity|]. destruct (strip frames (a :: q)) as [[|x [|y r]]|] eqn:E.
  - rewrite !fget_cons by discriminate. unfold rm_png. rewrite entry_filter by exact D. cbn [fst]. rewrite E. destruct (entry f (a :: q)); reflexivity.
  - apply strip_some in E. rewrite E in H |- *. rewrite rm_png_in by exact D. destruct (matches_png x) eqn:M.
    + exfalso. apply (H x); [apply matches_shown; exact M|reflexivity].
    + destruct (fget f (frames ++ [x])) as [[]|]; reflexivity.
  - rewrite !fget_cons by discriminate. unfold rm_png. rewrite entry_filter by exact D. cbn [fst]. rewrite E. destruct (entry f (a :: q)); reflexivity.
  - rewrite !fget_cons by discriminate. unfold rm_png. rewrite entry_filter by exact D. cbn [fst]. rewrite E. destruct (entry f (a :: q)); reflexivity.
Qed.

Lemma gif_listed f frames gifs tag id (pic : string -> I) a l : tidy f -> fget f frames = Some NDir -> gifs <> [] ->
  (fget f gifs = Some NDir \/ (fget f gifs = None /\ fget f (removelast gifs) = Some NDir)) ->
  fget f (gifs ++ [gif_name tag id]) <> Some NDir -> NoDup (a :: l) -> StronglySorted not_after (a :: l) ->
  (forall x, In x (a :: l) <-> occurs "png" x /\ fget f (frames ++ [x]) <> None) -> (forall x, In x (a :: l) -> fget f (frames ++ [x]) = Some (NPic (pic x))) ->
  let place := gifs ++ [gif_name tag id] in
  exists f', gif f frames gifs tag id = (f', Ok place) /\ tidy f' /\
    fget f' place = Some (NGif (pic a :: map pic (a :: l))) /\ fget f' gifs = Some NDir /\
    (forall x, shown x -> frames ++ [x] <> gifs -> fget f' (frames ++ [x]) = None) /\
    (forall q, (forall x, shown x -> q <> frames ++ [x]) -> q <> gifs -> q <> place -> fget f' q = fget f q).
Proof.
  intros T D N P A Nd S L Pc place. pose proof (open_sorted f frames pic (a :: l) (proj1 T) Nd S L Pc) as O. cbn [map] in O.
  destruct (gif_ok f frames gifs tag id (pic a) (map pic l) T D O N P A) as (f2 & E & T2 & F). fold place in E, F.
  exists (rm_png f2 frames). split; [exact E|]. split; [apply tidy_rm_png, T2|].
  assert (Pn : gifs <> place) by (intros C; apply (f_equal (@List.length string)) in C; unfold place in C; rewrite app_length in C; cbn [List.length] in C; lia).
  assert (Ps : forall x, shown x -> place <> frames ++ [x]).
  { intros x Hx C. apply snoc_inj in C as [_ C]. subst x. exact (gif_not_shown _ _ Hx). }
  split; [rewrite rm_png_else by (exact (proj1 T2) || exact Ps); rewrite F, path_eqb_refl; reflexivity|].
  split; [|split].
  - assert (G : fget f2 gifs = Some NDir) by (rewrite F, path_eqb_neq, path_eqb_refl by exact Pn; reflexivity).
    destruct (strip frames gifs) as [[|x [|y r]]|] eqn:E'.
    1, 3, 4: rewrite rm_png_else; [exact G|exact (proj1 T2)|].
    + apply strip_some in E'. rewrite app_nil_r in E'. rewrite E'. intros x _ C. apply (f_equal (@List.length string)) in C. rewrite app_length in C. cbn [List.length] in C. lia.
    + apply strip_some in E'. rewrite E'. intros z _ C. apply app_inv_head in C. discriminate C.
    + apply strip_none in E'. intros z _ C. apply E'. exists [z]. exact C.
    + apply strip_some in E'. rewrite E' in G |- *. rewrite rm_png_in by exact (proj1 T2). rewrite G. reflexivity.
  - intros x Hx Hg. rewrite rm_png_in by exact (proj1 T2). rewrite F, !path_eqb_neq by (exact Hg || (intros C; symmetry in C; exact (Ps x Hx C))).
    destruct (fget f (frames ++ [x])) as [n|] eqn:Q; [|reflexivity].
    assert (X : In x (a :: l)) by (apply L; split; [apply shown_occurs, Hx|congruence]).
    rewrite (Pc x X) in Q. injection Q as <-. rewrite (proj2 (matches_shown x) Hx). reflexivity.
  - intros q Hq Q1 Q2. rewrite rm_png_else by (exact (proj1 T2) || exact Hq). rewrite F, !path_eqb_neq by assumption. reflexivity.
Qed.

Lemma gif_empty f frames gifs tag id : NoDup (map fst f) -> fget f frames = Some NDir ->
  (forall x, occurs "png" x -> fget f (frames ++ [x]) = None) -> gif f frames gifs tag id = (f, Err IndexError).
Proof.
  intros D F H. unfold gif. rewrite F. rewrite open_pics_filter.
  assert (E : filter (contains "png") (sort (names f frames)) = []); [|rewrite E; reflexivity].
  destruct (filter (contains "png") (sort (names f frames))) as [|x t] eqn:E; [reflexivity|]. exfalso.
  assert (X : In x (filter (contains "png") (sort (names f frames)))) by (rewrite E; left; reflexivity).
  apply filter_In in X as [X C]. apply contains_occurs in C.
  apply (Permutation_in _ (Permutation_sym (sort_perm _))) in X. apply names_in in X. exact (X (H x C)).
Qed.

(** ** The name of the animation *)

Lemma gif_name_eq tag id : (id < 1000)%N -> exists d, gif_name tag id = ("gif_" ++ tag ++ "_0" ++ d ++ ".gif")%string /\
  String.length d = 3%nat /\ every is_digit d /\ number_of d = id.
Proof.
  intros H. exists (pad 3 id). split; [|split; [apply pad_length; [exact H|discriminate]|split; [apply pad_digits|apply pad_number]]].
  assert (L : (String.length (dec id) <= 3)%nat).
  { pose proof (pad_length 3 id H ltac:(discriminate)) as E. unfold pad in E. rewrite zeros_length in E. lia. }
  assert (E : pad 4 id = ("0" ++ pad 3 id)%string).
  { unfold pad. replace (4 - String.length (dec id))%nat with (Datatypes.S (3 - String.length (dec id))) by lia. reflexivity. }
  unfold gif_name. rewrite E. reflexivity.
Qed.
End Gif.
