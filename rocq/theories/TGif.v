(** * C102 make_gif by itself *)
From Coq Require Import Lia ZArith NArith List Arith Bool String Ascii Sorting.Permutation Sorting.Sorted.
From Verif Require Import Base Tensor MText SText MUtils MFilm SFilm.
From Verif Require Import PTensor PText PLibrarian PUtils PFilm PGif.
Import ListNotations.
Local Open Scope list_scope.

(** Every picture whose name has png anywhere in it is shown, in the order of the names, the first one
    twice. Removed are the files whose names end in png and do not begin with a dot: the others are
    shown again by the next call. *)
Theorem C102_collected {I} (f : fsys I) frames gifs tag id (pic : string -> I) a l : tidy f -> fget f frames = Some NDir -> gifs <> [] ->
  (fget f gifs = Some NDir \/ (fget f gifs = None /\ fget f (removelast gifs) = Some NDir)) ->
  fget f (gifs ++ [gif_name tag id]) <> Some NDir -> NoDup (a :: l) -> StronglySorted not_after (a :: l) ->
  (forall x, In x (a :: l) <-> occurs "png" x /\ fget f (frames ++ [x]) <> None) -> (forall x, In x (a :: l) -> fget f (frames ++ [x]) = Some (NPic (pic x))) ->
  let place := gifs ++ [gif_name tag id] in
  exists f', gif f frames gifs tag id = (f', Ok place) /\ tidy f' /\
    fget f' place = Some (NGif (pic a :: map pic (a :: l))) /\ fget f' gifs = Some NDir /\
    (forall x, shown x -> frames ++ [x] <> gifs -> fget f' (frames ++ [x]) = None) /\
    (forall q, (forall x, shown x -> q <> frames ++ [x]) -> q <> gifs -> q <> place -> fget f' q = fget f q).
Proof. apply gif_listed. Qed.

(** No picture, no animation: the first picture is looked up in an empty list, and nothing has changed. *)
Theorem C102_no_picture {I} (f : fsys I) frames gifs tag id : NoDup (map fst f) -> fget f frames = Some NDir ->
  (forall x, occurs "png" x -> fget f (frames ++ [x]) = None) -> gif f frames gifs tag id = (f, Err IndexError).
Proof. apply gif_empty. Qed.

(** The name holds the millisecond of the second as a zero and three digits: two animations with one tag
    have the same name exactly if they were made in the same one. *)
Theorem C102_gif_name tag id : (id < 1000)%N -> exists d, gif_name tag id = ("gif_" ++ tag ++ "_0" ++ d ++ ".gif")%string /\
  String.length d = 3%nat /\ every is_digit d /\ number_of d = id.
Proof. apply gif_name_eq. Qed.

Theorem C102_gif_same tag i j : gif_name tag i = gif_name tag j <-> i = j.
Proof.
  split; [|intros ->; reflexivity]. unfold gif_name. intros E. apply app_inv_l_s in E. apply app_inv_l_s in E. apply app_inv_l_s in E. apply app_inv_r_s in E.
  exact (pad_inj _ _ _ E).
Qed.

(** An earlier animation of the same name is lost. *)
Theorem C102_overwritten {I} (f : fsys I) frames gifs tag id (pic : string -> I) a l old : tidy f -> fget f frames = Some NDir -> gifs <> [] ->
  fget f gifs = Some NDir -> fget f (gifs ++ [gif_name tag id]) = Some (NGif old) -> NoDup (a :: l) -> StronglySorted not_after (a :: l) ->
  (forall x, In x (a :: l) <-> occurs "png" x /\ fget f (frames ++ [x]) <> None) -> (forall x, In x (a :: l) -> fget f (frames ++ [x]) = Some (NPic (pic x))) ->
  exists f', gif f frames gifs tag id = (f', Ok (gifs ++ [gif_name tag id])) /\ fget f' (gifs ++ [gif_name tag id]) = Some (NGif (pic a :: map pic (a :: l))).
Proof.
  intros T F N G O Nd S L P. destruct (gif_listed f frames gifs tag id pic a l T F N (or_introl G) ltac:(congruence) Nd S L P) as (f' & E & _ & Q & _).
  exists f'. split; [exact E|exact Q].
Qed.

(** Three pictures, of which the one that ends in png is removed. *)
Definition ex_files : fsys nat :=
  [(["d"], NDir); (["d"; ".b.png"], NPic 1%nat); (["d"; "a.png"], NPic 2%nat); (["d"; "b.png.bak"], NPic 3%nat); (["d"; "c.txt"], NOther "x")]%string.
Definition ex_pic (x : string) : nat := if String.eqb x ".b.png" then 1%nat else if String.eqb x "a.png" then 2%nat else 3%nat.

Example C102_collected_hypotheses :
  tidy ex_files /\ fget ex_files ["d"]%string = Some NDir /\ NoDup [".b.png"; "a.png"; "b.png.bak"]%string /\
  StronglySorted not_after [".b.png"; "a.png"; "b.png.bak"]%string /\
  (forall x, In x [".b.png"; "a.png"; "b.png.bak"]%string <-> occurs "png" x /\ fget ex_files (["d"]%string ++ [x]) <> None) /\
  (forall x, In x [".b.png"; "a.png"; "b.png.bak"]%string -> fget ex_files (["d"]%string ++ [x]) = Some (NPic (ex_pic x))).
Proof.
  assert (A : forall x, fget ex_files (["d"]%string ++ [x]) <> None <-> In x [".b.png"; "a.png"; "b.png.bak"; "c.txt"]%string).
  { intros x. rewrite <- names_in. reflexivity. }
  split; [|split; [reflexivity|split; [|split; [|split]]]].
  - split; [repeat constructor; cbn; intuition discriminate|]. intros p n H. cbn [In ex_files] in H. repeat destruct H as [H|H]; try contradiction; injection H as <- _; (split; [discriminate|reflexivity]).
  - repeat constructor; cbn; intuition discriminate.
  - repeat constructor; right; try (repeat constructor; reflexivity).
  - intros x. rewrite A. split.
    + intros H. split; [apply contains_occurs|]; cbn [In] in H |- *; intuition; subst; reflexivity.
    + intros [H B]. apply contains_occurs in H. cbn [In] in B |- *. intuition. subst. discriminate H.
  - intros x H. cbn [In] in H. intuition; subst; reflexivity.
Qed.

Example C102_collected_case : gif ex_files ["d"]%string ["d"; "g"]%string "t" 7 =
  ([(["d"], NDir); (["d"; ".b.png"], NPic 1%nat); (["d"; "b.png.bak"], NPic 3%nat); (["d"; "c.txt"], NOther "x"); (["d"; "g"], NDir);
    (["d"; "g"; "gif_t_0007.gif"], NGif [1; 1; 2; 3]%nat)]%string, Ok ["d"; "g"; "gif_t_0007.gif"]%string).
Proof. reflexivity. Qed.

Example C102_no_picture_case : gif [(["d"], NDir); (["d"; "c.txt"], NOther "x")]%string ["d"]%string ["d"; "g"]%string "t" 7 =
  ([(["d"], NDir); (["d"; "c.txt"], @NOther nat "x")]%string, Err IndexError).
Proof. reflexivity. Qed.

Print Assumptions C102_collected.
Print Assumptions C102_no_picture.
Print Assumptions C102_gif_name.
Print Assumptions C102_gif_same.
Print Assumptions C102_overwritten.
