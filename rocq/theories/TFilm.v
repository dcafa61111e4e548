(** * C102 What a recorded run leaves behind

    save_fig_sequence writes one picture per step into a directory, has make_gif collect whatever
    pictures are in that directory into an animation, and removes the directory. *)
From Coq Require Import Reals Lra Lia ZArith NArith List Arith Bool String.
From Verif Require Import Base Tensor MText MUtils MFilm SFilm.
From Verif Require Import PTensor PText PUtils PFilm.
Import ListNotations.
Local Open Scope list_scope.

Section Recording.
Context {G I : Type}.
Implicit Types (frame : G -> res (output G)) (dead : G -> res bool) (render : G -> res I) (f : fsys I) (frames gif_path : path).

(** ** A run that is recorded *)

(** The animation shows the first picture twice and then the pictures of the run, followed by the
    frames that lay in the directory before and have higher numbers. Nothing is left at the path of
    the frames; the directory of the animation and those above the frames exist; no other file has
    changed. *)
Theorem C102_film frame dead render n sp frames gif_path tag id u pic f k old m :
  frames <> [] -> tidy f -> open_way f frames -> reel f frames n k old -> numbered n (Nat.max k m) ->
  recorded frame dead render n sp u pic m -> (2 <= n)%nat -> (1 <= m)%nat -> gif_place f frames gif_path (tag_dir tag) (gif_name (snd tag) id) ->
  let gifs := gif_path ++ [tag_dir tag] in
  let place := gifs ++ [gif_name (snd tag) id] in
  let r := over m pic old in
  exists f', film frame dead render n sp frames gif_path tag id (u 0%nat) f = (f', Ok (Some place)) /\ tidy f' /\
    (forall q, under frames q -> fget f' q = None) /\
    (~ under frames place -> fget f' place = Some (NGif (r 0%nat :: map r (seq 0 (Nat.max k m))))) /\
    (~ under frames gifs -> fget f' gifs = Some NDir) /\
    (forall q, ~ under frames q -> under q frames -> fget f' q = Some NDir) /\
    (forall q, ~ under frames q -> ~ under q frames -> q <> gifs -> q <> place -> fget f' q = fget f q).
Proof. intros. apply film_ok; assumption. Qed.

(** With the default paths and no frames left from before, every run of at least two steps from a
    living grid is recorded, if no file is in the way. *)
Theorem C102_default frame dead render n sp dir tag id u pic f m :
  let frames := ["assets"; "gif_frames"]%string in
  tidy f -> open_way f frames -> open_way f ["assets"; dir]%string -> fget f frames = None -> numbered n m ->
  recorded frame dead render n sp u pic m -> (2 <= n)%nat -> (1 <= m)%nat ->
  dir <> "gif_frames"%string -> fget f ["assets"; dir; gif_name tag id]%string <> Some NDir ->
  exists f', film frame dead render n sp frames ["assets"]%string (Some dir, tag) id (u 0%nat) f = (f', Ok (Some ["assets"; dir; gif_name tag id]%string)) /\ tidy f' /\
    fget f' ["assets"; dir; gif_name tag id]%string = Some (NGif (pic 0%nat :: map pic (seq 0 m))) /\
    (forall q, under frames q -> fget f' q = None) /\
    (forall q, ~ under frames q -> q <> ["assets"]%string -> q <> ["assets"; dir]%string -> q <> ["assets"; dir; gif_name tag id]%string -> fget f' q = fget f q).
Proof.
  intros frames T O O' M Hk H Hn Hm D P.
  assert (U : forall t, ~ under frames ("assets" :: dir :: t)%string) by (intros t [r E]; unfold frames in E; injection E as E _; congruence).
  destruct (film_ok frame dead render n sp frames ["assets"]%string (Some dir, tag) id u pic f ltac:(discriminate) T O 0 pic m
              (reel_missing n frames f T pic M) Hk H Hn Hm) as (f' & E & T' & F1 & F2 & F3 & F4 & F5).
  - split; [right; split; [apply U|]|split; [|exact P]].
    + destruct (O' ["assets"; dir]%string (under_refl _)) as [Q|Q]; [right|left; exact Q]. split; [exact Q|]. left. exists ["gif_frames"]%string. reflexivity.
    + intros [r Q]. unfold frames in Q. discriminate Q.
  - cbn [tag_dir fst snd app] in *. exists f'. split; [exact E|]. split; [exact T'|]. split; [|split; [exact F1|]].
    + rewrite (F2 (U _)). cbn [Nat.max].
      assert (X : forall i, (i < m)%nat -> over m pic pic i = pic i) by (intros i Hi; unfold over; destruct (Nat.ltb i m); reflexivity).
      rewrite X by lia. do 3 f_equal. apply map_ext_in. intros i Hi. apply in_seq in Hi. apply X. lia.
    + intros q V Q1 Q2 Q3. destruct q as [|a q]; [reflexivity|]. apply F5; try assumption. intros [r W]. unfold frames in W.
      destruct q as [|b q]; [injection W as <- _; congruence|]. destruct q as [|c q]; [|discriminate W]. apply V. exists []. rewrite app_nil_r.
      injection W as <- <- _. reflexivity.
Qed.

(** An animation written at or below the path of the frames is removed with them, as with the tag
    gif_frames and the default paths. *)
Theorem C102_lost frame dead render n sp tag id u pic f m :
  let frames := ["assets"; "gif_frames"]%string in
  tidy f -> open_way f frames -> fget f frames = None -> numbered n m ->
  recorded frame dead render n sp u pic m -> (2 <= n)%nat -> (1 <= m)%nat ->
  exists f', film frame dead render n sp frames ["assets"]%string (Some "gif_frames"%string, tag) id (u 0%nat) f =
      (f', Ok (Some ["assets"; "gif_frames"; gif_name tag id]%string)) /\
    fget f' ["assets"; "gif_frames"; gif_name tag id]%string = None /\ forall q l, fget f' q = Some (NGif l) -> fget f q = Some (NGif l).
Proof.
  intros frames T O M Hk H Hn Hm.
  destruct (film_ok frame dead render n sp frames ["assets"]%string (Some "gif_frames"%string, tag) id u pic f ltac:(discriminate) T O 0 pic m
              (reel_missing n frames f T pic M) Hk H Hn Hm) as (f' & E & T' & F1 & F2 & F3 & F4 & F5).
  - split; [left; apply under_refl|]. split; [intros [r Q]; discriminate Q|]. cbn [tag_dir fst snd app].
    assert (C : fget f ["assets"; "gif_frames"; gif_name tag id]%string = None); [|rewrite C; discriminate].
    destruct (fget f ["assets"; "gif_frames"; gif_name tag id]%string) eqn:C; [|reflexivity].
    destruct (tidy_up f frames _ T (under_app frames [gif_name tag id]) ltac:(unfold frames; cbn [app]; congruence)) as [X|X]; [discriminate X|congruence].
  - exists f'. split; [exact E|]. split; [apply F1; exists [gif_name tag id]; reflexivity|]. intros q l Hq.
    destruct (under_dec frames q) as [U|U]; [rewrite F1 in Hq by exact U; discriminate|].
    destruct (under_dec q frames) as [V|V]; [rewrite F4 in Hq by assumption; discriminate|].
    rewrite <- Hq. symmetry. apply F5; [exact U|exact V| |]; intros ->; apply U; [apply under_refl|exists [gif_name tag id]; reflexivity].
Qed.

(** ** Whatever happens *)

(** A call that returns leaves nothing at or below the path of the frames, whoever put it there. *)
Theorem C102_swept frame dead render n sp frames gif_path tag id g f f' r :
  film frame dead render n sp frames gif_path tag id g f = (f', Ok r) -> frames <> [] -> forall q, under frames q -> fget f' q = None.
Proof. apply film_swept. Qed.

(** Whether it returns or raises, it touches nothing but the path of the frames, what is below and
    above, the directory of the animation and the animation. *)
Theorem C102_elsewhere frame dead render n sp frames gif_path tag id g f f' r :
  film frame dead render n sp frames gif_path tag id g f = (f', r) -> NoDup (map fst f) -> frames <> [] ->
  forall q, ~ under frames q -> ~ under q frames -> q <> gif_path ++ [tag_dir tag] -> q <> (gif_path ++ [tag_dir tag]) ++ [gif_name (snd tag) id] -> fget f' q = fget f q.
Proof. intros E D N. exact (proj2 (film_else _ _ _ _ _ _ _ _ _ _ _ _ _ E D N)). Qed.

(** ** Runs that end early *)

(** An exception of the automaton leaves the frames up to that step behind. *)
Theorem C102_left frame dead render n sp frames gif_path tag id u pic f k old s e :
  tidy f -> open_way f frames -> reel f frames n k old -> (s < n)%nat -> (forall i, (i < s)%nat -> shot frame dead render sp u pic i) ->
  dead (u s) = Ok false -> render (u s) = Ok (pic s) -> advance frame sp (One (u s)) = Err e ->
  exists f1, film frame dead render n sp frames gif_path tag id (u 0%nat) f = (f1, Err e) /\ filmed f f1 frames n (S s) pic /\
    reel f1 frames n (Nat.max k (S s)) (over (S s) pic old).
Proof. intros. apply film_raise; assumption. Qed.

(** The next run plays what was left behind after its own pictures, if its frames have names of the
    same width. *)
Theorem C102_stale frame dead render n sp u pic s e frame' dead' render' n' sp' u' pic' m frames gif_path gif_path' tag tag' id id' f :
  frames <> [] -> tidy f -> open_way f frames -> fget f frames = None ->
  (s < n)%nat -> (forall i, (i < s)%nat -> shot frame dead render sp u pic i) ->
  dead (u s) = Ok false -> render (u s) = Ok (pic s) -> advance frame sp (One (u s)) = Err e ->
  Nat.ltb n 50 = Nat.ltb n' 50 -> numbered n' (Nat.max (S s) m) ->
  recorded frame' dead' render' n' sp' u' pic' m -> (2 <= n')%nat -> (1 <= m)%nat ->
  gif_place f frames gif_path' (tag_dir tag') (gif_name (snd tag') id') ->
  let place := (gif_path' ++ [tag_dir tag']) ++ [gif_name (snd tag') id'] in
  let r := over m pic' pic in
  ~ under frames place ->
  exists f1 f2, film frame dead render n sp frames gif_path tag id (u 0%nat) f = (f1, Err e) /\
    film frame' dead' render' n' sp' frames gif_path' tag' id' (u' 0%nat) f1 = (f2, Ok (Some place)) /\
    fget f2 place = Some (NGif (r 0%nat :: map r (seq 0 (Nat.max (S s) m)))).
Proof.
  intros N T O M Hs Hu D1 D2 D3 W Hk H Hn Hm P place r Hp.
  destruct (film_raise frame dead render n sp frames gif_path tag id u pic f T O 0 pic s e (reel_missing n frames f T pic M) Hs Hu D1 D2 D3) as (f1 & E1 & F & R).
  cbn [Nat.max] in R.
  assert (R' : reel f1 frames n (S s) pic).
  { intros x Hx. destruct (R x Hx) as [(i & Hi & E & C)|C]; [left|right; exact C]. exists i. split; [exact Hi|]. split; [exact E|]. rewrite C. unfold over. destruct (Nat.ltb i (S s)); reflexivity. }
  destruct (film_ok frame' dead' render' n' sp' frames gif_path' tag' id' u' pic' f1 N (proj1 F) (filmed_open _ _ _ _ _ _ F) (S s) pic m
              (reel_width f1 frames n n' (S s) pic W R') Hk H Hn Hm (gif_place_filmed _ _ _ _ _ _ _ _ _ _ F P)) as (f2 & E2 & _ & _ & F2 & _).
  exists f1, f2. split; [exact E1|]. split; [exact E2|]. exact (F2 Hp).
Qed.

(** make_gif makes one directory; if the one above is missing, it raises after the whole run, and
    the frames stay. *)
Theorem C102_no_parent frame dead render n sp frames gif_path tag id u pic f k old m :
  tidy f -> open_way f frames -> reel f frames n k old -> numbered n (Nat.max k m) -> recorded frame dead render n sp u pic m -> (2 <= n)%nat -> (1 <= m)%nat ->
  ~ under frames gif_path -> ~ under gif_path frames -> fget f gif_path = None ->
  exists f1, film frame dead render n sp frames gif_path tag id (u 0%nat) f = (f1, Err FileNotFoundError) /\ filmed f f1 frames n m pic.
Proof. intros. eapply film_no_parent; eassumption. Qed.

(** No animation is made of a single step or of a grid that is dead from the start; the frames that
    lay in the directory before are removed all the same. *)
Theorem C102_none frame dead render n sp frames gif_path tag id u pic f k old m :
  frames <> [] -> tidy f -> open_way f frames -> reel f frames n k old -> recorded frame dead render n sp u pic m -> (0 < n)%nat -> (n = 1%nat \/ m = 0%nat) ->
  exists f', film frame dead render n sp frames gif_path tag id (u 0%nat) f = (f', Ok None) /\ tidy f' /\
    (forall q, under frames q -> fget f' q = None) /\
    (forall q, ~ under frames q -> under q frames -> fget f' q = Some NDir) /\
    (forall q, ~ under frames q -> ~ under q frames -> fget f' q = fget f q).
Proof. intros. eapply film_none; eassumption. Qed.

(** No step at all: the variable of the loop is read without a value, and the directory stays. *)
Theorem C102_zero frame dead render sp frames gif_path tag id g f : tidy f -> open_way f frames ->
  exists f', film frame dead render 0 sp frames gif_path tag id g f = (f', Err UnboundLocalError) /\
    (forall q, under q frames -> fget f' q = Some NDir) /\ forall q, ~ under q frames -> fget f' q = fget f q.
Proof. intros. apply film_zero; assumption. Qed.

(** The modes in which get_frame returns a tuple cannot be recorded for two steps or more: the tuple
    has no max, and one frame is left behind. *)
Theorem C102_modes frame dead render n frames gif_path tag id g p f k old :
  tidy f -> open_way f frames -> reel f frames n k old -> (2 <= n)%nat ->
  dead g = Ok false -> render g = Ok p -> frame g = Ok Tuple ->
  exists f1, film frame dead render n 1 frames gif_path tag id g f = (f1, Err AttributeError) /\ filmed f f1 frames n 1 (fun _ => p).
Proof.
  intros T O R Hn D1 D2 D3. apply (film_tuple frame dead render n 1 frames gif_path tag id (fun _ => g) (fun _ => p) f T O k old R Hn D1 D2).
  cbn [advance]. rewrite D3. reflexivity.
Qed.

End Recording.

(** ** Pictures *)

Open Scope R_scope.

(** A grid with values in [0, 1] is drawn, cell by cell, with bytes. *)
Theorem C102_drawn cmap invert g : (0 < tB g)%nat -> (0 < tC g)%nat ->
  (forall c i j, (c < tC g)%nat -> (i < tH g)%nat -> (j < tW g)%nat -> 0 <= get g 0 c i j <= 1) -> (forall x y, 0 <= x <= 1 -> In y (cmap x) -> 0 <= y <= 1) ->
  exists pic, render_grid cmap invert g = Ok pic /\ sized pic (tH g) (tW g).
Proof.
  intros B C H M. destruct (render_total cmap invert g B C) as [pic E]; [|exists pic; split; [exact E|exact (render_sized _ _ _ _ E)]].
  intros i j Hi Hj. apply Forall_forall. intros y Hy. unfold tones in Hy.
  destruct (Nat.leb_spec 4 (tC g)) as [L|L]; [cbn [In] in Hy; intuition; subst; apply H; lia|].
  destruct (Nat.eqb_spec (tC g) 3) as [L3|L3]; [cbn [In] in Hy; intuition; subst; apply H; lia|].
  destruct (Nat.eqb_spec (tC g) 2) as [L2|L2]; [cbn [In] in Hy; destruct Hy as [<-|[<-|[<-|[]]]]; [lra|apply H; lia|apply H; lia]|].
  apply (M (get g 0 0 i j) y); [apply H; lia|exact Hy].
Qed.

(** The bytes of a cell: three or four channels one by one, two channels in green and blue, one channel
    through the colour map. The first three may be inverted, the fourth, opacity, is not. *)
Theorem C102_colours cmap invert g pic i j : render_grid cmap invert g = Ok pic -> (i < tH g)%nat -> (j < tW g)%nat ->
  sized pic (tH g) (tW g) /\
  ((3 <= tC g)%nat -> List.length (cell pic i j) = Nat.min 4 (tC g) /\ forall c, (c < Nat.min 4 (tC g))%nat -> tinted invert c (get g 0 c i j) (nth c (cell pic i j) 0%Z)) /\
  (tC g = 2%nat -> exists v0 v1 v2, cell pic i j = [v0; v1; v2] /\ v0 = (if invert then 255 else 0)%Z /\ tinted invert 1 (get g 0 0 i j) v1 /\ tinted invert 2 (get g 0 1 i j) v2) /\
  (tC g = 1%nat -> List.length (cell pic i j) = List.length (cmap (get g 0 0 i j)) /\
     forall c, (c < List.length (cmap (get g 0 0 i j)))%nat -> tinted invert c (nth c (cmap (get g 0 0 i j)) 0) (nth c (cell pic i j) 0%Z)).
Proof.
  intros E Hi Hj. split; [exact (render_sized _ _ _ _ E)|]. destruct (render_tinted cmap invert g pic i j E Hi Hj) as [L N]. unfold tones in L, N. split; [|split].
  - intros C. destruct (Nat.leb_spec 4 (tC g)) as [L4|L4].
    + rewrite Nat.min_l by lia. split; [exact L|]. intros c Hc. specialize (N c Hc). destruct c as [|[|[|[|c]]]]; try exact N. lia.
    + destruct (Nat.eqb_spec (tC g) 3) as [L3|]; [|lia]. rewrite Nat.min_r by lia. rewrite L3. split; [exact L|]. intros c Hc. specialize (N c Hc). destruct c as [|[|[|c]]]; try exact N. lia.
  - intros C. rewrite C in L, N. cbn [Nat.leb Nat.eqb List.length] in L, N. destruct (cell pic i j) as [|v0 [|v1 [|v2 [|]]]]; try discriminate L.
    exists v0, v1, v2. split; [reflexivity|]. split; [|split; [exact (N 1%nat ltac:(lia))|exact (N 2%nat ltac:(lia))]].
    destruct (N 0%nat ltac:(lia)) as (b & [B1 B2] & B3). cbn [nth Nat.ltb Nat.leb] in B1, B2, B3.
    assert (A1 : (b <= 0)%Z) by (apply le_IZR; lra). assert (A2 : (-1 < b)%Z) by (apply lt_IZR; lra). replace b with 0%Z in B3 by lia. rewrite andb_true_r in B3. exact B3.
  - intros C. rewrite C in L, N. cbn [Nat.leb Nat.eqb] in L, N. split; [exact L|exact N].
Qed.

(** Inverting complements the first three bytes of a cell and no other; the two pictures give each other. *)
Theorem C102_inverted cmap g pic pic' i j : render_grid cmap true g = Ok pic -> render_grid cmap false g = Ok pic' -> (i < tH g)%nat -> (j < tW g)%nat ->
  List.length (cell pic i j) = List.length (cell pic' i j) /\
  forall c, (c < List.length (cell pic' i j))%nat -> nth c (cell pic i j) 0%Z = if Nat.ltb c 3 then (255 - nth c (cell pic' i j) 0)%Z else nth c (cell pic' i j) 0%Z.
Proof.
  intros E E' Hi Hj. destruct (render_cell _ _ _ _ E) as (_ & _ & C). destruct (render_cell _ _ _ _ E') as (_ & _ & C').
  destruct (C i j Hi Hj) as (px & P & ->). destruct (C' i j Hi Hj) as (px' & P' & ->). rewrite P in P'. injection P' as ->.
  split; [apply inverted_length|]. intros c. apply inverted_nth.
Qed.

(** Grids of two channels or more with the same picture differ by less than 1/255 in the channels shown. *)
Theorem C102_read cmap invert g h pic : render_grid cmap invert g = Ok pic -> render_grid cmap invert h = Ok pic -> (2 <= tC g)%nat -> tC h = tC g -> tH h = tH g -> tW h = tW g ->
  forall c i j, (c < Nat.min 4 (tC g))%nat -> (i < tH g)%nat -> (j < tW g)%nat -> Rabs (get g 0 c i j - get h 0 c i j) < 1 / 255.
Proof.
  intros E E' C EC EH EW c i j Hc Hi Hj.
  destruct (render_tinted cmap invert g pic i j E Hi Hj) as [_ N]. destruct (render_tinted cmap invert h pic i j E' ltac:(lia) ltac:(lia)) as [_ N'].
  unfold tones in N, N'. rewrite EC in N'. destruct (Nat.leb_spec 4 (tC g)) as [L4|L4]; [|destruct (Nat.eqb_spec (tC g) 3) as [L3|L3]; [|destruct (Nat.eqb_spec (tC g) 2) as [L2|L2]; [|lia]]].
  - specialize (N c ltac:(cbn; lia)). specialize (N' c ltac:(cbn; lia)). destruct c as [|[|[|[|c]]]]; try (eapply tinted_close; eassumption). lia.
  - specialize (N c ltac:(cbn; lia)). specialize (N' c ltac:(cbn; lia)). destruct c as [|[|[|c]]]; try (eapply tinted_close; eassumption). lia.
  - specialize (N (S c) ltac:(cbn; lia)). specialize (N' (S c) ltac:(cbn; lia)). destruct c as [|[|c]]; try (eapply tinted_close; eassumption). lia.
Qed.

(** The batch entries after the first and the channels after the fourth are not shown. *)
Theorem C102_unseen cmap invert g h : (0 < tB g)%nat -> (0 < tB h)%nat -> (0 < tC g)%nat -> tH h = tH g -> tW h = tW g ->
  (tC h = tC g \/ ((4 <= tC g)%nat /\ (4 <= tC h)%nat)) ->
  (forall c i j, (c < Nat.min 4 (tC g))%nat -> (i < tH g)%nat -> (j < tW g)%nat -> get h 0 c i j = get g 0 c i j) -> render_grid cmap invert h = render_grid cmap invert g.
Proof.
  intros B B' C EH EW EC H. apply render_same; try lia. intros i j Hi Hj. rewrite EH in Hi. rewrite EW in Hj. unfold tones.
  destruct (Nat.leb_spec 4 (tC g)) as [L4|L4].
  - rewrite (proj2 (Nat.leb_le 4 (tC h))) by lia. rewrite !H by (lia || assumption). reflexivity.
  - rewrite (proj2 (Nat.leb_gt 4 (tC h))) by lia. assert (Q : tC h = tC g) by lia. rewrite Q. destruct (Nat.eqb_spec (tC g) 3); [rewrite !H by (lia || assumption); reflexivity|].
    destruct (Nat.eqb_spec (tC g) 2); [rewrite !H by (lia || assumption); reflexivity|]. rewrite H by (lia || assumption). reflexivity.
Qed.

(** The run stops at a grid in which no cell reaches 1/1000. *)
Theorem C102_dead g b : dead_grid g = Ok b -> (b = true <-> forall x, In x (tdata g) -> x < 1 / 1000).
Proof.
  unfold dead_grid. destruct (tdata g) as [|a t] eqn:E; [discriminate|]. rewrite <- E. assert (N : tdata g <> []) by (rewrite E; discriminate). intros Q. injection Q as <-.
  destruct (Rlt_dec (lmax (tdata g)) (1 / 1000)) as [L|L]; split; try discriminate; try reflexivity.
  - intros _ x Hx. apply lmax_ge in Hx. lra.
  - intros H. exfalso. apply L, H, lmax_in, N.
Qed.

(** ** Examples *)

Section Examples.
Open Scope string_scope.

(** A counter that is drawn as its number, dies at 5 and raises at 100. *)
Definition count (x : nat) : res (output nat) := if Nat.leb 100 x then Err IndexError else Ok (One (S x)).
Definition at5 (x : nat) : res bool := Ok (Nat.eqb x 5).
Definition drawn (x : nat) : res nat := Ok x.
Definition home : fsys nat := [(["notes"], NOther "text")].
Definition fr : path := ["assets"; "gif_frames"].

Example ex_default : film count at5 drawn 10 1 fr ["assets"] (None, "t") 7%N 2%nat home =
  ([(["notes"], NOther "text"); (["assets"], NDir); (["assets"; "t"], NDir); (["assets"; "t"; "gif_t_0007.gif"], NGif [2; 2; 3; 4]%nat)],
   Ok (Some ["assets"; "t"; "gif_t_0007.gif"])).
Proof. reflexivity. Qed.

Example ex_recorded : recorded count at5 drawn 10 1 (fun i => (i + 2)%nat) (fun i => (i + 2)%nat) 3.
Proof.
  split; [lia|]. split; [|reflexivity]. intros i Hi. assert (Q : i = 0%nat \/ i = 1%nat \/ i = 2%nat) by lia. destruct Q as [->|[->| ->]]; repeat split.
Qed.

Example ex_tidy : tidy home /\ open_way home fr /\ open_way home ["assets"; "t"].
Proof.
  split; [|split].
  - split; [repeat constructor; auto|]. intros p n [E|[]]. injection E as <- _. split; [discriminate|reflexivity].
  - intros q [r E]. unfold fr in E. destruct q as [|a [|b q]]; [right; reflexivity| |]; left; [injection E as <- _|injection E as <- <- _]; reflexivity.
  - intros q [r E]. destruct q as [|a [|b q]]; [right; reflexivity| |]; left; [injection E as <- _|injection E as <- <- _]; reflexivity.
Qed.

Example ex_lost : film count at5 drawn 10 1 fr ["assets"] (None, "gif_frames") 7%N 2%nat home =
  ([(["notes"], NOther "text"); (["assets"], NDir)], Ok (Some ["assets"; "gif_frames"; "gif_gif_frames_0007.gif"])).
Proof. reflexivity. Qed.

(** A first run that raises at its third step, and the second run that plays its third picture. *)
Example ex_stale :
  let r := film count at5 drawn 10 1 fr ["assets"] (None, "t") 7%N 98%nat home in
  snd r = Err IndexError /\
  film count at5 drawn 10 1 fr ["assets"] (None, "t") 8%N 3%nat (fst r) =
  ([(["notes"], NOther "text"); (["assets"], NDir); (["assets"; "t"], NDir); (["assets"; "t"; "gif_t_0008.gif"], NGif [3; 3; 4; 100]%nat)],
   Ok (Some ["assets"; "t"; "gif_t_0008.gif"])).
Proof. split; reflexivity. Qed.

Example ex_no_parent : snd (film count at5 drawn 10 1 fr ["movies"] (None, "t") 7%N 2%nat home) = Err FileNotFoundError.
Proof. reflexivity. Qed.

Example ex_none : film count at5 drawn 10 1 fr ["assets"] (None, "t") 7%N 5%nat home = ([(["notes"], NOther "text"); (["assets"], NDir)], Ok None).
Proof. reflexivity. Qed.

Example ex_modes : film (fun _ => Ok Tuple) at5 drawn 10 1 fr ["assets"] (None, "t") 7%N 2%nat home =
  ([(["notes"], NOther "text"); (["assets"], NDir); (fr, NDir); (["assets"; "gif_frames"; "frame_00000.png"], NPic 2%nat)], Err AttributeError).
Proof. reflexivity. Qed.

(** Two channels, 1 and 0, not inverted and inverted. *)
Example ex_picture : exists p q,
  render_grid (fun x => [x]) false (mkT 1 2 1 1 [1; 0]) = Ok p /\ cell p 0 0 = [0; 255; 0]%Z /\
  render_grid (fun x => [x]) true (mkT 1 2 1 1 [1; 0]) = Ok q /\ cell q 0 0 = [255; 0; 255]%Z.
Proof.
  assert (B1 : byte 1 = Ok 255%Z).
  { unfold byte. destruct (Rle_dec 0 1); [|lra]. destruct (Rlt_dec (255 * 1) 256); [|lra]. f_equal. rewrite Rmult_1_r.
    destruct (base_Int_part 255) as [X1 X2]. assert (A1 : (254 < Int_part 255)%Z) by (apply lt_IZR; lra). assert (A2 : (Int_part 255 < 256)%Z) by (apply lt_IZR; lra). lia. }
  exists [[[0; 255; 0]]]%Z, [[[255; 0; 255]]]%Z. unfold render_grid, colours, get. cbn -[byte]. rewrite B1, byte_0. repeat split.
Qed.

End Examples.

Print Assumptions C102_film.
Print Assumptions C102_default.
Print Assumptions C102_lost.
Print Assumptions C102_swept.
Print Assumptions C102_elsewhere.
Print Assumptions C102_left.
Print Assumptions C102_stale.
Print Assumptions C102_no_parent.
Print Assumptions C102_none.
Print Assumptions C102_zero.
Print Assumptions C102_modes.
Print Assumptions C102_drawn.
Print Assumptions C102_colours.
Print Assumptions C102_inverted.
Print Assumptions C102_read.
Print Assumptions C102_unseen.
Print Assumptions C102_dead.
