(** Vocabulary for recorded runs: C102. *)
From Coq Require Import Reals ZArith NArith List Arith Bool String.
From Verif Require Import Base Tensor MText MUtils MFilm.
Import ListNotations.

(** [q] is [p] or below it. *)
Definition under (p q : path) : Prop := exists r, q = (p ++ r)%list.

(** Every file lies in a directory, and no path has two entries. *)
Definition tidy {I} (f : fsys I) : Prop :=
  NoDup (map fst f) /\ forall p n, In (p, n) f -> p <> [] /\ fget f (removelast p) = Some NDir.

(** No file is in the way of a directory. *)
Definition open_way {I} (f : fsys I) (p : path) : Prop :=
  forall q, under q p -> fget f q = None \/ fget f q = Some NDir.

(** The pictures in a directory: the first [k] frames, [pic i] being the [i]-th, and no other. *)
Definition reel {I} (f : fsys I) (frames : path) (n k : nat) (pic : nat -> I) : Prop :=
  forall x, contains "png" x = true ->
    (exists i, (i < k)%nat /\ x = frame_name n i /\ fget f (frames ++ [x])%list = Some (NPic (pic i))) \/
    ((forall i, (i < k)%nat -> x <> frame_name n i) /\ fget f (frames ++ [x])%list = None).

(** [k] numbers fit the names of the frames of a run of [n] steps. *)
Definition numbered (n k : nat) : Prop := (N.of_nat k <= if Nat.ltb n 50 then 10 ^ 5 else 10 ^ 10)%N.

(** The step from state [i] goes well. *)
Definition shot {G I} (frame : G -> res (output G)) (dead : G -> res bool) (render : G -> res I)
    (speedup : nat) (u : nat -> G) (pic : nat -> I) (i : nat) : Prop :=
  dead (u i) = Ok false /\ render (u i) = Ok (pic i) /\ advance frame speedup (One (u i)) = Ok (One (u (S i))).

(** A run of which [m] states are recorded out of at most [n]: [u i] the states, [pic i] their pictures. *)
Definition recorded {G I} (frame : G -> res (output G)) (dead : G -> res bool) (render : G -> res I)
    (n speedup : nat) (u : nat -> G) (pic : nat -> I) (m : nat) : Prop :=
  (m <= n)%nat /\ (forall i, (i < m)%nat -> shot frame dead render speedup u pic i) /\ ((m < n)%nat -> dead (u m) = Ok true).

(** The new pictures, and after them the old ones. *)
Definition over {I} (m : nat) (new old : nat -> I) (i : nat) : I := if Nat.ltb i m then new i else old i.

(** The files of [f'] are those of [f] but for the first [m] frames. *)
Definition filmed {I} (f f' : fsys I) (frames : path) (n m : nat) (pic : nat -> I) : Prop :=
  tidy f' /\
  (forall q, under q frames -> fget f' q = Some NDir) /\
  (forall i, (i < m)%nat -> fget f' (frames ++ [frame_name n i])%list = Some (NPic (pic i))) /\
  (forall q, ~ under q frames -> (forall i, (i < m)%nat -> q <> (frames ++ [frame_name n i])%list) -> fget f' q = fget f q).

(** Where an animation can be written. *)
Definition gif_place {I} (f : fsys I) (frames gif_path : path) (dir name : string) : Prop :=
  let gifs := (gif_path ++ [dir])%list in
  (under gifs frames \/
   (~ under frames gifs /\ (fget f gifs = Some NDir \/ (fget f gifs = None /\ (under gif_path frames \/ fget f gif_path = Some NDir))))) /\
  ~ under (gifs ++ [name])%list frames /\ fget f (gifs ++ [name])%list <> Some NDir.

(** What the pattern *png of the shell stands for. *)
Definition shown (x : string) : Prop := (exists s, x = (s ++ "png")%string) /\ ~ exists s, x = ("." ++ s)%string.

(** ** Pictures *)

Open Scope R_scope.

(** The byte [b] is the level of the value [x]. *)
Definition level (x : R) (b : Z) : Prop := IZR b <= 255 * x < IZR b + 1.

(** The [c]-th byte [v] of a cell shows the value [x]; the first three may be inverted. *)
Definition tinted (invert : bool) (c : nat) (x : R) (v : Z) : Prop :=
  exists b, level x b /\ v = if invert && Nat.ltb c 3 then (255 - b)%Z else b.

(** The bytes of a cell. *)
Definition cell (pic : picture) (i j : nat) : list Z := nth j (nth i pic []) [].

(** A picture of [h] by [w] cells of bytes. *)
Definition sized (pic : picture) (h w : nat) : Prop :=
  List.length pic = h /\ (forall i, (i < h)%nat -> List.length (nth i pic []) = w) /\
  forall i j v, (i < h)%nat -> (j < w)%nat -> In v (cell pic i j) -> (0 <= v <= 255)%Z.
