(** Model of recording a run (yuca/utils.py, save_fig_sequence and make_gif) with its files and
    pictures. MUtils has the same loop without them. Paths are lists of names below the current
    directory, names without slashes and without characters that the shell treats specially;
    a GIF is the list of pictures handed to Pillow. [OSError] stands for its subclasses
    other than FileNotFoundError. *)
From Coq Require Import Reals ZArith NArith List Arith Bool String Ascii.
From Verif Require Import Base Tensor MText MUtils.
Import ListNotations.
Open Scope string_scope.

(** ** Files *)

(** What is at a path (utils.py:147-258). *)
Inductive node (I : Type) : Type := NDir | NPic (p : I) | NGif (l : list I) | NOther (s : string).
Arguments NDir {I}. Arguments NPic {I}. Arguments NGif {I}. Arguments NOther {I}.

(** utils.py:184-187: a path, and the files below the current directory. *)
Definition path : Type := list string.
(** utils.py:184-187. *)
Definition fsys (I : Type) : Type := list (path * node I).

(** Equality of paths (utils.py:170, 207). *)
Definition path_eqb (p q : path) : bool := if list_eq_dec string_dec p q then true else false.

(** The entry at a path; the current directory is always there (utils.py:170, 207). *)
Fixpoint entry {I} (f : fsys I) (p : path) : option (node I) :=
  match f with [] => None | (q, n) :: t => if path_eqb p q then Some n else entry t p end.
(** utils.py:170, 207. *)
Definition fget {I} (f : fsys I) (p : path) : option (node I) :=
  match p with [] => Some NDir | _ => entry f p end.

(** Replace an entry, or add it (utils.py:173, 177, 208, 247). *)
Fixpoint fput {I} (f : fsys I) (p : path) (n : node I) : fsys I :=
  match f with [] => [(p, n)] | (q, m) :: t => if path_eqb p q then (p, n) :: t else (q, m) :: fput t p n end.

(** What follows the prefix [p] in [q] (utils.py:150, 182, 258). *)
Fixpoint strip (p q : path) : option path :=
  match p, q with
  | [], _ => Some q
  | a :: p', b :: q' => if String.eqb a b then strip p' q' else None
  | _ :: _, [] => None
  end.

(** os.listdir (utils.py:150). *)
Definition names {I} (f : fsys I) (p : path) : list string :=
  flat_map (fun e => match strip p (fst e) with Some [n] => [n] | _ => [] end) f.

(** open(path, "wb") (utils.py:177, 247). *)
Definition write {I} (f : fsys I) (p : path) (n : node I) : res (fsys I) :=
  match fget f (removelast p) with
  | None => Err FileNotFoundError
  | Some NDir => match fget f p with Some NDir => Err OSError | _ => Ok (fput f p n) end
  | Some _ => Err OSError
  end.

(** os.mkdir of a path that does not exist (utils.py:173). *)
Definition mkdir {I} (f : fsys I) (p : path) : res (fsys I) :=
  match fget f (removelast p) with
  | None => Err FileNotFoundError
  | Some NDir => Ok (fput f p NDir)
  | Some _ => Err OSError
  end.

(** mkdir -p [done]/[rest], run by the shell: it stops at a file in the way, and nobody looks at
    its exit status (utils.py:207-209). *)
Fixpoint mkdir_p {I} (f : fsys I) (done rest : path) : fsys I :=
  match rest with
  | [] => f
  | a :: t =>
      let p := (done ++ [a])%list in
      match fget f p with
      | None => mkdir_p (fput f p NDir) p t
      | Some NDir => mkdir_p f p t
      | Some _ => f
      end
  end.

(** rm -r [p] (utils.py:258). *)
Definition rm_r {I} (f : fsys I) (p : path) : fsys I :=
  filter (fun e => match strip p (fst e) with Some _ => false | None => true end) f.

(** Whether the pattern *png matches a name: it ends in png and does not begin with a dot
    (utils.py:180-182). *)
Fixpoint ends_png (s : string) : bool :=
  String.eqb s "png" || match s with EmptyString => false | String _ t => ends_png t end.
(** utils.py:180-182. *)
Definition matches_png (s : string) : bool := ends_png s && negb (prefix "." s).

(** rm [p]/*png: no directories (utils.py:180-182). *)
Definition rm_png {I} (f : fsys I) (p : path) : fsys I :=
  filter (fun e => match strip p (fst e), snd e with
                   | Some [n], NDir => true
                   | Some [n], _ => negb (matches_png n)
                   | _, _ => true
                   end) f.

(** ** make_gif *)

(** utils.py:155-159. *)
Fixpoint open_pics {I} (f : fsys I) (p : path) (l : list string) : res (list I) :=
  match l with
  | [] => Ok []
  | n :: t =>
      if contains "png" n
      then match fget f (p ++ [n])%list with
           | Some (NPic i) => let* r := open_pics f p t in Ok (i :: r)
           | Some _ => Err OSError
           | None => Err FileNotFoundError
           end
      else open_pics f p t
  end.

(** utils.py:168, 175: [id] is the number of the millisecond. *)
Definition gif_name (tag : string) (id : N) : string := "gif_" ++ tag ++ "_" ++ pad 4 id ++ ".gif".

(** utils.py:147-182, with what is left behind when it raises. *)
Definition gif {I} (f : fsys I) (frames gifs : path) (tag : string) (id : N) : fsys I * res path :=
  match fget f frames with
  | None => (f, Err FileNotFoundError)
  | Some NDir =>
      match open_pics f frames (sort (names f frames)) with
      | Err e => (f, Err e)
      | Ok [] => (f, Err IndexError)
      | Ok (first :: rest) =>
          match (match fget f gifs with Some _ => Ok f | None => mkdir f gifs end) with
          | Err e => (f, Err e)
          | Ok f1 =>
              let p := (gifs ++ [gif_name tag id])%list in
              match write f1 p (NGif (first :: first :: rest)) with
              | Err e => (f1, Err e)
              | Ok f2 => (rm_png f2 frames, Ok p)
              end
          end
      end
  | Some _ => (f, Err OSError)
  end.

(** ** save_fig_sequence *)

(** What get_frame returns: a grid in mode 0, a tuple in the other modes (continuous.py:566-585). *)
Inductive output (G : Type) : Type := One (g : G) | Tuple.
Arguments One {G}. Arguments Tuple {G}.

(** utils.py:249-250. An automaton called on a tuple is not modelled. *)
Fixpoint advance {G} (frame : G -> res (output G)) (k : nat) (g : output G) : res (output G) :=
  match k with
  | O => Ok g
  | S j => match g with One x => let* y := frame x in advance frame j y | Tuple => Err Unmodelled end
  end.

(** utils.py:217-250: the loop, with the files and the last value of [step]. *)
Fixpoint film_loop {G I} (frame : G -> res (output G)) (dead : G -> res bool) (render : G -> res I)
    (num_steps speedup : nat) (frames : path) (k step : nat) (last : option nat) (grid : output G) (f : fsys I)
    : fsys I * res (option nat) :=
  match k with
  | O => (f, Ok last)
  | S m =>
      match grid with
      | Tuple => (f, Err AttributeError)
      | One g =>
          match dead g with
          | Err e => (f, Err e)
          | Ok true => (f, Ok (Some step))
          | Ok false =>
              match render g with
              | Err e => (f, Err e)
              | Ok i =>
                  match write f (frames ++ [frame_name num_steps step])%list (NPic i) with
                  | Err e => (f, Err e)
                  | Ok f1 =>
                      match advance frame speedup grid with
                      | Err e => (f1, Err e)
                      | Ok grid' => film_loop frame dead render num_steps speedup frames m (S step) (Some step) grid' f1
                      end
                  end
              end
          end
      end
  end.

(** utils.py:211-215: the directory and the name of the animation, from a tag that is a string
    ([None]) or a pair. *)
Definition tag_dir (tag : option string * string) : string := match fst tag with Some d => d | None => snd tag end.

(** utils.py:184-258: what is left in the files, and the path of the animation if there is one. *)
Definition film {G I} (frame : G -> res (output G)) (dead : G -> res bool) (render : G -> res I)
    (num_steps speedup : nat) (frames gif_path : path) (tag : option string * string) (id : N) (grid : G) (f : fsys I)
    : fsys I * res (option path) :=
  let f0 := match fget f frames with Some _ => f | None => mkdir_p f [] frames end in
  let gifs := (gif_path ++ [tag_dir tag])%list in
  match film_loop frame dead render num_steps speedup frames num_steps 0 None (One grid) f0 with
  | (f1, Err e) => (f1, Err e)
  | (f1, Ok None) => (f1, Err UnboundLocalError)
  | (f1, Ok (Some step)) =>
      if Nat.ltb 0 step
      then match gif f1 frames gifs (snd tag) id with
           | (f2, Err e) => (f2, Err e)
           | (f2, Ok p) => (rm_r f2 frames, Ok (Some p))
           end
      else (rm_r f1 frames, Ok None)
  end.

(** ** Pictures *)

Open Scope R_scope.

(** A list of results, from left to right (utils.py:227-245: numpy works on whole arrays). *)
Fixpoint all_ok {A B} (g : A -> res B) (l : list A) : res (list B) :=
  match l with [] => Ok [] | a :: t => let* b := g a in let* r := all_ok g t in Ok (b :: r) end.

(** np.uint8(255 * x): the integer part; numbers outside the range of a byte are not modelled
    (utils.py:228, 231, 237-238, 242). *)
Definition byte (x : R) : res Z :=
  if Rle_dec 0 x then if Rlt_dec (255 * x) 256 then Ok (Int_part (255 * x)) else Err Unmodelled else Err Unmodelled.

(** utils.py:227-242: the colours of one cell; [cmap] is the colour map. *)
Definition colours (cmap : R -> list R) (g : tensor) (i j : nat) : res (list Z) :=
  let at_ c := get g 0 c i j in
  if Nat.leb 4 (tC g) then all_ok byte [at_ 0%nat; at_ 1%nat; at_ 2%nat; at_ 3%nat]
  else if Nat.eqb (tC g) 3 then all_ok byte [at_ 0%nat; at_ 1%nat; at_ 2%nat]
  else if Nat.eqb (tC g) 2 then let* l := all_ok byte [at_ 0%nat; at_ 1%nat] in Ok (0%Z :: l)
  else all_ok byte (cmap (at_ 0%nat)).

(** utils.py:244-245. *)
Definition inverted (px : list Z) : list Z := (map (fun v => 255 - v)%Z (firstn 3 px) ++ skipn 3 px)%list.

(** Rows of cells of colours (utils.py:227-247). *)
Definition picture : Type := list (list (list Z)).

(** utils.py:227-245. *)
Definition render_grid (cmap : R -> list R) (invert : bool) (g : tensor) : res picture :=
  let* _ := guard (negb (Nat.eqb (tB g) 0) && negb (Nat.eqb (tC g) 0)) IndexError in
  all_ok (fun i => all_ok (fun j => let* px := colours cmap g i j in Ok (if invert then inverted px else px))
                     (seq 0 (tW g))) (seq 0 (tH g)).

(** grid.max() < 0.001; the maximum of nothing raises (utils.py:219). *)
Definition dead_grid (g : tensor) : res bool :=
  match tdata g with
  | [] => Err RuntimeError
  | l => Ok (if Rlt_dec (lmax l) (1 / 1000) then true else false)
  end.
