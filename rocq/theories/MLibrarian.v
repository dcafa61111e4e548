(** Model of yuca/zoo/librarian.py. The directory is an association list from file names to
    contents; names are assumed to have no slash, so that joining them to the directory keeps
    them apart. Printing is not modelled. *)
From Coq Require Import NArith List Arith Bool String Ascii.
From Verif Require Import Base MText.
Import ListNotations.
Open Scope string_scope.

(** What a file holds (librarian.py:48-128). *)
Inductive content (A : Type) : Type := CArray (a : A) | CText (s : string).
Arguments CArray {A}. Arguments CText {A}.

(** librarian.py:10-22. *)
Definition dir (A : Type) := list (string * content A).

(** librarian.py:87-128. *)
Fixpoint dget {A} (d : dir A) (f : string) : option (content A) :=
  match d with
  | [] => None
  | (g, c) :: t => if String.eqb f g then Some c else dget t f
  end.

(** Writing a file: replace it, or add it (librarian.py:48-84). *)
Fixpoint dput {A} (d : dir A) (f : string) (c : content A) : dir A :=
  match d with
  | [] => [(f, c)]
  | (g, x) :: t => if String.eqb f g then (g, c) :: t else (g, x) :: dput t f c
  end.

(** os.path.exists (librarian.py:48-84). *)
Definition exists_file {A} (d : dir A) (f : string) : bool :=
  match dget d f with Some _ => true | None => false end.

(** librarian.py:54, 58, 65: the file names, without extension. *)
Definition entry_name (name : string) (counter : N) : string := name ++ pad 3 counter.

(** librarian.py:53-58: the while loop. *)
Fixpoint find_free {A} (fuel : nat) (d : dir A) (name : string) (counter : N) : option N :=
  match fuel with
  | O => None
  | S f => if exists_file d (entry_name name counter ++ ".npy") then find_free f d name (counter + 1) else Some counter
  end.

(** librarian.py:68-72. *)
Definition chosen_config (verbose : bool) (config_name ca_config : string) : string :=
  if String.eqb config_name "unspecified" && verbose
  then if String.eqb ca_config "unspecified" && verbose then config_name else ca_config
  else config_name.

(** librarian.py:87-128. *)
Record meta : Type := mkMeta { m_config : string; m_entry : string; m_commit : string; m_notes : string }.

(** librarian.py:74-78. *)
Definition meta_text (config_name commit_hash notes entry_point : string) : string :=
  "ca_config," ++ config_name ++ String nl "commit_hash," ++ commit_hash ++
  String nl "notes, " ++ notes ++ String nl "entry_point," ++ entry_point.

(** librarian.py:48-84: the two successive directories (after each write) and the name the
    pattern was stored under. A missing note is written as None. *)
Definition store {A} (fuel : nat) (verbose : bool) (d : dir A) (pattern : A)
    (name config_name ca_config entry_point commit_hash : string) (notes : option string)
    : option (string * dir A * dir A) :=
  match find_free fuel d name 0 with
  | None => None
  | Some c =>
      let e := entry_name name c in
      let n := match notes with None => "None" | Some s => s end in
      let d1 := dput d (e ++ ".csv") (CText (meta_text (chosen_config verbose config_name ca_config) commit_hash n entry_point)) in
      Some (e, d1, dput d1 (e ++ ".npy") (CArray pattern))
  end.

(** [line.split(",")[1]] (librarian.py:87-128). *)
Definition field (ls : list string) (i : nat) : option string :=
  match nth_error ls i with
  | None => None
  | Some l => nth_error (split "," l) 1
  end.

(** A variable that may not have been assigned again (librarian.py:87-128). *)
Definition or_else (o : option string) (s : string) : string := match o with Some x => x | None => s end.

(** librarian.py:87-128. Loading something that is not an array is an error of np.load. *)
Definition load {A} (d : dir A) (name : string) : res (A * meta) :=
  match dget d (name ++ ".npy") with
  | None => Err FileNotFoundError
  | Some (CText _) => Err ValueError
  | Some (CArray a) =>
      match dget d (name ++ ".csv") with
      | None => Err FileNotFoundError
      | Some (CArray _) => Err ValueError
      | Some (CText s) =>
          let ls := lines (universal s) in
          match field ls 0 with
          | None => Err IndexError
          | Some c => Ok (a, mkMeta c (or_else (field ls 3) "none") (or_else (field ls 1) "none") (or_else (field ls 2) ""))
          end
      end
  end.

(** librarian.py:24-46. *)
Definition hidden (f : string) : bool :=
  contains ".py" f || contains ".ipynb" f || contains "csv" f || contains "__pycache__" f.
(** librarian.py:24-46. *)
Definition update_index {A} (d : dir A) : list string :=
  sort (map stem (filter (fun f => negb (hidden f)) (map fst d))).

(** librarian.py:131-139 on one matrix: rows [r0:r1] and columns [c0:c1] with bounds that are
    not negative. *)
Definition slice {X} (a b : nat) (l : list X) : list X := firstn (b - a) (skipn a l).
(** librarian.py:131-139. *)
Definition crop {X} (m : list (list X)) (r0 r1 c0 c1 : nat) : list (list X) :=
  map (slice c0 c1) (slice r0 r1 m).
