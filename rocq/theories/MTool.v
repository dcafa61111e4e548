(** Model of test_commit.py: run the tests, keep the report, commit it. *)
From Coq Require Import List Bool ZArith String Ascii.
From Verif Require Import Base MText.
Import ListNotations.
Open Scope string_scope.

(** The single quote, space and tab of the shell (test_commit.py:26-29). *)
Definition quote : ascii := "'"%char.
(** test_commit.py:26-29. *)
Definition blank (c : ascii) : bool := Ascii.eqb c " " || Ascii.eqb c "009".

(** Characters that mean themselves outside quotes: letters, digits and the likes of - . / = : , _ + % @
    (test_commit.py:26-29). *)
Definition plain (c : ascii) : bool :=
  let n := N_of_ascii c in
  (N.leb 48 n && N.leb n 58) || (N.leb 64 n && N.leb n 90) || (N.leb 97 n && N.leb n 122) ||
  existsb (Ascii.eqb c) ["-"; "."; "/"; "="; ","; "_"; "+"; "%"]%char.

(** The words the shell makes of a command, [quoted] inside single quotes, [word] the word under way
    (os.system at test_commit.py:31-32). An unterminated quote is a syntax error, here ValueError:
    the shell then runs nothing. Other special characters outside quotes are left out. *)
Fixpoint sh_words (quoted : bool) (word : option string) (s : string) : res (list string) :=
  let so_far := match word with Some w => w | None => "" end in
  match s with
  | EmptyString => if quoted then Err ValueError else Ok (match word with Some w => [w] | None => [] end)
  | String c t =>
      if quoted then
        if Ascii.eqb c quote then sh_words false (Some so_far) t
        else sh_words true (Some (so_far ++ String c "")) t
      else if Ascii.eqb c quote then sh_words true (Some so_far) t
      else if blank c then
        let* r := sh_words false None t in Ok (match word with Some w => w :: r | None => r end)
      else if plain c then sh_words false (Some (so_far ++ String c "")) t
      else Err Unmodelled
  end.

(** The loop over the lines of the report (test_commit.py:14-17); [summary] may stay unbound. *)
Fixpoint find_summary (summary : option string) (ls : list string) : option string :=
  match ls with
  | [] => summary
  | line :: t => find_summary (if contains "TOTAL" line then Some line else summary) t
  end.

(** What is added to the report (test_commit.py:19-23). *)
Definition remark (message : option string) : string :=
  match message with None => "no additional message" | Some m => "message: " ++ m end.

(** test_commit.py:26-29. *)
Definition commit_command (summary : string) (message : option string) : string :=
  "git commit -m 'test commit summary: " ++ summary ++ "' " ++
  match message with None => "" | Some m => "-m '" ++ m ++ "'" end.

(** test_commit.py:4-32: the commands given to os.system, the final coverage.txt, and the
    outcome. [exec] is what a command leaves in coverage.txt, given what was there, and its exit status, which
    nobody looks at. *)
Definition test_commit (exec : string -> string -> string * Z) (before : string) (message : option string) : list string * string * res unit :=
  let f1 := fst (exec "coverage run -m testing.test_all" before) in
  let f2 := fst (exec "coverage report > coverage.txt" f1) in
  let f3 := f2 ++ remark message in
  let ran := ["coverage run -m testing.test_all"; "coverage report > coverage.txt"] in
  match find_summary None (lines (universal f2)) with
  | None => (ran, f3, Err UnboundLocalError)
  | Some summary =>
      let c := commit_command summary message in
      let f4 := fst (exec "git add coverage.txt" f3) in
      ((ran ++ ["git add coverage.txt"; c])%list, fst (exec c f4), Ok tt)
  end.
