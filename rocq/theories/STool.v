(** Specification of the commit of a test report. *)
From Coq Require Import List Bool ZArith String Ascii.
From Verif Require Import SText.
Import ListNotations.
Open Scope string_scope.

(** The last line with a word in it. *)
Definition last_with (word : string) (ls : list string) (l : string) : Prop :=
  exists a b, ls = (a ++ l :: b)%list /\ occurs word l /\ forall x, In x b -> ~ occurs word x.

(** The words of the commit that is meant. *)
Definition meant (summary : string) (message : option string) : list string :=
  ["git"; "commit"; "-m"; "test commit summary: " ++ summary] ++
  match message with None => [] | Some m => ["-m"; m] end.
