(** Specification side of the text primitives: reading a decimal numeral, lexicographic order
    on strings, occurrence of a substring. *)
From Coq Require Import NArith List Arith Bool String Ascii.
Import ListNotations.
Open Scope string_scope.

(** The number a string of digits denotes. *)
Fixpoint reads (acc : N) (s : string) : N :=
  match s with
  | EmptyString => acc
  | String a t => reads (10 * acc + (N_of_ascii a - 48)) t
  end.
Definition number_of (s : string) : N := reads 0 s.

Definition is_digit (a : ascii) : Prop := (48 <= N_of_ascii a <= 57)%N.

Fixpoint every (P : ascii -> Prop) (s : string) : Prop :=
  match s with EmptyString => True | String a t => P a /\ every P t end.

(** Code point order, as Python compares strings. *)
Inductive before : string -> string -> Prop :=
| before_nil : forall a t, before "" (String a t)
| before_head : forall a b s t, (N_of_ascii a < N_of_ascii b)%N -> before (String a s) (String b t)
| before_tail : forall a s t, before s t -> before (String a s) (String a t).

Definition not_after (s t : string) : Prop := s = t \/ before s t.

Definition occurs (sub s : string) : Prop := exists l r, s = l ++ sub ++ r.

Definition lacks (a : ascii) (s : string) : Prop := every (fun b => b <> a) s.

(** The part of a text up to its first comma. *)
Fixpoint upto (c : ascii) (s : string) : string :=
  match s with
  | EmptyString => EmptyString
  | String a t => if Ascii.eqb a c then EmptyString else String a (upto c t)
  end.
