(** What the selection by name and the grouping of arguments should do. *)
From Coq Require Import List String Bool Ascii.
From Verif Require Import SText.
Import ListNotations.
Open Scope string_scope.

(** c is listed under the first of the names that occurs in s. *)
Definition first_named {C} (table : list (string * C)) (s : string) (c : C) : Prop :=
  exists pre name post, table = (pre ++ (name, c) :: post)%list /\ occurs name s /\
    forall n d, In (n, d) pre -> ~ occurs n s.

Definition none_named {C} (table : list (string * C)) (s : string) : Prop :=
  forall n d, In (n, d) table -> ~ occurs n s.

(** A group is one argument with a dash followed by arguments without. *)
Definition is_group (g : list string) : Prop :=
  exists a t, g = a :: t /\ occurs "-" a /\ forall b, In b t -> ~ occurs "-" b.

(** Lexicographic order of lists of strings. *)
Inductive lists_before : list string -> list string -> Prop :=
| lb_nil : forall a t, lists_before [] (a :: t)
| lb_head : forall a b s t, before a b -> lists_before (a :: s) (b :: t)
| lb_tail : forall a s t, lists_before s t -> lists_before (a :: s) (a :: t).

Definition lists_not_after (s t : list string) : Prop := s = t \/ lists_before s t.
