(** Specification of the demonstration server: rotations of the index, usable and hidden
    entries, histories of events. *)
From Coq Require Import Reals List Arith Bool String.
From Verif Require Import Base Tensor MLibrarian MApp.
Import ListNotations.
Open Scope string_scope.
Open Scope nat_scope.

(** The same circle, starting somewhere else. *)
Definition rotation {X} (l l' : list X) : Prop := exists a b : list X, l = (a ++ b)%list /\ l' = (b ++ a)%list.

(** A pattern that fits: one image of one channel with at most 90 rows and columns. *)
Definition fits (p : tensor) : Prop := tB p = 1 /\ tC p = 1 /\ tH p <= 90 /\ tW p <= 90.

(** An entry that can be shown whatever the automaton is doing. *)
Definition usable {C} (k : machine C) (d : dir tensor) (name : string) : Prop :=
  exists p m, load d name = Ok (p, m) /\ fits p /\ forall c, snd (restore k c (m_config m)) = None.

(** Entries whose recorded commit reads "none" are skipped. *)
Definition hidden_entry (d : dir tensor) (name : string) : Prop :=
  exists p m, load d name = Ok (p, m) /\ m_commit m = "none".
Definition visible_entry (d : dir tensor) (name : string) : Prop :=
  exists p m, load d name = Ok (p, m) /\ m_commit m <> "none".

(** A pattern in the middle of an empty 96x96 grid, three cells up and left of the centre. *)
Definition centred (p g : tensor) : Prop :=
  shape g = (1, 1, 96, 96) /\
  (forall i j, i < tH p -> j < tW p -> get g 0 0 ((96 - tH p) / 2 - 3 + i) ((96 - tW p) / 2 - 3 + j) = get p 0 0 i j) /\
  (forall i j, i < 96 -> j < 96 ->
     ~ ((96 - tH p) / 2 - 3 <= i < (96 - tH p) / 2 - 3 + tH p /\ (96 - tW p) / 2 - 3 <= j < (96 - tW p) / 2 - 3 + tW p) ->
     get g 0 0 i j = 0%R).

(** The picture and the texts belong to the entry. *)
Definition showing {C} (d : dir tensor) (name : string) (s : server C) : Prop :=
  exists p m, load d name = Ok (p, m) /\ centred p (a_grid s) /\ a_alias s = "alias: " ++ name.

(** The state after a list of events, with what each of them reported. *)
Fixpoint history_of {C} (fuel : nat) (k : machine C) (d : dir tensor) (es : list event) (s : server C)
    : server C * list (event * option err) :=
  match es with
  | [] => (s, [])
  | e :: t => let (s1, x) := react fuel k d e s in
              let (s2, r) := history_of fuel k d t s1 in (s2, (e, x) :: r)
  end.

(** Number of successful updates in a record. *)
Fixpoint updates (r : list (event * option err)) : nat :=
  match r with
  | [] => 0
  | (EUpdate, None) :: t => S (updates t)
  | _ :: t => updates t
  end.
