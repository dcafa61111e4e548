(** Specification of the pattern library: what a store may change, histories of stores. *)
From Coq Require Import NArith List Arith Bool String Ascii.
From Verif Require Import Base MText SText MLibrarian.
Import ListNotations.
Open Scope string_scope.

(** The counter a store has to use. *)
Definition least_free {A} (d : dir A) (name : string) (c : N) : Prop :=
  dget d (name ++ pad 3 c ++ ".npy") = None /\
  forall j, (j < c)%N -> dget d (name ++ pad 3 j ++ ".npy") <> None.

Record request (A : Type) : Type := mkReq {
  r_pattern : A; r_name : string; r_config : string; r_ca : string;
  r_entry : string; r_commit : string; r_notes : option string;
  r_crash : bool }.                    (* killed between the two writes *)
Arguments r_pattern {A}. Arguments r_name {A}. Arguments r_config {A}. Arguments r_ca {A}.
Arguments r_entry {A}. Arguments r_commit {A}. Arguments r_notes {A}. Arguments r_crash {A}.
Arguments mkReq {A}.

Definition do_store {A} (v : bool) (d : dir A) (r : request A) : option (string * dir A * dir A) :=
  store (S (List.length d)) v d (r_pattern r) (r_name r) (r_config r) (r_ca r) (r_entry r) (r_commit r) (r_notes r).

(** The directory after any sequence of requests, some of them interrupted. *)
Inductive history {A} (v : bool) : dir A -> list (request A) -> dir A -> Prop :=
| history_nil : forall d, history v d [] d
| history_done : forall d r rs e d1 d2 d', r_crash r = false ->
    do_store v d r = Some (e, d1, d2) -> history v d2 rs d' -> history v d (r :: rs) d'
| history_crash : forall d r rs e d1 d2 d', r_crash r = true ->
    do_store v d r = Some (e, d1, d2) -> history v d1 rs d' -> history v d (r :: rs) d'.

(** Text that survives the comma separated metadata file. *)
Definition plain (s : string) : Prop := lacks "," s /\ lacks nl s /\ lacks cr s.
Definition one_line (s : string) : Prop := lacks nl s /\ lacks cr s.
Definition notes_text (o : option string) : string := match o with None => "None" | Some s => s end.

Definition filtered : list string := [".py"; ".ipynb"; "csv"; "__pycache__"].
