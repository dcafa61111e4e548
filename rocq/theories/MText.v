(** Python text primitives used by the library: zero-padded formatting, substring test,
    split, readlines, splitext and list.sort on strings (over Coq's ASCII strings). *)
From Coq Require Import NArith List Arith Bool String Ascii.
Import ListNotations.
Open Scope string_scope.

(** One decimal digit (librarian.py:48-84). *)
Definition digit (d : N) : ascii := ascii_of_N (48 + d).

(** str(n), with enough fuel for the number of binary digits (librarian.py:48-84, cmaes.py:324-375). *)
Fixpoint dec_loop (fuel : nat) (n : N) (acc : string) : string :=
  match fuel with
  | O => acc
  | S f => let acc' := String (digit (n mod 10)) acc in
           if N.ltb n 10 then acc' else dec_loop f (n / 10) acc'
  end.
(** librarian.py:48-84, cmaes.py:324-375. *)
Definition dec (n : N) : string := dec_loop (S (N.size_nat n)) n "".

(** The leading zeros (librarian.py:48-84). *)
Fixpoint zeros (k : nat) (s : string) : string :=
  match k with O => s | S j => String "0" (zeros j s) end.

(** f"{n:0w}" and f"{n:0wd}" for n >= 0 (librarian.py:48-84, utils.py:184-258). *)
Definition pad (w : nat) (n : N) : string := let s := dec n in zeros (w - String.length s) s.

(** [sub in s] (evolve.py:92-149, librarian.py:24-46). *)
Fixpoint contains (sub s : string) : bool :=
  prefix sub s || match s with EmptyString => false | String _ t => contains sub t end.

(** s.split(c): the pieces between the separators, at least one (librarian.py:87-128). *)
Fixpoint split (c : ascii) (s : string) : list string :=
  match s with
  | EmptyString => [""]
  | String a t => if Ascii.eqb a c then "" :: split c t
                  else match split c t with
                       | [] => [String a ""]
                       | p :: r => String a p :: r
                       end
  end.

(** The newline character (librarian.py:48-128). *)
Definition nl : ascii := "010"%char.
(** The carriage return (librarian.py:48-128). *)
Definition cr : ascii := "013"%char.

(** Reading in text mode: a carriage return, alone or before a newline, becomes a newline (librarian.py:87-128). *)
Fixpoint universal (s : string) : string :=
  match s with
  | EmptyString => EmptyString
  | String a t => if Ascii.eqb a cr
                  then String nl (match t with
                                  | String b u => if Ascii.eqb b nl then universal u else universal t
                                  | EmptyString => EmptyString
                                  end)
                  else String a (universal t)
  end.

(** f.readlines(): every line with its newline; no empty last line (librarian.py:87-128). *)
Fixpoint lines (s : string) : list string :=
  match s with
  | EmptyString => []
  | String a t => if Ascii.eqb a nl then String nl "" :: lines t
                  else match lines t with
                       | [] => [String a ""]
                       | p :: r => String a p :: r
                       end
  end.

(** os.path.splitext(name)[0] for a name without slash: up to the last dot, unless
    everything before that dot is dots (librarian.py:24-46). *)
Fixpoint all_dots (s : string) : bool :=
  match s with EmptyString => true | String a t => Ascii.eqb a "." && all_dots t end.
(** librarian.py:24-46. *)
Fixpoint last_dot (s : string) : option string :=      (* what precedes the last dot *)
  match s with
  | EmptyString => None
  | String a t => match last_dot t with
                  | Some p => Some (String a p)
                  | None => if Ascii.eqb a "." then Some "" else None
                  end
  end.
(** librarian.py:24-46. *)
Definition stem (s : string) : string :=
  match last_dot s with
  | Some p => if all_dots p then s else p
  | None => s
  end.

(** list.sort() on strings (any stable sort gives this list) (utils.py:147-182). *)
Fixpoint insert (x : string) (l : list string) : list string :=
  match l with
  | [] => [x]
  | y :: t => if String.leb x y then x :: l else y :: insert x t
  end.
(** utils.py:147-182. *)
Fixpoint sort (l : list string) : list string :=
  match l with [] => [] | x :: t => insert x (sort t) end.
