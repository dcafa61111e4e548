(** Model of the demonstration server gecco_bokeh_app/main.py: the buttons and the periodic
    update as operations on the module's global state. The module imports its automaton from
    yuca.multiverse, a file this commit does not have; the automaton is therefore an argument
    (how a configuration name is restored and how a grid is stepped). Widgets, the picture
    sent to the browser and sleeping are left out. An exception inside a callback is reported
    by the server and the application goes on with the state reached so far, so every
    operation returns that state beside the exception. *)
From Coq Require Import Reals ZArith List Arith Bool String.
From Verif Require Import Base Tensor MText MLibrarian MAnalyze.
Import ListNotations.
Open Scope string_scope.

(** main.py:30-54: grid, library index, automaton, periodic callbacks (their periods in
    milliseconds), label of the run button ("Run >" is [true]), period, step counter and the
    four texts below the picture. *)
Record server (C : Type) : Type := mkApp {
  a_grid : tensor; a_index : list string; a_ca : C;
  a_callbacks : list R; a_label : bool; a_period : R; a_step : nat;
  a_alias : string; a_config : string; a_entry : string; a_git : string }.
Arguments a_grid {C}. Arguments a_index {C}. Arguments a_ca {C}. Arguments a_callbacks {C}.
Arguments a_label {C}. Arguments a_period {C}. Arguments a_step {C}. Arguments a_alias {C}.
Arguments a_config {C}. Arguments a_entry {C}. Arguments a_git {C}. Arguments mkApp {C}.

(** The automaton: restore_config (which may leave a changed object behind when it fails)
    and a forward step (gecco_bokeh_app/main.py:31-60, 83-171). *)
Record machine (C : Type) : Type := mkMachine {
  restore : C -> string -> C * option err;
  forward : C -> tensor -> C * res tensor }.
Arguments restore {C}. Arguments forward {C}. Arguments mkMachine {C}.

(** Assignment to one global of gecco_bokeh_app/main.py (83-257): the grid. *)
Definition with_grid {C} (g : tensor) (s : server C) : server C :=
  mkApp g (a_index s) (a_ca s) (a_callbacks s) (a_label s) (a_period s) (a_step s)
        (a_alias s) (a_config s) (a_entry s) (a_git s).
(** The same for the index (main.py:173-257). *)
Definition with_index {C} (l : list string) (s : server C) : server C :=
  mkApp (a_grid s) l (a_ca s) (a_callbacks s) (a_label s) (a_period s) (a_step s)
        (a_alias s) (a_config s) (a_entry s) (a_git s).
(** The same for the automaton (main.py:129-257). *)
Definition with_ca {C} (c : C) (s : server C) : server C :=
  mkApp (a_grid s) (a_index s) c (a_callbacks s) (a_label s) (a_period s) (a_step s)
        (a_alias s) (a_config s) (a_entry s) (a_git s).
(** The same for the two texts (main.py:129-257). *)
Definition with_texts {C} (alias config entry git : string) (s : server C) : server C :=
  mkApp (a_grid s) (a_index s) (a_ca s) (a_callbacks s) (a_label s) (a_period s) (a_step s)
        alias config entry git.

(** main.py:34, 136, 181, 227: torch.zeros(1,1,96,96). *)
Definition blank : tensor := build 1 1 96 96 (fun _ _ _ _ => 0%R).

(** main.py:47-48, 149-150, 192-193, 241-242: where a pattern of [k] rows (columns) is put. *)
Definition corner (k : nat) : Z := ((96 - Z.of_nat k) / 2 - 3)%Z.

(** main.py:50-51, 152-153, 195-196, 244-245: assignment of the pattern to the slice of a
    blank grid; every dimension must agree with the slice or be one. *)
Definition place (p : tensor) : res tensor :=
  let i0 := slice_norm 96 (corner (tH p)) in
  let j0 := slice_norm 96 (corner (tW p)) in
  let h := (slice_norm 96 (corner (tH p) + Z.of_nat (tH p)) - i0)%nat in
  let w := (slice_norm 96 (corner (tW p) + Z.of_nat (tW p)) - j0)%nat in
  let* _ := guard (Nat.eqb (tB p) 1 && Nat.eqb (tC p) 1 &&
                   (Nat.eqb (tH p) h || Nat.eqb (tH p) 1) && (Nat.eqb (tW p) w || Nat.eqb (tW p) 1)) RuntimeError in
  Ok (build 1 1 96 96 (fun _ _ i j =>
        if (Nat.leb i0 i && Nat.ltb i (i0 + h) && Nat.leb j0 j && Nat.ltb j (j0 + w))%bool
        then bget p 0 0 (i - i0) (j - j0) else 0%R)).

(** list.pop(0) and list.pop(-1) (main.py:176). *)
Definition pop_first {X} (l : list X) : option (X * list X) :=
  match l with [] => None | x :: t => Some (x, t) end.
(** main.py:219. *)
Definition pop_last {X} (l : list X) : option (X * list X) :=
  match rev l with [] => None | x :: t => Some (x, rev t) end.

(** The text of one newline (main.py:129-257). *)
Definition nls : string := String nl "".

(** main.py:128-173 reset_this_pattern. The assignment to my_step is to a local variable. *)
Definition reset_this {C} (k : machine C) (d : dir tensor) (s : server C) : server C * option err :=
  let s0 := with_grid blank s in
  match pop_last (a_index s0) with
  | None => (s0, Some IndexError)
  | Some (name, rest) =>
      let s1 := with_index rest s0 in
      match load d name with
      | Err e => (s1, Some e)
      | Ok (p, m) =>
          let s2 := with_index (rest ++ [name]) s1 in
          let (c, x) := restore k (a_ca s2) (m_config m) in
          let s3 := with_ca c s2 in
          match x with
          | Some e => (s3, Some e)
          | None =>
              match place p with
              | Err e => (s3, Some e)
              | Ok g =>
                  (with_texts ("alias: " ++ name) (nls ++ "CA config: " ++ stem (m_config m) ++ " ")
                     (nls ++ "evolved with: " ++ nls ++ m_entry m)
                     (nls ++ "at git commit hash: " ++ nls ++ m_commit m ++
                        (if String.eqb (m_notes m) "" then "" else nls ++ nls ++ "note: " ++ m_notes m))
                     (with_grid g s3), None)
              end
          end
      end
  end.

(** main.py:184-210 and 232-259: the common part of the two other buttons, after the name has
    been taken off the index; also returns the commit hash read. *)
Definition show {C} (k : machine C) (d : dir tensor) (name : string) (s : server C) : server C * res string :=
  match load d name with
  | Err e => (s, Err e)
  | Ok (p, m) =>
      let (c, x) := restore k (a_ca s) (m_config m) in
      let s1 := with_ca c s in
      match x with
      | Some e => (s1, Err e)
      | None =>
          match place p with
          | Err e => (s1, Err e)
          | Ok g =>
              let s2 := with_index (a_index s1 ++ [name]) (with_grid g s1) in
              (with_texts ("alias: " ++ name) (nls ++ "CA config: " ++ stem (m_config m) ++ " ")
                 (nls ++ "evolved with: " ++ m_entry m)
                 (nls ++ "at git commit hash: " ++ nls ++ " " ++ m_commit m) s2, Ok (m_commit m))
          end
      end
  end.

(** main.py:175-214 reset_next_pattern and 218-262 reset_prev_pattern; the recursive call when
    the commit hash is "none". [fuel] bounds the depth of the recursion. *)
Fixpoint reset_next {C} (fuel : nat) (k : machine C) (d : dir tensor) (s : server C) : server C * option err :=
  match fuel with
  | O => (s, Some OutOfFuel)
  | S f =>
      let s0 := with_grid blank s in
      match pop_first (a_index s0) with
      | None => (s0, Some IndexError)
      | Some (name, rest) =>
          let (s1, x) := show k d name (with_index rest s0) in
          match x with
          | Err e => (s1, Some e)
          | Ok hash => if String.eqb hash "none" then reset_next f k d s1 else (s1, None)
          end
      end
  end.

(** main.py:216-257. *)
Fixpoint reset_prev {C} (fuel : nat) (k : machine C) (d : dir tensor) (s : server C) : server C * option err :=
  match fuel with
  | O => (s, Some OutOfFuel)
  | S f =>
      let s0 := with_grid blank s in
      match pop_last (a_index s0) with
      | None => (s0, Some IndexError)
      | Some (name, rest) =>
          match pop_last (name :: rest) with
          | None => (s0, Some IndexError)
          | Some (name', rest') =>
              let (s1, x) := show k d name' (with_index rest' s0) in
              match x with
              | Err e => (s1, Some e)
              | Ok hash => if String.eqb hash "none" then reset_prev f k d s1 else (s1, None)
              end
          end
      end
  end.

(** main.py:82-103 update. *)
Definition update {C} (k : machine C) (s : server C) : server C * option err :=
  let (c, r) := forward k (a_ca s) (a_grid s) in
  match r with
  | Err e => (with_ca c s, Some e)
  | Ok g => (mkApp g (a_index s) c (a_callbacks s) (a_label s) (a_period s) (S (a_step s))
                   (a_alias s) (a_config s) (a_entry s) (a_git s), None)
  end.

(** main.py:105-113 go. *)
Definition go {C} (s : server C) : server C * option err :=
  let put cb lb := mkApp (a_grid s) (a_index s) (a_ca s) cb lb (a_period s) (a_step s)
                         (a_alias s) (a_config s) (a_entry s) (a_git s) in
  if a_label s then (put (a_callbacks s ++ [a_period s])%list false, None)
  else match a_callbacks s with
       | [] => (s, Some IndexError)
       | _ :: t => (put t true, None)
       end.

(** main.py:115-127. *)
Definition with_period {C} (p : R) (s : server C) : server C :=
  mkApp (a_grid s) (a_index s) (a_ca s) (a_callbacks s) (a_label s) p (a_step s)
        (a_alias s) (a_config s) (a_entry s) (a_git s).

(** main.py:115-127: both call go twice. *)
Definition go_twice {C} (s : server C) : server C * option err :=
  let (s1, x) := go s in
  match x with Some e => (s1, Some e) | None => go s1 end.

(** main.py:115-120 faster, 122-127 slower. *)
Definition faster {C} (s : server C) : server C * option err := go_twice (with_period (Rmax (a_period s / 2) 128) s).
(** main.py:122-127. *)
Definition slower {C} (s : server C) : server C * option err := go_twice (with_period (Rmin (a_period s * 2) 8192) s).

(** main.py:30-54, 264: starting the application. The module loads "orbium_orbium000" and
    restores its configuration first, then shows the last entry of the index. *)
Definition start {C} (k : machine C) (d : dir tensor) (c : C) : server C * option err :=
  let s := mkApp blank (update_index d) c [] true 512%R 0 "" "" "" "" in
  match load d "orbium_orbium000" with
  | Err e => (s, Some e)
  | Ok (p, m) =>
      match place p with
      | Err e => (s, Some e)
      | Ok g =>
          let (c1, x) := restore k c (m_config m) in
          match x with
          | Some e => (with_ca c1 (with_grid g s), Some e)
          | None => reset_this k d (with_ca c1 (with_grid g s))
          end
      end
  end.

(** main.py:266-272: what a user or the timer can trigger. *)
Inductive event : Set := ENext | EPrev | EThis | EGo | EFaster | ESlower | EUpdate.

(** main.py:83-257, 262-290: one event. *)
Definition react {C} (fuel : nat) (k : machine C) (d : dir tensor) (e : event) (s : server C) : server C * option err :=
  match e with
  | ENext => reset_next fuel k d s
  | EPrev => reset_prev fuel k d s
  | EThis => reset_this k d s
  | EGo => go s
  | EFaster => faster s
  | ESlower => slower s
  | EUpdate => update k s
  end.
