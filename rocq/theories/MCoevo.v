(** Model of the parts of yuca/cmaes.py where an evolved vector reaches the automaton. *)
From Coq Require Import Reals List Arith Bool.
From Verif Require Import Base Tensor MConfig MCppn.
Import ListNotations.
Open Scope R_scope.

(** cmaes.py:227-228, when the tag does not contain "pattern": the automaton that is saved. *)
Definition save_best (o : obj) (best : list R) : res obj := set_params o best.

(** cmaes.py:634-636: the rule an agent of a coevolution is evaluated with. *)
Definition rule_of_agent (o : obj) (s : cppnplus) : res (obj * cppnplus) :=
  let* a := plus_action s in
  let* o' := set_params o (fst (fst a)) in
  Ok (o', snd a).

(** cmaes.py:658-680 (CMACES): the configurations of the elites. Every elite becomes a new
    agent with random weights [w h], [b h]; the automaton keeps the last rule. *)
Fixpoint elite_rules (e hid d : nat) (w b : nat -> nat -> nat -> R) (draw : nat -> R) (h : nat) (E : list (list R)) (o : obj) : res (list obj * obj) :=
  match E with
  | [] => Ok ([], o)
  | p :: t =>
      let* s := plus_init e hid d (w h) (b h) None (Some p) draw in
      let* r := rule_of_agent o s in
      let* k := elite_rules e hid d w b draw (S h) t (fst r) in
      Ok (fst r :: fst k, snd k)
  end.
