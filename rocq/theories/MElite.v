(** Model of what a search does to the automaton of its environment, and of the configurations it
    writes down: yuca/cmaes.py with the wrappers of yuca/wrappers.

    The evolution itself is MEvo, the automaton (a CCA in functional mode) is MConfig. A search is
    split in two: the calls it makes on the automaton, in order ([deed]), and their execution. One
    process; coevolution (CMACES) is left out. What else an environment does in a step (running the
    automaton, training a predictor) changes neither parameters nor configurations, and is taken to
    raise no exception. *)
From Coq Require Import Reals List Arith Bool ZArith String.
From Verif Require Import Base PyDict MCca MConfig MEvo.
Import ListNotations.
Open Scope R_scope.

(** The environments, by what their step does with the action: the halting wrappers write it into
    the automaton (halting_wrapper.py:60-62, 229-231), the random wrapper does not look at it
    (random_wrapper.py:24-29), for the glider wrapper it is a universe (glider_wrapper.py:66-137). *)
Inductive wrapper : Type := WHalting | WRandom | WGlider.

(** halting_wrapper.py:60-62, 229-231. *)
Definition writes (w : wrapper) : bool := match w with WHalting => true | _ => false end.

(** A search: its settings, environment and replicates (cmaes.py:27-112). *)
Record quest : Type := mkQuest { qu_set : setting; qu_wrap : wrapper; qu_reps : nat }.

(** A call that concerns the automaton or the files: set_params, save_config for a seed (cmaes.py:227-230),
    the configuration of the i-th elite in the k-th entry of progress["elite_configs"] (cmaes.py:357-378, 542),
    and the log of a seed with its elite vectors (cmaes.py:549-550). *)
Inductive deed : Type :=
| DSet (p : vec) | DSave (x : Z) | DMake (k i : nat) | DLog (x : Z) (l : list mat).

(** env.step for an agent with these parameters; the agents of the halting wrappers are
    ParamsAgents, whose action is their vector (cmaes.py:167-171, 370-373). *)
Definition step_deeds (q : quest) (p : vec) : list deed := if writes (qu_wrap q) then [DSet p] else [].

(** cmaes.py:465-477 with 153-181: the replicates of every agent, one step each. *)
Definition trial_deeds (q : quest) (pop : mat) : list deed :=
  flat_map (fun j => List.concat (repeat (step_deeds q (nth j pop [])) (qu_reps q))) (seq 0 (se_size (qu_set q))).

(** cmaes.py:219-230, at the end of rank_population. *)
Definition rank_deeds (q : quest) (x : Z) (v : evo) : list deed :=
  ((if se_pattern (qu_set q) then [] else [DSet (nth 0 (elite_rows (ev_elites v)) [])]) ++ [DSave x])%list.

(** cmaes.py:354-378 get_elite_configs. *)
Fixpoint elite_deeds (q : quest) (k i : nat) (E : mat) : list deed :=
  match E with
  | [] => []
  | p :: t => (step_deeds q p ++ DMake k i :: elite_deeds q k (S i) t)%list
  end.

(** cmaes.py:446-462 and 571-586: the pictures of [n] agents. When patterns are evolved, the automaton stays as it is. *)
Definition picture_deeds (q : quest) (n : nat) (pop : mat) : list deed :=
  if se_pattern (qu_set q) then [] else map (fun j => DSet (nth j pop [])) (seq 0 n).

(** One generation: the state, whether the loop breaks, and the calls (cmaes.py:464-569). *)
Definition q_generation (q : quest) (x : Z) (g : nat) (v : evo) : res (evo * bool * list deed) :=
  let s := qu_set q in
  let* _ := guard (Nat.leb (se_size s) (List.length (ev_pop v))) IndexError in
  let* _ := guard (negb (Nat.eqb (qu_reps q) 0) || Nat.eqb (se_size s) 0) ZeroDivisionError in
  let fitness := evaluate s (ev_pop v) (Z.of_nat g * x) in
  let* v1 := advance s x g fitness v in
  let d1 := if Nat.eqb (g + 1) (se_gens s) then rank_deeds q x v1 else [] in
  let d2 := elite_deeds q (List.length (ev_log v)) 0 (elite_rows (ev_elites v1)) in
  let v2 := log_generation s fitness v1 in
  let ds := (trial_deeds q (ev_pop v) ++ d1 ++ d2 ++ [DLog x (ev_params v2)])%list in
  if stops g fitness
  then let* v3 := rank_population s fitness x v2 in Ok (v3, true, (ds ++ rank_deeds q x v3)%list)
  else Ok (v2, false, ds).

(** cmaes.py:464-569: the loop over generations. *)
Fixpoint q_generations (q : quest) (x : Z) (n g : nat) (v : evo) : res (evo * list deed) :=
  match n with
  | O => Ok (v, [])
  | S m => let* r := q_generation q x g v in
           if snd (fst r) then Ok (fst (fst r), snd r)
           else let* t := q_generations q x m (S g) (fst (fst r)) in Ok (fst t, (snd r ++ snd t)%list)
  end.

(** cmaes.py:439-586 for one seed. *)
Definition q_run_seed (q : quest) (x : Z) (v : evo) : res (evo * list deed) :=
  let s := qu_set q in
  let* _ := guard (match se_kind s with KPlus => false | KNet => negb (writes (qu_wrap q)) | KParams => true end) Unmodelled in
  let* v0 := parade s (start_seed s v) in
  let* r := q_generations q x (se_gens s) 0 v0 in
  let* v2 := closing s (fst r) in
  let* _ := guard (negb (Nat.eqb (se_gens s) 0)) UnboundLocalError in
  Ok (v2, (picture_deeds q (Nat.min (se_keep s) 4) (ev_pop v0) ++ snd r ++ picture_deeds q (se_keep s) (ev_pop (fst r)))%list).

(** cmaes.py:439-586: the loop over seeds; progress goes on from one to the next (425-433). *)
Fixpoint q_run_seeds (q : quest) (xs : list Z) (v : evo) : res (evo * list deed) :=
  match xs with
  | [] => Ok (v, [])
  | x :: t => let* r := q_run_seed q x v in
              let* k := q_run_seeds q t (fst r) in
              Ok (fst k, (snd r ++ snd k)%list)
  end.

Section Perform.
  (** ca_configs/<exp_id>_seed<x>.npy and logs/<exp_id>_seed<x>.npy (cmaes.py:222-224, 549). *)
  Variable cfg_file log_file : Z -> string.

  (** cmaes.py:219-230, 354-378, 549-550: one call; what make_config returns goes into the log. *)
  Definition do_deed (d : deed) (w : world) : res (list (nat * nat * pcfg) * world) :=
    match d with
    | DSet p => let* o := set_params (w_obj w) p in Ok ([], mkWorld o (w_heap w) (w_env w))
    | DSave x => let '(ev, o, h) := save_config (w_env w) (w_obj w) (cfg_file x) (w_heap w) in Ok ([], mkWorld o h ev)
    | DMake k i => let '(c, o, h) := make_config (w_obj w) (w_heap w) in Ok ([(k, i, c)], mkWorld o h (w_env w))
    | DLog x l => Ok ([], mkWorld (w_obj w) (w_heap w) (mkEnv (fs_set (e_fs (w_env w)) (npy (log_file x)) (FElite l)) (e_dir (w_env w))))
    end.

  (** cmaes.py:439-586: the calls in order. *)
  Fixpoint perform (ds : list deed) (w : world) : res (list (nat * nat * pcfg) * world) :=
    match ds with
    | [] => Ok ([], w)
    | d :: t => let* r := do_deed d w in
                let* k := perform t (snd r) in
                Ok ((fst r ++ fst k)%list, snd k)
    end.
End Perform.
