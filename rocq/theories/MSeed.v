(** Model of the random numbers of a search: yuca/utils.py seed_all and where yuca/cmaes.py and
    yuca/wrappers/random_wrapper.py call it.

    MEvo takes draws, random networks and fitnesses as given. Here the two global generators,
    numpy's and torch's, are states that go through the search. What a generator yields is an
    argument ([source]), and so is the fitness of an agent from the states of the generators. The
    environment carries nothing else from one evaluation to the next. *)
From Coq Require Import Reals List Arith Bool ZArith.
From Verif Require Import Base MEvo.
Import ListNotations.
Open Scope R_scope.

(** The generators and what is drawn from them (utils.py:19-22; cmaes.py:115-117, 262, 286). *)
Record source : Type := mkSource {
  np_state : Type;                                               (* numpy's generator *)
  th_state : Type;                                               (* torch's generator *)
  np_seed : Z -> np_state;                                       (* np.random.seed *)
  th_seed : Z -> th_state;                                       (* torch.manual_seed *)
  normals : nat -> np_state -> vec * np_state;                   (* standard normal numbers *)
  mvn : vec -> mat -> vec -> vec;                                (* multivariate_normal(means, covar) from normal numbers *)
  randint : nat -> nat -> np_state -> list nat * np_state;       (* np.random.randint(0, n, size=k) *)
  choice : nat -> nat -> np_state -> list nat * np_state;        (* the ranks np.random.choice takes, k out of n *)
  weights : th_state -> vec * th_state;                          (* the weights of a new network *)
  argsort : list R -> list nat;                                  (* np.argsort *)
  fitness_of : vec -> np_state * th_state -> R * (np_state * th_state);        (* the replicates of get_fitness *)
  show : evo -> np_state * th_state -> np_state * th_state       (* what pictures and elite configurations draw *)
}.

(** The settings of a search that are not drawn (cmaes.py:27-85). *)
Record config : Type := mkConfig {
  co_size : nat; co_mode : nat; co_gens : nat; co_kind : kind; co_pattern : bool; co_means : vec }.

(** What MEvo takes as given at one time: a draw, the weights of a network, the tournaments and
    the lottery (cmaes.py:115-149, 254-296). *)
Record tick : Type := mkTick {
  tk_draw : vec -> mat -> vec; tk_weights : vec; tk_bracket : nat -> list nat; tk_ranks : list nat }.

Section Search.
  Variable so : source.
  Variable cf : config.

  (** Both generators (utils.py:19-22). *)
  Definition gens : Type := (np_state so * th_state so)%type.

  (** utils.py:19-22. np.random.seed takes 0 to 2^32 - 1; torch takes more. *)
  Definition seed_all (s : Z) : res gens :=
    let* _ := guard ((0 <=? s)%Z && (s <? 2 ^ 32)%Z) ValueError in
    Ok (np_seed so s, th_seed so s).

  (** The fitness of a vector when the generators have just been seeded (cmaes.py:153-181). *)
  Definition fit_seeded (v : vec) (s : Z) : R := fst (fitness_of so v (np_seed so s, th_seed so s)).

  (** The settings of MEvo for given random inputs (cmaes.py:27-112). *)
  Definition setting_of (o : nat -> tick) : setting :=
    mkSetting (co_size cf) (co_mode cf) (co_gens cf) (co_kind cf) (co_pattern cf) (co_means cf)
      (fun t => tk_draw (o t)) (fun t => tk_weights (o t)) fit_seeded
      (fun t => mkChance (argsort so) (tk_bracket (o t)) (tk_ranks (o t))).

  (** For the parts of a search that draw nothing (cmaes.py:183-232, 571-586). *)
  Definition quiet : setting := setting_of (fun _ => mkTick (fun _ _ => []) [] (fun _ => []) []).

  (** cmaes.py:115-117. *)
  Definition sample (m : vec) (c : mat) (g : np_state so) : vec * np_state so :=
    let z := normals so (List.length m) g in (mvn so m c (fst z), snd z).

  (** cmaes.py:128-138: an agent for every elite vector. *)
  Fixpoint born_elites (E : mat) (h : th_state so) : mat * th_state so :=
    match E with
    | [] => ([], h)
    | p :: t => let w := weights so h in
                let r := born_elites t (snd w) in
                (make_agent (co_kind cf) (fst w) p :: fst r, snd r)
    end.

  (** cmaes.py:141-149: the other agents. The vector is drawn first, then the network. *)
  Fixpoint born_others (n : nat) (m : vec) (c : mat) (w : gens) : mat * gens :=
    match n with
    | O => ([], w)
    | S k => let p := sample m c (fst w) in
             let q := weights so (snd w) in
             let r := born_others k m c (snd p, snd q) in
             (make_agent (co_kind cf) (fst q) (fst p) :: fst r, snd r)
    end.

  (** cmaes.py:126-149. *)
  Definition t_init (v : evo) (w : gens) : evo * gens :=
    let E := elite_rows (ev_elites v) in
    let r := born_elites E (snd w) in
    let q := born_others (co_size cf - List.length E) (ev_means v) (ev_covar v) (fst w, snd r) in
    (mkEvo (ev_pop v ++ fst r ++ fst q) (ev_means v) (ev_covar v) (ev_elites v) (ev_saved v) (ev_params v) (ev_log v)
           (ev_time v + co_size cf), snd q).

  (** cmaes.py:119-124. *)
  Definition t_reset (v : evo) (w : gens) : evo * gens :=
    t_init (mkEvo [] (co_means cf) (start_covar (co_pattern cf) (List.length (co_means cf)))
                  (ev_elites v) (ev_saved v) (ev_params v) (ev_log v) (ev_time v)) w.

  (** cmaes.py:471-480 with 153-181: every agent in turn; both generators are seeded for each. *)
  Fixpoint t_evaluate (agents : mat) (s : Z) (w : gens) : res (list R * gens) :=
    match agents with
    | [] => Ok ([], w)
    | a :: t => let* w1 := seed_all s in
                let f := fitness_of so a w1 in
                let* r := t_evaluate t s (snd f) in
                Ok (fst f :: fst r, snd r)
    end.

  (** cmaes.py:482-517 and 593-618: the arms seed their own generators, those of the mantle stay as they are. A seed
      that is refused ends the arm, and mpirun all the others. *)
  Definition gather (agents : mat) (s : Z) (w : gens) : res (list R * gens) :=
    let* r := t_evaluate agents s w in Ok (fst r, w).

  (** cmaes.py:260-270: one tournament after the other. *)
  Fixpoint tourneys (n keep : nat) (g : np_state so) : list (list nat) * np_state so :=
    match n with
    | O => ([], g)
    | S k => let b := randint so (co_size cf) keep g in
             let r := tourneys k keep (snd b) in (fst b :: fst r, snd r)
    end.

  (** cmaes.py:235-296. *)
  Definition t_select (fitness : list R) (g : np_state so) : res (list nat * np_state so) :=
    let keep := elite_keep (co_size cf) in
    match co_mode cf with
    | 0%nat => let* e := select_top keep (argsort so fitness) in Ok (e, g)
    | 1%nat => let b := tourneys keep keep g in Ok (select_tourney keep (fun m => nth m (fst b) []) fitness, snd b)
    | 2%nat => let r := choice so (List.length fitness) keep g in Ok (select_lottery (argsort so fitness) (fst r), snd r)
    | _ => Err UnboundLocalError
    end.

  (** cmaes.py:318-319. *)
  Fixpoint t_redraw (ks : list nat) (m : vec) (c : mat) (pop : mat) (g : np_state so) : mat * np_state so :=
    match ks with
    | [] => (pop, g)
    | k :: t => let p := sample m c g in t_redraw t m c (upd k (fst p) pop) (snd p)
    end.

  (** cmaes.py:235-319. *)
  Definition t_update (fitness : list R) (v : evo) (w : gens) : res (evo * gens) :=
    let keep := elite_keep (co_size cf) in
    let* e := t_select fitness (fst w) in
    let* _ := guard (forallb (fun i => Nat.ltb i (List.length (ev_pop v))) (fst e)) IndexError in
    let E := map (fun i => nth i (ev_pop v) []) (fst e) in
    let m := vec_mean E in
    let c := vec_covar keep E (ev_means v) in
    let n := (keep * elitism / 2)%nat in
    let* _ := guard (Nat.leb n (List.length (ev_pop v)) && Nat.leb (co_size cf) (List.length (ev_pop v))) IndexError in
    let p := t_redraw (seq n (co_size cf - n)) m c (keep_elites (fst e) n (ev_pop v)) (snd e) in
    Ok (mkEvo (fst p) m c (Some E) (ev_saved v) (ev_params v) (ev_log v) (ev_time v + co_size cf), (snd p, snd w)).

  (** cmaes.py:520-523. *)
  Definition t_advance (x : Z) (g : nat) (fitness : list R) (v : evo) (w : gens) : res (evo * gens) :=
    if Nat.eqb (g + 1) (co_gens cf) then let* v1 := rank_population quiet fitness x v in Ok (v1, w)
    else t_update fitness v w.

  (** One generation, in one process or with arms (cmaes.py:464-569). *)
  Definition t_generation (arms : bool) (x : Z) (g : nat) (v : evo) (w : gens) : res (evo * gens * bool) :=
    let* _ := guard (Nat.leb (co_size cf) (List.length (ev_pop v))) IndexError in
    let agents := map (fun j => nth j (ev_pop v) []) (seq 0 (co_size cf)) in
    let* f := (if arms then gather else t_evaluate) agents (Z.of_nat g * x)%Z w in
    let* r := t_advance x g (fst f) v (snd f) in
    let v2 := log_generation quiet (fst f) (fst r) in
    let w2 := show so v2 (snd r) in
    if stops g (fst f) then let* v3 := rank_population quiet (fst f) x v2 in Ok (v3, w2, true)
    else Ok (v2, w2, false).

  (** cmaes.py:464-569: the loop over generations. *)
  Fixpoint t_generations (arms : bool) (x : Z) (n g : nat) (v : evo) (w : gens) : res (evo * gens) :=
    match n with
    | O => Ok (v, w)
    | S m => let* r := t_generation arms x g v w in
             if snd r then Ok (fst r) else t_generations arms x m (S g) (fst (fst r)) (snd (fst r))
    end.

  (** cmaes.py:442-444: seeds, and initialises the population twice. *)
  Definition t_start (v : evo) (w : gens) : evo * gens :=
    let r := t_reset v w in t_init (fst r) (snd r).

  (** cmaes.py:439-586 for one seed. *)
  Definition t_run_seed (arms : bool) (x : Z) (v : evo) : res (evo * gens) :=
    let* w := seed_all x in
    let r := t_start v w in
    let* v0 := parade quiet (fst r) in
    let* r1 := t_generations arms x (co_gens cf) 0 v0 (show so v0 (snd r)) in
    let* v2 := closing quiet (fst r1) in
    let* _ := guard (negb (Nat.eqb (co_gens cf) 0)) UnboundLocalError in
    Ok (v2, show so v2 (snd r1)).

  (** cmaes.py:439-586: the loop over seeds. Every seed begins with seed_all, so the generators need
      not be passed on. *)
  Fixpoint t_run_seeds (arms : bool) (seeds : list Z) (v : evo) : res evo :=
    match seeds with
    | [] => Ok v
    | x :: t => let* r := t_run_seed arms x v in t_run_seeds arms t (fst r)
    end.

  (** ** RandomWrapper: random_wrapper.py:24-29 *)

  (** [int((time.time() % 1) * 1000)] (random_wrapper.py:27). *)
  Definition clock_ms (t : R) : Z := Int_part (frac_part t * 1000).

  (** [torch.rand(1)] (random_wrapper.py:29). *)
  Variable uniform : th_state so -> R * th_state so.
  (** What the clock shows when it is read for the i-th time (random_wrapper.py:27). *)
  Variable clock : nat -> R.

  (** The replicates of get_fitness, one step each, with a RandomWrapper: [i] counts the readings of the
      clock (cmaes.py:159-175 with random_wrapper.py:24-29). *)
  Fixpoint random_replicates (n i : nat) (w : gens) : res (list R * gens) :=
    match n with
    | O => Ok ([], w)
    | S k => let* w1 := seed_all (clock_ms (clock i)) in
             let u := uniform (snd w1) in
             let* r := random_replicates k (S i) (fst w1, snd u) in
             Ok (fst u :: fst r, snd r)
    end.

  (** cmaes.py:153-181 with a RandomWrapper: the fitness of any agent. *)
  Definition random_fitness (replicates : nat) (s : Z) (i : nat) : res (R * gens) :=
    let* w := seed_all s in
    let* r := random_replicates replicates i w in
    let* _ := guard (negb (Nat.eqb replicates 0)) ZeroDivisionError in
    Ok (MEvo.lmean (fst r), snd r).
End Search.
