(** Model of yuca/cmaes.py: the evolution strategy CMAES and its variant CMACES, without the
    pictures it draws. An agent is represented by its parameter vector; what [get_params] and
    [set_params] do in each agent class is in MCppn. Random numbers, the order numpy's sort gives
    to equal numbers, and the fitness of an agent are arguments. *)
From Coq Require Import Reals List Arith Bool ZArith.
From Verif Require Import Base.
Import ListNotations.
Open Scope R_scope.

(** A parameter vector (cmaes.py:27-112). *)
Definition vec : Type := list R.
(** A covariance matrix (cmaes.py:27-112). *)
Definition mat : Type := list vec.

(** cmaes.py:41 and 44. *)
Definition elite_keep (P : nat) : nat := P / 8 + 1.
(** cmaes.py:27-112. *)
Definition elitism : nat := 1.

(** ** Fitness: cmaes.py:153-181 *)

(** What an environment step returns: reward and proportion of live grids (cmaes.py:153-181). *)
Record outcome : Type := mkOut { ou_reward : R; ou_active : R }.

(** The steps of one replicate, from the state [w] of environment and generator (cmaes.py:153-181). *)
Fixpoint rollout {W} (step : W -> outcome * W) (n : nat) (w : W) : R * R * W :=
  match n with
  | O => (0, 0, w)
  | S m => let r := rollout step m w in
           let s := step (snd r) in
           (fst (fst r) + ou_reward (fst s), snd (fst r) + ou_active (fst s), snd s)
  end.

(** The replicates: the list of their fitnesses and the sum of live proportions (cmaes.py:153-181). *)
Fixpoint replicate {W} (reset : W -> W) (step : W -> outcome * W) (steps n : nat) (w : W) : list R * R * W :=
  match n with
  | O => ([], 0, w)
  | S m => let r := replicate reset step steps m w in
           let s := rollout step steps (reset (snd r)) in
           ((fst (fst r) ++ [fst (fst s) / INR steps])%list, snd (fst r) + snd (fst s), snd s)
  end.

(** [seed] is seed_all, [reset] env.reset, [step] env.step with this agent's action. Division by
    zero steps or replicates raises (cmaes.py:153-181). *)
Definition get_fitness {W} (seed : Z -> W -> W) (reset : W -> W) (step : W -> outcome * W)
    (steps replicates : nat) (s : Z) (w : W) : res (R * R * W) :=
  let r := replicate reset step steps replicates (seed s w) in
  let* _ := guard (negb (Nat.eqb (steps * replicates) 0)) ZeroDivisionError in
  Ok (rsum (List.length (fst (fst r))) (fun i => nth i (fst (fst r)) 0) / INR (List.length (fst (fst r))),
      snd (fst r) / INR (steps * replicates), snd r).

(** ** Selection: cmaes.py:237-296 *)

(** cmaes.py:237-252. [order] is np.argsort(fitness). *)
Definition select_top (keep : nat) (order : list nat) : res (list nat) :=
  let* _ := guard (Nat.leb keep (List.length order)) IndexError in
  Ok (firstn keep (rev order)).

(** np.argmax: the first of the largest (cmaes.py:254-270). *)
Fixpoint argmax_from (l : list R) (k best : nat) (v : R) : nat :=
  match l with
  | [] => best
  | x :: t => if Rlt_dec v x then argmax_from t (S k) k x else argmax_from t (S k) best v
  end.
(** cmaes.py:254-270. *)
Definition argmax (l : list R) : nat := match l with [] => 0%nat | x :: t => argmax_from t 1 0 x end.

(** cmaes.py:254-270. [bracket m] are the random indices of the m-th tournament. *)
Definition select_tourney (keep : nat) (bracket : nat -> list nat) (fitness : list R) : list nat :=
  map (fun m => let ix := bracket m in nth (argmax (map (fun i => nth i fitness 0) ix)) ix 0%nat) (seq 0 keep).

(** cmaes.py:279-281: the probability of each rank. *)
Definition lottery_weight (r : nat) : R := 1 / INR (r + 1) ^ 2.
(** cmaes.py:279-281. *)
Definition lottery_prob (n r : nat) : R := lottery_weight r / rsum n lottery_weight.

(** cmaes.py:272-296. [ranks] are the positions in the ranking that np.random.choice draws. *)
Definition select_lottery (order ranks : list nat) : list nat := map (fun r => nth r (rev order) 0%nat) ranks.

(** The random inputs of a selection (cmaes.py:183-296). *)
Record chance : Type := mkChance { ch_order : list R -> list nat; ch_bracket : nat -> list nat; ch_ranks : list nat }.

(** Any other mode leaves elite_pop unbound (cmaes.py:235-296). *)
Definition select (mode keep : nat) (c : chance) (fitness : list R) : res (list nat) :=
  match mode with
  | 0%nat => select_top keep (ch_order c fitness)
  | 1%nat => Ok (select_tourney keep (ch_bracket c) fitness)
  | 2%nat => Ok (select_lottery (ch_order c fitness) (ch_ranks c))
  | _ => Err UnboundLocalError
  end.

(** ** The distribution: cmaes.py:297-312 and 204-217 *)

(** cmaes.py:305, the means of the entries. *)
Definition vec_mean (E : mat) : vec :=
  map (fun a => rsum (List.length E) (fun i => nth a (nth i E []) 0) / INR (List.length E)) (seq 0 (List.length (nth 0 E []))).

(** (1/k) (E - m)^T (E - m) (cmaes.py:307-309). *)
Definition vec_covar (keep : nat) (E : mat) (m : vec) : mat :=
  let d := List.length (nth 0 E []) in
  map (fun a => map (fun b => 1 / INR keep * rsum (List.length E) (fun i => (nth a (nth i E []) 0 - nth a m 0) * (nth b (nth i E []) 0 - nth b m 0)))
                    (seq 0 d)) (seq 0 d).

(** cmaes.py:64-79: the starting covariance. *)
Definition start_weight (pattern : bool) (a : nat) : R :=
  if pattern then 1 else if Nat.eqb a 0 then 15 / 100 else 15 / 100 * (5 / 10000).
(** cmaes.py:64-79. *)
Definition start_covar (pattern : bool) (d : nat) : mat :=
  map (fun a => map (fun b => if Nat.eqb a b then Rabs (start_weight pattern a) else 0) (seq 0 d)) (seq 0 d).

(** ** Population updates *)

(** An assignment to one entry of a list (cmaes.py:315-319). *)
Fixpoint upd {A} (n : nat) (x : A) (l : list A) : list A :=
  match l, n with
  | [], _ => []
  | _ :: t, O => x :: t
  | y :: t, S m => y :: upd m x t
  end.

(** cmaes.py:315-316: agent k gets the parameters that the k-th elite agent has by then. *)
Definition keep_elites (e : list nat) (n : nat) (pop : mat) : mat :=
  fold_left (fun p k => upd k (nth (nth k e 0%nat) p []) p) (seq 0 n) pop.

(** cmaes.py:318-319: the others are drawn. *)
Definition redraw (draw : nat -> vec) (n P : nat) (pop : mat) : mat :=
  fold_left (fun p k => upd k (draw k) p) (seq n (P - n)) pop.

(** ** State *)

(** [ev_saved]: the seed of each saved configuration, with the vector that was written into the
    automaton just before (None: none was). [ev_log]: elite vectors, means, covariance and largest
    fitness of each generation. [ev_time] counts the draws (cmaes.py:531-548). *)
Record entry : Type := mkEntry { en_elites : mat; en_means : vec; en_covar : mat; en_fitness : list R }.
(** The fields of a CMAES object (cmaes.py:27-149). *)
Record evo : Type := mkEvo {
  ev_pop : mat;
  ev_means : vec;
  ev_covar : mat;
  ev_elites : option mat;
  ev_saved : list (Z * option vec);
  ev_params : list mat;      (* progress["elite_params"] *)
  ev_log : list entry;       (* what else is appended to progress, with what was saved with it *)
  ev_time : nat
}.

(** Agent classes, by what the constructor does with the keyword params: ParamsAgent takes it,
    CPPN ignores it (its weights are random), CPPNPlus takes what is beyond its random weights.
    CPPNPlus is used by CMACES, the others by CMAES (evolve.py). *)
Inductive kind : Type := KParams | KNet | KPlus.
(** cmaes.py:126-149. *)
Definition make_agent (k : kind) (weights p : vec) : vec :=
  match k with
  | KParams => p
  | KNet => weights
  | KPlus => (weights ++ skipn (List.length weights) p)%list
  end.

(** The fixed settings of a run. [draw t m c] is the t-th draw from the normal distribution with
    mean m and covariance c, [weights t] the t-th random network, [fit] the fitness of a vector
    under a seed (cmaes.py:27-112). *)
Record setting : Type := mkSetting {
  se_size : nat;             (* population_size *)
  se_mode : nat;             (* selection_mode *)
  se_gens : nat;             (* generations *)
  se_kind : kind;
  se_pattern : bool;         (* "pattern" in tag *)
  se_means : vec;            (* starting_means *)
  se_draw : nat -> vec -> mat -> vec;
  se_weights : nat -> vec;
  se_fit : vec -> Z -> R;
  se_chance : nat -> chance
}.

(** cmaes.py:27-112. *)
Definition se_keep (s : setting) : nat := elite_keep (se_size s).

(** cmaes.py:126-149: appends to the population; elites first. *)
Definition elite_rows (E : option mat) : mat := match E with Some e => e | None => [] end.

(** cmaes.py:126-149. *)
Definition initialize_population (s : setting) (v : evo) : evo :=
  let n := List.length (elite_rows (ev_elites v)) in
  let t := ev_time v in
  let elites := map (fun h => make_agent (se_kind s) (se_weights s (t + h)) (nth h (elite_rows (ev_elites v)) [])) (seq 0 n) in
  let others := map (fun i => make_agent (se_kind s) (se_weights s (t + i)) (se_draw s (t + i) (ev_means v) (ev_covar v))) (seq n (se_size s - n)) in
  mkEvo (ev_pop v ++ elites ++ others) (ev_means v) (ev_covar v) (ev_elites v) (ev_saved v) (ev_params v) (ev_log v) (t + se_size s).

(** cmaes.py:119-124. *)
Definition reset (s : setting) (v : evo) : evo :=
  initialize_population s (mkEvo [] (se_means s) (start_covar (se_pattern s) (List.length (se_means s)))
                                 (ev_elites v) (ev_saved v) (ev_params v) (ev_log v) (ev_time v)).

(** cmaes.py:235-319. *)
Definition update_population (s : setting) (fitness : list R) (v : evo) : res evo :=
  let* e := select (se_mode s) (se_keep s) (se_chance s (ev_time v)) fitness in
  let* _ := guard (forallb (fun i => Nat.ltb i (List.length (ev_pop v))) e) IndexError in
  let E := map (fun i => nth i (ev_pop v) []) e in
  let m := vec_mean E in
  let c := vec_covar (se_keep s) E (ev_means v) in
  let n := (se_keep s * elitism / 2)%nat in
  let* _ := guard (Nat.leb n (List.length (ev_pop v)) && Nat.leb (se_size s) (List.length (ev_pop v))) IndexError in
  let p := redraw (fun k => se_draw s (ev_time v + k) m c) n (se_size s) (keep_elites e n (ev_pop v)) in
  Ok (mkEvo p m c (Some E) (ev_saved v) (ev_params v) (ev_log v) (ev_time v + se_size s)).

(** cmaes.py:183-232: ranks, moves the distribution, and saves the automaton; unless patterns are
    evolved, the best vector is first written into it. *)
Definition rank_population (s : setting) (fitness : list R) (seed : Z) (v : evo) : res evo :=
  let* e := select_top (se_keep s) (ch_order (se_chance s (ev_time v)) fitness) in
  let* _ := guard (forallb (fun i => Nat.ltb i (List.length (ev_pop v))) e) IndexError in
  let E := map (fun i => nth i (ev_pop v) []) e in
  Ok (mkEvo (ev_pop v) (vec_mean E) (vec_covar (se_keep s) E (ev_means v)) (Some E)
            (ev_saved v ++ [(seed, if se_pattern s then None else Some (nth 0 E []))])
            (ev_params v) (ev_log v) (ev_time v)).

(** ** The main loop: cmaes.py:427-586, one process *)

(** np.mean (cmaes.py:525). *)
Definition lmean (l : list R) : R := rsum (List.length l) (fun i => nth i l 0) / INR (List.length l).
(** np.std (cmaes.py:528). *)
Definition lstd (l : list R) : R := sqrt (rsum (List.length l) (fun i => (nth i l 0 - lmean l) ^ 2) / INR (List.length l)).

(** cmaes.py:465-477: every agent in turn. *)
Definition evaluate (s : setting) (pop : mat) (seed : Z) : list R := map (fun j => se_fit s (nth j pop []) seed) (seq 0 (se_size s)).

(** cmaes.py:531-548: the log; for patterns only the last elites are kept. *)
Definition log_generation (s : setting) (fitness : list R) (v : evo) : evo :=
  let E := elite_rows (ev_elites v) in
  mkEvo (ev_pop v) (ev_means v) (ev_covar v) (ev_elites v) (ev_saved v)
        (if se_pattern s then [E] else ev_params v ++ [E])
        (ev_log v ++ [mkEntry E (ev_means v) (ev_covar v) fitness]) (ev_time v).

(** cmaes.py:520-523. *)
Definition advance (s : setting) (seed : Z) (g : nat) (fitness : list R) (v : evo) : res evo :=
  if Nat.eqb (g + 1) (se_gens s) then rank_population s fitness seed v else update_population s fitness v.

(** cmaes.py:564-569. *)
Definition stops (g : nat) (fitness : list R) : bool := (if Rlt_dec (lstd fitness) (2 / 100) then true else false) && Nat.ltb 6 g.

(** One generation: the new state and whether the loop breaks (cmaes.py:464-569). *)
Definition generation (s : setting) (seed : Z) (g : nat) (v : evo) : res (evo * bool) :=
  let* _ := guard (Nat.leb (se_size s) (List.length (ev_pop v))) IndexError in
  let fitness := evaluate s (ev_pop v) (Z.of_nat g * seed) in
  let* v1 := advance s seed g fitness v in
  let v2 := log_generation s fitness v1 in
  if stops g fitness then let* v3 := rank_population s fitness seed v2 in Ok (v3, true)
  else Ok (v2, false).

(** cmaes.py:464-569: the loop over generations. *)
Fixpoint generations (s : setting) (seed : Z) (n g : nat) (v : evo) : res evo :=
  match n with
  | O => Ok v
  | S m => let* r := generation s seed g v in
           if snd r then Ok (fst r) else generations s seed m (S g) (fst r)
  end.

(** Giving the first agents the elite vectors [E] (cmaes.py:579-580). *)
Definition give_elites (s : setting) (E : mat) (v : evo) : res evo :=
  let* _ := guard (Nat.leb (se_keep s) (List.length (ev_pop v)) && Nat.leb (se_keep s) (List.length E)) IndexError in
  Ok (mkEvo (fold_left (fun p k => upd k (nth k E []) p) (seq 0 (se_keep s)) (ev_pop v))
            (ev_means v) (ev_covar v) (ev_elites v) (ev_saved v) (ev_params v) (ev_log v) (ev_time v)).

(** cmaes.py:683-700: CMACES gives the first agents the elites whenever it draws a picture. Its
    save_gif has no keyword starting_grid (683), with which the pictures of patterns are asked
    for (462, 586). There are up to four pictures before the first generation (449-462), each of
    another agent. *)
Definition parade (s : setting) (v : evo) : res evo :=
  let* _ := guard (Nat.leb (Nat.min (se_keep s) 4) (List.length (ev_pop v))) IndexError in
  match se_kind s with
  | KPlus =>
      let* _ := guard (negb (se_pattern s)) TypeError in
      match ev_elites v with Some E => give_elites s E v | None => Ok v end
  | _ => Ok v
  end.

(** cmaes.py:571-586: when patterns are evolved, the first agents are given the last elites. *)
Definition closing (s : setting) (v : evo) : res evo :=
  let* _ := guard (Nat.leb (se_keep s) (List.length (ev_pop v))) IndexError in
  if se_pattern s
  then let* _ := guard (negb (Nat.eqb (List.length (ev_params v)) 0)) IndexError in
       give_elites s (last (ev_params v) []) v
  else let* _ := guard (negb (Nat.eqb (se_gens s) 0)) UnboundLocalError in parade s v.

(** cmaes.py:449-456: the population is initialised twice. *)
Definition start_seed (s : setting) (v : evo) : evo := initialize_population s (reset s v).

(** cmaes.py:449-586 for one seed. Without generations the name [generation] is unbound when
    the last pictures are drawn. *)
Definition run_seed (s : setting) (seed : Z) (v : evo) : res evo :=
  let* v0 := parade s (start_seed s v) in
  let* v1 := generations s seed (se_gens s) 0 v0 in
  let* v2 := closing s v1 in
  let* _ := guard (negb (Nat.eqb (se_gens s) 0)) UnboundLocalError in
  Ok v2.

(** cmaes.py:439-586: the loop over seeds. *)
Fixpoint run_seeds (s : setting) (seeds : list Z) (v : evo) : res evo :=
  match seeds with
  | [] => Ok v
  | x :: t => let* v' := run_seed s x v in run_seeds s t v'
  end.

(** A new object; [E] are elites read from a log file (cmaes.py:87-113), if any. *)
Definition new_evo (E : option mat) : evo := mkEvo [] [] [] E [] [] [] 0.

(** cmaes.py:99-105: with a log file, the means are those of its elites. *)
Definition starting_means (E : option mat) (m : vec) : vec := match E with Some e => vec_mean e | None => m end.
