(** What the configurations of a search are measured against. *)
From Coq Require Import Reals List Arith Bool ZArith String.
From Verif Require Import Base PyDict MActivations MKernels MCommon MCca MEvo MConfig SConfig MElite.
Import ListNotations.
Open Scope R_scope.
Open Scope string_scope.

(** Entries [a], ..., [a+n-1] of a vector. *)
Definition slice (a n : nat) (p : list R) : list R := firstn n (skipn a p).

(** Where the parameters of an automaton are in its vector: growth, then persistence, then kernel. *)
Record layout : Type := mkLayout { la_gen : nat; la_per : nat; la_ker : nat; la_radius : value }.
Definition la_size (L : layout) : nat := (la_gen L + la_per L + la_ker L)%nat.

Definition laid_out (L : layout) (o : obj) : Prop :=
  List.length (fn_params (gens (o_core o))) = la_gen L /\ List.length (fn_params (pers (o_core o))) = la_per L /\
  (exists l, o_kpar o = KPVec l /\ List.length l = la_ker L) /\ o_radius o = la_radius L.

(** The dictionaries that describe a kernel and an update function by a mixture of Gaussians. *)
Definition kernel_entry (L : layout) (p : list R) : dict :=
  [("name", VStr "GaussianMixture"); ("kernel_kwargs", VDict [("parameters", VVec (slice (la_gen L + la_per L) (la_ker L) p))]); ("radius", la_radius L)].
Definition fn_entry (l : list R) : dict := [("name", VStr "GaussianMixture"); ("parameters", VVec l); ("mode", VInt 1)].
Definition stock_fn : dict := fn_entry [15000001 / 100000000; 15 / 1000].

(** The update functions of the configuration are those of the vector, in two dictionaries. *)
Definition growth_of (L : layout) (p : list R) (c : pcfg) : Prop :=
  p_gen c = Some (fn_entry (slice 0 (la_gen L) p)) /\ p_per c = Some (fn_entry (slice (la_gen L) (la_per L) p)) /\ p_same c = false.
(** ... or those every such automaton gets the first time. *)
Definition stock_growth (c : pcfg) : Prop := p_gen c = Some stock_fn /\ p_per c = Some stock_fn /\ p_same c = false.
(** ... or those of the vector, written into dictionaries it had before. *)
Definition growth_into (L : layout) (gd pd : dict) (p : list R) (c : pcfg) : Prop :=
  p_gen c = Some (dset "parameters" (VVec (slice 0 (la_gen L) p)) gd) /\ p_per c = Some (dset "parameters" (VVec (slice (la_gen L) (la_per L) p)) pd) /\ p_same c = false.

(** An automaton that was not loaded from a configuration and made none, and one with three different dictionaries. *)
Definition plain (o : obj) : Prop := o_nb o = None /\ o_gen o = None /\ o_per o = None.
Definition loaded_with (kd gd pd : dict) (w : world) : Prop := exists a b c,
  o_nb (w_obj w) = Some a /\ o_gen (w_obj w) = Some b /\ o_per (w_obj w) = Some c /\ a <> b /\ a <> c /\ b <> c /\
  (a < List.length (w_heap w))%nat /\ (b < List.length (w_heap w))%nat /\ (c < List.length (w_heap w))%nat /\
  hget (w_heap w) a = kd /\ hget (w_heap w) b = gd /\ hget (w_heap w) c = pd.

(** The elite vector [i] of the log entry [k]. *)
Definition elite_at (v : evo) (k i : nat) : list R := nth i (en_elites (nth k (ev_log v) (mkEntry [] [] [] []))) [].

(** All positions in the log, in order. *)
Definition positions (v : evo) : list (nat * nat) :=
  flat_map (fun k => map (fun i => (k, i)) (seq 0 (List.length (en_elites (nth k (ev_log v) (mkEntry [] [] [] [])))))) (seq 0 (List.length (ev_log v))).

(** Draws as long as the vectors of the automaton. *)
Definition fitting (L : layout) (s : setting) : Prop := forall t m c, List.length (se_draw s t m c) = la_size L.

(** A search for parameters in a halting environment, and one in an environment that ignores the action. *)
Definition seeks (writing : bool) (L : layout) (q : quest) : Prop :=
  writes (qu_wrap q) = writing /\ se_pattern (qu_set q) = false /\ se_kind (qu_set q) = KParams /\ (1 <= se_size (qu_set q))%nat /\
  (forall t, List.length (ch_ranks (se_chance (qu_set q) t)) = se_keep (qu_set q)) /\ fitting L (qu_set q).

(** The configuration at a log position has the update functions of the elite vector there. *)
Definition tells_growth (L : layout) (v : evo) (e : nat * nat * pcfg) : Prop := growth_of L (elite_at v (fst (fst e)) (snd (fst e))) (snd e).

(** Lengths the constructor of a mixture takes: triples, and otherwise pairs. *)
Definition readable (n : nat) : Prop := exists k, n = (2 * k)%nat \/ n = (3 * k)%nat.

(** A configuration any automaton can load, given draws the constructor can use. *)
Definition loadable (c : pcfg) : Prop := forall f ev rng o2 h2, good_rng rng -> exists o3 h3, load_value (Datatypes.S f) ev rng o2 c h2 = Ok (o3, h3).
