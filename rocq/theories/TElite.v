(** C115: what the configurations of a search describe. *)
From Coq Require Import Reals Lra Lia List Arith Bool ZArith String.
From Verif Require Import Base PyDict MActivations MKernels MCommon MCca MEvo MConfig SConfig MElite PConfig PConfigX PConfigY PConfigW SElite PElite PEliteX PEliteY PEliteZ PEliteW.
Import ListNotations.
Open Scope R_scope.

(** Watching the automaton changes nothing: the search is the one of MEvo. *)
Theorem C115_same q xs v : (se_kind (qu_set q) = KParams \/ se_kind (qu_set q) = KNet /\ qu_wrap q <> WHalting) -> qu_reps q <> 0%nat ->
  run_seeds (qu_set q) xs v = match q_run_seeds q xs v with Ok r => Ok (fst r) | Err e => Err e end.
Proof.
  intros K R. symmetry. apply (q_run_seeds_erase q xs). split; [|exact R]. destruct K as [->|[-> N]]; [exact I|]. destruct (qu_wrap q); [congruence|reflexivity|reflexivity].
Qed.

(** An automaton that was not loaded from a configuration: there is one configuration per logged elite, in order. All
    have the kernel of the very first elite. The first has the stock update functions, the others those of their elite;
    with a single generation all have those of their elite. *)
Theorem C115_kernel_of_the_first cf lf L q x xs v ds w cs w' : seeks true L q -> q_run_seeds q (x :: xs) (new_evo None) = Ok (v, ds) ->
  laid_out L (w_obj w) -> plain (w_obj w) -> perform cf lf ds w = Ok (cs, w') ->
  map fst cs = positions v /\
  Forall (fun e => p_nb (snd e) = Some (kernel_entry L (elite_at v 0 0))) cs /\
  (if Nat.eqb (se_gens (qu_set q)) 1 then Forall (tells_growth L v) cs
   else exists c rest, cs = (0%nat, 0%nat, c) :: rest /\ stock_growth c /\ Forall (tells_growth L v) rest).
Proof. exact (plain_configs cf lf L q x xs v ds w cs w'). Qed.

(** The configuration file of the last seed, where it is not also a log: the kernel of the very first elite, and the
    update functions of the best of the last generation, unless there was a single one. *)
Theorem C115_saved cf lf L q x xs v ds w cs w' : seeks true L q -> q_run_seeds q (x :: xs) (new_evo None) = Ok (v, ds) ->
  laid_out L (w_obj w) -> plain (w_obj w) -> perform cf lf ds w = Ok (cs, w') ->
  let z := last (x :: xs) x in let best := nth 0 (elite_rows (ev_elites v)) [] in
  (forall y, In y (x :: xs) -> npy (cf z) <> npy (lf y)) ->
  exists c, fs_get (e_fs (w_env w')) (npy (cf z)) = Some (FConfig c) /\ p_nb c = Some (kernel_entry L (elite_at v 0 0)) /\
    (growth_of L best c \/ se_gens (qu_set q) = 1%nat /\ stock_growth c) /\
    (se_gens (qu_set q) <> 1%nat -> growth_of L best c).
Proof. exact (plain_file cf lf L q x xs v ds w cs w'). Qed.

(** Loading that file into any automaton gives a rule that was never evaluated, if the best differs from the first elite in
    its kernel: the kernel of the first elite with the update functions of the best, read as mixtures of Gaussians. *)
Theorem C115_reloaded cf lf L q x xs v ds w cs w' fuel ev rng o2 h2 o3 h3 c : seeks true L q -> se_gens (qu_set q) <> 1%nat ->
  q_run_seeds q (x :: xs) (new_evo None) = Ok (v, ds) -> laid_out L (w_obj w) -> plain (w_obj w) -> perform cf lf ds w = Ok (cs, w') ->
  let z := last (x :: xs) x in let best := nth 0 (elite_rows (ev_elites v)) [] in let first := elite_at v 0 0 in
  (forall y, In y (x :: xs) -> npy (cf z) <> npy (lf y)) ->
  fs_get (e_fs (w_env w')) (npy (cf z)) = Some (FConfig c) -> obj_inv o2 -> load_value fuel ev rng o2 c h2 = Ok (o3, h3) ->
  (exists r k, la_radius L = VInt (Z.of_nat r) /\ o_kpar o3 = KPVec (slice (la_gen L + la_per L) (la_ker L) first) /\
     get_gaussian_mixture_kernel r (slice (la_gen L + la_per L) (la_ker L) first) 1 = Ok k /\ uses_kernel (o_core o3) k) /\
  (exists gs, read_mixture (slice 0 (la_gen L) best) = Ok gs /\ gens (o_core o3) = [AMixture gs true]) /\
  (exists gs, read_mixture (slice (la_gen L) (la_per L) best) = Ok gs /\ pers (o_core o3) = [AMixture gs true]).
Proof.
  intros Sk N1 H La Pl P z best first Hz F I2 Hl. destruct (C115_saved cf lf L q x xs v ds w cs w' Sk H La Pl P Hz) as (c' & F' & Nb & _ & G).
  fold z in F'. rewrite F in F'. injection F' as <-. destruct (G N1) as (Gg & Gp & Sm).
  destruct (load_values fuel ev rng o2 c h2 o3 h3 _ _ _ I2 Nb Gg Gp Sm Hl) as ((k & old & Hk & U & Hp) & Hg & Hq).
  destruct (entry_kernel _ _ _ _ _ Hk Hp) as (r & Er & Ek & Kr). split; [exists r, k; auto|]. split; apply entry_fn; assumption.
Qed.

(** Every configuration a search logs and every one it writes can be loaded, whether the search is finished or not: it is
    enough that the automaton came from the constructor, that its vectors have its length and that its functions have a
    length the constructor of a mixture takes. *)
Theorem C115_loadable cf lf L r ds w cs w' : la_radius L = VInt (Z.of_nat r) -> (0 < r)%nat -> readable (la_gen L) -> readable (la_per L) ->
  let o := w_obj w in obj_inv o -> kernel_synced o -> (0 < o_peaks o)%nat ->
  query_kwargs "ca_config" VNone (o_inst o) = VNone -> query_kwargs "input_filepath" VNone (o_inst o) = VNone ->
  laid_out L o -> plain o -> (forall p, In (DSet p) ds -> List.length p = la_size L) -> perform cf lf ds w = Ok (cs, w') ->
  (forall e, In e cs -> loadable (snd e)) /\
  (forall path c, fs_get (e_fs (w_env w')) path = Some (FConfig c) -> fs_get (e_fs (w_env w)) path = Some (FConfig c) \/ loadable c).
Proof.
  intros Er Hr Rg Rp o Iv Sy Pk C1 C2 La Pl F P. destruct (laid_params _ _ La) as (cur & G).
  assert (H : holds L stock_fn stock_fn None cur w) by (split; [exact G|]; split; [exact La|]; split; [exact Pl|split; reflexivity]).
  assert (Lc : List.length cur = la_size L).
  { destruct La as (A & B & (l & C & D) & _). unfold get_params in G. fold o in G, A, B, C, D. rewrite C in G. cbn [kp_flat] in G. injection G as <-. rewrite !app_length, A, B, D. reflexivity. }
  assert (Rd : ready L r w).
  { split; [split; [exact Iv|]; split; [split; assumption|]; split; [|auto]|exists None, cur; auto]. destruct La as (_ & _ & _ & E). fold o in E. rewrite <- E in Er. exact Er. }
  assert (Fd : Forall (fits L) ds) by (apply Forall_forall; intros [p|x|k i|x l] Hin; cbn [fits]; auto).
  destruct (perform_loadable cf lf L r ds Er Rg Rp w cs w' Fd Rd P) as [A B]. split; [intros e Hin; exact (proj1 (Forall_forall _ cs) A e Hin)|].
  intros path c Hp. destruct (B path c Hp) as [X|X]; auto.
Qed.

(** An automaton loaded from a configuration keeps its kernel dictionary; the elites are written into its others. *)
Theorem C115_loaded cf lf L q x xs v ds w cs w' kd gd pd : seeks true L q -> q_run_seeds q (x :: xs) (new_evo None) = Ok (v, ds) ->
  laid_out L (w_obj w) -> loaded_with kd gd pd w -> perform cf lf ds w = Ok (cs, w') ->
  map fst cs = positions v /\ Forall (fun e => p_nb (snd e) = Some kd /\ growth_into L gd pd (elite_at v (fst (fst e)) (snd (fst e))) (snd e)) cs.
Proof. exact (loaded_configs cf lf L q x xs v ds w cs w' kd gd pd). Qed.

(** In an environment that ignores the action, the configurations of all generations but the last describe no elite: they
    have the parameters of the last initial agent a picture was drawn of. *)
Theorem C115_ignored cf lf L q x v ds w cs w' : seeks false L q -> (2 <= se_gens (qu_set q))%nat -> q_run_seeds q [x] (new_evo None) = Ok (v, ds) ->
  laid_out L (w_obj w) -> plain (w_obj w) -> perform cf lf ds w = Ok (cs, w') ->
  let s := qu_set q in
  let p := se_draw s (Nat.min (se_keep s) 4 - 1) (se_means s) (start_covar false (List.length (se_means s))) in
  map fst cs = positions v /\ exists c rest, cs = (0%nat, 0%nat, c) :: rest /\ p_nb c = Some (kernel_entry L p) /\ stock_growth c /\
    Forall (fun e => p_nb (snd e) = Some (kernel_entry L p) /\ ((fst (fst e) + 1 < se_gens s)%nat -> growth_of L p (snd e))) rest.
Proof. intros (A & B & C & D & E & F) G H. exact (random_configs cf lf L q x v ds w cs w' A B C D E F G H). Qed.

(** When patterns are evolved, no call changes the automaton: every configuration is that of the automaton given. *)
Theorem C115_patterns cf lf L q xs v ds w cs w' kd gd pd p : qu_wrap q <> WHalting -> se_pattern (qu_set q) = true ->
  q_run_seeds q xs (new_evo None) = Ok (v, ds) -> laid_out L (w_obj w) -> loaded_with kd gd pd w -> get_params (w_obj w) = Some p -> perform cf lf ds w = Ok (cs, w') ->
  map fst cs = positions v /\ Forall (fun e => p_nb (snd e) = Some kd /\ growth_into L gd pd p (snd e)) cs.
Proof. intros N. apply pattern_configs. destruct (qu_wrap q); [congruence|reflexivity|reflexivity]. Qed.

(** The log of the last seed, where it is not also a configuration file, holds the recorded
    elite vectors (of all generations, or of the last one where patterns are evolved). *)
Theorem C115_log cf lf q x xs v ds w cs w' E : q_run_seeds q (x :: xs) (new_evo E) = Ok (v, ds) -> perform cf lf ds w = Ok (cs, w') ->
  let z := last (x :: xs) x in (forall y, In y (x :: xs) -> npy (lf z) <> npy (cf y)) ->
  fs_get (e_fs (w_env w')) (npy (lf z)) = Some (FElite (ev_params v)).
Proof. exact (log_written cf lf q x xs v ds w cs w' E). Qed.

(** The search leaves the automaton with the last agent it drew a picture of, not with the best. *)
Theorem C115_left_behind cf lf L q x xs v ds w cs w' b : seeks b L q -> q_run_seeds q (x :: xs) (new_evo None) = Ok (v, ds) ->
  laid_out L (w_obj w) -> plain (w_obj w) -> perform cf lf ds w = Ok (cs, w') ->
  get_params (w_obj w') = Some (nth (se_keep (qu_set q) - 1) (ev_pop v) []).
Proof. exact (left_behind cf lf L q x xs v ds w cs w' b). Qed.

(** How often a search for parameters of at most seven generations writes parameters into the automaton: for every seed,
    once per picture and once for the final ranking, and in a halting environment once for every trial and elite. *)
Theorem C115_writes L q xs v v' ds b : seeks b L q -> (se_gens (qu_set q) <= 7)%nat -> q_run_seeds q xs v = Ok (v', ds) ->
  let s := qu_set q in
  List.length (filter (fun d => match d with DSet _ => true | _ => false end) ds) =
  (List.length xs * (Nat.min (se_keep s) 4 + se_gens s * (if b then se_size s * qu_reps q + se_keep s else 0) + 1 + se_keep s))%nat.
Proof. intros (<- & P & _ & _ & LO & _) H7 H. exact (q_run_seeds_sets q xs P LO H7 v v' ds H). Qed.

(** Every vector a search writes has the length of the automaton's parameters, as C115_succeeds and C115_loadable ask. *)
Theorem C115_fits L q xs v ds b p : seeks b L q -> q_run_seeds q xs (new_evo None) = Ok (v, ds) -> In (DSet p) ds -> List.length p = la_size L.
Proof.
  intros (_ & _ & K & Sz & _ & D) H Hin. assert (F : Forall (fits L) ds) by (apply (q_run_seeds_fit L q xs D Sz K (new_evo None) v ds); [constructor|exact H]).
  exact (proj1 (Forall_forall _ ds) F _ Hin).
Qed.

(** What a search writes first: the agents it draws a picture of, then in a halting environment every agent of the first
    generation, in order, as often as there are replicates. *)
Theorem C115_first_writes L q x xs v ds b : seeks b L q -> q_run_seeds q (x :: xs) (new_evo None) = Ok (v, ds) ->
  let s := qu_set q in let agent j := se_draw s j (se_means s) (start_covar false (List.length (se_means s))) in
  exists rest, ds = (map (fun j => DSet (agent j)) (seq 0 (Nat.min (se_keep s) 4)) ++
    (if b then flat_map (fun j => repeat (DSet (agent j)) (qu_reps q)) (seq 0 (se_size s)) else []) ++ rest)%list.
Proof. intros (W & Pt & K & Sz & _ & _) H. exact (first_calls q x xs v ds b Sz K Pt W H). Qed.

(** Without replicates no search of agents gets through its first evaluation. *)
Theorem C115_no_replicates L q x xs b : seeks b L q -> qu_reps q = 0%nat -> (1 <= se_gens (qu_set q))%nat -> q_run_seeds q (x :: xs) (new_evo None) = Err ZeroDivisionError.
Proof. intros (_ & _ & K & Sz & _ & _) R G. exact (no_replicates q x xs R Sz G K). Qed.

Example ex_elite_no_replicates : let q := mkQuest (toy_set 2) WHalting 0 in seeks true toy_layout q /\ qu_reps q = 0%nat /\ (1 <= se_gens (qu_set q))%nat.
Proof. split; [|split; [reflexivity|cbn; lia]]. split; [reflexivity|]. split; [reflexivity|]. split; [reflexivity|]. split; [cbn; lia|]. split; [intros t; reflexivity|]. intros t m c. reflexivity. Qed.

(** The calls succeed if every vector fits and makes a kernel. *)
Theorem C115_succeeds cf lf L r ds w : la_radius L = VInt (Z.of_nat r) -> obj_inv (w_obj w) -> laid_out L (w_obj w) -> plain (w_obj w) ->
  (forall p, In (DSet p) ds -> List.length p = la_size L /\ exists k, get_gaussian_mixture_kernel r (slice (la_gen L + la_per L) (la_ker L) p) 1 = Ok k) ->
  exists cs w', perform cf lf ds w = Ok (cs, w').
Proof.
  intros Er Iv La Pl H. destruct (laid_params _ _ La) as (cur & G). apply (perform_ok cf lf L r stock_fn stock_fn ds Er None cur w); [|split; [exact G|]; split; [exact La|]; split; [exact Pl|split; reflexivity]|exact Iv].
  apply Forall_forall. intros [p|x|k i|x l] Hin; cbn [takes]; auto.
Qed.

(** An automaton as the constructor makes it. *)
Lemma toy_object : exists o, obj_inv o /\ laid_out toy_layout o /\ plain o.
Proof.
  destruct (wit_init []) as (o & _ & F & I & Ei & _ & En & _). exists o. split; [exact I|]. destruct (fresh_inv _ _ _ F) as (_ & _ & Kp & Ra & N1 & N2 & N3 & _ & _ & Gs & Ps & _).
  split; [|split; [exact N1|split; [exact N2|exact N3]]]. rewrite En in Gs, Ps. unfold laid_out. rewrite Gs, Ps, Ra. split; [reflexivity|]. split; [reflexivity|]. split; [|reflexivity].
  eexists. split; [exact Kp|]. rewrite map_length, seq_length. destruct I as (_ & _ & _ & _ & _ & _ & _ & _ & _ & Pk). cbv zeta in Pk. rewrite Ei in Pk.
  change (as_size (query_kwargs "kernel_peaks" (VInt 3) wit_kw)) with (Ok 1%nat : res nat) in Pk. injection Pk as Pk. rewrite <- Pk. reflexivity.
Qed.

Lemma toy_seeks b w n : writes w = b -> seeks b toy_layout (mkQuest (toy_set n) w 1).
Proof. intros H. split; [exact H|]. split; [reflexivity|]. split; [reflexivity|]. split; [cbn; lia|]. split; [intros t; reflexivity|]. intros t m c. reflexivity. Qed.

Lemma toy_takes t : List.length (toy_draw t) = la_size toy_layout /\
  exists k, get_gaussian_mixture_kernel 1 (slice (la_gen toy_layout + la_per toy_layout) (la_ker toy_layout) (toy_draw t)) 1 = Ok k.
Proof.
  split; [reflexivity|]. destruct (triple_kernel_ok 1 [INR t; 1; 1] 1) as [k Ek]; try lia; [reflexivity| |exists k; exact Ek].
  intros y [<-|[<-|[<-|[]]]]; [apply pos_INR|lra|lra].
Qed.

(** So a logged configuration need not describe its elite: a search by a new automaton in a halting environment, whose
    second elite has one kernel and its configuration another; nor does the file that is to hold the best. *)
Theorem C115_describes_refuted : exists L q x v ds o cs w' c k f, seeks true L q /\ q_run_seeds q [x] (new_evo None) = Ok (v, ds) /\ laid_out L o /\ plain o /\
  perform (fun _ => "c"%string) (fun _ => "l"%string) ds (mkWorld o [] no_env) = Ok (cs, w') /\ In (k, 0%nat, c) cs /\
  p_nb c <> Some (kernel_entry L (elite_at v k 0)) /\
  fs_get (e_fs (w_env w')) "c.npy"%string = Some (FConfig f) /\ p_nb f <> Some (kernel_entry L (nth 0 (elite_rows (ev_elites v)) [])).
Proof.
  destruct toy_object as (o & Iv & La & Pl). destruct (toy_run 5) as (v & ds & H & Eds & E0 & E1 & Ee).
  destruct (C115_succeeds (fun _ => "c"%string) (fun _ => "l"%string) toy_layout 1 ds (mkWorld o [] no_env) eq_refl Iv La Pl) as (cs & w' & P).
  { intros p Hin. rewrite Eds in Hin. cbn [In] in Hin. repeat (destruct Hin as [Hin|Hin]; [try discriminate Hin; injection Hin as <-; apply toy_takes|]). contradiction. }
  pose proof (toy_seeks true WHalting 2 eq_refl) as Sk.
  destruct (C115_kernel_of_the_first _ _ toy_layout (toy WHalting) 5%Z [] v ds (mkWorld o [] no_env) cs w' Sk H La Pl P) as (A & B & _).
  destruct (C115_saved _ _ toy_layout (toy WHalting) 5%Z [] v ds (mkWorld o [] no_env) cs w' Sk H La Pl P) as (f & F1 & F2 & _); [intros y _; discriminate|].
  assert (In1 : In (1%nat, 0%nat) (map fst cs)) by (rewrite (perform_makes _ _ _ _ _ _ P), Eds; right; left; reflexivity).
  apply in_map_iff in In1 as ([[k i] c] & Ek & Hin). injection Ek as -> ->.
  assert (D : Some (kernel_entry toy_layout (toy_draw 0)) <> Some (kernel_entry toy_layout (toy_draw 2))) by (intros X; injection X as X; cbn in X; lra).
  exists toy_layout, (toy WHalting), 5%Z, v, ds, o, cs, w', c, 1%nat, f. split; [exact Sk|]. split; [exact H|]. split; [exact La|]. split; [exact Pl|]. split; [exact P|]. split; [exact Hin|].
  pose proof (proj1 (Forall_forall _ cs) B _ Hin) as Bc. cbn [snd] in Bc. rewrite Bc, E0, E1. split; [exact D|]. split; [exact F1|]. rewrite F2, E0, Ee. exact D.
Qed.

(** A search whose calls all succeed, for C115_same and C115_succeeds. *)
Example ex_elite_run : exists v ds, q_run_seeds (toy WHalting) [5%Z] (new_evo None) = Ok (v, ds) /\ positions v = [(0, 0); (1, 0)]%nat.
Proof. destruct (toy_run 5) as (v & ds & H & Eds & _). exists v, ds. split; [exact H|]. rewrite <- (new_positions _ _ _ _ _ H), Eds. reflexivity. Qed.

(** The same by an automaton that has made a configuration before, for C115_loaded. *)
Example ex_elite_loaded : exists v ds w kd gd pd cs w', q_run_seeds (toy WHalting) [5%Z] (new_evo None) = Ok (v, ds) /\ laid_out toy_layout (w_obj w) /\
  loaded_with kd gd pd w /\ perform (fun _ => "c"%string) (fun _ => "l"%string) ds w = Ok (cs, w') /\ List.length cs = 2%nat.
Proof.
  destruct toy_object as (o & Iv & La & Pl). destruct (toy_run 5) as (v & ds & H & Eds & _). destruct (laid_params _ _ La) as (cur & G).
  destruct (make_config o []) as [[c1 o1] h1] eqn:M.
  assert (H0 : holds toy_layout stock_fn stock_fn None cur (mkWorld o [] no_env)) by (split; [exact G|]; split; [exact La|]; split; [exact Pl|split; reflexivity]).
  destruct (make_holds _ _ _ _ _ _ _ _ _ no_env H0 M) as [_ H1]. pose proof (make_config_obj_inv _ _ _ _ _ Iv M) as I1.
  destruct (perform_ok (fun _ => "c"%string) (fun _ => "l"%string) toy_layout 1 stock_fn stock_fn ds eq_refl (Some (kernel_entry toy_layout cur)) cur (mkWorld o1 h1 no_env)) as (cs & w' & P); [|exact H1|exact I1|].
  { rewrite Eds. apply Forall_forall. intros d Hin. cbn [In] in Hin. repeat (destruct Hin as [<-|Hin]; [first [exact I|apply toy_takes]|]). contradiction. }
  pose proof (perform_makes _ _ _ _ _ _ P) as Q. rewrite Eds in Q. destruct H1 as (_ & L1 & lb & lc & Ld & _).
  exists v, ds, (mkWorld o1 h1 no_env), (kernel_entry toy_layout cur), lb, lc, cs, w'. split; [exact H|]. split; [exact L1|]. split; [exact Ld|]. split; [exact P|]. rewrite <- (map_length fst cs), Q. reflexivity.
Qed.

(** An environment that ignores the action, for C115_ignored. *)
Example ex_elite_ignored : exists v ds o cs w', q_run_seeds (toy WRandom) [5%Z] (new_evo None) = Ok (v, ds) /\ seeks false toy_layout (toy WRandom) /\
  laid_out toy_layout o /\ plain o /\ perform (fun _ => "c"%string) (fun _ => "l"%string) ds (mkWorld o [] no_env) = Ok (cs, w') /\ List.length cs = 2%nat.
Proof.
  destruct toy_object as (o & Iv & La & Pl).
  assert (R : exists v, q_run_seeds (toy WRandom) [5%Z] (new_evo None) = Ok (v, [DSet (toy_draw 0); DMake 0 0; DLog 5 [[toy_draw 0]]; DSet (toy_draw 2); DSave 5; DMake 1 0; DLog 5 [[toy_draw 0]; [toy_draw 2]]; DSet (toy_draw 2)])).
  { eexists. cbn -[toy_draw stops vec_mean vec_covar start_covar]. rewrite stops_early by lia. cbn -[toy_draw stops vec_mean vec_covar start_covar]. rewrite stops_early by lia. cbn -[toy_draw stops vec_mean vec_covar start_covar]. reflexivity. }
  destruct R as (v & H). eexists v, _, o.
  destruct (C115_succeeds (fun _ => "c"%string) (fun _ => "l"%string) toy_layout 1 [DSet (toy_draw 0); DMake 0 0; DLog 5 [[toy_draw 0]]; DSet (toy_draw 2); DSave 5; DMake 1 0; DLog 5 [[toy_draw 0]; [toy_draw 2]]; DSet (toy_draw 2)] (mkWorld o [] no_env) eq_refl Iv La Pl) as (cs & w' & P).
  { intros p Hin. cbn [In] in Hin. repeat (destruct Hin as [Hin|Hin]; [try discriminate Hin; injection Hin as <-; apply toy_takes|]). contradiction. }
  pose proof (perform_makes _ _ _ _ _ _ P) as Q. exists cs, w'. split; [exact H|]. split; [apply (toy_seeks false WRandom 2 eq_refl)|]. split; [exact La|]. split; [exact Pl|]. split; [exact P|]. rewrite <- (map_length fst cs), Q. reflexivity.
Qed.

(** Evolved patterns in the glider environment, for C115_patterns. *)
Definition toy_patterns : quest :=
  mkQuest (mkSetting 1 0 1 KParams true [0] (fun t _ _ => toy_draw t) (fun _ => []) (fun p _ => nth 4 p 0)
    (fun _ => mkChance (fun f => seq 0 (List.length f)) (fun _ => [0%nat]) [0%nat])) WGlider 1.

Example ex_elite_patterns : exists v w kd gd pd p cs w', q_run_seeds toy_patterns [5%Z] (new_evo None) = Ok (v, [DSave 5; DMake 0 0; DLog 5 [[toy_draw 0]]]) /\ laid_out toy_layout (w_obj w) /\
  loaded_with kd gd pd w /\ get_params (w_obj w) = Some p /\ perform (fun _ => "c"%string) (fun _ => "l"%string) [DSave 5; DMake 0 0; DLog 5 [[toy_draw 0]]] w = Ok (cs, w') /\ List.length cs = 1%nat.
Proof.
  destruct toy_object as (o & Iv & La & Pl). destruct (laid_params _ _ La) as (cur & G). destruct (make_config o []) as [[c1 o1] h1] eqn:M.
  assert (R : exists v, q_run_seeds toy_patterns [5%Z] (new_evo None) = Ok (v, [DSave 5; DMake 0 0; DLog 5 [[toy_draw 0]]])).
  { eexists. cbn -[toy_draw stops vec_mean vec_covar start_covar]. rewrite stops_early by lia. cbn -[toy_draw stops vec_mean vec_covar start_covar]. reflexivity. }
  destruct R as (v & H).
  assert (H0 : holds toy_layout stock_fn stock_fn None cur (mkWorld o [] no_env)) by (split; [exact G|]; split; [exact La|]; split; [exact Pl|split; reflexivity]).
  destruct (make_holds _ _ _ _ _ _ _ _ _ no_env H0 M) as [_ H1]. pose proof (make_config_obj_inv _ _ _ _ _ Iv M) as I1.
  destruct (perform_ok (fun _ => "c"%string) (fun _ => "l"%string) toy_layout 1 stock_fn stock_fn [DSave 5; DMake 0 0; DLog 5 [[toy_draw 0]]] eq_refl (Some (kernel_entry toy_layout cur)) cur (mkWorld o1 h1 no_env)) as (cs & w' & P); [repeat constructor|exact H1|exact I1|].
  pose proof (perform_makes _ _ _ _ _ _ P) as Q. destruct H1 as (G1 & L1 & lb & lc & Ld & _).
  exists v, (mkWorld o1 h1 no_env), (kernel_entry toy_layout cur), lb, lc, cur, cs, w'. split; [exact H|]. split; [exact L1|]. split; [exact Ld|]. split; [exact G1|]. split; [exact P|]. rewrite <- (map_length fst cs), Q. reflexivity.
Qed.

(** A file that is written and loaded again, for C115_loadable and C115_reloaded. *)
Example ex_elite_reloaded : exists v ds o cs w' f o3 h3, seeks true toy_layout (toy WHalting) /\ q_run_seeds (toy WHalting) [5%Z] (new_evo None) = Ok (v, ds) /\
  obj_inv o /\ kernel_synced o /\ laid_out toy_layout o /\ plain o /\ perform (fun _ => "c"%string) (fun _ => "l"%string) ds (mkWorld o [] no_env) = Ok (cs, w') /\
  fs_get (e_fs (w_env w')) "c.npy"%string = Some (FConfig f) /\ load_value 1 no_env wit_rng o f [] = Ok (o3, h3).
Proof.
  assert (T : exists o, obj_inv o /\ kernel_synced o /\ o_inst o = wit_kw /\ o_peaks o = 1%nat /\ laid_out toy_layout o /\ plain o).
  { destruct (wit_init []) as (o & _ & F & I & Ei & _ & En & _). exists o. split; [exact I|]. destruct (fresh_inv _ _ _ F) as (_ & Sy & Kp & Ra & N1 & N2 & N3 & _ & _ & Gs & Ps & _).
    assert (Pk : o_peaks o = 1%nat).
    { destruct I as (_ & _ & _ & _ & _ & _ & _ & _ & _ & Pk). cbv zeta in Pk. rewrite Ei in Pk. change (as_size (query_kwargs "kernel_peaks" (VInt 3) wit_kw)) with (Ok 1%nat : res nat) in Pk. injection Pk as Pk. congruence. }
    split; [exact Sy|]. split; [exact Ei|]. split; [exact Pk|]. split; [|split; [exact N1|split; [exact N2|exact N3]]]. rewrite En in Gs, Ps. unfold laid_out. rewrite Gs, Ps, Ra. split; [reflexivity|]. split; [reflexivity|]. split; [|reflexivity].
    eexists. split; [exact Kp|]. rewrite map_length, seq_length, Pk. reflexivity. }
  destruct T as (o & Iv & Sy & Ei & Pk & La & Pl). destruct (toy_run 5) as (v & ds & H & Eds & E0 & E1 & Ee).
  assert (Tk : forall p, In (DSet p) ds -> List.length p = la_size toy_layout /\ exists k, get_gaussian_mixture_kernel 1 (slice (la_gen toy_layout + la_per toy_layout) (la_ker toy_layout) p) 1 = Ok k).
  { intros p Hin. rewrite Eds in Hin. cbn [In] in Hin. repeat (destruct Hin as [Hin|Hin]; [try discriminate Hin; injection Hin as <-; apply toy_takes|]). contradiction. }
  destruct (C115_succeeds (fun _ => "c"%string) (fun _ => "l"%string) toy_layout 1 ds (mkWorld o [] no_env) eq_refl Iv La Pl Tk) as (cs & w' & P).
  pose proof (toy_seeks true WHalting 2 eq_refl) as Sk.
  destruct (C115_saved _ _ toy_layout (toy WHalting) 5%Z [] v ds (mkWorld o [] no_env) cs w' Sk H La Pl P) as (f & F1 & _); [intros y _; discriminate|].
  destruct (C115_loadable (fun _ => "c"%string) (fun _ => "l"%string) toy_layout 1 ds (mkWorld o [] no_env) cs w' eq_refl ltac:(lia)) as (_ & Lo);
    [exists 1%nat; left; reflexivity|exists 1%nat; left; reflexivity|exact Iv|exact Sy|cbn [w_obj]; rewrite Pk; lia|cbn [w_obj]; rewrite Ei; reflexivity|cbn [w_obj]; rewrite Ei; reflexivity|exact La|exact Pl|intros p Hin; exact (proj1 (Tk p Hin))|exact P|].
  destruct (Lo _ _ F1) as [X|X]; [discriminate X|]. destruct (X 0%nat no_env wit_rng o [] wit_good) as (o3 & h3 & Ld).
  exists v, ds, o, cs, w', f, o3, h3. auto 12.
Qed.

Print Assumptions C115_same.
Print Assumptions C115_log.
Print Assumptions C115_reloaded.
Print Assumptions C115_loadable.
Print Assumptions C115_left_behind.
Print Assumptions C115_writes.
Print Assumptions C115_fits.
Print Assumptions C115_no_replicates.
Print Assumptions C115_first_writes.
Print Assumptions C115_kernel_of_the_first.
Print Assumptions C115_saved.
Print Assumptions C115_loaded.
Print Assumptions C115_ignored.
Print Assumptions C115_patterns.
Print Assumptions C115_succeeds.
Print Assumptions C115_describes_refuted.
