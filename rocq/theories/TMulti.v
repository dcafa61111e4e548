(** C93: the analysis of a directory of configurations. *)
From Coq Require Import Reals ZArith List String Ascii Bool Arith Lia Lra.
From Verif Require Import Base PyDict Tensor MText MActivations MKernels MCommon MCca MConfig MWrap MAnalyze MMulti SKern SCca SConfig SText SWrap SAnalyze SMulti.
From Verif Require Import PTensor PDyn PKern PText PConfig PConfigX PConfigY PConfigZ PConfigW PConfigV PWrapNew PAnalyzeX PMulti PMultiX PPredictX.
Import ListNotations.
Open Scope R_scope.
Open Scope string_scope.

(** ** Where the results go *)

(** For a directory given without a slash at the end, beside the working directory; with one,
    into the working directory. *)
Theorem C93_where x y z : no_end_slash x -> a_name y -> a_name z ->
  save_dir (os_join (x ++ "/" ++ y) z) = x ++ "/ca_analysis" /\ save_dir (os_join (x ++ "/" ++ y) (z ++ "/")) = x ++ "/" ++ y ++ "/ca_analysis".
Proof. intros X Y Z. rewrite join_rel, join_rel_slash by assumption. split; [apply save_dir_file|apply save_dir_slash]; assumption. Qed.

Example C93_where_example : save_dir (os_join "/home/me/yuca" "ca_configs/") = "/home/me/yuca/ca_analysis" /\
  save_dir (os_join "/home/me/yuca" "ca_configs") = "/home/me/ca_analysis" /\ save_dir (os_join "/home/me/yuca" "/data/rules/") = "/data/ca_analysis".
Proof. repeat split; reflexivity. Qed.

(** An analyser that is given no directory does not save into the working directory. *)
Theorem C93_default_refuted : exists cwd fuel ev rng kw h ph h', dget "input_directory" kw = None /\ phanes_new fuel ev rng kw h = Ok (ph, h') /\
  forall s, save_dir (os_join cwd (ph_dir ph)) <> cwd ++ "/" ++ s.
Proof.
  destruct (wit_init []) as (o & Hi & _). exists "/w/x", 1%nat, no_env, wit_rng, wit_kw, []. eexists; eexists. split; [reflexivity|]. split.
  - unfold phanes_new. rewrite Hi. cbn [bind fst snd]. change (query_kwargs "ca_steps" (VInt 2048) wit_kw) with (VInt 2048). cbn [as_size Z.leb Z.compare bind].
    change (query_kwargs "batch_size" (VInt 128) wit_kw) with (VInt 128). cbn [as_size Z.leb Z.compare bind]. change (query_kwargs "dim" (VInt 64) wit_kw) with (VInt 64). cbn [as_size Z.leb Z.compare bind].
    change (query_kwargs "input_directory" VNone wit_kw) with VNone. cbn [bind]. reflexivity.
  - intros s. cbn [ph_dir]. change (save_dir (os_join "/w/x" "configs")) with "/w/ca_analysis". discriminate.
Qed.

(** ** What a run saves *)

(** When the configurations carry their constructor arguments: for each result path, the analysis
    of the last file whose result goes there, which is the analysis of that file alone; nothing
    else changes. *)
Theorem C93_saved fuel ev isdir listing cwd rng c ph h fs names t fs' : let my := os_join cwd (ph_dir ph) in
  obj_inv (ph_ca ph) -> listing my = Some names -> cppn_text (ph_cppn ph) = Ok t -> lacks "/" t -> (forall n, In n names -> a_name n) -> os_join my "" <> save_dir my ++ "/" ->
  holds fs my names (fun _ p => whole p) -> analyze_multiverse fuel ev isdir listing cwd rng c ph h fs = (fs', None) ->
  saved_as fs fs' (save_path my t) names (fun k n f => exists p r, fs (os_join my n) = Some (CfgFile p) /\ result_of (fun _ => True) ph p (c k) r /\ fst r <> [] /\
    f = ResFile (mkResult n (ph_cppn ph) (ph_steps ph) r)).
Proof. intros my. intros. eapply run_whole; eauto. Qed.

(** When none carries them, the analysis of the file alone in an automaton like the one the
    analyser was built with. *)
Theorem C93_bare fuel ev isdir listing cwd rng c ph h fs names t fs' : let my := os_join cwd (ph_dir ph) in
  obj_inv (ph_ca ph) -> listing my = Some names -> cppn_text (ph_cppn ph) = Ok t -> lacks "/" t -> (forall n, In n names -> a_name n) -> os_join my "" <> save_dir my ++ "/" ->
  holds fs my names (fun _ p => p_inst p = None) -> analyze_multiverse fuel ev isdir listing cwd rng c ph h fs = (fs', None) ->
  saved_as fs fs' (save_path my t) names (fun k n f => exists p r, fs (os_join my n) = Some (CfgFile p) /\ result_of (alike (ph_ca ph)) ph p (c k) r /\ fst r <> [] /\
    f = ResFile (mkResult n (ph_cppn ph) (ph_steps ph) r)).
Proof. intros my. intros. eapply run_bare; eauto. Qed.

Definition bare_fs (q : string) : option file := if String.eqb q "/w/x/d/r.npy" then Some (CfgFile (moore_pc None 1)) else None.

(** One configuration without constructor arguments. *)
Example C93_bare_example : exists ph fs', let my := os_join here (ph_dir ph) in
  obj_inv (ph_ca ph) /\ holds bare_fs my ["r.npy"] (fun _ p => p_inst p = None) /\ os_join my "" <> save_dir my ++ "/" /\
  analyze_multiverse 1 no_env (fun _ => true) (fun _ => Some ["r.npy"]) here (fun _ => wit_rng) some_chance ph [] bare_fs = (fs', None).
Proof.
  destruct (wit_init []) as (o & _ & _ & I & _ & E1 & E2 & E3). exists (small o).
  destruct (moore_load_bare 1 no_env wit_rng o 1 [] I E1 E2 (le_n _)) as (o1 & h1 & L & X1 & X2 & X3).
  destruct (moore_loaded 1 no_env wit_rng o None 1 [] o1 h1 I (le_n _) L) as (J & R & A1 & A2 & A3 & A4 & A5 & A6).
  destruct (small_reads "/w/x/d/" "r.npy" wit_rng 1 no_env (mkWorld o [] bare_fs) o (moore_pc None 1) o1 h1) as (r & O & _); auto.
  { eexists. exact R. }
  { apply (moore_accepts o1 1); auto; rewrite X3, E3; reflexivity. }
  eexists. cbv zeta. split; [exact I|]. split; [|split; [discriminate|]].
  - intros k n Hn _. destruct k as [|k]; cbn [nth_error] in Hn; [|destruct k; discriminate]. injection Hn as <-. exists (moore_pc None 1). split; reflexivity.
  - unfold analyze_multiverse. cbv zeta. change (os_join here (ph_dir (small o))) with "/w/x/d/". cbn [multi_loop]. change (contains "npy" "r.npy") with true. cbv iota.
    change (ph_ca (small o)) with o. rewrite O. reflexivity.
Qed.

(** In a mixed directory the order of the listing decides: a configuration without constructor
    arguments is analysed with the padding of the one before it. *)
Theorem C93_order_refuted : exists ph h fs names names' fs1 fs2, names' = rev names /\ obj_inv (ph_ca ph) /\
  let run ns := analyze_multiverse 1 no_env (fun _ => true) (fun _ => Some ns) here (fun _ => wit_rng) some_chance ph h fs in
  run names = (fs1, None) /\ run names' = (fs2, Some RuntimeError) /\
  exists q, (exists r, fs1 q = Some (ResFile r)) /\ fs2 q = None.
Proof.
  destruct (wit_init []) as (o & _ & _ & I & _ & E1 & E2 & E3). destruct (order_runs o [] I E1 E2 E3) as (fs1 & fs2 & A & B & C & D).
  exists (small o), [], order_fs, ["b.npy"; "a.npy"], ["a.npy"; "b.npy"], fs1, fs2. split; [reflexivity|]. split; [exact I|]. cbv zeta. split; [exact A|]. split; [exact B|]. eauto.
Qed.

(** The run reaches the end if every configuration can be analysed alone. *)
Theorem C93_complete fuel ev isdir listing cwd rng c ph h fs names t : let my := os_join cwd (ph_dir ph) in
  obj_inv (ph_ca ph) -> listing my = Some names -> cppn_text (ph_cppn ph) = Ok t -> lacks "/" t -> (forall n, In n names -> a_name n) -> os_join my "" <> save_dir my ++ "/" ->
  (0 < fuel)%nat -> isdir (save_dir my) = true -> (forall k, good_rng (rng k)) ->
  holds fs my names (fun k p => whole p /\ exists r, fst r <> [] /\ result_of (fun _ => True) ph p (c k) r) ->
  exists fs', analyze_multiverse fuel ev isdir listing cwd rng c ph h fs = (fs', None).
Proof. intros my. intros. eapply run_complete; eauto. Qed.

(** A directory with one configuration and another file. *)
Definition one_fs (q : string) : option file := if String.eqb q "/w/x/d/r.npy" then Some (CfgFile (moore_pc (Some (mode_kw "zeros")) 1)) else None.

Example C93_complete_example : exists ph, let my := os_join here (ph_dir ph) in
  obj_inv (ph_ca ph) /\ cppn_text (ph_cppn ph) = Ok "False" /\ lacks "/" "False" /\ (forall n, In n ["notes.txt"; "r.npy"] -> a_name n) /\ os_join my "" <> save_dir my ++ "/" /\
  (forall k : nat, good_rng wit_rng) /\ holds one_fs my ["notes.txt"; "r.npy"] (fun k p => whole p /\ exists r, fst r <> [] /\ result_of (fun _ => True) ph p (some_chance k) r).
Proof.
  destruct (wit_init []) as (o & _ & _ & I & _). exists (small o). cbv zeta. split; [exact I|]. split; [reflexivity|].
  split; [unfold lacks; cbn [every]; repeat split; discriminate|]. split.
  { intros n [<-|[<-|[]]]; (split; [discriminate|]); unfold lacks; cbn [every]; repeat split; discriminate. }
  split; [discriminate|]. split; [intros _; exact wit_good|].
  intros k n Hn C. destruct k as [|[|k]]; cbn [nth_error] in Hn; [| |destruct k; discriminate].
  - injection Hn as <-. apply contains_occurs in C. discriminate.
  - injection Hn as <-. exists (moore_pc (Some (mode_kw (pmode_str Zeros))) 1). split; [reflexivity|].
    assert (Wh : whole (moore_pc (Some (mode_kw (pmode_str Zeros))) 1)) by (eexists; repeat split; reflexivity). split; [exact Wh|].
    destruct (moore_load_whole 0 no_env wit_rng o Zeros 1 [] (le_n _) wit_good) as (o1 & h1 & L & E1 & E2 & E3).
    destruct (moore_loaded _ _ _ _ _ _ _ _ _ I (le_n _) L) as (J & R & A1 & A2 & A3 & A4 & A5 & A6).
    destruct (proj2 (universe_accepts (small o) o1 (some_chance 1) 1 J eq_refl eq_refl (le_n _) (le_n _) (le_n _))) as [r U].
    { split; [exists 1%nat; exact R|]. apply (moore_accepts o1 1); auto; rewrite E3; reflexivity. }
    exists r. split; [exact (universe_nonempty (small o) o1 _ r (le_n _) U)|]. exact (result_whole _ _ _ _ _ _ _ _ _ _ _ Wh I L U).
Qed.

(** ** Names *)

Theorem C93_names my t a b : lacks "/" t -> a_name a -> a_name b -> (save_path my t a = save_path my t b <-> stem a = stem b).
Proof. exact (save_path_eq my t a b). Qed.

(** A configuration and its backup: both are analysed, one result is lost. *)
Theorem C93_each_refuted : exists ph h fs names fs', obj_inv (ph_ca ph) /\ NoDup names /\ (forall n, In n names -> a_name n /\ occurs "npy" n) /\
  analyze_multiverse 1 no_env (fun _ => true) (fun _ => Some names) here (fun _ => wit_rng) some_chance ph h fs = (fs', None) /\
  exists n, In n names /\ forall q r, fs' q = Some (ResFile r) -> re_name r <> n.
Proof.
  destruct (wit_init []) as (o & _ & _ & I & _). destruct (clash_run o [] I) as (fs1 & A & B). exists (small o), [], clash_fs, ["r.npy"; "r.npy~"], fs1. split; [exact I|]. split.
  { constructor; [intros [E|[]]; discriminate|]. constructor; [intros []|constructor]. }
  split. { intros n [<-|[<-|[]]]; (split; [split; [discriminate|unfold lacks; cbn [every]; repeat split; discriminate]|apply contains_occurs; reflexivity]). }
  split; [exact A|]. exists "r.npy". split; [left; reflexivity|]. intros q r Hq E. apply B in Hq. congruence.
Qed.

(** The configurations themselves are never overwritten, whether or not the run reaches the end. *)
Theorem C93_reads fuel ev isdir listing cwd rng c ph h fs names t fs' e : let my := os_join cwd (ph_dir ph) in
  listing my = Some names -> cppn_text (ph_cppn ph) = Ok t -> lacks "/" t -> (forall n, In n names -> a_name n) -> os_join my "" <> save_dir my ++ "/" ->
  analyze_multiverse fuel ev isdir listing cwd rng c ph h fs = (fs', e) -> forall n, a_name n -> fs' (os_join my n) = fs (os_join my n).
Proof. intros my Hl Ht Hs Hn Hd H n N. exact (run_reads fuel ev isdir listing cwd ph rng c h fs names t Hl Ht Hs Hn Hd fs' e n H N). Qed.

(** ** What ends a run *)

(** An exception: the results of the files before remain, the files after are not looked at. *)
Theorem C93_stop fuel ev isdir listing cwd rng c ph h fs names fs' e : let my := os_join cwd (ph_dir ph) in
  let run ns := analyze_multiverse fuel ev isdir (fun _ => Some ns) cwd rng c ph h fs in
  listing my = Some names -> analyze_multiverse fuel ev isdir listing cwd rng c ph h fs = (fs', Some e) ->
  exists a n b, names = (a ++ n :: b)%list /\ occurs "npy" n /\ run a = (fs', None) /\ forall b', run (a ++ n :: b')%list = (fs', Some e).
Proof.
  intros my run Hl H. rewrite (run_loop _ _ _ _ _ _ _ _ _ _ _ Hl) in H. fold my in H. destruct (multi_loop fuel ev isdir ph my rng c names 0 (mkWorld (ph_ca ph) h fs)) as [w e'] eqn:L. cbn [fst snd] in H. injection H as <- ->.
  apply loop_split in L as (a & n & b & E & C & L & O). exists a, n, b. split; [exact E|]. split; [apply contains_occurs; exact C|]. unfold run. split.
  - rewrite (run_loop fuel ev isdir (fun _ => Some a) cwd ph rng c h fs a eq_refl). fold my. rewrite L. reflexivity.
  - intros b'. rewrite (run_loop fuel ev isdir (fun _ => Some (a ++ n :: b')%list) cwd ph rng c h fs _ eq_refl). fold my. rewrite (loop_app _ _ _ _ _ _ _ _ _ _ _ _ L), loop_cons, C. rewrite O. reflexivity.
Qed.

(** Without a directory for the results, or with no steps, nothing is saved. *)
Theorem C93_nothing fuel ev isdir listing cwd rng c ph h fs fs' e : let my := os_join cwd (ph_dir ph) in
  isdir (save_dir my) = false \/ ph_steps ph = 0%nat -> analyze_multiverse fuel ev isdir listing cwd rng c ph h fs = (fs', e) ->
  fs' = fs /\ (e = None -> exists names, listing my = Some names /\ forall n, In n names -> ~ occurs "npy" n).
Proof.
  intros my D H. assert (N : forall rg ch w n w', one_file fuel ev isdir ph my rg ch w n <> Ok w').
  { intros rg ch w n w'. destruct D; [apply one_no_dir|apply one_zero]; assumption. }
  unfold analyze_multiverse in H. cbv zeta in H. fold my in H. destruct (listing my) as [names|] eqn:L; [|injection H as <- <-; split; [reflexivity|discriminate]].
  destruct (multi_loop fuel ev isdir ph my rng c names 0 (mkWorld (ph_ca ph) h fs)) as [w e'] eqn:E. cbn [fst snd] in H. injection H as <- <-.
  destruct (loop_none _ _ _ _ _ _ _ _ N _ _ _ _ E) as [-> Z]. split; [reflexivity|]. intros Y. exists names. split; [reflexivity|]. intros n Hn O. apply contains_occurs in O. rewrite (Z Y n Hn) in O. discriminate.
Qed.

(** A result of an earlier run among the configurations ends the run. *)
Theorem C93_reread fuel ev isdir listing cwd rng c ph h fs names n r : let my := os_join cwd (ph_dir ph) in
  obj_inv (ph_ca ph) -> listing my = Some (n :: names) -> occurs "npy" n -> fs (os_join my n) = Some (ResFile r) ->
  analyze_multiverse fuel ev isdir listing cwd rng c ph h fs = (fs, Some KeyError).
Proof.
  intros my I Hl C F. rewrite (run_loop _ _ _ _ _ _ _ _ _ _ _ Hl). fold my. rewrite loop_cons. apply contains_occurs in C. rewrite C.
  rewrite (one_result fuel ev isdir ph my (rng 0%nat) (c 0%nat) (mkWorld (ph_ca ph) h fs) n r I F). reflexivity.
Qed.

(** The directory of the results given as the directory of the configurations. *)
Example C93_reread_example : exists o r, obj_inv o /\ occurs "npy" "rcppn0_analysis.npy" /\
  let fs := fun q => if String.eqb q "/w/x/ca_analysis/rcppn0_analysis.npy" then Some (ResFile r) else None in
  analyze_multiverse 1 no_env (fun _ => true) (fun _ => Some ["rcppn0_analysis.npy"]) here (fun _ => wit_rng) some_chance (mkPhanes o 1 1 2 (VInt 0) "ca_analysis/") [] fs = (fs, Some KeyError).
Proof.
  destruct (wit_init []) as (o & _ & _ & I & _). exists o, (mkResult "r.npy" (VInt 0) 1 ([], [])). split; [exact I|].
  assert (C : occurs "npy" "rcppn0_analysis.npy") by (apply contains_occurs; reflexivity). split; [exact C|]. cbv zeta.
  eapply (C93_reread 1 no_env (fun _ => true) _ here _ _ (mkPhanes o 1 1 2 (VInt 0) "ca_analysis/") [] _ [] "rcppn0_analysis.npy"); [exact I|reflexivity|exact C|reflexivity].
Qed.

(** ** Which automata can be analysed *)

(** On grids of even size: those with one external channel whose kernel fits the grid and whose
    functions are as many as the internal channels and defined. *)
Theorem C93_accepts ph o c b : obj_inv o -> truthy (ph_cppn ph) = false -> ph_dim ph = (2 * b)%nat -> (0 < b)%nat -> (0 < ph_batch ph)%nat -> (0 < ph_steps ph)%nat ->
  ((exists r, universe_of ph o c = Ok r) <->
   (exists r, o_radius o = VInt (Z.of_nat r)) /\ ext (o_core o) = 1%nat /\
   pad_allowed (cl_m (idl (o_core o))) (2 * b) (cl_p (idl (o_core o))) = true /\ pad_allowed (cl_m (nbl (o_core o))) (2 * b) (cl_p (nbl (o_core o))) = true /\
   List.length (gens (o_core o)) = int_ (o_core o) /\ List.length (pers (o_core o)) = int_ (o_core o) /\ acts_ok (gens (o_core o)) = Ok tt /\ acts_ok (pers (o_core o)) = Ok tt).
Proof. exact (universe_accepts ph o c b). Qed.

Theorem C93_channels ph o c b : obj_inv o -> truthy (ph_cppn ph) = false -> ph_dim ph = (2 * b)%nat -> (0 < b)%nat -> (0 < ph_steps ph)%nat ->
  (exists r, o_radius o = VInt (Z.of_nat r)) -> ext (o_core o) <> 1%nat -> universe_of ph o c = Err RuntimeError.
Proof. intros. eapply universe_refused; eauto. Qed.

Definition pair_kw : dict := [("kernel_radius", VInt 1); ("kernel_peaks", VInt 1); ("external_channels", VInt 2)].

(** An automaton with two external channels. *)
Example C93_channels_example : exists o, obj_inv o /\ o_radius o = VInt (Z.of_nat 1) /\ ext (o_core o) = 2%nat /\ universe_of (small o) o (some_chance 0) = Err RuntimeError.
Proof.
  destruct (fresh_ok wit_dr pair_kw Circular 2 1 (1 / 10) 1 1) as [o F]; try reflexivity; try lia.
  { intros [|[|i]]; cbn [dr_k wit_dr]; lra. }
  apply fresh_inv in F as (I & _ & _ & R & _ & _ & _ & Ei & _). exists o. split; [exact I|]. change (query_kwargs "kernel_radius" (VInt 13) pair_kw) with (VInt (Z.of_nat 1)) in R. split; [exact R|].
  assert (E : ext (o_core o) = 2%nat).
  { destruct I as (_ & _ & _ & _ & _ & _ & _ & E & _). cbv zeta in E. rewrite Ei in E. change (as_size (query_kwargs "external_channels" (VInt 1) pair_kw)) with (Ok 2%nat : res nat) in E. apply Ok_inj in E. auto. }
  split; [exact E|]. apply (C93_channels (small o) o (some_chance 0) 1); auto; [eexists; exact R|]. rewrite E. discriminate.
Qed.

Theorem C93_odd ph o c b r : truthy (ph_cppn ph) = false -> ph_dim ph = (2 * b + 1)%nat -> (2 <= b)%nat -> universe_of ph o c <> Ok r.
Proof.
  intros T D B H. unfold universe_of in H. apply bind_ok in H as (x & _ & H). unfold first_grid in H. rewrite T, D, start_random_odd in H by exact B. discriminate.
Qed.

(** The numbers of steps, grids and cells asked for, or 2048, 128 and 64. *)
Theorem C93_arguments fuel ev rng kw h ph h' : phanes_new fuel ev rng kw h = Ok (ph, h') ->
  VInt (Z.of_nat (ph_steps ph)) = match dget "ca_steps" kw with Some v => v | None => VInt 2048 end /\
  VInt (Z.of_nat (ph_batch ph)) = match dget "batch_size" kw with Some v => v | None => VInt 128 end /\
  VInt (Z.of_nat (ph_dim ph)) = match dget "dim" kw with Some v => v | None => VInt 64 end /\
  ph_cppn ph = match dget "use_cppn" kw with Some v => v | None => VBool false end /\
  exists o, init fuel ev rng kw h = Ok (o, h') /\ ph_ca ph = o.
Proof.
  assert (Z : forall v n, as_size v = Ok n -> VInt (Z.of_nat n) = v).
  { intros v n H. destruct v; try discriminate. cbn [as_size] in H. destruct (Z.leb_spec 0 z); [|discriminate]. apply Ok_inj in H. subst n. rewrite Z2Nat.id by assumption. reflexivity. }
  unfold phanes_new. intros H. apply bind_ok in H as ([o h1] & Ho & H). apply bind_ok in H as (a & Ha & H). apply bind_ok in H as (b & Hb & H). apply bind_ok in H as (c & Hc & H). apply bind_ok in H as (d & _ & H).
  apply Ok_inj in H. apply pair_equal_spec in H as [<- <-]. cbn [ph_steps ph_batch ph_dim ph_cppn ph_ca fst snd]. split; [exact (Z _ _ Ha)|]. split; [exact (Z _ _ Hb)|]. split; [exact (Z _ _ Hc)|]. split; [reflexivity|]. exists o. split; [exact Ho|reflexivity].
Qed.

(** What is measured: the run of the automaton from the first grid, up to the first empty one, with windows as
    wide as a kernel of the automaton's radius. *)
Theorem C93_measured ph o c ms last : cca_wf (o_core o) -> universe_of ph o c = Ok (ms, last) -> (forall g, first_grid ph c = Ok g -> twf g) ->
  exists r g m (u : nat -> tensor), o_radius o = VInt (Z.of_nat r) /\ first_grid ph c = Ok g /\ u 0%nat = g /\ (m <= ph_steps ph)%nat /\ ((m < ph_steps ph)%nat -> density (u m) = 0) /\
    List.length ms = m /\ List.length last = tB g /\ forall k, (k < m)%nat -> cca_forward (o_core o) (u k) = Ok (u (S k)) /\
      exists ent, spatial_all (2 * r + 1) (u (S k)) = Ok ent /\ lmean ent = Ok (me_entropy (nth k ms (mkMeasure 0 0 (mkStats 0 0 0 0) 0 0))) /\ pstd ent = Ok (me_spread (nth k ms (mkMeasure 0 0 (mkStats 0 0 0 0) 0 0))) /\
        exists t, auto_table (u (S k)) (u k) = Ok t /\ summary (tdata t) (me_auto (nth k ms (mkMeasure 0 0 (mkStats 0 0 0 0) 0 0))).
Proof.
  intros W H Hg. unfold universe_of in H. apply bind_ok in H as (r & Hr & H). apply bind_ok in H as (g & G & H).
  assert (Z : o_radius o = VInt (Z.of_nat r)). { destruct (o_radius o); try discriminate. cbn [as_size] in Hr. destruct (Z.leb_spec 0 z); [|discriminate]. apply Ok_inj in Hr. subst r. rewrite Z2Nat.id by assumption. reflexivity. }
  assert (K : forall (s : unit) u s' u', tB u = tB g -> twf u -> (let* v := cca_forward (o_core o) u in Ok (tt, v)) = Ok (s', u') -> tB u' = tB g /\ twf u').
  { intros s u s' u' E1 E2 E3. apply bind_ok in E3 as (v & V & E3). apply Ok_inj in E3. apply pair_equal_spec in E3 as [_ <-].
    destruct (cca_shape _ _ _ W E2 V) as [X1 X2]. unfold shape in X1. injection X1 as X1 _ _ _. split; [congruence|exact X2]. }
  destruct (analyze_inv unit _ _ (tB g) K _ _ _ _ _ eq_refl (Hg g G) H) as (m & S_ & u & A1 & _ & A3 & _ & A5 & A6 & A7 & A8 & _ & A10 & _).
  exists r, g, m, u. split; [exact Z|]. split; [exact G|]. split; [exact A3|]. split; [exact A1|]. split; [exact A8|]. split; [exact A6|]. split; [exact A10|]. intros k Hk. split.
  - specialize (A5 k Hk). apply bind_ok in A5 as (v & V & E). apply Ok_inj in E. apply pair_equal_spec in E as [_ <-]. exact V.
  - destruct (A7 k Hk) as [a M]. apply measure_inv in M as (_ & _ & _ & _ & _ & _ & _ & _ & _ & M1 & ent & M2 & M3 & M4). exists ent. auto.
Qed.

(** An integer given for use_cppn stands in the name of the results in decimal, with its sign. *)
Theorem C93_number z t : cppn_text (VInt z) = Ok t ->
  exists d, every is_digit d /\ t = (if (z <? 0)%Z then "-" ++ d else d) /\ z = (if (z <? 0)%Z then - Z.of_N (number_of d) else Z.of_N (number_of d))%Z.
Proof.
  cbn [cppn_text]. intros H. apply Ok_inj in H. subst t. destruct (Z.ltb_spec z 0).
  - exists (dec (Z.to_N (- z))). rewrite dec_number, Z2N.id by lia. split; [apply dec_digits|]. split; [reflexivity|lia].
  - exists (dec (Z.to_N z)). rewrite dec_number, Z2N.id by lia. split; [apply dec_digits|]. split; reflexivity.
Qed.

(** Given as a truth value it stands there as Python prints it, so no two arguments of these kinds share a name. *)
Theorem C93_truth b : cppn_text (VBool b) = Ok (if b then "True" else "False").
Proof. destruct b; reflexivity. Qed.

Theorem C93_distinct a b t : cppn_text a = Ok t -> cppn_text b = Ok t ->
  match a, b with VBool x, VBool y => x = y | VInt x, VInt y => x = y | VBool _, VInt _ | VInt _, VBool _ => False | _, _ => True end.
Proof.
  intros A B. assert (D : forall z x, cppn_text (VInt z) = Ok t -> cppn_text (VBool x) = Ok t -> False).
  { intros z x Z X. destruct (C93_number z t Z) as (d & F & E & _). rewrite C93_truth in X. apply Ok_inj in X. rewrite <- X in E.
    destruct (z <? 0)%Z, x; cbn [append] in E; try discriminate E; subst d; cbn [every] in F; destruct F as [F _]; cbv in F; destruct F as [F1 F2]; first [now apply F1|now apply F2]. }
  destruct a; try exact I; destruct b; try exact I.
  - rewrite C93_truth in A, B. apply Ok_inj in A. apply Ok_inj in B. destruct b0, b; congruence.
  - exact (D _ _ B A).
  - exact (D _ _ A B).
  - destruct (C93_number _ _ A) as (d1 & F1 & E1 & Z1), (C93_number _ _ B) as (d2 & F2 & E2 & Z2). subst t.
    destruct (z <? 0)%Z, (z0 <? 0)%Z; cbn [append] in E2.
    + injection E2 as <-. congruence.
    + subst d2. cbn [every] in F2. destruct F2 as [[F2 _] _]. exfalso. now apply F2.
    + rewrite E2 in F1. cbn [append every] in F1. destruct F1 as [[F1 _] _]. exfalso. now apply F1.
    + subst d2. congruence.
Qed.

Example C93_number_example : cppn_text (VInt (-12)) = Ok "-12".
Proof. reflexivity. Qed.

Print Assumptions C93_where.
Print Assumptions C93_default_refuted.
Print Assumptions C93_saved.
Print Assumptions C93_bare.
Print Assumptions C93_order_refuted.
Print Assumptions C93_complete.
Print Assumptions C93_names.
Print Assumptions C93_each_refuted.
Print Assumptions C93_reads.
Print Assumptions C93_stop.
Print Assumptions C93_nothing.
Print Assumptions C93_reread.
Print Assumptions C93_accepts.
Print Assumptions C93_channels.
Print Assumptions C93_odd.
Print Assumptions C93_arguments.
Print Assumptions C93_measured.
Print Assumptions C93_number.
Print Assumptions C93_truth.
Print Assumptions C93_distinct.
