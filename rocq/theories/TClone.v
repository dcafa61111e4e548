(** Property theorems about cloning (C78 - C80). *)
From Coq Require Import Reals ZArith Lra Lia List String Ascii Bool Arith.
From Verif Require Import Base Tensor MText MWrap MCommon MNca MPredict MClone SGrid SText SPredict SClone PTensor PText PPredictY PNca PClone.
Import ListNotations.
Open Scope R_scope.

(** ** C78: how often and with which networks a clone is attempted *)

(** The number of hidden channels starts as given, whatever the maximum; later it is a quarter
    more each time, rounded down, and at most the maximum. So up to 3 channels never become more,
    and from 4 on it grows in every iteration until it reaches the maximum and stays there. *)
Theorem C78_widths : forall most h i,
  width most h 0 = h /\ (width most h (S i) <= most)%nat /\
  ((h <= 3)%nat -> (h <= most)%nat -> width most h i = h) /\
  ((4 <= width most h i)%nat -> (width most h i < most)%nat -> (width most h i < width most h (S i))%nat) /\
  ((4 <= h)%nat -> (4 <= most)%nat -> (most - h < i)%nat -> width most h i = most).
Proof.
  intros most h i. split; [reflexivity|]. split; [apply width_cap|]. split; [apply width_small|]. split; [apply width_grows|].
  intros H1 H2. apply (width_reaches most h H1 H2).
Qed.

Example C78_widths_case : map (width 64 32) (seq 0 6) = [32; 40; 50; 62; 64; 64]%nat.
Proof. reflexivity. Qed.

(** For every configuration max_iterations networks are trained, the j-th of them with the j-th
    number of hidden channels, whether or not the threshold has been met before; each for
    max_steps steps or up to the first step whose error is below the threshold. *)
Theorem C78_iterations : forall Auto W fresh error learn most steps iters threshold c ca h (s : clone_state W),
  let s' := clone_iters Auto W fresh error learn most steps threshold iters 0 c ca h (mkCl W (cl_nets W s) None (cl_ref W s)) in
  exists ks,
    cl_nets W s' = (cl_nets W s ++ map (fun j => after (learn c ca j) (fresh c ca j (width most h j)) (ks j)) (seq 0 iters))%list /\
    forall j, (j < iters)%nat ->
      runs_for threshold steps (fun k => error c ca j k (after (learn c ca j) (fresh c ca j (width most h j)) k)) (ks j).
Proof.
  intros Auto W fresh error learn most steps iters threshold c ca h s s'.
  destruct (clone_iters_spec Auto W fresh error learn most steps threshold c ca iters 0 h (mkCl W (cl_nets W s) None (cl_ref W s))) as (ks & Rk & Nk & _).
  exists ks. split; [exact Nk|exact Rk].
Qed.

(** A small case: networks are numbers that the optimiser increments; the errors are 5, 2, 3. *)
Definition ex_load (s : string) : res unit := if String.eqb s "missing" then Err FileNotFoundError else Ok tt.
Definition ex_fresh (c : nat) (_ : unit) (i h : nat) : nat := (100 * c + 10 * i)%nat.
Definition ex_error (_ : nat) (_ : unit) (i k _ : nat) : option R := if Nat.eqb i 0 then nth_error [5; 2; 3] k else Some 4.
Definition ex_learn (_ : nat) (_ : unit) (_ _ w : nat) : nat := S w.

Lemma below_lt x y : x < y -> below (Some x) (Some y) = true.
Proof. intros H. cbn [below]. destruct (Rlt_dec x y); [reflexivity|contradiction]. Qed.
Lemma below_ge x y : y <= x -> below (Some x) (Some y) = false.
Proof. intros H. cbn [below]. destruct (Rlt_dec x y); [lra|reflexivity]. Qed.
Lemma below_inf x : below (Some x) None = true.
Proof. reflexivity. Qed.

Lemma ex_step thr m k c i a ib nets best ref w : nth_error nets a = Some w ->
  clone_steps unit nat ex_error ex_learn thr (S m) k c tt i a ib (mkCl nat nets best ref) =
  let e := ex_error c tt i k w in
  let nets' := set_net nat a (S w) nets in
  let better := below e ib in
  let overall := below e best in
  let done := below e (Some thr) in
  if better then if overall then if done then mkCl nat nets' e (Some a) else clone_steps unit nat ex_error ex_learn thr m (S k) c tt i a e (mkCl nat nets' e (Some a))
                 else if done then mkCl nat nets' best ref else clone_steps unit nat ex_error ex_learn thr m (S k) c tt i a e (mkCl nat nets' best ref)
  else clone_steps unit nat ex_error ex_learn thr m (S k) c tt i a ib (mkCl nat nets' best ref).
Proof. intros H. cbn [clone_steps cl_nets cl_best cl_ref]. rewrite H. cbv zeta. set (e := ex_error c tt i k w). destruct (below e ib), (below e best), (below e (Some thr)); reflexivity. Qed.

(** One iteration of three steps with the errors 5, 2, 3, and one with the errors 4, 4, 4. *)
Lemma ex_first thr c nets ref : thr <= 2 ->
  clone_steps unit nat ex_error ex_learn thr 3 0 c tt 0 (List.length nets) None (mkCl nat (nets ++ [100 * c]%nat) None ref) =
  mkCl nat (nets ++ [3 + 100 * c]%nat) (Some 2) (Some (List.length nets)).
Proof.
  intros H. assert (N : forall w, nth_error (nets ++ [w]) (List.length nets) = Some w) by (intros w; rewrite nth_error_app2, Nat.sub_diag by lia; reflexivity).
  assert (T : forall v w, set_net nat (List.length nets) w (nets ++ [v]) = (nets ++ [w])%list) by (intros; apply set_net_last).
  rewrite (ex_step _ _ _ _ _ _ _ _ _ _ _ (N _)). cbv zeta. rewrite T. change (ex_error c tt 0 0 (100 * c)) with (Some 5). rewrite !below_inf, below_ge by lra.
  rewrite (ex_step _ _ _ _ _ _ _ _ _ _ _ (N _)). cbv zeta. rewrite T. change (ex_error c tt 0 1 (S (100 * c))) with (Some 2). rewrite !below_lt, below_ge by lra.
  rewrite (ex_step _ _ _ _ _ _ _ _ _ _ _ (N _)). cbv zeta. rewrite T. change (ex_error c tt 0 2 (S (S (100 * c)))) with (Some 3). rewrite below_ge by lra.
  reflexivity.
Qed.

Lemma ex_first_done c nets ref :
  clone_steps unit nat ex_error ex_learn (5 / 2) 3 0 c tt 0 (List.length nets) None (mkCl nat (nets ++ [100 * c]%nat) None ref) =
  mkCl nat (nets ++ [2 + 100 * c]%nat) (Some 2) (Some (List.length nets)).
Proof.
  assert (N : forall w, nth_error (nets ++ [w]) (List.length nets) = Some w) by (intros w; rewrite nth_error_app2, Nat.sub_diag by lia; reflexivity).
  assert (T : forall v w, set_net nat (List.length nets) w (nets ++ [v]) = (nets ++ [w])%list) by (intros; apply set_net_last).
  rewrite (ex_step _ _ _ _ _ _ _ _ _ _ _ (N _)). cbv zeta. rewrite T. change (ex_error c tt 0 0 (100 * c)) with (Some 5). rewrite !below_inf, below_ge by lra.
  rewrite (ex_step _ _ _ _ _ _ _ _ _ _ _ (N _)). cbv zeta. rewrite T. change (ex_error c tt 0 1 (S (100 * c))) with (Some 2). rewrite !below_lt by lra.
  reflexivity.
Qed.

Lemma ex_second c i nets w ref : (0 < i)%nat ->
  clone_steps unit nat ex_error ex_learn (5 / 2) 3 0 c tt i (List.length nets) None (mkCl nat (nets ++ [w]) (Some 2) ref) =
  mkCl nat (nets ++ [3 + w]%nat) (Some 2) ref.
Proof.
  intros Hi. assert (N : forall w, nth_error (nets ++ [w]) (List.length nets) = Some w) by (intros v; rewrite nth_error_app2, Nat.sub_diag by lia; reflexivity).
  assert (T : forall v w, set_net nat (List.length nets) w (nets ++ [v]) = (nets ++ [w])%list) by (intros; apply set_net_last).
  assert (E : forall k v, ex_error c tt i k v = Some 4) by (intros; unfold ex_error; destruct i; [lia|reflexivity]).
  rewrite (ex_step _ _ _ _ _ _ _ _ _ _ _ (N _)). cbv zeta. rewrite T, E, below_inf, !below_ge by lra.
  rewrite (ex_step _ _ _ _ _ _ _ _ _ _ _ (N _)). cbv zeta. rewrite T, E, below_ge by lra.
  rewrite (ex_step _ _ _ _ _ _ _ _ _ _ _ (N _)). cbv zeta. rewrite T, E, below_ge by lra.
  reflexivity.
Qed.

Example C78_iterations_case :
  cl_nets nat (clone_iters unit nat ex_fresh ex_error ex_learn 8 3 (5 / 2) 2 0 0 tt 4 (mkCl nat [] None None)) = [2; 13]%nat.
Proof.
  unfold clone_iters at 1. cbn [cl_nets cl_best cl_ref]. unfold ex_fresh.
  rewrite (ex_first_done 0 [] None : clone_steps unit nat ex_error ex_learn (5 / 2) 3 0 0 tt 0 (List.length (@nil nat)) None (mkCl nat ([] ++ [100 * 0 + 10 * 0]%nat)%list None None) = _).
  cbn [cl_nets cl_best cl_ref]. exact (f_equal (cl_nets nat) (ex_second 0 1 [2 + 100 * 0]%nat (100 * 0 + 10 * 1)%nat (Some 0%nat) ltac:(lia))).
Qed.

(** ** C79: what is saved *)

(** The best error of a configuration is the least of all errors measured, and the weights saved
    are those of the first iteration that attained it, as they were after its last step: at least
    one step of the optimiser later than the weights whose error was measured. If no error is a
    number, the weights found for an earlier configuration are saved once more. *)
Theorem C79_saved : forall Auto W fresh error learn most steps iters threshold c ca h (s : clone_state W),
  (forall a, cl_ref W s = Some a -> (a < List.length (cl_nets W s))%nat) ->
  let s' := clone_iters Auto W fresh error learn most steps threshold iters 0 c ca h (mkCl W (cl_nets W s) None (cl_ref W s)) in
  let wt := fun j => after (learn c ca j) (fresh c ca j (width most h j)) in
  let e := fun j k => error c ca j k (wt j k) in
  exists ks, (forall j, (j < iters)%nat -> runs_for threshold steps (e j) (ks j)) /\
    (cl_best W s' = None /\ held W s' = held W s /\ (forall j k, (j < iters)%nat -> (k < ks j)%nat -> e j k = None) \/
     exists x j, (j < iters)%nat /\ cl_best W s' = Some x /\ held W s' = Some (wt j (ks j)) /\
       (exists k, (k < ks j)%nat /\ e j k = Some x) /\
       (forall j' k y, (j' < iters)%nat -> (k < ks j')%nat -> e j' k = Some y -> x <= y) /\
       (forall j' k, (j' < j)%nat -> (k < ks j')%nat -> e j' k <> Some x)).
Proof.
  intros Auto W fresh error learn most steps iters threshold c ca h s Hr s' wt e.
  destruct (clone_config Auto W fresh error learn most steps iters threshold c ca h s Hr) as (ks & Rk & _ & _ & C).
  exists ks. split; [exact Rk|]. destruct C as [C|(x & j & C1 & C2 & C3 & _ & C4)]; [left; exact C|].
  right. exists x, j. split; [exact C1|]. split; [exact C2|]. split; [exact C3|exact C4].
Qed.

(** The error 2 is measured for the weights 1, but the weights 3 are saved. *)
Example C79_saved_case :
  let s := clone_iters unit nat ex_fresh ex_error ex_learn 8 3 1 1 0 0 tt 4 (mkCl nat [] None None) in
  cl_best nat s = Some 2 /\ held nat s = Some 3%nat /\ ex_error 0 tt 0 1 1 = Some 2.
Proof.
  intros s. assert (E : s = mkCl nat [3]%nat (Some 2) (Some 0%nat)).
  { unfold s, clone_iters. exact (ex_first 1 0 [] None ltac:(lra)). }
  rewrite E. repeat split.
Qed.

(** The minimised loss and the recorded error are the same number: the mean relative deviation,
    not negative, and 0 exactly for equal tensors. *)
Theorem C79_error : forall t p, twf t -> twf p -> shape t = shape p -> (0 < tB t * tC t * tH t * tW t)%nat ->
  clone_loss t p = Ok (deviation t p) /\ relative_error t p = Ok (deviation t p) /\ 0 <= deviation t p /\ (deviation t p = 0 <-> p = t).
Proof.
  intros t p Tt Tp Sh N. destruct (clone_loss_eq t p Tt Tp Sh N) as [A B]. split; [exact A|]. split; [exact B|].
  split; [apply deviation_nonneg; exact N|apply deviation_zero; assumption].
Qed.

Example C79_error_case : deviation (mkT 1 1 1 1 [0]) (mkT 1 1 1 1 [1]) = 10 ^ 9.
Proof.
  unfold deviation. cbn [tB tC tH tW rsum]. change (get (mkT 1 1 1 1 [1]) 0 0 0 0) with 1. change (get (mkT 1 1 1 1 [0]) 0 0 0 0) with 0.
  rewrite Rabs_R0, Rminus_0_r, Rabs_R1. cbn [Nat.mul INR Nat.add pow]. field.
Qed.

(** The kernels of the automaton that is cloned are stored in the network but have no effect on
    its updates. *)
Theorem C79_kernels_unused : forall s k s', take_kernel s k = Ok s' ->
  nc_kern s' = match as_kernel k with Ok t => t | Err _ => nc_kern s end /\
  (forall tr keep u, nca_forward tr keep s' u = nca_forward tr keep s u) /\
  (forall tr keep u m, nca_frame tr keep s' u m = nca_frame tr keep s u m) /\
  (forall tr keep a b, nca_update tr keep s' a b = nca_update tr keep s a b) /\ nca_get_params s' = nca_get_params s /\
  nc_ext s' = nc_ext s /\ nc_int s' = nc_int s /\ nc_hid s' = nc_hid s /\ nc_pm s' = nc_pm s /\ nc_idl s' = nc_idl s /\ nc_nbl s' = nc_nbl s /\
  nc_kpar s' = nc_kpar s /\ nc_cfg s' = nc_cfg s /\ nc_radius s' = nc_radius s /\ nc_dt s' = nc_dt s /\ nc_drop s' = nc_drop s.
Proof.
  intros s k s' H. unfold take_kernel in H. destruct (as_kernel k) as [t|]; [|discriminate]. cbn [bind] in H. injection H as <-. repeat split.
Qed.

Example C79_kernels_case : exists s', take_kernel ex_nca (K4 (mkT 1 1 3 3 [0; 1; 0; 1; 0; 1; 0; 1; 0])) = Ok s' /\ nc_kern s' <> nc_kern ex_nca.
Proof.
  eexists. split; [reflexivity|]. cbn [nc_kern]. intros E. apply (f_equal (fun t => nth 1 (tdata t) 7)) in E. cbn in E. lra.
Qed.

(** ** C80: where the clones are saved *)

(** The placeholder "ca_config" in the path is replaced by the name of the configuration without
    its extension. *)
Theorem C80_placeholder : forall path cfg,
  (occurs "ca_config" path -> replaced "ca_config" (path_stem cfg) path (next_path path cfg)) /\
  (~ occurs "ca_config" path -> next_path path cfg = path) /\
  (lacks "/" cfg -> path_stem cfg = stem cfg) /\
  (forall d f, lacks "/" f -> path_stem (d ++ String "/" f)%string = (d ++ String "/" (stem f))%string).
Proof.
  intros path cfg. split.
  - intros H. unfold next_path. apply contains_occurs in H. rewrite H. apply str_replace_spec. discriminate.
  - split; [apply next_path_none|]. split; [apply path_stem_plain|apply path_stem_dir].
Qed.

(** Without the placeholder, also if the first configuration has used it up, all configurations
    are saved to the same file, which in the end holds the clone of the last one; no other file
    changes. *)
Theorem C80_overwritten : forall Auto W load fresh error learn most steps iters threshold dir name cfgs cfg ca h fs,
  (forall q, In q cfgs -> exists a, load q = Ok a) -> load cfg = Ok ca -> ~ occurs "ca_config" (dir ++ "/" ++ name) ->
  let r := clone_from_ca Auto W load fresh error learn most steps iters threshold dir name (cfgs ++ [cfg]) h fs in
  let path := (dir ++ "/" ++ name)%string in
  Forall (fun v => vd_path v = path) (snd (fst r)) /\ (forall q, q <> path -> fst (fst r) q = fs q) /\
  exists s1, (forall a, cl_ref W s1 = Some a -> (a < List.length (cl_nets W s1))%nat) /\
    fst (fst r) path = Some (held W (clone_iters Auto W fresh error learn most steps threshold iters 0 (List.length cfgs) ca h (mkCl W (cl_nets W s1) None (cl_ref W s1)))).
Proof.
  intros Auto W load fresh error learn most steps iters threshold dir name cfgs cfg ca h fs Hl El Hp r path.
  destruct (clone_all_paths Auto W load fresh error learn most steps iters threshold (cfgs ++ [cfg]) 0 h path (mkCl W [] None None) fs Hp) as [P1 P2].
  split; [exact P1|]. split; [exact P2|].
  destruct (clone_all_last Auto W load fresh error learn most steps iters threshold cfgs cfg ca 0 h path (mkCl W [] None None) fs ltac:(intros a Ha; discriminate Ha) Hl El) as (s1 & p1 & Rs & E & Q & _).
  rewrite (Q Hp), next_path_none in E by exact Hp. exists s1. split; [exact Rs|exact E].
Qed.

Theorem C80_first_name_kept : forall Auto W load fresh error learn most steps iters threshold dir name first cfgs cfg ca h fs,
  (forall q, In q (first :: cfgs) -> exists a, load q = Ok a) -> load cfg = Ok ca -> ~ occurs "ca_config" (next_path (dir ++ "/" ++ name) first) ->
  let r := clone_from_ca Auto W load fresh error learn most steps iters threshold dir name (first :: cfgs ++ [cfg]) h fs in
  let path := next_path (dir ++ "/" ++ name) first in
  Forall (fun v => vd_path v = path) (snd (fst r)) /\ (forall q, q <> path -> fst (fst r) q = fs q) /\
  exists s1, (forall a, cl_ref W s1 = Some a -> (a < List.length (cl_nets W s1))%nat) /\
    fst (fst r) path = Some (held W (clone_iters Auto W fresh error learn most steps threshold iters 0 (S (List.length cfgs)) ca h (mkCl W (cl_nets W s1) None (cl_ref W s1)))).
Proof.
  intros Auto W load fresh error learn most steps iters threshold dir name first cfgs cfg ca h fs Hl El Hp r path.
  split; [|split].
  - subst r. unfold clone_from_ca. cbn [clone_all]. destruct (Hl first (or_introl eq_refl)) as [a Ea]. rewrite Ea. cbn [fst snd]. constructor; [reflexivity|].
    apply (clone_all_paths Auto W load fresh error learn most steps iters threshold); exact Hp.
  - intros q Hq. subst r. unfold clone_from_ca. cbn [clone_all]. destruct (Hl first (or_introl eq_refl)) as [a Ea]. rewrite Ea. cbn [fst snd].
    match goal with |- fst (fst (clone_all _ _ _ _ _ _ _ _ _ _ ?l ?c1 _ ?p ?s1 ?f1)) q = _ =>
      destruct (clone_all_paths Auto W load fresh error learn most steps iters threshold l c1 h p s1 f1 Hp) as [_ P2] end.
    fold path in P2. fold path. rewrite P2 by exact Hq. destruct (String.eqb q path) eqn:E; [apply String.eqb_eq in E; contradiction|reflexivity].
  - destruct (clone_all_last Auto W load fresh error learn most steps iters threshold (first :: cfgs) cfg ca 0 h (dir ++ "/" ++ name)%string (mkCl W [] None None) fs
      ltac:(intros a Ha; discriminate Ha) Hl El) as (s1 & p1 & Rs & E & _ & Q).
    rewrite (Q Hp), (next_path_none (next_path _ first)) in E by exact Hp. exists s1. split; [exact Rs|exact E].
Qed.

Example C80_case : forall fs,
  let r := clone_from_ca unit nat ex_load ex_fresh ex_error ex_learn 8 3 1 1 "/logs" "nca_ca_config.pt" ["orbium.npy"; "geminium.npy"]%string 4 fs in
  map vd_path (snd (fst r)) = ["/logs/nca_orbium.pt"; "/logs/nca_orbium.pt"]%string /\
  fst (fst r) "/logs/nca_orbium.pt"%string = Some (Some 103%nat) /\ fst (fst r) "/logs/nca_geminium.pt"%string = fs "/logs/nca_geminium.pt"%string.
Proof.
  intros fs. unfold clone_from_ca, clone_all. cbn [ex_load String.eqb Ascii.eqb Bool.eqb]. unfold clone_iters. cbn [cl_nets cl_best cl_ref]. unfold ex_fresh.
  rewrite (ex_first 1 0 [] None ltac:(lra) : clone_steps unit nat ex_error ex_learn 1 3 0 0 tt 0 (List.length (@nil nat)) None (mkCl nat ([] ++ [100 * 0 + 10 * 0]%nat)%list None None) = _).
  cbn [cl_nets cl_best cl_ref].
  rewrite (ex_first 1 1 [3]%nat (Some 0%nat) ltac:(lra) : clone_steps unit nat ex_error ex_learn 1 3 0 1 tt 0 (List.length ([] ++ [3 + 100 * 0]%nat)%list) None (mkCl nat (([] ++ [3 + 100 * 0]%nat) ++ [100 * 1 + 10 * 0]%nat)%list None (Some (List.length (@nil nat)))) = _).
  repeat split.
Qed.

(** There is one verdict per configuration, in order, up to the first that cannot be loaded, whose
    exception ends the run; a verdict says that the threshold is met exactly if the best error is
    below it. *)
Theorem C80_verdicts : forall Auto W load fresh error learn most steps iters threshold dir name cfgs h fs,
  let r := clone_from_ca Auto W load fresh error learn most steps iters threshold dir name cfgs h fs in
  (snd r = Ok tt /\ map vd_name (snd (fst r)) = cfgs /\ (forall cfg, In cfg cfgs -> exists ca, load cfg = Ok ca) \/
   exists l cfg t er, cfgs = (l ++ cfg :: t)%list /\ load cfg = Err er /\ snd r = Err er /\ map vd_name (snd (fst r)) = l /\
     (forall q, In q l -> exists ca, load q = Ok ca)) /\
  Forall (fun v => vd_met v = true <-> exists x, vd_best v = Some x /\ x < threshold) (snd (fst r)).
Proof.
  intros Auto W load fresh error learn most steps iters threshold dir name cfgs h fs r.
  split; [apply clone_all_names|apply clone_all_met].
Qed.

(** A run with one configuration: one verdict with the least error of all, and one file with the
    weights of the first network that attained it; [None] is saved if no error is a number. *)
Theorem C80_single : forall Auto W load fresh error learn most steps iters threshold dir name cfg ca h fs, load cfg = Ok ca ->
  let r := clone_from_ca Auto W load fresh error learn most steps iters threshold dir name [cfg] h fs in
  let wt := fun j => after (learn 0%nat ca j) (fresh 0%nat ca j (width most h j)) in
  let e := fun j k => error 0%nat ca j k (wt j k) in
  let path := next_path (dir ++ "/" ++ name) cfg in
  exists ks v, (forall j, (j < iters)%nat -> runs_for threshold steps (e j) (ks j)) /\
    snd r = Ok tt /\ snd (fst r) = [v] /\ vd_name v = cfg /\ vd_path v = path /\ (forall q, q <> path -> fst (fst r) q = fs q) /\
    (vd_best v = None /\ fst (fst r) path = Some None /\ (forall j k, (j < iters)%nat -> (k < ks j)%nat -> e j k = None) \/
     exists x j, (j < iters)%nat /\ vd_best v = Some x /\ fst (fst r) path = Some (Some (wt j (ks j))) /\
       (exists k, (k < ks j)%nat /\ e j k = Some x) /\
       (forall j' k y, (j' < iters)%nat -> (k < ks j')%nat -> e j' k = Some y -> x <= y) /\
       (forall j' k, (j' < j)%nat -> (k < ks j')%nat -> e j' k <> Some x)).
Proof.
  intros Auto W load fresh error learn most steps iters threshold dir name cfg ca h fs El r wt e path.
  destruct (clone_config Auto W fresh error learn most steps iters threshold 0 ca h (mkCl W [] None None) ltac:(intros a Ha; discriminate Ha)) as (ks & Rk & _ & _ & C).
  subst r. unfold clone_from_ca. rewrite (clone_one _ _ _ _ _ _ _ _ _ _ cfg ca) by exact El. fold path. cbn [fst snd].
  exists ks. eexists. split; [exact Rk|]. split; [reflexivity|]. split; [reflexivity|]. split; [reflexivity|]. split; [reflexivity|].
  split; [intros q Hq; destruct (String.eqb q path) eqn:E; [apply String.eqb_eq in E; contradiction|reflexivity]|].
  rewrite String.eqb_refl. cbn [vd_best]. cbn [cl_nets cl_ref] in *.
  destruct C as [(C1 & C2 & C3)|(x & j & C1 & C2 & C3 & _ & C4)].
  - left. split; [exact C1|]. split; [|exact C3]. f_equal. exact C2.
  - right. exists x, j. split; [exact C1|]. split; [exact C2|]. split; [f_equal; exact C3|exact C4].
Qed.

Example C80_verdicts_case : forall fs,
  let r := clone_from_ca unit nat ex_load ex_fresh ex_error ex_learn 8 3 1 (5 / 2) "/logs" "default_nca.pt" ["orbium.npy"; "missing"; "geminium.npy"]%string 4 fs in
  map vd_name (snd (fst r)) = ["orbium.npy"]%string /\ map vd_met (snd (fst r)) = [true] /\ snd r = Err FileNotFoundError.
Proof.
  intros fs. unfold clone_from_ca, clone_all. cbn [ex_load String.eqb Ascii.eqb Bool.eqb]. unfold clone_iters. cbn [cl_nets cl_best cl_ref]. unfold ex_fresh.
  rewrite (ex_first_done 0 [] None : clone_steps unit nat ex_error ex_learn (5 / 2) 3 0 0 tt 0 (List.length (@nil nat)) None (mkCl nat ([] ++ [100 * 0 + 10 * 0]%nat)%list None None) = _).
  cbn [cl_best fst snd map vd_met vd_name]. rewrite below_lt by lra. repeat split.
Qed.

Print Assumptions C78_widths.
Print Assumptions C78_iterations.
Print Assumptions C79_saved.
Print Assumptions C79_error.
Print Assumptions C79_kernels_unused.
Print Assumptions C80_placeholder.
Print Assumptions C80_overwritten.
Print Assumptions C80_first_name_kept.
Print Assumptions C80_verdicts.
Print Assumptions C80_single.
