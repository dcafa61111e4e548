(** * C103 Devices: what moves with an automaton

    An automaton steps a grid only when everything it holds is on the device of the grid. These
    theorems say which calls bring that about. They rest on the rules of torch stated in MDevice. *)
From Coq Require Import List Bool Arith Lia.
From Verif Require Import Base MDevice SDevice PDevice.
Import ListNotations.

(** ** Continuous automata *)

(** A step on [g] works when the three layers and my_device are [g] and every other tensor is on [g]
    or is a CPU tensor without dimension. The result is on [g]. Otherwise the step raises a
    RuntimeError. *)
Theorem C103_step s g :
  (runs_on s g <-> together g s) /\ (~ together g s -> step s (grid g) = Err RuntimeError).
Proof.
  split; [apply runs_iff|]. intro N. destruct (runs_or s g) as [R|R]; [|exact R]. now apply runs_iff in R.
Qed.

(** So an automaton steps grids of at most one device. *)
Theorem C103_one s g h : runs_on s g -> runs_on s h -> g = h.
Proof. rewrite !runs_iff. intros (A & _) (B & _). congruence. Qed.

(** Every history of calls but nn.Module.to: the automaton steps the grids of the device named last
    if its layers were moved there and if the time step, the tensors that never move and the
    parameters added since are there or go with it. *)
Theorem C103_history k cs g : Forall ours cs ->
  let m := remembered k cs in
  runs_on (acts (construct k) cs) g <->
  g = m_home m /\ m_layers m = m_home m /\ Forall (rests (m_home m)) (m_dt m :: m_free m ++ m_new m).
Proof. apply history. Qed.

(** An automaton made for a device steps no grid, neither there nor on the CPU, unless that device is
    the CPU: its layers are made on the CPU and are not moved. *)
Theorem C103_made d n g : runs_on (construct (Kw d n false)) g <-> g = Cpu /\ or_cpu d = Cpu.
Proof.
  rewrite (history (Kw d n false) [] g (Forall_nil _)). cbn [remembered fold_left born m_home m_layers m_dt m_free m_new app].
  split.
  - intros (-> & L & _). now split.
  - intros (-> & ->). split; [reflexivity|]. split; [reflexivity|]. constructor; [now left|].
    destruct (Nat.eqb n 0); repeat constructor.
Qed.

Theorem C103_made_stuck k n : stuck (construct (Kw (Some (Gpu k)) n false)).
Proof. apply stuck_iff. intros g R. apply C103_made in R. destruct R as [_ R]. discriminate R. Qed.

(** to_device, from any state: everything moves but the time step and the tensors that a growth
    function holds besides its parameters. *)
Theorem C103_moved s d g : runs_on (to_device d s) g <-> g = d /\ Forall (rests d) (time s ++ frees s).
Proof. apply moved. Qed.

(** Such an automaton works on the device it was made for once it is moved there, has its parameters
    set or its kernel changed. *)
Theorem C103_made_moved d n c g : In c [CTo (or_cpu d); CSetParams; CRadius; CKernel] ->
  (runs_on (acts (construct (Kw d n false)) [c]) g <-> g = or_cpu d).
Proof.
  intro I. rewrite (history (Kw d n false) [c] g).
  2:{ constructor; [|constructor]. intros e E. subst c. cbn in I. repeat (destruct I as [I|I]; [discriminate I|]). exact I. }
  cbn in I. destruct I as [<-|[<-|[<-|[<-|[]]]]]; cbn [remembered fold_left next born m_home m_layers m_dt m_free m_new app];
    (split; [now intros (H & _)|]); intro H; (split; [exact H|]); (split; [reflexivity|]); repeat constructor.
Qed.

(** ** The time step stays behind *)

(** A time step set on one device follows the automaton to another only if it was set on the CPU and
    has no dimension. *)
Theorem C103_time s d e z g : Forall (fun o => loose o = true) (frees s) ->
  (runs_on (to_device e (set_dt z (to_device d s))) g <-> g = e /\ (e = d \/ (d = Cpu /\ z = true))).
Proof.
  intro F. rewrite moved. change (time (set_dt z (to_device d s))) with [mkOpnd d z].
  change (frees (set_dt z (to_device d s))) with (frees (to_device d s)). rewrite frees_to. cbn [app].
  rewrite Forall_cons_iff. unfold rests at 1. cbn [o_dev o_zero].
  assert (G : Forall (rests e) (frees s)).
  { eapply Forall_impl; [|exact F]. intros o O. apply restb_rests. unfold restb. now rewrite O. }
  split.
  - intros (-> & [R|R] & _); split; auto.
  - intros (-> & [->|R]); auto.
Qed.

(** An automaton made for a GPU and moved there works there; moved to the CPU it steps nothing. *)
Theorem C103_back_refuted : exists s d, runs_on s d /\ stuck (to_device Cpu s).
Proof.
  exists (to_device (Gpu 0) (construct (Kw (Some (Gpu 0)) 1 false))), (Gpu 0). split.
  - apply moved. split; [reflexivity|]. repeat constructor.
  - apply stuck_iff. intros g R. apply moved in R. destruct R as [_ R]. inversion R as [|o l [E|[E _]] _]; discriminate E.
Qed.

(** The recording of a search steps on the device of the automaton, records on the CPU and moves the
    automaton back. It succeeds for automata whose time step is a CPU tensor and fails after the
    first step for the others, leaving the automaton on the CPU. *)
Theorem C103_record n s : runs_on s (c_my s) -> Forall (fun o => loose o = true) (frees s) ->
  (Forall (fun o => o_dev o = Cpu) (time s) ->
     exists s', save_gif (S n) s = (s', Ok tt) /\ c_my s' = c_my s /\ runs_on s' (c_my s)) /\
  (~ Forall (fun o => o_dev o = Cpu) (time s) ->
     exists s', save_gif (S n) s = (s', Err RuntimeError) /\ c_my s' = Cpu /\ stuck s').
Proof.
  intros R F.
  assert (G : forall e, Forall (rests e) (frees s)).
  { intro e. eapply Forall_impl; [|exact F]. intros o O. apply restb_rests. unfold restb. now rewrite O. }
  rewrite save_gif_eq. rewrite (proj2 (stepb_runs s (c_my s)) R).
  apply runs_iff in R. destruct R as (_ & _ & _ & _ & R). rewrite !Forall_app in R. destruct R as (T & _).
  split; intro H.
  - assert (Q : stepb (to_device Cpu s) Cpu = true).
    { apply stepb_runs, moved. split; [reflexivity|]. apply Forall_app. split; [|apply G].
      eapply Forall_impl; [|exact H]. intros o O. now left. }
    rewrite Q. eexists. split; [reflexivity|]. split; [reflexivity|]. apply moved. split; [reflexivity|].
    rewrite frees_to. change (time (to_device Cpu s)) with (time s). apply Forall_app. now split.
  - assert (Q : forall g, ~ runs_on (to_device Cpu s) g).
    { intros g Q. apply moved in Q. destruct Q as [_ Q]. apply Forall_app in Q. destruct Q as [Q _]. apply H.
      eapply Forall_impl; [|exact Q]. intros o [O|[O _]]; exact O. }
    rewrite (proj2 (stepb_no _ _) (Q Cpu)). eexists. split; [reflexivity|]. split; [reflexivity|]. now apply stuck_iff.
Qed.

(** RandomStepCA puts a number in the place of the time step, so it can be moved freely. *)
Theorem C103_random s d e g : Forall (fun o => loose o = true) (frees s) ->
  exists s', random_step (to_device d s) (grid d) = Ok (s', grid d) /\ (runs_on (to_device e s') g <-> g = e).
Proof.
  intro F.
  assert (G : forall e, Forall (rests e) (frees s)).
  { intro e'. eapply Forall_impl; [|exact F]. intros o O. apply restb_rests. unfold restb. now rewrite O. }
  exists (numbered_dt (to_device d s)). split.
  - rewrite random_eq. replace (stepb _ _) with true; [reflexivity|]. symmetry. apply stepb_runs.
    change (numbered_dt (to_device d s)) with (to_device d (numbered_dt s)). apply moved. split; [reflexivity|]. apply G.
  - rewrite moved. change (time (numbered_dt (to_device d s))) with (@nil opnd). cbn [app].
    change (frees (numbered_dt (to_device d s))) with (frees (to_device d s)). rewrite frees_to. split; [tauto|]. intro E. now split.
Qed.

(** ** Files *)

(** An automaton that reads a configuration steps the grids of one device, the one that the innermost
    arguments in the file name, the CPU if they name none. Only for a file without arguments is it
    the device the automaton had. *)
Theorem C103_loaded c s g :
  runs_on (load c s) g <-> g = file_home c (c_my s) /\ Forall (rests (file_home c (c_my s))) (file_free c).
Proof.
  pose proof (tells_load c s) as T. rewrite my_load in T. rewrite (tells_runs _ _ g T). cbn [m_home m_layers m_dt m_free m_new].
  rewrite app_nil_r, Forall_cons_iff. split.
  - intros (H & _ & _ & K). now split.
  - intros (H & K). split; [exact H|]. split; [reflexivity|]. split; [now left|exact K].
Qed.

(** Asking for a device and naming a file with arguments for another gives that other one. *)
Theorem C103_overruled d n inp k gn ps z g : runs_on (construct (KwC (Some d) n inp (Full k gn ps z))) g -> g = kw_home k.
Proof.
  intro R. apply (history _ [] g (Forall_nil _)) in R. destruct R as (R & _). exact R.
Qed.

(** ** nn.Module.to *)

(** It moves layers and registered parameters but not my_device, so it helps only on the device the
    automaton has. *)
Theorem C103_module s d g : runs_on (module_to d s) g <->
  g = d /\ c_my s = d /\ Forall (rests d) (time s ++ frees s ++ unregistered s).
Proof. apply module_runs. Qed.

(** The benchmark of lenia.py steps nothing on a GPU. *)
Theorem C103_benchmark n k : stuck (module_to (Gpu k) (default_init n (c_my (construct (Kw None n false))))).
Proof. apply stuck_iff. intros g R. apply module_runs in R. destruct R as (_ & R & _). discriminate R. Qed.

(** ** Neural automata *)

Theorem C103_nca_step s g :
  (nca_runs s g <-> n_id s = g /\ n_nb s = g /\ n_w s = g /\ rests g (n_dt s)) /\
  (~ nca_runs s g -> nca_step s (grid g) = Err RuntimeError).
Proof.
  split; [apply nca_iff|]. unfold nca_runs. rewrite nca_step_eq.
  match goal with |- context [if ?b then _ else _] => destruct b end; [now intro N|reflexivity].
Qed.

(** They are as stuck when made for a GPU, and move without their time step too. *)
Theorem C103_nca_made d g : nca_runs (nca_init d) g <-> g = Cpu /\ d = Cpu.
Proof.
  rewrite nca_iff. cbn. unfold rests; cbn. split.
  - intros (<- & _ & _ & [E|[E _]]); now split.
  - intros (-> & ->). repeat split. now left.
Qed.

Theorem C103_nca_time s d e z g :
  nca_runs (nca_to e (nca_dt z (nca_to d s))) g <-> g = e /\ (e = d \/ (d = Cpu /\ z = true)).
Proof.
  rewrite nca_iff. cbn. unfold rests; cbn. split.
  - intros (<- & _ & _ & [E|E]); split; auto.
  - intros (-> & [->|E]); repeat split; auto.
Qed.

(** A neural automaton that reads a configuration whose kernel has no arguments is not moved to its
    device, so it is stuck unless that is the CPU; with arguments it works there. *)
Theorem C103_nca_loaded kp z s g :
  nca_runs (nca_rebuild kp z s) g <-> g = n_my s /\ (kp = true \/ n_my s = Cpu).
Proof.
  rewrite nca_iff. destruct kp; cbn; unfold rests; cbn; split.
  - intros (<- & _). auto.
  - intros (-> & _). repeat split. now left.
  - intros (A & B & _). split; [now symmetry|]. right. congruence.
  - intros (-> & [E|E]); [discriminate E|]. rewrite E. repeat split. now left.
Qed.

(** ** Reaction and diffusion *)

Theorem C103_rxn_step s g :
  (rxn_runs s g <-> rxn_together g s) /\ (~ rxn_runs s g -> rxn_step s (grid g) = Err RuntimeError).
Proof.
  split; [apply rxn_iff|]. unfold rxn_runs. rewrite rxn_step_eq.
  match goal with |- context [if ?b then _ else _] => destruct b end; [now intro N|reflexivity].
Qed.

(** These move as a whole: after any calls but load_config they step the grids of my_device. *)
Theorem C103_rxn cs g : Forall (fun c => forall a b, c <> RLoad a b) cs ->
  (rxn_runs (fold_left ract cs rxn_init) g <-> g = r_my (fold_left ract cs rxn_init)).
Proof.
  intro L.
  assert (H : forall s, rxn_together (r_my s) s -> rxn_together (r_my (fold_left ract cs s)) (fold_left ract cs s)).
  { induction L as [|c t N L IH]; intros s T; [exact T|]. cbn. apply IH. clear IH L.
    destruct T as (A & B & F). repeat (apply Forall_cons_iff in F; let X := fresh "F" in destruct F as [X F]).
    destruct c as [d| | |w z|a b]; cbn [ract]; unfold rxn_together.
    - cbn. split; [reflexivity|]. split; [reflexivity|]. repeat (apply Forall_cons; [now left|]); apply Forall_nil.
    - cbn. split; [exact A|]. split; [exact B|]. repeat (apply Forall_cons; [first [assumption|now left|now right]|]); apply Forall_nil.
    - cbn. split; [reflexivity|]. split; [reflexivity|]. repeat (apply Forall_cons; [now left|]); apply Forall_nil.
    - destruct w; cbn; (split; [exact A|]); (split; [exact B|]); repeat (apply Forall_cons; [first [assumption|now left|now right]|]); apply Forall_nil.
    - exfalso. now apply (N a b). }
  specialize (H rxn_init). rewrite rxn_iff. split.
  - intros (A & _). destruct H as (B & _); [|congruence]. repeat split. repeat constructor.
  - intros ->. apply H. repeat split. repeat constructor.
Qed.

(** load_config puts everything on the CPU whatever my_device is; there the automaton works until its
    time step, space step or diffusion is set. *)
Theorem C103_rxn_loaded s zt zx g : rxn_runs (rxn_load zt zx s) g <-> g = Cpu.
Proof.
  rewrite rxn_iff. split.
  - intros (<- & _). reflexivity.
  - intros ->. repeat split. repeat constructor.
Qed.

Theorem C103_rxn_loaded_set s zt zx w z g : r_my s <> Cpu -> ~ rxn_runs (rxn_set w z (rxn_load zt zx s)) g.
Proof.
  intros N R. apply rxn_iff in R. destruct R as (A & _ & F).
  repeat (apply Forall_cons_iff in F; let X := fresh "F" in destruct F as [X F]).
  assert (E : rests g (mkOpnd (r_my s) z)) by (destruct w; assumption).
  assert (G : g = Cpu) by (destruct w; cbn in A; congruence). rewrite G in E.
  destruct E as [E|[E _]]; exact (N E).
Qed.

(** ** Owners of an automaton *)

(** GliderWrapper.to_device leaves the automaton where it is: an action works when the automaton was
    on its device already. *)
Theorem C103_glider n w d a :
  (glider_step (S n) (glider_to d w) (grid a) = Ok tt <-> a = d /\ runs_on (g_ca w) d) /\
  (glider_step (S n) (glider_to d w) (grid a) = Ok tt \/ glider_step (S n) (glider_to d w) (grid a) = Err RuntimeError).
Proof.
  rewrite glider_eq. cbn [glider_to g_ca g_grid].
  destruct (stepb (g_ca w) a) eqn:E; destruct (deq d a) eqn:F; cbn [andb]; (split; [|auto]).
  - apply deq_eq in F. subst d. apply stepb_runs in E. split; [now split|reflexivity].
  - apply deq_neq in F. split; [discriminate|]. intros (G & _). congruence.
  - apply deq_eq in F. subst d. apply stepb_no in E. split; [discriminate|]. now intros (_ & G).
  - apply deq_neq in F. split; [discriminate|]. intros (G & _). congruence.
Qed.

(** One made for a GPU and moved there by its own to_device evaluates no action. *)
Theorem C103_glider_gpu n k c a :
  glider_step (S n) (glider_to (Gpu k) (glider_new (Some (Gpu k)) c)) (grid a) = Err RuntimeError.
Proof.
  destruct (C103_glider n (glider_new (Some (Gpu k)) c) (Gpu k) a) as [I [O|O]]; [|exact O].
  apply I in O. destruct O as [_ O]. cbn [g_ca glider_new] in O. pose proof (C103_made_stuck k c (Gpu k)) as Q.
  unfold runs_on in O. rewrite Q in O. discriminate O.
Qed.

(** SimpleHaltingWrapper sets the parameters first and thereby moves the automaton. *)
Theorem C103_simple n d c : snd (simple_step n (construct (Kw d c false))) = Ok tt.
Proof.
  unfold simple_step. cbn [snd]. destruct n as [|n]; [reflexivity|].
  assert (R : runs_on (renew_nb (construct (Kw d c false))) (or_cpu d)).
  { apply (C103_made_moved d c CSetParams); [right; now left|reflexivity]. }
  assert (M : c_my (renew_nb (construct (Kw d c false))) = or_cpu d) by reflexivity.
  rewrite M. rewrite run_eq. apply stepb_runs in R. now rewrite R.
Qed.

(** HaltingWrapper.to_device moves the automaton and then raises when there is no predictor yet. *)
Theorem C103_halting_early d w : h_net w = None ->
  exists w', halting_to d w = (w', Err AttributeError) /\ c_my (h_ca w') = d /\ h_my w' = h_my w.
Proof. intro N. unfold halting_to. rewrite N. eexists. split; [reflexivity|]. now split. Qed.

(** A step of it works when predictor, automaton and wrapper are on one device. *)
Theorem C103_halting b n w : Forall (fun o => loose o = true) (frees (h_ca w)) ->
  (snd (halting_step b n w) = Ok tt <->
   exists d, h_net w = Some d /\ c_my (h_ca w) = d /\ h_my w = d /\ Forall (rests d) (time (h_ca w))).
Proof.
  intro F. unfold halting_step. set (s := renew_nb (h_ca w)).
  assert (M : c_my s = c_my (h_ca w)) by reflexivity.
  assert (R : forall g, runs_on s g <-> g = c_my (h_ca w) /\ Forall (rests (c_my (h_ca w))) (time (h_ca w))).
  { intro g. unfold s, renew_nb. rewrite moved. change (time (fresh_nb (h_ca w))) with (time (h_ca w)).
    change (frees (fresh_nb (h_ca w))) with (frees (h_ca w)). rewrite Forall_app. split; [tauto|].
    intros (E & T). repeat split; trivial. eapply Forall_impl; [|exact F]. intros o O. apply restb_rests. unfold restb. now rewrite O. }
  destruct (h_net w) as [net|]; cbn [snd].
  2:{ split; [discriminate|]. intros (d & D & _). discriminate D. }
  rewrite !round_eq. rewrite M. split.
  - intro H. destruct (stepb s (c_my (h_ca w))) eqn:E1; [|discriminate H].
    destruct (deq net (c_my (h_ca w))) eqn:E2; [|discriminate H]. cbn [andb bind] in H.
    destruct (stepb s (h_my w)) eqn:E3; [|discriminate H].
    apply stepb_runs, R in E1. apply stepb_runs, R in E3. apply deq_eq in E2.
    exists net. destruct E1 as [_ E1], E3 as [E3 _]. rewrite E2. now repeat split.
  - intros (d & D & C & W & T). injection D as ->. rewrite C, W.
    assert (Q : stepb s d = true) by (apply stepb_runs, R; rewrite C; now split).
    now rewrite Q, deq_refl.
Qed.

(** Reset after a move puts the predictor back on the CPU. *)
Theorem C103_halting_reset b n w d w' : halting_to d w = (w', Ok tt) -> d <> Cpu ->
  snd (halting_step b n (halting_reset w')) = Err RuntimeError.
Proof.
  unfold halting_to. destruct (h_net w) as [net|]; [|discriminate]. intros E N. injection E as <-.
  unfold halting_step, halting_reset. cbn [h_net h_ca h_my snd]. rewrite !round_eq.
  assert (M : c_my (renew_nb (to_device d (h_ca w))) = d) by reflexivity. rewrite M.
  replace (deq Cpu d) with false by (symmetry; apply deq_neq; congruence). now rewrite andb_false_r.
Qed.

(** ** Examples *)

Example C103_ex_orbium : runs_on (acts (construct (Kw None 1 false)) [CTo (Gpu 0)]) (Gpu 0).
Proof. reflexivity. Qed.

(** A mixture keeps CPU scalars, which go anywhere. *)
Definition mixture : gfn := mkGfn [mkOpnd Cpu true; mkOpnd Cpu true] [mkOpnd Cpu true] false.

Example C103_ex_file : runs_on (load (Full (Kw (Some (Gpu 1)) 1 false) mixture mixture false) (construct (Kw None 1 false))) (Gpu 1).
Proof. reflexivity. Qed.

Example C103_ex_added : runs_on (acts (construct (Kw (Some (Gpu 1)) 0 false)) [CSetParams; CGen mixture; CPer mixture]) (Gpu 1).
Proof. reflexivity. Qed.

(** A Gaussian added after the move is left on the CPU, and found by the next move. *)
Definition gaussian : gfn := mkGfn [mkOpnd Cpu false; mkOpnd Cpu false] [] false.

Example C103_ex_late : stuck (acts (construct (Kw (Some (Gpu 1)) 0 false)) [CSetParams; CGen gaussian; CPer gaussian; CRegister]).
Proof. intros [|[|[|k]]]; reflexivity. Qed.

Example C103_ex_found : runs_on (acts (construct (Kw (Some (Gpu 1)) 0 false)) [CSetParams; CGen gaussian; CPer gaussian; CRadius]) (Gpu 1).
Proof. reflexivity. Qed.

(** Intervals held on a GPU do not come back to the CPU. *)
Example C103_ex_intervals : stuck (acts (construct (Kw None 0 false)) [CGen (mkGfn [] [mkOpnd (Gpu 0) true] false); CTo Cpu]).
Proof. intros [|k]; reflexivity. Qed.

Example C103_ex_record :
  snd (save_gif 256 (acts (construct (Kw (Some (Gpu 0)) 1 false)) [CSetParams])) = Err RuntimeError /\
  snd (save_gif 256 (acts (construct (Kw None 1 false)) [CTo (Gpu 0)])) = Ok tt.
Proof. split; reflexivity. Qed.

Example C103_ex_halting :
  let w := halting_reset (halting_new (Some (Gpu 0)) 1) in
  snd (halting_step 8 4 (fst (halting_to (Gpu 0) w))) = Ok tt /\ snd (halting_step 8 4 w) = Err RuntimeError.
Proof. split; reflexivity. Qed.

Example C103_ex_rxn : rxn_runs (fold_left ract [RTo (Gpu 0); RSetParams; RSet Dt true; RRadius; RTo Cpu] rxn_init) Cpu.
Proof. reflexivity. Qed.

(** In every history, nn.Module.to included, the three layers of an automaton lie on one device. *)
Theorem C103_layers k cs : let s := acts (construct k) cs in c_id s = c_nb s /\ c_nb s = c_w s.
Proof.
  assert (R : forall s, c_id (renew_nb s) = c_nb (renew_nb s) /\ c_nb (renew_nb s) = c_w (renew_nb s)) by (intros s; split; reflexivity).
  assert (L : forall c s, c_id (load c s) = c_nb (load c s) /\ c_nb (load c s) = c_w (load c s)) by (intros [g p z|k' g p z] s; split; reflexivity).
  assert (B : c_id (construct k) = c_nb (construct k) /\ c_nb (construct k) = c_w (construct k)).
  { destruct k as [d n [|]|d n [|] c]; cbn [construct]; try apply R; [split; reflexivity|apply L]. }
  cbv zeta. revert B. unfold acts. generalize (construct k). induction cs as [|c cs IH]; intros s B; [exact B|]. cbn [fold_left]. apply IH.
  destruct c; cbn [act]; try apply R; try apply L; try exact B; split; reflexivity.
Qed.

Example C103_layers_example : let s := acts (construct (Kw None 1 false)) [CModule (Gpu 1)] in c_id s = Gpu 1 /\ c_my s = Cpu.
Proof. split; reflexivity. Qed.

(** It does not move the parameters of a function added since the last registration. *)
Theorem C103_unregistered s f d g : (runs_on (module_to d (add_gen f s)) g \/ runs_on (module_to d (add_per f s)) g) -> Forall (rests d) (f_own f).
Proof.
  rewrite !C103_module. intros [H|H]; destruct H as (_ & _ & H); rewrite !Forall_app in H; destruct H as (_ & _ & H); revert H; unfold unregistered; cbn [add_gen add_per c_gen c_per];
    rewrite ?filter_app, ?flat_map_app, !Forall_app; cbn; rewrite ?app_nil_r; intuition.
Qed.

Theorem C103_registered s d g : runs_on (module_to d (register s)) g <-> g = d /\ c_my s = d /\ Forall (rests d) (time s ++ frees s).
Proof.
  rewrite C103_module. change (c_my (register s)) with (c_my s). change (time (register s)) with (time s). rewrite frees_register.
  assert (U : unregistered (register s) = []) by (unfold unregistered, register; cbn [c_gen c_per]; generalize (c_gen s) (c_per s); intros a b; induction a; [induction b; [reflexivity|cbn; exact IHb]|cbn; exact IHa]).
  rewrite U, app_nil_r. reflexivity.
Qed.

Example C103_registered_example : let s := add_gen gaussian (acts (construct (Kw (Some (Gpu 1)) 0 false)) []) in
  stuck (module_to (Gpu 1) s) /\ runs_on (module_to (Gpu 1) (register s)) (Gpu 1).
Proof.
  split; [|reflexivity]. apply stuck_iff. intros g H. apply runs_iff in H. destruct H as (<- & _ & _ & _ & H). cbn in H. inversion H as [|? ? _ H1]; subst. inversion H1 as [|? ? [X|[_ X]] _]; discriminate X.
Qed.

(** A new one is moved with a time step that goes anywhere if it was made for the CPU. *)
Theorem C103_nca_moved d e g : nca_runs (nca_to e (nca_init d)) g <-> g = e /\ (d = e \/ d = Cpu).
Proof.
  rewrite nca_iff. cbn. unfold rests; cbn. split.
  - intros (<- & _ & _ & [E|[E _]]); split; auto.
  - intros (-> & [->|E]); repeat split; auto.
Qed.

Example C103_nca_moved_example : nca_runs (nca_to (Gpu 0) (nca_init Cpu)) (Gpu 0) /\ ~ nca_runs (nca_to Cpu (nca_init (Gpu 0))) Cpu.
Proof. split; [reflexivity|]. intros H. apply C103_nca_moved in H as [_ [X|X]]; discriminate X. Qed.

(** What is asked of the automaton, for every history. *)
Theorem C103_nca_history d cs g :
  nca_runs (fold_left nact cs (nca_init d)) g <-> n_site d (rev cs) = Some g /\ rests g (n_clock d (rev cs)).
Proof.
  assert (H : let s := fold_left nact cs (nca_init d) in n_my s = n_home d (rev cs) /\ n_kp s = n_params (rev cs) /\ n_dt s = n_clock d (rev cs) /\
    (forall e, n_site d (rev cs) = Some e <-> n_id s = e /\ n_nb s = e /\ n_w s = e)).
  { induction cs as [|c cs IH] using rev_ind; [cbn; repeat split; try congruence; intros (E & _); congruence|].
    rewrite fold_left_app, rev_app_distr. cbn [fold_left rev app]. cbv zeta in IH |- *. set (s := fold_left nact cs (nca_init d)) in *. set (p := rev cs) in *.
    destruct IH as (I1 & I2 & I3 & I4).
    assert (K : forall a b : device, Some a = Some b <-> a = b /\ a = b /\ a = b) by (intros a b; split; [intros E; injection E as ->; auto|intros (-> & _); reflexivity]).
    destruct c as [e|z| | |[|] z]; cbn [nact nca_to nca_dt nca_radius nca_rebuild n_home n_params n_site n_clock].
    - cbn. repeat split; auto; apply K; assumption.
    - cbn. rewrite I1. repeat split; auto; apply I4; assumption.
    - unfold nca_set_params. rewrite <- I2. destruct (n_kp s) eqn:Ek; cbn; [rewrite <- I1; auto|]. auto.
    - unfold nca_radius. cbn. rewrite I1. auto.
    - unfold nca_rebuild, nca_set_params. cbn. rewrite I1. auto.
    - unfold nca_rebuild, nca_set_params. cbn. rewrite I1. repeat split; auto.
      + destruct (n_home d p); [injection H as <-; reflexivity|discriminate].
      + destruct (n_home d p); [injection H as <-; reflexivity|discriminate].
      + destruct (n_home d p); [injection H as <-; reflexivity|discriminate].
      + intros (A & B & _). rewrite A, <- B. reflexivity. }
  cbv zeta in H. destruct H as (_ & _ & H3 & H4). rewrite nca_iff, H3, H4. tauto.
Qed.

Example C103_nca_history_case :
  nca_runs (fold_left nact [NDt true; NRadius] (nca_init (Gpu 0))) (Gpu 0) /\ nca_runs (fold_left nact [NParams] (nca_init (Gpu 0))) (Gpu 0) /\
  forall g, ~ nca_runs (fold_left nact [NLoad false true; NParams] (nca_init (Gpu 0))) g.
Proof. split; [reflexivity|]. split; [reflexivity|]. intros g H. apply C103_nca_history in H as [H _]. discriminate H. Qed.

Lemma snoc_split {A} (a b cs : list A) x c : cs ++ [c] = a ++ x :: b ->
  (b = [] /\ a = cs /\ x = c) \/ exists b', b = b' ++ [c] /\ cs = a ++ x :: b'.
Proof.
  destruct b as [|y b] using rev_ind; intros E.
  - apply app_inj_tail in E as [-> ->]. auto.
  - right. exists b. change (a ++ x :: b ++ [y]) with (a ++ (x :: b) ++ [y]) in E. rewrite app_assoc in E. apply app_inj_tail in E as [-> ->]. auto.
Qed.

(** A knob that was set and not replaced by set_params. *)
Definition pending (w : knob) (cs : list rcall) : Prop :=
  exists a z b, cs = a ++ RSet w z :: b /\ (w = Dx \/ w = Dt \/ ~ In RSetParams b).

Lemma pending_nil w : ~ pending w [].
Proof. intros (a & z & b & E & _). destruct a; discriminate E. Qed.

Lemma pending_params w cs : pending w (cs ++ [RSetParams]) <-> (w = Dx \/ w = Dt) /\ pending w cs.
Proof.
  split.
  - intros (a & z & b & E & H). apply snoc_split in E as [(_ & _ & E)|(b' & -> & ->)]; [discriminate E|]. destruct H as [H|[H|H]].
    + split; [auto|]. exists a, z, b'. auto.
    + split; [auto|]. exists a, z, b'. auto.
    + exfalso. apply H, in_or_app. right. left. reflexivity.
  - intros (W & a & z & b & -> & _). exists a, z, (b ++ [RSetParams]). rewrite <- app_assoc. split; [reflexivity|]. tauto.
Qed.

Lemma pending_set w v z cs : pending w (cs ++ [RSet v z]) <-> w = v \/ pending w cs.
Proof.
  split.
  - intros (a & y & b & E & H). apply snoc_split in E as [(_ & _ & E)|(b' & -> & ->)]; [injection E as -> _; auto|]. right. exists a, y, b'. split; [reflexivity|].
    destruct H as [H|[H|H]]; auto. right. right. intros X. apply H, in_or_app. auto.
  - intros [->|(a & y & b & -> & H)].
    + exists cs, z, []. split; [reflexivity|]. right. right. intros [].
    + exists a, y, (b ++ [RSet v z]). rewrite <- app_assoc. split; [reflexivity|]. destruct H as [H|[H|H]]; auto. right. right. intros X. apply in_app_or in X as [X|[X|[]]]; [auto|discriminate X].
Qed.

Lemma keep w cs (P : Prop) : w = Dx \/ w = Dt -> (pending w cs <-> P) -> (pending w (cs ++ [RSetParams]) <-> P).
Proof. rewrite pending_params. tauto. Qed.
Lemma gone w cs d : w <> Dx -> w <> Dt -> d = Cpu -> (pending w (cs ++ [RSetParams]) <-> d <> Cpu).
Proof. rewrite pending_params. tauto. Qed.
Lemma now w z cs (P : Prop) : P -> (pending w (cs ++ [RSet w z]) <-> P).
Proof. rewrite pending_set. tauto. Qed.
Lemma other w v z cs (P : Prop) : w <> v -> (pending w cs <-> P) -> (pending w (cs ++ [RSet v z]) <-> P).
Proof. rewrite pending_set. tauto. Qed.

(** An object that lives on a GPU and reads a file steps grids of the CPU until a step or a rate is set; set_params
    repairs the rates only. *)
Theorem C103_rxn_loaded_still s zt zx cs g : r_my s <> Cpu -> Forall still cs ->
  (rxn_runs (fold_left ract cs (rxn_load zt zx s)) g <-> g = Cpu /\ ~ left_over cs).
Proof.
  intros N F. set (P := fun (w : knob) (o : opnd) => (pending w cs <-> o_dev o <> Cpu)).
  assert (H : let t := fold_left ract cs (rxn_load zt zx s) in r_id t = Cpu /\ r_nb t = Cpu /\ r_my t = r_my s /\ o_dev (r_f t) = Cpu /\ o_dev (r_k t) = Cpu /\
    P Dx (r_dx t) /\ P Dt (r_dt t) /\ P Du (r_du t) /\ P Dv (r_dv t)).
  { subst P. induction cs as [|c cs IH] using rev_ind.
    - cbn. repeat split; try congruence; intros X; contradiction (pending_nil _ X).
    - rewrite fold_left_app. cbn [fold_left]. cbv zeta beta in IH |- *. apply Forall_app in F as [F1 F2]. inversion F2 as [|? ? Sc _]; subst.
      specialize (IH F1). set (t := fold_left ract cs (rxn_load zt zx s)) in *. destruct IH as (I1 & I2 & I3 & I4 & I5 & I6 & I7 & I8 & I9).
      destruct c as [d| | |w z|a b]; try contradiction Sc; cbn [ract].
      + unfold rxn_set_params. cbn. repeat (apply conj; [first [assumption|reflexivity| apply keep; [auto|assumption] | apply gone; [discriminate|discriminate|reflexivity]]|]). apply gone; [discriminate|discriminate|reflexivity].
      + destruct w; unfold rxn_set; cbn; repeat (apply conj; [first [assumption | apply now; congruence | apply other; [discriminate|assumption]]|]); first [apply now; congruence | apply other; [discriminate|assumption]]. }
  cbv zeta in H. subst P. cbv beta in H. set (t := fold_left ract cs (rxn_load zt zx s)) in *. destruct H as (I1 & I2 & I3 & I4 & I5 & I6 & I7 & I8 & I9).
  assert (L : left_over cs <-> pending Dx cs \/ pending Dt cs \/ pending Du cs \/ pending Dv cs).
  { split; [intros (a & w & z & b & E & H); assert (Q : pending w cs) by (exists a, z, b; auto); destruct w; auto|]. intros [H|[H|[H|H]]]; destruct H as (a & z & b & E & H); eexists a, _, z, b; eauto. }
  assert (C : forall o, rests Cpu o <-> o_dev o = Cpu) by (intros o; unfold rests; tauto).
  assert (D : forall o, o_dev o = Cpu \/ o_dev o <> Cpu) by (intros o; destruct (o_dev o); [left; reflexivity|right; discriminate]).
  rewrite rxn_iff. unfold rxn_together. rewrite I1, I2. split.
  - intros (<- & _ & H). split; [reflexivity|]. rewrite L, I6, I7, I8, I9. repeat (apply Forall_cons_iff in H as [? H]). rewrite !C in *. intros [X|[X|[X|X]]]; contradiction.
  - intros (-> & H). rewrite L, I6, I7, I8, I9 in H. split; [reflexivity|]. split; [reflexivity|].
    destruct (D (r_dx t)), (D (r_dt t)), (D (r_du t)), (D (r_dv t)); try (exfalso; apply H; auto; fail). repeat (apply Forall_cons; [apply C; assumption|]). apply Forall_nil.
Qed.

Example C103_rxn_loaded_still_case : let s := rxn_load true true (rxn_to (Gpu 0) rxn_init) in
  rxn_runs (fold_left ract [RSet Du true; RSetParams] s) Cpu /\ ~ rxn_runs (fold_left ract [RSetParams; RSet Du true] s) Cpu /\ ~ rxn_runs (fold_left ract [RSet Dt true; RSetParams] s) Cpu.
Proof. cbv zeta. split; [reflexivity|]. split; intros H; discriminate H. Qed.

(** What moves it afterwards puts everything in one place again, whatever happened before. *)
Theorem C103_rxn_moved s c cs g : (exists d, c = RTo d) \/ c = RRadius -> Forall (fun c => forall a b, c <> RLoad a b) cs ->
  (rxn_runs (fold_left ract cs (ract s c)) g <-> g = r_my (fold_left ract cs (ract s c))).
Proof.
  intros M F.
  assert (H : forall s, rxn_together (r_my s) s -> rxn_together (r_my (fold_left ract cs s)) (fold_left ract cs s)).
  { clear s M. induction F as [|x l Hx F IH]; intros s T; [exact T|]. cbn [fold_left]. apply IH. destruct T as (A & B & T). repeat (apply Forall_cons_iff in T as [? T]).
    assert (Own : forall d o, rests d (send d o)) by (intros d o; left; reflexivity).
    destruct x as [d| | |w z|a b]; cbn [ract]; unfold rxn_together.
    - cbn. repeat split; repeat constructor.
    - cbn. split; [exact A|]. split; [exact B|]. do 2 (apply Forall_cons; [assumption|]). do 4 (apply Forall_cons; [right; split; reflexivity|]). apply Forall_nil.
    - cbn. repeat split; repeat constructor.
    - destruct w; cbn; (split; [exact A|]; split; [exact B|]; do 6 (apply Forall_cons; [first [assumption|left; reflexivity]|]); apply Forall_nil).
    - contradiction (Hx a b eq_refl). }
  assert (B : rxn_together (r_my (ract s c)) (ract s c)) by (destruct M as [[d ->]| ->]; cbn; repeat split; repeat constructor).
  rewrite rxn_iff. specialize (H _ B). split; [intros (A & _); destruct H as (A' & _); congruence|intros ->; exact H].
Qed.

Example C103_rxn_moved_case : let s := rxn_load true true (rxn_to (Gpu 0) rxn_init) in
  rxn_runs (fold_left ract [RSet Dt true; RRadius] s) (Gpu 0) /\ rxn_runs (fold_left ract [RSet Dt true; RTo Cpu] s) Cpu.
Proof. split; reflexivity. Qed.

Print Assumptions C103_step.
Print Assumptions C103_one.
Print Assumptions C103_history.
Print Assumptions C103_made.
Print Assumptions C103_made_stuck.
Print Assumptions C103_moved.
Print Assumptions C103_made_moved.
Print Assumptions C103_time.
Print Assumptions C103_back_refuted.
Print Assumptions C103_record.
Print Assumptions C103_random.
Print Assumptions C103_loaded.
Print Assumptions C103_overruled.
Print Assumptions C103_module.
Print Assumptions C103_benchmark.
Print Assumptions C103_nca_step.
Print Assumptions C103_nca_made.
Print Assumptions C103_nca_time.
Print Assumptions C103_nca_loaded.
Print Assumptions C103_rxn_step.
Print Assumptions C103_rxn.
Print Assumptions C103_rxn_loaded.
Print Assumptions C103_rxn_loaded_set.
Print Assumptions C103_glider.
Print Assumptions C103_glider_gpu.
Print Assumptions C103_simple.
Print Assumptions C103_halting_early.
Print Assumptions C103_halting.
Print Assumptions C103_halting_reset.
Print Assumptions C103_layers.
Print Assumptions C103_unregistered.
Print Assumptions C103_registered.
Print Assumptions C103_nca_moved.
Print Assumptions C103_nca_history.
Print Assumptions C103_rxn_loaded_still.
Print Assumptions C103_rxn_moved.
