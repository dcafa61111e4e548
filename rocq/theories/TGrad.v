(** C89: which parameters training can change. *)
From Coq Require Import List Bool Arith Lia.
From Verif Require Import Base MGrad SGrad PGrad.
Import ListNotations.

(** set_params, load_config, a change of the kernel radius, moving to a device and no_grad leave
    nothing trainable, whatever the automaton was before. *)
Theorem C89_frozen_by : forall o s, freezing o -> frozen (do_act o s).
Proof. intros o s. apply freezes. Qed.

(** Nothing but a new function makes a frozen automaton trainable again; in particular new
    weights are frozen, and so is everything after loading another configuration. *)
Theorem C89_stays_frozen : forall h s, frozen s -> Forall (fun o => ~ adding o) h -> frozen (do_all h s).
Proof. intros h s. apply stays_frozen. Qed.

(** So a history with a freezing call in it, and no new function after that, leaves nothing
    trainable. *)
Theorem C89_frozen_after : forall h1 o h2 s, freezing o -> Forall (fun o => ~ adding o) h2 -> frozen (do_all (h1 ++ o :: h2) s).
Proof.
  intros h1 o h2 s F A. unfold do_all. rewrite fold_left_app. cbn [fold_left].
  apply (stays_frozen h2); [apply freezes, F|exact A].
Qed.

(** A parameter that requires no gradient never will, whatever is done to the automaton. *)
Theorem C89_no_way_back : forall h s p, p < gr_next s -> gr_flag s p = false -> gr_flag (do_all h s) p = false.
Proof. intros h s p. apply (proj2 (later_all h s)). Qed.

(** A CCA is made frozen when use_grad is not set, when a configuration is found and when a file
    of parameters is given; otherwise its whole rule is trainable. *)
Theorem C89_new : forall use fns ca input,
  (use = false \/ ca <> None \/ input = true -> frozen (new_cca (mkArgs use fns ca input))) /\
  (use = true -> ca = None -> input = false -> trainable (new_cca (mkArgs use fns ca input))).
Proof.
  intros u f ca i. split.
  - intros [E|[E|E]]; subst; unfold new_cca.
    + apply init_off.
    + destruct ca; [apply init_config|contradiction].
    + apply init_input.
  - intros E1 E2 E3; subst. apply init_on.
Qed.

(** A trainable automaton stays trainable, new functions and new weights included, as long as
    nothing freezes it. *)
Theorem C89_stays_trainable : forall h s, trainable s -> Forall (fun o => ~ freezing o) h -> trainable (do_all h s).
Proof. intros h s. apply train_all. Qed.

(** The kernels are never trainable, in any history of any CCA. *)
Theorem C89_kernels : forall a h p, let s := do_all h (new_cca a) in In p (kernel_params s) -> gr_flag s p = false.
Proof.
  intros a h p s H. apply (off_all h (new_cca a)); [|exact H]. apply (proj2 off_load_init).
Qed.

(** An optimizer given parameters() sees the whole rule, unless functions were added without
    include_parameters. *)
Theorem C89_registered : forall a h, Forall (fun o => ~ adding o) h ->
  let s := do_all h (new_cca a) in incl (rule_params s) (parameters s).
Proof. intros a h A s. apply known_parameters, known_all; [apply known_init|exact A]. Qed.

Theorem C89_unregistered_refuted : exists a k p,
  let s := do_all [AddGen k] (new_cca a) in In p (rule_params s) /\ gr_flag s p = true /\ ~ In p (parameters s).
Proof.
  exists (mkArgs false [(2, 2)] None false), 2, 7. vm_compute. split; [auto 10|]. split; [reflexivity|].
  intuition discriminate.
Qed.

(** no_grad does not keep an automaton frozen when a function is added afterwards. *)
Theorem C89_added_refuted : exists a h, In NoGrad h /\ ~ frozen (do_all h (new_cca a)).
Proof.
  exists (mkArgs false [] None false), [NoGrad; AddPer 1]. split; [left; reflexivity|].
  intros [_ F]. specialize (F 3). vm_compute in F. assert (true = false) by (apply F; auto 10). discriminate.
Qed.

(** Training in the halting wrapper never changes the rule under evaluation: its step begins
    with set_params, and none of the optimizer's steps touches what the automaton computes with,
    whatever the optimizer holds and whatever was done to the automaton before. *)
Theorem C89_evaluation : forall V a h held us (v : nat -> V) p,
  let s := set_params (do_all h (new_cca a)) in
  In p (all_params s) -> fold_left (fun v upd => opt_step V held (gr_flag s) upd v) us v p = v p.
Proof.
  intros V a h held us v p s H. apply opts_frozen. apply (proj2 (freezes SetParams (do_all h (new_cca a)) I)). exact H.
Qed.

(** Without set_params it could: the parameters of a CCA made with use_grad are open to it. *)
Example C89_evaluation_open : exists p,
  let s := new_cca (mkArgs true [(2, 2)] None false) in
  In p (all_params s) /\ opt_step nat (parameters s) (gr_flag s) (fun _ => S) (fun _ => 0) p = 1.
Proof. exists 3. vm_compute. auto 20. Qed.

(** Neural automata: a new one is frozen whatever use_grad says, and the weights are trainable
    exactly when yes_grad was called and nothing that freezes or replaces them came after. The
    kernels never are. *)
Theorem C89_neural : forall use h, ng_kernels (n_all h (new_nca use)) = false /\ (ng_w (n_all h (new_nca use)) = true <-> switched_on h).
Proof.
  intros use h. split; [rewrite n_kernels; reflexivity|]. apply n_switched. reflexivity.
Qed.

(** use_grad itself is what the last call that switches gradients says: new weights leave it alone. *)
Theorem C89_neural_use : forall use h,
  (Forall (fun o => o = NSteady \/ o = NWeights) h -> ng_use (n_all h (new_nca use)) = use) /\
  (forall h1 o h2, h = h1 ++ o :: h2 -> o <> NSteady -> o <> NWeights -> Forall (fun o => o = NSteady \/ o = NWeights) h2 ->
    (ng_use (n_all h (new_nca use)) = true <-> o = NYesGrad)).
Proof.
  assert (K : forall h s, Forall (fun o => o = NSteady \/ o = NWeights) h -> ng_use (n_all h s) = ng_use s).
  { intros h. induction h as [|o h IH]; intros s F; [reflexivity|]. inversion_clear F as [|? ? Ho Fh]. change (n_all (o :: h) s) with (n_all h (n_act o s)). rewrite IH by exact Fh. destruct Ho as [-> | ->]; reflexivity. }
  intros use h. split; [intros F; rewrite K by exact F; reflexivity|]. intros h1 o h2 -> A B F. rewrite n_all_app. change (n_all (o :: h2) ?s) with (n_all h2 (n_act o s)). rewrite K by exact F.
  destruct o; cbn; split; intros; congruence.
Qed.

Example C89_neural_use_case : ng_use (n_all [NYesGrad; NWeights; NSteady] (new_nca false)) = true /\ ng_w (n_all [NYesGrad; NWeights; NSteady] (new_nca false)) = false.
Proof. split; reflexivity. Qed.

(** The preparation of a network in clone.py: yes_grad, to_device, yes_grad. *)
Example C89_clone : ng_w (n_all [NSteady; NYesGrad; NSteady; NToDevice; NYesGrad; NSteady] (new_nca false)) = true /\
  ng_w (n_all [NYesGrad; NToDevice] (new_nca true)) = false.
Proof. split; reflexivity. Qed.

(** A CCA made with use_grad from three channels, given a step size, a step and then a nested
    configuration. *)
Example C89_history :
  let s := new_cca (mkArgs true [(2, 2); (2, 2); (2, 2)] None false) in
  trainable (do_all [Steady; NewWeights; AddGen 4; Include] s) /\
  frozen (do_all ([Steady; AddPer 2] ++ LoadConfig (mkConf (Some (mkArgs true [(2, 2)] (Some (mkConf None 4 6)) false)) 2 2) :: [Include; NewWeights]) s).
Proof.
  cbv zeta. split.
  - apply C89_stays_trainable; [apply C89_new; reflexivity|]. repeat constructor; cbn; auto.
  - apply C89_frozen_after; [exact I|]. repeat constructor; cbn; auto.
Qed.
Print Assumptions C89_frozen_by.
Print Assumptions C89_stays_frozen.
Print Assumptions C89_frozen_after.
Print Assumptions C89_no_way_back.
Print Assumptions C89_new.
Print Assumptions C89_stays_trainable.
Print Assumptions C89_kernels.
Print Assumptions C89_registered.
Print Assumptions C89_unregistered_refuted.
Print Assumptions C89_added_refuted.
Print Assumptions C89_evaluation.
Print Assumptions C89_neural.
Print Assumptions C89_neural_use.
