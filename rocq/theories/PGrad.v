(** Proofs about trainable parameters. *)
From Coq Require Import List Bool Arith Lia.
From Verif Require Import Base MGrad SGrad.
Import ListNotations.

Lemma put_in b l f p : In p l -> put_flags b l f p = b.
Proof. intro H. unfold put_flags. destruct (in_dec _ _ _); [reflexivity|contradiction]. Qed.
Lemma put_out b l f p : ~ In p l -> put_flags b l f p = f p.
Proof. intro H. unfold put_flags. destruct (in_dec _ _ _); [contradiction|reflexivity]. Qed.
Lemma put_false l f p : f p = false -> put_flags false l f p = false.
Proof. intro H. unfold put_flags. destruct (in_dec _ _ _); auto. Qed.

Lemma no_grad_frozen s : frozen (no_grad s).
Proof.
  split; [reflexivity|]. unfold no_grad, all_params, kernel_params, rule_params, parameters; cbn.
  intros p H. rewrite !in_app_iff in H.
  destruct H as [H|[[H|H]|[H|[H|H]]]].
  1-3: do 3 apply put_false; apply put_in; rewrite !in_app_iff; auto.
  - apply put_false, put_in, H.
  - apply put_in, H.
  - do 2 apply put_false. apply put_in, H.
Qed.

Lemma freezes o s : freezing o -> frozen (do_act o s).
Proof.
  destruct o; intro F; try contradiction; cbn [do_act]; try apply no_grad_frozen.
  destruct c; apply no_grad_frozen.
Qed.

(** Frozen stays frozen. *)
Lemma alloc_false n s : gr_use (snd (alloc n false s)) = gr_use s.
Proof. reflexivity. Qed.

Lemma new_w_frozen s : frozen s -> frozen (new_w s).
Proof.
  intros [U F]. split; [exact U|]. intros p H.
  unfold new_w, alloc in *. cbn -[seq] in *. rewrite U.
  unfold all_params, kernel_params, rule_params in H. cbn -[seq] in H. rewrite !in_app_iff in H.
  destruct (in_dec Nat.eq_dec p (seq (gr_next s) 1)) as [I|I].
  - apply put_in, I.
  - rewrite put_out by exact I. apply F. unfold all_params, kernel_params, rule_params. rewrite !in_app_iff. tauto.
Qed.

Lemma register_in r k p q : In q (map snd (register r k p)) -> q = p \/ In q (map snd r).
Proof.
  unfold register. rewrite map_app, in_app_iff. intros [H|[H|[]]]; [right|left; auto].
  apply in_map_iff in H as (e & E & H). apply filter_In in H as [H _]. subst. apply in_map, H.
Qed.
Lemma register_fn_in kind i l : forall j r q, In q (map snd (register_fn kind i j l r)) -> In q l \/ In q (map snd r).
Proof.
  induction l as [|p l IH]; intros j r q H; cbn in *; [auto|].
  apply IH in H as [H|H]; [auto|]. apply register_in in H as [H|H]; auto.
Qed.
Lemma register_fns_in kind l : forall i r q, In q (map snd (register_fns kind i l r)) -> In q (List.concat l) \/ In q (map snd r).
Proof.
  induction l as [|p l IH]; intros i r q H; cbn in *; [auto|]. rewrite in_app_iff.
  apply IH in H as [H|H]; [auto|]. apply register_fn_in in H as [H|H]; auto.
Qed.

Lemma include_params s p : In p (all_params (include s)) -> In p (all_params s).
Proof.
  unfold all_params, kernel_params, rule_params, include; cbn. rewrite !in_app_iff.
  intros [H|H]; [|tauto].
  apply register_fns_in in H as [H|H]; [tauto|]. apply register_fns_in in H as [H|H]; tauto.
Qed.

Lemma include_frozen s : frozen s -> frozen (include s).
Proof. intros [U F]. split; [exact U|]. intros p H. apply (F p), include_params, H. Qed.

Lemma stays_frozen h : forall s, frozen s -> Forall (fun o => ~ adding o) h -> frozen (do_all h s).
Proof.
  induction h as [|o h IH]; intros s F A; cbn; [exact F|]. inversion A as [|? ? A1 A2]; subst.
  apply IH; [|exact A2].
  destruct o; cbn [adding] in A1; try (exfalso; apply A1; exact I); try (apply freezes; exact I); cbn [do_act].
  - apply include_frozen, F.
  - apply new_w_frozen, F.
  - exact F.
Qed.

(** Numbers in use lie below the next one, and flags are never switched on again. *)
Definition below_next (s : grads) : Prop := forall p, In p (all_params s) -> p < gr_next s.

(** [t] comes after [s]: no flag of an old parameter was switched on. *)
Definition later (s t : grads) : Prop := gr_next s <= gr_next t /\ forall p, p < gr_next s -> gr_flag s p = false -> gr_flag t p = false.
Lemma later_refl s : later s s.
Proof. split; auto. Qed.
Lemma later_trans a b c : later a b -> later b c -> later a c.
Proof. intros [L1 H1] [L2 H2]. split; [lia|]. intros p P F. apply H2; [lia|auto]. Qed.

Lemma seq_fresh s n p : In p (seq (gr_next s) n) -> gr_next s <= p < gr_next s + n.
Proof. rewrite in_seq. auto. Qed.

Lemma later_alloc n b s t : gr_next t = gr_next s + n -> gr_flag t = put_flags b (seq (gr_next s) n) (gr_flag s) -> later s t.
Proof.
  intros N F. split; [lia|]. intros p P H. rewrite F, put_out; [exact H|]. intro I. apply seq_fresh in I. lia.
Qed.

Lemma later_same s t : gr_next t = gr_next s -> gr_flag t = gr_flag s -> later s t.
Proof. intros N F. split; [lia|]. intros p P H. rewrite F. exact H. Qed.

Lemma later_no_grad s : later s (no_grad s).
Proof. split; [cbn; lia|]. intros p P H. cbn. do 4 apply put_false. exact H. Qed.

Lemma later_new_id s : later s (new_id s). Proof. apply (later_alloc 1 false); reflexivity. Qed.
Lemma later_new_nb s : later s (new_nb s). Proof. apply (later_alloc 1 false); reflexivity. Qed.
Lemma later_new_w s : later s (new_w s). Proof. apply (later_alloc 1 (gr_use s)); reflexivity. Qed.
Lemma later_add_gen k s : later s (add_gen k s). Proof. apply (later_alloc k true); reflexivity. Qed.
Lemma later_add_per k s : later s (add_per k s). Proof. apply (later_alloc k true); reflexivity. Qed.
Lemma later_include s : later s (include s). Proof. apply later_same; reflexivity. Qed.
Lemma later_set_radius s : later s (set_radius s).
Proof. eapply later_trans; [apply later_new_nb|apply later_no_grad]. Qed.
Lemma later_set_params s : later s (set_params s).
Proof. eapply later_trans; [apply later_no_grad|]. eapply later_trans; [apply later_new_nb|apply later_no_grad]. Qed.
Lemma later_add_pairs l : forall s, later s (add_pairs l s).
Proof.
  induction l as [|[g p] l IH]; intro s; cbn; [apply later_refl|].
  eapply later_trans; [apply later_add_gen|]. eapply later_trans; [apply later_add_per|]. apply IH.
Qed.
Lemma later_default_init fns s : later s (default_init fns s).
Proof.
  unfold default_init. eapply later_trans; [|apply later_include]. eapply later_trans; [|apply later_add_pairs].
  eapply later_trans; [|apply later_new_w]. eapply later_trans; [|apply later_new_nb]. eapply later_trans; [|apply later_new_id].
  apply later_same; reflexivity.
Qed.

(** The option arguments need their own hypotheses. *)
Section ConfInd.
  Variable P : conf -> Prop.
  Variable Q : args -> Prop.
  Hypothesis HN : forall g p, P (mkConf None g p).
  Hypothesis HS : forall a g p, Q a -> P (mkConf (Some a) g p).
  Hypothesis QN : forall u f i, Q (mkArgs u f None i).
  Hypothesis QS : forall u f c i, P c -> Q (mkArgs u f (Some c) i).
  Fixpoint conf_rec' (c : conf) : P c :=
    match c with
    | mkConf None g p => HN g p
    | mkConf (Some a) g p => HS a g p (args_rec' a)
    end
  with args_rec' (a : args) : Q a :=
    match a with
    | mkArgs u f None i => QN u f i
    | mkArgs u f (Some c) i => QS u f c i (conf_rec' c)
    end.
End ConfInd.

Lemma later_load_rest g p s1 :
  later s1 (to_device (include (new_w (add_per p (add_gen g (new_nb (set_radius (new_id
    (mkGr (gr_next s1) (gr_flag s1) (gr_use s1) (gr_id s1) (gr_nb s1) (gr_w s1) [] [] (gr_reg s1)))))))))).
Proof.
  eapply later_trans; [|apply later_no_grad]. eapply later_trans; [|apply later_include].
  eapply later_trans; [|apply later_new_w]. eapply later_trans; [|apply later_add_per].
  eapply later_trans; [|apply later_add_gen]. eapply later_trans; [|apply later_new_nb].
  eapply later_trans; [|apply later_set_radius]. eapply later_trans; [|apply later_new_id].
  apply later_same; reflexivity.
Qed.

Lemma later_init_rest i s1 s :
  later s s1 ->
  later s (let s3 := if i : bool then set_params s1 else s1 in if gr_use s3 then s3 else no_grad s3).
Proof.
  intro L. cbv zeta.
  assert (later s (if i then set_params s1 else s1)) as L2
    by (destruct i; [eapply later_trans; [exact L|apply later_set_params]|exact L]).
  destruct (gr_use _); [exact L2|]. eapply later_trans; [exact L2|apply later_no_grad].
Qed.

Lemma later_blank u s : later s (blank_module u s).
Proof. apply later_same; reflexivity. Qed.

Lemma later_load_init : (forall c s, later s (load_config c s)) /\ (forall a s, later s (init a s)).
Proof.
  assert (HN : forall g p s, later s (load_config (mkConf None g p) s)) by (intros; apply later_load_rest).
  assert (HS : forall a g p, (forall s, later s (init a s)) -> forall s, later s (load_config (mkConf (Some a) g p) s)).
  { intros a g p IH s. eapply later_trans; [apply IH|]. apply later_load_rest. }
  assert (QN : forall u f i s, later s (init (mkArgs u f None i) s)).
  { intros. apply later_init_rest. eapply later_trans; [apply later_blank|apply later_default_init]. }
  assert (QS : forall u f c i, (forall s, later s (load_config c s)) -> forall s, later s (init (mkArgs u f (Some c) i) s)).
  { intros u f c i IH s. apply later_init_rest. eapply later_trans; [|apply IH].
    eapply later_trans; [apply later_blank|apply later_default_init]. }
  split.
  - exact (conf_rec' (fun c => forall s, later s (load_config c s)) (fun a => forall s, later s (init a s)) HN HS QN QS).
  - exact (args_rec' (fun c => forall s, later s (load_config c s)) (fun a => forall s, later s (init a s)) HN HS QN QS).
Qed.

Lemma later_act o s : later s (do_act o s).
Proof.
  destruct o; cbn [do_act].
  - apply later_set_params.
  - apply (proj1 later_load_init).
  - apply later_set_radius.
  - apply later_no_grad.
  - apply later_no_grad.
  - apply later_include.
  - apply later_add_gen.
  - apply later_add_per.
  - apply later_new_w.
  - apply later_refl.
Qed.
Lemma later_all h : forall s, later s (do_all h s).
Proof.
  induction h as [|o h IH]; intro s; cbn; [apply later_refl|]. eapply later_trans; [apply later_act|apply IH].
Qed.

(** Kernels never require gradients. *)
Definition kernels_off (s : grads) : Prop := forall p, In p (kernel_params s) -> p < gr_next s /\ gr_flag s p = false.

Lemma off_later s t : kernels_off s -> later s t -> incl (kernel_params t) (kernel_params s) -> kernels_off t.
Proof. intros K [L H] I p P. apply I in P. destruct (K p P). split; [lia|auto]. Qed.

Lemma off_new_id s : kernels_off s -> kernels_off (new_id s).
Proof.
  intros K p H. unfold kernel_params, new_id in H. cbn in H.
  destruct H as [H|H].
  - subst p. split; [cbn; lia|]. cbn. apply put_in. left. reflexivity.
  - destruct (K p) as [P F]; [unfold kernel_params; apply in_or_app; auto|].
    destruct (later_new_id s) as [L G]. split; [lia|auto].
Qed.
Lemma off_new_nb s : kernels_off s -> kernels_off (new_nb s).
Proof.
  intros K p H. unfold kernel_params, new_nb in H. cbn in H. apply in_app_iff in H as [H|[H|[]]].
  - destruct (K p) as [P F]; [unfold kernel_params; apply in_or_app; auto|].
    destruct (later_new_nb s) as [L G]. split; [lia|auto].
  - subst p. split; [cbn; lia|]. cbn. apply put_in. left. reflexivity.
Qed.
Lemma off_same s t : kernels_off s -> later s t -> gr_id t = gr_id s -> gr_nb t = gr_nb s -> kernels_off t.
Proof. intros K L A B. eapply off_later; eauto. unfold kernel_params. rewrite A, B. apply incl_refl. Qed.
Lemma off_no_grad s : kernels_off s -> kernels_off (no_grad s).
Proof. intro K. apply (off_same s); auto. apply later_no_grad. Qed.
Lemma off_set_radius s : kernels_off s -> kernels_off (set_radius s).
Proof. intro K. apply off_no_grad, off_new_nb, K. Qed.
Lemma off_set_params s : kernels_off s -> kernels_off (set_params s).
Proof. intro K. apply off_no_grad, off_new_nb, off_no_grad, K. Qed.
Lemma off_new_w s : kernels_off s -> kernels_off (new_w s).
Proof. intro K. apply (off_same s); auto. apply later_new_w. Qed.
Lemma off_add_gen k s : kernels_off s -> kernels_off (add_gen k s).
Proof. intro K. apply (off_same s); auto. apply later_add_gen. Qed.
Lemma off_add_per k s : kernels_off s -> kernels_off (add_per k s).
Proof. intro K. apply (off_same s); auto. apply later_add_per. Qed.
Lemma off_include s : kernels_off s -> kernels_off (include s).
Proof. intro K. apply (off_same s); auto. apply later_include. Qed.
Lemma off_add_pairs l : forall s, kernels_off s -> kernels_off (add_pairs l s).
Proof. induction l as [|[g p] l IH]; intros s K; cbn [add_pairs]; [exact K|]. apply IH, off_add_per, off_add_gen, K. Qed.
Lemma off_default_init fns s : kernels_off s -> kernels_off (default_init fns s).
Proof.
  intro K. unfold default_init. apply off_include, off_add_pairs, off_new_w, off_new_nb, off_new_id.
  apply (off_same s); auto. apply later_same; reflexivity.
Qed.
Lemma off_blank u s : kernels_off (blank_module u s).
Proof. intros p []. Qed.

Lemma off_load_rest g p s1 : kernels_off s1 ->
  kernels_off (to_device (include (new_w (add_per p (add_gen g (new_nb (set_radius (new_id
    (mkGr (gr_next s1) (gr_flag s1) (gr_use s1) (gr_id s1) (gr_nb s1) (gr_w s1) [] [] (gr_reg s1)))))))))).
Proof.
  intro K. apply off_no_grad, off_include, off_new_w, off_add_per, off_add_gen, off_new_nb, off_set_radius, off_new_id.
  apply (off_same s1); auto. apply later_same; reflexivity.
Qed.
Lemma off_init_rest i s1 : kernels_off s1 ->
  kernels_off (let s3 := if i : bool then set_params s1 else s1 in if gr_use s3 then s3 else no_grad s3).
Proof.
  intro K. cbv zeta. assert (kernels_off (if i then set_params s1 else s1)) as K2 by (destruct i; [apply off_set_params|]; exact K).
  destruct (gr_use _); [exact K2|apply off_no_grad, K2].
Qed.

Lemma off_load_init : (forall c s, kernels_off s -> kernels_off (load_config c s)) /\ (forall a s, kernels_off (init a s)).
Proof.
  set (P := fun c => forall s, kernels_off s -> kernels_off (load_config c s)).
  set (Q := fun a => forall s, kernels_off (init a s)).
  assert (HN : forall g p, P (mkConf None g p)) by (intros g p s K; apply off_load_rest, K).
  assert (HS : forall a g p, Q a -> P (mkConf (Some a) g p)).
  { intros a g p IH s _. apply off_load_rest, IH. }
  assert (QN : forall u f i, Q (mkArgs u f None i)).
  { intros u f i s. apply off_init_rest, off_default_init, off_blank. }
  assert (QS : forall u f c i, P c -> Q (mkArgs u f (Some c) i)).
  { intros u f c i IH s. apply off_init_rest, IH, off_default_init, off_blank. }
  split; [exact (conf_rec' P Q HN HS QN QS)|exact (args_rec' P Q HN HS QN QS)].
Qed.

Lemma off_all h : forall s, kernels_off s -> kernels_off (do_all h s).
Proof.
  induction h as [|o h IH]; intros s K; cbn; [exact K|]. apply IH.
  destruct o; cbn [do_act];
    auto using off_set_params, off_set_radius, off_no_grad, off_include, off_add_gen, off_add_per, off_new_w.
  apply (proj1 off_load_init), K.
Qed.

(** Trainable automata. *)
Lemma put_true l f p : f p = true -> put_flags true l f p = true.
Proof. intro H. unfold put_flags. destruct (in_dec _ _ _); auto. Qed.

Definition on (s : grads) (l : list nat) : Prop := forall p, In p l -> gr_flag s p = true.

Lemma train_add_gen k s : trainable s -> trainable (add_gen k s).
Proof.
  intros [U T]. split; [exact U|]. intros p H. unfold add_gen, alloc in *. cbn -[seq] in *.
  unfold rule_params in H. cbn -[seq] in H. rewrite concat_app, !in_app_iff in H. cbn -[seq] in H. rewrite app_nil_r in H.
  destruct H as [[H|H]|H]; [apply put_true, T; unfold rule_params; rewrite !in_app_iff; auto|apply put_in, H|].
  apply put_true, T. unfold rule_params. rewrite !in_app_iff. tauto.
Qed.
Lemma train_add_per k s : trainable s -> trainable (add_per k s).
Proof.
  intros [U T]. split; [exact U|]. intros p H. unfold add_per, alloc in *. cbn -[seq] in *.
  unfold rule_params in H. cbn -[seq] in H. rewrite concat_app, !in_app_iff in H. cbn -[seq] in H. rewrite app_nil_r in H.
  destruct H as [H|[[H|H]|H]]; try (apply put_in, H); apply put_true, T; unfold rule_params; rewrite !in_app_iff; tauto.
Qed.
Lemma train_new_w s : gr_use s = true -> on s (List.concat (gr_gen s) ++ List.concat (gr_per s)) -> trainable (new_w s).
Proof.
  intros U T. split; [exact U|]. intros p H. unfold new_w, alloc in *. cbn -[seq] in *. rewrite U.
  unfold rule_params in H. cbn -[seq] in H. rewrite !in_app_iff in H.
  destruct H as [H|[H|H]]; try (apply put_in, H); apply put_true, T; rewrite in_app_iff; tauto.
Qed.
Lemma train_add_pairs l : forall s, trainable s -> trainable (add_pairs l s).
Proof. induction l as [|[g p] l IH]; intros s T; cbn [add_pairs]; [exact T|]. apply IH, train_add_per, train_add_gen, T. Qed.

Lemma train_default fns s : gr_use s = true -> trainable (default_init fns s).
Proof.
  intro U. unfold default_init.
  assert (T : trainable (add_pairs fns (new_w (new_nb (new_id
    (mkGr (gr_next s) (gr_flag s) (gr_use s) (gr_id s) (gr_nb s) (gr_w s) [] [] (gr_reg s)))))))
    by (apply train_add_pairs, train_new_w; [exact U|intros p []]).
  exact T.
Qed.

Lemma train_all h : forall s, trainable s -> Forall (fun o => ~ freezing o) h -> trainable (do_all h s).
Proof.
  induction h as [|o h IH]; intros s T A; cbn; [exact T|]. inversion A as [|? ? A1 A2]; subst. apply IH; [|exact A2].
  destruct o; cbn [freezing] in A1; try (exfalso; apply A1; exact I); cbn [do_act].
  - exact T.
  - apply train_add_gen, T.
  - apply train_add_per, T.
  - destruct T as [U T]. apply train_new_w; [exact U|]. intros p H. apply T. unfold rule_params. rewrite in_app_iff in *.
    rewrite in_app_iff. tauto.
  - exact T.
Qed.

(** Registration. *)
Lemma key_eqb_eq a b : key_eqb a b = true <-> a = b.
Proof.
  destruct a as [[a1 a2] a3], b as [[b1 b2] b3]. unfold key_eqb. cbn. rewrite !andb_true_iff, eqb_true_iff, !Nat.eqb_eq.
  split; [intros [[A B] C]; subst; reflexivity|intro E; inversion E; auto].
Qed.
Lemma register_keeps r k p k' q : In (k', q) r -> k' <> k -> In (k', q) (register r k p).
Proof.
  intros H N. unfold register. apply in_or_app. left. apply filter_In. split; [exact H|]. cbn.
  destruct (key_eqb k' k) eqn:E; [apply key_eqb_eq in E; contradiction|reflexivity].
Qed.
Lemma register_has r k p : In (k, p) (register r k p).
Proof. unfold register. apply in_or_app. right. left. reflexivity. Qed.

Lemma register_fn_keeps kind i l : forall j r k q, In (k, q) r -> (forall m, j <= m -> k <> (kind, i, m)) -> In (k, q) (register_fn kind i j l r).
Proof.
  induction l as [|p l IH]; intros j r k q H N; cbn; [exact H|].
  apply IH; [apply register_keeps; [exact H|apply N; lia]|]. intros m M. apply N. lia.
Qed.
Lemma register_fn_has kind i l : forall j r q, In q l -> exists m, In ((kind, i, m), q) (register_fn kind i j l r).
Proof.
  induction l as [|p l IH]; intros j r q H; [contradiction|]. cbn. destruct H as [H|H].
  - subst p. exists j. apply register_fn_keeps; [apply register_has|]. intros m M E. inversion E. lia.
  - apply IH, H.
Qed.
Lemma register_fns_keeps kind l : forall i r k q, In (k, q) r -> (forall n m, i <= n -> k <> (kind, n, m)) -> In (k, q) (register_fns kind i l r).
Proof.
  induction l as [|f l IH]; intros i r k q H N; cbn; [exact H|].
  apply IH; [apply register_fn_keeps; [exact H|intros m _; apply N; lia]|]. intros n m L. apply N. lia.
Qed.
Lemma register_fns_has kind l : forall i r q, In q (List.concat l) -> exists n m, In ((kind, n, m), q) (register_fns kind i l r).
Proof.
  induction l as [|f l IH]; intros i r q H; [contradiction|]. cbn in *. apply in_app_iff in H as [H|H].
  - destruct (register_fn_has kind i f 0 r q H) as [m M]. exists i, m.
    apply register_fns_keeps; [exact M|]. intros n m' L E. inversion E. lia.
  - apply IH, H.
Qed.

Lemma include_has s p : In p (List.concat (gr_gen s) ++ List.concat (gr_per s)) -> In p (map snd (gr_reg (include s))).
Proof.
  intro H. apply in_app_iff in H as [H|H]; unfold include; cbn [gr_reg].
  - destruct (register_fns_has true (gr_gen s) 0 (gr_reg s) p H) as (n & m & I).
    apply in_map_iff. exists ((true, n, m), p). split; [reflexivity|].
    apply register_fns_keeps; [exact I|]. intros n' m' _ E. inversion E.
  - destruct (register_fns_has false (gr_per s) 0 (register_fns true 0 (gr_gen s) (gr_reg s)) p H) as (n & m & I).
    apply in_map_iff. exists ((false, n, m), p). auto.
Qed.

(** All parameters of the rule are registered. *)
Definition known (s : grads) : Prop := incl (List.concat (gr_gen s) ++ List.concat (gr_per s)) (map snd (gr_reg s)).
Lemma known_include s : known (include s).
Proof. intros p H. apply include_has, H. Qed.
Lemma known_parameters s : known s -> incl (rule_params s) (parameters s).
Proof.
  intros K p H. unfold rule_params in H. rewrite app_assoc, in_app_iff in H. unfold parameters. rewrite !in_app_iff.
  destruct H as [H|H]; [left; apply K, H|]. tauto.
Qed.

Lemma known_no_grad s : known s -> known (no_grad s).
Proof. intros K p H. exact (K p H). Qed.
Lemma known_new_nb s : known s -> known (new_nb s).
Proof. intros K p H. exact (K p H). Qed.
Lemma known_set_params s : known s -> known (set_params s).
Proof. intro K. apply known_no_grad, known_new_nb, known_no_grad, K. Qed.
Lemma known_load c s : known (load_config c s).
Proof. destruct c. cbn [load_config]. cbv zeta. apply known_no_grad, known_include. Qed.

Lemma known_init a s : known (init a s).
Proof.
  destruct a as [u f ca i]. cbn [init]. cbv zeta.
  assert (K : known (match ca with Some c => load_config c (default_init f (blank_module u s)) | None => default_init f (blank_module u s) end)).
  { destruct ca; [apply known_load|]. apply known_include. }
  revert K. generalize (match ca with Some c => load_config c (default_init f (blank_module u s)) | None => default_init f (blank_module u s) end).
  intros t K. assert (K2 : known (if i then set_params t else t)) by (destruct i; [apply known_set_params|]; exact K).
  destruct (gr_use _); [exact K2|apply known_no_grad, K2].
Qed.

Lemma known_all h : forall s, known s -> Forall (fun o => ~ adding o) h -> known (do_all h s).
Proof.
  induction h as [|o h IH]; intros s K A; cbn; [exact K|]. inversion A as [|? ? A1 A2]; subst. apply IH; [|exact A2].
  destruct o; cbn [adding] in A1; try (exfalso; apply A1; exact I); cbn [do_act].
  - apply known_set_params, K.
  - apply known_load.
  - apply known_no_grad, known_new_nb, K.
  - apply known_no_grad, K.
  - apply known_no_grad, K.
  - apply known_include.
  - intros p H. exact (K p H).
  - exact K.
Qed.

(** An automaton made from a configuration or from a file of parameters is frozen. *)
Lemma init_config u f c i s : frozen (init (mkArgs u f (Some c) i) s).
Proof.
  cbn [init]. cbv zeta.
  assert (F : frozen (load_config c (default_init f (blank_module u s)))) by (apply (freezes (LoadConfig c)); exact I).
  destruct i.
  - destruct (gr_use _); [|apply no_grad_frozen]. apply (freezes SetParams); exact I.
  - destruct (gr_use _); [exact F|apply no_grad_frozen].
Qed.
Lemma init_input u f ca s : frozen (init (mkArgs u f ca true) s).
Proof.
  cbn [init]. cbv zeta. destruct (gr_use _); [|apply no_grad_frozen]. apply (freezes SetParams); exact I.
Qed.
Lemma add_pairs_use l : forall s, gr_use (add_pairs l s) = gr_use s.
Proof. induction l as [|[g p] l IH]; intro s; cbn [add_pairs]; [reflexivity|]. rewrite IH. reflexivity. Qed.
Lemma init_off f ca i s : frozen (init (mkArgs false f ca i) s).
Proof.
  destruct ca as [c|]; [apply init_config|]. destruct i; [apply init_input|].
  cbn [init]. cbv zeta. change (gr_use (default_init f (blank_module false s))) with
    (gr_use (add_pairs f (new_w (new_nb (new_id (mkGr (gr_next s) (gr_flag s) false [] [] [] [] [] [])))))).
  rewrite add_pairs_use. apply no_grad_frozen.
Qed.
Lemma init_on f s : trainable (init (mkArgs true f None false) s).
Proof.
  cbn [init]. cbv zeta. pose proof (train_default f (blank_module true s) eq_refl) as T.
  destruct (gr_use _) eqn:E; [exact T|]. destruct T as [U _]. congruence.
Qed.

(** Neural automata. *)
Lemma n_all_app h1 h2 s : n_all (h1 ++ h2) s = n_all h2 (n_all h1 s).
Proof. apply fold_left_app. Qed.
Lemma n_kernels h : forall s, ng_kernels (n_all h s) = ng_kernels s.
Proof. induction h as [|o h IH]; intro s; cbn; [reflexivity|]. etransitivity; [apply IH|]. destruct o; reflexivity. Qed.

Lemma n_switched h : forall s, ng_w s = false -> (ng_w (n_all h s) = true <-> switched_on h).
Proof.
  induction h as [|o h IH] using rev_ind; intros s W.
  - cbn. rewrite W. split; [discriminate|]. intros (h1 & h2 & E & _). destruct h1; discriminate.
  - rewrite n_all_app. cbn.
    assert (C : switched_on (h ++ [o]) <-> o = NYesGrad \/ (o = NSteady /\ switched_on h)).
    { split.
      - intros (h1 & h2 & E & F). destruct (exists_last (l := NYesGrad :: h2)) as (l & x & X); [discriminate|].
        rewrite X, app_assoc in E. apply app_inj_tail in E as [E1 E2]. subst x.
        destruct h2 as [|y h2]; cbn in X.
        + destruct l as [|? l]; [inversion X; auto|destruct l; discriminate].
        + destruct l as [|z l]; [discriminate|]. injection X as X1 X2.
          assert (Forall (fun o => o = NSteady \/ o = NYesGrad) (l ++ [o])) as F' by (rewrite <- X2; exact F).
          apply Forall_app in F' as [F1 F2]. inversion F2 as [|? ? [F3|F3] _]; subst; auto.
          right. split; [reflexivity|]. exists h1, l. auto.
      - intros [E|[E (h1 & h2 & E1 & F)]]; subst.
        + exists h, []. split; [reflexivity|constructor].
        + exists h1, (h2 ++ [NSteady]). rewrite <- app_assoc. split; [reflexivity|]. apply Forall_app. auto. }
    rewrite C. destruct o; cbn; try (split; [discriminate|intros [E|[E _]]; discriminate]).
    + split; auto.
    + rewrite (IH s W). split; [auto|]. intros [E|[_ H]]; [discriminate|exact H].
Qed.

(** Optimizer steps. *)
Lemma opt_frozen V held flag upd (v : nat -> V) p : flag p = false -> opt_step V held flag upd v p = v p.
Proof. intro F. unfold opt_step. destruct (in_dec _ _ _); [rewrite F|]; reflexivity. Qed.
Lemma opts_frozen V held flag us : forall (v : nat -> V) p, flag p = false ->
  fold_left (fun v upd => opt_step V held flag upd v) us v p = v p.
Proof.
  induction us as [|u us IH]; intros v p F; cbn; [reflexivity|]. rewrite IH by exact F. apply opt_frozen, F.
Qed.
