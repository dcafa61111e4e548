(** Proofs about devices. *)
From Coq Require Import List Bool Arith Lia.
From Verif Require Import Base MDevice SDevice.
Import ListNotations.

Lemma deq_eq a b : deq a b = true <-> a = b.
Proof.
  destruct a as [|m], b as [|n]; cbn; split; intro H; try discriminate; try reflexivity.
  - apply Nat.eqb_eq in H. now subst.
  - injection H as ->. apply Nat.eqb_refl.
Qed.

Lemma deq_refl a : deq a a = true.
Proof. now apply deq_eq. Qed.

Lemma deq_neq a b : deq a b = false <-> a <> b.
Proof. rewrite <- deq_eq. now destruct (deq a b). Qed.

Definition restb (g : device) (o : opnd) : bool := loose o || deq (o_dev o) g.

Lemma restb_rests g o : restb g o = true <-> rests g o.
Proof.
  unfold restb, rests, loose. rewrite orb_true_iff, andb_true_iff, !deq_eq. tauto.
Qed.

Lemma forallb_rests g l : forallb (restb g) l = true <-> Forall (rests g) l.
Proof. rewrite forallb_forall, Forall_forall. split; intros H x I; apply restb_rests, H, I. Qed.

Lemma loose_grid g : loose (grid g) = false.
Proof. unfold loose, grid; cbn. now rewrite andb_false_r. Qed.

Lemma pick_bound os o : In o os -> loose o = false ->
  exists p, In p os /\ loose p = false /\ pick os = o_dev p.
Proof.
  induction os as [|a t IH]; intros I L; [destruct I|]. cbn.
  destruct (loose a) eqn:E.
  - destruct I as [->|I]; [congruence|]. destruct (IH I L) as (p & P & Q & R).
    exists p. split; [now right|]. now split.
  - exists a. split; [now left|]. now split.
Qed.

Lemma blend_at g os : In (grid g) os -> blend os = if forallb (restb g) os then Ok (grid g) else Err RuntimeError.
Proof.
  intro I. unfold blend. destruct (pick_bound os _ I (loose_grid g)) as (p & P & Q & R). rewrite R.
  destruct (deq (o_dev p) g) eqn:E.
  - apply deq_eq in E. rewrite E. fold (restb g).
    change (forallb (fun o => loose o || deq (o_dev o) g) os) with (forallb (restb g) os).
    destruct (forallb (restb g) os); [|reflexivity].
    assert (F : forallb o_zero os = false).
    { apply not_true_is_false. intro F. rewrite forallb_forall in F. specialize (F _ I). discriminate F. }
    now rewrite F.
  - change (forallb (fun o => loose o || deq (o_dev o) (o_dev p)) os) with (forallb (restb (o_dev p)) os).
    replace (forallb (restb (o_dev p)) os) with false.
    + replace (forallb (restb g) os) with false; [reflexivity|]. symmetry. apply not_true_is_false.
      intro F. rewrite forallb_forall in F. specialize (F _ P). unfold restb in F. rewrite Q, E in F. discriminate F.
    + symmetry. apply not_true_is_false. intro F. rewrite forallb_forall in F. specialize (F _ I).
      unfold restb in F. rewrite loose_grid in F. cbn in F. apply deq_eq in F.
      rewrite F, deq_refl in E. discriminate E.
Qed.

Lemma restb_grid g d : restb g (grid d) = deq d g.
Proof. unfold restb. now rewrite loose_grid. Qed.

(** ** A step *)

Definition fnb (g : device) (f : gfn) : bool := forallb (restb g) (f_own f ++ f_free f).

Lemma growth_eq d fs g : growth (grid d) fs (grid g) =
  if forallb (fnb g) fs && (match fs with [] => true | _ => deq d g end) then Ok (grid d) else Err RuntimeError.
Proof.
  revert d. induction fs as [|f t IH]; intro d; cbn; [reflexivity|].
  unfold grow. rewrite (blend_at g) by now left. cbn [forallb]. rewrite restb_grid, deq_refl.
  cbn [andb]. fold (fnb g f). destruct (fnb g f); cbn; [|reflexivity].
  unfold glue. cbn. destruct (deq d g) eqn:E; cbn; [|now rewrite andb_false_r].
  rewrite IH. rewrite E. destruct t; cbn; now rewrite ?andb_true_r.
Qed.

Definition stepb (s : cca) (g : device) : bool :=
  deq (c_id s) g && deq (c_nb s) g && deq (c_w s) g && deq (c_my s) g
  && forallb (fnb g) (c_gen s) && forallb (fnb g) (c_per s) && forallb (restb g) (time s).

Lemma step_eq s g : step s (grid g) = if stepb s g then Ok (grid g) else Err RuntimeError.
Proof.
  unfold step, stepb, update. unfold conv at 1 2. cbn [o_dev grid].
  destruct (deq (c_id s) g) eqn:E1; cbn; [|reflexivity].
  destruct (deq (c_nb s) g) eqn:E2; cbn; [|reflexivity].
  apply deq_eq in E1, E2. fold (grid (c_id s)). fold (grid (c_nb s)).
  change (mkOpnd (c_my s) false) with (grid (c_my s)).
  rewrite E1, E2. rewrite !growth_eq.
  destruct (deq (c_my s) g) eqn:E3.
  2:{ rewrite !andb_false_r. cbn. destruct (c_gen s) as [|f l]; cbn [forallb andb].
      - cbn. unfold blend, pick. rewrite !loose_grid. cbn. rewrite deq_refl, orb_true_r. cbn.
        rewrite E3. unfold loose. cbn. rewrite andb_false_r. reflexivity.
      - rewrite andb_false_r. reflexivity. }
  apply deq_eq in E3. rewrite E3.
  replace (match c_gen s with [] => true | _ :: _ => true end) with true by now destruct (c_gen s).
  replace (match c_per s with [] => true | _ :: _ => true end) with true by now destruct (c_per s).
  rewrite !andb_true_r.
  destruct (forallb (fnb g) (c_gen s)); cbn [bind andb]; [|now rewrite !andb_false_r].
  rewrite (blend_at g) by now left. cbn [forallb]. rewrite restb_grid, deq_refl. cbn [andb bind].
  destruct (forallb (fnb g) (c_per s)); cbn [bind andb]; [|now rewrite !andb_false_r].
  rewrite !(blend_at g) by now left. cbn [forallb]. rewrite restb_grid, deq_refl. cbn [andb bind].
  rewrite !(blend_at g) by now left. cbn [forallb]. rewrite restb_grid, deq_refl. cbn [andb bind].
  unfold conv. cbn [o_dev grid]. destruct (deq (c_w s) g) eqn:E4; cbn [bind andb]; [|reflexivity].
  apply deq_eq in E4. rewrite E4. change (mkOpnd g false) with (grid g).
  fold (time s). rewrite !(blend_at g) by now left. cbn [forallb]. rewrite restb_grid, deq_refl. cbn [andb].
  destruct (forallb (restb g) (time s)); cbn [bind]; [|reflexivity].
  rewrite !(blend_at g) by now left. cbn [forallb]. now rewrite restb_grid, deq_refl.
Qed.

Lemma fns_forall g fs : forallb (fnb g) fs = true <-> Forall (rests g) (flat_map f_own fs ++ flat_map f_free fs).
Proof.
  induction fs as [|f t IH]; cbn; [split; auto|].
  rewrite andb_true_iff, IH. unfold fnb. rewrite forallb_rests, !Forall_app. tauto.
Qed.

Lemma stepb_together s g : stepb s g = true <-> together g s.
Proof.
  unfold stepb, together. rewrite !andb_true_iff, !deq_eq, !fns_forall, forallb_rests. unfold owns, frees.
  rewrite !Forall_app. tauto.
Qed.

Lemma runs_iff s g : runs_on s g <-> together g s.
Proof.
  unfold runs_on. rewrite step_eq, <- stepb_together. destruct (stepb s g); split; intro H; try reflexivity; discriminate H.
Qed.

Lemma runs_or s g : runs_on s g \/ step s (grid g) = Err RuntimeError.
Proof. unfold runs_on. rewrite step_eq. destruct (stepb s g); auto. Qed.

Lemma stuck_iff s : stuck s <-> forall g, ~ runs_on s g.
Proof.
  unfold stuck. split; intros H g.
  - unfold runs_on. rewrite H. discriminate.
  - destruct (runs_or s g) as [R|R]; [now apply H in R|exact R].
Qed.

Lemma run_eq n s g : run (S n) s (grid g) = if stepb s g then Ok (grid g) else Err RuntimeError.
Proof.
  induction n as [|n IH]; cbn [run]; rewrite step_eq.
  - now destruct (stepb s g).
  - cbn [run] in IH. rewrite step_eq in IH. destruct (stepb s g) eqn:E; cbn in *; [|reflexivity].
    rewrite step_eq, E. cbn. destruct n; cbn in *; exact IH.
Qed.

(** ** Moving *)

Lemma send_send d e o : send d (send e o) = send d o.
Proof. reflexivity. Qed.

Lemma rests_send d o : rests d (send d o).
Proof. now left. Qed.

Lemma own_fsend d fs : Forall (rests d) (flat_map f_own (map (fsend d) fs)).
Proof.
  induction fs as [|f t IH]; cbn; [constructor|]. apply Forall_app. split; [|exact IH].
  apply Forall_forall. intros x I. apply in_map_iff in I. destruct I as (y & <- & _). apply rests_send.
Qed.

Lemma free_fsend d fs : flat_map f_free (map (fsend d) fs) = flat_map f_free fs.
Proof. induction fs as [|f t IH]; cbn; [reflexivity|]. now rewrite IH. Qed.

Lemma free_reg d fs : flat_map f_free (map (fun f => if f_reg f then fsend d f else f) fs) = flat_map f_free fs.
Proof. induction fs as [|f t IH]; cbn; [reflexivity|]. rewrite IH. now destruct (f_reg f). Qed.

Lemma frees_to d s : frees (to_device d s) = frees s.
Proof. unfold frees, to_device; cbn. now rewrite !free_fsend, !free_reg. Qed.

Lemma owns_to d s : Forall (rests d) (owns (to_device d s)).
Proof. unfold owns, to_device; cbn. apply Forall_app. split; apply own_fsend. Qed.

Lemma moved d s g : runs_on (to_device d s) g <-> g = d /\ Forall (rests d) (time s ++ frees s).
Proof.
  rewrite runs_iff. unfold together. cbn [c_id c_nb c_w c_my to_device]. rewrite frees_to.
  change (time (to_device d s)) with (time s).
  split.
  - intros (E & _ & _ & _ & F). subst g. split; [reflexivity|]. rewrite app_assoc in F. now apply Forall_app in F.
  - intros (-> & F). repeat split. rewrite app_assoc. apply Forall_app. split; [exact F|apply owns_to].
Qed.

(** ** Histories *)

Definition tells (s : cca) (m : memo) : Prop :=
  c_my s = m_home m /\ c_id s = m_layers m /\ c_nb s = m_layers m /\ c_w s = m_layers m /\ c_dt s = Some (m_dt m)
  /\ (forall g, Forall (rests g) (frees s) <-> Forall (rests g) (m_free m))
  /\ (Forall (rests (m_home m)) (owns s) <-> Forall (rests (m_home m)) (m_new m)).

Lemma tells_to d s m : tells s m -> tells (to_device d s) (mkMemo d d (m_dt m) (m_free m) []).
Proof.
  intros (_ & _ & _ & _ & T & F & _). unfold tells. cbn [c_id c_nb c_w c_my c_dt to_device module_to m_home m_layers m_dt m_free m_new].
  do 4 (split; [reflexivity|]). split; [exact T|]. rewrite frees_to. split; [exact F|].
  split; intros _; [constructor|apply owns_to].
Qed.

Lemma frees_rebuild g p z s : frees (rebuild g p z s) = f_free g ++ f_free p.
Proof.
  unfold rebuild. rewrite frees_to. unfold frees; cbn. now rewrite !app_nil_r.
Qed.

Lemma tells_rebuild g p z s : tells (rebuild g p z s) (mkMemo (c_my s) (c_my s) (mkOpnd (c_my s) z) (f_free g ++ f_free p) []).
Proof.
  unfold tells. rewrite frees_rebuild. cbn [m_home m_layers m_dt m_free m_new].
  do 5 (split; [reflexivity|]). split; [now intros|]. split; intros _; [constructor|]. apply owns_to.
Qed.

Lemma drawn_own n k : Forall (fun o => o_dev o = Cpu) (flat_map f_own (map drawn (seq k n))).
Proof.
  revert k. induction n as [|n IH]; intro k; cbn; [constructor|]. apply Forall_app. split; [|apply IH].
  unfold drawn. destruct (Nat.ltb k 8); cbn; repeat constructor.
Qed.

Lemma yes_own fs : flat_map f_own (map (fun f => mkGfn (f_own f) (f_free f) true) fs) = flat_map f_own fs.
Proof. induction fs as [|f t IH]; cbn; [reflexivity|]. now rewrite IH. Qed.

Lemma yes_free fs : flat_map f_free (map (fun f => mkGfn (f_own f) (f_free f) true) fs) = flat_map f_free fs.
Proof. induction fs as [|f t IH]; cbn; [reflexivity|]. now rewrite IH. Qed.

Lemma owns_register s : owns (register s) = owns s.
Proof. unfold owns, register; cbn. now rewrite !yes_own. Qed.

Lemma frees_register s : frees (register s) = frees s.
Proof. unfold frees, register; cbn. now rewrite !yes_free. Qed.

Lemma drawn_free n k : flat_map f_free (map drawn (seq k n)) = [].
Proof.
  revert k. induction n as [|n IH]; intro k; cbn; [reflexivity|]. rewrite IH. unfold drawn.
  now destruct (Nat.ltb k 8).
Qed.

Lemma tells_default n d : tells (default_init n d)
  (mkMemo d Cpu (mkOpnd d true) [] (if Nat.eqb n 0 then [] else [mkOpnd Cpu false])).
Proof.
  unfold tells, default_init. rewrite owns_register, frees_register.
  cbn [m_home m_layers m_dt m_free m_new c_my c_id c_nb c_w c_dt register set_dt].
  do 5 (split; [reflexivity|]). unfold owns, frees; cbn [c_gen c_per set_dt].
  rewrite !drawn_free. split; [now intros|].
  destruct n as [|n]; [cbn; tauto|]. cbn [Nat.eqb]. split; intro F.
  - apply Forall_app in F. destruct F as [F _]. cbn in F. inversion F; subst. now constructor.
  - inversion F as [|? ? R _]; subst. assert (E : d = Cpu) by (destruct R as [R|[_ R]]; [now cbn in R|discriminate R]).
    subst d. apply Forall_app. split; (eapply Forall_impl; [|apply (drawn_own (S n) 0)]; intros o O; left; exact O).
Qed.

Lemma tells_renew s m : tells s m -> tells (renew_nb s) (mkMemo (m_home m) (m_home m) (m_dt m) (m_free m) []).
Proof.
  intro T. pose proof T as (H & _). unfold renew_nb. rewrite H.
  assert (Q : forall l, tells (to_device (m_home m) (fresh_nb s)) (mkMemo (m_home m) (m_home m) (m_dt m) (m_free m) l) <->
    tells (to_device (m_home m) s) (mkMemo (m_home m) (m_home m) (m_dt m) (m_free m) l)) by (intro l; reflexivity).
  apply Q. now apply tells_to.
Qed.

Lemma my_rebuild g p z s : c_my (rebuild g p z s) = c_my s.
Proof. reflexivity. Qed.

Lemma tells_load c s : tells (load c s)
  (mkMemo (c_my (load c s)) (c_my (load c s)) (mkOpnd (c_my (load c s)) (file_zero c)) (file_free c) []).
Proof. destruct c as [g p z|k g p z]; cbn [load file_zero file_free]; rewrite my_rebuild; apply tells_rebuild. Qed.

Scheme kwargs_mind := Induction for kwargs Sort Prop
  with config_mind := Induction for config Sort Prop.

Lemma my_construct k : c_my (construct k) = kw_home k.
Proof.
  apply (kwargs_mind (fun k => c_my (construct k) = kw_home k) (fun c => forall s, c_my (load c s) = file_home c (c_my s))); clear k.
  - intros d n [|]; reflexivity.
  - intros d n inp c IH. cbn [construct kw_home].
    transitivity (c_my (load c (default_init n (or_cpu d)))).
    + destruct inp; reflexivity.
    + rewrite IH. reflexivity.
  - intros g p z s. reflexivity.
  - intros k IH g p z s. cbn [load file_home]. rewrite my_rebuild. exact IH.
Qed.

Lemma my_load c s : c_my (load c s) = file_home c (c_my s).
Proof. destruct c as [g p z|k g p z]; cbn [load file_home]; [reflexivity|]. rewrite my_rebuild. apply my_construct. Qed.

Lemma tells_born k : tells (construct k) (born k).
Proof.
  destruct k as [d n inp|d n inp c]; cbn [construct born].
  - destruct inp; [|apply tells_default]. eapply (tells_renew _ _ (tells_default n (or_cpu d))).
  - pose proof (tells_load c (default_init n (or_cpu d))) as T.
    rewrite my_load in T. cbn [c_my default_init register set_dt] in T. cbn [kw_home].
    destruct inp; [|exact T]. now apply tells_renew in T.
Qed.

Lemma tells_gen f s m : tells s m ->
  tells (add_gen f s) (mkMemo (m_home m) (m_layers m) (m_dt m) (m_free m ++ f_free f) (m_new m ++ f_own f)).
Proof.
  intros (A & B & C & D & E & F & G). unfold tells. cbn [c_my c_id c_nb c_w c_dt add_gen m_home m_layers m_dt m_free m_new].
  do 5 (split; [assumption|]). unfold frees, owns in *; cbn [c_gen c_per add_gen]. rewrite !flat_map_app. cbn [flat_map f_own f_free].
  rewrite !app_nil_r. split.
  - intro g. specialize (F g). rewrite !Forall_app in *. tauto.
  - rewrite !Forall_app in *. tauto.
Qed.

Lemma tells_per f s m : tells s m ->
  tells (add_per f s) (mkMemo (m_home m) (m_layers m) (m_dt m) (m_free m ++ f_free f) (m_new m ++ f_own f)).
Proof.
  intros (A & B & C & D & E & F & G). unfold tells. cbn [c_my c_id c_nb c_w c_dt add_per m_home m_layers m_dt m_free m_new].
  do 5 (split; [assumption|]). unfold frees, owns in *; cbn [c_gen c_per add_per]. rewrite !flat_map_app. cbn [flat_map f_own f_free].
  rewrite !app_nil_r. split.
  - intro g. specialize (F g). rewrite !Forall_app in *. tauto.
  - rewrite !Forall_app in *. tauto.
Qed.

Lemma tells_next s m c : ours c -> tells s m -> tells (act s c) (next m c).
Proof.
  intros O T. destruct c as [d|z| | | |c|f|f| |d]; cbn [act next].
  - now apply tells_to.
  - destruct T as (A & B & C & D & E & F & G). unfold tells. cbn [c_my c_id c_nb c_w c_dt set_dt m_home m_layers m_dt m_free m_new].
    rewrite A. repeat (split; [assumption||reflexivity|]). assumption.
  - now apply tells_renew.
  - now apply tells_renew.
  - now apply tells_renew.
  - pose proof (tells_load c s) as L. rewrite my_load in L. destruct T as (A & _). now rewrite A in L.
  - now apply tells_gen.
  - now apply tells_per.
  - destruct T as (A & B & C & D & E & F & G). unfold tells. rewrite owns_register, frees_register.
    now repeat (split; [assumption|]).
  - exfalso. now apply (O d).
Qed.

Lemma tells_acts cs : forall s m, Forall ours cs -> tells s m -> tells (acts s cs) (fold_left next cs m).
Proof.
  induction cs as [|c t IH]; intros s m O T; [exact T|]. inversion O; subst. cbn. apply IH; [assumption|].
  now apply tells_next.
Qed.

Lemma tells_runs s m g : tells s m ->
  (runs_on s g <-> g = m_home m /\ m_layers m = m_home m /\ Forall (rests (m_home m)) (m_dt m :: m_free m ++ m_new m)).
Proof.
  intros (A & B & C & D & E & F & G). rewrite runs_iff. unfold together, time. rewrite A, B, C, D, E.
  rewrite !Forall_app, !Forall_cons_iff, Forall_app. split.
  - intros (H1 & _ & _ & H4 & (T & _) & H5 & H6). rewrite <- H4 in *. rewrite F in H5. rewrite G in H6. now repeat split.
  - intros (-> & L & T & H5 & H6). rewrite L, F, G. repeat split; auto.
Qed.

Lemma history k cs g : Forall ours cs ->
  let m := remembered k cs in
  runs_on (acts (construct k) cs) g <->
  g = m_home m /\ m_layers m = m_home m /\ Forall (rests (m_home m)) (m_dt m :: m_free m ++ m_new m).
Proof. intros O m. apply tells_runs. apply tells_acts; [exact O|]. apply tells_born. Qed.

(** ** nn.Module.to, recordings, random steps *)

Lemma own_reg d fs : Forall (rests d) (flat_map f_own (map (fun f => if f_reg f then fsend d f else f) fs)) <->
  Forall (rests d) (flat_map f_own (filter (fun f => negb (f_reg f)) fs)).
Proof.
  induction fs as [|f t IH]; cbn; [tauto|]. destruct (f_reg f); cbn; rewrite ?Forall_app, IH; [|tauto].
  split; [tauto|]. intro H. split; [|exact H].
  apply Forall_forall. intros x I. apply in_map_iff in I. destruct I as (y & <- & _). apply rests_send.
Qed.

Lemma frees_module d s : frees (module_to d s) = frees s.
Proof. unfold frees, module_to; cbn. now rewrite !free_reg. Qed.

Lemma module_runs d s g : runs_on (module_to d s) g <->
  g = d /\ c_my s = d /\ Forall (rests d) (time s ++ frees s ++ unregistered s).
Proof.
  rewrite runs_iff. unfold together. cbn [c_id c_nb c_w c_my module_to]. rewrite frees_module.
  change (time (module_to d s)) with (time s). rewrite !Forall_app.
  split.
  - intros (E & _ & _ & M & T & F & O). subst g. unfold owns in O. cbn [c_gen c_per module_to] in O.
    rewrite Forall_app, !own_reg in O. unfold unregistered. rewrite Forall_app. repeat split; tauto.
  - intros (-> & M & T & F & O). unfold unregistered in O. rewrite Forall_app in O. unfold owns. cbn [c_gen c_per module_to].
    rewrite Forall_app, !own_reg. repeat split; tauto.
Qed.

Lemma save_gif_eq n s : save_gif (S n) s =
  if stepb s (c_my s) then
    if stepb (to_device Cpu s) Cpu then (to_device (c_my s) (to_device Cpu s), Ok tt)
    else (to_device Cpu s, Err RuntimeError)
  else (s, Err RuntimeError).
Proof.
  unfold save_gif. rewrite step_eq. destruct (stepb s (c_my s)); [|reflexivity].
  change (send Cpu (grid (c_my s))) with (grid Cpu). rewrite run_eq.
  now destruct (stepb (to_device Cpu s) Cpu).
Qed.

Lemma stepb_runs s g : stepb s g = true <-> runs_on s g.
Proof. now rewrite stepb_together, runs_iff. Qed.

Lemma stepb_no s g : stepb s g = false <-> ~ runs_on s g.
Proof. rewrite <- stepb_runs. now destruct (stepb s g). Qed.

Definition numbered_dt (s : cca) : cca := mkCca (c_id s) (c_nb s) (c_w s) (c_gen s) (c_per s) (c_my s) None.

Lemma random_eq s g : random_step s (grid g) =
  if stepb (numbered_dt s) g then Ok (numbered_dt s, grid g) else Err RuntimeError.
Proof. unfold random_step. fold (numbered_dt s). rewrite step_eq. now destruct (stepb (numbered_dt s) g). Qed.

(** ** NCA *)

Lemma nca_step_eq s g : nca_step s (grid g) =
  if deq (n_id s) g && deq (n_nb s) g && deq (n_w s) g && restb g (n_dt s) then Ok (grid g) else Err RuntimeError.
Proof.
  unfold nca_step. unfold conv at 1 2. cbn [o_dev grid].
  destruct (deq (n_id s) g) eqn:E1; cbn [bind andb]; [|reflexivity].
  destruct (deq (n_nb s) g) eqn:E2; cbn [bind andb]; [|reflexivity].
  apply deq_eq in E1, E2. rewrite E1, E2. unfold glue. cbn [o_dev]. rewrite deq_refl. cbn [bind].
  unfold conv. cbn [o_dev grid]. destruct (deq (n_w s) g) eqn:E3; cbn [bind andb]; [|reflexivity].
  apply deq_eq in E3. rewrite E3. change (mkOpnd g false) with (grid g).
  rewrite (blend_at g) by (right; now left). cbn [forallb]. rewrite restb_grid, deq_refl, andb_true_r.
  destruct (restb g (n_dt s)); cbn [bind andb]; [|reflexivity].
  rewrite (blend_at g) by now left. cbn [forallb]. now rewrite restb_grid, deq_refl.
Qed.

Lemma nca_iff s g : nca_runs s g <-> n_id s = g /\ n_nb s = g /\ n_w s = g /\ rests g (n_dt s).
Proof.
  unfold nca_runs. rewrite nca_step_eq, <- restb_rests, <- !deq_eq.
  destruct (deq (n_id s) g), (deq (n_nb s) g), (deq (n_w s) g), (restb g (n_dt s)); cbn; intuition discriminate.
Qed.

(** ** RxnDfn *)

Ltac bl g := rewrite (blend_at g) by (cbn [In]; tauto); cbn [forallb]; rewrite ?restb_grid, ?deq_refl, ?andb_true_r; cbn [andb].

Lemma restb_sum a b x : (let* c := blend [a; b] in blend [c; grid x]) =
  if restb x a && restb x b then Ok (grid x) else Err RuntimeError.
Proof.
  destruct a as [[|m] [|]], b as [[|n] [|]], x as [|k];
    unfold blend, restb, loose, grid; cbn; rewrite ?Nat.eqb_refl; cbn; rewrite ?Nat.eqb_refl; cbn;
    try (rewrite (Nat.eqb_sym k m)); try (rewrite (Nat.eqb_sym k n)); try (rewrite (Nat.eqb_sym n m));
    try (destruct (Nat.eqb m k) eqn:E1); try (destruct (Nat.eqb n k) eqn:E2); try (destruct (Nat.eqb m n) eqn:E3); cbn;
    repeat match goal with H : Nat.eqb _ _ = true |- _ => apply Nat.eqb_eq in H end;
    repeat match goal with H : Nat.eqb _ _ = false |- _ => apply Nat.eqb_neq in H end;
    subst; rewrite ?Nat.eqb_refl; try reflexivity; try congruence.
  all: destruct (Nat.eqb k n) eqn:E; [apply Nat.eqb_eq in E; congruence|reflexivity].
Qed.

Lemma rxn_step_eq s g : rxn_step s (grid g) =
  if deq (r_id s) g && deq (r_nb s) g && forallb (restb g) [r_dx s; r_dt s; r_du s; r_dv s; r_f s; r_k s] then Ok (grid g) else Err RuntimeError.
Proof.
  unfold rxn_step, rxn_update, conv. cbn [o_dev grid].
  destruct (deq (r_id s) g) eqn:E1; cbn [bind andb]; [|reflexivity].
  destruct (deq (r_nb s) g) eqn:E2; cbn [bind andb]; [|reflexivity].
  apply deq_eq in E1, E2. rewrite E1, E2. change (mkOpnd g false) with (grid g). cbn [forallb].
  bl g. destruct (restb g (r_dx s)); cbn [bind andb]; [|reflexivity].
  bl g. destruct (restb g (r_du s)) eqn:Eu; cbn [bind andb]; [|now rewrite andb_false_r].
  bl g. destruct (restb g (r_f s)) eqn:Ef; cbn [bind andb]; [|now rewrite !andb_false_r].
  bl g. cbn [bind]. bl g. destruct (restb g (r_dv s)) eqn:Ev; cbn [bind andb]; [|now rewrite !andb_false_r].
  pose proof (restb_sum (r_f s) (r_k s) g) as Q. rewrite Ef in Q. cbn [andb] in Q.
  destruct (blend [r_f s; r_k s]) as [fk|e]; cbn [bind] in Q |- *.
  - rewrite Q. destruct (restb g (r_k s)); cbn [bind]; [|now rewrite !andb_false_r].
    do 2 (bl g; cbn [bind]). bl g. destruct (restb g (r_dt s)); cbn [bind andb]; [|reflexivity]. bl g. reflexivity.
  - destruct (restb g (r_k s)); [discriminate Q|]. rewrite !andb_false_r. now injection Q as ->.
Qed.

Lemma rxn_iff s g : rxn_runs s g <-> rxn_together g s.
Proof.
  unfold rxn_runs, rxn_together. rewrite rxn_step_eq, <- forallb_rests, <- !deq_eq.
  destruct (deq (r_id s) g), (deq (r_nb s) g), (forallb _ _); cbn; intuition discriminate.
Qed.

(** ** Owners *)

Lemma glider_eq n w a : glider_step (S n) w (grid a) =
  if stepb (g_ca w) a && deq (g_grid w) a then Ok tt else Err RuntimeError.
Proof.
  induction n as [|n IH]; cbn [glider_step]; rewrite step_eq.
  - destruct (stepb (g_ca w) a); cbn [bind andb]; [|reflexivity]. bl a.
    destruct (deq (g_grid w) a); cbn [bind]; [|reflexivity]. bl a. reflexivity.
  - cbn [glider_step] in IH. rewrite step_eq in IH. destruct (stepb (g_ca w) a) eqn:E; cbn [bind andb] in *; [|reflexivity].
    revert IH. bl a. destruct (deq (g_grid w) a) eqn:F; cbn [bind]; [|reflexivity]. bl a. cbn [bind]. intro IH.
    rewrite step_eq, E. cbn [bind]. bl a. rewrite F. cbn [bind]. bl a. cbn [bind]. exact IH.
Qed.

Lemma round_eq b n s net g : round b n s net (grid g) =
  if stepb s g && deq net g then Ok tt else Err RuntimeError.
Proof.
  unfold round.
  assert (R : forall k, stepb s g = true -> run k s (grid g) = Ok (grid g)) by (intros [|k] E; [reflexivity|]; now rewrite run_eq, E).
  destruct (stepb s g) eqn:E; cbn [andb].
  - rewrite R by reflexivity. cbn [bind]. unfold conv. cbn [o_dev grid]. destruct (deq net g) eqn:F; cbn [bind]; [|reflexivity].
    apply deq_eq in F. subst net. change (mkOpnd g false) with (grid g). rewrite R by reflexivity. cbn [bind]. rewrite step_eq, E. cbn [bind].
    bl g. cbn [bind]. bl g. reflexivity.
  - destruct b as [|b]; [|now rewrite run_eq, E]. cbn [run bind]. unfold conv. cbn [o_dev grid].
    destruct (deq net g) eqn:F; cbn [bind]; [|reflexivity].
    destruct n as [|n]; [|now rewrite run_eq, E]. cbn [run bind]. now rewrite step_eq, E.
Qed.
