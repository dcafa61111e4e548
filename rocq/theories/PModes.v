(** Proofs about the modes of a CCA. *)
From Coq Require Import Reals Lra Lia List Arith Bool ZArith String.
From Verif Require Import Base PyDict Tensor MActivations MKernels MCommon MCca MConfig MModes SGrid SCca SKern SConfig STests SModes.
From Verif Require Import PNca PStepX PAct PTensor PStep PCca PDyn PKern PKernX PKernY PConfig PConfigX PConfigY PConfigW PConfigZ PTests.
Import ListNotations.
Open Scope R_scope.
Open Scope string_scope.

(** ** Objects with another weights layer and other functions *)
Definition with_rule (o : obj) (w : wlayer) (g p : list act) : obj :=
  let c := o_core o in
  mkObj (mkCca (ext c) (int_ c) (pm c) (thr c) (idl c) (nbl c) w g p (dt c))
    (o_kpar o) (o_radius o) (o_peaks o) (o_nb o) (o_gen o) (o_per o) (o_inst o).

Lemma with_weights_rule o w : with_weights o w = with_rule o w (gens (o_core o)) (pers (o_core o)).
Proof. reflexivity. Qed.

Lemma with_weights_twice o w w' : with_weights (with_weights o w) w' = with_weights o w'.
Proof. reflexivity. Qed.

Lemma with_weights_self o : with_weights o (wl (o_core o)) = o.
Proof. destruct o as [c]; destruct c; reflexivity. Qed.

Definition lift (w : wlayer) (r : res obj) : res obj := match r with Ok o => Ok (with_weights o w) | Err e => Err e end.
Definition lift2 (w : wlayer) (r : res (obj * heap)) : res (obj * heap) :=
  match r with Ok (o, h) => Ok (with_weights o w, h) | Err e => Err e end.

Lemma set_params_weights o w p : set_params (with_weights o w) p = lift w (set_params o p).
Proof.
  unfold set_params. cbv zeta. cbn [with_weights o_core gens pers wl ext int_ pm thr idl nbl dt o_kpar o_radius o_peaks o_nb o_gen o_per o_inst].
  destruct (set_acts (gens (o_core o)) p) as [g|]; [|reflexivity]. cbn [bind].
  destruct (set_acts (pers (o_core o)) (snd g)) as [q|]; [|reflexivity]. cbn [bind].
  destruct (o_kpar o); try reflexivity.
  destruct (mixture_kernel_of (o_radius o) (firstn (List.length l) (snd q))) as [k|]; [|reflexivity]. cbn [bind].
  destruct (as_kernel (K4 k)) as [kk|]; [|reflexivity]. cbn [bind].
  destruct (init_layer (ext (o_core o)) (int_ (o_core o)) (pm (o_core o)) kk); reflexivity.
Qed.

Lemma set_radius_weights o w v h : set_kernel_radius (with_weights o w) v h = lift2 w (set_kernel_radius o v h).
Proof.
  unfold set_kernel_radius. cbn [with_weights o_core gens pers wl ext int_ pm thr idl nbl dt o_kpar o_radius o_peaks o_nb o_gen o_per o_inst].
  destruct (o_nb o) as [l|]; [|reflexivity]. cbv zeta.
  destruct (get_kernel (dset "radius" v (hget h l))) as [k|]; [|reflexivity]. cbn [bind].
  destruct (as_kernel (K4 k)) as [kk|]; [|reflexivity]. cbn [bind].
  destruct (dgetk "radius" (dset "radius" v (hget h l))) as [rv|]; [|reflexivity]. cbn [bind].
  destruct (init_layer (ext (o_core o)) (int_ (o_core o)) (pm (o_core o)) kk); reflexivity.
Qed.

Lemma set_kernel_weights o w l h : set_kernel_config (with_weights o w) l h = lift2 w (set_kernel_config o l h).
Proof.
  unfold set_kernel_config. cbv zeta. cbn [o_kpar with_weights].
  destruct (read_kpar (o_kpar o) (hget h l)) as [kp|]; [|reflexivity]. cbn [bind].
  destruct (dgetk "radius" (hget h l)) as [rv|]; [|reflexivity]. cbn [bind].
  exact (set_radius_weights (with_nb o l kp) w rv h).
Qed.

Lemma make_config_weights o w h p o' h' : make_config o h = (p, o', h') -> make_config (with_weights o w) h = (p, with_weights o' w, h').
Proof. unfold make_config. cbv zeta. intros H. injection H as <- <- <-. reflexivity. Qed.

(** ** The weights layer of a mode *)
Lemma named_mode_eq kw : mode_of kw = named_mode kw.
Proof. reflexivity. Qed.

Definition neuro_layer (w : wdraw) (e n : nat) (m : pmode) : wlayer :=
  WMlp (mkL (build n n 1 1 (fun o i _ _ => wd1 w o i)) 1 0 m) (mkL (build e n 1 1 (fun o i _ _ => wd2 w o i)) 1 0 m).

Lemma mode_is_true s kw : mode_is s kw = true <-> mode_of kw = VStr s.
Proof.
  unfold mode_is. destruct (mode_of kw); try (split; discriminate). rewrite String.eqb_eq. split; congruence.
Qed.

Lemma weights_for_functional kw w e n m : mode_of kw = VStr "functional" -> weights_for kw w e n m = init_weights e n m.
Proof. intros H. unfold weights_for. rewrite (proj2 (mode_is_true _ _) H). reflexivity. Qed.

Lemma weights_for_other kw w e n m : mode_of kw <> VStr "functional" -> weights_for kw w e n m = Ok (neuro_layer w e n m).
Proof.
  intros H. unfold weights_for. destruct (mode_is "functional" kw) eqn:E; [|reflexivity]. apply mode_is_true in E. contradiction.
Qed.

Lemma weights_for_ok kw w e n m : (0 < e)%nat -> (0 < n)%nat -> exists wy, weights_for kw w e n m = Ok wy.
Proof.
  intros He Hn. unfold weights_for. destruct (mode_is "functional" kw); [apply init_weights_ok; assumption|eauto].
Qed.

Lemma pt_build a b m (f : nat -> nat -> R) : (0 < a)%nat -> (0 < b)%nat -> pt_layer a b (mkL (build b a 1 1 (fun o i _ _ => f o i)) 1 0 m).
Proof.
  intros A B. unfold pt_layer, layer_wf, groups_ok. cbn [cl_w cl_g cl_p cl_m tB tC tH tW build].
  repeat split; auto; try lia.
  - exists b; lia.
  - apply twf_build.
Qed.

Lemma weights_for_wf kw w e n m wy : (0 < e)%nat -> (0 < n)%nat -> weights_for kw w e n m = Ok wy -> wl_wf e n wy.
Proof.
  intros He Hn H. unfold weights_for in H. destruct (mode_is "functional" kw).
  - exact (wl_init_wf e n m wy He Hn H).
  - injection H as <-. cbn [wl_wf]. exists n. split; apply pt_build; assumption.
Qed.

(** ** Construction *)
Definition drop_fns (kw : dict) (o : obj) : obj := if with_defaults kw then o else with_rule o (wl (o_core o)) [] [].

Lemma fresh_m_spec d kw : match fresh (md_base d) kw with
  | Err e => fresh_m d kw = Err e
  | Ok o => exists w, weights_for kw (md_init d) (ext (o_core o)) (int_ (o_core o)) (pm (o_core o)) = Ok w /\
      fresh_m d kw = Ok (with_weights (drop_fns kw o) w)
  end.
Proof.
  unfold fresh, fresh_m. cbv zeta.
  destruct (as_size (query_kwargs "kernel_peaks" (VInt 3) kw)) as [pk|]; [|reflexivity]. cbn [bind].
  destruct (as_pmode (query_kwargs "conv_mode" (VStr "circular") kw)) as [m|]; [|reflexivity]. cbn [bind].
  destruct (as_size (query_kwargs "internal_channels" (VInt 1) kw)) as [n|]; [|reflexivity]. cbn [bind].
  destruct (as_size (query_kwargs "external_channels" (VInt 1) kw)) as [e|]; [|reflexivity]. cbn [bind].
  destruct (as_num (query_kwargs "alive_threshold" (VNum (1 / 10)) kw)) as [th|]; [|reflexivity]. cbn [bind].
  destruct (init_layer e n m default_id_kernel) as [il|] eqn:Hil; [|reflexivity]. cbn [bind].
  destruct (guard (negb (Nat.eqb n 0)) RuntimeError) as [gu|] eqn:G; [|reflexivity]. cbn [bind]. apply guard_ok in G.
  set (kp := map (dr_k (md_base d)) (seq 0 (pk * 3))).
  destruct (mixture_kernel_of (query_kwargs "kernel_radius" (VInt 13) kw) kp) as [k|]; [|reflexivity]. cbn [bind].
  destruct (stack_kernels n k) as [ks|]; [|reflexivity]. cbn [bind].
  destruct (as_kernel (K4 ks)) as [kk|]; [|reflexivity]. cbn [bind].
  destruct (init_layer e n m kk) as [nl|]; [|reflexivity]. cbn [bind].
  assert (N0 : (0 < n)%nat) by (destruct n; [discriminate G|lia]).
  assert (E0 : (0 < e)%nat) by (destruct e; [discriminate Hil|lia]).
  destruct (init_weights_ok e n m E0 N0) as [w0 W0]. rewrite W0. cbn [bind o_core ext int_ pm].
  destruct (weights_for_ok kw (md_init d) e n m E0 N0) as [w1 W1]. exists w1. split; [exact W1|]. rewrite W1. cbn [bind].
  unfold drop_fns. destruct (with_defaults kw); reflexivity.
Qed.

(** ** Loading does not look at the weights layer or the functions *)
Lemma set_radius_rule o w g p v h : set_kernel_radius (with_rule o w g p) v h =
  match set_kernel_radius o v h with Ok (o', h') => Ok (with_rule o' w g p, h') | Err e => Err e end.
Proof.
  unfold set_kernel_radius. cbn [with_rule o_core gens pers wl ext int_ pm thr idl nbl dt o_kpar o_radius o_peaks o_nb o_gen o_per o_inst].
  destruct (o_nb o) as [l|]; [|reflexivity]. cbv zeta.
  destruct (get_kernel (dset "radius" v (hget h l))) as [k|]; [|reflexivity]. cbn [bind].
  destruct (as_kernel (K4 k)) as [kk|]; [|reflexivity]. cbn [bind].
  destruct (dgetk "radius" (dset "radius" v (hget h l))) as [rv|]; [|reflexivity]. cbn [bind].
  destruct (init_layer (ext (o_core o)) (int_ (o_core o)) (pm (o_core o)) kk); reflexivity.
Qed.

Lemma load_body_m_spec wd o w g p cf h : (0 < ext (o_core o))%nat -> (0 < int_ (o_core o))%nat ->
  match load_body o cf h with
  | Err e => load_body_m wd (with_rule o w g p) cf h = Err e
  | Ok (o', h') => exists wy, weights_for (o_inst o) wd (ext (o_core o)) (int_ (o_core o)) (pm (o_core o)) = Ok wy /\
      load_body_m wd (with_rule o w g p) cf h = Ok (with_weights o' wy, h')
  end.
Proof.
  intros E0 N0. unfold load_body, load_body_m. cbv zeta.
  change (with_nb (with_rule o w g p)) with (fun l kp => with_rule (with_nb o l kp) w g p). cbv beta.
  change (ext (o_core (with_rule o w g p))) with (ext (o_core o)).
  change (int_ (o_core (with_rule o w g p))) with (int_ (o_core o)).
  change (pm (o_core (with_rule o w g p))) with (pm (o_core o)).
  change (o_kpar (with_rule o w g p)) with (o_kpar o). change (o_inst (with_rule o w g p)) with (o_inst o).
  destruct (match c_id cf with None => Ok default_id_kernel | Some l => let* k := get_kernel (hget h l) in as_kernel (K4 k) end) as [k1|]; [|reflexivity]. cbn [bind].
  destruct (init_layer (ext (o_core o)) (int_ (o_core o)) (pm (o_core o)) k1) as [il|]; [|reflexivity]. cbn [bind].
  destruct (need (c_nb cf)) as [nb|]; [|reflexivity]. cbn [bind].
  destruct (get_kernel (hget h nb)) as [gk|]; [|reflexivity]. cbn [bind].
  destruct (read_kpar (o_kpar o) (hget h nb)) as [kp|]; [|reflexivity]. cbn [bind].
  destruct (dgetk "radius" (hget h nb)) as [rv|]; [|reflexivity]. cbn [bind].
  rewrite set_radius_rule. destruct (set_kernel_radius (with_nb o nb kp) rv h) as [[o1 h1]|]; [|reflexivity]. cbn [bind fst snd].
  destruct (need (c_gen cf)) as [gl|]; [|reflexivity]. cbn [bind].
  destruct (make_fn (hget h1 gl)) as [ga|]; [|reflexivity]. cbn [bind].
  destruct (need (c_per cf)) as [pl|]; [|reflexivity]. cbn [bind].
  destruct (make_fn (hget h1 pl)) as [pa|]; [|reflexivity]. cbn [bind].
  destruct (init_weights_ok (ext (o_core o)) (int_ (o_core o)) (pm (o_core o)) E0 N0) as [w0 W0]. rewrite W0. cbn [bind].
  destruct (weights_for_ok (o_inst o) wd (ext (o_core o)) (int_ (o_core o)) (pm (o_core o)) E0 N0) as [w1 W1].
  exists w1. split; [exact W1|]. rewrite W1. reflexivity.
Qed.

(** ** The two constructors side by side *)
Definition right_weights (o : obj) (w : wlayer) : Prop :=
  exists wd, weights_for (o_inst o) wd (ext (o_core o)) (int_ (o_core o)) (pm (o_core o)) = Ok w.

Definition related (P : value -> Prop) (r r' : res (obj * heap)) : Prop :=
  match r, r' with
  | Ok (o, h), Ok (o', h') => h' = h /\ obj_inv o /\ P (named_mode (o_inst o)) /\ exists w, right_weights o w /\ o' = with_weights o w
  | Err e, Err e' => e = e'
  | _, _ => False
  end.

Definition sim (P : value -> Prop) (ini ini' : dict -> heap -> res (obj * heap)) : Prop :=
  forall kw h, P (named_mode kw) -> related P (ini kw h) (ini' kw h).

Lemma load_with_sim P ini ini' wd o w cf h : sim P ini ini' -> obj_inv o -> P (named_mode (o_inst o)) -> right_weights o w ->
  (forall kw, c_inst cf = Some kw -> P (named_mode kw)) ->
  related P (load_with ini o cf h) (load_with_m ini' wd (with_weights o w) cf h).
Proof.
  intros S I Po W M. unfold load_with, load_with_m.
  assert (A : related P (match c_inst cf with Some kw => ini kw h | None => Ok (o, h) end)
                (match c_inst cf with Some kw => ini' kw h | None => Ok (with_weights o w, h) end)).
  { destruct (c_inst cf) as [kw|]; [apply S, M; reflexivity|]. cbn [related]. split; [reflexivity|]. split; [exact I|]. split; [first [exact Po|rewrite Ei; exact M]|]. exists w. auto. }
  destruct (match c_inst cf with Some kw => ini kw h | None => Ok (o, h) end) as [[o1 h1]|e];
    destruct (match c_inst cf with Some kw => ini' kw h | None => Ok (with_weights o w, h) end) as [[o1' h1']|e']; try contradiction; [|exact A].
  destruct A as (-> & I1 & P1 & w1 & W1 & ->). cbn [bind fst snd]. pose proof I1 as (E0 & N0 & _). cbv zeta in *.
  pose proof (load_body_m_spec wd o1 w1 (gens (o_core o1)) (pers (o_core o1)) cf h1 E0 N0) as L.
  change (with_rule o1 w1 (gens (o_core o1)) (pers (o_core o1))) with (with_weights o1 w1) in L.
  destruct (load_body o1 cf h1) as [[o2 h2]|e] eqn:E.
  - destruct L as (wy & Wy & ->). cbn [related]. apply load_body_inv in E as [-> L]. split; [reflexivity|].
    split; [exact (loaded_inv _ _ _ _ I1 L)|]. rewrite (ld_inst _ _ _ _ L). split; [exact P1|]. exists wy. split; [|reflexivity]. exists wd. rewrite (ld_inst _ _ _ _ L), (ld_ext _ _ _ _ L), (ld_int _ _ _ _ L), (ld_pm _ _ _ _ L). exact Wy.
  - rewrite L. reflexivity.
Qed.

Lemma unpickle_mode p h : c_inst (fst (unpickle p h)) = p_inst p.
Proof. reflexivity. Qed.

Lemma fs_get_in fs p e : fs_get fs p = Some e -> exists q, In (q, e) fs.
Proof.
  induction fs as [|[q x] t IH]; cbn [fs_get]; [discriminate|]. destruct (String.eqb p q).
  - intros H. injection H as ->. exists q. left. reflexivity.
  - intros H. destruct (IH H) as [q' Hq]. exists q'. right. exact Hq.
Qed.

Lemma restore_with_sim P ini ini' wd ev o w path h : sim P ini ini' -> files_in P ev -> obj_inv o -> P (named_mode (o_inst o)) -> right_weights o w ->
  related P (restore_with ini ev o path h) (restore_with_m ini' wd ev (with_weights o w) path h).
Proof.
  intros S F I Po W. unfold restore_with, restore_with_m. cbv zeta.
  destruct (match fs_get (e_fs ev) (strip_newlines path) with Some e => Some e | None => fs_get (e_fs ev) (join (e_dir ev) (strip_newlines path)) end) as [e|] eqn:Ef.
  - assert (exists q, In (q, e) (e_fs ev)) as [q Hq].
    { destruct (fs_get (e_fs ev) (strip_newlines path)) eqn:E1.
      - injection Ef as ->. eapply fs_get_in; eauto.
      - eapply fs_get_in; eauto. }
    destruct e as [pc|l|]; cbn [entry_config bind]; [| |reflexivity].
    + apply (load_with_sim P); auto. intros kw Hk. rewrite unpickle_mode in Hk. exact (F q pc kw Hq Hk).
    + apply (load_with_sim P); auto. intros kw Hk. discriminate Hk.
  - cbn [related]. split; [reflexivity|]. split; [exact I|]. split; [first [exact Po|rewrite Ei; exact M]|]. exists w. auto.
Qed.

Lemma set_params_right o p o' w : set_params o p = Ok o' -> right_weights o w -> right_weights o' w.
Proof.
  intros H [wd W]. apply set_params_inv in H as (l & g & q & k & _ & _ & _ & _ & _ & _ & _ & _ & _ & _ & Kp).
  destruct Kp as (A1 & A2 & A3 & A4 & A5 & A6 & A7 & A8 & A9 & A10 & A11 & A12 & A13). exists wd. cbv zeta in *. congruence.
Qed.

Lemma set_params_inst o p o' : set_params o p = Ok o' -> o_inst o' = o_inst o.
Proof.
  intros H. apply set_params_inv in H as (l & g & q & k & _ & _ & _ & _ & _ & _ & _ & _ & _ & _ & Kp).
  destruct Kp as (A1 & A2 & A3 & A4 & A5 & A6 & A7 & A8 & A9 & A10 & A11 & A12 & A13). exact A13.
Qed.

Lemma functionlike_defaults kw : is_functionlike (named_mode kw) -> with_defaults kw = true.
Proof.
  unfold with_defaults. intros [H|H].
  - rewrite (proj2 (mode_is_true "functional" kw) H). reflexivity.
  - rewrite (proj2 (mode_is_true "neurofunctional" kw) H). apply orb_true_r.
Qed.

Lemma init_sim (P : value -> Prop) ev fuel : (forall v, P v -> is_functionlike v) -> files_in P ev ->
  forall rng, sim P (init fuel ev (fun n => md_base (rng n))) (init_m fuel ev rng).
Proof.
  intros HP F. induction fuel as [|f IH]; intros rng kw h M; [reflexivity|]. cbn [init init_m].
  pose proof (fresh_m_spec (rng 0%nat) kw) as Hf. destruct (fresh (md_base (rng 0%nat)) kw) as [o|e] eqn:Ho.
  2: { rewrite Hf. reflexivity. }
  destruct Hf as (w & W & ->). cbn [bind]. unfold drop_fns. rewrite (functionlike_defaults kw (HP _ M)).
  apply fresh_inv in Ho as (I & _ & _ & _ & _ & _ & _ & Ei & _).
  assert (RW : right_weights o w) by (exists (md_init (rng 0%nat)); rewrite Ei; exact W).
  assert (A : related P (match query_kwargs "ca_config" VNone kw with VNone => Ok (o, h) | VStr p => restore_with (init f ev (fun k => md_base (rng (S k)))) ev o p h | _ => Err Unmodelled end)
    (match query_kwargs "ca_config" VNone kw with VNone => Ok (with_weights o w, h) | VStr p => restore_with_m (init_m f ev (fun k => rng (S k))) (md_load (rng 0%nat)) ev (with_weights o w) p h | _ => Err Unmodelled end)).
  { destruct (query_kwargs "ca_config" VNone kw); try reflexivity.
    - cbn [related]. split; [reflexivity|]. split; [exact I|]. split; [first [exact Po|rewrite Ei; exact M]|]. exists w. auto.
    - apply (restore_with_sim P); auto. rewrite Ei; exact M. }
  cbv beta.
  destruct (match query_kwargs "ca_config" VNone kw with VNone => Ok (o, h) | VStr p => restore_with (init f ev (fun k => md_base (rng (S k)))) ev o p h | _ => Err Unmodelled end) as [[o1 h1]|e1];
  destruct (match query_kwargs "ca_config" VNone kw with VNone => Ok (with_weights o w, h) | VStr p => restore_with_m (init_m f ev (fun k => rng (S k))) (md_load (rng 0%nat)) ev (with_weights o w) p h | _ => Err Unmodelled end) as [[o1' h1']|e1']; try contradiction; [|exact A].
  cbn [bind]. destruct (query_kwargs "input_filepath" VNone kw) as [| | | |p| | |]; try reflexivity; [exact A|].
  destruct (fs_get (e_fs ev) p) as [en|]; [|reflexivity]. destruct (elite_params en) as [v|]; [|reflexivity]. cbn [bind fst snd].
  destruct A as (-> & I1 & P1 & w1 & W1 & ->). rewrite set_params_weights. destruct (set_params o1 v) as [o2|] eqn:E2; cbn [lift bind]; [|reflexivity].
  cbn [related]. split; [reflexivity|]. split; [exact (proj1 (set_params_obj_inv _ _ _ I1 E2))|]. split; [rewrite (set_params_inst _ _ _ E2); exact P1|]. exists w1. split; [exact (set_params_right _ _ _ _ E2 W1)|reflexivity].
Qed.

Lemma related_twins (P : value -> Prop) r r' : related P r r' -> twins r r'.
Proof. destruct r as [[o h]|], r' as [[o' h']|]; cbn [related twins]; try tauto. intros (-> & _ & _ & w & _ & ->). eauto. Qed.

(** Functional mode leaves no choice of weights. *)
Lemma right_functional o w : obj_inv o -> named_mode (o_inst o) = VStr "functional" -> right_weights o w -> with_weights o w = o.
Proof.
  intros (_ & _ & _ & _ & W & _) M [wd H]. cbv zeta in *. rewrite (weights_for_functional _ _ _ _ _ M) in H. rewrite W in H. injection H as <-. apply with_weights_self.
Qed.

Lemma related_functional r r' : related is_functional r r' -> r' = r.
Proof.
  destruct r as [[o h]|], r' as [[o' h']|]; cbn [related]; try tauto; [|congruence].
  intros (-> & I & M & w & W & ->). rewrite (right_functional o w I M W). reflexivity.
Qed.

(** ** Every object of every mode *)
Definition minv (o : obj) : Prop := right_weights o (wl (o_core o)) /\ exists w0, obj_inv (with_weights o w0).

Definition good_ini_m (ini : dict -> heap -> res (obj * heap)) : Prop := forall kw h o h', ini kw h = Ok (o, h') -> minv o.

Lemma fresh_m_minv d kw o : fresh_m d kw = Ok o -> minv o /\ o_inst o = kw.
Proof.
  intros H. pose proof (fresh_m_spec d kw) as S. destruct (fresh (md_base d) kw) as [o0|e] eqn:E; [|congruence].
  destruct S as (w & W & S). rewrite S in H. apply Ok_inj in H. subst o. apply fresh_inv in E as (I & _ & _ & _ & _ & _ & _ & Ei & _).
  unfold drop_fns. destruct (with_defaults kw); (split; [|exact Ei]); (split; [exists (md_init d); cbn [with_weights with_rule o_core o_inst ext int_ pm wl]; rewrite Ei; exact W|]);
    exists (wl (o_core o0)).
  - rewrite with_weights_twice, with_weights_self. exact I.
  - exact I.
Qed.

Lemma set_params_minv o p o' : minv o -> set_params o p = Ok o' -> minv o' /\ wl (o_core o') = wl (o_core o).
Proof.
  intros (R & w0 & I) H. assert (E : wl (o_core o') = wl (o_core o)).
  { pose proof (set_params_weights o (wl (o_core o)) p) as X. rewrite with_weights_self, H in X. cbn [lift] in X. apply Ok_inj in X. rewrite X. reflexivity. }
  split; [|exact E]. split; [rewrite E; exact (set_params_right _ _ _ _ H R)|]. exists w0.
  pose proof (set_params_weights o w0 p) as X. rewrite H in X. cbn [lift] in X. exact (proj1 (set_params_obj_inv _ _ _ I X)).
Qed.

Lemma set_radius_inst o v h o' h' : set_kernel_radius o v h = Ok (o', h') ->
  o_inst o' = o_inst o /\ ext (o_core o') = ext (o_core o) /\ int_ (o_core o') = int_ (o_core o) /\ pm (o_core o') = pm (o_core o) /\ wl (o_core o') = wl (o_core o) /\ o_peaks o' = o_peaks o.
Proof. intros H. apply set_radius_inv in H as (l & k & _ & _ & _ & _ & _ & ->). repeat split. Qed.

Lemma set_radius_minv o v h o' h' : minv o -> set_kernel_radius o v h = Ok (o', h') -> minv o' /\ wl (o_core o') = wl (o_core o).
Proof.
  intros ((wd & R) & w0 & I) H. destruct (set_radius_inst _ _ _ _ _ H) as (E1 & E2 & E3 & E4 & E5 & _). split; [|exact E5]. split; [exists wd; congruence|].
  exists w0. pose proof (set_radius_weights o w0 v h) as X. rewrite H in X. cbn [lift2] in X. exact (set_radius_obj_inv _ _ _ _ _ I X).
Qed.

Lemma load_body_minv wd o cf h o' h' : minv o -> load_body_m wd o cf h = Ok (o', h') ->
  minv o' /\ o_inst o' = o_inst o /\ h' = h /\ weights_for (o_inst o') wd (ext (o_core o')) (int_ (o_core o')) (pm (o_core o')) = Ok (wl (o_core o')) /\
  exists w0 o0, loaded (with_weights o w0) cf h o0 /\ o' = with_weights o0 (wl (o_core o')) /\ obj_inv o0.
Proof.
  intros (R & w0 & I) H. pose proof I as (E0 & N0 & _). cbv zeta in E0, N0.
  pose proof (load_body_m_spec wd (with_weights o w0) (wl (o_core o)) (gens (o_core o)) (pers (o_core o)) cf h E0 N0) as L.
  replace (with_rule (with_weights o w0) (wl (o_core o)) (gens (o_core o)) (pers (o_core o))) with o in L by (symmetry; exact (with_weights_self o)).
  destruct (load_body (with_weights o w0) cf h) as [[o1 h1]|e] eqn:E; [|congruence].
  destruct L as (wy & Wy & L). rewrite L in H. apply Ok_inj, pair_equal_spec in H as [<- <-].
  apply load_body_inv in E as [-> E]. pose proof (ld_inst _ _ _ _ E) as Ei. cbn [with_weights o_inst] in Ei.
  assert (W : weights_for (o_inst o1) wd (ext (o_core o1)) (int_ (o_core o1)) (pm (o_core o1)) = Ok wy).
  { rewrite (ld_inst _ _ _ _ E), (ld_ext _ _ _ _ E), (ld_int _ _ _ _ E), (ld_pm _ _ _ _ E). exact Wy. }
  assert (I1 : obj_inv o1) by exact (loaded_inv _ _ _ _ I E).
  split; [split; [exists wd; exact W|]|].
  - exists (wl (o_core o1)). rewrite with_weights_twice, with_weights_self. exact I1.
  - split; [exact Ei|]. split; [reflexivity|]. split; [exact W|]. exists w0, o1. split; [exact E|]. split; [reflexivity|exact I1].
Qed.

Lemma load_with_minv ini wd o cf h o' h' : good_ini_m ini -> minv o -> load_with_m ini wd o cf h = Ok (o', h') ->
  minv o' /\ weights_for (o_inst o') wd (ext (o_core o')) (int_ (o_core o')) (pm (o_core o')) = Ok (wl (o_core o')) /\
  exists o1, minv o1 /\ (exists w0 o0, loaded (with_weights o1 w0) cf h' o0 /\ o' = with_weights o0 (wl (o_core o')) /\ obj_inv o0).
Proof.
  intros G I H. unfold load_with_m in H. apply bind_ok in H as ([o1 h1] & Hr & H). cbn [fst snd] in H.
  assert (I1 : minv o1). { destruct (c_inst cf) as [kw|]; [exact (G kw h o1 h1 Hr)|]. apply Ok_inj, pair_equal_spec in Hr as [<- _]. exact I. }
  apply (load_body_minv wd o1 cf h1 o' h' I1) in H as (A & _ & -> & B & C). split; [exact A|]. split; [exact B|]. exists o1. auto.
Qed.

Lemma restore_with_minv ini wd ev o p h o' h' : good_ini_m ini -> minv o -> restore_with_m ini wd ev o p h = Ok (o', h') -> minv o'.
Proof.
  intros G I H. unfold restore_with_m in H. cbv zeta in H.
  destruct (match fs_get (e_fs ev) (strip_newlines p) with Some e => Some e | None => _ end) as [e|].
  - apply bind_ok in H as (pc & _ & H). apply (load_with_minv ini wd o _ _ o' h' G I) in H as (A & _). exact A.
  - apply Ok_inj, pair_equal_spec in H as [<- _]. exact I.
Qed.

Lemma init_minv fuel ev : forall rng, good_ini_m (init_m fuel ev rng).
Proof.
  induction fuel as [|f IH]; intros rng kw h o h' H; [discriminate|]. cbn [init_m] in H.
  apply bind_ok in H as (o0 & Hf & H). apply fresh_m_minv in Hf as [I0 _]. apply bind_ok in H as ([o1 h1] & Hr & H).
  assert (I1 : minv o1).
  { destruct (query_kwargs "ca_config" VNone kw); try discriminate.
    - apply Ok_inj, pair_equal_spec in Hr as [<- _]. exact I0.
    - eapply restore_with_minv; [apply IH|exact I0|exact Hr]. }
  destruct (query_kwargs "input_filepath" VNone kw); try discriminate.
  - apply Ok_inj, pair_equal_spec in H as [<- _]. exact I1.
  - destruct (fs_get (e_fs ev) s) as [e|]; [|discriminate]. apply bind_ok in H as (v & _ & H). apply bind_ok in H as (o2 & Hs & H).
    apply Ok_inj, pair_equal_spec in H as [<- _]. cbn [fst] in Hs. exact (proj1 (set_params_minv _ _ _ I1 Hs)).
Qed.

Lemma make_config_minv o h p o' h' : minv o -> make_config o h = (p, o', h') -> minv o' /\ wl (o_core o') = wl (o_core o).
Proof.
  intros ((wd & R) & w0 & I) H. pose proof (make_config_inst o h) as M. rewrite H in M.
  destruct M as (E1 & _ & _ & E4 & _ & _ & _ & _ & _ & _ & _ & _ & Q6). rewrite E1. split; [|reflexivity].
  split.
  - exists wd. unfold weights_for, mode_is, mode_of in *. rewrite E1, Q6 by discriminate. exact R.
  - exists w0. eapply make_config_obj_inv; [exact I|]. exact (make_config_weights o w0 h p o' h' H).
Qed.

Lemma run_cop_minv fuel rng wd w k w' : minv (w_obj w) -> run_cop_m fuel rng wd w k = Ok w' -> minv (w_obj w').
Proof.
  intros I H. destruct w as [o h ev]. cbn [w_obj] in I. destruct k; cbn [run_cop_m w_obj w_heap w_env] in H.
  - apply bind_ok in H as (o' & Hs & H). apply Ok_inj in H. subst w'. exact (proj1 (set_params_minv _ _ _ I Hs)).
  - apply bind_ok in H as ([o' h'] & Hs & H). apply Ok_inj in H. subst w'. exact (proj1 (set_radius_minv _ _ _ _ _ I Hs)).
  - apply bind_ok in H as ([o' h'] & Hs & H). apply Ok_inj in H. subst w'. unfold set_kernel_config in Hs. cbv zeta in Hs.
    apply bind_ok in Hs as (kp & _ & Hs). apply bind_ok in Hs as (rv & _ & Hs). eapply set_radius_minv; [|exact Hs]. exact I.
  - apply Ok_inj in H. subst w'. exact I.
  - destruct (make_config o h) as [[p o'] h'] eqn:E. apply Ok_inj in H. subst w'. exact (proj1 (make_config_minv _ _ _ _ _ I E)).
  - unfold save_config in H. destruct (make_config o h) as [[p o'] h'] eqn:E. apply Ok_inj in H. subst w'. exact (proj1 (make_config_minv _ _ _ _ _ I E)).
  - apply bind_ok in H as ([o' h'] & Hs & H). apply Ok_inj in H. subst w'.
    apply (load_with_minv (init_m fuel ev rng) wd o cf h o' h' (init_minv fuel ev rng) I) in Hs as (A & _). exact A.
  - apply bind_ok in H as ([o' h'] & Hs & H). apply Ok_inj in H. subst w'.
    exact (restore_with_minv (init_m fuel ev rng) wd ev o path h o' h' (init_minv fuel ev rng) I Hs).
Qed.

Lemma run_cops_minv fuel ks : forall w w', minv (w_obj w) -> run_cops_m fuel w ks = Ok w' -> minv (w_obj w').
Proof.
  induction ks as [|[[k rng] wd] t IH]; intros w w' I H; cbn [run_cops_m] in H; [apply Ok_inj in H; subst; exact I|].
  apply bind_ok in H as (w1 & H1 & H). eapply IH; [|exact H]. eapply run_cop_minv; eauto.
Qed.

Lemma minv_wf o : minv o -> cca_wf (o_core o) /\ mirror_v (o_core o) /\ mirror_h (o_core o) /\ mirror_t (o_core o) /\
  cl_m (idl (o_core o)) = pm (o_core o) /\ cl_m (nbl (o_core o)) = pm (o_core o) /\ (0 < ext (o_core o))%nat /\ (0 < int_ (o_core o))%nat.
Proof.
  intros ((wd & R) & w0 & I). destruct (obj_inv_wf _ I) as ((A1 & A2 & _) & B1 & B2 & B3 & B4 & B5). destruct I as (E0 & N0 & _). cbv zeta in *. cbn [with_weights o_core ext int_ pm idl nbl] in *.
  split; [split; [exact A1|split; [exact A2|exact (weights_for_wf _ _ _ _ _ _ E0 N0 R)]]|]. repeat split; auto; try (apply B1 || apply B2 || apply B3).
Qed.

(** ** The rule in the other modes *)
Lemma pt_fn_build a b m (f : nat -> nat -> R) v ch : (ch < b)%nat -> pt_fn (mkL (build b a 1 1 (fun o i _ _ => f o i)) 1 0 m) v ch = rsum a (fun i => f ch i * v i).
Proof. intros H. unfold pt_fn. cbn [cl_w tC build]. apply rsum_ext. intros i Hi. rewrite get_build by lia. reflexivity. Qed.

Lemma neuro_fn w e n m g ch : (ch < e)%nat -> wl_fn (neuro_layer w e n m) g ch = two_layers n (wd1 w) (wd2 w) g ch.
Proof.
  intros H. unfold neuro_layer, two_layers. cbn [wl_fn]. rewrite (pt_fn_build n e m (wd2 w)) by assumption. apply rsum_ext. intros k Hk.
  rewrite (pt_fn_build n n m (wd1 w)) by assumption. reflexivity.
Qed.

Lemma minv_neuro o : minv o -> named_mode (o_inst o) <> VStr "functional" ->
  exists w, wl (o_core o) = neuro_layer w (ext (o_core o)) (int_ (o_core o)) (pm (o_core o)).
Proof. intros ((wd & R) & _) M. rewrite weights_for_other in R by exact M. injection R as <-. eauto. Qed.

(** The growth that a cell hands to the weights layer; it does not depend on the weights. *)
Definition growth (c : cca) (u : tensor) (b i j : nat) (k : nat) : R :=
  let I := convf (idl c) (tH u) (tW u) (mval (mask_fn (thr c)) u b) k i j in
  let N := convf (nbl c) (tH u) (tW u) (mval (mask_fn (thr c)) u b) k i j in
  (1 - I) * gen_at c k N + I * per_at c k N.

Lemma forward_cell c u u' b ch i j : cca_wf c -> twf u -> (ext c < 4)%nat -> cca_forward c u = Ok u' ->
  (b < tB u)%nat -> (ch < ext c)%nat -> (i < tH u)%nat -> (j < tW u)%nat ->
  get u' b ch i j = clamp 0 1 (get u b ch i j + dt c * wl_fn (wl c) (growth c u b i j) ch).
Proof.
  intros Hc Hu H4 H Hb Hch Hi Hj. rewrite cca_forward_nf in H by assumption.
  destruct (step_ready (ext c) (idl c) (nbl c) u) eqn:Er; [|discriminate]. apply step_ready_iff in Er as (Ec & _).
  apply bind_ok in H as (x & _ & H). apply Ok_inj in H. subst u'. rewrite get_build by assumption. unfold step_val. cbv zeta.
  unfold mval at 1, mask_fn at 1. rewrite Ec. destruct (Nat.leb_spec 4 (ext c)); [lia|]. reflexivity.
Qed.

Lemma rsum_sign n f : (forall k, (k < n)%nat -> f k <= 0) -> rsum n f <= 0.
Proof. intros H. assert (0 <= rsum n (fun k => -1 * f k)) by (apply rsum_nonneg; intros k Hk; specialize (H k Hk); lra). rewrite rsum_scal in H0. lra. Qed.

Lemma two_layers_sign n d w1 w2 g ch :
  ((forall k, (k < n)%nat -> 0 <= d * w2 ch k) -> 0 <= d * two_layers n w1 w2 g ch) /\
  ((forall k, (k < n)%nat -> d * w2 ch k <= 0) -> d * two_layers n w1 w2 g ch <= 0).
Proof.
  unfold two_layers. rewrite <- rsum_scal. split; intros H.
  - apply rsum_nonneg. intros k Hk. specialize (H k Hk). pose proof (Rmax_r (rsum n (fun i => w1 k i * g i)) 0). rewrite <- Rmult_assoc. apply Rmult_le_pos; lra.
  - apply rsum_sign. intros k Hk. specialize (H k Hk). pose proof (Rmax_r (rsum n (fun i => w1 k i * g i)) 0). nra.
Qed.

Lemma clamp_up x d : 0 <= x <= 1 -> 0 <= d -> x <= clamp 0 1 (x + d).
Proof. intros Hx Hd. unfold clamp, Rmax, Rmin. repeat destruct Rle_dec; lra. Qed.

Lemma clamp_down x d : 0 <= x <= 1 -> d <= 0 -> clamp 0 1 (x + d) <= x.
Proof. intros Hx Hd. unfold clamp, Rmax, Rmin. repeat destruct Rle_dec; lra. Qed.

Lemma unit_get u b c i j : twf u -> in_unit u -> (b < tB u)%nat -> (c < tC u)%nat -> (i < tH u)%nat -> (j < tW u)%nat -> 0 <= get u b c i j <= 1.
Proof. intros W U Hb Hc Hi Hj. unfold in_unit in U. rewrite Forall_forall in U. apply U. apply get_in_data; auto. Qed.

Section Neuro.
  Variables (c : cca) (w : wdraw).
  Hypothesis (Hc : cca_wf c) (H4 : (ext c < 4)%nat) (Hw : wl c = neuro_layer w (ext c) (int_ c) (pm c)).

  Lemma neuro_step u u' ch : twf u -> in_unit u -> cca_forward c u = Ok u' -> (ch < ext c)%nat ->
    ((forall k, (k < int_ c)%nat -> 0 <= dt c * wd2 w ch k) -> rises ch u u') /\
    ((forall k, (k < int_ c)%nat -> dt c * wd2 w ch k <= 0) -> falls ch u u').
  Proof.
    intros Hu U H Hch. assert (Ec : tC u = ext c) by (apply (cca_accepts c u Hc Hu); eauto).
    split; intros S b i j Hb Hi Hj; rewrite (forward_cell c u u' b ch i j Hc Hu H4 H Hb Hch Hi Hj), Hw, neuro_fn by assumption.
    - apply clamp_up; [apply unit_get; auto; lia|]. apply two_layers_sign. exact S.
    - apply clamp_down; [apply unit_get; auto; lia|]. apply two_layers_sign. exact S.
  Qed.

  (** Every channel has outgoing weights of one sign. *)
  Hypothesis one_signed : forall ch, (ch < ext c)%nat ->
    (forall k, (k < int_ c)%nat -> 0 <= dt c * wd2 w ch k) \/ (forall k, (k < int_ c)%nat -> dt c * wd2 w ch k <= 0).

  Lemma run_good p : forall u v, twf u -> in_unit u -> iter_res (cca_forward c) p u = Ok v -> twf v /\ in_unit v /\ shape v = shape u.
  Proof.
    induction p as [|p IH]; intros u v Hu U H; cbn [iter_res] in H.
    - apply Ok_inj in H. subst. auto.
    - apply bind_ok in H as (x & Hx & H). destruct (cca_shape c u x Hc Hu Hx) as [S W]. destruct (IH x v W (step_in_unit _ _ _ _ Hx) H) as (A & B & C). rewrite C, S. auto.
  Qed.

  Lemma run_monotone ch : (ch < ext c)%nat ->
    (forall p u v, twf u -> in_unit u -> iter_res (cca_forward c) p u = Ok v -> rises ch u v) \/
    (forall p u v, twf u -> in_unit u -> iter_res (cca_forward c) p u = Ok v -> falls ch u v).
  Proof.
    intros Hch. destruct (one_signed ch Hch) as [S|S]; [left|right]; induction p as [|p IH]; intros u v Hu U H; cbn [iter_res] in H.
    - apply Ok_inj in H. subst. intros b i j _ _ _. lra.
    - apply bind_ok in H as (x & Hx & H). destruct (cca_shape c u x Hc Hu Hx) as [E W]. pose proof (IH x v W (step_in_unit _ _ _ _ Hx) H) as R2.
      pose proof (proj1 (neuro_step u x ch Hu U Hx Hch) S) as R1. apply shape_inv in E as (E1 & E2 & E3 & E4'). intros b i j Hb Hi Hj.
      specialize (R1 b i j Hb Hi Hj). specialize (R2 b i j ltac:(lia) ltac:(lia) ltac:(lia)). lra.
    - apply Ok_inj in H. subst. intros b i j _ _ _. lra.
    - apply bind_ok in H as (x & Hx & H). destruct (cca_shape c u x Hc Hu Hx) as [E W]. pose proof (IH x v W (step_in_unit _ _ _ _ Hx) H) as R2.
      pose proof (proj2 (neuro_step u x ch Hu U Hx Hch) S) as R1. apply shape_inv in E as (E1 & E2 & E3 & E4'). intros b i j Hb Hi Hj.
      specialize (R1 b i j Hb Hi Hj). specialize (R2 b i j ltac:(lia) ltac:(lia) ltac:(lia)). lra.
  Qed.

  Lemma rsum_le_eq n f g : (forall i, (i < n)%nat -> f i <= g i) -> rsum n g <= rsum n f -> forall i, (i < n)%nat -> f i = g i.
  Proof.
    intros L E i Hi. pose proof (L i Hi). assert (rsum n (fun i => g i - f i) <= 0) by (rewrite rsum_minus; lra).
    pose proof (rsum_0_inv n (fun i => g i - f i) ltac:(intros k Hk; specialize (L k Hk); lra) H0 i Hi). cbv beta in *. lra.
  Qed.

  Lemma plane_le_eq H W (f g : nat -> nat -> R) : (forall i j, (i < H)%nat -> (j < W)%nat -> f i j <= g i j) ->
    rsum H (fun i => rsum W (g i)) <= rsum H (fun i => rsum W (f i)) -> forall i j, (i < H)%nat -> (j < W)%nat -> f i j = g i j.
  Proof.
    intros L E i j Hi Hj. assert (Q : rsum W (f i) = rsum W (g i)).
    { apply (rsum_le_eq H (fun i => rsum W (f i)) (fun i => rsum W (g i))); auto. intros k Hk. apply rsum_le. intros x Hx. apply L; auto. }
    apply (rsum_le_eq W (f i) (g i)); auto. rewrite Q. lra.
  Qed.

  (** A run that comes back to a grid with the same total in every channel never moved. *)
  Lemma no_return p u v : twf u -> in_unit u -> iter_res (cca_forward c) (S p) u = Ok v ->
    (forall b ch, (b < tB u)%nat -> (ch < ext c)%nat -> rsum (tH u) (fun i => rsum (tW u) (get v b ch i)) = rsum (tH u) (fun i => rsum (tW u) (get u b ch i))) ->
    cca_forward c u = Ok u.
  Proof.
    intros Hu U H M. cbn [iter_res] in H. apply bind_ok in H as (x & Hx & H). rewrite Hx. f_equal.
    destruct (cca_shape c u x Hc Hu Hx) as [E W]. pose proof E as E'. apply shape_inv in E as (E1 & E2 & E3 & E4').
    assert (Ec : tC u = ext c) by (apply (cca_accepts c u Hc Hu); eauto).
    assert (A : forall b ch i j, (b < tB u)%nat -> (ch < ext c)%nat -> (i < tH u)%nat -> (j < tW u)%nat -> get u b ch i j = get x b ch i j).
    { intros b ch i j Hb Hch. revert i j. specialize (M b ch Hb Hch). destruct (run_monotone ch Hch) as [Q|Q].
      - apply plane_le_eq; [intros i j Hi Hj; apply (Q 1%nat u x); auto; cbn [iter_res]; rewrite Hx; reflexivity|]. rewrite <- M.
        apply rsum_le. intros i Hi. apply rsum_le. intros j Hj. apply (Q p x v W (step_in_unit _ _ _ _ Hx) H); lia.
      - intros i j Hi Hj. symmetry. revert i j Hi Hj. apply plane_le_eq; [intros i j Hi Hj; apply (Q 1%nat u x); auto; cbn [iter_res]; rewrite Hx; reflexivity|]. rewrite <- M.
        apply rsum_le. intros i Hi. apply rsum_le. intros j Hj. apply (Q p x v W (step_in_unit _ _ _ _ Hx) H); lia. }
    apply tensor_ext; auto. rewrite E1, E2, E3, E4'. intros b ch i j Hb Hch Hi Hj. symmetry. apply A; auto; lia.
  Qed.

  Lemma roll_total dy dx u b ch : (b < tB u)%nat -> (ch < tC u)%nat -> (0 < tH u)%nat -> (0 < tW u)%nat ->
    rsum (tH u) (fun i => rsum (tW u) (get (roll dy dx u) b ch i)) = rsum (tH u) (fun i => rsum (tW u) (get u b ch i)).
  Proof.
    intros Hb Hch H0 W0. unfold roll.
    rewrite (rsum_ext (tH u) _ (fun i => (fun i' => rsum (tW u) (get u b ch i')) (zmod (Z.of_nat i + (- dy)) (tH u)))); [exact (rsum_zshift (tH u) (- dy) (fun i' => rsum (tW u) (get u b ch i')) H0)|].
    intros i Hi. cbv beta. rewrite <- (rsum_zshift (tW u) (- dx) (get u b ch _)) by assumption. apply rsum_ext. intros j Hj. rewrite get_build by assumption. reflexivity.
  Qed.

  (** Every cell of every run settles. *)
  Lemma run_converges us : twf (us 0%nat) -> in_unit (us 0%nat) -> (forall t, cca_forward c (us t) = Ok (us (S t))) ->
    forall b ch i j, (b < tB (us 0%nat))%nat -> (ch < ext c)%nat -> (i < tH (us 0%nat))%nat -> (j < tW (us 0%nat))%nat ->
    exists l, Un_cv (fun t => get (us t) b ch i j) l.
  Proof.
    intros Hu U Hs b ch i j Hb Hch Hi Hj.
    assert (G : forall t, twf (us t) /\ in_unit (us t) /\ shape (us t) = shape (us 0%nat)).
    { induction t as [|t (A & B & C)]; [auto|]. destruct (cca_shape c _ _ Hc A (Hs t)) as [S W]. split; [exact W|]. split; [exact (step_in_unit _ _ _ _ (Hs t))|congruence]. }
    assert (Ec : tC (us 0%nat) = ext c) by (apply (cca_accepts c _ Hc Hu); eauto).
    assert (Bd : forall t, 0 <= get (us t) b ch i j <= 1). { intros t. destruct (G t) as (A & B & C). apply shape_inv in C as (C1 & C2 & C3 & C4). apply unit_get; auto; lia. }
    destruct (run_monotone ch Hch) as [Q|Q].
    - destruct (growing_cv (fun t => get (us t) b ch i j)) as [l L]; [| |exists l; exact L].
      + intros t. destruct (G t) as (A & B & C). apply shape_inv in C as (C1 & C2 & C3 & C4). apply (Q 1%nat (us t)); auto; try lia. cbn [iter_res]. rewrite (Hs t). reflexivity.
      + exists 1. intros x [t ->]. apply Bd.
    - destruct (decreasing_cv (fun t => get (us t) b ch i j)) as [l L]; [| |exists l; exact L].
      + intros t. destruct (G t) as (A & B & C). apply shape_inv in C as (C1 & C2 & C3 & C4). apply (Q 1%nat (us t)); auto; try lia. cbn [iter_res]. rewrite (Hs t). reflexivity.
      + exists 0. intros x [t ->]. unfold opp_seq. specialize (Bd t). lra.
  Qed.
End Neuro.

(** ** New automata *)
Lemma accepts_weights o w u : cca_wf (o_core o) -> wl_wf (ext (o_core o)) (int_ (o_core o)) w -> twf u ->
  (exists v, cca_forward (o_core o) u = Ok v) -> exists v, cca_forward (o_core (with_weights o w)) u = Ok v.
Proof.
  intros C W Hu H. apply (cca_accepts (o_core (with_weights o w)) u); auto.
  - destruct C as (A & B & _). exact (conj A (conj B W)).
  - apply (cca_accepts (o_core o) u C Hu) in H. exact H.
Qed.

Lemma fresh_m_steps d kw o r u : fresh_m d kw = Ok o -> is_functionlike (named_mode kw) -> o_radius o = VInt (Z.of_nat r) -> twf u -> tC u = ext (o_core o) ->
  room (pm (o_core o)) r (tH u) -> room (pm (o_core o)) r (tW u) ->
  exists u', cca_forward (o_core o) u = Ok u' /\ shape u' = shape u /\ twf u' /\ in_unit u'.
Proof.
  intros F M Hr Hu Hc RH RW. destruct (fresh_m_minv d kw o F) as [I Ei]. destruct (minv_wf o I) as (CW & _).
  assert (exists u', cca_forward (o_core o) u = Ok u') as [u' H].
  { pose proof (fresh_m_spec d kw) as S. destruct (fresh (md_base d) kw) as [o0|e] eqn:E; [|congruence].
    destruct S as (w & W & S). rewrite S in F. apply Ok_inj in F. subst o. unfold drop_fns in *. rewrite (functionlike_defaults kw M) in *.
    pose proof (fresh_inv _ _ _ E) as (I0 & _). destruct (obj_inv_wf _ I0) as (C0 & _). destruct I0 as (E0 & N0 & _). cbv zeta in *.
    apply accepts_weights; auto; [exact (weights_for_wf _ _ _ _ _ _ E0 N0 W)|]. exact (fresh_steps (md_base d) kw o0 r u E Hr Hu Hc RH RW). }
  exists u'. destruct (cca_shape _ _ _ CW Hu H) as [A B]. split; [exact H|]. split; [exact A|]. split; [exact B|]. exact (step_in_unit _ _ _ _ H).
Qed.

(** Neither functional nor neurofunctional: no functions at all. *)
Lemma defaults_false kw : ~ is_functionlike (named_mode kw) -> with_defaults kw = false.
Proof.
  intros H. unfold with_defaults. destruct (mode_is "functional" kw) eqn:E1.
  - apply mode_is_true in E1. exfalso. apply H. left. exact E1.
  - destruct (mode_is "neurofunctional" kw) eqn:E2; [|reflexivity]. apply mode_is_true in E2. exfalso. apply H. right. exact E2.
Qed.

Lemma neural_fresh d kw o : fresh_m d kw = Ok o -> ~ is_functionlike (named_mode kw) ->
  gens (o_core o) = [] /\ pers (o_core o) = [] /\ o_kpar o = KPVec (map (dr_k (md_base d)) (seq 0 (3 * o_peaks o))) /\
  get_params o = Some (map (dr_k (md_base d)) (seq 0 (3 * o_peaks o))) /\
  exists r k, o_radius o = VInt (Z.of_nat r) /\ shape k = (1, 1, 2 * r + 1, 2 * r + 1)%nat /\ uses_kernel (o_core o) k /\
    init_layer (ext (o_core o)) (int_ (o_core o)) (pm (o_core o)) default_id_kernel = Ok (idl (o_core o)).
Proof.
  intros F M. pose proof (fresh_m_spec d kw) as S. destruct (fresh (md_base d) kw) as [o0|e] eqn:E; [|congruence].
  destruct S as (w & W & S). rewrite S in F. apply Ok_inj in F. subst o. unfold drop_fns. rewrite (defaults_false kw M).
  apply fresh_inv in E as (I & (r & l & k & Sr & Sl & Sk & SU) & Ek & _ & _ & _ & _ & _ & _ & _ & _ & Hil).
  cbn [with_weights with_rule o_core gens pers o_kpar o_peaks get_params o_radius ext int_ pm idl]. rewrite Nat.mul_comm in Ek.
  split; [reflexivity|]. split; [reflexivity|]. split; [exact Ek|]. split.
  - unfold get_params. cbn [with_weights with_rule o_core gens pers o_kpar]. rewrite Ek. reflexivity.
  - exists r, k. apply mixture_kernel_shape in Sk as (Sh & _). auto.
Qed.

Lemma room_fits e n m k r l u : (0 < e)%nat -> (0 < n)%nat -> shape k = (1, 1, 2 * r + 1, 2 * r + 1)%nat -> init_layer e n m k = Ok l ->
  pad_allowed m (tH u) r = true -> pad_allowed m (tW u) r = true -> fits l u.
Proof.
  intros E0 N0 Sh L PH PW. destruct (layer_of_kernel _ _ _ k r _ E0 N0 Sh L) as (_ & Q & M). unfold fits. rewrite Q, M. auto.
Qed.

Lemma set_params_empty o p o' : gens (o_core o) = [] -> pers (o_core o) = [] -> set_params o p = Ok o' -> gens (o_core o') = [] /\ pers (o_core o') = [].
Proof.
  intros G P H. unfold set_params in H. rewrite G, P in H. cbn [set_acts bind fst snd] in H. destruct (o_kpar o); try discriminate.
  apply bind_ok in H as (k & _ & H). apply bind_ok in H as (kk & _ & H). apply bind_ok in H as (nl & _ & H). apply Ok_inj in H. subst o'. auto.
Qed.

Lemma neural_params d kw o r p : fresh_m d kw = Ok o -> ~ is_functionlike (named_mode kw) -> o_radius o = VInt (Z.of_nat r) -> (0 < o_peaks o)%nat -> (0 < r)%nat ->
  List.length p = (3 * o_peaks o)%nat -> (forall x, In x p -> 0 <= x) ->
  exists o', set_params o p = Ok o' /\ get_params o' = Some p.
Proof.
  intros F M Hr P0 R0 Hl Hp. destruct (neural_fresh d kw o F M) as (G & P & Ek & Eg & _).
  destruct (fresh_m_minv d kw o F) as [I _]. destruct (minv_wf o I) as (CW & _).
  assert (C0 : fn_count (o_core o) = 0%nat) by (unfold fn_count; rewrite G, P; reflexivity).
  assert (Lk : List.length (map (dr_k (md_base d)) (seq 0 (3 * o_peaks o))) = (3 * o_peaks o)%nat) by (rewrite map_length, seq_length; lia).
  destruct (proj2 (set_accepts o p _ r Ek Hr CW)) as [o' Ho].
  { split; [lia|]. rewrite Lk, C0. cbn [skipn]. rewrite <- Hl, firstn_all. apply (triple_kernel_ok r p (o_peaks o)); try lia; auto. }
  exists o'. split; [exact Ho|]. destruct (set_get o p o' Ho) as (v & V1 & V2). rewrite Eg in V1. assert (Lv : List.length v = List.length p) by (assert (X : v = map (dr_k (md_base d)) (seq 0 (3 * o_peaks o))) by congruence; rewrite X, Lk; lia). rewrite V2, Lv, firstn_all. reflexivity.
Qed.

Lemma neural_stuck o u : minv o -> gens (o_core o) = [] -> twf u -> tC u = ext (o_core o) -> (0 < tH u)%nat -> (0 < tW u)%nat ->
  fits (idl (o_core o)) u -> fits (nbl (o_core o)) u -> cca_forward (o_core o) u = Err AssertionError.
Proof.
  intros I G Hu Hc H0 W0 F1 F2. destruct (minv_wf o I) as (CW & _ & _ & _ & _ & _ & _ & N0). apply cca_bad_count; auto. rewrite G. cbn [List.length]. lia.
Qed.

Lemma neural_fits d kw o r u : fresh_m d kw = Ok o -> ~ is_functionlike (named_mode kw) -> o_radius o = VInt (Z.of_nat r) ->
  room (pm (o_core o)) r (tH u) -> room (pm (o_core o)) r (tW u) -> fits (idl (o_core o)) u /\ fits (nbl (o_core o)) u.
Proof.
  intros F M Hr RH RW. destruct (neural_fresh d kw o F M) as (_ & _ & _ & _ & r' & k & Sr & Sh & U & Hil).
  assert (r' = r) by (rewrite Hr in Sr; injection Sr as Sr; lia). subst r'. destruct (fresh_m_minv d kw o F) as [I _]. destruct (minv_wf o I) as (_ & _ & _ & _ & _ & _ & E0 & N0).
  destruct (room_pad _ _ _ RH) as [A1 A2]. destruct (room_pad _ _ _ RW) as [B1 B2]. split.
  - exact (room_fits _ _ _ default_id_kernel 1 _ u E0 N0 eq_refl Hil A1 B1).
  - exact (room_fits _ _ _ k r _ u E0 N0 Sh U A2 B2).
Qed.

Lemma neural_set_fits d kw o r p o' u : fresh_m d kw = Ok o -> ~ is_functionlike (named_mode kw) -> o_radius o = VInt (Z.of_nat r) -> set_params o p = Ok o' ->
  room (pm (o_core o)) r (tH u) -> room (pm (o_core o)) r (tW u) ->
  minv o' /\ gens (o_core o') = [] /\ ext (o_core o') = ext (o_core o) /\ fits (idl (o_core o')) u /\ fits (nbl (o_core o')) u.
Proof.
  intros F M Hr Hs RH RW. destruct (neural_fresh d kw o F M) as (G & P & _). destruct (fresh_m_minv d kw o F) as [I _].
  split; [exact (proj1 (set_params_minv o p o' I Hs))|]. split; [exact (proj1 (set_params_empty o p o' G P Hs))|].
  destruct (neural_fits d kw o r u F M Hr RH RW) as [F1 _]. destruct (minv_wf o I) as (_ & _ & _ & _ & _ & _ & E0 & N0).
  apply set_params_inv in Hs as (l & g & q & k & _ & _ & _ & _ & _ & _ & _ & _ & K & U & Kp).
  destruct Kp as (A1 & A2 & A3 & A4 & A5 & A6 & A7 & A8 & A9 & A10 & A11 & A12 & A13). cbv zeta in *.
  unfold mixture_kernel_of in K. apply bind_ok in K as (r' & Hr' & K). rewrite Hr, as_size_of in Hr'. apply Ok_inj in Hr'. subst r'.
  apply mixture_kernel_shape in K as (Sh & _). split; [exact A1|]. split; [congruence|]. unfold uses_kernel in U. rewrite A1, A2, A3 in U.
  destruct (room_pad _ _ _ RH) as [_ B1]. destruct (room_pad _ _ _ RW) as [_ B2]. exact (room_fits _ _ _ k r _ u E0 N0 Sh U B1 B2).
Qed.

(** ** What a configuration keeps *)
Lemma init_m_plain f ev rng kw h : query_kwargs "ca_config" VNone kw = VNone -> query_kwargs "input_filepath" VNone kw = VNone ->
  init_m (S f) ev rng kw h = let* o := fresh_m (rng 0%nat) kw in Ok (o, h).
Proof. intros C F. cbn [init_m]. destruct (fresh_m (rng 0%nat) kw) as [o|]; [|reflexivity]. cbn [bind]. rewrite C. cbn [bind]. rewrite F. reflexivity. Qed.

Lemma round_m o h f ev rng w o2 h2 p o' h' : (exists w0, saveable (with_weights o w0) h) -> good_rng (fun n => md_base (rng n)) -> make_config o h = (p, o', h') ->
  exists o3 h3 wy, load_value_m (S f) ev rng w o2 p h2 = Ok (o3, h3) /\ o_core o3 = o_core (with_weights o wy) /\
    weights_for (o_inst o) w (ext (o_core o)) (int_ (o_core o)) (pm (o_core o)) = Ok wy.
Proof.
  intros (w0 & Sv) G HM. pose proof (make_config_weights o w0 h p o' h' HM) as HM'.
  destruct (saveable_round _ h f ev (fun n => md_base (rng n)) o2 h2 p _ h' Sv G HM') as (o3 & h3 & L & E).
  pose proof (make_config_inst o h) as M. rewrite HM in M. destruct M as (_ & _ & _ & _ & Ei & _ & _ & _ & _ & _ & _ & _ & Q6).
  destruct Sv as (I & _ & _ & _ & C & F & _). cbv zeta in *. change (o_inst (with_weights o w0)) with (o_inst o) in *.
  assert (C' : query_kwargs "ca_config" VNone (o_inst o') = VNone) by (rewrite Q6 by discriminate; exact C).
  assert (F' : query_kwargs "input_filepath" VNone (o_inst o') = VNone) by (rewrite Q6 by discriminate; exact F).
  unfold load_value, load_config, load_with in L. unfold load_value_m, load_config_m, load_with_m. cbv zeta in *.
  rewrite unpickle_mode, Ei in *. rewrite init_plain in L by assumption. rewrite init_m_plain by assumption.
  apply bind_ok in L as ([o4 h4] & L4 & L). apply bind_ok in L4 as (o5 & L5 & L4). apply Ok_inj, pair_equal_spec in L4 as [-> <-]. cbn [fst snd] in L.
  pose proof (fresh_m_spec (rng 0%nat) (o_inst o')) as S. rewrite L5 in S. destruct S as (wf & Wf & ->). cbn [bind fst snd].
  apply fresh_inv in L5 as (I5 & _ & _ & _ & _ & _ & _ & Ei5 & _). pose proof I5 as (E0 & N0 & _). cbv zeta in *.
  assert (A : with_weights (drop_fns (o_inst o') o4) wf = with_rule o4 wf (gens (o_core (drop_fns (o_inst o') o4))) (pers (o_core (drop_fns (o_inst o') o4)))).
  { unfold drop_fns. destruct (with_defaults (o_inst o')); reflexivity. }
  rewrite A. pose proof (load_body_m_spec w o4 wf (gens (o_core (drop_fns (o_inst o') o4))) (pers (o_core (drop_fns (o_inst o') o4))) (fst (unpickle p h2)) (snd (unpickle p h2)) E0 N0) as B.
  rewrite L in B. destruct B as (wy & Wy & B). exists (with_weights o3 wy), h3, wy. split; [exact B|]. split.
  - unfold with_weights. cbn [o_core]. rewrite E. reflexivity.
  - apply load_body_inv in L as [_ L]. rewrite Ei5 in Wy. unfold weights_for, mode_is, mode_of in *. rewrite Q6 in Wy by discriminate.
    rewrite <- (ld_ext _ _ _ _ L), <- (ld_int _ _ _ _ L), <- (ld_pm _ _ _ _ L), E in Wy. exact Wy.
Qed.

(** Weights of zero: nothing moves. *)
Definition no_weights : wdraw := mkWd (fun _ _ => 0) (fun _ _ => 0).

Lemma zero_two_layers n w1 g ch : two_layers n w1 (fun _ _ => 0) g ch = 0.
Proof. unfold two_layers. apply rsum_0. intros k _. lra. Qed.

Lemma zero_still c u u' : cca_wf c -> (ext c < 4)%nat -> wl c = neuro_layer no_weights (ext c) (int_ c) (pm c) -> twf u -> in_unit u ->
  cca_forward c u = Ok u' -> u' = u.
Proof.
  intros Hc H4 Hw Hu U H. destruct (cca_shape c u u' Hc Hu H) as [E W]. apply shape_inv in E as (E1 & E2 & E3 & E4).
  assert (Ec : tC u = ext c) by (apply (cca_accepts c u Hc Hu); eauto).
  apply tensor_ext; auto. { unfold shape. congruence. } rewrite E1, E2, E3, E4. intros b ch i j Hb Hch Hi Hj.
  rewrite (forward_cell c u u' b ch i j Hc Hu H4 H Hb) by (auto; lia). rewrite Hw, neuro_fn by lia. cbn [no_weights wd1 wd2]. rewrite zero_two_layers, Rmult_0_r, Rplus_0_r.
  apply clamp_unit. apply unit_get; auto.
Qed.

Lemma forgets o h f ev rng o2 h2 p o' h' u u' : minv o -> named_mode (o_inst o) <> VStr "functional" -> (ext (o_core o) < 4)%nat ->
  (exists w0, saveable (with_weights o w0) h) -> good_rng (fun n => md_base (rng n)) -> make_config o h = (p, o', h') ->
  twf u -> in_unit u -> cca_forward (o_core o) u = Ok u' -> u' <> u ->
  exists w o3 h3, load_value_m (S f) ev rng w o2 p h2 = Ok (o3, h3) /\ differ (o_core o) (o_core o3) /\
    gens (o_core o3) = gens (o_core o) /\ pers (o_core o3) = pers (o_core o) /\ idl (o_core o3) = idl (o_core o) /\ nbl (o_core o3) = nbl (o_core o) /\ dt (o_core o3) = dt (o_core o).
Proof.
  intros I M H4 Sv G HM Hu U H N. exists no_weights. destruct (round_m o h f ev rng no_weights o2 h2 p o' h' Sv G HM) as (o3 & h3 & wy & L & E & W).
  exists o3, h3. split; [exact L|]. split; [|rewrite E; repeat split]. rewrite weights_for_other in W by exact M. injection W as <-.
  destruct (minv_wf o I) as (CW & _ & _ & _ & _ & _ & E0 & N0). rewrite E.
  destruct (accepts_weights o (neuro_layer no_weights (ext (o_core o)) (int_ (o_core o)) (pm (o_core o))) u CW) as [v V]; eauto.
  { cbn [wl_wf neuro_layer]. exists (int_ (o_core o)). split; apply pt_build; assumption. }
  exists u, u', v. split; [exact Hu|]. split; [exact U|]. split; [exact H|]. split; [exact V|].
  rewrite (zero_still _ u v) with (6 := V); auto. destruct CW as (A & B & _). split; [exact A|]. split; [exact B|].
  cbn [with_weights o_core wl ext int_ wl_wf neuro_layer]. exists (int_ (o_core o)). split; apply pt_build; assumption.
Qed.

(** One internal channel: signs cannot be mixed. *)
Lemma one_channel_signed c w : int_ c = 1%nat -> forall ch, (ch < ext c)%nat ->
  (forall k, (k < int_ c)%nat -> 0 <= dt c * wd2 w ch k) \/ (forall k, (k < int_ c)%nat -> dt c * wd2 w ch k <= 0).
Proof.
  intros E ch _. rewrite E. destruct (Rle_dec 0 (dt c * wd2 w ch 0%nat)); [left|right]; intros k Hk; assert (k = 0%nat) as -> by lia; lra.
Qed.

(** ** The invariant in plain words *)
Lemma dense_build a b m l : dense a b m l -> l = mkL (build b a 1 1 (fun o i _ _ => weight l o i)) 1 0 m.
Proof.
  intros (((G & W & B0 & A0 & EB & EC & EH & EW) & P & G1) & M). destruct l as [t g p m']. cbn [cl_w cl_g cl_p cl_m] in *. subst g p m'.
  f_equal. rewrite Nat.mul_1_l in EC. apply tensor_ext; [exact W|apply twf_build| |].
  - unfold shape. cbn [build tB tC tH tW]. rewrite EB, EC, EH, EW. reflexivity.
  - intros x y i j Hx Hy Hi Hj. rewrite get_build by lia. unfold weight. cbn [cl_w]. f_equal; lia.
Qed.

Lemma minv_proper o : minv o <-> proper o.
Proof.
  unfold proper. split.
  - intros ((wd & R) & w0 & I). split; intros M.
    + rewrite weights_for_functional in R by exact M. pose proof I as (_ & _ & _ & _ & W & _). cbv zeta in W. cbn [with_weights o_core ext int_ pm wl] in W.
      assert (w0 = wl (o_core o)) as -> by congruence. rewrite with_weights_self in I. exact I.
    + rewrite weights_for_other in R by exact M. injection R as R. pose proof I as (E0 & N0 & _). cbv zeta in *.
      exists w0. do 2 eexists. split; [exact I|]. split; [symmetry; exact R|]. split; (split; [|reflexivity]); apply pt_build; assumption.
  - intros [A B]. destruct (mode_is "functional" (o_inst o)) eqn:E.
    + apply mode_is_true in E. specialize (A E). split.
      * exists no_weights. rewrite weights_for_functional by exact E. destruct A as (_ & _ & _ & _ & W & _). exact W.
      * exists (wl (o_core o)). rewrite with_weights_self. exact A.
    + assert (N : named_mode (o_inst o) <> VStr "functional") by (intros H; apply mode_is_true in H; congruence).
      destruct (B N) as (w0 & l1 & l2 & I & W & D1 & D2). split; [|eauto]. exists (mkWd (weight l1) (weight l2)).
      rewrite weights_for_other by exact N. rewrite W. f_equal. unfold neuro_layer. cbn [wd1 wd2]. f_equal; symmetry; apply dense_build; assumption.
Qed.

Lemma proper_draw o l1 l2 : proper o -> named_mode (o_inst o) <> VStr "functional" -> wl (o_core o) = WMlp l1 l2 ->
  wl (o_core o) = neuro_layer (mkWd (weight l1) (weight l2)) (ext (o_core o)) (int_ (o_core o)) (pm (o_core o)).
Proof.
  intros [_ B] N W. destruct (B N) as (w0 & l1' & l2' & I & W' & D1 & D2). rewrite W in W'. injection W' as <- <-. rewrite W.
  unfold neuro_layer. cbn [wd1 wd2]. f_equal; apply dense_build; assumption.
Qed.
