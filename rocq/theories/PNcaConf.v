(** Proofs about configurations of neural cellular automata. *)
From Coq Require Import Reals Lra Lia List Arith Bool ZArith String.
From Verif Require Import Base PyDict Tensor MActivations MKernels MCommon MCca MConfig MNca MNcaConf SGrid SCca SKern SConfig SNca SNcaConf
  PTensor PStep PCca PAct PKern PKernX PKernY PNca PConfig PConfigX PConfigY.
Import ListNotations.
Open Scope R_scope.
Open Scope string_scope.

(** ** Small facts *)
Lemma act_class_in s : In s act_names -> act_class (VStr s) = s.
Proof.
  intros H. cbn [act_class]. assert (E : existsb (String.eqb s) act_names = true).
  { apply existsb_exists. exists s. split; [exact H|apply String.eqb_refl]. }
  rewrite E. reflexivity.
Qed.

Lemma act_class_known v : In (act_class v) act_names.
Proof.
  destruct v; cbn [act_class]; try (cbn; tauto). destruct (existsb (String.eqb s) act_names) eqn:E; [|cbn; tauto].
  apply existsb_exists in E as (t & Ht & E). apply String.eqb_eq in E. subst t. exact Ht.
Qed.

Lemma squared_class c : In c act_names -> of_class c (act_squared (nca_act (VStr c))).
Proof. intros H. unfold act_names in H. cbn [In] in H. repeat (destruct H as [<-|H]; [cbn; auto|]). contradiction. Qed.

Lemma class_ok c a : of_class c a -> nact_ok a.
Proof. destruct a; cbn [of_class]; try contradiction; intros H; first [left; reflexivity|right; do 3 eexists; reflexivity]. Qed.

Lemma set_nact_class c a a' p : of_class c a -> of_class c a' -> set_nact a (act_params a' ++ p)%list = Ok (a', p).
Proof.
  destruct a; cbn [of_class]; try contradiction; destruct a'; cbn [of_class]; try contradiction;
    try (intros -> H; discriminate H); try (intros [-> _] H; discriminate H); try (intros -> [H _]; discriminate H); try (intros _ _; reflexivity).
  intros [_ ->] [_ ->]. reflexivity.
Qed.

Lemma class_set c a p q : of_class c a -> set_nact a p = Ok q -> of_class c (fst q).
Proof.
  destruct a; cbn [of_class]; try contradiction; intros C H; cbn [set_nact] in H; try (apply Ok_inj in H; subst q; exact C).
  apply bind_ok in H as (x & _ & H). apply bind_ok in H as (y & _ & H). apply Ok_inj in H. subst q. exact C.
Qed.

Lemma set_tensor_from w w' p : shape w = shape w' -> List.length (tdata w) = List.length (tdata w') ->
  set_tensor w (tdata w' ++ p)%list = Ok (w', p).
Proof.
  intros S L. apply shape_inv in S as (A & B & C & D). unfold set_tensor. rewrite L, A, B, C, D.
  exact (set_tensor_self w' p).
Qed.

Lemma weight_same o i w w' : weight o i w -> weight o i w' -> shape w = shape w' /\ List.length (tdata w) = List.length (tdata w').
Proof.
  intros (T & S & _) (T' & S' & _). split; [congruence|]. unfold twf in T, T'. rewrite T, T'.
  apply shape_inv in S as (-> & -> & -> & ->). apply shape_inv in S' as (-> & -> & -> & ->). reflexivity.
Qed.

Lemma drawn_weight dr l o i : (0 < o)%nat -> (0 < i)%nat -> weight o i (tmap sq (drawn dr l o i)).
Proof. intros Ho Hi. apply tmap_weight; auto. apply twf_build. Qed.

Lemma weights_drawn dr e n h :
  nca_weights e n h (drawn dr 0 h (e + n)) (drawn dr 1 h h) (drawn dr 2 e h) =
  Ok (tmap sq (drawn dr 0 h (e + n)), tmap sq (drawn dr 1 h h), tmap sq (drawn dr 2 e h)).
Proof. unfold nca_weights, drawn. cbn [tB tC tH tW build]. rewrite !Nat.eqb_refl. reflexivity. Qed.

(** ** Parameters of one automaton put into another *)
Lemma nca_set_more c s1 s kk nl ex :
  weight (nc_hid s) (nc_ext s + nc_int s) (nc_w1 s1) -> weight (nc_hid s) (nc_hid s) (nc_w2 s1) -> weight (nc_ext s) (nc_hid s) (nc_w3 s1) ->
  nca_wf s -> of_class c (nc_a1 s) -> of_class c (nc_a2 s) -> of_class c (nc_a1 s1) -> of_class c (nc_a2 s1) ->
  match nc_kpar s with
  | KPNone => nc_kpar s1 = KPNone /\ kk = nc_kern s1 /\ nl = nc_nbl s1
  | KPScalar _ => False
  | KPVec l => (exists l', nc_kpar s1 = KPVec l' /\ List.length l' = List.length l) /\
      exists k, mixture_kernel_of (nc_radius s1) l = Ok k /\ as_kernel (K4 k) = Ok kk /\ init_layer (nc_ext s1) (nc_int s1) (nc_pm s1) kk = Ok nl
  end ->
  nca_set_params s1 (nca_get_params s ++ ex)%list = Ok (mkNca (nc_ext s1) (nc_int s1) (nc_hid s1) (nc_pm s1) (nc_thr s1) (nc_idl s1) nl
        (nc_w1 s) (nc_a1 s) (nc_w2 s) (nc_a2 s) (nc_w3 s) (nc_drop s1) kk (nc_kpar s) (nc_cfg s1) (nc_radius s1) (nc_dt s1)).
Proof.
  intros W1 W2 W3 (_ & _ & V1 & V2 & V3) C1 C2 D1 D2 K.
  destruct (weight_same _ _ _ _ W1 V1) as [S1 L1]. destruct (weight_same _ _ _ _ W2 V2) as [S2 L2]. destruct (weight_same _ _ _ _ W3 V3) as [S3 L3].
  unfold nca_set_params, nca_get_params. rewrite <- !app_assoc. rewrite set_tensor_from by auto. cbn [bind fst snd].
  rewrite (set_nact_class c) by auto. cbn [bind fst snd]. rewrite set_tensor_from by auto. cbn [bind fst snd].
  rewrite (set_nact_class c) by auto. cbn [bind fst snd]. rewrite set_tensor_from by auto. cbn [bind fst snd].
  destruct (nc_kpar s) as [|x|l] eqn:E.
  - destruct K as (-> & -> & ->). reflexivity.
  - contradiction.
  - destruct K as ((l' & -> & Ll) & k & K1 & K2 & K3). cbn [kp_flat]. rewrite Ll, firstn_app, Nat.sub_diag, firstn_all, firstn_O, app_nil_r, K1. cbn [bind]. rewrite K2. cbn [bind]. rewrite K3. reflexivity.
Qed.

Lemma nca_set_from c s1 s kk nl :
  weight (nc_hid s) (nc_ext s + nc_int s) (nc_w1 s1) -> weight (nc_hid s) (nc_hid s) (nc_w2 s1) -> weight (nc_ext s) (nc_hid s) (nc_w3 s1) ->
  nca_wf s -> of_class c (nc_a1 s) -> of_class c (nc_a2 s) -> of_class c (nc_a1 s1) -> of_class c (nc_a2 s1) ->
  match nc_kpar s with
  | KPNone => nc_kpar s1 = KPNone /\ kk = nc_kern s1 /\ nl = nc_nbl s1
  | KPScalar _ => False
  | KPVec l => (exists l', nc_kpar s1 = KPVec l' /\ List.length l' = List.length l) /\
      exists k, mixture_kernel_of (nc_radius s1) l = Ok k /\ as_kernel (K4 k) = Ok kk /\ init_layer (nc_ext s1) (nc_int s1) (nc_pm s1) kk = Ok nl
  end ->
  nca_set_params s1 (nca_get_params s) = Ok (mkNca (nc_ext s1) (nc_int s1) (nc_hid s1) (nc_pm s1) (nc_thr s1) (nc_idl s1) nl
        (nc_w1 s) (nc_a1 s) (nc_w2 s) (nc_a2 s) (nc_w3 s) (nc_drop s1) kk (nc_kpar s) (nc_cfg s1) (nc_radius s1) (nc_dt s1)).
Proof.
  intros. rewrite <- (app_nil_r (nca_get_params s)). apply (nca_set_more c); assumption.
Qed.

(** ** Constructing an object *)
Lemma default_body_ok dr f r m : as_pmode (ns_pm f) = Ok m -> ns_radius f = VInt (Z.of_nat r) -> r <> 0%nat ->
  (0 < ns_ext f)%nat -> (0 < ns_int f)%nat -> ns_peaks f <> 0%nat -> 0 <= ns_drop f <= 1 -> exists s, default_body dr f = Ok s.
Proof.
  intros M Er R0 E0 N0 P0 D. unfold default_body. rewrite M, Er. cbn [bind]. rewrite as_size_of. cbn [bind].
  apply nca_init_ok; auto; reflexivity.
Qed.

Lemma default_body_coherent dr f s : (0 < ns_ext f)%nat -> (0 < ns_int f)%nat -> (0 < ns_hid f)%nat -> In (ns_act f) act_names ->
  as_num (query_kwargs "alive_threshold" (VNum (1 / 10)) (ns_inst f)) = Ok (ns_thr f) -> query_kwargs "ca_config" VNone (ns_inst f) = VNone ->
  default_body dr f = Ok s -> coherent (mkNobj f (Some s)) s.
Proof.
  intros E0 N0 H0 A T P H. unfold default_body in H. apply bind_ok in H as (m & M & H). apply bind_ok in H as (r & Er & H).
  pose proof H as H'. apply nca_init_facts in H' as (W & X1 & X2 & X3 & X4 & X5 & X6 & X7 & Dr & _ & _ & _ & Il & (k & Ek & El) & Kp & Rd & Cf & _ & _ & _ & A1 & A2 & Pk); auto; try (unfold drawn; apply twf_build).
  apply as_size_ok in Er.
  constructor; cbn [no_body no_set]; auto; try congruence.
  - rewrite A1. apply squared_class. exact A.
  - rewrite A2. apply squared_class. exact A.
  - left. exists r, (default_kparams (ns_peaks f) (INR (ns_peaks f))), k. rewrite X1, X2, X5, Cf.
    split; [exact Rd|]. split; [exact Kp|]. split; [exact Ek|]. split; [exact El|]. apply default_kparams_triples.
Qed.

Lemma settings_fields kw f : nca_settings kw = Ok f ->
  ns_inst f = kw /\ as_num (query_kwargs "alive_threshold" (VNum (1 / 10)) kw) = Ok (ns_thr f) /\ In (ns_act f) act_names /\
  ns_act f = act_class (query_kwargs "activation" (VStr "Gaussian") kw) /\
  ns_pm f = query_kwargs "conv_mode" (VStr "circular") kw /\ ns_radius f = query_kwargs "kernel_radius" (VInt 13) kw /\
  as_size (query_kwargs "hidden_channels" (VInt 64) kw) = Ok (ns_hid f) /\ as_size (query_kwargs "kernel_peaks" (VInt 3) kw) = Ok (ns_peaks f) /\
  as_size (query_kwargs "external_channels" (VInt 1) kw) = Ok (ns_ext f) /\ as_size (query_kwargs "internal_channels" (VInt 1) kw) = Ok (ns_int f) /\
  as_num (query_kwargs "dropout_rate" (VNum (1 / 10)) kw) = Ok (ns_drop f).
Proof.
  unfold nca_settings. intros H. apply bind_ok in H as (h & Hh & H). apply bind_ok in H as (pk & Hpk & H). apply bind_ok in H as (e & He & H).
  apply bind_ok in H as (n & Hn & H). apply bind_ok in H as (th & Hth & H). apply bind_ok in H as (dp & Hdp & H). apply Ok_inj in H. subst f.
  cbn [ns_inst ns_thr ns_act ns_pm ns_radius ns_hid ns_peaks ns_ext ns_int ns_drop]. repeat (split; [solve [auto using act_class_known]|]). exact Hdp.
Qed.

(** ** The keyword arguments make_config writes *)
Definition made_inst (f : nset) (rad : value) : dict :=
  dset "internal_channels" (nat_value (ns_int f)) (dset "external_channels" (nat_value (ns_ext f))
  (dset "hidden_channels" (nat_value (ns_hid f)) (dset "conv_mode" (ns_pm f)
  (dset "kernel_peaks" (nat_value (ns_peaks f)) (dset "kernel_radius" rad
  (dset "dropout_rate" (VNum (ns_drop f)) (dset "activation" (VStr (ns_act f)) (ns_inst f)))))))).

Ltac dq := rewrite ?query_dset_neq by discriminate; rewrite ?query_dset_eq.

Lemma made_settings f rad : In (ns_act f) act_names -> as_num (query_kwargs "alive_threshold" (VNum (1 / 10)) (ns_inst f)) = Ok (ns_thr f) ->
  nca_settings (made_inst f rad) =
  Ok (mkNset (ns_ext f) (ns_int f) (ns_hid f) (ns_pm f) (ns_thr f) rad (ns_peaks f) (ns_act f) (ns_drop f) (made_inst f rad)).
Proof.
  intros A T. pose (kw := made_inst f rad). assert (E : kw = made_inst f rad) by reflexivity. rewrite <- E. clearbody kw. unfold nca_settings.
  assert (Q1 : query_kwargs "hidden_channels" (VInt 64) kw = VInt (Z.of_nat (ns_hid f))) by (rewrite E; unfold made_inst; dq; reflexivity).
  assert (Q2 : query_kwargs "kernel_peaks" (VInt 3) kw = VInt (Z.of_nat (ns_peaks f))) by (rewrite E; unfold made_inst; dq; reflexivity).
  assert (Q3 : query_kwargs "external_channels" (VInt 1) kw = VInt (Z.of_nat (ns_ext f))) by (rewrite E; unfold made_inst; dq; reflexivity).
  assert (Q4 : query_kwargs "internal_channels" (VInt 1) kw = VInt (Z.of_nat (ns_int f))) by (rewrite E; unfold made_inst; dq; reflexivity).
  assert (Q5 : query_kwargs "alive_threshold" (VNum (1 / 10)) kw = query_kwargs "alive_threshold" (VNum (1 / 10)) (ns_inst f)) by (rewrite E; unfold made_inst; dq; reflexivity).
  assert (Q6 : query_kwargs "dropout_rate" (VNum (1 / 10)) kw = VNum (ns_drop f)) by (rewrite E; unfold made_inst; dq; reflexivity).
  assert (Q7 : query_kwargs "conv_mode" (VStr "circular") kw = ns_pm f) by (rewrite E; unfold made_inst; dq; reflexivity).
  assert (Q8 : query_kwargs "kernel_radius" (VInt 13) kw = rad) by (rewrite E; unfold made_inst; dq; reflexivity).
  assert (Q9 : query_kwargs "activation" (VStr "Gaussian") kw = VStr (ns_act f)) by (rewrite E; unfold made_inst; dq; reflexivity).
  rewrite Q1, Q2, Q3, Q4, Q5, Q6, Q7, Q8, Q9, T, !as_size_of. cbn [bind as_num]. rewrite act_class_in by exact A. reflexivity.
Qed.

(** ** Making and loading *)
Lemma tail_app n (a b : list R) : n <> 0%nat -> List.length b = n -> tail_of n (a ++ b)%list = b.
Proof.
  intros N L. unfold tail_of. destruct n; [contradiction|]. rewrite app_length, L.
  replace (List.length a + S n - S n)%nat with (List.length a) by lia. rewrite skipn_app, skipn_all, Nat.sub_diag. reflexivity.
Qed.

Lemma kernel_usable d k : get_kernel d = Ok k -> forall e n m, (0 < e)%nat -> as_kernel (K4 k) = Ok k /\ exists nl, init_layer e n m k = Ok nl.
Proof.
  intros H e n m E0. apply get_kernel_odd in H as (r & (S & _) & _). apply shape_inv in S as (A & B & C & D). split.
  - unfold as_kernel. rewrite C, D, Nat.eqb_refl. reflexivity.
  - apply init_layer_ok; auto.
Qed.

(** The kernel config make_config writes. *)
Definition made_nb (f : nset) (s : nca) : dict :=
  match nc_cfg s with
  | Some d => d
  | None => [("name", VStr "GaussianMixture"); ("kernel_kwargs", VDict [("parameters", VVec (tail_of (ns_peaks f * 3) (nca_get_params s)))]); ("radius", nc_radius s)]
  end.

Definition made_cfg (f : nset) (s : nca) : ncfg :=
  mkNcfg (Some (made_inst f (nc_radius s))) (Some [("name", VStr "InnerMoore")]) None (Some (made_nb f s)) (Some (nc_dt s)) (Some (nca_get_params s)).

Lemma make_eq o s : no_body o = Some s -> nca_make o = Ok (made_cfg (no_set o) s,
  mkNobj (mkNset (ns_ext (no_set o)) (ns_int (no_set o)) (ns_hid (no_set o)) (ns_pm (no_set o)) (ns_thr (no_set o)) (ns_radius (no_set o))
            (ns_peaks (no_set o)) (ns_act (no_set o)) (ns_drop (no_set o)) (made_inst (no_set o) (nc_radius s)))
         (Some (set_cfg s (made_nb (no_set o) s)))).
Proof. intros H. unfold nca_make. rewrite H. reflexivity. Qed.

(** What reading the kernel config back gives. *)
Lemma made_nb_readable f s : ns_peaks f <> 0%nat -> mixture_kept (ns_peaks f) s \/ named_kept s ->
  exists r kw k kp, nc_radius s = VInt (Z.of_nat r) /\ readable (made_nb f s) kw r k /\ update_kernel_params KPNone kw = Ok kp /\
  match nc_kpar s with
  | KPVec l => (exists l', kp = KPVec l' /\ List.length l' = List.length l) /\
               exists q, get_gaussian_mixture_kernel r l 1 = Ok q /\ init_layer (nc_ext s) (nc_int s) (nc_pm s) q = Ok (nc_nbl s)
  | KPScalar _ => False
  | KPNone => kp = KPNone /\ init_layer (nc_ext s) (nc_int s) (nc_pm s) k = Ok (nc_nbl s)
  end.
Proof.
  intros P0 [(r & l & k & Er & El & Ek & Enl & C)|(r & d & k & Er & El & Ec & Rd & Enl)].
  - unfold made_nb. destruct (nc_cfg s) as [d|].
    + destruct C as (kw & l' & k' & Rd & U & L). exists r, kw, k', (KPVec l'). split; [exact Er|]. split; [exact Rd|]. split; [exact U|]. rewrite El.
      split; [exists l'; auto|]. exists k. auto.
    + exists r, [("parameters", VVec l)], k, (KPVec l). split; [exact Er|].
      assert (R0 : r <> 0%nat).
      { unfold get_gaussian_mixture_kernel in Ek. apply bind_ok in Ek as (gs & _ & Ek). apply radial_1_fitted in Ek as (R0 & _). exact R0. }
      assert (T : tail_of (ns_peaks f * 3) (nca_get_params s) = l).
      { rewrite get_net, El. cbn [kp_flat]. apply tail_app; lia. }
      rewrite T, Er. split; [|split; [reflexivity|]].
      * split; [reflexivity|]. split; [exact R0|]. split; [reflexivity|]. exact (eq_trans (builder_mixture r l) Ek).
      * rewrite El. split; [exists l; auto|]. exists k. auto.
  - unfold made_nb. rewrite Ec. exists r, [], k, KPNone. split; [exact Er|]. split; [exact Rd|]. split; [reflexivity|]. rewrite El. auto.
Qed.

(** Loading what [o] would save: the re-initialised object with the same settings takes over
    everything. *)
Lemma load_body_made dr o s f0 s0 : coherent o s ->
  ns_ext f0 = ns_ext (no_set o) -> ns_int f0 = ns_int (no_set o) -> ns_hid f0 = ns_hid (no_set o) -> ns_pm f0 = ns_pm (no_set o) ->
  ns_thr f0 = ns_thr (no_set o) -> ns_act f0 = ns_act (no_set o) -> ns_drop f0 = ns_drop (no_set o) ->
  exists s', nca_load_body dr (mkNobj f0 (Some s0)) (made_cfg (no_set o) s) = Ok (mkNobj f0 (Some s')) /\ nca_alike s s' /\
    nc_cfg s' = Some (made_nb (no_set o) s).
Proof.
  intros Co X1 X2 X3 X4 X5 X6 X7. destruct Co as [_ W Y1 Y2 Y3 Y4 Y5 Dr M P0 A A1 A2 _ _ Il Kn].
  destruct (made_nb_readable _ _ P0 Kn) as (r & kw & k & kp & Er & (R1 & R0 & R2 & R3) & U & K).
  pose proof W as (L1 & L2 & (_ & _ & H0 & EN0) & _ & (_ & _ & E0 & _)).
  destruct (kernel_usable _ _ R3 (nc_ext s) (nc_int s) (nc_pm s) E0) as (Ak & nl & Enl).
  unfold nca_load_body. cbn [no_set no_body]. unfold made_cfg. cbn [n_id n_nb n_dt n_params].
  rewrite X1, X2, X3, X4, X5, X6, X7, M, <- Y1, <- Y2, <- Y3, <- Y4, <- Y5. cbn [bind]. rewrite Il. cbn [bind need].
  unfold dgetk. rewrite R1. cbn [bind]. rewrite R3. cbn [bind]. unfold kernel_args. rewrite R2. cbn [bind as_dict fst snd].
  rewrite U. cbn [bind]. rewrite (dset_same _ _ _ R1), R3. cbn [bind]. rewrite Ak. cbn [bind]. rewrite Enl. cbn [bind guard].
  rewrite Y5. destruct (Rle_dec 0 (ns_drop (no_set o))); [|lra]. destruct (Rle_dec (ns_drop (no_set o)) 1); [|lra]. cbn [andb guard bind].
  rewrite weights_drawn. cbn [bind fst snd].
  set (s1 := mkNca _ _ _ _ _ _ _ _ _ _ _ _ _ _ _ _ _ _).
  assert (V1 : weight (nc_hid s) (nc_ext s + nc_int s) (nc_w1 s1)) by (apply drawn_weight; assumption).
  assert (V2 : weight (nc_hid s) (nc_hid s) (nc_w2 s1)) by (apply drawn_weight; assumption).
  assert (V3 : weight (nc_ext s) (nc_hid s) (nc_w3 s1)) by (apply drawn_weight; assumption).
  assert (Z : exists kk, nca_set_params s1 (nca_get_params s) = Ok (mkNca (nc_ext s1) (nc_int s1) (nc_hid s1) (nc_pm s1) (nc_thr s1) (nc_idl s1) (nc_nbl s)
        (nc_w1 s) (nc_a1 s) (nc_w2 s) (nc_a2 s) (nc_w3 s) (nc_drop s1) kk (nc_kpar s) (nc_cfg s1) (nc_radius s1) (nc_dt s1))).
  { destruct (nc_kpar s) as [|x|l] eqn:EK.
    - destruct K as (-> & K). exists k. rewrite <- EK. apply (nca_set_from (ns_act (no_set o))); auto; try (apply squared_class; exact A).
      rewrite EK. unfold s1. cbn [nc_kpar nc_kern nc_nbl]. split; [reflexivity|]. split; [reflexivity|]. congruence.
    - contradiction.
    - destruct K as ((l' & -> & Ll) & q & Eq & Ql). exists q. rewrite <- EK. apply (nca_set_from (ns_act (no_set o))); auto; try (apply squared_class; exact A).
      rewrite EK. unfold s1. cbn [nc_kpar nc_radius nc_ext nc_int nc_pm]. split; [exists l'; auto|]. exists q.
      unfold mixture_kernel_of. rewrite as_size_of. cbn [bind]. split; [exact Eq|]. split; [|exact Ql].
      apply mixture_kernel_shape in Eq as (_ & _ & _ & Aq). exact Aq. }
  destruct Z as (kk & Z). rewrite Z. cbn [bind]. eexists. split; [reflexivity|]. unfold nca_alike, s1. cbn [nc_ext nc_int nc_hid nc_pm nc_thr nc_idl nc_drop nc_cfg nc_radius nc_dt nc_kern].
  split; [|reflexivity]. rewrite Er, Y5. reflexivity.
Qed.

Lemma new_made fuel fs dir rng f r m : as_pmode (ns_pm f) = Ok m -> r <> 0%nat -> (0 < ns_ext f)%nat -> (0 < ns_int f)%nat ->
  ns_peaks f <> 0%nat -> 0 <= ns_drop f <= 1 -> In (ns_act f) act_names ->
  as_num (query_kwargs "alive_threshold" (VNum (1 / 10)) (ns_inst f)) = Ok (ns_thr f) -> query_kwargs "ca_config" VNone (ns_inst f) = VNone ->
  exists s0, nca_new (S fuel) fs dir rng (made_inst f (VInt (Z.of_nat r))) =
    Ok (mkNobj (mkNset (ns_ext f) (ns_int f) (ns_hid f) (ns_pm f) (ns_thr f) (VInt (Z.of_nat r)) (ns_peaks f) (ns_act f) (ns_drop f) (made_inst f (VInt (Z.of_nat r)))) (Some s0)).
Proof.
  intros M R0 E0 N0 P0 D A T P. cbn [nca_new]. rewrite made_settings by assumption. cbn [bind].
  assert (Q : query_kwargs "ca_config" VNone (made_inst f (VInt (Z.of_nat r))) = VNone) by (unfold made_inst; dq; exact P). rewrite Q.
  destruct (default_body_ok (rng 0%nat) (mkNset (ns_ext f) (ns_int f) (ns_hid f) (ns_pm f) (ns_thr f) (VInt (Z.of_nat r)) (ns_peaks f) (ns_act f) (ns_drop f) (made_inst f (VInt (Z.of_nat r)))) r m) as [s0 H]; auto.
  exists s0. rewrite H. reflexivity.
Qed.

Lemma made_inst_idem f rad x : made_inst (mkNset (ns_ext f) (ns_int f) (ns_hid f) (ns_pm f) x rad (ns_peaks f) (ns_act f) (ns_drop f) (made_inst f rad)) rad = made_inst f rad.
Proof.
  unfold made_inst at 1. cbn [ns_ext ns_int ns_hid ns_pm ns_peaks ns_act ns_drop ns_inst].
  assert (G : forall k v, dget k (made_inst f rad) = Some v -> dset k v (made_inst f rad) = made_inst f rad) by (intros; apply dset_same; assumption).
  rewrite (G "activation") by (unfold made_inst; rewrite ?dget_dset_neq by discriminate; apply dget_dset_eq).
  rewrite (G "dropout_rate") by (unfold made_inst; rewrite ?dget_dset_neq by discriminate; apply dget_dset_eq).
  rewrite (G "kernel_radius") by (unfold made_inst; rewrite ?dget_dset_neq by discriminate; apply dget_dset_eq).
  rewrite (G "kernel_peaks") by (unfold made_inst; rewrite ?dget_dset_neq by discriminate; apply dget_dset_eq).
  rewrite (G "conv_mode") by (unfold made_inst; rewrite ?dget_dset_neq by discriminate; apply dget_dset_eq).
  rewrite (G "hidden_channels") by (unfold made_inst; rewrite ?dget_dset_neq by discriminate; apply dget_dset_eq).
  rewrite (G "external_channels") by (unfold made_inst; rewrite ?dget_dset_neq by discriminate; apply dget_dset_eq).
  apply G. unfold made_inst; rewrite ?dget_dset_neq by discriminate; apply dget_dset_eq.
Qed.

(** ** The round trip *)
Lemma alike_kept pk s s' d r kw k kp : nca_alike s s' -> nc_cfg s' = Some d -> nc_radius s = VInt (Z.of_nat r) -> readable d kw r k ->
  update_kernel_params KPNone kw = Ok kp ->
  match nc_kpar s with
  | KPVec l => (exists l', kp = KPVec l' /\ List.length l' = List.length l) /\
               exists q, get_gaussian_mixture_kernel r l 1 = Ok q /\ init_layer (nc_ext s) (nc_int s) (nc_pm s) q = Ok (nc_nbl s)
  | KPScalar _ => False
  | KPNone => kw = [] /\ init_layer (nc_ext s) (nc_int s) (nc_pm s) k = Ok (nc_nbl s)
  end -> mixture_kept pk s' \/ named_kept s'.
Proof.
  intros A C Er R U K. red in A. destruct (nc_kpar s) as [|x|l] eqn:E; [right|contradiction|left].
  - destruct K as [-> K]. exists r, d, k. rewrite C, A. cbn [nc_radius nc_kpar nc_ext nc_int nc_pm nc_nbl]. auto 6.
  - destruct K as ((l' & -> & L) & q & Q1 & Q2). exists r, l, q. rewrite C, A. cbn [nc_radius nc_kpar nc_ext nc_int nc_pm nc_nbl].
    split; [exact Er|]. split; [reflexivity|]. split; [exact Q1|]. split; [exact Q2|]. exists kw, l', k. auto.
Qed.

Lemma made_nb_none f s r kw k : nc_kpar s = KPNone -> mixture_kept (ns_peaks f) s \/ named_kept s -> readable (made_nb f s) kw r k -> kw = [].
Proof.
  intros E [(r' & l & _ & _ & El & _)|(r' & d & k' & _ & _ & Ec & (_ & _ & Kw & _) & _)] (_ & _ & Kw' & _); [congruence|].
  unfold made_nb in Kw'. rewrite Ec in Kw'. congruence.
Qed.

Lemma round_trip o s fuel fs dir rng o2 : coherent o s -> exists f3 s3, nca_load (S fuel) fs dir rng o2 (made_cfg (no_set o) s) = Ok (mkNobj f3 (Some s3)) /\
  coherent (mkNobj f3 (Some s3)) s3 /\ nca_alike s s3 /\ made_cfg f3 s3 = made_cfg (no_set o) s.
Proof.
  intros Co. pose proof Co as [_ W Y1 Y2 Y3 Y4 Y5 Dr M P0 A A1 A2 T P Il Kn].
  destruct (made_nb_readable _ _ P0 Kn) as (r & kw & k & kp & Er & Rd & U & K). pose proof Rd as (_ & R0 & _).
  pose proof (nca_pos s W) as [E0 N0]. rewrite Y1 in E0. rewrite Y2 in N0.
  destruct (new_made fuel fs dir (fun i => rng (S i)) (no_set o) r (nc_pm s)) as [s0 H0]; auto.
  unfold nca_load, nca_load_with. unfold made_cfg at 1. cbn [n_inst]. rewrite Er, H0. cbn [bind].
  set (f3 := mkNset _ _ _ _ _ _ _ _ _ _) in *. clear H0.
  destruct (load_body_made (rng 0%nat) o s f3 s0 Co) as (s3 & H3 & Al & C3); try reflexivity.
  exists f3, s3. split; [exact H3|]. split; [|split; [exact Al|]].
  - assert (Kn3 : mixture_kept (ns_peaks f3) s3 \/ named_kept s3).
    { apply (alike_kept _ s s3 (made_nb (no_set o) s) r kw k kp); auto. destruct (nc_kpar s) as [|x|l] eqn:E; [|contradiction|exact K].
      destruct K as [_ K]. split; [exact (made_nb_none _ _ _ _ _ E Kn Rd)|exact K]. }
    constructor; cbn [no_body no_set]; auto; try (unfold f3; cbn [ns_ext ns_int ns_hid ns_thr ns_drop ns_peaks ns_act ns_pm]; assumption);
      try (rewrite Al; assumption); try (rewrite Al; unfold f3; cbn [nc_pm nc_a1 nc_a2 ns_ext ns_int ns_hid ns_thr ns_drop ns_pm ns_act nc_ext nc_int nc_hid nc_thr nc_drop]; assumption).
    + unfold f3. cbn [ns_inst ns_thr]. unfold made_inst. dq. exact T.
    + unfold f3. cbn [ns_inst]. unfold made_inst. dq. exact P.
  - unfold made_cfg. assert (X : made_inst f3 (nc_radius s3) = made_inst (no_set o) (nc_radius s)).
    { rewrite Al. cbn [nc_radius]. rewrite Er. exact (made_inst_idem (no_set o) (VInt (Z.of_nat r)) (ns_thr (no_set o))). }
    rewrite X. f_equal.
    + f_equal. unfold made_nb at 1. rewrite C3. reflexivity.
    + rewrite Al. reflexivity.
    + rewrite Al. reflexivity.
Qed.

Lemma alike_refl s : nca_alike s s.
Proof. destruct s; reflexivity. Qed.

(** make_config itself leaves the object working and writes the same config again. *)
Lemma make_coherent o s cf o1 : coherent o s -> nca_make o = Ok (cf, o1) -> exists s1, coherent o1 s1 /\ nca_alike s s1 /\ exists o2, nca_make o1 = Ok (cf, o2).
Proof.
  intros Co H. pose proof Co as [Bo W Y1 Y2 Y3 Y4 Y5 Dr M P0 A A1 A2 T P Il Kn]. rewrite (make_eq o s Bo) in H. apply Ok_inj in H. apply pair_equal_spec in H as [<- <-].
  destruct (made_nb_readable _ _ P0 Kn) as (r & kw & k & kp & Er & Rd & U & K).
  set (s1 := set_cfg s (made_nb (no_set o) s)). assert (Al : nca_alike s s1) by reflexivity. assert (C1 : nc_cfg s1 = Some (made_nb (no_set o) s)) by reflexivity. clearbody s1.
  exists s1. split; [|split; [exact Al|]].
  - assert (Kn3 : forall pk, mixture_kept pk s1 \/ named_kept s1).
    { intros pk. apply (alike_kept _ s s1 (made_nb (no_set o) s) r kw k kp); auto. destruct (nc_kpar s) as [|x|l] eqn:E; [|contradiction|exact K].
      destruct K as [_ K]. split; [exact (made_nb_none _ _ _ _ _ E Kn Rd)|exact K]. }
    constructor; cbn [no_body no_set]; auto; cbn [ns_ext ns_int ns_hid ns_thr ns_drop ns_peaks ns_act ns_pm ns_inst]; auto;
      try (rewrite Al; assumption).
    + unfold made_inst. dq. exact T.
    + unfold made_inst. dq. exact P.
  - eexists. rewrite (make_eq (mkNobj _ (Some s1)) s1 eq_refl). cbn [no_set].
    match goal with |- Ok (?a, _) = Ok (?b, _) => assert (Z : a = b); [|rewrite Z; reflexivity] end. unfold made_cfg.
    assert (X : nc_radius s1 = nc_radius s) by (rewrite Al; reflexivity).
    f_equal.
    + f_equal. rewrite X. exact (made_inst_idem (no_set o) (nc_radius s) (ns_thr (no_set o))).
    + f_equal. unfold made_nb at 1. rewrite C1. reflexivity.
    + rewrite Al. reflexivity.
    + rewrite Al. reflexivity.
Qed.

Lemma alike_forward s s' : nca_alike s s' -> (forall tr keep u, nca_forward tr keep s' u = nca_forward tr keep s u) /\
  (forall tr keep u m, nca_frame tr keep s' u m = nca_frame tr keep s u m) /\ nca_get_params s' = nca_get_params s.
Proof. intros ->. repeat split. Qed.

(** ** Ways to get a coherent object *)
Lemma set_nact_length a p q : set_nact a p = Ok q -> nact_ok a -> List.length (act_params (fst q)) = List.length (act_params a).
Proof.
  intros H N. destruct (set_nact_ok a p q H N) as (L & E & _). rewrite E. apply firstn_length_le. exact L.
Qed.

Lemma net_same s p s' : nca_set_params s p = Ok s' -> nact_ok (nc_a1 s) -> nact_ok (nc_a2 s) -> List.length (net_params s') = List.length (net_params s).
Proof.
  intros H N1 N2. unfold nca_set_params in H.
  apply bind_ok in H as (q1 & E1 & H). apply bind_ok in H as (q2 & E2 & H). apply bind_ok in H as (q3 & E3 & H).
  apply bind_ok in H as (q4 & E4 & H). apply bind_ok in H as (q5 & E5 & H).
  pose proof (set_nact_length _ _ _ E2 N1) as B1. pose proof (set_nact_length _ _ _ E4 N2) as B2.
  apply set_tensor_ok in E1 as [L1 ->]. apply set_tensor_ok in E3 as [L3 ->]. apply set_tensor_ok in E5 as [L5 ->]. cbn [fst snd tdata] in *.
  assert (G : forall kk nl kp, List.length (net_params (mkNca (nc_ext s) (nc_int s) (nc_hid s) (nc_pm s) (nc_thr s) (nc_idl s) nl
        (mkT (tB (nc_w1 s)) (tC (nc_w1 s)) (tH (nc_w1 s)) (tW (nc_w1 s)) (firstn (List.length (tdata (nc_w1 s))) p)) (fst q2)
        (mkT (tB (nc_w2 s)) (tC (nc_w2 s)) (tH (nc_w2 s)) (tW (nc_w2 s)) (firstn (List.length (tdata (nc_w2 s))) (snd q2))) (fst q4)
        (mkT (tB (nc_w3 s)) (tC (nc_w3 s)) (tH (nc_w3 s)) (tW (nc_w3 s)) (firstn (List.length (tdata (nc_w3 s))) (snd q4)))
        (nc_drop s) kk kp (nc_cfg s) (nc_radius s) (nc_dt s))) = List.length (net_params s)).
  { intros. unfold net_params. cbn [nc_w1 nc_w2 nc_w3 nc_a1 nc_a2 tdata]. rewrite !app_length, !firstn_length_le by assumption. lia. }
  destruct (nc_kpar s).
  - apply Ok_inj in H. subst s'. apply G.
  - discriminate.
  - apply bind_ok in H as (k & _ & H). apply bind_ok in H as (kk & _ & H). apply bind_ok in H as (nl & _ & H). apply Ok_inj in H. subst s'. apply G.
Qed.

(** Everything but the neighbourhood layer belongs together; set_params rebuilds that layer. *)
Definition pre_kept (pk : nat) (s : nca) : Prop :=
  (exists r l, nc_radius s = VInt (Z.of_nat r) /\ nc_kpar s = KPVec l /\
    match nc_cfg s with
    | None => List.length l = (3 * pk)%nat
    | Some d => exists kw l' k', readable d kw r k' /\ update_kernel_params KPNone kw = Ok (KPVec l') /\ List.length l' = List.length l
    end) \/ named_kept s.

Lemma kept_pre pk s : mixture_kept pk s \/ named_kept s -> pre_kept pk s.
Proof. intros [(r & l & k & N1 & N2 & _ & _ & N5)|N]; [left; exists r, l; auto|right; exact N]. Qed.

Lemma set_params_gen f s p s' :
  nca_wf s -> nc_ext s = ns_ext f -> nc_int s = ns_int f -> nc_hid s = ns_hid f -> nc_thr s = ns_thr f -> nc_drop s = ns_drop f -> 0 <= ns_drop f <= 1 ->
  as_pmode (ns_pm f) = Ok (nc_pm s) -> ns_peaks f <> 0%nat -> In (ns_act f) act_names -> of_class (ns_act f) (nc_a1 s) -> of_class (ns_act f) (nc_a2 s) ->
  as_num (query_kwargs "alive_threshold" (VNum (1 / 10)) (ns_inst f)) = Ok (ns_thr f) -> query_kwargs "ca_config" VNone (ns_inst f) = VNone ->
  init_layer (nc_ext s) (nc_int s) (nc_pm s) default_id_kernel = Ok (nc_idl s) -> pre_kept (ns_peaks f) s ->
  List.length (kp_flat (nc_kpar s')) = List.length (kp_flat (nc_kpar s)) ->
  nca_set_params s p = Ok s' -> coherent (mkNobj f (Some s')) s'.
Proof.
  intros W Y1 Y2 Y3 Y4 Y5 Dr M P0 A A1 A2 T P Il Kn Lk H.
  pose proof W as (L1 & L2 & W1 & W2 & W3). unfold nca_set_params in H.
  apply bind_ok in H as (q1 & E1 & H). apply bind_ok in H as (q2 & E2 & H). apply bind_ok in H as (q3 & E3 & H).
  apply bind_ok in H as (q4 & E4 & H). apply bind_ok in H as (q5 & E5 & H).
  pose proof (set_tensor_weight _ _ _ _ _ W1 E1) as V1. pose proof (set_tensor_weight _ _ _ _ _ W2 E3) as V2. pose proof (set_tensor_weight _ _ _ _ _ W3 E5) as V3.
  pose proof (class_set _ _ _ _ A1 E2) as B1. pose proof (class_set _ _ _ _ A2 E4) as B2.
  destruct (nc_kpar s) as [|x|l] eqn:EK; [|discriminate|].
  - apply Ok_inj in H. subst s'. constructor; cbn [no_body no_set nc_ext nc_int nc_hid nc_thr nc_drop nc_pm nc_a1 nc_a2 nc_idl]; auto.
    + unfold nca_wf. auto 10.
    + right. destruct Kn as [(r & l & _ & El & _)|(r & d & k & N1 & _ & N3 & N4 & N5)]; [congruence|]. exists r, d, k. auto 8.
  - apply bind_ok in H as (k & Ek & H). unfold mixture_kernel_of in Ek. apply bind_ok in Ek as (rr & Er & Ek). apply as_size_ok in Er.
    destruct (mixture_kernel_shape _ _ _ Ek) as (Sk & Wk & Rk & Ak). rewrite Ak in H. cbn [bind] in H.
    apply bind_ok in H as (nl & Enl & H). apply Ok_inj in H. subst s'. cbn [nc_kpar kp_flat] in Lk.
    destruct (nca_pos s W) as [E0 N0]. destruct (layer_of_kernel _ _ _ _ _ _ E0 N0 Sk Enl) as (L2' & _ & _).
    constructor; cbn [no_body no_set nc_ext nc_int nc_hid nc_thr nc_drop nc_pm nc_a1 nc_a2 nc_idl]; auto.
    + unfold nca_wf. cbn [nc_ext nc_int nc_hid nc_idl nc_nbl nc_w1 nc_w2 nc_w3]. auto 10.
    + left. exists rr, (firstn (List.length l) (snd q5)), k. cbn [nc_radius nc_kpar nc_ext nc_int nc_pm nc_nbl nc_cfg].
      split; [exact Er|]. split; [reflexivity|]. split; [exact Ek|]. split; [exact Enl|].
      destruct Kn as [(r & l0 & N1 & N2 & N5)|(r & d & k0 & _ & N2 & _)]; [|congruence].
      assert (l0 = l) by congruence. subst l0. rewrite Lk.
      destruct (nc_cfg s) as [d|]; [|exact N5]. destruct N5 as (kw & l' & k' & Rd & U & Ll). exists kw, l', k'.
      assert (rr = r) by (rewrite Er in N1; injection N1; intros; lia). subst rr. auto.
Qed.

Lemma set_params_coherent o s p o' : coherent o s -> (List.length (nca_get_params s) <= List.length p)%nat -> nobj_set_params o p = Ok o' ->
  exists s', coherent o' s' /\ no_set o' = no_set o /\ nca_get_params s' = firstn (List.length (nca_get_params s)) p.
Proof.
  intros [Bo W Y1 Y2 Y3 Y4 Y5 Dr M P0 A A1 A2 T P Il Kn] L H. unfold nobj_set_params in H. rewrite Bo in H. apply bind_ok in H as (s' & H & E). apply Ok_inj in E. subst o'.
  exists s'. pose proof H as H'. apply (nca_set_get s p s') in H' as (G & _); [|split; eapply class_ok; eassumption].
  split; [|split; [reflexivity|exact G]]. apply (set_params_gen (no_set o) s p); auto using kept_pre.
  assert (Ln : List.length (nca_get_params s') = List.length (nca_get_params s)) by (rewrite G; apply firstn_length_le; exact L).
  apply (net_same s p) in H; [|eapply class_ok; eassumption|eapply class_ok; eassumption]. rewrite !get_net, !app_length in Ln. lia.
Qed.

Lemma set_dt_coherent o s x : coherent o s -> coherent (mkNobj (no_set o) (Some (nca_set_dt s x))) (nca_set_dt s x).
Proof. intros [Bo W Y1 Y2 Y3 Y4 Y5 Dr M P0 A A1 A2 T P Il Kn]. constructor; auto. Qed.

Lemma new_coherent fuel fs dir rng kw o : nca_new fuel fs dir rng kw = Ok o -> query_kwargs "ca_config" VNone kw = VNone ->
  (0 < ns_ext (no_set o))%nat -> (0 < ns_int (no_set o))%nat -> (0 < ns_hid (no_set o))%nat -> nca_settings kw = Ok (no_set o) /\ exists s, coherent o s.
Proof.
  destruct fuel as [|fuel]; cbn [nca_new]; [discriminate|]. intros H P. rewrite P in H. apply bind_ok in H as (f & F & H). apply bind_ok in H as (s & S & H).
  apply Ok_inj in H. subst o. cbn [no_set]. intros E0 N0 H0. split; [exact F|]. exists s. apply settings_fields in F as (I & T & A & _). rewrite <- I in P, T.
  apply (default_body_coherent (rng 0%nat)); auto.
Qed.

Lemma set_kpar_none s p s' : nca_set_params s p = Ok s' -> nc_kpar s = KPNone -> nc_kpar s' = KPNone.
Proof.
  unfold nca_set_params. intros H E. apply bind_ok in H as (q1 & E1 & H). apply bind_ok in H as (q2 & E2 & H). apply bind_ok in H as (q3 & E3 & H).
  apply bind_ok in H as (q4 & E4 & H). apply bind_ok in H as (q5 & E5 & H). rewrite E in H. apply Ok_inj in H. subst s'. reflexivity.
Qed.

(** ** Loading in general *)
(** The kernel config after loading: empty arguments are added if there are none. *)
Definition filled (nb : dict) : dict := match dget "kernel_kwargs" nb with Some _ => nb | None => dset "kernel_kwargs" (VDict []) nb end.

Definition fresh_body (dr : wdraws) (f : nset) (m : pmode) (il nl : conv_layer) (k : tensor) (kp : kpar) (c : dict) (rv : value) (d : R) : nca :=
  mkNca (ns_ext f) (ns_int f) (ns_hid f) m (ns_thr f) il nl
         (tmap sq (drawn dr 0 (ns_hid f) (ns_ext f + ns_int f))) (act_squared (nca_act (VStr (ns_act f))))
         (tmap sq (drawn dr 1 (ns_hid f) (ns_hid f))) (act_squared (nca_act (VStr (ns_act f))))
         (tmap sq (drawn dr 2 (ns_ext f) (ns_hid f))) (ns_drop f) k kp (Some c) rv d.

Lemma load_inv dr o cf o3 : nca_load_body dr o cf = Ok o3 -> exists s0 m k1 il nb kw rv k kp nl p s3,
  no_body o = Some s0 /\ as_pmode (ns_pm (no_set o)) = Ok m /\
  (match n_id cf with None => k1 = default_id_kernel | Some d => get_kernel d = Ok k1 end) /\ init_layer (ns_ext (no_set o)) (ns_int (no_set o)) m k1 = Ok il /\
  n_nb cf = Some nb /\ dget "kernel_kwargs" (filled nb) = Some (VDict kw) /\
  dget "radius" nb = Some rv /\ dget "radius" (filled nb) = Some rv /\ update_kernel_params KPNone kw = Ok kp /\ get_kernel (filled nb) = Ok k /\
  init_layer (ns_ext (no_set o)) (ns_int (no_set o)) m k = Ok nl /\ n_params cf = Some p /\ 0 <= ns_drop (no_set o) <= 1 /\
  nca_set_params (fresh_body dr (no_set o) m il nl k kp (filled nb) rv (match n_dt cf with Some x => x | None => 1 / 10 end)) p = Ok s3 /\ o3 = mkNobj (no_set o) (Some s3).
Proof.
  unfold nca_load_body. intros H. apply bind_ok in H as (m & M & H). apply bind_ok in H as (k1 & K1 & H). apply bind_ok in H as (il & Il & H).
  apply bind_ok in H as (nb & Nb & H). apply bind_ok in H as (rv & Rv & H). apply bind_ok in H as (k0 & K0 & H). apply bind_ok in H as (ka & Ka & H).
  apply bind_ok in H as (kp & Kp & H). cbv zeta in H. apply bind_ok in H as (k & K & H). apply bind_ok in H as (kk & Kk & H). apply bind_ok in H as (nl & Nl & H).
  apply bind_ok in H as (u & U & H). apply bind_ok in H as (u' & U' & H). rewrite weights_drawn in H. cbn [bind fst snd] in H. apply bind_ok in H as (p & Np & H).
  apply bind_ok in H as (s3 & S3 & H). apply Ok_inj in H. apply dgetk_ok in Rv.
  assert (kk = k) by (unfold as_kernel in Kk; apply bind_ok in Kk as (? & _ & Kk); apply Ok_inj in Kk; auto). subst kk.
  assert (FK : dget "kernel_kwargs" (filled nb) = Some (VDict (fst ka)) /\ snd ka = filled nb).
  { unfold kernel_args in Ka. unfold filled. destruct (dget "kernel_kwargs" nb) as [v|] eqn:E.
    - apply bind_ok in Ka as (kw & Kw & Ka). apply Ok_inj in Ka. subst ka. destruct v; try discriminate Kw. apply Ok_inj in Kw. subst kw. auto.
    - apply Ok_inj in Ka. subst ka. cbn [fst snd]. split; [apply dget_dset_eq|reflexivity]. }
  destruct FK as [FK1 FK2]. rewrite FK2 in *.
  assert (FR : dget "radius" (filled nb) = Some rv) by (unfold filled; destruct (dget "kernel_kwargs" nb); [exact Rv|rewrite dget_dset_neq by discriminate; exact Rv]).
  rewrite (dset_same _ _ _ FR) in *.
  destruct (no_body o) as [s0|]; [|discriminate U].
  assert (0 <= ns_drop (no_set o) <= 1) as Dr.
  { apply guard_ok in U'. destruct (Rle_dec 0 (ns_drop (no_set o))); [|discriminate U']. destruct (Rle_dec (ns_drop (no_set o)) 1); [|discriminate U']. lra. }
  exists s0, m, k1, il, nb, (fst ka), rv, k, kp, nl, p, s3.
  repeat (split; [first [assumption|reflexivity|idtac]|]); auto.
  - destruct (n_id cf) as [d|]; [|apply Ok_inj in K1; auto]. apply bind_ok in K1 as (k' & G & K1).
    unfold as_kernel in K1. apply bind_ok in K1 as (? & _ & K1). apply Ok_inj in K1. congruence.
  - destruct (n_nb cf); [|discriminate Nb]. apply Ok_inj in Nb. congruence.
  - destruct (n_params cf); [|discriminate Np]. apply Ok_inj in Np. congruence.
Qed.

(** A load through instant_kwargs gives an object in working order, if no parameter is missing. *)
Lemma load_coherent fuel fs dir rng o cf o3 s3 kw : nca_load fuel fs dir rng o cf = Ok o3 -> n_inst cf = Some kw -> query_kwargs "ca_config" VNone kw = VNone -> n_id cf = None ->
  (0 < ns_ext (no_set o3))%nat -> (0 < ns_int (no_set o3))%nat -> (0 < ns_hid (no_set o3))%nat ->
  no_body o3 = Some s3 -> all_given cf s3 -> coherent o3 s3.
Proof.
  intros H In_ P Ni. unfold nca_load, nca_load_with in H. rewrite In_ in H. apply bind_ok in H as (o' & Hn & H).
  pose proof (load_inv _ _ _ _ H) as (s0 & m & k1 & il & nb & a & rv & k & kp & nl & p & s' & Bo & M & K1 & Il & Nb & Kw & Rv & FR & U & K & Nl & Np & Dr & S & ->).
  cbn [no_set no_body]. intros E0 N0 H0 Es (nb' & r & Nb' & Rv' & R0 & G). injection Es as ->. rewrite Ni in K1. subst k1.
  assert (nb' = nb) by congruence. subst nb'. assert (rv = VInt (Z.of_nat r)) by congruence. subst rv.
  destruct (new_coherent _ _ _ _ _ _ Hn P E0 N0 H0) as (F & s & [_ _ _ _ _ _ _ _ _ P0 A _ _ T Pl _ _]).
  pose proof (get_kernel_odd _ _ K) as (r' & (Sk & _) & _).
  destruct (layer_of_kernel _ _ _ _ _ _ E0 N0 Sk Nl) as (Wl & _ & _).
  assert (Sd : shape default_id_kernel = (1, 1, 2 * 1 + 1, 2 * 1 + 1)%nat) by reflexivity.
  destruct (layer_of_kernel _ _ _ _ _ _ E0 N0 Sd Il) as (Wi & _ & _).
  assert (RdF : readable (filled nb) a r k) by (red; auto).
  set (s1 := fresh_body _ _ _ _ _ _ _ _ _ _) in S.
  apply (set_params_gen (no_set o') s1 p); auto; try (apply squared_class; exact A).
  - unfold nca_wf, s1, fresh_body. cbn [nc_ext nc_int nc_hid nc_idl nc_nbl nc_w1 nc_w2 nc_w3].
    split; [exact Wi|]. split; [exact Wl|]. split; [apply drawn_weight; lia|]. split; apply drawn_weight; lia.
  - unfold filled in Kw, RdF. destruct (dget "kernel_kwargs" nb) as [v|] eqn:EN.
    + assert (v = VDict a) by congruence. subst v. destruct a as [|h t].
      * right. apply Ok_inj in U. exists r, (filled nb), k. unfold s1, fresh_body. cbn [nc_radius nc_kpar nc_cfg nc_ext nc_int nc_pm nc_nbl].
        unfold filled. rewrite EN. auto 6.
      * destruct G as (l & l' & U' & El & Ll). left. assert (kp = KPVec l') by congruence. subst kp. exists r, l'. unfold s1, fresh_body. cbn [nc_radius nc_kpar nc_cfg].
        split; [reflexivity|]. split; [reflexivity|]. unfold filled. rewrite EN. exists (h :: t), l', k. auto.
    + rewrite dget_dset_eq in Kw. assert (a = []) by congruence. subst a. apply Ok_inj in U.
      right. exists r, (filled nb), k. unfold s1, fresh_body. cbn [nc_radius nc_kpar nc_cfg nc_ext nc_int nc_pm nc_nbl]. unfold filled. rewrite EN. auto 6.
  - destruct (dget "kernel_kwargs" nb) as [v|] eqn:EN.
    + unfold filled in Kw. rewrite EN in Kw. assert (v = VDict a) by congruence. subst v. destruct a as [|h t].
      * apply Ok_inj in U. apply set_kpar_none in S; [|subst kp; reflexivity]. rewrite S. subst kp. reflexivity.
      * destruct G as (l & l' & U' & El & Ll). assert (kp = KPVec l') by congruence. subst kp. rewrite El. unfold s1, fresh_body. cbn [nc_kpar kp_flat]. exact Ll.
    + unfold filled in Kw. rewrite EN, dget_dset_eq in Kw. assert (a = []) by congruence. subst a. apply Ok_inj in U.
      apply set_kpar_none in S; [|subst kp; reflexivity]. rewrite S. subst kp. reflexivity.
Qed.

(** ** What a load does not depend on *)
Lemma set_params_vec s1 s2 l p s3 : nca_set_params s1 p = Ok s3 -> nc_kpar s1 = KPVec l -> same_but_layer s1 s2 ->
  exists s3', nca_set_params s2 p = Ok s3' /\ nca_alike s3 s3'.
Proof.
  intros H E S. red in S. rewrite S. clear S. unfold nca_set_params in *. cbn [nc_w1 nc_a1 nc_w2 nc_a2 nc_w3 nc_kpar nc_radius nc_ext nc_int nc_pm].
  apply bind_ok in H as (q1 & E1 & H). rewrite E1. cbn [bind]. apply bind_ok in H as (q2 & E2 & H). rewrite E2. cbn [bind]. apply bind_ok in H as (q3 & E3 & H). rewrite E3. cbn [bind].
  apply bind_ok in H as (q4 & E4 & H). rewrite E4. cbn [bind]. apply bind_ok in H as (q5 & E5 & H). rewrite E5. cbn [bind]. rewrite E in *.
  apply bind_ok in H as (k & K & H). rewrite K. cbn [bind]. apply bind_ok in H as (kk & Kk & H). rewrite Kk. cbn [bind].
  apply bind_ok in H as (nl & Nl & H). rewrite Nl. cbn [bind]. apply Ok_inj in H. subst s3. eexists. split; reflexivity.
Qed.

Lemma load_name_free fuel fs dir rng o cf cf' nb nb' o3 a l k' :
  nca_load fuel fs dir rng o cf = Ok o3 -> (0 < ns_ext (no_set o3))%nat ->
  n_inst cf' = n_inst cf -> n_id cf' = n_id cf -> n_dt cf' = n_dt cf -> n_params cf' = n_params cf ->
  n_nb cf = Some nb -> n_nb cf' = Some nb' -> dget "radius" nb' = dget "radius" nb ->
  dget "kernel_kwargs" nb = Some (VDict a) -> dget "kernel_kwargs" nb' = Some (VDict a) -> update_kernel_params KPNone a = Ok (KPVec l) ->
  get_kernel nb' = Ok k' -> exists s3 s3', no_body o3 = Some s3 /\ nca_load fuel fs dir rng o cf' = Ok (mkNobj (no_set o3) (Some s3')) /\ nca_alike s3 s3'.
Proof.
  unfold nca_load, nca_load_with. intros H E0 X1 X2 X3 X4 N N' R Ka Ka' U K'. rewrite X1. apply bind_ok in H as (o' & Ho & H). rewrite Ho. cbn [bind].
  pose proof (load_inv _ _ _ _ H) as (s0 & m & k1 & il & nb0 & a0 & rv & k & kp & nl & p & s3 & Bo & M & K1 & Il & Nb & Kw & Rv & FR & U0 & K & Nl & Np & Dr & S & ->).
  cbn [no_set no_body] in *. assert (nb0 = nb) by congruence. subst nb0. unfold filled in Kw, K, S. rewrite Ka in Kw, K, S.
  assert (a0 = a) by congruence. subst a0. assert (kp = KPVec l) by congruence. subst kp.
  destruct (kernel_usable _ _ K' _ (ns_int (no_set o')) m E0) as (Ak & nl' & Nl').
  set (s1 := fresh_body _ _ _ _ _ _ _ _ _ _) in S.
  destruct (set_params_vec s1 (fresh_body (rng 0%nat) (no_set o') m il nl' k' (KPVec l) nb' rv (match n_dt cf with Some x => x | None => 1 / 10 end)) l p s3 S) as (s3' & S' & Al); [reflexivity|reflexivity|].
  exists s3, s3'. split; [reflexivity|]. split; [|exact Al].
  unfold nca_load_body. rewrite M, X2, X3, X4, N', Np. cbn [bind need].
  assert (Id : (match n_id cf with None => Ok default_id_kernel | Some d => let* k := get_kernel d in as_kernel (K4 k) end) = Ok k1).
  { destruct (n_id cf) as [d|]; [|congruence]. rewrite K1. cbn [bind]. apply (kernel_usable d k1 K1 1%nat 1%nat m). auto. }
  rewrite Id. cbn [bind]. rewrite Il. cbn [bind]. unfold dgetk. rewrite R, Rv. cbn [bind]. rewrite K'. cbn [bind]. unfold kernel_args. rewrite Ka'. cbn [as_dict bind fst snd].
  rewrite U. cbn [bind]. rewrite (dset_same "radius" rv nb') by congruence. rewrite K'. cbn [bind]. rewrite Ak. cbn [bind]. rewrite Nl'. cbn [bind]. rewrite Bo. cbn [guard bind].
  destruct (Rle_dec 0 (ns_drop (no_set o'))); [|lra]. destruct (Rle_dec (ns_drop (no_set o')) 1); [|lra]. cbn [andb guard bind]. rewrite weights_drawn. cbn [bind fst snd].
  unfold fresh_body in S'. rewrite S'. reflexivity.
Qed.

(** The neighbourhood layer after a load with kernel parameters. *)
Lemma load_layer fuel fs dir rng o cf nb o3 a l : nca_load fuel fs dir rng o cf = Ok o3 -> n_nb cf = Some nb -> dget "kernel_kwargs" nb = Some (VDict a) ->
  update_kernel_params KPNone a = Ok (KPVec l) -> exists s3 r l3 k, no_body o3 = Some s3 /\ dget "radius" nb = Some (VInt (Z.of_nat r)) /\ nc_kpar s3 = KPVec l3 /\
  get_gaussian_mixture_kernel r l3 1 = Ok k /\ init_layer (nc_ext s3) (nc_int s3) (nc_pm s3) k = Ok (nc_nbl s3).
Proof.
  unfold nca_load, nca_load_with. intros H N Ka U. apply bind_ok in H as (o' & Ho & H).
  pose proof (load_inv _ _ _ _ H) as (s0 & m & k1 & il & nb0 & a0 & rv & k & kp & nl & p & s3 & Bo & M & K1 & Il & Nb & Kw & Rv & FR & U0 & K & Nl & Np & Dr & S & ->).
  cbn [no_set no_body] in *. assert (nb0 = nb) by congruence. subst nb0. unfold filled in Kw, K, S. rewrite Ka in Kw, K, S.
  assert (a0 = a) by congruence. subst a0. assert (kp = KPVec l) by congruence. subst kp.
  unfold nca_set_params in S. apply bind_ok in S as (q1 & _ & S). apply bind_ok in S as (q2 & _ & S). apply bind_ok in S as (q3 & _ & S). apply bind_ok in S as (q4 & _ & S). apply bind_ok in S as (q5 & _ & S).
  unfold fresh_body in S. cbn [nc_kpar nc_radius nc_ext nc_int nc_pm] in S. apply bind_ok in S as (kk & Kk & S). unfold mixture_kernel_of in Kk. apply bind_ok in Kk as (r & Er & Kk). apply as_size_ok in Er.
  destruct (mixture_kernel_shape _ _ _ Kk) as (_ & _ & _ & Ak). rewrite Ak in S. cbn [bind] in S.
  apply bind_ok in S as (nl' & Nl' & S). apply Ok_inj in S. subst s3. eexists _, r, _, kk. split; [reflexivity|]. split; [congruence|]. split; [reflexivity|]. cbn [nc_ext nc_int nc_pm nc_nbl]. auto.
Qed.

(** The layer after a load without kernel parameters. *)
Lemma load_layer_none fuel fs dir rng o cf nb o3 : nca_load fuel fs dir rng o cf = Ok o3 -> n_nb cf = Some nb ->
  dget "kernel_kwargs" nb = None \/ dget "kernel_kwargs" nb = Some (VDict []) -> exists s3 k, no_body o3 = Some s3 /\ nc_kpar s3 = KPNone /\
  get_kernel (dset "kernel_kwargs" (VDict []) nb) = Ok k /\ init_layer (nc_ext s3) (nc_int s3) (nc_pm s3) k = Ok (nc_nbl s3) /\ nc_kern s3 = k.
Proof.
  unfold nca_load, nca_load_with. intros H N Ka. apply bind_ok in H as (o' & Ho & H).
  pose proof (load_inv _ _ _ _ H) as (s0 & m & k1 & il & nb0 & a0 & rv & k & kp & nl & p & s3 & Bo & M & K1 & Il & Nb & Kw & Rv & FR & U0 & K & Nl & Np & Dr & S & ->).
  cbn [no_set no_body] in *. assert (nb0 = nb) by congruence. subst nb0.
  assert (F : filled nb = dset "kernel_kwargs" (VDict []) nb).
  { unfold filled. destruct Ka as [Ka|Ka]; rewrite Ka; [reflexivity|]. symmetry. apply dset_same. exact Ka. }
  rewrite F in *. rewrite dget_dset_eq in Kw. assert (a0 = []) by congruence. subst a0. apply Ok_inj in U0. subst kp.
  unfold nca_set_params in S. apply bind_ok in S as (q1 & _ & S). apply bind_ok in S as (q2 & _ & S). apply bind_ok in S as (q3 & _ & S). apply bind_ok in S as (q4 & _ & S). apply bind_ok in S as (q5 & _ & S).
  unfold fresh_body in S. cbn [nc_kpar nc_radius nc_ext nc_int nc_pm nc_nbl nc_kern] in S. apply Ok_inj in S. subst s3. eexists _, k. split; [reflexivity|]. cbn [nc_kpar nc_ext nc_int nc_pm nc_nbl nc_kern]. auto.
Qed.

(** ** Objects without layers *)
Lemma load_needs_body fuel fs dir rng o cf r : n_inst cf = None -> no_body o = None -> nca_load fuel fs dir rng o cf <> Ok r.
Proof.
  intros I B H. unfold nca_load, nca_load_with in H. rewrite I in H. cbn [bind] in H.
  apply load_inv in H as (s0 & m & k1 & il & nb0 & a0 & rv & k & kp & nl & p & s3 & Bo & _). congruence.
Qed.

Lemma load_any_object fuel fs dir rng o o' cf kw : n_inst cf = Some kw -> nca_load fuel fs dir rng o cf = nca_load fuel fs dir rng o' cf.
Proof. intros I. unfold nca_load, nca_load_with. rewrite I. reflexivity. Qed.

Lemma new_from_file fuel fs dir rng kw f F cf kw' o : nca_settings kw = Ok f -> query_kwargs "ca_config" VNone kw = VStr F ->
  (match fs (strip_newlines F) with Some c => Some c | None => fs (join dir (strip_newlines F)) end) = Some cf -> n_inst cf = Some kw' ->
  nca_new (S fuel) fs dir rng kw = nca_load fuel fs dir rng o cf.
Proof.
  intros A Q Fd I. cbn [nca_new]. rewrite A. cbn [bind]. rewrite Q. unfold nca_restore_with. rewrite Fd. apply (load_any_object fuel fs dir rng _ o cf kw' I).
Qed.

Lemma new_missing fuel fs dir rng kw f F : nca_settings kw = Ok f -> query_kwargs "ca_config" VNone kw = VStr F ->
  fs (strip_newlines F) = None -> fs (join dir (strip_newlines F)) = None -> nca_new (S fuel) fs dir rng kw = Ok (mkNobj f None).
Proof. intros A Q F1 F2. cbn [nca_new]. rewrite A. cbn [bind]. rewrite Q. unfold nca_restore_with. rewrite F1, F2. reflexivity. Qed.

(** Layers come only with keyword arguments that name no config file. *)
Lemma new_plain fuel fs dir rng kw o s : nca_new fuel fs dir rng kw = Ok o -> no_body o = Some s -> query_kwargs "ca_config" VNone (ns_inst (no_set o)) = VNone.
Proof.
  revert rng kw o s. induction fuel as [|fuel IH]; intros rng kw o s H B; [discriminate|]. cbn [nca_new] in H. apply bind_ok in H as (f & F & H).
  destruct (query_kwargs "ca_config" VNone kw) eqn:Q; try discriminate H.
  - apply bind_ok in H as (s0 & _ & H). apply Ok_inj in H. subst o. cbn [no_set]. apply settings_fields in F as (-> & _). exact Q.
  - unfold nca_restore_with in H. destruct (match fs (strip_newlines s0) with Some c => Some c | None => _ end) as [c|].
    + unfold nca_load_with in H. apply bind_ok in H as (o' & Ho & H). apply load_inv in H as (s1 & m & k1 & il & nb0 & a0 & rv & k & kp & nl & p & s3 & Bo & _ & _ & _ & _ & _ & _ & _ & _ & _ & _ & _ & _ & _ & ->).
      cbn [no_set]. destruct (n_inst c) as [kw'|]; [exact (IH _ _ _ _ Ho Bo)|]. apply Ok_inj in Ho. subst o'. discriminate Bo.
    + apply Ok_inj in H. subst o. discriminate B.
Qed.

(** ** A named kernel put in by set_kernel_config *)
Lemma moore_reads d r k : dget "name" d = Some (VStr "MooreLike") -> dget "radius" d = Some (VInt (Z.of_nat r)) -> get_kernel d = Ok k -> k = moore r.
Proof.
  intros N R H. apply get_kernel_cases in H. destruct H as [N' H|r' N' R' R0 H|name mk kw a r' N' F _ _ _ _ _ _|N' _ _|s r' N' _ _]; try congruence.
  - assert (Z.of_nat r = Z.of_nat r') by congruence. assert (r = r') by lia. subst. reflexivity.
  - assert (name = "MooreLike") by congruence. subst name. discriminate F.
Qed.

Lemma moore_exists d r : dget "name" d = Some (VStr "MooreLike") -> dget "radius" d = Some (VInt (Z.of_nat r)) -> r <> 0%nat -> get_kernel d = Ok (moore r).
Proof.
  intros N R R0. assert (exists k, get_kernel d = Ok k) as [k H].
  { unfold get_kernel, dgetk. rewrite N, R. cbn [bind]. cbn -[nonzero tsum build Z.of_nat as_size]. rewrite as_size_of. cbn [bind]. rewrite moore_total.
    unfold nonzero. destruct (Req_EM_T _ _) as [E|]; [|cbn [guard bind]; eauto]. exfalso.
    assert (1 <= INR r) by (apply (le_INR 1); lia). rewrite plus_INR, mult_INR in E. cbn [INR] in E. nra. }
  rewrite H. f_equal. exact (moore_reads d r k N R H).
Qed.

Lemma named_lossy fuel fs dir rng o s l r o2 : coherent o s -> nc_kpar s = KPVec l -> r <> 0%nat ->
  exists s' cf o1 f3 s3, nca_set_kernel_config s [("name", VStr "MooreLike"); ("radius", VInt (Z.of_nat r))] = Ok s' /\ nca_get_params s' = nca_get_params s /\
  nca_make (mkNobj (no_set o) (Some s')) = Ok (cf, o1) /\ nca_load (S fuel) fs dir rng o2 cf = Ok (mkNobj f3 (Some s3)) /\
  nca_get_params s = (nca_get_params s3 ++ l)%list /\ init_layer (nc_ext s) (nc_int s) (nc_pm s) (moore r) = Ok (nc_nbl s3).
Proof.
  intros Co EK R0. pose proof Co as [Bo W Y1 Y2 Y3 Y4 Y5 Dr M P0 A A1 A2 T P Il Kn].
  set (d := [("name", VStr "MooreLike"); ("radius", VInt (Z.of_nat r))]). assert (Rd : dget "radius" d = Some (VInt (Z.of_nat r))) by reflexivity.
  assert (Kd : dget "kernel_kwargs" d = None) by reflexivity.
  assert (G : get_kernel d = Ok (moore r)) by (apply moore_exists; auto; reflexivity).
  assert (G' : get_kernel (dset "kernel_kwargs" (VDict []) d) = Ok (moore r)) by (apply moore_exists; auto; reflexivity).
  clearbody d. destruct (nca_pos s W) as [E0 N0].
  destruct (kernel_usable _ _ G _ (nc_int s) (nc_pm s) E0) as (Ak & nl & Nl).
  set (s' := mkNca (nc_ext s) (nc_int s) (nc_hid s) (nc_pm s) (nc_thr s) (nc_idl s) (nc_nbl s) (nc_w1 s) (nc_a1 s) (nc_w2 s) (nc_a2 s) (nc_w3 s) (nc_drop s) (moore r) (nc_kpar s) (Some d) (VInt (Z.of_nat r)) (nc_dt s)).
  exists s', (made_cfg (no_set o) s'). eexists.
  destruct (new_made fuel fs dir (fun i => rng (S i)) (no_set o) r (nc_pm s)) as [s0 H0]; auto; [congruence|congruence|].
  set (f3 := mkNset _ _ _ _ _ _ _ _ _ _) in H0. exists f3.
  set (s3 := mkNca (nc_ext s) (nc_int s) (nc_hid s) (nc_pm s) (nc_thr s) (nc_idl s) nl (nc_w1 s) (nc_a1 s) (nc_w2 s) (nc_a2 s) (nc_w3 s) (nc_drop s) (moore r) KPNone (Some (dset "kernel_kwargs" (VDict []) d)) (VInt (Z.of_nat r)) (nc_dt s)).
  exists s3. split; [|split; [reflexivity|split; [rewrite (make_eq (mkNobj (no_set o) (Some s')) s' eq_refl); reflexivity|split]]].
  - unfold nca_set_kernel_config, dgetk. rewrite Rd. cbn [bind]. rewrite G. cbn [bind]. rewrite Kd. cbn [bind]. rewrite Ak. reflexivity.
  - unfold nca_load, nca_load_with. unfold made_cfg at 1. cbn [n_inst]. change (nc_radius s') with (VInt (Z.of_nat r)). rewrite H0. cbn [bind].
    change (nc_radius s') with (VInt (Z.of_nat r)). unfold nca_load_body. cbn [no_set no_body]. unfold made_cfg. cbn [n_id n_nb n_dt n_params]. unfold f3.
    cbn [ns_ext ns_int ns_hid ns_pm ns_thr ns_act ns_drop]. rewrite M, <- Y1, <- Y2, <- Y3, <- Y4, <- Y5. cbn [bind]. rewrite Il. cbn [bind need].
    change (made_nb (no_set o) s') with d. unfold dgetk. rewrite Rd. cbn [bind]. rewrite G. cbn [bind]. unfold kernel_args. rewrite Kd. cbn [bind fst snd].
    change (update_kernel_params KPNone []) with (@Ok kpar KPNone). cbn [bind]. rewrite (dset_same "radius" (VInt (Z.of_nat r))) by (rewrite dget_dset_neq by discriminate; exact Rd).
    rewrite G'. cbn [bind]. rewrite Ak. cbn [bind]. rewrite Nl. cbn [bind guard].
    destruct (Rle_dec 0 (nc_drop s)); [|lra]. destruct (Rle_dec (nc_drop s) 1); [|lra]. cbn [andb guard bind]. rewrite weights_drawn. cbn [bind fst snd].
    set (s1 := mkNca _ _ _ _ _ _ _ _ _ _ _ _ _ _ _ _ _ _).
    assert (GP : nca_get_params s' = (nca_get_params s3 ++ l)%list).
    { unfold nca_get_params, s3, s'. cbn [nc_w1 nc_w2 nc_w3 nc_a1 nc_a2 nc_kpar]. rewrite EK. cbn [kp_flat]. rewrite app_nil_r, <- !app_assoc. reflexivity. }
    pose proof W as (L1 & L2 & W1 & W2 & W3). pose proof W1 as (_ & _ & H1 & _).
    assert (Wl : layer_wf (nc_ext s) (nc_int s) nl).
    { pose proof (get_kernel_odd _ _ G) as (r' & (Sk & _) & _). destruct (layer_of_kernel _ _ _ _ _ _ E0 N0 Sk Nl) as (Wl & _). exact Wl. }
    rewrite GP. rewrite (nca_set_more (ns_act (no_set o)) s1 s3 (moore r) nl l); [reflexivity| | | | |exact A1|exact A2|apply squared_class; exact A|apply squared_class; exact A|].
    + apply drawn_weight; lia.
    + apply drawn_weight; lia.
    + apply drawn_weight; lia.
    + unfold nca_wf, s3. cbn [nc_ext nc_int nc_hid nc_idl nc_nbl nc_w1 nc_w2 nc_w3]. auto 10.
    + repeat split.
  - split; [|exact Nl]. unfold nca_get_params, s3. cbn [nc_w1 nc_w2 nc_w3 nc_a1 nc_a2 nc_kpar]. rewrite EK. cbn [kp_flat]. rewrite app_nil_r, <- !app_assoc. reflexivity.
Qed.

(** ** Files *)
Lemma save_restore o s fs path fs' o1 q fuel dir rng o2 : coherent o s -> nca_save fs o path = Ok (fs', o1) -> strip_newlines q = npy path ->
  exists o3 s3, nca_restore (S fuel) fs' dir rng o2 q = Ok o3 /\ coherent o3 s3 /\ nca_alike s s3.
Proof.
  intros Co H Q. unfold nca_save in H. rewrite (make_eq o s (co_body _ _ Co)) in H. cbn [bind fst snd] in H. apply Ok_inj in H. apply pair_equal_spec in H as [<- <-].
  destruct (round_trip o s fuel (fun q0 => if String.eqb q0 (npy path) then Some (made_cfg (no_set o) s) else fs q0) dir rng o2 Co) as (f3 & s3 & H3 & C3 & A3 & _).
  exists (mkNobj f3 (Some s3)), s3. split; [|split; assumption]. unfold nca_restore, nca_restore_with. rewrite Q, String.eqb_refl. exact H3.
Qed.

(** ** The new object in detail *)
Lemma drawn_sq dr l o i a b : (a < o)%nat -> (b < i)%nat -> get (tmap sq (drawn dr l o i)) a b 0 0 = dr l a b * dr l a b.
Proof. intros A B. unfold drawn. rewrite tmap_eq_build by apply twf_build. cbn [tB tC tH tW build]. rewrite !get_build by lia. unfold sq. ring. Qed.

Lemma new_state fuel fs dir rng kw o : nca_new fuel fs dir rng kw = Ok o -> query_kwargs "ca_config" VNone kw = VNone ->
  (0 < ns_ext (no_set o))%nat -> (0 < ns_int (no_set o))%nat -> (0 < ns_hid (no_set o))%nat ->
  exists s, no_body o = Some s /\ nc_dt s = 1 / 10 /\ nc_cfg s = None /\ nc_kpar s = KPVec (default_kparams (ns_peaks (no_set o)) (INR (ns_peaks (no_set o)))) /\
    nc_radius s = ns_radius (no_set o) /\
    (forall a b, (a < ns_hid (no_set o))%nat -> (b < ns_ext (no_set o) + ns_int (no_set o))%nat -> get (nc_w1 s) a b 0 0 = rng 0%nat 0%nat a b * rng 0%nat 0%nat a b) /\
    (forall a b, (a < ns_hid (no_set o))%nat -> (b < ns_hid (no_set o))%nat -> get (nc_w2 s) a b 0 0 = rng 0%nat 1%nat a b * rng 0%nat 1%nat a b) /\
    (forall a b, (a < ns_ext (no_set o))%nat -> (b < ns_hid (no_set o))%nat -> get (nc_w3 s) a b 0 0 = rng 0%nat 2%nat a b * rng 0%nat 2%nat a b) /\
    nc_a1 s = act_squared (nca_act (VStr (ns_act (no_set o)))) /\ nc_a2 s = nc_a1 s.
Proof.
  destruct fuel as [|fuel]; cbn [nca_new]; [discriminate|]. intros H P. rewrite P in H. apply bind_ok in H as (f & F & H). apply bind_ok in H as (s & S & H).
  apply Ok_inj in H. subst o. cbn [no_set no_body]. intros E0 N0 H0. exists s. split; [reflexivity|]. unfold default_body in S.
  apply bind_ok in S as (m & M & S). apply bind_ok in S as (r & Er & S). apply as_size_ok in Er.
  apply nca_init_facts in S as (W & X1 & X2 & X3 & X4 & X5 & X6 & X7 & Dr & _ & _ & _ & Il & _ & Kp & Rd & Cf & V1 & V2 & V3 & A1 & A2 & Pk); auto; try (unfold drawn; apply twf_build).
  split; [exact X6|]. split; [exact Cf|]. split; [exact Kp|]. split; [congruence|]. rewrite V1, V2, V3.
  split; [intros; apply drawn_sq; assumption|]. split; [intros; apply drawn_sq; assumption|]. split; [intros; apply drawn_sq; assumption|]. split; [exact A1|congruence].
Qed.

Lemma new_exists fuel fs dir rng kw f r m : nca_settings kw = Ok f -> query_kwargs "ca_config" VNone kw = VNone ->
  as_pmode (ns_pm f) = Ok m -> ns_radius f = VInt (Z.of_nat r) -> r <> 0%nat ->
  (0 < ns_ext f)%nat -> (0 < ns_int f)%nat -> ns_peaks f <> 0%nat -> 0 <= ns_drop f <= 1 -> exists s, nca_new (S fuel) fs dir rng kw = Ok (mkNobj f (Some s)).
Proof.
  intros F P M R R0 E0 N0 P0 D. destruct (default_body_ok (rng 0%nat) f r m M R R0 E0 N0 P0 D) as [s H]. exists s.
  cbn [nca_new]. rewrite F. cbn [bind]. rewrite P, H. reflexivity.
Qed.

Lemma new_self fs dir kw F cf f : nca_settings kw = Ok f -> query_kwargs "ca_config" VNone kw = VStr F ->
  (match fs (strip_newlines F) with Some c => Some c | None => fs (join dir (strip_newlines F)) end) = Some cf -> n_inst cf = Some kw ->
  forall fuel rng, nca_new fuel fs dir rng kw = Err OutOfFuel.
Proof.
  intros A Q Fd I. induction fuel as [|n IH]; intros rng; [reflexivity|]. cbn [nca_new]. rewrite A. cbn [bind]. rewrite Q.
  unfold nca_restore_with. rewrite Fd. unfold nca_load_with. rewrite I, IH. reflexivity.
Qed.

(** ** Fields and missing keys *)
Lemma set_params_keeps s p s' : nca_set_params s p = Ok s' -> nc_dt s' = nc_dt s /\ nc_idl s' = nc_idl s /\ nc_ext s' = nc_ext s /\ nc_int s' = nc_int s /\ nc_hid s' = nc_hid s /\
  nc_pm s' = nc_pm s /\ nc_thr s' = nc_thr s /\ nc_drop s' = nc_drop s /\ nc_cfg s' = nc_cfg s /\ nc_radius s' = nc_radius s.
Proof.
  unfold nca_set_params. intros H. apply bind_ok in H as (q1 & _ & H). apply bind_ok in H as (q2 & _ & H). apply bind_ok in H as (q3 & _ & H). apply bind_ok in H as (q4 & _ & H). apply bind_ok in H as (q5 & _ & H).
  destruct (nc_kpar s); [|discriminate|].
  - apply Ok_inj in H. subst s'. repeat split.
  - apply bind_ok in H as (? & _ & H). apply bind_ok in H as (? & _ & H). apply bind_ok in H as (? & _ & H). apply Ok_inj in H. subst s'. repeat split.
Qed.

Lemma firstn_self (p : list R) n : firstn (List.length (firstn n p)) p = firstn n p.
Proof. rewrite firstn_length. destruct (Nat.le_ge_cases n (List.length p)); [rewrite Nat.min_l by assumption; reflexivity|]. rewrite Nat.min_r by assumption. rewrite !firstn_all2 by lia. reflexivity. Qed.

Lemma load_fields fuel fs dir rng o cf o3 : nca_load fuel fs dir rng o cf = Ok o3 -> exists s3 nb p k1 rv,
  no_body o3 = Some s3 /\ n_nb cf = Some nb /\ n_params cf = Some p /\ dget "radius" nb = Some rv /\ nc_radius s3 = rv /\
  nc_dt s3 = (match n_dt cf with Some x => x | None => 1 / 10 end) /\
  (match n_id cf with None => k1 = default_id_kernel | Some d => get_kernel d = Ok k1 end) /\ init_layer (nc_ext s3) (nc_int s3) (nc_pm s3) k1 = Ok (nc_idl s3) /\
  nca_get_params s3 = firstn (List.length (nca_get_params s3)) p /\
  nc_ext s3 = ns_ext (no_set o3) /\ nc_int s3 = ns_int (no_set o3) /\ nc_hid s3 = ns_hid (no_set o3) /\ nc_thr s3 = ns_thr (no_set o3) /\ nc_drop s3 = ns_drop (no_set o3) /\
  as_pmode (ns_pm (no_set o3)) = Ok (nc_pm s3).
Proof.
  unfold nca_load, nca_load_with. intros H. apply bind_ok in H as (o' & Ho & H).
  pose proof (load_inv _ _ _ _ H) as (s0 & m & k1 & il & nb & a0 & rv & k & kp & nl & p & s3 & Bo & M & K1 & Il & Nb & Kw & Rv & FR & U0 & K & Nl & Np & Dr & S & ->).
  pose proof (set_params_keeps _ _ _ S) as (D & I & E & N & Hd & Pm & Th & Dp & _ & Rr). cbn [no_set no_body]. unfold fresh_body in *. cbn [nc_dt nc_idl nc_ext nc_int nc_hid nc_pm nc_thr nc_drop nc_radius] in *.
  exists s3, nb, p, k1, rv. rewrite E, N, Pm, I.
  split; [reflexivity|]. split; [exact Nb|]. split; [exact Np|]. split; [exact Rv|]. split; [exact Rr|]. split; [exact D|]. split; [exact K1|]. split; [exact Il|].
  split; [|repeat split; assumption].
  apply nca_set_get in S as (G & _ & _); [|split; apply nca_acts]. rewrite G. symmetry. apply firstn_self.
Qed.

Lemma load_key_errors fuel fs dir rng o s cf m : n_inst cf = None -> no_body o = Some s -> as_pmode (ns_pm (no_set o)) = Ok m -> (0 < ns_ext (no_set o))%nat -> n_id cf = None ->
  (n_nb cf = None -> nca_load fuel fs dir rng o cf = Err KeyError) /\
  (forall nb, n_nb cf = Some nb -> dget "radius" nb = None -> nca_load fuel fs dir rng o cf = Err KeyError).
Proof.
  intros I B M E Ni. destruct (kernel_usable [("name", VStr "InnerMoore")] default_id_kernel eq_refl _ (ns_int (no_set o)) m E) as (_ & il & Il).
  unfold nca_load, nca_load_with, nca_load_body. rewrite I. cbn [bind]. rewrite M, Ni. cbn [bind]. rewrite Il. cbn [bind]. split.
  - intros ->. reflexivity.
  - intros nb -> R. cbn [need bind]. unfold dgetk. rewrite R. reflexivity.
Qed.

Lemma load_params_missing fuel fs dir rng o cf r : n_params cf = None -> nca_load fuel fs dir rng o cf <> Ok r.
Proof. intros P H. apply load_fields in H as (s3 & nb & p & k1 & rv & _ & _ & Np & _). congruence. Qed.
