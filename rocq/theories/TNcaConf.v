(** Configurations of neural cellular automata: round trips, files and constructor arguments. *)
From Coq Require Import Reals Lra Lia List Arith Bool ZArith String.
From Verif Require Import Base PyDict Tensor MActivations MKernels MCommon MCca MConfig MNca MNcaConf SGrid SCca SKern SConfig SNca SNcaConf
  PTensor PStep PAct PKern PKernX PKernY PNca PConfig PConfigX PConfigV PNcaConf.
Import ListNotations.
Open Scope R_scope.
Open Scope string_scope.

(** ** C84: what make_config writes, load_config brings back *)
Theorem C84_round_trip o s : coherent o s -> exists cf o1, nca_make o = Ok (cf, o1) /\
  forall fuel fs dir rng o2, exists o3 s3 o4, nca_load (S fuel) fs dir rng o2 cf = Ok o3 /\ coherent o3 s3 /\ nca_alike s s3 /\ nca_make o3 = Ok (cf, o4).
Proof.
  intros C. do 2 eexists. split; [exact (make_eq o s (co_body _ _ C))|]. intros fuel fs dir rng o2.
  destruct (round_trip o s fuel fs dir rng o2 C) as (f3 & s3 & H & C3 & A & E). do 3 eexists. split; [exact H|]. split; [exact C3|]. split; [exact A|].
  rewrite (make_eq _ s3 (co_body _ _ C3)). cbn [no_set]. rewrite E. reflexivity.
Qed.

(** Objects so alike take the same steps, give the same frames and the same parameters. *)
Theorem C84_alike s s' : nca_alike s s' -> (forall tr keep n u, iter_res (nca_forward tr keep s') n u = iter_res (nca_forward tr keep s) n u) /\
  (forall tr keep u m, nca_frame tr keep s' u m = nca_frame tr keep s u m) /\ nca_get_params s' = nca_get_params s.
Proof.
  intros A. destruct (alike_forward s s' A) as (F & G & P). split; [|split; [exact G|exact P]]. intros tr keep n. induction n as [|n IH]; intros u; [reflexivity|].
  cbn [iter_res]. rewrite F. destruct (nca_forward tr keep s u); [apply IH|reflexivity].
Qed.

(** Making a config leaves a working object that makes the same config again. *)
Theorem C84_make_twice o s cf o1 : coherent o s -> nca_make o = Ok (cf, o1) -> exists s1 o2, coherent o1 s1 /\ nca_alike s s1 /\ nca_make o1 = Ok (cf, o2).
Proof. intros C H. destruct (make_coherent o s cf o1 C H) as (s1 & C1 & A & o2 & H2). exists s1, o2. auto. Qed.

(** Through a file: saving at [path] and restoring from the name numpy gives it. *)
Theorem C84_save_restore o s fs path : coherent o s -> exists fs' o1, nca_save fs o path = Ok (fs', o1) /\ (forall q, q <> npy path -> fs' q = fs q) /\
  forall fuel dir rng o2 q, drop_newlines q = npy path -> exists o3 s3, nca_restore (S fuel) fs' dir rng o2 q = Ok o3 /\ coherent o3 s3 /\ nca_alike s s3.
Proof.
  intros C. pose proof (make_eq o s (co_body _ _ C)) as M. do 2 eexists. split; [unfold nca_save; rewrite M; reflexivity|]. split.
  - intros q N. cbn [fst]. destruct (String.eqb_spec q (npy path)); [contradiction|reflexivity].
  - intros fuel dir rng o2 q Q. rewrite <- strip_is_drop in Q. refine (save_restore o s fs path _ _ q fuel dir rng o2 C _ Q); [..|unfold nca_save; rewrite M; reflexivity].
Qed.

(** Objects in working order: new ones, and those that full parameter vectors, time steps and
    complete configs lead to. *)
Theorem C84_new fuel fs dir rng kw o : nca_new fuel fs dir rng kw = Ok o -> query_kwargs "ca_config" VNone kw = VNone ->
  (0 < ns_ext (no_set o))%nat -> (0 < ns_int (no_set o))%nat -> (0 < ns_hid (no_set o))%nat -> exists s, coherent o s.
Proof. intros H P E N D. apply (new_coherent fuel fs dir rng kw o H P E N D). Qed.

Theorem C84_set_params o s p o' : coherent o s -> (List.length (nca_get_params s) <= List.length p)%nat -> nobj_set_params o p = Ok o' ->
  exists s', coherent o' s' /\ no_set o' = no_set o /\ nca_get_params s' = firstn (List.length (nca_get_params s)) p.
Proof. exact (set_params_coherent o s p o'). Qed.

Theorem C84_set_dt o s x : coherent o s -> coherent (mkNobj (no_set o) (Some (nca_set_dt s x))) (nca_set_dt s x).
Proof. exact (set_dt_coherent o s x). Qed.

Theorem C84_load fuel fs dir rng o cf o3 s3 kw : nca_load fuel fs dir rng o cf = Ok o3 -> n_inst cf = Some kw -> query_kwargs "ca_config" VNone kw = VNone -> n_id cf = None ->
  (0 < ns_ext (no_set o3))%nat -> (0 < ns_int (no_set o3))%nat -> (0 < ns_hid (no_set o3))%nat -> no_body o3 = Some s3 -> all_given cf s3 -> coherent o3 s3.
Proof. exact (load_coherent fuel fs dir rng o cf o3 s3 kw). Qed.

(** The kernel's name is not what counts: with kernel arguments, the layer is the mixture of the
    kernel parameters in the vector, whatever kernel the config names. *)
Theorem C84_kernel_layer fuel fs dir rng o cf nb o3 a l : nca_load fuel fs dir rng o cf = Ok o3 -> n_nb cf = Some nb -> dget "kernel_kwargs" nb = Some (VDict a) ->
  update_kernel_params KPNone a = Ok (KPVec l) -> exists s3 r l3 k, no_body o3 = Some s3 /\ dget "radius" nb = Some (VInt (Z.of_nat r)) /\ nc_kpar s3 = KPVec l3 /\
  get_gaussian_mixture_kernel r l3 1 = Ok k /\ init_layer (nc_ext s3) (nc_int s3) (nc_pm s3) k = Ok (nc_nbl s3).
Proof. exact (load_layer fuel fs dir rng o cf nb o3 a l). Qed.

Theorem C84_kernel_name fuel fs dir rng o cf cf' nb nb' o3 a l k' :
  nca_load fuel fs dir rng o cf = Ok o3 -> (0 < ns_ext (no_set o3))%nat ->
  n_inst cf' = n_inst cf -> n_id cf' = n_id cf -> n_dt cf' = n_dt cf -> n_params cf' = n_params cf ->
  n_nb cf = Some nb -> n_nb cf' = Some nb' -> dget "radius" nb' = dget "radius" nb ->
  dget "kernel_kwargs" nb = Some (VDict a) -> dget "kernel_kwargs" nb' = Some (VDict a) -> update_kernel_params KPNone a = Ok (KPVec l) ->
  get_kernel nb' = Ok k' -> exists s3 s3', no_body o3 = Some s3 /\ nca_load fuel fs dir rng o cf' = Ok (mkNobj (no_set o3) (Some s3')) /\ nca_alike s3 s3'.
Proof. exact (load_name_free fuel fs dir rng o cf cf' nb nb' o3 a l k'). Qed.

(** Without kernel arguments the layer is the kernel named, and there are no kernel parameters. *)
Theorem C84_kernel_named fuel fs dir rng o cf nb o3 : nca_load fuel fs dir rng o cf = Ok o3 -> n_nb cf = Some nb ->
  dget "kernel_kwargs" nb = None \/ dget "kernel_kwargs" nb = Some (VDict []) -> exists s3 k, no_body o3 = Some s3 /\ nc_kpar s3 = KPNone /\
  get_kernel (dset "kernel_kwargs" (VDict []) nb) = Ok k /\ init_layer (nc_ext s3) (nc_int s3) (nc_pm s3) k = Ok (nc_nbl s3) /\ nc_kern s3 = k.
Proof. exact (load_layer_none fuel fs dir rng o cf nb o3). Qed.

(** So a named kernel put in by set_kernel_config is not what a config keeps: the object goes on
    with its old layer and all its parameters, the loaded one has the named kernel and has lost
    the kernel parameters. *)
Theorem C84_named_lossy fuel fs dir rng o s l r o2 : coherent o s -> nc_kpar s = KPVec l -> r <> 0%nat ->
  exists s' cf o1 o3 s3, nca_set_kernel_config s [("name", VStr "MooreLike"); ("radius", VInt (Z.of_nat r))] = Ok s' /\
  nca_get_params s' = nca_get_params s /\ nc_nbl s' = nc_nbl s /\
  nca_make (mkNobj (no_set o) (Some s')) = Ok (cf, o1) /\ nca_load (S fuel) fs dir rng o2 cf = Ok o3 /\ no_body o3 = Some s3 /\
  nca_get_params s = (nca_get_params s3 ++ l)%list /\ init_layer (nc_ext s) (nc_int s) (nc_pm s) (moore r) = Ok (nc_nbl s3).
Proof.
  intros C K R0. destruct (named_lossy fuel fs dir rng o s l r o2 C K R0) as (s' & cf & o1 & f3 & s3 & H1 & H2 & H3 & H4 & H5 & H6).
  exists s', cf, o1, (mkNobj f3 (Some s3)), s3. repeat (split; [first [assumption|reflexivity|idtac]|]); [|exact H6].
  unfold nca_set_kernel_config in H1. apply bind_ok in H1 as (? & _ & H1). apply bind_ok in H1 as (? & _ & H1). apply bind_ok in H1 as (? & _ & H1).
  apply bind_ok in H1 as (? & _ & H1). apply Ok_inj in H1. subst s'. reflexivity.
Qed.

(** The identity kernel is written under one key and read under another. *)
Theorem C84_identity_key o cf o1 : nca_make o = Ok (cf, o1) -> n_id cf = None /\ n_oid cf = Some [("name", VStr "InnerMoore")] /\
  forall fuel fs dir rng o2 d, nca_load fuel fs dir rng o2 (mkNcfg (n_inst cf) d (n_id cf) (n_nb cf) (n_dt cf) (n_params cf)) = nca_load fuel fs dir rng o2 cf.
Proof.
  unfold nca_make. destruct (no_body o) as [s|]; [|discriminate]. intros H. apply Ok_inj in H. apply pair_equal_spec in H as [<- _]. repeat split.
Qed.

(** What every load sets, and the keys it needs. *)
Theorem C84_load_fields fuel fs dir rng o cf o3 : nca_load fuel fs dir rng o cf = Ok o3 -> exists s3 nb p k1 rv,
  no_body o3 = Some s3 /\ n_nb cf = Some nb /\ n_params cf = Some p /\ dget "radius" nb = Some rv /\ nc_radius s3 = rv /\
  nc_dt s3 = (match n_dt cf with Some x => x | None => 1 / 10 end) /\
  (match n_id cf with None => k1 = default_id_kernel | Some d => get_kernel d = Ok k1 end) /\ init_layer (nc_ext s3) (nc_int s3) (nc_pm s3) k1 = Ok (nc_idl s3) /\
  nca_get_params s3 = firstn (List.length (nca_get_params s3)) p /\
  nc_ext s3 = ns_ext (no_set o3) /\ nc_int s3 = ns_int (no_set o3) /\ nc_hid s3 = ns_hid (no_set o3) /\ nc_thr s3 = ns_thr (no_set o3) /\ nc_drop s3 = ns_drop (no_set o3) /\
  as_pmode (ns_pm (no_set o3)) = Ok (nc_pm s3).
Proof. exact (load_fields fuel fs dir rng o cf o3). Qed.

Theorem C84_load_keys fuel fs dir rng o s cf m : n_inst cf = None -> no_body o = Some s -> as_pmode (ns_pm (no_set o)) = Ok m -> (0 < ns_ext (no_set o))%nat -> n_id cf = None ->
  (n_nb cf = None -> nca_load fuel fs dir rng o cf = Err KeyError) /\
  (forall nb, n_nb cf = Some nb -> dget "radius" nb = None -> nca_load fuel fs dir rng o cf = Err KeyError) /\
  (n_params cf = None -> forall r, nca_load fuel fs dir rng o cf <> Ok r).
Proof.
  intros I B M E N. destruct (load_key_errors fuel fs dir rng o s cf m I B M E N) as [A C]. split; [exact A|]. split; [exact C|].
  intros P r. apply load_params_missing. exact P.
Qed.

(** ** C85: constructing from arguments and files *)
Theorem C85_settings kw f : nca_settings kw = Ok f ->
  ns_inst f = kw /\
  as_size (query_kwargs "external_channels" (VInt 1) kw) = Ok (ns_ext f) /\ as_size (query_kwargs "internal_channels" (VInt 1) kw) = Ok (ns_int f) /\
  as_size (query_kwargs "hidden_channels" (VInt 64) kw) = Ok (ns_hid f) /\ as_size (query_kwargs "kernel_peaks" (VInt 3) kw) = Ok (ns_peaks f) /\
  ns_pm f = query_kwargs "conv_mode" (VStr "circular") kw /\ ns_radius f = query_kwargs "kernel_radius" (VInt 13) kw /\
  as_num (query_kwargs "alive_threshold" (VNum (1 / 10)) kw) = Ok (ns_thr f) /\ as_num (query_kwargs "dropout_rate" (VNum (1 / 10)) kw) = Ok (ns_drop f) /\
  In (ns_act f) act_names /\
  (forall a, dget "activation" kw = Some (VStr a) -> In a act_names -> ns_act f = a) /\
  ((forall a, dget "activation" kw = Some (VStr a) -> ~ In a act_names) -> ns_act f = "Gaussian").
Proof.
  intros H. destruct (settings_fields kw f H) as (I & Th & A & Ea & Pm & Rd & Hd & Pk & Ex & In_ & Dr).
  repeat (split; [assumption|]). split.
  - intros a D Ha. rewrite Ea. unfold query_kwargs. rewrite D. apply act_class_in. exact Ha.
  - intros N. rewrite Ea. unfold query_kwargs. destruct (dget "activation" kw) as [v|]; [|reflexivity]. destruct v; cbn [act_class]; try reflexivity.
    destruct (existsb (String.eqb s) act_names) eqn:E; [|reflexivity]. exfalso. apply (N s); [reflexivity|]. apply existsb_exists in E as (t & Ht & E). apply String.eqb_eq in E. subst. exact Ht.
Qed.

(** A new object without a config file. *)
Theorem C85_new fuel fs dir rng kw o : nca_new fuel fs dir rng kw = Ok o -> query_kwargs "ca_config" VNone kw = VNone ->
  (0 < ns_ext (no_set o))%nat -> (0 < ns_int (no_set o))%nat -> (0 < ns_hid (no_set o))%nat -> nca_settings kw = Ok (no_set o) /\
  exists s, no_body o = Some s /\ nc_dt s = 1 / 10 /\ nc_cfg s = None /\ nc_kpar s = KPVec (default_kparams (ns_peaks (no_set o)) (INR (ns_peaks (no_set o)))) /\
    nc_radius s = ns_radius (no_set o) /\
    (forall a b, (a < ns_hid (no_set o))%nat -> (b < ns_ext (no_set o) + ns_int (no_set o))%nat -> get (nc_w1 s) a b 0 0 = rng 0%nat 0%nat a b * rng 0%nat 0%nat a b) /\
    (forall a b, (a < ns_hid (no_set o))%nat -> (b < ns_hid (no_set o))%nat -> get (nc_w2 s) a b 0 0 = rng 0%nat 1%nat a b * rng 0%nat 1%nat a b) /\
    (forall a b, (a < ns_ext (no_set o))%nat -> (b < ns_hid (no_set o))%nat -> get (nc_w3 s) a b 0 0 = rng 0%nat 2%nat a b * rng 0%nat 2%nat a b) /\
    nc_a1 s = act_squared (nca_act (VStr (ns_act (no_set o)))) /\ nc_a2 s = nc_a1 s.
Proof. intros H P E N D. split; [apply (new_coherent fuel fs dir rng kw o H P E N D)|apply (new_state fuel fs dir rng kw o H P E N D)]. Qed.

(** With a config file holding instant_kwargs, the other arguments are ignored: the object is what
    loading that config into any object gives. *)
Theorem C85_from_file fuel fs dir rng kw f F cf kw' o : nca_settings kw = Ok f -> query_kwargs "ca_config" VNone kw = VStr F ->
  (fs (drop_newlines F) = Some cf \/ fs (drop_newlines F) = None /\ fs (join dir (drop_newlines F)) = Some cf) -> n_inst cf = Some kw' ->
  nca_new (S fuel) fs dir rng kw = nca_load fuel fs dir rng o cf.
Proof.
  intros A Q Fd I. rewrite <- strip_is_drop in Fd. apply (new_from_file fuel fs dir rng kw f F cf kw' o A Q); [|exact I]. destruct Fd as [->|[-> ->]]; reflexivity.
Qed.

(** With a file that exists nowhere, construction succeeds but leaves an object without layers:
    every use of it fails, until a config with instant_kwargs is loaded. *)
Theorem C85_missing fuel fs dir rng kw f F : nca_settings kw = Ok f -> query_kwargs "ca_config" VNone kw = VStr F ->
  fs (drop_newlines F) = None -> fs (join dir (drop_newlines F)) = None -> exists o, nca_new (S fuel) fs dir rng kw = Ok o /\ no_set o = f /\
  (forall tr keep u, nobj_forward tr keep o u = Err AttributeError) /\ nobj_get_params o = Err AttributeError /\
  (forall p, nobj_set_params o p = Err AttributeError) /\ nca_make o = Err AttributeError /\ (forall q, nca_save fs o q = Err AttributeError) /\
  (forall fuel' rng' cf r, n_inst cf = None -> nca_load fuel' fs dir rng' o cf <> Ok r) /\
  (forall fuel' rng' cf kw' o', n_inst cf = Some kw' -> nca_load fuel' fs dir rng' o cf = nca_load fuel' fs dir rng' o' cf).
Proof.
  intros A Q F1 F2. rewrite <- strip_is_drop in *. exists (mkNobj f None). split; [exact (new_missing fuel fs dir rng kw f F A Q F1 F2)|].
  repeat (split; [solve [reflexivity|intros; reflexivity]|]). split.
  - intros fuel' rng' cf r I. apply load_needs_body; auto.
  - intros fuel' rng' cf kw' o' I. exact (load_any_object fuel' fs dir rng' _ o' cf kw' I).
Qed.

(** Working objects behave as their automata. *)
Theorem C85_working o s : no_body o = Some s -> (forall tr keep u, nobj_forward tr keep o u = nca_forward tr keep s u) /\ nobj_get_params o = Ok (nca_get_params s) /\
  forall p r, nobj_set_params o p = r -> (forall s', nca_set_params s p = Ok s' -> r = Ok (mkNobj (no_set o) (Some s'))) /\ (forall e, nca_set_params s p = Err e -> r = Err e).
Proof.
  intros B. unfold nobj_forward, nobj_get_params, nobj_set_params. rewrite B. split; [reflexivity|]. split; [reflexivity|]. intros p r <-. split; intros x ->; reflexivity.
Qed.

(** A restore from a file that exists nowhere changes nothing. *)
Theorem C85_restore_missing fuel fs dir rng o q : fs (drop_newlines q) = None -> fs (join dir (drop_newlines q)) = None -> nca_restore fuel fs dir rng o q = Ok o.
Proof. intros F1 F2. rewrite <- strip_is_drop in *. unfold nca_restore, nca_restore_with. rewrite F1, F2. reflexivity. Qed.

Theorem C85_restore fuel fs dir rng o q cf : fs (drop_newlines q) = Some cf \/ fs (drop_newlines q) = None /\ fs (join dir (drop_newlines q)) = Some cf ->
  nca_restore fuel fs dir rng o q = nca_load fuel fs dir rng o cf.
Proof. intros F. rewrite <- strip_is_drop in *. unfold nca_restore, nca_restore_with. destruct F as [->|[-> ->]]; reflexivity. Qed.

(** Whatever files are read on the way, an object with layers was built from arguments naming
    none, so what it saves can be loaded without any other file. *)
Theorem C85_plain fuel fs dir rng kw o s : nca_new fuel fs dir rng kw = Ok o -> no_body o = Some s -> query_kwargs "ca_config" VNone (ns_inst (no_set o)) = VNone.
Proof. exact (new_plain fuel fs dir rng kw o s). Qed.

(** A file whose instant_kwargs name the file itself is never loaded: no recursion depth suffices. *)
Theorem C85_self fs dir kw f F cf fuel rng : nca_settings kw = Ok f -> query_kwargs "ca_config" VNone kw = VStr F ->
  fs (drop_newlines F) = Some cf -> n_inst cf = Some kw -> nca_new fuel fs dir rng kw = Err OutOfFuel.
Proof. intros A Q Fd I. rewrite <- strip_is_drop in Fd. apply (new_self fs dir kw F cf f A Q); [|exact I]. rewrite Fd. reflexivity. Qed.

(** ** A small automaton *)
Definition small_kw : dict := [("hidden_channels", VInt 2); ("kernel_radius", VInt 1); ("kernel_peaks", VInt 1); ("activation", VStr "Gaussian")].
Definition small_rng (n : nat) : wdraws := fun l o i => 1 / 2.
Definition no_files : string -> option ncfg := fun _ => None.
Definition small_set : nset := mkNset 1 1 2 (VStr "circular") (1 / 10) (VInt 1) 1 "Gaussian" (1 / 10) small_kw.

Lemma small_settings : nca_settings small_kw = Ok small_set.
Proof. reflexivity. Qed.

Example ex_small : exists o s, nca_new 1 no_files "ca_configs" small_rng small_kw = Ok o /\ coherent o s /\ List.length (nca_get_params s) = 17%nat /\ nc_kpar s = KPVec [1; 1 / 2; 3 / 20].
Proof.
  destruct (new_exists 0 no_files "ca_configs" small_rng small_kw small_set 1 Circular) as [s0 H]; try reflexivity; try discriminate; try (cbn; lia); [cbn [ns_drop small_set]; lra|].
  destruct (C84_new _ _ _ _ _ _ H) as [s C]; try reflexivity; try (cbn; lia). exists (mkNobj small_set (Some s0)), s. split; [exact H|]. split; [exact C|].
  pose proof (co_body _ _ C) as B. cbn [no_body] in B. injection B as ->.
  destruct (new_state _ _ _ _ _ _ H) as (s1 & B1 & _ & _ & K & _ & _ & _ & _ & A1 & A2); try reflexivity; try (cbn; lia). cbn [no_body no_set] in B1, K, A1. injection B1 as ->.
  assert (K' : nc_kpar s1 = KPVec [1; 1 / 2; 3 / 20]).
  { rewrite K. cbn [small_set ns_peaks]. cbn [default_kparams]. change (INR 1) with 1. f_equal. replace (1 / 1) with 1 by field. replace (15 / 100) with (3 / 20) by field. reflexivity. }
  split; [|exact K']. destruct C as [_ (_ & _ & W1 & W2 & W3) X1 X2 X3 _ _ _ _ _ _ _ _ _ _ _ _]. cbn [no_set small_set ns_ext ns_int ns_hid] in X1, X2, X3. rewrite X1, X2, X3 in *.
  unfold nca_get_params. rewrite A2, A1, K', !app_length. destruct W1 as (T1 & S1 & _). destruct W2 as (T2 & S2 & _). destruct W3 as (T3 & S3 & _).
  rewrite T1, T2, T3. apply shape_inv in S1 as (-> & -> & -> & ->). apply shape_inv in S2 as (-> & -> & -> & ->). apply shape_inv in S3 as (-> & -> & -> & ->). reflexivity.
Qed.

Example ex_saved : exists o s fs' o1 o3 s3, nca_new 1 no_files "ca_configs" small_rng small_kw = Ok o /\ coherent o s /\ nca_save no_files o "small" = Ok (fs', o1) /\
  nca_restore 1 fs' "ca_configs" small_rng (mkNobj small_set None) "small.npy" = Ok o3 /\ coherent o3 s3 /\ nca_alike s s3.
Proof.
  destruct ex_small as (o & s & H & C & _). destruct (C84_save_restore o s no_files "small" C) as (fs' & o1 & S & _ & R).
  destruct (R 0%nat "ca_configs" small_rng (mkNobj small_set None) "small.npy" eq_refl) as (o3 & s3 & H3 & C3 & A3). exists o, s, fs', o1, o3, s3. auto 8.
Qed.

(** The same vector under another kernel's name: the config with "GaussianMixture" and one with
    "Gaussian" of the same three arguments. *)
Example ex_names : exists cf, n_nb cf = Some [("name", VStr "GaussianMixture"); ("kernel_kwargs", VDict [("parameters", VVec [1; 1 / 2; 3 / 20])]); ("radius", VInt 1)] /\
  exists o3, nca_load 1 no_files "ca_configs" small_rng (mkNobj small_set None) cf = Ok o3 /\ (0 < ns_ext (no_set o3))%nat.
Proof.
  destruct ex_small as (o & s & H & C & _ & K). destruct (new_state _ _ _ _ _ _ H) as (s1 & B1 & _ & Cf & _ & Rd & _);
    try (assert (E : no_set o = small_set) by (cbn [nca_new] in H; rewrite small_settings in H; cbn [bind] in H; apply bind_ok in H as (? & _ & H); apply Ok_inj in H; subst o; reflexivity); rewrite E; cbn; lia); [reflexivity|].
  assert (E : no_set o = small_set) by (cbn [nca_new] in H; rewrite small_settings in H; cbn [bind] in H; apply bind_ok in H as (? & _ & H); apply Ok_inj in H; subst o; reflexivity).
  assert (s1 = s) by (pose proof (co_body _ _ C); congruence). subst s1.
  exists (made_cfg (no_set o) s). split.
  - unfold made_cfg, made_nb. cbn [n_nb]. rewrite Cf, get_net, K, E, Rd, E. cbn [small_set ns_peaks ns_radius kp_flat Nat.mul Nat.add]. rewrite tail_app by (try reflexivity; discriminate). reflexivity.
  - destruct (round_trip o s 0 no_files "ca_configs" small_rng (mkNobj small_set None) C) as (f3 & s3 & H3 & C3 & _). eexists. split; [exact H3|].
    cbn [no_set]. destruct (nca_pos s3 (co_wf _ _ C3)) as [E0 _]. rewrite (co_ext _ _ C3) in E0. exact E0.
Qed.

Example ex_missing : exists o, nca_new 3 no_files "ca_configs" small_rng (dset "ca_config" (VStr "gone.npy") small_kw) = Ok o /\ nca_make o = Err AttributeError.
Proof. eexists. split; reflexivity. Qed.

Definition loop_kw : dict := dset "ca_config" (VStr "loop.npy") small_kw.
Example ex_loop : nca_new 50 (fun q => if String.eqb q "loop.npy" then Some (mkNcfg (Some loop_kw) None None None None None) else None) "ca_configs" small_rng loop_kw = Err OutOfFuel.
Proof. eapply C85_self; reflexivity. Qed.

Example ex_activation : exists f, nca_settings (dset "activation" (VStr "Softmax") small_kw) = Ok f /\ ns_act f = "Gaussian".
Proof. eexists. split; reflexivity. Qed.

Print Assumptions C84_round_trip.
Print Assumptions C84_alike.
Print Assumptions C84_make_twice.
Print Assumptions C84_save_restore.
Print Assumptions C84_new.
Print Assumptions C84_set_params.
Print Assumptions C84_set_dt.
Print Assumptions C84_load.
Print Assumptions C84_kernel_layer.
Print Assumptions C84_kernel_name.
Print Assumptions C84_kernel_named.
Print Assumptions C84_named_lossy.
Print Assumptions C84_identity_key.
Print Assumptions C84_load_fields.
Print Assumptions C84_load_keys.
Print Assumptions C85_settings.
Print Assumptions C85_new.
Print Assumptions C85_from_file.
Print Assumptions C85_missing.
Print Assumptions C85_working.
Print Assumptions C85_restore_missing.
Print Assumptions C85_restore.
Print Assumptions C85_plain.
Print Assumptions C85_self.
