(** Construction, loading and kernel changes of CCA objects: facts and invariants. *)
From Coq Require Import Reals Lra Lia List Arith Bool ZArith String.
From Verif Require Import Base PyDict Tensor MActivations MKernels MCommon MCca MNca MConfig SGrid SCca SKern SConfig PTensor PStep PCca PAct PKern PKernX PNca PConfig.
Import ListNotations.
Open Scope R_scope.
Open Scope string_scope.

(** ** Dictionaries and heaps *)
Lemma dget_dset_eq k v d : dget k (dset k v d) = Some v.
Proof.
  induction d as [|[k' v'] t IH]; cbn [dset dget]; [rewrite String.eqb_refl; reflexivity|].
  destruct (String.eqb_spec k k') as [->|N]; cbn [dget]; [rewrite String.eqb_refl; reflexivity|].
  destruct (String.eqb_spec k k'); [contradiction|exact IH].
Qed.

Lemma dget_dset_neq k k' v d : k <> k' -> dget k (dset k' v d) = dget k d.
Proof.
  intros N. induction d as [|[q w] t IH]; cbn [dset dget].
  - destruct (String.eqb_spec k k'); [contradiction|reflexivity].
  - destruct (String.eqb_spec k' q) as [->|N']; cbn [dget].
    + destruct (String.eqb_spec k q); [contradiction|reflexivity].
    + destruct (String.eqb_spec k q); [reflexivity|exact IH].
Qed.

Lemma dset_same k v d : dget k d = Some v -> dset k v d = d.
Proof.
  induction d as [|[q w] t IH]; cbn [dset dget]; [discriminate|].
  destruct (String.eqb_spec k q) as [->|N]; [congruence|]. intros E. rewrite IH by auto. reflexivity.
Qed.

Lemma query_dset_eq k v dv d : query_kwargs k dv (dset k v d) = v.
Proof. unfold query_kwargs. rewrite dget_dset_eq. reflexivity. Qed.

Lemma query_dset_neq k k' v dv d : k <> k' -> query_kwargs k dv (dset k' v d) = query_kwargs k dv d.
Proof. intros N. unfold query_kwargs. rewrite dget_dset_neq by auto. reflexivity. Qed.

Lemma hset_same h l : hset h l (hget h l) = h.
Proof.
  revert l. induction h as [|x t IH]; intros [|l]; cbn [hset]; try reflexivity. unfold hget in *. cbn [nth]. rewrite IH. reflexivity.
Qed.

Lemma hget_hset_eq h l d : (l < List.length h)%nat -> hget (hset h l d) l = d.
Proof.
  revert l. induction h as [|x t IH]; intros [|l] H; cbn [List.length] in H; try lia; [reflexivity|].
  unfold hget in *. cbn [hset nth]. apply IH. lia.
Qed.

Lemma hget_hset_neq h l l' d : l <> l' -> hget (hset h l d) l' = hget h l'.
Proof.
  revert l l'. induction h as [|x t IH]; intros l l' N; [reflexivity|]. unfold hget in *.
  destruct l, l'; cbn [hset nth]; try reflexivity; try lia. apply IH. lia.
Qed.

Lemma hset_length h l d : List.length (hset h l d) = List.length h.
Proof. revert l. induction h as [|x t IH]; intros [|l]; cbn [hset List.length]; auto. Qed.

Lemma hget_app h x l : (l < List.length h)%nat -> hget (h ++ x)%list l = hget h l.
Proof. intros H. unfold hget. apply app_nth1. exact H. Qed.

Lemma hget_some h l k v : dget k (hget h l) = Some v -> (l < List.length h)%nat.
Proof.
  intros H. destruct (le_lt_dec (List.length h) l) as [L|L]; [|exact L].
  unfold hget in H. rewrite nth_overflow in H by exact L. discriminate.
Qed.

(** ** set_kernel_radius *)
Lemma as_kernel_odd r k : odd_kernel r k -> as_kernel (K4 k) = Ok k.
Proof. intros (S & _). apply shape_inv in S as (_ & _ & S3 & S4). cbn [as_kernel]. rewrite S3, S4, Nat.eqb_refl. reflexivity. Qed.

Lemma get_kernel_odd d k : get_kernel d = Ok k -> exists r, odd_kernel r k /\
  (dget "name" d = Some (VStr "InnerMoore") /\ r = 1%nat \/ dget "name" d <> Some (VStr "InnerMoore") /\ dget "radius" d = Some (VInt (Z.of_nat r))).
Proof. intros H. apply get_kernel_radial in H as (r & S & W & Rd & C). exists r. split; [split; auto|exact C]. Qed.

Lemma default_id_odd : odd_kernel 1 default_id_kernel.
Proof.
  split; [reflexivity|]. split; [reflexivity|]. intros i j i' j' Hi Hj Hi' Hj' E.
  destruct i as [|[|[|]]], j as [|[|[|]]], i' as [|[|[|]]], j' as [|[|[|]]]; try lia; reflexivity.
Qed.

Lemma set_radius_inv o r h o' h' : set_kernel_radius o r h = Ok (o', h') -> exists l k,
  o_nb o = Some l /\ get_kernel (dset "radius" r (hget h l)) = Ok k /\ uses_kernel (o_core o') k /\
  o_radius o' = r /\ h' = hset h l (dset "radius" r (hget h l)) /\
  o' = mkObj (set_layers (o_core o) (idl (o_core o)) (nbl (o_core o')) (wl (o_core o)) (gens (o_core o)) (pers (o_core o)) (dt (o_core o)))
         (o_kpar o) r (o_peaks o) (o_nb o) (o_gen o) (o_per o) (o_inst o).
Proof.
  unfold set_kernel_radius. destruct (o_nb o) as [l|] eqn:En; [|discriminate]. cbv zeta. intros H.
  apply bind_ok in H as (k & Hk & H). apply bind_ok in H as (kk & Hkk & H). apply bind_ok in H as (rv & Hr & H).
  apply bind_ok in H as (nl & Hnl & H). apply Ok_inj in H. injection H as <- <-.
  apply dgetk_ok in Hr. rewrite dget_dset_eq in Hr. injection Hr as <-.
  pose proof (get_kernel_odd _ _ Hk) as (q & Q & _). rewrite (as_kernel_odd q k Q) in Hkk. apply Ok_inj in Hkk. subst kk.
  exists l, k. split; [reflexivity|]. split; [exact Hk|]. split; [exact Hnl|]. split; [reflexivity|]. split; reflexivity.
Qed.

(** ** load_config after re-initialisation *)
Record loaded (o : obj) (cf : cfg) (h : heap) (o' : obj) : Prop := {
  ld_id : exists k1, (c_id cf = None /\ k1 = default_id_kernel \/ exists l, c_id cf = Some l /\ get_kernel (hget h l) = Ok k1) /\
            init_layer (ext (o_core o)) (int_ (o_core o)) (pm (o_core o)) k1 = Ok (idl (o_core o'));
  ld_nb : exists l k, c_nb cf = Some l /\ o_nb o' = Some l /\ get_kernel (hget h l) = Ok k /\
            init_layer (ext (o_core o)) (int_ (o_core o)) (pm (o_core o)) k = Ok (nbl (o_core o')) /\
            read_kpar (o_kpar o) (hget h l) = Ok (o_kpar o') /\ dget "radius" (hget h l) = Some (o_radius o');
  ld_gen : exists l, c_gen cf = Some l /\ o_gen o' = Some l /\ make_fn (hget h l) = Ok (gens (o_core o'));
  ld_per : exists l, c_per cf = Some l /\ o_per o' = Some l /\ make_fn (hget h l) = Ok (pers (o_core o'));
  ld_dt : dt (o_core o') = match c_dt cf with Some x => x | None => 1 / 10 end;
  ld_wl : init_weights (ext (o_core o)) (int_ (o_core o)) (pm (o_core o)) = Ok (wl (o_core o'));
  ld_ext : ext (o_core o') = ext (o_core o);
  ld_int : int_ (o_core o') = int_ (o_core o);
  ld_pm : pm (o_core o') = pm (o_core o);
  ld_thr : thr (o_core o') = thr (o_core o);
  ld_peaks : o_peaks o' = o_peaks o;
  ld_inst : o_inst o' = o_inst o
}.

Lemma need_ok A (x : option A) a : need x = Ok a -> x = Some a.
Proof. destruct x; cbn [need]; [intros E; apply Ok_inj in E; congruence|discriminate]. Qed.

Lemma load_body_inv o cf h o' h' : load_body o cf h = Ok (o', h') -> h' = h /\ loaded o cf h o'.
Proof.
  unfold load_body. cbv zeta. intros H. apply bind_ok in H as (k1 & Hk1 & H). apply bind_ok in H as (il & Hil & H).
  apply bind_ok in H as (nb & Hnb & H). apply need_ok in Hnb. apply bind_ok in H as (k & Hk & H).
  apply bind_ok in H as (kp & Hkp & H). apply bind_ok in H as (rv & Hrv & H). apply dgetk_ok in Hrv.
  apply bind_ok in H as ([o1 h1] & Hr & H). cbn [fst snd] in H.
  apply set_radius_inv in Hr as (l & k' & El & Hk' & U & Er & Eh & Eo). cbn [with_nb o_nb] in El. injection El as <-.
  rewrite (dset_same _ _ _ Hrv) in *. rewrite Hk in Hk'. apply Ok_inj in Hk'. subst k'. rewrite hset_same in Eh. subst h1.
  apply bind_ok in H as (gl & Hgl & H). apply need_ok in Hgl. apply bind_ok in H as (g & Hg & H).
  apply bind_ok in H as (pl & Hpl & H). apply need_ok in Hpl. apply bind_ok in H as (p & Hp & H).
  apply bind_ok in H as (w & Hw & H). apply Ok_inj in H. injection H as <- <-. split; [reflexivity|].
  assert (U' : init_layer (ext (o_core o)) (int_ (o_core o)) (pm (o_core o)) k = Ok (nbl (o_core o1))).
  { unfold uses_kernel in U. rewrite Eo in U at 1 2 3. exact U. }
  constructor; cbn [o_core set_layers ext int_ pm thr idl nbl wl gens pers dt o_nb o_gen o_per o_kpar o_radius o_peaks o_inst]; try reflexivity.
  - exists k1. split; [|exact Hil]. destruct (c_id cf) as [l|].
    + right. exists l. split; [reflexivity|]. apply bind_ok in Hk1 as (q & Hq & Hk1).
      pose proof (get_kernel_odd _ _ Hq) as (r & R & _). rewrite (as_kernel_odd r q R) in Hk1. congruence.
    + left. split; [reflexivity|]. congruence.
  - exists nb, k. rewrite Er. repeat split; auto.
  - exists gl. auto.
  - exists pl. auto.
  - exact Hw.
Qed.

Lemma load_body_ok o cf h k1 l k kp rv gl g pl p w il nl :
  match c_id cf with None => Ok default_id_kernel | Some l => get_kernel (hget h l) end = Ok k1 ->
  c_nb cf = Some l -> get_kernel (hget h l) = Ok k -> read_kpar (o_kpar o) (hget h l) = Ok kp -> dget "radius" (hget h l) = Some rv ->
  c_gen cf = Some gl -> make_fn (hget h gl) = Ok g -> c_per cf = Some pl -> make_fn (hget h pl) = Ok p ->
  init_layer (ext (o_core o)) (int_ (o_core o)) (pm (o_core o)) k1 = Ok il ->
  init_layer (ext (o_core o)) (int_ (o_core o)) (pm (o_core o)) k = Ok nl ->
  init_weights (ext (o_core o)) (int_ (o_core o)) (pm (o_core o)) = Ok w ->
  load_body o cf h = Ok (mkObj (set_layers (o_core o) il nl w g p (match c_dt cf with Some x => x | None => 1 / 10 end)) kp rv (o_peaks o)
        (Some l) (Some gl) (Some pl) (o_inst o), h).
Proof.
  intros Hid Hnb Hk Hkp Hrv Hgl Hg Hpl Hp Hil Hnl Hw. unfold load_body. cbv zeta.
  assert (E1 : match c_id cf with None => Ok default_id_kernel | Some l => let* k := get_kernel (hget h l) in as_kernel (K4 k) end = Ok k1).
  { destruct (c_id cf); [|exact Hid]. rewrite Hid. cbn [bind]. apply get_kernel_odd in Hid as (r & R & _). apply (as_kernel_odd r k1 R). }
  rewrite E1. cbn [bind]. rewrite Hil. cbn [bind]. rewrite Hnb. cbn [need bind]. rewrite Hk. cbn [bind]. rewrite Hkp. cbn [bind].
  unfold dgetk. rewrite Hrv. cbn [bind]. unfold set_kernel_radius. cbn [with_nb o_nb]. rewrite (dset_same _ _ _ Hrv). cbv zeta. rewrite Hk. cbn [bind].
  pose proof (get_kernel_odd _ _ Hk) as (r & R & _). rewrite (as_kernel_odd r k R). cbn [bind].
  unfold dgetk. rewrite Hrv. cbn [bind o_core with_nb set_layers ext int_ pm]. rewrite Hnl. cbn [bind fst snd]. rewrite hset_same.
  rewrite Hgl. cbn [need bind]. rewrite Hg. cbn [bind]. rewrite Hpl. cbn [need bind]. rewrite Hp. cbn [bind]. rewrite Hw. cbn [bind]. reflexivity.
Qed.

(** ** The constructor *)
Lemma fresh_inv dr kw o : fresh dr kw = Ok o -> obj_inv o /\ kernel_synced o /\
  o_kpar o = KPVec (map (dr_k dr) (seq 0 (o_peaks o * 3))) /\ o_radius o = query_kwargs "kernel_radius" (VInt 13) kw /\
  o_nb o = None /\ o_gen o = None /\ o_per o = None /\ o_inst o = kw /\ dt (o_core o) = 1 / 10 /\
  gens (o_core o) = map (default_gen dr) (seq 0 (int_ (o_core o))) /\ pers (o_core o) = map (default_per dr) (seq 0 (int_ (o_core o))) /\
  init_layer (ext (o_core o)) (int_ (o_core o)) (pm (o_core o)) default_id_kernel = Ok (idl (o_core o)).
Proof.
  unfold fresh. cbv zeta. intros H. apply bind_ok in H as (pk & Hpk & H). apply bind_ok in H as (m & Hm & H).
  apply bind_ok in H as (n & Hn & H). apply bind_ok in H as (e & He & H). apply bind_ok in H as (th & Hth & H).
  apply bind_ok in H as (il & Hil & H). apply bind_ok in H as (x & G & H). apply guard_ok in G.
  apply bind_ok in H as (k & Hk & H). apply bind_ok in H as (ks & Hks & H). apply bind_ok in H as (kk & Hkk & H).
  apply bind_ok in H as (nl & Hnl & H). apply bind_ok in H as (w & Hw & H). apply Ok_inj in H. subst o.
  assert (N0 : (0 < n)%nat) by (destruct n; [discriminate G|lia]).
  assert (E0 : (0 < e)%nat) by (destruct e; [discriminate Hil|lia]).
  unfold mixture_kernel_of in Hk. apply bind_ok in Hk as (r & Hr & Hk). pose proof Hk as Hk'.
  apply mixture_kernel_shape in Hk' as (S & W & Rd & _).
  assert (kk = ks).
  { cbn [as_kernel] in Hkk. apply bind_ok in Hkk as (? & _ & Hkk). congruence. }
  subst kk. rewrite (stack_layer e n m k ks r) in Hnl by auto.
  unfold obj_inv, kernel_synced, uses_kernel. cbn [o_core ext int_ pm thr idl nbl wl gens pers dt o_kpar o_radius o_peaks o_nb o_gen o_per o_inst].
  split; [|split; [|repeat split; exact Hil]].
  - split; [exact E0|]. split; [exact N0|]. split; [exists 1%nat, default_id_kernel; split; [exact default_id_odd|exact Hil]|].
    split; [exists r, k; split; [split; auto|exact Hnl]|]. split; [exact Hw|]. repeat split; assumption.
  - apply as_size_ok in Hr. rewrite Hr. exists r, (map (dr_k dr) (seq 0 (pk * 3))), k. repeat split; assumption.
Qed.

Lemma loaded_inv o cf h o' : obj_inv o -> loaded o cf h o' -> obj_inv o'.
Proof.
  intros (P1 & P2 & _ & _ & _ & Q) L. destruct L. unfold obj_inv, uses_kernel. cbv zeta in *.
  rewrite ld_ext0, ld_int0, ld_pm0, ld_thr0, ld_peaks0, ld_inst0. split; [exact P1|]. split; [exact P2|]. split.
  - destruct ld_id0 as (k1 & C & E). destruct C as [[_ ->]|(l & _ & Hk)].
    + exists 1%nat, default_id_kernel. split; [exact default_id_odd|exact E].
    + apply get_kernel_odd in Hk as (r & R & _). exists r, k1. auto.
  - split; [|split; [exact ld_wl0|exact Q]]. destruct ld_nb0 as (l & k & _ & _ & Hk & E & _).
    apply get_kernel_odd in Hk as (r & R & _). exists r, k. auto.
Qed.

Definition grows (h h' : heap) : Prop := exists x, h' = (h ++ x)%list.

Lemma grows_refl h : grows h h.
Proof. exists []. rewrite app_nil_r. reflexivity. Qed.

Lemma grows_trans h1 h2 h3 : grows h1 h2 -> grows h2 h3 -> grows h1 h3.
Proof. intros [x ->] [y ->]. exists (x ++ y)%list. rewrite app_assoc. reflexivity. Qed.

Lemma grows_get h h' l : grows h h' -> (l < List.length h)%nat -> hget h' l = hget h l.
Proof. intros [x ->]. apply hget_app. Qed.

Lemma unpickle_grows p h : grows h (snd (unpickle p h)).
Proof.
  unfold unpickle. cbv zeta. cbn [snd].
  assert (A : forall d h, grows h (snd (alloc_opt d h))).
  { intros [d|] h0; cbn [alloc_opt alloc fst snd]; [exists [d]; reflexivity|apply grows_refl]. }
  pose proof (A (p_id p) h). set (a := alloc_opt (p_id p) h) in *.
  pose proof (A (p_nb p) (snd a)). set (b := alloc_opt (p_nb p) (snd a)) in *.
  pose proof (A (p_gen p) (snd b)). set (g := alloc_opt (p_gen p) (snd b)) in *.
  assert (grows h (snd g)) by eauto using grows_trans.
  destruct (p_same p); [assumption|]. eauto using grows_trans.
Qed.

Definition good_ini (ini : dict -> heap -> res (obj * heap)) : Prop :=
  forall kw h o h', ini kw h = Ok (o, h') -> obj_inv o /\ grows h h'.

Lemma load_with_inv ini o cf h o' h' : good_ini ini -> obj_inv o -> load_with ini o cf h = Ok (o', h') ->
  obj_inv o' /\ grows h h' /\ exists o1, loaded o1 cf h' o' /\ obj_inv o1 /\
    match c_inst cf with None => o1 = o /\ h' = h | Some kw => ini kw h = Ok (o1, h') end.
Proof.
  intros Hi Ho H. unfold load_with in H. apply bind_ok in H as ([o1 h1] & Hr & H). cbn [fst snd] in H.
  apply load_body_inv in H as [-> L].
  assert (I1 : obj_inv o1 /\ grows h h1).
  { destruct (c_inst cf) as [kw|]; [exact (Hi kw h o1 h1 Hr)|]. apply Ok_inj in Hr. injection Hr as <- <-. split; [exact Ho|apply grows_refl]. }
  destruct I1 as [I1 G]. split; [exact (loaded_inv o1 cf h1 o' I1 L)|]. split; [exact G|]. exists o1. split; [exact L|]. split; [exact I1|].
  destruct (c_inst cf); [exact Hr|]. apply Ok_inj in Hr. injection Hr as <- <-. auto.
Qed.

Lemma restore_with_inv ini ev o p h o' h' : good_ini ini -> obj_inv o -> restore_with ini ev o p h = Ok (o', h') -> obj_inv o' /\ grows h h'.
Proof.
  intros Hi Ho H. unfold restore_with in H. cbv zeta in H.
  destruct (match fs_get (e_fs ev) (strip_newlines p) with Some e => Some e | None => _ end) as [e|].
  - apply bind_ok in H as (pc & _ & H). apply (load_with_inv ini o _ _ o' h' Hi Ho) in H as (A & G & _). split; [exact A|].
    eapply grows_trans; [apply unpickle_grows|exact G].
  - apply Ok_inj in H. injection H as <- <-. split; [exact Ho|apply grows_refl].
Qed.

Lemma set_params_obj_inv o p o' : obj_inv o -> set_params o p = Ok o' -> obj_inv o' /\ kernel_synced o'.
Proof.
  intros (P1 & P2 & P3 & _ & P5 & P6 & P7 & P8 & P9 & P10) H. apply set_params_inv in H as (l & g & q & k & E1 & _ & E2 & _ & _ & _ & _ & _ & K & U & Kp).
  unfold mixture_kernel_of in K. apply bind_ok in K as (r & Hr & K). pose proof K as K'. apply mixture_kernel_shape in K' as (S & W & Rd & _).
  destruct Kp as (A1 & A2 & A3 & A4 & A5 & A6 & A7 & A8 & A9 & A10 & A11 & A12 & A13). cbv zeta in *. split.
  - unfold obj_inv. cbv zeta. rewrite A1, A2, A3, A4, A5, A6, A9, A13. repeat (split; [assumption|]). split; [|repeat split; assumption].
    exists r, k. split; [split; auto|]. exact U.
  - apply as_size_ok in Hr. exists r, (firstn (List.length l) (skipn (fn_count (o_core o)) p)), k. split; [congruence|]. split; [exact E2|]. split; [exact K|exact U].
Qed.

Lemma init_inv fuel ev : forall rng, good_ini (init fuel ev rng).
Proof.
  induction fuel as [|f IH]; intros rng kw h o h' H; [discriminate|]. cbn [init] in H.
  apply bind_ok in H as (o0 & Hf & H). apply fresh_inv in Hf as (I0 & _). apply bind_ok in H as ([o1 h1] & Hr & H).
  assert (I1 : obj_inv o1 /\ grows h h1).
  { destruct (query_kwargs "ca_config" VNone kw); try discriminate.
    - apply Ok_inj in Hr. injection Hr as <- <-. split; [exact I0|apply grows_refl].
    - eapply restore_with_inv; [apply IH|exact I0|exact Hr]. }
  destruct I1 as [I1 G]. destruct (query_kwargs "input_filepath" VNone kw); try discriminate.
  - apply Ok_inj in H. injection H as <- <-. auto.
  - destruct (fs_get (e_fs ev) s) as [e|]; [|discriminate]. apply bind_ok in H as (v & _ & H). apply bind_ok in H as (o2 & Hs & H).
    apply Ok_inj in H. injection H as <- <-. cbn [fst] in Hs. apply set_params_obj_inv in Hs as [I2 _]; auto.
Qed.

(** ** Every reachable object satisfies the invariant *)
Lemma set_radius_obj_inv o r h o' h' : obj_inv o -> set_kernel_radius o r h = Ok (o', h') -> obj_inv o'.
Proof.
  intros (P1 & P2 & P3 & _ & P5 & P6 & P7 & P8 & P9 & P10) H. apply set_radius_inv in H as (l & k & _ & Hk & U & _ & _ & Eo).
  apply get_kernel_odd in Hk as (q & Q & _). unfold obj_inv. cbv zeta.
  rewrite Eo. cbn [o_core o_inst o_peaks set_layers ext int_ pm thr idl wl].
  repeat (split; [assumption|]). split; [|repeat split; assumption].
  exists q, k. split; [exact Q|]. unfold uses_kernel in *. rewrite Eo in U at 1 2 3. exact U.
Qed.

Lemma with_nb_inv o l kp : obj_inv o -> obj_inv (with_nb o l kp).
Proof. intros H. exact H. Qed.

Lemma nat_value_size n : as_size (nat_value n) = Ok n.
Proof. apply as_size_of. Qed.

Lemma pmode_str_inv m : as_pmode (VStr (pmode_str m)) = Ok m.
Proof. destruct m; reflexivity. Qed.

Lemma make_config_inst o h : let '(p, o', h') := make_config o h in
  o_core o' = o_core o /\ o_kpar o' = o_kpar o /\ o_radius o' = o_radius o /\ o_peaks o' = o_peaks o /\
  p_inst p = Some (o_inst o') /\ p_dt p = Some (dt (o_core o)) /\ p_id p = None /\
  query_kwargs "conv_mode" (VStr "circular") (o_inst o') = VStr (pmode_str (pm (o_core o))) /\
  query_kwargs "internal_channels" (VInt 1) (o_inst o') = nat_value (int_ (o_core o)) /\
  query_kwargs "external_channels" (VInt 1) (o_inst o') = nat_value (ext (o_core o)) /\
  query_kwargs "kernel_peaks" (VInt 3) (o_inst o') = nat_value (o_peaks o) /\
  query_kwargs "kernel_radius" (VInt 13) (o_inst o') = o_radius o /\
  (forall k dv, k <> "conv_mode" -> k <> "internal_channels" -> k <> "external_channels" -> k <> "kernel_peaks" -> k <> "kernel_radius" ->
     query_kwargs k dv (o_inst o') = query_kwargs k dv (o_inst o)).
Proof.
  unfold make_config. cbv zeta. cbn [o_core o_kpar o_radius o_peaks o_inst p_inst p_dt p_id].
  repeat (split; [reflexivity|]).
  split; [rewrite !query_dset_neq by discriminate; apply query_dset_eq|].
  split; [apply query_dset_eq|].
  split; [rewrite !query_dset_neq by discriminate; apply query_dset_eq|].
  split; [rewrite !query_dset_neq by discriminate; apply query_dset_eq|].
  split; [rewrite !query_dset_neq by discriminate; apply query_dset_eq|].
  intros k dv N1 N2 N3 N4 N5. rewrite !query_dset_neq by auto. reflexivity.
Qed.

Lemma make_config_obj_inv o h p o' h' : obj_inv o -> make_config o h = (p, o', h') -> obj_inv o'.
Proof.
  intros (P1 & P2 & P3 & P4 & P5 & P6 & P7 & P8 & P9 & P10) H. pose proof (make_config_inst o h) as M. rewrite H in M.
  destruct M as (E1 & _ & _ & E4 & _ & _ & _ & Q1 & Q2 & Q3 & Q4 & _ & Q6).
  unfold obj_inv. cbv zeta. rewrite E1, E4, Q1, Q2, Q3, Q4, Q6 by discriminate. repeat (split; [assumption|]).
  rewrite pmode_str_inv, !nat_value_size. repeat split; try reflexivity. exact P9.
Qed.

Lemma run_cop_inv fuel rng w k w' : obj_inv (w_obj w) -> run_cop fuel rng w k = Ok w' -> obj_inv (w_obj w').
Proof.
  intros I H. destruct w as [o h ev]. cbn [w_obj] in I. destruct k; cbn [run_cop w_obj w_heap w_env] in H.
  - apply bind_ok in H as (o' & Hs & H). apply Ok_inj in H. subst w'. apply set_params_obj_inv in Hs as [A _]; auto.
  - apply bind_ok in H as ([o' h'] & Hs & H). apply Ok_inj in H. subst w'. eapply set_radius_obj_inv; eauto.
  - apply bind_ok in H as ([o' h'] & Hs & H). apply Ok_inj in H. subst w'. unfold set_kernel_config in Hs. cbv zeta in Hs.
    apply bind_ok in Hs as (kp & _ & Hs). apply bind_ok in Hs as (rv & _ & Hs). eapply set_radius_obj_inv; [|exact Hs]. exact I.
  - apply Ok_inj in H. subst w'. exact I.
  - destruct (make_config o h) as [[p o'] h'] eqn:E. apply Ok_inj in H. subst w'. eapply make_config_obj_inv; eauto.
  - unfold save_config in H. destruct (make_config o h) as [[p o'] h'] eqn:E. apply Ok_inj in H. subst w'. eapply make_config_obj_inv; eauto.
  - apply bind_ok in H as ([o' h'] & Hs & H). apply Ok_inj in H. subst w'.
    apply (load_with_inv (init fuel ev rng) o cf h o' h' (init_inv fuel ev rng) I) in Hs as (A & _). exact A.
  - apply bind_ok in H as ([o' h'] & Hs & H). apply Ok_inj in H. subst w'.
    apply (restore_with_inv (init fuel ev rng) ev o path h o' h' (init_inv fuel ev rng) I) in Hs as (A & _). exact A.
Qed.

Lemma run_cops_inv fuel rng ks : forall w w', obj_inv (w_obj w) -> run_cops fuel rng w ks = Ok w' -> obj_inv (w_obj w').
Proof.
  induction ks as [|k t IH]; intros w w' I H; cbn [run_cops] in H; [apply Ok_inj in H; subst; exact I|].
  apply bind_ok in H as (w1 & H1 & H). eapply IH; [|exact H]. eapply run_cop_inv; eauto.
Qed.

Lemma obj_inv_wf o : obj_inv o -> cca_wf (o_core o) /\ mirror_v (o_core o) /\ mirror_h (o_core o) /\ mirror_t (o_core o) /\
  cl_m (idl (o_core o)) = pm (o_core o) /\ cl_m (nbl (o_core o)) = pm (o_core o).
Proof.
  intros (P1 & P2 & (r1 & k1 & (S1 & W1 & R1) & L1) & (r2 & k2 & (S2 & W2 & R2) & L2) & P5 & _). unfold uses_kernel in L2.
  destruct (layer_of_kernel _ _ _ k1 r1 _ P1 P2 S1 L1) as (A1 & A2 & A3). destruct (layer_of_kernel _ _ _ k2 r2 _ P1 P2 S2 L2) as (B1 & B2 & B3).
  destruct (layer_sym _ _ _ k1 _ r1 P1 P2 S1 L1) as (V1 & H1 & T1). destruct (layer_sym _ _ _ k2 _ r2 P1 P2 S2 L2) as (V2 & H2 & T2).
  destruct (radial_sym r1 k1 S1 R1) as (X1 & X2 & X3). destruct (radial_sym r2 k2 S2 R2) as (Y1 & Y2 & Y3).
  split; [split; [exact A1|split; [exact B1|exact (wl_init_wf _ _ _ _ P1 P2 P5)]]|].
  split; [split; auto|]. split; [split; auto|]. split; [split; auto|]. auto.
Qed.
