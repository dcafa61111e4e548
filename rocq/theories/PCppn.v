(** Proofs about pattern networks and parameter agents. *)
From Coq Require Import Reals Lra Lia List Arith Bool ZArith.
From Verif Require Import Base Tensor PTensor MActivations MCommon PAct MUtils PUtils MCppn SCppn.
Import ListNotations.
Open Scope R_scope.

(** ** Agents *)
Lemma clamp_filter x : filtered_value x (clamp (1 / 10000) 1 (Rabs x)).
Proof.
  unfold filtered_value, clamp. unfold Rmin, Rmax. destruct (Rle_dec (Rabs x) (1 / 10000)), (Rle_dec (1 / 10000) 1); try lra.
  destruct (Rle_dec (Rabs x) 1); lra.
Qed.

Lemma agent_set_spec a p : ag_num (agent_set a p) = ag_num a /\ ag_filter (agent_set a p) = ag_filter a /\
  (ag_filter a = false -> agent_get (agent_set a p) = p) /\
  (ag_filter a = true -> Forall2 filtered_value p (agent_get (agent_set a p))).
Proof.
  unfold agent_set, agent_get. cbn [ag_num ag_filter ag_params]. split; [reflexivity|]. split; [reflexivity|]. split; intros ->.
  - reflexivity.
  - induction p as [|x p IH]; [constructor|]. cbn [map]. constructor; [apply clamp_filter|exact IH].
Qed.

(** A filtered vector is a fixed point: setting it again, or acting, changes nothing. *)
Lemma filter_fix x y : filtered_value x y -> clamp (1 / 10000) 1 (Rabs y) = y /\ Rabs y = y.
Proof.
  intros (H & _). assert (E : Rabs y = y) by (apply Rabs_pos_eq; lra). rewrite E. split; [|reflexivity].
  unfold clamp, Rmin, Rmax. destruct (Rle_dec y (1 / 10000)), (Rle_dec (1 / 10000) 1); try lra; destruct (Rle_dec y 1); lra.
Qed.

Lemma agent_idem a p : let a' := agent_set a p in agent_set a' (agent_get a') = a' /\ agent_action a' = (agent_get a', a').
Proof.
  cbv zeta. unfold agent_action, agent_get. destruct (agent_set_spec a p) as (_ & F & _ & T).
  unfold agent_set, agent_get in *. cbn [ag_num ag_filter ag_params] in *. destruct (ag_filter a) eqn:E; [|split; reflexivity].
  specialize (T eq_refl).
  assert (M1 : map (fun x => clamp (1 / 10000) 1 (Rabs x)) (map (fun x => clamp (1 / 10000) 1 (Rabs x)) p) = map (fun x => clamp (1 / 10000) 1 (Rabs x)) p
    /\ map Rabs (map (fun x => clamp (1 / 10000) 1 (Rabs x)) p) = map (fun x => clamp (1 / 10000) 1 (Rabs x)) p).
  { clear T. induction p as [|x p [IH1 IH2]]; [split; reflexivity|]. cbn [map].
    destruct (filter_fix x _ (clamp_filter x)) as [F1 F2]. split; f_equal; assumption. }
  destruct M1 as [M1 M2]. split; [now rewrite M1|now rewrite M2].
Qed.

(** ** Parameters of a network *)
Lemma take_exact_inv n p a b : take_exact n p = Ok (a, b) -> p = (a ++ b)%list /\ List.length a = n.
Proof.
  unfold take_exact. destruct (Nat.leb_spec n (List.length p)); cbn [guard bind]; [|discriminate].
  intros E. injection E as <- <-. split; [symmetry; apply firstn_skipn|]. apply firstn_length_le. exact H.
Qed.

Lemma take_exact_ok n p : (n <= List.length p)%nat -> take_exact n p = Ok (firstn n p, skipn n p).
Proof. intros H. unfold take_exact. destruct (Nat.leb_spec n (List.length p)); [reflexivity|lia]. Qed.

Lemma take_exact_short n p : (List.length p < n)%nat -> take_exact n p = Err ValueError.
Proof. intros H. unfold take_exact. destruct (Nat.leb_spec n (List.length p)); [lia|reflexivity]. Qed.

Lemma one_elem (l : list R) : List.length l = 1%nat -> l = [nth 0 l 0].
Proof. destruct l as [|x [|y t]]; cbn; intros; try lia. reflexivity. Qed.

Definition same_dims (l l' : clayer) : Prop :=
  li_in (cl_lin l) = li_in (cl_lin l') /\ li_out (cl_lin l) = li_out (cl_lin l') /\
  List.length (li_w (cl_lin l)) = List.length (li_w (cl_lin l')) /\ List.length (li_b (cl_lin l)) = List.length (li_b (cl_lin l')).

Lemma layers_set_inv ls p ls' rest : layers_set ls p = Ok (ls', rest) ->
  p = (flat_map layer_params ls' ++ rest)%list /\ Forall2 same_dims ls ls'.
Proof.
  revert p ls' rest. induction ls as [|l t IH]; intros p ls' rest H; cbn [layers_set] in H.
  - injection H as <- <-. split; [reflexivity|constructor].
  - apply bind_ok in H as ([w q1] & H1 & H). apply bind_ok in H as ([b q2] & H2 & H).
    apply bind_ok in H as ([m q3] & H3 & H). apply bind_ok in H as ([s q4] & H4 & H).
    apply bind_ok in H as ([r q5] & H5 & H). cbn [fst snd] in *. injection H as <- <-.
    apply take_exact_inv in H1 as [-> L1]. apply take_exact_inv in H2 as [-> L2].
    apply take_exact_inv in H3 as [-> L3]. apply take_exact_inv in H4 as [-> L4].
    destruct (IH _ _ _ H5) as [-> F]. cbn [flat_map]. unfold layer_params at 2. cbn [cl_lin cl_mu cl_sigma li_w li_b].
    split.
    + rewrite (one_elem m L3) at 1. rewrite (one_elem s L4) at 1. rewrite <- !app_assoc. reflexivity.
    + constructor; [|exact F]. unfold same_dims. cbn [cl_lin li_in li_out li_w li_b]. auto.
Qed.

Lemma params_len_dims ls ls' : Forall2 same_dims ls ls' -> List.length (flat_map layer_params ls) = List.length (flat_map layer_params ls').
Proof.
  induction 1 as [|l l' t t' (D1 & D2 & D3 & D4) F IH]; [reflexivity|]. cbn [flat_map]. rewrite !app_length, IH. f_equal.
  unfold layer_params. rewrite !app_length, D3, D4. reflexivity.
Qed.

Lemma layers_set_ok ls p : (List.length (flat_map layer_params ls) <= List.length p)%nat -> exists r, layers_set ls p = Ok r.
Proof.
  revert p. induction ls as [|l t IH]; intros p H; cbn [layers_set]; [eexists; reflexivity|].
  cbn [flat_map] in H. unfold layer_params in H at 1. rewrite !app_length in H. cbn [List.length] in H.
  rewrite take_exact_ok by lia. cbn [bind snd]. rewrite take_exact_ok by (rewrite skipn_length; lia). cbn [bind snd].
  rewrite take_exact_ok by (rewrite !skipn_length; lia). cbn [bind snd]. rewrite take_exact_ok by (rewrite !skipn_length; lia). cbn [bind snd].
  edestruct IH as (r & ->); [|cbn [bind]; eexists; reflexivity]. rewrite !skipn_length. lia.
Qed.

Lemma layers_set_short ls p : (List.length p < List.length (flat_map layer_params ls))%nat -> layers_set ls p = Err ValueError.
Proof.
  revert p. induction ls as [|l t IH]; intros p H; cbn [layers_set]; [cbn in H; lia|].
  cbn [flat_map] in H. unfold layer_params in H at 1. rewrite !app_length in H. cbn [List.length] in H.
  destruct (Nat.lt_ge_cases (List.length p) (List.length (li_w (cl_lin l)))) as [K|K]; [rewrite take_exact_short by exact K; reflexivity|].
  rewrite (take_exact_ok _ p) by exact K. cbn [bind snd].
  set (p1 := skipn _ p). assert (L1 : List.length p1 = (List.length p - List.length (li_w (cl_lin l)))%nat) by apply skipn_length.
  destruct (Nat.lt_ge_cases (List.length p1) (List.length (li_b (cl_lin l)))) as [K1|K1]; [rewrite take_exact_short by exact K1; reflexivity|].
  rewrite (take_exact_ok _ p1) by exact K1. cbn [bind snd].
  set (p2 := skipn _ p1). assert (L2 : List.length p2 = (List.length p1 - List.length (li_b (cl_lin l)))%nat) by apply skipn_length.
  destruct (Nat.lt_ge_cases (List.length p2) 1) as [K2|K2]; [rewrite take_exact_short by exact K2; reflexivity|].
  rewrite (take_exact_ok _ p2) by exact K2. cbn [bind snd].
  set (p3 := skipn _ p2). assert (L3 : List.length p3 = (List.length p2 - 1)%nat) by apply skipn_length.
  destruct (Nat.lt_ge_cases (List.length p3) 1) as [K3|K3]; [rewrite take_exact_short by exact K3; reflexivity|].
  rewrite (take_exact_ok _ p3) by exact K3. cbn [bind snd].
  set (p4 := skipn _ p3). assert (L4 : List.length p4 = (List.length p3 - 1)%nat) by apply skipn_length.
  rewrite IH by lia. reflexivity.
Qed.

Lemma cppn_set_get c p c' : cppn_set_params c p = Ok c' ->
  cppn_get_params c' = firstn (List.length (cppn_get_params c)) p /\ cp_ext c' = cp_ext c /\ cp_dim c' = cp_dim c /\
  (forall h, cppn_wf c h -> cppn_wf c' h).
Proof.
  intros H. unfold cppn_set_params in H. apply bind_ok in H as ([ls rest] & H1 & H). injection H as <-. cbn [fst].
  apply layers_set_inv in H1 as [-> F]. unfold cppn_get_params. cbn [cp_layers cp_ext cp_dim].
  rewrite (params_len_dims _ _ F). rewrite firstn_app, Nat.sub_diag, firstn_O, app_nil_r, firstn_all.
  split; [reflexivity|]. split; [reflexivity|]. split; [reflexivity|].
  intros h (l1 & l2 & l3 & l4 & E & W1 & W2 & W3 & W4). rewrite E in F.
  inversion F as [|? m1 ? t1 D1 F1]; subst. inversion F1 as [|? m2 ? t2 D2 F2]; subst. inversion F2 as [|? m3 ? t3 D3 F3]; subst.
  inversion F3 as [|? m4 ? t4 D4 F4]; subst. inversion F4; subst.
  exists m1, m2, m3, m4. cbn [cp_layers cp_ext]. unfold layer_of, same_dims in *. intuition congruence.
Qed.

Lemma cppn_set_accepts c p : if Nat.ltb (List.length p) (List.length (cppn_get_params c)) then cppn_set_params c p = Err ValueError
  else exists c', cppn_set_params c p = Ok c'.
Proof.
  unfold cppn_set_params, cppn_get_params. destruct (Nat.ltb_spec (List.length p) (List.length (flat_map layer_params (cp_layers c)))) as [H|H].
  - rewrite layers_set_short by exact H. reflexivity.
  - destruct (layers_set_ok _ _ H) as (r & ->). cbn [bind]. eexists. reflexivity.
Qed.

Lemma layer_params_inj l l' : same_dims l l' -> layer_params l = layer_params l' -> l = l'.
Proof.
  destruct l as [[i o w b] m s], l' as [[i' o' w' b'] m' s']. unfold same_dims, layer_params. cbn.
  intros (-> & -> & L1 & L2) E.
  assert (E1 : w = w' /\ (b ++ [m; s] = b' ++ [m'; s'])%list).
  { clear L2. revert w' L1 E. induction w as [|x w IH]; intros [|x' w'] L1 E; cbn in L1; try lia; [auto|].
    cbn in E. injection E as -> E. destruct (IH w' ltac:(lia) E) as [-> ?]. auto. }
  destruct E1 as [-> E1].
  assert (E2 : b = b' /\ ([m; s] = [m'; s'])%list).
  { clear L1 E. revert b' L2 E1. induction b as [|x b IH]; intros [|x' b'] L2 E1; cbn in L2; try lia; [auto|].
    cbn in E1. injection E1 as -> E1. destruct (IH b' ltac:(lia) E1) as [-> ?]. auto. }
  destruct E2 as [-> E2]. injection E2 as -> ->. reflexivity.
Qed.

Lemma flat_params_inj ls ls' : Forall2 same_dims ls ls' -> flat_map layer_params ls = flat_map layer_params ls' -> ls = ls'.
Proof.
  induction 1 as [|l l' t t' D F IH]; [reflexivity|]. cbn [flat_map]. intros E.
  assert (L : List.length (layer_params l) = List.length (layer_params l')).
  { destruct D as (_ & _ & D3 & D4). unfold layer_params. rewrite !app_length, D3, D4. reflexivity. }
  assert (S : layer_params l = layer_params l' /\ flat_map layer_params t = flat_map layer_params t').
  { revert L E. generalize (layer_params l) (layer_params l') (flat_map layer_params t) (flat_map layer_params t'). clear.
    intros a. induction a as [|x a IH]; intros [|y b] u v L E; cbn in L; try lia; [auto|].
    cbn in E. injection E as -> E. destruct (IH b u v ltac:(lia) E) as [-> ?]. auto. }
  destruct S as [S1 S2]. f_equal; [now apply layer_params_inj|auto].
Qed.

Lemma cppn_set_self c : cppn_set_params c (cppn_get_params c) = Ok c.
Proof.
  unfold cppn_set_params, cppn_get_params. destruct (layers_set_ok (cp_layers c) (flat_map layer_params (cp_layers c)) ltac:(lia)) as ([ls rest] & H).
  rewrite H. cbn [bind fst]. apply layers_set_inv in H as [E F].
  pose proof (params_len_dims _ _ F) as L. pose proof (f_equal (@List.length R) E) as L2. rewrite app_length in L2.
  assert (rest = []) by (destruct rest; [reflexivity|cbn in L2; lia]). subst rest. rewrite app_nil_r in E.
  rewrite <- (flat_params_inj _ _ F E). destruct c; reflexivity.
Qed.

Lemma cppn_wf_length c h : cppn_wf c h -> List.length (cppn_get_params c) = cppn_size (cp_ext c) h.
Proof.
  intros (l1 & l2 & l3 & l4 & E & (_ & _ & A1 & A2) & (_ & _ & B1 & B2) & (_ & _ & C1 & C2) & (_ & _ & D1 & D2)).
  unfold cppn_get_params. rewrite E. cbn [flat_map]. rewrite !app_length. unfold layer_params. rewrite !app_length, A1, A2, B1, B2, C1, C2, D1, D2.
  cbn [List.length]. unfold cppn_size. lia.
Qed.

Lemma cppn_init_wf e h d w b c : cppn_init e h d w b = Ok c -> cppn_wf c h /\ cp_ext c = e /\ cp_dim c = d /\
  (forall l, In l (cp_layers c) -> cl_mu l = 0 /\ cl_sigma l = 1 / 10).
Proof.
  unfold cppn_init. intros H. apply bind_ok in H as (i & _ & H). injection H as <-. cbn [cp_ext cp_dim]. split; [|split; [reflexivity|split; [reflexivity|]]].
  - unfold cppn_wf. cbn [cp_ext cp_layers]. unfold init_model. cbn [seq map nth cppn_dims fst snd].
    do 4 eexists. split; [reflexivity|]. unfold layer_of, new_layer. cbn [cl_lin li_in li_out li_w li_b fst snd].
    rewrite !map_length, !seq_length. tauto.
  - cbn [cp_layers]. intros l Hl. unfold init_model in Hl. apply in_map_iff in Hl as (k & <- & _). split; reflexivity.
Qed.

Lemma plus_set_get s p s' : plus_set_params s p = Ok s' ->
  let n := List.length (cppn_get_params (pl_cppn s)) in
  cppn_get_params (pl_cppn s') = firstn n p /\ pl_agent s' = agent_set (pl_agent s) (skipn n p) /\
  (ag_filter (pl_agent s) = false -> plus_get_params s' = p) /\
  (forall h, cppn_wf (pl_cppn s) h -> cppn_wf (pl_cppn s') h).
Proof.
  intros H. unfold plus_set_params in H. apply bind_ok in H as ([ls rest] & H1 & H). injection H as <-. cbn [fst snd pl_cppn pl_agent]. cbv zeta.
  assert (H2 : cppn_set_params (pl_cppn s) p = Ok (mkCppn (cp_ext (pl_cppn s)) (cp_dim (pl_cppn s)) ls)) by (unfold cppn_set_params; rewrite H1; reflexivity).
  destruct (cppn_set_get _ _ _ H2) as (G & _ & _ & W). apply layers_set_inv in H1 as [-> F].
  unfold cppn_get_params in *. cbn [cp_layers] in *. rewrite (params_len_dims _ _ F).
  assert (S : skipn (List.length (flat_map layer_params ls)) (flat_map layer_params ls ++ rest) = rest)
    by (rewrite skipn_app, skipn_all, Nat.sub_diag; reflexivity).
  split; [|split; [|split]].
  - rewrite firstn_app, Nat.sub_diag, firstn_O, app_nil_r, firstn_all. reflexivity.
  - now rewrite S.
  - intros E. unfold plus_get_params, cppn_get_params. cbn [pl_cppn pl_agent cp_layers]. f_equal.
    apply (proj1 (proj2 (proj2 (agent_set_spec (pl_agent s) rest)))). exact E.
  - exact W.
Qed.

Lemma plus_set_accepts s p : if Nat.ltb (List.length p) (List.length (cppn_get_params (pl_cppn s))) then plus_set_params s p = Err ValueError
  else exists s', plus_set_params s p = Ok s'.
Proof.
  unfold plus_set_params, cppn_get_params. destruct (Nat.ltb_spec (List.length p) (List.length (flat_map layer_params (cp_layers (pl_cppn s))))) as [H|H].
  - rewrite layers_set_short by exact H. reflexivity.
  - destruct (layers_set_ok _ _ H) as (r & ->). cbn [bind]. eexists. reflexivity.
Qed.

(** ** The input *)
Lemma ceil_between x z : IZR z - 1 < x <= IZR z -> ceil x = z.
Proof.
  intros [H1 H2]. unfold ceil, Int_part. rewrite <- (up_tech (- x) (- z)); [lia| |].
  - rewrite opp_IZR. lra.
  - rewrite plus_IZR, opp_IZR. lra.
Qed.

Lemma INR_ge2 d : (2 <= d)%nat -> 2 <= INR d.
Proof. intros H. apply le_INR in H. cbn [INR] in H. lra. Qed.

Lemma cppn_len d : (2 <= d)%nat -> cppn_axis_len d = d.
Proof.
  intros Hd. unfold cppn_axis_len, arange_len. pose proof (INR_ge2 d Hd) as H2.
  replace ((1 + 2 / INR d - -1) / (2 / (INR d - 1))) with (INR d - / INR d) by (field; lra).
  assert (P : 0 < / INR d) by (apply Rinv_0_lt_compat; lra). assert (Q : / INR d < 1) by (rewrite <- Rinv_1; apply Rinv_lt_contravar; lra).
  rewrite (ceil_between _ (Z.of_nat d)); [lia|]. rewrite <- INR_IZR_INZ. lra.
Qed.

Lemma cppn_x_along d k : (2 <= d)%nat -> cppn_x d k = along d k.
Proof. intros Hd. pose proof (INR_ge2 d Hd). unfold cppn_x, along. field. lra. Qed.

Lemma along_range d k : (2 <= d)%nat -> (k < d)%nat -> -1 <= along d k <= 1.
Proof.
  intros Hd Hk. pose proof (INR_ge2 d Hd) as H2. assert (K : INR k <= INR d - 1) by (replace (INR d - 1) with (INR (d - 1)) by (rewrite minus_INR by lia; cbn; lra); apply le_INR; lia).
  pose proof (pos_INR k). unfold along. split.
  - apply Rmult_le_reg_r with (INR d - 1); [lra|]. unfold Rdiv. rewrite Rmult_assoc, Rinv_l by lra. lra.
  - apply Rmult_le_reg_r with (INR d - 1); [lra|]. unfold Rdiv. rewrite Rmult_assoc, Rinv_l by lra. lra.
Qed.

Lemma along_mirror d k : (2 <= d)%nat -> (k < d)%nat -> along d (d - 1 - k) = - along d k.
Proof.
  intros Hd Hk. pose proof (INR_ge2 d Hd). unfold along. rewrite !minus_INR by lia. change (INR 1) with 1. field. lra.
Qed.

Lemma cppn_r_rho d i j : (2 <= d)%nat -> cppn_r d i j = rho d i j.
Proof. intros Hd. unfold cppn_r, rho. rewrite !cppn_x_along by exact Hd. f_equal. ring. Qed.

Lemma rho_range d i j : (2 <= d)%nat -> (i < d)%nat -> (j < d)%nat -> 0 <= rho d i j <= 2.
Proof.
  intros Hd Hi Hj. unfold rho. split; [apply sqrt_pos|]. pose proof (along_range d i Hd Hi). pose proof (along_range d j Hd Hj).
  replace 2 with (sqrt (2 * 2)) by (apply sqrt_square; lra). apply sqrt_le_1_alt. nra.
Qed.

Lemma fold_max_ge l : forall x, x <= fold_left Rmax l x.
Proof. induction l as [|y l IH]; intros x; cbn; [lra|]. eapply Rle_trans; [apply (Rmax_l x y)|apply IH]. Qed.

Lemma fold_max_in l : forall x y, In y l -> y <= fold_left Rmax l x.
Proof.
  induction l as [|z l IH]; intros x y H; [destruct H|]. cbn. destruct H as [->|H]; [|now apply IH].
  eapply Rle_trans; [apply (Rmax_r x y)|apply fold_max_ge].
Qed.

Lemma fold_max_attained l : forall x, fold_left Rmax l x = x \/ In (fold_left Rmax l x) l.
Proof.
  induction l as [|y l IH]; intros x; cbn; [now left|]. destruct (IH (Rmax x y)) as [E|H]; [|auto].
  rewrite E. unfold Rmax. destruct (Rle_dec x y); auto.
Qed.

Lemma lmax_ge l y : In y l -> y <= lmax l.
Proof. destruct l as [|x t]; [intros []|]. cbn. intros [->|H]; [apply fold_max_ge|now apply fold_max_in]. Qed.

Lemma lmax_in l : l <> [] -> In (lmax l) l.
Proof. destruct l as [|x t]; [congruence|]. intros _. cbn. destruct (fold_max_attained t x) as [->|H]; auto. Qed.

Lemma grid_in n (f : nat -> nat -> R) v : In v (flat_map (fun i => map (fun j => f i j) (seq 0 n)) (seq 0 n)) <->
  exists i j, (i < n)%nat /\ (j < n)%nat /\ v = f i j.
Proof.
  rewrite in_flat_map. split.
  - intros (i & Hi & H). apply in_map_iff in H as (j & <- & Hj). apply in_seq in Hi, Hj. exists i, j. split; [lia|]. split; [lia|reflexivity].
  - intros (i & j & Hi & Hj & ->). exists i. split; [apply in_seq; lia|]. apply in_map_iff. exists j. split; [reflexivity|apply in_seq; lia].
Qed.

Lemma gmax_ge n f i j : (i < n)%nat -> (j < n)%nat -> f i j <= gmax n f.
Proof. intros Hi Hj. apply lmax_ge. apply grid_in. now exists i, j. Qed.

Lemma gmax_attained n f : (0 < n)%nat -> exists i j, (i < n)%nat /\ (j < n)%nat /\ gmax n f = f i j.
Proof.
  intros Hn. apply grid_in. apply lmax_in. intros E.
  assert (H : In (f 0%nat 0%nat) (flat_map (fun i => map (fun j => f i j) (seq 0 n)) (seq 0 n))) by (apply grid_in; now exists 0%nat, 0%nat).
  rewrite E in H. destruct H.
Qed.

Lemma gmax_eq n f m : (exists i j, (i < n)%nat /\ (j < n)%nat /\ f i j = m) -> (forall i j, (i < n)%nat -> (j < n)%nat -> f i j <= m) -> gmax n f = m.
Proof.
  intros (i & j & Hi & Hj & E) U. apply Rle_antisym.
  - destruct (gmax_attained n f ltac:(lia)) as (i' & j' & Hi' & Hj' & ->). now apply U.
  - rewrite <- E. now apply gmax_ge.
Qed.

(** From 47 pixels on, there is a pixel close enough to the middle for all three sines. *)
Lemma near_middle d : (47 <= d)%nat -> exists k, (k < d)%nat /\ 0 < along d k /\ along d k <= 2 / 46.
Proof.
  intros Hd. exists ((d + 1) / 2)%nat. pose proof (Nat.div_mod (d + 1) 2 ltac:(lia)) as D. pose proof (Nat.mod_upper_bound (d + 1) 2 ltac:(lia)) as M.
  set (k := ((d + 1) / 2)%nat) in *. assert (K1 : (d <= 2 * k)%nat) by lia. assert (K2 : (2 * k <= d + 1)%nat) by lia.
  split; [lia|]. apply le_INR in K1, K2, Hd. rewrite mult_INR in K1, K2. rewrite plus_INR in K2.
  replace (INR 47) with 47 in Hd by (cbn; lra). change (INR 1) with 1 in K2. replace (INR 2) with 2 in K1, K2 by (cbn; lra).
  unfold along. split.
  - apply Rdiv_lt_0_compat; lra.
  - apply Rmult_le_reg_r with (INR d - 1); [lra|]. unfold Rdiv at 1. rewrite Rmult_assoc, Rinv_l by lra. lra.
Qed.

Lemma eps6_pos : 0 < eps6.
Proof. unfold eps6. lra. Qed.

Lemma sqrt_double a : 0 <= a -> sqrt (a * a + a * a) = sqrt 2 * a.
Proof. intros H. replace (a * a + a * a) with (2 * (a * a)) by ring. rewrite sqrt_mult by nra. rewrite sqrt_square by exact H. reflexivity. Qed.

Lemma sqrt2_upper : sqrt 2 < 142 / 100.
Proof. rewrite <- (sqrt_square (142 / 100)) by lra. apply sqrt_lt_1; lra. Qed.

Lemma sqrt2_pos : 0 < sqrt 2.
Proof. apply sqrt_lt_R0. lra. Qed.

Lemma sinr_max_pos d k : (47 <= d)%nat -> 0 < k <= 16 -> 0 < gmax d (sinr d k).
Proof.
  intros Hd Hk. destruct (near_middle d Hd) as (m & Hm & H1 & H2).
  eapply Rlt_le_trans; [|apply (gmax_ge d (sinr d k) m m Hm Hm)]. unfold sinr. rewrite cppn_r_rho by lia. unfold rho.
  rewrite sqrt_double by lra. pose proof sqrt2_upper as S. pose proof sqrt2_pos as S0. pose proof eps6_pos.
  set (r := sqrt 2 * along d m). assert (R1 : 0 < r) by (unfold r; nra). assert (R2 : r < 1 / 16) by (unfold r; nra).
  apply Rdiv_lt_0_compat; [|lra]. apply sin_gt_0.
  - apply Rmult_lt_0_compat; [|lra]. apply Rmult_lt_0_compat; [exact R1|exact PI_RGT_0].
  - assert (r * k < 1) by nra. replace (r * PI * k) with (r * k * PI) by ring. pose proof PI_RGT_0. nra.
Qed.

Lemma nonzero_true x : x <> 0 -> nonzero x = true.
Proof. intros H. unfold nonzero. destruct (Req_EM_T x 0); [contradiction|reflexivity]. Qed.

Lemma cppn_input_ok d e : (47 <= d)%nat -> exists g rr, cppn_input d e = Ok (g, rr) /\
  shape g = (1%nat, (16 * 2 ^ (e - 1))%nat, d, d) /\ shape rr = (1%nat, (2 ^ (e - 1))%nat, d, d).
Proof.
  intros Hd. unfold cppn_input. destruct (Nat.eqb_spec d 0); [lia|]. destruct (Nat.eqb_spec d 1); [lia|]. cbn [negb andb guard bind].
  rewrite cppn_len by lia. rewrite !nonzero_true; [| | |]; try (apply Rgt_not_eq, sinr_max_pos; [exact Hd|lra]).
  cbn [andb guard bind]. do 2 eexists. split; [reflexivity|]. split; reflexivity.
Qed.

Lemma cppn_input_inv d e g rr : cppn_input d e = Ok (g, rr) -> (2 <= d)%nat /\
  g = build 1 (16 * 2 ^ (e - 1)) d d (fun _ c i j => nth (c mod 16) (cppn_channels d d) (fun _ _ => 0) i j) /\
  rr = build 1 (2 ^ (e - 1)) d d (fun _ _ i j => rho d i j).
Proof.
  intros H. unfold cppn_input in H. destruct (Nat.eqb_spec d 0); [discriminate|]. destruct (Nat.eqb_spec d 1); [discriminate|]. cbn [negb andb guard bind] in H.
  rewrite cppn_len in H by lia. apply bind_ok in H as ([] & _ & H). cbv zeta in H.
  assert (E : (2 <= d)%nat) by lia. split; [exact E|].
  pose proof (f_equal (fun r => match r with Ok (a, _) => a | Err _ => g end) H) as E1.
  pose proof (f_equal (fun r => match r with Ok (_, b) => b | Err _ => rr end) H) as E2. cbv beta iota in E1, E2.
  split; [now rewrite E1|]. rewrite <- E2. apply build_ext. intros. apply cppn_r_rho. exact E.
Qed.

Lemma cppn_input_small e : cppn_input 0 e = Err ZeroDivisionError /\ cppn_input 1 e = Err ZeroDivisionError.
Proof. split; reflexivity. Qed.

(** Three pixels: the radii are 0, 1 and the square root of 2, where no sine is positive. *)
Lemma sin_period_neg x (k : nat) : PI < x - 2 * INR k * PI < 2 * PI -> sin x < 0.
Proof. intros H. replace x with ((x - 2 * INR k * PI) + 2 * INR k * PI) by ring. rewrite sin_period. apply sin_lt_0; lra. Qed.

Lemma sqrt2_lower : 141 / 100 < sqrt 2.
Proof. rewrite <- (sqrt_square (141 / 100)) by lra. apply sqrt_lt_1; lra. Qed.

Lemma cppn_three e : cppn_input 3 e = Err NonFinite.
Proof.
  unfold cppn_input. cbn [Nat.eqb negb andb guard bind]. rewrite cppn_len by lia.
  assert (Z : gmax 3 (sinr 3 8) = 0).
  { apply gmax_eq.
    - exists 1%nat, 1%nat. split; [lia|]. split; [lia|]. unfold sinr. rewrite cppn_r_rho by lia. unfold rho, along.
      replace (INR 1) with 1 by reflexivity. replace (INR 3) with 3 by (cbn; lra).
      replace ((2 * 1 - (3 - 1)) / (3 - 1)) with 0 by lra. rewrite Rmult_0_l, Rplus_0_l, sqrt_0, !Rmult_0_l, sin_0. unfold Rdiv. ring.
    - intros i j Hi Hj. unfold sinr. rewrite cppn_r_rho by lia.
      assert (A : forall k, (k < 3)%nat -> along 3 k * along 3 k = 0 \/ along 3 k * along 3 k = 1).
      { intros k Hk. unfold along. destruct k as [|[|[|k]]]; try lia; cbn [INR]; [right|left|right]; lra. }
      assert (Q : rho 3 i j = 0 \/ rho 3 i j = 1 \/ rho 3 i j = sqrt 2).
      { unfold rho. destruct (A i Hi) as [-> | ->], (A j Hj) as [-> | ->].
        - left. replace (0 + 0) with 0 by ring. apply sqrt_0.
        - right. left. replace (0 + 1) with 1 by ring. apply sqrt_1.
        - right. left. replace (1 + 0) with 1 by ring. apply sqrt_1.
        - right. right. f_equal; ring. }
      pose proof eps6_pos as E6. pose proof PI_RGT_0 as PP.
      destruct Q as [-> | [-> | ->]].
      + rewrite !Rmult_0_l, sin_0. unfold Rdiv. lra.
      + replace (1 * PI * 8) with (0 + 2 * INR 4 * PI) by (cbn; ring). rewrite sin_period, sin_0. unfold Rdiv. lra.
      + assert (S : sin (sqrt 2 * PI * 8) < 0).
        { apply (sin_period_neg _ 5). replace (INR 5) with 5 by (cbn; lra). pose proof sqrt2_lower. pose proof sqrt2_upper.
          split; nra. }
        pose proof sqrt2_pos. assert (I : 0 < / (sqrt 2 + eps6)) by (apply Rinv_0_lt_compat; lra). unfold Rdiv. nra. }
  assert (N : nonzero (gmax 3 (sinr 3 8)) = false) by (unfold nonzero; destruct (Req_EM_T (gmax 3 (sinr 3 8)) 0); [reflexivity|contradiction]).
  rewrite N, andb_false_r. reflexivity.
Qed.

(** ** The action *)
Lemma net_range ls x : ls <> [] -> Forall (fun v => 0 < v <= 1) (net ls x).
Proof.
  intros Hne. destruct (exists_last Hne) as (t & l & ->). unfold net. rewrite fold_left_app. cbn [fold_left].
  unfold layer_apply1. apply Forall_forall. intros v Hv. apply in_map_iff in Hv as (y & <- & _). apply gauss_range.
Qed.

Lemma net_nth ls x o : ls <> [] -> 0 <= nth o (net ls x) 0 <= 1.
Proof.
  intros Hne. destruct (Nat.lt_ge_cases o (List.length (net ls x))) as [H|H].
  - pose proof (net_range ls x Hne) as F. rewrite Forall_forall in F. pose proof (F _ (nth_In _ 0 H)). lra.
  - rewrite nth_overflow by exact H. lra.
Qed.

Lemma pow_dim e : (e = 2 ^ (e - 1))%nat <-> e = 1%nat \/ e = 2%nat.
Proof.
  split; [|intros [-> | ->]; reflexivity]. destruct e as [|[|[|e]]]; [discriminate|auto|auto|].
  intros H. exfalso. assert (G : (e + 3 < 2 ^ (e + 2))%nat).
  { clear H. induction e as [|e IH]; [cbn; lia|]. replace (S e + 2)%nat with (S (e + 2)) by lia. rewrite Nat.pow_succ_r'. lia. }
  replace (S (S (S e)) - 1)%nat with (e + 2)%nat in H by lia. lia.
Qed.

Lemma usable_all c : usable c -> forallb (fun l => nonzero (eps9 + cl_sigma l)) (cp_layers c) = true.
Proof. intros H. apply forallb_forall. intros l Hl. apply nonzero_true. exact (H l Hl). Qed.

Lemma fits_wf c h n : cppn_wf c h -> net_fits (cp_layers c) n = Nat.eqb n (16 * cp_ext c).
Proof.
  intros (l1 & l2 & l3 & l4 & -> & (A1 & A2 & _) & (B1 & B2 & _) & (C1 & C2 & _) & (D1 & D2 & _)).
  cbn [net_fits]. rewrite A1, A2, B1, B2, C1, C2, D1, !Nat.eqb_refl. now rewrite !andb_true_r.
Qed.

Lemma cppn_wf_ne c h : cppn_wf c h -> cp_layers c <> [].
Proof. intros (l1 & l2 & l3 & l4 & -> & _). discriminate. Qed.

Lemma tzip_build f B C H W g h : tzip f (build B C H W g) (build B C H W h) = Ok (build B C H W (fun b c i j => f (g b c i j) (h b c i j))).
Proof.
  unfold tzip. cbn [build tB tC tH tW]. rewrite !bdim_refl. cbn [bind]. f_equal. apply build_ext. intros b c i j Hb Hc Hi Hj.
  rewrite !bget_get by assumption. rewrite !get_build by assumption. reflexivity.
Qed.

(** What an action is, pixel by pixel. *)
Lemma action_eq c h d : cppn_wf c h -> cp_dim c = d -> forall g rr, cppn_input d (cp_ext c) = Ok (g, rr) -> usable c ->
  (cp_ext c = 1%nat \/ cp_ext c = 2%nat) ->
  cppn_get_action c = Ok (build 1 (cp_ext c) d d (fun _ o i j =>
    let v := nth o (net (cp_layers c) (map (fun ch => get g 0 ch i j) (seq 0 (16 * cp_ext c)))) 0 * (1 - rho d i j) ^ 2 in
    Rmax 0 (if Rle_dec (3 / 4) (rho d i j) then v * (1 / 1000000) else v))).
Proof.
  intros W Hd g rr Hi U He. unfold cppn_get_action. rewrite Hd, Hi. cbn [bind fst snd]. unfold cppn_action.
  destruct (cppn_input_inv _ _ _ _ Hi) as (D2 & Eg & Err). apply pow_dim in He.
  assert (Cg : tC g = (16 * cp_ext c)%nat) by (rewrite Eg; cbn [build tC]; lia).
  assert (Sg : shape g = (1%nat, (16 * cp_ext c)%nat, d, d)) by (rewrite Eg; unfold shape; cbn [build tB tC tH tW]; rewrite <- He; reflexivity).
  apply shape4 in Sg as (G1 & G2 & G3 & G4).
  rewrite (fits_wf c h _ W), Cg, Nat.eqb_refl. cbn [guard bind]. rewrite (usable_all c U). cbn [guard bind].
  rewrite G1, G3, G4. rewrite <- He in Err.
  rewrite Err, !tzip_build. cbn [bind]. rewrite tzip_build. cbn [bind]. rewrite tmap_build. f_equal. apply build_ext.
  intros b o i j Hb Ho Hi' Hj. assert (B0 : b = 0%nat) by lia. subst b. reflexivity.
Qed.

Lemma action_channels c h : cppn_wf c h -> usable c -> (47 <= cp_dim c)%nat ->
  (cp_ext c = 1%nat \/ cp_ext c = 2%nat -> exists t, cppn_get_action c = Ok t /\ shape t = (1%nat, cp_ext c, cp_dim c, cp_dim c)) /\
  (cp_ext c <> 1%nat -> cp_ext c <> 2%nat -> cppn_get_action c = Err RuntimeError).
Proof.
  intros W U Hd. destruct (cppn_input_ok (cp_dim c) (cp_ext c) Hd) as (g & rr & Hi & Sg & _). split.
  - intros He. rewrite (action_eq c h (cp_dim c) W eq_refl g rr Hi U He). eexists. split; [reflexivity|]. reflexivity.
  - intros N1 N2. unfold cppn_get_action. rewrite Hi. cbn [bind fst snd]. unfold cppn_action. rewrite (fits_wf c h _ W).
    apply shape4 in Sg as (_ & -> & _). destruct (Nat.eqb_spec (16 * 2 ^ (cp_ext c - 1)) (16 * cp_ext c)) as [E|]; [|reflexivity].
    exfalso. assert (cp_ext c = 2 ^ (cp_ext c - 1))%nat by lia. apply pow_dim in H. tauto.
Qed.

Lemma action_bounds c h t : cppn_wf c h -> cppn_get_action c = Ok t ->
  shape t = (1%nat, cp_ext c, cp_dim c, cp_dim c) /\
  forall o i j, (o < cp_ext c)%nat -> (i < cp_dim c)%nat -> (j < cp_dim c)%nat ->
    0 <= get t 0 o i j <= 1 /\ get t 0 o i j <= (1 - rho (cp_dim c) i j) ^ 2 /\
    (3 / 4 <= rho (cp_dim c) i j -> get t 0 o i j <= (1 - rho (cp_dim c) i j) ^ 2 / 1000000).
Proof.
  intros W H. pose proof H as H0. unfold cppn_get_action in H0. apply bind_ok in H0 as ([g rr] & Hi & H0). cbn [fst snd] in H0.
  unfold cppn_action in H0. apply bind_ok in H0 as ([] & F & H0). apply guard_ok in F. rewrite (fits_wf c h _ W) in F. apply Nat.eqb_eq in F.
  apply bind_ok in H0 as ([] & U & _). apply guard_ok in U. rewrite forallb_forall in U.
  destruct (cppn_input_inv _ _ _ _ Hi) as (D2 & Eg & Err).
  assert (Us : usable c). { intros l Hl E. specialize (U l Hl). unfold nonzero in U. destruct (Req_EM_T (eps9 + cl_sigma l) 0); [discriminate|contradiction]. }
  assert (He : cp_ext c = 1%nat \/ cp_ext c = 2%nat). { apply pow_dim. rewrite Eg in F. cbn [build tC] in F. lia. }
  rewrite (action_eq c h (cp_dim c) W eq_refl g rr Hi Us He) in H. apply (f_equal (fun r => match r with Ok a => a | Err _ => t end)) in H. cbv beta iota in H. subst t.
  split; [reflexivity|]. intros o i j Ho Hi' Hj. rewrite get_build by lia. cbv zeta.
  pose proof (rho_range (cp_dim c) i j D2 Hi' Hj) as Rr. 
  match goal with |- context [nth o ?L 0] => pose proof (net_nth (cp_layers c) (map (fun ch => get g 0 ch i j) (seq 0 (16 * cp_ext c))) o (cppn_wf_ne c h W)) as V; set (v := nth o L 0) in * end.
  set (q := (1 - rho (cp_dim c) i j) ^ 2). assert (Q : 0 <= q <= 1) by (unfold q; split; [apply pow2_ge_0|nra]).
  assert (VQ : 0 <= v * q <= q) by nra.
  destruct (Rle_dec (3 / 4) (rho (cp_dim c) i j)); rewrite Rmax_right by lra; (split; [|split]); try lra.
Qed.

(** ** The channels *)
Lemma channel_column d c i i' j : In c [0; 2; 4; 5; 6; 8; 10; 12]%nat ->
  nth c (cppn_channels d d) (fun _ _ => 0) i j = nth c (cppn_channels d d) (fun _ _ => 0) i' j.
Proof. intros [<-|[<-|[<-|[<-|[<-|[<-|[<-|[<-|[]]]]]]]]]; reflexivity. Qed.

Lemma channel_row d c i j j' : In c [3; 7; 9; 11]%nat ->
  nth c (cppn_channels d d) (fun _ _ => 0) i j = nth c (cppn_channels d d) (fun _ _ => 0) i j'.
Proof. intros [<-|[<-|[<-|[<-|[]]]]]; reflexivity. Qed.

Lemma cppn_r_sym d i j : cppn_r d i j = cppn_r d j i.
Proof. unfold cppn_r. f_equal. ring. Qed.

Lemma cppn_r_mirror d i j : (2 <= d)%nat -> (j < d)%nat -> cppn_r d i (d - 1 - j) = cppn_r d i j.
Proof. intros Hd Hj. rewrite !cppn_r_rho by exact Hd. unfold rho. rewrite along_mirror by assumption. f_equal. ring. Qed.

Lemma channel_radial d c i j : (2 <= d)%nat -> In c [1; 13; 14; 15]%nat -> (j < d)%nat ->
  let f := nth c (cppn_channels d d) (fun _ _ => 0) in f i j = f j i /\ f i (d - 1 - j)%nat = f i j.
Proof.
  intros Hd Hc Hj. cbv zeta. assert (S : forall k, sinr d k i j = sinr d k j i /\ sinr d k i (d - 1 - j) = sinr d k i j).
  { intros k. unfold sinr. rewrite (cppn_r_sym d j i), cppn_r_mirror by assumption. split; reflexivity. }
  destruct Hc as [<-|[<-|[<-|[<-|[]]]]]; cbn [nth cppn_channels].
  - rewrite (cppn_r_sym d j i), cppn_r_mirror by assumption. split; reflexivity.
  - destruct (S 4) as [-> ->]. split; reflexivity.
  - destruct (S 8) as [-> ->]. split; reflexivity.
  - destruct (S 16) as [-> ->]. split; reflexivity.
Qed.

Lemma along_ends d : (2 <= d)%nat -> along d 0 = -1 /\ along d (d - 1) = 1.
Proof. intros Hd. pose proof (INR_ge2 d Hd). unfold along. rewrite minus_INR by lia. cbn [INR]. split; field; lra. Qed.

Lemma gmax_ext n f g : (forall i j, (i < n)%nat -> (j < n)%nat -> f i j = g i j) -> (0 < n)%nat -> gmax n f = gmax n g.
Proof.
  intros E Hn. apply gmax_eq.
  - destruct (gmax_attained n g Hn) as (i & j & Hi & Hj & ->). exists i, j. auto.
  - intros i j Hi Hj. rewrite E by assumption. now apply gmax_ge.
Qed.

(** All channels are at most 1, from 47 pixels on. *)
Lemma channel_le d c i j : (47 <= d)%nat -> (c < 16)%nat -> (i < d)%nat -> (j < d)%nat -> nth c (cppn_channels d d) (fun _ _ => 0) i j <= 1.
Proof.
  intros Hd Hc Hi Hj.
  assert (D2 : (2 <= d)%nat) by lia.
  assert (NR : forall f, 0 < gmax d f -> f i j / gmax d f <= 1).
  { intros f P. apply Rmult_le_reg_r with (gmax d f); [exact P|]. unfold Rdiv. rewrite Rmult_assoc, Rinv_l, Rmult_1_r, Rmult_1_l by lra. now apply gmax_ge. }
  pose proof (along_range d i D2 Hi) as Ai. pose proof (along_range d j D2 Hj) as Aj. pose proof (along_ends d D2) as [_ A1].
  pose proof (cppn_x_along d (d - 1) D2) as X1. rewrite A1 in X1.
  destruct c as [|[|[|[|[|[|[|[|[|[|[|[|[|[|[|[|c]]]]]]]]]]]]]]]]; [cbn [nth cppn_channels]..|lia].
  - rewrite cppn_x_along by exact D2. lra.
  - pose proof (rho_range d i j D2 Hi Hj). rewrite cppn_r_rho by exact D2. lra.
  - rewrite cppn_x_along by exact D2. apply Rabs_le. lra.
  - rewrite cppn_x_along by exact D2. apply Rabs_le. lra.
  - apply (NR (fun _ j => Rpower 2 (cppn_x d j))). eapply Rlt_le_trans; [|apply (gmax_ge d _ i j Hi Hj)]. cbv beta. apply exp_pos.
  - apply (NR (fun _ j => cppn_x d j ^ 2)). eapply Rlt_le_trans; [|apply (gmax_ge d _ i (d - 1)%nat Hi ltac:(lia))]. cbv beta. rewrite X1. lra.
  - apply (NR (fun _ j => cppn_x d j ^ 3)). eapply Rlt_le_trans; [|apply (gmax_ge d _ i (d - 1)%nat Hi ltac:(lia))]. cbv beta. rewrite X1. lra.
  - apply COS_bound.
  - apply SIN_bound.
  - apply COS_bound.
  - apply SIN_bound.
  - apply COS_bound.
  - apply SIN_bound.
  - apply (NR (sinr d 4)). apply sinr_max_pos; [exact Hd|lra].
  - apply (NR (sinr d 8)). apply sinr_max_pos; [exact Hd|lra].
  - apply (NR (sinr d 16)). apply sinr_max_pos; [exact Hd|lra].
Qed.

(** The normalised channels reach 1. *)
Lemma channel_peak d c : (47 <= d)%nat -> In c [4; 5; 6; 13; 14; 15]%nat -> exists i j, (i < d)%nat /\ (j < d)%nat /\ nth c (cppn_channels d d) (fun _ _ => 0) i j = 1.
Proof.
  intros Hd Hc. assert (D2 : (2 <= d)%nat) by lia.
  assert (PK : forall f, 0 < gmax d f -> exists i j, (i < d)%nat /\ (j < d)%nat /\ f i j / gmax d f = 1).
  { intros f P. destruct (gmax_attained d f ltac:(lia)) as (i & j & Hi & Hj & E). exists i, j. split; [exact Hi|]. split; [exact Hj|].
    rewrite <- E. unfold Rdiv. apply Rinv_r. lra. }
  pose proof (along_ends d D2) as [_ A1]. pose proof (cppn_x_along d (d - 1) D2) as X1. rewrite A1 in X1.
  destruct Hc as [<-|[<-|[<-|[<-|[<-|[<-|[]]]]]]]; cbn [nth cppn_channels].
  - apply (PK (fun _ j => Rpower 2 (cppn_x d j))). eapply Rlt_le_trans; [|apply (gmax_ge d _ 0%nat 0%nat ltac:(lia) ltac:(lia))]. cbv beta. apply exp_pos.
  - apply (PK (fun _ j => cppn_x d j ^ 2)). eapply Rlt_le_trans; [|apply (gmax_ge d _ 0%nat (d - 1)%nat ltac:(lia) ltac:(lia))]. cbv beta. rewrite X1. lra.
  - apply (PK (fun _ j => cppn_x d j ^ 3)). eapply Rlt_le_trans; [|apply (gmax_ge d _ 0%nat (d - 1)%nat ltac:(lia) ltac:(lia))]. cbv beta. rewrite X1. lra.
  - apply (PK (sinr d 4)). apply sinr_max_pos; [exact Hd|lra].
  - apply (PK (sinr d 8)). apply sinr_max_pos; [exact Hd|lra].
  - apply (PK (sinr d 16)). apply sinr_max_pos; [exact Hd|lra].
Qed.

Lemma gmax_is d f : (0 < d)%nat -> grid_max d f (gmax d f).
Proof.
  intros Hd. split; [intros; now apply gmax_ge|]. destruct (gmax_attained d f Hd) as (i & j & Hi & Hj & E). exists i, j. auto.
Qed.

Lemma grid_max_ext d f g m : (forall i j, f i j = g i j) -> grid_max d f m -> grid_max d g m.
Proof.
  intros E [U (i & j & Hi & Hj & A)]. split; [intros; rewrite <- E; now apply U|]. exists i, j. rewrite <- E. auto.
Qed.

Lemma sinr_ripple d k i j : (2 <= d)%nat -> sinr d k i j = ripple d k i j.
Proof. intros Hd. unfold sinr, ripple, eps6. rewrite cppn_r_rho by exact Hd. do 2 f_equal. ring. Qed.

Lemma sinr_scaled d k i j : (2 <= d)%nat -> scaled d (ripple d k) i j (sinr d k i j / gmax d (sinr d k)).
Proof.
  intros Hd. exists (gmax d (sinr d k)). split.
  - apply (grid_max_ext d (sinr d k)); [intros; now apply sinr_ripple|]. apply gmax_is. lia.
  - now rewrite sinr_ripple.
Qed.

Lemma feature_ok d c i j : (2 <= d)%nat -> (c < 16)%nat -> (i < d)%nat -> (j < d)%nat ->
  feature d c i j (nth c (cppn_channels d d) (fun _ _ => 0) i j).
Proof.
  intros Hd Hc Hi Hj. pose proof (along_ends d Hd) as [_ A1].
  assert (MX : forall f : R -> R, (forall x, -1 <= x <= 1 -> f x <= f 1) -> gmax d (fun _ j => f (cppn_x d j)) = f 1).
  { intros f M. apply gmax_eq.
    - exists 0%nat, (d - 1)%nat. split; [lia|]. split; [lia|]. rewrite cppn_x_along, A1 by exact Hd. reflexivity.
    - intros a b Ha Hb. rewrite cppn_x_along by exact Hd. apply M. now apply along_range. }
  destruct c as [|[|[|[|[|[|[|[|[|[|[|[|[|[|[|[|c]]]]]]]]]]]]]]]]; [cbn [nth cppn_channels feature]..|lia];
    try (apply sinr_scaled; exact Hd); rewrite ?cppn_x_along, ?cppn_r_rho by exact Hd; try reflexivity.
  - rewrite (MX (fun x => Rpower 2 x)); [|].
    + unfold Rpower, Rdiv. rewrite <- exp_Ropp, <- exp_plus. f_equal. ring.
    + intros x Hx. unfold Rpower. destruct (Req_dec x 1) as [->|N]; [lra|]. left. apply exp_increasing. pose proof ln_lt_2. nra.
  - rewrite (MX (fun x => x ^ 2)); [field|]. intros x Hx. nra.
  - rewrite (MX (fun x => x ^ 3)); [field|]. intros x Hx. nra.
  - f_equal. ring.
  - f_equal. ring.
  - f_equal. ring.
  - f_equal. ring.
Qed.

Lemma net_feeds ls : forall x, feeds ls x (net ls x).
Proof.
  induction ls as [|l ls IH]; intros x; [constructor|]. unfold net. cbn [fold_left]. apply feeds_cons with (layer_apply1 x l); [| |apply IH].
  - unfold layer_apply1, lin_apply. rewrite !map_length, seq_length. reflexivity.
  - intros o Ho. unfold layer_apply1, lin_apply. rewrite map_map. erewrite nth_indep by (rewrite map_length, seq_length; exact Ho).
    rewrite (map_nth (fun o => gauss (cl_mu l) (cl_sigma l) (rsum (li_in (cl_lin l)) (fun i => nth (o * li_in (cl_lin l) + i) (li_w (cl_lin l)) 0 * nth i x 0) + nth o (li_b (cl_lin l)) 0)) _ 0%nat o).
    rewrite seq_nth by exact Ho. cbn [Nat.add]. unfold gauss, eps9. rewrite (Rplus_comm (cl_sigma l)).
    match goal with |- exp (- ?a / 2) = exp (- (1 / 2) * ?b) => change b with a end. f_equal. lra.
Qed.

(** The value of every pixel: the network of its features, damped away from the middle. *)
Lemma action_value c h t : cppn_wf c h -> cppn_get_action c = Ok t ->
  forall o i j, (o < cp_ext c)%nat -> (i < cp_dim c)%nat -> (j < cp_dim c)%nat ->
  exists x y : list R, (List.length x = 16 * cp_ext c)%nat /\
    (forall k, (k < 16 * cp_ext c)%nat -> feature (cp_dim c) (k mod 16) i j (nth k x 0)) /\
    feeds (cp_layers c) x y /\
    get t 0 o i j = nth o y 0 * (1 - rho (cp_dim c) i j) ^ 2 * (if Rle_dec (3 / 4) (rho (cp_dim c) i j) then / 1000000 else 1).
Proof.
  intros W H o i j Ho Hi' Hj. pose proof H as H0. unfold cppn_get_action in H0. apply bind_ok in H0 as ([g rr] & Hi & H0). cbn [fst snd] in H0.
  unfold cppn_action in H0. apply bind_ok in H0 as ([] & F & H0). apply guard_ok in F. rewrite (fits_wf c h _ W) in F. apply Nat.eqb_eq in F.
  apply bind_ok in H0 as ([] & U & _). apply guard_ok in U. rewrite forallb_forall in U.
  destruct (cppn_input_inv _ _ _ _ Hi) as (D2 & Eg & Err).
  assert (Us : usable c). { intros l Hl E. specialize (U l Hl). unfold nonzero in U. destruct (Req_EM_T (eps9 + cl_sigma l) 0); [discriminate|contradiction]. }
  assert (E2 : (16 * 2 ^ (cp_ext c - 1) = 16 * cp_ext c)%nat) by (rewrite Eg in F; exact F).
  assert (He : cp_ext c = 1%nat \/ cp_ext c = 2%nat) by (apply pow_dim; lia).
  rewrite (action_eq c h (cp_dim c) W eq_refl g rr Hi Us He) in H. apply (f_equal (fun r => match r with Ok a => a | Err _ => t end)) in H. cbv beta iota in H. subst t.
  rewrite get_build by lia. cbv zeta.
  exists (map (fun ch => get g 0 ch i j) (seq 0 (16 * cp_ext c))), (net (cp_layers c) (map (fun ch => get g 0 ch i j) (seq 0 (16 * cp_ext c)))).
  split; [now rewrite map_length, seq_length|]. split; [|split; [apply net_feeds|]].
  - intros k Hk. erewrite nth_indep by (rewrite map_length, seq_length; exact Hk).
    rewrite (map_nth (fun ch => get g 0 ch i j) _ 0%nat k), seq_nth by exact Hk. cbn [Nat.add]. rewrite Eg, get_build by lia.
    apply feature_ok; [exact D2| |exact Hi'|exact Hj]. apply Nat.mod_upper_bound. lia.
  - pose proof (net_nth (cp_layers c) (map (fun ch => get g 0 ch i j) (seq 0 (16 * cp_ext c))) o (cppn_wf_ne c h W)) as V.
    set (v := nth o _ 0) in *. pose proof (pow2_ge_0 (1 - rho (cp_dim c) i j)) as Q. set (q := (1 - rho (cp_dim c) i j) ^ 2) in *.
    assert (VQ : 0 <= v * q) by nra. destruct (Rle_dec (3 / 4) (rho (cp_dim c) i j)); rewrite Rmax_right by lra; lra.
Qed.
