(** Exceptions and small facts about single operations that no other file states. *)
From Coq Require Import Reals Lra Lia List Arith Bool ZArith String.
From Verif Require Import Base PyDict Tensor MActivations MKernels MCommon MCca MConfig MRd MNca MEvo MLibrarian MWrap SGrid SCca SKern
  PTensor PStep PAct PKern PKernX PNca PEvo.
Import ListNotations.
Open Scope R_scope.

(** ** C11: the mask by itself, for every number of channels *)
Theorem C11_mask thr u : twf u ->
  ((4 <= tC u)%nat -> exists v, alive_mask thr u = Ok v /\ shape v = shape u /\ twf v /\
     forall b c i j, (b < tB u)%nat -> (c < tC u)%nat -> (i < tH u)%nat -> (j < tW u)%nat ->
       get v b c i j = if Rlt_dec thr (get u b 3 i j) then get u b c i j else 0) /\
  (tC u = 2%nat \/ tC u = 3%nat -> alive_mask thr u = Err RuntimeError) /\
  ((tC u <= 1)%nat -> exists v, alive_mask thr u = Ok v /\ shape v = (tB u, 0, tH u, tW u)%nat).
Proof.
  intros Hu. split; [|split].
  - intros H4. destruct (mask_if_cell thr) as [M _]. specialize (M u Hu). unfold mask_if in M. rewrite (proj2 (Nat.leb_le 4 (tC u)) H4) in M.
    rewrite M. eexists. split; [reflexivity|]. split; [reflexivity|]. split; [apply twf_build|]. intros b c i j Hb Hc Hi Hj. rewrite get_build by assumption.
    unfold mask_fn. rewrite (proj2 (Nat.leb_le 4 (tC u)) H4). destruct (Rlt_dec thr (get u b 3 i j)); ring.
  - intros H. unfold alive_mask. replace (Nat.min 4 (tC u) - 3)%nat with 0%nat by lia. unfold tzip. cbn [tB tC tH tW build]. rewrite !bdim_refl. cbn [bind].
    destruct H as [-> | ->]; reflexivity.
  - intros H. unfold alive_mask. replace (Nat.min 4 (tC u) - 3)%nat with 0%nat by lia. unfold tzip. cbn [tB tC tH tW build]. rewrite !bdim_refl. cbn [bind].
    assert (E : bdim (tC u) 0 = Ok 0%nat) by (destruct (tC u) as [|[|n]]; [reflexivity|reflexivity|lia]). rewrite E. cbn [bind]. eexists. split; reflexivity.
Qed.

Example C11_mask_example : exists v, alive_mask (1 / 2) (mkT 1 4 1 1 [1; 2; 3; 1]) = Ok v /\ get v 0 1 0 0 = 2.
Proof.
  destruct (C11_mask (1 / 2) (mkT 1 4 1 1 [1; 2; 3; 1]) eq_refl) as [H _]. destruct (H ltac:(cbn; lia)) as (v & E & _ & _ & G). exists v. split; [exact E|].
  rewrite G by (cbn; lia). destruct (Rlt_dec _ _) as [_|N]; [reflexivity|]. exfalso. apply N. cbn. lra.
Qed.

(** ** C32: the name a configuration is saved under *)
Lemma ends_with_iff suf s : ends_with suf s = true <-> exists x, s = (x ++ suf)%string.
Proof.
  induction s as [|a s IH]; cbn [ends_with].
  - destruct (String.eqb_spec "" suf) as [E|E].
    + split; [intros _; exists ""%string; rewrite <- E; reflexivity|reflexivity].
    + split; [discriminate|]. intros (x & H). destruct x as [|? ?]; [|discriminate]. cbn in H. contradiction.
  - destruct (String.eqb_spec (String a s) suf) as [E|E].
    + split; [intros _; exists ""%string; rewrite <- E; reflexivity|reflexivity].
    + rewrite IH. split.
      * intros (x & ->). exists (String a x). reflexivity.
      * intros (x & H). destruct x as [|b x]; [contradiction|]. injection H as -> H. exists x. exact H.
Qed.

Theorem C32_name path : ((exists x, path = (x ++ ".npy")%string) -> npy path = path) /\
  ((forall x, path <> (x ++ ".npy")%string) -> npy path = (path ++ ".npy")%string).
Proof.
  unfold npy. split.
  - intros H. apply ends_with_iff in H. rewrite H. reflexivity.
  - intros H. destruct (ends_with ".npy" path) eqn:E; [|reflexivity]. apply ends_with_iff in E. destruct E as (x & E). destruct (H x E).
Qed.

Example C32_name_example : npy "rules/orbium.npy" = "rules/orbium.npy"%string /\ npy "rules/orbium" = "rules/orbium.npy"%string.
Proof. split; reflexivity. Qed.

(** ** C15: a double Gaussian needs two means and two deviations *)
Theorem C15_double_short mu s mode t : (List.length mu < 2)%nat \/ (List.length s < 2)%nat -> act_apply (ADoubleGaussian mu s mode) t = Err IndexError.
Proof.
  intros H. unfold act_apply, act_ok. assert (E : Nat.leb 2 (List.length mu) && Nat.leb 2 (List.length s) = false).
  { destruct (Nat.leb_spec 2 (List.length mu)); destruct (Nat.leb_spec 2 (List.length s)); try reflexivity. lia. }
  rewrite E. reflexivity.
Qed.

(** ** C20: the profile of the edge kernels *)
Theorem C20_edge_profile r mu s (mode : bool) dx k :
  (get_gaussian_edge_kernel r mu s mode dx = Ok k ->
   fitted r (fun i j => act_fn (AGaussian mu s false) (edge_dist r mode dx i j) - act_fn (AGaussian mu s false) (edge_dist r mode (- dx) i j)) k) /\
  (get_dogaussian_edge_kernel r mu s mode dx = Ok k ->
   fitted r (fun i j => act_fn (ADoGaussian mu s (1 / 100) false) (edge_dist r mode dx i j) - act_fn (ADoGaussian mu s (1 / 100) false) (edge_dist r mode (- dx) i j)) k).
Proof. split; intros H; apply edge_kernel_inv in H as (_ & _ & F); exact F. Qed.

(** ** C26: the single-value setters of reaction-diffusion models change nothing else *)
Theorem C26_rd_setters s x :
  rd_get_params (rd_set_du s x) = x :: tl (rd_get_params s) /\
  (exists a b c d, rd_get_params s = [a; b; c; d] /\ rd_get_params (rd_set_dv s x) = [a; x; c; d]) /\
  rd_get_params (rd_set_dx s x) = rd_get_params s /\ rd_get_params (rd_set_dt s x) = rd_get_params s /\
  rd_dx (rd_set_dx s x) = x /\ rd_dt (rd_set_dt s x) = x /\ rd_dt (rd_set_dx s x) = rd_dt s /\ rd_dx (rd_set_dt s x) = rd_dx s /\
  forall s', In s' [rd_set_du s x; rd_set_dv s x; rd_set_dx s x; rd_set_dt s x] ->
    rd_idl s' = rd_idl s /\ rd_nbl s' = rd_nbl s /\ rd_idcfg s' = rd_idcfg s /\ rd_cfg s' = rd_cfg s /\ rd_radius s' = rd_radius s.
Proof.
  split; [reflexivity|]. split; [do 4 eexists; split; reflexivity|]. repeat (split; [reflexivity|]).
  intros s' [<-|[<-|[<-|[<-|[]]]]]; repeat split.
Qed.

(** ** C42: the squares of the initial activation parameters *)
Theorem C42_squared_activation : (forall m s md, act_squared (AGaussian m s md) = AGaussian (m * m) (s * s) md) /\
  (forall a, act_params a = [] -> act_squared a = a).
Proof.
  split.
  - intros m s md. cbn [act_squared]. unfold sq. f_equal; ring.
  - intros a H. destruct a; try reflexivity. discriminate H.
Qed.

(** ** C86: exceptions on malformed inputs *)
Theorem C86_expand O I k : expand O I k = Err RuntimeError <-> (tB k <> 1 /\ tB k <> O \/ tC k <> 1 /\ tC k <> I)%nat.
Proof.
  unfold expand. destruct (Nat.eqb_spec (tB k) 1); destruct (Nat.eqb_spec (tB k) O); destruct (Nat.eqb_spec (tC k) 1); destruct (Nat.eqb_spec (tC k) I); cbn [orb andb guard bind];
    (split; [intros H; first [discriminate H|lia]|intros H; first [reflexivity|lia]]).
Qed.

Theorem C86_expand_ok O I k e : expand O I k = Err e -> e = RuntimeError.
Proof. unfold expand. destruct ((Nat.eqb (tB k) 1 || Nat.eqb (tB k) O) && (Nat.eqb (tC k) 1 || Nat.eqb (tC k) I)); cbn [guard bind]; congruence. Qed.

Theorem C86_cat_targets x y : List.length x <> List.length y -> cat_targets x y = Err RuntimeError.
Proof. intros H. unfold cat_targets. destruct (Nat.eqb_spec (List.length x) (List.length y)); [contradiction|reflexivity]. Qed.

Theorem C86_position_grids dim r : (r <> 0 -> exists xg yg, x_grid dim r = Ok xg /\ y_grid dim r = Ok yg /\ shape xg = (1, 1, dim, dim)%nat /\ shape yg = (1, 1, dim, dim)%nat /\ twf xg /\ twf yg) /\
  (r = 0 -> x_grid dim r = Err NonFinite /\ y_grid dim r = Err NonFinite).
Proof.
  unfold x_grid, y_grid. destruct (Req_EM_T r 0) as [E|E]; (split; intros H; [|try (split; reflexivity)]); try contradiction.
  do 2 eexists. repeat (split; [first [reflexivity|apply twf_build]|]). apply twf_build.
Qed.

(** Evolution: too small a population, and runs that end before the first generation. *)
Theorem C86_population s fitness v e : select (se_mode s) (se_keep s) (se_chance s (ev_time v)) fitness = Ok e -> (List.length (ev_pop v) < se_size s)%nat ->
  update_population s fitness v = Err IndexError.
Proof.
  intros Se L. unfold update_population. rewrite Se. cbn [bind]. destruct (forallb _ e); [|reflexivity]. cbn [guard bind].
  destruct (Nat.leb_spec (se_size s) (List.length (ev_pop v))); [lia|]. rewrite andb_false_r. reflexivity.
Qed.

Theorem C86_closing s v : (se_keep s <= List.length (ev_pop v))%nat ->
  (se_pattern s = true -> ev_params v = [] -> closing s v = Err IndexError) /\
  (forall l E, se_pattern s = true -> ev_params v = (l ++ [E])%list -> (se_keep s <= List.length E)%nat -> exists v', closing s v = Ok v' /\
     (forall k, (k < se_keep s)%nat -> nth k (ev_pop v') [] = nth k E []) /\ (forall k, (se_keep s <= k)%nat -> nth k (ev_pop v') [] = nth k (ev_pop v) [])) /\
  (se_pattern s = false -> se_gens s = 0%nat -> closing s v = Err UnboundLocalError).
Proof.
  intros K. unfold closing. rewrite (proj2 (Nat.leb_le _ _) K). cbn [guard bind]. split; [|split].
  - intros -> ->. reflexivity.
  - intros l E -> -> KE. assert (L : Nat.eqb (List.length (l ++ [E])) 0 = false) by (apply Nat.eqb_neq; rewrite app_length; cbn; lia). rewrite L. cbn [negb guard bind].
    rewrite last_last. unfold give_elites. rewrite (proj2 (Nat.leb_le _ _) K), (proj2 (Nat.leb_le _ _) KE). cbn [andb guard bind]. eexists. split; [reflexivity|]. cbn [ev_pop].
    split; intros k Hk; rewrite (fold_upd_seq _ (fun k => nth k E [])) by lia; cbn [Nat.leb andb Nat.add].
    + rewrite (proj2 (Nat.ltb_lt _ _) Hk). reflexivity.
    + rewrite (proj2 (Nat.ltb_ge _ _) Hk). reflexivity.
  - intros -> ->. reflexivity.
Qed.

(** Patterns and metadata stored as the wrong kind of file. *)
Theorem C86_library (A : Type) (d : dir A) name t a :
  (MLibrarian.dget d (name ++ ".npy") = Some (CText t) -> load d name = Err ValueError) /\
  (MLibrarian.dget d (name ++ ".npy") = Some (CArray a) -> MLibrarian.dget d (name ++ ".csv") = Some (CArray a) -> load d name = Err ValueError).
Proof. unfold load. split; [intros ->; reflexivity|intros -> ->; reflexivity]. Qed.

Example C86_examples :
  expand 3 2 (mkT 2 1 1 1 [1; 2]) = Err RuntimeError /\ cat_targets [1; 0] [1] = Err RuntimeError /\
  load [("a.npy", CText "x")]%string "a" = @Err (nat * meta) ValueError /\
  act_apply (ADoubleGaussian [1] [1; 2] false) (mkT 1 1 1 1 [0]) = Err IndexError.
Proof. repeat split. Qed.

Example C86_closing_example (s : setting) : se_size s = 8%nat -> se_pattern s = true ->
  closing s (mkEvo (repeat [0] 8) [] [] None [] [] [] 0) = Err IndexError /\
  exists v', closing s (mkEvo (repeat [0] 8) [] [] None [] [repeat [1] 8] [] 0) = Ok v' /\ nth 0 (ev_pop v') [] = [1].
Proof.
  intros S P. assert (K : (1 <= se_keep s <= 8)%nat) by (unfold se_keep; rewrite S; cbn; lia). split.
  - apply C86_closing; [exact (proj2 K)|exact P|reflexivity].
  - destruct (C86_closing s (mkEvo (repeat [0] 8) [] [] None [] [repeat [1] 8] [] 0) (proj2 K)) as (_ & H & _).
    destruct (H [] (repeat [1] 8) P eq_refl (proj2 K)) as (v' & E & G & _). exists v'. split; [exact E|]. rewrite G by lia. reflexivity.
Qed.
Print Assumptions C11_mask.
Print Assumptions C15_double_short.
Print Assumptions C20_edge_profile.
Print Assumptions C26_rd_setters.
Print Assumptions C42_squared_activation.
Print Assumptions C86_expand.
Print Assumptions C86_expand_ok.
Print Assumptions C86_cat_targets.
Print Assumptions C86_position_grids.
Print Assumptions C86_population.
Print Assumptions C86_closing.
Print Assumptions C86_library.
Print Assumptions C32_name.
