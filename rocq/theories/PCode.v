(** CODE step selection, RandomStepCA time, MetaCA momentum. *)
From Coq Require Import Reals Lra Lia List Arith Bool ZArith.
From Verif Require Import Base PyDict Tensor MActivations MKernels MCommon MCca SGrid SCca PTensor PStep PCca PSym PDyn PEqv.
Import ListNotations.
Open Scope R_scope.

(** Acceptance does not depend on dt or on cell values. *)
Lemma cca_total c d u u' v : cca_wf c -> twf u -> twf u' -> shape u' = shape u -> cca_forward c u = Ok v ->
  exists w, cca_forward (set_core_dt c d) u' = Ok w.
Proof.
  intros Hwf Hu Hu' Hs Hv. injection Hs as S1 S2 S3 S4.
  destruct (proj1 (cca_accepts c u Hwf Hu)) as (A1 & A2 & A3 & [A4 A4'] & [A5 A5'] & A6 & A7 & A8 & A9); [eauto|].
  apply (proj2 (cca_accepts (set_core_dt c d) u' Hwf Hu')). cbn [ext int_ idl nbl gens pers set_core_dt].
  unfold fits. rewrite S2, S3, S4. tauto.
Qed.

Lemma code_error_total c h u v : cca_wf c -> twf u -> (0 < tB u)%nat -> cca_forward c u = Ok v ->
  exists e, code_error c h u = Ok e.
Proof.
  intros Hwf Hu HB Hv.
  destruct (proj1 (cca_accepts c u Hwf Hu)) as (A1 & A2 & A3 & _); [eauto|].
  assert (He : (0 < ext c)%nat) by (destruct Hwf as ((_ & _ & _ & ? & _) & _); auto).
  unfold code_error, code_grid. change (step update_universe) with cca_forward.
  destruct (cca_total c h u u v) as [big Eb]; auto.
  destruct (cca_total c (h * (1 / 2)) u u v) as [s1 E1]; auto.
  rewrite Eb, E1. cbn [bind].
  apply cca_shape in Eb as [Sb Wb]; auto. apply cca_shape in E1 as [S1 W1]; auto.
  destruct (cca_total c (h * (1 / 2)) u s1 v) as [s2 E2]; auto. rewrite E2. cbn [bind].
  apply cca_shape in E2 as [S2 W2]; auto. rewrite tzip_same by congruence. cbn [bind].
  set (t := build _ _ _ _ _). assert (Ht : twf t) by apply twf_build.
  assert (Hl : List.length (tdata t) <> 0%nat).
  { unfold twf in Ht. rewrite Ht. injection Sb as B1 B2 B3 B4. simpl. rewrite B1, B2, B3, B4, A1.
    assert ((0 < tB u * ext c * tH u * tW u)%nat) by (repeat apply Nat.mul_pos_pos; auto). lia. }
  apply Nat.eqb_neq in Hl. rewrite Hl. cbn [negb guard bind]. eauto.
Qed.

Lemma tried_S h k : tried (h * (3 / 4)) k = tried h (S k).
Proof. unfold tried. simpl. ring. Qed.

Lemma tried_0 h : tried h 0 = h.
Proof. unfold tried. simpl. ring. Qed.

Lemma tried_dec h k : 0 <= h -> tried h k <= h.
Proof.
  intros Hh. unfold tried. rewrite <- (Rmult_1_r h) at 2. apply Rmult_le_compat_l; auto.
  induction k; simpl; [lra|]. assert (0 <= (3 / 4) ^ k) by (apply pow_le; lra). lra.
Qed.

Lemma tried_small h mn : 0 < mn -> exists n, tried h n < mn.
Proof.
  intros Hm. destruct (Rle_dec h 0) as [Hh|Hh].
  - exists 0%nat. rewrite tried_0. lra.
  - apply Rnot_le_lt in Hh. destruct (pow_lt_1_zero (3 / 4)) with (y := mn / h) as [N HN].
    + rewrite Rabs_right; lra.
    + apply Rdiv_lt_0_compat; lra.
    + exists N. specialize (HN N (le_n N)). rewrite Rabs_right in HN.
      * unfold tried. apply (Rmult_lt_compat_l h) in HN; auto. replace (h * (mn / h)) with mn in HN by (field; lra). auto.
      * apply Rle_ge, pow_le. lra.
Qed.

Lemma code_loop_total c mn th u : (forall h, exists e, code_error c h u = Ok e) ->
  forall n h fuel mse, tried h n < mn -> (n < fuel)%nat -> exists r, code_loop fuel c mn th h u mse = Ok r.
Proof.
  intros He n. induction n; intros h fuel mse Hn Hf; (destruct fuel; [lia|]); cbn [code_loop].
  - rewrite tried_0 in Hn. destruct (Rle_dec mn h); [lra|]. eauto.
  - destruct (Rle_dec mn h); [|eauto]. destruct (He h) as [e Ee]. rewrite Ee. cbn [bind].
    destruct (Rlt_dec e th); [eauto|]. apply IHn; [rewrite tried_S; auto|lia].
Qed.

Lemma code_loop_spec c mn th u : forall fuel h mse r, code_loop fuel c mn th h u mse = Ok r ->
  exists k,
  (forall i, (i < k)%nat -> mn <= tried h i /\ exists e, code_error c (tried h i) u = Ok e /\ th <= e) /\
  ((exists e, r = (Some (tried h k), Some e) /\ mn <= tried h k /\ code_error c (tried h k) u = Ok e /\ e < th)
   \/ (fst r = None /\ tried h k < mn /\ (k = 0%nat -> snd r = mse) /\ (k <> 0%nat -> snd r <> None))).
Proof.
  induction fuel; intros h mse r H; cbn [code_loop] in H; [discriminate|].
  destruct (Rle_dec mn h) as [Hle|Hle].
  - apply bind_ok in H as (e & Ee & H). destruct (Rlt_dec e th) as [Hlt|Hlt].
    + injection H as <-. exists 0%nat. split; [intros; lia|]. left. exists e. rewrite tried_0. auto.
    + apply IHfuel in H as (k & Hk & Hr). exists (S k). split.
      * intros i Hi. destruct i; [rewrite tried_0; split; auto; exists e; split; auto; lra|].
        rewrite <- tried_S. apply Hk. lia.
      * destruct Hr as [(e' & -> & A & B & C)|(A & B & C & D)].
        -- left. exists e'. rewrite <- tried_S. auto.
        -- right. rewrite <- tried_S. repeat split; auto; [lia|]. intros _.
           destruct k; [rewrite C by auto; discriminate|apply D; lia].
  - injection H as <-. exists 0%nat. split; [intros; lia|]. right. rewrite tried_0. cbn [fst snd].
    repeat split; auto; lra || (intros; congruence).
Qed.

(** The first step size tried. *)
Definition h0 (s : code_ca) : R := Rmin (cd_prev s * 2) (cd_max s).

Lemma code_forward_total s u v : cca_wf (cd_core s) -> twf u -> (0 < tB u)%nat ->
  cca_forward (cd_core s) u = Ok v -> 0 < cd_min s -> cd_min s <= 2 * cd_prev s -> cd_min s <= cd_max s ->
  exists N, forall fuel, (N < fuel)%nat -> exists s' u', code_forward fuel s u = Ok (s', u').
Proof.
  intros Hwf Hu HB Hv Hm Hp Hx. destruct (tried_small (h0 s) (cd_min s) Hm) as [N HN].
  exists N. intros fuel Hf. unfold code_forward. fold (h0 s).
  destruct (code_loop_total (cd_core s) (cd_min s) (cd_thr s) u) with (n := N) (h := h0 s) (fuel := fuel) (mse := @None R)
    as [r Hr]; auto.
  { intros h. eapply code_error_total; eauto. }
  rewrite Hr. cbn [bind]. apply code_loop_spec in Hr as (k & Hk & Hr).
  assert (Hh : cd_min s <= h0 s) by (apply Rmin_glb; lra).
  assert (Hs : snd r <> None).
  { destruct Hr as [(e & -> & _)|(A & B & C & D)]; [discriminate|]. apply D. intros ->. rewrite tried_0 in B. lra. }
  destruct (snd r); [|congruence].
  destruct (cca_total (cd_core s) (match fst r with Some h => h | None => cd_min s end) u u v) as [w Ew]; auto.
  unfold code_grid. unfold cca_forward in Ew. rewrite Ew. cbn [bind]. eauto.
Qed.

(** What a successful CODE call did. *)
Lemma code_forward_spec fuel s u s' u' : code_forward fuel s u = Ok (s', u') ->
  cd_core s' = set_core_dt (cd_core s) (cd_prev s') /\ cd_max s' = cd_max s /\ cd_min s' = cd_min s /\
  cd_thr s' = cd_thr s /\ cd_time s' = cd_time s + cd_prev s' /\ cd_dt s' = DtFloat (cd_prev s') /\
  cca_forward (set_core_dt (cd_core s) (cd_prev s')) u = Ok u' /\ cd_min s <= h0 s /\
  exists k,
   (forall i, (i < k)%nat -> cd_min s <= tried (h0 s) i /\
      exists e, code_error (cd_core s) (tried (h0 s) i) u = Ok e /\ cd_thr s <= e) /\
   ((cd_prev s' = tried (h0 s) k /\ cd_min s <= tried (h0 s) k /\
      exists e, code_error (cd_core s) (tried (h0 s) k) u = Ok e /\ e < cd_thr s)
    \/ (cd_prev s' = cd_min s /\ tried (h0 s) k < cd_min s)).
Proof.
  intros H. unfold code_forward in H. fold (h0 s) in H. apply bind_ok in H as (r & Hr & H).
  destruct (snd r) as [e0|] eqn:Es; [|discriminate]. apply bind_ok in H as (nw & Hn & H). injection H as <- <-.
  apply code_loop_spec in Hr as (k & Hk & Hr). cbn [cd_core cd_max cd_min cd_thr cd_time cd_dt cd_prev].
  repeat (split; [reflexivity || exact Hn|]). split.
  - destruct k; [|specialize (Hk 0%nat ltac:(lia)); rewrite tried_0 in Hk; tauto].
    destruct Hr as [(e & -> & A & _)|(A & B & C & D)]; [rewrite tried_0 in A; auto|].
    rewrite C in Es by auto. discriminate.
  - exists k. split; auto. destruct Hr as [(e & -> & A & B & C)|(A & B & C & D)]; [left|right].
    + cbn [fst]. split; [auto|]. split; [auto|]. eauto.
    + rewrite A. auto.
Qed.

Lemma code_forward_bounds fuel s u s' u' : 0 <= cd_min s -> code_forward fuel s u = Ok (s', u') ->
  cd_min s <= cd_prev s' <= cd_max s /\ cd_prev s' <= 2 * cd_prev s.
Proof.
  intros Hm H. apply code_forward_spec in H as (_ & _ & _ & _ & _ & _ & _ & Hh & k & _ & Hr).
  pose proof (Rmin_l (cd_prev s * 2) (cd_max s)). pose proof (Rmin_r (cd_prev s * 2) (cd_max s)).
  fold (h0 s) in *. pose proof (tried_dec (h0 s) k ltac:(lra)).
  destruct Hr as [(-> & A & _)|(-> & A)]; lra.
Qed.

Lemma code_unbound fuel s u : h0 s < cd_min s -> code_forward (S fuel) s u = Err UnboundLocalError.
Proof.
  intros H. unfold code_forward. fold (h0 s). cbn [code_loop]. destruct (Rle_dec (cd_min s) (h0 s)); [lra|]. reflexivity.
Qed.

(** Runs of any length. *)
Lemma code_run_total n : forall s u v, cca_wf (cd_core s) -> twf u -> (0 < tB u)%nat ->
  cca_forward (cd_core s) u = Ok v -> 0 < cd_min s -> cd_min s <= 2 * cd_prev s -> cd_min s <= cd_max s ->
  exists fuel s' u', code_run fuel n s u = Ok (s', u').
Proof.
  (* a uniform fuel: every call starts at or below max_dt *)
  intros s u v Hwf Hu HB Hv Hm Hp Hx. destruct (tried_small (cd_max s) (cd_min s) Hm) as [N HN].
  exists (S N).
  assert (Hgen : forall n t w, cca_wf (cd_core t) -> twf w -> shape w = shape u -> idl (cd_core t) = idl (cd_core s) ->
    (exists d, cd_core t = set_core_dt (cd_core s) d) -> cd_min t = cd_min s -> cd_max t = cd_max s ->
    cd_min s <= 2 * cd_prev t -> exists s' u', code_run (S N) n t w = Ok (s', u')).
  { clear Hp n. induction n; intros t w Twf Tw Tsh _ (d & Td) Tm Tx Tp; cbn [code_run]; [eauto|].
    assert (Hf : exists t' w', code_forward (S N) t w = Ok (t', w')).
    { destruct (cca_total (cd_core s) d u w v) as [w2 Ew2]; auto. rewrite <- Td in Ew2.
      assert (HBw : (0 < tB w)%nat) by (injection Tsh as B1 _ _ _; lia).
      unfold code_forward. fold (h0 t).
      destruct (code_loop_total (cd_core t) (cd_min t) (cd_thr t) w) with (n := N) (h := h0 t) (fuel := S N) (mse := @None R)
        as [r Hr]; auto.
      { intros h. eapply code_error_total; eauto. }
      { apply Rle_lt_trans with (tried (cd_max s) N); [|rewrite Tm; auto]. unfold tried. apply Rmult_le_compat_r.
        - apply pow_le; lra.
        - rewrite <- Tx. apply Rmin_r. }
      rewrite Hr. cbn [bind]. apply code_loop_spec in Hr as (k & Hk & Hr).
      assert (Hh : cd_min t <= h0 t) by (apply Rmin_glb; lra).
      assert (Hs : snd r <> None).
      { destruct Hr as [(e & -> & _)|(A & B & C & D)]; [discriminate|]. apply D. intros ->. rewrite tried_0 in B. lra. }
      destruct (snd r); [|congruence].
      destruct (cca_total (cd_core t) (match fst r with Some h => h | None => cd_min t end) w w w2) as [w3 Ew3]; auto.
      unfold code_grid. unfold cca_forward in Ew3. rewrite Ew3. cbn [bind]. eauto. }
    destruct Hf as (t' & w' & Hf). rewrite Hf. cbn [bind fst snd].
    assert (Hmt : 0 <= cd_min t) by lra. pose proof (code_forward_bounds _ _ _ _ _ Hmt Hf) as [Hb _].
    destruct (code_forward_shape _ _ _ _ _ Twf Tw Hf) as (Sw & Ww & Ec).
    apply code_forward_spec in Hf as (E1 & E2 & E3 & _).
    apply IHn; auto.
    - rewrite E1. auto.
    - congruence.
    - rewrite E1, Td. reflexivity.
    - exists (cd_prev t'). rewrite E1, Td. reflexivity.
    - congruence.
    - congruence.
    - lra. }
  apply Hgen; auto. exists (dt (cd_core s)). destruct (cd_core s); reflexivity.
Qed.

Lemma code_run_time fuel n : forall s u s' u', 0 <= cd_min s -> code_run fuel n s u = Ok (s', u') ->
  List.length (code_steps fuel n s u) = n /\
  Forall (fun d => cd_min s <= d <= cd_max s) (code_steps fuel n s u) /\
  cd_time s' = cd_time s + lsum (code_steps fuel n s u).
Proof.
  induction n; intros s u s' u' Hm H; cbn [code_run code_steps] in *.
  - injection H as <- <-. simpl. repeat split; auto. ring.
  - apply bind_ok in H as ([s1 u1] & H1 & H). cbn [fst snd] in H. rewrite H1.
    pose proof (code_forward_bounds _ _ _ _ _ Hm H1) as [Hb _].
    apply code_forward_spec in H1 as (E1 & E2 & E3 & E4 & E5 & _).
    apply IHn in H; [|lra]. rewrite E2, E3, E5 in H. destruct H as (A & B & C). simpl. rewrite E1. cbn [dt set_core_dt].
    repeat split; auto. rewrite C. cbn [lsum]. ring.
Qed.

Lemma lsum_lb (l : list R) m : Forall (fun d => m <= d) l -> INR (List.length l) * m <= lsum l.
Proof.
  induction 1 as [|a l Ha _ IH]; [cbn; lra|]. change (lsum (a :: l)) with (a + lsum l). change (List.length (a :: l)) with (S (List.length l)). rewrite S_INR. lra.
Qed.

Lemma code_run_min fuel n s u s' u' : 0 <= cd_min s -> code_run fuel n s u = Ok (s', u') ->
  cd_time s + INR n * cd_min s <= cd_time s'.
Proof.
  intros Hm H. apply code_run_time in H as (A & B & C); auto. rewrite C.
  pose proof (lsum_lb (code_steps fuel n s u) (cd_min s)) as L. rewrite A in L.
  assert (INR n * cd_min s <= lsum (code_steps fuel n s u)).
  { apply L. eapply Forall_impl; [|exact B]. intros a Ha; lra. }
  lra.
Qed.

(** A driver loop "while t_count <= T" makes at most T/min_dt + 1 calls. *)
Lemma code_calls_bound fuel n s u s1 u1 T : 0 < cd_min s -> cd_time s = 0 ->
  code_run fuel n s u = Ok (s1, u1) -> cd_time s1 <= T -> INR (S n) <= T / cd_min s + 1.
Proof.
  intros Hm Ht H HT. apply code_run_min in H; [|lra]. rewrite S_INR.
  assert (INR n <= T / cd_min s); [|lra].
  apply Rmult_le_reg_r with (cd_min s); auto. unfold Rdiv. rewrite Rmult_assoc, Rinv_l by lra. lra.
Qed.

(** ** RandomStepCA *)
Definition rs_dt_of (s : rsca) (rand : R) : R := rand * (rs_max s - rs_min s) + rs_min s.

Lemma rs_forward_spec s r u s' u' : rs_forward s r u = Ok (s', u') ->
  rs_core s' = set_core_dt (rs_core s) (rs_dt_of s r) /\ rs_min s' = rs_min s /\ rs_max s' = rs_max s /\
  rs_prev s' = rs_dt_of s r /\ rs_time s' = rs_time s + rs_dt_of s r /\ rs_dt s' = DtFloat (rs_dt_of s r) /\
  cca_forward (set_core_dt (rs_core s) (rs_dt_of s r)) u = Ok u'.
Proof.
  intros H. unfold rs_forward in H. fold (rs_dt_of s r) in H.
  apply bind_ok in H as (m & Hm & H). apply bind_ok in H as (d & Hd & H). apply bind_ok in H as (nw & Hn & H).
  injection H as <- <-. cbn [rs_core rs_min rs_max rs_prev rs_time rs_dt].
  repeat (split; [reflexivity || ring|]).
  unfold cca_forward, step, ca_forward. cbn [thr idl nbl dt set_core_dt]. rewrite Hm. cbn [bind].
  unfold update_of in Hd.
  replace (update_universe (set_core_dt (rs_core s) (rs_dt_of s r))) with (update_universe (rs_core s)) by reflexivity.
  rewrite Hd. cbn [bind]. exact Hn.
Qed.

Lemma rs_run_time rands : forall s u s' u', rs_run s rands u = Ok (s', u') ->
  rs_time s' = rs_time s + lsum (map (rs_dt_of s) rands) /\ rs_min s' = rs_min s /\ rs_max s' = rs_max s.
Proof.
  induction rands as [|r rs IH]; intros s u s' u' H; cbn [rs_run] in H.
  - injection H as <- <-. simpl. repeat split; ring.
  - apply bind_ok in H as ([s1 u1] & H1 & H). cbn [fst snd] in H. apply IH in H as (A & B & C).
    apply rs_forward_spec in H1 as (_ & E1 & E2 & _ & E3 & _). rewrite A, B, C, E1, E2, E3. repeat split.
    replace (map (rs_dt_of s1) rs) with (map (rs_dt_of s) rs).
    + cbn [map]. change (lsum (rs_dt_of s r :: map (rs_dt_of s) rs)) with (rs_dt_of s r + lsum (map (rs_dt_of s) rs)). ring.
    + apply map_ext. intros a. unfold rs_dt_of. rewrite E1, E2. reflexivity.
Qed.

Lemma rs_dt_range s r : rs_min s <= rs_max s -> 0 <= r < 1 -> rs_min s <= rs_dt_of s r <= rs_max s.
Proof. intros Hm Hr. unfold rs_dt_of. nra. Qed.

Lemma rs_run_min rands s u s' u' : rs_min s <= rs_max s -> Forall (fun r => 0 <= r < 1) rands ->
  rs_run s rands u = Ok (s', u') ->
  rs_time s + INR (List.length rands) * rs_min s <= rs_time s' <= rs_time s + INR (List.length rands) * rs_max s.
Proof.
  intros Hm Hr H. apply rs_run_time in H as (-> & _). clear u u' s'.
  assert (INR (List.length rands) * rs_min s <= lsum (map (rs_dt_of s) rands) <= INR (List.length rands) * rs_max s); [|lra].
  induction Hr as [|r l Hr _ IH]; [cbn; lra|].
  pose proof (rs_dt_range s r Hm Hr). cbn [map].
  change (lsum (rs_dt_of s r :: map (rs_dt_of s) l)) with (rs_dt_of s r + lsum (map (rs_dt_of s) l)).
  change (List.length (r :: l)) with (S (List.length l)). rewrite S_INR. lra.
Qed.

(** ** MetaCA *)
Lemma meta_forward_spec s u s' u' : meta_wf s -> twf u -> meta_forward s u = Ok (s', u') ->
  exists uu d, update_of update_universe (mt_core s) (zero_dead (thr (mt_core s)) u) = Ok uu /\
  s' = mkMeta (mt_core s) (mt_ddt s) (Some d) /\ shape d = shape u /\ shape u' = shape u /\ twf u' /\ twf d /\
  forall b c i j, (b < tB u)%nat -> (c < tC u)%nat -> (i < tH u)%nat -> (j < tW u)%nat ->
    get d b c i j = match mt_dgrid s with
                    | Some d0 => if same_shape u d0 then get d0 b c i j else 0
                    | None => 0 end + mt_ddt s * get uu b c i j /\
    get u' b c i j = clamp 0 1 (get (zero_dead (thr (mt_core s)) u) b c i j + dt (mt_core s) * get d b c i j).
Proof.
  intros Hs Hu H. destruct (meta_forward_wf s u s' u' Hs Hu H) as ([_ Wd] & Wu' & Su' & d & Ed & Sd & _).
  destruct (meta_dgrid_wf s u Hs Hu) as [Gw Gs]. destruct (Hs) as [Hc Hd].
  unfold meta_forward in H. apply bind_ok in H as (m & Em & H). apply bind_ok in H as (uu & Eu & H).
  apply bind_ok in H as (d1 & Ed1 & H). apply bind_ok in H as (nw & En & H). injection H as <- <-.
  cbn [mt_dgrid] in Ed, Wd. injection Ed as <-.
  destruct (mask_dims _ _ (mask_if_cell (thr (mt_core s))) u m Hu Em) as [Mw Ms].
  destruct (update_of_shape (mt_core s) Hc m uu Mw Eu) as [Uw Us].
  rewrite mask_if_zero_dead in Em by auto. injection Em as <-. set (m := zero_dead (thr (mt_core s)) u) in *.
  exists uu, d1. split; [auto|]. split; [auto|]. split; [auto|]. split; [auto|]. split; [auto|]. split; [auto|].
  intros b c i j Hb Hcc Hi Hj.
  pose proof Gs as Gs'. injection Gs' as G1 G2 G3 G4.
  pose proof Ms as Ms'. injection Ms' as M1 M2 M3 M4.
  pose proof Us as Us'. injection Us' as U1 U2 U3 U4.
  assert (Ht : shape (meta_dgrid (mt_dgrid s) u) = shape (tmap (fun x => mt_ddt s * x) uu)).
  { rewrite Gs, <- Ms, <- Us. reflexivity. }
  rewrite tzip_same in Ed1 by exact Ht. injection Ed1 as Ed1.
  split.
  - rewrite <- Ed1, get_build by congruence. rewrite get_tmap by (auto; congruence). f_equal.
    unfold meta_dgrid. destruct (mt_dgrid s) as [d0|].
    + destruct (same_shape u d0); [reflexivity|]. rewrite get_tmap by (auto; congruence). reflexivity.
    + rewrite get_tmap by (auto; congruence). reflexivity.
  - unfold euler in En.
    assert (St : shape m = shape (tmap (fun x => dt (mt_core s) * x) d1)) by (rewrite Ms, <- Sd; reflexivity).
    rewrite tzip_same in En by exact St. cbn [bind] in En. injection En as <-.
    injection Sd as D1 D2 D3 D4.
    rewrite tmap_build, get_build by congruence. rewrite get_tmap by (auto; congruence). reflexivity.
Qed.

(** The first call after a reset is a CCA step with time step dt*ddt. *)
Lemma meta_first s u : cca_wf (mt_core s) -> twf u ->
  rmap snd (meta_forward (meta_reset s) u) =
  cca_forward (set_core_dt (mt_core s) (dt (mt_core s) * mt_ddt s)) u.
Proof.
  intros Hc Hu. unfold cca_forward, step, ca_forward, meta_forward, meta_reset.
  cbn [mt_core mt_ddt mt_dgrid meta_dgrid thr idl nbl dt set_core_dt].
  replace (update_universe (set_core_dt (mt_core s) (dt (mt_core s) * mt_ddt s)))
    with (update_universe (mt_core s)) by reflexivity.
  destruct (mask_if (thr (mt_core s)) u) as [m|] eqn:Em; [|reflexivity]. cbn [bind].
  destruct (mask_dims _ _ (mask_if_cell (thr (mt_core s))) u m Hu Em) as [Mw Ms].
  fold (update_of update_universe (mt_core s) m).
  destruct (update_of update_universe (mt_core s) m) as [uu|] eqn:Eu; [|reflexivity]. cbn [bind].
  destruct (update_of_shape (mt_core s) Hc m uu Mw Eu) as [Uw Us].
  rewrite tzip_same by (change (shape u = shape uu); congruence). cbn [bind].
  pose proof Ms as Ms'. injection Ms' as M1 M2 M3 M4.
  pose proof Us as Us'. injection Us' as U1 U2 U3 U4.
  unfold euler. rewrite !tzip_same.
  2:{ change (shape m = shape uu). congruence. }
  2:{ change (shape m = shape u). congruence. }
  cbn [bind rmap snd]. f_equal. f_equal.
  cbn [tmap tB tC tH tW]. apply build_ext. intros b c i j Hb Hcc Hi Hj. f_equal.
  rewrite !get_tmap by (apply twf_build || (cbn; congruence) || auto; congruence).
  cbn [build tB tC tH tW]. rewrite get_build by (cbn; congruence).
  rewrite !get_tmap by (auto; congruence). ring.
Qed.

(** Momentum after [n] calls from reset: ddt times the sum of the updates. *)
Lemma meta_momentum n : forall s u s' u', meta_wf s -> mt_dgrid s = None -> twf u ->
  meta_run (S n) s u = Ok (s', u') ->
  exists (U : nat -> tensor) d, mt_dgrid s' = Some d /\ shape d = shape u /\
  (forall k, (k <= n)%nat -> exists sk uk, meta_run k s u = Ok (sk, uk) /\
     update_of update_universe (mt_core s) (zero_dead (thr (mt_core s)) uk) = Ok (U k)) /\
  forall b c i j, (b < tB u)%nat -> (c < tC u)%nat -> (i < tH u)%nat -> (j < tW u)%nat ->
    get d b c i j = mt_ddt s * rsum (S n) (fun k => get (U k) b c i j).
Proof.
  (* run as [n] calls followed by one *)
  assert (Hlast : forall n s u p, meta_run (S n) s u = Ok p ->
    exists q, meta_run n s u = Ok q /\ meta_forward (fst q) (snd q) = Ok p).
  { clear. induction n; intros s u p H.
    - cbn [meta_run] in *. apply bind_ok in H as (q & H1 & H2). exists (s, u). split; auto.
      cbn [fst snd]. rewrite H1. destruct q; auto.
    - cbn [meta_run] in H. apply bind_ok in H as (q & H1 & H2). fold meta_run in H2.
      apply IHn in H2 as (q' & H3 & H4). exists q'. split; auto. cbn [meta_run]. rewrite H1. auto. }
  assert (Hinv : forall n s u s' u', meta_wf s -> mt_dgrid s = None -> twf u -> meta_run n s u = Ok (s', u') ->
    meta_wf s' /\ twf u' /\ shape u' = shape u /\ mt_core s' = mt_core s /\ mt_ddt s' = mt_ddt s).
  { clear - Hlast. intros n. induction n; intros s u s' u' Hs Hd Hu H.
    - cbn in H. injection H as <- <-. auto.
    - apply Hlast in H as ([s1 u1] & H1 & H2). cbn [fst snd] in H2.
      apply IHn in H1 as (A & B & C & D & E); auto.
      destruct (meta_forward_wf _ _ _ _ A B H2) as (A' & B' & C' & d & _ & _ & D' & E').
      split; auto. split; auto. repeat split; congruence. }
  induction n; intros s u s' u' Hs Hd Hu H.
  - cbn [meta_run] in H. apply bind_ok in H as ([s1 u1] & H1 & H2). cbn in H2. injection H2 as <- <-.
    apply meta_forward_spec in H1 as (uu & d & Eu & -> & Sd & _ & _ & _ & Hg); auto.
    exists (fun _ => uu), d. split; [reflexivity|]. split; [auto|]. split.
    + intros k Hk. replace k with 0%nat by lia. exists s, u. auto.
    + intros b c i j Hb Hc Hi Hj. destruct (Hg b c i j Hb Hc Hi Hj) as [-> _]. rewrite Hd. simpl. ring.
  - apply Hlast in H as ([s1 u1] & H1 & H2). cbn [fst snd] in H2.
    destruct (Hinv _ _ _ _ _ Hs Hd Hu H1) as (A & B & C & D & E).
    destruct (IHn s u s1 u1 Hs Hd Hu H1) as (U & d1 & Ed1 & Sd1 & HU & Hg1).
    apply meta_forward_spec in H2 as (uu & d & Eu & -> & Sd & _ & _ & _ & Hg); auto.
    exists (fun k => if Nat.eqb k (S n) then uu else U k), d. split; [reflexivity|]. split; [congruence|]. split.
    + intros k Hk. destruct (Nat.eqb_spec k (S n)) as [->|Hne].
      * exists s1, u1. split; auto. rewrite <- D. auto.
      * apply HU. lia.
    + intros b c i j Hb Hc Hi Hj. injection C as C1 C2 C3 C4.
      destruct (Hg b c i j) as [-> _]; try congruence.
      rewrite Ed1. assert (Hss : same_shape u1 d1 = true) by (apply same_shape_iff; unfold shape in *; congruence).
      rewrite Hss, Hg1, E by auto. rewrite (rsum_S (S n)). rewrite Nat.eqb_refl.
      rewrite (rsum_ext (S n) (fun k => get (if Nat.eqb k (S n) then uu else U k) b c i j) (fun k => get (U k) b c i j)).
      * ring.
      * intros k Hk. destruct (Nat.eqb_spec k (S n)); [lia|reflexivity].
Qed.
