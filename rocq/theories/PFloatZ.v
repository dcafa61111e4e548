(** Sums of windows, exact layers and the existence of steps. *)
From Coq Require Import Reals ZArith List Bool Lia Lra Arith Permutation Floats.SpecFloat.
From Verif Require Import Base Tensor MFloat SGrid SFloat PFloat PFloatX PFloatY.
Import ListNotations.
Open Scope R_scope.

Lemma dot_seq n f : dot (map f (seq 0 n)) = rsum n (fun x => value (fst (f x)) * value (snd (f x))).
Proof. induction n as [|n IH]; [reflexivity|]. rewrite seq_S, map_app, dot_app, IH. cbn [rsum map plus]. unfold dot. cbn [fold_right]. lra. Qed.

Lemma dot_flat n f : dot (flat_map f (seq 0 n)) = rsum n (fun x => dot (f x)).
Proof. induction n as [|n IH]; [reflexivity|]. rewrite seq_S, flat_map_app, dot_app, IH. cbn [rsum flat_map plus]. rewrite app_nil_r. reflexivity. Qed.

Lemma mass_seq n f : mass (map f (seq 0 n)) = rsum n (fun x => Rabs (value (fst (f x)) * value (snd (f x)))).
Proof. induction n as [|n IH]; [reflexivity|]. rewrite seq_S, map_app, mass_app, IH. cbn [rsum map plus]. unfold mass. cbn [fold_right]. lra. Qed.

Lemma mass_flat n f : mass (flat_map f (seq 0 n)) = rsum n (fun x => mass (f x)).
Proof. induction n as [|n IH]; [reflexivity|]. rewrite seq_S, flat_map_app, mass_app, IH. cbn [rsum flat_map plus]. rewrite app_nil_r. reflexivity. Qed.

(** What entry (b, o, i, j) adds up, as numbers. *)
Lemma dot_window l u b o i j : dot (window l u b o i j) =
  rsum (fC (fl_w l)) (fun c => rsum (fH (fl_w l)) (fun y => rsum (fW (fl_w l)) (fun x =>
    value (fget (fl_w l) o c y x) * value (fpad (fl_m l) (fl_p l) u b ((o / (fB (fl_w l) / fl_g l)) * fC (fl_w l) + c) (i + y) (j + x))))).
Proof.
  unfold window. cbv zeta. rewrite dot_flat. apply rsum_ext. intros c _. rewrite dot_flat. apply rsum_ext. intros y _. rewrite dot_seq. reflexivity.
Qed.

Lemma mass_window l u b o i j : mass (window l u b o i j) =
  rsum (fC (fl_w l)) (fun c => rsum (fH (fl_w l)) (fun y => rsum (fW (fl_w l)) (fun x =>
    Rabs (value (fget (fl_w l) o c y x) * value (fpad (fl_m l) (fl_p l) u b ((o / (fB (fl_w l) / fl_g l)) * fC (fl_w l) + c) (i + y) (j + x)))))).
Proof.
  unfold window. cbv zeta. rewrite mass_flat. apply rsum_ext. intros c _. rewrite mass_flat. apply rsum_ext. intros y _. rewrite mass_seq. reflexivity.
Qed.

(** ** Layers that pass one channel on *)
Lemma nzs_none l : Forall (fun p => value (fst p) = 0) l -> nzs l = O.
Proof. unfold nzs. induction 1 as [|p l H _ IH]; cbn [fold_right]; [reflexivity|]. rewrite IH. destruct (Req_EM_T _ 0) as [_|N]; [reflexivity|]. exfalso. apply N. rewrite H. ring. Qed.

Lemma nzs_seq (f : nat -> list (fl * fl)) z n : (nzs (f z) <= 1)%nat -> (forall a, (a < n)%nat -> a <> z -> nzs (f a) = O) -> (nzs (flat_map f (seq 0 n)) <= (if Nat.ltb z n then 1 else 0))%nat.
Proof.
  intros Hz H. induction n as [|n IH]; [reflexivity|]. rewrite seq_S, flat_map_app, nzs_app. cbn [plus flat_map]. rewrite app_nil_r. specialize (IH ltac:(intros; apply H; lia)).
  destruct (Nat.eq_dec n z) as [->|N].
  - rewrite Nat.ltb_irrefl in IH. replace (z <? Datatypes.S z)%nat with true by (symmetry; apply Nat.ltb_lt; lia). lia.
  - rewrite (H n) by lia. destruct (Nat.ltb_spec z n) in IH; destruct (Nat.ltb_spec z (Datatypes.S n)); lia.
Qed.

Lemma map_flat {A B} (f : A -> B) l : map f l = flat_map (fun x => [f x]) l.
Proof. induction l as [|a l IH]; cbn; [reflexivity|]. rewrite IH. reflexivity. Qed.

Lemma pad_middle m n p i : pad_allowed m n p = true -> (i < n)%nat -> pad_src m n p (i + p) = Some i.
Proof.
  intros A H. destruct m; cbn [pad_src pad_allowed] in *.
  - destruct (Nat.ltb_spec (i + p) p); [lia|]. destruct (Nat.ltb_spec (i + p) (p + n)); [f_equal; lia|lia].
  - destruct (Nat.ltb_spec (i + p) p); [lia|]. destruct (Nat.ltb_spec (i + p) (p + n)); [f_equal; lia|lia].
  - destruct (Nat.ltb_spec (i + p) p); [lia|]. destruct (Nat.ltb_spec (i + p) (p + n)); [f_equal; lia|lia].
  - f_equal. replace (i + p + n - p)%nat with (i + 1 * n)%nat by lia. rewrite (Nat.mod_add i 1 n) by lia. apply Nat.mod_small. exact H.
Qed.

Lemma rsum_lone n f z : (z < n)%nat -> (forall a, (a < n)%nat -> a <> z -> f a = 0) -> rsum n f = f z.
Proof.
  intros Hz H. induction n as [|n IH]; [lia|]. rewrite rsum_S. destruct (Nat.eq_dec n z) as [->|N].
  - assert (E : rsum z f = 0). { clear IH. assert (G : forall k, (k <= z)%nat -> rsum k f = 0) by (induction k as [|k IHk]; intros; [reflexivity|rewrite rsum_S, IHk, H by lia; ring]). apply G. lia. }
    rewrite E. ring.
  - rewrite IH, (H n) by (intros; try apply H; lia). ring.
Qed.

Lemma passed_on prec emax l u v b o i j : (1 < prec)%Z -> (prec < emax)%Z -> passes_on prec emax l -> fconv prec emax l u v -> batch_cells b u (number prec emax) -> (b < fB u)%nat ->
  (o < fB (fl_w l))%nat -> (i < fH u)%nat -> (j < fW u)%nat ->
  number prec emax (fget v b o i j) /\ value (fget v b o i j) = value (fget u b (o / (fB (fl_w l) / fl_g l)) i j).
Proof.
  intros P1 P2 (C1 & G & (q & Q) & W & V) (HC & HH & HW & A1 & A2 & _ & _ & _ & _ & T) U Hb Ho Hi Hj. specialize (T b o i j Hb Ho Hi Hj).
  assert (Grp : (o / (fB (fl_w l) / fl_g l) * fC (fl_w l) + 0 < fC u)%nat) by (rewrite HC; apply (group_lt _ _ _ _ _ q); auto; lia).
  assert (Ex : exact_terms prec emax (window l u b o i j)).
  { apply Forall_forall. intros p Hp. apply window_in in Hp as (c & y & x & Hc & Hy & Hx & ->). cbn [fst snd]. replace c with O in * by lia.
    set (z := fpad _ _ _ _ _ _ _). assert (Z : number prec emax z) by (unfold z; apply pad_cells; auto; try lia; split; [exact I|reflexivity]).
    split; [apply W; lia|]. split; [exact Z|]. rewrite (V o y x Ho Hy Hx). destruct (number_rep prec emax P1 z Z) as [R1 R2].
    destruct (_ && _)%bool; [rewrite Rmult_1_l; auto|]. rewrite Rmult_0_l, Rabs_R0. split; [apply rep_0|apply bpow_pos]. }
  assert (Nz : (nzs (window l u b o i j) <= 1)%nat).
  { unfold window. cbv zeta. rewrite C1. cbn [seq flat_map]. rewrite app_nil_r.
    assert (E : forall y x, (y < fH (fl_w l))%nat -> (x < fW (fl_w l))%nat -> (y <> fl_p l \/ x <> fl_p l) -> value (fget (fl_w l) o 0 y x) = 0).
    { intros y x Hy Hx D. rewrite (V o y x Ho Hy Hx). destruct (Nat.eqb_spec y (fl_p l)); [|reflexivity]. destruct (Nat.eqb_spec x (fl_p l)); [lia|reflexivity]. }
    eapply Nat.le_trans; [apply (nzs_seq _ (fl_p l))|destruct (_ <? _)%nat; lia].
    - rewrite map_flat. eapply Nat.le_trans; [apply (nzs_seq _ (fl_p l))|destruct (_ <? _)%nat; lia].
      + unfold nzs. cbn [fold_right]. destruct (Req_EM_T _ 0); lia.
      + intros x Hx N. apply nzs_none. constructor; [|constructor]. apply E; lia.
    - intros y Hy N. apply nzs_none. apply Forall_forall. intros p Hp. apply in_map_iff in Hp as (x & <- & Hx). apply in_seq in Hx. apply E; lia. }
  destruct (total_lone prec emax P1 P2 _ _ T Ex Nz) as [N D]. split; [exact N|]. rewrite D, dot_window, C1. cbn [rsum]. rewrite Rplus_0_l.
  rewrite (rsum_lone _ _ (fl_p l)); [rewrite (rsum_lone _ _ (fl_p l))|..].
  - rewrite (V o _ _ Ho) by lia. rewrite Nat.eqb_refl. cbn [andb]. unfold fpad. rewrite !pad_middle by assumption. rewrite Nat.mul_1_r, Nat.add_0_r. ring.
  - lia.
  - intros x Hx N'. rewrite (V o _ _ Ho) by lia. destruct (Nat.eqb_spec x (fl_p l)); [lia|]. rewrite andb_false_r. ring.
  - lia.
  - intros y Hy N'. rewrite (rsum_ext _ _ (fun _ => 0 * 0)); [rewrite rsum_scal; ring|]. intros x Hx. rewrite (V o _ _ Ho) by lia. destruct (Nat.eqb_spec y (fl_p l)); [lia|]. cbn [andb]. ring.
Qed.

(** ** Steps exist *)
Definition ftotal prec emax (l : list (fl * fl)) : fl := fold_right (fun p s => ffma prec emax (fst p) (snd p) s) fzero l.
Lemma ftotal_total prec emax l : total prec emax l (ftotal prec emax l).
Proof. induction l as [|[x y] l IH]; cbn [ftotal fold_right fst snd]; [constructor|apply total_fma, IH]. Qed.

Lemma conv_exists prec emax l u : has_room l u -> fC u = (fl_g l * fC (fl_w l))%nat -> exists v, fconv prec emax l u v.
Proof.
  intros (H1 & H2 & H3 & H4) HC. exists (mkF (fB u) (fB (fl_w l)) (fH u) (fW u) (fun b o i j => ftotal prec emax (window l u b o i j))).
  unfold fconv. cbn [fB fC fH fW fget]. repeat (split; [first [assumption|reflexivity]|]). intros. apply ftotal_total.
Qed.

Lemma pt_exists prec emax a b l u : fpt_layer a b l -> has_room l u -> fC u = a -> exists v, fconv prec emax l u v /\ fB v = fB u /\ fC v = b /\ fH v = fH u /\ fW v = fW u.
Proof.
  intros ((_ & _ & _ & _ & HB & HE) & _) R HC. destruct (conv_exists prec emax l u R ltac:(congruence)) as [v V]. exists v. split; [exact V|].
  destruct V as (_ & _ & _ & _ & _ & V1 & V2 & V3 & V4 & _). rewrite V2, HB. auto.
Qed.

Lemma step_exists d c u : fcca_wf c -> fC u = f_ext c -> has_room (f_idl c) u -> has_room (f_nbl c) u ->
  match f_wl c with FConv l => has_room l u | FMlp l1 l2 => has_room l1 u /\ has_room l2 u end -> answers (f_gen c) -> answers (f_per c) -> exists u', fstep d c u u'.
Proof.
  intros (Wi & Wn & Ww) HC Ri Rn Rw [g Hg] [p Hp]. set (m32 := fmap (up d) (fmask (sprec d) (semax d) (f_thr c) u)).
  assert (S : fB m32 = fB u /\ fC m32 = fC u /\ fH m32 = fH u /\ fW m32 = fW u) by (destruct (mask_shape (sprec d) (semax d) (f_thr c) u) as (A1 & A2 & A3 & A4); cbn; auto).
  destruct S as (S1 & S2 & S3 & S4).
  assert (Rm : forall l w, fH w = fH u -> fW w = fW u -> has_room l u -> has_room l w) by (intros l w E1 E2; unfold has_room; rewrite E1, E2; auto).
  destruct (conv_exists (cprec d) (cemax d) (f_idl c) m32 (Rm _ _ S3 S4 Ri)) as [idn Vi]; [destruct Wi as (_ & _ & _ & _ & _ & E); congruence|].
  destruct (conv_exists (cprec d) (cemax d) (f_nbl c) m32 (Rm _ _ S3 S4 Rn)) as [nb Vn]; [destruct Wn as (_ & _ & _ & _ & _ & E); congruence|].
  set (h := fun k idv nbv => down d (fadd (cprec d) (cemax d)
          (up d (down d (fmul (cprec d) (cemax d) (fsub (cprec d) (cemax d) (fone (cprec d) (cemax d)) (up d idv)) (g k (up d nbv)))))
          (up d (down d (fmul (cprec d) (cemax d) (up d idv) (p k (up d nbv))))))).
  set (gp := mkF (fB u) (f_int c) (fH u) (fW u) (fun b k i j => h k (down d (fget idn b k i j)) (down d (fget nb b k i j)))).
  assert (Vw : exists upd, fwl (cprec d) (cemax d) (f_wl c) (fmap (up d) gp) upd).
  { destruct (f_wl c) as [l|l1 l2]; cbn [fwl fwl_wf] in *.
    - destruct (pt_exists (cprec d) (cemax d) _ _ l (fmap (up d) gp) Ww (Rm l (fmap (up d) gp) eq_refl eq_refl Rw) eq_refl) as (v & V & _). eauto.
    - destruct Rw as [R1 R2], Ww as (k & W1 & W2). destruct (pt_exists (cprec d) (cemax d) _ _ l1 (fmap (up d) gp) W1 (Rm l1 (fmap (up d) gp) eq_refl eq_refl R1) eq_refl) as (a & V & E1 & E2 & E3 & E4).
      destruct (pt_exists (cprec d) (cemax d) _ _ l2 (fmap frelu a) W2 (Rm l2 (fmap frelu a) E3 E4 R2) E2) as (v & V' & _). eauto. }
  destruct Vw as [upd Vw].
  exists (mkF (fB u) (fC u) (fH u) (fW u) (fun b o i j => down d (fclamp (cprec d) (cemax d)
        (fadd (cprec d) (cemax d) (fget m32 b o i j) (fmul (cprec d) (cemax d) (f_dt c) (up d (down d (fget upd b o i j)))))))).
  unfold fstep. cbv zeta. fold m32. split; [exact HC|]. exists idn, nb, gp, upd. split; [exact Vi|]. split; [exact Vn|]. split; [|split; [exact Vw|cbn [fB fC fH fW fget]; repeat (split; [reflexivity|]); reflexivity]].
  cbn [fB fC fH fW]. repeat (split; [reflexivity|]). intros. unfold fgenper. exists (g k (up d (down d (fget nb b k i j)))), (p k (up d (down d (fget nb b k i j)))). cbn [fget gp]. auto.
Qed.
