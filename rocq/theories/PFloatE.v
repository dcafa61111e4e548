(** Rounding errors of one step. *)
From Coq Require Import Reals ZArith List Bool Lia Lra Arith Floats.SpecFloat.
From Verif Require Import Base Tensor MActivations MCommon MCca MFloat SGrid SCca SLip SFloat SRound PTensor PStep PCca PLip PFloat PFloatX PFloatY PFloatZ.
Import ListNotations.
Open Scope R_scope.

Notation side l := (fC (fl_w l) * ((2 * fl_p l + 1) * (2 * fl_p l + 1)))%nat.

(** ** Errors of operations *)
Lemma rd_result d x z r B e : result (cprec d) (cemax d) x z -> finite z -> Rabs (x - r) <= e -> Rabs r <= B -> Rabs (value z - r) <= rd d B e.
Proof.
  intros R F X Y. pose proof (result_near _ _ _ _ R F) as N. unfold rd, unit_round, half_step. pose proof (bpow_pos (- cprec d)) as P.
  assert (Z : Rabs x <= B + e) by (replace x with (r + (x - r)) by ring; eapply Rle_trans; [apply Rabs_triang|]; lra).
  replace (value z - r) with ((value z - x) + (x - r)) by ring. eapply Rle_trans; [apply Rabs_triang|].
  apply (Rmult_le_compat_l (bpow (- cprec d))) in Z; [|lra]. lra.
Qed.

(** Values that the format of the universe can hold. *)
Definition tight (d : dtype) (x : fl) : Prop := exists n E, room d n E /\ within d n E x.
Lemma tight_number d x : tight d x -> number (cprec d) (cemax d) x.
Proof. intros (n & E & _ & N & _). exact N. Qed.
Lemma tight_stored d x : dtype_ok d -> tight d x -> tight d (up d (down d x)).
Proof. intros H (n & E & R & W). exists n, E. split; [exact R|]. apply stored; assumption. Qed.

Lemma sd_stored d x r B e : dtype_ok d -> tight d x -> Rabs (value x - r) <= e -> Rabs r <= B -> Rabs (value (up d (down d x)) - r) <= sd d B e.
Proof.
  intros H (n & E & Rm & N & W) X Y. destruct d as [p q|]; cbn [up down sd]; [exact X|].
  pose proof (room_lt HalfCpu n E H Rm) as L. destruct Rm as (R0 & R1 & R2 & R3). cbn [sprec semax cprec cemax] in *.
  assert (F : finite x) by exact (proj1 N). pose proof (cast_result 11 16 ltac:(lia) ltac:(lia) x F) as C.
  destruct (result_bounded 11 16 _ _ (IZR n * bpow E) C) as [N' _]; [exists n, E; split; [reflexivity|]; split; [lia|unfold emin; lia]|exact L|exact W|].
  destruct (up_number HalfCpu (fcast 11 16 x) H N') as [_ V]. cbn [up] in V. rewrite V. pose proof (result_near _ _ _ _ C (proj1 N')) as D. change (emin 11 16 - 1)%Z with (-25)%Z in D. change (Z.opp 11) with (-11)%Z in D.
  assert (Z : Rabs (value x) <= B + e) by (replace (value x) with (r + (value x - r)) by ring; eapply Rle_trans; [apply Rabs_triang|]; lra).
  replace (value (fcast 11 16 x) - r) with ((value (fcast 11 16 x) - value x) + (value x - r)) by ring. eapply Rle_trans; [apply Rabs_triang|].
  pose proof (bpow_pos (- 11)) as P. apply (Rmult_le_compat_l (bpow (- 11))) in Z; [|lra]. lra.
Qed.

Lemma prod_err x y a b A B da db : Rabs (x - a) <= da -> Rabs (y - b) <= db -> Rabs a <= A -> Rabs b <= B -> Rabs (x * y - a * b) <= A * db + da * (B + db).
Proof.
  intros X Y HA HB. replace (x * y - a * b) with (a * (y - b) + (x - a) * y) by ring. eapply Rle_trans; [apply Rabs_triang|]. rewrite !Rabs_mult.
  assert (Z : Rabs y <= B + db) by (replace y with (b + (y - b)) by ring; eapply Rle_trans; [apply Rabs_triang|]; lra).
  apply Rplus_le_compat; apply Rmult_le_compat; auto using Rabs_pos.
Qed.

Lemma abs_prod a b A B : Rabs a <= A -> Rabs b <= B -> Rabs (a * b) <= A * B.
Proof. intros. rewrite Rabs_mult. apply Rmult_le_compat; auto using Rabs_pos. Qed.

(** ** Layers *)
Lemma real_get u b c i j : (b < fB u)%nat -> (c < fC u)%nat -> (i < fH u)%nat -> (j < fW u)%nat -> get (real_tensor u) b c i j = value (fget u b c i j).
Proof. intros. unfold real_tensor. apply get_build; assumption. Qed.

Lemma rsum_le_abs n f g : (forall i, (i < n)%nat -> Rabs (f i) <= g i) -> Rabs (rsum n f) <= rsum n g.
Proof.
  induction n as [|n IH]; intros H; cbn [rsum]; [rewrite Rabs_R0; lra|]. eapply Rle_trans; [apply Rabs_triang|]. apply Rplus_le_compat; [apply IH; intros; apply H; lia|apply H; lia].
Qed.
Lemma rsum_mono n f g : (forall i, (i < n)%nat -> f i <= g i) -> rsum n f <= rsum n g.
Proof. induction n as [|n IH]; intros H; cbn [rsum]; [lra|]. apply Rplus_le_compat; [apply IH; intros; apply H; lia|apply H; lia]. Qed.

(** Three nested sums compared with the weights of a row. *)
Lemma row_bound l o (f : nat -> nat -> nat -> R) B : (o < tB (cl_w l))%nat ->
  (forall c y x, (c < tC (cl_w l))%nat -> (y < tH (cl_w l))%nat -> (x < tW (cl_w l))%nat -> f c y x <= Rabs (get (cl_w l) o c y x) * B) ->
  rsum (tC (cl_w l)) (fun c => rsum (tH (cl_w l)) (fun y => rsum (tW (cl_w l)) (fun x => f c y x))) <= row_weight l o * B.
Proof.
  intros Ho H. unfold row_weight. rewrite <- rsum_scal_r. apply rsum_mono. intros c Hc. rewrite <- rsum_scal_r. apply rsum_mono. intros y Hy. rewrite <- rsum_scal_r. apply rsum_mono. intros x Hx. apply H; assumption.
Qed.

Section Conv.
Variables (d : dtype) (e n : nat) (l : flayer) (u v : ftensor) (b : nat) (f : nat -> nat -> nat -> R) (B E W : R) (M : Z).
Hypothesis Hd : dtype_ok d.
Hypothesis Hl : flayer_wf e n l.
Hypothesis Hw : cells (fl_w l) (fun x => number (cprec d) (cemax d) x /\ Rabs (value x) <= bpow M).
Hypothesis Hc : fconv (cprec d) (cemax d) l u v.
Hypothesis Hb : (b < fB u)%nat.
Hypothesis Hf : forall c i j, (c < fC u)%nat -> (i < fH u)%nat -> (j < fW u)%nat -> Rabs (value (fget u b c i j) - f c i j) <= E /\ Rabs (f c i j) <= B.
Hypothesis HW : layer_within W (real_layer l).
Hypothesis HB : 0 <= B.
Hypothesis HE : 0 <= E.

Lemma pad_value o i j c y x : (o < fB (fl_w l))%nat -> (i < fH u)%nat -> (j < fW u)%nat -> (c < fC (fl_w l))%nat -> (y < fH (fl_w l))%nat -> (x < fW (fl_w l))%nat ->
  let ch := ((o / (fB (fl_w l) / fl_g l)) * fC (fl_w l) + c)%nat in
  let q := pval (fl_m l) (fH u) (fW u) (fl_p l) (f ch) (i + y) (j + x) in
  Rabs (value (fpad (fl_m l) (fl_p l) u b ch (i + y) (j + x)) - q) <= E /\ Rabs q <= B.
Proof.
  intros Ho Hi Hj Hcc Hy Hx. destruct Hc as (C1 & C2 & C3 & C4 & C5 & _). destruct Hl as (G & (q & Q) & _).
  unfold fpad, pval. destruct (pad_src (fl_m l) (fH u) (fl_p l) (i + y)) as [y'|] eqn:E1; [|cbn; rewrite Rminus_0_r, Rabs_R0; lra].
  destruct (pad_src (fl_m l) (fW u) (fl_p l) (j + x)) as [x'|] eqn:E2; [|cbn; rewrite Rminus_0_r, Rabs_R0; lra].
  apply Hf.
  - rewrite C1. apply (group_lt _ _ _ _ _ q); assumption.
  - eapply pad_src_lt; [exact C4|lia| |exact E1]. lia.
  - eapply pad_src_lt; [exact C5|lia| |exact E2]. lia.
Qed.

Lemma conv_real_bound o i j : (o < fB (fl_w l))%nat -> (i < fH u)%nat -> (j < fW u)%nat -> Rabs (convf (real_layer l) (fH u) (fW u) f o i j) <= W * B.
Proof.
  intros Ho Hi Hj. unfold convf. cbv zeta. eapply Rle_trans; [apply rsum_le_abs; intros c Hcc; apply rsum_le_abs; intros y Hy; apply rsum_le_abs; intros x Hx; apply Rle_refl|].
  eapply Rle_trans; [apply (row_bound (real_layer l) o _ B Ho)|apply Rmult_le_compat_r; [exact HB|apply HW; exact Ho]].
  intros c y x Hcc Hy Hx. rewrite Rabs_mult. apply Rmult_le_compat_l; [apply Rabs_pos|]. cbn [real_layer cl_w cl_g cl_m cl_p] in *. apply (pad_value o i j c y x); assumption.
Qed.

Lemma conv_error_by o i j Q F : room d (Z.of_nat (side l) * Q) (M + F) -> (0 <= Q)%Z -> batch_cells b u (within d Q F) -> (o < fB (fl_w l))%nat -> (i < fH u)%nat -> (j < fW u)%nat ->
  Rabs (value (fget v b o i j) - convf (real_layer l) (fH u) (fW u) f o i j) <= W * E + dot_err d (side l) (W * (B + E)).
Proof.
  intros Rm Q0 HU Ho Hi Hj. destruct (dtype_c d Hd) as [P1 P2]. destruct (room_c d _ (M + F) Hd Rm) as (R1 & R2 & R3 & R4).
  pose proof Hc as (C1 & C2 & C3 & C4 & C5 & V1 & V2 & V3 & V4 & T). specialize (T b o i j Hb Ho Hi Hj). pose proof Hl as (_ & _ & _ & _ & HB' & _).
  assert (EL : length (window l u b o i j) = side l) by (rewrite window_length, C2, C3; reflexivity).
  assert (Fa : Forall (fun p => number (cprec d) (cemax d) (fst p) /\ number (cprec d) (cemax d) (snd p) /\ Rabs (value (fst p) * value (snd p)) <= IZR Q * bpow (M + F)) (window l u b o i j)).
  { eapply Forall_impl; [|apply (window_cells e n l u b o i j (fun x => number (cprec d) (cemax d) x /\ Rabs (value x) <= bpow M) (within d Q F)); auto; try lia].
    - intros p [[N1 B1] [N2 B2]]. split; [exact N1|]. split; [exact N2|]. rewrite Rabs_mult. replace (IZR Q * bpow (M + F)) with (bpow M * (IZR Q * bpow F)) by (rewrite bpow_add; ring). apply Rmult_le_compat; auto using Rabs_pos.
    - split; [split; [exact I|reflexivity]|]. cbn [value fzero]. rewrite Rabs_R0. apply Rmult_le_pos; [apply IZR_le; lia|apply Rlt_le, bpow_pos]. }
  pose proof (total_error (cprec d) (cemax d) P1 P2 Q (M + F) _ _ Q0 R4 T) as TE. rewrite EL in TE. specialize (TE R3 R2 Fa).
  assert (Ma : mass (window l u b o i j) <= W * (B + E)).
  { rewrite mass_window. eapply Rle_trans; [apply (row_bound (real_layer l) o _ (B + E) Ho)|apply Rmult_le_compat_r; [lra|apply HW; exact Ho]].
    intros c y x Hcc Hy Hx. cbn [real_layer cl_w] in *. rewrite real_get by assumption. rewrite Rabs_mult. apply Rmult_le_compat_l; [apply Rabs_pos|].
    destruct (pad_value o i j c y x Ho Hi Hj Hcc Hy Hx) as [A1 A2]. set (a := value (fpad _ _ _ _ _ _ _)) in *. set (q := pval _ _ _ _ _ _ _) in *. replace a with (q + (a - q)) by ring. eapply Rle_trans; [apply Rabs_triang|]. lra. }
  assert (Dt : Rabs (dot (window l u b o i j) - convf (real_layer l) (fH u) (fW u) f o i j) <= W * E).
  { rewrite dot_window. unfold convf. cbv zeta. cbn [real_layer cl_w cl_g cl_m cl_p real_tensor tB tC tH tW build]. rewrite <- rsum_minus.
    eapply Rle_trans; [apply rsum_le_abs; intros c Hcc; rewrite <- rsum_minus; apply rsum_le_abs; intros y Hy; rewrite <- rsum_minus; apply rsum_le_abs; intros x Hx; apply Rle_refl|].
    eapply Rle_trans; [apply (row_bound (real_layer l) o _ E Ho)|apply Rmult_le_compat_r; [exact HE|apply HW; exact Ho]].
    intros c y x Hcc Hy Hx. cbn [real_layer cl_w] in *. change (build (fB (fl_w l)) (fC (fl_w l)) (fH (fl_w l)) (fW (fl_w l)) (fun b c i j => value (fget (fl_w l) b c i j))) with (real_tensor (fl_w l)).
    rewrite real_get by assumption. rewrite <- Rmult_minus_distr_l, Rabs_mult. apply Rmult_le_compat_l; [apply Rabs_pos|]. apply (pad_value o i j c y x); assumption. }
  set (s := fget v b o i j) in *. set (D := dot _) in *. set (cf := convf _ _ _ _ _ _ _) in *. replace (value s - cf) with ((D - cf) + (value s - D)) by ring. eapply Rle_trans; [apply Rabs_triang|].
  apply Rplus_le_compat; [exact Dt|]. eapply Rle_trans; [exact TE|]. unfold dot_err, gam, unit_round, half_step. apply Rplus_le_compat_r. apply Rmult_le_compat_l; [|exact Ma].
  pose proof (gam_1 (cprec d) (side l)) as G1. unfold gam in G1. lra.
Qed.
End Conv.

Lemma conv_error d e n l u v b f B E W : dtype_ok d -> flayer_wf e n l -> cells (fl_w l) (fun x => number (cprec d) (cemax d) x /\ Rabs (value x) <= 1) -> fconv (cprec d) (cemax d) l u v -> (b < fB u)%nat ->
  (forall c i j, (c < fC u)%nat -> (i < fH u)%nat -> (j < fW u)%nat -> Rabs (value (fget u b c i j) - f c i j) <= E /\ Rabs (f c i j) <= B) -> layer_within W (real_layer l) -> 0 <= B -> 0 <= E ->
  forall o i j Q F, room d (Z.of_nat (side l) * Q) F -> (0 <= Q)%Z -> batch_cells b u (within d Q F) -> (o < fB (fl_w l))%nat -> (i < fH u)%nat -> (j < fW u)%nat ->
  Rabs (value (fget v b o i j) - convf (real_layer l) (fH u) (fW u) f o i j) <= W * E + dot_err d (side l) (W * (B + E)).
Proof. intros Hd Hl Hw. rewrite <- bpow_0 in Hw. exact (conv_error_by d e n l u v b f B E W 0 Hd Hl Hw). Qed.

(** ** The numbers a step goes through *)
Lemma step_parts d c A T u u' b : dtype_ok d -> fcca_wf c -> tame_rule d c A T -> fstep d c u u' -> (b < fB u)%nat ->
  batch_cells b u (unit_number (sprec d) (semax d)) ->
  let P := cprec d in let X := cemax d in let st := fun x => up d (down d x) in
  let m := fmap (up d) (fmask (sprec d) (semax d) (f_thr c) u) in
  exists wlay idn nb gp upd n E n' E',
    f_wl c = FConv wlay /\ fconv P X (f_idl c) m idn /\ fconv P X (f_nbl c) m nb /\ fconv P X wlay gp upd /\
    (fB gp = fB u /\ fC gp = f_int c /\ fH gp = fH u /\ fW gp = fW u) /\
    batch_cells b m (within d 1 0) /\ room d (Z.of_nat (side (f_idl c)) * 1) 0 /\ room d (Z.of_nat (side (f_nbl c)) * 1) 0 /\ 
    room d (Z.of_nat (side wlay) * n) E /\ (0 <= n)%Z /\ batch_cells b gp (within d n E) /\ 
    batch_cells b idn (tight d) /\ batch_cells b nb (tight d) /\ batch_cells b upd (tight d) /\
    (forall k i j, (k < f_int c)%nat -> (i < fH u)%nat -> (j < fW u)%nat ->
       let x := st (fget idn b k i j) in let y := st (fget nb b k i j) in
       Rabs (value y) <= INR (side (f_nbl c)) /\
       exists g p, f_gen c k y g /\ f_per c k y p /\ number P X g /\ number P X p /\
         let a := fsub P X (fone P X) x in
         number P X a /\ tight d (fmul P X a g) /\ tight d (fmul P X x p) /\ tight d (fadd P X (st (fmul P X a g)) (st (fmul P X x p))) /\
         fget gp b k i j = st (fadd P X (st (fmul P X a g)) (st (fmul P X x p)))) /\
    (forall o i j, (o < fC u)%nat -> (i < fH u)%nat -> (j < fW u)%nat ->
       let y := st (fget upd b o i j) in
       number P X (fmul P X (f_dt c) y) /\ room d n' E' /\ within d n' E' (fadd P X (fget m b o i j) (fmul P X (f_dt c) y)) /\
       fget u' b o i j = down d (fclamp P X (fadd P X (fget m b o i j) (fmul P X (f_dt c) y)))).
Proof.
  intros H (W1 & W2 & W3) (F1 & F2 & (wlay & Ew & F3) & F4 & F5 & (F6 & F7) & A0 & T0 & Rm & RN & RI)
    (Ec & idn & nb & gp & upd & S1 & S2 & (G1 & G2 & G3 & G4 & G5) & S3 & U1 & U2 & U3 & U4 & U5) Hb Hu P0 X0 st m0.
  destruct (dtype_c d H) as [P1 P2]. destruct (dtype_s d H) as [Q1 Q2]. set (m := fmask (sprec d) (semax d) (f_thr c) u) in *.
  pose proof (mask_unit _ _ (f_thr c) u b Q1 Q2 Hu) as Gm. fold m in Gm. destruct (mask_shape (sprec d) (semax d) (f_thr c) u) as (M1 & M2 & M3 & M4). fold m in M1, M2, M3, M4.
  assert (Gm32 : batch_cells b (fmap (up d) m) (within d 1 0)).
  { intros o i j Ho Hi Hj. cbn [fmap fget fB fC fH fW] in *. destruct (Gm o i j Ho Hi Hj) as [N B]. destruct (up_number d _ H N) as [N' V']. split; [exact N'|]. rewrite V', bpow_0, Rabs_pos_eq; lra. }
  set (Ni := Z.of_nat (side (f_idl c))) in *. set (Nn := Z.of_nat (side (f_nbl c))) in *.
  pose proof W1 as (_ & _ & Hint & _ & W1a & _). pose proof W2 as (_ & _ & _ & _ & W2a & _).
  set (In := Z.of_nat (f_int c)) in *. assert (RI' : (In * (2 * Ni + 1) + 1 <= 2 ^ sprec d)%Z) by (unfold In, Ni; lia). clear RI.
  assert (I1 : (1 <= In)%Z) by (unfold In; lia). assert (Ni0 : (0 <= Ni)%Z) by (unfold Ni; lia). assert (Nn0 : (0 <= Nn)%Z) by (unfold Nn; lia).
  assert (RR : forall n E, (0 <= n)%Z -> (n <= In * (2 * Ni + 1) + 1)%Z -> (0 <= E)%Z -> (E <= A + T)%Z -> room d n E) by (intros n E; unfold room; lia).
  assert (RoI : room d (Ni * 1) 0) by (apply RR; nia). assert (RoN : room d (Nn * 1) 0) by (unfold room; lia).
  assert (Bi : batch_cells b idn (within d (Ni * 1) 0)) by (eapply (conv_within d _ _ (f_idl c)); try eassumption; try lia; cbn [fmap fB]; lia).
  assert (Bn : batch_cells b nb (within d (Nn * 1) 0)) by (eapply (conv_within d _ _ (f_nbl c)); try eassumption; try lia; cbn [fmap fB]; lia).
  pose proof S1 as (_ & _ & _ & _ & _ & X1 & X2 & X3 & X4 & _). pose proof S2 as (_ & _ & _ & _ & _ & J1 & J2 & J3 & J4 & _). cbn [fmap fB fC fH fW] in X1, X3, X4, J1, J3, J4.
  assert (Cell : forall k i j, (k < f_int c)%nat -> (i < fH u)%nat -> (j < fW u)%nat ->
       let x := st (fget idn b k i j) in let y := st (fget nb b k i j) in
       Rabs (value y) <= INR (side (f_nbl c)) /\
       exists g p, f_gen c k y g /\ f_per c k y p /\ number P0 X0 g /\ number P0 X0 p /\
         let a := fsub P0 X0 (fone P0 X0) x in
         number P0 X0 a /\ tight d (fmul P0 X0 a g) /\ tight d (fmul P0 X0 x p) /\ tight d (fadd P0 X0 (st (fmul P0 X0 a g)) (st (fmul P0 X0 x p))) /\
         fget (fmap (up d) gp) b k i j = st (fadd P0 X0 (st (fmul P0 X0 a g)) (st (fmul P0 X0 x p))) /\ within d (2 * Ni + 1) A (fget (fmap (up d) gp) b k i j)).
  { intros k i j Hk Hi Hj x y. destruct (G5 b k i j Hb Hk Hi Hj) as (g & p & E1 & E2 & E3).
    assert (Xi : within d Ni 0 x) by (apply stored; [exact H|apply RR; nia|rewrite <- (Z.mul_1_r Ni); apply Bi; congruence]).
    assert (Xn : within d Nn 0 y) by (apply stored; [exact H|unfold room; lia|rewrite <- (Z.mul_1_r Nn); apply Bn; congruence]).
    assert (Xn' : number (cprec d) (cemax d) y /\ Rabs (value y) <= INR (side (f_nbl c))).
    { destruct Xn as [Xa Xb]. split; [exact Xa|]. rewrite bpow_0, Rmult_1_r in Xb. unfold Nn in Xb. rewrite <- INR_IZR_INZ in Xb. exact Xb. }
    split; [exact (proj2 Xn')|]. exists g, p. split; [exact E1|]. split; [exact E2|].
    assert (Xg : within d 1 A g) by (destruct (F6 _ _ _ Xn' E1) as [Y1 Y2]; split; [exact Y1|]; rewrite Rmult_1_l; exact Y2).
    assert (Xp : within d 1 A p) by (destruct (F7 _ _ _ Xn' E2) as [Y1 Y2]; split; [exact Y1|]; rewrite Rmult_1_l; exact Y2).
    split; [exact (proj1 Xg)|]. split; [exact (proj1 Xp)|]. intros a.
    assert (Xa : within d (1 + Ni) 0 a) by (apply sub_within; [exact H|apply RR; nia|apply one_within; exact H|exact Xi]).
    assert (X5 : within d ((1 + Ni) * 1) A (fmul P0 X0 a g)) by (rewrite <- (Z.add_0_l A); apply mul_within; [exact H|apply RR; nia|lia|lia|exact Xa|exact Xg]).
    assert (X6 : within d (Ni * 1) A (fmul P0 X0 x p)) by (rewrite <- (Z.add_0_l A); apply mul_within; [exact H|apply RR; nia|lia|lia|exact Xi|exact Xp]).
    assert (X7 : within d ((1 + Ni) * 1 + Ni * 1) A (fadd P0 X0 (st (fmul P0 X0 a g)) (st (fmul P0 X0 x p)))).
    { apply add_within; [exact H|apply RR; nia|..]; apply stored; try assumption; apply RR; nia. }
    split; [exact (proj1 Xa)|]. split; [exists ((1 + Ni) * 1)%Z, A; split; [apply RR; nia|exact X5]|]. split; [exists (Ni * 1)%Z, A; split; [apply RR; nia|exact X6]|].
    split; [exists ((1 + Ni) * 1 + Ni * 1)%Z, A; split; [apply RR; nia|exact X7]|]. cbn [fmap fget]. rewrite E3. split; [reflexivity|].
    apply stored; [exact H|apply RR; nia|]. replace (2 * Ni + 1)%Z with ((1 + Ni) * 1 + Ni * 1)%Z by lia. exact X7. }
  assert (Bg : batch_cells b (fmap (up d) gp) (within d (2 * Ni + 1) A)).
  { intros k i j Hk Hi Hj. cbn [fmap fB fC fH fW] in Hk, Hi, Hj. rewrite G2 in Hk. rewrite G3 in Hi. rewrite G4 in Hj. destruct (Cell k i j Hk Hi Hj) as (_ & g & p & _ & _ & _ & _ & _ & _ & _ & _ & _ & Z). exact Z. }
  rewrite Ew in S3, W3. cbn [fwl fwl_wf] in S3, W3. destruct W3 as (W3 & Wp & Wg). pose proof W3 as (_ & _ & _ & _ & W3a & W3b). rewrite Wg, Nat.mul_1_l in W3b.
  assert (Sd : Z.of_nat (side wlay) = In) by (rewrite Wp, W3b; unfold In; lia).
  assert (RoW : room d (Z.of_nat (side wlay) * (2 * Ni + 1)) A) by (rewrite Sd; apply RR; nia).
  assert (Bd : batch_cells b upd (within d (Z.of_nat (side wlay) * (2 * Ni + 1)) A)) by (eapply (conv_within d _ _ wlay); try eassumption; [lia|cbn [fmap fB]; lia]).
  pose proof S3 as (_ & _ & _ & _ & _ & L1 & L2 & L3 & L4 & _). cbn [fmap fB fC fH fW] in L1, L3, L4.
  exists wlay, idn, nb, (fmap (up d) gp), upd, (2 * Ni + 1)%Z, A, (In * (2 * Ni + 1) + 1)%Z, (A + T)%Z.
  split; [exact Ew|]. split; [exact S1|]. split; [exact S2|]. split; [exact S3|]. split; [cbn [fmap fB fC fH fW]; auto|]. split; [exact Gm32|]. split; [exact RoI|]. split; [exact RoN|].
  split; [exact RoW|]. split; [lia|]. split; [exact Bg|].
  split; [intros k i j Hk Hi Hj; eexists _, _; split; [exact RoI|apply Bi; assumption]|].
  split; [intros k i j Hk Hi Hj; eexists _, _; split; [exact RoN|apply Bn; assumption]|].
  split; [intros k i j Hk Hi Hj; eexists _, _; split; [exact RoW|apply Bd; assumption]|].
  split.
  { intros k i j Hk Hi Hj x y. destruct (Cell k i j Hk Hi Hj) as (Z1 & g & p & Z2 & Z3 & Z4 & Z5 & Z6 & Z7 & Z8 & Z9 & Z10 & _). split; [exact Z1|]. exists g, p. repeat (split; [assumption|]). exact Z10. }
  intros o i j Ho Hi Hj y. rewrite U5 by assumption.
  assert (Xm : within d (1 * (In * (2 * Ni + 1))) (T + A) (fmul P0 X0 (f_dt c) y)).
  { apply mul_within; [exact H|apply RR; nia|lia|nia| |].
    - split; [exact F4|]. rewrite Rmult_1_l. exact F5.
    - apply stored; [exact H|apply RR; nia|]. rewrite <- Sd. apply Bd; congruence. }
  split; [exact (proj1 Xm)|]. split; [apply RR; nia|]. split; [|reflexivity].
  rewrite Z.add_comm. apply add_within; [exact H|apply RR; nia|..].
  - apply (within_le d 1 1 0 (A + T)); try lia. apply Gm32; cbn [fmap fB fC fH fW]; congruence.
  - rewrite (Z.add_comm A T). replace (In * (2 * Ni + 1))%Z with (1 * (In * (2 * Ni + 1)))%Z by lia. exact Xm.
Qed.
