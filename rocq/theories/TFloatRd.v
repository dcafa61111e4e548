(** Theorems about Gray-Scott automata in floating point: property C112. *)
From Coq Require Import Reals ZArith List Bool Lia Lra Arith Floats.SpecFloat.
From Verif Require Import Base Tensor MCommon MRd MFloat MFloatRd SGrid SCca SLip SLife SFloat SRound SFloatRd PTensor PRd PLipX PFloat PFloatX PFloatY PFloatZ PFloatE PFloatR PFloatRd PFloatRdE TFloat TRound.
Import ListNotations.
Open Scope R_scope.

(** Every universe with room for the kernels has a step. *)
Theorem C112_steps_exist p e c u : frd_wf c -> fC u = 2%nat -> has_room (g_idl c) u -> has_room (g_nbl c) u -> exists u', frd_step p e c u u' /\ fB u' = fB u /\ fC u' = fC u /\ fH u' = fH u /\ fW u' = fW u.
Proof. intros W HC R1 R2. destruct (frd_exists p e c u W HC R1 R2) as [u' S]. exists u'. split; [exact S|exact (frd_same p e c u u' S)]. Qed.

(** From any floats at all, after a step every cell is NaN or from 0 to 1. *)
Theorem C112_range p e c n u u' : (1 < p)%Z -> (p < e)%Z -> frd_wf c -> frd_floats p e c -> cells u (good p e) -> frd_runs p e c n u u' -> (0 < n)%nat -> cells u' (nan_or_unit p e).
Proof. exact (fun P1 P2 => frd_run_range p e c P1 P2 n u u'). Qed.

(** A NaN takes the other channel of its place with the next step ... *)
Theorem C112_nan p e c u u' b ch y x : frd_wf c -> frd_step p e c u u' -> (b < fB u)%nat -> (ch < fC u)%nat -> (y < fH u)%nat -> (x < fW u)%nat -> is_nan (fget u b ch y x) -> nan_at u' b y x.
Proof. exact (frd_nan_here p e c u u' b ch y x). Qed.

(** ... spreads in its own as far as the kernel reaches ... *)
Theorem C112_nan_run p e c r n u u' b ch y x s t : frd_wf c -> fl_p (g_nbl c) = r -> frd_runs p e c n u u' ->
  (b < fB u)%nat -> (ch < fC u)%nat -> (y < fH u)%nat -> (x < fW u)%nat -> is_nan (fget u b ch y x) ->
  (Z.abs s <= Z.of_nat (n * r))%Z -> (Z.abs t <= Z.of_nat (n * r))%Z -> is_nan (fget u' b ch (moved y s (fH u)) (moved x t (fW u))).
Proof. intros W Hr R. exact (frd_run_nan p e c r n u u' W Hr R b ch y x s t). Qed.

(** ... and fills both channels in the end. *)
Theorem C112_nan_all p e c r n u u' b ch y x : frd_wf c -> fl_p (g_nbl c) = r -> frd_runs p e c n u u' -> (b < fB u)%nat -> (ch < fC u)%nat -> (y < fH u)%nat -> (x < fW u)%nat ->
  is_nan (fget u b ch y x) -> (0 < n)%nat -> (fH u <= 2 * ((n - 1) * r) + 1)%nat -> (fW u <= 2 * ((n - 1) * r) + 1)%nat ->
  forall c' i j, (c' < fC u')%nat -> (i < fH u')%nat -> (j < fW u')%nat -> is_nan (fget u' b c' i j).
Proof. exact (frd_nan_all p e c r n u u' b ch y x). Qed.

(** Parameters within bounds never make one. *)
Theorem C112_no_nan p e c W X A T n u u' b : (1 < p)%Z -> (p < e)%Z -> frd_wf c -> tame_rd p e c W X A T -> frd_runs p e c n u u' -> (b < fB u)%nat ->
  batch_cells b u (unit_number p e) -> batch_cells b u' (unit_number p e).
Proof. exact (fun P1 P2 Wf Ht => frd_run_tame p e c W X A T P1 P2 Wf Ht n u u' b). Qed.

(** Where there is no v none comes into being, exactly: rounding does not seed the reaction. *)
Theorem C112_no_v p e c W X A T n u u' b : (1 < p)%Z -> (p < e)%Z -> frd_wf c -> tame_rd p e c W X A T -> apart (g_nbl c) -> frd_runs p e c n u u' -> (b < fB u)%nat ->
  batch_cells b u (unit_number p e) -> (forall i j, (i < fH u)%nat -> (j < fW u)%nat -> value (fget u b 1 i j) = 0) ->
  forall i j, (i < fH u)%nat -> (j < fW u)%nat -> value (fget u' b 1 i j) = 0.
Proof. exact (fun P1 P2 Wf Ht => frd_run_no_v p e c W X A T P1 P2 Wf Ht n u u' b). Qed.

(** The real automaton of the same weights and parameters takes the step too ... *)
Theorem C112_accepted p e c W X A T ic cfg rad u u' : frd_wf c -> tame_rd p e c W X A T -> frd_step p e c u u' -> (0 < fH u)%nat -> (0 < fW u)%nat ->
  exists v, rd_forward (real_rd c ic cfg rad) (real_tensor u) = Ok v.
Proof. intros Wf Ht S HH HW. eexists. exact (real_rd_accepts p e c W X A T Wf Ht ic cfg rad u u' S HH HW). Qed.

(** ... and every cell of the float step is within [frd_err] of its step. *)
Theorem C112_step p e c W X A T ic cfg rad K u u' v : (1 < p)%Z -> (p < e)%Z -> frd_wf c -> tame_rd p e c W X A T -> layer_within K (real_layer (g_nbl c)) -> cells u (unit_number p e) -> frd_step p e c u u' -> (0 < fH u)%nat -> (0 < fW u)%nat ->
  rd_forward (real_rd c ic cfg rad) (real_tensor u) = Ok v -> shape (real_tensor u') = shape v /\
  forall b o i j, (b < tB v)%nat -> (o < tC v)%nat -> (i < tH v)%nat -> (j < tW v)%nat -> Rabs (get (real_tensor u') b o i j - get v b o i j) <= frd_err p e c K o.
Proof. exact (fun P1 P2 Wf Ht => frd_close p e c W X A T P1 P2 Wf Ht ic cfg rad K u u' v). Qed.

(** Runs: the errors of the steps add up, multiplied by at most this factor per step (C98). *)
Theorem C112_run p e c W X A T ic cfg rad K n u u' : (1 < p)%Z -> (p < e)%Z -> frd_wf c -> tame_rd p e c W X A T -> layer_within K (real_layer (g_nbl c)) -> frd_runs p e c n u u' -> fC u = 2%nat -> cells u (unit_number p e) ->
  (0 < fB u)%nat -> (0 < fH u)%nat -> (0 < fW u)%nat -> has_room (g_idl c) u -> has_room (g_nbl c) u ->
  let q := 1 + Rabs (value (g_dt c)) * (Rmax (Rabs (value (g_du c))) (Rabs (value (g_dv c))) * K / value (g_dx c) ^ 2 + 3 + (Rabs (value (g_f c)) + Rabs (value (g_k c)))) in
  exists v, iter_res (rd_forward (real_rd c ic cfg rad)) n (real_tensor u) = Ok v /\ SLip.near (grown q (Rmax (frd_err p e c K 0) (frd_err p e c K 1)) 0 n) (real_tensor u') v.
Proof.
  intros P1 P2 Wf Ht HK R HC Hu HB HH HW R1 R2 q. destruct (frd_exists p e c u Wf HC R1 R2) as [w Sw].
  pose proof (real_rd_layers p e c Wf ic cfg rad u w Sw) as RL.
  assert (Wi : layer_within 1 (real_layer (g_idl c))).
  { destruct Ht as ((C1 & G & _ & Cw & V) & _). destruct R1 as (F1 & F2 & _). intros o Ho. unfold row_weight. cbn [real_layer cl_w] in *. change (tB (real_tensor (fl_w (g_idl c)))) with (fB (fl_w (g_idl c))) in Ho.
    change (tC (real_tensor (fl_w (g_idl c)))) with (fC (fl_w (g_idl c))). change (tH (real_tensor (fl_w (g_idl c)))) with (fH (fl_w (g_idl c))). change (tW (real_tensor (fl_w (g_idl c)))) with (fW (fl_w (g_idl c))). rewrite C1. cbn [rsum]. rewrite Rplus_0_l.
    assert (E : forall y x, (y < fH (fl_w (g_idl c)))%nat -> (x < fW (fl_w (g_idl c)))%nat -> Rabs (get (real_tensor (fl_w (g_idl c))) o 0 y x) = if Nat.eqb y (fl_p (g_idl c)) && Nat.eqb x (fl_p (g_idl c)) then 1 else 0).
    { intros y x Hy Hx. rewrite real_get by lia. rewrite V by assumption. destruct (_ && _)%bool; [apply Rabs_R1|apply Rabs_R0]. }
    rewrite (rsum_lone _ _ (fl_p (g_idl c))); [rewrite (rsum_lone _ _ (fl_p (g_idl c)))|..].
    - rewrite E by lia. rewrite Nat.eqb_refl. cbn [andb]. lra.
    - lia.
    - intros x Hx N. rewrite E by lia. destruct (Nat.eqb_spec x (fl_p (g_idl c))); [lia|]. rewrite andb_false_r. reflexivity.
    - lia.
    - intros y Hy N. rewrite (rsum_ext _ _ (fun _ => 0 * 0)); [rewrite rsum_scal; ring|]. intros x Hx. rewrite E by lia. destruct (Nat.eqb_spec y (fl_p (g_idl c))); [lia|]. cbn [andb]. ring. }
  pose proof (rd_spreads (real_rd c ic cfg rad) 1 K RL Wi HK) as Sp. cbn [real_rd rd_dt rd_du rd_dv rd_dx rd_f rd_k] in Sp. rewrite pow1, !Rmult_1_r in Sp. fold q in Sp.
  assert (K0 : 0 <= K) by (destruct Wf as (_ & (_ & _ & Hn & _ & B & _) & _); apply (within_nonneg K (real_layer (g_nbl c))); [cbn; lia|exact HK]).
  assert (q0 : 0 <= q).
  { unfold q. pose proof (Rabs_pos (value (g_dt c))) as H1. pose proof (Rabs_pos (value (g_f c))) as H2. pose proof (Rabs_pos (value (g_k c))) as H3.
    assert (H4 : 0 <= Rmax (Rabs (value (g_du c))) (Rabs (value (g_dv c)))) by (eapply Rle_trans; [apply Rabs_pos|apply Rmax_l]).
    destruct Ht as (_ & _ & _ & _ & _ & _ & _ & _ & _ & HX & _). pose proof (bpow_pos (- X)).
    assert (H5 : 0 <= Rmax (Rabs (value (g_du c))) (Rabs (value (g_dv c))) * K / value (g_dx c) ^ 2) by (unfold Rdiv; apply Rmult_le_pos; [apply Rmult_le_pos; assumption|apply Rlt_le, Rinv_0_lt_compat; lra]).
    set (z := Rmax _ _ * K / _) in *. assert (0 <= Rabs (value (g_dt c)) * (z + 3 + (Rabs (value (g_f c)) + Rabs (value (g_k c))))) by (apply Rmult_le_pos; lra). lra. }
  destruct (frd_run_near p e c W X A T P1 P2 Wf Ht ic cfg rad K q HK q0 Sp n u u' R HC Hu HB HH HW) as (v & E & _ & N). exists v. split; assumption.
Qed.

(** ** The class's parameters in float32 *)
Definition dx32 : fl := S754_finite false 13015052 (-32).
Definition du32 : fl := S754_finite false 10995116 (-39).
Definition dv32 : fl := S754_finite false 10995116 (-40).
Definition feed32 : fl := S754_finite false 16642998 (-28).
Definition kill32 : fl := S754_finite false 16347719 (-28).

(** U-Skate world: any kernel with weights within 2^86 and fewer than 2^24 cells is tame. *)
Theorem C112_class il nl W : (0 <= W <= 86)%Z -> passes_on 24 128 il -> cells (fl_w nl) (fun x => number 24 128 x /\ Rabs (value x) <= bpow W) -> (Z.of_nat (window_size nl) + 4 <= 2 ^ 24)%Z ->
  tame_rd 24 128 (mkFrd il nl dx32 half32 du32 dv32 feed32 kill32) W 17 0 0.
Proof.
  intros HW Ps Wn Sz. assert (U : forall x, unit_number 24 128 x -> number 24 128 x /\ Rabs (value x) <= bpow 0) by (intros x H; rewrite bpow_0; apply abs32, H).
  split; [exact Ps|]. split; [exact Wn|]. cbn [g_dx g_dt g_du g_dv g_f g_k g_nbl]. do 5 (split; [apply U, unit32; reflexivity|]). split; [split; [exact Logic.I|reflexivity]|]. split; [apply U, unit32; reflexivity|].
  split; [|repeat split; try lia; exact Sz]. cbn [value dx32]. change (-32)%Z with (- (32))%Z. change (- (17))%Z with (Z.opp 17). rewrite !bpow_inv by lia. change (2 ^ 17)%Z with 131072%Z. change (2 ^ 32)%Z with 4294967296%Z. lra.
Qed.

Definition mhalf32 : fl := S754_finite true 8388608 (-24).
Definition id2 : ftensor := mkF 2 1 3 3 (fun _ _ y x => if Nat.eqb y 1 && Nat.eqb x 1 then one32 else fzero).
Definition lap2 : ftensor := mkF 2 1 3 3 (fun _ _ y x => if Nat.eqb y 1 && Nat.eqb x 1 then mhalf32 else if Nat.eqb y 1 || Nat.eqb x 1 then eighth32 else fzero).
Definition ex_frd : frd := mkFrd (mkFL id2 2 1 Circular) (mkFL lap2 2 1 Circular) dx32 half32 du32 dv32 feed32 kill32.
(** Batch 0: u = 1 with a spot of u = v = 1/2; batch 1 with a NaN; batch 2 without v. *)
Definition ex_spots : ftensor := mkF 3 2 5 5 (fun b ch i j => match b, ch, i, j with 1%nat, 1%nat, 0%nat, 0%nat => S754_nan | 2%nat, 1%nat, _, _ => fzero | _, _, 2%nat, 2%nat => half32 | _, 0%nat, _, _ => one32 | _, _, _, _ => fzero end).
Definition ex_spot : ftensor := mkF 1 2 5 5 (fget ex_spots).

Lemma value_mhalf : value mhalf32 = - (1 / 2).
Proof. cbn [value mhalf32]. change (-24)%Z with (- (24))%Z. rewrite bpow_inv by lia. change (2 ^ 24)%Z with 16777216%Z. lra. Qed.
Lemma ex_frd_wf : frd_wf ex_frd.
Proof. split; [repeat split; cbn; try lia; exists 1%nat; lia|]. split; [repeat split; cbn; try lia; exists 1%nat; lia|split; reflexivity]. Qed.
Lemma ex_frd_step u : fC u = 2%nat -> fH u = 5%nat -> fW u = 5%nat -> exists u', frd_step 24 128 ex_frd u u'.
Proof. intros E1 E2 E3. apply frd_exists; [exact ex_frd_wf|exact E1|unfold has_room; rewrite E2, E3; repeat split; reflexivity || (cbn; lia)..]. Qed.
Lemma ex_frd_tame : tame_rd 24 128 ex_frd 0 17 0 0.
Proof.
  apply C112_class; [lia|..].
  - split; [reflexivity|]. split; [cbn; lia|]. split; [exists 1%nat; reflexivity|]. split.
    + intros b ch y x _ _ _ _. cbn. destruct (_ && _)%bool; split; (exact Logic.I || reflexivity).
    + intros o y x _ _ _. cbn. destruct (_ && _)%bool; [exact one32_value|reflexivity].
  - rewrite bpow_0. intros b ch y x _ _ _ _. cbn. destruct (_ && _)%bool; [|destruct (_ || _)%bool; apply abs32, unit32; reflexivity]. split; [split; [exact Logic.I|reflexivity]|].
    rewrite value_mhalf, Rabs_left; lra.
  - vm_compute. discriminate.
Qed.
Lemma ex_frd_within : layer_within 1 (real_layer (g_nbl ex_frd)).
Proof.
  assert (Z : Rabs (value fzero) = 0) by (cbn; apply Rabs_R0). assert (O : Rabs (value mhalf32) = 1 / 2) by (rewrite value_mhalf, Rabs_left; lra). assert (E : Rabs (value eighth32) = 1 / 8) by (rewrite value_eighth; apply Rabs_pos_eq; lra).
  intros o Ho; cbn in Ho. assert (Ho' : o = 0%nat \/ o = 1%nat) by lia. destruct Ho' as [-> | ->]; unfold row_weight; cbn [real_layer cl_w ex_frd g_nbl fl_w real_tensor build tC tH tW]; cbv -[value fzero mhalf32 eighth32 Rabs Rplus Rle R1 R0 IZR Rdiv]; rewrite ?Z, ?O, ?E; lra.
Qed.
Lemma ex_spot_cells : cells ex_spot (unit_number 24 128).
Proof. intros b ch i j H1 H2 _ _. cbn in H1, H2. replace b with 0%nat by lia. assert (C : ch = 0%nat \/ ch = 1%nat) by lia. destruct C as [-> | ->]; cbn; destruct i as [|[|[|i]]]; try destruct j as [|[|[|j]]]; apply unit32; reflexivity. Qed.

Lemma ex_frd_err : frd_err 24 128 ex_frd 1 0 <= 1 / 400000 /\ frd_err 24 128 ex_frd 1 1 <= 1 / 400000.
Proof.
  assert (Vx : value dx32 = 13015052 / 4294967296) by (cbn [value dx32]; change (-32)%Z with (- (32))%Z; rewrite bpow_inv by lia; change (2 ^ 32)%Z with 4294967296%Z; lra).
  assert (Vu : value du32 = 10995116 / 549755813888) by (cbn [value du32]; change (-39)%Z with (- (39))%Z; rewrite bpow_inv by lia; change (2 ^ 39)%Z with 549755813888%Z; lra).
  assert (Vv : value dv32 = 10995116 / 1099511627776) by (cbn [value dv32]; change (-40)%Z with (- (40))%Z; rewrite bpow_inv by lia; change (2 ^ 40)%Z with 1099511627776%Z; lra).
  assert (Vf : value feed32 = 16642998 / 268435456) by (cbn [value feed32]; change (-28)%Z with (- (28))%Z; rewrite bpow_inv by lia; change (2 ^ 28)%Z with 268435456%Z; lra).
  assert (Vk : value kill32 = 16347719 / 268435456) by (cbn [value kill32]; change (-28)%Z with (- (28))%Z; rewrite bpow_inv by lia; change (2 ^ 28)%Z with 268435456%Z; lra).
  assert (Vh : value half32 = 1 / 2) by (cbn [value half32]; change (-24)%Z with (- (24))%Z; rewrite bpow_inv by lia; change (2 ^ 24)%Z with 16777216%Z; lra).
  assert (D9 : 0 <= dot_err f32 9 1 <= 19 / 16777216).
  { unfold dot_err. rewrite unit_round_32, half_step_32. cbn [Nat.mul Nat.add Nat.sub INR pow]. lra. }
  assert (Hh : 0 <= half_step f32 <= / 2 ^ 60) by (rewrite half_step_32; cbn [pow]; lra). cbn [pow] in Hh.
  unfold frd_err. change (window_size (g_nbl ex_frd)) with 9%nat. cbn [ex_frd g_dx g_dt g_du g_dv g_f g_k]. rewrite Vx, Vu, Vv, Vf, Vk, Vh. change (Native 24 128) with f32. rewrite !Rabs_pos_eq by lra.
  unfold euler_err, u_err, v_err, reaction_err, diffusion_err, nabla_err. set (D := dot_err f32 9 1) in *. unfold rd. rewrite unit_round_32. set (h := half_step f32) in *. clearbody D h. cbn [pow]. rewrite Rmult_1_r.
  set (X := 13015052 / 4294967296 * (13015052 / 4294967296)). assert (BX : 9 / 1000000 <= X <= 10 / 1000000) by (unfold X; lra).
  set (Z := 1 / X). assert (BZ : 108800 <= Z <= 109000).
  { unfold Z. assert (EX : X * (1 / X) = 1) by (field; lra). assert (9182 / 1000000000 <= X <= 9183 / 1000000000) by (unfold X; lra). set (z := 1 / X) in *. clearbody z X. clear - EX H. split; nra. }
  match goal with |- context [(D + ?a) / ?b] => set (Q := (D + a) / b); assert (BQ : 0 <= Q <= 14 / 100) end.
  { unfold Q. assert (B1 : 0 <= Z * (0 + (/ 16777216 * (X + 0) + h)) <= / 15000000).
    { assert (0 <= 0 + (/ 16777216 * (X + 0) + h) <= / 16777216 * (101 / 10000000)) by lra. split; [apply Rmult_le_pos; lra|]. eapply Rle_trans; [apply Rmult_le_compat; [lra|lra|apply (proj2 BZ)|apply (proj2 H)]|]. lra. }
    match goal with |- 0 <= ?n / ?b <= _ => assert (Bn : 0 <= n <= 21 / 16777216) by lra; assert (Bb : 899 / 100000000 <= b) by lra; set (nn := n) in *; set (bb := b) in * end.
    assert (E : bb * (nn / bb) = nn) by (field; lra). set (q := nn / bb) in *. clearbody q nn bb. clear - E Bn Bb. split; nra. }
  set (x0 := / 16777216) in *. assert (U0 : x0 = / 16777216) by reflexivity. clearbody x0.
  set (n1 := Q + (x0 * (Z + Q) + h)). assert (N1 : 0 <= n1 <= 15 / 100).
  { unfold n1. rewrite U0. lra. }
  assert (DU : 0 <= 10995116 / 549755813888 <= 20001 / 1000000000) by lra. assert (DV : 0 <= 10995116 / 1099511627776 <= 20001 / 2000000000) by lra.
  set (du := 10995116 / 549755813888) in *. set (dv := 10995116 / 1099511627776) in *.
  assert (A1 : 0 <= du * Z <= 22 / 10) by (split; [apply Rmult_le_pos; lra|eapply Rle_trans; [apply Rmult_le_compat; [lra|lra|apply (proj2 DU)|apply (proj2 BZ)]|lra]]).
  assert (A2 : 0 <= dv * Z <= 11 / 10) by (split; [apply Rmult_le_pos; lra|eapply Rle_trans; [apply Rmult_le_compat; [lra|lra|apply (proj2 DV)|apply (proj2 BZ)]|lra]]).
  assert (A3 : 0 <= du * n1 <= 3001 / 1000000000) by (split; [apply Rmult_le_pos; lra|eapply Rle_trans; [apply Rmult_le_compat; [lra|lra|apply (proj2 DU)|apply (proj2 N1)]|lra]]).
  assert (A4 : 0 <= dv * n1 <= 1501 / 1000000000) by (split; [apply Rmult_le_pos; lra|eapply Rle_trans; [apply Rmult_le_compat; [lra|lra|apply (proj2 DV)|apply (proj2 N1)]|lra]]).
  set (du1 := du * Z) in *. set (dv1 := dv * Z) in *. set (du2 := du * n1) in *. set (dv2 := dv * n1) in *. clearbody du1 dv1 du2 dv2. rewrite U0. clear - Hh A1 A2 A3 A4. split; lra.
Qed.

Lemma ex_frd_floats : frd_floats 24 128 ex_frd.
Proof. split; [intros b ch y x _ _ _ _; cbn; destruct (_ && _)%bool; reflexivity|]. split; [intros b ch y x _ _ _ _; cbn; destruct (_ && _)%bool; [|destruct (_ || _)%bool]; reflexivity|]. repeat split; reflexivity. Qed.
Lemma ex_spots_good : cells ex_spots (good 24 128).
Proof. intros b ch i j H1 H2 _ _. cbn in H1, H2. assert (B : b = 0%nat \/ b = 1%nat \/ b = 2%nat) by lia. assert (C : ch = 0%nat \/ ch = 1%nat) by lia. destruct B as [-> |[-> | ->]], C as [-> | ->]; cbn; try destruct i as [|[|[|i]]]; try destruct j as [|[|[|j]]]; reflexivity. Qed.
Lemma ex_frd_run n u : fC u = 2%nat -> fH u = 5%nat -> fW u = 5%nat -> exists u', frd_runs 24 128 ex_frd n u u'.
Proof.
  intros E1 E2 E3. induction n as [|n [w Hw]]; [exists u; constructor|]. destruct (frd_runs_same 24 128 ex_frd n u w Hw) as (_ & F2 & F3 & F4).
  destruct (ex_frd_step w) as [z Hz]; try congruence. exists z. econstructor; eassumption.
Qed.

(** A run from spots, one batch with a NaN and one without v. *)
Example C112_example : frd_wf ex_frd /\ frd_floats 24 128 ex_frd /\ tame_rd 24 128 ex_frd 0 17 0 0 /\ apart (g_nbl ex_frd) /\ fl_p (g_nbl ex_frd) = 1%nat /\ has_room (g_idl ex_frd) ex_spots /\ has_room (g_nbl ex_frd) ex_spots /\
  cells ex_spots (good 24 128) /\ is_nan (fget ex_spots 1 1 0 0) /\ (5 <= 2 * ((3 - 1) * 1) + 1)%nat /\ batch_cells 0 ex_spots (unit_number 24 128) /\ batch_cells 2 ex_spots (unit_number 24 128) /\
  (forall i j, (i < 5)%nat -> (j < 5)%nat -> value (fget ex_spots 2 1 i j) = 0) /\
  exists u', frd_runs 24 128 ex_frd 3 ex_spots u' /\ (forall c' i j, (c' < 2)%nat -> (i < 5)%nat -> (j < 5)%nat -> is_nan (fget u' 1 c' i j)) /\ batch_cells 0 u' (unit_number 24 128) /\ (forall i j, (i < 5)%nat -> (j < 5)%nat -> value (fget u' 2 1 i j) = 0).
Proof.
  assert (B0 : batch_cells 0 ex_spots (unit_number 24 128)) by (intros ch i j H1 H2 H3; exact (ex_spot_cells 0%nat ch i j ltac:(cbn; lia) H1 H2 H3)).
  assert (B2 : batch_cells 2 ex_spots (unit_number 24 128)) by (intros ch i j H1 _ _; cbn in H1; assert (C : ch = 0%nat \/ ch = 1%nat) by lia; destruct C as [-> | ->]; cbn; try destruct i as [|[|[|i]]]; try destruct j as [|[|[|j]]]; apply unit32; reflexivity).
  assert (V2 : forall i j, (i < 5)%nat -> (j < 5)%nat -> value (fget ex_spots 2 1 i j) = 0) by (intros i j _ _; reflexivity).
  assert (Ap : apart (g_nbl ex_frd)) by (split; reflexivity).
  repeat (split; [first [exact ex_frd_wf|exact ex_frd_floats|exact ex_frd_tame|exact Ap|exact ex_spots_good|exact B0|exact B2|exact V2|exact Logic.I|reflexivity|(cbn; lia)|(repeat split; reflexivity || (cbn; lia))]|]).
  destruct (ex_frd_run 3 ex_spots eq_refl eq_refl eq_refl) as [u' R]. exists u'. destruct (frd_runs_same _ _ _ _ _ _ R) as (F1 & F2 & F3 & F4). split; [exact R|]. split; [|split].
  - intros c' i j H1 H2 H3. apply (C112_nan_all 24 128 ex_frd 1 3 ex_spots u' 1 1 0 0 ex_frd_wf eq_refl R); try (cbn; lia); try reflexivity; try rewrite F2; try rewrite F3; try rewrite F4; assumption.
  - exact (C112_no_nan 24 128 ex_frd 0 17 0 0 3 ex_spots u' 0 ltac:(lia) ltac:(lia) ex_frd_wf ex_frd_tame R ltac:(cbn; lia) B0).
  - exact (C112_no_v 24 128 ex_frd 0 17 0 0 3 ex_spots u' 2 ltac:(lia) ltac:(lia) ex_frd_wf ex_frd_tame Ap R ltac:(cbn; lia) B2 V2).
Qed.

(** U-Skate world with a kernel of weight 1: steps off by at most 1/400000. *)
Example C112_step_example : layer_within 1 (real_layer (g_nbl ex_frd)) /\ cells ex_spot (unit_number 24 128) /\ exists u' v, frd_step 24 128 ex_frd ex_spot u' /\
  rd_forward (real_rd ex_frd None None (PyDict.VNum 0)) (real_tensor ex_spot) = Ok v /\ close (1 / 400000) (real_tensor u') v.
Proof.
  split; [exact ex_frd_within|]. split; [exact ex_spot_cells|]. destruct (ex_frd_step ex_spot eq_refl eq_refl eq_refl) as [u' S].
  destruct (C112_accepted 24 128 ex_frd 0 17 0 0 None None (PyDict.VNum 0) ex_spot u' ex_frd_wf ex_frd_tame S ltac:(cbn; lia) ltac:(cbn; lia)) as [v E].
  destruct (C112_step 24 128 ex_frd 0 17 0 0 None None (PyDict.VNum 0) 1 ex_spot u' v ltac:(lia) ltac:(lia) ex_frd_wf ex_frd_tame ex_frd_within ex_spot_cells S ltac:(cbn; lia) ltac:(cbn; lia) E) as [Sh Cl].
  exists u', v. split; [exact S|]. split; [exact E|]. intros b c i j H1 H2 H3 H4.
  assert (C : tC v = 2%nat) by (change 2%nat with (fC ex_spot); rewrite <- (proj1 (proj2 (frd_same _ _ _ _ _ S))); change (fC u') with (tC (real_tensor u')); clear - Sh; unfold shape in Sh; set (w := real_tensor u') in *; clearbody w; congruence).
  eapply Rle_trans; [apply Cl; assumption|]. destruct ex_frd_err as [E0 E1]. assert (Cc : c = 0%nat \/ c = 1%nat) by (rewrite C in *; lia). destruct Cc as [-> | ->]; assumption.
Qed.

(** A run of two steps of it. *)
Example C112_run_example : exists q u' v, frd_runs 24 128 ex_frd 2 ex_spot u' /\ iter_res (rd_forward (real_rd ex_frd None None (PyDict.VNum 0))) 2 (real_tensor ex_spot) = Ok v /\
  SLip.near (grown q (Rmax (frd_err 24 128 ex_frd 1 0) (frd_err 24 128 ex_frd 1 1)) 0 2) (real_tensor u') v.
Proof.
  destruct (ex_frd_run 2 ex_spot eq_refl eq_refl eq_refl) as [u' R].
  destruct (C112_run 24 128 ex_frd 0 17 0 0 None None (PyDict.VNum 0) 1 2 ex_spot u' ltac:(lia) ltac:(lia) ex_frd_wf ex_frd_tame ex_frd_within R eq_refl ex_spot_cells ltac:(cbn; lia) ltac:(cbn; lia) ltac:(cbn; lia)) as (v & E & N).
  - repeat split; reflexivity || (cbn; lia).
  - repeat split; reflexivity || (cbn; lia).
  - eexists; exists u', v. split; [exact R|]. split; [exact E|exact N].
Qed.

(** The kernels of the example are a case of the class. *)
Example C112_class_example : passes_on 24 128 (g_idl ex_frd) /\ (Z.of_nat (window_size (g_nbl ex_frd)) + 4 <= 2 ^ 24)%Z /\ fmul 24 128 dx32 dx32 = S754_finite false 10096525 (-40) /\
  frate 24 128 ex_frd 0 half32 half32 mhalf32 mhalf32 = S754_finite true 9923724 (-23).
Proof. split; [exact (proj1 ex_frd_tame)|]. split; [vm_compute; discriminate|]. split; vm_compute; reflexivity. Qed.

Print Assumptions C112_steps_exist.
Print Assumptions C112_range.
Print Assumptions C112_nan.
Print Assumptions C112_nan_run.
Print Assumptions C112_nan_all.
Print Assumptions C112_no_nan.
Print Assumptions C112_no_v.
Print Assumptions C112_accepted.
Print Assumptions C112_step.
Print Assumptions C112_run.
Print Assumptions C112_class.
