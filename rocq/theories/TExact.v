(** Theorems about sums in floats that are free of error: property C113. *)
From Coq Require Import Reals ZArith List Bool Lia Lra Arith Permutation Floats.SpecFloat.
From Verif Require Import Base Tensor MCommon MRd MFloat MFloatRd SGrid SLip SLife SFloat SRound SFloatRd SExact PTensor PFloat PFloatX PFloatY PFloatZ PFloatE PFloatR PFloatD PFloatRd PFloatRdE PExact TFloat TRound TFloatRd.
Import ListNotations.
Open Scope R_scope.

(** Products of multiples of 2^E1 and 2^E2 that weigh at most 2^(prec+E1+E2) together are added
    without error, in whatever order and with or without fused steps. *)
Theorem C113_sum p e l s E1 E2 : (1 < p)%Z -> (p < e)%Z -> total p e l s -> (forall x y, In (x, y) l -> multiple p e E1 x /\ multiple p e E2 y) -> weight_of l <= bpow (p + (E1 + E2)) ->
  (emin p e <= E1 + E2)%Z -> (p + (E1 + E2) < e)%Z -> number p e s /\ value s = sum_of l.
Proof.
  intros P1 P2 T H M HE HM. rewrite sum_of_dot. rewrite weight_of_mass in M. apply (total_exact p e P1 P2 (E1 + E2)); auto. apply Forall_forall. intros [x y] I.
  destruct (H x y I) as [[N1 [a A]] [N2 [c C]]]. split; [exact N1|]. split; [exact N2|]. exists (a * c)%Z. cbn [fst snd]. rewrite A, C, mult_IZR, bpow_add. ring.
Qed.

(** Layers: the convolution over real numbers, to the last bit. *)
Theorem C113_conv p e n m l u v E1 E2 K B : (1 < p)%Z -> (p < e)%Z -> flayer_wf n m l -> fconv p e l u v -> (0 < fH u)%nat -> (0 < fW u)%nat ->
  cells (fl_w l) (multiple p e E1) -> cells u (fun x => multiple p e E2 x /\ Rabs (value x) <= B) -> layer_within K (real_layer l) -> 0 <= B ->
  K * B <= bpow (p + (E1 + E2)) -> (emin p e <= E1 + E2)%Z -> (p + (E1 + E2) < e)%Z ->
  conv_apply (real_layer l) (real_tensor u) = Ok (real_tensor v) /\ cells v (number p e).
Proof. exact (fun P1 P2 => conv_exact_apply p e P1 P2 n m l u v E1 E2 K B). Qed.

(** With 1/8 around a centre of 0 a universe of zeros and ones has its live neighbours counted
    exactly, in every format with 3 bits or more. *)
Theorem C113_counts p e l u v b (g : board) i j : (3 <= p)%Z -> (p < e)%Z -> flayer_wf 1 1 l -> fl_m l = Circular -> fl_p l = 1%nat -> fconv p e l u v -> cells (fl_w l) (number p e) ->
  (forall y x, (y < 3)%nat -> (x < 3)%nat -> value (fget (fl_w l) 0 0 y x) = if Nat.eqb y 1 && Nat.eqb x 1 then 0 else 1 / 8) ->
  (b < fB u)%nat -> (forall y x, (y < fH u)%nat -> (x < fW u)%nat -> number p e (fget u b 0 y x) /\ value (fget u b 0 y x) = if g y x then 1 else 0) ->
  (i < fH u)%nat -> (j < fW u)%nat -> number p e (fget v b 0 i j) /\ value (fget v b 0 i j) = INR (live_neighbours (fH u) (fW u) g i j) / 8.
Proof. intros P1 P2 W C1 C2 Hc Cn V Hb Hg. exact (count_exact p e ltac:(lia) P2 l u v b g i j W C1 C2 Hc P1 Cn V Hb Hg). Qed.

(** Gray-Scott: where the weights cancel out, u = 1 without v stays so for ever, exactly. *)
Theorem C113_background p e c n u u' b E K : (1 < p)%Z -> (p < e)%Z -> frd_wf c -> passes_on p e (g_idl c) -> apart (g_nbl c) -> cells (fl_w (g_nbl c)) (multiple p e E) -> layer_within K (real_layer (g_nbl c)) -> cancels (g_nbl c) ->
  K <= bpow (p + E) -> (emin p e <= E)%Z -> (p + E < e)%Z -> sound_rd p e c -> frd_runs p e c n u u' -> (b < fB u)%nat -> full_u p e u b -> full_u p e u' b.
Proof.
  intros P1 P2 W Ps Ap Cw HK Z Fit HE HM Sd R Hb Fu. induction R as [u|n u w u' R IH S]; [exact Fu|].
  destruct (frd_runs_same p e c n u w R) as (F1 & _). eapply (full_step p e P1 P2 c w u' b E K); eauto. rewrite F1. exact Hb.
Qed.

(** Beyond that weight it need not be: 2^24 + 1 in float32. *)
Theorem C113_heavier_refuted : exists l s, total 24 128 l s /\ (forall x y, In (x, y) l -> multiple 24 128 0 x /\ multiple 24 128 0 y) /\ weight_of l <= bpow (24 + (0 + 0)) + 1 /\ value s <> sum_of l.
Proof.
  set (a := S754_finite false 8388608 1). exists ([(one32, one32)] ++ [(a, one32)]), (fadd 24 128 (fmul 24 128 one32 one32) (fmul 24 128 a one32)).
  assert (Va : value a = 16777216) by (cbn [value a]; rewrite bpow_1; lra). assert (Vo := one32_value).
  split; [apply total_app; apply total_one|]. split; [|split].
  - intros x y [E|[E|[]]]; injection E as <- <-; repeat split; try reflexivity; try (exists 1%Z; rewrite Vo, bpow_0; ring). exists 16777216%Z. rewrite Va, bpow_0. ring.
  - unfold weight_of. cbn [map app fold_right fst snd]. rewrite Va, Vo, !Rabs_pos_eq by lra. rewrite bpow_Z by lia. change (2 ^ (24 + (0 + 0)))%Z with 16777216%Z. lra.
  - assert (Es : fadd 24 128 (fmul 24 128 one32 one32) (fmul 24 128 a one32) = a) by (vm_compute; reflexivity). rewrite Es, Va. unfold sum_of. cbn [map app fold_right fst snd]. rewrite Va, Vo. apply Rlt_not_eq. lra.
Qed.

(** The nine-point stencil of get_laplacian_kernel for both channels. *)
Definition quarter32 : fl := S754_finite false 8388608 (-25).
Definition mthree32 : fl := S754_finite true 12582912 (-22).
Definition nine2 : ftensor := mkF 2 1 3 3 (fun _ _ y x => if Nat.eqb y 1 && Nat.eqb x 1 then mthree32 else if Nat.eqb y 1 || Nat.eqb x 1 then half32 else quarter32).
Definition ex_nine : frd := mkFrd (mkFL id2 2 1 Circular) (mkFL nine2 2 1 Circular) dx32 half32 du32 dv32 feed32 kill32.
Definition ex_full : ftensor := mkF 1 2 5 5 (fun _ ch _ _ => match ch with 0%nat => one32 | _ => fzero end).

Lemma value_quarter : value quarter32 = 1 / 4.
Proof. cbn [value quarter32]. change (-25)%Z with (- (25))%Z. rewrite bpow_inv by lia. change (2 ^ 25)%Z with 33554432%Z. lra. Qed.
Lemma value_half : value half32 = 1 / 2.
Proof. cbn [value half32]. change (-24)%Z with (- (24))%Z. rewrite bpow_inv by lia. change (2 ^ 24)%Z with 16777216%Z. lra. Qed.
Lemma value_mthree : value mthree32 = - (3).
Proof. cbn [value mthree32]. change (-22)%Z with (- (22))%Z. rewrite bpow_inv by lia. change (2 ^ 22)%Z with 4194304%Z. lra. Qed.

Lemma bpow_m2 : bpow (-2) = 1 / 4.
Proof. change (-2)%Z with (- (2))%Z. rewrite bpow_inv by lia. change (2 ^ 2)%Z with 4%Z. lra. Qed.
Lemma nine_multiple : cells nine2 (multiple 24 128 (-2)).
Proof.
  intros b c y x _ _ _ _. cbn [nine2 fget]. destruct (_ && _)%bool; [|destruct (_ || _)%bool]; (split; [split; [exact Logic.I|reflexivity]|]).
  - exists (-12)%Z. rewrite value_mthree, bpow_m2. lra.
  - exists 2%Z. rewrite value_half, bpow_m2. lra.
  - exists 1%Z. rewrite value_quarter, bpow_m2. lra.
Qed.
Lemma nine_within : layer_within 6 (real_layer (mkFL nine2 2 1 Circular)).
Proof.
  assert (M : Rabs (value mthree32) = 3) by (rewrite value_mthree, Rabs_left; lra). assert (H : Rabs (value half32) = 1 / 2) by (rewrite value_half; apply Rabs_pos_eq; lra). assert (Q : Rabs (value quarter32) = 1 / 4) by (rewrite value_quarter; apply Rabs_pos_eq; lra).
  intros o Ho; cbn in Ho. assert (Ho' : o = 0%nat \/ o = 1%nat) by lia. destruct Ho' as [-> | ->]; unfold row_weight; cbn [real_layer cl_w fl_w real_tensor build tC tH tW]; cbv -[value quarter32 mthree32 half32 Rabs Rplus Rle R1 R0 IZR Rdiv]; rewrite ?M, ?H, ?Q; lra.
Qed.
Lemma nine_cancels : cancels (mkFL nine2 2 1 Circular).
Proof.
  intros o c Ho Hc. cbn [fl_w fH fW nine2 fget rsum Nat.eqb andb orb]. rewrite value_mthree, value_half, value_quarter. lra.
Qed.
Lemma nine_sound : sound_rd 24 128 ex_nine.
Proof.
  unfold sound_rd. cbn [ex_nine g_du g_dv g_f g_k g_dt g_dx]. set (s := fadd _ _ _ _). vm_compute in s. set (t := fmul _ _ _ _). vm_compute in t. subst s t.
  repeat (split; [split; [exact Logic.I|reflexivity]|]). cbn [value]. apply Rmult_lt_0_compat; [lra|apply bpow_pos].
Qed.

(** U-Skate world with that stencil is tame (C112). *)
Lemma nine_tame : tame_rd 24 128 ex_nine 2 17 0 0.
Proof.
  apply C112_class; [lia|exact (proj1 ex_frd_tame)| |vm_compute; discriminate]. assert (E : bpow 2 = 4) by (rewrite bpow_Z by lia; reflexivity). rewrite E.
  intros b c y x _ _ _ _. cbn [fl_w nine2 fget]. destruct (_ && _)%bool; [|destruct (_ || _)%bool]; (split; [split; [exact Logic.I|reflexivity]|]); [rewrite value_mthree, Rabs_left|rewrite value_half, Rabs_pos_eq|rewrite value_quarter, Rabs_pos_eq]; lra.
Qed.

(** 1 * 1/2 - 3 * 1/4 in float32. *)
Example C113_sum_example : exists s, let l := [(one32, half32); (mthree32, quarter32)] in total 24 128 l s /\ (forall x y, In (x, y) l -> multiple 24 128 0 x /\ multiple 24 128 (-2) y) /\ weight_of l <= bpow (24 + (0 + -2)) /\ value s = - (1 / 4).
Proof.
  exists (ffma 24 128 one32 half32 (fmul 24 128 mthree32 quarter32)). cbv zeta. set (l := [_; _]).
  assert (T : total 24 128 l (ffma 24 128 one32 half32 (fmul 24 128 mthree32 quarter32))) by (apply total_fma, total_one).
  assert (M : forall x y, In (x, y) l -> multiple 24 128 0 x /\ multiple 24 128 (-2) y).
  { intros x y [E|[E|[]]]; injection E as <- <-; split; (split; [split; [exact Logic.I|reflexivity]|]).
    - exists 1%Z. rewrite one32_value, bpow_0. ring.
    - exists 2%Z. rewrite value_half, bpow_m2. lra.
    - exists (-3)%Z. rewrite value_mthree, bpow_0. lra.
    - exists 1%Z. rewrite value_quarter, bpow_m2. lra. }
  assert (Wt : weight_of l <= bpow (24 + (0 + -2))).
  { unfold weight_of, l. cbn [map fold_right fst snd]. rewrite one32_value, value_half, value_mthree, value_quarter. rewrite bpow_Z by lia. change (2 ^ (24 + (0 + -2)))%Z with 4194304%Z.
    rewrite (Rabs_pos_eq (1 * (1 / 2))) by lra. rewrite (Rabs_left (- (3) * (1 / 4))) by lra. lra. }
  split; [exact T|]. split; [exact M|]. split; [exact Wt|].
  rewrite (proj2 (C113_sum 24 128 l _ 0 (-2) ltac:(lia) ltac:(lia) T M Wt ltac:(unfold emin; lia) ltac:(lia))). unfold sum_of, l. cbn [map fold_right fst snd]. rewrite one32_value, value_half, value_mthree, value_quarter. lra.
Qed.

(** U-Skate world with that stencil. *)
Example C113_background_example : frd_wf ex_nine /\ passes_on 24 128 (g_idl ex_nine) /\ apart (g_nbl ex_nine) /\ cells (fl_w (g_nbl ex_nine)) (multiple 24 128 (-2)) /\ layer_within 6 (real_layer (g_nbl ex_nine)) /\ cancels (g_nbl ex_nine) /\
  6 <= bpow (24 + -2) /\ sound_rd 24 128 ex_nine /\ tame_rd 24 128 ex_nine 2 17 0 0 /\ full_u 24 128 ex_full 0 /\ exists u', frd_runs 24 128 ex_nine 3 ex_full u' /\ full_u 24 128 u' 0.
Proof.
  assert (W : frd_wf ex_nine) by (split; [repeat split; cbn; try lia; exists 1%nat; lia|]; split; [repeat split; cbn; try lia; exists 1%nat; lia|split; reflexivity]).
  pose proof ex_frd_tame as (Ps & _). assert (Fit : 6 <= bpow (24 + -2)) by (rewrite bpow_Z by lia; change (2 ^ (24 + -2))%Z with 4194304%Z; lra).
  assert (Fu : full_u 24 128 ex_full 0) by (intros i j _ _; split; (split; [split; [exact Logic.I|reflexivity]|]); [exact one32_value|reflexivity]).
  assert (Ap : apart (g_nbl ex_nine)) by (split; reflexivity).
  split; [exact W|]. split; [exact Ps|]. split; [exact Ap|]. split; [exact nine_multiple|]. split; [exact nine_within|]. split; [exact nine_cancels|]. split; [exact Fit|]. split; [exact nine_sound|]. split; [exact nine_tame|]. split; [exact Fu|].
  assert (Ex : forall n, exists u', frd_runs 24 128 ex_nine n ex_full u').
  { induction n as [|n [w Hw]]; [exists ex_full; constructor|]. destruct (frd_runs_same 24 128 ex_nine n ex_full w Hw) as (_ & F2 & F3 & F4).
    destruct (frd_exists 24 128 ex_nine w W F2) as [z Hz]; [unfold has_room; rewrite F3, F4; repeat split; reflexivity || (cbn; lia)..|]. exists z. econstructor; eassumption. }
  destruct (Ex 3%nat) as [u' R]. exists u'. split; [exact R|].
  exact (C113_background 24 128 ex_nine 3 ex_full u' 0 (-2) 6 ltac:(lia) ltac:(lia) W Ps Ap nine_multiple nine_within nine_cancels Fit ltac:(unfold emin; lia) ltac:(lia) nine_sound R ltac:(cbn; lia) Fu).
Qed.

(** A blinker in float16: two live neighbours beside the middle of the row, three above it. *)
Definition eighth16 : fl := S754_finite false 1024 (-13).
Definition one16 : fl := S754_finite false 1024 (-10).
Definition moore16 : flayer := mkFL (mkF 1 1 3 3 (fun _ _ y x => if Nat.eqb y 1 && Nat.eqb x 1 then fzero else eighth16)) 1 1 Circular.
Definition blinker : board := fun y x => Nat.eqb y 2 && (Nat.leb 1 x && Nat.leb x 3).
Definition blinker16 : ftensor := mkF 1 1 5 5 (fun _ _ y x => if blinker y x then one16 else fzero).

Lemma value_eighth16 : value eighth16 = 1 / 8.
Proof. cbn [value eighth16]. change (-13)%Z with (- (13))%Z. rewrite bpow_inv by lia. change (2 ^ 13)%Z with 8192%Z. lra. Qed.
Lemma value_one16 : value one16 = 1.
Proof. cbn [value one16]. change (-10)%Z with (- (10))%Z. rewrite bpow_inv by lia. change (2 ^ 10)%Z with 1024%Z. lra. Qed.

Example C113_counts_example : flayer_wf 1 1 moore16 /\ cells (fl_w moore16) (number 11 16) /\
  (forall y x, (y < 3)%nat -> (x < 3)%nat -> value (fget (fl_w moore16) 0 0 y x) = if Nat.eqb y 1 && Nat.eqb x 1 then 0 else 1 / 8) /\
  (forall y x, (y < 5)%nat -> (x < 5)%nat -> number 11 16 (fget blinker16 0 0 y x) /\ value (fget blinker16 0 0 y x) = if blinker y x then 1 else 0) /\
  exists v, fconv 11 16 moore16 blinker16 v /\ value (fget v 0 0 1 2) = 3 / 8 /\ value (fget v 0 0 2 2) = 2 / 8.
Proof.
  assert (W : flayer_wf 1 1 moore16) by (repeat split; cbn; try lia; exists 1%nat; lia).
  assert (Cn : cells (fl_w moore16) (number 11 16)) by (intros b c y x _ _ _ _; cbn; destruct (_ && _)%bool; split; (exact Logic.I || reflexivity)).
  assert (V : forall y x, (y < 3)%nat -> (x < 3)%nat -> value (fget (fl_w moore16) 0 0 y x) = if Nat.eqb y 1 && Nat.eqb x 1 then 0 else 1 / 8) by (intros y x _ _; cbn [moore16 fl_w fget]; destruct (_ && _)%bool; [reflexivity|exact value_eighth16]).
  assert (G : forall y x, (y < 5)%nat -> (x < 5)%nat -> number 11 16 (fget blinker16 0 0 y x) /\ value (fget blinker16 0 0 y x) = if blinker y x then 1 else 0) by (intros y x _ _; cbn [blinker16 fget]; destruct (blinker y x); (split; [split; (exact Logic.I || reflexivity)|]); [exact value_one16|reflexivity]).
  split; [exact W|]. split; [exact Cn|]. split; [exact V|]. split; [exact G|].
  destruct (conv_exists 11 16 moore16 blinker16) as [v Hv]; [repeat split; reflexivity || (cbn; lia)|reflexivity|]. exists v. split; [exact Hv|].
  pose proof (fun i j => C113_counts 11 16 moore16 blinker16 v 0 blinker i j ltac:(lia) ltac:(lia) W eq_refl eq_refl Hv Cn V ltac:(cbn; lia) G) as X.
  split; [rewrite (proj2 (X 1%nat 2%nat ltac:(cbn; lia) ltac:(cbn; lia)))|rewrite (proj2 (X 2%nat 2%nat ltac:(cbn; lia) ltac:(cbn; lia)))].
  - replace (live_neighbours _ _ _ _ _) with 3%nat by (vm_compute; reflexivity). cbn [INR]. lra.
  - replace (live_neighbours _ _ _ _ _) with 2%nat by (vm_compute; reflexivity). cbn [INR]. lra.
Qed.

(** The same stencil over a field of zeros and ones is convolved exactly. *)
Example C113_conv_example : flayer_wf 2 2 (mkFL nine2 2 1 Circular) /\ cells ex_full (fun x => multiple 24 128 0 x /\ Rabs (value x) <= 1) /\ 6 * 1 <= bpow (24 + (-2 + 0)) /\
  exists v, fconv 24 128 (mkFL nine2 2 1 Circular) ex_full v /\ conv_apply (real_layer (mkFL nine2 2 1 Circular)) (real_tensor ex_full) = Ok (real_tensor v).
Proof.
  assert (W : flayer_wf 2 2 (mkFL nine2 2 1 Circular)) by (repeat split; cbn; try lia; exists 1%nat; lia).
  assert (U : cells ex_full (fun x => multiple 24 128 0 x /\ Rabs (value x) <= 1)).
  { intros b c i j _ Hc _ _. cbn in Hc. assert (C : c = 0%nat \/ c = 1%nat) by lia. destruct C as [-> | ->]; cbn [ex_full fget].
    - rewrite one32_value, Rabs_R1. split; [|lra]. split; [split; [exact Logic.I|reflexivity]|]. exists 1%Z. rewrite one32_value, bpow_0. ring.
    - split; [apply zero_multiple; lia|]. cbn. rewrite Rabs_R0. lra. }
  assert (Fit : 6 * 1 <= bpow (24 + (-2 + 0))) by (rewrite bpow_Z by lia; change (2 ^ (24 + (-2 + 0)))%Z with 4194304%Z; lra).
  split; [exact W|]. split; [exact U|]. split; [exact Fit|].
  destruct (conv_exists 24 128 (mkFL nine2 2 1 Circular) ex_full) as [v Hv]; [repeat split; reflexivity || (cbn; lia)|reflexivity|]. exists v. split; [exact Hv|].
  apply (C113_conv 24 128 2 2 _ ex_full v (-2) 0 6 1 ltac:(lia) ltac:(lia) W Hv ltac:(cbn; lia) ltac:(cbn; lia) nine_multiple U nine_within ltac:(lra) Fit ltac:(unfold emin; lia) ltac:(lia)).
Qed.

Print Assumptions C113_sum.
Print Assumptions C113_conv.
Print Assumptions C113_counts.
Print Assumptions C113_background.
Print Assumptions C113_heavier_refuted.
