(** Theorems about automata in floating point: properties C107 to C109. *)
From Coq Require Import Reals ZArith List Bool Lia Lra Arith Floats.SpecFloat.
From Verif Require Import Base Tensor MFloat SGrid SFloat PFloat PFloatX PFloatY PFloatC PFloatG PFloatZ.
Import ListNotations.
Open Scope R_scope.

(** ** Examples: float32, a 3 x 3 neighbourhood and the Gaussian *)
Definition f32 : dtype := Native 24 128.
Definition f16 : dtype := Native 11 16.
Definition one32 : fl := S754_finite false 8388608 (-23).
Definition eighth32 : fl := S754_finite false 8388608 (-26).
Definition half32 : fl := S754_finite false 8388608 (-24).
Definition tenth32 : fl := S754_finite false 13421773 (-27).
Definition eps32 : fl := S754_finite false 9007199 (-53).
Definition sigma32 : fl := S754_finite false 16106127 (-30).
Definition ex_exp (x z : fl) : Prop := z = match x with S754_nan => S754_nan | _ => half32 end.
Definition ex_gauss (_ : nat) : fl -> fl -> Prop := fgauss 24 128 ex_exp eps32 tenth32 sigma32 true.
Definition ex_idw : ftensor := mkF 1 1 3 3 (fun _ _ y x => if Nat.eqb y 1 && Nat.eqb x 1 then one32 else fzero).
Definition ex_nbw : ftensor := mkF 1 1 3 3 (fun _ _ y x => if Nat.eqb y 1 && Nat.eqb x 1 then fzero else eighth32).
Definition ex_fcca : fcca := mkFc 1 1 tenth32 (mkFL ex_idw 1 1 Circular) (mkFL ex_nbw 1 1 Circular) (FConv (mkFL (mkF 1 1 1 1 (fun _ _ _ _ => one32)) 1 0 Circular)) ex_gauss ex_gauss tenth32.
(** Two universes of 5 x 5 cells; the second has a NaN in its corner. *)
Definition ex_fgrid : ftensor := mkF 2 1 5 5 (fun b _ i j => match b, i, j with 1%nat, 0%nat, 0%nat => S754_nan | _, _, 2%nat => half32 | _, _, _ => fzero end).

Lemma D32 : dtype_ok f32.
Proof. split; lia. Qed.
Lemma bpow_inv n : (0 <= n)%Z -> bpow (- n) = / IZR (2 ^ n).
Proof. intros H. rewrite <- (bpow_Z n H). pose proof (bpow_pos n). assert (E : bpow (- n) * bpow n = 1) by (rewrite <- bpow_add, Z.add_opp_diag_l; apply bpow_0). field_simplify_eq; lra. Qed.
Lemma num32 x : finite x -> valid_binary 24 128 x = true -> number 24 128 x.
Proof. intros; split; assumption. Qed.
Lemma le32 x y : number 24 128 x -> number 24 128 y -> SFltb y x = false -> value x <= value y.
Proof. intros X Y L. destruct (Rle_lt_dec (value x) (value y)) as [H|H]; [exact H|]. apply (ltb_number 24 128 ltac:(lia)) in H; [congruence|exact Y|exact X]. Qed.
Lemma lt32 x y : number 24 128 x -> number 24 128 y -> SFltb x y = true -> value x < value y.
Proof. intros X Y L. apply (ltb_number 24 128 ltac:(lia)); assumption. Qed.
Lemma one32_value : value one32 = 1.
Proof. exact (proj2 (one_number 24 128 ltac:(lia) ltac:(lia))). Qed.
Lemma zero32 : number 24 128 fzero.
Proof. split; [exact I|reflexivity]. Qed.
Lemma unit32 x : finite x -> valid_binary 24 128 x = true -> SFltb x fzero = false -> SFltb one32 x = false -> unit_number 24 128 x.
Proof.
  intros F V A B. assert (N : number 24 128 x) by (split; assumption). split; [exact N|]. rewrite <- one32_value. split.
  - apply (le32 fzero x zero32 N A).
  - apply (le32 x one32 N); [split; [exact I|reflexivity]|exact B].
Qed.

Lemma ex_exp_like : exp_like 24 128 ex_exp.
Proof.
  split; [|split].
  - intros x z ->. destruct x; reflexivity.
  - intros x z (m & e & [->|[->| ->]]) ->; apply unit32; reflexivity.
  - intros x z -> ->. reflexivity.
Qed.
Lemma ex_gauss_ok : gauss_ok 24 128 eps32 tenth32 sigma32.
Proof.
  assert (E : unit_number 24 128 eps32) by (apply unit32; reflexivity). assert (S : unit_number 24 128 sigma32) by (apply unit32; reflexivity).
  split; [apply E|]. split; [split; [apply (lt32 fzero); [exact zero32|apply E|reflexivity]|apply E]|]. split; [split; [exact I|reflexivity]|exact S].
Qed.
Lemma ex_fcca_wf : fcca_wf ex_fcca.
Proof.
  assert (W : flayer_wf 1 1 (mkFL ex_idw 1 1 Circular)) by (repeat split; cbn; try lia; exists 1%nat; lia).
  split; [exact W|]. split; [repeat split; cbn; try lia; exists 1%nat; lia|]. split; [repeat split; cbn; try lia; exists 1%nat; lia|split; reflexivity].
Qed.
Lemma ex_weights (P : fl -> Prop) : P one32 -> P fzero -> P eighth32 -> cells ex_idw P /\ cells ex_nbw P /\ cells (mkF 1 1 1 1 (fun _ _ _ _ => one32)) P.
Proof. intros H1 H0 H8. split; [|split]; intros b c i j _ _ _ _; cbn; [destruct (_ && _)%bool; assumption|destruct (_ && _)%bool; assumption|exact H1]. Qed.
Lemma ex_floats : floats f32 ex_fcca.
Proof.
  destruct (ex_weights (good 24 128) eq_refl eq_refl eq_refl) as (A & B & C).
  split; [exact A|]. split; [exact B|]. split; [exact C|]. split; [reflexivity|]. split; intros k x z _ H; exact (gauss_good 24 128 ltac:(lia) ltac:(lia) _ eps32 tenth32 sigma32 true _ _ ex_exp_like H).
Qed.
Lemma abs32 x : unit_number 24 128 x -> number 24 128 x /\ Rabs (value x) <= 1.
Proof. intros [N V]. split; [exact N|]. rewrite Rabs_pos_eq; lra. Qed.
Lemma ex_tame : tame_rule f32 ex_fcca 0 0.
Proof.
  destruct (ex_weights (fun x => number 24 128 x /\ Rabs (value x) <= 1)) as (A & B & C); [apply abs32, unit32; reflexivity..|].
  split; [exact A|]. split; [exact B|]. split; [eexists; split; [reflexivity|exact C]|]. split; [split; [exact I|reflexivity]|].
  split; [rewrite bpow_0; apply abs32, unit32; reflexivity|].
  split; [|repeat split; cbn; lia].
  split; intros k x z [N _] H; rewrite bpow_0; exact (gauss_range 24 128 ltac:(lia) ltac:(lia) _ eps32 tenth32 sigma32 true _ _ ex_exp_like ex_gauss_ok N H).
Qed.
Lemma ex_nan_through : nan_through (f_gen ex_fcca).
Proof. intros k x z -> H. exact (gauss_nan 24 128 _ eps32 tenth32 sigma32 true _ ex_exp_like H). Qed.
Lemma gauss_answers p e (exp : fl -> fl -> Prop) h eps mu sigma mode : (forall x, exp x (h x)) -> answers (fun _ => fgauss p e exp eps mu sigma mode).
Proof. intros H.
  exists (fun _ x => let two := binary_normalize p e 2 0 false in let q := SFdiv p e (fsub p e x mu) (fadd p e eps sigma) in
    let r := h (SFdiv p e (SFopp (fmul p e q q)) two) in if mode then fsub p e (fmul p e r two) (fone p e) else r).
  intros k x. eexists. split; [apply H|reflexivity]. Qed.
Lemma ex_step : exists u', fstep f32 ex_fcca ex_fgrid u'.
Proof.
  apply step_exists; [exact ex_fcca_wf|reflexivity|repeat split; reflexivity..| |]; (eapply (gauss_answers 24 128 ex_exp (fun x => match x with S754_nan => S754_nan | _ => half32 end)); intros; reflexivity).
Qed.

(** ** C107: cells and NaN *)

(** Additions, subtractions, multiplications, fused steps and conversions give the exact
    result rounded to a nearest float of the format. *)
Theorem C107_operations prec emax x y z : (1 < prec)%Z -> (prec < emax)%Z -> number prec emax x -> number prec emax y -> number prec emax z ->
  result prec emax (value x + value y) (fadd prec emax x y) /\ result prec emax (value x - value y) (fsub prec emax x y) /\
  result prec emax (value x * value y) (fmul prec emax x y) /\ result prec emax (value x * value y + value z) (ffma prec emax x y z).
Proof. intros P M X Y Z. split; [|split; [|split]]; [apply add_result|apply sub_result|apply mul_result|apply fma_result]; assumption. Qed.

Theorem C107_conversion prec emax x : (1 < prec)%Z -> (prec < emax)%Z -> finite x -> result prec emax (value x) (fcast prec emax x).
Proof. exact (fun P M => cast_result prec emax P M x). Qed.

Example C107_operations_example : number 24 128 tenth32 /\ number 24 128 half32 /\ fadd 24 128 tenth32 half32 = S754_finite false 10066330 (-24) /\
  fcast 11 16 tenth32 = S754_finite false 1638 (-14) /\ finite tenth32.
Proof. repeat split; vm_compute; reflexivity. Qed.

(** Steps exist whenever the padding has room and the growth functions answer. *)
Theorem C107_steps_exist d c u : fcca_wf c -> fC u = f_ext c -> has_room (f_idl c) u -> has_room (f_nbl c) u ->
  match f_wl c with FConv l => has_room l u | FMlp l1 l2 => has_room l1 u /\ has_room l2 u end -> answers (f_gen c) -> answers (f_per c) -> exists u', fstep d c u u'.
Proof. exact (step_exists d c u). Qed.

(** Whatever a universe holds, after a step every cell is NaN or a number from 0 to 1. *)
Theorem C107_range d c u u' : dtype_ok d -> fcca_wf c -> floats d c -> cells u (good (sprec d) (semax d)) -> fstep d c u u' -> cells u' (nan_or_unit (sprec d) (semax d)).
Proof. exact (step_range d c u u'). Qed.

Theorem C107_range_run d c n u u' : dtype_ok d -> fcca_wf c -> floats d c -> cells u (good (sprec d) (semax d)) -> fruns d c n u u' -> (0 < n)%nat -> cells u' (nan_or_unit (sprec d) (semax d)).
Proof. exact (run_range d c n u u'). Qed.

Example C107_range_example : dtype_ok f32 /\ fcca_wf ex_fcca /\ floats f32 ex_fcca /\ cells ex_fgrid (good 24 128) /\ (exists u', fstep f32 ex_fcca ex_fgrid u') /\ is_nan (fget ex_fgrid 1 0 0 0).
Proof.
  split; [split; lia|]. split; [exact ex_fcca_wf|]. split; [exact ex_floats|]. split; [|split; [exact ex_step|reflexivity]].
  intros b c i j Hb Hc Hi Hj. cbn in Hb, Hc, Hi, Hj. destruct b as [|[|b]]; [| |lia]; destruct i as [|i]; do 4 (destruct j as [|j]; [reflexivity|]); reflexivity.
Qed.

(** A NaN reaches every channel of every cell within the radius of the neighbourhood, in every step. *)
Theorem C107_nan d c u u' r b ch y x s t : fcca_wf c -> fl_m (f_nbl c) = Circular -> fl_p (f_nbl c) = r -> nan_through (f_gen c) -> fstep d c u u' ->
  (b < fB u)%nat -> (ch < fC u)%nat -> (y < fH u)%nat -> (x < fW u)%nat -> is_nan (fget u b ch y x) ->
  (Z.abs s <= Z.of_nat r)%Z -> (Z.abs t <= Z.of_nat r)%Z -> nan_at u' b (moved y s (fH u)) (moved x t (fW u)).
Proof. exact (step_nan d c u u' r b ch y x s t). Qed.

Theorem C107_nan_run d c r n u u' : fcca_wf c -> fl_m (f_nbl c) = Circular -> fl_p (f_nbl c) = r -> nan_through (f_gen c) -> fruns d c n u u' ->
  forall b ch y x s t, (b < fB u)%nat -> (ch < fC u)%nat -> (y < fH u)%nat -> (x < fW u)%nat -> is_nan (fget u b ch y x) -> (0 < n)%nat ->
  (Z.abs s <= Z.of_nat (n * r))%Z -> (Z.abs t <= Z.of_nat (n * r))%Z -> nan_at u' b (moved y s (fH u)) (moved x t (fW u)).
Proof. exact (run_nan d c r n u u'). Qed.

(** So one NaN takes the whole grid of its batch element, in about side / 2r steps. *)
Theorem C107_nan_all d c r n u u' b ch y x : fcca_wf c -> fl_m (f_nbl c) = Circular -> fl_p (f_nbl c) = r -> nan_through (f_gen c) -> fruns d c n u u' ->
  (b < fB u)%nat -> (ch < fC u)%nat -> (y < fH u)%nat -> (x < fW u)%nat -> is_nan (fget u b ch y x) -> (0 < n)%nat ->
  (fH u <= 2 * (n * r) + 1)%nat -> (fW u <= 2 * (n * r) + 1)%nat -> batch_cells b u' is_nan.
Proof. exact (run_nan_all d c r n u u' b ch y x). Qed.

Example C107_nan_example : fcca_wf ex_fcca /\ fl_m (f_nbl ex_fcca) = Circular /\ fl_p (f_nbl ex_fcca) = 1%nat /\ nan_through (f_gen ex_fcca) /\
  is_nan (fget ex_fgrid 1 0 0 0) /\ (fH ex_fgrid <= 2 * (2 * 1) + 1)%nat /\ exists u', fruns f32 ex_fcca 2 ex_fgrid u' /\ batch_cells 1 u' is_nan /\ batch_cells 0 u' (unit_number 24 128).
Proof.
  split; [exact ex_fcca_wf|]. split; [reflexivity|]. split; [reflexivity|]. split; [exact ex_nan_through|]. split; [reflexivity|]. split; [cbn; lia|].
  destruct ex_step as [u1 H1]. destruct (step_same _ _ _ _ H1) as (S1 & S2 & S3 & S4).
  assert (E2 : exists u2, fstep f32 ex_fcca u1 u2).
  { apply step_exists; [exact ex_fcca_wf|exact S2|unfold has_room; rewrite S3, S4; repeat split; reflexivity..| |]; (eapply (gauss_answers 24 128 ex_exp (fun x => match x with S754_nan => S754_nan | _ => half32 end)); intros; reflexivity). }
  destruct E2 as [u2 H2]. assert (R : fruns f32 ex_fcca 2 ex_fgrid u2) by (econstructor; [econstructor; [constructor|exact H1]|exact H2]).
  exists u2. split; [exact R|]. split.
  - apply (run_nan_all f32 ex_fcca 1 2 ex_fgrid u2 1 0 0 0 ex_fcca_wf eq_refl eq_refl ex_nan_through R); cbn; try lia; reflexivity.
  - apply (run_tame f32 ex_fcca 0 0 2 ex_fgrid u2 0 D32 ex_fcca_wf ex_tame R); [cbn; lia|].
    intros c i j _ _ _. cbn. destruct j as [|[|[|j]]]; apply unit32; reflexivity.
Qed.

(** Rules that cannot overflow never make a NaN, whatever the other batch elements hold. *)
Theorem C107_no_nan d c A T u u' b : dtype_ok d -> fcca_wf c -> tame_rule d c A T -> fstep d c u u' -> (b < fB u)%nat ->
  batch_cells b u (unit_number (sprec d) (semax d)) -> batch_cells b u' (unit_number (sprec d) (semax d)).
Proof. exact (step_tame d c A T u u' b). Qed.

Theorem C107_no_nan_run d c A T n u u' b : dtype_ok d -> fcca_wf c -> tame_rule d c A T -> fruns d c n u u' -> (b < fB u)%nat ->
  batch_cells b u (unit_number (sprec d) (semax d)) -> batch_cells b u' (unit_number (sprec d) (semax d)).
Proof. exact (run_tame d c A T n u u' b). Qed.

(** The rules of the example are such, in float32 and in float16 on a CPU. *)
Example C107_no_nan_example : tame_rule f32 ex_fcca 0 0 /\ tame_rule HalfCpu ex_fcca 0 0 /\ batch_cells 0 ex_fgrid (unit_number 24 128).
Proof.
  split; [exact ex_tame|]. split.
  - destruct ex_tame as (A & B & C & D & E & F & G & H & _). repeat (split; [assumption|]). repeat split; cbn; lia.
  - intros c i j _ _ _. cbn. destruct j as [|[|[|j]]]; apply unit32; reflexivity.
Qed.

(** The identity kernel is exact, in whatever order its window is added up. *)
Theorem C107_identity_exact prec emax l u v b o i j : (1 < prec)%Z -> (prec < emax)%Z -> passes_on prec emax l -> fconv prec emax l u v -> batch_cells b u (number prec emax) -> (b < fB u)%nat ->
  (o < fB (fl_w l))%nat -> (i < fH u)%nat -> (j < fW u)%nat ->
  number prec emax (fget v b o i j) /\ value (fget v b o i j) = value (fget u b (o / (fB (fl_w l) / fl_g l)) i j).
Proof. exact (passed_on prec emax l u v b o i j). Qed.

Example C107_identity_exact_example : passes_on 24 128 (f_idl ex_fcca) /\ (exists v, fconv 24 128 (f_idl ex_fcca) ex_fgrid v) /\ batch_cells 0 ex_fgrid (number 24 128).
Proof.
  split; [|split].
  - split; [reflexivity|]. split; [cbn; lia|]. split; [exists 1%nat; reflexivity|]. split.
    + apply (ex_weights (number 24 128)); split; (exact I || reflexivity).
    + intros o y x _ _ _. cbn. destruct (_ && _)%bool; [exact one32_value|reflexivity].
  - apply conv_exists; [repeat split; reflexivity|reflexivity].
  - intros c i j _ _ _. cbn. destruct j as [|[|[|j]]]; split; (exact I || reflexivity).
Qed.

(** Sums are not: three numbers of float32 whose total depends on the order. *)
Theorem C107_order_refuted : exists l s s', Forall (fun p => number 24 128 (fst p) /\ number 24 128 (snd p)) l /\ total 24 128 l s /\ total 24 128 l s' /\ s <> s'.
Proof.
  set (a := S754_finite false 8388608 2). set (b := S754_finite true 8388608 2). set (o := one32).
  exists [(a, o); (b, o); (o, o)], (fadd 24 128 (fadd 24 128 (fmul 24 128 a o) (fmul 24 128 b o)) (fmul 24 128 o o)),
    (fadd 24 128 (fmul 24 128 a o) (fadd 24 128 (fmul 24 128 b o) (fmul 24 128 o o))).
  split; [repeat constructor; reflexivity|]. split; [|split].
  - apply (total_app 24 128 [(a, o); (b, o)] [(o, o)]); [apply (total_app 24 128 [(a, o)] [(b, o)])|]; apply total_one.
  - apply (total_app 24 128 [(a, o)] [(b, o); (o, o)]); [apply total_one|]. apply (total_app 24 128 [(b, o)] [(o, o)]); apply total_one.
  - intros E. vm_compute in E. discriminate E.
Qed.

(** ** C108: the clock *)

(** The clock rises with every step until it has reached a power of two, and then stands still. *)
Theorem C108_clock prec emax dt k : (1 < prec)%Z -> (prec < emax)%Z -> number prec emax dt -> bpow (k - 1) < value dt -> value dt < bpow k -> (prec + k < emax)%Z ->
  exists N, (forall n, number prec emax (fclock prec emax dt n)) /\
    (forall n, (n < N)%nat -> value (fclock prec emax dt n) < value (fclock prec emax dt (S n))) /\
    (forall n, (N <= n)%nat -> value (fclock prec emax dt n) = bpow (prec + k)).
Proof.
  intros P M N L U B. pose proof (clock_state prec emax P M dt k N L U B) as St. destruct (clock_stops prec emax P M dt k N L U B) as [N0 H0].
  assert (Least : exists N1, (forall n, (n < N1)%nat -> value (fclock prec emax dt n) < bpow (prec + k)) /\ (forall n, (N1 <= n)%nat -> value (fclock prec emax dt n) = bpow (prec + k))).
  { induction N0 as [|N0 IH]; [exists O; split; [intros; lia|exact H0]|]. destruct (Req_EM_T (value (fclock prec emax dt N0)) (bpow (prec + k))) as [E|E].
    - apply IH. intros n Hn. destruct (Nat.eq_dec n N0) as [->|D]; [exact E|]. apply H0. lia.
    - exists (S N0). split; [|exact H0]. intros n Hn. destruct (St n) as (_ & [_ A] & _). destruct (Rle_lt_or_eq_dec _ _ A) as [X|X]; [exact X|]. exfalso. apply E.
      assert (G : forall d, value (fclock prec emax dt (n + d)) = bpow (prec + k)).
      { induction d as [|d IHd]; [rewrite Nat.add_0_r; exact X|]. rewrite Nat.add_succ_r. apply (St (n + d)%nat). exact IHd. }
      replace N0 with (n + (N0 - n))%nat by lia. apply G. }
  destruct Least as (N1 & L1 & L2). exists N1. split; [intros n; apply St|]. split; [|exact L2]. intros n Hn. apply (St n). apply L1. exact Hn.
Qed.

(** With dt = 0.1 in float32 the clock stops at 2^21, in float16 at 2^8. *)
Example C108_clock_example : number 24 128 tenth32 /\ bpow (-3 - 1) < value tenth32 /\ value tenth32 < bpow (-3) /\ (24 + -3 < 128)%Z /\
  fadd 24 128 (S754_finite false 8388608 (-2)) tenth32 = S754_finite false 8388608 (-2) /\ value (S754_finite false 8388608 (-2)) = bpow (24 + -3) /\
  fadd 11 16 (S754_finite false 1024 (-2)) (S754_finite false 1638 (-14)) = S754_finite false 1024 (-2).
Proof.
  split; [split; [exact I|reflexivity]|]. assert (V : value tenth32 = 13421773 * bpow (-27)) by (cbn [value tenth32]; ring).
  split; [rewrite V; replace (-3 - 1)%Z with (23 + -27)%Z by lia; rewrite bpow_add, (bpow_Z 23) by lia; apply Rmult_lt_compat_r; [apply bpow_pos|]; change (2 ^ 23)%Z with 8388608%Z; lra|].
  split; [rewrite V; replace (-3)%Z with (24 + -27)%Z by lia; rewrite bpow_add, (bpow_Z 24) by lia; apply Rmult_lt_compat_r; [apply bpow_pos|]; change (2 ^ 24)%Z with 16777216%Z; lra|].
  split; [lia|]. split; [vm_compute; reflexivity|]. split; [|vm_compute; reflexivity].
  cbn [value]. replace (24 + -3)%Z with (23 + -2)%Z by lia. rewrite bpow_add, (bpow_Z 23) by lia. change (2 ^ 23)%Z with 8388608%Z. ring.
Qed.

(** With a time step of 2^j the clock is exact for 2^prec steps and then stands still. *)
Theorem C108_power prec emax dt j n : (1 < prec)%Z -> (prec < emax)%Z -> number prec emax dt -> value dt = bpow j -> (prec + j < emax)%Z ->
  number prec emax (fclock prec emax dt n) /\ value (fclock prec emax dt n) = IZR (Z.min (Z.of_nat n) (2 ^ prec)) * value dt.
Proof. intros P M N V B. rewrite V. exact (clock_power prec emax P M dt j n N V B). Qed.

Example C108_power_example : number 24 128 half32 /\ value half32 = bpow (-1) /\ (24 + -1 < 128)%Z /\
  fadd 24 128 (S754_finite false 8388608 0) half32 = S754_finite false 8388608 0 /\ fadd 24 128 (S754_finite false 16777215 (-1)) half32 = S754_finite false 8388608 0.
Proof.
  split; [split; [exact I|reflexivity]|]. split; [|split; [lia|split; vm_compute; reflexivity]].
  cbn [value half32]. change (bpow (-1)) with (bpow (23 + -24)). rewrite bpow_add, (bpow_Z 23) by lia. change (2 ^ 23)%Z with 8388608%Z. ring.
Qed.

(** ** C109: the Gaussian *)

(** Its eps, 1e-9, makes no difference in float32 unless the width is below 1/32. *)
Theorem C109_eps_lost exp mu sigma mode x z : number 24 128 sigma -> 1 / 32 <= value sigma ->
  fgauss 24 128 exp eps32 mu sigma mode x z <-> fgauss 24 128 exp fzero mu sigma mode x z.
Proof.
  intros N H. assert (E : fadd 24 128 eps32 sigma = sigma).
  { apply (absorbed 24 128 ltac:(lia) ltac:(lia) (-29)); [split; [exact I|reflexivity]|exact N| |].
    - assert (V : value eps32 = 9007199 * bpow (-53)) by (cbn [value eps32]; ring). rewrite V. replace (-29)%Z with (24 + -53)%Z by lia. rewrite bpow_add, (bpow_Z 24) by lia. change (2 ^ 24)%Z with 16777216%Z. pose proof (bpow_pos (-53)). lra.
    - replace (bpow (24 + -29)) with (1 / 32); [exact H|]. change (24 + -29)%Z with (- (5))%Z. rewrite bpow_inv by lia. change (2 ^ 5)%Z with 32%Z. field. }
  assert (E0 : fadd 24 128 fzero sigma = sigma). { destruct sigma as [s|s| |s m e]; try contradiction (proj1 N); [cbn in H; lra|reflexivity]. }
  unfold fgauss. rewrite E, E0. reflexivity.
Qed.

Example C109_eps_lost_example : number 24 128 tenth32 /\ 1 / 32 <= value tenth32 /\ fadd 24 128 eps32 tenth32 = tenth32.
Proof.
  split; [split; [exact I|reflexivity]|]. split; [|vm_compute; reflexivity]. replace (1 / 32) with (value (S754_finite false 8388608 (-28))); [apply le32; [split; [exact I|reflexivity]..|reflexivity]|].
  cbn [value]. change (-28)%Z with (- (28))%Z. rewrite bpow_inv by lia. change (2 ^ 28)%Z with 268435456%Z. field.
Qed.

(** Below that it can: Orbium's width is one that it changes. *)
Theorem C109_eps_refuted : exists sigma, number 24 128 sigma /\ 1 / 128 <= value sigma /\ fadd 24 128 eps32 sigma <> sigma.
Proof.
  exists sigma32. split; [split; [exact I|reflexivity]|]. split; [|vm_compute; discriminate]. replace (1 / 128) with (value (S754_finite false 8388608 (-30))); [apply le32; [split; [exact I|reflexivity]..|reflexivity]|].
  cbn [value]. change (-30)%Z with (- (30))%Z. rewrite bpow_inv by lia. change (2 ^ 30)%Z with 1073741824%Z. field.
Qed.

(** On numbers the Gaussian gives numbers from -1 to 1, however far from its centre or narrow. *)
Theorem C109_range prec emax exp eps mu sigma mode x z : (1 < prec)%Z -> (prec < emax)%Z -> exp_like prec emax exp -> gauss_ok prec emax eps mu sigma -> number prec emax x ->
  fgauss prec emax exp eps mu sigma mode x z -> number prec emax z /\ Rabs (value z) <= 1.
Proof. exact (fun P M => gauss_range prec emax P M exp eps mu sigma mode x z). Qed.

(** NaN passes through. *)
Theorem C109_nan prec emax exp eps mu sigma mode z : exp_like prec emax exp -> fgauss prec emax exp eps mu sigma mode S754_nan z -> is_nan z.
Proof. exact (gauss_nan prec emax exp eps mu sigma mode z). Qed.

(** So automata with Gaussian growth, weights from -1 to 1 and |dt| at most 1 never make a NaN (C107). *)
Theorem C109_no_nan d c exp eps mu sigma mode : dtype_ok d -> exp_like (cprec d) (cemax d) exp -> (forall k, gauss_ok (cprec d) (cemax d) (eps k) (mu k) (sigma k)) ->
  let P := fun x => number (cprec d) (cemax d) x /\ Rabs (value x) <= 1 in
  let side l := (fC (fl_w l) * ((2 * fl_p l + 1) * (2 * fl_p l + 1)))%nat in
  cells (fl_w (f_idl c)) P -> cells (fl_w (f_nbl c)) P -> (exists l, f_wl c = FConv l /\ cells (fl_w l) P) -> P (f_dt c) ->
  (forall k x z, f_gen c k x z -> fgauss (cprec d) (cemax d) exp (eps k) (mu k) (sigma k) mode x z) ->
  (forall k x z, f_per c k x z -> fgauss (cprec d) (cemax d) exp (eps k) (mu k) (sigma k) mode x z) ->
  (Z.of_nat (side (f_nbl c)) <= 2 ^ sprec d)%Z -> (Z.of_nat (f_int c * (2 * side (f_idl c) + 1) + 1) <= 2 ^ sprec d)%Z ->
  tame_rule d c 0 0.
Proof.
  intros D E G P side A B C [Dn Db] Gg Gp S1 S2. destruct (dtype_c d D) as [P1 P2]. destruct (dtype_s d D) as [P3 P4].
  split; [exact A|]. split; [exact B|]. split; [exact C|]. split; [exact Dn|]. split; [rewrite bpow_0; exact Db|]. split; [|repeat split; try lia; assumption].
  split; intros k x z [N _] H; rewrite bpow_0; (eapply (gauss_range _ _ P1 P2); [exact E|apply G|exact N|]); [apply Gg, H|apply Gp, H].
Qed.

Example C109_no_nan_example : exp_like 24 128 ex_exp /\ gauss_ok 24 128 eps32 tenth32 sigma32 /\ number 24 128 half32 /\
  (exists z, fgauss 24 128 ex_exp eps32 tenth32 sigma32 true half32 z) /\ tame_rule f32 ex_fcca 0 0.
Proof.
  split; [exact ex_exp_like|]. split; [exact ex_gauss_ok|]. split; [split; [exact I|reflexivity]|]. split; [|exact ex_tame]. eexists. eexists. split; reflexivity.
Qed.

(** In float16 eps is 0, so a Gaussian of width 0 makes a NaN at its centre, which eps is there to prevent. *)
Theorem C109_half_refuted : exists exp mu sigma x z, exp_like 11 16 exp /\ number 11 16 mu /\ number 11 16 sigma /\ 0 <= value sigma /\ number 11 16 x /\
  fgauss 11 16 exp (fcast 11 16 eps32) mu sigma false x z /\ is_nan z.
Proof.
  exists (fun x z => z = match x with S754_nan => S754_nan | _ => fone 11 16 end), fzero, fzero, fzero, S754_nan.
  destruct (one_number 11 16 ltac:(lia) ltac:(lia)) as [N1 V1].
  split; [split; [|split]|].
  - intros x z ->. destruct x; (reflexivity || exact (proj2 N1)).
  - intros x z (m & e & [->|[->| ->]]) ->; (split; [exact N1|rewrite V1; lra]).
  - intros x z -> ->. reflexivity.
  - split; [split; [exact I|reflexivity]|]. split; [split; [exact I|reflexivity]|]. split; [cbn; lra|]. split; [split; [exact I|reflexivity]|]. split; [|reflexivity]. eexists. split; vm_compute; reflexivity.
Qed.
Print Assumptions C107_operations.
Print Assumptions C107_conversion.
Print Assumptions C107_steps_exist.
Print Assumptions C107_range.
Print Assumptions C107_range_run.
Print Assumptions C107_nan.
Print Assumptions C107_nan_run.
Print Assumptions C107_nan_all.
Print Assumptions C107_no_nan.
Print Assumptions C107_no_nan_run.
Print Assumptions C107_identity_exact.
Print Assumptions C107_order_refuted.
Print Assumptions C108_clock.
Print Assumptions C108_power.
Print Assumptions C109_eps_lost.
Print Assumptions C109_eps_refuted.
Print Assumptions C109_range.
Print Assumptions C109_nan.
Print Assumptions C109_no_nan.
Print Assumptions C109_half_refuted.
