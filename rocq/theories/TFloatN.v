(** The two layers of a neural automaton in floats: C107 and C110. *)
From Coq Require Import Reals ZArith List Bool Lia Lra Arith Floats.SpecFloat.
From Verif Require Import Base Tensor PTensor MCca MFloat SFloat SRound SLip SLife SFloatN PFloat PFloatX PFloatY PFloatZ PFloatE PFloatR PFloatD TFloat TFloatRd PFloatN PFloatM MActivations TRound.
Import ListNotations.
Open Scope R_scope.

(** relu makes no error, and keeps NaN. *)
Theorem C110_relu p e x : (1 < p)%Z -> (number p e x -> number p e (frelu x) /\ value (frelu x) = Rmax (value x) 0) /\ (is_nan x -> is_nan (frelu x)).
Proof. intros Hp. split; [apply relu_exact, Hp|intros ->; reflexivity]. Qed.

Example C110_relu_example : number 24 128 mhalf32 /\ number 24 128 half32 /\ frelu mhalf32 = fzero /\ frelu half32 = half32.
Proof. repeat split; exact I. Qed.

(** A network of two layers with weights from -1 to 1, on numbers within Q 2^F that leave room for adding them up twice:
    every total is a number, the real network takes the same input, and the two differ by at most an explicit bound. *)
Theorem C110_network d n h m l1 l2 u v Q F W1 W2 : dtype_ok d -> flayer_wf n h l1 -> flayer_wf h m l2 ->
  let P := fun x => number (cprec d) (cemax d) x /\ Rabs (value x) <= 1 in cells (fl_w l1) P -> cells (fl_w l2) P ->
  fwl (cprec d) (cemax d) (FMlp l1 l2) u v -> (0 < fH u)%nat -> (0 < fW u)%nat ->
  let B := IZR Q * bpow F in cells u (fun x => number (cprec d) (cemax d) x /\ Rabs (value x) <= B) ->
  layer_within W1 (real_layer l1) -> layer_within W2 (real_layer l2) -> (0 <= Q)%Z -> (0 <= F)%Z -> (sprec d + F < semax d)%Z ->
  let n1 := Z.of_nat (window_size l1) in let n2 := Z.of_nat (window_size l2) in (n1 * Q <= 2 ^ sprec d)%Z -> (n2 * (n1 * Q) <= 2 ^ sprec d)%Z ->
  exists t, wl_apply (real_wl (FMlp l1 l2)) (real_tensor u) = Ok t /\ shape (real_tensor v) = shape t /\ cells v (number (cprec d) (cemax d)) /\
    let E := dot_err d (window_size l1) (W1 * B) in close (W2 * E + dot_err d (window_size l2) (W2 * (W1 * B + E))) (real_tensor v) t.
Proof.
  intros Hd A1 A2 P C1 C2 Hw HH HW B Cu K1 K2 Q0 F0 Rm n1 n2 R1 R2.
  apply (network_error d n h m l1 l2 u v Q F B W1 W2); auto; unfold room; try (repeat split; lia).
  - intros b c i j Hb Hc Hi Hj. destruct (Cu b c i j Hb Hc Hi Hj). auto.
  - apply Rmult_le_pos; [apply IZR_le; lia|apply Rlt_le, bpow_pos].
Qed.

Definition mone32 : fl := S754_finite true 8388608 (-23).

(** A network that computes max(-x/2, 0) - max(x, 0) of every cell. *)
Definition net1 : flayer := mkFL (mkF 2 1 1 1 (fun o _ _ _ => match o with O => mhalf32 | _ => one32 end)) 1 0 Circular.
Definition net2 : flayer := mkFL (mkF 1 2 1 1 (fun _ c _ _ => match c with O => one32 | _ => mone32 end)) 1 0 Circular.
Definition net_grid : ftensor := mkF 1 1 2 1 (fun _ _ i _ => match i with O => half32 | _ => mhalf32 end).

Example C110_network_example : dtype_ok f32 /\ flayer_wf 1 2 net1 /\ flayer_wf 2 1 net2 /\
  (let P := fun x => number 24 128 x /\ Rabs (value x) <= 1 in cells (fl_w net1) P /\ cells (fl_w net2) P /\ cells net_grid P) /\
  layer_within 1 (real_layer net1) /\ layer_within 2 (real_layer net2) /\ exists v, fwl 24 128 (FMlp net1 net2) net_grid v.
Proof.
  assert (N : forall x, finite x -> valid_binary 24 128 x = true -> number 24 128 x) by (intros; split; assumption).
  assert (V1 : value mone32 = - 1) by (cbn [value mone32]; change (-23)%Z with (- (23))%Z; rewrite bpow_inv by lia; change (2 ^ 23)%Z with 8388608%Z; field).
  assert (V2 : value half32 = 1 / 2) by (cbn [value half32]; change (-24)%Z with (- (24))%Z; rewrite bpow_inv by lia; change (2 ^ 24)%Z with 16777216%Z; field).
  pose proof value_mhalf as V3. pose proof one32_value as V4.
  split; [exact D32|]. split; [unfold flayer_wf; cbn; repeat split; try lia; exists 2%nat; lia|]. split; [unfold flayer_wf; cbn; repeat split; try lia; exists 1%nat; lia|]. split.
  { set (P := fun x => number 24 128 x /\ Rabs (value x) <= 1).
    assert (Q1 : P mone32) by (split; [apply N; (exact I || reflexivity)|rewrite V1; apply Rabs_le; lra]). assert (Q2 : P half32) by (split; [apply N; (exact I || reflexivity)|rewrite V2; apply Rabs_le; lra]).
    assert (Q3 : P mhalf32) by (split; [apply N; (exact I || reflexivity)|rewrite V3; apply Rabs_le; lra]). assert (Q4 : P one32) by (split; [apply N; (exact I || reflexivity)|rewrite V4; apply Rabs_le; lra]).
    clearbody P. cbv zeta. repeat split; intros b c i j _ _ _ _; [destruct b|destruct c|destruct i]; assumption. }
  split; [|split].
  - intros o Ho. change (tB (cl_w (real_layer net1))) with 2%nat in Ho. change (row_weight (real_layer net1) o) with (rsum 1 (fun c => rsum 1 (fun y => rsum 1 (fun x => Rabs (get (real_tensor (fl_w net1)) o c y x))))).
    cbn [rsum]. rewrite !real_get by (cbn; lia). cbn [fget net1 fl_w]. destruct o as [|[|o]]; try lia; rewrite ?V1, ?V3, ?V4; unfold Rabs; repeat destruct (Rcase_abs _); lra.
  - intros o Ho. change (tB (cl_w (real_layer net2))) with 1%nat in Ho. change (row_weight (real_layer net2) o) with (rsum 2 (fun c => rsum 1 (fun y => rsum 1 (fun x => Rabs (get (real_tensor (fl_w net2)) o c y x))))).
    cbn [rsum]. rewrite !real_get by (cbn; lia). cbn [fget net2 fl_w]. destruct o as [|[|o]]; try lia; rewrite ?V1, ?V3, ?V4; unfold Rabs; repeat destruct (Rcase_abs _); lra.
  - destruct (conv_exists 24 128 net1 net_grid) as [a A]; [repeat split|reflexivity|]. destruct (conv_exists 24 128 net2 (fmap frelu a)) as [v V].
    + destruct A as (_ & _ & _ & _ & _ & _ & _ & E1 & E2 & _). unfold has_room. cbn [fmap fH fW]. rewrite E1, E2. repeat split.
    + destruct A as (_ & _ & _ & _ & _ & _ & E & _). cbn [fmap fC]. rewrite E. reflexivity.
    + exists v. exists a. split; assumption.
Qed.

(** Neural automata that cannot overflow never make a NaN: a batch element of numbers from 0 to 1 keeps them. *)
Theorem C107_network d c h A T u u' b : dtype_ok d -> fcca_wf c -> tame_network d c h A T -> fstep d c u u' -> (b < fB u)%nat ->
  batch_cells b u (unit_number (sprec d) (semax d)) -> batch_cells b u' (unit_number (sprec d) (semax d)).
Proof. exact (step_net d c h A T u u' b). Qed.

Theorem C107_network_run d c h A T n u u' b : dtype_ok d -> fcca_wf c -> tame_network d c h A T -> fruns d c n u u' -> (b < fB u)%nat ->
  batch_cells b u (unit_number (sprec d) (semax d)) -> batch_cells b u' (unit_number (sprec d) (semax d)).
Proof. exact (run_net d c h A T n u u' b). Qed.

(** The rules of TFloat with the network above, in float32 and in float16 on a CPU. The other universe of the grid holds a NaN. *)
Definition net_fcca : fcca := mkFc 1 1 tenth32 (f_idl ex_fcca) (f_nbl ex_fcca) (FMlp net1 net2) ex_gauss ex_gauss tenth32.

Example C107_network_example : dtype_ok f32 /\ fcca_wf net_fcca /\ tame_network f32 net_fcca 2 0 0 /\ tame_network HalfCpu net_fcca 2 0 0 /\
  batch_cells 0 ex_fgrid (unit_number 24 128) /\ exists u', fstep f32 net_fcca ex_fgrid u'.
Proof.
  destruct C110_network_example as (_ & N1 & N2 & (P1 & P2 & _) & _). pose proof ex_fcca_wf as (W1 & W2 & _).
  assert (W : fcca_wf net_fcca) by (split; [exact W1|]; split; [exact W2|]; exists 2%nat; split; (split; [assumption|split; reflexivity])).
  destruct ex_tame as (A & B & _ & D & E & F & _).
  split; [exact D32|]. split; [exact W|].
  assert (X : exists l1 l2, f_wl net_fcca = FMlp l1 l2 /\ fB (fl_w l1) = 2%nat /\ cells (fl_w l1) (fun x => number 24 128 x /\ Rabs (value x) <= 1) /\ cells (fl_w l2) (fun x => number 24 128 x /\ Rabs (value x) <= 1))
    by (exists net1, net2; repeat (split; [reflexivity|]); split; assumption).
  split; [|split; [|split]].
  - split; [exact A|]. split; [exact B|]. split; [exact X|]. split; [exact D|]. split; [exact E|]. split; [exact F|]. repeat split; cbn; lia.
  - split; [exact A|]. split; [exact B|]. split; [exact X|]. split; [exact D|]. split; [exact E|]. split; [exact F|]. repeat split; cbn; lia.
  - apply C107_no_nan_example.
  - apply step_exists; [exact W|reflexivity|repeat split; reflexivity..| |]; (eapply (gauss_answers 24 128 ex_exp (fun x => match x with S754_nan => S754_nan | _ => half32 end)); intros; reflexivity).
Qed.

(** Every cell of a step of a neural automaton is within [network_err] of the exact step. *)
Theorem C110_network_step d c h l1 l2 A0 T0 m gs ps I K A1 A2 Q L M alpha u u' v : dtype_ok d -> fcca_wf c -> tame_network d c h A0 T0 -> number (sprec d) (semax d) (f_thr c) ->
  f_wl c = FMlp l1 l2 -> layer_within A1 (real_layer l1) -> layer_within A2 (real_layer l2) -> rule_bounds d c gs ps I K (A1 * A2) Q L M alpha ->
  cells u (unit_number (sprec d) (semax d)) -> fstep d c u u' -> (0 < fH u)%nat -> (0 < fW u)%nat ->
  cca_forward (real_cca c m gs ps) (real_tensor u) = Ok v -> shape (real_tensor u') = shape v /\ close (network_err d c h I K A1 A2 L M alpha) (real_tensor u') v.
Proof. exact (net_close d c h l1 l2 A0 T0 m gs ps I K A1 A2 Q L M alpha u u' v). Qed.

(** The real automaton makes the same run of fewer than four channels, and the errors of the steps add up ([q] from [C110_spread]). *)
Theorem C110_network_run d c h l1 l2 A0 T0 m gs ps I K A1 A2 Q L M alpha q n u u' : dtype_ok d -> fcca_wf c -> tame_network d c h A0 T0 -> number (sprec d) (semax d) (f_thr c) ->
  f_wl c = FMlp l1 l2 -> layer_within A1 (real_layer l1) -> layer_within A2 (real_layer l2) -> rule_bounds d c gs ps I K (A1 * A2) Q L M alpha ->
  (forall a, In a gs \/ In a ps -> act_ok a = Ok tt) -> 0 <= q -> spreads q (cca_forward (real_cca c m gs ps)) ->
  fruns d c n u u' -> cells u (unit_number (sprec d) (semax d)) -> (0 < fB u)%nat -> (0 < fH u)%nat -> (0 < fW u)%nat -> (fC u < 4)%nat ->
  exists v, iter_res (cca_forward (real_cca c m gs ps)) n (real_tensor u) = Ok v /\ SLip.near (grown q (network_err d c h I K A1 A2 L M alpha) 0 n) (real_tensor u') v.
Proof.
  intros Hd W Ht Nt Ew W1 W2 Rb Oks q0 Sp R Hu HB HH HW HC. pose proof (self_near d u Hd Hu) as N0.
  assert (Near : forall n w v, fruns d c n u w -> iter_res (cca_forward (real_cca c m gs ps)) n (real_tensor u) = Ok v -> _) by
    (intros n0 w v R0 E0; exact (net_run_near d c h l1 l2 A0 T0 m gs ps I K A1 A2 Q L M alpha q Hd W Ht Nt Ew W1 W2 Rb q0 Sp n0 u w R0 Hu HB HH HW HC 0 (real_tensor u) v (Rle_refl 0) N0 E0)).
  assert (Ex : exists v, iter_res (cca_forward (real_cca c m gs ps)) n (real_tensor u) = Ok v).
  { revert Near. induction R as [u|n u w w' R IH S]; intros Near; [eexists; reflexivity|]. destruct (IH Hu HB HH HW HC N0 Near) as [v E]. destruct (Near _ _ _ R E) as (_ & (X1 & X2 & X3 & X4) & G & Nv).
    pose proof Rb as (_ & _ & _ & _ & _ & _ & Lg & Lp & _). destruct (C110_accepted d c m gs ps w w' W S ltac:(lia) ltac:(lia) Lg Lp Oks) as [z Ez].
    destruct (Sp _ (real_tensor w) v G ltac:(cbn [real_tensor build tC]; lia) Nv) as [P _]. destruct (P z Ez) as (v' & Ev & _). exists v'. eapply iter_res_snoc; eassumption. }
  destruct Ex as [v E]. exists v. split; [exact E|]. apply (Near _ _ _ R E).
Qed.

(** The rules of TRound with the network above. *)
Definition near_net : fcca := mkFc 1 1 (f_thr near_fcca) (f_idl near_fcca) (f_nbl near_fcca) (FMlp net1 net2) (f_gen near_fcca) (f_per near_fcca) (f_dt near_fcca).

Lemma near_net_wf : fcca_wf near_net.
Proof. exact (proj1 (proj2 C107_network_example)). Qed.
Lemma near_net_tame : tame_network f32 near_net 2 0 0.
Proof.
  destruct C107_network_example as (_ & _ & (A & B & X & _) & _). destruct near_tame as (_ & _ & _ & D & E & F & _).
  split; [exact A|]. split; [exact B|]. split; [exact X|]. split; [exact D|]. split; [exact E|]. split; [exact F|]. repeat split; cbn; lia.
Qed.
Lemma near_net_bounds : rule_bounds f32 near_net near_fns near_fns 1 1 (1 * 2) 2 134 1 alpha32.
Proof.
  destruct C111_rule_example as [(B1 & B2 & _ & R) _]. destruct C110_network_example as (_ & _ & _ & _ & K1 & K2 & _).
  split; [exact B1|]. split; [exact B2|]. split; [|exact R]. exists 1, 2. split; [lra|]. split; [lra|]. split; [exact K1|]. split; [exact K2|lra].
Qed.
Lemma near_net_step u : fC u = 1%nat -> fH u = 5%nat -> fW u = 5%nat -> exists u', fstep f32 near_net u u'.
Proof. intros E1 E2 E3. apply step_exists; [exact near_net_wf|exact E1|unfold has_room; rewrite E2, E3; repeat split; reflexivity..|exact near_answers|exact near_answers]. Qed.

Lemma near_net_err : network_err f32 near_net 2 1 1 1 2 134 1 alpha32 <= 1 / 5000.
Proof.
  assert (D9 : 0 <= dot_err f32 9 1 <= 19 / 16777216).
  { unfold dot_err. rewrite unit_round_32, half_step_32. cbn [Nat.mul Nat.add Nat.sub INR pow]. lra. }
  assert (Hh : 0 <= half_step f32 <= / 16777216) by (rewrite half_step_32; cbn [pow]; lra).
  unfold network_err, mixed_err, growth_err, id_err, alpha32. change (window_size (f_nbl near_net)) with 9%nat. change (window_size (f_idl near_net)) with 9%nat. change (f_int near_net) with 1%nat. change (f_dt near_net) with tenth32.
  rewrite value_tenth, (Rabs_pos_eq (13421773 / 134217728)) by lra. unfold sd, f32. fold f32. cbv zeta. set (D := dot_err f32 9 1) in *. unfold dot_err, rd. rewrite unit_round_32, bpow_24. set (h := half_step f32) in *.
  cbn [Nat.mul Nat.add Nat.sub INR pow].
  set (Eg := 2 * / 16777216 + 26 * / 16777216 + 134 * D). assert (G : 0 <= Eg <= 2574 / 16777216) by (unfold Eg; lra).
  set (R1 := D + (/ 16777216 * (1 + 1 + D) + h)). assert (B1 : 0 <= R1 <= 23 / 16777216) by (unfold R1; lra).
  set (P1 := R1 * (1 + Eg)). assert (B2 : 0 <= P1 <= 24 / 16777216).
  { unfold P1. split; [apply Rmult_le_pos; lra|]. eapply Rle_trans; [apply Rmult_le_compat; [lra|lra|apply (proj2 B1)|apply Rplus_le_compat_l, (proj2 G)]|lra]. }
  set (P2 := D * (1 + Eg)). assert (B3 : 0 <= P2 <= 20 / 16777216).
  { unfold P2. split; [apply Rmult_le_pos; lra|]. eapply Rle_trans; [apply Rmult_le_compat; [lra|lra|apply (proj2 D9)|apply Rplus_le_compat_l, (proj2 G)]|lra]. }
  clearbody D h Eg R1 P1 P2. lra.
Qed.

Example C110_network_step_example : dtype_ok f32 /\ fcca_wf near_net /\ tame_network f32 near_net 2 0 0 /\ rule_bounds f32 near_net near_fns near_fns 1 1 (1 * 2) 2 134 1 alpha32 /\ cells near_grid (unit_number 24 128) /\
  exists u' v, fstep f32 near_net near_grid u' /\ cca_forward (real_cca near_net Circular near_fns near_fns) (real_tensor near_grid) = Ok v /\ close (1 / 5000) (real_tensor u') v.
Proof.
  destruct C111_rule_example as [_ Ok_]. destruct C110_network_example as (_ & _ & _ & _ & K1 & K2 & _). assert (N : number 24 128 (f_thr near_net)) by (split; [exact Logic.I|reflexivity]).
  split; [exact D32|]. split; [exact near_net_wf|]. split; [exact near_net_tame|]. split; [exact near_net_bounds|]. split; [exact near_cells|].
  destruct (near_net_step near_grid eq_refl eq_refl eq_refl) as [u' S]. destruct (C110_accepted f32 near_net Circular near_fns near_fns near_grid u' near_net_wf S ltac:(cbn; lia) ltac:(cbn; lia) eq_refl eq_refl Ok_) as [v E].
  exists u', v. split; [exact S|]. split; [exact E|].
  destruct (C110_network_step f32 near_net 2 net1 net2 0 0 Circular near_fns near_fns 1 1 1 2 2 134 1 alpha32 near_grid u' v D32 near_net_wf near_net_tame N eq_refl K1 K2 near_net_bounds near_cells S ltac:(cbn; lia) ltac:(cbn; lia) E) as [_ Cl].
  intros b c i j H1 H2 H3 H4. eapply Rle_trans; [apply Cl; assumption|exact near_net_err].
Qed.

(** A run of two steps. *)
Example C110_network_run_example : exists q u2 v, 0 <= q /\ spreads q (cca_forward (real_cca near_net Circular near_fns near_fns)) /\ fruns f32 near_net 2 near_grid u2 /\
  iter_res (cca_forward (real_cca near_net Circular near_fns near_fns)) 2 (real_tensor near_grid) = Ok v /\ SLip.near (grown q (network_err f32 near_net 2 1 1 1 2 134 1 alpha32) 0 2) (real_tensor u2) v.
Proof.
  destruct C111_rule_example as [_ Ok_]. destruct C110_network_example as (_ & _ & _ & _ & K1 & K2 & _). pose proof near_net_bounds as Rb.
  destruct (near_net_step near_grid eq_refl eq_refl eq_refl) as [u1 S1]. destruct (step_same _ _ _ _ S1) as (X1 & X2 & X3 & X4).
  destruct (near_net_step u1 X2 X3 X4) as [u2 S2]. assert (R2 : fruns f32 near_net 2 near_grid u2) by (econstructor; [econstructor; [constructor|exact S1]|exact S2]).
  pose proof (C110_spread f32 near_net Circular near_fns near_fns 1 1 (1 * 2) 2 134 1 alpha32 _ _ near_net_wf Rb S1) as Sp. set (q := 1 + _) in Sp.
  assert (Hq : 0 <= q) by (unfold q; pose proof (Rabs_pos (value (f_dt near_net))); lra).
  destruct (C110_network_run f32 near_net 2 net1 net2 0 0 Circular near_fns near_fns 1 1 1 2 2 134 1 alpha32 q 2 near_grid u2 D32 near_net_wf near_net_tame ltac:(split; [exact Logic.I|reflexivity]) eq_refl K1 K2 Rb Ok_ Hq Sp R2 near_cells ltac:(cbn; lia) ltac:(cbn; lia) ltac:(cbn; lia) ltac:(cbn; lia)) as (v & E & Nv).
  exists q, u2, v. auto.
Qed.

Print Assumptions C107_network.
Print Assumptions C107_network_run.
Print Assumptions C110_relu.
Print Assumptions C110_network.
Print Assumptions C110_network_step.
Print Assumptions C110_network_run.
