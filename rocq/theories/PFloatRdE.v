(** The Gray-Scott step in floats: no overflow, and its rounding error. *)
From Coq Require Import Reals ZArith List Bool Lia Lra Arith Floats.SpecFloat.
From Verif Require Import Base Tensor MActivations MCommon MCca MFloat SGrid SCca SLip SLife SFloat SRound PTensor PStep PCca PLip PLipX MRd PRd MFloatRd SFloatRd PFloat PFloatX PFloatY PFloatZ PFloatD PFloatE PFloatR PFloatG PFloatRd.
Import ListNotations.
Open Scope R_scope.

(** ** The identity layer on the real side *)
Lemma pass_real p e l u f o i j : passes_on p e l -> has_room l u -> (o < fB (fl_w l))%nat -> (i < fH u)%nat -> (j < fW u)%nat ->
  convf (real_layer l) (fH u) (fW u) f o i j = f (o / (fB (fl_w l) / fl_g l))%nat i j.
Proof.
  intros (C1 & G & _ & W & V) (HH & HW & A1 & A2) Ho Hi Hj. unfold convf. cbv zeta. cbn [real_layer cl_w cl_g cl_m cl_p].
  change (tC (real_tensor (fl_w l))) with (fC (fl_w l)). change (tH (real_tensor (fl_w l))) with (fH (fl_w l)). change (tW (real_tensor (fl_w l))) with (fW (fl_w l)). change (tB (real_tensor (fl_w l))) with (fB (fl_w l)).
  rewrite C1. cbn [rsum]. rewrite Rplus_0_l, Nat.mul_1_r, Nat.add_0_r.
  assert (E : forall y x, (y < fH (fl_w l))%nat -> (x < fW (fl_w l))%nat -> get (real_tensor (fl_w l)) o 0 y x = if Nat.eqb y (fl_p l) && Nat.eqb x (fl_p l) then 1 else 0) by (intros; rewrite real_get by lia; apply V; assumption).
  rewrite (rsum_lone _ _ (fl_p l)); [rewrite (rsum_lone _ _ (fl_p l))|..].
  - rewrite E by lia. rewrite Nat.eqb_refl. cbn [andb]. unfold pval. rewrite !pad_middle by assumption. ring.
  - lia.
  - intros x Hx N. rewrite E by lia. destruct (Nat.eqb_spec x (fl_p l)); [lia|]. rewrite andb_false_r. ring.
  - lia.
  - intros y Hy N. rewrite (rsum_ext _ _ (fun _ => 0 * 0)); [rewrite rsum_scal; ring|]. intros x Hx. rewrite E by lia. destruct (Nat.eqb_spec y (fl_p l)); [lia|]. cbn [andb]. ring.
Qed.

(** ** Numbers close to real ones *)
Section Near.
Variables p e : Z.
Hypothesis P1 : (1 < p)%Z.
Hypothesis P2 : (p < e)%Z.
Notation d := (Native p e).

Definition approx (z : fl) (r B er : R) : Prop := number p e z /\ Rabs (value z - r) <= er /\ Rabs r <= B.

Lemma approx_exact z B : number p e z -> Rabs (value z) <= B -> approx z (value z) B 0.
Proof. intros N H. split; [exact N|]. split; [rewrite Rminus_diag_eq, Rabs_R0 by reflexivity; lra|exact H]. Qed.

Lemma approx_add x y r s B C a b : number p e (fadd p e x y) -> approx x r B a -> approx y s C b -> approx (fadd p e x y) (r + s) (B + C) (SRound.rd d (B + C) (a + b)).
Proof.
  intros N (Nx & Ex & Bx) (Ny & Ey & By). assert (BB : Rabs (r + s) <= B + C) by (eapply Rle_trans; [apply Rabs_triang|lra]). split; [exact N|]. split; [|exact BB].
  eapply (rd_result d); [apply add_result; assumption|exact (proj1 N)| |exact BB]. replace (value x + value y - (r + s)) with ((value x - r) + (value y - s)) by ring. eapply Rle_trans; [apply Rabs_triang|lra].
Qed.

Lemma approx_sub x y r s B C a b : number p e (fsub p e x y) -> approx x r B a -> approx y s C b -> approx (fsub p e x y) (r - s) (B + C) (SRound.rd d (B + C) (a + b)).
Proof.
  intros N (Nx & Ex & Bx) (Ny & Ey & By). assert (BB : Rabs (r - s) <= B + C) by (unfold Rminus; eapply Rle_trans; [apply Rabs_triang|rewrite Rabs_Ropp; lra]). split; [exact N|]. split; [|exact BB].
  eapply (rd_result d); [apply sub_result; assumption|exact (proj1 N)| |exact BB]. replace (value x - value y - (r - s)) with ((value x - r) + - (value y - s)) by ring. eapply Rle_trans; [apply Rabs_triang|rewrite Rabs_Ropp; lra].
Qed.

Lemma approx_mul x y r s B C a b : number p e (fmul p e x y) -> approx x r B a -> approx y s C b -> approx (fmul p e x y) (r * s) (B * C) (SRound.rd d (B * C) (B * b + a * (C + b))).
Proof.
  intros N (Nx & Ex & Bx) (Ny & Ey & By). assert (BB : Rabs (r * s) <= B * C) by (apply abs_prod; assumption). split; [exact N|]. split; [|exact BB].
  eapply (rd_result d); [apply mul_result; assumption|exact (proj1 N)| |exact BB]. apply prod_err; assumption.
Qed.

Lemma approx_eq z r B er er' : er = er' -> approx z r B er -> approx z r B er'.
Proof. intros ->. auto. Qed.
End Near.

(** ** One entry *)
Section Rate.
Variables (p e : Z) (c : frd) (W X A T : Z).
Hypothesis P1 : (1 < p)%Z.
Hypothesis P2 : (p < e)%Z.
Hypothesis Ht : tame_rd p e c W X A T.
Notation d := (Native p e).
Notation S := (Z.of_nat (window_size (g_nbl c))).

Lemma tame_room n E : (0 <= n)%Z -> (n <= S + 4)%Z -> (0 <= E)%Z -> (E <= W + X + A + T)%Z -> room d n E.
Proof. destruct Ht as (_ & _ & _ & _ & _ & _ & _ & _ & _ & _ & X0 & A0 & T0 & Rm & Rm2 & RS). unfold room. cbn [sprec semax]. lia. Qed.

Lemma square_facts : number p e (fmul p e (g_dx c) (g_dx c)) /\ bpow (- X) <= value (fmul p e (g_dx c) (g_dx c)) /\
  Rabs (value (fmul p e (g_dx c) (g_dx c)) - value (g_dx c) ^ 2) <= SRound.rd d (value (g_dx c) ^ 2) 0.
Proof.
  destruct Ht as (_ & _ & [Nx Bx] & _ & _ & _ & _ & _ & _ & HX & X0 & A0 & T0 & Rm & Rm2 & RS). set (x := value (g_dx c)) in *. replace (x ^ 2) with (x * x) in * by ring.
  pose proof (mul_result p e P1 P2 (g_dx c) (g_dx c) Nx Nx) as R. fold x in R. set (z := SFmul p e (g_dx c) (g_dx c)) in *. change (fmul p e (g_dx c) (g_dx c)) with z.
  assert (Em : forall k, (0 <= k)%Z -> rep p e (bpow k)) by (intros k Hk; apply rep_bpow; [lia|unfold emin; lia]).
  destruct (result_bounded p e _ _ (bpow (A + A)) R) as [N _]; [apply Em; lia|apply bpow_lt; lia|rewrite bpow_add; apply abs_prod; exact Bx|]. split; [exact N|].
  assert (Ab : Rabs (x * x) <= x * x) by (rewrite Rabs_pos_eq; [lra|pose proof (bpow_pos (- X)); lra]).
  split; [|apply (rd_result d _ _ _ _ _ R (proj1 N)); [rewrite Rminus_diag_eq, Rabs_R0 by reflexivity; lra|exact Ab]].
  destruct R as (v & Rv & C). assert (Ev : value z = v) by (destruct C as [(_ & _ & C)|[(_ & C)|(_ & C)]]; [exact C|rewrite C in N; contradiction (proj1 N)..]).
  rewrite Ev. apply (rounded_ge p e _ _ _ Rv); [apply rep_bpow; [lia|unfold emin; lia]|exact HX].
Qed.

Lemma nabla_within n : within d S W n -> within d S (W + X) (fnabla p e c n).
Proof.
  intros [N B]. destruct square_facts as (Nz & Bz & _). set (z := fmul p e (g_dx c) (g_dx c)) in *. pose proof (bpow_pos (- X)) as BP. 
  pose proof (div_result p e P1 P2 n z N Nz ltac:(lra)) as R. apply (result_within d S (W + X) (value n / value z)); [split; assumption|apply tame_room; destruct Ht as (_ & _ & _ & _ & _ & _ & _ & _ & _ & _ & X0 & A0 & T0 & _); lia|exact R|].
  unfold Rdiv. rewrite bpow_add, <- Rmult_assoc. apply abs_prod; [exact B|]. rewrite Rabs_pos_eq by (apply Rlt_le, Rinv_0_lt_compat; lra).
  replace (bpow X) with (/ bpow (- X)); [apply Rinv_le_contravar; lra|]. apply (Rmult_eq_reg_r (bpow (- X))); [|lra]. rewrite Rinv_l by lra. rewrite <- bpow_add. replace (X + - X)%Z with 0%Z by lia. symmetry. apply bpow_0.
Qed.

Variables u v nu nv : fl.
Hypothesis Hu : unit_number p e u.
Hypothesis Hv : unit_number p e v.
Hypothesis Hnu : within d S W nu.
Hypothesis Hnv : within d S W nv.

Lemma D_ok : dtype_ok d. Proof. split; assumption. Qed.
Lemma unit_within z : unit_number p e z -> within d 1 0 z.
Proof. intros [N B]. split; [exact N|]. rewrite bpow_0, Rabs_pos_eq; lra. Qed.
Lemma par_within z : number p e z /\ Rabs (value z) <= bpow A -> within d 1 A z.
Proof. intros [N B]. split; [exact N|]. rewrite Rmult_1_l. exact B. Qed.

(** Every intermediate result is a number. *)
Lemma parts :
  within d 1 0 (fmul p e u v) /\ within d 1 0 (fmul p e (fmul p e u v) v) /\ within d 2 0 (fsub p e (fone p e) u) /\
  within d S (W + X + A) (fmul p e (g_du c) (fnabla p e c nu)) /\ within d S (W + X + A) (fmul p e (g_dv c) (fnabla p e c nv)) /\
  within d (S + 1) (W + X + A) (fsub p e (fmul p e (g_du c) (fnabla p e c nu)) (fmul p e (fmul p e u v) v)) /\
  within d (S + 1) (W + X + A) (fadd p e (fmul p e (g_dv c) (fnabla p e c nv)) (fmul p e (fmul p e u v) v)) /\
  within d 2 A (fmul p e (g_f c) (fsub p e (fone p e) u)) /\ within d 2 A (fadd p e (g_f c) (g_k c)) /\ within d 2 A (fmul p e (fadd p e (g_f c) (g_k c)) v) /\
  forall o, (o < 2)%nat -> within d (S + 3) (W + X + A) (frate p e c o u v nu nv).
Proof.
  pose proof Ht as (_ & _ & _ & Pu & Pv & Pf & Pk & _ & _ & _ & X0 & A0 & T0 & _). pose proof D_ok as D. apply unit_within in Hu, Hv. apply par_within in Pu, Pv, Pf, Pk.
  assert (RR : forall n E, (0 <= n)%Z -> (n <= S + 4)%Z -> (0 <= E)%Z -> (E <= W + X + A + T)%Z -> room d n E) by exact tame_room. assert (S0 : (0 <= S)%Z) by lia.
  assert (M1 : within d 1 0 (fmul p e u v)) by (apply (mul_within d 1 0 1 0); auto; try lia; apply RR; lia).
  assert (M2 : within d 1 0 (fmul p e (fmul p e u v) v)) by (apply (mul_within d 1 0 1 0); auto; try lia; apply RR; lia).
  assert (M3 : within d 2 0 (fsub p e (fone p e) u)) by (apply (sub_within d 1 1 0); auto; [apply RR; lia|apply one_within; exact D]).
  assert (M4 : forall q n, within d 1 A q -> within d S W n -> within d S (W + X + A) (fmul p e q (fnabla p e c n))).
  { intros q n Hq Hn. replace S with (1 * S)%Z by lia. rewrite (Z.add_comm (W + X) A). apply (mul_within d); auto; try lia; [apply RR; lia|apply nabla_within; exact Hn]. }
  assert (M2' : within d 1 (W + X + A) (fmul p e (fmul p e u v) v)) by (apply (within_le d 1 1 0); auto; lia).
  pose proof (M4 _ _ Pu Hnu) as M4u. pose proof (M4 _ _ Pv Hnv) as M4v.
  assert (M5 : within d (S + 1) (W + X + A) (fsub p e (fmul p e (g_du c) (fnabla p e c nu)) (fmul p e (fmul p e u v) v))) by (apply (sub_within d); auto; apply RR; lia).
  assert (M6 : within d (S + 1) (W + X + A) (fadd p e (fmul p e (g_dv c) (fnabla p e c nv)) (fmul p e (fmul p e u v) v))) by (apply (add_within d); auto; apply RR; lia).
  assert (M7 : within d 2 A (fmul p e (g_f c) (fsub p e (fone p e) u))) by (rewrite <- (Z.add_0_r A); apply (mul_within d 1 A 2 0); auto; try lia; apply RR; lia).
  assert (M8 : within d 2 A (fadd p e (g_f c) (g_k c))) by (apply (add_within d 1 1 A); auto; apply RR; lia).
  assert (M9 : within d 2 A (fmul p e (fadd p e (g_f c) (g_k c)) v)) by (rewrite <- (Z.add_0_r A); apply (mul_within d 2 A 1 0); auto; try lia; apply RR; lia).
  do 10 (split; [assumption|]). intros o Ho. replace (S + 3)%Z with (S + 1 + 2)%Z by lia. destruct o as [|[|o]]; [| |lia]; cbn [frate].
  - apply (add_within d); auto; [apply RR; lia|apply (within_le d 2 2 A); auto; lia].
  - apply (sub_within d); auto; [apply RR; lia|apply (within_le d 2 2 A); auto; lia].
Qed.

Lemma out_within w o : (o < 2)%nat -> unit_number p e w -> within d (S + 3) (W + X + A + T) (fmul p e (g_dt c) (frate p e c o u v nu nv)) /\
  within d (S + 4) (W + X + A + T) (fadd p e w (fmul p e (g_dt c) (frate p e c o u v nu nv))).
Proof.
  intros Ho Hw. destruct parts as (_ & _ & _ & _ & _ & _ & _ & _ & _ & _ & Q). specialize (Q o Ho). pose proof Ht as (_ & _ & _ & _ & _ & _ & _ & Nt & Bt & _ & X0 & A0 & T0 & _). pose proof D_ok as D.
  assert (S0 : (0 <= S)%Z) by lia.
  assert (M : within d (S + 3) (W + X + A + T) (fmul p e (g_dt c) (frate p e c o u v nu nv))).
  { replace (S + 3)%Z with (1 * (S + 3))%Z by lia. rewrite (Z.add_comm (W + X + A) T). apply (mul_within d); auto; try lia; [apply tame_room; lia|]. split; [exact Nt|rewrite Rmult_1_l; exact Bt]. }
  split; [exact M|]. replace (S + 4)%Z with (1 + (S + 3))%Z by lia. apply (add_within d); auto; [apply tame_room; lia|]. apply (within_le d 1 1 0); try lia. apply unit_within, Hw.
Qed.

(** The error of the rates. *)
Variables (ru rv ou ov K : R).
Notation n := (window_size (g_nbl c)).
Notation XX := (value (g_dx c) ^ 2).
Hypothesis K0 : 0 <= K.
Hypothesis Vu : value u = ru.
Hypothesis Vv : value v = rv.
Hypothesis Eu : approx p e nu ou K (dot_err d n K).
Hypothesis Ev : approx p e nv ov K (dot_err d n K).

Lemma room_below : SRound.rd d XX 0 < XX.
Proof.
  destruct Ht as (_ & _ & _ & _ & _ & _ & _ & _ & _ & HX & X0 & A0 & T0 & Rm & _). unfold SRound.rd, unit_round, half_step. cbn [cprec cemax]. rewrite Rplus_0_r, Rplus_0_l.
  assert (B1 : bpow (- p) <= bpow (-2)) by (apply bpow_le; lia). assert (B2 : bpow (emin p e - 1) <= bpow (-2 + - X)) by (apply bpow_le; unfold emin; lia). rewrite bpow_add in B2.
  assert (Q : bpow (-2) = 1 / 4) by (change (-2)%Z with (0 - 1 - 1)%Z; rewrite !bpow_half, bpow_0; lra). rewrite Q in *. pose proof (bpow_pos (- X)). assert (bpow (- p) * XX <= 1 / 4 * XX) by (apply Rmult_le_compat_r; lra). lra.
Qed.

Lemma approx_nabla n0 r : within d S W n0 -> approx p e n0 r K (dot_err d n K) -> approx p e (fnabla p e c n0) (r / XX) (K / XX) (nabla_err d n K XX).
Proof.
  intros Hn (Nn & En & Bn). destruct square_facts as (Nz & Bz & Ez). pose proof room_below as RB. pose proof Ht as (_ & _ & _ & _ & _ & _ & _ & _ & _ & HX & _). pose proof (bpow_pos (- X)) as BP.
  destruct (nabla_within n0 Hn) as [Nq _]. set (z := fmul p e (g_dx c) (g_dx c)) in *. set (ex := SRound.rd d XX 0) in *. set (En' := dot_err d n K) in *.
  assert (BB : Rabs (r / XX) <= K / XX).
  { unfold Rdiv. rewrite Rabs_mult, (Rabs_pos_eq (/ XX)) by (apply Rlt_le, Rinv_0_lt_compat; lra). apply Rmult_le_compat_r; [apply Rlt_le, Rinv_0_lt_compat; lra|exact Bn]. }
  split; [exact Nq|]. split; [|exact BB]. unfold nabla_err. fold ex En'. eapply (rd_result d); [apply div_result; try assumption; fold z; lra|exact (proj1 Nq)| |exact BB]. fold z.
  assert (Fd : forall a b x y, 0 < x -> 0 < y -> a / x - b / y = ((a - b) + (b / y) * (y - x)) / x) by (intros a b x y Hx Hy; field; split; apply Rgt_not_eq; assumption).
  rewrite (Fd _ r _ XX) by lra. clear Fd.
  assert (Lz : XX - ex <= value z) by (unfold Rabs in Ez; destruct (Rcase_abs _) in Ez; lra).
  unfold Rdiv at 1. rewrite Rabs_mult, (Rabs_pos_eq (/ value z)) by (apply Rlt_le, Rinv_0_lt_compat; lra). unfold Rdiv at 2. apply Rmult_le_compat; [apply Rabs_pos|apply Rlt_le, Rinv_0_lt_compat; lra| |apply Rinv_le_contravar; lra].
  eapply Rle_trans; [apply Rabs_triang|]. apply Rplus_le_compat; [exact En|]. rewrite Rabs_minus_sym in Ez. apply abs_prod; assumption.
Qed.

Lemma approx_rate o (Ho : (o < 2)%nat) : let F := Rabs (value (g_f c)) in let G := F + Rabs (value (g_k c)) in let Du := Rabs (value (g_du c)) in let Dv := Rabs (value (g_dv c)) in
  match o with
  | 0%nat => approx p e (frate p e c 0 u v nu nv) (value (g_du c) * (ou / XX) - ru * rv * rv + value (g_f c) * (1 - ru)) (Du * (K / XX) + 1 + F) (u_err d n K XX Du F)
  | _ => approx p e (frate p e c 1 u v nu nv) (value (g_dv c) * (ov / XX) + ru * rv * rv - (value (g_f c) + value (g_k c)) * rv) (Dv * (K / XX) + 1 + G) (v_err d n K XX Dv G)
  end.
Proof.
  intros F G Du Dv. destruct parts as ((N1 & _) & (N2 & _) & (N3 & _) & (N4 & _) & (N5 & _) & (N6 & _) & (N7 & _) & (N8 & _) & (N9 & _) & (N10 & _) & Q).
  destruct (Q 0%nat ltac:(lia)) as [N11 _]. destruct (Q 1%nat ltac:(lia)) as [N12 _]. clear Q. pose proof Ht as (_ & _ & _ & (Nu & _) & (Nv & _) & (Nf & _) & (Nk & _) & _).
  destruct Hu as [NU BU], Hv as [NV BV]. destruct (one_number p e P1 P2) as [NO VO].
  assert (Au : approx p e u ru 1 0) by (rewrite <- Vu; apply approx_exact; [exact NU|rewrite Rabs_pos_eq; lra]).
  assert (Av : approx p e v rv 1 0) by (rewrite <- Vv; apply approx_exact; [exact NV|rewrite Rabs_pos_eq; lra]).
  pose proof (approx_exact p e (g_f c) F Nf (Rle_refl _)) as Af. pose proof (approx_exact p e (g_k c) _ Nk (Rle_refl _)) as Ak.
  pose proof (approx_exact p e (g_du c) Du Nu (Rle_refl _)) as Adu. pose proof (approx_exact p e (g_dv c) Dv Nv (Rle_refl _)) as Adv.
  set (e1 := SRound.rd d 1 0).
  assert (A1 : approx p e (fmul p e u v) (ru * rv) 1 e1). { pose proof (approx_mul p e P1 P2 _ _ _ _ _ _ _ _ N1 Au Av) as Z. rewrite Rmult_1_l in Z. eapply approx_eq; [|exact Z]. unfold e1. f_equal. ring. }
  assert (A2 : approx p e (fmul p e (fmul p e u v) v) (ru * rv * rv) 1 (SRound.rd d 1 e1)). { pose proof (approx_mul p e P1 P2 _ _ _ _ _ _ _ _ N2 A1 Av) as Z. rewrite Rmult_1_l in Z. eapply approx_eq; [|exact Z]. f_equal. ring. }
  assert (A4 : forall q dd D nn r, q = value dd -> approx p e dd q D 0 -> number p e (fmul p e dd (fnabla p e c nn)) -> approx p e (fnabla p e c nn) (r / XX) (K / XX) (nabla_err d n K XX) ->
     approx p e (fmul p e dd (fnabla p e c nn)) (q * (r / XX)) (D * (K / XX)) (diffusion_err d n K XX D)).
  { intros q dd D nn r _ Ad Nn An. pose proof (approx_mul p e P1 P2 _ _ _ _ _ _ _ _ Nn Ad An) as Z. eapply approx_eq; [|exact Z]. unfold diffusion_err. f_equal. ring. }
  destruct o as [|[|o]]; [| |lia]; cbn [frate] in *.
  - assert (A3 : approx p e (fsub p e (fone p e) u) (1 - ru) 1 e1).
    { assert (BB : Rabs (1 - ru) <= 1) by (rewrite Rabs_pos_eq; lra). split; [exact N3|]. split; [|exact BB]. eapply (rd_result d); [apply sub_result; assumption|exact (proj1 N3)| |exact BB]. rewrite VO, Vu, Rminus_diag_eq, Rabs_R0 by reflexivity. lra. }
    assert (A7 : approx p e (fmul p e (g_f c) (fsub p e (fone p e) u)) (value (g_f c) * (1 - ru)) F (SRound.rd d F (F * e1))). { pose proof (approx_mul p e P1 P2 _ _ _ _ _ _ _ _ N8 Af A3) as Z. rewrite Rmult_1_r in Z. eapply approx_eq; [|exact Z]. f_equal. ring. }
    apply (approx_add p e P1 P2); [exact N11| |exact A7]. apply (approx_sub p e P1 P2); [exact N6| |exact A2]. apply (A4 _ _ _ _ _ eq_refl Adu N4), approx_nabla; assumption.
  - assert (A8 : approx p e (fadd p e (g_f c) (g_k c)) (value (g_f c) + value (g_k c)) G (SRound.rd d G 0)). { pose proof (approx_add p e P1 P2 _ _ _ _ _ _ _ _ N9 Af Ak) as Z. eapply approx_eq; [|exact Z]. unfold G. f_equal. ring. }
    assert (A9 : approx p e (fmul p e (fadd p e (g_f c) (g_k c)) v) ((value (g_f c) + value (g_k c)) * rv) G (SRound.rd d G (SRound.rd d G 0))). { pose proof (approx_mul p e P1 P2 _ _ _ _ _ _ _ _ N10 A8 Av) as Z. rewrite Rmult_1_r in Z. eapply approx_eq; [|exact Z]. f_equal. ring. }
    apply (approx_sub p e P1 P2); [exact N12| |exact A9]. apply (approx_add p e P1 P2); [exact N7| |exact A2]. apply (A4 _ _ _ _ _ eq_refl Adv N5), approx_nabla; assumption.
Qed.
End Rate.

Lemma iter_res_end {T} (f : T -> res T) n a x b : iter_res f n a = Ok x -> f x = Ok b -> iter_res f (Datatypes.S n) a = Ok b.
Proof.
  revert a. induction n as [|n IH]; intros a E Eb.
  - cbn in E |- *. injection E as <-. rewrite Eb. reflexivity.
  - change (bind (f a) (iter_res f n) = Ok x) in E. change (bind (f a) (iter_res f (Datatypes.S n)) = Ok b). destruct (f a) as [y|]; [|discriminate E]. exact (IH y E Eb).
Qed.

(** ** One step *)
Section Step.
Variables (p e : Z) (c : frd) (W X A T : Z).
Hypothesis P1 : (1 < p)%Z.
Hypothesis P2 : (p < e)%Z.
Hypothesis Hwf : frd_wf c.
Hypothesis Ht : tame_rd p e c W X A T.
Notation d := (Native p e).
Notation S := (Z.of_nat (window_size (g_nbl c))).

Lemma id_groups : fl_g (g_idl c) = 2%nat /\ fB (fl_w (g_idl c)) = 2%nat /\ forall o, (o / (fB (fl_w (g_idl c)) / fl_g (g_idl c)))%nat = o.
Proof.
  destruct Hwf as ((_ & _ & _ & _ & B & E) & _), Ht as ((C & _) & _). assert (G : fl_g (g_idl c) = 2%nat) by (rewrite C in E; lia). rewrite B, G. split; [reflexivity|]. split; [reflexivity|].
  intros o. change (2 / 2)%nat with 1%nat. apply Nat.div_1_r.
Qed.

Lemma frd_parts u idn nb b : fC u = 2%nat -> fconv p e (g_idl c) u idn -> fconv p e (g_nbl c) u nb -> (b < fB u)%nat -> batch_cells b u (unit_number p e) ->
  (forall o i j, (o < 2)%nat -> (i < fH u)%nat -> (j < fW u)%nat -> unit_number p e (fget idn b o i j) /\ value (fget idn b o i j) = value (fget u b o i j)) /\
  (forall o i j, (o < 2)%nat -> (i < fH u)%nat -> (j < fW u)%nat -> within d S W (fget nb b o i j)).
Proof.
  intros HC Vi Vn Hb Hu. destruct id_groups as (G1 & G2 & G3). pose proof Ht as (Ps & Wn & _). pose proof Hwf as (Wi' & Wn' & _). split; intros o i j Ho Hi Hj.
  - destruct (passed_on p e (g_idl c) u idn b o i j P1 P2 Ps Vi) as [N V]; try lia; [intros c' i' j' H1 H2 H3; apply Hu; assumption|]. rewrite G3 in V. split; [split; [exact N|rewrite V; apply Hu; lia]|exact V].
  - assert (Bn : batch_cells b nb (within d S W)).
    { assert (Rs : forall z, (z = S * 1)%Z -> room d z (W + 0)) by (intros z ->; apply (tame_room p e c W X A T P1 Ht); destruct Ht as (_ & _ & _ & _ & _ & _ & _ & _ & _ & _ & X0 & A0 & T0 & _); lia).
      replace S with (S * 1)%Z by lia. replace W with (W + 0)%Z by lia. apply (conv_within_by W d 2 2 (g_nbl c) u nb b 1 0); try assumption; [split; assumption|apply Rs; unfold window_size; reflexivity|lia|].
      intros c' i' j' H1 H2 H3. apply (unit_within p e). apply Hu; assumption. }
    pose proof Vn as (_ & _ & _ & _ & _ & V1 & V2 & V3 & V4 & _). pose proof Wn' as (_ & _ & _ & _ & B & _). apply Bn; lia.
Qed.

Lemma frd_tame u u' b : frd_step p e c u u' -> (b < fB u)%nat -> batch_cells b u (unit_number p e) -> batch_cells b u' (unit_number p e).
Proof.
  intros (HC & idn & nb & Vi & Vn & S1 & S2 & S3 & S4 & St) Hb Hu o i j Ho Hi Hj. rewrite S2, HC in Ho. rewrite S3 in Hi. rewrite S4 in Hj. rewrite St by lia.
  destruct (frd_parts u idn nb b HC Vi Vn Hb Hu) as [Qi Qn]. assert (X01 : (0 < 2)%nat) by lia. assert (X12 : (1 < 2)%nat) by lia.
  destruct (out_within p e c W X A T P1 P2 Ht _ _ _ _ (proj1 (Qi 0%nat i j X01 Hi Hj)) (proj1 (Qi 1%nat i j X12 Hi Hj)) (Qn 0%nat i j X01 Hi Hj) (Qn 1%nat i j X12 Hi Hj) (fget u b o i j) o Ho (Hu o i j ltac:(lia) Hi Hj)) as [_ [N _]].
  apply (clamp_not_nan p e P1 P2); [exact (proj2 N)|]. intros E. rewrite E in N. exact (proj1 N).
Qed.

Lemma frd_run_tame n u u' b : frd_runs p e c n u u' -> (b < fB u)%nat -> batch_cells b u (unit_number p e) -> batch_cells b u' (unit_number p e).
Proof. intros R Hb Hu. induction R as [u|n u v w R IH St]; [exact Hu|]. destruct (frd_runs_same _ _ _ _ _ _ R) as (A1 & _). eapply frd_tame; [exact St|lia|auto]. Qed.

(** *** Without v *)
Lemma zero_result z : result p e 0 z -> number p e z /\ value z = 0.
Proof. intros R. apply (result_exact p e _ _ R); [apply rep_0|rewrite Rabs_R0; apply bpow_pos]. Qed.

Definition nought (z : fl) : Prop := number p e z /\ value z = 0.
Lemma mul_nought x y : number p e x -> nought y -> nought (fmul p e x y).
Proof. intros Nx [Ny Vy]. apply zero_result. pose proof (mul_result p e P1 P2 x y Nx Ny) as R. rewrite Vy, Rmult_0_r in R. exact R. Qed.
Lemma add_nought x y : nought x -> nought y -> nought (fadd p e x y).
Proof. intros [Nx Vx] [Ny Vy]. apply zero_result. pose proof (add_result p e P1 P2 x y Nx Ny) as R. rewrite Vx, Vy, Rplus_0_r in R. exact R. Qed.
Lemma sub_nought x y : nought x -> nought y -> nought (fsub p e x y).
Proof. intros [Nx Vx] [Ny Vy]. apply zero_result. pose proof (sub_result p e P1 P2 x y Nx Ny) as R. rewrite Vx, Vy, Rminus_0_r in R. exact R. Qed.

Lemma frd_no_v u u' b : apart (g_nbl c) -> frd_step p e c u u' -> (b < fB u)%nat -> batch_cells b u (unit_number p e) ->
  (forall i j, (i < fH u)%nat -> (j < fW u)%nat -> value (fget u b 1 i j) = 0) -> forall i j, (i < fH u)%nat -> (j < fW u)%nat -> value (fget u' b 1 i j) = 0.
Proof.
  intros [Ag Ac] (HC & idn & nb & Vi & Vn & S1 & S2 & S3 & S4 & St) Hb Hu Hz i j Hi Hj. rewrite St by lia. destruct (frd_parts u idn nb b HC Vi Vn Hb Hu) as [Qi Qn]. cbn [frate].
  destruct (Qi 0%nat i j ltac:(lia) Hi Hj) as [[Nu _] _]. destruct (Qi 1%nat i j ltac:(lia) Hi Hj) as [[Nv _] Vv]. rewrite Hz in Vv by assumption.
  assert (Zn : nought (fget nb b 1 i j)).
  { pose proof Vn as (C1 & C2 & C3 & C4 & C5 & V1 & V2 & V3 & V4 & Tn). pose proof Hwf as (_ & Wn' & _ & Cm). pose proof Wn' as (_ & _ & _ & _ & B & _). specialize (Tn b 1%nat i j Hb ltac:(lia) Hi Hj).
    destruct (total_bounded p e P1 P2 0 0 _ _ ltac:(lia) ltac:(unfold emin; lia) Tn) as [N Bd]; [rewrite Z.mul_0_r; apply Z.pow_nonneg; lia|rewrite Z.mul_0_r, Rmult_0_l; apply bpow_pos| |].
    - apply Forall_forall. intros q Hq. apply window_in in Hq as (c' & y & x & Hc & Hy & Hx & ->). cbn [fst snd]. replace c' with 0%nat in * by lia.
      rewrite B, Ag, Ac. change (1 / (2 / 2) * 1 + 0)%nat with 1%nat.
      assert (Zp : nought (fpad (fl_m (g_nbl c)) (fl_p (g_nbl c)) u b 1 (i + y) (j + x))).
      { apply (pad_cells (fl_m (g_nbl c)) (fl_p (g_nbl c)) (mkF (fB u) 1 (fH u) (fW u) (fun b _ => fget u b 1)) b nought 0); cbn [fB fC fH fW fget]; auto; try lia; [split; [split; [exact Logic.I|reflexivity]|reflexivity]|].
        intros c'' i' j' H1 H2 H3. cbn [fB fC fH fW fget] in *. split; [apply Hu; lia|apply Hz; lia]. }
      destruct Zp as [Np Vp]. split; [apply Ht; lia|]. split; [exact Np|]. rewrite Vp, Rmult_0_r, Rabs_R0, Rmult_0_l. lra.
    - split; [exact N|]. rewrite Z.mul_0_r, Rmult_0_l in Bd. pose proof (Rabs_pos (value (fget nb b 1 i j))). destruct (Req_dec (value (fget nb b 1 i j)) 0) as [Y|Y]; [exact Y|apply Rabs_pos_lt in Y; lra]. }
  assert (Zq : nought (fnabla p e c (fget nb b 1 i j))).
  { destruct (square_facts p e c W X A T P1 P2 Ht) as (Nz & Bz & _). pose proof (bpow_pos (- X)). destruct Zn as [N V]. apply zero_result. pose proof (div_result p e P1 P2 _ _ N Nz ltac:(lra)) as R. rewrite V in R. unfold Rdiv in R. rewrite Rmult_0_l in R. exact R. }
  assert (Zv : nought (fget idn b 1 i j)) by (split; assumption).
  assert (X01 : (0 < 2)%nat) by lia. assert (X12 : (1 < 2)%nat) by lia.
  destruct (parts p e c W X A T P1 P2 Ht _ _ _ _ (proj1 (Qi 0%nat i j X01 Hi Hj)) (proj1 (Qi 1%nat i j X12 Hi Hj)) (Qn 0%nat i j X01 Hi Hj) (Qn 1%nat i j X12 Hi Hj)) as ((N1 & _) & _ & _ & _ & _ & _ & _ & _ & (N9 & _) & _).
  pose proof Ht as (_ & _ & _ & _ & (Nd & _) & _ & _ & Ndt & _).
  assert (Zs : nought (fadd p e (fget u b 1 i j) (fmul p e (g_dt c) (frate p e c 1 (fget idn b 0 i j) (fget idn b 1 i j) (fget nb b 0 i j) (fget nb b 1 i j))))).
  { apply add_nought; [split; [apply Hu; lia|apply Hz; assumption]|]. apply mul_nought; [exact Ndt|]. cbn [frate]. apply sub_nought; [apply add_nought|]; apply mul_nought; assumption. }
  cbn [frate] in Zs. destruct Zs as [N V]. rewrite (clamp_value p e P1 P2 _ N), V. unfold clamp, Rmin, Rmax. repeat (destruct (Rle_dec _ _)); lra.
Qed.

Lemma frd_run_no_v n u u' b : apart (g_nbl c) -> frd_runs p e c n u u' -> (b < fB u)%nat -> batch_cells b u (unit_number p e) ->
  (forall i j, (i < fH u)%nat -> (j < fW u)%nat -> value (fget u b 1 i j) = 0) -> forall i j, (i < fH u)%nat -> (j < fW u)%nat -> value (fget u' b 1 i j) = 0.
Proof.
  intros Ap R Hb Hu Hz. induction R as [u|n u v w R IH St]; [exact Hz|]. destruct (frd_runs_same _ _ _ _ _ _ R) as (A1 & A2 & A3 & A4). intros i j Hi Hj.
  apply (frd_no_v v w b Ap St); try lia; [eapply frd_run_tame; eassumption|]. rewrite A3, A4. apply IH; assumption.
Qed.

(** *** The real step *)
Lemma real_rd_layers ic cfg rad u u' : frd_step p e c u u' -> rd_layers (real_rd c ic cfg rad).
Proof. destruct Hwf as (Wi & Wn & Ci & Cn). intros (HC & idn & nb & Vi & Vn & _). split; [eapply real_layer_wf; eassumption|]. split; [eapply real_layer_wf; eassumption|]. split; assumption. Qed.

Lemma real_rd_accepts ic cfg rad u u' : frd_step p e c u u' -> (0 < fH u)%nat -> (0 < fW u)%nat ->
  rd_forward (real_rd c ic cfg rad) (real_tensor u) =
    Ok (build (fB u) 2 (fH u) (fW u) (step_val (fun _ v c => v c) (real_layer (g_idl c)) (real_layer (g_nbl c)) (rd_ufn (real_rd c ic cfg rad)) (value (g_dt c)) (real_tensor u))).
Proof.
  intros St HH HW. destruct (real_rd_layers ic cfg rad u u' St) as (Li & Ln & _). unfold rd_forward.
  rewrite (ca_forward_nf 2 2 _ (fun _ v c => v c) _ _ _ (rd_chk (real_rd c ic cfg rad)) (rd_ufn (real_rd c ic cfg rad)) _ no_mask_cell Li Ln (rd_update_pointwise _)) by apply real_tensor_twf.
  destruct St as (HC & idn & nb & Vi & Vn & _). destruct Vi as (_ & _ & _ & A1 & A2 & _), Vn as (_ & _ & _ & B1 & B2 & _).
  replace (step_ready 2 _ _ (real_tensor u)) with true.
  2:{ symmetry. unfold step_ready, layer_ready. cbn [real_rd rd_idl rd_nbl real_layer cl_m cl_p real_tensor build tC tH tW]. rewrite A1, A2, B1, B2, HC. apply Nat.ltb_lt in HH, HW. rewrite HH, HW. reflexivity. }
  assert (Ck : rd_chk (real_rd c ic cfg rad) = Ok tt).
  { unfold rd_chk, nonzero. cbn [real_rd rd_dx]. destruct Ht as (_ & _ & _ & _ & _ & _ & _ & _ & _ & HX & _). pose proof (bpow_pos (- X)). destruct (Req_EM_T _ 0); [lra|reflexivity]. }
  rewrite Ck. reflexivity.
Qed.

Lemma frd_cell ic cfg rad K u u' b o i j : layer_within K (real_layer (g_nbl c)) -> frd_step p e c u u' -> (b < fB u)%nat -> (o < 2)%nat -> (i < fH u)%nat -> (j < fW u)%nat -> batch_cells b u (unit_number p e) ->
  Rabs (value (fget u' b o i j) - step_val (fun _ v c => v c) (real_layer (g_idl c)) (real_layer (g_nbl c)) (rd_ufn (real_rd c ic cfg rad)) (value (g_dt c)) (real_tensor u) b o i j) <= frd_err p e c K o.
Proof.
  intros HK (HC & idn & nb & Vi & Vn & S1 & S2 & S3 & S4 & St) Hb Ho Hi Hj Hu. rewrite St by lia. destruct (frd_parts u idn nb b HC Vi Vn Hb Hu) as [Qi Qn]. destruct id_groups as (G1 & G2 & G3).
  pose proof Hwf as (Wi & Wn & _). pose proof Wn as (_ & _ & _ & _ & Bn & _). pose proof Ht as (Ps & Cw & _).
  assert (K0 : 0 <= K) by (apply (within_nonneg K (real_layer (g_nbl c))); [cbn; lia|exact HK]).
  assert (X01 : (0 < 2)%nat) by lia. assert (X12 : (1 < 2)%nat) by lia.
  set (f := mval (fun _ (v : nat -> R) c => v c) (real_tensor u) b).
  assert (Ef : forall k y x, (k < 2)%nat -> (y < fH u)%nat -> (x < fW u)%nat -> f k y x = value (fget u b k y x)) by (intros; unfold f, mval; apply real_get; lia).
  assert (Hf : forall k y x, (k < fC u)%nat -> (y < fH u)%nat -> (x < fW u)%nat -> Rabs (value (fget u b k y x) - f k y x) <= 0 /\ Rabs (f k y x) <= 1).
  { intros k y x Hk Hy Hx. rewrite Ef by lia. rewrite Rminus_diag_eq, Rabs_R0 by reflexivity. split; [lra|]. destruct (Hu k y x Hk Hy Hx) as [_ B]. rewrite Rabs_pos_eq; lra. }
  assert (An : forall k, (k < 2)%nat -> approx p e (fget nb b k i j) (convf (real_layer (g_nbl c)) (fH u) (fW u) f k i j) K (dot_err d (window_size (g_nbl c)) K)).
  { intros k Hk. split; [exact (proj1 (Qn k i j Hk Hi Hj))|]. 
    pose proof (conv_real_bound d _ _ (g_nbl c) u nb b f 1 0 K Wn Vn Hb Hf HK ltac:(lra) ltac:(lra) k i j ltac:(lia) Hi Hj) as B. rewrite Rmult_1_r in B. split; [|exact B].
    assert (RoN : room d (Z.of_nat (side (g_nbl c)) * 1) (W + 0)) by (change (side (g_nbl c)) with (window_size (g_nbl c)); apply (tame_room p e c W X A T P1 Ht); destruct Ht as (_ & _ & _ & _ & _ & _ & _ & _ & _ & _ & X0 & A0 & T0 & _); lia).
    pose proof (conv_error_by d _ _ (g_nbl c) u nb b f 1 0 K W (conj P1 P2) Wn Cw Vn Hb Hf HK ltac:(lra) ltac:(lra) k i j 1 0 RoN ltac:(lia)) as Q.
    rewrite Rmult_0_r, Rplus_0_l, Rplus_0_r, Rmult_1_r in Q. apply Q; try assumption; [|lia]. intros c' i' j' H1 H2 H3. apply (unit_within p e). apply Hu; assumption. }
  assert (Ci : forall k, (k < 2)%nat -> value (fget idn b k i j) = convf (real_layer (g_idl c)) (fH u) (fW u) f k i j).
  { intros k Hk. rewrite (pass_real p e (g_idl c) u f k i j Ps); [|destruct Vi as (_ & H1 & H2 & H3 & H4 & _); repeat split; assumption|lia|exact Hi|exact Hj]. rewrite G3, Ef by assumption. apply Qi; assumption. }
  destruct (Qi 0%nat i j X01 Hi Hj) as [Iu _]. destruct (Qi 1%nat i j X12 Hi Hj) as [Iv _].
  pose proof (approx_rate p e c W X A T P1 P2 Ht _ _ _ _ Iu Iv (Qn 0%nat i j X01 Hi Hj) (Qn 1%nat i j X12 Hi Hj) _ _ _ _ K (Ci 0%nat X01) (Ci 1%nat X12) (An 0%nat X01) (An 1%nat X12) o Ho) as Ar. cbv zeta in Ar.
  destruct (out_within p e c W X A T P1 P2 Ht _ _ _ _ Iu Iv (Qn 0%nat i j X01 Hi Hj) (Qn 1%nat i j X12 Hi Hj) (fget u b o i j) o Ho (Hu o i j ltac:(lia) Hi Hj)) as [[N1 _] [N2 _]].
  destruct (Hu o i j ltac:(lia) Hi Hj) as [Nw Bw]. pose proof (approx_exact p e (fget u b o i j) 1 Nw ltac:(rewrite Rabs_pos_eq; lra)) as Aw.
  pose proof Ht as (_ & _ & _ & _ & _ & _ & _ & Nt & _). pose proof (approx_exact p e (g_dt c) _ Nt (Rle_refl _)) as At.
  unfold step_val. change (tH (real_tensor u)) with (fH u). change (tW (real_tensor u)) with (fW u). fold f. rewrite (clamp_value p e P1 P2 _ N2). eapply Rle_trans; [apply clamp_lip|]. rewrite (Ef o i j) by assumption.
  assert (Fin : forall B er r, approx p e (frate p e c o (fget idn b 0 i j) (fget idn b 1 i j) (fget nb b 0 i j) (fget nb b 1 i j)) r B er ->
    Rabs (value (fadd p e (fget u b o i j) (fmul p e (g_dt c) (frate p e c o (fget idn b 0 i j) (fget idn b 1 i j) (fget nb b 0 i j) (fget nb b 1 i j)))) - (value (fget u b o i j) + value (g_dt c) * r)) <= euler_err d (Rabs (value (g_dt c))) B er).
  { intros B er r Aq. pose proof (approx_mul p e P1 P2 _ _ _ _ _ _ _ _ N1 At Aq) as Am. pose proof (approx_add p e P1 P2 _ _ _ _ _ _ _ _ N2 Aw Am) as (_ & Q & _).
    eapply Rle_trans; [exact Q|]. unfold euler_err. apply Req_le. f_equal. rewrite Rplus_0_l. f_equal. ring. }
  destruct o as [|[|o]]; [| |lia]; apply Fin, Ar.
Qed.

Lemma frd_close ic cfg rad K u u' v : layer_within K (real_layer (g_nbl c)) -> cells u (unit_number p e) -> frd_step p e c u u' -> (0 < fH u)%nat -> (0 < fW u)%nat ->
  rd_forward (real_rd c ic cfg rad) (real_tensor u) = Ok v -> shape (real_tensor u') = shape v /\
  forall b o i j, (b < tB v)%nat -> (o < tC v)%nat -> (i < tH v)%nat -> (j < tW v)%nat -> Rabs (get (real_tensor u') b o i j - get v b o i j) <= frd_err p e c K o.
Proof.
  intros HK Hu St HH HW E. rewrite (real_rd_accepts ic cfg rad u u' St HH HW) in E. injection E as <-. destruct (frd_same _ _ _ _ _ St) as (S1 & S2 & S3 & S4). pose proof St as (HC & _).
  split; [unfold shape, real_tensor; cbn; congruence|]. intros b o i j. cbn [build tB tC tH tW]. intros Hb Ho Hi Hj. rewrite get_build by assumption. rewrite real_get by lia.
  apply frd_cell; try assumption. intros c' i' j' H1 H2 H3. apply Hu; assumption.
Qed.

(** *** Runs *)
Lemma frd_run_near ic cfg rad K q : layer_within K (real_layer (g_nbl c)) -> 0 <= q -> spreads q (rd_forward (real_rd c ic cfg rad)) ->
  forall n u u', frd_runs p e c n u u' -> fC u = 2%nat -> cells u (unit_number p e) -> (0 < fB u)%nat -> (0 < fH u)%nat -> (0 < fW u)%nat ->
  exists v, iter_res (rd_forward (real_rd c ic cfg rad)) n (real_tensor u) = Ok v /\
    0 <= grown q (Rmax (frd_err p e c K 0) (frd_err p e c K 1)) 0 n /\ SLip.near (grown q (Rmax (frd_err p e c K 0) (frd_err p e c K 1)) 0 n) (real_tensor u') v.
Proof.
  intros HK q0 Sp n u u' R HC Hu HB HH HW. set (er := Rmax _ _). induction R as [u|n u w w' R IH St].
  - exists (real_tensor u). split; [reflexivity|]. cbn [grown]. split; [lra|]. split; [apply real_tensor_twf|]. split; [apply real_tensor_twf|]. split; [reflexivity|]. split; [apply (real_unit d); [split; assumption|assumption]|]. split; [apply (real_unit d); [split; assumption|assumption]|].
    intros. rewrite Rminus_diag_eq, Rabs_R0 by reflexivity. lra.
  - destruct (IH HC Hu HB HH HW) as (v & E & G0 & Nv). destruct (frd_runs_same _ _ _ _ _ _ R) as (X1 & X2 & X3 & X4). destruct (frd_same _ _ _ _ _ St) as (S1 & S2 & S3 & S4).
    assert (Cw : cells w (unit_number p e)). { intros b o i j Hb Ho Hi Hj. rewrite X1 in Hb. apply (frd_run_tame n u w b R Hb); try assumption. intros o' i' j' Y1 Y2 Y3. apply Hu; assumption. }
    assert (Cw' : cells w' (unit_number p e)). { intros b o i j Hb Ho Hi Hj. rewrite S1 in Hb. apply (frd_tame w w' b St Hb); try assumption. intros o' i' j' Y1 Y2 Y3. apply Cw; assumption. }
    pose proof (real_rd_accepts ic cfg rad w w' St ltac:(lia) ltac:(lia)) as Ez. set (z := build _ _ _ _ _) in Ez.
    destruct (frd_close ic cfg rad K w w' z HK Cw St ltac:(lia) ltac:(lia) Ez) as [Sh Cl].
    destruct (Sp _ (real_tensor w) v G0 ltac:(cbn [real_tensor build tC]; lia) Nv) as [Pz _]. destruct (Pz z Ez) as (v' & Ev & Nz). exists v'.
    split; [eapply iter_res_end; eassumption|].
    assert (Le : forall o, (o < 2)%nat -> frd_err p e c K o <= er) by (intros [|[|o]] Ho; [apply Rmax_l|apply Rmax_r|lia]).
    assert (Ge : 0 <= er). { unfold shape in Sh. injection Sh as Y1 Y2 Y3 Y4. cbn in Y1, Y2, Y3, Y4. eapply Rle_trans; [|apply (Le 0%nat); lia]. eapply Rle_trans; [apply Rabs_pos|]. apply (Cl 0%nat 0%nat 0%nat 0%nat); cbn; lia. }
    cbn [grown]. split; [assert (0 <= q * grown q er 0 n) by (apply Rmult_le_pos; assumption); lra|].
    destruct Nz as (T1 & T2 & Sz & U1 & U2 & Dz). split; [apply real_tensor_twf|]. split; [exact T2|]. split; [congruence|]. split; [apply (real_unit d); [split; assumption|assumption]|]. split; [exact U2|].
    intros b o i j Hb Ho Hi Hj. replace (get (real_tensor w') b o i j - get v' b o i j) with ((get (real_tensor w') b o i j - get z b o i j) + (get z b o i j - get v' b o i j)) by ring.
    cbn in Hb, Ho, Hi, Hj. eapply Rle_trans; [apply Rabs_triang|]. rewrite Rplus_comm. apply Rplus_le_compat; [apply Dz; cbn; lia|]. eapply Rle_trans; [apply Cl; cbn; lia|apply Le; lia].
Qed.
End Step.
