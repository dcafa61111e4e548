(** Accuracy of the Gaussian in floats. *)
From Coq Require Import Reals ZArith List Bool Lia Lra Psatz Arith Floats.SpecFloat.
From Verif Require Import Base Tensor MActivations MFloat SFloat SLip SRound PFloat PFloatX PFloatC PFloatG PFloatD.
Open Scope R_scope.

(** [v] is within [c] times [r] plus [h] of [r]. *)
Definition about (c h v r : R) : Prop := Rabs (v - r) <= c * Rabs r + h.

Lemma about_le c h c' h' v r : about c h v r -> c <= c' -> h <= h' -> about c' h' v r.
Proof. unfold about. intros A C H. pose proof (Rabs_pos r). nra. Qed.

Lemma about_square c h v r : 0 <= c -> 0 <= h -> about c h v r -> about (c * (2 + c) + h * (2 + 2 * c)) (h * (2 + 2 * c) + h * h) (v * v) (r * r).
Proof.
  unfold about. intros C H A. replace (v * v - r * r) with ((v - r) * (v + r)) by ring. rewrite Rabs_mult, (Rabs_pos_eq (r * r)) by nra.
  assert (Y : Rabs (v + r) <= (2 + c) * Rabs r + h) by (replace (v + r) with ((v - r) + 2 * r) by ring; eapply Rle_trans; [apply Rabs_triang|]; rewrite Rabs_mult, (Rabs_pos_eq 2) by lra; lra).
  assert (R2 : r * r = Rabs r * Rabs r) by (rewrite <- Rabs_mult, Rabs_pos_eq by nra; reflexivity). rewrite R2. pose proof (Rabs_pos r) as P. pose proof (Rabs_pos (v - r)) as P1. pose proof (Rabs_pos (v + r)) as P2. set (x := Rabs r) in *.
  apply Rle_trans with ((c * x + h) * ((2 + c) * x + h)); [apply Rmult_le_compat; assumption|].
  assert (X : x <= x * x + 1) by nra. assert (K : 0 <= h * (2 + 2 * c)) by nra. apply (Rmult_le_compat_l _ _ _ K) in X. nra.
Qed.

Lemma about_div c h w W a r : 0 <= c -> 0 <= h -> 0 < W -> 0 <= w <= 1 / 2 -> forall V, Rabs (V - W) <= w * W -> about c h a r ->
  about ((c + w) * (1 + 2 * w)) (h * (1 + 2 * w) / W) (a / V) (r / W).
Proof.
  unfold about. intros C H HW [w0 w1] V HV A.
  assert (V1 : (1 - w) * W <= V) by (unfold Rabs in HV; destruct (Rcase_abs _) in HV; lra). assert (V0 : 0 < V) by nra.
  assert (I : / V <= (1 + 2 * w) / W).
  { apply Rmult_le_reg_l with (V * W); [nra|]. assert (NV : V <> 0) by (apply Rgt_not_eq; exact V0). assert (NW : W <> 0) by (apply Rgt_not_eq; exact HW). replace (V * W * / V) with W by (field; exact NV). replace (V * W * ((1 + 2 * w) / W)) with (V * (1 + 2 * w)) by (field; exact NW).
    apply Rle_trans with ((1 - w) * W * (1 + 2 * w)); [|apply Rmult_le_compat_r; lra]. assert (0 <= w * (1 - 2 * w)) by (apply Rmult_le_pos; lra). nra. }
  assert (NV : V <> 0) by (apply Rgt_not_eq; exact V0). assert (NW : W <> 0) by (apply Rgt_not_eq; exact HW).
  replace (a / V - r / W) with (((a - r) - r * ((V - W) / W)) * / V) by (field; split; assumption). rewrite Rabs_mult, (Rabs_pos_eq (/ V)) by (apply Rlt_le, Rinv_0_lt_compat; exact V0).
  assert (N : Rabs (a - r - r * ((V - W) / W)) <= (c + w) * Rabs r + h).
  { eapply Rle_trans; [apply Rabs_triang|]. rewrite Rabs_Ropp, Rabs_mult. assert (D : Rabs ((V - W) / W) <= w).
    { unfold Rdiv. rewrite Rabs_mult, (Rabs_pos_eq (/ W)) by (apply Rlt_le, Rinv_0_lt_compat; exact HW). apply Rmult_le_reg_r with W; [exact HW|]. rewrite Rmult_assoc, Rinv_l by lra. lra. }
    pose proof (Rabs_pos r). pose proof (Rabs_pos ((V - W) / W)). nra. }
  apply Rle_trans with (((c + w) * Rabs r + h) * ((1 + 2 * w) / W)).
  - apply Rmult_le_compat; [apply Rabs_pos|apply Rlt_le, Rinv_0_lt_compat; exact V0|exact N|exact I].
  - apply Req_le. unfold Rdiv. rewrite Rabs_mult, (Rabs_pos_eq (/ W)) by (apply Rlt_le, Rinv_0_lt_compat; exact HW). ring.
Qed.

Lemma double_exp y : 0 <= y -> 2 * y <= exp y.
Proof.
  intros H. replace y with (y / 2 + y / 2) at 2 by field. rewrite exp_plus. pose proof (exp_ineq1_le (y / 2)) as E. set (e := exp (y / 2)) in *.
  assert (A : 0 <= (e - (1 + y / 2)) * (e + (1 + y / 2))) by (apply Rmult_le_pos; lra). pose proof (pow2_ge_0 (1 - y / 2)) as B. lra.
Qed.

(** An exponent off by a small share moves the exponential by that share. *)
Lemma exp_about c h x t : 0 <= t -> 0 <= c <= 1 / 2 -> 0 <= h <= 1 / 4 -> about c h x (- t) -> Rabs (exp x - exp (- t)) <= (c + h) * (1 + 2 * h).
Proof.
  unfold about. intros T C H A. rewrite Rabs_Ropp, (Rabs_pos_eq t) in A by exact T.
  assert (M : forall a b, a <= b -> 0 <= exp b - exp a <= (b - a) * exp b).
  { intros a b L. split; [destruct L as [L| ->]; [apply exp_increasing in L; lra|lra]|]. pose proof (exp_ineq1_le (a - b)) as E. replace a with (b + (a - b)) at 1 by ring. rewrite exp_plus. pose proof (exp_pos b). nra. }
  assert (X : Rabs (exp x - exp (- t)) <= Rabs (x - - t) * exp (- t / 2 + h)).
  { assert (B1 : x <= - t / 2 + h) by (unfold Rabs in A; destruct (Rcase_abs _) in A; nra). assert (B2 : - t <= - t / 2 + h) by lra.
    assert (Ex : forall y, y <= - t / 2 + h -> exp y <= exp (- t / 2 + h)) by (intros y [L| ->]; [apply exp_increasing in L; lra|lra]).
    destruct (Rle_lt_dec x (- t)) as [L|L].
    - destruct (M x (- t) L) as [M1 M2]. rewrite !Rabs_left1 by lra. pose proof (Ex _ B2). nra.
    - destruct (M (- t) x (Rlt_le _ _ L)) as [M1 M2]. rewrite !Rabs_pos_eq by lra. pose proof (Ex _ B1). nra. }
  eapply Rle_trans; [exact X|]. rewrite exp_plus. set (E := exp (- t / 2)).
  assert (E1 : t * E <= 1). { pose proof (double_exp (t / 2) ltac:(lra)) as D. assert (P : E * exp (t / 2) = 1) by (unfold E; rewrite <- exp_plus; replace (- t / 2 + t / 2) with 0 by field; apply exp_0). assert (0 < E) by apply exp_pos. nra. }
  assert (E2 : E <= 1). { unfold E. destruct (Rle_lt_or_eq_dec 0 t T) as [L|<-]; [|replace (- 0 / 2) with 0 by field; rewrite exp_0; lra]. left. rewrite <- exp_0. apply exp_increasing. lra. }
  assert (E0 : 0 < E) by apply exp_pos.
  assert (Eh : exp h <= 1 + 2 * h). { pose proof (exp_ineq1_le (- h)) as D. assert (P : exp h * exp (- h) = 1) by (rewrite <- exp_plus, Rplus_opp_r; apply exp_0). pose proof (exp_pos h). nra. }
  pose proof (exp_pos h) as Eh0. apply Rle_trans with ((c * t + h) * (E * exp h)); [apply Rmult_le_compat_r; [nra|exact A]|].
  replace ((c * t + h) * (E * exp h)) with ((c * (t * E) + h * E) * exp h) by ring.
  assert (S0 : 0 <= t * E) by (apply Rmult_le_pos; lra). set (s := t * E) in *. assert (K1 : 0 <= c * s) by (apply Rmult_le_pos; lra). assert (K2 : 0 <= h * E) by (apply Rmult_le_pos; lra).
  assert (K3 : 0 <= c * (1 - s)) by (apply Rmult_le_pos; lra). assert (K4 : 0 <= h * (1 - E)) by (apply Rmult_le_pos; lra). apply Rmult_le_compat; lra.
Qed.

Section G.
Variables prec emax : Z.
Hypothesis Hprec : (1 < prec)%Z.
Hypothesis Hmax : (prec < emax)%Z.
Notation number := (number prec emax).
Notation u := (bpow (- prec)).
Notation eta := (bpow (emin prec emax - 1)).

Lemma about_result c h x z r : 0 <= c -> 0 <= h -> result prec emax x z -> finite z -> about c h x r -> about (c + u * (1 + c)) (h + u * h + eta) (value z) r.
Proof.
  unfold about. intros C H R F A. pose proof (result_near prec emax x z R F) as N. pose proof (bpow_pos (- prec)) as U.
  assert (X : Rabs x <= (1 + c) * Rabs r + h) by (replace x with ((x - r) + r) by ring; eapply Rle_trans; [apply Rabs_triang|]; lra).
  replace (value z - r) with ((value z - x) + (x - r)) by ring. eapply Rle_trans; [apply Rabs_triang|]. apply (Rmult_le_compat_l u) in X; [|lra]. lra.
Qed.

Lemma opp_number x : number x -> number (SFopp x) /\ value (SFopp x) = - value x.
Proof. intros [F V]. destruct x as [s|s| |s m e]; try contradiction F; cbn; (split; [split; [exact I|exact V || reflexivity]|]); [lra|]. destruct s; cbn; ring. Qed.

Lemma gauss_near ex beta eps mu sigma mode Q A B x z : gauss_fits prec emax eps mu sigma Q A B -> exp_like prec emax ex -> exp_within beta ex ->
  number x -> Rabs (value x) <= Q -> fgauss prec emax ex eps mu sigma mode x z ->
  Rabs (value z - act_fn (AGaussian (value mu) (value sigma) mode) (value x)) <= (if mode then 2 * beta + 26 * u else beta + 11 * u).
Proof.
  intros (P11 & G & Ee & A0 & B0 & HQ & HB & Ov & Un) (_ & El & _) Ew Nx HX (e & He & Ez). pose proof (gauss_exponent prec emax Hprec Hmax eps mu sigma x G Nx) as Mi. cbv zeta in Mi.
  destruct (gauss_width prec emax Hprec Hmax eps mu sigma G) as [Nw _]. pose proof G as (Ne & E01 & Nm & Ns & S01).
  assert (EM : emin prec emax = (3 - emax - prec)%Z) by reflexivity.
  set (W := eps9 + value sigma) in *. assert (Hu : 0 < u) by apply bpow_pos. assert (u1 : u <= 1 / 2048).
  { apply Rle_trans with (bpow (-11)); [apply bpow_le; lia|]. change (bpow (-11)) with (/ (2 * (2 * (2 * (2 * (2 * (2 * (2 * (2 * (2 * (2 * (2 * 1)))))))))))). lra. }
  assert (e0 : 0 < eps9) by (unfold eps9; lra). assert (e1 : eps9 <= 1) by (unfold eps9; lra). assert (W0 : 0 < W) by (unfold W; lra). assert (W2 : W <= 2) by (unfold W; lra).
  assert (uu0 : 0 <= u * u) by nra. assert (uu : u * u <= u / 2048) by nra. assert (eta0 : 0 < eta) by apply bpow_pos.
  assert (etaW : eta <= u * u * W).
  { apply Rle_trans with (bpow (- prec + - prec + - B)); [apply bpow_le; lia|]. rewrite !bpow_add. apply Rmult_le_compat_l; [nra|exact HB]. }
  assert (etau : eta <= u / 1024) by nra.
  set (V := value (fadd prec emax eps sigma)) in *. set (w := 2 * u + 2 * (u * u)). assert (w0 : 0 <= w <= 2.001 * u) by (unfold w; split; lra).
  assert (HV : Rabs (V - W) <= w * W).
  { pose proof (result_near prec emax _ _ (add_result prec emax Hprec Hmax eps sigma Ne Ns) (proj1 Nw)) as N. fold (fadd prec emax) in N. fold V in N.
    assert (S : Rabs (value eps + value sigma - W) <= u * eps9) by (unfold W; replace (value eps + value sigma - (eps9 + value sigma)) with (value eps - eps9) by ring; exact Ee).
    assert (S' : Rabs (value eps + value sigma) <= W + u * W).
    { replace (value eps + value sigma) with ((value eps + value sigma - W) + W) by ring. eapply Rle_trans; [apply Rabs_triang|]. rewrite (Rabs_pos_eq W) by lra. assert (u * eps9 <= u * W) by (apply Rmult_le_compat_l; unfold W; lra). lra. }
    replace (V - W) with ((V - (value eps + value sigma)) + (value eps + value sigma - W)) by ring. eapply Rle_trans; [apply Rabs_triang|]. apply (Rmult_le_compat_l u) in S'; [|lra]. assert (u * eps9 <= u * W) by (apply Rmult_le_compat_l; unfold W; lra). unfold w. nra. }
  assert (V1 : W / 2 <= V) by (unfold Rabs in HV; destruct (Rcase_abs _) in HV; nra). assert (V0 : 0 < V) by lra.
  (* the difference *)
  pose proof (sub_result prec emax Hprec Hmax x mu Nx Nm) as Ra. set (a := SFsub prec emax x mu) in *. set (D := value x - value mu) in *.
  assert (DA : Rabs D <= bpow A) by (unfold D; eapply Rle_trans; [apply Rabs_triang|]; rewrite Rabs_Ropp; lra).
  destruct (result_bounded prec emax D a (bpow A) Ra) as [Na Ba]; [apply (rep_bpow prec emax Hprec); lia|apply bpow_lt; lia|exact DA|].
  assert (Aa : about u eta (value a) D).
  { pose proof (about_result 0 0 D a D (Rle_refl 0) (Rle_refl 0) Ra (proj1 Na) ltac:(unfold about; rewrite Rminus_diag_eq, Rabs_R0 by reflexivity; pose proof (Rabs_pos D); lra)) as X. eapply about_le; [exact X|lra|lra]. }
  (* the quotient *)
  assert (Dq := div_result prec emax Hprec Hmax a (fadd prec emax eps sigma) Na Nw). fold V in Dq. specialize (Dq ltac:(lra)). set (q := SFdiv prec emax a (fadd prec emax eps sigma)) in *.
  assert (QB : Rabs (value a / V) <= bpow (A + B + 1)).
  { unfold Rdiv. rewrite Rabs_mult, (Rabs_pos_eq (/ V)) by (apply Rlt_le, Rinv_0_lt_compat; exact V0). replace (A + B + 1)%Z with (A + (B + 1))%Z by lia. rewrite bpow_add. apply Rmult_le_compat; [apply Rabs_pos|apply Rlt_le, Rinv_0_lt_compat; exact V0|exact Ba|].
    assert (X : bpow (- B) * bpow B = 1) by (rewrite <- bpow_add, Z.add_opp_diag_l; apply bpow_0). pose proof (bpow_pos B). rewrite bpow_add, bpow_1. apply Rmult_le_reg_l with V; [exact V0|]. rewrite Rinv_r by (apply Rgt_not_eq; exact V0). nra. }
  destruct (result_bounded prec emax _ q (bpow (A + B + 1)) Dq) as [Nq Bq]; [apply (rep_bpow prec emax Hprec); lia|apply bpow_lt; lia|exact QB|].
  set (r := D / W). assert (Aq0 : about (3.01 * u) (u / 1000) (value a / V) r).
  { eapply about_le; [apply (about_div u eta w W (value a) D (Rlt_le _ _ Hu) (Rlt_le _ _ eta0) W0 ltac:(lra) V HV Aa)| |].
    - apply Rle_trans with ((3.001 * u) * 1.002); [apply Rmult_le_compat; lra|lra].
    - apply Rle_trans with ((u * u * W) * 1.002 / W); [apply Rmult_le_compat_r; [apply Rlt_le, Rinv_0_lt_compat; exact W0|]; apply Rmult_le_compat; lra|]. replace (u * u * W * 1.002 / W) with (u * u * 1.002) by (field; apply Rgt_not_eq; exact W0). lra. }
  assert (Aq : about (4.02 * u) (u / 400) (value q) r).
  { eapply about_le; [apply (about_result (3.01 * u) (u / 1000) _ _ _ ltac:(lra) ltac:(lra) Dq (proj1 Nq) Aq0)|lra|lra]. }
  (* the square *)
  pose proof (mul_result prec emax Hprec Hmax q q Nq Nq) as Rs. set (s := SFmul prec emax q q) in *.
  assert (SB : Rabs (value q * value q) <= bpow (A + B + 1 + (A + B + 1))) by (rewrite Rabs_mult, bpow_add; apply Rmult_le_compat; try apply Rabs_pos; exact Bq).
  destruct (result_bounded prec emax _ s (bpow (A + B + 1 + (A + B + 1))) Rs) as [Nss Bs]; [apply (rep_bpow prec emax Hprec); lia|apply bpow_lt; lia|exact SB|].
  assert (As0 : about (8.06 * u) (0.0051 * u) (value q * value q) (r * r)).
  { eapply about_le; [apply (about_square (4.02 * u) (u / 400) _ _ ltac:(lra) ltac:(lra) Aq)| |]; lra. }
  assert (As : about (9.07 * u) (0.0062 * u) (value s) (r * r)).
  { eapply about_le; [apply (about_result (8.06 * u) (0.0051 * u) _ _ _ ltac:(lra) ltac:(lra) Rs (proj1 Nss) As0)|lra|lra]. }
  (* half of it, negated *)
  destruct (opp_number s Nss) as [No Vo]. destruct (two_number prec emax Hprec Hmax) as [N2 V2]. pose proof (div_result prec emax Hprec Hmax (SFopp s) _ No N2 ltac:(lra)) as Rt. rewrite Vo, V2 in Rt. set (t := SFdiv prec emax (SFopp s) (binary_normalize prec emax 2 0 false)) in *.
  destruct (result_bounded prec emax _ t (bpow (A + B + 1 + (A + B + 1))) Rt) as [Nt _]; [apply (rep_bpow prec emax Hprec); lia|apply bpow_lt; lia| |].
  { unfold Rdiv. rewrite Rabs_mult, Rabs_Ropp, (Rabs_pos_eq (/ 2)) by lra. pose proof (bpow_pos (A + B + 1 + (A + B + 1))). lra. }
  assert (At0 : about (9.07 * u) (0.0031 * u) (- value s / 2) (- (r * r / 2))).
  { unfold about in *. replace (- value s / 2 - - (r * r / 2)) with (- ((value s - r * r) / 2)) by field. rewrite !Rabs_Ropp. unfold Rdiv. rewrite !Rabs_mult, (Rabs_pos_eq (/ 2)) by lra. rewrite Rabs_mult in As. lra. }
  assert (At : about (10.08 * u) (0.0042 * u) (value t) (- (r * r / 2))).
  { eapply about_le; [apply (about_result (9.07 * u) (0.0031 * u) _ _ _ ltac:(lra) ltac:(lra) Rt (proj1 Nt) At0)|lra|lra]. }
  assert (T0 : 0 <= r * r / 2) by nra.
  pose proof (exp_about (10.08 * u) (0.0042 * u) _ _ T0 ltac:(lra) ltac:(lra) At) as Ex.
  assert (Gr : exp (- (r * r / 2)) = gauss (value mu) (value sigma) (value x)) by (unfold gauss; fold W; fold D; fold r; f_equal; field). rewrite Gr in Ex.
  specialize (Ew _ _ Mi He). specialize (El _ _ Mi He). change (Rabs (value e - exp_value t) <= beta) in Ew.
  assert (EV : exp_value t = exp (value t)) by (destruct t as [| | |]; [reflexivity|contradiction (proj1 Nt)|reflexivity..]). 
  assert (Eg : Rabs (value e - gauss (value mu) (value sigma) (value x)) <= beta + 11 * u).
  { rewrite EV in Ew. replace (value e - gauss (value mu) (value sigma) (value x)) with ((value e - exp (value t)) + (exp (value t) - gauss (value mu) (value sigma) (value x))) by ring. eapply Rle_trans; [apply Rabs_triang|].
    assert ((10.08 * u + 0.0042 * u) * (1 + 2 * (0.0042 * u)) <= 11 * u) by lra. lra. }
  destruct El as [Nee Be]. set (g := gauss (value mu) (value sigma) (value x)) in *. cbn [act_fn]. fold g. rewrite Ez. destruct mode; [|exact Eg].
  destruct (one_number prec emax Hprec Hmax) as [N1 O1].
  pose proof (mul_result prec emax Hprec Hmax _ _ Nee N2) as R2. rewrite V2 in R2. fold (fmul prec emax) in R2.
  destruct (result_bounded prec emax _ _ 2 R2) as [NN B2]; [rewrite <- bpow_1; apply (rep_bpow prec emax Hprec); lia|rewrite <- bpow_1; apply bpow_lt; lia|rewrite Rabs_pos_eq; lra|].
  pose proof (result_near prec emax _ _ R2 (proj1 NN)) as E2. rewrite (Rabs_pos_eq (value e * 2)) in E2 by lra. change (SFmul prec emax e (binary_normalize prec emax 2 0 false)) with (fmul prec emax e (binary_normalize prec emax 2 0 false)) in *. set (m := fmul prec emax e (binary_normalize prec emax 2 0 false)) in *.
  pose proof (sub_result prec emax Hprec Hmax _ _ NN N1) as R3. rewrite O1 in R3.
  destruct (result_bounded prec emax _ _ (bpow 2) R3) as [N3 B3]; [apply (rep_bpow prec emax Hprec); lia|apply bpow_lt; lia| |].
  { change (bpow 2) with (2 * (2 * 1)). unfold Rminus. eapply Rle_trans; [apply Rabs_triang|]. rewrite Rabs_Ropp, Rabs_R1. lra. }
  pose proof (result_near prec emax _ _ R3 (proj1 N3)) as E3. change (SFsub prec emax m (fone prec emax)) with (fsub prec emax m (fone prec emax)) in E3.
  assert (M1 : Rabs (value m - 1) <= 1 + 4 * u).
  { replace (value m - 1) with ((value m - value e * 2) + (value e * 2 - 1)) by ring. eapply Rle_trans; [apply Rabs_triang|]. assert (Rabs (value e * 2 - 1) <= 1) by (unfold Rabs; destruct (Rcase_abs _); lra). nra. }
  replace (value (fsub prec emax m (fone prec emax)) - (g * 2 - 1)) with ((value (fsub prec emax m (fone prec emax)) - (value m - 1)) + ((value m - value e * 2) + 2 * (value e - g))) by ring.
  eapply Rle_trans; [apply Rabs_triang|]. pose proof (Rabs_triang (value m - value e * 2) (2 * (value e - g))) as T. rewrite Rabs_mult, (Rabs_pos_eq 2) in T by lra.
  apply (Rmult_le_compat_l u) in M1; [|lra]. assert (u * (value e * 2) <= u * 2) by (apply Rmult_le_compat_l; lra). lra.
Qed.
End G.
