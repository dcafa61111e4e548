(** Life-like configurations simulate Life (proofs). *)
From Coq Require Import Reals Lra Lia List Arith Bool ZArith String.
From Verif Require Import Base PyDict Tensor MActivations MKernels MCommon MCca MNca MConfig MConfigs SGrid SCca SKern SConfig SLife PTensor PStep PCca PDyn PStepX PAct PKern PKernX PKernY PConfig PConfigX PConfigY PConfigZ PConfigW.
Import ListNotations.
Open Scope R_scope.

(** ** The smooth indicator of a rule list *)
Lemma exp_mult_nat x n : exp x ^ n = exp (INR n * x).
Proof.
  induction n as [|n IH]; [cbn; rewrite Rmult_0_l, exp_0; reflexivity|]. rewrite S_INR. cbn [pow]. rewrite IH, <- exp_plus. f_equal. ring.
Qed.

Lemma exp_19 : exp (- (19)) <= / 18000000.
Proof.
  rewrite exp_Ropp. apply Rinv_le_contravar; [lra|].
  replace 19 with (INR 76 * (1 / 4)) by (rewrite INR_IZR_INZ; cbn [Z.of_nat Pos.of_succ_nat Pos.succ]; lra).
  rewrite <- exp_mult_nat. apply Rle_trans with ((5 / 4) ^ 76); [lra|].
  apply pow_incr. split; [lra|]. pose proof (exp_ineq1 (1 / 4) ltac:(lra)). lra.
Qed.

Lemma rule_length l : rule_list l -> (List.length l <= 9)%nat.
Proof.
  intros [N F]. change 9%nat with (List.length [0; 1; 2; 3; 4; 5; 6; 7; 8]%Z). apply NoDup_incl_length; [exact N|].
  intros x Hx. rewrite Forall_forall in F. specialize (F x Hx). cbn [In]. lia.
Qed.

Lemma interval_away l n x e : e <= 1 / 16 -> Rabs (x - INR n / 8) <= e -> away (1 / 16 - e) (get_smooth_interval l) x.
Proof.
  intros He Hx lo hi Hin. unfold get_smooth_interval in Hin. apply in_map_iff in Hin as (b & E & _). apply pair_equal_spec in E as [<- <-].
  rewrite INR_IZR_INZ in Hx. set (m := Z.of_nat n) in *. rewrite minus_IZR, plus_IZR, mult_IZR. split; [lra|].
  assert (C : (2 * m <= 2 * b - 2)%Z \/ (2 * m = 2 * b)%Z \/ (2 * m >= 2 * b + 2)%Z) by lia.
  pose proof (Rle_abs (x - IZR m / 8)). pose proof (Rle_abs (- (x - IZR m / 8))) as H2. rewrite Rabs_Ropp in H2.
  destruct C as [C|[C|C]].
  - assert (IZR m <= IZR b - 1) by (rewrite <- minus_IZR; apply IZR_le; lia). split; rewrite Rabs_left1; lra.
  - assert (IZR m = IZR b) by (f_equal; lia). split; [rewrite Rabs_pos_eq|rewrite Rabs_left1]; lra.
  - assert (IZR b + 1 <= IZR m) by (rewrite <- plus_IZR; apply IZR_le; lia). split; rewrite Rabs_pos_eq; lra.
Qed.

Lemma interval_count l n x e : NoDup l -> e < 1 / 16 -> Rabs (x - INR n / 8) <= e ->
  count_in (get_smooth_interval l) x = b2n (existsb (Z.eqb (Z.of_nat n)) l).
Proof.
  intros N He Hx. rewrite INR_IZR_INZ in Hx. set (m := Z.of_nat n) in *.
  pose proof (Rle_abs (x - IZR m / 8)). pose proof (Rle_abs (- (x - IZR m / 8))) as H2. rewrite Rabs_Ropp in H2.
  induction l as [|b t IH]; [reflexivity|]. inversion N; subst. cbn [get_smooth_interval map count_in existsb]. fold (get_smooth_interval t). rewrite IH by assumption.
  rewrite minus_IZR, plus_IZR, mult_IZR. destruct (Z.eqb_spec m b) as [->|D].
  - destruct (Rle_dec _ x) as [A|A]; [|exfalso; lra]. destruct (Rlt_dec x _) as [B|B]; [|exfalso; lra].
    destruct (existsb (Z.eqb b) t) eqn:E; [|reflexivity]. apply existsb_exists in E as (z & Hz & Ez). apply Z.eqb_eq in Ez. subst z. contradiction.
  - cbn [orb]. assert (C : (m <= b - 1)%Z \/ (b + 1 <= m)%Z) by lia. destruct C as [C|C]; apply IZR_le in C; rewrite ?minus_IZR, ?plus_IZR in C.
    + destruct (Rle_dec _ x) as [A|A]; [exfalso; lra|reflexivity].
    + destruct (Rle_dec _ x) as [A|A]; [|exfalso; lra]. destruct (Rlt_dec x _) as [B|B]; [exfalso; lra|reflexivity].
Qed.

(** The growth value of a rule list is within 2*10^-6 of +1 or -1. *)
Lemma rule_growth l n x e : rule_list l -> e <= 1 / 320 -> Rabs (x - INR n / 8) <= e ->
  Rabs (act_fn (ASmoothIntervals (get_smooth_interval l) (125 / 10000) true) x - (2 * b2R (existsb (Z.eqb (Z.of_nat n)) l) - 1)) <= 2 / 1000000.
Proof.
  intros HR He Hx. pose proof (rule_length l HR) as HL. rewrite intervals_growth.
  assert (0 <= e) by (eapply Rle_trans; [apply Rabs_pos|exact Hx]).
  pose proof (intervals_approx (get_smooth_interval l) (125 / 10000) (1 / 16 - e) x ltac:(lra) ltac:(lra) (interval_away l n x e ltac:(lra) Hx)) as A.
  rewrite (interval_count l n x e) in A by (try exact (proj1 HR); try lra; exact Hx).
  assert (EL : List.length (get_smooth_interval l) = List.length l) by (unfold get_smooth_interval; apply map_length). rewrite EL in A.
  assert (EB : INR (b2n (existsb (Z.eqb (Z.of_nat n)) l)) = b2R (existsb (Z.eqb (Z.of_nat n)) l)) by (destruct (existsb _ l); reflexivity). rewrite EB in A.
  set (v := act_fn (ASmoothIntervals (get_smooth_interval l) (125 / 10000) false) x) in *. set (w := b2R _) in *.
  replace (2 * v - 1 - (2 * w - 1)) with (2 * (v - w)) by ring. rewrite Rabs_mult, (Rabs_pos_eq 2) by lra.
  assert (X : exp (- (4 * (1 / 16 - e) / (125 / 10000))) <= / 18000000).
  { eapply Rle_trans; [|exact exp_19]. assert (D : - (4 * (1 / 16 - e) / (125 / 10000)) <= - (19)) by lra. destruct D as [D|D]; [left; apply exp_increasing; exact D|rewrite D; apply Rle_refl]. }
  pose proof (exp_pos (- (4 * (1 / 16 - e) / (125 / 10000)))) as P. set (q := exp _) in *.
  assert (L9 : 0 <= INR (List.length l) <= 9). { split; [apply pos_INR|]. apply le_INR in HL. replace (INR 9) with 9 in HL by (cbn; lra). exact HL. }
  assert (2 * INR (List.length l) * q <= 18 * / 18000000) by nra. lra.
Qed.

(** ** One cell *)
Lemma Rabs_both x e : Rabs x <= e -> - e <= x <= e.
Proof. intros H. pose proof (Rle_abs x). pose proof (Rle_abs (- x)) as H2. rewrite Rabs_Ropp in H2. lra. Qed.

Lemma cell_near B S alive n u x e : rule_list B -> rule_list S -> 0 <= u <= 1 -> e <= 1 / 320 ->
  Rabs (u - b2R alive) <= e -> Rabs (x - INR n / 8) <= e ->
  Rabs (clamp 0 1 (u + ((1 - u) * act_fn (ASmoothIntervals (get_smooth_interval B) (125 / 10000) true) x + u * act_fn (ASmoothIntervals (get_smooth_interval S) (125 / 10000) true) x))
        - b2R (life_cell B S alive n))
  <= (if existsb (Z.eqb (Z.of_nat n)) B && negb (existsb (Z.eqb (Z.of_nat n)) S) then e else 0) + 2 / 1000000.
Proof.
  intros RB RS Hu He Ha Hx. pose proof (rule_growth B n x e RB He Hx) as GB. pose proof (rule_growth S n x e RS He Hx) as GS.
  assert (E0 : 0 <= e) by (eapply Rle_trans; [apply Rabs_pos|exact Hx]).
  set (G := act_fn (ASmoothIntervals (get_smooth_interval B) _ _) x) in *. set (P := act_fn (ASmoothIntervals (get_smooth_interval S) _ _) x) in *.
  apply Rabs_both in GB, GS, Ha. unfold life_cell.
  destruct (existsb (Z.eqb (Z.of_nat n)) B) eqn:NB, (existsb (Z.eqb (Z.of_nat n)) S) eqn:NS, alive; rewrite ?NB, ?NS; cbn [b2R andb negb] in *.
  all: try (match goal with |- Rabs (clamp 0 1 ?z - 1) <= _ => assert (z >= 1 \/ z < 1) as [Z|Z] by lra; [rewrite clamp_hi by lra; rewrite Rabs_pos_eq by lra; lra|rewrite clamp_id by nra; apply Rabs_le; nra] end).
  all: match goal with |- Rabs (clamp 0 1 ?z - 0) <= _ => assert (z <= 0 \/ 0 < z) as [Z|Z] by lra; [rewrite clamp_lo by lra; rewrite Rabs_pos_eq by lra; lra|rewrite clamp_id by nra; apply Rabs_le; nra] end.
Qed.

(** ** The neighbourhood average *)
Lemma moore_sum H W k f i j :
  (forall y x, (y < 3)%nat -> (x < 3)%nat -> k y x = if Nat.eqb y 1 && Nat.eqb x 1 then 0 else 1 / 8) ->
  toroidal_sum 1 H W k f i j = / 8 * lsum (map (fun o => f (zmod (Z.of_nat i + fst o) H) (zmod (Z.of_nat j + snd o) W)) moore_offsets).
Proof.
  intros K. unfold toroidal_sum. change (2 * 1 + 1)%nat with 3%nat. cbn [rsum]. rewrite !K by lia. cbn [Nat.eqb andb].
  cbn [map moore_offsets fst snd lsum fold_right]. change (Z.of_nat 0) with 0%Z. change (Z.of_nat 1) with 1%Z. change (Z.of_nat 2) with 2%Z.
  assert (Z0 : forall a : Z, (a + 0 - 1)%Z = (a + -1)%Z) by (intros; lia). assert (Z1 : forall a : Z, (a + 1 - 1)%Z = (a + 0)%Z) by (intros; lia).
  assert (Z2 : forall a : Z, (a + 2 - 1)%Z = (a + 1)%Z) by (intros; lia). rewrite !Z0, !Z1, !Z2. unfold Rdiv. ring.
Qed.

Lemma lsum_close {A} (l : list A) (f g : A -> R) e : (forall a, In a l -> Rabs (f a - g a) <= e) -> Rabs (lsum (map f l) - lsum (map g l)) <= INR (List.length l) * e.
Proof.
  induction l as [|a t IH]; intros Hl; [cbn; rewrite Rminus_0_r, Rabs_R0, Rmult_0_l; lra|]. cbn [List.length map]. rewrite S_INR. unfold lsum in *. cbn [fold_right].
  replace (f a + fold_right Rplus 0 (map f t) - (g a + fold_right Rplus 0 (map g t))) with ((f a - g a) + (fold_right Rplus 0 (map f t) - fold_right Rplus 0 (map g t))) by ring.
  eapply Rle_trans; [apply Rabs_triang|]. assert (P1 := Hl a (or_introl eq_refl)). assert (P2 := IH (fun b Hb => Hl b (or_intror Hb))). lra.
Qed.

Lemma list_sum_lsum {A} (l : list A) (f : A -> nat) : INR (list_sum (map f l)) = lsum (map (fun a => INR (f a)) l).
Proof. induction l as [|a t IH]; [reflexivity|]. cbn [map]. unfold lsum in *. cbn [fold_right]. change (list_sum (f a :: map f t)) with (f a + list_sum (map f t))%nat. rewrite plus_INR, IH. reflexivity. Qed.

Lemma zmod_lt a n : (0 < n)%nat -> (zmod a n < n)%nat.
Proof. intros. unfold zmod. pose proof (Z.mod_pos_bound a (Z.of_nat n) ltac:(lia)). lia. Qed.

Lemma moore_near H W k f (g : board) i j e : (0 < H)%nat -> (0 < W)%nat ->
  (forall y x, (y < 3)%nat -> (x < 3)%nat -> k y x = if Nat.eqb y 1 && Nat.eqb x 1 then 0 else 1 / 8) ->
  (forall i j, (i < H)%nat -> (j < W)%nat -> Rabs (f i j - b2R (g i j)) <= e) ->
  Rabs (toroidal_sum 1 H W k f i j - INR (live_neighbours H W g i j) / 8) <= e.
Proof.
  intros H0 W0 K F. rewrite (moore_sum H W k f i j K). unfold live_neighbours. rewrite list_sum_lsum.
  assert (C := lsum_close moore_offsets (fun o => f (zmod (Z.of_nat i + fst o) H) (zmod (Z.of_nat j + snd o) W))
     (fun o => INR (b2n (g (zmod (Z.of_nat i + fst o) H) (zmod (Z.of_nat j + snd o) W)))) e).
  cbv beta in C. match goal with |- Rabs (/ 8 * ?a - ?b / 8) <= _ => replace (/ 8 * a - b / 8) with (/ 8 * (a - b)) by (unfold Rdiv; ring) end.
  rewrite Rabs_mult, (Rabs_pos_eq (/ 8)) by lra. assert (D : forall b, INR (b2n b) = b2R b) by (intros []; reflexivity).
  assert (L : INR (List.length moore_offsets) = 8) by (cbn; lra). rewrite L in C.
  match goal with |- _ * ?z <= _ => assert (z <= 8 * e) end; [|lra].
  apply C. intros a _. rewrite D. apply F; apply zmod_lt; assumption.
Qed.

Lemma live_le_8 H W g i j : (live_neighbours H W g i j <= 8)%nat.
Proof.
  unfold live_neighbours. change 8%nat with (List.length moore_offsets). induction moore_offsets as [|a t IH]; [auto|]. cbn [map List.length].
  match goal with |- (list_sum (?x :: ?l) <= _)%nat => change (x + list_sum l <= S (List.length t))%nat end. destruct (g _ _); cbn [b2n]; lia.
Qed.

(** ** The automaton of a Life-like configuration *)
Definition life_core (B S : list Z) (c : cca) : Prop := exists th k,
  make_cca 1 1 Circular th (K4 default_id_kernel) (K4 k) [ASmoothIntervals (get_smooth_interval B) (125 / 10000) true]
    [ASmoothIntervals (get_smooth_interval S) (125 / 10000) true] 1 = Ok c /\
  get_kernel [("name"%string, VStr "MooreLike"); ("radius"%string, VInt 1)] = Ok k.

Lemma life_forward B S c u g e : life_core B S c -> rule_list B -> rule_list S -> twf u -> tC u = 1%nat -> (0 < tH u)%nat -> (0 < tW u)%nat ->
  in_unit u -> e <= 1 / 320 -> near e u g ->
  exists u', cca_forward c u = Ok u' /\ shape u' = shape u /\ twf u' /\ in_unit u' /\
    near ((if forallb (fun b => existsb (Z.eqb b) S) B then 0 else e) + 2 / 1000000) u' (fun b => life B S (tH u) (tW u) (g b)).
Proof.
  intros (th & k & Hc & Hk) RB RS Hu Cu H0 W0 Hin He Hn.
  destruct (moore_spec [("name"%string, VStr "MooreLike"); ("radius"%string, VInt 1)] 1 eq_refl eq_refl ltac:(lia)) as (k' & Hk' & _ & Kv).
  rewrite Hk in Hk'. apply Ok_inj in Hk'. subst k'. pose proof (get_kernel_odd _ _ Hk) as (r & (Sh & Wk & _) & Hr).
  assert (r = 1%nat). { destruct Hr as [[A _]|[_ A]]; [discriminate|]. injection A as A. apply (f_equal Z.to_nat) in A. rewrite Nat2Z.id in A. cbn in A. lia. } subst r.
  apply shape_inv in Sh as (K1 & K2 & K3 & K4).
  destruct (step_formula 1 1 th k [ASmoothIntervals (get_smooth_interval B) (125 / 10000) true] [ASmoothIntervals (get_smooth_interval S) (125 / 10000) true] 1 c u) as (u' & Hf & Hs & Hw & Hg); auto; try lia.
  { cbn [acts_ok act_ok]. assert (nonzero (125 / 10000) = true) by (apply nonzero_true; lra). rewrite H. destruct (get_smooth_interval B); reflexivity. }
  { cbn [acts_ok act_ok]. assert (nonzero (125 / 10000) = true) by (apply nonzero_true; lra). rewrite H. destruct (get_smooth_interval S); reflexivity. }
  exists u'. split; [exact Hf|]. split; [exact Hs|]. split; [exact Hw|]. split; [apply (step_in_unit update_universe c u u' Hf)|].
  assert (Em : zero_dead th u = u) by (unfold zero_dead; rewrite Cu; reflexivity). cbv zeta in Hg. rewrite Em in Hg.
  apply shape_inv in Hs as (S1 & S2 & S3 & S4). intros b i j Hb Hi Hj. rewrite S1 in Hb. rewrite S3 in Hi. rewrite S4 in Hj.
  rewrite Hg by (auto; lia). cbn [rsum nth]. set (N := toroidal_sum _ _ _ _ _ _ _).
  assert (Hu01 : 0 <= get u b 0 i j <= 1). { unfold in_unit in Hin. rewrite Forall_forall in Hin. apply Hin, get_in_data; auto; lia. }
  assert (HN : Rabs (N - INR (live_neighbours (tH u) (tW u) (g b) i j) / 8) <= e).
  { apply moore_near; auto. intros y x Hy Hx. rewrite Kv by lia. destruct (_ && _); [reflexivity|]. replace (INR (2 * 1 + 1)) with 3 by (cbn; lra). lra. }
  pose proof (cell_near B S (g b i j) (live_neighbours (tH u) (tW u) (g b) i j) (get u b 0 i j) N e RB RS Hu01 He (Hn b i j Hb Hi Hj) HN) as Q.
  unfold life. set (G := act_fn (ASmoothIntervals (get_smooth_interval B) _ _) N) in *. set (P := act_fn (ASmoothIntervals (get_smooth_interval S) _ _) N) in *.
  match goal with |- Rabs (clamp 0 1 ?z - _) <= _ => replace z with (get u b 0 i j + ((1 - get u b 0 i j) * G + get u b 0 i j * P)) by (cbn; field) end.
  eapply Rle_trans; [exact Q|]. apply Rplus_le_compat_r. assert (E0 : 0 <= e) by (eapply Rle_trans; [apply Rabs_pos|exact HN]).
  destruct (forallb _ B) eqn:EB; [|destruct (_ && _); lra].
  destruct (existsb _ B && _) eqn:EX; [|lra]. exfalso. apply andb_prop in EX as [E1 E2]. apply existsb_exists in E1 as (z & Hz & Ez). apply Z.eqb_eq in Ez. rewrite forallb_forall in EB. specialize (EB z Hz). rewrite <- Ez in EB. rewrite EB in E2. discriminate.
Qed.

(** ** Runs *)
Lemma sub_rule_spec B S : sub_rule B S -> forallb (fun b => existsb (Z.eqb b) S) B = true.
Proof. intros H. apply forallb_forall. intros b Hb. apply existsb_exists. exists b. split; [apply H; exact Hb|apply Z.eqb_refl]. Qed.

Lemma near_weaken e e' u g : e <= e' -> near e u g -> near e' u g.
Proof. intros He Hn b i j Hb Hi Hj. specialize (Hn b i j Hb Hi Hj). lra. Qed.

Lemma near_close e d u v g : shape u = shape v -> tC v = 1%nat -> near e v g -> close d u v -> near (e + d) u g.
Proof.
  intros Sh C Hn Hc b i j Hb Hi Hj. apply shape_inv in Sh as (S1 & S2 & S3 & S4). rewrite S1 in Hb. rewrite S3 in Hi. rewrite S4 in Hj.
  specialize (Hn b i j Hb Hi Hj). specialize (Hc b 0%nat i j Hb ltac:(lia) Hi Hj).
  replace (get u b 0 i j - b2R (g b i j)) with ((get u b 0 i j - get v b 0 i j) + (get v b 0 i j - b2R (g b i j))) by ring.
  eapply Rle_trans; [apply Rabs_triang|]. lra.
Qed.

(** One rough step. *)
Lemma rough_step B S c us d t g e : life_core B S c -> rule_list B -> rule_list S -> rough_run (cca_forward c) d us ->
  tC (us 0%nat) = 1%nat -> (0 < tH (us 0%nat))%nat -> (0 < tW (us 0%nat))%nat -> e <= 1 / 320 -> near e (us t) g ->
  near ((if forallb (fun b => existsb (Z.eqb b) S) B then 0 else e) + (2 / 1000000 + d)) (us (Datatypes.S t)) (fun b => life B S (tH (us 0%nat)) (tW (us 0%nat)) (g b)).
Proof.
  intros Hc RB RS HR C0 H0 W0 He Hn. destruct (HR t) as (W & Sh & U & Hcl). pose proof Sh as Sh'. apply shape_inv in Sh as (S1 & S2 & S3 & S4).
  destruct (life_forward B S c (us t) g e Hc RB RS W) as (v & Hf & Hs & Hw & Hu & Hnv); auto; try congruence; try lia.
  rewrite S3, S4 in Hnv. destruct (HR (Datatypes.S t)) as (_ & Sh2 & _ & _). rewrite <- Rplus_assoc.
  apply (near_close _ d _ v); auto; try congruence. apply shape_inv in Hs as (_ & Q & _). congruence.
Qed.

(** Births only where a live cell would survive: the error never accumulates. *)
Lemma rough_forever B S c us d g e : life_core B S c -> rule_list B -> rule_list S -> sub_rule B S -> rough_run (cca_forward c) d us ->
  tC (us 0%nat) = 1%nat -> (0 < tH (us 0%nat))%nat -> (0 < tW (us 0%nat))%nat -> e <= 1 / 320 -> 2 / 1000000 + d <= 1 / 320 -> near e (us 0%nat) g ->
  forall t, near (2 / 1000000 + d) (us (Datatypes.S t)) (fun b => life_n B S (tH (us 0%nat)) (tW (us 0%nat)) (Datatypes.S t) (g b)).
Proof.
  intros Hc RB RS HS HR C0 H0 W0 He Hd Hn. assert (E := sub_rule_spec B S HS).
  assert (ST : forall t e g, e <= 1 / 320 -> near e (us t) g -> near (2 / 1000000 + d) (us (Datatypes.S t)) (fun b => life B S (tH (us 0%nat)) (tW (us 0%nat)) (g b))).
  { intros t e' g' He' Hn'. pose proof (rough_step B S c us d t g' e' Hc RB RS HR C0 H0 W0 He' Hn') as Q. rewrite E in Q. eapply near_weaken; [|exact Q]. lra. }
  induction t as [|t IH]; [apply (ST 0%nat e g He Hn)|]. apply (ST (Datatypes.S t) _ _ Hd IH).
Qed.

(** In general it grows at most linearly. *)
Lemma rough_linear B S c us d g e : life_core B S c -> rule_list B -> rule_list S -> rough_run (cca_forward c) d us -> 0 <= d ->
  tC (us 0%nat) = 1%nat -> (0 < tH (us 0%nat))%nat -> (0 < tW (us 0%nat))%nat -> near e (us 0%nat) g -> 0 <= e ->
  forall t, e + INR t * (2 / 1000000 + d) <= 1 / 320 ->
    near (e + INR t * (2 / 1000000 + d)) (us t) (fun b => life_n B S (tH (us 0%nat)) (tW (us 0%nat)) t (g b)).
Proof.
  intros Hc RB RS HR Hd C0 H0 W0 Hn E0. induction t as [|t IH]; intros Ht.
  - cbn [INR life_n]. eapply near_weaken; [|exact Hn]. lra.
  - rewrite S_INR in *. pose proof (pos_INR t). assert (Ht' : e + INR t * (2 / 1000000 + d) <= 1 / 320) by nra.
    pose proof (rough_step B S c us d t _ _ Hc RB RS HR C0 H0 W0 Ht' (IH Ht')) as Q. eapply near_weaken; [|exact Q]. destruct (forallb _ B); nra.
Qed.

(** The exact run: it exists, and is a rough run with no error. *)
Lemma exact_run B S c u g t : life_core B S c -> rule_list B -> rule_list S -> twf u -> tC u = 1%nat -> (0 < tH u)%nat -> (0 < tW u)%nat -> in_unit u ->
  near 0 u g -> sub_rule B S \/ INR t * (2 / 1000000) <= 1 / 320 ->
  exists u', iter_res (cca_forward c) t u = Ok u' /\ twf u' /\ shape u' = shape u /\ in_unit u' /\
    near (if forallb (fun b => existsb (Z.eqb b) S) B then 2 / 1000000 else INR t * (2 / 1000000)) u' (fun b => life_n B S (tH u) (tW u) t (g b)).
Proof.
  intros Hc RB RS Hu Cu H0 W0 Hin Hn Hor. revert Hor. induction t as [|t IH]; intros Hor.
  - exists u. cbn [iter_res life_n INR]. split; [reflexivity|]. split; [exact Hu|]. split; [reflexivity|]. split; [exact Hin|]. eapply near_weaken; [|exact Hn]. destruct (forallb _ B); lra.
  - rewrite S_INR in *. pose proof (pos_INR t) as Pt. destruct IH as (v & Hv & Wv & Sv & Uv & Nv). { destruct Hor as [A|A]; [left; exact A|right; lra]. }
    apply shape_inv in Sv as (S1 & S2 & S3 & S4).
    destruct (life_forward B S c v (fun b => life_n B S (tH u) (tW u) t (g b)) (if forallb (fun b => existsb (Z.eqb b) S) B then 2 / 1000000 else INR t * (2 / 1000000)) Hc RB RS Wv) as (w & Hw & Sw & Ww & Uw & Nw); auto; try congruence; try lia.
    { destruct (forallb (fun b => existsb (Z.eqb b) S) B) eqn:EB; [lra|]. destruct Hor as [A|A]; [rewrite (sub_rule_spec B S A) in EB; discriminate|lra]. }
    exists w. rewrite iter_snoc, Hv. cbn [bind]. split; [exact Hw|]. split; [exact Ww|]. split; [rewrite Sw; unfold shape; congruence|]. split; [exact Uw|].
    rewrite S3, S4 in Nw. eapply near_weaken; [|exact Nw]. destruct (forallb _ B); lra.
Qed.

(** ** Loading the configuration *)
Lemma as_tensor_of_pairs l : as_intervals (tensor_of_pairs l) = Ok l.
Proof. destruct l; reflexivity. Qed.

Lemma life_fn l : make_fn [("name"%string, VStr "SmoothIntervals"); ("parameters"%string, tensor_of_pairs (get_smooth_interval l)); ("mode"%string, VInt 1)]
  = Ok [ASmoothIntervals (get_smooth_interval l) (125 / 10000) true].
Proof.
  unfold make_fn, dgetk. cbn [dget find fst snd String.eqb Ascii.eqb Bool.eqb bind]. unfold mk_smoothintervals, query_kwargs. cbn [dget String.eqb Ascii.eqb Bool.eqb].
  rewrite as_tensor_of_pairs. reflexivity.
Qed.

Lemma core_make c th k g p d : cca_wf c -> ext c = 1%nat -> int_ c = 1%nat -> pm c = Circular -> thr c = th -> gens c = g -> pers c = p -> dt c = d ->
  as_kernel (K4 k) = Ok k -> init_layer 1 1 Circular default_id_kernel = Ok (idl c) -> init_layer 1 1 Circular k = Ok (nbl c) -> init_weights 1 1 Circular = Ok (wl c) ->
  make_cca 1 1 Circular th (K4 default_id_kernel) (K4 k) g p d = Ok c.
Proof.
  intros _ E1 E2 E3 E4 E5 E6 E7 Hk Hi Hn Hw. unfold make_cca. assert (D : as_kernel (K4 default_id_kernel) = Ok default_id_kernel) by reflexivity. rewrite D. cbn [bind]. rewrite Hi. cbn [bind]. rewrite Hk. cbn [bind]. rewrite Hn. cbn [bind]. rewrite Hw. cbn [bind].
  f_equal. destruct c. cbn in *. congruence.
Qed.

Lemma life_load fuel ev rng o h B S o' h' : obj_inv o -> ext (o_core o) = 1%nat -> int_ (o_core o) = 1%nat -> pm (o_core o) = Circular ->
  load_value fuel ev rng o (get_life_like_config 1 B S) h = Ok (o', h') -> life_core B S (o_core o').
Proof.
  intros I E1 E2 E3 HL. unfold load_value, load_config, load_with in HL. 
  rewrite (unpickle_refs (get_life_like_config 1 B S) h _ _ _ eq_refl eq_refl eq_refl eq_refl eq_refl) in HL. cbv zeta in HL. cbn [fst snd c_inst get_life_like_config p_inst bind] in HL.
  destruct (hget_tail h [("name"%string, VStr "MooreLike"); ("radius"%string, VInt 1)]
    [("name"%string, VStr "SmoothIntervals"); ("parameters"%string, tensor_of_pairs (get_smooth_interval B)); ("mode"%string, VInt 1)]
    [("name"%string, VStr "SmoothIntervals"); ("parameters"%string, tensor_of_pairs (get_smooth_interval S)); ("mode"%string, VInt 1)]) as (T1 & T2 & T3).
  set (hx := (h ++ _)%list) in *. apply load_body_inv in HL as [-> L]. pose proof (loaded_inv _ _ _ _ I L) as I'.
  destruct (ld_id _ _ _ _ L) as (k1 & Hk1 & Hil). destruct (ld_nb _ _ _ _ L) as (l & k & Cn & _ & Hk & Hnl & _ & _).
  destruct (ld_gen _ _ _ _ L) as (gl & Cg & _ & Hg). destruct (ld_per _ _ _ _ L) as (pl & Cp & _ & Hq).
  pose proof (ld_ext _ _ _ _ L) as X1. pose proof (ld_int _ _ _ _ L) as X2. pose proof (ld_pm _ _ _ _ L) as X3.
  pose proof (ld_thr _ _ _ _ L) as X4. pose proof (ld_dt _ _ _ _ L) as X5. pose proof (ld_wl _ _ _ _ L) as X6.
  cbn [c_id c_nb c_gen c_per c_dt] in *. injection Cn as <-. injection Cg as <-. injection Cp as <-. rewrite T1 in Hk. rewrite T2, life_fn in Hg. rewrite T3, life_fn in Hq.
  apply Ok_inj in Hg, Hq. destruct Hk1 as [[_ ->]|(z & Hz & _)]; [|discriminate]. rewrite E1, E2, E3 in *.
  exists (thr (o_core o')), k. split; [|exact Hk]. apply core_make; auto; try congruence.
  - apply obj_inv_wf. exact I'.
  - apply get_kernel_odd in Hk as (r & R & _). apply (as_kernel_odd r k R).
Qed.

Lemma life_load_ok fuel ev rng o h B S : obj_inv o -> exists o' h', load_value fuel ev rng o (get_life_like_config 1 B S) h = Ok (o', h').
Proof.
  intros I. unfold load_value, load_config, load_with.
  rewrite (unpickle_refs (get_life_like_config 1 B S) h _ _ _ eq_refl eq_refl eq_refl eq_refl eq_refl). cbv zeta. cbn [fst snd c_inst get_life_like_config p_inst bind].
  destruct (hget_tail h [("name"%string, VStr "MooreLike"); ("radius"%string, VInt 1)]
    [("name"%string, VStr "SmoothIntervals"); ("parameters"%string, tensor_of_pairs (get_smooth_interval B)); ("mode"%string, VInt 1)]
    [("name"%string, VStr "SmoothIntervals"); ("parameters"%string, tensor_of_pairs (get_smooth_interval S)); ("mode"%string, VInt 1)]) as (T1 & T2 & T3).
  set (hx := (h ++ _)%list) in *.
  destruct (moore_spec [("name"%string, VStr "MooreLike"); ("radius"%string, VInt 1)] 1 eq_refl eq_refl ltac:(lia)) as (k & Hk & _).
  pose proof I as (A1 & A2 & _ & _ & Iw & _). cbv zeta in *.
  pose proof Hk as Hk2. apply get_kernel_odd in Hk2 as (rr & (Sk & Wk & _) & _). apply shape_inv in Sk as (K1 & K2 & K3 & K4).
  destruct (init_layer_ok (ext (o_core o)) (int_ (o_core o)) (pm (o_core o)) k) as [nl Enl]; auto; try congruence.
  destruct (init_layer_ok (ext (o_core o)) (int_ (o_core o)) (pm (o_core o)) default_id_kernel) as [il Eil]; auto.
  eexists. eexists. eapply (load_body_ok o _ hx default_id_kernel (List.length h) k); cbn [c_id c_nb c_gen c_per]; try reflexivity.
  - rewrite T1. exact Hk.
  - rewrite T1. reflexivity.
  - rewrite T1. reflexivity.
  - rewrite T2. apply life_fn.
  - rewrite T3. apply life_fn.
  - exact Eil.
  - exact Enl.
  - exact Iw.
Qed.
