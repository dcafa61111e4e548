(** The puffer (proofs): the plane in rows of bits, patterns far apart, and 170 steps. *)
From Coq Require Import Lia List Arith Bool ZArith NArith.
From Verif Require Import Base SGrid SLife PLife PGlider MPatterns.
Import ListNotations.

(** Morley's rule. *)
Definition mB : list Z := [3; 6; 8]%Z.
Definition mS : list Z := [2; 4; 5]%Z.

(** ** One cell from counted bits *)
Definition inc (c : bool * bool * bool * bool) (x : bool) : bool * bool * bool * bool :=
  let '(c3, c2, c1, c0) := c in
  let k0 := c0 && x in let k1 := c1 && k0 in let k2 := c2 && k1 in
  (xorb c3 k2, xorb c2 k1, xorb c1 k0, xorb c0 x).

Definition rule_bits (a : bool) (c : bool * bool * bool * bool) : bool :=
  let '(c3, c2, c1, c0) := c in
  (a && ((c1 && negb c0 && negb c2) || (c2 && negb c1)) && negb c3) ||
  (negb a && (c3 || (c1 && xorb c2 c0))).

Definition cell_bits (a : bool) (l : list bool) : bool := rule_bits a (fold_left inc l (false, false, false, false)).

Lemma cell_bits_ok a b0 b1 b2 b3 b4 b5 b6 b7 :
  life_cell mB mS a (list_sum (map b2n [b0; b1; b2; b3; b4; b5; b6; b7])) = cell_bits a [b0; b1; b2; b3; b4; b5; b6; b7].
Proof. destruct a, b0, b1, b2, b3, b4, b5, b6, b7; reflexivity. Qed.

(** ** Rows of bits *)
Definition ninc (c : N * N * N * N) (x : N) : N * N * N * N :=
  let '(c3, c2, c1, c0) := c in
  let k0 := N.land c0 x in let k1 := N.land c1 k0 in let k2 := N.land c2 k1 in
  (N.lxor c3 k2, N.lxor c2 k1, N.lxor c1 k0, N.lxor c0 x).

Definition nrule (a : N) (c : N * N * N * N) : N :=
  let '(c3, c2, c1, c0) := c in
  N.lor (N.ldiff (N.land a (N.lor (N.ldiff (N.ldiff c1 c0) c2) (N.ldiff c2 c1))) c3)
        (N.ldiff (N.lor c3 (N.land c1 (N.lxor c2 c0))) a).

Definition next_row (u a d : N) : N :=
  nrule a (fold_left ninc [N.shiftl u 1; u; N.shiftr u 1; N.shiftl a 1; N.shiftr a 1; N.shiftl d 1; d; N.shiftr d 1] (0, 0, 0, 0)%N).

Definition bits (c : N * N * N * N) (j : N) : bool * bool * bool * bool :=
  let '(c3, c2, c1, c0) := c in (N.testbit c3 j, N.testbit c2 j, N.testbit c1 j, N.testbit c0 j).

Lemma ninc_bits c x j : bits (ninc c x) j = inc (bits c j) (N.testbit x j).
Proof. destruct c as (((c3, c2), c1), c0). unfold ninc, inc, bits. rewrite !N.lxor_spec, !N.land_spec. reflexivity. Qed.

Lemma fold_bits l j : forall c, bits (fold_left ninc l c) j = fold_left inc (map (fun x => N.testbit x j) l) (bits c j).
Proof. induction l as [|x t IH]; intros c; [reflexivity|]. cbn [fold_left map]. rewrite IH, ninc_bits. reflexivity. Qed.

Lemma nrule_bits a c j : N.testbit (nrule a c) j = rule_bits (N.testbit a j) (bits c j).
Proof.
  destruct c as (((c3, c2), c1), c0). unfold nrule, rule_bits, bits. rewrite !N.lor_spec, !N.ldiff_spec, !N.lor_spec, !N.land_spec, !N.lor_spec, !N.ldiff_spec, !N.lxor_spec.
  destruct (N.testbit a j), (N.testbit c3 j), (N.testbit c2 j), (N.testbit c1 j), (N.testbit c0 j); reflexivity.
Qed.

(** The bit of a row at a column, nothing before column 0. *)
Definition bit (r : N) (w : Z) : bool := if Z.ltb w 0 then false else N.testbit r (Z.to_N w).

Lemma bit_left r w : (0 <= w)%Z -> N.testbit (N.shiftl r 1) (Z.to_N w) = bit r (w + -1).
Proof.
  intros H. unfold bit. destruct (Z.ltb_spec (w + -1) 0).
  - apply N.shiftl_spec_low. lia.
  - rewrite N.shiftl_spec_high by lia. f_equal. lia.
Qed.

Lemma bit_right r w : (0 <= w)%Z -> N.testbit (N.shiftr r 1) (Z.to_N w) = bit r (w + 1).
Proof. intros H. unfold bit. destruct (Z.ltb_spec (w + 1) 0); [lia|]. rewrite N.shiftr_spec by lia. f_equal. lia. Qed.

Lemma bit_same r w : (0 <= w)%Z -> N.testbit r (Z.to_N w) = bit r w.
Proof. intros H. unfold bit. destruct (Z.ltb_spec w 0); [lia|reflexivity]. Qed.

Lemma next_row_ok u a d w : (0 <= w)%Z ->
  bit (next_row u a d) w = cell_bits (bit a w) [bit u (w + -1); bit u (w + 0); bit u (w + 1); bit a (w + -1); bit a (w + 1); bit d (w + -1); bit d (w + 0); bit d (w + 1)].
Proof.
  intros H. rewrite <- (bit_same (next_row u a d)) by exact H. unfold next_row. rewrite nrule_bits, fold_bits. cbn [map]. rewrite !bit_left, !bit_right, !Z.add_0_r, !bit_same by exact H. reflexivity.
Qed.

(** A plane from rows: row and column 0 upward. *)
Definition pl (rows : list N) : plane := fun z w => if Z.ltb z 0 then false else bit (nth (Z.to_nat z) rows 0%N) w.

Fixpoint next_rows (above : N) (rows : list N) : list N :=
  match rows with
  | [] => []
  | a :: t => next_row above a (hd 0%N t) :: next_rows a t
  end.

(** Room to grow: nothing in the first and last row, nor in the first column. *)
Definition roomy (rows : list N) : bool :=
  N.eqb (hd 0%N rows) 0 && N.eqb (last rows 0%N) 0 && forallb (fun r => negb (N.testbit r 0)) rows.

Lemma next_rows_nth rows : forall above i, (i < length rows)%nat ->
  nth i (next_rows above rows) 0%N = next_row (match i with O => above | S k => nth k rows 0%N end) (nth i rows 0%N) (nth (S i) rows 0%N).
Proof.
  induction rows as [|a t IH]; intros above i Hi; [cbn in Hi; lia|]. destruct i as [|i].
  - cbn [next_rows nth]. destruct t; reflexivity.
  - cbn [next_rows nth length] in *. rewrite IH by lia. destruct i; reflexivity.
Qed.

Lemma next_rows_length rows : forall above, length (next_rows above rows) = length rows.
Proof. induction rows as [|a t IH]; intros; [reflexivity|]. cbn [next_rows length]. rewrite IH. reflexivity. Qed.

Lemma pl_true rows z w : pl rows z w = true -> (0 <= z < Z.of_nat (length rows) /\ 0 <= w)%Z.
Proof.
  unfold pl, bit. destruct (Z.ltb_spec z 0); [discriminate|]. destruct (Z.ltb_spec w 0); [discriminate|]. intros T. split; [|assumption]. split; [assumption|].
  destruct (Z_lt_dec z (Z.of_nat (length rows))) as [L|L]; [exact L|]. rewrite nth_overflow in T by lia. rewrite N.bits_0 in T. discriminate.
Qed.

Lemma last_nth (l : list N) : last l 0%N = nth (length l - 1) l 0%N.
Proof. induction l as [|a [|b t] IH]; [reflexivity..|]. cbn [last] in *. rewrite IH. cbn [length]. replace (S (S (length t)) - 1)%nat with (S (S (length t) - 1)) by lia. reflexivity. Qed.

Lemma roomy_true rows z w : roomy rows = true -> pl rows z w = true -> (1 <= z <= Z.of_nat (length rows) - 2 /\ 1 <= w)%Z.
Proof.
  intros R T. pose proof (pl_true _ _ _ T) as [Z1 W1]. unfold roomy in R. apply andb_prop in R as [R R3]. apply andb_prop in R as [R1 R2]. apply N.eqb_eq in R1, R2.
  unfold pl, bit in T. destruct (Z.ltb_spec z 0); [discriminate|]. destruct (Z.ltb_spec w 0); [discriminate|].
  split; [split|].
  - destruct (Z.eq_dec z 0) as [->|]; [|lia]. exfalso. change (Z.to_nat 0) with 0%nat in T. destruct rows as [|r t]; cbn [hd nth] in *; [rewrite N.bits_0 in T; discriminate|]. rewrite R1, N.bits_0 in T. discriminate.
  - destruct (Z.eq_dec z (Z.of_nat (length rows) - 1)) as [->|]; [|lia]. exfalso. rewrite last_nth in R2. replace (Z.to_nat (Z.of_nat (length rows) - 1)) with (length rows - 1)%nat in T by lia. rewrite R2, N.bits_0 in T. discriminate.
  - destruct (Z.eq_dec w 0) as [->|]; [|lia]. exfalso. rewrite forallb_forall in R3. specialize (R3 (nth (Z.to_nat z) rows 0%N) ltac:(apply nth_In; lia)). change (Z.to_N 0) with 0%N in T. rewrite T in R3. discriminate.
Qed.

Lemma quiet p z w : (forall a b, (-1 <= a <= 1)%Z -> (-1 <= b <= 1)%Z -> p (z + a)%Z (w + b)%Z = false) -> plane_life mB mS p z w = false.
Proof.
  intros N. unfold plane_life, plane_live. cbn [moore_offsets map fst snd]. rewrite !N by lia. pose proof (N 0%Z 0%Z ltac:(lia) ltac:(lia)) as N0. rewrite !Z.add_0_r in N0. rewrite N0. reflexivity.
Qed.

Lemma rows_step rows : roomy rows = true -> forall z w, plane_life mB mS (pl rows) z w = pl (next_rows 0 rows) z w.
Proof.
  intros R z w.
  destruct (Z_lt_dec z 0) as [Z0|Z0]; [|destruct (Z_le_dec (Z.of_nat (length rows)) z) as [Z1|Z1]; [|destruct (Z_lt_dec w 0) as [W0|W0]]].
  1-3: rewrite quiet; [symmetry|intros a b Ha Hb; destruct (pl rows (z + a)%Z (w + b)%Z) eqn:E; [apply (roomy_true _ _ _ R) in E; lia|reflexivity]].
  1-3: match goal with |- ?x = false => destruct x eqn:E; [|reflexivity] end; apply pl_true in E; rewrite next_rows_length in E; lia.
  assert (P : forall a b, pl rows (z + a)%Z (w + b)%Z = if Z.ltb (z + a) 0 then false else bit (nth (Z.to_nat (z + a)) rows 0%N) (w + b)) by reflexivity.
  unfold plane_life, plane_live. cbn [moore_offsets map fst snd].
  change (list_sum [b2n (pl rows (z + -1)%Z (w + -1)%Z); b2n (pl rows (z + -1)%Z (w + 0)%Z); b2n (pl rows (z + -1)%Z (w + 1)%Z); b2n (pl rows (z + 0)%Z (w + -1)%Z); b2n (pl rows (z + 0)%Z (w + 1)%Z); b2n (pl rows (z + 1)%Z (w + -1)%Z); b2n (pl rows (z + 1)%Z (w + 0)%Z); b2n (pl rows (z + 1)%Z (w + 1)%Z)])
    with (list_sum (map b2n [pl rows (z + -1)%Z (w + -1)%Z; pl rows (z + -1)%Z (w + 0)%Z; pl rows (z + -1)%Z (w + 1)%Z; pl rows (z + 0)%Z (w + -1)%Z; pl rows (z + 0)%Z (w + 1)%Z; pl rows (z + 1)%Z (w + -1)%Z; pl rows (z + 1)%Z (w + 0)%Z; pl rows (z + 1)%Z (w + 1)%Z])).
  rewrite cell_bits_ok. unfold pl at 10. destruct (Z.ltb_spec z 0); [lia|]. rewrite next_rows_nth by lia. rewrite next_row_ok by lia.
  assert (A0 : forall b, pl rows (z + 0)%Z b = bit (nth (Z.to_nat z) rows 0%N) b) by (intros b; unfold pl; rewrite Z.add_0_r; destruct (Z.ltb_spec z 0); [lia|reflexivity]).
  assert (A00 : pl rows z w = bit (nth (Z.to_nat z) rows 0%N) w) by (unfold pl; destruct (Z.ltb_spec z 0); [lia|reflexivity]).
  assert (A1 : forall b, pl rows (z + 1)%Z b = bit (nth (S (Z.to_nat z)) rows 0%N) b) by (intros b; unfold pl; destruct (Z.ltb_spec (z + 1) 0); [lia|]; replace (Z.to_nat (z + 1)) with (S (Z.to_nat z)) by lia; reflexivity).
  assert (Am : forall b, pl rows (z + -1)%Z b = bit (match Z.to_nat z with O => 0%N | S k => nth k rows 0%N end) b).
  { intros b. unfold pl. destruct (Z.ltb_spec (z + -1) 0).
    - replace (Z.to_nat z) with 0%nat by lia. unfold bit. destruct (Z.ltb b 0); [reflexivity|]. symmetry. apply N.bits_0.
    - destruct (Z.to_nat z) as [|k] eqn:K; [lia|]. replace (Z.to_nat (z + -1)) with k by lia. reflexivity. }
  rewrite !A0, !A1, !Am, A00. reflexivity.
Qed.
