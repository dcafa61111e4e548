(** The glider glides (proofs): Life on the torus is equivariant, and away from the edge it
    is Life on the plane. *)
From Coq Require Import Reals Lra Lia List Arith Bool ZArith.
From Verif Require Import Base Tensor MConfigs SGrid SLife PLife.
Import ListNotations.

Definition agree (H W : nat) (f g : board) : Prop := forall i j, (i < H)%nat -> (j < W)%nat -> f i j = g i j.

Lemma agree_trans H W f g k : agree H W f g -> agree H W g k -> agree H W f k.
Proof. intros A B i j Hi Hj. rewrite A by assumption. apply B; assumption. Qed.

Lemma agree_sym H W f g : agree H W f g -> agree H W g f.
Proof. intros A i j Hi Hj. symmetry. apply A; assumption. Qed.

Lemma life_agree B S H W f g : (0 < H)%nat -> (0 < W)%nat -> agree H W f g -> agree H W (life B S H W f) (life B S H W g).
Proof.
  intros H0 W0 A i j Hi Hj. unfold life. rewrite A by assumption. f_equal. unfold live_neighbours. f_equal. apply map_ext. intros o. rewrite A by (apply zmod_lt; assumption). reflexivity.
Qed.

Lemma life_n_agree B S H W f g n : (0 < H)%nat -> (0 < W)%nat -> agree H W f g -> agree H W (life_n B S H W n f) (life_n B S H W n g).
Proof. intros H0 W0 A. induction n as [|n IH]; [exact A|]. cbn [life_n]. apply life_agree; assumption. Qed.

Lemma life_n_add B S H W n m f : life_n B S H W (n + m) f = life_n B S H W n (life_n B S H W m f).
Proof. induction n as [|n IH]; [reflexivity|]. cbn [life_n Nat.add]. rewrite IH. reflexivity. Qed.

Lemma zmod_mod a n : (0 < n)%nat -> Z.of_nat (zmod a n) = (a mod Z.of_nat n)%Z.
Proof. intros. unfold zmod. rewrite Z2Nat.id; [reflexivity|]. apply Z.mod_pos_bound. lia. Qed.

Lemma zmod_add a b n : (0 < n)%nat -> zmod (Z.of_nat (zmod a n) + b) n = zmod (a + b) n.
Proof. intros. unfold zmod at 1 3. rewrite zmod_mod by assumption. rewrite Zplus_mod_idemp_l. reflexivity. Qed.

Lemma zmod_small n i : (i < n)%nat -> zmod (Z.of_nat i) n = i.
Proof. intros. unfold zmod. rewrite Z.mod_small by lia. apply Nat2Z.id. Qed.

(** Shifting commutes with Life. *)
Lemma life_shift B S H W dy dx f : (0 < H)%nat -> (0 < W)%nat -> agree H W (life B S H W (shifted H W dy dx f)) (shifted H W dy dx (life B S H W f)).
Proof.
  intros H0 W0 i j Hi Hj. unfold life, shifted. f_equal. unfold live_neighbours. f_equal. apply map_ext. intros o. f_equal. f_equal;
  unfold Z.sub; rewrite !zmod_add by assumption; f_equal; lia.
Qed.

Lemma shifted_agree H W dy dx f g : (0 < H)%nat -> (0 < W)%nat -> agree H W f g -> agree H W (shifted H W dy dx f) (shifted H W dy dx g).
Proof. intros H0 W0 A i j Hi Hj. unfold shifted. apply A; apply zmod_lt; assumption. Qed.

Lemma life_n_shift B S H W dy dx n f : (0 < H)%nat -> (0 < W)%nat -> agree H W (life_n B S H W n (shifted H W dy dx f)) (shifted H W dy dx (life_n B S H W n f)).
Proof.
  intros H0 W0. induction n as [|n IH]; [intros i j _ _; reflexivity|]. cbn [life_n].
  eapply agree_trans; [apply life_agree; eassumption|]. apply life_shift; assumption.
Qed.

Lemma shifted_shifted H W a b c d f : (0 < H)%nat -> (0 < W)%nat -> agree H W (shifted H W a b (shifted H W c d f)) (shifted H W (a + c) (b + d) f).
Proof.
  intros H0 W0 i j Hi Hj. unfold shifted. unfold Z.sub. rewrite !zmod_add by assumption. f_equal; f_equal; lia.
Qed.

Lemma shifted_0 H W f : agree H W (shifted H W 0 0 f) f.
Proof. intros i j Hi Hj. unfold shifted. rewrite !Z.sub_0_r, !zmod_small by assumption. reflexivity. Qed.

(** ** The plane *)
Definition on_torus (p : plane) : board := fun i j => p (Z.of_nat i) (Z.of_nat j).

(** Nothing outside rows and columns 1 to 3. *)
Definition inner (p : plane) : Prop := forall z w, p z w = true -> (1 <= z <= 3 /\ 1 <= w <= 3)%Z.

Lemma wrap_inner p H W z w : (5 <= H)%nat -> (5 <= W)%nat -> inner p -> (-1 <= z <= Z.of_nat H)%Z -> (-1 <= w <= Z.of_nat W)%Z ->
  p (Z.of_nat (zmod z H)) (Z.of_nat (zmod w W)) = p z w.
Proof.
  intros H5 W5 I Hz Hw. rewrite !zmod_mod by lia.
  assert (M : forall x n, (5 <= n)%nat -> (-1 <= x <= Z.of_nat n)%Z -> (x mod Z.of_nat n = x \/ (x mod Z.of_nat n = Z.of_nat n - 1 /\ x = -1) \/ (x mod Z.of_nat n = 0 /\ x = Z.of_nat n))%Z).
  { intros x n Hn Hx. destruct (Z.eq_dec x (-1)) as [->|D1]; [right; left; split; auto; symmetry; apply (Z.mod_unique_pos _ _ (-1)); lia|].
    destruct (Z.eq_dec x (Z.of_nat n)) as [->|D2]; [right; right; split; auto; apply Z.mod_same; lia|]. left. apply Z.mod_small. lia. }
  destruct (M z H H5 Hz) as [->|[[-> ->]|[-> ->]]], (M w W W5 Hw) as [->|[[-> ->]|[-> ->]]]; try reflexivity;
  match goal with |- ?a = ?b => destruct a eqn:Ea; [apply I in Ea; lia|]; destruct b eqn:Eb; [apply I in Eb; lia|reflexivity] end.
Qed.

Lemma life_plane B S p H W : (5 <= H)%nat -> (5 <= W)%nat -> inner p -> agree H W (life B S H W (on_torus p)) (on_torus (plane_life B S p)).
Proof.
  intros H5 W5 I i j Hi Hj. unfold life, on_torus, plane_life. f_equal. unfold live_neighbours, plane_live. f_equal.
  apply map_ext_in. intros [a b] Ho. f_equal. cbn [fst snd]. assert ((-1 <= a <= 1 /\ -1 <= b <= 1)%Z).
  { cbn [moore_offsets In] in Ho. repeat (destruct Ho as [Ho|Ho]; [injection Ho as <- <-; lia|]). contradiction. }
  apply wrap_inner; auto; lia.
Qed.

(** A pattern in rows and columns 0 to 3, as the shift of one in 1 to 3. *)
Lemma plane_shift p H W a b : (5 <= H)%nat -> (5 <= W)%nat -> inner p -> (0 <= a <= 1)%Z -> (0 <= b <= 1)%Z ->
  agree H W (on_torus (fun z w => p (z + a) (w + b))%Z) (shifted H W (- a) (- b) (on_torus p)).
Proof.
  intros H5 W5 I Ha Hb i j Hi Hj. unfold shifted, on_torus. replace (Z.of_nat i - - a)%Z with (Z.of_nat i + a)%Z by lia. replace (Z.of_nat j - - b)%Z with (Z.of_nat j + b)%Z by lia.
  symmetry. apply wrap_inner; auto; lia.
Qed.

(** Patterns given by lists of cells. *)
Definition cells (l : list (Z * Z)) : plane := fun z w => existsb (fun c => Z.eqb (fst c) z && Z.eqb (snd c) w) l.

Lemma cells_inner l : forallb (fun c => (1 <=? fst c)%Z && (fst c <=? 3)%Z && (1 <=? snd c)%Z && (snd c <=? 3)%Z) l = true -> inner (cells l).
Proof.
  intros F z w C. unfold cells in C. apply existsb_exists in C as ([a b] & Hin & E). rewrite forallb_forall in F. specialize (F _ Hin). cbn [fst snd] in *.
  apply andb_prop in E as [E1 E2]. apply Z.eqb_eq in E1, E2. repeat (apply andb_prop in F as [F ?]). rewrite !Z.leb_le in *. lia.
Qed.

(** One step of a pattern in 1..3 gives the cells of [l'], checked on rows and columns 0 to 4;
    further out nothing has a live neighbour. *)
Definition window : list Z := [0; 1; 2; 3; 4]%Z.

Lemma plane_step l l' : inner (cells l) -> (forall z w, cells l' z w = true -> (0 <= z <= 4 /\ 0 <= w <= 4)%Z) ->
  forallb (fun z => forallb (fun w => Bool.eqb (plane_life [3]%Z [2; 3]%Z (cells l) z w) (cells l' z w)) window) window = true ->
  forall z w, plane_life [3]%Z [2; 3]%Z (cells l) z w = cells l' z w.
Proof.
  intros I O F z w. destruct (Z_le_dec 0 z) as [Z1|Z1]; [destruct (Z_le_dec z 4) as [Z2|Z2]; [destruct (Z_le_dec 0 w) as [W1|W1]; [destruct (Z_le_dec w 4) as [W2|W2]|]|]|].
  { rewrite forallb_forall in F. assert (Hz : In z window) by (unfold window; cbn [In]; lia). specialize (F z Hz). rewrite forallb_forall in F.
    assert (Hw : In w window) by (unfold window; cbn [In]; lia). specialize (F w Hw). apply Bool.eqb_prop in F. exact F. }
  all: destruct (cells l' z w) eqn:E'; [apply O in E'; lia|].
  all: assert (N : forall a b, (-1 <= a <= 1)%Z -> (-1 <= b <= 1)%Z -> cells l (z + a)%Z (w + b)%Z = false) by (intros a b Ha Hb; destruct (cells l (z + a)%Z (w + b)%Z) eqn:E; [apply I in E; lia|reflexivity]).
  all: unfold plane_life, plane_live; cbn [moore_offsets map fst snd]; rewrite !N by lia.
  all: assert (N0 := N 0%Z 0%Z ltac:(lia) ltac:(lia)); rewrite !Z.add_0_r in N0; rewrite N0; reflexivity.
Qed.

(** ** The glider *)
Definition g0 : list (Z * Z) := [(1, 2); (2, 1); (2, 2); (3, 1); (3, 3)]%Z.
Definition g1 : list (Z * Z) := [(1, 1); (1, 2); (2, 1); (2, 3); (3, 1)]%Z.
Definition g2 : list (Z * Z) := [(1, 1); (1, 2); (2, 0); (2, 1); (3, 2)]%Z.
Definition g2' : list (Z * Z) := [(1, 2); (1, 3); (2, 1); (2, 2); (3, 3)]%Z.
Definition g3' : list (Z * Z) := [(1, 1); (1, 2); (1, 3); (2, 1); (3, 2)]%Z.
Definition g4' : list (Z * Z) := [(0, 2); (1, 1); (1, 2); (2, 1); (2, 3)]%Z.

Lemma cells_shift l l' a b : (forall c, In c l <-> In (fst c + a, snd c + b)%Z l') -> forall z w, cells l z w = cells l' (z + a)%Z (w + b)%Z.
Proof.
  intros E z w. unfold cells. apply eq_true_iff_eq. rewrite !existsb_exists. split.
  - intros ([x y] & Hin & H). cbn [fst snd] in H. apply andb_prop in H as [H1 H2]. apply Z.eqb_eq in H1, H2. subst. exists (z + a, w + b)%Z. split; [apply (E (z, w)); exact Hin|]. cbn [fst snd]. rewrite !Z.eqb_refl. reflexivity.
  - intros ([x y] & Hin & H). cbn [fst snd] in H. apply andb_prop in H as [H1 H2]. apply Z.eqb_eq in H1, H2. subst. exists (z, w). split; [apply E; exact Hin|]. cbn [fst snd]. rewrite !Z.eqb_refl. reflexivity.
Qed.

Lemma cells_bound l : forallb (fun c => (0 <=? fst c)%Z && (fst c <=? 4)%Z && (0 <=? snd c)%Z && (snd c <=? 4)%Z) l = true -> forall z w, cells l z w = true -> (0 <= z <= 4 /\ 0 <= w <= 4)%Z.
Proof.
  intros F z w C. unfold cells in C. apply existsb_exists in C as ([a b] & Hin & E). rewrite forallb_forall in F. specialize (F _ Hin). cbn [fst snd] in *.
  apply andb_prop in E as [E1 E2]. apply Z.eqb_eq in E1, E2. repeat (apply andb_prop in F as [F ?]). rewrite !Z.leb_le in *. lia.
Qed.

Lemma torus_step l l' H W : (5 <= H)%nat -> (5 <= W)%nat -> inner (cells l) -> (forall z w, cells l' z w = true -> (0 <= z <= 4 /\ 0 <= w <= 4)%Z) ->
  forallb (fun z => forallb (fun w => Bool.eqb (plane_life [3]%Z [2; 3]%Z (cells l) z w) (cells l' z w)) window) window = true ->
  agree H W (life [3]%Z [2; 3]%Z H W (on_torus (cells l))) (on_torus (cells l')).
Proof.
  intros H5 W5 I O F. eapply agree_trans; [apply life_plane; assumption|]. intros i j _ _. unfold on_torus. apply plane_step; assumption.
Qed.

Lemma glider_4 H W : (5 <= H)%nat -> (5 <= W)%nat -> agree H W (life_n [3]%Z [2; 3]%Z H W 4 (on_torus (cells g0))) (shifted H W (-1) (-1) (on_torus (cells g0))).
Proof.
  intros H5 W5. assert (H0 : (0 < H)%nat) by lia. assert (W0 : (0 < W)%nat) by lia.
  assert (A1 : agree H W (life [3]%Z [2; 3]%Z H W (on_torus (cells g0))) (on_torus (cells g1))) by (apply torus_step; [exact H5|exact W5|apply cells_inner; reflexivity|apply cells_bound; reflexivity|reflexivity]).
  assert (A2 : agree H W (life [3]%Z [2; 3]%Z H W (on_torus (cells g1))) (on_torus (cells g2))) by (apply torus_step; [exact H5|exact W5|apply cells_inner; reflexivity|apply cells_bound; reflexivity|reflexivity]).
  assert (A3 : agree H W (life [3]%Z [2; 3]%Z H W (on_torus (cells g2'))) (on_torus (cells g3'))) by (apply torus_step; [exact H5|exact W5|apply cells_inner; reflexivity|apply cells_bound; reflexivity|reflexivity]).
  assert (A4 : agree H W (life [3]%Z [2; 3]%Z H W (on_torus (cells g3'))) (on_torus (cells g4'))) by (apply torus_step; [exact H5|exact W5|apply cells_inner; reflexivity|apply cells_bound; reflexivity|reflexivity]).
  assert (B2 : agree H W (on_torus (cells g2)) (shifted H W 0 (-1) (on_torus (cells g2')))).
  { eapply agree_trans; [|apply (plane_shift (cells g2') H W 0 1); auto; try lia; apply cells_inner; reflexivity]. intros i j _ _. unfold on_torus. apply cells_shift. intros [x y]. cbn [fst snd]. unfold g2, g2'. cbn [In]. split; intros X; repeat (destruct X as [X|X]; [injection X as ? ?|]); try contradiction.
    all: try (left; f_equal; lia) || (right; left; f_equal; lia) || (do 2 right; left; f_equal; lia) || (do 3 right; left; f_equal; lia) || (do 4 right; left; f_equal; lia). }
  assert (B4 : agree H W (on_torus (cells g4')) (shifted H W (-1) 0 (on_torus (cells g0)))).
  { eapply agree_trans; [|apply (plane_shift (cells g0) H W 1 0); auto; try lia; apply cells_inner; reflexivity]. intros i j _ _. unfold on_torus. apply cells_shift. intros [x y]. cbn [fst snd]. unfold g0, g4'. cbn [In]. split; intros X; repeat (destruct X as [X|X]; [injection X as ? ?|]); try contradiction.
    all: try (left; f_equal; lia) || (right; left; f_equal; lia) || (do 2 right; left; f_equal; lia) || (do 3 right; left; f_equal; lia) || (do 4 right; left; f_equal; lia). }
  cbn [life_n]. pose proof (life_agree [3]%Z [2; 3]%Z H W) as LA.
  eapply agree_trans; [apply LA; auto; apply LA; auto; apply LA; auto; exact A1|].
  eapply agree_trans; [apply LA; auto; apply LA; auto; eapply agree_trans; [exact A2|exact B2]|].
  eapply agree_trans; [apply LA; auto; eapply agree_trans; [apply life_shift; auto|apply shifted_agree; auto; exact A3]|].
  eapply agree_trans; [apply life_shift; auto|].
  eapply agree_trans; [apply shifted_agree; auto; eapply agree_trans; [exact A4|exact B4]|].
  apply (shifted_shifted H W 0 (-1) (-1) 0); assumption.
Qed.

Lemma eqb_of_nat a n : Z.eqb (Z.of_nat a) (Z.of_nat n) = Nat.eqb a n.
Proof. apply eq_true_iff_eq. rewrite Z.eqb_eq, Nat.eqb_eq. lia. Qed.

Lemma glider_is_g0 H W : (5 <= H)%nat -> (5 <= W)%nat -> agree H W (placed 8 8 get_glider) (on_torus (cells g0)).
Proof.
  intros _ _ i j _ _. unfold placed, on_torus, cells, g0. cbn [existsb fst snd].
  change 1%Z with (Z.of_nat 1). change 2%Z with (Z.of_nat 2). change 3%Z with (Z.of_nat 3). rewrite !eqb_of_nat.
  destruct i as [|[|[|[|i]]]]; destruct j as [|[|[|[|j]]]]; try reflexivity; cbn [get_glider Nat.eqb Nat.leb Nat.ltb andb orb]; rewrite ?andb_false_r; reflexivity.
Qed.

(** Four steps, [k] times over. *)
Lemma glider_forever H W k : (5 <= H)%nat -> (5 <= W)%nat ->
  agree H W (life_n [3]%Z [2; 3]%Z H W (4 * k) (placed 8 8 get_glider)) (shifted H W (- Z.of_nat k) (- Z.of_nat k) (placed 8 8 get_glider)).
Proof.
  intros H5 W5. assert (H0 : (0 < H)%nat) by lia. assert (W0 : (0 < W)%nat) by lia. induction k as [|k IH].
  - cbn [Nat.mul life_n]. apply agree_sym. change (- Z.of_nat 0)%Z with 0%Z. apply shifted_0.
  - replace (4 * S k)%nat with (4 + 4 * k)%nat by lia. rewrite life_n_add.
    eapply agree_trans; [apply life_n_agree; eassumption|].
    eapply agree_trans; [apply life_n_shift; assumption|].
    eapply agree_trans; [apply shifted_agree; auto; eapply agree_trans; [apply life_n_agree; auto; apply glider_is_g0; auto|]; eapply agree_trans; [apply glider_4; auto|]; apply shifted_agree; auto; apply agree_sym, glider_is_g0; auto|].
    eapply agree_trans; [apply shifted_shifted; auto|]. replace (- Z.of_nat k + -1)%Z with (- Z.of_nat (S k))%Z by lia. intros i j _ _. reflexivity.
Qed.

(** Anywhere on the board. *)
Lemma glider_anywhere H W dy dx k : (5 <= H)%nat -> (5 <= W)%nat ->
  agree H W (life_n [3]%Z [2; 3]%Z H W (4 * k) (shifted H W dy dx (placed 8 8 get_glider))) (shifted H W (dy - Z.of_nat k) (dx - Z.of_nat k) (placed 8 8 get_glider)).
Proof.
  intros H5 W5. assert (H0 : (0 < H)%nat) by lia. assert (W0 : (0 < W)%nat) by lia.
  eapply agree_trans; [apply life_n_shift; assumption|]. eapply agree_trans; [apply shifted_agree; auto; apply glider_forever; auto|]. apply shifted_shifted; assumption.
Qed.
