(** The puffer on the plane and on the torus, as the pattern of the library (proofs). *)
From Coq Require Import Lia List Arith Bool ZArith NArith.
From Verif Require Import Base SGrid SLife PLife PGlider MPatterns SPuffer PPuffer PPufferX.
Import ListNotations.

(** Moved down [a] rows and right [b] columns. *)
Definition moved (a b : Z) (p : plane) : plane := fun z w => p (z - a)%Z (w - b)%Z.

Lemma on_plane_box h w q z x : on_plane h w q z x = true -> (0 <= z < Z.of_nat h /\ 0 <= x < Z.of_nat w)%Z.
Proof. unfold on_plane. intros T. repeat (apply andb_prop in T as [T ?]). rewrite Z.leb_le, Z.ltb_lt in *. lia. Qed.

Lemma box_eq (p q : plane) a b : (forall z w, p z w = true -> (0 <= z < Z.of_nat a /\ 0 <= w < Z.of_nat b)%Z) -> (forall z w, q z w = true -> (0 <= z < Z.of_nat a /\ 0 <= w < Z.of_nat b)%Z) ->
  forallb (fun i => forallb (fun j => Bool.eqb (p (Z.of_nat i) (Z.of_nat j)) (q (Z.of_nat i) (Z.of_nat j))) (seq 0 b)) (seq 0 a) = true -> same p q.
Proof.
  intros P Q F z w. assert (D : ((0 <= z < Z.of_nat a) /\ (0 <= w < Z.of_nat b) \/ ~ ((0 <= z < Z.of_nat a) /\ (0 <= w < Z.of_nat b)))%Z) by lia. destruct D as [[D1 D2]|D].
  - rewrite forallb_forall in F. specialize (F (Z.to_nat z) ltac:(apply in_seq; lia)). rewrite forallb_forall in F. specialize (F (Z.to_nat w) ltac:(apply in_seq; lia)). apply Bool.eqb_prop in F. rewrite !Z2Nat.id in F by lia. exact F.
  - destruct (p z w) eqn:E1; [apply P in E1; contradiction|]. destruct (q z w) eqn:E2; [apply Q in E2; contradiction|reflexivity].
Qed.

Lemma E0_puffer : same E0 (moved 3 5 (on_plane 8 8 get_puffer)).
Proof.
  apply (box_eq _ _ 14 26).
  - intros z w T. apply (E_box 0) in T; lia.
  - intros z w T. unfold moved in T. apply on_plane_box in T. lia.
  - vm_compute. reflexivity.
Qed.

Lemma D0_block : same D0 (moved 5 4 (on_plane 4 2 ones)).
Proof.
  apply (box_eq _ _ 14 26).
  - intros z w T. apply (D_box 0) in T. lia.
  - intros z w T. unfold moved in T. apply on_plane_box in T. lia.
  - vm_compute. reflexivity.
Qed.

Lemma life_moved B S a b p : same (plane_life B S (moved a b p)) (moved a b (plane_life B S p)).
Proof. intros z w. unfold plane_life, plane_live, moved. f_equal. f_equal. apply map_ext. intros o. f_equal. f_equal; lia. Qed.

Lemma run_moved n a b p : same (run_ n (moved a b p)) (moved a b (run_ n p)).
Proof.
  induction n as [|n IH]; [intros z w; reflexivity|]. change (run_ (S n) ?x) with (plane_life mB mS (run_ n x)). eapply same_trans; [apply life_same, IH|]. apply life_moved.
Qed.

Lemma puffer_run n z w : run_ n (on_plane 8 8 get_puffer) z w = run_ n E0 (z + 3)%Z (w + 5)%Z.
Proof. rewrite (run_same n _ _ E0_puffer), run_moved. unfold moved. f_equal; lia. Qed.

(** ** Rounds *)
Lemma puffer_rounds k z w : run_ (170 * k) (on_plane 8 8 get_puffer) z w = true <->
  (on_plane 8 8 get_puffer z (w - 13 * Z.of_nat k)%Z = true \/ exists m, (m < k)%nat /\ (2 <= z <= 5)%Z /\ (13 * Z.of_nat m - 1 <= w <= 13 * Z.of_nat m)%Z).
Proof.
  rewrite puffer_run, rounds. unfold after, union, right, trail. change (run_ 0 D0) with D0. rewrite orb_true_iff, or_comm, E0_puffer. unfold moved at 1.
  replace (z + 3 - 3)%Z with z by lia. replace (w + 5 - 13 * Z.of_nat k - 5)%Z with (w - 13 * Z.of_nat k)%Z by lia. apply or_iff_compat_l. rewrite existsb_exists.
  split; intros (m & Hm & T); exists m; (split; [try apply in_seq in Hm; try (apply in_seq); lia|]); rewrite D0_block in *; unfold moved in *.
  - apply on_plane_box in T. lia.
  - unfold on_plane, ones. rewrite !andb_true_iff, !Z.leb_le, !Z.ltb_lt. lia.
Qed.

(** ** Population *)
Lemma population_same p q n : same p q -> population p n -> population q n.
Proof. intros E (l & N & L & I). exists l. split; [exact N|]. split; [exact L|]. intros z w. rewrite <- E. apply I. Qed.

Lemma population_union p q n m : (forall z w, p z w = true -> q z w = true -> False) -> population p n -> population q m -> population (union p q) (n + m).
Proof.
  intros D (l & N & L & I) (l' & N' & L' & I'). exists (l ++ l'). split.
  - clear L L'. assert (D' : forall c, In c l -> In c l' -> False) by (intros [z w] A B; apply I in A; apply I' in B; eauto). clear D I I'.
    induction N as [|c l Hc N IH]; [exact N'|]. cbn [app]. constructor; [|apply IH; intros x Hx; apply D'; right; exact Hx]. rewrite in_app_iff. intros [A|A]; [contradiction|]. apply (D' c); [left; reflexivity|exact A].
  - split; [rewrite app_length; lia|]. intros z w. unfold union. rewrite orb_true_iff, in_app_iff, I, I'. reflexivity.
Qed.

Lemma population_right d p n : population p n -> population (right d p) n.
Proof.
  intros (l & N & L & I). exists (map (fun c => (fst c, (snd c + d)%Z)) l). split.
  - apply FinFun.Injective_map_NoDup; [|exact N]. intros [a b] [a' b']. cbn [fst snd]. intros E. injection E as -> E. f_equal. lia.
  - split; [rewrite map_length; exact L|]. intros z w. unfold right. rewrite I, in_map_iff. split.
    + intros Hin. exists (z, (w - d)%Z). split; [cbn [fst snd]; f_equal; lia|exact Hin].
    + intros ([a b] & E & Hin). cbn [fst snd] in E. injection E as <- <-. replace (b + d - d)%Z with b by lia. exact Hin.
Qed.

Lemma population_moved a b p n : population p n -> population (moved a b p) n.
Proof.
  intros (l & N & L & I). exists (map (fun c => ((fst c + a)%Z, (snd c + b)%Z)) l). split.
  - apply FinFun.Injective_map_NoDup; [|exact N]. intros [x y] [x' y']. cbn [fst snd]. intros E. injection E as E1 E2. f_equal; lia.
  - split; [rewrite map_length; exact L|]. intros z w. unfold moved. rewrite I, in_map_iff. split.
    + intros Hin. exists ((z - a)%Z, (w - b)%Z). split; [cbn [fst snd]; f_equal; lia|exact Hin].
    + intros ([x y] & E & Hin). cbn [fst snd] in E. injection E as <- <-. replace (x + a - a)%Z with x by lia. replace (y + b - b)%Z with y by lia. exact Hin.
Qed.

Lemma population_cells p l n : NoDup l -> length l = n -> same p (cells l) -> population p n.
Proof.
  intros N L E. exists l. split; [exact N|]. split; [exact L|]. intros z w. rewrite E. unfold cells. rewrite existsb_exists. split.
  - intros ([a b] & Hin & T). cbn [fst snd] in T. apply andb_prop in T as [T1 T2]. apply Z.eqb_eq in T1, T2. subst. exact Hin.
  - intros Hin. exists (z, w). split; [exact Hin|]. cbn [fst snd]. rewrite !Z.eqb_refl. reflexivity.
Qed.

Definition puffer_cells : list (Z * Z) := [(3, 1); (4, 1); (2, 2); (5, 2); (1, 3); (2, 3); (3, 3); (4, 3); (5, 3); (6, 3); (2, 4); (2, 5); (5, 4); (5, 5); (3, 6); (4, 6)]%Z.
Definition block_cells : list (Z * Z) := [(0, 0); (0, 1); (1, 0); (1, 1); (2, 0); (2, 1); (3, 0); (3, 1)]%Z.

Lemma cells_in l n m : forallb (fun c => (0 <=? fst c)%Z && (fst c <? Z.of_nat n)%Z && (0 <=? snd c)%Z && (snd c <? Z.of_nat m)%Z) l = true -> forall z w, cells l z w = true -> (0 <= z < Z.of_nat n /\ 0 <= w < Z.of_nat m)%Z.
Proof.
  intros F z w C. unfold cells in C. apply existsb_exists in C as ([a b] & Hin & E). rewrite forallb_forall in F. specialize (F _ Hin). cbn [fst snd] in *.
  apply andb_prop in E as [E1 E2]. apply Z.eqb_eq in E1, E2. repeat (apply andb_prop in F as [F ?]). rewrite Z.leb_le, Z.ltb_lt in *. subst. lia.
Qed.

Ltac nodup := repeat (constructor; [cbn [In]; intros X; repeat (destruct X as [X|X]; [discriminate X|]); exact X|]); constructor.

Lemma population_puffer : population (on_plane 8 8 get_puffer) 16.
Proof.
  apply (population_cells _ puffer_cells); [unfold puffer_cells; nodup|reflexivity|]. apply (box_eq _ _ 8 8); [intros z w; apply on_plane_box|apply (cells_in _ 8 8); reflexivity|vm_compute; reflexivity].
Qed.

Lemma population_block : population (on_plane 4 2 ones) 8.
Proof.
  apply (population_cells _ block_cells); [unfold block_cells; nodup|reflexivity|]. apply (box_eq _ _ 4 2); [intros z w; apply on_plane_box|apply (cells_in _ 4 2); reflexivity|vm_compute; reflexivity].
Qed.

Lemma population_E0 : population E0 16.
Proof. apply (population_same (moved 3 5 (on_plane 8 8 get_puffer))); [intros z w; symmetry; apply E0_puffer|apply population_moved, population_puffer]. Qed.

Lemma population_D0 : population D0 8.
Proof. apply (population_same (moved 5 4 (on_plane 4 2 ones))); [intros z w; symmetry; apply D0_block|apply population_moved, population_block]. Qed.

Lemma population_trail k : population (trail 0 k) (8 * k).
Proof.
  induction k as [|k IH]; [exists []; split; [constructor|]; split; [reflexivity|]; intros z w; split; [discriminate|intros []]|].
  apply (population_same (union (trail 0 k) (right (13 * Z.of_nat k) (run_ 0 D0)))); [intros z w; symmetry; apply trail_S|]. replace (8 * S k)%nat with (8 * k + 8)%nat by lia. apply population_union.
  - intros z w A B. apply trail_box in A. unfold right in B. apply D_box in B. lia.
  - exact IH.
  - apply population_right, population_D0.
Qed.

Lemma population_rounds k : population (run_ (170 * k) (on_plane 8 8 get_puffer)) (16 + 8 * k).
Proof.
  apply (population_same (moved (-3) (-5) (after k))).
  - intros z w. rewrite puffer_run, rounds. unfold moved. f_equal; lia.
  - apply population_moved. rewrite Nat.add_comm. apply population_union.
    + intros z w A B. apply trail_box in A. unfold right in B. apply narrow_e in B. lia.
    + apply population_trail.
    + apply population_right, population_E0.
Qed.

Lemma population_unique p n m : population p n -> population p m -> n = m.
Proof.
  intros (l & N & <- & I) (l' & N' & <- & I'). apply Nat.le_antisymm; apply NoDup_incl_length; auto; intros [z w] Hin; [apply I', I|apply I, I']; exact Hin.
Qed.

Lemma no_return n d a b : same (run_ n (on_plane 8 8 get_puffer)) (moved a b (run_ (d + n) (on_plane 8 8 get_puffer))) -> d = 0%nat.
Proof.
  intros E. set (P := on_plane 8 8 get_puffer) in *. assert (T : forall t x, population (run_ (t + n) P) x -> population (run_ (t + d + n) P) x).
  { intros t x Q. apply (population_same _ (moved a b (run_ (t + d + n) P))) in Q.
    - apply (population_moved (- a) (- b)) in Q. revert Q. apply population_same. intros z w. unfold moved. f_equal; lia.
    - rewrite run_add. eapply same_trans; [apply run_same, E|]. eapply same_trans; [apply run_moved|]. rewrite <- run_add. rewrite Nat.add_assoc. intros z w. reflexivity. }
  assert (J : forall j t x, population (run_ (t + n) P) x -> population (run_ (t + d * j + n) P) x).
  { induction j as [|j IH]; intros t x Q; [rewrite Nat.mul_0_r, Nat.add_0_r; exact Q|]. replace (t + d * S j + n)%nat with (t + d * j + d + n)%nat by lia. apply T, IH, Q. }
  pose proof (population_rounds n) as Q. replace (170 * n)%nat with (169 * n + n)%nat in Q by lia. apply (J 170%nat) in Q. replace (169 * n + d * 170 + n)%nat with (170 * (n + d))%nat in Q by lia.
  pose proof (population_unique _ _ _ Q (population_rounds (n + d))). lia.
Qed.

(** ** Mirror symmetry *)
Lemma life_mirror p c : same (plane_life mB mS (fun z w => p (c - z)%Z w)) (fun z w => plane_life mB mS p (c - z)%Z w).
Proof.
  intros z w. unfold plane_life, plane_live. f_equal. cbn [moore_offsets map fst snd]. replace (c - (z + -1))%Z with (c - z + 1)%Z by lia. replace (c - (z + 1))%Z with (c - z + -1)%Z by lia. replace (c - (z + 0))%Z with (c - z + 0)%Z by lia.
  cbn [list_sum fold_right]. lia.
Qed.

Lemma mirror_run p c n : same p (fun z w => p (c - z)%Z w) -> same (run_ n p) (fun z w => run_ n p (c - z)%Z w).
Proof.
  intros M. induction n as [|n IH]; [exact M|]. change (run_ (S n) p) with (plane_life mB mS (run_ n p)). intros z w. rewrite (life_same _ _ IH). apply life_mirror.
Qed.

Lemma puffer_mirror n z w : run_ n (on_plane 8 8 get_puffer) (7 - z)%Z w = run_ n (on_plane 8 8 get_puffer) z w.
Proof.
  symmetry. apply (mirror_run _ 7). apply (box_eq _ _ 8 8); [intros a b; apply on_plane_box|intros a b T; apply on_plane_box in T; lia|vm_compute; reflexivity].
Qed.

(** ** The pattern of the notebook *)
Definition q0 : list N := [0; 0; 0; 0; 0; 64; 192; 192; 64; 0; 0; 0; 0; 0]%N.

Lemma q_run : go 53 q0 = Some e0.
Proof. vm_compute. reflexivity. Qed.

Lemma q0_note : same (pl q0) (moved 5 6 (on_plane 4 4 note_puffer)).
Proof.
  apply (box_eq _ _ 14 26).
  - intros z w T. apply (good_box q0) in T; [|reflexivity]. change (Z.of_nat (length q0)) with 14%Z in T. lia.
  - intros z w T. unfold moved in T. apply on_plane_box in T. lia.
  - vm_compute. reflexivity.
Qed.

Lemma note_run : same (run_ 53 (on_plane 4 4 note_puffer)) (moved (-2) (-1) (on_plane 8 8 get_puffer)).
Proof.
  intros z w. replace (run_ 53 (on_plane 4 4 note_puffer) z w) with (moved 5 6 (run_ 53 (on_plane 4 4 note_puffer)) (z + 5)%Z (w + 6)%Z) by (unfold moved; f_equal; lia).
  rewrite <- run_moved, <- (run_same 53 _ _ q0_note). destruct (go_run _ _ _ q_run) as [A _]. rewrite A. change (pl e0) with E0. rewrite E0_puffer. unfold moved. f_equal; lia.
Qed.

Lemma note_rounds n : same (run_ (n + 53) (on_plane 4 4 note_puffer)) (moved (-2) (-1) (run_ n (on_plane 8 8 get_puffer))).
Proof. rewrite run_add. eapply same_trans; [apply run_same, note_run|apply run_moved]. Qed.

(** ** The torus *)
Definition inside (H W : nat) (p : plane) : Prop := forall z w, p z w = true -> (1 <= z <= Z.of_nat H - 2 /\ 1 <= w <= Z.of_nat W - 2)%Z.

Lemma wrap_in p H W z w : (0 < H)%nat -> (0 < W)%nat -> inside H W p -> (-1 <= z <= Z.of_nat H)%Z -> (-1 <= w <= Z.of_nat W)%Z ->
  p (Z.of_nat (zmod z H)) (Z.of_nat (zmod w W)) = p z w.
Proof.
  intros H5 W5 I Hz Hw. rewrite !zmod_mod by lia.
  assert (M : forall x n, (0 < n)%nat -> (-1 <= x <= Z.of_nat n)%Z -> (x mod Z.of_nat n = x \/ (x mod Z.of_nat n = Z.of_nat n - 1 /\ x = -1) \/ (x mod Z.of_nat n = 0 /\ x = Z.of_nat n))%Z).
  { intros x n Hn Hx. destruct (Z.eq_dec x (-1)) as [->|D1]; [right; left; split; auto; symmetry; apply (Z.mod_unique_pos _ _ (-1)); lia|].
    destruct (Z.eq_dec x (Z.of_nat n)) as [->|D2]; [right; right; split; auto; apply Z.mod_same; lia|]. left. apply Z.mod_small. lia. }
  destruct (M z H H5 Hz) as [->|[[-> ->]|[-> ->]]], (M w W W5 Hw) as [->|[[-> ->]|[-> ->]]]; try reflexivity;
  match goal with |- ?a = ?b => destruct a eqn:Ea; [apply I in Ea; lia|]; destruct b eqn:Eb; [apply I in Eb; lia|reflexivity] end.
Qed.

Lemma life_in B S p H W : (0 < H)%nat -> (0 < W)%nat -> inside H W p -> agree H W (life B S H W (on_torus p)) (on_torus (plane_life B S p)).
Proof.
  intros H5 W5 I i j Hi Hj. unfold life, on_torus, plane_life. f_equal. unfold live_neighbours, plane_live. f_equal.
  apply map_ext_in. intros [a b] Ho. f_equal. cbn [fst snd]. assert ((-1 <= a <= 1 /\ -1 <= b <= 1)%Z).
  { cbn [moore_offsets In] in Ho. repeat (destruct Ho as [Ho|Ho]; [injection Ho as <- <-; lia|]). contradiction. }
  apply wrap_in; auto; lia.
Qed.

Lemma life_n_in B S p H W n : (0 < H)%nat -> (0 < W)%nat -> (forall s, (s < n)%nat -> inside H W (plane_n B S s p)) -> agree H W (life_n B S H W n (on_torus p)) (on_torus (plane_n B S n p)).
Proof.
  intros H0 W0. induction n as [|n IH]; intros I; [intros i j _ _; reflexivity|]. cbn [life_n plane_n].
  eapply agree_trans; [apply life_agree; auto|]. apply life_in; auto.
Qed.

(** A pattern moved on the plane but still on the board is the pattern shifted on the torus. *)
Lemma torus_moved H W a b h w q : (0 <= a)%Z -> (0 <= b)%Z -> (a + Z.of_nat h <= Z.of_nat H)%Z -> (b + Z.of_nat w <= Z.of_nat W)%Z ->
  agree H W (on_torus (moved a b (on_plane h w q))) (shifted H W a b (placed h w q)).
Proof.
  intros Ha Hb Hh Hw i j Hi Hj. unfold on_torus, moved, shifted.
  assert (M : forall x c n m, (x < n)%nat -> (0 <= c)%Z -> (c + Z.of_nat m <= Z.of_nat n)%Z -> ((Z.of_nat x - c)%Z = Z.of_nat (zmod (Z.of_nat x - c) n) \/ (Z.of_nat x - c < 0)%Z /\ (m <= zmod (Z.of_nat x - c) n)%nat)).
  { intros x c n m Hx Hc Hm. destruct (Z_lt_dec (Z.of_nat x - c) 0) as [L|L].
    - destruct (Z_lt_dec (Z.of_nat x - c + Z.of_nat n) (Z.of_nat n)) as [L2|L2]; [|lia]. right. split; [exact L|].
      assert (E : ((Z.of_nat x - c) mod Z.of_nat n = Z.of_nat x - c + Z.of_nat n)%Z) by (symmetry; apply (Z.mod_unique_pos _ _ (-1)); lia). unfold zmod. rewrite E. lia.
    - left. unfold zmod. rewrite Z.mod_small by lia. lia. }
  assert (F1 : forall z x, (z < 0)%Z -> on_plane h w q z x = false) by (intros z x L; destruct (on_plane h w q z x) eqn:E; [apply on_plane_box in E; lia|reflexivity]).
  assert (F2 : forall z x, (x < 0)%Z -> on_plane h w q z x = false) by (intros z x L; destruct (on_plane h w q z x) eqn:E; [apply on_plane_box in E; lia|reflexivity]).
  destruct (M i a H h Hi Ha Hh) as [E1|[L1 G1]].
  - destruct (M j b W w Hj Hb Hw) as [E2|[L2 G2]].
    + set (x := zmod (Z.of_nat i - a) H) in *. set (y := zmod (Z.of_nat j - b) W) in *. rewrite E1, E2. clearbody x y. unfold on_plane, placed. rewrite !Nat2Z.id. rewrite !(proj2 (Z.leb_le 0 _)) by lia. cbn [andb].
      rewrite andb_true_r. destruct (Nat.ltb_spec x h), (Nat.ltb_spec y w), (Z.ltb_spec (Z.of_nat x) (Z.of_nat h)), (Z.ltb_spec (Z.of_nat y) (Z.of_nat w)); try lia; reflexivity.
    + rewrite F2 by exact L2. unfold placed. rewrite (proj2 (Nat.ltb_ge _ w) G2). rewrite andb_false_r. reflexivity.
  - rewrite F1 by exact L1. unfold placed. rewrite (proj2 (Nat.ltb_ge _ h) G1). reflexivity.
Qed.

Lemma torus_after H W k : (14 <= H)%nat -> (13 * k + 14 <= W)%nat -> agree H W (on_torus (after k)) (puffed H W 3 5 k).
Proof.
  intros H14 W14 i j Hi Hj. unfold on_torus, after, union, puffed, right, trail. change (run_ 0 D0) with D0. rewrite orb_comm. f_equal.
  - rewrite <- (torus_moved H W 3 (5 + 13 * Z.of_nat k) 8 8) by (auto; lia). unfold on_torus, moved. rewrite E0_puffer. unfold moved. f_equal. lia.
  - assert (L : forall l, (forall m, In m l -> (m < k)%nat) -> existsb (fun m => D0 (Z.of_nat i) (Z.of_nat j - 13 * Z.of_nat m)%Z) l = existsb (fun m => shifted H W (3 + 2) (5 + 13 * Z.of_nat m - 1) (placed 4 2 ones) i j) l).
    { induction l as [|m t IH]; intros I; [reflexivity|]. cbn [existsb]. rewrite IH by (intros; apply I; right; assumption). f_equal. assert (m < k)%nat by (apply I; left; reflexivity).
      rewrite <- (torus_moved H W (3 + 2) (5 + 13 * Z.of_nat m - 1) 4 2) by (auto; lia). unfold on_torus, moved. rewrite D0_block. unfold moved. f_equal. lia. }
    apply L. intros m Hm. apply in_seq in Hm. lia.
Qed.

Lemma shifted_puffed H W a b dy dx k : (0 < H)%nat -> (0 < W)%nat -> agree H W (shifted H W a b (puffed H W dy dx k)) (puffed H W (a + dy) (b + dx) k).
Proof.
  intros H0 W0 i j Hi Hj. unfold puffed. unfold shifted at 1. f_equal.
  - change (shifted H W a b (shifted H W dy (dx + 13 * Z.of_nat k) (placed 8 8 get_puffer)) i j = shifted H W (a + dy) (b + dx + 13 * Z.of_nat k) (placed 8 8 get_puffer) i j).
    rewrite shifted_shifted by assumption. f_equal; lia.
  - induction (seq 0 k) as [|m t IH]; [reflexivity|]. cbn [existsb]. rewrite IH. f_equal.
    change (shifted H W a b (shifted H W (dy + 2) (dx + 13 * Z.of_nat m - 1) (placed 4 2 ones)) i j = shifted H W (a + dy + 2) (b + dx + 13 * Z.of_nat m - 1) (placed 4 2 ones) i j).
    rewrite shifted_shifted by assumption. f_equal; lia.
Qed.

Lemma puffer_torus H W dy dx k : (14 <= H)%nat -> (13 * k + 14 <= W)%nat ->
  agree H W (life_n mB mS H W (170 * k) (shifted H W dy dx (placed 8 8 get_puffer))) (puffed H W dy dx k).
Proof.
  intros H14 W14. assert (H0 : (0 < H)%nat) by lia. assert (W0 : (0 < W)%nat) by lia.
  assert (S0 : agree H W (shifted H W dy dx (placed 8 8 get_puffer)) (shifted H W (dy - 3) (dx - 5) (on_torus E0))).
  { apply agree_sym. eapply agree_trans; [apply shifted_agree; auto; intros i j Hi Hj; unfold on_torus; rewrite E0_puffer; apply (torus_moved H W 3 5 8 8); auto; lia|].
    eapply agree_trans; [apply shifted_shifted; auto|]. replace (dy - 3 + 3)%Z with dy by lia. replace (dx - 5 + 5)%Z with dx by lia. intros i j _ _. reflexivity. }
  eapply agree_trans; [apply life_n_agree; eauto|]. eapply agree_trans; [apply life_n_shift; auto|].
  eapply agree_trans; [apply shifted_agree; auto; eapply agree_trans; [apply life_n_in; auto|]|].
  - intros s Hs z w T. apply (whole_box s k) in T; lia.
  - eapply agree_trans; [|apply (torus_after H W k); auto]. intros i j _ _. unfold on_torus. apply rounds.
  - eapply agree_trans; [apply shifted_puffed; auto|]. replace (dy - 3 + 3)%Z with dy by lia. replace (dx - 5 + 5)%Z with dx by lia. intros i j _ _. reflexivity.
Qed.
