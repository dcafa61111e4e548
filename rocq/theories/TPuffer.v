(** Theorems about the puffer pattern: C97. *)
From Coq Require Import Reals Lra Lia List Arith Bool ZArith String.
From Verif Require Import Base PyDict Tensor MActivations MKernels MCommon MCca MConfig MConfigs MPatterns SGrid SCca SKern SConfig SLife SPuffer PTensor PDyn PAct PKern PConfigX PConfigY PConfigW PLife PGlider PPuffer PPufferX PPufferY TLife.
Import ListNotations.
Open Scope R_scope.

(** ** C97 The puffer *)

(** On the plane, under B368/S245: after 170 k steps the puffer is 13 k columns further right,
    and what else is alive are the k blocks it left. *)
Theorem C97_rounds k z w : plane_n [3; 6; 8]%Z [2; 4; 5]%Z (170 * k) (on_plane 8 8 get_puffer) z w = true <->
  (on_plane 8 8 get_puffer z (w - 13 * Z.of_nat k)%Z = true \/ exists m, (m < k)%nat /\ (2 <= z <= 5)%Z /\ (13 * Z.of_nat m - 1 <= w <= 13 * Z.of_nat m)%Z).
Proof. exact (puffer_rounds k z w). Qed.

(** Exactly 8 more cells are alive per round ... *)
Theorem C97_population k n : population (plane_n [3; 6; 8]%Z [2; 4; 5]%Z (170 * k) (on_plane 8 8 get_puffer)) n <-> n = (16 + 8 * k)%nat.
Proof. split; [intros P; exact (population_unique _ _ _ P (population_rounds k))|intros ->; exact (population_rounds k)]. Qed.

(** ... so the pattern outgrows every number of cells ... *)
Theorem C97_unbounded N : exists n m, (N < m)%nat /\ population (plane_n [3; 6; 8]%Z [2; 4; 5]%Z n (on_plane 8 8 get_puffer)) m.
Proof. exists (170 * N)%nat, (16 + 8 * N)%nat. split; [lia|]. exact (population_rounds N). Qed.

(** ... and at no two times looks the same, not even elsewhere on the plane. *)
Theorem C97_never_again n n' a b : n <> n' ->
  ~ forall z w, plane_n [3; 6; 8]%Z [2; 4; 5]%Z n (on_plane 8 8 get_puffer) z w = plane_n [3; 6; 8]%Z [2; 4; 5]%Z n' (on_plane 8 8 get_puffer) (z - a)%Z (w - b)%Z.
Proof.
  intros D E. destruct (Nat.lt_ge_cases n n') as [L|L].
  - replace n' with (n' - n + n)%nat in E by lia. apply no_return in E. lia.
  - assert (E' : same (run_ n' (on_plane 8 8 get_puffer)) (moved (- a) (- b) (run_ (n - n' + n') (on_plane 8 8 get_puffer)))).
    { replace (n - n' + n')%nat with n by lia. intros z w. unfold moved. etransitivity; [|symmetry; apply E]. unfold run_. f_equal; lia. }
    apply no_return in E'. lia.
Qed.

(** At every single step: nothing more than two rows above or below the pattern, nothing more
    than four columns behind it, nothing further ahead than a round takes it; and the two halves
    mirror each other. *)
Theorem C97_track n k z w : (n <= 170 * k)%nat -> plane_n [3; 6; 8]%Z [2; 4; 5]%Z n (on_plane 8 8 get_puffer) z w = true -> (-2 <= z <= 9 /\ -4 <= w <= 13 * Z.of_nat k + 7)%Z.
Proof. intros L T. change (run_ n (on_plane 8 8 get_puffer) z w = true) in T. rewrite puffer_run in T. apply (whole_box n k) in T; [lia|exact L]. Qed.

Theorem C97_mirror n z w : plane_n [3; 6; 8]%Z [2; 4; 5]%Z n (on_plane 8 8 get_puffer) (7 - z)%Z w = plane_n [3; 6; 8]%Z [2; 4; 5]%Z n (on_plane 8 8 get_puffer) z w.
Proof. exact (puffer_mirror n z w). Qed.

(** On a board it goes on as long as there is room. *)
Theorem C97_board H W dy dx k : (14 <= H)%nat -> (13 * k + 14 <= W)%nat -> forall i j, (i < H)%nat -> (j < W)%nat ->
  life_n [3; 6; 8]%Z [2; 4; 5]%Z H W (170 * k) (shifted H W dy dx (placed 8 8 get_puffer)) i j = puffed H W dy dx k i j.
Proof. exact (puffer_torus H W dy dx k). Qed.

(** The pattern of the notebooks under the same name is the same puffer 53 steps earlier. *)
Theorem C97_notebook n z w : plane_n [3; 6; 8]%Z [2; 4; 5]%Z (n + 53) (on_plane 4 4 note_puffer) z w = plane_n [3; 6; 8]%Z [2; 4; 5]%Z n (on_plane 8 8 get_puffer) (z + 2)%Z (w + 1)%Z.
Proof. etransitivity; [apply (note_rounds n)|]. unfold moved, run_. f_equal; lia. Qed.

Example ex_morley : rule_list [3; 6; 8]%Z /\ rule_list [2; 4; 5]%Z /\ ~ sub_rule [3; 6; 8]%Z [2; 4; 5]%Z.
Proof.
  split; [split; [repeat constructor; cbn; intros E; repeat (destruct E as [E|E]; try discriminate); contradiction|repeat constructor; lia]|].
  split; [split; [repeat constructor; cbn; intros E; repeat (destruct E as [E|E]; try discriminate); contradiction|repeat constructor; lia]|].
  intros S. specialize (S 3%Z (or_introl eq_refl)). cbn in S. repeat (destruct S as [S|S]; [discriminate|]). exact S.
Qed.

(** The automaton with the configuration for the rule: nine rounds from the exact pattern,
    each step adding at most 2*10^-6. *)
Theorem C97_run fuel ev rng o h o' h' H W dy dx k : obj_inv o -> ext (o_core o) = 1%nat -> int_ (o_core o) = 1%nat -> pm (o_core o) = Circular ->
  load_value fuel ev rng o (get_life_like_config 1 [3; 6; 8]%Z [2; 4; 5]%Z) h = Ok (o', h') -> (14 <= H)%nat -> (13 * k + 14 <= W)%nat -> (k <= 9)%nat ->
  exists u', iter_res (cca_forward (o_core o')) (170 * k) (grid_of H W (shifted H W dy dx (placed 8 8 get_puffer))) = Ok u' /\
    near (INR (170 * k) * (2 / 1000000)) u' (fun _ => puffed H W dy dx k).
Proof.
  intros I E1 E2 E3 HL H14 W14 K. destruct ex_morley as (R1 & R2 & _). set (g := shifted H W dy dx (placed 8 8 get_puffer)). destruct (ex_grid_of H W g) as (G1 & G2 & G3).
  assert (HK : INR (170 * k) * (2 / 1000000) <= 1 / 320).
  { apply le_INR in K. rewrite mult_INR. replace (INR 170) with 170 by (rewrite INR_IZR_INZ; reflexivity). replace (INR 9) with 9 in K by (rewrite INR_IZR_INZ; reflexivity). lra. }
  destruct (C34_run fuel ev rng o h [3; 6; 8]%Z [2; 4; 5]%Z o' h' (grid_of H W g) (fun _ => g) (170 * k) I E1 E2 E3 HL R1 R2 G1 eq_refl) as (u' & Hu & _ & Sh & _ & Hn); auto.
  { change (tH (grid_of H W g)) with H. lia. } { change (tW (grid_of H W g)) with W. lia. }
  exists u'. split; [exact Hu|]. apply shape_inv in Sh as (S1 & S2 & S3 & S4). change (tH (grid_of H W g)) with H in *. change (tW (grid_of H W g)) with W in *.
  intros b i j Hb Hi Hj. rewrite <- (C97_board H W dy dx k H14 W14 i j) by congruence. apply (Hn b i j); assumption.
Qed.

(** From a pattern off by [e], with every step off by up to [d]. *)
Theorem C97_rough fuel ev rng o h o' h' us d H W dy dx e k : obj_inv o -> ext (o_core o) = 1%nat -> int_ (o_core o) = 1%nat -> pm (o_core o) = Circular ->
  load_value fuel ev rng o (get_life_like_config 1 [3; 6; 8]%Z [2; 4; 5]%Z) h = Ok (o', h') -> (14 <= H)%nat -> (13 * k + 14 <= W)%nat ->
  rough_run (cca_forward (o_core o')) d us -> 0 <= d -> shape (us 0%nat) = (1, 1, H, W)%nat -> 0 <= e -> near e (us 0%nat) (fun _ => shifted H W dy dx (placed 8 8 get_puffer)) ->
  e + INR (170 * k) * (2 / 1000000 + d) <= 1 / 320 ->
  near (e + INR (170 * k) * (2 / 1000000 + d)) (us (170 * k)%nat) (fun _ => puffed H W dy dx k).
Proof.
  intros I E1 E2 E3 HL H14 W14 RR Hd Sh He Hn K. destruct ex_morley as (R1 & R2 & _). pose proof (RR (170 * k)%nat) as (_ & Sk & _). rewrite Sh in Sk. apply shape_inv in Sk as (S1 & S2 & S3 & S4). apply shape_inv in Sh as (T1 & T2 & T3 & T4).
  assert (L := C34_linear fuel ev rng o h [3; 6; 8]%Z [2; 4; 5]%Z o' h' us d (fun _ => shifted H W dy dx (placed 8 8 get_puffer)) e I E1 E2 E3 HL R1 R2 RR Hd T2 ltac:(lia) ltac:(lia) Hn He (170 * k)%nat K).
  rewrite T3, T4 in L. intros b i j Hb Hi Hj. rewrite <- (C97_board H W dy dx k H14 W14 i j) by congruence. apply (L b i j); assumption.
Qed.

(** The pattern, and its first step. *)
Example ex_puffer : map (fun i => map (get_puffer i) (seq 0 8)) (seq 0 8) =
  let o := false in let x := true in
  [[o; o; o; o; o; o; o; o];
   [o; o; o; x; o; o; o; o];
   [o; o; x; x; x; x; o; o];
   [o; x; o; x; o; o; x; o];
   [o; x; o; x; o; o; x; o];
   [o; o; x; x; x; x; o; o];
   [o; o; o; x; o; o; o; o];
   [o; o; o; o; o; o; o; o]].
Proof. reflexivity. Qed.

(** The board of the theorems with one block left: two cells of the block, two of the puffer. *)
Example ex_puffed : puffed 14 27 3 5 1 5%nat 4%nat = true /\ puffed 14 27 3 5 1 8%nat 5%nat = true /\ puffed 14 27 3 5 1 6%nat 19%nat = true /\ puffed 14 27 3 5 1 4%nat 21%nat = true /\ puffed 14 27 3 5 1 4%nat 20%nat = false.
Proof. repeat split; reflexivity. Qed.

Print Assumptions C97_rounds.
Print Assumptions C97_population.
Print Assumptions C97_unbounded.
Print Assumptions C97_never_again.
Print Assumptions C97_track.
Print Assumptions C97_mirror.
Print Assumptions C97_board.
Print Assumptions C97_notebook.
Print Assumptions C97_run.
Print Assumptions C97_rough.
