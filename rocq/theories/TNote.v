(** C92: the notebook's helpers and its smooth Life. *)
From Coq Require Import Reals Lra Lia List Arith Bool ZArith.
From Verif Require Import Base Tensor MActivations MConfigs MNote SGrid SKern SLife SNote PTensor PKern PAct PNote PGlider TLife.
Import ListNotations.
Open Scope R_scope.

(** ** C92 *)
(** The notebook's smooth steps are get_smooth_steps_fn of activations.py and the package's
    SmoothIntervals without its rescaling. *)
Theorem C92_steps_agree intervals alpha x :
  nb_steps intervals alpha x = smooth_steps intervals alpha x /\ nb_steps intervals alpha x = act_fn (ASmoothIntervals intervals alpha false) x.
Proof. split; [reflexivity|apply nb_steps_same]. Qed.

(** get_kernel: whatever function it is given, the same kernel of positive weights that sum to
    one and that mirroring and transposition leave alone. *)
Theorem C92_kernel f f' mu s r k : nb_kernel f mu s r = Ok k ->
  nb_kernel f' mu s r = Ok k /\ rsum (2 * r + 1) (fun i => rsum (2 * r + 1) (fun j => k i j)) = 1 /\
  forall i j, (i < 2 * r + 1)%nat -> (j < 2 * r + 1)%nat -> 0 < k i j /\ k (2 * r - i)%nat j = k i j /\ k i (2 * r - j)%nat = k i j /\ k j i = k i j.
Proof.
  intros H. split; [exact H|]. split; [|intros i j; exact (nb_kernel_sym _ _ _ _ _ i j H)].
  apply nb_kernel_spec in H as (_ & _ & raw & -> & _ & P). apply normed_sum. lra.
Qed.

(** It is defined for every radius but 0 and every deviation but 0. *)
Theorem C92_kernel_total f mu s r : (exists k, nb_kernel f mu s r = Ok k) <-> (0 < r)%nat /\ s <> 0.
Proof.
  split; [intros [k H]; apply nb_kernel_spec in H as (A & B & _); split; assumption|]. intros [A B]. unfold nb_kernel.
  rewrite (proj2 (Nat.eqb_neq r 0)) by lia. cbn [negb guard bind]. rewrite (proj2 (nonzero_true s) B). cbn [guard bind]. eauto.
Qed.

Example ex_kernel : exists k, nb_kernel (fun _ => 0) (1 / 2) (3 / 20) 13 = Ok k.
Proof. apply C92_kernel_total. split; [lia|lra]. Qed.

(** Convolution with such a kernel is the sum over the torus: scipy flips the kernel, which is
    its own flip. *)
Theorem C92_conv f mu s r k H W x i j : nb_kernel f mu s r = Ok k -> nb_conv H W r k x i j = toroidal_sum r H W k x i j.
Proof.
  intros K. apply conv_toroidal. intros a b Ha Hb. destruct (nb_kernel_sym _ _ _ _ _ (2 * r - a) b K ltac:(lia) Hb) as (_ & _ & X & _).
  destruct (nb_kernel_sym _ _ _ _ _ a b K Ha Hb) as (_ & Y & _). congruence.
Qed.

(** The notebook's two kernels are exactly the eight neighbours, an eighth each, and the cell
    itself. *)
Theorem C92_stencil : exists km ke, kernel_moore = Ok km /\ kernel_eye = Ok ke /\
  forall i j, (i < 3)%nat -> (j < 3)%nat -> km i j = eighths i j /\ ke i j = delta i j.
Proof.
  destruct moore_stencil as (km & A & B). destruct eye_stencil as (ke & C & D). exists km, ke. repeat split; auto.
Qed.

Lemma stencil_of km ke : kernel_moore = Ok km -> kernel_eye = Ok ke ->
  (forall a b, (a < 3)%nat -> (b < 3)%nat -> km a b = eighths a b) /\ (forall a b, (a < 3)%nat -> (b < 3)%nat -> ke a b = delta a b).
Proof.
  intros A B. destruct moore_stencil as (km' & A' & KM). destruct eye_stencil as (ke' & B' & KE). rewrite A in A'. rewrite B in B'. apply Ok_inj in A', B'. subst. split; assumption.
Qed.

(** What a rule list gives at n neighbours out of eight. *)
Theorem C92_counts l n : rule_list l -> (n <= 8)%nat -> Rabs (nb_steps (nb_interval l) (125 / 10000) (INR n / 8) - weight l n) <= 1 / 30.
Proof. exact (steps_weight l n). Qed.

Lemma highlife : rule_list [3; 6]%Z /\ rule_list [2; 3]%Z.
Proof. split; (split; [repeat constructor; cbn [In]; intuition lia|repeat constructor; lia]). Qed.

Example ex_counts : 14 / 15 < smooth_steps (nb_interval [3; 6]%Z) (125 / 10000) (5 / 8) /\ smooth_steps (nb_interval [3; 6]%Z) (125 / 10000) (6 / 8) < 1 / 15.
Proof.
  destruct highlife as [RB _]. rewrite <- (proj1 (C92_steps_agree _ _ (5 / 8))), <- (proj1 (C92_steps_agree _ _ (6 / 8))). pose proof (C92_counts [3; 6]%Z 5 RB ltac:(lia)) as A. pose proof (C92_counts [3; 6]%Z 6 RB ltac:(lia)) as B.
  replace (INR 5 / 8) with (5 / 8) in A by (cbn [INR]; field). replace (INR 6 / 8) with (6 / 8) in B by (cbn [INR]; field).
  change (weight [3; 6]%Z 5) with 1 in A. change (weight [3; 6]%Z 6) with 0 in B. revert A B. unfold Rabs. repeat destruct (Rcase_abs _); lra.
Qed.

(** One step from a board of zeros and ones is one step of the rule as read. *)
Theorem C92_step km ke B S H W x g : kernel_moore = Ok km -> kernel_eye = Ok ke -> rule_list B -> rule_list S -> tracks 0 0 H W x g ->
  tracks (1 / 15) (1 / 15) H W (nb_update false B S H W km ke x) (life (read_birth B) (read_survival S) H W g).
Proof. intros A C. destruct (stencil_of km ke A C). apply step_life; assumption. Qed.

(** Rules with counts up to three are read as meant... *)
Theorem C92_low B S H W g i j : low_rule B -> low_rule S -> (live_neighbours H W g i j <= 8)%nat -> life (read_birth B) (read_survival S) H W g i j = life B S H W g i j.
Proof.
  intros LB LS L. unfold life, life_cell. destruct (read_low B _ LB L) as [E _]. destruct (read_low S _ LS L) as [_ F]. unfold in_rule in E, F. destruct (g i j); assumption.
Qed.

(** ... others are not: in B36/S23 a dead cell with six live neighbours stays dead, and one with
    five is born. *)
Definition six : board := fun i j => (Nat.eqb i 1 || Nat.eqb i 3) && (Nat.leb 1 j && Nat.leb j 3).
Definition five : board := fun i j => six i j && negb (Nat.eqb i 3 && Nat.eqb j 3).

Lemma exact_board H W g : tracks 0 0 H W (fun i j => b2R (g i j)) g.
Proof. intros i j _ _. destruct (g i j); cbn [b2R]; lra. Qed.

Theorem C92_rules_refuted : exists km ke B S (g g' : board),
  kernel_moore = Ok km /\ kernel_eye = Ok ke /\ rule_list B /\ rule_list S /\
  (life B S 5 5 g 2%nat 2%nat = true /\ nb_update false B S 5 5 km ke (fun i j => b2R (g i j)) 2%nat 2%nat <= 1 / 15) /\
  (life B S 5 5 g' 2%nat 2%nat = false /\ 14 / 15 <= nb_update false B S 5 5 km ke (fun i j => b2R (g' i j)) 2%nat 2%nat).
Proof.
  destruct C92_stencil as (km & ke & A & C & _). destruct highlife as [RB RS]. exists km, ke, [3; 6]%Z, [2; 3]%Z, six, five.
  pose proof (C92_step km ke _ _ 5 5 _ six A C RB RS (exact_board 5 5 six) 2%nat 2%nat ltac:(lia) ltac:(lia)) as T.
  pose proof (C92_step km ke _ _ 5 5 _ five A C RB RS (exact_board 5 5 five) 2%nat 2%nat ltac:(lia) ltac:(lia)) as T'.
  replace (life (read_birth [3; 6]%Z) (read_survival [2; 3]%Z) 5 5 six 2%nat 2%nat) with false in T by reflexivity.
  replace (life (read_birth [3; 6]%Z) (read_survival [2; 3]%Z) 5 5 five 2%nat 2%nat) with true in T' by reflexivity.
  split; [exact A|]. split; [exact C|]. split; [exact RB|]. split; [exact RS|]. split; (split; [reflexivity|lra]).
Qed.

(** Lenia's version, which does not look at the cell: for rules without 4 and 5, a cell is born
    at the counts in both rules as read and survives at those in either. *)
Theorem C92_lenia_step km ke B S H W x g : kernel_moore = Ok km -> kernel_eye = Ok ke -> rule_list B -> rule_list S ->
  (forall n, In n [4; 5]%Z -> ~ In n B /\ ~ In n S) -> tracks 0 0 H W x g ->
  tracks (1 / 15) (1 / 15) H W (nb_update true B S H W km ke x) (life (both_rules (read_birth B) (read_birth S)) (read_birth B ++ read_birth S) H W g).
Proof. intros A C. destruct (stencil_of km ke A C). apply step_lenia; assumption. Qed.

Example ex_lenia_step : both_rules (read_birth [3]%Z) (read_birth [2; 3]%Z) = [3]%Z /\ read_birth [3]%Z ++ read_birth [2; 3]%Z = [3; 2; 3]%Z /\
  both_rules (read_birth [3; 6]%Z) (read_birth [2; 3]%Z) = [3]%Z.
Proof. repeat split. Qed.

(** Glaberish's version of B3/S23 follows Life for all time, on every torus and from every
    board, dead cells to within 1/100000 and live ones to within 1/30; errors of that size are
    put right. *)
Theorem C92_life_forever km ke H W x g t : kernel_moore = Ok km -> kernel_eye = Ok ke -> tracks (1 / 100000) (1 / 30) H W x g ->
  tracks (1 / 100000) (1 / 30) H W (nb_run false [3]%Z [2; 3]%Z H W km ke t x) (life_n [3]%Z [2; 3]%Z H W t g).
Proof.
  intros A C T. destruct (stencil_of km ke A C) as [KM KE]. replace (1 / 100000) with dl in * by (unfold dl; lra). exact (conway_forever km ke H W KM KE x g t T).
Qed.

(** So the notebook's glider glides. *)
Theorem C92_glider km ke H W dy dx k : kernel_moore = Ok km -> kernel_eye = Ok ke -> (5 <= H)%nat -> (5 <= W)%nat ->
  tracks (1 / 100000) (1 / 30) H W
    (nb_run false [3]%Z [2; 3]%Z H W km ke (4 * k) (fun i j => b2R (shifted H W dy dx (placed 8 8 nb_glider) i j)))
    (shifted H W (dy - Z.of_nat k) (dx - Z.of_nat k) (placed 8 8 nb_glider)).
Proof.
  intros A C HH HW i j Hi Hj. change (placed 8 8 nb_glider) with (placed 8 8 get_glider). rewrite <- (C35_board H W dy dx k HH HW i j Hi Hj).
  refine (C92_life_forever km ke H W _ _ (4 * k) A C _ i j Hi Hj). intros a b Ha Hb. pose proof (exact_board H W (shifted H W dy dx (placed 8 8 get_glider)) a b Ha Hb) as X.
  cbv beta in *. destruct (shifted H W dy dx (placed 8 8 get_glider) a b); lra.
Qed.

(** Lenia's version does not: it takes the same single steps, but a dead cell beside a block
    keeps growing, and has passed 1/72 after at most 400 steps. *)
Theorem C92_lenia_forever_refuted : exists km ke x g t,
  kernel_moore = Ok km /\ kernel_eye = Ok ke /\ tracks 0 0 6 6 x g /\ (t <= 400)%nat /\
  life_n [3]%Z [2; 3]%Z 6 6 t g 1%nat 2%nat = false /\ 1 / 72 < nb_run true [3]%Z [2; 3]%Z 6 6 km ke t x 1%nat 2%nat.
Proof.
  destruct C92_stencil as (km & ke & A & C & _). destruct (stencil_of km ke A C) as [KM KE]. destruct (block_drifts km ke KM KE) as (t & L & D).
  exists km, ke, (block_grid 0), block_board, t. split; [exact A|]. split; [exact C|]. split; [exact block_exact|]. split; [exact L|].
  split; [|exact D]. rewrite block_still by lia. reflexivity.
Qed.

(** A hundred steps on the 8 x 8 torus. *)
Example ex_glider_runs : exists km ke, 29 / 30 <= nb_run false [3]%Z [2; 3]%Z 8 8 km ke (4 * 25) (fun i j => b2R (shifted 8 8 0 0 (placed 8 8 nb_glider) i j)) 0%nat 1%nat.
Proof.
  destruct C92_stencil as (km & ke & A & C & _). exists km, ke. pose proof (C92_glider km ke 8 8 0 0 25 A C ltac:(lia) ltac:(lia) 0%nat 1%nat ltac:(lia) ltac:(lia)) as T.
  replace (shifted 8 8 (0 - Z.of_nat 25) (0 - Z.of_nat 25) (placed 8 8 nb_glider) 0%nat 1%nat) with true in T by reflexivity. lra.
Qed.

Print Assumptions C92_steps_agree.
Print Assumptions C92_kernel.
Print Assumptions C92_kernel_total.
Print Assumptions C92_conv.
Print Assumptions C92_stencil.
Print Assumptions C92_counts.
Print Assumptions C92_step.
Print Assumptions C92_low.
Print Assumptions C92_rules_refuted.
Print Assumptions C92_lenia_step.
Print Assumptions C92_life_forever.
Print Assumptions C92_glider.
Print Assumptions C92_lenia_forever_refuted.
