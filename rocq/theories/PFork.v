(** Lemmas about starting the processes of a search. *)
From Coq Require Import List Arith Bool ZArith String Ascii Lia NArith.
From Verif Require Import Base MText SText PText PPredictX MMpi PMpi MFork SFork.
Import ListNotations.
Open Scope string_scope.

Lemma read_dec_digits s : every is_digit s -> forall acc, read_dec acc s = Some (reads acc s).
Proof.
  induction s as [|c t IH]; intros E acc; [reflexivity|]. cbn [every read_dec reads] in *. destruct E as [D E].
  unfold is_digit in D. replace (N.leb 48 (N_of_ascii c) && N.ltb (N_of_ascii c) 58)%bool with true.
  - rewrite IH by exact E. f_equal. f_equal. lia.
  - symmetry. apply andb_true_intro. split; [apply N.leb_le|apply N.ltb_lt]; lia.
Qed.

Lemma mpirun_command W exe argv : (0 < W)%Z ->
  mpirun (["mpirun"; "-np"; str_int W; exe] ++ ["-u"] ++ argv) = Some (Z.to_nat W, exe, argv).
Proof.
  intros H. unfold str_int. replace (Z.ltb W 0) with false by (symmetry; apply Z.ltb_ge; lia). cbn [List.app mpirun].
  rewrite !String.eqb_refl. cbn [andb]. pose proof (read_dec_digits _ (dec_digits (Z.to_N W)) 0%N) as R. fold (number_of (dec (Z.to_N W))) in R. rewrite dec_number in R.
  pose proof (dec_number (Z.to_N W)) as D. destruct (dec (Z.to_N W)) eqn:E; [cbn in D; lia|]. rewrite R. repeat f_equal. lia.
Qed.

Lemma fork_serial W exe argv env size rank : (W <= 1)%Z -> mpi_fork W exe argv env size rank = GoOn 0 0.
Proof. intros H. unfold mpi_fork. replace (Z.leb W 1) with true by (symmetry; apply Z.leb_le; lia). reflexivity. Qed.

Lemma fork_inside W exe argv env size rank v : (2 <= W)%Z -> env "IN_MPI" = Some v -> mpi_fork W exe argv env size rank = GoOn size rank.
Proof. intros H E. unfold mpi_fork, getenv. rewrite E. replace (Z.leb W 1) with false by (symmetry; apply Z.leb_gt; lia). reflexivity. Qed.

Definition child_env (env : environ) : environ :=
  setenv "IN_MPI" "1" (setenv "OMP_NUM_THREAdS" "1" (setenv "MKL_NUM_THREADS" "1" env)).

Lemma fork_outside W exe argv env size rank : (2 <= W)%Z -> env "IN_MPI" = None ->
  mpi_fork W exe argv env size rank = Relaunch (["mpirun"; "-np"; str_int W; exe] ++ ["-u"] ++ argv) (child_env env).
Proof. intros H E. unfold mpi_fork, getenv. rewrite E. replace (Z.leb W 1) with false by (symmetry; apply Z.leb_gt; lia). reflexivity. Qed.

Lemma start_inside fuel wo exe argv env size rank v : (2 <= wo argv)%Z -> env "IN_MPI" = Some v ->
  start fuel wo exe argv env size rank = if Z.eqb rank 0 then Mantle (wo argv) size else Arm (wo argv) size rank.
Proof. intros H E. destruct fuel; cbn [start]; rewrite (fork_inside _ _ _ _ _ _ v H E); reflexivity. Qed.

Lemma start_outside fuel wo exe argv env size rank W : W = wo argv -> (2 <= W)%Z -> env "IN_MPI" = None ->
  start (S fuel) wo exe argv env size rank = Launcher (child_env env) (Mantle W W :: map (Arm W W) (zrange 1 W)).
Proof.
  intros EW H E. cbn [start]. rewrite <- EW. rewrite fork_outside by assumption. rewrite mpirun_command by lia. f_equal.
  assert (G : forall k, start fuel wo exe argv (child_env env) (Z.of_nat (Z.to_nat W)) k = if Z.eqb k 0 then Mantle W W else Arm W W k).
  { intros k. rewrite EW, (start_inside fuel wo exe argv (child_env env) _ k "1") by (reflexivity || lia). rewrite Z2Nat.id by lia. reflexivity. }
  erewrite map_ext by (intros k; apply G). destruct (Z.to_nat W) as [|n] eqn:N; [lia|]. cbn [seq map]. f_equal.
  unfold zrange. rewrite map_map. replace (Z.to_nat (W - 1)) with n by lia. rewrite <- seq_shift, map_map. apply map_ext. intros k.
  replace (Z.eqb (Z.of_nat (S k)) 0) with false by (symmetry; apply Z.eqb_neq; lia). f_equal. lia.
Qed.

Lemma zrange_In a b x : In x (zrange a b) <-> (a <= x < b)%Z.
Proof.
  unfold zrange. rewrite in_map_iff. split.
  - intros (k & <- & K). apply in_seq in K. lia.
  - intros H. exists (Z.to_nat (x - a)). split; [lia|]. apply in_seq. lia.
Qed.

Lemma zrange_nat a n : zrange (Z.of_nat a) (Z.of_nat a + Z.of_nat n) = map Z.of_nat (seq a n).
Proof.
  unfold zrange. replace (Z.to_nat (Z.of_nat a + Z.of_nat n - Z.of_nat a)) with n by lia. revert a. induction n as [|n IH]; intros a; [reflexivity|].
  cbn [seq map]. f_equal; [lia|]. rewrite <- IH, <- seq_shift, map_map. apply map_ext. intros k. lia.
Qed.

Lemma send_fst P sub rem last ccs : map fst (send_loop P sub rem last ccs) = ccs.
Proof. revert rem last. induction ccs as [|c t IH]; intros; [reflexivity|]. cbn [send_loop map fst]. rewrite IH. reflexivity. Qed.

Lemma send_batches P sub ccs : forall rem last,
  map snd (send_loop (Z.of_nat P) (Z.of_nat sub) (Z.of_nat rem) (Z.of_nat last) ccs) = map (map Z.of_nat) (batch_loop P sub rem last (List.length ccs)).
Proof.
  induction ccs as [|c t IH]; intros rem last; [reflexivity|]. cbn [send_loop map snd List.length batch_loop].
  set (size := (Nat.min sub P + (if Nat.eqb rem 0 then 0 else 1))%nat).
  replace (Z.min (Z.of_nat sub) (Z.of_nat P) + (if Z.eqb (Z.of_nat rem) 0 then 0 else 1))%Z with (Z.of_nat size).
  2:{ unfold size. destruct (Nat.eqb_spec rem 0); destruct (Z.eqb_spec (Z.of_nat rem) 0); lia. }
  rewrite zrange_nat. f_equal.
  replace (if Z.eqb (Z.of_nat rem) 0 then Z.of_nat rem else (Z.of_nat rem - 1)%Z) with (Z.of_nat (rem - 1)).
  2:{ destruct (Z.eqb_spec (Z.of_nat rem) 0); lia. }
  rewrite <- Nat2Z.inj_add. apply IH.
Qed.

Lemma generation_ok P W N : (2 <= W)%Z -> (2 <= N)%Z ->
  generation P W N = Ok (Parallel (send_loop P (Z.quot P (W - 1)) (P mod (N - 1)) 0 (zrange 1 W)) (zrange 1 N)).
Proof.
  intros HW HN. unfold generation. replace (Z.eqb W 0) with false by (symmetry; apply Z.eqb_neq; lia).
  replace (Z.eqb (W - 1) 0) with false by (symmetry; apply Z.eqb_neq; lia). replace (Z.eqb (N - 1) 0) with false by (symmetry; apply Z.eqb_neq; lia). reflexivity.
Qed.

Lemma generation_batches P W l : (2 <= W)%nat -> batches P W = Ok l ->
  exists s, generation (Z.of_nat P) (Z.of_nat W) (Z.of_nat W) = Ok (Parallel s (zrange 1 (Z.of_nat W))) /\
    map fst s = zrange 1 (Z.of_nat W) /\ map snd s = map (map Z.of_nat) l.
Proof.
  intros HW B. eexists. split; [apply generation_ok; lia|]. split; [apply send_fst|].
  unfold batches in B. destruct (Nat.eqb_spec W 1); [lia|]. cbn [negb guard bind] in B. injection B as <-.
  replace (Z.of_nat W - 1)%Z with (Z.of_nat (W - 1)) by lia. rewrite Z.quot_div_nonneg by lia. rewrite <- Nat2Z.inj_div, <- Nat2Z.inj_mod.
  change 0%Z with (Z.of_nat 0) at 1. rewrite send_batches. repeat f_equal. unfold zrange. rewrite map_length, seq_length. lia.
Qed.
