(** Theorems about starting the processes of a search: C94. *)
From Coq Require Import List Arith Bool ZArith String Ascii Lia.
From Verif Require Import Base MText MMpi PMpi MFork SFork PFork.
Import ListNotations.
Open Scope string_scope.

(** ** C94 Starting a search *)

(** With at most one worker nothing is started: the process itself is the mantle, whatever MPI or
    the environment say. *)
Theorem C94_alone fuel wo exe argv env size rank : (wo argv <= 1)%Z ->
  start fuel wo exe argv env size rank = Mantle (wo argv) 0.
Proof. intros H. destruct fuel; cbn [start]; rewrite fork_serial by exact H; reflexivity. Qed.

(** With W >= 2 workers, outside MPI, exactly W processes are started, one level deep: one mantle
    and the arms 1 .. W-1, all agreeing on the number of workers and of processes, and all given
    the arguments of the first. *)
Theorem C94_launch fuel wo exe argv env size rank W : wo argv = W -> (2 <= W)%Z -> unset env "IN_MPI" ->
  exists env' cs, start (S fuel) wo exe argv env size rank = Launcher env' cs /\ Z.of_nat (List.length cs) = W /\
    nth_error cs 0 = Some (Mantle W W) /\
    (forall k, (1 <= Z.of_nat k < W)%Z -> nth_error cs k = Some (Arm W W (Z.of_nat k))) /\
    workers_in (start (S fuel) wo exe argv env size rank) = cs.
Proof.
  intros E H U. pose proof (start_outside fuel wo exe argv env size rank W (eq_sym E) H U) as S. exists (child_env env). eexists. split; [exact S|].
  assert (L : List.length (zrange 1 W) = Z.to_nat (W - 1)) by (unfold zrange; rewrite map_length, seq_length; reflexivity).
  split; [cbn [List.length]; rewrite map_length, L; lia|]. split; [reflexivity|]. split.
  - intros k K. destruct k as [|k]; [lia|]. cbn [nth_error]. unfold zrange. rewrite map_map, nth_error_map.
    rewrite (nth_error_nth' _ 0%nat) by (rewrite seq_length; lia). rewrite seq_nth by lia. cbn [option_map]. do 2 f_equal. lia.
  - rewrite S. cbn [workers_in flat_map List.app]. f_equal. clear. induction (zrange 1 W) as [|k t IH]; [reflexivity|]. cbn [map flat_map workers_in List.app]. rewrite IH. reflexivity.
Qed.

(** The environment of the started processes: three variables are set, the others are handed on. *)
Theorem C94_environment fuel wo exe argv env size rank env' cs : (2 <= wo argv)%Z -> unset env "IN_MPI" ->
  start (S fuel) wo exe argv env size rank = Launcher env' cs ->
  env' "IN_MPI" = Some "1" /\ env' "MKL_NUM_THREADS" = Some "1" /\ env' "OMP_NUM_THREAdS" = Some "1" /\
  forall name, name <> "IN_MPI" -> name <> "MKL_NUM_THREADS" -> name <> "OMP_NUM_THREAdS" -> env' name = env name.
Proof.
  intros H U S. rewrite (start_outside _ _ _ _ _ _ _ _ eq_refl H U) in S. injection S as <- _. split; [reflexivity|]. split; [reflexivity|]. split; [reflexivity|].
  intros n A B C. unfold child_env, setenv. rewrite (proj2 (String.eqb_neq _ _) A), (proj2 (String.eqb_neq _ _) C), (proj2 (String.eqb_neq _ _) B). reflexivity.
Qed.

(** The number of OpenMP threads is not among them, the name being misspelt: it stays what it was. *)
Theorem C94_threads_refuted : exists wo exe argv env env' cs, (2 <= wo argv)%Z /\ unset env "IN_MPI" /\
  start 1 wo exe argv env 1 0 = Launcher env' cs /\ env' "OMP_NUM_THREADS" = Some "16".
Proof.
  exists (fun _ => 4%Z), "python", ["evolve.py"; "-w"; "4"], (fun k => if String.eqb k "OMP_NUM_THREADS" then Some "16" else None).
  eexists. eexists. split; [lia|]. split; [reflexivity|]. split; [apply start_outside; [reflexivity|lia|reflexivity]|]. reflexivity.
Qed.

(** In an environment where IN_MPI is set, to anything at all, nothing is started: the number of
    the process decides. *)
Theorem C94_inside fuel wo exe argv env size rank v : (2 <= wo argv)%Z -> env "IN_MPI" = Some v ->
  start fuel wo exe argv env size rank = if Z.eqb rank 0 then Mantle (wo argv) size else Arm (wo argv) size rank.
Proof. exact (start_inside fuel wo exe argv env size rank v). Qed.

(** A search succeeds exactly when every process of it does, and then reports success once for each. *)
Theorem C94_success ok fuel wo exe argv env size rank : unset env "IN_MPI" ->
  succeeds ok (start (S fuel) wo exe argv env size rank) = true <->
  forall p, In p (workers_in (start (S fuel) wo exe argv env size rank)) -> ok p = true.
Proof.
  intros U. destruct (Z_le_gt_dec (wo argv) 1) as [H|H].
  - rewrite C94_alone by exact H. cbn [succeeds workers_in]. split; [intros E p [<-|[]]; exact E|intros E; apply E; left; reflexivity].
  - destruct (C94_launch fuel wo exe argv env size rank (wo argv) eq_refl ltac:(lia) U) as (e & cs & S & _ & _ & _ & F). rewrite F, S. cbn [succeeds].
    rewrite (start_outside _ _ _ argv _ _ _ (wo argv) eq_refl ltac:(lia) U) in S. injection S as _ <-. rewrite forallb_forall.
    split; intros G p I; specialize (G p I); destruct I as [<-|I]; try exact G; apply in_map_iff in I as (k & <- & _); exact G.
Qed.

Theorem C94_reports ok fuel wo exe argv env size rank : unset env "IN_MPI" -> succeeds ok (start (S fuel) wo exe argv env size rank) = true ->
  Z.of_nat (completions ok (start (S fuel) wo exe argv env size rank)) = Z.max 1 (wo argv).
Proof.
  intros U S. destruct (Z_le_gt_dec (wo argv) 1) as [H|H].
  - rewrite C94_alone in * by exact H. cbn [succeeds completions] in *. rewrite S. lia.
  - rewrite (start_outside _ _ _ argv _ _ _ (wo argv) eq_refl ltac:(lia) U) in *. set (W := wo argv) in *. cbn [succeeds forallb completions fold_right] in *.
    apply andb_prop in S as [S1 S2]. rewrite S1.
    assert (G : forall l, forallb (succeeds ok) (map (Arm W W) l) = true -> fold_right (fun c n => completions ok c + n)%nat 0%nat (map (Arm W W) l) = List.length l).
    { induction l as [|k t IH]; [reflexivity|]. cbn [map forallb fold_right succeeds completions List.length]. intros E. apply andb_prop in E as [E1 E2]. rewrite E1, IH by exact E2. reflexivity. }
    rewrite G by exact S2. unfold zrange. rewrite map_length, seq_length. lia.
Qed.

(** The generations of a search so started are divided as C48 and C49 have it. *)
Theorem C94_division P W l : (2 <= W)%nat -> batches P W = Ok l ->
  exists s, generation (Z.of_nat P) (Z.of_nat W) (Z.of_nat W) = Ok (Parallel s (map fst s)) /\
    map snd s = map (map Z.of_nat) l /\ covers (Z.of_nat P) s /\ addressed (Z.of_nat W) s.
Proof.
  intros HW B. destruct (generation_batches P W l HW B) as (s & G & F & Sn). exists s. rewrite <- F in G. split; [exact G|]. split; [exact Sn|]. split.
  - unfold covers. rewrite Sn, Nat2Z.id. destruct (batches_spec P W HW) as (l' & B' & _ & C & _). rewrite B in B'. injection B' as <-.
    rewrite <- C, concat_map. reflexivity.
  - intros d D. rewrite F in D. apply zrange_In in D. lia.
Qed.

(** Without workers the process evaluates every agent itself; with one it stops at the first
    generation; with fewer than none it evaluates nobody. *)
Theorem C94_none P : generation P 0 0 = Ok (Serial (zrange 0 P)).
Proof. reflexivity. Qed.

Theorem C94_one P : generation P 1 0 = Err ZeroDivisionError.
Proof. reflexivity. Qed.

Theorem C94_negative P W : (W < 0)%Z -> generation P W 0 = Ok (Parallel [] []).
Proof.
  intros H. unfold generation. replace (Z.eqb W 0) with false by (symmetry; apply Z.eqb_neq; lia).
  replace (Z.eqb (W - 1) 0) with false by (symmetry; apply Z.eqb_neq; lia). cbn [Z.eqb Z.sub Z.opp Z.add negb guard bind].
  replace (zrange 1 W) with (@nil Z) by (unfold zrange; replace (Z.to_nat (W - 1)) with 0%nat by lia; reflexivity). reflexivity.
Qed.

(** Inside MPI with another number of processes than was asked for no generation is completed: a
    message goes to a process that is not there, or the mantle waits for one it never gave
    work. *)
Theorem C94_sizes P W N : (2 <= W)%Z -> (2 <= N)%Z ->
  (exists s r, generation P W N = Ok (Parallel s r) /\ addressed N s /\ served s r) <-> W = N.
Proof.
  intros HW HN. rewrite generation_ok by assumption. split.
  - intros (s & r & G & A & S). injection G as <- <-. unfold addressed, served in A, S. rewrite send_fst in A, S.
    pose proof (A (W - 1)%Z ltac:(apply zrange_In; lia)) as A1. pose proof (S (N - 1)%Z ltac:(apply zrange_In; lia)) as S1. apply zrange_In in S1. lia.
  - intros <-. eexists. eexists. split; [reflexivity|]. unfold addressed, served. rewrite send_fst. split; [|auto]. intros d D. apply zrange_In in D. lia.
Qed.

(** A process alone in MPI stops at the first generation. *)
Theorem C94_single P W : (W <> 0)%Z -> generation P W 1 = Err ZeroDivisionError.
Proof. intros H. unfold generation. rewrite (proj2 (Z.eqb_neq _ _) H). destruct (Z.eqb (W - 1) 0); reflexivity. Qed.

(** So the setting IN_MPI, left over in an environment, keeps every parallel search from working. *)
Theorem C94_leftover fuel wo exe argv env v P : (2 <= wo argv)%Z -> env "IN_MPI" = Some v ->
  exists W N, start fuel wo exe argv env 1 0 = Mantle W N /\ generation P W N = Err ZeroDivisionError.
Proof. intros H E. exists (wo argv), 1%Z. split; [rewrite (C94_inside _ _ _ _ _ _ _ v H E); reflexivity|apply C94_single; lia]. Qed.

Example ex_launch : exists e, start 1 (fun _ => 3%Z) "python3" ["yuca/evolve.py"; "-w"; "3"] (fun _ => None) 1 0 =
  Launcher e [Mantle 3 3; Arm 3 3 1; Arm 3 3 2].
Proof. eexists. reflexivity. Qed.

Example ex_command : mpi_fork 12 "python3" ["yuca/evolve.py"; "-w"; "12"] (fun _ => None) 1 0 =
  Relaunch ["mpirun"; "-np"; "12"; "python3"; "-u"; "yuca/evolve.py"; "-w"; "12"] (child_env (fun _ => None)).
Proof. reflexivity. Qed.

Example ex_division : generation 8 4 4 = Ok (Parallel [(1, [0; 1; 2]); (2, [3; 4; 5]); (3, [6; 7])]%Z [1; 2; 3]%Z).
Proof. reflexivity. Qed.

Example ex_sizes : generation 8 3 6 = Ok (Parallel [(1, [0; 1; 2; 3; 4]); (2, [5; 6; 7; 8; 9])]%Z [1; 2; 3; 4; 5]%Z).
Proof. reflexivity. Qed.

Print Assumptions C94_alone.
Print Assumptions C94_launch.
Print Assumptions C94_environment.
Print Assumptions C94_threads_refuted.
Print Assumptions C94_inside.
Print Assumptions C94_success.
Print Assumptions C94_reports.
Print Assumptions C94_division.
Print Assumptions C94_none.
Print Assumptions C94_one.
Print Assumptions C94_negative.
Print Assumptions C94_sizes.
Print Assumptions C94_single.
Print Assumptions C94_leftover.
