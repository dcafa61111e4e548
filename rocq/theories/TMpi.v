(** Theorems about the parallel evaluation: C48 and C49. *)
From Coq Require Import Reals Lra Lia List Arith Bool ZArith.
From Verif Require Import Base MEvo MMpi SMpi PMpi.
Import ListNotations.

(** ** C48 Batches *)

(** The batches, one after the other, are the agents 0, 1, ... P-1; their sizes differ by at most
    one. *)
Theorem C48_partition P W : (2 <= W)%nat -> exists l, batches P W = Ok l /\ length l = (W - 1)%nat /\ concat l = seq 0 P /\
  forall i, (i < W - 1)%nat -> length (nth i l []) = (P / (W - 1) + if Nat.ltb i (P mod (W - 1)) then 1 else 0)%nat.
Proof. exact (batches_spec P W). Qed.

(** So the lists of results, one after the other, are the results of all agents in order. *)
Theorem C48_results P W A (f : nat -> A) l : (2 <= W)%nat -> batches P W = Ok l -> concat (map (map f) l) = map f (seq 0 P).
Proof. intros H E. destruct (batches_spec P W H) as (l' & E' & _ & C & _). rewrite E in E'. injection E' as <-. now rewrite <- concat_map, C. Qed.

Theorem C48_one P : batches P 1 = Err ZeroDivisionError.
Proof. reflexivity. Qed.

Example ex_batches : batches 8 4 = Ok [[0; 1; 2]; [3; 4; 5]; [6; 7]]%nat /\ batches 2 4 = Ok [[0]; [1]; []]%nat.
Proof. split; reflexivity. Qed.

(** ** C49 Every schedule *)

Section All.
Variables (W P cap : nat) (fit : vec -> Z -> R) (plan : list (list R) -> option (mat * Z)).

(** In every state that can be reached the gathered lists are those of one process. *)
Theorem C49_serial n c : (2 <= W)%nat -> steps W P cap fit plan n (net_start plan) c -> serial P fit plan (ne_history c).
Proof. intros H S. apply (steps_inv W H P cap fit plan n _ _ S). now apply inv_start. Qed.

(** No deadlock, however many messages a channel holds, even none. *)
Theorem C49_no_deadlock n c : (2 <= W)%nat -> steps W P cap fit plan n (net_start plan) c -> finished W c \/ exists c', step W P cap fit plan c c'.
Proof. intros H S. apply progress; [exact H|]. apply (steps_inv W H P cap fit plan n _ _ S). now apply inv_start. Qed.

(** If there are at most N evaluations, every run is over after (4N+2)W steps. *)
Theorem C49_terminates N n c : (2 <= W)%nat -> (forall h, serial P fit plan h -> (length h <= N)%nat) ->
  steps W P cap fit plan n (net_start plan) c -> (n <= (4 * N + 2) * W)%nat.
Proof.
  intros H HN S. pose proof (steps_mu W H P cap fit plan N HN n _ _ S (inv_start W H P fit plan)). pose proof (start_mu W H P fit plan N HN). lia.
Qed.

(** A run that cannot go on is finished: all processes have left, all messages are read, and all
    evaluations have been done. *)
Theorem C49_final n c : (2 <= W)%nat -> steps W P cap fit plan n (net_start plan) c -> (forall c', ~ step W P cap fit plan c c') <-> finished W c.
Proof.
  intros H S. assert (I : inv W P fit plan c) by (apply (steps_inv W H P cap fit plan n _ _ S); now apply inv_start). split.
  - intros N. destruct (progress W H P cap fit plan c I) as [F|(c' & Sc)]; [exact F|]. now apply N in Sc.
  - intros F c'. exact (finished_stuck W P cap fit plan c c' I F).
Qed.

Theorem C49_complete n c : (2 <= W)%nat -> steps W P cap fit plan n (net_start plan) c -> finished W c -> plan (ne_history c) = None.
Proof. intros H S [E _]. destruct (steps_inv W H P cap fit plan n _ _ S (inv_start W H P fit plan)) as (_ & G & _). rewrite E in G. exact G. Qed.
End All.

(** Two finished runs gathered the same lists: whatever the schedules, the numbers of processes
    and the channels. *)
Theorem C49_same W1 W2 P cap1 cap2 fit plan n1 n2 c1 c2 : (2 <= W1)%nat -> (2 <= W2)%nat ->
  steps W1 P cap1 fit plan n1 (net_start plan) c1 -> finished W1 c1 -> steps W2 P cap2 fit plan n2 (net_start plan) c2 -> finished W2 c2 -> ne_history c1 = ne_history c2.
Proof.
  intros H1 H2 S1 F1 S2 F2. exact (serial_end P fit plan _ _ (C49_serial W1 P cap1 fit plan n1 c1 H1 S1) (C49_serial W2 P cap2 fit plan n2 c2 H2 S2) (C49_complete W1 P cap1 fit plan n1 c1 H1 S1 F1) (C49_complete W2 P cap2 fit plan n2 c2 H2 S2 F2)).
Qed.

(** One seed of the evolution strategy: every parallel run is over after (4G+2)W steps, cannot
    deadlock, and ends in the state that one process computes if it draws the same; it does not
    (C114), since only evaluating in one process seeds the generators it draws from. *)
Theorem C49_evolution s x v0 W cap : (2 <= W)%nat -> (se_size s <= length (ev_pop v0))%nat ->
  forall n c, steps W (se_size s) cap (se_fit s) (plan_of s x v0) n (net_start (plan_of s x v0)) c ->
  (n <= (4 * se_gens s + 2) * W)%nat /\
  (finished W c \/ exists c', step W (se_size s) cap (se_fit s) (plan_of s x v0) c c') /\
  (finished W c -> match replay s x (se_gens s) 0 v0 (ne_history c) with
                   | Ok (v, None) => generations s x (se_gens s) 0 v0 = Ok v
                   | Ok (_, Some _) => False
                   | Err e => generations s x (se_gens s) 0 v0 = Err e
                   end).
Proof.
  intros H L n c S. assert (HN : forall h, serial (se_size s) (se_fit s) (plan_of s x v0) h -> (length h <= se_gens s)%nat).
  { intros h Hh. pose proof (replay_inv s x v0 L h Hh) as R. destruct (replay s x (se_gens s) 0 v0 h) as [[v [g|]]|e]; [destruct R as (-> & R & _); lia|tauto|tauto]. }
  split; [eapply C49_terminates; eassumption|]. split; [eapply C49_no_deadlock; eassumption|].
  intros F. pose proof (C49_serial _ _ _ _ _ n c H S) as Sr. pose proof (C49_complete _ _ _ _ _ n c H S F) as Pl. pose proof (replay_inv s x v0 L _ Sr) as R.
  unfold plan_of in Pl. destruct (replay s x (se_gens s) 0 v0 (ne_history c)) as [[v [g|]]|e]; [discriminate|tauto|tauto].
Qed.

(** A plan of one evaluation finishes, even with channels that hold nothing. *)
Example ex_net : exists n c, let plan := fun h : list (list R) => match h with [] => Some ([[1]; [2]; [3]]%R, 13%Z) | _ => None end in
  let fit := fun (p : vec) (_ : Z) => nth 0 p 0%R in
  steps 3 3 0 fit plan n (net_start plan) c /\ finished 3 c /\ ne_history c = [[1; 2; 3]%R].
Proof.
  cbv zeta. set (plan := fun h : list (list R) => match h with [] => Some ([[1]; [2]; [3]]%R, 13%Z) | _ => None end). set (fit := fun (p : vec) (_ : Z) => nth 0 p 0%R).
  assert (X : exists n c, steps 3 3 0 fit plan n (net_start plan) c /\ finished 3 c).
  { assert (HN : forall h, serial 3 fit plan h -> (length h <= 1)%nat).
    { intros h Hh. destruct Hh as [|h p s Hh Pl]; [cbn; lia|]. destruct h; [cbn; lia|discriminate]. }
    assert (Y : forall m n c, steps 3 3 0 fit plan n (net_start plan) c -> (18 <= n + m)%nat -> exists n c, steps 3 3 0 fit plan n (net_start plan) c /\ finished 3 c).
    { induction m as [|m IH]; intros n c S Hm.
      - destruct (C49_no_deadlock 3 3 0 fit plan n c ltac:(lia) S) as [F|(c' & Sc)]; [eauto|]. pose proof (C49_terminates 3 3 0 fit plan 1 _ c' ltac:(lia) HN (steps_S _ _ _ _ _ _ _ _ _ S Sc)). lia.
      - destruct (C49_no_deadlock 3 3 0 fit plan n c ltac:(lia) S) as [F|(c' & Sc)]; [eauto|]. apply (IH (Datatypes.S n) c'); [econstructor; eassumption|lia]. }
    exact (Y 18%nat 0%nat _ (steps_O _ _ _ _ _ _) ltac:(lia)). }
  destruct X as (n & c & S & F). exists n, c. split; [exact S|]. split; [exact F|].
  pose proof (C49_serial 3 3 0 fit plan n c ltac:(lia) S) as Sr. pose proof (C49_complete 3 3 0 fit plan n c ltac:(lia) S F) as Pl.
  refine (serial_end 3 fit plan _ [[1; 2; 3]%R] Sr _ Pl eq_refl).
  exact (serial_snoc 3 fit plan [] _ _ (serial_nil 3 fit plan) eq_refl).
Qed.

Print Assumptions C48_partition.
Print Assumptions C48_results.
Print Assumptions C48_one.
Print Assumptions C49_serial.
Print Assumptions C49_no_deadlock.
Print Assumptions C49_terminates.
Print Assumptions C49_final.
Print Assumptions C49_complete.
Print Assumptions C49_same.
Print Assumptions C49_evolution.
