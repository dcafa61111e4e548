(** Proofs about the parallel evaluation. *)
From Coq Require Import Reals Lia List Arith Bool ZArith.
From Verif Require Import Base MEvo MMpi SMpi.
Import ListNotations.

(** ** Batches *)
Lemma batch_loop_spec P sub : (sub <= P)%nat -> forall n rem last, (rem <= n)%nat ->
  concat (batch_loop P sub rem last n) = seq last (n * sub + rem) /\ length (batch_loop P sub rem last n) = n /\
  forall i, (i < n)%nat -> length (nth i (batch_loop P sub rem last n) []) = (sub + if Nat.ltb i rem then 1 else 0)%nat.
Proof.
  intros Hs. induction n as [|n IH]; intros rem last Hr.
  - cbn. replace rem with 0%nat by lia. repeat split. lia.
  - cbn [batch_loop concat length]. rewrite Nat.min_l by exact Hs. destruct (Nat.eqb_spec rem 0) as [->|Hn].
    + destruct (IH (0 - 1)%nat (last + (sub + 0))%nat ltac:(lia)) as (C & L & B). rewrite C, <- seq_app. split; [f_equal; lia|]. split; [now rewrite L|].
      intros i Hi. destruct i as [|i]; cbn [nth]; [rewrite seq_length; destruct (Nat.ltb_spec 0 0); lia|]. rewrite B by lia. reflexivity.
    + destruct (IH (rem - 1)%nat (last + (sub + 1))%nat ltac:(lia)) as (C & L & B). rewrite C, <- seq_app. split; [f_equal; lia|]. split; [now rewrite L|].
      intros i Hi. destruct i as [|i]; cbn [nth]; [rewrite seq_length; destruct (Nat.ltb_spec 0 rem); lia|]. rewrite B by lia.
      destruct (Nat.ltb_spec i (rem - 1)), (Nat.ltb_spec (S i) rem); lia.
Qed.

Lemma batches_spec P W : (2 <= W)%nat -> exists l, batches P W = Ok l /\ length l = (W - 1)%nat /\ concat l = seq 0 P /\
  forall i, (i < W - 1)%nat -> length (nth i l []) = (P / (W - 1) + if Nat.ltb i (P mod (W - 1)) then 1 else 0)%nat.
Proof.
  intros H. unfold batches. destruct (Nat.eqb_spec W 1); [lia|]. cbn [negb guard bind]. eexists. split; [reflexivity|].
  assert (Q : (P / (W - 1) <= P)%nat) by (apply Nat.div_le_upper_bound; [lia|]; nia).
  pose proof (Nat.mod_upper_bound P (W - 1) ltac:(lia)) as M. pose proof (Nat.div_mod P (W - 1) ltac:(lia)) as D.
  destruct (batch_loop_spec P (P / (W - 1)) Q (W - 1) (P mod (W - 1)) 0 ltac:(lia)) as (C & L & B). split; [exact L|]. split; [rewrite C; f_equal; lia|exact B].
Qed.

(** ** The network *)
Section Net.
Variable W : nat.
Hypothesis HW : (2 <= W)%nat.
Variable P : nat.
Variable cap : nat.
Variable fit : vec -> Z -> R.
Variable plan : list (list R) -> option (mat * Z).
Notation batch := (batch W P).
Notation arm_result := (arm_result fit).
Notation step := (step W P cap fit plan).
Notation steps := (steps W P cap fit plan).
Notation serial := (serial P fit plan).
Notation enter := (enter plan).

Definition result (p : mat) (s : Z) (k : nat) : list R := arm_result p (batch k) s.

Lemma results_serial p s : concat (map (fun i => result p s (S i)) (seq 0 (W - 1))) = serial_fitness P fit p s.
Proof.
  destruct (batches_spec P W HW) as (l & Hl & L & C & _). unfold batches in Hl. destruct (Nat.eqb_spec W 1); [lia|]. cbn [negb guard bind] in Hl. injection Hl as Hl.
  unfold result, MMpi.arm_result, MMpi.batch. rewrite Hl. unfold serial_fitness. rewrite <- C, concat_map. f_equal.
  apply nth_ext with (d := []) (d' := []).
  - now rewrite !map_length, seq_length, L.
  - intros i Hi. rewrite map_length, seq_length in Hi.
    set (h := fun i : nat => map (fun i0 : nat => fit (nth i0 p []) s) (nth (S i - 1) l [])).
    rewrite (nth_indep (map h (seq 0 (W - 1))) [] (h 0%nat)) by (rewrite map_length, seq_length; exact Hi). rewrite (map_nth h), seq_nth by exact Hi.
    unfold h. cbn [Nat.add]. replace (S i - 1)%nat with i by lia.
    set (g := map (fun i0 : nat => fit (nth i0 p []) s)). change (@nil R) with (g []). now rewrite (map_nth g).
Qed.

(** The status each arm must have, given the phase of the mantle. *)
Inductive status : Type := SIdle | SBusy (p : mat) (s : Z) | SLeave.

Definition status_of (ph : phase) (h : list (list R)) (j : nat) : status :=
  match ph with
  | Sending k p s => if Nat.ltb j k then SBusy p s else SIdle
  | Receiving k _ => match plan h with Some (p, s) => if Nat.ltb j k then SIdle else SBusy p s | None => SIdle end
  | Ending k => if Nat.ltb j k then SLeave else SIdle
  | Ended => SLeave
  end.

Definition meets (st : status) (j : nat) (x : arm_state) (d : list msg) (u : list (list R)) : Prop :=
  match st with
  | SIdle => x = Waiting /\ d = [] /\ u = []
  | SBusy p s => (x = Waiting /\ d = [Work p (batch j) s] /\ u = []) \/ (x = Working p (batch j) s /\ d = [] /\ u = []) \/ (x = Waiting /\ d = [] /\ u = [result p s j])
  | SLeave => (x = Waiting /\ d = [Stop] /\ u = []) \/ (x = Left /\ d = [] /\ u = [])
  end.

Definition good (ph : phase) (h : list (list R)) : Prop :=
  match ph with
  | Sending k p s => (1 <= k < W)%nat /\ plan h = Some (p, s)
  | Receiving k got => (1 <= k < W)%nat /\ exists p s, plan h = Some (p, s) /\ got = concat (map (fun i => result p s (S i)) (seq 0 (k - 1)))
  | Ending k => (1 <= k < W)%nat /\ plan h = None
  | Ended => plan h = None
  end.

Definition inv (c : net) : Prop :=
  serial (ne_history c) /\ good (ne_phase c) (ne_history c) /\
  forall j, (1 <= j < W)%nat -> meets (status_of (ne_phase c) (ne_history c) j) j (ne_arm c j) (ne_down c j) (ne_up c j).

Lemma put_same A k (x : A) f : put k x f k = x.
Proof. unfold put. now rewrite Nat.eqb_refl. Qed.
Lemma put_other A k (x : A) f j : j <> k -> put k x f j = f j.
Proof. intros H. unfold put. destruct (Nat.eqb_spec j k); [congruence|reflexivity]. Qed.

Lemma inv_start : inv (net_start plan).
Proof.
  unfold inv, net_start, MMpi.enter. cbn [ne_history ne_phase ne_arm ne_down ne_up]. split; [constructor|].
  destruct (plan []) as [[p s]|] eqn:E; cbn [good status_of]; (split; [split; [lia|exact E]|]); intros j Hj; destruct (Nat.ltb_spec j 1); try lia; repeat split.
Qed.

(** After the last receive all arms are idle, and the gathered list is the serial one. *)
Lemma enter_inv h d u a : serial h -> (forall j, (1 <= j < W)%nat -> meets SIdle j (a j) (d j) (u j)) -> inv (mkNet h (enter h) d u a).
Proof.
  intros S I. unfold inv. cbn [ne_history ne_phase ne_arm ne_down ne_up]. split; [exact S|]. unfold MMpi.enter.
  destruct (plan h) as [[p s]|] eqn:E; cbn [good status_of]; (split; [split; [lia|exact E]|]); intros j Hj; destruct (Nat.ltb_spec j 1); try lia; now apply I.
Qed.

Lemma take_inv h k got p s d u a d' u' a' r : serial h -> (1 <= k < W)%nat -> plan h = Some (p, s) -> got = concat (map (fun i => result p s (S i)) (seq 0 (k - 1))) ->
  (forall j, (1 <= j < W)%nat -> meets (status_of (Receiving k got) h j) j (a j) (d j) (u j)) -> r = result p s k ->
  (forall j, j <> k -> a' j = a j /\ d' j = d j /\ u' j = u j) -> a' k = Waiting -> d' k = [] -> u' k = [] ->
  inv (mkNet (fst (take W plan k got r h)) (snd (take W plan k got r h)) d' u' a').
Proof.
  intros S Hk Pl Hg M Hr Oth A0 D0 U0.
  assert (Hg' : (got ++ r)%list = concat (map (fun i => result p s (Datatypes.S i)) (seq 0 k))).
  { rewrite Hg, Hr. replace k with (Datatypes.S (k - 1)) at 3 by lia. rewrite seq_S, map_app, concat_app. cbn [map concat Nat.add]. rewrite app_nil_r. do 2 f_equal. lia. }
  assert (Idle : forall j, (1 <= j < Datatypes.S k)%nat -> meets SIdle j (a' j) (d' j) (u' j)).
  { intros j Hj. destruct (Nat.eq_dec j k) as [->|Nj]; [cbn; auto|]. destruct (Oth j Nj) as (-> & -> & ->). specialize (M j ltac:(lia)). cbn [status_of] in M. rewrite Pl in M.
    destruct (Nat.ltb_spec j k); [exact M|lia]. }
  unfold take. destruct (Nat.eqb_spec (Datatypes.S k) W) as [Ek|Nk]; cbn [fst snd].
  - apply enter_inv; [|intros j Hj; apply Idle; lia]. rewrite Hg'. replace k with (W - 1)%nat by lia. rewrite results_serial. now apply serial_snoc.
  - unfold inv. cbn [ne_history ne_phase ne_arm ne_down ne_up good status_of]. split; [exact S|]. split.
    + split; [lia|]. exists p, s. split; [exact Pl|]. rewrite Hg'. do 3 f_equal. lia.
    + intros j Hj. rewrite Pl. destruct (Nat.ltb_spec j (Datatypes.S k)) as [L|L]; [apply Idle; lia|]. destruct (Oth j ltac:(lia)) as (-> & -> & ->).
      specialize (M j Hj). cbn [status_of] in M. rewrite Pl in M. destruct (Nat.ltb_spec j k); [lia|exact M].
Qed.

Lemma step_inv c c' : step c c' -> inv c -> inv c'.
Proof.
  intros St (S & G & M). destruct St as [h k p s d u a Hc|h k p s d u a Ha Hd|h k d u a Hc|h k d u a Ha Hd|h ph k m q d u a Hk Ha Hd|h ph k p ag s d u a Hk Ha Hc|h k got p ag s d u a Ha Hu|h k got r q d u a Hu];
    cbn [ne_history ne_phase ne_arm ne_down ne_up] in *.
  - (* send *)
    destruct G as [Hk Pl]. pose proof (M k Hk) as Mk. cbn [status_of] in Mk. rewrite Nat.ltb_irrefl in Mk. destruct Mk as (Mk1 & Mk2 & Mk3).
    assert (B : forall j, (1 <= j < Datatypes.S k)%nat -> meets (SBusy p s) j (a j) (put k (d k ++ [Work p (batch k) s])%list d j) (u j)).
    { intros j Hj. destruct (Nat.eq_dec j k) as [->|Nj].
      - rewrite put_same, Mk2. left. auto.
      - rewrite put_other by exact Nj. specialize (M j ltac:(lia)). cbn [status_of] in M. destruct (Nat.ltb_spec j k); [exact M|lia]. }
    unfold inv. cbn [ne_history ne_phase ne_arm ne_down ne_up]. split; [exact S|]. unfold after_send. destruct (Nat.eqb_spec (Datatypes.S k) W) as [Ek|Nk]; cbn [good status_of].
    + split; [split; [lia|]; exists p, s; split; [exact Pl|reflexivity]|]. intros j Hj. rewrite Pl. destruct (Nat.ltb_spec j 1); [lia|]. apply B. lia.
    + split; [split; [lia|exact Pl]|]. intros j Hj. destruct (Nat.ltb_spec j (Datatypes.S k)); [apply B; lia|]. rewrite put_other by lia. specialize (M j Hj). cbn [status_of] in M. destruct (Nat.ltb_spec j k); [lia|exact M].
  - (* hand over *)
    destruct G as [Hk Pl]. pose proof (M k Hk) as Mk. cbn [status_of] in Mk. rewrite Nat.ltb_irrefl in Mk. destruct Mk as (Mk1 & Mk2 & Mk3).
    assert (B : forall j, (1 <= j < Datatypes.S k)%nat -> meets (SBusy p s) j (put k (Working p (batch k) s) a j) (d j) (u j)).
    { intros j Hj. destruct (Nat.eq_dec j k) as [->|Nj].
      - rewrite put_same. right. left. auto.
      - rewrite put_other by exact Nj. specialize (M j ltac:(lia)). cbn [status_of] in M. destruct (Nat.ltb_spec j k); [exact M|lia]. }
    unfold inv. cbn [ne_history ne_phase ne_arm ne_down ne_up]. split; [exact S|]. unfold after_send. destruct (Nat.eqb_spec (Datatypes.S k) W) as [Ek|Nk]; cbn [good status_of].
    + split; [split; [lia|]; exists p, s; split; [exact Pl|reflexivity]|]. intros j Hj. rewrite Pl. destruct (Nat.ltb_spec j 1); [lia|]. apply B. lia.
    + split; [split; [lia|exact Pl]|]. intros j Hj. destruct (Nat.ltb_spec j (Datatypes.S k)); [apply B; lia|]. rewrite put_other by lia. specialize (M j Hj). cbn [status_of] in M. destruct (Nat.ltb_spec j k); [lia|exact M].
  - (* end *)
    destruct G as [Hk Pl]. pose proof (M k Hk) as Mk. cbn [status_of] in Mk. rewrite Nat.ltb_irrefl in Mk. destruct Mk as (Mk1 & Mk2 & Mk3).
    assert (B : forall j, (1 <= j < Datatypes.S k)%nat -> meets SLeave j (a j) (put k (d k ++ [Stop])%list d j) (u j)).
    { intros j Hj. destruct (Nat.eq_dec j k) as [->|Nj].
      - rewrite put_same, Mk2. left. auto.
      - rewrite put_other by exact Nj. specialize (M j ltac:(lia)). cbn [status_of] in M. destruct (Nat.ltb_spec j k); [exact M|lia]. }
    unfold inv. cbn [ne_history ne_phase ne_arm ne_down ne_up]. split; [exact S|]. unfold after_end. destruct (Nat.eqb_spec (Datatypes.S k) W) as [Ek|Nk]; cbn [good status_of].
    + split; [exact Pl|]. intros j Hj. apply B. lia.
    + split; [split; [lia|exact Pl]|]. intros j Hj. destruct (Nat.ltb_spec j (Datatypes.S k)); [apply B; lia|]. rewrite put_other by lia. specialize (M j Hj). cbn [status_of] in M. destruct (Nat.ltb_spec j k); [lia|exact M].
  - destruct G as [Hk Pl]. pose proof (M k Hk) as Mk. cbn [status_of] in Mk. rewrite Nat.ltb_irrefl in Mk. destruct Mk as (Mk1 & Mk2 & Mk3).
    assert (B : forall j, (1 <= j < Datatypes.S k)%nat -> meets SLeave j (put k Left a j) (d j) (u j)).
    { intros j Hj. destruct (Nat.eq_dec j k) as [->|Nj].
      - rewrite put_same. right. auto.
      - rewrite put_other by exact Nj. specialize (M j ltac:(lia)). cbn [status_of] in M. destruct (Nat.ltb_spec j k); [exact M|lia]. }
    unfold inv. cbn [ne_history ne_phase ne_arm ne_down ne_up]. split; [exact S|]. unfold after_end. destruct (Nat.eqb_spec (Datatypes.S k) W) as [Ek|Nk]; cbn [good status_of].
    + split; [exact Pl|]. intros j Hj. apply B. lia.
    + split; [split; [lia|exact Pl]|]. intros j Hj. destruct (Nat.ltb_spec j (Datatypes.S k)); [apply B; lia|]. rewrite put_other by lia. specialize (M j Hj). cbn [status_of] in M. destruct (Nat.ltb_spec j k); [lia|exact M].
  - (* an arm receives *)
    unfold inv. cbn [ne_history ne_phase ne_arm ne_down ne_up]. split; [exact S|]. split; [exact G|]. intros j Hj. specialize (M j Hj).
    destruct (Nat.eq_dec j k) as [->|Nj]; [|rewrite !put_other by exact Nj; exact M]. rewrite !put_same.
    destruct (status_of ph h k) as [|p s|]; cbn [meets] in *.
    + destruct M as (_ & E & _). rewrite Hd in E. discriminate.
    + destruct M as [(_ & E & U)|[(_ & E & _)|(_ & E & _)]]; rewrite Hd in E; try discriminate. injection E as -> ->. right. left. auto.
    + destruct M as [(_ & E & U)|(_ & E & _)]; rewrite Hd in E; try discriminate. injection E as -> ->. right. auto.
  - (* an arm sends back *)
    unfold inv. cbn [ne_history ne_phase ne_arm ne_down ne_up]. split; [exact S|]. split; [exact G|]. intros j Hj. specialize (M j Hj).
    destruct (Nat.eq_dec j k) as [->|Nj]; [|rewrite !put_other by exact Nj; exact M]. rewrite !put_same.
    destruct (status_of ph h k) as [|p' s'|]; cbn [meets] in *.
    + destruct M as (E & _). rewrite Ha in E. discriminate.
    + destruct M as [(E & _)|[(E & D & U)|(E & _)]]; rewrite Ha in E; try discriminate. injection E as -> -> ->. rewrite U. right. right. auto.
    + destruct M as [(E & _)|(E & _)]; rewrite Ha in E; discriminate.
  - destruct G as (Hk & p0 & s0 & Pl & Hg). pose proof (M k Hk) as Mk. cbn [status_of] in Mk. rewrite Pl, Nat.ltb_irrefl in Mk. cbn [meets] in Mk.
    destruct Mk as [(E & _)|[(E & D & U)|(E & _)]]; rewrite Ha in E; try discriminate. injection E as -> -> ->.
    eapply take_inv; [exact S|exact Hk|exact Pl|exact Hg|exact M|reflexivity| |apply put_same|exact D|exact Hu]. intros j Hj. rewrite put_other by exact Hj. auto.
  - destruct G as (Hk & p0 & s0 & Pl & Hg). pose proof (M k Hk) as Mk. cbn [status_of] in Mk. rewrite Pl, Nat.ltb_irrefl in Mk. cbn [meets] in Mk.
    destruct Mk as [(_ & _ & E)|[(_ & _ & E)|(E1 & D & E)]]; rewrite Hu in E; try discriminate. injection E as -> ->.
    eapply take_inv; [exact S|exact Hk|exact Pl|exact Hg|exact M|reflexivity| |exact E1|exact D|apply put_same]. intros j Hj. rewrite put_other by exact Hj. auto.
Qed.

Lemma steps_inv n c c' : steps n c c' -> inv c -> inv c'.
Proof. induction 1; intros I; [exact I|]. eapply step_inv; [eassumption|auto]. Qed.

(** ** No deadlock *)
Lemma leaving_search c : (forall j, (1 <= j < W)%nat -> meets SLeave j (ne_arm c j) (ne_down c j) (ne_up c j)) -> forall n, (n <= W)%nat ->
  (forall j, (1 <= j < n)%nat -> ne_arm c j = Left /\ ne_down c j = [] /\ ne_up c j = []) \/ exists j, (1 <= j < W)%nat /\ ne_arm c j = Waiting /\ ne_down c j = [Stop].
Proof.
  intros M. induction n as [|n IH]; intros Hn; [left; lia|]. destruct (IH ltac:(lia)) as [A|E]; [|right; exact E].
  destruct (Nat.eq_dec n 0) as [->|N0]; [left; lia|]. destruct (M n ltac:(lia)) as [(X & Y & _)|(X & Y & Z)].
  - right. exists n. split; [lia|]. split; assumption.
  - left. intros j Hj. destruct (Nat.eq_dec j n) as [->|]; [auto|]. apply A. lia.
Qed.

Lemma progress c : inv c -> finished W c \/ exists c', step c c'.
Proof.
  intros (S & G & M). destruct c as [h ph d u a]. cbn [ne_history ne_phase ne_arm ne_down ne_up] in *. destruct ph as [k p s|k got|k|]; cbn [good] in G.
  - right. destruct G as [Hk _]. specialize (M k Hk). cbn [status_of] in M. rewrite Nat.ltb_irrefl in M. destruct M as (A & D & _). eexists. apply st_hand; assumption.
  - right. destruct G as (Hk & p & s & Pl & _). specialize (M k Hk). cbn [status_of] in M. rewrite Pl, Nat.ltb_irrefl in M. destruct M as [(A & D & _)|[(A & D & U)|(A & D & U)]].
    + eexists. eapply st_get; [exact Hk|exact A|exact D].
    + eexists. eapply st_reply_hand; [exact A|exact U].
    + eexists. eapply st_take. exact U.
  - right. destruct G as [Hk _]. specialize (M k Hk). cbn [status_of] in M. rewrite Nat.ltb_irrefl in M. destruct M as (A & D & _). eexists. apply st_end_hand; assumption.
  - cbn [status_of] in M. destruct (leaving_search (mkNet h Ended d u a) M W (le_n W)) as [A|(j & Hj & A & D)].
    + left. split; [reflexivity|exact A].
    + right. eexists. eapply st_get; [exact Hj|exact A|exact D].
Qed.

Lemma finished_stuck c c' : inv c -> finished W c -> ~ step c c'.
Proof.
  intros (S & G & M) [E F] St. destruct St; cbn [ne_history ne_phase ne_arm ne_down ne_up] in *; try discriminate.
  - destruct (F k H) as (X & _). congruence.
  - destruct (F k H) as (X & _). congruence.
Qed.

(** ** Termination *)
Definition msg_cost (m : msg) : nat := match m with Work _ _ _ => 3 | Stop => 1 end.
Definition arm_cost (x : arm_state) : nat := match x with Working _ _ _ => 2 | _ => 0 end.
Definition cell_cost (x : arm_state) (d : list msg) (u : list (list R)) : nat := (arm_cost x + list_sum (map msg_cost d) + length u)%nat.
Definition cells (d : nat -> list msg) (u : nat -> list (list R)) (a : nat -> arm_state) : nat := list_sum (map (fun j => cell_cost (a j) (d j) (u j)) (seq 1 (W - 1))).

Lemma sum_change (f g : nat -> nat) k : forall n b, (b <= k < b + n)%nat -> (forall j, j <> k -> f j = g j) ->
  (list_sum (map f (seq b n)) + g k = list_sum (map g (seq b n)) + f k)%nat.
Proof.
  induction n as [|n IH]; intros b Hk E; [lia|]. cbn [seq map]. unfold list_sum in *. cbn [fold_right]. destruct (Nat.eq_dec b k) as [->|Nb].
  - assert (X : map f (seq (S k) n) = map g (seq (S k) n)) by (apply map_ext_in; intros j Hj; apply in_seq in Hj; apply E; lia). rewrite X. lia.
  - rewrite (E b Nb). specialize (IH (S b) ltac:(lia) E). lia.
Qed.

Lemma cells_change d u a d' u' a' k : (1 <= k < W)%nat -> (forall j, j <> k -> d' j = d j /\ u' j = u j /\ a' j = a j) ->
  (cells d' u' a' + cell_cost (a k) (d k) (u k) = cells d u a + cell_cost (a' k) (d' k) (u' k))%nat.
Proof.
  intros Hk E. unfold cells. apply (sum_change (fun j => cell_cost (a' j) (d' j) (u' j)) (fun j => cell_cost (a j) (d j) (u j)) k (W - 1) 1); [lia|].
  intros j Hj. destruct (E j Hj) as (-> & -> & ->). reflexivity.
Qed.

Variable N : nat.
Hypothesis HN : forall h, serial h -> (length h <= N)%nat.

Definition phase_cost (ph : phase) (h : list (list R)) : nat :=
  match ph with
  | Sending k _ _ => ((N - length h - 1) * (4 * W) + 2 * W + (W - k) * 4)%nat
  | Receiving _ _ => ((N - length h - 1) * (4 * W) + 2 * W)%nat
  | Ending k => ((W - k) * 2)%nat
  | Ended => 0%nat
  end.
Definition mu (c : net) : nat := (phase_cost (ne_phase c) (ne_history c) + cells (ne_down c) (ne_up c) (ne_arm c))%nat.

Lemma enter_cost h : serial h -> (phase_cost (enter h) h < (N - length h) * (4 * W) + 2 * W)%nat.
Proof.
  intros S. unfold MMpi.enter. destruct (plan h) as [[p s]|] eqn:E; cbn [phase_cost].
  - pose proof (HN _ (serial_snoc _ _ _ _ _ _ S E)) as L. rewrite app_length in L. cbn [length] in L.
    set (r := (N - length h - 1)%nat). replace (N - length h)%nat with (Datatypes.S r) by lia. cbn [Nat.mul]. lia.
  - nia.
Qed.

Lemma take_cost h k got p s r : (1 <= k < W)%nat -> serial h -> plan h = Some (p, s) -> got = concat (map (fun i => result p s (S i)) (seq 0 (k - 1))) -> r = result p s k ->
  (phase_cost (snd (take W plan k got r h)) (fst (take W plan k got r h)) <= phase_cost (Receiving k got) h)%nat.
Proof.
  intros Hk S Pl Hg Hr. unfold take. destruct (Nat.eqb_spec (Datatypes.S k) W) as [Ek|Nk]; cbn [fst snd]; [|cbn [phase_cost]; lia].
  assert (S' : serial (h ++ [got ++ r])).
  { assert (E : (got ++ r)%list = serial_fitness P fit p s).
    { rewrite <- results_serial, Hg, Hr. replace (W - 1)%nat with (Datatypes.S (k - 1)) by lia. rewrite seq_S, map_app, concat_app. cbn [map concat Nat.add]. rewrite app_nil_r. do 2 f_equal. lia. }
    rewrite E. now apply serial_snoc. }
  pose proof (enter_cost _ S') as C. rewrite app_length in C. cbn [length] in C. cbn [phase_cost]. replace (N - length h - 1)%nat with (N - (length h + 1))%nat by lia. lia.
Qed.

Lemma step_mu c c' : inv c -> step c c' -> (mu c' < mu c)%nat.
Proof.
  intros (S & G & M) St. unfold mu. destruct St as [h k p s d u a Hc|h k p s d u a Ha Hd|h k d u a Hc|h k d u a Ha Hd|h ph k m q d u a Hk Ha Hd|h ph k p ag s d u a Hk Ha Hc|h k got p ag s d u a Ha Hu|h k got r q d u a Hu];
    cbn [ne_history ne_phase ne_arm ne_down ne_up] in *.
  - destruct G as [Hk Pl]. pose proof (M k Hk) as Mk. cbn [status_of] in Mk. rewrite Nat.ltb_irrefl in Mk. destruct Mk as (Mk1 & Mk2 & Mk3).
    pose proof (cells_change d u a (put k (d k ++ [Work p (batch k) s])%list d) u a k Hk) as C. specialize (C ltac:(intros j Hj; rewrite put_other by exact Hj; auto)).
    rewrite put_same, Mk1, Mk2, Mk3 in C. cbn in C. rewrite Mk2.
    unfold after_send. destruct (Nat.eqb_spec (Datatypes.S k) W); cbn [phase_cost]; cbn [app] in *; lia.
  - destruct G as [Hk Pl]. pose proof (M k Hk) as Mk. cbn [status_of] in Mk. rewrite Nat.ltb_irrefl in Mk. destruct Mk as (Mk1 & Mk2 & Mk3).
    pose proof (cells_change d u a d u (put k (Working p (batch k) s) a) k Hk) as C. specialize (C ltac:(intros j Hj; rewrite put_other by exact Hj; auto)).
    rewrite put_same, Mk1, Mk2, Mk3 in C. cbn in C.
    unfold after_send. destruct (Nat.eqb_spec (Datatypes.S k) W); cbn [phase_cost]; lia.
  - destruct G as [Hk Pl]. pose proof (M k Hk) as Mk. cbn [status_of] in Mk. rewrite Nat.ltb_irrefl in Mk. destruct Mk as (Mk1 & Mk2 & Mk3).
    pose proof (cells_change d u a (put k (d k ++ [Stop])%list d) u a k Hk) as C. specialize (C ltac:(intros j Hj; rewrite put_other by exact Hj; auto)).
    rewrite put_same, Mk1, Mk2, Mk3 in C. cbn in C. rewrite Mk2.
    unfold after_end. destruct (Nat.eqb_spec (Datatypes.S k) W); cbn [phase_cost]; cbn [app] in *; lia.
  - destruct G as [Hk Pl]. pose proof (M k Hk) as Mk. cbn [status_of] in Mk. rewrite Nat.ltb_irrefl in Mk. destruct Mk as (Mk1 & Mk2 & Mk3).
    pose proof (cells_change d u a d u (put k Left a) k Hk) as C. specialize (C ltac:(intros j Hj; rewrite put_other by exact Hj; auto)).
    rewrite put_same, Mk1, Mk2, Mk3 in C. cbn in C.
    unfold after_end. destruct (Nat.eqb_spec (Datatypes.S k) W); cbn [phase_cost]; lia.
  - pose proof (cells_change d u a (put k q d) u (put k (receive m) a) k Hk) as C. specialize (C ltac:(intros j Hj; rewrite !put_other by exact Hj; auto)).
    rewrite !put_same, Ha, Hd in C. unfold cell_cost, list_sum in C. cbn [arm_cost map fold_right] in C. assert (Q : (arm_cost (receive m) < msg_cost m)%nat) by (destruct m; cbn; lia). lia.
  - pose proof (cells_change d u a d (put k (u k ++ [arm_result p ag s])%list u) (put k Waiting a) k Hk) as C. specialize (C ltac:(intros j Hj; rewrite !put_other by exact Hj; auto)).
    rewrite !put_same, Ha in C. unfold cell_cost in C. rewrite app_length in C. cbn [arm_cost length] in C. lia.
  - destruct G as (Hk & p0 & s0 & Pl & Hg). pose proof (M k Hk) as Mk. cbn [status_of] in Mk. rewrite Pl, Nat.ltb_irrefl in Mk. cbn [meets] in Mk.
    destruct Mk as [(E & _)|[(E & D & U)|(E & _)]]; rewrite Ha in E; try discriminate. injection E as -> -> ->.
    pose proof (take_cost h k got p0 s0 _ Hk S Pl Hg eq_refl) as T. unfold result in T.
    pose proof (cells_change d u a d u (put k Waiting a) k Hk) as C. specialize (C ltac:(intros j Hj; rewrite !put_other by exact Hj; auto)).
    rewrite put_same, Ha in C. unfold cell_cost in C. cbn [arm_cost] in C. lia.
  - destruct G as (Hk & p0 & s0 & Pl & Hg). pose proof (M k Hk) as Mk. cbn [status_of] in Mk. rewrite Pl, Nat.ltb_irrefl in Mk. cbn [meets] in Mk.
    destruct Mk as [(_ & _ & E)|[(_ & _ & E)|(E1 & D & E)]]; rewrite Hu in E; try discriminate. injection E as -> ->.
    pose proof (take_cost h k got p0 s0 _ Hk S Pl Hg eq_refl) as T.
    pose proof (cells_change d u a d (put k [] u) a k Hk) as C. specialize (C ltac:(intros j Hj; rewrite !put_other by exact Hj; auto)).
    rewrite put_same, Hu in C. unfold cell_cost in C. cbn [length] in C. lia.
Qed.

Lemma steps_mu n c c' : steps n c c' -> inv c -> (n + mu c' <= mu c)%nat.
Proof.
  induction 1 as [|n c c' c'' St IH Hs]; intros I; [lia|]. specialize (IH I). pose proof (steps_inv _ _ _ St I) as I'. pose proof (step_mu _ _ I' Hs). lia.
Qed.

Lemma start_mu : (mu (net_start plan) <= (4 * N + 2) * W)%nat.
Proof.
  unfold mu, net_start. cbn [ne_history ne_phase ne_arm ne_down ne_up].
  assert (Z : cells (fun _ => []) (fun _ => []) (fun _ => Waiting) = 0%nat).
  { unfold cells. cbn. induction (seq 1 (W - 1)) as [|x l IH]; [reflexivity|exact IH]. }
  rewrite Z. pose proof (enter_cost [] (serial_nil _ _ _)) as C. cbn [length] in C. rewrite Nat.sub_0_r in C. lia.
Qed.
End Net.

Lemma serial_unique P fit plan h1 : serial P fit plan h1 -> forall h2, serial P fit plan h2 -> length h1 = length h2 -> h1 = h2.
Proof.
  induction 1 as [|h p s S IH Pl]; intros h2 S2 L.
  - destruct h2; [reflexivity|discriminate].
  - destruct S2 as [|h' p' s' S' Pl']; rewrite ?app_length in L; cbn in L; [lia|]. assert (E : h = h') by (apply IH; [exact S'|lia]). subst h'. rewrite Pl in Pl'. injection Pl' as <- <-. reflexivity.
Qed.

(** Two serial histories after which nothing is planned are the same. *)
Lemma serial_prefix P fit plan h1 : serial P fit plan h1 -> forall n, (n <= length h1)%nat -> serial P fit plan (firstn n h1) /\
  ((n < length h1)%nat -> exists q, plan (firstn n h1) = Some q).
Proof.
  induction 1 as [|h p s S IH Pl]; intros n Hn.
  - cbn in Hn. replace n with 0%nat by lia. split; [constructor|cbn; lia].
  - rewrite app_length in *. cbn [length] in *. destruct (Nat.eq_dec n (length h + 1)) as [->|Nn].
    + rewrite firstn_all2 by (rewrite app_length; cbn; lia). split; [now constructor|lia].
    + rewrite firstn_app. replace (n - length h)%nat with 0%nat by lia. cbn [firstn]. rewrite app_nil_r. destruct (IH n ltac:(lia)) as [A B]. split; [exact A|].
      intros _. destruct (Nat.eq_dec n (length h)) as [->|]; [rewrite firstn_all; eauto|]. apply B. lia.
Qed.

Lemma serial_end P fit plan h1 h2 : serial P fit plan h1 -> serial P fit plan h2 -> plan h1 = None -> plan h2 = None -> h1 = h2.
Proof.
  intros S1 S2 E1 E2. destruct (lt_eq_lt_dec (length h1) (length h2)) as [[L|L]|L].
  - destruct (serial_prefix _ _ _ _ S2 (length h1) ltac:(lia)) as [A B]. destruct (B L) as (q & Hq). assert (X : h1 = firstn (length h1) h2) by (eapply serial_unique; [exact S1|exact A|rewrite firstn_length_le; lia]). rewrite <- X in Hq. congruence.
  - eapply serial_unique; eassumption.
  - destruct (serial_prefix _ _ _ _ S1 (length h2) ltac:(lia)) as [A B]. destruct (B L) as (q & Hq). assert (X : h2 = firstn (length h2) h1) by (eapply serial_unique; [exact S2|exact A|rewrite firstn_length_le; lia]). rewrite <- X in Hq. congruence.
Qed.

(** ** One seed of the evolution strategy *)
Lemma replay_snoc s x : forall n g v h f, replay s x n g v (h ++ [f]) =
  match replay s x n g v h with
  | Ok (v', Some g') => let* r := generation_from s x g' f v' in
                        if snd r then Ok (fst r, None) else Ok (fst r, if Nat.eqb (S g') (g + n) then None else Some (S g'))
  | other => other
  end.
Proof.
  induction n as [|n IH]; intros g v h f; [destruct h; reflexivity|]. destruct h as [|f0 t].
  - cbn [app replay]. destruct (generation_from s x g f v) as [[v' b]|e]; cbn [bind fst snd]; [|reflexivity]. destruct b; [reflexivity|].
    destruct n as [|n]; cbn [replay]; [destruct (Nat.eqb_spec (S g) (g + 1))|destruct (Nat.eqb_spec (S g) (g + S (S n)))]; try lia; reflexivity.
  - cbn [app replay]. destruct (generation_from s x g f0 v) as [[v' b]|e]; cbn [bind fst snd]; [|reflexivity]. destruct b; [reflexivity|].
    rewrite IH. destruct (replay s x n (S g) v' t) as [[v2 [g2|]]|e]; try reflexivity. replace (S g + n)%nat with (g + S n)%nat by lia. reflexivity.
Qed.

Lemma update_len s f v v' : update_population s f v = Ok v' -> length (ev_pop v') = length (ev_pop v).
Proof.
  intros H. unfold update_population in H. apply bind_ok in H as (e & _ & H). apply bind_ok in H as ([] & _ & H). cbv zeta in H. apply bind_ok in H as ([] & _ & H). injection H as <-. cbn [ev_pop].
  unfold redraw, keep_elites.
  assert (U : forall A n (y : A) l, length (upd n y l) = length l) by (intros A n y l; revert n; induction l as [|z t IH]; intros [|n]; cbn; auto).
  assert (F : forall (h : mat -> nat -> vec) ks l, length (fold_left (fun p k => upd k (h p k) p) ks l) = length l) by (intros h ks; induction ks as [|k ks IH]; intros l; cbn [fold_left]; [reflexivity|]; rewrite IH; apply U).
  etransitivity; [exact (F (fun _ k => se_draw s (ev_time v + k) (vec_mean (map (fun i => nth i (ev_pop v) []) e)) (vec_covar (se_keep s) (map (fun i => nth i (ev_pop v) []) e) (ev_means v))) _ _)|]. exact (F (fun p k => nth (nth k e 0%nat) p []) _ _).
Qed.

Lemma from_len s x g f v v' b : generation_from s x g f v = Ok (v', b) -> length (ev_pop v') = length (ev_pop v).
Proof.
  intros H. unfold generation_from in H. apply bind_ok in H as (v1 & H1 & H). cbv zeta in H.
  assert (R : forall w w', rank_population s f x w = Ok w' -> ev_pop w' = ev_pop w).
  { intros w w' Hr. unfold rank_population in Hr. apply bind_ok in Hr as (e & _ & Hr). apply bind_ok in Hr as ([] & _ & Hr). injection Hr as <-. reflexivity. }
  assert (L1 : length (ev_pop v1) = length (ev_pop v)) by (unfold advance in H1; destruct (Nat.eqb (g + 1) (se_gens s)); [now rewrite (R _ _ H1)|exact (update_len _ _ _ _ H1)]).
  destruct (stops g f); [apply bind_ok in H as (v3 & H3 & H); injection H as <- _; rewrite (R _ _ H3)|injection H as <- _]; exact L1.
Qed.

Lemma generation_split s x g v : (se_size s <= length (ev_pop v))%nat -> generation s x g v = generation_from s x g (evaluate s (ev_pop v) (Z.of_nat g * x)) v.
Proof. intros H. unfold generation. destruct (Nat.leb_spec (se_size s) (length (ev_pop v))); [reflexivity|lia]. Qed.

Lemma replay_inv s x v0 : (se_size s <= length (ev_pop v0))%nat -> forall h, serial (se_size s) (se_fit s) (plan_of s x v0) h ->
  match replay s x (se_gens s) 0 v0 h with
  | Ok (v, Some g) => g = length h /\ (g < se_gens s)%nat /\ (se_size s <= length (ev_pop v))%nat /\ generations s x (se_gens s) 0 v0 = generations s x (se_gens s - g) g v
  | Ok (v, None) => (length h <= se_gens s)%nat /\ generations s x (se_gens s) 0 v0 = Ok v
  | Err e => (length h <= se_gens s)%nat /\ generations s x (se_gens s) 0 v0 = Err e
  end.
Proof.
  intros L0 h. induction 1 as [|h p y S IH Pl].
  - destruct (se_gens s) as [|n] eqn:E; cbn [replay]; [split; [cbn; lia|reflexivity]|]. split; [reflexivity|]. split; [lia|]. split; [exact L0|]. rewrite Nat.sub_0_r. reflexivity.
  - rewrite replay_snoc. unfold plan_of in Pl. destruct (replay s x (se_gens s) 0 v0 h) as [[v [g|]]|e]; try discriminate. injection Pl as <- <-.
    destruct IH as (Eg & Lg & Lv & G). rewrite app_length. cbn [length].
    change (serial_fitness (se_size s) (se_fit s) (ev_pop v) (Z.of_nat g * x)) with (evaluate s (ev_pop v) (Z.of_nat g * x)).
    rewrite <- generation_split by exact Lv. replace (se_gens s - g)%nat with (Datatypes.S (se_gens s - Datatypes.S g)) in G by lia. cbn [generations] in G. cbn [Nat.add].
    destruct (generation s x g v) as [[v' b]|e] eqn:Ge; cbn [bind fst snd] in *; [|split; [lia|exact G]].
    destruct b; [split; [lia|exact G]|]. rewrite generation_split in Ge by exact Lv. pose proof (from_len _ _ _ _ _ _ _ Ge) as Lf.
    destruct (Nat.eqb_spec (Datatypes.S g) (se_gens s)) as [E|Nn].
    + split; [lia|]. rewrite G, E, Nat.sub_diag. reflexivity.
    + split; [lia|]. split; [lia|]. split; [rewrite Lf; exact Lv|exact G].
Qed.
