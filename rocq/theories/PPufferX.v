(** The puffer for ever (proofs). *)
From Coq Require Import Lia List Arith Bool ZArith NArith.
From Verif Require Import Base SGrid SLife PLife PGlider MPatterns PPuffer.
Import ListNotations.

Definition same (p q : plane) : Prop := forall z w, p z w = q z w.
Definition union (p q : plane) : plane := fun z w => p z w || q z w.
Definition right (d : Z) (p : plane) : plane := fun z w => p z (w - d)%Z.
Definition run_ (n : nat) (p : plane) : plane := plane_n mB mS n p.
Definition ends (c : Z) (p : plane) : Prop := forall z w, p z w = true -> (w <= c)%Z.
Definition begins (c : Z) (p : plane) : Prop := forall z w, p z w = true -> (c <= w)%Z.

Lemma same_trans p q r : same p q -> same q r -> same p r.
Proof. intros A B z w. rewrite A. apply B. Qed.

Lemma near_same p q z w : (forall a b, (-1 <= a <= 1)%Z -> (-1 <= b <= 1)%Z -> p (z + a)%Z (w + b)%Z = q (z + a)%Z (w + b)%Z) -> plane_life mB mS p z w = plane_life mB mS q z w.
Proof.
  intros N. unfold plane_life, plane_live. cbn [moore_offsets map fst snd]. rewrite !N by lia. pose proof (N 0%Z 0%Z ltac:(lia) ltac:(lia)) as N0. rewrite !Z.add_0_r in N0. rewrite N0. reflexivity.
Qed.

Lemma life_same p q : same p q -> same (plane_life mB mS p) (plane_life mB mS q).
Proof. intros E z w. apply near_same. intros. apply E. Qed.

Lemma run_same n p q : same p q -> same (run_ n p) (run_ n q).
Proof. intros E. unfold run_. induction n as [|n IH]; [exact E|]. cbn [plane_n]. apply life_same, IH. Qed.

Lemma run_add n m p : run_ (n + m) p = run_ n (run_ m p).
Proof. unfold run_. induction n as [|n IH]; [reflexivity|]. cbn [plane_n Nat.add]. rewrite IH. reflexivity. Qed.

Lemma run_right n d p : same (run_ n (right d p)) (right d (run_ n p)).
Proof.
  unfold run_. induction n as [|n IH]; [intros z w; reflexivity|]. cbn [plane_n]. eapply same_trans; [apply life_same, IH|].
  intros z w. unfold plane_life, plane_live, right. f_equal. f_equal. apply map_ext. intros o. f_equal. f_equal. lia.
Qed.

(** Two patterns with two empty columns between them do not notice each other. *)
Lemma union_step c p q : ends c p -> begins (c + 3) q -> same (plane_life mB mS (union p q)) (union (plane_life mB mS p) (plane_life mB mS q)).
Proof.
  intros P Q z w. unfold union at 2. destruct (Z_le_dec w (c + 1)) as [L|L].
  - assert (Z0 : forall a b, (-1 <= a <= 1)%Z -> (-1 <= b <= 1)%Z -> q (z + a)%Z (w + b)%Z = false) by (intros a b Ha Hb; destruct (q (z + a)%Z (w + b)%Z) eqn:E; [apply Q in E; lia|reflexivity]).
    rewrite (quiet q) by exact Z0. rewrite orb_false_r. apply near_same. intros a b Ha Hb. unfold union. rewrite Z0 by assumption. apply orb_false_r.
  - assert (Z0 : forall a b, (-1 <= a <= 1)%Z -> (-1 <= b <= 1)%Z -> p (z + a)%Z (w + b)%Z = false) by (intros a b Ha Hb; destruct (p (z + a)%Z (w + b)%Z) eqn:E; [apply P in E; lia|reflexivity]).
    rewrite (quiet p) by exact Z0. cbn [orb]. apply near_same. intros a b Ha Hb. unfold union. rewrite Z0 by assumption. reflexivity.
Qed.

Lemma union_run c p q n : (forall s, (s < n)%nat -> ends c (run_ s p)) -> (forall s, (s < n)%nat -> begins (c + 3) (run_ s q)) -> same (run_ n (union p q)) (union (run_ n p) (run_ n q)).
Proof.
  induction n as [|n IH]; intros P Q; [intros z w; reflexivity|]. change (run_ (S n) ?x) with (plane_life mB mS (run_ n x)).
  eapply same_trans; [apply life_same, IH; intros; [apply P|apply Q]; lia|]. apply (union_step c); [apply P|apply Q]; lia.
Qed.

(** ** The computation *)
Definition good (rows : list N) : bool := roomy rows && forallb (fun r => N.ltb r 67108864) rows.

Fixpoint go (n : nat) (rows : list N) : option (list N) :=
  match n with
  | O => if good rows then Some rows else None
  | S m => if good rows then go m (next_rows 0 rows) else None
  end.

Lemma run_S n p : run_ (S n) p = run_ n (plane_life mB mS p).
Proof. rewrite <- (Nat.add_1_r n), run_add. reflexivity. Qed.

Lemma go_run n : forall rows r', go n rows = Some r' -> same (run_ n (pl rows)) (pl r') /\ forall s, (s <= n)%nat -> exists r, same (run_ s (pl rows)) (pl r) /\ good r = true /\ length r = length rows.
Proof.
  induction n as [|n IH]; intros rows r' E; cbn [go] in E; destruct (good rows) eqn:G; try discriminate.
  - injection E as <-. split; [intros z w; reflexivity|]. intros s Hs. replace s with 0%nat by lia. exists rows. repeat split; auto.
  - destruct (IH _ _ E) as [A B]. assert (R : roomy rows = true) by (unfold good in G; apply andb_prop in G; apply G). pose proof (rows_step rows R) as St. split.
    + rewrite run_S. eapply same_trans; [apply run_same; exact St|exact A].
    + intros [|s] Hs; [exists rows; repeat split; auto|]. destruct (B s ltac:(lia)) as (r & C & D & L). exists r. rewrite run_S. split; [eapply same_trans; [apply run_same; exact St|exact C]|]. split; [exact D|]. rewrite L. apply next_rows_length.
Qed.

Lemma good_box rows z w : good rows = true -> pl rows z w = true -> (1 <= z <= Z.of_nat (length rows) - 2 /\ 1 <= w <= 25)%Z.
Proof.
  intros G T. unfold good in G. apply andb_prop in G as [R B]. pose proof (roomy_true _ _ _ R T) as [Z1 W1]. split; [exact Z1|]. split; [exact W1|].
  destruct (Z_le_dec w 25) as [L|L]; [exact L|]. exfalso. unfold pl, bit in T. destruct (Z.ltb_spec z 0); [discriminate|]. destruct (Z.ltb_spec w 0); [discriminate|].
  rewrite forallb_forall in B. specialize (B (nth (Z.to_nat z) rows 0%N) ltac:(apply nth_In; lia)). apply N.ltb_lt in B. set (r := nth (Z.to_nat z) rows 0%N) in *.
  destruct (N.eq_dec r 0) as [E|E]; [rewrite E, N.bits_0 in T; discriminate|]. rewrite N.bits_above_log2 in T; [discriminate|].
  apply (N.lt_le_trans _ 26); [|lia]. apply N.log2_lt_pow2; [lia|]. exact B.
Qed.

(** The puffer in a window that starts three rows above and five columns before the pattern. *)
Definition e0 : list N := [0; 0; 0; 0; 256; 1920; 2368; 2368; 1920; 256; 0; 0; 0; 0]%N.
Definition d0 : list N := [0; 0; 0; 0; 0; 48; 48; 48; 48; 0; 0; 0; 0; 0]%N.

(** After 170 steps: the puffer thirteen columns further, and a block left behind. *)
Lemma e_run : exists r, go 170 e0 = Some r /\ forallb (fun ab => N.eqb (fst ab) (N.lor (N.shiftl (fst (snd ab)) 13) (snd (snd ab)))) (combine r (combine e0 d0)) = true /\ length r = 14%nat.
Proof. eexists. split; [vm_compute; reflexivity|]. split; reflexivity. Qed.

Lemma d_run : go 2 d0 = Some d0.
Proof. reflexivity. Qed.

Definition E0 : plane := pl e0.
Definition D0 : plane := pl d0.

Lemma bit_right_lor r s d w : (0 <= d)%Z -> (forall x, (x < 0)%Z -> bit r x = false) -> bit (N.lor (N.shiftl r (Z.to_N d)) s) w = bit r (w - d) || bit s w.
Proof.
  intros Hd _. unfold bit. destruct (Z.ltb_spec w 0).
  - destruct (Z.ltb_spec (w - d) 0); [reflexivity|lia].
  - rewrite N.lor_spec. f_equal. destruct (Z.ltb_spec (w - d) 0); [apply N.shiftl_spec_low; lia|]. rewrite N.shiftl_spec_high by lia. f_equal. lia.
Qed.

Lemma E_170 : same (run_ 170 E0) (union D0 (right 13 E0)).
Proof.
  destruct e_run as (r & G & F & L). destruct (go_run _ _ _ G) as [A _]. eapply same_trans; [exact A|]. intros z w. unfold union, right, E0, D0, pl. destruct (Z.ltb_spec z 0); [reflexivity|].
  rewrite orb_comm. rewrite <- (bit_right_lor _ (nth (Z.to_nat z) d0 0%N) 13 w) by (lia || (intros x Hx; unfold bit; destruct (Z.ltb_spec x 0); [reflexivity|lia])).
  f_equal. change (Z.to_N 13) with 13%N. destruct (le_lt_dec 14 (Z.to_nat z)) as [O|O].
  - rewrite !nth_overflow by (cbn [length e0 d0]; lia). reflexivity.
  - rewrite forallb_forall in F. specialize (F (nth (Z.to_nat z) r 0, (nth (Z.to_nat z) e0 0, nth (Z.to_nat z) d0 0))%N).
    cbn [fst snd] in F. apply N.eqb_eq, F. rewrite <- (combine_nth e0 d0) by reflexivity. rewrite <- (combine_nth r (combine e0 d0)) by (rewrite L; reflexivity). apply nth_In.
    rewrite combine_length, L. change (length (combine e0 d0)) with 14%nat. lia.
Qed.

Lemma E_box s z w : (s <= 170)%nat -> run_ s E0 z w = true -> (1 <= z <= 12 /\ 1 <= w <= 25)%Z.
Proof.
  intros Hs T. destruct e_run as (r & G & _). destruct (go_run _ _ _ G) as [_ B]. destruct (B s Hs) as (q & S & Gq & L). rewrite S in T. apply (good_box q) in T; [|exact Gq].
  rewrite L in T. change (Z.of_nat (length e0) - 2)%Z with 12%Z in T. exact T.
Qed.

Lemma narrow_e z w : E0 z w = true -> (1 <= z <= 12 /\ 6 <= w <= 11)%Z.
Proof.
  intros T. pose proof (E_box 0 z w ltac:(lia) T) as [Z1 W1]. split; [exact Z1|]. assert (Cz : In z (map Z.of_nat (seq 1 12))) by (apply in_map_iff; exists (Z.to_nat z); split; [lia|apply in_seq; lia]).
  assert (Cw : In w (map Z.of_nat (seq 1 25))) by (apply in_map_iff; exists (Z.to_nat w); split; [lia|apply in_seq; lia]).
  assert (F : forallb (fun a => forallb (fun b => implb (E0 a b) (Z.leb 6 b && Z.leb b 11)) (map Z.of_nat (seq 1 25))) (map Z.of_nat (seq 1 12)) = true) by (vm_compute; reflexivity).
  rewrite forallb_forall in F. specialize (F z Cz). rewrite forallb_forall in F. specialize (F w Cw). rewrite T in F. cbn [implb] in F. apply andb_prop in F as [F1 F2]. apply Z.leb_le in F1, F2. lia.
Qed.

(** The block turns over every two steps and stays where it is. *)
Lemma D_two : same (run_ 2 D0) D0.
Proof. destruct (go_run _ _ _ d_run) as [A _]. exact A. Qed.

Lemma D_even n : same (run_ (2 * n) D0) D0.
Proof.
  induction n as [|n IH]; [intros z w; reflexivity|]. replace (2 * S n)%nat with (2 + 2 * n)%nat by lia. rewrite run_add. eapply same_trans; [apply run_same; exact IH|exact D_two].
Qed.

Lemma narrow rows z w : forallb (fun r => N.eqb (N.land r 120) r) rows = true -> length rows = 14%nat -> roomy rows = true -> pl rows z w = true -> (1 <= z <= 12 /\ 3 <= w <= 6)%Z.
Proof.
  intros F L R T. pose proof (roomy_true _ _ _ R T) as [Z1 W1]. rewrite L in Z1. split; [exact Z1|]. unfold pl, bit in T. destruct (Z.ltb_spec z 0); [discriminate|]. destruct (Z.ltb_spec w 0); [discriminate|].
  rewrite forallb_forall in F. specialize (F (nth (Z.to_nat z) rows 0%N) ltac:(apply nth_In; lia)). apply N.eqb_eq in F. rewrite <- F, N.land_spec in T. apply andb_prop in T as [_ T].
  destruct (Z_le_dec w 6) as [U|U].
  - destruct (Z_le_dec 3 w) as [V|V]; [lia|]. exfalso. assert (C : (w = 1 \/ w = 2)%Z) by lia. destruct C as [-> | ->]; discriminate T.
  - exfalso. rewrite N.bits_above_log2 in T; [discriminate|]. apply (N.lt_le_trans _ 7); [reflexivity|lia].
Qed.

Lemma D_box s z w : run_ s D0 z w = true -> (1 <= z <= 12 /\ 3 <= w <= 6)%Z.
Proof.
  intros T. destruct (Nat.Even_or_Odd s) as [[n ->]|[n ->]].
  - rewrite D_even in T. apply (narrow d0); auto.
  - rewrite Nat.add_comm in T. rewrite run_add in T. rewrite (run_same 1 _ _ (D_even n)) in T. change (run_ 1 D0) with (plane_life mB mS (pl d0)) in T. rewrite rows_step in T by reflexivity. apply (narrow (next_rows 0 d0)); auto.
Qed.

(** All blocks left behind in the first [k] rounds, [s] steps later. *)
Definition trail (s k : nat) : plane := fun z w => existsb (fun m => run_ s D0 z (w - 13 * Z.of_nat m)%Z) (seq 0 k).

Lemma trail_box s k z w : trail s k z w = true -> (1 <= z <= 12 /\ 3 <= w <= 13 * Z.of_nat k - 7)%Z.
Proof. intros T. unfold trail in T. apply existsb_exists in T as (m & I & T). apply in_seq in I. apply D_box in T. lia. Qed.

Lemma trail_S s k : same (trail s (S k)) (union (trail s k) (right (13 * Z.of_nat k) (run_ s D0))).
Proof. intros z w. unfold trail, union, right. rewrite seq_S, existsb_app. cbn [existsb Nat.add]. rewrite orb_false_r. reflexivity. Qed.

Lemma empty_run n : same (run_ n (fun _ _ => false)) (fun _ _ => false).
Proof.
  induction n as [|n IH]; [intros z w; reflexivity|]. change (run_ (S n) (fun _ _ => false)) with (plane_life mB mS (run_ n (fun _ _ => false))).
  intros z w. rewrite (life_same _ _ IH). apply quiet. reflexivity.
Qed.

Lemma trail_run k : forall s, same (run_ s (trail 0 k)) (trail s k).
Proof.
  induction k as [|k IH]; intros s; [apply (empty_run s)|]. eapply same_trans; [apply run_same, trail_S|]. change (run_ 0 D0) with D0.
  eapply same_trans; [apply (union_run (13 * Z.of_nat k - 7))|].
  - intros t Ht z w T. rewrite IH in T. apply trail_box in T. lia.
  - intros t Ht z w T. rewrite run_right in T. unfold right in T. apply D_box in T. lia.
  - intros z w. rewrite trail_S. unfold union. rewrite IH, run_right. reflexivity.
Qed.

Lemma trail_even n k : same (trail (2 * n) k) (trail 0 k).
Proof. intros z w. unfold trail. induction (seq 0 k) as [|m t IH]; [reflexivity|]. cbn [existsb]. rewrite IH, D_even. reflexivity. Qed.

(** The pattern after [k] rounds. *)
Definition after (k : nat) : plane := union (trail 0 k) (right (13 * Z.of_nat k) E0).

Lemma after_run k s : (s <= 170)%nat -> same (run_ s (after k)) (union (trail s k) (right (13 * Z.of_nat k) (run_ s E0))).
Proof.
  intros Hs. eapply same_trans; [apply (union_run (13 * Z.of_nat k - 7))|].
  - intros t Ht z w T. rewrite trail_run in T. apply trail_box in T. lia.
  - intros t Ht z w T. rewrite run_right in T. unfold right in T. apply E_box in T; lia.
  - intros z w. unfold union. rewrite trail_run, run_right. reflexivity.
Qed.

Lemma after_S k : same (run_ 170 (after k)) (after (S k)).
Proof.
  eapply same_trans; [apply after_run; lia|]. intros z w. unfold after, union at 1 2. rewrite trail_S. unfold union. change 170%nat with (2 * 85)%nat at 1. rewrite trail_even. rewrite <- orb_assoc. f_equal.
  unfold right. rewrite E_170. unfold union, right. change (run_ 0 D0) with D0. f_equal. f_equal. lia.
Qed.

Lemma rounds k : same (run_ (170 * k) E0) (after k).
Proof.
  induction k as [|k IH].
  - intros z w. change (170 * 0)%nat with 0%nat. unfold after, union, right. cbn [trail seq existsb orb run_ plane_n]. unfold trail. cbn [seq existsb orb]. change (13 * Z.of_nat 0)%Z with 0%Z. rewrite Z.sub_0_r. reflexivity.
  - replace (170 * S k)%nat with (170 + 170 * k)%nat by lia. rewrite run_add. eapply same_trans; [apply run_same, IH|apply after_S].
Qed.

(** Where it is at any time of the first [k] rounds. *)
Lemma whole_box n k z w : (n <= 170 * k)%nat -> run_ n E0 z w = true -> (1 <= z <= 12 /\ 1 <= w <= 13 * Z.of_nat k + 12)%Z.
Proof.
  intros Hn T. set (q := (n / 170)%nat). set (s := (n mod 170)%nat). assert (E : n = (s + 170 * q)%nat) by (unfold s, q; pose proof (Nat.div_mod n 170 ltac:(lia)); lia).
  assert (Hs : (s < 170)%nat) by (apply Nat.mod_upper_bound; lia). clearbody q s. subst n. rewrite run_add in T. rewrite (run_same s _ _ (rounds q)) in T. rewrite after_run in T by lia.
  unfold union in T. apply orb_prop in T as [T|T]; [apply trail_box in T; nia|]. unfold right in T. destruct (Nat.eq_dec q k) as [->|N].
  - assert (s = 0)%nat by lia. subst s. cbn [run_ plane_n] in T. apply (narrow_e) in T. lia.
  - apply E_box in T; [|lia]. assert (q + 1 <= k)%nat by lia. nia.
Qed.
