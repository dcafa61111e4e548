(** Basic vocabulary: Python exceptions as values, finite sums, sums over lists. *)
From Coq Require Import Reals Lra Lia List Arith Bool Permutation.
Import ListNotations.
Open Scope R_scope.

(** Python exception classes that the modelled code can raise. [NonFinite] is not an
    exception: it stands for arithmetic that leaves the finite numbers (division by
    zero, square root of a negative number), which torch/numpy turn into inf or NaN.
    [OutOfFuel] is the model's own marker for a loop or recursion that did not end, and
    [Unmodelled] for an argument of a kind that the model leaves out. *)
Inductive err : Set :=
| AssertionError | IndexError | ValueError | KeyError | TypeError | AttributeError
| UnboundLocalError | ZeroDivisionError | RuntimeError | FileNotFoundError
| OSError | NameError
| NonFinite | OutOfFuel
| Unmodelled.

Inductive res (A : Type) : Type :=
| Ok (a : A)
| Err (e : err).
Arguments Ok {A} a.
Arguments Err {A} e.

Definition bind {A B} (m : res A) (k : A -> res B) : res B :=
  match m with Ok a => k a | Err e => Err e end.

Notation "'let*' x ':=' m 'in' k" := (bind m (fun x => k))
  (at level 200, x pattern, m at level 100, k at level 200, right associativity).

Definition guard (b : bool) (e : err) : res unit := if b then Ok tt else Err e.

Lemma bind_ok A B (m : res A) (k : A -> res B) b :
  bind m k = Ok b -> exists a, m = Ok a /\ k a = Ok b.
Proof. destruct m; simpl; intros; [eauto | discriminate]. Qed.

Lemma guard_ok b e u : guard b e = Ok u -> b = true.
Proof. destruct b; simpl; congruence. Qed.

(** Iterating a step that may fail. *)
Fixpoint iter_res {A} (f : A -> res A) (n : nat) (a : A) : res A :=
  match n with
  | O => Ok a
  | S m => let* b := f a in iter_res f m b
  end.

(** ** Finite sums of reals *)
Fixpoint rsum (n : nat) (f : nat -> R) : R :=
  match n with
  | O => 0
  | S m => rsum m f + f m
  end.

Lemma rsum_ext n f g : (forall i, (i < n)%nat -> f i = g i) -> rsum n f = rsum n g.
Proof.
  induction n; simpl; intros Hx; auto.
  rewrite IHn, Hx; auto.
Qed.

Lemma rsum_S n f : rsum (S n) f = rsum n f + f n.
Proof. reflexivity. Qed.

Lemma rsum_plus n f g : rsum n (fun i => f i + g i) = rsum n f + rsum n g.
Proof. induction n; simpl; [lra | rewrite IHn; lra]. Qed.

Lemma rsum_minus n f g : rsum n (fun i => f i - g i) = rsum n f - rsum n g.
Proof. induction n; simpl; [lra | rewrite IHn; lra]. Qed.

Lemma rsum_scal n a f : rsum n (fun i => a * f i) = a * rsum n f.
Proof. induction n; simpl; [lra | rewrite IHn; lra]. Qed.

Lemma rsum_scal_r n a f : rsum n (fun i => f i * a) = rsum n f * a.
Proof. induction n; simpl; [lra | rewrite IHn; lra]. Qed.

Lemma rsum_const n a : rsum n (fun _ => a) = INR n * a.
Proof. induction n; [simpl; lra | rewrite S_INR; simpl; rewrite IHn; lra]. Qed.

Lemma rsum_0 n f : (forall i, (i < n)%nat -> f i = 0) -> rsum n f = 0.
Proof. intros Hf. rewrite (rsum_ext n f (fun _ => 0)); auto. rewrite rsum_const; lra. Qed.

Lemma rsum_le n f g : (forall i, (i < n)%nat -> f i <= g i) -> rsum n f <= rsum n g.
Proof.
  induction n; simpl; intros Hx; [lra|].
  assert (f n <= g n) by auto. assert (rsum n f <= rsum n g) by auto. lra.
Qed.

Lemma rsum_lt n f g : (forall i, (i < n)%nat -> f i <= g i) ->
  (exists i, (i < n)%nat /\ f i < g i) -> rsum n f < rsum n g.
Proof.
  induction n; simpl; intros Hx [k [Hk Hlt]]; [lia|].
  assert (f n <= g n) by auto.
  assert (rsum n f <= rsum n g) by (apply rsum_le; auto).
  destruct (Nat.eq_dec k n) as [->|Hne]; [lra|].
  assert (rsum n f < rsum n g) by (apply IHn; auto; exists k; split; [lia|auto]).
  lra.
Qed.

Lemma rsum_nonneg n f : (forall i, (i < n)%nat -> 0 <= f i) -> 0 <= rsum n f.
Proof.
  intros Hf. rewrite <- (rsum_0 n (fun _ => 0)) by auto. apply rsum_le; auto.
Qed.

Lemma rsum_abs n f : Rabs (rsum n f) <= rsum n (fun i => Rabs (f i)).
Proof.
  induction n; simpl; [rewrite Rabs_R0; lra|].
  eapply Rle_trans; [apply Rabs_triang|lra].
Qed.

Lemma rsum_swap n m (f : nat -> nat -> R) :
  rsum n (fun i => rsum m (fun j => f i j)) = rsum m (fun j => rsum n (fun i => f i j)).
Proof.
  induction n; simpl.
  - symmetry; apply rsum_0; auto.
  - rewrite IHn, <- rsum_plus. reflexivity.
Qed.

Lemma rsum_single n k f : (k < n)%nat ->
  (forall i, (i < n)%nat -> i <> k -> f i = 0) -> rsum n f = f k.
Proof.
  induction n; intros Hk Hz; [lia|]. simpl.
  destruct (Nat.eq_dec k n) as [->|Hne].
  - rewrite rsum_0; [lra|]. intros; apply Hz; lia.
  - rewrite IHn; [|lia|intros; apply Hz; lia]. rewrite (Hz n); [lra|lia|auto].
Qed.

Lemma rsum_app n m f : rsum (n + m) f = rsum n f + rsum m (fun i => f (n + i)%nat).
Proof.
  induction m; simpl.
  - rewrite Nat.add_0_r; lra.
  - rewrite Nat.add_succ_r. simpl. rewrite IHm. lra.
Qed.

Lemma rsum_S_l n f : rsum (S n) f = f O + rsum n (fun i => f (S i)).
Proof. change (S n) with (1 + n)%nat. rewrite rsum_app. simpl. lra. Qed.

Lemma rsum_mono_n n m f : (n <= m)%nat -> (forall i, (i < m)%nat -> 0 <= f i) -> rsum n f <= rsum m f.
Proof.
  intros Hnm Hf. replace m with (n + (m - n))%nat by lia. rewrite rsum_app.
  assert (0 <= rsum (m - n) (fun i => f (n + i)%nat)) by (apply rsum_nonneg; intros; apply Hf; lia). lra.
Qed.

Lemma rsum_term_le n k f : (k < n)%nat -> (forall i, (i < n)%nat -> 0 <= f i) -> f k <= rsum n f.
Proof.
  induction n; intros Hk Hf; [lia|]. simpl.
  assert (0 <= rsum n f) by (apply rsum_nonneg; auto).
  destruct (Nat.eq_dec k n) as [->|Hne]; [lra|].
  assert (f k <= rsum n f) by (apply IHn; [lia|auto]). assert (0 <= f n) by auto. lra.
Qed.

Lemma rsum_0_inv n f : (forall i, (i < n)%nat -> 0 <= f i) -> rsum n f <= 0 ->
  forall i, (i < n)%nat -> f i = 0.
Proof.
  intros Hf Hs i Hi. pose proof (rsum_term_le n i f Hi Hf). assert (0 <= f i) by auto. lra.
Qed.

Lemma rsum_rev n f : rsum n (fun i => f (n - 1 - i)%nat) = rsum n f.
Proof.
  induction n; [reflexivity|].
  rewrite rsum_S_l. cbn [rsum].
  replace (S n - 1 - 0)%nat with n by lia.
  rewrite (rsum_ext n (fun i => f (S n - 1 - S i)%nat) (fun i => f (n - 1 - i)%nat)) by (intros; f_equal; lia).
  rewrite IHn. lra.
Qed.

(** A full cycle of a cyclic shift visits every index once. *)
Lemma rsum_mod_shift n k f : rsum n (fun i => f ((i + k) mod n)%nat) = rsum n f.
Proof.
  destruct n as [|n']; [reflexivity|]. set (n := S n').
  assert (Hn : n <> 0%nat) by (unfold n; lia).
  set (q := (k mod n)%nat).
  assert (Hq : (q < n)%nat) by (apply Nat.mod_upper_bound; auto).
  rewrite (rsum_ext n _ (fun i => f ((i + q) mod n)%nat)).
  2:{ intros; unfold q. rewrite Nat.add_mod_idemp_r; auto. }
  replace (rsum n (fun i => f ((i + q) mod n)%nat)) with
    (rsum ((n - q) + q) (fun i => f ((i + q) mod n)%nat)) by (f_equal; lia).
  rewrite rsum_app.
  rewrite (rsum_ext (n - q) _ (fun i => f (q + i)%nat)).
  2:{ intros i Hi. rewrite Nat.mod_small by lia. f_equal; lia. }
  rewrite (rsum_ext q _ f).
  2:{ intros i Hi. f_equal. replace (n - q + i + q)%nat with (i + 1 * n)%nat by lia.
      rewrite Nat.mod_add by auto. apply Nat.mod_small; lia. }
  rewrite Rplus_comm, <- rsum_app. f_equal. lia.
Qed.

Lemma rsum_prod n m (g : nat -> nat -> R) :
  rsum (n * m) (fun k => g (k / m)%nat (k mod m)%nat) = rsum n (fun i => rsum m (fun j => g i j)).
Proof.
  destruct m as [|m'].
  { rewrite Nat.mul_0_r. symmetry; apply rsum_0; auto. }
  set (m := S m'). assert (Hm : m <> 0%nat) by (unfold m; lia).
  induction n; [reflexivity|].
  replace (S n * m)%nat with (n * m + m)%nat by lia.
  rewrite rsum_app, IHn. cbn [rsum]. f_equal.
  apply rsum_ext; intros j Hj.
  replace (n * m + j)%nat with (j + n * m)%nat by lia.
  rewrite Nat.div_add, Nat.mod_add by auto.
  rewrite Nat.div_small, Nat.mod_small by auto. f_equal.
Qed.

(** ** Lists of reals *)
Definition lsum (l : list R) : R := fold_right Rplus 0 l.

Lemma lsum_app l1 l2 : lsum (l1 ++ l2) = lsum l1 + lsum l2.
Proof. induction l1; simpl; [lra | unfold lsum in *; simpl in *; rewrite IHl1; lra]. Qed.

Lemma lsum_map_seq n f : lsum (map f (seq 0 n)) = rsum n f.
Proof.
  induction n; [reflexivity|].
  rewrite seq_S, map_app, lsum_app, IHn. simpl. lra.
Qed.

Lemma lsum_perm l1 l2 : Permutation l1 l2 -> lsum l1 = lsum l2.
Proof. induction 1; simpl; unfold lsum in *; simpl in *; lra. Qed.

Lemma lsum_nth l : lsum l = rsum (length l) (fun i => nth i l 0).
Proof.
  induction l; [reflexivity|].
  cbn [length]. rewrite rsum_S_l. simpl. unfold lsum in *; simpl. rewrite IHl. reflexivity.
Qed.

(** Least element of a non-empty list (torch [.min()]). *)
Definition lmin (l : list R) : R :=
  match l with [] => 0 | x :: t => fold_left Rmin t x end.

Lemma fold_min_le l x : fold_left Rmin l x <= x /\ (forall y, In y l -> fold_left Rmin l x <= y).
Proof.
  revert x; induction l; intros x; simpl; [split; [lra|contradiction]|].
  destruct (IHl (Rmin x a)) as [H1 H2].
  pose proof (Rmin_l x a). pose proof (Rmin_r x a).
  split; [lra|]. intros y [<-|Hy]; [lra|auto].
Qed.

Lemma fold_min_in l x : fold_left Rmin l x = x \/ In (fold_left Rmin l x) l.
Proof.
  revert x; induction l; intros x; simpl; [auto|].
  destruct (IHl (Rmin x a)) as [H|H]; [|auto].
  rewrite H. unfold Rmin. destruct (Rle_dec x a); auto.
Qed.

Lemma lmin_le l y : In y l -> lmin l <= y.
Proof.
  destruct l as [|x t]; simpl; [contradiction|].
  destruct (fold_min_le t x) as [H1 H2]. intros [<-|Hy]; auto.
Qed.

Lemma lmin_in l : l <> [] -> In (lmin l) l.
Proof.
  destruct l as [|x t]; [congruence|]. intros _. simpl.
  destruct (fold_min_in t x); auto.
Qed.

(** Largest element of a non-empty list (torch [.max()]). *)
Definition lmax (l : list R) : R :=
  match l with [] => 0 | x :: t => fold_left Rmax t x end.

Lemma fold_max_ge l x : x <= fold_left Rmax l x /\ (forall y, In y l -> y <= fold_left Rmax l x).
Proof.
  revert x; induction l; intros x; simpl; [split; [lra|contradiction]|].
  destruct (IHl (Rmax x a)) as [H1 H2].
  pose proof (Rmax_l x a). pose proof (Rmax_r x a).
  split; [lra|]. intros y [<-|Hy]; [lra|auto].
Qed.

Lemma fold_max_in l x : fold_left Rmax l x = x \/ In (fold_left Rmax l x) l.
Proof.
  revert x; induction l; intros x; simpl; [auto|].
  destruct (IHl (Rmax x a)) as [H|H]; [|auto].
  rewrite H. unfold Rmax. destruct (Rle_dec x a); auto.
Qed.

Lemma lmax_ge l y : In y l -> y <= lmax l.
Proof.
  destruct l as [|x t]; simpl; [contradiction|].
  destruct (fold_max_ge t x) as [H1 H2]. intros [<-|Hy]; auto.
Qed.

Lemma lmax_in l : l <> [] -> In (lmax l) l.
Proof.
  destruct l as [|x t]; [congruence|]. intros _. simpl.
  destruct (fold_max_in t x); auto.
Qed.

Lemma map_nth_seq {A} (l : list A) d : map (fun i => nth i l d) (seq 0 (length l)) = l.
Proof.
  induction l; [reflexivity|].
  cbn [length seq map nth]. f_equal. rewrite <- seq_shift, map_map. exact IHl.
Qed.

Lemma nth_map_seq {A} (f : nat -> A) n k d : (k < n)%nat -> nth k (map f (seq 0 n)) d = f k.
Proof.
  intros Hk. rewrite nth_indep with (d' := f 0%nat) by (rewrite map_length, seq_length; auto).
  rewrite map_nth, seq_nth; auto.
Qed.

Lemma map_seq_ext {A} (f g : nat -> A) n : (forall i, (i < n)%nat -> f i = g i) ->
  map f (seq 0 n) = map g (seq 0 n).
Proof. intros Hx. apply map_ext_in. intros a Ha. apply in_seq in Ha. apply Hx; lia. Qed.

Definition rmap {A B} (f : A -> B) (m : res A) : res B :=
  match m with Ok a => Ok (f a) | Err e => Err e end.
