(** 4-D tensors in row-major order (torch's contiguous layout), padding, grouped
    convolution and broadcasting. Models the torch operations the code calls. *)
From Coq Require Import Reals Lra Lia List Arith Bool.
From Verif Require Import Base.
Import ListNotations.
Open Scope R_scope.

(** A torch tensor of shape (tB, tC, tH, tW): batch, channel, row, column. *)
Record tensor : Type := mkT { tB : nat; tC : nat; tH : nat; tW : nat; tdata : list R }.

Definition twf (t : tensor) : Prop := length (tdata t) = (tB t * tC t * tH t * tW t)%nat.

Definition shape (t : tensor) : nat * nat * nat * nat := (tB t, tC t, tH t, tW t).

(** Element access [t[b,c,i,j]]. *)
Definition get (t : tensor) (b c i j : nat) : R :=
  nth (((b * tC t + c) * tH t + i) * tW t + j)%nat (tdata t) 0.

(** The tensor of the given shape whose entries are given by an index function. *)
Definition build (B C H W : nat) (f : nat -> nat -> nat -> nat -> R) : tensor :=
  mkT B C H W
    (map (fun n => f (n / W / H / C)%nat ((n / W / H) mod C)%nat ((n / W) mod H)%nat (n mod W)%nat)
         (seq 0 (B * C * H * W))).

(** Pointwise function application. *)
Definition tmap (f : R -> R) (t : tensor) : tensor :=
  mkT (tB t) (tC t) (tH t) (tW t) (map f (tdata t)).

(** torch broadcasting of one dimension. *)
Definition bdim (a b : nat) : res nat :=
  if Nat.eqb a b then Ok a
  else if Nat.eqb a 1 then Ok b
  else if Nat.eqb b 1 then Ok a
  else Err RuntimeError.

Definition bidx (d i : nat) : nat := if Nat.eqb d 1 then 0%nat else i.

Definition bget (t : tensor) (b c i j : nat) : R :=
  get t (bidx (tB t) b) (bidx (tC t) c) (bidx (tH t) i) (bidx (tW t) j).

(** Binary pointwise operation with broadcasting. *)
Definition tzip (f : R -> R -> R) (x y : tensor) : res tensor :=
  let* B := bdim (tB x) (tB y) in
  let* C := bdim (tC x) (tC y) in
  let* H := bdim (tH x) (tH y) in
  let* W := bdim (tW x) (tW y) in
  Ok (build B C H W (fun b c i j => f (bget x b c i j) (bget y b c i j))).

(** torch.cat along the channel dimension. *)
Definition tcat (x y : tensor) : res tensor :=
  let* _ := guard (Nat.eqb (tB x) (tB y) && Nat.eqb (tH x) (tH y) && Nat.eqb (tW x) (tW y)) RuntimeError in
  Ok (build (tB x) (tC x + tC y) (tH x) (tW x)
        (fun b c i j => if Nat.ltb c (tC x) then get x b c i j else get y b (c - tC x) i j)).

(** torch.clamp(x, lo, hi) for real x. *)
Definition clamp (lo hi x : R) : R := Rmin (Rmax x lo) hi.

(** ** Padding, as torch.nn.functional.pad does before a convolution *)
Inductive pmode : Set := Zeros | Reflect | Replicate | Circular.

(** Source index of position [x] on a padded axis of original length [n] with padding
    [p] on both sides; [None] is a zero. *)
Definition pad_src (m : pmode) (n p x : nat) : option nat :=
  match m with
  | Zeros => if Nat.ltb x p then None else if Nat.ltb x (p + n) then Some (x - p)%nat else None
  | Circular => Some ((x + n - p) mod n)%nat
  | Reflect => if Nat.ltb x p then Some (p - x)%nat
               else if Nat.ltb x (p + n) then Some (x - p)%nat
               else Some (2 * (n - 1) - (x - p))%nat
  | Replicate => if Nat.ltb x p then Some 0%nat
                 else if Nat.ltb x (p + n) then Some (x - p)%nat
                 else Some (n - 1)%nat
  end.

(** torch rejects circular padding larger than the axis and reflect padding not
    smaller than it. *)
Definition pad_allowed (m : pmode) (n p : nat) : bool :=
  match m with
  | Zeros => true
  | Circular => Nat.leb p n
  | Reflect => Nat.ltb p n
  | Replicate => Nat.ltb 0 n
  end.

Definition pad2d (m : pmode) (p : nat) (t : tensor) : res tensor :=
  let* _ := guard (pad_allowed m (tH t) p && pad_allowed m (tW t) p) RuntimeError in
  Ok (build (tB t) (tC t) (tH t + 2 * p) (tW t + 2 * p)
        (fun b c i j =>
           match pad_src m (tH t) p i, pad_src m (tW t) p j with
           | Some y, Some x => get t b c y x
           | _, _ => 0
           end)).

(** Valid cross-correlation with groups: torch.nn.functional.conv2d(t, w, groups=g).
    [w] has shape (out, in/g, k, k'). *)
Definition conv2d (w : tensor) (g : nat) (t : tensor) : res tensor :=
  let* _ := guard (Nat.eqb (tC t) (g * tC w)) RuntimeError in
  let* _ := guard (Nat.leb (tH w) (tH t) && Nat.leb (tW w) (tW t)) RuntimeError in
  Ok (build (tB t) (tB w) (tH t - tH w + 1) (tW t - tW w + 1)
        (fun b o i j =>
           rsum (tC w) (fun c =>
             rsum (tH w) (fun y =>
               rsum (tW w) (fun x =>
                 get w o c y x * get t b ((o / (tB w / g)) * tC w + c) (i + y) (j + x)))))).

(** A bias-free nn.Conv2d layer with stride 1 (padding and padding_mode as given). *)
Record conv_layer : Type := mkL { cl_w : tensor; cl_g : nat; cl_p : nat; cl_m : pmode }.

Definition conv_apply (l : conv_layer) (t : tensor) : res tensor :=
  let* q := pad2d (cl_m l) (cl_p l) t in
  conv2d (cl_w l) (cl_g l) q.

(** Python [param[:] = kernel]: the kernel is expanded to the weight's shape. *)
Definition expand (O I : nat) (k : tensor) : res tensor :=
  let* _ := guard ((Nat.eqb (tB k) 1 || Nat.eqb (tB k) O) && (Nat.eqb (tC k) 1 || Nat.eqb (tC k) I)) RuntimeError in
  Ok (build O I (tH k) (tW k) (fun o c y x => bget k o c y x)).

(** Total of all entries ([t.sum()]) and all entries as a list. *)
Definition tsum (t : tensor) : R := lsum (tdata t).

(** ** Basic facts *)
Lemma flat_decode C H W b c i j : (c < C)%nat -> (i < H)%nat -> (j < W)%nat ->
  let n := (((b * C + c) * H + i) * W + j)%nat in
  (n mod W)%nat = j /\ ((n / W) mod H)%nat = i /\ ((n / W / H) mod C)%nat = c /\ (n / W / H / C)%nat = b.
Proof.
  intros Hc Hi Hj n.
  assert (E1 : (n / W)%nat = ((b * C + c) * H + i)%nat).
  { unfold n. rewrite Nat.add_comm, Nat.div_add by lia. rewrite Nat.div_small; lia. }
  assert (E2 : (n / W / H)%nat = (b * C + c)%nat).
  { rewrite E1, Nat.add_comm, Nat.div_add by lia. rewrite Nat.div_small; lia. }
  assert (E3 : (n / W / H / C)%nat = b).
  { rewrite E2, Nat.add_comm, Nat.div_add by lia. rewrite Nat.div_small; lia. }
  repeat split; auto.
  - unfold n. rewrite Nat.add_comm, Nat.mod_add by lia. apply Nat.mod_small; auto.
  - rewrite E1, Nat.add_comm, Nat.mod_add by lia. apply Nat.mod_small; auto.
  - rewrite E2, Nat.add_comm, Nat.mod_add by lia. apply Nat.mod_small; auto.
Qed.

Lemma flat_lt B C H W b c i j : (b < B)%nat -> (c < C)%nat -> (i < H)%nat -> (j < W)%nat ->
  (((b * C + c) * H + i) * W + j < B * C * H * W)%nat.
Proof.
  intros. assert (b * C + c < B * C)%nat by nia.
  assert ((b * C + c) * H + i < B * C * H)%nat by nia. nia.
Qed.

Lemma get_build B C H W f b c i j :
  (b < B)%nat -> (c < C)%nat -> (i < H)%nat -> (j < W)%nat ->
  get (build B C H W f) b c i j = f b c i j.
Proof.
  intros Hb Hc Hi Hj. unfold get, build; cbn [tC tH tW tdata].
  rewrite nth_map_seq by (apply flat_lt; auto).
  destruct (flat_decode C H W b c i j Hc Hi Hj) as (-> & -> & -> & ->). reflexivity.
Qed.

Lemma twf_build B C H W f : twf (build B C H W f).
Proof. unfold twf, build; simpl. rewrite map_length, seq_length; auto. Qed.

Lemma twf_tmap f t : twf t -> twf (tmap f t).
Proof. unfold twf, tmap; simpl. rewrite map_length; auto. Qed.

Lemma build_ext B C H W f g :
  (forall b c i j, (b < B)%nat -> (c < C)%nat -> (i < H)%nat -> (j < W)%nat -> f b c i j = g b c i j) ->
  build B C H W f = build B C H W g.
Proof.
  intros Hx. unfold build. f_equal. apply map_seq_ext. intros n Hn.
  assert (W <> 0 /\ H <> 0 /\ C <> 0)%nat as (HW & HH & HC) by (repeat split; intros ->; nia).
  apply Hx; try (apply Nat.mod_upper_bound; auto).
  apply Nat.div_lt_upper_bound; [auto|]. apply Nat.div_lt_upper_bound; [auto|].
  apply Nat.div_lt_upper_bound; [auto|]. nia.
Qed.

(** Every well-formed tensor is the table of its own entries. *)
Lemma build_get t : twf t -> build (tB t) (tC t) (tH t) (tW t) (get t) = t.
Proof.
  intros Hw. destruct t as [B C H W d]. unfold twf in Hw; simpl in *.
  unfold build. f_equal. rewrite <- Hw. rewrite <- (map_nth_seq d 0) at 2.
  apply map_seq_ext. intros n Hn. unfold get; simpl. f_equal.
  rewrite Hw in Hn.
  assert (W <> 0 /\ H <> 0 /\ C <> 0)%nat as (HW & HH & HC) by (repeat split; intros ->; nia).
  pose proof (Nat.div_mod n W HW). pose proof (Nat.div_mod (n / W) H HH).
  pose proof (Nat.div_mod (n / W / H) C HC). nia.
Qed.

Lemma tensor_ext x y : twf x -> twf y -> shape x = shape y ->
  (forall b c i j, (b < tB x)%nat -> (c < tC x)%nat -> (i < tH x)%nat -> (j < tW x)%nat ->
     get x b c i j = get y b c i j) -> x = y.
Proof.
  intros Hx Hy Hs He. rewrite <- (build_get x Hx), <- (build_get y Hy).
  unfold shape in Hs. injection Hs as E1 E2 E3 E4.
  rewrite <- E1, <- E2, <- E3, <- E4. apply build_ext; auto.
Qed.

Lemma get_tmap f t b c i j : twf t ->
  (b < tB t)%nat -> (c < tC t)%nat -> (i < tH t)%nat -> (j < tW t)%nat ->
  get (tmap f t) b c i j = f (get t b c i j).
Proof.
  intros Hw Hb Hc Hi Hj. unfold get, tmap; cbn [tC tH tW tdata].
  pose proof (flat_lt _ _ _ _ _ _ _ _ Hb Hc Hi Hj) as Hl.
  rewrite nth_indep with (d' := f 0) by (rewrite map_length, Hw; auto).
  apply map_nth.
Qed.

Lemma tmap_build B C H W f g : tmap f (build B C H W g) = build B C H W (fun b c i j => f (g b c i j)).
Proof. unfold tmap, build; simpl. f_equal. rewrite map_map. reflexivity. Qed.

Lemma tmap_eq_build f t : twf t ->
  tmap f t = build (tB t) (tC t) (tH t) (tW t) (fun b c i j => f (get t b c i j)).
Proof. intros Hw. rewrite <- (build_get t Hw) at 1. apply tmap_build. Qed.

(** Every listed entry of a well-formed tensor has coordinates. *)
Lemma in_data_get t x : twf t -> In x (tdata t) ->
  exists b c i j, (b < tB t)%nat /\ (c < tC t)%nat /\ (i < tH t)%nat /\ (j < tW t)%nat /\ x = get t b c i j.
Proof.
  intros Hw Hin. rewrite <- (build_get t Hw) in Hin. unfold build in Hin; simpl in Hin.
  apply in_map_iff in Hin. destruct Hin as (n & <- & Hn). apply in_seq in Hn.
  set (W := tW t) in *. set (H := tH t) in *. set (C := tC t) in *.
  assert (W <> 0 /\ H <> 0 /\ C <> 0)%nat as (HW & HH & HC) by (repeat split; intros E; rewrite E in Hn; nia).
  exists (n / W / H / C)%nat, ((n / W / H) mod C)%nat, ((n / W) mod H)%nat, (n mod W)%nat.
  repeat split; try (apply Nat.mod_upper_bound; auto).
  apply Nat.div_lt_upper_bound; [auto|]. apply Nat.div_lt_upper_bound; [auto|].
  apply Nat.div_lt_upper_bound; [auto|]. nia.
Qed.

Lemma get_in_data t b c i j : twf t ->
  (b < tB t)%nat -> (c < tC t)%nat -> (i < tH t)%nat -> (j < tW t)%nat -> In (get t b c i j) (tdata t).
Proof.
  intros Hw Hb Hc Hi Hj. unfold get. apply nth_In. rewrite Hw. apply flat_lt; auto.
Qed.

Lemma tsum_build B C H W f : tsum (build B C H W f) =
  rsum B (fun b => rsum C (fun c => rsum H (fun i => rsum W (fun j => f b c i j)))).
Proof.
  unfold tsum, build; cbn [tdata]. rewrite lsum_map_seq.
  rewrite (rsum_prod (B * C * H) W (fun m j => f (m / H / C)%nat ((m / H) mod C)%nat (m mod H)%nat j)).
  rewrite (rsum_prod (B * C) H (fun m i => rsum W (fun j => f (m / C)%nat (m mod C)%nat i j))).
  rewrite (rsum_prod B C (fun b c => rsum H (fun i => rsum W (fun j => f b c i j)))).
  reflexivity.
Qed.

Lemma tsum_get t : twf t -> tsum t =
  rsum (tB t) (fun b => rsum (tC t) (fun c => rsum (tH t) (fun i => rsum (tW t) (fun j => get t b c i j)))).
Proof. intros Hw. rewrite <- (build_get t Hw) at 1. apply tsum_build. Qed.

(** Bounds of [clamp]. *)
Lemma clamp_range lo hi x : lo <= hi -> lo <= clamp lo hi x <= hi.
Proof.
  intros Hl. unfold clamp. split.
  - apply Rmin_glb; [apply Rmax_r | auto].
  - apply Rmin_r.
Qed.

Lemma clamp_id lo hi x : lo <= x <= hi -> clamp lo hi x = x.
Proof. intros [Ha Hb]. unfold clamp. rewrite Rmax_left by auto. apply Rmin_left; auto. Qed.

Lemma clamp_lo lo hi x : lo <= hi -> x <= lo -> clamp lo hi x = lo.
Proof. intros. unfold clamp. rewrite Rmax_right by auto. apply Rmin_left; auto. Qed.

Lemma clamp_hi lo hi x : lo <= hi -> hi <= x -> clamp lo hi x = hi.
Proof. intros. unfold clamp. rewrite Rmax_left by lra. apply Rmin_right; auto. Qed.

Lemma clamp_mono lo hi x y : x <= y -> clamp lo hi x <= clamp lo hi y.
Proof.
  intros Hxy. unfold clamp. apply Rle_min_compat_r. apply Rle_max_compat_r. exact Hxy.
Qed.

Lemma clamp_lip lo hi x y : Rabs (clamp lo hi x - clamp lo hi y) <= Rabs (x - y).
Proof.
  unfold clamp. eapply Rle_trans with (Rabs (Rmax x lo - Rmax y lo)).
  - generalize (Rmax x lo), (Rmax y lo). intros a b. unfold Rmin.
    destruct (Rle_dec a hi) as [H1|H1], (Rle_dec b hi) as [H2|H2];
      try apply Rnot_le_lt in H1; try apply Rnot_le_lt in H2;
      unfold Rabs; repeat match goal with |- context [Rcase_abs ?z] => destruct (Rcase_abs z) end; lra.
  - unfold Rmax.
    destruct (Rle_dec x lo) as [H1|H1], (Rle_dec y lo) as [H2|H2];
      try apply Rnot_le_lt in H1; try apply Rnot_le_lt in H2;
      unfold Rabs; repeat match goal with |- context [Rcase_abs ?z] => destruct (Rcase_abs z) end; lra.
Qed.
