(** Specification vocabulary for the predictor of the halting wrapper. One sample is a function
    of channel, row and column, together with its height and width. *)
From Coq Require Import Reals ZArith List Arith.
From Verif Require Import Base Tensor MPredict MHalt SGrid SCca SNca SPredict.
Import ListNotations.
Open Scope R_scope.

(** Bias plus weighted sum over the 3x3 window, with zeros outside. *)
Definition window3 (l : blayer) (C H W : nat) (f : nat -> nat -> nat -> R) (o i j : nat) : R :=
  rsum C (fun c => rsum 3 (fun y => rsum 3 (fun z =>
    get (cl_w (bl_c l)) o c y z * at0 H W (f c) (Z.of_nat i + Z.of_nat y - 1) (Z.of_nat j + Z.of_nat z - 1))))
  + nth o (bl_b l) 0.

(** Rectified window, with a dropout factor [g] for every unit. *)
Definition rectified (l : blayer) (C H W : nat) (g f : nat -> nat -> nat -> R) (o i j : nat) : R :=
  Rmax (g o i j * window3 l C H W f o i j) 0.

(** The average of a square of four cells. *)
Definition quarter (f : nat -> nat -> nat -> R) (c i j : nat) : R :=
  rsum 2 (fun y => rsum 2 (fun z => f c (2 * i + y) (2 * j + z)))%nat / 4.

(** Block number [k] on one sample: three rectified windows, pooled. [g n] are the factors of the
    dropout layer number [n]. *)
Definition block_fun (b : hblock) (k ext H W : nat) (g : nat -> nat -> nat -> nat -> R) (f : nat -> nat -> nat -> R)
    : nat -> nat -> nat -> R :=
  quarter (rectified (hb_2 b) 32 H W (g (3 * k + 2)%nat)
          (rectified (hb_1 b) 32 H W (g (3 * k + 1)%nat)
          (rectified (hb_0 b) ext H W (g (3 * k)%nat) f))).

(** The blocks from number [k] on and then the final layer: the mean over the remaining plane of
    the logistic function of the final window. *)
Fixpoint belief (bs : list hblock) (final : blayer) (k ext H W : nat) (g : nat -> nat -> nat -> nat -> R)
    (f : nat -> nat -> nat -> R) (o : nat) : R :=
  match bs with
  | [] => rsum H (fun i => rsum W (fun j => logistic (window3 final ext H W f o i j))) / INR (H * W)
  | b :: t => belief t final (S k) ext (H / 2) (W / 2) g (block_fun b k ext H W g f) o
  end.

(** A well-formed predictor for [ext] channels with [out] outputs. *)
Definition hblock_wf (ext : nat) (b : hblock) : Prop :=
  window_layer 1 32 ext (hb_0 b) /\ window_layer 1 32 32 (hb_1 b) /\ window_layer 1 ext 32 (hb_2 b).
Definition hnet_wf (ext blocks out : nat) (net : hnet) : Prop :=
  List.length (hn_blocks net) = blocks /\ Forall (hblock_wf ext) (hn_blocks net) /\ window_layer 1 out ext (hn_final net).

(** What the predictor accepts: its channels, on planes that can be halved for every block. *)
Definition predictable (ext blocks : nat) (x : tensor) : Prop :=
  tC x = ext /\ (2 ^ blocks <= tH x)%nat /\ (2 ^ blocks <= tW x)%nat.

(** The six parameters of a block. *)
Definition block_entries (b : hblock) : nat :=
  (List.length (tdata (cl_w (bl_c (hb_0 b)))) + List.length (bl_b (hb_0 b)) +
   (List.length (tdata (cl_w (bl_c (hb_1 b)))) + List.length (bl_b (hb_1 b))) +
   (List.length (tdata (cl_w (bl_c (hb_2 b)))) + List.length (bl_b (hb_2 b))))%nat.

(** An automaton that always answers, with a grid of the same shape. *)
Definition ca_total (St : Type) (ca : St -> tensor -> res (St * tensor)) (B C H W : nat) : Prop :=
  forall s u, shape u = (B, C, H, W) -> twf u -> exists s' u', ca s u = Ok (s', u') /\ shape u' = (B, C, H, W) /\ twf u'.
