(** Specification vocabulary for the step predictor. *)
From Coq Require Import Reals ZArith List String Arith.
From Verif Require Import Base Tensor MPredict SGrid SCca SNca SText.
Import ListNotations.
Open Scope R_scope.

(** A plane read at integer coordinates, 0 outside. *)
Definition at0 (H W : nat) (f : nat -> nat -> R) (i j : Z) : R :=
  if (Z.leb 0 i && Z.ltb i (Z.of_nat H) && (Z.leb 0 j && Z.ltb j (Z.of_nat W)))%bool then f (Z.to_nat i) (Z.to_nat j) else 0.

(** Unit [h] of the hidden layer: rectified bias plus weighted sum over the window of radius [r]. *)
Definition hidden_unit (la : blayer) (r : nat) (x : tensor) (b h i j : nat) : R :=
  Rmax (rsum (tC x) (fun c => rsum (2 * r + 1) (fun y => rsum (2 * r + 1) (fun z =>
          get (cl_w (bl_c la)) h c y z *
          at0 (tH x) (tW x) (get x b c) (Z.of_nat i + Z.of_nat y - Z.of_nat r) (Z.of_nat j + Z.of_nat z - Z.of_nat r))))
        + nth h (bl_b la) 0) 0.

Definition logistic (z : R) : R := 1 / (1 + exp (- z)).

(** What one pass adds to a cell: the logistic function of a combination of hidden units, with
    dropout factors [g]. *)
Definition pass_gain (la lb : blayer) (r hid : nat) (g : nat -> R) (x : tensor) (b o i j : nat) : R :=
  logistic (rsum hid (fun h => get (cl_w (bl_c lb)) o h 0 0 * (g h * hidden_unit la r x b h i j)) + nth o (bl_b lb) 0).

Definition pass (la lb : blayer) (r hid : nat) (g : nat -> nat -> nat -> nat -> R) (x : tensor) : tensor :=
  build (tB x) (tC x) (tH x) (tW x) (fun b o i j =>
    get x b o i j + pass_gain la lb r hid (fun h => g b h i j) x b o i j).

(** The passes number [k], [k+1], ..., with the layers [2k] and [2k+1] for pass [k]. *)
Definition blank : blayer := mkBL (mkL (mkT 0 0 0 0 []) 0 0 Zeros) [].
Fixpoint passes (n k : nat) (ls : list blayer) (r hid : nat) (g : nat -> nat -> nat -> nat -> nat -> R) (x : tensor) : tensor :=
  match n with
  | O => x
  | S m => passes m (S k) ls r hid g (pass (nth (2 * k) ls blank) (nth (2 * k + 1) ls blank) r hid (g (2 * k)%nat) x)
  end.

(** A well-formed predictor: [repeats] pairs of a window layer and a 1x1 layer. *)
Definition window_layer (r hid out : nat) (l : blayer) : Prop :=
  layer_wf out hid (bl_c l) /\ cl_p (bl_c l) = r /\ cl_g (bl_c l) = 1%nat /\ cl_m (bl_c l) = Zeros.
Definition point_layer (hid out : nat) (l : blayer) : Prop :=
  pt_layer hid out (bl_c l) /\ cl_m (bl_c l) = Zeros.
Definition pred_wf (r hid out : nat) (p : predictor) : Prop :=
  0 <= pr_dropout p <= 1 /\
  forall k, (k < pr_repeats p)%nat ->
    (exists l, nth_error (pr_layers p) (2 * k) = Some l /\ window_layer r hid out l) /\
    (exists l, nth_error (pr_layers p) (2 * k + 1) = Some l /\ point_layer hid out l).

(** Half the repetitions, rounded up. *)
Definition half_up (n : nat) : nat := ((n + 1) / 2)%nat.

(** Sum of squared differences over all cells of two equally shaped tensors. *)
Definition sq_dist (y z : tensor) : R :=
  rsum (tB y) (fun b => rsum (tC y) (fun c => rsum (tH y) (fun i => rsum (tW y) (fun j =>
    (get y b c i j - get z b c i j) ^ 2)))).

(** In a file system everything lies in directories. *)
Definition tree (f : files) : Prop := forall p c, f (p ++ [c])%list <> None -> f p = Some NDir.

(** Exponentially weighted average of the losses l_0 .. l_n: weight 0.99^n for l_0 and
    0.01 * 0.99^(n-k) for l_k. *)
Definition ewma (l : list R) (n : nat) : R :=
  (99 / 100) ^ n * nth 0 l 0 + rsum n (fun k => 1 / 100 * (99 / 100) ^ (n - 1 - k) * nth (S k) l 0).

(** A pass of training over batches: the loss of a batch is the mean squared error of the
    predictor as it was when the batch came, under the dropout masks of that step. *)
Section Training.
  Variable Opt : Type.
  Variable learn : Opt -> predictor -> (nat -> nat -> nat -> nat -> nat -> bool) -> tensor * tensor -> Opt * predictor.
  Variable masks : nat -> nat -> nat -> nat -> nat -> nat -> bool.
  Inductive training : nat -> Opt -> predictor -> list (tensor * tensor) -> list R -> Opt -> predictor -> Prop :=
  | training_nil : forall k o p, training k o p [] [] o p
  | training_cons : forall k o p x y z t ls o' p',
      predict true (masks k) p x = Ok z -> shape y = shape z ->
      training (S k) (fst (learn o p (masks k) (x, y))) (snd (learn o p (masks k) (x, y))) t ls o' p' ->
      training k o p ((x, y) :: t) (sq_dist y z / INR (tB y * tC y * tH y * tW y) :: ls) o' p'.
End Training.

(** [t] is [s] with the leftmost occurrence of [old] replaced by [new], and so on in the rest. *)
Inductive replaced (old new : string) : string -> string -> Prop :=
| replaced_none : forall s, ~ SText.occurs old s -> replaced old new s s
| replaced_first : forall l r t,
    (forall l' r', (l ++ old ++ r = l' ++ old ++ r')%string -> (String.length l <= String.length l')%nat) ->
    replaced old new r t -> replaced old new (l ++ old ++ r)%string (l ++ new ++ t)%string.
