(** How far apart two runs can get: Lipschitz bounds. *)
From Coq Require Import Reals List Arith Bool.
From Verif Require Import Base Tensor MActivations MCommon MCca SGrid.
Import ListNotations.
Open Scope R_scope.

(** On [-K, K] the function changes at most [L] times as much as its argument ... *)
Definition lip_on (K L : R) (f : R -> R) : Prop := forall x y, Rabs x <= K -> Rabs y <= K -> Rabs (f x - f y) <= L * Rabs (x - y).
(** ... and does not exceed [M]. *)
Definition bounded_on (K M : R) (f : R -> R) : Prop := forall x, Rabs x <= K -> Rabs (f x) <= M.

(** The absolute weights an output channel of a convolution takes in. *)
Definition row_weight (l : conv_layer) (o : nat) : R :=
  rsum (tC (cl_w l)) (fun c => rsum (tH (cl_w l)) (fun y => rsum (tW (cl_w l)) (fun x => Rabs (get (cl_w l) o c y x)))).

Definition layer_within (K : R) (l : conv_layer) : Prop := forall o, (o < tB (cl_w l))%nat -> row_weight l o <= K.

(** The same for the layer that mixes the internal channels into the external ones. *)
Definition wl_within (K : R) (w : wlayer) : Prop :=
  match w with
  | WConv l => layer_within K l
  | WMlp l1 l2 => exists A B, 0 <= A /\ 0 <= B /\ layer_within A l1 /\ layer_within B l2 /\ A * B <= K
  end.

(** Weights without negative entries. *)
Definition nonneg_layer (l : conv_layer) : Prop := forall o c y x, 0 <= get (cl_w l) o c y x.

(** The slope of a Gaussian of this width is at most this. *)
Definition gauss_lip (sigma : R) : R := exp (- (1 / 2)) / Rabs (eps9 + sigma).

Definition twice (mode : bool) (L : R) : R := if mode then 2 * L else L.

(** Sum of |v_i| i K^(i-1) from exponent [ii] on. *)
Fixpoint poly_lip (K : R) (ii : nat) (coef : list R) : R :=
  match coef with
  | [] => 0
  | v :: t => Rabs v * (INR ii * K ^ (ii - 1)) + poly_lip K (S ii) t
  end.

(** A slope for each growth function on [-K, K]. *)
Definition act_lip (K : R) (a : act) : R :=
  match a with
  | AGaussian _ sigma mode => twice mode (gauss_lip sigma)
  | ADoGaussian _ sigma _ mode => if mode then 3 * gauss_lip sigma else 2 * gauss_lip sigma
  | ADoubleGaussian _ sigma mode => twice mode (gauss_lip (nth 0 sigma 0) + gauss_lip (nth 1 sigma 0))
  | AMixture gs mode => twice mode (fold_right (fun g s => Rabs (fst (fst g)) * gauss_lip (snd g) + s) 0 gs)
  | APolynomial coef mode => twice mode (poly_lip K 0 coef)
  | ACosOverX2 _ omega _ => Rabs omega + 10
  | ASmoothIntervals ivs alpha mode => twice mode (INR (List.length ivs) * (2 / Rabs alpha))
  | ASmoothLife _ _ => 0
  | AIdentity => 1
  | AReLU => 1
  | ATanh => 1
  | ASigmoid => 1 / 4
  | ASiLU => 1 + K / 4
  | AELU => 1
  end.

(** A bound for each growth function on [-K, K]. *)
Definition act_bound (K : R) (a : act) : R :=
  match a with
  | AGaussian _ _ _ | ADoubleGaussian _ _ _ | AMixture _ _ | ATanh | ASigmoid => 1
  | ADoGaussian _ _ _ mode => if mode then 3 else 1
  | ACosOverX2 _ _ mode => if mode then 1 else 2
  | ASmoothIntervals ivs _ mode => if mode then Rmax 1 (2 * INR (List.length ivs) - 1) else INR (List.length ivs)
  | _ => Rabs (act_fn a 0) + act_lip K a * K
  end.

(** All but the step function of SmoothLife, which jumps. *)
Definition no_jump (a : act) : Prop := match a with ASmoothLife _ _ => False | _ => True end.

Definition all_lip (K L : R) (fns : list act) : Prop := forall a, In a fns -> lip_on K L (act_fn a).
Definition all_bounded (K M : R) (fns : list act) : Prop := forall a, In a fns -> bounded_on K M (act_fn a).

(** Growth functions that work, do not jump, and have slope at most [L] and size at most [M]. *)
Definition tame (K L M : R) (fns : list act) : Prop := forall a, In a fns -> act_ok a = Ok tt /\ no_jump a /\ act_lip K a <= L /\ act_bound K a <= M.

(** Two grids of one shape with entries in [0,1] that differ by at most [e] anywhere. *)
Definition near (e : R) (u v : tensor) : Prop :=
  twf u /\ twf v /\ shape u = shape v /\ in_unit u /\ in_unit v /\
  forall b c i j, (b < tB u)%nat -> (c < tC u)%nat -> (i < tH u)%nat -> (j < tW u)%nat -> Rabs (get u b c i j - get v b c i j) <= e.

(** A step multiplies the distance of grids of fewer than four channels by at most [q], and
    either accepts both or neither. *)
Definition spreads (q : R) (f : tensor -> res tensor) : Prop :=
  forall e u v, 0 <= e -> (tC u < 4)%nat -> near e u v ->
    (forall u', f u = Ok u' -> exists v', f v = Ok v' /\ near (q * e) u' v') /\ (forall er, f u = Err er -> f v = Err er).

(** The error after [n] steps that multiply it by [q] and add [d]. *)
Fixpoint grown (q d e : R) (n : nat) : R :=
  match n with
  | O => e
  | S m => q * grown q d e m + d
  end.
