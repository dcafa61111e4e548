(** Specification vocabulary for the predictors that share one global name. *)
From Coq Require Import Reals NArith List String Arith.
From Verif Require Import Base Tensor MPredict MPredObj SGrid SCca SNca SText SPredict.
Import ListNotations.
Open Scope R_scope.

(** What a predictor says without dropout. *)
Definition forecast (r hid : nat) (p : predictor) (x : tensor) : tensor :=
  passes (half_up (pr_repeats p)) 0 (pr_layers p) r hid (fun _ _ _ _ _ => 1) x.

(** Squared error of the sample number [b]. *)
Definition sample_error (z y : tensor) (b : nat) : R :=
  rsum (tC y) (fun c => rsum (tH y) (fun i => rsum (tW y) (fun j => (get y b c i j - get z b c i j) ^ 2))).

(** Mean over the samples of the given numbers. *)
Definition mean_error (z y : tensor) (idx : list nat) : R := lsum (map (sample_error z y) idx) / INR (List.length idx).

(** Mean squared errors per cell of the batches, by a predictor that does not change. *)
Definition fixed_losses (p : predictor) (bs : list (tensor * tensor)) (ls : list R) : Prop :=
  Forall2 (fun q l => exists z, predict false no_keep p (fst q) = Ok z /\ shape (snd q) = shape z /\
    l = sq_dist (snd q) z / INR (tB (snd q) * tC (snd q) * tH (snd q) * tW (snd q))) bs ls.

(** Two worlds whose objects differ in nothing but the mode of object [k]. *)
Definition same_nets (k : nat) (w w' : pworld) : Prop :=
  w_model w' = w_model w /\ List.length (w_objs w') = List.length (w_objs w) /\
  forall j s, nth_error (w_objs w) j = Some s ->
    exists b, nth_error (w_objs w') j = Some (mkPO (po_pred s) (po_tag s) b) /\ (j <> k -> b = po_train s).

(** Inputs and targets of the right kind. *)
Definition good_data (out : nat) (x y : tensor) : Prop :=
  twf x /\ twf y /\ shape x = shape y /\ tC x = out /\ (0 < tH x)%nat /\ (0 < tW x)%nat.
