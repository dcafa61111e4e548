(** Specification of the pattern networks and parameter agents. *)
From Coq Require Import Reals List Arith Bool.
From Verif Require Import Base Tensor MActivations MCppn.
Import ListNotations.
Open Scope R_scope.

(** A network of the documented sizes: 16 E, then three hidden layers of [h], then E. *)
Definition layer_of (l : clayer) (i o : nat) : Prop :=
  li_in (cl_lin l) = i /\ li_out (cl_lin l) = o /\ List.length (li_w (cl_lin l)) = (o * i)%nat /\ List.length (li_b (cl_lin l)) = o.

Definition cppn_wf (c : cppn) (h : nat) : Prop :=
  exists l1 l2 l3 l4, cp_layers c = [l1; l2; l3; l4] /\
    layer_of l1 (16 * cp_ext c) h /\ layer_of l2 h h /\ layer_of l3 h h /\ layer_of l4 h (cp_ext c).

(** Weights, biases and the two numbers of each Gaussian. *)
Definition cppn_size (e h : nat) : nat := (h * (16 * e) + h + 2 + 2 * (h * h + h + 2) + (e * h + e + 2))%nat.

(** Every Gaussian has a usable width. *)
Definition usable (c : cppn) : Prop := forall l, In l (cp_layers c) -> eps9 + cl_sigma l <> 0.

(** Position of a pixel: d points from -1 to 1. *)
Definition along (d k : nat) : R := (2 * INR k - (INR d - 1)) / (INR d - 1).
Definition rho (d i j : nat) : R := sqrt (along d i * along d i + along d j * along d j).

(** The filter of a parameter agent. *)
Definition filtered_value (x y : R) : Prop :=
  1 / 10000 <= y <= 1 /\ (1 / 10000 <= Rabs x <= 1 -> y = Rabs x) /\ (Rabs x < 1 / 10000 -> y = 1 / 10000) /\ (1 < Rabs x -> y = 1).

(** The largest value on a d by d grid. *)
Definition grid_max (d : nat) (f : nat -> nat -> R) (m : R) : Prop :=
  (forall i j, (i < d)%nat -> (j < d)%nat -> f i j <= m) /\ exists i j, (i < d)%nat /\ (j < d)%nat /\ f i j = m.

(** The ripple of frequency k, and the ripple scaled to have largest value 1. *)
Definition ripple (d : nat) (k : R) (i j : nat) : R := sin (k * PI * rho d i j) / (rho d i j + 1 / 1000000).
Definition scaled (d : nat) (f : nat -> nat -> R) (i j : nat) (v : R) : Prop := exists m, grid_max d f m /\ v = f i j / m.

(** The sixteen features of the pixel in row i and column j. *)
Definition feature (d c i j : nat) (v : R) : Prop :=
  let x := along d j in
  let y := along d i in
  match c with
  | 0%nat => v = x
  | 1%nat => v = 1 - rho d i j
  | 2%nat => v = Rabs x
  | 3%nat => v = Rabs y
  | 4%nat => v = exp ((x - 1) * ln 2)
  | 5%nat => v = x * x
  | 6%nat => v = x * x * x
  | 7%nat => v = cos (PI * y)
  | 8%nat => v = sin (PI * x)
  | 9%nat => v = cos (2 * PI * y)
  | 10%nat => v = sin (2 * PI * x)
  | 11%nat => v = cos (4 * PI * y)
  | 12%nat => v = sin (4 * PI * x)
  | 13%nat => scaled d (ripple d 4) i j v
  | 14%nat => scaled d (ripple d 8) i j v
  | 15%nat => scaled d (ripple d 16) i j v
  | _ => False
  end.

(** [feeds ls x y]: the layers turn the numbers [x] into [y]; each unit is a Gaussian of a
    weighted sum. *)
Inductive feeds : list clayer -> list R -> list R -> Prop :=
| feeds_nil x : feeds [] x x
| feeds_cons l ls x y z : List.length y = li_out (cl_lin l) ->
    (forall o, (o < li_out (cl_lin l))%nat ->
       nth o y 0 = exp (- (1 / 2) * ((rsum (li_in (cl_lin l)) (fun i => nth (o * li_in (cl_lin l) + i) (li_w (cl_lin l)) 0 * nth i x 0)
                                       + nth o (li_b (cl_lin l)) 0 - cl_mu l) / (cl_sigma l + / 1000000000)) ^ 2)) ->
    feeds ls y z -> feeds (l :: ls) x z.
