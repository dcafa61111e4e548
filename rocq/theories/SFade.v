(** Universes that fade out. *)
From Coq Require Import Reals List Arith String.
From Verif Require Import Base PyDict Tensor MActivations MCommon MRd SGrid SRd.
Import ListNotations.
Open Scope R_scope.

(** Growth functions that are at most [- c] wherever the neighbourhood is in [0, M]. *)
Definition sinking (M c : R) (fns : list act) : Prop := forall a, In a fns -> forall x, 0 <= x <= M -> act_fn a x <= - c.

(** No neighbourhood that the layer sees in [u] exceeds [M]. *)
Definition thin (M : R) (l : conv_layer) (u : tensor) : Prop := forall nb, conv_apply l u = Ok nb -> Forall (fun x => x <= M) (tdata nb).

(** Every cell of [v] is what it was in [u] less at least [d], or 0. *)
Definition dimmed (d : R) (u v : tensor) : Prop :=
  twf v /\ shape v = shape u /\
  forall b c i j, (b < tB u)%nat -> (c < tC u)%nat -> (i < tH u)%nat -> (j < tW u)%nat -> 0 <= get v b c i j <= Rmax 0 (get u b c i j - d).

Definition below (M : R) (u : tensor) : Prop := Forall (fun x => 0 <= x <= M) (tdata u).
Definition blank (u : tensor) : Prop := Forall (fun x => x = 0) (tdata u).

(** A kernel plane that takes from its centre what it gives to the cells around it. *)
Definition levelling (r : nat) (a : R) (k : nat -> nat -> R) : Prop :=
  k r r = - a /\ (forall y x, (y < 2 * r + 1)%nat -> (x < 2 * r + 1)%nat -> ~ (y = r /\ x = r) -> 0 <= k y x) /\
  rsum (2 * r + 1) (fun y => rsum (2 * r + 1) (fun x => k y x)) = 0.

(** Channel [c] of every cell is at most [M]. *)
Definition channel_below (c : nat) (M : R) (u : tensor) : Prop :=
  forall b i j, (b < tB u)%nat -> (i < tH u)%nat -> (j < tW u)%nat -> get u b c i j <= M.
Definition channel_above (c : nat) (M : R) (u : tensor) : Prop :=
  forall b i j, (b < tB u)%nat -> (i < tH u)%nat -> (j < tW u)%nat -> M <= get u b c i j.

(** Gray-Scott automata with the default identity kernel, a narrow 3 x 3 Laplacian of a Gaussian, rates that are not
    negative and a time step so small that one step does not overshoot. *)
Definition calm (s : rd) : Prop :=
  (exists P : rd_op -> Prop, (forall o, P o -> id_op o) /\ rd_reachable P s) /\
  (exists cfg kw sg, rd_cfg s = Some cfg /\ names_log cfg /\ dget "kernel_kwargs" cfg = Some (VDict kw) /\ as_num (query_kwargs "sigma" (VNum (1 / 2)) kw) = Ok sg /\ dget "radius" cfg = Some (VInt 1) /\ sg ^ 2 <= 1 / 2) /\
  0 <= rd_dt s /\ 0 <= rd_du s /\ 0 <= rd_dv s /\ 0 <= rd_f s /\ 0 <= rd_k s /\ rd_dx s <> 0 /\
  rd_dt s * (rd_du s / (2 * rd_dx s ^ 2) + rd_f s) <= 1 /\ rd_dt s * (rd_dv s / (2 * rd_dx s ^ 2) + (rd_f s + rd_k s)) <= 1.
