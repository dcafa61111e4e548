(** Time steps: a family of steps [F h] with time step [h] that moves along one field, its limit
    for ever smaller steps, and runs with steps of different length. *)
From Coq Require Import Reals List Arith.
From Verif Require Import Base Tensor MCca MRd MNca SGrid SLip.
Import ListNotations.
Open Scope R_scope.

(** [F h u] is [u] moved by [h] times a field of size at most [M] and slope at most [L], kept in
    [0,1]; which grids are accepted depends on their shape alone. For fewer than four channels. *)
Definition driven (L M : R) (F : R -> tensor -> res tensor) : Prop :=
  exists g : tensor -> nat -> nat -> nat -> nat -> R,
    (forall h k u v er, twf u -> twf v -> shape u = shape v -> (tC u < 4)%nat -> F h u = Err er -> F k v = Err er) /\
    (forall h u u', twf u -> (tC u < 4)%nat -> F h u = Ok u' -> twf u' /\ shape u' = shape u /\
       forall b c i j, (b < tB u)%nat -> (c < tC u)%nat -> (i < tH u)%nat -> (j < tW u)%nat -> get u' b c i j = Rmax 0 (Rmin 1 (get u b c i j + h * g u b c i j))) /\
    (forall h u u', twf u -> in_unit u -> (tC u < 4)%nat -> F h u = Ok u' ->
       forall b c i j, (b < tB u)%nat -> (c < tC u)%nat -> (i < tH u)%nat -> (j < tW u)%nat -> Rabs (g u b c i j) <= M) /\
    (forall h e u v u', near e u v -> (tC u < 4)%nat -> F h u = Ok u' ->
       forall b c i j, (b < tB u)%nat -> (c < tC u)%nat -> (i < tH u)%nat -> (j < tW u)%nat -> Rabs (g u b c i j - g v b c i j) <= L * e).

(** [w] is where [u] is after time [t]: the limit of [n] steps of [t / n]. *)
Definition flows (F : R -> tensor -> res tensor) (t : R) (u w : tensor) : Prop :=
  forall eps, 0 < eps -> exists N, forall n, (N <= n)%nat -> (0 < n)%nat -> exists v, iter_res (F (t / INR n)) n u = Ok v /\ near eps v w.

(** Steps of the given lengths one after the other, and the time they take. *)
Fixpoint run_steps (F : R -> tensor -> res tensor) (hs : list R) (u : tensor) : res tensor :=
  match hs with
  | [] => Ok u
  | h :: t => let* v := F h u in run_steps F t v
  end.

Fixpoint total (hs : list R) : R :=
  match hs with
  | [] => 0
  | h :: t => h + total t
  end.

(** A grid in [0,1] of fewer than four channels that the steps accept. *)
Definition ready (F : R -> tensor -> res tensor) (u : tensor) : Prop := twf u /\ in_unit u /\ (tC u < 4)%nat /\ exists h u', F h u = Ok u'.

(** The automata with their time step set to [h]. *)
Definition cca_at (c : cca) (h : R) : tensor -> res tensor := cca_forward (set_core_dt c h).
Definition lenia_at (c : cca) (h : R) : tensor -> res tensor := lenia_forward (set_core_dt c h).
Definition rd_at (s : rd) (h : R) : tensor -> res tensor := rd_forward (rd_set_dt s h).
Definition nca_at (keep : nat -> nat -> nat -> nat -> bool) (s : nca) (h : R) : tensor -> res tensor := nca_forward false keep (nca_set_dt s h).

(** A curve through grids that each step follows up to [K h^2]. *)
Definition follows (F : R -> tensor -> res tensor) (K t : R) (v : R -> tensor) : Prop :=
  forall s h w, 0 <= s -> 0 <= h -> s + h <= t -> F h (v s) = Ok w -> near (K * h ^ 2) w (v (s + h)).
