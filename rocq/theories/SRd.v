(** Specification vocabulary for the Gray-Scott automaton. *)
From Coq Require Import Reals ZArith List String.
From Verif Require Import Base PyDict Tensor MRd SGrid.
Import ListNotations.
Open Scope R_scope.
Open Scope string_scope.

(** The kernel named in a kernel config is the Laplacian of a Gaussian. *)
Definition names_log (d : dict) : Prop := dget "name" d = Some (VStr "LaplacianOfGaussian").

(** Calls that keep the neighbourhood kernel a Laplacian of a Gaussian. *)
Definition log_op (o : rd_op) : Prop :=
  match o with
  | RSetConfig d => names_log d
  | RLoad c => exists d, dget "neighborhood_kernel_config" c = Some (VDict d) /\ names_log d
  | _ => True
  end.

(** Calls that keep the default identity kernel. *)
Definition id_op (o : rd_op) : Prop :=
  match o with
  | RLoad c => dget "identity_kernel_config" c = None
  | _ => True
  end.

(** A state some history of calls on a new object leads to. *)
Definition rd_reachable (P : rd_op -> Prop) (s : rd) : Prop :=
  exists s0 os, rd_init = Ok s0 /\ Forall P os /\ rd_runs s0 os = Ok s.

(** The Gray-Scott reaction terms. *)
Definition react_u (f u v : R) : R := - (u * v ^ 2) + f * (1 - u).
Definition react_v (f k u v : R) : R := u * v ^ 2 - (f + k) * v.

(** Total over one channel of one batch element. *)
Definition plane_total (t : tensor) (b c : nat) : R :=
  rsum (tH t) (fun i => rsum (tW t) (fun j => get t b c i j)).
