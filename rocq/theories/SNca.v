(** Specification vocabulary for neural cellular automata. *)
From Coq Require Import Reals ZArith List String Arith.
From Verif Require Import Base PyDict Tensor MActivations MCommon MCca MNca SGrid SCca.
Import ListNotations.
Open Scope R_scope.

(** Matrix-vector product with a 1x1 convolution weight. *)
Definition mat_vec (w : tensor) (v : nat -> R) (o : nat) : R := rsum (tC w) (fun c => get w o c 0 0 * v c).

(** A weight tensor from [i] to [o] channels. *)
Definition weight (o i : nat) (w : tensor) : Prop := twf w /\ shape w = (o, i, 1, 1)%nat /\ (0 < o)%nat /\ (0 < i)%nat.

(** A well-formed NCA: layers and weights of the declared channel counts. *)
Definition nca_wf (s : nca) : Prop :=
  layer_wf (nc_ext s) (nc_int s) (nc_idl s) /\ layer_wf (nc_ext s) (nc_int s) (nc_nbl s) /\
  weight (nc_hid s) (nc_ext s + nc_int s) (nc_w1 s) /\ weight (nc_hid s) (nc_hid s) (nc_w2 s) /\
  weight (nc_ext s) (nc_hid s) (nc_w3 s).

(** The two-hidden-layer network applied to one cell's identity values [v] and
    neighbourhood values [w]; [g] is the factor put on each unit of the first hidden layer. *)
Definition network (s : nca) (g : nat -> R) (v w : nat -> R) (o : nat) : R :=
  tanh (mat_vec (nc_w3 s) (fun k2 => act_fn (nc_a2 s)
       (mat_vec (nc_w2 s) (fun k1 => g k1 * act_fn (nc_a1 s)
       (mat_vec (nc_w1 s) (fun c => if Nat.ltb c (nc_int s) then v c else w (c - nc_int s)%nat) k1)) k2)) o).

(** Dropout factors: 1 in evaluation mode; 0 or 1/(1-p) in training mode. *)
Definition drop_factor (training keep : bool) (p : R) : R :=
  if training then (if Req_EM_T p 1 then 0 else if keep then 1 / (1 - p) else 0) else 1.

(** Number of entries of the parameter vector before the kernel parameters. *)
Definition weight_count (s : nca) : nat :=
  (List.length (tdata (nc_w1 s)) + List.length (act_params (nc_a1 s)) + List.length (tdata (nc_w2 s)) +
   List.length (act_params (nc_a2 s)) + List.length (tdata (nc_w3 s)))%nat.

(** A state some history of calls on a new object with given channel counts and padding leads to. *)
Definition nca_reachable (P : nca_op -> Prop) (e n h : nat) (m : pmode) (s : nca) : Prop :=
  exists th radius peaks actv drop r1 r2 r3 s0 os,
    (0 < e)%nat /\ (0 < n)%nat /\ (0 < h)%nat /\ twf r1 /\ twf r2 /\ twf r3 /\
    nca_init e n h m th radius peaks actv drop r1 r2 r3 = Ok s0 /\ Forall P os /\ nca_runs s0 os = Ok s.

Definition params_or_dt (o : nca_op) : Prop := match o with NSetParams _ | NSetDt _ => True | _ => False end.
