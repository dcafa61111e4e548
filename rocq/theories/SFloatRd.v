(** Vocabulary for the Gray-Scott step in floats: C112. *)
From Coq Require Import Reals ZArith List Bool Arith Floats.SpecFloat.
From Verif Require Import Base PyDict Tensor MCommon MRd MFloat MFloatRd SFloat SRound.
Open Scope R_scope.

(** The real automaton with the same weights and parameters. *)
Definition real_rd (c : frd) (idc cfg : option dict) (rad : PyDict.value) : MRd.rd :=
  mkRd (real_layer (g_idl c)) (real_layer (g_nbl c)) idc cfg rad (SFloat.value (g_du c)) (SFloat.value (g_dv c)) (SFloat.value (g_f c)) (SFloat.value (g_k c)) (SFloat.value (g_dt c)) (SFloat.value (g_dx c)).

(** Layers from two channels to two, on a universe that closes on itself. *)
Definition frd_wf (c : frd) : Prop := flayer_wf 2 2 (g_idl c) /\ flayer_wf 2 2 (g_nbl c) /\ fl_m (g_idl c) = Circular /\ fl_m (g_nbl c) = Circular.

(** Weights and parameters of the format, finite or not. *)
Definition frd_floats (prec emax : Z) (c : frd) : Prop :=
  let G := good prec emax in
  cells (fl_w (g_idl c)) G /\ cells (fl_w (g_nbl c)) G /\ G (g_dx c) /\ G (g_dt c) /\ G (g_du c) /\ G (g_dv c) /\ G (g_f c) /\ G (g_k c).

(** Rules that cannot overflow: the class's identity kernel, weights within 2^W, dx^2 at least
    2^-X, the time step within 2^T and everything else within 2^A. *)
Definition tame_rd (prec emax : Z) (c : frd) (W X A T : Z) : Prop :=
  let P := fun x => number prec emax x /\ Rabs (SFloat.value x) <= bpow A in
  passes_on prec emax (g_idl c) /\ cells (fl_w (g_nbl c)) (fun x => number prec emax x /\ Rabs (SFloat.value x) <= bpow W) /\
  P (g_dx c) /\ P (g_du c) /\ P (g_dv c) /\ P (g_f c) /\ P (g_k c) /\ number prec emax (g_dt c) /\ Rabs (SFloat.value (g_dt c)) <= bpow T /\
  bpow (- X) <= SFloat.value (g_dx c) ^ 2 /\ (0 <= W /\ 0 <= X)%Z /\ (0 <= A)%Z /\ (0 <= T)%Z /\ (prec + W + X + A + T < emax)%Z /\ (prec + 2 * A < emax)%Z /\
  (Z.of_nat (window_size (g_nbl c)) + 4 <= 2 ^ prec)%Z.

(** Every channel is filtered by itself. *)
Definition apart (l : flayer) : Prop := fl_g l = 2%nat /\ fC (fl_w l) = 1%nat.

Section Error.
Variables (d : dtype) (n : nat) (K X D F G h : R).

(** Neighbourhoods of [n] cells and weight [K], divided by dx^2 = [X] ... *)
Definition nabla_err : R := SRound.rd d (K / X) ((dot_err d n K + K / X * SRound.rd d X 0) / (X - SRound.rd d X 0)).
(** ... and multiplied by a diffusion of size [D]. *)
Definition diffusion_err : R := SRound.rd d (D * (K / X)) (D * nabla_err).
(** Diffusion with the reaction u v v. *)
Definition reaction_err : R := SRound.rd d (D * (K / X) + 1) (diffusion_err + SRound.rd d 1 (SRound.rd d 1 0)).
(** The rates of u, with a feed of size [F], and of v, with f and k of sizes that add up to [G]. *)
Definition u_err : R := SRound.rd d (D * (K / X) + 1 + F) (reaction_err + SRound.rd d F (F * SRound.rd d 1 0)).
Definition v_err : R := SRound.rd d (D * (K / X) + 1 + G) (reaction_err + SRound.rd d G (SRound.rd d G 0)).
(** A step of size [h] with a rate within [B], off by [e]. *)
Definition euler_err (B e : R) : R := SRound.rd d (1 + h * B) (SRound.rd d (h * B) (h * e)).
End Error.

(** The error of one step in channel [o]. *)
Definition frd_err (prec emax : Z) (c : frd) (K : R) (o : nat) : R :=
  let d := Native prec emax in
  let n := window_size (g_nbl c) in
  let X := SFloat.value (g_dx c) ^ 2 in
  let F := Rabs (SFloat.value (g_f c)) in let G := F + Rabs (SFloat.value (g_k c)) in
  let h := Rabs (SFloat.value (g_dt c)) in
  match o with
  | 0%nat => let D := Rabs (SFloat.value (g_du c)) in euler_err d h (D * (K / X) + 1 + F) (u_err d n K X D F)
  | _ => let D := Rabs (SFloat.value (g_dv c)) in euler_err d h (D * (K / X) + 1 + G) (v_err d n K X D G)
  end.
