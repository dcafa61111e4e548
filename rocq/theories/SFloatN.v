(** Neural automata whose step cannot overflow (C107), and the error of their steps (C110). *)
From Coq Require Import Reals ZArith List Bool Arith Floats.SpecFloat.
From Verif Require Import Base Tensor MFloat SFloat SRound.
Open Scope R_scope.

(** As [tame_rule] of SFloat, for two layers with weights in [-1,1] and [h] hidden channels between them. *)
Definition tame_network (d : dtype) (c : fcca) (h : nat) (A T : Z) : Prop :=
  let P := fun x => number (cprec d) (cemax d) x /\ Rabs (value x) <= 1 in
  let side l := (fC (fl_w l) * ((2 * fl_p l + 1) * (2 * fl_p l + 1)))%nat in
  cells (fl_w (f_idl c)) P /\ cells (fl_w (f_nbl c)) P /\
  (exists l1 l2, f_wl c = FMlp l1 l2 /\ fB (fl_w l1) = h /\ cells (fl_w l1) P /\ cells (fl_w l2) P) /\
  number (cprec d) (cemax d) (f_dt c) /\ Rabs (value (f_dt c)) <= bpow T /\
  (let inr := fun x => number (cprec d) (cemax d) x /\ Rabs (value x) <= INR (side (f_nbl c)) in
   let out := fun x => number (cprec d) (cemax d) x /\ Rabs (value x) <= bpow A in
   keeps inr out (f_gen c) /\ keeps inr out (f_per c)) /\
  (0 <= A)%Z /\ (0 <= T)%Z /\ (sprec d + A + T < semax d)%Z /\
  (Z.of_nat (side (f_nbl c)) <= 2 ^ sprec d)%Z /\ (Z.of_nat (h * (f_int c * (2 * side (f_idl c) + 1)) + 1) <= 2 ^ sprec d)%Z.

(** The error of a step of a neural automaton (C110): as [step_err] of SRound, with layers within [A1] and [A2] and [h] hidden channels. *)
Definition network_err (d : dtype) (c : fcca) (h : nat) (I K A1 A2 L M alpha : R) : R :=
  let t := Rabs (value (f_dt c)) in
  let B := (1 + 2 * I) * M in
  let E := mixed_err d (window_size (f_idl c)) (window_size (f_nbl c)) I K L M alpha in
  let Eh := A1 * E + dot_err d (f_int c) (A1 * (B + E)) in
  let Eo := sd d (A2 * (A1 * B)) (A2 * Eh + dot_err d h (A2 * (A1 * B + Eh))) in
  sd d 1 (rd d (1 + t * (A2 * (A1 * B))) (rd d (t * (A2 * (A1 * B))) (t * Eo))).
