(** How far a step in floats is from the step in real numbers: C110. *)
From Coq Require Import Reals ZArith List Bool Arith Floats.SpecFloat.
From Verif Require Import Base Tensor MActivations MCommon MCca MFloat SFloat SLip.
Open Scope R_scope.

(** The real automaton that a float automaton stands for: the same weights, threshold and
    time step, with growth functions [gs] and [ps]. *)
Definition real_tensor (u : ftensor) : tensor := build (fB u) (fC u) (fH u) (fW u) (fun b c i j => value (fget u b c i j)).
Definition real_layer (l : flayer) : conv_layer := mkL (real_tensor (fl_w l)) (fl_g l) (fl_p l) (fl_m l).
Definition real_wl (w : fwlayer) : wlayer := match w with FConv l => WConv (real_layer l) | FMlp l1 l2 => WMlp (real_layer l1) (real_layer l2) end.
Definition real_cca (c : fcca) (m : pmode) (gs ps : list act) : cca :=
  mkCca (f_ext c) (f_int c) m (value (f_thr c)) (real_layer (f_idl c)) (real_layer (f_nbl c)) (real_wl (f_wl c)) gs ps (value (f_dt c)).

(** On numbers of the format within [Q] the float functions are within [alpha] of the real ones. *)
Definition follows (d : dtype) (Q alpha : R) (n : nat) (gs : list act) (f : nat -> fl -> fl -> Prop) : Prop :=
  forall k x z, (k < n)%nat -> number (cprec d) (cemax d) x -> Rabs (value x) <= Q -> f k x z -> Rabs (value z - act_fn (nth k gs AIdentity) (value x)) <= alpha.

(** The cells of a window. *)
Definition window_size (l : flayer) : nat := (fC (fl_w l) * ((2 * fl_p l + 1) * (2 * fl_p l + 1)))%nat.

Section Error.
Variable d : dtype.

(** Unit roundoff of the arithmetic, and half its least step. *)
Definition unit_round : R := bpow (- cprec d).
Definition half_step : R := bpow (emin (cprec d) (cemax d) - 1).

(** An operation whose exact result is off by [e] from something within [B]. *)
Definition rd (B e : R) : R := e + (unit_round * (B + e) + half_step).
(** The same for storing in the format of the universe. *)
Definition sd (B e : R) : R := match d with Native _ _ => e | HalfCpu => e + (bpow (- 11) * (B + e) + bpow (- 25)) end.
(** Adding up [n] products whose absolute values sum up to [S]. *)
Definition dot_err (n : nat) (S : R) : R := ((1 + unit_round) ^ (2 * n) - 1) * S + (1 + unit_round) ^ (2 * n) * (INR (2 * n - 1) * half_step).

(** One step: windows of [ni] and [nn] cells, [n] internal channels, layers within [I], [K] and
    [A], growth functions within [M], of slope [L] and accuracy [alpha], time step [h]. *)
Definition id_err (ni : nat) (I : R) : R := sd I (dot_err ni I).
Definition growth_err (nn : nat) (K L alpha : R) : R := alpha + L * sd K (dot_err nn K).
Definition mixed_err (ni nn : nat) (I K L M alpha : R) : R :=
  let Ei := id_err ni I in let Eg := growth_err nn K L alpha in
  let E2 := sd ((1 + I) * M) (rd ((1 + I) * M) ((1 + I) * Eg + rd (1 + I) Ei * (M + Eg))) in
  let E3 := sd (I * M) (rd (I * M) (I * Eg + Ei * (M + Eg))) in
  sd ((1 + 2 * I) * M) (rd ((1 + 2 * I) * M) (E2 + E3)).
Definition step_err (ni nn n : nat) (I K A L M alpha h : R) : R :=
  let B := (1 + 2 * I) * M in
  let E := mixed_err ni nn I K L M alpha in
  let E5 := sd (A * B) (A * E + dot_err n (A * (B + E))) in
  sd 1 (rd (1 + h * (A * B)) (rd (h * (A * B)) (h * E5))).
End Error.

(** What is known of a rule: the sizes of its layers, and on [-Q, Q], where the float
    neighbourhoods lie, slope, size and accuracy of its growth functions. *)
Definition rule_bounds (d : dtype) (c : fcca) (gs ps : list act) (I K A Q L M alpha : R) : Prop :=
  layer_within I (real_layer (f_idl c)) /\ layer_within K (real_layer (f_nbl c)) /\ wl_within A (real_wl (f_wl c)) /\
  K + sd d K (dot_err d (window_size (f_nbl c)) K) <= Q /\ 0 <= L /\ 0 <= M /\
  length gs = f_int c /\ length ps = f_int c /\
  all_lip Q L gs /\ all_lip Q L ps /\ all_bounded K M gs /\ all_bounded K M ps /\
  follows d Q alpha (f_int c) gs (f_gen c) /\ follows d Q alpha (f_int c) ps (f_per c).

(** The error of one step of this rule. *)
Definition rule_err (d : dtype) (c : fcca) (I K A L M alpha : R) : R :=
  step_err d (window_size (f_idl c)) (window_size (f_nbl c)) (f_int c) I K A L M alpha (Rabs (value (f_dt c))).

(** Exponentials of accuracy [beta] below 0. *)
Definition exp_value (x : fl) : R := match x with S754_infinity true => 0 | _ => exp (value x) end.
Definition exp_within (beta : R) (ex : fl -> fl -> Prop) : Prop := forall x z, minus x -> ex x z -> Rabs (value z - exp_value x) <= beta.

(** Gaussians on [-Q, Q] whose width is at least [2 ^ -B] and whose arguments stay within [2 ^ A]
    of the centre: no intermediate result overflows or gets lost. *)
Definition gauss_fits (prec emax : Z) (eps mu sigma : fl) (Q : R) (A B : Z) : Prop :=
  (11 <= prec)%Z /\ gauss_ok prec emax eps mu sigma /\ Rabs (value eps - eps9) <= bpow (- prec) * eps9 /\
  (0 <= A)%Z /\ (0 <= B)%Z /\ Q + Rabs (value mu) <= bpow A /\ bpow (- B) <= eps9 + value sigma /\
  (2 * (A + B) + 2 < emax)%Z /\ (emin prec emax + 2 * prec + B <= 1)%Z.
