(** Vocabulary for floating point numbers: C107 to C110. [prec] is the number of bits of the
    significand and [emax] the exponent of the infinities, as in Coq.Floats.SpecFloat. *)
From Coq Require Import Reals ZArith List Bool Floats.SpecFloat.
From Verif Require Import Tensor MFloat SGrid.
Open Scope R_scope.

Notation fl := spec_float.

(** Powers of two. *)
Definition bpow (e : Z) : R := powerRZ 2 e.

(** The real number a finite float stands for. *)
Definition value (x : fl) : R :=
  match x with
  | S754_finite s m e => (if s then -1 else 1) * IZR (Zpos m) * bpow e
  | _ => 0
  end.

Definition finite (x : fl) : Prop := match x with S754_zero _ | S754_finite _ _ _ => True | _ => False end.
Definition is_nan (x : fl) : Prop := x = S754_nan.

Section Format.
Variables prec emax : Z.

(** A finite float of the format. *)
Definition number (x : fl) : Prop := finite x /\ valid_binary prec emax x = true.

(** Multiples of the least step that need no more than [prec] bits, or are the next power of two. *)
Definition rep (r : R) : Prop :=
  exists K E : Z, r = IZR K * bpow E /\ (Z.abs K <= 2 ^ prec)%Z /\ (emin prec emax <= E)%Z.

(** [v] is [x] rounded to nearest, with the usual bound on the error. *)
Definition rounded (x v : R) : Prop :=
  rep v /\ (forall r, rep r -> Rabs (v - x) <= Rabs (r - x)) /\
  Rabs (v - x) <= bpow (- prec) * Rabs x + bpow (emin prec emax - 1).

(** The float [z] is the result of an operation whose exact result is [x]. *)
Definition result (x : R) (z : fl) : Prop :=
  exists v, rounded x v /\
    ((Rabs v < bpow emax /\ number z /\ value z = v) \/
     (bpow emax <= v /\ z = S754_infinity false) \/ (v <= - bpow emax /\ z = S754_infinity true)).
End Format.

(** ** Universes and automata in floats *)
Definition dtype_ok (d : dtype) : Prop := match d with Native p e => (1 < p)%Z /\ (p < e)%Z | HalfCpu => True end.

(** A float of the format, finite or not. *)
Definition good (prec emax : Z) (x : fl) : Prop := valid_binary prec emax x = true.

(** A property of all entries of a tensor. *)
Definition cells (u : ftensor) (P : fl -> Prop) : Prop :=
  forall b c i j, (b < fB u)%nat -> (c < fC u)%nat -> (i < fH u)%nat -> (j < fW u)%nat -> P (fget u b c i j).

(** The same for one batch element. *)
Definition batch_cells (b : nat) (u : ftensor) (P : fl -> Prop) : Prop :=
  forall c i j, (c < fC u)%nat -> (i < fH u)%nat -> (j < fW u)%nat -> P (fget u b c i j).

Definition nan_or_unit (prec emax : Z) (x : fl) : Prop := is_nan x \/ (number prec emax x /\ 0 <= value x <= 1).
Definition unit_number (prec emax : Z) (x : fl) : Prop := number prec emax x /\ 0 <= value x <= 1.

(** Layers of the declared channel counts. *)
Definition flayer_wf (e n : nat) (l : flayer) : Prop :=
  (0 < fl_g l)%nat /\ (exists q, fB (fl_w l) = (fl_g l * q)%nat) /\ (0 < n)%nat /\ (0 < e)%nat /\ fB (fl_w l) = n /\ (fl_g l * fC (fl_w l))%nat = e.
Definition fpt_layer (a b : nat) (l : flayer) : Prop := flayer_wf a b l /\ fl_p l = 0%nat /\ fl_g l = 1%nat.
Definition fwl_wf (e n : nat) (w : fwlayer) : Prop :=
  match w with FConv l => fpt_layer n e l | FMlp l1 l2 => exists h, fpt_layer n h l1 /\ fpt_layer h e l2 end.
Definition fcca_wf (c : fcca) : Prop :=
  flayer_wf (f_ext c) (f_int c) (f_idl c) /\ flayer_wf (f_ext c) (f_int c) (f_nbl c) /\ fwl_wf (f_ext c) (f_int c) (f_wl c).

Definition fwl_cells (w : fwlayer) (P : fl -> Prop) : Prop :=
  match w with FConv l => cells (fl_w l) P | FMlp l1 l2 => cells (fl_w l1) P /\ cells (fl_w l2) P end.

(** Weights, step and growth functions of the format. *)
Definition keeps (P Q : fl -> Prop) (f : nat -> fl -> fl -> Prop) : Prop := forall k x z, P x -> f k x z -> Q z.
Definition floats (d : dtype) (c : fcca) : Prop :=
  let G := good (cprec d) (cemax d) in
  cells (fl_w (f_idl c)) G /\ cells (fl_w (f_nbl c)) G /\ fwl_cells (f_wl c) G /\ G (f_dt c) /\ keeps G G (f_gen c) /\ keeps G G (f_per c).

(** Growth functions that answer NaN with NaN. *)
Definition nan_through (f : nat -> fl -> fl -> Prop) : Prop := keeps is_nan is_nan f.

(** All entries of batch element [b] at a place are NaN. *)
Definition nan_at (u : ftensor) (b i j : nat) : Prop := forall c, (c < fC u)%nat -> is_nan (fget u b c i j).

(** Moved by [a] on an axis of [n] places that closes on itself. *)
Definition moved (i : nat) (a : Z) (n : nat) : nat := zmod (Z.of_nat i + a) n.

(** Rules that cannot overflow: weights in [-1,1], growth within 2^A on the totals that can
    occur, |dt| at most 2^T, and formats wide enough for the windows. *)
Definition tame_rule (d : dtype) (c : fcca) (A T : Z) : Prop :=
  let P := fun x => number (cprec d) (cemax d) x /\ Rabs (value x) <= 1 in
  let side l := (fC (fl_w l) * ((2 * fl_p l + 1) * (2 * fl_p l + 1)))%nat in
  cells (fl_w (f_idl c)) P /\ cells (fl_w (f_nbl c)) P /\
  (exists l, f_wl c = FConv l /\ cells (fl_w l) P) /\
  number (cprec d) (cemax d) (f_dt c) /\ Rabs (value (f_dt c)) <= bpow T /\
  (let inr := fun x => number (cprec d) (cemax d) x /\ Rabs (value x) <= INR (side (f_nbl c)) in
   let out := fun x => number (cprec d) (cemax d) x /\ Rabs (value x) <= bpow A in
   keeps inr out (f_gen c) /\ keeps inr out (f_per c)) /\
  (0 <= A)%Z /\ (0 <= T)%Z /\ (sprec d + A + T < semax d)%Z /\
  (Z.of_nat (side (f_nbl c)) <= 2 ^ sprec d)%Z /\ (Z.of_nat (f_int c * (2 * side (f_idl c) + 1) + 1) <= 2 ^ sprec d)%Z.

(** What is asked of a library's exp: floats, and between 0 and 1 below 0. *)
Definition minus (x : fl) : Prop := exists m e, x = S754_zero true \/ x = S754_infinity true \/ x = S754_finite true m e.
Definition exp_like (prec emax : Z) (exp : fl -> fl -> Prop) : Prop :=
  (forall x z, exp x z -> good prec emax z) /\ (forall x z, minus x -> exp x z -> unit_number prec emax z) /\ (forall x z, is_nan x -> exp x z -> is_nan z).

(** Gaussians with a centre of the format and a width between 0 and 1. *)
Definition gauss_ok (prec emax : Z) (eps mu sigma : fl) : Prop :=
  number prec emax eps /\ 0 < value eps <= 1 /\ number prec emax mu /\ number prec emax sigma /\ 0 <= value sigma <= 1.

(** A layer that passes one channel on: weight 1 in the middle, 0 elsewhere. *)
Definition passes_on (prec emax : Z) (l : flayer) : Prop :=
  fC (fl_w l) = 1%nat /\ (fl_g l > 0)%nat /\ (exists q, fB (fl_w l) = (fl_g l * q)%nat) /\
  cells (fl_w l) (number prec emax) /\
  forall o y x, (o < fB (fl_w l))%nat -> (y < fH (fl_w l))%nat -> (x < fW (fl_w l))%nat ->
    value (fget (fl_w l) o 0 y x) = if Nat.eqb y (fl_p l) && Nat.eqb x (fl_p l) then 1 else 0.

(** Growth functions that answer everything. *)
Definition answers (f : nat -> fl -> fl -> Prop) : Prop := exists g, forall k x, f k x (g k x).

(** Universes the paddings of the layers have room for. *)
Definition has_room (l : flayer) (u : ftensor) : Prop :=
  fH (fl_w l) = (2 * fl_p l + 1)%nat /\ fW (fl_w l) = (2 * fl_p l + 1)%nat /\
  pad_allowed (fl_m l) (fH u) (fl_p l) = true /\ pad_allowed (fl_m l) (fW u) (fl_p l) = true.
