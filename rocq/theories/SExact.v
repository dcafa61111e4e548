(** Vocabulary for sums in floats that are free of error: C113. *)
From Coq Require Import Reals ZArith List Bool Arith Floats.SpecFloat.
From Verif Require Import Base Tensor MFloat MFloatRd SFloat SRound.
Open Scope R_scope.

(** The sum of products over real numbers. *)
Definition sum_of (l : list (fl * fl)) : R := fold_right Rplus 0 (map (fun p => value (fst p) * value (snd p)) l).
Definition weight_of (l : list (fl * fl)) : R := fold_right Rplus 0 (map (fun p => Rabs (value (fst p) * value (snd p))) l).

(** A number of the format that is a multiple of 2^E. *)
Definition multiple (prec emax E : Z) (x : fl) : Prop := number prec emax x /\ exists a : Z, value x = IZR a * bpow E.

(** Where the weights of a layer cancel out. *)
Definition cancels (l : flayer) : Prop :=
  forall o c, (o < fB (fl_w l))%nat -> (c < fC (fl_w l))%nat ->
    rsum (fH (fl_w l)) (fun y => rsum (fW (fl_w l)) (fun x => value (fget (fl_w l) o c y x))) = 0.

(** Parameters of a Gray-Scott rule that are numbers and stay so where the step combines them. *)
Definition sound_rd (prec emax : Z) (c : frd) : Prop :=
  let N := number prec emax in
  N (g_du c) /\ N (g_dv c) /\ N (g_f c) /\ N (g_k c) /\ N (g_dt c) /\ N (fadd prec emax (g_f c) (g_k c)) /\
  N (fmul prec emax (g_dx c) (g_dx c)) /\ 0 < value (fmul prec emax (g_dx c) (g_dx c)).

(** A batch without v and full of u. *)
Definition full_u (prec emax : Z) (u : ftensor) (b : nat) : Prop :=
  forall i j, (i < fH u)%nat -> (j < fW u)%nat ->
    (number prec emax (fget u b 0 i j) /\ value (fget u b 0 i j) = 1) /\ (number prec emax (fget u b 1 i j) /\ value (fget u b 1 i j) = 0).
