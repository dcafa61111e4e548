(** The CCA step in the numbers the program really computes with: IEEE 754 floats, given by
    Coq.Floats.SpecFloat. The order in which a convolution adds its products is left open. *)
From Coq Require Import ZArith List Bool Arith Permutation Floats.SpecFloat.
From Verif Require Import Tensor.
Import ListNotations.

(** A rank-4 tensor of floats: its sizes and its entries (continuous.py:541-564). *)
Record ftensor : Type := mkF { fB : nat; fC : nat; fH : nat; fW : nat; fget : nat -> nat -> nat -> nat -> spec_float }.

(** A bias-free nn.Conv2d layer (common.py:122-141, 201-220). *)
Record flayer : Type := mkFL { fl_w : ftensor; fl_g : nat; fl_p : nat; fl_m : pmode }.

(** Conversion of a float to another format, as tensor.to(dtype) does (continuous.py:525-531, 546-552). *)
Definition fcast (prec emax : Z) (x : spec_float) : spec_float :=
  match x with
  | S754_finite s m e => binary_normalize prec emax (cond_Zopp s (Zpos m)) e s
  | _ => x
  end.

Section Ops.
Variables prec emax : Z.

(** 0 and 1 in the format (continuous.py:533, 560). *)
Definition fzero : spec_float := S754_zero false.
(** 1.0 (continuous.py:533, 560). *)
Definition fone : spec_float := binary_normalize prec emax 1 0 false.

(** Sums of tensors, entry by entry (continuous.py:536, 560, 562). *)
Definition fadd := SFadd prec emax.
(** 1.0 - identity (continuous.py:533). *)
Definition fsub := SFsub prec emax.
(** Products of entries (continuous.py:533-534, 560). *)
Definition fmul := SFmul prec emax.

(** x * y + z with one rounding, which convolution kernels may use (continuous.py:537, 555-556). *)
Definition ffma (x y z : spec_float) : spec_float :=
  match x, y, z with
  | S754_finite sx mx ex, S754_finite sy my ey, S754_finite sz mz ez =>
      let e := Z.min (ex + ey) ez in
      binary_normalize prec emax
        (cond_Zopp (xorb sx sy) (Zpos (fst (shl_align (mx * my) (ex + ey) e))) + cond_Zopp sz (Zpos (fst (shl_align mz ez e)))) e false
  | S754_finite _ _ _, S754_finite _ _ _, S754_zero _ => fmul x y
  | S754_finite _ _ _, S754_finite _ _ _, _ => z
  | _, _, _ => fadd (fmul x y) z
  end.

(** torch.clamp(x, 0, 1.0) (continuous.py:560): NaN stays NaN. *)
Definition fclamp (x : spec_float) : spec_float :=
  let y := if SFltb x fzero then fzero else x in
  if SFltb fone y then fone else y.

(** torch.relu (continuous.py:418): NaN stays NaN. *)
Definition frelu (x : spec_float) : spec_float := if SFltb x fzero then fzero else x.

(** What a convolution may compute from the products it has to add: any order, any
    bracketing, with or without fused steps (continuous.py:537, 555-556). *)
Inductive total : list (spec_float * spec_float) -> spec_float -> Prop :=
| total_nil : total [] fzero
| total_one x y : total [(x, y)] (fmul x y)
| total_fma l s x y : total l s -> total ((x, y) :: l) (ffma x y s)
| total_app l1 l2 s1 s2 : total l1 s1 -> total l2 s2 -> total (l1 ++ l2) (fadd s1 s2)
| total_perm l l' s : Permutation l l' -> total l s -> total l' s.
End Ops.

(** Entry of the padded tensor (common.py:129-133, 211-215). *)
Definition fpad (m : pmode) (p : nat) (u : ftensor) (b c i j : nat) : spec_float :=
  match pad_src m (fH u) p i, pad_src m (fW u) p j with
  | Some y, Some x => fget u b c y x
  | _, _ => fzero
  end.

(** The products that entry (b, o, i, j) of a convolution adds up (common.py:226, 230). *)
Definition window (l : flayer) (u : ftensor) (b o i j : nat) : list (spec_float * spec_float) :=
  let w := fl_w l in
  flat_map (fun c => flat_map (fun y => map (fun x =>
      (fget w o c y x, fpad (fl_m l) (fl_p l) u b ((o / (fB w / fl_g l)) * fC w + c) (i + y) (j + x)))
    (seq 0 (fW w))) (seq 0 (fH w))) (seq 0 (fC w)).

(** The dtypes of a universe: one format throughout, or float16 on a CPU, where the work is
    done in float32 (continuous.py:525, 546). *)
Inductive dtype : Set := Native (prec emax : Z) | HalfCpu.

(** Significand and exponent range of the arithmetic (continuous.py:526-531, 547-552). *)
Definition cprec (d : dtype) : Z := match d with Native p _ => p | HalfCpu => 24 end.
(** continuous.py:526-531, 547-552. *)
Definition cemax (d : dtype) : Z := match d with Native _ e => e | HalfCpu => 128 end.
(** Significand and exponent range of the universe (continuous.py:546, 552). *)
Definition sprec (d : dtype) : Z := match d with Native p _ => p | HalfCpu => 11 end.
(** continuous.py:546, 552. *)
Definition semax (d : dtype) : Z := match d with Native _ e => e | HalfCpu => 16 end.

(** .to(torch.float32) where the code has it (continuous.py:526-531, 547-552). *)
Definition up (d : dtype) (x : spec_float) : spec_float := match d with Native _ _ => x | HalfCpu => fcast 24 128 x end.
(** .to(torch.float16) where the code has it (continuous.py:526-531, 547-552). *)
Definition down (d : dtype) (x : spec_float) : spec_float := match d with Native _ _ => x | HalfCpu => fcast 11 16 x end.

(** Entry by entry (continuous.py:526-531, 547-552). *)
Definition fmap (f : spec_float -> spec_float) (u : ftensor) : ftensor :=
  mkF (fB u) (fC u) (fH u) (fW u) (fun b c i j => f (fget u b c i j)).

(** [v] is what the layer may make of [u] (common.py:226, 230). Only kernels with an odd side,
    whose padding keeps the size of the universe. *)
Definition fconv (prec emax : Z) (l : flayer) (u v : ftensor) : Prop :=
  fC u = fl_g l * fC (fl_w l) /\ fH (fl_w l) = 2 * fl_p l + 1 /\ fW (fl_w l) = 2 * fl_p l + 1 /\
  pad_allowed (fl_m l) (fH u) (fl_p l) = true /\ pad_allowed (fl_m l) (fW u) (fl_p l) = true /\
  fB v = fB u /\ fC v = fB (fl_w l) /\ fH v = fH u /\ fW v = fW u /\
  forall b o i j, b < fB u -> o < fB (fl_w l) -> i < fH u -> j < fW u -> total prec emax (window l u b o i j) (fget v b o i j).

(** The 1x1 layer or layers that mix the channels (continuous.py:396-424). *)
Inductive fwlayer : Type := FConv (l : flayer) | FMlp (l1 l2 : flayer).

(** What they may make of the growths (continuous.py:396-424, 531, 537). *)
Definition fwl (prec emax : Z) (w : fwlayer) (u v : ftensor) : Prop :=
  match w with
  | FConv l => fconv prec emax l u v
  | FMlp l1 l2 => exists a, fconv prec emax l1 u a /\ fconv prec emax l2 (fmap frelu a) v
  end.

(** The parts of a CCA its step uses, in floats. A growth function is a relation, since the
    library's exp need not be the same for every entry (continuous.py:47-96, 267-354). *)
Record fcca : Type := mkFc {
  f_ext : nat; f_int : nat; f_thr : spec_float;
  f_idl : flayer; f_nbl : flayer; f_wl : fwlayer;
  f_gen : nat -> spec_float -> spec_float -> Prop;
  f_per : nat -> spec_float -> spec_float -> Prop;
  f_dt : spec_float }.

(** common.py:304-313 alive_mask with its guard (continuous.py:543-544), in the format of the universe. *)
Definition fmask (prec emax : Z) (thr : spec_float) (u : ftensor) : ftensor :=
  if Nat.leb 4 (fC u) then
    mkF (fB u) (fC u) (fH u) (fW u) (fun b c i j => fmul prec emax (fget u b c i j) (if SFltb thr (fget u b 3 i j) then fone prec emax else fzero))
  else u.

(** genper at one entry: generate + persist (continuous.py:526-529, 533-536). *)
Definition fgenper (d : dtype) (c : fcca) (k : nat) (idn nb z : spec_float) : Prop :=
  exists g p, f_gen c k (up d nb) g /\ f_per c k (up d nb) p /\
    z = down d (fadd (cprec d) (cemax d)
          (up d (down d (fmul (cprec d) (cemax d) (fsub (cprec d) (cemax d) (fone (cprec d) (cemax d)) (up d idn)) g)))
          (up d (down d (fmul (cprec d) (cemax d) (up d idn) p)))).

(** continuous.py:541-564 forward: what one step may make of the universe. *)
Definition fstep (d : dtype) (c : fcca) (u u' : ftensor) : Prop :=
  let m := fmask (sprec d) (semax d) (f_thr c) u in
  let m32 := fmap (up d) m in
  fC u = f_ext c /\
  exists idn nb gp upd,
    fconv (cprec d) (cemax d) (f_idl c) m32 idn /\
    fconv (cprec d) (cemax d) (f_nbl c) m32 nb /\
    (fB gp = fB u /\ fC gp = f_int c /\ fH gp = fH u /\ fW gp = fW u /\
     forall b k i j, b < fB u -> k < f_int c -> i < fH u -> j < fW u ->
       fgenper d c k (down d (fget idn b k i j)) (down d (fget nb b k i j)) (fget gp b k i j)) /\
    fwl (cprec d) (cemax d) (f_wl c) (fmap (up d) gp) upd /\
    fB u' = fB u /\ fC u' = fC u /\ fH u' = fH u /\ fW u' = fW u /\
    forall b o i j, b < fB u -> o < fC u -> i < fH u -> j < fW u ->
      fget u' b o i j = down d (fclamp (cprec d) (cemax d)
        (fadd (cprec d) (cemax d) (fget m32 b o i j) (fmul (cprec d) (cemax d) (f_dt c) (up d (down d (fget upd b o i j)))))).

(** A run of [n] steps (continuous.py:541-564). *)
Inductive fruns (d : dtype) (c : fcca) : nat -> ftensor -> ftensor -> Prop :=
| fruns_0 u : fruns d c 0 u u
| fruns_S n u v w : fruns d c n u v -> fstep d c v w -> fruns d c (S n) u w.

(** t_count after [n] steps from reset: 0.0, then += dt (continuous.py:98-100, 562). *)
Fixpoint fclock (prec emax : Z) (dt : spec_float) (n : nat) : spec_float :=
  match n with
  | O => fzero
  | S k => fadd prec emax (fclock prec emax dt k) dt
  end.

(** activations.py:197-206, the Gaussian, with the library's exp as a relation; [eps] is 1e-9
    and [two] is 2 in the format. *)
Definition fgauss (prec emax : Z) (exp : spec_float -> spec_float -> Prop) (eps mu sigma : spec_float) (mode : bool) (x z : spec_float) : Prop :=
  let two := binary_normalize prec emax 2 0 false in
  let q := SFdiv prec emax (fsub prec emax x mu) (fadd prec emax eps sigma) in
  exists e, exp (SFdiv prec emax (SFopp (fmul prec emax q q)) two) e /\
    z = if mode then fsub prec emax (fmul prec emax e two) (fone prec emax) else e.
