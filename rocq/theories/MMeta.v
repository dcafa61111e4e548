(** Model of the parts of yuca/activations.py and yuca/utils.py that stand alone: the growth
    function built from intervals, the Gaussian whose parameters are channels of its input, and
    make_target. *)
From Coq Require Import Reals List Bool Arith.
From Verif Require Import Base Tensor MActivations.
Import ListNotations.
Open Scope R_scope.

(** The kind of numbers in a numpy array (activations.py:21). *)
Inductive kind : Set := Ints | Floats.

(** get_smooth_steps_fn(intervals, alpha)(x) (activations.py:12-27), with sigmoid_1 of lines 9-10.
    The zeros are of the kind of x, and numpy does not add fractions to an integer array in place. *)
Definition smooth_steps (k : kind) (intervals : list (R * R)) (alpha : R) (x : list R) : res (list R) :=
  match intervals with
  | [] => Ok (map (fun _ => 0) x)
  | _ =>
      let* _ := guard (match k with Floats => true | Ints => false end) TypeError in
      let* _ := guard (nonzero alpha || match x with [] => true | _ => false end) NonFinite in
      Ok (map (fun v => fold_left (fun result b =>
        result + 1 / (1 + exp (- 4 * (v - fst b) / alpha)) * (1 - 1 / (1 + exp (- 4 * (v - snd b) / alpha)))) intervals 0) x)
  end.

(** eps = 1e-7 (activations.py:278). *)
Definition eps7 : R := / 10000000.

(** GaussianMetaMixture.forward (activations.py:276-288): channel 0 is the value, channel 1 the
    mean, channel 2 the width; the result has one channel. *)
Definition meta_mixture (mode : bool) (x : tensor) : res tensor :=
  let* _ := guard (Nat.leb 3 (tC x)) IndexError in
  let width := build (tB x) 1 (tH x) (tW x) (fun b _ i j => eps7 + get x b 2 i j) in
  let* _ := guard (forallb nonzero (tdata width)) NonFinite in
  Ok (build (tB x) 1 (tH x) (tW x) (fun b c i j =>
    let g := exp (- ((get x b 0 i j - get x b 1 i j) / get width b c i j) ^ 2 / 2) in
    if mode then g * 2 - 1 else g)).

(** An array of any number of dimensions (utils.py:87-92). *)
Record array : Type := mkA { a_dims : list nat; a_data : list R }.

(** make_target(img) (utils.py:87-92): reshape raises when the sizes do not agree. *)
Definition make_target (img : array) : res tensor :=
  match a_dims img with
  | c :: h :: w :: rest =>
      let* _ := guard (Nat.eqb (length (a_data img)) (1 * c * h * w)) RuntimeError in
      Ok (mkT 1 c h w (a_data img))
  | _ => Err IndexError
  end.
