(** Model of the numerical helpers of notebooks/my_helpers.py, of get_smooth_steps_fn in
    yuca/activations.py, and of the automaton that notebooks/glaberish_animations.ipynb (code cells 4
    and 6, counted from 0) builds from them. Arrays are functions of row and column with their sides
    given; numbers are real. The plotting functions and make_gif are not modelled. *)
From Coq Require Import Reals ZArith List Arith Bool.
From Verif Require Import Base Tensor MActivations SGrid.
Import ListNotations.
Open Scope R_scope.

(** A two-dimensional array (my_helpers.py:265-310). *)
Definition arr := nat -> nat -> R.

(** my_helpers.py:234-243. *)
Definition nb_interval (rules_list : list Z) : list (R * R) :=
  map (fun bb => (IZR (2 * bb - 1) / 18, IZR (2 * bb + 1) / 18)) rules_list.

(** my_helpers.py:285-286. The argument gamma is never read. *)
Definition nb_sigmoid (x mu alpha : R) : R := 1 / (1 + exp (- 4 * (x - mu) / alpha)).

(** my_helpers.py:288-301, for an array of floats and alpha other than 0. *)
Definition nb_steps (a : list (R * R)) (alpha x : R) : R :=
  fold_left (fun result edges => result + nb_sigmoid x (fst edges) alpha * (1 - nb_sigmoid x (snd edges) alpha)) a 0.

(** activations.py:12-27, likewise. *)
Definition smooth_steps (intervals : list (R * R)) (alpha x : R) : R :=
  fold_left (fun result bounds => result + sigmoid_1 x (fst bounds) alpha * (1 - sigmoid_1 x (snd bounds) alpha)) intervals 0.

(** my_helpers.py:277-283. *)
Definition nb_gaussian (mu sigma u : R) : R := exp (- ((u - mu) / sigma) ^ 2 / 2).

(** my_helpers.py:265-275; [kernel_fn] is not called. A radius or deviation of 0 gives arrays
    that are not a number throughout. *)
Definition nb_kernel (kernel_fn : R -> R) (mu sigma : R) (radius : nat) : res arr :=
  let* _ := guard (negb (Nat.eqb radius 0)) NonFinite in
  let* _ := guard (nonzero sigma) NonFinite in
  let rr := fun yy xx : nat => sqrt ((INR xx - INR radius) ^ 2 + (INR yy - INR radius) ^ 2) / INR radius in
  let kernel := fun yy xx => nb_gaussian mu sigma (rr yy xx) in
  let total := rsum (2 * radius + 1) (fun yy => rsum (2 * radius + 1) (fun xx => kernel yy xx)) in
  Ok (fun yy xx => kernel yy xx / total).

(** my_helpers.py:303-310: scipy's convolve2d with mode "same" and boundary "wrap", for a kernel of
    sides 2r+1 and an array of sides at least r. *)
Definition nb_conv (H W r : nat) (kernel x : arr) : arr :=
  fun i j => rsum (2 * r + 1) (fun a => rsum (2 * r + 1) (fun b =>
    kernel a b * x (zmod (Z.of_nat i + Z.of_nat r - Z.of_nat a) H) (zmod (Z.of_nat j + Z.of_nat r - Z.of_nat b) W))).

(** Division of a kernel by its sum (my_helpers.py:274 and glaberish_animations.ipynb cell 6). *)
Definition nb_normed (n : nat) (k : arr) : arr :=
  let total := rsum n (fun yy => rsum n (fun xx => k yy xx)) in fun yy xx => k yy xx / total.

(** glaberish_animations.ipynb cell 6: kernel_moore. *)
Definition kernel_moore : res arr :=
  let* k := nb_kernel (nb_gaussian (99 / 100) (3 / 10)) (99 / 100) (3 / 10) 1 in
  let k1 := fun i j => if Rlt_dec (1 / 100) (k i j) then 1 else k i j in
  let k2 := fun i j => if Rle_dec (k1 i j) (1 / 100) then 0 else k1 i j in
  Ok (nb_normed 3 k2).

(** glaberish_animations.ipynb cell 6: kernel_eye. *)
Definition kernel_eye : res arr :=
  let* k := nb_kernel (nb_gaussian 0 (1 / 10)) 0 (1 / 10) 1 in
  let k1 := fun i j => if Rlt_dec (k i j) (99 / 100) then 0 else k i j in
  Ok (nb_normed 3 k1).

(** glaberish_animations.ipynb cell 4 update, with growth_fn_b, growth_fn_s and combined_growth_fn
    of cell 6 for the rules [birth] and [survival]; dt is 1. *)
Definition nb_update (use_lenia : bool) (birth survival : list Z) (H W : nat) (km ke grid : arr) : arr :=
  fun i j =>
    let n := nb_conv H W 1 km grid i j in
    let m := nb_conv H W 1 ke grid i j in
    let growth_b := nb_steps (nb_interval birth) (125 / 10000) in
    let growth_s := nb_steps (nb_interval survival) (125 / 10000) in
    let g := if use_lenia then (growth_b n + growth_s n) - 1
             else ((1 - m) * growth_b n + m * growth_s n) * 2 - 1 in
    clamp 0 1 (grid i j + 1 * g).

(** glaberish_animations.ipynb cell 6: the loop over steps. *)
Fixpoint nb_run (use_lenia : bool) (birth survival : list Z) (H W : nat) (km ke : arr) (t : nat) (grid : arr) : arr :=
  match t with
  | O => grid
  | S k => nb_update use_lenia birth survival H W km ke (nb_run use_lenia birth survival H W km ke k grid)
  end.

(** my_helpers.py:245-254: the 8 x 8 glider. *)
Definition nb_glider (i j : nat) : bool :=
  match i with
  | 1%nat => Nat.eqb j 2
  | 2%nat => Nat.leb 1 j && Nat.ltb j 3
  | 3%nat => Nat.eqb j 1 || Nat.eqb j 3
  | _ => false
  end.
