(** Model of yuca/kernels.py. *)
From Coq Require Import Reals ZArith List String Bool Arith.
From Verif Require Import Base PyDict Tensor MActivations.
Import ListNotations.
Open Scope R_scope.
Open Scope string_scope.

(** Signed offset of index [i] from the centre [r]: np.arange(-r, r+1)[i] (kernels.py:65-177). *)
Definition off (r i : nat) : R := IZR (Z.of_nat i - Z.of_nat r).

(** kernels.py:44-48: sqrt(xx^2 + yy^2) / radius, reshaped to (1,1,2r+1,2r+1); [np.meshgrid]
    makes xx vary along columns and yy along rows. [scale] is r_scale (72, 89, 105);
    radius 0 divides 0 by 0. *)
Definition kernel_grid (r : nat) (scale : R) : res tensor :=
  let* _ := guard (negb (Nat.eqb r 0)) NonFinite in
  Ok (build 1 1 (r * 2 + 1) (r * 2 + 1)
        (fun _ _ i j => sqrt (off r j ^ 2 + off r i ^ 2) / INR r * scale)).

(** kernels.py:53-54 and the same two lines in every builder. *)
Definition normalize (k : tensor) : tensor :=
  let m := lmin (tdata k) in
  let k1 := tmap (fun v => v - m) k in
  let s := tsum k1 in
  tmap (fun v => v / (eps9 + s)) k1.

(** A kernel from a pointwise profile (kernels.py:65-128). *)
Definition radial_kernel (a : act) (r : nat) (scale : R) : res tensor :=
  let* g := kernel_grid r scale in
  let* k := act_apply a g in
  Ok (normalize k).

(** SmoothLifeKernel compares the grid with its radii (activations.py:39-40); at radius 0
    the grid is nan, both comparisons are false and the kernel is a finite zero. *)
Definition smoothlife_kernel (a : act) (r : nat) : res tensor :=
  if Nat.eqb r 0 then Ok (build 1 1 1 1 (fun _ _ _ _ => 0)) else radial_kernel a r 1.

(** kernels.py:10-56 get_kernel. A name that is not a string equals none of the names. *)
Definition get_kernel (config : dict) : res tensor :=
  let* nm := dgetk "name" config in
  let name := match nm with VStr s => s | _ => "" end in
  if String.eqb name "InnerMoore" then                                  (* 22-25 *)
    Ok (build 1 1 3 3 (fun _ _ i j => if Nat.eqb i 1 && Nat.eqb j 1 then 1 else 0))
  else if String.eqb name "MooreLike" then                              (* 26-32 *)
    let* rv := dgetk "radius" config in
    let* r := as_size rv in
    let k := build 1 1 (r * 2 + 1) (r * 2 + 1)
               (fun _ _ i j => if Nat.eqb i r && Nat.eqb j r then 0 else 1) in
    let s := tsum k in
    let* _ := guard (nonzero s) NonFinite in
    Ok (tmap (fun v => v / s) k)
  else
    let fit (mk : dict -> res act) (kernel : act -> nat -> res tensor) :=
      let* kw := dgetk "kernel_kwargs" config in
      let* kwargs := as_dict kw in
      let* a := mk kwargs in
      let* rv := dgetk "radius" config in
      let* r := as_size rv in
      kernel a r in
    let radial mk := fit mk (fun a r => radial_kernel a r 1) in
    if String.eqb name "Gaussian" then radial mk_gaussian               (* 12-13 *)
    else if String.eqb name "GaussianMixture" then radial mk_mixture    (* 14-15 *)
    else if String.eqb name "CosOverX2" then radial mk_cosx2            (* 16-17 *)
    else if String.eqb name "DoGaussian" then radial mk_dogaussian      (* 18-19 *)
    else if String.eqb name "SmoothLifeKernel" then fit mk_smoothlife smoothlife_kernel (* 20-21 *)
    else if String.eqb name "LaplacianOfGaussian" then                  (* 33-34, 49-51 *)
      let* kw := dgetk "kernel_kwargs" config in
      let* kwargs := as_dict kw in
      let* sigma := as_num (query_kwargs "sigma" (VNum (1 / 2)) kwargs) in
      let* rv := dgetk "radius" config in
      let* r := as_size rv in
      let* g := kernel_grid r 1 in
      log_apply sigma g
    else Err AssertionError.                                            (* 35-37 *)

(** kernels.py:59-63 get_laplacian_kernel. *)
Definition get_laplacian_kernel : tensor :=
  mkT 1 1 3 3 [25/100; 5/10; 25/100; 5/10; -3; 5/10; 25/100; 5/10; 25/100].

(** kernels.py:65-80. *)
Definition get_cosx2_kernel (radius : nat) (mu omega r_scale : R) : res tensor :=
  radial_kernel (ACosOverX2 mu omega false) radius r_scale.

(** kernels.py:82-97. *)
Definition get_gaussian_kernel (radius : nat) (mu sigma r_scale : R) : res tensor :=
  radial_kernel (AGaussian mu sigma false) radius r_scale.

(** kernels.py:99-112. *)
Definition get_gaussian_mixture_kernel (radius : nat) (parameters : list R) (r_scale : R) : res tensor :=
  let* gs := read_mixture parameters in
  radial_kernel (AMixture gs false) radius r_scale.

(** kernels.py:114-128. *)
Definition get_dogaussian_kernel (radius : nat) (mu sigma : R) : res tensor :=
  radial_kernel (ADoGaussian mu sigma (1 / 100) false) radius 1.

(** kernels.py:133-141: the two displaced distance grids of an edge kernel. *)
Definition edge_grid (radius : nat) (mode : bool) (dx : R) : res tensor :=
  let* _ := guard (negb (Nat.eqb radius 0)) NonFinite in
  Ok (build 1 1 (radius * 2 + 1) (radius * 2 + 1)
        (fun _ _ i j =>
           let xx := off radius j in let yy := off radius i in
           if mode then sqrt ((xx - dx) ^ 2 + yy ^ 2) / INR radius
           else sqrt (xx ^ 2 + (yy - dx) ^ 2) / INR radius)).

(** kernels.py:130-177. *)
Definition edge_kernel (a : act) (radius : nat) (mode : bool) (dx : R) : res tensor :=
  let* g1 := edge_grid radius mode dx in
  let* g2 := edge_grid radius mode (- dx) in
  let* k1 := act_apply a g1 in
  let* k2 := act_apply a g2 in
  let* k := tzip Rminus k1 k2 in
  Ok (normalize k).

(** kernels.py:130-152 and 155-177. *)
Definition get_gaussian_edge_kernel (radius : nat) (mu sigma : R) (mode : bool) (dx : R) : res tensor :=
  edge_kernel (AGaussian mu sigma false) radius mode dx.

(** kernels.py:155-177. *)
Definition get_dogaussian_edge_kernel (radius : nat) (mu sigma : R) (mode : bool) (dx : R) : res tensor :=
  edge_kernel (ADoGaussian mu sigma (1 / 100) false) radius mode dx.
