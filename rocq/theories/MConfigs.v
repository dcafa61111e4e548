(** Model of yuca/configs.py (the bundled configurations) and of get_glider in
    yuca/patterns.py. A configuration is built by value, as [load_value] takes it. *)
From Coq Require Import Reals ZArith List Arith Bool String.
From Verif Require Import Base PyDict Tensor MActivations MConfig.
Import ListNotations.
Open Scope R_scope.
Open Scope string_scope.

(** configs.py:6-15. The rule numbers are Python integers. *)
Definition get_smooth_interval (rules_list : list Z) : list (R * R) :=
  map (fun bb => (IZR (2 * bb - 1) / 16, IZR (2 * bb + 1) / 16)) rules_list.

(** torch.tensor of a list of pairs: an empty list gives an empty flat tensor (configs.py:98-146). *)
Definition tensor_of_pairs (l : list (R * R)) : value :=
  match l with [] => VVec [] | _ => VMat l end.

(** configs.py:17-66. *)
Definition get_smooth_life_config (radius : Z) (birth survival : option (list (R * R))) : pcfg :=
  let bi := match birth with None => [(278 / 1000, 365 / 1000)] | Some l => l end in
  let si := match survival with None => [(267 / 1000, 445 / 1000)] | Some l => l end in
  let idk := [("name", VStr "SmoothLifeKernel");
              ("kernel_kwargs", VDict [("r_a", VNum (1 / 3)); ("r_i", VNum 0)]);
              ("radius", VInt radius)] in
  let nbk := [("name", VStr "SmoothLifeKernel");
              ("kernel_kwargs", VDict [("r_a", VNum (105 / 100)); ("r_i", VNum (1 / 3))]);
              ("radius", VInt radius)] in
  let g := [("name", VStr "SmoothIntervals"); ("parameters", tensor_of_pairs bi);
            ("alpha", VNum (28 / 1000)); ("mode", VInt 1)] in
  let p := [("name", VStr "SmoothIntervals"); ("parameters", tensor_of_pairs si);
            ("alpha", VNum (147 / 1000)); ("mode", VInt 1)] in
  mkPcfg None None (Some idk) (Some nbk) (Some g) (Some p) false (Some 1).

(** configs.py:68-99. *)
Definition get_life_like_config (radius : Z) (birth survival : list Z) : pcfg :=
  let nbk := [("name", VStr "MooreLike"); ("radius", VInt radius)] in
  let g := [("name", VStr "SmoothIntervals"); ("parameters", tensor_of_pairs (get_smooth_interval birth)); ("mode", VInt 1)] in
  let p := [("name", VStr "SmoothIntervals"); ("parameters", tensor_of_pairs (get_smooth_interval survival)); ("mode", VInt 1)] in
  mkPcfg None None None (Some nbk) (Some g) (Some p) false (Some 1).

(** configs.py:101-119. The persistence config is a deep copy of the genesis config. *)
Definition get_orbium_config (radius : Z) : pcfg :=
  let nbk := [("name", VStr "Gaussian"); ("radius", VInt radius);
              ("kernel_kwargs", VDict [("mu", VNum (1 / 2)); ("sigma", VNum (15 / 100))])] in
  let g := [("name", VStr "GaussianMixture"); ("parameters", VVec [15 / 100; 15 / 1000]); ("mode", VInt 1)] in
  mkPcfg None None None (Some nbk) (Some g) (Some g) false None.

(** configs.py:121-144. *)
Definition get_geminium_config (radius : Z) : pcfg :=
  let nbk := [("name", VStr "GaussianMixture"); ("radius", VInt radius);
              ("kernel_kwargs", VDict [("parameters", VVec [5 / 10; 93809 / 1000000; 33 / 1000;
                                                           1; 28143 / 100000; 33 / 1000;
                                                           2 / 3; 46904 / 100000; 33 / 1000])])] in
  let g := [("name", VStr "GaussianMixture"); ("parameters", VVec [26 / 100; 36 / 1000]); ("mode", VInt 1)] in
  mkPcfg None None None (Some nbk) (Some g) (Some g) false None.

(** patterns.py:9-17: the 8 x 8 glider; [true] is 1. *)
Definition get_glider (i j : nat) : bool :=
  match i with
  | 1%nat => Nat.eqb j 2
  | 2%nat => Nat.leb 1 j && Nat.ltb j 3
  | 3%nat => Nat.eqb j 1 || Nat.eqb j 3
  | _ => false
  end.
