(** Model of yuca/activations.py. *)
From Coq Require Import Reals ZArith List String Bool Arith.
From Verif Require Import Base PyDict Tensor.
Import ListNotations.
Open Scope R_scope.
Open Scope string_scope.

(** The constant eps = 1e-9 (activations.py:198, 317, 361; kernels.py:43). *)
Definition eps9 : R := / 1000000000.

(** Instances of the activation classes; [mode] is the truth value of self.mode (activations.py:29-376). *)
Inductive act : Type :=
| AGaussian (mu sigma : R) (mode : bool)                 (* activations.py:176-208 *)
| ADoGaussian (mu sigma dx : R) (mode : bool)            (* activations.py:338-376 *)
| ADoubleGaussian (mu sigma : list R) (mode : bool)      (* activations.py:290-335 *)
| AMixture (gs : list (R * R * R)) (mode : bool)         (* activations.py:210-267, (amplitude, mu, sigma) *)
| APolynomial (coef : list R) (mode : bool)              (* activations.py:83-118 *)
| ACosOverX2 (mu omega : R) (mode : bool)                (* activations.py:120-153 *)
| ASmoothIntervals (ivs : list (R * R)) (alpha : R) (mode : bool) (* activations.py:46-71 *)
| ASmoothLife (r_a r_i : R)                              (* activations.py:29-44 *)
| AIdentity                                              (* activations.py:73-81 *)
| AReLU                                                  (* torch.nn.ReLU *)
| ATanh                                                  (* torch.nn.Tanh *)
| ASigmoid                                               (* torch.nn.Sigmoid *)
| ASiLU                                                  (* torch.nn.SiLU *)
| AELU.                                                  (* torch.nn.ELU, alpha = 1 *)

(** exp(-((x - mu)/(eps + sigma))^2 / 2): activations.py:204, 206, 323-332. *)
Definition gauss (mu sigma x : R) : R := exp (- ((x - mu) / (eps9 + sigma)) ^ 2 / 2).

(** activations.py:56-58 SmoothIntervals.sigmoid_1 (and 9-10 sigmoid_1). *)
Definition sigmoid_1 (x mu alpha : R) : R := 1 / (1 + exp (- 4 * (x - mu) / alpha)).

(** activations.py:62-71: the accumulated sum over intervals. *)
Definition interval_sum (ivs : list (R * R)) (alpha x : R) : R :=
  fold_left (fun result bounds =>
    result + sigmoid_1 x (fst bounds) alpha * (1 - sigmoid_1 x (snd bounds) alpha)) ivs 0.

(** activations.py:107-111: the accumulated polynomial, starting at exponent [ii]. *)
Fixpoint poly_from (ii : nat) (coef : list R) (result x : R) : R :=
  match coef with
  | [] => result
  | v :: t => poly_from (S ii) t (result + v * x ^ ii) x
  end.

(** activations.py:257-260: amplitude-weighted sum of Gaussians. *)
Definition mixture_sum (gs : list (R * R * R)) (x : R) : R :=
  match gs with
  | [] => 0
  | (a0, m0, s0) :: t =>
      fold_left (fun result g => let '(a, m, s) := g in result + a * gauss m s x) t (a0 * gauss m0 s0 x)
  end.

(** forward of each class at one input value (they all act pointwise) (activations.py:37-44, 60-71, 79-81, 101-118, 141-153, 197-208, 255-267, 316-335, 360-376). *)
Definition act_fn (a : act) (x : R) : R :=
  match a with
  | AGaussian mu sigma mode =>
      if mode then gauss mu sigma x * 2 - 1 else gauss mu sigma x
  | ADoGaussian mu sigma dx mode =>
      let g1 := exp (- (((x + dx) - mu) / (eps9 + sigma)) ^ 2 / 2) in
      let g2 := exp (- (((x - dx) - mu) / (eps9 + sigma)) ^ 2 / 2) in
      if mode then g1 - g2 * 2 - 1 else g1 - g2
  | ADoubleGaussian mu sigma mode =>
      let r := gauss (nth 0 mu 0) (nth 0 sigma 0) x + gauss (nth 1 mu 0) (nth 1 sigma 0) x in
      if mode then clamp (-1) 1 (r * 2 - 1) else clamp 0 1 r
  | AMixture gs mode =>
      let r := mixture_sum gs x in
      if mode then clamp (-1) 1 (r * 2 - 1) else clamp 0 1 r
  | APolynomial coef mode =>
      let r := poly_from 0 coef 0 x in
      if mode then r * 2 - 1 else r
  | ACosOverX2 mu omega mode =>
      let inp := Rabs (mu - x) in
      if mode then cos (omega * inp) / (1 + (10 * inp) ^ 2)
      else cos (omega * inp) / (1 + (10 * inp) ^ 2) + 1
  | ASmoothIntervals ivs alpha mode =>
      let r := interval_sum ivs alpha x in
      if mode then r * 2 - 1 else r
  | ASmoothLife r_a r_i =>
      (* kernel[x >= r_i] = 1.0; kernel[x > r_a] = 0.0 *)
      let k1 := if Rle_dec r_i x then 1 else 0 in
      if Rlt_dec r_a x then 0 else k1
  | AIdentity => x
  | AReLU => Rmax x 0
  | ATanh => tanh x
  | ASigmoid => 1 / (1 + exp (- x))
  | ASiLU => x / (1 + exp (- x))
  | AELU => if Rlt_dec 0 x then x else exp x - 1
  end.

(** Whether a divisor is other than 0 (activations.py:199-206 and the like). *)
Definition nonzero (x : R) : bool := if Req_EM_T x 0 then false else true.

(** Whether the first forward call raises or leaves the finite numbers; none of the
    classes does so depending on the input value. Division by eps + sigma = 0 or
    alpha = 0 is [NonFinite]. An empty mixture indexes amplitudes[0] (257), a
    DoubleGaussian with fewer than two entries indexes mu[1] (324-326) (activations.py:29-376, the same lines). *)
Definition act_ok (a : act) : res unit :=
  match a with
  | AGaussian _ sigma _ => guard (nonzero (eps9 + sigma)) NonFinite
  | ADoGaussian _ sigma _ _ => guard (nonzero (eps9 + sigma)) NonFinite
  | ADoubleGaussian mu sigma _ =>
      let* _ := guard (Nat.leb 2 (List.length mu) && Nat.leb 2 (List.length sigma)) IndexError in
      guard (nonzero (eps9 + nth 0 sigma 0) && nonzero (eps9 + nth 1 sigma 0)) NonFinite
  | AMixture gs _ =>
      match gs with
      | [] => Err IndexError
      | _ => guard (forallb (fun g => nonzero (eps9 + snd g)) gs) NonFinite
      end
  | ASmoothIntervals ivs alpha _ =>
      match ivs with [] => Ok tt | _ => guard (nonzero alpha) NonFinite end
  | _ => Ok tt
  end.

(** Calling an activation module on a tensor (activations.py, the forward methods). *)
Definition act_apply (a : act) (t : tensor) : res tensor :=
  let* _ := act_ok a in Ok (tmap (act_fn a) t).

(** activations.py:227-253: reading a mixture's parameter list. Length divisible by 3:
    (amplitude, mu, sigma) triples; otherwise (mu, sigma) pairs with amplitude 1, where an
    odd length runs off the end (IndexError at 249). *)
Fixpoint triples (l : list R) : list (R * R * R) :=
  match l with
  | a :: m :: s :: t => (a, m, s) :: triples t
  | _ => []
  end.

(** activations.py:242-250: consecutive entries. *)
Fixpoint pairs (l : list R) : res (list (R * R * R)) :=
  match l with
  | [] => Ok []
  | [_] => Err IndexError
  | m :: s :: t => let* r := pairs t in Ok ((1, m, s) :: r)
  end.

(** activations.py:227-253. *)
Definition read_mixture (l : list R) : res (list (R * R * R)) :=
  if Nat.eqb (Nat.modulo (List.length l) 3) 0 then Ok (triples l) else pairs l.

(** Reading [parameters] for a mixture: a flat array (activations.py:212-253). *)
Definition as_vec (v : value) : res (list R) :=
  match v with VVec l => Ok l | _ => Err Unmodelled end.

(** Reading [parameters] for SmoothIntervals: rows of bounds; a non-empty flat array
    fails at bounds[0], an empty one iterates zero times (activations.py:48-71). *)
Definition as_intervals (v : value) : res (list (R * R)) :=
  match v with
  | VMat l => Ok l
  | VVec [] => Ok []
  | VVec _ => Err IndexError
  | _ => Err Unmodelled
  end.

(** activations.py:304-307: a one-element tensor is duplicated; a 0-d tensor has no shape[0]. *)
Definition dbl_vec (v : value) : res (list R) :=
  match v with
  | VVec [x] => Ok [x; x]
  | VVec l => Ok l
  | VNum _ | VInt _ => Err IndexError
  | _ => Err Unmodelled
  end.

(** Constructors, as called with [Class( **config)] (activations.py:178-195). *)
Definition mk_gaussian (d : dict) : res act :=                      (* activations.py:178-195 *)
  let* mu := as_num (query_kwargs "mu" (VNum 0) d) in
  let* sigma := as_num (query_kwargs "sigma" (VNum (1 / 10)) d) in
  Ok (AGaussian mu sigma (truthy (query_kwargs "mode" (VInt 0) d))).

(** activations.py:340-358. *)
Definition mk_dogaussian (d : dict) : res act :=                    (* activations.py:340-358 *)
  let* mu := as_num (query_kwargs "mu" (VNum 0) d) in
  let* sigma := as_num (query_kwargs "sigma" (VNum (1 / 10)) d) in
  let* dx := as_num (query_kwargs "dx" (VNum (1 / 100)) d) in
  Ok (ADoGaussian mu sigma dx (truthy (query_kwargs "mode" (VInt 0) d))).

(** activations.py:292-313. *)
Definition mk_doublegaussian (d : dict) : res act :=                (* activations.py:292-313 *)
  let* mu := dbl_vec (query_kwargs "mu" (VNum 0) d) in
  let* sigma := dbl_vec (query_kwargs "sigma" (VNum (1 / 10)) d) in
  Ok (ADoubleGaussian mu sigma (truthy (query_kwargs "mode" (VInt 0) d))).

(** activations.py:212-253. *)
Definition mk_mixture (d : dict) : res act :=                       (* activations.py:212-253 *)
  let* l := as_vec (query_kwargs "parameters" (VVec [1 / 2; 15 / 100]) d) in
  let* gs := read_mixture l in
  Ok (AMixture gs (truthy (query_kwargs "mode" (VInt 0) d))).

(** activations.py:85-99. *)
Definition mk_polynomial (d : dict) : res act :=                    (* activations.py:85-99 *)
  let* c := as_vec (query_kwargs "coefficients" (VVec [1 / 10; 1 / 10; 1 / 10]) d) in
  Ok (APolynomial c (truthy (query_kwargs "mode" (VInt 0) d))).

(** activations.py:122-139. *)
Definition mk_cosx2 (d : dict) : res act :=                         (* activations.py:122-139 *)
  let* mu := as_num (query_kwargs "mu" (VNum 0) d) in
  let* omega := as_num (query_kwargs "omega" (VNum (2512 / 100)) d) in
  Ok (ACosOverX2 mu omega (truthy (query_kwargs "mode" (VInt 0) d))).

(** activations.py:48-54. *)
Definition mk_smoothintervals (d : dict) : res act :=               (* activations.py:48-54 *)
  let* ivs := as_intervals (query_kwargs "parameters" (VMat [(185 / 1000, 375 / 1000)]) d) in
  let* alpha := as_num (query_kwargs "alpha" (VNum (125 / 10000)) d) in
  Ok (ASmoothIntervals ivs alpha (truthy (query_kwargs "mode" (VInt 0) d))).

(** activations.py:31-35. *)
Definition mk_smoothlife (d : dict) : res act :=                    (* activations.py:31-35 *)
  let* ra := as_num (query_kwargs "r_a" (VNum 1) d) in
  let* ri := as_num (query_kwargs "r_i" (VNum (1 / 3)) d) in
  Ok (ASmoothLife ra ri).

(** Parameters of an activation in named_parameters order, flattened
    (continuous.py:615-622). Mixtures register mu and sigma of each Gaussian
    (activations.py:239-240, 252-253) but not the amplitudes; SmoothIntervals and
    SmoothLifeKernel register nothing. *)
Definition act_params (a : act) : list R :=
  match a with
  | AGaussian mu sigma _ => [mu; sigma]
  | ADoGaussian mu sigma _ _ => [mu; sigma]
  | ADoubleGaussian mu sigma _ => (mu ++ sigma)%list
  | AMixture gs _ => flat_map (fun g => let '(_, m, s) := g in [m; s]) gs
  | APolynomial coef _ => coef
  | ACosOverX2 mu omega _ => [mu; omega]
  | _ => []
  end.

(** LaplacianOfGaussian.forward (activations.py:162-174), which is not pointwise. *)
Definition log_raw (sigma x : R) : R :=
  - (1 / (PI * sigma ^ 4)) * (1 - x ^ 2 / (2 * sigma ^ 2)) * exp (- (x ^ 2) / (2 * sigma ^ 2)).

(** activations.py:162-174. *)
Definition log_apply (sigma : R) (t : tensor) : res tensor :=
  let* _ := guard (nonzero sigma) NonFinite in
  let raw := tmap (log_raw sigma) t in
  let n := List.length (tdata raw) in
  let* _ := guard (negb (Nat.eqb n 0)) NonFinite in
  let mean := tsum raw / INR n in
  let centred := tmap (fun v => v - mean) raw in
  let total := tsum (tmap Rabs centred) in
  let* _ := guard (nonzero total) NonFinite in
  Ok (tmap (fun v => v / total) centred).
