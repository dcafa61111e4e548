(** Theorems about activations and kernels: properties C06 and C15-C23. *)
From Coq Require Import Reals Lra Lia List Arith Bool ZArith String.
From Verif Require Import Base PyDict Tensor MActivations MKernels MCommon MCca SGrid SCca SKern PTensor PStep PCca PSym PDyn PEqv PStepX PAct PKern PKernX PKernY Examples TDyn.
Import ListNotations.
Open Scope R_scope.

(** ** C15 Ranges of the activations *)
Theorem C15_gaussian mu s (mode : bool) t v : act_apply (AGaussian mu s mode) t = Ok v ->
  Forall (fun y => (if mode then -1 else 0) < y <= 1) (tdata v).
Proof.
  exact (act_apply_range _ (AGaussian mu s mode) t v
    (if mode as m return forall x, (if m then -1 else 0) < act_fn (AGaussian mu s m) x <= 1
     then gaussian1_range mu s else gaussian0_range mu s)).
Qed.

Theorem C15_gaussian_peak mu s x : / 1000000000 + s <> 0 ->
  (act_fn (AGaussian mu s false) x = 1 <-> x = mu).
Proof. exact (gauss_peak mu s x). Qed.

Theorem C15_gaussian_decreasing mu s x y : / 1000000000 + s <> 0 -> Rabs (x - mu) <= Rabs (y - mu) ->
  act_fn (AGaussian mu s false) y <= act_fn (AGaussian mu s false) x.
Proof. exact (fun H1 H2 => gauss_le mu s x y H2 H1). Qed.

Theorem C15_mixture gs (mode : bool) t v : act_apply (AMixture gs mode) t = Ok v ->
  Forall (fun y => (if mode then -1 else 0) <= y <= 1) (tdata v).
Proof. exact (act_apply_range _ _ t v (mixture_range gs mode)). Qed.

Theorem C15_double mu s (mode : bool) t v : act_apply (ADoubleGaussian mu s mode) t = Ok v ->
  Forall (fun y => (if mode then -1 else 0) <= y <= 1) (tdata v).
Proof. exact (act_apply_range _ _ t v (double_range mu s mode)). Qed.

(** CosOverX2 stays within 1/(1+100(x-mu)^2) of its rest value, hence in [0,2] or [-1,1],
    and reaches the top at mu. *)
Theorem C15_cosx2 mu om (mode : bool) x :
  Rabs (act_fn (ACosOverX2 mu om mode) x - (if mode then 0 else 1)) <= / (1 + 100 * (x - mu) ^ 2) /\
  (if mode then -1 else 0) <= act_fn (ACosOverX2 mu om mode) x <= (if mode then 1 else 2).
Proof. exact (cosx2_range mu om mode x). Qed.

Theorem C15_cosx2_peak mu om (mode : bool) : act_fn (ACosOverX2 mu om mode) mu = if mode then 1 else 2.
Proof. exact (cosx2_peak mu om mode). Qed.

Theorem C15_intervals ivs al (mode : bool) x :
  if mode then -1 <= act_fn (ASmoothIntervals ivs al mode) x <= 2 * INR (List.length ivs) - 1
  else 0 <= act_fn (ASmoothIntervals ivs al mode) x <= INR (List.length ivs).
Proof. exact (intervals_range ivs al mode x). Qed.

Theorem C15_smoothlife ra ri x :
  (ri <= x <= ra -> act_fn (ASmoothLife ra ri) x = 1) /\
  (~ (ri <= x <= ra) -> act_fn (ASmoothLife ra ri) x = 0).
Proof. exact (smoothlife_indicator ra ri x). Qed.

Theorem C15_polynomial coef (mode : bool) x : act_fn (APolynomial coef mode) x =
  let s := rsum (List.length coef) (fun k => nth k coef 0 * x ^ k) in if mode then 2 * s - 1 else s.
Proof. exact (poly_value coef mode x). Qed.

Example C15_example : exists v, act_apply (AMixture [(1 / 2, 1 / 4, 1 / 10); (1, 3 / 4, 1 / 5)] true) ex_grid = Ok v.
Proof.
  apply mixture_applies; [discriminate|]. intros a m s [E|[E|[]]]; inversion E; lra.
Qed.

(** ** C16 DoGaussian in growth mode *)
Theorem C16_negative mu s dx x : -3 < act_fn (ADoGaussian mu s dx true) x < 0.
Proof. exact (dog_growth_range mu s dx x). Qed.

(** The lower bound -3 is approached, so values leave the range [-1,1]. *)
Theorem C16_tight mu s d : / 1000000000 + s <> 0 -> 0 < d ->
  exists dx x, act_fn (ADoGaussian mu s dx true) x < -3 + d.
Proof. exact (dog_near_minus_3 mu s d). Qed.

Theorem C16_only_shrinks n m th knb kt pn g p d c k : (0 < n)%nat ->
  as_kernel knb = Ok kt -> tW kt = (2 * pn + 1)%nat ->
  make_cca n n m th (K4 default_id_kernel) knb g p d = Ok c -> 0 <= d ->
  (forall a, In a (g ++ p) -> exists mu s dx, a = ADoGaussian mu s dx true) ->
  forall u u', twf u -> in_unit u -> iter_res (cca_forward c) k u = Ok u' ->
  shape u' = shape u /\
  (forall b o i j, (b < tB u)%nat -> (o < tC u)%nat -> (i < tH u)%nat -> (j < tW u)%nat ->
     get u' b o i j <= get u b o i j) /\ tsum u' <= tsum u.
Proof.
  exact (fun Hn Hk kW Hc Hd Ha u u' Hu Hin H =>
    match shrink_steps n m th knb kt pn g p d c k Hn Hk kW Hc Hd
      (fun a x Hx => match Ha a (in_or_app g p a (or_introl Hx)) with
        | ex_intro _ mu (ex_intro _ s (ex_intro _ dx E)) =>
            eq_ind_r (fun a => act_fn a x <= 0) (Rlt_le _ _ (proj2 (dog_growth_range mu s dx x))) E end)
      (fun a x Hx => match Ha a (in_or_app g p a (or_intror Hx)) with
        | ex_intro _ mu (ex_intro _ s (ex_intro _ dx E)) =>
            eq_ind_r (fun a => act_fn a x <= 0) (Rlt_le _ _ (proj2 (dog_growth_range mu s dx x))) E end)
      u u' Hu Hin H with
    | conj s1 (conj _ (conj s3 s4)) => conj s1 (conj s3 s4) end).
Qed.

Example C16_example : exists c u', make_cca 1 1 Circular (1 / 10) (K4 default_id_kernel) (K4 ex_moore)
    [ADoGaussian (1 / 2) (1 / 10) (1 / 100) true] [ADoGaussian (1 / 4) (1 / 10) (1 / 100) true] (1 / 2) = Ok c /\
  twf ex_grid /\ in_unit ex_grid /\ cca_forward c ex_grid = Ok u'.
Proof.
  destruct (constructible 1 1 Circular (1 / 10) default_id_kernel ex_moore
    [ADoGaussian (1 / 2) (1 / 10) (1 / 100) true] [ADoGaussian (1 / 4) (1 / 10) (1 / 100) true] (1 / 2)) as [c Hc];
    [lia|lia|reflexivity|reflexivity|reflexivity|reflexivity|left; reflexivity|left; reflexivity|].
  assert (Hz : nonzero (eps9 + 1 / 10) = true).
  { apply nonzero_true. pose proof eps9_pos'. lra. }
  destruct (C08_formula 1 1 (1 / 10) ex_moore [ADoGaussian (1 / 2) (1 / 10) (1 / 100) true]
    [ADoGaussian (1 / 4) (1 / 10) (1 / 100) true] (1 / 2) c ex_grid) as (u' & Hu & _);
    try exact Hc; try exact ex_grid_wf; try reflexivity; try (cbn; lia).
  - cbn [acts_ok act_ok]. rewrite Hz. reflexivity.
  - cbn [acts_ok act_ok]. rewrite Hz. reflexivity.
  - exists c, u'. split; [exact Hc|]. split; [exact ex_grid_wf|]. split; [exact ex_grid_unit|exact Hu].
Qed.

(** ** C17 GaussianMixture parameters *)
Theorem C17_triples d l n : dget "parameters" d = Some (VVec l) -> List.length l = (3 * n)%nat ->
  mk_mixture d = Ok (AMixture (map (fun i => (nth (3 * i) l 0, nth (3 * i + 1) l 0, nth (3 * i + 2) l 0)) (seq 0 n))
                       (truthy (query_kwargs "mode" (VInt 0) d))).
Proof. exact (mk_triples d l n). Qed.

Theorem C17_pairs d l n : dget "parameters" d = Some (VVec l) -> List.length l = (2 * n)%nat ->
  (List.length l mod 3 <> 0)%nat ->
  mk_mixture d = Ok (AMixture (map (fun i => (1, nth (2 * i) l 0, nth (2 * i + 1) l 0)) (seq 0 n))
                       (truthy (query_kwargs "mode" (VInt 0) d))).
Proof. exact (mk_pairs d l n). Qed.

Theorem C17_odd d l n : dget "parameters" d = Some (VVec l) -> List.length l = (2 * n + 1)%nat ->
  (List.length l mod 3 <> 0)%nat -> mk_mixture d = Err IndexError.
Proof. exact (mk_odd d l n). Qed.

Theorem C17_empty d t : dget "parameters" d = Some (VVec []) ->
  exists a, mk_mixture d = Ok a /\ act_apply a t = Err IndexError.
Proof. exact (mk_empty d t). Qed.

Theorem C17_value gs (mode : bool) t v : act_apply (AMixture gs mode) t = Ok v ->
  gs <> [] /\ v = tmap (fun x =>
    let s := lsum (map (fun g => let '(a, m, s) := g in a * exp (- ((x - m) / (/ 1000000000 + s)) ^ 2 / 2)) gs) in
    if mode then clamp (-1) 1 (2 * s - 1) else clamp 0 1 s) t.
Proof. exact (mixture_value gs mode t v). Qed.

Theorem C17_applies gs (mode : bool) t : gs <> [] -> (forall a m s, In (a, m, s) gs -> 0 <= s) ->
  exists v, act_apply (AMixture gs mode) t = Ok v.
Proof. exact (mixture_applies gs mode t). Qed.

Example C17_example : List.length [1 / 2; 1; 2; 3; 4; 5] = (3 * 2)%nat /\ List.length [1 / 2; 1; 2; 3] = (2 * 2)%nat /\
  (List.length [1 / 2; 1; 2; 3] mod 3 <> 0)%nat /\ List.length [1; 2; 3; 4; 5] = (2 * 2 + 1)%nat.
Proof. cbn. lia. Qed.

(** ** C18 Smooth intervals *)
Theorem C18_indicator ivs al d x : 0 < al -> 0 <= d -> away d ivs x ->
  Rabs (act_fn (ASmoothIntervals ivs al false) x - INR (count_in ivs x))
  <= 2 * INR (List.length ivs) * exp (- (4 * d / al)).
Proof. exact (intervals_approx ivs al d x). Qed.

Theorem C18_growth ivs al x :
  act_fn (ASmoothIntervals ivs al true) x = 2 * act_fn (ASmoothIntervals ivs al false) x - 1.
Proof. exact (intervals_growth ivs al x). Qed.

Example C18_example : away (1 / 16) [(5 / 16, 7 / 16); (11 / 16, 13 / 16)] (3 / 8) /\
  count_in [(5 / 16, 7 / 16); (11 / 16, 13 / 16)] (3 / 8) = 1%nat.
Proof.
  split.
  - intros lo hi [E|[E|[]]]; inversion E; subst; (split; [lra|split]);
      unfold Rabs; match goal with |- context [Rcase_abs ?z] => destruct (Rcase_abs z) end; lra.
  - cbn [count_in]. repeat match goal with
      | |- context [Rle_dec ?a ?b] => destruct (Rle_dec a b); try lra
      | |- context [Rlt_dec ?a ?b] => destruct (Rlt_dec a b); try lra end. reflexivity.
Qed.

(** ** C19 Normalised kernels *)
(** Each family is its profile, shifted to minimum 0 and divided by 10^-9 plus its total. *)
Theorem C19_gaussian cfg kw r mu s : dget "kernel_kwargs" cfg = Some (VDict kw) ->
  dget "radius" cfg = Some (VInt (Z.of_nat r)) -> (1 <= r)%nat -> dget "mode" kw = None ->
  dget "name" cfg = Some (VStr "Gaussian") ->
  kwarg kw "mu" 0 mu -> kwarg kw "sigma" (1 / 10) s -> / 1000000000 + s <> 0 ->
  exists k, get_kernel cfg = Ok k /\
    fitted r (fun i j => exp (- ((rho r i j - mu) / (/ 1000000000 + s)) ^ 2 / 2)) k.
Proof. exact (fun H1 H2 H3 H4 => gaussian_kernel cfg kw r H1 H2 H3 H4 mu s). Qed.

Theorem C19_dogaussian cfg kw r mu s dx : dget "kernel_kwargs" cfg = Some (VDict kw) ->
  dget "radius" cfg = Some (VInt (Z.of_nat r)) -> (1 <= r)%nat -> dget "mode" kw = None ->
  dget "name" cfg = Some (VStr "DoGaussian") ->
  kwarg kw "mu" 0 mu -> kwarg kw "sigma" (1 / 10) s -> kwarg kw "dx" (1 / 100) dx -> / 1000000000 + s <> 0 ->
  exists k, get_kernel cfg = Ok k /\
    fitted r (fun i j => exp (- ((rho r i j + dx - mu) / (/ 1000000000 + s)) ^ 2 / 2)
                       - exp (- ((rho r i j - dx - mu) / (/ 1000000000 + s)) ^ 2 / 2)) k.
Proof. exact (fun H1 H2 H3 H4 => dogaussian_kernel cfg kw r H1 H2 H3 H4 mu s dx). Qed.

Theorem C19_cosx2 cfg kw r mu om : dget "kernel_kwargs" cfg = Some (VDict kw) ->
  dget "radius" cfg = Some (VInt (Z.of_nat r)) -> (1 <= r)%nat -> dget "mode" kw = None ->
  dget "name" cfg = Some (VStr "CosOverX2") -> kwarg kw "mu" 0 mu -> kwarg kw "omega" (2512 / 100) om ->
  exists k, get_kernel cfg = Ok k /\
    fitted r (fun i j => cos (om * Rabs (mu - rho r i j)) / (1 + (10 * Rabs (mu - rho r i j)) ^ 2) + 1) k.
Proof. exact (fun H1 H2 H3 H4 => cosx2_kernel cfg kw r H1 H2 H3 H4 mu om). Qed.

Theorem C19_smoothlife cfg kw r ra ri : dget "kernel_kwargs" cfg = Some (VDict kw) ->
  dget "radius" cfg = Some (VInt (Z.of_nat r)) -> (1 <= r)%nat ->
  dget "name" cfg = Some (VStr "SmoothLifeKernel") -> kwarg kw "r_a" 1 ra -> kwarg kw "r_i" (1 / 3) ri ->
  exists k, get_kernel cfg = Ok k /\
    fitted r (fun i j => if Rle_dec ri (rho r i j) then if Rle_dec (rho r i j) ra then 1 else 0 else 0) k.
Proof. exact (fun H1 H2 H3 => smoothlife_kernel_spec cfg kw r H1 H2 H3 ra ri). Qed.

Theorem C19_mixture cfg kw r l gs : dget "kernel_kwargs" cfg = Some (VDict kw) ->
  dget "radius" cfg = Some (VInt (Z.of_nat r)) -> (1 <= r)%nat -> dget "mode" kw = None ->
  dget "name" cfg = Some (VStr "GaussianMixture") ->
  (dget "parameters" kw = Some (VVec l) \/ dget "parameters" kw = None /\ l = [1 / 2; 15 / 100]) ->
  read_mixture l = Ok gs -> gs <> [] -> (forall a m s, In (a, m, s) gs -> 0 <= s) ->
  exists k, get_kernel cfg = Ok k /\
    fitted r (fun i j => clamp 0 1 (lsum (map (fun g => let '(a, m, s) := g in
      a * exp (- ((rho r i j - m) / (/ 1000000000 + s)) ^ 2 / 2)) gs))) k.
Proof. exact (fun H1 H2 H3 H4 => mixture_kernel cfg kw r H1 H2 H3 H4 l gs). Qed.

(** What being fitted implies. *)
Theorem C19_fitted r p k : fitted r p k ->
  normalised k /\ tsum k < 1 /\ In 0 (tdata k) /\
  ((forall v, In v (tdata k) -> v = 0) <->
   (forall i j i' j', (i < 2 * r + 1)%nat -> (j < 2 * r + 1)%nat -> (i' < 2 * r + 1)%nat -> (j' < 2 * r + 1)%nat ->
      p i j = p i' j')).
Proof.
  exact (fun F => match fitted_normalised r p k F with
    conj a (conj b c) => conj a (conj b (conj c (fitted_zero_iff r p k F))) end).
Qed.

Theorem C19_sum r p k : fitted r p k -> exists m s,
  (forall i j, (i < 2 * r + 1)%nat -> (j < 2 * r + 1)%nat -> m <= p i j) /\
  (exists i j, (i < 2 * r + 1)%nat /\ (j < 2 * r + 1)%nat /\ p i j = m) /\
  s = rsum (2 * r + 1) (fun i => rsum (2 * r + 1) (fun j => p i j - m)) /\ 0 <= s /\
  (forall i j, (i < 2 * r + 1)%nat -> (j < 2 * r + 1)%nat -> get k 0 0 i j = (p i j - m) / (eps9 + s)) /\
  tsum k = s / (eps9 + s).
Proof. exact (fitted_sum_form r p k). Qed.

(** Every kernel get_kernel returns, except the Laplacian. *)
Theorem C19_get_kernel cfg k : get_kernel cfg = Ok k ->
  dget "name" cfg <> Some (VStr "LaplacianOfGaussian") -> normalised k.
Proof. exact (get_kernel_normalised cfg k). Qed.

Theorem C19_moore cfg r : dget "name" cfg = Some (VStr "MooreLike") ->
  dget "radius" cfg = Some (VInt (Z.of_nat r)) -> (1 <= r)%nat ->
  exists k, get_kernel cfg = Ok k /\ tsum k = 1 /\
  forall i j, (i < 2 * r + 1)%nat -> (j < 2 * r + 1)%nat ->
    get k 0 0 i j = if Nat.eqb i r && Nat.eqb j r then 0 else / (INR (2 * r + 1) ^ 2 - 1).
Proof. exact (moore_spec cfg r). Qed.

Theorem C19_inner cfg : dget "name" cfg = Some (VStr "InnerMoore") -> get_kernel cfg = Ok default_id_kernel.
Proof. exact (inner_spec cfg). Qed.

(** The builders with r_scale, and the edge kernels. *)
Theorem C19_builders r mu s om l sc k :
  get_gaussian_kernel r mu s sc = Ok k \/ get_cosx2_kernel r mu om sc = Ok k \/
  get_gaussian_mixture_kernel r l sc = Ok k \/ get_dogaussian_kernel r mu s = Ok k -> normalised k /\ tsum k < 1 /\ radial r k.
Proof. exact (builders_normalised r mu s om l sc k). Qed.

Theorem C19_edge a r (mode : bool) dx k : edge_kernel a r mode dx = Ok k ->
  r <> 0%nat /\ act_ok a = Ok tt /\ normalised k /\ tsum k < 1 /\
  fitted r (fun i j => act_fn a (edge_dist r mode dx i j) - act_fn a (edge_dist r mode (- dx) i j)) k.
Proof. exact (edge_normalised a r mode dx k). Qed.

Theorem C19_edge_exists r mu s (mode : bool) dx : (1 <= r)%nat -> / 1000000000 + s <> 0 ->
  (exists k, get_gaussian_edge_kernel r mu s mode dx = Ok k) /\ (exists k, get_dogaussian_edge_kernel r mu s mode dx = Ok k).
Proof. exact (edge_exists r mu s mode dx). Qed.

(** An edge kernel plus its mirror image across the edge is constant. *)
Theorem C19_edge_antisymmetric r mu s (mode : bool) dx k :
  get_gaussian_edge_kernel r mu s mode dx = Ok k \/ get_dogaussian_edge_kernel r mu s mode dx = Ok k ->
  exists s, forall i j, (i < 2 * r + 1)%nat -> (j < 2 * r + 1)%nat ->
    get k 0 0 i j + (if mode then get k 0 0 i (2 * r - j) else get k 0 0 (2 * r - i) j) = s.
Proof.
  exact (fun H => match H with or_introl H => edge_antisym _ r mode dx k H | or_intror H => edge_antisym _ r mode dx k H end).
Qed.

Definition ex_kernel_cfg : dict := cfg_of "Gaussian" [("mu", VNum (1 / 2)); ("sigma", VNum (15 / 100))]%string 13.

Example C19_example : exists k, get_kernel ex_kernel_cfg = Ok k /\ normalised k /\ tsum k < 1.
Proof.
  destruct (C19_gaussian ex_kernel_cfg [("mu", VNum (1 / 2)); ("sigma", VNum (15 / 100))]%string 13 (1 / 2) (15 / 100))
    as (k & Hk & F); try reflexivity; try lia.
  - pose proof eps9_pos' as H. unfold eps9 in H. lra.
  - exists k. split; [exact Hk|]. destruct (C19_fitted _ _ _ F) as (H1 & H2 & _). auto.
Qed.

(** ** C20 Shape and radial symmetry *)
Theorem C20_shape cfg k : get_kernel cfg = Ok k ->
  exists r, shape k = (1, 1, 2 * r + 1, 2 * r + 1)%nat /\ twf k /\ radial r k /\
    (dget "name" cfg = Some (VStr "InnerMoore") /\ r = 1%nat \/
     dget "name" cfg <> Some (VStr "InnerMoore") /\ dget "radius" cfg = Some (VInt (Z.of_nat r))).
Proof. exact (get_kernel_radial cfg k). Qed.

Theorem C20_symmetric cfg k : get_kernel cfg = Ok k -> sym_v k /\ sym_h k /\ sym_t k.
Proof. exact (get_kernel_sym cfg k). Qed.

Theorem C20_radius_zero cfg k : dget "radius" cfg = Some (VInt 0) -> get_kernel cfg = Ok k ->
  dget "name" cfg = Some (VStr "InnerMoore") \/
  dget "name" cfg = Some (VStr "SmoothLifeKernel") /\ k = mkT 1 1 1 1 [0].
Proof. exact (get_kernel_radius0 cfg k). Qed.

Theorem C20_needs_radius cfg name : dget "name" cfg = Some (VStr name) -> dget "radius" cfg = None ->
  name <> "InnerMoore"%string -> forall k, get_kernel cfg <> Ok k.
Proof. exact (missing_radius cfg name). Qed.

(** The kernel of the cells or of the neighborhood may be given with two dimensions; with three, or when it is not
    square, there is no automaton. *)
Theorem C20_ranks e n m th g p d :
  (forall h v k, make_cca e n m th (K2 h h v) k g p d = make_cca e n m th (K4 (mkT 1 1 h h v)) k g p d /\
                 make_cca e n m th k (K2 h h v) g p d = make_cca e n m th k (K4 (mkT 1 1 h h v)) g p d) /\
  (forall k bad c, (exists h w v, bad = K2 h w v /\ h <> w) \/ (exists t, bad = K4 t /\ tH t <> tW t) \/ (exists l h w v, bad = K3 l h w v) ->
     make_cca e n m th bad k g p d <> Ok c /\ make_cca e n m th k bad g p d <> Ok c).
Proof.
  split; [intros h v k; unfold make_cca; cbn [as_kernel tW tH]; rewrite Nat.eqb_refl; split; reflexivity|].
  intros k bad c B. assert (F : exists er, as_kernel bad = Err er).
  { destruct B as [(h & w & v & -> & N)|[(t & -> & N)|(l & h & w & v & ->)]]; cbn [as_kernel].
    - destruct (Nat.eqb_spec w h); [congruence|]. eexists. reflexivity.
    - destruct (Nat.eqb_spec (tW t) (tH t)); [congruence|]. eexists. reflexivity.
    - destruct (Nat.eqb _ _); eexists; reflexivity. }
  destruct F as [er F]. unfold make_cca. split; [rewrite F; discriminate|]. destruct (as_kernel k) as [q|]; cbn [bind]; [|discriminate]. destruct (init_layer e n m q); cbn [bind]; [|discriminate].
  rewrite F. discriminate.
Qed.

Example C20_ranks_case : exists c, make_cca 1 1 Circular (1 / 10) (K2 3 3 [0; 0; 0; 0; 1; 0; 0; 0; 0]) (K4 ex_moore) [ex_gen] [ex_per] (1 / 2) = Ok c.
Proof. eexists. rewrite (proj1 (proj1 (C20_ranks _ _ _ _ _ _ _) _ _ _)). exact C08_example. Qed.

Example C20_example : exists k, get_kernel (cfg_of "SmoothLifeKernel" [] 0) = Ok k /\ k = mkT 1 1 1 1 [0].
Proof. eexists. split; reflexivity. Qed.

(** ** C06 Automata with the default identity kernel and a kernel from get_kernel *)
Theorem C06_get_kernel e n m th cfg k g p d c s u : (0 < e)%nat -> (0 < n)%nat -> get_kernel cfg = Ok k ->
  make_cca e n m th (K4 default_id_kernel) (K4 k) g p d = Ok c ->
  twf u -> (0 < tH u)%nat -> (0 < tW u)%nat ->
  iter_res (cca_forward c) s (flip_v u) = rmap flip_v (iter_res (cca_forward c) s u) /\
  iter_res (cca_forward c) s (flip_h u) = rmap flip_h (iter_res (cca_forward c) s u) /\
  iter_res (cca_forward c) s (transpose u) = rmap transpose (iter_res (cca_forward c) s u).
Proof.
  exact (fun He Hn Hk Hc Hu H0 W0 => match built_mirror e n m th cfg k g p d c He Hn Hk Hc with
    conj Wf (conj V (conj H T)) => conj (C06_flip_v c s u Wf V Hu H0 W0)
      (conj (C06_flip_h c s u Wf H Hu H0 W0) (C06_transpose c s u Wf T Hu H0 W0)) end).
Qed.

Example C06_kernel_example : exists k c, get_kernel ex_kernel_cfg = Ok k /\
  make_cca 1 2 Reflect (1 / 10) (K4 default_id_kernel) (K4 k) [ex_gen; ex_per] [ex_per; ex_gen] (1 / 10) = Ok c.
Proof.
  destruct C19_example as (k & Hk & _). destruct (C20_shape _ _ Hk) as (r & Sk & _).
  apply shape_inv in Sk as (k1 & k2 & k3 & k4).
  destruct (constructible 1 2 Reflect (1 / 10) default_id_kernel k [ex_gen; ex_per] [ex_per; ex_gen] (1 / 10)) as [c Hc];
    try lia; try reflexivity; try congruence; try (left; reflexivity); try (left; auto).
  exists k, c. auto.
Qed.

(** ** C21 Laplacians *)
Theorem C21_log_sum cfg k : dget "name" cfg = Some (VStr "LaplacianOfGaussian") -> get_kernel cfg = Ok k ->
  tsum k = 0 /\ tsum (tmap Rabs k) = 1.
Proof. exact (log_kernel_sum cfg k). Qed.

Theorem C21_log_exists cfg kw s r : dget "name" cfg = Some (VStr "LaplacianOfGaussian") ->
  dget "kernel_kwargs" cfg = Some (VDict kw) -> as_num (query_kwargs "sigma" (VNum (1 / 2)) kw) = Ok s ->
  dget "radius" cfg = Some (VInt (Z.of_nat r)) -> s <> 0 -> r <> 0%nat -> exists k, get_kernel cfg = Ok k.
Proof. exact (log_kernel_exists cfg kw s r). Qed.

(** Up to the centring and scaling the entries are the Laplacian of a Gaussian of the distance. *)
Theorem C21_log_profile cfg kw s r k : dget "name" cfg = Some (VStr "LaplacianOfGaussian") ->
  dget "kernel_kwargs" cfg = Some (VDict kw) -> kwarg kw "sigma" (1 / 2) s ->
  dget "radius" cfg = Some (VInt (Z.of_nat r)) -> get_kernel cfg = Ok k ->
  exists mean tot, 0 < tot /\ forall i j, (i < 2 * r + 1)%nat -> (j < 2 * r + 1)%nat ->
    get k 0 0 i j = (- (1 / (PI * s ^ 4)) * (1 - rho r i j ^ 2 / (2 * s ^ 2)) * exp (- (rho r i j ^ 2) / (2 * s ^ 2)) - mean) / tot.
Proof. exact (log_profile cfg kw s r k). Qed.

Theorem C21_fd_sum : tsum get_laplacian_kernel = 0.
Proof. exact laplacian_sum. Qed.

(** A zero-sum kernel maps constant planes to zero and produces planes of total zero. *)
Theorem C21_constant e k l m r u v a b o i j : (0 < e)%nat ->
  shape k = (1, 1, 2 * r + 1, 2 * r + 1)%nat -> twf k -> tsum k = 0 ->
  init_layer e e m k = Ok l -> m <> Zeros -> tC u = e ->
  (forall i j, (i < tH u)%nat -> (j < tW u)%nat -> get u b o i j = a) ->
  conv_apply l u = Ok v -> (b < tB u)%nat -> (o < e)%nat -> (i < tH u)%nat -> (j < tW u)%nat ->
  get v b o i j = 0.
Proof. exact (zero_sum_const e k l m r u v a b o i j). Qed.

Theorem C21_conserves e k l r u v b o : (0 < e)%nat ->
  shape k = (1, 1, 2 * r + 1, 2 * r + 1)%nat -> twf k -> tsum k = 0 ->
  init_layer e e Circular k = Ok l -> tC u = e -> (0 < tH u)%nat -> (0 < tW u)%nat ->
  conv_apply l u = Ok v -> (b < tB u)%nat -> (o < e)%nat ->
  rsum (tH u) (fun i => rsum (tW u) (fun j => get v b o i j)) = 0.
Proof. exact (zero_sum_total e k l r u v b o). Qed.

Example C21_example : exists l v, init_layer 1 1 Circular get_laplacian_kernel = Ok l /\ conv_apply l ex_grid = Ok v /\
  shape get_laplacian_kernel = (1, 1, 2 * 1 + 1, 2 * 1 + 1)%nat /\ twf get_laplacian_kernel.
Proof. eexists. eexists. split; [reflexivity|]. split; [reflexivity|]. split; reflexivity. Qed.

(** ** C22 Neighbourhood values *)
Theorem C22_unit e n m k l r u v : (0 < e)%nat -> (0 < n)%nat ->
  tH k = (2 * r + 1)%nat -> tW k = (2 * r + 1)%nat -> normalised k ->
  init_layer e n m k = Ok l -> twf u -> in_unit u -> conv_apply l u = Ok v ->
  Forall (fun x => 0 <= x <= (if Nat.eqb (n mod e) 0 then 1 else INR e)) (tdata v).
Proof. exact (conv_unit e n m k l r u v). Qed.

(** The case the property states: every external channel feeds the same number of internal
    channels (in particular equal channel counts). *)
Theorem C22_get_kernel cfg k e q m l u v : (0 < e)%nat -> (0 < q)%nat -> get_kernel cfg = Ok k ->
  dget "name" cfg <> Some (VStr "LaplacianOfGaussian") ->
  init_layer e (q * e) m k = Ok l -> twf u -> in_unit u -> conv_apply l u = Ok v -> in_unit v.
Proof. exact (get_kernel_unit cfg k e q m l u v). Qed.

(** Otherwise channels are summed and the values can exceed 1. *)
Theorem C22_mixed_channels_refuted : exists k l u v, normalised k /\ init_layer 2 1 Circular k = Ok l /\
  twf u /\ in_unit u /\ conv_apply l u = Ok v /\ ~ in_unit v.
Proof. exact mixed_exceeds. Qed.

Example C22_example : exists l v, init_layer 1 1 Replicate ex_moore = Ok l /\ conv_apply l ex_grid = Ok v /\ normalised ex_moore.
Proof. exact ex_moore_conv. Qed.

(** ** C23 Names and builders *)
Theorem C23_unknown cfg name : dget "name" cfg = Some (VStr name) -> ~ In name kernel_names ->
  get_kernel cfg = Err AssertionError.
Proof. exact (unknown_kernel cfg name). Qed.

Theorem C23_unnamed cfg : dget "name" cfg = None -> get_kernel cfg = Err KeyError.
Proof. exact (unnamed_kernel cfg). Qed.

Theorem C23_builders r mu s om l :
  get_kernel (cfg_of "Gaussian" [("mu", VNum mu); ("sigma", VNum s)]%string r) = get_gaussian_kernel r mu s 1 /\
  get_kernel (cfg_of "CosOverX2" [("mu", VNum mu); ("omega", VNum om)]%string r) = get_cosx2_kernel r mu om 1 /\
  get_kernel (cfg_of "DoGaussian" [("mu", VNum mu); ("sigma", VNum s)]%string r) = get_dogaussian_kernel r mu s /\
  get_kernel (cfg_of "GaussianMixture" [("parameters", VVec l)]%string r) = get_gaussian_mixture_kernel r l 1.
Proof. exact (conj (builder_gaussian r mu s) (conj (builder_cosx2 r mu om) (conj (builder_dogaussian r mu s) (builder_mixture r l)))). Qed.

Example C23_example : get_kernel (cfg_of "Gabor" [] 3) = Err AssertionError /\ ~ In "Gabor"%string kernel_names.
Proof. split; [reflexivity|]. intros H. cbn in H. repeat (destruct H as [H|H]; [discriminate H|]). exact H. Qed.

Print Assumptions C15_gaussian.
Print Assumptions C15_gaussian_peak.
Print Assumptions C15_gaussian_decreasing.
Print Assumptions C15_mixture.
Print Assumptions C15_double.
Print Assumptions C15_cosx2.
Print Assumptions C15_cosx2_peak.
Print Assumptions C15_intervals.
Print Assumptions C15_smoothlife.
Print Assumptions C15_polynomial.
Print Assumptions C16_negative.
Print Assumptions C16_tight.
Print Assumptions C16_only_shrinks.
Print Assumptions C17_triples.
Print Assumptions C17_pairs.
Print Assumptions C17_odd.
Print Assumptions C17_empty.
Print Assumptions C17_value.
Print Assumptions C17_applies.
Print Assumptions C18_indicator.
Print Assumptions C18_growth.
Print Assumptions C19_gaussian.
Print Assumptions C19_dogaussian.
Print Assumptions C19_cosx2.
Print Assumptions C19_smoothlife.
Print Assumptions C19_mixture.
Print Assumptions C19_fitted.
Print Assumptions C19_sum.
Print Assumptions C19_get_kernel.
Print Assumptions C19_moore.
Print Assumptions C19_inner.
Print Assumptions C19_builders.
Print Assumptions C19_edge.
Print Assumptions C19_edge_exists.
Print Assumptions C19_edge_antisymmetric.
Print Assumptions C20_shape.
Print Assumptions C20_symmetric.
Print Assumptions C20_radius_zero.
Print Assumptions C20_needs_radius.
Print Assumptions C20_ranks.
Print Assumptions C06_get_kernel.
Print Assumptions C21_log_sum.
Print Assumptions C21_log_exists.
Print Assumptions C21_log_profile.
Print Assumptions C21_fd_sum.
Print Assumptions C21_constant.
Print Assumptions C21_conserves.
Print Assumptions C22_unit.
Print Assumptions C22_get_kernel.
Print Assumptions C22_mixed_channels_refuted.
Print Assumptions C23_unknown.
Print Assumptions C23_unnamed.
Print Assumptions C23_builders.
