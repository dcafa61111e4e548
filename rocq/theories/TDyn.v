(** Theorems about automaton steps: properties C01-C14 and C39-C41. *)
From Coq Require Import Reals Lra Lia List Arith Bool ZArith.
From Verif Require Import Base PyDict Tensor MActivations MKernels MCommon MCca SGrid SCca PTensor PStep PCca PSym PDyn PEqv PCode PStepX Examples.
Import ListNotations.
Open Scope R_scope.

(** Every automaton assembled from odd square kernels is well formed ([cca_wf]) and has the
    parameters it was given; such automata exist for all channel counts and kernels. *)
Theorem constructed_wf e n m th kid knb g p d c kt nt pi pn :
  (0 < e)%nat -> (0 < n)%nat -> as_kernel kid = Ok kt -> as_kernel knb = Ok nt ->
  tW kt = (2 * pi + 1)%nat -> tW nt = (2 * pn + 1)%nat ->
  make_cca e n m th kid knb g p d = Ok c ->
  cca_wf c /\ ext c = e /\ int_ c = n /\ thr c = th /\ gens c = g /\ pers c = p /\ dt c = d /\
  cl_p (idl c) = pi /\ cl_p (nbl c) = pn /\ cl_m (idl c) = m /\ cl_m (nbl c) = m /\
  init_layer e n m kt = Ok (idl c) /\ init_layer e n m nt = Ok (nbl c) /\ init_weights e n m = Ok (wl c).
Proof. exact (make_cca_wf e n m th kid knb g p d c kt nt pi pn). Qed.

Theorem constructible e n m th kt nt g p d :
  (0 < e)%nat -> (0 < n)%nat -> tH kt = tW kt -> tH nt = tW nt -> tC kt = 1%nat -> tC nt = 1%nat ->
  (tB kt = 1%nat \/ tB kt = n) -> (tB nt = 1%nat \/ tB nt = n) ->
  exists c, make_cca e n m th (K4 kt) (K4 nt) g p d = Ok c.
Proof. exact (make_cca_ok e n m th kt nt g p d). Qed.

(** The running example: an automaton with two 3x3 kernels and its step on a 3x4 grid. *)
Example ex_ok : cca_wf ex_cca /\ twf ex_grid /\ in_unit ex_grid /\ circular ex_cca /\
  (exists u', cca_forward ex_cca ex_grid = Ok u').
Proof. exact (conj ex_wf (conj ex_grid_wf (conj ex_grid_unit (conj ex_circular ex_step)))). Qed.

(** ** C01 Values stay in [0,1] *)
Theorem C01_step upd c u u' : step upd c u = Ok u' -> in_unit u'.
Proof. exact (step_in_unit upd c u u'). Qed.

Theorem C01_steps upd c n u u' : iter_res (step upd c) (S n) u = Ok u' -> in_unit u'.
Proof. exact (steps_in_unit upd c n u u'). Qed.

Theorem C01_frame upd c u mode l new : get_frame upd c u mode = Ok (Some (new :: l)) -> in_unit new.
Proof. exact (get_frame_in_unit upd c u mode l new). Qed.

Theorem C01_random_step s r u s' u' : rs_forward s r u = Ok (s', u') -> in_unit u'.
Proof. exact (rs_in_unit s r u s' u'). Qed.

Theorem C01_code fuel s u s' u' : code_forward fuel s u = Ok (s', u') -> in_unit u'.
Proof. exact (code_in_unit fuel s u s' u'). Qed.

Theorem C01_meta s u s' u' : meta_forward s u = Ok (s', u') -> in_unit u'.
Proof. exact (meta_in_unit s u s' u'). Qed.

(** ** C02 Shape preserved or an exception *)
Theorem C02_shape c n u u' : cca_wf c -> twf u -> iter_res (cca_forward c) n u = Ok u' -> shape u' = shape u /\ twf u'.
Proof. exact (fun Hc => iter_shape (cca_forward c) (fun u u' => cca_shape c u u' Hc) n u u'). Qed.

Theorem C02_shape_lenia c n u u' : cca_wf c -> twf u -> iter_res (lenia_forward c) n u = Ok u' -> shape u' = shape u /\ twf u'.
Proof. exact (fun Hc => iter_shape (lenia_forward c) (fun u u' => lenia_shape c u u' Hc) n u u'). Qed.

Theorem C02_shape_random s r u s' u' : cca_wf (rs_core s) -> twf u -> rs_forward s r u = Ok (s', u') ->
  shape u' = shape u /\ twf u' /\ rs_core s' = set_core_dt (rs_core s) (rs_prev s').
Proof. exact (rs_forward_shape s r u s' u'). Qed.

Theorem C02_shape_code fuel s u s' u' : cca_wf (cd_core s) -> twf u -> code_forward fuel s u = Ok (s', u') ->
  shape u' = shape u /\ twf u' /\ cd_core s' = set_core_dt (cd_core s) (cd_prev s').
Proof. exact (code_forward_shape fuel s u s' u'). Qed.

(** Exactly when a step succeeds. *)
Theorem C02_accepts c u : cca_wf c -> twf u ->
  (exists u', cca_forward c u = Ok u') <->
  (tC u = ext c /\ (0 < tH u)%nat /\ (0 < tW u)%nat /\ fits (idl c) u /\ fits (nbl c) u /\
   List.length (gens c) = int_ c /\ List.length (pers c) = int_ c /\
   acts_ok (gens c) = Ok tt /\ acts_ok (pers c) = Ok tt).
Proof. exact (cca_accepts c u). Qed.

Theorem C02_bad_channels c u : cca_wf c -> twf u -> tC u <> ext c -> cca_forward c u = Err RuntimeError.
Proof. exact (cca_bad_channels c u). Qed.

Theorem C02_bad_padding c u : cca_wf c -> twf u -> cl_m (nbl c) = Circular ->
  (tH u < cl_p (nbl c) \/ tW u < cl_p (nbl c))%nat -> cca_forward c u = Err RuntimeError.
Proof. exact (cca_bad_padding c u). Qed.

Theorem C02_bad_count c u : cca_wf c -> twf u -> tC u = ext c -> (0 < tH u)%nat -> (0 < tW u)%nat ->
  fits (idl c) u -> fits (nbl c) u -> List.length (gens c) <> int_ c -> cca_forward c u = Err AssertionError.
Proof. exact (cca_bad_count c u). Qed.

Example C02_bad_example : cca_wf ex_cca /\ cca_forward ex_cca (mkT 1 2 1 1 [0; 1]) = Err RuntimeError.
Proof. split; [exact ex_wf|]. apply C02_bad_channels; [exact ex_wf|reflexivity|discriminate]. Qed.

(** ** C03 The default identity kernel *)
Theorem C03_identity e m l u v : (0 < e)%nat ->
  init_layer e e m default_id_kernel = Ok l -> twf u -> conv_apply l u = Ok v -> v = u.
Proof. exact (id_conv_identity e m l u v). Qed.

Theorem C03_channels e n m l u v b k i j : (0 < e)%nat -> (0 < n)%nat ->
  init_layer e n m default_id_kernel = Ok l -> twf u -> conv_apply l u = Ok v ->
  (b < tB u)%nat -> (k < n)%nat -> (i < tH u)%nat -> (j < tW u)%nat ->
  get v b k i j = if Nat.eqb (n mod e) 0 then get u b (k / (n / e)) i j
                  else rsum e (fun c => get u b c i j).
Proof. exact (id_conv_spec e n m l u v b k i j). Qed.

Theorem C03_applies e n m l u : (0 < e)%nat -> (0 < n)%nat ->
  init_layer e n m default_id_kernel = Ok l -> tC u = e -> (1 < tH u)%nat -> (1 < tW u)%nat ->
  exists v, conv_apply l u = Ok v.
Proof. exact (id_conv_accepts e n m l u). Qed.

Example C03_layer : exists l, init_layer 2 4 Reflect default_id_kernel = Ok l.
Proof. eexists. reflexivity. Qed.

(** ** C04 Neighbourhood convolution is the toroidal weighted sum *)
Theorem C04_toroidal e n k l r u : (0 < e)%nat -> (0 < n)%nat ->
  tH k = (2 * r + 1)%nat -> tW k = (2 * r + 1)%nat ->
  init_layer e n Circular k = Ok l -> tC u = e -> (r <= tH u)%nat -> (r <= tW u)%nat ->
  (0 < tH u)%nat -> (0 < tW u)%nat ->
  exists v, conv_apply l u = Ok v /\ shape v = (tB u, n, tH u, tW u) /\
  forall b o i j, (b < tB u)%nat -> (o < n)%nat -> (i < tH u)%nat -> (j < tW u)%nat ->
  get v b o i j =
    if Nat.eqb (n mod e) 0
    then toroidal_sum r (tH u) (tW u) (fun y x => bget k o 0 y x) (get u b (o / (n / e))) i j
    else rsum e (fun c => toroidal_sum r (tH u) (tW u) (fun y x => bget k o c y x) (get u b c) i j).
Proof. exact (nbhd_conv_spec e n k l r u). Qed.

Example C04_layer : init_layer 1 1 Circular ex_moore = Ok (mkL ex_moore 1 1 Circular).
Proof. reflexivity. Qed.

(** ** C05 Translation equivariance, errors included, any number of steps *)
Theorem C05_cca c dy dx n u : cca_wf c -> circular c -> twf u -> (0 < tH u)%nat -> (0 < tW u)%nat ->
  iter_res (cca_forward c) n (roll dy dx u) = rmap (roll dy dx) (iter_res (cca_forward c) n u).
Proof. exact (fun Hc Hm => cca_iter_natural c _ n u Hc (natural_weaken _ _ (natural_roll c dy dx Hm))). Qed.

Theorem C05_lenia c dy dx n u : cca_wf c -> circular c -> twf u -> (0 < tH u)%nat -> (0 < tW u)%nat ->
  iter_res (lenia_forward c) n (roll dy dx u) = rmap (roll dy dx) (iter_res (lenia_forward c) n u).
Proof. exact (fun Hc Hm => lenia_iter_natural c _ n u Hc (natural_weaken _ _ (natural_roll c dy dx Hm))). Qed.

Theorem C05_random s dy dx rands u : cca_wf (rs_core s) -> circular (rs_core s) -> twf u ->
  (0 < tH u)%nat -> (0 < tW u)%nat ->
  rs_run s rands (roll dy dx u) = rmap (on_grid (roll dy dx)) (rs_run s rands u).
Proof. exact (fun Hc Hm => rs_run_natural _ rands s u Hc (natural_weaken _ _ (natural_roll _ dy dx Hm))). Qed.

Theorem C05_code s dy dx fuel n u : cca_wf (cd_core s) -> circular (cd_core s) -> twf u ->
  (0 < tH u)%nat -> (0 < tW u)%nat ->
  code_run fuel n s (roll dy dx u) = rmap (on_grid (roll dy dx)) (code_run fuel n s u).
Proof. exact (fun Hc Hm => code_run_natural _ fuel n s u Hc (natural_roll _ dy dx Hm)). Qed.

Theorem C05_meta s dy dx n u : meta_wf s -> circular (mt_core s) ->
  match mt_dgrid s with Some d => shape d = shape u | None => True end ->
  twf u -> (0 < tH u)%nat -> (0 < tW u)%nat ->
  meta_run n (meta_map (roll dy dx) s) (roll dy dx u) =
  rmap (fun p => (meta_map (roll dy dx) (fst p), roll dy dx (snd p))) (meta_run n s u).
Proof.
  exact (fun Hs Hm Hd => meta_run_natural _ n s u Hs Hd (natural_weaken _ _ (natural_roll _ dy dx Hm))).
Qed.

Example C05_example : exists u', cca_forward ex_cca (roll 1 (-2) ex_grid) = Ok (roll 1 (-2) u') /\ cca_forward ex_cca ex_grid = Ok u'.
Proof.
  destruct ex_step as [u' Hu]. exists u'. split; auto.
  pose proof (C05_cca ex_cca 1 (-2) 1 ex_grid ex_wf ex_circular ex_grid_wf ltac:(cbn; lia) ltac:(cbn; lia)) as H.
  cbn [iter_res] in H. rewrite Hu in H. cbn [bind rmap] in H.
  destruct (cca_forward ex_cca (roll 1 (-2) ex_grid)); cbn [bind] in H; [congruence|discriminate].
Qed.

(** ** C06 Reflection and transposition (kernels from get_kernel: see TKern) *)
Theorem C06_flip_v c n u : cca_wf c -> mirror_v c -> twf u -> (0 < tH u)%nat -> (0 < tW u)%nat ->
  iter_res (cca_forward c) n (flip_v u) = rmap flip_v (iter_res (cca_forward c) n u).
Proof. exact (fun Hc Hm => cca_iter_natural c _ n u Hc (natural_weaken _ _ (natural_flip_v c Hc Hm))). Qed.

Theorem C06_flip_h c n u : cca_wf c -> mirror_h c -> twf u -> (0 < tH u)%nat -> (0 < tW u)%nat ->
  iter_res (cca_forward c) n (flip_h u) = rmap flip_h (iter_res (cca_forward c) n u).
Proof. exact (fun Hc Hm => cca_iter_natural c _ n u Hc (natural_weaken _ _ (natural_flip_h c Hc Hm))). Qed.

Theorem C06_transpose c n u : cca_wf c -> mirror_t c -> twf u -> (0 < tH u)%nat -> (0 < tW u)%nat ->
  iter_res (cca_forward c) n (transpose u) = rmap transpose (iter_res (cca_forward c) n u).
Proof. exact (fun Hc Hm => cca_iter_natural c _ n u Hc (natural_weaken _ _ (natural_transpose c Hc Hm))). Qed.

Theorem C06_code_flip_v s fuel n u : cca_wf (cd_core s) -> mirror_v (cd_core s) -> twf u -> (0 < tH u)%nat -> (0 < tW u)%nat ->
  code_run fuel n s (flip_v u) = rmap (on_grid flip_v) (code_run fuel n s u).
Proof. exact (fun Hc Hm => code_run_natural _ fuel n s u Hc (natural_flip_v _ Hc Hm)). Qed.

Example C06_example : mirror_v ex_cca /\ mirror_h ex_cca /\ mirror_t ex_cca.
Proof. exact ex_mirror. Qed.

(** ** C07 Batch elements *)
Theorem C07_cca c n u k : cca_wf c -> twf u -> (k < tB u)%nat ->
  iter_res (cca_forward c) n (batch_elem k u) = rmap (batch_elem k) (iter_res (cca_forward c) n u).
Proof. exact (cca_batch_iter c n u k). Qed.

Theorem C07_lenia c u k : cca_wf c -> twf u -> (k < tB u)%nat ->
  lenia_forward c (batch_elem k u) = rmap (batch_elem k) (lenia_forward c u).
Proof. exact (lenia_batch c u k). Qed.

Theorem C07_code_refuted : exists s u k, cca_wf (cd_core s) /\ twf u /\ (k < tB u)%nat /\
  exists fuel s1 u1 s2 u2, code_forward fuel s u = Ok (s1, u1) /\
    code_forward fuel s (batch_elem k u) = Ok (s2, u2) /\ batch_elem k u1 <> u2.
Proof. exact code_batch_dependent. Qed.

(** ** C08 The glaberish rule *)
(** For any layers and channel counts: the clamped Euler step on the masked grid with
    weights 1/(external*internal). *)
Theorem C08_rule c u u' : cca_wf c -> twf u -> init_weights (ext c) (int_ c) (pm c) = Ok (wl c) ->
  cca_forward c u = Ok u' ->
  exists m idn nb, mask_if (thr c) u = Ok m /\ conv_apply (idl c) m = Ok idn /\ conv_apply (nbl c) m = Ok nb /\
  forall b o i j, (b < tB u)%nat -> (o < ext c)%nat -> (i < tH u)%nat -> (j < tW u)%nat ->
    get u' b o i j = clamp 0 1 (get m b o i j + dt c *
      (rsum (int_ c) (fun k =>
         (1 - get idn b k i j) * act_fn (nth k (gens c) AIdentity) (get nb b k i j)
         + get idn b k i j * act_fn (nth k (pers c) AIdentity) (get nb b k i j))
       / (INR (ext c) * INR (int_ c)))).
Proof. exact (cca_rule c u u'). Qed.

(** For a freshly built automaton, in closed form. *)
Theorem C08_formula n r th k g p d c u : (0 < n)%nat ->
  tB k = 1%nat -> tC k = 1%nat -> tH k = (2 * r + 1)%nat -> tW k = (2 * r + 1)%nat ->
  make_cca n n Circular th (K4 default_id_kernel) (K4 k) g p d = Ok c ->
  twf u -> tC u = n -> (1 <= tH u)%nat -> (1 <= tW u)%nat -> (r <= tH u)%nat -> (r <= tW u)%nat ->
  List.length g = n -> List.length p = n -> acts_ok g = Ok tt -> acts_ok p = Ok tt ->
  let m := zero_dead th u in
  let N := fun b q i j => toroidal_sum r (tH u) (tW u) (fun y x => get k 0 0 y x) (get m b q) i j in
  exists u', cca_forward c u = Ok u' /\ shape u' = shape u /\ twf u' /\
  forall b o i j, (b < tB u)%nat -> (o < n)%nat -> (i < tH u)%nat -> (j < tW u)%nat ->
    get u' b o i j = clamp 0 1 (get m b o i j + d *
      (rsum n (fun q => (1 - get m b q i j) * act_fn (nth q g AIdentity) (N b q i j)
                        + get m b q i j * act_fn (nth q p AIdentity) (N b q i j)) / (INR n * INR n))).
Proof. exact (step_formula n r th k g p d c u). Qed.

Theorem C08_same_update c m d : cca_wf c -> twf m -> init_weights (ext c) (int_ c) (pm c) = Ok (wl c) ->
  update_of update_universe c m = Ok d -> forall b o o' i j,
  (b < tB m)%nat -> (o < ext c)%nat -> (o' < ext c)%nat -> (i < tH m)%nat -> (j < tW m)%nat ->
  get d b o i j = get d b o' i j.
Proof. exact (cca_same_update c m d). Qed.

Example C08_example : make_cca 1 1 Circular (1 / 10) (K4 default_id_kernel) (K4 ex_moore) [ex_gen] [ex_per] (1 / 2) = Ok ex_cca.
Proof. exact ex_built. Qed.

(** ** C09 Equal functions give Lenia *)
Theorem C09_lenia c n u : cca_wf c -> twf u -> gens c = pers c ->
  iter_res (cca_forward c) n u = iter_res (lenia_forward c) n u.
Proof. exact (cca_eq_lenia_iter c n u). Qed.

Example C09_example : cca_wf (pt_cca ex_gen (1 / 2)) /\ gens (pt_cca ex_gen (1 / 2)) = pers (pt_cca ex_gen (1 / 2)).
Proof. split; [apply pt_cca_wf|reflexivity]. Qed.

(** ** C10 Dead universes *)
Theorem C10_fixed_iff c B H W u' : cca_wf c -> init_weights (ext c) (int_ c) (pm c) = Ok (wl c) ->
  0 < dt c -> (0 < B)%nat -> (0 < H)%nat -> (0 < W)%nat ->
  cca_forward c (zero_grid B (ext c) H W) = Ok u' ->
  (u' = zero_grid B (ext c) H W <-> gen_sum0 c <= 0).
Proof. exact (zero_fixed_iff c B H W u'). Qed.

Theorem C10_stays_dead c B H W n u' : cca_wf c -> init_weights (ext c) (int_ c) (pm c) = Ok (wl c) ->
  0 <= dt c -> gen_sum0 c <= 0 ->
  iter_res (cca_forward c) n (zero_grid B (ext c) H W) = Ok u' -> u' = zero_grid B (ext c) H W.
Proof. exact (zero_stays c B H W n u'). Qed.

Theorem C10_gaussian mu sigma : 0 < eps9 + sigma ->
  (act_fn (AGaussian mu sigma true) 0 <= 0 <-> 2 * ln 2 * (sigma + eps9) ^ 2 <= mu ^ 2).
Proof. exact (gaussian_zero_sign mu sigma). Qed.

Example C10_example : cca_wf ex_cca /\ init_weights (ext ex_cca) (int_ ex_cca) (pm ex_cca) = Ok (wl ex_cca) /\ 0 < dt ex_cca.
Proof. split; [exact ex_wf|]. split; [exact ex_weights|]. cbn. lra. Qed.

(** ** C11 Alive mask *)
Theorem C11_forward_masks upd c u : twf u ->
  step upd c u = rmap (fun r => match r with Some (x :: _) => x | _ => u end) (get_frame upd c (zero_dead (thr c) u) 0).
Proof. exact (forward_is_frame_of_masked upd c u). Qed.

Theorem C11_frame_equals_forward upd c u : twf u -> (tC u < 4)%nat ->
  get_frame upd c u 0 = rmap (fun x => Some [x]) (step upd c u).
Proof. exact (forward_is_frame_small upd c u). Qed.

Theorem C11_frame_differs_refuted : exists c u r1 r2, cca_wf c /\ twf u /\ tC u = 4%nat /\
  cca_forward c u = Ok r1 /\ get_frame update_universe c u 0 = Ok (Some [r2]) /\ r1 <> r2.
Proof. exact frame_differs. Qed.

(** ** C12 Simulated time *)
Theorem C12_time upd c ks t t' : run_calls upd c t ks = Ok t' ->
  t' = (if has_reset ks then 0 else t) + INR (since_reset ks) * dt c.
Proof. exact (run_calls_time upd c ks t t'). Qed.

Example C12_example : since_reset [CForward ex_grid; CReset; CForward ex_grid; CFrame ex_grid 0; CForward ex_grid] = 2%nat /\
  exists t, run_calls update_universe ex_cca 0 [CForward ex_grid; CReset; CForward ex_grid] = Ok t.
Proof.
  split; [reflexivity|]. destruct ex_step as [u' Hu]. unfold cca_forward in Hu.
  cbn [run_calls run_call]. rewrite Hu. cbn [bind]. eauto.
Qed.

(** ** C13 Half precision *)
Theorem C13_exact c u : cca_forward16 (fun x => x) c u = cca_forward c u.
Proof. exact (half_exact c u). Qed.

Theorem C13_range r16 c u u' : (forall x y, x <= y -> r16 x <= r16 y) -> r16 0 = 0 -> r16 1 = 1 ->
  cca_forward16 r16 c u = Ok u' -> in_unit u'.
Proof. exact (half_range r16 c u u'). Qed.

Example C13_example : exists u', cca_forward16 (fun x => x) ex_cca ex_grid = Ok u'.
Proof. destruct ex_step as [u' Hu]. exists u'. rewrite C13_exact. exact Hu. Qed.

(** ** C14 Change per step *)
Theorem C14_change n m th kid knb kt pn g p d c u u' : (0 < n)%nat -> kid = K4 default_id_kernel ->
  as_kernel knb = Ok kt -> tW kt = (2 * pn + 1)%nat ->
  make_cca n n m th kid knb g p d = Ok c -> twf u -> 0 <= d -> in_unit u ->
  (forall a x, In a g -> -1 <= act_fn a x <= 1) -> (forall a x, In a p -> -1 <= act_fn a x <= 1) ->
  cca_forward c u = Ok u' ->
  forall b o i j, (b < tB u)%nat -> (o < n)%nat -> (i < tH u)%nat -> (j < tW u)%nat ->
  Rabs (get u' b o i j - get (zero_dead th u) b o i j) <= d / INR n.
Proof. exact (change_bound n m th kid knb kt pn g p d c u u'). Qed.

(** ** C39 Adaptive steps *)
(** A CODE call on a grid the automaton accepts terminates; the step used is the first of
    h0, 3/4 h0, ... whose error is below the threshold, or min_dt if none above min_dt is. *)
Theorem C39_terminates s u v : cca_wf (cd_core s) -> twf u -> (0 < tB u)%nat ->
  cca_forward (cd_core s) u = Ok v -> 0 < cd_min s -> cd_min s <= 2 * cd_prev s -> cd_min s <= cd_max s ->
  exists N, forall fuel, (N < fuel)%nat -> exists s' u', code_forward fuel s u = Ok (s', u').
Proof. exact (code_forward_total s u v). Qed.

Theorem C39_chosen_step fuel s u s' u' : code_forward fuel s u = Ok (s', u') ->
  cd_core s' = set_core_dt (cd_core s) (cd_prev s') /\ cd_max s' = cd_max s /\ cd_min s' = cd_min s /\
  cd_thr s' = cd_thr s /\ cd_time s' = cd_time s + cd_prev s' /\ cd_dt s' = DtFloat (cd_prev s') /\
  cca_forward (set_core_dt (cd_core s) (cd_prev s')) u = Ok u' /\ cd_min s <= h0 s /\
  exists k,
   (forall i, (i < k)%nat -> cd_min s <= tried (h0 s) i /\
      exists e, code_error (cd_core s) (tried (h0 s) i) u = Ok e /\ cd_thr s <= e) /\
   ((cd_prev s' = tried (h0 s) k /\ cd_min s <= tried (h0 s) k /\
      exists e, code_error (cd_core s) (tried (h0 s) k) u = Ok e /\ e < cd_thr s)
    \/ (cd_prev s' = cd_min s /\ tried (h0 s) k < cd_min s)).
Proof. exact (code_forward_spec fuel s u s' u'). Qed.

Theorem C39_bounds fuel s u s' u' : 0 <= cd_min s -> code_forward fuel s u = Ok (s', u') ->
  cd_min s <= cd_prev s' <= cd_max s /\ cd_prev s' <= 2 * cd_prev s.
Proof. exact (code_forward_bounds fuel s u s' u'). Qed.

Theorem C39_unbound fuel s u : Rmin (cd_prev s * 2) (cd_max s) < cd_min s ->
  code_forward (S fuel) s u = Err UnboundLocalError.
Proof. exact (code_unbound fuel s u). Qed.

Theorem C39_runs n s u v : cca_wf (cd_core s) -> twf u -> (0 < tB u)%nat ->
  cca_forward (cd_core s) u = Ok v -> 0 < cd_min s -> cd_min s <= 2 * cd_prev s -> cd_min s <= cd_max s ->
  exists fuel s' u', code_run fuel n s u = Ok (s', u').
Proof. exact (code_run_total n s u v). Qed.

Example C39_example : exists fuel s' u', code_run fuel 5 (code_init ex_cca) ex_grid = Ok (s', u').
Proof.
  destruct ex_step as [v Hv]. apply (C39_runs 5 (code_init ex_cca) ex_grid v); try exact ex_wf; try reflexivity; auto;
    unfold code_init; cbn; lia || lra.
Qed.

(** ** C40 Time bookkeeping *)
Theorem C40_code fuel n s u s' u' : 0 <= cd_min s -> code_run fuel n s u = Ok (s', u') ->
  List.length (code_steps fuel n s u) = n /\
  Forall (fun d => cd_min s <= d <= cd_max s) (code_steps fuel n s u) /\
  cd_time s' = cd_time s + lsum (code_steps fuel n s u).
Proof. exact (code_run_time fuel n s u s' u'). Qed.

Theorem C40_code_calls fuel n s u s1 u1 T : 0 < cd_min s -> cd_time s = 0 ->
  code_run fuel n s u = Ok (s1, u1) -> cd_time s1 <= T -> INR (S n) <= T / cd_min s + 1.
Proof. exact (code_calls_bound fuel n s u s1 u1 T). Qed.

Theorem C40_random rands s u s' u' : rs_run s rands u = Ok (s', u') ->
  rs_time s' = rs_time s + lsum (map (fun r => r * (rs_max s - rs_min s) + rs_min s) rands) /\
  rs_min s' = rs_min s /\ rs_max s' = rs_max s.
Proof. exact (rs_run_time rands s u s' u'). Qed.

Theorem C40_random_bounds rands s u s' u' : rs_min s <= rs_max s -> Forall (fun r => 0 <= r < 1) rands ->
  rs_run s rands u = Ok (s', u') ->
  rs_time s + INR (List.length rands) * rs_min s <= rs_time s' <= rs_time s + INR (List.length rands) * rs_max s.
Proof. exact (rs_run_min rands s u s' u'). Qed.

Theorem C40_random_step s r u s' u' : rs_forward s r u = Ok (s', u') ->
  rs_core s' = set_core_dt (rs_core s) (rs_dt_of s r) /\ rs_min s' = rs_min s /\ rs_max s' = rs_max s /\
  rs_prev s' = rs_dt_of s r /\ rs_time s' = rs_time s + rs_dt_of s r /\ rs_dt s' = DtFloat (rs_dt_of s r) /\
  cca_forward (set_core_dt (rs_core s) (rs_dt_of s r)) u = Ok u'.
Proof. exact (rs_forward_spec s r u s' u'). Qed.

(** get_dt works on a fresh object and raises after the first forward. *)
Theorem C40_get_dt_fails s r u s' u' : rs_forward s r u = Ok (s', u') -> get_dt (rs_dt s') = Err AttributeError.
Proof.
  exact (fun H => f_equal get_dt (proj1 (proj2 (proj2 (proj2 (proj2 (proj2 (rs_forward_spec s r u s' u' H)))))))).
Qed.

Theorem C40_code_get_dt_fails fuel s u s' u' : code_forward fuel s u = Ok (s', u') -> get_dt (cd_dt s') = Err AttributeError.
Proof.
  exact (fun H => f_equal get_dt (proj1 (proj2 (proj2 (proj2 (proj2 (proj2 (code_forward_spec fuel s u s' u' H)))))))).
Qed.

Example C40_example : get_dt (rs_dt (rs_init ex_cca)) = Ok (1 / 2) /\ get_dt (cd_dt (code_init ex_cca)) = Ok (1 / 2) /\
  rs_min (rs_init ex_cca) <= rs_max (rs_init ex_cca).
Proof. unfold rs_init, code_init. cbn. repeat split; lra. Qed.

(** ** C41 Momentum *)
Theorem C41_step s u s' u' : meta_wf s -> twf u -> meta_forward s u = Ok (s', u') ->
  exists uu d, update_of update_universe (mt_core s) (zero_dead (thr (mt_core s)) u) = Ok uu /\
  s' = mkMeta (mt_core s) (mt_ddt s) (Some d) /\ shape d = shape u /\ shape u' = shape u /\ twf u' /\ twf d /\
  forall b c i j, (b < tB u)%nat -> (c < tC u)%nat -> (i < tH u)%nat -> (j < tW u)%nat ->
    get d b c i j = match mt_dgrid s with
                    | Some d0 => if same_shape u d0 then get d0 b c i j else 0
                    | None => 0 end + mt_ddt s * get uu b c i j /\
    get u' b c i j = clamp 0 1 (get (zero_dead (thr (mt_core s)) u) b c i j + dt (mt_core s) * get d b c i j).
Proof. exact (meta_forward_spec s u s' u'). Qed.

Theorem C41_after_reset s u : cca_wf (mt_core s) -> twf u ->
  rmap snd (meta_forward (meta_reset s) u) =
  cca_forward (set_core_dt (mt_core s) (dt (mt_core s) * mt_ddt s)) u.
Proof. exact (meta_first s u). Qed.

Theorem C41_momentum n s u s' u' : meta_wf s -> mt_dgrid s = None -> twf u ->
  meta_run (S n) s u = Ok (s', u') ->
  exists (U : nat -> tensor) d, mt_dgrid s' = Some d /\ shape d = shape u /\
  (forall k, (k <= n)%nat -> exists sk uk, meta_run k s u = Ok (sk, uk) /\
     update_of update_universe (mt_core s) (zero_dead (thr (mt_core s)) uk) = Ok (U k)) /\
  forall b c i j, (b < tB u)%nat -> (c < tC u)%nat -> (i < tH u)%nat -> (j < tW u)%nat ->
    get d b c i j = mt_ddt s * rsum (S n) (fun k => get (U k) b c i j).
Proof. exact (meta_momentum n s u s' u'). Qed.

(** A new object moves at a quarter of the speed in its first step. *)
Theorem C41_first c u : cca_wf c -> twf u -> rmap snd (meta_forward (meta_init c) u) = cca_forward (set_core_dt c (dt c / 4)) u.
Proof.
  intros H U. pose proof (meta_first (meta_init c) u H U) as E. change (meta_reset (meta_init c)) with (meta_init c) in E. rewrite E.
  cbn [meta_init mt_core mt_ddt]. f_equal. f_equal. field.
Qed.

Example C41_example : meta_wf (meta_init ex_cca) /\ mt_dgrid (meta_init ex_cca) = None /\
  exists s' u', meta_forward (meta_init ex_cca) ex_grid = Ok (s', u').
Proof.
  split; [split; [exact ex_wf|exact I]|]. split; [reflexivity|].
  pose proof (C41_after_reset (meta_init ex_cca) ex_grid ex_wf ex_grid_wf) as H.
  destruct ex_step as [v Hv].
  destruct (cca_total ex_cca (dt (mt_core (meta_init ex_cca)) * mt_ddt (meta_init ex_cca)) ex_grid ex_grid v ex_wf ex_grid_wf ex_grid_wf eq_refl Hv) as [w Hw].
  change (mt_core (meta_init ex_cca)) with ex_cca in H, Hw. rewrite Hw in H.
  change (meta_reset (meta_init ex_cca)) with (meta_init ex_cca) in H.
  destruct (meta_forward (meta_init ex_cca) ex_grid) as [[s' u']|]; [eauto|discriminate].
Qed.
Print Assumptions constructed_wf.
Print Assumptions constructible.
Print Assumptions C01_step.
Print Assumptions C01_steps.
Print Assumptions C01_frame.
Print Assumptions C01_random_step.
Print Assumptions C01_code.
Print Assumptions C01_meta.
Print Assumptions C02_shape.
Print Assumptions C02_shape_lenia.
Print Assumptions C02_shape_random.
Print Assumptions C02_shape_code.
Print Assumptions C02_accepts.
Print Assumptions C02_bad_channels.
Print Assumptions C02_bad_padding.
Print Assumptions C02_bad_count.
Print Assumptions C03_identity.
Print Assumptions C03_channels.
Print Assumptions C03_applies.
Print Assumptions C04_toroidal.
Print Assumptions C05_cca.
Print Assumptions C05_lenia.
Print Assumptions C05_random.
Print Assumptions C05_code.
Print Assumptions C05_meta.
Print Assumptions C06_flip_v.
Print Assumptions C06_flip_h.
Print Assumptions C06_transpose.
Print Assumptions C06_code_flip_v.
Print Assumptions C07_cca.
Print Assumptions C07_lenia.
Print Assumptions C07_code_refuted.
Print Assumptions C08_rule.
Print Assumptions C08_formula.
Print Assumptions C08_same_update.
Print Assumptions C09_lenia.
Print Assumptions C10_fixed_iff.
Print Assumptions C10_stays_dead.
Print Assumptions C10_gaussian.
Print Assumptions C11_forward_masks.
Print Assumptions C11_frame_equals_forward.
Print Assumptions C11_frame_differs_refuted.
Print Assumptions C12_time.
Print Assumptions C13_exact.
Print Assumptions C13_range.
Print Assumptions C14_change.
Print Assumptions C39_terminates.
Print Assumptions C39_chosen_step.
Print Assumptions C39_bounds.
Print Assumptions C39_unbound.
Print Assumptions C39_runs.
Print Assumptions C40_code.
Print Assumptions C40_code_calls.
Print Assumptions C40_random.
Print Assumptions C40_random_bounds.
Print Assumptions C40_random_step.
Print Assumptions C40_get_dt_fails.
Print Assumptions C40_code_get_dt_fails.
Print Assumptions C41_step.
Print Assumptions C41_after_reset.
Print Assumptions C41_first.
Print Assumptions C41_momentum.
