(** Lipschitz bounds of the automata the library builds (proofs). *)
From Coq Require Import Reals Lra Lia List Arith Bool ZArith String.
From Verif Require Import Base PyDict Tensor MActivations MKernels MCommon MCca MRd MNca MConfig MConfigs PTensor PStep PCca PDyn SKern PKern PKernX PKernY SRd PRd SNca PNca SGrid SCca SConfig PConfig PConfigX PBundle SLife SLip PLip PLipX.
Import ListNotations.
Open Scope R_scope.

(** ** Layers *)
Lemma tsum_abs_get k : twf k -> tsum (tmap Rabs k) = rsum (tB k) (fun b => rsum (tC k) (fun c => rsum (tH k) (fun i => rsum (tW k) (fun j => Rabs (get k b c i j))))).
Proof. intros W. rewrite (tmap_eq_build Rabs k W). apply tsum_build. Qed.

Lemma layer_mass e n m k l r : (0 < e)%nat -> (0 < n)%nat -> (n mod e = 0)%nat -> shape k = (1, 1, 2 * r + 1, 2 * r + 1)%nat -> twf k -> init_layer e n m k = Ok l ->
  layer_within (tsum (tmap Rabs k)) l.
Proof.
  intros He Hn Hm S W H. apply shape_inv in S as (K1 & K2 & K3 & K4). destruct (init_layer_wf e n m k l r He Hn K3 K4 H) as ((_ & _ & _ & _ & EB & EC & EH & EW) & Hp & _).
  assert (Eg : cl_g l = e). { unfold init_layer in H. rewrite groups_eq in H by exact He. rewrite Hm in H. cbn [bind Nat.eqb] in H. apply bind_ok in H as (w & _ & E). injection E as <-. reflexivity. }
  intros o Ho. unfold row_weight. rewrite tsum_abs_get by exact W. rewrite K1, K2, K3, K4, EH, EW, Hp. assert (EC1 : tC (cl_w l) = 1%nat) by nia. rewrite EC1. cbn [rsum]. rewrite !Rplus_0_l. right.
  apply rsum_ext. intros y Hy. apply rsum_ext. intros x Hx. f_equal. rewrite (init_layer_w e n m k l) by (auto; lia). unfold bget, bidx. rewrite K1, K2. cbn [Nat.eqb].
  destruct (Nat.eqb_spec (tH k) 1), (Nat.eqb_spec (tW k) 1); try reflexivity; f_equal; lia.
Qed.

Lemma nth_pos l : Forall (fun v => 0 <= v) l -> forall i, 0 <= nth i l 0.
Proof. intros H. induction H as [|a l A _ IH]; intros [|i]; cbn [nth]; try lra. apply IH. Qed.

Lemma layer_nonneg e n m k l : (0 < e)%nat -> Forall (fun v => 0 <= v) (tdata k) -> init_layer e n m k = Ok l -> nonneg_layer l.
Proof.
  intros He Hk H. unfold init_layer in H. rewrite groups_eq in H by exact He. cbn [bind] in H. apply bind_ok in H as (w & Hw & E). injection E as <-. apply expand_ok in Hw as (-> & _).
  intros o c y x. cbn [cl_w]. unfold get. apply nth_pos. apply forall_build. intros b c' i j. unfold bget, get. apply nth_pos, Hk.
Qed.

Lemma normalised_mass k : normalised k -> tsum (tmap Rabs k) <= 1.
Proof.
  intros (_ & _ & _ & P & S). assert (E : tmap Rabs k = k); [|rewrite E; exact S]. destruct k as [b c h w d]. unfold tmap. cbn [tB tC tH tW tdata] in *. f_equal.
  induction P as [|x d Hx _ IH]; cbn [map]; [reflexivity|]. rewrite (Rabs_pos_eq x Hx). f_equal. apply IH. unfold tsum in *. cbn [tdata] in *. unfold lsum in *. cbn [fold_right] in S. lra.
Qed.

Lemma id_normalised : normalised default_id_kernel.
Proof.
  split; [reflexivity|]. split; [reflexivity|]. split; [reflexivity|]. split; [repeat constructor; lra|]. unfold tsum, lsum. cbn [tdata default_id_kernel fold_right]. lra.
Qed.

Lemma kernel_within cfg k e n m l : (0 < e)%nat -> (0 < n)%nat -> (n mod e = 0)%nat -> get_kernel cfg = Ok k -> init_layer e n m k = Ok l -> layer_within 1 l.
Proof.
  intros He Hn Hm Hk Hl. pose proof Hk as Ho. apply get_kernel_odd in Ho as (r & (S & W & _) & _). intros o Ho. eapply Rle_trans; [apply (layer_mass e n m k l r He Hn Hm S W Hl o Ho)|].
  destruct (dget "name" cfg) as [v|] eqn:E.
  - assert (D : {v = VStr "LaplacianOfGaussian"} + {v <> VStr "LaplacianOfGaussian"}).
    { destruct v; try (right; discriminate). destruct (string_dec s "LaplacianOfGaussian") as [->|N]; [left; reflexivity|right; congruence]. }
    destruct D as [->|N]; [destruct (log_kernel_sum cfg k E Hk) as [_ ->]; lra|]. apply normalised_mass, (get_kernel_normalised cfg k Hk). congruence.
  - apply normalised_mass, (get_kernel_normalised cfg k Hk). congruence.
Qed.

Lemma default_within e n m l : (0 < e)%nat -> (0 < n)%nat -> (n mod e = 0)%nat -> init_layer e n m default_id_kernel = Ok l -> layer_within 1 l /\ nonneg_layer l.
Proof.
  intros He Hn Hm Hl. split; [|apply (layer_nonneg e n m default_id_kernel l He (proj1 (proj2 (proj2 (proj2 id_normalised)))) Hl)]. intros o Ho. eapply Rle_trans; [apply (layer_mass e n m default_id_kernel l 1 He Hn Hm eq_refl eq_refl Hl o Ho)|]. apply normalised_mass, id_normalised.
Qed.

(** ** Automata with the default identity kernel *)

Lemma tame_lip K L M fns : 0 <= K -> tame K L M fns -> all_lip K L fns /\ all_bounded K M fns.
Proof.
  intros HK T. split; intros a Ha; destruct (T a Ha) as (O & J & A & B).
  - apply (lip_weaken K _ _ _ A), act_is_lip; assumption.
  - intros x Hx. eapply Rle_trans; [apply (act_is_bounded K a HK O J x Hx)|exact B].
Qed.

Lemma built_spreads c cfg k L M : (0 < ext c)%nat -> (0 < int_ c)%nat -> (int_ c mod ext c = 0)%nat -> init_layer (ext c) (int_ c) (pm c) default_id_kernel = Ok (idl c) ->
  get_kernel cfg = Ok k -> init_layer (ext c) (int_ c) (pm c) k = Ok (nbl c) -> init_weights (ext c) (int_ c) (pm c) = Ok (wl c) ->
  0 <= L -> 0 <= M -> tame 1 L M (gens c) -> tame 1 L M (pers c) -> spreads (1 + Rabs (dt c) * (L + 2 * M) / INR (ext c)) (cca_forward c).
Proof.
  intros He Hn Hm Hi Hk Hl Hw HL HM Tg Tp. pose proof Hk as Ho. apply get_kernel_odd in Ho as (r & (S & W & _) & _). apply shape_inv in S as (K1 & K2 & K3 & K4).
  destruct (default_within _ _ _ _ He Hn Hm Hi) as [D1 D2]. destruct (tame_lip 1 L M _ Rle_0_1 Tg) as [G1 G2]. destruct (tame_lip 1 L M _ Rle_0_1 Tp) as [P1 P2].
  assert (C : cca_wf c). { split; [|split]; [apply (init_layer_wf _ _ _ default_id_kernel _ 1 He Hn eq_refl eq_refl Hi)|apply (init_layer_wf _ _ _ k _ r He Hn K3 K4 Hl)|apply (wl_init_wf _ _ _ _ He Hn Hw)]. }
  pose proof (cca_spreads_unit c 1 L M (1 / INR (ext c)) C D2 D1 (kernel_within cfg k _ _ _ _ He Hn Hm Hk Hl) (init_weights_within _ _ _ _ He Hn Hw) HL HM G1 P1 G2 P2) as Q.
  replace (Rabs (dt c) * (L + 2 * M) / INR (ext c)) with (Rabs (dt c) * (1 / INR (ext c) * (L * 1 + 2 * M))); [exact Q|]. field. pose proof (lt_0_INR _ He). lra.
Qed.

(** Equal growth functions: the bound of the functions does not matter. *)
Lemma same_spreads c cfg k I L : (0 < ext c)%nat -> (0 < int_ c)%nat -> (int_ c mod ext c = 0)%nat -> cca_wf c -> layer_within I (idl c) ->
  get_kernel cfg = Ok k -> init_layer (ext c) (int_ c) (pm c) k = Ok (nbl c) -> init_weights (ext c) (int_ c) (pm c) = Ok (wl c) ->
  0 <= L -> all_lip 1 L (gens c) -> gens c = pers c -> spreads (1 + Rabs (dt c) * L / INR (ext c)) (cca_forward c).
Proof.
  intros He Hn Hm C Wi Hk Hl Hw HL G E. pose proof (lenia_spreads c I 1 L (1 / INR (ext c)) C Wi (kernel_within cfg k _ _ _ _ He Hn Hm Hk Hl) (init_weights_within _ _ _ _ He Hn Hw) HL G) as Q.
  intros e u v H0 HC N. pose proof N as (Tu & Tv & _). rewrite !(cca_eq_lenia c) by assumption.
  replace (Rabs (dt c) * L / INR (ext c)) with (Rabs (dt c) * (1 / INR (ext c) * (L * 1))); [apply Q; assumption|]. field. pose proof (lt_0_INR _ He). lra.
Qed.

Lemma exp_half : exp (- (1 / 2)) <= 2 / 3.
Proof. rewrite exp_Ropp. pose proof (exp_ineq1_le (1 / 2)) as H. apply Rle_trans with (/ (3 / 2)); [apply Rinv_le_contravar; lra|lra]. Qed.

Lemma eps9_small : 0 < eps9.
Proof. unfold eps9. lra. Qed.

Lemma gauss_lip_le s : 0 < s -> gauss_lip s <= 2 / (3 * s).
Proof.
  intros H. unfold gauss_lip. pose proof eps9_small. rewrite Rabs_pos_eq by lra. pose proof exp_half. pose proof (exp_pos (- (1 / 2))). replace (2 / (3 * s)) with (2 / 3 / s) by (field; lra). unfold Rdiv.
  apply Rmult_le_compat; [lra|left; apply Rinv_0_lt_compat; lra|lra|apply Rinv_le_contravar; lra].
Qed.

Lemma one_mixture_lip mu s : 0 < s -> all_lip 1 (4 / (3 * s)) [AMixture [(1, mu, s)] true].
Proof.
  intros H a [<-|[]]. pose proof eps9_small as He. eapply lip_weaken; [|apply act_is_lip; [lra| |exact Logic.I]].
  - cbn [act_lip twice fold_right fst snd]. rewrite Rabs_R1. pose proof (gauss_lip_le s H). replace (4 / (3 * s)) with (2 * (2 / (3 * s))) by (field; lra). lra.
  - cbn [act_ok forallb snd]. assert (E : nonzero (eps9 + s) = true) by (unfold nonzero; destruct (Req_EM_T (eps9 + s) 0); [lra|reflexivity]). rewrite E. reflexivity.
Qed.

Lemma one_mixture_tame mu s : 0 < s -> tame 1 (4 / (3 * s)) 1 [AMixture [(1, mu, s)] true].
Proof.
  intros H a [<-|[]]. pose proof eps9_small as He. split; [|split; [exact Logic.I|split; [|cbn [act_bound]; lra]]].
  - cbn [act_ok forallb snd]. assert (E : nonzero (eps9 + s) = true) by (unfold nonzero; destruct (Req_EM_T (eps9 + s) 0); [lra|reflexivity]). rewrite E. reflexivity.
  - cbn [act_lip twice fold_right fst snd]. rewrite Rabs_R1. pose proof (gauss_lip_le s H). replace (4 / (3 * s)) with (2 * (2 / (3 * s))) by (field; lra). lra.
Qed.

Lemma spreads_weaken q q' f : q <= q' -> spreads q f -> spreads q' f.
Proof.
  intros H S e u v He HC N. destruct (S e u v He HC N) as [A B]. split; [|exact B]. intros u' E. destruct (A u' E) as (v' & E' & (T1 & T2 & T3 & T4 & T5 & T6)). exists v'. split; [exact E'|].
  repeat split; try assumption. intros b c i j Hb Hc Hi Hj. eapply Rle_trans; [apply T6; assumption|]. apply Rmult_le_compat_r; assumption.
Qed.

Lemma fitted_unique r p k k' : fitted r p k -> fitted r p k' -> k = k'.
Proof.
  intros (W & S & m & s & Hm & (i0 & j0 & Hi & Hj & E0) & Es & G) (W' & S' & m' & s' & Hm' & (i1 & j1 & Hi' & Hj' & E1) & Es' & G').
  assert (m = m'). { pose proof (Hm i1 j1 Hi' Hj'). pose proof (Hm' i0 j0 Hi Hj). lra. } rewrite <- H in *. assert (s = s') by (etransitivity; [exact Es|symmetry; exact Es']). clear Es Es'. subst s'.
  apply tensor_ext; auto; [congruence|]. pose proof S as Q. apply shape_inv in Q as (Q1 & Q2 & Q3 & Q4). intros b c i j Hb Hc Hi2 Hj2. rewrite Q1 in Hb. rewrite Q2 in Hc. rewrite Q3 in Hi2. rewrite Q4 in Hj2.
  assert (b = 0%nat) as -> by lia. assert (c = 0%nat) as -> by lia. rewrite G, G' by assumption. reflexivity.
Qed.

Lemma same_facts o o' cfg k mu s : obj_inv o -> ext (o_core o) = 1%nat -> 0 < s -> get_kernel cfg = Ok k ->
  rule_of o o' default_id_kernel k [AMixture [(1, mu, s)] true] [AMixture [(1, mu, s)] true] (1 / 10) ->
  let c := o_core o' in (0 < ext c)%nat /\ (0 < int_ c)%nat /\ (int_ c mod ext c = 0)%nat /\ cca_wf c /\ layer_within 1 (idl c) /\ init_layer (ext c) (int_ c) (pm c) k = Ok (nbl c) /\
  init_weights (ext c) (int_ c) (pm c) = Ok (wl c) /\ gens c = [AMixture [(1, mu, s)] true] /\ pers c = [AMixture [(1, mu, s)] true] /\ ext c = 1%nat /\ dt c = 1 / 10.
Proof.
  intros Io E1 Hs Hk (I' & X1 & X2 & X3 & _ & X5 & X6 & X7 & X8 & X9 & _). pose proof I' as (P1 & P2 & _ & _ & Hw & _). cbv zeta in *. set (c := o_core o') in *.
  assert (Hm : (int_ c mod ext c = 0)%nat) by (rewrite X1, E1; apply Nat.mod_1_r). rewrite <- X1, <- X2, <- X3 in X8. unfold uses_kernel in X9.
  pose proof Hk as Ho. apply get_kernel_odd in Ho as (r & (S & W & _) & _). apply shape_inv in S as (K1 & K2 & K3 & K4).
  assert (C : cca_wf c). { split; [|split]; [apply (init_layer_wf _ _ _ default_id_kernel _ 1 P1 P2 eq_refl eq_refl X8)|apply (init_layer_wf _ _ _ k _ r P1 P2 K3 K4 X9)|apply (wl_init_wf _ _ _ _ P1 P2 Hw)]. }
  repeat (split; [first [assumption|exact (proj1 (default_within _ _ _ _ P1 P2 Hm X8))|congruence]|]). exact X5.
Qed.

Lemma bundle_same o o' cfg k mu s : obj_inv o -> ext (o_core o) = 1%nat -> 0 < s -> get_kernel cfg = Ok k ->
  rule_of o o' default_id_kernel k [AMixture [(1, mu, s)] true] [AMixture [(1, mu, s)] true] (1 / 10) -> spreads (1 + 2 / (15 * s)) (cca_forward (o_core o')).
Proof.
  intros Io E1 Hs Hk Rl. destruct (same_facts o o' cfg k mu s Io E1 Hs Hk Rl) as (P1 & P2 & Hm & C & Wi & Hn & Hw & X6 & X7 & Ee & X5). cbv zeta in *. set (c := o_core o') in *.
  pose proof (same_spreads c cfg k 1 (4 / (3 * s)) P1 P2 Hm C Wi Hk Hn Hw) as Q. rewrite Ee, X5, X6, X7 in Q.
  assert (P : 0 < / s) by (apply Rinv_0_lt_compat; exact Hs).
  apply (spreads_weaken (1 + Rabs (1 / 10) * (4 / (3 * s)) / INR 1)); [|apply Q; [|apply one_mixture_lip; exact Hs|reflexivity]].
  - rewrite Rabs_pos_eq by lra. change (INR 1) with 1. right. field. lra.
  - unfold Rdiv. rewrite Rinv_mult. nra.
Qed.

(** ** Gray-Scott *)
Lemma rd_plain_spreads s : rd_inv s -> rd_id s -> spreads (1 + Rabs (rd_dt s) * (Rmax (Rabs (rd_du s)) (Rabs (rd_dv s)) / rd_dx s ^ 2 + 3 + (Rabs (rd_f s) + Rabs (rd_k s)))) (rd_forward s).
Proof.
  intros Hi Hd. pose proof (rd_inv_layers s Hi) as HL. destruct (ri_nbl s Hi) as (d & k & r & _ & Hk & S & W & _ & Hl). unfold rd_id in Hd.
  pose proof (rd_spreads s 1 1 HL (proj1 (default_within 2 2 _ _ ltac:(lia) ltac:(lia) eq_refl Hd)) (kernel_within d k 2 2 _ _ ltac:(lia) ltac:(lia) eq_refl Hk Hl)) as Q.
  rewrite Rmult_1_r, pow1, !Rmult_1_r in Q. exact Q.
Qed.

(** ** Which steps keep shapes and ranges *)
Definition step_of (f : tensor -> res tensor) : Prop :=
  (exists c, cca_wf c /\ (f = cca_forward c \/ f = lenia_forward c)) \/ (exists s, rd_layers s /\ f = rd_forward s) \/ (exists s keep, nca_wf s /\ f = nca_forward false keep s).

Lemma step_of_shape f u u' : step_of f -> twf u -> f u = Ok u' -> shape u' = shape u /\ twf u'.
Proof.
  intros [(c & C & [-> | ->])|[(s & C & ->)|(s & keep & C & ->)]] T E.
  - apply (cca_shape c u u' C T E).
  - apply (lenia_shape c u u' C T E).
  - apply (rd_shape s u u' C T E).
  - pose proof C as (H1 & H2 & _). apply (ca_forward_shape _ _ _ _ _ _ _ _ _ _ (mask_if_cell (nc_thr s)) H1 H2 (nca_eval_pointwise keep s C) u u' T E).
Qed.

Lemma step_of_unit f u u' : step_of f -> f u = Ok u' -> in_unit u'.
Proof.
  intros [(c & C & [-> | ->])|[(s & C & ->)|(s & keep & C & ->)]] E.
  - apply (step_in_unit _ c u u' E).
  - apply (step_in_unit _ c u u' E).
  - apply (rd_in_unit s u u' E).
  - unfold nca_forward in E. apply ca_forward_in01 in E. exact E.
Qed.

(** ** Where it fails *)
Lemma smoothlife_jump ra ri K : ri <= ra -> 0 <= K -> Rabs ra < K -> forall L, ~ lip_on K L (act_fn (ASmoothLife ra ri)).
Proof.
  intros Hr HK Ha L H. set (d := Rmin ((K - Rabs ra) / 2) (1 / (2 * (Rabs L + 1)))). assert (LP : 0 < Rabs L + 1) by (pose proof (Rabs_pos L); lra).
  assert (D0 : 0 < d) by (unfold d; apply Rmin_glb_lt; [lra|apply Rdiv_lt_0_compat; lra]). assert (D1 : d <= (K - Rabs ra) / 2) by apply Rmin_l. assert (D2 : d <= 1 / (2 * (Rabs L + 1))) by apply Rmin_r.
  specialize (H (ra + d) ra). cbn [act_fn] in H. destruct (Rlt_dec ra (ra + d)); [|lra]. destruct (Rlt_dec ra ra); [lra|]. destruct (Rle_dec ri ra); [|lra].
  replace (0 - 1) with (- (1)) in H by ring. replace (ra + d - ra) with d in H by ring. rewrite Rabs_Ropp, Rabs_R1, (Rabs_pos_eq d) in H by lra.
  assert (X : Rabs (ra + d) <= K). { eapply Rle_trans; [apply Rabs_triang|]. rewrite (Rabs_pos_eq d) by lra. lra. }
  specialize (H X ltac:(lra)). assert (L * d <= (Rabs L + 1) * (1 / (2 * (Rabs L + 1)))). { apply Rle_trans with ((Rabs L + 1) * d); [apply Rmult_le_compat_r; [lra|pose proof (Rle_abs L); lra]|apply Rmult_le_compat_l; lra]. }
  replace ((Rabs L + 1) * (1 / (2 * (Rabs L + 1)))) with (1 / 2) in H0 by (field; lra). lra.
Qed.

Definition four : cca := mkCca 4 4 Circular (1 / 10) (mkL (build 4 1 3 3 (fun _ _ y x => if Nat.eqb y 1 && Nat.eqb x 1 then 1 else 0)) 4 1 Circular)
  (mkL (build 4 1 3 3 (fun _ _ y x => if Nat.eqb y 1 && Nat.eqb x 1 then 1 else 0)) 4 1 Circular)
  (WConv (mkL (build 4 4 1 1 (fun _ _ _ _ => 1 / 16)) 1 0 Circular)) [AIdentity; AIdentity; AIdentity; AIdentity] [AIdentity; AIdentity; AIdentity; AIdentity] (1 / 10).

Lemma four_id : init_layer 4 4 Circular default_id_kernel = Ok (idl four).
Proof. unfold init_layer. cbn [groups Nat.eqb Nat.modulo Nat.divmod fst snd Nat.sub bind]. reflexivity. Qed.

Lemma four_weights : init_weights 4 4 Circular = Ok (wl four).
Proof.
  unfold init_weights. set (w := build 4 4 1 1 (fun _ _ _ _ => 1)). assert (S : tsum w = 16).
  { unfold w. rewrite tsum_build. cbn [rsum]. lra. }
  rewrite S. unfold nonzero. destruct (Req_EM_T 16 0); [lra|]. cbn [guard bind]. unfold w. rewrite tmap_build. reflexivity.
Qed.

Lemma four_wf : cca_wf four.
Proof. split; [|split]; [apply (init_layer_wf 4 4 Circular default_id_kernel _ 1 ltac:(lia) ltac:(lia) eq_refl eq_refl four_id)|apply (init_layer_wf 4 4 Circular default_id_kernel _ 1 ltac:(lia) ltac:(lia) eq_refl eq_refl four_id)|apply (wl_init_wf 4 4 Circular _ ltac:(lia) ltac:(lia) four_weights)]. Qed.

Definition four_grid (z : R) : tensor := build 1 4 1 1 (fun _ c _ _ => match c with 0%nat => 1 | 3%nat => z | _ => 0 end).

Lemma four_step z : 0 <= z <= 1 -> exists u', cca_forward four (four_grid z) = Ok u' /\ get u' 0 0 0 0 = if Rlt_dec (1 / 10) z then 1 else 0.
Proof.
  intros Hz. assert (T : twf (four_grid z)) by apply twf_build.
  assert (A : exists u', cca_forward four (four_grid z) = Ok u').
  { apply (cca_accepts four (four_grid z) four_wf T). unfold fits. cbn [four_grid tC tH tW build four ext int_ idl nbl gens pers cl_m cl_p pad_allowed]. repeat split; try lia; reflexivity. }
  destruct A as [u' E]. exists u'. split; [exact E|]. destruct (cca_rule four _ u' four_wf T four_weights E) as (m & idn & nb & Hm & Hi & Hn & R).
  rewrite mask_if_zero_dead in Hm by exact T. injection Hm as <-. assert (Tm : twf (zero_dead (thr four) (four_grid z))) by apply twf_build.
  pose proof (id_conv_identity 4 Circular _ _ _ ltac:(lia) four_id Tm Hi) as ->. pose proof (id_conv_identity 4 Circular _ _ _ ltac:(lia) four_id Tm Hn) as ->.
  rewrite R by (cbn; lia). cbn [four ext int_ dt thr gens pers]. set (m := zero_dead (1 / 10) (four_grid z)).
  assert (M : forall k, (k < 4)%nat -> get m 0 k 0 0 = if Rlt_dec (1 / 10) z then get (four_grid z) 0 k 0 0 else 0).
  { intros k Hk. unfold m, zero_dead, four_grid. cbn [tC build Nat.leb]. rewrite get_build by (cbn [tB tC tH tW build]; lia). rewrite (get_build 1 4 1 1 _ 0 3 0 0) by lia. reflexivity. }
  assert (G : forall k, (k < 4)%nat -> get (four_grid z) 0 k 0 0 = match k with 0%nat => 1 | 3%nat => z | _ => 0 end) by (intros k Hk; unfold four_grid; rewrite get_build by lia; reflexivity).
  assert (N : forall k x, act_fn (nth k [AIdentity; AIdentity; AIdentity; AIdentity] AIdentity) x = x) by (intros [|[|[|[|[|k]]]]] x; reflexivity).
  rewrite (rsum_ext 4 _ (fun k => get m 0 k 0 0)) by (intros k Hk; rewrite !N; ring). cbn [rsum INR]. rewrite !M, !G by lia. destruct (Rlt_dec (1 / 10) z).
  - apply clamp_hi; [lra|]. assert (0 <= (0 + 1 + 0 + 0 + z) / ((1 + 1 + 1 + 1) * (1 + 1 + 1 + 1))) by lra. lra.
  - apply clamp_lo; lra.
Qed.

Lemma four_near z w e : 0 <= z <= 1 -> 0 <= w <= 1 -> Rabs (z - w) <= e -> near e (four_grid z) (four_grid w).
Proof.
  intros Hz Hw He. pose proof (Rabs_pos (z - w)). repeat split; try apply twf_build; try (apply forall_build; intros b [|[|[|[|c]]]] i j; lra).
  cbn [four_grid tB tC tH tW build]. intros b c i j Hb Hc Hi Hj. unfold four_grid. rewrite !get_build by assumption. destruct c as [|[|[|[|c]]]]; try exact He; rewrite Rminus_diag_eq, Rabs_R0 by reflexivity; lra.
Qed.

Lemma four_jump q : exists e u v u' v', 0 < e /\ near e u v /\ cca_forward four u = Ok u' /\ cca_forward four v = Ok v' /\ q * e < Rabs (get u' 0 0 0 0 - get v' 0 0 0 0).
Proof.
  set (e := 1 / (2 * (Rabs q + 1))). assert (QP : 0 < Rabs q + 1) by (pose proof (Rabs_pos q); lra). assert (E0 : 0 < e) by (apply Rdiv_lt_0_compat; lra).
  assert (E1 : e <= 1 / 2). { unfold e. apply (Rmult_le_reg_r (2 * (Rabs q + 1))); [lra|]. unfold Rdiv. rewrite Rmult_assoc, Rinv_l by lra. pose proof (Rabs_pos q). lra. }
  destruct (four_step (1 / 10 + e) ltac:(lra)) as (u' & Eu & Gu). destruct (four_step (1 / 10) ltac:(lra)) as (v' & Ev & Gv).
  exists e, (four_grid (1 / 10 + e)), (four_grid (1 / 10)), u', v'. split; [exact E0|]. split; [apply four_near; [lra|lra|]; replace (1 / 10 + e - 1 / 10) with e by ring; rewrite Rabs_pos_eq; lra|]. split; [exact Eu|]. split; [exact Ev|].
  rewrite Gu, Gv. destruct (Rlt_dec (1 / 10) (1 / 10 + e)); [|lra]. destruct (Rlt_dec (1 / 10) (1 / 10)); [lra|]. rewrite Rminus_0_r, Rabs_R1.
  assert (q * e <= (Rabs q + 1) * e) by (apply Rmult_le_compat_r; [lra|pose proof (Rle_abs q); lra]). assert ((Rabs q + 1) * e = 1 / 2) by (unfold e; field; lra). lra.
Qed.

(** SmoothLife *)
Lemma smooth_facts o o' ki k p p' : obj_inv o -> ext (o_core o) = 1%nat -> (1 <= p)%nat -> fitted p p' ki -> (exists r' p2, fitted r' p2 k) ->
  rule_of o o' ki k [ASmoothIntervals [(278 / 1000, 365 / 1000)] (28 / 1000) true] [ASmoothIntervals [(267 / 1000, 445 / 1000)] (147 / 1000) true] 1 ->
  let c := o_core o' in cca_wf c /\ nonneg_layer (idl c) /\ layer_within 1 (idl c) /\ layer_within 1 (nbl c) /\ wl_within 1 (wl c) /\
  all_lip 1 143 (gens c) /\ all_lip 1 143 (pers c) /\ all_bounded 1 1 (gens c) /\ all_bounded 1 1 (pers c) /\ dt c = 1.
Proof.
  intros Io E1 Hp Fi (r' & p2 & Fk) (I' & X1 & X2 & X3 & _ & X5 & X6 & X7 & X8 & X9 & _). pose proof I' as (P1 & P2 & _ & _ & Hw & _). cbv zeta in *. set (c := o_core o') in *.
  assert (Hm : (int_ c mod ext c = 0)%nat) by (rewrite X1, E1; apply Nat.mod_1_r). rewrite <- X1, <- X2, <- X3 in X8. unfold uses_kernel in X9.
  destruct (fitted_wf _ _ _ Fi) as [Wi Si]. destruct (fitted_wf _ _ _ Fk) as [Wk Sk]. destruct (fitted_normalised _ _ _ Fi) as [Ni _]. destruct (fitted_normalised _ _ _ Fk) as [Nk _].
  pose proof Si as Si'. pose proof Sk as Sk'. apply shape_inv in Si' as (_ & _ & I3 & I4). apply shape_inv in Sk' as (_ & _ & K3 & K4).
  assert (C : cca_wf c). { split; [|split]; [apply (init_layer_wf _ _ _ ki _ p P1 P2 I3 I4 X8)|apply (init_layer_wf _ _ _ k _ r' P1 P2 K3 K4 X9)|apply (wl_init_wf _ _ _ _ P1 P2 Hw)]. }
  assert (W1 : layer_within 1 (idl c)) by (intros x Hx; eapply Rle_trans; [apply (layer_mass _ _ _ ki _ p P1 P2 Hm Si Wi X8 x Hx)|apply normalised_mass, Ni]).
  assert (W2 : layer_within 1 (nbl c)) by (intros x Hx; eapply Rle_trans; [apply (layer_mass _ _ _ k _ r' P1 P2 Hm Sk Wk X9 x Hx)|apply normalised_mass, Nk]).
  assert (N1 : nonneg_layer (idl c)) by (apply (layer_nonneg _ _ _ ki _ P1 (proj1 (proj2 (proj2 (proj2 Ni)))) X8)).
  assert (T : forall lo hi al, 28 / 1000 <= al -> tame 1 143 1 [ASmoothIntervals [(lo, hi)] al true]).
  { intros lo hi al Hal a [<-|[]]. split; [cbn [act_ok]; unfold nonzero; destruct (Req_EM_T al 0); [lra|reflexivity]|]. split; [exact Logic.I|]. split.
    - cbn [act_lip twice List.length]. change (INR 1) with 1. rewrite Rabs_pos_eq by lra. assert (2 / al <= 2 / (28 / 1000)) by (unfold Rdiv; apply Rmult_le_compat_l; [lra|]; apply Rinv_le_contravar; lra). lra.
    - cbn [act_bound List.length]. change (INR 1) with 1. apply Rmax_lub; lra. }
  destruct (tame_lip 1 143 1 _ Rle_0_1 (T (278 / 1000) (365 / 1000) (28 / 1000) ltac:(lra))) as [G1 G2]. destruct (tame_lip 1 143 1 _ Rle_0_1 (T (267 / 1000) (445 / 1000) (147 / 1000) ltac:(lra))) as [Q1 Q2].
  pose proof (init_weights_within _ _ _ _ P1 P2 Hw) as Q. rewrite X1, E1 in Q. change (INR 1) with 1 in Q. replace (1 / 1) with 1 in Q by lra.
  rewrite X6, X7. repeat (split; [assumption|]). exact X5.
Qed.

Lemma smooth_bundle o o' ki k p p' : obj_inv o -> ext (o_core o) = 1%nat -> (1 <= p)%nat -> fitted p p' ki -> (exists r' p2, fitted r' p2 k) ->
  rule_of o o' ki k [ASmoothIntervals [(278 / 1000, 365 / 1000)] (28 / 1000) true] [ASmoothIntervals [(267 / 1000, 445 / 1000)] (147 / 1000) true] 1 -> spreads 146 (cca_forward (o_core o')).
Proof.
  intros Io E1 Hp Fi Fk Rl. destruct (smooth_facts o o' ki k p p' Io E1 Hp Fi Fk Rl) as (C & N1 & W1 & W2 & Wl & G1 & Q1 & G2 & Q2 & Ed).
  eapply spreads_weaken; [|apply (cca_spreads_unit _ 1 143 1 1 C N1 W1 W2 Wl ltac:(lra) ltac:(lra) G1 Q1 G2 Q2)]. rewrite Ed, Rabs_R1. lra.
Qed.
