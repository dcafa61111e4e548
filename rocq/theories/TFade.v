(** Theorems about universes that die out: property C104. *)
From Coq Require Import Reals Lra Lia List Arith Bool ZArith String.
From Verif Require Import Base PyDict Tensor MActivations MKernels MCommon MCca MRd MConfig MConfigs SGrid SCca SKern SRd SConfig SLife SLip SFlow SFade PTensor PStep PStepX PCca PDyn PCode PKern PKernX PRd PConfig PConfigX PConfigY PConfigW PBundle PLip PLipX PLipY PFlow PFlowX PFlowY PFade PFadeX Examples TLip TFlow.
Import ListNotations.
Open Scope R_scope.
Local Open Scope list_scope.

(** ** Growth functions that sink where little is alive *)
Theorem C104_gaussian mu s z M : 0 < eps9 + s -> 0 <= z -> M <= mu - z * (eps9 + s) -> sinking M (1 - 2 * exp (- (z ^ 2 / 2))) [AGaussian mu s true].
Proof. exact (gaussian_sinks mu s z M). Qed.

Theorem C104_mixture gs z M : 0 <= z -> Forall (fun g => 0 < eps9 + snd g /\ M <= snd (fst g) - z * (eps9 + snd g)) gs ->
  sinking M (1 - 2 * (fold_right (fun g t => Rabs (fst (fst g)) + t) 0 gs * exp (- (z ^ 2 / 2)))) [AMixture gs true].
Proof. exact (mixture_sinks gs z M). Qed.

Theorem C104_intervals ivs al z M : 0 < al -> Forall (fun b => M <= fst b - z * al) ivs -> sinking M (1 - 2 * (INR (List.length ivs) / (1 + exp (4 * z)))) [ASmoothIntervals ivs al true].
Proof. exact (intervals_sink ivs al z M). Qed.

(** Cells at most [M] have neighbourhoods at most [M] under a kernel of mass at most one. *)
Theorem C104_thin e n l M u : layer_wf e n l -> layer_within 1 l -> twf u -> 0 <= M -> below M u -> thin M l u.
Proof. exact (below_thin e n l M u). Qed.

(** ** A CCA *)
(** Steps of any lengths: every cell loses at least the rate times the time, down to 0, and neighbourhoods stay thin. *)
Theorem C104_cca c M d hs u u' : cca_wf c -> nonneg_layer (idl c) -> layer_within 1 (idl c) -> nonneg_layer (nbl c) -> init_weights (ext c) (int_ c) (pm c) = Ok (wl c) ->
  0 <= d -> sinking M d (gens c) -> sinking M d (pers c) -> Forall (fun h => 0 <= h) hs -> twf u -> in_unit u -> thin M (nbl c) u ->
  run_steps (cca_at c) hs u = Ok u' -> dimmed (total hs * (d / INR (ext c))) u u' /\ thin M (nbl c) u'.
Proof. exact (cca_fades c M d hs u u'). Qed.

Lemma at_own c : forall n u, iter_res (cca_forward c) n u = run_steps (cca_at c) (repeat (dt c) n) u.
Proof. intros n u. rewrite <- iter_steps. unfold cca_at. assert (E : set_core_dt c (dt c) = c) by (destruct c; reflexivity). rewrite E. reflexivity. Qed.

Lemma at_own_lenia c : forall n u, iter_res (lenia_forward c) n u = run_steps (lenia_at c) (repeat (dt c) n) u.
Proof. intros n u. rewrite <- iter_steps. unfold lenia_at. assert (E : set_core_dt c (dt c) = c) by (destruct c; reflexivity). rewrite E. reflexivity. Qed.

(** Extinction: from some step on nothing is left. *)
Theorem C104_extinct c M d m n u u' : cca_wf c -> nonneg_layer (idl c) -> layer_within 1 (idl c) -> nonneg_layer (nbl c) -> init_weights (ext c) (int_ c) (pm c) = Ok (wl c) ->
  0 <= d -> 0 <= dt c -> sinking M d (gens c) -> sinking M d (pers c) -> twf u -> m <= 1 -> below m u -> thin M (nbl c) u ->
  m <= INR n * dt c * (d / INR (ext c)) -> iter_res (cca_forward c) n u = Ok u' -> blank u'.
Proof.
  intros Wf N1 L1 N2 Iw Hd Hdt Sg Sp T Hm B Th Hn E. rewrite at_own in E. assert (U : in_unit u) by (eapply Forall_impl; [|exact B]; cbv beta; intros; lra).
  destruct (cca_fades c M d _ u u' Wf N1 L1 N2 Iw Hd Sg Sp (repeat_pos _ n Hdt) T U Th E) as [D _]. rewrite total_repeat in D. eapply dimmed_blank; [exact T|exact B| |exact D]. exact Hn.
Qed.

(** Lenia, which has no identity in its update. *)
Theorem C104_lenia c M d m n u u' : cca_wf c -> nonneg_layer (nbl c) -> init_weights (ext c) (int_ c) (pm c) = Ok (wl c) ->
  0 <= d -> 0 <= dt c -> sinking M d (gens c) -> twf u -> m <= 1 -> below m u -> thin M (nbl c) u ->
  iter_res (lenia_forward c) n u = Ok u' -> dimmed (INR n * dt c * (d / INR (ext c))) u u' /\ thin M (nbl c) u' /\ (m <= INR n * dt c * (d / INR (ext c)) -> blank u').
Proof.
  intros Wf N2 Iw Hd Hdt Sg T Hm B Th E. rewrite at_own_lenia in E. assert (U : in_unit u) by (eapply Forall_impl; [|exact B]; cbv beta; intros; lra).
  destruct (lenia_fades c M d _ u u' Wf N2 Iw Hd Sg (repeat_pos _ n Hdt) T U Th E) as [D Th']. rewrite total_repeat in D. split; [exact D|]. split; [exact Th'|]. intros Hn. eapply dimmed_blank; [exact T|exact B|exact Hn|exact D].
Qed.

(** CODE and the automaton that draws its steps: what counts is the time that has passed. *)
Theorem C104_code c M d fuel n s u s' u' : c = cd_core s -> cca_wf c -> nonneg_layer (idl c) -> layer_within 1 (idl c) -> nonneg_layer (nbl c) -> init_weights (ext c) (int_ c) (pm c) = Ok (wl c) ->
  0 <= d -> sinking M d (gens c) -> sinking M d (pers c) -> twf u -> in_unit u -> thin M (nbl c) u -> 0 <= cd_min s -> code_run fuel n s u = Ok (s', u') ->
  dimmed ((cd_time s' - cd_time s) * (d / INR (ext c))) u u' /\ dimmed (INR n * cd_min s * (d / INR (ext c))) u u'.
Proof.
  intros -> Wf N1 L1 N2 Iw Hd Sg Sp T U Th Hm E. destruct (code_run_steps fuel n s u s' u' Hm E) as (hs & Rn & Ln & B & Ti).
  assert (B' : Forall (fun h => 0 <= h) hs) by (eapply Forall_impl; [|exact B]; cbv beta; intros; lra).
  destruct (cca_fades _ M d hs u u' Wf N1 L1 N2 Iw Hd Sg Sp B' T U Th Rn) as [D _]. replace (cd_time s' - cd_time s) with (total hs) by lra. split; [exact D|]. eapply dimmed_weaken; [|exact D].
  apply Rmult_le_compat_r.
  - destruct (cca_pos _ Wf) as [P _]. unfold Rdiv. apply Rmult_le_pos; [exact Hd|]. left. apply Rinv_0_lt_compat. apply lt_0_INR. exact P.
  - subst n. clear - B. induction B as [|h hs [X _] Hs IH]; cbn [total List.length]; [cbn [INR]; lra|]. rewrite S_INR. lra.
Qed.

Theorem C104_random c M d rands s u s' u' : c = rs_core s -> cca_wf c -> nonneg_layer (idl c) -> layer_within 1 (idl c) -> nonneg_layer (nbl c) -> init_weights (ext c) (int_ c) (pm c) = Ok (wl c) ->
  0 <= d -> sinking M d (gens c) -> sinking M d (pers c) -> twf u -> in_unit u -> thin M (nbl c) u -> 0 <= rs_min s <= rs_max s -> Forall (fun r => 0 <= r < 1) rands -> rs_run s rands u = Ok (s', u') ->
  dimmed ((rs_time s' - rs_time s) * (d / INR (ext c))) u u'.
Proof.
  intros -> Wf N1 L1 N2 Iw Hd Sg Sp T U Th Hm Hr E. destruct (rs_run_steps rands s u s' u' (proj2 Hm) Hr E) as (hs & Rn & _ & B & Ti).
  assert (B' : Forall (fun h => 0 <= h) hs) by (eapply Forall_impl; [|exact B]; cbv beta; intros; lra).
  destruct (cca_fades _ M d hs u u' Wf N1 L1 N2 Iw Hd Sg Sp B' T U Th Rn) as [D _]. replace (rs_time s' - rs_time s) with (total hs) by lra. exact D.
Qed.

(** The limit of ever smaller steps. *)
Theorem C104_flow c M d t u w : cca_wf c -> nonneg_layer (idl c) -> layer_within 1 (idl c) -> nonneg_layer (nbl c) -> init_weights (ext c) (int_ c) (pm c) = Ok (wl c) ->
  0 <= d -> sinking M d (gens c) -> sinking M d (pers c) -> twf u -> in_unit u -> thin M (nbl c) u -> 0 <= t -> flows (cca_at c) t u w -> dimmed (t * (d / INR (ext c))) u w.
Proof.
  intros Wf N1 L1 N2 Iw Hd Sg Sp T U Th Ht Fl. apply (flow_fades (cca_at c) _ u w t); [|exact Fl]. intros n v E Hn. assert (Hh : 0 <= t / INR n) by (unfold Rdiv; apply Rmult_le_pos; [exact Ht|left; apply Rinv_0_lt_compat, lt_0_INR; exact Hn]).
  rewrite iter_steps in E. destruct (cca_fades c M d _ u v Wf N1 L1 N2 Iw Hd Sg Sp (repeat_pos _ n Hh) T U Th E) as [D _]. rewrite total_repeat in D. replace (INR n * (t / INR n)) with t in D by (field; apply not_0_INR; lia). exact D.
Qed.

(** ** The rules the library comes with *)
Lemma nonneg_of r p k e n m l : (0 < e)%nat -> fitted r p k -> init_layer e n m k = Ok l -> nonneg_layer l.
Proof. intros He F E. destruct (fitted_normalised _ _ _ F) as [N _]. apply (layer_nonneg _ _ _ k _ He (proj1 (proj2 (proj2 (proj2 N)))) E). Qed.

Lemma exp_9_2 : exp (- (3 ^ 2 / 2)) <= 1 / 20.
Proof.
  replace (3 ^ 2 / 2) with (9 / 8 + 9 / 8 + (9 / 8 + 9 / 8)) by lra. rewrite exp_Ropp, !exp_plus. assert (E : 17 / 8 <= exp (9 / 8)) by (pose proof (exp_ineq1_le (9 / 8)); lra).
  assert (E2 : 289 / 64 <= exp (9 / 8) * exp (9 / 8)) by (replace (289 / 64) with (17 / 8 * (17 / 8)) by lra; apply Rmult_le_compat; lra).
  assert (E4 : 20 <= exp (9 / 8) * exp (9 / 8) * (exp (9 / 8) * exp (9 / 8))) by (apply Rle_trans with (289 / 64 * (289 / 64)); [lra|apply Rmult_le_compat; lra]).
  replace (1 / 20) with (/ 20) by lra. apply Rinv_le_contravar; lra.
Qed.

Lemma one_bump mu s M : 0 < s -> M <= mu - 3 * (eps9 + s) -> sinking M (9 / 10) [AMixture [(1, mu, s)] true].
Proof.
  intros Hs HM. pose proof eps9_pos as He. assert (Q : sinking M (1 - 2 * (fold_right (fun g t => Rabs (fst (fst g)) + t) 0 [(1, mu, s)] * exp (- (3 ^ 2 / 2)))) [AMixture [(1, mu, s)] true]) by (apply mixture_sinks; [lra|]; constructor; [cbn [fst snd]; lra|constructor]).
  intros a Ha x Hx. specialize (Q a Ha x Hx). cbn [fold_right fst snd] in Q. rewrite Rabs_R1 in Q. pose proof exp_9_2. lra.
Qed.

Lemma same_fades o o' r p cfg k mu s M m n u u' : obj_inv o -> ext (o_core o) = 1%nat -> 0 < s -> M <= mu - 3 * (eps9 + s) -> fitted r p k -> get_kernel cfg = Ok k ->
  rule_of o o' default_id_kernel k [AMixture [(1, mu, s)] true] [AMixture [(1, mu, s)] true] (1 / 10) ->
  twf u -> m <= 1 -> below m u -> thin M (nbl (o_core o')) u -> m <= INR n * (9 / 100) -> iter_res (cca_forward (o_core o')) n u = Ok u' -> blank u'.
Proof.
  intros I E Hs HM F Hk R T Hm B Th Hn H. destruct (same_facts o o' cfg k mu s I E Hs Hk R) as (P1 & P2 & P3 & C & W & L & Iw & G & P & Ex & D).
  assert (Rl : init_layer (ext (o_core o')) (int_ (o_core o')) (pm (o_core o')) default_id_kernel = Ok (idl (o_core o'))) by (destruct R as (_ & X1 & X2 & X3 & _ & _ & _ & _ & X8 & _); rewrite <- X1, <- X2, <- X3 in X8; exact X8).
  assert (S9 : sinking M (9 / 10) [AMixture [(1, mu, s)] true]) by (apply one_bump; assumption).
  eapply (C104_extinct (o_core o') M (9 / 10) m n u u' C); auto; try lra.
  - apply (proj2 (default_within _ _ _ _ P1 P2 P3 Rl)).
  - exact (nonneg_of r p k _ _ _ _ P1 F L).
  - rewrite G. exact S9.
  - rewrite P. exact S9.
  - rewrite D, Ex. change (INR 1) with 1. lra.
Qed.

Lemma same_within o o' r p cfg k mu s : obj_inv o -> ext (o_core o) = 1%nat -> 0 < s -> fitted r p k -> get_kernel cfg = Ok k ->
  rule_of o o' default_id_kernel k [AMixture [(1, mu, s)] true] [AMixture [(1, mu, s)] true] (1 / 10) ->
  forall M u, twf u -> 0 <= M -> below M u -> thin M (nbl (o_core o')) u.
Proof.
  intros I E Hs F Hk R M u T HM B. destruct (same_facts o o' cfg k mu s I E Hs Hk R) as (P1 & P2 & P3 & C & W & L & _). destruct C as (_ & C & _). exact (below_thin _ _ _ M u C (kernel_within cfg k _ _ _ _ P1 P2 P3 Hk L) T HM B).
Qed.

(** Orbium: where no neighbourhood exceeds 1/10, nothing is left after 12 steps; a universe whose cells are at most 1/10 is gone after 2. *)
Theorem C104_orbium fuel ev rng o h r o' h' u : obj_inv o -> ext (o_core o) = 1%nat -> (1 <= r)%nat -> load_value fuel ev rng o (get_orbium_config (Z.of_nat r)) h = Ok (o', h') -> twf u ->
  (in_unit u -> thin (1 / 10) (nbl (o_core o')) u -> forall n u', (12 <= n)%nat -> iter_res (cca_forward (o_core o')) n u = Ok u' -> blank u') /\
  (below (1 / 10) u -> forall n u', (2 <= n)%nat -> iter_res (cca_forward (o_core o')) n u = Ok u' -> blank u').
Proof.
  intros I E Hr H T. destruct (orbium_load fuel ev rng o h r I Hr) as (o2 & h2 & k & H2 & F & R). rewrite H in H2. injection H2 as <- <-.
  destruct (orbium_kernel r Hr) as (k' & Hk & F'). assert (k' = k) by (eapply fitted_unique; eassumption). subst k'. assert (He : 1 / 10 <= 15 / 100 - 3 * (eps9 + 15 / 1000)) by (unfold eps9; lra). split.
  - intros U Th n u' Hn Q. assert (12 <= INR n) by (apply le_INR in Hn; cbn [INR] in Hn; lra). eapply (same_fades o o' r _ _ k _ _ (1 / 10) 1 n u u' I E _ He F Hk R T _ U Th _ Q). Unshelve. all: lra.
  - intros B n u' Hn Q. assert (2 <= INR n) by (apply le_INR in Hn; cbn [INR] in Hn; lra). assert (Th : thin (1 / 10) (nbl (o_core o')) u) by (eapply (same_within o o' r _ _ k _ _ I E _ F Hk R); [exact T|lra|exact B]). eapply (same_fades o o' r _ _ k _ _ (1 / 10) (1 / 10) n u u' I E _ He F Hk R T _ B Th _ Q). Unshelve. all: lra.
Qed.

(** Geminium, with 3/20. *)
Theorem C104_geminium fuel ev rng o h r o' h' u : obj_inv o -> ext (o_core o) = 1%nat -> (1 <= r)%nat -> load_value fuel ev rng o (get_geminium_config (Z.of_nat r)) h = Ok (o', h') -> twf u ->
  (in_unit u -> thin (3 / 20) (nbl (o_core o')) u -> forall n u', (12 <= n)%nat -> iter_res (cca_forward (o_core o')) n u = Ok u' -> blank u') /\
  (below (3 / 20) u -> forall n u', (2 <= n)%nat -> iter_res (cca_forward (o_core o')) n u = Ok u' -> blank u').
Proof.
  intros I E Hr H T. destruct (geminium_load fuel ev rng o h r I Hr) as (o2 & h2 & k & H2 & F & R). rewrite H in H2. injection H2 as <- <-.
  destruct (geminium_kernel r Hr) as (k' & Hk & F'). assert (k' = k) by (eapply fitted_unique; eassumption). subst k'. assert (He : 3 / 20 <= 26 / 100 - 3 * (eps9 + 36 / 1000)) by (unfold eps9; lra). split.
  - intros U Th n u' Hn Q. assert (12 <= INR n) by (apply le_INR in Hn; cbn [INR] in Hn; lra). eapply (same_fades o o' r _ _ k _ _ (3 / 20) 1 n u u' I E _ He F Hk R T _ U Th _ Q). Unshelve. all: lra.
  - intros B n u' Hn Q. assert (2 <= INR n) by (apply le_INR in Hn; cbn [INR] in Hn; lra). assert (Th : thin (3 / 20) (nbl (o_core o')) u) by (eapply (same_within o o' r _ _ k _ _ I E _ F Hk R); [exact T|lra|exact B]). eapply (same_fades o o' r _ _ k _ _ (3 / 20) (3 / 20) n u u' I E _ He F Hk R T _ B Th _ Q). Unshelve. all: lra.
Qed.

Lemma one_interval lo hi al M : 0 < al -> M <= lo - 45 / 100 * al -> sinking M (1 / 2) [ASmoothIntervals [(lo, hi)] al true].
Proof.
  intros Ha HM. assert (Q : sinking M (1 - 2 * (INR (List.length [(lo, hi)]) / (1 + exp (4 * (45 / 100))))) [ASmoothIntervals [(lo, hi)] al true]) by (apply intervals_sink; [exact Ha|]; constructor; [exact HM|constructor]).
  intros a I x Hx. specialize (Q a I x Hx). cbn [List.length INR] in Q. assert (E : exp (4 * (45 / 100)) = exp (9 / 10) * exp (9 / 10)) by (rewrite <- exp_plus; f_equal; lra). assert (E1 : 19 / 10 <= exp (9 / 10)) by (pose proof (exp_ineq1_le (9 / 10)); lra).
  assert (E2 : 3 <= exp (4 * (45 / 100))) by (rewrite E; apply Rle_trans with (19 / 10 * (19 / 10)); [lra|apply Rmult_le_compat; lra]). assert (1 / (1 + exp (4 * (45 / 100))) <= 1 / 4) by (unfold Rdiv; rewrite !Rmult_1_l; apply Rinv_le_contravar; lra). lra.
Qed.

(** SmoothLife steps by one: at most 1/5 around every cell, and two steps empty the universe; one, if every cell is at most 1/5. *)
Theorem C104_smoothlife fuel ev rng o h r o' h' u : obj_inv o -> ext (o_core o) = 1%nat -> (1 <= r)%nat -> load_value fuel ev rng o (get_smooth_life_config (Z.of_nat r) None None) h = Ok (o', h') -> twf u ->
  (in_unit u -> thin (1 / 5) (nbl (o_core o')) u -> forall n u', (2 <= n)%nat -> iter_res (cca_forward (o_core o')) n u = Ok u' -> blank u') /\
  (below (1 / 5) u -> forall n u', (1 <= n)%nat -> iter_res (cca_forward (o_core o')) n u = Ok u' -> blank u').
Proof.
  intros I E Hr H T. destruct (smoothlife_load fuel ev rng o h r None None I Hr) as (o2 & h2 & ki & k & H2 & Fi & F & R). rewrite H in H2. injection H2 as <- <-.
  destruct (smooth_facts o o' ki k r _ I E Hr Fi ltac:(eauto) R) as (C & N1 & W1 & W2 & _ & _ & _ & _ & _ & D). pose proof R as (I' & X1 & X2 & X3 & _ & _ & X6 & X7 & _ & X9 & _). pose proof I' as (P1 & P2 & _ & _ & Hw & _). unfold uses_kernel in X9.
  assert (N2 : nonneg_layer (nbl (o_core o'))) by (eapply nonneg_of; [exact P1|exact F|exact X9]). assert (Ex : ext (o_core o') = 1%nat) by congruence.
  assert (Sg : sinking (1 / 5) (1 / 2) (gens (o_core o'))) by (rewrite X6; apply one_interval; lra). assert (Sp : sinking (1 / 5) (1 / 2) (pers (o_core o'))) by (rewrite X7; apply one_interval; lra).
  assert (G : forall m n u', m <= 1 -> below m u -> thin (1 / 5) (nbl (o_core o')) u -> m <= INR n * (1 / 2) -> iter_res (cca_forward (o_core o')) n u = Ok u' -> blank u').
  { intros m n u' Hm B Th Hn Q. eapply (C104_extinct (o_core o') (1 / 5) (1 / 2) m n u u' C); auto; try lra. rewrite D, Ex. change (INR 1) with 1. lra. }
  split.
  - intros U Th n u' Hn Q. assert (2 <= INR n) by (apply le_INR in Hn; cbn [INR] in Hn; lra). apply (G 1 n u'); auto; lra.
  - intros B n u' Hn Q. assert (1 <= INR n) by (apply le_INR in Hn; cbn [INR] in Hn; lra). apply (G (1 / 5) n u'); auto; try lra. destruct C as (_ & C & _). eapply below_thin; eauto. lra.
Qed.

(** ** Gray-Scott *)
(** The Laplacian of a Gaussian on a 3 x 3 kernel takes one half from the centre and spreads it. *)
Theorem C104_laplacian cfg kw sg k : names_log cfg -> dget "kernel_kwargs" cfg = Some (VDict kw) -> as_num (query_kwargs "sigma" (VNum (1 / 2)) kw) = Ok sg -> dget "radius" cfg = Some (VInt 1) ->
  sg ^ 2 <= 1 / 2 -> get_kernel cfg = Ok k -> tH k = 3%nat /\ levelling 1 (1 / 2) (fun y x => get k 0 0 y x).
Proof. exact (log_cfg cfg kw sg k). Qed.

Lemma calm_wash s : calm s -> wash s 1 (1 / 2).
Proof.
  intros ((P & HP & Hr) & (cfg & kw & sg & C1 & C2 & C3 & C4 & C5 & C6) & H). pose proof (rd_reach_inv P s Hr) as I. pose proof (rd_reach_id P s HP Hr) as D. decompose [and] H. eapply log_wash; eassumption.
Qed.

(** Where v is at most [M <= f + k] it shrinks by a factor in every step. *)
Theorem C104_gray_scott_v s M n u u' : calm s -> twf u -> in_unit u -> 0 <= M <= rd_f s + rd_k s -> channel_below 1 M u -> iter_res (rd_forward s) n u = Ok u' ->
  channel_below 1 (M * (1 - rd_dt s * (rd_f s + rd_k s - M)) ^ n) u'.
Proof. exact (fun C T U => wash_run_v s 1 (1 / 2) n u u' M (calm_wash s C) T U). Qed.

(** Meanwhile u makes up for what it lacks, but for what v takes. *)
Theorem C104_gray_scott_u s M w n u u' : calm s -> 0 < rd_f s -> 0 < rd_dt s -> twf u -> in_unit u -> 0 <= M <= rd_f s + rd_k s -> 0 <= w -> channel_below 1 M u -> channel_above 0 (1 - (w + M ^ 2 / rd_f s)) u ->
  iter_res (rd_forward s) n u = Ok u' -> channel_above 0 (1 - ((1 - rd_dt s * rd_f s) ^ n * w + M ^ 2 / rd_f s)) u'.
Proof. exact (fun C Hf Hd T U => wash_run_u s 1 (1 / 2) n u u' M w (calm_wash s C) Hf Hd T U). Qed.

(** Every universe with so little v goes to u = 1, v = 0, all of them alike fast. *)
Theorem C104_gray_scott_limit s M eps : calm s -> 0 < rd_f s -> 0 < rd_dt s -> 0 <= M < rd_f s + rd_k s -> 0 < eps ->
  exists N, forall n u u', (N <= n)%nat -> twf u -> in_unit u -> channel_below 1 M u -> iter_res (rd_forward s) n u = Ok u' -> channel_below 1 eps u' /\ channel_above 0 (1 - eps) u'.
Proof. intros C. apply (washed_out s 1 (1 / 2) M eps (calm_wash s C)). destruct C as (_ & _ & H). tauto. Qed.

(** A new automaton: v at most 1/10 loses more than 1.1% in every step. *)
Theorem C104_gray_scott_new s : rd_init = Ok s -> calm s /\
  (forall n u u', twf u -> in_unit u -> channel_below 1 (1 / 10) u -> iter_res (rd_forward s) n u = Ok u' -> channel_below 1 (1 / 10 * (989 / 1000) ^ n) u') /\
  (forall eps, 0 < eps -> exists N, forall n u u', (N <= n)%nat -> twf u -> in_unit u -> channel_below 1 (1 / 10) u -> iter_res (rd_forward s) n u = Ok u' -> channel_below 1 eps u' /\ channel_above 0 (1 - eps) u').
Proof.
  intros E. destruct (default_wash s E) as (W & X & D & F & K). destruct (rd_init_facts s E) as (I & C & _ & _ & P & _ & X'). unfold rd_get_params in P. injection P as P1 P2 P3 P4.
  assert (Cm : calm s).
  { split; [exists id_op; split; [auto|]; exists s, []; repeat split; [exact E|constructor]|]. split.
    - exists rd_default_cfg, [("sigma"%string, VNum (1 / 2))], (1 / 2). repeat split; auto. lra.
    - rewrite D, F, K, P1, P2, X'. repeat split; lra. }
  split; [exact Cm|]. split.
  - intros n u u' T U B Q. eapply below_weaken; [|apply (C104_gray_scott_v s (1 / 10) n u u' Cm T U); [rewrite F, K; lra|exact B|exact Q]]. rewrite D, F, K. apply Rmult_le_compat_l; [lra|]. apply pow_incr. lra.
  - intros eps He. apply (C104_gray_scott_limit s (1 / 10) eps Cm); rewrite ?F, ?K, ?D; lra.
Qed.

(** Uniform states at rest: the empty one, and those where what v gains from u is what feeding and killing remove. *)
Theorem C104_rest (P : rd_op -> Prop) s B H W u0 v0 : (forall o, P o -> log_op o /\ id_op o) -> rd_reachable P s -> 0 < rd_f s -> 0 <= rd_k s -> 0 < rd_dt s -> rd_dx s <> 0 -> 0 <= u0 <= 1 -> 0 <= v0 <= 1 ->
  (cl_p (rd_nbl s) <= H)%nat -> (cl_p (rd_nbl s) <= W)%nat -> (0 < B)%nat -> (0 < H)%nat -> (0 < W)%nat ->
  let g := build B 2 H W (fun _ c _ _ => match c with 0%nat => u0 | _ => v0 end) in
  (rd_forward s g = Ok g <-> (u0 = 1 /\ v0 = 0) \/ (u0 * v0 = rd_f s + rd_k s /\ rd_f s * (1 - u0) = (rd_f s + rd_k s) * v0)) /\
  (rd_f s < 4 * (rd_f s + rd_k s) ^ 2 -> rd_forward s g = Ok g <-> u0 = 1 /\ v0 = 0).
Proof.
  intros HP Hr Hf Hk Hd X Hu Hv PH PW B0 H0 W0 g. destruct (rd_plain_id P s HP Hr) as (I & D & L). pose proof (rest_grid s B H W u0 v0 I D L Hf Hk Hd X Hu Hv PH PW B0 H0 W0) as G. cbv zeta in G. fold g in G. split; [exact G|].
  intros Hl. rewrite G. split; [|tauto]. intros [Q|[Q1 Q2]]; [exact Q|]. exfalso. exact (rest_only _ _ u0 v0 Hf Hk Hl Q1 Q2).
Qed.

(** The bound on v is needed: a universe with more of it can stay as it is for ever. *)
Theorem C104_much_refuted : exists s g, calm s /\ 0 < rd_f s /\ 0 < rd_dt s /\ twf g /\ in_unit g /\ channel_below 1 (2 * (rd_f s + rd_k s)) g /\ (forall n, iter_res (rd_forward s) n g = Ok g) /\ ~ channel_below 1 (1 / 5) g.
Proof.
  destruct rd_init_ok as (s & E). destruct (C104_gray_scott_new s E) as (((P & HP & Hr) & Hc & D1 & D2 & D3 & _ & _ & D6 & _) & _). destruct (rd_init_facts s E) as (_ & _ & _ & _ & Q & T & X). unfold rd_get_params in Q. injection Q as Q1 Q2 Q3 Q4.
  set (s' := rd_with s (rd_du s) (rd_dv s) (1 / 16) (1 / 16)). exists s', (build 1 2 3 3 (fun _ c _ _ => match c with 0%nat => 1 / 2 | _ => 1 / 4 end)).
  assert (Re : rd_reachable (fun o => log_op o /\ id_op o) s') by (exists s, [RSetParams [rd_du s; rd_dv s; 1 / 16; 1 / 16]]; split; [exact E|]; split; [constructor; [split; exact Logic.I|constructor]|reflexivity]).
  assert (Cl : cl_p (rd_nbl s') = 1%nat).
  { destruct (rd_init_facts s E) as ([_ (cfg & k & r & E1 & E2 & Sk & Wk & _ & El) _] & C & _). rewrite C in E1. injection E1 as <-. destruct (log_cfg rd_default_cfg [("sigma"%string, VNum (1 / 2))] (1 / 2) k eq_refl eq_refl eq_refl eq_refl ltac:(lra) E2) as [K3 _].
    apply shape_inv in Sk as (_ & _ & K3' & K4'). destruct (init_layer_wf 2 2 Circular k _ r ltac:(lia) ltac:(lia) K3' K4' El) as (_ & P1 & _). cbn [s' rd_with rd_nbl]. rewrite P1. lia. }
  assert (S1 : rd_f s' = 1 / 16) by reflexivity. assert (S2 : rd_k s' = 1 / 16) by reflexivity. assert (S3 : rd_dt s' = 1 / 2) by exact T. assert (S4 : rd_dx s' = 1 / 330) by exact X. assert (S5 : rd_du s' = 2 / 100000) by exact Q1. assert (S6 : rd_dv s' = 1 / 100000) by exact Q2.
  split.
  { split; [exists (fun o => log_op o /\ id_op o); split; [tauto|exact Re]|]. split; [exact Hc|]. rewrite S1, S2, S3, S4, S5, S6. repeat split; lra. }
  rewrite S1, S2, S3. split; [lra|]. split; [lra|]. split; [apply twf_build|]. split.
  { unfold in_unit. cbn. repeat (constructor; [lra|]). constructor. }
  split; [|split].
  - intros b i j Hb Hi Hj. rewrite get_build by (cbn [tB tH tW build] in *; lia). lra.
  - assert (G : rd_forward s' (build 1 2 3 3 (fun _ c _ _ => match c with 0%nat => 1 / 2 | _ => 1 / 4 end)) = Ok (build 1 2 3 3 (fun _ c _ _ => match c with 0%nat => 1 / 2 | _ => 1 / 4 end))).
    { refine (proj2 (proj1 (C104_rest _ s' 1 3 3 (1 / 2) (1 / 4) (fun o H => H) Re _ _ _ _ _ _ _ _ _ _ _)) _); rewrite ?S1, ?S2, ?S3, ?S4, ?Cl; try lia; try lra. }
    induction n as [|n IH]; cbn [iter_res]; [reflexivity|]. rewrite G. exact IH.
  - intros C. specialize (C 0%nat 0%nat 0%nat ltac:(cbn; lia) ltac:(cbn; lia) ltac:(cbn; lia)). rewrite get_build in C by lia. lra.
Qed.

(** So is the hypothesis on the growth functions: where they do not sink, cells grow. *)
Theorem C104_growing_refuted : exists c M u u', cca_wf c /\ nonneg_layer (idl c) /\ layer_within 1 (idl c) /\ nonneg_layer (nbl c) /\ init_weights (ext c) (int_ c) (pm c) = Ok (wl c) /\ 0 <= dt c /\ twf u /\ below M u /\ M <= 1 / 10 /\ thin M (nbl c) u /\
  cca_forward c u = Ok u' /\ ~ dimmed 0 u u'.
Proof.
  assert (W : layer_within 1 (unit_layer Circular)). { intros o Ho. change (o < 1)%nat in Ho. assert (o = 0%nat) as -> by lia. unfold row_weight. cbn [unit_layer unit_kernel cl_w tC tH tW rsum]. change (get unit_kernel 0 0 0 0) with 1. change (get (mkT 1 1 1 1 [1]) 0 0 0 0) with 1. rewrite Rabs_R1. lra. }
  assert (N : nonneg_layer (unit_layer Circular)). { intros o c y x. unfold get. cbn [unit_layer unit_kernel cl_w tdata]. destruct (((o * _ + c) * _ + y) * _ + x)%nat as [|[|q]]; cbn [nth]; lra. }
  set (u := mkT 1 1 1 1 [1 / 10]). assert (T : twf u) by reflexivity. assert (B : below (1 / 10) u) by (constructor; [lra|constructor]). pose proof (pt_cca_wf AIdentity (1 / 10)) as Wf.
  exists (pt_cca AIdentity (1 / 10)), (1 / 10), u. eexists. split; [exact Wf|]. split; [exact N|]. split; [exact W|]. split; [exact N|]. split; [exact ex_weights|]. split; [cbn; lra|]. split; [exact T|]. split; [exact B|]. split; [lra|]. split.
  - destruct Wf as (_ & Wn & _). apply (below_thin _ _ _ (1 / 10) u Wn W T ltac:(lra) B).
  - split; [apply pt_cca_step; (reflexivity || exact T || (cbn; lia))|]. intros (_ & _ & D). specialize (D 0%nat 0%nat 0%nat 0%nat ltac:(cbn; lia) ltac:(cbn; lia) ltac:(cbn; lia) ltac:(cbn; lia)). cbn in D. rewrite Rmax_right in D by lra. unfold clamp in D. rewrite Rmax_left in D by lra. rewrite Rmin_left in D by lra. lra.
Qed.

(** ** Examples *)
Lemma exp_2_low : exp (- (2 ^ 2 / 2)) <= 1 / 4.
Proof. replace (2 ^ 2 / 2) with (1 + 1) by lra. rewrite exp_Ropp, exp_plus. pose proof (exp_ineq1_le 1). replace (1 / 4) with (/ (2 * 2)) by lra. apply Rinv_le_contravar; [lra|]. apply Rmult_le_compat; lra. Qed.

(** The running example empties a faint universe in one step. *)
Example C104_example : exists u u', twf u /\ below (1 / 25) u /\ ~ blank u /\ cca_forward ex_cca u = Ok u' /\ blank u'.
Proof.
  set (u := tmap (fun x => x / 25) ex_grid). assert (T : twf u) by (apply twf_tmap, ex_grid_wf). assert (B : below (1 / 25) u) by (unfold below; cbn; repeat (constructor; [lra|]); constructor).
  destruct ex_step as (v & E). assert (A : exists u', cca_forward ex_cca u = Ok u') by (apply cca_accepts; [exact ex_wf|exact T|]; apply (proj1 (cca_accepts ex_cca ex_grid ex_wf ex_grid_wf)); eauto). destruct A as (u' & Eu). exists u, u'. split; [exact T|]. split; [exact B|]. split.
  { intros Q. unfold blank in Q. cbn in Q. inversion Q as [|? ? _ Q1]. inversion Q1 as [|? ? Q2 _]. lra. }
  split; [exact Eu|]. destruct ex_within as (W1 & N1 & W2 & _). pose proof eps9_pos. assert (e9 : eps9 <= 1 / 1000) by (unfold eps9; lra).
  assert (Sk : forall mu, 1 / 4 <= mu -> sinking (1 / 25) (1 / 2) [AGaussian mu (1 / 10) true]). { intros mu Hmu a Ha x Hx. pose proof (gaussian_sinks mu (1 / 10) 2 (1 / 25) ltac:(lra) ltac:(lra) ltac:(lra) a Ha x Hx). pose proof exp_2_low. lra. }
  assert (N2 : nonneg_layer (nbl ex_cca)) by (apply (layer_nonneg 1 1 Circular ex_moore (nbl ex_cca) ltac:(lia)); [repeat (constructor; [lra|]); constructor|reflexivity]).
  apply (C104_extinct ex_cca (1 / 25) (1 / 2) (1 / 25) 1 u u' ex_wf N1 W1 N2 ex_weights); auto; try lra.
  - cbn; lra.
  - apply Sk. lra.
  - apply Sk. lra.
  - destruct ex_wf as (_ & Wn & _). apply (below_thin _ _ _ (1 / 25) u Wn W2 T ltac:(lra) B).
  - cbn [ex_cca dt ext]. change (INR 1) with 1. lra.
  - cbn [iter_res]. rewrite Eu. reflexivity.
Qed.

(** A faint Gray-Scott universe that a new automaton accepts. *)
Example C104_gray_scott_example : exists s u, rd_init = Ok s /\ twf u /\ in_unit u /\ channel_below 1 (1 / 10) u /\ ~ channel_below 1 0 u /\ exists u', rd_forward s u = Ok u'.
Proof.
  destruct rd_init_ok as (s & E). set (u := mkT 1 2 3 3 [1/2; 1; 1; 1; 1/3; 1; 1; 1; 1; 0; 0; 0; 0; 1/10; 0; 1/20; 0; 0]). exists s, u. split; [exact E|]. split; [reflexivity|]. split; [unfold in_unit; cbn; repeat (constructor; [lra|]); constructor|]. split; [|split].
  - intros b i j Hb Hi Hj. cbn in Hb, Hi, Hj. destruct b; [|lia]. destruct i as [|[|[|i]]]; [| | |lia]; (destruct j as [|[|[|j]]]; [| | |lia]); cbn; lra.
  - intros C. specialize (C 0%nat 1%nat 1%nat ltac:(cbn; lia) ltac:(cbn; lia) ltac:(cbn; lia)). cbn in C. lra.
  - destruct (rd_init_facts s E) as (I & C & D & _ & _ & _ & X). pose proof I as [_ (cfg & k & r & E1 & E2 & Sk & Wk & _ & El) _]. rewrite C in E1. injection E1 as <-.
    destruct (log_cfg rd_default_cfg [("sigma"%string, VNum (1 / 2))] (1 / 2) k eq_refl eq_refl eq_refl eq_refl ltac:(lra) E2) as [K3 _]. apply shape_inv in Sk as (_ & _ & K3' & K4'). destruct (init_layer_wf 2 2 Circular k _ r ltac:(lia) ltac:(lia) K3' K4' El) as (_ & P1 & _).
    pose proof (rd_inv_layers s I) as (L1 & L2 & M1 & M2). destruct (init_layer_wf 2 2 Circular default_id_kernel _ 1 ltac:(lia) ltac:(lia) eq_refl eq_refl D) as (_ & P0 & _).
    assert (Q : exists d, ca_update (rd_idl s) (rd_nbl s) (rd_update s) u = Ok d /\ shape d = shape u).
    { unfold ca_update. rewrite (layer_apply_eq 2 2 _ u L1), (layer_apply_eq 2 2 _ u L2).
      assert (R1 : layer_ready 2 (rd_idl s) u = true) by (unfold layer_ready; rewrite M1, P0; reflexivity). assert (R2 : layer_ready 2 (rd_nbl s) u = true) by (unfold layer_ready; rewrite M2, P1; replace r with 1%nat by lia; reflexivity).
      rewrite R1, R2. cbn [bind]. unfold rd_update. assert (Dx : nonzero (rd_dx s ^ 2) = true) by (apply nonzero_iff; rewrite X; lra). rewrite Dx. cbn [guard bind tC build Nat.leb andb u]. eexists. split; reflexivity. }
    destruct Q as (d & Q & Sd). unfold rd_forward, ca_forward. cbn [bind]. rewrite Q. cbn [bind]. unfold euler. rewrite tzip_same by (symmetry; exact Sd). cbn [bind]. eexists. reflexivity.
Qed.
Print Assumptions C104_gaussian.
Print Assumptions C104_mixture.
Print Assumptions C104_intervals.
Print Assumptions C104_thin.
Print Assumptions C104_cca.
Print Assumptions C104_extinct.
Print Assumptions C104_lenia.
Print Assumptions C104_code.
Print Assumptions C104_random.
Print Assumptions C104_flow.
Print Assumptions C104_orbium.
Print Assumptions C104_geminium.
Print Assumptions C104_smoothlife.
Print Assumptions C104_laplacian.
Print Assumptions C104_gray_scott_v.
Print Assumptions C104_gray_scott_u.
Print Assumptions C104_gray_scott_limit.
Print Assumptions C104_gray_scott_new.
Print Assumptions C104_rest.
Print Assumptions C104_much_refuted.
Print Assumptions C104_growing_refuted.
