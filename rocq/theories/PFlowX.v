(** Flows of the automata (proofs). *)
From Coq Require Import Reals Lra Lia List Arith Bool ZArith.
From Verif Require Import Base PyDict Tensor MActivations MKernels MCommon MCca MRd MNca MConfig PTensor PStep PCca PDyn PCode PRd SRd SNca PNca SGrid SCca SConfig SLife SLip SKern PKern PLip PLipX PLipY SFlow PFlow.
Import ListNotations.
Open Scope R_scope.

(** ** From families of steps to the limit *)
Section Driven.
  Variables (L M : R) (F : R -> tensor -> res tensor) (g : tensor -> nat -> nat -> nat -> nat -> R) (u0 : tensor).
  Hypothesis L0 : 0 <= L.
  Hypothesis M0 : 0 <= M.
  Hypothesis D1 : forall h k u v er, twf u -> twf v -> shape u = shape v -> (tC u < 4)%nat -> F h u = Err er -> F k v = Err er.
  Hypothesis D2 : forall h u u', twf u -> (tC u < 4)%nat -> F h u = Ok u' -> twf u' /\ shape u' = shape u /\
       forall b c i j, (b < tB u)%nat -> (c < tC u)%nat -> (i < tH u)%nat -> (j < tW u)%nat -> get u' b c i j = Rmax 0 (Rmin 1 (get u b c i j + h * g u b c i j)).
  Hypothesis D3 : forall h u u', twf u -> in_unit u -> (tC u < 4)%nat -> F h u = Ok u' ->
       forall b c i j, (b < tB u)%nat -> (c < tC u)%nat -> (i < tH u)%nat -> (j < tW u)%nat -> Rabs (g u b c i j) <= M.
  Hypothesis D4 : forall h e u v u', near e u v -> (tC u < 4)%nat -> F h u = Ok u' ->
       forall b c i j, (b < tB u)%nat -> (c < tC u)%nat -> (i < tH u)%nat -> (j < tW u)%nat -> Rabs (g u b c i j - g v b c i j) <= L * e.
  Hypothesis T0 : twf u0.
  Hypothesis C0 : (tC u0 < 4)%nat.
  Hypothesis A0 : exists h u', F h u0 = Ok u'.

  Definition ok := good (tB u0) (tC u0) (tH u0) (tW u0).
  Definition cl := within (tB u0) (tC u0) (tH u0) (tW u0).
  Definition st := S (tB u0) (tC u0) (tH u0) (tW u0) g.
  Definition its' := it (tB u0) (tC u0) (tH u0) (tW u0) g.
  Definition lm := lim (tB u0) (tC u0) (tH u0) (tW u0) g L M.

  Lemma ok_parts u : ok u -> twf u /\ in_unit u /\ shape u = shape u0 /\ tB u = tB u0 /\ tC u = tC u0 /\ tH u = tH u0 /\ tW u = tW u0.
  Proof. intros (T & Sh & U). split; [exact T|]. split; [exact U|]. split; [exact Sh|]. unfold shape in Sh. injection Sh as S1 S2 S3 S4. auto. Qed.

  Lemma ok_near e u v : ok u -> ok v -> cl e u v <-> near e u v.
  Proof.
    intros Gu Gv. pose proof (ok_parts u Gu) as (T1 & U1 & S1 & E1 & E2 & E3 & E4). pose proof (ok_parts v Gv) as (T2 & U2 & S2 & _). split.
    - intros X. repeat (split; [assumption||congruence|]). intros b c i j Hb Hc Hi Hj. apply X. unfold inside. rewrite E1 in Hb. rewrite E2 in Hc. rewrite E3 in Hi. rewrite E4 in Hj. auto.
    - intros (_ & _ & _ & _ & _ & X) b c i j (Hb & Hc & Hi & Hj). apply X; congruence.
  Qed.

  Lemma ok_step h u : ok u -> F h u = Ok (st h u).
  Proof.
    intros G. pose proof (ok_parts u G) as (T1 & U1 & S1 & E1 & E2 & E3 & E4). destruct (F h u) as [u'|er] eqn:E.
    - destruct (D2 h u u' T1 ltac:(lia) E) as (T' & S' & X). f_equal. apply tensor_ext; auto; [apply twf_build|rewrite S', S1; reflexivity|].
      assert (Q : shape u' = shape u0) by congruence. unfold shape in Q. injection Q as Q1 Q2 Q3 Q4. intros b c i j Hb Hc Hi Hj. rewrite X by congruence. unfold st, S. rewrite get_build by congruence. reflexivity.
    - destruct A0 as (k & u' & Ek). rewrite (D1 h k u u0 er T1 T0 S1 ltac:(lia) E) in Ek. discriminate.
  Qed.

  Lemma ok_iter h n : forall u, ok u -> iter_res (F h) n u = Ok (its' n h u).
  Proof.
    induction n as [|n IH]; intros u G; [reflexivity|]. cbn [iter_res]. rewrite (ok_step h u G). cbn [bind]. rewrite IH by apply S_good. unfold its', st. f_equal.
    pose proof (it_add (tB u0) (tC u0) (tH u0) (tW u0) g n 1 h u) as Q. rewrite Nat.add_1_r in Q. symmetry. exact Q.
  Qed.

  Lemma ok_M u b c i j : ok u -> inside (tB u0) (tC u0) (tH u0) (tW u0) b c i j -> Rabs (g u b c i j) <= M.
  Proof.
    intros G (Hb & Hc & Hi & Hj). pose proof (ok_parts u G) as (T1 & U1 & S1 & E1 & E2 & E3 & E4). apply (D3 0 u (st 0 u) T1 U1 ltac:(lia) (ok_step 0 u G)); congruence.
  Qed.

  Lemma ok_L e u v b c i j : ok u -> ok v -> cl e u v -> inside (tB u0) (tC u0) (tH u0) (tW u0) b c i j -> Rabs (g u b c i j - g v b c i j) <= L * e.
  Proof.
    intros G Gv X (Hb & Hc & Hi & Hj). pose proof (ok_parts u G) as (T1 & U1 & S1 & E1 & E2 & E3 & E4). apply (D4 0 e u v (st 0 u) (proj1 (ok_near e u v G Gv) X) ltac:(lia) (ok_step 0 u G)); congruence.
  Qed.

  Lemma flows_lim t u w : 0 <= t -> ok u -> flows F t u w <-> lm t u w.
  Proof.
    intros Ht G. assert (K : forall w, lm t u w -> flows F t u w).
    { intros x X eps He. destruct (lim_near _ _ _ _ g L M L0 M0 t u x eps Ht X He) as (N & _ & HN). exists N. intros n Hn _. exists (its' n (t / INR n) u). split; [apply ok_iter, G|].
      apply ok_near; [apply it_good, G|exact (proj1 X)|apply HN, Hn]. }
    split; [|apply K]. intros X. destruct (lim_exists _ _ _ _ g L M L0 M0 ok_M ok_L t u Ht G) as (x & Hx). replace w with x; [exact Hx|].
    assert (Q : forall eps, 0 < eps -> near eps w x).
    { intros eps He. destruct (X (eps / 2) ltac:(lra)) as (N & HN). destruct (K x Hx (eps / 2) ltac:(lra)) as (N' & HN'). destruct (HN (Datatypes.S (N + N')) ltac:(lia) ltac:(lia)) as (v & Ev & Nv). destruct (HN' (Datatypes.S (N + N')) ltac:(lia) ltac:(lia)) as (v' & Ev' & Nv').
      assert (v' = v) by congruence. subst v'. replace eps with (eps / 2 + eps / 2) by field. eapply near_trans; [|exact Nv'].
      destruct Nv as (A1 & A2 & A3 & A4 & A5 & A6). repeat (split; [assumption||congruence|]). intros b c i j Hb Hc Hi Hj. rewrite Rabs_minus_sym. unfold shape in A3. injection A3 as Q1 Q2 Q3 Q4. apply A6; congruence. }
    assert (Gw : ok w). { destruct (Q 1 ltac:(lra)) as (A1 & A2 & A3 & A4 & A5 & A6). destruct (proj1 Hx) as (_ & Sx & _). split; [exact A1|]. split; [congruence|exact A4]. }
    symmetry. apply (within_eq _ _ _ _ w x Gw (proj1 Hx)). intros eps He. apply (ok_near eps w x Gw (proj1 Hx)), Q, He.
  Qed.

  Lemma ok_runs hs : forall u, ok u -> run_steps F hs u = Ok (its (tB u0) (tC u0) (tH u0) (tW u0) g hs u).
  Proof.
    induction hs as [|h hs IH]; intros u G; [reflexivity|]. cbn [run_steps its]. rewrite (ok_step h u G). cbn [bind]. apply IH, S_good.
  Qed.
End Driven.

Lemma ready_ok u : twf u -> in_unit u -> ok u u.
Proof. intros T U. split; [exact T|]. split; [reflexivity|exact U]. Qed.

Ltac open_driven D := let g := fresh "g" in destruct D as (g & D1 & D2 & D3 & D4).

Section Results.
  Variables (L M : R) (F : R -> tensor -> res tensor).
  Hypothesis L0 : 0 <= L.
  Hypothesis M0 : 0 <= M.
  Hypothesis D : driven L M F.

  Lemma flow_exists t u : 0 <= t -> ready F u -> exists w, flows F t u w /\ (forall w', flows F t u w' -> w' = w) /\ twf w /\ shape w = shape u /\ in_unit w.
  Proof.
    intros Ht (T & U & C & A). open_driven D. pose proof (ready_ok u T U) as G.
    pose proof (ok_M M F g u D1 D2 D3 T C A) as HM. pose proof (ok_L L F g u D1 D2 D4 T C A) as HL. destruct (lim_exists _ _ _ _ g L M L0 M0 HM HL t u Ht G) as (w & X).
    pose proof (flows_lim L M F g u L0 M0 D1 D2 D3 D4 T C A) as E. exists w. split; [apply E; assumption|]. split; [|destruct X as ((Tw & Sw & Uw) & _); auto].
    intros w' W. apply E in W; [|exact Ht|exact G]. eapply (lim_unique _ _ _ _ g L M L0 M0); eassumption.
  Qed.

  Lemma flow_rate t u w n : 0 <= t -> ready F u -> flows F t u w -> (0 < n)%nat -> exists v, iter_res (F (t / INR n)) n u = Ok v /\ near (t / INR n * (M / 2) * (exp (L * t) - 1)) v w.
  Proof.
    intros Ht (T & U & C & A) W Hn. open_driven D. pose proof (ready_ok u T U) as G. apply (flows_lim L M F g u L0 M0 D1 D2 D3 D4 T C A) in W; [|exact Ht|exact G].
    eexists. split; [apply (ok_iter F g u D1 D2 T C A _ _ u G)|]. apply (ok_near u); [apply it_good, G|exact (proj1 W)|]. apply (proj2 W n Hn).
  Qed.

  Lemma flow_step h u v w : 0 <= h -> ready F u -> flows F h u w -> F h u = Ok v -> near (h ^ 2 * L * M / 2) v w.
  Proof.
    intros Hh (T & U & C & A) W Hv. open_driven D. pose proof (ready_ok u T U) as G. apply (flows_lim L M F g u L0 M0 D1 D2 D3 D4 T C A) in W; [|exact Hh|exact G].
    pose proof (ok_M M F g u D1 D2 D3 T C A) as HM. pose proof (ok_L L F g u D1 D2 D4 T C A) as HL.
    rewrite (ok_step F g u D1 D2 T C A h u G) in Hv. injection Hv as <-. apply (ok_near u); [apply S_good|exact (proj1 W)|]. apply (lim_step _ _ _ _ g L M L0 M0 HM HL h u w Hh G W).
  Qed.

  Lemma near_ready e u v : near e u v -> ready F u -> ready F v.
  Proof.
    intros (_ & T & Sh & _ & U & _) (T' & U' & C & h & u' & E). pose proof Sh as Sh'. unfold shape in Sh'. injection Sh' as _ Q _ _. split; [exact T|]. split; [exact U|]. split; [lia|]. open_driven D. exists h. destruct (F h v) as [v'|er] eqn:Ev; [eauto|].
    rewrite (D1 h h v u er T T' (eq_sym Sh) ltac:(lia) Ev) in E. discriminate.
  Qed.

  Lemma flow_lipschitz t e u v w w' : 0 <= t -> 0 <= e -> ready F u -> near e u v -> flows F t u w -> flows F t v w' -> near (exp (L * t) * e) w w'.
  Proof.
    intros Ht He Ru N W W'. pose proof (near_ready e u v N Ru) as (Tv & Uv & Cv & Av). destruct Ru as (T & U & C & A). open_driven D. pose proof (ready_ok u T U) as G. pose proof N as (_ & _ & Sh & _).
    assert (Gv : ok u v) by (split; [exact Tv|]; split; [symmetry; exact Sh|exact Uv]).
    apply (flows_lim L M F g u L0 M0 D1 D2 D3 D4 T C A) in W; [|exact Ht|exact G]. apply (flows_lim L M F g u L0 M0 D1 D2 D3 D4 T C A) in W'; [|exact Ht|exact Gv].
    pose proof (ok_M M F g u D1 D2 D3 T C A) as HM. pose proof (ok_L L F g u D1 D2 D4 T C A) as HL.
    apply (ok_near u); [exact (proj1 W)|exact (proj1 W')|]. apply (lim_lip _ _ _ _ g L M L0 M0 HL t e u v w w' Ht He G Gv); [apply (ok_near u); assumption|exact W|exact W'].
  Qed.

  Lemma flow_ready t u w : 0 <= t -> ready F u -> flows F t u w -> ready F w.
  Proof.
    intros Ht R W. pose proof R as (T & U & C & A). destruct (flow_exists t u Ht R) as (x & _ & X & Tx & Sx & Ux). rewrite (X w W). apply (near_ready 1 u x); [|exact R].
    split; [exact T|]. split; [exact Tx|]. split; [congruence|]. split; [exact U|]. split; [exact Ux|]. unfold in_unit in *. rewrite Forall_forall in *. unfold shape in Sx. injection Sx as Q1 Q2 Q3 Q4. intros b c i j Hb Hc Hi Hj.
    pose proof (U _ (get_in_data u b c i j T Hb Hc Hi Hj)). rewrite <- Q1 in Hb. rewrite <- Q2 in Hc. rewrite <- Q3 in Hi. rewrite <- Q4 in Hj. pose proof (Ux _ (get_in_data x b c i j Tx Hb Hc Hi Hj)). apply Rabs_le. lra.
  Qed.

  Lemma flow_add s t u v w : 0 <= s -> 0 <= t -> ready F u -> flows F s u v -> flows F t v w -> flows F (s + t) u w.
  Proof.
    intros Hs Ht (T & U & C & A) V W. open_driven D. pose proof (ready_ok u T U) as G. pose proof (ok_M M F g u D1 D2 D3 T C A) as HM. pose proof (ok_L L F g u D1 D2 D4 T C A) as HL.
    apply (flows_lim L M F g u L0 M0 D1 D2 D3 D4 T C A) in V; [|exact Hs|exact G]. pose proof (proj1 V) as Gv.
    apply (flows_lim L M F g u L0 M0 D1 D2 D3 D4 T C A) in W; [|exact Ht|exact Gv]. apply (flows_lim L M F g u L0 M0 D1 D2 D3 D4 T C A); [lra|exact G|]. apply (lim_add _ _ _ _ g L M L0 M0 HM HL s t u v w Hs Ht G V W).
  Qed.

  Lemma flow_time s t u v w : 0 <= s <= t -> ready F u -> flows F s u v -> flows F t u w -> near ((t - s) * M) v w.
  Proof.
    intros Hs R V W. destruct (flow_exists (t - s) v ltac:(lra) (flow_ready s u v ltac:(lra) R V)) as (x & X & _). pose proof (flow_add s (t - s) u v x ltac:(lra) ltac:(lra) R V X) as Y. replace (s + (t - s)) with t in Y by ring.
    destruct (flow_exists t u ltac:(lra) R) as (y & _ & Un & _). rewrite (Un w W), <- (Un x Y). pose proof (flow_ready s u v ltac:(lra) R V) as (T & U & C & A). clear - X T U C A L0 M0 D Hs. open_driven D. pose proof (ready_ok v T U) as G.
    pose proof (ok_M M F g v D1 D2 D3 T C A) as HM. pose proof (ok_L L F g v D1 D2 D4 T C A) as HL.
    apply (flows_lim L M F g v L0 M0 D1 D2 D3 D4 T C A) in X; [|lra|exact G]. apply (ok_near v); [exact G|exact (proj1 X)|]. apply (lim_move _ _ _ _ g L M L0 M0 HM (t - s) v x ltac:(lra) G X).
  Qed.

  Lemma flow_variable h0 hs u v w : 0 <= h0 -> Forall (fun h => 0 <= h <= h0) hs -> ready F u -> run_steps F hs u = Ok v -> flows F (total hs) u w -> near (h0 * (M / 2) * (exp (L * total hs) - 1)) v w.
  Proof.
    intros H0 Hs (T & U & C & A) V W. open_driven D. pose proof (ready_ok u T U) as G. pose proof (ok_M M F g u D1 D2 D3 T C A) as HM. pose proof (ok_L L F g u D1 D2 D4 T C A) as HL.
    assert (T0 : 0 <= total hs) by (clear - Hs; induction Hs as [|h hs [X _] Hs IH]; cbn [total]; lra).
    apply (flows_lim L M F g u L0 M0 D1 D2 D3 D4 T C A) in W; [|exact T0|exact G]. rewrite (ok_runs F g u D1 D2 T C A hs u G) in V. injection V as <-.
    apply (ok_near u); [|exact (proj1 W)|].
    - clear - G. assert (X : forall hs x, ok u x -> ok u (its (tB u) (tC u) (tH u) (tW u) g hs x)) by (clear; induction hs as [|h hs IH]; intros x Gx; cbn [its]; [exact Gx|]; apply IH, S_good). apply X, G.
    - pose proof (its_lim _ _ _ _ g L M L0 M0 HM HL h0 hs H0 Hs u u w 0 0 (Rle_refl 0) (Rle_refl 0) G G (within_refl _ _ _ _ u) W) as Q. rewrite Rmult_0_r, Rplus_0_l in Q. exact Q.
  Qed.

  Lemma flow_fixed u : ready F u -> (exists h, 0 < h /\ F h u = Ok u) <-> (forall t, 0 <= t -> flows F t u u).
  Proof.
    intros (T & U & C & A). open_driven D. pose proof (ready_ok u T U) as G. pose proof (ok_M M F g u D1 D2 D3 T C A) as HM. pose proof (ok_L L F g u D1 D2 D4 T C A) as HL.
    pose proof (flows_lim L M F g u L0 M0 D1 D2 D3 D4 T C A) as E. split.
    - intros (h & Hh & Eh) t Ht. apply E; auto. rewrite (ok_step F g u D1 D2 T C A h u G) in Eh. injection Eh as Eh. apply (fixed_lim _ _ _ _ g L M L0 M0 h t u Hh Ht G Eh).
    - intros X. exists 1. split; [lra|]. rewrite (ok_step F g u D1 D2 T C A 1 u G). f_equal. apply (lim_fixed _ _ _ _ g L M L0 M0 HM HL 1 u ltac:(lra) G). intros t Ht. apply E; auto.
  Qed.

  Lemma step_fixed h k u : ready F u -> 0 < h -> 0 <= k -> F h u = Ok u -> F k u = Ok u.
  Proof.
    intros (T & U & C & A) Hh Hk E. open_driven D. pose proof (ready_ok u T U) as G. rewrite (ok_step F g u D1 D2 T C A h u G) in E. injection E as E. rewrite (ok_step F g u D1 D2 T C A k u G). f_equal. apply (fixed_all _ _ _ _ g h k u Hh Hk G E).
  Qed.

  Lemma flow_follows K t u v : 0 <= K -> 0 <= t -> ready F u -> v 0 = u -> follows F K t v -> flows F t u (v t).
  Proof.
    intros HK Ht (T & U & C & A) E X. open_driven D. pose proof (ready_ok u T U) as G. pose proof (ok_M M F g u D1 D2 D3 T C A) as HM. pose proof (ok_L L F g u D1 D2 D4 T C A) as HL.
    apply (flows_lim L M F g u L0 M0 D1 D2 D3 D4 T C A); auto.
    assert (Gv : forall s, 0 <= s <= t -> ok u (v s)).
    { intros s Hs. assert (F0 : F s (v 0) = Ok (st g u s u)) by (rewrite E; apply (ok_step F g u D1 D2 T C A s u G)). specialize (X 0 s _ (Rle_refl 0) ltac:(lra) ltac:(lra) F0). rewrite Rplus_0_l in X. destruct X as (_ & A2 & A3 & _ & A5 & _). split; [exact A2|]. split; [rewrite <- A3; reflexivity|exact A5]. }
    apply (curve_lim _ _ _ _ g L M L0 M0 HM HL K t u v HK Ht G Gv E). intros s h Hs Hh Hsh. pose proof (Gv s ltac:(lra)) as Gs. apply (ok_near u); [apply S_good|apply Gv; lra|]. apply X; auto. apply (ok_step F g u D1 D2 T C A h (v s) Gs).
  Qed.

  Lemma flow_rejected h u er : twf u -> (tC u < 4)%nat -> F h u = Err er -> forall t w, ~ flows F t u w.
  Proof.
    intros T C E t w W. open_driven D. destruct (W 1 ltac:(lra)) as (N & HN). destruct (HN (Datatypes.S N) ltac:(lia) ltac:(lia)) as (v & Ev & _). cbn [iter_res] in Ev. rewrite (D1 h _ u u er T T eq_refl C E) in Ev. discriminate.
  Qed.
End Results.
