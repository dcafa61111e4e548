(** A concrete automaton and grids, used to show that hypotheses of theorems are met. *)
From Coq Require Import Reals Lra Lia List Arith Bool ZArith.
From Verif Require Import Base PyDict Tensor MActivations MKernels MCommon MCca SGrid SCca PTensor PStep PCca PSym PDyn PEqv PCode PStepX.
Import ListNotations.
Open Scope R_scope.

(** Moore neighbourhood, Gaussian growth functions, one channel, circular. *)
Definition ex_moore : tensor := mkT 1 1 3 3 [1/8; 1/8; 1/8; 1/8; 0; 1/8; 1/8; 1/8; 1/8].
Definition ex_gen : act := AGaussian (3 / 8) (1 / 10) true.
Definition ex_per : act := AGaussian (1 / 4) (1 / 10) true.
Definition ex_cca : cca :=
  mkCca 1 1 Circular (1 / 10) (mkL default_id_kernel 1 1 Circular) (mkL ex_moore 1 1 Circular)
    (WConv (unit_layer Circular)) [ex_gen] [ex_per] (1 / 2).

Lemma ex_weights : init_weights 1 1 Circular = Ok (WConv (unit_layer Circular)).
Proof.
  unfold init_weights. cbv -[Rplus Rmult Rdiv R1 R0 nonzero guard bind IZR].
  replace (1 + 0) with 1 by ring. unfold nonzero. destruct (Req_EM_T 1 0); [lra|]. cbn [guard bind].
  unfold unit_layer, unit_kernel. repeat f_equal. field.
Qed.

Lemma ex_built : make_cca 1 1 Circular (1 / 10) (K4 default_id_kernel) (K4 ex_moore) [ex_gen] [ex_per] (1 / 2) = Ok ex_cca.
Proof.
  unfold make_cca. cbn [as_kernel default_id_kernel ex_moore tH tW Nat.eqb guard bind].
  fold default_id_kernel. fold ex_moore.
  assert (E1 : init_layer 1 1 Circular default_id_kernel = Ok (mkL default_id_kernel 1 1 Circular)) by reflexivity.
  assert (E2 : init_layer 1 1 Circular ex_moore = Ok (mkL ex_moore 1 1 Circular)) by reflexivity.
  rewrite E1, E2. cbn [bind]. rewrite ex_weights. reflexivity.
Qed.

Lemma ex_wf : cca_wf ex_cca.
Proof.
  destruct (make_cca_wf 1 1 Circular (1 / 10) (K4 default_id_kernel) (K4 ex_moore) [ex_gen] [ex_per] (1 / 2) ex_cca
              default_id_kernel ex_moore 1 1) as [H _]; auto using ex_built.
Qed.

Lemma ex_circular : circular ex_cca.
Proof. split; reflexivity. Qed.

(** A 3x4 grid with distinct values. *)
Definition ex_grid : tensor := mkT 1 1 3 4 [0; 1; 1/2; 1/3; 1/4; 1; 0; 0; 1/5; 2/3; 1/7; 0].
Lemma ex_grid_wf : twf ex_grid.
Proof. reflexivity. Qed.
Lemma ex_grid_unit : in_unit ex_grid.
Proof. unfold in_unit. repeat (apply Forall_cons; [lra|]); apply Forall_nil. Qed.

Lemma eps9_pos : 0 < eps9.
Proof. unfold eps9. lra. Qed.

Lemma ex_acts mu s m : 0 < s -> act_ok (AGaussian mu s m) = Ok tt.
Proof.
  intros Hs. cbn [act_ok]. unfold nonzero. pose proof eps9_pos. destruct (Req_EM_T (eps9 + s) 0); [lra|]. reflexivity.
Qed.

Lemma ex_step : exists u', cca_forward ex_cca ex_grid = Ok u'.
Proof.
  apply cca_accepts; [exact ex_wf|reflexivity|]. unfold fits. cbn [ex_cca ext int_ idl nbl cl_m cl_p gens pers].
  assert (A1 : acts_ok [ex_gen] = Ok tt) by (cbn [acts_ok]; unfold ex_gen; rewrite ex_acts by lra; reflexivity).
  assert (A2 : acts_ok [ex_per] = Ok tt) by (cbn [acts_ok]; unfold ex_per; rewrite ex_acts by lra; reflexivity).
  rewrite A1, A2. cbn. auto 20.
Qed.

Lemma ex_mirror : mirror_v ex_cca /\ mirror_h ex_cca /\ mirror_t ex_cca.
Proof.
  assert (D : forall k, k = default_id_kernel \/ k = ex_moore -> sym_v k /\ sym_h k /\ sym_t k).
  { intros k Hk.
    assert (S : tB k = 1%nat /\ tC k = 1%nat /\ tH k = 3%nat /\ tW k = 3%nat) by (destruct Hk; subst; auto).
    destruct S as (S1 & S2 & S3 & S4). unfold sym_v, sym_h, sym_t. rewrite S1, S2, S3, S4.
    repeat split; intros o c y x Ho Hc Hy Hx; (destruct o; [|lia]); (destruct c; [|lia]);
      destruct y as [|[|[|y]]]; try lia; destruct x as [|[|[|x]]]; try lia; destruct Hk; subst; reflexivity. }
  destruct (D default_id_kernel) as (A1 & A2 & A3); auto. destruct (D ex_moore) as (B1 & B2 & B3); auto.
  repeat split; auto; try apply A3; try apply B3.
Qed.

(** Moore kernel convolution under another padding mode. *)
From Verif Require Import SKern.
Lemma ex_moore_conv : exists l v, init_layer 1 1 Replicate ex_moore = Ok l /\ conv_apply l ex_grid = Ok v /\ normalised ex_moore.
Proof.
  eexists. eexists. split; [reflexivity|]. split; [reflexivity|].
  split; [reflexivity|]. split; [reflexivity|]. split; [reflexivity|]. split.
  - cbn [ex_moore tdata]. repeat constructor; lra.
  - unfold tsum, lsum, ex_moore. cbn [tdata fold_right]. lra.
Qed.
