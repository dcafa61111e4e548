(** Theorems about Life-like automata and the bundled configurations: C34, C35, C66. *)
From Coq Require Import Reals Lra Lia List Arith Bool ZArith String.
From Verif Require Import Base PyDict Tensor MActivations MKernels MCommon MCca MConfig MConfigs SGrid SCca SKern SConfig SLife PTensor PDyn PAct PKern PConfigX PConfigY PConfigW PLife PGlider PBundle.
Import ListNotations.
Open Scope R_scope.

(** ** C34 Life-like configurations *)

(** The configuration loads into every one-channel automaton. *)
Theorem C34_loads fuel ev rng o h B S : obj_inv o -> exists o' h', load_value fuel ev rng o (get_life_like_config 1 B S) h = Ok (o', h').
Proof. exact (life_load_ok fuel ev rng o h B S). Qed.

(** The exact run from a 0/1 grid: it never fails, and stays within 2*10^-6 of Life for all
    time if births are survivals, and within 2*10^-6 per step otherwise. *)
Theorem C34_run fuel ev rng o h B S o' h' u g t : obj_inv o -> ext (o_core o) = 1%nat -> int_ (o_core o) = 1%nat -> pm (o_core o) = Circular ->
  load_value fuel ev rng o (get_life_like_config 1 B S) h = Ok (o', h') -> rule_list B -> rule_list S ->
  twf u -> tC u = 1%nat -> (0 < tH u)%nat -> (0 < tW u)%nat -> in_unit u -> near 0 u g -> sub_rule B S \/ INR t * (2 / 1000000) <= 1 / 320 ->
  exists u', iter_res (cca_forward (o_core o')) t u = Ok u' /\ twf u' /\ shape u' = shape u /\ in_unit u' /\
    near (if forallb (fun b => existsb (Z.eqb b) S) B then 2 / 1000000 else INR t * (2 / 1000000)) u' (fun b => life_n B S (tH u) (tW u) t (g b)).
Proof. exact (fun I E1 E2 E3 HL => exact_run B S (o_core o') u g t (life_load fuel ev rng o h B S o' h' I E1 E2 E3 HL)). Qed.

(** Births among survivals: for all time, from any grid within 1/320 of a board, with every
    step off by up to [d]. *)
Theorem C34_forever fuel ev rng o h B S o' h' us d g e : obj_inv o -> ext (o_core o) = 1%nat -> int_ (o_core o) = 1%nat -> pm (o_core o) = Circular ->
  load_value fuel ev rng o (get_life_like_config 1 B S) h = Ok (o', h') -> rule_list B -> rule_list S -> sub_rule B S -> rough_run (cca_forward (o_core o')) d us ->
  tC (us 0%nat) = 1%nat -> (0 < tH (us 0%nat))%nat -> (0 < tW (us 0%nat))%nat -> e <= 1 / 320 -> 2 / 1000000 + d <= 1 / 320 -> near e (us 0%nat) g ->
  forall t, near (2 / 1000000 + d) (us (Datatypes.S t)) (fun b => life_n B S (tH (us 0%nat)) (tW (us 0%nat)) (Datatypes.S t) (g b)).
Proof. exact (fun I E1 E2 E3 HL => rough_forever B S (o_core o') us d g e (life_load fuel ev rng o h B S o' h' I E1 E2 E3 HL)). Qed.

(** Any rule: the error grows by at most 2*10^-6 plus the perturbation per step. *)
Theorem C34_linear fuel ev rng o h B S o' h' us d g e : obj_inv o -> ext (o_core o) = 1%nat -> int_ (o_core o) = 1%nat -> pm (o_core o) = Circular ->
  load_value fuel ev rng o (get_life_like_config 1 B S) h = Ok (o', h') -> rule_list B -> rule_list S -> rough_run (cca_forward (o_core o')) d us -> 0 <= d ->
  tC (us 0%nat) = 1%nat -> (0 < tH (us 0%nat))%nat -> (0 < tW (us 0%nat))%nat -> near e (us 0%nat) g -> 0 <= e ->
  forall t, e + INR t * (2 / 1000000 + d) <= 1 / 320 ->
    near (e + INR t * (2 / 1000000 + d)) (us t) (fun b => life_n B S (tH (us 0%nat)) (tW (us 0%nat)) t (g b)).
Proof. exact (fun I E1 E2 E3 HL => rough_linear B S (o_core o') us d g e (life_load fuel ev rng o h B S o' h' I E1 E2 E3 HL)). Qed.

(** The intervals: bounds half-way between the counts, in eighths. *)
Theorem C34_intervals l n : count_in (get_smooth_interval l) (INR n / 8) = count_occ Z.eq_dec l (Z.of_nat n).
Proof.
  induction l as [|b t IH]; [reflexivity|]. cbn [get_smooth_interval map count_in count_occ]. fold (get_smooth_interval t). rewrite IH, INR_IZR_INZ.
  rewrite minus_IZR, plus_IZR, mult_IZR. destruct (Z.eq_dec b (Z.of_nat n)) as [->|D].
  - destruct (Rle_dec _ _) as [A|A]; [|exfalso; lra]. destruct (Rlt_dec _ _) as [B|B]; [reflexivity|exfalso; lra].
  - assert (C : (Z.of_nat n <= b - 1)%Z \/ (b + 1 <= Z.of_nat n)%Z) by lia. destruct C as [C|C]; apply IZR_le in C; rewrite ?minus_IZR, ?plus_IZR in C.
    + destruct (Rle_dec _ _) as [A|A]; [exfalso; lra|reflexivity].
    + destruct (Rle_dec _ _) as [A|A]; [|exfalso; lra]. destruct (Rlt_dec _ _) as [B|B]; [exfalso; lra|reflexivity].
Qed.

(** A grid from a board. *)
Definition grid_of (H W : nat) (g : board) : tensor := build 1 1 H W (fun _ _ i j => b2R (g i j)).

Example ex_grid_of H W g : twf (grid_of H W g) /\ in_unit (grid_of H W g) /\ near 0 (grid_of H W g) (fun _ => g).
Proof.
  split; [apply twf_build|]. split.
  - unfold in_unit. apply Forall_forall. intros x Hx. apply in_data_get in Hx as (b & c & i & j & Hb & Hc & Hi & Hj & ->); [|apply twf_build].
    cbn [tB tC tH tW grid_of build] in *. unfold grid_of. rewrite get_build by assumption. destruct (g i j); cbn [b2R]; lra.
  - intros b i j Hb Hi Hj. cbn [tB tH tW grid_of build] in *. unfold grid_of. rewrite get_build by (auto; lia). rewrite Rminus_diag_eq, Rabs_R0 by reflexivity. lra.
Qed.

(** Conway's rule has births among its survivals; Seeds (B2/S) does not. *)
Example ex_rules : rule_list [3]%Z /\ rule_list [2; 3]%Z /\ sub_rule [3]%Z [2; 3]%Z /\ rule_list [2]%Z /\ rule_list [] /\ ~ sub_rule [2]%Z [].
Proof.
  split; [split; [repeat constructor; intros []|repeat constructor; lia]|]. split; [split; [repeat constructor; cbn; intros E; repeat (destruct E as [E|E]; try discriminate); contradiction|repeat constructor; lia]|].
  split; [intros b [<-|[]]; cbn; auto|]. split; [split; [repeat constructor; intros []|repeat constructor; lia]|]. split; [split; constructor|]. intros H. apply (H 2%Z). left. reflexivity.
Qed.

(** A blinker turns. *)
Example ex_blinker : let g : board := fun i j => Nat.eqb i 2 && Nat.leb 1 j && Nat.leb j 3 in
  map (fun i => map (life [3]%Z [2; 3]%Z 5 5 g i) (seq 0 5)) (seq 0 5) = map (fun i => map (fun j => g j i) (seq 0 5)) (seq 0 5) /\ g 2%nat 1%nat = true.
Proof. split; reflexivity. Qed.

(** The object of the theorems: a one-channel circular automaton with default settings. *)
Example ex_one_channel : exists o h, init 1 no_env wit_rng wit_kw [] = Ok (o, h) /\ obj_inv o /\ ext (o_core o) = 1%nat /\ int_ (o_core o) = 1%nat /\ pm (o_core o) = Circular.
Proof. destruct (wit_init []) as (o & Hi & _ & I & _ & E1 & E2 & E3). exists o, []. auto. Qed.

(** ** C35 The glider *)
Theorem C35_board H W dy dx k : (5 <= H)%nat -> (5 <= W)%nat -> forall i j, (i < H)%nat -> (j < W)%nat ->
  life_n [3]%Z [2; 3]%Z H W (4 * k) (shifted H W dy dx (placed 8 8 get_glider)) i j = shifted H W (dy - Z.of_nat k) (dx - Z.of_nat k) (placed 8 8 get_glider) i j.
Proof. exact (glider_anywhere H W dy dx k). Qed.

(** The automaton: after 4k steps the glider is k cells further up and left, to within
    2*10^-6, for all k. *)
Theorem C35_run fuel ev rng o h o' h' H W dy dx k : obj_inv o -> ext (o_core o) = 1%nat -> int_ (o_core o) = 1%nat -> pm (o_core o) = Circular ->
  load_value fuel ev rng o (get_life_like_config 1 [3]%Z [2; 3]%Z) h = Ok (o', h') -> (5 <= H)%nat -> (5 <= W)%nat ->
  exists u', iter_res (cca_forward (o_core o')) (4 * k) (grid_of H W (shifted H W dy dx (placed 8 8 get_glider))) = Ok u' /\
    near (2 / 1000000) u' (fun _ => shifted H W (dy - Z.of_nat k) (dx - Z.of_nat k) (placed 8 8 get_glider)).
Proof.
  intros I E1 E2 E3 HL H5 W5. destruct ex_rules as (R1 & R2 & SB & _). set (g := shifted H W dy dx (placed 8 8 get_glider)). destruct (ex_grid_of H W g) as (G1 & G2 & G3).
  destruct (C34_run fuel ev rng o h [3]%Z [2; 3]%Z o' h' (grid_of H W g) (fun _ => g) (4 * k) I E1 E2 E3 HL R1 R2 G1 eq_refl) as (u' & Hu & _ & Sh & _ & Hn); auto.
  { change (tH (grid_of H W g)) with H. lia. } { change (tW (grid_of H W g)) with W. lia. }
  exists u'. split; [exact Hu|]. apply shape_inv in Sh as (S1 & S2 & S3 & S4). change (tH (grid_of H W g)) with H in *. change (tW (grid_of H W g)) with W in *.
  intros b i j Hb Hi Hj. rewrite <- (C35_board H W dy dx k H5 W5 i j) by congruence. apply Hn; assumption.
Qed.

(** With rounding in every step, for all time. *)
Theorem C35_rough fuel ev rng o h o' h' us d H W dy dx e k : obj_inv o -> ext (o_core o) = 1%nat -> int_ (o_core o) = 1%nat -> pm (o_core o) = Circular ->
  load_value fuel ev rng o (get_life_like_config 1 [3]%Z [2; 3]%Z) h = Ok (o', h') -> (5 <= H)%nat -> (5 <= W)%nat ->
  rough_run (cca_forward (o_core o')) d us -> shape (us 0%nat) = (1, 1, H, W)%nat -> e <= 1 / 320 -> 2 / 1000000 + d <= 1 / 320 ->
  near e (us 0%nat) (fun _ => shifted H W dy dx (placed 8 8 get_glider)) -> (0 < k)%nat ->
  near (2 / 1000000 + d) (us (4 * k)%nat) (fun _ => shifted H W (dy - Z.of_nat k) (dx - Z.of_nat k) (placed 8 8 get_glider)).
Proof.
  intros I E1 E2 E3 HL H5 W5 HR Sh He Hd Hn Hk. destruct ex_rules as (R1 & R2 & SB & _). apply shape_inv in Sh as (S1 & S2 & S3 & S4).
  pose proof (C34_forever fuel ev rng o h [3]%Z [2; 3]%Z o' h' us d _ e I E1 E2 E3 HL R1 R2 SB HR S2 ltac:(lia) ltac:(lia) He Hd Hn (4 * k - 1)) as Q.
  replace (S (4 * k - 1)) with (4 * k)%nat in Q by lia. rewrite S3, S4 in Q.
  destruct (HR (4 * k)%nat) as (_ & Shk & _). apply shape_inv in Shk as (K1 & K2 & K3 & K4).
  intros b i j Hb Hi Hj. rewrite <- (C35_board H W dy dx k H5 W5 i j) by congruence. apply Q; assumption.
Qed.

(** Four live cells would not do: the glider is really there. *)
Example ex_glider : map (fun i => map (placed 8 8 get_glider i) (seq 0 5)) (seq 0 5) =
  [[false; false; false; false; false]; [false; false; true; false; false]; [false; true; true; false; false]; [false; true; false; true; false]; [false; false; false; false; false]].
Proof. reflexivity. Qed.

(** ** C66 The other bundled configurations *)
Theorem C66_orbium fuel ev rng o h r : obj_inv o -> (1 <= r)%nat -> exists o' h' k, load_value fuel ev rng o (get_orbium_config (Z.of_nat r)) h = Ok (o', h') /\
  fitted r (fun i j => act_fn (AGaussian (1 / 2) (15 / 100) false) (rho r i j)) k /\
  rule_of o o' default_id_kernel k [AMixture [(1, 15 / 100, 15 / 1000)] true] [AMixture [(1, 15 / 100, 15 / 1000)] true] (1 / 10).
Proof. exact (orbium_load fuel ev rng o h r). Qed.

Theorem C66_geminium fuel ev rng o h r : obj_inv o -> (1 <= r)%nat -> exists o' h' k, load_value fuel ev rng o (get_geminium_config (Z.of_nat r)) h = Ok (o', h') /\
  fitted r (fun i j => act_fn (AMixture gem_kernel false) (rho r i j)) k /\
  rule_of o o' default_id_kernel k [AMixture [(1, 26 / 100, 36 / 1000)] true] [AMixture [(1, 26 / 100, 36 / 1000)] true] (1 / 10).
Proof. exact (geminium_load fuel ev rng o h r). Qed.

(** SmoothLife: the inner disc as identity kernel, the ring as neighbourhood. *)
Theorem C66_smoothlife fuel ev rng o h r b s : obj_inv o -> (1 <= r)%nat -> exists o' h' ki k, load_value fuel ev rng o (get_smooth_life_config (Z.of_nat r) b s) h = Ok (o', h') /\
  fitted r (fun i j => act_fn (ASmoothLife (1 / 3) 0) (rho r i j)) ki /\ fitted r (fun i j => act_fn (ASmoothLife (105 / 100) (1 / 3)) (rho r i j)) k /\
  rule_of o o' ki k [ASmoothIntervals (match b with None => [(278 / 1000, 365 / 1000)] | Some l => l end) (28 / 1000) true]
    [ASmoothIntervals (match s with None => [(267 / 1000, 445 / 1000)] | Some l => l end) (147 / 1000) true] 1.
Proof. exact (smoothlife_load fuel ev rng o h r b s). Qed.

(** Orbium and Geminium objects belong to the class that survives saving and loading (C27). *)
Theorem C66_saveable fuel ev rng o h r o' h' : obj_inv o -> (1 <= r)%nat -> int_ (o_core o) = 1%nat -> (0 < o_peaks o)%nat ->
  query_kwargs "ca_config" VNone (o_inst o) = VNone -> query_kwargs "input_filepath" VNone (o_inst o) = VNone ->
  load_value fuel ev rng o (get_orbium_config (Z.of_nat r)) h = Ok (o', h') \/ load_value fuel ev rng o (get_geminium_config (Z.of_nat r)) h = Ok (o', h') -> saveable o' h'.
Proof. exact (orbium_saveable fuel ev rng o h r o' h'). Qed.

Print Assumptions C34_loads.
Print Assumptions C34_run.
Print Assumptions C34_forever.
Print Assumptions C34_linear.
Print Assumptions C34_intervals.
Print Assumptions C35_board.
Print Assumptions C35_run.
Print Assumptions C35_rough.
Print Assumptions C66_orbium.
Print Assumptions C66_geminium.
Print Assumptions C66_smoothlife.
Print Assumptions C66_saveable.
