(** Theorems about pattern networks and parameter agents: the rest of C26, and C63. *)
From Coq Require Import Reals Lra Lia List Arith Bool.
From Verif Require Import Base Tensor MActivations MCommon MCppn SCppn PCppn.
Import ListNotations.
Open Scope R_scope.

(** ** C26 Parameters of agents and pattern networks *)

(** An agent without a filter gives back what it is given; a filter takes absolute values
    and clips them to [0.0001, 1], number by number. *)
Theorem C26_agent a p : (ag_filter a = false -> agent_get (agent_set a p) = p) /\
  (ag_filter a = true -> Forall2 filtered_value p (agent_get (agent_set a p))) /\
  ag_filter (agent_set a p) = ag_filter a /\ ag_num (agent_set a p) = ag_num a.
Proof. destruct (agent_set_spec a p) as (H1 & H2 & H3 & H4). auto. Qed.

(** Setting again what was read, or acting, changes nothing. *)
Theorem C26_agent_stable a p : let a' := agent_set a p in
  agent_set a' (agent_get a') = a' /\ agent_action a' = (agent_get a', a').
Proof. exact (agent_idem a p). Qed.

(** Before the first [set_params] a filtering agent may hold negative numbers: acting makes
    them positive, and the agent keeps that. *)
Theorem C26_agent_acts a : fst (agent_action a) = agent_get (snd (agent_action a)) /\
  (ag_filter a = false -> snd (agent_action a) = a) /\
  (ag_filter a = true -> forall k, nth k (agent_get (snd (agent_action a))) 0 = Rabs (nth k (agent_get a) 0)).
Proof.
  unfold agent_action, agent_get. destruct a as [p n f]. cbn [fst snd ag_params ag_filter ag_num]. split; [reflexivity|].
  split; intros ->; [reflexivity|]. intros k. rewrite <- Rabs_R0 at 1. now rewrite map_nth.
Qed.

(** The vector a new agent starts with: [ca_params], else [num_params] random numbers, else
    [params], else four fixed numbers. *)
Theorem C26_agent_new ca np ps f draw : let a := agent_init ca np ps f draw in
  ag_num a = List.length (agent_get a) /\ ag_filter a = f /\
  (forall p, ca = Some p -> agent_get a = p) /\
  (forall n, ca = None -> np = Some n -> ag_num a = n /\ forall k, (k < n)%nat -> nth k (agent_get a) 0 = draw k) /\
  (forall p, ca = None -> np = None -> ps = Some p -> agent_get a = p) /\
  (ca = None -> np = None -> ps = None -> agent_get a = [15 / 100; 15 / 1000; 15 / 100; 2 / 100]).
Proof.
  unfold agent_init, agent_get. destruct ca as [p|]; [|destruct np as [n|]; [|destruct ps as [p|]]]; cbn [ag_num ag_params ag_filter].
  - repeat split; congruence.
  - split; [now rewrite map_length, seq_length|]. split; [reflexivity|]. split; [congruence|]. split; [|split; congruence].
    intros m _ [= <-]. split; [reflexivity|]. intros k Hk. rewrite (nth_indep _ 0 (draw 0%nat)) by (rewrite map_length, seq_length; exact Hk).
    rewrite map_nth, seq_nth by exact Hk. reflexivity.
  - repeat split; congruence.
  - repeat split; try congruence. unfold agent_default. intros _ _ _. do 3 f_equal. f_equal. lra.
Qed.

(** A network reads from the front of the vector exactly as many numbers as it has, and gives
    them back. *)
Theorem C26_cppn c p c' : cppn_set_params c p = Ok c' ->
  cppn_get_params c' = firstn (List.length (cppn_get_params c)) p /\
  (List.length p = List.length (cppn_get_params c) -> cppn_get_params c' = p) /\
  cp_ext c' = cp_ext c /\ cp_dim c' = cp_dim c /\ (forall h, cppn_wf c h -> cppn_wf c' h).
Proof.
  intros H. destruct (cppn_set_get c p c' H) as (G & E & D & W). split; [exact G|]. split; [|auto].
  intros L. rewrite G, <- L. apply firstn_all.
Qed.

(** It accepts every vector that is long enough and refuses the others. *)
Theorem C26_cppn_accepts c p : if Nat.ltb (List.length p) (List.length (cppn_get_params c)) then cppn_set_params c p = Err ValueError
  else exists c', cppn_set_params c p = Ok c'.
Proof. exact (cppn_set_accepts c p). Qed.

(** Its own parameters leave it as it is. *)
Theorem C26_cppn_self c : cppn_set_params c (cppn_get_params c) = Ok c.
Proof. exact (cppn_set_self c). Qed.

(** The number of parameters of a network as constructed. *)
Theorem C26_cppn_length e h d w b c : cppn_init e h d w b = Ok c ->
  List.length (cppn_get_params c) = cppn_size e h.
Proof. intros H. destruct (cppn_init_wf e h d w b c H) as (W & <- & _). now apply cppn_wf_length. Qed.

(** A network with a rule gives the whole vector back: the front goes to the network and all of
    the rest to the agent. *)
Theorem C26_plus s p s' : plus_set_params s p = Ok s' ->
  let n := List.length (cppn_get_params (pl_cppn s)) in
  cppn_get_params (pl_cppn s') = firstn n p /\
  agent_get (pl_agent s') = agent_get (agent_set (pl_agent s) (skipn n p)) /\
  (ag_filter (pl_agent s) = false -> agent_get (pl_agent s') = skipn n p /\ plus_get_params s' = p).
Proof.
  intros H. cbv zeta. destruct (plus_set_get s p s' H) as (G & A & F & _). split; [exact G|]. rewrite A. split; [reflexivity|].
  intros E. split; [|now apply F]. now apply agent_set_spec.
Qed.

Theorem C26_plus_accepts s p : if Nat.ltb (List.length p) (List.length (cppn_get_params (pl_cppn s))) then plus_set_params s p = Err ValueError
  else exists s', plus_set_params s p = Ok s'.
Proof. exact (plus_set_accepts s p). Qed.

(** The rule a new CPPNPlus starts with, and the network it starts with; its agent never filters. *)
Theorem C26_plus_new e h d w b ca ps draw s : plus_init e h d w b ca ps draw = Ok s ->
  cppn_init e h d w b = Ok (pl_cppn s) /\ ag_filter (pl_agent s) = false /\
  agent_get (pl_agent s) = match ca, ps with
                           | Some p, _ => p
                           | None, Some p => skipn (cppn_size e h) p
                           | None, None => [15 / 100; 15 / 1000; 15 / 100; 2 / 100]
                           end.
Proof.
  intros H. unfold plus_init in H. apply bind_ok in H as (c & Hc & H). cbv zeta in H. pose proof (C26_cppn_length _ _ _ _ _ _ Hc) as L. rewrite L in H.
  injection H as <-. cbn [pl_cppn pl_agent]. split; [exact Hc|]. destruct ca as [p|]; [split; reflexivity|]. destruct ps as [p|]; [split; reflexivity|].
  split; [reflexivity|]. unfold agent_init, agent_get, agent_default. cbn [ag_params]. do 3 f_equal. f_equal. lra.
Qed.

(** ** C63 Patterns *)

(** A constructed network has the documented sizes, and keeps them whatever vectors it is given;
    its Gaussians are usable from the start. *)
Theorem C63_built e h d w b c : cppn_init e h d w b = Ok c ->
  cppn_wf c h /\ cp_ext c = e /\ cp_dim c = d /\ usable c /\ (2 <= d)%nat.
Proof.
  intros H. destruct (cppn_init_wf e h d w b c H) as (W & E & D & S). split; [exact W|]. split; [exact E|]. split; [exact D|]. split.
  - intros l Hl. destruct (S l Hl) as [_ ->]. unfold eps9. assert (0 < / 1000000000) by (apply Rinv_0_lt_compat; lra). lra.
  - unfold cppn_init in H. apply bind_ok in H as ([g rr] & Hi & _). apply (cppn_input_inv _ _ _ _ Hi).
Qed.

(** Every pixel lies between 0 and 1, and is damped by its distance from the middle: by the square
    of what is missing to 1, and by another millionth from distance 3/4 on. *)
Theorem C63_bounds c h t : cppn_wf c h -> cppn_get_action c = Ok t ->
  shape t = (1%nat, cp_ext c, cp_dim c, cp_dim c) /\
  forall o i j, (o < cp_ext c)%nat -> (i < cp_dim c)%nat -> (j < cp_dim c)%nat ->
    0 <= get t 0 o i j <= 1 /\ get t 0 o i j <= (1 - rho (cp_dim c) i j) ^ 2 /\
    (3 / 4 <= rho (cp_dim c) i j -> get t 0 o i j <= (1 - rho (cp_dim c) i j) ^ 2 / 1000000).
Proof. exact (action_bounds c h t). Qed.

(** What a pixel is: the network applied to the sixteen features of its place, once per channel. *)
Theorem C63_value c h t : cppn_wf c h -> cppn_get_action c = Ok t ->
  forall o i j, (o < cp_ext c)%nat -> (i < cp_dim c)%nat -> (j < cp_dim c)%nat ->
  exists x y : list R, (List.length x = 16 * cp_ext c)%nat /\
    (forall k, (k < 16 * cp_ext c)%nat -> feature (cp_dim c) (k mod 16) i j (nth k x 0)) /\
    feeds (cp_layers c) x y /\
    get t 0 o i j = nth o y 0 * (1 - rho (cp_dim c) i j) ^ 2 * (if Rle_dec (3 / 4) (rho (cp_dim c) i j) then / 1000000 else 1).
Proof. exact (action_value c h t). Qed.

(** One or two channels work; any other number makes the first layer refuse its input. *)
Theorem C63_channels c h : cppn_wf c h -> usable c -> (47 <= cp_dim c)%nat ->
  (cp_ext c = 1%nat \/ cp_ext c = 2%nat ->
     exists t, cppn_get_action c = Ok t /\ shape t = (1%nat, cp_ext c, cp_dim c, cp_dim c)) /\
  (cp_ext c <> 1%nat -> cp_ext c <> 2%nat -> cppn_get_action c = Err RuntimeError).
Proof. exact (action_channels c h). Qed.

(** The input has 16 channels, doubled for every channel after the first. *)
Theorem C63_input d e g rr : cppn_input d e = Ok (g, rr) ->
  shape g = (1%nat, (16 * 2 ^ (e - 1))%nat, d, d) /\ shape rr = (1%nat, (2 ^ (e - 1))%nat, d, d) /\
  (forall c i j, (c < 16 * 2 ^ (e - 1))%nat -> (i < d)%nat -> (j < d)%nat -> feature d (c mod 16) i j (get g 0 c i j)) /\
  (forall c i j, (c < 2 ^ (e - 1))%nat -> (i < d)%nat -> (j < d)%nat -> get rr 0 c i j = rho d i j).
Proof.
  intros H. destruct (cppn_input_inv _ _ _ _ H) as (D & -> & ->). split; [reflexivity|]. split; [reflexivity|]. split.
  - intros c i j Hc Hi Hj. rewrite get_build by lia. apply feature_ok; [exact D| |exact Hi|exact Hj]. apply Nat.mod_upper_bound. lia.
  - intros c i j Hc Hi Hj. rewrite get_build by lia. reflexivity.
Qed.

(** Construction succeeds from 47 pixels on, for any number of channels; with three pixels a
    ripple vanishes everywhere and is divided by its largest value 0; with fewer than two, the
    spacing is already undefined. *)
Theorem C63_construct e h w b :
  (forall d, (47 <= d)%nat -> exists c, cppn_init e h d w b = Ok c) /\
  cppn_init e h 3 w b = Err NonFinite /\
  cppn_init e h 0 w b = Err ZeroDivisionError /\ cppn_init e h 1 w b = Err ZeroDivisionError.
Proof.
  unfold cppn_init. split; [|split; [|split]].
  - intros d Hd. destruct (cppn_input_ok d e Hd) as (g & rr & -> & _). cbn [bind]. eexists. reflexivity.
  - now rewrite cppn_three.
  - reflexivity.
  - reflexivity.
Qed.

(** All features are at most 1. *)
Theorem C63_features d c i j v : (47 <= d)%nat -> (c < 16)%nat -> (i < d)%nat -> (j < d)%nat -> feature d c i j v -> v <= 1.
Proof.
  intros Hd Hc Hi Hj F.
  assert (E : v = nth c (cppn_channels d d) (fun _ _ => 0) i j).
  { pose proof (feature_ok d c i j ltac:(lia) Hc Hi Hj) as G. revert F G. generalize (nth c (cppn_channels d d) (fun _ _ => 0) i j). intros v' F G.
    assert (S : forall f, scaled d f i j v -> scaled d f i j v' -> v = v').
    { intros f (m & [U (a & b & Ha & Hb & A)] & ->) (m' & [U' (a' & b' & Ha' & Hb' & A')] & ->). f_equal.
      apply Rle_antisym; [rewrite <- A; now apply U'|rewrite <- A'; now apply U]. }
    destruct c as [|[|[|[|[|[|[|[|[|[|[|[|[|[|[|[|c]]]]]]]]]]]]]]]]; [cbn [feature] in F, G..|lia]; try congruence; eapply S; eassumption. }
  rewrite E. now apply channel_le.
Qed.

(** CPPNPlus acts as its two parts do. *)
Theorem C63_plus s : ag_filter (pl_agent s) = false ->
  plus_action s = match cppn_get_action (pl_cppn s) with Ok t => Ok (agent_get (pl_agent s), t, s) | Err e => Err e end.
Proof.
  intros E. unfold plus_action. destruct (cppn_get_action (pl_cppn s)); cbn [bind]; [|reflexivity].
  unfold agent_action, agent_get. rewrite E. destruct s as [c [p n f]]. cbn in E |- *. now subst f.
Qed.

(** *** Examples *)

(** A filtering agent. *)
Example agent_filters : agent_get (agent_set (mkAgent [] 3 true) [- (1 / 2); 0; 7]) = [1 / 2; 1 / 10000; 1].
Proof.
  unfold agent_get, agent_set. cbn [ag_filter ag_params map]. unfold clamp. rewrite Rabs_Ropp, Rabs_R0, !Rabs_pos_eq by lra.
  unfold Rmin, Rmax. repeat f_equal; repeat destruct (Rle_dec _ _); lra.
Qed.

(** One channel, two hidden units, 64 pixels: 32+2+2+2*8+2+1+2 parameters; it gives a pattern,
    and a vector one number longer is cut. *)
Example cppn_64 : exists c t, cppn_init 1 2 64 (fun _ _ => 1) (fun _ _ => 0) = Ok c /\ cppn_get_action c = Ok t /\
  List.length (cppn_get_params c) = 57%nat /\ shape t = (1, 1, 64, 64)%nat /\
  exists c', cppn_set_params c (map INR (seq 0 58)) = Ok c' /\ cppn_get_params c' = map INR (seq 0 57).
Proof.
  destruct (proj1 (C63_construct 1 2 (fun _ _ => 1) (fun _ _ => 0)) 64%nat ltac:(lia)) as (c & Hc).
  destruct (C63_built _ _ _ _ _ _ Hc) as (W & E & D & U & _).
  destruct (proj1 (C63_channels c 2 W U ltac:(lia)) (or_introl E)) as (t & Ht & St). exists c, t. split; [exact Hc|]. split; [exact Ht|].
  pose proof (C26_cppn_length _ _ _ _ _ _ Hc) as L. split; [exact L|]. split; [rewrite St, E, D; reflexivity|].
  pose proof (C26_cppn_accepts c (map INR (seq 0 58))) as A. rewrite L, map_length, seq_length in A. destruct A as (c' & Hc'). exists c'. split; [exact Hc'|].
  rewrite (proj1 (C26_cppn _ _ _ Hc')), L, firstn_map. reflexivity.
Qed.

(** Three channels: constructed, but it never acts. *)
Example cppn_three_channels : exists c, cppn_init 3 16 64 (fun _ _ => 1) (fun _ _ => 0) = Ok c /\ cppn_get_action c = Err RuntimeError.
Proof.
  destruct (proj1 (C63_construct 3 16 (fun _ _ => 1) (fun _ _ => 0)) 64%nat ltac:(lia)) as (c & Hc). exists c. split; [exact Hc|].
  destruct (C63_built _ _ _ _ _ _ Hc) as (W & E & D & U & _). apply (C63_channels c 16 W U); lia.
Qed.

(** With a rule: the last two of 59 numbers. *)
Example plus_64 : exists s s', plus_init 1 2 64 (fun _ _ => 1) (fun _ _ => 0) None None (fun _ => 0) = Ok s /\
  plus_set_params s (map INR (seq 0 59)) = Ok s' /\ agent_get (pl_agent s') = [INR 57; INR 58] /\ plus_get_params s' = map INR (seq 0 59).
Proof.
  destruct (proj1 (C63_construct 1 2 (fun _ _ => 1) (fun _ _ => 0)) 64%nat ltac:(lia)) as (c & Hc).
  assert (Hs : exists s, plus_init 1 2 64 (fun _ _ => 1) (fun _ _ => 0) None None (fun _ => 0) = Ok s) by (unfold plus_init; rewrite Hc; cbn [bind]; eexists; reflexivity).
  destruct Hs as (s & Hs). exists s. destruct (C26_plus_new _ _ _ _ _ _ _ _ _ Hs) as (Hp & F & _). pose proof (C26_cppn_length _ _ _ _ _ _ Hp) as L.
  pose proof (C26_plus_accepts s (map INR (seq 0 59))) as A. rewrite L, map_length, seq_length in A. destruct A as (s' & Hs'). exists s'.
  split; [exact Hs|]. split; [exact Hs'|]. destruct (C26_plus _ _ _ Hs') as (_ & _ & G). destruct (G F) as [G1 G2]. split; [|exact G2].
  rewrite G1, L. rewrite skipn_map. reflexivity.
Qed.

Print Assumptions C26_agent.
Print Assumptions C26_agent_stable.
Print Assumptions C26_agent_acts.
Print Assumptions C26_agent_new.
Print Assumptions C26_cppn.
Print Assumptions C26_cppn_accepts.
Print Assumptions C26_cppn_self.
Print Assumptions C26_cppn_length.
Print Assumptions C26_plus.
Print Assumptions C26_plus_accepts.
Print Assumptions C26_plus_new.
Print Assumptions C63_built.
Print Assumptions C63_bounds.
Print Assumptions C63_value.
Print Assumptions C63_channels.
Print Assumptions C63_input.
Print Assumptions C63_construct.
Print Assumptions C63_features.
Print Assumptions C63_plus.
