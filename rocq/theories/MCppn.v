(** Model of yuca/cppn.py (CPPN, CPPNPlus) and yuca/params_agent.py (ParamsAgent). *)
From Coq Require Import Reals List Arith Bool.
From Verif Require Import Base Tensor MActivations MCommon MUtils.
Import ListNotations.
Open Scope R_scope.

(** ** ParamsAgent *)

(** params_agent.py:13-35. *)
Record agent : Type := mkAgent { ag_params : list R; ag_num : nat; ag_filter : bool }.

(** params_agent.py:19-32, the value of the default. *)
Definition agent_default : list R := [15 / 100; 15 / 1000; 15 / 100; 20 / 1000].

(** params_agent.py:13-35. [ca_params], [num_params] and [params] are the keyword arguments,
    tried in this order; [draw] is np.random.rand. *)
Definition agent_init (ca_params : option (list R)) (num_params : option nat) (params : option (list R))
    (filter_params : bool) (draw : nat -> R) : agent :=
  match ca_params with
  | Some p => mkAgent p (List.length p) filter_params
  | None =>
      match num_params with
      | Some n => mkAgent (map draw (seq 0 n)) n filter_params
      | None => let p := match params with Some p => p | None => agent_default end in
                mkAgent p (List.length p) filter_params
      end
  end.

(** params_agent.py:37-44: the filter takes absolute values, and keeps them. *)
Definition agent_action (a : agent) : list R * agent :=
  let p := if ag_filter a then map Rabs (ag_params a) else ag_params a in
  (p, mkAgent p (ag_num a) (ag_filter a)).

(** params_agent.py:46-48. *)
Definition agent_get (a : agent) : list R := ag_params a.

(** params_agent.py:50-61. np.clip(x, lo, hi) is minimum(maximum(x, lo), hi). *)
Definition agent_set (a : agent) (p : list R) : agent :=
  mkAgent (if ag_filter a then map (fun x => clamp (1 / 10000) 1 (Rabs x)) p else p) (ag_num a) (ag_filter a).

(** ** CPPN *)

(** nn.Linear: weights row by row, and biases (cppn.py:40-48). *)
Record lin : Type := mkLin { li_in : nat; li_out : nat; li_w : list R; li_b : list R }.

(** cppn.py:40-48, 147-149. *)
Definition lin_apply (l : lin) (x : list R) : list R :=
  map (fun o => rsum (li_in l) (fun i => nth (o * li_in l + i) (li_w l) 0 * nth i x 0) + nth o (li_b l) 0) (seq 0 (li_out l)).

(** A layer with the mean and width of the Gaussian that follows it (cppn.py:40-48). *)
Record clayer : Type := mkCL { cl_lin : lin; cl_mu : R; cl_sigma : R }.

(** cppn.py:23-48. *)
Record cppn : Type := mkCppn { cp_ext : nat; cp_dim : nat; cp_layers : list clayer }.

(** cppn.py:40-48: four layers. [w] and [b] are torch's random weights and biases; the
    Gaussians have mean 0 and width 0.1. *)
Definition cppn_dims (e h : nat) : list (nat * nat) := [(16 * e, h); (h, h); (h, h); (h, e)]%nat.

(** cppn.py:40-48. *)
Definition new_layer (io : nat * nat) (w b : list R) : clayer := mkCL (mkLin (fst io) (snd io) w b) 0 (1 / 10).

(** cppn.py:40-48. *)
Definition init_model (e h : nat) (w b : nat -> nat -> R) : list clayer :=
  map (fun k => let io := nth k (cppn_dims e h) (0, 0)%nat in
                new_layer io (map (w k) (seq 0 (snd io * fst io))) (map (b k) (seq 0 (snd io))))
      (seq 0 4).

(** cppn.py:53-56: the coordinate axis. *)
Definition cppn_axis_len (d : nat) : nat := arange_len (-1) (1 + 2 / INR d) (2 / (INR d - 1)).
(** cppn.py:51-145, a coordinate. *)
Definition cppn_x (d k : nat) : R := -1 + INR k * (2 / (INR d - 1)).
(** cppn.py:51-145, the radius. *)
Definition cppn_r (d i j : nat) : R := sqrt (cppn_x d j ^ 2 + cppn_x d i ^ 2).

(** Largest value on an n by n grid (cppn.py:51-145). *)
Definition lmax (l : list R) : R := match l with [] => 0 | x :: t => fold_left Rmax t x end.
(** cppn.py:51-145, over the grid. *)
Definition gmax (n : nat) (f : nat -> nat -> R) : R :=
  lmax (flat_map (fun i => map (fun j => f i j) (seq 0 n)) (seq 0 n)).

(** cppn.py:51-145. *)
Definition eps6 : R := 1 / 1000000.

(** cppn.py:61-63. *)
Definition sinr (d : nat) (k : R) (i j : nat) : R := sin (cppn_r d i j * PI * k) / (cppn_r d i j + eps6).

(** cppn.py:112-134: the sixteen input channels on an n by n grid. *)
Definition cppn_channels (d n : nat) : list (nat -> nat -> R) :=
  let x (i j : nat) := cppn_x d j in
  let y (i j : nat) := cppn_x d i in
  let norm (f : nat -> nat -> R) := fun i j => f i j / gmax n f in
  [ x;
    (fun i j => 1 - cppn_r d i j);
    (fun i j => Rabs (x i j));
    (fun i j => Rabs (y i j));
    norm (fun i j => Rpower 2 (x i j));
    norm (fun i j => x i j ^ 2);
    norm (fun i j => x i j ^ 3);
    (fun i j => cos (PI * y i j));
    (fun i j => sin (PI * x i j));
    (fun i j => cos (PI * 2 * y i j));
    (fun i j => sin (PI * 2 * x i j));
    (fun i j => cos (PI * 4 * y i j));
    (fun i j => sin (PI * 4 * x i j));
    norm (sinr d 4);
    norm (sinr d 8);
    norm (sinr d 16) ].

(** cppn.py:51-145: the input and the radii; both double for every channel after the first.
    A vanishing maximum gives infinities and NaN. *)
Definition cppn_input (d e : nat) : res (tensor * tensor) :=
  let* _ := guard (negb (Nat.eqb d 0) && negb (Nat.eqb d 1)) ZeroDivisionError in
  let n := cppn_axis_len d in
  let* _ := guard (nonzero (gmax n (sinr d 16)) && nonzero (gmax n (sinr d 8)) && nonzero (gmax n (sinr d 4))) NonFinite in
  let k := (2 ^ (e - 1))%nat in
  Ok (build 1 (16 * k) n n (fun _ c i j => nth (c mod 16) (cppn_channels d n) (fun _ _ => 0) i j),
      build 1 k n n (fun _ _ i j => cppn_r d i j)).

(** cppn.py:147-149 at one pixel. *)
Definition layer_apply1 (x : list R) (l : clayer) : list R := map (gauss (cl_mu l) (cl_sigma l)) (lin_apply (cl_lin l) x).
(** cppn.py:147-149. *)
Definition net (ls : list clayer) (x : list R) : list R := fold_left layer_apply1 ls x.

(** The sizes fit along the chain of layers (cppn.py:40-48). *)
Fixpoint net_fits (ls : list clayer) (n : nat) : bool :=
  match ls with
  | [] => true
  | l :: t => Nat.eqb n (li_in (cl_lin l)) && net_fits t (li_out (cl_lin l))
  end.

(** cppn.py:151-163 for an input [g] with as many rows and columns as the radii [rr]. *)
Definition cppn_action (c : cppn) (g rr : tensor) : res tensor :=
  let* _ := guard (net_fits (cp_layers c) (tC g)) RuntimeError in
  let* _ := guard (forallb (fun l => nonzero (eps9 + cl_sigma l)) (cp_layers c)) NonFinite in
  let p := build (tB g) (cp_ext c) (tH g) (tW g)
             (fun b o i j => nth o (net (cp_layers c) (map (fun ch => get g b ch i j) (seq 0 (tC g)))) 0) in
  let* q := tzip (fun v r => v * (1 - r) ^ 2) p rr in
  let* s := tzip (fun v r => if Rle_dec (3 / 4) r then v * (1 / 1000000) else v) q rr in
  Ok (tmap (Rmax 0) s).

(** cppn.py:151-163. *)
Definition cppn_get_action (c : cppn) : res tensor :=
  let* i := cppn_input (cp_dim c) (cp_ext c) in cppn_action c (fst i) (snd i).

(** cppn.py:165-172. *)
Definition layer_params (l : clayer) : list R := (li_w (cl_lin l) ++ li_b (cl_lin l) ++ [cl_mu l; cl_sigma l])%list.
(** cppn.py:165-172. *)
Definition cppn_get_params (c : cppn) : list R := flat_map layer_params (cp_layers c).

(** cppn.py:174-190: the layers with their new values and the rest of the vector. *)
Fixpoint layers_set (ls : list clayer) (p : list R) : res (list clayer * list R) :=
  match ls with
  | [] => Ok ([], p)
  | l :: t =>
      let* w := take_exact (List.length (li_w (cl_lin l))) p in
      let* b := take_exact (List.length (li_b (cl_lin l))) (snd w) in
      let* m := take_exact 1 (snd b) in
      let* s := take_exact 1 (snd m) in
      let* r := layers_set t (snd s) in
      Ok (mkCL (mkLin (li_in (cl_lin l)) (li_out (cl_lin l)) (fst w) (fst b)) (nth 0 (fst m) 0) (nth 0 (fst s) 0) :: fst r, snd r)
  end.

(** cppn.py:174-190. *)
Definition cppn_set_params (c : cppn) (p : list R) : res cppn :=
  let* r := layers_set (cp_layers c) p in Ok (mkCppn (cp_ext c) (cp_dim c) (fst r)).

(** cppn.py:23-38. The constructor fails where the input does. The keyword [params] is not
    used. *)
Definition cppn_init (e h d : nat) (w b : nat -> nat -> R) : res cppn :=
  let* _ := cppn_input d e in Ok (mkCppn e d (init_model e h w b)).

(** ** CPPNPlus *)

(** cppn.py:209-221. *)
Record cppnplus : Type := mkPlus { pl_cppn : cppn; pl_agent : agent }.

(** cppn.py:208-221. *)
Definition plus_init (e h d : nat) (w b : nat -> nat -> R) (ca_params params : option (list R)) (draw : nat -> R) : res cppnplus :=
  let* c := cppn_init e h d w b in
  let n := List.length (cppn_get_params c) in
  Ok (mkPlus c (match ca_params with
                | Some p => agent_init None None (Some p) false draw
                | None => match params with
                          | Some p => agent_init None None (Some (skipn n p)) false draw
                          | None => agent_init None None None false draw
                          end
                end)).

(** cppn.py:223-236: the pattern and the rule; the agent keeps what its filter did. *)
Definition plus_action (s : cppnplus) : res (list R * tensor * cppnplus) :=
  let a := agent_action (pl_agent s) in
  let* t := cppn_get_action (pl_cppn s) in
  Ok (fst a, t, mkPlus (pl_cppn s) (snd a)).

(** cppn.py:238-244. *)
Definition plus_get_params (s : cppnplus) : list R := (cppn_get_params (pl_cppn s) ++ agent_get (pl_agent s))%list.

(** cppn.py:246-264. *)
Definition plus_set_params (s : cppnplus) (p : list R) : res cppnplus :=
  let* r := layers_set (cp_layers (pl_cppn s)) p in
  Ok (mkPlus (mkCppn (cp_ext (pl_cppn s)) (cp_dim (pl_cppn s)) (fst r)) (agent_set (pl_agent s) (snd r))).
