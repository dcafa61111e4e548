(** Model of yuca/wrappers/halting_wrapper.py (SimpleHaltingWrapper, HaltingWrapper),
    yuca/wrappers/random_wrapper.py and yuca/wrappers/glider_wrapper.py.

    The wrapped automaton is an argument: a state type [St] (parameters, random generator, ...)
    and [ca : St -> tensor -> res (St * tensor)] for [self.ca(grid)]. The predictor network of
    HaltingWrapper is an argument too. Random grids are passed in. *)
From Coq Require Import Reals List Arith ZArith Bool.
From Verif Require Import Base Tensor MCommon.
Import ListNotations.
Open Scope R_scope.

(** ** Reductions *)

(** torch [x.mean()]: nan for an empty tensor (halting_wrapper.py:78, 89, 329). *)
Definition lmean (l : list R) : res R :=
  match l with
  | [] => Err NonFinite
  | _ => Ok (lsum l / INR (length l))
  end.

(** halting_wrapper.py:78, 251. *)
Definition tmean (t : tensor) : res R := lmean (tdata t).

(** torch [x.max()]: raises for an empty tensor (halting_wrapper.py:295). *)
Definition tmax (t : tensor) : res R :=
  match tdata t with
  | [] => Err RuntimeError
  | l => Ok (lmax l)
  end.

(** [1.0 * (x > th)] (halting_wrapper.py:81-82, 259-273, 301-318). *)
Definition gt_ind (th x : R) : R := if Rlt_dec th x then 1 else 0.

(** [grid.mean(dim=(2,3)).mean(dim=-1, keepdim=True)], entry b (halting_wrapper.py:82, 260, 265, 273). *)
Definition sample_mean (t : tensor) (b : nat) : R :=
  rsum (tC t) (fun c =>
    rsum (tH t) (fun i => rsum (tW t) (fun j => get t b c i j)) / INR (tH t * tW t)) / INR (tC t).

(** [grid.max(dim=-1)[0].max(dim=-1)[0].max(dim=-1, keepdim=True)[0]], entry b (halting_wrapper.py:270-271, 302-318). *)
Definition sample_max (t : tensor) (b : nat) : R :=
  lmax (map (fun c => lmax (map (fun i => lmax (map (fun j => get t b c i j) (seq 0 (tW t)))) (seq 0 (tH t))))
            (seq 0 (tC t))).

(** halting_wrapper.py:259-265. *)
Definition mean_targets (th : R) (t : tensor) : res (list R) :=
  let* _ := guard (negb (Nat.eqb (tC t * tH t * tW t) 0)) NonFinite in
  Ok (map (fun b => gt_ind th (sample_mean t b)) (seq 0 (tB t))).

(** halting_wrapper.py:269-271, 301-318. *)
Definition max_targets (th : R) (t : tensor) : res (list R) :=
  let* _ := guard (negb (Nat.eqb (tC t * tH t * tW t) 0)) RuntimeError in
  Ok (map (fun b => gt_ind th (sample_max t b)) (seq 0 (tB t))).

(** torch.cat of two [B,1] tensors along the last dimension, in row-major order (halting_wrapper.py:274, 319). *)
Definition cat_targets (x y : list R) : res (list R) :=
  let* _ := guard (Nat.eqb (length x) (length y)) RuntimeError in
  Ok (flat_map (fun p => [fst p; snd p]) (combine x y)).

(** ** Centred grids *)

(** [grid[:,:, lo:hi, :] *= 0] (halting_wrapper.py:70, 72). *)
Definition zero_rows (lo hi : nat) (t : tensor) : tensor :=
  build (tB t) (tC t) (tH t) (tW t)
    (fun b c i j => if Nat.leb lo i && Nat.ltb i hi then get t b c i j * 0 else get t b c i j).

(** [grid[:,:, :, lo:hi] *= 0] (halting_wrapper.py:71, 73). *)
Definition zero_cols (lo hi : nat) (t : tensor) : tensor :=
  build (tB t) (tC t) (tH t) (tW t)
    (fun b c i j => if Nat.leb lo j && Nat.ltb j hi then get t b c i j * 0 else get t b c i j).

(** First index of the Python slice [-half:] of a sequence of n entries; [-0] is [0] (halting_wrapper.py:72-73). *)
Definition neg_from (half n : nat) : nat := if Nat.eqb half 0 then 0%nat else (n - half)%nat.

(** halting_wrapper.py:69-73 and cmaes.py:330-334. *)
Definition centre (dim : nat) (t : tensor) : tensor :=
  let half := (dim / 4)%nat in
  let t1 := zero_rows 0 half t in
  let t2 := zero_cols 0 half t1 in
  let t3 := zero_rows (neg_from half (tH t2)) (tH t2) t2 in
  zero_cols (neg_from half (tW t3)) (tW t3) t3.

(** ** Rollouts *)
Section Rollouts.
  Variable St : Type.
  Variable ca : St -> tensor -> res (St * tensor).

  (** A run of n steps (halting_wrapper.py:245-247, 284-285). *)
  Fixpoint ca_run (n : nat) (s : St) (g : tensor) : res (St * tensor) :=
    match n with
    | O => Ok (s, g)
    | S m => let* r := ca s g in ca_run m (fst r) (snd r)
    end.

  (** [for kk in range(n): grid = ca(grid); if stop(grid): break] (halting_wrapper.py:75-79, 291-296). *)
  Fixpoint break_loop (stop : tensor -> res bool) (n : nat) (s : St) (g : tensor) : res (St * tensor) :=
    match n with
    | O => Ok (s, g)
    | S m =>
        let* r := ca s g in
        let* b := stop (snd r) in
        if b then Ok r else break_loop stop m (fst r) (snd r)
    end.

  (** halting_wrapper.py:75-79. *)
  Definition mean_stop (g : tensor) : res bool :=
    let* m := tmean g in Ok (if Rle_dec m 0 then true else false).

  (** halting_wrapper.py:293-294. *)
  Definition max_stop (g : tensor) : res bool :=
    let* m := tmax g in Ok (if Req_EM_T m 0 then true else false).

  (** halting_wrapper.py:252-256: [while kk < n and grid.mean() > 0]. *)
  Fixpoint while_loop (n : nat) (s : St) (g : tensor) : res (St * tensor) :=
    match n with
    | O => Ok (s, g)
    | S m =>
        let* x := tmean g in
        if Rlt_dec 0 x then let* r := ca s g in while_loop m (fst r) (snd r) else Ok (s, g)
    end.

  (** ** SimpleHaltingWrapper *)

  (** halting_wrapper.py:26 *)
  Definition alive_target : R := 5001 / 10000.

  (** halting_wrapper.py:60-99 after [self.ca.set_params(action)]: [s] is the automaton with the
      new parameters, [rand] the random grid. The result is the automaton, the final grid, the
      reward and info["active_grid"]. *)
  Definition simple_step (dim ca_steps : nat) (s : St) (rand : tensor) : res (St * tensor * R * R) :=
    let* r := break_loop mean_stop ca_steps s (centre dim rand) in
    let* target := mean_targets 0 (snd r) in
    let* active := lmean target in
    Ok (r, - sqrt ((alive_target - active) ^ 2), active).

  (** ** HaltingWrapper *)

  (** torch.round: to the nearest integer, halves to the even one (halting_wrapper.py:217-227). *)
  Definition round_even (x : R) : Z :=
    let f := Int_part x in
    let d := x - IZR f in
    if Rlt_dec d (1 / 2) then f
    else if Rlt_dec (1 / 2) d then (f + 1)%Z
    else if Z.even f then f else (f + 1)%Z.

  (** halting_wrapper.py:217-227. *)
  Definition get_accuracy (prediction target : list R) : res R :=
    let* _ := guard (Nat.eqb (length prediction) (length target)) RuntimeError in
    let cls x := clamp 0 1 (IZR (round_even x)) in
    lmean (map (fun p => if Req_EM_T (cls (snd p)) (cls (fst p)) then 1 else 0) (combine prediction target)).

  (** [torch.abs(grid - self.ca(grid))] (halting_wrapper.py:256, 298). *)
  Definition dgrid_of (s : St) (g : tensor) : res (St * tensor) :=
    let* r := ca s g in
    let* d := tzip (fun x y => Rabs (x - y)) g (snd r) in
    Ok (fst r, d).

  (** halting_wrapper.py:259-276, the targets while training. *)
  Definition train_targets (mode : nat) (g dg : tensor) : res (list R) :=
    match mode with
    | 0%nat => mean_targets (1 / 10000) g
    | 1%nat => mean_targets (1 / 10000) dg
    | _ =>
        let* t0 := max_targets (1 / 100000) g in
        let* t1 := mean_targets (1 / 10000) dg in
        cat_targets t0 t1
    end.

  (** halting_wrapper.py:297-318, the targets of the evaluation. *)
  Definition eval_targets (mode : nat) (g dg : tensor) : res (list R) :=
    match mode with
    | 0%nat => max_targets (1 / 100000) g
    | 1%nat => max_targets (1 / 100000) dg
    | _ =>
        let* t0 := max_targets (1 / 100000) g in
        let* t1 := max_targets (1 / 100000) dg in
        cat_targets t0 t1
    end.

  (** torch.nn.BCELoss: sizes must agree and predictions lie in [0, 1] (halting_wrapper.py:276, 321). *)
  Definition bce_accepts (pred target : list R) : res unit :=
    let* _ := guard (Nat.eqb (length pred) (length target)) ValueError in
    guard (forallb (fun p => if Rle_dec 0 p then if Rle_dec p 1 then true else false else false) pred) RuntimeError.

  (** The predictor: its weights and optimizer state, [self.forward] in training or evaluation
      mode (MHalt.v), and what the backward pass and the optimizer make of a prediction and its
      targets. *)
  Variable Net : Type.
  Variable net_forward : bool -> Net -> tensor -> res (list R).
  Variable net_learn : Net -> tensor -> list R -> Net.
  Variable ca_reset : St -> St.

  (** halting_wrapper.py:136 *)
  Definition bigbang_steps : nat := 8.
  (** halting_wrapper.py:129 *)
  Definition train_steps : nat := 8.

  (** One pass of the training loop, halting_wrapper.py:233-280. *)
  Definition train_once (mode ca_steps : nat) (st : St * Net) (rand : tensor) : res (St * Net) :=
    let* r := ca_run bigbang_steps (ca_reset (fst st)) rand in
    let* pred := net_forward true (snd st) (snd r) in
    let* r1 := while_loop ca_steps (fst r) (snd r) in
    let* d := dgrid_of (fst r1) (snd r1) in
    let* target := train_targets mode (snd r1) (snd d) in
    let* _ := bce_accepts pred target in
    Ok (fst d, net_learn (snd st) (snd r) target).

  (** halting_wrapper.py:233-278: the training steps. *)
  Fixpoint train_all (mode ca_steps : nat) (n : nat) (rand : nat -> tensor) (st : St * Net) : res (St * Net) :=
    match n with
    | O => Ok st
    | S m => let* st1 := train_once mode ca_steps st (rand O) in
             train_all mode ca_steps m (fun k => rand (S k)) st1
    end.

  (** halting_wrapper.py:282-338: final state, prediction, targets, reward, active_grid. *)
  Definition evaluate (mode ca_steps : nat) (st : St * Net) (rand : tensor)
      : res (St * list R * list R * R * R) :=
    let* r := ca_run bigbang_steps (fst st) rand in
    let* pred := net_forward false (snd st) (snd r) in
    let* r1 := break_loop max_stop ca_steps (fst r) (snd r) in
    let* d := dgrid_of (fst r1) (snd r1) in
    let* target := eval_targets mode (snd r1) (snd d) in
    let* _ := bce_accepts pred target in
    let* a := get_accuracy pred target in
    let* active := lmean target in
    Ok (fst d, pred, target, - a, active).

  (** halting_wrapper.py:229-338 after [self.ca.set_params(action)]. The predictor is created by
      [reset] (171-199), so that without it [self.train()] has no [final_layer]. *)
  Definition halting_step (mode ca_steps : nat) (s : St) (net : option Net) (rand : nat -> tensor)
      : res (St * Net * list R * list R * R * R) :=
    match net with
    | None => Err AttributeError
    | Some w =>
        let* st := train_all mode ca_steps train_steps rand (s, w) in
        let* r := evaluate mode ca_steps st (rand train_steps) in
        let '(s', pred, target, reward, active) := r in
        Ok (s', snd st, pred, target, reward, active)
    end.

  (** ** RandomWrapper *)

  (** random_wrapper.py:24-29: reward and active_grid; the action is not looked at. *)
  Definition random_step (action : list R) (draw : R) : R * R := (draw, -1).

  (** ** GliderWrapper *)

  (** glider_wrapper.py:141-147. np.meshgrid gives yy[i][j] = j and xx[i][j] = i. *)
  Definition y_grid (dim : nat) (radius : R) : res tensor :=
    if Req_EM_T radius 0 then Err NonFinite
    else Ok (build 1 1 dim dim (fun _ _ _ j => INR j / radius)).

  (** glider_wrapper.py:139-147. *)
  Definition x_grid (dim : nat) (radius : R) : res tensor :=
    if Req_EM_T radius 0 then Err NonFinite
    else Ok (build 1 1 dim dim (fun _ _ i _ => INR i / radius)).

  (** glider_wrapper.py:76 *)
  Definition gl_eps : R := 1 / 1000000.

  (** [action[0:1]] of a non-empty batch (glider_wrapper.py:70-137). *)
  Definition first_sample (t : tensor) : tensor :=
    build 1 (tC t) (tH t) (tW t) (fun _ c i j => get t 0 c i j).

  (** A division, finite only for a non-zero divisor (glider_wrapper.py:70-137). *)
  Definition rdiv (x y : R) : res R := if Req_EM_T y 0 then Err NonFinite else Ok (x / y).

  (** The variables of the loop: mean_grid_0, mean_grid, y_displacement_0, old_grid, reward, and
      y_displacement with growth, which are unbound before the first step (glider_wrapper.py:70-137). *)
  Record glider : Type := mkGlider {
    gl_mean0 : R; gl_mean : R; gl_y0 : R; gl_old : tensor; gl_reward : R; gl_last : option (R * R) }.

  (** glider_wrapper.py:95-127 for the grid [a] the automaton returned: the variables after
      the pass and whether the loop stops. *)
  Definition glider_pass (yg : tensor) (span : R) (v : glider) (a : tensor) : res (glider * bool) :=
    let* mean := tmean a in
    let* prod := tzip Rmult yg (first_sample a) in
    let* y1 := rdiv (tsum prod) (gl_eps + tsum a) in
    let* q := rdiv mean (gl_mean0 v + gl_eps) in
    let growth := Rabs (1 - q) in
    let disp :=
      if Req_EM_T (gl_y0 v) 0 then 0
      else let d := y1 - gl_y0 v in
           if Rlt_dec (span - 2) (gl_y0 v) then if Rlt_dec y1 2 then d + span else d else d in
    let* dg := tzip Rminus a (gl_old v) in
    let* dmax := tmax dg in
    let stop := if Req_EM_T mean 0 then true else if Rle_dec dmax (1 / 100000) then true else false in
    Ok (mkGlider mean mean y1 a (gl_reward v + (disp - growth)) (Some (disp, growth)), stop).

  (** glider_wrapper.py:70-137. *)
  Fixpoint glider_loop (yg : tensor) (span : R) (n : nat) (s : St) (a : tensor) (v : glider)
      : res (St * glider) :=
    match n with
    | O => Ok (s, v)
    | S m =>
        let* r := ca s a in
        let* p := glider_pass yg span v (snd r) in
        if snd p then Ok (fst r, fst p) else glider_loop yg span m (fst r) (snd r) (fst p)
    end.

  (** glider_wrapper.py:70-137: the automaton, the reward, info["y_displacment"], info["growth"]
      and info["active_grid"]. *)
  Definition meta_step (dim : nat) (radius : R) (ca_steps : nat) (s : St) (action : tensor)
      : res (St * R * R * R * R) :=
    let* yg := y_grid dim radius in
    let* m0 := tmean action in
    let* span := tmax yg in
    let* r := glider_loop yg span ca_steps (ca_reset s) action (mkGlider m0 m0 0 action 0 None) in
    let v := snd r in
    match gl_last v with
    | None => Err UnboundLocalError
    | Some (disp, growth) => Ok (fst r, gl_reward v, disp, growth, gl_mean v)
    end.
End Rollouts.
