(** Model of yuca/clone.py (clone_from_ca). *)
From Coq Require Import Reals ZArith List String Ascii Bool Arith.
From Verif Require Import Base Tensor MText MWrap MCommon MNca MPredict.
Import ListNotations.
Open Scope R_scope.

(** clone.py:97: the loss that is minimised. *)
Definition clone_loss (target predicted : tensor) : res R :=
  let* d := tzip Rminus target predicted in
  let* q := tzip Rdiv (tmap Rabs d) (tmap (fun x => 1 / 1000000000 + Rabs x) target) in
  tmean q.

(** clone.py:110: the error that is recorded. *)
Definition relative_error (target predicted : tensor) : res R :=
  let* d := tzip Rminus predicted target in
  let* q := tzip Rdiv (tmap Rabs d) (tmap (fun x => Rabs x + 1 / 1000000000) target) in
  tmean q.

(** clone.py:64 and common.py:144-184: the kernels handed over to the network are stored; the layer that
    applies kernels is not built anew. *)
Definition take_kernel (s : nca) (k : kern) : res nca :=
  let* kk := as_kernel k in
  Ok (mkNca (nc_ext s) (nc_int s) (nc_hid s) (nc_pm s) (nc_thr s) (nc_idl s) (nc_nbl s)
        (nc_w1 s) (nc_a1 s) (nc_w2 s) (nc_a2 s) (nc_w3 s) (nc_drop s) kk (nc_kpar s) (nc_cfg s) (nc_radius s) (nc_dt s)).

(** clone.py:140: [int(hidden_channels*1.25)], exact below 2^51, and the maximum. *)
Definition widen (most h : nat) : nat := Nat.min most (5 * h / 4).

(** os.path.splitext(path)[0], the path possibly with slashes: the last component without its
    extension (clone.py:152-154). *)
Fixpoint last_slash (s : string) : option (string * string) :=
  match s with
  | EmptyString => None
  | String a t => match last_slash t with
                  | Some (d, f) => Some (String a d, f)
                  | None => if Ascii.eqb a "/" then Some (String a "", t) else None
                  end
  end.
(** clone.py:152-154. *)
Definition path_stem (s : string) : string :=
  match last_slash s with Some (d, f) => (d ++ stem f)%string | None => stem s end.

(** clone.py:152-154. *)
Definition next_path (path cfg : string) : string :=
  if contains "ca_config" path then str_replace "ca_config" (path_stem cfg) path else path.

(** [a < b] for errors, [None] being inf as a bound and nan (or inf) as a measurement (clone.py:112-126). *)
Definition below (a b : option R) : bool :=
  match a, b with
  | None, _ => false
  | Some _, None => true
  | Some x, Some y => if Rlt_dec x y then true else false
  end.

Section Clone.
  (** [load] is CCA() and restore_config (48-49). The training of the networks is abstract:
      [fresh] gives the initial weights (61-63, in configuration [c], iteration [i], with [h]
      hidden channels), [error c ca i k w] the relative error (110) of the weights [w] in step
      [k] and [learn c ca i k w] the weights after the optimiser's step (103). The universes the
      network is trained on do not depend on the network (82-86). *)
  Variable Auto W : Type.
  Variable load : string -> res Auto.
  Variable fresh : nat -> Auto -> nat -> nat -> W.
  Variable error : nat -> Auto -> nat -> nat -> W -> option R.
  Variable learn : nat -> Auto -> nat -> nat -> W -> W.
  Variable most steps iters : nat.   (* max_hidden_channels, max_steps, max_iterations *)
  Variable threshold : R.

  (** The networks in order of their creation: state_dict() (117) hands out the tensors
      themselves, which the optimiser goes on changing in place, so best_state_dict is the
      number of a network (clone.py:57-141). *)
  Record clone_state : Type := mkCl { cl_nets : list W; cl_best : option R; cl_ref : option nat }.

  (** clone.py:57-141: one network trained further. *)
  Definition set_net (a : nat) (w : W) (l : list W) : list W := (firstn a l ++ w :: skipn (S a) l)%list.

  (** clone.py:80-138: the steps of one iteration; [ib] is iteration_best_error. The optimiser has already
      stepped (103) when the error is compared. Messages (119-122, 128-138) are left out. *)
  Fixpoint clone_steps (n k c : nat) (ca : Auto) (i a : nat) (ib : option R) (s : clone_state) : clone_state :=
    match n with
    | O => s
    | S m =>
        match nth_error (cl_nets s) a with
        | None => s
        | Some w =>
            let e := error c ca i k w in
            let nets := set_net a (learn c ca i k w) (cl_nets s) in
            if below e ib then
              let s1 := if below e (cl_best s) then mkCl nets e (Some a) else mkCl nets (cl_best s) (cl_ref s) in
              if below e (Some threshold) then s1 else clone_steps m (S k) c ca i a e s1
            else clone_steps m (S k) c ca i a ib (mkCl nets (cl_best s) (cl_ref s))
        end
    end.

  (** clone.py:57-141: reaching the threshold ends an iteration, not the loop over iterations. *)
  Fixpoint clone_iters (n i c : nat) (ca : Auto) (h : nat) (s : clone_state) : clone_state :=
    match n with
    | O => s
    | S m =>
        let a := List.length (cl_nets s) in
        let s1 := mkCl (cl_nets s ++ [fresh c ca i h])%list (cl_best s) (cl_ref s) in
        clone_iters m (S i) c ca (widen most h) (clone_steps steps 0 c ca i a None s1)
    end.

  (** What best_state_dict holds now (clone.py:117). *)
  Definition held (s : clone_state) : option W :=
    match cl_ref s with Some a => nth_error (cl_nets s) a | None => None end.

  (** clone.py:144-157: the line about one configuration (name, best error, threshold met, file). *)
  Record verdict : Type := mkVerdict { vd_name : string; vd_best : option R; vd_met : bool; vd_path : string }.

  (** clone.py:45-159: the loop over configurations. best_error starts anew for each (54), but
      best_state_dict (38) and save_path (35) do not. The files are those in the logs directory,
      by path; [Some None] is a saved Python None. *)
  Fixpoint clone_all (cfgs : list string) (c h : nat) (path : string) (s : clone_state)
      (fs : string -> option (option W)) : (string -> option (option W)) * list verdict * res unit :=
    match cfgs with
    | [] => (fs, [], Ok tt)
    | cfg :: t =>
        match load cfg with
        | Err e => (fs, [], Err e)
        | Ok ca =>
            let s1 := clone_iters iters 0 c ca h (mkCl (cl_nets s) None (cl_ref s)) in
            let path1 := next_path path cfg in
            let fs1 := fun q => if String.eqb q path1 then Some (held s1) else fs q in
            let r := clone_all t (S c) h path1 s1 fs1 in
            (fst (fst r), mkVerdict cfg (cl_best s1) (below (cl_best s1) (Some threshold)) path1 :: snd (fst r), snd r)
        end
    end.

  (** clone.py:20-47: [dir] is the logs directory. *)
  Definition clone_from_ca (dir save_name : string) (cfgs : list string) (h : nat) (fs : string -> option (option W)) :=
    clone_all cfgs 0 h (dir ++ "/" ++ save_name)%string (mkCl [] None None) fs.
End Clone.
