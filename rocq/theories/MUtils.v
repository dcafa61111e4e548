(** Model of the helper functions of yuca/utils.py: masks, prep_input, frame sequences. *)
From Coq Require Import Reals List Arith Bool String Ascii ZArith NArith SpecFloat.
From Verif Require Import Base Tensor MText MLibrarian.
Import ListNotations.
Open Scope R_scope.

(** ** Masks *)

(** np.arange's length in exact arithmetic: ceil((stop - start) / step), at least 0 (utils.py:36-64). *)
Definition ceil (x : R) : Z := (- Int_part (- x))%Z.
(** utils.py:36-64. *)
Definition arange_len (start stop step : R) : nat := Z.to_nat (ceil ((stop - start) / step)).

(** The same quotient in double precision: integers are converted, divisions round to
    nearest even, numpy takes the ceiling of the result (utils.py:36-64). *)
Definition double_of (z : Z) : spec_float := binary_normalize 53 1024 z 0 false.
(** utils.py:36-64. *)
Definition ceil_double (x : spec_float) : Z :=
  match x with
  | S754_finite s m e =>
      let v := cond_Zopp s (Zpos m) in
      if Z.leb 0 e then (v * 2 ^ e)%Z else (- ((- v) / 2 ^ (- e)))%Z
  | _ => 0%Z
  end.
(** utils.py:36-64. *)
Definition axis_len_double (r : nat) : nat :=
  let n := double_of (2 * Z.of_nat r + 1) in
  Z.to_nat (ceil_double (SFdiv 53 1024 n (SFdiv 53 1024 n (double_of (2 * Z.of_nat r))))).

(** utils.py:44-45: the axis, its spacing and number of points in exact arithmetic. *)
Definition axis_step (r : nat) : R := (2 * INR r + 1) / (2 * INR r).
(** utils.py:36-64. *)
Definition axis_len (r : nat) : nat := arange_len (- INR r) (INR r + 1) (axis_step r).
(** utils.py:36-64. *)
Definition axis_point (r k : nat) : R := - INR r + INR k * axis_step r.

(** utils.py:28-34 at one cell. *)
Definition mask_at (x radius : R) : R := if Rlt_dec x radius then 1 * 0 else 1.

(** utils.py:36-55; [len] is the number of points np.arange gives for a radius. *)
Definition get_bite_mask (len : nat -> nat) (img : tensor) (bite_radius : R) (coords : R * R) : res tensor :=
  let r := (tH img / 2)%nat in
  let* _ := guard (negb (Nat.eqb r 0)) ZeroDivisionError in
  let n := len r in
  let mask i j := mask_at (sqrt ((axis_point r j - fst coords) * (axis_point r j - fst coords) +
                                 (axis_point r i - snd coords) * (axis_point r i - snd coords)) / INR r) bite_radius in
  let* _ := guard (Nat.eqb (tC img) 0 || ((Nat.eqb n (tH img) || Nat.eqb n 1) && (Nat.eqb n (tW img) || Nat.eqb n 1))) ValueError in
  Ok (build 1 (tC img) (tH img) (tW img) (fun _ _ i j => mask (bidx n i) (bidx n j))).

(** utils.py:57-64. *)
Definition get_aperture (len : nat -> nat) (img : tensor) (aperture_radius : R) : res tensor :=
  if Rlt_dec aperture_radius (975 / 1000)
  then let* m := get_bite_mask len img aperture_radius (0, 0) in Ok (tmap (fun x => 1 - x) m)
  else Ok (build (tB img) (tC img) (tH img) (tW img) (fun _ _ _ _ => 1)).

(** utils.py:76-82: what one pass of the loop writes. [coords] and [noise] are the random
    draws from [0, 1). *)
Definition prep_one (len : nat -> nat) (img : tensor) (aperture_radius bite_radius noise_level : R)
    (coords : R * R) (noise : tensor) : res tensor :=
  let r := INR (tH img / 2) in
  let* bite := get_bite_mask len img bite_radius (fst coords * r, snd coords * r) in
  let* aperture := get_aperture len img aperture_radius in
  let* a := tzip Rmult img aperture in
  let* b := tzip Rmult a bite in
  tzip Rplus b (tmap (Rmult noise_level) noise).

(** utils.py:66-85. Assigning to [batch[ii:ii+1, :C]] needs one image and as many channels as
    the slice has (or a single one). *)
Definition write_batch (batch : tensor) (ii C : nat) (x : tensor) : res tensor :=
  let* _ := guard (Nat.eqb (tB x) 1) RuntimeError in
  let* _ := guard (Nat.eqb (tC x) (Nat.min C (tC batch)) || Nat.eqb (tC x) 1) RuntimeError in
  Ok (build (tB batch) (tC batch) (tH batch) (tW batch) (fun b c i j =>
        if Nat.eqb b ii && Nat.ltb c C then bget x 0 c i j else get batch b c i j)).

(** utils.py:66-85. *)
Fixpoint prep_loop (len : nat -> nat) (img : tensor) (aperture_radius bite_radius noise_level : R)
    (coords : nat -> R * R) (noise : nat -> tensor) (n ii : nat) (batch : tensor) : res tensor :=
  match n with
  | O => Ok batch
  | S m =>
      let* x := prep_one len img aperture_radius bite_radius noise_level (coords ii) (noise ii) in
      let* batch' := write_batch batch ii (tC img) x in
      prep_loop len img aperture_radius bite_radius noise_level coords noise m (S ii) batch'
  end.

(** utils.py:66-85. *)
Definition prep_input (len : nat -> nat) (img : tensor) (external_channels : option nat) (batch_size : nat)
    (aperture_radius bite_radius noise_level : R) (coords : nat -> R * R) (noise : nat -> tensor) : res tensor :=
  let ext := match external_channels with None => tB img | Some e => e end in
  prep_loop len img aperture_radius bite_radius noise_level coords noise batch_size 0
    (build batch_size ext (tH img) (tW img) (fun _ _ _ _ => 0)).

(** ** Frame sequences *)

(** utils.py:205, 222-225. *)
Definition frame_name (num_steps : nat) (step : nat) : string :=
  ("frame_" ++ pad (if Nat.leb (num_steps / 10 + 1) 5 then 5 else 10) (N.of_nat step) ++ ".png")%string.

(** utils.py:147-178 make_gif: the pictures of the animation. Pillow writes the first picture
    and then all the appended ones. *)
Definition open_image {I} (d : dir I) (f : string) : res I :=
  match dget d f with
  | Some (CArray a) => Ok a
  | Some (CText _) => Err OSError
  | None => Err FileNotFoundError
  end.

(** utils.py:147-182. *)
Fixpoint open_all {I} (d : dir I) (fs : list string) : res (list I) :=
  match fs with
  | [] => Ok []
  | f :: t => if contains "png" f
              then let* a := open_image d f in let* l := open_all d t in Ok (a :: l)
              else open_all d t
  end.

(** utils.py:147-182. *)
Definition make_gif {I} (d : dir I) : res (list I) :=
  let* frames := open_all d (sort (map fst d)) in
  match frames with
  | [] => Err IndexError
  | first :: _ => Ok (first :: frames)
  end.

(** utils.py:217-250, the loop, mode 0: the directory of frames and the loop variable.
    [dead] is grid.max() < 0.001, [render] the conversion to a picture. *)
Fixpoint frames_loop {G I} (frame : G -> res G) (dead : G -> bool) (render : G -> I) (num_steps speedup : nat)
    (k step : nat) (last : option nat) (grid : G) (d : dir I) : res (dir I * option nat) :=
  match k with
  | O => Ok (d, last)
  | S m =>
      if dead grid then Ok (d, Some step)
      else let d' := dput d (frame_name num_steps step) (CArray (render grid)) in
           let* grid' := iter_res frame speedup grid in
           frames_loop frame dead render num_steps speedup m (S step) (Some step) grid' d'
  end.

(** utils.py:184-258: the pictures of the animation, if one is made. The frame directory is
    removed afterwards. *)
Definition save_fig_sequence {G I} (frame : G -> res G) (dead : G -> bool) (render : G -> I) (num_steps speedup : nat)
    (grid : G) (d : dir I) : res (option (list I)) :=
  let* r := frames_loop frame dead render num_steps speedup num_steps 0 None grid d in
  match snd r with
  | None => Err UnboundLocalError
  | Some step => if Nat.ltb 0 step then let* g := make_gif (fst r) in Ok (Some g) else Ok None
  end.
