(** Model of yuca/analyze.py: shifts, grid entropies and the Phanes statistics. *)
From Coq Require Import Reals List Arith ZArith Bool.
From Verif Require Import Base Tensor MCommon MWrap.
Import ListNotations.
Open Scope R_scope.

(** A two-dimensional numpy array: numbers of rows and columns, and its entries (analyze.py:20-141). *)
Record arr (A : Type) : Type := mkArr { an : nat; am : nat; av : nat -> nat -> A }.
Arguments mkArr {A}. Arguments an {A}. Arguments am {A}. Arguments av {A}.

(** Its entries in row-major order (analyze.py:43-49). *)
Definition cells {A} (g : arr A) : list A :=
  flat_map (fun i => map (av g i) (seq 0 (am g))) (seq 0 (an g)).

(** np.pad(g, p, mode="wrap"): an empty axis cannot be extended (analyze.py:22, 61, 242, 264). *)
Definition pad_wrap {A} (p : nat) (g : arr A) : res (arr A) :=
  if (Nat.eqb (an g) 0 || Nat.eqb (am g) 0)%bool then Err ValueError
  else Ok (mkArr (an g + 2 * p) (am g + 2 * p)
         (fun i j => av g (Z.to_nat ((Z.of_nat i - Z.of_nat p) mod Z.of_nat (an g)))
                          (Z.to_nat ((Z.of_nat j - Z.of_nat p) mod Z.of_nat (am g))))).

(** Bounds of the Python slice [a:b] of a sequence of n entries: first index and length (analyze.py:26, 74, 290-303). *)
Definition slice_norm (n : nat) (x : Z) : nat :=
  if (x <? 0)%Z then Z.to_nat (Z.of_nat n + x) else Nat.min (Z.to_nat x) n.

(** The two-dimensional slice [g[a:b, c:d]] (analyze.py:26, 74). *)
Definition slice2 {A} (a b c d : Z) (g : arr A) : arr A :=
  let i0 := slice_norm (an g) a in
  let j0 := slice_norm (am g) c in
  mkArr (slice_norm (an g) b - i0) (slice_norm (am g) d - j0) (fun i j => av g (i0 + i)%nat (j0 + j)%nat).

(** analyze.py:20-28. *)
Definition np_shift {A} (g : arr A) (s0 s1 : Z) : res (arr A) :=
  let* p := pad_wrap 1 g in
  let dx := Z.of_nat (an g) in
  let dy := Z.of_nat (am g) in
  Ok (slice2 (1 + s0) (1 + dx + s0) (1 + s1) (1 + dy + s1) p).

(** ** Entropy *)

(** analyze.py:37, 93, 212 *)
Definition an_eps : R := 1 / 1000000000.

(** np.log2 (analyze.py:52). *)
Definition log2 (x : R) : R := ln x / ln 2.

(** np.uint8 of a value in [0, 256): the integer part (analyze.py:42). *)
Definition to_uint8 (x : R) : nat := Z.to_nat (Int_part x).

(** A pointwise numpy operation (analyze.py:40-42). *)
Definition amap {A B} (f : A -> B) (g : arr A) : arr B := mkArr (an g) (am g) (fun i j => f (av g i j)).

(** The stretched 8-bit image. [slack] is what is added to the range before dividing:
    0 in analyze.py:40-42 and 105-107, [an_eps] in 215-217. np.min of an empty array raises;
    0/0 gives nan, whose conversion to uint8 is undefined. *)
Definition uint8_image (slack : R) (g : arr R) : res (arr nat) :=
  match cells g with
  | [] => Err ValueError
  | l =>
      let lo := lmin l in
      let range := lmax (map (fun x => x - lo) l) in
      if Req_EM_T (range + slack) 0 then Err NonFinite
      else Ok (amap (fun x => to_uint8 (255 * ((x - lo) / (range + slack)))) g)
  end.

(** [np.sum(image == v)] (analyze.py:46-47). *)
Definition count_of (v : nat) (l : list nat) : R :=
  lsum (map (fun x => if Nat.eqb x v then 1 else 0) l).

(** analyze.py:44-47, 219-222. *)
Definition histogram (img : arr nat) : nat -> R := fun v => count_of v (cells img).

(** analyze.py:30-54 ([slack] 0) and 205-229 ([slack] [an_eps]). *)
Definition grid_entropy (slack : R) (g : arr R) : res R :=
  let* img := uint8_image slack g in
  let p := histogram img in
  let total := rsum 256 p in
  Ok (- rsum 256 (fun v => p v / total * log2 (an_eps + p v / total))).

(** ** Spatial entropy *)

(** analyze.py:56-77: windows cut off at the border. *)
Definition clipped_window (h x n : nat) : Z * Z :=
  (Z.max (Z.of_nat x - Z.of_nat h) 0, Z.min (Z.of_nat x + Z.of_nat h) (Z.of_nat n)).

(** analyze.py:56-77, one entry of the result, for window sizes of at least 1. *)
Definition spatial_clipped (window_size : nat) (g : arr R) (x y : nat) : res R :=
  let h := ((window_size - 1) / 2)%nat in
  let '(x0, x1) := clipped_window h x (an g) in
  let '(y0, y1) := clipped_window h y (am g) in
  grid_entropy 0 (slice2 x0 x1 y0 y1 g).

(** analyze.py:231-276, one entry of the result: windows of the wrapped grid, for window sizes of at least 1. *)
Definition spatial_wrapped (window_size : nat) (g : arr R) (x y : nat) : res R :=
  let h := ((window_size - 1) / 2)%nat in
  let* p := pad_wrap h g in
  grid_entropy an_eps
    (slice2 (Z.of_nat x) (Z.of_nat x + 2 * Z.of_nat h + 1) (Z.of_nat y) (Z.of_nat y + 2 * Z.of_nat h + 1) p).

(** One channel of one sample as an array (analyze.py:264). *)
Definition plane (t : tensor) (b c : nat) : arr R := mkArr (tH t) (tW t) (fun i j => get t b c i j).

(** The loops of analyze.py:258-274: the first exception ends them. *)
Fixpoint collect {A} (l : list (res A)) : res (list A) :=
  match l with
  | [] => Ok []
  | x :: t => let* a := x in let* r := collect t in Ok (a :: r)
  end.

(** analyze.py:254-274: all entries for a batch, in row-major order. *)
Definition spatial_all (window_size : nat) (t : tensor) : res (list R) :=
  collect (flat_map (fun b => flat_map (fun c => flat_map (fun x => map (fun y =>
    spatial_wrapped window_size (plane t b c) x y) (seq 0 (tW t))) (seq 0 (tH t))) (seq 0 (tC t))) (seq 0 (tB t))).

(** ** Conditional entropy *)

(** analyze.py:94-101: an unknown direction leaves [shift] unbound. *)
Definition direction_shift (direction : Z) : res (Z * Z) :=
  match direction with
  | 0%Z => Ok (-1, 0)%Z
  | 1%Z => Ok (0, 1)%Z
  | 2%Z => Ok (1, 0)%Z
  | 3%Z => Ok (0, -1)%Z
  | _ => Err UnboundLocalError
  end.

(** analyze.py:112-116: compares the two indicators with [==]. *)
Definition joint_table (img shifted : arr nat) (ii jj : nat) : R :=
  lsum (map (fun p => if Bool.eqb (Nat.eqb (fst p) ii) (Nat.eqb (snd p) jj) then 1 else 0)
            (combine (cells img) (cells shifted))).

(** analyze.py:119-130. *)
Definition table_entropy (p : nat -> nat -> R) : R :=
  let total := rsum 256 (fun i => rsum 256 (fun j => p i j)) in
  let given i j := p i j / rsum 256 (fun k => p k j) in
  - rsum 256 (fun i => rsum 256 (fun j => p i j / total * log2 (an_eps + given i j))).

(** analyze.py:80-132. *)
Definition conditional_entropy (g : arr R) (direction : Z) : res R :=
  let* s := direction_shift direction in
  let* img := uint8_image 0 g in
  let* sh := np_shift img (fst s) (snd s) in
  Ok (table_entropy (joint_table img sh)).

(** analyze.py:134-141. *)
Fixpoint multi_loop (g : arr R) (ds : list Z) (acc : R) : res R :=
  match ds with
  | [] => Ok acc
  | d :: t => let* h := conditional_entropy g d in multi_loop g t (acc + h / 4)
  end.

(** analyze.py:134-141. *)
Definition multiconditional_entropy (g : arr R) : res R := multi_loop g [0; 1; 2; 3]%Z 0.

(** ** Autocorrelation *)

(** torch [x.std()], unbiased: undefined for fewer than two entries (analyze.py:196-197). *)
Definition lstd (l : list R) : res R :=
  let* m := lmean l in
  if Nat.leb (length l) 1 then Err NonFinite
  else Ok (sqrt (lsum (map (fun x => (x - m) ^ 2) l) / INR (length l - 1))).

(** analyze.py:194 *)
Definition ac_eps : R := 1 / 10000000.

(** analyze.py:196-197. *)
Definition ac_norm (l : list R) : res (list R) :=
  let* m := lmean l in
  let* s := lstd l in
  Ok (map (fun x => (ac_eps + x - m) / (ac_eps + s)) l).

(** The same for two grids taken as lists of cells: the one number that the table below holds for one
    channel (analyze.py:193-203). *)
Definition autocorrelate (g1 g2 : list R) : res R :=
  let* _ := guard (Nat.eqb (length g1) (length g2)) RuntimeError in
  let* a := ac_norm g1 in
  let* b := ac_norm g2 in
  Ok (lsum (map (fun p => fst p * snd p) (combine a b)) / INR (length g1)).

(** [x.transpose(0,1)] (analyze.py:199). *)
Definition swap01 (t : tensor) : tensor := build (tC t) (tB t) (tH t) (tW t) (fun c b i j => get t b c i j).

(** A tensor of the same shape with other entries (analyze.py:196-197). *)
Definition refill (t : tensor) (l : list R) : tensor := mkT (tB t) (tC t) (tH t) (tW t) l.

(** analyze.py:193-203: the samples are the input channels of the convolution, so it gives one number
    for each pair of channels; only [F.conv2d] raises. *)
Definition auto_table (g1 g2 : tensor) : res tensor :=
  let* _ := guard (Nat.eqb (tB g1) (tB g2) && Nat.leb (tH g2) (tH g1) && Nat.leb (tW g2) (tW g1))%bool RuntimeError in
  let* a := ac_norm (tdata g1) in
  let* b := ac_norm (tdata g2) in
  let* c := conv2d (swap01 (refill g2 b)) 1 (swap01 (refill g1 a)) in
  Ok (tmap (fun x => x / INR (tB g1 * tC g1 * tH g1 * tW g1)) c).

(** np.std, biased (analyze.py:342, 355). *)
Definition pstd (l : list R) : res R :=
  let* m := lmean l in
  Ok (sqrt (lsum (map (fun x => (x - m) ^ 2) l) / INR (length l))).

(** np.mean, np.std, np.min and np.max (analyze.py:342-343). *)
Record stats : Type := mkStats { st_mean : R; st_std : R; st_min : R; st_max : R }.

(** analyze.py:342-343; np.min of nothing raises. *)
Definition stats_of (l : list R) : res stats :=
  match l with
  | [] => Err ValueError
  | _ => let* m := lmean l in let* s := pstd l in Ok (mkStats m s (lmin l) (lmax l))
  end.

(** ** Phanes.analyze_universe *)

(** Python's [-b//2], which is [(-b)//2] (analyze.py:302-303). *)
Definition neg_half (b : nat) : Z := ((- Z.of_nat b) / 2)%Z.

(** analyze.py:296-310, the starting grid from a random box: assigns the [batch, 1, b_dim, b_dim]
    values to the slice; sizes must agree or be one. *)
Definition start_random (B dim : nat) (rand : nat -> nat -> nat -> R) : res tensor :=
  let b := (dim / 2)%nat in
  let lo := slice_norm dim (Z.of_nat (b / 2)) in
  let len := (slice_norm dim (neg_half b) - lo)%nat in
  let* _ := guard (Nat.eqb b len || Nat.eqb b 1)%bool RuntimeError in
  Ok (build B 1 dim dim (fun k _ i j =>
        if (Nat.leb lo i && Nat.ltb i (lo + len) && Nat.leb lo j && Nat.ltb j (lo + len))%bool
        then rand k (bidx b (i - lo)) (bidx b (j - lo)) else 0)).

(** analyze.py:299-306, the starting grid from patterns, whose border is cleared. *)
Definition start_pattern (dim : nat) (t : tensor) : tensor :=
  let b := (dim / 2)%nat in
  let h := (b / 2)%nat in
  let m := slice_norm dim (neg_half b) in
  zero_cols m dim (zero_rows m dim (zero_cols 0 h (zero_rows 0 h t))).

(** analyze.py:313-317 *)
Definition on_border (dim i : nat) : bool := (Nat.eqb i 0 || Nat.eqb i (dim - 1))%bool.

(** analyze.py:313-317. *)
Definition escape_mask (t : tensor) : tensor :=
  build (tB t) (tC t) (tH t) (tW t) (fun _ _ i j => if (on_border (tH t) i || on_border (tW t) j)%bool then 1 else 0).

(** analyze.py:336-337, entry b before the comparison. *)
Definition border_sum (t : tensor) (b : nat) : R :=
  rsum (tC t) (fun c => rsum (tH t) (fun i => rsum (tW t) (fun j => get (escape_mask t) b c i j * get t b c i j))).

(** analyze.py:345: [last_step[(last_step * (active == 0)) == -1] = step]. *)
Definition update_last (step : Z) (last : list Z) (active : list R) : list Z :=
  map (fun p => if Z.eqb (fst p * (if Req_EM_T (snd p) 0 then 1 else 0)) (-1) then step else fst p)
      (combine last active).

(** What one step contributes: mortality, fertility, the four numbers about the autocorrelation, and
    mean and deviation of the entropy (analyze.py:331-355). *)
Record measure : Type := mkMeasure { me_mort : R; me_fert : R; me_auto : stats; me_entropy : R; me_spread : R }.

Section Universe.
  Variable St : Type.
  Variable ca : St -> tensor -> res (St * tensor).
  Variable window : nat.

  (** analyze.py:331-357, with the grid the automaton returned. *)
  Definition measure_of (grid old : tensor) : res (list R * measure) :=
    let* active := mean_targets 0 grid in
    let fertile := map (fun b => gt_ind 0 (border_sum grid b)) (seq 0 (tB grid)) in
    let* table := auto_table grid old in
    let* auto := stats_of (tdata table) in
    let* am_ := lmean active in
    let* fm := lmean fertile in
    let* ent := spatial_all window grid in
    let* em := lmean ent in
    let* es := pstd ent in
    Ok (active, mkMeasure (1 - am_) fm auto em es).

  (** analyze.py:329-361: the measures in order and the last steps. *)
  Fixpoint universe_loop (n : nat) (step : Z) (s : St) (grid : tensor) (last : list Z)
      : res (list measure * list Z) :=
    match n with
    | O => Ok ([], last)
    | S k =>
        let* r := ca s grid in
        let* m := measure_of (snd r) grid in
        let last' := update_last step last (fst m) in
        let* mean := tmean (snd r) in
        if Req_EM_T mean 0 then Ok ([snd m], last')
        else let* rest := universe_loop k (step + 1) (fst r) (snd r) last' in
             Ok (snd m :: fst rest, snd rest)
    end.

  (** analyze.py:278-374 from the starting grid on. *)
  Definition analyze_from (ca_steps : nat) (s : St) (grid : tensor) : res (list measure * list Z) :=
    universe_loop ca_steps 0 s grid (repeat (-1)%Z (tB grid)).
End Universe.
