(** Model of the predictor of yuca/wrappers/halting_wrapper.py: HaltingWrapper.init_model, forward. *)
From Coq Require Import Reals NArith List String Bool Arith.
From Verif Require Import Base Tensor MActivations MNca MText MWrap MPredict.
Import ListNotations.
Open Scope R_scope.

(** halting_wrapper.py:176-187: the convolutions of one nn.Sequential, each followed by nn.Dropout and nn.ReLU. *)
Record hblock : Type := mkHB { hb_0 : blayer; hb_1 : blayer; hb_2 : blayer }.

(** self.layers, self.final_layer and self.dropout (halting_wrapper.py:172-203). *)
Record hnet : Type := mkHN { hn_blocks : list hblock; hn_final : blayer; hn_drop : R }.

(** F.avg_pool2d(x, kernel_size=2): an odd last row or column is left out; an empty result is
    refused (halting_wrapper.py:160-161). *)
Definition avg_pool2 (t : tensor) : res tensor :=
  let* _ := guard (Nat.ltb 0 (tH t / 2) && Nat.ltb 0 (tW t / 2)) RuntimeError in
  Ok (build (tB t) (tC t) (tH t / 2) (tW t / 2) (fun b c i j =>
        (get t b c (2 * i) (2 * j) + get t b c (2 * i) (2 * j + 1)
         + get t b c (2 * i + 1) (2 * j) + get t b c (2 * i + 1) (2 * j + 1)) / 4)).

(** nn.Conv2d, nn.Dropout, nn.ReLU (halting_wrapper.py:176-187). *)
Definition halt_stage (training : bool) (keep : nat -> nat -> nat -> nat -> bool) (p : R) (l : blayer) (x : tensor) : res tensor :=
  let* y := bconv_apply l x in
  Ok (tmap (act_fn AReLU) (dropout training keep p y)).

(** halting_wrapper.py:160-161: one block and the pooling after it; [hh] numbers the blocks and [3 * hh] their
    dropout layers. *)
Definition halt_block (training : bool) (keep : nat -> nat -> nat -> nat -> nat -> bool) (p : R) (hh : nat) (b : hblock)
    (x : tensor) : res tensor :=
  let* x0 := halt_stage training (keep (3 * hh)%nat) p (hb_0 b) x in
  let* x1 := halt_stage training (keep (3 * hh + 1)%nat) p (hb_1 b) x0 in
  let* x2 := halt_stage training (keep (3 * hh + 2)%nat) p (hb_2 b) x1 in
  avg_pool2 x2.

(** halting_wrapper.py:158-161: all blocks. *)
Fixpoint halt_blocks (training : bool) (keep : nat -> nat -> nat -> nat -> nat -> bool) (p : R) (hh : nat) (bs : list hblock)
    (x : tensor) : res tensor :=
  match bs with
  | [] => Ok x
  | b :: t => let* y := halt_block training keep p hh b x in halt_blocks training keep p (S hh) t y
  end.

(** torch.mean(x, dim=(2,3)) in row-major order (halting_wrapper.py:165). *)
Definition plane_means (t : tensor) : list R :=
  flat_map (fun b => map (fun c => rsum (tH t) (fun i => rsum (tW t) (fun j => get t b c i j)) / INR (tH t * tW t))
                         (seq 0 (tC t))) (seq 0 (tB t)).

(** halting_wrapper.py:156-167 forward. A convolution never returns an empty plane, so that the mean exists. *)
Definition halt_forward (training : bool) (keep : nat -> nat -> nat -> nat -> nat -> bool) (net : hnet) (x : tensor)
    : res (list R) :=
  let* y := halt_blocks training keep (hn_drop net) 0 (hn_blocks net) x in
  let* z := bconv_apply (hn_final net) y in
  Ok (plane_means (tmap (act_fn ASigmoid) z)).

(** halting_wrapper.py:191-198: the outputs of the final layer. *)
Definition halt_outputs (mode : nat) : nat := if Nat.eqb mode 2 then 2 else 1.

(** halting_wrapper.py:175-187: the blocks from [ii] on, [m] of them; the draws are numbered in order of creation. *)
Fixpoint new_blocks (d : draws) (ext : nat) (m ii : nat) : list hblock :=
  match m with
  | O => []
  | S m' => mkHB (new_layer d (3 * ii) 32 ext 3 1) (new_layer d (3 * ii + 1) 32 32 3 1) (new_layer d (3 * ii + 2) ext 32 3 1)
            :: new_blocks d ext m' (S ii)
  end.

(** halting_wrapper.py:171-201 init_model: nn.Dropout refuses what is no probability. *)
Definition init_halting (d : draws) (ext blocks mode : nat) (p : R) : res hnet :=
  let* _ := guard (Nat.eqb blocks 0 || (if Rle_dec 0 p then true else false) && (if Rle_dec p 1 then true else false)) ValueError in
  Ok (mkHN (new_blocks d ext blocks 0) (new_layer d (3 * blocks) (halt_outputs mode) ext 3 1) p).

(** halting_wrapper.py:188-190: the convolutions are the items 0, 3 and 6 of the nn.Sequential; their parameters
    "0.weight", "0.bias", ... are registered without the dot and with the number of the block. *)
Definition halt_parts : list string := ["0.weight"; "0.bias"; "3.weight"; "3.bias"; "6.weight"; "6.bias"]%string.
(** halting_wrapper.py:188-190. *)
Definition halt_name (part : string) (ii : nat) : string :=
  (str_replace "." "" part ++ "_layer" ++ dec (N.of_nat ii))%string.
(** halting_wrapper.py:188-190. *)
Definition halt_names (m : nat) : list string := flat_map (fun ii => map (fun q => halt_name q ii) halt_parts) (seq 0 m).

(** The predictor with the number of training steps so far as an argument of [halting_step]
    (MWrap.v): every training step has its own dropout masks, and [update] is what the backward
    pass and the optimizer (277-278) make of the weights (halting_wrapper.py:156-167). *)
Definition halt_net_forward (masks : nat -> nat -> nat -> nat -> nat -> nat -> bool) (training : bool) (net : nat * hnet)
    (x : tensor) : res (list R) :=
  halt_forward training (masks (fst net)) (snd net) x.

(** halting_wrapper.py:276-278. *)
Definition halt_net_learn (update : nat -> hnet -> tensor -> list R -> hnet) (net : nat * hnet) (x : tensor) (target : list R)
    : nat * hnet :=
  (S (fst net), update (fst net) (snd net) x target).
