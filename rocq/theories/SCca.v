(** Specification vocabulary for automata: what a well-formed automaton is, and the
    plain-words notions used in the statements about its steps. *)
From Coq Require Import Reals ZArith List Arith Bool.
From Verif Require Import Base Tensor MActivations MCommon MCca SGrid.
Import ListNotations.
Open Scope R_scope.

(** A convolution layer from [e] to [n] channels with an odd square kernel, padded so that
    the grid size is kept; the channel groups divide evenly. *)
Definition groups_ok (l : conv_layer) : Prop :=
  (0 < cl_g l)%nat /\ exists q, tB (cl_w l) = (cl_g l * q)%nat.

Definition layer_wf (e n : nat) (l : conv_layer) : Prop :=
  groups_ok l /\ twf (cl_w l) /\ (0 < n)%nat /\ (0 < e)%nat /\
  tB (cl_w l) = n /\ (cl_g l * tC (cl_w l))%nat = e /\
  tH (cl_w l) = (2 * cl_p l + 1)%nat /\ tW (cl_w l) = (2 * cl_p l + 1)%nat.

(** A 1x1 layer without groups. *)
Definition pt_layer (a b : nat) (l : conv_layer) : Prop := layer_wf a b l /\ cl_p l = 0%nat /\ cl_g l = 1%nat.

(** A weight layer from [n] internal to [e] external channels. *)
Definition wl_wf (e n : nat) (w : wlayer) : Prop :=
  match w with
  | WConv l => pt_layer n e l
  | WMlp l1 l2 => exists h, pt_layer n h l1 /\ pt_layer h e l2
  end.

(** A well-formed automaton: layers of the declared channel counts. Every automaton built
    with odd square kernels is one (theorem [constructed_wf]). *)
Definition cca_wf (c : cca) : Prop :=
  layer_wf (ext c) (int_ c) (idl c) /\ layer_wf (ext c) (int_ c) (nbl c) /\ wl_wf (ext c) (int_ c) (wl c).

(** The grid is large enough for the layer's padding. *)
Definition fits (l : conv_layer) (u : tensor) : Prop :=
  pad_allowed (cl_m l) (tH u) (cl_p l) = true /\ pad_allowed (cl_m l) (tW u) (cl_p l) = true.

(** Sum of the genesis functions at 0. *)
Definition gen_sum0 (c : cca) : R := rsum (int_ c) (fun k => act_fn (nth k (gens c) AIdentity) 0).

(** Zero every channel of cells whose fourth channel is not above the threshold. *)
Definition zero_dead (th : R) (u : tensor) : tensor :=
  if Nat.leb 4 (tC u) then
    build (tB u) (tC u) (tH u) (tW u) (fun b c i j => if Rlt_dec th (get u b 3 i j) then get u b c i j else 0)
  else u.

(** Number of forward calls after the last reset. *)
Fixpoint since_reset (ks : list call) : nat :=
  match ks with
  | [] => 0
  | CReset :: r => since_reset r
  | CForward _ :: r => if existsb (fun k => match k with CReset => true | _ => false end) r
                       then since_reset r else S (since_reset r)
  | CFrame _ _ :: r => since_reset r
  end.

Definition has_reset (ks : list call) : bool :=
  existsb (fun k => match k with CReset => true | _ => false end) ks.

(** Symmetry conditions on an automaton. *)
Definition circular (c : cca) : Prop := cl_m (idl c) = Circular /\ cl_m (nbl c) = Circular.
Definition mirror_v (c : cca) : Prop := sym_v (cl_w (idl c)) /\ sym_v (cl_w (nbl c)).
Definition mirror_h (c : cca) : Prop := sym_h (cl_w (idl c)) /\ sym_h (cl_w (nbl c)).
Definition mirror_t (c : cca) : Prop := sym_t (cl_w (idl c)) /\ sym_t (cl_w (nbl c)).

(** The new grid of a stateful automaton transformed, the rest kept. *)
Definition on_grid {S} (g : tensor -> tensor) (p : S * tensor) : S * tensor := (fst p, g (snd p)).

(** Transform the stored momentum too. *)
Definition meta_map (F : tensor -> tensor) (s : meta_ca) : meta_ca :=
  mkMeta (mt_core s) (mt_ddt s) (option_map F (mt_dgrid s)).

(** A MetaCA whose stored momentum, if any, is a proper tensor. *)
Definition meta_wf (s : meta_ca) : Prop :=
  cca_wf (mt_core s) /\ match mt_dgrid s with Some d => twf d | None => True end.


(** The step sizes actually used by [n] CODE calls, in order. *)
Fixpoint code_steps (fuel n : nat) (s : code_ca) (u : tensor) : list R :=
  match n with
  | O => []
  | S k => match code_forward fuel s u with
           | Ok (s', u') => dt (cd_core s') :: code_steps fuel k s' u'
           | Err _ => []
           end
  end.

(** The [k]-th step size CODE tries, starting from [h]. *)
Definition tried (h : R) (k : nat) : R := h * (3 / 4) ^ k.
