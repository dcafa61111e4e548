(** Specification vocabulary for the modes of a CCA. *)
From Coq Require Import Reals ZArith List String Arith.
From Verif Require Import Base PyDict Tensor MActivations MCommon MCca MConfig SGrid SCca SConfig.
Import ListNotations.
Open Scope R_scope.
Open Scope string_scope.

(** The same object with another weights layer. *)
Definition with_weights (o : obj) (w : wlayer) : obj :=
  let c := o_core o in
  mkObj (mkCca (ext c) (int_ c) (pm c) (thr c) (idl c) (nbl c) w (gens c) (pers c) (dt c))
    (o_kpar o) (o_radius o) (o_peaks o) (o_nb o) (o_gen o) (o_per o) (o_inst o).

(** Two objects, or two failures, that agree in everything but the weights layer. *)
Definition twins (r r' : res (obj * heap)) : Prop :=
  match r, r' with
  | Ok (o, h), Ok (o', h') => h' = h /\ exists w, o' = with_weights o w
  | Err e, Err e' => e = e'
  | _, _ => False
  end.

(** The mode named by keyword arguments, "functional" if none is. *)
Definition named_mode (kw : dict) : value := match dget "ca_mode" kw with Some v => v | None => VStr "functional" end.

(** All saved configs name a mode in [P], or none and P "functional". *)
Definition files_in (P : value -> Prop) (ev : env) : Prop :=
  forall path p kw, In (path, FConfig p) (e_fs ev) -> p_inst p = Some kw -> P (named_mode kw).

(** Functional mode, and the two modes with default update functions. *)
Definition is_functional (v : value) : Prop := v = VStr "functional".
Definition is_functionlike (v : value) : Prop := v = VStr "functional" \/ v = VStr "neurofunctional".

(** The update of output channel [ch] by two layers of weights with a rectifier between. *)
Definition two_layers (n : nat) (w1 w2 : nat -> nat -> R) (g : nat -> R) (ch : nat) : R :=
  rsum n (fun k => w2 ch k * Rmax (rsum n (fun i => w1 k i * g i)) 0).

(** Channel [ch] nowhere decreases, nowhere increases. *)
Definition rises (ch : nat) (u v : tensor) : Prop := forall b i j, (b < tB u)%nat -> (i < tH u)%nat -> (j < tW u)%nat ->
  get u b ch i j <= get v b ch i j.
Definition falls (ch : nat) (u v : tensor) : Prop := forall b i j, (b < tB u)%nat -> (i < tH u)%nat -> (j < tW u)%nat ->
  get v b ch i j <= get u b ch i j.

(** A 1x1 layer of the automaton's padding mode. *)
Definition dense (a b : nat) (m : pmode) (l : conv_layer) : Prop := pt_layer a b l /\ cl_m l = m.

(** An object as the constructor makes it: in functional mode the invariant of functional mode,
    in the others the same but for a weights layer of two dense layers. *)
Definition proper (o : obj) : Prop :=
  (named_mode (o_inst o) = VStr "functional" -> obj_inv o) /\
  (named_mode (o_inst o) <> VStr "functional" -> exists w0 l1 l2, obj_inv (with_weights o w0) /\ wl (o_core o) = WMlp l1 l2 /\
     dense (int_ (o_core o)) (int_ (o_core o)) (pm (o_core o)) l1 /\ dense (int_ (o_core o)) (ext (o_core o)) (pm (o_core o)) l2).

(** The weight from channel [i] to channel [k] of a 1x1 layer. *)
Definition weight (l : conv_layer) (k i : nat) : R := get (cl_w l) k i 0 0.
