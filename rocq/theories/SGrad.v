(** Specification vocabulary: trainable parameters. *)
From Coq Require Import List Bool Arith.
From Verif Require Import Base MGrad.
Import ListNotations.

(** Everything an automaton computes with or registers. *)
Definition kernel_params (s : grads) : list nat := gr_id s ++ gr_nb s.
Definition rule_params (s : grads) : list nat := List.concat (gr_gen s) ++ List.concat (gr_per s) ++ gr_w s.
Definition all_params (s : grads) : list nat := map snd (gr_reg s) ++ kernel_params s ++ rule_params s.

Definition frozen (s : grads) : Prop := gr_use s = false /\ forall p, In p (all_params s) -> gr_flag s p = false.
Definition trainable (s : grads) : Prop := gr_use s = true /\ forall p, In p (rule_params s) -> gr_flag s p = true.

(** Calls that switch gradients off, and calls that bring in new functions. *)
Definition freezing (o : act) : Prop :=
  match o with SetParams | LoadConfig _ | SetRadius | ToDevice | NoGrad => True | _ => False end.
Definition adding (o : act) : Prop := match o with AddGen _ | AddPer _ => True | _ => False end.

(** The network's weights were switched on and nothing but steady calls came after. *)
Definition switched_on (h : list nact) : Prop :=
  exists h1 h2, h = h1 ++ NYesGrad :: h2 /\ Forall (fun o => o = NSteady \/ o = NYesGrad) h2.
