(** Where the tensors of an automaton lie, said without following a step. *)
From Coq Require Import List Bool Arith.
From Verif Require Import Base MDevice.
Import ListNotations.

(** A tensor that can be combined with a grid on [g]. *)
Definition rests (g : device) (o : opnd) : Prop := o_dev o = g \/ (o_dev o = Cpu /\ o_zero o = true).

(** The tensors of an automaton outside its layers. *)
Definition owns (s : cca) : list opnd := flat_map f_own (c_gen s) ++ flat_map f_own (c_per s).
Definition frees (s : cca) : list opnd := flat_map f_free (c_gen s) ++ flat_map f_free (c_per s).
Definition time (s : cca) : list opnd := match c_dt s with Some o => [o] | None => [] end.

(** Parameters that nn.Module.to does not move. *)
Definition unregistered (s : cca) : list opnd :=
  flat_map f_own (filter (fun f => negb (f_reg f)) (c_gen s)) ++ flat_map f_own (filter (fun f => negb (f_reg f)) (c_per s)).

(** Everything an automaton has is on [g] or goes with it. *)
Definition together (g : device) (s : cca) : Prop :=
  c_id s = g /\ c_nb s = g /\ c_w s = g /\ c_my s = g /\ Forall (rests g) (time s ++ frees s ++ owns s).

(** An automaton that can step grids on [g], and one that can step no grid. *)
Definition runs_on (s : cca) (g : device) : Prop := step s (grid g) = Ok (grid g).
Definition stuck (s : cca) : Prop := forall g, step s (grid g) = Err RuntimeError.

(** ** What a history leaves *)

(** The device an automaton ends up on when it is made from keyword arguments, or reads a
    configuration while it is on [h]: the innermost arguments decide. *)
Fixpoint kw_home (k : kwargs) : device :=
  match k with Kw d _ _ => or_cpu d | KwC d _ _ c => file_home c (or_cpu d) end
with file_home (c : config) (h : device) : device :=
  match c with Bare _ _ _ => h | Full k _ _ _ => kw_home k end.

Definition file_zero (c : config) : bool := match c with Bare _ _ z => z | Full _ _ _ z => z end.
Definition file_free (c : config) : list opnd :=
  match c with Bare g p _ => f_free g ++ f_free p | Full _ g p _ => f_free g ++ f_free p end.

(** The device named last, where the layers are, the time step, the tensors that never move, and the
    parameters that were not moved since they were made. *)
Record memo : Set := mkMemo { m_home : device; m_layers : device; m_dt : opnd; m_free : list opnd; m_new : list opnd }.

Definition born (k : kwargs) : memo :=
  match k with
  | Kw d n inp =>
    let h := or_cpu d in
    if inp then mkMemo h h (mkOpnd h true) [] []
    else mkMemo h Cpu (mkOpnd h true) [] (if Nat.eqb n 0 then [] else [mkOpnd Cpu false])
  | KwC _ _ _ c => mkMemo (kw_home k) (kw_home k) (mkOpnd (kw_home k) (file_zero c)) (file_free c) []
  end.

Definition next (m : memo) (c : call) : memo :=
  match c with
  | CTo d => mkMemo d d (m_dt m) (m_free m) []
  | CSetDt z => mkMemo (m_home m) (m_layers m) (mkOpnd (m_home m) z) (m_free m) (m_new m)
  | CSetParams | CRadius | CKernel => mkMemo (m_home m) (m_home m) (m_dt m) (m_free m) []
  | CLoad f => let h := file_home f (m_home m) in mkMemo h h (mkOpnd h (file_zero f)) (file_free f) []
  | CGen f | CPer f => mkMemo (m_home m) (m_layers m) (m_dt m) (m_free m ++ f_free f) (m_new m ++ f_own f)
  | CRegister | CModule _ => m
  end.

Definition remembered (k : kwargs) (cs : list call) : memo := fold_left next cs (born k).

(** Calls other than nn.Module.to. *)
Definition ours (c : call) : Prop := forall d, c <> CModule d.

(** ** The other automata *)

Definition nca_runs (s : nca) (g : device) : Prop := nca_step s (grid g) = Ok (grid g).
Definition rxn_runs (s : rxn) (g : device) : Prop := rxn_step s (grid g) = Ok (grid g).

Definition rxn_together (g : device) (s : rxn) : Prop :=
  r_id s = g /\ r_nb s = g /\ Forall (rests g) [r_dx s; r_dt s; r_du s; r_dv s; r_f s; r_k s].

(** A history is read from its end. The device named last: *)
Fixpoint n_home (d : device) (past : list ncall) : device :=
  match past with [] => d | NTo e :: _ => e | _ :: t => n_home d t end.

(** whether the automaton has kernel parameters: *)
Fixpoint n_params (past : list ncall) : bool :=
  match past with [] => true | NLoad kp _ :: _ => kp | _ :: t => n_params t end.

(** the device of all layers, if they share one: *)
Fixpoint n_site (d : device) (past : list ncall) : option device :=
  match past with
  | [] => Some Cpu
  | NTo e :: _ => Some e
  | NRadius :: t => Some (n_home d t)
  | NParams :: t => if n_params t then Some (n_home d t) else n_site d t
  | NLoad true _ :: t => Some (n_home d t)
  | NLoad false _ :: t => match n_home d t with Cpu => Some Cpu | _ => None end
  | NDt _ :: t => n_site d t
  end.

(** and the time step. *)
Fixpoint n_clock (d : device) (past : list ncall) : opnd :=
  match past with
  | [] => mkOpnd d true
  | NDt z :: t | NLoad _ z :: t => mkOpnd (n_home d t) z
  | _ :: t => n_clock d t
  end.

(** Calls that name no device and move nothing. *)
Definition still (c : rcall) : Prop := match c with RSetParams | RSet _ _ => True | _ => False end.

(** A diffusion rate that was set and is not replaced by set_params later, or a step that was set. *)
Definition left_over (cs : list rcall) : Prop :=
  exists a w z b, cs = a ++ RSet w z :: b /\ (w = Dx \/ w = Dt \/ ~ In RSetParams b).
