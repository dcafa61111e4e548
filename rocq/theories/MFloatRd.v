(** The Gray-Scott step in IEEE floats of one format. RxnDfn has no detour for float16
    (reaction_diffusion.py:360-375). *)
From Coq Require Import ZArith List Bool Arith Floats.SpecFloat.
From Verif Require Import Tensor MFloat.

(** The parts of an RxnDfn that its step uses: layers, dx, dt and the four parameters, all of
    the format of the universe (reaction_diffusion.py:202-238). *)
Record frd : Type := mkFrd {
  g_idl : flayer; g_nbl : flayer;
  g_dx : spec_float; g_dt : spec_float;
  g_du : spec_float; g_dv : spec_float; g_f : spec_float; g_k : spec_float }.

Section Step.
Variables (prec emax : Z) (c : frd).

(** neighborhoods / self.dx**2 at one entry (reaction_diffusion.py:343-344). *)
Definition fnabla (n : spec_float) : spec_float := SFdiv prec emax n (fmul prec emax (g_dx c) (g_dx c)).

(** The update of channel [o] where the identity gives [u] and [v] and the neighbourhoods [nu]
    and [nv] (reaction_diffusion.py:341-353). *)
Definition frate (o : nat) (u v nu nv : spec_float) : spec_float :=
  match o with
  | 0 => fadd prec emax
           (fsub prec emax (fmul prec emax (g_du c) (fnabla nu)) (fmul prec emax (fmul prec emax u v) v))
           (fmul prec emax (g_f c) (fsub prec emax (fone prec emax) u))
  | 1 => fsub prec emax
           (fadd prec emax (fmul prec emax (g_dv c) (fnabla nv)) (fmul prec emax (fmul prec emax u v) v))
           (fmul prec emax (fadd prec emax (g_f c) (g_k c)) v)
  | _ => fzero
  end.

(** reaction_diffusion.py:360-375 forward: what one step may make of the universe. *)
Definition frd_step (u u' : ftensor) : Prop :=
  fC u = 2 /\
  exists idn nb,
    fconv prec emax (g_idl c) u idn /\ fconv prec emax (g_nbl c) u nb /\
    fB u' = fB u /\ fC u' = fC u /\ fH u' = fH u /\ fW u' = fW u /\
    forall b o i j, b < fB u -> o < fC u -> i < fH u -> j < fW u ->
      fget u' b o i j = fclamp prec emax (fadd prec emax (fget u b o i j)
        (fmul prec emax (g_dt c) (frate o (fget idn b 0 i j) (fget idn b 1 i j) (fget nb b 0 i j) (fget nb b 1 i j)))).

(** A run of [n] steps (reaction_diffusion.py:360-375). *)
Inductive frd_runs : nat -> ftensor -> ftensor -> Prop :=
| frd_runs_0 u : frd_runs 0 u u
| frd_runs_S n u v w : frd_runs n u v -> frd_step v w -> frd_runs (S n) u w.
End Step.
