(** Seeds and generators: what the properties speak of. *)
From Coq Require Import Reals List Arith ZArith.
From Verif Require Import Base MEvo MSeed.
Import ListNotations.
Open Scope R_scope.

(** The seeds numpy takes. *)
Definition seed_ok (s : Z) : Prop := (0 <= s < 2 ^ 32)%Z.

(** The generator after n blocks of d normal numbers. *)
Fixpoint np_after (so : source) (d n : nat) (g : np_state so) : np_state so :=
  match n with O => g | S k => np_after so d k (snd (normals so d g)) end.

(** The n-th block of d normal numbers. *)
Definition block (so : source) (d n : nat) (g : np_state so) : vec := fst (normals so d (np_after so d n g)).

(** torch's generator after n networks. *)
Fixpoint th_after (so : source) (n : nat) (h : th_state so) : th_state so :=
  match n with O => h | S k => th_after so k (snd (weights so h)) end.

(** The environment, pictures and elite configurations leave numpy's generator alone. All
    environments do but those of a RandomStepCA and the RandomWrapper. *)
Definition calm (so : source) : Prop :=
  (forall a w, fst (snd (fitness_of so a w)) = fst w) /\ (forall v w, fst (show so v w) = fst w).

(** np.random.choice returns as many ranks as it is asked for. *)
Definition choice_sized (so : source) : Prop := forall n k g, List.length (fst (choice so n k g)) = k.

(** What a seed's run in MEvo has to say about the result of the run with generators; a seed
    that numpy refuses is not seen there. *)
Definition told {A} (f : A -> evo) (r : res A) (q : res evo) : Prop :=
  match r with Ok a => q = Ok (f a) | Err ValueError => True | Err e => q = Err e end.
