(** Model of the parallel part of yuca/cmaes.py: how the mantle divides the population among the
    arms, and the messages they exchange. *)
From Coq Require Import Reals List Arith Bool ZArith.
From Verif Require Import Base MEvo.
Import ListNotations.

(** ** Batches: cmaes.py:480-507 *)

(** The loop over the workers, [n] still to come: [sub] is the batch size, [rem] the agents left
    over, [last] where the previous batch ended. population_left never changes (cmaes.py:490-504). *)
Fixpoint batch_loop (P sub rem last n : nat) : list (list nat) :=
  match n with
  | O => []
  | S m =>
      let size := (Nat.min sub P + (if Nat.eqb rem 0 then 0 else 1))%nat in
      seq last size :: batch_loop P sub (rem - 1) (last + size) m
  end.

(** [W] is the number of processes, which mpi_fork (cmaes.py:386-389) sets to zero when it is
    asked for one. int(a / b) is the quotient here. *)
Definition batches (P W : nat) : res (list (list nat)) :=
  let* _ := guard (negb (Nat.eqb W 1)) ZeroDivisionError in
  Ok (batch_loop P (P / (W - 1)) (P mod (W - 1)) 0 (W - 1)).

(** ** Messages *)

(** cmaes.py:506-507 and 590: work for an arm, or the end. *)
Inductive msg : Type := Work (params : mat) (agents : list nat) (seed : Z) | Stop.

(** An arm (cmaes.py:593-618) waits for a message, has work, or has left its loop. *)
Inductive arm_state : Type := Waiting | Working (params : mat) (agents : list nat) (seed : Z) | Left.

(** The mantle sends work to arm [k] and up, receives from arm [k] and up having received [got],
    sends the end to arm [k] and up, or is done (cmaes.py:464-590). *)
Inductive phase : Type :=
| Sending (k : nat) (params : mat) (seed : Z)
| Receiving (k : nat) (got : list R)
| Ending (k : nat)
| Ended.

(** The processes and the messages under way (cmaes.py:419-618). *)
Record net : Type := mkNet {
  ne_history : list (list R);      (* fitness lists gathered so far *)
  ne_phase : phase;
  ne_down : nat -> list msg;       (* messages on the way to each arm *)
  ne_up : nat -> list (list R);    (* messages on the way back *)
  ne_arm : nat -> arm_state
}.

(** A message sent (cmaes.py:419-618). *)
Definition put {A} (k : nat) (x : A) (f : nat -> A) : nat -> A := fun j => if Nat.eqb j k then x else f j.

Section Net.
Variable W : nat.                            (* processes: the mantle and arms 1 .. W-1 *)
Variable P : nat.                            (* population_size *)
Variable cap : nat.                          (* messages a channel can hold *)
Variable fit : vec -> Z -> R.                (* fitness of a vector under a seed *)
Variable plan : list (list R) -> option (mat * Z).   (* what is evaluated next, after this history; None: shut down *)

(** The list of agents for arm [k] (cmaes.py:504). *)
Definition batch (k : nat) : list nat := nth (k - 1) (batch_loop P (P / (W - 1)) (P mod (W - 1)) 0 (W - 1)) [].

(** cmaes.py:600-616: what an arm sends back. *)
Definition arm_result (params : mat) (agents : list nat) (seed : Z) : list R := map (fun i => fit (nth i params []) seed) agents.

(** cmaes.py:464-507, 588: what the mantle does next. *)
Definition enter (h : list (list R)) : phase := match plan h with Some (p, s) => Sending 1 p s | None => Ending 1 end.
(** cmaes.py:490-511: the next arm, or on to receiving. *)
Definition after_send (k : nat) (p : mat) (s : Z) : phase := if Nat.eqb (S k) W then Receiving 1 [] else Sending (S k) p s.
(** cmaes.py:588-590. *)
Definition after_end (k : nat) : phase := if Nat.eqb (S k) W then Ended else Ending (S k).

(** cmaes.py:511-516: receiving [r] from arm [k]. *)
Definition take (k : nat) (got r : list R) (h : list (list R)) : list (list R) * phase :=
  if Nat.eqb (S k) W then ((h ++ [got ++ r])%list, enter (h ++ [got ++ r])%list) else (h, Receiving (S k) (got ++ r)).

(** cmaes.py:596-599. *)
Definition receive (m : msg) : arm_state := match m with Work p a s => Working p a s | Stop => Left end.

(** One step of any process. A send goes into the channel if it holds fewer than [cap] messages,
    or straight to the receiver if that waits and the channel is empty (cmaes.py:506-513, 588-590, 595-618). *)
Inductive step : net -> net -> Prop :=
| st_send h k p s d u a : (length (d k) < cap)%nat ->
    step (mkNet h (Sending k p s) d u a) (mkNet h (after_send k p s) (put k (d k ++ [Work p (batch k) s])%list d) u a)
| st_hand h k p s d u a : a k = Waiting -> d k = [] ->
    step (mkNet h (Sending k p s) d u a) (mkNet h (after_send k p s) d u (put k (Working p (batch k) s) a))
| st_end h k d u a : (length (d k) < cap)%nat ->
    step (mkNet h (Ending k) d u a) (mkNet h (after_end k) (put k (d k ++ [Stop])%list d) u a)
| st_end_hand h k d u a : a k = Waiting -> d k = [] ->
    step (mkNet h (Ending k) d u a) (mkNet h (after_end k) d u (put k Left a))
| st_get h ph k m q d u a : (1 <= k < W)%nat -> a k = Waiting -> d k = m :: q ->
    step (mkNet h ph d u a) (mkNet h ph (put k q d) u (put k (receive m) a))
| st_reply h ph k p ag s d u a : (1 <= k < W)%nat -> a k = Working p ag s -> (length (u k) < cap)%nat ->
    step (mkNet h ph d u a) (mkNet h ph d (put k (u k ++ [arm_result p ag s])%list u) (put k Waiting a))
| st_reply_hand h k got p ag s d u a : a k = Working p ag s -> u k = [] ->
    step (mkNet h (Receiving k got) d u a)
         (mkNet (fst (take k got (arm_result p ag s) h)) (snd (take k got (arm_result p ag s) h)) d u (put k Waiting a))
| st_take h k got r q d u a : u k = r :: q ->
    step (mkNet h (Receiving k got) d u a) (mkNet (fst (take k got r h)) (snd (take k got r h)) d (put k q u) a).

(** cmaes.py:419-618: any number of steps. *)
Inductive steps : nat -> net -> net -> Prop :=
| steps_O c : steps 0 c c
| steps_S n c c' c'' : steps n c c' -> step c' c'' -> steps (S n) c c''.

(** cmaes.py:409-417. *)
Definition net_start : net := mkNet [] (enter []) (fun _ => []) (fun _ => []) (fun _ => Waiting).
End Net.

(** ** The generations of one seed, with gathered fitnesses: cmaes.py:456-569 *)

(** A generation whose fitness list has been gathered (cmaes.py:520-569). *)
Definition generation_from (s : setting) (seed : Z) (g : nat) (fitness : list R) (v : evo) : res (evo * bool) :=
  let* v1 := advance s seed g fitness v in
  let v2 := log_generation s fitness v1 in
  if stops g fitness then let* v3 := rank_population s fitness seed v2 in Ok (v3, true)
  else Ok (v2, false).

(** The mantle's state after gathering the lists [h], and which of the [n] generations from [g]
    on is next (None: the loop is over) (cmaes.py:464-569). *)
Fixpoint replay (s : setting) (seed : Z) (n g : nat) (v : evo) (h : list (list R)) : res (evo * option nat) :=
  match n with
  | O => Ok (v, None)
  | S m => match h with
           | [] => Ok (v, Some g)
           | f :: t => let* r := generation_from s seed g f v in
                       if snd r then Ok (fst r, None) else replay s seed m (S g) (fst r) t
           end
  end.

(** cmaes.py:503-507: the parameters and seed sent to the arms. *)
Definition plan_of (s : setting) (seed : Z) (v : evo) (h : list (list R)) : option (mat * Z) :=
  match replay s seed (se_gens s) 0 v h with
  | Ok (v', Some g) => Some (ev_pop v', (Z.of_nat g * seed)%Z)
  | _ => None
  end.
