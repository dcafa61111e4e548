(** Theorems about the demonstration server (gecco_bokeh_app/main.py): properties C87, C88. *)
From Coq Require Import Reals Lra Lia ZArith List Arith Bool String Permutation.
From Verif Require Import Base Tensor MText MLibrarian MApp SApp SLibrarian PApp.
Import ListNotations.
Open Scope string_scope.
Open Scope list_scope.
Open Scope nat_scope.

(** ** C87 Browsing the pattern library *)

(** A pattern is put on the grid exactly when it fits; then it is the only thing there. *)
Theorem C87_place p : (fits p -> exists g, place p = Ok g /\ centred p g) /\ (~ fits p -> place p = Err RuntimeError).
Proof. split; [exact (place_fits p)|exact (place_too_big p)]. Qed.

(** Starting the application shows the last entry of the index. *)
Theorem C87_start {C} (k : machine C) d c s : start k d c = (s, None) ->
  a_index s = update_index d /\ exists a n, a_index s = a ++ [n] /\ showing d n s.
Proof. exact (start_index k d c s). Qed.

(** "Next pattern": the first entry of the index that is not hidden, the index turned so that
    it comes last. *)
Theorem C87_next {C} (k : machine C) d h x b s fuel : a_index s = h ++ x :: b ->
  Forall (usable k d) (a_index s) -> Forall (hidden_entry d) h -> visible_entry d x -> List.length h < fuel ->
  exists s', reset_next fuel k d s = (s', None) /\ a_index s' = b ++ h ++ [x] /\ showing d x s' /\
    a_callbacks s' = a_callbacks s /\ a_label s' = a_label s /\ a_period s' = a_period s /\ a_step s' = a_step s.
Proof. exact (next_skips k d h x b s fuel). Qed.

(** "Previous pattern": the last entry before the one on display that is not hidden, or the
    same entry again when all others are hidden. *)
Theorem C87_prev {C} (k : machine C) d h b x y s fuel : a_index s = b ++ x :: h ++ [y] ->
  Forall (usable k d) (a_index s) -> Forall (hidden_entry d) h -> visible_entry d x -> List.length h < fuel ->
  exists s', reset_prev fuel k d s = (s', None) /\ a_index s' = h ++ y :: b ++ [x] /\ showing d x s' /\
    a_callbacks s' = a_callbacks s /\ a_label s' = a_label s /\ a_period s' = a_period s /\ a_step s' = a_step s.
Proof. exact (prev_skips k d h b x y s fuel). Qed.
Theorem C87_prev_same {C} (k : machine C) d h y s fuel : a_index s = h ++ [y] ->
  Forall (usable k d) (a_index s) -> Forall (hidden_entry d) h -> visible_entry d y -> List.length h < fuel ->
  exists s', reset_prev fuel k d s = (s', None) /\ a_index s' = h ++ [y] /\ showing d y s'.
Proof. exact (prev_round k d h y s fuel). Qed.

(** "Reset current pattern" shows the last entry again, with its automaton, metadata and, when
    there is one, its note. *)
Theorem C87_this {C} (k : machine C) d a y s : a_index s = a ++ [y] -> usable k d y ->
  exists p m s', load d y = Ok (p, m) /\ reset_this k d s = (s', None) /\ a_index s' = a_index s /\ centred p (a_grid s') /\
    a_alias s' = ("alias: " ++ y)%string /\ a_ca s' = fst (restore k (a_ca s) (m_config m)) /\
    a_config s' = (String nl "CA config: " ++ stem (m_config m) ++ " ")%string /\
    a_entry s' = (String nl "evolved with: " ++ String nl (m_entry m))%string /\
    (m_notes m = ""%string -> a_git s' = (String nl "at git commit hash: " ++ String nl (m_commit m))%string) /\
    (m_notes m <> ""%string -> a_git s' = (String nl "at git commit hash: " ++ String nl (m_commit m) ++ String nl (String nl "note: ") ++ m_notes m)%string) /\
    a_callbacks s' = a_callbacks s /\ a_label s' = a_label s /\ a_period s' = a_period s /\ a_step s' = a_step s.
Proof. exact (this_ok k d a y s). Qed.

(** The texts and the automaton after the other two buttons. *)
Theorem C87_texts {C} (k : machine C) d name s : usable k d name ->
  exists p m s', load d name = Ok (p, m) /\ show k d name s = (s', Ok (m_commit m)) /\
    a_alias s' = ("alias: " ++ name)%string /\ a_ca s' = fst (restore k (a_ca s) (m_config m)) /\
    a_config s' = (String nl "CA config: " ++ stem (m_config m) ++ " ")%string /\
    a_entry s' = (String nl "evolved with: " ++ m_entry m)%string /\
    a_git s' = (String nl "at git commit hash: " ++ String nl " " ++ m_commit m)%string.
Proof.
  intros U. destruct (show_ok k d name s U) as (p & m & s' & L & E & _ & _ & A & B & D & F & G & _).
  exists p, m, s'. repeat (split; [assumption|]). assumption.
Qed.

(** Next and then previous come back to the entry on display. *)
Theorem C87_inverse {C} (k : machine C) d s cur a fuel : a_index s = a ++ [cur] -> Forall (usable k d) (a_index s) ->
  visible_entry d cur -> List.length (a_index s) <= fuel ->
  exists s1 s2, reset_next fuel k d s = (s1, None) /\ reset_prev fuel k d s1 = (s2, None) /\
    a_index s2 = a_index s /\ showing d cur s2.
Proof. exact (next_prev k d s cur a fuel). Qed.

(** Through every history of a usable library, the index is a rotation of the first one and no
    browsing fails. *)
Theorem C87_history {C} (k : machine C) d fuel es s : Forall (usable k d) (a_index s) -> Exists (visible_entry d) (a_index s) ->
  List.length (a_index s) <= fuel ->
  rotation (a_index s) (a_index (fst (history_of fuel k d es s))) /\
  (forall e x, In (e, x) (snd (history_of fuel k d es s)) -> e = ENext \/ e = EPrev \/ e = EThis -> x = None).
Proof. exact (history_rotates k d fuel es s). Qed.

(** After any browsing event the entry on display is the last of the index. *)
Theorem C87_displayed {C} (k : machine C) d fuel e s : Forall (usable k d) (a_index s) -> Exists (visible_entry d) (a_index s) ->
  List.length (a_index s) <= fuel -> e = ENext \/ e = EPrev \/ e = EThis ->
  exists s' n a, react fuel k d e s = (s', None) /\ rotation (a_index s) (a_index s') /\ a_index s' = a ++ [n] /\ showing d n s' /\
    (e <> EThis -> visible_entry d n).
Proof. exact (browse_ok k d fuel e s). Qed.

(** Pressing "next" once per entry shows every entry once, in order, and ends where it began. *)
Theorem C87_round {C} (k : machine C) d s fuel : 0 < fuel ->
  Forall (usable k d) (a_index s) -> Forall (visible_entry d) (a_index s) ->
  let n := List.length (a_index s) in
  exists ss, Forall2 (showing d) (a_index s) ss /\
    snd (history_of fuel k d (repeat ENext n) s) = repeat (ENext, None) n /\
    a_index (fst (history_of fuel k d (repeat ENext n) s)) = a_index s /\
    (forall i, i < n -> nth_error ss i = Some (fst (history_of fuel k d (repeat ENext (S i)) s))).
Proof.
  intros F U V n. destruct (next_round k d (a_index s) [] s fuel) as (ss & _ & H1 & H2 & H3 & H4);
    [rewrite app_nil_r; reflexivity|exact F|exact U|exact V|].
  exists ss. split; [exact H1|]. split; [exact H2|]. split; [exact H3|exact H4].
Qed.

(** Whatever fails, the grid is one picture of 96 by 96 cells, if the automaton keeps the shapes of grids. *)
Definition canvas {C} (s : server C) : Prop := shape (a_grid s) = (1, 1, 96, 96)%nat /\ twf (a_grid s).

Lemma show_canvas {C} (k : machine C) d name s : canvas s -> canvas (fst (show k d name s)).
Proof.
  intros S. unfold show. destruct (load d name) as [[p m]|]; [|exact S]. destruct (restore k (a_ca s) (m_config m)) as [c [x|]]; [exact S|].
  destruct (place p) as [g|] eqn:E; [|exact S]. unfold place in E. apply bind_ok in E as (u & _ & E). injection E as <-. split; [reflexivity|apply twf_build].
Qed.

Lemma this_canvas {C} (k : machine C) d s : canvas (fst (reset_this k d s)).
Proof.
  assert (B : forall s : server C, canvas (with_grid blank s)) by (intros s0; split; [reflexivity|apply twf_build]).
  unfold reset_this. destruct (pop_last _) as [[n r]|]; [|apply B]. destruct (load d n) as [[p m]|]; [|exact (B s)]. destruct (restore _ _ _) as [c [x|]]; [exact (B s)|].
  destruct (place p) as [g|] eqn:E; [|exact (B s)]. unfold place in E. apply bind_ok in E as (u & _ & E). injection E as <-. split; [reflexivity|apply twf_build].
Qed.

Lemma go_canvas {C} (s : server C) : canvas s -> canvas (fst (go s)).
Proof. intros S. unfold go. destruct (a_label s); [exact S|]. destruct (a_callbacks s); exact S. Qed.

Lemma twice_canvas {C} (s : server C) : canvas s -> canvas (fst (go_twice s)).
Proof. intros S. unfold go_twice. pose proof (go_canvas s S) as G. destruct (go s) as [s1 [x|]]; [exact G|apply go_canvas, G]. Qed.

Definition keeps_shape {C} (k : machine C) : Prop := forall c u c' v, twf u -> forward k c u = (c', Ok v) -> shape v = shape u /\ twf v.

Lemma react_canvas {C} (k : machine C) d fuel e s : keeps_shape k -> canvas s -> canvas (fst (react fuel k d e s)).
Proof.
  intros K S. assert (B : forall s : server C, canvas (with_grid blank s)) by (intros s0; split; [reflexivity|apply twf_build]). destruct e; cbn [react].
  - revert s S. induction fuel as [|f IH]; intros s S; [exact S|]. cbn [reset_next]. destruct (pop_first _) as [[n r]|]; [|apply B].
    pose proof (show_canvas k d n (with_index r (with_grid blank s)) (B s)) as Q. destruct (show k d n _) as [s1 [h|x]]; [|exact Q]. destruct (String.eqb h "none"); [apply IH, Q|exact Q].
  - revert s S. induction fuel as [|f IH]; intros s S; [exact S|]. cbn [reset_prev]. destruct (pop_last _) as [[n r]|]; [|apply B]. destruct (pop_last _) as [[n' r']|]; [|apply B].
    pose proof (show_canvas k d n' (with_index r' (with_grid blank s)) (B s)) as Q. destruct (show k d n' _) as [s1 [h|x]]; [|exact Q]. destruct (String.eqb h "none"); [apply IH, Q|exact Q].
  - apply this_canvas.
  - apply go_canvas, S.
  - apply twice_canvas. exact S.
  - apply twice_canvas. exact S.
  - unfold update. destruct (forward k (a_ca s) (a_grid s)) as [c [g|x]] eqn:E; [|exact S]. destruct S as [S1 S2]. destruct (K _ _ _ _ S2 E) as [K1 K2]. split; cbn [fst a_grid]; [congruence|exact K2].
Qed.

Theorem C87_canvas {C} (k : machine C) d fuel es c : keeps_shape k ->
  canvas (fst (start k d c)) /\ canvas (fst (history_of fuel k d es (fst (start k d c)))).
Proof.
  intros K. assert (S : canvas (fst (start k d c))).
  { unfold start. destruct (load d _) as [[p m]|]; [|split; [reflexivity|apply twf_build]]. destruct (place p) as [g|] eqn:E; [|split; [reflexivity|apply twf_build]].
    destruct (restore k c (m_config m)) as [c1 [x|]]; [|apply this_canvas]. unfold place in E. apply bind_ok in E as (u & _ & E). injection E as <-. split; [reflexivity|apply twf_build]. }
  split; [exact S|]. revert S. generalize (fst (start k d c)). induction es as [|e es IH]; intros s S; [exact S|]. cbn [history_of].
  pose proof (react_canvas k d fuel e s K S) as R. destruct (react fuel k d e s) as [s1 x]. specialize (IH s1 R). destruct (history_of fuel k d es s1) as [s2 l]. exact IH.
Qed.

(** When every entry is hidden the two buttons never come to an end. *)
Theorem C87_endless {C} (k : machine C) d fuel s : Forall (usable k d) (a_index s) -> a_index s <> [] ->
  Forall (hidden_entry d) (a_index s) ->
  snd (reset_next fuel k d s) = Some OutOfFuel /\ snd (reset_prev fuel k d s) = Some OutOfFuel.
Proof.
  intros U N H. destruct (next_hidden k d fuel s U N H) as (s1 & E1 & _). destruct (prev_hidden k d fuel s U N H) as (s2 & E2 & _).
  rewrite E1, E2. split; reflexivity.
Qed.

(** Storing a pattern never makes it a hidden entry, not even with the commit hash "none". *)
Theorem C87_stored fuel v (d : dir tensor) p name cfg ca entry commit notes e d1 d2 :
  store fuel v d p name cfg ca entry commit notes = Some (e, d1, d2) ->
  plain (chosen_config v cfg ca) -> plain commit -> plain (notes_text notes) -> plain entry -> visible_entry d2 e.
Proof. exact (stored_visible fuel v d p name cfg ca entry commit notes e d1 d2). Qed.

(** A failure loses the entry: the index goes on without it, the grid is empty and the texts
    are still those of the pattern before. "Reset" keeps an entry that loads. *)
Theorem C87_lost {C} (k : machine C) d f s e :
  (forall x rest, a_index s = x :: rest -> load d x = Err e ->
     exists s', reset_next (S f) k d s = (s', Some e) /\ a_index s' = rest /\ a_grid s' = blank /\ a_alias s' = a_alias s) /\
  (forall x rest p m, a_index s = x :: rest -> load d x = Ok (p, m) ->
     (snd (restore k (a_ca s) (m_config m)) <> None \/ ~ fits p) ->
     exists s' e', reset_next (S f) k d s = (s', Some e') /\ a_index s' = rest /\ a_grid s' = blank /\ a_alias s' = a_alias s /\
       a_ca s' = fst (restore k (a_ca s) (m_config m))) /\
  (forall x y b, a_index s = b ++ [x; y] -> load d x = Err e ->
     exists s', reset_prev (S f) k d s = (s', Some e) /\ a_index s' = y :: b /\ a_grid s' = blank /\ a_alias s' = a_alias s) /\
  (forall y b, a_index s = b ++ [y] -> load d y = Err e ->
     exists s', reset_this k d s = (s', Some e) /\ a_index s' = b /\ a_grid s' = blank /\ a_alias s' = a_alias s) /\
  (forall y b p m, a_index s = b ++ [y] -> load d y = Ok (p, m) ->
     (snd (restore k (a_ca s) (m_config m)) <> None \/ ~ fits p) ->
     exists s' e', reset_this k d s = (s', Some e') /\ a_index s' = a_index s /\ a_grid s' = blank /\ a_alias s' = a_alias s /\
       a_ca s' = fst (restore k (a_ca s) (m_config m))) /\
  (a_index s = [] -> snd (reset_next (S f) k d s) = Some IndexError /\ snd (reset_prev (S f) k d s) = Some IndexError /\
     snd (reset_this k d s) = Some IndexError).
Proof.
  split; [intros x rest; exact (next_fails k d f x rest s e)|].
  split; [intros x rest p m; exact (next_unplaceable k d f x rest s p m)|].
  split; [intros x y b; exact (prev_fails k d f x y b s e)|].
  split; [intros y b; exact (this_fails k d y b s e)|].
  split; [intros y b p m; exact (this_unplaceable k d y b s p m)|exact (empty_index k d f s)].
Qed.

(** Whatever happens, entries are only lost, never invented, duplicated or brought back. *)
Theorem C87_no_return {C} (k : machine C) d fuel es s : exists lost, Permutation (a_index s) (a_index (fst (history_of fuel k d es s)) ++ lost).
Proof. exact (history_shrinks k d fuel es s). Qed.

(** ** C88 Running, pausing and the speed of the demonstration *)

(** The timer through every history from the start of the application: one callback when it
    runs, none when it is paused, always with the current period, which is 128 ms times a power
    of two up to 8192 ms; the three buttons never fail. *)
Theorem C88_timer {C} (k : machine C) d c fuel es :
  let s0 := fst (start k d c) in
  let s := fst (history_of fuel k d es s0) in
  (exists n, n <= 6 /\ a_period s = (128 * 2 ^ n)%R) /\
  (a_label s = true -> a_callbacks s = []) /\ (a_label s = false -> a_callbacks s = [a_period s]) /\
  (forall e x, In (e, x) (snd (history_of fuel k d es s0)) -> e = EGo \/ e = EFaster \/ e = ESlower -> x = None).
Proof.
  intros s0 s. destruct (start_timer k d c) as (T & _). destruct (history_timer k d fuel es s0 T) as [[P K] E].
  fold s in P, K. split; [exact P|]. split; [intros H; rewrite K, H; reflexivity|]. split; [intros H; rewrite K, H; reflexivity|exact E].
Qed.

Theorem C88_start {C} (k : machine C) d c : a_label (fst (start k d c)) = true /\ a_callbacks (fst (start k d c)) = [] /\
  a_period (fst (start k d c)) = 512%R /\ a_step (fst (start k d c)) = 0.
Proof.
  destruct (start_timer k d c) as ([_ K] & L & P & S). rewrite L in K. auto.
Qed.

(** The run button toggles; the speed buttons change the period and nothing else: a running
    simulation goes on running and a paused one stays paused. *)
Theorem C88_buttons {C} (k : machine C) d c fuel es :
  let s := fst (history_of fuel k d es (fst (start k d c))) in
  a_label (fst (go s)) = negb (a_label s) /\ a_period (fst (go s)) = a_period s /\
  a_label (fst (faster s)) = a_label s /\ a_period (fst (faster s)) = Rmax (a_period s / 2) 128 /\
  a_label (fst (slower s)) = a_label s /\ a_period (fst (slower s)) = Rmin (a_period s * 2) 8192 /\
  (forall s', s' = fst (go s) \/ s' = fst (faster s) \/ s' = fst (slower s) ->
     a_index s' = a_index s /\ a_grid s' = a_grid s /\ a_ca s' = a_ca s /\ a_step s' = a_step s /\ a_alias s' = a_alias s).
Proof.
  intros s. assert (T : timer_inv s) by exact (proj1 (history_timer k d fuel es _ (proj1 (start_timer k d c)))). clearbody s.
  destruct (go_toggle s T) as (s1 & E1 & _ & L1 & P1).
  destruct (react_timer k d fuel EFaster s T) as (_ & _ & L2 & _). destruct (react_timer k d fuel ESlower s T) as (_ & _ & L3 & _).
  cbn [react] in L2, L3. split; [rewrite E1; exact L1|]. split; [rewrite E1; exact P1|].
  split; [apply L2; discriminate|]. split; [exact (faster_period s T)|]. split; [apply L3; discriminate|]. split; [exact (slower_period s T)|].
  intros s' H. destruct H as [H|[H|H]]; subst s'.
  - destruct (go s) as [s' x] eqn:E. apply go_index in E. destruct E as (A1 & A2 & A3 & A4 & _ & A6). auto 10.
  - destruct (faster s) as [s' x] eqn:E. apply go_twice_index in E. destruct E as (A1 & A2 & A3 & A4 & _ & A6). auto 10.
  - destruct (slower s) as [s' x] eqn:E. apply go_twice_index in E. destruct E as (A1 & A2 & A3 & A4 & _ & A6). auto 10.
Qed.

(** Pressing a speed button [n] times. *)
Theorem C88_speeds {C} (k : machine C) d c fuel es n :
  let s := fst (history_of fuel k d es (fst (start k d c))) in
  a_period (fst (history_of fuel k d (repeat EFaster n) s)) = Rmax (a_period s / 2 ^ n) 128 /\
  a_period (fst (history_of fuel k d (repeat ESlower n) s)) = Rmin (a_period s * 2 ^ n) 8192.
Proof. intros s. apply speed_changes. exact (proj1 (history_timer k d fuel es _ (proj1 (start_timer k d c)))). Qed.

(** The step counter counts the successful updates since the application started; no button,
    in particular no choice of another pattern, sets it back. *)
Theorem C88_counter {C} (k : machine C) d c fuel es :
  let h := history_of fuel k d es (fst (start k d c)) in a_step (fst h) = updates (snd h).
Proof.
  intros h. unfold h. rewrite history_step. destruct (start_timer k d c) as (_ & _ & _ & S). rewrite S. lia.
Qed.

(** An update replaces the grid by the automaton's next grid and touches nothing else; if the
    automaton raises, the grid stays and is not counted. *)
Theorem C88_update {C} (k : machine C) s s' x : update k s = (s', x) ->
  a_index s' = a_index s /\ a_callbacks s' = a_callbacks s /\ a_label s' = a_label s /\ a_period s' = a_period s /\ a_alias s' = a_alias s /\
  match x with None => a_step s' = S (a_step s) /\ snd (forward k (a_ca s) (a_grid s)) = Ok (a_grid s')
             | Some e => a_step s' = a_step s /\ a_grid s' = a_grid s /\ snd (forward k (a_ca s) (a_grid s)) = Err e end /\
  a_ca s' = fst (forward k (a_ca s) (a_grid s)).
Proof. exact (update_frame k s s' x). Qed.

(** The four texts only change when a pattern is shown: the timer, the speed and the run button
    keep them, even if they raise, and so does a reset that raises. *)
Theorem C88_texts_stay {C} (k : machine C) d fuel e s s' x : react fuel k d e s = (s', x) ->
  (e <> ENext /\ e <> EPrev /\ e <> EThis \/ e = EThis /\ x <> None) ->
  a_alias s' = a_alias s /\ a_config s' = a_config s /\ a_entry s' = a_entry s /\ a_git s' = a_git s.
Proof.
  intros H K. assert (G : forall u : server C, let u' := fst (go u) in a_alias u' = a_alias u /\ a_config u' = a_config u /\ a_entry u' = a_entry u /\ a_git u' = a_git u).
  { intros u. unfold go. destruct (a_label u); [cbn; auto|]. destruct (a_callbacks u); cbn; auto. }
  assert (G2 : forall u : server C, let u' := fst (go_twice u) in a_alias u' = a_alias u /\ a_config u' = a_config u /\ a_entry u' = a_entry u /\ a_git u' = a_git u).
  { intros u. unfold go_twice. pose proof (G u) as A. destruct (go u) as [u1 [er|]]; cbn [fst] in *; [exact A|]. pose proof (G u1) as B. cbv zeta in A, B |- *. destruct A as (<- & <- & <- & <-). exact B. }
  assert (E : s' = fst (react fuel k d e s)) by (rewrite H; reflexivity). destruct e; cbn [react] in H, E.
  - destruct K as [(K & _)|[K _]]; congruence.
  - destruct K as [(_ & K & _)|[K _]]; congruence.
  - destruct K as [(_ & _ & K)|[_ K]]; [congruence|]. clear E. unfold reset_this in H. destruct (pop_last (a_index (with_grid blank s))) as [[name rest]|]; [|injection H as <- <-; cbn; auto].
    destruct (load d name) as [[p m]|er]; [|injection H as <- <-; cbn; auto]. destruct (restore k _ (m_config m)) as [c [er|]]; [injection H as <- <-; cbn; auto|].
    destruct (place p) as [g|er]; injection H as <- <-; [congruence|cbn; auto].
  - subst s'. apply G.
  - subst s'. exact (G2 (with_period (Rmax (a_period s / 2) 128) s)).
  - subst s'. exact (G2 (with_period (Rmin (a_period s * 2) 8192) s)).
  - subst s'. unfold update. destruct (forward k (a_ca s) (a_grid s)) as [c [g|er]]; cbn; auto.
Qed.

(** ** A small library *)
Definition blob (h w : nat) : tensor := build 1 1 h w (fun _ _ _ _ => 1%R).
Definition full : string := ("ca_config,orbium.npy" ++ String nl "commit_hash,abc" ++ String nl "notes, None" ++ String nl "entry_point,python")%string.
Definition library (a b c : tensor) : dir tensor :=
  [("frog000.npy", CArray a); ("frog000.csv", CText full);
   ("old000.npy", CArray b); ("old000.csv", CText "ca_config,life.npy");
   ("orbium_orbium000.npy", CArray c); ("orbium_orbium000.csv", CText full);
   ("librarian.py", CText "")]%string.
Definition ex_dir : dir tensor := library (blob 20 30) (blob 90 90) (blob 21 21).
Definition ex_machine : machine nat := mkMachine (fun c _ => (S c, None)) (fun c g => (c, Ok g)).
Definition full_meta : meta := mkMeta ("orbium.npy" ++ String nl "") "python" ("abc" ++ String nl "") (" None" ++ String nl "").

(** Resetting with an empty index raises; the texts stay. *)
Example C88_texts_stay_example : exists s', react 1 ex_machine ex_dir EThis (mkApp blank [] 0%nat [] true 512%R 0 "a" "b" "c" "d") = (s', Some IndexError) /\ a_git s' = "d"%string.
Proof. eexists. split; reflexivity. Qed.

Lemma library_loads a b c : load (library a b c) "frog000" = Ok (a, full_meta) /\
  load (library a b c) "old000" = Ok (b, mkMeta "life.npy" "none" "none" "") /\
  load (library a b c) "orbium_orbium000" = Ok (c, full_meta).
Proof. split; [|split]; vm_compute; reflexivity. Qed.
Lemma library_index a b c : update_index (library a b c) = ["frog000"; "old000"; "orbium_orbium000"]%string.
Proof. vm_compute; reflexivity. Qed.
Example ex_index : update_index ex_dir = ["frog000"; "old000"; "orbium_orbium000"]%string.
Proof. apply library_index. Qed.
Lemma blob_fits h w : h <= 90 -> w <= 90 -> fits (blob h w).
Proof. intros H W. split; [reflexivity|]. split; [reflexivity|]. split; assumption. Qed.
Example ex_keeps : keeps_shape ex_machine.
Proof. intros c u c' v T E. injection E as _ <-. auto. Qed.

Example ex_usable : Forall (usable ex_machine ex_dir) (update_index ex_dir).
Proof.
  rewrite ex_index. destruct (library_loads (blob 20 30) (blob 90 90) (blob 21 21)) as (L1 & L2 & L3). fold ex_dir in L1, L2, L3.
  apply Forall_cons; [|apply Forall_cons; [|apply Forall_cons; [|apply Forall_nil]]].
  - exists (blob 20 30). eexists. split; [exact L1|]. split; [apply blob_fits; lia|reflexivity].
  - exists (blob 90 90). eexists. split; [exact L2|]. split; [apply blob_fits; lia|reflexivity].
  - exists (blob 21 21). eexists. split; [exact L3|]. split; [apply blob_fits; lia|reflexivity].
Qed.
Example ex_visible : visible_entry ex_dir "frog000" /\ hidden_entry ex_dir "old000" /\ visible_entry ex_dir "orbium_orbium000".
Proof.
  destruct (library_loads (blob 20 30) (blob 90 90) (blob 21 21)) as (L1 & L2 & L3). fold ex_dir in L1, L2, L3.
  split; [|split].
  - exists (blob 20 30). eexists. split; [exact L1|]. discriminate.
  - exists (blob 90 90). eexists. split; [exact L2|reflexivity].
  - exists (blob 21 21). eexists. split; [exact L3|]. discriminate.
Qed.
(** Starting it, going to the next pattern and back over the hidden entry. *)
Example ex_start : exists s, start ex_machine ex_dir 0 = (s, None) /\ a_index s = ["frog000"; "old000"; "orbium_orbium000"].
Proof.
  assert (F : fits (blob 21 21)) by (apply blob_fits; lia). destruct (place_fits _ F) as (g & G & _).
  destruct (library_loads (blob 20 30) (blob 90 90) (blob 21 21)) as (_ & _ & L3). fold ex_dir in L3.
  unfold start. rewrite L3.
  rewrite G. cbn [restore ex_machine m_config].
  set (s0 := with_ca _ _). assert (I : a_index s0 = ["frog000"; "old000"] ++ ["orbium_orbium000"]) by exact ex_index. clearbody s0.
  assert (U : usable ex_machine ex_dir "orbium_orbium000") by (pose proof ex_usable as U; rewrite ex_index in U; inversion U as [|? ? _ U1]; inversion U1 as [|? ? _ U2]; exact (Forall_inv U2)).
  destruct (this_ok ex_machine ex_dir _ _ s0 I U) as (p & m & s' & _ & E & J & _). exists s'. split; [exact E|]. rewrite J, I. reflexivity.
Qed.
Example ex_next_prev s : a_index s = ["frog000"; "old000"; "orbium_orbium000"] ->
  exists s1 s2, reset_next 3 ex_machine ex_dir s = (s1, None) /\ reset_prev 3 ex_machine ex_dir s1 = (s2, None) /\
    a_index s2 = a_index s /\ showing ex_dir "orbium_orbium000" s2.
Proof.
  intros I. apply C87_inverse with (a := ["frog000"; "old000"]); [exact I|rewrite I, <- ex_index; exact ex_usable|apply ex_visible|rewrite I; cbn; lia].
Qed.
(** A pattern of 91 rows is too large. *)
Example ex_too_big : place (blob 91 4) = Err RuntimeError.
Proof. apply C87_place. intros (_ & _ & H & _). change (tH (blob 91 4)) with 91 in H. lia. Qed.

Print Assumptions C87_place.
Print Assumptions C87_start.
Print Assumptions C87_next.
Print Assumptions C87_prev.
Print Assumptions C87_prev_same.
Print Assumptions C87_this.
Print Assumptions C87_texts.
Print Assumptions C87_inverse.
Print Assumptions C87_history.
Print Assumptions C87_displayed.
Print Assumptions C87_round.
Print Assumptions C87_endless.
Print Assumptions C87_stored.
Print Assumptions C87_lost.
Print Assumptions C87_no_return.
Print Assumptions C88_timer.
Print Assumptions C88_start.
Print Assumptions C88_buttons.
Print Assumptions C88_speeds.
Print Assumptions C88_counter.
Print Assumptions C88_update.
Print Assumptions C87_canvas.
Print Assumptions C88_texts_stay.
