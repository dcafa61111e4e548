(** Theorems about the pattern library (yuca/zoo/librarian.py): properties C43, C44, C45. *)
From Coq Require Import NArith List Arith Bool String Ascii Lia Permutation Sorting.Sorted.
From Verif Require Import Base MText SText PText MLibrarian SLibrarian PLibrarian MConfig PConfigV.
Import ListNotations.
Open Scope string_scope.

(** ** C43 Storing *)

(** The loop over counters ends for every directory, and its result does not depend on how
    long it is allowed to run. *)
Theorem C43_terminates {A} fuel v (d : dir A) p name cfg ca entry commit notes : List.length d < fuel ->
  exists e d1 d2, store fuel v d p name cfg ca entry commit notes = Some (e, d1, d2) /\
    forall fuel', List.length d < fuel' -> store fuel' v d p name cfg ca entry commit notes = Some (e, d1, d2).
Proof.
  intros H. destruct (store_total fuel v d p name cfg ca entry commit notes H) as (e & d1 & d2 & E).
  exists e, d1, d2. split; [exact E|]. intros fuel' H'. rewrite <- E. apply store_fuel; assumption.
Qed.

(** The least counter whose array file does not exist is used. *)
Theorem C43_counter {A} fuel v (d : dir A) p name cfg ca entry commit notes e d1 d2 :
  store fuel v d p name cfg ca entry commit notes = Some (e, d1, d2) ->
  exists c, e = name ++ pad 3 c /\ least_free d name c.
Proof. intros H. destruct (store_inv _ _ _ _ _ _ _ _ _ _ _ _ _ H) as (c & L & E & _). now exists c. Qed.

(** The formatted counter: decimal digits denoting the number, as many as asked for while the
    number fits. *)
Theorem C43_format w n : number_of (pad w n) = n /\ every is_digit (pad w n) /\
  ((n < 10 ^ N.of_nat w)%N -> w <> O -> String.length (pad w n) = w).
Proof. split; [apply pad_number|]. split; [apply pad_digits|apply pad_length]. Qed.

(** What is written, after the first and after the second write. *)
Theorem C43_writes {A} fuel v (d : dir A) p name cfg ca entry commit notes e d1 d2 :
  store fuel v d p name cfg ca entry commit notes = Some (e, d1, d2) ->
  dget d (e ++ ".npy") = None /\ dget d1 (e ++ ".npy") = None /\ dget d2 (e ++ ".npy") = Some (CArray p) /\
  dget d1 (e ++ ".csv") = dget d2 (e ++ ".csv") /\
  (forall f, f <> e ++ ".csv" -> f <> e ++ ".npy" -> dget d1 f = dget d f /\ dget d2 f = dget d f).
Proof.
  intros H. split; [exact (store_new _ _ _ _ _ _ _ _ _ _ _ _ _ H)|]. split; [exact (store_half _ _ _ _ _ _ _ _ _ _ _ _ _ H)|].
  split; [exact (store_npy _ _ _ _ _ _ _ _ _ _ _ _ _ H)|]. split; [exact (proj2 (store_csv _ _ _ _ _ _ _ _ _ _ _ _ _ H))|].
  exact (store_frame _ _ _ _ _ _ _ _ _ _ _ _ _ H).
Qed.

(** No stored array is ever changed, by any sequence of stores, some of them killed between
    their two writes; and whatever could be loaded before can be loaded afterwards, with the
    same result. *)
Theorem C43_keeps {A} v (d d' : dir A) rs g : history v d rs d' ->
  (dget d (g ++ ".npy") <> None -> dget d' (g ++ ".npy") = dget d (g ++ ".npy")) /\
  (forall x, load d g = Ok x -> load d' g = Ok x).
Proof. intros H. split; [exact (history_keeps_npy v d d' rs g H)|]. intros x. exact (history_keeps v d d' rs g x H). Qed.

(** Every sequence of requests can be carried out. *)
Theorem C43_history_total {A} v (rs : list (request A)) d : exists d', history v d rs d'.
Proof. exact (history_total v rs d). Qed.

Definition zoo : dir nat := [("frog000.npy", CArray 7); ("frog001.npy", CArray 8); ("frog000.csv", CText "x,y"); ("frog002.csv", CText "old")].
Example ex_store : store 9 true zoo 42 "frog" "orbium" "unspecified" "Glider" "abc" None =
  Some ("frog002", 
    [("frog000.npy", CArray 7); ("frog001.npy", CArray 8); ("frog000.csv", CText "x,y"); ("frog002.csv", CText (meta_text "orbium" "abc" "None" "Glider"))],
    [("frog000.npy", CArray 7); ("frog001.npy", CArray 8); ("frog000.csv", CText "x,y"); ("frog002.csv", CText (meta_text "orbium" "abc" "None" "Glider")); ("frog002.npy", CArray 42)]).
Proof. reflexivity. Qed.
(** Two names can denote the same entry; the existence test keeps them apart. *)
Example ex_clash : option_map (fun r => fst (fst r)) (store 9 true [("a1000.npy", CArray 1)] 2 "a1" "" "" "" "" None) = Some "a1001".
Proof. reflexivity. Qed.
Example ex_history : let r n c := mkReq n "frog" "orbium" "" "e" "h" None c in
  exists d', history true zoo [r 1 true; r 2 false; r 3 false] d' /\ dget d' "frog002.npy" = Some (CArray 2) /\ dget d' "frog003.npy" = Some (CArray 3).
Proof.
  cbv zeta. eexists. split; [|split].
  - eapply history_crash; [reflexivity|reflexivity|]. eapply history_done; [reflexivity|reflexivity|].
    eapply history_done; [reflexivity|reflexivity|]. apply history_nil.
  - reflexivity.
  - reflexivity.
Qed.

(** ** C44 Loading what was stored *)

(** For text without commas and line breaks. *)
Theorem C44_round_trip {A} fuel v (d : dir A) p name cfg ca entry commit notes e d1 d2 :
  store fuel v d p name cfg ca entry commit notes = Some (e, d1, d2) ->
  plain (chosen_config v cfg ca) -> plain commit -> plain (notes_text notes) -> plain entry ->
  load d2 e = Ok (p, mkMeta (chosen_config v cfg ca ++ String nl "") entry (commit ++ String nl "") (" " ++ notes_text notes ++ String nl "")).
Proof. exact (load_plain fuel v d p name cfg ca entry commit notes e d1 d2). Qed.

(** And it stays so through any later history. *)
Theorem C44_round_trip_later {A} fuel v (d d' : dir A) p name cfg ca entry commit notes e d1 d2 v' rs :
  store fuel v d p name cfg ca entry commit notes = Some (e, d1, d2) ->
  plain (chosen_config v cfg ca) -> plain commit -> plain (notes_text notes) -> plain entry -> history v' d2 rs d' ->
  load d' e = Ok (p, mkMeta (chosen_config v cfg ca ++ String nl "") entry (commit ++ String nl "") (" " ++ notes_text notes ++ String nl "")).
Proof.
  intros H C Hc N E Hh. eapply history_keeps; [exact Hh|]. exact (load_plain fuel v d p name cfg ca entry commit notes e d1 d2 H C Hc N E).
Qed.

(** With commas each field is cut at its first comma. *)
Theorem C44_truncated {A} fuel v (d : dir A) p name cfg ca entry commit notes e d1 d2 :
  store fuel v d p name cfg ca entry commit notes = Some (e, d1, d2) ->
  one_line (chosen_config v cfg ca) -> one_line commit -> one_line (notes_text notes) -> one_line entry ->
  exists m, load d2 e = Ok (p, m) /\
    (forall a b, lacks "," a -> chosen_config v cfg ca = a ++ String "," b -> m_config m = a) /\
    (forall a b, lacks "," a -> commit = a ++ String "," b -> m_commit m = a) /\
    (forall a b, lacks "," a -> notes_text notes = a ++ String "," b -> m_notes m = " " ++ a) /\
    (forall a b, lacks "," a -> entry = a ++ String "," b -> m_entry m = a).
Proof.
  intros H C Hc N E. eexists. split; [exact (load_stored fuel v d p name cfg ca entry commit notes e d1 d2 H C Hc N E)|].
  cbn [m_config m_commit m_notes m_entry]. split; [|split; [|split]]; intros a b L ->.
  - rewrite append_assoc_s. apply (upto_cut "," a). exact L.
  - rewrite append_assoc_s. apply (upto_cut "," a). exact L.
  - rewrite append_assoc_s. change (" " ++ a ++ String "," b ++ String nl "") with ((" " ++ a) ++ String "," (b ++ String nl "")).
    apply upto_cut. split; [discriminate|exact L].
  - apply upto_cut. exact L.
Qed.

(** The configuration name that is written: the second name only counts when the first is
    left unspecified and the librarian is verbose. *)
Theorem C44_config v cfg ca : (cfg <> "unspecified" -> chosen_config v cfg ca = cfg) /\
  (chosen_config true "unspecified" ca = ca) /\ (chosen_config false "unspecified" ca = "unspecified").
Proof.
  unfold chosen_config. split; [|split].
  - intros N. destruct (String.eqb_spec cfg "unspecified"); [contradiction|reflexivity].
  - cbn. destruct (String.eqb_spec ca "unspecified") as [->|]; reflexivity.
  - reflexivity.
Qed.

(** The configuration name as loaded, newline included, restores the same configuration. *)
Theorem C44_restores {A} fuel v (d : dir A) p name cfg ca entry commit notes e d1 d2 n ev rng o h :
  store fuel v d p name cfg ca entry commit notes = Some (e, d1, d2) ->
  plain (chosen_config v cfg ca) -> plain commit -> plain (notes_text notes) -> plain entry ->
  exists m, load d2 e = Ok (p, m) /\ restore_config n ev rng o (m_config m) h = restore_config n ev rng o (chosen_config v cfg ca) h.
Proof.
  intros H C Hc N E. eexists. split; [exact (load_plain fuel v d p name cfg ca entry commit notes e d1 d2 H C Hc N E)|].
  cbn [m_config]. unfold restore_config, restore_with. cbv zeta.
  assert (S : forall s, strip_newlines (s ++ String nl "") = strip_newlines s).
  { intros s. induction s as [|a s IH]; [reflexivity|]. cbn [append strip_newlines]. rewrite IH. reflexivity. }
  rewrite S. reflexivity.
Qed.

(** When loading fails. *)
Theorem C44_errors {A} (d : dir A) e :
  (dget d (e ++ ".npy") = None -> load d e = Err FileNotFoundError) /\
  (forall a, dget d (e ++ ".npy") = Some (CArray a) -> dget d (e ++ ".csv") = None -> load d e = Err FileNotFoundError) /\
  (forall a s, dget d (e ++ ".npy") = Some (CArray a) -> dget d (e ++ ".csv") = Some (CText s) ->
     ((exists l t m, lines (universal s) = (l ++ String "," t) :: m) <-> exists x, load d e = Ok (a, x)) /\
     ((~ exists l t m, lines (universal s) = (l ++ String "," t) :: m) <-> load d e = Err IndexError)).
Proof. exact (load_errors d e). Qed.

(** So an interrupted store leaves an entry that cannot be loaded. *)
Theorem C44_interrupted {A} fuel v (d : dir A) p name cfg ca entry commit notes e d1 d2 :
  store fuel v d p name cfg ca entry commit notes = Some (e, d1, d2) -> load d1 e = Err FileNotFoundError.
Proof. intros H. apply (proj1 (load_errors d1 e)). exact (store_half _ _ _ _ _ _ _ _ _ _ _ _ _ H). Qed.

Example ex_load : option_map (fun r => load (snd r) "frog002") (store 9 true zoo 42 "frog" "orbium" "unspecified" "Glider" "abc" (Some "found by hand")) =
  Some (Ok (42, mkMeta ("orbium" ++ String nl "") "Glider" ("abc" ++ String nl "") (" found by hand" ++ String nl ""))).
Proof. reflexivity. Qed.
Example ex_commas : option_map (fun r => load (snd r) "frog002") (store 9 true zoo 42 "frog" "orbium" "" "a,b" "abc" (Some "fast, small")) =
  Some (Ok (42, mkMeta ("orbium" ++ String nl "") "a" ("abc" ++ String nl "") " fast")).
Proof. reflexivity. Qed.
(** A note with a line break hides the entry point. *)
Example ex_multiline : option_map (fun r => load (snd r) "frog002") (store 9 true zoo 42 "frog" "orbium" "" "Glider" "abc" (Some ("one" ++ String nl "two"))) =
  Some (Ok (42, mkMeta ("orbium" ++ String nl "") "none" ("abc" ++ String nl "") (" one" ++ String nl ""))).
Proof. reflexivity. Qed.
(** The two-line files of the collection: the note is reported as the commit. *)
Example ex_old : load [("frog000.npy", CArray 7); ("frog000.csv", CText ("ca_config,orbium" ++ String nl "notes, small"))] "frog000" =
  Ok (7, mkMeta ("orbium" ++ String nl "") "none" " small" "").
Proof. reflexivity. Qed.

(** ** C45 The index *)

(** After a store the new entry is listed exactly when the pattern's name contains none of the
    filtered words; the listing is sorted; nothing else appears or disappears. *)
Theorem C45_listed {A} fuel v (d : dir A) p name cfg ca entry commit notes e d1 d2 :
  store fuel v d p name cfg ca entry commit notes = Some (e, d1, d2) ->
  (In e (update_index d2) <-> forall w, In w filtered -> ~ occurs w name).
Proof. exact (index_stored fuel v d p name cfg ca entry commit notes e d1 d2). Qed.

Theorem C45_sorted {A} (d : dir A) : StronglySorted not_after (update_index d).
Proof. exact (index_sorted d). Qed.

Theorem C45_frame {A} fuel v (d : dir A) p name cfg ca entry commit notes e d1 d2 :
  store fuel v d p name cfg ca entry commit notes = Some (e, d1, d2) ->
  (forall s, In s (update_index d) -> In s (update_index d2)) /\
  (forall s, In s (update_index d2) -> s = e \/ In s (update_index d)).
Proof.
  intros H. split; intros s.
  - exact (index_mono fuel v d p name cfg ca entry commit notes e d1 d2 s H).
  - exact (index_only fuel v d p name cfg ca entry commit notes e d1 d2 s H).
Qed.

(** The index in general: the stems of the files without filtered word, one for each file. *)
Theorem C45_index {A} (d : dir A) :
  Permutation (update_index d) (map stem (filter (fun f => negb (hidden f)) (map fst d))) /\
  (forall f, hidden f = true <-> exists w, In w filtered /\ occurs w f).
Proof. split; [apply Permutation_sym, sort_perm|exact hidden_spec]. Qed.

(** Stems: up to the last dot; a name without a dot, or with only dots before the last one,
    is its own stem. *)
Theorem C45_stem p s : lacks "." s ->
  (stem s = s) /\ (every (fun a => a = "."%char) p -> stem (p ++ String "." s) = p ++ String "." s) /\
  (~ every (fun a => a = "."%char) p -> stem (p ++ String "." s) = p).
Proof.
  intros H. unfold stem. split; [|split].
  - assert (E : last_dot s = None).
    { clear p. induction s as [|a s IH]; [reflexivity|]. destruct H as [Ha Hs]. cbn. rewrite (IH Hs).
      destruct (Ascii.eqb_spec a "."); [congruence|reflexivity]. }
    now rewrite E.
  - intros P. rewrite last_dot_app by exact H.
    assert (D : all_dots p = true). { induction p as [|a p IH]; [reflexivity|]. destruct P as [-> P]. cbn. exact (IH P). }
    now rewrite D.
  - intros P. rewrite last_dot_app by exact H.
    assert (D : all_dots p = false).
    { apply not_true_iff_false. intros D. apply P. clear P. induction p as [|a p IH]; [exact I|]. cbn in D.
      apply andb_true_iff in D as [D1 D2]. apply Ascii.eqb_eq in D1. split; [exact D1|exact (IH D2)]. }
    now rewrite D.
Qed.

Example ex_index : option_map (fun r => update_index (snd r)) (store 9 true (("librarian.py", CText "") :: ("aphid000.npy", CArray 1) :: ("__pycache__", CText "") :: zoo) 42 "frog" "orbium" "" "" "" None) =
  Some ["aphid000"; "frog000"; "frog001"; "frog002"].
Proof. reflexivity. Qed.
Example ex_hidden : option_map (fun r => (fst (fst r), update_index (snd r))) (store 9 true zoo 42 "csv_frog" "orbium" "" "" "" None) = Some ("csv_frog000", ["frog000"; "frog001"]).
Proof. reflexivity. Qed.

(** ** C67 Cropping *)
Theorem C67_crop {X} (m : list (list X)) r0 r1 c0 c1 i j :
  match nth_error (crop m r0 r1 c0 c1) i with Some row => nth_error row j | None => None end =
  if (Nat.ltb i (r1 - r0)) && (Nat.ltb j (c1 - c0)) then match nth_error m (r0 + i) with Some row => nth_error row (c0 + j) | None => None end else None.
Proof. exact (crop_nth m r0 r1 c0 c1 i j). Qed.

Example ex_crop : crop [[1;2;3];[4;5;6];[7;8;9]] 1 3 0 2 = [[4;5];[7;8]] /\ crop [[1;2;3];[4;5;6]] 1 9 2 9 = [[6]].
Proof. split; reflexivity. Qed.

Print Assumptions C43_terminates.
Print Assumptions C43_counter.
Print Assumptions C43_format.
Print Assumptions C43_writes.
Print Assumptions C43_keeps.
Print Assumptions C43_history_total.
Print Assumptions C44_round_trip.
Print Assumptions C44_round_trip_later.
Print Assumptions C44_truncated.
Print Assumptions C44_config.
Print Assumptions C44_restores.
Print Assumptions C44_errors.
Print Assumptions C44_interrupted.
Print Assumptions C45_listed.
Print Assumptions C45_sorted.
Print Assumptions C45_frame.
Print Assumptions C45_index.
Print Assumptions C45_stem.
Print Assumptions C67_crop.
