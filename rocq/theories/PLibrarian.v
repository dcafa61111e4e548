(** Proofs about the pattern library. *)
From Coq Require Import NArith List Arith Bool String Ascii Lia Permutation Sorting.Sorted.
From Verif Require Import Base MText SText PText MLibrarian SLibrarian.
Import ListNotations.
Open Scope string_scope.

Lemma dget_same {A} (d : dir A) f c : dget (dput d f c) f = Some c.
Proof.
  induction d as [|[g x] t IH]; cbn; [now rewrite String.eqb_refl|].
  destruct (String.eqb f g) eqn:E; cbn; rewrite E; [reflexivity|exact IH].
Qed.

Lemma dget_other {A} (d : dir A) f g c : f <> g -> dget (dput d f c) g = dget d g.
Proof.
  intros N. induction d as [|[k x] t IH]; cbn.
  - destruct (String.eqb_spec g f); [congruence|reflexivity].
  - destruct (String.eqb_spec f k) as [->|Nk]; cbn.
    + destruct (String.eqb_spec g k); [congruence|reflexivity].
    + rewrite IH. reflexivity.
Qed.

Lemma dget_in {A} (d : dir A) f : dget d f <> None <-> In f (map fst d).
Proof.
  induction d as [|[g x] t IH]; cbn; [tauto|].
  destruct (String.eqb_spec f g) as [->|N].
  - split; [now left|discriminate].
  - rewrite IH. split; [now right|]. intros [E|H]; [congruence|exact H].
Qed.

Lemma app_inv_r_s a b c : a ++ c = b ++ c -> a = b.
Proof.
  revert b. induction a as [|x a IH]; intros b E.
  - destruct b as [|y b]; [reflexivity|]. apply (f_equal String.length) in E. cbn in E. rewrite length_app_s in E. lia.
  - destruct b as [|y b].
    + apply (f_equal String.length) in E. cbn in E. rewrite length_app_s in E. lia.
    + cbn in E. injection E as -> E. now rewrite (IH b E).
Qed.

Lemma app_inv_l_s a b c : a ++ b = a ++ c -> b = c.
Proof. induction a as [|x a IH]; cbn; [auto|]. intros E. injection E. exact IH. Qed.

Lemma ext_differ a b : a ++ ".csv" <> b ++ ".npy".
Proof.
  revert b. induction a as [|x a IH]; intros b E; pose proof (f_equal String.length E) as L; rewrite !length_app_s in L; cbn in L.
  - destruct b as [|y b]; [discriminate|cbn in L; lia].
  - destruct b as [|y b]; [cbn in L; lia|]. cbn in E. injection E as _ E. exact (IH b E).
Qed.

Lemma entry_inj name i j : entry_name name i ++ ".npy" = entry_name name j ++ ".npy" -> i = j.
Proof. intros E. apply app_inv_r_s in E. unfold entry_name in E. apply app_inv_l_s in E. now apply pad_inj in E. Qed.

Lemma exists_file_spec {A} (d : dir A) f : exists_file d f = true <-> dget d f <> None.
Proof. unfold exists_file. destruct (dget d f); split; congruence. Qed.

Lemma find_free_some {A} fuel (d : dir A) name c0 c : find_free fuel d name c0 = Some c ->
  (c0 <= c)%N /\ dget d (entry_name name c ++ ".npy") = None /\
  (forall j, (c0 <= j < c)%N -> dget d (entry_name name j ++ ".npy") <> None).
Proof.
  revert c0. induction fuel as [|f IH]; intros c0 H; cbn in H; [discriminate|].
  destruct (exists_file d (entry_name name c0 ++ ".npy")) eqn:E.
  - apply exists_file_spec in E. destruct (IH _ H) as (L & N & U). split; [lia|]. split; [exact N|].
    intros j Hj. destruct (N.eq_dec j c0) as [->|]; [exact E|]. apply U. lia.
  - injection H as <-. split; [lia|]. split; [|intros j Hj; lia].
    unfold exists_file in E. destruct (dget d (entry_name name c0 ++ ".npy")); [discriminate|reflexivity].
Qed.

Lemma find_free_none {A} fuel (d : dir A) name c0 : find_free fuel d name c0 = None ->
  forall k, k < fuel -> dget d (entry_name name (c0 + N.of_nat k) ++ ".npy") <> None.
Proof.
  revert c0. induction fuel as [|f IH]; intros c0 H k Hk; [lia|]. cbn in H.
  destruct (exists_file d (entry_name name c0 ++ ".npy")) eqn:E; [|discriminate].
  apply exists_file_spec in E. destruct k as [|k].
  - now replace (c0 + N.of_nat 0)%N with c0 by lia.
  - replace (c0 + N.of_nat (S k))%N with (c0 + 1 + N.of_nat k)%N by lia. apply IH; [exact H|lia].
Qed.

(** Pigeonhole: one more candidate than files. *)
Lemma find_free_ok {A} fuel (d : dir A) name : List.length d < fuel -> find_free fuel d name 0 <> None.
Proof.
  intros Hf H. pose proof (find_free_none _ _ _ _ H) as U.
  set (cands := map (fun k => entry_name name (0 + N.of_nat k) ++ ".npy") (seq 0 fuel)).
  assert (ND : NoDup cands).
  { unfold cands. apply FinFun.Injective_map_NoDup; [|apply seq_NoDup].
    intros i j E. apply entry_inj in E. lia. }
  assert (IN : incl cands (map fst d)).
  { intros x Hx. apply in_map_iff in Hx as (k & <- & Hk). apply in_seq in Hk. apply dget_in. apply U. lia. }
  pose proof (NoDup_incl_length ND IN) as L. unfold cands in L. rewrite !map_length, seq_length in L. lia.
Qed.

Lemma find_free_fuel {A} fuel fuel' (d : dir A) name : List.length d < fuel -> List.length d < fuel' ->
  find_free fuel d name 0 = find_free fuel' d name 0.
Proof.
  intros H H'. destruct (find_free fuel d name 0) as [c|] eqn:E; [|exfalso; exact (find_free_ok _ _ _ H E)].
  destruct (find_free fuel' d name 0) as [c'|] eqn:E'; [|exfalso; exact (find_free_ok _ _ _ H' E')].
  apply find_free_some in E as (_ & N & U). apply find_free_some in E' as (_ & N' & U'). f_equal.
  destruct (N.lt_trichotomy c c') as [L|[L|L]]; [|exact L|].
  - exfalso. exact (U' c (conj (N.le_0_l _) L) N).
  - exfalso. exact (U c' (conj (N.le_0_l _) L) N').
Qed.

Section Store.
Context {A : Type}.
Variables (fuel : nat) (v : bool) (d : dir A) (p : A) (name cfg ca entry commit : string) (notes : option string).
Variables (e : string) (d1 d2 : dir A).
Hypothesis H : store fuel v d p name cfg ca entry commit notes = Some (e, d1, d2).

Lemma store_inv : exists c, least_free d name c /\ e = name ++ pad 3 c /\
  d1 = dput d (e ++ ".csv") (CText (meta_text (chosen_config v cfg ca) commit (notes_text notes) entry)) /\
  d2 = dput d1 (e ++ ".npy") (CArray p).
Proof.
  unfold store in H. destruct (find_free fuel d name 0) as [c|] eqn:E; [|discriminate].
  injection H as <- <- <-. apply find_free_some in E as (_ & N & U). exists c.
  split; [|split; [reflexivity|split; reflexivity]]. unfold least_free, entry_name in *. rewrite append_assoc_s in N.
  split; [exact N|]. intros j Hj. specialize (U j (conj (N.le_0_l _) Hj)). now rewrite append_assoc_s in U.
Qed.

Lemma store_new : dget d (e ++ ".npy") = None.
Proof. destruct store_inv as (c & (N & _) & -> & _). now rewrite append_assoc_s. Qed.

Lemma store_npy : dget d2 (e ++ ".npy") = Some (CArray p).
Proof. destruct store_inv as (c & _ & _ & _ & ->). apply dget_same. Qed.

Lemma store_csv : dget d2 (e ++ ".csv") = Some (CText (meta_text (chosen_config v cfg ca) commit (notes_text notes) entry)) /\ dget d1 (e ++ ".csv") = dget d2 (e ++ ".csv").
Proof.
  destruct store_inv as (c & _ & _ & -> & ->). rewrite dget_other by (intros E; symmetry in E; exact (ext_differ _ _ E)).
  rewrite dget_same. split; reflexivity.
Qed.

Lemma store_half : dget d1 (e ++ ".npy") = None.
Proof. pose proof store_new as N. destruct store_inv as (c & _ & _ & -> & _). rewrite dget_other by apply ext_differ. exact N. Qed.

Lemma store_frame f : f <> e ++ ".csv" -> f <> e ++ ".npy" -> dget d1 f = dget d f /\ dget d2 f = dget d f.
Proof.
  intros N1 N2. destruct store_inv as (c & _ & _ & -> & ->).
  rewrite !dget_other by congruence. split; reflexivity.
Qed.

Lemma store_keeps g : dget d (g ++ ".npy") <> None -> dget d1 (g ++ ".npy") = dget d (g ++ ".npy") /\ dget d2 (g ++ ".npy") = dget d (g ++ ".npy").
Proof.
  intros Hg. apply store_frame.
  - intros E. symmetry in E. exact (ext_differ _ _ E).
  - intros E. rewrite E in Hg. exact (Hg store_new).
Qed.

Lemma store_keeps_load g x : load d g = Ok x -> load d1 g = Ok x /\ load d2 g = Ok x.
Proof.
  intros L. assert (Hn : dget d (g ++ ".npy") <> None) by (unfold load in L; destruct (dget d (g ++ ".npy")); [discriminate|discriminate]).
  destruct (store_keeps g Hn) as [K1 K2].
  assert (Hge : g <> e) by (intros ->; exact (Hn store_new)).
  assert (C : dget d1 (g ++ ".csv") = dget d (g ++ ".csv") /\ dget d2 (g ++ ".csv") = dget d (g ++ ".csv")).
  { apply store_frame; [|apply ext_differ]. intros E. apply app_inv_r_s in E. contradiction. }
  destruct C as [C1 C2]. unfold load in *. rewrite K1, K2, C1, C2. split; exact L.
Qed.
End Store.

Lemma store_total {A} fuel v (d : dir A) p name cfg ca entry commit notes : List.length d < fuel ->
  exists e d1 d2, store fuel v d p name cfg ca entry commit notes = Some (e, d1, d2).
Proof.
  intros Hf. unfold store. destruct (find_free fuel d name 0) as [c|] eqn:E; [|exfalso; exact (find_free_ok _ _ _ Hf E)].
  do 3 eexists. reflexivity.
Qed.

Lemma store_fuel {A} fuel fuel' v (d : dir A) p name cfg ca entry commit notes : List.length d < fuel -> List.length d < fuel' ->
  store fuel v d p name cfg ca entry commit notes = store fuel' v d p name cfg ca entry commit notes.
Proof. intros Hf Hf'. unfold store. now rewrite (find_free_fuel fuel fuel' d name Hf Hf'). Qed.

Lemma history_total {A} v (rs : list (request A)) d : exists d', history v d rs d'.
Proof.
  revert d. induction rs as [|r rs IH]; intros d; [exists d; constructor|].
  destruct (store_total (S (List.length d)) v d (r_pattern r) (r_name r) (r_config r) (r_ca r) (r_entry r) (r_commit r) (r_notes r) ltac:(lia)) as (e & d1 & d2 & H).
  destruct (r_crash r) eqn:C.
  - destruct (IH d1) as (d' & H'). exists d'. eapply history_crash; eassumption.
  - destruct (IH d2) as (d' & H'). exists d'. eapply history_done; eassumption.
Qed.

Lemma history_keeps {A} v (d d' : dir A) rs g x : history v d rs d' -> load d g = Ok x -> load d' g = Ok x.
Proof.
  intros H. induction H as [d|d r rs e d1 d2 d' C S H IH|d r rs e d1 d2 d' C S H IH]; intros L; [exact L| |].
  - apply IH. exact (proj2 (store_keeps_load _ _ _ _ _ _ _ _ _ _ _ _ _ S g x L)).
  - apply IH. exact (proj1 (store_keeps_load _ _ _ _ _ _ _ _ _ _ _ _ _ S g x L)).
Qed.

Lemma history_keeps_npy {A} v (d d' : dir A) rs g : history v d rs d' -> dget d (g ++ ".npy") <> None -> dget d' (g ++ ".npy") = dget d (g ++ ".npy").
Proof.
  intros H. induction H as [d|d r rs e d1 d2 d' C S H IH|d r rs e d1 d2 d' C S H IH]; intros L; [reflexivity| |].
  - pose proof (proj2 (store_keeps _ _ _ _ _ _ _ _ _ _ _ _ _ S g L)) as K. rewrite IH, K; [reflexivity|]. now rewrite K.
  - pose proof (proj1 (store_keeps _ _ _ _ _ _ _ _ _ _ _ _ _ S g L)) as K. rewrite IH, K; [reflexivity|]. now rewrite K.
Qed.

(** ** Metadata *)

Lemma lacks_app c a b : lacks c a -> lacks c b -> lacks c (a ++ b).
Proof. intros Ha Hb. apply every_app. now split. Qed.

Lemma lacks_cons c a b : a <> c -> lacks c b -> lacks c (String a b).
Proof. now split. Qed.

Ltac lk := repeat first [apply lacks_app | apply lacks_cons; [discriminate|] | assumption | exact I].

Lemma meta_lines cfg commit notes entry : one_line cfg -> one_line commit -> one_line notes -> one_line entry ->
  lines (universal (meta_text cfg commit notes entry)) =
  ["ca_config," ++ cfg ++ String nl ""; "commit_hash," ++ commit ++ String nl ""; "notes, " ++ notes ++ String nl ""; "entry_point," ++ entry].
Proof.
  intros [C1 C2] [H1 H2] [N1 N2] [E1 E2]. rewrite universal_id by (unfold meta_text; lk).
  unfold meta_text.
  rewrite <- (append_assoc_s "ca_config,"). change (String nl "commit_hash," ++ ?x) with (String nl ("commit_hash," ++ x)).
  rewrite lines_cons by lk. f_equal.
  rewrite <- (append_assoc_s "commit_hash,"). change (String nl "notes, " ++ ?x) with (String nl ("notes, " ++ x)).
  rewrite lines_cons by lk. f_equal.
  rewrite <- (append_assoc_s "notes, "). change (String nl "entry_point," ++ ?x) with (String nl ("entry_point," ++ x)).
  rewrite lines_cons by lk. f_equal.
  apply lines_last; [lk|discriminate].
Qed.

Lemma meta_load cfg commit notes entry : one_line cfg -> one_line commit -> one_line notes -> one_line entry ->
  let ls := lines (universal (meta_text cfg commit notes entry)) in
  field ls 0 = Some (upto "," (cfg ++ String nl "")) /\ field ls 1 = Some (upto "," (commit ++ String nl "")) /\
  field ls 2 = Some (upto "," (" " ++ notes ++ String nl "")) /\ field ls 3 = Some (upto "," entry).
Proof.
  intros C H N E. cbv zeta. rewrite meta_lines by assumption. unfold field. cbn [nth_error].
  split; [|split; [|split]].
  - apply (split_second "," "ca_config"). lk.
  - apply (split_second "," "commit_hash"). lk.
  - apply (split_second "," "notes" (" " ++ notes ++ String nl "")). lk.
  - apply (split_second "," "entry_point"). lk.
Qed.

Lemma load_stored {A} fuel v (d : dir A) p name cfg ca entry commit notes e d1 d2 :
  store fuel v d p name cfg ca entry commit notes = Some (e, d1, d2) ->
  one_line (chosen_config v cfg ca) -> one_line commit -> one_line (notes_text notes) -> one_line entry ->
  load d2 e = Ok (p, mkMeta (upto "," (chosen_config v cfg ca ++ String nl "")) (upto "," entry)
                       (upto "," (commit ++ String nl "")) (upto "," (" " ++ notes_text notes ++ String nl ""))).
Proof.
  intros H C Hc N E. unfold load. rewrite (store_npy _ _ _ _ _ _ _ _ _ _ _ _ _ H).
  rewrite (proj1 (store_csv _ _ _ _ _ _ _ _ _ _ _ _ _ H)).
  destruct (meta_load (chosen_config v cfg ca) commit (notes_text notes) entry C Hc N E) as (F0 & F1 & F2 & F3).
  cbv zeta in *. rewrite F0, F1, F2, F3. reflexivity.
Qed.

Lemma upto_plain s : lacks "," s -> upto "," (s ++ String nl "") = s ++ String nl "".
Proof. intros H. rewrite upto_app by exact H. reflexivity. Qed.

Lemma load_plain {A} fuel v (d : dir A) p name cfg ca entry commit notes e d1 d2 :
  store fuel v d p name cfg ca entry commit notes = Some (e, d1, d2) ->
  plain (chosen_config v cfg ca) -> plain commit -> plain (notes_text notes) -> plain entry ->
  load d2 e = Ok (p, mkMeta (chosen_config v cfg ca ++ String nl "") entry (commit ++ String nl "") (" " ++ notes_text notes ++ String nl "")).
Proof.
  intros H [C1 C2] [H1 H2] [N1 N2] [E1 E2]. rewrite (load_stored _ _ _ _ _ _ _ _ _ _ _ _ _ H) by assumption.
  rewrite !upto_plain by assumption. rewrite <- append_assoc_s. rewrite upto_plain by (split; [discriminate|assumption]).
  rewrite <- (append_nil_s entry) at 1. rewrite upto_app by assumption. cbn [upto]. rewrite append_nil_s. reflexivity.
Qed.

(** When loading fails, and with which error. *)
Lemma load_errors {A} (d : dir A) e :
  (dget d (e ++ ".npy") = None -> load d e = Err FileNotFoundError) /\
  (forall a, dget d (e ++ ".npy") = Some (CArray a) -> dget d (e ++ ".csv") = None -> load d e = Err FileNotFoundError) /\
  (forall a s, dget d (e ++ ".npy") = Some (CArray a) -> dget d (e ++ ".csv") = Some (CText s) ->
     ((exists l t m, lines (universal s) = (l ++ String "," t) :: m) <-> exists x, load d e = Ok (a, x)) /\
     ((~ exists l t m, lines (universal s) = (l ++ String "," t) :: m) <-> load d e = Err IndexError)).
Proof.
  unfold load. split; [|split].
  - intros ->. reflexivity.
  - intros a -> ->. reflexivity.
  - intros a s -> ->. cbv zeta.
    assert (F : (exists l t m, lines (universal s) = (l ++ String "," t) :: m) <-> field (lines (universal s)) 0 <> None).
    { unfold field. destruct (lines (universal s)) as [|L M]; cbn [nth_error].
      - split; [|congruence]. intros (l & t & m & E). discriminate.
      - assert (G : nth_error (split "," L) 1 <> None <-> exists l t, L = l ++ String "," t).
        { clear. induction L as [|a L IH].
          - cbn. split; [congruence|]. intros (l & t & E). destruct l; discriminate.
          - cbn [split]. destruct (Ascii.eqb_spec a ",") as [->|N].
            + split; [intros _; now exists "", L|]. intros _. cbn. destruct (split_hd "," L) as (r & ->). discriminate.
            + destruct (split "," L) as [|q r] eqn:ES.
              * destruct (split_hd "," L) as (r & E'). congruence.
              * cbn [nth_error] in *. rewrite IH. split.
                -- intros (l & t & ->). now exists (String a l), t.
                -- intros (l & t & E). destruct l as [|b l]; cbn in E; injection E as -> E; [congruence|]. now exists l, t. }
        rewrite G. split.
        + intros (l & t & m & E). injection E as -> _. now exists l, t.
        + intros (l & t & ->). now exists l, t, M. }
    rewrite F. destruct (field (lines (universal s)) 0) as [c|].
    + split; (split; [|congruence]).
      * intros _. eexists. reflexivity.
      * intros K. elim K. discriminate.
    + split.
      * split; [congruence|]. intros (x & E). discriminate.
      * split; [reflexivity|congruence].
Qed.

(** ** The index *)

Lemma hidden_spec f : hidden f = true <-> exists w, In w filtered /\ occurs w f.
Proof.
  unfold hidden. rewrite !orb_true_iff, !contains_occurs. unfold filtered. split.
  - intros [[[H|H]|H]|H]; eexists; (split; [|exact H]); cbn; tauto.
  - intros (w & [<-|[<-|[<-|[<-|[]]]]] & H); tauto.
Qed.

Lemma index_in {A} (d : dir A) s : In s (update_index d) <-> exists f, dget d f <> None /\ hidden f = false /\ stem f = s.
Proof.
  unfold update_index. split.
  - intros H. eapply Permutation_in in H; [|apply Permutation_sym, sort_perm].
    apply in_map_iff in H as (f & E & H). apply filter_In in H as [H1 H2]. exists f. rewrite dget_in.
    apply negb_true_iff in H2. auto.
  - intros (f & H1 & H2 & E). eapply Permutation_in; [apply sort_perm|]. apply in_map_iff. exists f. split; [exact E|].
    apply filter_In. rewrite H2. split; [now apply dget_in|reflexivity].
Qed.

Lemma index_sorted {A} (d : dir A) : StronglySorted not_after (update_index d).
Proof. apply sort_sorted. Qed.

Lemma stored_stem name c : stem (name ++ pad 3 c ++ ".npy") = name ++ pad 3 c.
Proof.
  unfold stem. rewrite <- append_assoc_s. change ".npy" with (String "." "npy").
  rewrite last_dot_app by (repeat split; discriminate).
  rewrite all_dots_digits; [reflexivity|apply pad_digits|apply pad_nonempty].
Qed.

Lemma filtered_props w : In w filtered -> w <> "" /\ every (fun a => ~ is_digit a) w /\ ~ occurs w ".npy" /\ ~ occurs w "".
Proof.
  assert (D : forall a, (N_of_ascii a <? 48)%N || (57 <? N_of_ascii a)%N = true -> ~ is_digit a).
  { intros a H [H1 H2]. apply orb_true_iff in H as [H|H]; apply N.ltb_lt in H; lia. }
  intros [<-|[<-|[<-|[<-|[]]]]]; (split; [discriminate|split; [|split]]);
    try (cbn [every]; repeat split; apply D; reflexivity);
    rewrite <- contains_occurs; discriminate.
Qed.

Lemma hidden_name name c : hidden (name ++ pad 3 c ++ ".npy") = hidden name.
Proof.
  apply eq_true_iff_eq. rewrite !hidden_spec. split; intros (w & Hw & O); exists w; (split; [exact Hw|]).
  - destruct (filtered_props w Hw) as (P1 & P2 & P3 & _).
    exact (occurs_digits w name (pad 3 c) ".npy" P1 (pad_digits 3 c) P2 (pad_nonempty 3 c) P3 O).
  - now apply occurs_prefix.
Qed.

Lemma index_stored {A} fuel v (d : dir A) p name cfg ca entry commit notes e d1 d2 :
  store fuel v d p name cfg ca entry commit notes = Some (e, d1, d2) ->
  (In e (update_index d2) <-> forall w, In w filtered -> ~ occurs w name).
Proof.
  intros H. pose proof (store_npy _ _ _ _ _ _ _ _ _ _ _ _ _ H) as N.
  destruct (store_inv _ _ _ _ _ _ _ _ _ _ _ _ _ H) as (c & _ & E & _ & _).
  rewrite index_in. split.
  - intros (f & Hf & Hh & Hs) w Hw O.
    destruct (stem_prefix f) as (r & F). rewrite Hs, E in F.
    assert (hidden f = true); [|congruence]. apply hidden_spec. exists w. split; [exact Hw|].
    rewrite F. apply occurs_prefix. now apply occurs_prefix.
  - intros U. exists (e ++ ".npy"). split; [rewrite N; discriminate|]. rewrite E, append_assoc_s. split; [|apply stored_stem].
    rewrite hidden_name. destruct (hidden name) eqn:Hh; [|reflexivity].
    apply hidden_spec in Hh as (w & Hw & O). elim (U w Hw O).
Qed.

(** Names that were listed stay listed. *)
Lemma dget_dput_mono {A} (d : dir A) f c g : dget d g <> None -> dget (dput d f c) g <> None.
Proof.
  intros Hg. destruct (string_dec f g) as [->|N]; [rewrite dget_same; discriminate|]. now rewrite dget_other.
Qed.

Lemma index_mono {A} fuel v (d : dir A) p name cfg ca entry commit notes e d1 d2 s :
  store fuel v d p name cfg ca entry commit notes = Some (e, d1, d2) ->
  In s (update_index d) -> In s (update_index d2).
Proof.
  intros H. destruct (store_inv _ _ _ _ _ _ _ _ _ _ _ _ _ H) as (c & _ & _ & -> & ->).
  rewrite !index_in. intros (f & Hf & R). exists f. split; [|exact R]. now do 2 apply dget_dput_mono.
Qed.

(** And nothing else appears, unless the metadata file is visible, which it is not. *)
Lemma csv_hidden e : hidden (e ++ ".csv") = true.
Proof. apply hidden_spec. exists "csv". split; [cbn; tauto|]. exists (e ++ "."), "". now rewrite append_assoc_s. Qed.

Lemma index_only {A} fuel v (d : dir A) p name cfg ca entry commit notes e d1 d2 s :
  store fuel v d p name cfg ca entry commit notes = Some (e, d1, d2) ->
  In s (update_index d2) -> s = e \/ In s (update_index d).
Proof.
  intros H. destruct (store_inv _ _ _ _ _ _ _ _ _ _ _ _ _ H) as (c & _ & E & _ & _).
  rewrite !index_in. intros (f & Hf & Hh & Hs). destruct (string_dec f (e ++ ".npy")) as [->|N].
  - left. rewrite E, append_assoc_s in Hs. rewrite stored_stem in Hs. now rewrite E.
  - right. exists f. split; [|now split]. assert (N' : f <> e ++ ".csv") by (intros ->; rewrite csv_hidden in Hh; discriminate).
    now rewrite (proj2 (store_frame _ _ _ _ _ _ _ _ _ _ _ _ _ H f N' N)) in Hf.
Qed.

(** ** Cropping *)
Lemma slice_nth {X} a b (l : list X) i : nth_error (slice a b l) i = if Nat.ltb i (b - a) then nth_error l (a + i) else None.
Proof.
  unfold slice. generalize (b - a). intros k.
  assert (S1 : forall j, nth_error (skipn a l) j = nth_error l (a + j)).
  { revert a. induction l as [|x l IH]; intros [|a] j; cbn; try reflexivity; [now destruct j|apply IH]. }
  rewrite <- S1. generalize (skipn a l). intros m. revert i k.
  induction m as [|x m IH]; intros [|i] [|k]; cbn [firstn nth_error]; try reflexivity.
  - now destruct (Nat.ltb (S i) (S k)).
  - rewrite IH. reflexivity.
Qed.

Lemma crop_nth {X} (m : list (list X)) r0 r1 c0 c1 i j :
  match nth_error (crop m r0 r1 c0 c1) i with Some row => nth_error row j | None => None end =
  if (Nat.ltb i (r1 - r0)) && (Nat.ltb j (c1 - c0)) then match nth_error m (r0 + i) with Some row => nth_error row (c0 + j) | None => None end else None.
Proof.
  unfold crop. rewrite nth_error_map, slice_nth. destruct (Nat.ltb i (r1 - r0)); [|reflexivity]. cbn [andb].
  destruct (nth_error m (r0 + i)) as [row|]; cbn [option_map]; [apply slice_nth|]. now destruct (Nat.ltb j (c1 - c0)).
Qed.
