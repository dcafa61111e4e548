(** Theorems about the commit of a test report: C95. *)
From Coq Require Import List Bool ZArith String Ascii Lia.
From Verif Require Import Base MText SText PText MTool STool PTool.
Import ListNotations.
Open Scope string_scope.

(** ** C95 Committing a test report *)

(** The summary is the last line with TOTAL in it; the commit follows the report whatever the exit
    status of the tests. *)
Theorem C95_commit exec f0 message report : report = fst (exec "coverage report > coverage.txt" (fst (exec "coverage run -m testing.test_all" f0))) ->
  forall summary, last_with "TOTAL" (lines (universal report)) summary ->
  test_commit exec f0 message =
    (["coverage run -m testing.test_all"; "coverage report > coverage.txt"; "git add coverage.txt"; commit_command summary message],
     fst (exec (commit_command summary message) (fst (exec "git add coverage.txt" (report ++ match message with None => "no additional message" | Some m => "message: " ++ m end)))), Ok tt).
Proof.
  intros -> s L. assert (F := proj2 (summary_last _ s None) (or_introl L)). unfold test_commit. rewrite F. reflexivity.
Qed.

(** Without such a line there is no commit, and the exception comes after the report was changed. *)
Theorem C95_no_total exec f0 message report : report = fst (exec "coverage report > coverage.txt" (fst (exec "coverage run -m testing.test_all" f0))) ->
  (forall l, In l (lines (universal report)) -> ~ occurs "TOTAL" l) ->
  test_commit exec f0 message =
    (["coverage run -m testing.test_all"; "coverage report > coverage.txt"],
     report ++ match message with None => "no additional message" | Some m => "message: " ++ m end, Err UnboundLocalError).
Proof. intros -> N. assert (F := proj2 (summary_none _ None) (conj eq_refl N)). unfold test_commit. rewrite F. reflexivity. Qed.

(** One of the two is the case. *)
Theorem C95_either ls : (exists l, last_with "TOTAL" ls l) \/ forall l, In l ls -> ~ occurs "TOTAL" l.
Proof.
  destruct (find_summary None ls) as [l|] eqn:E; [left; exists l; apply summary_last in E as [E|[E _]]; [exact E|discriminate E]|right; apply summary_none in E; apply E].
Qed.

(** The shell takes the commit as it is meant exactly when the message has no single quote. *)
Theorem C95_words summary m : lacks "'" summary ->
  (sh_words false None (commit_command summary (Some m)) = Ok (meant summary (Some m)) <-> lacks "'" m).
Proof.
  intros L. split; [|intros M; apply commit_words; assumption]. intros E. pose proof (words_lack _ false None _ I E) as F. unfold meant in F. cbn [List.app] in F.
  inversion_clear F as [|? ? _ F1]. inversion_clear F1 as [|? ? _ F2]. inversion_clear F2 as [|? ? _ F3]. inversion_clear F3 as [|? ? _ F4].
  inversion_clear F4 as [|? ? _ F5]. inversion_clear F5 as [|? ? F6 _]. exact F6.
Qed.

Theorem C95_words_none summary : lacks "'" summary -> sh_words false None (commit_command summary None) = Ok (meant summary None).
Proof. intros L. apply commit_words; [exact L|exact I]. Qed.

(** With one it may not be a command at all: the report is staged, nothing is committed, and
    nobody is told. *)
Theorem C95_apostrophe_refuted : exists exec f0 m summary f, lacks "'" summary /\
  test_commit exec f0 (Some m) =
    (["coverage run -m testing.test_all"; "coverage report > coverage.txt"; "git add coverage.txt"; commit_command summary (Some m)], f, Ok tt) /\
  sh_words false None (commit_command summary (Some m)) = Err ValueError.
Proof.
  exists (fun c f => if String.eqb c "coverage report > coverage.txt" then ("TOTAL 100 9 91%", 0%Z) else (f, 0%Z)), "", "don't panic", "TOTAL 100 9 91%". eexists.
  split; [repeat split; discriminate|]. split; reflexivity.
Qed.

(** Or another one: a message can add an argument of its own to the commit. *)
Theorem C95_argument_refuted : exists m summary, lacks "'" summary /\
  sh_words false None (commit_command summary (Some m)) = Ok (["git"; "commit"; "-m"; "test commit summary: " ++ summary; "-m"; "typo"; "--amend"; ""]).
Proof. exists "typo' --amend '", "TOTAL 100 9 91%". split; [repeat split; discriminate|]. reflexivity. Qed.

Example ex_commit : exists f, test_commit (fun c f => if String.eqb c "coverage report > coverage.txt" then ("TOTALS.py 3 0 100%" ++ String nl ("TOTAL 100 9 91%" ++ String nl ""), 1%Z) else (f, 1%Z)) "old" (Some "new tests") =
  (["coverage run -m testing.test_all"; "coverage report > coverage.txt"; "git add coverage.txt"; "git commit -m 'test commit summary: TOTAL 100 9 91%" ++ String nl "' -m 'new tests'"], f, Ok tt).
Proof. eexists. reflexivity. Qed.

Example ex_words : sh_words false None (commit_command ("TOTAL 100 9 91%" ++ String nl "") (Some "a ""b"" $c; d")) =
  Ok ["git"; "commit"; "-m"; "test commit summary: TOTAL 100 9 91%" ++ String nl ""; "-m"; "a ""b"" $c; d"].
Proof. reflexivity. Qed.

Example ex_no_total : snd (test_commit (fun _ f => (f, 1%Z)) "No data to report." None) = Err UnboundLocalError.
Proof. reflexivity. Qed.

Print Assumptions C95_commit.
Print Assumptions C95_no_total.
Print Assumptions C95_either.
Print Assumptions C95_words.
Print Assumptions C95_words_none.
Print Assumptions C95_apostrophe_refuted.
Print Assumptions C95_argument_refuted.
