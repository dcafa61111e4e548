(** Lemmas about the commit of a test report. *)
From Coq Require Import List Bool ZArith String Ascii Lia.
From Verif Require Import Base MText SText PText MTool STool.
Import ListNotations.
Open Scope string_scope.

Lemma append_snoc w c t : (w ++ String c "") ++ t = w ++ String c t.
Proof. rewrite append_assoc_s. reflexivity. Qed.

Lemma words_quoted m : lacks quote m -> forall w rest, sh_words true (Some w) (m ++ String quote rest) = sh_words false (Some (w ++ m)) rest.
Proof.
  induction m as [|c t IH]; intros L w rest.
  - cbn [append sh_words]. rewrite Ascii.eqb_refl, append_nil_s. reflexivity.
  - destruct L as [N L]. cbn [append sh_words]. rewrite (proj2 (Ascii.eqb_neq _ _) N), IH by exact L. rewrite append_snoc. reflexivity.
Qed.

(** No word contains a quote. *)
Lemma words_lack s : forall q w r, match w with Some x => lacks quote x | None => True end -> sh_words q w s = Ok r -> Forall (lacks quote) r.
Proof.
  assert (K : forall x c, lacks quote x -> c <> quote -> lacks quote (x ++ String c "")).
  { intros x c L N. apply every_app. split; [exact L|]. split; [exact N|exact I]. }
  induction s as [|c t IH]; intros q w r L E; cbn [sh_words] in E.
  - destruct q; [discriminate|]. injection E as <-. destruct w; [constructor; [exact L|constructor]|constructor].
  - assert (L' : lacks quote (match w with Some x => x | None => "" end)) by (destruct w; [exact L|exact I]).
    destruct q; destruct (Ascii.eqb_spec c quote) as [->|N].
    + refine (IH _ _ _ _ E). exact L'.
    + refine (IH _ _ _ _ E). apply K; assumption.
    + refine (IH _ _ _ _ E). exact L'.
    + destruct (blank c).
      * destruct (sh_words false None t) as [r'|] eqn:E'; [|discriminate]. cbn [bind] in E. injection E as <-.
        pose proof (IH false None _ I E') as F. destruct w; [constructor; assumption|exact F].
      * destruct (plain c); [|discriminate]. refine (IH _ _ _ _ E). apply K; assumption.
Qed.

Lemma lacks_dec m : {lacks quote m} + {~ lacks quote m}.
Proof.
  induction m as [|c t [L|L]]; [left; exact I| |right; intros [_ X]; exact (L X)].
  destruct (ascii_dec c quote) as [->|N]; [right; intros [X _]; apply X; reflexivity|left; split; assumption].
Qed.

Lemma words_head s q : sh_words false None ("git commit -m 'test commit summary: " ++ s ++ q) = 
  let* r := sh_words true (Some "test commit summary: ") (s ++ q) in Ok ("git" :: "commit" :: "-m" :: r).
Proof.
  change (sh_words false None ("git commit -m 'test commit summary: " ++ s ++ q)) with
    (let* r := (let* r := (let* r := sh_words true (Some "test commit summary: ") (s ++ q) in Ok ("-m" :: r)) in Ok ("commit" :: r)) in Ok ("git" :: r)).
  destruct (sh_words true (Some "test commit summary: ") (s ++ q)); reflexivity.
Qed.

Lemma words_message m : sh_words false None ("-m '" ++ m ++ "'") = let* r := sh_words true (Some "") (m ++ "'") in Ok ("-m" :: r).
Proof. reflexivity. Qed.

Lemma commit_words s m : lacks quote s -> match m with Some x => lacks quote x | None => True end ->
  sh_words false None (commit_command s m) = Ok (meant s m).
Proof.
  intros Ls Lm. unfold commit_command. rewrite words_head. change ("' " ++ match m with None => "" | Some x => "-m '" ++ x ++ "'" end)
    with (String quote (" " ++ match m with None => "" | Some x => "-m '" ++ x ++ "'" end)).
  rewrite words_quoted by exact Ls. change (sh_words false (Some ("test commit summary: " ++ s)) (" " ++ match m with None => "" | Some x => "-m '" ++ x ++ "'" end))
    with (let* r := sh_words false None (match m with None => "" | Some x => "-m '" ++ x ++ "'" end) in Ok (("test commit summary: " ++ s) :: r)).
  destruct m as [m|]; [|reflexivity]. rewrite words_message. change "'" with (String quote "") at 1. rewrite words_quoted by exact Lm. reflexivity.
Qed.

Lemma summary_none ls s : find_summary s ls = None <-> s = None /\ forall x, In x ls -> ~ occurs "TOTAL" x.
Proof.
  revert s. induction ls as [|l t IH]; intros s; cbn [find_summary].
  - split; [intros ->; split; [reflexivity|intros x []]|intros [-> _]; reflexivity].
  - rewrite IH. destruct (contains "TOTAL" l) eqn:C.
    + split; [intros [X _]; discriminate X|intros [_ X]]. exfalso. apply (X l (or_introl eq_refl)). apply contains_occurs, C.
    + assert (N : ~ occurs "TOTAL" l) by (rewrite <- contains_occurs; congruence). split; intros [-> X]; (split; [reflexivity|]).
      * intros x [<-|I]; [exact N|exact (X x I)].
      * intros x I. apply X. right. exact I.
Qed.

Lemma summary_last ls l : forall s, find_summary s ls = Some l <-> last_with "TOTAL" ls l \/ s = Some l /\ forall x, In x ls -> ~ occurs "TOTAL" x.
Proof.
  induction ls as [|y t IH]; intros s; cbn [find_summary].
  - split; [intros ->; right; split; [reflexivity|intros x []]|intros [(a & b & X & _)|[-> _]]; [destruct a; discriminate X|reflexivity]].
  - rewrite IH. destruct (contains "TOTAL" y) eqn:C.
    + apply contains_occurs in C. split.
      * intros [(a & b & -> & O & N)|[X N]]; left; [exists (y :: a), b; repeat split; auto|injection X as <-; exists [], t; repeat split; auto].
      * intros [(a & b & X & O & N)|[_ X]]; [|exfalso; exact (X y (or_introl eq_refl) C)]. destruct a as [|z a]; injection X as X1 X2; subst.
        -- right. split; [reflexivity|exact N].
        -- left. exists a, b. repeat split; auto.
    + assert (N : ~ occurs "TOTAL" y) by (rewrite <- contains_occurs; congruence). split.
      * intros [(a & b & -> & O & M)|[X M]]; [left; exists (y :: a), b; repeat split; auto|right; split; [exact X|intros x [<-|I]; auto]].
      * intros [(a & b & X & O & M)|[X M]]; [|right; split; [exact X|intros x I; apply M; right; exact I]]. destruct a as [|z a]; injection X as X1 X2; subst; [contradiction|].
        left. exists a, b. repeat split; auto.
Qed.
