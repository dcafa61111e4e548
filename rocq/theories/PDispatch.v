(** Proofs about yuca/evolve.py. *)
From Coq Require Import ZArith List String Bool Ascii Permutation Sorting Lia.
From Verif Require Import Base PyDict MText SText PText PConfigX PKern MDispatch SDispatch.
Import ListNotations.
Open Scope string_scope.

Definition ca_table : list (string * ca_class) :=
  [("MetaCA", IsMetaCA); ("CCA", IsCCA); ("NCA", IsNCA); ("RxnDfn", IsRxnDfn); ("CODE", IsCODE); ("Lenia", IsLenia);
   ("RandomStepCA", IsRandomStepCA)].

Definition env_table : list (string * env_class) :=
  [("SimpleHaltingWrapper", IsSimpleHalting); ("HaltingWrapper", IsHalting); ("RandomWrapper", IsRandom)].

Lemma contains_false sub s : contains sub s = false -> ~ occurs sub s.
Proof. intros E H. apply contains_occurs in H. congruence. Qed.

(** Scanning a table of names. *)
Fixpoint scan {C} (table : list (string * C)) (s : string) : option C :=
  match table with
  | [] => None
  | (n, c) :: t => if contains n s then Some c else scan t s
  end.

Lemma scan_spec {C} (table : list (string * C)) s :
  match scan table s with Some c => first_named table s c | None => none_named table s end.
Proof.
  induction table as [|[n c] t IH]; cbn [scan]; [intros n d []|].
  destruct (contains n s) eqn:E.
  - exists [], n, t. split; [reflexivity|]. split; [apply contains_occurs; auto|intros ? ? []].
  - apply contains_false in E. destruct (scan t s) as [x|].
    + destruct IH as (pre & m & post & -> & Ho & Hp). exists ((n, c) :: pre), m, post. split; [reflexivity|]. split; auto.
      intros n' d [Hi|Hi]; [|eauto]. apply pair_equal_spec in Hi as [<- _]. exact E.
    + intros n' d [Hi|Hi]; [|eapply IH; eauto]. apply pair_equal_spec in Hi as [<- _]. exact E.
Qed.

Lemma first_unique {C} (table : list (string * C)) s c d : first_named table s c -> first_named table s d -> c = d.
Proof.
  induction table as [|[n x] t IH]; intros (p1 & n1 & q1 & E1 & O1 & F1) (p2 & n2 & q2 & E2 & O2 & F2).
  - destruct p1; discriminate.
  - destruct p1 as [|y1 p1], p2 as [|y2 p2]; cbn [app] in E1, E2; inversion E1; inversion E2; subst.
    + congruence.
    + exfalso. eapply F2; [left; reflexivity|exact O1].
    + exfalso. eapply F1; [left; reflexivity|exact O2].
    + apply IH.
      * exists p1, n1, q1. split; auto. split; auto. intros. eapply F1. right. eauto.
      * exists p2, n2, q2. split; auto. split; auto. intros. eapply F2. right. eauto.
Qed.

Lemma select_ca_scan h kw : select_ca h kw =
  let* s := text_of "ca_fn" kw in
  match scan ca_table s with
  | None => Err AssertionError
  | Some c => Ok (c, match c with
      | IsNCA => dset "hidden_channels" (query_kwargs "hidden_channels" (VInt h) kw) kw
      | IsRxnDfn => dset "external_channels" (VInt 2) kw
      | _ => kw end)
  end.
Proof.
  unfold select_ca. destruct (text_of "ca_fn" kw) as [s|]; [|reflexivity]. cbn [bind ca_table scan].
  destruct (contains "MetaCA" s); [reflexivity|]. destruct (contains "CCA" s); [reflexivity|].
  destruct (contains "NCA" s); [reflexivity|]. destruct (contains "RxnDfn" s); [reflexivity|].
  destruct (contains "CODE" s); [reflexivity|]. destruct (contains "Lenia" s); [reflexivity|].
  destruct (contains "RandomStepCA" s); reflexivity.
Qed.

Lemma text_of_str k kw s : dget k kw = Some (VStr s) -> text_of k kw = Ok s.
Proof. intros E. unfold text_of, dgetk. rewrite E. reflexivity. Qed.

Lemma select_ca_ok h kw s c kw' : dget "ca_fn" kw = Some (VStr s) ->
  (select_ca h kw = Ok (c, kw') <->
   first_named ca_table s c /\
   kw' = match c with
      | IsNCA => match dget "hidden_channels" kw with Some _ => kw | None => dset "hidden_channels" (VInt h) kw end
      | IsRxnDfn => dset "external_channels" (VInt 2) kw
      | _ => kw end).
Proof.
  intros E. rewrite select_ca_scan, (text_of_str _ _ _ E). cbn [bind].
  assert (Hq : dset "hidden_channels" (query_kwargs "hidden_channels" (VInt h) kw) kw =
               match dget "hidden_channels" kw with Some _ => kw | None => dset "hidden_channels" (VInt h) kw end).
  { unfold query_kwargs. destruct (dget "hidden_channels" kw) as [v|] eqn:Ed; [|reflexivity]. apply dset_same. exact Ed. }
  pose proof (scan_spec ca_table s) as Hs. destruct (scan ca_table s) as [d|].
  - split.
    + intros H. apply Ok_inj, pair_equal_spec in H as [<- <-]. split; auto. destruct d; auto.
    + intros [Hf ->]. rewrite (first_unique _ _ _ _ Hf Hs). destruct d; rewrite ?Hq; reflexivity.
  - split; [discriminate|]. intros [(p & n & q & Et & Ho & _) _]. exfalso. apply (Hs n c); auto. rewrite Et.
    apply in_or_app. right. left. reflexivity.
Qed.

Lemma select_ca_err h kw s : dget "ca_fn" kw = Some (VStr s) ->
  (select_ca h kw = Err AssertionError <-> none_named ca_table s).
Proof.
  intros E. rewrite select_ca_scan, (text_of_str _ _ _ E). cbn [bind].
  pose proof (scan_spec ca_table s) as Hs. destruct (scan ca_table s) as [d|].
  - split; [discriminate|]. intros Hn. exfalso. destruct Hs as (p & n & q & Et & Ho & _). apply (Hn n d); auto. rewrite Et.
    apply in_or_app. right. left. reflexivity.
  - split; auto.
Qed.

Lemma select_env_scan kw : select_env kw =
  let* s := text_of "env_fn" kw in match scan env_table s with None => Err AssertionError | Some c => Ok c end.
Proof.
  unfold select_env. destruct (text_of "env_fn" kw) as [s|]; [|reflexivity]. cbn [bind env_table scan].
  destruct (contains "SimpleHaltingWrapper" s); [reflexivity|]. destruct (contains "HaltingWrapper" s); [reflexivity|].
  destruct (contains "RandomWrapper" s); reflexivity.
Qed.

Lemma select_env_spec kw s : dget "env_fn" kw = Some (VStr s) ->
  (forall e, select_env kw = Ok e <-> first_named env_table s e) /\
  (select_env kw = Err AssertionError <-> none_named env_table s).
Proof.
  intros E. rewrite select_env_scan, (text_of_str _ _ _ E). cbn [bind].
  pose proof (scan_spec env_table s) as Hs. destruct (scan env_table s) as [d|].
  - split.
    + intros e. split; [intros H; apply Ok_inj in H as <-; auto|]. intros Hf. rewrite (first_unique _ _ _ _ Hf Hs). reflexivity.
    + split; [discriminate|]. intros Hn. exfalso. destruct Hs as (p & n & q & Et & Ho & _). apply (Hn n d); auto. rewrite Et.
      apply in_or_app. right. left. reflexivity.
  - split; [|split; auto]. intros e. split; [discriminate|]. intros (p & n & q & Et & Ho & _). exfalso. apply (Hs n e); auto. rewrite Et.
    apply in_or_app. right. left. reflexivity.
Qed.

(** ** Jobs *)

Lemma evolve_spec kw d t b j : dget "dtype" kw = Some (VStr d) -> dget "tag" kw = Some (VStr t) ->
  (evolve kw = Ok (b, j) <->
   (b = true <-> occurs "float64" d) /\
   ((occurs "pattern" t /\ pattern_search kw = Ok j) \/
    (~ occurs "pattern" t /\ occurs "coevo" t /\ coevolve kw = Ok j) \/
    (~ occurs "pattern" t /\ ~ occurs "coevo" t /\ universe_search kw = Ok j))).
Proof.
  intros Ed Et. unfold evolve. rewrite (text_of_str _ _ _ Ed), (text_of_str _ _ _ Et). cbn [bind].
  rewrite <- !contains_occurs. 
  destruct (contains "pattern" t); destruct (contains "coevo" t); cbv iota;
    match goal with |- context [bind ?m _ = _] => destruct m as [j0|] eqn:Ej end; cbn [bind];
    (split; [intros H; try discriminate; apply Ok_inj, pair_equal_spec in H as [<- <-]|
             intros [Hb H]]);
    try (split; [tauto|]; intuition congruence);
    try (assert (j0 = j) by (intuition congruence); subst j0; destruct b, (contains "float64" d); intuition congruence);
    intuition congruence.
Qed.

Lemma coevolve_spec kw j : coevolve kw = Ok j <->
  jb_algorithm j = IsCMACES /\ jb_agent j = Some IsCPPNPlus /\ jb_env j = IsGlider /\
  select_ca 16 kw = Ok (jb_ca j, jb_kwargs j).
Proof.
  unfold coevolve. destruct (select_ca 16 kw) as [[c k]|]; cbn [bind fst snd].
  - split.
    + intros H. apply Ok_inj in H as <-. cbn. auto.
    + intros (H1 & H2 & H3 & H4). apply Ok_inj, pair_equal_spec in H4 as [-> ->]. destruct j; cbn in *. congruence.
  - split; [discriminate|]. intros (_ & _ & _ & H). discriminate.
Qed.

Lemma pattern_spec kw j : pattern_search kw = Ok j <->
  jb_algorithm j = IsCMAES /\ jb_agent j = Some IsCPPN /\ jb_env j = IsGlider /\
  select_ca 256 kw = Ok (jb_ca j, jb_kwargs j).
Proof.
  unfold pattern_search. destruct (select_ca 256 kw) as [[c k]|]; cbn [bind fst snd].
  - split.
    + intros H. apply Ok_inj in H as <-. cbn. auto.
    + intros (H1 & H2 & H3 & H4). apply Ok_inj, pair_equal_spec in H4 as [-> ->]. destruct j; cbn in *. congruence.
  - split; [discriminate|]. intros (_ & _ & _ & H). discriminate.
Qed.

Lemma universe_spec kw j : universe_search kw = Ok j <->
  jb_algorithm j = IsCMAES /\ jb_agent j = None /\ select_env kw = Ok (jb_env j) /\
  select_ca 16 kw = Ok (jb_ca j, jb_kwargs j).
Proof.
  unfold universe_search. destruct (select_env kw) as [e|]; cbn [bind].
  2:{ split; [discriminate|]. intros (_ & _ & H & _). discriminate. }
  destruct (select_ca 16 kw) as [[c k]|]; cbn [bind fst snd].
  - split.
    + intros H. apply Ok_inj in H as <-. cbn. auto.
    + intros (H1 & H2 & H3 & H4). apply Ok_inj, pair_equal_spec in H4 as [-> ->]. apply Ok_inj in H3. destruct j; cbn in *. congruence.
  - split; [discriminate|]. intros (_ & _ & _ & H). discriminate.
Qed.

(** ** Grouping *)

Lemma append_last_app a gs g : append_last a (gs ++ [g]) = Ok (gs ++ [g ++ [a]])%list.
Proof.
  induction gs as [|x gs IH]; [reflexivity|]. cbn [app append_last]. destruct (gs ++ [g])%list eqn:E; [destruct gs; discriminate|].
  rewrite IH. reflexivity.
Qed.

Lemma group_add g a : is_group g -> contains "-" a = false -> is_group (g ++ [a])%list.
Proof.
  intros (x & t & -> & Ho & Ht) Ea. exists x, (t ++ [a])%list. split; [reflexivity|]. split; auto.
  intros b Hb. apply in_app_or in Hb as [Hb|[<-|[]]]; [auto|]. apply contains_false; auto.
Qed.

Lemma group_loop_spec args : forall gs, Forall is_group gs -> gs <> [] ->
  exists r, group_loop args gs = Ok r /\ Forall is_group r /\ List.concat r = (List.concat gs ++ args)%list.
Proof.
  induction args as [|a t IH]; intros gs Hg Hn; cbn [group_loop].
  - exists gs. rewrite app_nil_r. auto.
  - destruct (contains "-" a) eqn:Ea.
    + destruct (IH (gs ++ [[a]])%list) as (r & E & F & C).
      * apply Forall_app. split; auto. constructor; [|constructor]. exists a, []. split; [reflexivity|]. split; [apply contains_occurs; auto|intros ? []].
      * destruct gs; discriminate.
      * exists r. split; auto. split; auto. rewrite C, List.concat_app. cbn [List.concat app]. rewrite <- app_assoc. reflexivity.
    + destruct (exists_last Hn) as (gs' & g & ->). rewrite append_last_app. cbn [bind].
      apply Forall_app in Hg as [G1 G2]. apply Forall_inv in G2.
      destruct (IH (gs' ++ [g ++ [a]])%list) as (r & E & F & C).
      * apply Forall_app. split; auto. constructor; [|constructor]. apply group_add; auto.
      * destruct gs'; discriminate.
      * exists r. split; auto. split; auto. rewrite C, !List.concat_app. cbn [List.concat app]. rewrite !app_nil_r, <- !app_assoc. reflexivity.
Qed.

Lemma group_spec args :
  (forall r, group_loop args [] = Ok r -> Forall is_group r /\ List.concat r = args) /\
  ((exists r, group_loop args [] = Ok r) <-> match args with [] => True | a :: _ => occurs "-" a end) /\
  (forall e, group_loop args [] = Err e -> e = IndexError).
Proof.
  destruct args as [|a t].
  - split; [|split; [|discriminate]].
    + intros r E. apply Ok_inj in E as <-. auto.
    + split; auto. intros _. eexists. reflexivity.
  - cbn [group_loop]. destruct (contains "-" a) eqn:Ea.
    + destruct (group_loop_spec t [[a]]) as (r & E & F & C).
      * constructor; [|constructor]. exists a, []. split; [reflexivity|]. split; [apply contains_occurs; auto|intros ? []].
      * discriminate.
      * cbn [app]. rewrite E. split; [|split].
        -- intros r' H. apply Ok_inj in H as <-. auto.
        -- split; [intros _; apply contains_occurs; auto|eauto].
        -- discriminate.
    + cbn [append_last bind]. split; [discriminate|]. split.
      * split; [intros [r H]; discriminate|]. intros H. apply contains_occurs in H. congruence.
      * intros e H. congruence.
Qed.

(** The groups are determined by the arguments. *)
Lemma groups_unique r : forall r', Forall is_group r -> Forall is_group r' -> List.concat r = List.concat r' -> r = r'.
Proof.
  induction r as [|g r IH]; intros [|g' r'] F F' E.
  - reflexivity.
  - exfalso. apply Forall_inv in F' as (a & t & -> & _). discriminate.
  - exfalso. apply Forall_inv in F as (a & t & -> & _). discriminate.
  - apply Forall_cons_iff in F as [(a & t & -> & Ho & Ht) F]. apply Forall_cons_iff in F' as [(a' & t' & -> & Ho' & Ht') F'].
    cbn [List.concat app] in E. injection E as <- E.
    assert (Hhead : forall l, Forall is_group l -> match List.concat l with [] => True | b :: _ => occurs "-" b end).
    { intros l Hl. destruct l as [|g0 l]; [exact I|]. apply Forall_inv in Hl as (b & u & -> & Hb & _). exact Hb. }
    pose proof (Hhead r F) as H1. pose proof (Hhead r' F') as H2.
    assert (t = t' /\ List.concat r = List.concat r') as [-> Ec].
    { clear -Ht Ht' E H1 H2. revert t' Ht' E. induction t as [|x t IHt]; intros [|x' t'] Ht' E; cbn [app] in E.
      - auto.
      - exfalso. rewrite E in H1. apply (Ht' x'); [left; auto|exact H1].
      - exfalso. rewrite <- E in H2. apply (Ht x); [left; auto|exact H2].
      - injection E as <- E. destruct (IHt (fun b Hb => Ht b (or_intror Hb)) t' (fun b Hb => Ht' b (or_intror Hb)) E) as [-> E2]. auto. }
    f_equal. apply IH; auto.
Qed.

(** ** Sorting *)

Lemma list_leb_spec x : forall y, list_leb x y = true <-> lists_not_after x y.
Proof.
  induction x as [|a x IH]; intros y.
  - cbn. split; auto. intros _. destruct y; [left; auto|right; constructor].
  - destruct y as [|b y]; cbn [list_leb].
    + split; [discriminate|]. intros [H|H]; [discriminate|inversion H].
    + destruct (String.eqb_spec a b) as [->|Hne].
      * rewrite IH. split.
        -- intros [->|H]; [left; auto|right; apply lb_tail; auto].
        -- intros [H|H]; [injection H as ->; left; auto|]. inversion H; subst; [|right; auto]. exfalso. eapply before_irrefl; eauto.
      * rewrite leb_not_after. split.
        -- intros [H|H]; [congruence|right; constructor; auto].
        -- intros [H|H]; [congruence|]. inversion H; subst; [right; auto|congruence].
Qed.

Lemma list_leb_total x : forall y, list_leb x y = false -> lists_not_after y x.
Proof.
  induction x as [|a x IH]; intros y E; [discriminate|]. destruct y as [|b y]; [right; constructor|]. cbn [list_leb] in E.
  destruct (String.eqb_spec a b) as [->|Hne].
  - destruct (IH y E) as [->|H]; [left; auto|right; apply lb_tail; auto].
  - apply leb_total_s in E. destruct E as [E|E]; [congruence|right; constructor; auto].
Qed.

Lemma lists_before_trans x y z : lists_before x y -> lists_before y z -> lists_before x z.
Proof.
  intros H. revert z. induction H; intros z Hz; inversion Hz; subst;
    try (apply lb_nil); try (apply lb_head; solve [auto | eapply before_trans; eauto]); apply lb_tail; auto.
Qed.

Lemma lists_na_trans x y z : lists_not_after x y -> lists_not_after y z -> lists_not_after x z.
Proof.
  intros [->|H1] [->|H2]; try (left; reflexivity); try (right; assumption). right. eapply lists_before_trans; eauto.
Qed.

Lemma insert_group_perm x l : Permutation (x :: l) (insert_group x l).
Proof.
  induction l as [|y l IH]; cbn [insert_group]; [auto|]. destruct (list_leb x y); [auto|].
  eapply Permutation_trans; [apply perm_swap|]. constructor. exact IH.
Qed.

Lemma sort_groups_perm l : Permutation l (sort_groups l).
Proof.
  induction l as [|x l IH]; cbn [sort_groups]; [auto|]. eapply Permutation_trans; [|apply insert_group_perm]. constructor. exact IH.
Qed.

Lemma insert_group_sorted x l : StronglySorted lists_not_after l -> StronglySorted lists_not_after (insert_group x l).
Proof.
  induction l as [|y l IH]; intros H; cbn [insert_group]; [repeat constructor|].
  apply StronglySorted_inv in H as [H1 H2]. destruct (list_leb x y) eqn:E.
  - apply list_leb_spec in E. constructor; [constructor; auto|]. constructor; auto.
    eapply Forall_impl; [|exact H2]. intros z Hz. eapply lists_na_trans; eauto.
  - apply list_leb_total in E. constructor; [apply IH; auto|]. apply Forall_forall. intros z Hz.
    apply (Permutation_in z (Permutation_sym (insert_group_perm x l))) in Hz as [<-|Hz]; auto.
    rewrite Forall_forall in H2. auto.
Qed.

Lemma sort_groups_sorted l : StronglySorted lists_not_after (sort_groups l).
Proof. induction l; cbn [sort_groups]; [constructor|]. apply insert_group_sorted; auto. Qed.

(** ** Program name *)

Lemma file_part_spec p : exists d, p = d ++ file_part p /\ ~ occurs "/" (file_part p) /\
  (d = "" \/ exists e, d = e ++ "/").
Proof.
  induction p as [|a t (d & E & Hn & Hd)].
  - exists "". split; [reflexivity|]. split; [|auto]. intros (l & r & H). destruct l; discriminate.
  - cbn [file_part]. destruct (contains "/" (String a t)) eqn:Ec.
    + destruct (contains "/" t) eqn:Et.
      * exists (String a d). cbn [append]. split; [congruence|]. split; auto. right. destruct Hd as [->|(e & ->)].
        -- exfalso. cbn [append] in E. rewrite E in Et. apply Hn. apply contains_occurs. exact Et.
        -- exists (String a e). reflexivity.
      * assert (Ft : file_part t = t) by (destruct t; [reflexivity|cbn [file_part]; rewrite Et; reflexivity]).
        rewrite Ft. exists (String a ""). split; [reflexivity|]. split; [apply contains_false; auto|]. right. exists "".
        cbn [contains] in Ec. apply orb_true_iff in Ec as [Ec|Ec]; [|congruence]. cbn [prefix] in Ec.
        destruct (ascii_dec "/" a) as [<-|]; [reflexivity|discriminate].
    + exists "". split; [reflexivity|]. split; [apply contains_false; auto|auto].
Qed.

Lemma entry_spec argv0 args name gs : entry_point argv0 args = Ok (name, gs) ->
  (exists groups, Forall is_group groups /\ List.concat groups = args /\ Permutation groups gs) /\
  StronglySorted lists_not_after gs /\
  (exists d, argv0 = d ++ name /\ ~ occurs "/" name /\ (d = "" \/ exists e, d = e ++ "/")).
Proof.
  unfold entry_point. intros E. apply bind_ok in E as (g & Eg & E). apply Ok_inj, pair_equal_spec in E as [<- <-].
  destruct (group_spec args) as (H1 & _). destruct (H1 g Eg) as [F C]. split; [|split].
  - exists g. split; auto. split; auto. apply sort_groups_perm.
  - apply sort_groups_sorted.
  - apply file_part_spec.
Qed.

Lemma entry_succeeds argv0 args :
  (exists r, entry_point argv0 args = Ok r) <-> match args with [] => True | a :: _ => occurs "-" a end.
Proof.
  destruct (group_spec args) as (_ & H & _). rewrite <- H. unfold entry_point. split.
  - intros [r E]. apply bind_ok in E as (g & Eg & _). eauto.
  - intros [r E]. rewrite E. cbn [bind]. eauto.
Qed.

Lemma entry_fails argv0 args e : entry_point argv0 args = Err e -> e = IndexError.
Proof.
  destruct (group_spec args) as (_ & _ & H). unfold entry_point. intros E.
  destruct (group_loop args []) as [g|e'] eqn:Eg; cbn [bind] in E; [discriminate|]. apply H. congruence.
Qed.
