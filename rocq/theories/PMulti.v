(** Proofs about the analysis of a directory of configurations. *)
From Coq Require Import Reals ZArith NArith List String Ascii Bool Arith Lia Lra.
From Verif Require Import Base PyDict Tensor MText MActivations MKernels MCommon MCca MConfig MAnalyze MClone MMulti SKern SCca SConfig SText SMulti.
From Verif Require Import PTensor PKern PText PClone PPredictX PConfig PConfigX PConfigY PConfigZ PConfigW PConfigV PWrapNew PDyn.
Import ListNotations.
Open Scope R_scope.
Open Scope string_scope.

(** ** Paths *)
Lemma ends_slash_app s t : t <> "" -> ends_slash (s ++ t) = ends_slash t.
Proof.
  intros N. induction s as [|a s IH]; cbn [append]; [reflexivity|].
  destruct (s ++ t) as [|b u] eqn:E; [destruct s, t; discriminate || contradiction|]. cbn [ends_slash] in *. exact IH.
Qed.

Lemma ends_slash_free t : lacks "/" t -> ends_slash t = false.
Proof.
  unfold lacks. induction t as [|a t IH]; cbn [every ends_slash]; [reflexivity|]. intros [Ha Ht].
  destruct t; [|auto]. destruct (Ascii.eqb_spec a "/"); [contradiction|reflexivity].
Qed.

Lemma ends_slash_spec s : ends_slash s = true <-> exists d, s = d ++ "/".
Proof.
  split.
  - induction s as [|a s IH]; cbn [ends_slash]; [discriminate|]. destruct s as [|b s].
    + intros E. apply Ascii.eqb_eq in E. subst. exists "". reflexivity.
    + intros E. destruct (IH E) as [d ->]. exists (String a d). reflexivity.
  - intros [d ->]. rewrite ends_slash_app by discriminate. reflexivity.
Qed.

Lemma no_end_iff s : no_end_slash s <-> ends_slash s = false.
Proof.
  split.
  - intros H. destruct (ends_slash s) eqn:E; [|reflexivity]. apply ends_slash_spec in E as [d ->]. destruct (H d). reflexivity.
  - intros E d ->. rewrite (proj2 (ends_slash_spec _)) in E by eauto. discriminate.
Qed.

(** A directory as the beginning of the paths in it. *)
Definition as_dir (a : string) : string := if (String.eqb a "" || ends_slash a)%bool then a else a ++ "/".

Lemma join_name a n : a_name n -> os_join a n = as_dir a ++ n.
Proof.
  intros [N L]. unfold os_join, as_dir. destruct n as [|c t]; [contradiction|]. destruct L as [Lc _].
  destruct (Ascii.eqb_spec c "/"); [contradiction|]. destruct (_ || _)%bool; [reflexivity|]. rewrite append_assoc_s. reflexivity.
Qed.

Lemma join_nil a : os_join a "" = as_dir a.
Proof. reflexivity. Qed.

Lemma as_dir_open a : a <> "" -> ends_slash a = false -> as_dir a = a ++ "/".
Proof. intros N E. unfold as_dir. rewrite E. destruct (String.eqb_spec a ""); [contradiction|reflexivity]. Qed.

Lemma rstrip_slash d : rstrip (d ++ "/") = rstrip d.
Proof. induction d as [|a d IH]; cbn [append rstrip]; [reflexivity|]. rewrite IH. reflexivity. Qed.

Lemma rstrip_same d : ends_slash d = false -> rstrip d = d.
Proof.
  induction d as [|a d IH]; cbn [rstrip]; [reflexivity|]. destruct d as [|b d].
  - cbn [ends_slash rstrip]. intros ->. reflexivity.
  - intros E. rewrite IH by exact E. reflexivity.
Qed.

Lemma split_head_app d f : lacks "/" f -> d <> "" -> ends_slash d = false -> split_head (d ++ "/" ++ f) = d.
Proof.
  intros L N E. unfold split_head. cbn [append]. rewrite last_slash_some by exact L. rewrite rstrip_slash, rstrip_same by exact E.
  destruct d; [contradiction|reflexivity].
Qed.

Lemma split_head_root f : lacks "/" f -> split_head ("/" ++ f) = "/".
Proof. intros L. unfold split_head. change ("/" ++ f) with ("" ++ String "/" f). rewrite last_slash_some by exact L. reflexivity. Qed.

Lemma cut_two x y : no_end_slash x -> a_name y -> x ++ "/" ++ y <> "" /\ ends_slash (x ++ "/" ++ y) = false /\ os_join (split_head (x ++ "/" ++ y)) "ca_analysis" = x ++ "/ca_analysis".
Proof.
  intros X [N L]. apply no_end_iff in X. split; [destruct x; discriminate|]. split.
  - rewrite ends_slash_app by discriminate. rewrite ends_slash_app by exact N. apply ends_slash_free. exact L.
  - assert (A : a_name "ca_analysis"). { split; [discriminate|]. unfold lacks. cbn [every]. repeat split; discriminate. }
    rewrite join_name by exact A. destruct x as [|a x].
    + change ("" ++ "/" ++ y) with ("/" ++ y). rewrite split_head_root by exact L. reflexivity.
    + rewrite split_head_app by (auto; discriminate). rewrite as_dir_open by (auto; discriminate). apply append_assoc_s.
Qed.

Lemma save_dir_file x y z : no_end_slash x -> a_name y -> a_name z -> save_dir (x ++ "/" ++ y ++ "/" ++ z) = x ++ "/ca_analysis".
Proof.
  intros X Y [_ Z]. destruct (cut_two x y X Y) as (A & B & C). unfold save_dir.
  replace (x ++ "/" ++ y ++ "/" ++ z) with ((x ++ "/" ++ y) ++ "/" ++ z) by (rewrite !append_assoc_s; reflexivity).
  rewrite split_head_app by auto. exact C.
Qed.

Lemma save_dir_slash x y z : no_end_slash x -> a_name y -> a_name z -> save_dir (x ++ "/" ++ y ++ "/" ++ z ++ "/") = x ++ "/" ++ y ++ "/ca_analysis".
Proof.
  intros X Y [Zn Z]. destruct (cut_two x y X Y) as (A & B & C).
  replace (x ++ "/" ++ y ++ "/" ++ z ++ "/") with ((x ++ "/" ++ y ++ "/" ++ z) ++ "/" ++ "") by (rewrite !append_assoc_s; reflexivity).
  replace (x ++ "/" ++ y ++ "/ca_analysis") with ((x ++ "/" ++ y) ++ "/ca_analysis") by (rewrite !append_assoc_s; reflexivity).
  destruct (cut_two (x ++ "/" ++ y) z) as (A' & B' & C'); [apply no_end_iff; exact B|split; auto|].
  unfold save_dir. replace (x ++ "/" ++ y ++ "/" ++ z) with ((x ++ "/" ++ y) ++ "/" ++ z) by (rewrite !append_assoc_s; reflexivity).
  rewrite (split_head_app _ "") by (auto; exact I). exact C'.
Qed.

Lemma join_rel x y z : no_end_slash x -> a_name y -> a_name z -> os_join (x ++ "/" ++ y) z = x ++ "/" ++ y ++ "/" ++ z.
Proof.
  intros X Y Z. destruct (cut_two x y X Y) as (A & B & _). rewrite join_name by exact Z. rewrite as_dir_open by auto. rewrite !append_assoc_s. reflexivity.
Qed.

Lemma join_rel_slash x y z : no_end_slash x -> a_name y -> a_name z -> os_join (x ++ "/" ++ y) (z ++ "/") = x ++ "/" ++ y ++ "/" ++ z ++ "/".
Proof.
  intros X Y [Zn Z]. destruct (cut_two x y X Y) as (A & B & _). destruct z as [|c z]; [contradiction|]. destruct Z as [Zc _]. change (String c z ++ "/") with (String c (z ++ "/")). unfold os_join.
  destruct (Ascii.eqb_spec c "/"); [contradiction|]. rewrite B. destruct (String.eqb_spec (x ++ "/" ++ y) ""); [contradiction|]. cbn [orb]. rewrite !append_assoc_s. reflexivity.
Qed.

(** The names of the results. *)
Lemma lacks_app a s t : lacks a (s ++ t) <-> lacks a s /\ lacks a t.
Proof. unfold lacks. induction s as [|b s IH]; cbn [append every]; [tauto|]. rewrite IH. tauto. Qed.

Lemma stem_lacks a s : lacks a s -> lacks a (stem s).
Proof. intros H. destruct (stem_prefix s) as [r E]. rewrite E in H. apply lacks_app in H. tauto. Qed.

Lemma app_cancel_r a b s : a ++ s = b ++ s -> a = b.
Proof.
  revert b. induction a as [|x a IH]; intros [|y b]; cbn [append]; auto.
  - intros E. apply (f_equal String.length) in E. cbn [String.length] in E. rewrite length_app_s in E. lia.
  - intros E. apply (f_equal String.length) in E. cbn [String.length] in E. rewrite length_app_s in E. lia.
  - intros E. injection E as -> E. f_equal. auto.
Qed.

Lemma result_name n t : a_name n -> lacks "/" t -> a_name (stem n ++ "cppn" ++ t ++ "_analysis.npy").
Proof.
  intros [_ L] T. split.
  - destruct (stem n); discriminate.
  - rewrite !lacks_app. split; [apply stem_lacks; exact L|]. unfold lacks. repeat split; try discriminate. exact T.
Qed.

Lemma save_path_eq my t a b : lacks "/" t -> a_name a -> a_name b -> (save_path my t a = save_path my t b <-> stem a = stem b).
Proof.
  intros T A B. unfold save_path. split; [|intros ->; reflexivity]. intros E. rewrite !join_name in E by (apply result_name; auto).
  apply append_inj in E. eapply app_cancel_r. exact E.
Qed.

Lemma dir_unique d d' n n' : lacks "/" n -> lacks "/" n' -> (exists x, d = x ++ "/") -> (exists x, d' = x ++ "/") -> d ++ n = d' ++ n' -> d = d' /\ n = n'.
Proof.
  intros L L' [x ->] [x' ->] E. rewrite !append_assoc_s in E. cbn [append] in E. pose proof (f_equal last_slash E) as F.
  rewrite !last_slash_some in F by assumption. injection F as -> ->. auto.
Qed.

Lemma save_dir_end my : ends_slash (save_dir my) = false /\ save_dir my <> "".
Proof.
  assert (A : a_name "ca_analysis"). { split; [discriminate|]. unfold lacks. cbn [every]. repeat split; discriminate. }
  unfold save_dir. rewrite join_name by exact A. split.
  - rewrite ends_slash_app by discriminate. reflexivity.
  - destruct (as_dir _); discriminate.
Qed.

Lemma as_dir_end my : as_dir my = "" \/ exists x, as_dir my = x ++ "/".
Proof.
  unfold as_dir. destruct (String.eqb_spec my "") as [->|N]; [left; reflexivity|]. destruct (ends_slash my) eqn:E; cbn [orb].
  - apply ends_slash_spec in E. auto.
  - right. eauto.
Qed.

(** What is analysed and what is saved are different files unless the directory is the one of the
    results. *)
Lemma load_not_save my t n m : lacks "/" t -> a_name n -> a_name m -> os_join my "" <> save_dir my ++ "/" -> os_join my n <> save_path my t m.
Proof.
  intros T N M D E. unfold save_path in E. pose proof (result_name m t M T) as R. rewrite !join_name in E by assumption. destruct (save_dir_end my) as [S1 S2].
  rewrite (as_dir_open (save_dir my)) in E by assumption. rewrite join_nil in D. destruct N as [Nn Nl]. destruct R as [Rn Rl].
  destruct (as_dir_end my) as [Z|Z].
  - rewrite Z in E. cbn [append] in E. rewrite E in Nl. rewrite append_assoc_s in Nl. apply lacks_app in Nl as [_ [Nl _]]. apply Nl. reflexivity.
  - apply dir_unique in E; eauto. destruct E as [E _]. contradiction.
Qed.

(** ** Loading *)
Lemma load_value_inv fuel ev rng o p h o1 h1 : obj_inv o -> load_value fuel ev rng o p h = Ok (o1, h1) -> obj_inv o1.
Proof. intros I H. unfold load_value, load_config in H. apply (load_with_inv _ _ _ _ _ _ (init_inv fuel ev rng) I) in H as (J & _). exact J. Qed.

Lemma load_radius fuel fuel' ev ev' rng rng' o o' p h h' o1 h1 o2 h2 : obj_inv o -> obj_inv o' ->
  load_value fuel ev rng o p h = Ok (o1, h1) -> load_value fuel' ev' rng' o' p h' = Ok (o2, h2) -> o_radius o1 = o_radius o2.
Proof.
  intros I I' H1 H2. unfold load_value, load_config in H1, H2.
  apply (load_with_inv _ _ _ _ _ _ (init_inv fuel ev rng) I) in H1 as (_ & G1 & a & L1 & _).
  apply (load_with_inv _ _ _ _ _ _ (init_inv fuel' ev' rng') I') in H2 as (_ & G2 & b & L2 & _).
  destruct (unpickle_vals p h h1 G1) as (_ & A2 & _). destruct (unpickle_vals p h' h2 G2) as (_ & B2 & _). cbv zeta in *.
  destruct (ld_nb _ _ _ _ L1) as (l1 & n1 & N1 & _ & _ & _ & _ & R1). destruct (ld_nb _ _ _ _ L2) as (l2 & n2 & N2 & _ & _ & _ & _ & R2).
  pose proof (om_some _ _ _ _ A2 N1) as Z1. pose proof (om_some _ _ _ _ B2 N2) as Z2. rewrite Z1 in Z2. injection Z2 as Z2. rewrite Z2 in R1. congruence.
Qed.

Lemma universe_same ph o o' c : o_core o = o_core o' -> o_radius o = o_radius o' -> universe_of ph o c = universe_of ph o' c.
Proof. intros E1 E2. unfold universe_of. rewrite E1, E2. reflexivity. Qed.

Lemma alike_frame a b : alike a b <-> frame (o_core a) (o_core b).
Proof. unfold alike, frame. tauto. Qed.

(** Loading a configuration without constructor arguments keeps what only the constructor sets. *)
Lemma load_alike fuel ev rng o p h o1 h1 : obj_inv o -> p_inst p = None -> load_value fuel ev rng o p h = Ok (o1, h1) -> alike o o1.
Proof.
  intros I N H. apply alike_frame. destruct (load_core _ _ _ _ _ _ _ _ _ _ _ _ _ _ _ I I ltac:(unfold plain; rewrite N; exact Logic.I) (fun _ => conj eq_refl (conj eq_refl (conj eq_refl eq_refl))) H H) as [_ [X|X]]; [exact X|contradiction].
Qed.

Lemma result_whole ph p c r fuel ev rng o h o1 h1 : whole p -> obj_inv o -> load_value fuel ev rng o p h = Ok (o1, h1) -> universe_of ph o1 c = Ok r ->
  result_of (fun _ => True) ph p c r.
Proof.
  intros (kw & Ei & C1 & C2) I H U. split; [exists fuel, ev, rng, o, h, o1, h1; auto|]. intros f ev' rng' o' h' o2 h2 _ I' H'.
  assert (Pl : plain p). { unfold plain. rewrite Ei. split; assumption. }
  destruct (load_core _ _ _ _ _ _ _ _ _ _ _ _ _ _ _ I I' Pl ltac:(congruence) H H') as [E _].
  rewrite <- U. apply universe_same; [symmetry; exact E|]. eapply load_radius; [exact I'|exact I|exact H'|exact H].
Qed.

Lemma result_bare base ph p c r fuel ev rng o h o1 h1 : p_inst p = None -> alike base o -> obj_inv o -> load_value fuel ev rng o p h = Ok (o1, h1) -> universe_of ph o1 c = Ok r ->
  result_of (alike base) ph p c r.
Proof.
  intros Ei A I H U. split; [exists fuel, ev, rng, o, h, o1, h1; auto|]. intros f ev' rng' o' h' o2 h2 A' I' H'.
  assert (Pl : plain p). { unfold plain. rewrite Ei. exact Logic.I. }
  assert (F : frame (o_core o) (o_core o')). { apply alike_frame in A, A'. eapply frame_trans; [apply frame_sym; exact A|exact A']. }
  destruct (load_core _ _ _ _ _ _ _ _ _ _ _ _ _ _ _ I I' Pl (fun _ => F) H H') as [E _].
  rewrite <- U. apply universe_same; [symmetry; exact E|]. eapply load_radius; [exact I'|exact I|exact H'|exact H].
Qed.

(** ** The loop *)
Section Run.
  Variables (fuel : nat) (ev : env) (isdir : string -> bool) (ph : phanes) (my : string) (rng : nat -> nat -> draws) (c : nat -> chance).

  Notation loop := (multi_loop fuel ev isdir ph my rng c).
  Notation one := (one_file fuel ev isdir ph my).

  Lemma loop_cons n t k w : loop (n :: t) k w = if contains "npy" n then match one (rng k) (c k) w n with Ok w' => loop t (S k) w' | Err e => (w, Some e) end else loop t (S k) w.
  Proof. reflexivity. Qed.

  Lemma one_inv rg ch w n w' : one rg ch w n = Ok w' -> exists p o h r t, file_config (w_files w (os_join my n)) = Ok p /\
    load_value fuel ev rg (w_ca w) p (w_heap w) = Ok (o, h) /\ universe_of ph o ch = Ok r /\ fst r <> [] /\ cppn_text (ph_cppn ph) = Ok t /\ isdir (save_dir my) = true /\
    w' = mkWorld o h (put (w_files w) (save_path my t n) (ResFile (mkResult n (ph_cppn ph) (ph_steps ph) r))).
  Proof.
    unfold one_file. intros H. apply bind_ok in H as (p & Hp & H). apply bind_ok in H as ([o h] & Hl & H). apply bind_ok in H as (r & Hr & H).
    apply bind_ok in H as ([] & Hn & H). apply bind_ok in H as (t & Ht & H). apply bind_ok in H as ([] & Hd & H). apply Ok_inj in H. cbn [fst snd] in *.
    apply guard_ok in Hn. apply guard_ok in Hd. exists p, o, h, r, t. repeat (split; [assumption|]). split; [|auto].
    intros E. rewrite E in Hn. discriminate.
  Qed.

  (** A run that raised did so at one file, everything before being saved. *)
  Lemma loop_split names : forall k w w' e, loop names k w = (w', Some e) -> exists a n b, names = (a ++ n :: b)%list /\ contains "npy" n = true /\
    loop a k w = (w', None) /\ one (rng (k + List.length a)) (c (k + List.length a)) w' n = Err e.
  Proof.
    induction names as [|n t IH]; intros k w w' e H; [discriminate|]. rewrite loop_cons in H. destruct (contains "npy" n) eqn:E.
    - destruct (one (rng k) (c k) w n) as [w1|e1] eqn:O.
      + apply IH in H as (a & m & b & -> & Hm & H & He). exists (n :: a), m, b. split; [reflexivity|]. split; [exact Hm|]. rewrite loop_cons, E, O. split; [exact H|].
        cbn [List.length]. rewrite Nat.add_succ_r. exact He.
      + injection H as <- <-. exists [], n, t. cbn [List.length]. rewrite Nat.add_0_r. auto.
    - apply IH in H as (a & m & b & -> & Hm & H & He). exists (n :: a), m, b. split; [reflexivity|]. split; [exact Hm|]. rewrite loop_cons, E. split; [exact H|].
      cbn [List.length]. rewrite Nat.add_succ_r. exact He.
  Qed.

  Lemma loop_app a : forall b k w w', loop a k w = (w', None) -> loop (a ++ b) k w = loop b (k + List.length a) w'.
  Proof.
    induction a as [|n a IH]; intros b k w w' H; cbn [List.app List.length].
    - injection H as <-. rewrite Nat.add_0_r. reflexivity.
    - rewrite loop_cons in *. rewrite Nat.add_succ_r. destruct (contains "npy" n); [|exact (IH b (S k) w w' H)].
      destruct (one (rng k) (c k) w n) as [w1|]; [exact (IH b (S k) w1 w' H)|discriminate].
  Qed.

  (** The files afterwards. [J] is kept by every pass, [R] holds of what a pass saves. *)
  Variable t : string.
  Hypothesis Ht : cppn_text (ph_cppn ph) = Ok t.

  Lemma loop_files (J : (string -> option file) -> obj -> Prop) (R : nat -> string -> file -> Prop) names0 :
    (forall k n w w', nth_error names0 k = Some n -> contains "npy" n = true -> J (w_files w) (w_ca w) -> one (rng k) (c k) w n = Ok w' ->
       J (w_files w') (w_ca w') /\ exists f, w_files w' = put (w_files w) (save_path my t n) f /\ R k n f) ->
    forall names pre w w', names0 = (pre ++ names)%list -> J (w_files w) (w_ca w) -> loop names (List.length pre) w = (w', None) ->
    J (w_files w') (w_ca w') /\
    forall q,
    (exists k n f, (List.length pre <= k)%nat /\ nth_error names0 k = Some n /\ contains "npy" n = true /\ save_path my t n = q /\ w_files w' q = Some f /\ R k n f /\
       forall j m, (k < j)%nat -> nth_error names0 j = Some m -> contains "npy" m = true -> save_path my t m <> q) \/
    ((forall k n, (List.length pre <= k)%nat -> nth_error names0 k = Some n -> contains "npy" n = true -> save_path my t n <> q) /\ w_files w' q = w_files w q).
  Proof.
    intros HJ. induction names as [|n names IH]; intros pre w w' E Hw H.
    - injection H as <-. split; [exact Hw|]. intros q. right. split; [|reflexivity]. intros k n Hk Hn. exfalso.
      rewrite app_nil_r in E. assert (nth_error names0 k = None) by (apply nth_error_None; subst; lia). congruence.
    - rewrite loop_cons in H. assert (Nn : nth_error names0 (List.length pre) = Some n).
      { rewrite E, nth_error_app2 by lia. rewrite Nat.sub_diag. reflexivity. }
      assert (E' : names0 = ((pre ++ [n]) ++ names)%list) by (rewrite <- app_assoc; exact E).
      assert (Len : List.length (pre ++ [n])%list = S (List.length pre)) by (rewrite app_length; cbn [List.length]; lia).
      destruct (contains "npy" n) eqn:C.
      + destruct (one (rng (List.length pre)) (c (List.length pre)) w n) as [w1|] eqn:O; [|discriminate].
        destruct (HJ _ _ _ _ Nn C Hw O) as (Hw1 & f & Ef & Rf). rewrite <- Len in H. destruct (IH _ _ _ E' Hw1 H) as [Jw Q]. split; [exact Jw|]. intros q.
        destruct (Q q) as [(k & m & g & Hk & Hm & X)|[X Y]].
        * left. exists k, m, g. split; [lia|]. auto.
        * destruct (String.eqb_spec (save_path my t n) q) as [S|S].
          -- left. exists (List.length pre), n, f. split; [lia|]. split; [exact Nn|]. split; [exact C|]. split; [exact S|]. split.
             ++ rewrite Y, Ef. unfold put. rewrite S, String.eqb_refl. reflexivity.
             ++ split; [exact Rf|]. intros j m Hj Hm. apply (X j m); [lia|exact Hm].
          -- right. split.
             ++ intros k m Hk Hm. destruct (Nat.eq_dec k (List.length pre)) as [->|Nk]; [congruence|]. apply (X k m); [lia|exact Hm].
             ++ rewrite Y, Ef. unfold put. destruct (String.eqb_spec (save_path my t n) q); [contradiction|reflexivity].
      + rewrite <- Len in H. destruct (IH _ _ _ E' Hw H) as [Jw Q]. split; [exact Jw|]. intros q. destruct (Q q) as [(k & m & g & Hk & Hm & X)|[X Y]].
        * left. exists k, m, g. split; [lia|]. auto.
        * right. split; [|exact Y]. intros k m Hk Hm. destruct (Nat.eq_dec k (List.length pre)) as [->|Nk]; [congruence|]. apply (X k m); [lia|exact Hm].
  Qed.
End Run.

Lemma phanes_inv fuel ev rng kw h ph h' : phanes_new fuel ev rng kw h = Ok (ph, h') -> obj_inv (ph_ca ph) /\ init fuel ev rng kw h = Ok (ph_ca ph, h').
Proof.
  unfold phanes_new. intros H. apply bind_ok in H as ([o h1] & Hi & H). apply bind_ok in H as (s & _ & H). apply bind_ok in H as (b & _ & H). apply bind_ok in H as (d & _ & H).
  apply bind_ok in H as (x & _ & H). apply Ok_inj in H. injection H as <- <-. cbn [ph_ca fst snd]. split; [|exact Hi]. apply init_inv in Hi. tauto.
Qed.

(** ** Runs *)
Section Runs.
  Variables (fuel : nat) (ev : env) (isdir : string -> bool) (listing : string -> option (list string)) (cwd : string) (ph : phanes) (rng : nat -> nat -> draws) (c : nat -> chance) (h : heap) (fs : string -> option file) (names : list string) (t : string).

  Notation my := (os_join cwd (ph_dir ph)).
  Notation run := (analyze_multiverse fuel ev isdir listing cwd rng c ph h fs).
  Notation loop := (multi_loop fuel ev isdir ph my rng c).

  Hypothesis Hi : obj_inv (ph_ca ph).
  Hypothesis Hl : listing my = Some names.
  Hypothesis Ht : cppn_text (ph_cppn ph) = Ok t.
  Hypothesis Hs : lacks "/" t.
  Hypothesis Hn : forall n, In n names -> a_name n.

  Lemma run_loop : run = (w_files (fst (loop names 0 (mkWorld (ph_ca ph) h fs))), snd (loop names 0 (mkWorld (ph_ca ph) h fs))).
  Proof. unfold analyze_multiverse. cbv zeta. rewrite Hl. reflexivity. Qed.

  Lemma one_text rg ch w n w' : one_file fuel ev isdir ph my rg ch w n = Ok w' -> exists f, w_files w' = put (w_files w) (save_path my t n) f.
  Proof. intros O. apply one_inv in O as (p & o & h1 & r & t' & _ & _ & _ & _ & T & _ & ->). rewrite Ht in T. apply Ok_inj in T. subst t'. eexists. reflexivity. Qed.

  (** Files that are not results of the names analysed are left alone, also by a run that raised. *)
  Lemma run_untouched fs' e q : run = (fs', e) -> (forall n, In n names -> contains "npy" n = true -> save_path my t n <> q) -> fs' q = fs q.
  Proof.
    intros H Q. rewrite run_loop in H. destruct (loop names 0 (mkWorld (ph_ca ph) h fs)) as [w e'] eqn:L. cbn [fst snd] in H. injection H as <- <-.
    assert (G : forall ns, (forall n, In n ns -> In n names) -> forall k w w', loop ns k w = (w', None) -> w_files w' q = w_files w q).
    { induction ns as [|n ns IH]; intros S k w0 w1 E; [injection E as <-; reflexivity|]. rewrite loop_cons in E. destruct (contains "npy" n) eqn:C.
      - destruct (one_file fuel ev isdir ph my (rng k) (c k) w0 n) as [w2|] eqn:O; [|discriminate]. destruct (one_text _ _ _ _ _ O) as [f F].
        rewrite (IH (fun m Hm => S m (or_intror Hm)) _ _ _ E), F. unfold put. destruct (String.eqb_spec (save_path my t n) q) as [X|X]; [|reflexivity].
        exfalso. apply (Q n); auto. apply S. left. reflexivity.
      - apply (IH (fun m Hm => S m (or_intror Hm)) _ _ _ E). }
    destruct e' as [e'|].
    - apply loop_split in L as (a & n & b & Eq & _ & L & _). apply (G a) in L; [exact L|]. intros m Hm. rewrite Eq. apply in_or_app. auto.
    - apply (G names) in L; auto.
  Qed.

  Hypothesis Hd : os_join my "" <> save_dir my ++ "/".

  Lemma run_reads fs' e n : run = (fs', e) -> a_name n -> fs' (os_join my n) = fs (os_join my n).
  Proof. intros H N. apply (run_untouched _ _ _ H). intros m Hm _ E. symmetry in E. revert E. apply load_not_save; auto. Qed.

  (** The common part of the two following. *)
  Lemma run_saved_gen (start : obj -> Prop) (P : pcfg -> Prop) fs' : start (ph_ca ph) ->
    (forall p fl ev rg o hh o1 h1, P p -> start o -> obj_inv o -> load_value fl ev rg o p hh = Ok (o1, h1) -> start o1) ->
    (forall p ch r fl ev rg o hh o1 h1, P p -> start o -> obj_inv o -> load_value fl ev rg o p hh = Ok (o1, h1) -> universe_of ph o1 ch = Ok r -> result_of start ph p ch r) ->
    holds fs my names (fun _ p => P p) -> run = (fs', None) ->
    saved_as fs fs' (save_path my t) names (fun k n f => exists p r, fs (os_join my n) = Some (CfgFile p) /\ result_of start ph p (c k) r /\ fst r <> [] /\
      f = ResFile (mkResult n (ph_cppn ph) (ph_steps ph) r)).
  Proof.
    intros S0 SK SR HP H. rewrite run_loop in H. destruct (loop names 0 (mkWorld (ph_ca ph) h fs)) as [w e'] eqn:L. cbn [fst snd] in H. injection H as <- ->.
    set (J := fun (fs1 : string -> option file) (o : obj) => obj_inv o /\ start o /\ forall n, a_name n -> fs1 (os_join my n) = fs (os_join my n)).
    set (R := fun (k : nat) (n : string) (f : file) => exists p r, fs (os_join my n) = Some (CfgFile p) /\ result_of start ph p (c k) r /\ fst r <> [] /\ f = ResFile (mkResult n (ph_cppn ph) (ph_steps ph) r)).
    destruct (loop_files fuel ev isdir ph my rng c t J R names) with (names := names) (pre := @nil string) (w := mkWorld (ph_ca ph) h fs) (w' := w) as [_ Q]; auto.
    - intros k n w0 w1 Hk C (I0 & Z0 & F0) O. apply one_inv in O as (p & o & h1 & r & t' & Fp & Ld & U & Ne & T & _ & ->). rewrite Ht in T. apply Ok_inj in T. subst t'. cbn [w_files w_ca].
      assert (An : a_name n) by (apply Hn; eapply nth_error_In; exact Hk). rewrite F0 in Fp by exact An.
      destruct (HP k n Hk (proj1 (contains_occurs _ _) C)) as (p' & E' & Pp). rewrite E' in Fp. cbn [file_config] in Fp. apply Ok_inj in Fp. subst p'. split.
      + split; [eapply load_value_inv; eauto|]. split; [eapply SK; eauto|]. intros m Hm. unfold put.
        destruct (String.eqb_spec (save_path my t n) (os_join my m)) as [X|X]; [|apply F0; exact Hm]. exfalso. symmetry in X. revert X. apply load_not_save; auto.
      + eexists. split; [reflexivity|]. exists p, r. split; [exact E'|]. split; [eapply SR; eauto|]. auto.
    - split; [exact Hi|]. split; [exact S0|]. auto.
    - intros q. destruct (Q q) as [(k & n & f & _ & N & C & S & F & X & Y)|[X Y]].
      + left. exists k, n, f. split; [exact N|]. split; [apply contains_occurs; exact C|]. split; [exact S|]. split; [exact F|]. split; [exact X|].
        intros j m Hj Hm Cm. apply (Y j m Hj Hm). apply contains_occurs. exact Cm.
      + right. split; [|exact Y]. intros k n Hk C. apply (X k n); [apply Nat.le_0_l|exact Hk|]. apply contains_occurs. exact C.
  Qed.

  Lemma run_whole fs' : holds fs my names (fun _ p => whole p) -> run = (fs', None) ->
    saved_as fs fs' (save_path my t) names (fun k n f => exists p r, fs (os_join my n) = Some (CfgFile p) /\ result_of (fun _ => True) ph p (c k) r /\ fst r <> [] /\
      f = ResFile (mkResult n (ph_cppn ph) (ph_steps ph) r)).
  Proof. apply run_saved_gen; auto. intros. eapply result_whole; eauto. Qed.

  Lemma run_bare fs' : holds fs my names (fun _ p => p_inst p = None) -> run = (fs', None) ->
    saved_as fs fs' (save_path my t) names (fun k n f => exists p r, fs (os_join my n) = Some (CfgFile p) /\ result_of (alike (ph_ca ph)) ph p (c k) r /\ fst r <> [] /\
      f = ResFile (mkResult n (ph_cppn ph) (ph_steps ph) r)).
  Proof.
    apply run_saved_gen.
    - apply alike_frame. repeat split.
    - intros p fl ev' rg o hh o1 h1 N A I L. pose proof (load_alike _ _ _ _ _ _ _ _ I N L) as B. apply alike_frame in A, B. apply alike_frame. eapply frame_trans; eauto.
    - intros. eapply result_bare; eauto.
  Qed.

  (** If every configuration can be analysed by itself, the run reaches the end. *)
  Lemma run_complete : (0 < fuel)%nat -> isdir (save_dir my) = true -> (forall k, good_rng (rng k)) ->
    holds fs my names (fun k p => whole p /\ exists r, fst r <> [] /\ result_of (fun _ => True) ph p (c k) r) -> exists fs', run = (fs', None).
  Proof.
    intros Hf Hdir Hg HP. rewrite run_loop.
    assert (G : forall ns pre w, names = (pre ++ ns)%list -> obj_inv (w_ca w) -> (forall n, a_name n -> w_files w (os_join my n) = fs (os_join my n)) -> exists w', loop ns (List.length pre) w = (w', None)).
    { induction ns as [|n ns IH]; intros pre w E I F; [eexists; reflexivity|]. rewrite loop_cons.
      assert (Nn : nth_error names (List.length pre) = Some n). { rewrite E, nth_error_app2 by lia. rewrite Nat.sub_diag. reflexivity. }
      assert (E' : names = ((pre ++ [n]) ++ ns)%list) by (rewrite <- app_assoc; exact E).
      assert (Len : S (List.length pre) = List.length (pre ++ [n])%list) by (rewrite app_length; cbn [List.length]; lia). rewrite Len.
      destruct (contains "npy" n) eqn:C; [|apply IH; auto].
      assert (An : a_name n) by (apply Hn; eapply nth_error_In; exact Nn).
      destruct (HP _ n Nn (proj1 (contains_occurs _ _) C)) as (p & Ep & Wp & r & Nr & (f0 & ev0 & rg0 & o0 & h0 & o1 & h1 & _ & I0 & L0 & U0) & Ra).
      destruct Wp as (kw & Ei & C1 & C2). assert (Pl : plain p). { unfold plain. rewrite Ei. split; assumption. }
      destruct fuel as [|fu] eqn:Ef; [lia|].
      destruct (load_value_again f0 fu ev0 ev rg0 (rng (List.length pre)) o0 (w_ca w) p h0 (w_heap w) o1 h1 I0 I Pl ltac:(congruence) (Hg _) L0) as (o2 & h2 & L2).
      assert (O : exists w', one_file (S fu) ev isdir ph my (rng (List.length pre)) (c (List.length pre)) w n = Ok w').
      { unfold one_file. rewrite F, Ep by exact An. cbn [file_config bind]. rewrite L2. cbn [bind fst snd]. rewrite (Ra _ _ _ _ _ _ _ Logic.I I L2). cbn [bind]. rewrite Ht.
        replace (Nat.eqb (List.length (fst r)) 0) with false by (destruct (fst r); [contradiction|reflexivity]). cbn [negb guard bind]. rewrite Hdir. cbn [guard bind]. eauto. }
      destruct O as [w1 O]. rewrite O. apply one_inv in O as (p' & o' & h' & r' & t' & Fp & Ld & _ & _ & T & _ & ->). rewrite Ht in T. apply Ok_inj in T. subst t'.
      apply IH; auto; cbn [w_ca w_files].
      - exact (load_value_inv _ _ _ _ _ _ _ _ I Ld).
      - intros m Hm. unfold put. destruct (String.eqb_spec (save_path my t n) (os_join my m)) as [X|X]; [|apply F; exact Hm]. exfalso. symmetry in X. revert X. apply load_not_save; auto. }
    destruct (G names [] (mkWorld (ph_ca ph) h fs)) as [w' E]; auto. cbn [List.length] in E. rewrite E. cbn [fst snd]. eauto.
  Qed.
End Runs.

(** ** What ends a run *)
Section Ends.
  Variables (fuel : nat) (ev : env) (isdir : string -> bool) (ph : phanes) (my : string).
  Notation one := (one_file fuel ev isdir ph my).

  Lemma one_no_dir rg ch w n w' : isdir (save_dir my) = false -> one rg ch w n <> Ok w'.
  Proof. intros D O. apply one_inv in O as (? & ? & ? & ? & ? & _ & _ & _ & _ & _ & X & _). congruence. Qed.

  Lemma one_zero rg ch w n w' : ph_steps ph = 0%nat -> one rg ch w n <> Ok w'.
  Proof.
    intros Z O. apply one_inv in O as (p & o & h1 & r & t & _ & _ & U & N & _). unfold universe_of in U. rewrite Z in U.
    apply bind_ok in U as (x & _ & U). apply bind_ok in U as (g & _ & U). cbn [analyze_from universe_loop] in U. apply Ok_inj in U. subst r. apply N. reflexivity.
  Qed.

  (** A result is not a configuration. *)
  Lemma one_result rg ch w n r : obj_inv (w_ca w) -> w_files w (os_join my n) = Some (ResFile r) -> one rg ch w n = Err KeyError.
  Proof.
    intros I F. unfold one_file. rewrite F. cbn [file_config bind].
    assert (X : forall p, p_inst p = None -> p_id p = None -> p_nb p = None -> load_value fuel ev rg (w_ca w) p (w_heap w) = Err KeyError).
    { intros p P1 P2 P3. unfold load_value, load_config, load_with, unpickle. cbv zeta. cbn [fst snd c_inst]. rewrite P1. cbn [bind fst snd]. unfold load_body. cbv zeta. cbn [c_id c_nb]. rewrite P2, P3. cbn [alloc_opt fst snd bind].
      destruct I as (I1 & I2 & _). cbv zeta in *. destruct (init_layer_ok (ext (o_core (w_ca w))) (int_ (o_core (w_ca w))) (pm (o_core (w_ca w))) default_id_kernel) as [il E]; auto. rewrite E. reflexivity. }
    rewrite X by reflexivity. reflexivity.
  Qed.
End Ends.

Lemma loop_none fuel ev isdir ph my rng c names : (forall rg ch w n w', one_file fuel ev isdir ph my rg ch w n <> Ok w') -> forall k w w' e,
  multi_loop fuel ev isdir ph my rng c names k w = (w', e) -> w' = w /\ (e = None -> forall n, In n names -> contains "npy" n = false).
Proof.
  intros N. induction names as [|n t IH]; intros k w w' e H; [injection H as <- <-; split; [reflexivity|intros _ n []]|]. rewrite loop_cons in H. destruct (contains "npy" n) eqn:C.
  - destruct (one_file fuel ev isdir ph my (rng k) (c k) w n) as [w1|e1] eqn:O; [destruct (N _ _ _ _ _ O)|]. injection H as <- <-. split; [reflexivity|discriminate].
  - destruct (IH _ _ _ _ H) as [A B]. split; [exact A|]. intros E m [<-|Hm]; [exact C|]. apply B; assumption.
Qed.
