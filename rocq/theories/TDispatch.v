(** Property C64: what yuca/evolve.py starts for its arguments. *)
From Coq Require Import ZArith List String Bool Ascii Permutation Sorting Lia.
From Verif Require Import Base PyDict MText SText PText PConfigX PKern MDispatch SDispatch PDispatch.
Import ListNotations.
Open Scope string_scope.

(** The automaton is the first name that occurs, in this order; two classes change the arguments. *)
Theorem C64_ca h kw s c kw' : dget "ca_fn" kw = Some (VStr s) ->
  (select_ca h kw = Ok (c, kw') <->
   first_named [("MetaCA", IsMetaCA); ("CCA", IsCCA); ("NCA", IsNCA); ("RxnDfn", IsRxnDfn); ("CODE", IsCODE);
                ("Lenia", IsLenia); ("RandomStepCA", IsRandomStepCA)] s c /\
   kw' = match c with
      | IsNCA => match dget "hidden_channels" kw with Some _ => kw | None => dset "hidden_channels" (VInt h) kw end
      | IsRxnDfn => dset "external_channels" (VInt 2) kw
      | _ => kw end).
Proof. exact (select_ca_ok h kw s c kw'). Qed.

Theorem C64_ca_unknown h kw s : dget "ca_fn" kw = Some (VStr s) ->
  (select_ca h kw = Err AssertionError <->
   none_named [("MetaCA", IsMetaCA); ("CCA", IsCCA); ("NCA", IsNCA); ("RxnDfn", IsRxnDfn); ("CODE", IsCODE);
               ("Lenia", IsLenia); ("RandomStepCA", IsRandomStepCA)] s).
Proof. exact (select_ca_err h kw s). Qed.

(** The wrapper of a rule search: SimpleHaltingWrapper before HaltingWrapper. *)
Theorem C64_env kw s : dget "env_fn" kw = Some (VStr s) ->
  (forall e, select_env kw = Ok e <->
     first_named [("SimpleHaltingWrapper", IsSimpleHalting); ("HaltingWrapper", IsHalting); ("RandomWrapper", IsRandom)] s e) /\
  (select_env kw = Err AssertionError <->
     none_named [("SimpleHaltingWrapper", IsSimpleHalting); ("HaltingWrapper", IsHalting); ("RandomWrapper", IsRandom)] s).
Proof. exact (select_env_spec kw s). Qed.

(** The first match is unique. *)
Theorem C64_unique C (table : list (string * C)) s c d : first_named table s c -> first_named table s d -> c = d.
Proof. exact (first_unique table s c d). Qed.

(** Which search the tag starts: patterns before coevolution before rules. *)
Theorem C64_evolve kw d t b j : dget "dtype" kw = Some (VStr d) -> dget "tag" kw = Some (VStr t) ->
  (evolve kw = Ok (b, j) <->
   (b = true <-> occurs "float64" d) /\
   ((occurs "pattern" t /\ pattern_search kw = Ok j) \/
    (~ occurs "pattern" t /\ occurs "coevo" t /\ coevolve kw = Ok j) \/
    (~ occurs "pattern" t /\ ~ occurs "coevo" t /\ universe_search kw = Ok j))).
Proof. exact (evolve_spec kw d t b j). Qed.

Theorem C64_pattern kw j : pattern_search kw = Ok j <->
  jb_algorithm j = IsCMAES /\ jb_agent j = Some IsCPPN /\ jb_env j = IsGlider /\
  select_ca 256 kw = Ok (jb_ca j, jb_kwargs j).
Proof. exact (pattern_spec kw j). Qed.

Theorem C64_coevolve kw j : coevolve kw = Ok j <->
  jb_algorithm j = IsCMACES /\ jb_agent j = Some IsCPPNPlus /\ jb_env j = IsGlider /\
  select_ca 16 kw = Ok (jb_ca j, jb_kwargs j).
Proof. exact (coevolve_spec kw j). Qed.

Theorem C64_universe kw j : universe_search kw = Ok j <->
  jb_algorithm j = IsCMAES /\ jb_agent j = None /\ select_env kw = Ok (jb_env j) /\
  select_ca 16 kw = Ok (jb_ca j, jb_kwargs j).
Proof. exact (universe_spec kw j). Qed.

(** A missing argument raises KeyError. *)
Theorem C64_missing kw :
  (dget "dtype" kw = None -> evolve kw = Err KeyError) /\
  (dget "env_fn" kw = None -> universe_search kw = Err KeyError) /\
  (dget "ca_fn" kw = None -> pattern_search kw = Err KeyError /\ coevolve kw = Err KeyError).
Proof.
  unfold evolve, universe_search, pattern_search, coevolve, select_env, select_ca, text_of, dgetk.
  split; [|split]; intros E; rewrite E; try split; reflexivity.
Qed.

(** The recorded command line: its groups are the arguments in order, sorted lexicographically. *)
Theorem C64_entry argv0 args name gs : entry_point argv0 args = Ok (name, gs) ->
  (exists groups, Forall is_group groups /\ List.concat groups = args /\ Permutation groups gs) /\
  StronglySorted lists_not_after gs /\
  (exists d, argv0 = d ++ name /\ ~ occurs "/" name /\ (d = "" \/ exists e, d = e ++ "/")).
Proof. exact (entry_spec argv0 args name gs). Qed.

(** It fails exactly if the first argument has no dash. *)
Theorem C64_accepts argv0 args :
  (exists r, entry_point argv0 args = Ok r) <-> match args with [] => True | a :: _ => occurs "-" a end.
Proof. exact (entry_succeeds argv0 args). Qed.

Theorem C64_rejects argv0 args e : entry_point argv0 args = Err e -> e = IndexError.
Proof. exact (entry_fails argv0 args e). Qed.

(** There is only one way to divide the arguments into groups. *)
Theorem C64_groups r r' : Forall is_group r -> Forall is_group r' -> List.concat r = List.concat r' -> r = r'.
Proof. exact (groups_unique r r'). Qed.

Definition ex_kwargs (ca env tag : string) : dict :=
  [("ca_fn", VStr ca); ("env_fn", VStr env); ("tag", VStr tag); ("dtype", VStr "float32")].

Example ex_rules : evolve (ex_kwargs "NCA" "SimpleHaltingWrapper" "exp_rules") =
  Ok (false, mkJob IsCMAES None IsSimpleHalting IsNCA
       (ex_kwargs "NCA" "SimpleHaltingWrapper" "exp_rules" ++ [("hidden_channels", VInt 16)])%list).
Proof. reflexivity. Qed.

Example ex_both : exists j, evolve (ex_kwargs "Lenia" "x" "coevo_pattern") = Ok (false, j) /\ jb_algorithm j = IsCMAES.
Proof. eexists. split; reflexivity. Qed.

(** A negative number starts a group of its own. *)
Example ex_entry : entry_point "bin/evolve.py" ["-t"; "pattern"; "-dt"; "-0.1"; "-b"; "4"; "8"] =
  Ok ("evolve.py", [["-0.1"]; ["-b"; "4"; "8"]; ["-dt"]; ["-t"; "pattern"]]).
Proof. reflexivity. Qed.
Print Assumptions C64_ca.
Print Assumptions C64_ca_unknown.
Print Assumptions C64_env.
Print Assumptions C64_unique.
Print Assumptions C64_evolve.
Print Assumptions C64_pattern.
Print Assumptions C64_coevolve.
Print Assumptions C64_universe.
Print Assumptions C64_missing.
Print Assumptions C64_entry.
Print Assumptions C64_accepts.
Print Assumptions C64_rejects.
Print Assumptions C64_groups.
