(** Model of Phanes.__init__ and Phanes.analyze_multiverse (yuca/analyze.py): a directory of saved
    configurations is analysed and the results are saved beside it. Paths that are spelled
    differently count as different; messages and wall times are left out. *)
From Coq Require Import Reals ZArith List String Ascii Bool Arith.
From Verif Require Import Base PyDict Tensor MText MActivations MCommon MCca MConfig MAnalyze MClone.
Import ListNotations.
Open Scope R_scope.
Open Scope string_scope.

(** ** Paths *)

(** Whether a path ends with a slash (analyze.py:380, 386, 422, 427: os.path.join). *)
Fixpoint ends_slash (s : string) : bool :=
  match s with
  | EmptyString => false
  | String a EmptyString => Ascii.eqb a "/"
  | String _ t => ends_slash t
  end.

(** os.path.join of two arguments (analyze.py:380, 386, 422, 427). *)
Definition os_join (a b : string) : string :=
  match b with
  | String c _ => if Ascii.eqb c "/" then b
                  else if (String.eqb a "" || ends_slash a)%bool then a ++ b else a ++ "/" ++ b
  | EmptyString => if (String.eqb a "" || ends_slash a)%bool then a else a ++ "/"
  end.

(** s.rstrip("/") (analyze.py:421: os.path.split). *)
Fixpoint rstrip (s : string) : string :=
  match s with
  | EmptyString => EmptyString
  | String a t => match rstrip t with
                  | EmptyString => if Ascii.eqb a "/" then EmptyString else String a EmptyString
                  | r => String a r
                  end
  end.

(** os.path.split(s)[0]: what precedes the last slash, without trailing slashes unless there is
    nothing else (analyze.py:421). *)
Definition split_head (s : string) : string :=
  match last_slash s with
  | None => ""
  | Some (d, _) => match rstrip d with EmptyString => d | r => r end
  end.

(** analyze.py:421-422. *)
Definition save_dir (my : string) : string := os_join (split_head (split_head my)) "ca_analysis".

(** str() of the use_cppn argument (analyze.py:426). *)
Definition cppn_text (v : value) : res string :=
  match v with
  | VBool true => Ok "True"
  | VBool false => Ok "False"
  | VInt z => Ok (if (z <? 0)%Z then "-" ++ dec (Z.to_N (- z)) else dec (Z.to_N z))
  | VNone => Ok "None"
  | VStr s => Ok s
  | _ => Err Unmodelled
  end.

(** analyze.py:421-427. *)
Definition save_path (my cppn name : string) : string :=
  os_join (save_dir my) (stem name ++ "cppn" ++ cppn ++ "_analysis.npy").

(** ** Files *)

(** What one analysis saves (analyze.py:362-374, 429-432). *)
Record result : Type := mkResult { re_name : string; re_cppn : value; re_max : nat; re_data : list measure * list Z }.

(** What np.load finds: a configuration, a result of this function, or something that makes it
    raise (analyze.py:388, 432). *)
Inductive file : Type := CfgFile (p : pcfg) | ResFile (r : result) | BadFile (e : err).

(** np.load(...).reshape(1)[0] as a configuration: a result has none of the keys that
    load_config looks up (analyze.py:388, continuous.py:102-144). *)
Definition file_config (f : option file) : res pcfg :=
  match f with
  | None => Err FileNotFoundError
  | Some (CfgFile p) => Ok p
  | Some (ResFile _) => Ok (mkPcfg None None None None None None false None)
  | Some (BadFile e) => Err e
  end.

(** np.save (analyze.py:432). *)
Definition put (fs : string -> option file) (p : string) (f : file) (q : string) : option file :=
  if String.eqb p q then Some f else fs q.

(** ** The analyser *)

(** Its fields (analyze.py:146-161). The device and the log are left out. *)
Record phanes : Type := mkPhanes {
  ph_ca : obj; ph_steps : nat; ph_batch : nat; ph_dim : nat; ph_cppn : value; ph_dir : string
}.

(** analyze.py:146-161. *)
Definition phanes_new (fuel : nat) (ev : env) (rng : nat -> draws) (kw : dict) (h : heap) : res (phanes * heap) :=
  let* ca := init fuel ev rng kw h in
  let* steps := as_size (query_kwargs "ca_steps" (VInt 2048) kw) in
  let* batch := as_size (query_kwargs "batch_size" (VInt 128) kw) in
  let* dim := as_size (query_kwargs "dim" (VInt 64) kw) in
  let* dir := match query_kwargs "input_directory" VNone kw with
              | VNone => Ok "configs"
              | VStr s => Ok s
              | _ => Err TypeError
              end in
  Ok (mkPhanes (fst ca) steps batch dim (query_kwargs "use_cppn" (VBool false) kw) dir, snd ca).

(** The random choices of one analysis: a box of random cells and a batch of patterns
    (analyze.py:299-310). *)
Record chance : Type := mkChance { ch_box : nat -> nat -> nat -> R; ch_pats : tensor }.

(** analyze.py:296-310. *)
Definition first_grid (ph : phanes) (c : chance) : res tensor :=
  if truthy (ph_cppn ph) then Ok (start_pattern (ph_dim ph) (ch_pats c)) else start_random (ph_batch ph) (ph_dim ph) (ch_box c).

(** analyze.py:278-374 for the automaton [o]: the window is as wide as the kernel. *)
Definition universe_of (ph : phanes) (o : obj) (c : chance) : res (list measure * list Z) :=
  let* r := as_size (o_radius o) in
  let* g := first_grid ph c in
  analyze_from unit (fun _ u => let* v := cca_forward (o_core o) u in Ok (tt, v)) (2 * r + 1) (ph_steps ph) tt g.

(** What changes during a run: the automaton, its dictionaries and the files (analyze.py:384-432). *)
Record world : Type := mkWorld { w_ca : obj; w_heap : heap; w_files : string -> option file }.

(** One pass of the loop for a name with "npy" in it (analyze.py:386-432). [isdir]: the
    directories that exist. The message takes the last entry of every list (400-419). *)
Definition one_file (fuel : nat) (ev : env) (isdir : string -> bool) (ph : phanes) (my : string) (rng : nat -> draws) (c : chance) (w : world) (name : string) : res world :=
  let* p := file_config (w_files w (os_join my name)) in
  let* l := load_value fuel ev rng (w_ca w) p (w_heap w) in
  let* r := universe_of ph (fst l) c in
  let* _ := guard (negb (Nat.eqb (List.length (fst r)) 0)) IndexError in
  let* t := cppn_text (ph_cppn ph) in
  let* _ := guard (isdir (save_dir my)) FileNotFoundError in
  Ok (mkWorld (fst l) (snd l) (put (w_files w) (save_path my t name) (ResFile (mkResult name (ph_cppn ph) (ph_steps ph) r)))).

(** The loop: an exception ends it, what was saved before remains (analyze.py:384-432). The
    choices of the k-th name of the listing are the k-th. *)
Fixpoint multi_loop (fuel : nat) (ev : env) (isdir : string -> bool) (ph : phanes) (my : string)
    (rng : nat -> nat -> draws) (c : nat -> chance) (names : list string) (k : nat) (w : world) : world * option err :=
  match names with
  | [] => (w, None)
  | n :: t =>
      if contains "npy" n then
        match one_file fuel ev isdir ph my (rng k) (c k) w n with
        | Ok w' => multi_loop fuel ev isdir ph my rng c t (S k) w'
        | Err e => (w, Some e)
        end
      else multi_loop fuel ev isdir ph my rng c t (S k) w
  end.

(** analyze.py:377-432: the files afterwards and the exception, if any. [listing]: os.listdir,
    which raises for a directory that is not there. *)
Definition analyze_multiverse (fuel : nat) (ev : env) (isdir : string -> bool) (listing : string -> option (list string)) (cwd : string)
    (rng : nat -> nat -> draws) (c : nat -> chance) (ph : phanes) (h : heap) (fs : string -> option file) : (string -> option file) * option err :=
  let my := os_join cwd (ph_dir ph) in
  match listing my with
  | None => (fs, Some FileNotFoundError)
  | Some names =>
      let r := multi_loop fuel ev isdir ph my rng c names 0 (mkWorld (ph_ca ph) h fs) in
      (w_files (fst r), snd r)
  end.
