(** Model of the StepPredictor objects and the global name they all use (yuca/step_predictor.py): fit and evaluate
    call [model], which only the script binds (274), not self. *)
From Coq Require Import Reals NArith List String Ascii Bool Arith.
From Verif Require Import Base Tensor MActivations MNca MText MWrap MPredict.
Import ListNotations.
Open Scope R_scope.

(** One StepPredictor: its network, its exp_tag (43-44) and nn.Module's flag [training] (step_predictor.py:20-44). *)
Record pobj : Type := mkPO { po_pred : predictor; po_tag : string; po_train : bool }.

(** The objects made so far, what the global name [model] refers to (none when the module is only imported), the
    files, and the number of dropout masks drawn so far (step_predictor.py:20-293). *)
Record pworld : Type := mkPW { w_objs : list pobj; w_model : option nat; w_files : files; w_drawn : nat }.

(** Replacing the object number [k] (step_predictor.py:87, 110, 122, 169). *)
Definition set_nth {A} (k : nat) (g : A -> A) (l : list A) : list A :=
  map (fun q => if Nat.eqb (fst q) k then g (snd q) else snd q) (combine (seq 0 (List.length l)) l).

(** self.train() and self.eval() (step_predictor.py:87, 99, 122, 169). *)
Definition set_mode (k : nat) (b : bool) (w : pworld) : pworld :=
  mkPW (set_nth k (fun s => mkPO (po_pred s) (po_tag s) b) (w_objs w)) (w_model w) (w_files w) (w_drawn w).

(** The new weights after optimizer.step() (step_predictor.py:110). *)
Definition set_pred (k : nat) (p : predictor) (w : pworld) : pworld :=
  mkPW (set_nth k (fun s => mkPO p (po_tag s) (po_train s)) (w_objs w)) (w_model w) (w_files w) (w_drawn w).

(** step_predictor.py:157-161, 205-208: new files. *)
Definition set_files (f : files) (w : pworld) : pworld := mkPW (w_objs w) (w_model w) f (w_drawn w).

(** Looking up the global name (step_predictor.py:105, 129, 175). *)
Definition the_model (w : pworld) : res (nat * pobj) :=
  match w_model w with
  | None => Err NameError
  | Some g => match nth_error (w_objs w) g with Some m => Ok (g, m) | None => Err Unmodelled end
  end.

Section Objects.
  (** The optimizer as in MPredict; [masks k] is the k-th dropout mask that is drawn. *)
  Variable Opt : Type.
  Variable learn : Opt -> predictor -> (nat -> nat -> nat -> nat -> nat -> bool) -> tensor * tensor -> Opt * predictor.
  Variable masks : nat -> nat -> nat -> nat -> nat -> nat -> bool.

  (** model(batch_x): the mode is that of the object called, and masks are drawn only in training mode
      (step_predictor.py:73-76, 105, 129, 175). *)
  Definition call_model (w : pworld) (x : tensor) : pworld * res tensor :=
    match the_model w with
    | Err e => (w, Err e)
    | Ok (_, m) =>
        if po_train m then
          (mkPW (w_objs w) (w_model w) (w_files w) (S (w_drawn w)), predict true (masks (w_drawn w)) (po_pred m) x)
        else (w, predict false no_keep (po_pred m) x)
    end.

  (** step_predictor.py:172-182 (126-134 repeat it). *)
  Fixpoint obj_eval_loop (w : pworld) (batches : list (tensor * tensor)) (loss : R) (samples : nat) : pworld * res (R * nat) :=
    match batches with
    | [] => (w, Ok (loss, samples))
    | (x, y) :: t =>
        match call_model w x with
        | (w1, Err e) => (w1, Err e)
        | (w1, Ok pred) =>
            match sq_error y pred with
            | Err e => (w1, Err e)
            | Ok e => obj_eval_loop w1 t (loss + tsum e) (samples + tB y)
            end
        end
    end.

  (** step_predictor.py:167-187 evaluate, called on object [k] (122-136 repeat it within fit). *)
  Definition obj_evaluate (w : pworld) (k : nat) (batches : list (tensor * tensor)) : pworld * res R :=
    match obj_eval_loop (set_mode k false w) batches 0 0 with
    | (w1, Err e) => (w1, Err e)
    | (w1, Ok r) =>
        (w1, match batches with
             | [] => Err ZeroDivisionError
             | _ => if Nat.eqb (snd r) 0 then Err NonFinite else Ok (fst r / INR (snd r))
             end)
    end.

  (** optimizer.step(): the optimizer holds the parameters of self (93), and the gradients are those of the model;
      parameters without gradient, or with gradient 0 since the start of this fit, stay (step_predictor.py:109-110). *)
  Definition obj_learn (w : pworld) (k g : nat) (o : Opt) (keep : nat -> nat -> nat -> nat -> nat -> bool)
      (q : tensor * tensor) : Opt * pworld :=
    if Nat.eqb g k then
      match nth_error (w_objs w) k with
      | Some s => let r := learn o (po_pred s) keep q in (fst r, set_pred k (snd r) w)
      | None => (o, w)
      end
    else (o, w).

  (** step_predictor.py:101-119. A prediction that depends on no parameter has no gradient to go back to (109). *)
  Fixpoint obj_epoch (w : pworld) (k : nat) (o : Opt) (pg : progress) (batches : list (tensor * tensor)) : pworld * res (Opt * progress) :=
    match batches with
    | [] => (w, Ok (o, pg))
    | (x, y) :: t =>
        match the_model w, call_model w x with
        | Ok (g, m), (w1, Ok pred) =>
            match (let* e := sq_error y pred in let* loss := tmean e in
                   let* _ := guard (negb (Nat.eqb (pr_repeats (po_pred m)) 0)) RuntimeError in Ok loss) with
            | Err e => (w1, Err e)
            | Ok loss =>
                let r := obj_learn w1 k g o (masks (w_drawn w)) (x, y) in
                obj_epoch (snd r) k (fst r) (mkProg (smooth_push (pg_smooth pg) loss) (pg_epochs pg) (pg_val pg)) t
            end
        | _, (w1, Err e) => (w1, Err e)
        | Err e, (w1, _) => (w1, Err e)
        end
    end.

  (** step_predictor.py:122-140. *)
  Definition obj_validate (w : pworld) (k : nat) (pg : progress) (epoch : nat) (val : option (list (tensor * tensor))) : pworld * res progress :=
    match val with
    | None => (set_mode k false w, Err TypeError)
    | Some batches =>
        match obj_evaluate w k batches with
        | (w1, Err e) => (w1, Err e)
        | (w1, Ok v) => (w1, Ok (mkProg (pg_smooth pg) (pg_epochs pg ++ [epoch]) (pg_val pg ++ [v])))
        end
    end.

  (** step_predictor.py:97-164, for object [k] with exp_tag [tag]. *)
  Fixpoint obj_fit_loop (n epoch max_epochs disp : nat) (root : path) (tag : string)
      (train : nat -> list (tensor * tensor)) (val : option (list (tensor * tensor)))
      (w : pworld) (k : nat) (o : Opt) (pg : progress) : pworld * res (Opt * progress) :=
    match n with
    | O => (w, Ok (o, pg))
    | S m =>
        match obj_epoch (set_mode k true w) k o pg (train epoch) with
        | (w1, Err e) => (w1, Err e)
        | (w1, Ok (o1, pg1)) =>
            if Nat.eqb disp 0 then (w1, Err ZeroDivisionError)
            else if Nat.eqb (epoch mod disp) 0 || Nat.eqb epoch (max_epochs - 1) then
              match obj_validate w1 k pg1 epoch val with
              | (w2, Err e) => (w2, Err e)
              | (w2, Ok pg2) =>
                  match np_save (w_files w2) (progress_path root tag) pg2 with
                  | Err e => (w2, Err e)
                  | Ok f1 =>
                      match torch_save f1 (model_path root tag) with
                      | Err e => (set_files f1 w2, Err e)
                      | Ok f2 => obj_fit_loop m (S epoch) max_epochs disp root tag train val (set_files f2 w2) k o1 pg2
                      end
                  end
              end
            else obj_fit_loop m (S epoch) max_epochs disp root tag train val w1 k o1 pg1
        end
    end.

  (** step_predictor.py:81-164 fit, called on object [k]. *)
  Definition obj_fit (max_epochs : nat) (disp_every : option nat) (root : path)
      (train : nat -> list (tensor * tensor)) (val : option (list (tensor * tensor)))
      (w : pworld) (k : nat) (o : Opt) : pworld * res (Opt * progress) :=
    let disp := match disp_every with Some d => d | None => Nat.max 1 (max_epochs / 10) end in
    match nth_error (w_objs w) k with
    | None => (w, Err Unmodelled)
    | Some s =>
        match pr_layers (po_pred s) with
        | [] => (set_mode k true w, Err ValueError)
        | _ => obj_fit_loop max_epochs 0 max_epochs disp root (po_tag s) train val (set_mode k true w) k o (mkProg [] [] [])
        end
    end.

  (** str of a Python float (step_predictor.py:195-197). *)
  Variable show : R -> string.

  (** step_predictor.py:195-197: the three lines. *)
  Definition end_msg (tag : string) (a b c : R) : string :=
    (tag ++ " train loss: " ++ show a ++ " " ++ String nl
     (tag ++ " val loss: " ++ show b ++ " " ++ String nl
      (tag ++ " test loss: " ++ show c ++ " " ++ String nl "")))%string.

  (** step_predictor.py:204. *)
  Definition final_path (root : path) (tag : string) : path := (root ++ ["logs"; tag ++ "_final.txt"]%string)%list.

  (** open(path, "w") and f.write (step_predictor.py:207-208). *)
  Definition write_text (f : files) (p : path) (s : string) : res files :=
    match f (removelast p) with
    | Some NDir => match f p with Some NDir => Err OSError | _ => Ok (put f p (NText s)) end
    | _ => Err FileNotFoundError
    end.

  (** step_predictor.py:189-208 end_evaluate. *)
  Definition end_evaluate (root : path) (w : pworld) (k : nat) (train val test : list (tensor * tensor)) : pworld * res unit :=
    match nth_error (w_objs w) k with
    | None => (w, Err Unmodelled)
    | Some s =>
        match obj_evaluate w k train with
        | (w1, Err e) => (w1, Err e)
        | (w1, Ok a) =>
            match obj_evaluate w1 k val with
            | (w2, Err e) => (w2, Err e)
            | (w2, Ok b) =>
                match obj_evaluate w2 k test with
                | (w3, Err e) => (w3, Err e)
                | (w3, Ok c) =>
                    match write_text (w_files w3) (final_path root (po_tag s)) (end_msg (po_tag s) a b c) with
                    | Err e => (w3, Err e)
                    | Ok f => (set_files f w3, Ok tt)
                    end
                end
            end
        end
    end.

  (** ** The script *)

  (** A batch: the samples of the given numbers, inputs and targets alike (step_predictor.py:255-272). *)
  Definition rows (t : tensor) (idx : list nat) : tensor :=
    build (List.length idx) (tC t) (tH t) (tW t) (fun b c i j => get t (nth b idx 0%nat) c i j).

  (** A DataLoader over the samples of the given numbers, in that order (step_predictor.py:261-272, 289-292). *)
  Definition loader (size : nat) (x y : tensor) (idx : list nat) : list (tensor * tensor) :=
    map (fun l => (rows x l, rows y l)) (load_batches (List.length idx) size idx).

  (** step_predictor.py:229-290: what one call of the script depends on: the tensors in the files, the two file names,
      the epochs, the seeds, the initial weights that a seed leads to, the time of every construction, and the order
      in which every pass over the training data shuffles the samples. *)
  Record setup : Type := mkSetup {
    su_load : string -> option tensor; su_in : string; su_tgt : string; su_epochs : nat; su_seeds : list N;
    su_draws : N -> draws; su_time : nat -> N; su_shuffle : nat -> nat -> list nat -> list nat; su_opt : Opt }.

  (** torch.load (step_predictor.py:244-253, 283-284). *)
  Definition load_tensor (s : setup) (name : string) : res tensor :=
    match su_load s name with Some t => Ok t | None => Err FileNotFoundError end.

  (** step_predictor.py:273: the first eight characters of the file's name without directory and ending. *)
  Definition script_tag (file : string) : string := substring 0 8 (stem (last (split "/" file) EmptyString)).

  (** step_predictor.py:231-233, 30. *)
  Definition script_size : nat := 512.
  (** step_predictor.py:274-278: radius 31 and 8 hidden channels; one outer channel and dropout 0.1 by default. *)
  Definition script_object (s : setup) (i : nat) (seed : N) (repeats : nat) : pobj :=
    mkPO (init_predictor (su_draws s seed) repeats 31 8 1 (1 / 10))
         (exp_tag (script_tag (su_in s)) (N.of_nat repeats) 31 8 seed (su_time s i)) true.

  (** step_predictor.py:242-294: the [i]-th pass through the two loops. TensorDataset asserts that inputs and
      targets are equally many; a training set without samples is left out. *)
  Definition script_run (s : setup) (root : path) (i : nat) (seed : N) (repeats : nat) (w : pworld) : pworld * res unit :=
    match (let* x := load_tensor s (su_in s) in let* y := load_tensor s (su_tgt s) in
           let* _ := guard (Nat.eqb (tB x) (tB y)) AssertionError in
           let* _ := guard (negb (Nat.eqb (tB x) 0)) Unmodelled in Ok (x, y)) with
    | Err e => (w, Err e)
    | Ok (x, y) =>
        let k := split_point (seq 0 (tB x)) in
        let tr := fun pass => loader script_size x y (su_shuffle s i pass (train_part k (seq 0 (tB x)))) in
        let va := loader script_size x y (val_part k (seq 0 (tB x))) in
        let me := List.length (w_objs w) in
        let w1 := mkPW (w_objs w ++ [script_object s i seed repeats]) (Some me) (w_files w) (w_drawn w) in
        match obj_fit (su_epochs s) None root tr (Some va) w1 me (su_opt s) with
        | (w2, Err e) => (w2, Err e)
        | (w2, Ok _) =>
            match (let* x' := load_tensor s (test_file (su_in s)) in let* y' := load_tensor s (test_file (su_tgt s)) in
                   let* _ := guard (Nat.eqb (tB x') (tB y')) AssertionError in Ok (x', y')) with
            | Err e => (w2, Err e)
            | Ok (x', y') =>
                end_evaluate root w2 me (tr (su_epochs s)) va (loader script_size x' y' (seq 0 (tB x')))
            end
        end
    end.

  (** step_predictor.py:239-240: for every seed the repetitions 1, 2 and 4. *)
  Definition script_grid (seeds : list N) : list (N * nat) :=
    flat_map (fun seed => map (pair seed) [1; 2; 4]%nat) seeds.

  (** step_predictor.py:239-294. *)
  Fixpoint script_loop (s : setup) (root : path) (i : nat) (grid : list (N * nat)) (w : pworld) : pworld * res unit :=
    match grid with
    | [] => (w, Ok tt)
    | (seed, repeats) :: t =>
        match script_run s root i seed repeats w with
        | (w1, Err e) => (w1, Err e)
        | (w1, Ok _) => script_loop s root (S i) t w1
        end
    end.

  (** step_predictor.py:211-294, for a fresh interpreter. *)
  Definition script (s : setup) (root : path) (f : files) : pworld * res unit :=
    script_loop s root 0 (script_grid (su_seeds s)) (mkPW [] None f 0).
End Objects.
