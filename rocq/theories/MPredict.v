(** Model of yuca/step_predictor.py (StepPredictor, its training and the script below it). *)
From Coq Require Import Reals NArith List String Ascii Bool Arith.
From Verif Require Import Base Tensor MActivations MNca MText MWrap.
Import ListNotations.
Open Scope R_scope.

(** ** The network *)

(** torch.nn.Conv2d with a bias: one number per output channel is added (step_predictor.py:53-67). *)
Record blayer : Type := mkBL { bl_c : conv_layer; bl_b : list R }.

(** step_predictor.py:69-78. *)
Definition bconv_apply (l : blayer) (t : tensor) : res tensor :=
  let* y := conv_apply (bl_c l) t in
  Ok (build (tB y) (tC y) (tH y) (tW y) (fun b o i j => get y b o i j + nth o (bl_b l) 0)).

(** step_predictor.py:20-44: the fields that the network depends on. *)
Record predictor : Type := mkPred { pr_repeats : nat; pr_layers : list blayer; pr_dropout : R }.

(** torch's random initial weights and biases, by number of the layer in order of creation (step_predictor.py:53-67). *)
Record draws : Type := mkDraws { dw_w : nat -> nat -> nat -> nat -> nat -> R; dw_b : nat -> nat -> R }.

(** One nn.Conv2d from [i] to [o] channels with k x k kernels and padding [p] (zeros) (step_predictor.py:53-67). *)
Definition new_layer (d : draws) (n o i k p : nat) : blayer :=
  mkBL (mkL (build o i k k (dw_w d n)) 1 p Zeros) (map (dw_b d n) (seq 0 o)).

(** step_predictor.py:53-67: the layers of the repetitions from [ii] on, [m] of them. *)
Fixpoint init_layers (d : draws) (radius hidden out : nat) (m ii : nat) : list blayer :=
  match m with
  | O => []
  | S m' => new_layer d (2 * ii) hidden out (2 * radius + 1) radius
            :: new_layer d (2 * ii + 1) out hidden 1 0
            :: init_layers d radius hidden out m' (S ii)
  end.

(** step_predictor.py:46-67 init_model. *)
Definition init_predictor (d : draws) (repeats radius hidden out : nat) (dropout : R) : predictor :=
  mkPred repeats (init_layers d radius hidden out repeats 0) dropout.

(** step_predictor.py:60-61, 66-67: the names under which weight and bias of the layers are registered. *)
Fixpoint param_names (m ii : nat) : list string :=
  match m with
  | O => []
  | S m' =>
      (let l := "layer" ++ dec (N.of_nat ii) in
       [l ++ "_param0"; l ++ "_param1"; l ++ "_1x1_param0"; l ++ "_1x1_param1"])%string
      ++ param_names m' (S ii)
  end.

(** self.conv_layers[k] (step_predictor.py:73-76). *)
Definition layer_at (p : predictor) (k : nat) : res blayer :=
  match nth_error (pr_layers p) k with Some l => Ok l | None => Err IndexError end.

(** F.dropout(x, p, training): the probability is checked in both modes (step_predictor.py:73-76). *)
Definition f_dropout (training : bool) (keep : nat -> nat -> nat -> nat -> bool) (p : R) (t : tensor) : res tensor :=
  let* _ := guard ((if Rle_dec 0 p then true else false) && (if Rle_dec p 1 then true else false)) ValueError in
  Ok (dropout training keep p t).

(** step_predictor.py:73-76: one pass of the loop for the index [jj]. *)
Definition predict_block (training : bool) (keep : nat -> nat -> nat -> nat -> nat -> bool) (p : predictor)
    (jj : nat) (x : tensor) : res tensor :=
  let* la := layer_at p jj in
  let* y0 := bconv_apply la x in
  let* x1 := f_dropout training (keep jj) (pr_dropout p) (tmap (act_fn AReLU) y0) in
  let* lb := layer_at p (jj + 1) in
  let* y1 := bconv_apply lb x1 in
  tzip Rplus x (tmap (act_fn ASigmoid) y1).

(** step_predictor.py:69-78 forward: jj in range(0, layer_repeats, 2). *)
Fixpoint predict_loop (fuel : nat) (training : bool) (keep : nat -> nat -> nat -> nat -> nat -> bool) (p : predictor)
    (jj : nat) (x : tensor) : res tensor :=
  if Nat.ltb jj (pr_repeats p) then
    match fuel with
    | O => Err OutOfFuel
    | S f => let* x' := predict_block training keep p jj x in predict_loop f training keep p (jj + 2) x'
    end
  else Ok x.

(** step_predictor.py:69-78. *)
Definition predict (training : bool) (keep : nat -> nat -> nat -> nat -> nat -> bool) (p : predictor) (x : tensor) : res tensor :=
  predict_loop (pr_repeats p) training keep p 0 x.

(** ** Evaluation *)

(** (batch_y - pred)**2 (step_predictor.py:107, 132, 178). *)
Definition sq_error (y pred : tensor) : res tensor := tzip (fun a b => (a - b) ^ 2) y pred.

(** step_predictor.py:167-187: no mask in evaluation mode. *)
Definition no_keep : nat -> nat -> nat -> nat -> nat -> bool := fun _ _ _ _ _ => true.

(** step_predictor.py:172-182 (126-134 repeat it): the summed squared errors and the number of samples. *)
Fixpoint eval_loop (p : predictor) (batches : list (tensor * tensor)) (loss : R) (samples : nat) : res (R * nat) :=
  match batches with
  | [] => Ok (loss, samples)
  | (x, y) :: t =>
      let* pred := predict false no_keep p x in
      let* e := sq_error y pred in
      eval_loop p t (loss + tsum e) (samples + tB y)
  end.

(** step_predictor.py:167-187 evaluate. Without a batch test_loss is the Python float 0.0, and dividing it by the
    int 0 raises; with batches it is a tensor. *)
Definition evaluate_on (p : predictor) (batches : list (tensor * tensor)) : res R :=
  let* r := eval_loop p batches 0 0 in
  match batches with
  | [] => Err ZeroDivisionError
  | _ => if Nat.eqb (snd r) 0 then Err NonFinite else Ok (fst r / INR (snd r))
  end.

(** ** Training *)

(** step_predictor.py:112-117: the smoothed training losses, in order. *)
Definition smooth_push (l : list R) (loss : R) : list R :=
  match rev l with
  | [] => l ++ [loss]
  | s :: _ => l ++ [s * (99 / 100) + loss * (1 / 100)]
  end.

(** A file system by paths (lists of components): directories, progress files (np.save of the
    dictionary of 151-155: smoothed losses, epochs, validation losses; the wall times are left
    out), text files (205-208) and other files (step_predictor.py:143-161). *)
Record progress : Type := mkProg { pg_smooth : list R; pg_epochs : list nat; pg_val : list R }.
(** step_predictor.py:143-161. *)
Inductive node : Type := NDir | NProgress (p : progress) | NOther | NText (s : string).
(** step_predictor.py:143-161. *)
Definition path := list string.
(** step_predictor.py:143-161. *)
Definition files := path -> option node.

(** step_predictor.py:143-161. *)
Definition path_eqb (p q : path) : bool := if list_eq_dec string_dec p q then true else false.
(** step_predictor.py:143-161. *)
Definition put (f : files) (p : path) (n : node) : files := fun q => if path_eqb q p then Some n else f q.

(** np.save(path, dict) for a path ending in ".npy" (step_predictor.py:143-161). *)
Definition np_save (f : files) (p : path) (v : progress) : res files :=
  match f (removelast p) with
  | Some NDir => match f p with Some NDir => Err OSError | _ => Ok (put f p (NProgress v)) end
  | _ => Err FileNotFoundError
  end.

(** torch.save(state_dict, path): the parent directory must exist (step_predictor.py:157-161). *)
Definition torch_save (f : files) (p : path) : res files :=
  match f (removelast p) with
  | Some NDir => match f p with Some NDir => Err RuntimeError | _ => Ok (put f p NOther) end
  | _ => Err RuntimeError
  end.

(** step_predictor.py:157-161: [root] is the directory two levels above step_predictor.py. The model's path is
    joined to save_path after that has become the path of the progress file. *)
Definition progress_path (root : path) (tag : string) : path := (root ++ ["logs"; tag ++ ".npy"]%string)%list.
(** step_predictor.py:157-161. *)
Definition model_path (root : path) (tag : string) : path :=
  (progress_path root tag ++ ["models"; tag ++ "_model.pt"]%string)%list.

Section Fit.
  (** The state of the optimizer and one step of it (109-110) for a batch and the dropout masks. *)
  Variable Opt : Type.
  Variable learn : Opt -> predictor -> (nat -> nat -> nat -> nat -> nat -> bool) -> tensor * tensor -> Opt * predictor.
  (** The dropout masks of the k-th training step. *)
  Variable masks : nat -> nat -> nat -> nat -> nat -> nat -> bool.

  (** step_predictor.py:81-164: the variables of fit. *)
  Record fit_state : Type := mkFit {
    ft_opt : Opt; ft_pred : predictor; ft_steps : nat; ft_prog : progress }.

  (** step_predictor.py:101-119: one pass over the training batches. [model] is the global of the script (274),
      the very object that fit is called on. *)
  Fixpoint train_epoch (s : fit_state) (batches : list (tensor * tensor)) : res fit_state :=
    match batches with
    | [] => Ok s
    | (x, y) :: t =>
        let keep := masks (ft_steps s) in
        let* pred := predict true keep (ft_pred s) x in
        let* e := sq_error y pred in
        let* loss := tmean e in
        let r := learn (ft_opt s) (ft_pred s) keep (x, y) in
        let g := ft_prog s in
        train_epoch (mkFit (fst r) (snd r) (S (ft_steps s))
                       (mkProg (smooth_push (pg_smooth g) loss) (pg_epochs g) (pg_val g))) t
    end.

  (** step_predictor.py:122-140: validation; no loader is not iterable. *)
  Definition validate (s : fit_state) (epoch : nat) (val : option (list (tensor * tensor))) : res fit_state :=
    match val with
    | None => Err TypeError
    | Some batches =>
        let* v := evaluate_on (ft_pred s) batches in
        let g := ft_prog s in
        Ok (mkFit (ft_opt s) (ft_pred s) (ft_steps s)
              (mkProg (pg_smooth g) (pg_epochs g ++ [epoch]) (pg_val g ++ [v])))
    end.

  (** step_predictor.py:97-164: the remaining [n] epochs of [max_epochs]; the files are kept when an exception
      is raised. [train] gives the shuffled batches of every epoch. *)
  Fixpoint fit_loop (n epoch max_epochs disp : nat) (root : path) (tag : string)
      (train : nat -> list (tensor * tensor)) (val : option (list (tensor * tensor)))
      (s : fit_state) (f : files) : files * res fit_state :=
    match n with
    | O => (f, Ok s)
    | S m =>
        match train_epoch s (train epoch) with
        | Err e => (f, Err e)
        | Ok s1 =>
            if Nat.eqb disp 0 then (f, Err ZeroDivisionError)
            else if Nat.eqb (epoch mod disp) 0 || Nat.eqb epoch (max_epochs - 1) then
              match validate s1 epoch val with
              | Err e => (f, Err e)
              | Ok s2 =>
                  match np_save f (progress_path root tag) (ft_prog s2) with
                  | Err e => (f, Err e)
                  | Ok f1 =>
                      match torch_save f1 (model_path root tag) with
                      | Err e => (f1, Err e)
                      | Ok f2 => fit_loop m (S epoch) max_epochs disp root tag train val s2 f2
                      end
                  end
              end
            else fit_loop m (S epoch) max_epochs disp root tag train val s1 f
        end
    end.

  (** step_predictor.py:81-164 fit. [disp_every] is the keyword, if given. torch's optimizers refuse
      to be made without parameters (93). *)
  Definition fit (max_epochs : nat) (disp_every : option nat) (root : path) (tag : string)
      (train : nat -> list (tensor * tensor)) (val : option (list (tensor * tensor)))
      (o : Opt) (p : predictor) (f : files) : files * res fit_state :=
    let disp := match disp_every with Some d => d | None => Nat.max 1 (max_epochs / 10) end in
    match pr_layers p with
    | [] => (f, Err ValueError)
    | _ => fit_loop max_epochs 0 max_epochs disp root tag train val (mkFit o p 0 (mkProg [] [] [])) f
    end.
End Fit.

(** ** The script *)

(** step_predictor.py:41: str(int(time.time() * 1000))[-6:] for the time in milliseconds. *)
Definition last_chars (k : nat) (s : string) : string := substring (String.length s - k) k s.
(** step_predictor.py:41. *)
Definition fingerprint (ms : N) : string := last_chars 6 (dec ms).

(** step_predictor.py:43-44 exp_tag. *)
Definition exp_tag (tag : string) (repeats radius hidden seed ms : N) : string :=
  (tag ++ "_l_" ++ dec repeats ++ "_kr_" ++ dec radius ++ "_hid" ++ dec hidden ++ "_seed" ++ dec seed
   ++ "_" ++ fingerprint ms)%string.

(** step_predictor.py:247-253: the samples for validation and for training. *)
Definition split_point {A} (data : list A) : nat := List.length data / 10.
(** step_predictor.py:247-253. *)
Definition val_part {A} (k : nat) (data : list A) : list A := firstn k data.
(** step_predictor.py:247-253. *)
Definition train_part {A} (k : nat) (data : list A) : list A := skipn k data.

(** A DataLoader without shuffling: consecutive batches of [size] samples (step_predictor.py:255-272). *)
Fixpoint load_batches {A} (fuel size : nat) (data : list A) : list (list A) :=
  match fuel, data with
  | S f, _ :: _ => firstn size data :: load_batches f size (skipn size data)
  | _, _ => []
  end.

(** str.replace(old, new) for a non-empty [old]: left to right, without overlap (step_predictor.py:283-284). *)
Fixpoint replace_loop (fuel : nat) (old new s : string) : string :=
  match fuel with
  | O => s
  | S f =>
      if prefix old s then (new ++ replace_loop f old new (substring (String.length old) (String.length s - String.length old) s))%string
      else match s with
           | EmptyString => EmptyString
           | String a t => String a (replace_loop f old new t)
           end
  end.
(** step_predictor.py:283-284. *)
Definition str_replace (old new s : string) : string := replace_loop (S (String.length s)) old new s.

(** step_predictor.py:283-284: the file the test data are read from. *)
Definition test_file (file : string) : string := str_replace "train" "test" file.

(** step_predictor.py:216, 219: the default arguments. *)
Definition default_inputs : string := "data/geminium_test_dataset_x.pt".
(** step_predictor.py:219. *)
Definition default_targets : string := "data/geminium_test_dataset_y.pt".
