(** Model of how a search starts its processes: mpi_fork and search of yuca/cmaes.py, and the
    division of one generation among processes whose number need not be the one asked for. *)
From Coq Require Import List Arith Bool ZArith String Ascii.
From Verif Require Import Base MText.
Import ListNotations.
Open Scope string_scope.

(** os.environ: the value of each variable, if it is set (cmaes.py:392-398). *)
Definition environ := string -> option string.

(** os.getenv(name) (cmaes.py:392). *)
Definition getenv (env : environ) (name : string) : option string := env name.

(** One keyword of env.update (cmaes.py:394-398). *)
Definition setenv (name v : string) (env : environ) : environ :=
  fun k => if String.eqb k name then Some v else env k.

(** str(n) of an integer (cmaes.py:399-401). *)
Definition str_int (n : Z) : string :=
  if Z.ltb n 0 then String "-" (dec (Z.to_N (- n))) else dec (Z.to_N n).

(** What mpi_fork does: start a command and wait for it, or go on with the globals num_worker
    and rank set (cmaes.py:386-407). *)
Inductive forked : Type :=
| Relaunch (command : list string) (env : environ)
| GoOn (num_worker rank : Z).

(** cmaes.py:377-407. [exe] is sys.executable; [size] and [rank] are what the communicator of this
    process answers. *)
Definition mpi_fork (workers : Z) (exe : string) (argv : list string) (env : environ) (size rank : Z) : forked :=
  if Z.leb workers 1 then GoOn 0 0
  else match getenv env "IN_MPI" with
       | None =>
           Relaunch (["mpirun"; "-np"; str_int workers; exe] ++ ["-u"] ++ argv)
                    (setenv "IN_MPI" "1" (setenv "OMP_NUM_THREAdS" "1" (setenv "MKL_NUM_THREADS" "1" env)))
       | Some _ => GoOn size rank
       end.

(** int(s) of a numeral (the -np argument of mpirun, cmaes.py:399-401). *)
Fixpoint read_dec (acc : N) (s : string) : option N :=
  match s with
  | EmptyString => Some acc
  | String c t =>
      let d := N_of_ascii c in
      if N.leb 48 d && N.ltb d 58 then read_dec (acc * 10 + (d - 48)) t else None
  end.

(** What mpirun starts: that many copies of a python interpreter, which takes its option -u away
    and hands the rest to the script as sys.argv (cmaes.py:399-401). *)
Definition mpirun (command : list string) : option (nat * string * list string) :=
  match command with
  | m :: np :: n :: exe :: u :: argv =>
      if String.eqb m "mpirun" && String.eqb np "-np" && String.eqb u "-u"
      then match n with
           | EmptyString => None
           | _ => match read_dec 0 n with Some k => Some (N.to_nat k, exe, argv) | None => None end
           end
      else None
  | _ => None
  end.

(** A started process: it runs the mantle, an arm, or it has started others and waited for them
    (cmaes.py:409-417). [Broken] is a command that does not start. *)
Inductive process : Type :=
| Mantle (workers num_worker : Z)
| Arm (workers num_worker rank : Z)
| Launcher (env : environ) (children : list process)
| Broken.

(** A process started with these arguments: search, up to the choice between mantle and arm
    (cmaes.py:409-417). [workers_of] reads the option -w off sys.argv (evolve.py:215-216). [fuel]
    bounds the number of launchers above one another. *)
Fixpoint start (fuel : nat) (workers_of : list string -> Z) (exe : string) (argv : list string) (env : environ) (size rank : Z) : process :=
  let workers := workers_of argv in
  match mpi_fork workers exe argv env size rank with
  | GoOn nw rk => if Z.eqb rk 0 then Mantle workers nw else Arm workers nw rk
  | Relaunch command env' =>
      match fuel, mpirun command with
      | S f, Some (n, exe', argv') =>
          Launcher env' (map (fun k => start f workers_of exe' argv' env' (Z.of_nat n) (Z.of_nat k)) (seq 0 n))
      | _, _ => Broken
      end
  end.

(** Whether a process ends without an exception, [ok] telling which mantles and arms do: check_call
    raises unless every process mpirun started ends well, and os._exit(0) follows
    (cmaes.py:400-403, 411-412). *)
Fixpoint succeeds (ok : process -> bool) (p : process) : bool :=
  match p with
  | Launcher _ cs => forallb (succeeds ok) cs
  | Broken => false
  | _ => ok p
  end.

(** How many times "evolution completed successfully" is printed: os._exit(0) ends a launcher
    before search returns to evolve (cmaes.py:411-412, evolve.py:149). *)
Fixpoint completions (ok : process -> bool) (p : process) : nat :=
  match p with
  | Launcher _ cs => fold_right (fun c n => completions ok c + n)%nat 0%nat cs
  | Broken => 0%nat
  | _ => if ok p then 1%nat else 0%nat
  end.

(** ** One generation with self.workers = [workers] and num_worker = [nw] (cmaes.py:471-518) *)

(** range(a, b) of integers (cmaes.py:490, 504, 511). *)
Definition zrange (a b : Z) : list Z := map (fun k => a + Z.of_nat k)%Z (seq 0 (Z.to_nat (b - a))).

(** The loop that sends, over the processes [ccs] (cmaes.py:490-507): population_left never
    changes; [rem] is population_remainder, [last] is batch_end. *)
Fixpoint send_loop (P sub rem last : Z) (ccs : list Z) : list (Z * list Z) :=
  match ccs with
  | [] => []
  | cc :: t =>
      let size := (Z.min sub P + (if Z.eqb rem 0 then 0 else 1))%Z in
      let rem' := if Z.eqb rem 0 then rem else (rem - 1)%Z in
      (cc, zrange last (last + size)) :: send_loop P sub rem' (last + size) t
  end.

(** What a generation does: evaluate these agents in this process, or send them to others and wait
    for answers (cmaes.py:471-518). *)
Inductive round : Type :=
| Serial (agents : list Z)
| Parallel (sends : list (Z * list Z)) (receives : list Z).

(** cmaes.py:471-518: P / (workers - 1) is divided exactly and rounded toward zero. *)
Definition generation (P workers nw : Z) : res round :=
  if Z.eqb workers 0 then Ok (Serial (zrange 0 P))
  else
    let* _ := guard (negb (Z.eqb (workers - 1) 0)) ZeroDivisionError in
    let* _ := guard (negb (Z.eqb (nw - 1) 0)) ZeroDivisionError in
    Ok (Parallel (send_loop P (Z.quot P (workers - 1)) (P mod (nw - 1)) 0 (zrange 1 workers)) (zrange 1 nw)).
