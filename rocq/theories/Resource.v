(** Model of the stand-alone Fortran programs under resource/: potential_test.f90 (it made the
    file the tests compare with), potential.f90 and potential_TNG.f90.
    Text files are lists of the numbers read; formatting is not modelled. *)
From Verif Require Import Py Num Np Potential.

Section Resource.
Context {S : Num}.
(** The constant [G] of the program. *)
Variable G : S.

(** potential_test.f90 32: the distance with the parameter [eps]. *)
Definition tdist (eps : S) (bi bj : body S) : S :=
  nsqrt ((((b_x bi - b_x bj) * (b_x bi - b_x bj) + (b_y bi - b_y bj) * (b_y bi - b_y bj)) + (b_z bi - b_z bj) * (b_z bi - b_z bj)) + eps * eps)%num.
(** potential.f90 36, potential_TNG.f90 90: the distance without softening. *)
Definition rdist (bi bj : body S) : S :=
  nsqrt (((b_x bi - b_x bj) * (b_x bi - b_x bj) + (b_y bi - b_y bj) * (b_y bi - b_y bj)) + (b_z bi - b_z bj) * (b_z bi - b_z bj))%num.

(** potential_test.f90 27-37, potential.f90 31-41, potential_TNG.f90 85-95: the loops. *)
Fixpoint rinner (dist : body S -> body S -> S) (i j : nat) (bi : body S) (acc : S) (l : list (body S)) : S :=
  match l with
  | [] => acc
  | bj :: l' => rinner dist i (Datatypes.S j) bi (if (i =? j)%nat then acc else acc + b_m bj / dist bi bj)%num l'
  end.
(** potential_test.f90 27-37, potential.f90 31-41, potential_TNG.f90 85-95: all rows. *)
Definition rloop (dist : body S -> body S -> S) (bs : list (body S)) : list S :=
  map2 (fun i bi => (rinner dist i 0 bi n0 bs * G)%num) (seq 0 (length bs)) bs.

(** potential_test.f90 1-52: what is written to the output file. *)
Definition test_program (eps : S) (bs : list (body S)) : list S := rloop (tdist eps) bs.
(** potential.f90 1-57. *)
Definition old_program (bs : list (body S)) : list S := rloop rdist bs.

(** potential_TNG.f90: one line of an input file is an ID and a particle; reading past the end
    of a file aborts the program. *)
Record row : Type := Row { r_id : S; r_body : body S }.
(** potential_TNG.f90 43-78: reading one file. *)
Definition read_rows (n : nat) (file : list row) : res (list row) :=
  do _ <- guard (n <=? length file)%nat OSError; Ok (firstn n file).
(** potential_TNG.f90 25-152, one galaxy: the numbers of particles and the three input files;
    the result are the output files for gas (none if there is no gas), dark matter and stars.
    The output files are taken not to exist before. *)
Definition tng_program (n_gas n_dark n_star : nat) (gas dark star : list row) : res (option (list (S * S)) * list (S * S) * list (S * S)) :=
  do g <- (if (n_gas =? 0)%nat then Ok [] else read_rows n_gas gas);
  do d <- read_rows n_dark dark;
  do s <- read_rows n_star star;
  let rows := g ++ d ++ s in
  let out := combine (map r_id rows) (rloop rdist (map r_body rows)) in
  Ok (if (n_gas =? 0)%nat then None else Some (firstn n_gas out),
      firstn n_dark (skipn n_gas out),
      firstn n_star (skipn (n_gas + n_dark) out)).

(** ** The OpenMP loop of potential.f90 26-43 and potential_TNG.f90 80-97 as a concurrent
    program, as in [PotConc.v]: every outer iteration is a task with private [j] and [dist];
    the shared array is [ep]; steps are single reads and writes of it. *)
Inductive rpc : Type :=
| RStart                          (* before [ep(i) = 0.] *)
| RHead (j : nat)                 (* loop head of the inner loop *)
| RHave (j : nat) (d : S)         (* [dist] computed *)
| RRead (j : nat) (d r : S)       (* [ep(i)] read for the addition *)
| RScale                          (* inner loop finished *)
| RScaleR (r : S)                 (* [ep(i)] read for the multiplication by G *)
| RDone.
Section Parallel.
Variable dist : body S -> body S -> S.
Variable bs : list (body S).
(** One step of task [i] from its program counter and the shared array.
    (potential.f90 31-41, potential_TNG.f90 85-95) *)
Definition rtask (i : nat) (c : rpc) (mem : list S) : option (list S * rpc) :=
  match c with
  | RStart => Some (upd mem i n0, RHead 0)                                     (* 32; 86 *)
  | RHead j =>
      match nth_error bs i, nth_error bs j with
      | Some bi, Some bj => Some (mem, if (i =? j)%nat then RHead (Datatypes.S j) else RHave j (dist bi bj))
      | _, _ => Some (mem, RScale)
      end
  | RHave j d => match nth_error mem i with Some r => Some (mem, RRead j d r) | None => None end
  | RRead j d r =>
      match nth_error bs j with
      | Some bj => Some (upd mem i (r + b_m bj / d)%num, RHead (Datatypes.S j)) (* 37; 91 *)
      | None => None
      end
  | RScale => match nth_error mem i with Some r => Some (mem, RScaleR r) | None => None end
  | RScaleR r => Some (upd mem i (r * G)%num, RDone)                            (* 41; 95 *)
  | RDone => None
  end.
(** A state: the shared array and the program counter of every outer iteration; in one step
    some iteration advances (potential.f90 26-43, potential_TNG.f90 80-97). *)
Record rstate : Type := RSt { ep : list S; rpcs : list rpc }.
(** One iteration advances (potential.f90 26-43, potential_TNG.f90 80-97). *)
Inductive rstep : rstate -> rstate -> Prop :=
| RStep i c mem cs mem' c' : nth_error cs i = Some c -> rtask i c mem = Some (mem', c') ->
    rstep (RSt mem cs) (RSt mem' (upd cs i c')).
(** Executions of exactly [k] steps (potential.f90 26-43, potential_TNG.f90 80-97). *)
Inductive rsteps : nat -> rstate -> rstate -> Prop :=
| rsteps_refl s : rsteps 0 s s
| rsteps_next k s t u : rstep s t -> rsteps k t u -> rsteps (Datatypes.S k) s u.
(** The loop from uninitialised contents [ep0], and its end (the barrier of END DO).
    (potential.f90 26, potential_TNG.f90 80) *)
Definition rinit (ep0 : list S) : rstate := RSt ep0 (repeat RStart (length bs)).
(** All iterations have ended (potential.f90 43, potential_TNG.f90 97). *)
Definition rfinished (s : rstate) : Prop := Forall (fun c => c = RDone) (rpcs s).
End Parallel.

End Resource.
Arguments rpc : clear implicits.
Arguments rstate : clear implicits.
Arguments row : clear implicits.
