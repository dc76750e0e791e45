(** The OpenMP loop of utils/fortran/potential.f95 as a concurrent program.

    Shared memory is the array [pe] (the inputs are never written).  Every iteration of
    the outer loop is a task with its private [j] and [dist]; any unfinished task may take
    the next step at any time.  This over-approximates every schedule clause, chunk size
    and number of threads.  Steps are the individual reads and writes of [pe(i)]. *)
From Verif Require Import Py Num Np Potential.

Section Conc.
Context {S : Num}.

(** Program counter of one outer iteration (potential.f95 41-56). *)
Inductive pc : Type :=
| Start                         (* before [pe(i) = 0.] *)
| Head (j : nat)                (* loop head of the inner loop *)
| Have (j : nat) (d : S)        (* [dist] computed *)
| Read (j : nat) (d r : S).     (* [pe(i)] read into a register *)

(** The shared array [pe] and the program counters (potential.f95 41-56). *)
Record state : Type := St { pe : list S; pcs : list pc }.

Section Program.
Variable soft2 : S.
Variable bs : list (body S).

(** One step of task [i] from its program counter and the shared array (potential.f95 41-56). *)
Definition task_step (i : nat) (c : pc) (mem : list S) : option (list S * pc) :=
  match c with
  | Start => Some (upd mem i n0, Head 0)                                  (* line 42 *)
  | Head j =>
      match nth_error bs i, nth_error bs j with
      | Some bi, Some bj =>
          if (i =? j)%nat then Some (mem, Head (Datatypes.S j))           (* line 44 *)
          else Some (mem, Have j (fdist soft2 (b_x bi) (b_y bi) (b_z bi)
                                    (b_x bj) (b_y bj) (b_z bj)))          (* lines 46-51 *)
      | _, _ => None                                                      (* loop finished *)
      end
  | Have j d =>
      match nth_error mem i with Some r => Some (mem, Read j d r) | None => None end
  | Read j d r =>
      match nth_error bs j with
      | Some bj => Some (upd mem i (r + b_m bj / d)%num, Head (Datatypes.S j)) (* line 52 *)
      | None => None
      end
  end.

(** One step of the whole loop: some task advances (potential.f95 38-57). *)
Inductive step : state -> state -> Prop :=
| Step i c mem cs mem' c' :
    nth_error cs i = Some c -> task_step i c mem = Some (mem', c') ->
    step (St mem cs) (St mem' (upd cs i c')).

(** Executions (potential.f95 38-57). *)
Inductive steps : state -> state -> Prop :=
| steps_refl s : steps s s
| steps_next s t u : step s t -> steps t u -> steps s u.

(** All iterations finished: the implicit barrier of [END DO] (potential.f95 57). *)
Definition finished (s : state) : Prop := Forall (fun c => c = Head (length bs)) (pcs s).
End Program.

(** potential.f95 16-59: the output array [pe0] is uninitialised on entry; [out] is what
    a terminating parallel execution returns. *)
Definition parallel_run (x y z m : list S) (soft : S) (pe0 out : list S) : Prop :=
  let bs := bodies x y z m in
  exists s, steps (soft * soft)%num bs (St pe0 (repeat Start (length bs))) s /\
    finished bs s /\ pe s = out.

End Conc.
Arguments pc : clear implicits.
Arguments state : clear implicits.
