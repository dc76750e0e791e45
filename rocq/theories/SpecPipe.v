(** Specification vocabulary for sequences of calls: a session holds one galaxy and one open
    file, and calls the library in any order. *)
From Verif Require Import Py Num RX Np Df Data Center Align Potential Io Spec SpecR SpecIo.

Section Session.
Context {W S : Num} {M : Type}.
(** The two precisions of [potential] and its constant. *)
Variables (cast : W -> S) (lift : S -> W) (G : S).

(** One call. A call to [potential] comes with what the process provides: whether the Fortran
    module could be imported, and the contents of uninitialised memory. A call to [to_hdf5]
    comes with the way it is disturbed. *)
Inductive call : Type :=
| CPotential (name : string) (have_f : bool) (junk : nat -> nat -> S)
| CCenter
| CAlign (r_cut : option W)
| CSave (fault : nat -> option exn) (defaults : dict M) (now : M) (metadata : option (dict M)) (append overwrite : option bool)
| CLoad (ss sd sg : W).

(** [g = f(g)], where an exception leaves the variable as it is. *)
Definition attempt (g : galaxy W) (r : res (galaxy W)) : galaxy W := match r with Ok h => h | Raise _ => g end.

Definition session : Type := (galaxy W * h5 W M)%type.
Definition do_call (s : session) (c : call) : session :=
  let (g, f) := s in
  match c with
  | CPotential name have_f junk => (attempt g (potential cast lift (backend_table G have_f junk) name g), f)
  | CCenter => (attempt g (center g), f)
  | CAlign r_cut => (attempt g (star_align g r_cut), f)
  | CSave fault defaults now metadata append overwrite => (g, fst (to_hdf5 fault defaults now f g metadata append overwrite))
  | CLoad ss sd sg => (attempt g (read_hdf5 f ss sd sg), f)
  end.
Definition run (s : session) (cs : list call) : session := fold_left do_call cs s.

(** The file holds nothing of a galaxy. *)
Definition fresh (f : h5 W M) : Prop := NoDup (dkeys (h_objs f)) /\ forall name, In name names3 -> dget (h_objs f) name = None.

(** The same matter: types, masses and numbers of particles. *)
Definition same_matter (g g' : galaxy W) : Prop :=
  Forall2 (fun p q => p_type q = p_type p /\ p_m q = p_m p /\ plen q = plen p) (sets g) (sets g').
(** The same potentials. *)
Definition same_pots (g g' : galaxy W) : Prop :=
  g_haspot g' = g_haspot g /\ Forall2 (fun p q => p_pot q = p_pot p /\ p_haspot q = p_haspot p) (sets g) (sets g').

(** Calls in which nothing is read but what has just been completely written. *)
Inductive in_step : list call -> Prop :=
| step_nil : in_step []
| step_call c cs : (forall ss sd sg, c <> CLoad ss sd sg) -> in_step cs -> in_step (c :: cs)
| step_pair defaults now metadata ss sd sg cs : in_step cs ->
    in_step (CSave quiet defaults now metadata None None :: CLoad ss sd sg :: cs).

(** No write is disturbed or restricted. *)
Definition calm (c : call) : Prop :=
  match c with CSave fault _ _ _ append overwrite => (forall k, fault k = None) /\ append = None /\ overwrite = None | _ => True end.

End Session.

(** Real particles after a turn and a shift. *)
Definition rigid (A : matR) (a b c : R) (q : particle) : particle :=
  let r := rotate A q in Part (pm r) (px r + a) (py r + b) (pz r + c) (pvx r) (pvy r) (pvz r).
(** The three sets are images of these particles under one rigid motion. *)
Definition rigid_image (ls ld lg : list particle) (g : galaxy RX) : Prop :=
  exists A a b c, rotation A /\ holds (g_stars g) (map (rigid A a b c) ls) /\
    holds (g_dm g) (map (rigid A a b c) ld) /\ holds (g_gas g) (map (rigid A a b c) lg).
(** Some particle has lost its position. *)
Definition lost (g : galaxy RX) : Prop := exists p i, In p (sets g) /\ nth_error (p_x p) i = Some XNaN.
