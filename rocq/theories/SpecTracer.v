(** Specification vocabulary: massless particles (test particles) among the dark matter and the gas (C113). *)
From Verif Require Import Py Num Np Data Align Base Spec SpecCirc SpecPot SpecRegroup.

(** The entries that are not marked, and those that are, in order. *)
Fixpoint without {A} (marks : list bool) (l : list A) : list A :=
  match marks, l with
  | t :: marks', a :: l' => if t then without marks' l' else a :: without marks' l'
  | _, _ => []
  end.
Fixpoint only {A} (marks : list bool) (l : list A) : list A :=
  match marks, l with
  | t :: marks', a :: l' => if t then a :: only marks' l' else only marks' l'
  | _, _ => []
  end.

Section SpecTracer.
Context {N : Num}.

(** Potentials of a set. *)
Definition pots (p : pset N) : list N := match p_pot p with Some l => l | None => [] end.
(** [g] is [g'] without the particles that are marked among those that are not stars. *)
Record removed (K : list bool) (g' g : galaxy N) : Prop := {
  rm_length : length K = length (others p_m g');
  rm_stars : g_stars g = g_stars g';
  rm_m : others p_m g = without K (others p_m g');
  rm_x : others p_x g = without K (others p_x g'); rm_y : others p_y g = without K (others p_y g'); rm_z : others p_z g = without K (others p_z g');
  rm_vx : others p_vx g = without K (others p_vx g'); rm_vy : others p_vy g = without K (others p_vy g'); rm_vz : others p_vz g = without K (others p_vz g');
  rm_pot : others pots g = without K (others pots g') }.

(** The marked particles have no mass (positive zero). *)
Definition massless (K : list bool) (g' : galaxy N) : Prop := Forall (fun m => m = n0) (only K (others p_m g')).
(** The two galaxies have the same largest softening. *)
Definition same_softening (g g' : galaxy N) : Prop := exists s, largest_softening g s /\ largest_softening g' s.
(** No marked particle has the lowest potential: each has a greater one than some particle of [g]. *)
Definition shallow (K : list bool) (g' g : galaxy N) : Prop :=
  Forall (fun p => exists q, In q (pots (g_stars g) ++ others pots g) /\ nlt q p = true) (only K (others pots g')).
(** No marked particle is bound. *)
Definition escaping (K : list bool) (g' : galaxy N) : Prop := Forall (fun o => bound o = false) (only K (others orbits g')).

(** Lists that agree on the first [n] entries and consist of [v] afterwards. *)
Definition alike {A} (n : nat) (v : A) (l l' : list A) : Prop :=
  firstn n l = firstn n l' /\ Forall (eq v) (skipn n l) /\ Forall (eq v) (skipn n l').
(** The same error; or the same labels and probabilities of the first [n] particles, nothing said about the others, and
    the same state of the generator. *)
Definition agree {St} (n : nat) (r r' : res (components N * St)) : Prop :=
  match r, r' with
  | Raise e, Raise e' => e = e'
  | Ok (c, s), Ok (c', s') => s = s' /\ alike n nnan (c_labels c) (c_labels c') /\
      match c_probs c, c_probs c' with
      | None, None => True
      | Some p, Some p' => pr_width p = pr_width p' /\ alike n (repeat nnan (pr_width p)) (pr_rows p) (pr_rows p')
      | _, _ => False
      end
  | _, _ => False
  end.
End SpecTracer.

(** All particles as sources of the potential, after the conversion of the numbers; the same for the marked ones. *)
Definition all_sources {W S : Num} (cast : W -> S) (g : galaxy W) : list (source (S:=S)) :=
  let c f := map cast (f (g_stars g) ++ others f g) in sources (c p_x) (c p_y) (c p_z) (c p_m).
Definition marked_sources {W S : Num} (cast : W -> S) (K : list bool) (g' : galaxy W) : list (source (S:=S)) :=
  let c f := map cast (only K (others f g')) in sources (c p_x) (c p_y) (c p_z) (c p_m).
(** The distance between a marked particle and one that is not, as computed, is positive. *)
Definition off_centre {W S : Num} (cast : W -> S) (K : list bool) (g' g : galaxy W) : Prop :=
  forall s, largest_softening g' s -> forall p q, In p (all_sources cast g) -> In q (marked_sources cast K g') ->
    nlt n0 (soft_dist (cast s) p q) = true.
