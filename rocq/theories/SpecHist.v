(** Specification vocabulary for the histogram decompositions. *)
From Coq Require Import Permutation.
From Verif Require Import Py Num Np Df Data Base.

Section SpecHist.
Context {N : Num}.

(** Edges of [n] bins from -1 to [top], none of them decreasing. *)
Definition grid_to (top : N) (n : nat) (edges : list N) : Prop :=
  length edges = S n /\ neqb (nth 0 edges nnan) nm1 = true /\ neqb (nth n edges nnan) top = true /\
  forall i, (i < n)%nat -> nle (nth i edges nnan) (nth (S i) edges nnan) = true.

(** Bin [b] of [n] holds [e]: bins contain their left edge, the last one both. *)
Definition holds_bin (edges : list N) (n b : nat) (e : N) : Prop :=
  (b < n)%nat /\ nle (nth b edges nnan) e = true /\
  ((S b < n)%nat -> nlt e (nth (S b) edges nnan) = true) /\
  ((S b = n)%nat -> nle e (nth n edges nnan) = true).

(** The particles (positions in [eps]) a bin holds, once each. *)
Definition members (edges : list N) (n b : nat) (eps : list N) (l : list nat) : Prop :=
  NoDup l /\ forall i, In i l <-> exists e, nth_error eps i = Some e /\ holds_bin edges n b e.

(** The number of members with label [z]. *)
Definition labelled (z : Z) (labels : list Z) (l : list nat) : nat :=
  length (filter (fun i => match nth_error labels i with Some z' => (z =? z')%Z | None => false end) l).

(** A generator that draws without replacement. *)
Definition draws {St} (choice : St -> list nat -> nat -> list nat * St) : Prop :=
  forall st l k, (k <= length l)%nat ->
    exists rest, Permutation (fst (choice st l k) ++ rest) l /\ length (fst (choice st l k)) = k.

(** The particles of [l] whose energy satisfies a test; an energy bin open on the right. *)
Definition with_energy (P : N -> bool) (energy : list N) (l : list nat) : list nat :=
  filter (fun i => match nth_error energy i with Some e => P e | None => false end) l.
Definition half_open (edges : list N) (j : nat) (e : N) : bool := nle (nth j edges nnan) e && nlt e (nth (S j) edges nnan).
(** An energy bin as np.histogram counts: the last one also holds its right edge. *)
Definition counted (edges : list N) (n j : nat) (e : N) : bool :=
  nle (nth j edges nnan) e && (if (S j <? n)%nat then nlt e (nth (S j) edges nnan) else nle e (nth (S j) edges nnan)).

(** The first zero edge. *)
Definition zero_edge (edges : list N) (b : nat) : Prop :=
  (b < length edges)%nat /\ neqb (nth b edges nnan) n0 = true /\
  forall i, (i < b)%nat -> neqb (nth i edges nnan) n0 = false.

End SpecHist.

(** The results of decomposing galaxies one after another with one object, up to the first
    failure. *)
Fixpoint session {N : Num} {St} argsort (D : decomposer N St) (st : St) (gs : list (galaxy N)) : list (res (components N)) :=
  match gs with
  | [] => []
  | g :: gs => match decompose argsort D st g with
      | Ok (c, st') => Ok c :: session argsort D st' gs
      | Raise e => [Raise e]
      end
  end.
