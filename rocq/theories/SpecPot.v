(** Specification of the pairwise softened potential, generic and over the reals. *)
From Verif Require Import Py Num RX Np Data Spec SpecR.

Section SpecPot.
Context {S : Num}.

(** A source: position and mass. *)
Definition source : Type := (S * S * (S * S))%type.
Definition sources (x y z m : list S) : list source := combine (combine x y) (combine z m).
Definition src_m (p : source) : S := snd (snd p).

(** Softened distance, summed in the order x, y, z, softening. *)
Definition soft_dist (soft : S) (p q : source) : S :=
  let '(x, y, (z, _)) := p in let '(x', y', (z', _)) := q in
  nsqrt ((((x - x') * (x - x') + (y - y') * (y - y')) + (z - z') * (z - z')) + soft * soft)%num.

(** All entries of a list but the [i]-th, in order. *)
Definition others {A} (l : list A) (i : nat) : list A := firstn i l ++ skipn (Datatypes.S i) l.

(** Sum of mass over softened distance to all the other particles, in index order. *)
Definition pair_sum (soft : S) (l : list source) (i : nat) (p : source) : S :=
  fold_left (fun acc q => (acc + src_m q / soft_dist soft p q)%num) (others l i) n0.
End SpecPot.

(** Values of an attribute over stars, dark matter and gas. *)
Definition all_m {N : Num} (g : galaxy N) : list N := flat_map (@p_m N) (sets g).

(** [s] is the largest softening among the sets that have particles, NaN not counting;
    NaN when there is none. *)
Definition largest_softening {N : Num} (g : galaxy N) (s : N) : Prop :=
  let used p := In p (sets g) /\ plen p <> 0%nat /\ nisnan (p_soft p) = false in
  (exists p, used p /\ p_soft p = s /\ forall q, used q -> nlt s (p_soft q) = false) \/
  (s = nnan /\ forall p, ~ used p).

Local Open Scope R_scope.
(** Exact values: specific potential (without G) produced at [p] by the particles [l]. *)
Definition sdist (s : R) (p q : particle) : R :=
  sqrt ((px p - px q) * (px p - px q) + (py p - py q) * (py p - py q) + (pz p - pz q) * (pz p - pz q) + s * s).
Definition phi (s : R) (p : particle) (l : list particle) : R := sumR (fun q => pm q / sdist s p q) l.
(** No two particles of the list (at different places) are at zero softened distance. *)
Definition apart (s : R) (l : list particle) : Prop :=
  forall i j p q, i <> j -> nth_error l i = Some p -> nth_error l j = Some q -> sdist s p q <> 0.

(** A galaxy given by finite particles, without potential. *)
Definition bare (g : galaxy RX) (l : list particle) : Prop :=
  constructible g /\ g_haspot g = false /\ exists ls ld lg, l = ls ++ ld ++ lg /\
    holds (g_stars g) ls /\ holds (g_dm g) ld /\ holds (g_gas g) lg.

(** Sum of the values of [f] over a list. *)
Definition total {A} (f : A -> R) (l : list A) : R := fold_right (fun a r => f a + r) 0 l.
(** Sum of the row of particle [i] at [p] when the entries of pairs at zero distance, and
    the one of the particle with itself, hold [u i j]. *)
Definition numpy_row (s : R) (u : nat -> nat -> R) (i : nat) (p : particle) (l : list particle) : R :=
  total (fun jq => if Nat.eqb i (fst jq) then u i (fst jq) else
                  if Req_EM_T (sdist s p (snd jq)) 0 then u i (fst jq)
                  else pm (snd jq) / sdist s p (snd jq)) (combine (seq 0 (length l)) l).
