(** Specification vocabulary for the circularity properties. *)
From Verif Require Import Py Num RX Np Data Spec SpecR.

Section SpecCirc.
Context {N : Num}.

(** What jcirc may use of a particle: specific total energy and angular momentum. *)
Record orbit : Type := Orb { o_e : N; o_jx : N; o_jy : N; o_jz : N }.

(** Total energies of a set, NaN where there is no potential. *)
Definition energies (p : pset N) : list N :=
  match p_te p with Some l => l | None => repeat nnan (plen p) end.
Definition orbits (p : pset N) : list orbit :=
  map2 (fun ex yz => Orb (fst ex) (snd ex) (fst yz) (snd yz))
       (map2 pair (energies p) (p_Jx p)) (map2 pair (p_Jy p) (p_Jz p)).
(** Particles of the galaxy in the order stars, dark matter, gas. *)
Definition all_orbits (g : galaxy N) : list orbit := flat_map orbits (sets g).
Definition star_orbits (g : galaxy N) : list orbit := orbits (g_stars g).

(** Bound: E <= 0 and not -inf (and hence not NaN). *)
Definition bound (o : orbit) : bool := nle (o_e o) n0 && negb (neqb (o_e o) nninf).
(** Projected angular momentum. *)
Definition o_jp (o : orbit) : N := nsqrt (o_jx o * o_jx o + o_jy o * o_jy o)%num.

(** [m] is the largest/smallest value of [f] over [l]; NaN if one of them is NaN. *)
Definition largest {A} (f : A -> N) (l : list A) (m : N) : Prop :=
  (exists a, In a l /\ f a = m) /\
  (nisnan m = true \/ forall b, In b l -> nle (f b) m = true).
Definition smallest {A} (f : A -> N) (l : list A) (m : N) : Prop :=
  (exists a, In a l /\ f a = m) /\
  (nisnan m = true \/ forall b, In b l -> nle m (f b) = true).

(** [s] is a permutation sorting [l] in increasing order, NaN last (any order of ties). *)
Definition sorts (l : list N) (s : list nat) : Prop :=
  Permutation s (seq 0 (length l)) /\
  forall a b i j x y, (a < b)%nat -> nth_error s a = Some i -> nth_error s b = Some j ->
    nth_error l i = Some x -> nth_error l j = Some y -> nisnan y = true \/ nle x y = true.

(** Every sort of the run is a sort, whatever it does with ties. *)
Definition sorting (argsort : nat -> list N -> list nat) : Prop := forall i l, sorts l (argsort i l).

(** [x] may come before [y] in such an order. *)
Definition before (x y : N) : Prop := nisnan y = true \/ nle x y = true.
(** The particle chosen in a bin: the only one; or the one with the largest [f], unless the
    next one is lower by one per cent or more, in which case the next one. *)
Inductive picked {A} (f : A -> N) (rows : list A) : A -> Prop :=
| picked_alone a : rows = [a] -> picked f rows a
| picked_first a r rest : Permutation rows (a :: r :: rest) -> before (f r) (f a) ->
    (forall b, In b rest -> before (f b) (f r)) ->
    nle (nlit 1 100) (n1 - f r / f a)%num = false -> picked f rows a
| picked_second a r rest : Permutation rows (a :: r :: rest) -> before (f r) (f a) ->
    (forall b, In b rest -> before (f b) (f r)) ->
    nle (nlit 1 100) (n1 - f r / f a)%num = true -> picked f rows r.

(** Energy bins between consecutive edges, numbered from 1; the last one has no upper edge. *)
Definition ebin (edges : list N) (i : nat) (x : N) : bool :=
  match nth_error edges (i - 1) with
  | None => false
  | Some lo => nlt lo x && match nth_error edges i with Some hi => nle x hi | None => true end
  end.
(** [p] is the point of bin [i] for particles with energy [fE] and angular momentum [fZ]:
    (0,0) if the bin is empty; in the last bin one with the largest |fZ|. *)
Definition ebin_point {A} (edges : list N) (fE fZ : A -> N) (rows : list A) (i : nat) (p : N * N) : Prop :=
  let c := filter (fun a => ebin edges i (fE a)) rows in
  (c = [] /\ p = (n0, n0)) \/
  exists a, In a c /\ p = (fE a, nabs (fZ a)) /\
    if (i <? length edges)%nat then picked (fun a => nabs (fZ a)) c a
    else forall b, In b c -> nlt (nabs (fZ a)) (nabs (fZ b)) = false.

(** All points of the curve before trimming: -1 with |fZ| of a particle of least energy, then
    one point per bin. *)
Inductive raw_points {A} (fE fZ : A -> N) (edges : list N) (b : list A) : list (N * N) -> Prop :=
| raw_points_intro a0 ps : In a0 b -> (forall a, In a b -> nlt (fE a) (fE a0) = false) ->
    length ps = length edges ->
    (forall i p, nth_error ps i = Some p -> ebin_point edges fE fZ b (S i) p) ->
    raw_points fE fZ edges b ((nm1, nabs (fZ a0)) :: ps).

(** Units of energy and angular momentum of the galaxy: the depth of the most bound
    particle, the largest |Jz| and the largest projected J of bound particles. *)
Record units (g : galaxy N) (u_e u_z u_p : N) : Prop := {
  unit_e : exists e, smallest o_e (filter bound (all_orbits g)) e /\ u_e = nabs e;
  unit_z : largest (fun o => nabs (o_jz o)) (filter bound (all_orbits g)) u_z;
  unit_p : largest (fun o => nabs (o_jp o)) (filter bound (all_orbits g)) u_p }.

End SpecCirc.
Arguments orbit : clear implicits.

(** Piecewise linear interpolation over the reals: [interpolates x y v r] says [r] is the
    value at [v] of the polygon through the points, constant outside. *)
Local Open Scope R_scope.
Inductive interpolates : list (R * R) -> R -> R -> Prop :=
| int_left x y l v : v <= x -> interpolates ((x, y) :: l) v y
| int_right x y v : x <= v -> interpolates [(x, y)] v y
| int_seg x y x' y' l v : x <= v <= x' -> x < x' ->
    interpolates ((x, y) :: (x', y') :: l) v (y + (y' - y) * ((v - x) / (x' - x)))
| int_skip x y x' y' l v r : x' <= v -> interpolates ((x', y') :: l) v r ->
    interpolates ((x, y) :: (x', y') :: l) v r.

(** Rotation by an angle about the z axis, given its cosine and sine. *)
Definition Rz (c s : R) : matR := MatR c (- s) 0 s c 0 0 0 1.

(** Finite phase-space coordinates: the angular momenta of the bound particles are real
    numbers; and not every bound particle has zero energy. *)
Definition regular (g : galaxy RX) : Prop :=
  (forall o, In o (all_orbits g) -> bound o = true -> exists jz jp, o_jz o = XR jz /\ o_jp o = XR jp) /\
  exists o, In o (all_orbits g) /\ bound o = true /\ o_e o <> XR 0.
