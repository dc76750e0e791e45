(** Specification of the circular-angular-momentum curve over the real numbers. *)
From Verif Require Import Py Num RX Np Data Spec SpecR SpecCirc.
From Flocq Require Import Core.
From Coq Require Import Lra Sorted.
Local Open Scope R_scope.

(** A particle: its specific total energy and the z component of its angular momentum. *)
Notation body := (R * R)%type (only parsing).

(** The edges of the default energy bins: every 1/20 from -1 and every 1/200 from -1/10. *)
Definition edgesR : list R :=
  map (fun i => -1 + INR i / 20) (seq 0 18) ++ map (fun i => - (1 / 10) + INR i / 200) (seq 0 20).

(** [x] is in bin [i], counted from 0: above edge [i] and up to edge [i + 1], if there is one. *)
Definition inbin (es : list R) (i : nat) (x : R) : bool :=
  match nth_error es i with
  | None => false
  | Some lo => Rlt_bool lo x && match nth_error es (S i) with Some hi => Rle_bool x hi | None => true end
  end.

(** The particle [p] of a bin with normalised particles [rows] (energy and |Jz|): the only
    one; the one with the largest |Jz| if the next is less than one per cent lower; otherwise
    the next one.  The choice is clear by the margin [m]. *)
Inductive chosen (m : R) (rows : list body) (p : body) : Prop :=
| chosen_alone : rows = [p] -> chosen m rows p
| chosen_first r rest : Permutation rows (p :: r :: rest) ->
    snd r + m <= snd p -> (forall b, In b rest -> snd b <= snd r) ->
    99 / 100 * snd p + m <= snd r -> chosen m rows p
| chosen_second a rest : Permutation rows (a :: p :: rest) ->
    snd p + m <= 99 / 100 * snd a -> (forall b, In b rest -> snd b + m <= snd p) -> chosen m rows p.

(** The particle with the largest |Jz|, by the margin [m]. *)
Definition topmost (m : R) (rows : list body) (p : body) : Prop :=
  exists rest, Permutation rows (p :: rest) /\ forall b, In b rest -> snd b + m <= snd p.

(** The point of bin [i], if there is a particle in it; in the last bin the topmost one. *)
Definition point (m : R) (es : list R) (ps : list body) (i : nat) (o : option body) : Prop :=
  let rows := filter (fun p => inbin es i (fst p)) ps in
  match o with
  | None => rows = []
  | Some p => if (S i <? length es)%nat then chosen m rows p else topmost m rows p
  end.

(** Points of the bins that are not empty. *)
Definition somes (l : list (option body)) : list body :=
  flat_map (fun o => match o with Some p => [p] | None => [] end) l.

(** Energies in units of [ue], |Jz| in units of [uz]. *)
Definition scaled (ue uz : R) (b : body) : body := (fst b / ue, Rabs (snd b) / uz).
Definition negative (b : body) : bool := Rlt_bool (fst b) 0.

(** [c] is the exact curve of the particles [l], clear by the margin [m]: the unit of energy
    is the depth of the most bound particle, the unit of Jz the largest |Jz| of the bound
    ones; no energy is near 0 and no other particle's is near an edge; the curve starts at -1
    with the most bound particle and has one point for every bin that is not empty, and the
    last bin is not. *)
Record exact_curve (m : R) (es : list R) (l : list body) (ue uz : R) (c : list body) : Prop := {
  ec_ue : 0 < ue /\ (forall b, In b l -> - ue <= fst b);
  ec_uz : 0 < uz /\ (exists b, In b l /\ fst b < 0 /\ Rabs (snd b) = uz) /\
          (forall b, In b l -> fst b < 0 -> Rabs (snd b) <= uz);
  ec_zero : forall b, In b l -> m * ue <= Rabs (fst b);
  ec_pts : exists p0 rest pts pt,
     Permutation (map (scaled ue uz) (filter negative l)) (p0 :: rest) /\ fst p0 = -1 /\
     (forall p e, In p rest -> In e es -> m <= Rabs (fst p - e)) /\
     length pts = length es /\
     (forall i o, nth_error pts i = Some o -> point m es (map (scaled ue uz) (filter negative l)) i o) /\
     nth_error pts (length es - 1) = Some (Some pt) /\
     c = (-1, snd p0) :: somes pts }.

(** The curve [c] rises or falls by at most 1/[a] per unit of energy. *)
Definition gentle (a : R) (c : list body) : Prop := Sorted (fun p q => a * Rabs (snd q - snd p) <= fst q - fst p) c.

(** A number of the floating-point galaxy read as a real number. *)
Definition near_orbit {N : Num} (RN : Rounded N) (d ue uz : R) (o : orbit N) (b : body) : Prop :=
  exists e, val RN (o_e o) = XR e /\ Rabs (e - fst b) <= d * ue /\
    (fst b < 0 -> exists z, val RN (o_jz o) = XR z /\ Rabs (z - snd b) <= d * uz).
(** An edge of the floating-point bins, not below -1, and the exact edge. *)
Definition near_edge {N : Num} (RN : Rounded N) (a : N) (e : R) : Prop :=
  exists r, val RN a = XR r /\ Rabs (r - e) <= / IZR (2 ^ 50) /\ -1 <= r.
(** Edges from -1 that do not decrease. *)
Definition edges_ok (es : list R) : Prop :=
  nth_error es 0 = Some (-1) /\ forall i k a b, (i < k)%nat -> nth_error es i = Some a -> nth_error es k = Some b -> a <= b.
