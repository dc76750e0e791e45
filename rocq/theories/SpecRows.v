(** Specification for the matrix given to the mixture models in a whole analysis (C104). *)
From Flocq Require Import Core.
From Coq Require Import Sorted.
From Verif Require Import Py Num RX Np Df Data Base Spec SpecR SpecCirc SpecCurve SpecChain SpecWhist SpecCut.
Local Open Scope R_scope.

(** The angular momentum at right angles to the axis of a bound particle is [p] up to [d] in the unit [up]. *)
Definition near_plane {N : Num} (RN : Rounded N) (d up : R) (o : orbit N) (b : (R * R) * R) : Prop :=
  fst (fst b) < 0 -> exists jp, val RN (o_jp o) = XR jp /\ Rabs (jp - snd b) <= d * up.
(** [up] is the largest one of a bound particle, and positive. *)
Definition plane_unit (bodies : list ((R * R) * R)) (up : R) : Prop :=
  0 < up /\ (exists b, In b bodies /\ fst (fst b) < 0 /\ snd b = up) /\
  forall b, In b bodies -> fst (fst b) < 0 -> 0 <= snd b <= up.
(** The error of the angular momentum at right angles to the axis is at most [d] in the unit [up]. *)
Definition plane_resolved (u k : R) (l : list particle) (d up : R) (q : particle) (p : R) : Prop :=
  kinr q + p < 0 -> 9000 * spin_error u k l q <= d * up.

(** A bound star is not near the curve, by the margin [t]; or it is one of the points of the curve, not
    near zero; or it is [central] and has no angular momentum. *)
Definition off_curve (t : R) (cv : list (R * R)) (ue uz : R) (central : Prop) (b : R * R) : Prop :=
  fst b < 0 ->
    (forall c, interpolates cv (fst b / ue) c -> t < Rabs (Rabs (snd b / uz) - c)) \/
    (In (fst b / ue, Rabs (snd b) / uz) cv /\ t < Rabs (snd b) / uz) \/
    (central /\ snd b = 0 /\ (In (fst b / ue, 0) cv \/ forall c, interpolates cv (fst b / ue) c -> t < c)).
(** Where a star is kept the curve is not near zero. *)
Definition high_curve (t : R) (cv : list (R * R)) (ue uz : R) (b : R * R) : Prop :=
  kept cv ue uz b -> forall c, interpolates cv (fst b / ue) c -> 2 * t <= c /\ / IZR (2 ^ 30) <= c.

(** The kept ones of the first [n] particles, in order. *)
Definition kept_stars (n : nat) (bodies : list (R * R)) (ue uz : R) (cv : list (R * R)) (used : list nat) : Prop :=
  StronglySorted lt used /\ forall k, In k used <-> (k < n)%nat /\ exists b, nth_error bodies k = Some b /\ kept cv ue uz b.

(** The row of a star: its energy, its circularity and its projected circularity are those of exact
    arithmetic, up to the errors of the orbits ([d]) and of the curve ([t]). *)
Definition row_near {N : Num} (RN : Rounded N) (d t : R) (cv : list (R * R)) (ue uz up : R) (b : (R * R) * R) (row : list (cell N)) : Prop :=
  exists e w r re rw rr c, row = [CNum e; CNum w; CNum r] /\ val RN e = XR re /\ val RN w = XR rw /\ val RN r = XR rr /\
    interpolates cv (fst (fst b) / ue) c /\ 0 < c /\
    Rabs (re - fst (fst b) / ue) <= 3 * d + / IZR (2 ^ 52) /\
    Rabs (rw - snd (fst b) / uz / c) <= t / c /\
    Rabs (rr - snd b / up / c) <= 2 * (t / c) * (1 + snd b / up / c).

(** The decomposition of [n] particles has the outcome [r] of the method for the particles [used]: the
    same error or, if it gives one label and one row of probabilities to each, these; the other
    particles get NaN. *)
Definition handed_on {N : Num} {St} (n : nat) (used : list nat) (r : res (list Z * option (probs N) * St)) (r' : res (components N * St)) : Prop :=
  match r with
  | Raise e => r' = Raise e
  | Ok (labels, pr, st) =>
      length labels = length used -> (forall p, pr = Some p -> length (pr_rows p) = length used) ->
      exists cs, r' = Ok (cs, st) /\
        (forall i k, nth_error used i = Some k -> exists z, nth_error labels i = Some z /\ nth_error (c_labels cs) k = Some (nofZ z)) /\
        (forall k, (k < n)%nat -> ~ In k used -> nth_error (c_labels cs) k = Some nnan) /\
        (pr = None -> c_probs cs = None) /\
        (forall p, pr = Some p -> exists q, c_probs cs = Some q /\ pr_width q = pr_width p /\
           (forall i k, nth_error used i = Some k -> nth_error (pr_rows q) k = nth_error (pr_rows p) i) /\
           (forall k, (k < n)%nat -> ~ In k used -> nth_error (pr_rows q) k = Some (repeat nnan (pr_width p))))
  end.

(** The cut-off radius of the alignment: none, or the number [c], not too small. *)
Definition reads_cut {N : Num} (RN : Rounded N) (r : option N) (c : option R) : Prop :=
  match r, c with None, None => True | Some r, Some c => val RN r = XR c /\ bpow radix2 (-90) <= c | _, _ => False end.
(** The stars that define the axis. *)
Definition axis_stars (c : option R) (l : list particle) : list particle :=
  match c with None => l | Some c => within_cut c l end.
(** None of them on the edge. *)
Definition clear_edge (u : R) (c : option R) (l : list particle) : Prop :=
  match c with None => True | Some c => off_edge u c l end.
