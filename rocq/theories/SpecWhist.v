(** Specification vocabulary for the histogram decompositions of a whole analysis (C99). *)
From Coq Require Import Sorted.
From Verif Require Import Py Num RX Np Data Base Spec SpecR SpecCirc.
Local Open Scope R_scope.

(** The circularity of a star with energy and angular momentum [b], for the curve [cv] in the
    units [ue] and [uz]. *)
Definition circularity (cv : list (R * R)) (ue uz : R) (b : R * R) (x : R) : Prop :=
  exists c, interpolates cv (fst b / ue) c /\ 0 < c /\ x = snd b / uz / c.
(** The star is bound and not above the curve, which is not zero there. *)
Definition kept (cv : list (R * R)) (ue uz : R) (b : R * R) : Prop :=
  fst b < 0 /\ exists c, interpolates cv (fst b / ue) c /\ 0 < c /\ Rabs (snd b / uz) <= c.
(** The circularity of a bound star is not near one of the edges -1, -0.98, ..., 1, by the
    margin [t]; or the star is one of the points of the curve, not near zero, so that its
    circularity is 1 or -1; or it is [central] and has no angular momentum, so that its circularity is zero
    unless it is one of the points of the curve, when it has none. *)
Definition settled (t : R) (cv : list (R * R)) (ue uz : R) (central : Prop) (b : R * R) : Prop :=
  fst b < 0 ->
    (forall c k, interpolates cv (fst b / ue) c -> (-50 <= k <= 50)%Z -> 2 * t < Rabs (snd b / uz - IZR k / 50 * c)) \/
    (In (fst b / ue, Rabs (snd b) / uz) cv /\ t < Rabs (snd b) / uz) \/
    (central /\ snd b = 0 /\ (In (fst b / ue, 0) cv \/ forall c, interpolates cv (fst b / ue) c -> t < c)).

(** The kept ones of the first [n] particles, in order, and their normalised energies and circularities. *)
Record exact_stars (n : nat) (bodies : list (R * R)) (ue uz : R) (cv : list (R * R)) (used : list nat) (rows : list (R * R)) : Prop := {
  es_sorted : StronglySorted lt used;
  es_used : forall k, In k used <-> (k < n)%nat /\ exists b, nth_error bodies k = Some b /\ kept cv ue uz b;
  es_rows : Forall2 (fun k row => exists b, nth_error bodies k = Some b /\ fst row = fst b / ue /\ circularity cv ue uz b (snd row)) used rows }.

(** The decomposition of [n] particles has the outcome [r] for the particles [used]: the same
    error, or the same labels and the same state of the generator; the other particles get NaN. *)
Definition carries {N : Num} {St} (n : nat) (used : list nat) (r : res (list Z * St)) (r' : res (components N * St)) : Prop :=
  match r with
  | Raise e => r' = Raise e
  | Ok (labels, st) => exists cs, r' = Ok (cs, st) /\
      (forall i k, nth_error used i = Some k -> exists z, nth_error labels i = Some z /\ nth_error (c_labels cs) k = Some (nofZ z)) /\
      forall k, (k < n)%nat -> ~ In k used -> nth_error (c_labels cs) k = Some nnan
  end.

(** Star number [i] has a circularity from k/50 up to (k+1)/50; the last cell, with k = 49, also holds 1. *)
Definition in_cell (n : nat) (bodies : list (R * R)) (ue uz : R) (cv : list (R * R)) (k : Z) (i : nat) : Prop :=
  (i < n)%nat /\ exists b x, nth_error bodies i = Some b /\ fst b < 0 /\ circularity cv ue uz b x /\ IZR k / 50 <= x /\ (x < IZR (k + 1) / 50 \/ k = 49%Z /\ x = 1).
(** The number of particles of [l] with label [z]. *)
Definition count_label {N : Num} (z : Z) (labels : list N) (l : list nat) : nat :=
  length (filter (fun i => match nth_error labels i with Some w => neqb w (nofZ z) | None => false end) l).
