(** Property theorems. Accuracy of the centring in floating point (C71). Proofs are in CtrAccThms.v. *)
From Verif Require Import Py Num RX F64 Np Data Spec Center DataFacts DataThms RebuildFacts CenterFacts CenterThms Ex CtrAccThms.
From Flocq Require Import Core Relative Sterbenz Plus_error.
From Coq Require Import Lra Lia.
Local Open Scope R_scope.

(** C71: centring keeps the order of the particles along each axis, in any arithmetic. *)
Theorem C71_order : forall (N : Num) (RN : Rounded N) (g g' : galaxy N) i j a b,
  constructible g -> center g = Ok g' ->
  (forall v, In v (all_x g ++ all_y g ++ all_z g) -> nfin v = true) ->
  forall coord, coord = all_x \/ coord = all_y \/ coord = all_z ->
  nth_error (coord g) i = Some a -> nth_error (coord g) j = Some b -> nle a b = true ->
  exists a' b', nth_error (coord g') i = Some a' /\ nth_error (coord g') j = Some b' /\ nle a' b' = true.
Proof. exact c71_order. Qed.
Print Assumptions C71_order.

(** C71: in double precision every new coordinate is the difference to the position of one and the same
    particle of lowest potential, up to a relative error of 2^-53; it is exact when the two are
    within a factor of two of each other. *)
Theorem C71_accuracy : forall sm (g g' : galaxy (F64s sm)),
  constructible g -> center g = Ok g' ->
  exists i, lowest g i /\
  forall coord, coord = all_x \/ coord = all_y \/ coord = all_z ->
  exists c0, nth_error (coord g) i = Some c0 /\
  forall r0, val (F64_rounded sm) c0 = XR r0 ->
  forall j a r, nth_error (coord g) j = Some a -> val (F64_rounded sm) a = XR r ->
  Rabs (r - r0) <= IZR (2 ^ 1023) ->
  exists a' r', nth_error (coord g') j = Some a' /\ val (F64_rounded sm) a' = XR r' /\
    Rabs (r' - (r - r0)) <= / IZR (2 ^ 53) * Rabs (r - r0) /\
    (0 <= r * r0 -> Rabs r0 <= 2 * Rabs r -> Rabs r <= 2 * Rabs r0 -> r' = r - r0).
Proof. exact c71_accuracy. Qed.
Print Assumptions C71_accuracy.

(** C71: separations along an axis are kept up to 2^-53 times the two distances to the centre. *)
Theorem C71_separation : forall sm (g g' : galaxy (F64s sm)),
  constructible g -> center g = Ok g' ->
  exists i, lowest g i /\
  forall coord, coord = all_x \/ coord = all_y \/ coord = all_z ->
  exists c0, nth_error (coord g) i = Some c0 /\
  forall r0, val (F64_rounded sm) c0 = XR r0 ->
  forall j k a b r s, nth_error (coord g) j = Some a -> val (F64_rounded sm) a = XR r ->
  nth_error (coord g) k = Some b -> val (F64_rounded sm) b = XR s ->
  Rabs (r - r0) <= IZR (2 ^ 1023) -> Rabs (s - r0) <= IZR (2 ^ 1023) ->
  exists a' b' r' s', nth_error (coord g') j = Some a' /\ val (F64_rounded sm) a' = XR r' /\
    nth_error (coord g') k = Some b' /\ val (F64_rounded sm) b' = XR s' /\
    Rabs ((r' - s') - (r - s)) <= / IZR (2 ^ 53) * (Rabs (r - r0) + Rabs (s - r0)).
Proof. exact c71_separation. Qed.
Print Assumptions C71_separation.

Example EX_C71 : constructible (row (fZ 1000) (fZ 1700) (fZ (-3))) /\
  rmap (fun g' => shows (all_x g')) (center (row (fZ 1000) (fZ 1700) (fZ (-3)))) = Ok [sZ 0; sZ 700; sZ (-1003)] /\
  forallb nfin (all_x (row (fZ 1000) (fZ 1700) (fZ (-3)))) = true.
Proof. exact ex_c71. Qed.

(** C71: in double precision, particles at different places can be put at the same place by the centring. *)
Theorem C71_distinct_refuted : exists g g' : galaxy F64, constructible g /\ center g = Ok g' /\
  (forall v, In v (all_x g ++ all_y g ++ all_z g) -> nfin v = true) /\
  exists i j a b a' b', nth_error (all_x g) i = Some a /\ nth_error (all_x g) j = Some b /\ nlt a b = true /\
    nth_error (all_x g') i = Some a' /\ nth_error (all_x g') j = Some b' /\ neqb a' b' = true.
Proof. exact c71_distinct_refuted. Qed.
Print Assumptions C71_distinct_refuted.

(** C71: the invariance under translations (C12) is lost in double precision: translating first can give other positions. *)
Theorem C71_translation_refuted : exists (g gt g1 g2 : galaxy F64) (t : F64), constructible g /\ nfin t = true /\
  (forall v, In v (all_x g ++ all_x gt) -> nfin v = true) /\
  moved (fun v => v + t)%num (fun v => v) (fun v => v) g gt /\
  center g = Ok g1 /\ center gt = Ok g2 /\
  exists i a b, nth_error (all_x g1) i = Some a /\ nth_error (all_x g2) i = Some b /\ neqb a b = false.
Proof. exact c71_translation_refuted. Qed.
Print Assumptions C71_translation_refuted.
