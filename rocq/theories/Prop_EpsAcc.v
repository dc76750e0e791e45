(** Property theorems. Accuracy of the circularity in floating point (C80). Proofs are in EpsAccThms.v. *)
From Verif Require Import Py Num RX F64 Np Df Data DataFacts DfFacts RebuildFacts Center CenterFacts Align Spec SpecR SpecCirc SpecAlAcc Ex DataThms CenterThms AlignFacts AlignThms Circ CircFacts CurveFacts CircThms OrderThms AlAccFacts CtrAccThms EpsAccFacts EpsAccThms.
From Flocq Require Import Core.
From Coq Require Import Lra Lia Sorted Floats.SpecFloat.
Local Open Scope R_scope.

(** With bins whose edges start at -1, do not decrease and stay below -2^-40: let c be the
    value of the stored curve, interpolated with real arithmetic, at the stored energy of a
    star with finite energy and eps.  Then eps * c is the stored Jz of the star up to 2^-49. *)
Theorem C80_bins : forall sm argsort (g : galaxy (F64s sm)) b0 b1 l0 l1 j k (en z w : F64s sm) re rz rw,
  constructible g -> sorting argsort ->
  arange nm1 (nlit (-1) 10) b0 = Ok l0 -> arange (nlit (-1) 10) n0 b1 = Ok l1 ->
  nth_error (l0 ++ l1) 0 = Some nm1 ->
  (forall i k a b, (i < k)%nat -> nth_error (l0 ++ l1) i = Some a -> nth_error (l0 ++ l1) k = Some b -> nle a b = true) ->
  (forall a, In a (l0 ++ l1) -> nle a (nlit (-1) (2 ^ 40)) = true) ->
  jcirc argsort g b0 b1 = Ok j ->
  (forall o, In o (all_orbits g) -> bound o = true -> nfin (o_jz o) = true) ->
  nth_error (jc_E j) k = Some en -> nth_error (jc_Jz j) k = Some z -> nth_error (jc_eps j) k = Some w ->
  val (F64_rounded sm) en = XR re -> val (F64_rounded sm) z = XR rz -> val (F64_rounded sm) w = XR rw ->
  exists pts c,
    map (val (F64_rounded sm)) (jc_x j) = map (fun p => XR (fst p)) pts /\
    map (val (F64_rounded sm)) (jc_y j) = map (fun p => XR (snd p)) pts /\
    interpolates pts re c /\ 0 <= c <= 1 /\ Rabs (rw * c - rz) <= / IZR (2 ^ 49).
Proof. exact c80_bins. Qed.
Print Assumptions C80_bins.

(** The default bins are such. *)
Theorem C80_default : forall sm argsort (g : galaxy (F64s sm)) j k (en z w : F64s sm) re rz rw,
  constructible g -> sorting argsort -> jcirc argsort g default_bin0 default_bin1 = Ok j ->
  (forall o, In o (all_orbits g) -> bound o = true -> nfin (o_jz o) = true) ->
  nth_error (jc_E j) k = Some en -> nth_error (jc_Jz j) k = Some z -> nth_error (jc_eps j) k = Some w ->
  val (F64_rounded sm) en = XR re -> val (F64_rounded sm) z = XR rz -> val (F64_rounded sm) w = XR rw ->
  exists pts c,
    map (val (F64_rounded sm)) (jc_x j) = map (fun p => XR (fst p)) pts /\
    map (val (F64_rounded sm)) (jc_y j) = map (fun p => XR (snd p)) pts /\
    interpolates pts re c /\ 0 <= c <= 1 /\ Rabs (rw * c - rz) <= / IZR (2 ^ 49).
Proof. exact c80_default. Qed.
Print Assumptions C80_default.

(** In the units of the galaxy: the stored energy is E over the depth of the most bound
    particle and the stored Jz is Jz over the largest |Jz|, both up to 2^-52, and eps_r * c is Jp
    over the largest Jp up to 2^-48 (1 + |eps_r|), when these are real numbers and eps_r is not
    huge. *)
Theorem C80_units : forall sm argsort (g : galaxy (F64s sm)) j k (en z w p : F64s sm) re rz rw rp,
  constructible g -> sorting argsort -> jcirc argsort g default_bin0 default_bin1 = Ok j ->
  (forall o, In o (all_orbits g) -> bound o = true -> nfin (o_jz o) = true /\ nfin (o_jp o) = true) ->
  nth_error (jc_E j) k = Some en -> nth_error (jc_Jz j) k = Some z -> nth_error (jc_eps j) k = Some w ->
  nth_error (jc_eps_r j) k = Some p ->
  val (F64_rounded sm) en = XR re -> val (F64_rounded sm) z = XR rz -> val (F64_rounded sm) w = XR rw ->
  val (F64_rounded sm) p = XR rp -> Rabs rp <= IZR (2 ^ 40) ->
  exists ue uz up vue vuz vup o e jz jp pts c,
    units g vue vuz vup /\ val (F64_rounded sm) vue = XR ue /\ val (F64_rounded sm) vuz = XR uz /\ val (F64_rounded sm) vup = XR up /\
    0 < ue /\ 0 < uz /\ 0 < up /\
    nth_error (star_orbits g) k = Some o /\ val (F64_rounded sm) (o_e o) = XR e /\ val (F64_rounded sm) (o_jz o) = XR jz /\
    val (F64_rounded sm) (o_jp o) = XR jp /\
    Rabs (re - e / ue) <= / IZR (2 ^ 52) /\ Rabs (rz - jz / uz) <= / IZR (2 ^ 52) /\
    map (val (F64_rounded sm)) (jc_x j) = map (fun p => XR (fst p)) pts /\
    map (val (F64_rounded sm)) (jc_y j) = map (fun p => XR (snd p)) pts /\
    interpolates pts re c /\ Rabs (rw * c - jz / uz) <= / IZR (2 ^ 48) /\
    Rabs (rp * c - jp / up) <= / IZR (2 ^ 48) * (1 + Rabs rp).
Proof. exact c80_units. Qed.
Print Assumptions C80_units.

(** The error of eps itself is not bounded by any such number: where the curve falls to zero,
    a star with Jz/Jcirc above 4/3, whose circularity should be NaN, gets the circularity 1/2. *)
Theorem C80_eps_refuted : exists (g : galaxy F64) j k en z w re rz rw pts c,
  constructible g /\ sorting (@asort F64) /\ jcirc asort g default_bin0 default_bin1 = Ok j /\
  (forall o, In o (all_orbits g) -> bound o = true -> nfin (o_jz o) = true) /\
  nth_error (jc_E j) k = Some en /\ nth_error (jc_Jz j) k = Some z /\ nth_error (jc_eps j) k = Some w /\
  val (F64_rounded (seqsum 53 1024 p53 e1024)) en = XR re /\ val (F64_rounded (seqsum 53 1024 p53 e1024)) z = XR rz /\
  val (F64_rounded (seqsum 53 1024 p53 e1024)) w = XR rw /\
  map (val (F64_rounded (seqsum 53 1024 p53 e1024))) (jc_x j) = map (fun p => XR (fst p)) pts /\
  map (val (F64_rounded (seqsum 53 1024 p53 e1024))) (jc_y j) = map (fun p => XR (snd p)) pts /\
  interpolates pts re c /\ 0 < c /\ 4 / 3 < rz / c /\ rw = 1 / 2.
Proof. exact c80_eps_refuted. Qed.
Print Assumptions C80_eps_refuted.

(** The hypotheses of C80 at a star between two points of the curve: star 1 has energy -0.48,
    inside a bin whose point is at -0.46, and eps, eps_r are finite and not trivial. *)
Example EX_C80 : sorting (@asort F64) /\ exists (g : galaxy F64) j en z w p,
  constructible g /\ jcirc asort g default_bin0 default_bin1 = Ok j /\
  (forall o, In o (all_orbits g) -> bound o = true -> nfin (o_jz o) = true /\ nfin (o_jp o) = true) /\
  nth_error (jc_E j) 1 = Some en /\ nth_error (jc_Jz j) 1 = Some z /\ nth_error (jc_eps j) 1 = Some w /\
  nth_error (jc_eps_r j) 1 = Some p /\
  nfin en = true /\ nfin z = true /\ nle w (nlit 51 100) = true /\ nle (nlit 1 2) w = true /\
  nle p (nlit 154 100) = true /\ nle (nlit 152 100) p = true.
Proof. exact ex_c80. Qed.
