(** Property theorems. Which stars are discarded and which are put into the disk, in floating point (C81). Proofs are in EpsCutThms.v. *)
From Verif Require Import Py Num RX F64 Np Df Data DataFacts DfFacts RebuildFacts Center CenterFacts Align Spec SpecR SpecCirc SpecAlAcc SpecBase Ex DataThms CenterThms AlignFacts AlignThms Circ CircFacts CurveFacts CircThms OrderThms AlAccFacts CtrAccThms EpsAccFacts EpsAccThms Base Threshold ThresholdThms EpsCutThms.
From Flocq Require Import Core.
From Coq Require Import Lra Lia Sorted Floats.SpecFloat.
Local Open Scope R_scope.

(** With the default bins: let c be the value of the stored curve, interpolated with real
    arithmetic, at the rounded energy of a bound star, and jz/uz its exact normalised Jz.  A
    star with |jz/uz| below c by 2^-48 keeps its energy and circularity, one with |jz/uz|
    above c by 2^-48 is discarded. *)
Theorem C81_kept : forall sm argsort (g : galaxy (F64s sm)) j k o,
  constructible g -> sorting argsort -> jcirc argsort g default_bin0 default_bin1 = Ok j ->
  (forall o, In o (all_orbits g) -> bound o = true -> nfin (o_jz o) = true) ->
  (exists o, In o (all_orbits g) /\ bound o = true /\ neqb (o_e o) n0 = false) ->
  (exists o, In o (all_orbits g) /\ bound o = true /\ neqb (o_jz o) n0 = false) ->
  nth_error (star_orbits g) k = Some o -> bound o = true ->
  exists vue vuz vup ue uz e jz re pts c en w,
    units g vue vuz vup /\ val (F64_rounded sm) vue = XR ue /\ val (F64_rounded sm) vuz = XR uz /\ 0 < ue /\ 0 < uz /\
    val (F64_rounded sm) (o_e o) = XR e /\ val (F64_rounded sm) (o_jz o) = XR jz /\
    Rabs (re - e / ue) <= / IZR (2 ^ 52) /\
    map (val (F64_rounded sm)) (jc_x j) = map (fun p => XR (fst p)) pts /\
    map (val (F64_rounded sm)) (jc_y j) = map (fun p => XR (snd p)) pts /\
    interpolates pts re c /\ 0 <= c <= 1 /\ nth_error (jc_E j) k = Some en /\ nth_error (jc_eps j) k = Some w /\
    (Rabs (jz / uz) < c - / IZR (2 ^ 48) -> val (F64_rounded sm) en = XR re /\ nfin w = true) /\
    (forall rw, val (F64_rounded sm) w = XR rw -> Rabs (rw * c - jz / uz) <= / IZR (2 ^ 48)) /\
    (c + / IZR (2 ^ 48) < Rabs (jz / uz) -> nisnan w = true).
Proof. exact c81_kept. Qed.
Print Assumptions C81_kept.

(** JThreshold with the default bins and any finite cut: a bound star is put into the disk or
    the spheroid, or left out, as exact arithmetic tells, unless |jz/uz| is within 2^-48 of c
    or jz/uz within 2^-48 of cut * c. *)
Theorem C81_labels : forall sm argsort junk (cut : F64s sm) rt (g : galaxy (F64s sm)) cs st' k o,
  constructible g -> sorting argsort -> val (F64_rounded sm) cut = XR rt ->
  decompose argsort (jthreshold junk (default_bin0, default_bin1) cut) tt g = Ok (cs, st') ->
  (forall o, In o (all_orbits g) -> bound o = true -> nfin (o_jz o) = true) ->
  (exists o, In o (all_orbits g) /\ bound o = true /\ neqb (o_e o) n0 = false) ->
  (exists o, In o (all_orbits g) /\ bound o = true /\ neqb (o_jz o) n0 = false) ->
  nth_error (star_orbits g) k = Some o -> bound o = true ->
  exists j vue vuz vup ue uz e jz re pts c w,
    jcirc argsort g default_bin0 default_bin1 = Ok j /\
    units g vue vuz vup /\ val (F64_rounded sm) vue = XR ue /\ val (F64_rounded sm) vuz = XR uz /\ 0 < ue /\ 0 < uz /\
    val (F64_rounded sm) (o_e o) = XR e /\ val (F64_rounded sm) (o_jz o) = XR jz /\
    Rabs (re - e / ue) <= / IZR (2 ^ 52) /\
    map (val (F64_rounded sm)) (jc_x j) = map (fun p => XR (fst p)) pts /\
    map (val (F64_rounded sm)) (jc_y j) = map (fun p => XR (snd p)) pts /\
    interpolates pts re c /\ 0 <= c <= 1 /\ nth_error (c_labels cs) k = Some w /\
    (c + / IZR (2 ^ 48) < Rabs (jz / uz) -> w = nnan) /\
    (Rabs (jz / uz) < c - / IZR (2 ^ 48) -> rt * c + / IZR (2 ^ 48) < jz / uz -> w = nofZ 1) /\
    (Rabs (jz / uz) < c - / IZR (2 ^ 48) -> jz / uz < rt * c - / IZR (2 ^ 48) -> w = nofZ 0).
Proof. exact c81_labels. Qed.
Print Assumptions C81_labels.

(** The hypotheses of C81 hold, and the curve has the points (-1, 1/4), (-3/4, 1/2) and
    (-1/512, 1/4). *)
Example EX_C81 : exists (g : galaxy F64) j, constructible g /\ jcirc asort g default_bin0 default_bin1 = Ok j /\
  (forall o, In o (all_orbits g) -> bound o = true /\ nfin (o_jz o) = true /\ neqb (o_e o) n0 = false /\ neqb (o_jz o) n0 = false) /\
  shows (map o_e (star_orbits g)) = [sZ (-1); sQ (-25) 32; sQ (-25) 32] /\ shows (map o_jz (star_orbits g)) = [sZ 1; sZ 1; sZ 4] /\
  shows (jc_x j) = [sZ (-1); sQ (-3) 4; sQ (-1) 512] /\ shows (jc_y j) = [sQ 1 4; sQ 1 2; sQ 1 4].
Proof. exact ex_c81. Qed.

(** There c is 15/32 at the energy of the last two stars and uz is 4: the last one, with
    jz/uz = 1, is left out, and the one before, with jz/uz = 1/4, is in the disk for the cut 1/2
    and in the spheroid for the cut 3/5, as C81 says. *)
Example EX_C81_margins :
  interpolates [(-1, 1 / 4); (-3 / 4, 1 / 2); (-1 / 512, 1 / 4)] (-25 / 32) (15 / 32) /\
  15 / 32 + / IZR (2 ^ 48) < Rabs (4 / 4) /\ Rabs (1 / 4) < 15 / 32 - / IZR (2 ^ 48) /\
  1 / 2 * (15 / 32) + / IZR (2 ^ 48) < 1 / 4 /\ 1 / 4 < 3 / 5 * (15 / 32) - / IZR (2 ^ 48) /\
  map (fun cut => rmap (fun r => shows (c_labels (fst r)))
         (do g <- lineG (zl cut_ls) (zl cut_ld) (zl cut_lg);
          decompose asort (jthreshold (fun _ => 77%Z) (default_bin0, default_bin1) cut) tt g)) [nlit 1 2; nlit 3 5] =
  [Ok [sZ 1; sZ 1; S754_nan; S754_nan; S754_nan]; Ok [sZ 1; sZ 0; S754_nan; S754_nan; S754_nan]].
Proof. exact ex_c81_margins. Qed.
