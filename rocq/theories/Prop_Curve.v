(** Property theorems. The curve of circular orbits computed in floating point against the exact one (C96). Proofs are in CurveAccThms.v. *)
From Verif Require Import Py Num RX F64 Np Df Data DataFacts DfFacts RebuildFacts Center CenterFacts Align Spec SpecR SpecCirc SpecAlAcc SpecBase SpecCurve Ex DataThms CenterThms AlignFacts AlignThms Circ CircFacts CurveFacts CircThms OrderThms AlAccFacts CtrAccThms EpsAccFacts EpsAccThms EpsCutThms Base Threshold ThresholdThms PolyFacts ChoiceFacts CurveAccFacts CurveAccThms.
From Flocq Require Import Core BinarySingleNaN.
From Coq Require Import Lra Lia Sorted Floats.SpecFloat.
Local Open Scope R_scope.

(** For any bins: let the energies and Jz of the particles be, up to [d] times the units, those
    of particles over the real numbers whose curve is clear by a margin [m] of at least
    16 d + 2^-44.  Then the computed curve has exactly as many points, and each is the exact
    point up to 3 d + 2^-52 in both coordinates. *)
Theorem C96_bins : forall sm argsort (g : galaxy (F64s sm)) b0 b1 l0 l1 es j bodies m d ue uz cv,
  constructible g -> sorting argsort ->
  arange nm1 (nlit (-1) 10) b0 = Ok l0 -> arange (nlit (-1) 10) n0 b1 = Ok l1 ->
  Forall2 (near_edge (F64_rounded sm)) (l0 ++ l1) es -> edges_ok es ->
  jcirc argsort g b0 b1 = Ok j ->
  0 <= d -> 16 * d + / IZR (2 ^ 44) <= m ->
  Forall2 (near_orbit (F64_rounded sm) d ue uz) (all_orbits g) bodies ->
  exact_curve m es bodies ue uz cv ->
  exists pts, map (val (F64_rounded sm)) (jc_x j) = map (fun p => XR (fst p)) pts /\
    map (val (F64_rounded sm)) (jc_y j) = map (fun p => XR (snd p)) pts /\
    Forall2 (fun p q => Rabs (fst p - fst q) <= 3 * d + / IZR (2 ^ 52) /\ Rabs (snd p - snd q) <= 3 * d + / IZR (2 ^ 52)) pts cv.
Proof. exact c96_bins. Qed.
Print Assumptions C96_bins.

(** With the default bins the exact edges are -1, -0.95, …, -0.15, -0.1, -0.095, …, -0.005. *)
Theorem C96_default : forall sm argsort (g : galaxy (F64s sm)) j bodies m d ue uz cv,
  constructible g -> sorting argsort -> jcirc argsort g default_bin0 default_bin1 = Ok j ->
  0 <= d -> 16 * d + / IZR (2 ^ 44) <= m ->
  Forall2 (near_orbit (F64_rounded sm) d ue uz) (all_orbits g) bodies ->
  exact_curve m edgesR bodies ue uz cv ->
  exists pts, map (val (F64_rounded sm)) (jc_x j) = map (fun p => XR (fst p)) pts /\
    map (val (F64_rounded sm)) (jc_y j) = map (fun p => XR (snd p)) pts /\
    Forall2 (fun p q => Rabs (fst p - fst q) <= 3 * d + / IZR (2 ^ 52) /\ Rabs (snd p - snd q) <= 3 * d + / IZR (2 ^ 52)) pts cv.
Proof. exact c96_default. Qed.
Print Assumptions C96_default.

(** The exact curve has one value at every energy, between 0 and 1. *)
Theorem C96_exact : forall m es bodies ue uz cv x, 0 < m -> edges_ok es -> exact_curve m es bodies ue uz cv ->
  exists c, interpolates cv x c /\ 0 <= c <= 1 /\ forall c', interpolates cv x c' -> c' = c.
Proof. exact c96_exact. Qed.
Print Assumptions C96_exact.

(** The exact curve is nowhere steeper than one over the margin. *)
Theorem C96_gentle : forall m es bodies ue uz cv, 0 < m -> edges_ok es -> exact_curve m es bodies ue uz cv -> gentle m cv.
Proof. exact c96_gentle. Qed.
Print Assumptions C96_gentle.

(** JThreshold with the default bins and any finite cut, for data within [d] of exact ones whose
    curve is clear by [m] and nowhere steeper than 1/[a]: with t = (12 d + 2^-47) / a, a star with exact energy e and Jz z is left out if
    e > 0; if |z/uz| exceeds the exact curve at e/ue by t it is left out; if it is below by
    t it is in the disk where z/uz exceeds cut * c by (1 + |cut|) t, and in the spheroid where
    it is below cut * c by (1 + |cut|) t. *)
Theorem C96_labels : forall sm argsort junk (cut : F64s sm) rt (g : galaxy (F64s sm)) cs st' bodies m a d ue uz cv k e z,
  constructible g -> sorting argsort -> val (F64_rounded sm) cut = XR rt ->
  decompose argsort (jthreshold junk (default_bin0, default_bin1) cut) tt g = Ok (cs, st') ->
  0 <= d -> 16 * d + / IZR (2 ^ 44) <= m ->
  Forall2 (near_orbit (F64_rounded sm) d ue uz) (all_orbits g) bodies ->
  exact_curve m edgesR bodies ue uz cv -> 0 < a <= 1 -> gentle a cv ->
  (k < plen (g_stars g))%nat -> nth_error bodies k = Some (e, z) ->
  exists c w, interpolates cv (e / ue) c /\ nth_error (c_labels cs) k = Some w /\
    (0 < e -> w = nnan) /\
    (e < 0 -> c + (12 * d + / IZR (2 ^ 47)) / a < Rabs (z / uz) -> w = nnan) /\
    (e < 0 -> Rabs (z / uz) < c - (12 * d + / IZR (2 ^ 47)) / a ->
      rt * c + (1 + Rabs rt) * ((12 * d + / IZR (2 ^ 47)) / a) < z / uz -> w = nofZ 1) /\
    (e < 0 -> Rabs (z / uz) < c - (12 * d + / IZR (2 ^ 47)) / a ->
      z / uz < rt * c - (1 + Rabs rt) * ((12 * d + / IZR (2 ^ 47)) / a) -> w = nofZ 0).
Proof. exact c96_labels. Qed.
Print Assumptions C96_labels.

(** The exact curve of these particles, clear by 1/1000. *)
Example EX_C96_exact : exact_curve (/ 1000) edgesR cv_bodies 1 4 [(-1, 1 / 4); (-49 / 64, 1 / 2); (-1 / 512, 1 / 4)].
Proof. exact ex_c96_exact. Qed.

(** The hypotheses of C96 are met: with [d = 0] and the margin 1/1000. *)
Example EX_C96 : exists (g : galaxy F64) j, constructible g /\ sorting (@asort F64) /\ jcirc asort g default_bin0 default_bin1 = Ok j /\
  Forall2 (near_orbit (F64_rounded (seqsum 53 1024 p53 e1024)) 0 1 4) (all_orbits g) cv_bodies /\ 16 * 0 + / IZR (2 ^ 44) <= / 1000 /\ gentle (9 / 10) [(-1, 1 / 4); (-49 / 64, 1 / 2); (-1 / 512, 1 / 4)] /\
  length (jc_x j) = 3%nat /\ (forall k, (k < 3)%nat -> (k < plen (g_stars g))%nat) /\
  rmap (fun r => shows (c_labels (fst r))) (decompose asort (jthreshold (fun _ => 77%Z) (default_bin0, default_bin1) (nlit 1 2)) tt g) =
  Ok [sZ 1; sZ 1; S754_nan; S754_nan; S754_nan].
Proof. exact ex_c96. Qed.

Theorem C96_margin_refuted : exists (g : galaxy F64) j bodies d ue uz cv pts,
  constructible g /\ sorting (@asort F64) /\ jcirc asort g default_bin0 default_bin1 = Ok j /\ d = / IZR (2 ^ 60) /\
  Forall2 (near_orbit (F64_rounded (seqsum 53 1024 p53 e1024)) d ue uz) (all_orbits g) bodies /\
  exact_curve 0 edgesR bodies ue uz cv /\
  map (val (F64_rounded (seqsum 53 1024 p53 e1024))) (jc_x j) = map (fun p => XR (fst p)) pts /\
  map (val (F64_rounded (seqsum 53 1024 p53 e1024))) (jc_y j) = map (fun p => XR (snd p)) pts /\
  exists p q, nth_error pts 1 = Some p /\ nth_error cv 1 = Some q /\ / 100 < Rabs (fst p - fst q).
Proof. exact c96_margin_refuted. Qed.
Print Assumptions C96_margin_refuted.
