(** Property theorems. The net rotation of the spheroid of a decomposed galaxy, in floating point (C82). Proofs are in SpinAccThms.v. *)
From Verif Require Import Py Num RX F64 Np Df Data DataFacts DfFacts CenterFacts Ex Spec DataThms SpecCirc Circ CircFacts CircThms SpecBase Base BaseFacts BaseThms Threshold EpsFacts ThresholdThms SpecHist Hist HistFacts EdgeFacts HistThms EdgeThms EnergyFacts EnergyThms SpecPot SpecMirror MirrorThms PlotFacts SpinThms SpinAccThms.
From Flocq Require Import Core IEEE754.BinarySingleNaN.
From Coq Require Import Lia Permutation.
Local Open Scope R_scope.

(** With the default bins, in binary64: the circularities of the spheroid of either histogram
    decomposition add up to at most one bin width for each counter-rotating particle; and, for
    JHistogram, if no co-rotating bin holds fewer particles than its mirror, to no less than
    minus that. *)
Theorem C82_net : forall (sm : list f64 -> f64) (St : Type) choice pick junk (eps : list (F64s sm)) (st : St) labels st',
  draws choice -> (forall e, In e eps -> nle nm1 e = true /\ nle e n1 = true) ->
  (pick = pick_any choice \/ exists (energy : list (F64s sm)) n_bin_E, (n_bin_E <= 2 ^ 53)%Z /\ pick = pick_energy choice energy n_bin_E) ->
  hist_split pick junk 100 2 st eps = Ok (labels, st') ->
  let w := 1 / 50 + / IZR (2 ^ 53) in
  let edges := map (np_round (N:=F64s sm) 2) (linspace nm1 n1 100) in
  exists rs, map (val (F64_rounded sm)) (spheroid eps labels) = map XR rs /\
    sum_of rs <= w * INR (counter eps) /\
    (pick = pick_any choice ->
     (forall b l l', (b < 50)%nat -> members edges 100 b eps l -> members edges 100 (99 - b) eps l' -> (length l <= length l')%nat) ->
     - (w * INR (counter eps)) <= sum_of rs).
Proof. exact c82_net. Qed.
Print Assumptions C82_net.

(** In a decomposed galaxy every labelled star with negative circularity is in the spheroid,
    and the spheroid holds no more stars with circularity from zero on than of those, for any
    number of bins and digits and in any arithmetic. *)
Theorem C82_stars : forall (N : Num) (St : Type) choice argsort junk cbins n_bin digits n_bin_E (D : decomposer N St) (st : St) (g : galaxy N) c st',
  arith N -> draws choice -> constructible g -> (n_bin <= 2 ^ 53)%Z -> (n_bin_E <= 2 ^ 53)%Z -> (0 <= digits)%Z ->
  (D = jhistogram choice junk cbins n_bin digits \/ D = jehistogram choice junk cbins n_bin digits n_bin_E) ->
  decompose argsort D st g = Ok (c, st') ->
  exists j, jcirc argsort g (fst cbins) (snd cbins) = Ok j /\
    (forall k e w, nth_error (jc_eps j) k = Some e -> nth_error (c_labels c) k = Some w -> nisnan w = false -> nlt e n0 = true -> w = nofZ 0) /\
    let S := bulge (c_labels c) (jc_eps j) in (corot S <= counter S)%nat.
Proof. exact c82_stars. Qed.
Print Assumptions C82_stars.

(** With the default bins, in binary64: the circularities of the stars of the spheroid are
    real numbers that add up to at most one bin width for each counter-rotating star in it. *)
Theorem C82_galaxy : forall (sm : list f64 -> f64) (St : Type) choice argsort junk cbins n_bin_E (D : decomposer (F64s sm) St) (st : St) (g : galaxy (F64s sm)) c st',
  draws choice -> constructible g -> (n_bin_E <= 2 ^ 53)%Z ->
  (D = jhistogram choice junk cbins 100 2 \/ D = jehistogram choice junk cbins 100 2 n_bin_E) ->
  decompose argsort D st g = Ok (c, st') ->
  exists j rs, jcirc argsort g (fst cbins) (snd cbins) = Ok j /\
    let S := bulge (c_labels c) (jc_eps j) in
    map (val (F64_rounded sm)) S = map XR rs /\ sum_of rs <= (1 / 50 + / IZR (2 ^ 53)) * INR (counter S).
Proof. exact c82_galaxy. Qed.
Print Assumptions C82_galaxy.

(** The sample galaxy with the default parameters: one counter-rotating star and one other in
    the spheroid, whichever star is drawn. *)
Example EX_C82 :
  map (fun st =>
     (do g <- sampleG; do j <- jcirc asort g default_bin0 default_bin1;
      do r <- decompose asort (jhistogram turns (fun _ => 9%Z) (default_bin0, default_bin1) 100 2) st g;
      do q <- decompose asort (jehistogram turns (fun _ => 9%Z) (default_bin0, default_bin1) 100 2 20) st g;
      let A := bulge (c_labels (fst r)) (jc_eps j) in let B := bulge (c_labels (fst q)) (jc_eps j) in
      Ok (shows A, corot A, counter A, (corot B, counter B)))) [false; true] =
  [Ok ([sZ 1; sZ (-1)], 1, 1, (1, 1)); Ok ([sZ 1; sZ (-1)], 1, 1, (1, 1))]%nat.
Proof. exact ex_c82. Qed.

(** Eight circularities in the default bins: three of them negative, five in the spheroid. *)
Example EX_C82_net :
  let eps := map (fun z => nlit z 1000) [-905; -313; -312; 5; 311; 312; 313; 914]%Z : list F64 in
  map (fun st => rmap (fun r => (fst r, counter eps, corot (spheroid eps (fst r)), counter (spheroid eps (fst r))))
        (hist_split (pick_any turns) (fun _ => 9%Z) 100 2 st eps)) [false; true] =
  [Ok ([0; 0; 0; 1; 0; 0; 1; 0]%Z, 3, 3, 3); Ok ([0; 0; 0; 1; 1; 0; 0; 0]%Z, 3, 3, 3)]%nat
  /\ forallb (fun e => nle nm1 e && nle e n1) eps = true.
Proof. exact ex_c82_net. Qed.
