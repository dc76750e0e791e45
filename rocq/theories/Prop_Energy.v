(** Property theorems. JEHistogram (C45, C46). Proofs are in EnergyThms.v. *)
From Verif Require Import Py Num RX F64 Np Df Data DataFacts DfFacts CenterFacts Ex Spec DataThms SpecCirc Circ CircFacts CircThms SpecBase Base BaseFacts BaseThms Threshold EpsFacts ThresholdThms SpecHist Hist HistFacts EdgeFacts HistThms EnergyFacts EnergyThms.
From Coq Require Import Floats.SpecFloat Permutation Lia.

(** As for JHistogram, each particle with a circularity between -1 and 1 gets the label 0 or
    1, whatever the energies, the generator and the memory of the labels. *)
Theorem C45_labels : forall (N : Num) (St : Type) choice junk n_bin digits n_bin_E (energy eps : list N) (st : St) labels st',
  arith N -> draws choice -> (n_bin <= 2 ^ 53)%Z -> (n_bin_E <= 2 ^ 53)%Z -> (0 <= digits)%Z ->
  hist_split (pick_energy choice energy n_bin_E) junk n_bin digits st eps = Ok (labels, st') ->
  length labels = length eps /\
  forall i e, nth_error eps i = Some e ->
    (nle nm1 e = true -> nle e n1 = true ->
       (nth_error labels i = Some 0%Z \/ nth_error labels i = Some 1%Z) /\
       forall junk', exists labels', hist_split (pick_energy choice energy n_bin_E) junk' n_bin digits st eps = Ok (labels', st') /\
         nth_error labels' i = nth_error labels i) /\
    (nle nm1 e && nle e n1 = false -> nth_error labels i = Some (junk i)).
Proof. exact c45_labels. Qed.
Print Assumptions C45_labels.

(** decompose gives each star with a finite energy and circularity the label 0 or 1 and every
    other particle NaN; nothing depends on what the memory held before. *)
Theorem C45_decompose : forall (N : Num) (St : Type) choice argsort junk cbins n_bin digits n_bin_E (st : St) (g : galaxy N) c st',
  arith N -> draws choice -> constructible g -> (n_bin <= 2 ^ 53)%Z -> (n_bin_E <= 2 ^ 53)%Z -> (0 <= digits)%Z ->
  decompose argsort (jehistogram choice junk cbins n_bin digits n_bin_E) st g = Ok (c, st') ->
  (exists j, jcirc argsort g (fst cbins) (snd cbins) = Ok j /\
     forall i p k, located g i p k ->
      let usable := p_type p = STARS /\ exists w e, nth_error (jc_E j) k = Some w /\ nth_error (jc_eps j) k = Some e /\ nfin w = true /\ nfin e = true in
      (usable -> nth_error (c_labels c) i = Some (nofZ 0) \/ nth_error (c_labels c) i = Some (nofZ 1)) /\
      (~ usable -> nth_error (c_labels c) i = Some nnan)) /\
  forall junk', decompose argsort (jehistogram choice junk' cbins n_bin digits n_bin_E) st g = Ok (c, st').
Proof. exact c45_decompose. Qed.
Print Assumptions C45_decompose.

(** Two objects with the same hyper-parameters and generator agree on every sequence of
    galaxies, though their memory differs. *)
Theorem C44_reproducible_energy : forall (N : Num) (St : Type) choice argsort junk1 junk2 cbins n_bin digits n_bin_E (st : St) (gs : list (galaxy N)),
  arith N -> draws choice -> Forall constructible gs -> (n_bin <= 2 ^ 53)%Z -> (n_bin_E <= 2 ^ 53)%Z -> (0 <= digits)%Z ->
  session argsort (jehistogram choice junk1 cbins n_bin digits n_bin_E) st gs =
  session argsort (jehistogram choice junk2 cbins n_bin digits n_bin_E) st gs.
Proof. exact c44_reproducible_energy. Qed.
Print Assumptions C44_reproducible_energy.

(** The composition of the spheroid: as for JHistogram, but in a co-rotating bin more
    populated than its mirror each energy bin gives min(counter, co) particles, only
    energies in [-1, 0) give any, and so never more than the mirror holds. *)
Theorem C45_composition : forall (N : Num) (St : Type) choice junk n_bin digits n_bin_E (energy eps : list N) (st : St) labels st',
  arith N -> draws choice -> (n_bin <= 2 ^ 53)%Z -> (n_bin_E <= 2 ^ 53)%Z -> (0 <= digits)%Z ->
  hist_split (pick_energy choice energy n_bin_E) junk n_bin digits st eps = Ok (labels, st') ->
  let n := Z.to_nat n_bin in let edges := map (np_round digits) (linspace nm1 n1 n) in
  let nE := Z.to_nat n_bin_E in let ed := linspace nm1 n0 nE in
  exists bin0, zero_edge edges bin0 /\ grid_to n1 n edges /\ (0 < bin0 < n)%nat /\
   forall b l, (b < n)%nat -> members edges n b eps l ->
    ((b < bin0)%nat -> labelled 0 labels l = length l) /\
    ((2 * bin0 <= b)%nat -> labelled 1 labels l = length l) /\
    ((bin0 <= b < 2 * bin0)%nat -> forall l', members edges n (2 * bin0 - 1 - b) eps l' ->
       (labelled 0 labels l + labelled 1 labels l = length l)%nat /\
       ((length l <= length l')%nat -> labelled 0 labels l = length l) /\
       ((length l' < length l)%nat ->
          (1 <= n_bin_E)%Z /\ (labelled 0 labels l <= length l')%nat /\
          (forall j, (j < nE)%nat -> labelled 0 labels (with_energy (half_open ed j) energy l) =
             Nat.min (length (with_energy (counted ed nE j) energy l')) (length (with_energy (half_open ed j) energy l))) /\
          (forall i, In i l -> nth_error labels i = Some 0%Z -> exists e, nth_error energy i = Some e /\ nle nm1 e = true /\ nlt e n0 = true))).
Proof. exact c45_composition. Qed.
Print Assumptions C45_composition.

(** Exactly when the selection fails: in some co-rotating bin more populated than its
    mirror, the last energy bin has more counter-rotating particles than co-rotating ones
    of negative energy, but fewer than when those of energy zero are added.  Then split
    raises ValueError whatever the generator does, otherwise it returns. *)
Theorem C46_exact : forall (N : Num) (St : Type) choice junk n_bin digits n_bin_E (energy eps : list N) (st : St),
  arith N -> draws choice -> (1 <= n_bin <= 2 ^ 53)%Z -> (1 <= n_bin_E <= 2 ^ 53)%Z -> (0 <= digits)%Z -> length energy = length eps ->
  let n := Z.to_nat n_bin in let edges := map (np_round digits) (linspace nm1 n1 n) in
  let nE := Z.to_nat n_bin_E in let ed := linspace nm1 n0 nE in
  let r := hist_split (pick_energy choice energy n_bin_E) junk n_bin digits st eps in
  let fails bin0 := exists b l l', (bin0 <= b < 2 * bin0)%nat /\ (b < n)%nat /\ members edges n b eps l /\ members edges n (2 * bin0 - 1 - b) eps l' /\
    (length l' < length l)%nat /\
    (let negative := length (with_energy (half_open ed (nE - 1)) energy l) in let zero := length (with_energy (fun e => neqb e n0) energy l) in
     negative < length (with_energy (counted ed nE (nE - 1)) energy l') < negative + zero)%nat in
  forall bin0, zero_edge edges bin0 ->
    (fails bin0 -> r = Raise ValueError) /\ (~ fails bin0 -> exists labels st', r = Ok (labels, st')).
Proof. exact c46_exact. Qed.
Print Assumptions C46_exact.

(** If no energy equals zero the selection never fails. *)
Theorem C46_no_zero : forall (N : Num) (St : Type) choice junk n_bin digits n_bin_E (energy eps : list N) (st : St),
  arith N -> draws choice -> (1 <= n_bin <= 2 ^ 53)%Z -> (1 <= n_bin_E <= 2 ^ 53)%Z -> (0 <= digits)%Z -> length energy = length eps ->
  (exists bin0, zero_edge (map (np_round digits) (linspace (N:=N) nm1 n1 (Z.to_nat n_bin))) bin0) ->
  (forall e, In e energy -> neqb e n0 = false) ->
  exists labels st', hist_split (pick_energy choice energy n_bin_E) junk n_bin digits st eps = Ok (labels, st').
Proof. exact c46_no_zero. Qed.
Print Assumptions C46_no_zero.

(** Without energy bins split raises ValueError as soon as a co-rotating bin holds more
    particles than its mirror, and returns otherwise. *)
Theorem C46_no_bins : forall (N : Num) (St : Type) choice junk n_bin digits n_bin_E (energy eps : list N) (st : St),
  arith N -> draws choice -> (1 <= n_bin <= 2 ^ 53)%Z -> (n_bin_E < 1)%Z -> (0 <= digits)%Z -> length energy = length eps ->
  let n := Z.to_nat n_bin in let edges := map (np_round digits) (linspace nm1 n1 n) in
  let r := hist_split (pick_energy choice energy n_bin_E) junk n_bin digits st eps in
  let more bin0 := exists b l l', (bin0 <= b < 2 * bin0)%nat /\ (b < n)%nat /\ members edges n b eps l /\ members edges n (2 * bin0 - 1 - b) eps l' /\
    (length l' < length l)%nat in
  forall bin0, zero_edge edges bin0 ->
    (more bin0 -> r = Raise ValueError) /\ (~ more bin0 -> exists labels st', r = Ok (labels, st')).
Proof. exact c46_no_bins. Qed.
Print Assumptions C46_no_bins.

(** "JEHistogram decomposes every galaxy whose stars have energies in [-1, 0] and
    circularities in [-1, 1]": false with the default parameters, whatever the generator. *)
Theorem C46_returns_refuted : exists (g : galaxy F64) j, constructible g /\ jcirc asort g default_bin0 default_bin1 = Ok j /\
  length (jc_E j) = 4%nat /\ length (jc_eps j) = 4%nat /\
  (forall e, In e (jc_E j) -> nle nm1 e && nle e n0 = true) /\ (forall e, In e (jc_eps j) -> nle nm1 e && nle e n1 = true) /\
  forall (St : Type) choice junk (st : St),
    decompose asort (jehistogram choice junk (default_bin0, default_bin1) 100 2 20) st g = Raise ValueError.
Proof. exact c46_returns_refuted. Qed.
Print Assumptions C46_returns_refuted.

(** Four bins; the third holds five particles and its mirror three, with energies in two of
    two energy bins: one of three is drawn in the first and both are taken in the second. *)
Example EX_C45 :
  map (fun st => rmap fst (hist_split (pick_energy (N:=F64) turns (map (fun z => nlit z 10) [-9; -4; -3; -8; -7; -6; -2; -1]%Z) 2) (fun _ => 9%Z) 4 2 st
                   (map (fun z => nlit z 10) [-1; -2; -3; 1; 2; 3; 4; 0]%Z : list F64))) [false; true] =
  [Ok [0; 0; 0; 0; 1; 1; 0; 0]%Z; Ok [0; 0; 0; 1; 1; 0; 0; 0]%Z].
Proof. exact ex_c45. Qed.

(** decompose with the default parameters on the sample galaxy: the star removed from the
    disk is the one with the energy of the counter-rotating star. *)
Example EX_C45_decompose :
  map (fun st => rmap (fun r => shows (c_labels (fst r)))
         (do g <- sampleG; decompose asort (jehistogram turns (fun _ => 9%Z) (default_bin0, default_bin1) 100 2 20) st g)) [false; true] =
  [Ok [sZ 1; sZ 0; sZ 0; S754_nan; S754_nan; S754_nan; S754_nan; S754_nan];
   Ok [sZ 1; sZ 0; sZ 0; S754_nan; S754_nan; S754_nan; S754_nan; S754_nan]].
Proof. exact ex_c45_decompose. Qed.

(** The zero energies matter: with -1/100 instead the same circularities split. *)
Example EX_C46 :
  map (fun e => rmap fst (hist_split (pick_energy (N:=F64) turns [nlit (-1) 50; e; e] 20) (fun _ => 9%Z) 100 2 false
                   (map (fun z => nlit z 100) [-51; 51; 51]%Z : list F64))) [n0; nlit (-1) 100] =
  [Raise ValueError; Ok [0; 0; 1]%Z].
Proof. exact ex_c46. Qed.
