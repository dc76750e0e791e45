(** Property theorems. Histogram decompositions (C41-C46). Proofs are in HistThms.v. *)
From Verif Require Import Py Num RX F64 Np Df Data DataFacts DfFacts CenterFacts Ex Spec DataThms SpecCirc Circ CircFacts CircThms SpecBase Base BaseFacts BaseThms Threshold EpsFacts ThresholdThms SpecHist Hist HistFacts EdgeFacts HistThms.
From Coq Require Import Floats.SpecFloat Permutation Lia.

(** split gives each particle with a circularity between -1 and 1 the label 0 or 1, whatever
    the generator draws and whatever the memory of the labels held before; a particle
    without such a circularity keeps what the memory held. *)
Theorem C41_labels : forall (N : Num) (St : Type) choice junk n_bin digits (eps : list N) (st : St) labels st',
  arith N -> draws choice -> (n_bin <= 2 ^ 53)%Z -> (0 <= digits)%Z ->
  hist_split (pick_any choice) junk n_bin digits st eps = Ok (labels, st') ->
  length labels = length eps /\
  forall i e, nth_error eps i = Some e ->
    (nle nm1 e = true -> nle e n1 = true ->
       (nth_error labels i = Some 0%Z \/ nth_error labels i = Some 1%Z) /\
       forall junk', exists labels', hist_split (pick_any choice) junk' n_bin digits st eps = Ok (labels', st') /\
         nth_error labels' i = nth_error labels i) /\
    (nle nm1 e && nle e n1 = false -> nth_error labels i = Some (junk i)).
Proof. exact c41_labels. Qed.
Print Assumptions C41_labels.

(** decompose gives each star with a finite circularity the label 0 or 1 and every other
    particle NaN; nothing depends on what the memory held before. *)
Theorem C41_decompose : forall (N : Num) (St : Type) choice argsort junk cbins n_bin digits (st : St) (g : galaxy N) c st',
  arith N -> draws choice -> constructible g -> (n_bin <= 2 ^ 53)%Z -> (0 <= digits)%Z ->
  decompose argsort (jhistogram choice junk cbins n_bin digits) st g = Ok (c, st') ->
  (exists j, jcirc argsort g (fst cbins) (snd cbins) = Ok j /\
     forall i p k, located g i p k ->
      let usable := p_type p = STARS /\ exists e, nth_error (jc_eps j) k = Some e /\ nfin e = true in
      (usable -> nth_error (c_labels c) i = Some (nofZ 0) \/ nth_error (c_labels c) i = Some (nofZ 1)) /\
      (~ usable -> nth_error (c_labels c) i = Some nnan)) /\
  forall junk', decompose argsort (jhistogram choice junk' cbins n_bin digits) st g = Ok (c, st').
Proof. exact c41_decompose. Qed.
Print Assumptions C41_decompose.

(** The composition of the spheroid, bin by bin: with [bin0] the first zero edge, the bins
    below it are all spheroid; bin [b] mirrors bin [2 * bin0 - 1 - b] around zero and gets
    min(counter, co) spheroid particles; bins without a mirror are all disk. *)
Theorem C42_composition : forall (N : Num) (St : Type) choice junk n_bin digits (eps : list N) (st : St) labels st',
  arith N -> draws choice -> (n_bin <= 2 ^ 53)%Z -> (0 <= digits)%Z ->
  hist_split (pick_any choice) junk n_bin digits st eps = Ok (labels, st') ->
  let n := Z.to_nat n_bin in let edges := map (np_round digits) (linspace nm1 n1 n) in
  exists bin0, zero_edge edges bin0 /\ grid_to n1 n edges /\ (0 < bin0 < n)%nat /\
   forall b l, (b < n)%nat -> members edges n b eps l ->
    ((b < bin0)%nat -> labelled 0 labels l = length l) /\
    ((bin0 <= b < 2 * bin0)%nat -> forall l', members edges n (2 * bin0 - 1 - b) eps l' ->
       labelled 0 labels l = Nat.min (length l') (length l) /\
       labelled 1 labels l = (length l - Nat.min (length l') (length l))%nat) /\
    ((2 * bin0 <= b)%nat -> labelled 1 labels l = length l).
Proof. exact c42_composition. Qed.
Print Assumptions C42_composition.

(** When no co-rotating bin holds more particles than its mirror nothing is drawn: the
    generator stays where it was and every generator gives the same labels. *)
Theorem C44_no_draw : forall (N : Num) (St : Type) choice junk n_bin digits (eps : list N) (st : St) labels st',
  arith N -> draws choice -> (n_bin <= 2 ^ 53)%Z -> (0 <= digits)%Z ->
  hist_split (pick_any choice) junk n_bin digits st eps = Ok (labels, st') ->
  let n := Z.to_nat n_bin in let edges := map (np_round digits) (linspace nm1 n1 n) in
  (forall bin0 b l l', zero_edge edges bin0 -> (bin0 <= b < 2 * bin0)%nat -> (b < n)%nat ->
     members edges n b eps l -> members edges n (2 * bin0 - 1 - b) eps l' -> (length l <= length l')%nat) ->
  st' = st /\
  forall (St2 : Type) (choice2 : St2 -> list nat -> nat -> list nat * St2) st2, draws choice2 ->
    hist_split (pick_any choice2) junk n_bin digits st2 eps = Ok (labels, st2).
Proof. exact c44_no_draw. Qed.
Print Assumptions C44_no_draw.

(** How many particles of each bin go to the spheroid does not depend on the generator. *)
Theorem C44_counts : forall (N : Num) (St1 St2 : Type) choice1 choice2 junk1 junk2 n_bin digits (eps : list N) (st1 : St1) (st2 : St2) labels1 labels2 st1' st2',
  arith N -> draws choice1 -> draws choice2 -> (n_bin <= 2 ^ 53)%Z -> (0 <= digits)%Z ->
  hist_split (pick_any choice1) junk1 n_bin digits st1 eps = Ok (labels1, st1') ->
  hist_split (pick_any choice2) junk2 n_bin digits st2 eps = Ok (labels2, st2') ->
  let n := Z.to_nat n_bin in let edges := map (np_round digits) (linspace nm1 n1 n) in
  forall b l, (b < n)%nat -> members edges n b eps l -> labelled 0 labels1 l = labelled 0 labels2 l.
Proof. exact c44_counts. Qed.
Print Assumptions C44_counts.

(** Two objects with the same hyper-parameters and generator agree on every sequence of
    galaxies, though their memory differs. *)
Theorem C44_reproducible : forall (N : Num) (St : Type) choice argsort junk1 junk2 cbins n_bin digits (st : St) (gs : list (galaxy N)),
  arith N -> draws choice -> Forall constructible gs -> (n_bin <= 2 ^ 53)%Z -> (0 <= digits)%Z ->
  session argsort (jhistogram choice junk1 cbins n_bin digits) st gs =
  session argsort (jhistogram choice junk2 cbins n_bin digits) st gs.
Proof. exact c44_reproducible. Qed.
Print Assumptions C44_reproducible.

(** The generator advances, so one object can give two answers for the same galaxy. *)
Theorem C44_repeated_call_refuted : exists (St : Type) (choice : St -> list nat -> nat -> list nat * St) (st : St) (g : galaxy F64) c1 c2,
  draws choice /\ constructible g /\
  (forall junk, session asort (jhistogram choice junk (default_bin0, default_bin1) 100 2) st [g; g] = [Ok c1; Ok c2]) /\
  exists i a b, nth_error (c_labels c1) i = Some a /\ nth_error (c_labels c2) i = Some b /\ neqb a n0 = true /\ neqb b n1 = true.
Proof. exact c44_repeated_call_refuted. Qed.
Print Assumptions C44_repeated_call_refuted.

Example EX_C42 :
  map (fun st => rmap fst (hist_split (pick_any turns) (fun _ => 9%Z) 4 2 st tenE)) [false; true] =
  [Ok [0; 0; 0; 0; 0; 0; 0; 1; 0; 0]%Z; Ok [0; 0; 0; 0; 0; 1; 0; 0; 0; 0]%Z].
Proof. exact ex_c42. Qed.

(** A value outside [-1, 1] keeps what the memory held. *)
Example EX_C41 :
  rmap fst (hist_split (pick_any turns) (fun i => Z.of_nat (100 + i)) 100 2 false (map (fun z => nlit z 10) [-11; -10; 0; 4; 10; 11]%Z : list F64)) =
  Ok [100; 0; 1; 1; 0; 105]%Z.
Proof. exact ex_c41. Qed.

(** decompose with the default parameters on the sample galaxy. *)
Example EX_C41_decompose :
  map (fun st => rmap (fun r => shows (c_labels (fst r)))
         (do g <- sampleG; decompose asort (jhistogram turns (fun _ => 9%Z) (default_bin0, default_bin1) 100 2) st g)) [false; true] =
  [Ok [sZ 0; sZ 1; sZ 0; S754_nan; S754_nan; S754_nan; S754_nan; S754_nan];
   Ok [sZ 1; sZ 0; sZ 0; S754_nan; S754_nan; S754_nan; S754_nan; S754_nan]].
Proof. exact ex_c41_decompose. Qed.

(** Nothing is drawn when each co-rotating bin is at most as full as its mirror. *)
Example EX_C44 :
  map (fun st => hist_split (pick_any turns) (fun _ => 9%Z) 4 2 st (map (fun z => nlit z 10) [-9; -8; -3; 1; 10]%Z : list F64)) [false; true] =
  [Ok ([0; 0; 0; 0; 0]%Z, false); Ok ([0; 0; 0; 0; 0]%Z, true)].
Proof. exact ex_c44. Qed.
