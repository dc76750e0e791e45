(** Property theorems. JHistogram with finer and coarser bins on one galaxy (C115). Proofs are in NestedThms.v. *)
From Verif Require Import Py Num RX F64 Np Df Data DataFacts DfFacts CenterFacts Ex Spec DataThms SpecCirc Circ CircFacts CircThms SpecBase Base BaseFacts BaseThms Threshold EpsFacts ThresholdThms SpecHist Hist HistFacts EdgeFacts HistThms EdgeThms EnergyFacts EnergyThms SpecPot SpecMirror MirrorThms SpinThms MixStar WhistFacts SpecVersus VersusThms SpecNested NestedThms.
From Coq Require Import Lra Lia Permutation Sorted Floats.SpecFloat.
From Flocq Require Import Core.

(** With every bin cut into the same number of parts the spheroid loses stars or keeps their number: in every one
    of the coarse bins, and in total. *)
Theorem C115_finer : forall (N : Num) (St1 St2 : Type) (choice1 : St1 -> list nat -> nat -> list nat * St1) (choice2 : St2 -> list nat -> nat -> list nat * St2)
    argsort junk1 junk2 cb k n_bin digits1 digits2 st1 st2 (g : galaxy N) j c1 c2 s1 s2,
  arith N -> draws choice1 -> draws choice2 -> constructible g ->
  (1 <= k)%Z -> (k * n_bin <= 2 ^ 53)%Z -> (0 <= digits1)%Z -> (0 <= digits2)%Z ->
  let n := Z.to_nat n_bin in
  let coarse := map (np_round digits1) (linspace nm1 n1 n) in
  let fine := map (np_round digits2) (linspace nm1 n1 (Z.to_nat (k * n_bin))) in
  nested (Z.to_nat k) n fine coarse -> one_zero fine ->
  jcirc argsort g (fst cb) (snd cb) = Ok j ->
  decompose argsort (jhistogram choice1 junk1 cb n_bin digits1) st1 g = Ok (c1, s1) ->
  decompose argsort (jhistogram choice2 junk2 cb (k * n_bin) digits2) st2 g = Ok (c2, s2) ->
  (forall b, (b < n)%nat -> (tally (counted coarse n b) 0 (jc_eps j) c2 <= tally (counted coarse n b) 0 (jc_eps j) c1)%nat) /\
  (tally (fun _ => true) 0 (jc_eps j) c2 <= tally (fun _ => true) 0 (jc_eps j) c1)%nat.
Proof. exact c115_finer. Qed.
Print Assumptions C115_finer.

(** With the same number of digits the coarse bins are always made of the fine ones in exact arithmetic, and no two
    fine edges are zero exactly if there are fewer than 4 * 10^digits fine bins and their number is even, or fewer
    than 2 * 10^digits.  In binary64, whatever the summation order, they are when the number of bins is doubled any
    number of times. *)
Theorem C115_edges : (forall k n digits, (1 <= k)%nat -> (1 <= n)%nat -> (0 <= digits)%Z ->
    let fine := map (np_round (N:=RX) digits) (linspace nm1 n1 (k * n)) in
    nested k n fine (map (np_round digits) (linspace nm1 n1 n)) /\
    (one_zero fine <-> (Z.Even (Z.of_nat (k * n)) /\ (Z.of_nat (k * n) < 4 * 10 ^ digits)%Z) \/ (Z.of_nat (k * n) < 2 * 10 ^ digits)%Z)) /\
  (forall sm p n digits, (1 <= n)%nat -> (Z.of_nat (2 ^ p * n) <= 2 ^ 53)%Z -> (0 <= digits <= 15)%Z ->
    nested (2 ^ p) n (map (np_round (N:=F64s sm) digits) (linspace nm1 n1 (2 ^ p * n))) (map (np_round digits) (linspace nm1 n1 n))).
Proof. exact c115_edges. Qed.
Print Assumptions C115_edges.

Theorem C115_finer_refuted : exists (g : galaxy F64) j c1 c2 s1 s2, constructible g /\ draws turns /\
  jcirc asort g default_bin0 default_bin1 = Ok j /\
  decompose asort (jhistogram turns (fun _ => 9%Z) (default_bin0, default_bin1) 4 2) false g = Ok (c1, s1) /\
  decompose asort (jhistogram turns (fun _ => 9%Z) (default_bin0, default_bin1) 6 2) false g = Ok (c2, s2) /\
  (tally (fun _ => true) 0 (jc_eps j) c1 < tally (fun _ => true) 0 (jc_eps j) c2)%nat.
Proof. exact c115_finer_refuted. Qed.
Print Assumptions C115_finer_refuted.

Example EX_C115_nested :
  let fine := map (np_round 2) (linspace (nm1 : F64) n1 100) in
  one_zero fine /\ forall k n, In (k, n) [(50, 2); (25, 4); (10, 10); (5, 20); (2, 50)]%nat -> nested k n fine (map (np_round 2) (linspace nm1 n1 n)).
Proof. exact ex_c115_nested. Qed.

Example EX_C115_finer :
  map (fun n => do g <- nestG; do r <- decompose asort (jhistogram turns (fun _ => 9%Z) (default_bin0, default_bin1) n 2) false g;
                do j <- jcirc asort g default_bin0 default_bin1; Ok (tally (fun _ => true) 0 (jc_eps j) (fst r), having backward (jc_eps j))) [2; 4; 10; 20; 50; 100]%Z =
  map (fun t => Ok (t, 1%nat)) [2; 2; 2; 2; 1; 1]%nat.
Proof. exact ex_c115_finer. Qed.
