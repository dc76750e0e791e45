(** Property theorems. JEHistogram with finer and coarser energy bins on one galaxy (C116). Proofs are in EnestThms.v. *)
From Verif Require Import Py Num RX F64 Np Df Data DataFacts DfFacts CenterFacts Ex Spec DataThms SpecCirc Circ CircFacts CircThms SpecBase Base BaseFacts BaseThms Threshold EpsFacts ThresholdThms SpecHist Hist HistFacts EdgeFacts HistThms EdgeThms EnergyFacts EnergyThms SpecPot SpecMirror MirrorThms SpinThms MixStar WhistFacts SpecVersus VersusThms SpecNested NestedThms SplitThms EnestThms.
From Coq Require Import Lia Lra Permutation Sorted Floats.SpecFloat.
From Flocq Require Import Core.
Local Open Scope nat_scope.

(** With every energy bin cut into the same number of parts the spheroid of JEHistogram loses stars or keeps their
    number: in every bin of circularity, and in total. *)
Theorem C116_finer : forall (N : Num) (St1 St2 : Type) (choice1 : St1 -> list nat -> nat -> list nat * St1) (choice2 : St2 -> list nat -> nat -> list nat * St2)
    argsort junk1 junk2 cb n_bin digits k n_bin_E st1 st2 (g : galaxy N) j c1 c2 s1 s2,
  arith N -> draws choice1 -> draws choice2 -> constructible g ->
  (n_bin <= 2 ^ 53)%Z -> (0 <= digits)%Z -> (1 <= k)%Z -> (1 <= n_bin_E)%Z -> (k * n_bin_E <= 2 ^ 53)%Z ->
  nested (Z.to_nat k) (Z.to_nat n_bin_E) (linspace (nm1 : N) n0 (Z.to_nat (k * n_bin_E))) (linspace nm1 n0 (Z.to_nat n_bin_E)) ->
  jcirc argsort g (fst cb) (snd cb) = Ok j ->
  decompose argsort (jehistogram choice1 junk1 cb n_bin digits n_bin_E) st1 g = Ok (c1, s1) ->
  decompose argsort (jehistogram choice2 junk2 cb n_bin digits (k * n_bin_E)) st2 g = Ok (c2, s2) ->
  let n := Z.to_nat n_bin in let edges := map (np_round digits) (linspace nm1 n1 n) in
  (forall b, (b < n)%nat -> (tally (counted edges n b) 0 (jc_eps j) c2 <= tally (counted edges n b) 0 (jc_eps j) c1)%nat) /\
  (tally (fun _ => true) 0 (jc_eps j) c2 <= tally (fun _ => true) 0 (jc_eps j) c1)%nat.
Proof. exact c116_finer. Qed.
Print Assumptions C116_finer.

(** With a single energy bin the spheroid of JEHistogram has in every bin of circularity as many stars as that of
    JHistogram, if some bound particle has an energy other than zero. *)
Theorem C116_one : forall (N : Num) (St1 St2 : Type) (choice1 : St1 -> list nat -> nat -> list nat * St1) (choice2 : St2 -> list nat -> nat -> list nat * St2)
    argsort junk1 junk2 cb n_bin digits st1 st2 (g : galaxy N) j c1 c2 s1 s2,
  arith N -> draws choice1 -> draws choice2 -> constructible g -> (n_bin <= 2 ^ 53)%Z -> (0 <= digits)%Z ->
  some_depth g -> jcirc argsort g (fst cb) (snd cb) = Ok j ->
  decompose argsort (jhistogram choice1 junk1 cb n_bin digits) st1 g = Ok (c1, s1) ->
  decompose argsort (jehistogram choice2 junk2 cb n_bin digits 1) st2 g = Ok (c2, s2) ->
  let n := Z.to_nat n_bin in let edges := map (np_round digits) (linspace nm1 n1 n) in
  (forall b, (b < n)%nat -> tally (counted edges n b) 0 (jc_eps j) c2 = tally (counted edges n b) 0 (jc_eps j) c1) /\
  tally (fun _ => true) 0 (jc_eps j) c2 = tally (fun _ => true) 0 (jc_eps j) c1.
Proof. exact c116_one. Qed.
Print Assumptions C116_one.

(** The condition on the edges: in exact arithmetic it always holds, in binary64 with any summation order it holds
    when the number of energy bins is doubled any number of times. *)
Theorem C116_edges : (forall k n, (1 <= k)%nat -> (1 <= n)%nat -> nested k n (linspace (nm1 : RX) n0 (k * n)) (linspace nm1 n0 n)) /\
  (forall sm p n, (1 <= n)%nat -> (Z.of_nat (2 ^ p * n) <= 2 ^ 53)%Z -> nested (2 ^ p) n (linspace (nm1 : F64s sm) n0 (2 ^ p * n)) (linspace nm1 n0 n)).
Proof. exact c116_edges. Qed.
Print Assumptions C116_edges.

Theorem C116_finer_refuted : exists (g : galaxy F64) j c1 c2 s1 s2, constructible g /\ draws turns /\
  jcirc asort g default_bin0 default_bin1 = Ok j /\
  decompose asort (jehistogram turns (fun _ => 9%Z) (default_bin0, default_bin1) 100 2 2) false g = Ok (c1, s1) /\
  decompose asort (jehistogram turns (fun _ => 9%Z) (default_bin0, default_bin1) 100 2 3) false g = Ok (c2, s2) /\
  (tally (fun _ => true) 0 (jc_eps j) c1 < tally (fun _ => true) 0 (jc_eps j) c2)%nat.
Proof. exact c116_finer_refuted. Qed.
Print Assumptions C116_finer_refuted.

(** "With a single energy bin JEHistogram's spheroid is as large as JHistogram's": false if all bound particles have
    energy zero. *)
Theorem C116_one_refuted : exists (g : galaxy F64) j c1 c2 s1 s2, constructible g /\ draws turns /\
  jcirc asort g default_bin0 default_bin1 = Ok j /\
  decompose asort (jhistogram turns (fun _ => 9%Z) (default_bin0, default_bin1) 100 2) false g = Ok (c1, s1) /\
  decompose asort (jehistogram turns (fun _ => 9%Z) (default_bin0, default_bin1) 100 2 1) false g = Ok (c2, s2) /\
  (tally (fun _ => true) 0 (jc_eps j) c2 < tally (fun _ => true) 0 (jc_eps j) c1)%nat.
Proof. exact c116_one_refuted. Qed.
Print Assumptions C116_one_refuted.

(** The edges of 1, 2, 4, 5 and 10 energy bins are edges of the 20 of the default. *)
Example EX_C116_nested :
  forall k n, In (k, n) [(20, 1); (10, 2); (5, 4); (4, 5); (2, 10)]%nat -> nested k n (linspace (nm1 : F64) n0 20) (linspace nm1 n0 n).
Proof. exact ex_c116_nested. Qed.

(** The galaxy of EX_C114: with one or two energy bins one of the two stars with circularity 0.51 goes to the
    spheroid, as with JHistogram; with four or more none does. *)
Example EX_C116_finer :
  (map (fun m => tally_by (jehistogram turns (fun _ => 9%Z) (default_bin0, default_bin1) 100 2 m) false) [1; 2; 4; 20]%Z,
   tally_by (jhistogram turns (fun _ => 9%Z) (default_bin0, default_bin1) 100 2) false) =
  (map (fun t => Ok (t, (1, 3))) [2; 2; 1; 1], Ok (2, (1, 3)))%nat.
Proof. exact ex_c116_finer. Qed.
