(** Property theorems. Symmetry of the histogram decompositions around zero (C78). Proofs are in MirrorThms.v. *)
From Verif Require Import Py Num RX F64 Np Df Data DataFacts DfFacts CenterFacts Ex Spec DataThms SpecCirc Circ CircFacts CircThms SpecBase Base BaseFacts BaseThms Threshold EpsFacts ThresholdThms SpecHist Hist HistFacts EdgeFacts HistThms EdgeThms EnergyFacts EnergyThms SpecPot SpecMirror MirrorThms.
From Flocq Require Import Core.
From Coq Require Import Lia Permutation.
Local Open Scope R_scope.

(** The mirror bin of the code is the reflection of a bin around zero exactly for an even
    number of bins below 4 * 10^digits: otherwise the zero edge it uses is not the middle one. *)
Theorem C78_exact : forall n_bin digits bin0, (1 <= n_bin)%Z -> (0 <= digits)%Z ->
  let edges := map (np_round (N:=RX) digits) (linspace nm1 n1 (Z.to_nat n_bin)) in
  zero_edge edges bin0 ->
  (reflects edges bin0 <-> Z.Even n_bin /\ (n_bin < 4 * 10 ^ digits)%Z) /\
  (reflects edges bin0 -> n_bin = (2 * Z.of_nat bin0)%Z).
Proof. exact c78_exact. Qed.
Print Assumptions C78_exact.

(** In binary64, as the code computes, it is the reflection for the default parameters. *)
Theorem C78_default : forall sm bin0,
  let edges := map (np_round (N:=F64s sm) 2) (linspace nm1 n1 (Z.to_nat 100)) in
  zero_edge edges bin0 -> bin0 = 50%nat /\ reflects edges bin0.
Proof. exact c78_default. Qed.
Print Assumptions C78_default.

(** But not for every even number of bins below 4 * 10^digits: with 80 bins the edges of
    -0.825 and 0.825, both halfway between hundredths, are rounded apart. *)
Theorem C78_float_refuted : exists n_bin digits bin0, (Z.Even n_bin /\ 1 <= n_bin < 4 * 10 ^ digits /\ 0 <= digits)%Z /\
  forall sm, let edges := map (np_round (N:=F64s sm) digits) (linspace nm1 n1 (Z.to_nat n_bin)) in
  zero_edge edges bin0 /\ ~ reflects edges bin0.
Proof. exact c78_float_refuted. Qed.
Print Assumptions C78_float_refuted.

(** With 1000 bins and 2 digits there is no spheroid among the co-rotating particles at all:
    of every co-rotating bin and its mirror one is empty, whatever the data. *)
Theorem C78_no_spheroid : forall sm (St : Type) choice junk (eps : list (F64s sm)) (st : St) labels st',
  draws choice -> hist_split (pick_any choice) junk 1000 2 st eps = Ok (labels, st') ->
  forall i e, nth_error eps i = Some e -> nle n0 e = true -> nle e n1 = true -> nth_error labels i = Some 1%Z.
Proof. exact c78_no_spheroid. Qed.
Print Assumptions C78_no_spheroid.

(** In exact arithmetic 80 bins are mirrored, 401 are not although they have a zero edge. *)
Example EX_C78 :
  (exists b, zero_edge (map (np_round (N:=RX) 2) (linspace nm1 n1 80)) b /\ reflects (map (np_round (N:=RX) 2) (linspace nm1 n1 80)) b) /\
  (exists b, zero_edge (map (np_round (N:=RX) 2) (linspace nm1 n1 401)) b /\ ~ reflects (map (np_round (N:=RX) 2) (linspace nm1 n1 401)) b).
Proof. exact ex_c78. Qed.

(** Two particles with opposite circularities: a spheroid with 100 bins, not with 1000. *)
Example EX_C78_no_spheroid : let eps := map (fun z => nlit z 20) [-9; 9]%Z : list F64 in
  rmap fst (hist_split (pick_any turns) (fun _ => 9%Z) 100 2 false eps) = Ok [0; 0]%Z /\
  exists labels st', hist_split (pick_any turns) (fun _ => 9%Z) 1000 2 false eps = Ok (labels, st') /\ nth_error labels 1 = Some 1%Z.
Proof. exact ex_c78_no_spheroid. Qed.
