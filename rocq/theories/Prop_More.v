(** Property theorems. JHistogram and JEHistogram on some stars and on more stars (C120). Proofs are in MoreThms.v. *)
From Verif Require Import Py Num RX F64 Np Df Data DataFacts DfFacts CenterFacts Ex Spec DataThms SpecCirc Circ CircFacts CircThms SpecBase Base BaseFacts BaseThms Threshold EpsFacts ThresholdThms SpecHist Hist HistFacts EdgeFacts HistThms EdgeThms EnergyFacts EnergyThms SpecPot SpecMirror MirrorThms SpinThms MixStar WhistFacts SpecVersus VersusThms SpecNested NestedThms SpecMore MoreThms.
From Coq Require Import Lra Lia Permutation Sorted Floats.SpecFloat.
From Flocq Require Import Core.

(** More stars, the others as before: no bin of the spheroid loses stars, whatever the generators draw; a star
    more brings at most two more to the spheroid, itself and one taken from the disk, so the disk loses at most
    one for each. *)
Theorem C120_more : forall (N : Num) (St1 St2 : Type) (choice1 : St1 -> list nat -> nat -> list nat * St1) (choice2 : St2 -> list nat -> nat -> list nat * St2)
    junk1 junk2 n_bin digits (eps extra eps' : list N) st1 st2 labels1 labels2 s1 s2,
  arith N -> draws choice1 -> draws choice2 -> (n_bin <= 2 ^ 53)%Z -> (0 <= digits)%Z ->
  Permutation (eps ++ extra) eps' ->
  (forall e, In e eps' -> nle nm1 e = true /\ nle e n1 = true) ->
  hist_split (pick_any choice1) junk1 n_bin digits st1 eps = Ok (labels1, s1) ->
  hist_split (pick_any choice2) junk2 n_bin digits st2 eps' = Ok (labels2, s2) ->
  let n := Z.to_nat n_bin in
  let edges := map (np_round digits) (linspace nm1 n1 n) in
  (forall b l l', (b < n)%nat -> members edges n b eps l -> members edges n b eps' l' -> (labelled 0 labels1 l <= labelled 0 labels2 l')%nat) /\
  (having 0 labels1 <= having 0 labels2 <= having 0 labels1 + 2 * length extra)%nat /\
  (having 1 labels1 <= having 1 labels2 + length extra)%nat.
Proof. exact c120_more. Qed.
Print Assumptions C120_more.

(** JEHistogram, with added stars that all rotate against the others: no bin of the spheroid loses stars. *)
Theorem C120_energy : forall (N : Num) (St1 St2 : Type) (choice1 : St1 -> list nat -> nat -> list nat * St1) (choice2 : St2 -> list nat -> nat -> list nat * St2)
    junk1 junk2 n_bin digits n_bin_E (rows extra rows' : list (N * N)) st1 st2 labels1 labels2 s1 s2,
  arith N -> draws choice1 -> draws choice2 -> (n_bin <= 2 ^ 53)%Z -> (1 <= n_bin_E <= 2 ^ 53)%Z -> (0 <= digits)%Z ->
  Permutation (rows ++ extra) rows' ->
  (forall w e, In (w, e) rows' -> nle nm1 e = true /\ nle e n1 = true) ->
  (forall w e, In (w, e) extra -> nlt e n0 = true) ->
  hist_split (pick_energy choice1 (map fst rows) n_bin_E) junk1 n_bin digits st1 (map snd rows) = Ok (labels1, s1) ->
  hist_split (pick_energy choice2 (map fst rows') n_bin_E) junk2 n_bin digits st2 (map snd rows') = Ok (labels2, s2) ->
  let n := Z.to_nat n_bin in
  let edges := map (np_round digits) (linspace nm1 n1 n) in
  (forall b l l', (b < n)%nat -> members edges n b (map snd rows) l -> members edges n b (map snd rows') l' -> (labelled 0 labels1 l <= labelled 0 labels2 l')%nat) /\
  (having 0 labels1 + length extra <= having 0 labels2)%nat.
Proof. exact c120_energy. Qed.
Print Assumptions C120_energy.

(** Not so with JEHistogram: a bin no fuller than its mirror joins the spheroid whole, a fuller one only with the
    energies of the mirror.  Here one co-rotating star more takes all three co-rotating stars out of the spheroid,
    with the default parameters and whatever the generator does. *)
Theorem C120_energy_refuted : exists (energy eps : list F64) (w e : F64),
  (forall v, In v (e :: eps) -> nle nm1 v = true /\ nle v n1 = true) /\ (forall v, In v (w :: energy) -> nle nm1 v = true /\ nlt v n0 = true) /\
  forall (St : Type) (choice : St -> list nat -> nat -> list nat * St) junk st, exists labels1 labels2,
    hist_split (pick_energy choice energy 20) junk 100 2 st eps = Ok (labels1, st) /\
    hist_split (pick_energy choice (energy ++ [w]) 20) junk 100 2 st (eps ++ [e]) = Ok (labels2, st) /\
    having 0 labels1 = 6%nat /\ having 0 labels2 = 3%nat.
Proof. exact c120_energy_refuted. Qed.
Print Assumptions C120_energy_refuted.

(** Nor does one star more bring at most two to the spheroid of JEHistogram: here a counter-rotating one fills the
    mirror up to the co-rotating bin, and the four stars of that bin come with it. *)
Theorem C120_growth_refuted : exists (energy eps : list F64) (w e : F64),
  (forall v, In v (e :: eps) -> nle nm1 v = true /\ nle v n1 = true) /\ (forall v, In v (w :: energy) -> nle nm1 v = true /\ nlt v n0 = true) /\ nlt e n0 = true /\
  forall (St : Type) (choice : St -> list nat -> nat -> list nat * St) junk st, exists labels1 labels2,
    hist_split (pick_energy choice energy 20) junk 100 2 st eps = Ok (labels1, st) /\
    hist_split (pick_energy choice (energy ++ [w]) 20) junk 100 2 st (eps ++ [e]) = Ok (labels2, st) /\
    having 0 labels1 = 3%nat /\ having 0 labels2 = 8%nat.
Proof. exact c120_growth_refuted. Qed.
Print Assumptions C120_growth_refuted.

(** One counter-rotating star more, and the spheroid has two more stars, the disk one fewer, with either way of
    drawing. *)
Example EX_C120_more :
  map (fun st => rmap fst (hist_split (pick_any turns) (fun _ => 9%Z) 4 2 st (map (fun z => nlit z 100) [-75; 60; 70; 80]%Z : list F64))) [false; true] =
  [Ok [0; 0; 1; 1]%Z; Ok [0; 1; 1; 0]%Z] /\
  map (fun st => rmap fst (hist_split (pick_any turns) (fun _ => 9%Z) 4 2 st (map (fun z => nlit z 100) [-75; 60; 70; 80; -85]%Z : list F64))) [false; true] =
  [Ok [0; 0; 0; 1; 0]%Z; Ok [0; 1; 0; 0; 0]%Z].
Proof. exact ex_c120_more. Qed.

(** The same with JEHistogram: the added counter-rotating star takes the one of its energy out of the disk. *)
Example EX_C120_energy :
  map (fun st => rmap fst (hist_split (pick_energy (N:=F64) turns (map (fun z => nlit z 10) [-9; -8; -7; -2]%Z) 2) (fun _ => 9%Z) 4 2 st
                   (map (fun z => nlit z 100) [-75; 60; 70; 80]%Z : list F64))) [false; true] =
  [Ok [0; 0; 1; 1]%Z; Ok [0; 1; 0; 1]%Z] /\
  map (fun st => rmap fst (hist_split (pick_energy (N:=F64) turns (map (fun z => nlit z 10) [-9; -8; -7; -2; -3]%Z) 2) (fun _ => 9%Z) 4 2 st
                   (map (fun z => nlit z 100) [-75; 60; 70; 80; -85]%Z : list F64))) [false; true] =
  [Ok [0; 0; 1; 0; 0]%Z; Ok [0; 1; 0; 0; 0]%Z].
Proof. exact ex_c120_energy. Qed.
