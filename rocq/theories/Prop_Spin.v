(** Property theorems. The net rotation of the spheroid of the histogram decompositions (C79). Proofs are in SpinThms.v. *)
From Verif Require Import Py Num RX F64 Np Df Data DataFacts DfFacts CenterFacts Ex Spec DataThms SpecCirc Circ CircFacts CircThms SpecBase Base BaseFacts BaseThms Threshold EpsFacts ThresholdThms SpecHist Hist HistFacts EdgeFacts HistThms EdgeThms EnergyFacts EnergyThms SpecPot SpecMirror MirrorThms SpinThms.
From Flocq Require Import Core.
From Coq Require Import Lia Permutation.
Local Open Scope R_scope.

(** The spheroid of either histogram decomposition holds every counter-rotating particle,
    and no more co-rotating ones than those, for any number of bins and digits. *)
Theorem C79_counts : forall (N : Num) (St : Type) choice pick junk n_bin digits (eps : list N) (st : St) labels st',
  arith N -> draws choice -> (n_bin <= 2 ^ 53)%Z -> (0 <= digits)%Z ->
  (pick = pick_any choice \/ exists (energy : list N) n_bin_E, (n_bin_E <= 2 ^ 53)%Z /\ pick = pick_energy choice energy n_bin_E) ->
  (forall e, In e eps -> nle nm1 e = true /\ nle e n1 = true) ->
  hist_split pick junk n_bin digits st eps = Ok (labels, st') ->
  (corot (spheroid eps labels) <= counter eps)%nat /\ counter (spheroid eps labels) = counter eps.
Proof. exact c79_counts. Qed.
Print Assumptions C79_counts.

(** With bins that mirror each other (C78) the circularities of the spheroid add up to at
    most one bin width and one rounding step for each counter-rotating particle; and, if no
    co-rotating bin holds fewer particles than its mirror, to no less than minus that. *)
Theorem C79_net : forall (St : Type) choice junk n_bin digits (eps : list R) (st : St),
  draws choice -> (n_bin <= 2 ^ 53)%Z -> (0 <= digits)%Z -> Z.Even n_bin -> (n_bin < 4 * 10 ^ digits)%Z ->
  (forall e, In e eps -> -1 <= e <= 1) ->
  let w := 2 / IZR n_bin + / IZR (10 ^ digits) in
  let k := INR (length (filter (fun e => if Rlt_dec e 0 then true else false) eps)) in
  (forall pick labels st', (pick = pick_any choice \/ exists (energy : list RX) n_bin_E, (n_bin_E <= 2 ^ 53)%Z /\ pick = pick_energy choice energy n_bin_E) ->
     hist_split pick junk n_bin digits st (map XR eps : list RX) = Ok (labels, st') -> sum_of (spheroid eps labels) <= w * k) /\
  (forall labels st', hist_split (pick_any choice) junk n_bin digits st (map XR eps : list RX) = Ok (labels, st') ->
     let n := Z.to_nat n_bin in let edges := map (np_round (N:=RX) digits) (linspace nm1 n1 n) in
     (forall b l l', (2 * b < n)%nat -> members edges n b (map XR eps : list RX) l -> members edges n (n - 1 - b) (map XR eps : list RX) l' -> (length l <= length l')%nat) ->
     - (w * k) <= sum_of (spheroid eps labels)).
Proof. exact c79_net. Qed.
Print Assumptions C79_net.

(** Ten particles, five of them counter-rotating: the spheroid holds four of the others. *)
Example EX_C79 :
  map (fun st => rmap (fun r => (corot (spheroid tenE (fst r)), counter (spheroid tenE (fst r))))
        (hist_split (pick_any turns) (fun _ => 9%Z) 4 2 st tenE)) [false; true] = [Ok (4, 5); Ok (4, 5)]%nat
  /\ counter tenE = 5%nat /\ forallb (fun e => nle nm1 e && nle e n1) tenE = true.
Proof. exact ex_c79. Qed.

(** Three particles in four bins: a spheroid whose circularities add up to at most 0.51. *)
Example EX_C79_net : exists labels st', hist_split (pick_any turns) (fun _ => 9%Z) 4 2 false (map XR [-(1/4); 1/8; 1/4] : list RX) = Ok (labels, st') /\
  -(51/100) <= sum_of (spheroid [-(1/4); 1/8; 1/4] labels) <= 51/100.
Proof. exact ex_c79_net. Qed.
