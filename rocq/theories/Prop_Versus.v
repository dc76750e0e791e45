(** Property theorems. The decomposers compared with each other on one galaxy (C114). Proofs are in VersusThms.v. *)
From Verif Require Import Py Num RX F64 Np Df Data DataFacts DfFacts CenterFacts Ex Spec DataThms SpecCirc Circ CircFacts CircThms SpecBase Base BaseFacts BaseThms Threshold EpsFacts ThresholdThms SpecHist Hist HistFacts EdgeFacts HistThms EdgeThms EnergyFacts EnergyThms SpecPot SpecMirror MirrorThms SpinThms MixStar WhistFacts SpecVersus VersusThms.
From Coq Require Import Lia Permutation Sorted Floats.SpecFloat.
From Flocq Require Import Core.
Local Open Scope R_scope.

(** JThreshold and JHistogram give a label to the same particles, whatever the cut and the number of bins;
    JEHistogram gives one to no others, and to all of them if some bound particle has an energy other than
    zero. *)
Theorem C114_who : forall (N : Num) (St1 St2 : Type) (choice1 : St1 -> list nat -> nat -> list nat * St1) (choice2 : St2 -> list nat -> nat -> list nat * St2)
    argsort junk0 junk1 junk2 cb (cut : N) n_bin digits n_bin' digits' n_bin_E st1 st2 (g : galaxy N) c0 c1 c2 s0 s1 s2,
  arith N -> draws choice1 -> draws choice2 -> constructible g -> nisnan cut = false ->
  (n_bin <= 2 ^ 53)%Z -> (0 <= digits)%Z -> (n_bin' <= 2 ^ 53)%Z -> (0 <= digits')%Z -> (n_bin_E <= 2 ^ 53)%Z ->
  decompose argsort (jthreshold junk0 cb cut) tt g = Ok (c0, s0) ->
  decompose argsort (jhistogram choice1 junk1 cb n_bin digits) st1 g = Ok (c1, s1) ->
  decompose argsort (jehistogram choice2 junk2 cb n_bin' digits' n_bin_E) st2 g = Ok (c2, s2) ->
  forall i, (i < glen g)%nat ->
    (classified c0 i <-> classified c1 i) /\ (classified c2 i -> classified c1 i) /\ (some_depth g -> classified c1 i -> classified c2 i).
Proof. exact c114_who. Qed.
Print Assumptions C114_who.

(** A star with negative circularity is in the spheroid of all three: of JThreshold if the cut is not negative,
    of JEHistogram if it gives a label at all. *)
Theorem C114_backward : forall (N : Num) (St1 St2 : Type) (choice1 : St1 -> list nat -> nat -> list nat * St1) (choice2 : St2 -> list nat -> nat -> list nat * St2)
    argsort junk0 junk1 junk2 cb (cut : N) n_bin digits n_bin' digits' n_bin_E st1 st2 (g : galaxy N) j c0 c1 c2 s0 s1 s2 k e,
  arith N -> draws choice1 -> draws choice2 -> constructible g -> nle n0 cut = true ->
  (n_bin <= 2 ^ 53)%Z -> (0 <= digits)%Z -> (n_bin' <= 2 ^ 53)%Z -> (0 <= digits')%Z -> (n_bin_E <= 2 ^ 53)%Z ->
  jcirc argsort g (fst cb) (snd cb) = Ok j -> nth_error (jc_eps j) k = Some e -> backward e = true ->
  decompose argsort (jthreshold junk0 cb cut) tt g = Ok (c0, s0) ->
  decompose argsort (jhistogram choice1 junk1 cb n_bin digits) st1 g = Ok (c1, s1) ->
  decompose argsort (jehistogram choice2 junk2 cb n_bin' digits' n_bin_E) st2 g = Ok (c2, s2) ->
  nth_error (c_labels c0) k = Some (nofZ 0) /\ nth_error (c_labels c1) k = Some (nofZ 0) /\
  (classified c2 k -> nth_error (c_labels c2) k = Some (nofZ 0)).
Proof. exact c114_backward. Qed.
Print Assumptions C114_backward.

(** With the same bins of circularity JEHistogram takes no more stars to the spheroid than JHistogram does, in
    any bin, whatever the number of its energy bins and the generators. *)
Theorem C114_cells : forall (N : Num) (St1 St2 : Type) (choice1 : St1 -> list nat -> nat -> list nat * St1) (choice2 : St2 -> list nat -> nat -> list nat * St2)
    argsort junk1 junk2 cb n_bin digits n_bin_E st1 st2 (g : galaxy N) j c1 c2 s1 s2,
  arith N -> draws choice1 -> draws choice2 -> constructible g ->
  (n_bin <= 2 ^ 53)%Z -> (0 <= digits)%Z -> (n_bin_E <= 2 ^ 53)%Z ->
  jcirc argsort g (fst cb) (snd cb) = Ok j ->
  decompose argsort (jhistogram choice1 junk1 cb n_bin digits) st1 g = Ok (c1, s1) ->
  decompose argsort (jehistogram choice2 junk2 cb n_bin digits n_bin_E) st2 g = Ok (c2, s2) ->
  let n := Z.to_nat n_bin in let edges := map (np_round digits) (linspace nm1 n1 n) in
  (forall b, (b < n)%nat -> (tally (counted edges n b) 0 (jc_eps j) c2 <= tally (counted edges n b) 0 (jc_eps j) c1)%nat) /\
  (tally (fun _ => true) 0 (jc_eps j) c2 <= tally (fun _ => true) 0 (jc_eps j) c1)%nat.
Proof. exact c114_cells. Qed.
Print Assumptions C114_cells.

(** The spheroid of JHistogram has all stars of negative circularity and, of the others, no more than there are
    of those; with two bins it has exactly as many as that allows. *)
Theorem C114_sizes : forall (N : Num) (St : Type) (choice : St -> list nat -> nat -> list nat * St) argsort junk cb n_bin digits st (g : galaxy N) j c s,
  arith N -> draws choice -> constructible g -> (n_bin <= 2 ^ 53)%Z -> (0 <= digits)%Z ->
  jcirc argsort g (fst cb) (snd cb) = Ok j ->
  decompose argsort (jhistogram choice junk cb n_bin digits) st g = Ok (c, s) ->
  let most := (having backward (jc_eps j) + Nat.min (having backward (jc_eps j)) (having forward (jc_eps j)))%nat in
  (having backward (jc_eps j) <= tally (fun _ => true) 0 (jc_eps j) c <= most)%nat /\
  (n_bin = 2%Z -> tally (fun _ => true) 0 (jc_eps j) c = most).
Proof. exact c114_sizes. Qed.
Print Assumptions C114_sizes.

(** So no number of bins makes the spheroid larger than two bins do. *)
Theorem C114_coarse : forall (N : Num) (St1 St2 : Type) (choice1 : St1 -> list nat -> nat -> list nat * St1) (choice2 : St2 -> list nat -> nat -> list nat * St2)
    argsort junk1 junk2 cb n_bin digits digits' st1 st2 (g : galaxy N) j c1 c2 s1 s2,
  arith N -> draws choice1 -> draws choice2 -> constructible g -> (n_bin <= 2 ^ 53)%Z -> (0 <= digits)%Z -> (0 <= digits')%Z ->
  jcirc argsort g (fst cb) (snd cb) = Ok j ->
  decompose argsort (jhistogram choice1 junk1 cb n_bin digits) st1 g = Ok (c1, s1) ->
  decompose argsort (jhistogram choice2 junk2 cb 2 digits') st2 g = Ok (c2, s2) ->
  (tally (fun _ => true) 0 (jc_eps j) c1 <= tally (fun _ => true) 0 (jc_eps j) c2)%nat.
Proof. exact c114_coarse. Qed.
Print Assumptions C114_coarse.

(** "JEHistogram gives a label to the particles JThreshold and JHistogram give one to": false if all bound
    particles have energy zero, with the default parameters, whatever the generator. *)
Theorem C114_who_refuted : exists (g : galaxy F64) i, constructible g /\ (i < plen (g_stars g))%nat /\
  forall (St : Type) (choice : St -> list nat -> nat -> list nat * St) junk (st : St), exists c0 c1 c2 s1 s2,
    decompose asort (jthreshold junk (default_bin0, default_bin1) (nlit 6 10)) tt g = Ok (c0, tt) /\
    decompose asort (jhistogram choice junk (default_bin0, default_bin1) 100 2) st g = Ok (c1, s1) /\
    decompose asort (jehistogram choice junk (default_bin0, default_bin1) 100 2 20) st g = Ok (c2, s2) /\
    classified c0 i /\ classified c1 i /\ ~ classified c2 i.
Proof. exact c114_who_refuted. Qed.
Print Assumptions C114_who_refuted.

Example EX_C114 :
  [labels_by (jthreshold (fun _ => 9%Z) (default_bin0, default_bin1) (nlit 6 10)) tt;
   labels_by (jhistogram turns (fun _ => 9%Z) (default_bin0, default_bin1) 100 2) false;
   labels_by (jehistogram turns (fun _ => 9%Z) (default_bin0, default_bin1) 100 2 20) false;
   labels_by (jhistogram turns (fun _ => 9%Z) (default_bin0, default_bin1) 2 2) false] =
  [Ok [sZ 1; sZ 0; sZ 0; sZ 0; S754_nan]; Ok [sZ 1; sZ 0; sZ 1; sZ 0; S754_nan];
   Ok [sZ 1; sZ 0; sZ 1; sZ 1; S754_nan]; Ok [sZ 0; sZ 0; sZ 1; sZ 1; S754_nan]].
Proof. exact ex_c114. Qed.

Example EX_C114_tally :
  [tally_by (jhistogram turns (fun _ => 9%Z) (default_bin0, default_bin1) 100 2) false;
   tally_by (jehistogram turns (fun _ => 9%Z) (default_bin0, default_bin1) 100 2 20) false;
   tally_by (jhistogram turns (fun _ => 9%Z) (default_bin0, default_bin1) 2 2) true] =
  [Ok (2, (1, 3)); Ok (1, (1, 3)); Ok (2, (1, 3))]%nat.
Proof. exact ex_c114_tally. Qed.
