(** Property theorems. The histogram decompositions with other numbers of bins in floating point (C105). Proofs are in BinsThms.v. *)
From Verif Require Import Py Num RX F64 Np Df Data DataFacts DfFacts CenterFacts Ex Spec DataThms Circ CircFacts CircThms Base BaseFacts Threshold SpecHist Hist HistFacts HistThms EdgeFacts EdgeThms SpecMirror MirrorThms SpinAccThms SpecAlAcc AlAccFacts SpecSplit SplitThms SpecBins BinsThms.
From Flocq Require Import Core.
From Coq Require Import Lra Lia Znumtheory Classical_Prop Floats.SpecFloat.
Local Open Scope R_scope.

(** The computed edges are the exact ones, each rounded once. *)
Theorem C105_edges : forall sm n_bin digits i, (1 <= n_bin)%Z -> no_ties n_bin digits -> (0 <= i <= n_bin)%Z ->
  val (F64_rounded sm) (nth (Z.to_nat i) (map (np_round digits) (linspace (nm1 : F64s sm) n1 (Z.to_nat n_bin))) nnan) =
  rnd (F64_rounded sm) (XR (decimal_edge n_bin digits i)).
Proof. exact c105_edges. Qed.
Print Assumptions C105_edges.

(** JHistogram: labels, generator and errors are those of exact arithmetic on the same circularities. *)
Theorem C105_jhistogram : forall (sm : list f64 -> f64) (St : Type) choice junk cb cb' n_bin digits (st : St) (X : matrix (F64s sm)) y y' a a',
  no_ties n_bin digits ->
  (forall row, In row X -> exists x, nth_error row 0 = Some (CNum x) /\ off_decimals sm n_bin digits (val (F64_rounded sm) x)) ->
  outcome (d_split (jhistogram choice junk cb n_bin digits) st X y a) =
  outcome (d_split (jhistogram (N:=RX) choice junk cb' n_bin digits) st (exact_matrix X) y' a').
Proof. exact c105_jhistogram. Qed.
Print Assumptions C105_jhistogram.

(** JEHistogram: the same with any number of energy bins. *)
Theorem C105_jehistogram : forall (sm : list f64 -> f64) (St : Type) choice junk cb cb' n_bin digits n_bin_E (st : St) (X : matrix (F64s sm)) y y' a a',
  no_ties n_bin digits -> (n_bin_E <= 2 ^ 53)%Z ->
  (forall row, In row X -> exists en x, nth_error row 0 = Some (CNum en) /\ nth_error row 1 = Some (CNum x) /\
     off_parts n_bin_E (val (F64_rounded sm) en) /\ off_decimals sm n_bin digits (val (F64_rounded sm) x)) ->
  outcome (d_split (jehistogram choice junk cb n_bin digits n_bin_E) st X y a) =
  outcome (d_split (jehistogram (N:=RX) choice junk cb' n_bin digits n_bin_E) st (exact_matrix X) y' a').
Proof. exact c105_jehistogram. Qed.
Print Assumptions C105_jehistogram.

(** Under these conditions the paired bins mirror each other in floating point exactly when they do in exact
    arithmetic (C78). *)
Theorem C105_mirror : forall sm n_bin digits bin0, (1 <= n_bin)%Z -> no_ties n_bin digits ->
  let edges := map (np_round (N:=F64s sm) digits) (linspace nm1 n1 (Z.to_nat n_bin)) in
  zero_edge edges bin0 ->
  (reflects edges bin0 <-> Z.Even n_bin /\ (n_bin < 4 * 10 ^ digits)%Z) /\
  (reflects edges bin0 -> n_bin = (2 * Z.of_nat bin0)%Z).
Proof. exact c105_mirror. Qed.
Print Assumptions C105_mirror.

(** Thirty bins, whose edges -0.93, -0.87, -0.8, ... are rounded points: of the circularities 0.05, 0.05, 0.1, -0.05, 0.95 and
    -0.95 one of the first two is drawn into the spheroid, in floating point and in exact arithmetic.  Seven bins have no zero edge. *)
Example EX_C105 : let sm := seqsum 53 1024 p53 e1024 in
  no_ties 30 2 /\ no_ties 7 2 /\
  (forall row, In row (hundredths [5; 5; 10; -5; 95; -95]%Z) -> exists x, nth_error row 0 = Some (CNum x) /\
     off_decimals sm 30 2 (val (F64_rounded sm) x) /\ off_decimals sm 7 2 (val (F64_rounded sm) x)) /\
  outcome (d_split (jhistogram (N:=RX) firsts (fun _ => 7%Z) (XR 0, XR 0) 30 2) 0%nat (exact_matrix (hundredths [5; 5; 10; -5; 95; -95]%Z)) [] []) = Ok ([0; 1; 1; 0; 0; 0]%Z, 2%nat) /\
  outcome (d_split (jhistogram (N:=RX) firsts (fun _ => 7%Z) (XR 0, XR 0) 7 2) 0%nat (exact_matrix (hundredths [5; 5; 10; -5; 95; -95]%Z)) [] []) = Raise IndexError.
Proof. exact ex_c105. Qed.

(** Pairs of an energy in quarters and a circularity in hundredths, with thirty bins and seven energy bins: a star of energy -3/4
    is drawn, the one of energy -1/4 is taken, to match two counter-rotating stars. *)
Example EX_C105_energy : let sm := seqsum 53 1024 p53 e1024 in
  (forall row, In row (quarters quarters105) -> exists en x, nth_error row 0 = Some (CNum en) /\ nth_error row 1 = Some (CNum x) /\
     off_parts 7 (val (F64_rounded sm) en) /\ off_decimals sm 30 2 (val (F64_rounded sm) x)) /\
  outcome (d_split (jehistogram (N:=RX) firsts (fun _ => 7%Z) (XR 0, XR 0) 30 2 7) 0%nat (exact_matrix (quarters quarters105)) [] []) = Ok ([0; 1; 0; 1; 0; 0]%Z, 1%nat).
Proof. exact ex_c105_energy. Qed.

(** Thirty bins are paired with their reflections; eighty are not (C78), having ties. *)
Example EX_C105_mirror : forall sm, no_ties 30 2 /\ zero_edge (map (np_round (N:=F64s sm) 2) (linspace nm1 n1 (Z.to_nat 30))) 15 /\ ~ no_ties 80 2.
Proof. exact ex_c105_mirror. Qed.
