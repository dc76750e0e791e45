(** Property theorems. The histogram decompositions in floating point are those of exact arithmetic (C85). Proofs are in SplitThms.v. *)
From Verif Require Import Py Num RX F64 Np Df Data DataFacts DfFacts CenterFacts Ex Spec DataThms Circ CircFacts CircThms Base BaseFacts Threshold SpecHist Hist HistFacts HistThms EdgeFacts MirrorThms SpinAccThms SpecSplit SplitThms.
From Flocq Require Import Core.
From Coq Require Import Lra Lia Floats.SpecFloat.
Local Open Scope R_scope.

(** JHistogram with the default bins: the labels and the generator are those of exact
    arithmetic on the same circularities, unless one of these is the double next to an edge
    that is no double itself. *)
Theorem C85_jhistogram : forall (sm : list f64 -> f64) (St : Type) choice junk cb cb' (st : St) (X : matrix (F64s sm)) y y' a a',
  (forall row, In row X -> exists x, nth_error row 0 = Some (CNum x) /\ off_edges sm (val (F64_rounded sm) x)) ->
  outcome (d_split (jhistogram choice junk cb 100 2) st X y a) =
  outcome (d_split (jhistogram (N:=RX) choice junk cb' 100 2) st (exact_matrix X) y' a').
Proof. exact c85_jhistogram. Qed.
Print Assumptions C85_jhistogram.

(** JEHistogram with the default bins: the same, if besides no energy is within 2^-52 of an
    inner energy edge. *)
Theorem C85_jehistogram : forall (sm : list f64 -> f64) (St : Type) choice junk cb cb' (st : St) (X : matrix (F64s sm)) y y' a a',
  (forall row, In row X -> exists en x, nth_error row 0 = Some (CNum en) /\ nth_error row 1 = Some (CNum x) /\
     off_energies (val (F64_rounded sm) en) /\ off_edges sm (val (F64_rounded sm) x)) ->
  outcome (d_split (jehistogram choice junk cb 100 2 20) st X y a) =
  outcome (d_split (jehistogram (N:=RX) choice junk cb' 100 2 20) st (exact_matrix X) y' a').
Proof. exact c85_jehistogram. Qed.
Print Assumptions C85_jehistogram.

(** Circularities 0.07, 0.07, 0.05, -0.07, 1 and -1: one of the first two is drawn into the
    spheroid, in floating point and in exact arithmetic. *)
Example EX_C85 :
  (forall row, In row (hundredths [7; 7; 5; -7; 100; -100]%Z) -> exists x, nth_error row 0 = Some (CNum x) /\ off_edges (seqsum 53 1024 p53 e1024) (val (F64_rounded (seqsum 53 1024 p53 e1024)) x)) /\
  outcome (d_split (jhistogram (N:=RX) firsts (fun _ => 7%Z) (XR 0, XR 0) 100 2) 0%nat (exact_matrix (hundredths [7; 7; 5; -7; 100; -100]%Z)) [] []) = Ok ([0; 1; 1; 0; 0; 0]%Z, 2%nat).
Proof. exact ex_c85. Qed.

(** The condition is needed: the circularity 0.06, as a double, is below the exact edge but
    in the bin that begins there. *)
Theorem C85_edge_refuted : exists (X : matrix F64) y y' a a', (forall row, In row X -> exists x, nth_error row 0 = Some (CNum x)) /\
  outcome (d_split (jhistogram firsts (fun _ => 7%Z) (n0, n0) 100 2) 0%nat X y a) = Ok ([0; 0]%Z, 0%nat) /\
  outcome (d_split (jhistogram (N:=RX) firsts (fun _ => 7%Z) (XR 0, XR 0) 100 2) 0%nat (exact_matrix (sm:=seqsum 53 1024 p53 e1024) X) y' a') = Ok ([1; 0]%Z, 1%nat).
Proof. exact c85_edge_refuted. Qed.
Print Assumptions C85_edge_refuted.

(** Pairs of an energy and a circularity, in hundredths: two rotating stars, the second by a
    draw, are taken to match two counter-rotating ones at energies -0.93 and -0.51, in floating
    point and in exact arithmetic. *)
Example EX_C85_energy :
  (forall row, In row (pairs100 pairs85) -> exists en x, nth_error row 0 = Some (CNum en) /\ nth_error row 1 = Some (CNum x) /\
     off_energies (val (F64_rounded (seqsum 53 1024 p53 e1024)) en) /\ off_edges (seqsum 53 1024 p53 e1024) (val (F64_rounded (seqsum 53 1024 p53 e1024)) x)) /\
  outcome (d_split (jehistogram (N:=RX) firsts (fun _ => 7%Z) (XR 0, XR 0) 100 2 20) 0%nat (exact_matrix (pairs100 pairs85)) [] []) = Ok ([0; 0; 1; 1; 0; 0]%Z, 1%nat).
Proof. exact ex_c85_energy. Qed.
