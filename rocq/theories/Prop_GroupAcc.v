(** Property theorems. Accuracy of AutoGaussianMixture in floating point (C83). Proofs are in GroupAccThms.v. *)
From Verif Require Import Py Num RX F64 Np Df Data DataFacts DfFacts CenterFacts Ex Spec DataThms SpecCirc Circ CircFacts CircThms SpecBase Base BaseFacts BaseThms Threshold EpsFacts Hist SpecMix Center Mixture MixFacts MixStar MixThms CurveFacts AccFacts SpecAlAcc AlAccFacts CtrAccThms SpinAccThms SpecGroup GroupAccThms.
From Flocq Require Import Core.
From Coq Require Import Lra Lia Permutation Floats.SpecFloat.
Local Open Scope R_scope.

(** In binary64: the probability of each structure is the exact sum of those of its Gaussians
    up to one rounding step for each Gaussian; the four add up to the total up to that; and the
    label is the structure with the greatest exact probability if it leads by more than that. *)
Theorem C83_shares : forall (sm : list f64 -> f64) (f : fitted (F64s sm)) (X : matrix (F64s sm)) labels p q,
  group f X = Ok (labels, p) -> f_proba f X = Ok q -> length (pr_rows q) = length X -> (Z.of_nat (f_n f) <= 2 ^ 52)%Z ->
  forall r qrow qs, nth_error (pr_rows q) r = Some qrow -> map (val (F64_rounded sm)) qrow = map XR qs -> length qs = f_n f ->
  (forall x, In x qs -> 0 <= x) -> Rsum qs <= IZR (2 ^ 1000) ->
  let d := INR (f_n f) / IZR (2 ^ 52) in
  let S k := share k (f_n f) (f_means f) qs in
  exists row ps z, nth_error (pr_rows p) r = Some row /\ map (val (F64_rounded sm)) row = map XR ps /\ nth_error labels r = Some (Z.of_nat z) /\
    Forall2 (fun k x => Rabs (x - S k) <= d * S k) kinds ps /\
    ((forall i, (i < f_n f)%nat -> nisnan (coord (f_means f) i 0) = false /\ nisnan (coord (f_means f) i 1) = false) ->
       S Halo + S Bulge + S ColdDisk + S WarmDisk = Rsum qs /\ Rabs (Rsum ps - Rsum qs) <= d * Rsum qs) /\
    (forall k K, nth_error kinds k = Some K -> (forall K', K' <> K -> S K' + d * (S K + S K') < S K) -> z = k).
Proof. exact c83_shares. Qed.
Print Assumptions C83_shares.

(** In binary64, with [np.sum] adding from left to right: numbers of Gaussians whose value is
    clearly below or clearly above the cut are accepted or rejected as in exact arithmetic; if
    that is so of all, the number used is the smallest that exact arithmetic accepts; and some
    number is found whenever the cut is not below the rounding errors. *)
Theorem C83_number : forall (bics : list F64) (bs : list R) (B : R) (cut : F64) (c : R),
  length bics = 14%nat -> map (val (F64_rounded (seqsum 53 1024 p53 e1024))) bics = map XR bs -> (forall b, In b bs -> Rabs b <= B) ->
  bpow radix2 (-800) <= B <= bpow radix2 800 -> val (F64_rounded (seqsum 53 1024 p53 e1024)) cut = XR c ->
  let d := B / IZR (2 ^ 47) in
  (forall m, (2 <= m <= 15)%nat -> (excess bs m <= c - d -> good_enough cut bics m) /\ (c + d < excess bs m -> ~ good_enough cut bics m)) /\
  ((forall m, (2 <= m <= 15)%nat -> excess bs m <= c - d \/ c + d < excess bs m) ->
   (forall m, smallest (fun m => (2 <= m <= 15)%nat /\ excess bs m <= c) m -> choose_number cut bics = Ok (Z.of_nat m)) /\
   ((forall m, (2 <= m <= 15)%nat -> c < excess bs m) -> choose_number cut bics = Raise ValueError)) /\
  (d <= c -> exists m, choose_number cut bics = Ok (Z.of_nat m)).
Proof. exact c83_number. Qed.
Print Assumptions C83_number.

(** The shares of the five Gaussians of [toy_fit], and the bulge leading. *)
Example EX_C83 : exists labels p q,
  group (toy_fit 5) toy_rows = Ok (labels, p) /\ f_proba (toy_fit 5) toy_rows = Ok q /\ length (pr_rows q) = length toy_rows /\
  let qs := [3 / 16; 1 / 16; 4 / 16; 2 / 16; 6 / 16] in
  nth_error (pr_rows q) 0 = Some toy_row /\ map (val (F64_rounded (seqsum 53 1024 p53 e1024))) toy_row = map XR qs /\
  let S k := share k (f_n (toy_fit 5)) (f_means (toy_fit 5)) qs in
  S Halo = 2 / 16 /\ S Bulge = 6 / 16 /\ S ColdDisk = 3 / 16 /\ S WarmDisk = 5 / 16 /\
  (forall K', K' <> Bulge -> S K' + 5 / IZR (2 ^ 52) * (S Bulge + S K') < S Bulge) /\ nth_error labels 0 = Some 1%Z.
Proof. exact ex_c83. Qed.

(** Without the margin the label is not that of exact arithmetic: here the warm disk has the
    strictly greatest share, and the particle is given to the cold disk. *)
Theorem C83_label_refuted : exists (f : fitted F64) (X : matrix F64) labels p q qrow qs,
  group f X = Ok (labels, p) /\ f_proba f X = Ok q /\ length (pr_rows q) = length X /\ nth_error (pr_rows q) 0 = Some qrow /\
  map (val (F64_rounded (seqsum 53 1024 p53 e1024))) qrow = map XR qs /\ length qs = f_n f /\ (forall x, In x qs -> 0 <= x) /\
  (forall K', K' <> WarmDisk -> share K' (f_n f) (f_means f) qs < share WarmDisk (f_n f) (f_means f) qs) /\
  nth_error labels 0 = Some 2%Z.
Proof. exact c83_label_refuted. Qed.
Print Assumptions C83_label_refuted.

(** A cut of one half: five Gaussians, decided far from the margin. *)
Example EX_C83_number :
  let bs := map (fun z => IZR z) [9; 5; 3; 1; 2; 1; 1; 1; 1; 1; 1; 1; 1; 1]%Z in
  let bics : list F64 := map nofZ [9; 5; 3; 1; 2; 1; 1; 1; 1; 1; 1; 1; 1; 1]%Z in
  map (val (F64_rounded (seqsum 53 1024 p53 e1024))) bics = map XR bs /\ (forall b, In b bs -> Rabs b <= 9) /\
  val (F64_rounded (seqsum 53 1024 p53 e1024)) (nlit 1 2 : F64) = XR (1 / 2) /\
  (forall m, (2 <= m <= 15)%nat -> excess bs m <= 1 / 2 - 9 / IZR (2 ^ 47) \/ 1 / 2 + 9 / IZR (2 ^ 47) < excess bs m) /\
  smallest (fun m => (2 <= m <= 15)%nat /\ excess bs m <= 1 / 2) 5 /\ choose_number (nlit 1 2) bics = Ok 5%Z.
Proof. exact ex_c83_number. Qed.
