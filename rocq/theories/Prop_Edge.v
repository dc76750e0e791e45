(** Property theorems. When the histogram decompositions find a zero edge (C43). Proofs are in EdgeThms.v. *)
From Verif Require Import Py Num RX F64 Np Df Data DataFacts DfFacts CenterFacts Ex Spec DataThms SpecCirc Circ CircFacts CircThms SpecBase Base BaseFacts BaseThms Threshold EpsFacts ThresholdThms SpecHist Hist HistFacts EdgeFacts HistThms EdgeThms.
From Flocq Require Import Core.
From Coq Require Import Lia.
Local Open Scope R_scope.

(** split fails exactly when the number of bins is not positive (ValueError) or no rounded
    edge is zero (IndexError); otherwise it returns whatever the generator does. *)
Theorem C43_returns : forall (N : Num) (St : Type) choice junk n_bin digits (eps : list N) (st : St),
  arith N -> draws choice -> (n_bin <= 2 ^ 53)%Z -> (0 <= digits)%Z ->
  let edges := map (np_round digits) (linspace (nm1 : N) n1 (Z.to_nat n_bin)) in
  ((n_bin < 1)%Z -> hist_split (pick_any choice) junk n_bin digits st eps = Raise ValueError) /\
  ((1 <= n_bin)%Z -> (forall e, In e edges -> neqb e n0 = false) ->
     hist_split (pick_any choice) junk n_bin digits st eps = Raise IndexError) /\
  ((1 <= n_bin)%Z -> (exists e, In e edges /\ neqb e n0 = true) ->
     exists labels st', hist_split (pick_any choice) junk n_bin digits st eps = Ok (labels, st')).
Proof. exact c43_returns. Qed.
Print Assumptions C43_returns.

(** In exact arithmetic the edges are the points -1 + 2 i / n rounded to the nearest decimal,
    and one of them is zero exactly for an even number of bins or at least 2 * 10^digits
    bins. *)
Theorem C43_exact : forall n_bin digits, (1 <= n_bin)%Z -> (0 <= digits)%Z ->
  let n := Z.to_nat n_bin in let edges := map (np_round (N:=RX) digits) (linspace nm1 n1 n) in
  length edges = S n /\
  (forall i, (i <= n)%nat -> nth i edges nnan =
     XR (IZR (ZnearestE ((-1 + 2 * IZR (Z.of_nat i) / IZR n_bin) * IZR (10 ^ digits))) / IZR (10 ^ digits))) /\
  ((exists e, In e edges /\ neqb e n0 = true) <-> (Z.Even n_bin \/ (2 * 10 ^ digits <= n_bin)%Z)).
Proof. exact c43_exact. Qed.
Print Assumptions C43_exact.

(** With up to 15 digits an even number of bins always has a zero edge, in exact and in
    binary64 arithmetic. *)
Theorem C43_even : forall (N : Num) n_bin digits, arith N -> (1 <= n_bin <= 2 ^ 53)%Z -> Z.Even n_bin -> (0 <= digits <= 15)%Z ->
  exists e, In e (map (np_round digits) (linspace (nm1 : N) n1 (Z.to_nat n_bin))) /\ neqb e n0 = true.
Proof. exact c43_even. Qed.
Print Assumptions C43_even.

(** With 16 digits it fails: 98 bins, though even, have no zero edge in binary64. *)
Theorem C43_even_refuted : exists n_bin digits, Z.Even n_bin /\ (1 <= n_bin <= 2 ^ 53)%Z /\ (0 <= digits)%Z /\
  forall St choice junk (eps : list F64) (st : St), hist_split (pick_any choice) junk n_bin digits st eps = Raise IndexError.
Proof. exact c43_even_refuted. Qed.
Print Assumptions C43_even_refuted.

(** With a negative number of digits every edge rounds to zero (or to NaN), and split always
    fails: AttributeError, because the empty spheroid is still a list, or IndexError. *)
Theorem C43_negative : forall (N : Num) (St : Type) choice junk n_bin digits (eps : list N) (st : St),
  arith N -> (1 <= n_bin <= 2 ^ 53)%Z -> (digits < 0)%Z ->
  hist_split (pick_any choice) junk n_bin digits st eps = Raise AttributeError \/
  hist_split (pick_any choice) junk n_bin digits st eps = Raise IndexError.
Proof. exact c43_negative. Qed.
Print Assumptions C43_negative.

(** The same for decompose: it fails as jcirc does, or because there is no positive number
    of bins or no zero edge, and in no other case. *)
Theorem C43_decompose : forall (N : Num) (St : Type) choice argsort junk cbins n_bin digits (st : St) (g : galaxy N),
  arith N -> draws choice -> constructible g -> (n_bin <= 2 ^ 53)%Z -> (0 <= digits)%Z ->
  let edges := map (np_round digits) (linspace (nm1 : N) n1 (Z.to_nat n_bin)) in
  let r := decompose argsort (jhistogram choice junk cbins n_bin digits) st g in
  (forall e, jcirc argsort g (fst cbins) (snd cbins) = Raise e -> r = Raise e) /\
  (forall j, jcirc argsort g (fst cbins) (snd cbins) = Ok j ->
    ((n_bin < 1)%Z -> r = Raise ValueError) /\
    ((1 <= n_bin)%Z -> (forall e, In e edges -> neqb e n0 = false) -> r = Raise IndexError) /\
    ((1 <= n_bin)%Z -> (exists e, In e edges /\ neqb e n0 = true) -> exists c st', r = Ok (c, st') /\ c_probs c = None)).
Proof. exact c43_decompose. Qed.
Print Assumptions C43_decompose.

(** Pairs of n_bin and digits, and how split ends. *)
Example EX_C43 :
  map (fun p => exn_of (hist_split (pick_any turns) (fun _ => 9%Z) (fst p) (snd p) false tenE))
      [(100, 2); (0, 2); (3, 2); (3, 0); (1, 0); (19, 1); (21, 1); (98, 15); (98, 16); (4, -1); (2, -400)]%Z =
  [None; Some ValueError; Some IndexError; None; Some IndexError; Some IndexError; None; None; Some IndexError; Some AttributeError; Some IndexError].
Proof. exact ex_c43. Qed.
