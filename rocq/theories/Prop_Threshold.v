(** Property theorems. Threshold decomposition (C40). Proofs are in ThresholdThms.v. *)
From Verif Require Import Py Num RX F64 Np Df Data DataFacts DfFacts CenterFacts Ex Spec DataThms SpecCirc Circ CircFacts CircThms SpecBase Base BaseFacts BaseThms Threshold EpsFacts ThresholdThms.
From Coq Require Import Floats.SpecFloat.

(** decompose labels a star 1 if its circularity exceeds the cut, 0 if it does not, and NaN
    if its circularity is not finite; dark matter and gas get NaN; there are no
    probabilities. *)
Theorem C40_rule : forall (N : Num) (RN : Rounded N) argsort junk cb (cut : N) (g : galaxy N) c st',
  constructible g -> nisnan cut = false -> decompose argsort (jthreshold junk cb cut) tt g = Ok (c, st') ->
  c_probs c = None /\
  exists j, jcirc argsort g (fst cb) (snd cb) = Ok j /\
  forall i p k, located g i p k -> exists w, nth_error (c_labels c) i = Some w /\
    (p_type p = STARS -> exists e, nth_error (jc_eps j) k = Some e /\
       ((nfin e = true /\ nlt cut e = true /\ w = nofZ 1) \/
        (nfin e = true /\ nle e cut = true /\ w = nofZ 0) \/
        (nfin e = false /\ w = nnan))) /\
    (p_type p <> STARS -> w = nnan).
Proof. exact c40_rule. Qed.
Print Assumptions C40_rule.

(** decompose fails exactly as jcirc does, and what it returns does not depend on the
    uninitialised memory the labels are built in. *)
Theorem C40_total : forall (N : Num) (RN : Rounded N) argsort junk cb (cut : N) (g : galaxy N), constructible g ->
  (forall e, jcirc argsort g (fst cb) (snd cb) = Raise e -> decompose argsort (jthreshold junk cb cut) tt g = Raise e) /\
  (forall j, jcirc argsort g (fst cb) (snd cb) = Ok j ->
     exists c, decompose argsort (jthreshold junk cb cut) tt g = Ok (c, tt) /\
       (nisnan cut = false -> forall junk', decompose argsort (jthreshold junk' cb cut) tt g = Ok (c, tt))).
Proof. exact c40_total. Qed.
Print Assumptions C40_total.

(** Raising the cut never moves a particle into the disk. *)
Theorem C40_monotone : forall (N : Num) (RN : Rounded N) argsort junk junk' cb (cut cut' : N) (g : galaxy N) c c' st st' i,
  constructible g -> nle cut cut' = true ->
  decompose argsort (jthreshold junk cb cut) tt g = Ok (c, st) ->
  decompose argsort (jthreshold junk' cb cut') tt g = Ok (c', st') ->
  nth_error (c_labels c') i = Some (nofZ 1) -> nth_error (c_labels c) i = Some (nofZ 1).
Proof. exact c40_monotone. Qed.
Print Assumptions C40_monotone.

(** C40: the same from the constructor: what the class is given are the bins and the cut that decide. *)
Theorem C40_constructed : forall (N : Num) (RN : Rounded N) argsort junk (b0 b1 cut : N) v D (g : galaxy N) c st',
  constructible g -> (v = HPy (PyFloat cut) \/ exists z, v = HPy (PyInt z) /\ cut = nofZ z) -> nisnan cut = false ->
  mk_jthreshold junk (HTuple [PyFloat b0; PyFloat b1]) v = Ok D -> decompose argsort D tt g = Ok (c, st') ->
  c_probs c = None /\
  exists j, jcirc argsort g b0 b1 = Ok j /\
  forall i p k, located g i p k -> exists w, nth_error (c_labels c) i = Some w /\
    (p_type p = STARS -> exists e, nth_error (jc_eps j) k = Some e /\
       ((nfin e = true /\ nlt cut e = true /\ w = nofZ 1) \/
        (nfin e = true /\ nle e cut = true /\ w = nofZ 0) \/
        (nfin e = false /\ w = nnan))) /\
    (p_type p <> STARS -> w = nnan).
Proof. exact c40_constructed. Qed.
Print Assumptions C40_constructed.

(** eps_cut = NaN passes the validator, and then the label of every star with a finite
    circularity is whatever the memory held: for each of them and each value there is a
    content of the memory for which it gets that value. *)
Theorem C40_uninitialised : forall (N : Num) (RN : Rounded N) argsort (b0 b1 : N) (g : galaxy N) j, constructible g ->
  jcirc argsort g b0 b1 = Ok j ->
  exists D : (nat -> Z) -> decomposer N unit,
    (forall junk, mk_jthreshold junk (HTuple [PyFloat b0; PyFloat b1]) (HPy (PyFloat nnan)) = Ok (D junk)) /\
    forall k e, nth_error (jc_eps j) k = Some e -> nfin e = true ->
      forall z, exists junk c, decompose argsort (D junk) tt g = Ok (c, tt) /\ nth_error (c_labels c) k = Some (nofZ z).
Proof. exact c40_uninitialised. Qed.
Print Assumptions C40_uninitialised.

(** The sample galaxy: circularities 1, 1, -1, NaN, NaN for its stars. *)
Example EX_C40 :
  map (fun cut => rmap (fun r => shows (c_labels (fst r)))
         (do g <- sampleG; decompose asort (jthreshold (fun _ => 77%Z) (default_bin0, default_bin1) cut) tt g))
      [nlit 3 5; n1; nm1; nnan] =
  [Ok [sZ 1; sZ 1; sZ 0; S754_nan; S754_nan; S754_nan; S754_nan; S754_nan];
   Ok [sZ 0; sZ 0; sZ 0; S754_nan; S754_nan; S754_nan; S754_nan; S754_nan];
   Ok [sZ 1; sZ 1; sZ 0; S754_nan; S754_nan; S754_nan; S754_nan; S754_nan];
   Ok [sZ 77; sZ 77; sZ 77; S754_nan; S754_nan; S754_nan; S754_nan; S754_nan]].
Proof. exact ex_c40. Qed.

Example EX_C40_constructed :
  map (fun v => rmap (fun r => shows (c_labels (fst r)))
         (do g <- sampleG; do D <- mk_jthreshold (fun _ => 77%Z) (HTuple [PyFloat default_bin0; PyFloat default_bin1]) v;
          decompose asort D tt g))
      [HPy (PyFloat (nlit 3 5)); HPy (PyInt 1)] =
  [Ok [sZ 1; sZ 1; sZ 0; S754_nan; S754_nan; S754_nan; S754_nan; S754_nan];
   Ok [sZ 0; sZ 0; sZ 0; S754_nan; S754_nan; S754_nan; S754_nan; S754_nan]].
Proof. exact ex_c40_constructed. Qed.
