(** Property theorems. The tolerance [c_bic] of AutoGaussianMixture and the number of Gaussians (C117). Proofs are in BicThms.v. *)
From Verif Require Import Py Num RX F64 Np Df Data DataFacts DfFacts CenterFacts Ex Spec DataThms SpecCirc Circ CircFacts CircThms SpecBase Base BaseFacts BaseThms Threshold EpsFacts Hist SpecMix Center Mixture MixFacts MixStar MixThms BicThms.
From Coq Require Import Floats.SpecFloat Permutation Sorted Reals Lra Lia.

(** If the split succeeds with the tolerance [c], then a larger tolerance finds a number of Gaussians too, and no
    larger one, from the same trials, whatever the order in which the fits finish. *)
Theorem C117_monotone : forall (N : Num) (RN : Rounded N) (H St : Type) gm_fit gm_fit_seed randint order order' (c c' : N) (self : string -> H) (st : St) (X : matrix N) labels p st',
  (forall s k, length (fst (randint s k)) = k) -> Permutation order (seq 0 14) -> Permutation order' (seq 0 14) ->
  nle c c' = true ->
  auto_split gm_fit gm_fit_seed randint order c self st X = Ok (labels, p, st') ->
  exists bics m m' kw kw' f, length bics = 14%nat /\
    (forall t b, nth_error bics t = Some b -> trial gm_fit_seed self X (fst (randint st 14%nat)) t b) /\
    smallest (good_enough c bics) m /\ smallest (good_enough c' bics) m' /\ (m' <= m)%nat /\
    passes kw "n_components" (KInt (Z.of_nat m)) mixture_names (fun a => KUser (self a)) /\
    passes kw' "n_components" (KInt (Z.of_nat m')) mixture_names (fun a => KUser (self a)) /\
    gm_fit kw (snd (randint st 14%nat)) X = Ok (f, st') /\ group f X = Ok (labels, p) /\
    (forall f2 st2 labels2 p2, gm_fit kw' (snd (randint st 14%nat)) X = Ok (f2, st2) -> group f2 X = Ok (labels2, p2) ->
       auto_split gm_fit gm_fit_seed randint order' c' self st X = Ok (labels2, p2, st2)) /\
    (m' = m -> auto_split gm_fit gm_fit_seed randint order' c' self st X = Ok (labels, p, st')).
Proof. exact c117_monotone. Qed.
Print Assumptions C117_monotone.

(** If the values never rise from one number of Gaussians to the next, the number used is where they settle: exactly
    the numbers from it upwards are good enough. *)
Theorem C117_settled : forall (N : Num) (RN : Rounded N) (H St : Type) gm_fit gm_fit_seed randint order (c : N) (self : string -> H) (st : St) (X : matrix N) labels p st',
  (forall s k, length (fst (randint s k)) = k) -> Permutation order (seq 0 14) ->
  (forall t b b', trial gm_fit_seed self X (fst (randint st 14%nat)) t b -> trial gm_fit_seed self X (fst (randint st 14%nat)) (S t) b' -> nfin b' = true /\ nle b' b = true) ->
  auto_split gm_fit gm_fit_seed randint order c self st X = Ok (labels, p, st') ->
  exists bics m kw f, length bics = 14%nat /\
    (forall t b, nth_error bics t = Some b -> trial gm_fit_seed self X (fst (randint st 14%nat)) t b) /\
    (2 <= m <= 15)%nat /\ (forall n, good_enough c bics n <-> (m <= n <= 15)%nat) /\
    passes kw "n_components" (KInt (Z.of_nat m)) mixture_names (fun a => KUser (self a)) /\
    gm_fit kw (snd (randint st 14%nat)) X = Ok (f, st') /\ group f X = Ok (labels, p).
Proof. exact c117_settled. Qed.
Print Assumptions C117_settled.

(** In exact arithmetic a constant added to all the values changes nothing. *)
Theorem C117_offset : forall (bs : list R) (a c : R) m, length bs = 14%nat ->
  (good_enough (N:=RX) (XR c) (map XR (map (Rplus a) bs)) m <-> good_enough (N:=RX) (XR c) (map XR bs) m).
Proof. exact c117_offset. Qed.
Print Assumptions C117_offset.

(** In binary64 it can: 2^52 added to the values of the example below. *)
Theorem C117_offset_refuted : exists (bics : list F64) (a c : F64) m m', length bics = 14%nat /\ (forall b, In b (a :: c :: bics) -> nfin b = true) /\
  smallest (good_enough c bics) m /\ smallest (good_enough c (map (nadd a) bics)) m' /\ m <> m'.
Proof. exact c117_offset_refuted. Qed.
Print Assumptions C117_offset_refuted.

(** "A number above a good enough one is good enough": false if the values rise somewhere. *)
Theorem C117_settled_refuted : exists (bics : list F64) (c : F64) m n, length bics = 14%nat /\ (forall b, In b (c :: bics) -> nfin b = true /\ nle n0 b = true) /\
  smallest (good_enough c bics) m /\ (m < n <= 15)%nat /\ ~ good_enough c bics n.
Proof. exact c117_settled_refuted. Qed.
Print Assumptions C117_settled_refuted.

(** The toy fits of [ex_c48_split], whose values fall by 1/2 with every Gaussian: with tolerances 1/2, 1 and 3 twelve,
    eleven and seven Gaussians are used. *)
Example EX_C117 :
  map (fun c => rmap (fun r => snd r) (auto_split (N:=F64) toy_gm toy_seed (toy_randint 8) (seq 0 14) c (fun a => a) 0 toy_rows)) [nlit 1 2; n1; nofZ 3] = repeat (Ok 101%nat) 3 /\
  map (fun c => choose_number (N:=F64) c (map (fun z => nlit z 2) [18; 17; 16; 15; 14; 13; 12; 11; 10; 9; 8; 7; 6; 5]%Z)) [nlit 1 2; n1; nofZ 3] = [Ok 12; Ok 11; Ok 7]%Z.
Proof. exact ex_c117. Qed.

(** Their values are finite and never rise. *)
Example EX_C117_falls : forall t b b', trial (N:=F64) toy_seed (fun a : string => a) toy_rows (fst (toy_randint 8 0 14)) t b ->
  trial toy_seed (fun a : string => a) toy_rows (fst (toy_randint 8 0 14)) (S t) b' -> nfin b' = true /\ nle b' b = true.
Proof. exact ex_c117_falls. Qed.
