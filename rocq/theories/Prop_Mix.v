(** Property theorems. Mixture models and k-means (C47, C48, C49). Proofs are in MixThms.v. *)
From Verif Require Import Py Num RX F64 Np Df Data DataFacts DfFacts CenterFacts Ex Spec DataThms SpecCirc Circ CircFacts CircThms SpecBase Base BaseFacts BaseThms Threshold EpsFacts Hist SpecMix Center Mixture MixFacts MixStar MixThms.
From Coq Require Import Floats.SpecFloat Permutation Sorted Reals Lra Lia.

(** Each point of the plane lies in exactly one of the four regions; a centre with a NaN
    circularity lies in none. *)
Theorem C47_regions : forall (N : Num) (RN : Rounded N) (energy eps : N),
  (nisnan eps = false -> nisnan energy = false -> exists k, belongs k energy eps = true /\ forall k', belongs k' energy eps = true -> k' = k) /\
  (nisnan eps = true -> forall k, belongs k energy eps = false).
Proof. exact c47_regions. Qed.
Print Assumptions C47_regions.

(** Every particle gets the probabilities of the four structures, in the order halo, bulge,
    cold disk, warm disk, and a label from 0 to 3: the first of the most probable. *)
Theorem C47_grouping : forall (N : Num) (RN : Rounded N) (f : fitted N) (X : matrix N) labels p,
  group f X = Ok (labels, p) ->
  exists q, f_proba f X = Ok q /\ pr_width p = 4%nat /\ length (pr_rows p) = length X /\ length labels = length X /\
  (forall r, (r < length X)%nat -> exists z row, nth_error labels r = Some (Z.of_nat z) /\ (z < 4)%nat /\
     nth_error (pr_rows p) r = Some row /\ length row = 4%nat /\
     ((forall v, In v row -> nisnan v = false) -> first_max row z)) /\
  (length (pr_rows q) = length X -> forall r qrow, nth_error (pr_rows q) r = Some qrow ->
     nth_error (pr_rows p) r = Some (map (fun k => from_kind k (f_n f) (f_means f) qrow) kinds)).
Proof. exact c47_grouping. Qed.
Print Assumptions C47_grouping.

(** It returns when scikit-learn's arrays have the shapes they should. *)
Theorem C47_returns : forall (N : Num) (f : fitted N) (X : matrix N) q,
  f_proba f X = Ok q -> length (pr_rows q) = length X -> pr_width q = f_n f -> length (f_means f) = f_n f ->
  (forall m, In m (f_means f) -> length m = 3%nat) ->
  exists labels p, group f X = Ok (labels, p).
Proof. exact c47_returns. Qed.
Print Assumptions C47_returns.

(** In exact arithmetic the four probabilities of a particle add up to the total of its
    component probabilities, if no centre is NaN. *)
Theorem C47_total : forall (f : fitted RX) (X : matrix RX) labels p q,
  group f X = Ok (labels, p) -> f_proba f X = Ok q -> length (pr_rows q) = length X ->
  (forall i, (i < f_n f)%nat -> nisnan (coord (f_means f) i 0) = false /\ nisnan (coord (f_means f) i 1) = false) ->
  forall r qs, nth_error (pr_rows q) r = Some (map XR qs) -> length qs = f_n f ->
  exists h b c w, nth_error (pr_rows p) r = Some (map XR [h; b; c; w]) /\ (h + b + c + w = fold_right Rplus 0 qs)%R.
Proof. exact c47_total. Qed.
Print Assumptions C47_total.

(** The structure a particle is assigned to is at least as probable as each single Gaussian,
    also with rounded sums. *)
Theorem C47_most_probable : forall (N : Num) (RN : Rounded N) (f : fitted N) (X : matrix N) labels p q,
  group f X = Ok (labels, p) -> f_proba f X = Ok q -> length (pr_rows q) = length X ->
  forall r qrow i z row, nth_error (pr_rows q) r = Some qrow -> (i < f_n f)%nat -> (forall i, (i < f_n f)%nat -> nle n0 (nth i qrow nnan) = true) ->
  nisnan (coord (f_means f) i 0) = false -> nisnan (coord (f_means f) i 1) = false ->
  nth_error labels r = Some (Z.of_nat z) -> nth_error (pr_rows p) r = Some row ->
  nle (nth i qrow nnan) (nth z row nnan) = true.
Proof. exact c47_most_probable. Qed.
Print Assumptions C47_most_probable.

(** The number of Gaussians of the final fit is the smallest of 2, ..., 15 that is good
    enough; all fits get the data, the attributes of the object and nothing else. *)
Theorem C48_selection : forall (N : Num) (H St : Type) gm_fit gm_fit_seed randint order c_bic (self : string -> H) (st : St) (X : matrix N) labels p st',
  (forall s k, length (fst (randint s k)) = k) -> Permutation order (seq 0 14) ->
  auto_split gm_fit gm_fit_seed randint order c_bic self st X = Ok (labels, p, st') ->
  exists bics m kw f, length bics = 14%nat /\
    (forall t b, nth_error bics t = Some b -> trial gm_fit_seed self X (fst (randint st 14%nat)) t b) /\
    smallest (good_enough c_bic bics) m /\
    passes kw "n_components" (KInt (Z.of_nat m)) mixture_names (fun a => KUser (self a)) /\
    gm_fit kw (snd (randint st 14%nat)) X = Ok (f, st') /\ group f X = Ok (labels, p).
Proof. exact c48_selection. Qed.
Print Assumptions C48_selection.

(** When it fails: with an exception of a trial if there is one, with ValueError if none of
    the numbers is good enough. *)
Theorem C48_failures : forall (N : Num) (H St : Type) gm_fit gm_fit_seed randint order c_bic (self : string -> H) (st : St) (X : matrix N),
  (forall s k, length (fst (randint s k)) = k) -> Permutation order (seq 0 14) ->
  let r := auto_split gm_fit gm_fit_seed randint order c_bic self st X in
  (exists e t seed kw, r = Raise e /\ nth_error (fst (randint st 14%nat)) t = Some seed /\
     passes kw "n_components" (KInt (Z.of_nat (2 + t))) mixture_names (fun a => KUser (self a)) /\
     (gm_fit_seed kw seed X = Raise e \/ exists f, gm_fit_seed kw seed X = Ok f /\ f_bic f X = Raise e)) \/
  (exists bics, length bics = 14%nat /\ (forall t b, nth_error bics t = Some b -> trial gm_fit_seed self X (fst (randint st 14%nat)) t b) /\
     ((forall m, ~ good_enough c_bic bics m) -> r = Raise ValueError) /\
     (forall m, smallest (good_enough c_bic bics) m -> exists kw, passes kw "n_components" (KInt (Z.of_nat m)) mixture_names (fun a => KUser (self a)) /\
        forall f st' labels p, gm_fit kw (snd (randint st 14%nat)) X = Ok (f, st') -> group f X = Ok (labels, p) -> r = Ok (labels, p, st'))).
Proof. exact c48_failures. Qed.
Print Assumptions C48_failures.

(** The order in which the parallel fits finish does not change the result. *)
Theorem C48_order : forall (N : Num) (H St : Type) gm_fit gm_fit_seed randint order order' c_bic (self : string -> H) (st : St) (X : matrix N),
  (forall s k, length (fst (randint s k)) = k) -> Permutation order (seq 0 14) -> Permutation order' (seq 0 14) ->
  let r := auto_split gm_fit gm_fit_seed randint order c_bic self st X in
  let r' := auto_split gm_fit gm_fit_seed randint order' c_bic self st X in
  r' = r \/ exists e e', r = Raise e /\ r' = Raise e'.
Proof. exact c48_order. Qed.
Print Assumptions C48_order.

(** In exact arithmetic: the criterion in real numbers; some number is good enough whenever
    the cut is not negative. *)
Theorem C48_exact : forall (bs : list R) (c : R), length bs = 14%nat ->
  (forall m, good_enough (N:=RX) (XR c) (map XR bs) m <->
     (2 <= m <= 15)%nat /\ (nth (m - 2) bs 0 - fold_right Rplus 0 (skipn 9 bs) / 5 <= c)%R) /\
  ((0 <= c)%R -> exists m, good_enough (N:=RX) (XR c) (map XR bs) m).
Proof. exact c48_exact. Qed.
Print Assumptions C48_exact.

(** "Some number of Gaussians is always good enough for a cut that is not negative": false
    with rounding. *)
Theorem C48_exists_refuted : exists bics : list F64, length bics = 14%nat /\ (forall b, In b bics -> nfin b = true /\ nle n0 b = true /\ nle b n1 = true) /\
  (forall m, ~ good_enough n0 bics m) /\ choose_number n0 bics = Raise ValueError.
Proof. exact c48_exists_refuted. Qed.
Print Assumptions C48_exists_refuted.

(** KMeans hands scikit-learn the rows (energy, eps, eps_r) of the stars where all three are
    finite, in order, with the attributes of the object, and puts its labels back in the
    places of those stars; all other particles get NaN. *)
Theorem C49_kmeans : forall (N : Num) (RN : Rounded N) (H St : Type) argsort km (self : string -> H) cbins (st : St) (g : galaxy N) c st',
  constructible g -> (forall kw s X l s', km kw s X = Ok (l, s') -> length l = length X) ->
  decompose argsort (kmeans km self cbins) st g = Ok (c, st') ->
  exists j used kw labels, jcirc argsort g (fst cbins) (snd cbins) = Ok j /\ StronglySorted lt used /\ (forall k, In k used <-> usable_star g j k) /\
    passes kw "n_clusters" (KUser (self "n_components"%string)) kmeans_names (fun a => KUser (self a)) /\
    km kw st (map (star_row j) used) = Ok (labels, st') /\ placed g used labels (c_labels c) /\ c_probs c = None.
Proof. exact c49_kmeans. Qed.
Print Assumptions C49_kmeans.

(** The same for GaussianMixture, with the probabilities. *)
Theorem C49_mixture : forall (N : Num) (RN : Rounded N) (H St : Type) argsort gm_fit (self : string -> H) cbins (st : St) (g : galaxy N) c st',
  constructible g ->
  (forall kw s X f s' l p, gm_fit kw s X = Ok (f, s') -> f_predict f X = Ok l -> f_proba f X = Ok p -> length l = length X /\ length (pr_rows p) = length X) ->
  decompose argsort (gaussian_mixture gm_fit self cbins) st g = Ok (c, st') ->
  exists j used kw f labels p q, jcirc argsort g (fst cbins) (snd cbins) = Ok j /\ StronglySorted lt used /\ (forall k, In k used <-> usable_star g j k) /\
    passes kw "n_components" (KUser (self "n_components"%string)) mixture_names (fun a => KUser (self a)) /\
    gm_fit kw st (map (star_row j) used) = Ok (f, st') /\ f_predict f (map (star_row j) used) = Ok labels /\ f_proba f (map (star_row j) used) = Ok p /\
    placed g used labels (c_labels c) /\ c_probs c = Some q /\ pr_width q = pr_width p /\ length (pr_rows q) = glen g /\
    (forall r k, nth_error used r = Some k -> nth_error (pr_rows q) k = nth_error (pr_rows p) r) /\
    (forall i, (i < glen g)%nat -> ~ In i used -> nth_error (pr_rows q) i = Some (repeat nnan (pr_width p))).
Proof. exact c49_mixture. Qed.
Print Assumptions C49_mixture.

(** The same for AutoGaussianMixture: all its fits get those rows (C48_selection), labels and
    probabilities of the four structures (C47_grouping) go to the places of the stars. *)
Theorem C49_auto : forall (N : Num) (RN : Rounded N) (H St : Type) argsort gm_fit gm_fit_seed randint order c_bic (self : string -> H) cbins (st : St) (g : galaxy N) c st',
  constructible g -> decompose argsort (auto_gaussian_mixture gm_fit gm_fit_seed randint order c_bic self cbins) st g = Ok (c, st') ->
  exists j used labels p q, jcirc argsort g (fst cbins) (snd cbins) = Ok j /\ StronglySorted lt used /\ (forall k, In k used <-> usable_star g j k) /\
    auto_split gm_fit gm_fit_seed randint (order st) c_bic self st (map (star_row j) used) = Ok (labels, p, st') /\
    placed g used labels (c_labels c) /\ (forall z, In z labels -> (0 <= z <= 3)%Z) /\
    c_probs c = Some q /\ pr_width q = 4%nat /\ length (pr_rows q) = glen g /\
    (forall r k, nth_error used r = Some k -> nth_error (pr_rows q) k = nth_error (pr_rows p) r) /\
    (forall i, (i < glen g)%nat -> ~ In i used -> nth_error (pr_rows q) i = Some (repeat nnan 4)).
Proof. exact c49_auto. Qed.
Print Assumptions C49_auto.

(** Whatever scikit-learn raises comes through, and decompose returns when it answers with
    one label for each row. *)
Theorem C49_kmeans_outcome : forall (N : Num) (RN : Rounded N) (H St : Type) argsort km (self : string -> H) cbins (st : St) (g : galaxy N) j,
  constructible g -> jcirc argsort g (fst cbins) (snd cbins) = Ok j ->
  exists used kw, StronglySorted lt used /\ (forall k, In k used <-> usable_star g j k) /\
    passes kw "n_clusters" (KUser (self "n_components"%string)) kmeans_names (fun a => KUser (self a)) /\
    (forall e, km kw st (map (star_row j) used) = Raise e -> decompose argsort (kmeans km self cbins) st g = Raise e) /\
    (forall l st', km kw st (map (star_row j) used) = Ok (l, st') -> length l = length used -> exists c, decompose argsort (kmeans km self cbins) st g = Ok (c, st')).
Proof. exact c49_kmeans_outcome. Qed.
Print Assumptions C49_kmeans_outcome.

(** The same for the two mixture models. *)
Theorem C49_mixture_outcome : forall (N : Num) (RN : Rounded N) (H St : Type) argsort gm_fit (self : string -> H) cbins (st : St) (g : galaxy N) j,
  constructible g -> jcirc argsort g (fst cbins) (snd cbins) = Ok j ->
  exists used kw, StronglySorted lt used /\ (forall k, In k used <-> usable_star g j k) /\
    passes kw "n_components" (KUser (self "n_components"%string)) mixture_names (fun a => KUser (self a)) /\
    (forall e, gm_fit kw st (map (star_row j) used) = Raise e -> decompose argsort (gaussian_mixture gm_fit self cbins) st g = Raise e) /\
    (forall f l p st', gm_fit kw st (map (star_row j) used) = Ok (f, st') -> f_predict f (map (star_row j) used) = Ok l -> f_proba f (map (star_row j) used) = Ok p ->
       length l = length used -> length (pr_rows p) = length used -> exists c, decompose argsort (gaussian_mixture gm_fit self cbins) st g = Ok (c, st')).
Proof. exact c49_mixture_outcome. Qed.
Print Assumptions C49_mixture_outcome.

Theorem C49_auto_outcome : forall (N : Num) (RN : Rounded N) (H St : Type) argsort gm_fit gm_fit_seed randint order c_bic (self : string -> H) cbins (st : St) (g : galaxy N) j,
  constructible g -> jcirc argsort g (fst cbins) (snd cbins) = Ok j ->
  exists used, StronglySorted lt used /\ (forall k, In k used <-> usable_star g j k) /\
    (forall e, auto_split gm_fit gm_fit_seed randint (order st) c_bic self st (map (star_row j) used) = Raise e ->
       decompose argsort (auto_gaussian_mixture gm_fit gm_fit_seed randint order c_bic self cbins) st g = Raise e) /\
    (forall l p st', auto_split gm_fit gm_fit_seed randint (order st) c_bic self st (map (star_row j) used) = Ok (l, p, st') ->
       exists c, decompose argsort (auto_gaussian_mixture gm_fit gm_fit_seed randint order c_bic self cbins) st g = Ok (c, st')).
Proof. exact c49_auto_outcome. Qed.
Print Assumptions C49_auto_outcome.

(** Centres on the boundaries: (-1/5, 85/100) is cold disk, (-1/5, 84/100) and (-3/4, 1/2) are
    warm disk, (-3/4, 49/100) is halo, (-76/100, 49/100) is bulge; the first of the two
    greatest probabilities wins. *)
Example EX_C47 :
  rmap (fun r => (fst r, map shows (pr_rows (snd r)))) (group (toy_fit 5) toy_rows) =
    Ok ([1; 1]%Z, repeat [sQ 1 8; sQ 3 8; sQ 3 16; sQ 5 16] 2) /\
  rmap fst (group (toy_fit 3) toy_rows) = Ok [3; 3]%Z /\
  rmap fst (group (Fitted 2 toy_means (f_predict (toy_fit 2)) (fun X => Ok (Probs 2 (map (fun _ => [nlit 1 2; nlit 1 2]) X))) (f_bic (toy_fit 2))) toy_rows) = Ok [2; 2]%Z /\
  exn_of (group (Fitted 6 toy_means (f_predict (toy_fit 6)) (f_proba (toy_fit 6)) (f_bic (toy_fit 6))) toy_rows) = Some IndexError.
Proof. exact ex_c47. Qed.

(** A centre that is not a number belongs to no structure: the probabilities of the particle
    no longer add up to one, and the label is 0 when every centre is so. *)
Example EX_C47_nan :
  rmap (fun r => (fst r, map shows (pr_rows (snd r))))
    (group (Fitted 1 [[nnan; nnan; nnan]] (f_predict (toy_fit 1)) (fun X => Ok (Probs 1 (map (fun _ => [n1]) X))) (f_bic (toy_fit 1))) toy_rows) =
  Ok ([0; 0]%Z, repeat [sZ 0; sZ 0; sZ 0; sZ 0] 2).
Proof. exact ex_c47_nan. Qed.

(** The values fall from 90 to 10 and stay there: the first within the default cut of 0.1
    above the mean of the last five is the one for five Gaussians.  With a negative cut or a
    NaN among the last five no number is good enough, and the minimum of nothing fails. *)
Example EX_C48 :
  choose_number (nlit 1 10) (toy_bics [90; 50; 20; 10; 11; 10; 10; 10; 10; 10; 10; 10; 10; 10]%Z) = Ok 5%Z /\
  choose_number (nlit (-1) 10) (toy_bics [90; 50; 20; 10; 11; 10; 10; 10; 10; 10; 10; 10; 10; 10]%Z) = Raise ValueError /\
  choose_number (nlit 1 10) (toy_bics [90; 50; 20; 10; 11; 10; 10; 10; 10; 10; 10; 10; 10]%Z ++ [nnan]) = Raise ValueError.
Proof. exact ex_c48. Qed.

Example EX_C48_split :
  map (fun order => rmap (fun r => (fst (fst r), snd r)) (auto_split (N:=F64) toy_gm toy_seed (toy_randint 8) order (nlit 1 2) (fun a => a) 0 toy_rows))
    [seq 0 14; rev (seq 0 14)] = [Ok ([1; 1]%Z, 101%nat); Ok ([1; 1]%Z, 101%nat)] /\
  exn_of (auto_split (N:=F64) toy_gm toy_seed (toy_randint 0) (seq 0 14) (nlit 1 2) (fun a => a) 0 toy_rows) = Some ValueError /\
  rmap (map fshow) (parallel (rev (seq 0 14)) (map (fun ns => try_components (N:=F64) toy_seed (fun a : string => a) toy_rows (fst ns) (snd ns))
     (combine components_to_try (fst (toy_randint 8 0 14))))) =
  Ok (map (fun z => sQ z 2) [18; 17; 16; 15; 14; 13; 12; 11; 10; 9; 8; 7; 6; 5]%Z) /\
  choose_number (N:=F64) (nlit 1 2) (map (fun z => nlit z 2) [18; 17; 16; 15; 14; 13; 12; 11; 10; 9; 8; 7; 6; 5]%Z) = Ok 12%Z.
Proof. exact ex_c48_split. Qed.

(** The sample galaxy has eight particles; three of its five stars can be used. *)
Example EX_C49 :
  rmap (fun r => (shows (c_labels (fst r)), match c_probs (fst r) with None => true | _ => false end, snd r))
    (do g <- sampleG; decompose asort (kmeans toy_km (fun a => a) (default_bin0, default_bin1)) 3%nat g) =
  Ok ([sZ 5; sZ 6; sZ 7; S754_nan; S754_nan; S754_nan; S754_nan; S754_nan], true, 4%nat) /\
  rmap (fun r => (shows (c_labels (fst r)), match c_probs (fst r) with None => [] | Some p => map shows (pr_rows p) end, snd r))
    (do g <- sampleG; decompose asort (gaussian_mixture toy_gm (fun a => a) (default_bin0, default_bin1)) 3%nat g) =
  Ok ([sZ 0; sZ 1; sZ 2; S754_nan; S754_nan; S754_nan; S754_nan; S754_nan],
      repeat (shows toy_row) 3 ++ repeat (repeat S754_nan 5) 5, 4%nat) /\
  rmap (fun r => (shows (c_labels (fst r)), match c_probs (fst r) with None => [] | Some p => map shows (pr_rows p) end, snd r))
    (do g <- sampleG; decompose asort (auto_gaussian_mixture toy_gm toy_seed (toy_randint 8) (fun _ => seq 0 14) (nlit 1 2) (fun a => a) (default_bin0, default_bin1)) 3%nat g) =
  Ok ([sZ 1; sZ 1; sZ 1; S754_nan; S754_nan; S754_nan; S754_nan; S754_nan],
      repeat [sQ 1 8; sQ 3 8; sQ 3 16; sQ 5 16] 3 ++ repeat (repeat S754_nan 4) 5, 104%nat).
Proof. exact ex_c49. Qed.

(** An estimator that refuses: its error comes through. *)
Example EX_C49_error :
  exn_of (do g <- sampleG; decompose asort (kmeans (N:=F64) (fun (_ : dict (kwval string)) (st : nat) _ => Raise ValueError) (fun a => a) (default_bin0, default_bin1)) 3%nat g) = Some ValueError.
Proof. exact ex_c49_error. Qed.
