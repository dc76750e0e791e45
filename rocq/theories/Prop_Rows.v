(** Property theorems. Property lemmas about the matrix given to the mixture models in a whole analysis: C104. Proofs are in RowThms.v. *)
From Verif Require Import Py Num RX F64 Np Df Data DataFacts DfFacts RebuildFacts Center CenterFacts Align Spec SpecR SpecCirc SpecAlAcc SpecBase SpecCurve SpecChain SpecFma Dgemm SpecDgemm SpecAcc SpecWhole Ex DataThms CenterThms AlignFacts AlignThms Circ CircFacts CurveFacts CircThms OrderThms AlAccFacts AlAccRot AlAccSum AlAccThms ChainFacts ChainThms DgemmThms CtrAccThms EpsAccFacts EpsAccThms EpsCutThms Base Threshold ThresholdThms PolyFacts ChoiceFacts CurveAccFacts CurveAccThms SpecPot Potential PotConcFacts PotFacts PotThms SpecPotAcc AccThms PotAccThms SpecNpAcc NpAccThms Fma FmaThms PipeThms WholeThms SpecHist Hist HistFacts HistThms SpecSplit SplitThms EpsFacts MixStar EdgeFacts EdgeThms EnergyThms SpecWhist WhistFacts AlCutThms WhistThms SpecCut CutChain SpecMix SpecBase BaseFacts BaseThms Mixture MixThms CutThms SpecRows RowFacts RowThms.
From Flocq Require Import Core.
From Coq Require Import Lra Lia Permutation Sorted Floats.SpecFloat.
Local Open Scope R_scope.

(** From the positions, velocities and potentials of the input to the matrix of a mixture model (any decomposer
    with these attributes and the mask of the stars): the rows are those of the stars that exact arithmetic keeps, each
    with the normalised energy, the circularity and the projected circularity of exact
    arithmetic up to stated errors; the labels and probabilities found for the rows go to these stars and the
    other particles get NaN.  If an unbound star precedes a bound one there is an error. *)
Theorem C104_matrix : forall sm K argsort fma mm (g h1 : galaxy (F64s sm)) ls ld lg t ps (r : option (F64s sm)) c,
  sums_well (F64_rounded sm) (/ IZR (2 ^ 53)) K -> fused (F64_rounded sm) fma -> is_matmul fma mm -> sorting argsort ->
  constructible g -> reads_set (F64_rounded sm) (g_stars g) ls -> reads_set (F64_rounded sm) (g_dm g) ld -> reads_set (F64_rounded sm) (g_gas g) lg ->
  Forall2 (pot_near (F64_rounded sm) t) (all_pots g) ps -> 0 <= t <= 1 -> (forall x, In x ps -> Rabs x <= bpow radix2 200) ->
  reads_cut (F64_rounded sm) r c -> center g = Ok h1 ->
  exists i o, lowest g i /\ (forall i0, clearly_lowest t ps i0 -> i = i0) /\ nth_error (ls ++ ld ++ lg) i = Some o /\
    (let seen := map (seen_from o) in let u := / IZR (2 ^ 53) in let ins := axis_stars c (seen ls) in let k := K (length ins) in
     let qs := seen (ls ++ ld ++ lg) in let bodies := map2 (whole_body ins) qs ps in let planes := map (plane_part ins) qs in
     strong_spin u k ins -> clear_edge u c (seen ls) -> (forall q, In q qs -> SpecChain.within q) ->
     exists h2, star_align_with mm h1 r = Ok h2 /\
       forall m a d ue uz up cv used, 0 <= d -> 16 * d + / IZR (2 ^ 44) <= m ->
         (forall q x, In (q, x) (combine qs ps) -> resolved u k t ins d ue uz q x /\ plane_resolved u k ins d up q x) ->
         exact_curve m SpecCurve.edgesR bodies ue uz cv -> plane_unit (combine bodies planes) up -> 0 < a <= 1 -> gentle a cv ->
         (forall j b, (j < length ls)%nat -> nth_error bodies j = Some b ->
            off_curve ((12 * d + / IZR (2 ^ 47)) / a) cv ue uz (clearly_lowest t ps j) b /\ high_curve ((12 * d + / IZR (2 ^ 47)) / a) cv ue uz b) ->
         kept_stars (length ls) bodies ue uz cv used ->
         (bound_first (length ls) bodies ->
           exists X, Forall2 (fun i row => exists b, nth_error (combine bodies planes) i = Some b /\ row_near (F64_rounded sm) d ((12 * d + / IZR (2 ^ 47)) / a) cv ue uz up b row) used X /\
             forall St (D : decomposer (F64s sm) St) st, d_attributes D = ["normalized_star_energy"; "eps"; "eps_r"]%string -> d_mask D = stars_mask -> d_cbins D = (default_bin0, default_bin1) ->
             exists ys, handed_on (length (ls ++ ld ++ lg)) used (d_split D st X ys (d_attributes D)) (decompose argsort D st h2)) /\
         (~ bound_first (length ls) bodies ->
           exists e, forall St (D : decomposer (F64s sm) St) st, d_attributes D = ["normalized_star_energy"; "eps"; "eps_r"]%string -> d_mask D = stars_mask -> d_cbins D = (default_bin0, default_bin1) ->
             decompose argsort D st h2 = Raise e)).
Proof. exact c104_matrix. Qed.
Print Assumptions C104_matrix.

(** In particular for KMeans, GaussianMixture and AutoGaussianMixture, whatever scikit-learn does with the matrix. *)
Theorem C104_classes : forall sm K argsort fma mm (g h1 : galaxy (F64s sm)) ls ld lg t ps (r : option (F64s sm)) c,
  sums_well (F64_rounded sm) (/ IZR (2 ^ 53)) K -> fused (F64_rounded sm) fma -> is_matmul fma mm -> sorting argsort ->
  constructible g -> reads_set (F64_rounded sm) (g_stars g) ls -> reads_set (F64_rounded sm) (g_dm g) ld -> reads_set (F64_rounded sm) (g_gas g) lg ->
  Forall2 (pot_near (F64_rounded sm) t) (all_pots g) ps -> 0 <= t <= 1 -> (forall x, In x ps -> Rabs x <= bpow radix2 200) ->
  reads_cut (F64_rounded sm) r c -> center g = Ok h1 ->
  exists i o, lowest g i /\ (forall i0, clearly_lowest t ps i0 -> i = i0) /\ nth_error (ls ++ ld ++ lg) i = Some o /\
    (let seen := map (seen_from o) in let u := / IZR (2 ^ 53) in let ins := axis_stars c (seen ls) in let k := K (length ins) in
     let qs := seen (ls ++ ld ++ lg) in let bodies := map2 (whole_body ins) qs ps in let planes := map (plane_part ins) qs in
     strong_spin u k ins -> clear_edge u c (seen ls) -> (forall q, In q qs -> SpecChain.within q) ->
     exists h2, star_align_with mm h1 r = Ok h2 /\
       forall m a d ue uz up cv used, 0 <= d -> 16 * d + / IZR (2 ^ 44) <= m ->
         (forall q x, In (q, x) (combine qs ps) -> resolved u k t ins d ue uz q x /\ plane_resolved u k ins d up q x) ->
         exact_curve m SpecCurve.edgesR bodies ue uz cv -> plane_unit (combine bodies planes) up -> 0 < a <= 1 -> gentle a cv ->
         (forall j b, (j < length ls)%nat -> nth_error bodies j = Some b ->
            off_curve ((12 * d + / IZR (2 ^ 47)) / a) cv ue uz (clearly_lowest t ps j) b /\ high_curve ((12 * d + / IZR (2 ^ 47)) / a) cv ue uz b) ->
         kept_stars (length ls) bodies ue uz cv used ->
         bound_first (length ls) bodies ->
         exists X, Forall2 (fun i row => exists b, nth_error (combine bodies planes) i = Some b /\ row_near (F64_rounded sm) d ((12 * d + / IZR (2 ^ 47)) / a) cv ue uz up b row) used X /\
           forall (H St : Type) (self : string -> H) (st : St),
             (forall km, handed_on (length (ls ++ ld ++ lg)) used (do a <- km (km_kwargs self) st X; Ok (fst a, None, snd a)) (decompose argsort (kmeans km self (default_bin0, default_bin1)) st h2)) /\
             (forall fit, handed_on (length (ls ++ ld ++ lg)) used
                (do a <- fit (gm_kwargs (KUser (self "n_components"%string)) self) st X;
                 do labels <- f_predict (fst a) X; do proba <- f_proba (fst a) X; Ok (labels, Some proba, snd a))
                (decompose argsort (gaussian_mixture fit self (default_bin0, default_bin1)) st h2)) /\
             (forall fit seeded randint order c_bic, handed_on (length (ls ++ ld ++ lg)) used
                (do a <- auto_split fit seeded randint (order st) c_bic self st X; Ok (fst (fst a), Some (snd (fst a)), snd a))
                (decompose argsort (auto_gaussian_mixture fit seeded randint order c_bic self (default_bin0, default_bin1)) st h2))).
Proof. exact c104_classes. Qed.
Print Assumptions C104_classes.

(** The whole analysis: the potential of any of the backends, centring, aligning with any matrix product, with or without a
    cut-off radius, and the mixture models with the default bins. *)
Theorem C104_all : forall sm sm' K argsort table name fma mm (g : galaxy (F64s sm)) (G : F32s sm') kG s ls ld lg R0 D (r : option (F64s sm)) c,
  let lr := ls ++ ld ++ lg in let ps := exact_pots kG s lr in let t := pot_error (length lr) R0 D in
  sums_well (F64_rounded sm) (/ IZR (2 ^ 53)) K -> fused (F64_rounded sm) fma -> is_matmul fma mm -> sorting argsort ->
  constructible g -> g_haspot g = false ->
  reads_set (F64_rounded sm) (g_stars g) ls -> reads_set (F64_rounded sm) (g_dm g) ld -> reads_set (F64_rounded sm) (g_gas g) lg ->
  backend_of G table name -> val (F32_rounded sm') G = XR kG -> / IZR (2 ^ 40) <= kG <= IZR (2 ^ 20) ->
  (forall so, largest_softening g so -> val (F64_rounded sm) so = XR s) -> usual s ->
  (forall q, In q lr -> 0 < pm q /\ usual (pm q) /\ forall a, In a [px q; py q; pz q] -> ordinary a /\ Rabs a <= R0) ->
  (forall i j p q, i <> j -> nth_error lr i = Some p -> nth_error lr j = Some q -> D <= sdist s p q) ->
  / IZR (2 ^ 60) <= D -> 0 <= R0 <= IZR (2 ^ 19) * D -> INR (length lr) <= IZR (2 ^ 22) -> lr <> [] ->
  reads_cut (F64_rounded sm) r c ->
  exists h0 h1 i o, potential (W:=F64s sm) (S:=F32s sm') to32 to64 table name g = Ok h0 /\ center h0 = Ok h1 /\
    lowest h0 i /\ (forall i0, clearly_lowest t ps i0 -> i = i0) /\ nth_error lr i = Some o /\
    (let seen := map (seen_from o) in let u := / IZR (2 ^ 53) in let ins := axis_stars c (seen ls) in let k := K (length ins) in
     let qs := seen lr in let bodies := map2 (whole_body ins) qs ps in let planes := map (plane_part ins) qs in
     strong_spin u k ins -> clear_edge u c (seen ls) -> (forall q, In q qs -> SpecChain.within q) ->
     exists h2, star_align_with mm h1 r = Ok h2 /\
       forall m a d ue uz up cv used, 0 <= d -> 16 * d + / IZR (2 ^ 44) <= m ->
         (forall q x, In (q, x) (combine qs ps) -> resolved u k t ins d ue uz q x /\ plane_resolved u k ins d up q x) ->
         exact_curve m SpecCurve.edgesR bodies ue uz cv -> plane_unit (combine bodies planes) up -> 0 < a <= 1 -> gentle a cv ->
         (forall j b, (j < length ls)%nat -> nth_error bodies j = Some b ->
            off_curve ((12 * d + / IZR (2 ^ 47)) / a) cv ue uz (clearly_lowest t ps j) b /\ high_curve ((12 * d + / IZR (2 ^ 47)) / a) cv ue uz b) ->
         kept_stars (length ls) bodies ue uz cv used ->
         bound_first (length ls) bodies ->
         exists X, Forall2 (fun i row => exists b, nth_error (combine bodies planes) i = Some b /\ row_near (F64_rounded sm) d ((12 * d + / IZR (2 ^ 47)) / a) cv ue uz up b row) used X /\
           forall (H St : Type) (self : string -> H) (st : St),
             (forall km, handed_on (length lr) used (do a <- km (km_kwargs self) st X; Ok (fst a, None, snd a)) (decompose argsort (kmeans km self (default_bin0, default_bin1)) st h2)) /\
             (forall fit, handed_on (length lr) used
                (do a <- fit (gm_kwargs (KUser (self "n_components"%string)) self) st X;
                 do labels <- f_predict (fst a) X; do proba <- f_proba (fst a) X; Ok (labels, Some proba, snd a))
                (decompose argsort (gaussian_mixture fit self (default_bin0, default_bin1)) st h2)) /\
             (forall fit seeded randint order c_bic, handed_on (length lr) used
                (do a <- auto_split fit seeded randint (order st) c_bic self st X; Ok (fst (fst a), Some (snd (fst a)), snd a))
                (decompose argsort (auto_gaussian_mixture fit seeded randint order c_bic self (default_bin0, default_bin1)) st h2))).
Proof. exact c104_all. Qed.
Print Assumptions C104_all.

(** The hypotheses of C104 are met by two stars and a particle of dark matter with potentials: the dark matter is the
    centre, both stars are kept, the faster one is a point of the curve, and the errors are below 1/150000.  K-means
    is replaced by a rule that labels 1 the rows whose circularity is above 1/2: the faster star only. *)
Example EX_C104 : let RS := F64_rounded (seqsum 53 1024 p53 e1024) in let u := / IZR (2 ^ 53) in let lr := exU_stars ++ exW_dark ++ [] in
  constructible (exU true) /\
  (reads_set RS (g_stars (exU true)) exU_stars /\ reads_set RS (g_dm (exU true)) exW_dark /\ reads_set RS (g_gas (exU true)) []) /\
  Forall2 (pot_near RS 0) (all_pots (exU true)) exU_pots /\ (forall x, In x exU_pots -> Rabs x <= bpow radix2 200) /\ reads_cut RS None None /\
  fused RS fma64 /\ is_matmul (S:=F64) fma64 (plain_matmul (S:=F64)) /\ sums_well RS u (fun n => 2 * INR n) /\
  clearly_lowest 0 exU_pots 2 /\
  (exists o, nth_error lr 2 = Some o /\
    let seen := map (seen_from o) in let ins := axis_stars None (seen exU_stars) in let k := 2 * INR (length ins) in
    let qs := seen lr in let bodies := map2 (whole_body ins) qs exU_pots in let planes := map (plane_part ins) qs in
    strong_spin u k ins /\ clear_edge u None (seen exU_stars) /\ (forall q, In q qs -> SpecChain.within q) /\
    16 * / 150000 + / IZR (2 ^ 44) <= / 1000 /\
    (forall q x, In (q, x) (combine qs exU_pots) -> resolved u k 0 ins (/ 150000) 262144 511 q x /\ plane_resolved u k ins (/ 150000) 16 q x) /\
    exact_curve (/ 1000) SpecCurve.edgesR bodies 262144 511 [(-1, 0); (-767 / 524288, 1)] /\ plane_unit (combine bodies planes) 16 /\ gentle (99 / 100) [(-1, 0); (-767 / 524288, 1)] /\
    (forall j b, (j < 2)%nat -> nth_error bodies j = Some b ->
       off_curve ((12 * / 150000 + / IZR (2 ^ 47)) / (99 / 100)) [(-1, 0); (-767 / 524288, 1)] 262144 511 (clearly_lowest 0 exU_pots j) b /\
       high_curve ((12 * / 150000 + / IZR (2 ^ 47)) / (99 / 100)) [(-1, 0); (-767 / 524288, 1)] 262144 511 b) /\
    kept_stars 2 bodies 262144 511 [(-1, 0); (-767 / 524288, 1)] [0; 1]%nat /\ bound_first 2 bodies /\
    combine bodies planes = [((-767 / 2, 511), 16); ((-334, 246), 16); ((-262144, 0), 0)]) /\
  (do h1 <- center (exU true); do h2 <- star_align h1 None;
   rmap (fun r => shows (c_labels (fst r))) (decompose asort (kmeans exU_km (fun a => a) (default_bin0, default_bin1)) tt h2)) =
  Ok [sZ 1; sZ 0; S754_nan].
Proof. exact ex_c104. Qed.

(** The same stars without potentials: the run computes them in single precision. *)
Example EX_C104_all : let RS := F64_rounded (seqsum 53 1024 p53 e1024) in let u := / IZR (2 ^ 53) in
  let lr := exU_stars ++ exW_dark ++ [] in let ps := exact_pots 1 0 lr in let t := pot_error (length lr) 6 1 in
  constructible (exU false) /\ g_haspot (exU false) = false /\
  (reads_set RS (g_stars (exU false)) exU_stars /\ reads_set RS (g_dm (exU false)) exW_dark /\ reads_set RS (g_gas (exU false)) []) /\
  backend_of (n1 : F32) (backend_table n1 true junk0) "fortran" /\ reads_cut RS None None /\
  (forall so, largest_softening (exU false) so -> val RS so = XR 0) /\
  (forall q, In q lr -> 0 < pm q /\ usual (pm q) /\ forall a, In a [px q; py q; pz q] -> ordinary a /\ Rabs a <= 6) /\
  (forall i j p q, i <> j -> nth_error lr i = Some p -> nth_error lr j = Some q -> 1 <= sdist 0 p q) /\
  clearly_lowest t ps 2 /\
  (exists o, nth_error lr 2 = Some o /\
    let seen := map (seen_from o) in let ins := axis_stars None (seen exU_stars) in let k := 2 * INR (length ins) in
    let qs := seen lr in let bodies := map2 (whole_body ins) qs ps in let planes := map (plane_part ins) qs in
    strong_spin u k ins /\ clear_edge u None (seen exU_stars) /\ (forall q, In q qs -> SpecChain.within q) /\
    16 * / 150000 + / IZR (2 ^ 44) <= / 1000 /\
    (forall q x, In (q, x) (combine qs ps) -> resolved u k t ins (/ 150000) 262144 511 q x /\ plane_resolved u k ins (/ 150000) 16 q x) /\
    exact_curve (/ 1000) SpecCurve.edgesR bodies 262144 511 [(-1, 0); (-767 / 524288, 1)] /\ plane_unit (combine bodies planes) 16 /\ gentle (99 / 100) [(-1, 0); (-767 / 524288, 1)] /\
    (forall j b, (j < 2)%nat -> nth_error bodies j = Some b ->
       off_curve ((12 * / 150000 + / IZR (2 ^ 47)) / (99 / 100)) [(-1, 0); (-767 / 524288, 1)] 262144 511 (clearly_lowest t ps j) b /\
       high_curve ((12 * / 150000 + / IZR (2 ^ 47)) / (99 / 100)) [(-1, 0); (-767 / 524288, 1)] 262144 511 b) /\
    kept_stars 2 bodies 262144 511 [(-1, 0); (-767 / 524288, 1)] [0; 1]%nat /\ bound_first 2 bodies /\
    combine bodies planes = [((-767 / 2, 511), 16); ((-334, 246), 16); ((-262144, 0), 0)]) /\
  (do h0 <- potential (W:=F64) (S:=F32) to32 to64 (backend_table n1 true junk0) "fortran" (exU false); do h1 <- center h0; do h2 <- star_align h1 None;
   rmap (fun r => shows (c_labels (fst r))) (decompose asort (kmeans exU_km (fun a => a) (default_bin0, default_bin1)) tt h2)) =
  Ok [sZ 1; sZ 0; S754_nan].
Proof. exact ex_c104_all. Qed.
