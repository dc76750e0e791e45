(** Property theorems. Property lemmas about the histogram decompositions of a whole analysis with other numbers of bins: C107. Proofs are in WbinsThms.v. *)
From Verif Require Import Py Num RX F64 Np Df Data DataFacts DfFacts RebuildFacts Center CenterFacts Align Spec SpecR SpecCirc SpecAlAcc SpecBase SpecCurve SpecChain SpecFma Dgemm SpecDgemm SpecAcc SpecWhole Ex DataThms CenterThms AlignFacts AlignThms Circ CircFacts CurveFacts CircThms OrderThms AlAccFacts AlAccRot AlAccSum AlAccThms ChainFacts ChainThms DgemmThms CtrAccThms EpsAccFacts EpsAccThms EpsCutThms Base Threshold ThresholdThms PolyFacts ChoiceFacts CurveAccFacts CurveAccThms SpecPot Potential PotConcFacts PotFacts PotThms SpecPotAcc AccThms PotAccThms SpecNpAcc NpAccThms Fma FmaThms PipeThms WholeThms SpecHist Hist HistFacts HistThms SpecSplit SplitThms EpsFacts MixStar EdgeFacts EdgeThms EnergyThms SpecWhist WhistFacts AlCutThms WhistThms SpecCut CutChain CutThms BinsThms SpecBins SpecWbins WbinsFacts WbinsThms.
From Flocq Require Import Core.
From Coq Require Import Lra Lia Permutation Sorted Floats.SpecFloat.
Local Open Scope R_scope.

(** C107: C99 for any number of bins of circularity and any number of decimals of the edges, as long as no
    edge is half way between two decimals, and for any number of bins of energy.  If every bound star is settled with respect to
    the exact edges, JHistogram does what it does in exact arithmetic, its errors included; so does
    JEHistogram if also no bound star is near an inner edge of the energy bins. *)
Theorem C107_decompose : forall n_bin digits n_bin_E sm K argsort fma mm (g h1 : galaxy (F64s sm)) ls ld lg t ps,
  (1 <= n_bin)%Z -> no_ties n_bin digits -> sums_well (F64_rounded sm) (/ IZR (2 ^ 53)) K -> fused (F64_rounded sm) fma -> is_matmul fma mm -> sorting argsort ->
  constructible g -> reads_set (F64_rounded sm) (g_stars g) ls -> reads_set (F64_rounded sm) (g_dm g) ld -> reads_set (F64_rounded sm) (g_gas g) lg ->
  Forall2 (pot_near (F64_rounded sm) t) (all_pots g) ps -> 0 <= t <= 1 -> (forall x, In x ps -> Rabs x <= bpow radix2 200) ->
  center g = Ok h1 ->
  exists i o, lowest g i /\ (forall i0, clearly_lowest t ps i0 -> i = i0) /\ nth_error (ls ++ ld ++ lg) i = Some o /\
    (let seen := map (seen_from o) in let u := / IZR (2 ^ 53) in let k := K (length ls) in
     let bodies := map2 (whole_body (seen ls)) (seen (ls ++ ld ++ lg)) ps in
     strong_spin u k (seen ls) -> (forall q, In q (seen ld) \/ In q (seen lg) -> SpecChain.within q) ->
     exists h2, star_align_with mm h1 None = Ok h2 /\
       forall m a d ue uz cv used rows, 0 <= d -> 16 * d + / IZR (2 ^ 44) <= m ->
         (forall q x, In (q, x) (combine (seen (ls ++ ld ++ lg)) ps) -> resolved u k t (seen ls) d ue uz q x) ->
         exact_curve m SpecCurve.edgesR bodies ue uz cv -> 0 < a <= 1 -> gentle a cv ->
         (forall j b, (j < length ls)%nat -> nth_error bodies j = Some b -> settled_in n_bin digits ((12 * d + / IZR (2 ^ 47)) / a) cv ue uz (clearly_lowest t ps j) b) ->
         exact_stars (length ls) bodies ue uz cv used rows ->
         forall St (choice : St -> list nat -> nat -> list nat * St) junk cb st,
         (bound_first (length ls) bodies ->
           carries (length (ls ++ ld ++ lg)) used
             (outcome (d_split (jhistogram (N:=RX) choice junk cb n_bin digits) st (map (fun r => [CNum (N:=RX) (XR (snd r))]) rows) [] []))
             (decompose argsort (jhistogram choice junk (default_bin0, default_bin1) n_bin digits) st h2) /\
           ((n_bin_E <= 2 ^ 53)%Z -> (forall j b, (j < length ls)%nat -> nth_error bodies j = Some b -> clear_energy n_bin_E m ue b) ->
           carries (length (ls ++ ld ++ lg)) used
             (outcome (d_split (jehistogram (N:=RX) choice junk cb n_bin digits n_bin_E) st (map (fun r => [CNum (N:=RX) (XR (fst r)); CNum (N:=RX) (XR (snd r))]) rows) [] []))
             (decompose argsort (jehistogram choice junk (default_bin0, default_bin1) n_bin digits n_bin_E) st h2))) /\
         (~ bound_first (length ls) bodies -> exists e,
           decompose argsort (jhistogram choice junk (default_bin0, default_bin1) n_bin digits) st h2 = Raise e /\
           decompose argsort (jehistogram choice junk (default_bin0, default_bin1) n_bin digits n_bin_E) st h2 = Raise e)).
Proof. exact c107_decompose. Qed.
Print Assumptions C107_decompose.

(** C107: the same with a cut-off radius in the alignment, as in C103. *)
Theorem C107_cut : forall n_bin digits n_bin_E sm K argsort fma mm (g h1 : galaxy (F64s sm)) ls ld lg t ps (r : F64s sm) c,
  (1 <= n_bin)%Z -> no_ties n_bin digits -> sums_well (F64_rounded sm) (/ IZR (2 ^ 53)) K -> fused (F64_rounded sm) fma -> is_matmul fma mm -> sorting argsort ->
  constructible g -> reads_set (F64_rounded sm) (g_stars g) ls -> reads_set (F64_rounded sm) (g_dm g) ld -> reads_set (F64_rounded sm) (g_gas g) lg ->
  Forall2 (pot_near (F64_rounded sm) t) (all_pots g) ps -> 0 <= t <= 1 -> (forall x, In x ps -> Rabs x <= bpow radix2 200) ->
  val (F64_rounded sm) r = XR c -> bpow radix2 (-90) <= c -> center g = Ok h1 ->
  exists i o, lowest g i /\ (forall i0, clearly_lowest t ps i0 -> i = i0) /\ nth_error (ls ++ ld ++ lg) i = Some o /\
    (let seen := map (seen_from o) in let u := / IZR (2 ^ 53) in let ins := within_cut c (seen ls) in let k := K (length ins) in
     let bodies := map2 (whole_body ins) (seen (ls ++ ld ++ lg)) ps in
     strong_spin u k ins -> off_edge u c (seen ls) -> (forall q, In q (seen (ls ++ ld ++ lg)) -> SpecChain.within q) ->
     exists h2, star_align_with mm h1 (Some r) = Ok h2 /\
       forall m a d ue uz cv used rows, 0 <= d -> 16 * d + / IZR (2 ^ 44) <= m ->
         (forall q x, In (q, x) (combine (seen (ls ++ ld ++ lg)) ps) -> resolved u k t ins d ue uz q x) ->
         exact_curve m SpecCurve.edgesR bodies ue uz cv -> 0 < a <= 1 -> gentle a cv ->
         (forall j b, (j < length ls)%nat -> nth_error bodies j = Some b -> settled_in n_bin digits ((12 * d + / IZR (2 ^ 47)) / a) cv ue uz (clearly_lowest t ps j) b) ->
         exact_stars (length ls) bodies ue uz cv used rows ->
         forall St (choice : St -> list nat -> nat -> list nat * St) junk cb st,
         (bound_first (length ls) bodies ->
           carries (length (ls ++ ld ++ lg)) used
             (outcome (d_split (jhistogram (N:=RX) choice junk cb n_bin digits) st (map (fun e => [CNum (N:=RX) (XR (snd e))]) rows) [] []))
             (decompose argsort (jhistogram choice junk (default_bin0, default_bin1) n_bin digits) st h2) /\
           ((n_bin_E <= 2 ^ 53)%Z -> (forall j b, (j < length ls)%nat -> nth_error bodies j = Some b -> clear_energy n_bin_E m ue b) ->
           carries (length (ls ++ ld ++ lg)) used
             (outcome (d_split (jehistogram (N:=RX) choice junk cb n_bin digits n_bin_E) st (map (fun e => [CNum (N:=RX) (XR (fst e)); CNum (N:=RX) (XR (snd e))]) rows) [] []))
             (decompose argsort (jehistogram choice junk (default_bin0, default_bin1) n_bin digits n_bin_E) st h2))) /\
         (~ bound_first (length ls) bodies -> exists e,
           decompose argsort (jhistogram choice junk (default_bin0, default_bin1) n_bin digits) st h2 = Raise e /\
           decompose argsort (jehistogram choice junk (default_bin0, default_bin1) n_bin digits n_bin_E) st h2 = Raise e)).
Proof. exact c107_cut. Qed.
Print Assumptions C107_cut.

(** C107 with the potential computed by the library, as in C97. *)
Theorem C107_all : forall n_bin digits n_bin_E sm sm' K argsort table name fma mm (g : galaxy (F64s sm)) (G : F32s sm') kG s ls ld lg R0 D,
  let lr := ls ++ ld ++ lg in let ps := exact_pots kG s lr in let t := pot_error (length lr) R0 D in
  (1 <= n_bin)%Z -> no_ties n_bin digits -> sums_well (F64_rounded sm) (/ IZR (2 ^ 53)) K -> fused (F64_rounded sm) fma -> is_matmul fma mm -> sorting argsort ->
  constructible g -> g_haspot g = false ->
  reads_set (F64_rounded sm) (g_stars g) ls -> reads_set (F64_rounded sm) (g_dm g) ld -> reads_set (F64_rounded sm) (g_gas g) lg ->
  backend_of G table name -> val (F32_rounded sm') G = XR kG -> / IZR (2 ^ 40) <= kG <= IZR (2 ^ 20) ->
  (forall so, largest_softening g so -> val (F64_rounded sm) so = XR s) -> usual s ->
  (forall q, In q lr -> 0 < pm q /\ usual (pm q) /\ forall a, In a [px q; py q; pz q] -> ordinary a /\ Rabs a <= R0) ->
  (forall i j p q, i <> j -> nth_error lr i = Some p -> nth_error lr j = Some q -> D <= sdist s p q) ->
  / IZR (2 ^ 60) <= D -> 0 <= R0 <= IZR (2 ^ 19) * D -> INR (length lr) <= IZR (2 ^ 22) -> lr <> [] ->
  exists h0 h1 i o, potential (W:=F64s sm) (S:=F32s sm') to32 to64 table name g = Ok h0 /\ center h0 = Ok h1 /\
    lowest h0 i /\ (forall i0, clearly_lowest t ps i0 -> i = i0) /\ nth_error lr i = Some o /\
    (let seen := map (seen_from o) in let u := / IZR (2 ^ 53) in let k := K (length ls) in
     let bodies := map2 (whole_body (seen ls)) (seen lr) ps in
     strong_spin u k (seen ls) -> (forall q, In q (seen ld) \/ In q (seen lg) -> SpecChain.within q) ->
     exists h2, star_align_with mm h1 None = Ok h2 /\
       forall m a d ue uz cv used rows, 0 <= d -> 16 * d + / IZR (2 ^ 44) <= m ->
         (forall q x, In (q, x) (combine (seen lr) ps) -> resolved u k t (seen ls) d ue uz q x) ->
         exact_curve m SpecCurve.edgesR bodies ue uz cv -> 0 < a <= 1 -> gentle a cv ->
         (forall j b, (j < length ls)%nat -> nth_error bodies j = Some b -> settled_in n_bin digits ((12 * d + / IZR (2 ^ 47)) / a) cv ue uz (clearly_lowest t ps j) b) ->
         exact_stars (length ls) bodies ue uz cv used rows ->
         forall St (choice : St -> list nat -> nat -> list nat * St) junk cb st,
         (bound_first (length ls) bodies ->
           carries (length lr) used
             (outcome (d_split (jhistogram (N:=RX) choice junk cb n_bin digits) st (map (fun r => [CNum (N:=RX) (XR (snd r))]) rows) [] []))
             (decompose argsort (jhistogram choice junk (default_bin0, default_bin1) n_bin digits) st h2) /\
           ((n_bin_E <= 2 ^ 53)%Z -> (forall j b, (j < length ls)%nat -> nth_error bodies j = Some b -> clear_energy n_bin_E m ue b) ->
           carries (length lr) used
             (outcome (d_split (jehistogram (N:=RX) choice junk cb n_bin digits n_bin_E) st (map (fun r => [CNum (N:=RX) (XR (fst r)); CNum (N:=RX) (XR (snd r))]) rows) [] []))
             (decompose argsort (jehistogram choice junk (default_bin0, default_bin1) n_bin digits n_bin_E) st h2))) /\
         (~ bound_first (length ls) bodies -> exists e,
           decompose argsort (jhistogram choice junk (default_bin0, default_bin1) n_bin digits) st h2 = Raise e /\
           decompose argsort (jehistogram choice junk (default_bin0, default_bin1) n_bin digits n_bin_E) st h2 = Raise e)).
Proof. exact c107_all. Qed.
Print Assumptions C107_all.

(** The stars of the examples of C99 and C103 are settled with respect to thirty bins with two decimals and clear of seven bins of
    energy; the other conditions are met as shown there.  The runs with these numbers of bins succeed. *)
Example EX_C107 : let t := (12 * / 150000 + / IZR (2 ^ 47)) / (99 / 100) in let cv := [(-1, 0); (-1023 / 524288, 1)] in
  no_ties 30 2 /\
  (forall j b, (j < 2)%nat -> nth_error exW_bodies j = Some b ->
     settled_in 30 2 t cv 262144 511 (clearly_lowest (pot_error 3 6 1) [-131072; -131072; -262144] j) b /\ clear_energy 7 (/ 1000) 262144 b) /\
  (forall j b, (j < 3)%nat -> nth_error exV_bodies j = Some b ->
     settled_in 30 2 t cv 262144 511 (clearly_lowest 0 exV_pots j) b /\ clear_energy 7 (/ 1000) 262144 b) /\
  (do h0 <- potential (W:=F64) (S:=F32) to32 to64 (backend_table n1 true junk0) "fortran" exW_gal; do h1 <- center h0; do h2 <- star_align h1 None;
   rmap (fun r => shows (c_labels (fst r))) (decompose asort (jhistogram turns (fun _ => 77%Z) (default_bin0, default_bin1) 30 2) true h2)) = Ok [sZ 1; sZ 1; S754_nan] /\
  (do h1 <- center exV_gal; do h2 <- star_align h1 (Some (fZ 5));
   rmap (fun r => shows (c_labels (fst r))) (decompose asort (jehistogram turns (fun _ => 77%Z) (default_bin0, default_bin1) 30 2 7) true h2)) = Ok [sZ 1; sZ 1; S754_nan; S754_nan].
Proof. exact ex_c107. Qed.
