(** Property theorems. Property lemmas about the histogram decompositions of a whole analysis against exact arithmetic: C99. Proofs are in WhistThms.v. *)
From Verif Require Import Py Num RX F64 Np Df Data DataFacts DfFacts RebuildFacts Center CenterFacts Align Spec SpecR SpecCirc SpecAlAcc SpecBase SpecCurve SpecChain SpecFma Dgemm SpecDgemm SpecAcc SpecWhole Ex DataThms CenterThms AlignFacts AlignThms Circ CircFacts CurveFacts CircThms OrderThms AlAccFacts AlAccRot AlAccSum AlAccThms ChainFacts ChainThms DgemmThms CtrAccThms EpsAccFacts EpsAccThms EpsCutThms Base Threshold ThresholdThms PolyFacts ChoiceFacts CurveAccFacts CurveAccThms SpecPot Potential PotConcFacts PotFacts PotThms SpecPotAcc AccThms PotAccThms SpecNpAcc NpAccThms Fma FmaThms PipeThms WholeThms SpecHist Hist HistFacts HistThms SpecSplit SplitThms EpsFacts MixStar EdgeFacts EdgeThms EnergyThms SpecWhist WhistFacts WhistThms.
From Flocq Require Import Core.
From Coq Require Import Lra Lia Permutation Sorted Floats.SpecFloat.
Local Open Scope R_scope.

(** A galaxy whose potentials are known up to a relative error [t] is centred, aligned with any matrix
    product and decomposed with JHistogram or JEHistogram with their default numbers of bins, all in
    double precision.  [bodies] are the exact energies and angular momenta, as in C97.  If every
    bound star is settled, that is clear of the edges of the histogram by the margin of C97, or a point of
    the curve, or the centre, then the decomposition does with the same generator what it does
    in exact arithmetic with the exact circularities (and energies) of the stars that
    are bound and not above the curve; every other particle gets NaN.  It fails if an
    unbound star precedes a bound one. *)
Theorem C99_decompose : forall sm K argsort fma mm (g h1 : galaxy (F64s sm)) ls ld lg t ps,
  sums_well (F64_rounded sm) (/ IZR (2 ^ 53)) K -> fused (F64_rounded sm) fma -> is_matmul fma mm -> sorting argsort ->
  constructible g -> reads_set (F64_rounded sm) (g_stars g) ls -> reads_set (F64_rounded sm) (g_dm g) ld -> reads_set (F64_rounded sm) (g_gas g) lg ->
  Forall2 (pot_near (F64_rounded sm) t) (all_pots g) ps -> 0 <= t <= 1 -> (forall x, In x ps -> Rabs x <= bpow radix2 200) ->
  center g = Ok h1 ->
  exists i o, lowest g i /\ (forall i0, clearly_lowest t ps i0 -> i = i0) /\ nth_error (ls ++ ld ++ lg) i = Some o /\
    (let seen := map (seen_from o) in let u := / IZR (2 ^ 53) in let k := K (length ls) in
     let bodies := map2 (whole_body (seen ls)) (seen (ls ++ ld ++ lg)) ps in
     strong_spin u k (seen ls) -> (forall q, In q (seen ld) \/ In q (seen lg) -> SpecChain.within q) ->
     exists h2, star_align_with mm h1 None = Ok h2 /\
       forall m a d ue uz cv used rows, 0 <= d -> 16 * d + / IZR (2 ^ 44) <= m ->
         (forall q x, In (q, x) (combine (seen (ls ++ ld ++ lg)) ps) -> resolved u k t (seen ls) d ue uz q x) ->
         exact_curve m SpecCurve.edgesR bodies ue uz cv -> 0 < a <= 1 -> gentle a cv ->
         (forall j b, (j < length ls)%nat -> nth_error bodies j = Some b -> settled ((12 * d + / IZR (2 ^ 47)) / a) cv ue uz (clearly_lowest t ps j) b) ->
         exact_stars (length ls) bodies ue uz cv used rows ->
         forall St (choice : St -> list nat -> nat -> list nat * St) junk cb st,
         (bound_first (length ls) bodies ->
           carries (length (ls ++ ld ++ lg)) used
             (outcome (d_split (jhistogram (N:=RX) choice junk cb 100 2) st (map (fun r => [CNum (N:=RX) (XR (snd r))]) rows) [] []))
             (decompose argsort (jhistogram choice junk (default_bin0, default_bin1) 100 2) st h2) /\
           carries (length (ls ++ ld ++ lg)) used
             (outcome (d_split (jehistogram (N:=RX) choice junk cb 100 2 20) st (map (fun r => [CNum (N:=RX) (XR (fst r)); CNum (N:=RX) (XR (snd r))]) rows) [] []))
             (decompose argsort (jehistogram choice junk (default_bin0, default_bin1) 100 2 20) st h2)) /\
         (~ bound_first (length ls) bodies -> exists e,
           decompose argsort (jhistogram choice junk (default_bin0, default_bin1) 100 2) st h2 = Raise e /\
           decompose argsort (jehistogram choice junk (default_bin0, default_bin1) 100 2 20) st h2 = Raise e)).
Proof. exact c99_decompose. Qed.
Print Assumptions C99_decompose.

(** What the histogram decomposition does in exact arithmetic, cell by cell: the spheroid
    gets all stars with negative circularities, and of those from k/50 to (k+1)/50 as many as there are
    from -(k+1)/50 to -k/50. *)
Theorem C99_counts : forall (N : Num) (RN : Rounded N) St (choice : St -> list nat -> nat -> list nat * St) junk cb st n total bodies m ue uz cv used rows (r : res (components N * St)),
  draws choice -> 0 < m -> exact_curve m SpecCurve.edgesR bodies ue uz cv -> exact_stars n bodies ue uz cv used rows ->
  carries total used (outcome (d_split (jhistogram (N:=RX) choice junk cb 100 2) st (map (fun r => [CNum (N:=RX) (XR (snd r))]) rows) [] [])) r ->
  exists cs st', r = Ok (cs, st') /\
    (forall i, (i < total)%nat -> ~ In i used -> nth_error (c_labels cs) i = Some nnan) /\
    forall k l l', (0 <= k < 50)%Z -> NoDup l -> NoDup l' ->
      (forall i, In i l <-> in_cell n bodies ue uz cv k i) -> (forall i, In i l' <-> in_cell n bodies ue uz cv (-1 - k) i) ->
      count_label 0 (c_labels cs) l' = length l' /\
      count_label 0 (c_labels cs) l = Nat.min (length l') (length l) /\
      count_label 1 (c_labels cs) l = (length l - Nat.min (length l') (length l))%nat.
Proof. exact c99_counts. Qed.
Print Assumptions C99_counts.

(** The stars that are kept, and their exact energies and circularities, exist. *)
Theorem C99_exists : forall n bodies ue uz cv, exists used rows, exact_stars n bodies ue uz cv used rows.
Proof. exact c99_exists. Qed.
Print Assumptions C99_exists.

(** The whole analysis with JHistogram: the potential of any of the backends, centring, aligning with any matrix product and
    the decomposition, for every generator that draws without replacement.  If no unbound star precedes
    a bound one and every bound star is settled, the decomposition returns, and in every exact
    cell of circularities the spheroid gets the number of stars of the exact rule. *)
Theorem C99_all : forall sm sm' K argsort table name fma mm (g : galaxy (F64s sm)) (G : F32s sm') kG s ls ld lg R0 D,
  let lr := ls ++ ld ++ lg in let ps := exact_pots kG s lr in let t := pot_error (length lr) R0 D in
  sums_well (F64_rounded sm) (/ IZR (2 ^ 53)) K -> fused (F64_rounded sm) fma -> is_matmul fma mm -> sorting argsort ->
  constructible g -> g_haspot g = false ->
  reads_set (F64_rounded sm) (g_stars g) ls -> reads_set (F64_rounded sm) (g_dm g) ld -> reads_set (F64_rounded sm) (g_gas g) lg ->
  backend_of G table name -> val (F32_rounded sm') G = XR kG -> / IZR (2 ^ 40) <= kG <= IZR (2 ^ 20) ->
  (forall so, largest_softening g so -> val (F64_rounded sm) so = XR s) -> usual s ->
  (forall q, In q lr -> 0 < pm q /\ usual (pm q) /\ forall a, In a [px q; py q; pz q] -> ordinary a /\ Rabs a <= R0) ->
  (forall i j p q, i <> j -> nth_error lr i = Some p -> nth_error lr j = Some q -> D <= sdist s p q) ->
  / IZR (2 ^ 60) <= D -> 0 <= R0 <= IZR (2 ^ 19) * D -> INR (length lr) <= IZR (2 ^ 22) -> lr <> [] ->
  exists h0 h1 i o, potential (W:=F64s sm) (S:=F32s sm') to32 to64 table name g = Ok h0 /\ center h0 = Ok h1 /\
    lowest h0 i /\ (forall i0, clearly_lowest t ps i0 -> i = i0) /\ nth_error lr i = Some o /\
    (let seen := map (seen_from o) in let u := / IZR (2 ^ 53) in let k := K (length ls) in
     let bodies := map2 (whole_body (seen ls)) (seen lr) ps in
     strong_spin u k (seen ls) -> (forall q, In q (seen ld) \/ In q (seen lg) -> SpecChain.within q) ->
     exists h2, star_align_with mm h1 None = Ok h2 /\
       forall m a d ue uz cv, 0 <= d -> 16 * d + / IZR (2 ^ 44) <= m ->
         (forall q x, In (q, x) (combine (seen lr) ps) -> resolved u k t (seen ls) d ue uz q x) ->
         exact_curve m SpecCurve.edgesR bodies ue uz cv -> 0 < a <= 1 -> gentle a cv ->
         (forall j b, (j < length ls)%nat -> nth_error bodies j = Some b -> settled ((12 * d + / IZR (2 ^ 47)) / a) cv ue uz (clearly_lowest t ps j) b) ->
         bound_first (length ls) bodies ->
         forall St (choice : St -> list nat -> nat -> list nat * St) junk st, draws choice ->
         exists cs st', decompose argsort (jhistogram choice junk (default_bin0, default_bin1) 100 2) st h2 = Ok (cs, st') /\
           (forall j, (j < length lr)%nat -> ~ ((j < length ls)%nat /\ exists b, nth_error bodies j = Some b /\ kept cv ue uz b) -> nth_error (c_labels cs) j = Some nnan) /\
           forall c l l', (0 <= c < 50)%Z -> NoDup l -> NoDup l' ->
             (forall j, In j l <-> in_cell (length ls) bodies ue uz cv c j) -> (forall j, In j l' <-> in_cell (length ls) bodies ue uz cv (-1 - c) j) ->
             count_label 0 (c_labels cs) l' = length l' /\
             count_label 0 (c_labels cs) l = Nat.min (length l') (length l) /\
             count_label 1 (c_labels cs) l = (length l - Nat.min (length l') (length l))%nat).
Proof. exact c99_all. Qed.
Print Assumptions C99_all.

(** For the galaxy of the example of C97 the two stars are settled: the faster one is a
    point of the curve and in the last cell, the slower one has circularity 246/511, in the cell
    from 0.48 to 0.5, with margins above 2 t.  No star rotates the other way, so both are of the disc. *)
Example EX_C99 : let RS := F64_rounded (seqsum 53 1024 p53 e1024) in let u := / IZR (2 ^ 53) in
  let lr := exW_stars ++ exW_dark ++ [] in let ps := exact_pots 1 0 lr in let t := pot_error (length lr) 6 1 in
  let cv := [(-1, 0); (-1023 / 524288, 1)] in
  constructible exW_gal /\ g_haspot exW_gal = false /\
  clearly_lowest t ps 2 /\
  (exists o, nth_error lr 2 = Some o /\
    let seen := map (seen_from o) in let bodies := map2 (whole_body (seen exW_stars)) (seen lr) ps in
    strong_spin u (2 * INR 2) (seen exW_stars) /\
    (forall q x, In (q, x) (combine (seen lr) ps) -> resolved u (2 * INR 2) t (seen exW_stars) (/ 150000) 262144 511 q x) /\
    exact_curve (/ 1000) SpecCurve.edgesR bodies 262144 511 cv /\ gentle (99 / 100) cv /\ bound_first 2 bodies /\
    (forall j b, (j < 2)%nat -> nth_error bodies j = Some b -> settled ((12 * / 150000 + / IZR (2 ^ 47)) / (99 / 100)) cv 262144 511 (clearly_lowest t ps j) b) /\
    exact_stars 2 bodies 262144 511 cv [0; 1]%nat [(-1023 / 524288, 1); (-231 / 131072, 246 / 511)] /\
    in_cell 2 bodies 262144 511 cv 49 0 /\ in_cell 2 bodies 262144 511 cv 24 1) /\
  draws turns /\
  (do h0 <- potential (W:=F64) (S:=F32) to32 to64 (backend_table n1 true junk0) "fortran" exW_gal; do h1 <- center h0; do h2 <- star_align h1 None;
   rmap (fun r => shows (c_labels (fst r))) (decompose asort (jhistogram turns (fun _ => 77%Z) (default_bin0, default_bin1) 100 2) true h2)) =
  Ok [sZ 1; sZ 1; S754_nan].
Proof. exact ex_c99. Qed.
