(** Property theorems. Property lemmas about the whole analysis with a cut-off radius in the alignment: C103. Proofs are in CutThms.v. *)
From Verif Require Import Py Num RX F64 Np Df Data DataFacts DfFacts RebuildFacts Center CenterFacts Align Spec SpecR SpecCirc SpecAlAcc SpecBase SpecCurve SpecChain SpecFma Dgemm SpecDgemm SpecAcc SpecWhole Ex DataThms CenterThms AlignFacts AlignThms Circ CircFacts CurveFacts CircThms OrderThms AlAccFacts AlAccRot AlAccSum AlAccThms ChainFacts ChainThms DgemmThms CtrAccThms EpsAccFacts EpsAccThms EpsCutThms Base Threshold ThresholdThms PolyFacts ChoiceFacts CurveAccFacts CurveAccThms SpecPot Potential PotConcFacts PotFacts PotThms SpecPotAcc AccThms PotAccThms SpecNpAcc NpAccThms Fma FmaThms PipeThms WholeThms SpecHist Hist HistFacts HistThms SpecSplit SplitThms EpsFacts MixStar EdgeFacts EdgeThms EnergyThms SpecWhist WhistFacts AlCutThms WhistThms SpecCut CutChain CutThms.
From Flocq Require Import Core.
From Coq Require Import Lra Lia Permutation Sorted Floats.SpecFloat.
Local Open Scope R_scope.

(** As C97, but aligned with a cut-off radius [r]: [ins] are the stars closer than the radius to the
    particle of lowest potential, and only they decide the axis.  No star may lie
    within a relative 30000 u of the radius. *)
Theorem C103_labels : forall sm K argsort junk (cut : F64s sm) rt fma mm (g h1 : galaxy (F64s sm)) ls ld lg t ps (r : F64s sm) c,
  sums_well (F64_rounded sm) (/ IZR (2 ^ 53)) K -> fused (F64_rounded sm) fma -> is_matmul fma mm -> sorting argsort ->
  constructible g -> reads_set (F64_rounded sm) (g_stars g) ls -> reads_set (F64_rounded sm) (g_dm g) ld -> reads_set (F64_rounded sm) (g_gas g) lg ->
  Forall2 (pot_near (F64_rounded sm) t) (all_pots g) ps -> 0 <= t <= 1 -> (forall x, In x ps -> Rabs x <= bpow radix2 200) ->
  val (F64_rounded sm) cut = XR rt -> val (F64_rounded sm) r = XR c -> bpow radix2 (-90) <= c -> center g = Ok h1 ->
  exists i o, lowest g i /\ (forall i0, clearly_lowest t ps i0 -> i = i0) /\ nth_error (ls ++ ld ++ lg) i = Some o /\
    (let seen := map (seen_from o) in let u := / IZR (2 ^ 53) in let ins := within_cut c (seen ls) in let k := K (length ins) in
     let bodies := map2 (whole_body ins) (seen (ls ++ ld ++ lg)) ps in
     strong_spin u k ins -> off_edge u c (seen ls) -> (forall q, In q (seen (ls ++ ld ++ lg)) -> SpecChain.within q) ->
     exists h2, star_align_with mm h1 (Some r) = Ok h2 /\
       forall m a d ue uz cv, 0 <= d -> 16 * d + / IZR (2 ^ 44) <= m ->
         (forall q x, In (q, x) (combine (seen (ls ++ ld ++ lg)) ps) -> resolved u k t ins d ue uz q x) ->
         exact_curve m SpecCurve.edgesR bodies ue uz cv -> 0 < a <= 1 -> gentle a cv ->
         ((exists cs, decompose argsort (jthreshold junk (default_bin0, default_bin1) cut) tt h2 = Ok (cs, tt)) <-> bound_first (length ls) bodies) /\
         forall cs st', decompose argsort (jthreshold junk (default_bin0, default_bin1) cut) tt h2 = Ok (cs, st') ->
           forall j b, (j < length ls)%nat -> nth_error bodies j = Some b ->
           exists w, nth_error (c_labels cs) j = Some w /\ SpecWhole.labelled ((12 * d + / IZR (2 ^ 47)) / a) rt cv ue uz b w).
Proof. exact c103_labels. Qed.
Print Assumptions C103_labels.

(** The whole analysis with a cut-off radius: the potential of any of the backends, centring, aligning with any
    matrix product and JThreshold with the default bins. *)
Theorem C103_all : forall sm sm' K argsort junk table name fma mm (cut : F64s sm) rt (g : galaxy (F64s sm)) (G : F32s sm') kG s ls ld lg R0 D (r : F64s sm) c,
  let lr := ls ++ ld ++ lg in let ps := exact_pots kG s lr in let t := pot_error (length lr) R0 D in
  sums_well (F64_rounded sm) (/ IZR (2 ^ 53)) K -> fused (F64_rounded sm) fma -> is_matmul fma mm -> sorting argsort ->
  constructible g -> g_haspot g = false ->
  reads_set (F64_rounded sm) (g_stars g) ls -> reads_set (F64_rounded sm) (g_dm g) ld -> reads_set (F64_rounded sm) (g_gas g) lg ->
  backend_of G table name -> val (F32_rounded sm') G = XR kG -> / IZR (2 ^ 40) <= kG <= IZR (2 ^ 20) ->
  (forall so, largest_softening g so -> val (F64_rounded sm) so = XR s) -> usual s ->
  (forall q, In q lr -> 0 < pm q /\ usual (pm q) /\ forall a, In a [px q; py q; pz q] -> ordinary a /\ Rabs a <= R0) ->
  (forall i j p q, i <> j -> nth_error lr i = Some p -> nth_error lr j = Some q -> D <= sdist s p q) ->
  / IZR (2 ^ 60) <= D -> 0 <= R0 <= IZR (2 ^ 19) * D -> INR (length lr) <= IZR (2 ^ 22) -> lr <> [] ->
  val (F64_rounded sm) cut = XR rt -> val (F64_rounded sm) r = XR c -> bpow radix2 (-90) <= c ->
  exists h0 h1 i o, potential (W:=F64s sm) (S:=F32s sm') to32 to64 table name g = Ok h0 /\ center h0 = Ok h1 /\
    lowest h0 i /\ (forall i0, clearly_lowest t ps i0 -> i = i0) /\ nth_error lr i = Some o /\
    (let seen := map (seen_from o) in let u := / IZR (2 ^ 53) in let ins := within_cut c (seen ls) in let k := K (length ins) in
     let bodies := map2 (whole_body ins) (seen lr) ps in
     strong_spin u k ins -> off_edge u c (seen ls) -> (forall q, In q (seen lr) -> SpecChain.within q) ->
     exists h2, star_align_with mm h1 (Some r) = Ok h2 /\
       forall m a d ue uz cv, 0 <= d -> 16 * d + / IZR (2 ^ 44) <= m ->
         (forall q x, In (q, x) (combine (seen lr) ps) -> resolved u k t ins d ue uz q x) ->
         exact_curve m SpecCurve.edgesR bodies ue uz cv -> 0 < a <= 1 -> gentle a cv ->
         ((exists cs, decompose argsort (jthreshold junk (default_bin0, default_bin1) cut) tt h2 = Ok (cs, tt)) <-> bound_first (length ls) bodies) /\
         forall cs st', decompose argsort (jthreshold junk (default_bin0, default_bin1) cut) tt h2 = Ok (cs, st') ->
           forall j b, (j < length ls)%nat -> nth_error bodies j = Some b ->
           exists w, nth_error (c_labels cs) j = Some w /\ SpecWhole.labelled ((12 * d + / IZR (2 ^ 47)) / a) rt cv ue uz b w).
Proof. exact c103_all. Qed.
Print Assumptions C103_all.

(** As C99, aligned with a cut-off radius: JHistogram and JEHistogram do with the same generator
    what they do in exact arithmetic. *)
Theorem C103_decompose : forall sm K argsort fma mm (g h1 : galaxy (F64s sm)) ls ld lg t ps (r : F64s sm) c,
  sums_well (F64_rounded sm) (/ IZR (2 ^ 53)) K -> fused (F64_rounded sm) fma -> is_matmul fma mm -> sorting argsort ->
  constructible g -> reads_set (F64_rounded sm) (g_stars g) ls -> reads_set (F64_rounded sm) (g_dm g) ld -> reads_set (F64_rounded sm) (g_gas g) lg ->
  Forall2 (pot_near (F64_rounded sm) t) (all_pots g) ps -> 0 <= t <= 1 -> (forall x, In x ps -> Rabs x <= bpow radix2 200) ->
  val (F64_rounded sm) r = XR c -> bpow radix2 (-90) <= c -> center g = Ok h1 ->
  exists i o, lowest g i /\ (forall i0, clearly_lowest t ps i0 -> i = i0) /\ nth_error (ls ++ ld ++ lg) i = Some o /\
    (let seen := map (seen_from o) in let u := / IZR (2 ^ 53) in let ins := within_cut c (seen ls) in let k := K (length ins) in
     let bodies := map2 (whole_body ins) (seen (ls ++ ld ++ lg)) ps in
     strong_spin u k ins -> off_edge u c (seen ls) -> (forall q, In q (seen (ls ++ ld ++ lg)) -> SpecChain.within q) ->
     exists h2, star_align_with mm h1 (Some r) = Ok h2 /\
       forall m a d ue uz cv used rows, 0 <= d -> 16 * d + / IZR (2 ^ 44) <= m ->
         (forall q x, In (q, x) (combine (seen (ls ++ ld ++ lg)) ps) -> resolved u k t ins d ue uz q x) ->
         exact_curve m SpecCurve.edgesR bodies ue uz cv -> 0 < a <= 1 -> gentle a cv ->
         (forall j b, (j < length ls)%nat -> nth_error bodies j = Some b -> settled ((12 * d + / IZR (2 ^ 47)) / a) cv ue uz (clearly_lowest t ps j) b) ->
         exact_stars (length ls) bodies ue uz cv used rows ->
         forall St (choice : St -> list nat -> nat -> list nat * St) junk cb st,
         (bound_first (length ls) bodies ->
           carries (length (ls ++ ld ++ lg)) used
             (outcome (d_split (jhistogram (N:=RX) choice junk cb 100 2) st (map (fun e => [CNum (N:=RX) (XR (snd e))]) rows) [] []))
             (decompose argsort (jhistogram choice junk (default_bin0, default_bin1) 100 2) st h2) /\
           carries (length (ls ++ ld ++ lg)) used
             (outcome (d_split (jehistogram (N:=RX) choice junk cb 100 2 20) st (map (fun e => [CNum (N:=RX) (XR (fst e)); CNum (N:=RX) (XR (snd e))]) rows) [] []))
             (decompose argsort (jehistogram choice junk (default_bin0, default_bin1) 100 2 20) st h2)) /\
         (~ bound_first (length ls) bodies -> exists e,
           decompose argsort (jhistogram choice junk (default_bin0, default_bin1) 100 2) st h2 = Raise e /\
           decompose argsort (jehistogram choice junk (default_bin0, default_bin1) 100 2 20) st h2 = Raise e)).
Proof. exact c103_decompose. Qed.
Print Assumptions C103_decompose.

(** The whole analysis with a cut-off radius and JHistogram: in every exact cell of
    circularities the spheroid gets the number of stars of the exact rule. *)
Theorem C103_counts : forall sm sm' K argsort table name fma mm (g : galaxy (F64s sm)) (G : F32s sm') kG s ls ld lg R0 D (r : F64s sm) c0,
  let lr := ls ++ ld ++ lg in let ps := exact_pots kG s lr in let t := pot_error (length lr) R0 D in
  sums_well (F64_rounded sm) (/ IZR (2 ^ 53)) K -> fused (F64_rounded sm) fma -> is_matmul fma mm -> sorting argsort ->
  constructible g -> g_haspot g = false ->
  reads_set (F64_rounded sm) (g_stars g) ls -> reads_set (F64_rounded sm) (g_dm g) ld -> reads_set (F64_rounded sm) (g_gas g) lg ->
  backend_of G table name -> val (F32_rounded sm') G = XR kG -> / IZR (2 ^ 40) <= kG <= IZR (2 ^ 20) ->
  (forall so, largest_softening g so -> val (F64_rounded sm) so = XR s) -> usual s ->
  (forall q, In q lr -> 0 < pm q /\ usual (pm q) /\ forall a, In a [px q; py q; pz q] -> ordinary a /\ Rabs a <= R0) ->
  (forall i j p q, i <> j -> nth_error lr i = Some p -> nth_error lr j = Some q -> D <= sdist s p q) ->
  / IZR (2 ^ 60) <= D -> 0 <= R0 <= IZR (2 ^ 19) * D -> INR (length lr) <= IZR (2 ^ 22) -> lr <> [] ->
  val (F64_rounded sm) r = XR c0 -> bpow radix2 (-90) <= c0 ->
  exists h0 h1 i o, potential (W:=F64s sm) (S:=F32s sm') to32 to64 table name g = Ok h0 /\ center h0 = Ok h1 /\
    lowest h0 i /\ (forall i0, clearly_lowest t ps i0 -> i = i0) /\ nth_error lr i = Some o /\
    (let seen := map (seen_from o) in let u := / IZR (2 ^ 53) in let ins := within_cut c0 (seen ls) in let k := K (length ins) in
     let bodies := map2 (whole_body ins) (seen lr) ps in
     strong_spin u k ins -> off_edge u c0 (seen ls) -> (forall q, In q (seen lr) -> SpecChain.within q) ->
     exists h2, star_align_with mm h1 (Some r) = Ok h2 /\
       forall m a d ue uz cv, 0 <= d -> 16 * d + / IZR (2 ^ 44) <= m ->
         (forall q x, In (q, x) (combine (seen lr) ps) -> resolved u k t ins d ue uz q x) ->
         exact_curve m SpecCurve.edgesR bodies ue uz cv -> 0 < a <= 1 -> gentle a cv ->
         (forall j b, (j < length ls)%nat -> nth_error bodies j = Some b -> settled ((12 * d + / IZR (2 ^ 47)) / a) cv ue uz (clearly_lowest t ps j) b) ->
         bound_first (length ls) bodies ->
         forall St (choice : St -> list nat -> nat -> list nat * St) junk st, draws choice ->
         exists cs st', decompose argsort (jhistogram choice junk (default_bin0, default_bin1) 100 2) st h2 = Ok (cs, st') /\
           (forall j, (j < length lr)%nat -> ~ ((j < length ls)%nat /\ exists b, nth_error bodies j = Some b /\ kept cv ue uz b) -> nth_error (c_labels cs) j = Some nnan) /\
           forall c l l', (0 <= c < 50)%Z -> NoDup l -> NoDup l' ->
             (forall j, In j l <-> in_cell (length ls) bodies ue uz cv c j) -> (forall j, In j l' <-> in_cell (length ls) bodies ue uz cv (-1 - c) j) ->
             count_label 0 (c_labels cs) l' = length l' /\
             count_label 0 (c_labels cs) l = Nat.min (length l') (length l) /\
             count_label 1 (c_labels cs) l = (length l - Nat.min (length l') (length l))%nat).
Proof. exact c103_counts. Qed.
Print Assumptions C103_counts.

(** Centring and then aligning with a cut-off radius, in any format with u from 2^-100 to 2^-40: every particle ends at
    its exact distance from the particle of lowest potential and the particles' circularities refer to the
    axis of the stars inside the radius. *)
Theorem C103_chain : forall (S : Num) (RS : Rounded S) u K, graceful RS u -> bpow radix2 (-100) <= u -> u <= bpow radix2 (-40) -> sums_well RS u K ->
  forall fma mm, fused RS fma -> is_matmul fma mm ->
  forall (g h1 : galaxy S) ls ld lg (r : S) c, constructible g -> val RS r = XR c -> bpow radix2 (-90) <= c ->
  reads_set RS (g_stars g) ls -> reads_set RS (g_dm g) ld -> reads_set RS (g_gas g) lg -> center g = Ok h1 ->
  exists i o, lowest g i /\ nth_error (ls ++ ld ++ lg) i = Some o /\
    (let seen := map (seen_from o) in let ins := within_cut c (seen ls) in let k := K (length ins) in
     strong_spin u k ins -> off_edge u c (seen ls) -> (forall q, In q (seen (ls ++ ld ++ lg)) -> SpecChain.within q) ->
     exists h2, star_align_with mm h1 (Some r) = Ok h2 /\ constructible h2 /\
       set_near RS u k ins (g_stars h2) (seen ls) /\ set_near RS u k ins (g_dm h2) (seen ld) /\
       set_near RS u k ins (g_gas h2) (seen lg)).
Proof. exact c103_chain. Qed.
Print Assumptions C103_chain.

(** In particular [star_align] as it is. *)
Theorem C103_plain : forall sm K (g h1 : galaxy (F64s sm)) ls ld lg (r : F64s sm) c,
  sums_well (F64_rounded sm) (/ IZR (2 ^ 53)) K -> constructible g -> val (F64_rounded sm) r = XR c -> bpow radix2 (-90) <= c ->
  reads_set (F64_rounded sm) (g_stars g) ls -> reads_set (F64_rounded sm) (g_dm g) ld -> reads_set (F64_rounded sm) (g_gas g) lg -> center g = Ok h1 ->
  exists i o, lowest g i /\ nth_error (ls ++ ld ++ lg) i = Some o /\
    (let seen := map (seen_from o) in let u := / IZR (2 ^ 53) in let ins := within_cut c (seen ls) in let k := K (length ins) in
     strong_spin u k ins -> off_edge u c (seen ls) -> (forall q, In q (seen (ls ++ ld ++ lg)) -> SpecChain.within q) ->
     exists h2, star_align h1 (Some r) = Ok h2 /\ constructible h2 /\
       set_near (F64_rounded sm) u k ins (g_stars h2) (seen ls) /\ set_near (F64_rounded sm) u k ins (g_dm h2) (seen ld) /\
       set_near (F64_rounded sm) u k ins (g_gas h2) (seen lg)).
Proof. exact c103_plain. Qed.
Print Assumptions C103_plain.

(** The hypotheses of C103 are met by three stars and a particle of dark matter with a cut-off radius of 5.  The third star, 64
    away, would turn the axis if it counted: the x component of the total angular momentum of all
    three stars is not zero, that of the two inside is.  For the cut 1/4 the slower star is
    certain to be labelled 1 and the far star, which is unbound, gets NaN; the run does so. *)
Example EX_C103 : let RS := F64_rounded (seqsum 53 1024 p53 e1024) in let u := / IZR (2 ^ 53) in let lr := exV_stars ++ exW_dark ++ [] in
  constructible exV_gal /\
  (reads_set RS (g_stars exV_gal) exV_stars /\ reads_set RS (g_dm exV_gal) exW_dark /\ reads_set RS (g_gas exV_gal) []) /\
  Forall2 (pot_near RS 0) (all_pots exV_gal) exV_pots /\ val RS (fZ 5) = XR 5 /\ bpow radix2 (-90) <= 5 /\
  fused RS fma64 /\ is_matmul (S:=F64) fma64 (plain_matmul (S:=F64)) /\ sums_well RS u (fun n => 2 * INR n) /\ clearly_lowest 0 exV_pots 3 /\
  (exists o, nth_error lr 3 = Some o /\
    let seen := map (seen_from o) in let ins := within_cut 5 (seen exV_stars) in let bodies := map2 (whole_body ins) (seen lr) exV_pots in
    ins = exW_seen /\ LX None ins = 0 /\ LX None (seen exV_stars) <> 0 /\
    strong_spin u (2 * INR (length ins)) ins /\ off_edge u 5 (seen exV_stars) /\ (forall q, In q (seen lr) -> SpecChain.within q) /\
    16 * / 150000 + / IZR (2 ^ 44) <= / 1000 /\
    (forall q x, In (q, x) (combine (seen lr) exV_pots) -> resolved u (2 * INR (length ins)) 0 ins (/ 150000) 262144 511 q x) /\
    exact_curve (/ 1000) SpecCurve.edgesR bodies 262144 511 [(-1, 0); (-1023 / 524288, 1)] /\ gentle (99 / 100) [(-1, 0); (-1023 / 524288, 1)] /\ bound_first 3 bodies /\
    nth_error bodies 1 = Some (-462, 246) /\ nth_error bodies 2 = Some (1948, 0) /\
    (forall w : F64, SpecWhole.labelled ((12 * / 150000 + / IZR (2 ^ 47)) / (99 / 100)) (1 / 4) [(-1, 0); (-1023 / 524288, 1)] 262144 511 (-462, 246) w -> w = nofZ 1) /\
    (forall j b, (j < 3)%nat -> nth_error bodies j = Some b ->
       settled ((12 * / 150000 + / IZR (2 ^ 47)) / (99 / 100)) [(-1, 0); (-1023 / 524288, 1)] 262144 511 (clearly_lowest 0 exV_pots j) b)) /\
  exV_run (Some (fZ 5)) = Ok [sZ 1; sZ 1; S754_nan; S754_nan].
Proof. exact ex_c103. Qed.

(** For the galaxy of the examples of C97 and C99, which meets the other hypotheses, a cut-off radius of 5 leaves all
    stars inside and far from the edge.  The run with the potential computed gives the labels of C97. *)
Example EX_C103_all : let u := / IZR (2 ^ 53) in
  (exists o, nth_error (exW_stars ++ exW_dark ++ []) 2 = Some o /\
    let seen := map (seen_from o) in within_cut 5 (seen exW_stars) = seen exW_stars /\ off_edge u 5 (seen exW_stars) /\ strong_spin u (2 * INR (length (within_cut 5 (seen exW_stars)))) (within_cut 5 (seen exW_stars))) /\
  (do h0 <- potential (W:=F64) (S:=F32) to32 to64 (backend_table n1 true junk0) "fortran" exW_gal; do h1 <- center h0; do h2 <- star_align h1 (Some (fZ 5));
   rmap (fun e => shows (c_labels (fst e))) (decompose asort (jthreshold (fun _ => 77%Z) (default_bin0, default_bin1) (nlit 1 4)) tt h2)) =
  Ok [sZ 1; sZ 1; S754_nan].
Proof. exact ex_c103_all. Qed.
