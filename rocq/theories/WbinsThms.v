(** Property lemmas about the histogram decompositions of a whole analysis with other numbers of bins: C107. *)
From Flocq Require Import Core.
From Coq Require Import Lra Lia Permutation Sorted Floats.SpecFloat.
From Verif Require Import Py Num RX F64 Np Df Data DataFacts DfFacts RebuildFacts Center CenterFacts Align Spec SpecR SpecCirc SpecAlAcc SpecBase SpecCurve SpecChain SpecFma Dgemm SpecDgemm SpecAcc SpecWhole Ex DataThms CenterThms AlignFacts AlignThms Circ CircFacts CurveFacts CircThms OrderThms AlAccFacts AlAccRot AlAccSum AlAccThms ChainFacts ChainThms DgemmThms CtrAccThms EpsAccFacts EpsAccThms EpsCutThms Base Threshold ThresholdThms PolyFacts ChoiceFacts CurveAccFacts CurveAccThms SpecPot Potential PotConcFacts PotFacts PotThms SpecPotAcc AccThms PotAccThms SpecNpAcc NpAccThms Fma FmaThms PipeThms WholeThms SpecHist Hist HistFacts HistThms SpecSplit SplitThms EpsFacts MixStar EdgeFacts EdgeThms EnergyThms SpecWhist WhistFacts AlCutThms WhistThms SpecCut CutChain CutThms BinsThms SpecBins SpecWbins WbinsFacts.
Local Open Scope R_scope.

(** C107: C99 for any number of bins of circularity and any number of decimals of the edges, as long as no
    edge is half way between two decimals, and for any number of bins of energy.  If every bound star is settled with respect to
    the exact edges, JHistogram does what it does in exact arithmetic, its errors included; so does
    JEHistogram if also no bound star is near an inner edge of the energy bins. *)
Lemma c107_decompose : forall n_bin digits n_bin_E sm K argsort fma mm (g h1 : galaxy (F64s sm)) ls ld lg t ps,
  (1 <= n_bin)%Z -> no_ties n_bin digits -> sums_well (F64_rounded sm) (/ IZR (2 ^ 53)) K -> fused (F64_rounded sm) fma -> is_matmul fma mm -> sorting argsort ->
  constructible g -> reads_set (F64_rounded sm) (g_stars g) ls -> reads_set (F64_rounded sm) (g_dm g) ld -> reads_set (F64_rounded sm) (g_gas g) lg ->
  Forall2 (pot_near (F64_rounded sm) t) (all_pots g) ps -> 0 <= t <= 1 -> (forall x, In x ps -> Rabs x <= bpow radix2 200) ->
  center g = Ok h1 ->
  exists i o, lowest g i /\ (forall i0, clearly_lowest t ps i0 -> i = i0) /\ nth_error (ls ++ ld ++ lg) i = Some o /\
    (let seen := map (seen_from o) in let u := / IZR (2 ^ 53) in let k := K (length ls) in
     let bodies := map2 (whole_body (seen ls)) (seen (ls ++ ld ++ lg)) ps in
     strong_spin u k (seen ls) -> (forall q, In q (seen ld) \/ In q (seen lg) -> SpecChain.within q) ->
     exists h2, star_align_with mm h1 None = Ok h2 /\
       forall m a d ue uz cv used rows, 0 <= d -> 16 * d + / IZR (2 ^ 44) <= m ->
         (forall q x, In (q, x) (combine (seen (ls ++ ld ++ lg)) ps) -> resolved u k t (seen ls) d ue uz q x) ->
         exact_curve m SpecCurve.edgesR bodies ue uz cv -> 0 < a <= 1 -> gentle a cv ->
         (forall j b, (j < length ls)%nat -> nth_error bodies j = Some b -> settled_in n_bin digits ((12 * d + / IZR (2 ^ 47)) / a) cv ue uz (clearly_lowest t ps j) b) ->
         exact_stars (length ls) bodies ue uz cv used rows ->
         forall St (choice : St -> list nat -> nat -> list nat * St) junk cb st,
         (bound_first (length ls) bodies ->
           carries (length (ls ++ ld ++ lg)) used
             (outcome (d_split (jhistogram (N:=RX) choice junk cb n_bin digits) st (map (fun r => [CNum (N:=RX) (XR (snd r))]) rows) [] []))
             (decompose argsort (jhistogram choice junk (default_bin0, default_bin1) n_bin digits) st h2) /\
           ((n_bin_E <= 2 ^ 53)%Z -> (forall j b, (j < length ls)%nat -> nth_error bodies j = Some b -> clear_energy n_bin_E m ue b) ->
           carries (length (ls ++ ld ++ lg)) used
             (outcome (d_split (jehistogram (N:=RX) choice junk cb n_bin digits n_bin_E) st (map (fun r => [CNum (N:=RX) (XR (fst r)); CNum (N:=RX) (XR (snd r))]) rows) [] []))
             (decompose argsort (jehistogram choice junk (default_bin0, default_bin1) n_bin digits n_bin_E) st h2))) /\
         (~ bound_first (length ls) bodies -> exists e,
           decompose argsort (jhistogram choice junk (default_bin0, default_bin1) n_bin digits) st h2 = Raise e /\
           decompose argsort (jehistogram choice junk (default_bin0, default_bin1) n_bin digits n_bin_E) st h2 = Raise e)).
Proof.
  intros n_bin digits n_bin_E sm K argsort fma mm g h1 ls ld lg t ps Hn1 Hti UK FM MM Hs Hg Rs Rd Rg FP Ht Hx Hc.
  destruct (whole_orbits sm K fma mm g h1 ls ld lg t ps UK FM MM Hg Rs Rd Rg FP Ht Hx Hc) as (i & o & Hi & Ho & H). exists i, o. split; [exact Hi|].
  assert (Cf : forall i0, clearly_lowest t ps i0 -> forall i', lowest g i' -> i' = i0) by (intros i0 C i' L; eapply centre_found; eauto).
  split; [intros i0 C; now apply Cf|]. split; [exact Ho|].
  cbv zeta in H |- *. intros SS Hw. destruct (H SS Hw) as (h2 & E2 & C2 & Lp & Lps & N). exists h2. split; [exact E2|].
  intros m a d ue uz cv used rows D0 Hm Hr Hcv Pa Ga Hset Hex St choice junk cb st. specialize (N d ue uz Hr).
  set (bodies := map2 _ _ ps) in *.
  pose proof (jcirc_iff sm argsort h2 bodies m d ue uz cv _ C2 Hs Hm Lp N Hcv) as JI.
  set (central := fun k => clearly_lowest t ps k /\ exists b, nth_error bodies k = Some b /\ fst b < 0).
  assert (Hcen : forall k ob, central k -> nth_error (star_orbits h2) k = Some ob -> val (F64_rounded sm) (o_jz ob) = XR 0).
  { intros k ob (Ck & b & Hb & Nb) Hob. assert (k = i) by (symmetry; now apply Cf). subst k.
    assert (Li : (i < length ls)%nat).
    { rewrite <- Lp. pose proof (proj1 (constructible_ok h2) C2) as O2. apply gal_ok_facts in O2 as [O2 _ _ _ _ _ _ _ _]. rewrite <- (orbits_len _ O2). apply nth_error_Some. unfold star_orbits in Hob. congruence. }
    assert (Ha : nth_error (all_orbits h2) i = Some ob).
    { unfold all_orbits, sets. cbn [flat_map]. unfold star_orbits in Hob. rewrite nth_error_app1; [exact Hob|]. apply nth_error_Some. congruence. }
    destruct (Forall2_nth_l _ _ _ N i ob Ha) as (b' & Hb' & e & _ & _ & Z). assert (b' = b) by congruence. subst b'. destruct (Z Nb) as (z & Ez & _).
    rewrite Ez. f_equal. refine (central_zero (F64_rounded sm) (/ IZR (2 ^ 53)) K fma mm g h1 h2 ls ld lg i o (F64_graceful sm) _ _ UK FM MM Hg Rs Rd Rg Hc (Cf i Ck) Ho Li SS E2 ob z Hob Ez).
    - change (/ IZR (2 ^ 53)) with (bpow radix2 (-53)). apply bpow_le. lia.
    - change (/ IZR (2 ^ 53)) with (bpow radix2 (-53)). apply bpow_le. lia. }
  rewrite <- Lp in Hset, Hex, JI |- *.
  assert (Hset' : forall k b, (k < plen (g_stars h2))%nat -> nth_error bodies k = Some b -> settled_in n_bin digits ((12 * d + / IZR (2 ^ 47)) / a) cv ue uz (central k) b).
  { intros k b Lk Hb Nb. destruct (Hset k b Lk Hb Nb) as [A|[A|(A & B)]]; [now left|now right; left|right; right]. split; [|exact B]. split; [exact A|eauto]. }
  assert (Lg : glen h2 = length (ls ++ ld ++ lg)).
  { pose proof (Forall2_length _ _ _ N) as L1. unfold bodies in L1. rewrite map2_length, map_length in L1.
    pose proof (proj1 (constructible_ok h2) C2) as O2. apply gal_ok_facts in O2 as [A1 A2 A3 _ _ _ _ _ _].
    unfold all_orbits, sets in L1. cbn [flat_map] in L1. rewrite !app_length in L1. pose proof (orbits_len _ A1) as B1. pose proof (orbits_len _ A2) as B2. pose proof (orbits_len _ A3) as B3.
    unfold glen. rewrite !app_length in *. rewrite B1, B2, B3 in L1. cbn [length] in L1. lia. }
  rewrite <- Lg. split.
  - intros BF. destruct (proj2 JI BF) as (j & Hj). split.
    + eapply hist_near_in with (central := central); eauto.
    + intros Bn Ce. eapply ehist_near_in with (central := central); eauto.
  - intros BF. destruct (jcirc argsort h2 default_bin0 default_bin1) as [j|e] eqn:Ej; [exfalso; apply BF, JI; eauto|]. exists e. split.
    + apply (star_decompose_errors (F64_rounded sm) argsort St (jhistogram choice junk (default_bin0, default_bin1) n_bin digits) st h2 C2 eps_attrs eq_refl). exact Ej.
    + apply (star_decompose_errors (F64_rounded sm) argsort St (jehistogram choice junk (default_bin0, default_bin1) n_bin digits n_bin_E) st h2 C2 energy_attrs eq_refl). exact Ej.
Qed.

(** C107: the same with a cut-off radius in the alignment, as in C103. *)
Lemma c107_cut : forall n_bin digits n_bin_E sm K argsort fma mm (g h1 : galaxy (F64s sm)) ls ld lg t ps (r : F64s sm) c,
  (1 <= n_bin)%Z -> no_ties n_bin digits -> sums_well (F64_rounded sm) (/ IZR (2 ^ 53)) K -> fused (F64_rounded sm) fma -> is_matmul fma mm -> sorting argsort ->
  constructible g -> reads_set (F64_rounded sm) (g_stars g) ls -> reads_set (F64_rounded sm) (g_dm g) ld -> reads_set (F64_rounded sm) (g_gas g) lg ->
  Forall2 (pot_near (F64_rounded sm) t) (all_pots g) ps -> 0 <= t <= 1 -> (forall x, In x ps -> Rabs x <= bpow radix2 200) ->
  val (F64_rounded sm) r = XR c -> bpow radix2 (-90) <= c -> center g = Ok h1 ->
  exists i o, lowest g i /\ (forall i0, clearly_lowest t ps i0 -> i = i0) /\ nth_error (ls ++ ld ++ lg) i = Some o /\
    (let seen := map (seen_from o) in let u := / IZR (2 ^ 53) in let ins := within_cut c (seen ls) in let k := K (length ins) in
     let bodies := map2 (whole_body ins) (seen (ls ++ ld ++ lg)) ps in
     strong_spin u k ins -> off_edge u c (seen ls) -> (forall q, In q (seen (ls ++ ld ++ lg)) -> SpecChain.within q) ->
     exists h2, star_align_with mm h1 (Some r) = Ok h2 /\
       forall m a d ue uz cv used rows, 0 <= d -> 16 * d + / IZR (2 ^ 44) <= m ->
         (forall q x, In (q, x) (combine (seen (ls ++ ld ++ lg)) ps) -> resolved u k t ins d ue uz q x) ->
         exact_curve m SpecCurve.edgesR bodies ue uz cv -> 0 < a <= 1 -> gentle a cv ->
         (forall j b, (j < length ls)%nat -> nth_error bodies j = Some b -> settled_in n_bin digits ((12 * d + / IZR (2 ^ 47)) / a) cv ue uz (clearly_lowest t ps j) b) ->
         exact_stars (length ls) bodies ue uz cv used rows ->
         forall St (choice : St -> list nat -> nat -> list nat * St) junk cb st,
         (bound_first (length ls) bodies ->
           carries (length (ls ++ ld ++ lg)) used
             (outcome (d_split (jhistogram (N:=RX) choice junk cb n_bin digits) st (map (fun e => [CNum (N:=RX) (XR (snd e))]) rows) [] []))
             (decompose argsort (jhistogram choice junk (default_bin0, default_bin1) n_bin digits) st h2) /\
           ((n_bin_E <= 2 ^ 53)%Z -> (forall j b, (j < length ls)%nat -> nth_error bodies j = Some b -> clear_energy n_bin_E m ue b) ->
           carries (length (ls ++ ld ++ lg)) used
             (outcome (d_split (jehistogram (N:=RX) choice junk cb n_bin digits n_bin_E) st (map (fun e => [CNum (N:=RX) (XR (fst e)); CNum (N:=RX) (XR (snd e))]) rows) [] []))
             (decompose argsort (jehistogram choice junk (default_bin0, default_bin1) n_bin digits n_bin_E) st h2))) /\
         (~ bound_first (length ls) bodies -> exists e,
           decompose argsort (jhistogram choice junk (default_bin0, default_bin1) n_bin digits) st h2 = Raise e /\
           decompose argsort (jehistogram choice junk (default_bin0, default_bin1) n_bin digits n_bin_E) st h2 = Raise e)).
Proof.
  intros n_bin digits n_bin_E sm K argsort fma mm g h1 ls ld lg t ps r c Hn1 Hti UK FM MM Hs Hg Rs Rd Rg FP Ht Hx Er Hcc Hc.
  destruct (cut_orbits sm K fma mm g h1 ls ld lg t ps r c UK FM MM Hg Rs Rd Rg FP Ht Hx Er Hcc Hc) as (i & o & Hi & Ho & H). exists i, o. split; [exact Hi|].
  assert (Cf : forall i0, clearly_lowest t ps i0 -> forall i', lowest g i' -> i' = i0) by (intros i0 C i' L; eapply centre_found; eauto).
  split; [intros i0 C; now apply Cf|]. split; [exact Ho|].
  cbv zeta in H |- *. intros SS Oe Hw. destruct (H SS Oe Hw) as (h2 & E2 & C2 & Lp & Lps & N). exists h2. split; [exact E2|].
  intros m a d ue uz cv used rows D0 Hm Hr Hcv Pa Ga Hset Hex St choice junk cb st. specialize (N d ue uz Hr).
  set (bodies := map2 _ _ ps) in *.
  pose proof (jcirc_iff sm argsort h2 bodies m d ue uz cv _ C2 Hs Hm Lp N Hcv) as JI.
  set (central := fun k => clearly_lowest t ps k /\ exists b, nth_error bodies k = Some b /\ fst b < 0).
  assert (Hcen : forall k ob, central k -> nth_error (star_orbits h2) k = Some ob -> val (F64_rounded sm) (o_jz ob) = XR 0).
  { intros k ob (Ck & b & Hb & Nb) Hob. assert (k = i) by (symmetry; now apply Cf). subst k.
    assert (Li : (i < length ls)%nat).
    { rewrite <- Lp. pose proof (proj1 (constructible_ok h2) C2) as O2. apply gal_ok_facts in O2 as [O2 _ _ _ _ _ _ _ _]. rewrite <- (orbits_len _ O2). apply nth_error_Some. unfold star_orbits in Hob. congruence. }
    assert (Ha : nth_error (all_orbits h2) i = Some ob).
    { unfold all_orbits, sets. cbn [flat_map]. unfold star_orbits in Hob. rewrite nth_error_app1; [exact Hob|]. apply nth_error_Some. congruence. }
    destruct (Forall2_nth_l _ _ _ N i ob Ha) as (b' & Hb' & e & _ & _ & Z). assert (b' = b) by congruence. subst b'. destruct (Z Nb) as (z & Ez & _).
    rewrite Ez. f_equal. refine (cut_zero (F64_rounded sm) (/ IZR (2 ^ 53)) K fma mm g h1 h2 ls ld lg i o r c (F64_graceful sm) _ _ UK FM MM Hg Rs Rd Rg Hc Er Hcc (Cf i Ck) Ho Li (conj SS (conj Oe _)) E2 ob z Hob Ez).
    - change (/ IZR (2 ^ 53)) with (bpow radix2 (-53)). apply bpow_le. lia.
    - change (/ IZR (2 ^ 53)) with (bpow radix2 (-53)). apply bpow_le. lia.
    - intros q I. apply Hw. rewrite !map_app. apply in_or_app. now left. }
  rewrite <- Lp in Hset, Hex, JI |- *.
  assert (Hset' : forall k b, (k < plen (g_stars h2))%nat -> nth_error bodies k = Some b -> settled_in n_bin digits ((12 * d + / IZR (2 ^ 47)) / a) cv ue uz (central k) b).
  { intros k b Lk Hb Nb. destruct (Hset k b Lk Hb Nb) as [A|[A|(A & B)]]; [now left|now right; left|right; right]. split; [|exact B]. split; [exact A|eauto]. }
  assert (Lg : glen h2 = length (ls ++ ld ++ lg)).
  { pose proof (Forall2_length _ _ _ N) as L1. unfold bodies in L1. rewrite map2_length, map_length in L1.
    pose proof (proj1 (constructible_ok h2) C2) as O2. apply gal_ok_facts in O2 as [A1 A2 A3 _ _ _ _ _ _].
    unfold all_orbits, sets in L1. cbn [flat_map] in L1. rewrite !app_length in L1. pose proof (orbits_len _ A1) as B1. pose proof (orbits_len _ A2) as B2. pose proof (orbits_len _ A3) as B3.
    unfold glen. rewrite !app_length in *. rewrite B1, B2, B3 in L1. cbn [length] in L1. lia. }
  rewrite <- Lg. split.
  - intros BF. destruct (proj2 JI BF) as (j & Hj). split.
    + eapply hist_near_in with (central := central); eauto.
    + intros Bn Ce. eapply ehist_near_in with (central := central); eauto.
  - intros BF. destruct (jcirc argsort h2 default_bin0 default_bin1) as [j|e] eqn:Ej; [exfalso; apply BF, JI; eauto|]. exists e. split.
    + apply (star_decompose_errors (F64_rounded sm) argsort St (jhistogram choice junk (default_bin0, default_bin1) n_bin digits) st h2 C2 eps_attrs eq_refl). exact Ej.
    + apply (star_decompose_errors (F64_rounded sm) argsort St (jehistogram choice junk (default_bin0, default_bin1) n_bin digits n_bin_E) st h2 C2 energy_attrs eq_refl). exact Ej.
Qed.

(** C107 with the potential computed by the library, as in C97. *)
Lemma c107_all : forall n_bin digits n_bin_E sm sm' K argsort table name fma mm (g : galaxy (F64s sm)) (G : F32s sm') kG s ls ld lg R0 D,
  let lr := ls ++ ld ++ lg in let ps := exact_pots kG s lr in let t := pot_error (length lr) R0 D in
  (1 <= n_bin)%Z -> no_ties n_bin digits -> sums_well (F64_rounded sm) (/ IZR (2 ^ 53)) K -> fused (F64_rounded sm) fma -> is_matmul fma mm -> sorting argsort ->
  constructible g -> g_haspot g = false ->
  reads_set (F64_rounded sm) (g_stars g) ls -> reads_set (F64_rounded sm) (g_dm g) ld -> reads_set (F64_rounded sm) (g_gas g) lg ->
  backend_of G table name -> val (F32_rounded sm') G = XR kG -> / IZR (2 ^ 40) <= kG <= IZR (2 ^ 20) ->
  (forall so, largest_softening g so -> val (F64_rounded sm) so = XR s) -> usual s ->
  (forall q, In q lr -> 0 < pm q /\ usual (pm q) /\ forall a, In a [px q; py q; pz q] -> ordinary a /\ Rabs a <= R0) ->
  (forall i j p q, i <> j -> nth_error lr i = Some p -> nth_error lr j = Some q -> D <= sdist s p q) ->
  / IZR (2 ^ 60) <= D -> 0 <= R0 <= IZR (2 ^ 19) * D -> INR (length lr) <= IZR (2 ^ 22) -> lr <> [] ->
  exists h0 h1 i o, potential (W:=F64s sm) (S:=F32s sm') to32 to64 table name g = Ok h0 /\ center h0 = Ok h1 /\
    lowest h0 i /\ (forall i0, clearly_lowest t ps i0 -> i = i0) /\ nth_error lr i = Some o /\
    (let seen := map (seen_from o) in let u := / IZR (2 ^ 53) in let k := K (length ls) in
     let bodies := map2 (whole_body (seen ls)) (seen lr) ps in
     strong_spin u k (seen ls) -> (forall q, In q (seen ld) \/ In q (seen lg) -> SpecChain.within q) ->
     exists h2, star_align_with mm h1 None = Ok h2 /\
       forall m a d ue uz cv used rows, 0 <= d -> 16 * d + / IZR (2 ^ 44) <= m ->
         (forall q x, In (q, x) (combine (seen lr) ps) -> resolved u k t (seen ls) d ue uz q x) ->
         exact_curve m SpecCurve.edgesR bodies ue uz cv -> 0 < a <= 1 -> gentle a cv ->
         (forall j b, (j < length ls)%nat -> nth_error bodies j = Some b -> settled_in n_bin digits ((12 * d + / IZR (2 ^ 47)) / a) cv ue uz (clearly_lowest t ps j) b) ->
         exact_stars (length ls) bodies ue uz cv used rows ->
         forall St (choice : St -> list nat -> nat -> list nat * St) junk cb st,
         (bound_first (length ls) bodies ->
           carries (length lr) used
             (outcome (d_split (jhistogram (N:=RX) choice junk cb n_bin digits) st (map (fun r => [CNum (N:=RX) (XR (snd r))]) rows) [] []))
             (decompose argsort (jhistogram choice junk (default_bin0, default_bin1) n_bin digits) st h2) /\
           ((n_bin_E <= 2 ^ 53)%Z -> (forall j b, (j < length ls)%nat -> nth_error bodies j = Some b -> clear_energy n_bin_E m ue b) ->
           carries (length lr) used
             (outcome (d_split (jehistogram (N:=RX) choice junk cb n_bin digits n_bin_E) st (map (fun r => [CNum (N:=RX) (XR (fst r)); CNum (N:=RX) (XR (snd r))]) rows) [] []))
             (decompose argsort (jehistogram choice junk (default_bin0, default_bin1) n_bin digits n_bin_E) st h2))) /\
         (~ bound_first (length ls) bodies -> exists e,
           decompose argsort (jhistogram choice junk (default_bin0, default_bin1) n_bin digits) st h2 = Raise e /\
           decompose argsort (jehistogram choice junk (default_bin0, default_bin1) n_bin digits n_bin_E) st h2 = Raise e)).
Proof.
  intros n_bin digits n_bin_E sm sm' K argsort table name fma mm g G kG s ls ld lg R0 D lr ps t Hn1 Hti UK FM MM Hs Hg Hp Rs Rd Rg BK VG HG So Us Q Ap HD HR Ln NE.
  destruct (potential_exact sm sm' table name g G kG s ls ld lg R0 D Hg Hp Rs Rd Rg BK VG HG So Us Q Ap HD HR Ln NE) as (h0 & h1 & E0 & E1 & C0 & Rs0 & Rd0 & Rg0 & FP & Ht & Hx).
  destruct (c107_decompose n_bin digits n_bin_E sm K argsort fma mm h0 h1 ls ld lg t ps Hn1 Hti UK FM MM Hs C0 Rs0 Rd0 Rg0 FP Ht Hx E1) as (i & o & H1 & H2 & H3 & H4).
  exists h0, h1, i, o. do 5 (split; [assumption|]). exact H4.
Qed.

(** The stars of the examples of C99 and C103 are settled with respect to thirty bins with two decimals and clear of seven bins of
    energy; the other conditions are met as shown there.  The runs with these numbers of bins succeed. *)
Example ex_c107 : let t := (12 * / 150000 + / IZR (2 ^ 47)) / (99 / 100) in let cv := [(-1, 0); (-1023 / 524288, 1)] in
  no_ties 30 2 /\
  (forall j b, (j < 2)%nat -> nth_error exW_bodies j = Some b ->
     settled_in 30 2 t cv 262144 511 (clearly_lowest (pot_error 3 6 1) [-131072; -131072; -262144] j) b /\ clear_energy 7 (/ 1000) 262144 b) /\
  (forall j b, (j < 3)%nat -> nth_error exV_bodies j = Some b ->
     settled_in 30 2 t cv 262144 511 (clearly_lowest 0 exV_pots j) b /\ clear_energy 7 (/ 1000) 262144 b) /\
  (do h0 <- potential (W:=F64) (S:=F32) to32 to64 (backend_table n1 true junk0) "fortran" exW_gal; do h1 <- center h0; do h2 <- star_align h1 None;
   rmap (fun r => shows (c_labels (fst r))) (decompose asort (jhistogram turns (fun _ => 77%Z) (default_bin0, default_bin1) 30 2) true h2)) = Ok [sZ 1; sZ 1; S754_nan] /\
  (do h1 <- center exV_gal; do h2 <- star_align h1 (Some (fZ 5));
   rmap (fun r => shows (c_labels (fst r))) (decompose asort (jehistogram turns (fun _ => 77%Z) (default_bin0, default_bin1) 30 2 7) true h2)) = Ok [sZ 1; sZ 1; S754_nan; S754_nan].
Proof.
  cbv zeta. split; [apply exB_ties|].
  assert (I1 : forall c, interpolates [(-1, 0); (-1023 / 524288, 1)] (-462 / 262144) c -> c = 1).
  { intros c Ic. inversion Ic as [|? ? ? ?|? ? ? ? ? ? B1 B2|? ? ? ? ? ? ? B1 Ic']; subst; [lra|lra|]. inversion Ic'; subst; [lra|reflexivity]. }
  assert (/ IZR (2 ^ 47) <= / 1000000) by (apply Rinv_le_contravar; [lra|apply IZR_le; lia]). assert (0 < / IZR (2 ^ 47)) by (apply Rinv_0_lt_compat, IZR_lt; reflexivity).
  assert (Ed : forall k, (0 <= k <= 30)%Z -> 1 / 1000 < Rabs (246 / 511 - decimal_edge 30 2 k)).
  { intros k Hk. unfold decimal_edge. change (IZR (10 ^ 2)) with 100. pose proof (Znearest_half (fun x => negb (Z.even x)) ((-1 + 2 * IZR k / 30) * 100)) as Hh. fold ZnearestE in Hh. set (z := ZnearestE _) in *. clearbody z.
    destruct (Z_le_gt_dec k 22) as [L|L].
    - apply IZR_le in L. apply Rabs_le_inv in Hh. rewrite Rabs_pos_eq; lra.
    - assert (L' : (23 <= k)%Z) by lia. apply IZR_le in L'. apply Rabs_le_inv in Hh. rewrite Rabs_left; lra. }
  assert (Ce : forall e, - 1 / 100 <= e / 262144 <= 0 -> forall z, clear_energy 7 (/ 1000) 262144 (e, z)).
  { intros e He z _ i Hi. cbn [fst]. assert (L : (i <= 6)%Z) by lia. apply IZR_le in L. rewrite Rabs_pos_eq; lra. }
  assert (S1 : forall P, settled_in 30 2 ((12 * / 150000 + / IZR (2 ^ 47)) / (99 / 100)) [(-1, 0); (-1023 / 524288, 1)] 262144 511 P (-1023 / 2, 511)).
  { intros P Nb. cbn [fst snd]. right; left. rewrite Rabs_pos_eq by lra. split; [right; left; f_equal; lra|lra]. }
  assert (S2 : forall P, settled_in 30 2 ((12 * / 150000 + / IZR (2 ^ 47)) / (99 / 100)) [(-1, 0); (-1023 / 524288, 1)] 262144 511 P (-462, 246)).
  { intros P Nb. cbn [fst snd]. left. intros c k Ic Hk. apply I1 in Ic as ->. rewrite Rmult_1_r. specialize (Ed k Hk). lra. }
  split.
  { intros j b Lj Hb. destruct j as [|[|j]]; [| |lia]; injection Hb as <-; (split; [auto|apply Ce; lra]). }
  split.
  { intros j b Lj Hb. destruct j as [|[|[|j]]]; [| | |lia]; injection Hb as <-; [split; [auto|apply Ce; lra]..|]. split; intros Nb; cbn [fst] in Nb; lra. }
  split; vm_compute; reflexivity.
Qed.
