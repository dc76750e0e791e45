(** Property lemmas about the matrix given to the mixture models in a whole analysis: C104. *)
From Flocq Require Import Core.
From Coq Require Import Lra Lia Permutation Sorted Floats.SpecFloat.
From Verif Require Import Py Num RX F64 Np Df Data DataFacts DfFacts RebuildFacts Center CenterFacts Align Spec SpecR SpecCirc SpecAlAcc SpecBase SpecCurve SpecChain SpecFma Dgemm SpecDgemm SpecAcc SpecWhole Ex DataThms CenterThms AlignFacts AlignThms Circ CircFacts CurveFacts CircThms OrderThms AlAccFacts AlAccRot AlAccSum AlAccThms ChainFacts ChainThms DgemmThms CtrAccThms EpsAccFacts EpsAccThms EpsCutThms Base Threshold ThresholdThms PolyFacts ChoiceFacts CurveAccFacts CurveAccThms SpecPot Potential PotConcFacts PotFacts PotThms SpecPotAcc AccThms PotAccThms SpecNpAcc NpAccThms Fma FmaThms PipeThms WholeThms SpecHist Hist HistFacts HistThms SpecSplit SplitThms EpsFacts MixStar EdgeFacts EdgeThms EnergyThms SpecWhist WhistFacts AlCutThms WhistThms SpecCut CutChain SpecMix SpecBase BaseFacts BaseThms Mixture MixThms CutThms SpecRows RowFacts.
Local Open Scope R_scope.

Lemma nth_combine {A B} : forall (l : list A) (l' : list B) k a b, nth_error l k = Some a -> nth_error l' k = Some b -> nth_error (combine l l') k = Some (a, b).
Proof. induction l as [|x l IH]; intros [|y l'] [|k] a b H1 H2; try discriminate; cbn in *; [congruence|]. now apply IH. Qed.

(** *** What decompose does with the outcome of split *)
Lemma handed_intro {N : Num} (RN : Rounded N) argsort St (D : decomposer N St) st (g : galaxy N) j used :
  constructible g -> star_attrs (d_attributes D) -> d_mask D = stars_mask ->
  jcirc argsort g (fst (d_cbins D)) (snd (d_cbins D)) = Ok j -> StronglySorted lt used ->
  (forall k, In k used <-> (k < plen (g_stars g))%nat /\ forall a, In a (d_attributes D) -> exists v, nth_error (circ_col j a) k = Some v /\ nfin v = true) ->
  exists ys, handed_on (glen g) used (d_split D st (map (feature_row j (d_attributes D)) used) ys (d_attributes D)) (decompose argsort D st g).
Proof.
  intros Hc HA Hm Hj Su Mu. pose proof (star_attrs_rows g _ HA) as Ho.
  destruct (star_decompose_errors RN argsort St D st g Hc HA Hm) as (_ & E). destruct (E j Hj) as (X & y & mask & H1 & H2 & _ & _ & _ & HR & _). clear E.
  destruct (star_rows RN argsort _ g _ X y mask Hc HA H1 H2) as (j' & Ej & L3 & _ & LX & US & EX & CW & FL). assert (j' = j) as -> by congruence.
  assert (where_ mask = used) as W by (apply sorted_members; [apply where_sorted|exact Su|]; intros k; rewrite US, Mu; reflexivity).
  rewrite W in EX, CW, FL. exists (select mask y). rewrite <- EX.
  destruct (d_split D st (select mask X) (select mask y) (d_attributes D)) as [[[labels pr] st']|e] eqn:S; cbn [handed_on]; [|now apply HR].
  intros L1 L2. pose proof H2 as H2'. rewrite <- Hm in H2'.
  destruct (c35_succeeds N RN argsort St D st g X y mask labels pr st' Hc Ho H1 H2' L3 S) as (cs & Ec); [congruence|intros p P; rewrite CW; auto|].
  exists cs. split; [exact Ec|].
  destruct (decompose_inv _ _ _ _ _ _ Ec) as (X' & y' & mask' & labels' & pr' & I1 & I2 & I3 & I4 & I5 & I6 & I7 & I8).
  assert (X' = X /\ y' = y) as (-> & ->) by (split; congruence). assert (mask' = mask) as -> by congruence.
  assert (labels' = labels /\ pr' = pr) as (-> & ->) by (split; congruence).
  destruct (c36_labels N X labels mask _ I6) as (_ & _ & HT & HF); [congruence|].
  assert (RK : forall i k, nth_error used i = Some k -> rank mask k = i /\ nth_error mask k = Some true) by (rewrite <- W; intros i k; apply where_rank).
  split; [|split; [|split]].
  - intros i k Hi. destruct (RK i k Hi) as (<- & M). now apply HT.
  - intros i Hi Ni. apply HF. auto.
  - intros ->. unfold complete_probs in I7. congruence.
  - intros p ->. destruct (c36_probs N X p mask _ I7) as (q & Eq & Wq & LR & PT & PF); [rewrite CW; auto|].
    exists q. split; [exact Eq|]. split; [exact Wq|]. split.
    + intros i k Hi. destruct (RK i k Hi) as (<- & M). now apply PT.
    + intros i Hi Ni. apply PF. auto.
Qed.

(** *** From the input to the orbits *)
Lemma set_planes {N : Num} (RN : Rounded N) u k l d up : forall (os : list (orbit N)) lq ps, length ps = length lq -> Forall2 (orbit_near RN u k l) os lq ->
  (forall q x, In (q, x) (combine lq ps) -> plane_resolved u k l d up q x) ->
  Forall2 (near_plane RN d up) os (combine (map2 (whole_body l) lq ps) (map (plane_part l) lq)).
Proof.
  induction os as [|o os IH]; intros lq ps L F H; inversion F as [|? q ? lq' (jz & jp & _ & Vp & _ & Ap) F']; subst; [constructor|].
  destruct ps as [|x ps]; [discriminate L|]. cbn [map2 map combine]. apply Forall2_cons.
  - intros Ne. exists jp. split; [exact Vp|]. cbn [snd]. eapply Rle_trans; [exact Ap|]. apply (H q x); [now left|exact Ne].
  - apply IH; [now injection L|exact F'|]. intros q' x' I. apply H. now right.
Qed.

(** The conclusions of both chains, with and without a cut-off radius. *)
Lemma both_chains sm K fma mm (g h1 : galaxy (F64s sm)) ls ld lg (r : option (F64s sm)) c :
  sums_well (F64_rounded sm) (/ IZR (2 ^ 53)) K -> fused (F64_rounded sm) fma -> is_matmul fma mm ->
  constructible g -> reads_set (F64_rounded sm) (g_stars g) ls -> reads_set (F64_rounded sm) (g_dm g) ld -> reads_set (F64_rounded sm) (g_gas g) lg ->
  reads_cut (F64_rounded sm) r c -> center g = Ok h1 ->
  exists i o, lowest g i /\ nth_error (ls ++ ld ++ lg) i = Some o /\
    (let seen := map (seen_from o) in let u := / IZR (2 ^ 53) in let ins := axis_stars c (seen ls) in let k := K (length ins) in
     strong_spin u k ins -> clear_edge u c (seen ls) -> (forall q, In q (seen (ls ++ ld ++ lg)) -> SpecChain.within q) ->
     exists h2, star_align_with mm h1 r = Ok h2 /\ constructible h2 /\
       set_near (F64_rounded sm) u k ins (g_stars h2) (seen ls) /\ set_near (F64_rounded sm) u k ins (g_dm h2) (seen ld) /\
       set_near (F64_rounded sm) u k ins (g_gas h2) (seen lg) /\
       ((forall j, lowest g j -> j = i) -> (i < length ls)%nat -> forall ob z, nth_error (star_orbits h2) i = Some ob -> val (F64_rounded sm) (o_jz ob) = XR z -> z = 0)).
Proof.
  intros UK FM MM Hg Rs Rd Rg RC Hc.
  assert (U0 : bpow radix2 (-100) <= / IZR (2 ^ 53)) by (change (/ IZR (2 ^ 53)) with (bpow radix2 (-53)); apply bpow_le; lia).
  assert (U1 : / IZR (2 ^ 53) <= bpow radix2 (-40)) by (change (/ IZR (2 ^ 53)) with (bpow radix2 (-53)); apply bpow_le; lia).
  pose proof (F64_graceful sm) as GR.
  destruct r as [r|], c as [c|]; cbn [reads_cut] in RC; try contradiction.
  - destruct RC as (Er & Hcc).
    destruct (chain_cut _ (F64_rounded sm) _ K GR U0 U1 UK fma mm FM MM g h1 ls ld lg r c Hg Er Hcc Rs Rd Rg Hc) as (i & o & Hi & Ho & H). exists i, o. split; [exact Hi|]. split; [exact Ho|].
    cbv zeta in H |- *. cbn [axis_stars clear_edge]. intros SS Oe Hw. destruct (H SS Oe Hw) as (h2 & E2 & C2 & Ns & Nd & Ng). exists h2. do 5 (split; [assumption|]).
    intros Un Li. refine (cut_zero (F64_rounded sm) (/ IZR (2 ^ 53)) K fma mm g h1 h2 ls ld lg i o r c GR U0 U1 UK FM MM Hg Rs Rd Rg Hc Er Hcc Un Ho Li (conj SS (conj Oe _)) E2).
    intros q I. apply Hw. rewrite !map_app. apply in_or_app. now left.
  - destruct (c94_chain _ (F64_rounded sm) _ K GR U0 U1 UK fma mm FM MM g h1 ls ld lg Hg Rs Rd Rg Hc) as (i & o & Hi & Ho & H). exists i, o. split; [exact Hi|]. split; [exact Ho|].
    cbv zeta in H |- *. cbn [axis_stars clear_edge]. rewrite map_length. intros SS _ Hw. destruct (H SS) as (h2 & E2 & C2 & Ns & Nd & Ng).
    { intros q I. apply Hw. rewrite !map_app, !in_app_iff. tauto. }
    exists h2. do 5 (split; [assumption|]).
    intros Un Li. exact (central_zero (F64_rounded sm) (/ IZR (2 ^ 53)) K fma mm g h1 h2 ls ld lg i o GR U0 U1 UK FM MM Hg Rs Rd Rg Hc Un Ho Li SS E2).
Qed.

Lemma near_all sm K fma mm (g h1 h2 : galaxy (F64s sm)) ls ld lg t ps (r : option (F64s sm)) ins o :
  is_matmul fma mm -> constructible g -> reads_set (F64_rounded sm) (g_stars g) ls -> reads_set (F64_rounded sm) (g_dm g) ld -> reads_set (F64_rounded sm) (g_gas g) lg ->
  Forall2 (pot_near (F64_rounded sm) t) (all_pots g) ps -> 0 <= t <= 1 -> (forall x, In x ps -> Rabs x <= bpow radix2 200) -> center g = Ok h1 ->
  let seen := map (seen_from o) in let u := / IZR (2 ^ 53) in let k := K (length ins) in
  (forall q, In q (seen (ls ++ ld ++ lg)) -> SpecChain.within q) ->
  star_align_with mm h1 r = Ok h2 -> constructible h2 ->
  set_near (F64_rounded sm) u k ins (g_stars h2) (seen ls) -> set_near (F64_rounded sm) u k ins (g_dm h2) (seen ld) -> set_near (F64_rounded sm) u k ins (g_gas h2) (seen lg) ->
  plen (g_stars h2) = length ls /\ length ps = length (ls ++ ld ++ lg) /\
  (forall d ue uz, (forall q x, In (q, x) (combine (seen (ls ++ ld ++ lg)) ps) -> resolved u k t ins d ue uz q x) ->
     Forall2 (near_orbit (F64_rounded sm) d ue uz) (all_orbits h2) (map2 (whole_body ins) (seen (ls ++ ld ++ lg)) ps)) /\
  (forall d up, (forall q x, In (q, x) (combine (seen (ls ++ ld ++ lg)) ps) -> plane_resolved u k ins d up q x) ->
     Forall2 (near_plane (F64_rounded sm) d up) (all_orbits h2) (combine (map2 (whole_body ins) (seen (ls ++ ld ++ lg)) ps) (map (plane_part ins) (seen (ls ++ ld ++ lg))))).
Proof.
  intros MM Hg Rs Rd Rg FP Ht Hx Hc. cbv zeta. intros Hw E2 C2 Ns Nd Ng.
  set (RN := F64_rounded sm) in *. set (u := / IZR (2 ^ 53)) in *. assert (GR : graceful RN u) by apply F64_graceful.
  assert (Hp : g_haspot g = true). { destruct (g_haspot g) eqn:E; [reflexivity|]. unfold center in Hc. rewrite E in Hc. discriminate. }
  destruct (c09_translation _ RN g h1 Hg Hc) as (i' & x0 & y0 & z0 & _ & _ & _ & _ & M).
  destruct M as (Hh & C1 & M).
  destruct (c94_frame _ fma mm MM h1 r C1) as (_ & _ & F). destruct (F h2 E2) as (_ & Hp2 & F2). clear F.
  pose proof (proj1 (constructible_ok g) Hg) as Og. destruct (pots_of g Og Hp) as (ws & wd & wg & P1 & P2 & P3 & P4).
  rewrite P4 in FP. apply Forall2_app_inv_l in FP as (pss & ps' & FPs & FP & ->). apply Forall2_app_inv_l in FP as (psd & psg & FPd & FPg & ->).
  apply gal_ok_facts in Og as [Os Od Oq _ _ _ _ _ _].
  unfold sets in M, F2.
  inversion M as [|? ? ? ? ((_ & _ & _ & _ & _ & A1 & _ & _ & _ & _ & A2) & _) M1]; subst. inversion M1 as [|? ? ? ? ((_ & _ & _ & _ & _ & B1 & _ & _ & _ & _ & B2) & _) M2]; subst.
  inversion M2 as [|? ? ? ? ((_ & _ & _ & _ & _ & D1 & _ & _ & _ & _ & D2) & _) M3]; subst. clear M M1 M2 M3.
  inversion F2 as [|? ? ? ? (_ & _ & A3 & _ & _ & A4) M1]; subst. inversion M1 as [|? ? ? ? (_ & _ & B3 & _ & _ & B4) M2]; subst.
  inversion M2 as [|? ? ? ? (_ & _ & D3 & _ & _ & D4) M3]; subst. clear F2 M1 M2 M3.
  pose proof (reads_plen RN _ _ Os Rs) as L1. pose proof (reads_plen RN _ _ Od Rd) as L2. pose proof (reads_plen RN _ _ Oq Rg) as L3.
  pose proof (Forall2_length _ _ _ FPs) as Q1. pose proof (Forall2_length _ _ _ FPd) as Q2. pose proof (Forall2_length _ _ _ FPg) as Q3.
  assert (W : forall p w, pset_ok p -> p_pot (N:=F64s sm) p = Some w -> length w = plen p) by (intros p w Hok; apply (pset_ok_lengths p Hok)).
  pose proof (W _ _ Os P1) as W1. pose proof (W _ _ Od P2) as W2. pose proof (W _ _ Oq P3) as W3. clear W.
  split; [congruence|]. split; [rewrite !app_length; lia|]. split.
  2:{ intros d up Hr. apply (set_planes RN u (K (length ins)) ins d up); [rewrite map_length, !app_length; lia| |exact Hr].
      unfold all_orbits, sets. cbn [flat_map]. rewrite app_nil_r, !map_app. apply Forall2_app; [apply Ns|apply Forall2_app; [apply Nd|apply Ng]]. }
  intros d ue uz Hr. apply constructible_ok in C2. apply gal_ok_facts in C2 as [Os2 Od2 Oq2 _ _ _ _ _ _].
  unfold all_orbits, sets. cbn [flat_map]. rewrite app_nil_r, !map_app. rewrite !map2_app by (rewrite map_length; lia).
  rewrite !map_app in Hr.
  assert (CA : forall A B (a1 a2 : list A) (b1 b2 : list B), length a1 = length b1 -> combine (a1 ++ a2) (b1 ++ b2) = combine a1 b1 ++ combine a2 b2).
  { intros A B a1. induction a1 as [|a a1 IH]; intros a2 [|b b1] b2 Hl; try discriminate; [reflexivity|]. cbn. f_equal. apply IH. now injection Hl. }
  rewrite !CA in Hr by (rewrite map_length; lia).
  assert (U6 : 0 < u <= / 1000000).
  { split; [apply Rinv_0_lt_compat, IZR_lt; reflexivity|apply Rinv_le_contravar; [lra|apply IZR_le; vm_compute; discriminate]]. }
  rewrite !map_app in Hw.
  assert (W1' : forall q, In q (map (seen_from o) ls) -> SpecChain.within q) by (intros q I; apply Hw, in_or_app; now left).
  assert (W2' : forall q, In q (map (seen_from o) ld) -> SpecChain.within q) by (intros q I; apply Hw; rewrite !in_app_iff; tauto).
  assert (W3' : forall q, In q (map (seen_from o) lg) -> SpecChain.within q) by (intros q I; apply Hw; rewrite !in_app_iff; tauto).
  apply Forall2_app; [|apply Forall2_app].
  - apply (set_orbits RN u GR U6 (K (length ins)) ins _ _ ws d ue uz t); auto; [congruence|intros x I; apply Hx, in_or_app; now left|intros q x I; apply Hr, in_or_app; now left].
  - apply (set_orbits RN u GR U6 (K (length ins)) ins _ _ wd d ue uz t); auto; [congruence|intros x I; apply Hx; rewrite !in_app_iff; tauto|intros q x I; apply Hr; rewrite !in_app_iff; tauto].
  - apply (set_orbits RN u GR U6 (K (length ins)) ins _ _ wg d ue uz t); auto; [congruence|intros x I; apply Hx; rewrite !in_app_iff; tauto|intros q x I; apply Hr; rewrite !in_app_iff; tauto].
Qed.

(** *** C104 *)

(** From the positions, velocities and potentials of the input to the matrix of a mixture model (any decomposer
    with these attributes and the mask of the stars): the rows are those of the stars that exact arithmetic keeps, each
    with the normalised energy, the circularity and the projected circularity of exact
    arithmetic up to stated errors; the labels and probabilities found for the rows go to these stars and the
    other particles get NaN.  If an unbound star precedes a bound one there is an error. *)
Lemma c104_matrix : forall sm K argsort fma mm (g h1 : galaxy (F64s sm)) ls ld lg t ps (r : option (F64s sm)) c,
  sums_well (F64_rounded sm) (/ IZR (2 ^ 53)) K -> fused (F64_rounded sm) fma -> is_matmul fma mm -> sorting argsort ->
  constructible g -> reads_set (F64_rounded sm) (g_stars g) ls -> reads_set (F64_rounded sm) (g_dm g) ld -> reads_set (F64_rounded sm) (g_gas g) lg ->
  Forall2 (pot_near (F64_rounded sm) t) (all_pots g) ps -> 0 <= t <= 1 -> (forall x, In x ps -> Rabs x <= bpow radix2 200) ->
  reads_cut (F64_rounded sm) r c -> center g = Ok h1 ->
  exists i o, lowest g i /\ (forall i0, clearly_lowest t ps i0 -> i = i0) /\ nth_error (ls ++ ld ++ lg) i = Some o /\
    (let seen := map (seen_from o) in let u := / IZR (2 ^ 53) in let ins := axis_stars c (seen ls) in let k := K (length ins) in
     let qs := seen (ls ++ ld ++ lg) in let bodies := map2 (whole_body ins) qs ps in let planes := map (plane_part ins) qs in
     strong_spin u k ins -> clear_edge u c (seen ls) -> (forall q, In q qs -> SpecChain.within q) ->
     exists h2, star_align_with mm h1 r = Ok h2 /\
       forall m a d ue uz up cv used, 0 <= d -> 16 * d + / IZR (2 ^ 44) <= m ->
         (forall q x, In (q, x) (combine qs ps) -> resolved u k t ins d ue uz q x /\ plane_resolved u k ins d up q x) ->
         exact_curve m SpecCurve.edgesR bodies ue uz cv -> plane_unit (combine bodies planes) up -> 0 < a <= 1 -> gentle a cv ->
         (forall j b, (j < length ls)%nat -> nth_error bodies j = Some b ->
            off_curve ((12 * d + / IZR (2 ^ 47)) / a) cv ue uz (clearly_lowest t ps j) b /\ high_curve ((12 * d + / IZR (2 ^ 47)) / a) cv ue uz b) ->
         kept_stars (length ls) bodies ue uz cv used ->
         (bound_first (length ls) bodies ->
           exists X, Forall2 (fun i row => exists b, nth_error (combine bodies planes) i = Some b /\ row_near (F64_rounded sm) d ((12 * d + / IZR (2 ^ 47)) / a) cv ue uz up b row) used X /\
             forall St (D : decomposer (F64s sm) St) st, d_attributes D = ["normalized_star_energy"; "eps"; "eps_r"]%string -> d_mask D = stars_mask -> d_cbins D = (default_bin0, default_bin1) ->
             exists ys, handed_on (length (ls ++ ld ++ lg)) used (d_split D st X ys (d_attributes D)) (decompose argsort D st h2)) /\
         (~ bound_first (length ls) bodies ->
           exists e, forall St (D : decomposer (F64s sm) St) st, d_attributes D = ["normalized_star_energy"; "eps"; "eps_r"]%string -> d_mask D = stars_mask -> d_cbins D = (default_bin0, default_bin1) ->
             decompose argsort D st h2 = Raise e)).
Proof.
  intros sm K argsort fma mm g h1 ls ld lg t ps r c UK FM MM Hs Hg Rs Rd Rg FP Ht Hx RC Hc.
  destruct (both_chains sm K fma mm g h1 ls ld lg r c UK FM MM Hg Rs Rd Rg RC Hc) as (i & o & Hi & Ho & H). exists i, o. split; [exact Hi|].
  assert (Cf : forall i0, clearly_lowest t ps i0 -> forall i', lowest g i' -> i' = i0) by (intros i0 C i' L; eapply centre_found; eauto).
  split; [intros i0 C; now apply Cf|]. split; [exact Ho|].
  cbv zeta in H |- *. intros SS Oe Hw. destruct (H SS Oe Hw) as (h2 & E2 & C2 & Ns & Nd & Ng & Cz). exists h2. split; [exact E2|].
  set (ins := axis_stars c _) in *.
  destruct (near_all sm K fma mm g h1 h2 ls ld lg t ps r ins o MM Hg Rs Rd Rg FP Ht Hx Hc Hw E2 C2 Ns Nd Ng) as (Lp & Lps & N & NP).
  intros m a d ue uz up cv used D0 Hm Hr Hcv Hup Pa Ga Hoff Hex. specialize (N d ue uz (fun q x I => proj1 (Hr q x I))). specialize (NP d up (fun q x I => proj2 (Hr q x I))).
  set (planes := map (plane_part ins) _) in *. set (bodies := map2 _ _ ps) in *.
  assert (Lpl : length planes = length bodies) by (unfold planes, bodies; rewrite map_length, map2_length, map_length; lia).
  pose proof (jcirc_iff sm argsort h2 bodies m d ue uz cv _ C2 Hs Hm Lp N Hcv) as JI.
  set (central := fun k => clearly_lowest t ps k /\ exists b, nth_error bodies k = Some b /\ fst b < 0).
  assert (Hcen : forall k ob, central k -> nth_error (star_orbits h2) k = Some ob -> val (F64_rounded sm) (o_jz ob) = XR 0).
  { intros k ob (Ck & b & Hb & Nb) Hob. assert (k = i) by (symmetry; now apply Cf). subst k.
    assert (Li : (i < length ls)%nat).
    { rewrite <- Lp. pose proof (proj1 (constructible_ok h2) C2) as O2. apply gal_ok_facts in O2 as [O2 _ _ _ _ _ _ _ _]. rewrite <- (orbits_len _ O2). apply nth_error_Some. unfold star_orbits in Hob. congruence. }
    assert (Ha : nth_error (all_orbits h2) i = Some ob).
    { unfold all_orbits, sets. cbn [flat_map]. unfold star_orbits in Hob. rewrite nth_error_app1; [exact Hob|]. apply nth_error_Some. congruence. }
    destruct (Forall2_nth_l _ _ _ N i ob Ha) as (b' & Hb' & e & _ & _ & Z). assert (b' = b) by congruence. subst b'. destruct (Z Nb) as (z & Ez & _).
    rewrite Ez. f_equal. exact (Cz (Cf i Ck) Li ob z Hob Ez). }
  rewrite <- Lp in Hoff, Hex, JI |- *.
  assert (Hoff' : forall k b, (k < plen (g_stars h2))%nat -> nth_error bodies k = Some b -> off_curve ((12 * d + / IZR (2 ^ 47)) / a) cv ue uz (central k) b).
  { intros k b Lk Hb Nb. destruct (proj1 (Hoff k b Lk Hb) Nb) as [A|[A|(A & B)]]; [now left|now right; left|right; right]. split; [|exact B]. split; [exact A|eauto]. }
  assert (Hhigh : forall k b, (k < plen (g_stars h2))%nat -> nth_error bodies k = Some b -> high_curve ((12 * d + / IZR (2 ^ 47)) / a) cv ue uz b) by (intros k b Lk Hb; apply (Hoff k b Lk Hb)).
  assert (Lg : glen h2 = length (ls ++ ld ++ lg)).
  { pose proof (Forall2_length _ _ _ N) as L1. unfold bodies in L1. rewrite map2_length, map_length in L1.
    pose proof (proj1 (constructible_ok h2) C2) as O2. apply gal_ok_facts in O2 as [A1 A2 A3 _ _ _ _ _ _].
    unfold all_orbits, sets in L1. cbn [flat_map] in L1. rewrite !app_length in L1. pose proof (orbits_len _ A1) as B1. pose proof (orbits_len _ A2) as B2. pose proof (orbits_len _ A3) as B3.
    unfold glen. rewrite !app_length in *. rewrite B1, B2, B3 in L1. cbn [length] in L1. lia. }
  rewrite <- Lg. split.
  - intros BF. destruct (proj2 JI BF) as (j & Hj). exists (map (feature_row j mix_attributes) used). split.
    + pose proof (proj2 Hex) as Mu. assert (U : forall k, In k used -> In k used) by auto. revert U. generalize used at 1 3 4. intros us.
      induction us as [|k us IH]; intros U; [constructor|]. cbn [map]. apply Forall2_cons; [|apply IH; intros; apply U; now right].
      assert (Ik : In k used) by (apply U; now left). apply Mu in Ik as (Lk & b & Hb & K0).
      destruct (nth_error_lt planes k) as (p & Hpl). { rewrite Lpl. apply nth_error_Some. congruence. }
      exists (b, p). split; [now apply nth_combine|].
      apply (row_good sm argsort h2 j bodies planes m a d ue uz up cv C2 Hs Hj D0 Hm N Hcv Pa Ga Lpl NP Hup central Hcen Hoff' Hhigh k b p Lk Hb Hpl K0).
    + intros St D st HA HM HB.
      assert (HJ : jcirc argsort h2 (fst (d_cbins D)) (snd (d_cbins D)) = Ok j) by (rewrite HB; exact Hj).
      assert (SA : star_attrs (d_attributes D)) by (rewrite HA; apply mix_attrs).
      destruct (handed_intro (F64_rounded sm) argsort St D st h2 j used C2 SA HM HJ (proj1 Hex)) as (ys & Q).
      { intros k. rewrite HA. apply (rows_used sm argsort h2 j bodies planes m a d ue uz up cv C2 Hs Hj D0 Hm N Hcv Pa Ga Lpl NP Hup central Hcen Hoff' Hhigh used Hex). }
      exists ys. rewrite HA in Q |- *. exact Q.
  - intros BF. destruct (jcirc argsort h2 default_bin0 default_bin1) as [j|e] eqn:Ej; [exfalso; apply BF, JI; eauto|]. exists e. intros St D st HA HM HB.
    apply (star_decompose_errors (F64_rounded sm) argsort St D st h2 C2); [rewrite HA; apply mix_attrs|exact HM|rewrite HB; exact Ej].
Qed.

(** In particular for KMeans, GaussianMixture and AutoGaussianMixture, whatever scikit-learn does with the matrix. *)
Lemma c104_classes : forall sm K argsort fma mm (g h1 : galaxy (F64s sm)) ls ld lg t ps (r : option (F64s sm)) c,
  sums_well (F64_rounded sm) (/ IZR (2 ^ 53)) K -> fused (F64_rounded sm) fma -> is_matmul fma mm -> sorting argsort ->
  constructible g -> reads_set (F64_rounded sm) (g_stars g) ls -> reads_set (F64_rounded sm) (g_dm g) ld -> reads_set (F64_rounded sm) (g_gas g) lg ->
  Forall2 (pot_near (F64_rounded sm) t) (all_pots g) ps -> 0 <= t <= 1 -> (forall x, In x ps -> Rabs x <= bpow radix2 200) ->
  reads_cut (F64_rounded sm) r c -> center g = Ok h1 ->
  exists i o, lowest g i /\ (forall i0, clearly_lowest t ps i0 -> i = i0) /\ nth_error (ls ++ ld ++ lg) i = Some o /\
    (let seen := map (seen_from o) in let u := / IZR (2 ^ 53) in let ins := axis_stars c (seen ls) in let k := K (length ins) in
     let qs := seen (ls ++ ld ++ lg) in let bodies := map2 (whole_body ins) qs ps in let planes := map (plane_part ins) qs in
     strong_spin u k ins -> clear_edge u c (seen ls) -> (forall q, In q qs -> SpecChain.within q) ->
     exists h2, star_align_with mm h1 r = Ok h2 /\
       forall m a d ue uz up cv used, 0 <= d -> 16 * d + / IZR (2 ^ 44) <= m ->
         (forall q x, In (q, x) (combine qs ps) -> resolved u k t ins d ue uz q x /\ plane_resolved u k ins d up q x) ->
         exact_curve m SpecCurve.edgesR bodies ue uz cv -> plane_unit (combine bodies planes) up -> 0 < a <= 1 -> gentle a cv ->
         (forall j b, (j < length ls)%nat -> nth_error bodies j = Some b ->
            off_curve ((12 * d + / IZR (2 ^ 47)) / a) cv ue uz (clearly_lowest t ps j) b /\ high_curve ((12 * d + / IZR (2 ^ 47)) / a) cv ue uz b) ->
         kept_stars (length ls) bodies ue uz cv used ->
         bound_first (length ls) bodies ->
         exists X, Forall2 (fun i row => exists b, nth_error (combine bodies planes) i = Some b /\ row_near (F64_rounded sm) d ((12 * d + / IZR (2 ^ 47)) / a) cv ue uz up b row) used X /\
           forall (H St : Type) (self : string -> H) (st : St),
             (forall km, handed_on (length (ls ++ ld ++ lg)) used (do a <- km (km_kwargs self) st X; Ok (fst a, None, snd a)) (decompose argsort (kmeans km self (default_bin0, default_bin1)) st h2)) /\
             (forall fit, handed_on (length (ls ++ ld ++ lg)) used
                (do a <- fit (gm_kwargs (KUser (self "n_components"%string)) self) st X;
                 do labels <- f_predict (fst a) X; do proba <- f_proba (fst a) X; Ok (labels, Some proba, snd a))
                (decompose argsort (gaussian_mixture fit self (default_bin0, default_bin1)) st h2)) /\
             (forall fit seeded randint order c_bic, handed_on (length (ls ++ ld ++ lg)) used
                (do a <- auto_split fit seeded randint (order st) c_bic self st X; Ok (fst (fst a), Some (snd (fst a)), snd a))
                (decompose argsort (auto_gaussian_mixture fit seeded randint order c_bic self (default_bin0, default_bin1)) st h2))).
Proof.
  intros sm K argsort fma mm g h1 ls ld lg t ps r c UK FM MM Hs Hg Rs Rd Rg FP Ht Hx RC Hc.
  destruct (c104_matrix sm K argsort fma mm g h1 ls ld lg t ps r c UK FM MM Hs Hg Rs Rd Rg FP Ht Hx RC Hc) as (i & o & A & B & C & H). exists i, o. do 3 (split; [assumption|]).
  cbv zeta in H |- *. intros SS Oe Hw. destruct (H SS Oe Hw) as (h2 & E2 & H2). exists h2. split; [exact E2|].
  intros m a d ue uz up cv used D0 Hm Hr Hcv Hup Pa Ga Hoff Hex BF. destruct (proj1 (H2 m a d ue uz up cv used D0 Hm Hr Hcv Hup Pa Ga Hoff Hex) BF) as (X & FX & HD). exists X. split; [exact FX|].
  intros Hy St self st. split; [|split].
  - intros km. destruct (HD St (kmeans km self (default_bin0, default_bin1)) st eq_refl eq_refl eq_refl) as (ys & Q). exact Q.
  - intros fit. destruct (HD St (gaussian_mixture fit self (default_bin0, default_bin1)) st eq_refl eq_refl eq_refl) as (ys & Q).
    cbn [gaussian_mixture d_split] in Q. unfold gm_split in Q. destruct (fit _ st X) as [[f st']|e]; [|exact Q]. cbn [bind fst snd] in Q |- *.
    destruct (f_predict f X) as [l|e]; [|exact Q]. cbn [bind] in Q |- *. destruct (f_proba f X) as [p|e]; exact Q.
  - intros fit seeded randint order c_bic. destruct (HD St (auto_gaussian_mixture fit seeded randint order c_bic self (default_bin0, default_bin1)) st eq_refl eq_refl eq_refl) as (ys & Q).
    cbn [auto_gaussian_mixture d_split] in Q. destruct (auto_split fit seeded randint (order st) c_bic self st X) as [[[l p] st']|e]; exact Q.
Qed.

(** The whole analysis: the potential of any of the backends, centring, aligning with any matrix product, with or without a
    cut-off radius, and the mixture models with the default bins. *)
Lemma c104_all : forall sm sm' K argsort table name fma mm (g : galaxy (F64s sm)) (G : F32s sm') kG s ls ld lg R0 D (r : option (F64s sm)) c,
  let lr := ls ++ ld ++ lg in let ps := exact_pots kG s lr in let t := pot_error (length lr) R0 D in
  sums_well (F64_rounded sm) (/ IZR (2 ^ 53)) K -> fused (F64_rounded sm) fma -> is_matmul fma mm -> sorting argsort ->
  constructible g -> g_haspot g = false ->
  reads_set (F64_rounded sm) (g_stars g) ls -> reads_set (F64_rounded sm) (g_dm g) ld -> reads_set (F64_rounded sm) (g_gas g) lg ->
  backend_of G table name -> val (F32_rounded sm') G = XR kG -> / IZR (2 ^ 40) <= kG <= IZR (2 ^ 20) ->
  (forall so, largest_softening g so -> val (F64_rounded sm) so = XR s) -> usual s ->
  (forall q, In q lr -> 0 < pm q /\ usual (pm q) /\ forall a, In a [px q; py q; pz q] -> ordinary a /\ Rabs a <= R0) ->
  (forall i j p q, i <> j -> nth_error lr i = Some p -> nth_error lr j = Some q -> D <= sdist s p q) ->
  / IZR (2 ^ 60) <= D -> 0 <= R0 <= IZR (2 ^ 19) * D -> INR (length lr) <= IZR (2 ^ 22) -> lr <> [] ->
  reads_cut (F64_rounded sm) r c ->
  exists h0 h1 i o, potential (W:=F64s sm) (S:=F32s sm') to32 to64 table name g = Ok h0 /\ center h0 = Ok h1 /\
    lowest h0 i /\ (forall i0, clearly_lowest t ps i0 -> i = i0) /\ nth_error lr i = Some o /\
    (let seen := map (seen_from o) in let u := / IZR (2 ^ 53) in let ins := axis_stars c (seen ls) in let k := K (length ins) in
     let qs := seen lr in let bodies := map2 (whole_body ins) qs ps in let planes := map (plane_part ins) qs in
     strong_spin u k ins -> clear_edge u c (seen ls) -> (forall q, In q qs -> SpecChain.within q) ->
     exists h2, star_align_with mm h1 r = Ok h2 /\
       forall m a d ue uz up cv used, 0 <= d -> 16 * d + / IZR (2 ^ 44) <= m ->
         (forall q x, In (q, x) (combine qs ps) -> resolved u k t ins d ue uz q x /\ plane_resolved u k ins d up q x) ->
         exact_curve m SpecCurve.edgesR bodies ue uz cv -> plane_unit (combine bodies planes) up -> 0 < a <= 1 -> gentle a cv ->
         (forall j b, (j < length ls)%nat -> nth_error bodies j = Some b ->
            off_curve ((12 * d + / IZR (2 ^ 47)) / a) cv ue uz (clearly_lowest t ps j) b /\ high_curve ((12 * d + / IZR (2 ^ 47)) / a) cv ue uz b) ->
         kept_stars (length ls) bodies ue uz cv used ->
         bound_first (length ls) bodies ->
         exists X, Forall2 (fun i row => exists b, nth_error (combine bodies planes) i = Some b /\ row_near (F64_rounded sm) d ((12 * d + / IZR (2 ^ 47)) / a) cv ue uz up b row) used X /\
           forall (H St : Type) (self : string -> H) (st : St),
             (forall km, handed_on (length lr) used (do a <- km (km_kwargs self) st X; Ok (fst a, None, snd a)) (decompose argsort (kmeans km self (default_bin0, default_bin1)) st h2)) /\
             (forall fit, handed_on (length lr) used
                (do a <- fit (gm_kwargs (KUser (self "n_components"%string)) self) st X;
                 do labels <- f_predict (fst a) X; do proba <- f_proba (fst a) X; Ok (labels, Some proba, snd a))
                (decompose argsort (gaussian_mixture fit self (default_bin0, default_bin1)) st h2)) /\
             (forall fit seeded randint order c_bic, handed_on (length lr) used
                (do a <- auto_split fit seeded randint (order st) c_bic self st X; Ok (fst (fst a), Some (snd (fst a)), snd a))
                (decompose argsort (auto_gaussian_mixture fit seeded randint order c_bic self (default_bin0, default_bin1)) st h2))).
Proof.
  intros sm sm' K argsort table name fma mm g G kG s ls ld lg R0 D r c lr ps t UK FM MM Hs Hg Hp Rs Rd Rg BK VG HG So Us Q Ap HD HR Ln NE RC.
  destruct (potential_exact sm sm' table name g G kG s ls ld lg R0 D Hg Hp Rs Rd Rg BK VG HG So Us Q Ap HD HR Ln NE) as (h0 & h1 & E0 & E1 & C0 & Rs0 & Rd0 & Rg0 & FP & Ht & Hx).
  destruct (c104_classes sm K argsort fma mm h0 h1 ls ld lg t ps r c UK FM MM Hs C0 Rs0 Rd0 Rg0 FP Ht Hx RC E1) as (i & o & H1 & H2 & H3 & H4).
  exists h0, h1, i, o. repeat (split; [assumption|]). exact H4.
Qed.

(** *** Example *)
(** The galaxy of the example of C97 with both stars moving across the plane, with potentials or without. *)
Definition exU (pot : bool) : galaxy F64 :=
  let w l := if pot then Some (fZs l) else None in
  mkGal (pset_of (N:=F64) STARS (fZs [131072; 131072]) (fZs [6; 4]) (fZs [5; 5]) (fZs [5; 5]) (fZs [0; 448]) (fZs [16; 16]) (fZs [-511; 246]) (w [-131072; -131072]) (fZ 0))%Z
        (pset_of (N:=F64) DARK_MATTER (fZs [65536]) (fZs [5]) (fZs [5]) (fZs [5]) (fZs [0]) (fZs [0]) (fZs [0]) (w [-262144]) (fZ 0))%Z
        (pset_of (N:=F64) GAS [] [] [] [] [] [] [] (w []) (fZ 0)) pot.
Definition exU_stars : list particle := [Part 131072 6 5 5 0 16 (-511); Part 131072 4 5 5 448 16 246].
Definition exU_seen : list particle := [Part 131072 1 0 0 0 16 (-511); Part 131072 (-1) 0 0 448 16 246].
Definition exU_bodies : list (R * R) := [(-767 / 2, 511); (-334, 246); (-262144, 0)].
Definition exU_pots : list R := [-131072; -131072; -262144].
Definition exU_curve : list (R * R) := [(-1, 0); (-767 / 524288, 1)].

Lemma exU_ok pot : constructible (exU pot).
Proof.
  apply constructible_ok, gal_ok_facts. destruct pot; constructor; try reflexivity.
  all: apply pset_ok_iff; split; [|reflexivity]; repeat split; intros p H; (discriminate H || (injection H as <-; reflexivity)).
Qed.
Lemma exU_reads pot : let RS := F64_rounded (seqsum 53 1024 p53 e1024) in
  reads_set RS (g_stars (exU pot)) exU_stars /\ reads_set RS (g_dm (exU pot)) exW_dark /\ reads_set RS (g_gas (exU pot)) [].
Proof.
  cbv zeta. split; [|split].
  - repeat split; (etransitivity; [apply exV_vals; repeat (constructor; [split; [lia|reflexivity]|]); constructor|reflexivity]).
  - repeat split; (etransitivity; [apply exV_vals; repeat (constructor; [split; [lia|reflexivity]|]); constructor|reflexivity]).
  - repeat split.
Qed.
Lemma exU_exact_pots : exact_pots 1 0 (exU_stars ++ exW_dark ++ []) = exU_pots.
Proof. unfold exU_pots. rewrite <- exW_pots. reflexivity. Qed.
Lemma exU_soft so : largest_softening (exU false) so -> val (F64_rounded (seqsum 53 1024 p53 e1024)) so = XR 0.
Proof.
  assert (V : val (F64_rounded (seqsum 53 1024 p53 e1024)) (fZ 0) = XR 0) by (apply (val_small (F64_rounded (seqsum 53 1024 p53 e1024))); lia).
  intros [(p & (I & _) & <- & _)|(_ & Nu)].
  - destruct I as [<-|[<-|[<-|[]]]]; exact V.
  - exfalso. apply (Nu (g_stars (exU false))). split; [simpl; auto|]. split; [discriminate|reflexivity].
Qed.
Lemma exU_usual : forall q, In q (exU_stars ++ exW_dark ++ []) -> 0 < pm q /\ usual (pm q) /\ forall a, In a [px q; py q; pz q] -> ordinary a /\ Rabs a <= 6.
Proof.
  assert (O : forall a, 1 <= a <= 1000000 -> usual a /\ ordinary a).
  { intros a Ha. unfold ordinary, usual. rewrite Rabs_pos_eq by lra. change (IZR (2 ^ 16)) with 65536. change (IZR (2 ^ 39)) with 549755813888. split; right; lra. }
  intros q [<- |[<- |[<- |[]]]]; cbn [pm px py pz]; (split; [lra|]; split; [apply O; lra|]); intros a [<- |[<- |[<- |[]]]]; (split; [apply O; lra|apply Rabs_le; lra]).
Qed.
Lemma exU_dist : forall i j p q, i <> j -> nth_error (exU_stars ++ exW_dark ++ []) i = Some p -> nth_error (exU_stars ++ exW_dark ++ []) j = Some q -> 1 <= sdist 0 p q.
Proof.
  intros i j p q Hij Hp' Hq. rewrite <- sqrt_1. unfold sdist. apply sqrt_le_1_alt. destruct i as [|[|[|i]]], j as [|[|[|j]]]; cbn in Hp', Hq;
    try congruence; try (destruct i; discriminate); try (destruct j; discriminate); injection Hp' as <-; injection Hq as <-; cbn [px py pz]; lra.
Qed.
Lemma exU_near : Forall2 (pot_near (F64_rounded (seqsum 53 1024 p53 e1024)) 0) (all_pots (exU true)) exU_pots.
Proof.
  change (all_pots (exU true)) with (fZs [-131072; -131072; -262144])%Z.
  assert (E := exV_vals [-131072; -131072; -262144]%Z exU_pots ltac:(repeat (constructor; [split; [lia|reflexivity]|]); constructor)).
  revert E. generalize (fZs [-131072; -131072; -262144])%Z. generalize exU_pots. intros l l' E. revert l E.
  induction l' as [|a l' IH]; intros [|p l] E; try discriminate; constructor; [|apply IH; now injection E].
  cbn [map] in E. exists p. split; [congruence|]. rewrite Rminus_eq_0, Rabs_R0. lra.
Qed.
Lemma exU_from o : px o = 5 -> py o = 5 -> pz o = 5 -> map (seen_from o) (exU_stars ++ exW_dark ++ []) = exU_seen ++ [Part 65536 0 0 0 0 0 0] /\ map (seen_from o) exU_stars = exU_seen.
Proof. intros X Y Z. unfold exU_stars, exU_seen, exW_dark, seen_from. cbn [app map pm px py pz pvx pvy pvz]. rewrite X, Y, Z. split; repeat f_equal; ring. Qed.
Lemma exU_totals : LX None exU_seen = 0 /\ LY None exU_seen = 99221504 /\ LZ None exU_seen = 0 /\ Lnorm None exU_seen = 99221504 /\ Lplane exU_seen = 99221504.
Proof.
  assert (LX0 : LX None exU_seen = 0) by (unfold LX, exU_seen, lx; cbn [filter inside sumR fold_right pm px py pz pvx pvy pvz]; ring).
  assert (LY0 : LY None exU_seen = 99221504) by (unfold LY, exU_seen, ly; cbn [filter inside sumR fold_right pm px py pz pvx pvy pvz]; ring).
  assert (LZ0 : LZ None exU_seen = 0) by (unfold LZ, exU_seen, lz; cbn [filter inside sumR fold_right pm px py pz pvx pvy pvz]; ring).
  repeat split; auto; unfold Lnorm, Lplane; rewrite ?LX0, ?LY0, ?LZ0.
  - replace (_ + _) with (99221504 * 99221504) by ring. apply sqrt_square. lra.
  - replace (_ + _) with (99221504 * 99221504) by ring. apply sqrt_square. lra.
Qed.
Lemma exU_body : map2 (whole_body exU_seen) (exU_seen ++ [Part 65536 0 0 0 0 0 0]) exU_pots = exU_bodies /\
  map (plane_part exU_seen) (exU_seen ++ [Part 65536 0 0 0 0 0 0]) = [16; 16; 0].
Proof.
  destruct exU_totals as (A & B & C & D & _). unfold whole_body, plane_part, axis_part. rewrite A, B, C, D.
  unfold exU_seen, exU_bodies, exU_pots, kinr, lx, ly, lz. cbn [app map map2 pm px py pz pvx pvy pvz]. split.
  - f_equal; [f_equal; field|f_equal; [f_equal; field|f_equal; f_equal; field]].
  - f_equal; [|f_equal; [|f_equal]].
    + replace (_ - _) with (16 * 16) by field. apply sqrt_square. lra.
    + replace (_ - _) with (16 * 16) by field. apply sqrt_square. lra.
    + replace (_ - _) with (0 * 0) by field. apply sqrt_square. lra.
Qed.
Lemma exU_scaled : map (scaled 262144 511) (filter negative exU_bodies) = [(-767 / 524288, 1); (-167 / 131072, 246 / 511); (-1, 0)].
Proof.
  unfold exU_bodies, negative. cbn [filter fst]. rewrite !Rlt_bool_true by lra. unfold scaled. cbn [map fst snd].
  rewrite !Rabs_pos_eq by lra. f_equal; [f_equal; field|f_equal; [f_equal; field|f_equal; f_equal; field]].
Qed.
Lemma exU_rows i (y0 y1 y2 : R) : (i < 38)%nat ->
  filter (fun p => inbin SpecCurve.edgesR i (fst p)) [(-767 / 524288, y1); (-167 / 131072, y2); (-1, y0)] =
  if (i =? 37)%nat then [(-767 / 524288, y1); (-167 / 131072, y2)] else [].
Proof.
  intros Li.
  assert (E : forall x, inbin SpecCurve.edgesR i x = match nth_error SpecCurve.edgesR i with Some lo => Rlt_bool lo x && match nth_error SpecCurve.edgesR (S i) with Some hi => Rle_bool x hi | None => true end | None => false end) by reflexivity.
  cbn [filter fst]. rewrite !E. clear E.
  do 38 (destruct i as [|i]; [cbn [SpecCurve.edgesR nth_error map seq app INR Nat.eqb];
    repeat match goal with
    | |- context [Rlt_bool ?a ?b] => first [rewrite (Rlt_bool_true a b) by lra|rewrite (Rlt_bool_false a b) by lra]
    | |- context [Rle_bool ?a ?b] => first [rewrite (Rle_bool_true a b) by lra|rewrite (Rle_bool_false a b) by lra]
    end; reflexivity|]). lia.
Qed.
Lemma exU_far p e : In p [(-767 / 524288, 1); (-167 / 131072, 246 / 511)] -> In e SpecCurve.edgesR -> / 1000 <= Rabs (fst p - e).
Proof.
  intros Hp He. apply In_nth_error in He as [i Hi]. apply CurveAccThms.edgesR_nth in Hi as [Li ->].
  repeat (destruct Hp as [<-|Hp]; [cbn [fst]; clear - Li; do 38 (destruct i as [|i]; [cbn [Nat.ltb Nat.leb INR];
    (match goal with |- _ <= Rabs ?x => destruct (Rcase_abs x); [rewrite (Rabs_left x) by assumption|rewrite (Rabs_right x) by assumption] end); lra|])|]).
  all: try (exfalso; lia). destruct Hp.
Qed.
Lemma exU_exact : exact_curve (/ 1000) SpecCurve.edgesR exU_bodies 262144 511 exU_curve.
Proof.
  constructor.
  - split; [lra|]. intros b Hb. repeat (destruct Hb as [<-|Hb]; [cbn [fst]; lra|]). destruct Hb.
  - split; [lra|]. split.
    + exists (-767 / 2, 511). split; [simpl; auto|]. cbn [fst snd]. split; [lra|]. rewrite Rabs_pos_eq; lra.
    + intros b Hb _. repeat (destruct Hb as [<-|Hb]; [cbn [snd]; rewrite Rabs_pos_eq; lra|]). destruct Hb.
  - intros b Hb. repeat (destruct Hb as [<-|Hb]; [cbn [fst]; rewrite Rabs_left; lra|]). destruct Hb.
  - rewrite exU_scaled. exists (-1, 0), [(-767 / 524288, 1); (-167 / 131072, 246 / 511)], (repeat None 37 ++ [Some (-767 / 524288, 1)]), (-767 / 524288, 1).
    split; [change [(-767 / 524288, 1); (-167 / 131072, 246 / 511); (-1, 0)] with ([(-767 / 524288, 1); (-167 / 131072, 246 / 511)] ++ [(-1, 0)]); apply Permutation_app_comm|].
    split; [reflexivity|]. split; [apply exU_far|]. split; [reflexivity|]. split; [|split; reflexivity].
    intros i o H. assert (Li : (i < 38)%nat).
    { replace 38%nat with (length (repeat None 37 ++ [Some (-767 / 524288, 1)])) by reflexivity. apply nth_error_Some. congruence. }
    unfold point. cbv zeta. rewrite (exU_rows i 0 1 (246 / 511) Li).
    destruct (Nat.eq_dec i 37) as [->|N37].
    + injection H as <-. change (S 37 <? length SpecCurve.edgesR)%nat with false. cbn [Nat.eqb]. cbv iota.
      exists [(-167 / 131072, 246 / 511)]. split; [reflexivity|]. intros b [<-|[]]. cbn [snd]. lra.
    + rewrite (proj2 (Nat.eqb_neq _ _) N37). do 38 (destruct i as [|i]; [first [lia|injection H as <-; reflexivity]|]). lia.
Qed.
Lemma exU_spans : span 1 0 0 = 1 /\ span (-1) 0 0 = 1 /\ span 0 0 0 <= 1 /\ span 0 16 (-511) = 511 /\ span 448 16 246 = 448 /\ weights exU_seen = 131072 * (511 + 448).
Proof.
  destruct exW_spans as (S1 & S2 & S3 & _).
  assert (E0 : bpow radix2 (-100) <= 1) by (change 1 with (bpow radix2 0); apply bpow_le; lia).
  assert (S4 : span 0 16 (-511) = 511).
  { unfold span. rewrite Rabs_R0, (Rabs_left (-511)), (Rabs_pos_eq 16) by lra. replace (- (-511)) with 511 by ring. rewrite (Rmax_right 16 511), (Rmax_right 0 511) by lra. apply Rmax_right. lra. }
  assert (S5 : span 448 16 246 = 448).
  { unfold span. rewrite !(Rabs_pos_eq) by lra. rewrite (Rmax_right 16 246), (Rmax_left 448 246) by lra. apply Rmax_right. lra. }
  repeat split; auto.
  unfold weights, exU_seen, weight. cbn [sumR fold_right pm px py pz pvx pvy pvz]. rewrite S1, S2, S4, S5, Rabs_pos_eq by lra.
  rewrite Rmax_right by lra. ring.
Qed.
Lemma exU_spin : strong_spin (/ IZR (2 ^ 53)) (2 * INR 2) exU_seen.
Proof.
  destruct exU_spans as (S1 & S2 & _ & S4 & S5 & W). destruct exU_totals as (_ & _ & _ & L1 & L2).
  assert (E1 : 131072 <= bpow radix2 99) by (change 131072 with (bpow radix2 17); apply bpow_le; lia).
  assert (U : 0 < / IZR (2 ^ 53) <= / 1000000000000) by (split; [apply Rinv_0_lt_compat, IZR_lt; reflexivity|apply Rinv_le_contravar; [lra|apply IZR_le; lia]]).
  split; [intros q [<-|[<-|[]]]; unfold SpecChain.within; cbn [pm px py pz pvx pvy pvz]; rewrite ?S1, ?S2, ?S4, ?S5, ?Rabs_pos_eq by lra; repeat split; lra|].
  split; [change (bpow radix2 20) with (IZR (2 ^ 20)); simpl; lra|]. split; [change (bpow radix2 21) with (IZR (2 ^ 21)); simpl; lra|]. rewrite W, L1, L2.
  assert (bpow radix2 (-389) <= 1) by (change 1 with (bpow radix2 0); apply bpow_le; lia). simpl INR. split; lra.
Qed.
Lemma exU_resolved t : 0 <= t <= / 170000 -> forall q x, In (q, x) (combine (exU_seen ++ [Part 65536 0 0 0 0 0 0]) exU_pots) ->
  resolved (/ IZR (2 ^ 53)) (2 * INR 2) t exU_seen (/ 150000) 262144 511 q x /\ plane_resolved (/ IZR (2 ^ 53)) (2 * INR 2) exU_seen (/ 150000) 16 q x.
Proof.
  intros T. destruct exU_spans as (S1 & S2 & S3 & S4 & S5 & W). destruct exU_totals as (_ & _ & _ & L1 & L2).
  assert (U : 0 < / IZR (2 ^ 53) <= / 1000000000000000) by (split; [apply Rinv_0_lt_compat, IZR_lt; reflexivity|apply Rinv_le_contravar; [lra|apply IZR_le; lia]]).
  set (u := / IZR (2 ^ 53)) in *.
  assert (P3 : 0 < span 0 0 0) by (eapply Rlt_le_trans; [apply bpow_gt_0|apply Rmax_l]).
  assert (Sq : 0 <= span 0 0 0 * span 0 0 0 <= 1) by nra.
  intros q x I. cbn [app combine exU_seen exU_pots] in I. unfold resolved, plane_resolved, spin_error, reach.
  destruct I as [E|[E|[E|[]]]]; injection E as <- <-; cbn [pm px py pz pvx pvy pvz]; rewrite ?S1, ?S2, ?S4, ?S5, W, L1; simpl INR;
    try rewrite (Rabs_left (-131072)) by lra; try rewrite (Rabs_left (-262144)) by lra; repeat split; nra.
Qed.
Lemma exU_gentle : gentle (99 / 100) exU_curve.
Proof.
  unfold gentle, exU_curve. apply Sorted_cons; [apply Sorted_cons; [apply Sorted_nil|apply HdRel_nil]|apply HdRel_cons]. cbn [fst snd]. rewrite Rabs_pos_eq by lra. lra.
Qed.
Lemma exU_at x c : -767 / 524288 <= x -> interpolates exU_curve x c -> c = 1.
Proof.
  unfold exU_curve. intros Hx Ic. inversion Ic as [|? ? ? ?|? ? ? ? ? ? B1 B2|? ? ? ? ? ? ? B1 Ic']; subst; [lra| |inversion Ic'; subst; [lra|reflexivity]].
  assert (x = -767 / 524288) by lra. subst x. field.
Qed.
Lemma exU_kept e z : -383.5 <= e < 0 -> 0 <= z <= 511 -> kept exU_curve 262144 511 (e, z).
Proof.
  intros He Hz. split; [cbn [fst]; lra|]. exists 1. cbn [fst snd]. split; [|split; [lra|rewrite Rabs_pos_eq by lra; lra]].
  unfold exU_curve. destruct (Rle_lt_dec (e / 262144) (-767 / 524288)) as [L|L].
  - assert (e / 262144 = -767 / 524288) as -> by lra. pose proof (int_seg (-1) 0 (-767 / 524288) 1 [] (-767 / 524288)) as Q. replace (0 + _) with 1 in Q by field. apply Q; lra.
  - apply int_skip; [lra|]. apply int_right. lra.
Qed.
Definition exU_km : dict (kwval string) -> unit -> matrix F64 -> res (list Z * unit) :=
  fun _ st X => Ok (map (fun row => match row with [_; CNum w; _] => if nle w (nlit 1 2) then 0 else 1 | _ => 9 end)%Z X, st).
Lemma exU_meets t : 0 <= t <= / 170000 -> let u := / IZR (2 ^ 53) in let lr := exU_stars ++ exW_dark ++ [] in
  clearly_lowest t exU_pots 2 /\
  (exists o, nth_error lr 2 = Some o /\
    let seen := map (seen_from o) in let ins := axis_stars None (seen exU_stars) in let k := 2 * INR (length ins) in
    let qs := seen lr in let bodies := map2 (whole_body ins) qs exU_pots in let planes := map (plane_part ins) qs in
    strong_spin u k ins /\ clear_edge u None (seen exU_stars) /\ (forall q, In q qs -> SpecChain.within q) /\
    16 * / 150000 + / IZR (2 ^ 44) <= / 1000 /\
    (forall q x, In (q, x) (combine qs exU_pots) -> resolved u k t ins (/ 150000) 262144 511 q x /\ plane_resolved u k ins (/ 150000) 16 q x) /\
    exact_curve (/ 1000) SpecCurve.edgesR bodies 262144 511 [(-1, 0); (-767 / 524288, 1)] /\ plane_unit (combine bodies planes) 16 /\ gentle (99 / 100) [(-1, 0); (-767 / 524288, 1)] /\
    (forall j b, (j < 2)%nat -> nth_error bodies j = Some b ->
       off_curve ((12 * / 150000 + / IZR (2 ^ 47)) / (99 / 100)) [(-1, 0); (-767 / 524288, 1)] 262144 511 (clearly_lowest t exU_pots j) b /\
       high_curve ((12 * / 150000 + / IZR (2 ^ 47)) / (99 / 100)) [(-1, 0); (-767 / 524288, 1)] 262144 511 b) /\
    kept_stars 2 bodies 262144 511 [(-1, 0); (-767 / 524288, 1)] [0; 1]%nat /\ bound_first 2 bodies /\
    combine bodies planes = [((-767 / 2, 511), 16); ((-334, 246), 16); ((-262144, 0), 0)]).
Proof.
  intros T. cbv zeta. split.
  { exists (-262144). split; [reflexivity|]. intros j p' Nj Hj. assert (p' = -131072) as ->.
    { destruct j as [|[|[|j]]]; [injection Hj; auto|injection Hj; auto|congruence|destruct j; discriminate Hj]. }
    rewrite (Rabs_left (-262144)), (Rabs_left (-131072)) by lra. lra. }
  eexists. split; [reflexivity|]. destruct (exU_from (Part 65536 5 5 5 0 0 0)) as (-> & ->); [reflexivity..|]. cbn [axis_stars clear_edge].
  change (length exU_seen) with 2%nat.
  assert (Q : / IZR (2 ^ 47) <= / 1000000) by (apply Rinv_le_contravar; [lra|apply IZR_le; lia]). assert (Q0 : 0 < / IZR (2 ^ 47)) by (apply Rinv_0_lt_compat, IZR_lt; reflexivity).
  assert (Q3 : / IZR (2 ^ 30) <= 1) by (rewrite <- Rinv_1; apply Rinv_le_contravar; [lra|apply IZR_le; lia]).
  assert (Q4 : / IZR (2 ^ 44) <= / 1000000) by (apply Rinv_le_contravar; [lra|apply IZR_le; lia]).
  split; [exact exU_spin|]. split; [exact I|]. destruct exU_spans as (S1 & S2 & S3 & S4 & S5 & W).
  split. { assert (E1 : 131072 <= bpow radix2 99) by (change 131072 with (bpow radix2 17); apply bpow_le; lia).
    intros q [<-|[<-|[<-|[]]]]; unfold SpecChain.within; cbn [pm px py pz pvx pvy pvz]; repeat split; try (apply Rabs_le; lra); try lra; rewrite ?S1, ?S2, ?S4, ?S5; lra. }
  split; [lra|]. split; [exact (exU_resolved t T)|]. destruct exU_body as (-> & ->).
  split; [exact exU_exact|].
  split. { split; [lra|]. split; [exists ((-767 / 2, 511), 16); cbn [combine exU_bodies In fst snd]; split; [auto|split; [lra|reflexivity]]|].
    intros b [<-|[<-|[<-|[]]]] _; cbn [snd]; lra. }
  split; [exact exU_gentle|].
  split. { set (t' := _ / (99 / 100)). assert (T' : 0 < t' < / 10000) by (unfold t'; lra). clearbody t'.
    intros j b Lj Hb. destruct j as [|[|j]]; [| |lia]; injection Hb as <-; unfold off_curve, high_curve; cbn [fst snd]; (split; [|intros _ c Ic]).
    - intros _. right. left. split; [right; left; f_equal; [lra|rewrite Rabs_pos_eq by lra; lra]|rewrite Rabs_pos_eq by lra; lra].
    - apply exU_at in Ic; [subst c; lra|cbn [fst]; lra].
    - intros _. left. intros c Ic. apply exU_at in Ic; [subst c|lra]. rewrite (Rabs_pos_eq (246 / 511)) by lra. rewrite Rabs_left by lra. lra.
    - apply exU_at in Ic; [subst c; lra|cbn [fst]; lra]. }
  split. { split; [repeat constructor|]. intros k. split.
    - intros [<-|[<-|[]]]; (split; [lia|]); eexists; (split; [reflexivity|apply exU_kept; lra]).
    - intros [Lk _]. destruct k as [|[|k]]; [left; reflexivity|right; left; reflexivity|lia]. }
  split; [|reflexivity].
  intros i j bi bj (L1 & L2) Hi Hj Nj. destruct i as [|i]; [|lia]. injection Hi as <-. cbn [fst]. lra.
Qed.

(** The hypotheses of C104 are met by two stars and a particle of dark matter with potentials: the dark matter is the
    centre, both stars are kept, the faster one is a point of the curve, and the errors are below 1/150000.  K-means
    is replaced by a rule that labels 1 the rows whose circularity is above 1/2: the faster star only. *)
Example ex_c104 : let RS := F64_rounded (seqsum 53 1024 p53 e1024) in let u := / IZR (2 ^ 53) in let lr := exU_stars ++ exW_dark ++ [] in
  constructible (exU true) /\
  (reads_set RS (g_stars (exU true)) exU_stars /\ reads_set RS (g_dm (exU true)) exW_dark /\ reads_set RS (g_gas (exU true)) []) /\
  Forall2 (pot_near RS 0) (all_pots (exU true)) exU_pots /\ (forall x, In x exU_pots -> Rabs x <= bpow radix2 200) /\ reads_cut RS None None /\
  fused RS fma64 /\ is_matmul (S:=F64) fma64 (plain_matmul (S:=F64)) /\ sums_well RS u (fun n => 2 * INR n) /\
  clearly_lowest 0 exU_pots 2 /\
  (exists o, nth_error lr 2 = Some o /\
    let seen := map (seen_from o) in let ins := axis_stars None (seen exU_stars) in let k := 2 * INR (length ins) in
    let qs := seen lr in let bodies := map2 (whole_body ins) qs exU_pots in let planes := map (plane_part ins) qs in
    strong_spin u k ins /\ clear_edge u None (seen exU_stars) /\ (forall q, In q qs -> SpecChain.within q) /\
    16 * / 150000 + / IZR (2 ^ 44) <= / 1000 /\
    (forall q x, In (q, x) (combine qs exU_pots) -> resolved u k 0 ins (/ 150000) 262144 511 q x /\ plane_resolved u k ins (/ 150000) 16 q x) /\
    exact_curve (/ 1000) SpecCurve.edgesR bodies 262144 511 [(-1, 0); (-767 / 524288, 1)] /\ plane_unit (combine bodies planes) 16 /\ gentle (99 / 100) [(-1, 0); (-767 / 524288, 1)] /\
    (forall j b, (j < 2)%nat -> nth_error bodies j = Some b ->
       off_curve ((12 * / 150000 + / IZR (2 ^ 47)) / (99 / 100)) [(-1, 0); (-767 / 524288, 1)] 262144 511 (clearly_lowest 0 exU_pots j) b /\
       high_curve ((12 * / 150000 + / IZR (2 ^ 47)) / (99 / 100)) [(-1, 0); (-767 / 524288, 1)] 262144 511 b) /\
    kept_stars 2 bodies 262144 511 [(-1, 0); (-767 / 524288, 1)] [0; 1]%nat /\ bound_first 2 bodies /\
    combine bodies planes = [((-767 / 2, 511), 16); ((-334, 246), 16); ((-262144, 0), 0)]) /\
  (do h1 <- center (exU true); do h2 <- star_align h1 None;
   rmap (fun r => shows (c_labels (fst r))) (decompose asort (kmeans exU_km (fun a => a) (default_bin0, default_bin1)) tt h2)) =
  Ok [sZ 1; sZ 0; S754_nan].
Proof.
  intros RS u lr. split; [apply exU_ok|]. split; [apply exU_reads|]. split; [exact exU_near|].
  split. { assert (262144 <= bpow radix2 200) by (change 262144 with (bpow radix2 18); apply bpow_le; lia).
    intros x [<-|[<-|[<-|[]]]]; apply Rabs_le; lra. }
  split; [exact I|]. split; [apply c94_fma64|]. split; [apply c94_plain|]. split; [apply c68_double|].
  destruct (exU_meets 0 ltac:(lra)) as (A & B). split; [exact A|]. split; [exact B|].
  vm_compute. reflexivity.
Qed.

(** The same stars without potentials: the run computes them in single precision. *)
Example ex_c104_all : let RS := F64_rounded (seqsum 53 1024 p53 e1024) in let u := / IZR (2 ^ 53) in
  let lr := exU_stars ++ exW_dark ++ [] in let ps := exact_pots 1 0 lr in let t := pot_error (length lr) 6 1 in
  constructible (exU false) /\ g_haspot (exU false) = false /\
  (reads_set RS (g_stars (exU false)) exU_stars /\ reads_set RS (g_dm (exU false)) exW_dark /\ reads_set RS (g_gas (exU false)) []) /\
  backend_of (n1 : F32) (backend_table n1 true junk0) "fortran" /\ reads_cut RS None None /\
  (forall so, largest_softening (exU false) so -> val RS so = XR 0) /\
  (forall q, In q lr -> 0 < pm q /\ usual (pm q) /\ forall a, In a [px q; py q; pz q] -> ordinary a /\ Rabs a <= 6) /\
  (forall i j p q, i <> j -> nth_error lr i = Some p -> nth_error lr j = Some q -> 1 <= sdist 0 p q) /\
  clearly_lowest t ps 2 /\
  (exists o, nth_error lr 2 = Some o /\
    let seen := map (seen_from o) in let ins := axis_stars None (seen exU_stars) in let k := 2 * INR (length ins) in
    let qs := seen lr in let bodies := map2 (whole_body ins) qs ps in let planes := map (plane_part ins) qs in
    strong_spin u k ins /\ clear_edge u None (seen exU_stars) /\ (forall q, In q qs -> SpecChain.within q) /\
    16 * / 150000 + / IZR (2 ^ 44) <= / 1000 /\
    (forall q x, In (q, x) (combine qs ps) -> resolved u k t ins (/ 150000) 262144 511 q x /\ plane_resolved u k ins (/ 150000) 16 q x) /\
    exact_curve (/ 1000) SpecCurve.edgesR bodies 262144 511 [(-1, 0); (-767 / 524288, 1)] /\ plane_unit (combine bodies planes) 16 /\ gentle (99 / 100) [(-1, 0); (-767 / 524288, 1)] /\
    (forall j b, (j < 2)%nat -> nth_error bodies j = Some b ->
       off_curve ((12 * / 150000 + / IZR (2 ^ 47)) / (99 / 100)) [(-1, 0); (-767 / 524288, 1)] 262144 511 (clearly_lowest t ps j) b /\
       high_curve ((12 * / 150000 + / IZR (2 ^ 47)) / (99 / 100)) [(-1, 0); (-767 / 524288, 1)] 262144 511 b) /\
    kept_stars 2 bodies 262144 511 [(-1, 0); (-767 / 524288, 1)] [0; 1]%nat /\ bound_first 2 bodies /\
    combine bodies planes = [((-767 / 2, 511), 16); ((-334, 246), 16); ((-262144, 0), 0)]) /\
  (do h0 <- potential (W:=F64) (S:=F32) to32 to64 (backend_table n1 true junk0) "fortran" (exU false); do h1 <- center h0; do h2 <- star_align h1 None;
   rmap (fun r => shows (c_labels (fst r))) (decompose asort (kmeans exU_km (fun a => a) (default_bin0, default_bin1)) tt h2)) =
  Ok [sZ 1; sZ 0; S754_nan].
Proof.
  intros RS u lr ps t. split; [apply exU_ok|]. split; [reflexivity|]. split; [apply exU_reads|]. split; [constructor|]. split; [exact I|].
  split; [exact exU_soft|]. split; [exact exU_usual|]. split; [exact exU_dist|].
  assert (Ep : ps = exU_pots) by exact exU_exact_pots. rewrite Ep. clearbody ps.
  assert (T : 0 <= t <= / 170000).
  { unfold t, lr, pot_error. cbn [length app exU_stars exW_dark INR]. change (IZR (2 ^ 23)) with 8388608. change (IZR (2 ^ 22)) with 4194304. lra. }
  clearbody t. destruct (exU_meets t T) as (A & B). split; [exact A|]. split; [exact B|].
  vm_compute. reflexivity.
Qed.
