(** Property lemmas about the whole analysis in floating point: C97. *)
From Flocq Require Import Core BinarySingleNaN.
From Coq Require Import Lra Lia Permutation Sorted Floats.SpecFloat.
From Verif Require Import Py Num RX F64 Np Df Data DataFacts DfFacts RebuildFacts Center CenterFacts Align Spec SpecR SpecCirc SpecAlAcc SpecBase SpecCurve SpecChain SpecFma Dgemm SpecDgemm SpecAcc SpecWhole Ex DataThms CenterThms AlignFacts AlignThms Circ CircFacts CurveFacts CircThms OrderThms AlAccFacts AlAccRot AlAccSum AlAccThms ChainFacts ChainThms DgemmThms CtrAccThms EpsAccFacts EpsAccThms EpsCutThms Base Threshold ThresholdThms PolyFacts ChoiceFacts CurveAccFacts CurveAccThms SpecPot Potential PotConcFacts PotFacts PotThms SpecPotAcc AccThms PotAccThms SpecNpAcc NpAccThms Fma FmaThms PipeThms.
Local Open Scope R_scope.

(** *** Energies *)
Section Energies.
Context {N : Num} (RN : Rounded N) (u : R).
Hypothesis G : graceful RN u.
Hypothesis U : 0 < u <= / 1000000.

Lemma span_pos a b c : bpow radix2 (-100) <= span a b c.
Proof. apply Rmax_l. Qed.
Lemma span_ge a b c : Rabs a <= span a b c /\ Rabs b <= span a b c /\ Rabs c <= span a b c.
Proof.
  unfold span. repeat split.
  - eapply Rle_trans; [apply Rmax_l|apply Rmax_r].
  - eapply Rle_trans; [|apply Rmax_r]. eapply Rle_trans; [|apply Rmax_r]. apply Rmax_l.
  - eapply Rle_trans; [|apply Rmax_r]. eapply Rle_trans; [|apply Rmax_r]. apply Rmax_r.
Qed.
Lemma kinr_le q : 0 <= kinr q <= 3 / 2 * (span (pvx q) (pvy q) (pvz q) * span (pvx q) (pvy q) (pvz q)).
Proof.
  destruct (span_ge (pvx q) (pvy q) (pvz q)) as (A & B & C). set (V := span _ _ _) in *. unfold kinr.
  assert (S : forall a, Rabs a <= V -> 0 <= a * a <= V * V).
  { intros a Ha. split; [nra|]. replace (a * a) with (Rabs a * Rabs a) by (rewrite <- Rabs_mult; apply Rabs_pos_eq; nra).
    pose proof (Rabs_pos a). nra. }
  pose proof (S _ A). pose proof (S _ B). pose proof (S _ C). lra.
Qed.

Lemma energy_near t (k w : N) q p : 0 <= t <= 1 -> kinetic_near RN u k q -> pot_near RN t w p ->
  span (pvx q) (pvy q) (pvz q) <= bpow radix2 99 -> Rabs p <= bpow radix2 200 ->
  exists r, val RN (k + w)%num = XR r /\
    Rabs (r - (kinr q + p)) <= 61000 * u * (span (pvx q) (pvy q) (pvz q) * span (pvx q) (pvy q) (pvz q)) + (t + 2 * u) * Rabs p.
Proof.
  intros Ht (a & Ea & Aa) (b & Eb & Ab) HV Hp. pose proof (kinr_le q) as Kq. pose proof (span_pos (pvx q) (pvy q) (pvz q)) as V0.
  set (V := span _ _ _) in *. pose proof (bpow_gt_0 radix2 (-100)) as P0.
  assert (V2 : tiny <= V * V <= bpow radix2 198).
  { split.
    - apply Rle_trans with (bpow radix2 (-100) * bpow radix2 (-100)); [|apply Rmult_le_compat; lra].
      rewrite <- bpow_plus. apply bpow_le. lia.
    - replace (bpow radix2 198) with (bpow radix2 99 * bpow radix2 99) by (rewrite <- bpow_plus; reflexivity). apply Rmult_le_compat; lra. }
  assert (T0 : 0 < tiny) by apply bpow_gt_0.
  assert (Bs : Rabs (a + b) <= 2 * (V * V) + 2 * Rabs p).
  { eapply Rle_trans; [apply Rabs_triang|].
    assert (Rabs a <= kinr q + Rabs (a - kinr q)). { replace a with (kinr q + (a - kinr q)) at 1 by ring. eapply Rle_trans; [apply Rabs_triang|]. rewrite (Rabs_pos_eq (kinr q)) by lra. lra. }
    assert (Rabs b <= Rabs p + Rabs (b - p)). { replace b with (p + (b - p)) at 1 by ring. apply Rabs_triang. }
    pose proof (Rabs_pos p). nra. }
  assert (Hh : Rabs (a + b) <= huge).
  { eapply Rle_trans; [exact Bs|]. apply Rle_trans with (2 * bpow radix2 198 + 2 * bpow radix2 200); [lra|].
    change 2 with (bpow radix2 1). rewrite <- !bpow_plus. apply Rle_trans with (bpow radix2 202); [|apply bpow_le; lia].
    replace (bpow radix2 202) with (bpow radix2 201 + bpow radix2 201) by (change 202%Z with (201 + 1)%Z; rewrite bpow_plus; change (bpow radix2 1) with 2; lra).
    apply Rplus_le_compat; apply bpow_le; lia. }
  destruct (G _ Hh) as (r & Er & Ar). exists r. split.
  { rewrite (val_add RN), Ea, Eb. exact Er. }
  replace (r - (kinr q + p)) with ((r - (a + b)) + (a - kinr q) + (b - p)) by ring.
  eapply Rle_trans; [apply Rabs_triang|]. eapply Rle_trans; [apply Rplus_le_compat_r, Rabs_triang|].
  pose proof (Rabs_pos p). nra.
Qed.

Lemma set_orbits k l p lq w d ue uz t ps : pset_ok p -> p_pot p = Some w -> 0 <= t <= 1 -> set_near RN u k l p lq ->
  Forall2 (pot_near RN t) w ps -> (forall q, In q lq -> SpecChain.within q) -> (forall x, In x ps -> Rabs x <= bpow radix2 200) ->
  (forall q x, In (q, x) (combine lq ps) -> resolved u k t l d ue uz q x) ->
  Forall2 (near_orbit RN d ue uz) (orbits p) (map2 (whole_body l) lq ps).
Proof.
  intros Hp Hw Ht (FO & FK) FP Hin Hx Hr. destruct (orbits_cols p Hp) as (E & _).
  assert (E' : map o_e (orbits p) = map2 nadd (p_ke p) w).
  { rewrite E. unfold energies. rewrite (pset_ok_te p Hp), Hw. reflexivity. }
  clear E. assert (Lw : length lq = length w).
  { apply Forall2_length in FK. destruct (pset_ok_lengths p Hp) as (_ & _ & _ & _ & _ & _ & K & _ & _ & _ & W & _). rewrite (W w Hw). congruence. }
  revert E'. clear Hp Hw. revert w ps FP Hx Hr FK Lw. revert lq FO Hin. generalize (p_ke p). induction (orbits p) as [|o os IH]; intros ke lq FO Hin w ps FP Hx Hr FK Lw E.
  - inversion FO; subst. destruct ps; constructor.
  - inversion FO as [|? q ? lq' (jz & jp & V1 & V2 & A1 & A2) FO']; subst. inversion FK as [|a ? ke' ? Ka FK']; subst.
    inversion FP as [|b x w' ps' Pb FP']; subst; [discriminate Lw|]. cbn [map map2] in E |- *.
    assert (E1 : o_e o = (a + b)%num) by congruence. assert (E2 : map o_e os = map2 nadd ke' w') by congruence.
    constructor.
    + destruct (Hr q x (or_introl eq_refl)) as (R1 & R2).
      destruct (energy_near t a b q x Ht Ka Pb (proj2 (proj2 (Hin q (or_introl eq_refl)))) (Hx x (or_introl eq_refl))) as (r & Er & Ar).
      exists r. rewrite E1. split; [exact Er|]. cbn [whole_body fst snd]. split; [lra|]. intros Hb. exists jz. split; [exact V1|]. specialize (R2 Hb). lra.
    + refine (IH ke' _ FO' _ w' ps' FP' _ _ FK' _ E2); [intros; apply Hin; now right|intros; apply Hx; now right|intros; apply Hr; now right|now injection Lw].
Qed.
End Energies.

(** *** From the input to the orbits *)
Lemma map2_app {A B C} (f : A -> B -> C) l1 l2 m1 m2 : length l1 = length m1 -> map2 f (l1 ++ l2) (m1 ++ m2) = map2 f l1 m1 ++ map2 f l2 m2.
Proof. revert m1. induction l1 as [|a l1 IH]; intros [|b m1] H; try discriminate; [reflexivity|]. cbn. f_equal. apply IH. now injection H. Qed.
Lemma haspot_some {N : Num} (p : pset N) : pset_ok p -> p_haspot p = true -> exists w, p_pot p = Some w.
Proof.
  intros H. apply pset_ok_iff in H as [_ E]. rewrite E at 1. cbn. destruct (p_pot p) as [w|]; [eauto|discriminate].
Qed.
Lemma pots_of {N : Num} (g : galaxy N) : gal_ok g -> g_haspot g = true -> exists ws wd wg,
  p_pot (g_stars g) = Some ws /\ p_pot (g_dm g) = Some wd /\ p_pot (g_gas g) = Some wg /\ all_pots g = ws ++ wd ++ wg.
Proof.
  intros H Hp. apply gal_ok_facts in H as [Os Od Og _ _ _ Hs Hd Hg]. rewrite Hp in Hs, Hd, Hg.
  destruct (haspot_some _ Os Hs) as (ws & Es), (haspot_some _ Od Hd) as (wd & Ed), (haspot_some _ Og Hg) as (wg & Eg).
  exists ws, wd, wg. repeat split; auto. unfold all_pots, sets. cbn [flat_map]. rewrite Es, Ed, Eg, app_nil_r. reflexivity.
Qed.
Lemma reads_plen {N : Num} (RN : Rounded N) (p : pset N) l : pset_ok p -> reads_set RN p l -> length l = plen p.
Proof. intros H (_ & R & _). apply (f_equal (@length _)) in R. rewrite !map_length in R. destruct (pset_ok_lengths p H) as (L & _). congruence. Qed.

Lemma whole_orbits : forall sm K fma mm (g h1 : galaxy (F64s sm)) ls ld lg t ps,
  sums_well (F64_rounded sm) (/ IZR (2 ^ 53)) K -> fused (F64_rounded sm) fma -> is_matmul fma mm ->
  constructible g -> reads_set (F64_rounded sm) (g_stars g) ls -> reads_set (F64_rounded sm) (g_dm g) ld -> reads_set (F64_rounded sm) (g_gas g) lg ->
  Forall2 (pot_near (F64_rounded sm) t) (all_pots g) ps -> 0 <= t <= 1 -> (forall x, In x ps -> Rabs x <= bpow radix2 200) ->
  center g = Ok h1 ->
  exists i o, lowest g i /\ nth_error (ls ++ ld ++ lg) i = Some o /\
    (let seen := map (seen_from o) in let u := / IZR (2 ^ 53) in let k := K (length ls) in
     strong_spin u k (seen ls) -> (forall q, In q (seen ld) \/ In q (seen lg) -> SpecChain.within q) ->
     exists h2, star_align_with mm h1 None = Ok h2 /\ constructible h2 /\ plen (g_stars h2) = length ls /\
       length ps = length (ls ++ ld ++ lg) /\
       forall d ue uz, (forall q x, In (q, x) (combine (seen (ls ++ ld ++ lg)) ps) -> resolved u k t (seen ls) d ue uz q x) ->
         Forall2 (near_orbit (F64_rounded sm) d ue uz) (all_orbits h2) (map2 (whole_body (seen ls)) (seen (ls ++ ld ++ lg)) ps)).
Proof.
  intros sm K fma mm g h1 ls ld lg t ps UK FM MM Hg Rs Rd Rg FP Ht Hx Hc.
  set (RN := F64_rounded sm) in *. set (u := / IZR (2 ^ 53)) in *.
  assert (GR : graceful RN u) by apply F64_graceful.
  assert (U0 : bpow radix2 (-100) <= u) by (change u with (bpow radix2 (-53)); apply bpow_le; lia).
  assert (U1 : u <= bpow radix2 (-40)) by (change u with (bpow radix2 (-53)); apply bpow_le; lia).
  destruct (c94_chain _ RN u K GR U0 U1 UK fma mm FM MM g h1 ls ld lg Hg Rs Rd Rg Hc) as (i & o & Hi & Ho & H). exists i, o. split; [exact Hi|]. split; [exact Ho|].
  cbv zeta in H |- *. intros SS Hw. destruct (H SS Hw) as (h2 & E2 & C2 & Ns & Nd & Ng). exists h2. split; [exact E2|]. split; [exact C2|]. clear H.
  assert (Hp : g_haspot g = true). { destruct (g_haspot g) eqn:E; [reflexivity|]. unfold center in Hc. rewrite E in Hc. discriminate. }
  destruct (c09_translation _ RN g h1 Hg Hc) as (i' & x0 & y0 & z0 & _ & _ & _ & _ & M).
  destruct M as (Hh & C1 & M).
  destruct (c94_frame _ fma mm MM h1 None C1) as (_ & _ & F). destruct (F h2 E2) as (_ & Hp2 & F2). clear F.
  pose proof (proj1 (constructible_ok g) Hg) as Og. destruct (pots_of g Og Hp) as (ws & wd & wg & P1 & P2 & P3 & P4).
  rewrite P4 in FP. apply Forall2_app_inv_l in FP as (pss & ps' & FPs & FP & ->). apply Forall2_app_inv_l in FP as (psd & psg & FPd & FPg & ->).
  apply gal_ok_facts in Og as [Os Od Oq _ _ _ _ _ _].
  unfold sets in M, F2.
  inversion M as [|? ? ? ? ((_ & _ & _ & _ & _ & A1 & _ & _ & _ & _ & A2) & _) M1]; subst. inversion M1 as [|? ? ? ? ((_ & _ & _ & _ & _ & B1 & _ & _ & _ & _ & B2) & _) M2]; subst.
  inversion M2 as [|? ? ? ? ((_ & _ & _ & _ & _ & D1 & _ & _ & _ & _ & D2) & _) M3]; subst. clear M M1 M2 M3.
  inversion F2 as [|? ? ? ? (_ & _ & A3 & _ & _ & A4) M1]; subst. inversion M1 as [|? ? ? ? (_ & _ & B3 & _ & _ & B4) M2]; subst.
  inversion M2 as [|? ? ? ? (_ & _ & D3 & _ & _ & D4) M3]; subst. clear F2 M1 M2 M3.
  pose proof (reads_plen RN _ _ Os Rs) as L1. pose proof (reads_plen RN _ _ Od Rd) as L2. pose proof (reads_plen RN _ _ Oq Rg) as L3.
  pose proof (Forall2_length _ _ _ FPs) as Q1. pose proof (Forall2_length _ _ _ FPd) as Q2. pose proof (Forall2_length _ _ _ FPg) as Q3.
  assert (W : forall p w, pset_ok p -> p_pot (N:=F64s sm) p = Some w -> length w = plen p) by (intros p w Hok; apply (pset_ok_lengths p Hok)).
  pose proof (W _ _ Os P1) as W1. pose proof (W _ _ Od P2) as W2. pose proof (W _ _ Oq P3) as W3. clear W.
  split; [congruence|]. split; [rewrite !app_length; lia|].
  intros d ue uz Hr. apply constructible_ok in C2. apply gal_ok_facts in C2 as [Os2 Od2 Oq2 _ _ _ _ _ _].
  unfold all_orbits, sets. cbn [flat_map]. rewrite app_nil_r, !map_app. rewrite !map2_app by (rewrite map_length; lia).
  rewrite !map_app in Hr.
  assert (CA : forall A B (a1 a2 : list A) (b1 b2 : list B), length a1 = length b1 -> combine (a1 ++ a2) (b1 ++ b2) = combine a1 b1 ++ combine a2 b2).
  { intros A B a1. induction a1 as [|a a1 IH]; intros a2 [|b b1] b2 Hl; try discriminate; [reflexivity|]. cbn. f_equal. apply IH. now injection Hl. }
  rewrite !CA in Hr by (rewrite map_length; lia).
  assert (U6 : 0 < u <= / 1000000).
  { split; [apply Rinv_0_lt_compat, IZR_lt; reflexivity|apply Rinv_le_contravar; [lra|apply IZR_le; vm_compute; discriminate]]. }
  destruct SS as (Wi & _).
  apply Forall2_app; [|apply Forall2_app].
  - apply (set_orbits RN u GR U6 (K (length ls)) _ _ _ ws d ue uz t); auto; [congruence|intros x I; apply Hx, in_or_app; now left|intros q x I; apply Hr, in_or_app; now left].
  - apply (set_orbits RN u GR U6 (K (length ls)) _ _ _ wd d ue uz t); auto; [congruence|intros x I; apply Hx; rewrite !in_app_iff; tauto|intros q x I; apply Hr; rewrite !in_app_iff; tauto].
  - apply (set_orbits RN u GR U6 (K (length ls)) _ _ _ wg d ue uz t); auto; [congruence|intros x I; apply Hx; rewrite !in_app_iff; tauto|intros q x I; apply Hr; rewrite !in_app_iff; tauto].
Qed.

(** The same particles are bound, and the decomposition succeeds exactly if no unbound star precedes a
    bound one. *)
Lemma whole_returns sm argsort junk (cut : F64s sm) (g : galaxy (F64s sm)) bodies m d ue uz cv n :
  constructible g -> sorting argsort -> 16 * d + / IZR (2 ^ 44) <= m -> plen (g_stars g) = n ->
  Forall2 (near_orbit (F64_rounded sm) d ue uz) (all_orbits g) bodies -> exact_curve m edgesR bodies ue uz cv ->
  ((exists cs, decompose argsort (jthreshold junk (default_bin0, default_bin1) cut) tt g = Ok (cs, tt)) <-> bound_first n bodies).
Proof.
  intros Hg Hs Hm Hn F Hc. rewrite u44 in Hm. pose proof (edges_in edgesR edgesR_ok) as Ei.
  assert (Bs : forall l, In l (combine (all_orbits g) bodies) -> bound (fst l) = negative (snd l)) by (intros l I; eapply bound_same; eauto).
  assert (Bn : forall i o b, nth_error (all_orbits g) i = Some o -> nth_error bodies i = Some b -> bound o = true <-> fst b < 0).
  { intros i o b Ho Hb. pose proof (Bs (o, b) (combine_nth_in _ _ i o b Ho Hb)) as E. cbn [fst snd] in E. rewrite E. unfold negative.
    destruct (Rlt_bool_spec (fst b) 0); [tauto|]. split; [discriminate|lra]. }
  pose proof (proj1 (constructible_ok g) Hg) as Og.
  assert (Ls : length (star_orbits g) = n) by (rewrite <- Hn; apply orbits_cols; apply Og).
  assert (Hst : forall i, (i < n)%nat -> nth_error (all_orbits g) i = nth_error (star_orbits g) i).
  { intros i Li. unfold all_orbits, sets. cbn [flat_map]. apply nth_error_app1. change (i < length (star_orbits g))%nat. lia. }
  assert (Hb : exists o, In o (all_orbits g) /\ bound o = true).
  { destruct (ec_pts _ _ _ _ _ _ Hc) as (p0 & rest & pts & pt & P & _). assert (I : In p0 (map (scaled ue uz) (filter negative bodies))) by (eapply Permutation_in; [symmetry; exact P|now left]).
    apply in_map_iff in I as (b & _ & I). apply filter_In in I as [I Nb]. apply In_nth_error in I as (i & Hi).
    destruct (nth_error (all_orbits g) i) as [o|] eqn:Ho.
    - exists o. split; [eapply nth_error_In; eauto|]. apply (Bn i o b Ho Hi). unfold negative in Nb. destruct (Rlt_bool_spec (fst b) 0); [assumption|discriminate].
    - apply nth_error_None in Ho. rewrite (Forall2_length _ _ _ F) in Ho. apply nth_error_None in Ho. congruence. }
  destruct (default_ranges sm) as (l0 & l1 & A0 & A1 & N0 & _). assert (NE : l0 ++ l1 <> []) by (intros Z; rewrite Z in N0; discriminate).
  pose proof (c30_returns _ (F64_rounded sm) argsort g _ _ l0 l1 Hg Hs A0 A1 NE) as R.
  destruct (c40_total _ (F64_rounded sm) argsort junk (default_bin0, default_bin1) cut g Hg) as (T1 & T2). cbn [fst snd] in T1, T2.
  assert (Q : (exists cs, decompose argsort (jthreshold junk (default_bin0, default_bin1) cut) tt g = Ok (cs, tt)) <-> exists j, jcirc argsort g default_bin0 default_bin1 = Ok j).
  { split.
    - intros (cs & E). destruct (jcirc argsort g default_bin0 default_bin1) as [j|x] eqn:Ej; [eauto|]. rewrite (T1 x eq_refl) in E. discriminate.
    - intros (j & Ej). destruct (T2 j Ej) as (c & Ec & _). eauto. }
  rewrite Q, R. split.
  - intros (_ & P) i j bi bj (L1 & L2) Hi Hj Nj.
    assert (exists o, nth_error (star_orbits g) i = Some o) as (oi & Hoi) by (destruct (nth_error (star_orbits g) i) eqn:E; [eauto|apply nth_error_None in E; lia]).
    assert (exists o, nth_error (star_orbits g) j = Some o) as (oj & Hoj) by (destruct (nth_error (star_orbits g) j) eqn:E; [eauto|apply nth_error_None in E; lia]).
    apply (Bn i oi bi); [rewrite Hst by lia; exact Hoi|exact Hi|]. apply (P i j oi oj L1 Hoi Hoj). apply (Bn j oj bj); [rewrite Hst by lia; exact Hoj|exact Hj|exact Nj].
  - intros P. split; [exact Hb|]. intros i j oi oj L1 Hoi Hoj Bj.
    assert (Lj : (j < n)%nat) by (rewrite <- Ls; apply nth_error_Some; congruence).
    assert (X : forall k o, (k < n)%nat -> nth_error (star_orbits g) k = Some o -> exists b, nth_error bodies k = Some b).
    { intros k o Lk Hk. rewrite <- Hst in Hk by lia. destruct (nth_error bodies k) eqn:E; [eauto|]. apply nth_error_None in E. rewrite <- (Forall2_length _ _ _ F) in E. apply nth_error_None in E. congruence. }
    destruct (X i oi ltac:(lia) Hoi) as (bi & Hbi). destruct (X j oj Lj Hoj) as (bj & Hbj).
    apply (Bn i oi bi); [rewrite Hst by lia; exact Hoi|exact Hbi|]. apply (P i j bi bj ltac:(lia) Hbi Hbj). apply (Bn j oj bj); [rewrite Hst by lia; exact Hoj|exact Hbj|exact Bj].
Qed.

Lemma centre_found {N : Num} (RN : Rounded N) (g : galaxy N) t ps i i0 : Forall2 (pot_near RN t) (all_pots g) ps -> lowest g i -> clearly_lowest t ps i0 -> i = i0.
Proof.
  intros F (v & Hv & Hm & _) (p & Hp & Hc). destruct (Nat.eq_dec i i0) as [|Ne]; [assumption|exfalso].
  destruct (Forall2_nth_l _ _ _ F i v Hv) as (p' & Hp' & r' & Er' & Ar').
  assert (exists w, nth_error (all_pots g) i0 = Some w) as (w & Hw).
  { destruct (nth_error (all_pots g) i0) eqn:E; [eauto|]. apply nth_error_None in E. rewrite (Forall2_length _ _ _ F) in E. apply nth_error_None in E. congruence. }
  destruct (Forall2_nth_l _ _ _ F i0 w Hw) as (p'' & Hp'' & r & Er & Ar). assert (p'' = p) as -> by congruence.
  specialize (Hc i p' Ne Hp'). specialize (Hm w (nth_error_In _ _ Hw)). apply (nlt_false RN) in Hm. rewrite Er, Er' in Hm. simpl in Hm.
  apply Rabs_le_inv in Ar. apply Rabs_le_inv in Ar'. destruct Hm; lra.
Qed.

(** *** C97 *)

(** A galaxy with potentials known up to a relative error [t] is centred, aligned with any matrix product
    and decomposed with JThreshold, all in double precision.  The particle of lowest potential
    becomes the centre.  Let [bodies] be the exact energies and exact angular momenta about that
    particle along the total angular momentum of the stars.  If the rounding errors are at most [d] in
    the units of the exact curve, and the exact curve is clear by a margin [m] and nowhere steeper than 1/[a], then the
    decomposition succeeds exactly if no unbound star precedes a bound one, and every star gets the
    label of the exact rule unless it is within (12 d + 2^-47)/a of a limit. *)
Lemma c97_labels : forall sm K argsort junk (cut : F64s sm) rt fma mm (g h1 : galaxy (F64s sm)) ls ld lg t ps,
  sums_well (F64_rounded sm) (/ IZR (2 ^ 53)) K -> fused (F64_rounded sm) fma -> is_matmul fma mm -> sorting argsort ->
  constructible g -> reads_set (F64_rounded sm) (g_stars g) ls -> reads_set (F64_rounded sm) (g_dm g) ld -> reads_set (F64_rounded sm) (g_gas g) lg ->
  Forall2 (pot_near (F64_rounded sm) t) (all_pots g) ps -> 0 <= t <= 1 -> (forall x, In x ps -> Rabs x <= bpow radix2 200) ->
  val (F64_rounded sm) cut = XR rt -> center g = Ok h1 ->
  exists i o, lowest g i /\ (forall i0, clearly_lowest t ps i0 -> i = i0) /\ nth_error (ls ++ ld ++ lg) i = Some o /\
    (let seen := map (seen_from o) in let u := / IZR (2 ^ 53) in let k := K (length ls) in
     let bodies := map2 (whole_body (seen ls)) (seen (ls ++ ld ++ lg)) ps in
     strong_spin u k (seen ls) -> (forall q, In q (seen ld) \/ In q (seen lg) -> SpecChain.within q) ->
     exists h2, star_align_with mm h1 None = Ok h2 /\
       forall m a d ue uz cv, 0 <= d -> 16 * d + / IZR (2 ^ 44) <= m ->
         (forall q x, In (q, x) (combine (seen (ls ++ ld ++ lg)) ps) -> resolved u k t (seen ls) d ue uz q x) ->
         exact_curve m edgesR bodies ue uz cv -> 0 < a <= 1 -> gentle a cv ->
         ((exists cs, decompose argsort (jthreshold junk (default_bin0, default_bin1) cut) tt h2 = Ok (cs, tt)) <-> bound_first (length ls) bodies) /\
         forall cs st', decompose argsort (jthreshold junk (default_bin0, default_bin1) cut) tt h2 = Ok (cs, st') ->
           forall j b, (j < length ls)%nat -> nth_error bodies j = Some b ->
           exists w, nth_error (c_labels cs) j = Some w /\ labelled ((12 * d + / IZR (2 ^ 47)) / a) rt cv ue uz b w).
Proof.
  intros sm K argsort junk cut rt fma mm g h1 ls ld lg t ps UK FM MM Hs Hg Rs Rd Rg FP Ht Hx Vc Hc.
  destruct (whole_orbits sm K fma mm g h1 ls ld lg t ps UK FM MM Hg Rs Rd Rg FP Ht Hx Hc) as (i & o & Hi & Ho & H). exists i, o. split; [exact Hi|].
  split; [intros i0; apply (centre_found (F64_rounded sm) g t ps i i0 FP Hi)|]. split; [exact Ho|].
  cbv zeta in H |- *. intros SS Hw. destruct (H SS Hw) as (h2 & E2 & C2 & Lp & _ & N). exists h2. split; [exact E2|].
  intros m a d ue uz cv D0 Hm Hr Hcv Pa Ga. specialize (N d ue uz Hr). split.
  - exact (whole_returns sm argsort junk cut h2 _ m d ue uz cv _ C2 Hs Hm Lp N Hcv).
  - intros cs st' Hd j [e z] Lj Hb. rewrite <- Lp in Lj.
    destruct (c96_labels sm argsort junk cut rt h2 cs st' _ m a d ue uz cv j e z C2 Hs Vc Hd D0 Hm N Hcv Pa Ga Lj Hb) as (c & w & Ic & Hwj & R1 & R2 & R3 & R4).
    exists w. split; [exact Hwj|]. exists c. auto.
Qed.

(** In particular with [star_align] as it is. *)
Lemma c97_plain : forall sm K argsort junk (cut : F64s sm) rt (g h1 : galaxy (F64s sm)) ls ld lg t ps,
  sums_well (F64_rounded sm) (/ IZR (2 ^ 53)) K -> sorting argsort ->
  constructible g -> reads_set (F64_rounded sm) (g_stars g) ls -> reads_set (F64_rounded sm) (g_dm g) ld -> reads_set (F64_rounded sm) (g_gas g) lg ->
  Forall2 (pot_near (F64_rounded sm) t) (all_pots g) ps -> 0 <= t <= 1 -> (forall x, In x ps -> Rabs x <= bpow radix2 200) ->
  val (F64_rounded sm) cut = XR rt -> center g = Ok h1 ->
  exists i o, lowest g i /\ (forall i0, clearly_lowest t ps i0 -> i = i0) /\ nth_error (ls ++ ld ++ lg) i = Some o /\
    (let seen := map (seen_from o) in let u := / IZR (2 ^ 53) in let k := K (length ls) in
     let bodies := map2 (whole_body (seen ls)) (seen (ls ++ ld ++ lg)) ps in
     strong_spin u k (seen ls) -> (forall q, In q (seen ld) \/ In q (seen lg) -> SpecChain.within q) ->
     exists h2, star_align h1 None = Ok h2 /\
       forall m a d ue uz cv, 0 <= d -> 16 * d + / IZR (2 ^ 44) <= m ->
         (forall q x, In (q, x) (combine (seen (ls ++ ld ++ lg)) ps) -> resolved u k t (seen ls) d ue uz q x) ->
         exact_curve m edgesR bodies ue uz cv -> 0 < a <= 1 -> gentle a cv ->
         ((exists cs, decompose argsort (jthreshold junk (default_bin0, default_bin1) cut) tt h2 = Ok (cs, tt)) <-> bound_first (length ls) bodies) /\
         forall cs st', decompose argsort (jthreshold junk (default_bin0, default_bin1) cut) tt h2 = Ok (cs, st') ->
           forall j b, (j < length ls)%nat -> nth_error bodies j = Some b ->
           exists w, nth_error (c_labels cs) j = Some w /\ labelled ((12 * d + / IZR (2 ^ 47)) / a) rt cv ue uz b w).
Proof.
  intros sm K argsort junk cut rt g h1 ls ld lg t ps UK Hs Hg Rs Rd Rg FP Ht Hx Vc Hc.
  pose proof (c94_fma64 sm) as FM. destruct (c94_plain (F64s sm) fma64) as (MM & _ & EP).
  assert (C1 : constructible h1) by (destruct (c09_translation _ (F64_rounded sm) g h1 Hg Hc) as (? & ? & ? & ? & _ & _ & _ & _ & _ & C1 & _); exact C1).
  rewrite <- (EP h1 None C1).
  exact (c97_labels sm K argsort junk cut rt fma64 plain_matmul g h1 ls ld lg t ps UK FM MM Hs Hg Rs Rd Rg FP Ht Hx Vc Hc).
Qed.

(** *** With the potential computed *)
Lemma Forall2_nth_iff {A B} (R : A -> B -> Prop) l l' : length l = length l' ->
  (forall i a b, nth_error l i = Some a -> nth_error l' i = Some b -> R a b) -> Forall2 R l l'.
Proof.
  revert l'. induction l as [|a l IH]; intros [|b l'] L H; try discriminate; constructor; [exact (H 0%nat a b eq_refl eq_refl)|].
  apply IH; [now injection L|]. intros i. exact (H (S i)).
Qed.
Lemma nth_error_seq_inv n i i' : nth_error (seq 0 n) i = Some i' -> i' = i /\ (i < n)%nat.
Proof.
  intros H. assert (L : (i < n)%nat) by (rewrite <- (seq_length n 0); apply nth_error_Some; congruence).
  split; [|exact L]. apply nth_error_nth with (d := 0%nat) in H. rewrite seq_nth in H by exact L. lia.
Qed.
Lemma phi_bound s (p : particle) (l : list particle) D M : 0 < D -> (forall q, In q l -> 0 <= pm q <= M /\ D <= sdist s p q) ->
  0 <= phi s p l <= INR (length l) * (M / D).
Proof.
  intros D0. unfold phi. rewrite sumR_Rsum. induction l as [|q l IH]; intros H.
  - simpl. lra.
  - cbn [map Rsum fold_right length]. rewrite S_INR. destruct (H q (or_introl eq_refl)) as ((A & B) & C).
    assert (I : 0 <= Rsum (map (fun q => pm q / sdist s p q) l) <= INR (length l) * (M / D)) by (apply IH; intros; apply H; now right).
    unfold Rsum in I. assert (0 <= pm q / sdist s p q <= M / D).
    { split; [apply Rmult_le_pos; [lra|left; apply Rinv_0_lt_compat; lra]|]. unfold Rdiv. apply Rmult_le_compat; [lra|left; apply Rinv_0_lt_compat; lra|lra|]. apply Rinv_le_contravar; lra. }
    lra.
Qed.

Lemma reads_sources {N : Num} (RN : Rounded N) (p : pset N) l : pset_ok p -> reads_set RN p l ->
  Forall2 (reads RN) (sources (p_x p) (p_y p) (p_z p) (p_m p)) l.
Proof.
  intros Hp (M & X & Y & Z & _). clear Hp. revert X Y Z M. unfold sources. generalize (p_x p) (p_y p) (p_z p) (p_m p). induction l as [|q l IH]; intros x y z m X Y Z M.
  - destruct x; [constructor|discriminate].
  - destruct x as [|x0 x], y as [|y0 y], z as [|z0 z], m as [|m0 m]; try discriminate. cbn [map] in X, Y, Z, M. injection X as X0 X. injection Y as Y0 Y. injection Z as Z0 Z. injection M as M0 M.
    cbn [combine]. constructor; [cbn; auto|]. apply IH; auto.
Qed.
Lemma sources_app {N : Num} (x1 y1 z1 m1 x2 y2 z2 m2 : list N) : length x1 = length y1 -> length z1 = length y1 -> length m1 = length y1 ->
  sources (x1 ++ x2) (y1 ++ y2) (z1 ++ z2) (m1 ++ m2) = sources x1 y1 z1 m1 ++ sources x2 y2 z2 m2.
Proof.
  unfold sources. revert y1 z1 m1. induction x1 as [|a x1 IH]; intros [|b y1] [|c z1] [|e m1] A B C; try discriminate; [reflexivity|].
  cbn in *. f_equal. apply IH; lia.
Qed.
Lemma reads_all {N : Num} (RN : Rounded N) (g : galaxy N) ls ld lg : gal_ok g ->
  reads_set RN (g_stars g) ls -> reads_set RN (g_dm g) ld -> reads_set RN (g_gas g) lg ->
  Forall2 (reads RN) (sources (all_x g) (all_y g) (all_z g) (all_m g)) (ls ++ ld ++ lg).
Proof.
  intros Hg Rs Rd Rg. apply gal_ok_facts in Hg as [Os Od Oq _ _ _ _ _ _].
  unfold all_x, all_y, all_z, all_m, sets. cbn [flat_map]. rewrite !app_nil_r.
  destruct (pset_ok_lengths _ Os) as (A1 & A2 & A3 & _). destruct (pset_ok_lengths _ Od) as (B1 & B2 & B3 & _).
  assert (Lm : forall p : pset N, length (p_m p) = plen p) by reflexivity.
  rewrite !sources_app by (rewrite ?Lm; congruence).
  apply Forall2_app; [|apply Forall2_app]; apply reads_sources; auto.
Qed.

Lemma backend_returns sm sm' (G : F32s sm') table name (g h : galaxy (F64s sm)) : backend_of G table name -> constructible g -> g_haspot g = false ->
  potential (W:=F64s sm) (S:=F32s sm') to32 to64 table name g = Ok h -> constructible h /\ g_haspot h = true /\ Forall2 same_but_potential (sets g) (sets h).
Proof.
  intros BK Hg Hp E. destruct BK as [junk|plan junk|have junk Ad J0].
  - destruct (potential_returns _ _ (F64_rounded sm) _ _ _ _ _ _ _ _ Hg E) as (C0 & _ & Hp0 & F0). auto.
  - destruct (c19_result _ (F32s sm') (F64_rounded sm) to32 to64 (contracted_table (S:=F32s sm') G fma32 plan junk) "fortran"
     (contracted_potential (S:=F32s sm') G fma32 plan) g Hg Hp eq_refl) as (s & _ & R).
    pose proof Hg as Hg'. apply constructible_ok in Hg'. pose proof (gxyz_length g Hg') as (Lx & Ly & Lz & _).
    edestruct R as (h' & E' & A & B & C & _); [reflexivity| |rewrite E' in E; assert (h' = h) as -> by congruence; auto].
    rewrite all_x_gx, all_y_gy, all_z_gz, all_m_gm. unfold contracted_kernel. cbv zeta. rewrite map_length, map2_length, seq_length, Nat.min_id.
    rewrite bodies_length; rewrite !map_length; rewrite ?gm_length; lia.
  - destruct (potential_returns _ _ (F64_rounded sm) _ _ _ _ _ _ _ _ Hg E) as (C0 & _ & Hp0 & F0). auto.
Qed.

(** What C84, C86 and C91 and the centring say of a galaxy without potential. *)
Lemma potential_exact : forall sm sm' table name (g : galaxy (F64s sm)) (G : F32s sm') kG s ls ld lg R0 D,
  let lr := ls ++ ld ++ lg in let ps := exact_pots kG s lr in let t := pot_error (length lr) R0 D in
  constructible g -> g_haspot g = false ->
  reads_set (F64_rounded sm) (g_stars g) ls -> reads_set (F64_rounded sm) (g_dm g) ld -> reads_set (F64_rounded sm) (g_gas g) lg ->
  backend_of G table name -> val (F32_rounded sm') G = XR kG -> / IZR (2 ^ 40) <= kG <= IZR (2 ^ 20) ->
  (forall so, largest_softening g so -> val (F64_rounded sm) so = XR s) -> usual s ->
  (forall q, In q lr -> 0 < pm q /\ usual (pm q) /\ forall a, In a [px q; py q; pz q] -> ordinary a /\ Rabs a <= R0) ->
  (forall i j p q, i <> j -> nth_error lr i = Some p -> nth_error lr j = Some q -> D <= sdist s p q) ->
  / IZR (2 ^ 60) <= D -> 0 <= R0 <= IZR (2 ^ 19) * D -> INR (length lr) <= IZR (2 ^ 22) -> lr <> [] ->
  exists h0 h1, potential (W:=F64s sm) (S:=F32s sm') to32 to64 table name g = Ok h0 /\ center h0 = Ok h1 /\
    constructible h0 /\ reads_set (F64_rounded sm) (g_stars h0) ls /\ reads_set (F64_rounded sm) (g_dm h0) ld /\ reads_set (F64_rounded sm) (g_gas h0) lg /\
    Forall2 (pot_near (F64_rounded sm) t) (all_pots h0) ps /\ 0 <= t <= 1 /\ (forall x, In x ps -> Rabs x <= bpow radix2 200).
Proof.
  intros sm sm' table name g G kG s ls ld lg R0 D lr ps t Hg Hp Rs Rd Rg BK VG HG So Us Q Ap HD HR Ln NE.
  pose proof (proj1 (constructible_ok g) Hg) as Og.
  assert (D0 : 0 < D). { eapply Rlt_le_trans; [|exact HD]. apply Rinv_0_lt_compat, IZR_lt. reflexivity. }
  assert (PA : exists h, potential (W:=F64s sm) (S:=F32s sm') to32 to64 table name g = Ok h /\ length (all_pots h) = length lr /\
    forall i p, nth_error lr i = Some p -> exists w v, nth_error (all_pots h) i = Some w /\ val (F64_rounded sm) w = XR v /\
      Rabs (v + kG * phi s p (others lr i)) <= ((INR (length lr) + 8) / IZR (2 ^ 23) + 3 * (R0 / (IZR (2 ^ 22) * D))) * (kG * phi s p (others lr i))).
  { destruct BK as [junk|plan junk|have junk Ad J0].
    - exact (c84_potential sm sm' g G junk kG s lr R0 D Hg Hp VG HG So Us (reads_all _ g ls ld lg Og Rs Rd Rg) Q Ap D0 HR Ln).
    - exact (c91_given sm sm' g G plan junk kG s lr R0 D Hg Hp VG HG So Us (reads_all _ g ls ld lg Og Rs Rd Rg) Q Ap D0 HR Ln).
    - exact (c86_numpy sm sm' g G have junk kG s lr R0 D Ad J0 Hg Hp VG HG So Us (reads_all _ g ls ld lg Og Rs Rd Rg) Q Ap D0 HR Ln). }
  destruct PA as (h0 & E0 & L0 & A0).
  destruct (backend_returns sm sm' G table name g h0 BK Hg Hp E0) as (C0 & Hp0 & F0).
  assert (HS : forall p q l, same_but_potential (N:=F64s sm) p q -> reads_set (F64_rounded sm) p l -> reads_set (F64_rounded sm) q l).
  { unfold same_but_potential, reads_set. intros p q l (_ & B1 & B2 & B3 & B4 & B5 & B6 & B7 & _). rewrite <- B1, <- B2, <- B3, <- B4, <- B5, <- B6, <- B7. auto. }
  unfold sets in F0. inversion F0 as [|? ? ? ? S1 F1]; subst. inversion F1 as [|? ? ? ? S2 F2]; subst. inversion F2 as [|? ? ? ? S3 F3]; subst. clear F0 F1 F2 F3.
  pose proof (HS _ _ _ S1 Rs) as Rs0. pose proof (HS _ _ _ S2 Rd) as Rd0. pose proof (HS _ _ _ S3 Rg) as Rg0.
  assert (Z23 : 0 < IZR (2 ^ 23)) by (apply IZR_lt; reflexivity). assert (Z22 : 0 < IZR (2 ^ 22)) by (apply IZR_lt; reflexivity).
  assert (Ht : 0 <= t <= 1).
  { unfold t, pot_error. pose proof (pos_INR (length lr)) as PL. split.
    - apply Rplus_le_le_0_compat; [apply Rmult_le_pos; [lra|left; now apply Rinv_0_lt_compat]|]. apply Rmult_le_pos; [lra|]. apply Rmult_le_pos; [lra|]. left. apply Rinv_0_lt_compat. now apply Rmult_lt_0_compat.
    - assert (T1 : (INR (length lr) + 8) / IZR (2 ^ 23) <= 9 / 16).
      { apply Rmult_le_reg_r with (IZR (2 ^ 23)); [exact Z23|]. unfold Rdiv at 1. rewrite Rmult_assoc, Rinv_l, Rmult_1_r by lra.
        change (IZR (2 ^ 22)) with 4194304 in Ln. change (IZR (2 ^ 23)) with 8388608. lra. }
      assert (T2 : R0 / (IZR (2 ^ 22) * D) <= 1 / 8).
      { apply Rmult_le_reg_r with (IZR (2 ^ 22) * D); [now apply Rmult_lt_0_compat|]. unfold Rdiv at 1. rewrite Rmult_assoc, Rinv_l, Rmult_1_r by nra.
        change (IZR (2 ^ 22)) with 4194304. change (IZR (2 ^ 19)) with 524288 in HR. lra. }
      lra. }
  assert (PH : forall i p, nth_error lr i = Some p -> 0 <= kG * phi s p (others lr i) <= bpow radix2 200).
  { intros i p Hi. pose proof (phi_bound s p (others lr i) D (IZR (2 ^ 39)) D0) as B.
    assert (B' : 0 <= phi s p (others lr i) <= INR (length (others lr i)) * (IZR (2 ^ 39) / D)).
    { apply B. intros q I. apply others_in in I as (j & Nj & Hj). destruct (Q q (nth_error_In _ _ Hj)) as (M0 & M1 & _). split; [|exact (Ap i j p q Nj Hi Hj)].
      split; [lra|]. destruct M1 as [M1|M1]; [rewrite M1; apply IZR_le; discriminate|]. rewrite Rabs_pos_eq in M1 by lra. lra. }
    assert (Lo : INR (length (others lr i)) <= IZR (2 ^ 22)).
    { rewrite others_length by (apply nth_error_Some; congruence). eapply Rle_trans; [|exact Ln]. apply le_INR. lia. }
    assert (P40 : 0 < / IZR (2 ^ 40)) by (apply Rinv_0_lt_compat, IZR_lt; reflexivity).
    assert (MD : 0 <= IZR (2 ^ 39) / D <= IZR (2 ^ 39) * IZR (2 ^ 60)).
    { split; [apply Rmult_le_pos; [apply IZR_le; discriminate|left; now apply Rinv_0_lt_compat]|]. apply Rmult_le_compat_l; [apply IZR_le; discriminate|].
      rewrite <- (Rinv_inv (IZR (2 ^ 60))). apply Rinv_le_contravar; [apply Rinv_0_lt_compat, IZR_lt; reflexivity|exact HD]. }
    split; [apply Rmult_le_pos; lra|].
    apply Rle_trans with (IZR (2 ^ 20) * (IZR (2 ^ 22) * (IZR (2 ^ 39) * IZR (2 ^ 60)))).
    - apply Rmult_le_compat; [lra|lra|lra|]. eapply Rle_trans; [apply B'|]. apply Rmult_le_compat; [apply pos_INR|lra|exact Lo|lra].
    - rewrite <- !mult_IZR. change (2 ^ 20 * (2 ^ 22 * (2 ^ 39 * 2 ^ 60)))%Z with (2 ^ 141)%Z. replace (IZR (2 ^ 141)) with (bpow radix2 141) by (rewrite <- IZR_Zpower by lia; reflexivity). apply bpow_le. lia. }
  assert (FP : Forall2 (pot_near (F64_rounded sm) t) (all_pots h0) ps).
  { apply Forall2_nth_iff.
    - unfold ps, exact_pots. rewrite map_length, seq_length. exact L0.
    - intros i w x Hw Hx. unfold ps, exact_pots in Hx. rewrite nth_error_map in Hx.
      destruct (nth_error (seq 0 (length lr)) i) as [i'|] eqn:Ei; [|discriminate Hx]. apply nth_error_seq_inv in Ei as (-> & Li). injection Hx as <-.
      destruct (nth_error lr i) as [p|] eqn:Hi; [|apply nth_error_None in Hi; lia].
      destruct (A0 i p Hi) as (w' & v & Hw' & Ev & Av). assert (w' = w) as -> by congruence. exists v. split; [exact Ev|].
      rewrite Rabs_Ropp. destruct (PH i p Hi) as (P0 & _). rewrite (Rabs_pos_eq (kG * _)) by exact P0. unfold Rminus. rewrite Ropp_involutive. exact Av. }
  assert (Hx : forall x, In x ps -> Rabs x <= bpow radix2 200).
  { intros x I. unfold ps, exact_pots in I. apply in_map_iff in I as (i & <- & _). destruct (nth_error lr i) as [p|] eqn:Hi.
    - rewrite Rabs_Ropp. destruct (PH i p Hi). rewrite Rabs_pos_eq; assumption.
    - rewrite Rabs_R0. apply bpow_ge_0. }
  assert (exists h1, center h0 = Ok h1) as (h1 & E1).
  { apply (c08_guard _ h0 n0 n0 C0); [exact Hp0|]. unfold glen.
    pose proof (proj1 (constructible_ok h0) C0) as O0. apply gal_ok_facts in O0 as [O1 O2 O3 _ _ _ _ _ _].
    pose proof (reads_plen (F64_rounded sm) _ _ O1 Rs0). pose proof (reads_plen (F64_rounded sm) _ _ O2 Rd0). pose proof (reads_plen (F64_rounded sm) _ _ O3 Rg0).
    assert (length lr <> 0%nat) by (destruct lr; [congruence|discriminate]). unfold lr in *. rewrite !app_length in *. cbn. lia. }
  exists h0, h1. auto 12.
Qed.

(** The whole analysis: the potential of any of the backends, centring, aligning with any matrix product and JThreshold with the
    default bins.  [ps] are the exact potentials, [bodies] the exact energies and
    angular momenta; the errors of the potential are those of C84, C86 and C91. *)
Lemma c97_all : forall sm sm' K argsort junk table name fma mm (cut : F64s sm) rt (g : galaxy (F64s sm)) (G : F32s sm') kG s ls ld lg R0 D,
  let lr := ls ++ ld ++ lg in let ps := exact_pots kG s lr in let t := pot_error (length lr) R0 D in
  sums_well (F64_rounded sm) (/ IZR (2 ^ 53)) K -> fused (F64_rounded sm) fma -> is_matmul fma mm -> sorting argsort ->
  constructible g -> g_haspot g = false ->
  reads_set (F64_rounded sm) (g_stars g) ls -> reads_set (F64_rounded sm) (g_dm g) ld -> reads_set (F64_rounded sm) (g_gas g) lg ->
  backend_of G table name -> val (F32_rounded sm') G = XR kG -> / IZR (2 ^ 40) <= kG <= IZR (2 ^ 20) ->
  (forall so, largest_softening g so -> val (F64_rounded sm) so = XR s) -> usual s ->
  (forall q, In q lr -> 0 < pm q /\ usual (pm q) /\ forall a, In a [px q; py q; pz q] -> ordinary a /\ Rabs a <= R0) ->
  (forall i j p q, i <> j -> nth_error lr i = Some p -> nth_error lr j = Some q -> D <= sdist s p q) ->
  / IZR (2 ^ 60) <= D -> 0 <= R0 <= IZR (2 ^ 19) * D -> INR (length lr) <= IZR (2 ^ 22) -> lr <> [] ->
  val (F64_rounded sm) cut = XR rt ->
  exists h0 h1 i o, potential (W:=F64s sm) (S:=F32s sm') to32 to64 table name g = Ok h0 /\ center h0 = Ok h1 /\
    lowest h0 i /\ (forall i0, clearly_lowest t ps i0 -> i = i0) /\ nth_error lr i = Some o /\
    (let seen := map (seen_from o) in let u := / IZR (2 ^ 53) in let k := K (length ls) in
     let bodies := map2 (whole_body (seen ls)) (seen lr) ps in
     strong_spin u k (seen ls) -> (forall q, In q (seen ld) \/ In q (seen lg) -> SpecChain.within q) ->
     exists h2, star_align_with mm h1 None = Ok h2 /\
       forall m a d ue uz cv, 0 <= d -> 16 * d + / IZR (2 ^ 44) <= m ->
         (forall q x, In (q, x) (combine (seen lr) ps) -> resolved u k t (seen ls) d ue uz q x) ->
         exact_curve m edgesR bodies ue uz cv -> 0 < a <= 1 -> gentle a cv ->
         ((exists cs, decompose argsort (jthreshold junk (default_bin0, default_bin1) cut) tt h2 = Ok (cs, tt)) <-> bound_first (length ls) bodies) /\
         forall cs st', decompose argsort (jthreshold junk (default_bin0, default_bin1) cut) tt h2 = Ok (cs, st') ->
           forall j b, (j < length ls)%nat -> nth_error bodies j = Some b ->
           exists w, nth_error (c_labels cs) j = Some w /\ labelled ((12 * d + / IZR (2 ^ 47)) / a) rt cv ue uz b w).
Proof.
  intros sm sm' K argsort junk table name fma mm cut rt g G kG s ls ld lg R0 D lr ps t UK FM MM Hs Hg Hp Rs Rd Rg BK VG HG So Us Q Ap HD HR Ln NE Vc.
  destruct (potential_exact sm sm' table name g G kG s ls ld lg R0 D Hg Hp Rs Rd Rg BK VG HG So Us Q Ap HD HR Ln NE) as (h0 & h1 & E0 & E1 & C0 & Rs0 & Rd0 & Rg0 & FP & Ht & Hx).
  destruct (c97_labels sm K argsort junk cut rt fma mm h0 h1 ls ld lg t ps UK FM MM Hs C0 Rs0 Rd0 Rg0 FP Ht Hx Vc E1) as (i & o & H1 & H2 & H3 & H4).
  exists h0, h1, i, o. repeat (split; [assumption|]). exact H4.
Qed.

(** *** An example *)
Definition exW_set (t : ptype) (m x y z vx vy vz : list Z) : pset F64 :=
  pset_of (N:=F64) t (fZs m) (fZs x) (fZs y) (fZs z) (fZs vx) (fZs vy) (fZs vz) None (fZ 0).
(** Two stars at distance 1 from a particle of dark matter, without potential. *)
Definition exW_gal : galaxy F64 :=
  mkGal (exW_set STARS [131072; 131072] [6; 4] [5; 5] [5; 5] [0; 448] [0; 0] [-511; 246])%Z
        (exW_set DARK_MATTER [65536] [5] [5] [5] [0] [0] [0])%Z (exW_set GAS [] [] [] [] [] [] [])%Z false.
Definition exW_stars : list particle := [Part 131072 6 5 5 0 0 (-511); Part 131072 4 5 5 448 0 246].
Definition exW_dark : list particle := [Part 65536 5 5 5 0 0 0].
Definition exW_seen : list particle := [Part 131072 1 0 0 0 0 (-511); Part 131072 (-1) 0 0 448 0 246].
Definition exW_bodies : list (R * R) := [(-1023 / 2, 511); (-462, 246); (-262144, 0)].

Lemma exW_ok : constructible exW_gal.
Proof.
  apply constructible_ok, gal_ok_facts. constructor; try reflexivity.
  all: apply pset_ok_iff; split; [|reflexivity]; repeat split; intros p H; discriminate H.
Qed.
Lemma exW_reads : let RS := F64_rounded (seqsum 53 1024 p53 e1024) in
  reads_set RS (g_stars exW_gal) exW_stars /\ reads_set RS (g_dm exW_gal) exW_dark /\ reads_set RS (g_gas exW_gal) [].
Proof.
  cbv zeta. set (RS := F64_rounded _).
  assert (V : forall z, (Z.abs z <= 1048576)%Z -> val RS (fZ z) = XR (IZR z)).
  { intros z Hz. unfold fZ. change (nofZ (N:=F64) z) with (nofZ (N:=F64s (seqsum 53 1024 p53 e1024)) z). rewrite (val_ofZ RS). apply (rnd_int RS). change (intmax RS) with (2 ^ 53)%Z. lia. }
  assert (M : forall zs rs, Forall2 (fun z r => (Z.abs z <= 1048576)%Z /\ IZR z = r) zs rs -> map (val RS) (fZs zs) = map XR rs).
  { induction 1 as [|z r zs rs [H1 H2] F IH]; [reflexivity|]. change (fZs (z :: zs)) with (fZ z :: fZs zs). cbn [map]. etransitivity; [exact (f_equal2 cons (V z H1) IH)|]. now rewrite H2. }
  split; [|split].
  - repeat split; (etransitivity; [apply M; repeat (constructor; [split; [lia|reflexivity]|]); constructor|reflexivity]).
  - repeat split; (etransitivity; [apply M; repeat (constructor; [split; [lia|reflexivity]|]); constructor|reflexivity]).
  - repeat split.
Qed.
Lemma exW_pots : exact_pots 1 0 (exW_stars ++ exW_dark ++ []) = [-131072; -131072; -262144].
Proof.
  unfold exact_pots, exW_stars, exW_dark, others, phi, sdist. cbn [app length seq map nth_error firstn skipn sumR fold_right px py pz pm].
  replace ((6 - 4) * (6 - 4) + (5 - 5) * (5 - 5) + (5 - 5) * (5 - 5) + 0 * 0) with (2 * 2) by ring.
  replace ((4 - 6) * (4 - 6) + (5 - 5) * (5 - 5) + (5 - 5) * (5 - 5) + 0 * 0) with (2 * 2) by ring.
  replace ((6 - 5) * (6 - 5) + (5 - 5) * (5 - 5) + (5 - 5) * (5 - 5) + 0 * 0) with (1 * 1) by ring.
  replace ((4 - 5) * (4 - 5) + (5 - 5) * (5 - 5) + (5 - 5) * (5 - 5) + 0 * 0) with (1 * 1) by ring.
  replace ((5 - 6) * (5 - 6) + (5 - 5) * (5 - 5) + (5 - 5) * (5 - 5) + 0 * 0) with (1 * 1) by ring.
  replace ((5 - 4) * (5 - 4) + (5 - 5) * (5 - 5) + (5 - 5) * (5 - 5) + 0 * 0) with (1 * 1) by ring.
  rewrite !sqrt_square by lra. f_equal; [field|f_equal; [field|f_equal; field]].
Qed.
Lemma exW_from o : px o = 5 -> py o = 5 -> pz o = 5 -> map (seen_from o) exW_stars = exW_seen /\ map (seen_from o) exW_dark = [Part 65536 0 0 0 0 0 0].
Proof. intros X Y Z. unfold exW_stars, exW_seen, exW_dark, seen_from. cbn [map pm px py pz pvx pvy pvz]. rewrite X, Y, Z. split; repeat f_equal; ring. Qed.
Lemma exW_totals : LX None exW_seen = 0 /\ LY None exW_seen = 99221504 /\ LZ None exW_seen = 0 /\ Lnorm None exW_seen = 99221504 /\ Lplane exW_seen = 99221504.
Proof.
  assert (LX0 : LX None exW_seen = 0) by (unfold LX, exW_seen, lx; cbn [filter inside sumR fold_right pm px py pz pvx pvy pvz]; ring).
  assert (LY0 : LY None exW_seen = 99221504) by (unfold LY, exW_seen, ly; cbn [filter inside sumR fold_right pm px py pz pvx pvy pvz]; ring).
  assert (LZ0 : LZ None exW_seen = 0) by (unfold LZ, exW_seen, lz; cbn [filter inside sumR fold_right pm px py pz pvx pvy pvz]; ring).
  repeat split; auto; unfold Lnorm, Lplane; rewrite ?LX0, ?LY0, ?LZ0.
  - replace (_ + _) with (99221504 * 99221504) by ring. apply sqrt_square. lra.
  - replace (_ + _) with (99221504 * 99221504) by ring. apply sqrt_square. lra.
Qed.
Lemma exW_body : map2 (whole_body exW_seen) (exW_seen ++ [Part 65536 0 0 0 0 0 0]) [-131072; -131072; -262144] = exW_bodies.
Proof.
  destruct exW_totals as (A & B & C & D & _). unfold whole_body, axis_part. rewrite A, B, C, D.
  unfold exW_seen, exW_bodies, kinr, lx, ly, lz. cbn [app map2 pm px py pz pvx pvy pvz]. f_equal; [f_equal; field|f_equal; [f_equal; field|f_equal; f_equal; field]].
Qed.

(** The exact curve: from the dark matter particle at the centre to the faster star. *)
Lemma exW_scaled : map (scaled 262144 511) (filter negative exW_bodies) = [(-1023 / 524288, 1); (-231 / 131072, 246 / 511); (-1, 0)].
Proof.
  unfold exW_bodies, negative. cbn [filter fst]. rewrite !Rlt_bool_true by lra. unfold scaled. cbn [map fst snd].
  rewrite !Rabs_pos_eq by lra. f_equal; [f_equal; field|f_equal; [f_equal; field|f_equal; f_equal; field]].
Qed.
Lemma exW_rows i (y0 y1 y2 : R) : (i < 38)%nat ->
  filter (fun p => inbin edgesR i (fst p)) [(-1023 / 524288, y1); (-231 / 131072, y2); (-1, y0)] =
  if (i =? 37)%nat then [(-1023 / 524288, y1); (-231 / 131072, y2)] else [].
Proof.
  intros Li.
  assert (E : forall x, inbin edgesR i x = match nth_error edgesR i with Some lo => Rlt_bool lo x && match nth_error edgesR (S i) with Some hi => Rle_bool x hi | None => true end | None => false end) by reflexivity.
  cbn [filter fst]. rewrite !E. clear E.
  do 38 (destruct i as [|i]; [cbn [edgesR nth_error map seq app INR Nat.eqb];
    repeat match goal with
    | |- context [Rlt_bool ?a ?b] => first [rewrite (Rlt_bool_true a b) by lra|rewrite (Rlt_bool_false a b) by lra]
    | |- context [Rle_bool ?a ?b] => first [rewrite (Rle_bool_true a b) by lra|rewrite (Rle_bool_false a b) by lra]
    end; reflexivity|]). lia.
Qed.
Lemma exW_far p e : In p [(-1023 / 524288, 1); (-231 / 131072, 246 / 511)] -> In e edgesR -> / 1000 <= Rabs (fst p - e).
Proof.
  intros Hp He. apply In_nth_error in He as [i Hi]. apply edgesR_nth in Hi as [Li ->].
  repeat (destruct Hp as [<-|Hp]; [cbn [fst]; clear - Li; do 38 (destruct i as [|i]; [cbn [Nat.ltb Nat.leb INR];
    (match goal with |- _ <= Rabs ?x => destruct (Rcase_abs x); [rewrite (Rabs_left x) by assumption|rewrite (Rabs_right x) by assumption] end); lra|])|]).
  all: try (exfalso; lia). destruct Hp.
Qed.
Lemma exW_curve : exact_curve (/ 1000) edgesR exW_bodies 262144 511 [(-1, 0); (-1023 / 524288, 1)].
Proof.
  constructor.
  - split; [lra|]. intros b Hb. repeat (destruct Hb as [<-|Hb]; [cbn [fst]; lra|]). destruct Hb.
  - split; [lra|]. split.
    + exists (-1023 / 2, 511). split; [simpl; auto|]. cbn [fst snd]. split; [lra|]. rewrite Rabs_pos_eq; lra.
    + intros b Hb _. repeat (destruct Hb as [<-|Hb]; [cbn [snd]; rewrite Rabs_pos_eq; lra|]). destruct Hb.
  - intros b Hb. repeat (destruct Hb as [<-|Hb]; [cbn [fst]; rewrite Rabs_left; lra|]). destruct Hb.
  - rewrite exW_scaled. exists (-1, 0), [(-1023 / 524288, 1); (-231 / 131072, 246 / 511)], (repeat None 37 ++ [Some (-1023 / 524288, 1)]), (-1023 / 524288, 1).
    split; [change [(-1023 / 524288, 1); (-231 / 131072, 246 / 511); (-1, 0)] with ([(-1023 / 524288, 1); (-231 / 131072, 246 / 511)] ++ [(-1, 0)]); apply Permutation_app_comm|].
    split; [reflexivity|]. split; [apply exW_far|]. split; [reflexivity|]. split; [|split; reflexivity].
    intros i o H. assert (Li : (i < 38)%nat).
    { replace 38%nat with (length (repeat None 37 ++ [Some (-1023 / 524288, 1)])) by reflexivity. apply nth_error_Some. congruence. }
    unfold point. cbv zeta. rewrite (exW_rows i 0 1 (246 / 511) Li).
    destruct (Nat.eq_dec i 37) as [->|N37].
    + injection H as <-. change (S 37 <? length edgesR)%nat with false. cbn [Nat.eqb]. cbv iota.
      exists [(-231 / 131072, 246 / 511)]. split; [reflexivity|]. intros b [<-|[]]. cbn [snd]. lra.
    + rewrite (proj2 (Nat.eqb_neq _ _) N37). do 38 (destruct i as [|i]; [first [lia|injection H as <-; reflexivity]|]). lia.
Qed.
Lemma exW_spans : span 1 0 0 = 1 /\ span (-1) 0 0 = 1 /\ span 0 0 0 <= 1 /\ span 0 0 (-511) = 511 /\ span 448 0 246 = 448 /\ weights exW_seen = 131072 * (511 + 448).
Proof.
  assert (E0 : bpow radix2 (-100) <= 1) by (change 1 with (bpow radix2 0); apply bpow_le; lia).
  assert (S1 : span 1 0 0 = 1) by (apply span_1; rewrite ?Rabs_R1; auto).
  assert (S2 : span (-1) 0 0 = 1) by (apply span_1; rewrite ?Rabs_Ropp, ?Rabs_R1; auto; try (right; rewrite Rabs_left; lra); left; rewrite Rabs_left; lra).
  assert (S4 : span 0 0 (-511) = 511).
  { unfold span. rewrite Rabs_R0, (Rabs_left (-511)) by lra. replace (- (-511)) with 511 by ring. rewrite (Rmax_right 0 511), (Rmax_right 0 511) by lra. apply Rmax_right. lra. }
  assert (S5 : span 448 0 246 = 448).
  { unfold span. rewrite Rabs_R0, !(Rabs_pos_eq) by lra. rewrite (Rmax_right 0 246), (Rmax_left 448 246) by lra. apply Rmax_right. lra. }
  repeat split; auto.
  - unfold span. rewrite Rabs_R0, !(Rmax_left 0 0) by lra. apply Rmax_lub; lra.
  - unfold weights, exW_seen, weight. cbn [sumR fold_right pm px py pz pvx pvy pvz]. rewrite S1, S2, S4, S5, Rabs_pos_eq by lra.
    rewrite Rmax_right by lra. ring.
Qed.
Lemma exW_spin : strong_spin (/ IZR (2 ^ 53)) (2 * INR 2) exW_seen.
Proof.
  destruct exW_spans as (S1 & S2 & _ & S4 & S5 & W). destruct exW_totals as (_ & _ & _ & L1 & L2).
  assert (E1 : 131072 <= bpow radix2 99) by (change 131072 with (bpow radix2 17); apply bpow_le; lia).
  assert (U : 0 < / IZR (2 ^ 53) <= / 1000000000000) by (split; [apply Rinv_0_lt_compat, IZR_lt; reflexivity|apply Rinv_le_contravar; [lra|apply IZR_le; lia]]).
  split; [intros q [<-|[<-|[]]]; unfold SpecChain.within; cbn [pm px py pz pvx pvy pvz]; rewrite ?S1, ?S2, ?S4, ?S5, ?Rabs_pos_eq by lra; repeat split; lra|].
  split; [change (bpow radix2 20) with (IZR (2 ^ 20)); simpl; lra|]. split; [change (bpow radix2 21) with (IZR (2 ^ 21)); simpl; lra|]. rewrite W, L1, L2.
  assert (bpow radix2 (-389) <= 1) by (change 1 with (bpow radix2 0); apply bpow_le; lia). simpl INR. split; lra.
Qed.
Lemma exW_resolved : forall q x, In (q, x) (combine (exW_seen ++ [Part 65536 0 0 0 0 0 0]) [-131072; -131072; -262144]) ->
  resolved (/ IZR (2 ^ 53)) (2 * INR 2) (pot_error 3 6 1) exW_seen (/ 150000) 262144 511 q x.
Proof.
  destruct exW_spans as (S1 & S2 & S3 & S4 & S5 & W). destruct exW_totals as (_ & _ & _ & L1 & L2).
  assert (U : 0 < / IZR (2 ^ 53) <= / 1000000000000000) by (split; [apply Rinv_0_lt_compat, IZR_lt; reflexivity|apply Rinv_le_contravar; [lra|apply IZR_le; lia]]).
  set (u := / IZR (2 ^ 53)) in *.
  assert (T : 0 <= pot_error 3 6 1 <= / 170000).
  { unfold pot_error. simpl INR. change (IZR (2 ^ 23)) with 8388608. change (IZR (2 ^ 22)) with 4194304. lra. }
  assert (P3 : 0 < span 0 0 0) by (eapply Rlt_le_trans; [apply bpow_gt_0|apply Rmax_l]).
  assert (Sq : 0 <= span 0 0 0 * span 0 0 0 <= 1) by nra.
  intros q x I. cbn [app combine exW_seen] in I. unfold resolved, spin_error, reach.
  destruct I as [E|[E|[E|[]]]]; injection E as <- <-; cbn [pm px py pz pvx pvy pvz]; rewrite ?S1, ?S2, ?S4, ?S5, W, L1; simpl INR; try rewrite (Rabs_left (-131072)) by lra; try rewrite (Rabs_left (-262144)) by lra; split; nra.
Qed.

Lemma exW_soft so : largest_softening exW_gal so -> val (F64_rounded (seqsum 53 1024 p53 e1024)) so = XR 0.
Proof.
  assert (V : val (F64_rounded (seqsum 53 1024 p53 e1024)) (fZ 0) = XR 0) by (apply (val_small (F64_rounded (seqsum 53 1024 p53 e1024))); lia).
  intros [(p & (I & _) & <- & _)|(_ & Nu)].
  - destruct I as [<-|[<-|[<-|[]]]]; exact V.
  - exfalso. apply (Nu (g_stars exW_gal)). split; [simpl; auto|]. split; [discriminate|reflexivity].
Qed.
Lemma exW_usual : forall q, In q (exW_stars ++ exW_dark ++ []) -> 0 < pm q /\ usual (pm q) /\ forall a, In a [px q; py q; pz q] -> ordinary a /\ Rabs a <= 6.
Proof.
  assert (O : forall a, 1 <= a <= 1000000 -> usual a /\ ordinary a).
  { intros a Ha. unfold ordinary, usual. rewrite Rabs_pos_eq by lra. change (IZR (2 ^ 16)) with 65536. change (IZR (2 ^ 39)) with 549755813888. split; right; lra. }
  intros q [<- |[<- |[<- |[]]]]; cbn [pm px py pz]; (split; [lra|]; split; [apply O; lra|]); intros a [<- |[<- |[<- |[]]]]; (split; [apply O; lra|apply Rabs_le; lra]).
Qed.
Lemma exW_dist : forall i j p q, i <> j -> nth_error (exW_stars ++ exW_dark ++ []) i = Some p -> nth_error (exW_stars ++ exW_dark ++ []) j = Some q -> 1 <= sdist 0 p q.
Proof.
  intros i j p q Hij Hp' Hq. rewrite <- sqrt_1. unfold sdist. apply sqrt_le_1_alt. destruct i as [|[|[|i]]], j as [|[|[|j]]]; cbn in Hp', Hq;
    try congruence; try (destruct i; discriminate); try (destruct j; discriminate); injection Hp' as <-; injection Hq as <-; cbn [px py pz]; lra.
Qed.

Lemma exW_gentle : gentle (99 / 100) [(-1, 0); (-1023 / 524288, 1)].
Proof.
  unfold gentle. apply Sorted_cons; [apply Sorted_cons; [apply Sorted_nil|apply HdRel_nil]|apply HdRel_cons]. cbn [fst snd]. rewrite Rabs_pos_eq by lra. lra.
Qed.

(** The hypotheses of C97 are met by two stars and a particle of dark matter without potential: the dark matter
    is the centre, the margin is 1/1000 and the errors are below 1/150000.  So for the cut 1/4 the slower
    star is certain to be labelled 1, and the run does so. *)
Example ex_c97 : let RS := F64_rounded (seqsum 53 1024 p53 e1024) in let u := / IZR (2 ^ 53) in
  let lr := exW_stars ++ exW_dark ++ [] in let ps := exact_pots 1 0 lr in let t := pot_error (length lr) 6 1 in
  constructible exW_gal /\ g_haspot exW_gal = false /\
  (reads_set RS (g_stars exW_gal) exW_stars /\ reads_set RS (g_dm exW_gal) exW_dark /\ reads_set RS (g_gas exW_gal) []) /\
  backend_of (n1 : F32) (backend_table n1 true junk0) "fortran" /\ fused RS fma64 /\ is_matmul (S:=F64) fma64 (plain_matmul (S:=F64)) /\
  sums_well RS u (fun n => 2 * INR n) /\
  (forall so, largest_softening exW_gal so -> val RS so = XR 0) /\
  (forall q, In q lr -> 0 < pm q /\ usual (pm q) /\ forall a, In a [px q; py q; pz q] -> ordinary a /\ Rabs a <= 6) /\
  (forall i j p q, i <> j -> nth_error lr i = Some p -> nth_error lr j = Some q -> 1 <= sdist 0 p q) /\
  clearly_lowest t ps 2 /\
  (exists o, nth_error lr 2 = Some o /\
    let seen := map (seen_from o) in let bodies := map2 (whole_body (seen exW_stars)) (seen lr) ps in
    strong_spin u (2 * INR 2) (seen exW_stars) /\ (forall q, In q (seen exW_dark) \/ In q (seen []) -> SpecChain.within q) /\
    16 * / 150000 + / IZR (2 ^ 44) <= / 1000 /\
    (forall q x, In (q, x) (combine (seen lr) ps) -> resolved u (2 * INR 2) t (seen exW_stars) (/ 150000) 262144 511 q x) /\
    exact_curve (/ 1000) edgesR bodies 262144 511 [(-1, 0); (-1023 / 524288, 1)] /\ gentle (99 / 100) [(-1, 0); (-1023 / 524288, 1)] /\ bound_first 2 bodies /\
    nth_error bodies 1 = Some (-462, 246) /\
    forall w : F64, labelled ((12 * / 150000 + / IZR (2 ^ 47)) / (99 / 100)) (1 / 4) [(-1, 0); (-1023 / 524288, 1)] 262144 511 (-462, 246) w -> w = nofZ 1) /\
  (do h0 <- potential (W:=F64) (S:=F32) to32 to64 (backend_table n1 true junk0) "fortran" exW_gal; do h1 <- center h0; do h2 <- star_align h1 None;
   rmap (fun r => shows (c_labels (fst r))) (decompose asort (jthreshold (fun _ => 77%Z) (default_bin0, default_bin1) (nlit 1 4)) tt h2)) =
  Ok [sZ 1; sZ 1; S754_nan].
Proof.
  cbv zeta. split; [exact exW_ok|]. split; [reflexivity|]. split; [exact exW_reads|]. split; [constructor|]. split; [apply c94_fma64|]. split; [apply c94_plain|]. split; [apply c68_double|]. split; [exact exW_soft|]. split; [exact exW_usual|].
  split; [exact exW_dist|]. rewrite exW_pots. change (length (exW_stars ++ exW_dark ++ [])) with 3%nat.
  assert (T : 0 <= pot_error 3 6 1 <= / 170000).
  { unfold pot_error. simpl INR. change (IZR (2 ^ 23)) with 8388608. change (IZR (2 ^ 22)) with 4194304. lra. }
  split.
  { exists (-262144). split; [reflexivity|]. intros j p' Nj Hj. assert (p' = -131072) as ->.
    { destruct j as [|[|[|j]]]; [injection Hj; auto|injection Hj; auto|congruence|destruct j; discriminate Hj]. }
    rewrite (Rabs_left (-262144)), (Rabs_left (-131072)) by lra. lra. }
  split.
  { eexists. split; [reflexivity|]. rewrite !map_app. destruct (exW_from (Part 65536 5 5 5 0 0 0)) as (-> & ->); [reflexivity..|]. cbn [map]. rewrite app_nil_r.
    split; [exact exW_spin|]. destruct exW_spans as (_ & _ & S3 & _).
    assert (E1 : 65536 <= bpow radix2 99) by (change 65536 with (bpow radix2 16); apply bpow_le; lia).
    split. { intros q [[<-|[]]|[]]. unfold SpecChain.within. cbn [pm px py pz pvx pvy pvz]. rewrite Rabs_pos_eq by lra. repeat split; lra. }
    split. { assert (/ IZR (2 ^ 44) <= / 1000000) by (apply Rinv_le_contravar; [lra|apply IZR_le; lia]). lra. }
    split; [exact exW_resolved|]. rewrite exW_body. split; [exact exW_curve|]. split; [exact exW_gentle|].
    split. { intros i j bi bj (L1 & L2) Hi Hj Nj. destruct i as [|i]; [|lia]. injection Hi as <-. cbn [fst]. lra. }
    split; [reflexivity|]. intros w (c & Ic & _ & _ & K & _). cbn [fst snd] in *.
    assert (/ IZR (2 ^ 47) <= / 1000000) by (apply Rinv_le_contravar; [lra|apply IZR_le; lia]). assert (0 < / IZR (2 ^ 47)) by (apply Rinv_0_lt_compat, IZR_lt; reflexivity).
    assert (c = 1) as ->.
    { inversion Ic as [|? ? ? ?|? ? ? ? ? ? B1 B2|? ? ? ? ? ? ? B1 Ic']; subst; [lra|lra|]. inversion Ic'; subst; [lra|reflexivity]. }
    apply K; [lra|rewrite Rabs_pos_eq by lra|rewrite Rabs_pos_eq by lra]; lra. }
  vm_compute. reflexivity.
Qed.
