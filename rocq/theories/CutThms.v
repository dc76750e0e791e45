(** Property lemmas about the whole analysis with a cut-off radius in the alignment: C103. *)
From Flocq Require Import Core.
From Coq Require Import Lra Lia Permutation Sorted Floats.SpecFloat.
From Verif Require Import Py Num RX F64 Np Df Data DataFacts DfFacts RebuildFacts Center CenterFacts Align Spec SpecR SpecCirc SpecAlAcc SpecBase SpecCurve SpecChain SpecFma Dgemm SpecDgemm SpecAcc SpecWhole Ex DataThms CenterThms AlignFacts AlignThms Circ CircFacts CurveFacts CircThms OrderThms AlAccFacts AlAccRot AlAccSum AlAccThms ChainFacts ChainThms DgemmThms CtrAccThms EpsAccFacts EpsAccThms EpsCutThms Base Threshold ThresholdThms PolyFacts ChoiceFacts CurveAccFacts CurveAccThms SpecPot Potential PotConcFacts PotFacts PotThms SpecPotAcc AccThms PotAccThms SpecNpAcc NpAccThms Fma FmaThms PipeThms WholeThms SpecHist Hist HistFacts HistThms SpecSplit SplitThms EpsFacts MixStar EdgeFacts EdgeThms EnergyThms SpecWhist WhistFacts AlCutThms WhistThms SpecCut CutChain.
Local Open Scope R_scope.

(** *** From the input to the orbits *)
Lemma cut_orbits : forall sm K fma mm (g h1 : galaxy (F64s sm)) ls ld lg t ps (r : F64s sm) c,
  sums_well (F64_rounded sm) (/ IZR (2 ^ 53)) K -> fused (F64_rounded sm) fma -> is_matmul fma mm ->
  constructible g -> reads_set (F64_rounded sm) (g_stars g) ls -> reads_set (F64_rounded sm) (g_dm g) ld -> reads_set (F64_rounded sm) (g_gas g) lg ->
  Forall2 (pot_near (F64_rounded sm) t) (all_pots g) ps -> 0 <= t <= 1 -> (forall x, In x ps -> Rabs x <= bpow radix2 200) ->
  val (F64_rounded sm) r = XR c -> bpow radix2 (-90) <= c -> center g = Ok h1 ->
  exists i o, lowest g i /\ nth_error (ls ++ ld ++ lg) i = Some o /\
    (let seen := map (seen_from o) in let u := / IZR (2 ^ 53) in let ins := within_cut c (seen ls) in let k := K (length ins) in
     strong_spin u k ins -> off_edge u c (seen ls) -> (forall q, In q (seen (ls ++ ld ++ lg)) -> SpecChain.within q) ->
     exists h2, star_align_with mm h1 (Some r) = Ok h2 /\ constructible h2 /\ plen (g_stars h2) = length ls /\
       length ps = length (ls ++ ld ++ lg) /\
       forall d ue uz, (forall q x, In (q, x) (combine (seen (ls ++ ld ++ lg)) ps) -> resolved u k t ins d ue uz q x) ->
         Forall2 (near_orbit (F64_rounded sm) d ue uz) (all_orbits h2) (map2 (whole_body ins) (seen (ls ++ ld ++ lg)) ps)).
Proof.
  intros sm K fma mm g h1 ls ld lg t ps r c UK FM MM Hg Rs Rd Rg FP Ht Hx Er Hcc Hc.
  set (RN := F64_rounded sm) in *. set (u := / IZR (2 ^ 53)) in *.
  assert (GR : graceful RN u) by apply F64_graceful.
  assert (U0 : bpow radix2 (-100) <= u) by (change u with (bpow radix2 (-53)); apply bpow_le; lia).
  assert (U1 : u <= bpow radix2 (-40)) by (change u with (bpow radix2 (-53)); apply bpow_le; lia).
  destruct (chain_cut _ RN u K GR U0 U1 UK fma mm FM MM g h1 ls ld lg r c Hg Er Hcc Rs Rd Rg Hc) as (i & o & Hi & Ho & H). exists i, o. split; [exact Hi|]. split; [exact Ho|].
  cbv zeta in H |- *. intros SS Oe Hw. destruct (H SS Oe Hw) as (h2 & E2 & C2 & Ns & Nd & Ng). exists h2. split; [exact E2|]. split; [exact C2|]. clear H.
  assert (Hp : g_haspot g = true). { destruct (g_haspot g) eqn:E; [reflexivity|]. unfold center in Hc. rewrite E in Hc. discriminate. }
  destruct (c09_translation _ RN g h1 Hg Hc) as (i' & x0 & y0 & z0 & _ & _ & _ & _ & M).
  destruct M as (Hh & C1 & M).
  destruct (c94_frame _ fma mm MM h1 (Some r) C1) as (_ & _ & F). destruct (F h2 E2) as (_ & Hp2 & F2). clear F.
  pose proof (proj1 (constructible_ok g) Hg) as Og. destruct (pots_of g Og Hp) as (ws & wd & wg & P1 & P2 & P3 & P4).
  rewrite P4 in FP. apply Forall2_app_inv_l in FP as (pss & ps' & FPs & FP & ->). apply Forall2_app_inv_l in FP as (psd & psg & FPd & FPg & ->).
  apply gal_ok_facts in Og as [Os Od Oq _ _ _ _ _ _].
  unfold sets in M, F2.
  inversion M as [|? ? ? ? ((_ & _ & _ & _ & _ & A1 & _ & _ & _ & _ & A2) & _) M1]; subst. inversion M1 as [|? ? ? ? ((_ & _ & _ & _ & _ & B1 & _ & _ & _ & _ & B2) & _) M2]; subst.
  inversion M2 as [|? ? ? ? ((_ & _ & _ & _ & _ & D1 & _ & _ & _ & _ & D2) & _) M3]; subst. clear M M1 M2 M3.
  inversion F2 as [|? ? ? ? (_ & _ & A3 & _ & _ & A4) M1]; subst. inversion M1 as [|? ? ? ? (_ & _ & B3 & _ & _ & B4) M2]; subst.
  inversion M2 as [|? ? ? ? (_ & _ & D3 & _ & _ & D4) M3]; subst. clear F2 M1 M2 M3.
  pose proof (reads_plen RN _ _ Os Rs) as L1. pose proof (reads_plen RN _ _ Od Rd) as L2. pose proof (reads_plen RN _ _ Oq Rg) as L3.
  pose proof (Forall2_length _ _ _ FPs) as Q1. pose proof (Forall2_length _ _ _ FPd) as Q2. pose proof (Forall2_length _ _ _ FPg) as Q3.
  assert (W : forall p w, pset_ok p -> p_pot (N:=F64s sm) p = Some w -> length w = plen p) by (intros p w Hok; apply (pset_ok_lengths p Hok)).
  pose proof (W _ _ Os P1) as W1. pose proof (W _ _ Od P2) as W2. pose proof (W _ _ Oq P3) as W3. clear W.
  split; [congruence|]. split; [rewrite !app_length; lia|].
  intros d ue uz Hr. apply constructible_ok in C2. apply gal_ok_facts in C2 as [Os2 Od2 Oq2 _ _ _ _ _ _].
  unfold all_orbits, sets. cbn [flat_map]. rewrite app_nil_r, !map_app. rewrite !map2_app by (rewrite map_length; lia).
  rewrite !map_app in Hr.
  assert (CA : forall A B (a1 a2 : list A) (b1 b2 : list B), length a1 = length b1 -> combine (a1 ++ a2) (b1 ++ b2) = combine a1 b1 ++ combine a2 b2).
  { intros A B a1. induction a1 as [|a a1 IH]; intros a2 [|b b1] b2 Hl; try discriminate; [reflexivity|]. cbn. f_equal. apply IH. now injection Hl. }
  rewrite !CA in Hr by (rewrite map_length; lia).
  assert (U6 : 0 < u <= / 1000000).
  { split; [apply Rinv_0_lt_compat, IZR_lt; reflexivity|apply Rinv_le_contravar; [lra|apply IZR_le; vm_compute; discriminate]]. }
  rewrite !map_app in Hw.
  assert (W1' : forall q, In q (map (seen_from o) ls) -> SpecChain.within q) by (intros q I; apply Hw, in_or_app; now left).
  assert (W2' : forall q, In q (map (seen_from o) ld) -> SpecChain.within q) by (intros q I; apply Hw; rewrite !in_app_iff; tauto).
  assert (W3' : forall q, In q (map (seen_from o) lg) -> SpecChain.within q) by (intros q I; apply Hw; rewrite !in_app_iff; tauto).
  set (ins := within_cut c _) in *.
  apply Forall2_app; [|apply Forall2_app].
  - apply (set_orbits RN u GR U6 (K (length ins)) ins _ _ ws d ue uz t); auto; [congruence|intros x I; apply Hx, in_or_app; now left|intros q x I; apply Hr, in_or_app; now left].
  - apply (set_orbits RN u GR U6 (K (length ins)) ins _ _ wd d ue uz t); auto; [congruence|intros x I; apply Hx; rewrite !in_app_iff; tauto|intros q x I; apply Hr; rewrite !in_app_iff; tauto].
  - apply (set_orbits RN u GR U6 (K (length ins)) ins _ _ wg d ue uz t); auto; [congruence|intros x I; apply Hx; rewrite !in_app_iff; tauto|intros q x I; apply Hr; rewrite !in_app_iff; tauto].
Qed.

(** *** C103 *)

(** As C97, but aligned with a cut-off radius [r]: [ins] are the stars closer than the radius to the
    particle of lowest potential, and only they decide the axis.  No star may lie
    within a relative 30000 u of the radius. *)
Lemma c103_labels : forall sm K argsort junk (cut : F64s sm) rt fma mm (g h1 : galaxy (F64s sm)) ls ld lg t ps (r : F64s sm) c,
  sums_well (F64_rounded sm) (/ IZR (2 ^ 53)) K -> fused (F64_rounded sm) fma -> is_matmul fma mm -> sorting argsort ->
  constructible g -> reads_set (F64_rounded sm) (g_stars g) ls -> reads_set (F64_rounded sm) (g_dm g) ld -> reads_set (F64_rounded sm) (g_gas g) lg ->
  Forall2 (pot_near (F64_rounded sm) t) (all_pots g) ps -> 0 <= t <= 1 -> (forall x, In x ps -> Rabs x <= bpow radix2 200) ->
  val (F64_rounded sm) cut = XR rt -> val (F64_rounded sm) r = XR c -> bpow radix2 (-90) <= c -> center g = Ok h1 ->
  exists i o, lowest g i /\ (forall i0, clearly_lowest t ps i0 -> i = i0) /\ nth_error (ls ++ ld ++ lg) i = Some o /\
    (let seen := map (seen_from o) in let u := / IZR (2 ^ 53) in let ins := within_cut c (seen ls) in let k := K (length ins) in
     let bodies := map2 (whole_body ins) (seen (ls ++ ld ++ lg)) ps in
     strong_spin u k ins -> off_edge u c (seen ls) -> (forall q, In q (seen (ls ++ ld ++ lg)) -> SpecChain.within q) ->
     exists h2, star_align_with mm h1 (Some r) = Ok h2 /\
       forall m a d ue uz cv, 0 <= d -> 16 * d + / IZR (2 ^ 44) <= m ->
         (forall q x, In (q, x) (combine (seen (ls ++ ld ++ lg)) ps) -> resolved u k t ins d ue uz q x) ->
         exact_curve m SpecCurve.edgesR bodies ue uz cv -> 0 < a <= 1 -> gentle a cv ->
         ((exists cs, decompose argsort (jthreshold junk (default_bin0, default_bin1) cut) tt h2 = Ok (cs, tt)) <-> bound_first (length ls) bodies) /\
         forall cs st', decompose argsort (jthreshold junk (default_bin0, default_bin1) cut) tt h2 = Ok (cs, st') ->
           forall j b, (j < length ls)%nat -> nth_error bodies j = Some b ->
           exists w, nth_error (c_labels cs) j = Some w /\ SpecWhole.labelled ((12 * d + / IZR (2 ^ 47)) / a) rt cv ue uz b w).
Proof.
  intros sm K argsort junk cut rt fma mm g h1 ls ld lg t ps r c UK FM MM Hs Hg Rs Rd Rg FP Ht Hx Vc Er Hcc Hc.
  destruct (cut_orbits sm K fma mm g h1 ls ld lg t ps r c UK FM MM Hg Rs Rd Rg FP Ht Hx Er Hcc Hc) as (i & o & Hi & Ho & H). exists i, o. split; [exact Hi|].
  split; [intros i0; apply (centre_found (F64_rounded sm) g t ps i i0 FP Hi)|]. split; [exact Ho|].
  cbv zeta in H |- *. intros SS Oe Hw. destruct (H SS Oe Hw) as (h2 & E2 & C2 & Lp & _ & N). exists h2. split; [exact E2|].
  intros m a d ue uz cv D0 Hm Hr Hcv Pa Ga. specialize (N d ue uz Hr). split.
  - exact (whole_returns sm argsort junk cut h2 _ m d ue uz cv _ C2 Hs Hm Lp N Hcv).
  - intros cs st' Hd j [e z] Lj Hb. rewrite <- Lp in Lj.
    destruct (c96_labels sm argsort junk cut rt h2 cs st' _ m a d ue uz cv j e z C2 Hs Vc Hd D0 Hm N Hcv Pa Ga Lj Hb) as (cv0 & w & Ic & Hwj & R1 & R2 & R3 & R4).
    exists w. split; [exact Hwj|]. exists cv0. auto.
Qed.

(** The whole analysis with a cut-off radius: the potential of any of the backends, centring, aligning with any
    matrix product and JThreshold with the default bins. *)
Lemma c103_all : forall sm sm' K argsort junk table name fma mm (cut : F64s sm) rt (g : galaxy (F64s sm)) (G : F32s sm') kG s ls ld lg R0 D (r : F64s sm) c,
  let lr := ls ++ ld ++ lg in let ps := exact_pots kG s lr in let t := pot_error (length lr) R0 D in
  sums_well (F64_rounded sm) (/ IZR (2 ^ 53)) K -> fused (F64_rounded sm) fma -> is_matmul fma mm -> sorting argsort ->
  constructible g -> g_haspot g = false ->
  reads_set (F64_rounded sm) (g_stars g) ls -> reads_set (F64_rounded sm) (g_dm g) ld -> reads_set (F64_rounded sm) (g_gas g) lg ->
  backend_of G table name -> val (F32_rounded sm') G = XR kG -> / IZR (2 ^ 40) <= kG <= IZR (2 ^ 20) ->
  (forall so, largest_softening g so -> val (F64_rounded sm) so = XR s) -> usual s ->
  (forall q, In q lr -> 0 < pm q /\ usual (pm q) /\ forall a, In a [px q; py q; pz q] -> ordinary a /\ Rabs a <= R0) ->
  (forall i j p q, i <> j -> nth_error lr i = Some p -> nth_error lr j = Some q -> D <= sdist s p q) ->
  / IZR (2 ^ 60) <= D -> 0 <= R0 <= IZR (2 ^ 19) * D -> INR (length lr) <= IZR (2 ^ 22) -> lr <> [] ->
  val (F64_rounded sm) cut = XR rt -> val (F64_rounded sm) r = XR c -> bpow radix2 (-90) <= c ->
  exists h0 h1 i o, potential (W:=F64s sm) (S:=F32s sm') to32 to64 table name g = Ok h0 /\ center h0 = Ok h1 /\
    lowest h0 i /\ (forall i0, clearly_lowest t ps i0 -> i = i0) /\ nth_error lr i = Some o /\
    (let seen := map (seen_from o) in let u := / IZR (2 ^ 53) in let ins := within_cut c (seen ls) in let k := K (length ins) in
     let bodies := map2 (whole_body ins) (seen lr) ps in
     strong_spin u k ins -> off_edge u c (seen ls) -> (forall q, In q (seen lr) -> SpecChain.within q) ->
     exists h2, star_align_with mm h1 (Some r) = Ok h2 /\
       forall m a d ue uz cv, 0 <= d -> 16 * d + / IZR (2 ^ 44) <= m ->
         (forall q x, In (q, x) (combine (seen lr) ps) -> resolved u k t ins d ue uz q x) ->
         exact_curve m SpecCurve.edgesR bodies ue uz cv -> 0 < a <= 1 -> gentle a cv ->
         ((exists cs, decompose argsort (jthreshold junk (default_bin0, default_bin1) cut) tt h2 = Ok (cs, tt)) <-> bound_first (length ls) bodies) /\
         forall cs st', decompose argsort (jthreshold junk (default_bin0, default_bin1) cut) tt h2 = Ok (cs, st') ->
           forall j b, (j < length ls)%nat -> nth_error bodies j = Some b ->
           exists w, nth_error (c_labels cs) j = Some w /\ SpecWhole.labelled ((12 * d + / IZR (2 ^ 47)) / a) rt cv ue uz b w).
Proof.
  intros sm sm' K argsort junk table name fma mm cut rt g G kG s ls ld lg R0 D r c lr ps t UK FM MM Hs Hg Hp Rs Rd Rg BK VG HG So Us Q Ap HD HR Ln NE Vc Er Hcc.
  destruct (potential_exact sm sm' table name g G kG s ls ld lg R0 D Hg Hp Rs Rd Rg BK VG HG So Us Q Ap HD HR Ln NE) as (h0 & h1 & E0 & E1 & C0 & Rs0 & Rd0 & Rg0 & FP & Ht & Hx).
  destruct (c103_labels sm K argsort junk cut rt fma mm h0 h1 ls ld lg t ps r c UK FM MM Hs C0 Rs0 Rd0 Rg0 FP Ht Hx Vc Er Hcc E1) as (i & o & H1 & H2 & H3 & H4).
  exists h0, h1, i, o. repeat (split; [assumption|]). exact H4.
Qed.

(** *** The particle at the centre *)
Section Centre.
Context {S : Num} (RS : Rounded S).
Local Notation v := (val RS).
Lemma cut_zero u K fma mm (g h1 h2 : galaxy S) ls ld lg i0 o (r : S) c : graceful RS u -> bpow radix2 (-100) <= u -> u <= bpow radix2 (-40) -> sums_well RS u K ->
  fused RS fma -> is_matmul fma mm -> constructible g ->
  reads_set RS (g_stars g) ls -> reads_set RS (g_dm g) ld -> reads_set RS (g_gas g) lg -> center g = Ok h1 -> v r = XR c -> bpow radix2 (-90) <= c ->
  (forall j, lowest g j -> j = i0) -> nth_error (ls ++ ld ++ lg) i0 = Some o -> (i0 < length ls)%nat ->
  (let seen := map (seen_from o) ls in let ins := within_cut c seen in strong_spin u (K (length ins)) ins /\ off_edge u c seen /\ (forall q, In q seen -> SpecChain.within q)) -> star_align_with mm h1 (Some r) = Ok h2 ->
  forall ob z, nth_error (star_orbits h2) i0 = Some ob -> v (o_jz ob) = XR z -> z = 0.
Proof.
  intros U U0 U1 UK FM MM Hg Rs Rd Rg Hc Er Hcc Hi0 Ho Li (HS & HE & HW) Al ob z Hob Ez. pose proof (u_pos u U0) as Up.
  destruct (c09_translation S RS g h1 Hg Hc) as (i & x0 & y0 & z0 & Hi & X & Y & Z & (_ & Hh & Mv)). pose proof (Hi0 i Hi) as Ei. subst i. clear Hi0.
  cbn [sets] in Mv. inversion Mv as [|p1 q1 ? ? (Sm1 & X1 & Y1 & Z1) _]; subst. clear Mv.
  rewrite nth_error_app1 in Ho by exact Li.
  assert (G : forall (f : pset S -> list S) (r : particle -> R) a, map v (f (g_stars g)) = map (fun q => XR (r q)) ls -> nth_error (flat_map f (sets g)) i0 = Some a ->
    nth_error (f (g_stars g)) i0 = Some a /\ v a = XR (r o)).
  { intros f r' a E H. assert (L : length (f (g_stars g)) = length ls) by (apply (f_equal (@length _)) in E; now rewrite !map_length in E).
    cbn [sets flat_map] in H. rewrite nth_error_app1 in H by lia. split; [exact H|]. apply (f_equal (fun l => nth_error l i0)) in E. rewrite !nth_error_map, H, Ho in E. cbn [option_map] in E. congruence. }
  destruct (G (@p_x S) px x0 ltac:(apply Rs) X) as (Nx & Vx). destruct (G (@p_y S) py y0 ltac:(apply Rs) Y) as (Ny & Vy). destruct (G (@p_z S) pz z0 ltac:(apply Rs) Z) as (Nz & Vz). clear G.
  destruct (seen_reads RS u U U0 _ _ ls o x0 y0 z0 Rs Sm1 X1 Y1 Z1 Vx Vy Vz HW) as (ls1 & Rs1 & Fs).
  set (ins := within_cut c (map (seen_from o) ls)) in *.
  assert (ME : Forall2 (moved_near u) ins (within_cut c ls1) /\ forall q, In q ls1 -> 20000 * u * rad q < Rabs (rad q - c)).
  { unfold ins. rewrite !cut_inside. clear - Fs HW HE U0 U1 Hcc. induction Fs as [|q0 q1 l l' H F IH]; [split; [constructor|intros q []]|].
    destruct (moved_edge u U0 U1 c q0 q1 Hcc H (HW q0 (or_introl eq_refl)) (HE q0 (or_introl eq_refl))) as (E1 & E2).
    destruct IH as (IH1 & IH2); [intros q I; first [apply HW; now right|apply HE; now right]..|].
    split; [cbn [filter]; rewrite <- E1; destruct (inside (Some (XR c)) q0); [constructor|]; auto|].
    intros q [<-|I]; auto. }
  destruct ME as (Fi & Me). pose proof (strong_clear u U0 U1 _ _ _ Fi HS) as CS.
  rewrite cut_inside in CS. assert (Ll : length (filter (inside (Some (XR c))) ls1) = length ins) by (rewrite <- cut_inside; symmetry; exact (Forall2_length _ _ _ Fi)). rewrite <- Ll in CS.
  destruct (moved_lists u U0 U1 _ _ Fs HW) as (_ & Bs & _).
  destruct (reads_cols RS _ _ Rs1) as (bs & Cb & Fb). apply constructible_ok in Hh.
  assert (gs : pset_ok (g_stars h1)) by (apply gal_ok_facts in Hh; now destruct Hh).
  assert (Fi1 : Forall2 (reads_body RS) (filter (fb r) bs) (filter (inside (Some (XR c))) ls1)).
  { apply Forall2_filter; [exact Fb|]. intros b q Hq Hb. apply (reads_inside RS u U Up U1 r c Er Hcc); auto. apply Me, Hq. }
  destruct (AlAccThms.core RS u K U Up U1 UK _ _ Fi1 CS) as (M & Q & _ & AM & _).
  assert (GM : gal_matrix h1 (Some r) = total_matrix (filter (fb r) bs)).
  { rewrite gal_matrix_near by exact Hh. now rewrite (near_cut r (g_stars h1) bs gs Cb). }
  rewrite <- GM in AM.
  rewrite (star_align_with_eq fma mm MM h1 (Some r) Hh) in Al. destruct (cut_ok (Some r)); [|discriminate Al]. assert (E2 : turn_gal mm (gal_matrix h1 (Some r)) h1 = h2) by congruence. subst h2. clear Al.
  pose proof Hh as Ok1. apply gal_ok_facts in Ok1 as [O1 _ _ _ _ _ _ _ _].
  destruct (cols_turn fma mm MM 0 (gal_matrix h1 (Some r)) (g_stars h1) bs Cb) as (bs2 & C2 & D2).
  pose proof (orbits_bodies (turn_set mm 0 (gal_matrix h1 (Some r)) (g_stars h1)) bs2 (turn_set_ok fma mm MM 0 _ _ O1) C2) as FO.
  unfold star_orbits in Hob. cbn [turn_gal g_stars] in Hob.
  destruct (Forall2_nth_l _ _ _ FO i0 ob Hob) as (b2 & Hb2 & _ & _ & Ej). destruct (Forall2_nth_r _ _ _ D2 i0 b2 Hb2) as (b1 & Hb1 & DB).
  assert (B0 : v (AlAccRot.b_x b1) = XR 0 /\ v (AlAccRot.b_y b1) = XR 0 /\ v (AlAccRot.b_z b1) = XR 0).
  { destruct Cb as (_ & Bx & By & Bz & _).
    assert (T : forall (f : AlAccRot.body S -> S) (c c' : list S) a r, c' = map f bs -> c' = map (fun w => w - a)%num c -> nth_error c i0 = Some a -> v a = XR r -> v (f b1) = XR 0).
    { intros f k k' a r' A1 A2 A3 A4. rewrite A1 in A2. apply (f_equal (fun l => nth_error l i0)) in A2. rewrite !nth_error_map, A3, Hb1 in A2. cbn [option_map] in A2.
      assert (E : f b1 = (a - a)%num) by congruence. rewrite E, val_sub, A4. cbn [xsub xadd xopp]. rewrite Rplus_opp_r. apply rnd0. }
    split; [exact (T _ _ _ _ _ Bx X1 Nx Vx)|]. split; [exact (T _ _ _ _ _ By Y1 Ny Vy)|exact (T _ _ _ _ _ Bz Z1 Nz Vz)]. }
  destruct B0 as (Bx & By & Bz). destruct AM as ((s1 & M1 & _) & (s2 & M2 & _) & (r3 & M3 & _) & (r4 & M4 & _) & (r5 & M5 & _) & (r6 & M6 & _) & _).
  destruct DB as (_ & SX & SY & _).
  apply (zero_sum RS fma FM) in SX; [|intros a b [H|[H|[H|[]]]]; injection H as <- <-; split; eauto].
  apply (zero_sum RS fma FM) in SY; [|intros a b [H|[H|[H|[]]]]; injection H as <- <-; split; eauto].
  rewrite Ej in Ez. unfold AlAccRot.b_jz in Ez. rewrite val_sub, !val_mul, SX, SY in Ez.
  assert (T : forall w, (xmul (XR 0) w = XR 0) \/ xmul (XR 0) w = XNaN).
  { intros [r'| | |]; cbn [xmul]; [left; now rewrite Rmult_0_l|right..]; cbn [xsgn]; rewrite ?Rcompare_Eq by reflexivity; reflexivity. }
  destruct (T (v (AlAccRot.b_vy b2))) as [E1|E1], (T (v (AlAccRot.b_vx b2))) as [E3|E3]; rewrite E1, E3 in Ez; rewrite ?(rnd_nan RS), ?(rnd0 RS) in Ez; cbn [xsub xadd xopp] in Ez; rewrite ?(rnd_nan RS) in Ez; try discriminate.
  rewrite Ropp_0, Rplus_0_l, (rnd0 RS) in Ez. congruence.
Qed.
End Centre.

(** As C99, aligned with a cut-off radius: JHistogram and JEHistogram do with the same generator
    what they do in exact arithmetic. *)
Lemma c103_decompose : forall sm K argsort fma mm (g h1 : galaxy (F64s sm)) ls ld lg t ps (r : F64s sm) c,
  sums_well (F64_rounded sm) (/ IZR (2 ^ 53)) K -> fused (F64_rounded sm) fma -> is_matmul fma mm -> sorting argsort ->
  constructible g -> reads_set (F64_rounded sm) (g_stars g) ls -> reads_set (F64_rounded sm) (g_dm g) ld -> reads_set (F64_rounded sm) (g_gas g) lg ->
  Forall2 (pot_near (F64_rounded sm) t) (all_pots g) ps -> 0 <= t <= 1 -> (forall x, In x ps -> Rabs x <= bpow radix2 200) ->
  val (F64_rounded sm) r = XR c -> bpow radix2 (-90) <= c -> center g = Ok h1 ->
  exists i o, lowest g i /\ (forall i0, clearly_lowest t ps i0 -> i = i0) /\ nth_error (ls ++ ld ++ lg) i = Some o /\
    (let seen := map (seen_from o) in let u := / IZR (2 ^ 53) in let ins := within_cut c (seen ls) in let k := K (length ins) in
     let bodies := map2 (whole_body ins) (seen (ls ++ ld ++ lg)) ps in
     strong_spin u k ins -> off_edge u c (seen ls) -> (forall q, In q (seen (ls ++ ld ++ lg)) -> SpecChain.within q) ->
     exists h2, star_align_with mm h1 (Some r) = Ok h2 /\
       forall m a d ue uz cv used rows, 0 <= d -> 16 * d + / IZR (2 ^ 44) <= m ->
         (forall q x, In (q, x) (combine (seen (ls ++ ld ++ lg)) ps) -> resolved u k t ins d ue uz q x) ->
         exact_curve m SpecCurve.edgesR bodies ue uz cv -> 0 < a <= 1 -> gentle a cv ->
         (forall j b, (j < length ls)%nat -> nth_error bodies j = Some b -> settled ((12 * d + / IZR (2 ^ 47)) / a) cv ue uz (clearly_lowest t ps j) b) ->
         exact_stars (length ls) bodies ue uz cv used rows ->
         forall St (choice : St -> list nat -> nat -> list nat * St) junk cb st,
         (bound_first (length ls) bodies ->
           carries (length (ls ++ ld ++ lg)) used
             (outcome (d_split (jhistogram (N:=RX) choice junk cb 100 2) st (map (fun e => [CNum (N:=RX) (XR (snd e))]) rows) [] []))
             (decompose argsort (jhistogram choice junk (default_bin0, default_bin1) 100 2) st h2) /\
           carries (length (ls ++ ld ++ lg)) used
             (outcome (d_split (jehistogram (N:=RX) choice junk cb 100 2 20) st (map (fun e => [CNum (N:=RX) (XR (fst e)); CNum (N:=RX) (XR (snd e))]) rows) [] []))
             (decompose argsort (jehistogram choice junk (default_bin0, default_bin1) 100 2 20) st h2)) /\
         (~ bound_first (length ls) bodies -> exists e,
           decompose argsort (jhistogram choice junk (default_bin0, default_bin1) 100 2) st h2 = Raise e /\
           decompose argsort (jehistogram choice junk (default_bin0, default_bin1) 100 2 20) st h2 = Raise e)).
Proof.
  intros sm K argsort fma mm g h1 ls ld lg t ps r c UK FM MM Hs Hg Rs Rd Rg FP Ht Hx Er Hcc Hc.
  destruct (cut_orbits sm K fma mm g h1 ls ld lg t ps r c UK FM MM Hg Rs Rd Rg FP Ht Hx Er Hcc Hc) as (i & o & Hi & Ho & H). exists i, o. split; [exact Hi|].
  assert (Cf : forall i0, clearly_lowest t ps i0 -> forall i', lowest g i' -> i' = i0) by (intros i0 C i' L; eapply centre_found; eauto).
  split; [intros i0 C; now apply Cf|]. split; [exact Ho|].
  cbv zeta in H |- *. intros SS Oe Hw. destruct (H SS Oe Hw) as (h2 & E2 & C2 & Lp & Lps & N). exists h2. split; [exact E2|].
  intros m a d ue uz cv used rows D0 Hm Hr Hcv Pa Ga Hset Hex St choice junk cb st. specialize (N d ue uz Hr).
  set (bodies := map2 _ _ ps) in *.
  pose proof (jcirc_iff sm argsort h2 bodies m d ue uz cv _ C2 Hs Hm Lp N Hcv) as JI.
  set (central := fun k => clearly_lowest t ps k /\ exists b, nth_error bodies k = Some b /\ fst b < 0).
  assert (Hcen : forall k ob, central k -> nth_error (star_orbits h2) k = Some ob -> val (F64_rounded sm) (o_jz ob) = XR 0).
  { intros k ob (Ck & b & Hb & Nb) Hob. assert (k = i) by (symmetry; now apply Cf). subst k.
    assert (Li : (i < length ls)%nat).
    { rewrite <- Lp. pose proof (proj1 (constructible_ok h2) C2) as O2. apply gal_ok_facts in O2 as [O2 _ _ _ _ _ _ _ _]. rewrite <- (orbits_len _ O2). apply nth_error_Some. unfold star_orbits in Hob. congruence. }
    assert (Ha : nth_error (all_orbits h2) i = Some ob).
    { unfold all_orbits, sets. cbn [flat_map]. unfold star_orbits in Hob. rewrite nth_error_app1; [exact Hob|]. apply nth_error_Some. congruence. }
    destruct (Forall2_nth_l _ _ _ N i ob Ha) as (b' & Hb' & e & _ & _ & Z). assert (b' = b) by congruence. subst b'. destruct (Z Nb) as (z & Ez & _).
    rewrite Ez. f_equal. refine (cut_zero (F64_rounded sm) (/ IZR (2 ^ 53)) K fma mm g h1 h2 ls ld lg i o r c (F64_graceful sm) _ _ UK FM MM Hg Rs Rd Rg Hc Er Hcc (Cf i Ck) Ho Li (conj SS (conj Oe _)) E2 ob z Hob Ez).
    - change (/ IZR (2 ^ 53)) with (bpow radix2 (-53)). apply bpow_le. lia.
    - change (/ IZR (2 ^ 53)) with (bpow radix2 (-53)). apply bpow_le. lia.
    - intros q I. apply Hw. rewrite !map_app. apply in_or_app. now left. }
  rewrite <- Lp in Hset, Hex, JI |- *.
  assert (Hset' : forall k b, (k < plen (g_stars h2))%nat -> nth_error bodies k = Some b -> settled ((12 * d + / IZR (2 ^ 47)) / a) cv ue uz (central k) b).
  { intros k b Lk Hb Nb. destruct (Hset k b Lk Hb Nb) as [A|[A|(A & B)]]; [now left|now right; left|right; right]. split; [|exact B]. split; [exact A|eauto]. }
  assert (Lg : glen h2 = length (ls ++ ld ++ lg)).
  { pose proof (Forall2_length _ _ _ N) as L1. unfold bodies in L1. rewrite map2_length, map_length in L1.
    pose proof (proj1 (constructible_ok h2) C2) as O2. apply gal_ok_facts in O2 as [A1 A2 A3 _ _ _ _ _ _].
    unfold all_orbits, sets in L1. cbn [flat_map] in L1. rewrite !app_length in L1. pose proof (orbits_len _ A1) as B1. pose proof (orbits_len _ A2) as B2. pose proof (orbits_len _ A3) as B3.
    unfold glen. rewrite !app_length in *. rewrite B1, B2, B3 in L1. cbn [length] in L1. lia. }
  rewrite <- Lg. split.
  - intros BF. destruct (proj2 JI BF) as (j & Hj). split.
    + eapply hist_near; eauto.
    + eapply ehist_near; eauto.
  - intros BF. destruct (jcirc argsort h2 default_bin0 default_bin1) as [j|e] eqn:Ej; [exfalso; apply BF, JI; eauto|]. exists e. split.
    + apply (star_decompose_errors (F64_rounded sm) argsort St (jhistogram choice junk (default_bin0, default_bin1) 100 2) st h2 C2 eps_attrs eq_refl). exact Ej.
    + apply (star_decompose_errors (F64_rounded sm) argsort St (jehistogram choice junk (default_bin0, default_bin1) 100 2 20) st h2 C2 energy_attrs eq_refl). exact Ej.
Qed.

(** The whole analysis with a cut-off radius and JHistogram: in every exact cell of
    circularities the spheroid gets the number of stars of the exact rule. *)
Lemma c103_counts : forall sm sm' K argsort table name fma mm (g : galaxy (F64s sm)) (G : F32s sm') kG s ls ld lg R0 D (r : F64s sm) c0,
  let lr := ls ++ ld ++ lg in let ps := exact_pots kG s lr in let t := pot_error (length lr) R0 D in
  sums_well (F64_rounded sm) (/ IZR (2 ^ 53)) K -> fused (F64_rounded sm) fma -> is_matmul fma mm -> sorting argsort ->
  constructible g -> g_haspot g = false ->
  reads_set (F64_rounded sm) (g_stars g) ls -> reads_set (F64_rounded sm) (g_dm g) ld -> reads_set (F64_rounded sm) (g_gas g) lg ->
  backend_of G table name -> val (F32_rounded sm') G = XR kG -> / IZR (2 ^ 40) <= kG <= IZR (2 ^ 20) ->
  (forall so, largest_softening g so -> val (F64_rounded sm) so = XR s) -> usual s ->
  (forall q, In q lr -> 0 < pm q /\ usual (pm q) /\ forall a, In a [px q; py q; pz q] -> ordinary a /\ Rabs a <= R0) ->
  (forall i j p q, i <> j -> nth_error lr i = Some p -> nth_error lr j = Some q -> D <= sdist s p q) ->
  / IZR (2 ^ 60) <= D -> 0 <= R0 <= IZR (2 ^ 19) * D -> INR (length lr) <= IZR (2 ^ 22) -> lr <> [] ->
  val (F64_rounded sm) r = XR c0 -> bpow radix2 (-90) <= c0 ->
  exists h0 h1 i o, potential (W:=F64s sm) (S:=F32s sm') to32 to64 table name g = Ok h0 /\ center h0 = Ok h1 /\
    lowest h0 i /\ (forall i0, clearly_lowest t ps i0 -> i = i0) /\ nth_error lr i = Some o /\
    (let seen := map (seen_from o) in let u := / IZR (2 ^ 53) in let ins := within_cut c0 (seen ls) in let k := K (length ins) in
     let bodies := map2 (whole_body ins) (seen lr) ps in
     strong_spin u k ins -> off_edge u c0 (seen ls) -> (forall q, In q (seen lr) -> SpecChain.within q) ->
     exists h2, star_align_with mm h1 (Some r) = Ok h2 /\
       forall m a d ue uz cv, 0 <= d -> 16 * d + / IZR (2 ^ 44) <= m ->
         (forall q x, In (q, x) (combine (seen lr) ps) -> resolved u k t ins d ue uz q x) ->
         exact_curve m SpecCurve.edgesR bodies ue uz cv -> 0 < a <= 1 -> gentle a cv ->
         (forall j b, (j < length ls)%nat -> nth_error bodies j = Some b -> settled ((12 * d + / IZR (2 ^ 47)) / a) cv ue uz (clearly_lowest t ps j) b) ->
         bound_first (length ls) bodies ->
         forall St (choice : St -> list nat -> nat -> list nat * St) junk st, draws choice ->
         exists cs st', decompose argsort (jhistogram choice junk (default_bin0, default_bin1) 100 2) st h2 = Ok (cs, st') /\
           (forall j, (j < length lr)%nat -> ~ ((j < length ls)%nat /\ exists b, nth_error bodies j = Some b /\ kept cv ue uz b) -> nth_error (c_labels cs) j = Some nnan) /\
           forall c l l', (0 <= c < 50)%Z -> NoDup l -> NoDup l' ->
             (forall j, In j l <-> in_cell (length ls) bodies ue uz cv c j) -> (forall j, In j l' <-> in_cell (length ls) bodies ue uz cv (-1 - c) j) ->
             count_label 0 (c_labels cs) l' = length l' /\
             count_label 0 (c_labels cs) l = Nat.min (length l') (length l) /\
             count_label 1 (c_labels cs) l = (length l - Nat.min (length l') (length l))%nat).
Proof.
  intros sm sm' K argsort table name fma mm g G kG s ls ld lg R0 D r c0 lr ps t UK FM MM Hs Hg Hp Rs Rd Rg BK VG HG So Us Q Ap HD HR Ln NE Er Hcc.
  destruct (potential_exact sm sm' table name g G kG s ls ld lg R0 D Hg Hp Rs Rd Rg BK VG HG So Us Q Ap HD HR Ln NE) as (h0 & h1 & E0 & E1 & C0 & Rs0 & Rd0 & Rg0 & FP & Ht & Hx).
  destruct (c103_decompose sm K argsort fma mm h0 h1 ls ld lg t ps r c0 UK FM MM Hs C0 Rs0 Rd0 Rg0 FP Ht Hx Er Hcc E1) as (i & o & H1 & H2 & H3 & H4).
  exists h0, h1, i, o. do 5 (split; [assumption|]). cbv zeta in H4 |- *. intros SS Oe Hw. destruct (H4 SS Oe Hw) as (h2 & E2 & H5).  exists h2. split; [exact E2|].
  intros m a d ue uz cv D0 Hm Hr Hcv Pa Ga Hset BF St choice junk st DC. change (ls ++ ld ++ lg) with lr in H5. set (bodies := map2 _ _ ps) in *.
  destruct (c99_exists (length ls) bodies ue uz cv) as (used & rows & Hex).
  destruct (proj1 (H5 m a d ue uz cv used rows D0 Hm Hr Hcv Pa Ga Hset Hex St choice junk (default_bin0, default_bin1) st) BF) as (HC & _).
  assert (M0 : 0 < m). { eapply Rlt_le_trans; [|exact Hm]. assert (0 < / IZR (2 ^ 44)) by (apply Rinv_0_lt_compat, IZR_lt; reflexivity). lra. }
  destruct (c99_counts _ (F64_rounded sm) St choice junk _ st (length ls) _ bodies m ue uz cv used rows _ DC M0 Hcv Hex HC) as (cs & st' & Ed & A & B).
  exists cs, st'. split; [exact Ed|]. split; [|exact B]. intros j Lj NK. apply A; [exact Lj|]. intros I. apply NK, (es_used _ _ _ _ _ _ _ Hex), I.
Qed.

(** Centring and then aligning with a cut-off radius, in any format with u from 2^-100 to 2^-40: every particle ends at
    its exact distance from the particle of lowest potential and the particles' circularities refer to the
    axis of the stars inside the radius. *)
Lemma c103_chain : forall (S : Num) (RS : Rounded S) u K, graceful RS u -> bpow radix2 (-100) <= u -> u <= bpow radix2 (-40) -> sums_well RS u K ->
  forall fma mm, fused RS fma -> is_matmul fma mm ->
  forall (g h1 : galaxy S) ls ld lg (r : S) c, constructible g -> val RS r = XR c -> bpow radix2 (-90) <= c ->
  reads_set RS (g_stars g) ls -> reads_set RS (g_dm g) ld -> reads_set RS (g_gas g) lg -> center g = Ok h1 ->
  exists i o, lowest g i /\ nth_error (ls ++ ld ++ lg) i = Some o /\
    (let seen := map (seen_from o) in let ins := within_cut c (seen ls) in let k := K (length ins) in
     strong_spin u k ins -> off_edge u c (seen ls) -> (forall q, In q (seen (ls ++ ld ++ lg)) -> SpecChain.within q) ->
     exists h2, star_align_with mm h1 (Some r) = Ok h2 /\ constructible h2 /\
       set_near RS u k ins (g_stars h2) (seen ls) /\ set_near RS u k ins (g_dm h2) (seen ld) /\
       set_near RS u k ins (g_gas h2) (seen lg)).
Proof. exact chain_cut. Qed.

(** In particular [star_align] as it is. *)
Lemma c103_plain : forall sm K (g h1 : galaxy (F64s sm)) ls ld lg (r : F64s sm) c,
  sums_well (F64_rounded sm) (/ IZR (2 ^ 53)) K -> constructible g -> val (F64_rounded sm) r = XR c -> bpow radix2 (-90) <= c ->
  reads_set (F64_rounded sm) (g_stars g) ls -> reads_set (F64_rounded sm) (g_dm g) ld -> reads_set (F64_rounded sm) (g_gas g) lg -> center g = Ok h1 ->
  exists i o, lowest g i /\ nth_error (ls ++ ld ++ lg) i = Some o /\
    (let seen := map (seen_from o) in let u := / IZR (2 ^ 53) in let ins := within_cut c (seen ls) in let k := K (length ins) in
     strong_spin u k ins -> off_edge u c (seen ls) -> (forall q, In q (seen (ls ++ ld ++ lg)) -> SpecChain.within q) ->
     exists h2, star_align h1 (Some r) = Ok h2 /\ constructible h2 /\
       set_near (F64_rounded sm) u k ins (g_stars h2) (seen ls) /\ set_near (F64_rounded sm) u k ins (g_dm h2) (seen ld) /\
       set_near (F64_rounded sm) u k ins (g_gas h2) (seen lg)).
Proof.
  intros sm K g h1 ls ld lg r c UK Hg Er Hcc Rs Rd Rg Hc.
  pose proof (c94_fma64 sm) as FM. destruct (c94_plain (F64s sm) fma64) as (MM & _ & EP).
  assert (C1 : constructible h1) by (destruct (c09_translation _ (F64_rounded sm) g h1 Hg Hc) as (? & ? & ? & ? & _ & _ & _ & _ & _ & C1 & _); exact C1).
  rewrite <- (EP h1 (Some r) C1).
  apply (chain_cut _ (F64_rounded sm) (/ IZR (2 ^ 53)) K (F64_graceful sm)) with (fma := fma64); auto.
  - change (/ IZR (2 ^ 53)) with (bpow radix2 (-53)). apply bpow_le. lia.
  - change (/ IZR (2 ^ 53)) with (bpow radix2 (-53)). apply bpow_le. lia.
Qed.

(** *** Examples *)
(** The galaxy of the example of C97 with potentials and a third star, unbound and 64 away from the centre. *)
Definition exV_gal : galaxy F64 :=
  mkGal (pset_of (N:=F64) STARS (fZs [131072; 131072; 131072]) (fZs [6; 4; 5]) (fZs [5; 5; 5]) (fZs [5; 5; 69]) (fZs [0; 448; 0]) (fZs [0; 0; 64]) (fZs [-511; 246; 0])
           (Some (fZs [-131072; -131072; -100])) (fZ 0))%Z
        (pset_of (N:=F64) DARK_MATTER (fZs [65536]) (fZs [5]) (fZs [5]) (fZs [5]) (fZs [0]) (fZs [0]) (fZs [0]) (Some (fZs [-262144])) (fZ 0))%Z
        (pset_of (N:=F64) GAS [] [] [] [] [] [] [] (Some []) (fZ 0)) true.
Definition exV_stars : list particle := exW_stars ++ [Part 131072 5 5 69 0 64 0].
Definition exV_seen : list particle := exW_seen ++ [Part 131072 0 0 64 0 64 0].
Definition exV_bodies : list (R * R) := [(-1023 / 2, 511); (-462, 246); (1948, 0); (-262144, 0)].
Definition exV_pots : list R := [-131072; -131072; -100; -262144].

Lemma exV_ok : constructible exV_gal.
Proof.
  apply constructible_ok, gal_ok_facts. constructor; try reflexivity.
  all: apply pset_ok_iff; split; [|reflexivity]; repeat split; intros p H; injection H as <-; reflexivity.
Qed.
Lemma exV_vals zs rs : Forall2 (fun z r => (Z.abs z <= 1048576)%Z /\ IZR z = r) zs rs ->
  map (val (F64_rounded (seqsum 53 1024 p53 e1024))) (fZs zs) = map XR rs.
Proof.
  set (RS := F64_rounded _).
  assert (V : forall z, (Z.abs z <= 1048576)%Z -> val RS (fZ z) = XR (IZR z)).
  { intros z Hz. unfold fZ. change (nofZ (N:=F64) z) with (nofZ (N:=F64s (seqsum 53 1024 p53 e1024)) z). rewrite (val_ofZ RS). apply (rnd_int RS). change (intmax RS) with (2 ^ 53)%Z. lia. }
  induction 1 as [|z r zs rs [H1 H2] F IH]; [reflexivity|]. change (fZs (z :: zs)) with (fZ z :: fZs zs). cbn [map]. etransitivity; [exact (f_equal2 cons (V z H1) IH)|]. now rewrite H2.
Qed.
Lemma exV_reads : let RS := F64_rounded (seqsum 53 1024 p53 e1024) in
  reads_set RS (g_stars exV_gal) exV_stars /\ reads_set RS (g_dm exV_gal) exW_dark /\ reads_set RS (g_gas exV_gal) [].
Proof.
  cbv zeta. split; [|split].
  - repeat split; (etransitivity; [apply exV_vals; repeat (constructor; [split; [lia|reflexivity]|]); constructor|reflexivity]).
  - repeat split; (etransitivity; [apply exV_vals; repeat (constructor; [split; [lia|reflexivity]|]); constructor|reflexivity]).
  - repeat split.
Qed.
Lemma exV_near : Forall2 (pot_near (F64_rounded (seqsum 53 1024 p53 e1024)) 0) (all_pots exV_gal) exV_pots.
Proof.
  change (all_pots exV_gal) with (fZs [-131072; -131072; -100; -262144])%Z.
  assert (E := exV_vals [-131072; -131072; -100; -262144]%Z exV_pots ltac:(repeat (constructor; [split; [lia|reflexivity]|]); constructor)).
  revert E. generalize (fZs [-131072; -131072; -100; -262144])%Z. generalize exV_pots. intros l l' E. revert l E.
  induction l' as [|a l' IH]; intros [|p l] E; try discriminate; constructor; [|apply IH; now injection E].
  cbn [map] in E. exists p. split; [congruence|]. rewrite Rminus_eq_0, Rabs_R0. lra.
Qed.
Lemma exV_cut : within_cut 5 exV_seen = exW_seen /\ off_edge (/ IZR (2 ^ 53)) 5 exV_seen.
Proof.
  assert (U : 0 < / IZR (2 ^ 53) <= / 1000000000000) by (split; [apply Rinv_0_lt_compat, IZR_lt; reflexivity|apply Rinv_le_contravar; [lra|apply IZR_le; lia]]).
  assert (R1 : rad (Part 131072 1 0 0 0 0 (-511)) = 1) by (unfold rad; cbn [px py pz]; replace (_ + _) with (1 * 1) by ring; apply sqrt_square; lra).
  assert (R2 : rad (Part 131072 (-1) 0 0 448 0 246) = 1) by (unfold rad; cbn [px py pz]; replace (_ + _) with (1 * 1) by ring; apply sqrt_square; lra).
  assert (R3 : rad (Part 131072 0 0 64 0 64 0) = 64) by (unfold rad; cbn [px py pz]; replace (_ + _) with (64 * 64) by ring; apply sqrt_square; lra).
  split.
  - unfold within_cut, exV_seen, exW_seen. cbn [app filter]. rewrite R1, R2, R3, !Rlt_bool_true, Rlt_bool_false by lra. reflexivity.
  - intros q [<-|[<-|[<-|[]]]]; rewrite ?R1, ?R2, ?R3; [rewrite Rabs_left by lra|rewrite Rabs_left by lra|rewrite Rabs_right by lra]; lra.
Qed.
Lemma exV_body : map2 (whole_body exW_seen) (exV_seen ++ [Part 65536 0 0 0 0 0 0]) exV_pots = exV_bodies.
Proof.
  destruct exW_totals as (A & B & C & D & _). unfold whole_body, axis_part. rewrite A, B, C, D.
  unfold exV_seen, exV_pots, exW_seen, exV_bodies, kinr, lx, ly, lz. cbn [app map2 pm px py pz pvx pvy pvz]. do 3 (f_equal; [f_equal; field|]). f_equal. f_equal; field.
Qed.
Lemma exV_negative : filter negative exV_bodies = filter negative exW_bodies.
Proof. unfold exV_bodies, exW_bodies, negative. cbn [filter fst]. rewrite !Rlt_bool_true by lra. rewrite Rlt_bool_false by lra. reflexivity. Qed.
Lemma exV_curve : exact_curve (/ 1000) SpecCurve.edgesR exV_bodies 262144 511 [(-1, 0); (-1023 / 524288, 1)].
Proof.
  constructor.
  - split; [lra|]. intros b Hb. repeat (destruct Hb as [<-|Hb]; [cbn [fst]; lra|]). destruct Hb.
  - split; [lra|]. split.
    + exists (-1023 / 2, 511). split; [simpl; auto|]. cbn [fst snd]. split; [lra|]. rewrite Rabs_pos_eq; lra.
    + intros b Hb _. repeat (destruct Hb as [<-|Hb]; [cbn [snd]; rewrite Rabs_pos_eq; lra|]). destruct Hb.
  - intros b Hb. repeat (destruct Hb as [<-|Hb]; [cbn [fst]; (rewrite Rabs_left by lra; lra) || (rewrite Rabs_right by lra; lra)|]). destruct Hb.
  - pose proof (ec_pts _ _ _ _ _ _ exW_curve) as E. rewrite exV_negative. exact E.
Qed.
Lemma exV_spans : span 0 0 64 = 64 /\ span 0 64 0 = 64.
Proof.
  unfold span. rewrite Rabs_R0, (Rabs_pos_eq 64) by lra. assert (bpow radix2 (-100) <= 1) by (change 1 with (bpow radix2 0); apply bpow_le; lia).
  rewrite !(Rmax_right 0 64), !(Rmax_left 64 0), !(Rmax_right 0 64) by lra. split; apply Rmax_right; lra.
Qed.
Lemma exV_resolved : forall q x, In (q, x) (combine (exV_seen ++ [Part 65536 0 0 0 0 0 0]) exV_pots) ->
  resolved (/ IZR (2 ^ 53)) (2 * INR 2) 0 exW_seen (/ 150000) 262144 511 q x.
Proof.
  destruct exW_spans as (S1 & S2 & S3 & S4 & S5 & W). destruct exW_totals as (_ & _ & _ & L1 & L2). destruct exV_spans as (S6 & S7).
  assert (U : 0 < / IZR (2 ^ 53) <= / 1000000000000000) by (split; [apply Rinv_0_lt_compat, IZR_lt; reflexivity|apply Rinv_le_contravar; [lra|apply IZR_le; lia]]).
  set (u := / IZR (2 ^ 53)) in *.
  assert (P3 : 0 < span 0 0 0) by (eapply Rlt_le_trans; [apply bpow_gt_0|apply Rmax_l]).
  assert (Sq : 0 <= span 0 0 0 * span 0 0 0 <= 1) by nra.
  intros q x I. cbn [app combine exV_seen exW_seen exV_pots] in I. unfold resolved, spin_error, reach.
  destruct I as [E|[E|[E|[E|[]]]]]; injection E as <- <-; cbn [pm px py pz pvx pvy pvz]; rewrite ?S1, ?S2, ?S4, ?S5, ?S6, ?S7, W, L1; simpl INR;
    try rewrite (Rabs_left (-131072)) by lra; try rewrite (Rabs_left (-262144)) by lra; try rewrite (Rabs_left (-100)) by lra; split; nra.
Qed.
(** The labels of a run. *)
Definition exV_run (r : option F64) : res (list spec_float) :=
  do h1 <- center exV_gal; do h2 <- star_align h1 r;
  rmap (fun e => shows (c_labels (fst e))) (decompose asort (jthreshold (fun _ => 77%Z) (default_bin0, default_bin1) (nlit 1 4)) tt h2).

(** The hypotheses of C103 are met by three stars and a particle of dark matter with a cut-off radius of 5.  The third star, 64
    away, would turn the axis if it counted: the x component of the total angular momentum of all
    three stars is not zero, that of the two inside is.  For the cut 1/4 the slower star is
    certain to be labelled 1 and the far star, which is unbound, gets NaN; the run does so. *)
Example ex_c103 : let RS := F64_rounded (seqsum 53 1024 p53 e1024) in let u := / IZR (2 ^ 53) in let lr := exV_stars ++ exW_dark ++ [] in
  constructible exV_gal /\
  (reads_set RS (g_stars exV_gal) exV_stars /\ reads_set RS (g_dm exV_gal) exW_dark /\ reads_set RS (g_gas exV_gal) []) /\
  Forall2 (pot_near RS 0) (all_pots exV_gal) exV_pots /\ val RS (fZ 5) = XR 5 /\ bpow radix2 (-90) <= 5 /\
  fused RS fma64 /\ is_matmul (S:=F64) fma64 (plain_matmul (S:=F64)) /\ sums_well RS u (fun n => 2 * INR n) /\ clearly_lowest 0 exV_pots 3 /\
  (exists o, nth_error lr 3 = Some o /\
    let seen := map (seen_from o) in let ins := within_cut 5 (seen exV_stars) in let bodies := map2 (whole_body ins) (seen lr) exV_pots in
    ins = exW_seen /\ LX None ins = 0 /\ LX None (seen exV_stars) <> 0 /\
    strong_spin u (2 * INR (length ins)) ins /\ off_edge u 5 (seen exV_stars) /\ (forall q, In q (seen lr) -> SpecChain.within q) /\
    16 * / 150000 + / IZR (2 ^ 44) <= / 1000 /\
    (forall q x, In (q, x) (combine (seen lr) exV_pots) -> resolved u (2 * INR (length ins)) 0 ins (/ 150000) 262144 511 q x) /\
    exact_curve (/ 1000) SpecCurve.edgesR bodies 262144 511 [(-1, 0); (-1023 / 524288, 1)] /\ gentle (99 / 100) [(-1, 0); (-1023 / 524288, 1)] /\ bound_first 3 bodies /\
    nth_error bodies 1 = Some (-462, 246) /\ nth_error bodies 2 = Some (1948, 0) /\
    (forall w : F64, SpecWhole.labelled ((12 * / 150000 + / IZR (2 ^ 47)) / (99 / 100)) (1 / 4) [(-1, 0); (-1023 / 524288, 1)] 262144 511 (-462, 246) w -> w = nofZ 1) /\
    (forall j b, (j < 3)%nat -> nth_error bodies j = Some b ->
       settled ((12 * / 150000 + / IZR (2 ^ 47)) / (99 / 100)) [(-1, 0); (-1023 / 524288, 1)] 262144 511 (clearly_lowest 0 exV_pots j) b)) /\
  exV_run (Some (fZ 5)) = Ok [sZ 1; sZ 1; S754_nan; S754_nan].
Proof.
  cbv zeta. split; [exact exV_ok|]. split; [exact exV_reads|]. split; [exact exV_near|].
  split; [apply (val_small (F64_rounded (seqsum 53 1024 p53 e1024))); lia|].
  split; [apply Rle_trans with (bpow radix2 0); [apply bpow_le; lia|simpl; lra]|].
  split; [apply c94_fma64|]. split; [apply c94_plain|]. split; [apply c68_double|].
  split.
  { exists (-262144). split; [reflexivity|]. intros j p' Nj Hj. assert (-131072 <= p' <= 0).
    { destruct j as [|[|[|[|j]]]]; try (injection Hj as <-; lra); [congruence|destruct j; discriminate Hj]. }
    lra. }
  assert (I1 : forall c, interpolates [(-1, 0); (-1023 / 524288, 1)] (-462 / 262144) c -> c = 1).
  { intros c Ic. inversion Ic as [|? ? ? ?|? ? ? ? ? ? B1 B2|? ? ? ? ? ? ? B1 Ic']; subst; [lra|lra|]. inversion Ic'; subst; [lra|reflexivity]. }
  split.
  { eexists. split; [reflexivity|]. unfold exV_stars. rewrite !map_app. destruct (exW_from (Part 65536 5 5 5 0 0 0)) as (-> & ->); [reflexivity..|]. cbn [map]. rewrite app_nil_r.
    replace (seen_from (Part 65536 5 5 5 0 0 0) (Part 131072 5 5 69 0 64 0)) with (Part 131072 0 0 64 0 64 0) by (unfold seen_from; cbn [pm px py pz pvx pvy pvz]; f_equal; ring).
    fold exV_seen. destruct exV_cut as (EC & EO). rewrite EC. split; [reflexivity|]. split; [apply exW_totals|].
    split. { unfold LX, exV_seen, exW_seen, lx. cbn [app filter inside sumR fold_right pm px py pz pvx pvy pvz]. lra. }
    split; [exact exW_spin|]. split; [exact EO|]. destruct exW_spans as (S1 & S2 & S3 & S4 & S5 & _). destruct exV_spans as (S6 & S7).
    assert (E1 : 131072 <= bpow radix2 99) by (change 131072 with (bpow radix2 17); apply bpow_le; lia).
    split. { intros q [<-|[<-|[<-|[<-|[]]]]]; unfold SpecChain.within; cbn [pm px py pz pvx pvy pvz]; rewrite ?S1, ?S2, ?S4, ?S5, ?S6, ?S7, Rabs_pos_eq by lra; repeat split; lra. }
    split. { assert (/ IZR (2 ^ 44) <= / 1000000) by (apply Rinv_le_contravar; [lra|apply IZR_le; lia]). lra. }
    split; [exact exV_resolved|]. rewrite exV_body. split; [exact exV_curve|]. split; [exact exW_gentle|].
    split. { intros i j bi bj (L1 & L2) Hi Hj Nj. destruct j as [|[|[|j]]]; try lia; [destruct i as [|i]; [|lia]; injection Hi as <-; cbn [fst]; lra|injection Hj as <-; cbn [fst] in Nj; lra]. }
    split; [reflexivity|]. split; [reflexivity|].
    assert (/ IZR (2 ^ 47) <= / 1000000) by (apply Rinv_le_contravar; [lra|apply IZR_le; lia]). assert (0 < / IZR (2 ^ 47)) by (apply Rinv_0_lt_compat, IZR_lt; reflexivity).
    split.
    { intros w (c & Ic & _ & _ & K & _). cbn [fst snd] in *. apply I1 in Ic as ->. apply K; [lra|rewrite Rabs_pos_eq by lra|rewrite Rabs_pos_eq by lra]; lra. }
    intros j b Lj Hb Nb. destruct j as [|[|[|j]]]; [| | |lia]; injection Hb as <-; cbn [fst snd] in Nb |- *.
    - right; left. rewrite Rabs_pos_eq by lra. split; [right; left; f_equal; lra|lra].
    - left. intros c k Ic Hk. apply I1 in Ic as ->. destruct (Z_le_gt_dec k 24) as [L|L]; [apply IZR_le in L; rewrite Rabs_pos_eq by lra; lra|].
      assert (L' : (25 <= k)%Z) by lia. apply IZR_le in L'. rewrite Rabs_left by lra. lra.
    - lra. }
  vm_compute. reflexivity.
Qed.

(** For the galaxy of the examples of C97 and C99, which meets the other hypotheses, a cut-off radius of 5 leaves all
    stars inside and far from the edge.  The run with the potential computed gives the labels of C97. *)
Example ex_c103_all : let u := / IZR (2 ^ 53) in
  (exists o, nth_error (exW_stars ++ exW_dark ++ []) 2 = Some o /\
    let seen := map (seen_from o) in within_cut 5 (seen exW_stars) = seen exW_stars /\ off_edge u 5 (seen exW_stars) /\ strong_spin u (2 * INR (length (within_cut 5 (seen exW_stars)))) (within_cut 5 (seen exW_stars))) /\
  (do h0 <- potential (W:=F64) (S:=F32) to32 to64 (backend_table n1 true junk0) "fortran" exW_gal; do h1 <- center h0; do h2 <- star_align h1 (Some (fZ 5));
   rmap (fun e => shows (c_labels (fst e))) (decompose asort (jthreshold (fun _ => 77%Z) (default_bin0, default_bin1) (nlit 1 4)) tt h2)) =
  Ok [sZ 1; sZ 1; S754_nan].
Proof.
  cbv zeta. split.
  { eexists. split; [reflexivity|]. destruct (exW_from (Part 65536 5 5 5 0 0 0)) as (-> & _); [reflexivity..|]. destruct exV_cut as (EC & EO).
    assert (E : within_cut 5 exW_seen = exW_seen) by (rewrite <- EC at 1; unfold within_cut; rewrite <- EC; unfold within_cut; clear; induction exV_seen as [|q l IH]; [reflexivity|]; cbn [filter]; destruct (Rlt_bool (rad q) 5) eqn:E; [cbn [filter]; rewrite E; f_equal; exact IH|exact IH]).
    rewrite E. split; [reflexivity|]. split; [intros q I; apply EO; unfold exV_seen; apply in_or_app; now left|exact exW_spin]. }
  vm_compute. reflexivity.
Qed.
