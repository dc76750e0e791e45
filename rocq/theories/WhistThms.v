(** Property lemmas about the histogram decompositions of a whole analysis against exact arithmetic: C99. *)
From Flocq Require Import Core.
From Coq Require Import Lra Lia Permutation Sorted Floats.SpecFloat.
From Verif Require Import Py Num RX F64 Np Df Data DataFacts DfFacts RebuildFacts Center CenterFacts Align Spec SpecR SpecCirc SpecAlAcc SpecBase SpecCurve SpecChain SpecFma Dgemm SpecDgemm SpecAcc SpecWhole Ex DataThms CenterThms AlignFacts AlignThms Circ CircFacts CurveFacts CircThms OrderThms AlAccFacts AlAccRot AlAccSum AlAccThms ChainFacts ChainThms DgemmThms CtrAccThms EpsAccFacts EpsAccThms EpsCutThms Base Threshold ThresholdThms PolyFacts ChoiceFacts CurveAccFacts CurveAccThms SpecPot Potential PotConcFacts PotFacts PotThms SpecPotAcc AccThms PotAccThms SpecNpAcc NpAccThms Fma FmaThms PipeThms WholeThms SpecHist Hist HistFacts HistThms SpecSplit SplitThms EpsFacts MixStar EdgeFacts EdgeThms EnergyThms SpecWhist WhistFacts.
Local Open Scope R_scope.

(** *** The particle at the centre *)
Section Centre.
Context {S : Num} (RS : Rounded S).
Local Notation v := (val RS).
Lemma rnd0 : rnd RS (XR 0) = XR 0.
Proof. apply (rnd_int RS 0). pose proof (intmax_pos RS). simpl. lia. Qed.
Lemma zero_sum fma : fused RS fma -> forall l s, sum_of_products fma l s -> (forall a b, In (a, b) l -> (exists r, v a = XR r) /\ v b = XR 0) -> v s = XR 0.
Proof.
  intros FM l s H. induction H as [|a b|a b|l m s t H1 I1 H2 I2|a b l s H I|l s H I|l m s P H I]; intros Z.
  - apply val_n0.
  - destruct (Z a b (or_introl eq_refl)) as ((r & A) & B). rewrite val_mul, A, B. cbn [xmul]. rewrite Rmult_0_r. apply rnd0.
  - destruct (Z a b (or_introl eq_refl)) as ((r & A) & B). rewrite val_mul, A, B. cbn [xmul]. rewrite Rmult_0_l. apply rnd0.
  - rewrite val_add, I1, I2 by (intros; apply Z, in_or_app; auto). cbn [xadd]. rewrite Rplus_0_l. apply rnd0.
  - destruct (Z a b (or_introl eq_refl)) as ((r & A) & B). rewrite (FM a b s r 0 0 A B) by (apply I; intros; apply Z; now right).
    rewrite Rmult_0_r, Rplus_0_l. apply rnd0.
  - rewrite val_mul, (I Z), val_n1. cbn [xmul]. rewrite Rmult_0_r. apply rnd0.
  - apply I. intros a b J. apply Z. eapply Permutation_in; eauto.
Qed.

(** The angular momentum along z of a star that became the centre is zero. *)
Lemma central_zero u K fma mm (g h1 h2 : galaxy S) ls ld lg i0 o : graceful RS u -> bpow radix2 (-100) <= u -> u <= bpow radix2 (-40) -> sums_well RS u K ->
  fused RS fma -> is_matmul fma mm -> constructible g ->
  reads_set RS (g_stars g) ls -> reads_set RS (g_dm g) ld -> reads_set RS (g_gas g) lg -> center g = Ok h1 ->
  (forall j, lowest g j -> j = i0) -> nth_error (ls ++ ld ++ lg) i0 = Some o -> (i0 < length ls)%nat ->
  strong_spin u (K (length ls)) (map (seen_from o) ls) -> star_align_with mm h1 None = Ok h2 ->
  forall ob z, nth_error (star_orbits h2) i0 = Some ob -> v (o_jz ob) = XR z -> z = 0.
Proof.
  intros U U0 U1 UK FM MM Hg Rs Rd Rg Hc Hi0 Ho Li HS Al ob z Hob Ez. pose proof (u_pos u U0) as Up.
  destruct (c09_translation S RS g h1 Hg Hc) as (i & x0 & y0 & z0 & Hi & X & Y & Z & (_ & Hh & Mv)). pose proof (Hi0 i Hi) as Ei. subst i. clear Hi0.
  cbn [sets] in Mv. inversion Mv as [|p1 q1 ? ? (Sm1 & X1 & Y1 & Z1) _]; subst. clear Mv.
  rewrite nth_error_app1 in Ho by exact Li.
  assert (G : forall (f : pset S -> list S) (r : particle -> R) a, map v (f (g_stars g)) = map (fun q => XR (r q)) ls -> nth_error (flat_map f (sets g)) i0 = Some a ->
    nth_error (f (g_stars g)) i0 = Some a /\ v a = XR (r o)).
  { intros f r a E H. assert (L : length (f (g_stars g)) = length ls) by (apply (f_equal (@length _)) in E; now rewrite !map_length in E).
    cbn [sets flat_map] in H. rewrite nth_error_app1 in H by lia. split; [exact H|]. apply (f_equal (fun l => nth_error l i0)) in E. rewrite !nth_error_map, H, Ho in E. cbn [option_map] in E. congruence. }
  destruct (G (@p_x S) px x0 ltac:(apply Rs) X) as (Nx & Vx). destruct (G (@p_y S) py y0 ltac:(apply Rs) Y) as (Ny & Vy). destruct (G (@p_z S) pz z0 ltac:(apply Rs) Z) as (Nz & Vz). clear G.
  destruct (seen_reads RS u U U0 _ _ ls o x0 y0 z0 Rs Sm1 X1 Y1 Z1 Vx Vy Vz ltac:(apply HS)) as (ls1 & Rs1 & Fs).
  pose proof (strong_clear u U0 U1 _ _ _ Fs HS) as CS.
  assert (Ll : length ls1 = length ls) by (rewrite <- (Forall2_length _ _ _ Fs); apply map_length). rewrite <- Ll in CS.
  destruct (reads_cols RS _ _ Rs1) as (bs & Cb & Fb).
  destruct (AlAccThms.core RS u K U Up U1 UK ls1 bs Fb CS) as (M & Q & _ & AM & _). apply constructible_ok in Hh. rewrite <- (matrix_none h1 bs Hh Cb) in AM.
  rewrite (star_align_with_eq fma mm MM h1 None Hh) in Al. cbn [cut_ok] in Al. assert (E2 : turn_gal mm (gal_matrix h1 None) h1 = h2) by congruence. subst h2. clear Al.
  pose proof Hh as Ok1. apply gal_ok_facts in Ok1 as [O1 _ _ _ _ _ _ _ _].
  destruct (cols_turn fma mm MM 0 (gal_matrix h1 None) (g_stars h1) bs Cb) as (bs2 & C2 & D2).
  pose proof (orbits_bodies (turn_set mm 0 (gal_matrix h1 None) (g_stars h1)) bs2 (turn_set_ok fma mm MM 0 _ _ O1) C2) as FO.
  unfold star_orbits in Hob. cbn [turn_gal g_stars] in Hob.
  destruct (Forall2_nth_l _ _ _ FO i0 ob Hob) as (b2 & Hb2 & _ & _ & Ej). destruct (Forall2_nth_r _ _ _ D2 i0 b2 Hb2) as (b1 & Hb1 & DB).
  assert (B0 : v (AlAccRot.b_x b1) = XR 0 /\ v (AlAccRot.b_y b1) = XR 0 /\ v (AlAccRot.b_z b1) = XR 0).
  { destruct Cb as (_ & Bx & By & Bz & _).
    assert (T : forall (f : AlAccRot.body S -> S) (c c' : list S) a r, c' = map f bs -> c' = map (fun w => w - a)%num c -> nth_error c i0 = Some a -> v a = XR r -> v (f b1) = XR 0).
    { intros f c c' a r A1 A2 A3 A4. rewrite A1 in A2. apply (f_equal (fun l => nth_error l i0)) in A2. rewrite !nth_error_map, A3, Hb1 in A2. cbn [option_map] in A2.
      assert (E : f b1 = (a - a)%num) by congruence. rewrite E, val_sub, A4. cbn [xsub xadd xopp]. rewrite Rplus_opp_r. apply rnd0. }
    split; [exact (T _ _ _ _ _ Bx X1 Nx Vx)|]. split; [exact (T _ _ _ _ _ By Y1 Ny Vy)|exact (T _ _ _ _ _ Bz Z1 Nz Vz)]. }
  destruct B0 as (Bx & By & Bz). destruct AM as ((r1 & M1 & _) & (r2 & M2 & _) & (r3 & M3 & _) & (r4 & M4 & _) & (r5 & M5 & _) & (r6 & M6 & _) & _).
  destruct DB as (_ & SX & SY & _).
  apply (zero_sum fma FM) in SX; [|intros a b [H|[H|[H|[]]]]; injection H as <- <-; split; eauto].
  apply (zero_sum fma FM) in SY; [|intros a b [H|[H|[H|[]]]]; injection H as <- <-; split; eauto].
  rewrite Ej in Ez. unfold AlAccRot.b_jz in Ez. rewrite val_sub, !val_mul, SX, SY in Ez.
  assert (T : forall w, (xmul (XR 0) w = XR 0) \/ xmul (XR 0) w = XNaN).
  { intros [r| | |]; cbn [xmul]; [left; now rewrite Rmult_0_l|right..]; cbn [xsgn]; rewrite ?Rcompare_Eq by reflexivity; reflexivity. }
  destruct (T (v (AlAccRot.b_vy b2))) as [E1|E1], (T (v (AlAccRot.b_vx b2))) as [E3|E3]; rewrite E1, E3 in Ez; rewrite ?(rnd_nan RS), ?rnd0 in Ez; cbn [xsub xadd xopp] in Ez; rewrite ?(rnd_nan RS) in Ez; try discriminate.
  rewrite Ropp_0, Rplus_0_l, rnd0 in Ez. congruence.
Qed.
End Centre.

(** *** C99 *)
Lemma orbits_len {N : Num} (p : pset N) : pset_ok p -> length (orbits p) = plen p.
Proof. intros Hp. apply orbits_cols, Hp. Qed.
Lemma jcirc_iff sm argsort (g : galaxy (F64s sm)) bodies m d ue uz cv n :
  constructible g -> sorting argsort -> 16 * d + / IZR (2 ^ 44) <= m -> plen (g_stars g) = n ->
  Forall2 (near_orbit (F64_rounded sm) d ue uz) (all_orbits g) bodies -> exact_curve m SpecCurve.edgesR bodies ue uz cv ->
  ((exists j, jcirc argsort g default_bin0 default_bin1 = Ok j) <-> bound_first n bodies).
Proof.
  intros Hg Hs Hm Hn F Hc. rewrite <- (whole_returns sm argsort (fun _ => 0%Z) (n0 : F64s sm) g bodies m d ue uz cv n Hg Hs Hm Hn F Hc).
  destruct (c40_total _ (F64_rounded sm) argsort (fun _ => 0%Z) (default_bin0, default_bin1) (n0 : F64s sm) g Hg) as (T1 & T2). cbn [fst snd] in T1, T2. split.
  - intros (j & Ej). destruct (T2 j Ej) as (c & Ec & _). eauto.
  - intros (cs & E). destruct (jcirc argsort g default_bin0 default_bin1) as [j|x] eqn:Ej; [eauto|]. rewrite (T1 x eq_refl) in E. discriminate.
Qed.

(** A galaxy whose potentials are known up to a relative error [t] is centred, aligned with any matrix
    product and decomposed with JHistogram or JEHistogram with their default numbers of bins, all in
    double precision.  [bodies] are the exact energies and angular momenta, as in C97.  If every
    bound star is settled, that is clear of the edges of the histogram by the margin of C97, or a point of
    the curve, or the centre, then the decomposition does with the same generator what it does
    in exact arithmetic with the exact circularities (and energies) of the stars that
    are bound and not above the curve; every other particle gets NaN.  It fails if an
    unbound star precedes a bound one. *)
Lemma c99_decompose : forall sm K argsort fma mm (g h1 : galaxy (F64s sm)) ls ld lg t ps,
  sums_well (F64_rounded sm) (/ IZR (2 ^ 53)) K -> fused (F64_rounded sm) fma -> is_matmul fma mm -> sorting argsort ->
  constructible g -> reads_set (F64_rounded sm) (g_stars g) ls -> reads_set (F64_rounded sm) (g_dm g) ld -> reads_set (F64_rounded sm) (g_gas g) lg ->
  Forall2 (pot_near (F64_rounded sm) t) (all_pots g) ps -> 0 <= t <= 1 -> (forall x, In x ps -> Rabs x <= bpow radix2 200) ->
  center g = Ok h1 ->
  exists i o, lowest g i /\ (forall i0, clearly_lowest t ps i0 -> i = i0) /\ nth_error (ls ++ ld ++ lg) i = Some o /\
    (let seen := map (seen_from o) in let u := / IZR (2 ^ 53) in let k := K (length ls) in
     let bodies := map2 (whole_body (seen ls)) (seen (ls ++ ld ++ lg)) ps in
     strong_spin u k (seen ls) -> (forall q, In q (seen ld) \/ In q (seen lg) -> SpecChain.within q) ->
     exists h2, star_align_with mm h1 None = Ok h2 /\
       forall m a d ue uz cv used rows, 0 <= d -> 16 * d + / IZR (2 ^ 44) <= m ->
         (forall q x, In (q, x) (combine (seen (ls ++ ld ++ lg)) ps) -> resolved u k t (seen ls) d ue uz q x) ->
         exact_curve m SpecCurve.edgesR bodies ue uz cv -> 0 < a <= 1 -> gentle a cv ->
         (forall j b, (j < length ls)%nat -> nth_error bodies j = Some b -> settled ((12 * d + / IZR (2 ^ 47)) / a) cv ue uz (clearly_lowest t ps j) b) ->
         exact_stars (length ls) bodies ue uz cv used rows ->
         forall St (choice : St -> list nat -> nat -> list nat * St) junk cb st,
         (bound_first (length ls) bodies ->
           carries (length (ls ++ ld ++ lg)) used
             (outcome (d_split (jhistogram (N:=RX) choice junk cb 100 2) st (map (fun r => [CNum (N:=RX) (XR (snd r))]) rows) [] []))
             (decompose argsort (jhistogram choice junk (default_bin0, default_bin1) 100 2) st h2) /\
           carries (length (ls ++ ld ++ lg)) used
             (outcome (d_split (jehistogram (N:=RX) choice junk cb 100 2 20) st (map (fun r => [CNum (N:=RX) (XR (fst r)); CNum (N:=RX) (XR (snd r))]) rows) [] []))
             (decompose argsort (jehistogram choice junk (default_bin0, default_bin1) 100 2 20) st h2)) /\
         (~ bound_first (length ls) bodies -> exists e,
           decompose argsort (jhistogram choice junk (default_bin0, default_bin1) 100 2) st h2 = Raise e /\
           decompose argsort (jehistogram choice junk (default_bin0, default_bin1) 100 2 20) st h2 = Raise e)).
Proof.
  intros sm K argsort fma mm g h1 ls ld lg t ps UK FM MM Hs Hg Rs Rd Rg FP Ht Hx Hc.
  destruct (whole_orbits sm K fma mm g h1 ls ld lg t ps UK FM MM Hg Rs Rd Rg FP Ht Hx Hc) as (i & o & Hi & Ho & H). exists i, o. split; [exact Hi|].
  assert (Cf : forall i0, clearly_lowest t ps i0 -> forall i', lowest g i' -> i' = i0) by (intros i0 C i' L; eapply centre_found; eauto).
  split; [intros i0 C; now apply Cf|]. split; [exact Ho|].
  cbv zeta in H |- *. intros SS Hw. destruct (H SS Hw) as (h2 & E2 & C2 & Lp & Lps & N). exists h2. split; [exact E2|].
  intros m a d ue uz cv used rows D0 Hm Hr Hcv Pa Ga Hset Hex St choice junk cb st. specialize (N d ue uz Hr).
  set (bodies := map2 _ _ ps) in *.
  pose proof (jcirc_iff sm argsort h2 bodies m d ue uz cv _ C2 Hs Hm Lp N Hcv) as JI.
  set (central := fun k => clearly_lowest t ps k /\ exists b, nth_error bodies k = Some b /\ fst b < 0).
  assert (Hcen : forall k ob, central k -> nth_error (star_orbits h2) k = Some ob -> val (F64_rounded sm) (o_jz ob) = XR 0).
  { intros k ob (Ck & b & Hb & Nb) Hob. assert (k = i) by (symmetry; now apply Cf). subst k.
    assert (Li : (i < length ls)%nat).
    { rewrite <- Lp. pose proof (proj1 (constructible_ok h2) C2) as O2. apply gal_ok_facts in O2 as [O2 _ _ _ _ _ _ _ _]. rewrite <- (orbits_len _ O2). apply nth_error_Some. unfold star_orbits in Hob. congruence. }
    assert (Ha : nth_error (all_orbits h2) i = Some ob).
    { unfold all_orbits, sets. cbn [flat_map]. unfold star_orbits in Hob. rewrite nth_error_app1; [exact Hob|]. apply nth_error_Some. congruence. }
    destruct (Forall2_nth_l _ _ _ N i ob Ha) as (b' & Hb' & e & _ & _ & Z). assert (b' = b) by congruence. subst b'. destruct (Z Nb) as (z & Ez & _).
    rewrite Ez. f_equal. refine (central_zero (F64_rounded sm) (/ IZR (2 ^ 53)) K fma mm g h1 h2 ls ld lg i o (F64_graceful sm) _ _ UK FM MM Hg Rs Rd Rg Hc (Cf i Ck) Ho Li SS E2 ob z Hob Ez).
    - change (/ IZR (2 ^ 53)) with (bpow radix2 (-53)). apply bpow_le. lia.
    - change (/ IZR (2 ^ 53)) with (bpow radix2 (-53)). apply bpow_le. lia. }
  rewrite <- Lp in Hset, Hex, JI |- *.
  assert (Hset' : forall k b, (k < plen (g_stars h2))%nat -> nth_error bodies k = Some b -> settled ((12 * d + / IZR (2 ^ 47)) / a) cv ue uz (central k) b).
  { intros k b Lk Hb Nb. destruct (Hset k b Lk Hb Nb) as [A|[A|(A & B)]]; [now left|now right; left|right; right]. split; [|exact B]. split; [exact A|eauto]. }
  assert (Lg : glen h2 = length (ls ++ ld ++ lg)).
  { pose proof (Forall2_length _ _ _ N) as L1. unfold bodies in L1. rewrite map2_length, map_length in L1.
    pose proof (proj1 (constructible_ok h2) C2) as O2. apply gal_ok_facts in O2 as [A1 A2 A3 _ _ _ _ _ _].
    unfold all_orbits, sets in L1. cbn [flat_map] in L1. rewrite !app_length in L1. pose proof (orbits_len _ A1) as B1. pose proof (orbits_len _ A2) as B2. pose proof (orbits_len _ A3) as B3.
    unfold glen. rewrite !app_length in *. rewrite B1, B2, B3 in L1. cbn [length] in L1. lia. }
  rewrite <- Lg. split.
  - intros BF. destruct (proj2 JI BF) as (j & Hj). split.
    + eapply hist_near; eauto.
    + eapply ehist_near; eauto.
  - intros BF. destruct (jcirc argsort h2 default_bin0 default_bin1) as [j|e] eqn:Ej; [exfalso; apply BF, JI; eauto|]. exists e. split.
    + apply (star_decompose_errors (F64_rounded sm) argsort St (jhistogram choice junk (default_bin0, default_bin1) 100 2) st h2 C2 eps_attrs eq_refl). exact Ej.
    + apply (star_decompose_errors (F64_rounded sm) argsort St (jehistogram choice junk (default_bin0, default_bin1) 100 2 20) st h2 C2 energy_attrs eq_refl). exact Ej.
Qed.

(** *** Counting *)
Lemma holds_cell b x : (b < 100)%nat -> let k := (Z.of_nat b - 50)%Z in
  holds_bin SplitThms.edgesR 100 b (XR x : RX) <-> IZR k / 50 <= x /\ (x < IZR (k + 1) / 50 \/ k = 49%Z /\ x = 1).
Proof.
  intros Lb k. unfold holds_bin. rewrite !edgesR_nth by lia. fold k. replace (Z.of_nat (S b) - 50)%Z with (k + 1)%Z by (unfold k; lia).
  rewrite (nle_iff RX_rounded), (nlt_iff RX_rounded), (nle_iff RX_rounded). cbn [val RX_rounded xle xlt].
  change (IZR (Z.of_nat 100 - 50) / 50) with (50 / 50). replace (50 / 50) with 1 by lra. split.
  - intros (_ & A & B & C). split; [exact A|]. destruct (Nat.lt_ge_cases (S b) 100) as [L|L]; [left; exact (B L)|].
    assert (k = 49%Z) as E by (unfold k; lia). specialize (C ltac:(lia)). rewrite E. change (IZR (49 + 1)) with 50. destruct (Rle_lt_or_eq_dec _ _ C); [left; lra|right; auto].
  - intros (A & B). split; [exact Lb|]. split; [exact A|]. split.
    + intros L. destruct B as [B|(B & _)]; [exact B|]. unfold k in B. lia.
    + intros L. assert (k = 49%Z) as E by (unfold k; lia). rewrite E in B. change (IZR (49 + 1)) with 50 in B. destruct B as [B|(_ & B)]; lra.
Qed.

Section Count.
Variables (n : nat) (bodies : list (R * R)) (m ue uz : R) (cv : list (R * R)) (used : list nat) (rows : list (R * R)).
Hypothesis M0 : 0 < m.
Hypothesis Hc : exact_curve m SpecCurve.edgesR bodies ue uz cv.
Hypothesis Hex : exact_stars n bodies ue uz cv used rows.

Lemma circ_single b x x' : circularity cv ue uz b x -> circularity cv ue uz b x' -> x = x'.
Proof.
  intros (c & I & _ & ->) (c' & I' & _ & ->). destruct (c96_exact m _ bodies ue uz cv (fst b / ue) M0 edgesR_ok Hc) as (c0 & _ & _ & Q). now rewrite (Q c I), (Q c' I').
Qed.
Lemma kept_circ b x : fst b < 0 -> circularity cv ue uz b x -> -1 <= x <= 1 -> kept cv ue uz b.
Proof.
  intros Nb (c & I & C & ->) B. split; [exact Nb|]. exists c. split; [exact I|]. split; [exact C|].
  revert B. generalize (snd b / uz). intros q B. assert (Rabs (q / c) <= 1) by (apply Rabs_le; exact B). replace q with (q / c * c) by (field; lra).
  rewrite Rabs_mult, (Rabs_pos_eq c) by lra. pose proof (Rmult_le_compat_r c _ _ (Rlt_le _ _ C) H). lra.
Qed.
Lemma used_nodup : NoDup used.
Proof.
  generalize (es_sorted _ _ _ _ _ _ _ Hex). clear. generalize used. intros l H. induction H as [|a l H I F]; constructor; [|exact I].
  intros J. rewrite Forall_forall in F. specialize (F a J). lia.
Qed.
Lemma cell_members b l : (b < 100)%nat -> NoDup l -> (forall i, In i l <-> in_cell n bodies ue uz cv (Z.of_nat b - 50) i) ->
  exists L, members SplitThms.edgesR 100 b (map (fun r => XR (snd r) : RX) rows) L /\ Permutation (map (fun r => nth r used 0%nat) L) l /\
    forall r, In r L -> (r < length used)%nat.
Proof.
  intros Lb Nl Hl. exists (filter (fun r => existsb (Nat.eqb (nth r used 0%nat)) l) (seq 0 (length used))).
  pose proof used_nodup as Nu. pose proof (es_rows _ _ _ _ _ _ _ Hex) as Fr. pose proof (Forall2_length _ _ _ Fr) as Lr.
  assert (EX : forall r, existsb (Nat.eqb (nth r used 0%nat)) l = true <-> In (nth r used 0%nat) l).
  { intros r. rewrite existsb_exists. split; [intros (y & I & E); apply Nat.eqb_eq in E; now subst|intros I; exists (nth r used 0%nat); split; [exact I|apply Nat.eqb_refl]]. }
  split; [split; [apply NoDup_filter, seq_NoDup|]|split].
  - intros r. rewrite filter_In, in_seq, EX, Hl. split.
    + intros ((_ & Lu) & (Li & bd & x & Hb & Nb & Cx & In1)). assert (exists row, nth_error rows r = Some row) as (row & Hr) by (destruct (nth_error rows r) eqn:E; [eauto|apply nth_error_None in E; lia]).
      exists (XR (snd row)). rewrite nth_error_map, Hr. split; [reflexivity|]. apply holds_cell; [exact Lb|].
      destruct (Forall2_nth_r _ _ _ Fr r row Hr) as (k & Hk & b' & Hb' & _ & C'). apply nth_error_nth with (d := 0%nat) in Hk. rewrite Hk in Hb. assert (b' = bd) by congruence. subst b'.
      rewrite (circ_single bd _ _ C' Cx). exact In1.
    + intros (w & Hw & HB). rewrite nth_error_map in Hw. destruct (nth_error rows r) as [row|] eqn:Hr; [|discriminate]. cbn [option_map] in Hw. assert (w = XR (snd row)) by congruence. subst w.
      destruct (Forall2_nth_r _ _ _ Fr r row Hr) as (k & Hk & bd & Hb & _ & C'). assert (Lu : (r < length used)%nat) by (apply nth_error_Some; congruence).
      split; [lia|]. rewrite (nth_error_nth _ _ 0%nat Hk). assert (Ik : In k used) by (eapply nth_error_In; eauto). apply (es_used _ _ _ _ _ _ _ Hex) in Ik as (Lk & b' & Hb' & (Nb & _)).
      assert (b' = bd) by congruence. subst b'. split; [exact Lk|]. exists bd, (snd row). split; [exact Hb|]. split; [exact Nb|]. split; [exact C'|]. now apply holds_cell in HB.
  - apply NoDup_Permutation; [|exact Nl|].
    + assert (G : forall L, NoDup L -> (forall r, In r L -> (r < length used)%nat) -> NoDup (map (fun r => nth r used 0%nat) L)).
      { induction L as [|r L IH]; intros N1 B; [constructor|]. cbn [map]. inversion N1; subst. constructor; [|apply IH; auto; intros; apply B; now right].
        intros I. apply in_map_iff in I as (r' & E & I'). assert (r' = r); [|now subst]. apply (proj1 (NoDup_nth used 0%nat) Nu); [apply B; now right|apply B; now left|exact E]. }
      apply G; [apply NoDup_filter, seq_NoDup|]. intros r I. apply filter_In in I as (I & _). apply in_seq in I. lia.
    + intros i. split.
      * intros I. apply in_map_iff in I as (r & <- & I). apply filter_In in I as (_ & I). now apply EX.
      * intros I. assert (Iu : In i used).
        { apply (es_used _ _ _ _ _ _ _ Hex). apply Hl in I as (Li & bd & x & Hb & Nb & Cx & In1). split; [exact Li|]. exists bd. split; [exact Hb|]. apply (kept_circ bd x Nb Cx).
          assert (Bk : (-50 <= Z.of_nat b - 50 <= 49)%Z) by lia. destruct Bk as (K1 & K2). apply IZR_le in K1, K2. destruct In1 as (A & B). rewrite plus_IZR in B. destruct B as [B|(_ & B)]; lra. }
        apply In_nth_error in Iu as (r & Hr). apply in_map_iff. exists r. rewrite (nth_error_nth _ _ 0%nat Hr). split; [reflexivity|]. apply filter_In. split; [|apply EX; now rewrite (nth_error_nth _ _ 0%nat Hr)].
        apply in_seq. assert (r < length used)%nat by (apply nth_error_Some; congruence). lia.
  - intros r I. apply filter_In in I as (I & _). apply in_seq in I. lia.
Qed.
End Count.

Lemma filter_length_perm {A} (f : A -> bool) l l' : Permutation l l' -> length (filter f l) = length (filter f l').
Proof. intros P. induction P as [|a l l' P I|a b l|l l' l'' P I P' I']; cbn; [reflexivity|destruct (f a); cbn; congruence|destruct (f a), (f b); reflexivity|congruence]. Qed.
Lemma ofZ_eqb {N : Num} (RN : Rounded N) a b : (Z.abs a <= 1)%Z -> (Z.abs b <= 1)%Z -> neqb (nofZ a : N) (nofZ b) = (b =? a)%Z.
Proof.
  intros A B. apply Bool.eq_iff_eq_true. rewrite (neqb_iff RN), !(val_ofZ RN), !(rnd_int RN) by (pose proof (intmax_pos RN); lia). rewrite Z.eqb_eq. split; [|intros ->; split; [reflexivity|discriminate]].
  intros (E & _). assert (E' : IZR a = IZR b) by congruence. apply eq_IZR in E'. auto.
Qed.

Lemma zero_50 : zero_edge SplitThms.edgesR 50.
Proof.
  split; [rewrite edgesR_length; lia|]. split.
  - rewrite edgesR_nth by lia. apply (neqb_iff RX_rounded). cbn [val RX_rounded n0 nofZ RX]. change (Z.of_nat 50 - 50)%Z with 0%Z. split; [f_equal; lra|discriminate].
  - intros i Hi. rewrite edgesR_nth by lia. destruct (neqb _ _) eqn:E; [|reflexivity]. exfalso. apply (neqb_iff RX_rounded) in E as (E & _). cbn [val RX_rounded n0 nofZ RX] in E.
    assert (E' : IZR (Z.of_nat i - 50) / 50 = 0) by congruence. assert (IZR (Z.of_nat i - 50) <= IZR (-1)) by (apply IZR_le; lia). lra.
Qed.

(** What the histogram decomposition does in exact arithmetic, cell by cell: the spheroid
    gets all stars with negative circularities, and of those from k/50 to (k+1)/50 as many as there are
    from -(k+1)/50 to -k/50. *)
Lemma c99_counts : forall (N : Num) (RN : Rounded N) St (choice : St -> list nat -> nat -> list nat * St) junk cb st n total bodies m ue uz cv used rows (r : res (components N * St)),
  draws choice -> 0 < m -> exact_curve m SpecCurve.edgesR bodies ue uz cv -> exact_stars n bodies ue uz cv used rows ->
  carries total used (outcome (d_split (jhistogram (N:=RX) choice junk cb 100 2) st (map (fun r => [CNum (N:=RX) (XR (snd r))]) rows) [] [])) r ->
  exists cs st', r = Ok (cs, st') /\
    (forall i, (i < total)%nat -> ~ In i used -> nth_error (c_labels cs) i = Some nnan) /\
    forall k l l', (0 <= k < 50)%Z -> NoDup l -> NoDup l' ->
      (forall i, In i l <-> in_cell n bodies ue uz cv k i) -> (forall i, In i l' <-> in_cell n bodies ue uz cv (-1 - k) i) ->
      count_label 0 (c_labels cs) l' = length l' /\
      count_label 0 (c_labels cs) l = Nat.min (length l') (length l) /\
      count_label 1 (c_labels cs) l = (length l - Nat.min (length l') (length l))%nat.
Proof.
  intros N RN St choice junk cb st n total bodies m ue uz cv used rows r HD M0 Hc Hex HC.
  assert (ColR : matrix_col 0 (map (fun r => [CNum (N:=RX) (XR (snd r))]) rows) = map (fun r => XR (snd r) : RX) rows) by (unfold matrix_col; rewrite map_map; reflexivity).
  cbn [d_split jhistogram] in HC. rewrite ColR in HC. assert (HA : arith RX) by now left.
  destruct (c43_returns RX St choice junk 100 2 (map (fun r => XR (snd r) : RX) rows) st HA HD ltac:(lia) ltac:(lia)) as (_ & _ & HR).
  destruct (HR ltac:(lia)) as (labels & st' & E).
  { destruct zero_50 as (L & Z & _). exists (nth 50 SplitThms.edgesR nnan). split; [now apply nth_In|exact Z]. }
  rewrite E in HC. cbn [bind outcome rmap fst snd carries] in HC. destruct HC as (cs & -> & H1 & H2). exists cs, st'. split; [reflexivity|]. split; [exact H2|].
  destruct (c42_composition RX St choice junk 100 2 _ st labels st' HA HD ltac:(lia) ltac:(lia) E) as (bin0 & Z0 & _ & _ & HB).
  change (map (np_round 2) (linspace nm1 n1 (Z.to_nat 100))) with SplitThms.edgesR in Z0, HB. change (Z.to_nat 100) with 100%nat in HB.
  assert (bin0 = 50%nat) by (eapply zero_edge_unique; [exact Z0|exact zero_50]). subst bin0.
  destruct (c41_labels RX St choice junk 100 2 _ st labels st' HA HD ltac:(lia) ltac:(lia) E) as (LL & LV). rewrite map_length in LL.
  pose proof (es_rows _ _ _ _ _ _ _ Hex) as Fr. pose proof (Forall2_length _ _ _ Fr) as Lr.
  assert (CT : forall z b l L, (0 <= z <= 1)%Z -> (b < 100)%nat -> members SplitThms.edgesR 100 b (map (fun r => XR (snd r) : RX) rows) L -> Permutation (map (fun r => nth r used 0%nat) L) l -> (forall r, In r L -> (r < length used)%nat) ->
    count_label z (c_labels cs) l = SpecHist.labelled z labels L).
  { intros z b l L Hz Lb ML P BL. unfold count_label. rewrite <- (filter_length_perm _ _ _ P). unfold SpecHist.labelled. destruct ML as (_ & ML).
    assert (G : forall r, In r L -> match nth_error (c_labels cs) (nth r used 0%nat) with Some w => neqb w (nofZ z) | None => false end = match nth_error labels r with Some z' => (z =? z')%Z | None => false end).
    { intros r I. destruct (nth_error used r) as [k|] eqn:Hk; [|apply nth_error_None in Hk; specialize (BL r I); lia]. rewrite (nth_error_nth _ _ 0%nat Hk). destruct (H1 r k Hk) as (z' & Ez & Ew). rewrite Ez, Ew.
      apply (ofZ_eqb RN); [|lia]. apply ML in I as (e & He & HBn). destruct (LV r e He) as (Q & _).
      rewrite nth_error_map in He. destruct (nth_error rows r) as [row|]; [|discriminate]. cbn [option_map] in He. assert (e = XR (snd row)) by congruence. subst e.
      apply holds_cell in HBn; [|exact Lb]. assert (Bk : (-50 <= Z.of_nat b - 50 <= 49)%Z) by lia. destruct Bk as (K1 & K2). apply IZR_le in K1, K2. destruct HBn as (A & B). rewrite plus_IZR in B.
      assert (B1 : -1 <= snd row <= 1) by (destruct B as [B|(_ & B)]; lra).
      destruct Q as ([Q|Q] & _).
      - apply (nle_iff RX_rounded). cbn. lra.
      - apply (nle_iff RX_rounded). cbn. lra.
      - assert (z' = 0%Z) by congruence. subst. lia.
      - assert (z' = 1%Z) by congruence. subst. lia. }
    clear - G. induction L as [|r L IH]; [reflexivity|]. cbn [map filter]. rewrite (G r (or_introl eq_refl)). destruct (match nth_error labels r with Some z' => (z =? z')%Z | None => false end); cbn [length]; rewrite IH by (intros; apply G; now right); reflexivity. }
  intros k l l' Hk Nl Nl' Hl Hl'.
  set (b := Z.to_nat (k + 50)). assert (Eb : (Z.of_nat b - 50 = k)%Z) by (unfold b; lia).
  set (b' := Z.to_nat (49 - k)). assert (Eb' : (Z.of_nat b' - 50 = -1 - k)%Z) by (unfold b'; lia).
  rewrite <- Eb in Hl. rewrite <- Eb' in Hl'.
  destruct (cell_members n bodies m ue uz cv used rows M0 Hc Hex b l ltac:(unfold b; lia) Nl Hl) as (L & ML & P & BL).
  destruct (cell_members n bodies m ue uz cv used rows M0 Hc Hex b' l' ltac:(unfold b'; lia) Nl' Hl') as (L' & ML' & P' & BL').
  assert (Ln : length l = length L) by (rewrite <- (Permutation_length P); apply map_length). assert (Ln' : length l' = length L') by (rewrite <- (Permutation_length P'); apply map_length).
  rewrite (CT 0%Z b l L ltac:(lia) ltac:(unfold b; lia) ML P BL), (CT 1%Z b l L ltac:(lia) ltac:(unfold b; lia) ML P BL), (CT 0%Z b' l' L' ltac:(lia) ltac:(unfold b'; lia) ML' P' BL'), Ln, Ln'.
  destruct (HB b' L' ltac:(unfold b'; lia) ML') as (Q1 & _). split; [apply Q1; unfold b'; lia|].
  destruct (HB b L ltac:(unfold b; lia) ML) as (_ & Q2 & _). destruct (Q2 ltac:(unfold b; lia) L') as (R1 & R2); [|auto].
  replace (2 * 50 - 1 - b)%nat with b' by (unfold b, b'; lia). exact ML'.
Qed.

(** The stars that are kept, and their exact energies and circularities, exist. *)
Lemma c99_exists : forall n bodies ue uz cv, exists used rows, exact_stars n bodies ue uz cv used rows.
Proof.
  intros n bodies ue uz cv. induction n as [|n (used & rows & [S U F])].
  - exists [], []. constructor; [constructor| |constructor]. intros k. split; [intros []|lia].
  - destruct (Classical_Prop.classic (exists b, nth_error bodies n = Some b /\ kept cv ue uz b)) as [(b & Hb & K)|K].
    + pose proof K as (Nb & c & I & C & _). exists (used ++ [n]), (rows ++ [(fst b / ue, snd b / uz / c)]). constructor.
      * assert (B : forall k, In k used -> (k < n)%nat) by (intros k J; now apply U in J). clear - S B. induction S as [|a l S I F]; cbn [app]; constructor; [constructor|constructor|apply I; intros; apply B; now right|].
        apply Forall_app. split; [exact F|]. constructor; [apply B; now left|constructor].
      * intros k. rewrite in_app_iff, U. cbn [In]. split.
        -- intros [(L & H)|[<-|[]]]; [split; [lia|exact H]|split; [lia|eauto]].
        -- intros (L & H). destruct (Nat.eq_dec k n) as [->|Ne]; [right; now left|left; split; [lia|exact H]].
      * apply Forall2_app; [exact F|]. constructor; [|constructor]. exists b. split; [exact Hb|]. split; [reflexivity|]. exists c. auto.
    + exists used, rows. constructor; [exact S| |exact F]. intros k. rewrite U. split; [intros (L & H); split; [lia|exact H]|].
      intros (L & H). split; [|exact H]. destruct (Nat.eq_dec k n) as [->|Ne]; [contradiction|lia].
Qed.

(** The whole analysis with JHistogram: the potential of any of the backends, centring, aligning with any matrix product and
    the decomposition, for every generator that draws without replacement.  If no unbound star precedes
    a bound one and every bound star is settled, the decomposition returns, and in every exact
    cell of circularities the spheroid gets the number of stars of the exact rule. *)
Lemma c99_all : forall sm sm' K argsort table name fma mm (g : galaxy (F64s sm)) (G : F32s sm') kG s ls ld lg R0 D,
  let lr := ls ++ ld ++ lg in let ps := exact_pots kG s lr in let t := pot_error (length lr) R0 D in
  sums_well (F64_rounded sm) (/ IZR (2 ^ 53)) K -> fused (F64_rounded sm) fma -> is_matmul fma mm -> sorting argsort ->
  constructible g -> g_haspot g = false ->
  reads_set (F64_rounded sm) (g_stars g) ls -> reads_set (F64_rounded sm) (g_dm g) ld -> reads_set (F64_rounded sm) (g_gas g) lg ->
  backend_of G table name -> val (F32_rounded sm') G = XR kG -> / IZR (2 ^ 40) <= kG <= IZR (2 ^ 20) ->
  (forall so, largest_softening g so -> val (F64_rounded sm) so = XR s) -> usual s ->
  (forall q, In q lr -> 0 < pm q /\ usual (pm q) /\ forall a, In a [px q; py q; pz q] -> ordinary a /\ Rabs a <= R0) ->
  (forall i j p q, i <> j -> nth_error lr i = Some p -> nth_error lr j = Some q -> D <= sdist s p q) ->
  / IZR (2 ^ 60) <= D -> 0 <= R0 <= IZR (2 ^ 19) * D -> INR (length lr) <= IZR (2 ^ 22) -> lr <> [] ->
  exists h0 h1 i o, potential (W:=F64s sm) (S:=F32s sm') to32 to64 table name g = Ok h0 /\ center h0 = Ok h1 /\
    lowest h0 i /\ (forall i0, clearly_lowest t ps i0 -> i = i0) /\ nth_error lr i = Some o /\
    (let seen := map (seen_from o) in let u := / IZR (2 ^ 53) in let k := K (length ls) in
     let bodies := map2 (whole_body (seen ls)) (seen lr) ps in
     strong_spin u k (seen ls) -> (forall q, In q (seen ld) \/ In q (seen lg) -> SpecChain.within q) ->
     exists h2, star_align_with mm h1 None = Ok h2 /\
       forall m a d ue uz cv, 0 <= d -> 16 * d + / IZR (2 ^ 44) <= m ->
         (forall q x, In (q, x) (combine (seen lr) ps) -> resolved u k t (seen ls) d ue uz q x) ->
         exact_curve m SpecCurve.edgesR bodies ue uz cv -> 0 < a <= 1 -> gentle a cv ->
         (forall j b, (j < length ls)%nat -> nth_error bodies j = Some b -> settled ((12 * d + / IZR (2 ^ 47)) / a) cv ue uz (clearly_lowest t ps j) b) ->
         bound_first (length ls) bodies ->
         forall St (choice : St -> list nat -> nat -> list nat * St) junk st, draws choice ->
         exists cs st', decompose argsort (jhistogram choice junk (default_bin0, default_bin1) 100 2) st h2 = Ok (cs, st') /\
           (forall j, (j < length lr)%nat -> ~ ((j < length ls)%nat /\ exists b, nth_error bodies j = Some b /\ kept cv ue uz b) -> nth_error (c_labels cs) j = Some nnan) /\
           forall c l l', (0 <= c < 50)%Z -> NoDup l -> NoDup l' ->
             (forall j, In j l <-> in_cell (length ls) bodies ue uz cv c j) -> (forall j, In j l' <-> in_cell (length ls) bodies ue uz cv (-1 - c) j) ->
             count_label 0 (c_labels cs) l' = length l' /\
             count_label 0 (c_labels cs) l = Nat.min (length l') (length l) /\
             count_label 1 (c_labels cs) l = (length l - Nat.min (length l') (length l))%nat).
Proof.
  intros sm sm' K argsort table name fma mm g G kG s ls ld lg R0 D lr ps t UK FM MM Hs Hg Hp Rs Rd Rg BK VG HG So Us Q Ap HD HR Ln NE.
  destruct (potential_exact sm sm' table name g G kG s ls ld lg R0 D Hg Hp Rs Rd Rg BK VG HG So Us Q Ap HD HR Ln NE) as (h0 & h1 & E0 & E1 & C0 & Rs0 & Rd0 & Rg0 & FP & Ht & Hx).
  destruct (c99_decompose sm K argsort fma mm h0 h1 ls ld lg t ps UK FM MM Hs C0 Rs0 Rd0 Rg0 FP Ht Hx E1) as (i & o & H1 & H2 & H3 & H4).
  exists h0, h1, i, o. do 5 (split; [assumption|]). cbv zeta in H4 |- *. intros SS Hw. destruct (H4 SS Hw) as (h2 & E2 & H5).  exists h2. split; [exact E2|].
  intros m a d ue uz cv D0 Hm Hr Hcv Pa Ga Hset BF St choice junk st DC. change (ls ++ ld ++ lg) with lr in H5. set (bodies := map2 _ _ ps) in *.
  destruct (c99_exists (length ls) bodies ue uz cv) as (used & rows & Hex).
  destruct (proj1 (H5 m a d ue uz cv used rows D0 Hm Hr Hcv Pa Ga Hset Hex St choice junk (default_bin0, default_bin1) st) BF) as (HC & _).
  assert (M0 : 0 < m). { eapply Rlt_le_trans; [|exact Hm]. assert (0 < / IZR (2 ^ 44)) by (apply Rinv_0_lt_compat, IZR_lt; reflexivity). lra. }
  destruct (c99_counts _ (F64_rounded sm) St choice junk _ st (length ls) _ bodies m ue uz cv used rows _ DC M0 Hcv Hex HC) as (cs & st' & Ed & A & B).
  exists cs, st'. split; [exact Ed|]. split; [|exact B]. intros j Lj NK. apply A; [exact Lj|]. intros I. apply NK, (es_used _ _ _ _ _ _ _ Hex), I.
Qed.

(** For the galaxy of the example of C97 the two stars are settled: the faster one is a
    point of the curve and in the last cell, the slower one has circularity 246/511, in the cell
    from 0.48 to 0.5, with margins above 2 t.  No star rotates the other way, so both are of the disc. *)
Example ex_c99 : let RS := F64_rounded (seqsum 53 1024 p53 e1024) in let u := / IZR (2 ^ 53) in
  let lr := exW_stars ++ exW_dark ++ [] in let ps := exact_pots 1 0 lr in let t := pot_error (length lr) 6 1 in
  let cv := [(-1, 0); (-1023 / 524288, 1)] in
  constructible exW_gal /\ g_haspot exW_gal = false /\
  clearly_lowest t ps 2 /\
  (exists o, nth_error lr 2 = Some o /\
    let seen := map (seen_from o) in let bodies := map2 (whole_body (seen exW_stars)) (seen lr) ps in
    strong_spin u (2 * INR 2) (seen exW_stars) /\
    (forall q x, In (q, x) (combine (seen lr) ps) -> resolved u (2 * INR 2) t (seen exW_stars) (/ 150000) 262144 511 q x) /\
    exact_curve (/ 1000) SpecCurve.edgesR bodies 262144 511 cv /\ gentle (99 / 100) cv /\ bound_first 2 bodies /\
    (forall j b, (j < 2)%nat -> nth_error bodies j = Some b -> settled ((12 * / 150000 + / IZR (2 ^ 47)) / (99 / 100)) cv 262144 511 (clearly_lowest t ps j) b) /\
    exact_stars 2 bodies 262144 511 cv [0; 1]%nat [(-1023 / 524288, 1); (-231 / 131072, 246 / 511)] /\
    in_cell 2 bodies 262144 511 cv 49 0 /\ in_cell 2 bodies 262144 511 cv 24 1) /\
  draws turns /\
  (do h0 <- potential (W:=F64) (S:=F32) to32 to64 (backend_table n1 true junk0) "fortran" exW_gal; do h1 <- center h0; do h2 <- star_align h1 None;
   rmap (fun r => shows (c_labels (fst r))) (decompose asort (jhistogram turns (fun _ => 77%Z) (default_bin0, default_bin1) 100 2) true h2)) =
  Ok [sZ 1; sZ 1; S754_nan].
Proof.
  cbv zeta. split; [exact exW_ok|]. split; [reflexivity|]. rewrite exW_pots. change (length (exW_stars ++ exW_dark ++ [])) with 3%nat.
  assert (T : 0 <= pot_error 3 6 1 <= / 170000).
  { unfold pot_error. simpl INR. change (IZR (2 ^ 23)) with 8388608. change (IZR (2 ^ 22)) with 4194304. lra. }
  split.
  { exists (-262144). split; [reflexivity|]. intros j p' Nj Hj. assert (p' = -131072) as ->.
    { destruct j as [|[|[|j]]]; [injection Hj; auto|injection Hj; auto|congruence|destruct j; discriminate Hj]. }
    rewrite (Rabs_left (-262144)), (Rabs_left (-131072)) by lra. lra. }
  assert (I1 : forall c, interpolates [(-1, 0); (-1023 / 524288, 1)] (-462 / 262144) c -> c = 1).
  { intros c Ic. inversion Ic as [|? ? ? ?|? ? ? ? ? ? B1 B2|? ? ? ? ? ? ? B1 Ic']; subst; [lra|lra|]. inversion Ic'; subst; [lra|reflexivity]. }
  assert (I2 : interpolates [(-1, 0); (-1023 / 524288, 1)] (-462 / 262144) 1). { apply int_skip; [lra|]. apply int_right. lra. }
  assert (I3 : interpolates [(-1, 0); (-1023 / 524288, 1)] (-1023 / 2 / 262144) 1). { apply int_skip; [lra|]. apply int_right. lra. }
  split.
  { eexists. split; [reflexivity|]. rewrite !map_app. destruct (exW_from (Part 65536 5 5 5 0 0 0)) as (-> & ->); [reflexivity..|]. cbn [map]. rewrite app_nil_r.
    split; [exact exW_spin|]. split; [exact exW_resolved|]. rewrite exW_body. split; [exact exW_curve|]. split; [exact exW_gentle|].
    split. { intros i j bi bj (L1 & L2) Hi Hj Nj. destruct i as [|i]; [|lia]. injection Hi as <-. cbn [fst]. lra. }
    assert (/ IZR (2 ^ 47) <= / 1000000) by (apply Rinv_le_contravar; [lra|apply IZR_le; lia]). assert (0 < / IZR (2 ^ 47)) by (apply Rinv_0_lt_compat, IZR_lt; reflexivity).
    split.
    { intros j b Lj Hb _. destruct j as [|[|j]]; [| |lia]; injection Hb as <-; cbn [fst snd].
      - right; left. rewrite Rabs_pos_eq by lra. split; [right; left; f_equal; lra|lra].
      - left. intros c k Ic Hk. apply I1 in Ic as ->. destruct (Z_le_gt_dec k 24) as [L|L]; [apply IZR_le in L; rewrite Rabs_pos_eq by lra; lra|].
        assert (L' : (25 <= k)%Z) by lia. apply IZR_le in L'. rewrite Rabs_left by lra. lra. }
    split.
    { constructor.
      - repeat constructor.
      - intros k. split.
        + intros [<-|[<-|[]]]; (split; [lia|]); eexists; (split; [reflexivity|]); (split; cbn [fst snd]; [lra|]); exists 1; (split; [assumption|]); (split; [lra|]); rewrite Rabs_pos_eq by lra; lra.
        + intros (L & _). destruct k as [|[|k]]; [now left|right; now left|lia].
      - apply Forall2_cons; [|apply Forall2_cons; [|apply Forall2_nil]]; eexists; (split; [reflexivity|]); cbn [fst snd]; (split; [lra|]); exists 1; (split; [assumption|]); cbn [fst snd]; split; lra. }
    split; (split; [lia|]).
    - exists (-1023 / 2, 511), 1. split; [reflexivity|]. cbn [fst]. split; [lra|]. split; [exists 1; split; [assumption|split; cbn; lra]|]. split; [lra|right; split; reflexivity].
    - exists (-462, 246), (246 / 511). split; [reflexivity|]. cbn [fst]. split; [lra|]. split; [exists 1; split; [assumption|split; cbn; lra]|]. split; [lra|left; simpl; lra]. }
  split; [exact turns_draws|]. vm_compute. reflexivity.
Qed.
