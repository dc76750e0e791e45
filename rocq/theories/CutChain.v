(** Centring and then aligning with a cut-off radius, in floating point. *)
From Flocq Require Import Core BinarySingleNaN.
From Coq Require Import Lra Lia.
From Verif Require Import Py Num RX F64 Np Df Data DataFacts Center Align Spec Ex DataThms CenterFacts CenterThms AlignFacts AlignThms SpecR AlCutThms SpecAlAcc AlAccFacts AlAccRot AlAccSum AlAccThms SpecCirc CircFacts SpecChain ChainFacts ChainThms SpecFma Dgemm SpecDgemm DgemmThms SpecCut.
Local Open Scope R_scope.
Local Notation e := (bpow radix2).

Lemma cut_inside c l : within_cut c l = filter (inside (Some (XR c))) l.
Proof.
  unfold within_cut. apply filter_ext. intros q. unfold inside. apply Bool.eq_true_iff_eq. rewrite (nlt_iff RX_rounded). simpl.
  destruct (Rlt_bool_spec (rad q) c); split; intros; try easy. lra.
Qed.

(** One rotation for all particles, whichever matrix product is used. *)
Lemma cut_turned : forall (S : Num) (RS : Rounded S) u K, graceful RS u -> 0 < u -> u <= bpow radix2 (-40) -> sums_well RS u K ->
  forall fma mm, fused RS fma -> is_matmul fma mm ->
  forall (g : galaxy S) ls ld lg (r : S) c, constructible g -> val RS r = XR c -> bpow radix2 (-90) <= c ->
  reads_set RS (g_stars g) ls -> reads_set RS (g_dm g) ld -> reads_set RS (g_gas g) lg ->
  (forall q, In q ls \/ In q ld \/ In q lg -> bounded q) -> (forall q, In q ls -> 20000 * u * rad q < Rabs (rad q - c)) ->
  let ins := within_cut c ls in clear_spin u (K (length ins)) ins ->
  exists h M ls' ld' lg', star_align_with mm g (Some r) = Ok h /\ constructible h /\ rotation M /\
    reads_set RS (g_stars h) ls' /\ reads_set RS (g_dm h) ld' /\ reads_set RS (g_gas h) lg' /\
    Forall2 (turned_near u M) ls ls' /\ Forall2 (turned_near u M) ld ld' /\ Forall2 (turned_near u M) lg lg' /\
    Forall2 (turned_near u M) ins (within_cut c ls') /\
    (let err := 50 * (K (length ins) + 1000) * u * weights ins in
     let ins' := within_cut c ls' in
     Rabs (LX None ins') <= err /\ Rabs (LY None ins') <= err /\ Rabs (LZ None ins' - Lnorm None ins) <= err).
Proof.
  intros S RS u K U U0 U1 UK fma mm FM MM g ls ld lg r c Hg Er Hc Rs Rd Rg HB Mg ins CS. apply constructible_ok in Hg.
  destruct (reads_cols RS _ _ Rs) as (bs & Cs & Fs). destruct (reads_cols RS _ _ Rd) as (bd & Cd & Fd). destruct (reads_cols RS _ _ Rg) as (bg & Cg & Fg).
  assert (gs : pset_ok (g_stars g)) by (apply gal_ok_facts in Hg; now destruct Hg).
  unfold ins in *. clear ins. rewrite cut_inside in *. set (ins := filter _ ls) in *.
  assert (Fi : Forall2 (reads_body RS) (filter (fb r) bs) ins).
  { apply Forall2_filter; [exact Fs|]. intros b q Hq Hb. apply (reads_inside RS u U U0 U1 r c Er Hc); auto. apply Mg, Hq. }
  destruct (core RS u K U U0 U1 UK ins _ Fi CS) as (M & Q & RM & AM & B1 & B2 & B3 & B4 & _).
  assert (GM : gal_matrix g (Some r) = total_matrix (filter (fb r) bs)).
  { rewrite gal_matrix_near by exact Hg. now rewrite (near_cut r (g_stars g) bs gs Cs). }
  rewrite <- GM in AM. pose proof (clear_nonempty u _ _ CS) as NE. destruct CS as (HBs & HN & HK & _).
  destruct (turn_reads RS u fma mm MM U U0 U1 FM 0 _ M _ bs ls AM Cs Fs ltac:(auto)) as (ls' & Rs' & Ts).
  destruct (turn_reads RS u fma mm MM U U0 U1 FM 1 _ M _ bd ld AM Cd Fd ltac:(auto)) as (ld' & Rd' & Td).
  destruct (turn_reads RS u fma mm MM U U0 U1 FM 2 _ M _ bg lg AM Cg Fg ltac:(auto)) as (lg' & Rg' & Tg).
  exists (turn_gal mm (gal_matrix g (Some r)) g), M, ls', ld', lg'.
  assert (HP : 0 < c) by (pose proof (bpow_gt_0 radix2 (-90)); lra).
  split.
  { rewrite (star_align_with_eq fma mm MM) by exact Hg. replace (cut_ok (Some r)) with true; [reflexivity|]. symmetry. unfold cut_ok. apply Bool.negb_true_iff.
    apply (nle_false RS). rewrite Er, (val_n0 RS). cbn. lra. }
  split; [apply constructible_ok, (turn_gal_ok fma mm MM), Hg|].
  do 7 (split; [assumption|]). rewrite cut_inside.
  assert (TI : forall q q', In q ls -> turned_near u M q q' -> inside (Some (XR c)) q = inside (Some (XR c)) q').
  { intros q q' Hq T. apply (turned_inside u U0 U1 c Hc M q q' RM T); [auto|apply Mg, Hq]. }
  assert (Ti : Forall2 (turned_near u M) ins (filter (inside (Some (XR c))) ls')).
  { clear - Ts TI. subst ins. induction Ts as [|q q' l l' T Ts IH]; [constructor|]. cbn [filter]. rewrite <- (TI q q' (or_introl eq_refl) T).
    specialize (IH (fun p p' Hp => TI p p' (or_intror Hp))). destruct (inside (Some (XR c)) q); [constructor|]; auto. }
  split; [exact Ti|].
  destruct (turned_total u U0 U1 M ins _ Ti RM HBs HN NE) as (T1 & T2 & T3).
  assert (uW : 0 <= u * weights ins) by (apply Rmult_le_pos; [lra|apply weights_range; exact HBs]).
  set (k := K (length ins)) in *.
  assert (E : 40000 * u * weights ins + 6 * ((20 + 4 * k) * u * weights ins) <= 50 * (k + 1000) * u * weights ins) by nra.
  assert (E2 : 0 <= (20 + 4 * k) * u * weights ins) by nra.
  apply Rabs_le_inv in T1, T2, T3, B1, B2, B3, B4.
  cbv zeta. repeat split; apply Rabs_le; lra.
Qed.

Section Moved.
Variables (u : R) (U0 : e (-100) <= u) (U1 : u <= e (-40)).
(** Centring moves no star across the cut-off radius. *)
Lemma moved_edge c q0 q1 : e (-90) <= c -> moved_near u q0 q1 -> within q0 -> 30000 * u * rad q0 < Rabs (rad q0 - c) ->
  inside (Some (XR c)) q0 = inside (Some (XR c)) q1 /\ 20000 * u * rad q1 < Rabs (rad q1 - c).
Proof.
  intros Hc Mv W Mg. pose proof (u_pos u U0) as Up.
  assert (R0 : 0 <= rad q0) by apply sqrt_pos. assert (ur : 0 <= u * rad q0) by (apply Rmult_le_pos; lra).
  split.
  { apply (turned_inside u Up U1 c Hc ident q0 q1 ident_rotation (moved_turned u U0 q0 q1 Mv) (within_bounded q0 W)).
    unfold margin. lra. }
  destruct Mv as (_ & X & Y & Z & _).
  pose proof (nrm_diff (px q1) (py q1) (pz q1) (px q0) (py q0) (pz q0)) as D1.
  pose proof (nrm_diff (px q0) (py q0) (pz q0) (px q1) (py q1) (pz q1)) as D2.
  rewrite (Rabs_minus_sym (px q0)), (Rabs_minus_sym (py q0)), (Rabs_minus_sym (pz q0)) in D2.
  rewrite <- !rad_nrm in D1, D2. set (s := span (px q0) (py q0) (pz q0)) in *.
  assert (Hu : u <= / 1000000) by (eapply Rle_trans; [exact U1|simpl; lra]).
  destruct (Rle_or_lt (e (-100)) (rad q0)) as [Big|Tiny].
  - pose proof (span_rad q0 Big) as Sp. fold s in Sp. assert (us : u * s <= u * rad q0) by (apply Rmult_le_compat_l; lra).
    assert (uu : u * (u * rad q0) <= / 1000000 * (u * rad q0)) by (apply Rmult_le_compat_r; lra).
    assert (u * rad q1 <= u * (rad q0 + 6 * (u * rad q0))) by (apply Rmult_le_compat_l; lra).
    unfold Rabs in Mg |- *. destruct (Rcase_abs (rad q0 - c)); destruct (Rcase_abs (rad q1 - c)); lra.
  - pose proof (span_rad_small q0 Tiny) as Sp. fold s in Sp. rewrite Sp in *.
    assert (E1 : e (-90) = 1024 * e (-100)) by (change (-90)%Z with (10 + -100)%Z; rewrite bpow_plus; simpl (bpow radix2 10); lra).
    pose proof (bpow_gt_0 radix2 (-100)) as P. assert (u * e (-100) <= / 1000000 * e (-100)) by (apply Rmult_le_compat_r; lra).
    assert (u * rad q1 <= u * (2 * e (-100))) by (apply Rmult_le_compat_l; lra).
    rewrite (Rabs_left1 (rad q1 - c)) by lra. lra.
Qed.
End Moved.

(** Centring, then aligning with the cut-off radius [r]. *)
Lemma chain_cut : forall (S : Num) (RS : Rounded S) u K, graceful RS u -> bpow radix2 (-100) <= u -> u <= bpow radix2 (-40) -> sums_well RS u K ->
  forall fma mm, fused RS fma -> is_matmul fma mm ->
  forall (g h1 : galaxy S) ls ld lg (r : S) c, constructible g -> val RS r = XR c -> bpow radix2 (-90) <= c ->
  reads_set RS (g_stars g) ls -> reads_set RS (g_dm g) ld -> reads_set RS (g_gas g) lg -> center g = Ok h1 ->
  exists i o, lowest g i /\ nth_error (ls ++ ld ++ lg) i = Some o /\
    (let seen := map (seen_from o) in let ins := within_cut c (seen ls) in let k := K (length ins) in
     strong_spin u k ins -> off_edge u c (seen ls) -> (forall q, In q (seen (ls ++ ld ++ lg)) -> within q) ->
     exists h2, star_align_with mm h1 (Some r) = Ok h2 /\ constructible h2 /\
       set_near RS u k ins (g_stars h2) (seen ls) /\ set_near RS u k ins (g_dm h2) (seen ld) /\
       set_near RS u k ins (g_gas h2) (seen lg)).
Proof.
  intros S RS u K U U0 U1 UK fma mm FM MM g h1 ls ld lg r c Hg Er Hcc Rs Rd Rg Hc. pose proof (u_pos u U0) as Up.
  destruct (c09_translation S RS g h1 Hg Hc) as (i & x0 & y0 & z0 & Hi & X & Y & Z & (_ & Hh & Mv)).
  assert (All : forall (f : pset S -> list S) (r : particle -> R), map (val RS) (f (g_stars g)) = map (fun q => XR (r q)) ls ->
    map (val RS) (f (g_dm g)) = map (fun q => XR (r q)) ld -> map (val RS) (f (g_gas g)) = map (fun q => XR (r q)) lg ->
    map (val RS) (flat_map f (sets g)) = map (fun q => XR (r q)) (ls ++ ld ++ lg)).
  { intros f r' A B C. cbn [sets flat_map]. rewrite app_nil_r, !map_app, A, B, C. reflexivity. }
  assert (Ax := All (@p_x S) px ltac:(apply Rs) ltac:(apply Rd) ltac:(apply Rg)). assert (Ay := All (@p_y S) py ltac:(apply Rs) ltac:(apply Rd) ltac:(apply Rg)).
  assert (Az := All (@p_z S) pz ltac:(apply Rs) ltac:(apply Rd) ltac:(apply Rg)). clear All.
  fold (all_x g) in Ax. fold (all_y g) in Ay. fold (all_z g) in Az.
  apply (f_equal (fun l => nth_error l i)) in Ax, Ay, Az. rewrite !nth_error_map in Ax; rewrite !nth_error_map in Ay; rewrite !nth_error_map in Az.
  rewrite X in Ax. rewrite Y in Ay. rewrite Z in Az.
  destruct (nth_error (ls ++ ld ++ lg) i) as [o|] eqn:Ho; [|discriminate]. cbn [option_map] in Ax, Ay, Az.
  injection Ax as Ax. injection Ay as Ay. injection Az as Az.
  exists i, o. split; [exact Hi|]. split; [exact Ho|]. intros seen ins k HS HE HW.
  cbn [sets] in Mv. inversion Mv as [|p1 q1 ? ? (Sm1 & X1 & Y1 & Z1) Mv1]; subst. inversion Mv1 as [|p2 q2 ? ? (Sm2 & X2 & Y2 & Z2) Mv2]; subst.
  inversion Mv2 as [|p3 q3 ? ? (Sm3 & X3 & Y3 & Z3) _]; subst. clear Mv Mv1 Mv2.
  unfold seen in HW. rewrite !map_app in HW. fold seen in HW.
  assert (W1 : forall q, In q (seen ls) -> within q) by (intros q I; apply HW, in_or_app; now left).
  assert (W2 : forall q, In q (seen ld) -> within q) by (intros q I; apply HW; rewrite !in_app_iff; tauto).
  assert (W3 : forall q, In q (seen lg) -> within q) by (intros q I; apply HW; rewrite !in_app_iff; tauto). clear HW.
  pose proof HS as (W & HN & HK & A & B). pose proof (strong_nonempty u _ _ HS) as NE.
  destruct (seen_reads RS u U U0 _ _ ls o x0 y0 z0 Rs Sm1 X1 Y1 Z1 Ax Ay Az W1) as (ls1 & Rs1 & Fs).
  destruct (seen_reads RS u U U0 _ _ ld o x0 y0 z0 Rd Sm2 X2 Y2 Z2 Ax Ay Az W2) as (ld1 & Rd1 & Fd).
  destruct (seen_reads RS u U U0 _ _ lg o x0 y0 z0 Rg Sm3 X3 Y3 Z3 Ax Ay Az W3) as (lg1 & Rg1 & Fg).
  fold seen in Fs, Fd, Fg.
  assert (ME : Forall2 (moved_near u) ins (within_cut c ls1) /\ forall q, In q ls1 -> 20000 * u * rad q < Rabs (rad q - c)).
  { unfold ins. rewrite !cut_inside. clear - Fs W1 HE U0 U1 Hcc. induction Fs as [|q0 q1 l l' H F IH]; [split; [constructor|intros q []]|].
    destruct (moved_edge u U0 U1 c q0 q1 Hcc H (W1 q0 (or_introl eq_refl)) (HE q0 (or_introl eq_refl))) as (E1 & E2).
    destruct IH as (IH1 & IH2); [intros q I; apply HE; now right|intros q I; apply W1; now right|].
    split; [cbn [filter]; rewrite <- E1; destruct (inside (Some (XR c)) q0); [constructor|]; auto|].
    intros q [<-|I]; auto. }
  destruct ME as (Fi & Me). set (ins1 := within_cut c ls1) in *.
  destruct (moved_lists u U0 U1 _ _ Fs W1) as (_ & Bs & _). destruct (moved_lists u U0 U1 _ _ Fi W) as (_ & Bi & Ww & Ls).
  destruct (moved_lists u U0 U1 _ _ Fd W2) as (_ & Bd & _). destruct (moved_lists u U0 U1 _ _ Fg W3) as (_ & Bg & _).
  pose proof (strong_clear u U0 U1 k _ _ Fi HS) as CS. destruct (moved_total u U0 U1 _ _ Fi W HN NE) as (Tx & Ty & Tz).
  destruct (cut_turned S RS u K U Up U1 UK fma mm FM MM h1 ls1 ld1 lg1 r c Hh Er Hcc Rs1 Rd1 Rg1) as (h2 & M & ls2 & ld2 & lg2 & Al & Hk2 & RM & Rs2 & Rd2 & Rg2 & Ts & Td & Tg & Ti & E1 & E2 & E3).
  { intros q [H|[H|H]]; auto. }
  { exact Me. }
  { fold ins1. rewrite Ls. exact CS. }
  fold ins1 in Ti, E1, E2, E3. rewrite Ls in E1, E2, E3. fold k in E1, E2, E3. set (ins2 := within_cut c ls2) in *.
  pose proof Hk2 as Ok2. apply constructible_ok, gal_ok_facts in Ok2. destruct Ok2 as [P1 P2 P3 _ _ _ _ _ _].
  pose proof (clear_nonempty u _ _ CS) as NE1. assert (HN1 : INR (length ins1) <= e 20) by (rewrite Ls; exact HN).
  destruct (turned_total u Up U1 M ins1 ins2 Ti RM Bi HN1 NE1) as (F1 & F2 & F3). destruct (rotate_L M None ins1 RM) as (L1 & L2 & L3). rewrite L1 in F1. rewrite L2 in F2. rewrite L3 in F3.
  pose proof (Lnorm_close _ _ _ Tx Ty Tz) as Nc.
  pose proof RM as (R1 & R2 & R3 & _). apply entry_le in R1, R2, R3. destruct R1 as (? & ? & ?), R2 as (? & ? & ?), R3 as (? & ? & ?).
  pose proof (comb3 (m11 M) (m12 M) (m13 M) _ _ _ _ ltac:(assumption) ltac:(assumption) ltac:(assumption) Tx Ty Tz) as G1.
  pose proof (comb3 (m21 M) (m22 M) (m23 M) _ _ _ _ ltac:(assumption) ltac:(assumption) ltac:(assumption) Tx Ty Tz) as G2.
  pose proof (comb3 (m31 M) (m32 M) (m33 M) _ _ _ _ ltac:(assumption) ltac:(assumption) ltac:(assumption) Tx Ty Tz) as G3.
  pose proof (weights_pos ins W) as W0.
  assert (uW : 0 <= u * weights ins) by (apply Rmult_le_pos; lra). assert (kuW : 0 <= k * (u * weights ins)) by (apply Rmult_le_pos; lra).
  assert (uW1 : u * weights ins1 <= 2 * (u * weights ins)) by (pose proof (Rmult_le_compat_l u _ _ (Rlt_le _ _ Up) Ww); lra).
  assert (kuW1 : k * (u * weights ins1) <= k * (2 * (u * weights ins))) by (apply Rmult_le_compat_l; lra).
  set (t := u * weights ins) in *. set (t1 := u * weights ins1) in *.
  replace (50 * (k + 1000) * u * weights ins1) with (50 * (k * t1) + 50000 * t1) in E1, E2, E3 by (unfold t1; ring).
  replace (40000 * u * weights ins1) with (40000 * t1) in F1, F2, F3 by (unfold t1; ring).
  replace (40000 * u * weights ins) with (40000 * t) in * by (unfold t; ring).
  assert (DD : 420 * (k + 1000) * u * weights ins = 420 * (k * t) + 420000 * t) by (unfold t; ring).
  apply Rabs_le_inv in E1, E2, E3, F1, F2, F3, G1, G2, G3, Nc.
  assert (Dx : Rabs (m11 M * LX None ins + m12 M * LY None ins + m13 M * LZ None ins) <= 420 * (k + 1000) * u * weights ins) by (rewrite DD; apply Rabs_le; lra).
  assert (Dy : Rabs (m21 M * LX None ins + m22 M * LY None ins + m23 M * LZ None ins) <= 420 * (k + 1000) * u * weights ins) by (rewrite DD; apply Rabs_le; lra).
  assert (Dz : Rabs (m31 M * LX None ins + m32 M * LY None ins + m33 M * LZ None ins - Lnorm None ins) <= 420 * (k + 1000) * u * weights ins) by (rewrite DD; apply Rabs_le; lra).
  exists h2. split; [exact Al|]. split; [exact Hk2|].
  split; [apply (set_done RS u U U0 U1 k ins M _ (seen ls) ls1 ls2); auto|].
  split; [apply (set_done RS u U U0 U1 k ins M _ (seen ld) ld1 ld2); auto|apply (set_done RS u U U0 U1 k ins M _ (seen lg) lg1 lg2); auto].
Qed.
