(** The accuracy of the alignment with a cut-off radius: C68. *)
From Verif Require Import Py Num RX F64 Np Df Data DataFacts Center CenterFacts Align Spec Ex DataThms CenterThms AlignFacts AlignThms SpecR SpecAlAcc AlAccFacts AlAccRot AlAccSum AlAccThms.
From Flocq Require Import Core BinarySingleNaN.
From Coq Require Import Lra Lia.
Local Open Scope R_scope.
Local Notation e := (bpow radix2).

Section Cut.
Context {S : Num} (RS : Rounded S) (u : R) (U : graceful RS u) (U0 : 0 < u) (U1 : u <= e (-40)).

Lemma rnd_pos r B : 0 <= r <= B -> tiny <= B -> B <= huge -> exists r', rnd RS (XR r) = XR r' /\ 0 <= r' <= 2 * B.
Proof.
  intros Hr T H. destruct (U r) as (r' & E & D); [rewrite Rabs_pos_eq; lra|]. exists r'. split; [exact E|]. split.
  - pose proof (rnd_mono RS (XR 0) (XR r) ltac:(cbn; lra)) as M. pose proof (rnd_int RS 0 ltac:(pose proof (intmax_pos RS); lia)) as Z0.
    change (IZR 0) with 0 in Z0. rewrite Z0, E in M. exact M.
  - rewrite (Rabs_pos_eq r) in D by lra. apply Rabs_le_inv in D.
    assert (u <= / 4) by (eapply Rle_trans; [exact U1|]; simpl; lra).
    assert (u * (r + tiny) <= / 4 * (B + B)) by (apply Rmult_le_compat; try lra; unfold tiny; pose proof (bpow_gt_0 radix2 (-1000)); lra). lra.
Qed.

Lemma rad_nrm q : rad q = nrm (px q) (py q) (pz q).
Proof. reflexivity. Qed.
Lemma span_rad q : e (-100) <= rad q -> span (px q) (py q) (pz q) <= rad q.
Proof.
  intros H. destruct (nrm_ge (px q) (py q) (pz q)) as (A & B & C). rewrite rad_nrm in *. unfold span. repeat apply Rmax_lub; assumption.
Qed.
Lemma span_rad_small q : rad q < e (-100) -> span (px q) (py q) (pz q) = e (-100).
Proof.
  intros H. destruct (nrm_ge (px q) (py q) (pz q)) as (A & B & C). rewrite rad_nrm in *. unfold span. apply Rmax_left. repeat apply Rmax_lub; lra.
Qed.
Lemma rad_bounded q : bounded q -> rad q <= e 102.
Proof.
  intros (_ & H & _). destruct (span_ge (px q) (py q) (pz q)) as (_ & A & B & C). rewrite rad_nrm.
  pose proof (nrm_diff (px q) (py q) (pz q) 0 0 0) as D. rewrite !Rminus_0_r in D.
  replace (nrm 0 0 0) with 0 in D by (unfold nrm; replace (0 * 0 + 0 * 0 + 0 * 0) with 0 by ring; now rewrite sqrt_0).
  replace (e 102) with (4 * e 100) by (change 102%Z with (2 + 100)%Z; rewrite <- e_add; simpl; lra). pose proof (bpow_gt_0 radix2 100). lra.
Qed.

(** A computed position near [t], at the same distance as [q], is found inside the cut-off exactly if [q] is inside. *)
Lemma radius_cut x y z xv yv zv q t r c : val RS x = XR xv -> val RS y = XR yv -> val RS z = XR zv -> val RS r = XR c ->
  let d := 800 * u * span (px q) (py q) (pz q) in
  Rabs (xv - px t) <= d -> Rabs (yv - py t) <= d -> Rabs (zv - pz t) <= d -> rad t = rad q -> bounded q ->
  e (-90) <= c -> 20000 * u * rad q < Rabs (rad q - c) ->
  nlt (radius x y z) r = inside (Some (XR c)) q /\ (nrm xv yv zv < c <-> rad q < c).
Proof.
  intros Ex Ey Ez Er d Dx Dy Dz Et HB Hc M.
  assert (I : forall v, val RS (radius x y z) = XR v -> (v < c <-> rad q < c) -> nlt (radius x y z) r = inside (Some (XR c)) q).
  { intros v Ev H. unfold inside. apply Bool.eq_true_iff_eq. rewrite (nlt_iff RS), (nlt_iff RX_rounded), Ev, Er. exact H. }
  pose proof (nrm_diff xv yv zv (px t) (py t) (pz t)) as D1. pose proof (nrm_diff (px t) (py t) (pz t) xv yv zv) as D2.
  rewrite (Rabs_minus_sym (px t) xv), (Rabs_minus_sym (py t) yv), (Rabs_minus_sym (pz t) zv) in D2.
  rewrite <- (rad_nrm t), Et in D1, D2.
  destruct (Rle_or_lt (e (-100)) (rad q)) as [Big|Tiny].
  - pose proof (span_rad q Big) as Sp. pose proof (rad_bounded q HB) as RB. set (T := rad q) in *.
    pose proof (bpow_gt_0 radix2 (-100)) as P100. assert (uT : 0 < u * T) by (apply Rmult_lt_0_compat; lra).
    assert (Dd : d <= 800 * (u * T)).
    { unfold d. rewrite Rmult_assoc. apply Rmult_le_compat_l; [lra|]. apply Rmult_le_compat_l; lra. }
    destruct (nrm_ge (px t) (py t) (pz t)) as (A & B & C). rewrite <- (rad_nrm t), Et in A, B, C. fold T in A, B, C.
    assert (Ax : ap RS u 800 T x (px t)) by (exists xv; split; [exact Ex|]; split; [lra|exact A]).
    assert (Ay : ap RS u 800 T y (py t)) by (exists yv; split; [exact Ey|]; split; [lra|exact B]).
    assert (Az : ap RS u 800 T z (pz t)) by (exists zv; split; [exact Ez|]; split; [lra|exact C]).
    assert (HPP : forall v, T * T <= v <= 4 * (T * T) -> scale v).
    { intros v Hv. apply scale_between with (-200)%Z 206%Z; [|lia..].
      assert (e (-200) <= T * T) by (change (-200)%Z with (-100 + -100)%Z; rewrite <- e_add; apply Rmult_le_compat; lra).
      assert (T * T <= e 204) by (change 204%Z with (102 + 102)%Z; rewrite <- e_add; apply Rmult_le_compat; lra).
      replace (e 206) with (4 * e 204) by (change 206%Z with (2 + 204)%Z; rewrite <- e_add; simpl; lra). lra. }
    assert (ST : scale T) by (apply scale_between with (-100)%Z 102%Z; [lra|lia..]).
    assert (Sq : forall w tv, ap RS u 800 T w tv -> ap RS u 3202 (T * T) (w * w)%num (tv * tv)).
    { intros w tv Hw. replace 3202 with (2 * 800 + 2 * 800 + 2) by ring.
      apply ap_mul; auto; try lra; first [apply small; auto; lra|apply HPP; nra]. }
    pose proof (Sq x _ Ax) as Qx. pose proof (Sq y _ Ay) as Qy. pose proof (Sq z _ Az) as Qz.
    assert (Z2 : ap RS u 3204 (T * T + T * T) (x * x + y * y)%num (px t * px t + py t * py t)).
    { replace 3204 with (3202 + 2) by ring. apply ap_add; auto; first [apply small; auto; lra|apply HPP; nra]. }
    assert (Z3 : ap RS u 3206 ((T * T + T * T) + T * T) (x * x + y * y + z * z)%num (px t * px t + py t * py t + pz t * pz t)).
    { replace 3206 with (3204 + 2) by ring. apply ap_add; auto; [|apply HPP; nra|apply small; auto; lra].
      apply (ap_weaken RS u U0 3202 3204 (T * T)); auto; lra. }
    assert (SQ : px t * px t + py t * py t + pz t * pz t = T * T) by (rewrite <- nrm_sq, <- rad_nrm, Et; reflexivity).
    rewrite SQ in Z3.
    assert (Z4 : ap RS u 9618 (T * T) (x * x + y * y + z * z)%num (T * T)).
    { destruct Z3 as (v & E & Bv & _). exists v. split; [exact E|]. split; [lra|]. rewrite Rabs_pos_eq; nra. }
    destruct (ap_sqrt RS u U U0 9618 _ T Z4 ST ltac:(lra) ltac:(apply small; auto; lra)) as (v & Ev & Bv & _).
    assert (Mc : forall w, Rabs (w - T) <= 10000 * (u * T) -> (w < c <-> T < c)).
    { intros w Hw. apply Rabs_le_inv in Hw. unfold Rabs in M. destruct (Rcase_abs (T - c)); split; lra. }
    split.
    + apply (I v Ev). apply Mc. eapply Rle_trans; [exact Bv|]. lra.
    + apply Mc. apply Rabs_le. lra.
  - pose proof (span_rad_small q Tiny) as Sp. assert (Dd : d <= e (-100)).
    { unfold d. rewrite Sp. rewrite <- (Rmult_1_l (e (-100))) at 2. apply Rmult_le_compat_r; [left; apply bpow_gt_0|].
      assert (u <= / 1000000000000) by (eapply Rle_trans; [exact U1|simpl; lra]). lra. }
    assert (C96 : e (-94) < c).
    { eapply Rlt_le_trans; [|exact Hc]. apply bpow_lt. lia. }
    assert (C90 : forall k, (k <= -90)%Z -> e k <= c) by (intros k Hk; eapply Rle_trans; [apply bpow_le; exact Hk|exact Hc]).
    destruct (nrm_ge (px t) (py t) (pz t)) as (A & B & C). rewrite <- (rad_nrm t), Et in A, B, C.
    assert (E99 : e (-99) = 2 * e (-100)) by (change (-99)%Z with (1 + -100)%Z; rewrite <- e_add; simpl; lra).
    assert (Near : forall w tv, Rabs (w - tv) <= d -> Rabs tv <= rad q -> Rabs w <= e (-99)).
    { intros w tv H H'. apply Rabs_le_inv in H, H'. apply Rabs_le. lra. }
    assert (Sq : forall w wv, val RS w = XR wv -> Rabs wv <= e (-99) -> exists s, val RS (w * w)%num = XR s /\ 0 <= s <= 2 * e (-198)).
    { intros w wv Ew Hw. rewrite (val_mul RS), Ew. cbn [xmul]. apply rnd_pos.
      - split; [nra|]. change (-198)%Z with (-99 + -99)%Z. rewrite <- e_add. apply Rabs_le_inv in Hw. pose proof (bpow_gt_0 radix2 (-99)). nra.
      - apply bpow_le. lia.
      - apply bpow_le. lia. }
    destruct (Sq x xv Ex (Near _ _ Dx A)) as (sx & Sx & Bx). destruct (Sq y yv Ey (Near _ _ Dy B)) as (sy & Sy & By').
    destruct (Sq z zv Ez (Near _ _ Dz C)) as (sz & Sz & Bz).
    assert (E4 : forall k j, (0 <= j)%Z -> e (k + j) = IZR (2 ^ j) * e k).
    { intros k j Hj. rewrite Z.add_comm, <- e_add. f_equal. now rewrite <- (IZR_Zpower radix2) by exact Hj. }
    assert (S1 : exists s, val RS (x * x + y * y)%num = XR s /\ 0 <= s <= 2 * e (-196)).
    { rewrite (val_add RS), Sx, Sy. cbn [xadd]. apply rnd_pos; [|apply bpow_le; lia..].
      change (-196)%Z with (-198 + 2)%Z. rewrite E4 by lia. simpl (IZR _). lra. }
    destruct S1 as (s1 & S1 & B1).
    assert (S2 : exists s, val RS (x * x + y * y + z * z)%num = XR s /\ 0 <= s <= 2 * e (-194)).
    { rewrite (val_add RS), S1, Sz. cbn [xadd]. apply rnd_pos; [|apply bpow_le; lia..].
      change (-196)%Z with (-198 + 2)%Z in B1. rewrite E4 in B1 by lia. change (-194)%Z with (-198 + 4)%Z. rewrite E4 by lia. simpl (IZR _) in *. lra. }
    destruct S2 as (s2 & S2 & B2).
    assert (S3 : exists s, val RS (radius x y z) = XR s /\ 0 <= s <= 2 * e (-96)).
    { unfold radius. rewrite (val_sqrt RS), S2. unfold xsqrt. destruct (Rlt_dec s2 0) as [|_]; [lra|]. apply rnd_pos; [|apply bpow_le; lia..].
      split; [apply sqrt_pos|]. rewrite <- (sqrt_square (e (-96))) by (left; apply bpow_gt_0). apply sqrt_le_1_alt.
      rewrite e_add. change (-96 + -96)%Z with (-194 + 2)%Z. rewrite E4 by lia. simpl (IZR _). pose proof (bpow_gt_0 radix2 (-194)). lra. }
    destruct S3 as (v & Ev & Bv).
    assert (T2 : rad q < c) by (eapply Rlt_le_trans; [exact Tiny|apply C90; lia]).
    split.
    + apply (I v Ev). split; [intros _; exact T2|intros _]. eapply Rle_lt_trans; [apply Bv|].
      change (-94)%Z with (-96 + 2)%Z in C96. rewrite E4 in C96 by lia. simpl (IZR _) in C96. pose proof (bpow_gt_0 radix2 (-96)). lra.
    + split; [intros _; exact T2|intros _]. change (-94)%Z with (-100 + 6)%Z in C96. rewrite E4 in C96 by lia. simpl (IZR _) in C96.
      apply Rle_lt_trans with (e (-100) + 3 * e (-100)); [lra|]. pose proof (bpow_gt_0 radix2 (-100)). lra.
Qed.
End Cut.

Section Main.
Context {S : Num} (RS : Rounded S) (u : R) (U : graceful RS u) (U0 : 0 < u) (U1 : u <= e (-40)).
Context (r : S) (c : R) (Er : val RS r = XR c) (Hc : e (-90) <= c).

Definition fb (b : body S) : bool := nlt (radius (b_x b) (b_y b) (b_z b)) r.

Lemma near_cut p bs : pset_ok p -> cols p bs -> near (Some r) p = map star_of (filter fb bs).
Proof.
  intros Hp (A & B & C & D & E & F & G). unfold near, stars_of.
  rewrite (pset_ok_Jx _ Hp), (pset_ok_Jy _ Hp), (pset_ok_Jz _ Hp). rewrite A, B, C, D, E, F, G. rewrite !map4_map. clear.
  induction bs as [|b bs IH]; [reflexivity|]. cbn [map stars_from filter s_x s_y s_z]. unfold fb, radius at 1.
  destruct (nlt _ r); cbn [map]; [f_equal|]; exact IH.
Qed.

Lemma Forall2_filter {A B} (P : A -> B -> Prop) f g l m : Forall2 P l m -> (forall x y, In y m -> P x y -> f x = g y) ->
  Forall2 P (filter f l) (filter g m).
Proof.
  induction 1 as [|x y l m H F IH]; intros E; [constructor|]. cbn [filter]. rewrite (E x y (or_introl eq_refl) H).
  specialize (IH (fun x' y' I => E x' y' (or_intror I))). destruct (g y); [constructor|]; auto.
Qed.

Definition margin (q : particle) : Prop := 20000 * u * rad q < Rabs (rad q - c).

Lemma span_pos q : 0 <= 800 * u * span (px q) (py q) (pz q).
Proof.
  destruct (span_ge (px q) (py q) (pz q)) as (H & _). pose proof (bpow_gt_0 radix2 (-100)).
  apply Rmult_le_pos; [|lra]. lra.
Qed.

Lemma reads_inside b q : reads_body RS b q -> bounded q -> margin q -> fb b = inside (Some (XR c)) q.
Proof.
  intros (_ & X & Y & Z & _) HB M.
  apply (radius_cut RS u U U0 U1 _ _ _ (px q) (py q) (pz q) q q r c X Y Z Er); auto;
    (match goal with |- Rabs ?a <= _ => replace a with 0 by ring end); rewrite Rabs_R0; apply span_pos.
Qed.

Lemma turned_inside M q q' : rotation M -> turned_near u M q q' -> bounded q -> margin q -> inside (Some (XR c)) q = inside (Some (XR c)) q'.
Proof.
  intros RM (_ & X & Y & Z & _) HB Mg.
  destruct (radius_cut RX_rounded u (RX_graceful u U0) U0 U1 (XR (px q')) (XR (py q')) (XR (pz q')) (px q') (py q') (pz q') q (rotate M q) (XR c) c
    eq_refl eq_refl eq_refl eq_refl X Y Z (rotate_rad M q RM) HB Hc Mg) as (_ & H).
  unfold inside. apply Bool.eq_true_iff_eq. rewrite !(nlt_iff RX_rounded). cbn. symmetry. exact H.
Qed.

Lemma rotb_inside A M b q : rotation M -> ap_mat RS u 130 A M -> reads_body RS b q -> bounded q -> margin q -> fb (rotb A b) = inside (Some (XR c)) q.
Proof.
  intros RM AM Hb HB Mg.
  destruct (ap_rotb RS u U U0 U1 A M b q AM (reads_ap RS u b q Hb) HB) as (_ & (x & Ex & Bx & _) & (y & Ey & By & _) & (z & Ez & Bz & _) & _).
  assert (G : forall s, 0 <= 800 * u * s -> 266 * u * (3 * s) <= 800 * u * s) by (intros s Hs; nra).
  specialize (G _ (span_pos q)).
  apply (radius_cut RS u U U0 U1 _ _ _ x y z q (rotate M q) r c Ex Ey Ez Er); auto; try (eapply Rle_trans; [eassumption|exact G]).
  now apply rotate_rad.
Qed.
End Main.

(** With a cut-off radius (at least 2^-90) from which every star keeps a distance of 20000 units of rounding, and a clear
    direction of rotation of the stars inside: star_align turns every particle by one rotation up to 800 units of rounding,
    the same stars are inside afterwards, and their angular momentum points along z. *)
Lemma c68_cut : forall (S : Num) (RS : Rounded S) u K, graceful RS u -> 0 < u -> u <= bpow radix2 (-40) -> sums_well RS u K ->
  forall (g : galaxy S) ls ld lg (r : S) c, constructible g -> val RS r = XR c -> bpow radix2 (-90) <= c ->
  reads_set RS (g_stars g) ls -> reads_set RS (g_dm g) ld -> reads_set RS (g_gas g) lg ->
  (forall q, In q ls \/ In q ld \/ In q lg -> bounded q) -> (forall q, In q ls -> 20000 * u * rad q < Rabs (rad q - c)) ->
  let ins := filter (inside (Some (XR c))) ls in clear_spin u (K (length ins)) ins ->
  exists h M ls' ld' lg', star_align g (Some r) = Ok h /\ rotation M /\
    reads_set RS (g_stars h) ls' /\ reads_set RS (g_dm h) ld' /\ reads_set RS (g_gas h) lg' /\
    Forall2 (turned_near u M) ls ls' /\ Forall2 (turned_near u M) ld ld' /\ Forall2 (turned_near u M) lg lg' /\
    Forall2 (fun q q' => inside (Some (XR c)) q = inside (Some (XR c)) q') ls ls' /\
    (let err := 50 * (K (length ins) + 1000) * u * weights ins in
     Rabs (LX (Some (XR c)) ls') <= err /\ Rabs (LY (Some (XR c)) ls') <= err /\
     Rabs (LZ (Some (XR c)) ls' - Lnorm (Some (XR c)) ls) <= err).
Proof.
  intros S RS u K U U0 U1 UK g ls ld lg r c Hg Er Hc Rs Rd Rg HB Mg ins CS. apply constructible_ok in Hg.
  destruct (reads_cols RS _ _ Rs) as (bs & Cs & Fs). destruct (reads_cols RS _ _ Rd) as (bd & Cd & Fd). destruct (reads_cols RS _ _ Rg) as (bg & Cg & Fg).
  assert (gs : pset_ok (g_stars g)) by (apply gal_ok_facts in Hg; now destruct Hg).
  assert (Fi : Forall2 (reads_body RS) (filter (fb r) bs) ins).
  { apply Forall2_filter; [exact Fs|]. intros b q Hq Hb. apply (reads_inside RS u U U0 U1 r c Er Hc); auto. apply Mg, Hq. }
  destruct (core RS u K U U0 U1 UK ins _ Fi CS) as (M & Q & RM & AM & B1 & B2 & B3 & B4 & _).
  assert (GM : gal_matrix g (Some r) = total_matrix (filter (fb r) bs)).
  { rewrite gal_matrix_near by exact Hg. now rewrite (near_cut r (g_stars g) bs gs Cs). }
  rewrite <- GM in AM. pose proof (clear_nonempty u _ _ CS) as NE. destruct CS as (HBs & HN & HK & _).
  destruct (turned_reads RS u U U0 U1 _ M _ bs ls AM Cs Fs ltac:(auto)) as (ls' & Rs' & Ts).
  destruct (turned_reads RS u U U0 U1 _ M _ bd ld AM Cd Fd ltac:(auto)) as (ld' & Rd' & Td).
  destruct (turned_reads RS u U U0 U1 _ M _ bg lg AM Cg Fg ltac:(auto)) as (lg' & Rg' & Tg).
  exists (rot_gal (gal_matrix g (Some r)) g), M, ls', ld', lg'.
  assert (HP : 0 < c) by (pose proof (bpow_gt_0 radix2 (-90)); lra).
  split.
  { rewrite star_align_eq by exact Hg. replace (cut_ok (Some r)) with true; [reflexivity|]. symmetry. unfold cut_ok. apply Bool.negb_true_iff.
    apply (nle_false RS). rewrite Er, (val_n0 RS). cbn. lra. }
  do 7 (split; [assumption|]).
  assert (TI : forall q q', In q ls -> turned_near u M q q' -> inside (Some (XR c)) q = inside (Some (XR c)) q').
  { intros q q' Hq T. apply (turned_inside u U0 U1 c Hc M q q' RM T); [auto|apply Mg, Hq]. }
  split.
  { clear - Ts TI. induction Ts as [|q q' l l' T Ts IH]; constructor; [apply TI; [now left|exact T]|]. apply IH. intros p p' Hp. apply TI. now right. }
  assert (Ti : Forall2 (turned_near u M) ins (filter (inside (Some (XR c))) ls')).
  { clear - Ts TI. subst ins. induction Ts as [|q q' l l' T Ts IH]; [constructor|]. cbn [filter]. rewrite <- (TI q q' (or_introl eq_refl) T).
    specialize (IH (fun p p' Hp => TI p p' (or_intror Hp))). destruct (inside (Some (XR c)) q); [constructor|]; auto. }
  destruct (turned_total u U0 U1 M ins _ Ti RM HBs HN NE) as (T1 & T2 & T3).
  assert (LI : forall l, LX None (filter (inside (Some (XR c))) l) = LX (Some (XR c)) l /\
     LY None (filter (inside (Some (XR c))) l) = LY (Some (XR c)) l /\ LZ None (filter (inside (Some (XR c))) l) = LZ (Some (XR c)) l).
  { intros l. unfold LX, LY, LZ. rewrite inside_none. auto. }
  destruct (LI ls') as (L1 & L2 & L3). rewrite L1 in T1. rewrite L2 in T2. rewrite L3 in T3.
  assert (LN : Lnorm None ins = Lnorm (Some (XR c)) ls).
  { destruct (LI ls) as (L4 & L5 & L6). unfold Lnorm, ins. now rewrite L4, L5, L6. }
  rewrite LN in B4.
  assert (uW : 0 <= u * weights ins) by (apply Rmult_le_pos; [lra|apply weights_range; exact HBs]).
  set (k := K (length ins)) in *.
  assert (E : 40000 * u * weights ins + 6 * ((20 + 4 * k) * u * weights ins) <= 50 * (k + 1000) * u * weights ins) by nra.
  assert (E2 : 0 <= (20 + 4 * k) * u * weights ins) by nra.
  apply Rabs_le_inv in T1, T2, T3, B1, B2, B3, B4.
  cbv zeta. repeat split; apply Rabs_le; lra.
Qed.

(** Such a galaxy is found aligned, with the same cut-off. *)
Lemma c68_cut_aligned : forall (S : Num) (RS : Rounded S) u K, graceful RS u -> 0 < u -> u <= bpow radix2 (-40) -> sums_well RS u K ->
  forall (g : galaxy S) ls (r : S) c (rtol atol : S) rt at', constructible g -> val RS r = XR c -> bpow radix2 (-90) <= c ->
  reads_set RS (g_stars g) ls -> (forall q, In q ls -> bounded q /\ 20000 * u * rad q < Rabs (rad q - c)) ->
  (let ins := filter (inside (Some (XR c))) ls in clear_spin u (K (length ins)) ins) ->
  val RS rtol = XR rt -> / 1000000 <= rt -> val RS atol = XR at' -> 0 <= at' ->
  exists h, star_align g (Some r) = Ok h /\ is_star_aligned h (Some r) rtol atol = Ok true.
Proof.
  intros S RS u K U U0 U1 UK g ls r c rtol atol rt at' Hg Er Hc Rs HB CS Ert Hrt Eat Hat. apply constructible_ok in Hg. cbv zeta in CS.
  set (ins := filter (inside (Some (XR c))) ls) in *.
  destruct (reads_cols RS _ _ Rs) as (bs & Cs & Fs).
  assert (gs : pset_ok (g_stars g)) by (apply gal_ok_facts in Hg; now destruct Hg).
  assert (Fi : Forall2 (reads_body RS) (filter (fb r) bs) ins).
  { apply Forall2_filter; [exact Fs|]. intros b q Hq Hb. apply (reads_inside RS u U U0 U1 r c Er Hc); auto; apply HB, Hq. }
  destruct (core RS u K U U0 U1 UK ins _ Fi CS) as (M & Q & RM & AM & B1 & B2 & B3 & B4 & B5).
  assert (GM : gal_matrix g (Some r) = total_matrix (filter (fb r) bs)).
  { rewrite gal_matrix_near by exact Hg. now rewrite (near_cut r (g_stars g) bs gs Cs). }
  rewrite <- GM in AM. pose proof (clear_nonempty u _ _ CS) as NE. destruct CS as (HBs & HN & HK & C1 & _).
  assert (HP : 0 < c) by (pose proof (bpow_gt_0 radix2 (-90)); lra).
  exists (rot_gal (gal_matrix g (Some r)) g). split.
  { rewrite star_align_eq by exact Hg. replace (cut_ok (Some r)) with true; [reflexivity|]. symmetry. unfold cut_ok. apply Bool.negb_true_iff.
    apply (nle_false RS). rewrite Er, (val_n0 RS). cbn. lra. }
  rewrite is_star_aligned_eq by (apply rot_gal_ok; exact Hg). cbn [rot_gal g_stars].
  rewrite (near_cut r _ _ (rot_set_ok _ _ gs) (cols_rot (gal_matrix g (Some r)) _ _ Cs)).
  replace (filter (fb r) (map (rotb (gal_matrix g (Some r))) bs)) with (map (rotb (gal_matrix g (Some r))) (filter (fb r) bs)).
  2: { clear - Fs HB RM AM U U0 U1 Er Hc. induction Fs as [|b q bs l Hb Fs IH]; [reflexivity|]. cbn [map filter].
    destruct (HB q (or_introl eq_refl)) as (HBq & Mq).
    rewrite (rotb_inside RS u U U0 U1 r c Er Hc _ M b q RM AM Hb HBq Mq), (reads_inside RS u U U0 U1 r c Er Hc b q Hb HBq Mq).
    specialize (IH (fun p Hp => HB p (or_intror Hp))). destruct (inside (Some (XR c)) q); cbn [map]; [f_equal|]; exact IH. }
  assert (FB : Forall2 (fun b q => ap_body RS u 266 3 b q (rotate M q)) (map (rotb (gal_matrix g (Some r))) (filter (fb r) bs)) ins).
  { clear - Fi AM HBs U U0 U1. induction Fi as [|b q bs' l Hb Fi IH]; [constructor|]. cbn [map]. constructor; [|apply IH; intros q' H'; apply HBs; now right].
    apply ap_rotb; auto; [now apply reads_ap|apply HBs; now left]. }
  destruct (totals RS u K U U0 U1 UK 266 3 (rotate M) _ ins (fun x y => nmul y x) FB HBs HN HK ltac:(lra) ltac:(lra) NE ltac:(auto)) as (a & b & d & Ea & Eb & Ec & Ba & Bb & Bc).
  f_equal. set (k := K (length ins)) in *.
  assert (uW : 0 <= u * weights ins) by (apply Rmult_le_pos; [lra|apply weights_range; exact HBs]).
  apply (check_passes RS u U U0 U1 _ _ _ a b d Q (50 * (k + 1000) * u * weights ins) rtol atol rt at'); auto.
  - apply Rabs_le_inv in Ba, B1. apply Rabs_le. nra.
  - apply Rabs_le_inv in Bb, B2. apply Rabs_le. nra.
  - apply Rabs_le_inv in Bc, B3. apply Rabs_le. nra.
  - apply Rabs_le_inv in B4. nra.
  - split; [eapply Rle_trans; [|apply B5]; apply bpow_le; lia|eapply Rle_trans; [apply B5|]; apply bpow_le; lia].
Qed.

(** The two stars of the example above and a third one outside the cut-off 5. *)
Definition exU_gal : galaxy F64 :=
  mkGal (exT_set STARS [1; 1; 9] [1; -1; 10] [0; 0; 0] [0; 0; 0] [0; 0; 3] [1; -1; 7] [1; -1; 2])%Z
        (exT_set DARK_MATTER [2] [3] [4] [5] [6] [7] [8])%Z (exT_set GAS [] [] [] [] [] [] [])%Z false.
Definition exU_stars : list particle := exT_stars ++ [Part 9 10 0 0 3 7 2].

Example ex_c68_cut :
  (let RS := F64_rounded (seqsum 53 1024 p53 e1024) in let u := / IZR (2 ^ 53) in
   val RS (fZ 5) = XR 5 /\ bpow radix2 (-90) <= 5 /\ reads_set RS (g_stars exU_gal) exU_stars /\
   (forall q, In q exU_stars -> bounded q /\ 20000 * u * rad q < Rabs (rad q - 5)) /\
   filter (inside (Some (XR 5))) exU_stars = exT_stars /\ clear_spin u (2 * INR 2) exT_stars) /\
  constructible exU_gal /\
  (do h <- star_align exU_gal (Some (fZ 5)); is_star_aligned h (Some (fZ 5)) (nlit 1 100000) (nlit 1 100000000)) = Ok true /\
  (do h <- star_align exU_gal (Some (fZ 5)); is_star_aligned h None (nlit 1 100000) (nlit 1 100000000)) = Ok false /\
  is_star_aligned exU_gal (Some (fZ 5)) (nlit 1 100000) (nlit 1 100000000) = Ok false.
Proof.
  assert (R1 : rad (Part 1 1 0 0 0 1 1) = 1) by (unfold rad; cbn; replace (1 * 1 + 0 * 0 + 0 * 0) with (1 * 1) by ring; apply sqrt_square; lra).
  assert (R2 : rad (Part 1 (-1) 0 0 0 (-1) (-1)) = 1) by (unfold rad; cbn; replace (-1 * -1 + 0 * 0 + 0 * 0) with (1 * 1) by ring; apply sqrt_square; lra).
  assert (R3 : rad (Part 9 10 0 0 3 7 2) = 10) by (unfold rad; cbn; replace (10 * 10 + 0 * 0 + 0 * 0) with (10 * 10) by ring; apply sqrt_square; lra).
  split; [|split; [|split; [vm_compute; reflexivity|split; vm_compute; reflexivity]]].
  2: { apply constructible_ok, gal_ok_facts. constructor; try reflexivity. all: apply pset_ok_iff; split; [|reflexivity]; repeat split; intros p; discriminate. }
  cbv zeta. set (RS := F64_rounded _).
  assert (V : forall z, (Z.abs z <= 1024)%Z -> val RS (fZ z) = XR (IZR z)).
  { intros z Hz. unfold fZ. change (nofZ (N:=F64) z) with (nofZ (N:=F64s (seqsum 53 1024 p53 e1024)) z). rewrite (val_ofZ RS). apply (rnd_int RS). pose proof (intmax_pos RS). lia. }
  assert (M : forall zs rs, Forall2 (fun z r => (Z.abs z <= 1024)%Z /\ IZR z = r) zs rs -> map (val RS) (fZs zs) = map XR rs).
  { induction 1 as [|z r zs rs [H1 H2] F IH]; [reflexivity|]. change (fZs (z :: zs)) with (fZ z :: fZs zs). cbn [map]. etransitivity; [exact (f_equal2 cons (V z H1) IH)|]. now rewrite H2. }
  assert (UU : 0 < / IZR (2 ^ 53) <= / 1000000000000).
  { split; [apply Rinv_0_lt_compat, IZR_lt; lia|]. apply Rinv_le_contravar; [lra|apply IZR_le; lia]. }
  split; [now apply V|]. split; [apply Rle_trans with (e 0); [apply bpow_le; lia|simpl; lra]|]. split; [|split; [|split]].
  - repeat split; (etransitivity; [apply M; repeat (constructor; [split; [lia|reflexivity]|]); constructor|reflexivity]).
  - destruct exT_spin as (HB & _). intros q Hq. unfold exU_stars in Hq. apply in_app_or in Hq. destruct Hq as [Hq|[<-|[]]].
    + split; [now apply HB|]. destruct Hq as [<-|[<-|[]]]; [rewrite R1|rewrite R2]; rewrite Rabs_left; lra.
    + split; [|rewrite R3; rewrite Rabs_pos_eq; lra]. assert (E16 : 16 <= e 100) by (apply Rle_trans with (e 4); [simpl; lra|apply bpow_le; lia]).
      assert (E1 : e (-100) <= e 100) by (apply bpow_le; lia).
      unfold bounded, span. cbn [pm px py pz pvx pvy pvz]. rewrite !(Rabs_pos_eq) by lra. repeat split; repeat apply Rmax_lub; lra.
  - unfold exU_stars, exT_stars. cbn [app filter].
    assert (In1 : forall q, rad q < 5 -> inside (Some (XR 5)) q = true) by (intros q H; unfold inside; apply (nlt_iff RX_rounded); exact H).
    assert (Out : forall q, 5 <= rad q -> inside (Some (XR 5)) q = false).
    { intros q H. unfold inside. apply (nlt_false RX_rounded). cbn. lra. }
    rewrite (In1 (Part 1 1 0 0 0 1 1)) by (rewrite R1; lra). rewrite (In1 (Part 1 (-1) 0 0 0 (-1) (-1))) by (rewrite R2; lra).
    rewrite Out by (rewrite R3; lra). reflexivity.
  - exact exT_spin.
Qed.

(** A star too close to the cut-off may be inside before the alignment and outside after it, and then the galaxy is not
    found aligned: here one star of two, at (1, 1, 1), with the cut-off next to its distance. *)
Lemma c68_edge_refuted : exists (g h : galaxy F64) r, constructible g /\ star_align g (Some r) = Ok h /\
  length (near (Some r) (g_stars g)) = 2%nat /\ length (near (Some r) (g_stars h)) = 1%nat /\
  is_star_aligned h (Some r) (nlit 1 100000) (nlit 1 100000000) = Ok false.
Proof.
  set (g := mkGal (exT_set STARS [1; 1] [1; 1] [0; 1] [0; 1] [0; -2] [1; -2] [0; 1])%Z
    (exT_set DARK_MATTER [] [] [] [] [] [] []) (exT_set GAS [] [] [] [] [] [] []) false : galaxy F64).
  set (r := (nsqrt (fZ 3) + nlit (N:=F64) 1 4503599627370496)%num).
  exists g, (rot_gal (gal_matrix g (Some r)) g), r.
  assert (Hg : gal_ok g).
  { apply gal_ok_facts. constructor; try reflexivity. all: apply pset_ok_iff; split; [|reflexivity]; repeat split; intros p; discriminate. }
  split; [apply constructible_ok; exact Hg|]. split.
  { rewrite star_align_eq by exact Hg. replace (cut_ok (Some r)) with true; [reflexivity|vm_compute; reflexivity]. }
  split; [vm_compute; reflexivity|]. split; vm_compute; reflexivity.
Qed.
