(** Property lemmas about centring and aligning one after the other: C93. *)
From Flocq Require Import Core BinarySingleNaN.
From Coq Require Import Lra Lia.
From Verif Require Import Py Num RX F64 Np Df Data DataFacts Center Align Spec Ex DataThms CenterFacts CenterThms AlignFacts AlignThms SpecR SpecAlAcc AlAccFacts AlAccRot AlAccSum AlAccThms SpecCirc CircFacts SpecChain ChainFacts.
Local Open Scope R_scope.
Local Notation e := (bpow radix2).

(** [q1] is [q0] up to the rounding of one subtraction per coordinate. *)
Definition moved_near (u : R) (q0 q1 : particle) : Prop :=
  let d := 2 * u * span (px q0) (py q0) (pz q0) in
  pm q1 = pm q0 /\ Rabs (px q1 - px q0) <= d /\ Rabs (py q1 - py q0) <= d /\ Rabs (pz q1 - pz q0) <= d /\
  pvx q1 = pvx q0 /\ pvy q1 = pvy q0 /\ pvz q1 = pvz q0.
Definition ident : matR := MatR 1 0 0 0 1 0 0 0 1.
Lemma ident_rotation : rotation ident.
Proof. unfold rotation, ident; cbn [m11 m12 m13 m21 m22 m23 m31 m32 m33]. repeat split; ring. Qed.
Lemma ident_rotate q : rotate ident q = q.
Proof. destruct q as [a b c d f g h]. unfold rotate, ident; cbn [m11 m12 m13 m21 m22 m23 m31 m32 m33 pm px py pz pvx pvy pvz]. f_equal; ring. Qed.
Lemma within_bounded q : within q -> bounded q.
Proof. intros (A & B & C). assert (e 99 <= e 100) by (apply bpow_le; lia). repeat split; lra. Qed.
Lemma span_le a b c d : e (-100) <= d -> Rabs a <= d -> Rabs b <= d -> Rabs c <= d -> span a b c <= d.
Proof. intros. unfold span. repeat apply Rmax_lub; auto. Qed.

Section Main.
Context {S : Num} (RS : Rounded S).
Variable u : R.
Hypothesis U : graceful RS u.
Hypothesis U0 : e (-100) <= u.
Hypothesis U1 : u <= e (-40).

Lemma u_pos : 0 < u.
Proof. pose proof (bpow_gt_0 radix2 (-100)). lra. Qed.
Lemma u_small : u <= / 1000000000000.
Proof. eapply Rle_trans; [exact U1|simpl; lra]. Qed.

Lemma reads_back (bs : list (body S)) p l : cols p bs -> Forall2 (reads_body RS) bs l -> reads_set RS p l.
Proof.
  intros (C1 & C2 & C3 & C4 & C5 & C6 & C7) V1. unfold reads_set. rewrite C1, C2, C3, C4, C5, C6, C7.
  assert (G : forall (f : body S -> S) (r : particle -> R), (forall b q, reads_body RS b q -> val RS (f b) = XR (r q)) ->
    map (val RS) (map f bs) = map (fun q => XR (r q)) l).
  { intros f r H. clear - V1 H. induction V1; cbn [map]; [reflexivity|]. f_equal; auto. }
  repeat split; apply G; intros b q Hb; unfold reads_body in Hb; tauto.
Qed.

(** ** Centring *)
Lemma seen_reads p p' l o x0 y0 z0 : reads_set RS p l -> same_but_positions p p' ->
  p_x p' = map (fun a => a - x0)%num (p_x p) -> p_y p' = map (fun a => a - y0)%num (p_y p) -> p_z p' = map (fun a => a - z0)%num (p_z p) ->
  val RS x0 = XR (px o) -> val RS y0 = XR (py o) -> val RS z0 = XR (pz o) ->
  (forall q, In q (map (seen_from o) l) -> within q) ->
  exists l', reads_set RS p' l' /\ Forall2 (moved_near u) (map (seen_from o) l) l'.
Proof.
  intros R (_ & Em & Evx & Evy & Evz & _) X Y Z Ex Ey Ez W. destruct (reads_cols RS _ _ R) as (bs & (C1 & C2 & C3 & C4 & C5 & C6 & C7) & F).
  pose (sh := fun b : body S => Body (b_m b) (b_x b - x0)%num (b_y b - y0)%num (b_z b - z0)%num (b_vx b) (b_vy b) (b_vz b)).
  assert (C : cols p' (map sh bs)).
  { unfold cols. rewrite X, Y, Z, <- Em, <- Evx, <- Evy, <- Evz, C1, C2, C3, C4, C5, C6, C7, !map_map. cbn [sh b_m b_x b_y b_z b_vx b_vy b_vz]. tauto. }
  assert (V : exists l', Forall2 (reads_body RS) (map sh bs) l' /\ Forall2 (moved_near u) (map (seen_from o) l) l').
  { clear - F W Ex Ey Ez U U0 U1. induction F as [|b q bs l Hb F IH]; [exists []; split; constructor|].
    destruct (IH (fun q H => W q (or_intror H))) as (l' & I1 & I2). destruct Hb as (B1 & B2 & B3 & B4 & B5 & B6 & B7).
    specialize (W (seen_from o q) (or_introl eq_refl)). destruct W as (_ & W & _). cbn [seen_from px py pz] in W.
    destruct (span_ge (px q - px o) (py q - py o) (pz q - pz o)) as (S0 & S1 & S2 & S3). set (s := span _ _ _) in *.
    assert (T : tiny <= s /\ s <= huge).
    { unfold tiny, huge. split; [apply Rle_trans with (e (-100)); [apply bpow_le; lia|exact S0]|apply Rle_trans with (e 99); [exact W|apply bpow_le; lia]]. }
    assert (Sub : forall (a b : S) ra rb, val RS a = XR ra -> val RS b = XR rb -> Rabs (ra - rb) <= s ->
      exists v, val RS (a - b)%num = XR v /\ Rabs (v - (ra - rb)) <= 2 * u * s).
    { intros a b0 ra rb Ea Eb H. destruct (U (ra - rb)) as (v & Ev & Bv); [lra|]. exists v. split.
      - rewrite (val_sub RS), Ea, Eb. exact Ev.
      - eapply Rle_trans; [exact Bv|]. pose proof u_pos. assert (u * (Rabs (ra - rb) + tiny) <= u * (2 * s)) by (apply Rmult_le_compat_l; lra). lra. }
    destruct (Sub _ _ _ _ B2 Ex S1) as (vx & E1 & H1). destruct (Sub _ _ _ _ B3 Ey S2) as (vy & E2 & H2). destruct (Sub _ _ _ _ B4 Ez S3) as (vz & E3 & H3).
    exists (Part (pm q) vx vy vz (pvx q) (pvy q) (pvz q) :: l'). cbn [map]. split; constructor; auto.
    - unfold reads_body, sh. cbn [b_m b_x b_y b_z b_vx b_vy b_vz pm px py pz pvx pvy pvz]. tauto.
    - unfold moved_near. cbn [seen_from pm px py pz pvx pvy pvz]. fold s. tauto. }
  destruct V as (l' & V1 & V2). exists l'. split; [|exact V2]. now apply reads_back with (map sh bs).
Qed.

Lemma moved_span q0 q1 : moved_near u q0 q1 -> span (px q1) (py q1) (pz q1) <= (1 + 2 * u) * span (px q0) (py q0) (pz q0).
Proof.
  intros (_ & X & Y & Z & _). destruct (span_ge (px q0) (py q0) (pz q0)) as (S0 & S1 & S2 & S3). set (s := span (px q0) _ _) in *.
  pose proof u_pos. pose proof (bpow_gt_0 radix2 (-100)). assert (0 < u * s) by (apply Rmult_lt_0_compat; lra).
  assert (T : forall a b, Rabs (a - b) <= 2 * u * s -> Rabs b <= s -> Rabs a <= (1 + 2 * u) * s).
  { intros a b A B. replace a with ((a - b) + b) by ring. eapply Rle_trans; [apply Rabs_triang|]. lra. }
  apply span_le; eauto. lra.
Qed.
Lemma moved_bounded q0 q1 : moved_near u q0 q1 -> within q0 -> bounded q1.
Proof.
  intros H (A & B & C). pose proof (moved_span _ _ H) as Sp. unfold bounded. destruct H as (-> & _ & _ & _ & -> & -> & ->).
  assert (E : 2 * e 99 = e 100) by (change 2 with (e 1); rewrite e_add; reflexivity). pose proof (bpow_gt_0 radix2 99). pose proof u_pos. pose proof u_small.
  split; [lra|]. split; [|lra]. eapply Rle_trans; [exact Sp|]. rewrite <- E. apply Rmult_le_compat; try lra.
  destruct (span_ge (px q0) (py q0) (pz q0)) as (S0 & _). pose proof (bpow_gt_0 radix2 (-100)). lra.
Qed.
Lemma moved_weight q0 q1 : moved_near u q0 q1 -> weight q1 <= 2 * weight q0.
Proof.
  intros H. pose proof (moved_span _ _ H) as Sp. destruct H as (Em & _ & _ & _ & Ex & Ey & Ez). unfold weight. rewrite Em, Ex, Ey, Ez.
  destruct (span_ge (px q0) (py q0) (pz q0)) as (S0 & _). destruct (span_ge (pvx q0) (pvy q0) (pvz q0)) as (V0 & _). pose proof (Rmax_l (e (-100)) (Rabs (pm q0))) as M0.
  set (s := span (px q0) _ _) in *. set (s1 := span (px q1) _ _) in *. set (v := span (pvx q0) _ _) in *. set (m := Rmax (e (-100)) (Rabs (pm q0))) in *.
  pose proof (bpow_gt_0 radix2 (-100)). pose proof u_pos. pose proof u_small.
  assert (0 <= m * v) by (apply Rmult_le_pos; lra). assert (s1 <= 2 * s) by (eapply Rle_trans; [exact Sp|apply Rmult_le_compat_r; lra]).
  replace (m * s1 * v) with (m * v * s1) by ring. replace (2 * (m * s * v)) with (m * v * (2 * s)) by ring. now apply Rmult_le_compat_l.
Qed.
Lemma moved_turned q0 q1 : moved_near u q0 q1 -> turned_near u ident q0 q1.
Proof.
  intros (Em & X & Y & Z & Ex & Ey & Ez). unfold turned_near. rewrite ident_rotate, Ex, Ey, Ez.
  destruct (span_ge (px q0) (py q0) (pz q0)) as (S0 & _). destruct (span_ge (pvx q0) (pvy q0) (pvz q0)) as (V0 & _). pose proof (bpow_gt_0 radix2 (-100)). pose proof u_pos.
  assert (0 < u * span (px q0) (py q0) (pz q0)) by (apply Rmult_lt_0_compat; lra). assert (0 < u * span (pvx q0) (pvy q0) (pvz q0)) by (apply Rmult_lt_0_compat; lra).
  assert (D : forall a, Rabs (a - a) = 0) by (intros a; rewrite Rminus_diag_eq by reflexivity; apply Rabs_R0). rewrite !D. cbv zeta. repeat split; try assumption; lra.
Qed.

Lemma moved_lists l0 l1 : Forall2 (moved_near u) l0 l1 -> (forall q, In q l0 -> within q) ->
  Forall2 (turned_near u ident) l0 l1 /\ (forall q, In q l1 -> bounded q) /\ weights l1 <= 2 * weights l0 /\ length l1 = length l0.
Proof.
  induction 1 as [|q0 q1 l0 l1 H F IH]; intros W; [split; [constructor|]; split; [intros q []|]; split; [unfold weights; simpl; lra|reflexivity]|].
  destruct (IH (fun q H => W q (or_intror H))) as (A & B & C & D). split; [constructor; [now apply moved_turned|exact A]|].
  split; [intros q [<-|Hq]; [apply (moved_bounded _ _ H), W; now left|auto]|]. split; [|cbn [length]; congruence].
  pose proof (moved_weight _ _ H). unfold weights in *. cbn [sumR fold_right]. fold (sumR weight l0) (sumR weight l1). lra.
Qed.

Lemma moved_total l0 l1 : Forall2 (moved_near u) l0 l1 -> (forall q, In q l0 -> within q) -> INR (length l0) <= e 20 -> l0 <> [] ->
  let err := 40000 * u * weights l0 in
  Rabs (LX None l1 - LX None l0) <= err /\ Rabs (LY None l1 - LY None l0) <= err /\ Rabs (LZ None l1 - LZ None l0) <= err.
Proof.
  intros F W HN NE. destruct (moved_lists l0 l1 F W) as (T & _). pose proof u_pos as Up.
  pose proof (turned_total u Up U1 ident l0 l1 T ident_rotation (fun q H => within_bounded q (W q H)) HN NE) as B.
  rewrite (map_ext _ (fun q => q) ident_rotate), map_id in B. exact B.
Qed.
Lemma Lnorm_close l0 l1 err : Rabs (LX None l1 - LX None l0) <= err -> Rabs (LY None l1 - LY None l0) <= err -> Rabs (LZ None l1 - LZ None l0) <= err ->
  Rabs (Lnorm None l1 - Lnorm None l0) <= 3 * err.
Proof.
  intros A B C. pose proof (nrm_diff (LX None l1) (LY None l1) (LZ None l1) (LX None l0) (LY None l0) (LZ None l0)) as D1.
  pose proof (nrm_diff (LX None l0) (LY None l0) (LZ None l0) (LX None l1) (LY None l1) (LZ None l1)) as D2.
  rewrite (Rabs_minus_sym (LX None l0)), (Rabs_minus_sym (LY None l0)), (Rabs_minus_sym (LZ None l0)) in D2.
  change (nrm (LX None l0) (LY None l0) (LZ None l0)) with (Lnorm None l0) in *. change (nrm (LX None l1) (LY None l1) (LZ None l1)) with (Lnorm None l1) in *.
  apply Rabs_le. lra.
Qed.
Lemma Lplane_close l0 l1 err : Rabs (LX None l1 - LX None l0) <= err -> Rabs (LY None l1 - LY None l0) <= err -> Lplane l0 <= Lplane l1 + 2 * err.
Proof.
  intros A B. pose proof (nrm_diff (LX None l0) (LY None l0) 0 (LX None l1) (LY None l1) 0) as D.
  rewrite (Rabs_minus_sym (LX None l0)), (Rabs_minus_sym (LY None l0)), Rminus_0_r, Rabs_R0 in D.
  assert (P : forall l, Lplane l = nrm (LX None l) (LY None l) 0) by (intros l; unfold Lplane, nrm; f_equal; ring). rewrite !P. lra.
Qed.
Lemma strong_nonempty k l : strong_spin u k l -> l <> [].
Proof.
  intros (_ & _ & HK & _ & P) ->. unfold Lplane, LX, LY, weights in P. cbn [filter sumR fold_right] in P.
  replace (0 * 0 + 0 * 0) with 0 in P by ring. rewrite sqrt_0 in P. pose proof (bpow_gt_0 radix2 (-389)). lra.
Qed.
Lemma weights_pos l : (forall q, In q l -> within q) -> 0 <= weights l.
Proof. intros W. apply weights_range. intros q H. now apply within_bounded, W. Qed.
Lemma strong_clear k l0 l1 : Forall2 (moved_near u) l0 l1 -> strong_spin u k l0 -> clear_spin u k l1.
Proof.
  intros F HS. pose proof (strong_nonempty _ _ HS) as NE. destruct HS as (W & HN & HK & A & B). pose proof u_pos as Up.
  destruct (moved_lists l0 l1 F W) as (_ & B1 & Ww & Hl). destruct (moved_total l0 l1 F W HN NE) as (X & Y & Z).
  pose proof (Rabs_le_inv _ _ (Lnorm_close l0 l1 _ X Y Z)) as Nc. pose proof (Lplane_close l0 l1 _ X Y) as Pc.
  pose proof (weights_pos l0 W) as W0. assert (uW : 0 <= u * weights l0) by (apply Rmult_le_pos; lra).
  assert (uW1 : u * weights l1 <= 2 * (u * weights l0)) by (pose proof (Rmult_le_compat_l u _ _ (Rlt_le _ _ Up) Ww); lra).
  split; [exact B1|]. split; [now rewrite Hl|]. split; [exact HK|].
  assert (E : e (-390) <= e (-389)) by (apply bpow_le; lia). split.
  - apply Rle_trans with (100000 * (k + 1000) * (2 * (u * weights l0))); [rewrite Rmult_assoc; apply Rmult_le_compat_l; lra|].
    set (t := u * weights l0) in *. replace (300000 * (k + 1000) * u * weights l0) with (300000 * (k + 1000) * t) in A by (unfold t; ring).
    replace (3 * (40000 * u * weights l0)) with (120000 * t) in Nc by (unfold t; ring). nra.
  - apply Rle_trans with (e (-390) + 100 * (k + 10) * (2 * (u * weights l0))); [apply Rplus_le_compat_l; rewrite Rmult_assoc; apply Rmult_le_compat_l; lra|].
    set (t := u * weights l0) in *. replace (300 * (k + 1000) * u * weights l0) with (300 * (k + 1000) * t) in B by (unfold t; ring).
    replace (2 * (40000 * u * weights l0)) with (80000 * t) in Pc by (unfold t; ring). nra.
Qed.

(** ** Centring, then turning *)
Lemma both_near M q0 q1 q2 : rotation M -> moved_near u q0 q1 -> turned_near u M q1 q2 ->
  let t := rotate M q0 in let dx := 810 * u * span (px q0) (py q0) (pz q0) in let dv := 810 * u * span (pvx q0) (pvy q0) (pvz q0) in
  pm q2 = pm q0 /\ Rabs (px q2 - px t) <= dx /\ Rabs (py q2 - py t) <= dx /\ Rabs (pz q2 - pz t) <= dx /\
  Rabs (pvx q2 - pvx t) <= dv /\ Rabs (pvy q2 - pvy t) <= dv /\ Rabs (pvz q2 - pvz t) <= dv.
Proof.
  intros (R1 & R2 & R3 & _) H (Tm & Tx & Ty & Tz & Tvx & Tvy & Tvz). pose proof (moved_span _ _ H) as Sp.
  apply entry_le in R1, R2, R3. destruct H as (Em & X & Y & Z & Evx & Evy & Evz).
  destruct (span_ge (px q0) (py q0) (pz q0)) as (S0 & _). destruct (span_ge (pvx q0) (pvy q0) (pvz q0)) as (V0 & _).
  cbn [rotate pm px py pz pvx pvy pvz] in *. rewrite Evx, Evy, Evz in *. set (s := span (px q0) _ _) in *. set (s1 := span (px q1) _ _) in *. set (v := span (pvx q0) _ _) in *.
  pose proof (bpow_gt_0 radix2 (-100)). pose proof u_pos. pose proof u_small. assert (us : 0 < u * s) by (apply Rmult_lt_0_compat; lra). assert (uv : 0 < u * v) by (apply Rmult_lt_0_compat; lra).
  assert (us1 : u * s1 <= 1001 / 1000 * (u * s)).
  { replace (1001 / 1000 * (u * s)) with (u * (1001 / 1000 * s)) by ring. apply Rmult_le_compat_l; [lra|]. eapply Rle_trans; [exact Sp|]. apply Rmult_le_compat_r; lra. }
  assert (G : forall w a b c, Rabs a <= 1 -> Rabs b <= 1 -> Rabs c <= 1 -> Rabs (w - (a * px q1 + b * py q1 + c * pz q1)) <= 800 * u * s1 ->
    Rabs (w - (a * px q0 + b * py q0 + c * pz q0)) <= 810 * u * s).
  { intros w a b c A B C D. replace (w - (a * px q0 + b * py q0 + c * pz q0)) with
      ((w - (a * px q1 + b * py q1 + c * pz q1)) + (a * (px q1 - px q0) + b * (py q1 - py q0) + c * (pz q1 - pz q0))) by ring.
    eapply Rle_trans; [apply Rabs_triang|]. pose proof (comb3 a b c _ _ _ _ A B C X Y Z). lra. }
  cbv zeta. split; [congruence|]. split; [apply G; tauto|]. split; [apply G; tauto|]. split; [apply G; tauto|]. repeat split; lra.
Qed.

Lemma both_body M q0 q1 q2 (b : body S) : rotation M -> moved_near u q0 q1 -> turned_near u M q1 q2 -> reads_body RS b q2 ->
  ap_body RS u 270 3 b q0 (rotate M q0).
Proof.
  intros RM H T (B1 & B2 & B3 & B4 & B5 & B6 & B7). destruct (both_near M q0 q1 q2 RM H T) as (Em & X & Y & Z & VX & VY & VZ).
  destruct RM as (R1 & R2 & R3 & _). apply entry_le in R1, R2, R3.
  destruct (span_ge (px q0) (py q0) (pz q0)) as (S0 & S1 & S2 & S3). destruct (span_ge (pvx q0) (pvy q0) (pvz q0)) as (V0 & V1 & V2 & V3).
  unfold ap_body, ap. rewrite Em in B1.
  split; [exists (pm q0); split; [exact B1|]; split; [cbn [rotate pm]; replace (pm q0 - pm q0) with 0 by ring; rewrite Rabs_R0; lra|apply Rmax_r]|].
  assert (G : forall s a b, Rabs (a - b) <= 810 * u * s -> Rabs (a - b) <= 270 * u * (3 * s)) by (intros s a b' H'; lra).
  repeat (split; [eexists; split; [eassumption|]; split; [apply G; assumption|cbn [rotate px py pz pvx pvy pvz]; apply comb3; tauto]|]).
  eexists; split; [eassumption|]; split; [apply G; assumption|cbn [rotate px py pz pvx pvy pvz]; apply comb3; tauto].
Qed.

Lemma spans_range q : bounded q -> e (-200) <= reach q <= e 200 /\ e (-100) <= span (pvx q) (pvy q) (pvz q) <= e 100.
Proof.
  intros (_ & GX & GV). destruct (span_ge (px q) (py q) (pz q)) as (LX0 & _). destruct (span_ge (pvx q) (pvy q) (pvz q)) as (LV0 & _).
  pose proof (bpow_gt_0 radix2 (-100)). split; [|lra]. unfold reach.
  change (-200)%Z with (-100 + -100)%Z. change 200%Z with (100 + 100)%Z. rewrite <- !e_add. split; apply Rmult_le_compat; lra.
Qed.
Lemma some_scale t lo hi c : e lo <= t <= e hi -> (-800 <= lo)%Z -> (hi <= 800)%Z -> 1 <= c <= 512 -> scale (c * t).
Proof.
  intros Ht Hlo Hhi Hc. pose proof (bpow_gt_0 radix2 lo). apply scale_between with lo (hi + 9)%Z; [|lia..]. rewrite <- e_add. replace (e 9) with 512 by (simpl; lra).
  pose proof (Rmult_le_compat_r t 1 c ltac:(lra) ltac:(lra)). pose proof (Rmult_le_compat_r t c 512 ltac:(lra) ltac:(lra)). lra.
Qed.
Lemma spin_ap (b : body S) q0 q : ap_body RS u 270 3 b q0 q -> bounded q0 ->
  ap RS u 1084 (18 * reach q0) (b_jx b) (lx q) /\ ap RS u 1084 (18 * reach q0) (b_jy b) (ly q) /\ ap RS u 1084 (18 * reach q0) (b_jz b) (lz q).
Proof.
  intros (_ & Hx & Hy & Hz & Hvx & Hvy & Hvz) HB. destruct (spans_range q0 HB) as (HR & _). pose proof u_pos as Up.
  set (X := 3 * span (px q0) _ _) in *. set (V := 3 * span (pvx q0) _ _) in *.
  assert (XV : X * V = 9 * reach q0) by (unfold X, V, reach; ring).
  assert (Mul : forall p v rp rv, ap RS u 270 X p rp -> ap RS u 270 V v rv -> ap RS u 1082 (X * V) (p * v)%num (rp * rv)).
  { intros p v rp rv A B. replace 1082 with (2 * 270 + 2 * 270 + 2) by ring. apply ap_mul; auto; try lra.
    - rewrite XV. apply some_scale with (-200)%Z 200%Z; auto; try lia; lra.
    - apply small; auto; lra. }
  replace (18 * reach q0) with (X * V + X * V) by (rewrite XV; ring). replace 1084 with (1082 + 2) by ring.
  assert (SC : scale (X * V + X * V)) by (rewrite XV; replace (9 * reach q0 + 9 * reach q0) with (18 * reach q0) by ring; apply some_scale with (-200)%Z 200%Z; auto; try lia; lra).
  assert (KU : 1082 * u <= / 4) by (apply small; auto; lra).
  unfold b_jx, b_jy, b_jz, lx, ly, lz. split; [|split]; apply ap_sub; auto.
Qed.
Lemma kin_ap (b : body S) q0 q : ap_body RS u 270 3 b q0 q -> bounded q0 ->
  ap RS u 2178 (27 * (span (pvx q0) (pvy q0) (pvz q0) * span (pvx q0) (pvy q0) (pvz q0))) (kin (b_vx b) (b_vy b) (b_vz b)) (kinr q).
Proof.
  intros (_ & _ & _ & _ & Hvx & Hvy & Hvz) HB. destruct (spans_range q0 HB) as (_ & HV). pose proof u_pos as Up.
  set (v := span (pvx q0) _ _) in *.
  assert (VV : e (-200) <= v * v <= e 200).
  { pose proof (bpow_gt_0 radix2 (-100)). change (-200)%Z with (-100 + -100)%Z. change 200%Z with (100 + 100)%Z. rewrite <- !e_add. split; apply Rmult_le_compat; lra. }
  assert (Sc : forall c, 1 <= c <= 512 -> scale (c * (v * v))) by (intros c Hc; apply some_scale with (-200)%Z 200%Z; auto; lia).
  assert (Sq : forall w rw, ap RS u 270 (3 * v) w rw -> ap RS u 1082 (9 * (v * v)) (w * w)%num (rw * rw)).
  { intros w rw A. replace 1082 with (2 * 270 + 2 * 270 + 2) by ring. replace (9 * (v * v)) with (3 * v * (3 * v)) by ring.
    apply ap_mul; auto; try lra; [replace (3 * v * (3 * v)) with (9 * (v * v)) by ring; apply Sc; lra|apply small; auto; lra]. }
  assert (A2 : ap RS u 1084 (18 * (v * v)) (b_vx b * b_vx b + b_vy b * b_vy b)%num (pvx q * pvx q + pvy q * pvy q)).
  { replace 1084 with (1082 + 2) by ring. replace (18 * (v * v)) with (9 * (v * v) + 9 * (v * v)) by ring. apply ap_add; auto; [|apply small; auto; lra].
    replace (9 * (v * v) + 9 * (v * v)) with (18 * (v * v)) by ring. apply Sc; lra. }
  assert (A3 : ap RS u 1086 (27 * (v * v)) (b_vx b * b_vx b + b_vy b * b_vy b + b_vz b * b_vz b)%num (pvx q * pvx q + pvy q * pvy q + pvz q * pvz q)).
  { replace 1086 with (1084 + 2) by ring. replace (27 * (v * v)) with (18 * (v * v) + 9 * (v * v)) by ring. apply ap_add; auto; [| |apply small; auto; lra].
    - apply (ap_weaken RS u Up 1082 1084 (9 * (v * v))); auto; lra.
    - replace (18 * (v * v) + 9 * (v * v)) with (27 * (v * v)) by ring. apply Sc; lra. }
  assert (H : ap RS u 2 1 (nlit 1 2) (/ 2)).
  { replace 2 with (0 + 2) at 1 by ring. apply ap_round with (t := / 2); auto; try lra.
    - apply scale_between with 0%Z 0%Z; [simpl; lra|lia..].
    - unfold nlit. rewrite (val_div RS); rewrite !(val_small RS) by lia; [|intros [=]; lra]. unfold xdiv. destruct (Req_EM_T 2 0); [lra|]. do 2 f_equal. lra.
    - replace (/ 2 - / 2) with 0 by ring. rewrite Rabs_R0. lra.
    - rewrite Rabs_pos_eq; lra. }
  unfold kin, kinr. replace (27 * (v * v)) with (1 * (27 * (v * v))) by ring. replace 2178 with (2 * 2 + 2 * 1086 + 2) by ring.
  replace ((pvx q * pvx q + pvy q * pvy q + pvz q * pvz q) / 2) with (/ 2 * (pvx q * pvx q + pvy q * pvy q + pvz q * pvz q)) by lra.
  apply ap_mul; auto; try lra; [rewrite Rmult_1_l; apply Sc; lra|apply small; auto; lra].
Qed.

(** Root of a sum of two squares, also when both are tiny. *)
Lemma root_ap (x y : S) a b T : val RS x = XR a -> val RS y = XR b -> Rabs a <= T -> Rabs b <= T -> e (-200) <= T <= e 300 ->
  exists s, val RS (nsqrt (x * x + y * y)%num) = XR s /\ Rabs (s - nrm a b 0) <= 20 * u * T.
Proof.
  intros Ex Ey Ba Bb HT. pose proof u_pos as Up. set (P := nrm a b 0). pose proof (bpow_gt_0 radix2 (-200)) as T0.
  assert (PP : P * P = a * a + b * b) by (unfold P; rewrite nrm_sq; ring). destruct (nrm_ge a b 0) as (Pa & Pb & _). fold P in Pa, Pb.
  assert (P2 : P <= 2 * T).
  { apply nrm_le; auto; [lra|rewrite Rabs_R0; lra]. }
  destruct (Rle_or_lt (e (-400)) P) as [HP|HP].
  - pose proof (bpow_gt_0 radix2 (-400)) as P0.
    assert (HPP : forall v, P * P <= v <= 4 * (P * P) -> scale v).
    { intros v Hv. apply scale_between with (-800)%Z 700%Z; [|lia..].
      assert (e (-800) <= P * P) by (change (-800)%Z with (-400 + -400)%Z; rewrite <- e_add; apply Rmult_le_compat; lra).
      assert (P <= e 301) by (change 301%Z with (1 + 300)%Z; rewrite <- e_add; simpl (e 1); lra).
      assert (P * P <= e 602) by (change 602%Z with (301 + 301)%Z; rewrite <- e_add; apply Rmult_le_compat; lra).
      assert (4 * e 602 <= e 700) by (apply Rle_trans with (e 604); [change 604%Z with (2 + 602)%Z; rewrite <- e_add; simpl (e 2); lra|apply bpow_le; lia]). lra. }
    assert (SP : scale P).
    { apply scale_between with (-400)%Z 301%Z; [|lia..]. change 301%Z with (1 + 300)%Z. rewrite <- e_add. simpl (e 1). lra. }
    assert (Sq : forall j r, val RS j = XR r -> Rabs r <= P -> ap RS u 2 (P * P) (j * j)%num (r * r)).
    { intros j r Hj Hr. pose proof (ap_exact RS u P j r Hj Hr). replace 2 with (2 * 0 + 2 * 0 + 2) by ring.
      apply ap_mul; auto; try lra; first [apply small; auto; lra|apply HPP; nra]. }
    assert (Z2 : ap RS u 4 (P * P + P * P) (x * x + y * y)%num (a * a + b * b)).
    { replace 4 with (2 + 2) by ring. apply ap_add; auto; first [apply small; auto; lra|apply HPP; nra]. }
    assert (Z3 : ap RS u 10 P (nsqrt (x * x + y * y)%num) P).
    { replace 10 with (8 + 2) by ring. apply ap_sqrt; auto; [|lra|apply small; auto; lra]. rewrite <- PP in Z2. destruct Z2 as (v & E & Bv & _).
      exists v. split; [exact E|]. split; [lra|]. rewrite Rabs_pos_eq; nra. }
    destruct Z3 as (s & Es & Bs & _). exists s. split; [exact Es|]. eapply Rle_trans; [exact Bs|].
    assert (u * P <= u * (2 * T)) by (apply Rmult_le_compat_l; lra). lra.
  - pose proof (bpow_gt_0 radix2 (-800)) as E8. assert (Ty : 0 < tiny <= e (-800)) by (unfold tiny; split; [apply bpow_gt_0|apply bpow_le; lia]).
    pose proof u_small as Us. assert (Hg : e (-390) <= huge) by (unfold huge; apply bpow_le; lia).
    assert (E9 : 100 * e (-800) <= e (-390)).
    { apply Rle_trans with (e 7 * e (-800)); [apply Rmult_le_compat_r; [lra|simpl; lra]|]. rewrite e_add. apply bpow_le; lia. }
    assert (Rn : forall r, 0 <= r <= 50 * e (-800) -> exists v, rnd RS (XR r) = XR v /\ 0 <= v <= r + u * (r + tiny)).
    { intros r Hr. destruct (U r) as (v & Ev & Bv); [rewrite Rabs_pos_eq; lra|]. exists v. split; [exact Ev|]. rewrite (Rabs_pos_eq r) in Bv by lra.
      apply Rabs_le_inv in Bv. split; [|lra].
      pose proof (rnd_mono RS (XR 0) (XR r)) as Mo. cbn [xle] in Mo. specialize (Mo ltac:(lra)). pose proof (rnd_int RS 0%Z) as R0. rewrite R0 in Mo by (pose proof (intmax_pos RS); cbn; lia). rewrite Ev in Mo. exact Mo. }
    assert (Sq : forall r, Rabs r <= P -> 0 <= r * r <= e (-800)).
    { intros r Hr. split; [apply Rle_0_sqr|]. rewrite <- (Rabs_pos_eq (r * r)) by apply Rle_0_sqr. rewrite Rabs_mult.
      change (-800)%Z with (-400 + -400)%Z. rewrite <- e_add. apply Rmult_le_compat; auto using Rabs_pos; lra. }
    pose proof (Sq a Pa). pose proof (Sq b Pb).
    assert (Us8 : forall t, 0 <= t <= 100 * e (-800) -> u * t <= e (-800)).
    { intros t Ht. apply Rle_trans with (/ 1000000000000 * (100 * e (-800))); [apply Rmult_le_compat; lra|lra]. }
    destruct (Rn (a * a) ltac:(lra)) as (va & Eva & Va). destruct (Rn (b * b) ltac:(lra)) as (vb & Evb & Vb).
    pose proof (Us8 (a * a + tiny) ltac:(lra)). pose proof (Us8 (b * b + tiny) ltac:(lra)).
    destruct (Rn (va + vb) ltac:(lra)) as (vs & Evs & Vs). pose proof (Us8 (va + vb + tiny) ltac:(lra)).
    assert (Q : 0 <= sqrt vs <= e (-398)).
    { split; [apply sqrt_pos|]. rewrite <- (sqrt_square (e (-398))) by (left; apply bpow_gt_0). apply sqrt_le_1_alt. rewrite e_add.
      apply Rle_trans with (e 4 * e (-800)); [simpl (e 4); lra|]. rewrite e_add. apply bpow_le; lia. }
    assert (e (-398) <= e (-390)) by (apply bpow_le; lia).
    destruct (U (sqrt vs)) as (s & Es & Bs); [rewrite Rabs_pos_eq; lra|]. exists s. split.
    + rewrite (val_sqrt RS), (val_add RS), !(val_mul RS), Ex, Ey. cbn [xmul]. rewrite Eva, Evb. cbn [xadd]. rewrite Evs. cbn [xsqrt].
      destruct (Rlt_dec vs 0); [lra|exact Es].
    + rewrite (Rabs_pos_eq (sqrt vs)) in Bs by lra. apply Rabs_le_inv in Bs.
      assert (e (-800) <= e (-398)) by (apply bpow_le; lia).
      assert (u * (sqrt vs + tiny) <= 1 * (e (-398) + e (-398))) by (apply Rmult_le_compat; lra).
      assert (e (-400) <= e (-398)) by (apply bpow_le; lia).
      assert (4 * e (-398) <= u * T).
      { apply Rle_trans with (e (-100) * e (-200)); [|apply Rmult_le_compat; try lra; left; apply bpow_gt_0].
        change 4 with (e 2). rewrite !e_add. apply bpow_le; lia. }
      assert (0 <= P) by apply nrm_pos. assert (0 <= u * T) by (apply Rmult_le_pos; lra). apply Rabs_le. lra.
Qed.

Lemma spin_le q : Rabs (lx q) <= 2 * reach q /\ Rabs (ly q) <= 2 * reach q /\ Rabs (lz q) <= 2 * reach q.
Proof.
  destruct (span_ge (px q) (py q) (pz q)) as (_ & X1 & X2 & X3). destruct (span_ge (pvx q) (pvy q) (pvz q)) as (_ & V1 & V2 & V3).
  assert (G : forall x y v w, Rabs x <= span (px q) (py q) (pz q) -> Rabs y <= span (px q) (py q) (pz q) ->
    Rabs v <= span (pvx q) (pvy q) (pvz q) -> Rabs w <= span (pvx q) (pvy q) (pvz q) -> Rabs (x * v - y * w) <= 2 * reach q).
  { intros x y v w X Y V W. replace (x * v - y * w) with (x * v + - (y * w)) by ring. eapply Rle_trans; [apply Rabs_triang|]. rewrite Rabs_Ropp, !Rabs_mult. unfold reach.
    pose proof (Rmult_le_compat _ _ _ _ (Rabs_pos x) (Rabs_pos v) X V). pose proof (Rmult_le_compat _ _ _ _ (Rabs_pos y) (Rabs_pos w) Y W). lra. }
  unfold lx, ly, lz. auto.
Qed.

Lemma one_near k l0 M q0 (b : body S) (o : orbit S) : rotation M -> strong_spin u k l0 ->
  let D := 420 * (k + 1000) * u * weights l0 in
  Rabs (m11 M * LX None l0 + m12 M * LY None l0 + m13 M * LZ None l0) <= D ->
  Rabs (m21 M * LX None l0 + m22 M * LY None l0 + m23 M * LZ None l0) <= D ->
  Rabs (m31 M * LX None l0 + m32 M * LY None l0 + m33 M * LZ None l0 - Lnorm None l0) <= D ->
  ap_body RS u 270 3 b q0 (rotate M q0) -> within q0 ->
  o_jx o = b_jx b -> o_jy o = b_jy b -> o_jz o = b_jz b -> orbit_near RS u k l0 o q0.
Proof.
  intros RM HS D Dx Dy Dz HB W0 Jx Jy Jz. pose proof u_pos as Up. pose proof (strong_nonempty _ _ HS) as NE. destruct HS as (W & HN & HK & A & _).
  destruct (weights_range l0 (fun q H => within_bounded q (W q H))) as (Wp & _). specialize (Wp NE).
  pose proof (bpow_gt_0 radix2 (-300)) as P3. assert (W1 : 0 < weights l0) by lra. pose proof (Lnorm_le l0) as L6.
  assert (N0 : 0 < Lnorm None l0).
  { eapply Rlt_le_trans; [|exact A]. repeat apply Rmult_lt_0_compat; lra. }
  apply within_bounded in W0. destruct (spans_range q0 W0) as (HR & _). pose proof (bpow_gt_0 radix2 (-200)) as P2. assert (R0 : 0 < reach q0) by lra.
  destruct (spin_ap b q0 _ HB W0) as ((jx & Ex & Bx & Lx) & (jy & Ey & By & Ly) & (jz & Ez & Bz & Lz)).
  set (r := weights l0 / Lnorm None l0) in *.
  assert (Hr : / 6 <= r).
  { unfold r, Rdiv. apply Rmult_le_reg_r with (Lnorm None l0); [exact N0|]. rewrite Rmult_assoc, Rinv_l, Rmult_1_r by lra. lra. }
  set (E := spin_error u k l0 q0).
  assert (uR : 0 < u * reach q0) by (apply Rmult_lt_0_compat; lra).
  assert (HE : 166 * (u * reach q0) <= E).
  { unfold E, spin_error. fold r. replace ((k + 1000) * u * r * reach q0) with ((k + 1000) * r * (u * reach q0)) by ring.
    apply Rmult_le_compat_r; [lra|]. apply Rle_trans with (1000 * / 6); [lra|]. apply Rmult_le_compat; lra. }
  destruct (rotate_l M q0 RM) as (Tx & Ty & Tz). destruct (spin_le q0) as (Gx & Gy & Gz).
  assert (J4 : nrm (lx q0) (ly q0) (lz q0) <= 4 * reach q0) by (replace (4 * reach q0) with (2 * (2 * reach q0)) by ring; apply nrm_le; auto; lra).
  assert (DJ : D * nrm (lx q0) (ly q0) (lz q0) / Lnorm None l0 <= 1680 * E).
  { apply Rle_trans with (D * (4 * reach q0) / Lnorm None l0).
    - unfold Rdiv. apply Rmult_le_compat_r; [left; now apply Rinv_0_lt_compat|]. apply Rmult_le_compat_l; [|exact J4]. unfold D. repeat apply Rmult_le_pos; lra.
    - right. unfold D, E, spin_error, r. field. lra. }
  pose proof (axis_close M RM (LX None l0) (LY None l0) (LZ None l0) (lx q0) (ly q0) (lz q0) (Lnorm None l0) D N0 Dx Dy Dz) as Ac.
  pose proof (plane_close M RM (LX None l0) (LY None l0) (LZ None l0) (lx q0) (ly q0) (lz q0) (Lnorm None l0) D N0 eq_refl Dx Dy Dz) as Pc.
  rewrite <- Tz in Ac. rewrite <- Tx, <- Ty in Pc.
  fold (axis_part l0 q0) in Ac, Pc. fold (plane_part l0 q0) in Pc.
  replace (2 * D * nrm (lx q0) (ly q0) (lz q0) / Lnorm None l0) with (2 * (D * nrm (lx q0) (ly q0) (lz q0) / Lnorm None l0)) in Ac by (unfold Rdiv; ring).
  replace (5 * D * nrm (lx q0) (ly q0) (lz q0) / Lnorm None l0) with (5 * (D * nrm (lx q0) (ly q0) (lz q0) / Lnorm None l0)) in Pc by (unfold Rdiv; ring).
  assert (Tot : forall x y, Rabs (x - y) <= 1084 * u * (18 * reach q0) -> Rabs y <= 18 * reach q0 -> Rabs x <= 24 * reach q0).
  { intros x y B L. replace x with ((x - y) + y) by ring. eapply Rle_trans; [apply Rabs_triang|].
    assert (1084 * u * (18 * reach q0) <= / 4 * (18 * reach q0)) by (apply Rmult_le_compat_r; [lra|apply small; auto; lra]). lra. }
  destruct (root_ap (o_jx o) (o_jy o) jx jy (24 * reach q0)) as (jp & Ep & Bp); [congruence|congruence|now apply (Tot jx _ Bx)|now apply (Tot jy _ By)| |].
  { assert (24 * e 200 <= e 300) by (apply Rle_trans with (e 5 * e 200); [apply Rmult_le_compat_r; [left; apply bpow_gt_0|simpl; lra]|rewrite e_add; apply bpow_le; lia]). lra. }
  exists jz, jp. split; [congruence|]. split; [exact Ep|]. fold E. split.
  - apply Rabs_le_inv in Ac, Bz. apply Rabs_le. lra.
  - pose proof (nrm_diff jx jy 0 (lx (rotate M q0)) (ly (rotate M q0)) 0) as D1. pose proof (nrm_diff (lx (rotate M q0)) (ly (rotate M q0)) 0 jx jy 0) as D2.
    rewrite (Rabs_minus_sym (lx _)), (Rabs_minus_sym (ly _)) in D2. rewrite Rminus_0_r, Rabs_R0 in D1, D2.
    apply Rabs_le_inv in Pc, Bp. apply Rabs_le. lra.
Qed.

Lemma cols_J (p : pset S) bs : pset_ok p -> cols p bs -> p_Jx p = map b_jx bs /\ p_Jy p = map b_jy bs /\ p_Jz p = map b_jz bs /\
  p_ke p = map (fun b => kin (b_vx b) (b_vy b) (b_vz b)) bs.
Proof.
  intros Hp (A & B & C & D & E & F & G). rewrite (pset_ok_Jx _ Hp), (pset_ok_Jy _ Hp), (pset_ok_Jz _ Hp), (pset_ok_ke _ Hp).
  rewrite B, C, D, E, F, G, !map4_map, map3'_map. repeat split; reflexivity.
Qed.
Lemma orbits_bodies (p : pset S) bs : pset_ok p -> cols p bs ->
  Forall2 (fun o b => o_jx o = b_jx b /\ o_jy o = b_jy b /\ o_jz o = b_jz b) (orbits p) bs.
Proof.
  intros Hp Hc. destruct (cols_J p bs Hp Hc) as (Jx & Jy & Jz & _). destruct (orbits_cols p Hp) as (_ & Ox & Oy & Oz & _).
  rewrite Jx in Ox. rewrite Jy in Oy. rewrite Jz in Oz. clear - Ox Oy Oz. revert bs Ox Oy Oz. induction (orbits p) as [|o l IH]; intros [|b bs] Ox Oy Oz; try discriminate; constructor; cbn [map] in *.
  - split; [now injection Ox|]. split; [now injection Oy|now injection Oz].
  - apply IH; [now injection Ox|now injection Oy|now injection Oz].
Qed.

Lemma kinr_rotate M q : rotation M -> kinr (rotate M q) = kinr q.
Proof. intros RM. unfold kinr. f_equal. cbn [rotate pvx pvy pvz]. apply (dot_kept M RM). Qed.

Lemma set_done k l0 M (p : pset S) lq0 lq1 lq2 : rotation M -> strong_spin u k l0 ->
  let D := 420 * (k + 1000) * u * weights l0 in
  Rabs (m11 M * LX None l0 + m12 M * LY None l0 + m13 M * LZ None l0) <= D ->
  Rabs (m21 M * LX None l0 + m22 M * LY None l0 + m23 M * LZ None l0) <= D ->
  Rabs (m31 M * LX None l0 + m32 M * LY None l0 + m33 M * LZ None l0 - Lnorm None l0) <= D ->
  pset_ok p -> reads_set RS p lq2 -> Forall2 (moved_near u) lq0 lq1 -> Forall2 (turned_near u M) lq1 lq2 -> (forall q, In q lq0 -> within q) ->
  set_near RS u k l0 p lq0.
Proof.
  intros RM HS D Dx Dy Dz Hp Hr Fm Ft W. destruct (reads_cols RS _ _ Hr) as (bs & Hc & Fb).
  assert (FA : Forall2 (fun b q => ap_body RS u 270 3 b q (rotate M q) /\ within q) bs lq0).
  { clear - RM Fm Ft Fb W U0 U1. revert bs lq2 Ft Fb. induction Fm as [|q0 q1 lq0 lq1 H F IH]; intros bs lq2 Ft Fb.
    - inversion Ft; subst. inversion Fb; subst. constructor.
    - inversion Ft as [|? q2 ? lq2' T Ft']; subst. inversion Fb as [|b ? bs' ? B Fb']; subst.
      constructor; [split; [apply both_body with q1 q2; auto|apply W; now left]|]. apply IH with lq2'; auto. intros q Hq. apply W. now right. }
  split.
  - pose proof (orbits_bodies p bs Hp Hc) as FO. clear - FA FO RM HS Dx Dy Dz U U0 U1. revert lq0 FA. induction FO as [|o b lo bs (A & B & C) FO IH]; intros lq0 FA.
    + inversion FA; subst. constructor.
    + inversion FA as [|? q ? lq (FB & Wq) FA']; subst. constructor; [|apply IH; exact FA']. now apply (one_near k l0 M q b o).
  - destruct (cols_J p bs Hp Hc) as (_ & _ & _ & ->). clear - FA RM U U0 U1. induction FA as [|b q bs lq (FB & Wq) FA IH]; [constructor|]. cbn [map]. constructor; [|exact IH].
    destruct (kin_ap b q _ FB (within_bounded _ Wq)) as (v & Ev & Bv & _). rewrite kinr_rotate in Bv by exact RM. exists v. split; [exact Ev|]. eapply Rle_trans; [exact Bv|].
    set (s := span _ _ _ * span _ _ _). assert (0 <= u * s).
    { unfold s. destruct (span_ge (pvx q) (pvy q) (pvz q)) as (V0 & _). pose proof (bpow_gt_0 radix2 (-100)). pose proof u_pos. repeat apply Rmult_le_pos; lra. }
    lra.
Qed.
End Main.

(** The same for every way of aligning that does what C68 says. *)
Lemma chain_from : forall (S : Num) (RS : Rounded S) u (K : nat -> R), graceful RS u -> bpow radix2 (-100) <= u -> u <= bpow radix2 (-40) ->
  forall align : galaxy S -> res (galaxy S),
  (forall (g : galaxy S) ls ld lg, constructible g ->
    reads_set RS (g_stars g) ls -> reads_set RS (g_dm g) ld -> reads_set RS (g_gas g) lg ->
    (forall q, In q ld \/ In q lg -> bounded q) -> clear_spin u (K (length ls)) ls ->
    exists h M ls' ld' lg', align g = Ok h /\ constructible h /\ rotation M /\
      reads_set RS (g_stars h) ls' /\ reads_set RS (g_dm h) ld' /\ reads_set RS (g_gas h) lg' /\
      Forall2 (turned_near u M) ls ls' /\ Forall2 (turned_near u M) ld ld' /\ Forall2 (turned_near u M) lg lg' /\
      (let err := 50 * (K (length ls) + 1000) * u * weights ls in
       Rabs (LX None ls') <= err /\ Rabs (LY None ls') <= err /\ Rabs (LZ None ls' - Lnorm None ls) <= err)) ->
  forall (g h1 : galaxy S) ls ld lg, constructible g ->
  reads_set RS (g_stars g) ls -> reads_set RS (g_dm g) ld -> reads_set RS (g_gas g) lg -> center g = Ok h1 ->
  exists i o, lowest g i /\ nth_error (ls ++ ld ++ lg) i = Some o /\
    (let seen := map (seen_from o) in let k := K (length ls) in
     strong_spin u k (seen ls) -> (forall q, In q (seen ld) \/ In q (seen lg) -> within q) ->
     exists h2, align h1 = Ok h2 /\ constructible h2 /\
       set_near RS u k (seen ls) (g_stars h2) (seen ls) /\ set_near RS u k (seen ls) (g_dm h2) (seen ld) /\
       set_near RS u k (seen ls) (g_gas h2) (seen lg)).
Proof.
  intros S RS u K U U0 U1 align Hal g h1 ls ld lg Hg Rs Rd Rg Hc. pose proof (u_pos u U0) as Up.
  destruct (c09_translation S RS g h1 Hg Hc) as (i & x0 & y0 & z0 & Hi & X & Y & Z & (_ & Hh & Mv)).
  assert (All : forall (f : pset S -> list S) (r : particle -> R), map (val RS) (f (g_stars g)) = map (fun q => XR (r q)) ls ->
    map (val RS) (f (g_dm g)) = map (fun q => XR (r q)) ld -> map (val RS) (f (g_gas g)) = map (fun q => XR (r q)) lg ->
    map (val RS) (flat_map f (sets g)) = map (fun q => XR (r q)) (ls ++ ld ++ lg)).
  { intros f r A B C. cbn [sets flat_map]. rewrite app_nil_r, !map_app, A, B, C. reflexivity. }
  assert (Ax := All (@p_x S) px ltac:(apply Rs) ltac:(apply Rd) ltac:(apply Rg)). assert (Ay := All (@p_y S) py ltac:(apply Rs) ltac:(apply Rd) ltac:(apply Rg)).
  assert (Az := All (@p_z S) pz ltac:(apply Rs) ltac:(apply Rd) ltac:(apply Rg)). clear All.
  fold (all_x g) in Ax. fold (all_y g) in Ay. fold (all_z g) in Az.
  apply (f_equal (fun l => nth_error l i)) in Ax, Ay, Az. rewrite !nth_error_map in Ax; rewrite !nth_error_map in Ay; rewrite !nth_error_map in Az.
  rewrite X in Ax. rewrite Y in Ay. rewrite Z in Az.
  destruct (nth_error (ls ++ ld ++ lg) i) as [o|] eqn:Ho; [|discriminate]. cbn [option_map] in Ax, Ay, Az.
  injection Ax as Ax. injection Ay as Ay. injection Az as Az.
  exists i, o. split; [exact Hi|]. split; [exact Ho|]. intros seen k HS HW.
  cbn [sets] in Mv. inversion Mv as [|p1 q1 ? ? (Sm1 & X1 & Y1 & Z1) Mv1]; subst. inversion Mv1 as [|p2 q2 ? ? (Sm2 & X2 & Y2 & Z2) Mv2]; subst.
  inversion Mv2 as [|p3 q3 ? ? (Sm3 & X3 & Y3 & Z3) _]; subst. clear Mv Mv1 Mv2.
  pose proof HS as (W & HN & HK & A & B). pose proof (strong_nonempty u _ _ HS) as NE.
  destruct (seen_reads RS u U U0 _ _ ls o x0 y0 z0 Rs Sm1 X1 Y1 Z1 Ax Ay Az W) as (ls1 & Rs1 & Fs).
  destruct (seen_reads RS u U U0 _ _ ld o x0 y0 z0 Rd Sm2 X2 Y2 Z2 Ax Ay Az ltac:(auto)) as (ld1 & Rd1 & Fd).
  destruct (seen_reads RS u U U0 _ _ lg o x0 y0 z0 Rg Sm3 X3 Y3 Z3 Ax Ay Az ltac:(auto)) as (lg1 & Rg1 & Fg).
  fold seen in Fs, Fd, Fg.
  destruct (moved_lists u U0 U1 _ _ Fs W) as (_ & Bs & Ww & Ls). destruct (moved_lists u U0 U1 _ _ Fd ltac:(auto)) as (_ & Bd & _). destruct (moved_lists u U0 U1 _ _ Fg ltac:(auto)) as (_ & Bg & _).
  pose proof (strong_clear u U0 U1 k _ _ Fs HS) as CS. destruct (moved_total u U0 U1 _ _ Fs W HN NE) as (Tx & Ty & Tz).
  assert (Ll : length ls1 = length ls) by (rewrite Ls; apply map_length).
  destruct (Hal h1 ls1 ld1 lg1 Hh Rs1 Rd1 Rg1) as (h2 & M & ls2 & ld2 & lg2 & Al & Hk2 & RM & Rs2 & Rd2 & Rg2 & Ts & Td & Tg & E1 & E2 & E3).
  { intros q [H|H]; auto. }
  { rewrite Ll. exact CS. }
  rewrite Ll in E1, E2, E3. fold k in E1, E2, E3.
  pose proof Hk2 as Ok2. apply constructible_ok, gal_ok_facts in Ok2. destruct Ok2 as [P1 P2 P3 _ _ _ _ _ _].
  pose proof (clear_nonempty u _ _ CS) as NE1. assert (HN1 : INR (length ls1) <= e 20) by (rewrite Ls; exact HN).
  destruct (turned_total u Up U1 M ls1 ls2 Ts RM Bs HN1 NE1) as (F1 & F2 & F3). destruct (rotate_L M None ls1 RM) as (L1 & L2 & L3). rewrite L1 in F1. rewrite L2 in F2. rewrite L3 in F3.
  pose proof (Lnorm_close _ _ _ Tx Ty Tz) as Nc.
  pose proof RM as (R1 & R2 & R3 & _). apply entry_le in R1, R2, R3. destruct R1 as (? & ? & ?), R2 as (? & ? & ?), R3 as (? & ? & ?).
  pose proof (comb3 (m11 M) (m12 M) (m13 M) _ _ _ _ ltac:(assumption) ltac:(assumption) ltac:(assumption) Tx Ty Tz) as G1.
  pose proof (comb3 (m21 M) (m22 M) (m23 M) _ _ _ _ ltac:(assumption) ltac:(assumption) ltac:(assumption) Tx Ty Tz) as G2.
  pose proof (comb3 (m31 M) (m32 M) (m33 M) _ _ _ _ ltac:(assumption) ltac:(assumption) ltac:(assumption) Tx Ty Tz) as G3.
  set (l0 := seen ls) in *. pose proof (weights_pos l0 W) as W0.
  assert (uW : 0 <= u * weights l0) by (apply Rmult_le_pos; lra). assert (kuW : 0 <= k * (u * weights l0)) by (apply Rmult_le_pos; lra).
  assert (uW1 : u * weights ls1 <= 2 * (u * weights l0)) by (pose proof (Rmult_le_compat_l u _ _ (Rlt_le _ _ Up) Ww); lra).
  assert (kuW1 : k * (u * weights ls1) <= k * (2 * (u * weights l0))) by (apply Rmult_le_compat_l; lra).
  set (t := u * weights l0) in *. set (t1 := u * weights ls1) in *.
  replace (50 * (k + 1000) * u * weights ls1) with (50 * (k * t1) + 50000 * t1) in E1, E2, E3 by (unfold t1; ring).
  replace (40000 * u * weights ls1) with (40000 * t1) in F1, F2, F3 by (unfold t1; ring).
  replace (40000 * u * weights l0) with (40000 * t) in * by (unfold t; ring).
  assert (DD : 420 * (k + 1000) * u * weights l0 = 420 * (k * t) + 420000 * t) by (unfold t; ring).
  apply Rabs_le_inv in E1, E2, E3, F1, F2, F3, G1, G2, G3, Nc.
  assert (Dx : Rabs (m11 M * LX None l0 + m12 M * LY None l0 + m13 M * LZ None l0) <= 420 * (k + 1000) * u * weights l0) by (rewrite DD; apply Rabs_le; lra).
  assert (Dy : Rabs (m21 M * LX None l0 + m22 M * LY None l0 + m23 M * LZ None l0) <= 420 * (k + 1000) * u * weights l0) by (rewrite DD; apply Rabs_le; lra).
  assert (Dz : Rabs (m31 M * LX None l0 + m32 M * LY None l0 + m33 M * LZ None l0 - Lnorm None l0) <= 420 * (k + 1000) * u * weights l0) by (rewrite DD; apply Rabs_le; lra).
  exists h2. split; [exact Al|]. split; [exact Hk2|].
  split; [apply (set_done RS u U U0 U1 k l0 M _ l0 ls1 ls2); auto|].
  split; [apply (set_done RS u U U0 U1 k l0 M _ (seen ld) ld1 ld2); auto|apply (set_done RS u U U0 U1 k l0 M _ (seen lg) lg1 lg2); auto].
Qed.

(** *** C93 *)

(** Centring and then aligning a galaxy in floating point: in the result the angular momentum of every
    particle along z is the part of its angular momentum about the particle of lowest potential along
    the total angular momentum of the stars, and the projected one is the length of the rest; both up
    to a number of units of rounding, enlarged by how much the angular momenta of the stars cancel.
    The kinetic energy is that before. *)
Lemma c93_chain : forall (S : Num) (RS : Rounded S) u K, graceful RS u -> bpow radix2 (-100) <= u -> u <= bpow radix2 (-40) -> sums_well RS u K ->
  forall (g h1 : galaxy S) ls ld lg, constructible g ->
  reads_set RS (g_stars g) ls -> reads_set RS (g_dm g) ld -> reads_set RS (g_gas g) lg -> center g = Ok h1 ->
  exists i o, lowest g i /\ nth_error (ls ++ ld ++ lg) i = Some o /\
    (let seen := map (seen_from o) in let k := K (length ls) in
     strong_spin u k (seen ls) -> (forall q, In q (seen ld) \/ In q (seen lg) -> within q) ->
     exists h2, star_align h1 None = Ok h2 /\ constructible h2 /\
       set_near RS u k (seen ls) (g_stars h2) (seen ls) /\ set_near RS u k (seen ls) (g_dm h2) (seen ld) /\
       set_near RS u k (seen ls) (g_gas h2) (seen lg)).
Proof.
  intros S RS u K U U0 U1 UK. apply (chain_from S RS u K U U0 U1 (fun h => star_align h None)). intros g ls ld lg Hg Rs Rd Rg HB CS.
  destruct (c68_turned S RS u K U (u_pos u U0) U1 UK g ls ld lg Hg Rs Rd Rg HB CS) as (h & M & ls' & ld' & lg' & Al & Rest).
  exists h, M, ls', ld', lg'. split; [exact Al|]. split; [|exact Rest].
  apply constructible_ok in Hg. rewrite star_align_eq in Al by exact Hg. cbn [cut_ok] in Al. injection Al as <-. apply constructible_ok, rot_gal_ok, Hg.
Qed.

(** In particular in double precision. *)
Lemma c93_double : forall (g h1 : galaxy F64) ls ld lg, constructible g ->
  let RS := F64_rounded (seqsum 53 1024 p53 e1024) in let u := / IZR (2 ^ 53) in let k := 2 * INR (length ls) in
  reads_set RS (g_stars g) ls -> reads_set RS (g_dm g) ld -> reads_set RS (g_gas g) lg -> center g = Ok h1 ->
  exists i o, lowest g i /\ nth_error (ls ++ ld ++ lg) i = Some o /\
    (let seen := map (seen_from o) in
     strong_spin u k (seen ls) -> (forall q, In q (seen ld) \/ In q (seen lg) -> within q) ->
     exists h2, star_align h1 None = Ok h2 /\ constructible h2 /\
       set_near RS u k (seen ls) (g_stars h2) (seen ls) /\ set_near RS u k (seen ls) (g_dm h2) (seen ld) /\
       set_near RS u k (seen ls) (g_gas h2) (seen lg)).
Proof.
  intros g h1 ls ld lg Hg RS u k Rs Rd Rg Hc. destruct c68_double as (G & U0 & U1 & UK). fold RS u in G, U0, U1, UK.
  apply (c93_chain (F64s (seqsum 53 1024 p53 e1024)) RS u (fun n => 2 * INR n) G ltac:(change u with (e (-53)); apply bpow_le; lia) U1 UK g h1 ls ld lg Hg Rs Rd Rg Hc).
Qed.

(** The two stars of [exT_gal] away from the origin, around a heavy dark matter particle. *)
Definition exC_set (t : ptype) (m x y z vx vy vz pot : list Z) : pset F64 :=
  pset_of (N:=F64) t (fZs m) (fZs x) (fZs y) (fZs z) (fZs vx) (fZs vy) (fZs vz) (Some (fZs pot)) (fZ 0).
Definition exC_gal : galaxy F64 :=
  mkGal (exC_set STARS [1; 1] [6; 4] [5; 5] [5; 5] [0; 0] [1; -1] [1; -1] [-2; -2])%Z
        (exC_set DARK_MATTER [9] [5] [5] [5] [6] [7] [8] [-7])%Z (exC_set GAS [] [] [] [] [] [] [] [])%Z true.
Definition exC_stars : list particle := [Part 1 6 5 5 0 1 1; Part 1 4 5 5 0 (-1) (-1)].
Definition exC_dark : list particle := [Part 9 5 5 5 6 7 8].
Lemma exC_gal_ok : constructible exC_gal.
Proof.
  apply constructible_ok, gal_ok_facts. constructor; try reflexivity.
  all: apply pset_ok_iff; split; [|reflexivity]; repeat split; intros p [= <-]; reflexivity.
Qed.
Lemma exC_seen : map (seen_from (Part 9 5 5 5 6 7 8)) exC_stars = exT_stars.
Proof. unfold exC_stars, exT_stars, seen_from. cbn [map pm px py pz pvx pvy pvz]. repeat f_equal; ring. Qed.
Lemma exC_spin : strong_spin (/ IZR (2 ^ 53)) (2 * INR 2) exT_stars.
Proof.
  assert (A1 : Rabs 1 = 1) by (apply Rabs_pos_eq; lra). assert (A2 : Rabs (-1) = 1) by (rewrite Rabs_left; lra).
  assert (S1 : span 1 0 0 = 1) by (apply span_1; auto). assert (S2 : span (-1) 0 0 = 1) by (apply span_1; auto).
  assert (S3 : span 0 1 1 = 1) by (apply span_1; auto). assert (S4 : span 0 (-1) (-1) = 1) by (apply span_1; auto).
  assert (E1 : 1 <= e 99) by (change 1 with (e 0); apply bpow_le; lia).
  assert (W : weights exT_stars = 2).
  { unfold weights, exT_stars, weight. cbn [sumR fold_right pm px py pz pvx pvy pvz]. rewrite S1, S2, S3, S4, A1.
    rewrite Rmax_right by (change 1 with (e 0); apply bpow_le; lia). ring. }
  assert (LX0 : LX None exT_stars = 0) by (unfold LX, exT_stars, lx; cbn [filter inside sumR fold_right pm px py pz pvx pvy pvz]; ring).
  assert (LY0 : LY None exT_stars = -2) by (unfold LY, exT_stars, ly; cbn [filter inside sumR fold_right pm px py pz pvx pvy pvz]; ring).
  assert (LZ0 : LZ None exT_stars = 2) by (unfold LZ, exT_stars, lz; cbn [filter inside sumR fold_right pm px py pz pvx pvy pvz]; ring).
  assert (U : / IZR (2 ^ 53) <= / 1000000000000) by (apply Rinv_le_contravar; [lra|apply IZR_le; lia]).
  split; [intros q [<-|[<-|[]]]; unfold within; cbn [pm px py pz pvx pvy pvz]; rewrite ?S1, ?S2, ?S3, ?S4, A1; auto|].
  split; [simpl; lra|]. split; [simpl; lra|]. unfold Lnorm, Lplane. rewrite W, LX0, LY0, LZ0.
  split.
  - apply Rle_trans with (sqrt (2 * 2)); [rewrite sqrt_square by lra; simpl INR; lra|]. apply sqrt_le_1_alt. lra.
  - replace (0 * 0 + -2 * -2) with (2 * 2) by ring. rewrite sqrt_square by lra.
    assert (e (-389) <= 1) by (change 1 with (e 0); apply bpow_le; lia). simpl INR. lra.
Qed.
Lemma exC_reads : let RS := F64_rounded (seqsum 53 1024 p53 e1024) in
  reads_set RS (g_stars exC_gal) exC_stars /\ reads_set RS (g_dm exC_gal) exC_dark /\ reads_set RS (g_gas exC_gal) [].
Proof.
  cbv zeta. set (RS := F64_rounded _).
  assert (V : forall z, (Z.abs z <= 1024)%Z -> val RS (fZ z) = XR (IZR z)).
  { intros z Hz. unfold fZ. change (nofZ (N:=F64) z) with (nofZ (N:=F64s (seqsum 53 1024 p53 e1024)) z). rewrite (val_ofZ RS). apply (rnd_int RS). pose proof (intmax_pos RS). lia. }
  assert (M : forall zs rs, Forall2 (fun z r => (Z.abs z <= 1024)%Z /\ IZR z = r) zs rs -> map (val RS) (fZs zs) = map XR rs).
  { induction 1 as [|z r zs rs [H1 H2] F IH]; [reflexivity|]. change (fZs (z :: zs)) with (fZ z :: fZs zs). cbn [map]. etransitivity; [exact (f_equal2 cons (V z H1) IH)|]. now rewrite H2. }
  split; [|split].
  - repeat split; (etransitivity; [apply M; repeat (constructor; [split; [lia|reflexivity]|]); constructor|reflexivity]).
  - repeat split; (etransitivity; [apply M; repeat (constructor; [split; [lia|reflexivity]|]); constructor|reflexivity]).
  - repeat split.
Qed.

(** The hypotheses are met: the stars as seen from the particle of lowest potential have a strong
    spin.  The run gives an angular momentum along z near sqrt 2 for both stars. *)
Example ex_c93 : constructible exC_gal /\
  (let RS := F64_rounded (seqsum 53 1024 p53 e1024) in
   reads_set RS (g_stars exC_gal) exC_stars /\ reads_set RS (g_dm exC_gal) exC_dark /\ reads_set RS (g_gas exC_gal) []) /\
  (exists h1, center exC_gal = Ok h1) /\
  (forall i o, lowest exC_gal i -> nth_error (exC_stars ++ exC_dark ++ []) i = Some o ->
     strong_spin (/ IZR (2 ^ 53)) (2 * INR 2) (map (seen_from o) exC_stars) /\
     forall q, In q (map (seen_from o) exC_dark) \/ In q (map (seen_from o) []) -> within q) /\
  (do h1 <- center exC_gal; do h2 <- star_align h1 None;
   Ok (map (fun x => andb (nlt (nlit 141421 100000) x) (nlt x (nlit 141422 100000))) (p_Jz (g_stars h2)))) = Ok [true; true].
Proof.
  split; [exact exC_gal_ok|]. split; [exact exC_reads|]. split.
  { assert (T : match center exC_gal with Ok _ => true | _ => false end = true) by (vm_compute; reflexivity).
    destruct (center exC_gal) as [h|]; [now exists h|discriminate]. }
  split.
  - intros i o (v & Hv & Hm & _) Ho.
    assert (L : i = 2%nat).
    { specialize (Hm (fZ (-7))). destruct i as [|[|[|i]]]; [exfalso| exfalso|reflexivity|].
      - assert (Hv' : nth_error (all_pots exC_gal) 0 = Some (fZ (-2))) by reflexivity. rewrite Hv' in Hv. assert (Ev : v = fZ (-2)) by congruence. subst v. assert (T : nlt (N:=F64) (fZ (-7)) (fZ (-2)) = true) by (vm_compute; reflexivity). rewrite Hm in T; [discriminate|]. right; right; left. reflexivity.
      - assert (Hv' : nth_error (all_pots exC_gal) 1 = Some (fZ (-2))) by reflexivity. rewrite Hv' in Hv. assert (Ev : v = fZ (-2)) by congruence. subst v. assert (T : nlt (N:=F64) (fZ (-7)) (fZ (-2)) = true) by (vm_compute; reflexivity). rewrite Hm in T; [discriminate|]. right; right; left. reflexivity.
      - destruct i; discriminate Ho. }
    subst i. cbn [exC_stars exC_dark app nth_error] in Ho. injection Ho as <-. rewrite exC_seen. split; [exact exC_spin|].
    intros q [[<-|[]]|[]]. unfold within, seen_from. cbn [pm px py pz pvx pvy pvz].
    assert (E4 : 16 <= e 99) by (change 16 with (e 4); apply bpow_le; lia). assert (E0 : e (-100) <= 1) by (change 1 with (e 0); apply bpow_le; lia).
    split; [rewrite Rabs_pos_eq; lra|]. split; apply span_le; rewrite ?Rabs_pos_eq by lra; lra.
  - vm_compute. reflexivity.
Qed.
