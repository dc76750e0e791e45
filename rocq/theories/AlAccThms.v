(** Property lemmas about the accuracy of the alignment: C68. *)
From Flocq Require Import Core BinarySingleNaN.
From Coq Require Import Lra Lia.
From Verif Require Import Py Num RX F64 Np Df Data DataFacts Center Align Spec Ex DataThms CenterThms AlignFacts AlignThms SpecR SpecAlAcc AlAccFacts AlAccRot AlAccSum.
Local Open Scope R_scope.
Local Notation e := (bpow radix2).

Lemma entry_le x y z : x * x + y * y + z * z = 1 -> Rabs x <= 1 /\ Rabs y <= 1 /\ Rabs z <= 1.
Proof. intros H. repeat split; apply Rabs_le; nra. Qed.
Lemma comb3 x y z a b c d : Rabs x <= 1 -> Rabs y <= 1 -> Rabs z <= 1 -> Rabs a <= d -> Rabs b <= d -> Rabs c <= d ->
  Rabs (x * a + y * b + z * c) <= 3 * d.
Proof.
  intros X Y Z A B C. eapply Rle_trans; [apply Rabs_triang|]. eapply Rle_trans; [apply Rplus_le_compat_r, Rabs_triang|]. rewrite !Rabs_mult.
  pose proof (Rabs_pos x). pose proof (Rabs_pos y). pose proof (Rabs_pos z). pose proof (Rabs_pos a). pose proof (Rabs_pos b). pose proof (Rabs_pos c).
  assert (Rabs x * Rabs a <= 1 * d) by (apply Rmult_le_compat; lra). assert (Rabs y * Rabs b <= 1 * d) by (apply Rmult_le_compat; lra).
  assert (Rabs z * Rabs c <= 1 * d) by (apply Rmult_le_compat; lra). lra.
Qed.

Lemma RX_graceful u : 0 < u -> graceful RX_rounded u.
Proof.
  intros H r _. exists r. split; [reflexivity|]. replace (r - r) with 0 by ring. rewrite Rabs_R0. unfold tiny.
  pose proof (bpow_gt_0 radix2 (-1000)). pose proof (Rabs_pos r). apply Rmult_le_pos; lra.
Qed.
Lemma RX_sums u : 0 < u -> sums_well RX_rounded u (fun _ => 0).
Proof.
  intros H l rl E _ _. exists (Rsum rl). split.
  - change (val RX_rounded) with (fun x : xr => x) in *. rewrite map_id in E. subst l. cbn.
    induction rl as [|r rl IH]; [reflexivity|]. cbn [map fold_right]. rewrite IH. reflexivity.
  - replace (Rsum rl - Rsum rl) with 0 by ring. rewrite Rabs_R0, Rmult_0_l, Rmult_0_l. lra.
Qed.

(** Length of the total angular momentum. *)
Lemma Lnorm_le l : Lnorm None l <= 6 * weights l.
Proof.
  pose proof (nrm_diff (LX None l) (LY None l) (LZ None l) 0 0 0) as D. change (nrm (LX None l) (LY None l) (LZ None l)) with (Lnorm None l) in D.
  rewrite !Rminus_0_r in D. replace (nrm 0 0 0) with 0 in D by (unfold nrm; replace (0 * 0 + 0 * 0 + 0 * 0) with 0 by ring; now rewrite sqrt_0).
  assert (One : forall r, (forall q, In q l -> Rabs (pm q * r q) <= 2 * weight q) -> Rabs (sumR (fun q => pm q * r q) l) <= 2 * weights l).
  { clear. intros r. induction l as [|q l IH]; intros H; unfold weights in *; cbn [sumR fold_right]; [rewrite Rabs_R0; lra|].
    fold (sumR (fun q => pm q * r q) l) (sumR weight l). eapply Rle_trans; [apply Rabs_triang|].
    specialize (IH (fun q H' => H q (or_intror H'))). specialize (H q (or_introl eq_refl)). lra. }
  assert (Ang : forall q x y v w, Rabs x <= span (px q) (py q) (pz q) -> Rabs y <= span (px q) (py q) (pz q) ->
     Rabs v <= span (pvx q) (pvy q) (pvz q) -> Rabs w <= span (pvx q) (pvy q) (pvz q) -> Rabs (pm q * (x * v - y * w)) <= 2 * weight q).
  { clear. intros q x y v w X Y V W. unfold weight. set (X0 := span (px q) _ _) in *. set (V0 := span (pvx q) _ _) in *.
    pose proof (Rmax_r (e (-100)) (Rabs (pm q))) as Mx. set (M := Rmax _ _) in *. rewrite Rabs_mult.
    pose proof (Rabs_pos x). pose proof (Rabs_pos y). pose proof (Rabs_pos v). pose proof (Rabs_pos w). pose proof (Rabs_pos (pm q)).
    assert (Rabs (x * v - y * w) <= 2 * (X0 * V0)).
    { replace (x * v - y * w) with (x * v + - (y * w)) by ring. eapply Rle_trans; [apply Rabs_triang|]. rewrite Rabs_Ropp, !Rabs_mult.
      assert (Rabs x * Rabs v <= X0 * V0) by (apply Rmult_le_compat; lra). assert (Rabs y * Rabs w <= X0 * V0) by (apply Rmult_le_compat; lra). lra. }
    replace (2 * (M * X0 * V0)) with (M * (2 * (X0 * V0))) by ring. apply Rmult_le_compat; auto using Rabs_pos. }
  unfold LX, LY, LZ in D. rewrite inside_none in D.
  pose proof (One lx ltac:(intros q _; destruct (span_ge (px q) (py q) (pz q)) as (_ & ? & ? & ?); destruct (span_ge (pvx q) (pvy q) (pvz q)) as (_ & ? & ? & ?); apply Ang; assumption)).
  pose proof (One ly ltac:(intros q _; destruct (span_ge (px q) (py q) (pz q)) as (_ & ? & ? & ?); destruct (span_ge (pvx q) (pvy q) (pvz q)) as (_ & ? & ? & ?); apply Ang; assumption)).
  pose proof (One lz ltac:(intros q _; destruct (span_ge (px q) (py q) (pz q)) as (_ & ? & ? & ?); destruct (span_ge (pvx q) (pvy q) (pvz q)) as (_ & ? & ? & ?); apply Ang; assumption)).
  lra.
Qed.

Section Main.
Context {S : Num} (RS : Rounded S).
Variable u : R.
Variable K : nat -> R.
Hypothesis U : graceful RS u.
Hypothesis U0 : 0 < u.
Hypothesis U1 : u <= e (-40).
Hypothesis UK : sums_well RS u K.

Lemma clear_nonempty k l : clear_spin u k l -> l <> [].
Proof.
  intros (_ & _ & HK & _ & P) ->. unfold Lplane, LX, LY, weights in P. cbn [filter sumR fold_right] in P.
  replace (0 * 0 + 0 * 0) with 0 in P by ring. rewrite sqrt_0 in P. pose proof (bpow_gt_0 radix2 (-390)). lra.
Qed.

(** The matrix that is used, against the rotation that brings the computed total onto the z axis. *)
Definition total_matrix (bs : list (body S)) : mat3 S :=
  rot_of (nsum (map (fun s => s_m s * s_jx s)%num (map star_of bs))) (nsum (map (fun s => s_m s * s_jy s)%num (map star_of bs)))
         (nsum (map (fun s => s_m s * s_jz s)%num (map star_of bs))).
Lemma core l bs : Forall2 (reads_body RS) bs l -> clear_spin u (K (length l)) l ->
  let eps := (20 + 4 * K (length l)) * u * weights l in
  exists M Q, rotation M /\ ap_mat RS u 130 (total_matrix bs) M /\
    Rabs (LX None (map (rotate M) l)) <= 3 * eps /\ Rabs (LY None (map (rotate M) l)) <= 3 * eps /\
    Rabs (LZ None (map (rotate M) l) - Q) <= 3 * eps /\ Rabs (Q - Lnorm None l) <= 3 * eps /\ e (-391) <= Q <= e 390.
Proof.
  intros HF CS eps. pose proof (clear_nonempty _ _ CS) as NE. destruct CS as (HB & HN & HK & C1 & C2).
  set (k := K (length l)) in *.
  destruct (weights_range l HB) as (_ & W1 & W2).
  assert (uW : 0 <= u * weights l) by (apply Rmult_le_pos; lra).
  assert (E0 : 0 <= eps) by (unfold eps; rewrite Rmult_assoc; apply Rmult_le_pos; lra).
  assert (EpsP : 3 * eps <= 100 * (k + 10) * u * weights l) by (unfold eps; nra).
  assert (EpsL : 30 * eps <= Lnorm None l) by (eapply Rle_trans; [|exact C1]; unfold eps; nra).
  assert (F1 : Forall2 (fun b q => ap_body RS u 0 1 b q ((fun x => x) q)) bs l).
  { clear - HF. induction HF; constructor; [now apply reads_ap|assumption]. }
  destruct (totals RS u K U U0 U1 UK 0 1 (fun q => q) bs l nmul F1 HB HN HK ltac:(lra) ltac:(lra) NE ltac:(auto)) as (a & b & c & Ea & Eb & Ec & Ba & Bb & Bc).
  rewrite map_id in Ba, Bb, Bc.
  assert (Eerr : (8 * 0 + 10 + 2 * K (length l)) * (2 * (1 * 1)) * u * weights l = eps) by (unfold eps, k; ring).
  rewrite Eerr in Ba, Bb, Bc. clear Eerr.
  assert (Pl : e (-391) <= nrm a b 0).
  { pose proof (nrm_diff (LX None l) (LY None l) 0 a b 0) as D. unfold Lplane in C2.
    replace (nrm (LX None l) (LY None l) 0) with (sqrt (LX None l * LX None l + LY None l * LY None l)) in D by (unfold nrm; f_equal; ring).
    rewrite (Rabs_minus_sym (LX None l) a), (Rabs_minus_sym (LY None l) b), Rminus_0_r, Rabs_R0 in D.
    assert (e (-391) <= e (-390)) by (apply bpow_le; lia). lra. }
  assert (Pn : sqrt (a * a + b * b) = nrm a b 0) by (unfold nrm; f_equal; ring).
  pose proof (bpow_gt_0 radix2 (-391)) as P391.
  assert (Qn : nrm a b 0 <= nrm a b c) by (unfold nrm; apply sqrt_le_1_alt; nra).
  assert (QL : Rabs (nrm a b c - Lnorm None l) <= 3 * eps).
  { pose proof (nrm_diff (LX None l) (LY None l) (LZ None l) a b c) as D. pose proof (nrm_diff a b c (LX None l) (LY None l) (LZ None l)) as D'.
    change (nrm (LX None l) (LY None l) (LZ None l)) with (Lnorm None l) in *.
    rewrite (Rabs_minus_sym (LX None l) a), (Rabs_minus_sym (LY None l) b), (Rabs_minus_sym (LZ None l) c) in D.
    apply Rabs_le. lra. }
  pose proof (Lnorm_le l) as LU.
  assert (Qu : nrm a b c <= e 390).
  { apply Rabs_le_inv in QL. assert (W3 : weights l <= e 320).
    { eapply Rle_trans; [exact W2|]. replace (e 320) with (e 20 * e 300) by (rewrite e_add; reflexivity). apply Rmult_le_compat_r; [left; apply bpow_gt_0|exact HN]. }
    apply Rle_trans with (e 4 * e 320); [replace (e 4) with 16 by (simpl; lra); lra|]. rewrite e_add. apply bpow_le. lia. }
  assert (NZ : a <> 0 \/ b <> 0).
  { destruct (Req_dec a 0) as [->|]; [|now left]. destruct (Req_dec b 0) as [->|]; [|now right].
    exfalso. unfold nrm in Pl. replace (0 * 0 + 0 * 0 + 0 * 0) with 0 in Pl by ring. rewrite sqrt_0 in Pl. lra. }
  exists (rotR a b c), (nrm a b c). pose proof (rotR_rotation a b c NZ) as RM.
  split; [exact RM|]. split.
  { unfold total_matrix. apply rot_of_ap; auto.
    - rewrite Pn. eapply Rle_trans; [|exact Pl]. apply bpow_le; lia.
    - change (sqrt (a * a + b * b + c * c)) with (nrm a b c). eapply Rle_trans; [exact Qu|]. apply bpow_le; lia. }
  destruct (rotate_L (rotR a b c) None l RM) as (-> & -> & ->). destruct (rotR_J a b c NZ) as (J1 & J2 & J3).
  change (sqrt (a * a + b * b + c * c)) with (nrm a b c) in J3.
  rewrite Rabs_minus_sym in Ba, Bb, Bc.
  destruct RM as (R1 & R2 & R3 & _). apply entry_le in R1, R2, R3. destruct R1 as (? & ? & ?), R2 as (? & ? & ?), R3 as (? & ? & ?).
  set (M := rotR a b c) in *.
  split; [|split; [|split; [|split; [exact QL|lra]]]].
  - replace (m11 M * LX None l + m12 M * LY None l + m13 M * LZ None l) with (m11 M * (LX None l - a) + m12 M * (LY None l - b) + m13 M * (LZ None l - c))
      by (transitivity (m11 M * LX None l + m12 M * LY None l + m13 M * LZ None l - (m11 M * a + m12 M * b + m13 M * c)); [ring|rewrite J1; ring]).
    now apply comb3.
  - replace (m21 M * LX None l + m22 M * LY None l + m23 M * LZ None l) with (m21 M * (LX None l - a) + m22 M * (LY None l - b) + m23 M * (LZ None l - c))
      by (transitivity (m21 M * LX None l + m22 M * LY None l + m23 M * LZ None l - (m21 M * a + m22 M * b + m23 M * c)); [ring|rewrite J2; ring]).
    now apply comb3.
  - replace (m31 M * LX None l + m32 M * LY None l + m33 M * LZ None l - nrm a b c) with (m31 M * (LX None l - a) + m32 M * (LY None l - b) + m33 M * (LZ None l - c))
      by (rewrite <- J3; ring).
    now apply comb3.
Qed.

Lemma matrix_none (g : galaxy S) bs : gal_ok g -> cols (g_stars g) bs -> gal_matrix g None = total_matrix bs.
Proof.
  intros Hg Hc. assert (gs : pset_ok (g_stars g)) by (apply gal_ok_facts in Hg; now destruct Hg).
  rewrite gal_matrix_near by exact Hg. now rewrite (near_cols (g_stars g) bs gs Hc).
Qed.

(** The rotated particles, read as numbers. *)
Lemma turned_reads A M (p : pset S) bs l : ap_mat RS u 130 A M -> cols p bs -> Forall2 (reads_body RS) bs l -> (forall q, In q l -> bounded q) ->
  exists l', reads_set RS (rot_set A p) l' /\ Forall2 (turned_near u M) l l'.
Proof.
  intros HM Hc HF HB. pose proof (cols_rot A p bs Hc) as (C1 & C2 & C3 & C4 & C5 & C6 & C7).
  assert (V : exists l', Forall2 (reads_body RS) (map (rotb A) bs) l' /\ Forall2 (turned_near u M) l l').
  { clear - HM HF HB U U0 U1. induction HF as [|b q bs l Hb HF IH]; [exists []; split; constructor|].
    destruct (IH (fun q H => HB q (or_intror H))) as (l' & I1 & I2).
    pose proof (reads_ap RS u b q Hb) as Ab.
    destruct (ap_rotb RS u U U0 U1 A M b q HM Ab (HB q (or_introl eq_refl))) as (_ & (x & Ex & Bx & _) & (y & Ey & By & _) & (z & Ez & Bz & _) & (vx & Evx & Bvx & _) & (vy & Evy & Bvy & _) & (vz & Evz & Bvz & _)).
    exists (Part (pm q) x y z vx vy vz :: l'). split; [constructor; [|exact I1]|constructor; [|exact I2]].
    - destruct Hb as (Hm & _). unfold reads_body. cbn [pm px py pz pvx pvy pvz]. split; [exact Hm|]. auto 10.
    - unfold turned_near. cbn [pm px py pz pvx pvy pvz]. split; [reflexivity|].
      destruct (span_ge (px q) (py q) (pz q)) as (X0 & _). destruct (span_ge (pvx q) (pvy q) (pvz q)) as (V0 & _). pose proof (bpow_gt_0 radix2 (-100)).
      assert (G : forall s, 0 < s -> 266 * u * (3 * s) <= 800 * u * s) by (intros s Hs; assert (0 < u * s) by (apply Rmult_lt_0_compat; lra); nra).
      repeat (split; [eapply Rle_trans; [eassumption|apply G; lra]|]). eapply Rle_trans; [eassumption|apply G; lra]. }
  destruct V as (l' & V1 & V2). exists l'. split; [|exact V2]. unfold reads_set. rewrite C1, C2, C3, C4, C5, C6, C7.
  assert (G : forall (f : body S -> S) (r : particle -> R) bs l', Forall2 (fun b q => val RS (f b) = XR (r q)) bs l' -> map (val RS) (map f bs) = map (fun q => XR (r q)) l').
  { clear. intros f r bs l'. induction 1; cbn [map]; congruence. }
  assert (G2 : forall (f : body S -> S) (r : particle -> R), (forall b q, reads_body RS b q -> val RS (f b) = XR (r q)) ->
    map (val RS) (map f (map (rotb A) bs)) = map (fun q => XR (r q)) l').
  { intros f r H. apply G. clear - V1 H. induction V1; constructor; auto. }
  repeat split; apply G2; intros b q Hb; unfold reads_body in Hb; tauto.
Qed.

Lemma turned_total M l l' : Forall2 (turned_near u M) l l' -> rotation M -> (forall q, In q l -> bounded q) -> INR (length l) <= e 20 -> l <> [] ->
  let err := 40000 * u * weights l in
  Rabs (LX None l' - LX None (map (rotate M) l)) <= err /\ Rabs (LY None l' - LY None (map (rotate M) l)) <= err /\ Rabs (LZ None l' - LZ None (map (rotate M) l)) <= err.
Proof.
  intros F RM HB HN NE err.
  pose (bd := fun q' => @Body RX (XR (pm q')) (XR (px q')) (XR (py q')) (XR (pz q')) (XR (pvx q')) (XR (pvy q')) (XR (pvz q'))).
  assert (FB : Forall2 (fun b q => ap_body RX_rounded u 267 3 b q (rotate M q)) (map bd l') l).
  { clear - F RM U0. destruct RM as (R1 & R2 & R3 & _). apply entry_le in R1, R2, R3.
    induction F as [|q q' l l' (Hm & Hx & Hy & Hz & Hvx & Hvy & Hvz) F IH]; [constructor|]. cbn [map]. constructor; [|exact IH].
    destruct (span_ge (px q) (py q) (pz q)) as (X0 & X1 & X2 & X3). destruct (span_ge (pvx q) (pvy q) (pvz q)) as (V0 & V1 & V2 & V3).
    unfold ap_body, bd. cbn [b_m b_x b_y b_z b_vx b_vy b_vz]. unfold ap. rewrite Hm.
    split; [exists (pm q); split; [reflexivity|]; split; [cbn [rotate pm]; replace (pm q - pm q) with 0 by ring; rewrite Rabs_R0; lra|apply Rmax_r]|].
    assert (G : forall s a b, 0 < s -> Rabs (a - b) <= 800 * u * s -> Rabs (a - b) <= 267 * u * (3 * s)).
    { intros s a b Hs H. eapply Rle_trans; [exact H|]. assert (0 < u * s) by (apply Rmult_lt_0_compat; lra). nra. }
    pose proof (bpow_gt_0 radix2 (-100)).
    repeat (split; [eexists; split; [reflexivity|]; split; [apply G; [lra|assumption]|cbn [rotate px py pz pvx pvy pvz]; apply comb3; tauto]|]).
    eexists; split; [reflexivity|]; split; [apply G; [lra|assumption]|cbn [rotate px py pz pvx pvy pvz]; apply comb3; tauto]. }
  destruct (totals RX_rounded u (fun _ => 0) (RX_graceful u U0) U0 U1 (RX_sums u U0) 267 3 (rotate M) (map bd l') l nmul FB HB HN
    ltac:(pose proof (bpow_gt_0 radix2 21); lra) ltac:(lra) ltac:(lra) NE ltac:(auto)) as (a & b & c & Ea & Eb & Ec & Ba & Bb & Bc).
  assert (Sm : forall (j : star RX -> RX) (r : particle -> R), (forall q, j (star_of (bd q)) = XR (r q)) ->
    nsum (map (fun s => s_m s * j s)%num (map star_of (map bd l'))) = XR (sumR (fun q => pm q * r q) (filter (inside None) l'))).
  { clear. intros j r H. rewrite inside_none, !map_map. rewrite <- fold_sum. change (nsum (N:=RX)) with (fold_right xadd (XR 0)).
    f_equal. apply map_ext. intros q. rewrite H. reflexivity. }
  change (val RX_rounded) with (fun x : xr => x) in Ea, Eb, Ec. cbv beta in Ea, Eb, Ec.
  rewrite (Sm s_jx lx) in Ea by reflexivity. rewrite (Sm s_jy ly) in Eb by reflexivity. rewrite (Sm s_jz lz) in Ec by reflexivity.
  fold (LX None l') in Ea. fold (LY None l') in Eb. fold (LZ None l') in Ec. injection Ea as <-. injection Eb as <-. injection Ec as <-.
  assert ((8 * 267 + 10 + 2 * 0) * (2 * (3 * 3)) * u * weights l <= err).
  { unfold err. assert (0 <= u * weights l) by (apply Rmult_le_pos; [lra|apply weights_range; exact HB]). nra. }
  repeat split; eapply Rle_trans; eauto.
Qed.
End Main.

(** *** C68 *)

(** In floating point, star_align turns every particle by one rotation up to 800 units of rounding
    of its largest coordinate, and the angular momentum of the turned stars, computed without error,
    points along z up to [50 (k + 1000)] units of rounding of the sum of mass times position times
    velocity. *)
Lemma c68_turned : forall (S : Num) (RS : Rounded S) u K, graceful RS u -> 0 < u -> u <= bpow radix2 (-40) -> sums_well RS u K ->
  forall (g : galaxy S) ls ld lg, constructible g ->
  reads_set RS (g_stars g) ls -> reads_set RS (g_dm g) ld -> reads_set RS (g_gas g) lg ->
  (forall q, In q ld \/ In q lg -> bounded q) -> clear_spin u (K (length ls)) ls ->
  exists h M ls' ld' lg', star_align g None = Ok h /\ rotation M /\
    reads_set RS (g_stars h) ls' /\ reads_set RS (g_dm h) ld' /\ reads_set RS (g_gas h) lg' /\
    Forall2 (turned_near u M) ls ls' /\ Forall2 (turned_near u M) ld ld' /\ Forall2 (turned_near u M) lg lg' /\
    (let err := 50 * (K (length ls) + 1000) * u * weights ls in
     Rabs (LX None ls') <= err /\ Rabs (LY None ls') <= err /\ Rabs (LZ None ls' - Lnorm None ls) <= err).
Proof.
  intros S RS u K U U0 U1 UK g ls ld lg Hg Rs Rd Rg HB CS. apply constructible_ok in Hg.
  destruct (reads_cols RS _ _ Rs) as (bs & Cs & Fs). destruct (reads_cols RS _ _ Rd) as (bd & Cd & Fd). destruct (reads_cols RS _ _ Rg) as (bg & Cg & Fg).
  pose proof (matrix_none g bs Hg Cs) as GM. destruct (core RS u K U U0 U1 UK ls bs Fs CS) as (M & Q & RM & AM & B1 & B2 & B3 & B4 & _).
  rewrite <- GM in AM. pose proof (clear_nonempty u _ _ CS) as NE. destruct CS as (HBs & HN & HK & _).
  destruct (turned_reads RS u U U0 U1 _ M _ bs ls AM Cs Fs HBs) as (ls' & Rs' & Ts).
  destruct (turned_reads RS u U U0 U1 _ M _ bd ld AM Cd Fd ltac:(auto)) as (ld' & Rd' & Td).
  destruct (turned_reads RS u U U0 U1 _ M _ bg lg AM Cg Fg ltac:(auto)) as (lg' & Rg' & Tg).
  exists (rot_gal (gal_matrix g None) g), M, ls', ld', lg'.
  split; [now rewrite star_align_eq by exact Hg|]. do 7 (split; [assumption|]).
  destruct (turned_total u U0 U1 M ls ls' Ts RM HBs HN NE) as (T1 & T2 & T3).
  assert (uW : 0 <= u * weights ls) by (apply Rmult_le_pos; [lra|apply weights_range; exact HBs]).
  set (k := K (length ls)) in *.
  assert (E : 40000 * u * weights ls + 6 * ((20 + 4 * k) * u * weights ls) <= 50 * (k + 1000) * u * weights ls) by nra.
  assert (E2 : 0 <= (20 + 4 * k) * u * weights ls) by nra.
  apply Rabs_le_inv in T1, T2, T3, B1, B2, B3, B4.
  cbv zeta. repeat split; apply Rabs_le; lra.
Qed.

(** A galaxy whose stars have a clear direction of rotation is found aligned after star_align, for
    every relative tolerance of at least 10^-6 and every absolute tolerance that is not negative. *)
Lemma c68_aligned : forall (S : Num) (RS : Rounded S) u K, graceful RS u -> 0 < u -> u <= bpow radix2 (-40) -> sums_well RS u K ->
  forall (g : galaxy S) ls (rtol atol : S) rt at', constructible g -> reads_set RS (g_stars g) ls -> clear_spin u (K (length ls)) ls ->
  val RS rtol = XR rt -> / 1000000 <= rt -> val RS atol = XR at' -> 0 <= at' ->
  exists h, star_align g None = Ok h /\ is_star_aligned h None rtol atol = Ok true.
Proof.
  intros S RS u K U U0 U1 UK g ls rtol atol rt at' Hg Rs CS Ert Hrt Eat Hat. apply constructible_ok in Hg.
  destruct (reads_cols RS _ _ Rs) as (bs & Cs & Fs).
  pose proof (matrix_none g bs Hg Cs) as GM. destruct (core RS u K U U0 U1 UK ls bs Fs CS) as (M & Q & RM & AM & B1 & B2 & B3 & B4 & B5).
  rewrite <- GM in AM. pose proof (clear_nonempty u _ _ CS) as NE. destruct CS as (HBs & HN & HK & C1 & _).
  exists (rot_gal (gal_matrix g None) g). split; [now rewrite star_align_eq by exact Hg|].
  rewrite is_star_aligned_eq by (apply rot_gal_ok; exact Hg). cbn [rot_gal g_stars].
  assert (gs : pset_ok (g_stars g)) by (apply gal_ok_facts in Hg; now destruct Hg).
  rewrite (near_cols _ _ (rot_set_ok _ _ gs) (cols_rot (gal_matrix g None) _ _ Cs)).
  assert (FB : Forall2 (fun b q => ap_body RS u 266 3 b q (rotate M q)) (map (rotb (gal_matrix g None)) bs) ls).
  { clear - Fs AM HBs U U0 U1. induction Fs as [|b q bs l Hb Fs IH]; [constructor|]. cbn [map]. constructor; [|apply IH; intros q' H'; apply HBs; now right].
    apply ap_rotb; auto; [now apply reads_ap|apply HBs; now left]. }
  destruct (totals RS u K U U0 U1 UK 266 3 (rotate M) _ ls (fun x y => nmul y x) FB HBs HN HK ltac:(lra) ltac:(lra) NE ltac:(auto)) as (a & b & c & Ea & Eb & Ec & Ba & Bb & Bc).
  f_equal. set (k := K (length ls)) in *.
  assert (uW : 0 <= u * weights ls) by (apply Rmult_le_pos; [lra|apply weights_range; exact HBs]).
  apply (check_passes RS u U U0 U1 _ _ _ a b c Q (50 * (k + 1000) * u * weights ls) rtol atol rt at'); auto.
  - apply Rabs_le_inv in Ba, B1. apply Rabs_le. nra.
  - apply Rabs_le_inv in Bb, B2. apply Rabs_le. nra.
  - apply Rabs_le_inv in Bc, B3. apply Rabs_le. nra.
  - apply Rabs_le_inv in B4. nra.
  - split; [eapply Rle_trans; [|apply B5]; apply bpow_le; lia|eapply Rle_trans; [apply B5|]; apply bpow_le; lia].
Qed.

(** Adding one number after the other is good enough. *)
Lemma seq_sums : forall (S : Num) (RS : Rounded S) u, graceful RS u -> 0 < u -> u <= e (-40) ->
  (forall l : list S, nsum l = fold_left nadd l (nofZ 0)) -> sums_well RS u (fun n => 2 * INR n).
Proof.
  intros S RS u U U0 U1 Hs l rl E HN HA. rewrite Hs. clear Hs.
  set (A := Rsum (map Rabs rl)) in *.
  assert (Ty : 0 < tiny <= 1) by (unfold tiny; split; [apply bpow_gt_0|change 1 with (e 0); apply bpow_le; lia]).
  assert (G : forall (m : list S) rm x v t n, map (val RS) m = map XR rm -> val RS x = XR v -> 0 <= n -> 2 * (n + INR (length m)) <= e 21 ->
    Rabs (v - t) <= 2 * n * u * (A + tiny) -> Rabs t + Rsum (map Rabs rm) <= A ->
    exists s, val RS (fold_left nadd m x) = XR s /\ Rabs (s - (t + Rsum rm)) <= 2 * (n + INR (length m)) * u * (A + tiny)).
  { clear E HN l. induction m as [|y m IH]; intros [|r rm] x v t n E Ex Hn HL B HT; try discriminate.
    - exists v. split; [exact Ex|]. cbn [length INR Rsum fold_right]. rewrite !Rplus_0_r. exact B.
    - cbn [map] in E. injection E as Ey E. cbn [fold_left]. cbn [map Rsum fold_right] in HT. fold (Rsum (map Rabs rm)) in HT.
      cbn [length] in HL |- *. rewrite S_INR in HL |- *.
      assert (P0 : 0 <= Rsum (map Rabs rm)).
      { clear. induction rm as [|r rm IH]; [simpl; lra|]. cbn [map Rsum fold_right]. fold (Rsum (map Rabs rm)). pose proof (Rabs_pos r). lra. }
      pose proof (pos_INR (length m)) as P1. pose proof (Rabs_pos t) as P2. pose proof (Rabs_pos r) as P3.
      assert (NU : 2 * n * u <= / 4).
      { apply Rle_trans with (e 21 * e (-40)); [apply Rmult_le_compat; lra|]. rewrite e_add. apply Rle_trans with (e (-2)); [apply bpow_le; lia|simpl; lra]. }
      assert (A0 : 0 <= A) by lra.
      assert (Nb : 2 * n * u * (A + tiny) <= / 4 * (A + tiny)) by (apply Rmult_le_compat_r; lra).
      assert (Vr : Rabs (v + r) <= A + / 4 * (A + tiny)).
      { replace (v + r) with ((v - t) + (t + r)) by ring. eapply Rle_trans; [apply Rabs_triang|]. pose proof (Rabs_triang t r). lra. }
      destruct (U (v + r)) as (w & Ew & Bw).
      { unfold huge. apply Rle_trans with (2 * e 900); [|replace 2 with (e 1) by (simpl; lra); rewrite e_add; apply bpow_le; lia].
        assert (1 <= e 900) by (change 1 with (e 0); apply bpow_le; lia). lra. }
      destruct (IH rm (x + y)%num w (t + r) (n + 1) E) as (s & Es & Bs).
      + rewrite (val_add RS), Ex, Ey. exact Ew.
      + lra.
      + lra.
      + replace (w - (t + r)) with ((w - (v + r)) + (v - t)) by ring. eapply Rle_trans; [apply Rabs_triang|].
        assert (u * (Rabs (v + r) + tiny) <= u * (2 * (A + tiny))) by (apply Rmult_le_compat_l; lra).
        replace (2 * (n + 1) * u * (A + tiny)) with (u * (2 * (A + tiny)) + 2 * n * u * (A + tiny)) by ring. lra.
      + pose proof (Rabs_triang t r). lra.
      + exists s. split; [exact Es|]. cbn [Rsum fold_right]. fold (Rsum rm). replace (t + (r + Rsum rm)) with (t + r + Rsum rm) by ring.
        replace (n + (INR (length m) + 1)) with (n + 1 + INR (length m)) by ring. exact Bs. }
  destruct (G l rl (nofZ 0) 0 0 0 E) as (s & Es & Bs).
  - rewrite (val_ofZ RS), (rnd_int RS); [reflexivity|]. pose proof (intmax_pos RS). lia.
  - lra.
  - rewrite Rplus_0_l. exact HN.
  - replace (0 - 0) with 0 by ring. rewrite Rabs_R0. lra.
  - rewrite Rabs_R0. unfold A. lra.
  - exists s. split; [exact Es|]. rewrite !Rplus_0_l in Bs. exact Bs.
Qed.

(** Double precision, adding one number after the other, is such an arithmetic. *)
Lemma c68_double : let RS := F64_rounded (seqsum 53 1024 p53 e1024) in let u := / IZR (2 ^ 53) in
  graceful RS u /\ 0 < u /\ u <= bpow radix2 (-40) /\ sums_well RS u (fun n => 2 * INR n).
Proof.
  cbv zeta. assert (A : 0 < / IZR (2 ^ 53)) by (apply Rinv_0_lt_compat; apply IZR_lt; reflexivity).
  assert (B : / IZR (2 ^ 53) <= e (-40)) by (change (/ IZR (2 ^ 53)) with (e (-53)); apply bpow_le; lia).
  split; [apply F64_graceful|]. split; [exact A|]. split; [exact B|].
  apply seq_sums; [apply F64_graceful|exact A|exact B|]. intros l. reflexivity.
Qed.

(** In particular in double precision with the default tolerances. *)
Lemma c68_default : forall (g : galaxy F64) ls, constructible g -> reads_set (F64_rounded (seqsum 53 1024 p53 e1024)) (g_stars g) ls ->
  clear_spin (/ IZR (2 ^ 53)) (2 * INR (length ls)) ls ->
  exists h, star_align g None = Ok h /\ is_star_aligned h None (nlit 1 100000) (nlit 1 100000000) = Ok true.
Proof.
  intros g ls Hg Rs CS. destruct c68_double as (G & U0 & U1 & UK). cbv zeta in *. set (RS := F64_rounded _) in *. set (u := / IZR (2 ^ 53)) in *.
  assert (U2 : u <= / 1000000000000) by (eapply Rle_trans; [exact U1|simpl; lra]).
  assert (Ty : 0 < tiny <= / 1000000000000) by (unfold tiny; split; [apply bpow_gt_0|apply Rle_trans with (e (-40)); [apply bpow_le; lia|simpl; lra]]).
  assert (L : forall q, (1024 <= q <= 1000000000)%Z -> exists v, val RS (nlit (N:=F64) 1 q) = XR v /\ Rabs (v - / IZR q) <= u * (/ IZR q + tiny)).
  { intros q Hq. assert (Q0 : 1024 <= IZR q) by (apply IZR_le; lia).
    assert (I0 : 0 < / IZR q <= 1) by (split; [apply Rinv_0_lt_compat; lra|rewrite <- Rinv_1; apply Rinv_le_contravar; lra]).
    assert (Vz : forall z, (0 <= z <= 1000000000)%Z -> val RS (nofZ (N:=F64) z) = XR (IZR z)).
    { intros z Hz. change (nofZ (N:=F64) z) with (nofZ (N:=F64s (seqsum 53 1024 p53 e1024)) z). rewrite (val_ofZ RS). apply (rnd_int RS).
      change (intmax RS) with (2 ^ 53)%Z. lia. }
    unfold nlit. change (@ndiv F64) with (@ndiv (F64s (seqsum 53 1024 p53 e1024))). rewrite (val_div RS); rewrite ?Vz by lia.
    2:{ intros H. injection H as H. lra. }
    unfold xdiv. destruct (Req_EM_T (IZR q) 0); [lra|]. destruct (G (1 / IZR q)) as (v & Ev & Bv).
    { rewrite Rabs_pos_eq by lra. unfold huge. apply Rle_trans with (e 0); [simpl; lra|apply bpow_le; lia]. }
    exists v. split; [exact Ev|]. replace (1 / IZR q) with (/ IZR q) in Bv by (field; lra). rewrite (Rabs_pos_eq (/ IZR q)) in Bv by lra. exact Bv. }
  destruct (L 100000%Z ltac:(lia)) as (rt & Ert & Brt). destruct (L 100000000%Z ltac:(lia)) as (at' & Eat & Bat).
  apply Rabs_le_inv in Brt, Bat.
  assert (u * (/ 100000 + tiny) <= / 1000000000000) by (apply Rle_trans with (/ 1000000000000 * 1); [apply Rmult_le_compat; lra|lra]).
  assert (u * (/ 100000000 + tiny) <= / 1000000000000) by (apply Rle_trans with (/ 1000000000000 * 1); [apply Rmult_le_compat; lra|lra]).
  apply (c68_aligned _ RS u (fun n => 2 * INR n) G U0 U1 UK g ls (nlit 1 100000) (nlit 1 100000000) rt at'); auto; lra.
Qed.

(** Two stars moving around the axis (0, -1, 1), a dark matter particle, no gas. *)
Definition exT_set (t : ptype) (m x y z vx vy vz : list Z) : pset F64 :=
  pset_of (N:=F64) t (fZs m) (fZs x) (fZs y) (fZs z) (fZs vx) (fZs vy) (fZs vz) None (fZ 0).
Definition exT_gal : galaxy F64 :=
  mkGal (exT_set STARS [1; 1] [1; -1] [0; 0] [0; 0] [0; 0] [1; -1] [1; -1])%Z
        (exT_set DARK_MATTER [2] [3] [4] [5] [6] [7] [8])%Z (exT_set GAS [] [] [] [] [] [] [])%Z false.
Lemma exT_gal_ok : constructible exT_gal.
Proof.
  apply constructible_ok, gal_ok_facts. constructor; try reflexivity.
  all: apply pset_ok_iff; split; [|reflexivity]; repeat split; intros p; discriminate.
Qed.
Definition exT_stars : list particle := [Part 1 1 0 0 0 1 1; Part 1 (-1) 0 0 0 (-1) (-1)].
Lemma span_1 a b c : (a = 0 \/ Rabs a = 1) -> (b = 0 \/ Rabs b = 1) -> (c = 0 \/ Rabs c = 1) -> Rabs a = 1 \/ Rabs b = 1 \/ Rabs c = 1 -> span a b c = 1.
Proof.
  intros A B C H. assert (A' : Rabs a <= 1) by (destruct A as [-> | ->]; rewrite ?Rabs_R0; lra). assert (B' : Rabs b <= 1) by (destruct B as [-> | ->]; rewrite ?Rabs_R0; lra).
  assert (C' : Rabs c <= 1) by (destruct C as [-> | ->]; rewrite ?Rabs_R0; lra). destruct (span_ge a b c) as (_ & X & Y & Z).
  assert (e (-100) <= 1) by (change 1 with (e 0); apply bpow_le; lia).
  apply Rle_antisym; [unfold span; repeat apply Rmax_lub; assumption|]. destruct H as [H|[H|H]]; rewrite H in *; assumption.
Qed.

Lemma exT_spin : clear_spin (/ IZR (2 ^ 53)) (2 * INR 2) exT_stars.
Proof.
  assert (A1 : Rabs 1 = 1) by (apply Rabs_pos_eq; lra). assert (A2 : Rabs (-1) = 1) by (rewrite Rabs_left; lra).
  assert (S1 : span 1 0 0 = 1) by (apply span_1; auto). assert (S2 : span (-1) 0 0 = 1) by (apply span_1; auto).
  assert (S3 : span 0 1 1 = 1) by (apply span_1; auto). assert (S4 : span 0 (-1) (-1) = 1) by (apply span_1; auto).
  assert (E1 : 1 <= e 100) by (change 1 with (e 0); apply bpow_le; lia).
  assert (W : weights exT_stars = 2).
  { unfold weights, exT_stars, weight. cbn [sumR fold_right pm px py pz pvx pvy pvz]. rewrite S1, S2, S3, S4, A1.
    rewrite Rmax_right by (change 1 with (e 0); apply bpow_le; lia). ring. }
  assert (LX0 : LX None exT_stars = 0) by (unfold LX, exT_stars, lx; cbn [filter inside sumR fold_right pm px py pz pvx pvy pvz]; ring).
  assert (LY0 : LY None exT_stars = -2) by (unfold LY, exT_stars, ly; cbn [filter inside sumR fold_right pm px py pz pvx pvy pvz]; ring).
  assert (LZ0 : LZ None exT_stars = 2) by (unfold LZ, exT_stars, lz; cbn [filter inside sumR fold_right pm px py pz pvx pvy pvz]; ring).
  assert (U : / IZR (2 ^ 53) <= / 1000000000000) by (apply Rinv_le_contravar; [lra|apply IZR_le; lia]).
  split; [intros q [<-|[<-|[]]]; unfold bounded; cbn [pm px py pz pvx pvy pvz]; rewrite ?S1, ?S2, ?S3, ?S4, A1; auto|].
  split; [simpl; lra|]. split; [simpl; lra|]. unfold Lnorm, Lplane. rewrite W, LX0, LY0, LZ0.
  split.
  - apply Rle_trans with (sqrt (2 * 2)); [rewrite sqrt_square by lra; simpl INR; lra|]. apply sqrt_le_1_alt. lra.
  - replace (0 * 0 + -2 * -2) with (2 * 2) by ring. rewrite sqrt_square by lra.
    assert (e (-390) <= 1) by (change 1 with (e 0); apply bpow_le; lia). simpl INR. lra.
Qed.
Lemma exT_reads : let RS := F64_rounded (seqsum 53 1024 p53 e1024) in
  reads_set RS (g_stars exT_gal) exT_stars /\ reads_set RS (g_dm exT_gal) [Part 2 3 4 5 6 7 8] /\ reads_set RS (g_gas exT_gal) [].
Proof.
  cbv zeta. set (RS := F64_rounded _).
  assert (V : forall z, (Z.abs z <= 1024)%Z -> val RS (fZ z) = XR (IZR z)).
  { intros z Hz. unfold fZ. change (nofZ (N:=F64) z) with (nofZ (N:=F64s (seqsum 53 1024 p53 e1024)) z). rewrite (val_ofZ RS). apply (rnd_int RS). pose proof (intmax_pos RS). lia. }
  assert (M : forall zs rs, Forall2 (fun z r => (Z.abs z <= 1024)%Z /\ IZR z = r) zs rs -> map (val RS) (fZs zs) = map XR rs).
  { induction 1 as [|z r zs rs [H1 H2] F IH]; [reflexivity|]. change (fZs (z :: zs)) with (fZ z :: fZs zs). cbn [map]. etransitivity; [exact (f_equal2 cons (V z H1) IH)|]. now rewrite H2. }
  split; [|split].
  - repeat split; (etransitivity; [apply M; repeat (constructor; [split; [lia|reflexivity]|]); constructor|reflexivity]).
  - repeat split; (etransitivity; [apply M; repeat (constructor; [split; [lia|reflexivity]|]); constructor|reflexivity]).
  - repeat split.
Qed.

(** The two stars meet the hypotheses; the galaxy is found aligned with the default tolerances. *)
Example ex_c68 : clear_spin (/ IZR (2 ^ 53)) (2 * INR 2) exT_stars /\
  (let RS := F64_rounded (seqsum 53 1024 p53 e1024) in
   reads_set RS (g_stars exT_gal) exT_stars /\ reads_set RS (g_dm exT_gal) [Part 2 3 4 5 6 7 8] /\ reads_set RS (g_gas exT_gal) []) /\
  constructible exT_gal /\
  (do h <- star_align exT_gal None; is_star_aligned h None (nlit 1 100000) (nlit 1 100000000)) = Ok true /\
  is_star_aligned exT_gal None (nlit 1 100000) (nlit 1 100000000) = Ok false.
Proof.
  split; [exact exT_spin|]. split; [exact exT_reads|]. split; [exact exT_gal_ok|]. split; vm_compute; reflexivity.
Qed.

(** Without a clear direction it fails: a star that moves (up to rounding) straight outwards is not
    found aligned after star_align, with the default tolerances 10^-5 and 10^-8, although every number
    is finite. *)
Lemma c68_every_refuted : exists g h : galaxy F64, constructible g /\ star_align g None = Ok h /\
  forallb nfin (p_x (g_stars h) ++ p_y (g_stars h) ++ p_z (g_stars h) ++ p_vx (g_stars h) ++ p_vy (g_stars h) ++ p_vz (g_stars h)) = true /\
  is_star_aligned h None (nlit 1 100000) (nlit 1 100000000) = Ok false.
Proof.
  set (g := mkGal (pset_of (N:=F64) STARS [nofZ 10000000000] [nlit 54 10] [nlit 75 10] [nlit 41 10] [nlit 162 10] [nlit 225 10] [nlit 123 10] None (fZ 0))
    (exT_set DARK_MATTER [] [] [] [] [] [] []) (exT_set GAS [] [] [] [] [] [] []) false : galaxy F64).
  exists g, (rot_gal (gal_matrix g None) g).
  assert (Hg : gal_ok g).
  { apply gal_ok_facts. constructor; try reflexivity. all: apply pset_ok_iff; split; [|reflexivity]; repeat split; intros p; discriminate. }
  split; [apply constructible_ok; exact Hg|]. split; [now rewrite star_align_eq by exact Hg|].
  split; vm_compute; reflexivity.
Qed.
