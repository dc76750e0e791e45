(** Rounding errors of the interpolation of the circular curve. *)
From Verif Require Import Py Num RX F64 Np Data Spec SpecR SpecCirc SpecAlAcc Center CenterFacts Circ CircFacts CurveFacts CircThms AlAccFacts CtrAccThms.
From Flocq Require Import Core.
From Coq Require Import Lra Lia Sorted.
Local Open Scope R_scope.
Local Notation e := (bpow radix2).

(** A relative error as a factor. *)
Lemma factor a x u : 0 <= u -> Rabs (a - x) <= u * Rabs x -> exists d, Rabs d <= u /\ a = x * (1 + d).
Proof.
  intros U H. destruct (Req_EM_T x 0) as [->|N].
  - exists 0. rewrite Rabs_R0, Rmult_0_r in H. rewrite Rabs_R0. split; [exact U|].
    destruct (Req_EM_T (a - 0) 0) as [E|E]; [lra|]. apply Rabs_pos_lt in E. lra.
  - exists ((a - x) / x). split; [|field; exact N]. unfold Rdiv. rewrite Rabs_mult, Rabs_inv.
    apply Rmult_le_reg_r with (Rabs x); [now apply Rabs_pos_lt|]. rewrite Rmult_assoc, Rinv_l; [lra|]. now apply Rabs_no_R0.
Qed.

(** The formula of [np.interp] with all its roundings. *)
Lemma seg_real D X V d1 d2 d3 s m r y0 u t :
  0 < X -> 0 <= V <= X -> V <= 1 -> 0 <= y0 <= 1 -> 0 <= y0 + D <= 1 -> 0 < u <= / 1000 -> 0 <= t <= / 1000 ->
  Rabs (d1 - D) <= u * Rabs D -> Rabs (d2 - X) <= u * Rabs X -> Rabs (d3 - V) <= u * Rabs V ->
  Rabs (s - d1 / d2) <= u * (Rabs (d1 / d2) + t) -> Rabs (m - s * d3) <= u * (Rabs (s * d3) + t) ->
  Rabs (r - (m + y0)) <= u * (Rabs (m + y0) + t) ->
  Rabs (r - (y0 + D * (V / X))) <= 9 * u.
Proof.
  intros X0 V0 V1 Y0 Y1 U T H1 H2 H3 Hs Hm Hr.
  destruct (factor d1 D u) as (e1 & E1 & ->); [lra|exact H1|]. destruct (factor d2 X u) as (e2 & E2 & ->); [lra|exact H2|].
  destruct (factor d3 V u) as (e3 & E3 & ->); [lra|exact H3|]. clear H1 H2 H3.
  apply Rabs_le_inv in E1. apply Rabs_le_inv in E2. apply Rabs_le_inv in E3.
  set (q := D * (1 + e1) / (X * (1 + e2))) in *. set (T' := V / X).
  assert (HT : 0 <= T' <= 1).
  { unfold T'. split; [apply Rmult_le_pos; [lra|left; now apply Rinv_0_lt_compat]|].
    apply Rmult_le_reg_r with X; [exact X0|]. unfold Rdiv. rewrite Rmult_assoc, Rinv_l by lra. lra. }
  set (f := (1 + e1) * (1 + e3) / (1 + e2) - 1).
  assert (F : Rabs f <= 4 * u).
  { unfold f. replace ((1 + e1) * (1 + e3) / (1 + e2) - 1) with (((1 + e1) * (1 + e3) - (1 + e2)) * / (1 + e2)) by (field; lra).
    assert (I : 0 < / (1 + e2)) by (apply Rinv_0_lt_compat; lra).
    assert (I1 : / (1 + e2) * (1 + e2) = 1) by (field; lra).
    assert (I2 : / (1 + e2) <= 11 / 10) by nra.
    assert (B : Rabs ((1 + e1) * (1 + e3) - (1 + e2)) <= 31 / 10 * u).
    { apply Rabs_le. replace ((1 + e1) * (1 + e3) - (1 + e2)) with (e1 + e3 - e2 + e1 * e3) by ring.
      assert (- (/ 1000 * u) <= e1 * e3 <= / 1000 * u) by (split; nra). lra. }
    rewrite Rabs_mult, (Rabs_pos_eq (/ (1 + e2))) by lra. pose proof (Rabs_pos ((1 + e1) * (1 + e3) - (1 + e2))). nra. }
  assert (Q : q * (V * (1 + e3)) = D * T' * (1 + f)) by (unfold q, f, T'; field; lra).
  set (c := D * T') in *.
  assert (C : - 1 <= c <= 1 /\ 0 <= y0 + c <= 1) by (unfold c; split; [split; nra|split; nra]).
  apply Rabs_le_inv in F. assert (W0 : 0 <= V * (1 + e3) <= 2) by nra.
  assert (S : Rabs (s * (V * (1 + e3)) - c * (1 + f)) <= u * (Rabs (c * (1 + f)) + 2 * t)).
  { rewrite <- Q. replace (s * (V * (1 + e3)) - q * (V * (1 + e3))) with ((s - q) * (V * (1 + e3))) by ring.
    rewrite !Rabs_mult. rewrite <- Rabs_mult. rewrite (Rabs_pos_eq (V * (1 + e3))) by lra.
    apply Rle_trans with (u * (Rabs q + t) * (V * (1 + e3))); [apply Rmult_le_compat_r; [lra|exact Hs]|].
    replace (u * (Rabs q + t) * (V * (1 + e3))) with (u * (Rabs q * (V * (1 + e3)) + t * (V * (1 + e3)))) by ring.
    apply Rmult_le_compat_l; [lra|]. generalize dependent (V * (1 + e3)). intros v. intros. nra. }
  set (sd := s * (V * (1 + e3))) in *.
  assert (CF : Rabs (c * (1 + f)) <= 102 / 100 /\ Rabs (c * (1 + f) - c) <= 4 * u).
  { split; [apply Rabs_le; nra|]. replace (c * (1 + f) - c) with (c * f) by ring. apply Rabs_le. nra. }
  destruct CF as [C1 C2]. set (cf := c * (1 + f)) in *.
  assert (S1 : Rabs (sd - cf) <= 103 / 100 * u) by (eapply Rle_trans; [exact S|]; nra).
  assert (S2 : Rabs sd <= 104 / 100).
  { replace sd with (sd - cf + cf) by ring. eapply Rle_trans; [apply Rabs_triang|]. lra. }
  assert (M1 : Rabs (m - sd) <= 105 / 100 * u) by (eapply Rle_trans; [exact Hm|]; nra).
  assert (M2 : Rabs (m - c) <= 7 * u).
  { replace (m - c) with ((m - sd) + ((sd - cf) + (cf - c))) by ring.
    eapply Rle_trans; [apply Rabs_triang|]. pose proof (Rabs_triang (sd - cf) (cf - c)). lra. }
  assert (R1 : Rabs (m + y0) <= 102 / 100).
  { replace (m + y0) with ((m - c) + (y0 + c)) by ring. eapply Rle_trans; [apply Rabs_triang|]. rewrite (Rabs_pos_eq (y0 + c)) by lra. lra. }
  replace (r - (y0 + c)) with ((r - (m + y0)) + (m - c)) by ring.
  eapply Rle_trans; [apply Rabs_triang|]. assert (Rabs (r - (m + y0)) <= 103 / 100 * u) by (eapply Rle_trans; [exact Hr|]; nra). lra.
Qed.

Notation u53 := (/ IZR (2 ^ 53)).
Lemma u53_pos : 0 < u53 <= / 1000.
Proof. split; [apply Rinv_0_lt_compat, IZR_lt; reflexivity|]. apply Rinv_le_contravar; [lra|apply IZR_le; discriminate]. Qed.
Lemma tiny_pos : 0 < tiny <= / 1000.
Proof. split; [apply bpow_gt_0|]. apply Rle_trans with (e (-10)); [apply bpow_le; lia|simpl; lra]. Qed.
Lemma huge_1023 x : x <= 2 -> x <= IZR (2 ^ 1023).
Proof. intros H. apply Rle_trans with 2; [exact H|]. apply IZR_le. discriminate. Qed.
Lemma huge_2 x : x <= 2 -> x <= huge.
Proof. intros H. apply Rle_trans with (e 1); [simpl; lra|apply bpow_le; lia]. Qed.

Section Interp.
Context (sm : list f64 -> f64).
Local Notation v := (val (F64_rounded sm)).

Lemma seg_acc (x0 y0 x1 y1 w : F64s sm) rx0 ry0 rx1 ry1 rw :
  v x0 = XR rx0 -> v y0 = XR ry0 -> v x1 = XR rx1 -> v y1 = XR ry1 -> v w = XR rw ->
  -1 <= rx0 -> rx0 <= rw <= rx1 -> rx1 <= 0 -> e (-900) <= rx1 - rx0 -> 0 <= ry0 <= 1 -> 0 <= ry1 <= 1 ->
  exists r, v ((y1 - y0) / (x1 - x0) * (w - x0) + y0)%num = XR r /\
    Rabs (r - (ry0 + (ry1 - ry0) * ((rw - rx0) / (rx1 - rx0)))) <= 9 * u53.
Proof.
  intros X0 Y0 X1 Y1 W L0 L1 L2 G B0 B1. pose proof u53_pos as U. pose proof tiny_pos as T.
  pose proof (bpow_gt_0 radix2 (-900)) as G0.
  destruct (sub_acc sm y1 y0 ry1 ry0 Y1 Y0) as (d1 & D1 & E1 & _); [apply huge_1023, Rabs_le; lra|].
  destruct (sub_acc sm x1 x0 rx1 rx0 X1 X0) as (d2 & D2 & E2 & _); [apply huge_1023, Rabs_le; lra|].
  destruct (sub_acc sm w x0 rw rx0 W X0) as (d3 & D3 & E3 & _); [apply huge_1023, Rabs_le; lra|].
  assert (P2 : (rx1 - rx0) / 2 <= d2).
  { apply Rabs_le_inv in E2. rewrite Rabs_pos_eq in E2 by lra. nra. }
  assert (B1' : Rabs d1 <= 2).
  { replace d1 with ((d1 - (ry1 - ry0)) + (ry1 - ry0)) by ring. eapply Rle_trans; [apply Rabs_triang|].
    assert (Rabs (ry1 - ry0) <= 1) by (apply Rabs_le; lra). pose proof (Rabs_pos (ry1 - ry0)). nra. }
  assert (B3' : 0 <= d3 <= 2).
  { apply Rabs_le_inv in E3. rewrite Rabs_pos_eq in E3 by lra. nra. }
  assert (B4 : Rabs (d1 / d2) <= e 902).
  { unfold Rdiv. rewrite Rabs_mult, Rabs_inv, (Rabs_pos_eq d2) by lra.
    apply Rmult_le_reg_r with d2; [lra|]. rewrite Rmult_assoc, Rinv_l, Rmult_1_r by lra.
    apply Rle_trans with (e 902 * (e (-900) / 2)).
    - replace (e 902 * (e (-900) / 2)) with (e 902 * e (-900) / 2) by (unfold Rdiv; ring). rewrite e_add. simpl. lra.
    - apply Rmult_le_compat_l; [left; apply bpow_gt_0|lra]. }
  destruct (F64_graceful sm (d1 / d2)) as (s & S & Es).
  { eapply Rle_trans; [exact B4|]. apply bpow_le. lia. }
  assert (Vs : v ((y1 - y0) / (x1 - x0))%num = XR s).
  { rewrite (val_div (F64_rounded sm)); rewrite D2; [|intros [= Z]; lra]. rewrite D1. rewrite <- S. f_equal. simpl.
    destruct (Req_EM_T d2 0) as [Z|_]; [lra|reflexivity]. }
  assert (B5 : Rabs (s * d3) <= e 950).
  { rewrite Rabs_mult, (Rabs_pos_eq d3) by lra.
    assert (Rabs s <= 2 * (e 902 + 1)).
    { replace s with ((s - d1 / d2) + d1 / d2) by ring. eapply Rle_trans; [apply Rabs_triang|]. pose proof (Rabs_pos (d1 / d2)). nra. }
    pose proof (Rabs_pos s). apply Rle_trans with (2 * (e 902 + 1) * 2); [apply Rmult_le_compat; lra|].
    apply Rle_trans with (e 902 * e 3); [|rewrite e_add; apply bpow_le; lia].
    assert (1 <= e 902) by (apply Rle_trans with (e 0); [simpl; lra|apply bpow_le; lia]). simpl (e 3). lra. }
  destruct (F64_graceful sm (s * d3)) as (m & M & Em).
  { eapply Rle_trans; [exact B5|]. apply bpow_le. lia. }
  assert (Vm : v ((y1 - y0) / (x1 - x0) * (w - x0))%num = XR m).
  { rewrite (val_mul (F64_rounded sm)), Vs, D3. exact M. }
  destruct (F64_graceful sm (m + ry0)) as (r & R & Er).
  { eapply Rle_trans; [apply Rabs_triang|]. rewrite (Rabs_pos_eq ry0) by lra.
    assert (Rabs m <= 2 * (e 950 + 1)).
    { replace m with ((m - s * d3) + s * d3) by ring. eapply Rle_trans; [apply Rabs_triang|]. pose proof (Rabs_pos (s * d3)). nra. }
    assert (1 <= e 950) by (apply Rle_trans with (e 0); [simpl; lra|apply bpow_le; lia]).
    apply Rle_trans with (e 950 * e 3); [|rewrite e_add; apply bpow_le; lia]. simpl (e 3). lra. }
  exists r. split; [rewrite (val_add (F64_rounded sm)), Vm, Y0; exact R|].
  apply (seg_real (ry1 - ry0) (rx1 - rx0) (rw - rx0) d1 d2 d3 s m r ry0 u53 tiny); try lra; assumption.
Qed.

(** The points of the curve as real numbers. *)
Definition pt_reads (p : F64s sm * F64s sm) (q : R * R) : Prop := v (fst p) = XR (fst q) /\ v (snd p) = XR (snd q).
Definition in_box (q : R * R) : Prop := -1 <= fst q <= 0 /\ 0 <= snd q <= 1.
Definition gap (p q : R * R) : Prop := fst p + e (-900) <= fst q.

Lemma interp_seg_acc l : forall rl x y rx ry w rw, Forall2 pt_reads ((x, y) :: l) ((rx, ry) :: rl) ->
  v w = XR rw -> rx <= rw <= 0 -> StronglySorted gap ((rx, ry) :: rl) -> Forall in_box ((rx, ry) :: rl) ->
  exists r c, v (interp_seg w x y l) = XR r /\ interpolates ((rx, ry) :: rl) rw c /\ Rabs (r - c) <= 9 * u53 /\ 0 <= c <= 1.
Proof.
  induction l as [|[x1 y1] l IH]; intros rl x y rx ry w rw F W L S B; inversion F as [|? ? ? ? [Px Py] F']; subst; cbn [fst snd] in Px, Py.
  - inversion F'; subst. exists ry, ry. cbn [interp_seg]. split; [exact Py|]. split; [apply int_right; lra|].
    inversion B as [|? ? [_ B0] _]; subst. split; [|exact B0]. unfold Rminus. rewrite Rplus_opp_r, Rabs_R0. pose proof u53_pos. lra.
  - inversion F' as [|? [rx1 ry1] ? rl' [Px1 Py1] F'']; subst; cbn [fst snd] in Px1, Py1.
    inversion S as [|? ? S' G]; subst. inversion G as [|? ? G1 _]; subst. unfold gap in G1. cbn [fst] in G1.
    inversion B as [|? ? [Bx By] B']; subst. inversion B' as [|? ? [Bx1 By1] _]; subst. cbn [fst snd] in *.
    pose proof (bpow_gt_0 radix2 (-900)) as G0. cbn [interp_seg].
    destruct (nle x1 w) eqn:Q.
    + apply (nle_iff (F64_rounded sm)) in Q. rewrite Px1, W in Q. simpl in Q.
      destruct (IH rl' x1 y1 rx1 ry1 w rw F' W (conj Q (proj2 L)) S' B') as (r & c & E & I & A).
      exists r, c. split; [exact E|]. split; [apply int_skip; assumption|exact A].
    + apply (nle_false (F64_rounded sm)) in Q. rewrite Px1, W in Q. simpl in Q.
      destruct (neqb x w) eqn:Qe.
      * apply (neqb_iff (F64_rounded sm)) in Qe as [Qe _]. rewrite Px, W in Qe. injection Qe as ->.
        exists ry, ry. split; [exact Py|]. split; [apply int_left; lra|]. split; [|exact By].
        unfold Rminus. rewrite Rplus_opp_r, Rabs_R0. pose proof u53_pos. lra.
      * destruct (seg_acc x y x1 y1 w rx ry rx1 ry1 rw) as (r & E & A); auto; try lra.
        cbv zeta. assert (Nn : nisnan ((y1 - y) / (x1 - x) * (w - x) + y)%num = false)
          by (apply (nisnan_false (F64_rounded sm)); rewrite E; discriminate).
        rewrite Nn. exists r, (ry + (ry1 - ry) * ((rw - rx) / (rx1 - rx))). split; [exact E|]. split; [apply int_seg; lra|]. split; [exact A|].
        assert (HT : 0 <= (rw - rx) / (rx1 - rx) <= 1).
        { split; [apply Rmult_le_pos; [lra|left; apply Rinv_0_lt_compat; lra]|].
          apply Rmult_le_reg_r with (rx1 - rx); [lra|]. unfold Rdiv. rewrite Rmult_assoc, Rinv_l by lra. lra. }
        split; nra.
Qed.
Lemma interp1_acc pts rl w rw : Forall2 pt_reads pts rl -> pts <> [] -> v w = XR rw -> -1 <= rw <= 0 ->
  StronglySorted gap rl -> Forall in_box rl ->
  exists r c, v (interp1 pts w) = XR r /\ interpolates rl rw c /\ Rabs (r - c) <= 9 * u53 /\ 0 <= c <= 1.
Proof.
  intros F Np W L S B. destruct F as [|[x y] [rx ry] l rl [Px Py] F]; [tauto|]. cbn [interp1]. cbn [fst snd] in Px, Py.
  assert (Nn : nisnan w = false) by (apply (nisnan_false (F64_rounded sm)); rewrite W; discriminate).
  rewrite Nn. destruct (nlt w x) eqn:Q.
  - apply (nlt_iff (F64_rounded sm)) in Q. rewrite Px, W in Q. simpl in Q. exists ry, ry. split; [exact Py|]. split; [apply int_left; lra|].
    inversion B as [|? ? [_ B0] _]; subst. split; [|exact B0]. unfold Rminus. rewrite Rplus_opp_r, Rabs_R0. pose proof u53_pos. lra.
  - apply (nlt_false (F64_rounded sm)) in Q. rewrite Px, W in Q. simpl in Q.
    apply interp_seg_acc; [constructor; [split; assumption|exact F]|exact W|lra|exact S|exact B].
Qed.

(** Distinct numbers, the lower one not above -2^-40, are not too close. *)
Lemma float_gap (x y : F64s sm) rx ry : v x = XR rx -> v y = XR ry -> rx <= - e (-40) -> rx < ry -> rx + e (-900) <= ry.
Proof.
  intros X Y L H. pose proof (format_val _ _ _ X) as FX. pose proof (format_val _ _ _ Y) as FY.
  pose proof (FLT_exp_valid (3 - 1024 - 53) 53 (prec_gt_0_ := p53)) as V.
  pose proof (succ_le_lt radix2 dexp rx ry FX FY H) as S. apply Rle_trans with (succ radix2 dexp rx); [|exact S].
  unfold succ. pose proof (bpow_gt_0 radix2 (-40)) as P. rewrite Rle_bool_false by lra.
  unfold pred_pos. assert (M : (-40 < mag radix2 (- rx))%Z).
  { apply mag_gt_bpow. rewrite Rabs_pos_eq by lra. lra. }
  destruct (Req_bool _ _).
  - assert (e (-900) <= e (dexp (mag radix2 (- rx) - 1))) by (apply bpow_le; unfold FLT_exp; lia). lra.
  - assert (e (-900) <= ulp radix2 dexp (- rx)).
    { rewrite ulp_neq_0 by lra. apply bpow_le. unfold cexp, FLT_exp. lia. }
    lra.
Qed.
End Interp.
