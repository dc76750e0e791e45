(** The edges of a histogram in exact and in binary64 arithmetic. *)
From Verif Require Import Py Num RX F64 Np Df Data CenterFacts Circ Base Threshold Hist SpecHist.
From Coq Require Import Sorted.
From Flocq Require Import Core BinarySingleNaN Relative.
Local Open Scope R_scope.

(** The arithmetic the theorems about histograms are stated for. *)
Definition arith (N : Num) : Prop := N = RX \/ exists sm, N = F64s sm.

(** What the edges need beyond [Rounded]. *)
Record grid {N : Num} (RN : Rounded N) : Prop := Grid {
  g_max : intmax RN = (2 ^ 53)%Z;
  g_int : forall z, (0 < z)%Z -> rnd RN (XR (IZR z)) = XPInf \/ exists z', (0 < z')%Z /\ rnd RN (XR (IZR z)) = XR (IZR z');
  g_step : forall n d, (1 <= n <= 2 ^ 53)%Z -> (d = 1 \/ d = 2)%Z ->
    exists s, rnd RN (XR (IZR d / IZR n)) = XR s /\ 0 <= s /\ (IZR n - 1) * s <= IZR d;
  g_half : forall m s, (1 <= m <= 2 ^ 52)%Z -> rnd RN (XR (2 / IZR (2 * m))) = XR s ->
    exists t u, rnd RN (XR (IZR m * s)) = XR t /\ rnd RN (XR (t + -1)) = XR u /\ Rabs u <= bpow radix2 (-52);
  g_onehalf : rnd RN (XR (/2)) = XR (/2) }.

Lemma grid_RX : grid RX_rounded.
Proof.
  constructor.
  - reflexivity.
  - intros z Hz. right. exists z. auto.
  - intros n d Hn Hd. exists (IZR d / IZR n). assert (1 <= IZR n) by (apply IZR_le; lia).
    assert (0 < IZR d) by (apply IZR_lt; lia). split; [reflexivity|].
    assert (0 < / IZR n) by (apply Rinv_0_lt_compat; lra). split; [unfold Rdiv; nra|].
    replace ((IZR n - 1) * (IZR d / IZR n)) with (IZR d - IZR d * / IZR n) by (field; lra). nra.
  - intros m s Hm Hs. assert (Hs' : 2 / IZR (2 * m) = s) by (change (XR (2 / IZR (2 * m)) = XR s) in Hs; congruence). clear Hs. assert (1 <= IZR m) by (apply IZR_le; lia).
    exists (IZR m * s), (IZR m * s + -1). split; [reflexivity|]. split; [reflexivity|].
    rewrite <- Hs', mult_IZR. replace (IZR m * (2 / (2 * IZR m)) + -1) with 0 by (field; lra). rewrite Rabs_R0. apply bpow_ge_0.
  - reflexivity.
Qed.

Section F64.
Notation fexp := (SpecFloat.fexp 53 1024).
Notation rne := (round radix2 fexp ZnearestE).
Notation brnd := (brnd 53 1024).
Local Instance pg53 : Prec_gt_0 53 := p53.
Local Instance vexp64 : Valid_exp fexp.
Proof. apply (FLT_exp_valid (-1074) 53). Qed.

Lemma brnd_fin r : Rabs r <= bpow radix2 1000 -> brnd (XR r) = XR (rne r).
Proof.
  intros H. unfold F64.brnd. rewrite Rlt_bool_true; [reflexivity|].
  apply Rle_lt_trans with (bpow radix2 1000); [|now apply bpow_lt].
  apply abs_round_le_generic; [typeclasses eauto|typeclasses eauto| |exact H]. apply generic_format_bpow. unfold SpecFloat.fexp, SpecFloat.emin. lia.
Qed.

Lemma rne_Z z : exists z', rne (IZR z) = IZR z'.
Proof.
  destruct (Z_le_gt_dec 0 (cexp radix2 fexp (IZR z))) as [H|H].
  - unfold round, F2R. simpl. exists (ZnearestE (scaled_mantissa radix2 fexp (IZR z)) * 2 ^ cexp radix2 fexp (IZR z))%Z.
    rewrite mult_IZR. f_equal. change 2%Z with (radix_val radix2). now rewrite IZR_Zpower.
  - exists z. apply round_generic; [typeclasses eauto|].
    replace (IZR z) with (F2R (Float radix2 z 0)) by (unfold F2R; simpl; ring). apply generic_format_F2R. intros _.
    replace (F2R (Float radix2 z 0)) with (IZR z) by (unfold F2R; simpl; ring). simpl. lia.
Qed.

Lemma bfmt e : (-1074 <= e)%Z -> rne (bpow radix2 e) = bpow radix2 e.
Proof. intros H. apply round_generic; [typeclasses eauto|]. apply generic_format_bpow. unfold SpecFloat.fexp, SpecFloat.emin. lia. Qed.

Lemma grid_F64 sm : grid (F64_rounded sm).
Proof.
  constructor; change (rnd (F64_rounded sm)) with brnd.
  - reflexivity.
  - intros z Hz. unfold F64.brnd. destruct (rne_Z z) as (z' & E). rewrite E.
    assert (1 <= IZR z') as H1.
    { rewrite <- E. apply Rle_trans with (rne (bpow radix2 0)); [rewrite bfmt by lia; simpl; lra|].
      apply round_le; try typeclasses eauto. simpl. apply IZR_le. lia. }
    destruct (Rlt_bool_spec (Rabs (IZR z')) (bpow radix2 1024)) as [H|H].
    + right. exists z'. split; [|reflexivity]. apply lt_IZR. lra.
    + left. rewrite Rlt_bool_false; [reflexivity|]. apply IZR_le. lia.
  - intros n d Hn Hd. assert (1 <= IZR n) as Hn1 by (apply IZR_le; lia).
    assert (Hn2 : IZR n <= bpow radix2 53).
    { rewrite <- IZR_Zpower by lia. apply IZR_le. simpl. lia. }
    assert (Hd0 : 1 <= IZR d <= 2) by (split; apply IZR_le; lia).
    assert (0 < / IZR n <= 1) as Hi.
    { split; [apply Rinv_0_lt_compat; lra|]. rewrite <- Rinv_1. apply Rinv_le_contravar; lra. }
    assert (Hb : bpow radix2 1 <= bpow radix2 1000) by (apply bpow_le; lia). change (bpow radix2 1) with 2 in Hb.
    assert (Hq : 0 < IZR d / IZR n <= 2) by (unfold Rdiv; split; nra).
    rewrite brnd_fin.
    2:{ rewrite Rabs_pos_eq; lra. }
    exists (rne (IZR d / IZR n)). split; [reflexivity|]. split.
    { rewrite <- (round_0 radix2 fexp ZnearestE). apply round_le; try typeclasses eauto. lra. }
    assert (Er : Rabs (rne (IZR d / IZR n) - IZR d / IZR n) <= / 2 * bpow radix2 (-53 + 1) * Rabs (IZR d / IZR n)).
    { change fexp with (FLT_exp (-1074) 53). apply relative_error_N_FLT; [reflexivity|].
      rewrite Rabs_pos_eq by lra. simpl Z.add. apply Rle_trans with (bpow radix2 (-53)); [apply bpow_le; lia|].
      change (-53)%Z with (- (53))%Z. rewrite bpow_opp. apply Rle_trans with (1 * / IZR n); [|unfold Rdiv; nra].
      rewrite Rmult_1_l. apply Rinv_le_contravar; lra. }
    rewrite (Rabs_pos_eq (IZR d / IZR n)) in Er by lra.
    assert (Eu : / 2 * bpow radix2 (-53 + 1) = / bpow radix2 53).
    { replace (-53 + 1)%Z with (-(53) + 1)%Z by lia. rewrite bpow_plus, bpow_opp. change (bpow radix2 1) with 2. field. apply Rgt_not_eq, bpow_gt_0. }
    rewrite Eu in Er. apply Rabs_le_inv in Er.
    assert (0 < bpow radix2 53) by apply bpow_gt_0.
    assert (Hu : / bpow radix2 53 <= / IZR n) by (apply Rinv_le_contravar; lra).
    set (s := rne (IZR d / IZR n)) in *. set (u := / bpow radix2 53) in *. set (v := / IZR n) in *.
    assert (u > 0) by (apply Rinv_0_lt_compat; lra).
    assert (Hs : s <= IZR d * v * (1 + u)) by (unfold Rdiv in Er; fold v in Er; nra).
    assert (Hnv : IZR n * v = 1) by (unfold v; field; lra).
    apply Rle_trans with ((IZR n - 1) * (IZR d * v * (1 + u))); [apply Rmult_le_compat_l; lra|].
    replace ((IZR n - 1) * (IZR d * v * (1 + u))) with (IZR d * ((IZR n * v - v) * (1 + u))) by ring. rewrite Hnv.
    rewrite <- (Rmult_1_r (IZR d)) at 2. apply Rmult_le_compat_l; [lra|]. nra.
  - intros m s Hm Hs. assert (1 <= IZR m) as Hm1 by (apply IZR_le; lia).
    assert (Hm2 : IZR m <= bpow radix2 52).
    { rewrite <- IZR_Zpower by lia. apply IZR_le. simpl. lia. }
    assert (Hi : 0 < / IZR m <= 1).
    { split; [apply Rinv_0_lt_compat; lra|]. rewrite <- Rinv_1. apply Rinv_le_contravar; lra. }
    assert (Eq : 2 / IZR (2 * m) = / IZR m) by (rewrite mult_IZR; field; lra). rewrite Eq in Hs.
    assert (Hb : bpow radix2 1 <= bpow radix2 1000) by (apply bpow_le; lia). change (bpow radix2 1) with 2 in Hb.
    rewrite brnd_fin in Hs by (rewrite Rabs_pos_eq; lra). injection Hs as Hs.
    assert (Er : Rabs (rne (/ IZR m) - / IZR m) <= / 2 * bpow radix2 (-53 + 1) * Rabs (/ IZR m)).
    { change fexp with (FLT_exp (-1074) 53). apply relative_error_N_FLT; [reflexivity|].
      rewrite Rabs_pos_eq by lra. simpl Z.add. apply Rle_trans with (bpow radix2 (-52)); [apply bpow_le; lia|].
      change (-52)%Z with (- (52))%Z. rewrite bpow_opp. apply Rinv_le_contravar; lra. }
    rewrite Hs, (Rabs_pos_eq (/ IZR m)) in Er by lra.
    assert (Eu : / 2 * bpow radix2 (-53 + 1) = bpow radix2 (-53)).
    { rewrite bpow_plus. change (bpow radix2 1) with 2. field. }
    rewrite Eu in Er. apply Rabs_le_inv in Er. set (u := bpow radix2 (-53)) in *.
    assert (Hu : 0 < u) by apply bpow_gt_0.
    assert (Hmv : IZR m * / IZR m = 1) by (field; lra).
    assert (Hms : 1 - u <= IZR m * s <= 1 + u) by nra.
    assert (Hu2 : bpow radix2 (-52) = 2 * u).
    { unfold u. replace (-52)%Z with (-53 + 1)%Z by lia. rewrite bpow_plus. change (bpow radix2 1) with 2. ring. }
    assert (Hu1 : u <= /2).
    { change (/2) with (bpow radix2 (-1)). apply bpow_le. lia. }
    (* t lies between the neighbours of 1 *)
    assert (F1 : rne (1 - u) = 1 - u).
    { apply round_generic; [typeclasses eauto|]. apply generic_format_FLT. exists (Float radix2 (2 ^ 53 - 1) (-53)).
      - unfold F2R; cbn [Fnum Fexp]. rewrite minus_IZR. fold u. change 2%Z with (radix_val radix2). rewrite IZR_Zpower by lia.
        unfold u. rewrite Rmult_minus_distr_r, <- bpow_plus. simpl (bpow radix2 (53 + -53)). ring.
      - simpl. lia.
      - cbn [Fexp]. unfold SpecFloat.emin. lia. }
    assert (F2 : rne (1 + 2 * u) = 1 + 2 * u).
    { apply round_generic; [typeclasses eauto|]. apply generic_format_FLT. exists (Float radix2 (2 ^ 52 + 1) (-52)).
      - unfold F2R; cbn [Fnum Fexp]. rewrite plus_IZR. replace (IZR (2 ^ 52)) with (bpow radix2 52) by (rewrite <- IZR_Zpower by lia; reflexivity).
        rewrite Rmult_plus_distr_r, <- bpow_plus, Hu2. change (bpow radix2 (52 + -52)) with 1. ring.
      - simpl. lia.
      - cbn [Fexp]. unfold SpecFloat.emin. lia. }
    assert (Ht : 1 - u <= rne (IZR m * s) <= 1 + 2 * u).
    { split; [rewrite <- F1 at 1|rewrite <- F2]; apply round_le; try typeclasses eauto; lra. }
    exists (rne (IZR m * s)), (rne (rne (IZR m * s) + -1)).
    assert (0 <= IZR m * s) by lra.
    split; [apply brnd_fin; rewrite Rabs_pos_eq; lra|].
    assert (Hx : - (2 * u) <= rne (IZR m * s) + -1 <= 2 * u) by lra.
    split; [apply brnd_fin; apply Rabs_le; lra|].
    rewrite Hu2. apply abs_round_le_generic; try typeclasses eauto; [|apply Rabs_le; lra].
    rewrite <- Hu2. apply generic_format_bpow. unfold SpecFloat.fexp, SpecFloat.emin. lia.
  - change (/2) with (bpow radix2 (-1)). rewrite brnd_fin.
    + f_equal. apply bfmt. lia.
    + rewrite Rabs_pos_eq by apply bpow_ge_0. apply bpow_le. lia.
Qed.
End F64.

Lemma arith_grid (N : Num) : arith N -> exists RN : Rounded N, grid RN.
Proof. intros [->|(sm & ->)]; [exists RX_rounded; apply grid_RX|exists (F64_rounded sm); apply grid_F64]. Qed.

Section Edges.
Context {N : Num} (RN : Rounded N) (G : grid RN).
Notation v := (val RN).
Notation rd := (rnd RN).

Lemma rnd_bet a b r : rd (XR a) = XR a -> rd (XR b) = XR b -> a <= r <= b -> exists q, rd (XR r) = XR q /\ a <= q <= b.
Proof.
  intros Ha Hb (H1 & H2). pose proof (rnd_mono RN (XR a) (XR r) H1) as M1. pose proof (rnd_mono RN (XR r) (XR b) H2) as M2.
  rewrite Ha in M1. rewrite Hb in M2. destruct (rd (XR r)) as [q| | |]; simpl in M1, M2; try contradiction. exists q. auto.
Qed.
Lemma rnd_le r s q t : rd (XR r) = XR q -> rd (XR s) = XR t -> r <= s -> q <= t.
Proof. intros Hr Hs H. pose proof (rnd_mono RN (XR r) (XR s) H) as M. rewrite Hr, Hs in M. exact M. Qed.

Lemma times10_val k x : (v x = XPInf \/ exists z, (0 < z)%Z /\ v x = XR (IZR z)) ->
  v (times10 k x) = XPInf \/ exists z, (0 < z)%Z /\ v (times10 k x) = XR (IZR z).
Proof.
  revert x. induction k as [|k IH]; intros x H; [exact H|]. simpl. apply IH. rewrite (val_mul RN), (val_small RN) by lia.
  destruct H as [->|(z & Hz & ->)].
  - left. cbn [xmul xsgn]. rewrite Rcompare_Gt by lra. apply (rnd_pinf RN).
  - cbn [xmul]. rewrite <- mult_IZR. apply (g_int RN G). lia.
Qed.
Lemma pow10_val d : v (pow10 d) = XPInf \/ exists z, (0 < z)%Z /\ v (pow10 d) = XR (IZR z).
Proof.
  unfold pow10. destruct (d <? 9)%nat.
  - rewrite (val_ofZ RN). apply (g_int RN G). apply Z.pow_pos_nonneg; lia.
  - apply times10_val. rewrite (val_ofZ RN). apply (g_int RN G). reflexivity.
Qed.
Lemma times10_exact k x z : v x = XR (IZR z) -> (0 < z)%Z -> (z * 10 ^ Z.of_nat k <= 2 ^ 53)%Z -> v (times10 k x) = XR (IZR (z * 10 ^ Z.of_nat k)).
Proof.
  revert x z. induction k as [|k IH]; intros x z Hx Hz Hb; [simpl; rewrite Z.mul_1_r; exact Hx|].
  rewrite Nat2Z.inj_succ, Z.pow_succ_r in * by lia. cbn [times10].
  replace (z * (10 * 10 ^ Z.of_nat k))%Z with (z * 10 * 10 ^ Z.of_nat k)%Z in * by ring. apply IH; try lia.
  rewrite (val_mul RN), Hx, (val_small RN) by lia. cbn [xmul]. rewrite <- mult_IZR. apply (rnd_int RN). rewrite (g_max RN G).
  assert (0 < 10 ^ Z.of_nat k)%Z by (apply Z.pow_pos_nonneg; lia). nia.
Qed.
Lemma pow10_exact d : (d <= 15)%nat -> v (pow10 d) = XR (IZR (10 ^ Z.of_nat d)).
Proof.
  intros H. unfold pow10. destruct (Nat.ltb_spec d 9) as [L|L].
  - rewrite (val_ofZ RN). apply (rnd_int RN). rewrite (g_max RN G). rewrite Z.abs_eq by (apply Z.pow_nonneg; lia).
    apply Z.le_trans with (10 ^ 9)%Z; [apply Z.pow_le_mono_r; lia|lia].
  - rewrite (times10_exact (d - 9) _ (10 ^ 9)).
    + rewrite <- Z.pow_add_r by lia. do 3 f_equal. lia.
    + rewrite (val_ofZ RN). apply (rnd_int RN). rewrite (g_max RN G). lia.
    + reflexivity.
    + rewrite <- Z.pow_add_r by lia. apply Z.le_trans with (10 ^ 15)%Z; [apply Z.pow_le_mono_r; lia|lia].
Qed.

(** Values of the edges before rounding. *)
Lemma linspace_length (a b : N) n : length (linspace a b n) = S n.
Proof. unfold linspace. rewrite app_length, map_length, seq_length. simpl. lia. Qed.

Lemma linspace_nth (a b : N) n i : (i < n)%nat ->
  nth i (linspace a b n) nnan = (nofZ (Z.of_nat i) * ((b - a) / nofZ (Z.of_nat n)) + a)%num.
Proof.
  intros H. unfold linspace. rewrite app_nth1 by (rewrite map_length, seq_length; exact H).
  apply nth_error_nth. rewrite nth_error_map, (nth_error_nth' _ 0%nat) by now rewrite seq_length. now rewrite seq_nth.
Qed.
Lemma linspace_last (a b : N) n : nth n (linspace a b n) nnan = b.
Proof. unfold linspace. rewrite app_nth2; rewrite map_length, seq_length; [|lia]. now rewrite Nat.sub_diag. Qed.

Lemma rnd_Z z : (Z.abs z <= 2 ^ 53)%Z -> rd (XR (IZR z)) = XR (IZR z).
Proof. intros H. apply (rnd_int RN). now rewrite (g_max RN G). Qed.

Lemma linspace_val (a b : N) (d : Z) n : (d = 1 \/ d = 2)%Z -> v a = XR (-1) -> v b = XR (IZR (d - 1)) -> (1 <= n)%nat -> (Z.of_nat n <= 2 ^ 53)%Z ->
  exists s f, rd (XR (IZR d / IZR (Z.of_nat n))) = XR s /\
    (forall i, (i <= n)%nat -> v (nth i (linspace a b n) nnan) = XR (f i) /\ -1 <= f i <= IZR (d - 1)) /\
    f 0%nat = -1 /\ f n = IZR (d - 1) /\ (forall i, (i < n)%nat -> f i <= f (S i)) /\
    (forall i, (i < n)%nat -> exists t, rd (XR (IZR (Z.of_nat i) * s)) = XR t /\ rd (XR (t + -1)) = XR (f i)).
Proof.
  intros Hd Ha Hb Hn Hn'. destruct (g_step RN G (Z.of_nat n) d) as (s & Es & S0 & Sn); [lia|exact Hd|].
  assert (Hstep : v ((b - a) / nofZ (Z.of_nat n))%num = XR s).
  { assert (Vn : v (nofZ (Z.of_nat n)) = XR (IZR (Z.of_nat n))) by (rewrite (val_ofZ RN); apply rnd_Z; lia).
    assert (1 <= IZR (Z.of_nat n)) by (apply IZR_le; lia).
    rewrite (val_div RN), (val_sub RN), Ha, Hb, Vn; [|rewrite Vn; intros E; injection E; lra].
    unfold xsub. cbn [xopp xadd]. replace (IZR (d - 1) + - -1) with (IZR d) by (rewrite minus_IZR; lra).
    rewrite (rnd_Z d) by lia. cbn [xdiv]. destruct (Req_EM_T _ 0); [lra|]. exact Es. }
  assert (Hd1 : 0 <= IZR (d - 1) <= 1) by (split; apply IZR_le; lia).
  assert (Hdd : IZR d = IZR (d - 1) + 1) by (rewrite minus_IZR; lra).
  assert (P : forall i, (i < n)%nat -> exists t u, v (nth i (linspace a b n) nnan) = XR u /\ rd (XR (IZR (Z.of_nat i) * s)) = XR t /\ rd (XR (t + -1)) = XR u /\ -1 <= u <= IZR (d - 1)).
  { intros i Hi. assert (B : 0 <= IZR (Z.of_nat i) * s <= IZR d).
    { assert (0 <= IZR (Z.of_nat i)) by (apply IZR_le; lia). split; [nra|]. apply Rle_trans with ((IZR (Z.of_nat n) - 1) * s); [|exact Sn].
      apply Rmult_le_compat_r; [exact S0|]. rewrite <- minus_IZR. apply IZR_le. lia. }
    destruct (rnd_bet (IZR 0) (IZR d) (IZR (Z.of_nat i) * s)) as (t & Et & Bt); [apply rnd_Z; lia|apply rnd_Z; lia|exact B|].
    destruct (rnd_bet (IZR (-1)) (IZR (d - 1)) (t + -1)) as (u & Eu & Bu); [apply rnd_Z; lia|apply rnd_Z; lia|lra|].
    exists t, u. rewrite linspace_nth by exact Hi. rewrite (val_add RN), (val_mul RN), Hstep, Ha, (val_ofZ RN), rnd_Z by lia.
    cbn [xmul]. rewrite Et. cbn [xadd]. auto. }
  set (f := fun i => match v (nth i (linspace a b n) nnan) with XR r => r | _ => 0 end).
  assert (Fn : f n = IZR (d - 1)) by (unfold f; rewrite linspace_last, Hb; reflexivity).
  assert (Fi : forall i, (i < n)%nat -> exists t, v (nth i (linspace a b n) nnan) = XR (f i) /\ rd (XR (IZR (Z.of_nat i) * s)) = XR t /\ rd (XR (t + -1)) = XR (f i) /\ -1 <= f i <= IZR (d - 1)).
  { intros i Hi. destruct (P i Hi) as (t & u & E1 & E2 & E3 & E4). exists t. unfold f. rewrite E1. auto. }
  exists s, f. split; [exact Es|]. split; [|split; [|split; [|split]]].
  - intros i Hi. destruct (Nat.eq_dec i n) as [->|Hne].
    + rewrite linspace_last, Fn. split; [exact Hb|lra].
    + destruct (Fi i) as (t & E & _ & _ & B); [lia|]. auto.
  - destruct (Fi 0%nat) as (t & E & Et & Eu & _); [lia|]. simpl in Et. rewrite Rmult_0_l in Et. rewrite (rnd_Z 0) in Et by lia. injection Et as <-.
    replace (0 + -1) with (-1) in Eu by lra. rewrite (rnd_Z (-1)) in Eu by lia. congruence.
  - exact Fn.
  - intros i Hi. destruct (Fi i Hi) as (t & E & Et & Eu & B). destruct (Nat.eq_dec (S i) n) as [Hs|Hs].
    + rewrite Hs, Fn. lra.
    + destruct (Fi (S i)) as (t' & E' & Et' & Eu' & B'); [lia|]. apply (rnd_le _ _ _ _ Eu Eu').
      apply Rplus_le_compat_r. apply (rnd_le _ _ _ _ Et Et'). apply Rmult_le_compat_r; [exact S0|]. apply IZR_le. lia.
  - intros i Hi. destruct (Fi i Hi) as (t & E & Et & Eu & B). eauto.
Qed.

(** Rounding to decimal digits. *)
Lemma np_round_val digits z x r : (0 <= digits)%Z -> (0 < z)%Z -> v (pow10 (Z.to_nat digits)) = XR (IZR z) -> v x = XR r -> -1 <= r <= 1 ->
  exists t q, rd (XR (r * IZR z)) = XR t /\ rd (XR (IZR (ZnearestE t) / IZR z)) = XR q /\ v (np_round digits x) = XR q /\ -1 <= q <= 1.
Proof.
  intros Hd Hz Hp Hx Hr. assert (Hz1 : 0 < IZR z) by (apply IZR_lt; lia).
  assert (Rz : rd (XR (IZR z)) = XR (IZR z)) by (rewrite <- Hp; apply (rnd_val RN)).
  assert (Rz' : rd (XR (IZR (- z))) = XR (IZR (- z))).
  { rewrite opp_IZR. change (XR (- IZR z)) with (xopp (XR (IZR z))). rewrite (rnd_opp RN), Rz. reflexivity. }
  destruct (rnd_bet (IZR (- z)) (IZR z) (r * IZR z)) as (t & Et & Bt); auto.
  { rewrite opp_IZR. nra. }
  assert (Bn : (- z <= ZnearestE t <= z)%Z).
  { split.
    - apply Z.le_trans with (ZnearestE (IZR (- z))); [rewrite Znearest_imp with (n := (- z)%Z); [lia|]|].
      + replace (IZR (- z) - IZR (- z)) with 0 by lra. rewrite Rabs_R0. lra.
      + apply valid_rnd_N. lra.
    - apply Z.le_trans with (ZnearestE (IZR z)); [apply valid_rnd_N; lra|]. rewrite Znearest_imp with (n := z); [lia|].
      replace (IZR z - IZR z) with 0 by lra. rewrite Rabs_R0. lra. }
  assert (0 < / IZR z) as Hi by now apply Rinv_0_lt_compat.
  assert (Hzi : IZR z * / IZR z = 1) by (field; lra).
  assert (-1 <= IZR (ZnearestE t) / IZR z <= 1) as Bq.
  { destruct Bn as [B1 B2]. apply IZR_le in B1, B2. rewrite opp_IZR in B1. unfold Rdiv. nra. }
  destruct (rnd_bet (IZR (-1)) (IZR 1) (IZR (ZnearestE t) / IZR z)) as (q & Eq & Bq'); [apply rnd_Z; lia|apply rnd_Z; lia|exact Bq|].
  exists t, q. split; [exact Et|]. split; [exact Eq|]. split; [|exact Bq'].
  unfold np_round. assert ((0 <=? digits)%Z = true) as -> by now apply Z.leb_le.
  rewrite (val_div RN); [|rewrite Hp; intros E; injection E; lra].
  rewrite (val_rint RN), (val_mul RN), Hx, Hp. cbn [xmul]. rewrite Et. cbn [xrint xdiv]. destruct (Req_EM_T _ 0); [lra|]. exact Eq.
Qed.

Lemma np_round_inf digits x r : (0 <= digits)%Z -> v (pow10 (Z.to_nat digits)) = XPInf -> v x = XR r -> v (np_round digits x) = XNaN.
Proof.
  intros Hd Hp Hx. unfold np_round. assert ((0 <=? digits)%Z = true) as -> by now apply Z.leb_le.
  rewrite (val_div RN) by (rewrite Hp; discriminate). rewrite (val_rint RN), (val_mul RN), Hx, Hp. cbn [xmul xsgn].
  destruct (Rcompare r 0); cbn [csmul xinf]; rewrite ?(rnd_nan RN), ?(rnd_pinf RN), ?(rnd_ninf RN); cbn [xrint xdiv]; now rewrite ?(rnd_nan RN).
Qed.

Lemma nth_map_in {A B} (f : A -> B) l i a b : (i < length l)%nat -> nth i (map f l) b = f (nth i l a).
Proof. intros H. apply nth_error_nth. rewrite nth_error_map, (nth_error_nth' l a H). reflexivity. Qed.

(** The rounded edges. *)
Definition round_edges (n_bin digits : Z) : list N := map (np_round digits) (linspace nm1 n1 (Z.to_nat n_bin)).
Lemma make_histogram_eq eps n_bin digits : (1 <= n_bin)%Z ->
  make_histogram eps n_bin digits =
  match where_ (map (fun e => neqb e n0) (round_edges n_bin digits)) with
  | [] => Raise IndexError
  | b :: _ => Ok (round_edges n_bin digits, b)
  end.
Proof. intros H. unfold make_histogram, np_histogram. assert ((1 <=? n_bin)%Z = true) as -> by now apply Z.leb_le. reflexivity. Qed.

Lemma where_first (m : list bool) : match where_ m with
  | [] => forall i, nth_error m i <> Some true
  | b :: _ => nth_error m b = Some true /\ forall i, (i < b)%nat -> nth_error m i <> Some true end.
Proof.
  destruct (where_ m) as [|b l] eqn:E.
  - intros i Hi. apply where_In in Hi. rewrite E in Hi. destruct Hi.
  - split; [apply where_In; rewrite E; now left|]. intros i Hi H. apply where_In in H.
    assert (SS : forall k m, StronglySorted lt (where_from k m) /\ forall x, In x (where_from k m) -> (k <= x)%nat).
    { clear. intros k m. revert k. induction m as [|[|] m IH]; intros k; simpl; [split; [constructor|intros x []]| |].
      - destruct (IH (S k)) as (A & B). split.
        + constructor; [exact A|]. apply Forall_forall. intros x Hx. apply B in Hx. lia.
        + intros x [<-|Hx]; [lia|]. apply B in Hx. lia.
      - destruct (IH (S k)) as (A & B). split; [exact A|]. intros x Hx. apply B in Hx. lia. }
    destruct (SS 0%nat m) as (A & _). fold (where_ m) in A. rewrite E in A, H. inversion A as [|? ? _ F]; subst.
    rewrite Forall_forall in F. destruct H as [<-|H]; [lia|]. apply F in H. lia.
Qed.

Lemma zero_edge_where edges : match where_ (map (fun e : N => neqb e n0) edges) with
  | [] => forall b, ~ zero_edge edges b
  | b :: _ => zero_edge edges b end.
Proof.
  pose proof (where_first (map (fun e : N => neqb e n0) edges)) as W.
  assert (K : forall i, (i < length edges)%nat -> (nth_error (map (fun e : N => neqb e n0) edges) i = Some true <-> neqb (nth i edges nnan) n0 = true)).
  { intros i Hi. rewrite nth_error_map, (nth_error_nth' edges nnan Hi). cbn. split; congruence. }
  destruct (where_ _) as [|b l].
  - intros b (Hb & Hz & _). apply (W b). now apply K.
  - destruct W as (W1 & W2).
    assert (Hb : (b < length edges)%nat) by (rewrite <- (map_length (fun e : N => neqb e n0)); apply nth_error_Some; congruence).
    split; [exact Hb|]. split; [now apply K|]. intros i Hi. apply not_true_iff_false. intros H. apply (W2 i Hi). apply K; [lia|exact H].
Qed.
Lemma zero_edge_unique edges b b' : zero_edge (N:=N) edges b -> zero_edge edges b' -> b = b'.
Proof.
  intros (_ & A & B) (_ & A' & B'). destruct (Nat.lt_trichotomy b b') as [L|[L|L]]; [|exact L|].
  - rewrite (B' b L) in A. discriminate.
  - rewrite (B b' L) in A'. discriminate.
Qed.

(** Exactly when the histogram is made. *)
Lemma make_histogram_iff eps n_bin digits :
  ((n_bin < 1)%Z -> make_histogram eps n_bin digits = Raise ValueError) /\
  ((1 <= n_bin)%Z -> (forall b, zero_edge (round_edges n_bin digits) b -> make_histogram eps n_bin digits = Ok (round_edges n_bin digits, b)) /\
     ((forall b, ~ zero_edge (round_edges n_bin digits) b) -> make_histogram eps n_bin digits = Raise IndexError)).
Proof.
  split.
  - intros H. unfold make_histogram, np_histogram. assert ((1 <=? n_bin)%Z = false) as -> by now apply Z.leb_gt. reflexivity.
  - intros H. rewrite (make_histogram_eq eps n_bin digits H). pose proof (zero_edge_where (round_edges n_bin digits)) as W.
    destruct (where_ _) as [|b l].
    + split; [|reflexivity]. intros b Hb. destruct (W b Hb).
    + split; [|intros K; destruct (K b W)]. intros b' Hb. now rewrite (zero_edge_unique _ _ _ W Hb).
Qed.

Lemma round_edges_ok n_bin digits b : (1 <= n_bin <= 2 ^ 53)%Z -> (0 <= digits)%Z -> zero_edge (round_edges n_bin digits) b ->
  grid_to n1 (Z.to_nat n_bin) (round_edges n_bin digits) /\ (0 < b < Z.to_nat n_bin)%nat.
Proof.
  intros Hn Hd Hz. set (n := Z.to_nat n_bin). unfold round_edges in *. fold n in Hz |- *.
  assert (Hn1 : (1 <= n)%nat) by (unfold n; lia). assert (Hn2 : (Z.of_nat n <= 2 ^ 53)%Z) by (unfold n; lia).
  destruct (linspace_val nm1 n1 2 n (or_intror eq_refl) (val_nm1 RN) (val_n1 RN) Hn1 Hn2) as (s & f & Es & Hf & F0 & Fn & Fm & Ft).
  simpl (2 - 1)%Z in *. set (L := linspace nm1 n1 n) in *. assert (LL : length L = S n) by apply linspace_length.
  assert (E : forall i, (i <= n)%nat -> nth i (map (np_round digits) L) nnan = np_round digits (nth i L nnan)).
  { intros i Hi. apply nth_map_in. lia. }
  destruct Hz as (Hb & Hb0 & Hbf). rewrite map_length, LL in Hb. rewrite E in Hb0 by lia.
  apply (neqb_iff RN) in Hb0 as (Hb0 & _). rewrite (val_n0 RN) in Hb0.
  destruct (pow10_val (Z.to_nat digits)) as [P|(z & Pz & P)].
  { exfalso. destruct (Hf b) as (Vb & _); [lia|]. rewrite (np_round_inf digits _ _ Hd P Vb) in Hb0. discriminate. }
  assert (Hz1 : 0 < IZR z) by (apply IZR_lt; lia).
  assert (Q : forall i, (i <= n)%nat -> exists t q, rd (XR (f i * IZR z)) = XR t /\ rd (XR (IZR (ZnearestE t) / IZR z)) = XR q /\ v (np_round digits (nth i L nnan)) = XR q /\ -1 <= q <= 1).
  { intros i Hi. destruct (Hf i Hi) as (Vi & Bi). apply (np_round_val digits z); auto. }
  assert (Ends : forall e i, (i <= n)%nat -> (e = 1 \/ e = -1)%Z -> f i = IZR e -> v (np_round digits (nth i L nnan)) = XR (IZR e)).
  { intros e i Hi He Fi. destruct (Q i Hi) as (t & q & E1 & E2 & E3 & _). rewrite Fi, <- mult_IZR in E1.
    assert (R1 : rd (XR (IZR (e * z))) = XR (IZR (e * z))).
    { assert (Rz : rd (XR (IZR z)) = XR (IZR z)) by (rewrite <- P; apply (rnd_val RN)).
      destruct He as [->| ->]; [now rewrite Z.mul_1_l|]. replace (-1 * z)%Z with (- z)%Z by lia. rewrite opp_IZR.
      change (XR (- IZR z)) with (xopp (XR (IZR z))). rewrite (rnd_opp RN), Rz. reflexivity. }
    rewrite R1 in E1. injection E1 as <-. rewrite Znearest_imp with (n := (e * z)%Z) in E2.
    2:{ replace (IZR (e * z) - IZR (e * z)) with 0 by lra. rewrite Rabs_R0. lra. }
    rewrite mult_IZR in E2. replace (IZR e * IZR z / IZR z) with (IZR e) in E2 by (field; lra).
    rewrite rnd_Z in E2 by lia. rewrite E3. congruence. }
  pose proof (Ends (-1)%Z 0%nat ltac:(lia) ltac:(auto) F0) as V0.
  pose proof (Ends 1%Z n ltac:(lia) ltac:(auto) Fn) as Vn.
  split.
  - split; [now rewrite map_length|]. split; [|split].
    + rewrite E by lia. apply (neqb_iff RN). rewrite V0, (val_nm1 RN). split; [reflexivity|discriminate].
    + rewrite E by lia. apply (neqb_iff RN). rewrite Vn, (val_n1 RN). split; [reflexivity|discriminate].
    + intros i Hi. rewrite !E by lia. destruct (Q i) as (t & q & E1 & E2 & E3 & _); [lia|].
      destruct (Q (S i)) as (t' & q' & E1' & E2' & E3' & _); [lia|]. apply (nle_iff RN). rewrite E3, E3'. simpl.
      apply (rnd_le _ _ _ _ E2 E2'). unfold Rdiv. apply Rmult_le_compat_r; [apply Rlt_le; now apply Rinv_0_lt_compat|].
      apply IZR_le. apply valid_rnd_N. apply (rnd_le _ _ _ _ E1 E1'). apply Rmult_le_compat_r; [lra|]. now apply Fm.
  - assert (b <> 0)%nat.
    { intros ->. rewrite V0 in Hb0. injection Hb0. lra. }
    assert (b <> n)%nat; [|lia]. intros ->. rewrite Vn in Hb0. injection Hb0. lra.
Qed.

End Edges.
