(** Accuracy of the potential of the galaxy as given (C84). *)
From Verif Require Import Py Num RX F64 Np Data Spec SpecR SpecPot Potential DataFacts DataThms PotConcFacts PotFacts CenterFacts CenterThms AlignThms PotThms Ex SpecAcc AccFacts AccThms SpecPotAcc.
From Flocq Require Import Core Relative.
From Coq Require Import Lra Lia Psatz Floats.SpecFloat.
Local Open Scope R_scope.

Local Notation fx := (SpecFloat.fexp 24 128).
(** Rounding to single precision, away from overflow. *)
Definition single (r : R) : R := round radix2 fx ZnearestE r.

Lemma fx_valid : Valid_exp fx.
Proof. exact (FLT_exp_valid (3 - 128 - 24) 24 (prec_gt_0_ := p24)). Qed.

Lemma single_err r : r = 0 \/ / IZR (2 ^ 126) <= Rabs r -> Rabs (single r - r) <= / IZR (2 ^ 24) * Rabs r.
Proof.
  intros [-> |H].
  - unfold single. rewrite round_0 by apply valid_rnd_N. rewrite Rminus_0_r, Rabs_R0. lra.
  - replace (/ IZR (2 ^ 24)) with (/ 2 * bpow radix2 (-24 + 1)) by (simpl; lra).
    unfold single. change fx with (FLT_exp (3 - 128 - 24) 24). apply relative_error_N_FLT; [exact p24|].
    apply Rle_trans with (bpow radix2 (-126)); [apply bpow_le; lia|]. replace (bpow radix2 (-126)) with (/ IZR (2 ^ 126)) by (simpl; reflexivity). exact H.
Qed.

Lemma single_le r k : (-126 <= k <= 127)%Z -> Rabs r <= bpow radix2 k -> Rabs (single r) <= bpow radix2 k.
Proof.
  intros Hk H. pose proof fx_valid as V. apply abs_round_le_generic; [exact V|apply valid_rnd_N| |exact H].
  apply generic_format_bpow. change fx with (FLT_exp (3 - 128 - 24) 24). unfold FLT_exp. lia.
Qed.
Lemma single_ge r k : (-126 <= k <= 127)%Z -> bpow radix2 k <= Rabs r -> bpow radix2 k <= Rabs (single r).
Proof.
  intros Hk H. pose proof fx_valid as V. apply abs_round_ge_generic; [exact V|apply valid_rnd_N| |exact H].
  apply generic_format_bpow. change fx with (FLT_exp (3 - 128 - 24) 24). unfold FLT_exp. lia.
Qed.

Lemma cast_val sm sm' (x : F64s sm) r : val (F64_rounded sm) x = XR r -> Rabs r <= bpow radix2 39 ->
  val (F32_rounded sm') (to32 x) = XR (single r).
Proof.
  intros V H. destruct (c63_casts sm sm' x (n0 (N:=F32s sm'))) as (E & _). rewrite E, V.
  change (brnd 24 128 (XR r) = XR (single r)). unfold brnd. rewrite Rlt_bool_true; [reflexivity|].
  apply Rle_lt_trans with (bpow radix2 39); [apply (single_le r 39); [lia|exact H]|apply bpow_lt; lia].
Qed.

(** Single-precision coordinates are multiples of 2^-39. *)
Lemma single_step r : ordinary r -> exists z, single r = IZR z * bpow radix2 (-39).
Proof.
  intros [-> |(H & _)].
  - exists 0%Z. unfold single. rewrite round_0 by apply valid_rnd_N. lra.
  - change (/ IZR (2 ^ 16)) with (bpow radix2 (-16)) in H. pose proof (single_ge r (-16) ltac:(lia) H) as G.
    pose proof fx_valid as V. pose proof (generic_format_round radix2 fx ZnearestE r) as F. fold (single r) in F.
    assert (C : (-39 <= cexp radix2 fx (single r))%Z).
    { unfold cexp. assert (M : (-15 <= mag radix2 (single r))%Z) by (apply mag_ge_bpow; exact G).
      change fx with (FLT_exp (3 - 128 - 24) 24). unfold FLT_exp. lia. }
    exists (Ztrunc (scaled_mantissa radix2 fx (single r)) * 2 ^ (cexp radix2 fx (single r) + 39))%Z.
    rewrite F at 1. unfold F2R. cbn [Fnum Fexp]. rewrite mult_IZR.
    pose proof (IZR_Zpower radix2 (cexp radix2 fx (single r) + 39) ltac:(lia)) as P.
    change (IZR (2 ^ (cexp radix2 fx (single r) + 39)) = bpow radix2 (cexp radix2 fx (single r) + 39)) in P. rewrite P, Rmult_assoc, <- bpow_plus. do 2 f_equal. lia.
Qed.

Lemma single_bound r : ordinary r -> Rabs (single r) <= bpow radix2 39.
Proof.
  intros [-> |(_ & H)]; apply (single_le _ 39); try lia; [rewrite Rabs_R0; apply bpow_ge_0|exact H].
Qed.

Lemma single_diff a b : ordinary a -> ordinary b -> moderate (single a - single b).
Proof.
  intros A B. destruct (single_step a A) as (z & Z), (single_step b B) as (t & T).
  pose proof (single_bound a A) as Ba. pose proof (single_bound b B) as Bb.
  assert (E : single a - single b = IZR (z - t) * bpow radix2 (-39)) by (rewrite Z, T, minus_IZR; ring).
  destruct (Z.eq_dec (z - t) 0) as [Q|Q]; [left; rewrite E, Q; ring|right]. split.
  - rewrite E, Rabs_mult, <- abs_IZR, (Rabs_pos_eq (bpow radix2 (-39))) by apply bpow_ge_0.
    assert (1 <= IZR (Z.abs (z - t))) by (apply IZR_le; lia). change (/ IZR (2 ^ 40)) with (bpow radix2 (-40)).
    pose proof (bpow_le radix2 (-40) (-39) ltac:(lia)). pose proof (bpow_gt_0 radix2 (-39)). nra.
  - unfold Rminus. eapply Rle_trans; [apply Rabs_triang|]. rewrite Rabs_Ropp. change (IZR (2 ^ 40)) with (bpow radix2 (1 + 39)). rewrite bpow_plus. change (bpow radix2 1) with 2. lra.
Qed.

Lemma single_usual r : usual r -> moderate (single r).
Proof.
  intros [-> |(L & U)].
  - left. unfold single. apply round_0, valid_rnd_N.
  - right. split.
    + apply Rle_trans with (bpow radix2 (-39)); [change (/ IZR (2 ^ 40)) with (bpow radix2 (-40)); apply bpow_le; lia|]. apply (single_ge r (-39)); [lia|exact L].
    + apply Rle_trans with (bpow radix2 39); [|change (IZR (2 ^ 40)) with (bpow radix2 40); apply bpow_le; lia]. apply (single_le r 39); [lia|exact U].
Qed.

Lemma ordinary_126 r : ordinary r -> r = 0 \/ / IZR (2 ^ 126) <= Rabs r.
Proof.
  intros [H|(H & _)]; [now left|right]. eapply Rle_trans; [|exact H]. change (/ IZR (2 ^ 126)) with (bpow radix2 (-126)). change (/ IZR (2 ^ 16)) with (bpow radix2 (-16)). apply bpow_le. lia.
Qed.
Lemma usual_126 r : usual r -> r = 0 \/ / IZR (2 ^ 126) <= Rabs r.
Proof.
  intros [H|(H & _)]; [now left|right]. eapply Rle_trans; [|exact H]. change (/ IZR (2 ^ 126)) with (bpow radix2 (-126)). change (/ IZR (2 ^ 39)) with (bpow radix2 (-39)). apply bpow_le. lia.
Qed.

(** Minkowski's inequality in four dimensions. *)
Lemma mink a b c d a' b' c' d' :
  sqrt (a' * a' + b' * b' + c' * c' + d' * d') <=
  sqrt (a * a + b * b + c * c + d * d) + sqrt ((a' - a) * (a' - a) + (b' - b) * (b' - b) + (c' - c) * (c' - c) + (d' - d) * (d' - d)).
Proof.
  set (p := a' - a). set (q := b' - b). set (r := c' - c). set (t := d' - d).
  replace a' with (a + p) by (unfold p; ring). replace b' with (b + q) by (unfold q; ring). replace c' with (c + r) by (unfold r; ring). replace d' with (d + t) by (unfold t; ring).
  clearbody p q r t. set (A := a * a + b * b + c * c + d * d). set (E := p * p + q * q + r * r + t * t).
  assert (A0 : 0 <= A) by (unfold A; nra). assert (E0 : 0 <= E) by (unfold E; nra).
  pose proof (sqrt_pos A) as SA. pose proof (sqrt_pos E) as SE. pose proof (sqrt_sqrt A A0) as QA. pose proof (sqrt_sqrt E E0) as QE.
  set (B := a * p + b * q + c * r + d * t).
  assert (CS : B * B <= A * E).
  { assert (A * E - B * B = (a * q - b * p) * (a * q - b * p) + (a * r - c * p) * (a * r - c * p) + (a * t - d * p) * (a * t - d * p) + (b * r - c * q) * (b * r - c * q) + (b * t - d * q) * (b * t - d * q) + (c * t - d * r) * (c * t - d * r)) by (unfold A, B, E; ring).
    pose proof (Rle_0_sqr (a * q - b * p)). pose proof (Rle_0_sqr (a * r - c * p)). pose proof (Rle_0_sqr (a * t - d * p)). pose proof (Rle_0_sqr (b * r - c * q)). pose proof (Rle_0_sqr (b * t - d * q)). pose proof (Rle_0_sqr (c * t - d * r)). unfold Rsqr in *. lra. }
  assert (BB : B <= sqrt A * sqrt E).
  { apply Rnot_lt_le. intros L. assert (0 <= sqrt A * sqrt E) by nra. assert ((sqrt A * sqrt E) * (sqrt A * sqrt E) = A * E) by (rewrite <- QA at 3; rewrite <- QE at 3; ring). nra. }
  rewrite <- (sqrt_square (sqrt A + sqrt E)) by lra. apply sqrt_le_1_alt.
  replace ((a + p) * (a + p) + (b + q) * (b + q) + (c + r) * (c + r) + (d + t) * (d + t)) with (A + E + 2 * B) by (unfold A, B, E; ring).
  replace ((sqrt A + sqrt E) * (sqrt A + sqrt E)) with (sqrt A * sqrt A + sqrt E * sqrt E + 2 * (sqrt A * sqrt E)) by ring. rewrite QA, QE. lra.
Qed.

Lemma norm4 a b c d e f : 0 <= e -> 0 <= f -> Rabs a <= e -> Rabs b <= e -> Rabs c <= e -> Rabs d <= f ->
  sqrt (a * a + b * b + c * c + d * d) <= 2 * e + f.
Proof.
  intros E F A B C D. rewrite <- (sqrt_square (2 * e + f)) by lra. apply sqrt_le_1_alt.
  assert (S : forall x y, 0 <= y -> Rabs x <= y -> x * x <= y * y) by (intros x y Y H; apply Rabs_le_inv in H; nra).
  pose proof (S a e E A). pose proof (S b e E B). pose proof (S c e E C). pose proof (S d f F D). nra.
Qed.

Definition cast1 (q : particle) : particle := Part (single (pm q)) (single (px q)) (single (py q)) (single (pz q)) 0 0 0.

(** The softened distance after conversion. *)
Lemma dist_single s p q R0 D : usual s -> 0 <= R0 -> 0 < D ->
  (forall a, In a [px p; py p; pz p; px q; py q; pz q] -> ordinary a /\ Rabs a <= R0) -> D <= sdist s p q ->
  let rho := R0 / (IZR (2 ^ 22) * D) + / IZR (2 ^ 24) in
  Rabs (sdist (single s) (cast1 p) (cast1 q) - sdist s p q) <= rho * sdist s p q.
Proof.
  intros Us R0p D0 C Hd rho.
  assert (K : forall a b, In a [px p; py p; pz p; px q; py q; pz q] -> In b [px p; py p; pz p; px q; py q; pz q] -> Rabs ((single a - single b) - (a - b)) <= R0 / IZR (2 ^ 23)).
  { intros a b Ha Hb. destruct (C a Ha) as (Oa & La), (C b Hb) as (Ob & Lb). pose proof (single_err a (ordinary_126 a Oa)) as Ea. pose proof (single_err b (ordinary_126 b Ob)) as Eb.
    replace ((single a - single b) - (a - b)) with ((single a - a) + - (single b - b)) by ring. eapply Rle_trans; [apply Rabs_triang|]. rewrite Rabs_Ropp.
    change (IZR (2 ^ 24)) with 16777216 in *. change (IZR (2 ^ 23)) with 8388608. lra. }
  assert (Ks : Rabs (single s - s) <= / IZR (2 ^ 24) * Rabs s) by exact (single_err s (usual_126 s Us)).
  assert (Sd : Rabs s <= sdist s p q).
  { rewrite <- sqrt_Rsqr_abs. unfold Rsqr, sdist. apply sqrt_le_1_alt.
    pose proof (Rle_0_sqr (px p - px q)). pose proof (Rle_0_sqr (py p - py q)). pose proof (Rle_0_sqr (pz p - pz q)). unfold Rsqr in *. lra. }
  assert (N : sqrt (((single (px p) - single (px q)) - (px p - px q)) * ((single (px p) - single (px q)) - (px p - px q)) + ((single (py p) - single (py q)) - (py p - py q)) * ((single (py p) - single (py q)) - (py p - py q))
     + ((single (pz p) - single (pz q)) - (pz p - pz q)) * ((single (pz p) - single (pz q)) - (pz p - pz q)) + (single s - s) * (single s - s)) <= 2 * (R0 / IZR (2 ^ 23)) + / IZR (2 ^ 24) * Rabs s).
  { apply norm4; try (apply K; cbn [In]; tauto); [|apply Rmult_le_pos; [|apply Rabs_pos]|exact Ks].
    - apply Rmult_le_pos; [exact R0p|left; apply Rinv_0_lt_compat, IZR_lt; reflexivity].
    - left; apply Rinv_0_lt_compat, IZR_lt; reflexivity. }
  assert (B : 2 * (R0 / IZR (2 ^ 23)) + / IZR (2 ^ 24) * Rabs s <= rho * sdist s p q).
  { unfold rho. rewrite Rmult_plus_distr_r. apply Rplus_le_compat.
    - replace (2 * (R0 / IZR (2 ^ 23))) with (R0 / (IZR (2 ^ 22) * D) * D) by (change (IZR (2 ^ 22)) with 4194304; change (IZR (2 ^ 23)) with 8388608; field; lra).
      apply Rmult_le_compat_l; [|exact Hd]. apply Rmult_le_pos; [exact R0p|left; apply Rinv_0_lt_compat, Rmult_lt_0_compat; [apply IZR_lt; reflexivity|exact D0]].
    - apply Rmult_le_compat_l; [left; apply Rinv_0_lt_compat, IZR_lt; reflexivity|exact Sd]. }
  apply Rabs_le.
  pose proof (mink (px p - px q) (py p - py q) (pz p - pz q) s (single (px p) - single (px q)) (single (py p) - single (py q)) (single (pz p) - single (pz q)) (single s)) as M1.
  pose proof (mink (single (px p) - single (px q)) (single (py p) - single (py q)) (single (pz p) - single (pz q)) (single s) (px p - px q) (py p - py q) (pz p - pz q) s) as M2.
  replace ((px p - px q - (single (px p) - single (px q))) * (px p - px q - (single (px p) - single (px q)))) with ((single (px p) - single (px q) - (px p - px q)) * (single (px p) - single (px q) - (px p - px q))) in M2 by ring.
  replace ((py p - py q - (single (py p) - single (py q))) * (py p - py q - (single (py p) - single (py q)))) with ((single (py p) - single (py q) - (py p - py q)) * (single (py p) - single (py q) - (py p - py q))) in M2 by ring.
  replace ((pz p - pz q - (single (pz p) - single (pz q))) * (pz p - pz q - (single (pz p) - single (pz q)))) with ((single (pz p) - single (pz q) - (pz p - pz q)) * (single (pz p) - single (pz q) - (pz p - pz q))) in M2 by ring.
  replace ((s - single s) * (s - single s)) with ((single s - s) * (single s - s)) in M2 by ring.
  unfold sdist, cast1 in B |- *. cbn [px py pz]. set (X := sqrt (_ + _ + _ + (single s - s) * (single s - s))) in *. split; lra.
Qed.

(** Mass over distance after conversion. *)
Lemma term_single m m' d d' rho t : 0 < m -> 0 < d -> 0 <= t -> t <= / 1000 -> 0 <= rho <= / 4 -> Rabs (m' - m) <= t * m -> Rabs (d' - d) <= rho * d ->
  0 < d' /\ Rabs (m' / d' - m / d) <= 4 / 3 * (rho + t) * (m / d).
Proof.
  intros M D T T1 P Em Ed. apply Rabs_le_inv in Em, Ed. assert (D' : 3 / 4 * d <= d') by nra. assert (0 < d') by lra. split; [assumption|].
  replace (m' / d' - m / d) with ((m' * d - m * d') / d * / d') by (field; lra).
  rewrite Rabs_mult, (Rabs_pos_eq (/ d')) by (left; apply Rinv_0_lt_compat; lra).
  assert (E : Rabs ((m' * d - m * d') / d) <= (rho + t) * m).
  { replace ((m' * d - m * d') / d) with ((m' - m) + - (m * ((d' - d) / d))) by (field; lra). eapply Rle_trans; [apply Rabs_triang|]. rewrite Rabs_Ropp, Rabs_mult, (Rabs_pos_eq m) by lra.
    assert (Rabs ((d' - d) / d) <= rho). { unfold Rdiv. rewrite Rabs_mult, (Rabs_pos_eq (/ d)) by (left; apply Rinv_0_lt_compat; lra). apply Rmult_le_reg_r with d; [exact D|]. rewrite Rmult_assoc, Rinv_l, Rmult_1_r by lra. apply Rabs_le. lra. }
    assert (Rabs (m' - m) <= t * m) by (apply Rabs_le; lra). nra. }
  assert (I : / d' <= 4 / 3 * / d). { replace (4 / 3 * / d) with (/ (3 / 4 * d)) by (field; lra). apply Rinv_le_contravar; lra. }
  replace (4 / 3 * (rho + t) * (m / d)) with ((rho + t) * m * (4 / 3 * / d)) by (field; lra).
  apply Rmult_le_compat; [apply Rabs_pos|left; apply Rinv_0_lt_compat; lra|exact E|exact I].
Qed.

Lemma phi_close s p s' p' c e l : (forall q, In q l -> Rabs (pm (c q) / sdist s' p' (c q) - pm q / sdist s p q) <= e * (pm q / sdist s p q)) ->
  Rabs (phi s' p' (map c l) - phi s p l) <= e * phi s p l.
Proof.
  unfold phi, sumR. induction l as [|q l IH]; intros H; cbn [map fold_right]; [rewrite Rminus_0_r, Rabs_R0; lra|].
  specialize (IH (fun q Hq => H q (or_intror Hq))). specialize (H q (or_introl eq_refl)).
  match goal with |- Rabs (?a + ?b - (?x + ?y)) <= _ => replace (a + b - (x + y)) with ((a - x) + (b - y)) by ring end.
  eapply Rle_trans; [apply Rabs_triang|]. rewrite Rmult_plus_distr_l. lra.
Qed.
Lemma others_map {A B} (f : A -> B) l i : others (map f l) i = map f (others l i).
Proof. unfold others. now rewrite map_app, firstn_map, skipn_map. Qed.

Lemma combine_map2 {A B C D} (f : A -> C) (g : B -> D) l r : combine (map f l) (map g r) = map (fun t => (f (fst t), g (snd t))) (combine l r).
Proof. revert r. induction l as [|a l IH]; intros [|b r]; cbn; auto. now rewrite IH. Qed.
Lemma reads_cast sm sm' (src : list (source (S:=F64s sm))) lr : Forall2 (reads (F64_rounded sm)) src lr ->
  (forall q a, In q lr -> In a [px q; py q; pz q; pm q] -> Rabs a <= bpow radix2 39) ->
  Forall2 (reads (F32_rounded sm')) (map (fun t => ((to32 (fst (fst t)), to32 (snd (fst t))), (to32 (fst (snd t)), to32 (snd (snd t))))) src) (map cast1 lr).
Proof.
  induction 1 as [|t q src lr Rt F IH]; intros B; cbn [map]; constructor; [|apply IH; intros q' a Hq; apply B; now right].
  destruct t as ((x, y), (z, m)). destruct Rt as (X & Y & Z & M). pose proof (fun a => B q a (or_introl eq_refl)) as B'. unfold reads, cast1. cbn [fst snd px py pz pm].
  split; [apply (cast_val sm sm'); [exact X|apply B'; cbn [In]; tauto]|]. split; [apply (cast_val sm sm'); [exact Y|apply B'; cbn [In]; tauto]|].
  split; apply (cast_val sm sm'); try assumption; apply B'; cbn [In]; tauto.
Qed.

(** From the accuracy for the converted inputs to the accuracy for the galaxy as given. *)
Lemma as_given sm sm' (g : galaxy (F64s sm)) (out : galaxy (F64s sm) -> Prop) k s lr R0 D :
  (forall s lr, (forall so, largest_softening g so -> val (F32_rounded sm') (to32 so) = XR s) ->
    Forall2 (reads (F32_rounded sm'))
      (sources (S:=F32s sm') (map to32 (all_x g)) (map to32 (all_y g)) (map to32 (all_z g)) (map to32 (all_m g))) lr -> tame s lr ->
    exists h, out h /\ length (all_pots h) = length lr /\
      forall i p, nth_error lr i = Some p -> exists w v, nth_error (all_pots h) i = Some w /\
        val (F64_rounded sm) w = XR v /\
        Rabs (v + k * phi s p (others lr i)) <= (INR (length lr) + 5) * / IZR (2 ^ 23) * (k * phi s p (others lr i))) ->
  / IZR (2 ^ 40) <= k <= IZR (2 ^ 20) ->
  (forall so, largest_softening g so -> val (F64_rounded sm) so = XR s) -> usual s ->
  Forall2 (reads (F64_rounded sm)) (sources (all_x g) (all_y g) (all_z g) (all_m g)) lr ->
  (forall q, In q lr -> 0 < pm q /\ usual (pm q) /\ forall a, In a [px q; py q; pz q] -> ordinary a /\ Rabs a <= R0) ->
  (forall i j p q, i <> j -> nth_error lr i = Some p -> nth_error lr j = Some q -> D <= sdist s p q) ->
  0 < D -> 0 <= R0 <= IZR (2 ^ 19) * D -> INR (length lr) <= IZR (2 ^ 22) ->
  exists h, out h /\
    length (all_pots h) = length lr /\
    forall i p, nth_error lr i = Some p -> exists w v, nth_error (all_pots h) i = Some w /\
      val (F64_rounded sm) w = XR v /\
      Rabs (v + k * phi s p (others lr i)) <= ((INR (length lr) + 8) / IZR (2 ^ 23) + 3 * (R0 / (IZR (2 ^ 22) * D))) * (k * phi s p (others lr i)).
Proof.
  intros Base Hk So Us F Q Ap D0 HR Ln.
  assert (Sb : Rabs s <= bpow radix2 39) by (destruct Us as [-> |(_ & H)]; [rewrite Rabs_R0; apply bpow_ge_0|exact H]).
  assert (Bd : forall q a, In q lr -> In a [px q; py q; pz q; pm q] -> Rabs a <= bpow radix2 39).
  { intros q a Hq Ha. destruct (Q q Hq) as (_ & Um & O). cbn [In] in Ha.
    assert (X : forall a, In a [px q; py q; pz q] -> Rabs a <= bpow radix2 39) by (intros b Hb; destruct (O b Hb) as ([-> |(_ & H)] & _); [rewrite Rabs_R0; apply bpow_ge_0|exact H]).
    destruct Ha as [<- |[<- |[<- |[<- |[]]]]]; try (apply X; cbn [In]; tauto). destruct Um as [-> |(_ & H)]; [rewrite Rabs_R0; apply bpow_ge_0|exact H]. }
  set (rho := R0 / (IZR (2 ^ 22) * D) + / IZR (2 ^ 24)).
  assert (Rr : 0 <= R0 / (IZR (2 ^ 22) * D) <= / 8).
  { assert (P : 0 < IZR (2 ^ 22) * D) by (apply Rmult_lt_0_compat; [apply IZR_lt; reflexivity|exact D0]). split; [apply Rmult_le_pos; [lra|left; now apply Rinv_0_lt_compat]|].
    apply Rmult_le_reg_r with (IZR (2 ^ 22) * D); [exact P|]. unfold Rdiv. rewrite Rmult_assoc, Rinv_l, Rmult_1_r by lra. change (IZR (2 ^ 22)) with 4194304. change (IZR (2 ^ 19)) with 524288 in HR. lra. }
  assert (Rho : 0 <= rho <= / 4) by (unfold rho; change (IZR (2 ^ 24)) with 16777216; lra).
  assert (T : forall p q, In p lr -> In q lr -> D <= sdist s p q -> 0 < sdist (single s) (cast1 p) (cast1 q) /\
     Rabs (pm (cast1 q) / sdist (single s) (cast1 p) (cast1 q) - pm q / sdist s p q) <= 4 / 3 * (rho + / IZR (2 ^ 24)) * (pm q / sdist s p q)).
  { intros p q Ip Iq Hd. destruct (Q p Ip) as (_ & _ & Op), (Q q Iq) as (Mq & Uq & Oq).
    assert (T0 : 0 <= / IZR (2 ^ 24) <= / 1000) by (change (IZR (2 ^ 24)) with 16777216; lra).
    apply term_single; [exact Mq|lra|apply T0|apply T0|exact Rho| |].
    - pose proof (single_err (pm q) (usual_126 _ Uq)) as E. rewrite (Rabs_pos_eq (pm q)) in E by lra. exact E.
    - apply (dist_single s p q R0 D Us (proj1 HR) D0); [|exact Hd]. intros a Ha. cbn [In] in Ha, Op, Oq. destruct Ha as [<- |[<- |[<- |[<- |[<- |[<- |[]]]]]]]; auto. }
  set (src := sources (all_x g) (all_y g) (all_z g) (all_m g)) in *.
  assert (F' : Forall2 (reads (F32_rounded sm')) (sources (S:=F32s sm') (map to32 (all_x g)) (map to32 (all_y g)) (map to32 (all_z g)) (map to32 (all_m g))) (map cast1 lr)).
  { unfold sources. rewrite !combine_map2. exact (reads_cast sm sm' src lr F Bd). }
  assert (NE : forall i p, nth_error (map cast1 lr) i = Some p -> exists q, nth_error lr i = Some q /\ p = cast1 q).
  { intros i p H. rewrite nth_error_map in H. destruct (nth_error lr i) as [q|]; [|discriminate H]. cbn [option_map] in H. exists q. split; congruence. }
  assert (Tm : tame (single s) (map cast1 lr)).
  { split; [now apply single_usual|]. split; [|split; [|split]].
    - intros i j p q Ne Hi Hj. destruct (NE i p Hi) as (p0 & Ep & ->), (NE j q Hj) as (q0 & Eq & ->).
      destruct (T p0 q0 (nth_error_In _ _ Ep) (nth_error_In _ _ Eq) (Ap i j p0 q0 Ne Ep Eq)) as (P & _). lra.
    - intros q Hq. apply in_map_iff in Hq as (q0 & <- & Iq). destruct (Q q0 Iq) as (Mq & Uq & _). unfold cast1. cbn [pm]. split; [|now apply single_usual].
      pose proof (single_err (pm q0) (usual_126 _ Uq)) as E. rewrite (Rabs_pos_eq (pm q0)) in E by lra. apply Rabs_le_inv in E. change (IZR (2 ^ 24)) with 16777216 in E. lra.
    - intros i j p q Ne Hi Hj. destruct (NE i p Hi) as (p0 & Ep & ->), (NE j q Hj) as (q0 & Eq & ->).
      destruct (Q p0 (nth_error_In _ _ Ep)) as (_ & _ & Op), (Q q0 (nth_error_In _ _ Eq)) as (_ & _ & Oq). cbn [In] in Op, Oq. unfold cast1. cbn [px py pz].
      repeat split; apply single_diff; first [apply Op; tauto|apply Oq; tauto].
    - now rewrite map_length. }
  destruct (Base (single s) (map cast1 lr)) as (h & Hh & Lh & Vh); [|exact F'|exact Tm|].
  { intros so Hso. apply (cast_val sm sm'); [now apply So|exact Sb]. }
  exists h. split; [exact Hh|]. rewrite map_length in Lh, Vh. split; [exact Lh|].
  intros i p Hi. destruct (Vh i (cast1 p)) as (w & v & Ew & Vv & B); [now rewrite nth_error_map, Hi|]. exists w, v. split; [exact Ew|]. split; [exact Vv|].
  rewrite others_map in B.
  assert (P : Rabs (phi (single s) (cast1 p) (map cast1 (others lr i)) - phi s p (others lr i)) <= 4 / 3 * (rho + / IZR (2 ^ 24)) * phi s p (others lr i)).
  { apply phi_close. intros q Hq. destruct (others_in lr i q Hq) as (j & Ne & Ej). apply T; [exact (nth_error_In _ _ Hi)|exact (nth_error_In _ _ Ej)|exact (Ap i j p q Ne Hi Ej)]. }
  set (f := phi s p (others lr i)) in *. set (f' := phi (single s) (cast1 p) (map cast1 (others lr i))) in *.
  assert (f0 : 0 <= f).
  { unfold f, phi, sumR. assert (X : forall q, In q (others lr i) -> 0 <= pm q / sdist s p q).
    - intros q Hq. destruct (others_in lr i q Hq) as (j & Ne & Ej). pose proof (Ap i j p q Ne Hi Ej). destruct (Q q (nth_error_In _ _ Ej)) as (M & _). apply Rmult_le_pos; [lra|left; apply Rinv_0_lt_compat; lra].
    - clear - X. induction (others lr i) as [|q l IH]; cbn [fold_right]; [lra|]. specialize (IH (fun q Hq => X q (or_intror Hq))). specialize (X q (or_introl eq_refl)). lra. }
  assert (k0 : 0 < k) by (assert (0 < / IZR (2 ^ 40)) by (apply Rinv_0_lt_compat, IZR_lt; reflexivity); lra).
  assert (Hr : rho = R0 / (IZR (2 ^ 22) * D) + / IZR (2 ^ 24)) by reflexivity. set (t := R0 / (IZR (2 ^ 22) * D)) in *. clearbody f f' rho t.
  clear - B P f0 k0 Hr Rr Ln. change (IZR (2 ^ 22)) with 4194304 in Ln. change (IZR (2 ^ 23)) with 8388608 in *. change (IZR (2 ^ 24)) with 16777216 in *.
  set (n := INR (length lr)) in *. assert (n0' : 0 <= n) by apply pos_INR. clearbody n.
  set (A := (n + 5) * / 8388608) in *. assert (A1 : 0 <= A <= 3 / 5) by (unfold A; lra).
  set (e := 4 / 3 * (rho + / 16777216)) in *. assert (e1 : 0 <= e <= 1) by (unfold e; lra).
  assert (Af : A + 8 / 5 * e <= (n + 8) / 8388608 + 3 * t) by (unfold A, e; lra). clearbody A e.
  apply Rle_trans with ((A + 8 / 5 * e) * (k * f)); [|apply Rmult_le_compat_r; [nra|exact Af]].
  replace (v + k * f) with ((v + k * f') + k * (f - f')) by ring. eapply Rle_trans; [apply Rabs_triang|].
  rewrite Rabs_mult, (Rabs_pos_eq k) by lra. rewrite Rabs_minus_sym in P. apply Rabs_le_inv in P as P'.
  assert (f' <= (1 + e) * f) by lra. assert (k * f' <= k * ((1 + e) * f)) by (apply Rmult_le_compat_l; lra).
  assert (k * Rabs (f - f') <= k * (e * f)) by (apply Rmult_le_compat_l; lra).
  assert (A * (k * f') <= A * (k * ((1 + e) * f))) by (apply Rmult_le_compat_l; lra).
  assert (A * (k * ((1 + e) * f)) = A * (k * f) + A * (e * (k * f))) by ring. assert (0 <= e * (k * f)) by (apply Rmult_le_pos; [lra|nra]).
  assert (A * (e * (k * f)) <= 3 / 5 * (e * (k * f))) by (apply Rmult_le_compat_r; lra).
  replace ((A + 8 / 5 * e) * (k * f)) with (A * (k * f) + 8 / 5 * (e * (k * f))) by ring. replace (k * (e * f)) with (e * (k * f)) in * by ring. lra.
Qed.

(** The float64 galaxy, the Fortran backend in float32: if no two particles are closer (in
    softened distance) than [D], no coordinate is greater than [R0] <= 2^19 D, and all is
    neither tiny nor huge, each potential is within a relative error of
    (n + 8) 2^-23 + 3 R0 / (2^22 D) of the exact softened sum of the galaxy as given. *)
Lemma c84_potential : forall sm sm' (g : galaxy (F64s sm)) (G : F32s sm') junk k s lr R0 D,
  constructible g -> g_haspot g = false ->
  val (F32_rounded sm') G = XR k -> / IZR (2 ^ 40) <= k <= IZR (2 ^ 20) ->
  (forall so, largest_softening g so -> val (F64_rounded sm) so = XR s) -> usual s ->
  Forall2 (reads (F64_rounded sm)) (sources (all_x g) (all_y g) (all_z g) (all_m g)) lr ->
  (forall q, In q lr -> 0 < pm q /\ usual (pm q) /\ forall a, In a [px q; py q; pz q] -> ordinary a /\ Rabs a <= R0) ->
  (forall i j p q, i <> j -> nth_error lr i = Some p -> nth_error lr j = Some q -> D <= sdist s p q) ->
  0 < D -> 0 <= R0 <= IZR (2 ^ 19) * D -> INR (length lr) <= IZR (2 ^ 22) ->
  exists h, potential (W:=F64s sm) (S:=F32s sm') to32 to64 (backend_table G true junk) "fortran" g = Ok h /\
    length (all_pots h) = length lr /\
    forall i p, nth_error lr i = Some p -> exists w v, nth_error (all_pots h) i = Some w /\
      val (F64_rounded sm) w = XR v /\
      Rabs (v + k * phi s p (others lr i)) <= ((INR (length lr) + 8) / IZR (2 ^ 23) + 3 * (R0 / (IZR (2 ^ 22) * D))) * (k * phi s p (others lr i)).
Proof.
  intros sm sm' g G junk k s lr R0 D Hg Hp Vk Hk So Us F Q Ap D0 HR Ln.
  apply (as_given sm sm' g _ k s lr R0 D); auto. intros s' lr' So' F' T. apply (c63_potential sm sm' g G junk k s' lr'); auto.
Qed.

(** Three particles at 0, 1 and 2 without softening. *)
Example ex_c84 : exists g h, galP = Ok g /\
  (forall q, In q partsP -> 0 < pm q /\ usual (pm q) /\ forall a, In a [px q; py q; pz q] -> ordinary a /\ Rabs a <= 2) /\
  (forall i j p q, i <> j -> nth_error partsP i = Some p -> nth_error partsP j = Some q -> 1 <= sdist 0 p q) /\
  potential (W:=F64) (S:=F32) to32 to64 (backend_table n1 true junk0) "fortran" g = Ok h /\ length (all_pots h) = 3%nat /\
  forall i p, nth_error partsP i = Some p -> exists w v, nth_error (all_pots h) i = Some w /\
    val (F64_rounded (seqsum 53 1024 p53 e1024)) w = XR v /\
    Rabs (v + 1 * phi 0 p (others partsP i)) <= ((3 + 8) / IZR (2 ^ 23) + 3 * (2 / (IZR (2 ^ 22) * 1))) * (1 * phi 0 p (others partsP i)).
Proof.
  destruct galP_fields as (g & E & C). destruct C as (Hc & Hp & Ex & Ey & Ez & Em & Es & Eq & Ld & Ls).
  assert (V : forall z, (Z.abs z <= 1024)%Z -> val (F64_rounded (seqsum 53 1024 p53 e1024)) (fZ z) = XR (IZR z)) by (intros z; apply (val_small (F64_rounded (seqsum 53 1024 p53 e1024)))).
  assert (O : forall z, (0 <= z <= 4)%Z -> ordinary (IZR z) /\ usual (IZR z)).
  { intros z Hz. unfold ordinary, usual. destruct (Z.eq_dec z 0) as [-> |N]; [auto|]. rewrite <- abs_IZR.
    assert (1 <= IZR (Z.abs z) <= 4) by (split; apply IZR_le; lia). change (IZR (2 ^ 16)) with 65536. change (IZR (2 ^ 39)) with 549755813888. split; right; lra. }
  assert (Q : forall q, In q partsP -> 0 < pm q /\ usual (pm q) /\ forall a, In a [px q; py q; pz q] -> ordinary a /\ Rabs a <= 2).
  { intros q [<- |[<- |[<- |[]]]]; cbn [pm px py pz]; (split; [lra|]; split; [apply O; lia|]); intros a [<- |[<- |[<- |[]]]]; (split; [apply O; lia|apply Rabs_le; lra]). }
  assert (Ap : forall i j p q, i <> j -> nth_error partsP i = Some p -> nth_error partsP j = Some q -> 1 <= sdist 0 p q).
  { intros i j p q Hij Hp' Hq. rewrite <- sqrt_1. unfold sdist. apply sqrt_le_1_alt. destruct i as [|[|[|i]]], j as [|[|[|j]]]; simpl in Hp', Hq;
      try congruence; try (destruct i; discriminate); try (destruct j; discriminate); injection Hp' as <-; injection Hq as <-; cbn [px py pz]; lra. }
  destruct (c84_potential (seqsum 53 1024 p53 e1024) (seqsum 24 128 p24 e128) g n1 junk0 1 0 partsP 2 1 Hc Hp) as (h & Hh & L & W); try assumption.
  - apply (val_n1 (F32_rounded (seqsum 24 128 p24 e128))).
  - exact one_range.
  - intros so [(p & (I & Np & _) & <- & _)|(_ & Nu)].
    + destruct I as [<-|[<-|[<-|[]]]]; [change (val (F64_rounded (seqsum 53 1024 p53 e1024)) (p_soft (N:=F64) (g_stars g)) = XR 0); rewrite Es; apply V; lia|contradiction|change (val (F64_rounded (seqsum 53 1024 p53 e1024)) (p_soft (N:=F64) (g_gas g)) = XR 0); rewrite Eq; apply V; lia].
    + exfalso. apply (Nu (g_stars g)). split; [simpl; auto|]. split; [change (plen (N:=F64) (g_stars g) <> 0%nat); rewrite Ls; discriminate|].
      change (nisnan (N:=F64) (p_soft (g_stars g)) = false). rewrite Es. reflexivity.
  - now left.
  - change (F64s (seqsum 53 1024 p53 e1024)) with F64. rewrite Ex, Ey, Ez, Em. unfold sources, fZs, partsP. cbn [map combine].
    repeat (constructor; [repeat split; apply V; lia|]). constructor.
  - lra.
  - change (IZR (2 ^ 19)) with 524288. lra.
  - simpl. lra.
  - exists g, h. split; [exact E|]. split; [exact Q|]. split; [exact Ap|]. split; [exact Hh|]. split; [exact L|]. intros i p Hi. destruct (W i p Hi) as (w & v & A & B & C).
    exists w, v. split; [exact A|]. split; [exact B|]. simpl length in C. replace (INR 3) with 3 in C by (simpl; ring). exact C.
Qed.

(** Two stars of mass 1 at [a] and [b] on the x axis, without softening. *)
Definition pairG (a b : Z) : res (galaxy F64) :=
  do s <- zset STARS [1; 1]%Z [a; b] [0; 0]%Z [0; 0]%Z [0; 0]%Z [0; 0]%Z [0; 0]%Z None 0;
  do d <- zset DARK_MATTER [] [] [] [] [] [] [] None 0; do q <- zset GAS [] [] [] [] [] [] [] None 0; mk_galaxy s d q.
(** Far from the origin the conversion to single precision merges particles: two stars at
    distance 1 have the potential -1, and minus infinity when both are shifted by 2^25. *)
Lemma c84_shift_refuted : exists (t : Z) (g g' h h' : galaxy F64), constructible g /\ constructible g' /\
  shows (all_x g') = map (fun z => sZ (z + t)) [0; 1]%Z /\ shows (all_x g) = map sZ [0; 1]%Z /\
  shows (all_y g') = shows (all_y g) /\ shows (all_z g') = shows (all_z g) /\ shows (all_m g') = shows (all_m g) /\
  potential (W:=F64) (S:=F32) to32 to64 (backend_table n1 true junk0) "fortran" g = Ok h /\
  potential (W:=F64) (S:=F32) to32 to64 (backend_table n1 true junk0) "fortran" g' = Ok h' /\
  shows (all_pots h) = [sZ (-1); sZ (-1)] /\ shows (all_pots h') = [S754_infinity true; S754_infinity true].
Proof.
  exists (2 ^ 25)%Z.
  assert (H : forall a b, match pairG a b with Ok g => constructible g | Raise _ => True end).
  { intros a b. unfold pairG. destruct (zset STARS _ _ _ _ _ _ _ _ _) as [s|] eqn:Es; [|exact I]. destruct (zset DARK_MATTER _ _ _ _ _ _ _ _ _) as [d|] eqn:Ed; [|exact I].
    destruct (zset GAS _ _ _ _ _ _ _ _ _) as [q|] eqn:Eq; [|exact I]. cbn [bind]. destruct (mk_galaxy s d q) as [g|] eqn:Eg; [|exact I].
    exists s, d, q. unfold constructible_set. unfold zset in Es, Ed, Eq. split; [|split; [|split]]; eauto 20. }
  assert (C : exists g g' h h', pairG 0 1 = Ok g /\ pairG (2 ^ 25) (2 ^ 25 + 1) = Ok g' /\
    potential (W:=F64) (S:=F32) to32 to64 (backend_table n1 true junk0) "fortran" g = Ok h /\
    potential (W:=F64) (S:=F32) to32 to64 (backend_table n1 true junk0) "fortran" g' = Ok h').
  { assert (B : (match pairG 0 1, pairG (2 ^ 25) (2 ^ 25 + 1) with Ok g, Ok g' =>
      match potential (W:=F64) (S:=F32) to32 to64 (backend_table n1 true junk0) "fortran" g, potential (W:=F64) (S:=F32) to32 to64 (backend_table n1 true junk0) "fortran" g' with Ok _, Ok _ => true | _, _ => false end
      | _, _ => false end) = true) by (vm_compute; reflexivity).
    destruct (pairG 0 1) as [g|]; [|discriminate B]. destruct (pairG (2 ^ 25) (2 ^ 25 + 1)) as [g'|]; [|discriminate B].
    destruct (potential _ _ _ _ g) as [h|] eqn:E1; [|discriminate B]. destruct (potential _ _ _ _ g') as [h'|] eqn:E2; [|discriminate B]. exists g, g', h, h'. auto. }
  destruct C as (g & g' & h & h' & E1 & E2 & P1 & P2). exists g, g', h, h'.
  assert (S : rmap (fun g => (shows (all_x g), shows (all_y g), shows (all_z g), shows (all_m g))) (pairG 0 1) = Ok (map sZ [0; 1]%Z, map sZ [0; 0]%Z, map sZ [0; 0]%Z, map sZ [1; 1]%Z) /\
    rmap (fun g => (shows (all_x g), shows (all_y g), shows (all_z g), shows (all_m g))) (pairG (2 ^ 25) (2 ^ 25 + 1)) = Ok (map (fun z => sZ (z + 2 ^ 25)) [0; 1]%Z, map sZ [0; 0]%Z, map sZ [0; 0]%Z, map sZ [1; 1]%Z) /\
    rmap (fun h => shows (all_pots h)) (do g <- pairG 0 1; potential (W:=F64) (S:=F32) to32 to64 (backend_table n1 true junk0) "fortran" g) = Ok [sZ (-1); sZ (-1)] /\
    rmap (fun h => shows (all_pots h)) (do g <- pairG (2 ^ 25) (2 ^ 25 + 1); potential (W:=F64) (S:=F32) to32 to64 (backend_table n1 true junk0) "fortran" g) = Ok [S754_infinity true; S754_infinity true]) by (vm_compute; auto).
  pose proof (H 0%Z 1%Z) as H1. pose proof (H (2 ^ 25)%Z (2 ^ 25 + 1)%Z) as H2. rewrite E1 in H1, S. rewrite E2 in H2, S. cbn [bind] in S. rewrite P1, P2 in S. cbn [rmap] in S.
  destruct S as (S1 & S2 & S3 & S4). split; [exact H1|]. split; [exact H2|].
  assert (X1 : shows (all_x g) = map sZ [0; 1]%Z /\ shows (all_y g) = map sZ [0; 0]%Z /\ shows (all_z g) = map sZ [0; 0]%Z /\ shows (all_m g) = map sZ [1; 1]%Z) by (repeat split; congruence).
  assert (X2 : shows (all_x g') = map (fun z => sZ (z + 2 ^ 25)) [0; 1]%Z /\ shows (all_y g') = map sZ [0; 0]%Z /\ shows (all_z g') = map sZ [0; 0]%Z /\ shows (all_m g') = map sZ [1; 1]%Z) by (repeat split; congruence).
  destruct X1 as (A1 & A2 & A3 & A4), X2 as (B1 & B2 & B3 & B4). split; [exact B1|]. split; [exact A1|]. split; [congruence|]. split; [congruence|]. split; [congruence|].
  split; [exact P1|]. split; [exact P2|]. split; congruence.
Qed.
