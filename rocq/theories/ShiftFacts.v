(** IEEE arithmetic under multiplication by powers of two. *)
From Flocq Require Import Core BinarySingleNaN.
From Coq Require Import Reals Lra Lia ZArith.
From Verif Require Import Py Num RX F64 SpecShift.
Local Open Scope R_scope.

Section Shift.
Context {prec emax : Z} (Hp : (0 < prec)%Z) (Hm : (prec < emax)%Z).
Local Instance Hp'' : Prec_gt_0 prec := Hp.
Local Instance Hm'' : Prec_lt_emax prec emax := Hm.
Notation bf := (binary_float prec emax).
Notation fexp := (SpecFloat.fexp prec emax).
Notation rne := (round radix2 fexp ZnearestE).
Notation b2 := (bpow radix2).
Local Instance vexp' : Valid_exp fexp := FLT_exp_valid _ _.

Lemma round_shift (k : Z) r : b2 (2 - emax) <= Rabs r -> b2 (2 - emax) <= Rabs (r * b2 k) -> rne (r * b2 k) = rne r * b2 k.
Proof.
  intros H1 H2.
  assert (N : r <> 0). { intros ->. rewrite Rabs_R0 in H1. pose proof (bpow_gt_0 radix2 (2 - emax)). lra. }
  assert (C : cexp radix2 fexp (r * b2 k) = (cexp radix2 fexp r + k)%Z).
  { unfold cexp. rewrite mag_mult_bpow by exact N.
    apply mag_gt_bpow in H1. apply mag_gt_bpow in H2. rewrite mag_mult_bpow in H2 by exact N.
    unfold SpecFloat.fexp, SpecFloat.emin. lia. }
  unfold round, scaled_mantissa. rewrite C.
  assert (E : r * b2 k * b2 (- (cexp radix2 fexp r + k)) = r * b2 (- cexp radix2 fexp r)).
  { rewrite Rmult_assoc, <- bpow_plus. f_equal. f_equal. lia. }
  rewrite E. unfold F2R. simpl. rewrite bpow_plus. ring.
Qed.
Lemma round_zero : rne 0 = 0.
Proof. apply round_0. typeclasses eauto. Qed.

(** A number that is a multiple of 2^-n, not larger than 2^u. *)
Definition gridR (n u : Z) (r : R) : Prop := (exists m, r = IZR m * b2 (- n)) /\ Rabs r <= b2 u.
Lemma grid_low n u r : gridR n u r -> r <> 0 -> b2 (- n) <= Rabs r.
Proof.
  intros [[m ->] _] N. rewrite Rabs_mult, (Rabs_pos_eq (b2 (- n))) by apply bpow_ge_0.
  rewrite <- (Rmult_1_l (b2 (- n))) at 1. apply Rmult_le_compat_r; [apply bpow_ge_0|].
  rewrite <- abs_IZR. apply IZR_le. destruct (Z.eq_dec m 0) as [->|]; [|lia]. exfalso. apply N. ring.
Qed.
Lemma gridR_shift n u k r : gridR n u r -> gridR (n - k) (u + k) (r * b2 k).
Proof.
  intros [[m ->] H]. split.
  - exists m. rewrite Rmult_assoc, <- bpow_plus. f_equal. f_equal. lia.
  - rewrite Rabs_mult, (Rabs_pos_eq (b2 k)), bpow_plus by apply bpow_ge_0. apply Rmult_le_compat_r; [apply bpow_ge_0|exact H].
Qed.
Lemma gridR_weak n u n' u' r : gridR n u r -> (n <= n')%Z -> (u <= u')%Z -> gridR n' u' r.
Proof.
  intros [[m ->] H] Hn Hu. split.
  - exists (m * 2 ^ (n' - n))%Z. rewrite mult_IZR, (IZR_Zpower radix2) by lia. rewrite Rmult_assoc, <- bpow_plus. f_equal. f_equal. lia.
  - apply Rle_trans with (1 := H). now apply bpow_le.
Qed.
Lemma gridR_mul n u n' u' r s : gridR n u r -> gridR n' u' s -> gridR (n + n') (u + u') (r * s).
Proof.
  intros [[m ->] H] [[m' ->] H']. split.
  - exists (m * m')%Z. rewrite mult_IZR. replace (- (n + n'))%Z with (- n + - n')%Z by lia. rewrite bpow_plus. ring.
  - rewrite Rabs_mult, bpow_plus. apply Rmult_le_compat; auto using Rabs_pos.
Qed.
Lemma gridR_add n u r s : gridR n u r -> gridR n u s -> gridR n (u + 1) (r + s).
Proof.
  intros [[m ->] H] [[m' ->] H']. split.
  - exists (m + m')%Z. rewrite plus_IZR. ring.
  - rewrite bpow_plus. change (b2 1) with 2. eapply Rle_trans; [apply Rabs_triang|]. lra.
Qed.
Lemma gridR_opp n u r : gridR n u r -> gridR n u (- r).
Proof.
  intros [[m ->] H]. split; [|now rewrite Rabs_Ropp].
  exists (- m)%Z. rewrite opp_IZR. ring.
Qed.

Lemma round_grid n u r : (n <= emax - 2)%Z -> (- n <= u < emax)%Z -> gridR n u r -> gridR n u (rne r).
Proof.
  intros Hn Hu [[m E] H]. split.
  - destruct (Z_le_gt_dec (cexp radix2 fexp r) (- n)) as [C|C].
    + exists m. rewrite <- E. apply round_generic; [typeclasses eauto|].
      apply (generic_format_F2R' _ _ _ (Float radix2 m (- n))); [now rewrite E|auto].
    + unfold round, F2R. simpl. set (q := ZnearestE _).
      exists (q * 2 ^ (cexp radix2 fexp r + n))%Z. rewrite mult_IZR, (IZR_Zpower radix2) by lia.
      rewrite Rmult_assoc, <- bpow_plus. f_equal. f_equal. lia.
  - apply abs_round_le_generic; [typeclasses eauto..| |exact H].
    apply generic_format_bpow'; [typeclasses eauto|]. unfold SpecFloat.fexp, SpecFloat.emin. lia.
Qed.
Lemma round_grid_shift n u k r : (n <= emax - 2)%Z -> (n - k <= emax - 2)%Z -> gridR n u r -> rne (r * b2 k) = rne r * b2 k.
Proof.
  intros H1 H2 G. destruct (Req_dec r 0) as [->|N]; [rewrite Rmult_0_l, round_zero; ring|].
  apply round_shift.
  - eapply Rle_trans; [|eapply grid_low; eauto]. apply bpow_le. lia.
  - eapply Rle_trans; [|eapply grid_low; [apply gridR_shift; exact G|]]. apply bpow_le. lia.
    pose proof (bpow_gt_0 radix2 k). intros Z. apply Rmult_integral in Z. lra.
Qed.
Lemma grid_small n u r : (u < emax)%Z -> gridR n u r -> Rlt_bool (Rabs r) (b2 emax) = true.
Proof. intros Hu [_ H]. apply Rlt_bool_true. eapply Rle_lt_trans; [exact H|]. apply bpow_lt. lia. Qed.

(** *** Related numbers *)
Notation sh := (@shifted prec emax).
Definition grid (n u : Z) (x : bf) : Prop := is_finite x = true -> gridR n u (B2R x).
Lemma grid_weak n u n' u' x : grid n u x -> (n <= n')%Z -> (u <= u')%Z -> grid n' u' x.
Proof. intros G H1 H2 F. eapply gridR_weak; eauto. Qed.

Lemma sh_refl x : sh 0 x x.
Proof. unfold shifted. destruct (is_finite x) eqn:F; [right|left]; auto. repeat split; auto. simpl. ring. Qed.
Lemma sh_fin k x y : sh k x y -> is_finite y = is_finite x.
Proof. intros [[-> F]|(F & F' & _)]; congruence. Qed.
Lemma sh_sign k x y : sh k x y -> Bsign y = Bsign x.
Proof. intros [[-> F]|(F & F' & _ & S)]; congruence. Qed.
Lemma sh_nan k x y : sh k x y -> is_nan y = is_nan x.
Proof. intros [[-> F]|(F & F' & _)]; [reflexivity|]. destruct x, y; try discriminate; reflexivity. Qed.
Lemma mul_pow0 k r : r * b2 k = 0 <-> r = 0.
Proof. pose proof (bpow_gt_0 radix2 k). split; [|intros ->; ring]. intros Z. apply Rmult_integral in Z. lra. Qed.
Lemma sh_zero k s y : sh k (B754_zero s) y -> y = B754_zero s.
Proof.
  intros [[_ F]|(_ & F & E & S)]; [discriminate|]. apply B2R_Bsign_inj; auto. rewrite E. simpl. ring.
Qed.
Lemma sh_finite k s m e H y : sh k (B754_finite s m e H) y -> exists m' e' H', y = B754_finite s m' e' H'.
Proof.
  intros [[_ F]|(_ & F & E & S)]; [discriminate|].
  destruct y as [s'| | |s' m' e' H']; try discriminate.
  - simpl in E. symmetry in E. apply mul_pow0 in E. exfalso. eapply (B2R_finite_nz prec emax s m e H). exact E.
  - simpl in S. subst. eauto.
Qed.
Lemma sh_infinity k s y : sh k (B754_infinity s) y -> y = B754_infinity s.
Proof. intros [[<- _]|(F & _)]; [reflexivity|discriminate]. Qed.
Lemma sh_Nan k y : sh k B754_nan y -> y = B754_nan.
Proof. intros [[<- _]|(F & _)]; [reflexivity|discriminate]. Qed.
(** Same kind of number, same sign. *)
Ltac kinds H x y := let s := fresh "s" in let m := fresh "m" in let e := fresh "e" in let P := fresh "P" in
  destruct x as [s|s| |s m e P];
  [apply sh_zero in H; subst y|apply sh_infinity in H; subst y|apply sh_Nan in H; subst y|
   apply sh_finite in H as (? & ? & ? & ->)].

Lemma sh_opp k x y : sh k x y -> sh k (Bopp x) (Bopp y).
Proof.
  intros [[-> F]|(F & F' & E & S)].
  - left. split; [reflexivity|]. now destruct y.
  - right. rewrite !is_finite_Bopp, !B2R_Bopp, E. repeat split; auto; [ring|].
    destruct x, y; try discriminate; simpl in *; congruence.
Qed.
Lemma sh_abs k x y : sh k x y -> sh k (Babs x) (Babs y).
Proof.
  intros [[-> F]|(F & F' & E & S)].
  - left. split; [reflexivity|]. now destruct y.
  - right. rewrite !is_finite_Babs, !B2R_Babs, E, Rabs_mult, (Rabs_pos_eq (b2 k)) by apply bpow_ge_0. repeat split; auto.
    destruct x, y; try discriminate; reflexivity.
Qed.
Lemma sh_cmp k x y x' y' : sh k x y -> sh k x' y' -> Bcompare y y' = Bcompare x x'.
Proof.
  intros [[-> F]|(F & F' & E & S)] [[-> G]|(G & G' & E' & S')]; try reflexivity.
  - destruct y as [|[|]| |]; try discriminate; destruct x' as [| | |[|]], y' as [| | |[|]]; try discriminate; reflexivity.
  - destruct y' as [|[|]| |]; try discriminate; destruct x as [| | |[|]], y as [| | |[|]]; try discriminate; reflexivity.
  - rewrite !Bcompare_correct, E, E' by auto. f_equal. apply Rcompare_mult_r. apply bpow_gt_0.
Qed.

Lemma rcmp_shift r k : Rcompare (r * b2 k) 0 = Rcompare r 0.
Proof. rewrite <- (Rmult_0_l (b2 k)) at 1. apply Rcompare_mult_r. apply bpow_gt_0. Qed.

Lemma sh_add k n u x y x' y' : (n <= emax - 2)%Z -> (n - k <= emax - 2)%Z -> (- n <= u)%Z ->
  (u + 1 < emax)%Z -> (u + 1 + k < emax)%Z ->
  sh k x y -> sh k x' y' -> grid n u x -> grid n u x' ->
  sh k (Bplus mode_NE x x') (Bplus mode_NE y y') /\ grid n (u + 1) (Bplus mode_NE x x').
Proof.
  intros Hn Hk Hu Hb Hb' H H' G G'.
  destruct (is_finite x) eqn:F; [destruct (is_finite x') eqn:F'|].
  - pose proof H as [[_ B]|(_ & Fy & E & S)]; [congruence|]. pose proof H' as [[_ B]|(_ & Fy' & E' & S')]; [congruence|].
    pose proof (Bplus_correct prec emax Hp'' Hm'' mode_NE x x' F F') as C. simpl round_mode in C.
    pose proof (Bplus_correct prec emax Hp'' Hm'' mode_NE y y' Fy Fy') as C'. simpl round_mode in C'.
    pose proof (gridR_add _ _ _ _ (G F) (G' F')) as GR.
    assert (Er : B2R y + B2R y' = (B2R x + B2R x') * b2 k) by (rewrite E, E'; ring).
    rewrite Er, (round_grid_shift n (u + 1) k) in C' by (auto || lia).
    assert (RG : gridR n (u + 1) (rne (B2R x + B2R x'))) by (apply round_grid; auto; lia).
    rewrite (grid_small n (u + 1)) in C by (auto || lia).
    rewrite (grid_small (n - k) (u + 1 + k)) in C' by (try apply gridR_shift; auto || lia).
    destruct C as (C1 & C2 & C3), C' as (C1' & C2' & C3'). split.
    + right. rewrite C1, C1', C3, C3', rcmp_shift, S, S'. auto.
    + intros _. now rewrite C1.
  - split.
    + left. kinds H' x' y'; try discriminate; kinds H x y; try discriminate; cbn; split; try reflexivity; destruct (eqb _ _); reflexivity.
    + intros K. exfalso. revert K. destruct x', x; try discriminate; cbn; destruct (eqb _ _); discriminate.
  - split.
    + left. kinds H x y; try discriminate; kinds H' x' y'; cbn; split; try reflexivity; destruct (eqb _ _); reflexivity.
    + intros K. exfalso. revert K. destruct x, x'; try discriminate; cbn; destruct (eqb _ _); discriminate.
Qed.
Lemma grid_opp n u x : grid n u x -> grid n u (Bopp x).
Proof. intros G F. rewrite B2R_Bopp. apply gridR_opp, G. now rewrite is_finite_Bopp in F. Qed.
Lemma sh_sub k n u x y x' y' : (n <= emax - 2)%Z -> (n - k <= emax - 2)%Z -> (- n <= u)%Z ->
  (u + 1 < emax)%Z -> (u + 1 + k < emax)%Z ->
  sh k x y -> sh k x' y' -> grid n u x -> grid n u x' ->
  sh k (Bminus mode_NE x x') (Bminus mode_NE y y') /\ grid n (u + 1) (Bminus mode_NE x x').
Proof.
  intros Hn Hk Hu Hb Hb' H H' G G'.
  destruct (is_finite x) eqn:F; [destruct (is_finite x') eqn:F'|].
  - pose proof H as [[_ B]|(_ & Fy & E & S)]; [congruence|]. pose proof H' as [[_ B]|(_ & Fy' & E' & S')]; [congruence|].
    pose proof (Bminus_correct prec emax Hp'' Hm'' mode_NE x x' F F') as C. simpl round_mode in C.
    pose proof (Bminus_correct prec emax Hp'' Hm'' mode_NE y y' Fy Fy') as C'. simpl round_mode in C'.
    pose proof (gridR_add _ _ _ _ (G F) (gridR_opp _ _ _ (G' F'))) as GR.
    fold (B2R x - B2R x') in GR.
    assert (Er : B2R y - B2R y' = (B2R x - B2R x') * b2 k) by (rewrite E, E'; ring).
    rewrite Er, (round_grid_shift n (u + 1) k) in C' by (auto || lia).
    assert (RG : gridR n (u + 1) (rne (B2R x - B2R x'))) by (apply round_grid; auto; lia).
    rewrite (grid_small n (u + 1)) in C by (auto || lia).
    rewrite (grid_small (n - k) (u + 1 + k)) in C' by (try apply gridR_shift; auto || lia).
    destruct C as (C1 & C2 & C3), C' as (C1' & C2' & C3'). split.
    + right. rewrite C1, C1', C3, C3', rcmp_shift, S, S'. auto.
    + intros _. now rewrite C1.
  - split.
    + left. kinds H' x' y'; try discriminate; kinds H x y; try discriminate; cbn; split; try reflexivity; destruct (eqb _ _); reflexivity.
    + intros K. exfalso. revert K. destruct x', x; try discriminate; cbn; destruct (eqb _ _); discriminate.
  - split.
    + left. kinds H x y; try discriminate; kinds H' x' y'; cbn; split; try reflexivity; destruct (eqb _ _); reflexivity.
    + intros K. exfalso. revert K. destruct x, x'; try discriminate; cbn; destruct (eqb _ _); discriminate.
Qed.
Lemma sh_mul k k' n n' u u' x y x' y' :
  (n + n' <= emax - 2)%Z -> (n + n' - (k + k') <= emax - 2)%Z -> (- (n + n') <= u + u' < emax)%Z -> (u + u' + (k + k') < emax)%Z ->
  sh k x y -> sh k' x' y' -> grid n u x -> grid n' u' x' ->
  sh (k + k') (Bmult mode_NE x x') (Bmult mode_NE y y') /\ grid (n + n') (u + u') (Bmult mode_NE x x').
Proof.
  intros Hn Hk Hu Hb H H' G G'.
  destruct (is_finite x) eqn:F; [destruct (is_finite x') eqn:F'|].
  - pose proof H as [[_ B]|(_ & Fy & E & S)]; [congruence|]. pose proof H' as [[_ B]|(_ & Fy' & E' & S')]; [congruence|].
    pose proof (Bmult_correct prec emax Hp'' Hm'' mode_NE x x') as C. simpl round_mode in C.
    pose proof (Bmult_correct prec emax Hp'' Hm'' mode_NE y y') as C'. simpl round_mode in C'.
    pose proof (gridR_mul _ _ _ _ _ _ (G F) (G' F')) as GR.
    assert (Er : B2R y * B2R y' = (B2R x * B2R x') * b2 (k + k')) by (rewrite E, E', bpow_plus; ring).
    rewrite Er, (round_grid_shift (n + n') (u + u')) in C' by (auto || lia).
    assert (RG : gridR (n + n') (u + u') (rne (B2R x * B2R x'))) by (apply round_grid; auto; lia).
    rewrite (grid_small (n + n') (u + u')) in C by (auto || lia).
    rewrite (grid_small (n + n' - (k + k')) (u + u' + (k + k'))) in C' by (try apply gridR_shift; auto || lia).
    destruct C as (C1 & C2 & C3), C' as (C1' & C2' & C3'). rewrite F, F' in C2. rewrite Fy, Fy' in C2'. simpl in C2, C2'.
    assert (nn : forall z : bf, is_finite z = true -> is_nan z = false) by (intros []; easy).
    split.
    + right. rewrite C1, C1', (C3 (nn _ C2)), (C3' (nn _ C2')), S, S'. auto.
    + intros _. now rewrite C1.
  - split.
    + left. kinds H' x' y'; try discriminate; kinds H x y; try discriminate; cbn; split; reflexivity.
    + intros K. exfalso. revert K. destruct x', x; try discriminate; cbn; discriminate.
  - split.
    + left. kinds H x y; try discriminate; kinds H' x' y'; cbn; split; reflexivity.
    + intros K. exfalso. revert K. destruct x, x'; try discriminate; cbn; discriminate.
Qed.
(** Quotients of numbers shifted alike are the same. *)
Lemma sh_div k x y x' y' : sh k x y -> sh k x' y' -> Bdiv mode_NE y y' = Bdiv mode_NE x x'.
Proof.
  intros H H'.
  destruct (is_finite x) eqn:F; [destruct (is_finite x') eqn:F'|].
  - pose proof H as [[_ B]|(_ & Fy & E & S)]; [congruence|]. pose proof H' as [[_ B]|(_ & Fy' & E' & S')]; [congruence|].
    destruct (Req_dec (B2R x') 0) as [Z|Z].
    + destruct x' as [s| | |s m e P]; try discriminate; [|now apply B2R_finite_nz in Z].
      apply sh_zero in H'. subst y'. kinds H x y; try discriminate; reflexivity.
    + assert (Z' : B2R y' <> 0) by (rewrite E'; intros W; apply mul_pow0 in W; auto).
      pose proof (Bdiv_correct prec emax Hp'' Hm'' mode_NE x x' Z) as C. simpl round_mode in C.
      pose proof (Bdiv_correct prec emax Hp'' Hm'' mode_NE y y' Z') as C'. simpl round_mode in C'.
      assert (Er : B2R y / B2R y' = B2R x / B2R x').
      { rewrite E, E'. pose proof (bpow_gt_0 radix2 k). field. split; [exact Z|lra]. }
      rewrite Er in C'. assert (nn : forall z : bf, is_finite z = true -> is_nan z = false) by (intros []; easy).
      destruct (Rlt_bool _ _).
      * destruct C as (C1 & C2 & C3), C' as (C1' & C2' & C3'). apply B2R_Bsign_inj; try congruence.
        rewrite C3, C3' by (apply nn; congruence). congruence.
      * apply B2SF_inj. rewrite C, C', S, S'. reflexivity.
  - kinds H' x' y'; try discriminate; kinds H x y; try discriminate; reflexivity.
  - kinds H x y; try discriminate; kinds H' x' y'; reflexivity.
Qed.
Lemma sh_sqrt k n u x y : (n <= emax - 2)%Z -> (n - 2 * k <= emax - 2)%Z -> (0 <= n)%Z -> (0 <= n - 2 * k)%Z ->
  sh (2 * k) x y -> grid n u x -> sh k (Bsqrt mode_NE x) (Bsqrt mode_NE y).
Proof.
  intros Hn Hk Hn0 Hk0 H G.
  assert (Q : forall t n', (0 <= n' <= emax - 2)%Z -> b2 (- n') <= t -> b2 (2 - emax) <= sqrt t).
  { intros t n' Hn' Ht. rewrite <- (sqrt_square (b2 (2 - emax))) by apply bpow_ge_0. apply sqrt_le_1_alt.
    rewrite <- bpow_plus. apply Rle_trans with (2 := Ht). apply bpow_le. lia. }
  assert (K2 : (2 * k)%Z = (k + k)%Z) by lia. assert (K3 : (- (n - 2 * k))%Z = (- n + 2 * k)%Z) by lia.
  assert (Q1 : (0 <= n <= emax - 2)%Z) by lia. assert (Q2 : (0 <= n - 2 * k <= emax - 2)%Z) by lia.
  destruct (is_finite x) eqn:F.
  - pose proof H as [[_ B]|(_ & Fy & E & S)]; [congruence|].
    destruct x as [s| | |[|] m e P]; try discriminate.
    + apply sh_zero in H. subst y. right. simpl. repeat split. ring.
    + apply sh_finite in H as (m' & e' & P' & ->). left. split; reflexivity.
    + pose proof (Bsqrt_correct prec emax Hp'' Hm'' mode_NE (B754_finite false m e P)) as (C1 & C2 & C3).
      apply sh_finite in H as (m' & e' & P' & ->).
      pose proof (Bsqrt_correct prec emax Hp'' Hm'' mode_NE (B754_finite false m' e' P')) as (C1' & C2' & C3').
      assert (nn : forall z : bf, is_finite z = true -> is_nan z = false) by (intros []; easy).
      right. rewrite C2, C2', C3, C3' by auto. repeat split.
      rewrite C1, C1', E. simpl round_mode. set (r := B2R (B754_finite false m e P)) in *.
      assert (Pr : 0 < r) by (now apply F2R_gt_0).
      assert (Es : sqrt (r * b2 (2 * k)) = sqrt r * b2 k).
      { rewrite sqrt_mult by (try apply bpow_ge_0; lra). f_equal. 
        rewrite K2, bpow_plus. apply sqrt_square, bpow_ge_0. }
      rewrite Es. pose proof (grid_low n u r (G eq_refl) ltac:(lra)) as L. rewrite Rabs_pos_eq in L by lra.
      apply round_shift.
      * rewrite Rabs_pos_eq by apply sqrt_pos. apply (Q r n); [exact Q1|exact L].
      * rewrite <- Es, Rabs_pos_eq by apply sqrt_pos. apply (Q _ (n - 2 * k)%Z); [exact Q2|].
        rewrite K3, bpow_plus. apply Rmult_le_compat_r; [apply bpow_ge_0|exact L].
  - kinds H x y; try discriminate; left; [|split; reflexivity]. split; [reflexivity|]. now destruct s.
Qed.

(** *** Grids of quotients, roots and sums *)
Lemma format_multiple (f : R) (L : Z) : generic_format radix2 fexp f -> b2 L <= Rabs f ->
  exists m, f = IZR m * b2 (L + 1 - prec).
Proof.
  intros G H. rewrite G. unfold F2R. simpl. set (q := Ztrunc _).
  assert (C : (L + 1 - prec <= cexp radix2 fexp f)%Z).
  { unfold cexp. apply mag_gt_bpow in H. unfold SpecFloat.fexp, SpecFloat.emin. lia. }
  exists (q * 2 ^ (cexp radix2 fexp f - (L + 1 - prec)))%Z. rewrite mult_IZR, (IZR_Zpower radix2) by lia.
  rewrite Rmult_assoc, <- bpow_plus. f_equal. f_equal. lia.
Qed.
Lemma round_low (r : R) (L : Z) : (2 - emax <= L)%Z -> b2 L <= Rabs r -> b2 L <= Rabs (rne r).
Proof.
  intros HL H. apply abs_round_ge_generic; [typeclasses eauto..| |exact H].
  apply generic_format_bpow'; [typeclasses eauto|]. unfold SpecFloat.fexp, SpecFloat.emin. lia.
Qed.
Lemma round_up (r : R) (u : Z) : (2 - emax <= u < emax)%Z -> Rabs r <= b2 u -> Rabs (rne r) <= b2 u.
Proof.
  intros HL H. apply abs_round_le_generic; [typeclasses eauto..| |exact H].
  apply generic_format_bpow'; [typeclasses eauto|]. unfold SpecFloat.fexp, SpecFloat.emin. lia.
Qed.
(** The rounding of a number that is not tiny. *)
Lemma grid_of_round (r : R) (n u : Z) : (n + 2 <= emax)%Z -> (2 - emax <= u < emax)%Z ->
  (r <> 0 -> b2 (- n) <= Rabs r) -> Rabs r <= b2 u -> gridR (n + prec) u (rne r).
Proof.
  intros Hn Hu HL HU. split; [|now apply round_up].
  destruct (Req_dec r 0) as [->|N]; [exists 0%Z; rewrite round_zero; ring|].
  destruct (format_multiple (rne r) (- n)) as [m E].
  - apply generic_format_round; typeclasses eauto.
  - apply round_low; [lia|auto].
  - exists (m * 2)%Z. rewrite E, mult_IZR. replace (- n + 1 - prec)%Z with (- (n + prec) + 1)%Z by lia. rewrite bpow_plus.
    change (b2 1) with 2. ring.
Qed.
Lemma grid_zero n u s : grid n u (B754_zero s).
Proof. intros _. split; [exists 0%Z; simpl; ring|]. simpl. rewrite Rabs_R0. apply bpow_ge_0. Qed.
Lemma grid_div n u n' u' x y : (n + u' + 2 <= emax)%Z -> (2 - emax <= u + n' < emax)%Z ->
  grid n u x -> grid n' u' y -> grid (n + u' + prec) (u + n') (Bdiv mode_NE x y).
Proof.
  intros Hn Hu Gx Gy F.
  assert (Z0 : forall s, gridR (n + u' + prec) (u + n') (B2R (B754_zero (prec:=prec) (emax:=emax) s))) by (intros s; now apply (grid_zero _ _ s)).
  destruct (is_finite x) eqn:Fx.
  2:{ exfalso. revert F. destruct x, y; try discriminate; cbn; discriminate. }
  destruct (is_finite y) eqn:Fy.
  2:{ destruct y; try discriminate; destruct x; try discriminate; cbn in F |- *; try discriminate; apply (Z0 false). }
  destruct (Req_dec (B2R y) 0) as [Z|Z].
  - exfalso. destruct y as [s| | |s m e P]; try discriminate; [|now apply B2R_finite_nz in Z].
    revert F. destruct x; try discriminate; cbn; discriminate.
  - pose proof (Bdiv_correct prec emax Hp'' Hm'' mode_NE x y Z) as C. simpl round_mode in C.
    destruct (Gx Fx) as [Gx1 Gx2]. pose proof (grid_low n' u' _ (Gy Fy) Z) as Ly. pose proof (proj2 (Gy Fy)) as Uy.
    assert (Py : 0 < Rabs (B2R y)) by (now apply Rabs_pos_lt).
    assert (GR : gridR (n + u' + prec) (u + n') (rne (B2R x / B2R y))).
    { apply grid_of_round; [lia|lia| |].
      - intros N. assert (Nx : B2R x <> 0) by (intros E; apply N; rewrite E; unfold Rdiv; ring).
        pose proof (grid_low n u _ (Gx Fx) Nx) as Lx. unfold Rdiv. rewrite Rabs_mult, Rabs_inv.
        replace (- (n + u'))%Z with (- n + - u')%Z by lia. rewrite bpow_plus, (bpow_opp radix2 u').
        apply Rmult_le_compat; try apply bpow_ge_0; auto.
        + apply Rlt_le, Rinv_0_lt_compat, bpow_gt_0.
        + apply Rinv_le; auto.
      - unfold Rdiv. rewrite Rabs_mult, Rabs_inv. rewrite bpow_plus.
        apply Rmult_le_compat; auto using Rabs_pos.
        + apply Rlt_le, Rinv_0_lt_compat, Py.
        + replace (b2 n') with (/ b2 (- n')) by (now rewrite bpow_opp, Rinv_inv).
          apply Rinv_le; [apply bpow_gt_0|exact Ly]. }
    rewrite (grid_small _ _ _ (proj2 Hu) GR) in C. destruct C as [C _]. now rewrite C.
Qed.
Lemma grid_sqrt h u x : (h + 2 <= emax)%Z -> (0 <= h)%Z -> (2 - emax <= u < emax)%Z ->
  grid (2 * h) (2 * u) x -> grid (h + prec) u (Bsqrt mode_NE x).
Proof.
  intros Hh H0 Hu G F.
  pose proof (Bsqrt_correct prec emax Hp'' Hm'' mode_NE x) as (C1 & C2 & _). rewrite F in C2.
  destruct x as [s| | |[|] m e P]; try discriminate.
  - cbn. split; [exists 0%Z; ring|]. rewrite Rabs_R0. apply bpow_ge_0.
  - rewrite C1. simpl round_mode. specialize (G eq_refl).
    assert (Pr : 0 < B2R (@B754_finite prec emax false m e P)) by (now apply F2R_gt_0).
    set (r := B2R _) in *. clearbody r. clear C1 C2 F P m e.
    pose proof (grid_low _ _ _ G (Rgt_not_eq _ _ Pr)) as L. pose proof (proj2 G) as U. rewrite Rabs_pos_eq in L, U by lra.
    assert (S2 : forall t, sqrt (b2 (2 * t)) = b2 t).
    { intros t. replace (2 * t)%Z with (t + t)%Z by lia. rewrite bpow_plus. apply sqrt_square, bpow_ge_0. }
    apply grid_of_round; [lia|lia| |]; rewrite Rabs_pos_eq by apply sqrt_pos.
    + intros _. rewrite <- S2. replace (2 * - h)%Z with (- (2 * h))%Z by lia. now apply sqrt_le_1_alt.
    + rewrite <- S2. now apply sqrt_le_1_alt.
Qed.

(** Sums in a fixed order. *)
Definition gridB (n u B : Z) (r : R) : Prop := (exists m, r = IZR m * b2 (- n)) /\ Rabs r <= IZR B * b2 u.
Lemma gridB_grid n u B L r : (0 <= L)%Z -> (B <= 2 ^ L)%Z -> gridB n u B r -> gridR n (u + L) r.
Proof.
  intros HL HB [E H]. split; [exact E|]. apply Rle_trans with (1 := H). rewrite Z.add_comm, bpow_plus.
  apply Rmult_le_compat_r; [apply bpow_ge_0|]. rewrite <- (IZR_Zpower radix2) by exact HL. now apply IZR_le.
Qed.
Lemma leaves_pos t : (1 <= leaves t)%Z.
Proof. induction t; simpl; lia. Qed.
Lemma eval_shift k n u L t : (n <= emax - 2)%Z -> (n - k <= emax - 2)%Z -> (- n <= u)%Z -> (0 <= L <= prec)%Z ->
  (u + L + 1 < emax)%Z -> (u + L + 1 + k < emax)%Z -> (leaves t <= 2 ^ L)%Z ->
  forall l l', Forall2 (sh k) l l' -> Forall (grid n u) l ->
  sh k (eval Hp Hm t l) (eval Hp Hm t l') /\ (is_finite (eval Hp Hm t l) = true -> gridB n u (leaves t) (B2R (eval Hp Hm t l))).
Proof.
  intros Hn Hk Hu HL Hb Hb'. induction t as [|i|t1 IH1 t2 IH2]; intros Ht l l' F G.
  - split; [right; simpl; repeat split; ring|]. intros _. split; [exists 0%Z; simpl; ring|]. simpl. rewrite Rabs_R0.
    apply Rmult_le_pos; [lra|apply bpow_ge_0].
  - assert (E : sh k (B754_zero false) (B754_zero false)) by (right; simpl; repeat split; ring).
    assert (Z0 : grid n u (B754_zero false)) by apply grid_zero.
    simpl. clear Ht. revert l l' F G. induction i as [|i IH]; intros l l' F G.
    + destruct F as [|x y l l' H F]; simpl.
      * split; [exact E|]. intros Fi. destruct (Z0 Fi) as [M B]. split; [exact M|]. now rewrite Rmult_1_l.
      * inversion G as [|? ? Gx G']; subst. split; [exact H|]. intros Fi. destruct (Gx Fi) as [M B]. split; [exact M|]. now rewrite Rmult_1_l.
    + destruct F as [|x y l l' H F]; simpl.
      * split; [exact E|]. intros Fi. destruct (Z0 Fi) as [M B]. split; [exact M|]. now rewrite Rmult_1_l.
      * inversion G; subst. now apply IH.
  - simpl in Ht. pose proof (leaves_pos t1). pose proof (leaves_pos t2).
    destruct (IH1 ltac:(lia) l l' F G) as [S1 G1]. destruct (IH2 ltac:(lia) l l' F G) as [S2 G2].
    simpl eval. set (x := eval Hp Hm t1 l) in *. set (y := eval Hp Hm t2 l) in *.
    assert (A1 : grid n (u + L) x) by (intros Fx; apply (gridB_grid n u (leaves t1)); [lia|lia|auto]).
    assert (A2 : grid n (u + L) y) by (intros Fx; apply (gridB_grid n u (leaves t2)); [lia|lia|auto]).
    destruct (sh_add k n (u + L) _ _ _ _ Hn Hk ltac:(lia) Hb Hb' S1 S2 A1 A2) as [S3 G3].
    split; [exact S3|]. intros Fs. split; [exact (proj1 (G3 Fs))|].
    destruct (is_finite x) eqn:Fx; [destruct (is_finite y) eqn:Fy|].
    + pose proof (Bplus_correct prec emax Hp'' Hm'' mode_NE x y Fx Fy) as C. simpl round_mode in C.
      assert (R0 : Rabs (B2R x + B2R y) <= IZR (leaves t1 + leaves t2) * b2 u).
      { eapply Rle_trans; [apply Rabs_triang|]. rewrite plus_IZR, Rmult_plus_distr_r.
        apply Rplus_le_compat; [apply (G1 eq_refl)|apply (G2 eq_refl)]. }
      assert (R1 : Rabs (rne (B2R x + B2R y)) <= IZR (leaves t1 + leaves t2) * b2 u).
      { apply abs_round_le_generic; [typeclasses eauto..| |exact R0].
        destruct (Z.eq_dec (leaves t1 + leaves t2) (2 ^ L)) as [EB|EB].
        - rewrite EB, (IZR_Zpower radix2) by lia. rewrite <- bpow_plus.
          apply generic_format_bpow'; [typeclasses eauto|]. unfold SpecFloat.fexp, SpecFloat.emin. lia.
        - apply generic_format_FLT. exists (Float radix2 (leaves t1 + leaves t2) u); [reflexivity| |change (3 - emax - prec <= u)%Z; lia].
          simpl. rewrite Z.abs_eq by lia. assert (2 ^ L <= 2 ^ prec)%Z by (apply Z.pow_le_mono_r; lia). lia. }
      assert (R2 : Rlt_bool (Rabs (rne (B2R x + B2R y))) (b2 emax) = true).
      { apply Rlt_bool_true. eapply Rle_lt_trans; [exact R1|].
        apply Rle_lt_trans with (b2 L * b2 u).
        - apply Rmult_le_compat_r; [apply bpow_ge_0|]. rewrite <- (IZR_Zpower radix2) by lia. apply IZR_le. exact Ht.
        - rewrite <- bpow_plus. apply bpow_lt. lia. }
      rewrite R2 in C. destruct C as [C _]. exact (eq_ind_r (fun t => Rabs t <= IZR (leaves t1 + leaves t2) * b2 u) R1 C).
    + exfalso. revert Fs. clearbody x y. clear -Fy. destruct x, y; try discriminate; cbn; destruct (eqb _ _); discriminate.
    + exfalso. revert Fs. clearbody x y. clear -Fx. destruct x, y; try discriminate; cbn; destruct (eqb _ _); discriminate.
Qed.
End Shift.
