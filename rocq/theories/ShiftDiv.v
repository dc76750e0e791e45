(** Quotients, roots and conversions under multiplication by powers of two. *)
From Flocq Require Import Core BinarySingleNaN.
From Coq Require Import Reals Lra Lia ZArith.
From Verif Require Import Py Num RX F64 AccFacts SpecShift SpecUnitPot ShiftFacts.
Local Open Scope R_scope.

Section Div.
Context {prec emax : Z} (Hp : (0 < prec)%Z) (Hm : (prec < emax)%Z).
Local Instance Hp3 : Prec_gt_0 prec := Hp.
Local Instance Hm3 : Prec_lt_emax prec emax := Hm.
Notation bf := (binary_float prec emax).
Notation fexp := (SpecFloat.fexp prec emax).
Notation rne := (round radix2 fexp ZnearestE).
Notation b2 := (bpow radix2).
Notation sh := (@shifted prec emax).
Local Instance vexp3 : Valid_exp fexp := FLT_exp_valid _ _.

Lemma sized_grid n u (x : bf) : sized n u x -> grid (n + prec - 1) u x.
Proof.
  intros H F. destruct (Req_dec (B2R x) 0) as [Z|N].
  - rewrite Z. split; [exists 0%Z; ring|]. rewrite Rabs_R0. apply bpow_ge_0.
  - destruct (H F N) as [L U]. split; [|exact U].
    destruct (format_multiple (prec:=prec) (emax:=emax) (B2R x) (- n)) as [m E]; [apply generic_format_B2R|exact L|].
    exists m. rewrite E at 1. f_equal. f_equal. lia.
Qed.
Lemma grid_sized n u (x : bf) : grid n u x -> sized n u x.
Proof. intros G F N. split; [exact (grid_low _ _ _ (G F) N)|exact (proj2 (G F))]. Qed.
Lemma sized_weak n u n' u' (x : bf) : sized n u x -> (n <= n')%Z -> (u <= u')%Z -> sized n' u' x.
Proof.
  intros H Hn Hu F N. destruct (H F N) as [L U]. split.
  - eapply Rle_trans; [|exact L]. apply bpow_le. lia.
  - eapply Rle_trans; [exact U|]. now apply bpow_le.
Qed.
Lemma sized_zero n u s : sized n u (B754_zero s : bf).
Proof. intros _ N. now elim N. Qed.

Lemma sized_sqrt h u (x : bf) : (0 <= h)%Z -> (h + 2 <= emax)%Z -> (2 - emax <= u < emax)%Z ->
  sized (2 * h) (2 * u) x -> sized h u (Bsqrt mode_NE x).
Proof.
  intros H0 Hh Hu G F N.
  pose proof (Bsqrt_correct prec emax Hp3 Hm3 mode_NE x) as (C1 & C2 & _). rewrite F in C2.
  destruct x as [s| | |[|] m e P]; try discriminate.
  - now elim N.
  - rewrite C1. simpl round_mode. specialize (G eq_refl).
    assert (Pr : 0 < B2R (@B754_finite prec emax false m e P)) by (now apply F2R_gt_0).
    set (r := B2R (B754_finite false m e P)) in *. clearbody r. clear C1 C2 F P N m e.
    destruct (G (Rgt_not_eq _ _ Pr)) as [L U]. rewrite Rabs_pos_eq in L, U by lra.
    assert (S2 : forall t, sqrt (b2 (2 * t)) = b2 t).
    { intros t. replace (2 * t)%Z with (t + t)%Z by lia. rewrite bpow_plus. apply sqrt_square, bpow_ge_0. }
    split; [apply (round_low Hp); [lia|]|apply (round_up Hp); [lia|]]; rewrite Rabs_pos_eq by apply sqrt_pos; rewrite <- S2.
    + replace (2 * - h)%Z with (- (2 * h))%Z by lia. now apply sqrt_le_1_alt.
    + now apply sqrt_le_1_alt.
Qed.

Lemma sh_divk k k' n u n' u' (x y x' y' : bf) :
  (n + u' <= emax - 2)%Z -> (n + u' - (k - k') <= emax - 2)%Z -> (2 - emax <= u + n' < emax)%Z -> (u + n' + (k - k') < emax)%Z ->
  sh k x y -> sh k' x' y' -> sized n u x -> sized n' u' x' ->
  sh (k - k') (Bdiv mode_NE x x') (Bdiv mode_NE y y') /\ sized (n + u') (u + n') (Bdiv mode_NE x x').
Proof.
  intros Hn Hk Hu Hb H H' G G'.
  assert (a1 : (2 - emax <= - (n + u'))%Z) by lia. assert (a2 : (2 - emax <= - (n + u') + (k - k'))%Z) by lia.
  assert (a3 : (u + n' < emax)%Z) by lia. assert (a4 : (- (n + u') = - n + - u')%Z) by lia. assert (a5 : (k - k' = k + - k')%Z) by lia.
  destruct (is_finite x) eqn:F; [destruct (is_finite x') eqn:F'|].
  - pose proof H as [[_ B]|(_ & Fy & E & S)]; [congruence|]. pose proof H' as [[_ B]|(_ & Fy' & E' & S')]; [congruence|].
    destruct (Req_dec (B2R x') 0) as [Z|Z].
    + destruct x' as [s| | |s m e P]; try discriminate; [|now apply B2R_finite_nz in Z].
      apply sh_zero in H'. subst y'.
      destruct x as [t| | |t m e P]; try discriminate.
      * apply sh_zero in H. subst y. split; [left; split; reflexivity|]. intros D. discriminate D.
      * apply sh_finite in H as (? & ? & ? & ->). split; [left; split; reflexivity|]. intros D. discriminate D.
    + assert (Z' : B2R y' <> 0) by (rewrite E'; intros W; apply mul_pow0 in W; auto).
      pose proof (Bdiv_correct prec emax Hp3 Hm3 mode_NE x x' Z) as C. simpl round_mode in C.
      pose proof (Bdiv_correct prec emax Hp3 Hm3 mode_NE y y' Z') as C'. simpl round_mode in C'.
      assert (Er : B2R y / B2R y' = (B2R x / B2R x') * b2 (k - k')).
      { rewrite E, E'. rewrite a5, bpow_plus, bpow_opp. pose proof (bpow_gt_0 radix2 k'). field. split; [lra|exact Z]. }
      destruct (G' F' Z) as [L' U'].
      assert (B : B2R x <> 0 -> b2 (- (n + u')) <= Rabs (B2R x / B2R x')).
      { intros X. destruct (G F X) as [L U]. unfold Rdiv. rewrite Rabs_mult, Rabs_inv.
        rewrite a4, bpow_plus. apply Rmult_le_compat; try apply bpow_ge_0; [exact L|].
        rewrite bpow_opp. apply Rinv_le; [|exact U']. now apply Rabs_pos_lt. }
      assert (U : Rabs (B2R x / B2R x') <= b2 (u + n')).
      { destruct (Req_dec (B2R x) 0) as [X|X]; [rewrite X; unfold Rdiv; rewrite Rmult_0_l, Rabs_R0; apply bpow_ge_0|].
        destruct (G F X) as [L U]. unfold Rdiv. rewrite Rabs_mult, Rabs_inv, bpow_plus.
        apply Rmult_le_compat; [apply Rabs_pos|apply Rlt_le, Rinv_0_lt_compat, Rabs_pos_lt, Z|exact U|].
        rewrite <- (Rinv_inv (b2 n')), <- bpow_opp. apply Rinv_le; [apply bpow_gt_0|exact L']. }
      assert (Ek : rne (B2R y / B2R y') = rne (B2R x / B2R x') * b2 (k - k')).
      { rewrite Er. destruct (Req_dec (B2R x) 0) as [X|X].
        - rewrite X. unfold Rdiv. rewrite !Rmult_0_l, round_0 by typeclasses eauto. ring.
        - specialize (B X). apply round_shift.
          + eapply Rle_trans; [|exact B]. apply bpow_le. exact a1.
          + rewrite Rabs_mult, (Rabs_pos_eq (b2 (k - k'))) by apply bpow_ge_0.
            apply Rle_trans with (b2 (- (n + u')) * b2 (k - k')); [rewrite <- bpow_plus; apply bpow_le; exact a2|].
            apply Rmult_le_compat_r; [apply bpow_ge_0|exact B]. }
      assert (V : Rabs (rne (B2R x / B2R x')) <= b2 (u + n')) by (apply (round_up Hp); [exact Hu|exact U]).
      rewrite Ek in C'. rewrite Rlt_bool_true in C by (eapply Rle_lt_trans; [exact V|apply bpow_lt; exact a3]).
      rewrite Rlt_bool_true in C'.
      2:{ rewrite Rabs_mult, (Rabs_pos_eq (b2 (k - k'))) by apply bpow_ge_0.
          apply Rle_lt_trans with (b2 (u + n') * b2 (k - k')); [apply Rmult_le_compat_r; [apply bpow_ge_0|exact V]|].
          rewrite <- bpow_plus. apply bpow_lt. exact Hb. }
      assert (nn : forall z : bf, is_finite z = true -> is_nan z = false) by (intros []; easy).
      destruct C as (C1 & C2 & C3), C' as (C1' & C2' & C3'). split.
      * right. split; [congruence|]. split; [congruence|]. split; [rewrite C1, C1'; reflexivity|].
        rewrite C3, C3' by (apply nn; congruence). congruence.
      * intros _ N. rewrite C1 in N |- *. split; [|exact V]. apply (round_low Hp); [exact a1|]. apply B.
        intros X. apply N. rewrite X. unfold Rdiv. rewrite Rmult_0_l. apply round_0. typeclasses eauto.
  - assert (D : Bdiv mode_NE x x' = Bdiv mode_NE y y' /\ (is_finite (Bdiv mode_NE x x') = true -> B2R (Bdiv mode_NE x x') = 0)
       \/ (exists s, Bdiv mode_NE x x' = B754_zero s /\ Bdiv mode_NE y y' = B754_zero s)).
    { destruct x' as [s|s| |s m e P]; try discriminate; [apply sh_infinity in H'; subst y'|apply sh_Nan in H'; subst y'];
      (destruct x as [t|t| |t m e P]; try discriminate; [apply sh_zero in H; subst y|apply sh_finite in H as (? & ? & ? & ->)]);
      first [left; split; [reflexivity|cbn; intros; first [discriminate|reflexivity]]|right; eexists; split; reflexivity]. }
    destruct D as [[D Z]|(s & D & D')].
    + rewrite <- D. split; [|intros Fi N; elim N; auto].
      destruct (is_finite (Bdiv mode_NE x x')) eqn:Fd; [|left; auto]. right. rewrite (Z eq_refl). repeat split; auto. ring.
    + rewrite D, D'. split; [right; cbn; repeat split; ring|apply sized_zero].
  - assert (D : Bdiv mode_NE x x' = Bdiv mode_NE y y' /\ is_finite (Bdiv mode_NE x x') = false).
    { destruct x as [t|t| |t m e P]; try discriminate; [apply sh_infinity in H; subst y|apply sh_Nan in H; subst y];
      (destruct x' as [s|s| |s m e P]; [apply sh_zero in H'; subst y'|apply sh_infinity in H'; subst y'|apply sh_Nan in H'; subst y'|apply sh_finite in H' as (? & ? & ? & ->)]);
      split; reflexivity. }
    destruct D as [D Fd]. rewrite <- D. split; [left; auto|]. intros Fi. congruence.
Qed.
End Div.

Section Conv.
Notation b2 := (bpow radix2).
Notation rne32 := (round radix2 (SpecFloat.fexp 24 128) ZnearestE).
(** What [to32] does to a finite nonzero number that does not overflow. *)
Lemma to32_finite s m e (P : SpecFloat.bounded 53 1024 m e = true) (u : Z) : (-126 <= u < 128)%Z ->
  let r := B2R (B754_finite (prec:=53) (emax:=1024) s m e P) in
  Rabs r <= b2 u ->
  B2R (to32 (B754_finite s m e P)) = rne32 r /\ is_finite (to32 (B754_finite s m e P)) = true /\ Bsign (to32 (B754_finite s m e P)) = s.
Proof.
  intros Hu r Hr.
  pose proof (binary_normalize_correct 24 128 p24 e128 mode_NE (cond_Zopp s (Zpos m)) e s) as C. cbv zeta in C.
  change (F2R (Float radix2 (cond_Zopp s (Zpos m)) e)) with r in C. simpl round_mode in C.
  assert (V : Rabs (rne32 r) <= b2 u) by (apply (round_up (prec:=24) (emax:=128) p24); [exact Hu|exact Hr]).
  rewrite Rlt_bool_true in C by (eapply Rle_lt_trans; [exact V|apply bpow_lt; apply Hu]).
  destruct C as (C1 & C2 & C3). split; [exact C1|]. split; [exact C2|].
  change (Bsign (binary_normalize 24 128 p24 e128 mode_NE (cond_Zopp s (Zpos m)) e s) = s). rewrite C3.
  assert (Sg : if s then r < 0 else 0 < r) by (unfold r; destruct s; [apply F2R_lt_0|apply F2R_gt_0]; reflexivity).
  destruct s; [rewrite Rcompare_Lt|rewrite Rcompare_Gt]; auto.
Qed.
Lemma to32_sh k n u (x y : f64) : (n <= 126)%Z -> (n - k <= 126)%Z -> (-126 <= u < 128)%Z -> (-126 <= u + k < 128)%Z ->
  shifted k x y -> sized n u x -> shifted k (to32 x) (to32 y) /\ sized n u (to32 x).
Proof.
  intros Hn Hk Hu Hv H G.
  assert (a1 : (2 - 128 <= - n)%Z) by lia. assert (a2 : (2 - 128 <= - n + k)%Z) by lia. clear Hn Hk.
  destruct x as [s|s| |s m e P].
  - apply sh_zero in H. subst y. split; [right; cbn; repeat split; ring|apply sized_zero].
  - apply sh_infinity in H. subst y. split; [left; split; reflexivity|intros F; discriminate F].
  - apply sh_Nan in H. subst y. split; [left; split; reflexivity|intros F; discriminate F].
  - pose proof H as [[_ B]|(_ & Fy & E & S)]; [discriminate B|]. apply sh_finite in H as (m' & e' & P' & ->).
    pose proof (B2R_finite_nz 53 1024 s m e P) as N. destruct (G eq_refl N) as [L U].
    destruct (to32_finite s m e P u Hu U) as (A1 & A2 & A3).
    assert (U' : Rabs (B2R (B754_finite (prec:=53) (emax:=1024) s m' e' P')) <= b2 (u + k)).
    { rewrite E, Rabs_mult, (Rabs_pos_eq (b2 k)), bpow_plus by apply bpow_ge_0. apply Rmult_le_compat_r; [apply bpow_ge_0|exact U]. }
    destruct (to32_finite s m' e' P' (u + k) Hv U') as (B1 & B2 & B3).
    set (r := B2R (B754_finite (prec:=53) (emax:=1024) s m e P)) in *. rewrite E in B1. split.
    + right. split; [exact A2|]. split; [exact B2|]. split; [|congruence]. rewrite A1, B1. apply round_shift.
      * eapply Rle_trans; [|exact L]. now apply bpow_le.
      * rewrite Rabs_mult, (Rabs_pos_eq (b2 k)) by apply bpow_ge_0.
        apply Rle_trans with (b2 (- n) * b2 k); [rewrite <- bpow_plus; now apply bpow_le|].
        apply Rmult_le_compat_r; [apply bpow_ge_0|exact L].
    + intros _ _. rewrite A1. split; [apply (round_low (prec:=24) (emax:=128) p24)|apply (round_up (prec:=24) (emax:=128) p24)]; assumption.
Qed.
Lemma to64_exact (x : f32) : B2R (to64 x) = B2R x /\ is_finite (to64 x) = is_finite x /\ Bsign (to64 x) = Bsign x.
Proof.
  destruct x as [s|s| |s m e P]; try (split; [|split]; reflexivity).
  pose proof (binary_normalize_correct 53 1024 p53 e1024 mode_NE (cond_Zopp s (Zpos m)) e s) as C. cbv zeta in C. simpl round_mode in C.
  change (F2R (Float radix2 (cond_Zopp s (Zpos m)) e)) with (B2R (B754_finite (prec:=24) (emax:=128) s m e P)) in C.
  pose proof (generic_format_B2R 24 128 (B754_finite s m e P)) as F. pose proof (abs_B2R_lt_emax 24 128 (B754_finite s m e P)) as L.
  assert (Sg : if s then B2R (B754_finite (prec:=24) (emax:=128) s m e P) < 0 else 0 < B2R (B754_finite (prec:=24) (emax:=128) s m e P))
    by (destruct s; [apply F2R_lt_0|apply F2R_gt_0]; reflexivity).
  set (r := B2R (B754_finite (prec:=24) (emax:=128) s m e P)) in *.
  assert (R0 : round radix2 (SpecFloat.fexp 53 1024) ZnearestE r = r).
  { apply round_generic; [apply valid_rnd_N|]. revert F. apply generic_inclusion_mag. intros _. unfold SpecFloat.fexp, SpecFloat.emin. lia. }
  rewrite R0 in C. rewrite Rlt_bool_true in C by (eapply Rlt_trans; [exact L|apply bpow_lt; lia]).
  destruct C as (C1 & C2 & C3). split; [exact C1|]. split; [exact C2|].
  change (Bsign (binary_normalize 53 1024 p53 e1024 mode_NE (cond_Zopp s (Zpos m)) e s) = s). rewrite C3.
  destruct s; [rewrite Rcompare_Lt|rewrite Rcompare_Gt]; auto.
Qed.
Lemma to64_sh k (x y : f32) : shifted k x y -> shifted k (to64 x) (to64 y).
Proof.
  intros [[-> F]|(F & F' & E & S)].
  - left. split; [reflexivity|]. destruct (to64_exact y) as (_ & -> & _). exact F.
  - right. destruct (to64_exact x) as (A1 & A2 & A3), (to64_exact y) as (B1 & B2 & B3).
    rewrite A2, B2, A1, B1, A3, B3. auto.
Qed.
Lemma to64_grid n u (x : f32) : grid n u x -> grid n u (to64 x).
Proof. intros G F. destruct (to64_exact x) as (A1 & A2 & A3). rewrite A1. apply G. congruence. Qed.
End Conv.
