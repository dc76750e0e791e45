(** IEEE-754 binary formats (via Flocq) as instances of [Num], and the proof that
    they are [Rounded]. *)
From Flocq Require Import Core BinarySingleNaN.
From Coq Require Import Reals Lra.
From Verif Require Import Py Num RX.
Local Open Scope R_scope.

Section Binary.
Variables prec emax : Z.
Hypothesis Hp : (0 < prec)%Z.
Hypothesis Hm : (prec < emax)%Z.
Local Instance Hp' : Prec_gt_0 prec := Hp.
Local Instance Hm' : Prec_lt_emax prec emax := Hm.

Notation bf := (binary_float prec emax).

Definition bin_ofZ (z : Z) : bf := binary_normalize prec emax Hp Hm mode_NE z 0 false.
Definition bin_ceil (x : bf) : option Z :=
  if is_finite x then Some (Btrunc (Bnearbyint mode_UP x)) else None.

(** IEEE arithmetic, round to nearest even, a single NaN.  [sm] is the order in which
    [np.sum] associates its additions: an arbitrary function here. *)
Definition BNum (sm : list bf -> bf) : Num :=
  {| car := bf;
     nadd := Bplus mode_NE; nsub := Bminus mode_NE; nmul := Bmult mode_NE;
     ndiv := Bdiv mode_NE; nopp := @Bopp prec emax; nabs := @Babs prec emax;
     nsqrt := Bsqrt mode_NE; nrint := Bnearbyint mode_NE;
     ncmp := @Bcompare prec emax; nfin := @is_finite prec emax;
     nofZ := bin_ofZ; nnan := B754_nan;
     npinf := B754_infinity false; nninf := B754_infinity true;
     nceil := bin_ceil; nsum := sm |}.

(** Left-to-right summation. *)
Definition seqsum (l : list bf) : bf := fold_left (Bplus mode_NE) l (bin_ofZ 0).

(** ** Interpretation in the extended reals *)

Definition bval (x : bf) : xr :=
  match x with
  | B754_zero _ => XR 0
  | B754_infinity s => if s then XNInf else XPInf
  | B754_nan => XNaN
  | B754_finite _ _ _ _ => XR (B2R x)
  end.

Notation fexp := (SpecFloat.fexp prec emax).
Notation rne := (round radix2 fexp ZnearestE).

Definition brnd (a : xr) : xr :=
  match a with
  | XR r => if Rlt_bool (Rabs (rne r)) (bpow radix2 emax) then XR (rne r)
            else if Rlt_bool r 0 then XNInf else XPInf
  | _ => a
  end.

Local Instance vexp : Valid_exp fexp := FLT_exp_valid _ _.

Lemma bval_fin (x : bf) : is_finite x = true -> bval x = XR (B2R x).
Proof. destruct x; simpl; easy. Qed.
Lemma bval_fin_iff (x : bf) : is_finite x = xfin (bval x).
Proof. destruct x as [|[|]| |]; reflexivity. Qed.
Lemma bval_nan (x : bf) : is_nan x = true <-> bval x = XNaN.
Proof. destruct x as [|[|]| |]; simpl; split; easy. Qed.

Lemma brnd_B2R (x : bf) : is_finite x = true -> brnd (XR (B2R x)) = XR (B2R x).
Proof.
  intros Hf. unfold brnd.
  rewrite (round_generic radix2 fexp ZnearestE (B2R x)).
  2:{ apply generic_format_B2R. }
  rewrite Rlt_bool_true; [reflexivity|].
  apply abs_B2R_lt_emax.
Qed.

Lemma brnd_val (x : bf) : brnd (bval x) = bval x.
Proof.
  destruct x as [s|[|]| |s m e H]; try reflexivity.
  - change (bval (B754_zero s)) with (XR (B2R (B754_zero (prec:=prec) (emax:=emax) s))).
    apply brnd_B2R; reflexivity.
  - change (bval (B754_finite s m e H)) with (XR (B2R (B754_finite (prec:=prec) (emax:=emax) s m e H))).
    apply brnd_B2R; reflexivity.
Qed.

Lemma B2SF_inf x s : B2SF (prec:=prec) (emax:=emax) x = SpecFloat.S754_infinity s -> x = B754_infinity s.
Proof. destruct x; simpl; try discriminate. intros [= ->]; reflexivity. Qed.

Lemma Bsign_neg x : Bsign (prec:=prec) (emax:=emax) x = true -> B2R x <= 0.
Proof.
  destruct x as [s|s| |s m e H]; simpl; try lra. intros ->.
  apply Rlt_le. apply F2R_lt_0. reflexivity.
Qed.
Lemma Bsign_pos x : Bsign (prec:=prec) (emax:=emax) x = false -> 0 <= B2R x.
Proof.
  destruct x as [s|s| |s m e H]; simpl; try lra. intros ->.
  apply F2R_ge_0. simpl; lia.
Qed.

Lemma rne_0 : rne 0 = 0.
Proof. apply round_0. typeclasses eauto. Qed.

Lemma rne_nz r : ~ (Rabs (rne r) < bpow radix2 emax) -> r <> 0.
Proof.
  intros H ->. apply H. rewrite rne_0, Rabs_R0. apply bpow_gt_0.
Qed.

(** Characterisation used for every operation. *)
Lemma val_of_spec (z : bf) (r : R) (s : bool) :
  (if Rlt_bool (Rabs (rne r)) (bpow radix2 emax)
   then B2R z = rne r /\ is_finite z = true
   else B2SF z = binary_overflow prec emax mode_NE s /\
        (r <> 0 -> (s = true -> r < 0) /\ (s = false -> 0 < r))) ->
  bval z = brnd (XR r).
Proof.
  unfold brnd. destruct (Rlt_bool_spec (Rabs (rne r)) (bpow radix2 emax)) as [H|H].
  - intros [E F]. rewrite bval_fin by auto. now rewrite E.
  - intros [E S]. apply B2SF_inf in E. subst z. simpl.
    assert (r <> 0) by (apply rne_nz; lra).
    destruct S as [S1 S2]; auto.
    destruct s.
    + rewrite Rlt_bool_true; auto.
    + rewrite Rlt_bool_false; auto. apply Rlt_le; auto.
Qed.

Lemma bval_Bopp (x : bf) : bval (Bopp x) = xopp (bval x).
Proof.
  destruct x as [s|[|]| |s m e H]; try reflexivity.
  - simpl. f_equal; lra.
  - change (Bopp (B754_finite s m e H)) with (Bopp (B754_finite (prec:=prec) (emax:=emax) s m e H)).
    rewrite (bval_fin (Bopp _)) by reflexivity. rewrite B2R_Bopp. reflexivity.
Qed.

Lemma bval_add (x y : bf) : bval (Bplus mode_NE x y) = brnd (xadd (bval x) (bval y)).
Proof.
  destruct (is_finite x) eqn:Fx; [destruct (is_finite y) eqn:Fy|].
  - rewrite (bval_fin x), (bval_fin y) by auto. simpl xadd.
    pose proof (Bplus_correct prec emax Hp' Hm' mode_NE x y Fx Fy) as C.
    simpl round_mode in C.
    apply (val_of_spec _ _ (Bsign x)).
    destruct (Rlt_bool _ _); [tauto|].
    destruct C as [C1 C2]. split; [exact C1|].
    intros Hn. split; intros Hs.
    + pose proof (Bsign_neg _ Hs). rewrite Hs in C2. symmetry in C2.
      pose proof (Bsign_neg _ C2). lra.
    + pose proof (Bsign_pos _ Hs). rewrite Hs in C2. symmetry in C2.
      pose proof (Bsign_pos _ C2). lra.
  - destruct y as [|[|]| |]; try discriminate; destruct x as [|[|]| |]; try discriminate; reflexivity.
  - destruct y as [|[|]| |]; try discriminate; destruct x as [|[|]| |]; try discriminate; reflexivity.
Qed.

Lemma bval_sub (x y : bf) : bval (Bminus mode_NE x y) = brnd (xsub (bval x) (bval y)).
Proof.
  destruct (is_finite x) eqn:Fx; [destruct (is_finite y) eqn:Fy|].
  - rewrite (bval_fin x), (bval_fin y) by auto. unfold xsub; simpl xadd.
    pose proof (Bminus_correct prec emax Hp' Hm' mode_NE x y Fx Fy) as C.
    simpl round_mode in C.
    apply (val_of_spec _ _ (Bsign x)).
    change (B2R x + - B2R y) with (B2R x - B2R y).
    destruct (Rlt_bool _ _); [tauto|].
    destruct C as [C1 C2]. split; [exact C1|].
    intros Hn. split; intros Hs.
    + pose proof (Bsign_neg _ Hs). rewrite Hs in C2. 
      assert (Bsign y = false) as C3 by (destruct (Bsign y); easy).
      pose proof (Bsign_pos _ C3). lra.
    + pose proof (Bsign_pos _ Hs). rewrite Hs in C2. 
      assert (Bsign y = true) as C3 by (destruct (Bsign y); easy).
      pose proof (Bsign_neg _ C3). lra.
  - destruct y as [|[|]| |]; try discriminate; destruct x as [|[|]| |]; try discriminate; reflexivity.
  - destruct y as [|[|]| |]; try discriminate; destruct x as [|[|]| |]; try discriminate; reflexivity.
Qed.

Lemma B2R_finite_sign s m e H :
  Rcompare (B2R (@B754_finite prec emax s m e H)) 0 = if s then Lt else Gt.
Proof.
  destruct s; [apply Rcompare_Lt; now apply F2R_lt_0 | apply Rcompare_Gt; now apply F2R_gt_0].
Qed.

Lemma B2R_finite_nz s m e H : B2R (@B754_finite prec emax s m e H) <> 0.
Proof.
  pose proof (B2R_finite_sign s m e H) as C. intros E. rewrite E in C.
  rewrite Rcompare_Eq in C by reflexivity. now destruct s.
Qed.

Lemma bval_mul (x y : bf) : bval (Bmult mode_NE x y) = brnd (xmul (bval x) (bval y)).
Proof.
  assert (G : is_finite x = true -> is_finite y = true ->
              bval (Bmult mode_NE x y) = brnd (xmul (bval x) (bval y))).
  { intros Fx Fy. rewrite (bval_fin x), (bval_fin y) by auto. simpl xmul.
    pose proof (Bmult_correct prec emax Hp' Hm' mode_NE x y) as C. simpl round_mode in C.
    apply (val_of_spec _ _ (xorb (Bsign x) (Bsign y))).
    destruct (Rlt_bool _ _).
    - destruct C as (C1 & C2 & _). rewrite Fx, Fy in C2. tauto.
    - split; [exact C|]. intros Hn.
      assert (S : forall b c : bool, Bsign x = b -> Bsign y = c ->
         (if b then B2R x <= 0 else 0 <= B2R x) /\ (if c then B2R y <= 0 else 0 <= B2R y)).
      { intros b c Hb Hc. split; [destruct b|destruct c]; auto using Bsign_neg, Bsign_pos. }
      destruct (S _ _ eq_refl eq_refl) as [S1 S2].
      destruct (Bsign x), (Bsign y); simpl; split; intros E; try discriminate; nra. }
  destruct x as [sx|[|]| |sx mx ex Hx], y as [sy|[|]| |sy my ey Hy];
    try (apply G; reflexivity); cbn [bval Bmult xmul xsgn csmul xinf brnd xorb];
    rewrite ?B2R_finite_sign, ?Rcompare_Eq by reflexivity;
    try (destruct sx; reflexivity); try (destruct sy; reflexivity); reflexivity.
Qed.

Lemma bval_zero_iff (x : bf) : bval x = XR 0 <-> exists s, x = B754_zero s.
Proof.
  split.
  - destruct x as [s|[|]| |s m e H]; try discriminate; eauto.
    intros [= E]. exfalso. now apply (B2R_finite_nz s m e H).
  - intros [s ->]; reflexivity.
Qed.

Lemma bval_div (x y : bf) : bval y <> XR 0 -> bval (Bdiv mode_NE x y) = brnd (xdiv (bval x) (bval y)).
Proof.
  intros Hy0.
  assert (G : is_finite x = true -> is_finite y = true ->
              bval (Bdiv mode_NE x y) = brnd (xdiv (bval x) (bval y))).
  { intros Fx Fy. rewrite (bval_fin y) in Hy0 by auto.
    rewrite (bval_fin x), (bval_fin y) by auto. simpl xdiv.
    assert (B2R y <> 0) as Hn by congruence.
    destruct (Req_EM_T (B2R y) 0); [easy|].
    pose proof (Bdiv_correct prec emax Hp' Hm' mode_NE x y Hn) as C. simpl round_mode in C.
    apply (val_of_spec _ _ (xorb (Bsign x) (Bsign y))).
    destruct (Rlt_bool _ _).
    - destruct C as (C1 & C2 & _). rewrite Fx in C2. tauto.
    - split; [exact C|]. intros Hq.
      assert (S : forall b c : bool, Bsign x = b -> Bsign y = c ->
         (if b then B2R x <= 0 else 0 <= B2R x) /\ (if c then B2R y <= 0 else 0 <= B2R y)).
      { intros b c Hb Hc. split; [destruct b|destruct c]; auto using Bsign_neg, Bsign_pos. }
      destruct (S _ _ eq_refl eq_refl) as [S1 S2].
      assert (B2R x <> 0) as Hx0.
      { intros E. apply Hq. rewrite E. unfold Rdiv. now rewrite Rmult_0_l. }
      clear - Hx0 Hn S1 S2 Hq. unfold Rdiv in *.
      destruct (Bsign x), (Bsign y); simpl; split; intros E; try discriminate.
      + assert (/ B2R y < 0) by (apply Rinv_lt_0_compat; lra). nra.
      + assert (0 < / B2R y) by (apply Rinv_0_lt_compat; lra). nra.
      + assert (/ B2R y < 0) by (apply Rinv_lt_0_compat; lra). nra.
      + assert (0 < / B2R y) by (apply Rinv_0_lt_compat; lra). nra. }
  assert (E0 : brnd (XR 0) = XR 0).
  { simpl. rewrite rne_0, Rabs_R0, Rlt_bool_true by apply bpow_gt_0. reflexivity. }
  destruct x as [sx|[|]| |sx mx ex Hx], y as [sy|[|]| |sy my ey Hy];
    try (apply G; reflexivity); try (exfalso; apply Hy0; reflexivity);
    cbn [bval Bdiv xdiv]; rewrite ?E0; try reflexivity.
  - destruct (Req_EM_T _ 0) as [E|E]; [now apply B2R_finite_nz in E|].
    rewrite B2R_finite_sign. destruct sy; reflexivity.
  - destruct (Req_EM_T _ 0) as [E|E]; [now apply B2R_finite_nz in E|].
    rewrite B2R_finite_sign. destruct sy; reflexivity.
Qed.

Lemma bval_sqrt (x : bf) : bval (Bsqrt mode_NE x) = brnd (xsqrt (bval x)).
Proof.
  pose proof (Bsqrt_correct prec emax Hp' Hm' mode_NE x) as (C1 & C2 & _).
  simpl round_mode in C1.
  assert (E0 : brnd (XR 0) = XR 0).
  { simpl. rewrite rne_0, Rabs_R0, Rlt_bool_true by apply bpow_gt_0. reflexivity. }
  destruct x as [s|[|]| |s m e H]; try reflexivity.
  - cbn [bval Bsqrt xsqrt]. destruct (Rlt_dec 0 0); [lra|]. rewrite sqrt_0. now rewrite E0.
  - destruct s.
    + cbn [bval xsqrt]. destruct (Rlt_dec _ 0) as [L|L]; [reflexivity|].
      exfalso; apply L. now apply F2R_lt_0.
    + cbn [bval xsqrt]. destruct (Rlt_dec _ 0) as [L|L].
      * exfalso. assert (0 < B2R (@B754_finite prec emax false m e H)) by (now apply F2R_gt_0). lra.
      * rewrite bval_fin by exact C2. rewrite C1.
        unfold brnd. rewrite Rlt_bool_true; [reflexivity|].
        rewrite <- C1. apply abs_B2R_lt_emax.
Qed.

Lemma bval_rint (x : bf) : bval (Bnearbyint mode_NE x) = xrint (bval x).
Proof.
  pose proof (Bnearbyint_correct prec emax Hm' mode_NE x) as (C1 & C2 & _).
  simpl round_mode in C1.
  destruct x as [s|[|]| |s m e H]; try reflexivity.
  - cbn. f_equal. change 0%R with (IZR 0) at 1. f_equal.
    symmetry. change 0%R with (IZR 0). apply Znearest_imp. rewrite Rminus_diag_eq by reflexivity.
    rewrite Rabs_R0; lra.
  - rewrite bval_fin by exact C2. rewrite C1. simpl xrint. f_equal.
    unfold round, scaled_mantissa, cexp, FIX_exp, F2R; simpl.
    now rewrite !Rmult_1_r.
Qed.

Lemma bval_ceil (x : bf) : bin_ceil x = xceil (bval x).
Proof.
  unfold bin_ceil. destruct (is_finite x) eqn:Fx.
  - rewrite bval_fin by auto. simpl. f_equal.
    pose proof (Bnearbyint_correct prec emax Hm' mode_UP x) as (C1 & _ & _).
    apply eq_IZR. rewrite Btrunc_correct by exact Hm'. rewrite C1. simpl round_mode.
    unfold round, scaled_mantissa, cexp, FIX_exp, F2R; simpl. rewrite !Rmult_1_r.
    now rewrite Ztrunc_IZR.
  - destruct x as [|[|]| |]; easy.
Qed.

Lemma bval_cmp (x y : bf) : Bcompare x y = xcmp (bval x) (bval y).
Proof.
  destruct (is_finite x) eqn:Fx; [destruct (is_finite y) eqn:Fy|].
  - rewrite (bval_fin x), (bval_fin y) by auto. now apply Bcompare_correct.
  - destruct y as [|[|]| |]; try discriminate; destruct x as [|[|]| |[|]]; try discriminate; reflexivity.
  - destruct y as [|[|]| |[|]]; try discriminate; destruct x as [|[|]| |]; try discriminate; reflexivity.
Qed.

Lemma bval_ofZ z : bval (bin_ofZ z) = brnd (XR (IZR z)).
Proof.
  unfold bin_ofZ.
  pose proof (binary_normalize_correct prec emax Hp' Hm' mode_NE z 0 false) as C.
  cbv zeta in C. simpl round_mode in C.
  assert (E : F2R (Float radix2 z 0) = IZR z) by (unfold F2R; simpl; now rewrite Rmult_1_r).
  rewrite E in C.
  apply (val_of_spec _ _ (Rlt_bool (IZR z) 0)).
  destruct (Rlt_bool (Rabs _) _); [tauto|]. split; [exact C|].
  intros Hn. destruct (Rlt_bool_spec (IZR z) 0); split; intros; try discriminate; lra.
Qed.

Lemma brnd_mono a b : xle a b -> xle (brnd a) (brnd b).
Proof.
  destruct a as [r| | |], b as [s| | |]; try easy; simpl; intros H.
  - assert (M : rne r <= rne s) by (apply round_le; typeclasses eauto || assumption).
    destruct (Rlt_bool_spec (Rabs (rne r)) (bpow radix2 emax)) as [A|A];
    destruct (Rlt_bool_spec (Rabs (rne s)) (bpow radix2 emax)) as [B|B].
    + exact M.
    + destruct (Rlt_bool_spec s 0) as [S|S]; [|exact I]. simpl.
      assert (rne s <= 0) by (rewrite <- rne_0; apply round_le; [typeclasses eauto..|lra]).
      rewrite Rabs_left1 in B by lra. apply Rabs_lt_inv in A. lra.
    + destruct (Rlt_bool_spec r 0) as [S|S]; [exact I|]. simpl.
      assert (0 <= rne r) by (rewrite <- rne_0; apply round_le; [typeclasses eauto..|lra]).
      rewrite Rabs_pos_eq in A by lra. apply Rabs_lt_inv in B. lra.
    + destruct (Rlt_bool_spec r 0), (Rlt_bool_spec s 0); simpl; try exact I. lra.
  - destruct (Rlt_bool (Rabs (rne r)) _); [exact I|]. destruct (Rlt_bool r 0); exact I.
  - destruct (Rlt_bool (Rabs (rne s)) _); [exact I|]. destruct (Rlt_bool s 0); exact I.
Qed.

Lemma brnd_opp a : brnd (xopp a) = xopp (brnd a).
Proof.
  destruct a as [r| | |]; try reflexivity. simpl.
  assert (E : rne (- r) = - rne r) by (rewrite round_NE_opp; reflexivity).
  rewrite E, Rabs_Ropp.
  destruct (Rlt_bool_spec (Rabs (rne r)) (bpow radix2 emax)) as [A|A]; [reflexivity|].
  assert (r <> 0) by (apply rne_nz; lra).
  destruct (Rlt_bool_spec (-r) 0), (Rlt_bool_spec r 0); try reflexivity; lra.
Qed.

Lemma brnd_not_nan a : brnd a = XNaN -> a = XNaN.
Proof.
  destruct a as [r| | |]; simpl; try easy.
  destruct (Rlt_bool _ _); [easy|]. now destruct (Rlt_bool _ _).
Qed.

Lemma brnd_int z : (Z.abs z <= 2 ^ prec)%Z -> brnd (XR (IZR z)) = XR (IZR z).
Proof.
  intros Hz. unfold brnd.
  assert (G : generic_format radix2 fexp (IZR z)).
  { destruct (Z.eq_dec (Z.abs z) (2 ^ prec)) as [E|E].
    - assert (B : generic_format radix2 fexp (IZR (2 ^ prec))).
      { change 2%Z with (radix_val radix2). rewrite IZR_Zpower by lia.
        apply generic_format_bpow. unfold SpecFloat.fexp, SpecFloat.emin. lia. }
      destruct (Z.abs_eq_or_opp z) as [A|A]; rewrite A in E.
      + now rewrite E.
      + replace z with (- (2 ^ prec))%Z by lia. rewrite opp_IZR. now apply generic_format_opp.
    - apply generic_format_FLT.
      exists (Float radix2 z 0).
      + unfold F2R; simpl; ring.
      + simpl. change 2%Z with (radix_val radix2) in *. lia.
      + simpl. unfold SpecFloat.emin. lia. }
  rewrite (round_generic radix2 fexp ZnearestE (IZR z) G).
  rewrite Rlt_bool_true; [reflexivity|].
  rewrite <- abs_IZR.
  apply Rle_lt_trans with (IZR (2 ^ prec)); [now apply IZR_le|].
  change 2%Z with (radix_val radix2). rewrite IZR_Zpower by lia. now apply bpow_lt.
Qed.

Lemma bval_inj (x y : bf) : bval x = bval y -> bval x <> XR 0 -> x = y.
Proof.
  intros E H.
  destruct x as [s|[|]| |s m e Hx], y as [s'|[|]| |s' m' e' Hy]; try discriminate; try reflexivity;
    try (exfalso; now apply H).
  apply B2R_inj; try reflexivity. now injection E.
Qed.

Lemma bsub_self (x : bf) : is_finite x = true -> Bminus mode_NE x x = bin_ofZ 0.
Proof.
  intros Fx.
  pose proof (Bminus_correct prec emax Hp' Hm' mode_NE x x Fx Fx) as C.
  rewrite Rminus_diag_eq in C by reflexivity. simpl round_mode in C.
  rewrite rne_0, Rabs_R0, Rlt_bool_true in C by apply bpow_gt_0.
  destruct C as (C1 & C2 & C3). rewrite Rcompare_Eq in C3 by reflexivity.
  apply B2R_Bsign_inj; auto.
  rewrite C3. destruct (Bsign x); reflexivity.
Qed.

Lemma bsub_zero (x : bf) : Bminus mode_NE x (bin_ofZ 0) = x.
Proof. destruct x as [[|]|[|]| |s m e H]; reflexivity. Qed.

Lemma bmul_opp (x y : bf) : Bmult mode_NE (Bopp x) (Bopp y) = Bmult mode_NE x y.
Proof.
  apply B2SF_inj. destruct x as [sx|sx| |sx mx ex Hx], y as [sy|sy| |sy my ey Hy]; try reflexivity;
    try (destruct sx, sy; reflexivity).
  unfold Bmult, Bopp. rewrite !B2SF_SF2B. destruct sx, sy; reflexivity.
Qed.

Hypothesis Hp10 : (10 <= prec)%Z.

Definition BNum_rounded sm : Rounded (BNum sm).
Proof.
  refine {| val := bval : BNum sm -> xr; rnd := brnd; intmax := 2 ^ prec |};
    cbn [BNum car nadd nsub nmul ndiv nopp nabs nsqrt nrint ncmp nfin nofZ nnan npinf nninf nceil];
    try reflexivity.
  - exact brnd_not_nan.
  - exact brnd_mono.
  - exact brnd_opp.
  - exact brnd_val.
  - change 1024%Z with (2 ^ 10)%Z. apply Z.pow_le_mono_r; lia.
  - exact brnd_int.
  - exact bval_add.
  - exact bval_sub.
  - exact bval_mul.
  - exact bval_div.
  - intros x y Hx Hy. apply bval_zero_iff in Hx as [s ->], Hy as [s' ->]. reflexivity.
  - intros x y Hx Hn Hy. apply bval_zero_iff in Hy as [s' ->].
    destruct x as [s|[|]| |s m e H]; try (exfalso; apply Hx; reflexivity);
      try (exfalso; apply Hn; reflexivity); simpl.
    + destruct s'; auto.
    + destruct s'; auto.
    + destruct (xorb s s'); auto.
  - intros x y Hx. apply bval_nan in Hx. destruct x; try discriminate. reflexivity.
  - exact bval_Bopp.
  - intros x. destruct x as [s|[|]| |s m e H]; try reflexivity.
    + simpl. now rewrite Rabs_R0.
    + rewrite (bval_fin (Babs _)) by reflexivity. rewrite B2R_Babs. reflexivity.
  - exact bval_sqrt.
  - exact bval_rint.
  - exact bval_cmp.
  - exact bval_fin_iff.
  - exact bval_ofZ.
  - exact bval_ceil.
  - intros x y Hx Hy. apply bval_nan in Hx, Hy. destruct x, y; easy.
  - exact bval_inj.
  - exact bsub_self.
  - exact bsub_zero.
  - intros x Hx. apply bval_zero_iff in Hx as [s ->]. reflexivity.
  - exact bmul_opp.
Defined.

End Binary.

Lemma p53 : (0 < 53)%Z. Proof. reflexivity. Qed.
Lemma e1024 : (53 < 1024)%Z. Proof. reflexivity. Qed.
Lemma p24 : (0 < 24)%Z. Proof. reflexivity. Qed.
Lemma e128 : (24 < 128)%Z. Proof. reflexivity. Qed.

Notation f64 := (binary_float 53 1024).
Notation f32 := (binary_float 24 128).

(** numpy's float64 with an arbitrary summation order [sm]. *)
Definition F64s (sm : list f64 -> f64) : Num := BNum 53 1024 p53 e1024 sm.
(** float64 with left-to-right sums, used for concrete examples. *)
Definition F64 : Num := F64s (seqsum 53 1024 p53 e1024).
Definition F32s (sm : list f32 -> f32) : Num := BNum 24 128 p24 e128 sm.
Definition F32 : Num := F32s (seqsum 24 128 p24 e128).

Definition F64_rounded sm : Rounded (F64s sm) :=
  BNum_rounded 53 1024 p53 e1024 ltac:(lia) sm.
Definition F32_rounded sm : Rounded (F32s sm) :=
  BNum_rounded 24 128 p24 e128 ltac:(lia) sm.

(** Conversions between the two formats ([astype(np.float32)] and back). *)
Definition to32 (x : f64) : f32 :=
  match x with
  | B754_zero s => B754_zero s
  | B754_infinity s => B754_infinity s
  | B754_nan => B754_nan
  | B754_finite s m e _ =>
      binary_normalize 24 128 p24 e128 mode_NE (cond_Zopp s (Zpos m)) e s
  end.
Definition to64 (x : f32) : f64 :=
  match x with
  | B754_zero s => B754_zero s
  | B754_infinity s => B754_infinity s
  | B754_nan => B754_nan
  | B754_finite s m e _ =>
      binary_normalize 53 1024 p53 e1024 mode_NE (cond_Zopp s (Zpos m)) e s
  end.
