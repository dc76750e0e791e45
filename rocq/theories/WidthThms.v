(** Bin widths that the circular curve accepts (C98). *)
From Verif Require Import Py Num RX F64 Np Df Data DataFacts DfFacts RebuildFacts Center CenterFacts Align Spec SpecR SpecCirc SpecAlAcc Ex DataThms CenterThms AlignFacts AlignThms Circ CircFacts CurveFacts CircThms OrderThms AlAccFacts CtrAccThms EpsAccFacts EpsAccThms SpecWidth.
From Flocq Require Import Core.
From Coq Require Import Lra Lia Sorted Floats.SpecFloat.
Local Open Scope R_scope.

(** An exception of the bin edges is the exception of jcirc; without edges it is IndexError. *)
Lemma edges_raise {N : Num} (RN : Rounded N) argsort (g : galaxy N) b0 b1 e : gal_ok g ->
  (exists o, In o (all_orbits g) /\ bound o = true) ->
  (bin_edges b0 b1 = Raise e \/ (bin_edges b0 b1 = Ok [] /\ e = IndexError)) -> jcirc argsort g b0 b1 = Raise e.
Proof.
  intros Hg (o & Io & Bo) He. rewrite (jcirc_run RN) by assumption. unfold run, scaling.
  assert (Hb : filter bound (all_orbits g) <> []).
  { intros Z. assert (In o []) as []. rewrite <- Z. apply filter_In. auto. }
  rewrite !filter_krow, !map_map. set (b := filter bound (all_orbits g)) in *.
  assert (M1 : forall f : orbit N -> N, exists m, np_min (map f b) = Ok m) by (intros f; destruct b; [tauto|simpl; eauto]).
  assert (M2 : forall f : orbit N -> N, exists m, np_max (map f b) = Ok m) by (intros f; destruct b; [tauto|simpl; eauto]).
  destruct (M1 (fun x => k_e (krow_of x))) as [em Em]. rewrite Em. cbn [bind].
  destruct (M2 (fun x => nabs (k_z (krow_of x)))) as [z Ez]. rewrite Ez. cbn [bind].
  destruct He as [He|[He ->]]; rewrite He; cbn [bind]; [reflexivity|]. rewrite !map_map.
  unfold curve. destruct b as [|o1 b]; [tauto|]. cbn [map]. match goal with |- context [np_argmin ?l] => destruct (np_argmin l) as [i0|] eqn:Ei; [|discriminate Ei] end.
  reflexivity.
Qed.

Lemma izr_pow e : (0 <= e)%Z -> IZR (2 ^ e) = bpow radix2 e.
Proof. exact (IZR_Zpower radix2 e). Qed.

Section Range.
Variable sm : list f64 -> f64.
Let RN := F64_rounded sm.

Lemma rnd_lit (x : F64) r : shown_val (fshow x) = XR r -> rnd RN (XR r) = XR r.
Proof. intros H. rewrite <- H, <- (val_shown sm). apply (rnd_val RN). Qed.
Lemma rnd_pow (e : Z) : (0 <= e <= 64)%Z -> rnd RN (XR (bpow radix2 e)) = XR (bpow radix2 e).
Proof.
  intros He. change (rnd RN (XR (bpow radix2 e))) with (brnd 53 1024 (XR (bpow radix2 e))). unfold brnd.
  rewrite round_generic; [|apply valid_rnd_N|apply generic_format_bpow; unfold SpecFloat.fexp, SpecFloat.emin; lia].
  rewrite Rlt_bool_true; [reflexivity|]. rewrite Rabs_pos_eq by apply bpow_ge_0. apply bpow_lt. lia.
Qed.
Lemma rnd_3 : rnd RN (XR (- (3 * bpow radix2 62))) = XR (- (3 * bpow radix2 62)).
Proof.
  apply (rnd_lit (nlit (-3) 1 * nofZ (2 ^ 62))%num). 
  assert (E : fshow (nlit (-3) 1 * nofZ (2 ^ 62) : F64)%num = S754_finite true 6755399441055744 11) by (vm_compute; reflexivity).
  rewrite E. unfold shown_val, F2R. simpl. f_equal. lra.
Qed.

(** One of the two ranges, by the kind of its width. *)
Lemma one_range (start stop w : F64s sm) k d : val RN (stop - start)%num = XR d -> 3 / 32 <= d <= 1 ->
  has_width (val RN w) k ->
  match k with
  | WZero => arange start stop w = Raise ZeroDivisionError
  | WNaN | WTiny => arange start stop w = Raise ValueError
  | WNegative => arange start stop w = Ok []
  | WPositive => exists l, arange start stop w = Ok l /\ nth_error l 0 = Some start
  end.
Proof.
  intros Hd Dd Hw.
  assert (Z : neqb w n0 = true <-> val RN w = XR 0).
  { rewrite (neqb_iff RN), (val_n0 RN). split; [tauto|]. intros ->. split; [reflexivity|discriminate]. }
  assert (Dn : neqb (stop - start)%num n0 = false).
  { destruct (neqb (stop - start)%num n0) eqn:E; [|reflexivity]. apply (neqb_iff RN) in E as [E _]. rewrite Hd, (val_n0 RN) in E.
    injection E as E. lra. }
  assert (A : forall y, val RN w <> XR 0 -> xdiv (XR d) (val RN w) = y ->
    arange start stop w = do n <- (if neqb ((stop - start) / w)%num n0 && true then Ok (if nlt w n0 then 0%nat else 1%nat)
       else match xceil (rnd RN y) with
            | Some z => if ((z <? - 2 ^ 63) || (2 ^ 60 <=? z))%Z then Raise ValueError else Ok (Z.to_nat z)
            | None => Raise ValueError end); Ok (arange_fill start w n)).
  { intros y W0 Hy. unfold arange, arange_len. destruct (neqb w n0) eqn:E; [exfalso; apply W0, Z; reflexivity|]. rewrite Dn. cbn [negb].
    rewrite (val_ceil RN), (val_div RN) by exact W0. rewrite Hd, Hy. reflexivity. }
  assert (Zq : forall q, val RN w <> XR 0 -> rnd RN (xdiv (XR d) (val RN w)) = q -> (neqb ((stop - start) / w)%num n0 = true <-> q = XR 0)).
  { intros q W0 <-. rewrite (neqb_iff RN), (val_n0 RN), (val_div RN) by exact W0. rewrite Hd.
    split; [tauto|]. intros ->. split; [reflexivity|discriminate]. }
  assert (Up : forall r e, (0 <= e <= 64)%Z -> r <= bpow radix2 e -> xle (rnd RN (XR r)) (XR (bpow radix2 e))).
  { intros r e He Hr. rewrite <- (rnd_pow e He). apply (rnd_mono RN). exact Hr. }
  assert (R0 : rnd RN (XR 0) = XR 0) by (apply (rnd_int RN 0); vm_compute; discriminate).
  assert (Nn : forall r, rnd RN (XR r) <> XNaN) by (intros r E; apply (rnd_not_nan RN) in E; discriminate).
  destruct k; cbn [has_width] in Hw.
  - unfold arange, arange_len. apply Z in Hw. rewrite Hw. reflexivity.
  - rewrite (A XNaN); [|rewrite Hw; discriminate|rewrite Hw; reflexivity].
    destruct (neqb ((stop - start) / w)%num n0) eqn:E in |- *.
    + apply (Zq XNaN) in E; [discriminate|rewrite Hw; discriminate|]. rewrite Hw. apply (rnd_nan RN).
    + cbn [andb]. rewrite (rnd_nan RN). reflexivity.
  - destruct Hw as (r & Hw & Hr).
    assert (r <> 0) by (intros ->; rewrite Rabs_R0 in Hr; lra).
    assert (Dv : xdiv (XR d) (val RN w) = XR (d / r)) by (rewrite Hw; simpl; destruct (Req_EM_T r 0); [contradiction|reflexivity]).
    assert (W0 : val RN w <> XR 0) by (rewrite Hw; congruence).
    rewrite (A (XR (d / r))) by assumption.
    assert (B67 : bpow radix2 (-67) = / bpow radix2 67) by (apply (bpow_opp radix2 67)).
    assert (P67 : 0 < bpow radix2 67) by apply bpow_gt_0.
    assert (E67 : bpow radix2 67 = 128 * bpow radix2 60) by (change 67%Z with (7 + 60)%Z; rewrite bpow_plus; simpl; lra).
    assert (E62 : bpow radix2 62 = 4 * bpow radix2 60) by (change 62%Z with (2 + 60)%Z; rewrite bpow_plus; simpl; lra).
    assert (P60 : 0 < bpow radix2 60) by apply bpow_gt_0.
    assert (Big : 3 * bpow radix2 62 <= d / Rabs r).
    { apply Rmult_le_reg_r with (Rabs r); [lra|]. replace (d / Rabs r * Rabs r) with d by (field; lra).
      apply Rle_trans with (3 * bpow radix2 62 * bpow radix2 (-67)); [apply Rmult_le_compat_l; lra|].
      rewrite B67, E67, E62. replace (3 * (4 * bpow radix2 60) * / (128 * bpow radix2 60)) with (12 / 128) by (field; lra). lra. }
    destruct (Rle_or_lt 0 r) as [Sr|Sr].
    + rewrite Rabs_pos_eq in Big by exact Sr.
      assert (L : xle (XR (bpow radix2 60)) (rnd RN (XR (d / r)))).
      { rewrite <- (rnd_pow 60) by lia. apply (rnd_mono RN). simpl. simpl in E62, Big, P60. lra. }
      destruct (neqb ((stop - start) / w)%num n0) eqn:E in |- *.
      { apply (Zq _ W0 eq_refl) in E. rewrite Dv in E. rewrite E in L. cbv [xle] in L. lra. }
      cbn [andb]. destruct (rnd RN (XR (d / r))) as [q| | |] eqn:Q; try reflexivity. cbv [xle] in L. cbv [xceil].
      assert (C : (2 ^ 60 <= Zceil q)%Z).
      { apply le_IZR. eapply Rle_trans; [|apply Zceil_ub]. rewrite (izr_pow 60) by lia. exact L. }
      apply Z.leb_le in C. rewrite C, Bool.orb_true_r. reflexivity.
    + rewrite Rabs_left in Big by exact Sr.
      assert (L : xle (rnd RN (XR (d / r))) (XR (- (3 * bpow radix2 62)))).
      { rewrite <- rnd_3. apply (rnd_mono RN). cbv [xle]. replace (d / r) with (- (d / - r)) by (field; lra). lra. }
      destruct (neqb ((stop - start) / w)%num n0) eqn:E in |- *.
      { apply (Zq _ W0 eq_refl) in E. rewrite Dv in E. rewrite E in L. cbv [xle] in L. lra. }
      cbn [andb]. destruct (rnd RN (XR (d / r))) as [q| | |] eqn:Q; try reflexivity. cbv [xle] in L. cbv [xceil].
      assert (C : (Zceil q < - 2 ^ 63)%Z).
      { assert (C : (Zceil q <= - 3 * 2 ^ 62)%Z); [|lia]. apply Zceil_glb. rewrite mult_IZR, (izr_pow 62) by lia. lra. }
      apply Z.ltb_lt in C. rewrite C. reflexivity.
  - destruct Hw as [Hw|(r & Hw & Hr)].
    + rewrite (A (XR 0)); [|rewrite Hw; discriminate|rewrite Hw; reflexivity].
      destruct (neqb ((stop - start) / w)%num n0) eqn:E in |- *.
      * cbn [andb]. assert (L : nlt w n0 = true) by (apply (nlt_iff RN); rewrite Hw, (val_n0 RN); exact I). rewrite L. reflexivity.
      * exfalso. assert (neqb ((stop - start) / w)%num n0 = true); [|congruence].
        apply (Zq (XR 0)); [rewrite Hw; discriminate| |reflexivity]. rewrite Hw. exact R0.
    + assert (P59 : 0 < bpow radix2 (-59)) by apply bpow_gt_0.
      assert (Dv : xdiv (XR d) (val RN w) = XR (d / r)) by (rewrite Hw; simpl; destruct (Req_EM_T r 0); [lra|reflexivity]).
      assert (W0 : val RN w <> XR 0) by (rewrite Hw; intros [= ?]; lra).
      rewrite (A (XR (d / r))) by assumption.
      assert (L : nlt w n0 = true) by (apply (nlt_iff RN); rewrite Hw, (val_n0 RN); cbv [xlt]; lra). rewrite L.
      assert (Lo : xle (xopp (XR (bpow radix2 59))) (rnd RN (XR (d / r)))).
      { rewrite <- (rnd_pow 59), <- (rnd_opp RN) by lia. apply (rnd_mono RN). cbv [xle xopp].
        replace (d / r) with (- (d / - r)) by (field; lra). apply Ropp_le_contravar.
        apply Rmult_le_reg_r with (- r); [lra|]. replace (d / (- r) * (- r)) with d by (field; lra).
        apply Rle_trans with (bpow radix2 59 * bpow radix2 (-59)); [rewrite <- bpow_plus; simpl; lra|].
        apply Rmult_le_compat_l; [apply bpow_ge_0|lra]. }
      assert (Hi : xle (rnd RN (XR (d / r))) (XR 0)).
      { rewrite <- R0. apply (rnd_mono RN). cbv [xle]. assert (0 <= d / - r); [|replace (d / r) with (- (d / - r)) by (field; lra); lra].
        apply Rmult_le_pos; [lra|]. left. apply Rinv_0_lt_compat. lra. }
      destruct (rnd RN (XR (d / r))) as [q| | |] eqn:Q; cbv [xle xopp] in Lo, Hi; try contradiction. cbv [xceil].
      destruct (_ && true); [reflexivity|].
      assert (C1 : (- 2 ^ 63 <= Zceil q)%Z).
      { apply le_IZR. eapply Rle_trans; [|apply Zceil_ub]. rewrite opp_IZR, (izr_pow 63) by lia.
        apply Rle_trans with (2 := Lo). apply Ropp_le_contravar. apply bpow_le. lia. }
      assert (C2 : (Zceil q <= 0)%Z) by (apply Zceil_glb; exact Hi).
      destruct (Z.ltb_spec (Zceil q) (- 2 ^ 63)); [lia|]. destruct (Z.leb_spec (2 ^ 60) (Zceil q)); [lia|]. cbn [orb bind].
      replace (Z.to_nat (Zceil q)) with 0%nat by lia. reflexivity.
  - destruct Hw as [Hw|(r & Hw & Hr)].
    + rewrite (A (XR 0)); [|rewrite Hw; discriminate|rewrite Hw; reflexivity].
      assert (E : neqb ((stop - start) / w)%num n0 = true).
      { apply (Zq (XR 0)); [rewrite Hw; discriminate| |reflexivity]. rewrite Hw. exact R0. }
      rewrite E. assert (L : nlt w n0 = false).
      { apply (nlt_false RN). rewrite Hw, (val_n0 RN). exact (fun H => H). }
      rewrite L. eexists. split; reflexivity.
    + assert (P59 : 0 < bpow radix2 (-59)) by apply bpow_gt_0.
      assert (Dv : xdiv (XR d) (val RN w) = XR (d / r)) by (rewrite Hw; simpl; destruct (Req_EM_T r 0); [lra|reflexivity]).
      assert (W0 : val RN w <> XR 0) by (rewrite Hw; intros [= ?]; lra).
      rewrite (A (XR (d / r))) by assumption.
      assert (L : nlt w n0 = false) by (apply (nlt_false RN); rewrite Hw, (val_n0 RN); cbv [xlt]; lra). rewrite L.
      assert (Hi : xle (rnd RN (XR (d / r))) (XR (bpow radix2 59))).
      { apply Up; [lia|].
        apply Rmult_le_reg_r with r; [lra|]. replace (d / r * r) with d by (field; lra).
        apply Rle_trans with (bpow radix2 59 * bpow radix2 (-59)); [rewrite <- bpow_plus; simpl; lra|].
        apply Rmult_le_compat_l; [apply bpow_ge_0|lra]. }
      assert (Lo : xle (XR 0) (rnd RN (XR (d / r)))).
      { rewrite <- R0. apply (rnd_mono RN). cbv [xle]. apply Rmult_le_pos; [lra|]. left. apply Rinv_0_lt_compat. lra. }
      destruct (rnd RN (XR (d / r))) as [q| | |] eqn:Q; cbv [xle] in Lo, Hi; try contradiction. cbv [xceil].
      destruct (neqb ((stop - start) / w)%num n0) eqn:E in |- *; [cbn [andb bind]; eexists; split; reflexivity|]. cbn [andb].
      assert (q <> 0). { intros ->. assert (neqb ((stop - start) / w)%num n0 = true); [|congruence]. apply (Zq (XR 0) W0); [|reflexivity]. congruence. }
      assert (C1 : (0 < Zceil q)%Z) by (apply lt_IZR; eapply Rlt_le_trans; [|apply Zceil_ub]; lra).
      assert (C2 : (Zceil q <= 2 ^ 59)%Z) by (apply Zceil_glb; rewrite (izr_pow 59) by lia; exact Hi).
      destruct (Z.ltb_spec (Zceil q) (- 2 ^ 63)); [lia|]. destruct (Z.leb_spec (2 ^ 60) (Zceil q)); [lia|]. cbn [orb bind].
      eexists. split; [reflexivity|]. unfold arange_fill. destruct (Z.to_nat (Zceil q)) eqn:Zn; [lia|]. reflexivity.
Qed.

Lemma spans : (exists d, val RN (nlit (-1) 10 - nm1)%num = XR d /\ 3 / 32 <= d <= 1) /\
  (exists d, val RN (n0 - nlit (-1) 10)%num = XR d /\ 3 / 32 <= d <= 1).
Proof.
  assert (E0 : fshow (nlit (-1) 10 - nm1 : F64)%num = S754_finite false 8106479329266893 (-53)) by (vm_compute; reflexivity).
  assert (E1 : fshow (n0 - nlit (-1) 10 : F64)%num = S754_finite false 7205759403792794 (-56)) by (vm_compute; reflexivity).
  split; eexists; (split; [rewrite (val_shown sm)|]).
  - etransitivity; [exact (f_equal shown_val E0)|reflexivity].
  - unfold F2R. simpl. lra.
  - etransitivity; [exact (f_equal shown_val E1)|reflexivity].
  - unfold F2R. simpl. lra.
Qed.
End Range.

(** *** C98 *)

(** What jcirc does with every pair of widths (but those between 2^-67 and 2^-59 in size): the
    exception, and otherwise the rule of C30. *)
Lemma c98_widths : forall sm argsort (g : galaxy (F64s sm)) (b0 b1 : F64s sm) k0 k1,
  constructible g -> sorting argsort -> (exists o, In o (all_orbits g) /\ bound o = true) ->
  has_width (val (F64_rounded sm) b0) k0 -> has_width (val (F64_rounded sm) b1) k1 ->
  match refused k0 k1 with
  | Some e => jcirc argsort g b0 b1 = Raise e
  | None => (exists j, jcirc argsort g b0 b1 = Ok j) <->
      (forall i k oi ok, (i < k)%nat -> nth_error (star_orbits g) i = Some oi ->
         nth_error (star_orbits g) k = Some ok -> bound ok = true -> bound oi = true)
  end.
Proof.
  intros sm argsort g b0 b1 k0 k1 Hg Hs Hb H0 H1.
  destruct (spans sm) as [(d0 & D0 & B0) (d1 & D1 & B1)].
  pose proof (one_range sm _ _ _ _ _ D0 B0 H0) as R0. pose proof (one_range sm _ _ _ _ _ D1 B1 H1) as R1.
  assert (Hg' : gal_ok g) by now apply constructible_ok.
  assert (Er : forall e, bin_edges b0 b1 = Raise e \/ (bin_edges b0 b1 = Ok [] /\ e = IndexError) -> jcirc argsort g b0 b1 = Raise e)
    by (intros e; apply (edges_raise (F64_rounded sm)); assumption).
  assert (Ret : forall l0 l1, arange nm1 (nlit (-1) 10) b0 = Ok l0 -> arange (nlit (-1) 10) n0 b1 = Ok l1 -> l0 ++ l1 <> [] ->
    (exists j, jcirc argsort g b0 b1 = Ok j) <->
      (forall i k oi ok, (i < k)%nat -> nth_error (star_orbits g) i = Some oi ->
         nth_error (star_orbits g) k = Some ok -> bound ok = true -> bound oi = true)).
  { intros l0 l1 A0 A1 Ne. rewrite (c30_returns _ (F64_rounded sm) argsort g b0 b1 l0 l1 Hg Hs A0 A1 Ne). tauto. }
  destruct k0; cbn [refused];
    try (apply Er; left; unfold bin_edges; rewrite R0; reflexivity).
  - destruct k1; cbn [refused]; try (apply Er; left; unfold bin_edges; rewrite R0; cbn [bind]; rewrite R1; reflexivity).
    + apply Er. right. split; [|reflexivity]. unfold bin_edges. rewrite R0. cbn [bind]. rewrite R1. reflexivity.
    + destruct R1 as (l1 & A1 & F1). apply (Ret [] l1 R0 A1). destruct l1; [discriminate F1|discriminate].
  - destruct R0 as (l0 & R0 & F0).
    destruct k1; cbn [refused]; try (apply Er; left; unfold bin_edges; rewrite R0; cbn [bind]; rewrite R1; reflexivity).
    + apply (Ret l0 [] R0 R1). destruct l0; [discriminate F0|discriminate].
    + destruct R1 as (l1 & A1 & _). apply (Ret l0 l1 R0 A1). destruct l0; [discriminate F0|discriminate].
Qed.

Lemma fill_from {N : Num} (RN : Rounded N) (start w c : N) n s : val RN start = XR s -> xle (XR 0) (val RN w) ->
  (forall i, (i < n)%nat -> val RN (nofZ (Z.of_nat i)) <> XPInf) ->
  In c (arange_fill start w n) -> xle (val RN start) (val RN c).
Proof.
  intros Hs Hw Hn Hc. unfold arange_fill in Hc. apply in_map_iff in Hc as (i & <- & Ii). apply in_seq in Ii.
  specialize (Hn i ltac:(lia)).
  assert (Up : forall y : N, xle (XR 0) (val RN y) -> xle (val RN start) (val RN (start + y)%num)).
  { intros y Hy. rewrite (val_add RN). rewrite <- (rnd_val RN start) at 1. apply (rnd_mono RN). rewrite Hs.
    destruct (val RN y) as [r| | |]; cbv [xle xadd] in *; try tauto; lra. }
  destruct i as [|[|i]]; [rewrite Hs; cbv [xle]; lra|now apply Up|].
  apply Up. rewrite (val_mul RN).
  assert (R0 : rnd RN (XR 0) = XR 0) by (apply (rnd_int RN 0); pose proof (intmax_pos RN); lia).
  assert (R1 : rnd RN (XR 1) = XR 1) by (apply (rnd_int RN 1); pose proof (intmax_pos RN); lia).
  assert (Hi : xle (XR 1) (val RN (nofZ (Z.of_nat (S (S i)))))).
  { rewrite (val_ofZ RN), <- R1. apply (rnd_mono RN). cbv [xle]. apply (IZR_le 1). lia. }
  assert (Hd : xle (XR 0) (val RN (start + w - start)%num)).
  { rewrite (val_sub RN), <- R0. apply (rnd_mono RN). specialize (Up w Hw). rewrite Hs in *.
    destruct (val RN (start + w)%num) as [r| | |]; cbv [xle xsub xadd xopp] in *; try tauto; lra. }
  rewrite <- R0. apply (rnd_mono RN).
  destruct (val RN (nofZ _)) as [a| | |], (val RN (start + w - start)%num) as [b| | |]; try contradiction; cbv [xle] in Hi, Hd.
  - cbv [xle xmul]. apply Rmult_le_pos; lra.
  - cbv [xmul xsgn]. rewrite Rcompare_Gt by lra. exact I.
Qed.

Lemma arange_from sm (start stop w : F64s sm) l s c : val (F64_rounded sm) start = XR s ->
  has_width (val (F64_rounded sm) w) WPositive -> arange start stop w = Ok l -> In c l -> nle start c = true.
Proof.
  set (RN := F64_rounded sm). intros Hs Hw Hl Hc. apply (nle_iff RN).
  unfold arange in Hl. destruct (arange_len start stop w) as [n|] eqn:El; [|discriminate]. cbn [bind] in Hl. injection Hl as <-.
  assert (Hn : (Z.of_nat n <= 2 ^ 60)%Z).
  { unfold arange_len in El. destruct (neqb w n0); [discriminate|]. cbv zeta in El.
    destruct (_ && _) in El; [assert (n = 0 \/ n = 1)%nat as [->| ->] by (destruct (nlt w n0); [left|right]; congruence); vm_compute; discriminate|].
    destruct (nceil _) as [z|]; [|discriminate]. destruct (Z.ltb_spec z (- 2 ^ 63)); [discriminate|].
    destruct (Z.leb_spec (2 ^ 60) z); [discriminate|]. cbn [orb] in El. injection El as <-. assert (2 ^ 60 = 1152921504606846976)%Z by reflexivity. lia. }
  apply (fill_from RN start w c n s Hs); [| |exact Hc].
  - destruct Hw as [->|(r & -> & Hr)]; [exact I|]. cbv [xle]. pose proof (bpow_ge_0 radix2 (-59)). lra.
  - intros i Hi. rewrite (val_ofZ RN). intros E.
    assert (L : xle (rnd RN (XR (IZR (Z.of_nat i)))) (XR (bpow radix2 60))).
    { rewrite <- (rnd_pow sm 60) by lia. apply (rnd_mono RN). cbv [xle]. rewrite <- izr_pow by lia. apply IZR_le. lia. }
    rewrite E in L. exact L.
Qed.
Lemma tenth sm : exists s, val (F64_rounded sm) (nlit (-1) 10) = XR s.
Proof.
  assert (E : fshow (nlit (-1) 10 : F64)%num = S754_finite true 7205759403792794 (-56)) by (vm_compute; reflexivity).
  eexists. rewrite (val_shown sm). etransitivity; [exact (f_equal shown_val E)|reflexivity].
Qed.

(** With a negative first width no particle with energy of -0.1 and less is looked at, except
    the most bound one: every point of the curve after the first lies above -0.1. *)
Lemma c98_negative : forall sm argsort (g : galaxy (F64s sm)) (b0 b1 : F64s sm) j k x,
  constructible g -> sorting argsort -> jcirc argsort g b0 b1 = Ok j ->
  has_width (val (F64_rounded sm) b0) WNegative -> has_width (val (F64_rounded sm) b1) WPositive ->
  nth_error (jc_x j) (S k) = Some x -> nlt (nlit (-1) 10) x = true.
Proof.
  intros sm argsort g b0 b1 j k x Hg Hs Hj H0 H1 Hx.
  destruct (c28_points _ (F64_rounded sm) argsort g b0 b1 j Hg Hs Hj) as (ue & uz & up & l0 & l1 & _ & A0 & A1 & _ & P).
  destruct (spans sm) as [(d0 & D0 & B0) _]. pose proof (one_range sm _ _ _ _ _ D0 B0 H0) as R0. cbv beta iota in R0.
  rewrite A0 in R0. injection R0 as ->. cbn [app] in P.
  assert (Y : exists y, nth_error (jc_y j) (S k) = Some y).
  { apply nth_error_lt. apply constructible_ok in Hg.
    destruct (curve_of_run (F64_rounded sm) _ _ _ _ _ Hg Hs Hj) as (? & ? & ? & ? & ? & ? & _ & _ & _ & _ & _ & _ & X & Y).
    rewrite Y, map_length. rewrite X in Hx. apply nth_error_Some. intros Z. apply nth_error_None in Z.
    assert (nth_error (map fst (trimmed (ofE x0) (x3 ++ x4) (filter bound (all_orbits g)) x5)) (S k) = None); [|congruence].
    apply nth_error_None. now rewrite map_length. }
  destruct Y as [y Hy]. destruct (P k x y Hx Hy) as (i & o & Hi & Ho & -> & _).
  apply filter_In in Ho as [_ Ho]. unfold ebin in Ho. destruct (nth_error l1 (i - 1)) as [lo|] eqn:El; [|discriminate].
  apply andb_prop in Ho as [Lo _]. destruct (tenth sm) as [s Hs10].
  pose proof (arange_from sm _ _ _ _ _ lo Hs10 H1 A1 (nth_error_In _ _ El)) as Le.
  apply (nle_iff (F64_rounded sm)) in Le. apply (nlt_iff (F64_rounded sm)) in Lo. apply (nlt_iff (F64_rounded sm)).
  eapply xle_lt_trans; eassumption.
Qed.

Lemma wide_range sm (start stop w : F64s sm) d : val (F64_rounded sm) (stop - start)%num = XR d -> 3 / 32 <= d <= 1 ->
  val (F64_rounded sm) w = XPInf -> arange start stop w = Ok [start].
Proof.
  intros Hd Dd Hw. set (RN := F64_rounded sm) in *. unfold arange, arange_len.
  destruct (neqb w n0) eqn:E0; [apply (neqb_iff RN) in E0 as [E0 _]; rewrite Hw, (val_n0 RN) in E0; discriminate|]. cbv zeta.
  assert (E1 : neqb ((stop - start) / w)%num n0 = true).
  { apply (neqb_iff RN). rewrite (val_div RN) by (rewrite Hw; discriminate). rewrite Hd, Hw, (val_n0 RN). cbv [xdiv].
    assert (R0 : rnd RN (XR 0) = XR 0) by (apply (rnd_int RN 0); vm_compute; discriminate). rewrite R0. split; [reflexivity|discriminate]. }
  assert (E2 : neqb (stop - start)%num n0 = false).
  { destruct (neqb (stop - start)%num n0) eqn:E; [|reflexivity]. apply (neqb_iff RN) in E as [E _]. rewrite Hd, (val_n0 RN) in E.
    injection E as E. lra. }
  assert (E3 : nlt w n0 = false) by (apply (nlt_false RN); rewrite Hw, (val_n0 RN); exact (fun H => H)).
  rewrite E1, E2, E3. reflexivity.
Qed.

(** With infinite widths there are two edges, -1 and -0.1, and so three points at most. *)
Lemma c98_infinite : forall sm argsort (g : galaxy (F64s sm)) (b0 b1 : F64s sm) j,
  constructible g -> sorting argsort -> jcirc argsort g b0 b1 = Ok j ->
  val (F64_rounded sm) b0 = XPInf -> val (F64_rounded sm) b1 = XPInf ->
  (length (jc_x j) <= 3)%nat /\ (forall k x, nth_error (jc_x j) (S k) = Some x -> nlt nm1 x = true).
Proof.
  intros sm argsort g b0 b1 j Hg Hs Hj H0 H1. apply constructible_ok in Hg.
  destruct (spans sm) as [(d0 & D0 & B0) (d1 & D1 & B1)].
  destruct (curve_of_run (F64_rounded sm) _ _ _ _ _ Hg Hs Hj) as (ue & uz & up & l0 & l1 & raw & U & A0 & A1 & Hne & R & T & X & Y).
  rewrite (wide_range sm _ _ _ _ D0 B0 H0) in A0. assert (Z0 : l0 = [nm1]) by congruence.
  rewrite (wide_range sm _ _ _ _ D1 B1 H1) in A1. assert (Z1 : l1 = [nlit (-1) 10]) by congruence. clear A0 A1. subst l0 l1. cbn [app] in *.
  assert (Lr : length raw = 3%nat) by (destruct R as [a0 ps _ _ L _]; cbn [length] in *; lia).
  assert (Fl : forall A (f : A -> bool) l, (length (filter f l) <= length l)%nat).
  { clear. intros A f l. induction l as [|a l IH]; simpl; [lia|]. destruct (f a); simpl; lia. }
  split.
  - rewrite X, map_length. unfold trimmed. eapply Nat.le_trans; [apply Fl|].
    match goal with |- context [match ?l with [] => _ | _ => _ end] => destruct l end; [rewrite firstn_length|]; lia.
  - intros k x Hx.
    destruct (trimmed_head (F64_rounded sm) _ _ _ _ _ Hne R) as (a0 & r & Ia & Ma & E). rewrite X, E in Hx. cbn [map nth_error] in Hx.
    rewrite nth_error_map in Hx. destruct (nth_error r k) as [q|] eqn:Eq; [|discriminate]. injection Hx as <-.
    destruct (trimmed_tail (F64_rounded sm) _ _ _ _ _ _ _ _ Hne R E (nth_error_In _ _ Eq)) as (Nz & i & Hi & C & _).
    destruct C as [[_ ->]|(o & Ho & -> & P)].
    { unfold nzx in Nz. cbn [fst] in Nz. rewrite (n0_eqb (F64_rounded sm)) in Nz. discriminate. }
    apply filter_In in Ho as [_ Ho]. cbn [fst]. unfold ebin in Ho. cbn [length] in Hi.
    destruct i as [|[|[|i]]]; [lia| | |lia]; cbn [Nat.sub nth_error] in Ho; apply andb_prop in Ho as [Lo _]; [exact Lo|].
    apply (nlt_iff (F64_rounded sm)) in Lo. apply (nlt_iff (F64_rounded sm)).
    assert (L : nle (nm1 : F64s sm) (nlit (-1) 10) = true) by (vm_compute; reflexivity).
    apply (nle_iff (F64_rounded sm)) in L. eapply xle_lt_trans; eassumption.
Qed.

(** A star and dark matter, one third as deep: the widths 0, NaN, tiny and negative, a negative
    first width, infinite widths. *)
Example ex_c98 :
  let run b0 b1 := do g <- lineG (zl [(1,1,0,(-2,1))])%Z (zl [(2,1,0,(-1,1)); (-3,1,0,(-51,100))])%Z []; jcirc asort g b0 b1 in
  exn_of (run (fZ 0) (nlit 1 10)) = Some ZeroDivisionError /\ exn_of (run nnan (fZ 0)) = Some ValueError /\
  exn_of (run (nlit 1 (2 ^ 80)) (nlit 1 10)) = Some ValueError /\ exn_of (run (fZ 1) (fZ 0)) = Some ZeroDivisionError /\
  exn_of (run (fZ (-1)) (fZ (-1))) = Some IndexError /\
  rmap (fun j => length (jc_x j)) (run (fZ (-1)) (fZ 1)) = Ok 2%nat /\
  rmap (fun j => length (jc_x j)) (run npinf npinf) = Ok 3%nat /\ exn_of (run npinf nninf) = None.
Proof. vm_compute. repeat split; reflexivity. Qed.
