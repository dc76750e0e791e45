(** Accuracy of the circularity in floating point (C80). *)
From Verif Require Import Py Num RX F64 Np Df Data DataFacts DfFacts RebuildFacts Center CenterFacts Align Spec SpecR SpecCirc SpecAlAcc Ex DataThms CenterThms AlignFacts AlignThms Circ CircFacts CurveFacts CircThms OrderThms AlAccFacts CtrAccThms EpsAccFacts.
From Flocq Require Import Core.
From Coq Require Import Lra Lia Sorted Floats.SpecFloat.
Local Open Scope R_scope.

(** Every point of the curve but the last lies at or below an edge. *)
Lemma below_edge {N : Num} (RN : Rounded N) {A} (fE fZ : A -> N) edges b raw i k p q :
  rising edges -> edges <> [] -> raw_points fE fZ edges b raw -> (i < k)%nat ->
  nth_error (trimmed fE edges b raw) i = Some p -> nth_error (trimmed fE edges b raw) k = Some q ->
  exists hi, In hi edges /\ nle (fst p) hi = true.
Proof.
  intros Hr Hne R Hik Hp Hq. pose proof (trimmed_sorted RN _ _ _ _ _ Hr R) as S.
  assert (L : nlt (fst p) (fst q) = true) by exact (proj2 (SS_nth _ _) S i k p q Hik Hp Hq).
  destruct (trimmed_head RN _ _ _ _ _ Hne R) as (a0 & r & _ & _ & E). rewrite E in Hp, Hq.
  destruct k as [|k]; [lia|]. cbn [nth_error] in Hq. apply nth_error_In in Hq.
  destruct (trimmed_tail RN _ _ _ _ _ _ _ _ Hne R E Hq) as (Nzq & kb & Hkb & Cq & Rq).
  destruct i as [|i].
  - cbn [nth_error] in Hp. injection Hp as <-. exists nm1. destruct Hr as [H0 _]. split; [eapply nth_error_In; exact H0|].
    cbn [fst]. apply (nle_iff RN). apply xle_refl. rewrite (val_nm1 RN). discriminate.
  - cbn [nth_error] in Hp. apply nth_error_In in Hp.
    destruct (trimmed_tail RN _ _ _ _ _ _ _ _ Hne R E Hp) as (Nzp & ib & Hib & Cp & Rp).
    assert (Pt : forall t m, nzx t = true -> ebin_point edges fE fZ b m t -> ebin edges m (fst t) = true).
    { intros t m Nz [[_ ->]|(a & Ha & -> & _)].
      - unfold nzx in Nz. simpl in Nz. rewrite (n0_eqb RN) in Nz. discriminate.
      - apply filter_In in Ha. exact (proj2 Ha). }
    pose proof (Pt p ib Nzp Cp) as Ep. pose proof (Pt q kb Nzq Cq) as Eq.
    destruct (Nat.lt_trichotomy ib (length edges)) as [Lt|[Eqn|Gt]]; [| |lia].
    + destruct (nth_error_lt edges ib Lt) as [hi Hhi]. exists hi. split; [eapply nth_error_In; exact Hhi|].
      unfold ebin in Ep. destruct (nth_error edges (ib - 1)); [|discriminate]. rewrite Hhi in Ep.
      apply andb_prop in Ep. exact (proj2 Ep).
    + exfalso. destruct (Nat.lt_trichotomy kb ib) as [Lt|[E2|Gt]]; [| |lia].
      * pose proof (ebin_order RN edges kb ib (fst q) (fst p) Hr (proj1 Hkb) Lt Eq Ep) as L'.
        apply (nlt_iff RN) in L, L'. exact (xlt_not_le _ _ L (xlt_le _ _ L')).
      * subst kb. assert (p = q) by congruence. subst q. rewrite (nlt_irr RN) in L. discriminate.
Qed.

Lemma Forall2_nth_r {A B} (R : A -> B -> Prop) l l' : Forall2 R l l' -> forall i b, nth_error l' i = Some b ->
  exists a, nth_error l i = Some a /\ R a b.
Proof.
  induction 1 as [|a b l l' H F IH]; intros [|i] c Hc; try discriminate; simpl in Hc |- *.
  - injection Hc as <-. eauto.
  - auto.
Qed.

Section Core.
Context (sm : list f64 -> f64).
Local Notation RN := (F64_rounded sm).
Local Notation v := (val (F64_rounded sm)).

(** A rounded quotient that is not huge. *)
Lemma rnd_small x w z : rnd RN (XR x) = XR w -> (0 <= z < 2 ^ 50)%Z -> Rabs w <= IZR z -> Rabs x <= IZR (z + 1).
Proof.
  intros E Hz W. apply Rnot_lt_le. intros C. apply Rabs_le_inv in W.
  assert (I : (Z.abs (z + 1) <= intmax RN)%Z).
  { change (intmax RN) with (2 ^ 53)%Z. lia. }
  assert (L : IZR z < IZR (z + 1)) by (apply IZR_lt; lia).
  assert (P : 0 <= IZR (z + 1)) by (apply IZR_le; lia).
  unfold Rabs in C. destruct (Rcase_abs x) as [X|X].
  - pose proof (rnd_mono RN (XR x) (XR (- IZR (z + 1)))) as M. rewrite E in M.
    rewrite <- opp_IZR in M. rewrite (rnd_int RN) in M by lia. rewrite opp_IZR in M.
    assert (w <= - IZR (z + 1)) by (apply M; simpl; lra). lra.
  - pose proof (rnd_mono RN (XR (IZR (z + 1))) (XR x)) as M. rewrite E, (rnd_int RN) in M by exact I.
    assert (IZR (z + 1) <= w) by (apply M; simpl; lra). lra.
Qed.
Lemma div_real (a b : F64s sm) ra rb w : v a = XR ra -> v b = XR rb -> v (a / b)%num = XR w ->
  rb <> 0 /\ rnd RN (XR (ra / rb)) = XR w.
Proof.
  intros A B W. assert (Nb : rb <> 0).
  { intros ->. destruct (Req_EM_T ra 0) as [->|Na].
    - rewrite (val_div0_nan RN) in W by assumption. discriminate.
    - destruct (val_div0_inf RN a b) as [Q|Q]; try rewrite A; try congruence. }
  split; [exact Nb|]. rewrite (val_div RN) in W; rewrite B in *; [|congruence]. rewrite A in W. rewrite <- W. f_equal. simpl.
  destruct (Req_EM_T rb 0); [contradiction|reflexivity].
Qed.
Lemma quot_acc (a b : F64s sm) ra rb w : v a = XR ra -> v b = XR rb -> v (a / b)%num = XR w ->
  Rabs w <= IZR (2 ^ 40) -> Rabs ra <= 1 -> Rabs rb <= 2 -> rb <> 0 /\ Rabs (w * rb - ra) <= 2 * u53.
Proof.
  intros A B W S A1 B1. destruct (div_real a b ra rb w A B W) as [Nb Q]. split; [exact Nb|].
  assert (X : Rabs (ra / rb) <= huge).
  { eapply Rle_trans; [apply (rnd_small _ _ (2 ^ 40) Q); [lia|exact S]|].
    apply Rle_trans with (bpow radix2 41); [simpl; apply IZR_le; lia|apply bpow_le; lia]. }
  destruct (F64_graceful sm _ X) as (w' & Q' & Ew). rewrite Q in Q'. injection Q' as <-.
  replace (w * rb - ra) with ((w - ra / rb) * rb) by (field; exact Nb). rewrite Rabs_mult.
  pose proof (Rabs_pos rb). pose proof u53_pos. pose proof tiny_pos.
  apply Rle_trans with (u53 * (Rabs (ra / rb) + tiny) * Rabs rb); [apply Rmult_le_compat_r; assumption|].
  replace (u53 * (Rabs (ra / rb) + tiny) * Rabs rb) with (u53 * (Rabs (ra / rb * rb) + tiny * Rabs rb)) by (rewrite (Rabs_mult (ra / rb)); ring).
  replace (ra / rb * rb) with ra by (field; exact Nb). nra.
Qed.
(** A normalised quantity. *)
Lemma unit_acc (a b : F64s sm) ra rb w : v a = XR ra -> v b = XR rb -> v (a / b)%num = XR w ->
  Rabs w <= 1 -> rb <> 0 /\ Rabs (w - ra / rb) <= / IZR (2 ^ 52).
Proof.
  intros A B W S. destruct (div_real a b ra rb w A B W) as [Nb Q]. split; [exact Nb|].
  pose proof (rnd_small _ _ 1 Q ltac:(lia) S) as X. simpl IZR in X.
  destruct (F64_graceful sm (ra / rb)) as (w' & Q' & Ew); [apply huge_2; exact X|]. rewrite Q in Q'. injection Q' as <-.
  assert (U2 : / IZR (2 ^ 52) = 2 * u53).
  { change (2 ^ 53)%Z with (2 * 2 ^ 52)%Z. rewrite mult_IZR. field. apply IZR_neq. discriminate. }
  rewrite U2. pose proof u53_pos. pose proof tiny_pos. pose proof (Rabs_pos (ra / rb)).
  assert (D : Rabs (ra / rb) <= 1 + u53 * 3).
  { replace (ra / rb) with (w - (w - ra / rb)) by ring. eapply Rle_trans; [apply Rabs_triang|]. rewrite Rabs_Ropp. nra. }
  nra.
Qed.

Lemma within_real lo hi (x : F64s sm) (zl zh : Z) : within lo hi x -> v lo = XR (IZR zl) -> v hi = XR (IZR zh) -> nisnan x = false ->
  exists r, v x = XR r /\ IZR zl <= r <= IZR zh.
Proof.
  intros [W|[W1 W2]] L H Nn; [congruence|]. apply (nle_iff RN) in W1, W2. rewrite L in W1. rewrite H in W2.
  destruct (v x) as [r| | |]; simpl in *; try contradiction. eauto.
Qed.

Lemma v_top : v (nlit (-1) (2 ^ 40)) = XR (- bpow radix2 (-40)).
Proof.
  assert (I1 : rnd RN (XR (IZR (-1))) = XR (IZR (-1))) by (apply (rnd_int RN); vm_compute; discriminate).
  assert (I2 : rnd RN (XR (IZR (2 ^ 40))) = XR (IZR (2 ^ 40))) by (apply (rnd_int RN); vm_compute; discriminate).
  unfold nlit. rewrite (val_div RN); rewrite !(val_ofZ RN), I2; [|intros [= Q]; lra]. rewrite I1.
  assert (Q : xdiv (XR (IZR (-1))) (XR (IZR (2 ^ 40))) = xopp (XR (bpow radix2 (-40)))).
  { simpl. destruct (Req_EM_T _ 0) as [Z|_]; [lra|]. f_equal. lra. }
  rewrite Q, (rnd_opp RN). change (rnd RN (XR (bpow radix2 (-40)))) with (brnd 53 1024 (XR (bpow radix2 (-40)))). unfold brnd.
  rewrite round_generic; [|apply valid_rnd_N|apply generic_format_bpow; vm_compute; discriminate].
  rewrite Rlt_bool_true; [reflexivity|]. rewrite Rabs_pos_eq by apply bpow_ge_0. apply bpow_lt. lia.
Qed.

(** The energy of a bound particle and the curve at that energy. *)
Lemma at_bound argsort (g : galaxy (F64s sm)) edges (c : scales (F64s sm)) o ue uz :
  sorting argsort -> rising edges -> (forall a, In a edges -> nle a (nlit (-1) (2 ^ 40)) = true) ->
  units g (s_e c) (s_z c) (s_p c) ->
  curve argsort edges (map (ofE (s_e c)) (filter bound (all_orbits g))) (map (ofZ (s_z c)) (filter bound (all_orbits g))) = Ok (s_pts c) ->
  s_pts c <> [] ->
  (forall o, In o (all_orbits g) -> bound o = true -> nfin (o_jz o) = true) ->
  v (s_e c) = XR ue -> 0 < ue -> v (s_z c) = XR uz -> 0 < uz -> In o (filter bound (all_orbits g)) ->
  exists pts re r jc, v (o_e o / s_e c)%num = XR re /\ -1 <= re <= 0 /\ Forall2 (pt_reads sm) (s_pts c) pts /\
    v (interp1 (s_pts c) (o_e o / s_e c)%num) = XR r /\ interpolates pts re jc /\ Rabs (r - jc) <= 9 * u53 /\ 0 <= jc <= 1.
Proof.
  intros Hs Hr Htop U Hc Hn Hz Vue Pue Vuz Puz Iall.
  pose proof (curve_nonempty _ _ _ _ _ Hc) as Hne.
  destruct (curve_spec RN (ofE (s_e c)) (ofZ (s_z c)) _ _ _ _ Hs Hne Hc) as (raw & Rw & T).
  assert (Fz : forall o', In o' (filter bound (all_orbits g)) -> exists jz, v (o_jz o') = XR jz).
  { intros o' Ho'. apply filter_In in Ho' as [H1 H2]. specialize (Hz o' H1 H2). rewrite (val_fin RN) in Hz.
    destruct (v (o_jz o')) as [jz| | |]; try discriminate. eauto. }
  assert (Bo : bound o = true) by (apply filter_In in Iall; apply Iall).
  destruct (bound_val RN o Bo) as (ro & Vo & Lo).
  (* points *)
  assert (Yb : forall o', In o' (filter bound (all_orbits g)) -> exists y, v (nabs (ofZ (s_z c) o')) = XR y /\ 0 <= y <= 1).
  { intros o' Ho'. destruct (Fz o' Ho') as (jz & Vj).
    assert (Nn : nisnan (o_jz o' / s_z c)%num = false).
    { apply (nisnan_false RN). rewrite (val_div RN); rewrite Vuz; [|intros [= Q]; lra]. rewrite Vj. simpl.
      destruct (Req_EM_T (uz) 0) as [Z|_]; [lra|]. intros Q. apply (rnd_not_nan RN) in Q. discriminate. }
    destruct (within_real nm1 n1 _ (-1) 1 (z_within RN _ _ o' (unit_z _ _ _ _ U) Ho')) as (y & Vy & By);
      [apply (val_nm1 RN)|apply (val_n1 RN)|exact Nn|].
    exists (Rabs y). unfold ofZ. rewrite (val_abs RN), Vy. split; [reflexivity|]. split; [apply Rabs_pos|]. apply Rabs_le. exact By. }
  assert (Xb : forall q, In q (s_pts c) -> exists x y, v (fst q) = XR x /\ v (snd q) = XR y /\ in_box (x, y)).
  { destruct (trimmed_head RN _ _ _ _ _ Hne Rw) as (a0 & rr & Ia & Ma & E). rewrite T, E. intros q [<-|Hq].
    - destruct (Yb a0 Ia) as (y & Vy & By). exists (-1), y. cbn [fst snd]. split; [apply (val_nm1 RN)|]. split; [exact Vy|].
      split; cbn [fst snd]; lra.
    - destruct (trimmed_tail RN _ _ _ _ _ _ _ _ Hne Rw E Hq) as (Nz & i & _ & C & _).
      destruct C as [[_ ->]|(o' & Ho' & -> & _)].
      { unfold nzx in Nz. apply negb_true_iff in Nz. pose proof (n0_eqb RN) as Z0. change (neqb (N:=F64s sm) n0 n0 = false) in Nz. congruence. }
      apply filter_In in Ho' as [Ho' Bb]. destruct (Yb o' Ho') as (y & Vy & By).
      destruct (within_real nm1 n0 _ (-1) 0 (e_within RN _ _ o' (unit_e _ _ _ _ U) Ho')) as (x & Vx & Bx);
        [apply (val_nm1 RN)|apply (val_n0 RN)|exact (ebin_not_nan RN _ _ _ Bb)|].
      exists x, y. cbn [fst snd]. split; [exact Vx|]. split; [exact Vy|]. split; cbn [fst snd]; assumption. }
  assert (Ex : exists pts, Forall2 (pt_reads sm) (s_pts c) pts /\ Forall in_box pts).
  { clear - Xb. induction (s_pts c) as [|q l IH]; [exists []; split; constructor|].
    destruct IH as (pts & F & B); [intros q' Hq'; apply Xb; now right|]. destruct (Xb q) as (x & y & Vx & Vy & I); [now left|].
    exists ((x, y) :: pts). split; constructor; auto. split; assumption. }
  destruct Ex as (pts & Fp & Bp).
  pose proof (trimmed_sorted RN _ _ _ _ _ Hr Rw) as Ss. rewrite <- T in Ss.
  assert (Gp : StronglySorted gap pts).
  { apply SS_nth. intros i i' p q Hii Hp Hq.
    destruct (Forall2_nth_r _ _ _ Fp i p Hp) as (p' & Hp' & Px & _). destruct (Forall2_nth_r _ _ _ Fp i' q Hq) as (q' & Hq' & Qx & _).
    pose proof (proj2 (SS_nth _ _) Ss i i' p' q' Hii Hp' Hq') as L. apply (nlt_iff RN) in L. rewrite Px, Qx in L. simpl in L.
    rewrite T in Hp', Hq'. destruct (below_edge RN _ _ _ _ _ i i' p' q' Hr Hne Rw Hii Hp' Hq') as (hi & Ih & Lh).
    specialize (Htop hi Ih). apply (nle_iff RN) in Lh, Htop. pose proof (xle_trans _ _ _ Lh Htop) as Lt. rewrite Px in Lt.
    apply (float_gap sm (fst p') (fst q') _ _ Px Qx); [|exact L].
    rewrite v_top in Lt. exact Lt. }
  destruct (within_real nm1 n0 (o_e o / s_e c)%num (-1) 0) as (re & Ve & Er);
    [exact (e_within RN _ _ o (unit_e _ _ _ _ U) Iall)|apply (val_nm1 RN)|apply (val_n0 RN)| |].
  { apply (nisnan_false RN). rewrite (val_div RN); rewrite Vue; [|intros [= Q]; lra]. rewrite Vo. simpl.
    destruct (Req_EM_T ue 0) as [Z|_]; [lra|]. intros Q. apply (rnd_not_nan RN) in Q. discriminate. }
  destruct (interp1_acc sm (s_pts c) pts _ re Fp Hn Ve Er Gp Bp) as (r & jc & Vr & Ij & Aj & Bj).
  exists pts, re, r, jc. auto 10.
Qed.

(** What is known about the energies and the curve of a run. *)
Lemma core argsort (g : galaxy (F64s sm)) b0 b1 l0 l1 j k (en w : F64s sm) re rw :
  constructible g -> sorting argsort ->
  arange nm1 (nlit (-1) 10) b0 = Ok l0 -> arange (nlit (-1) 10) n0 b1 = Ok l1 ->
  nth_error (l0 ++ l1) 0 = Some nm1 ->
  (forall i k a b, (i < k)%nat -> nth_error (l0 ++ l1) i = Some a -> nth_error (l0 ++ l1) k = Some b -> nle a b = true) ->
  (forall a, In a (l0 ++ l1) -> nle a (nlit (-1) (2 ^ 40)) = true) ->
  jcirc argsort g b0 b1 = Ok j ->
  (forall o, In o (all_orbits g) -> bound o = true -> nfin (o_jz o) = true) ->
  nth_error (jc_E j) k = Some en -> nth_error (jc_eps j) k = Some w -> v en = XR re -> v w = XR rw ->
  exists (c : scales (F64s sm)) o pts ue uz r jc, units g (s_e c) (s_z c) (s_p c) /\
    nth_error (star_orbits g) k = Some o /\ bound o = true /\ nth_error (jc_Jz j) k = Some (o_jz o / s_z c)%num /\
    nth_error (jc_eps_r j) k = Some (o_jp o / s_p c / interp1 (s_pts c) en)%num /\
    en = (o_e o / s_e c)%num /\ w = (o_jz o / s_z c / interp1 (s_pts c) en)%num /\
    v (s_e c) = XR ue /\ 0 < ue /\ v (s_z c) = XR uz /\ 0 < uz /\
    map v (jc_x j) = map (fun p => XR (fst p)) pts /\ map v (jc_y j) = map (fun p => XR (snd p)) pts /\
    -1 <= rw <= 1 /\ v (interp1 (s_pts c) en) = XR r /\ interpolates pts re jc /\ Rabs (r - jc) <= 9 * u53 /\ 0 <= jc <= 1.
Proof.
  intros Hg Hs A0 A1 Hf Hle Htop Hj Hz He Hw Ve Vw.
  pose proof (c24_eps _ RN argsort g b0 b1 j Hg Hj) as [Hrange _].
  pose proof (proj1 (constructible_ok g) Hg) as Hok.
  destruct (jcirc_inv RN _ _ _ _ _ Hok Hj) as (c & edges & U & Hb & Hc & Hn & Pf & Ej).
  assert (edges = l0 ++ l1) as ->.
  { destruct (bin_edges_split _ _ _ Hb) as (k0 & k1 & B0 & B1 & ->). congruence. }
  subst j. cbn [jc_E jc_Jz jc_eps jc_x jc_y jc_eps_r result] in *.
  rewrite map_map, nth_error_map in He, Hw.
  destruct (nth_error (star_orbits g) k) as [o|] eqn:Eo; [|discriminate]. cbn [option_map] in He, Hw.
  injection He as He. injection Hw as Hw. unfold kept in He, Hw. destruct (keep c (krow_of o)) eqn:Kp.
  2:{ rewrite <- He, (val_nnan RN) in Ve. discriminate. }
  pose proof Kp as Kp'. unfold keep in Kp'. apply andb_prop in Kp' as [Bo Oo]. change (kb (krow_of o)) with (bound o) in Bo.
  assert (Iall : In o (filter bound (all_orbits g))).
  { apply filter_In. split; [apply star_in_all; eapply nth_error_In; eauto|exact Bo]. }
  assert (Wr : -1 <= rw <= 1).
  { destruct (Hrange w) as [W|[W1 W2]].
    - rewrite map_map. apply in_map_iff. exists o. split; [unfold kept; rewrite Kp; exact Hw|eapply nth_error_In; eauto].
    - apply (nisnan_iff RN) in W. congruence.
    - apply (nle_iff RN) in W1, W2. rewrite Vw, (val_nm1 RN) in W1. rewrite Vw, v_n1 in W2. simpl in W1, W2. split; assumption. }
  assert (He' : en = (o_e o / s_e c)%num) by (rewrite <- He; reflexivity).
  assert (Hw' : w = (o_jz o / s_z c / interp1 (s_pts c) en)%num) by (rewrite <- Hw, He'; reflexivity).
  (* units *)
  destruct (unit_e _ _ _ _ U) as (em & [[oe [Ie Ee]] _] & Ue). apply filter_In in Ie as [_ Be].
  destruct (bound_val RN oe Be) as (rem & Vem & Lem). rewrite Ee in Vem.
  assert (Vue : v (s_e c) = XR (Rabs rem)) by (rewrite Ue, (val_abs RN), Vem; reflexivity).
  destruct (bound_val RN o Bo) as (ro & Vo & Lo).
  assert (Pue : 0 < Rabs rem).
  { apply Rabs_pos_lt. intros ->. rewrite Rabs_R0 in Vue. rewrite He' in Ve. destruct (div_real _ _ _ _ _ Vo Vue Ve) as [Q _]. congruence. }
  destruct (unit_z _ _ _ _ U) as [[oz [Iz Ez]] Mz]. pose proof Iz as Iz'. apply filter_In in Iz' as [Iz1 Bz].
  assert (Fz : forall o', In o' (filter bound (all_orbits g)) -> exists jz, v (o_jz o') = XR jz).
  { intros o' Ho'. apply filter_In in Ho' as [H1 H2]. specialize (Hz o' H1 H2). rewrite (val_fin RN) in Hz.
    destruct (v (o_jz o')) as [jz| | |]; try discriminate. eauto. }
  destruct (Fz oz Iz) as (jzm & Vjz). destruct (Fz o Iall) as (jzo & Vjo).
  assert (Vuz : v (s_z c) = XR (Rabs jzm)) by (rewrite <- Ez, (val_abs RN), Vjz; reflexivity).
  assert (Nw : forall x : F64s sm, v (x / interp1 (s_pts c) en)%num = XR rw -> v x <> XNaN).
  { intros x X Q. rewrite (val_div_nan RN) in X by exact Q. discriminate. }
  assert (Puz : 0 < Rabs jzm).
  { apply Rabs_pos_lt. intros ->. rewrite Rabs_R0 in Vuz. destruct Mz as [M|M]; [apply (nisnan_iff RN) in M; congruence|].
    specialize (M o Iall). apply (nle_iff RN) in M. rewrite (val_abs RN), Vjo, Vuz in M. simpl in M.
    assert (jzo = 0) by (destruct (Req_EM_T jzo 0) as [|Z]; [assumption|]; apply Rabs_pos_lt in Z; lra). subst jzo.
    rewrite Hw' in Vw. apply (Nw _ Vw). now rewrite (val_div0_nan RN) by assumption. }
  assert (Hr : rising (l0 ++ l1)) by (split; assumption).
  destruct (at_bound argsort g (l0 ++ l1) c o _ _ Hs Hr Htop U Hc Hn Hz Vue Pue Vuz Puz Iall) as (pts & re' & r & jc & Ve' & _ & Fp & Vr & Ij & Aj & Bj).
  rewrite <- He' in Ve', Vr. assert (re' = re) by congruence. subst re'.
  exists c, o, pts, (Rabs rem), (Rabs jzm), r, jc.
  split; [exact U|]. split; [reflexivity|]. split; [exact Bo|].
  split. { rewrite filter_krow, map_map, nth_error_map, (prefix_nth bound _ _ _ Pf Eo Bo). cbn [option_map]. unfold kept. now rewrite Kp. }
  split. { rewrite map_map, nth_error_map, Eo. cbn [option_map]. unfold kept. rewrite Kp, He'. reflexivity. }
  split; [exact He'|]. split; [exact Hw'|]. split; [exact Vue|]. split; [exact Pue|]. split; [exact Vuz|]. split; [exact Puz|].
  split. { rewrite map_map. clear - Fp. induction Fp as [|? ? ? ? [P _] _ IH]; cbn [map]; [reflexivity|]. f_equal; [exact P|exact IH]. }
  split. { rewrite map_map. clear - Fp. induction Fp as [|? ? ? ? [_ P] _ IH]; cbn [map]; [reflexivity|]. f_equal; [exact P|exact IH]. }
  auto.
Qed.
End Core.

(** *** C80 *)

Lemma u49 : / IZR (2 ^ 49) = 16 * u53.
Proof. change (2 ^ 53)%Z with (16 * 2 ^ 49)%Z. rewrite mult_IZR. field. apply IZR_neq. discriminate. Qed.

(** With bins whose edges start at -1, do not decrease and stay below -2^-40: let c be the
    value of the stored curve, interpolated with real arithmetic, at the stored energy of a
    star with finite energy and eps.  Then eps * c is the stored Jz of the star up to 2^-49. *)
Lemma c80_bins : forall sm argsort (g : galaxy (F64s sm)) b0 b1 l0 l1 j k (en z w : F64s sm) re rz rw,
  constructible g -> sorting argsort ->
  arange nm1 (nlit (-1) 10) b0 = Ok l0 -> arange (nlit (-1) 10) n0 b1 = Ok l1 ->
  nth_error (l0 ++ l1) 0 = Some nm1 ->
  (forall i k a b, (i < k)%nat -> nth_error (l0 ++ l1) i = Some a -> nth_error (l0 ++ l1) k = Some b -> nle a b = true) ->
  (forall a, In a (l0 ++ l1) -> nle a (nlit (-1) (2 ^ 40)) = true) ->
  jcirc argsort g b0 b1 = Ok j ->
  (forall o, In o (all_orbits g) -> bound o = true -> nfin (o_jz o) = true) ->
  nth_error (jc_E j) k = Some en -> nth_error (jc_Jz j) k = Some z -> nth_error (jc_eps j) k = Some w ->
  val (F64_rounded sm) en = XR re -> val (F64_rounded sm) z = XR rz -> val (F64_rounded sm) w = XR rw ->
  exists pts c,
    map (val (F64_rounded sm)) (jc_x j) = map (fun p => XR (fst p)) pts /\
    map (val (F64_rounded sm)) (jc_y j) = map (fun p => XR (snd p)) pts /\
    interpolates pts re c /\ 0 <= c <= 1 /\ Rabs (rw * c - rz) <= / IZR (2 ^ 49).
Proof.
  intros sm argsort g b0 b1 l0 l1 j k en z w re rz rw Hg Hs A0 A1 Hf Hle Htop Hj Hz He Hzz Hw Ve Vz Vw.
  destruct (core sm argsort g b0 b1 l0 l1 j k en w re rw Hg Hs A0 A1 Hf Hle Htop Hj Hz He Hw Ve Vw)
    as (c & o & pts & ue & uz & r & jc & U & Ho & Bo & Jz & Jr & Ee & Ew & _ & _ & _ & _ & Px & Py & Wr & Vr & Ij & Aj & Bj).
  exists pts, jc. split; [exact Px|]. split; [exact Py|]. split; [exact Ij|]. split; [exact Bj|].
  assert (Ez : z = (o_jz o / s_z c)%num) by congruence.
  assert (Zb : Rabs rz <= 1).
  { destruct (within_real sm nm1 n1 z (-1) 1) as (r' & V' & B'); [rewrite Ez|apply val_nm1|apply val_n1| |].
    - apply (z_within (F64_rounded sm) (filter bound (all_orbits g))); [apply U|]. apply filter_In. split; [|exact Bo].
      apply star_in_all. eapply nth_error_In; eauto.
    - apply (nisnan_false (F64_rounded sm)). rewrite Vz. discriminate.
    - rewrite Vz in V'. injection V' as <-. apply Rabs_le. exact B'. }
  pose proof u53_pos. assert (Ew' : w = (z / interp1 (s_pts c) en)%num) by (rewrite Ez; exact Ew). rewrite Ew' in Vw.
  destruct (quot_acc sm z (interp1 (s_pts c) en) rz r rw Vz Vr Vw) as [_ Q]; [|exact Zb| |].
  - apply Rle_trans with 1; [apply Rabs_le; lra|apply IZR_le; discriminate].
  - replace r with ((r - jc) + jc) by ring. eapply Rle_trans; [apply Rabs_triang|]. rewrite (Rabs_pos_eq jc) by lra. lra.
  - rewrite u49. replace (rw * jc - rz) with ((rw * r - rz) + rw * (jc - r)) by ring.
    eapply Rle_trans; [apply Rabs_triang|]. rewrite Rabs_mult, (Rabs_minus_sym jc).
    assert (Rabs rw <= 1) by (apply Rabs_le; lra). pose proof (Rabs_pos (r - jc)). pose proof (Rabs_pos rw). nra.
Qed.

Definition top_check {N : Num} (b0 b1 : N) : bool :=
  match arange nm1 (nlit (-1) 10) b0, arange (nlit (-1) 10) n0 b1 with
  | Ok l0, Ok l1 => forallb (fun a => nle a (nlit (-1) (2 ^ 40))) (l0 ++ l1)
  | _, _ => false
  end.
Lemma default_top sm : top_check (N:=F64s sm) default_bin0 default_bin1 = true.
Proof. vm_compute. reflexivity. Qed.
Lemma default_ranges sm : exists l0 l1, arange (N:=F64s sm) nm1 (nlit (-1) 10) default_bin0 = Ok l0 /\
  arange (N:=F64s sm) (nlit (-1) 10) n0 default_bin1 = Ok l1 /\ nth_error (l0 ++ l1) 0 = Some nm1 /\
  (forall i k a b, (i < k)%nat -> nth_error (l0 ++ l1) i = Some a -> nth_error (l0 ++ l1) k = Some b -> nle a b = true) /\
  (forall a, In a (l0 ++ l1) -> nle a (nlit (-1) (2 ^ 40)) = true).
Proof.
  destruct (edges_check_spec _ _ (default_edges sm)) as (l0 & l1 & A0 & A1 & F & M). exists l0, l1.
  split; [exact A0|]. split; [exact A1|]. split; [exact F|]. split; [exact M|].
  pose proof (default_top sm) as T. unfold top_check in T. rewrite A0, A1 in T. now apply forallb_forall.
Qed.

(** The default bins are such. *)
Lemma c80_default : forall sm argsort (g : galaxy (F64s sm)) j k (en z w : F64s sm) re rz rw,
  constructible g -> sorting argsort -> jcirc argsort g default_bin0 default_bin1 = Ok j ->
  (forall o, In o (all_orbits g) -> bound o = true -> nfin (o_jz o) = true) ->
  nth_error (jc_E j) k = Some en -> nth_error (jc_Jz j) k = Some z -> nth_error (jc_eps j) k = Some w ->
  val (F64_rounded sm) en = XR re -> val (F64_rounded sm) z = XR rz -> val (F64_rounded sm) w = XR rw ->
  exists pts c,
    map (val (F64_rounded sm)) (jc_x j) = map (fun p => XR (fst p)) pts /\
    map (val (F64_rounded sm)) (jc_y j) = map (fun p => XR (snd p)) pts /\
    interpolates pts re c /\ 0 <= c <= 1 /\ Rabs (rw * c - rz) <= / IZR (2 ^ 49).
Proof.
  intros sm argsort g j k en z w re rz rw Hg Hs Hj. destruct (default_ranges sm) as (l0 & l1 & A0 & A1 & F & M & T).
  exact (c80_bins sm argsort g _ _ l0 l1 j k en z w re rz rw Hg Hs A0 A1 F M T Hj).
Qed.

(** In the units of the galaxy: the stored energy is E over the depth of the most bound
    particle and the stored Jz is Jz over the largest |Jz|, both up to 2^-52, and eps_r * c is Jp
    over the largest Jp up to 2^-48 (1 + |eps_r|), when these are real numbers and eps_r is not
    huge. *)
Lemma c80_units : forall sm argsort (g : galaxy (F64s sm)) j k (en z w p : F64s sm) re rz rw rp,
  constructible g -> sorting argsort -> jcirc argsort g default_bin0 default_bin1 = Ok j ->
  (forall o, In o (all_orbits g) -> bound o = true -> nfin (o_jz o) = true /\ nfin (o_jp o) = true) ->
  nth_error (jc_E j) k = Some en -> nth_error (jc_Jz j) k = Some z -> nth_error (jc_eps j) k = Some w ->
  nth_error (jc_eps_r j) k = Some p ->
  val (F64_rounded sm) en = XR re -> val (F64_rounded sm) z = XR rz -> val (F64_rounded sm) w = XR rw ->
  val (F64_rounded sm) p = XR rp -> Rabs rp <= IZR (2 ^ 40) ->
  exists ue uz up vue vuz vup o e jz jp pts c,
    units g vue vuz vup /\ val (F64_rounded sm) vue = XR ue /\ val (F64_rounded sm) vuz = XR uz /\ val (F64_rounded sm) vup = XR up /\
    0 < ue /\ 0 < uz /\ 0 < up /\
    nth_error (star_orbits g) k = Some o /\ val (F64_rounded sm) (o_e o) = XR e /\ val (F64_rounded sm) (o_jz o) = XR jz /\
    val (F64_rounded sm) (o_jp o) = XR jp /\
    Rabs (re - e / ue) <= / IZR (2 ^ 52) /\ Rabs (rz - jz / uz) <= / IZR (2 ^ 52) /\
    map (val (F64_rounded sm)) (jc_x j) = map (fun p => XR (fst p)) pts /\
    map (val (F64_rounded sm)) (jc_y j) = map (fun p => XR (snd p)) pts /\
    interpolates pts re c /\ Rabs (rw * c - jz / uz) <= / IZR (2 ^ 48) /\
    Rabs (rp * c - jp / up) <= / IZR (2 ^ 48) * (1 + Rabs rp).
Proof.
  intros sm argsort g j k en z w p re rz rw rp Hg Hs Hj Hfin He Hz Hw Hp Ve Vz Vw Vp Bp.
  destruct (default_ranges sm) as (l0 & l1 & A0 & A1 & F & M & T).
  destruct (core sm argsort g _ _ l0 l1 j k en w re rw Hg Hs A0 A1 F M T Hj (fun o I B => proj1 (Hfin o I B)) He Hw Ve Vw)
    as (c & o & pts & ue & uz & r & jc & U & Ho & Bo & Jz & Jr & Ee & Ew & Vue & Pue & Vuz & Puz & Px & Py & Wr & Vr & Ij & Aj & Bj).
  assert (Io : In o (all_orbits g)) by (apply star_in_all; eapply nth_error_In; eauto).
  assert (Ib : In o (filter bound (all_orbits g))) by (apply filter_In; auto).
  assert (Real : forall x : F64s sm, nfin x = true -> exists y, val (F64_rounded sm) x = XR y).
  { intros x Hx. rewrite (val_fin (F64_rounded sm)) in Hx. destruct (val (F64_rounded sm) x) as [y| | |]; [exists y; reflexivity|discriminate Hx|discriminate Hx|discriminate Hx]. }
  destruct (bound_val (F64_rounded sm) o Bo) as (e & Vo & _).
  destruct (Real _ (proj1 (Hfin o Io Bo))) as (jz & Vjz). destruct (Real _ (proj2 (Hfin o Io Bo))) as (jp & Vjp).
  destruct (unit_p _ _ _ _ U) as [[op [Ip Ep]] Mp]. apply filter_In in Ip as [Ip Bop].
  destruct (Real _ (proj2 (Hfin op Ip Bop))) as (jpm & Vjm).
  assert (Vup : val (F64_rounded sm) (s_p c) = XR (Rabs jpm)) by (rewrite <- Ep, (val_abs (F64_rounded sm)), Vjm; reflexivity).
  assert (Ez : z = (o_jz o / s_z c)%num) by congruence.
  assert (Epp : p = (o_jp o / s_p c / interp1 (s_pts c) en)%num) by congruence.
  assert (Ob : Rabs jp <= Rabs jpm).
  { destruct Mp as [Q|Q]; [apply (nisnan_iff (F64_rounded sm)) in Q; congruence|]. specialize (Q o Ib).
    apply (nle_iff (F64_rounded sm)) in Q. rewrite (val_abs (F64_rounded sm)), Vjp, Vup in Q. exact Q. }
  assert (Pup : 0 < Rabs jpm).
  { apply Rabs_pos_lt. intros ->. rewrite Rabs_R0 in Ob, Vup.
    assert (jp = 0) by (destruct (Req_EM_T jp 0) as [|Z]; [assumption|]; apply Rabs_pos_lt in Z; lra). subst jp.
    rewrite Epp in Vp. rewrite (val_div_nan (F64_rounded sm)) in Vp; [discriminate Vp|]. now apply (val_div0_nan (F64_rounded sm)). }
  assert (Rnd : exists q, val (F64_rounded sm) (o_jp o / s_p c)%num = XR q /\ Rabs q <= 1).
  { assert (D : Rabs (jp / Rabs jpm) <= 1).
    { unfold Rdiv. rewrite Rabs_mult, Rabs_inv, Rabs_Rabsolu. apply Rmult_le_reg_r with (Rabs jpm); [exact Pup|].
      rewrite Rmult_assoc, Rinv_l by lra. lra. }
    destruct (F64_graceful sm (jp / Rabs jpm)) as (q & Q & _); [apply huge_2; lra|]. exists q.
    assert (E : val (F64_rounded sm) (o_jp o / s_p c)%num = XR q).
    { rewrite (val_div (F64_rounded sm)); rewrite Vup; [|intros [= Z]; lra]. rewrite Vjp, <- Q. f_equal. simpl.
      destruct (Req_EM_T (Rabs jpm) 0); [lra|reflexivity]. }
    split; [exact E|]. apply Rabs_le_inv in D. apply Rabs_le.
    pose proof (rnd_mono (F64_rounded sm) (XR (IZR (-1))) (XR (jp / Rabs jpm))) as M1.
    pose proof (rnd_mono (F64_rounded sm) (XR (jp / Rabs jpm)) (XR (IZR 1))) as M2.
    rewrite Q, (rnd_int (F64_rounded sm)) in M1, M2 by (vm_compute; discriminate).
    split; [apply M1|apply M2]; simpl; lra. }
  destruct Rnd as (q & Vq & Bq).
  destruct (c80_bins sm argsort g _ _ l0 l1 j k en z w re rz rw Hg Hs A0 A1 F M T Hj (fun o I B => proj1 (Hfin o I B)) He Hz Hw Ve Vz Vw)
    as (_ & _ & _ & _ & _ & _ & _).
  destruct (unit_acc sm (o_e o) (s_e c) e ue re Vo Vue) as [_ De].
  { rewrite <- Ee. exact Ve. }
  { destruct (within_real sm nm1 n0 en (-1) 0) as (r' & V' & B'); [rewrite Ee; exact (e_within (F64_rounded sm) _ _ o (unit_e _ _ _ _ U) Ib)|apply val_nm1|apply val_n0| |].
    - apply (nisnan_false (F64_rounded sm)). rewrite Ve. discriminate.
    - rewrite Ve in V'. injection V' as <-. apply Rabs_le. lra. }
  assert (Zb : Rabs rz <= 1).
  { destruct (within_real sm nm1 n1 z (-1) 1) as (r' & V' & B'); [rewrite Ez|apply val_nm1|apply val_n1| |].
    - apply (z_within (F64_rounded sm) (filter bound (all_orbits g))); [apply U|exact Ib].
    - apply (nisnan_false (F64_rounded sm)). rewrite Vz. discriminate.
    - rewrite Vz in V'. injection V' as <-. apply Rabs_le. exact B'. }
  destruct (unit_acc sm (o_jz o) (s_z c) jz uz rz Vjz Vuz) as [_ Dz]; [rewrite <- Ez; exact Vz|exact Zb|].
  destruct (unit_acc sm (o_jp o) (s_p c) jp (Rabs jpm) q Vjp Vup Vq Bq) as [_ Dp].
  exists ue, uz, (Rabs jpm), (s_e c), (s_z c), (s_p c), o, e, jz, jp, pts, jc.
  repeat (split; [assumption|]). pose proof u53_pos as Up.
  assert (U2 : / IZR (2 ^ 52) = 2 * u53).
  { change (2 ^ 53)%Z with (2 * 2 ^ 52)%Z. rewrite mult_IZR. field. apply IZR_neq. discriminate. }
  assert (U4 : / IZR (2 ^ 48) = 32 * u53).
  { change (2 ^ 53)%Z with (32 * 2 ^ 48)%Z. rewrite mult_IZR. field. apply IZR_neq. discriminate. }
  assert (Br : Rabs r <= 2).
  { replace r with ((r - jc) + jc) by ring. eapply Rle_trans; [apply Rabs_triang|]. rewrite (Rabs_pos_eq jc) by lra. lra. }
  rewrite U2 in Dz, Dp. rewrite U4. split.
  - assert (Ew' : w = (z / interp1 (s_pts c) en)%num) by (rewrite Ez; exact Ew). rewrite Ew' in Vw.
    destruct (quot_acc sm z (interp1 (s_pts c) en) rz r rw Vz Vr Vw) as [_ Q]; [|exact Zb|exact Br|].
    { apply Rle_trans with 1; [apply Rabs_le; lra|apply IZR_le; discriminate]. }
    replace (rw * jc - jz / uz) with ((rw * r - rz) + rw * (jc - r) + (rz - jz / uz)) by ring.
    eapply Rle_trans; [apply Rabs_triang|]. pose proof (Rabs_triang (rw * r - rz) (rw * (jc - r))) as Tr.
    rewrite Rabs_mult, (Rabs_minus_sym jc) in Tr.
    assert (Rabs rw <= 1) by (apply Rabs_le; lra). pose proof (Rabs_pos (r - jc)). pose proof (Rabs_pos rw). nra.
  - rewrite Epp in Vp. destruct (quot_acc sm (o_jp o / s_p c)%num (interp1 (s_pts c) en) q r rp Vq Vr Vp Bp Bq Br) as [_ Q].
    replace (rp * jc - jp / Rabs jpm) with ((rp * r - q) + rp * (jc - r) + (q - jp / Rabs jpm)) by ring.
    eapply Rle_trans; [apply Rabs_triang|]. pose proof (Rabs_triang (rp * r - q) (rp * (jc - r))) as Tr.
    rewrite Rabs_mult, (Rabs_minus_sym jc) in Tr. pose proof (Rabs_pos (r - jc)). pose proof (Rabs_pos rp). nra.
Qed.

(** The real number of a printed binary64 number. *)
Definition shown_val (x : spec_float) : xr :=
  match x with
  | S754_zero _ => XR 0 | S754_infinity false => XPInf | S754_infinity true => XNInf | S754_nan => XNaN
  | S754_finite s m ex => XR (F2R (Float radix2 (cond_Zopp s (Zpos m)) ex))
  end.
Lemma val_shown sm (x : F64) : val (F64_rounded sm) x = shown_val (fshow x).
Proof. destruct x as [s|[|]| |s m ex H]; reflexivity. Qed.
Lemma vals_shown sm (l : list F64) : map (val (F64_rounded sm)) l = map shown_val (shows l).
Proof. unfold shows. rewrite map_map. apply map_ext. intros x. apply val_shown. Qed.

(** Two stars near the point of the curve where a particle without Jz sits (energy -1/3): one
    at -1/3 - 2^-54 with Jz = 2^-53, one on the first point of the curve. *)
Definition steepG : res (galaxy F64) :=
  lineG [(nlit 1 (2 ^ 23), nlit 1 (2 ^ 30), fZ 0, (nlit (-1) 3 - nlit 1 (2 ^ 54))%num); (fZ 1, fZ 1, fZ 0, nlit (-3) 2)]
        [(fZ 1, fZ 0, fZ 0, nlit (-1) 3); (fZ 4, nlit 1 8, fZ 0, nlit (-3) 256)] [].

(** The error of eps itself is not bounded by any such number: where the curve falls to zero,
    a star with Jz/Jcirc above 4/3, whose circularity should be NaN, gets the circularity 1/2. *)
Lemma c80_eps_refuted : exists (g : galaxy F64) j k en z w re rz rw pts c,
  constructible g /\ sorting (@asort F64) /\ jcirc asort g default_bin0 default_bin1 = Ok j /\
  (forall o, In o (all_orbits g) -> bound o = true -> nfin (o_jz o) = true) /\
  nth_error (jc_E j) k = Some en /\ nth_error (jc_Jz j) k = Some z /\ nth_error (jc_eps j) k = Some w /\
  val (F64_rounded (seqsum 53 1024 p53 e1024)) en = XR re /\ val (F64_rounded (seqsum 53 1024 p53 e1024)) z = XR rz /\
  val (F64_rounded (seqsum 53 1024 p53 e1024)) w = XR rw /\
  map (val (F64_rounded (seqsum 53 1024 p53 e1024))) (jc_x j) = map (fun p => XR (fst p)) pts /\
  map (val (F64_rounded (seqsum 53 1024 p53 e1024))) (jc_y j) = map (fun p => XR (snd p)) pts /\
  interpolates pts re c /\ 0 < c /\ 4 / 3 < rz / c /\ rw = 1 / 2.
Proof.
  assert (Hc : match steepG with Ok g => match jcirc asort g default_bin0 default_bin1 with
            | Ok j => (forallb (fun o => negb (bound o) || nfin (o_jz o)) (all_orbits g), Some (jshow j)) | _ => (false, None) end | _ => (false, None) end =
    (true, Some ([S754_finite true 6004799503160662 (-54); S754_finite true 4503599627370496 (-52)],
          [S754_finite false 4503599627370496 (-105); S754_finite false 4503599627370496 (-52)],
          [S754_finite false 4503599627370496 (-53); S754_finite false 4503599627370496 (-52)], [S754_nan; S754_nan],
          [S754_finite true 4503599627370496 (-52); S754_finite true 6004799503160661 (-54); S754_finite true 4503599627370496 (-60)],
          [S754_finite false 4503599627370496 (-52); S754_zero false; S754_finite false 4503599627370496 (-53)])))
    by (vm_compute; reflexivity).
  destruct steepG as [g|] eqn:Eg; [|discriminate Hc].
  destruct (jcirc asort g default_bin0 default_bin1) as [j|] eqn:Ej; [|discriminate Hc].
  injection Hc as Hb SE SZ SP _ SX SY.
  unfold shows in SE, SZ, SP.
  destruct (jc_E j) as [|en El] eqn:EE; [discriminate SE|]. destruct (jc_Jz j) as [|z Zl] eqn:EZ; [discriminate SZ|].
  destruct (jc_eps j) as [|w Wl] eqn:EW; [discriminate SP|]. cbn [map] in SE, SZ, SP.
  injection SE as SE _. injection SZ as SZ _. injection SP as SP _.
  exists g, j, 0%nat, en, z, w.
  exists (- (6004799503160662 / 18014398509481984)), (/ 9007199254740992), (1 / 2).
  exists [(-1, 1); (- (6004799503160661 / 18014398509481984), 0); (- / 256, / 2)].
  exists (/ 12009599006321323).
  split; [exact (lineG_ok _ _ _ _ Eg)|]. split; [apply (asort_sorting (F64_rounded _))|]. split; [exact Ej|].
  split. { intros o Io Bo. rewrite forallb_forall in Hb. specialize (Hb o Io). rewrite Bo in Hb. exact Hb. }
  split; [now rewrite EE|]. split; [now rewrite EZ|]. split; [now rewrite EW|].
  split; [rewrite val_shown, SE; unfold shown_val, F2R; simpl; f_equal; lra|].
  split; [rewrite val_shown, SZ; unfold shown_val, F2R; simpl; f_equal; lra|].
  split; [rewrite val_shown, SP; unfold shown_val, F2R; simpl; f_equal; lra|].
  split. { rewrite vals_shown, SX. unfold shown_val, F2R. simpl. repeat (apply f_equal2; [f_equal; lra|]). reflexivity. }
  split. { rewrite vals_shown, SY. unfold shown_val, F2R. simpl. repeat (apply f_equal2; [f_equal; lra|]). reflexivity. }
  split.
  { replace (/ 12009599006321323) with
      (1 + (0 - 1) * ((- (6004799503160662 / 18014398509481984) - -1) / (- (6004799503160661 / 18014398509481984) - -1)))
      by field.
    apply int_seg; lra. }
  split; [lra|]. split; [|reflexivity]. lra.
Qed.

(** The hypotheses of C80 at a star between two points of the curve: star 1 has energy -0.48,
    inside a bin whose point is at -0.46, and eps, eps_r are finite and not trivial. *)
Example ex_c80 : sorting (@asort F64) /\ exists (g : galaxy F64) j en z w p,
  constructible g /\ jcirc asort g default_bin0 default_bin1 = Ok j /\
  (forall o, In o (all_orbits g) -> bound o = true -> nfin (o_jz o) = true /\ nfin (o_jp o) = true) /\
  nth_error (jc_E j) 1 = Some en /\ nth_error (jc_Jz j) 1 = Some z /\ nth_error (jc_eps j) 1 = Some w /\
  nth_error (jc_eps_r j) 1 = Some p /\
  nfin en = true /\ nfin z = true /\ nle w (nlit 51 100) = true /\ nle (nlit 1 2) w = true /\
  nle p (nlit 154 100) = true /\ nle (nlit 152 100) p = true.
Proof.
  split; [exact (asort_sorting (F64_rounded _))|].
  destruct (checkG_ex [(1,1,0,(-3,2)); (1,1,1,(-148,100))]%Z [(2,1,0,(-96,100)); (2,1,0,(-96,100))]%Z [(3,1,0,(-501,1000))]%Z
    default_bin0 default_bin1 (fun g j =>
    forallb (fun o => negb (bound o) || (nfin (o_jz o) && nfin (o_jp o))) (all_orbits g) &&
    match nth_error (jc_E j) 1, nth_error (jc_Jz j) 1, nth_error (jc_eps j) 1, nth_error (jc_eps_r j) 1 with
    | Some en, Some z, Some w, Some p => nfin en && (nfin z && (nle w (nlit 51 100) && (nle (nlit 1 2) w &&
        (nle p (nlit 154 100) && nle (nlit 152 100) p))))
    | _, _, _, _ => false end)) as (g & j & H1 & H2 & H3).
  { vm_compute. reflexivity. }
  apply andb_prop in H3 as [H3 H4].
  destruct (nth_error (jc_E j) 1) as [en|] eqn:E1; [|discriminate H4].
  destruct (nth_error (jc_Jz j) 1) as [z|] eqn:E2; [|discriminate H4].
  destruct (nth_error (jc_eps j) 1) as [w|] eqn:E3; [|discriminate H4].
  destruct (nth_error (jc_eps_r j) 1) as [p|] eqn:E4; [|discriminate H4].
  apply andb_prop in H4 as [A1 H4]. apply andb_prop in H4 as [A2 H4]. apply andb_prop in H4 as [A3 H4].
  apply andb_prop in H4 as [A4 H4]. apply andb_prop in H4 as [A5 A6].
  exists g, j, en, z, w, p. split; [exact H1|]. split; [exact H2|]. split.
  { intros o Io Bo. rewrite forallb_forall in H3. specialize (H3 o Io). rewrite Bo in H3.
    apply andb_prop. exact H3. }
  repeat (split; [assumption|]). assumption.
Qed.
