(** The histogram decompositions of a whole analysis against exact arithmetic (C99). *)
From Coq Require Import Sorted.
From Verif Require Import Py Num RX F64 Np Df Data DataFacts DfFacts CenterFacts Ex Spec SpecR SpecCirc DataThms Circ CircFacts CircThms Base BaseFacts BaseThms EpsFacts SpecBase Threshold ThresholdThms SpecHist Hist HistFacts HistThms EdgeFacts MirrorThms EnergyThms SpecSplit SplitThms SpecMix MixStar SpecAlAcc EpsAccFacts EpsAccThms EpsCutThms PolyFacts SpecCurve CurveAccFacts CurveAccThms OrderThms NodeThms SpecWhist.
From Flocq Require Import Core.
From Coq Require Import Lra Lia.
Local Open Scope R_scope.

(** *** Comparisons with the edges *)
Definition same_side (a r b s : R) : Prop := (a < r /\ b < s) \/ (r < a /\ s < b) \/ (a = r /\ b = s).
Lemma alikeR (e : list RX) n r s : (forall i, (i <= n)%nat -> exists a, nth i e nnan = XR a /\ same_side a r a s) -> alike e e n (XR r) (XR s).
Proof.
  intros H i Hi. destruct (H i Hi) as (a & Ea & S). rewrite Ea.
  assert (B : forall a b : bool, (a = true <-> b = true) -> a = b) by (intros [|] [|] Q; try reflexivity; [symmetry|]; apply Q; reflexivity).
  repeat split; apply B; [rewrite !(nle_iff RX_rounded)|rewrite !(nlt_iff RX_rounded)|rewrite !(nle_iff RX_rounded)]; cbn [val RX_rounded xle xlt]; destruct S as [S|[S|S]]; lra.
Qed.
Lemma alike_trans {N1 N2 N3 : Num} (e1 : list N1) (e2 : list N2) (e3 : list N3) n x1 x2 x3 : alike e1 e2 n x1 x2 -> alike e2 e3 n x2 x3 -> alike e1 e3 n x1 x3.
Proof. intros A B i Hi. destruct (A i Hi) as (-> & -> & ->). exact (B i Hi). Qed.

Lemma Rabs_ge a b : a <= - b \/ b <= a -> b <= Rabs a.
Proof. intros [H|H]; [rewrite <- Rabs_Ropp; apply Rle_trans with (- a); [lra|apply RRle_abs]|apply Rle_trans with a; [lra|apply RRle_abs]]. Qed.

(** *** Lists of positions *)
Lemma forall2_weak {A B} (R S : A -> B -> Prop) l l' : (forall a b, R a b -> S a b) -> Forall2 R l l' -> Forall2 S l l'.
Proof. intros H. induction 1; constructor; auto. Qed.
Lemma forall2_map2 {A B A' B'} (R : A' -> B' -> Prop) (f : A -> A') (h : B -> B') l l' : Forall2 (fun a b => R (f a) (h b)) l l' -> Forall2 R (map f l) (map h l').
Proof. induction 1; cbn [map]; constructor; assumption. Qed.
Lemma sorted_members : forall l l' : list nat, StronglySorted lt l -> StronglySorted lt l' -> (forall k, In k l <-> In k l') -> l = l'.
Proof.
  induction l as [|a l IH]; intros [|b l'] S S' H; [reflexivity|exfalso; apply (proj2 (H b)); now left|exfalso; apply (proj1 (H a)); now left|].
  apply StronglySorted_inv in S as [S F], S' as [S' F']. rewrite Forall_forall in F, F'.
  assert (a = b).
  { destruct (proj1 (H a) (or_introl eq_refl)) as [|Ia]; [auto|]. destruct (proj2 (H b) (or_introl eq_refl)) as [|Ib]; [auto|].
    specialize (F b Ib). specialize (F' a Ia). lia. }
  subst b. f_equal. apply IH; [assumption|assumption|]. intros k. split; intros I.
  - destruct (proj1 (H k) (or_intror I)) as [->|I']; [specialize (F k I); lia|exact I'].
  - destruct (proj2 (H k) (or_intror I)) as [->|I']; [specialize (F' k I); lia|exact I'].
Qed.

Lemma hist_length {N : Num} {St} pick junk n_bin digits (st : St) (eps : list N) labels st' :
  hist_split pick junk n_bin digits st eps = Ok (labels, st') -> length labels = length eps.
Proof.
  unfold hist_split. destruct (make_histogram _ _ _) as [[edges bin0]|]; [|discriminate]. cbn [bind]. destruct (make_count_sph _ _); [|discriminate]. cbn [bind].
  destruct (make_corot_sph _ _ _ _ _ _) as [[sph s']|]; [|discriminate]. cbn [bind]. destruct (make_disk _ _ _ _); [|discriminate]. cbn [bind].
  destruct (gather sph); [|discriminate]. cbn [bind]. destruct (gather _); [|discriminate]. cbn [bind].
  destruct (assign_all (np_empty _ _) _ _) as [l1|] eqn:E1; [|discriminate]. cbn [bind]. destruct (assign_all l1 _ _) as [l2|] eqn:E2; [|discriminate]. cbn [bind].
  intros H. assert (l2 = labels) by congruence. subst l2. apply scatter_length in E1, E2. rewrite E2, E1. unfold np_empty. now rewrite map_length, seq_length.
Qed.

Section Carry.
Context {N : Num} (RN : Rounded N) (argsort : nat -> list N -> list nat).
Lemma carries_intro St (D : decomposer N St) st (g : galaxy N) j used r :
  constructible g -> star_attrs (d_attributes D) -> d_mask D = stars_mask ->
  jcirc argsort g (fst (d_cbins D)) (snd (d_cbins D)) = Ok j -> StronglySorted lt used ->
  (forall k, In k used <-> (k < plen (g_stars g))%nat /\ forall a, In a (d_attributes D) -> exists v, nth_error (circ_col j a) k = Some v /\ nfin v = true) ->
  (forall ys, outcome (d_split D st (map (feature_row j (d_attributes D)) used) ys (d_attributes D)) = r) ->
  (forall ys labels pr st', d_split D st (map (feature_row j (d_attributes D)) used) ys (d_attributes D) = Ok (labels, pr, st') -> length labels = length used /\ pr = None) ->
  carries (glen g) used r (decompose argsort D st g).
Proof.
  intros Hg HA Hm Hj Su Mu HO HL.
  destruct (star_handed_returns RN argsort St D st g j Hg HA Hm Hj) as (used' & ys & Su' & Mu' & R1 & R2).
  assert (used' = used) by (apply sorted_members; [exact Su'|exact Su|]; intros k; rewrite Mu', Mu; reflexivity). subst used'.
  pose proof (HO ys) as HO1. pose proof (HL ys) as HL1.
  destruct (d_split D st _ ys _) as [[[labels pr] st']|e] eqn:E; cbn [outcome rmap fst snd] in HO1; subst r; cbn [carries].
  - destruct (HL1 labels pr st' eq_refl) as (L & ->). destruct (R2 labels None st' eq_refl L ltac:(discriminate)) as (cs & Ec). exists cs. split; [exact Ec|].
    destruct (star_handed RN argsort St D st g cs st' Hg HA Hm Ec) as (j' & used' & labels' & pr' & ys' & Hj' & Su'' & Mu'' & E' & K & _).
    assert (j' = j) by congruence. subst j'.
    assert (used' = used) by (apply sorted_members; [exact Su''|exact Su|]; intros k; rewrite Mu'', Mu; reflexivity). subst used'.
    specialize (HO ys'). rewrite E' in HO. cbn [outcome rmap fst snd] in HO. assert (labels' = labels) by congruence. subst labels'. exact (K L).
  - now apply R1.
Qed.
End Carry.

Section Star.
Context (sm : list f64 -> f64).
Local Notation RN := (F64_rounded sm).
Local Notation v := (val (F64_rounded sm)).
Lemma R00 : rnd RN (XR 0) = XR 0.
Proof. apply (rnd_int RN 0). vm_compute. discriminate. Qed.
Variables (argsort : nat -> list (F64s sm) -> list nat) (g : galaxy (F64s sm)) (j : jcirc_t (F64s sm)).
Variables (bodies : list (R * R)) (m a d ue uz : R) (cv : list (R * R)).
Hypothesis Hg : constructible g.
Hypothesis Hs : sorting argsort.
Hypothesis Hj : jcirc argsort g default_bin0 default_bin1 = Ok j.
Hypothesis D0 : 0 <= d.
Hypothesis Hm : 16 * d + / IZR (2 ^ 44) <= m.
Hypothesis Hn : Forall2 (near_orbit RN d ue uz) (all_orbits g) bodies.
Hypothesis Hc : exact_curve m SpecCurve.edgesR bodies ue uz cv.
Hypothesis Pa : 0 < a <= 1.
Hypothesis Ga : gentle a cv.
Local Notation t := ((12 * d + / IZR (2 ^ 47)) / a).

(** What is computed of star [k], for exact values [(e, z)]. *)
Lemma star_near k e z : (k < plen (g_stars g))%nat -> nth_error bodies k = Some (e, z) ->
  exists c en w, interpolates cv (e / ue) c /\ 0 <= c <= 1 /\ nth_error (jc_E j) k = Some en /\ nth_error (jc_eps j) k = Some w /\
    (0 < e -> nisnan w = true) /\
    (e < 0 -> c + t < Rabs (z / uz) -> nisnan w = true) /\
    (e < 0 -> Rabs (z / uz) < c - t -> exists re rw, v en = XR re /\ v w = XR rw /\ Rabs (rw * c - z / uz) <= t /\
       ((e / ue = -1 /\ re = -1) \/ (Rabs (re - e / ue) < m / 2 /\ forall x, In x SpecCurve.edgesR -> m <= Rabs (e / ue - x)))).
Proof.
  intros Lk Hb. pose proof u53_pos as PU. assert (Pm : 0 < m) by (rewrite u44 in Hm; lra).
  destruct (c96_exact m SpecCurve.edgesR bodies ue uz cv (e / ue) Pm edgesR_ok Hc) as (c & Ic & Bc & _). exists c.
  pose proof (proj1 (constructible_ok g) Hg) as Hok.
  assert (exists o, nth_error (star_orbits g) k = Some o) as (o & Ho).
  { destruct (nth_error (star_orbits g) k) eqn:E; [eauto|]. apply nth_error_None in E.
    assert (length (star_orbits g) = plen (g_stars g)) by (apply orbits_cols; apply Hok). lia. }
  assert (Ha : nth_error (all_orbits g) k = Some o).
  { unfold all_orbits, sets. cbn [flat_map]. rewrite nth_error_app1; [exact Ho|]. apply nth_error_Some. change (nth_error (star_orbits g) k <> None). congruence. }
  pose proof (edges_in SpecCurve.edgesR edgesR_ok) as Ei. assert (Hm' : 16 * d + 512 * u53 <= m) by now rewrite <- u44.
  destruct (Forall2_nth_l _ _ _ Hn k o Ha) as (b & Hb' & Nb). rewrite Hb in Hb'. injection Hb' as <-.
  assert (Bs : forall l, In l (combine (all_orbits g) bodies) -> bound (fst l) = negative (snd l)) by (intros l I; eapply bound_same; eauto).
  assert (Io : In (o, (e, z)) (combine (all_orbits g) bodies)) by (apply (combine_nth_in _ _ k); assumption).
  pose proof (Bs _ Io) as Bo. cbn [fst snd] in Bo.
  pose proof (c31_lengths _ RN argsort g _ _ j Hg Hj) as (L1 & L2 & _).
  destruct (nth_error_lt (jc_E j) k) as (en & En); [lia|]. destruct (nth_error_lt (jc_eps j) k) as (w & Ew); [lia|].
  exists en, w. split; [exact Ic|]. split; [exact Bc|]. split; [exact En|]. split; [exact Ew|].
  split.
  { intros Pe. unfold negative in Bo. cbn [fst] in Bo. rewrite Rlt_bool_false in Bo by lra. destruct Nb as (e' & Ve & _).
    destruct (c26_unbound _ RN argsort g _ _ j k o Hg Hj Ho) as (_ & Hn' & _).
    { left. unfold bound in Bo. apply andb_false_iff in Bo as [Q|Q].
      - apply (nle_false RN) in Q. apply (nlt_iff RN). rewrite Ve, (val_n0 RN) in Q. rewrite Ve, (val_n0 RN). simpl in Q |- *. lra.
      - apply negb_false_iff, (neqb_iff RN) in Q as [Q _]. rewrite Ve, (val_nninf RN) in Q. discriminate Q. }
    assert (w = nnan) as -> by congruence. apply (nisnan_iff RN). apply (val_nnan RN). }
  destruct (Rlt_dec e 0) as [Ne|Ne]; [|split; intros; lra].
  unfold negative in Bo. cbn [fst] in Bo. rewrite Rlt_bool_true in Bo by exact Ne.
  assert (Hz : forall o, In o (all_orbits g) -> bound o = true -> nfin (o_jz o) = true).
  { intros o' I1 B1. assert (exists l, In l (combine (all_orbits g) bodies) /\ fst l = o') as (l & Il & <-).
    { rewrite <- (map_fst_combine (all_orbits g) bodies (Forall2_length _ _ _ Hn)) in I1. apply in_map_iff in I1 as (l & <- & Il). eauto. }
    pose proof (Forall2_combine _ _ _ Hn l Il) as (_ & _ & _ & Z). rewrite (Bs l Il) in B1. unfold negative in B1.
    destruct (Rlt_bool_spec (fst (snd l)) 0) as [C|]; [|discriminate B1]. destruct (Z C) as (z' & Vz & _). now rewrite (val_fin RN), Vz. }
  assert (exists se sz sp, units g se sz sp) as (se & sz & sp & U).
  { destruct (curve_of_run RN argsort g _ _ j Hok Hs Hj) as (se & sz & sp & k0 & k1 & raw & U & _). eauto. }
  assert (Ue : forall se sz sp, units g se sz sp -> exists l0 LR e0, Permutation (filter (fun l => negative (snd l)) (combine (all_orbits g) bodies)) (l0 :: LR) /\ fst (snd l0) = - ue /\ v (o_e (fst l0)) = XR (- e0) /\
     v se = XR e0 /\ 0 < e0 /\ Rabs (e0 - ue) <= d * ue /\
     (exists z0, v sz = XR z0 /\ 0 < z0 /\ Rabs (z0 - uz) <= d * uz)).
  { intros se' sz' sp' U'.
    destruct (unit_e_same sm g SpecCurve.edgesR bodies se' sz' sp' m d ue uz cv U' Ei D0 Hm' Hn Hc) as (l0 & LR & e0 & P & E0 & V0 & Vs & P0 & A0 & _).
    destruct (unit_z_same sm g SpecCurve.edgesR bodies se' sz' sp' m d ue uz cv U' Ei D0 Hm' Hn Hc) as (z0 & Vz & Pz & Az & _).
    exists l0, LR, e0. repeat (split; [assumption|]). eauto. }
  destruct (Ue se sz sp U) as (l0 & LR & e0 & P & E0 & V0 & Vs & P0 & A0 & (z0 & Vz0 & Pz0 & _)).
  assert (I0 : In l0 (filter (fun l => negative (snd l)) (combine (all_orbits g) bodies))) by (eapply Permutation_in; [symmetry; exact P|now left]).
  assert (Hne : exists o, In o (all_orbits g) /\ bound o = true /\ neqb (o_e o) n0 = false).
  { exists (fst l0). apply filter_In in I0 as [I0 N0]. split. { rewrite <- (map_fst_combine (all_orbits g) bodies (Forall2_length _ _ _ Hn)). now apply in_map. }
    split; [now rewrite (Bs l0 I0)|]. destruct (neqb (o_e (fst l0)) n0) eqn:Q; [|reflexivity]. apply (neqb_iff RN) in Q as [Q _].
    rewrite V0, (val_n0 RN) in Q. injection Q. lra. }
  assert (Hnz : exists o, In o (all_orbits g) /\ bound o = true /\ neqb (o_jz o) n0 = false).
  { destruct (unit_z _ _ _ _ U) as [[oz [Iz Ez]] _]. apply filter_In in Iz as [Iz Bz]. exists oz. split; [exact Iz|]. split; [exact Bz|].
    destruct (neqb (o_jz oz) n0) eqn:Q; [|reflexivity]. apply (neqb_iff RN) in Q as [Q _]. rewrite (val_n0 RN) in Q.
    rewrite <- Ez, (val_abs RN), Q in Vz0. simpl in Vz0. rewrite Rabs_R0 in Vz0. injection Vz0. lra. }
  destruct (default_ranges sm) as (la & lb & A1 & A2 & F & M & T).
  destruct (star_core sm argsort g _ _ la lb j k o Hg Hs A1 A2 F M T Hj Hz Hne Hnz Ho Bo)
    as (vue & vuz & vup & ue' & uz' & e' & jz' & re & pts & c' & w' & U' & V1 & V2 & P1 & P2 & V3 & V4 & Ae & Px & Py & I' & B' & Hw' & K1 & K2 & K3).
  assert (w' = w) by congruence. subst w'.
  destruct (c96_default sm argsort g j bodies m d ue uz cv Hg Hs Hj D0 Hm Hn Hc) as (pts' & Px' & Py' & Fc).
  assert (pts' = pts) by (apply pts_unique; congruence). subst pts'.
  clear l0 LR e0 P E0 V0 Vs P0 A0 I0 Vz0 Pz0 z0.
  destruct (Ue vue vuz vup U') as (l0 & LR & e0 & P & E0 & V0 & Ve0 & _ & Ae0 & (z1 & Vz1 & _ & Az1)).
  assert (e0 = ue') by congruence. subst e0. assert (z1 = uz') by congruence. subst z1.
  destruct Nb as (e1 & Ve1 & Ae1 & Zb). cbn [fst snd] in *. destruct (Zb Ne) as (z2 & Vz2 & Az2).
  assert (e1 = e') by congruence. subst e1. assert (z2 = jz') by congruence. subst z2.
  pose proof (m_le1 sm g SpecCurve.edgesR bodies m d ue uz cv Ei Hn Hc) as M1.
  destruct (ec_ue _ _ _ _ _ _ Hc) as [Pue Mue]. destruct (ec_uz _ _ _ _ _ _ Hc) as (Puz & _ & Muz).
  pose proof (nth_error_In _ _ Hb) as Ib. specialize (Mue _ Ib). specialize (Muz _ Ib). cbn [fst snd] in *. specialize (Muz Ne).
  assert (Md : 0 <= d <= / 16) by lra.
  pose proof (ratio_acc e' ue' e ue d Pue Md Ae1 Ae0 ltac:(apply Rabs_le; lra)) as Re.
  pose proof (ratio_acc jz' uz' z uz d Puz Md Az2 Az1 Muz) as Rz.
  rewrite u52 in Ae, Fc. rewrite u48 in K1, K2, K3. rewrite u47.
  assert (Rr : Rabs (re - e / ue) <= 3 * d + 2 * u53).
  { replace (re - e / ue) with ((re - e' / ue') + (e' / ue' - e / ue)) by ring. eapply Rle_trans; [apply Rabs_triang|]. lra. }
  destruct (curve_shape m SpecCurve.edgesR bodies ue uz cv Pm edgesR_ok Hc) as (Sc & Lv & _).
  pose proof (polygon_close m a (3 * d + 2 * u53) pts cv re (e / ue) c' c ltac:(lra) ltac:(lra) Pa Fc Sc Ga Rr I' Ic) as Cc.
  set (tt := (12 * d + 64 * u53) / a). set (q := 3 * (3 * d + 2 * u53) / a) in *.
  assert (TT : q + 3 * d + 32 * u53 <= tt).
  { unfold tt, q. apply Rmult_le_reg_r with a; [lra|].
    replace ((3 * (3 * d + 2 * u53) / a + 3 * d + 32 * u53) * a) with (3 * (3 * d + 2 * u53) + (3 * d + 32 * u53) * a) by (field; lra).
    replace ((12 * d + 64 * u53) / a * a) with (12 * d + 64 * u53) by (field; lra). nra. }
  clearbody tt q. pose proof (Rabs_triang_inv2 (jz' / uz') (z / uz)) as Ti.
  assert (Cc' := Cc). apply Rabs_le_inv in Cc'. assert (Rz' := Rz). apply Rabs_le_inv in Rz'. assert (Ti' : Rabs (Rabs (jz' / uz') - Rabs (z / uz)) <= 3 * d) by lra. apply Rabs_le_inv in Ti'.
  split.
  - intros _ H. apply K3. lra.
  - intros _ H. destruct K1 as (En' & Vre & rw & Vw & Bw); [lra|]. exists re, rw. assert (en = (o_e o / vue)%num) by congruence. subst en.
    split; [exact Vre|]. split; [exact Vw|]. destruct (K2 rw Vw) as (_ & K). split.
    + replace (rw * c - z / uz) with ((rw * c' - jz' / uz') + (jz' / uz' - z / uz) - rw * (c' - c)) by ring.
      assert (Q : Rabs (rw * (c' - c)) <= q).
      { rewrite Rabs_mult. apply Rle_trans with (1 * q); [|lra]. apply Rmult_le_compat; [apply Rabs_pos|apply Rabs_pos|apply Rabs_le; lra|exact Cc]. }
      apply Rabs_le_inv in Q. apply Rabs_le_inv in K. apply Rabs_le. lra.
    + assert (IB : In (o, (e, z)) (l0 :: LR)).
      { eapply Permutation_in; [exact P|]. apply filter_In. split; [exact Io|]. unfold negative. cbn [fst snd]. now rewrite Rlt_bool_true. }
      destruct (split_least sm g SpecCurve.edgesR bodies m d ue uz cv Ei Hn Hc) as (l0' & LR' & P' & E0' & Far & _).
      assert (IB' : In (o, (e, z)) (l0' :: LR')) by (eapply Permutation_in; [exact P'|]; eapply Permutation_in; [symmetry; exact P|exact IB]).
      assert (E00 : l0 = l0').
      { assert (I2 : In l0 (l0' :: LR')) by (eapply Permutation_in; [exact P'|]; eapply Permutation_in; [symmetry; exact P|now left]).
        destruct I2 as [I2|I2]; [now symmetry|]. destruct (Far l0 I2) as (_ & G & _). rewrite E0 in G. nra. }
      subst l0'. destruct IB' as [Eq|IB'].
      * left. rewrite Eq in E0, V0. cbn [fst snd] in E0, V0. split; [rewrite E0; field; lra|].
        assert (e' = - ue') by congruence. assert (X : v (o_e o / vue)%num = rnd RN (XR (-1))).
        { rewrite (val_div RN) by (rewrite V1; injection; lra). rewrite V1, V3. unfold xdiv. destruct (Req_EM_T ue' 0); [lra|]. do 2 f_equal. subst e'. field. lra. }
        assert (Y : rnd RN (XR (-1)) = XR (-1)) by (apply (rnd_int RN (-1)); vm_compute; discriminate). rewrite Y, Vre in X. injection X. auto.
      * right. destruct (Far _ IB') as (_ & _ & G). split; [eapply Rle_lt_trans; [exact Rr|]; lra|]. exact G.
Qed.

(** The exact polygon at one of its points. *)
Lemma node_value P : forall x y, Sorted (apart m) P -> 0 < m -> In (x, y) P -> interpolates P x y.
Proof.
  induction P as [|p P IH]; intros x y S M I; [destruct I|]. destruct I as [->|I]; [apply int_left; lra|].
  apply Sorted_inv in S as [S Hd]. destruct P as [|[x' y'] P]; [destruct I|]. inversion_clear Hd. destruct p as [x0 y0]. unfold apart in H. cbn [fst] in H.
  apply int_skip; [|now apply IH]. destruct I as [E|I]; [injection E; lra|].
  assert (St : StronglySorted (apart m) ((x', y') :: P)). { apply Sorted_StronglySorted; [intros [? ?] [? ?] [? ?]; unfold apart; cbn [fst]; lra|exact S]. }
  apply StronglySorted_inv in St as [_ F]. rewrite Forall_forall in F. specialize (F _ I). unfold apart in F. cbn [fst] in F. lra.
Qed.

Lemma orbit_of k b : (k < plen (g_stars g))%nat -> nth_error bodies k = Some b ->
  exists o, nth_error (star_orbits g) k = Some o /\ near_orbit RN d ue uz o b /\ In (o, b) (combine (all_orbits g) bodies) /\ (fst b < 0 -> bound o = true).
Proof.
  intros Lk Hb. pose proof (proj1 (constructible_ok g) Hg) as Hok.
  assert (exists o, nth_error (star_orbits g) k = Some o) as (o & Ho).
  { destruct (nth_error (star_orbits g) k) eqn:E; [eauto|]. apply nth_error_None in E.
    assert (length (star_orbits g) = plen (g_stars g)) by (apply orbits_cols; apply Hok). lia. }
  assert (Ha : nth_error (all_orbits g) k = Some o).
  { unfold all_orbits, sets. cbn [flat_map]. rewrite nth_error_app1; [exact Ho|]. apply nth_error_Some. change (nth_error (star_orbits g) k <> None). congruence. }
  destruct (Forall2_nth_l _ _ _ Hn k o Ha) as (b' & Hb' & Nb). assert (b' = b) by congruence. subst b'.
  assert (I : In (o, b) (combine (all_orbits g) bodies)) by (apply (combine_nth_in _ _ k); assumption).
  exists o. split; [exact Ho|]. split; [exact Nb|]. split; [exact I|]. intros Ne.
  assert (Hm' : 16 * d + 512 * u53 <= m) by now rewrite <- u44.
  pose proof (edges_in SpecCurve.edgesR edgesR_ok) as Ei.
  assert (E : bound (fst (o, b)) = negative (snd (o, b))) by (eapply bound_same; eauto). cbn [fst snd] in E. rewrite E. unfold negative. now apply Rlt_bool_true.
Qed.

(** The curve and the units of the run. *)
Lemma run_points : exists se sz sp (l0 l1 : list (F64s sm)) qs, units g se sz sp /\
  arange nm1 (nlit (-1) 10) default_bin0 = Ok l0 /\ arange (nlit (-1) 10) n0 default_bin1 = Ok l1 /\
  jc_x j = map fst qs /\ jc_y j = map snd qs /\ Forall2 (pt_from sm g bodies se sz d ue uz) qs cv.
Proof.
  pose proof (proj1 (constructible_ok g) Hg) as Hok. assert (Hm' : 16 * d + 512 * u53 <= m) by now rewrite <- u44.
  destruct (curve_of_run RN argsort g _ _ j Hok Hs Hj) as (se & sz & sp & k0 & k1 & raw & U & B0 & B1 & Hne & Rw & _ & X & Y).
  destruct (default_ranges sm) as (l0 & l1 & A0 & A1 & _). assert (k0 = l0) by congruence. assert (k1 = l1) by congruence. subst k0 k1.
  pose proof (edges_in SpecCurve.edgesR edgesR_ok) as Ei.
  assert (Bf : map fst (filter (fun l => negative (snd l)) (combine (all_orbits g) bodies)) = filter bound (all_orbits g)) by (eapply B_fst; eauto).
  rewrite <- Bf in Rw, X, Y.
  pose proof (curve_from sm g (l0 ++ l1) SpecCurve.edgesR bodies se sz sp m d ue uz cv U (default_near sm l0 l1 A0 A1) Ei D0 Hm' Hn Hc raw Rw) as F.
  exists se, sz, sp, l0, l1. eexists. repeat (split; [eassumption|]). exact F.
Qed.

(** The normalised energy of a bound star with a circularity. *)
Lemma star_energy k e z en w : (k < plen (g_stars g))%nat -> nth_error bodies k = Some (e, z) -> e < 0 ->
  nth_error (jc_E j) k = Some en -> nth_error (jc_eps j) k = Some w -> nisnan w = false ->
  exists re, v en = XR re /\ ((e / ue = -1 /\ re = -1) \/ (Rabs (re - e / ue) < m / 2 /\ forall x, In x SpecCurve.edgesR -> m <= Rabs (e / ue - x))).
Proof.
  intros Lk Hb Ne En Ew Nw. destruct (orbit_of k (e, z) Lk Hb) as (o & Ho & _ & Io & Bo). specialize (Bo Ne).
  pose proof (edges_in SpecCurve.edgesR edgesR_ok) as Ei. assert (Hm' : 16 * d + 512 * u53 <= m) by now rewrite <- u44.
  destruct (c24_eps _ RN argsort g _ _ j Hg Hj) as (_ & se & sz & sp & U & V). destruct (V k o Ho Bo) as (V1 & _ & V3 & _).
  destruct (_ || _).
  { exfalso. rewrite Ew in V3. assert (w = nnan) by congruence. subst w. assert (nisnan (nnan : F64s sm) = true) by (apply (nisnan_iff RN), (val_nnan RN)). congruence. }
  assert (en = (o_e o / se)%num) by congruence. subst en.
  assert (IB : In (o, (e, z)) (filter (fun l => negative (snd l)) (combine (all_orbits g) bodies))).
  { apply filter_In. split; [exact Io|]. unfold negative. cbn [fst snd]. now apply Rlt_bool_true. }
  destruct (norm_same sm g SpecCurve.edgesR bodies se sz sp m d ue uz cv U Ei D0 Hm' Hn Hc _ IB) as (x & y & Vx & _ & Ax & _).
  cbn [fst snd scaled] in Vx, Ax. exists x. split; [exact Vx|].
  destruct (split_least sm g SpecCurve.edgesR bodies m d ue uz cv Ei Hn Hc) as (l0 & LR & P & E0 & Far & _).
  destruct (Permutation_in _ P IB) as [Eq|IR].
  - left. pose proof (least_at sm g SpecCurve.edgesR bodies se sz sp m d ue uz cv U Ei D0 Hm' Hn Hc l0 LR P E0) as Q. rewrite Eq in E0, Q. cbn [fst snd] in E0, Q.
    destruct (ec_ue _ _ _ _ _ _ Hc) as [Pue _]. split; [rewrite E0; field; lra|]. rewrite Vx in Q. injection Q. auto.
  - right. destruct (Far _ IR) as (_ & _ & G). pose proof u53_pos. split; [eapply Rle_lt_trans; [exact Ax|]; lra|exact G].
Qed.

(** A star that is one of the points of the curve. *)
Lemma star_node k e z : (k < plen (g_stars g))%nat -> nth_error bodies k = Some (e, z) -> e < 0 -> In (e / ue, Rabs z / uz) cv ->
  exists w, nth_error (jc_eps j) k = Some w /\
    (t < Rabs z / uz -> v w = XR (if Rlt_dec 0 z then 1 else -1)) /\
    ((forall o, nth_error (star_orbits g) k = Some o -> v (o_jz o) = XR 0) -> nisnan w = true).
Proof.
  intros Lk Hb Ne Ic. destruct (orbit_of k (e, z) Lk Hb) as (o & Ho & Nb & Io & Bo). specialize (Bo Ne).
  pose proof u53_pos as PU. assert (Pm : 0 < m) by (rewrite u44 in Hm; lra).
  pose proof (edges_in SpecCurve.edgesR edgesR_ok) as Ei. assert (Hm' : 16 * d + 512 * u53 <= m) by now rewrite <- u44.
  assert (IB : In (o, (e, z)) (filter (fun l => negative (snd l)) (combine (all_orbits g) bodies))).
  { apply filter_In. split; [exact Io|]. unfold negative. cbn [fst snd]. now apply Rlt_bool_true. }
  destruct run_points as (se & sz & sp & l0 & l1 & qs & U & A0 & A1 & Jx & Jy & F).
  destruct (default_ranges sm) as (k0 & k1 & K0 & K1 & Fst & Mono & _). assert (k0 = l0) by congruence. assert (k1 = l1) by congruence. subst k0 k1.
  destruct (In_nth_error _ _ Ic) as (i & Hi). destruct (Forall2_nth_r _ _ _ F i _ Hi) as (q & Hq & (_ & (l & Il & El & Vx & Ey))).
  assert (l = (o, (e, z))).
  { symmetry. apply (node_unique sm g SpecCurve.edgesR bodies se sz sp m d ue uz cv U Ei D0 Hm' Hn Hc l (o, (e, z)) Il IB); [rewrite El; exact Ic|rewrite El; reflexivity]. }
  subst l. cbn [fst snd] in Vx, Ey.
  destruct (norm_same sm g SpecCurve.edgesR bodies se sz sp m d ue uz cv U Ei D0 Hm' Hn Hc _ IB) as (x & y & Vx' & Vy & Ax & Ay & _).
  cbn [fst snd scaled] in Vx', Vy, Ax, Ay.
  destruct (unit_z_same sm g SpecCurve.edgesR bodies se sz sp m d ue uz cv U Ei D0 Hm' Hn Hc) as (z0 & Vz0 & Pz0 & _).
  destruct (c74_node _ RN argsort g _ _ l0 l1 j Hg Hs A0 A1 Fst Mono Hj) as (se' & sz' & sp' & U' & C).
  destruct (units_unique RN g g se sz sp se' sz' sp' (Permutation_refl _) U U') as (<- & <- & <-).
  destruct (C k o i (fst q) (snd q) Ho Bo) as (C1 & C2).
  { rewrite Jx, nth_error_map, Hq. reflexivity. } { rewrite Jy, nth_error_map, Hq. reflexivity. }
  { apply (neqb_iff RN). split; [exact Vx|]. rewrite Vx, Vx'. discriminate. }
  pose proof (m_le1 sm g SpecCurve.edgesR bodies m d ue uz cv Ei Hn Hc) as M1.
  destruct (ec_uz _ _ _ _ _ _ Hc) as (Puz & _). destruct Nb as (_ & _ & _ & Zb). destruct (Zb Ne) as (z' & Vz' & Az'). cbn [fst snd] in Az'.
  assert (Dz : v (o_jz o / sz)%num = rnd RN (XR (z' / z0))).
  { rewrite (val_div RN) by (rewrite Vz0; injection; lra). rewrite Vz0, Vz'. unfold xdiv. destruct (Req_EM_T z0 0); [lra|reflexivity]. }
  assert (exists w, nth_error (jc_eps j) k = Some w) as (w & Ew). { rewrite C1. eauto. }
  exists w. split; [exact Ew|]. split.
  - intros Ht. assert (T : 12 * d + 64 * u53 <= t).
    { rewrite u47. apply Rmult_le_reg_r with a; [lra|]. unfold Rdiv. rewrite Rmult_assoc, Rinv_l by lra. nra. }
    assert (Yp : 0 < y). { apply Rabs_le_inv in Ay. lra. }
    assert (Sg : if Rlt_dec 0 z then 0 < z' else z' < 0).
    { assert (Zb' : 12 * d * uz < Rabs z). { apply Rmult_lt_reg_r with (/ uz); [now apply Rinv_0_lt_compat|]. rewrite Rmult_assoc, Rinv_r by lra. unfold Rdiv in Ht. lra. }
      apply Rabs_le_inv in Az'. assert (0 <= d * uz) by (apply Rmult_le_pos; lra).
      destruct (Rlt_dec 0 z); [rewrite Rabs_pos_eq in Zb' by lra; lra|rewrite Rabs_left1 in Zb' by lra; lra]. }
    destruct (C2 Ey) as (w' & Ew' & Cw).
    { apply (nisnan_false RN). rewrite Ey. unfold ofZ in *. rewrite Vy. discriminate. }
    { destruct (neqb (snd q) n0) eqn:Q; [|reflexivity]. apply (neqb_iff RN) in Q as [Q _]. rewrite (val_n0 RN), Ey in Q. change (v (nabs (ofZ sz o)) = XR 0) in Q. rewrite Vy in Q. injection Q. lra. }
    assert (w' = w) by congruence. subst w'.
    destruct (nlt n0 (o_jz o / sz)%num) eqn:Q.
    + apply (neqb_iff RN) in Cw as [Cw _]. rewrite Cw, (val_n1 RN). f_equal. destruct (Rlt_dec 0 z); [reflexivity|]. exfalso.
      apply (nlt_iff RN) in Q. rewrite Dz, (val_n0 RN) in Q.
      assert (xle (rnd RN (XR (z' / z0))) (XR 0)) as L.
      { rewrite <- R00. apply (rnd_mono RN). simpl. assert (0 < - z' / z0) by (apply Rdiv_lt_0_compat; lra). unfold Rdiv in *. lra. }
      revert Q L. clear. generalize (rnd RN (XR (z' / z0))). intros [r| | |] Q L; cbn [xlt xle] in *; try contradiction; lra.
    + apply (neqb_iff RN) in Cw as [Cw _]. rewrite Cw, (val_nm1 RN). f_equal. destruct (Rlt_dec 0 z); [|reflexivity]. exfalso.
      apply (nlt_false RN) in Q. rewrite Dz, (val_n0 RN) in Q.
      assert (xle (XR 0) (rnd RN (XR (z' / z0)))) as L.
      { rewrite <- R00. apply (rnd_mono RN). simpl. apply Rlt_le, Rdiv_lt_0_compat; lra. }
      change (v (nabs (o_jz o / sz)%num) = XR y) in Vy. rewrite (val_abs RN), Dz in Vy.
      revert Q L Vy Yp. clear. generalize (rnd RN (XR (z' / z0))). intros [r| | |] Q L Vy Yp; cbn [xlt xle xabs] in *; try discriminate; try contradiction; try tauto. assert (r = 0) by lra. subst r. rewrite Rabs_R0 in Vy. injection Vy. lra.
  - intros Hz. specialize (Hz o Ho). rewrite Hz in Vz'. injection Vz' as <-.
    assert (Z1 : v (o_jz o / sz)%num = XR 0). { rewrite Dz. replace (0 / z0) with 0 by (field; lra). apply R00. }
    assert (Z2 : v (snd q) = XR 0). { rewrite Ey. unfold ofZ in *. rewrite (val_abs RN), Z1. simpl. now rewrite Rabs_R0. }
    cbv zeta in C1. assert (Nr : nisnan (o_jz o / sz / snd q)%num = true) by (apply (nisnan_iff RN), (val_div0_nan RN); assumption).
    rewrite C1 in Ew. destruct (_ || _); [|congruence]. assert (w = nnan) by congruence. subst w. apply (nisnan_iff RN), (val_nnan RN).
Qed.

(** A star without angular momentum. *)
Lemma star_zero k e z w : (k < plen (g_stars g))%nat -> nth_error bodies k = Some (e, z) -> e < 0 ->
  (forall o, nth_error (star_orbits g) k = Some o -> v (o_jz o) = XR 0) ->
  nth_error (jc_eps j) k = Some w -> nfin w = true -> v w = XR 0.
Proof.
  intros Lk Hb Ne Hz Ew Fw. destruct (orbit_of k (e, z) Lk Hb) as (o & Ho & _ & _ & Bo). specialize (Bo Ne). specialize (Hz o Ho).
  pose proof (edges_in SpecCurve.edgesR edgesR_ok) as Ei. assert (Hm' : 16 * d + 512 * u53 <= m) by now rewrite <- u44.
  destruct (c24_eps _ RN argsort g _ _ j Hg Hj) as (_ & se & sz & sp & U & V). destruct (V k o Ho Bo) as (_ & _ & V3 & _).
  destruct (unit_z_same sm g SpecCurve.edgesR bodies se sz sp m d ue uz cv U Ei D0 Hm' Hn Hc) as (z0 & Vz0 & Pz0 & _).
  set (jc := interp1 _ _) in V3. clearbody jc.
  assert (W : w = (o_jz o / sz / jc)%num).
  { destruct (_ || _); [|congruence]. exfalso. assert (w = nnan) by congruence. subst w. apply (nfin_iff RN) in Fw as (r & Fw). rewrite (val_nnan RN) in Fw. discriminate Fw. }
  assert (Z1 : v (o_jz o / sz)%num = XR 0).
  { rewrite (val_div RN) by (rewrite Vz0; injection; lra). rewrite Vz0, Hz. unfold xdiv. destruct (Req_EM_T z0 0); [lra|]. replace (0 / z0) with 0 by (field; lra). apply R00. }
  rewrite W in Fw |- *. apply (nfin_iff RN) in Fw as (r & Fw).
  destruct (v jc) as [c| | |] eqn:Vc.
  - destruct (Req_EM_T c 0) as [->|Nc].
    + rewrite (val_div0_nan RN) in Fw by assumption. discriminate Fw.
    + rewrite (val_div RN) by (rewrite Vc; injection; lra). rewrite Vc, Z1. unfold xdiv. destruct (Req_EM_T c 0); [lra|]. replace (0 / c) with 0 by (field; lra). apply R00.
  - rewrite (val_div RN) by (rewrite Vc; discriminate). rewrite Vc, Z1. apply R00.
  - rewrite (val_div RN) by (rewrite Vc; discriminate). rewrite Vc, Z1. apply R00.
  - rewrite (val_div RN) in Fw by (rewrite Vc; discriminate). rewrite Vc, Z1 in Fw. cbn [xdiv] in Fw. rewrite (rnd_nan RN) in Fw. discriminate Fw.
Qed.

Lemma curve_value x : exists c, interpolates cv x c /\ 0 <= c <= 1 /\ forall c', interpolates cv x c' -> c' = c.
Proof. assert (Pm : 0 < m) by (pose proof u53_pos; rewrite u44 in Hm; lra). apply (c96_exact m SpecCurve.edgesR bodies ue uz cv x Pm edgesR_ok Hc). Qed.

Lemma t_low : 64 * u53 <= t.
Proof.
  pose proof u53_pos. assert (Pm : 0 < m) by (rewrite u44 in Hm; lra). pose proof (edges_in SpecCurve.edgesR edgesR_ok) as Ei.
  rewrite u47.
  apply Rmult_le_reg_r with a; [lra|]. replace ((12 * d + 64 * u53) / a * a) with (12 * d + 64 * u53) by (field; lra). nra.
Qed.

Lemma alike_off (w : F64s sm) rw x : v w = XR rw -> (rw = x /\ (x = 1 \/ x = -1 \/ x = 0)) \/ (forall k, (-50 <= k <= 50)%Z ->
    t < Rabs (rw - IZR k / 50) /\ same_side (IZR k / 50) rw (IZR k / 50) x) ->
  alike (edges64 sm 100 2) SplitThms.edgesR 100 w (XR x).
Proof.
  intros Vw H. apply (alike_trans _ SplitThms.edgesR _ _ _ (XR rw : RX)).
  - rewrite <- Vw. apply alike_eps. intros k Hk Mk E. rewrite Vw in E. pose proof t_low as TL. pose proof u53_pos as PU.
    destruct (round_le2 sm (IZR k / 50)) as (q & Eq & Aq).
    { apply Rabs_le. pose proof (IZR_le _ _ (proj1 Hk)). pose proof (IZR_le _ _ (proj2 Hk)). lra. }
    rewrite Eq in E. injection E as <-.
    assert (B1 : Rabs (IZR k / 50) <= 1). { apply Rabs_le. pose proof (IZR_le _ _ (proj1 Hk)). pose proof (IZR_le _ _ (proj2 Hk)). lra. }
    assert (Tn : 0 < tiny <= 1) by (pose proof tiny_pos; lra).
    destruct H as [(-> & H)|H].
    + assert (N50 : IZR k / 50 <> x).
      { intros Q. apply Mk. destruct H as [H|[H|H]]; rewrite H in Q; [assert (k = 50%Z) by (apply eq_IZR; lra)|assert (k = (-50)%Z) by (apply eq_IZR; lra)|assert (k = 0%Z) by (apply eq_IZR; lra)]; subst k; reflexivity. }
      assert (F : 1 / 50 <= Rabs (x - IZR k / 50)).
      { destruct H as [H|[H|H]]; rewrite H in *.
        - assert (k < 50)%Z by (assert (k <> 50)%Z by (intros ->; lra); lia). apply Rabs_ge. right. assert (k <= 49)%Z by lia. apply IZR_le in H1. lra.
        - assert (-50 < k)%Z by (assert (k <> -50)%Z by (intros ->; lra); lia). apply Rabs_ge. left. assert (-49 <= k)%Z by lia. apply IZR_le in H1. lra.
        - assert (k <> 0)%Z by (intros ->; lra). apply Rabs_ge. assert (k <= -1 \/ 1 <= k)%Z as [K|K] by lia; apply IZR_le in K; lra. }
      assert (u53 * (Rabs (IZR k / 50) + tiny) <= 2 * u53) by nra. assert (u53 <= 1 / 1000). { change (IZR (2 ^ 53)) with 9007199254740992. lra. } lra.
    + destruct (H k Hk) as (F & _). assert (u53 * (Rabs (IZR k / 50) + tiny) <= 2 * u53) by nra. lra.
  - apply alikeR. intros i Hi. exists (IZR (Z.of_nat i - 50) / 50). split; [now apply SplitThms.edgesR_nth|].
    destruct H as [(-> & _)|H]; [|apply H; lia].
    destruct (Rtotal_order (IZR (Z.of_nat i - 50) / 50) x) as [Q|[Q|Q]]; unfold same_side; lra.
Qed.

Lemma energy_edge i : (0 <= i < 20)%Z -> In (IZR i / 20 - 1) SpecCurve.edgesR.
Proof.
  intros Hi. unfold SpecCurve.edgesR. apply in_or_app. destruct (Z_lt_dec i 18) as [L|L].
  - left. apply in_map_iff. exists (Z.to_nat i). split; [|apply in_seq; lia]. rewrite INR_IZR_INZ, Z2Nat.id by lia. lra.
  - right. apply in_map_iff. assert (i = 18 \/ i = 19)%Z as [-> | ->] by lia; [exists 0%nat|exists 10%nat]; (split; [|apply in_seq; lia]); rewrite INR_IZR_INZ; cbn [Z.of_nat Pos.of_succ_nat Pos.succ]; lra.
Qed.

Lemma alike_re (en : F64s sm) re x : -1 <= x <= - m -> v en = XR re -> (x = -1 /\ re = -1) \/ (Rabs (re - x) < m / 2 /\ forall a, In a SpecCurve.edgesR -> m <= Rabs (x - a)) ->
  alike (linspace nm1 n0 20) (linspace (N:=RX) nm1 n0 20) 20 en (XR x).
Proof.
  intros Bx Ve H. pose proof u53_pos as PU. assert (Pm : 512 * u53 <= m) by (rewrite u44 in Hm; lra).
  assert (Uh : u53 <= 1 / 1000) by (change (IZR (2 ^ 53)) with 9007199254740992; lra).
  apply (alike_trans _ (linspace (N:=RX) nm1 n0 20) _ _ _ (XR re : RX)).
  - rewrite <- Ve. apply alike_energy. intros r i Er Hi. rewrite Ve in Er. injection Er as <-. rewrite u52.
    destruct H as [(-> & ->)|(N & H)].
    + apply Rlt_le_trans with (1 / 20); [lra|]. apply Rabs_ge. left. assert (1 <= i)%Z by lia. apply IZR_le in H. lra.
    + specialize (H (IZR i / 20 - 1) (energy_edge i ltac:(lia))). pose proof (Rabs_triang (re - (IZR i / 20 - 1)) (x - re)) as T.
      replace (re - (IZR i / 20 - 1) + (x - re)) with (x - (IZR i / 20 - 1)) in T by ring. rewrite (Rabs_minus_sym x re) in T. lra.
  - apply alikeR. intros i Hi. change (@nm1 RX) with (XR (IZR (-1))). change (@n0 RX) with (XR 0). rewrite linspaceR by lia. change (Z.of_nat 20) with 20%Z.
    eexists. split; [reflexivity|]. replace (IZR (Z.of_nat i) * ((0 - IZR (-1)) / 20) + IZR (-1)) with (IZR (Z.of_nat i) / 20 - 1) by field.
    destruct H as [(-> & ->)|(N & H)].
    + destruct (Rtotal_order (IZR (Z.of_nat i) / 20 - 1) (-1)) as [Q|[Q|Q]]; unfold same_side; lra.
    + unfold same_side. apply Rabs_def2 in N. destruct (Nat.eq_dec i 20) as [->|Ni].
      * change (Z.of_nat 20) with 20%Z. lra.
      * specialize (H (IZR (Z.of_nat i) / 20 - 1) (energy_edge (Z.of_nat i) ltac:(lia))). unfold Rabs in H. destruct (Rcase_abs _); lra.
Qed.

(** What is computed of a settled star is what exact arithmetic gives, compared with the edges. *)
Lemma star_settled k b (central : Prop) : (k < plen (g_stars g))%nat -> nth_error bodies k = Some b ->
  (central -> forall o, nth_error (star_orbits g) k = Some o -> v (o_jz o) = XR 0) ->
  settled t cv ue uz central b ->
  exists en w, nth_error (jc_E j) k = Some en /\ nth_error (jc_eps j) k = Some w /\
    (kept cv ue uz b -> nfin en = true /\ nfin w = true /\ exists x, circularity cv ue uz b x /\
       alike (edges64 sm 100 2) SplitThms.edgesR 100 w (XR x) /\ alike (linspace nm1 n0 20) (linspace (N:=RX) nm1 n0 20) 20 en (XR (fst b / ue))) /\
    (~ kept cv ue uz b -> nfin w = false).
Proof.
  destruct b as [e z]. intros Lk Hb Hcen S. pose proof u53_pos as PU. pose proof t_low as TL. assert (Pm : 512 * u53 <= m) by (rewrite u44 in Hm; lra).
  destruct (star_near k e z Lk Hb) as (c & en & w & Ic & Bc & En & Ew & N1 & N2 & N3). exists en, w. split; [exact En|]. split; [exact Ew|].
  assert (Uc : forall c', interpolates cv (e / ue) c' -> c' = c).
  { intros c' Ic'. destruct (curve_value (e / ue)) as (c0 & _ & _ & Q). rewrite (Q c' Ic'), (Q c Ic). reflexivity. }
  assert (NF : nisnan w = true -> nfin w = false).
  { intros Q. apply (nisnan_iff RN) in Q. destruct (nfin w) eqn:F; [|reflexivity]. apply (nfin_iff RN) in F as (r & F). rewrite Q in F. discriminate F. }
  pose proof (nth_error_In _ _ Hb) as Ib. destruct (ec_ue _ _ _ _ _ _ Hc) as (Pue & Mue). specialize (Mue _ Ib). pose proof (ec_zero _ _ _ _ _ _ Hc _ Ib) as Ez. cbn [fst] in Mue, Ez.
  destruct (ec_uz _ _ _ _ _ _ Hc) as (Puz & _).
  assert (0 < m * ue) as Pmu by (apply Rmult_lt_0_compat; lra).
  destruct (Rlt_dec e 0) as [Ne|Ne].
  2:{ split; [intros (Q & _); cbn [fst] in Q; lra|]. intros _. apply NF, N1. unfold Rabs in Ez. destruct (Rcase_abs e); lra. }
  assert (Be : -1 <= e / ue <= - m).
  { rewrite Rabs_left in Ez by exact Ne. split; apply Rmult_le_reg_r with ue; try exact Pue; replace (e / ue * ue) with e by (field; lra); lra. }
  assert (Kp : kept cv ue uz (e, z) <-> 0 < c /\ Rabs (z / uz) <= c).
  { unfold kept. cbn [fst snd]. split.
    - intros (_ & c' & I' & P & L). rewrite (Uc c' I') in *. auto.
    - intros (P & L). split; [exact Ne|]. exists c. auto. }
  assert (Fin : forall rw x, v w = XR rw -> circularity cv ue uz (e, z) x ->
     (rw = x /\ (x = 1 \/ x = -1 \/ x = 0)) \/ (forall k, (-50 <= k <= 50)%Z -> t < Rabs (rw - IZR k / 50) /\ same_side (IZR k / 50) rw (IZR k / 50) x) ->
     nfin en = true /\ nfin w = true /\ exists x, circularity cv ue uz (e, z) x /\
       alike (edges64 sm 100 2) SplitThms.edgesR 100 w (XR x) /\ alike (linspace nm1 n0 20) (linspace (N:=RX) nm1 n0 20) 20 en (XR (fst (e, z) / ue))).
  { intros rw x Vw Cx H. assert (Fw : nfin w = true) by (apply (nfin_iff RN); eauto).
    assert (Nw : nisnan w = false) by (apply (nisnan_false RN); rewrite Vw; discriminate).
    destruct (star_energy k e z en w Lk Hb Ne En Ew Nw) as (re & Ve & He). split; [apply (nfin_iff RN); eauto|]. split; [exact Fw|].
    exists x. split; [exact Cx|]. split; [exact (alike_off w rw x Vw H)|]. exact (alike_re en re (e / ue) Be Ve He). }
  destruct (S Ne) as [Cl|[(Nd & Tn)|(Cn & Zz & Q)]]; cbn [fst snd] in *.
  - split.
    + intros K. apply Kp in K as (Pc & Lc).
      assert (L2 : Rabs (z / uz) < c - t).
      { pose proof (Cl c 50%Z Ic ltac:(lia)) as C1. pose proof (Cl c (-50)%Z Ic ltac:(lia)) as C2. replace (IZR 50 / 50 * c) with c in C1 by field. replace (IZR (-50) / 50 * c) with (- c) in C2 by field.
        apply Rabs_le_inv in Lc. rewrite Rabs_left1 in C1 by lra. rewrite Rabs_pos_eq in C2 by lra. apply Rabs_def1; lra. }
      destruct (N3 Ne L2) as (re & rw & _ & Vw & Aw & _). apply (Fin rw (z / uz / c) Vw). { exists c. auto. }
      right. intros i Hi. specialize (Cl c i Ic Hi). set (fr := IZR i / 50) in *. clearbody fr. set (y := z / uz) in *. clearbody y.
      assert (D1 : t < Rabs (rw * c - fr * c)).
      { pose proof (Rabs_triang (rw * c - fr * c) (y - rw * c)) as T. replace (rw * c - fr * c + (y - rw * c)) with (y - fr * c) in T by ring. rewrite (Rabs_minus_sym y (rw * c)) in T. lra. }
      split.
      * replace (rw * c - fr * c) with ((rw - fr) * c) in D1 by ring. rewrite Rabs_mult, (Rabs_pos_eq c) in D1 by lra. pose proof (Rabs_pos (rw - fr)). nra.
      * unfold same_side. assert (Ex : y = y / c * c) by (field; lra). set (q := y / c) in *. clearbody q. rewrite Ex in Cl, Aw.
        apply Rabs_le_inv in Aw. set (tt := t) in *. clearbody tt. unfold Rabs in Cl. destruct (Rcase_abs (q * c - fr * c)); [right; left|left]; split; apply Rmult_lt_reg_r with c; lra.
    + intros K. apply NF. apply N2; [exact Ne|]. pose proof (Cl c 50%Z Ic ltac:(lia)) as C1. pose proof (Cl c (-50)%Z Ic ltac:(lia)) as C2. pose proof (Cl c 0%Z Ic ltac:(lia)) as C0.
      replace (IZR 50 / 50 * c) with c in C1 by field. replace (IZR (-50) / 50 * c) with (- c) in C2 by field. replace (IZR 0 / 50 * c) with 0 in C0 by field. rewrite Rminus_0_r in C0.
      destruct (Rlt_dec 0 c) as [Pc|Pc]; [|assert (c = 0) by lra; subst c; lra].
      assert (Lc : c < Rabs (z / uz)). { destruct (Rle_lt_dec (Rabs (z / uz)) c) as [L|L]; [exfalso; apply K, Kp; auto|exact L]. }
      unfold Rabs in Lc |- *. destruct (Rcase_abs (z / uz)); [rewrite Rabs_left in C2 by lra|rewrite Rabs_pos_eq in C1 by lra]; lra.
  - destruct (star_node k e z Lk Hb Ne Nd) as (w' & Ew' & Vw & _). assert (w' = w) by congruence. subst w'. specialize (Vw Tn).
    destruct (curve_shape m SpecCurve.edgesR bodies ue uz cv ltac:(lra) edgesR_ok Hc) as (Sc & _ & _).
    assert (Ec : Rabs z / uz = c) by (apply Uc, node_value; [exact Sc|lra|exact Nd]).
    assert (Az : Rabs (z / uz) = c) by (unfold Rdiv; rewrite Rabs_mult, Rabs_inv, (Rabs_pos_eq uz) by lra; exact Ec).
    assert (Pc : 0 < c) by lra.
    split; [|intros K; exfalso; apply K, Kp; lra].
    intros _. apply (Fin _ (if Rlt_dec 0 z then 1 else -1) Vw).
    + exists c. split; [exact Ic|]. split; [exact Pc|]. cbn [snd]. rewrite <- Ec. assert (z <> 0) by (intros ->; rewrite Rabs_R0 in Ec; unfold Rdiv in Ec; lra).
      destruct (Rlt_dec 0 z); [rewrite Rabs_pos_eq by lra|rewrite Rabs_left1 by lra]; field; lra.
    + left. split; [reflexivity|]. destruct (Rlt_dec 0 z); auto.
  - subst z. specialize (Hcen Cn). destruct Q as [Nd|Q].
    + assert (Nd' : In (e / ue, Rabs 0 / uz) cv) by (rewrite Rabs_R0; replace (0 / uz) with 0 by (field; lra); exact Nd).
      destruct (star_node k e 0 Lk Hb Ne Nd') as (w' & Ew' & _ & Nw). assert (w' = w) by congruence. subst w'. specialize (Nw Hcen).
      destruct (curve_shape m SpecCurve.edgesR bodies ue uz cv ltac:(lra) edgesR_ok Hc) as (Sc & _ & _).
      assert (Ec : 0 = c) by (apply Uc, node_value; [exact Sc|lra|exact Nd]).
      split; [intros K; apply Kp in K; lra|]. intros _. now apply NF.
    + specialize (Q c Ic). destruct (N3 Ne) as (re & rw & _ & Vw & _). { replace (0 / uz) with 0 by (field; lra). rewrite Rabs_R0. lra. }
      assert (V0 : v w = XR 0) by (apply (star_zero k e 0 w Lk Hb Ne Hcen Ew), (nfin_iff RN); eauto).
      split; [|intros K; exfalso; apply K, Kp; replace (0 / uz) with 0 by (field; lra); rewrite Rabs_R0; lra].
      intros _. apply (Fin 0 0 V0); [|left; auto]. exists c. split; [exact Ic|]. split; [lra|]. cbn [snd]. field. lra.
Qed.

Variable central : nat -> Prop.
Hypothesis Hcen : forall k o, central k -> nth_error (star_orbits g) k = Some o -> v (o_jz o) = XR 0.
Hypothesis Hset : forall k b, (k < plen (g_stars g))%nat -> nth_error bodies k = Some b -> settled t cv ue uz (central k) b.
Variables (used : list nat) (rows : list (R * R)).
Hypothesis Hex : exact_stars (plen (g_stars g)) bodies ue uz cv used rows.

Lemma body_of k : (k < plen (g_stars g))%nat -> exists b, nth_error bodies k = Some b.
Proof.
  intros Lk. pose proof (proj1 (constructible_ok g) Hg) as Hok. apply nth_error_lt.
  assert (length (star_orbits g) = plen (g_stars g)) as L by (apply orbits_cols; apply Hok). rewrite <- (Forall2_length _ _ _ Hn).
  unfold all_orbits, sets. cbn [flat_map]. rewrite app_length. change (orbits (g_stars g)) with (star_orbits g). lia.
Qed.

Lemma used_ok k : In k used <-> (k < plen (g_stars g))%nat /\ (exists en, nth_error (jc_E j) k = Some en /\ nfin en = true) /\ (exists w, nth_error (jc_eps j) k = Some w /\ nfin w = true).
Proof.
  rewrite (es_used _ _ _ _ _ _ _ Hex). split.
  - intros (Lk & b & Hb & K). split; [exact Lk|]. destruct (star_settled k b (central k) Lk Hb (fun c o => Hcen k o c) (Hset k b Lk Hb)) as (en & w & En & Ew & K1 & _).
    destruct (K1 K) as (F1 & F2 & _). split; [exists en; auto|exists w; auto].
  - intros (Lk & _ & (w & Ew & Fw)). split; [exact Lk|]. destruct (body_of k Lk) as (b & Hb). exists b. split; [exact Hb|].
    destruct (star_settled k b (central k) Lk Hb (fun c o => Hcen k o c) (Hset k b Lk Hb)) as (en' & w' & En & Ew' & _ & K2).
    destruct (Classical_Prop.classic (kept cv ue uz b)) as [K|K]; [exact K|]. exfalso. specialize (K2 K). congruence.
Qed.

Lemma circ_one b x x' : circularity cv ue uz b x -> circularity cv ue uz b x' -> x = x'.
Proof.
  intros (c & I & _ & ->) (c' & I' & _ & ->). destruct (curve_value (fst b / ue)) as (c0 & _ & _ & Q). now rewrite (Q c I), (Q c' I').
Qed.
Lemma used_alike : Forall2 (fun k row => alike (edges64 sm 100 2) SplitThms.edgesR 100 (nth k (jc_eps j) nnan) (XR (snd row) : RX) /\
    alike (linspace nm1 n0 20) (linspace (N:=RX) nm1 n0 20) 20 (nth k (jc_E j) nnan) (XR (fst row) : RX)) used rows.
Proof.
  pose proof (es_rows _ _ _ _ _ _ _ Hex) as F. assert (U : forall k, In k used -> In k used) by auto. revert F U. generalize rows. generalize used at 1 2 4. intros us rs F.
  induction F as [|k row us rs H F IH]; intros U; constructor; [|apply IH; intros; apply U; now right]. clear IH.
  assert (Ik : In k used) by (apply U; now left). apply (es_used _ _ _ _ _ _ _ Hex) in Ik as (Lk & b & Hb & K).
  destruct H as (b' & Hb' & E1 & C). assert (b' = b) by congruence. subst b'.
  destruct (star_settled k b (central k) Lk Hb (fun c o => Hcen k o c) (Hset k b Lk Hb)) as (en & w & En & Ew & K1 & _). destruct (K1 K) as (_ & _ & x & Cx & A1 & A2).
  rewrite (nth_error_nth _ _ _ En), (nth_error_nth _ _ _ Ew), E1, (circ_one b _ _ C Cx). auto.
Qed.

Lemma hist_near St (choice : St -> list nat -> nat -> list nat * St) junk cb st :
  carries (glen g) used (outcome (d_split (jhistogram (N:=RX) choice junk cb 100 2) st (map (fun r => [CNum (N:=RX) (XR (snd r))]) rows) [] []))
    (decompose argsort (jhistogram choice junk (default_bin0, default_bin1) 100 2) st g).
Proof.
  assert (Col : forall j', matrix_col 0 (map (feature_row (N:=F64s sm) j' ["eps"%string]) used) = map (fun k => nth k (jc_eps j') nnan) used) by (intros; unfold matrix_col; rewrite map_map; reflexivity).
  eapply (carries_intro RN argsort St _ st g j); [exact Hg|exact eps_attrs|reflexivity|exact Hj|exact (es_sorted _ _ _ _ _ _ _ Hex)| | |].
  - intros k. rewrite used_ok. cbn [d_attributes jhistogram]. split.
    + intros (Lk & _ & W). split; [exact Lk|]. intros at0 [<-|[]]. exact W.
    + intros (Lk & W). pose proof (W "eps"%string (or_introl eq_refl)) as W1. split; [exact Lk|]. split; [|exact W1].
      destruct W1 as (w & Ew & Fw). change (circ_col j "eps") with (jc_eps j) in Ew. destruct (body_of k Lk) as (b & Hb).
      destruct (star_settled k b (central k) Lk Hb (fun c o => Hcen k o c) (Hset k b Lk Hb)) as (en' & w' & En & Ew' & K1 & K2). assert (w' = w) by congruence. subst w'.
      destruct (Classical_Prop.classic (kept cv ue uz b)) as [K|K]; [destruct (K1 K) as (F & _); eauto|]. rewrite (K2 K) in Fw. discriminate Fw.
  - intros ys. cbn [d_split jhistogram d_attributes]. rewrite Col.
    assert (ColR : matrix_col 0 (map (fun r => [CNum (N:=RX) (XR (snd r))]) rows) = map (fun r => XR (snd r) : RX) rows) by (unfold matrix_col; rewrite map_map; reflexivity). rewrite ColR.
    rewrite (split_same (pick_any choice) (pick_any choice) junk 100 2 st (map (fun k => nth k (jc_eps j) nnan) used) (map (fun r => XR (snd r) : RX) rows) (edges64 sm 100 2) SplitThms.edgesR 50 ltac:(lia) ltac:(reflexivity) (first_zero_64 sm _) (first_zero_R _)).
    + destruct (hist_split _ _ _ _ _ _); reflexivity.
    + rewrite edgesR_length. unfold edges64, linspace. rewrite map_length, app_length, map_length, seq_length. reflexivity.
    + apply forall2_map2. eapply forall2_weak; [|exact used_alike]. intros k r (A & _). exact A.
  - intros ys labels pr st'. cbn [d_split jhistogram d_attributes]. rewrite Col. destruct (hist_split _ _ _ _ _ _) as [[l s]|] eqn:E; [|discriminate]. cbn [bind fst snd].
    intros H. assert (l = labels) by congruence. subst l. split; [|congruence]. apply hist_length in E. now rewrite E, map_length.
Qed.

Lemma ehist_near St (choice : St -> list nat -> nat -> list nat * St) junk cb st :
  carries (glen g) used (outcome (d_split (jehistogram (N:=RX) choice junk cb 100 2 20) st (map (fun r => [CNum (N:=RX) (XR (fst r)); CNum (N:=RX) (XR (snd r))]) rows) [] []))
    (decompose argsort (jehistogram choice junk (default_bin0, default_bin1) 100 2 20) st g).
Proof.
  set (A := ["normalized_star_energy"; "eps"]%string).
  assert (Col0 : forall j', matrix_col 0 (map (feature_row (N:=F64s sm) j' A) used) = map (fun k => nth k (jc_E j') nnan) used) by (intros; unfold matrix_col; rewrite map_map; reflexivity).
  assert (Col1 : forall j', matrix_col 1 (map (feature_row (N:=F64s sm) j' A) used) = map (fun k => nth k (jc_eps j') nnan) used) by (intros; unfold matrix_col; rewrite map_map; reflexivity).
  eapply (carries_intro RN argsort St _ st g j); [exact Hg|exact energy_attrs|reflexivity|exact Hj|exact (es_sorted _ _ _ _ _ _ _ Hex)| | |].
  - intros k. rewrite used_ok. cbn [d_attributes jehistogram]. split.
    + intros (Lk & V & W). split; [exact Lk|]. intros at0 [<-|[<-|[]]]; [exact V|exact W].
    + intros (Lk & W). split; [exact Lk|]. split; [exact (W "normalized_star_energy"%string (or_introl eq_refl))|exact (W "eps"%string (or_intror (or_introl eq_refl)))].
  - intros ys. cbn [d_split jehistogram d_attributes]. fold A. rewrite Col0, Col1.
    assert (ColR : matrix_col 0 (map (fun r => [CNum (N:=RX) (XR (fst r)); CNum (N:=RX) (XR (snd r))]) rows) = map (fun r => XR (fst r) : RX) rows) by (unfold matrix_col; rewrite map_map; reflexivity). rewrite ColR. clear ColR.
    assert (ColR : matrix_col 1 (map (fun r => [CNum (N:=RX) (XR (fst r)); CNum (N:=RX) (XR (snd r))]) rows) = map (fun r => XR (snd r) : RX) rows) by (unfold matrix_col; rewrite map_map; reflexivity). rewrite ColR.
    rewrite (split_same (pick_energy choice (map (fun k => nth k (jc_E j) nnan) used) 20) (pick_energy choice (map (fun r => XR (fst r) : RX) rows) 20) junk 100 2 st (map (fun k => nth k (jc_eps j) nnan) used) (map (fun r => XR (snd r) : RX) rows) (edges64 sm 100 2) SplitThms.edgesR 50 ltac:(lia)); [| |apply first_zero_64|apply first_zero_R| |].
    + destruct (hist_split _ _ _ _ _ _); reflexivity.
    + intros s cnt cor. apply pick_same. apply forall2_map2. eapply forall2_weak; [|exact used_alike]. intros k r (_ & B). exact B.
    + rewrite edgesR_length. unfold edges64, linspace. rewrite map_length, app_length, map_length, seq_length. reflexivity.
    + apply forall2_map2. eapply forall2_weak; [|exact used_alike]. intros k r (B & _). exact B.
  - intros ys labels pr st'. cbn [d_split jehistogram d_attributes]. fold A. rewrite Col0, Col1. destruct (hist_split _ _ _ _ _ _) as [[l s]|] eqn:E; [|discriminate]. cbn [bind fst snd].
    intros H. assert (l = labels) by congruence. subst l. split; [|congruence]. apply hist_length in E. now rewrite E, map_length.
Qed.
End Star.
