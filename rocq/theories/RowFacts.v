(** Facts for the matrix given to the mixture models in a whole analysis (C104). *)
From Coq Require Import Sorted.
From Verif Require Import Py Num RX F64 Np Df Data DataFacts DfFacts CenterFacts Ex Spec SpecR SpecCirc DataThms Circ CircFacts CircThms Base BaseFacts BaseThms EpsFacts SpecBase SpecMix MixStar SpecAlAcc AlAccFacts EpsAccFacts EpsAccThms EpsCutThms PolyFacts SpecCurve CurveAccFacts CurveAccThms OrderThms NodeThms SpecWhist WhistFacts SpecRows.
From Flocq Require Import Core.
From Coq Require Import Lra Lia.
Local Open Scope R_scope.

Section Row.
Context (sm : list f64 -> f64).
Local Notation RN := (F64_rounded sm).
Local Notation v := (val (F64_rounded sm)).
Variables (argsort : nat -> list (F64s sm) -> list nat) (g : galaxy (F64s sm)) (j : jcirc_t (F64s sm)).
Variables (bodies : list (R * R)) (planes : list R) (m a d ue uz up : R) (cv : list (R * R)).
Hypothesis Hg : constructible g.
Hypothesis Hs : sorting argsort.
Hypothesis Hj : jcirc argsort g default_bin0 default_bin1 = Ok j.
Hypothesis D0 : 0 <= d.
Hypothesis Hm : 16 * d + / IZR (2 ^ 44) <= m.
Hypothesis Hn : Forall2 (near_orbit RN d ue uz) (all_orbits g) bodies.
Hypothesis Hc : exact_curve m SpecCurve.edgesR bodies ue uz cv.
Hypothesis Pa : 0 < a <= 1.
Hypothesis Ga : gentle a cv.
Hypothesis Lp : length planes = length bodies.
Hypothesis Hp : Forall2 (near_plane RN d up) (all_orbits g) (combine bodies planes).
Hypothesis Hu : plane_unit (combine bodies planes) up.
Local Notation t := ((12 * d + / IZR (2 ^ 47)) / a).

Lemma d_small : 0 <= d <= / 16.
Proof.
  pose proof u53_pos. pose proof (edges_in SpecCurve.edgesR edgesR_ok) as Ei. rewrite u44 in Hm.
  pose proof (m_le1 sm g SpecCurve.edgesR bodies m d ue uz cv Ei Hn Hc). lra.
Qed.

Lemma orbit_bound o b : In (o, b) (combine (all_orbits g) bodies) -> bound o = negative b.
Proof.
  intros I. assert (Hm' : 16 * d + 512 * u53 <= m) by now rewrite <- u44. pose proof (edges_in SpecCurve.edgesR edgesR_ok) as Ei.
  change (bound (fst (o, b)) = negative (snd (o, b))). eapply bound_same; eauto.
Qed.

(** The body of an orbit. *)
Lemma body_at o : In o (all_orbits g) -> exists b p, In (b, p) (combine bodies planes) /\ near_orbit RN d ue uz o b /\ near_plane RN d up o (b, p) /\ bound o = negative b.
Proof.
  intros I. destruct (In_nth_error _ _ I) as (i & Hi). destruct (Forall2_nth_l _ _ _ Hp i o Hi) as ((b & p) & Hb & Np).
  destruct (Forall2_nth_l _ _ _ Hn i o Hi) as (b' & Hb' & Nb).
  assert (b' = b).
  { assert (E : map fst (combine bodies planes) = bodies) by (apply map_fst_combine; symmetry; exact Lp). rewrite <- E, nth_error_map, Hb in Hb'. cbn in Hb'. congruence. }
  subst b'. exists b, p. split; [eapply nth_error_In; eauto|]. split; [exact Nb|]. split; [exact Np|]. apply orbit_bound. apply (combine_nth_in _ _ i); assumption.
Qed.
Lemma orbit_at b p : In (b, p) (combine bodies planes) -> fst b < 0 -> exists o, In o (filter bound (all_orbits g)) /\ near_plane RN d up o (b, p).
Proof.
  intros I Ne. destruct (In_nth_error _ _ I) as (i & Hi). destruct (Forall2_nth_r _ _ _ Hp i _ Hi) as (o & Ho & Np).
  exists o. split; [|exact Np]. apply filter_In. split; [eapply nth_error_In; eauto|].
  assert (Hb : nth_error bodies i = Some b).
  { assert (E : map fst (combine bodies planes) = bodies) by (apply map_fst_combine; symmetry; exact Lp). rewrite <- E, nth_error_map, Hi. reflexivity. }
  rewrite (orbit_bound o b) by (apply (combine_nth_in _ _ i); assumption). unfold negative. now apply Rlt_bool_true.
Qed.
Lemma bound_fin o : In o (all_orbits g) -> bound o = true -> nfin (o_jz o) = true /\ nfin (o_jp o) = true.
Proof.
  intros I B. destruct (body_at o I) as (b & p & _ & (_ & _ & _ & Z) & P & E). rewrite B in E. unfold negative in E.
  destruct (Rlt_bool_spec (fst b) 0) as [C|]; [|discriminate E]. destruct (Z C) as (z & Vz & _). destruct (P C) as (q & Vq & _). split; apply (nfin_iff RN); eauto.
Qed.

(** The unit of the projected angular momentum. *)
Lemma unit_p_same se sz sp : units g se sz sp -> exists u0, v sp = XR u0 /\ 0 < u0 /\ Rabs (u0 - up) <= d * up.
Proof.
  intros U. destruct Hu as (Pu & (b & Ib & Nb & Eb) & Mx). pose proof d_small as Ds.
  destruct (unit_p _ _ _ _ U) as [[op [Io Eo]] M]. pose proof Io as Io'. apply filter_In in Io as [Io Bo].
  destruct (body_at op Io) as (b' & p' & I' & _ & P' & E'). rewrite Bo in E'. unfold negative in E'. destruct (Rlt_bool_spec (fst b') 0) as [C|]; [|discriminate E'].
  destruct (P' C) as (q & Vq & Aq). cbn [snd] in Aq. specialize (Mx _ I' C). cbn [snd] in Mx.
  assert (Vu : v sp = XR (Rabs q)) by (rewrite <- Eo, (val_abs RN), Vq; reflexivity).
  destruct b as [b0 p0]. cbn [fst snd] in Nb, Eb. subst p0. destruct (orbit_at b0 up Ib Nb) as (o1 & I1 & P1). destruct (P1 Nb) as (q1 & V1 & A1). cbn [snd] in A1.
  destruct M as [Q|Q]; [apply (nisnan_iff RN) in Q; congruence|]. specialize (Q o1 I1). apply (nle_iff RN) in Q. rewrite (val_abs RN), V1, Vu in Q. cbn [xabs xle] in Q.
  assert (Q1 : up - d * up <= Rabs q1). { apply Rabs_le_inv in A1. apply Rle_trans with q1; [lra|apply RRle_abs]. }
  assert (Q2 : Rabs q <= up + d * up). { apply Rabs_le_inv in Aq. assert (0 <= d * up) by (apply Rmult_le_pos; lra). apply Rabs_le. lra. }
  exists (Rabs q). split; [exact Vu|]. assert (d * up <= up / 16) by nra. split; [lra|apply Rabs_le; lra].
Qed.

(** What is computed of a star with a circularity, where the curve is not near zero. *)
Lemma row_of k e z p c en w rw : (k < plen (g_stars g))%nat -> nth_error bodies k = Some (e, z) -> nth_error planes k = Some p -> e < 0 ->
  nth_error (jc_E j) k = Some en -> nth_error (jc_eps j) k = Some w -> v w = XR rw ->
  interpolates cv (e / ue) c -> 2 * t <= c -> / IZR (2 ^ 30) <= c ->
  exists x re rr, nth_error (jc_eps_r j) k = Some x /\ v en = XR re /\ v x = XR rr /\ Rabs (re - e / ue) <= 3 * d + / IZR (2 ^ 52) /\
    Rabs (rr * c - p / up) <= t * (1 + Rabs rr).
Proof.
  intros Lk Hb Hpl Ne En Ew Vw Ic Tc Bc.
  destruct (orbit_of sm g bodies m d ue uz cv Hg Hm Hn Hc k (e, z) Lk Hb) as (o & Ho & Nb & Io & Bo). specialize (Bo Ne).
  pose proof u53_pos as PU. pose proof (edges_in SpecCurve.edgesR edgesR_ok) as Ei. assert (Hm' : 16 * d + 512 * u53 <= m) by now rewrite <- u44.
  assert (Pm : 0 < m) by lra. pose proof d_small as Ds.
  assert (Nw : nisnan w = false) by (apply (nisnan_false RN); rewrite Vw; discriminate).
  destruct (star_energy sm argsort g j bodies m d ue uz cv Hg Hj D0 Hm Hn Hc k e z en w Lk Hb Ne En Ew Nw) as (re & Ve & _).
  destruct (default_ranges sm) as (l0 & l1 & A0 & A1 & F & M & T).
  destruct (core sm argsort g _ _ l0 l1 j k en w re rw Hg Hs A0 A1 F M T Hj (fun o I B => proj1 (bound_fin o I B)) En Ew Ve Vw)
    as (sc & o' & pts & ue' & uz' & r & jc & U & Ho' & Bo' & Jz & Jr & Ee & Ew' & Vue & Pue & Vuz & Puz & Px & Py & Wr & Vr & Ij & Aj & Bj).
  assert (o' = o) by congruence. subst o'.
  destruct (c96_default sm argsort g j bodies m d ue uz cv Hg Hs Hj D0 Hm Hn Hc) as (pts' & Px' & Py' & Fc).
  assert (pts' = pts) by (apply pts_unique; congruence). subst pts'.
  assert (IB : In (o, (e, z)) (filter (fun l => negative (snd l)) (combine (all_orbits g) bodies))).
  { apply filter_In. split; [exact Io|]. unfold negative. cbn [fst snd]. now apply Rlt_bool_true. }
  destruct (norm_same sm g SpecCurve.edgesR bodies _ _ _ m d ue uz cv U Ei D0 Hm' Hn Hc _ IB) as (x & y & Vx & _ & Ax & _).
  cbn [fst snd scaled] in Vx, Ax. change (v (o_e o / s_e sc)%num = XR x) in Vx. rewrite <- Ee, Ve in Vx. injection Vx as <-.
  destruct (curve_shape m SpecCurve.edgesR bodies ue uz cv Pm edgesR_ok Hc) as (Sc & _ & _).
  rewrite u52 in Fc |- *.
  pose proof (polygon_close m a (3 * d + 2 * u53) pts cv re (e / ue) jc c ltac:(lra) ltac:(lra) Pa Fc Sc Ga Ax Ij Ic) as Cc.
  rewrite u47 in Tc |- *. set (tt := (12 * d + 64 * u53) / a) in *. set (q := 3 * (3 * d + 2 * u53) / a) in *.
  assert (TT : q + 3 * d + 32 * u53 <= tt).
  { unfold tt, q. apply Rmult_le_reg_r with a; [lra|].
    replace ((3 * (3 * d + 2 * u53) / a + 3 * d + 32 * u53) * a) with (3 * (3 * d + 2 * u53) + (3 * d + 32 * u53) * a) by (field; lra).
    replace ((12 * d + 64 * u53) / a * a) with (12 * d + 64 * u53) by (field; lra). nra. }
  clearbody tt q.
  destruct (unit_p_same _ _ _ U) as (u0 & Vu0 & Pu0 & Au0).
  assert (Hpp : nth_error (combine bodies planes) k = Some ((e, z), p)).
  { clear - Hb Hpl. revert k planes Hb Hpl. induction bodies as [|b bs IH]; intros [|k] [|pp ps] H1 H2; try discriminate; cbn in *; [congruence|]. now apply IH. }
  assert (Ha : nth_error (all_orbits g) k = Some o).
  { unfold all_orbits, sets. cbn [flat_map]. rewrite nth_error_app1; [exact Ho|]. apply nth_error_Some. change (nth_error (star_orbits g) k <> None). congruence. }
  destruct (Forall2_nth_l _ _ _ Hp k o Ha) as (b' & Hb' & Np). assert (b' = ((e, z), p)) by congruence. subst b'.
  destruct (Np Ne) as (jp & Vjp & Ajp). cbn [snd] in Ajp.
  destruct Hu as (Pup & _ & Mup). pose proof (Mup _ (nth_error_In _ _ Hpp) Ne) as Bp. cbn [snd] in Bp.
  pose proof (ratio_acc jp u0 p up d Pup Ds Ajp Au0 ltac:(apply Rabs_le; lra)) as Rp.
  (* the quotients *)
  assert (Iall : In o (filter bound (all_orbits g))) by (apply filter_In; split; [eapply nth_error_In; eauto|exact Bo]).
  assert (Ob : Rabs jp <= u0).
  { destruct (unit_p _ _ _ _ U) as [[op [Iop Eop]] [Q|Q]]; [apply (nisnan_iff RN) in Q; congruence|]. specialize (Q o Iall).
    apply (nle_iff RN) in Q. rewrite (val_abs RN), Vjp, Vu0 in Q. exact Q. }
  assert (Rnd : exists q0, v (o_jp o / s_p sc)%num = XR q0 /\ Rabs q0 <= 1).
  { assert (D : Rabs (jp / u0) <= 1).
    { unfold Rdiv. rewrite Rabs_mult, Rabs_inv, (Rabs_pos_eq u0) by lra. apply Rmult_le_reg_r with u0; [exact Pu0|].
      rewrite Rmult_assoc, Rinv_l by lra. lra. }
    destruct (F64_graceful sm (jp / u0)) as (q0 & Q & _); [apply huge_2; lra|]. exists q0.
    split.
    { rewrite (val_div RN); rewrite Vu0; [|intros [= Z]; lra]. rewrite Vjp, <- Q. f_equal. simpl.
      destruct (Req_EM_T u0 0); [lra|reflexivity]. }
    apply Rabs_le_inv in D. apply Rabs_le.
    pose proof (rnd_mono RN (XR (IZR (-1))) (XR (jp / u0))) as M1.
    pose proof (rnd_mono RN (XR (jp / u0)) (XR (IZR 1))) as M2.
    rewrite Q, (rnd_int RN) in M1, M2 by (vm_compute; discriminate).
    split; [apply M1|apply M2]; simpl; lra. }
  destruct Rnd as (q0 & Vq & Bq).
  destruct (unit_acc sm (o_jp o) (s_p sc) jp u0 q0 Vjp Vu0 Vq Bq) as [_ Dp]. rewrite u52 in Dp.
  assert (Cc' := Cc). apply Rabs_le_inv in Cc'. assert (Aj' := Aj). apply Rabs_le_inv in Aj'.
  assert (Rl : c / 2 <= r) by lra. assert (Pc : 0 < / IZR (2 ^ 30)) by (apply Rinv_0_lt_compat, IZR_lt; reflexivity).
  assert (Dq : Rabs (q0 / r) <= IZR (2 ^ 31)).
  { unfold Rdiv. rewrite Rabs_mult, Rabs_inv, (Rabs_pos_eq r) by lra. apply Rmult_le_reg_r with r; [lra|]. rewrite Rmult_assoc, Rinv_l by lra.
    apply Rle_trans with 1; [lra|]. apply Rle_trans with (IZR (2 ^ 31) * (/ IZR (2 ^ 30) / 2)).
    - change (2 ^ 31)%Z with (2 * 2 ^ 30)%Z. rewrite mult_IZR. right. field. apply IZR_neq. discriminate.
    - apply Rmult_le_compat_l; [apply IZR_le; discriminate|lra]. }
  destruct (F64_graceful sm (q0 / r)) as (rr & Qr & Ar).
  { eapply Rle_trans; [exact Dq|]. change (IZR (2 ^ 31)) with (bpow radix2 31). apply bpow_le. lia. }
  set (xx := (o_jp o / s_p sc / interp1 (s_pts sc) en)%num) in *.
  assert (Vxx : v xx = XR rr).
  { unfold xx. rewrite (val_div RN); rewrite Vr; [|intros [= Z]; lra]. rewrite Vq, <- Qr. f_equal. simpl. destruct (Req_EM_T r 0); [lra|reflexivity]. }
  assert (Br : Rabs rr <= IZR (2 ^ 40)).
  { assert (Tn : tiny <= 1) by (unfold tiny; apply Rle_trans with (bpow radix2 0); [apply bpow_le; lia|simpl; lra]).
    replace rr with ((rr - q0 / r) + q0 / r) by ring. eapply Rle_trans; [apply Rabs_triang|].
    assert (U1 : u53 <= 1). { apply Rle_trans with (/ 1); [apply Rinv_le_contravar; [lra|apply (IZR_le 1); discriminate]|lra]. }
    pose proof (Rabs_pos (q0 / r)). apply Rle_trans with (2 * IZR (2 ^ 31) + 1); [nra|].
    rewrite <- mult_IZR, <- plus_IZR. apply IZR_le. vm_compute. discriminate. }
  exists xx, re, rr. split; [exact Jr|]. split; [exact Ve|]. split; [exact Vxx|]. split; [exact Ax|].
  assert (Br2 : Rabs r <= 2) by (apply Rabs_le; split; lra).
  destruct (quot_acc sm (o_jp o / s_p sc)%num (interp1 (s_pts sc) en) q0 r rr Vq Vr Vxx Br Bq Br2) as [_ Q].
  replace (rr * c - p / up) with ((rr * r - q0) + rr * (c - r) + (q0 - jp / u0) + (jp / u0 - p / up)) by ring.
  assert (Cr : Rabs (c - r) <= q + 9 * u53) by (apply Rabs_le; lra).
  assert (Q3 : Rabs (rr * (c - r)) <= Rabs rr * (q + 9 * u53)) by (rewrite Rabs_mult; apply Rmult_le_compat_l; [apply Rabs_pos|exact Cr]).
  pose proof (Rabs_pos rr). pose proof (Rabs_pos (c - r)).
  assert (Q4 : Rabs rr * (q + 9 * u53) <= Rabs rr * tt) by (apply Rmult_le_compat_l; [apply Rabs_pos|lra]).
  pose proof (Rabs_triang (rr * r - q0 + rr * (c - r) + (q0 - jp / u0)) (jp / u0 - p / up)).
  pose proof (Rabs_triang (rr * r - q0 + rr * (c - r)) (q0 - jp / u0)).
  pose proof (Rabs_triang (rr * r - q0) (rr * (c - r))). lra.
Qed.

Variable central : nat -> Prop.
Hypothesis Hcen : forall k o, central k -> nth_error (star_orbits g) k = Some o -> v (o_jz o) = XR 0.
Hypothesis Hoff : forall k b, (k < plen (g_stars g))%nat -> nth_error bodies k = Some b -> off_curve t cv ue uz (central k) b.
Hypothesis Hhigh : forall k b, (k < plen (g_stars g))%nat -> nth_error bodies k = Some b -> high_curve t cv ue uz b.

(** A star has a circularity when exact arithmetic gives it one. *)
Lemma star_kept k b : (k < plen (g_stars g))%nat -> nth_error bodies k = Some b ->
  exists en w c, nth_error (jc_E j) k = Some en /\ nth_error (jc_eps j) k = Some w /\ interpolates cv (fst b / ue) c /\
    (kept cv ue uz b -> 0 < c /\ exists rw, v w = XR rw /\ Rabs (rw * c - snd b / uz) <= t) /\
    (~ kept cv ue uz b -> nfin w = false).
Proof.
  destruct b as [e z]. intros Lk Hb. pose proof u53_pos as PU. pose proof (t_low m a d D0 Hm Pa) as TL.
  assert (Pm : 512 * u53 <= m) by (rewrite u44 in Hm; lra).
  destruct (star_near sm argsort g j bodies m a d ue uz cv Hg Hs Hj D0 Hm Hn Hc Pa Ga k e z Lk Hb) as (c & en & w & Ic & Bc & En & Ew & N1 & N2 & N3).
  exists en, w, c. split; [exact En|]. split; [exact Ew|]. split; [exact Ic|].
  assert (Uc : forall c', interpolates cv (e / ue) c' -> c' = c).
  { intros c' Ic'. destruct (curve_value bodies m d ue uz cv D0 Hm Hc (e / ue)) as (c0 & _ & _ & Q). rewrite (Q c' Ic'), (Q c Ic). reflexivity. }
  assert (NF : nisnan w = true -> nfin w = false).
  { intros Q. apply (nisnan_iff RN) in Q. destruct (nfin w) eqn:F; [|reflexivity]. apply (nfin_iff RN) in F as (r & F). rewrite Q in F. discriminate F. }
  pose proof (nth_error_In _ _ Hb) as Ib. destruct (ec_ue _ _ _ _ _ _ Hc) as (Pue & _). pose proof (ec_zero _ _ _ _ _ _ Hc _ Ib) as Ez. cbn [fst] in Ez.
  destruct (ec_uz _ _ _ _ _ _ Hc) as (Puz & _).
  assert (0 < m * ue) as Pmu by (apply Rmult_lt_0_compat; lra).
  destruct (Rlt_dec e 0) as [Ne|Ne].
  2:{ split; [intros (Q & _); cbn [fst] in Q; lra|]. intros _. apply NF, N1. unfold Rabs in Ez. destruct (Rcase_abs e); lra. }
  assert (Kp : kept cv ue uz (e, z) <-> 0 < c /\ Rabs (z / uz) <= c).
  { unfold kept. cbn [fst snd]. split.
    - intros (_ & c' & I' & P & L). rewrite (Uc c' I') in *. auto.
    - intros (P & L). split; [exact Ne|]. exists c. auto. }
  destruct (Hoff k (e, z) Lk Hb Ne) as [Cl|[(Nd & Tn)|(Cn & Zz & Q)]]; cbn [fst snd] in *.
  - specialize (Cl c Ic). split.
    + intros K. apply Kp in K as (Pc & Lc). split; [exact Pc|].
      assert (L2 : Rabs (z / uz) < c - t). { rewrite (Rabs_left1 (Rabs (z / uz) - c)) in Cl by lra. lra. }
      destruct (N3 Ne L2) as (re & rw & _ & Vw & Aw & _). eauto.
    + intros K. apply NF, N2; [exact Ne|]. unfold Rabs in Cl at 1. destruct (Rcase_abs _) as [L|L]; [|lra].
      exfalso. apply K, Kp. pose proof (Rabs_pos (z / uz)). lra.
  - destruct (star_node sm argsort g j bodies m a d ue uz cv Hg Hs Hj D0 Hm Hn Hc Pa k e z Lk Hb Ne Nd) as (w' & Ew' & Vw & _). assert (w' = w) by congruence. subst w'. specialize (Vw Tn).
    destruct (curve_shape m SpecCurve.edgesR bodies ue uz cv ltac:(lra) edgesR_ok Hc) as (Sc & _ & _).
    assert (Ec : Rabs z / uz = c) by (apply Uc; eapply (node_value m d D0 Hm); [exact Sc|lra|exact Nd]).
    assert (Az : Rabs (z / uz) = c) by (unfold Rdiv; rewrite Rabs_mult, Rabs_inv, (Rabs_pos_eq uz) by lra; exact Ec).
    assert (Pc : 0 < c) by lra.
    split; [|intros K; exfalso; apply K, Kp; lra].
    intros _. split; [exact Pc|]. eexists. split; [exact Vw|].
    assert (E0 : (if Rlt_dec 0 z then 1 else -1) * c - z / uz = 0).
    { rewrite <- Ec. destruct (Rlt_dec 0 z); [rewrite Rabs_pos_eq by lra|rewrite Rabs_left1 by lra]; field; lra. }
    rewrite E0, Rabs_R0. lra.
  - subst z. assert (Hcen' : forall o, nth_error (star_orbits g) k = Some o -> v (o_jz o) = XR 0) by (intros o; now apply Hcen). destruct Q as [Nd|Q].
    + assert (Nd' : In (e / ue, Rabs 0 / uz) cv) by (rewrite Rabs_R0; replace (0 / uz) with 0 by (field; lra); exact Nd).
      destruct (star_node sm argsort g j bodies m a d ue uz cv Hg Hs Hj D0 Hm Hn Hc Pa k e 0 Lk Hb Ne Nd') as (w' & Ew' & _ & Nw). assert (w' = w) by congruence. subst w'. specialize (Nw Hcen').
      destruct (curve_shape m SpecCurve.edgesR bodies ue uz cv ltac:(lra) edgesR_ok Hc) as (Sc & _ & _).
      assert (Ec : 0 = c) by (apply Uc; eapply (node_value m d D0 Hm); [exact Sc|lra|exact Nd]).
      split; [intros K; apply Kp in K; lra|]. intros _. now apply NF.
    + specialize (Q c Ic). destruct (N3 Ne) as (re & rw & _ & Vw & Aw & _). { replace (0 / uz) with 0 by (field; lra). rewrite Rabs_R0. lra. }
      split; [|intros K; exfalso; apply K, Kp; replace (0 / uz) with 0 by (field; lra); rewrite Rabs_R0; lra].
      intros _. split; [lra|]. eauto.
Qed.

Lemma row_good k b p : (k < plen (g_stars g))%nat -> nth_error bodies k = Some b -> nth_error planes k = Some p -> kept cv ue uz b ->
  (forall s, In s ["normalized_star_energy"; "eps"; "eps_r"]%string -> exists x, nth_error (circ_col j s) k = Some x /\ nfin x = true) /\
  row_near RN d t cv ue uz up (b, p) (feature_row j ["normalized_star_energy"; "eps"; "eps_r"]%string k).
Proof.
  intros Lk Hb Hpl K. destruct (star_kept k b Lk Hb) as (en & w & c & En & Ew & Ic & H & _). destruct (H K) as (Pc & rw & Vw & Aw).
  destruct (Hhigh k b Lk Hb K c Ic) as (Tc & Lc). destruct b as [e z]. pose proof (proj1 K) as Ne. cbn [fst snd] in *.
  destruct (row_of k e z p c en w rw Lk Hb Hpl Ne En Ew Vw Ic Tc Lc) as (x & re & rr & Ex & Ve & Vx & Ae & Ar).
  split.
  - intros s [<-|[<-|[<-|[]]]]; cbn; [exists en|exists w|exists x]; (split; [assumption|apply (nfin_iff RN); eauto]).
  - exists en, w, x, re, rw, rr, c. cbn [fst snd].
    split. { unfold feature_row. cbn. now rewrite (nth_error_nth _ _ _ En), (nth_error_nth _ _ _ Ew), (nth_error_nth _ _ _ Ex). }
    repeat (split; [assumption|]).
    assert (T0 : 0 <= t). { pose proof u53_pos. rewrite u47. apply Rmult_le_pos; [lra|apply Rlt_le, Rinv_0_lt_compat; lra]. }
    set (tt := t) in *. clearbody tt. assert (Dv : forall s y, Rabs (s * c - y) <= tt -> Rabs (s - y / c) <= tt / c).
    { intros s y H1. replace (s - y / c) with ((s * c - y) / c) by (field; lra). unfold Rdiv. rewrite Rabs_mult, Rabs_inv, (Rabs_pos_eq c) by lra.
      apply Rmult_le_compat_r; [apply Rlt_le, Rinv_0_lt_compat; lra|exact H1]. }
    split; [apply Dv; exact Aw|].
    destruct Hu as (Pup & _ & Mup).
    assert (Hpp : nth_error (combine bodies planes) k = Some ((e, z), p)).
    { clear - Hb Hpl. revert k planes Hb Hpl. induction bodies as [|b bs IH]; intros [|k] [|pp ps] H1 H2; try discriminate; cbn in *; [congruence|]. now apply IH. }
    pose proof (Mup _ (nth_error_In _ _ Hpp) Ne) as Bp. cbn [snd] in Bp.
    set (y := p / up) in *. assert (Y0 : 0 <= y) by (apply Rmult_le_pos; [lra|apply Rlt_le, Rinv_0_lt_compat; lra]). clearbody y.
    set (X := y / c). set (T := tt / c). assert (EX : y = X * c) by (unfold X; field; lra). assert (ET : tt = T * c) by (unfold T; field; lra).
    clearbody X T. subst y tt. assert (X0 : 0 <= X) by nra. assert (T1 : 0 <= T <= / 2) by (split; nra).
    assert (A2 : Rabs (rr - X) <= T * (1 + Rabs rr)).
    { replace (rr * c - X * c) with ((rr - X) * c) in Ar by ring. rewrite Rabs_mult, (Rabs_pos_eq c) in Ar by lra. nra. }
    assert (A3 : Rabs rr <= 2 * X + 1).
    { pose proof (Rabs_triang (rr - X) X) as Q. replace (rr - X + X) with rr in Q by ring. rewrite (Rabs_pos_eq X) in Q by lra. pose proof (Rabs_pos rr). nra. }
    nra.
Qed.

Variable used : list nat.
Hypothesis Hex : kept_stars (plen (g_stars g)) bodies ue uz cv used.

Lemma rows_used k : In k used <-> (k < plen (g_stars g))%nat /\ forall s, In s ["normalized_star_energy"; "eps"; "eps_r"]%string -> exists x, nth_error (circ_col j s) k = Some x /\ nfin x = true.
Proof.
  rewrite (proj2 Hex). split.
  - intros (Lk & b & Hb & K). split; [exact Lk|]. destruct (nth_error_lt planes k) as (p & Hpl). { rewrite Lp. apply nth_error_Some. congruence. }
    apply (row_good k b p Lk Hb Hpl K).
  - intros (Lk & H). split; [exact Lk|]. assert (exists b, nth_error bodies k = Some b) as (b & Hb).
    { pose proof (proj1 (constructible_ok g) Hg) as Hok. apply nth_error_lt. assert (length (star_orbits g) = plen (g_stars g)) as L by (apply orbits_cols; apply Hok).
      rewrite <- (Forall2_length _ _ _ Hn). unfold all_orbits, sets. cbn [flat_map]. rewrite app_length. change (orbits (g_stars g)) with (star_orbits g). lia. } exists b. split; [exact Hb|].
    destruct (star_kept k b Lk Hb) as (en & w & c & _ & Ew & _ & _ & K2).
    destruct (Classical_Prop.classic (kept cv ue uz b)) as [K|K]; [exact K|]. exfalso. specialize (K2 K).
    destruct (H "eps"%string) as (x & Ex & Fx); [right; now left|]. change (nth_error (jc_eps j) k = Some x) in Ex. rewrite Ew in Ex. injection Ex as <-. rewrite K2 in Fx. discriminate Fx.
Qed.
End Row.
