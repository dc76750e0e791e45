(** The floating-point curve and the exact one: the same particles are chosen. *)
From Verif Require Import Py Num RX F64 Np Data DataFacts Center CenterFacts Spec SpecR SpecCirc SpecAlAcc SpecCurve Circ CircFacts CurveFacts CircThms AlAccFacts CtrAccThms EpsAccFacts EpsAccThms EpsCutThms PolyFacts ChoiceFacts.
From Flocq Require Import Core.
From Coq Require Import Lra Lia Sorted.
Local Open Scope R_scope.

Lemma map_fst_combine {A B} (l : list A) (l' : list B) : length l = length l' -> map fst (combine l l') = l.
Proof. revert l'. induction l as [|a l IH]; intros [|b l'] H; simpl in *; try discriminate; [reflexivity|]. f_equal. auto. Qed.
Lemma map_snd_combine {A B} (l : list A) (l' : list B) : length l = length l' -> map snd (combine l l') = l'.
Proof. revert l'. induction l as [|a l IH]; intros [|b l'] H; simpl in *; try discriminate; [reflexivity|]. f_equal. auto. Qed.
Lemma filter_map_comm {A B} (h : A -> B) (f : B -> bool) l : filter f (map h l) = map h (filter (fun a => f (h a)) l).
Proof. induction l as [|a l IH]; simpl; [reflexivity|]. destruct (f (h a)); simpl; now rewrite IH. Qed.
Lemma Forall2_combine {A B} (R : A -> B -> Prop) l l' : Forall2 R l l' -> forall p, In p (combine l l') -> R (fst p) (snd p).
Proof. induction 1; simpl; intros p H'; [tauto|]. destruct H' as [<-|H']; auto. Qed.
Lemma Forall2_nth_l {A B} (R : A -> B -> Prop) l l' : Forall2 R l l' -> forall i a, nth_error l i = Some a -> exists b, nth_error l' i = Some b /\ R a b.
Proof.
  induction 1 as [|a b l l' H F IH]; intros [|i] c Hc; try discriminate; simpl in Hc |- *.
  - injection Hc as <-. eauto.
  - auto.
Qed.

Lemma u50 : / IZR (2 ^ 50) = 8 * u53.
Proof. change (2 ^ 53)%Z with (8 * 2 ^ 50)%Z. rewrite mult_IZR. field. apply IZR_neq. discriminate. Qed.
Lemma u44 : / IZR (2 ^ 44) = 512 * u53.
Proof. change (2 ^ 53)%Z with (512 * 2 ^ 44)%Z. rewrite mult_IZR. field. apply IZR_neq. discriminate. Qed.
Lemma u47 : / IZR (2 ^ 47) = 64 * u53.
Proof. change (2 ^ 53)%Z with (64 * 2 ^ 47)%Z. rewrite mult_IZR. field. apply IZR_neq. discriminate. Qed.

Section Basic.
Context (sm : list f64 -> f64).
Local Notation RN := (F64_rounded sm).
Local Notation v := (val (F64_rounded sm)).

Lemma round_le2 x : Rabs x <= 2 -> exists w, rnd RN (XR x) = XR w /\ Rabs (w - x) <= u53 * (Rabs x + tiny).
Proof. intros H. apply F64_graceful. now apply huge_2. Qed.

(** A quotient of approximate numbers. *)
Lemma norm_acc (a b : F64s sm) ra rb A B d : v a = XR ra -> v b = XR rb -> 0 < B -> 0 <= d <= / 16 ->
  Rabs (ra - A) <= d * B -> Rabs (rb - B) <= d * B -> Rabs A <= B -> Rabs ra <= rb ->
  exists w, v (a / b)%num = XR w /\ Rabs (w - A / B) <= 3 * d + 2 * u53 /\ -1 <= w <= 1.
Proof.
  intros Va Vb PB D Ea Eb HA Hr. apply Rabs_le_inv in Eb.
  assert (Pb : 0 < rb) by nra.
  assert (Q : v (a / b)%num = rnd RN (XR (ra / rb))).
  { rewrite (val_div RN); rewrite Vb; [|intros [= E]; lra]. rewrite Va. simpl. destruct (Req_EM_T rb 0); [lra|reflexivity]. }
  assert (W1 : Rabs (ra / rb) <= 1).
  { unfold Rdiv. rewrite Rabs_mult, Rabs_inv, (Rabs_pos_eq rb) by lra. apply Rmult_le_reg_r with rb; [lra|]. rewrite Rmult_assoc, Rinv_l by lra. lra. }
  destruct (round_le2 (ra / rb) ltac:(lra)) as (w & Ew & Aw). rewrite Ew in Q. exists w. split; [exact Q|].
  pose proof u53_pos. pose proof tiny_pos. split.
  - assert (T : Rabs (ra / rb - A / B) <= 3 * d).
    { replace (ra / rb - A / B) with (((ra - A) - A / B * (rb - B)) * / rb) by (field; lra).
      assert (AB : Rabs (A / B) <= 1).
      { unfold Rdiv. rewrite Rabs_mult, Rabs_inv, (Rabs_pos_eq B) by lra. apply Rmult_le_reg_r with B; [lra|]. rewrite Rmult_assoc, Rinv_l by lra. lra. }
      rewrite Rabs_mult, Rabs_inv, (Rabs_pos_eq rb) by lra. apply Rmult_le_reg_r with rb; [lra|]. rewrite Rmult_assoc, Rinv_l by lra. rewrite Rmult_1_r.
      pose proof (Rabs_triang (ra - A) (- (A / B * (rb - B)))) as T1. rewrite Rabs_Ropp, (Rabs_mult (A / B)) in T1.
      assert (Rabs (rb - B) <= d * B) by (apply Rabs_le; lra). pose proof (Rabs_pos (A / B)). pose proof (Rabs_pos (rb - B)). unfold Rminus at 1. nra. }
    replace (w - A / B) with ((w - ra / rb) + (ra / rb - A / B)) by ring. eapply Rle_trans; [apply Rabs_triang|]. nra.
  - apply Rabs_le_inv in W1. split.
    + pose proof (rnd_mono RN (XR (IZR (-1))) (XR (ra / rb))) as M. rewrite Ew, (rnd_int RN) in M by (vm_compute; discriminate). apply M. simpl. lra.
    + pose proof (rnd_mono RN (XR (ra / rb)) (XR (IZR 1))) as M. rewrite Ew, (rnd_int RN) in M by (vm_compute; discriminate). apply M. simpl. lra.
Qed.

Lemma v_hundredth : exists h, v (nlit 1 100) = XR h /\ Rabs (h - 1 / 100) <= 2 * u53.
Proof.
  assert (I1 : rnd RN (XR (IZR 1)) = XR (IZR 1)) by (apply (rnd_int RN); vm_compute; discriminate).
  assert (I2 : rnd RN (XR (IZR 100)) = XR (IZR 100)) by (apply (rnd_int RN); vm_compute; discriminate).
  destruct (round_le2 (1 / 100)) as (h & E & A); [rewrite Rabs_pos_eq; lra|]. exists h. split.
  - unfold nlit. rewrite (val_div RN); rewrite !(val_ofZ RN), I2; [|intros [= Q]; lra]. rewrite I1, <- E. f_equal. simpl.
    destruct (Req_EM_T 100 0); [lra|reflexivity].
  - rewrite (Rabs_pos_eq (1 / 100)) in A by lra. pose proof u53_pos. pose proof tiny_pos. nra.
Qed.

(** The comparison of the two largest values of a bin. *)
Lemma ratio_test (s t : F64s sm) rs rt : v s = XR rs -> v t = XR rt -> 0 <= rs <= rt -> rt <= 1 -> 0 < rt ->
  if nle (nlit 1 100) (n1 - s / t)%num then rs <= 99 / 100 * rt + 8 * u53 else 99 / 100 * rt - 8 * u53 <= rs.
Proof.
  intros Vs Vt B B1 P.
  assert (Q : v (s / t)%num = rnd RN (XR (rs / rt))).
  { rewrite (val_div RN); rewrite Vt; [|intros [= E]; lra]. rewrite Vs. simpl. destruct (Req_EM_T rt 0); [lra|reflexivity]. }
  assert (W1 : 0 <= rs / rt <= 1).
  { split; [apply inv_nonneg; lra|]. apply Rmult_le_reg_r with rt; [lra|]. unfold Rdiv. rewrite Rmult_assoc, Rinv_l by lra. lra. }
  assert (Rq : rs / rt * rt = rs) by (field; lra).
  pose proof u53_pos. pose proof tiny_pos.
  destruct (round_le2 (rs / rt)) as (q & Eq & Aq); [rewrite Rabs_pos_eq; lra|]. rewrite Eq in Q. rewrite (Rabs_pos_eq (rs / rt)) in Aq by lra.
  assert (Aq' : Rabs (q - rs / rt) <= 2 * u53) by nra. apply Rabs_le_inv in Aq'.
  assert (R1 : Rabs (1 - q) <= 11 / 10) by (apply Rabs_le; lra).
  destruct (round_le2 (1 - q)) as (r & Er & Ar); [lra|].
  assert (Vr : v (n1 - s / t)%num = XR r).
  { rewrite (val_sub RN), (v_n1 RN), Q, <- Er. reflexivity. }
  assert (Ar' : Rabs (r - (1 - q)) <= 2 * u53) by nra. apply Rabs_le_inv in Ar'.
  destruct v_hundredth as (h & Vh & Ah). apply Rabs_le_inv in Ah.
  destruct (nle (nlit 1 100) (n1 - s / t)%num) eqn:T.
  - apply (nle_iff RN) in T. rewrite Vh, Vr in T. simpl in T. set (qq := rs / rt) in *. assert (qq <= 99 / 100 + 8 * u53) by lra. nra.
  - apply (nle_false RN) in T. rewrite Vh, Vr in T. simpl in T. set (qq := rs / rt) in *. assert (99 / 100 - 8 * u53 <= qq) by lra. nra.
Qed.
End Basic.

Section Core.
Context (sm : list f64 -> f64).
Local Notation RN := (F64_rounded sm).
Local Notation v := (val (F64_rounded sm)).

Definition rv (x : F64s sm) : R := match v x with XR r => r | _ => 0 end.

Context (g : galaxy (F64s sm)) (edges : list (F64s sm)) (es : list R) (bodies : list (R * R)).
Context (se sz sp : F64s sm) (m d ue uz : R) (cv : list (R * R)).
Hypothesis Hu : units g se sz sp.
Hypothesis Hedges : Forall2 (near_edge RN) edges es.
Hypothesis Hes : In (-1) es /\ forall e, In e es -> -1 <= e.
Hypothesis Hd : 0 <= d.
Hypothesis Hm : 16 * d + 512 * u53 <= m.
Hypothesis Hnear : Forall2 (near_orbit RN d ue uz) (all_orbits g) bodies.
Hypothesis Hcv : exact_curve m es bodies ue uz cv.

Local Notation T := (orbit (F64s sm) * (R * R))%type.
Let L : list T := combine (all_orbits g) bodies.
Let B : list T := filter (fun l => negative (snd l)) L.
Let sc (l : T) : R * R := scaled ue uz (snd l).
Let fE (o : orbit (F64s sm)) := ofE se o.
Let fZ (o : orbit (F64s sm)) := ofZ sz o.
Let D := 3 * d + 2 * u53.

Local Lemma lens : length (all_orbits g) = length bodies.
Proof. exact (Forall2_length _ _ _ Hnear). Qed.
Local Lemma L_fst : map fst L = all_orbits g. Proof. apply map_fst_combine, lens. Qed.
Local Lemma L_snd : map snd L = bodies. Proof. apply map_snd_combine, lens. Qed.
Local Lemma L_near l : In l L -> near_orbit RN d ue uz (fst l) (snd l).
Proof. apply Forall2_combine, Hnear. Qed.
Local Lemma P_ue : 0 < ue. Proof. apply (ec_ue _ _ _ _ _ _ Hcv). Qed.
Local Lemma P_uz : 0 < uz. Proof. apply (ec_uz _ _ _ _ _ _ Hcv). Qed.
Local Lemma in_bodies l : In l L -> In (snd l) bodies.
Proof. intros I. rewrite <- L_snd. now apply in_map. Qed.

(** The bound particles are the same. *)
Lemma bound_same l : In l L -> bound (fst l) = negative (snd l).
Proof.
  intros I. destruct (L_near l I) as (e & Ve & Ae & _). pose proof (ec_zero _ _ _ _ _ _ Hcv _ (in_bodies l I)) as Z.
  pose proof P_ue. pose proof u53_pos. apply Rabs_le_inv in Ae. unfold bound, negative.
  assert (Ni : neqb (o_e (fst l)) nninf = false).
  { apply not_true_is_false. intros Q. apply (neqb_iff RN) in Q. rewrite Ve, (val_nninf RN) in Q. now destruct Q. }
  rewrite Ni, andb_true_r. destruct (Rlt_bool_spec (fst (snd l)) 0) as [C|C].
  - rewrite (Rabs_left _ C) in Z. apply (nle_iff RN). rewrite Ve, (val_n0 RN). simpl. nra.
  - rewrite (Rabs_pos_eq _ C) in Z. apply (nle_false RN). rewrite Ve, (val_n0 RN). simpl. nra.
Qed.
Lemma B_fst : map fst B = filter bound (all_orbits g).
Proof.
  rewrite <- L_fst, filter_map_comm. f_equal. unfold B. apply filter_ext_in. intros l I. symmetry. now apply bound_same.
Qed.
Lemma B_snd : map snd B = filter negative bodies.
Proof. rewrite <- L_snd, filter_map_comm. reflexivity. Qed.
Local Lemma B_in l : In l B -> In l L /\ fst (snd l) < 0.
Proof. intros I. apply filter_In in I as [I1 I2]. split; [exact I1|]. unfold negative in I2. destruct (Rlt_bool_spec (fst (snd l)) 0); [assumption|discriminate]. Qed.

(** The most bound particle and the others. *)
Lemma split_least : exists l0 LR, Permutation B (l0 :: LR) /\ fst (snd l0) = - ue /\
  (forall l, In l LR -> In l B /\ (m - 1) * ue <= fst (snd l) /\ forall e, In e es -> m <= Rabs (fst (sc l) - e)) /\
  exists pts pt, length pts = length es /\ (forall i o, nth_error pts i = Some o -> point m es (map sc B) i o) /\
    nth_error pts (length es - 1) = Some (Some pt) /\ cv = (-1, snd (sc l0)) :: somes pts.
Proof.
  destruct (ec_pts _ _ _ _ _ _ Hcv) as (p0 & rest & pts & pt & P & E0 & F & Ln & Pt & Lt & Ec).
  rewrite <- B_snd, map_map in P, Pt. apply perm_map1 in P as (l0 & LR & P & <- & <-). exists l0, LR. split; [exact P|].
  pose proof P_ue. assert (Q0 : fst (snd l0) / ue = -1) by exact E0.
  split. { replace (fst (snd l0)) with (fst (snd l0) / ue * ue) by (field; lra). rewrite Q0. ring. }
  split.
  - intros l I. assert (I' : In l B) by (eapply Permutation_in; [symmetry; exact P|now right]). split; [exact I'|].
    assert (F' : forall e, In e es -> m <= Rabs (fst (sc l) - e)) by (intros e Ie; apply F; [exact (in_map sc _ _ I)|exact Ie]).
    split; [|exact F']. specialize (F' (-1) (proj1 Hes)).
    destruct (ec_ue _ _ _ _ _ _ Hcv) as [_ M]. specialize (M _ (in_bodies l (proj1 (B_in l I')))).
    change (fst (sc l)) with (fst (snd l) / ue) in F'.
    assert (X : fst (snd l) = fst (snd l) / ue * ue) by (field; lra). set (x := fst (snd l) / ue) in *.
    assert (-1 <= x) by nra. rewrite Rabs_pos_eq in F' by lra. rewrite X. nra.
  - exists pts, pt. auto.
Qed.

(** Margins. *)
Lemma m_le1 : m <= 1.
Proof.
  destruct split_least as (l0 & LR & P & E0 & _). assert (I : In l0 B) by (eapply Permutation_in; [symmetry; exact P|now left]).
  pose proof (ec_zero _ _ _ _ _ _ Hcv _ (in_bodies l0 (proj1 (B_in l0 I)))) as Z. pose proof P_ue. rewrite E0, Rabs_Ropp, Rabs_pos_eq in Z by lra. nra.
Qed.
Lemma margins : 0 <= d <= / 16 /\ 0 < m <= 1 /\ 0 < D /\ 2 * D + 16 * u53 < m.
Proof. pose proof m_le1. pose proof u53_pos. unfold D. lra. Qed.

(** The unit of energy is that of the same particle. *)
Lemma unit_e_same : exists l0 LR e0, Permutation B (l0 :: LR) /\ fst (snd l0) = - ue /\ v (o_e (fst l0)) = XR (- e0) /\
  v se = XR e0 /\ 0 < e0 /\ Rabs (e0 - ue) <= d * ue /\
  forall l, In l LR -> exists e, v (o_e (fst l)) = XR e /\ - e0 < e.
Proof.
  destruct split_least as (l0 & LR & P & E0 & F & _). destruct margins as (Md & Mm & _ & MD). pose proof P_ue. pose proof u53_pos.
  assert (I0 : In l0 B) by (eapply Permutation_in; [symmetry; exact P|now left]).
  destruct (L_near l0 (proj1 (B_in l0 I0))) as (e0 & V0 & A0 & _). rewrite E0 in A0. apply Rabs_le_inv in A0.
  assert (FR : forall l, In l LR -> exists e, v (o_e (fst l)) = XR e /\ e0 < e).
  { intros l I. destruct (F l I) as (IB & M & _). destruct (L_near l (proj1 (B_in l IB))) as (e & V & A & _). exists e. split; [exact V|].
    apply Rabs_le_inv in A. nra. }
  destruct (unit_e _ _ _ _ Hu) as (em & [[oem [Iem Eem]] Mem] & Ue). rewrite <- B_fst in Iem, Mem.
  assert (Vem : v em = XR e0).
  { apply in_map_iff in Iem as (l & El & Il). destruct Mem as [M|M].
    - exfalso. apply (nisnan_iff RN) in M. rewrite <- Eem, <- El in M. destruct (L_near l (proj1 (B_in l Il))) as (e & V & _). congruence.
    - apply (Permutation_in _ P) in Il as [<-|Il]; [now rewrite <- Eem, <- El|]. exfalso.
      specialize (M _ (in_map fst _ _ I0)). apply (nle_iff RN) in M. destruct (FR l Il) as (e & V & Le).
      rewrite <- Eem, <- El, V, V0 in M. simpl in M. lra. }
  exists l0, LR, (- e0). split; [exact P|]. split; [exact E0|]. rewrite Ropp_involutive. split; [exact V0|].
  assert (e0 < 0) by nra.
  split. { rewrite Ue, (val_abs RN), Vem. simpl. now rewrite Rabs_left. }
  split; [lra|]. split; [apply Rabs_le; lra|]. exact FR.
Qed.

Lemma unit_z_same : exists z0, v sz = XR z0 /\ 0 < z0 /\ Rabs (z0 - uz) <= d * uz /\
  forall l, In l B -> exists z, v (o_jz (fst l)) = XR z /\ Rabs z <= z0.
Proof.
  destruct margins as (Md & Mm & _ & MD). pose proof P_uz.
  assert (Fz : forall l, In l B -> exists z, v (o_jz (fst l)) = XR z /\ Rabs (z - snd (snd l)) <= d * uz).
  { intros l I. destruct (B_in l I) as [I1 I2]. destruct (L_near l I1) as (_ & _ & _ & Z). auto. }
  destruct (unit_z _ _ _ _ Hu) as [[oz [Iz Ez]] Mz]. rewrite <- B_fst in Iz, Mz. apply in_map_iff in Iz as (lz & Elz & Ilz).
  destruct (Fz lz Ilz) as (z & Vz & Az). exists (Rabs z).
  assert (V : v sz = XR (Rabs z)) by (rewrite <- Ez, <- Elz, (val_abs RN), Vz; reflexivity). split; [exact V|].
  assert (M : forall l, In l B -> exists z', v (o_jz (fst l)) = XR z' /\ Rabs z' <= Rabs z).
  { intros l I. destruct (Fz l I) as (z' & V' & _). exists z'. split; [exact V'|]. destruct Mz as [M|M].
    - apply (nisnan_iff RN) in M. congruence.
    - specialize (M _ (in_map fst _ _ I)). apply (nle_iff RN) in M. rewrite (val_abs RN), V', V in M. exact M. }
  destruct (ec_uz _ _ _ _ _ _ Hcv) as (_ & (b & Ib & Nb & Eb) & Mb).
  assert (A1 : Rabs z - uz <= d * uz).
  { destruct (B_in lz Ilz) as [I1 I2]. specialize (Mb _ (in_bodies lz I1) I2).
    pose proof (Rabs_triang (z - snd (snd lz)) (snd (snd lz))) as T1. replace (z - snd (snd lz) + snd (snd lz)) with z in T1 by ring. lra. }
  assert (A2 : uz - Rabs z <= d * uz).
  { assert (exists l, In l B /\ snd l = b) as (l & Il & El).
    { rewrite <- L_snd in Ib. apply in_map_iff in Ib as (l & El & Il). exists l. split; [|exact El]. apply filter_In. split; [exact Il|].
      rewrite El. unfold negative. now apply Rlt_bool_true. }
    destruct (Fz l Il) as (z' & V' & A'). destruct (M l Il) as (z'' & V'' & M''). assert (z'' = z') by congruence. subst z''. rewrite El in A'.
    pose proof (Rabs_triang (snd b - z') z') as T1. replace (snd b - z' + z') with (snd b) in T1 by ring. rewrite Rabs_minus_sym in T1. lra. }
  split; [nra|]. split; [apply Rabs_le; lra|exact M].
Qed.

(** The normalised values of a bound particle. *)
Lemma norm_same l : In l B -> exists x y, v (fE (fst l)) = XR x /\ v (nabs (fZ (fst l))) = XR y /\
  Rabs (x - fst (sc l)) <= D /\ Rabs (y - snd (sc l)) <= D /\ -1 <= x <= 1 /\ 0 <= y <= 1 /\ 0 <= snd (sc l) <= 1.
Proof.
  intros I. destruct margins as (Md & Mm & _ & MD). pose proof P_ue as Pe. pose proof P_uz as Pz. destruct (B_in l I) as [I1 I2].
  destruct unit_e_same as (l0 & LR & e0 & P & E0 & V0 & Ve & P0 & A0 & F).
  destruct unit_z_same as (z0 & Vz & Pz0 & Az & M).
  destruct (L_near l I1) as (e & V & A & Z). destruct (Z I2) as (z & Vzl & Azl). destruct (M l I) as (z' & V' & Mz). assert (z' = z) by congruence. subst z'.
  destruct (ec_ue _ _ _ _ _ _ Hcv) as [_ Me]. specialize (Me _ (in_bodies l I1)).
  destruct (ec_uz _ _ _ _ _ _ Hcv) as (_ & _ & Mb). specialize (Mb _ (in_bodies l I1) I2).
  assert (Le : Rabs e <= e0).
  { assert (e <= 0).
    { assert (Bo : bound (fst l) = true) by (rewrite bound_same by exact I1; apply filter_In in I; apply I).
      destruct (bound_val RN _ Bo) as (r & Vr & Lr). congruence. }
    rewrite Rabs_left1 by assumption. apply (Permutation_in _ P) in I as [<-|I].
    - assert (e = - e0) by congruence. lra.
    - destruct (F l I) as (e' & Ve' & Le'). assert (e' = e) by congruence. subst. lra. }
  destruct (norm_acc sm (o_e (fst l)) se e e0 (fst (snd l)) ue d V Ve Pe Md A A0) as (x & Vx & Ax & Bx); [apply Rabs_le; lra|exact Le|].
  destruct (norm_acc sm (o_jz (fst l)) sz z z0 (snd (snd l)) uz d Vzl Vz Pz Md Azl Az Mb Mz) as (y & Vy & Ay & By).
  exists x, (Rabs y). split; [exact Vx|]. split. { unfold fZ, ofZ. rewrite (val_abs RN), Vy. reflexivity. }
  split; [exact Ax|]. unfold sc, scaled. cbn [fst snd].
  assert (Q : Rabs (snd (snd l)) / uz = Rabs (snd (snd l) / uz)).
  { unfold Rdiv. rewrite Rabs_mult, Rabs_inv, (Rabs_pos_eq uz) by lra. reflexivity. }
  split. { rewrite Q. eapply Rle_trans; [apply Rabs_triang_inv2|exact Ay]. }
  split; [exact Bx|]. split; [split; [apply Rabs_pos|apply Rabs_le; lra]|].
  split; [apply inv_nonneg; [exact Pz|apply Rabs_pos]|]. apply Rmult_le_reg_r with uz; [lra|]. unfold Rdiv. rewrite Rmult_assoc, Rinv_l by lra. lra.
Qed.

(** The most bound particle is at -1, the others below 0. *)
Lemma least_at l0 LR : Permutation B (l0 :: LR) -> fst (snd l0) = - ue -> v (fE (fst l0)) = XR (-1).
Proof.
  intros P E. destruct unit_e_same as (l1 & LR' & e0 & P' & E' & V0 & Ve & P0 & _ & F).
  assert (l0 = l1).
  { assert (I : In l0 B) by (eapply Permutation_in; [symmetry; exact P|now left]). apply (Permutation_in _ P') in I as [I|I]; [auto|].
    exfalso. destruct split_least as (l2 & LR2 & P2 & E2 & F2 & _). destruct margins as (_ & Mm & _). pose proof P_ue.
    assert (J : l2 = l1).
    { assert (J : In l2 B) by (eapply Permutation_in; [symmetry; exact P2|now left]). apply (Permutation_in _ P') in J as [J|J]; [auto|]. exfalso.
      assert (J1 : In l1 B) by (eapply Permutation_in; [symmetry; exact P'|now left]). apply (Permutation_in _ P2) in J1 as [J1|J1].
      - subst l2. destruct (F l1 J) as (e & Ve' & Le). rewrite V0 in Ve'. injection Ve' as Q. lra.
      - destruct (F2 l1 J1) as (_ & M & _). nra. }
    subst l2. assert (PP : Permutation LR' LR2) by (apply Permutation_cons_inv with l1; now rewrite <- P', <- P2).
    apply (Permutation_in _ PP) in I. destruct (F2 l0 I) as (_ & M & _). nra. }
  subst l1. unfold fE, ofE. rewrite (val_div RN); rewrite Ve; [|intros [= Q]; lra]. rewrite V0. simpl.
  destruct (Req_EM_T e0 0) as [Z|_]; [lra|]. replace (- e0 / e0) with (IZR (-1)) by (field; lra). change (rnd RN (XR (IZR (-1))) = XR (IZR (-1))).
  apply (rnd_int RN). vm_compute. discriminate.
Qed.
Lemma below_zero l : In l B -> fst (sc l) <= - m.
Proof.
  intros I. destruct (B_in l I) as [I1 I2]. pose proof (ec_zero _ _ _ _ _ _ Hcv _ (in_bodies l I1)) as Z. rewrite Rabs_left in Z by exact I2.
  pose proof P_ue. unfold sc, scaled. cbn [fst]. apply Rmult_le_reg_r with ue; [assumption|]. unfold Rdiv. rewrite Rmult_assoc, Rinv_l by lra. lra.
Qed.

Local Lemma edge_at i a : nth_error edges i = Some a -> exists e r, nth_error es i = Some e /\ In e es /\ v a = XR r /\ Rabs (r - e) <= 8 * u53 /\ -1 <= r.
Proof.
  intros E. destruct (Forall2_nth_l _ _ _ Hedges i a E) as (e & Ee & r & V & A & M). rewrite u50 in A. exists e, r. split; [exact Ee|].
  split; [eapply nth_error_In; eauto|]. auto.
Qed.
Local Lemma edges_len : length edges = length es. Proof. exact (Forall2_length _ _ _ Hedges). Qed.

(** The particles are in the same bins. *)
Lemma bin_same i l : In l B -> ebin edges (S i) (fE (fst l)) = inbin es i (fst (sc l)).
Proof.
  intros I. destruct split_least as (l0 & LR & P & E0 & F & _). destruct margins as (Md & Mm & PD & MD). pose proof u53_pos.
  destruct (norm_same l I) as (x & y & Vx & _ & Ax & _).
  unfold ebin, inbin. replace (S i - 1)%nat with i by lia. destruct (nth_error edges i) as [lo|] eqn:El.
  2:{ apply nth_error_None in El. rewrite edges_len in El. apply nth_error_None in El. now rewrite El. }
  destruct (edge_at i lo El) as (e & r & -> & Ie & Vr & Ar & Mr). apply Rabs_le_inv in Ar, Ax.
  destruct (Permutation_in _ P I) as [E|I'].
  - (* the most bound one is in no bin *)
    subst l.
    pose proof (least_at l0 LR P E0) as V1. rewrite Vx in V1. injection V1 as ->.
    assert (X0 : fst (sc l0) = -1). { pose proof P_ue. unfold sc, scaled. cbn [fst]. rewrite E0. field. lra. }
    assert (nlt lo (fE (fst l0)) = false) as ->. { apply (nlt_false RN). rewrite Vr, Vx. simpl. lra. }
    rewrite X0, Rlt_bool_false by (apply Hes; exact Ie). reflexivity.
  - destruct (F l I') as (IB & _ & Far). pose proof (Far e Ie) as F1. f_equal.
    + destruct (Rlt_bool_spec e (fst (sc l))) as [C|C].
      * rewrite Rabs_pos_eq in F1 by lra. apply (nlt_iff RN). rewrite Vr, Vx. simpl. lra.
      * rewrite Rabs_left1 in F1 by lra. apply (nlt_false RN). rewrite Vr, Vx. simpl. lra.
    + destruct (nth_error edges (S i)) as [hi|] eqn:Eh.
      2:{ apply nth_error_None in Eh. rewrite edges_len in Eh. apply nth_error_None in Eh. now rewrite Eh. }
      destruct (edge_at (S i) hi Eh) as (e' & r' & -> & Ie' & Vr' & Ar' & Mr'). apply Rabs_le_inv in Ar'. pose proof (Far e' Ie') as F2.
      destruct (Rle_bool_spec (fst (sc l)) e') as [C|C].
      * rewrite Rabs_left1 in F2 by lra. apply (nle_iff RN). rewrite Vr', Vx. simpl. lra.
      * rewrite Rabs_pos_eq in F2 by lra. apply (nle_false RN). rewrite Vr', Vx. simpl. lra.
Qed.
Lemma rows_same i : filter (fun o => ebin edges (S i) (fE o)) (map fst B) = map fst (filter (fun l => inbin es i (fst (sc l))) B).
Proof. rewrite filter_map_comm. f_equal. apply filter_ext_in. intros l I. now apply bin_same. Qed.

Local Notation aZ := (fun o => nabs (fZ o)).
Local Notation FY := (fun l : T => rv (nabs (fZ (fst l)))).
Lemma FY_val l : In l B -> v (nabs (fZ (fst l))) = XR (FY l) /\ Rabs (FY l - snd (sc l)) <= D /\ 0 <= FY l <= 1 /\ 0 <= snd (sc l) <= 1.
Proof.
  intros I. destruct (norm_same l I) as (x & y & _ & Vy & _ & Ay & _ & By & Bs). unfold rv. rewrite Vy. auto.
Qed.
Lemma before_le l l' : In l B -> In l' B -> before (nabs (fZ (fst l))) (nabs (fZ (fst l'))) -> FY l <= FY l'.
Proof.
  intros I I' H. destruct (FY_val l I) as (V & _). destruct (FY_val l' I') as (V' & _). destruct H as [H|H].
  - apply (nisnan_iff RN) in H. congruence.
  - apply (nle_iff RN) in H. rewrite V, V' in H. exact H.
Qed.

(** The float choice in exact terms. *)
Lemma picked_computed rows o : (forall l, In l rows -> In l B) -> picked aZ (map fst rows) o ->
  exists l, In l rows /\ fst l = o /\ computed FY rows (8 * u53) l.
Proof.
  intros Sub Pk.
  assert (In2 : forall a r rest, Permutation rows (a :: r :: rest) -> In a rows /\ In r rows /\ forall b, In b rest -> In b rows).
  { intros a r rest H. apply Permutation_sym in H. split; [|split]; [| |intros b Hb]; (eapply Permutation_in; [exact H|simpl; auto]). }
  destruct Pk as [a E|a r rest P H1 H2 H3|a r rest P H1 H2 H3].
  - destruct rows as [|l [|l' rows]]; try discriminate E. injection E as <-. exists l. split; [now left|]. split; [reflexivity|]. now apply comp_alone.
  - apply perm_map2 in P as (la & lr & lrest & P & <- & <- & <-). destruct (In2 _ _ _ P) as (I1 & I2 & I3).
    exists la. split; [exact I1|]. split; [reflexivity|]. apply comp_first with lr lrest; [exact P|now apply before_le; auto| |].
    + intros b Hb. apply before_le; auto. apply H2. now apply in_map.
    + destruct (FY_val la (Sub _ I1)) as (Va & _ & Ba & _). destruct (FY_val lr (Sub _ I2)) as (Vr & _ & Br & _). intros Pa.
      pose proof (before_le lr la (Sub _ I2) (Sub _ I1) H1) as Le.
      pose proof (ratio_test sm _ _ _ _ Vr Va ltac:(lra) ltac:(lra) Pa) as Q. rewrite H3 in Q. exact Q.
  - apply perm_map2 in P as (la & lr & lrest & P & <- & <- & <-). destruct (In2 _ _ _ P) as (I1 & I2 & I3).
    exists lr. split; [exact I2|]. split; [reflexivity|]. apply comp_second with la lrest; [exact P|now apply before_le; auto| |].
    + intros b Hb. apply before_le; auto. apply H2. now apply in_map.
    + destruct (FY_val la (Sub _ I1)) as (Va & _ & Ba & _). destruct (FY_val lr (Sub _ I2)) as (Vr & _ & Br & _). intros Pa.
      pose proof (before_le lr la (Sub _ I2) (Sub _ I1) H1) as Le.
      pose proof (ratio_test sm _ _ _ _ Vr Va ltac:(lra) ltac:(lra) Pa) as Q. rewrite H3 in Q. exact Q.
Qed.

(** A float point and the exact one. *)
Definition pt_near (q : F64s sm * F64s sm) (p : R * R) : Prop := exists x y, v (fst q) = XR x /\ v (snd q) = XR y /\ close D (x, y) p.

(** Besides, it is that of the same particle. *)
Definition pt_from (q : F64s sm * F64s sm) (p : R * R) : Prop := pt_near q p /\
  exists l, In l B /\ sc l = p /\ v (fst q) = v (fE (fst l)) /\ snd q = nabs (fZ (fst l)).

Lemma point_same i p o : (i < length es)%nat -> ebin_point edges fE fZ (map fst B) (S i) p -> point m es (map sc B) i o ->
  match o with None => p = (n0, n0) | Some q => pt_from p q /\ nzx p = true end.
Proof.
  intros Hi Hp Ho. unfold ebin_point in Hp. cbv zeta in Hp. rewrite rows_same in Hp.
  unfold point in Ho. cbv zeta in Ho. rewrite filter_map_comm in Ho. rewrite edges_len in Hp.
  set (rows := filter (fun l => inbin es i (fst (sc l))) B) in *.
  assert (Sub : forall l, In l rows -> In l B) by (intros l I; apply filter_In in I; apply I).
  destruct margins as (Md & Mm & PD & MD).
  assert (Done : forall l q, In l rows -> sc l = q -> pt_from (fE (fst l), nabs (fZ (fst l))) q /\ nzx (fE (fst l), nabs (fZ (fst l))) = true).
  { intros l q I <-. destruct (norm_same l (Sub l I)) as (x & y & Vx & Vy & Ax & Ay & _).
    split; [split; [exists x, y; cbn [fst snd]; split; [exact Vx|]; split; [exact Vy|]; split; assumption|exists l; auto]|].
    pose proof (below_zero l (Sub l I)) as Z. apply Rabs_le_inv in Ax. unfold nzx. cbn [fst].
    destruct (neqb (fE (fst l)) n0) eqn:Q; [|reflexivity]. exfalso. apply (neqb_iff RN) in Q as [Q _]. rewrite Vx, (val_n0 RN) in Q. injection Q as ->. lra. }
  destruct o as [q|].
  - destruct Hp as [[E _]|(a & Ia & -> & Ch)].
    + exfalso. apply map_eq_nil in E. rewrite E in Ho. destruct (S i <? length es)%nat.
      * destruct Ho as [Q|r rest Q _ _ _|b rest Q _ _]; [discriminate Q|apply Permutation_nil in Q; discriminate Q|apply Permutation_nil in Q; discriminate Q].
      * destruct Ho as (rest & Q & _). apply Permutation_nil in Q. discriminate Q.
    + destruct (S i <? length es)%nat.
      * destruct (picked_computed rows a Sub Ch) as (l & Il & <- & Cl). apply Done; [exact Il|].
        apply (same_choice FY (fun l => snd (sc l)) rows D (8 * u53) m); try assumption.
        -- intros l' I. exact (proj1 (proj2 (FY_val l' (Sub l' I)))).
        -- intros l' I. exact (proj1 (proj2 (proj2 (proj2 (FY_val l' (Sub l' I)))))).
        -- pose proof u53_pos. lra.
        -- reflexivity.
      * destruct Ho as (rest & Q & Mq). apply perm_map1 in Q as (lq & lrest & Q & Eq & <-). subst q.
        apply in_map_iff in Ia as (l & <- & Il). apply Done; [exact Il|]. f_equal.
        destruct (Permutation_in _ Q Il) as [E|E]; [now symmetry|]. exfalso. specialize (Mq _ (in_map sc _ _ E)).
        assert (Iq : In lq rows) by (eapply Permutation_in; [symmetry; exact Q|now left]).
        specialize (Ch _ (in_map fst _ _ Iq)). apply (nlt_false RN) in Ch.
        destruct (FY_val l (Sub l Il)) as (V & A & _). destruct (FY_val lq (Sub lq Iq)) as (V' & A' & _). rewrite V, V' in Ch.
        assert (Ch' : ~ (FY l < FY lq)) by exact Ch. clear Ch. cbv beta in *.
        apply Rabs_le_inv in A. apply Rabs_le_inv in A'. pose proof u53_pos. lra.
  - apply map_eq_nil in Ho. rewrite Ho in Hp. destruct Hp as [[_ E]|(a & Ia & _)]; [exact E|destruct Ia].
Qed.

(** The curve. *)
Lemma curve_from raw : raw_points fE fZ edges (map fst B) raw ->
  Forall2 pt_from (trimmed fE edges (map fst B) raw) cv.
Proof.
  intros Rw. destruct split_least as (l0 & LR & P & E0 & F & pts & pt & Ln & Pt & Lt & Ec).
  destruct margins as (Md & Mm & PD & MD). pose proof u53_pos as PU. rewrite Ec.
  assert (Hne : (0 < length es)%nat). { destruct es; [destruct (proj1 Hes)|simpl; lia]. }
  unfold trimmed.
  assert (Top : exists o rest, filter (fun a => ebin edges (length edges) (fE a)) (map fst B) = o :: rest).
  { replace (length edges) with (S (length es - 1)) by (rewrite edges_len; lia). rewrite rows_same.
    specialize (Pt _ _ Lt). unfold point in Pt. cbv zeta in Pt. rewrite filter_map_comm in Pt. rewrite (proj2 (Nat.ltb_ge _ _)) in Pt by lia.
    destruct Pt as (rest & Q & _). apply perm_map1 in Q as (lq & lrest & Q & _). destruct (filter _ B) as [|l rows]; [apply Permutation_nil in Q; discriminate Q|].
    simpl. eauto. }
  destruct Top as (o & rest & ->). change (fun p => negb (neqb (fst p) n0)) with (@nzx (F64s sm)).
  destruct Rw as [a0 ps Ia Mn Lps Hps]. cbn [filter].
  assert (nzx (nm1, nabs (fZ a0)) = true) as ->.
  { unfold nzx. cbn [fst]. destruct (neqb nm1 n0) eqn:Q; [|reflexivity]. exfalso. apply (neqb_iff RN) in Q as [Q _]. rewrite (val_nm1 RN), (val_n0 RN) in Q. injection Q. lra. }
  constructor.
  - apply in_map_iff in Ia as (la & <- & Ila).
    assert (la = l0).
    { apply (Permutation_in _ P) in Ila as [E|Ila]; [auto|]. exfalso. destruct (F la Ila) as (IB & M & Far).
      assert (I0 : In l0 B) by (eapply Permutation_in; [symmetry; exact P|now left]).
      specialize (Mn _ (in_map fst _ _ I0)). apply (nlt_false RN) in Mn. destruct (norm_same la IB) as (x & y & Vx & _ & Ax & _).
      rewrite (least_at l0 LR P E0), Vx in Mn. simpl in Mn. apply Rabs_le_inv in Ax. pose proof P_ue.
      assert (m - 1 <= fst (sc la)). { unfold sc, scaled. cbn [fst]. apply Rmult_le_reg_r with ue; [assumption|]. unfold Rdiv. rewrite Rmult_assoc, Rinv_l by lra. lra. }
      lra. }
    subst la. destruct (norm_same l0 Ila) as (x & y & _ & Vy & _ & Ay & _). split.
    2:{ exists l0. split; [exact Ila|]. split. { unfold sc, scaled at 1. rewrite E0. f_equal. pose proof P_ue. field. lra. } cbn [fst snd]. split; [|reflexivity]. rewrite (val_nm1 RN). symmetry. exact (least_at l0 LR P E0). }
    exists (-1), y. cbn [fst snd]. split; [apply (val_nm1 RN)|]. split; [exact Vy|].
    split; cbn [fst snd]; [replace (-1 - -1) with 0 by ring; rewrite Rabs_R0; apply Rlt_le, PD|exact Ay].
  - assert (Hpt : forall i p o, nth_error ps i = Some p -> nth_error pts i = Some o -> match o with None => p = (n0, n0) | Some q => pt_from p q /\ nzx p = true end).
    { intros i p o' Hp Ho. apply (point_same i); [rewrite <- Ln; apply nth_error_Some; congruence|now apply Hps|now apply Pt]. }
    assert (Lp : length ps = length pts) by (rewrite Lps, edges_len; now symmetry).
    clear - Hpt Lp. revert pts Hpt Lp. induction ps as [|p ps IH]; intros [|o pts] Hpt Lp; try discriminate Lp; [constructor|].
    pose proof (Hpt 0%nat p o eq_refl eq_refl) as H0. injection Lp as Lp. specialize (IH pts (fun i => Hpt (S i)) Lp).
    cbn [filter somes flat_map]. destruct o as [q|].
    + destruct H0 as [N Z]. rewrite Z. simpl. constructor; assumption.
    + subst p. assert (nzx (n0, n0) = false) as ->. { unfold nzx. cbn [fst]. apply negb_false_iff. apply (neqb_iff RN). rewrite (val_n0 RN). split; [reflexivity|discriminate]. }
      exact IH.
Qed.
Lemma curve_same raw : raw_points fE fZ edges (map fst B) raw ->
  Forall2 pt_near (trimmed fE edges (map fst B) raw) cv.
Proof.
  intros Rw. pose proof (curve_from raw Rw) as F. clear - F. generalize dependent (trimmed fE edges (map fst B) raw). intros q F.
  revert F. generalize cv. intros c F. induction F as [|a b qs ps [H _] F IH]; constructor; assumption.
Qed.

(** No other particle has the values of a point of the exact curve. *)
Lemma node_unique l l' : In l B -> In l' B -> In (sc l) cv -> sc l' = sc l -> l' = l.
Proof.
  intros I I' C E. destruct split_least as (l0 & LR & P & E0 & F & pts & pt & Ln & Pt & Lt & Ec).
  destruct margins as (Md & Mm & PD & MD). pose proof P_ue as PE.
  assert (Q0 : forall x, In x B -> fst (sc x) = -1 -> x = l0).
  { intros x Ix Hx. destruct (Permutation_in _ P Ix) as [Z|Z]; [now symmetry|]. exfalso. destruct (F x Z) as (_ & G & _).
    change (fst (snd x) / ue = -1) in Hx. assert (fst (snd x) = fst (snd x) / ue * ue) by (field; lra). nra. }
  rewrite Ec in C. destruct C as [C|C].
  - assert (A : fst (sc l) = -1) by (rewrite <- C; reflexivity). rewrite (Q0 l I A). apply Q0; [exact I'|congruence].
  - apply in_flat_map in C as (o & Io & C). destruct o as [q|]; [|destruct C]. destruct C as [->|[]].
    apply In_nth_error in Io as (i & Hi). specialize (Pt i _ Hi). unfold point in Pt. cbv zeta in Pt. rewrite filter_map_comm in Pt.
    set (rows := filter (fun x => inbin es i (fst (sc x))) B) in *.
    assert (IR : In l rows /\ In l' rows).
    { assert (IB : inbin es i (fst (sc l)) = true).
      { assert (Iq : In (sc l) (map sc rows)).
        { destruct (S i <? length es)%nat.
          - destruct Pt as [Z|r rest Z _ _ _|a rest Z _ _]; [rewrite Z; now left| |]; (eapply Permutation_in; [symmetry; exact Z|simpl; auto]).
          - destruct Pt as (rest & Z & _). eapply Permutation_in; [symmetry; exact Z|now left]. }
        apply in_map_iff in Iq as (x & Ex & Ix). apply filter_In in Ix as [_ Ix]. now rewrite <- Ex. }
      split; apply filter_In; (split; [assumption|]); [exact IB|now rewrite E]. }
    destruct IR as (IR & IR'). destruct (norm_same l I) as (_ & _ & _ & _ & _ & _ & _ & _ & (Sp & _)). clearbody rows. clear - Pt E IR IR' Mm Sp.
    assert (One : forall rest, Permutation (map sc rows) (sc l :: rest) -> ~ In (sc l) rest -> l' = l).
    { intros rest Z N. apply perm_map1 in Z as (y & ys & Py & Ey & Eys). subst rest.
      assert (H : forall x, In x rows -> sc x = sc l -> x = y).
      { intros x Ix Hx. destruct (Permutation_in _ Py Ix) as [->|Iy]; [reflexivity|]. exfalso. apply N. rewrite <- Hx. now apply in_map. }
      rewrite (H l IR eq_refl). now apply H. }
    destruct (S i <? length es)%nat.
    + destruct Pt as [Z|r rest Z H1 H2 _|a rest Z H1 H2].
      * apply (One []); [rewrite Z; reflexivity|auto].
      * apply (One (r :: rest) Z). intros [N|N]; [rewrite N in H1; lra|]. specialize (H2 _ N). lra.
      * apply (One (a :: rest)); [rewrite Z; apply perm_swap|]. intros [N|N]; [|specialize (H2 _ N); lra].
        rewrite N in H1. lra.
    + destruct Pt as (rest & Z & H). apply (One rest Z). intros N. specialize (H _ N). lra.
Qed.
End Core.
