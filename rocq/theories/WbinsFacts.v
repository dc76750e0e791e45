(** The histogram decompositions of a whole analysis with other numbers of bins (C107). *)
From Coq Require Import Sorted.
From Verif Require Import Py Num RX F64 Np Df Data DataFacts DfFacts CenterFacts Ex Spec SpecR SpecCirc DataThms Circ CircFacts CircThms Base BaseFacts BaseThms EpsFacts SpecBase Threshold ThresholdThms SpecHist Hist HistFacts HistThms EdgeFacts EdgeThms MirrorThms EnergyThms SpecSplit SplitThms SpecMix MixStar SpecAlAcc AlAccFacts EpsAccFacts EpsAccThms EpsCutThms PolyFacts SpecCurve CurveAccFacts CurveAccThms OrderThms NodeThms SpecWhist WhistFacts SpecBins BinsThms SpecWbins.
From Flocq Require Import Core.
From Coq Require Import Lra Lia.
Local Open Scope R_scope.

(** *** The exact edges *)
Section Edges.
Variables (n digits : Z).
Hypothesis Hn1 : (1 <= n)%Z.
Hypothesis Ht : no_ties n digits.
Lemma tens : (1 <= 10 ^ digits <= 2 ^ 48)%Z.
Proof. destruct Ht as (A & B & _). assert (0 < 10 ^ digits)%Z by (apply Z.pow_pos_nonneg; lia). nia. Qed.
Lemma edge_int i : (0 <= i <= n)%Z -> exists k, (Z.abs k <= 10 ^ digits)%Z /\ decimal_edge n digits i = IZR k / IZR (10 ^ digits).
Proof.
  intros Hi. pose proof tens as Tn. eexists. split; [|reflexivity].
  assert (N0 : 0 < IZR n) by (apply IZR_lt; lia). assert (0 <= IZR i <= IZR n) by (split; apply IZR_le; lia).
  assert (Bq : 0 <= IZR i / IZR n <= 1). { assert (0 < / IZR n) by (apply Rinv_0_lt_compat; lra). assert (IZR n * / IZR n = 1) by (field; lra). unfold Rdiv. nra. }
  assert (T0 : 0 < IZR (10 ^ digits)) by (apply IZR_lt; lia).
  set (x := (-1 + 2 * IZR i / IZR n) * IZR (10 ^ digits)). assert (Bx : - IZR (10 ^ digits) <= x <= IZR (10 ^ digits)).
  { unfold x. replace (2 * IZR i / IZR n) with (2 * (IZR i / IZR n)) by (field; lra). nra. }
  assert (Mo : forall a b, a <= b -> (ZnearestE a <= ZnearestE b)%Z) by (intros a b L; apply (Zrnd_le ZnearestE); exact L).
  pose proof (Mo _ _ (proj1 Bx)) as M1. pose proof (Mo _ _ (proj2 Bx)) as M2. rewrite <- opp_IZR, (Zrnd_IZR ZnearestE) in M1. rewrite (Zrnd_IZR ZnearestE) in M2. lia.
Qed.
Lemma edge_le1 i : (0 <= i <= n)%Z -> Rabs (decimal_edge n digits i) <= 1.
Proof.
  intros Hi. destruct (edge_int i Hi) as (k & Bk & ->). pose proof tens as Tn. assert (T0 : 0 < IZR (10 ^ digits)) by (apply IZR_lt; lia).
  apply IZR_le in Bk. rewrite abs_IZR in Bk. unfold Rdiv. rewrite Rabs_mult, Rabs_inv, (Rabs_pos_eq (IZR (10 ^ digits))) by lra.
  apply Rmult_le_reg_r with (IZR (10 ^ digits)); [exact T0|]. rewrite Rmult_assoc, Rinv_l by lra. lra.
Qed.
Lemma edge_first : decimal_edge n digits 0 = -1.
Proof.
  unfold decimal_edge. pose proof tens as Tn. assert (T0 : 0 < IZR (10 ^ digits)) by (apply IZR_lt; lia). assert (N0 : 0 < IZR n) by (apply IZR_lt; lia).
  replace ((-1 + 2 * 0 / IZR n) * IZR (10 ^ digits)) with (IZR (- 10 ^ digits)) by (rewrite opp_IZR; field; lra). rewrite (Zrnd_IZR ZnearestE), opp_IZR. field. lra.
Qed.
Lemma edge_last : decimal_edge n digits n = 1.
Proof.
  unfold decimal_edge. pose proof tens as Tn. assert (T0 : 0 < IZR (10 ^ digits)) by (apply IZR_lt; lia). assert (N0 : 0 < IZR n) by (apply IZR_lt; lia).
  replace ((-1 + 2 * IZR n / IZR n) * IZR (10 ^ digits)) with (IZR (10 ^ digits)) by (field; lra). rewrite (Zrnd_IZR ZnearestE). field. lra.
Qed.
(** An edge that is not -1, 0 or 1 is not rounded to one of these. *)
Lemma edge_whole sm i a : (0 <= i <= n)%Z -> (Z.abs a <= 1)%Z -> rnd (F64_rounded sm) (XR (decimal_edge n digits i)) = XR (IZR a) -> decimal_edge n digits i = IZR a.
Proof.
  intros Hi Ha E. destruct (edge_int i Hi) as (k & Bk & Ek). rewrite Ek in *. pose proof tens as Tn. assert (T0 : 0 < IZR (10 ^ digits)) by (apply IZR_lt; lia).
  assert (Q : IZR (a * 10 ^ digits) / IZR (10 ^ digits) = IZR a) by (rewrite mult_IZR; field; lra). rewrite <- Q. do 2 f_equal.
  apply (decimals_apart sm (10 ^ digits)); [exact Tn|exact Bk|nia|]. rewrite E, Q. symmetry. apply (rnd_int (F64_rounded sm)). change (intmax (F64_rounded sm)) with (2 ^ 53)%Z. lia.
Qed.
End Edges.

Lemma split_rows sm {St} p1 p2 junk n digits (st : St) (eps1 : list (F64s sm)) (eps2 : list RX) : (1 <= n)%Z -> no_ties n digits ->
  (forall st cnt cor, p1 st cnt cor = p2 st cnt cor) ->
  Forall2 (alike (map (np_round digits) (linspace (nm1 : F64s sm) n1 (Z.to_nat n))) (map (np_round digits) (linspace (nm1 : RX) n1 (Z.to_nat n))) (Z.to_nat n)) eps1 eps2 ->
  hist_split p1 junk n digits st eps1 = hist_split (N:=RX) p2 junk n digits st eps2.
Proof.
  intros L Ht Hp F. destruct (make_histogram_iff (N:=F64s sm) eps1 n digits) as (A1 & B1). destruct (make_histogram_iff (N:=RX) eps2 n digits) as (A2 & B2).
  destruct (B1 L) as (C1 & D1), (B2 L) as (C2 & D2). unfold round_edges in *.
  pose proof (zero_edge_where (N:=RX) (map (np_round digits) (linspace nm1 n1 (Z.to_nat n)))) as W.
  destruct (where_ _) as [|b l].
  - unfold hist_split. rewrite D1, D2; [reflexivity|exact W|]. intros b Hb. apply (same_zero sm n digits b L Ht) in Hb. exact (W b Hb).
  - eapply split_same; [exact L|exact Hp|apply C1; apply same_zero; eauto|apply C2; exact W|now rewrite !map_length, !linspace_length|exact F].
Qed.

Section Star.
Context (sm : list f64 -> f64).
Local Notation RN := (F64_rounded sm).
Local Notation v := (val (F64_rounded sm)).
Variables (argsort : nat -> list (F64s sm) -> list nat) (g : galaxy (F64s sm)) (j : jcirc_t (F64s sm)).
Variables (bodies : list (R * R)) (m a d ue uz : R) (cv : list (R * R)).
Hypothesis Hg : constructible g.
Hypothesis Hs : sorting argsort.
Hypothesis Hj : jcirc argsort g default_bin0 default_bin1 = Ok j.
Hypothesis D0 : 0 <= d.
Hypothesis Hm : 16 * d + / IZR (2 ^ 44) <= m.
Hypothesis Hn : Forall2 (near_orbit RN d ue uz) (all_orbits g) bodies.
Hypothesis Hc : exact_curve m SpecCurve.edgesR bodies ue uz cv.
Hypothesis Pa : 0 < a <= 1.
Hypothesis Ga : gentle a cv.
Variables (n digits : Z).
Hypothesis Hn1 : (1 <= n)%Z.
Hypothesis Ht : no_ties n digits.
Local Notation t := ((12 * d + / IZR (2 ^ 47)) / a).
Local Notation de := (decimal_edge n digits).
Local Notation cells64 := (map (np_round digits) (linspace (nm1 : F64s sm) n1 (Z.to_nat n))).
Local Notation cellsR := (map (np_round digits) (linspace (nm1 : RX) n1 (Z.to_nat n))).

Lemma alike_on (w : F64s sm) rw x : v w = XR rw -> (rw = x /\ (x = 1 \/ x = -1 \/ x = 0)) \/ (forall k, (0 <= k <= n)%Z ->
    t < Rabs (rw - de k) /\ same_side (de k) rw (de k) x) ->
  alike cells64 cellsR (Z.to_nat n) w (XR x).
Proof.
  intros Vw H. apply (alike_trans _ cellsR _ _ _ (XR rw : RX)).
  - rewrite <- Vw. apply alike_decimals; [exact Hn1|exact Ht|]. intros k Hk. cbv zeta. intros Mk E. rewrite Vw in E. pose proof (t_low m a d D0 Hm Pa) as TL. pose proof u53_pos as PU.
    pose proof (edge_le1 n digits Hn1 Ht k Hk) as B1.
    destruct H as [(Q & H)|H].
    + apply Mk. assert (exists z, (Z.abs z <= 1)%Z /\ rw = IZR z) as (z & Bz & Ez) by (rewrite Q; destruct H as [-> |[-> | ->]]; [exists 1%Z|exists (-1)%Z|exists 0%Z]; split; (reflexivity || lia)).
      rewrite <- E, Ez. f_equal. symmetry. apply (edge_whole n digits Hn1 Ht sm k z Hk Bz). now rewrite <- E, Ez.
    + destruct (round_le2 sm (de k)) as (q & Eq & Aq); [lra|]. rewrite Eq in E. injection E as <-.
      assert (Tn : 0 < tiny <= 1) by (pose proof tiny_pos; lra).
      destruct (H k Hk) as (F & _). assert (u53 * (Rabs (de k) + tiny) <= 2 * u53) by nra. lra.
  - apply alikeR. intros i Hi. pose proof (edges_RX n digits (Z.of_nat i) Hn1 (proj1 Ht) ltac:(lia)) as W. rewrite Nat2Z.id in W. exists (de (Z.of_nat i)). split; [exact W|].
    destruct H as [(-> & _)|H]; [|apply H; lia].
    destruct (Rtotal_order (de (Z.of_nat i)) x) as [Q|[Q|Q]]; unfold same_side; lra.
Qed.

Variable ne : Z.
Lemma alike_part (en : F64s sm) re x : (ne <= 2 ^ 53)%Z -> -1 <= x <= - m -> (forall i, (0 < i < ne)%Z -> m <= Rabs (x - (IZR i / IZR ne - 1))) ->
  v en = XR re -> (x = -1 /\ re = -1) \/ (Rabs (re - x) < m / 2 /\ forall a, In a SpecCurve.edgesR -> m <= Rabs (x - a)) ->
  alike (linspace nm1 n0 (Z.to_nat ne)) (linspace (N:=RX) nm1 n0 (Z.to_nat ne)) (Z.to_nat ne) en (XR x).
Proof.
  intros Bn Bx Cl Ve H. pose proof u53_pos as PU. assert (Pm : 512 * u53 <= m) by (rewrite u44 in Hm; lra).
  assert (U50 : / IZR (2 ^ 50) = 8 * u53) by (change (IZR (2 ^ 53)) with 9007199254740992; change (IZR (2 ^ 50)) with 1125899906842624; lra).
  assert (Nr : Rabs (re - x) < m / 2) by (destruct H as [(-> & ->)|(A & _)]; [replace (-1 - -1) with 0 by ring; rewrite Rabs_R0; lra|exact A]).
  assert (M1 : x = -1 /\ re = -1 \/ m <= Rabs (x - -1)).
  { destruct H as [A|(_ & A)]; [now left|right]. replace (-1) with (IZR 0 / 20 - 1) by lra. apply A, (energy_edge 0). lia. }
  apply (alike_trans _ (linspace (N:=RX) nm1 n0 (Z.to_nat ne)) _ _ _ (XR re : RX)).
  - rewrite <- Ve. apply alike_parts; [exact Bn|]. intros r i Er Hi. rewrite Ve in Er. injection Er as <-. rewrite U50. specialize (Cl i Hi).
    pose proof (Rabs_triang (re - (IZR i / IZR ne - 1)) (x - re)) as T.
    replace (re - (IZR i / IZR ne - 1) + (x - re)) with (x - (IZR i / IZR ne - 1)) in T by ring. rewrite (Rabs_minus_sym x re) in T. lra.
  - apply alikeR. intros i Hi. apply Rabs_def2 in Nr.
    destruct (Nat.eq_dec i (Z.to_nat ne)) as [Ei|Ni].
    { exists 0. split; [rewrite Ei; unfold linspace; rewrite app_nth2; rewrite map_length, seq_length; [now rewrite Nat.sub_diag|lia]|]. unfold same_side. right. left. lra. }
    change (@nm1 RX) with (XR (IZR (-1))). change (@n0 RX) with (XR 0). rewrite linspaceR by lia. rewrite Z2Nat.id by lia.
    assert (N1 : 1 <= IZR ne) by (apply IZR_le; lia).
    eexists. split; [reflexivity|]. replace (IZR (Z.of_nat i) * ((0 - IZR (-1)) / IZR ne) + IZR (-1)) with (IZR (Z.of_nat i) / IZR ne - 1) by (field; lra).
    unfold same_side. destruct (Nat.eq_dec i 0) as [->|N0].
    + replace (IZR (Z.of_nat 0) / IZR ne - 1) with (-1) by (cbn [Z.of_nat]; field; lra). destruct M1 as [(-> & ->)|M1]; [right; right; auto|]. rewrite Rabs_pos_eq in M1 by lra. left. lra.
    + specialize (Cl (Z.of_nat i) ltac:(lia)). unfold Rabs in Cl. destruct (Rcase_abs _); [right; left|left]; lra.
Qed.


Local Definition star_near' := star_near sm argsort g j bodies m a d ue uz cv Hg Hs Hj D0 Hm Hn Hc Pa Ga.
Local Definition star_energy' := star_energy sm argsort g j bodies m d ue uz cv Hg Hj D0 Hm Hn Hc.
Local Definition star_node' := star_node sm argsort g j bodies m a d ue uz cv Hg Hs Hj D0 Hm Hn Hc Pa.
Local Definition star_zero' := star_zero sm argsort g j bodies m d ue uz cv Hg Hj D0 Hm Hn Hc.
Local Definition curve_value' := curve_value bodies m d ue uz cv D0 Hm Hc.
Local Definition t_low' := t_low m a d D0 Hm Pa.
(** What is computed of a settled star is what exact arithmetic gives, compared with the edges. *)
Lemma star_settled_in k b (central : Prop) : (k < plen (g_stars g))%nat -> nth_error bodies k = Some b ->
  (central -> forall o, nth_error (star_orbits g) k = Some o -> v (o_jz o) = XR 0) ->
  settled_in n digits t cv ue uz central b ->
  exists en w, nth_error (jc_E j) k = Some en /\ nth_error (jc_eps j) k = Some w /\
    (kept cv ue uz b -> nfin en = true /\ nfin w = true /\ exists x, circularity cv ue uz b x /\
       alike cells64 cellsR (Z.to_nat n) w (XR x) /\ ((ne <= 2 ^ 53)%Z -> clear_energy ne m ue b -> alike (linspace nm1 n0 (Z.to_nat ne)) (linspace (N:=RX) nm1 n0 (Z.to_nat ne)) (Z.to_nat ne) en (XR (fst b / ue)))) /\
    (~ kept cv ue uz b -> nfin w = false).
Proof.
  destruct b as [e z]. intros Lk Hb Hcen S. pose proof u53_pos as PU. pose proof t_low' as TL. assert (Pm : 512 * u53 <= m) by (rewrite u44 in Hm; lra).
  destruct (star_near' k e z Lk Hb) as (c & en & w & Ic & Bc & En & Ew & N1 & N2 & N3). exists en, w. split; [exact En|]. split; [exact Ew|].
  assert (Uc : forall c', interpolates cv (e / ue) c' -> c' = c).
  { intros c' Ic'. destruct (curve_value' (e / ue)) as (c0 & _ & _ & Q). rewrite (Q c' Ic'), (Q c Ic). reflexivity. }
  assert (NF : nisnan w = true -> nfin w = false).
  { intros Q. apply (nisnan_iff RN) in Q. destruct (nfin w) eqn:F; [|reflexivity]. apply (nfin_iff RN) in F as (r & F). rewrite Q in F. discriminate F. }
  pose proof (nth_error_In _ _ Hb) as Ib. destruct (ec_ue _ _ _ _ _ _ Hc) as (Pue & Mue). specialize (Mue _ Ib). pose proof (ec_zero _ _ _ _ _ _ Hc _ Ib) as Ez. cbn [fst] in Mue, Ez.
  destruct (ec_uz _ _ _ _ _ _ Hc) as (Puz & _).
  assert (0 < m * ue) as Pmu by (apply Rmult_lt_0_compat; lra).
  destruct (Rlt_dec e 0) as [Ne|Ne].
  2:{ split; [intros (Q & _); cbn [fst] in Q; lra|]. intros _. apply NF, N1. unfold Rabs in Ez. destruct (Rcase_abs e); lra. }
  assert (Be : -1 <= e / ue <= - m).
  { rewrite Rabs_left in Ez by exact Ne. split; apply Rmult_le_reg_r with ue; try exact Pue; replace (e / ue * ue) with e by (field; lra); lra. }
  assert (Kp : kept cv ue uz (e, z) <-> 0 < c /\ Rabs (z / uz) <= c).
  { unfold kept. cbn [fst snd]. split.
    - intros (_ & c' & I' & P & L). rewrite (Uc c' I') in *. auto.
    - intros (P & L). split; [exact Ne|]. exists c. auto. }
  assert (Fin : forall rw x, v w = XR rw -> circularity cv ue uz (e, z) x ->
     (rw = x /\ (x = 1 \/ x = -1 \/ x = 0)) \/ (forall k, (0 <= k <= n)%Z -> t < Rabs (rw - de k) /\ same_side (de k) rw (de k) x) ->
     nfin en = true /\ nfin w = true /\ exists x, circularity cv ue uz (e, z) x /\
       alike cells64 cellsR (Z.to_nat n) w (XR x) /\ ((ne <= 2 ^ 53)%Z -> clear_energy ne m ue (e, z) -> alike (linspace nm1 n0 (Z.to_nat ne)) (linspace (N:=RX) nm1 n0 (Z.to_nat ne)) (Z.to_nat ne) en (XR (fst (e, z) / ue)))).
  { intros rw x Vw Cx H. assert (Fw : nfin w = true) by (apply (nfin_iff RN); eauto).
    assert (Nw : nisnan w = false) by (apply (nisnan_false RN); rewrite Vw; discriminate).
    destruct (star_energy' k e z en w Lk Hb Ne En Ew Nw) as (re & Ve & He). split; [apply (nfin_iff RN); eauto|]. split; [exact Fw|].
    exists x. split; [exact Cx|]. split; [exact (alike_on w rw x Vw H)|]. intros Bn Ce. exact (alike_part en re (e / ue) Bn Be (Ce Ne) Ve He). }
  destruct (S Ne) as [Cl|[(Nd & Tn)|(Cn & Zz & Q)]]; cbn [fst snd] in *.
  - split.
    + intros K. apply Kp in K as (Pc & Lc).
      assert (L2 : Rabs (z / uz) < c - t).
      { pose proof (Cl c n Ic ltac:(lia)) as C1. pose proof (Cl c 0%Z Ic ltac:(lia)) as C2. rewrite (edge_last n digits Hn1 Ht), Rmult_1_l in C1. rewrite (edge_first n digits Hn1 Ht) in C2. replace (-1 * c) with (- c) in C2 by ring.
        apply Rabs_le_inv in Lc. rewrite Rabs_left1 in C1 by lra. rewrite Rabs_pos_eq in C2 by lra. apply Rabs_def1; lra. }
      destruct (N3 Ne L2) as (re & rw & _ & Vw & Aw & _). apply (Fin rw (z / uz / c) Vw). { exists c. auto. }
      right. intros i Hi. specialize (Cl c i Ic Hi). set (fr := de i) in *. clearbody fr. set (y := z / uz) in *. clearbody y.
      assert (D1 : t < Rabs (rw * c - fr * c)).
      { pose proof (Rabs_triang (rw * c - fr * c) (y - rw * c)) as T. replace (rw * c - fr * c + (y - rw * c)) with (y - fr * c) in T by ring. rewrite (Rabs_minus_sym y (rw * c)) in T. lra. }
      split.
      * replace (rw * c - fr * c) with ((rw - fr) * c) in D1 by ring. rewrite Rabs_mult, (Rabs_pos_eq c) in D1 by lra. pose proof (Rabs_pos (rw - fr)). nra.
      * unfold same_side. assert (Ex : y = y / c * c) by (field; lra). set (q := y / c) in *. clearbody q. rewrite Ex in Cl, Aw.
        apply Rabs_le_inv in Aw. set (tt := t) in *. clearbody tt. unfold Rabs in Cl. destruct (Rcase_abs (q * c - fr * c)); [right; left|left]; split; apply Rmult_lt_reg_r with c; lra.
    + intros K. apply NF. apply N2; [exact Ne|]. pose proof (Cl c n Ic ltac:(lia)) as C1. pose proof (Cl c 0%Z Ic ltac:(lia)) as C2. rewrite (edge_last n digits Hn1 Ht), Rmult_1_l in C1. rewrite (edge_first n digits Hn1 Ht) in C2. replace (-1 * c) with (- c) in C2 by ring.
      destruct (Rlt_dec 0 c) as [Pc|Pc]; [|assert (c = 0) by lra; subst c; rewrite Rminus_0_r in C1; lra].
      assert (Lc : c < Rabs (z / uz)). { destruct (Rle_lt_dec (Rabs (z / uz)) c) as [L|L]; [exfalso; apply K, Kp; auto|exact L]. }
      unfold Rabs in Lc |- *. destruct (Rcase_abs (z / uz)); [rewrite Rabs_left in C2 by lra|rewrite Rabs_pos_eq in C1 by lra]; lra.
  - destruct (star_node' k e z Lk Hb Ne Nd) as (w' & Ew' & Vw & _). assert (w' = w) by congruence. subst w'. specialize (Vw Tn).
    destruct (curve_shape m SpecCurve.edgesR bodies ue uz cv ltac:(lra) edgesR_ok Hc) as (Sc & _ & _).
    assert (Ec : Rabs z / uz = c) by (apply Uc, (node_value m d D0 Hm); [exact Sc|lra|exact Nd]).
    assert (Az : Rabs (z / uz) = c) by (unfold Rdiv; rewrite Rabs_mult, Rabs_inv, (Rabs_pos_eq uz) by lra; exact Ec).
    assert (Pc : 0 < c) by lra.
    split; [|intros K; exfalso; apply K, Kp; lra].
    intros _. apply (Fin _ (if Rlt_dec 0 z then 1 else -1) Vw).
    + exists c. split; [exact Ic|]. split; [exact Pc|]. cbn [snd]. rewrite <- Ec. assert (z <> 0) by (intros ->; rewrite Rabs_R0 in Ec; unfold Rdiv in Ec; lra).
      destruct (Rlt_dec 0 z); [rewrite Rabs_pos_eq by lra|rewrite Rabs_left1 by lra]; field; lra.
    + left. split; [reflexivity|]. destruct (Rlt_dec 0 z); auto.
  - subst z. specialize (Hcen Cn). destruct Q as [Nd|Q].
    + assert (Nd' : In (e / ue, Rabs 0 / uz) cv) by (rewrite Rabs_R0; replace (0 / uz) with 0 by (field; lra); exact Nd).
      destruct (star_node' k e 0 Lk Hb Ne Nd') as (w' & Ew' & _ & Nw). assert (w' = w) by congruence. subst w'. specialize (Nw Hcen).
      destruct (curve_shape m SpecCurve.edgesR bodies ue uz cv ltac:(lra) edgesR_ok Hc) as (Sc & _ & _).
      assert (Ec : 0 = c) by (apply Uc, (node_value m d D0 Hm); [exact Sc|lra|exact Nd]).
      split; [intros K; apply Kp in K; lra|]. intros _. now apply NF.
    + specialize (Q c Ic). destruct (N3 Ne) as (re & rw & _ & Vw & _). { replace (0 / uz) with 0 by (field; lra). rewrite Rabs_R0. lra. }
      assert (V0 : v w = XR 0) by (apply (star_zero' k e 0 w Lk Hb Ne Hcen Ew), (nfin_iff RN); eauto).
      split; [|intros K; exfalso; apply K, Kp; replace (0 / uz) with 0 by (field; lra); rewrite Rabs_R0; lra].
      intros _. apply (Fin 0 0 V0); [|left; auto]. exists c. split; [exact Ic|]. split; [lra|]. cbn [snd]. field. lra.
Qed.


Variable central : nat -> Prop.
Hypothesis Hcen : forall k o, central k -> nth_error (star_orbits g) k = Some o -> v (o_jz o) = XR 0.
Hypothesis Hset : forall k b, (k < plen (g_stars g))%nat -> nth_error bodies k = Some b -> settled_in n digits t cv ue uz (central k) b.
Variables (used : list nat) (rows : list (R * R)).
Hypothesis Hex : exact_stars (plen (g_stars g)) bodies ue uz cv used rows.

Lemma body_of k : (k < plen (g_stars g))%nat -> exists b, nth_error bodies k = Some b.
Proof.
  intros Lk. pose proof (proj1 (constructible_ok g) Hg) as Hok. apply nth_error_lt.
  assert (length (star_orbits g) = plen (g_stars g)) as L by (apply orbits_cols; apply Hok). rewrite <- (Forall2_length _ _ _ Hn).
  unfold all_orbits, sets. cbn [flat_map]. rewrite app_length. change (orbits (g_stars g)) with (star_orbits g). lia.
Qed.

Lemma used_in k : In k used <-> (k < plen (g_stars g))%nat /\ (exists en, nth_error (jc_E j) k = Some en /\ nfin en = true) /\ (exists w, nth_error (jc_eps j) k = Some w /\ nfin w = true).
Proof.
  rewrite (es_used _ _ _ _ _ _ _ Hex). split.
  - intros (Lk & b & Hb & K). split; [exact Lk|]. destruct (star_settled_in k b (central k) Lk Hb (fun c o => Hcen k o c) (Hset k b Lk Hb)) as (en & w & En & Ew & K1 & _).
    destruct (K1 K) as (F1 & F2 & _). split; [exists en; auto|exists w; auto].
  - intros (Lk & _ & (w & Ew & Fw)). split; [exact Lk|]. destruct (body_of k Lk) as (b & Hb). exists b. split; [exact Hb|].
    destruct (star_settled_in k b (central k) Lk Hb (fun c o => Hcen k o c) (Hset k b Lk Hb)) as (en' & w' & En & Ew' & _ & K2).
    destruct (Classical_Prop.classic (kept cv ue uz b)) as [K|K]; [exact K|]. exfalso. specialize (K2 K). congruence.
Qed.

Lemma circ_one b x x' : circularity cv ue uz b x -> circularity cv ue uz b x' -> x = x'.
Proof.
  intros (c & I & _ & ->) (c' & I' & _ & ->). destruct (curve_value' (fst b / ue)) as (c0 & _ & _ & Q). now rewrite (Q c I), (Q c' I').
Qed.
Lemma used_alike_in : Forall2 (fun k row => alike cells64 cellsR (Z.to_nat n) (nth k (jc_eps j) nnan) (XR (snd row) : RX) /\
    ((ne <= 2 ^ 53)%Z -> (forall k b, (k < plen (g_stars g))%nat -> nth_error bodies k = Some b -> clear_energy ne m ue b) -> alike (linspace nm1 n0 (Z.to_nat ne)) (linspace (N:=RX) nm1 n0 (Z.to_nat ne)) (Z.to_nat ne) (nth k (jc_E j) nnan) (XR (fst row) : RX))) used rows.
Proof.
  pose proof (es_rows _ _ _ _ _ _ _ Hex) as F. assert (U : forall k, In k used -> In k used) by auto. revert F U. generalize rows. generalize used at 1 2 4. intros us rs F.
  induction F as [|k row us rs H F IH]; intros U; constructor; [|apply IH; intros; apply U; now right]. clear IH.
  assert (Ik : In k used) by (apply U; now left). apply (es_used _ _ _ _ _ _ _ Hex) in Ik as (Lk & b & Hb & K).
  destruct H as (b' & Hb' & E1 & C). assert (b' = b) by congruence. subst b'.
  destruct (star_settled_in k b (central k) Lk Hb (fun c o => Hcen k o c) (Hset k b Lk Hb)) as (en & w & En & Ew & K1 & _). destruct (K1 K) as (_ & _ & x & Cx & A1 & A2).
  rewrite (nth_error_nth _ _ _ En), (nth_error_nth _ _ _ Ew), E1, (circ_one b _ _ C Cx). split; [exact A1|]. intros Bn Ce. apply A2; [exact Bn|]. exact (Ce k b Lk Hb).
Qed.

Lemma hist_near_in St (choice : St -> list nat -> nat -> list nat * St) junk cb st :
  carries (glen g) used (outcome (d_split (jhistogram (N:=RX) choice junk cb n digits) st (map (fun r => [CNum (N:=RX) (XR (snd r))]) rows) [] []))
    (decompose argsort (jhistogram choice junk (default_bin0, default_bin1) n digits) st g).
Proof.
  assert (Col : forall j', matrix_col 0 (map (feature_row (N:=F64s sm) j' ["eps"%string]) used) = map (fun k => nth k (jc_eps j') nnan) used) by (intros; unfold matrix_col; rewrite map_map; reflexivity).
  eapply (carries_intro RN argsort St _ st g j); [exact Hg|exact eps_attrs|reflexivity|exact Hj|exact (es_sorted _ _ _ _ _ _ _ Hex)| | |].
  - intros k. rewrite used_in. cbn [d_attributes jhistogram]. split.
    + intros (Lk & _ & W). split; [exact Lk|]. intros at0 [<-|[]]. exact W.
    + intros (Lk & W). pose proof (W "eps"%string (or_introl eq_refl)) as W1. split; [exact Lk|]. split; [|exact W1].
      destruct W1 as (w & Ew & Fw). change (circ_col j "eps") with (jc_eps j) in Ew. destruct (body_of k Lk) as (b & Hb).
      destruct (star_settled_in k b (central k) Lk Hb (fun c o => Hcen k o c) (Hset k b Lk Hb)) as (en' & w' & En & Ew' & K1 & K2). assert (w' = w) by congruence. subst w'.
      destruct (Classical_Prop.classic (kept cv ue uz b)) as [K|K]; [destruct (K1 K) as (F & _); eauto|]. rewrite (K2 K) in Fw. discriminate Fw.
  - intros ys. cbn [d_split jhistogram d_attributes]. rewrite Col.
    assert (ColR : matrix_col 0 (map (fun r => [CNum (N:=RX) (XR (snd r))]) rows) = map (fun r => XR (snd r) : RX) rows) by (unfold matrix_col; rewrite map_map; reflexivity). rewrite ColR.
    rewrite (split_rows sm (pick_any choice) (pick_any choice) junk n digits st (map (fun k => nth k (jc_eps j) nnan) used) (map (fun r => XR (snd r) : RX) rows) Hn1 Ht ltac:(reflexivity)).
    + destruct (hist_split _ _ _ _ _ _); reflexivity.
    + apply forall2_map2. eapply forall2_weak; [|exact used_alike_in]. intros k r (A & _). exact A.
  - intros ys labels pr st'. cbn [d_split jhistogram d_attributes]. rewrite Col. destruct (hist_split _ _ _ _ _ _) as [[l s]|] eqn:E; [|discriminate]. cbn [bind fst snd].
    intros H. assert (l = labels) by congruence. subst l. split; [|congruence]. apply hist_length in E. now rewrite E, map_length.
Qed.

Lemma ehist_near_in St (choice : St -> list nat -> nat -> list nat * St) junk cb st : (ne <= 2 ^ 53)%Z -> (forall k b, (k < plen (g_stars g))%nat -> nth_error bodies k = Some b -> clear_energy ne m ue b) ->
  carries (glen g) used (outcome (d_split (jehistogram (N:=RX) choice junk cb n digits ne) st (map (fun r => [CNum (N:=RX) (XR (fst r)); CNum (N:=RX) (XR (snd r))]) rows) [] []))
    (decompose argsort (jehistogram choice junk (default_bin0, default_bin1) n digits ne) st g).
Proof.
  intros Bn Ce.
  set (A := ["normalized_star_energy"; "eps"]%string).
  assert (Col0 : forall j', matrix_col 0 (map (feature_row (N:=F64s sm) j' A) used) = map (fun k => nth k (jc_E j') nnan) used) by (intros; unfold matrix_col; rewrite map_map; reflexivity).
  assert (Col1 : forall j', matrix_col 1 (map (feature_row (N:=F64s sm) j' A) used) = map (fun k => nth k (jc_eps j') nnan) used) by (intros; unfold matrix_col; rewrite map_map; reflexivity).
  eapply (carries_intro RN argsort St _ st g j); [exact Hg|exact energy_attrs|reflexivity|exact Hj|exact (es_sorted _ _ _ _ _ _ _ Hex)| | |].
  - intros k. rewrite used_in. cbn [d_attributes jehistogram]. split.
    + intros (Lk & V & W). split; [exact Lk|]. intros at0 [<-|[<-|[]]]; [exact V|exact W].
    + intros (Lk & W). split; [exact Lk|]. split; [exact (W "normalized_star_energy"%string (or_introl eq_refl))|exact (W "eps"%string (or_intror (or_introl eq_refl)))].
  - intros ys. cbn [d_split jehistogram d_attributes]. fold A. rewrite Col0, Col1.
    assert (ColR : matrix_col 0 (map (fun r => [CNum (N:=RX) (XR (fst r)); CNum (N:=RX) (XR (snd r))]) rows) = map (fun r => XR (fst r) : RX) rows) by (unfold matrix_col; rewrite map_map; reflexivity). rewrite ColR. clear ColR.
    assert (ColR : matrix_col 1 (map (fun r => [CNum (N:=RX) (XR (fst r)); CNum (N:=RX) (XR (snd r))]) rows) = map (fun r => XR (snd r) : RX) rows) by (unfold matrix_col; rewrite map_map; reflexivity). rewrite ColR.
    rewrite (split_rows sm (pick_energy choice (map (fun k => nth k (jc_E j) nnan) used) ne) (pick_energy choice (map (fun r => XR (fst r) : RX) rows) ne) junk n digits st (map (fun k => nth k (jc_eps j) nnan) used) (map (fun r => XR (snd r) : RX) rows) Hn1 Ht).
    + destruct (hist_split _ _ _ _ _ _); reflexivity.
    + intros s cnt cor. apply pick_same. apply forall2_map2. eapply forall2_weak; [|exact used_alike_in]. intros k r (_ & B). exact (B Bn Ce).
    + apply forall2_map2. eapply forall2_weak; [|exact used_alike_in]. intros k r (B & _). exact B.
  - intros ys labels pr st'. cbn [d_split jehistogram d_attributes]. fold A. rewrite Col0, Col1. destruct (hist_split _ _ _ _ _ _) as [[l s]|] eqn:E; [|discriminate]. cbn [bind fst snd].
    intros H. assert (l = labels) by congruence. subst l. split; [|congruence]. apply hist_length in E. now rewrite E, map_length.
Qed.
End Star.
