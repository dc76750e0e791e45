(** Property lemmas about the whole analysis of a galaxy given in other axes: C110. *)
From Flocq Require Import Core BinarySingleNaN.
From Coq Require Import Lra Lia Permutation Sorted Floats.SpecFloat.
From Verif Require Import SpecPipe SpecFrame FrameThms Py Num RX F64 Np Df Data DataFacts DfFacts RebuildFacts Center CenterFacts Align Spec SpecR SpecCirc SpecAlAcc SpecBase SpecCurve SpecChain SpecFma Dgemm SpecDgemm SpecAcc SpecWhole SpecWhist SpecHist Ex DataThms CenterThms Circ Base Threshold Hist SpecPot Potential PotConcFacts PotThms SpecPotAcc SpecNpAcc Fma AlAccSum AlAccThms NpAccThms CircThms DgemmThms HistThms WholeThms WhistFacts WhistThms SpecAgain AgainThms SpecAxes.
Local Open Scope R_scope.

(** *** Exact quantities do not depend on the axes *)
Section Axes.
Context (A : matR) (a b c : R).
Hypothesis HA : orthogonal A.
Notation M := (rigid A a b c).

Lemma seen_rigid o p : seen_from (M o) (M p) = rotate A (seen_from o p).
Proof. unfold seen_from, rigid, rotate; cbn [pm px py pz pvx pvy pvz]. f_equal; ring. Qed.
Lemma seen_rigids o l : map (seen_from (M o)) (map M l) = map (rotate A) (map (seen_from o) l).
Proof. rewrite !map_map. apply map_ext. intros p. apply seen_rigid. Qed.
Lemma sdist_rigid s p q : sdist s (M p) (M q) = sdist s p q.
Proof.
  unfold sdist. f_equal. pose proof (orth_dot A (px p - px q) (py p - py q) (pz p - pz q) (px p - px q) (py p - py q) (pz p - pz q) HA) as E.
  unfold rigid, rotate; cbn [pm px py pz pvx pvy pvz]. nra.
Qed.
Lemma phi_rigid s p l : phi s (M p) (map M l) = phi s p l.
Proof.
  unfold phi. induction l as [|q l IH]; simpl; [reflexivity|]. rewrite IH, sdist_rigid. unfold rigid, rotate; cbn [pm px py pz pvx pvy pvz]. reflexivity.
Qed.
Lemma pot_rigid kG s l p : pot_of kG s (map M l) (M p) = pot_of kG s l p.
Proof. unfold pot_of. rewrite phi_rigid, sdist_rigid. reflexivity. Qed.
Lemma pots_rigid kG s l : exact_pots kG s (map M l) = exact_pots kG s l.
Proof. rewrite !exact_pots_of, map_map. apply map_ext. intros p. apply pot_rigid. Qed.
Lemma axis_rigid l q : axis_part (map (rotate A) l) (rotate A q) = axis_part l q.
Proof. unfold axis_part. pose proof (along_orth A None l q HA) as E. unfold along in E. rewrite E, norm_orth by exact HA. reflexivity. Qed.
Lemma body_rigid l q x : whole_body (map (rotate A) l) (rotate A q) x = whole_body l q x.
Proof. unfold whole_body. now rewrite kinr_orth, axis_rigid. Qed.
Lemma bodies_rigid kG s o ls ld lg : bodies_of kG s (M o) (map M ls) (map M ld) (map M lg) = bodies_of kG s o ls ld lg.
Proof.
  unfold bodies_of. rewrite <- !map_app, pots_rigid, !seen_rigids. generalize (exact_pots kG s (ls ++ ld ++ lg)). generalize (map (seen_from o) (ls ++ ld ++ lg)).
  intros l. induction l as [|q l IH]; intros [|x xs]; simpl; auto. now rewrite body_rigid, IH.
Qed.
Lemma clear_rigid kG s R0 D k o m a0 d ue uz cv ls ld lg : clear_galaxy kG s R0 D k o m a0 d ue uz cv ls ld lg ->
  fits_axes kG s R0 D k (M o) d ue uz (map M ls) (map M ld) (map M lg) ->
  clear_galaxy kG s R0 D k (M o) m a0 d ue uz cv (map M ls) (map M ld) (map M lg).
Proof.
  intros [H1 H2 H3 H4 H5 H6 H7 (i & H8 & H8') H9 H10 H11 H12 H13 H14] [F1 F2 F3 F4].
  constructor; auto.
  - intros q J. split; [|split].
    + rewrite <- !map_app in J. apply in_map_iff in J as (p & <- & J). exact (proj1 (H3 p J)).
    + rewrite <- !map_app in J. apply in_map_iff in J as (p & <- & J). exact (proj1 (proj2 (H3 p J))).
    + intros x. now apply F1.
  - intros i1 j p q Nij. rewrite <- !map_app, !nth_error_map. destruct (nth_error _ i1) as [p1|] eqn:E1; [|discriminate]. destruct (nth_error _ j) as [q1|] eqn:E2; [|discriminate].
    cbn. intros [= <-] [= <-]. rewrite sdist_rigid. eapply H4; eauto.
  - rewrite <- !map_app, map_length. exact H7.
  - exists i. rewrite <- !map_app, map_length, pots_rigid. split; [exact H8|]. rewrite nth_error_map, H8'. reflexivity.
  - rewrite bodies_rigid. exact H13.
Qed.
End Axes.

(** In other axes (turned or reflected) and with another origin, every particle keeps its exact potential, energy and
    angular momentum along the axis of the stars, and the curve [cv] is that of the image as well. *)
Lemma c110_exact : forall (A : matR) dx dy dz kG s o ls ld lg, orthogonal A -> let M := rigid A dx dy dz in
  exact_pots kG s (map M ls ++ map M ld ++ map M lg) = exact_pots kG s (ls ++ ld ++ lg) /\
  bodies_of kG s (M o) (map M ls) (map M ld) (map M lg) = bodies_of kG s o ls ld lg /\
  forall R0 D k m a d ue uz cv, clear_galaxy kG s R0 D k o m a d ue uz cv ls ld lg ->
    fits_axes kG s R0 D k (M o) d ue uz (map M ls) (map M ld) (map M lg) ->
    clear_galaxy kG s R0 D k (M o) m a d ue uz cv (map M ls) (map M ld) (map M lg).
Proof.
  intros A dx dy dz kG s o ls ld lg HA M. split; [|split].
  - unfold M. rewrite <- !map_app. now apply pots_rigid.
  - now apply bodies_rigid.
  - intros R0 D k m a d ue uz cv. now apply clear_rigid.
Qed.

(** The whole analysis of one galaxy given in two systems of axes with two origins, in any two orders and on any two
    platforms and backends: each analysis returns if no unbound star precedes a bound one in its own order, and a star
    whose exact label is clear by the margin gets that label in both. *)
Lemma c110_labels : forall (A : matR) dx dy dz sm1 sm1' sm2 sm2' k kG s rt K1 K2 argsort1 argsort2 G1 G2 table1 table2 name1 name2 fma1 fma2 mm1 mm2 cut1 cut2
    (g1 : galaxy (F64s sm1)) (g2 : galaxy (F64s sm2)) junk1 junk2 ls ld lg ls' ld' lg' R0 D o m a d ue uz cv, orthogonal A -> let M := rigid A dx dy dz in
  platform (sm':=sm1') k kG s K1 argsort1 G1 table1 name1 fma1 mm1 g1 ls ld lg ->
  platform (sm':=sm2') k kG s K2 argsort2 G2 table2 name2 fma2 mm2 g2 ls' ld' lg' ->
  val (F64_rounded sm1) cut1 = XR rt -> val (F64_rounded sm2) cut2 = XR rt ->
  Permutation (map M ls) ls' -> Permutation (map M (ld ++ lg)) (ld' ++ lg') ->
  clear_galaxy kG s R0 D k o m a d ue uz cv ls ld lg ->
  fits_axes kG s R0 D k (M o) d ue uz (map M ls) (map M ld) (map M lg) ->
  ((exists ws, analysis argsort1 table1 name1 mm1 junk1 cut1 g1 = Ok ws) <-> bound_first (length ls) (bodies_of kG s o ls ld lg)) /\
  ((exists ws', analysis argsort2 table2 name2 mm2 junk2 cut2 g2 = Ok ws') <-> bound_first (length ls') (bodies_of kG s (M o) ls' ld' lg')) /\
  forall ws ws', analysis argsort1 table1 name1 mm1 junk1 cut1 g1 = Ok ws -> analysis argsort2 table2 name2 mm2 junk2 cut2 g2 = Ok ws' ->
    forall j j' p b l, nth_error ls j = Some p -> nth_error ls' j' = Some (M p) -> nth_error (bodies_of kG s o ls ld lg) j = Some b ->
      decided ((12 * d + / IZR (2 ^ 47)) / a) rt cv ue uz b l -> nth_error ws j = Some (code l) /\ nth_error ws' j' = Some (code l).
Proof.
  intros A dx dy dz sm1 sm1' sm2 sm2' k kG s rt K1 K2 argsort1 argsort2 G1 G2 table1 table2 name1 name2 fma1 fma2 mm1 mm2 cut1 cut2 g1 g2 junk1 junk2 ls ld lg ls' ld' lg' R0 D o m a d ue uz cv
    HA M F1 F2 Vc1 Vc2 Ps Pr CG FA.
  rewrite map_app in Pr. pose proof (clear_rigid A dx dy dz HA _ _ _ _ _ _ _ _ _ _ _ _ _ _ _ CG FA) as CGm. fold M in CGm.
  pose proof (clear_perm kG s R0 D k (M o) m a d ue uz cv _ _ _ _ _ _ Ps Pr CGm) as CG'.
  destruct (run_labels _ _ _ _ _ _ _ _ _ _ _ _ _ _ F1 _ _ _ _ _ _ _ _ _ CG junk1 cut1 rt Vc1) as (B1 & L1).
  destruct (run_labels _ _ _ _ _ _ _ _ _ _ _ _ _ _ F2 _ _ _ _ _ _ _ _ _ CG' junk2 cut2 rt Vc2) as (B2 & L2).
  split; [exact B1|]. split; [exact B2|]. intros ws ws' Hw Hw' j j' p b l Hj Hj' Hb Hd.
  assert (Hm : nth_error (map M ls) j = Some (M p)) by now rewrite nth_error_map, Hj.
  destruct (body_same kG s (M o) _ _ _ _ _ _ Ps Pr j j' (M p) Hm Hj') as (b' & Eb & Eb'). unfold M in Eb. rewrite (bodies_rigid A dx dy dz HA) in Eb. assert (b' = b) as -> by congruence.
  split; [eapply L1|eapply L2]; eauto; apply nth_error_Some; congruence.
Qed.

(** With JHistogram and any generators that draw without replacement: if no unbound star precedes a bound one in either
    order and every bound star is settled (C99), both analyses return and give the same numbers of stars of each exact cell
    to the spheroid and to the disc. *)
Lemma c110_cells : forall (A : matR) dx dy dz sm1 sm1' sm2 sm2' k kG s K1 K2 argsort1 argsort2 G1 G2 table1 table2 name1 name2 fma1 fma2 mm1 mm2
    (g1 : galaxy (F64s sm1)) (g2 : galaxy (F64s sm2)) junk1 junk2 ls ld lg ls' ld' lg' R0 D o m a d ue uz cv, orthogonal A -> let M := rigid A dx dy dz in
  platform (sm':=sm1') k kG s K1 argsort1 G1 table1 name1 fma1 mm1 g1 ls ld lg ->
  platform (sm':=sm2') k kG s K2 argsort2 G2 table2 name2 fma2 mm2 g2 ls' ld' lg' ->
  Permutation (map M ls) ls' -> Permutation (map M (ld ++ lg)) (ld' ++ lg') ->
  clear_galaxy kG s R0 D k o m a d ue uz cv ls ld lg ->
  fits_axes kG s R0 D k (M o) d ue uz (map M ls) (map M ld) (map M lg) ->
  (forall j b, (j < length ls)%nat -> nth_error (bodies_of kG s o ls ld lg) j = Some b ->
    settled ((12 * d + / IZR (2 ^ 47)) / a) cv ue uz (clearly_lowest (pot_error (length (ls ++ ld ++ lg)) R0 D) (exact_pots kG s (ls ++ ld ++ lg)) j) b) ->
  bound_first (length ls) (bodies_of kG s o ls ld lg) -> bound_first (length ls') (bodies_of kG s (M o) ls' ld' lg') ->
  forall St1 St2 (choice1 : St1 -> list nat -> nat -> list nat * St1) (choice2 : St2 -> list nat -> nat -> list nat * St2) st1 st2, draws choice1 -> draws choice2 ->
  exists ws ws', hist_analysis argsort1 table1 name1 mm1 choice1 junk1 st1 g1 = Ok ws /\ hist_analysis argsort2 table2 name2 mm2 choice2 junk2 st2 g2 = Ok ws' /\
    forall c l l' r r', (0 <= c < 50)%Z -> NoDup l -> NoDup l' -> NoDup r -> NoDup r' ->
      (forall j, In j l <-> in_cell (length ls) (bodies_of kG s o ls ld lg) ue uz cv c j) -> (forall j, In j l' <-> in_cell (length ls) (bodies_of kG s o ls ld lg) ue uz cv (-1 - c) j) ->
      (forall j, In j r <-> in_cell (length ls') (bodies_of kG s (M o) ls' ld' lg') ue uz cv c j) -> (forall j, In j r' <-> in_cell (length ls') (bodies_of kG s (M o) ls' ld' lg') ue uz cv (-1 - c) j) ->
      count_label 0 ws l = count_label 0 ws' r /\ count_label 1 ws l = count_label 1 ws' r /\
      count_label 0 ws l' = length l' /\ count_label 0 ws' r' = length l'.
Proof.
  intros A dx dy dz sm1 sm1' sm2 sm2' k kG s K1 K2 argsort1 argsort2 G1 G2 table1 table2 name1 name2 fma1 fma2 mm1 mm2 g1 g2 junk1 junk2 ls ld lg ls' ld' lg' R0 D o m a d ue uz cv
    HA M F1 F2 Ps Pr CG FA HS B1 B2 St1 St2 choice1 choice2 st1 st2 D1 D2.
  rewrite map_app in Pr. pose proof (clear_rigid A dx dy dz HA _ _ _ _ _ _ _ _ _ _ _ _ _ _ _ CG FA) as CGm. fold M in CGm.
  pose proof (clear_perm kG s R0 D k (M o) m a d ue uz cv _ _ _ _ _ _ Ps Pr CGm) as CG'. pose proof (all_perm _ _ _ _ _ _ Ps Pr) as P.
  assert (Em : bodies_of kG s (M o) (map M ls) (map M ld) (map M lg) = bodies_of kG s o ls ld lg) by now apply bodies_rigid.
  assert (HS' : forall j b, (j < length ls')%nat -> nth_error (bodies_of kG s (M o) ls' ld' lg') j = Some b ->
    settled ((12 * d + / IZR (2 ^ 47)) / a) cv ue uz (clearly_lowest (pot_error (length (ls' ++ ld' ++ lg')) R0 D) (exact_pots kG s (ls' ++ ld' ++ lg')) j) b).
  { intros j' b Lj' Hb. destruct (nth_error ls' j') as [p|] eqn:Ep'; [|apply nth_error_None in Ep'; lia].
    assert (I : In p (map M ls)) by (eapply Permutation_in; [apply Permutation_sym, Ps|eapply nth_error_In, Ep']). apply In_nth_error in I as [j Ep].
    destruct (body_same kG s (M o) _ _ _ _ _ _ Ps Pr j j' p Ep Ep') as (b' & Eb & Eb'). assert (b' = b) as -> by congruence. rewrite Em in Eb.
    assert (Lj : (j < length ls)%nat) by (rewrite <- (map_length M); apply nth_error_Some; congruence). intros Nb. destruct (HS j b Lj Eb Nb) as [C|[C|(C & C')]]; [left; exact C|right; left; exact C|].
    right; right. split; [|exact C']. rewrite <- (Permutation_length P).
    refine (low_perm kG s _ _ _ j j' p P _ _ _); [rewrite nth_error_app1; [exact Ep|now rewrite map_length]|rewrite nth_error_app1; assumption|].
    unfold M. rewrite <- !map_app, map_length, pots_rigid by exact HA. exact C. }
  destruct (run_cells _ _ _ _ _ _ _ _ _ _ _ _ _ _ F1 _ _ _ _ _ _ _ _ _ CG _ choice1 junk1 st1 D1 HS B1) as (ws & E & W).
  destruct (run_cells _ _ _ _ _ _ _ _ _ _ _ _ _ _ F2 _ _ _ _ _ _ _ _ _ CG' _ choice2 junk2 st2 D2 HS' B2) as (ws' & E' & W').
  exists ws, ws'. split; [exact E|]. split; [exact E'|]. intros c l l' r r' Hc Nl Nl' Nr Nr' Hl Hl' Hr Hr'.
  destruct (W c l l' Hc Nl Nl' Hl Hl') as (X1 & X2 & X3). destruct (W' c r r' Hc Nr Nr' Hr Hr') as (Y1 & Y2 & Y3).
  rewrite <- Em, <- (map_length M) in Hl, Hl'.
  pose proof (cell_perm kG s (M o) _ _ _ _ _ _ ue uz cv c l r Ps Pr Nl Nr Hl Hr) as L. pose proof (cell_perm kG s (M o) _ _ _ _ _ _ ue uz cv (-1 - c) l' r' Ps Pr Nl' Nr' Hl' Hr') as L'.
  rewrite X1, X2, X3, Y1, Y2, Y3, L, L'. auto.
Qed.

(** *** An example *)
(** The galaxy of the example of C97 with the axes renamed (x' = y, y' = z, z' = x), the origin moved, the stars exchanged
    and the other particle given as gas. *)
Definition exV_axes : matR := MatR 0 1 0 0 0 1 1 0 0.
Definition exV_gal : galaxy F64 :=
  mkGal (exW_set STARS [131072; 131072] [6; 6] [0; 0] [-6; -4] [0; 0] [246; -511] [448; 0])%Z
        (exW_set DARK_MATTER [] [] [] [] [] [] [])%Z (exW_set GAS [65536] [6] [0] [-5] [0] [0] [0])%Z false.
Definition exV_stars : list particle := [Part 131072 6 0 (-6) 0 246 448; Part 131072 6 0 (-4) 0 (-511) 0].
Definition exV_dark : list particle := [Part 65536 6 0 (-5) 0 0 0].

Lemma exV_orth : orthogonal exV_axes.
Proof. unfold orthogonal, exV_axes; cbn [m11 m12 m13 m21 m22 m23 m31 m32 m33]. repeat split; ring. Qed.
Lemma exV_image : let M := rigid exV_axes 1 (-5) (-10) in map M exW_stars = rev exV_stars /\ map M exW_dark = exV_dark.
Proof.
  cbv zeta. unfold exW_stars, exW_dark, exV_stars, exV_dark, rigid, rotate, exV_axes. cbn [map rev app m11 m12 m13 m21 m22 m23 m31 m32 m33 pm px py pz pvx pvy pvz].
  split; repeat f_equal; ring.
Qed.
Lemma exV_reads : let RS := F64_rounded (seqsum 53 1024 p53 e1024) in reads_set RS (g_stars exV_gal) exV_stars /\ reads_set RS (g_gas exV_gal) exV_dark.
Proof.
  cbv zeta. set (RS := F64_rounded _).
  assert (V : forall z, (Z.abs z <= 1048576)%Z -> val RS (fZ z) = XR (IZR z)).
  { intros z Hz. unfold fZ. change (nofZ (N:=F64) z) with (nofZ (N:=F64s (seqsum 53 1024 p53 e1024)) z). rewrite (val_ofZ RS). apply (rnd_int RS). change (intmax RS) with (2 ^ 53)%Z. lia. }
  assert (M : forall zs rs, Forall2 (fun z r => (Z.abs z <= 1048576)%Z /\ IZR z = r) zs rs -> map (val RS) (fZs zs) = map XR rs).
  { induction 1 as [|z r zs rs [H1 H2] F IH]; [reflexivity|]. change (fZs (z :: zs)) with (fZ z :: fZs zs). cbn [map]. etransitivity; [exact (f_equal2 cons (V z H1) IH)|]. now rewrite H2. }
  split; repeat split; (etransitivity; [apply M; repeat (constructor; [split; [lia|reflexivity]|]); constructor|reflexivity]).
Qed.
Lemma exV_soft so : largest_softening exV_gal so -> val (F64_rounded (seqsum 53 1024 p53 e1024)) so = XR 0.
Proof.
  assert (V : val (F64_rounded (seqsum 53 1024 p53 e1024)) (fZ 0) = XR 0) by (apply (val_small (F64_rounded (seqsum 53 1024 p53 e1024))); lia).
  intros [(p & (I & _) & <- & _)|(_ & Nu)].
  - destruct I as [<-|[<-|[<-|[]]]]; exact V.
  - exfalso. apply (Nu (g_stars exV_gal)). split; [simpl; auto|]. split; [discriminate|reflexivity].
Qed.

(** Renaming the axes leaves the bounds of the errors as they are. *)
Lemma span_turn x y z : span y z x = span x y z.
Proof. unfold span. f_equal. rewrite (Rmax_comm (Rabs z) (Rabs x)), Rmax_assoc, (Rmax_comm (Rabs y) (Rabs x)), <- Rmax_assoc. reflexivity. Qed.
Lemma turn_spans q : let r := rotate exV_axes q in
  pm r = pm q /\ span (px r) (py r) (pz r) = span (px q) (py q) (pz q) /\ span (pvx r) (pvy r) (pvz r) = span (pvx q) (pvy q) (pvz q).
Proof.
  cbv zeta. unfold rotate, exV_axes. cbn [m11 m12 m13 m21 m22 m23 m31 m32 m33 pm px py pz pvx pvy pvz].
  split; [reflexivity|]. rewrite !Rmult_0_l, !Rmult_1_l, !Rplus_0_l, !Rplus_0_r. split; apply span_turn.
Qed.
Lemma turn_weights l : weights (map (rotate exV_axes) l) = weights l.
Proof.
  unfold weights. induction l as [|q l IH]; cbn [map sumR fold_right]; [reflexivity|]. unfold sumR in *. cbn [fold_right map]. rewrite IH. f_equal.
  destruct (turn_spans q) as (A & B & C). unfold weight. now rewrite A, B, C.
Qed.
Lemma turn_within q : SpecChain.within q -> SpecChain.within (rotate exV_axes q).
Proof. destruct (turn_spans q) as (A & B & C). unfold SpecChain.within. now rewrite A, B, C. Qed.
Lemma turn_resolved u k t l d ue uz q x : resolved u k t l d ue uz q x -> resolved u k t (map (rotate exV_axes) l) d ue uz (rotate exV_axes q) x.
Proof.
  destruct (turn_spans q) as (A & B & C). unfold resolved, spin_error, reach. rewrite B, C, turn_weights, norm_orth, kinr_orth by exact exV_orth. auto.
Qed.

Lemma exV_fits : let M := rigid exV_axes 1 (-5) (-10) in
  fits_axes 1 0 6 1 (2 * INR 2) (M (Part 65536 5 5 5 0 0 0)) (/ 150000) 262144 511 (map M exW_stars) (map M exW_dark) (map M []).
Proof.
  cbv zeta. destruct (exW_from (Part 65536 5 5 5 0 0 0)) as (Fs & Fd); [reflexivity..|].
  constructor.
  - destruct exV_image as (-> & ->). 
    assert (O : forall a, a = 0 \/ 1 <= Rabs a <= 6 -> ordinary a /\ Rabs a <= 6).
    { intros a [->|Ha]; [split; [left; reflexivity|rewrite Rabs_R0; lra]|]. split; [|lra]. unfold ordinary. change (IZR (2 ^ 16)) with 65536. change (IZR (2 ^ 39)) with 549755813888. right. lra. }
    intros q a Hq Ha. apply O. destruct Hq as [<-|[<-|[<-|[]]]]; cbn [px py pz] in Ha;
      (destruct Ha as [<-|[<-|[<-|[]]]]; [right; rewrite Rabs_pos_eq by lra; lra|left; reflexivity|right; rewrite Rabs_left by lra; lra]).
  - rewrite seen_rigids, Fs. destruct exW_spin as (W & L & K & S1 & S2).
    split; [intros q J; apply in_map_iff in J as (p & <- & J); apply turn_within, W, J|]. rewrite map_length, turn_weights, norm_orth by exact exV_orth. do 3 (split; [assumption|]).
    replace (Lplane (map (rotate exV_axes) exW_seen)) with (Lplane exW_seen); [exact S2|].
    destruct exW_totals as (_ & _ & _ & _ & ->). unfold Lplane.
    assert (E : LX None (map (rotate exV_axes) exW_seen) = 99221504 /\ LY None (map (rotate exV_axes) exW_seen) = 0).
    { unfold LX, LY, exW_seen, lx, ly, rotate, exV_axes. cbn [map filter inside sumR fold_right pm px py pz pvx pvy pvz m11 m12 m13 m21 m22 m23 m31 m32 m33]. split; ring. }
    destruct E as (-> & ->). symmetry. replace (_ + _) with (99221504 * 99221504) by ring. apply sqrt_square. lra.
  - cbn [map]. rewrite app_nil_r, seen_rigids, Fd. intros q J. apply in_map_iff in J as (p & <- & [<-|[]]). apply turn_within.
    destruct exW_spans as (_ & _ & S3 & _). assert (E1 : 65536 <= bpow radix2 99) by (change 65536 with (bpow radix2 16); apply bpow_le; lia).
    unfold SpecChain.within. cbn [pm px py pz pvx pvy pvz]. rewrite Rabs_pos_eq by lra. repeat split; lra.
  - rewrite <- !map_app, pots_rigid by exact exV_orth. rewrite exW_pots, map_length. change (length (exW_stars ++ exW_dark ++ [])) with 3%nat.
    rewrite !seen_rigids, Fs, !map_app, Fs, Fd. cbn [map]. rewrite !app_nil_r. intros q x J.
    assert (J' : exists p, q = rotate exV_axes p /\ In (p, x) (combine (exW_seen ++ [Part 65536 0 0 0 0 0 0]) [-131072; -131072; -262144])).
    { clear - J. revert J. change (map (rotate exV_axes) exW_seen ++ [rotate exV_axes (Part 65536 0 0 0 0 0 0)]) with (map (rotate exV_axes) (exW_seen ++ [Part 65536 0 0 0 0 0 0])).
      generalize (exW_seen ++ [Part 65536 0 0 0 0 0 0]) [-131072; -131072; -262144]. intros l. induction l as [|p l IH]; intros [|y ys]; cbn [map combine]; try (intros []).
      - injection H as <- <-. exists p. split; [reflexivity|]. now left.
      - destruct (IH ys H) as (p' & E & J). exists p'. split; [exact E|]. now right. }
    destruct J' as (p & -> & J'). apply turn_resolved. now apply exW_resolved.
Qed.

(** Both galaxies, one with the Fortran module and the other with numpy, meet the hypotheses of C110; the slower
    star is decided to be labelled 1 for the cut 1/4, and in both runs it is.  With the cut 9/10 it is labelled 0, as star
    number 1 in the first run and as star number 0 in the second. *)
Example ex_c110 : let M := rigid exV_axes 1 (-5) (-10) in
  let cv := [(-1, 0); (-1023 / 524288, 1)] in let o := Part 65536 5 5 5 0 0 0 in
  orthogonal exV_axes /\
  platform (sm:=seqsum 53 1024 p53 e1024) (sm':=seqsum 24 128 p24 e128) (2 * INR 2) 1 0 (fun n => 2 * INR n) asort n1 (backend_table n1 true junk0) "fortran" fma64 (plain_matmul (S:=F64)) exW_gal exW_stars exW_dark [] /\
  platform (sm:=seqsum 53 1024 p53 e1024) (sm':=seqsum 24 128 p24 e128) (2 * INR 2) 1 0 (fun n => 2 * INR n) asort n1 (backend_table n1 false junk0) "numpy" fma64 (plain_matmul (S:=F64)) exV_gal exV_stars [] exV_dark /\
  Permutation (map M exW_stars) exV_stars /\ Permutation (map M (exW_dark ++ [])) ([] ++ exV_dark) /\
  clear_galaxy 1 0 6 1 (2 * INR 2) o (/ 1000) (99 / 100) (/ 150000) 262144 511 cv exW_stars exW_dark [] /\
  fits_axes 1 0 6 1 (2 * INR 2) (M o) (/ 150000) 262144 511 (map M exW_stars) (map M exW_dark) (map M []) /\
  bound_first 2 (bodies_of 1 0 o exW_stars exW_dark []) /\ bound_first 2 (bodies_of 1 0 (M o) exV_stars [] exV_dark) /\
  nth_error (bodies_of 1 0 o exW_stars exW_dark []) 1 = Some (-462, 246) /\
  decided ((12 * / 150000 + / IZR (2 ^ 47)) / (99 / 100)) (1 / 4) cv 262144 511 (-462, 246) (Some 1%Z) /\
  rmap shows (analysis (sm:=seqsum 53 1024 p53 e1024) (sm':=seqsum 24 128 p24 e128) asort (backend_table n1 false junk0) "numpy" (plain_matmul (S:=F64)) (fun _ => 77%Z) (nlit 1 4) exV_gal) = Ok [sZ 1; sZ 1; S754_nan] /\
  rmap shows (analysis (sm:=seqsum 53 1024 p53 e1024) (sm':=seqsum 24 128 p24 e128) asort (backend_table n1 true junk0) "fortran" (plain_matmul (S:=F64)) (fun _ => 77%Z) (nlit 9 10) exW_gal) = Ok [sZ 1; sZ 0; S754_nan] /\
  rmap shows (analysis (sm:=seqsum 53 1024 p53 e1024) (sm':=seqsum 24 128 p24 e128) asort (backend_table n1 false junk0) "numpy" (plain_matmul (S:=F64)) (fun _ => 77%Z) (nlit 9 10) exV_gal) = Ok [sZ 0; sZ 1; S754_nan] /\
  rmap shows (hist_analysis (sm:=seqsum 53 1024 p53 e1024) (sm':=seqsum 24 128 p24 e128) asort (backend_table n1 false junk0) "numpy" (plain_matmul (S:=F64)) turns (fun _ => 77%Z) false exV_gal) = Ok [sZ 1; sZ 1; S754_nan].
Proof.
  intros M cv o. destruct ex_c108 as (P1 & _ & _ & _ & CG & B1 & _ & Hb & Hd & _). fold cv o in CG, B1, Hb, Hd.
  destruct exV_image as (Is & Id). fold M in Is, Id.
  assert (Ps : Permutation (map M exW_stars) exV_stars) by (rewrite Is; apply Permutation_sym, Permutation_rev).
  assert (Pr : Permutation (map M (exW_dark ++ [])) ([] ++ exV_dark)) by (rewrite app_nil_r, Id; apply Permutation_refl).
  assert (Vn1 : val (F32_rounded (seqsum 24 128 p24 e128)) n1 = XR 1) by (apply (val_small (F32_rounded (seqsum 24 128 p24 e128))); lia).
  assert (Vn0 : val (F32_rounded (seqsum 24 128 p24 e128)) n0 = XR 0) by (apply (val_small (F32_rounded (seqsum 24 128 p24 e128))); lia).
  split; [exact exV_orth|]. split; [exact P1|]. split.
  { constructor; auto.
    - apply c68_double.
    - apply Rle_refl.
    - apply c94_fma64.
    - apply c94_plain.
    - exact (asort_sorting (F64_rounded (seqsum 53 1024 p53 e1024))).
    - apply by_numpy; [exact seqsum_added|]. intros i. exact Vn0.
    - split; [|reflexivity]. apply constructible_ok, gal_ok_facts. constructor; try reflexivity.
      all: apply pset_ok_iff; split; [|reflexivity]; repeat split; intros p H; discriminate H.
    - exact (proj1 exV_reads).
    - repeat split.
    - exact (proj2 exV_reads).
    - exact exV_soft. }
  split; [exact Ps|]. split; [exact Pr|]. split; [exact CG|]. split; [exact exV_fits|]. split; [exact B1|]. split.
  { intros i j bi bj (L1 & L2) Hi Hj Nj. destruct i as [|i]; [|lia].
    destruct (body_same 1 0 (M o) (map M exW_stars) (map M exW_dark) (map M []) _ _ _ Ps ltac:(rewrite <- map_app; exact Pr) 1 0 (Part 131072 6 0 (-6) 0 246 448)) as (b & B & B'); [now rewrite Is|reflexivity|].
    unfold M in B. rewrite (bodies_rigid _ _ _ _ exV_orth) in B. fold M in B. rewrite Hb in B. injection B as <-. rewrite Hi in B'. injection B' as ->. cbn [fst]. lra. }
  split; [exact Hb|]. split; [exact Hd|].
  split; [vm_compute; reflexivity|]. split; [vm_compute; reflexivity|]. split; vm_compute; reflexivity.
Qed.
