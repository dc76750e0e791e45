(** Property lemmas about JEHistogram in the whole analysis: C111. *)
From Flocq Require Import Core BinarySingleNaN.
From Coq Require Import Lra Lia Permutation Sorted Floats.SpecFloat.
From Verif Require Import SpecPipe SpecFrame FrameThms Py Num RX F64 Np Df Data DataFacts DfFacts RebuildFacts Center CenterFacts Align Spec SpecR SpecCirc SpecAlAcc SpecBase SpecCurve SpecChain SpecFma Dgemm SpecDgemm SpecAcc SpecWhole SpecWhist SpecHist Ex DataThms CenterThms Circ Base Threshold Hist SpecPot Potential PotConcFacts PotThms SpecPotAcc SpecNpAcc Fma AlAccSum AlAccThms NpAccThms CircFacts CircThms DgemmThms EpsAccThms CurveAccThms EdgeFacts EdgeThms HistFacts HistThms SpecSplit EnergyThms SplitThms WholeThms WhistFacts WhistThms SpecAgain AgainThms SpecAxes AxesThms SpecJe.
Local Open Scope R_scope.

Section Count.
Variables (n : nat) (bodies : list (R * R)) (m ue uz : R) (cv : list (R * R)) (used : list nat) (rows : list (R * R)).
Hypothesis M0 : 0 < m.
Hypothesis Hc : exact_curve m SpecCurve.edgesR bodies ue uz cv.
Hypothesis Hex : exact_stars n bodies ue uz cv used rows.

(** The normalised energy of a kept star is that of its row, below zero. *)
Lemma row_energy r row : nth_error rows r = Some row ->
  exists b, nth_error bodies (nth r used 0%nat) = Some b /\ fst row = fst b / ue /\ -1 <= fst b / ue < 0.
Proof.
  intros Hr. destruct (Forall2_nth_r _ _ _ (es_rows _ _ _ _ _ _ _ Hex) r row Hr) as (k & Hk & b & Hb & E & _).
  rewrite (nth_error_nth _ _ 0%nat Hk). exists b. split; [exact Hb|]. split; [exact E|].
  assert (Ik : In k used) by (eapply nth_error_In; eauto). apply (es_used _ _ _ _ _ _ _ Hex) in Ik as (_ & b' & Hb' & (Nb & _)). assert (b' = b) by congruence. subst b'.
  destruct (ec_ue _ _ _ _ _ _ Hc) as (Pu & Lo). specialize (Lo b (nth_error_In _ _ Hb)). split.
  - apply (Rmult_le_reg_r ue); [exact Pu|]. unfold Rdiv. rewrite Rmult_assoc, Rinv_l, Rmult_1_r by lra. lra.
  - apply (Rmult_lt_reg_r ue); [exact Pu|]. unfold Rdiv. rewrite Rmult_assoc, Rinv_l, Rmult_1_r by lra. lra.
Qed.
Lemma box_edge j : (j <= 20)%nat -> nth j (linspace (N:=RX) nm1 n0 20) nnan = XR (IZR (Z.of_nat j) / 20 - 1).
Proof.
  intros Hj. change (@nm1 RX) with (XR (IZR (-1))). change (@n0 RX) with (XR 0). rewrite linspaceR by lia. change (Z.of_nat 20) with 20%Z. f_equal. field.
Qed.
Lemma half_open_iff j x : (j < 20)%nat -> half_open (linspace (N:=RX) nm1 n0 20) j (XR x) = true <-> IZR (Z.of_nat j) / 20 - 1 <= x < IZR (Z.of_nat j + 1) / 20 - 1.
Proof.
  intros Hj. unfold half_open. rewrite !box_edge, Bool.andb_true_iff, (nle_iff RX_rounded), (nlt_iff RX_rounded) by lia. cbn [val RX_rounded xle xlt].
  replace (Z.of_nat (S j)) with (Z.of_nat j + 1)%Z by lia. tauto.
Qed.
Lemma counted_iff j x : (j < 20)%nat -> x < 0 -> counted (linspace (N:=RX) nm1 n0 20) 20 j (XR x) = half_open (linspace (N:=RX) nm1 n0 20) j (XR x).
Proof.
  intros Hj Nx. unfold counted, half_open. f_equal. destruct (Nat.ltb_spec (S j) 20) as [L|L]; [reflexivity|]. assert (S j = 20)%nat as -> by lia. rewrite box_edge by lia.
  apply Bool.eq_iff_eq_true. rewrite (nle_iff RX_rounded), (nlt_iff RX_rounded). cbn [val RX_rounded xle xlt]. change (Z.of_nat 20) with 20%Z. lra.
Qed.
Definition energies : list RX := map (fun r => XR (fst r)) rows.
Lemma box_members b j L l mm : (j < 20)%nat -> NoDup l -> NoDup mm ->
  (forall i, In i l <-> in_cell n bodies ue uz cv (Z.of_nat b - 50) i) -> (forall i, In i mm <-> in_box n bodies ue uz cv (Z.of_nat b - 50) (Z.of_nat j) i) ->
  Permutation (map (fun r => nth r used 0%nat) L) l -> (forall r, In r L -> (r < length used)%nat) ->
  Permutation (map (fun r => nth r used 0%nat) (with_energy (half_open (linspace nm1 n0 20) j) energies L)) mm.
Proof.
  intros Hj Nl Nm Hl Hm P BL.
  pose (pred := fun i => match nth_error bodies i with Some b => Rle_bool (IZR (Z.of_nat j) / 20 - 1) (fst b / ue) && Rlt_bool (fst b / ue) (IZR (Z.of_nat j + 1) / 20 - 1) | None => false end).
  eapply Permutation_trans; [|apply (NoDup_Permutation (l:=filter pred l)); [now apply NoDup_filter|exact Nm|]].
  - eapply Permutation_trans; [|apply filter_perm, P]. rewrite CircFacts.filter_map_comm. match goal with |- Permutation (map _ ?x) (map _ ?y) => replace x with y; [apply Permutation_refl|] end. symmetry. unfold with_energy. apply filter_ext_in. intros r I.
    assert (exists row, nth_error rows r = Some row) as (row & Hr).
    { pose proof (Forall2_length _ _ _ (es_rows _ _ _ _ _ _ _ Hex)) as Lr. specialize (BL r I). destruct (nth_error rows r) eqn:E; [eauto|]. apply nth_error_None in E. lia. }
    unfold energies. rewrite nth_error_map, Hr. cbn [option_map]. destruct (row_energy r row Hr) as (bd & Hb & E & _). unfold pred. rewrite Hb, E.
    apply Bool.eq_iff_eq_true. rewrite half_open_iff, Bool.andb_true_iff by exact Hj. split.
    + intros (A & B). split; [now apply Rle_bool_true|now apply Rlt_bool_true].
    + intros (A & B). split; [revert A; case Rle_bool_spec; auto; discriminate|revert B; case Rlt_bool_spec; auto; discriminate].
  - intros i. rewrite filter_In, Hl, Hm. unfold in_box, pred. split.
    + intros (C & Q). split; [exact C|]. destruct (nth_error bodies i) as [bd|]; [|discriminate]. exists bd. split; [reflexivity|]. apply Bool.andb_true_iff in Q as (A & B).
      split; [revert A; case Rle_bool_spec; auto; discriminate|revert B; case Rlt_bool_spec; auto; discriminate].
    + intros (C & bd & Hb & A & B). split; [exact C|]. rewrite Hb, Rle_bool_true, Rlt_bool_true by assumption. reflexivity.
Qed.
Lemma rows_inside r row : nth_error rows r = Some row -> -1 <= snd row <= 1.
Proof.
  intros Hr. destruct (Forall2_nth_r _ _ _ (es_rows _ _ _ _ _ _ _ Hex) r row Hr) as (k & Hk & b & Hb & _ & Cx).
  assert (Ik : In k used) by (eapply nth_error_In; eauto). apply (es_used _ _ _ _ _ _ _ Hex) in Ik as (_ & b' & Hb' & (Nb & c & I & C & B)). assert (b' = b) by congruence. subst b'.
  rewrite (circ_single bodies m ue uz cv M0 Hc b _ (snd b / uz / c) Cx) by (exists c; auto).
  revert B. generalize (snd b / uz). intros q B. apply Rabs_le_inv in B. unfold Rdiv. split; apply (Rmult_le_reg_r c); auto; rewrite Rmult_assoc, Rinv_l, Rmult_1_r by lra; lra.
Qed.
End Count.

Lemma labelled_cons z labels r L : SpecHist.labelled z labels (r :: L) =
  ((if match nth_error labels r with Some z' => (z =? z')%Z | None => false end then 1 else 0) + SpecHist.labelled z labels L)%nat.
Proof. unfold SpecHist.labelled. cbn [filter]. destruct (match nth_error labels r with Some z' => (z =? z')%Z | None => false end); reflexivity. Qed.
Lemma both_labels (labels : list Z) L : (forall r, In r L -> nth_error labels r = Some 0%Z \/ nth_error labels r = Some 1%Z) ->
  (SpecHist.labelled 0 labels L + SpecHist.labelled 1 labels L = length L)%nat.
Proof.
  induction L as [|r L IH]; intros H; [reflexivity|]. rewrite !labelled_cons. cbn [length]. specialize (IH (fun r I => H r (or_intror I))).
  destruct (H r (or_introl eq_refl)) as [-> | ->]; cbn [Z.eqb Pos.eqb]; lia.
Qed.
Lemma filter_le {A} (f : A -> bool) l : (length (filter f l) <= length l)%nat.
Proof. induction l as [|x l IH]; cbn [filter length]; [lia|]. destruct (f x); cbn [length]; lia. Qed.
Lemma all_labelled z labels L L' : SpecHist.labelled z labels L = length L -> (forall r, In r L' -> In r L) -> SpecHist.labelled z labels L' = length L'.
Proof.
  unfold SpecHist.labelled. intros E S.
  assert (A : forall r, In r L -> match nth_error labels r with Some z' => (z =? z')%Z | None => false end = true).
  { clear S. revert E. induction L as [|r L IH]; [intros _ r []|]. cbn [filter length].
    assert (B := filter_le (fun i => match nth_error labels i with Some z' => (z =? z')%Z | None => false end) L).
    destruct (match nth_error labels r with Some z' => (z =? z')%Z | None => false end) eqn:Er; cbn [length]; intros E r' J.
    - destruct J as [<-|J]; [exact Er|]. apply IH; [now apply Nat.succ_inj|exact J].
    - exfalso. rewrite E in B. lia. }
  induction L' as [|r L' IH]; [reflexivity|]. cbn [filter]. rewrite (A r (S r (or_introl eq_refl))). cbn [length]. f_equal. apply IH. intros r' I. apply S. now right.
Qed.

(** What JEHistogram does in exact arithmetic with the exact energies and circularities, cell by cell and energy bin by
    energy bin; it never fails, as no bound star has energy zero. *)
Lemma c111_counts : forall (N : Num) (RN : Rounded N) St (choice : St -> list nat -> nat -> list nat * St) junk cb st n total bodies m ue uz cv used rows (r : res (components N * St)),
  draws choice -> 0 < m -> exact_curve m SpecCurve.edgesR bodies ue uz cv -> exact_stars n bodies ue uz cv used rows ->
  carries total used (outcome (d_split (jehistogram (N:=RX) choice junk cb 100 2 20) st (map (fun r => [CNum (N:=RX) (XR (fst r)); CNum (N:=RX) (XR (snd r))]) rows) [] [])) r ->
  exists cs st', r = Ok (cs, st') /\
    (forall i, (i < total)%nat -> ~ In i used -> nth_error (c_labels cs) i = Some nnan) /\
    energy_shares (c_labels cs) n bodies ue uz cv.
Proof.
  intros N RN St choice junk cb st n total bodies m ue uz cv used rows r HD M0 Hc Hex HC.
  assert (ColE : matrix_col 0 (map (fun r => [CNum (N:=RX) (XR (fst r)); CNum (N:=RX) (XR (snd r))]) rows) = energies rows) by (unfold matrix_col, energies; rewrite map_map; reflexivity).
  assert (ColR : matrix_col 1 (map (fun r => [CNum (N:=RX) (XR (fst r)); CNum (N:=RX) (XR (snd r))]) rows) = map (fun r => XR (snd r) : RX) rows) by (unfold matrix_col; rewrite map_map; reflexivity).
  cbn [d_split jehistogram] in HC. rewrite ColE, ColR in HC. assert (HA : arith RX) by now left.
  pose proof (es_rows _ _ _ _ _ _ _ Hex) as Fr. pose proof (Forall2_length _ _ _ Fr) as Lr.
  assert (Neg : forall e, In e (energies rows) -> exists x, e = XR x /\ x < 0).
  { intros e I. unfold energies in I. apply in_map_iff in I as (row & <- & I). apply In_nth_error in I as (i & Hi). destruct (row_energy n bodies m ue uz cv used rows Hc Hex i row Hi) as (b & _ & E & B). exists (fst row). split; [reflexivity|lra]. }
  destruct (c46_no_zero RX St choice junk 100 2 20 (energies rows) (map (fun r => XR (snd r) : RX) rows) st HA HD ltac:(lia) ltac:(lia) ltac:(lia)) as (labels & st' & E).
  { unfold energies. now rewrite !map_length. }
  { exists 50%nat. exact zero_50. }
  { intros e I. destruct (Neg e I) as (x & -> & Nx). destruct (neqb _ _) eqn:Q; [|reflexivity]. exfalso. apply (neqb_iff RX_rounded) in Q as (Q & _). cbn in Q. injection Q. lra. }
  rewrite E in HC. cbn [bind outcome rmap fst snd carries] in HC. destruct HC as (cs & -> & H1 & H2). exists cs, st'. split; [reflexivity|]. split; [exact H2|].
  destruct (c45_composition RX St choice junk 100 2 20 _ _ st labels st' HA HD ltac:(lia) ltac:(lia) ltac:(lia) E) as (bin0 & Z0 & _ & _ & HB).
  change (map (np_round 2) (linspace nm1 n1 (Z.to_nat 100))) with SplitThms.edgesR in Z0, HB. change (Z.to_nat 100) with 100%nat in HB. change (Z.to_nat 20) with 20%nat in HB.
  assert (bin0 = 50%nat) by (eapply zero_edge_unique; [exact Z0|exact zero_50]). subst bin0.
  destruct (c45_labels RX St choice junk 100 2 20 _ _ st labels st' HA HD ltac:(lia) ltac:(lia) ltac:(lia) E) as (LL & LV). rewrite map_length in LL.
  assert (LB : forall r, (r < length used)%nat -> nth_error labels r = Some 0%Z \/ nth_error labels r = Some 1%Z).
  { intros r' Lu. destruct (nth_error rows r') as [row|] eqn:Hr; [|apply nth_error_None in Hr; lia].
    destruct (LV r' (XR (snd row))) as (Q & _); [now rewrite nth_error_map, Hr|]. pose proof (rows_inside n bodies m ue uz cv used rows M0 Hc Hex r' row Hr) as B.
    apply Q; apply (nle_iff RX_rounded); cbn; lra. }
  assert (CT : forall z l L, (0 <= z <= 1)%Z -> Permutation (map (fun r => nth r used 0%nat) L) l -> (forall r, In r L -> (r < length used)%nat) ->
    count_label z (c_labels cs) l = SpecHist.labelled z labels L).
  { intros z l L Hz P BL. unfold count_label. rewrite <- (filter_length_perm _ _ _ P). unfold SpecHist.labelled.
    assert (G : forall r, In r L -> match nth_error (c_labels cs) (nth r used 0%nat) with Some w => neqb w (nofZ z) | None => false end = match nth_error labels r with Some z' => (z =? z')%Z | None => false end).
    { intros r' I. destruct (nth_error used r') as [k|] eqn:Hk; [|apply nth_error_None in Hk; specialize (BL r' I); lia]. rewrite (nth_error_nth _ _ 0%nat Hk). destruct (H1 r' k Hk) as (z' & Ez & Ew). rewrite Ez, Ew.
      apply (ofZ_eqb RN); [|lia]. destruct (LB r' (BL r' I)) as [Q|Q].
      - assert (z' = 0%Z) by congruence. subst. lia.
      - assert (z' = 1%Z) by congruence. subst. lia. }
    clear - G. induction L as [|r L IH]; [reflexivity|]. cbn [map filter]. rewrite (G r (or_introl eq_refl)). destruct (match nth_error labels r with Some z' => (z =? z')%Z | None => false end); cbn [length]; rewrite IH by (intros; apply G; now right); reflexivity. }
  intros k l l' Hk Nl Nl' Hl Hl'.
  set (b := Z.to_nat (k + 50)). assert (Eb : (Z.of_nat b - 50 = k)%Z) by (unfold b; lia).
  set (b' := Z.to_nat (49 - k)). assert (Eb' : (Z.of_nat b' - 50 = -1 - k)%Z) by (unfold b'; lia).
  pose proof Hl as Hl0. pose proof Hl' as Hl0'. rewrite <- Eb in Hl. rewrite <- Eb' in Hl'.
  destruct (cell_members n bodies m ue uz cv used rows M0 Hc Hex b l ltac:(unfold b; lia) Nl Hl) as (L & ML & P & BL).
  destruct (cell_members n bodies m ue uz cv used rows M0 Hc Hex b' l' ltac:(unfold b'; lia) Nl' Hl') as (L' & ML' & P' & BL').
  assert (Ln : length l = length L) by (rewrite <- (Permutation_length P); apply map_length). assert (Ln' : length l' = length L') by (rewrite <- (Permutation_length P'); apply map_length).
  destruct (HB b' L' ltac:(unfold b'; lia) ML') as (Q1 & _). specialize (Q1 ltac:(unfold b'; lia)).
  split; [rewrite (CT 0%Z l' L' ltac:(lia) P' BL'), Ln'; exact Q1|].
  intros j0 mm mm' Hj Nm Nm' Hm Hm'. set (j := Z.to_nat j0). assert (Ej : Z.of_nat j = j0) by (unfold j; lia). assert (Lj : (j < 20)%nat) by (unfold j; lia).
  rewrite <- Ej, <- Eb in Hm. rewrite <- Ej, <- Eb' in Hm'.
  pose proof (box_members n bodies m ue uz cv used rows Hc Hex b j L l mm Lj Nl Nm Hl Hm P BL) as Pm.
  pose proof (box_members n bodies m ue uz cv used rows Hc Hex b' j L' l' mm' Lj Nl' Nm' Hl' Hm' P' BL') as Pm'.
  set (W := with_energy (half_open (linspace nm1 n0 20) j) (energies rows)) in *.
  assert (SW : forall L r, In r (W L) -> In r L) by (intros L0 r0 I; apply filter_In in I; tauto).
  assert (Lm : length mm = length (W L)) by (rewrite <- (Permutation_length Pm); apply map_length). assert (Lm' : length mm' = length (W L')) by (rewrite <- (Permutation_length Pm'); apply map_length).
  assert (BW : forall r, In r (W L) -> (r < length used)%nat) by (intros r0 I; apply BL, SW, I).
  cbv zeta. rewrite (CT 0%Z mm (W L) ltac:(lia) Pm BW), (CT 1%Z mm (W L) ltac:(lia) Pm BW), Lm, Lm', Ln, Ln'.
  assert (SUM : (SpecHist.labelled 0 labels (W L) + SpecHist.labelled 1 labels (W L) = length (W L))%nat) by (apply both_labels; intros r0 I; apply LB, BW, I).
  destruct (HB b L ltac:(unfold b; lia) ML) as (_ & _ & Q2). destruct (Q2 ltac:(unfold b; lia) L') as (_ & R1 & R2).
  { replace (2 * 50 - 1 - b)%nat with b' by (unfold b, b'; lia). exact ML'. }
  assert (G : SpecHist.labelled 0 labels (W L) = if (length L <=? length L')%nat then length (W L) else Nat.min (length (W L')) (length (W L))).
  { destruct (Nat.leb_spec (length L) (length L')) as [Le|Gt].
    - apply (all_labelled 0 labels L); [apply R1, Le|apply SW].
    - destruct (R2 Gt) as (_ & _ & R3 & _). specialize (R3 j Lj). fold W in R3. rewrite R3. f_equal. f_equal. unfold W, with_energy. apply filter_ext_in. intros r0 I.
      destruct (nth_error (energies rows) r0) as [e|] eqn:He; [|reflexivity]. destruct (Neg e (nth_error_In _ _ He)) as (x & -> & Nx). now apply counted_iff. }
  rewrite G in *. split; [reflexivity|]. lia.
Qed.

(** *** One run *)
(** The whole analysis with JEHistogram: the potential of any of the backends, centring, aligning with any matrix product
    and the decomposition, for every generator that draws without replacement.  It fails if an unbound star precedes a bound one.
    Otherwise, if every bound star is settled, it returns, stars that are not kept and other particles get NaN,
    and the stars of each cell and energy bin are shared as in exact arithmetic. *)
Lemma c111_all : forall sm sm' k kG s K argsort G table name fma mm (g : galaxy (F64s sm)) ls ld lg R0 D o m a d ue uz cv,
  platform (sm':=sm') k kG s K argsort G table name fma mm g ls ld lg ->
  clear_galaxy kG s R0 D k o m a d ue uz cv ls ld lg ->
  (forall j b, (j < length ls)%nat -> nth_error (bodies_of kG s o ls ld lg) j = Some b ->
    settled ((12 * d + / IZR (2 ^ 47)) / a) cv ue uz (clearly_lowest (pot_error (length (ls ++ ld ++ lg)) R0 D) (exact_pots kG s (ls ++ ld ++ lg)) j) b) ->
  forall St (choice : St -> list nat -> nat -> list nat * St) junk st, draws choice ->
  (bound_first (length ls) (bodies_of kG s o ls ld lg) ->
    exists ws, je_analysis argsort table name mm choice junk st g = Ok ws /\
      (forall j, (j < length (ls ++ ld ++ lg))%nat -> ~ ((j < length ls)%nat /\ exists b, nth_error (bodies_of kG s o ls ld lg) j = Some b /\ SpecWhist.kept cv ue uz b) -> nth_error ws j = Some nnan) /\
      energy_shares ws (length ls) (bodies_of kG s o ls ld lg) ue uz cv) /\
  (~ bound_first (length ls) (bodies_of kG s o ls ld lg) -> exists e, je_analysis argsort table name mm choice junk st g = Raise e).
Proof.
  intros sm sm' k kG s K argsort G table name fma mm g ls ld lg R0 D o m a d ue uz cv PF CG HS St choice junk st DC.
  destruct PF as [A1 A2 A3 A4 A5 A6 A7 (A9 & A9') A10 A11 A12 A13], CG as [H1 H2 H3 H4 H5 H6 H7 (i0 & H8 & H8') H9 H10 (H11 & H11') H12 H13 (H14 & H15)].
  set (K' := fun n => if (n =? length ls)%nat then k else K n).
  assert (U : 0 <= / IZR (2 ^ 53)) by (apply Rlt_le, Rinv_0_lt_compat, IZR_lt; reflexivity).
  assert (A1' : sums_well (F64_rounded sm) (/ IZR (2 ^ 53)) K').
  { apply (sums_more sm K); auto. intros n. unfold K'. destruct (Nat.eqb_spec n (length ls)) as [->|_]; [exact A2|apply Rle_refl]. }
  assert (EK : K' (length ls) = k) by (unfold K'; now rewrite Nat.eqb_refl).
  assert (NE : ls ++ ld ++ lg <> []) by (intros E; rewrite E in H8'; destruct i0; discriminate).
  destruct (potential_exact sm sm' table name g G kG s ls ld lg R0 D A9 A9' A10 A11 A12 A6 A7 H1 A13 H2 H3 H4 H5 H6 H7 NE) as (h0 & h1 & E0 & E1 & C0 & Rs0 & Rd0 & Rg0 & FP & Ht & Hx).
  destruct (c99_decompose sm K' argsort fma mm h0 h1 ls ld lg _ _ A1' A3 A4 A5 C0 Rs0 Rd0 Rg0 FP Ht Hx E1) as (i & o' & Lo & Cl & Ho & H).
  rewrite (Cl i0 H8) in Ho. assert (o' = o) as -> by congruence. rewrite EK in H. cbv zeta in H.
  destruct H as (h2 & E2 & H); [exact H9|intros q J; apply H10; rewrite map_app; apply in_or_app; tauto|].
  change (map2 (whole_body (map (seen_from o) ls)) (map (seen_from o) (ls ++ ld ++ lg)) (exact_pots kG s (ls ++ ld ++ lg))) with (bodies_of kG s o ls ld lg) in H.
  destruct (c99_exists (length ls) (bodies_of kG s o ls ld lg) ue uz cv) as (used & rows & Hex).
  destruct (H m a d ue uz cv used rows H11 H11' H12 H13 H14 H15 HS Hex St choice junk (default_bin0, default_bin1) st) as (HF & HN).
  assert (EA : je_analysis argsort table name mm choice junk st g = do r <- decompose argsort (jehistogram choice junk (default_bin0, default_bin1) 100 2 20) st h2; Ok (c_labels (fst r))).
  { unfold je_analysis. rewrite E0. cbn [bind]. rewrite E1. cbn [bind]. rewrite E2. reflexivity. }
  rewrite EA. split.
  - intros BF. destruct (HF BF) as (_ & HC).
    assert (M0 : 0 < m). { eapply Rlt_le_trans; [|exact H11']. assert (0 < / IZR (2 ^ 44)) by (apply Rinv_0_lt_compat, IZR_lt; reflexivity). lra. }
    destruct (c111_counts _ (F64_rounded sm) St choice junk _ st (length ls) _ _ m ue uz cv used rows _ DC M0 H13 Hex HC) as (cs & st' & Ed & A & B).
    rewrite Ed. exists (c_labels cs). split; [reflexivity|]. split; [|exact B]. intros j Lj NK. apply A; [exact Lj|]. intros I. apply NK, (es_used _ _ _ _ _ _ _ Hex), I.
  - intros NB. destruct (HN NB) as (e & _ & E). rewrite E. exists e. reflexivity.
Qed.

(** *** Two runs *)
(** A condition on energy and angular momentum holds for as many stars in both orders. *)
Lemma sel_perm (Q : R * R -> Prop) kG s o ls ld lg ls' ld' lg' l r : Permutation ls ls' -> Permutation (ld ++ lg) (ld' ++ lg') -> NoDup l -> NoDup r ->
  (forall j, In j l <-> (j < length ls)%nat /\ exists b, nth_error (bodies_of kG s o ls ld lg) j = Some b /\ Q b) ->
  (forall j, In j r <-> (j < length ls')%nat /\ exists b, nth_error (bodies_of kG s o ls' ld' lg') j = Some b /\ Q b) -> length l = length r.
Proof.
  assert (W : forall ls ld lg ls' ld' lg' l r, Permutation ls ls' -> Permutation (ld ++ lg) (ld' ++ lg') -> NoDup l ->
    (forall j, In j l <-> (j < length ls)%nat /\ exists b, nth_error (bodies_of kG s o ls ld lg) j = Some b /\ Q b) ->
    (forall j, In j r <-> (j < length ls')%nat /\ exists b, nth_error (bodies_of kG s o ls' ld' lg') j = Some b /\ Q b) -> (length l <= length r)%nat).
  { clear. intros ls ld lg ls' ld' lg' l r Ps Pr Nl Hl Hr. destruct (proj1 (Permutation_nth_error _ _) (Permutation_sym Ps)) as (L & f & Hf & Hn).
    rewrite <- (map_length f l). apply NoDup_incl_length; [now apply FinFun.Injective_map_NoDup|].
    intros j' J. apply in_map_iff in J as (j & <- & J). apply Hl in J as (Lj & b & Eb & J). apply Hr.
    destruct (nth_error ls j) as [p|] eqn:Ep; [|apply nth_error_None in Ep; lia]. pose proof (Hn j) as En. rewrite Ep in En.
    destruct (body_same kG s o _ _ _ _ _ _ Ps Pr j (f j) p Ep (eq_sym En)) as (b' & Eb1 & Eb2). assert (b' = b) as -> by congruence.
    split; [apply nth_error_Some; congruence|]. exists b. auto. }
  intros Ps Pr Nl Nr Hl Hr. apply Nat.le_antisymm; [exact (W ls ld lg ls' ld' lg' l r Ps Pr Nl Hl Hr)|].
  exact (W ls' ld' lg' ls ld lg r l (Permutation_sym Ps) (Permutation_sym Pr) Nr Hr Hl).
Qed.
Lemma box_perm kG s o ls ld lg ls' ld' lg' ue uz cv c j l r : Permutation ls ls' -> Permutation (ld ++ lg) (ld' ++ lg') -> NoDup l -> NoDup r ->
  (forall i, In i l <-> in_box (length ls) (bodies_of kG s o ls ld lg) ue uz cv c j i) ->
  (forall i, In i r <-> in_box (length ls') (bodies_of kG s o ls' ld' lg') ue uz cv c j i) -> length l = length r.
Proof.
  intros Ps Pr Nl Nr Hl Hr. 
  refine (sel_perm (fun b => (exists x, fst b < 0 /\ circularity cv ue uz b x /\ IZR c / 50 <= x /\ (x < IZR (c + 1) / 50 \/ c = 49%Z /\ x = 1)) /\ IZR j / 20 - 1 <= fst b / ue < IZR (j + 1) / 20 - 1)
    kG s o _ _ _ _ _ _ l r Ps Pr Nl Nr _ _).
  - intros i. rewrite Hl. unfold in_box, in_cell. split.
    + intros ((Li & b & x & Hb & Q) & b' & Hb' & Q'). split; [exact Li|]. exists b. assert (b' = b) as -> by congruence. eauto.
    + intros (Li & b & Hb & (x & Q) & Q'). split; [split; [exact Li|exists b, x; auto]|]. exists b. auto.
  - intros i. rewrite Hr. unfold in_box, in_cell. split.
    + intros ((Li & b & x & Hb & Q) & b' & Hb' & Q'). split; [exact Li|]. exists b. assert (b' = b) as -> by congruence. eauto.
    + intros (Li & b & Hb & (x & Q) & Q'). split; [split; [exact Li|exists b, x; auto]|]. exists b. auto.
Qed.
Lemma sub_exists n (Q : nat -> Prop) : (forall i, Q i -> (i < n)%nat) -> exists l, NoDup l /\ forall i, In i l <-> Q i.
Proof.
  intros B.
  induction n as [|n IH] in Q, B |- *.
  - exists []. split; [constructor|]. intros i. split; [intros []|intros J; specialize (B i J); lia].
  - destruct (IH (fun i => Q i /\ (i < n)%nat)) as (l & Nl & Hl); [tauto|]. destruct (Classical_Prop.classic (Q n)) as [J|J].
    + exists (n :: l). split; [constructor; [intros I; apply Hl in I; lia|exact Nl]|]. intros i. cbn [In]. rewrite Hl. split; [intros [<-|(I & _)]; auto|].
      intros I. specialize (B i I). destruct (Nat.eq_dec n i); [now left|right; split; [exact I|lia]].
    + exists l. split; [exact Nl|]. intros i. rewrite Hl. split; [tauto|]. intros I. split; [exact I|]. specialize (B i I). destruct (Nat.eq_dec i n); [subst; contradiction|lia].
Qed.

(** The whole analysis of one galaxy given in two systems of axes with two origins, in any two orders and on any two platforms and backends, with any two generators:
    JEHistogram gives the same numbers of stars of each cell and energy bin to the spheroid and to the disc. *)
Lemma c111_axes : forall (A : matR) dx dy dz sm1 sm1' sm2 sm2' k kG s K1 K2 argsort1 argsort2 G1 G2 table1 table2 name1 name2 fma1 fma2 mm1 mm2
    (g1 : galaxy (F64s sm1)) (g2 : galaxy (F64s sm2)) junk1 junk2 ls ld lg ls' ld' lg' R0 D o m a d ue uz cv, orthogonal A -> let M := rigid A dx dy dz in
  platform (sm':=sm1') k kG s K1 argsort1 G1 table1 name1 fma1 mm1 g1 ls ld lg ->
  platform (sm':=sm2') k kG s K2 argsort2 G2 table2 name2 fma2 mm2 g2 ls' ld' lg' ->
  Permutation (map M ls) ls' -> Permutation (map M (ld ++ lg)) (ld' ++ lg') ->
  clear_galaxy kG s R0 D k o m a d ue uz cv ls ld lg ->
  fits_axes kG s R0 D k (M o) d ue uz (map M ls) (map M ld) (map M lg) ->
  (forall j b, (j < length ls)%nat -> nth_error (bodies_of kG s o ls ld lg) j = Some b ->
    settled ((12 * d + / IZR (2 ^ 47)) / a) cv ue uz (clearly_lowest (pot_error (length (ls ++ ld ++ lg)) R0 D) (exact_pots kG s (ls ++ ld ++ lg)) j) b) ->
  bound_first (length ls) (bodies_of kG s o ls ld lg) -> bound_first (length ls') (bodies_of kG s (M o) ls' ld' lg') ->
  forall St1 St2 (choice1 : St1 -> list nat -> nat -> list nat * St1) (choice2 : St2 -> list nat -> nat -> list nat * St2) st1 st2, draws choice1 -> draws choice2 ->
  exists ws ws', je_analysis argsort1 table1 name1 mm1 choice1 junk1 st1 g1 = Ok ws /\ je_analysis argsort2 table2 name2 mm2 choice2 junk2 st2 g2 = Ok ws' /\
    forall c j l l' r r', (0 <= c < 50)%Z -> (0 <= j < 20)%Z -> NoDup l -> NoDup l' -> NoDup r -> NoDup r' ->
      (forall i, In i l <-> in_box (length ls) (bodies_of kG s o ls ld lg) ue uz cv c j i) -> (forall i, In i l' <-> in_box (length ls) (bodies_of kG s o ls ld lg) ue uz cv (-1 - c) j i) ->
      (forall i, In i r <-> in_box (length ls') (bodies_of kG s (M o) ls' ld' lg') ue uz cv c j i) -> (forall i, In i r' <-> in_box (length ls') (bodies_of kG s (M o) ls' ld' lg') ue uz cv (-1 - c) j i) ->
      count_label 0 ws l = count_label 0 ws' r /\ count_label 1 ws l = count_label 1 ws' r /\ length l = length r /\ length l' = length r'.
Proof.
  intros A dx dy dz sm1 sm1' sm2 sm2' k kG s K1 K2 argsort1 argsort2 G1 G2 table1 table2 name1 name2 fma1 fma2 mm1 mm2 g1 g2 junk1 junk2 ls ld lg ls' ld' lg' R0 D o m a d ue uz cv
    HA M F1 F2 Ps Pr CG FA HS B1 B2 St1 St2 choice1 choice2 st1 st2 D1 D2.
  rewrite map_app in Pr. pose proof (clear_rigid A dx dy dz HA _ _ _ _ _ _ _ _ _ _ _ _ _ _ _ CG FA) as CGm. fold M in CGm.
  pose proof (clear_perm kG s R0 D k (M o) m a d ue uz cv _ _ _ _ _ _ Ps Pr CGm) as CG'. pose proof (all_perm _ _ _ _ _ _ Ps Pr) as P.
  assert (Em : bodies_of kG s (M o) (map M ls) (map M ld) (map M lg) = bodies_of kG s o ls ld lg) by now apply bodies_rigid.
  assert (HS' : forall j b, (j < length ls')%nat -> nth_error (bodies_of kG s (M o) ls' ld' lg') j = Some b ->
    settled ((12 * d + / IZR (2 ^ 47)) / a) cv ue uz (clearly_lowest (pot_error (length (ls' ++ ld' ++ lg')) R0 D) (exact_pots kG s (ls' ++ ld' ++ lg')) j) b).
  { intros j' b Lj' Hb. destruct (nth_error ls' j') as [p|] eqn:Ep'; [|apply nth_error_None in Ep'; lia].
    assert (I : In p (map M ls)) by (eapply Permutation_in; [apply Permutation_sym, Ps|eapply nth_error_In, Ep']). apply In_nth_error in I as [j Ep].
    destruct (body_same kG s (M o) _ _ _ _ _ _ Ps Pr j j' p Ep Ep') as (b' & Eb & Eb'). assert (b' = b) as -> by congruence. rewrite Em in Eb.
    assert (Lj : (j < length ls)%nat) by (rewrite <- (map_length M); apply nth_error_Some; congruence). intros Nb. destruct (HS j b Lj Eb Nb) as [C|[C|(C & C')]]; [left; exact C|right; left; exact C|].
    right; right. split; [|exact C']. rewrite <- (Permutation_length P).
    refine (low_perm kG s _ _ _ j j' p P _ _ _); [rewrite nth_error_app1; [exact Ep|now rewrite map_length]|rewrite nth_error_app1; assumption|].
    unfold M. rewrite <- !map_app, map_length, pots_rigid by exact HA. exact C. }
  destruct (proj1 (c111_all _ _ _ _ _ _ _ _ _ _ _ _ _ _ _ _ _ _ _ _ _ _ _ _ _ F1 CG HS _ choice1 junk1 st1 D1) B1) as (ws & E & _ & W).
  destruct (proj1 (c111_all _ _ _ _ _ _ _ _ _ _ _ _ _ _ _ _ _ _ _ _ _ _ _ _ _ F2 CG' HS' _ choice2 junk2 st2 D2) B2) as (ws' & E' & _ & W').
  exists ws, ws'. split; [exact E|]. split; [exact E'|]. intros c j l l' r r' Hc Hj Nl Nl' Nr Nr' Hl Hl' Hr Hr'.
  set (bs := bodies_of kG s o ls ld lg) in *. set (bs' := bodies_of kG s (M o) ls' ld' lg') in *.
  destruct (sub_exists (length ls) (in_cell (length ls) bs ue uz cv c)) as (x & Nx & Hx); [intros i (Li & _); exact Li|].
  destruct (sub_exists (length ls) (in_cell (length ls) bs ue uz cv (-1 - c))) as (x' & Nx' & Hx'); [intros i (Li & _); exact Li|].
  destruct (sub_exists (length ls') (in_cell (length ls') bs' ue uz cv c)) as (y & Ny & Hy); [intros i (Li & _); exact Li|].
  destruct (sub_exists (length ls') (in_cell (length ls') bs' ue uz cv (-1 - c))) as (y' & Ny' & Hy'); [intros i (Li & _); exact Li|].
  destruct (W c x x' Hc Nx Nx' Hx Hx') as (_ & X). destruct (X j l l' Hj Nl Nl' Hl Hl') as (X1 & X2).
  destruct (W' c y y' Hc Ny Ny' Hy Hy') as (_ & Y). destruct (Y j r r' Hj Nr Nr' Hr Hr') as (Y1 & Y2).
  unfold bs in Em, Hl, Hl', Hx, Hx'. rewrite <- Em, <- (map_length M) in Hl, Hl', Hx, Hx'.
  pose proof (box_perm kG s (M o) _ _ _ _ _ _ ue uz cv c j l r Ps Pr Nl Nr Hl Hr) as L. pose proof (box_perm kG s (M o) _ _ _ _ _ _ ue uz cv (-1 - c) j l' r' Ps Pr Nl' Nr' Hl' Hr') as L'.
  pose proof (cell_perm kG s (M o) _ _ _ _ _ _ ue uz cv c x y Ps Pr Nx Ny Hx Hy) as Lx. pose proof (cell_perm kG s (M o) _ _ _ _ _ _ ue uz cv (-1 - c) x' y' Ps Pr Nx' Ny' Hx' Hy') as Lx'.
  rewrite X1, X2, Y1, Y2, L, L', Lx, Lx'. auto.
Qed.

(** The galaxies of the example of C110 meet the hypotheses of C111: the slower star has circularity 246/511 and normalised
    energy -231/131072, so it lies in the cell from 0.48 to 0.5 and in the last energy bin.  No star rotates the other way,
    and both runs give both stars to the disc. *)
Example ex_c111 : let M := rigid exV_axes 1 (-5) (-10) in
  let cv := [(-1, 0); (-1023 / 524288, 1)] in let o := Part 65536 5 5 5 0 0 0 in let bs := bodies_of 1 0 o exW_stars exW_dark [] in
  orthogonal exV_axes /\
  platform (sm:=seqsum 53 1024 p53 e1024) (sm':=seqsum 24 128 p24 e128) (2 * INR 2) 1 0 (fun n => 2 * INR n) asort n1 (backend_table n1 true junk0) "fortran" fma64 (plain_matmul (S:=F64)) exW_gal exW_stars exW_dark [] /\
  platform (sm:=seqsum 53 1024 p53 e1024) (sm':=seqsum 24 128 p24 e128) (2 * INR 2) 1 0 (fun n => 2 * INR n) asort n1 (backend_table n1 false junk0) "numpy" fma64 (plain_matmul (S:=F64)) exV_gal exV_stars [] exV_dark /\
  Permutation (map M exW_stars) exV_stars /\ Permutation (map M (exW_dark ++ [])) ([] ++ exV_dark) /\
  clear_galaxy 1 0 6 1 (2 * INR 2) o (/ 1000) (99 / 100) (/ 150000) 262144 511 cv exW_stars exW_dark [] /\
  fits_axes 1 0 6 1 (2 * INR 2) (M o) (/ 150000) 262144 511 (map M exW_stars) (map M exW_dark) (map M []) /\
  (forall j b, (j < 2)%nat -> nth_error bs j = Some b ->
    settled ((12 * / 150000 + / IZR (2 ^ 47)) / (99 / 100)) cv 262144 511
      (clearly_lowest (pot_error 3 6 1) (exact_pots 1 0 (exW_stars ++ exW_dark ++ [])) j) b) /\
  bound_first 2 bs /\ bound_first 2 (bodies_of 1 0 (M o) exV_stars [] exV_dark) /\ draws turns /\
  in_box 2 bs 262144 511 cv 24 19 1 /\
  rmap shows (je_analysis (sm:=seqsum 53 1024 p53 e1024) (sm':=seqsum 24 128 p24 e128) asort (backend_table n1 true junk0) "fortran" (plain_matmul (S:=F64)) turns (fun _ => 77%Z) true exW_gal) = Ok [sZ 1; sZ 1; S754_nan] /\
  rmap shows (je_analysis (sm:=seqsum 53 1024 p53 e1024) (sm':=seqsum 24 128 p24 e128) asort (backend_table n1 false junk0) "numpy" (plain_matmul (S:=F64)) turns (fun _ => 77%Z) false exV_gal) = Ok [sZ 1; sZ 1; S754_nan].
Proof.
  intros M cv o bs. destruct ex_c110 as (X1 & X2 & X3 & X4 & X5 & X6 & X7 & X8 & X9 & X10 & _). destruct ex_c108_cells as (S1 & S2 & _).
  split; [exact X1|]. split; [exact X2|]. split; [exact X3|]. split; [exact X4|]. split; [exact X5|]. split; [exact X6|]. split; [exact X7|].
  split; [exact S1|]. split; [exact X8|]. split; [exact X9|]. split; [exact S2|]. split.
  { split.
    - split; [lia|]. exists (-462, 246), (246 / 511). split; [exact X10|]. cbn [fst snd]. split; [lra|]. split.
      + exists 1. unfold cv. cbn [fst snd]. split; [apply int_skip; [lra|]; apply int_right; lra|]. split; lra.
      + change (24 + 1)%Z with 25%Z. split; [lra|left; lra].
    - exists (-462, 246). split; [exact X10|]. cbn [fst]. change (19 + 1)%Z with 20%Z. lra. }
  split; vm_compute; reflexivity.
Qed.
