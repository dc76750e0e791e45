(** Circularity of the stars that make the circular curve (C74). *)
From Verif Require Import Py Num RX F64 Np Df Data DataFacts DfFacts RebuildFacts Center CenterFacts Align Spec SpecR SpecCirc Ex DataThms CenterThms AlignFacts AlignThms Circ CircFacts CurveFacts CircThms OrderThms.
From Flocq Require Import Core.Raux IEEE754.BinarySingleNaN.
From Coq Require Import Lra Lia Sorted Floats.SpecFloat.

Section Node.
Context {N : Num} (RN : Rounded N).
Local Notation v := (val RN).

Lemma node_eq_le (x w : N) : neqb x w = true -> nle x w = true.
Proof. intros H. apply (neqb_iff RN) in H as [H1 H2]. apply (nle_iff RN). rewrite H1 in *. now apply xle_refl. Qed.
Lemma node_lt_not_le (x w y : N) : neqb x w = true -> nlt x y = true -> nle y w = false.
Proof.
  intros H L. apply (neqb_iff RN) in H as [H1 H2]. apply (nlt_iff RN) in L. apply (nle_false RN). rewrite H1 in L.
  intros C. exact (xlt_not_le _ _ L C).
Qed.
Lemma node_lt_trans (x w y : N) : nlt x y = true -> neqb y w = true -> nle x w = true.
Proof.
  intros L H. apply (neqb_iff RN) in H as [H1 H2]. apply (nlt_iff RN) in L. apply (nle_iff RN). rewrite H1 in L. now apply xlt_le.
Qed.
Lemma interp_seg_node (w : N) : forall pts x0 y0 x y, StronglySorted lt_pt ((x0, y0) :: pts) ->
  In (x, y) ((x0, y0) :: pts) -> neqb x w = true -> interp_seg w x0 y0 pts = y.
Proof.
  induction pts as [|[x1 y1] pts IH]; intros x0 y0 x y S I E; simpl.
  - destruct I as [[= <- <-]|[]]. reflexivity.
  - apply StronglySorted_inv in S as [S F]. destruct I as [[= <- <-]|I].
    + assert (L : nlt x0 x1 = true) by (inversion F; assumption).
      rewrite (node_lt_not_le _ _ _ E L), E. reflexivity.
    + assert (L : nle x1 w = true).
      { destruct I as [[= <- <-]|I]; [now apply node_eq_le|].
        apply StronglySorted_inv in S as [_ F']. rewrite Forall_forall in F'. apply F' in I. eapply node_lt_trans; eauto. }
      rewrite L. eapply IH; eauto.
Qed.
Lemma interp1_node (w : N) pts x y : StronglySorted lt_pt pts -> In (x, y) pts -> neqb x w = true -> interp1 pts w = y.
Proof.
  intros S I E. unfold interp1. destruct pts as [|[x0 y0] pts]; [destruct I|].
  assert (nisnan w = false) as ->.
  { apply (neqb_iff RN) in E as [E1 E2]. apply (nisnan_false RN). now rewrite <- E1. }
  assert (nlt w x0 = false) as ->.
  { apply (nlt_false RN). intros C. pose proof E as E'. apply (neqb_iff RN) in E' as [E1 _].
    destruct I as [[= <- <-]|I].
    - rewrite E1 in C. exact (xlt_not_le _ _ C (xlt_le _ _ C)).
    - apply StronglySorted_inv in S as [_ F]. rewrite Forall_forall in F. apply F in I. apply (nlt_iff RN) in I.
      simpl in I. rewrite E1 in I. pose proof (xlt_trans _ _ _ C I) as K. exact (xlt_not_le _ _ K (xlt_le _ _ K)). }
  eapply interp_seg_node; eauto.
Qed.
Lemma div_abs_self (a : N) : nfin a = true -> neqb a n0 = false ->
  if nlt n0 a then neqb (a / nabs a)%num n1 = true else neqb (a / nabs a)%num nm1 = true.
Proof.
  intros F Z. apply (nfin_iff RN) in F as [r V].
  assert (Hr : r <> 0%R).
  { intros ->. assert (neqb a n0 = true); [|congruence]. apply (neqb_iff RN). rewrite V, (val_n0 RN). split; [reflexivity|discriminate]. }
  assert (D : v (a / nabs a)%num = rnd RN (XR (r / Rabs r))).
  { rewrite (val_div RN) by (rewrite (val_abs RN), V; simpl; intros [= E]; revert E; now apply Rabs_no_R0).
    rewrite (val_abs RN), V. simpl. destruct (Req_EM_T (Rabs r) 0) as [E|]; [exfalso; revert E; now apply Rabs_no_R0|reflexivity]. }
  destruct (nlt n0 a) eqn:L.
  - apply (nlt_iff RN) in L. rewrite (val_n0 RN), V in L. simpl in L.
    apply (neqb_iff RN). rewrite D, (val_n1 RN), Rabs_pos_eq by lra. replace (r / r)%R with (IZR 1) by (field; exact Hr).
    rewrite (rnd_int RN) by (pose proof (intmax_pos RN); lia). split; [reflexivity|discriminate].
  - apply (nlt_false RN) in L. rewrite (val_n0 RN), V in L. simpl in L.
    apply (neqb_iff RN). rewrite D, (val_nm1 RN), Rabs_left by lra. replace (r / - r)%R with (IZR (-1)) by (field; exact Hr).
    rewrite (rnd_int RN) by (pose proof (intmax_pos RN); lia). split; [reflexivity|discriminate].
Qed.
Lemma eqb_eq (a b : N) : neqb a b = true -> neqb a n0 = false -> a = b.
Proof.
  intros H Z. apply (neqb_iff RN) in H as [H _]. apply (val_inj RN); [exact H|]. intros C.
  assert (neqb a n0 = true); [|congruence]. apply (neqb_iff RN). rewrite C, (val_n0 RN). split; [reflexivity|discriminate].
Qed.
End Node.

(** The interpolated value at a point of the curve. *)
Lemma curve_at_node (N : Num) (RN : Rounded N) argsort (g : galaxy N) b0 b1 l0 l1 j i x y w :
  constructible g -> sorting argsort ->
  arange nm1 (nlit (-1) 10) b0 = Ok l0 -> arange (nlit (-1) 10) n0 b1 = Ok l1 ->
  nth_error (l0 ++ l1) 0 = Some nm1 ->
  (forall i k a b, (i < k)%nat -> nth_error (l0 ++ l1) i = Some a -> nth_error (l0 ++ l1) k = Some b -> nle a b = true) ->
  jcirc argsort g b0 b1 = Ok j ->
  nth_error (jc_x j) i = Some x -> nth_error (jc_y j) i = Some y -> neqb x w = true ->
  interp1 (combine (jc_x j) (jc_y j)) w = y.
Proof.
  intros Hg Hs H0 H1 Hf Hle Hj Hx Hy E.
  destruct (c27_edges N RN argsort g b0 b1 l0 l1 j Hg Hs H0 H1 Hf Hle Hj) as (Len & _ & Inc & _).
  assert (C : nth_error (combine (jc_x j) (jc_y j)) i = Some (x, y)).
  { clear - Hx Hy. revert Hx Hy. generalize (jc_x j) (jc_y j). induction i as [|i IH]; intros [|a l] [|b l'] Hx Hy; try discriminate; simpl in *.
    - congruence.
    - auto. }
  assert (S : StronglySorted lt_pt (combine (jc_x j) (jc_y j))).
  { apply SS_nth. intros p q a b Hpq Ha Hb. unfold lt_pt.
    assert (X : forall n c, nth_error (combine (jc_x j) (jc_y j)) n = Some c -> nth_error (jc_x j) n = Some (fst c)).
    { clear. generalize (jc_x j) (jc_y j). intros l l' n. revert l l'. induction n as [|n IH]; intros [|a l] [|b l'] c Hc; try discriminate; simpl in *.
      - injection Hc as <-. reflexivity.
      - eauto. }
    eapply Inc; [exact Hpq|apply X; exact Ha|apply X; exact Hb]. }
  exact (interp1_node RN _ _ x y S (nth_error_In _ _ C) E).
Qed.

(** C74: at the energy of a point of the curve the circular angular momentum is exactly that of the point, in any
    arithmetic; a star with that energy and that |Jz|, neither zero nor NaN, has circularity exactly 1 or -1, with the sign
    of its Jz. *)
Lemma c74_node : forall (N : Num) (RN : Rounded N) argsort (g : galaxy N) b0 b1 l0 l1 j,
  constructible g -> sorting argsort ->
  arange nm1 (nlit (-1) 10) b0 = Ok l0 -> arange (nlit (-1) 10) n0 b1 = Ok l1 ->
  nth_error (l0 ++ l1) 0 = Some nm1 ->
  (forall i k a b, (i < k)%nat -> nth_error (l0 ++ l1) i = Some a -> nth_error (l0 ++ l1) k = Some b -> nle a b = true) ->
  jcirc argsort g b0 b1 = Ok j ->
  exists ue uz up, units g ue uz up /\
    forall k o i x y, nth_error (star_orbits g) k = Some o -> bound o = true ->
      nth_error (jc_x j) i = Some x -> nth_error (jc_y j) i = Some y -> neqb x (o_e o / ue)%num = true ->
      let raw := (o_jz o / uz / y)%num in
      nth_error (jc_eps j) k = Some (if nlt n1 raw || nlt raw nm1 then nnan else raw) /\
      (y = nabs (o_jz o / uz)%num -> nisnan y = false -> neqb y n0 = false ->
       exists e, nth_error (jc_eps j) k = Some e /\
         if nlt n0 (o_jz o / uz)%num then neqb e n1 = true else neqb e nm1 = true).
Proof.
  intros N RN argsort g b0 b1 l0 l1 j Hg Hs H0 H1 Hf Hle Hj.
  destruct (c24_eps N RN argsort g b0 b1 j Hg Hj) as (_ & ue & uz & up & U & V).
  exists ue, uz, up. split; [exact U|]. intros k o i x y Hk Bo Hx Hy E raw.
  destruct (V k o Hk Bo) as (_ & _ & V3 & _). cbv zeta in V3.
  rewrite (curve_at_node N RN argsort g b0 b1 l0 l1 j i x y _ Hg Hs H0 H1 Hf Hle Hj Hx Hy E) in V3. fold raw in V3.
  split; [rewrite V3; destruct (_ || _); reflexivity|].
  intros Ey Nn Nz.
  assert (In o (filter bound (all_orbits g))) as Io by (apply filter_In; split; [apply star_in_all; eapply nth_error_In; eauto|exact Bo]).
  assert (W : within nm1 n1 (o_jz o / uz)%num) by (eapply (z_within RN); [apply U|exact Io]).
  set (z := (o_jz o / uz)%num) in *.
  destruct W as [W|[W1 W2]].
  { exfalso. apply (nisnan_iff RN) in W. apply (nisnan_false RN) in Nn. apply Nn. rewrite Ey, (val_abs RN), W. reflexivity. }
  assert (Fz : nfin z = true).
  { apply (nle_iff RN) in W1, W2. rewrite (val_nm1 RN) in W1. rewrite (val_n1 RN) in W2. apply (nfin_iff RN).
    destruct (val RN z) as [r| | |]; try contradiction. exists r. reflexivity. }
  assert (Zz : neqb z n0 = false).
  { destruct (neqb z n0) eqn:Q; [|reflexivity]. apply (neqb_iff RN) in Q as [Q _]. rewrite (val_n0 RN) in Q.
    assert (neqb y n0 = true); [|congruence]. apply (neqb_iff RN). rewrite Ey, (val_abs RN), Q, (val_n0 RN). simpl. rewrite Rabs_R0.
    split; [reflexivity|discriminate]. }
  pose proof (div_abs_self RN z Fz Zz) as D. rewrite <- Ey in D. fold raw in D.
  exists raw. split; [|exact D]. rewrite V3.
  assert (nlt n1 raw || nlt raw nm1 = false) as ->; [|reflexivity].
  apply orb_false_iff. destruct (nlt n0 z); apply (neqb_iff RN) in D as [D _]; rewrite ?(val_n1 RN), ?(val_nm1 RN) in D;
    split; apply (nlt_false RN); rewrite D, ?(val_n1 RN), ?(val_nm1 RN); simpl; lra.
Qed.

(** The same in terms of the outputs. *)
Lemma node_out (N : Num) (RN : Rounded N) argsort (g : galaxy N) b0 b1 l0 l1 j k i e z x y :
  constructible g -> sorting argsort ->
  arange nm1 (nlit (-1) 10) b0 = Ok l0 -> arange (nlit (-1) 10) n0 b1 = Ok l1 ->
  nth_error (l0 ++ l1) 0 = Some nm1 ->
  (forall i k a b, (i < k)%nat -> nth_error (l0 ++ l1) i = Some a -> nth_error (l0 ++ l1) k = Some b -> nle a b = true) ->
  jcirc argsort g b0 b1 = Ok j ->
  nth_error (jc_E j) k = Some e -> nth_error (jc_Jz j) k = Some z ->
  nth_error (jc_x j) i = Some x -> nth_error (jc_y j) i = Some y -> neqb x e = true ->
  nth_error (jc_eps j) k = Some (z / y)%num /\
  (y = nabs z -> nisnan y = false -> neqb y n0 = false ->
   if nlt n0 z then neqb (z / y)%num n1 = true else neqb (z / y)%num nm1 = true).
Proof.
  intros Hg Hs A0 A1 F M Hj He Hz Hx Hy E.
  destruct (c74_node _ RN argsort g _ _ l0 l1 j Hg Hs A0 A1 F M Hj) as (ue & uz & up & U & V).
  destruct (c24_eps _ RN argsort g _ _ j Hg Hj) as (_ & ue' & uz' & up' & U' & V').
  destruct (units_unique RN g g ue uz up ue' uz' up' (Permutation_refl _) U U') as (<- & <- & <-). clear U'.
  assert (Ne : nisnan e = false).
  { apply (neqb_iff RN) in E as [E1 E2]. apply (nisnan_false RN). now rewrite <- E1. }
  pose proof (proj1 (constructible_ok g) Hg) as Hg'.
  destruct (nth_error (star_orbits g) k) as [o|] eqn:Ho.
  2:{ exfalso. apply nth_error_None in Ho. destruct (c31_lengths _ RN argsort g _ _ j Hg Hj) as (L & _).
      apply gal_ok_facts in Hg' as [s1 _ _ _ _ _ _ _ _]. destruct (orbits_cols _ s1) as (_ & _ & _ & _ & Ls).
      unfold star_orbits in Ho. rewrite Ls, <- L in Ho. apply nth_error_None in Ho. congruence. }
  destruct (bound o) eqn:Bo.
  2:{ exfalso. destruct (jcirc_inv RN _ _ _ _ _ Hg' Hj) as (c & edges & _ & _ & _ & _ & _ & ->).
      cbn [jc_E result] in He. rewrite map_map, nth_error_map, Ho in He. cbn [option_map] in He. injection He as <-.
      unfold kept, keep in Ne. change (kb (krow_of o)) with (bound o) in Ne. rewrite Bo in Ne. cbn [andb] in Ne.
      rewrite (nnan_isnan RN) in Ne. discriminate. }
  destruct (V' k o Ho Bo) as (V1 & V2 & V3 & _). cbv zeta in V1, V2, V3.
  destruct (_ || _) in V1, V2, V3.
  { exfalso. rewrite He in V1. injection V1 as ->. rewrite (nnan_isnan RN) in Ne. discriminate. }
  rewrite He in V1. injection V1 as ->. rewrite Hz in V2. injection V2 as ->.
  destruct (V k o i x y Ho Bo Hx Hy E) as [W1 W2]. cbv zeta in W2.
  rewrite (curve_at_node N RN argsort g b0 b1 l0 l1 j i x y _ Hg Hs A0 A1 F M Hj Hx Hy E) in V3.
  split; [exact V3|]. intros Ey Nn Nz. destruct (W2 Ey Nn Nz) as (r & R1 & R2). rewrite V3 in R1. injection R1 as <-. exact R2.
Qed.

(** C74: the same in terms of the outputs, in binary64 with the default bins. *)
Lemma c74_default : forall sm argsort (g : galaxy (F64s sm)) j k i e z x y,
  constructible g -> sorting argsort -> jcirc argsort g default_bin0 default_bin1 = Ok j ->
  nth_error (jc_E j) k = Some e -> nth_error (jc_Jz j) k = Some z ->
  nth_error (jc_x j) i = Some x -> nth_error (jc_y j) i = Some y -> neqb x e = true ->
  nth_error (jc_eps j) k = Some (z / y)%num /\
  (y = nabs z -> nisnan y = false -> neqb y n0 = false ->
   if nlt n0 z then neqb (z / y)%num n1 = true else neqb (z / y)%num nm1 = true).
Proof.
  intros sm argsort g j k i e z x y Hg Hs Hj He Hz Hx Hy E.
  destruct (edges_check_spec _ _ (default_edges sm)) as (l0 & l1 & A0 & A1 & F & M).
  exact (node_out _ (F64_rounded sm) argsort g _ _ l0 l1 j k i e z x y Hg Hs A0 A1 F M Hj He Hz Hx Hy E).
Qed.

(** The third star makes the second point of the curve and moves backwards. *)
Example ex_c74 : edges_check (N:=F64) default_bin0 default_bin1 = true /\ sorting (@asort F64) /\
  exists (g : galaxy F64) j e z x y, constructible g /\ jcirc asort g default_bin0 default_bin1 = Ok j /\
  nth_error (jc_E j) 2 = Some e /\ nth_error (jc_Jz j) 2 = Some z /\
  nth_error (jc_x j) 1 = Some x /\ nth_error (jc_y j) 1 = Some y /\ neqb x e = true /\
  y = nabs z /\ nisnan y = false /\ neqb y n0 = false /\ nlt n0 z = false /\ fshow (z / y)%num = sZ (-1).
Proof.
  split; [apply default_edges|]. split; [exact (asort_sorting (F64_rounded _))|].
  destruct (checkG_ex s_ls s_ld s_lg default_bin0 default_bin1 (fun g j =>
    match nth_error (jc_E j) 2, nth_error (jc_Jz j) 2, nth_error (jc_x j) 1, nth_error (jc_y j) 1 with
    | Some e, Some z, Some x, Some y => neqb x e && neqb y (nabs z) && negb (nisnan y) && negb (neqb y n0) && negb (nlt n0 z) &&
        neqb (z / y)%num nm1
    | _, _, _, _ => false end)) as (g & j & H1 & H2 & H3).
  { vm_compute. reflexivity. }
  destruct (nth_error (jc_E j) 2) as [e|] eqn:E1; [|discriminate]. destruct (nth_error (jc_Jz j) 2) as [z|] eqn:E2; [|discriminate].
  destruct (nth_error (jc_x j) 1) as [x|] eqn:E3; [|discriminate]. destruct (nth_error (jc_y j) 1) as [y|] eqn:E4; [|discriminate].
  rewrite !andb_true_iff, !negb_true_iff in H3. destruct H3 as (((((Q1 & Q2) & Q3) & Q4) & Q5) & Q6).
  exists g, j, e, z, x, y. repeat (split; [first [assumption|reflexivity]|]).
  split.
  { exact (eqb_eq (F64_rounded _) _ _ Q2 Q4). }
  repeat (split; [assumption|]).
  assert (nm1 = (z / y)%num) as <-; [|reflexivity].
  symmetry. apply (eqb_eq (F64_rounded _) _ _ Q6).
  destruct (neqb (z / y)%num n0) eqn:Z; [|exact Z]. exfalso.
  apply (neqb_iff (F64_rounded _)) in Q6 as [Q6 _]. apply (neqb_iff (F64_rounded _)) in Z as [Z _].
  rewrite Q6 in Z. rewrite (val_nm1 (F64_rounded _)), (val_n0 (F64_rounded _)) in Z. injection Z as Z. lra.
Qed.
