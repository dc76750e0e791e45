(** Bound particles that decide nothing in jcirc (C106). *)
From Verif Require Import Py Num RX F64 Np Df Data DataFacts DfFacts RebuildFacts Center CenterFacts Align Spec SpecR SpecCirc SpecOrder SpecIdle Ex DataThms CenterThms AlignFacts AlignThms Circ CircFacts CurveFacts CircThms OrderThms.
From Flocq Require Import IEEE754.BinarySingleNaN.
From Coq Require Import Lra Lia Floats.SpecFloat.

Section Idle.
Context {N : Num} (RN : Rounded N).
Local Notation v := (val RN).

Lemma lt_not_le (x y : N) : nlt x y = true -> nle y x = false.
Proof.
  intros H. destruct (nle y x) eqn:E; [|reflexivity]. exfalso.
  apply (nlt_iff RN) in H. apply (nle_iff RN) in E. exact (xlt_not_le _ _ H E).
Qed.
Lemma lt_nan (x y : N) : nlt x y = true -> nisnan x = false /\ nisnan y = false.
Proof.
  intros H. apply (nlt_iff RN) in H. split; apply (nisnan_false RN); intros E; rewrite E in H; destruct (v x), (v y); simpl in H; try tauto; discriminate.
Qed.
Lemma lt_not_before (x y : N) : nlt x y = true -> ~ before y x.
Proof.
  intros H [B|B]; [destruct (lt_nan _ _ H); congruence|]. rewrite (lt_not_le _ _ H) in B. discriminate.
Qed.
Lemma before_trans (x y z : N) : before x y -> before y z -> before x z.
Proof.
  intros [A|A] [B|B].
  - now left.
  - exfalso. apply (nle_iff RN) in B. apply (nisnan_iff RN) in A. exact (xle_nan_l _ _ B A).
  - now left.
  - right. apply (nle_iff RN). apply (nle_iff RN) in A, B. eapply xle_trans; eauto.
Qed.

(** ** One bin *)
Section Bin.
Context {A : Type} (f : A -> N) (c cd c' : list A).
Context (P : Permutation c' (c ++ cd)).
Context (Hd : forall d, In d cd -> exists a a' rest, Permutation c (a :: a' :: rest) /\ nlt (f d) (f a) = true /\ nlt (f d) (f a') = true).

Lemma top_not_idle x r rest : Permutation c' (x :: r :: rest) -> before (f r) (f x) ->
  (forall b, In b rest -> before (f b) (f r)) ->
  exists c2, Permutation c (x :: r :: c2) /\ incl c2 rest.
Proof.
  intros Q B1 B2.
  assert (Br : forall b, In b (r :: rest) -> nlt (f r) (f b) = false).
  { intros b [<-|Hb].
    - destruct (nlt (f r) (f r)) eqn:E; [|reflexivity]. exfalso. destruct (lt_nan _ _ E) as [Z _].
      apply (lt_not_before _ _ E). right. apply (nle_iff RN). apply xle_refl. now apply (nisnan_false RN).
    - destruct (nlt (f r) (f b)) eqn:E; [|reflexivity]. exfalso. exact (lt_not_before _ _ E (B2 b Hb)). }
  assert (Bx : forall b, In b c' -> nlt (f x) (f b) = false).
  { intros b Hb. destruct (nlt (f x) (f b)) eqn:E; [|reflexivity]. exfalso. apply (lt_not_before _ _ E).
    apply (Permutation_in _ Q) in Hb as [<-|[<-|Hb]].
    - destruct (lt_nan _ _ E) as [Z _]. right. apply (nle_iff RN). apply xle_refl. now apply (nisnan_false RN).
    - exact B1.
    - eapply before_trans; [apply B2, Hb|exact B1]. }
  assert (Inc : forall b, In b c -> In b c').
  { intros b Hb. eapply Permutation_in; [apply Permutation_sym, P|]. apply in_or_app; auto. }
  assert (Nx : ~ In x cd).
  { intros I. destruct (Hd x I) as (a & a' & s & Pa & L & _).
    rewrite (Bx a) in L; [discriminate|]. apply Inc. eapply Permutation_in; [apply Permutation_sym, Pa|simpl; auto]. }
  assert (Nr : ~ In r cd).
  { intros I. destruct (Hd r I) as (a & a' & s & Pa & L & L').
    assert (R : Permutation (x :: r :: rest) (a :: a' :: s ++ cd)).
    { eapply Permutation_trans; [apply Permutation_sym, Q|]. eapply Permutation_trans; [exact P|].
      change (a :: a' :: s ++ cd) with ((a :: a' :: s) ++ cd). apply Permutation_app_tail, Pa. }
    assert (Ia : In a (x :: r :: rest)) by (eapply Permutation_in; [apply Permutation_sym, R|simpl; auto]).
    destruct Ia as [<-|Ia]; [|rewrite (Br a Ia) in L; discriminate].
    apply Permutation_cons_inv in R.
    assert (Ia' : In a' (r :: rest)) by (eapply Permutation_in; [apply Permutation_sym, R|simpl; auto]).
    rewrite (Br a' Ia') in L'. discriminate. }
  assert (R : Permutation (c ++ cd) (x :: r :: rest)).
  { eapply Permutation_trans; [apply Permutation_sym, P|exact Q]. }
  assert (Ix : In x c).
  { assert (I : In x (c ++ cd)) by (eapply Permutation_in; [apply Permutation_sym, R|simpl; auto]).
    apply in_app_or in I. tauto. }
  apply in_split in Ix as (u1 & u2 & ->).
  assert (R1 : Permutation ((u1 ++ u2) ++ cd) (r :: rest)).
  { apply (Permutation_cons_inv (a := x)). eapply Permutation_trans; [|exact R].
    change (x :: (u1 ++ u2) ++ cd) with ((x :: u1 ++ u2) ++ cd). apply Permutation_app_tail, Permutation_middle. }
  assert (Ir : In r (u1 ++ u2)).
  { assert (I : In r ((u1 ++ u2) ++ cd)) by (eapply Permutation_in; [apply Permutation_sym, R1|simpl; auto]).
    apply in_app_or in I. tauto. }
  apply in_split in Ir as (w1 & w2 & Ew). rewrite Ew in R1.
  assert (R2 : Permutation ((w1 ++ w2) ++ cd) rest).
  { apply (Permutation_cons_inv (a := r)). eapply Permutation_trans; [|exact R1].
    change (r :: (w1 ++ w2) ++ cd) with ((r :: w1 ++ w2) ++ cd). apply Permutation_app_tail, Permutation_middle. }
  exists (w1 ++ w2). split.
  - eapply Permutation_trans; [apply Permutation_sym, Permutation_middle|]. constructor. rewrite Ew. apply Permutation_sym, Permutation_middle.
  - intros b Hb. eapply Permutation_in; [exact R2|]. apply in_or_app; auto.
Qed.

Lemma picked_restrict a : picked f c' a -> picked f c a.
Proof.
  intros [x E|x r rest Q B1 B2 C|x r rest Q B1 B2 C].
  - assert (cd = []) as Z.
    { destruct cd as [|d l]; [reflexivity|]. exfalso. destruct (Hd d) as (a1 & a2 & s & Pa & _); [simpl; auto|].
      apply Permutation_length in P, Pa. rewrite app_length, E in P. simpl in *. lia. }
    rewrite Z, app_nil_r, E in P. apply Permutation_length_1_inv in P. apply picked_alone. exact P.
  - destruct (top_not_idle x r rest Q B1 B2) as (c2 & R & I). eapply picked_first; eauto.
  - destruct (top_not_idle x r rest Q B1 B2) as (c2 & R & I). eapply picked_second; eauto.
Qed.
End Bin.

(** ** The points of the curve *)
Section Points.
Context (edges : list N) (ue uz : N) (b b' ds : list (orbit N)).
Context (P : Permutation b' (b ++ ds)).
Context (Hd : forall d, In d ds -> idle edges ue uz b d).
Let E := ofE ue.
Let J (o : orbit N) := nabs (ofZ uz o).

Lemma bin_split i : Permutation (filter (fun a => ebin edges i (E a)) b')
  (filter (fun a => ebin edges i (E a)) b ++ filter (fun a => ebin edges i (E a)) ds).
Proof. rewrite <- filter_app. now apply Permutation_filter. Qed.

Lemma bin_outdone i d : (i < length edges)%nat -> In d (filter (fun a => ebin edges i (E a)) ds) ->
  exists a a' rest, Permutation (filter (fun a => ebin edges i (E a)) b) (a :: a' :: rest) /\
    nlt (J d) (J a) = true /\ nlt (J d) (J a') = true.
Proof.
  intros Hi Hf. apply filter_In in Hf as [Id Ed]. pose proof (idle_bin _ _ _ _ _ (Hd d Id) i Ed) as H.
  unfold outdone in H. apply Nat.ltb_lt in Hi. rewrite Hi in H.
  destruct H as (a & a' & rest & Q & Ea & Ea' & L & L').
  exists a, a', (filter (fun a => ebin edges i (E a)) rest). split; [|split; assumption].
  apply (Permutation_filter (fun a => ebin edges i (E a))) in Q. cbn [filter] in Q.
  change (ebin edges i (E a) = true) in Ea. change (ebin edges i (E a') = true) in Ea'. rewrite Ea, Ea' in Q. exact Q.
Qed.

Lemma bin_some i d : In d (filter (fun a => ebin edges i (E a)) ds) ->
  exists a, In a (filter (fun a => ebin edges i (E a)) b) /\ nlt (J d) (J a) = true.
Proof.
  intros Hf. destruct (Nat.lt_ge_cases i (length edges)) as [Hi|Hi].
  - destruct (bin_outdone i d Hi Hf) as (a & a' & rest & Q & L & _). exists a. split; [|exact L].
    eapply Permutation_in; [apply Permutation_sym, Q|simpl; auto].
  - apply filter_In in Hf as [Id Ed]. pose proof (idle_bin _ _ _ _ _ (Hd d Id) i Ed) as H.
    unfold outdone in H. apply Nat.ltb_ge in Hi. rewrite Hi in H. destruct H as (a & Ia & Ea & L).
    exists a. split; [apply filter_In; split; assumption|exact L].
Qed.

Lemma ebin_point_restrict i p : ebin_point edges (ofE ue) (ofZ uz) b' i p -> ebin_point edges (ofE ue) (ofZ uz) b i p.
Proof.
  unfold ebin_point. pose proof (bin_split i) as Q. unfold E in Q.
  intros [[Z ->]|(a & Ia & -> & H)].
  - left. split; [|reflexivity]. rewrite Z in Q. apply Permutation_nil in Q. apply app_eq_nil in Q. tauto.
  - right. exists a.
    assert (In a (filter (fun a => ebin edges i (ofE ue a)) b) /\
      if (i <? length edges)%nat then picked (fun a => nabs (ofZ uz a)) (filter (fun a => ebin edges i (ofE ue a)) b) a
      else forall b0, In b0 (filter (fun a => ebin edges i (ofE ue a)) b) -> nlt (nabs (ofZ uz a)) (nabs (ofZ uz b0)) = false)
      as [K1 K2]; [|auto].
    destruct (i <? length edges)%nat eqn:Ei.
    + apply Nat.ltb_lt in Ei.
      assert (K : picked (fun a => nabs (ofZ uz a)) (filter (fun a => ebin edges i (ofE ue a)) b) a).
      { eapply (picked_restrict (fun a => nabs (ofZ uz a)) _ _ _ Q); [|exact H].
        intros d Hf. exact (bin_outdone i d Ei Hf). }
      split; [|exact K]. destruct K as [x Ex|x r rest R _ _ _|x r rest R _ _ _].
      * rewrite Ex. simpl; auto.
      * eapply Permutation_in; [apply Permutation_sym, R|simpl; auto].
      * eapply Permutation_in; [apply Permutation_sym, R|simpl; auto].
    + split.
      * apply (Permutation_in _ Q) in Ia. apply in_app_or in Ia as [Ia|Ia]; [exact Ia|]. exfalso.
        destruct (bin_some i a Ia) as (a1 & I1 & L). unfold J in L. rewrite H in L; [discriminate|].
        eapply Permutation_in; [apply Permutation_sym, Q|]. apply in_or_app. left. exact I1.
      * intros b0 Hb. apply H. eapply Permutation_in; [apply Permutation_sym, Q|]. apply in_or_app; auto.
Qed.

Lemma raw_restrict raw : raw_points (ofE ue) (ofZ uz) edges b' raw -> raw_points (ofE ue) (ofZ uz) edges b raw.
Proof.
  intros [a0 ps I0 M0 L H].
  assert (Inc : forall a, In a b -> In a b').
  { intros a Ia. eapply Permutation_in; [apply Permutation_sym, P|]. apply in_or_app; auto. }
  constructor; auto.
  - apply (Permutation_in _ P) in I0. apply in_app_or in I0 as [I0|I0]; [exact I0|]. exfalso.
    destruct (idle_e _ _ _ _ _ (Hd a0 I0)) as (a & Ia & _ & La). pose proof (M0 a (Inc a Ia)) as Z.
    unfold ofE in Z. rewrite La in Z. discriminate.
  - intros i p Hi. apply ebin_point_restrict. auto.
Qed.
Lemma trimmed_restrict raw : trimmed (ofE ue) edges b' raw = trimmed (ofE ue) edges b raw.
Proof.
  unfold trimmed. pose proof (bin_split (length edges)) as Q. pose proof (bin_some (length edges)) as S. unfold E in *.
  destruct (filter (fun a => ebin edges (length edges) (ofE ue a)) b) as [|x l].
  - destruct (filter (fun a => ebin edges (length edges) (ofE ue a)) ds) as [|d r].
    + simpl in Q. apply Permutation_sym, Permutation_nil in Q. now rewrite Q.
    + exfalso. destruct (S d) as (a & [] & _). simpl; auto.
  - destruct (filter (fun a => ebin edges (length edges) (ofE ue a)) b') as [|x' l']; [|reflexivity].
    apply Permutation_nil in Q. discriminate.
Qed.
End Points.

(** ** The units *)
Lemma largest_restrict {A} (f : A -> N) l l' ds m : (forall a b, v (f a) = v (f b) -> f a = f b) -> Permutation l' (l ++ ds) ->
  (forall d, In d ds -> exists a, In a l /\ nle (f d) (f a) = true) -> largest f l' m -> largest f l m.
Proof.
  intros Hinj P Hd [(a & Ia & Ea) H].
  assert (Inc : forall a, In a l -> In a l').
  { intros x Ix. eapply Permutation_in; [apply Permutation_sym, P|]. apply in_or_app; auto. }
  split; [|destruct H as [H|H]; [now left|right; auto]].
  apply (Permutation_in _ P) in Ia. apply in_app_or in Ia as [Ia|Ia]; [eauto|].
  destruct (Hd a Ia) as (a1 & I1 & L). exists a1. split; [exact I1|]. rewrite <- Ea.
  apply (nle_iff RN) in L. destruct H as [H|H].
  - exfalso. apply (nisnan_iff RN) in H. rewrite <- Ea in H. exact (xle_nan_l _ _ L H).
  - apply Hinj. apply xle_antisym; [|exact L]. rewrite Ea. apply (nle_iff RN), H, Inc, I1.
Qed.
Lemma smallest_restrict {A} (f : A -> N) l l' ds m : Permutation l' (l ++ ds) ->
  (forall d, In d ds -> exists a, In a l /\ nle (f a) (f d) = true) -> smallest f l' m ->
  exists m', smallest f l m' /\ v m' = v m.
Proof.
  intros P Hd [(a & Ia & Ea) H].
  assert (Inc : forall a, In a l -> In a l').
  { intros x Ix. eapply Permutation_in; [apply Permutation_sym, P|]. apply in_or_app; auto. }
  apply (Permutation_in _ P) in Ia. apply in_app_or in Ia as [Ia|Ia].
  - exists m. split; [|reflexivity]. split; [eauto|]. destruct H as [H|H]; [now left|right; auto].
  - destruct (Hd a Ia) as (a1 & I1 & L). exists (f a1).
    apply (nle_iff RN) in L. destruct H as [H|H].
    + exfalso. apply (nisnan_iff RN) in H. rewrite <- Ea in H. exact (xle_nan_r _ _ L H).
    + assert (Q : v (f a1) = v m).
      { rewrite <- Ea. apply xle_antisym; [exact L|]. rewrite Ea. apply (nle_iff RN), H, Inc, I1. }
      split; [|exact Q]. split; [eauto|]. right. intros b0 Hb. apply (nle_iff RN). rewrite Q. apply (nle_iff RN). auto.
Qed.

Lemma units_restrict edges ue uz ds (g g' : galaxy N) ue' uz' up' :
  Permutation (filter bound (all_orbits g')) (filter bound (all_orbits g) ++ ds) ->
  (forall d, In d ds -> idle edges ue uz (filter bound (all_orbits g)) d) ->
  units g' ue' uz' up' -> units g ue' uz' up'.
Proof.
  intros P Hd [(e & He & ->) Hz Hp]. split.
  - destruct (smallest_restrict o_e _ _ ds e P) with (2 := He) as (m & Hm & Q).
    + intros d Id. destruct (idle_e _ _ _ _ _ (Hd d Id)) as (a & Ia & L & _). eauto.
    + exists m. split; [exact Hm|]. apply (abs_eq RN). rewrite !(val_abs RN). now rewrite Q.
  - apply (largest_restrict (fun o => nabs (o_jz o)) _ _ ds uz') with (2 := P); [intros; now apply (abs_eq RN)| |exact Hz].
    intros d Id. exact (idle_z _ _ _ _ _ (Hd d Id)).
  - apply (largest_restrict (fun o => nabs (o_jp o)) _ _ ds up') with (2 := P); [intros; now apply (abs_eq RN)| |exact Hp].
    intros d Id. exact (idle_p _ _ _ _ _ (Hd d Id)).
Qed.

(** ** Runs *)
Lemma run_idle as1 as2 (g g' : galaxy N) b0 b1 l0 l1 j j' : gal_ok g -> gal_ok g' -> sorting as1 -> sorting as2 ->
  untied g -> arange nm1 (nlit (-1) 10) b0 = Ok l0 -> arange (nlit (-1) 10) n0 b1 = Ok l1 -> padded (l0 ++ l1) g g' ->
  jcirc as1 g b0 b1 = Ok j -> jcirc as2 g' b0 b1 = Ok j' ->
  exists c, j = result c (map krow_of (star_orbits g)) /\ j' = result c (map krow_of (star_orbits g')) /\
    prefix (map bound (star_orbits g)) = true /\ prefix (map bound (star_orbits g')) = true.
Proof.
  intros Hg Hg' S1 S2 U H0 H1 (ds & P & Hd) Hj Hj'.
  destruct (jcirc_inv RN _ _ _ _ _ Hg Hj) as (c & edges & Uc & Be & Cv & Np & Pf & Ej).
  destruct (jcirc_inv RN _ _ _ _ _ Hg' Hj') as (c' & edges' & Uc' & Be' & Cv' & Np' & Pf' & Ej').
  exists c. split; [exact Ej|]. split; [|split; assumption].
  assert (Q : c = c'); [|rewrite Ej', <- Q; reflexivity].
  assert (B : bin_edges b0 b1 = Ok (l0 ++ l1)) by (unfold bin_edges; rewrite H0; cbn [bind]; rewrite H1; reflexivity).
  rewrite B in Be. rewrite B in Be'. injection Be as <-. injection Be' as <-.
  specialize (Hd _ _ _ Uc).
  pose proof (units_restrict _ _ _ _ _ _ _ _ _ P Hd Uc') as Ur.
  destruct (units_unique RN g g _ _ _ _ _ _ (Permutation_refl _) Uc Ur) as (Qe & Qz & Qp).
  pose proof (curve_nonempty _ _ _ _ _ Cv) as Hne.
  rewrite <- Qe, <- Qz in Cv'.
  destruct (curve_spec RN (ofE (s_e c)) (ofZ (s_z c)) _ _ _ _ S1 Hne Cv) as (raw & R & T).
  destruct (curve_spec RN (ofE (s_e c)) (ofZ (s_z c)) _ _ _ _ S2 Hne Cv') as (raw' & R' & T').
  destruct (U _ _ _ Uc) as (U1 & U2 & U3).
  apply (raw_restrict _ _ _ _ _ _ P Hd) in R'. rewrite (trimmed_restrict _ _ _ _ _ _ P Hd) in T'.
  rewrite (raw_unique RN (ofE (s_e c)) (ofZ (s_z c)) (l0 ++ l1) _ _ (Permutation_refl _) U1 U2 U3 raw raw' R R') in T.
  destruct c as [ce cz cp cpts], c' as [ce' cz' cp' cpts']. cbn [s_e s_z s_p s_pts] in *. congruence.
Qed.
End Idle.

(** *** C106 *)

(** C106: particles that decide nothing change nothing.  Adding to a galaxy without ties any unbound particles, and any
    bound ones that are not the most bound, have neither the largest |Jz| nor the largest projected angular
    momentum and are outdone in their energy bin by two particles (by one in the last bin), leaves the curve
    as it was, and every star keeps its four values to the bit. *)
Lemma c106_idle : forall (N : Num) (RN : Rounded N) as1 as2 (g g' : galaxy N) b0 b1 l0 l1 j j',
  constructible g -> constructible g' -> sorting as1 -> sorting as2 -> untied g ->
  arange nm1 (nlit (-1) 10) b0 = Ok l0 -> arange (nlit (-1) 10) n0 b1 = Ok l1 -> padded (l0 ++ l1) g g' ->
  jcirc as1 g b0 b1 = Ok j -> jcirc as2 g' b0 b1 = Ok j' ->
  jc_x j = jc_x j' /\ jc_y j = jc_y j' /\
  forall k k' o, nth_error (star_orbits g) k = Some o -> nth_error (star_orbits g') k' = Some o ->
    nth_error (jc_E j) k = nth_error (jc_E j') k' /\
    (bound o = true -> nth_error (jc_Jz j) k = nth_error (jc_Jz j') k') /\
    nth_error (jc_eps j) k = nth_error (jc_eps j') k' /\
    nth_error (jc_eps_r j) k = nth_error (jc_eps_r j') k'.
Proof.
  intros N RN as1 as2 g g' b0 b1 l0 l1 j j' Hg Hg' S1 S2 U H0 H1 P Hj Hj'. apply constructible_ok in Hg, Hg'.
  destruct (run_idle RN as1 as2 g g' b0 b1 l0 l1 j j' Hg Hg' S1 S2 U H0 H1 P Hj Hj') as (c & -> & -> & Pf & Pf').
  cbn [jc_x jc_y jc_E jc_Jz jc_eps jc_eps_r result]. split; [reflexivity|]. split; [reflexivity|].
  intros k k' o Hk Hk'. rewrite !filter_krow, !map_map, !nth_error_map, Hk, Hk'. split; [reflexivity|]. split; [|split; reflexivity].
  intros Ho. rewrite (prefix_nth bound _ _ _ Pf Hk Ho), (prefix_nth bound _ _ _ Pf' Hk' Ho). reflexivity.
Qed.

(** C106: in particular such particles among the dark matter and the gas do not change the result at all. *)
Lemma c106_dark : forall (N : Num) (RN : Rounded N) as1 as2 (g g' : galaxy N) b0 b1 l0 l1 j,
  constructible g -> constructible g' -> sorting as1 -> sorting as2 -> untied g ->
  arange nm1 (nlit (-1) 10) b0 = Ok l0 -> arange (nlit (-1) 10) n0 b1 = Ok l1 -> padded (l0 ++ l1) g g' ->
  star_orbits g' = star_orbits g -> jcirc as1 g b0 b1 = Ok j -> jcirc as2 g' b0 b1 = Ok j.
Proof.
  intros N RN as1 as2 g g' b0 b1 l0 l1 j Hg Hg' S1 S2 U H0 H1 P Es Hj.
  assert (Hne : l0 ++ l1 <> []).
  { pose proof Hg as Hc. apply constructible_ok in Hc.
    destruct (curve_of_run RN _ _ _ _ _ Hc S1 Hj) as (ue & uz & up & m0 & m1 & raw & _ & K0 & K1 & Hne & _). congruence. }
  assert (X : exists j', jcirc as2 g' b0 b1 = Ok j').
  { apply (c30_returns N RN as2 g' b0 b1 l0 l1 Hg' S2 H0 H1 Hne).
    assert (Y : exists j, jcirc as1 g b0 b1 = Ok j) by eauto.
    apply (c30_returns N RN as1 g b0 b1 l0 l1 Hg S1 H0 H1 Hne) in Y as ((o & Io & Bo) & Y).
    split; [|rewrite Es; exact Y]. destruct P as (ds & P & _). exists o. split; [|exact Bo].
    assert (I : In o (filter bound (all_orbits g'))).
    { eapply Permutation_in; [apply Permutation_sym, P|]. apply in_or_app. left. apply filter_In; auto. }
    apply filter_In in I. tauto. }
  destruct X as (j' & Hj'). rewrite Hj'. f_equal. apply constructible_ok in Hg, Hg'.
  destruct (run_idle RN as1 as2 g g' b0 b1 l0 l1 j j' Hg Hg' S1 S2 U H0 H1 P Hj Hj') as (c & -> & -> & _). now rewrite Es.
Qed.

(** ** Deciding [idle] *)
Section Dec.
Context {N : Num} (RN : Rounded N).
Definition outdone_b (edges : list N) (E J : orbit N -> N) (b : list (orbit N)) (i : nat) (d : orbit N) : bool :=
  ((if (i <? length edges)%nat then 2 else 1) <=? length (filter (fun a => ebin edges i (E a) && nlt (J d) (J a)) b))%nat.
Definition idle_b (edges : list N) (ue uz : N) (b : list (orbit N)) (d : orbit N) : bool :=
  existsb (fun a => nle (o_e a) (o_e d) && nlt (o_e a / ue)%num (o_e d / ue)%num) b &&
  existsb (fun a => nle (nabs (o_jz d)) (nabs (o_jz a))) b &&
  existsb (fun a => nle (nabs (o_jp d)) (nabs (o_jp a))) b &&
  forallb (fun i => negb (ebin edges i (o_e d / ue)%num) ||
     outdone_b edges (fun o => (o_e o / ue)%num) (fun o => nabs (o_jz o / uz)%num) b i d) (seq 0 (S (length edges))).
Lemma perm_filter_split {A} (p : A -> bool) l : Permutation l (filter p l ++ filter (fun a => negb (p a)) l).
Proof.
  induction l as [|a l IH]; simpl; [constructor|]. destruct (p a); simpl; [now constructor|].
  eapply Permutation_trans; [constructor; exact IH|apply Permutation_middle].
Qed.
Lemma outdone_b_ok edges E J b i d : outdone_b edges E J b i d = true -> outdone edges E J b i d.
Proof.
  unfold outdone_b, outdone. intros H. apply Nat.leb_le in H.
  set (p := fun a => ebin edges i (E a) && nlt (J d) (J a)) in *. pose proof (perm_filter_split p b) as Q.
  assert (F : forall a, In a (filter p b) -> In a b /\ ebin edges i (E a) = true /\ nlt (J d) (J a) = true).
  { intros a Ha. apply filter_In in Ha as [Ia Ha]. apply andb_prop in Ha. tauto. }
  destruct (i <? length edges)%nat.
  - destruct (filter p b) as [|a [|a' r]]; simpl in H; try lia.
    destruct (F a) as (_ & A1 & A2); [simpl; auto|]. destruct (F a') as (_ & B1 & B2); [simpl; auto|].
    exists a, a'. eexists. split; [exact Q|]. auto.
  - destruct (filter p b) as [|a r]; simpl in H; try lia. exists a. apply F. simpl; auto.
Qed.
Lemma idle_b_ok edges ue uz b d : idle_b edges ue uz b d = true -> idle edges ue uz b d.
Proof.
  unfold idle_b. intros H. apply andb_prop in H as [H H4]. apply andb_prop in H as [H H3]. apply andb_prop in H as [H1 H2].
  apply existsb_exists in H1 as (a1 & I1 & H1). apply existsb_exists in H2 as (a2 & I2 & H2). apply existsb_exists in H3 as (a3 & I3 & H3).
  apply andb_prop in H1 as [H1 H1']. split; eauto.
  intros i Hi. rewrite forallb_forall in H4. specialize (H4 i).
  apply outdone_b_ok. destruct (negb (ebin edges i (o_e d / ue)%num)) eqn:Z; [rewrite Hi in Z; discriminate|].
  apply H4. apply in_seq. split; [lia|]. unfold ebin in Hi. destruct (nth_error edges (i - 1)) eqn:Ei; [|discriminate].
  assert (nth_error edges (i - 1) <> None) as K by congruence. apply nth_error_Some in K. lia.
Qed.
(** The units of a galaxy as [jcirc] computes them. *)
Definition the_units (g : galaxy N) : option (N * N) :=
  let all := filter bound (all_orbits g) in
  match np_min (map o_e all), np_max (map (fun o => nabs (o_jz o)) all) with
  | Ok e, Ok uz => Some (nabs e, uz) | _, _ => None end.
Lemma the_units_ok g ue uz ue' uz' up' : the_units g = Some (ue, uz) -> units g ue' uz' up' -> ue' = ue /\ uz' = uz.
Proof.
  unfold the_units. set (all := filter bound (all_orbits g)).
  destruct (np_min (map o_e all)) as [e|] eqn:Em; [|discriminate].
  destruct (np_max (map (fun o => nabs (o_jz o)) all)) as [z|] eqn:Ez; [|discriminate]. intros H U.
  assert (nabs e = ue /\ z = uz) as [<- <-] by (split; congruence).
  destruct (np_max (map (fun o => nabs (o_jp o)) all)) as [up|] eqn:Ep.
  - destruct (units_unique RN g g ue' uz' up' (nabs e) z up (Permutation_refl _) U) as (A & B & _).
    + split; [exists e; split; [now apply (np_min_spec RN)|reflexivity]|now apply (np_max_spec RN)|now apply (np_max_spec RN)].
    + auto.
  - exfalso. destruct all; discriminate.
Qed.
(** Deciding that the particles [ds] are idle beside [g]. *)
Definition padded_b (edges : list N) (g : galaxy N) (ds : list (orbit N)) : bool :=
  match the_units g with Some (ue, uz) => forallb (idle_b edges ue uz (filter bound (all_orbits g))) ds | None => false end.
Lemma padded_b_ok edges g g' ds : Permutation (filter bound (all_orbits g')) (filter bound (all_orbits g) ++ ds) ->
  padded_b edges g ds = true -> padded edges g g'.
Proof.
  unfold padded_b. intros P H. destruct (the_units g) as [[ue uz]|] eqn:E; [|discriminate].
  exists ds. split; [exact P|]. intros ue' uz' up' U d Id. destruct (the_units_ok g ue uz ue' uz' up' E U) as [-> ->].
  rewrite forallb_forall in H. apply idle_b_ok. auto.
Qed.
End Dec.

(** A galaxy with and without three more gas particles, two bound ones that decide nothing and an unbound one. *)
Definition base : res (galaxy F64) :=
  lineG (zl [(10,1,1,(-2,1)); (20,1,0,(-1,1)); (11,1,0,(-76,100))])%Z
        (zl [(40,1,0,(-78,100)); (30,1,0,(-77,100)); (45,1,0,(-69,100))])%Z (zl [(50,1,0,(-501,1000))])%Z.
Definition more : res (galaxy F64) :=
  lineG (zl [(10,1,1,(-2,1)); (20,1,0,(-1,1)); (11,1,0,(-76,100))])%Z
        (zl [(40,1,0,(-78,100)); (30,1,0,(-77,100)); (45,1,0,(-69,100))])%Z
        (zl [(50,1,0,(-501,1000)); (29,1,0,(-79,100)); (3,1,0,(-5011,10000)); (99,1,0,(1,1))])%Z.
(** One more particle, the second in its bin. *)
Definition second : res (galaxy F64) :=
  lineG (zl [(10,1,1,(-2,1)); (20,1,0,(-1,1)); (11,1,0,(-76,100))])%Z
        (zl [(40,1,0,(-78,100)); (30,1,0,(-77,100)); (45,1,0,(-69,100))])%Z
        (zl [(50,1,0,(-501,1000)); (42,1,0,(-66,100))])%Z.
Definition dflt_edges : res (list F64) :=
  do a <- arange nm1 (nlit (-1) 10) (default_bin0 : F64); do b <- arange (nlit (-1) 10) n0 (default_bin1 : F64); Ok (a ++ b).

Lemma pair_val (r r' : res (galaxy F64)) (Q : galaxy F64 -> galaxy F64 -> list F64 -> list F64 -> list F64 -> jcirc_t F64 -> jcirc_t F64 -> bool) :
  (forall g, r = Ok g -> constructible g) -> (forall g, r' = Ok g -> constructible g) ->
  match r, r', arange nm1 (nlit (-1) 10) (default_bin0 : F64), arange (nlit (-1) 10) n0 (default_bin1 : F64) with
  | Ok g, Ok g', Ok l0, Ok l1 => match jcirc asort g default_bin0 default_bin1, jcirc asort g' default_bin0 default_bin1 with
                   | Ok j, Ok j' => Q g g' l0 l1 (l0 ++ l1) j j' | _, _ => false end
  | _, _, _, _ => false end = true ->
  exists g g' l0 l1 j j', r = Ok g /\ r' = Ok g' /\ constructible g /\ constructible g' /\
    arange nm1 (nlit (-1) 10) (default_bin0 : F64) = Ok l0 /\ arange (nlit (-1) 10) n0 (default_bin1 : F64) = Ok l1 /\
    jcirc asort g default_bin0 default_bin1 = Ok j /\ jcirc asort g' default_bin0 default_bin1 = Ok j' /\ Q g g' l0 l1 (l0 ++ l1) j j' = true.
Proof.
  intros C C' H. destruct r as [g|]; [|discriminate]. destruct r' as [g'|]; [|discriminate].
  destruct (arange nm1 _ _) as [l0|]; [|discriminate]. destruct (arange _ n0 _) as [l1|]; [|discriminate].
  destruct (jcirc asort g _ _) as [j|] eqn:E; [|discriminate]. destruct (jcirc asort g' _ _) as [j'|] eqn:E'; [|discriminate].
  exists g, g', l0, l1, j, j'. repeat (split; [auto|]). exact H.
Qed.
Lemma shown_eq (l l' : list (orbit F64)) : map oshow l = map oshow l' -> l = l'.
Proof.
  revert l'. induction l as [|a l IH]; intros [|b l']; cbn [map]; intros H; try discriminate; auto.
  assert (oshow a = oshow b /\ map oshow l = map oshow l') as [H1 H2] by (split; congruence).
  f_equal; [now apply oshow_inj|auto].
Qed.

Lemma first_all {A} n (l l' : list A) : l = firstn n l' -> Permutation l' (l ++ skipn n l').
Proof. intros ->. now rewrite firstn_skipn. Qed.
Lemma first_last {A} n (l l' : list A) d : l = firstn n l' -> nth_error l' n = Some d -> length l' = S n -> l' = l ++ [d].
Proof.
  intros -> E L. rewrite <- (firstn_skipn n l') at 1. f_equal. revert l' E L.
  induction n as [|n IH]; intros [|x l'] E L; simpl in *; try discriminate; [|apply IH; auto].
  destruct l'; simpl in *; congruence.
Qed.

(** The particles added in [more] decide nothing: all three circularities are the same. *)
Example ex_c106 : exists (g g' : galaxy F64) l0 l1 j j', constructible g /\ constructible g' /\ sorting (@asort F64) /\ untied g /\
  arange nm1 (nlit (-1) 10) (default_bin0 : F64) = Ok l0 /\ arange (nlit (-1) 10) n0 (default_bin1 : F64) = Ok l1 /\
  padded (l0 ++ l1) g g' /\ star_orbits g' = star_orbits g /\
  jcirc asort g default_bin0 default_bin1 = Ok j /\ jcirc asort g' default_bin0 default_bin1 = Ok j' /\
  length (filter bound (all_orbits g)) = 7%nat /\ length (filter bound (all_orbits g')) = 9%nat /\ length (all_orbits g') = 10%nat /\
  existsb (fun x => nlt n0 x && nlt x n1) (jc_eps j) = true.
Proof.
  destruct (pair_val base more (fun g g' l0 l1 l j j' =>
      untied_b g && padded_b l g (skipn 7 (filter bound (all_orbits g'))) &&
      (length (filter bound (all_orbits g)) =? 7)%nat && (length (filter bound (all_orbits g')) =? 9)%nat && (length (all_orbits g') =? 10)%nat &&
      existsb (fun x => nlt n0 x && nlt x n1) (jc_eps j)))
   as (g & g' & l0 & l1 & j & j' & Eg & Eg' & C & C' & H0 & H1 & J & J' & H).
  { apply lineG_ok. }
  { apply lineG_ok. }
  { vm_compute. reflexivity. }
  assert (A : match base, more with Ok g, Ok g' =>
     map oshow (filter bound (all_orbits g)) = firstn 7 (map oshow (filter bound (all_orbits g'))) /\
     map oshow (star_orbits g') = map oshow (star_orbits g) | _, _ => False end) by (vm_compute; auto).
  rewrite Eg, Eg' in A. destruct A as [A1 A2].
  apply andb_prop in H as [H K6]. apply andb_prop in H as [H K5]. apply andb_prop in H as [H K4]. apply andb_prop in H as [H K3].
  apply andb_prop in H as [K1 K2]. apply Nat.eqb_eq in K3, K4, K5.
  exists g, g', l0, l1, j, j'. split; [exact C|]. split; [exact C'|]. split; [exact (asort_sorting (F64_rounded _))|].
  split; [now apply (untied_b_ok (F64_rounded _))|]. split; [exact H0|]. split; [exact H1|].
  split; [|split; [now apply shown_eq|repeat (split; [assumption|]); assumption]].
  apply (padded_b_ok (F64_rounded _) (l0 ++ l1) g g' (skipn 7 (filter bound (all_orbits g')))); [|exact K2].
  assert (Q : filter bound (all_orbits g) = firstn 7 (filter bound (all_orbits g'))).
  { apply shown_eq. rewrite A1. apply firstn_map. }
  exact (first_all 7 _ _ Q).
Qed.

(** C106: being outdone by one particle of the bin is not enough: adding a gas particle that is more loosely bound
    than others, has neither the largest |Jz| nor the largest projected angular momentum and has a smaller |Jz|
    than the only other particle of its energy bin changes the circularity of a star, because the curve
    then takes the second particle of the bin. *)
Lemma c106_second_refuted : exists (g g' : galaxy F64) l0 l1 j j' d i a ue uz,
  constructible g /\ constructible g' /\ sorting (@asort F64) /\ untied g /\
  arange nm1 (nlit (-1) 10) (default_bin0 : F64) = Ok l0 /\ arange (nlit (-1) 10) n0 (default_bin1 : F64) = Ok l1 /\
  star_orbits g' = star_orbits g /\ (exists up, units g ue uz up) /\
  filter bound (all_orbits g') = filter bound (all_orbits g) ++ [d] /\
  In a (filter bound (all_orbits g)) /\ nlt (o_e d) n0 = true /\ nlt (o_e a / ue)%num (o_e d / ue)%num = true /\
  nlt (nabs (o_jz d)) (nabs (o_jz a)) = true /\ nle (nabs (o_jp d)) (nabs (o_jp a)) = true /\
  ebin (l0 ++ l1) i (o_e d / ue)%num = true /\ ebin (l0 ++ l1) i (o_e a / ue)%num = true /\
  jcirc asort g default_bin0 default_bin1 = Ok j /\ jcirc asort g' default_bin0 default_bin1 = Ok j' /\
  exists k x y, nth_error (jc_eps j) k = Some x /\ nth_error (jc_eps j') k = Some y /\
    nfin x = true /\ nfin y = true /\ neqb x y = false.
Proof.
  destruct (pair_val base second (fun g g' l0 l1 l j j' =>
      untied_b g && match the_units g, nth_error (filter bound (all_orbits g')) 7, nth_error (filter bound (all_orbits g)) 5 with
      Some (ue, uz), Some d, Some a => 
        nlt (o_e d) n0 && nlt (o_e a / ue)%num (o_e d / ue)%num && nlt (nabs (o_jz d)) (nabs (o_jz a)) && nle (nabs (o_jp d)) (nabs (o_jp a)) &&
        ebin l 17 (o_e d / ue)%num && ebin l 17 (o_e a / ue)%num
      | _, _, _ => false end && match nth_error (jc_eps j) 2, nth_error (jc_eps j') 2 with
      Some x, Some y => nfin x && nfin y && negb (neqb x y) | _, _ => false end))
   as (g & g' & l0 & l1 & j & j' & Eg & Eg' & C & C' & H0 & H1 & J & J' & H).
  { apply lineG_ok. }
  { apply lineG_ok. }
  { vm_compute. reflexivity. }
  assert (A : match base, second with Ok g, Ok g' =>
     map oshow (filter bound (all_orbits g)) = firstn 7 (map oshow (filter bound (all_orbits g'))) /\
     map oshow (star_orbits g') = map oshow (star_orbits g) /\ length (filter bound (all_orbits g')) = 8%nat | _, _ => False end) by (vm_compute; auto).
  rewrite Eg, Eg' in A. destruct A as (A1 & A2 & A3).
  assert (Q : filter bound (all_orbits g) = firstn 7 (filter bound (all_orbits g'))).
  { apply shown_eq. rewrite A1. apply firstn_map. }
  apply andb_prop in H as [H K3]. apply andb_prop in H as [K1 H].
  destruct (the_units g) as [[ue uz]|] eqn:U; [|discriminate].
  destruct (nth_error (filter bound (all_orbits g')) 7) as [d|] eqn:Ed; [|discriminate].
  destruct (nth_error (filter bound (all_orbits g)) 5) as [a|] eqn:Ea; [|discriminate].
  destruct (nth_error (jc_eps j) 2) as [x|] eqn:Ex; [|discriminate].
  destruct (nth_error (jc_eps j') 2) as [y|] eqn:Ey; [|discriminate].
  apply andb_prop in K3 as [K3 K5]. apply andb_prop in K3 as [K3 K4]. apply negb_true_iff in K5.
  apply andb_prop in H as [H G6]. apply andb_prop in H as [H G5]. apply andb_prop in H as [H G4].
  apply andb_prop in H as [H G3]. apply andb_prop in H as [G1 G2].
  exists g, g', l0, l1, j, j', d, 17%nat, a, ue, uz.
  split; [exact C|]. split; [exact C'|]. split; [exact (asort_sorting (F64_rounded _))|].
  split; [now apply (untied_b_ok (F64_rounded _))|]. split; [exact H0|]. split; [exact H1|].
  split; [now apply shown_eq|]. split.
  { pose proof C as Hc. apply constructible_ok in Hc.
    destruct (curve_of_run (F64_rounded _) _ _ _ _ _ Hc (asort_sorting (F64_rounded _)) J) as (ue' & uz' & up & m0 & m1 & raw & Un & _).
    destruct (the_units_ok (F64_rounded _) g ue uz ue' uz' up U Un) as [-> ->]. eauto. }
  split.
  { exact (first_last 7 _ _ d Q Ed A3). }
  split; [eapply nth_error_In; exact Ea|]. repeat (split; [assumption|]). exists 2%nat, x, y. auto.
Qed.
