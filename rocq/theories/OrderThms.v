(** The circularity does not depend on the order of the particles (C72). *)
From Verif Require Import Py Num RX F64 Np Df Data DataFacts DfFacts RebuildFacts Center CenterFacts Align Spec SpecR SpecCirc SpecOrder Ex DataThms CenterThms AlignFacts AlignThms Circ CircFacts CurveFacts CircThms.
From Flocq Require Import IEEE754.BinarySingleNaN.
From Coq Require Import Lra Lia Floats.SpecFloat.

Section Ord.
Context {N : Num} (RN : Rounded N).
Local Notation v := (val RN).

Lemma xabs_0 a : xabs a = XR 0 -> a = XR 0.
Proof.
  destruct a as [r| | |]; simpl; try discriminate. intros [= H]. f_equal.
  destruct (Req_EM_T r 0) as [Z|Z]; [assumption|]. exfalso. revert H. now apply Rabs_no_R0.
Qed.
Lemma xr_zero_dec (a : xr) : {a = XR 0} + {a <> XR 0}.
Proof. destruct a as [r| | |]; [destruct (Req_EM_T r 0) as [->|H]; [left; reflexivity|right; congruence]|right; discriminate..]. Qed.
Lemma abs_eq (x y : N) : v (nabs x) = v (nabs y) -> nabs x = nabs y.
Proof.
  intros E. destruct (xr_zero_dec (v (nabs x))) as [Z|Z].
  - rewrite (abs_zero RN x), (abs_zero RN y); [reflexivity| |].
    + apply xabs_0. rewrite <- (val_abs RN), <- E. exact Z.
    + apply xabs_0. rewrite <- (val_abs RN). exact Z.
  - now apply (val_inj RN).
Qed.
Lemma before_le (x y : N) : nisnan y = false -> before x y -> xle (v x) (v y).
Proof. intros H [B|B]; [congruence|]. now apply (nle_iff RN). Qed.
Lemma not_lt_le (x y : N) : nisnan x = false -> nisnan y = false -> nlt x y = false -> xle (v y) (v x).
Proof.
  intros Hx Hy H. apply (nisnan_false RN) in Hx, Hy. apply (nlt_false RN) in H.
  destruct (xle_total (v y) (v x)); tauto.
Qed.

(** ** The chosen particle of a bin *)
Section Pick.
Context {A : Type} (f fE : A -> N).
Context (Hinj : forall a b, v (f a) = v (f b) -> f a = f b).

Lemma top_two a r rest a' r' rest' :
  Permutation (a :: r :: rest) (a' :: r' :: rest') ->
  (forall b, In b (a :: r :: rest) -> nisnan (f b) = false) ->
  before (f r) (f a) -> (forall b, In b rest -> before (f b) (f r)) ->
  before (f r') (f a') -> (forall b, In b rest' -> before (f b) (f r')) ->
  f a = f a' /\ f r = f r'.
Proof.
  intros P Hn B1 B2 B1' B2'.
  assert (Hn' : forall b, In b (a' :: r' :: rest') -> nisnan (f b) = false).
  { intros b Hb. apply Hn. eapply Permutation_in; [apply Permutation_sym, P|exact Hb]. }
  assert (Mr : forall b, In b (r :: rest) -> xle (v (f b)) (v (f r))).
  { intros b [<-|Hb]; [apply xle_refl; apply (nisnan_false RN), Hn; simpl; auto|].
    apply before_le; [apply Hn; simpl; auto|auto]. }
  assert (Mr' : forall b, In b (r' :: rest') -> xle (v (f b)) (v (f r'))).
  { intros b [<-|Hb]; [apply xle_refl; apply (nisnan_false RN), Hn'; simpl; auto|].
    apply before_le; [apply Hn'; simpl; auto|auto]. }
  assert (Ma : forall b, In b (a :: r :: rest) -> xle (v (f b)) (v (f a))).
  { intros b [<-|Hb]; [apply xle_refl; apply (nisnan_false RN), Hn; simpl; auto|].
    eapply xle_trans; [apply Mr, Hb|]. apply before_le; [apply Hn; simpl; auto|exact B1]. }
  assert (Ma' : forall b, In b (a' :: r' :: rest') -> xle (v (f b)) (v (f a'))).
  { intros b [<-|Hb]; [apply xle_refl; apply (nisnan_false RN), Hn'; simpl; auto|].
    eapply xle_trans; [apply Mr', Hb|]. apply before_le; [apply Hn'; simpl; auto|exact B1']. }
  assert (E : v (f a) = v (f a')).
  { apply xle_antisym.
    - apply Ma'. eapply Permutation_in; [exact P|simpl; auto].
    - apply Ma. eapply Permutation_in; [apply Permutation_sym, P|simpl; auto]. }
  split; [now apply Hinj|]. apply Hinj.
  apply (Permutation_map (fun b => v (f b))) in P. cbn [map] in P. rewrite E in P.
  apply Permutation_cons_inv in P. change (Permutation (map (fun b => v (f b)) (r :: rest)) (map (fun b => v (f b)) (r' :: rest'))) in P.
  apply xle_antisym.
  - assert (I : In (v (f r)) (map (fun b => v (f b)) (r' :: rest'))).
    { eapply Permutation_in; [exact P|simpl; auto]. }
    apply in_map_iff in I as (b & Eb & Ib). rewrite <- Eb. apply Mr'. exact Ib.
  - assert (I : In (v (f r')) (map (fun b => v (f b)) (r :: rest))).
    { eapply Permutation_in; [apply Permutation_sym, P|simpl; auto]. }
    apply in_map_iff in I as (b & Eb & Ib). rewrite <- Eb. apply Mr. exact Ib.
Qed.

Lemma picked_unique rows rows' a a' : Permutation rows rows' ->
  (forall b, In b rows -> nisnan (f b) = false) ->
  picked f rows a -> picked f rows' a' -> f a = f a'.
Proof.
  intros P Hn H H'.
  destruct H as [x Ex|x r rest P1 B1 B2 C|x r rest P1 B1 B2 C]; destruct H' as [x' Ex'|x' r' rest' P1' B1' B2' C'|x' r' rest' P1' B1' B2' C'].
  - subst. apply Permutation_length_1 in P. congruence.
  - subst. pose proof (Permutation_length (Permutation_trans P P1')). discriminate.
  - subst. pose proof (Permutation_length (Permutation_trans P P1')). discriminate.
  - subst. pose proof (Permutation_length (Permutation_trans (Permutation_sym P) P1)). discriminate.
  - edestruct (top_two x r rest x' r' rest') as [Q1 Q2]; eauto.
    + eapply Permutation_trans; [apply Permutation_sym, P1|]. eapply Permutation_trans; [exact P|exact P1'].
    + intros b Hb. apply Hn. eapply Permutation_in; [apply Permutation_sym, P1|exact Hb].
  - edestruct (top_two x r rest x' r' rest') as [Q1 Q2]; eauto.
    + eapply Permutation_trans; [apply Permutation_sym, P1|]. eapply Permutation_trans; [exact P|exact P1'].
    + intros b Hb. apply Hn. eapply Permutation_in; [apply Permutation_sym, P1|exact Hb].
    + rewrite Q1, Q2 in C. congruence.
  - subst. pose proof (Permutation_length (Permutation_trans (Permutation_sym P) P1)). discriminate.
  - edestruct (top_two x r rest x' r' rest') as [Q1 Q2]; eauto.
    + eapply Permutation_trans; [apply Permutation_sym, P1|]. eapply Permutation_trans; [exact P|exact P1'].
    + intros b Hb. apply Hn. eapply Permutation_in; [apply Permutation_sym, P1|exact Hb].
    + rewrite Q1, Q2 in C. congruence.
  - edestruct (top_two x r rest x' r' rest') as [Q1 Q2]; eauto.
    + eapply Permutation_trans; [apply Permutation_sym, P1|]. eapply Permutation_trans; [exact P|exact P1'].
    + intros b Hb. apply Hn. eapply Permutation_in; [apply Permutation_sym, P1|exact Hb].
Qed.
End Pick.

Lemma Permutation_filter {A} (p : A -> bool) l l' : Permutation l l' -> Permutation (filter p l) (filter p l').
Proof.
  induction 1 as [|x l l' H IH|x y l|l l' l'' H1 IH1 H2 IH2]; simpl.
  - constructor.
  - destruct (p x); [now constructor|exact IH].
  - destruct (p x), (p y); try reflexivity. constructor.
  - eapply Permutation_trans; eauto.
Qed.
Lemma nth_error_eq {A} (l l' : list A) : (forall i, nth_error l i = nth_error l' i) -> l = l'.
Proof.
  revert l'. induction l as [|a l IH]; intros [|b l'] H; auto.
  - discriminate (H 0%nat).
  - discriminate (H 0%nat).
  - pose proof (H 0%nat) as E. simpl in E. injection E as ->. f_equal. apply IH. intros i. exact (H (S i)).
Qed.

(** ** The points of the curve *)
Section Points.
Context {A : Type} (fE fZ : A -> N) (edges : list N) (b b' : list A).
Let J (a : A) := nabs (fZ a).
Context (P : Permutation b b').
Context (Hn : forall a, In a b -> nisnan (J a) = false).
Context (Ht : forall a a', In a b -> In a' b -> neqb (J a) (J a') = true -> fE a = fE a').
Context (Hm : forall a a', In a b -> In a' b ->
   (forall p, In p b -> nlt (fE p) (fE a) = false /\ nlt (fE p) (fE a') = false) -> neqb (J a) (J a') = true).

Lemma J_inj a a' : v (J a) = v (J a') -> J a = J a'.
Proof. apply abs_eq. Qed.
Lemma J_eq a a' : neqb (J a) (J a') = true -> J a = J a'.
Proof. intros H. apply J_inj. now apply (neqb_iff RN) in H. Qed.
Lemma J_eqb a a' : In a b -> J a = J a' -> neqb (J a) (J a') = true.
Proof. intros I E. apply (neqb_iff RN). rewrite <- E. split; [reflexivity|]. apply (nisnan_false RN). auto. Qed.

Lemma ebin_point_unique i p p' : ebin_point edges fE fZ b i p -> ebin_point edges fE fZ b' i p' -> p = p'.
Proof.
  unfold ebin_point. pose proof (Permutation_filter (fun a => ebin edges i (fE a)) _ _ P) as Pf.
  set (c := filter (fun a => ebin edges i (fE a)) b) in *. set (c' := filter (fun a => ebin edges i (fE a)) b') in *.
  assert (Ic : forall a, In a c -> In a b) by (intros a Ha; apply filter_In in Ha; tauto).
  intros [[E1 ->]|(a & Ia & -> & Ha)] [[E2 ->]|(a' & Ia' & -> & Ha')].
  - reflexivity.
  - rewrite E1 in Pf. apply Permutation_nil in Pf. rewrite Pf in Ia'. destruct Ia'.
  - rewrite E2 in Pf. apply Permutation_sym, Permutation_nil in Pf. rewrite Pf in Ia. destruct Ia.
  - assert (Ja : In a b) by auto.
    assert (Ia'' : In a' c) by (eapply Permutation_in; [apply Permutation_sym, Pf|exact Ia']).
    assert (Ja' : In a' b) by auto.
    assert (Q : J a = J a').
    { destruct (i <? length edges)%nat.
      - apply (picked_unique J J_inj c c' a a' Pf); auto.
      - apply J_inj. apply xle_antisym.
        + apply not_lt_le; [now apply Hn|now apply Hn|]. apply Ha'. eapply Permutation_in; [exact Pf|exact Ia].
        + apply not_lt_le; [now apply Hn|now apply Hn|]. apply Ha. exact Ia''. }
    unfold J in Q. rewrite Q. rewrite (Ht a a'); auto. now apply J_eqb.
Qed.

Lemma raw_unique raw raw' : raw_points fE fZ edges b raw -> raw_points fE fZ edges b' raw' -> raw = raw'.
Proof.
  intros [a0 ps I0 M0 L H] [a0' ps' I0' M0' L' H'].
  assert (I0'' : In a0' b) by (eapply Permutation_in; [apply Permutation_sym, P|exact I0']).
  assert (Q : J a0 = J a0').
  { apply J_eq. apply Hm; auto. intros p Ip. split; [auto|]. apply M0'. eapply Permutation_in; [exact P|exact Ip]. }
  f_equal; [f_equal; exact Q|]. apply nth_error_eq. intros i.
  destruct (nth_error ps i) as [p|] eqn:Ep.
  - destruct (nth_error ps' i) as [p'|] eqn:Ep'.
    + f_equal. eapply ebin_point_unique; eauto.
    + apply nth_error_None in Ep'. assert (nth_error ps i <> None) as Z by congruence. apply nth_error_Some in Z. lia.
  - apply nth_error_None in Ep. symmetry. apply nth_error_None. lia.
Qed.
Lemma trimmed_perm raw : trimmed fE edges b raw = trimmed fE edges b' raw.
Proof.
  unfold trimmed. pose proof (Permutation_filter (fun a => ebin edges (length edges) (fE a)) _ _ P) as Pf.
  destruct (filter _ b) as [|x l]; destruct (filter _ b') as [|x' l']; auto.
  - apply Permutation_nil in Pf. discriminate.
  - apply Permutation_sym, Permutation_nil in Pf. discriminate.
Qed.
End Points.

(** ** The units *)
Lemma largest_unique {A} (f : A -> N) l l' m m' : (forall a b, v (f a) = v (f b) -> f a = f b) -> Permutation l l' ->
  largest f l m -> largest f l' m' -> m = m'.
Proof.
  intros Hinj P [(a & Ia & Ea) H] [(a' & Ia' & Ea') H'].
  assert (Ja : In a l') by (eapply Permutation_in; eauto).
  assert (Ja' : In a' l) by (eapply Permutation_in; [apply Permutation_sym, P|exact Ia']).
  destruct H as [H|H]; destruct H' as [H'|H'].
  - apply (nisnan_iff RN) in H, H'. now apply (val_nan_inj RN).
  - exfalso. apply H' in Ja. rewrite Ea in Ja. apply (nle_iff RN) in Ja. apply (nisnan_iff RN) in H. exact (xle_nan_l _ _ Ja H).
  - exfalso. apply H in Ja'. rewrite Ea' in Ja'. apply (nle_iff RN) in Ja'. apply (nisnan_iff RN) in H'. exact (xle_nan_l _ _ Ja' H').
  - rewrite <- Ea, <- Ea'. apply Hinj. apply xle_antisym; apply (nle_iff RN); [rewrite Ea'|rewrite Ea]; auto.
Qed.
Lemma units_unique (g g' : galaxy N) ue uz up ue' uz' up' : same_bound g g' ->
  units g ue uz up -> units g' ue' uz' up' -> ue = ue' /\ uz = uz' /\ up = up'.
Proof.
  intros P [(e & He & ->) Hz Hp] [(e' & He' & ->) Hz' Hp']. split; [|split].
  - apply abs_eq. rewrite !(val_abs RN). f_equal. destruct He as [(a & Ia & Ea) H], He' as [(a' & Ia' & Ea') H'].
    assert (Nn : forall l (x : N) o, In o (filter bound l) -> o_e o = x -> nisnan x = false).
    { intros l x o Io Eo. apply filter_In in Io as [_ Bo]. destruct (bound_val RN o Bo) as (r & Vr & _).
      apply (nisnan_false RN). rewrite <- Eo, Vr. discriminate. }
    rewrite (Nn _ _ _ Ia Ea) in H. rewrite (Nn _ _ _ Ia' Ea') in H'.
    destruct H as [H|H]; [discriminate|]. destruct H' as [H'|H']; [discriminate|].
    apply xle_antisym; apply (nle_iff RN).
    + rewrite <- Ea'. apply H. eapply Permutation_in; [apply Permutation_sym, P|exact Ia'].
    + rewrite <- Ea. apply H'. eapply Permutation_in; [apply P|exact Ia].
  - eapply (largest_unique (fun o => nabs (o_jz o))); eauto. intros; now apply abs_eq.
  - eapply (largest_unique (fun o => nabs (o_jp o))); eauto. intros; now apply abs_eq.
Qed.

(** ** Runs *)
Lemma run_unique as1 as2 (g g' : galaxy N) b0 b1 j j' : gal_ok g -> gal_ok g' -> sorting as1 -> sorting as2 ->
  untied g -> same_bound g g' -> jcirc as1 g b0 b1 = Ok j -> jcirc as2 g' b0 b1 = Ok j' ->
  exists c, j = result c (map krow_of (star_orbits g)) /\ j' = result c (map krow_of (star_orbits g')) /\
    prefix (map bound (star_orbits g)) = true /\ prefix (map bound (star_orbits g')) = true.
Proof.
  intros Hg Hg' S1 S2 U P Hj Hj'.
  destruct (jcirc_inv RN _ _ _ _ _ Hg Hj) as (c & edges & Uc & Be & Cv & Np & Pf & Ej).
  destruct (jcirc_inv RN _ _ _ _ _ Hg' Hj') as (c' & edges' & Uc' & Be' & Cv' & Np' & Pf' & Ej').
  exists c. split; [exact Ej|]. split; [|split; assumption].
  assert (Q : c = c'); [|rewrite Ej', <- Q; reflexivity].
  rewrite Be' in Be. injection Be as ->.
  destruct (units_unique _ _ _ _ _ _ _ _ P Uc Uc') as (Qe & Qz & Qp).
  pose proof (curve_nonempty _ _ _ _ _ Cv) as Hne.
  rewrite <- Qe, <- Qz in Cv'.
  destruct (curve_spec RN (ofE (s_e c)) (ofZ (s_z c)) _ _ _ _ S1 Hne Cv) as (raw & R & T).
  destruct (curve_spec RN (ofE (s_e c)) (ofZ (s_z c)) _ _ _ _ S2 Hne Cv') as (raw' & R' & T').
  destruct (U _ _ _ Uc) as (U1 & U2 & U3).
  rewrite (raw_unique (ofE (s_e c)) (ofZ (s_z c)) edges _ _ P U1 U2 U3 raw raw' R R') in T.
  rewrite (trimmed_perm (ofE (s_e c)) edges _ _ P) in T.
  destruct c as [ce cz cp cpts], c' as [ce' cz' cp' cpts']. cbn [s_e s_z s_p s_pts] in *. congruence.
Qed.
End Ord.

(** *** C72 *)

(** C72: without ties, what [jcirc] returns depends on the bound particles only, not on their order nor
    on which of the sets holds them, nor on how the sort orders equal keys: the curve is the same, and
    a star gets the same four values wherever it stands. *)
Lemma c72_order : forall (N : Num) (RN : Rounded N) as1 as2 (g g' : galaxy N) b0 b1 j j',
  constructible g -> constructible g' -> sorting as1 -> sorting as2 ->
  untied g -> same_bound g g' -> jcirc as1 g b0 b1 = Ok j -> jcirc as2 g' b0 b1 = Ok j' ->
  jc_x j = jc_x j' /\ jc_y j = jc_y j' /\
  forall k k' o, nth_error (star_orbits g) k = Some o -> nth_error (star_orbits g') k' = Some o ->
    nth_error (jc_E j) k = nth_error (jc_E j') k' /\
    (bound o = true -> nth_error (jc_Jz j) k = nth_error (jc_Jz j') k') /\
    nth_error (jc_eps j) k = nth_error (jc_eps j') k' /\
    nth_error (jc_eps_r j) k = nth_error (jc_eps_r j') k'.
Proof.
  intros N RN as1 as2 g g' b0 b1 j j' Hg Hg' S1 S2 U P Hj Hj'. apply constructible_ok in Hg, Hg'.
  destruct (run_unique RN as1 as2 g g' b0 b1 j j' Hg Hg' S1 S2 U P Hj Hj') as (c & -> & -> & Pf & Pf').
  cbn [jc_x jc_y jc_E jc_Jz jc_eps jc_eps_r result]. split; [reflexivity|]. split; [reflexivity|].
  intros k k' o Hk Hk'. rewrite !filter_krow, !map_map, !nth_error_map, Hk, Hk'. split; [reflexivity|]. split; [|split; reflexivity].
  intros Ho. rewrite (prefix_nth bound _ _ _ Pf Hk Ho), (prefix_nth bound _ _ _ Pf' Hk' Ho). reflexivity.
Qed.

(** C72: in particular, without ties, all sorting algorithms give the same result. *)
Lemma c72_sort : forall (N : Num) (RN : Rounded N) as1 as2 (g : galaxy N) b0 b1 j,
  constructible g -> sorting as1 -> sorting as2 -> untied g ->
  jcirc as1 g b0 b1 = Ok j -> jcirc as2 g b0 b1 = Ok j.
Proof.
  intros N RN as1 as2 g b0 b1 j Hg S1 S2 U Hj. pose proof Hg as Hc. apply constructible_ok in Hg.
  destruct (curve_of_run RN _ _ _ _ _ Hg S1 Hj) as (ue & uz & up & l0 & l1 & raw & _ & H0 & H1 & Hne & _).
  assert (E : exists j', jcirc as2 g b0 b1 = Ok j').
  { apply (c30_returns N RN as2 g b0 b1 l0 l1 Hc S2 H0 H1 Hne).
    apply (c30_returns N RN as1 g b0 b1 l0 l1 Hc S1 H0 H1 Hne). eauto. }
  destruct E as (j' & E). rewrite E. f_equal.
  destruct (run_unique RN as1 as2 g g b0 b1 j j' Hg Hg S1 S2 U (Permutation_refl _) Hj E) as (c & -> & -> & _). reflexivity.
Qed.

(** ** Deciding [untied] *)
Section Dec.
Context {N : Num} (RN : Rounded N).
Fixpoint apart_b (l : list N) : bool :=
  match l with [] => true | x :: r => forallb (fun y => negb (neqb x y) && negb (neqb y x)) r && apart_b r end.
Definition untied_b (g : galaxy N) : bool :=
  let all := filter bound (all_orbits g) in
  match np_min (map o_e all), np_max (map (fun o => nabs (o_jz o)) all) with
  | Ok e, Ok uz =>
      let E o := (o_e o / nabs e)%num in
      let J o := nabs (o_jz o / uz)%num in
      forallb (fun o => negb (nisnan (J o))) all && apart_b (map J all) &&
      forallb (fun o => forallb (fun o' => neqb (J o) (J o') ||
        existsb (fun p => nlt (E p) (E o) || nlt (E p) (E o')) all) all) all
  | _, _ => false
  end.
Lemma apart_b_ok {A} (f : A -> N) l : apart_b (map f l) = true -> forall a b, In a l -> In b l -> neqb (f a) (f b) = true -> a = b.
Proof.
  induction l as [|x l IH]; simpl; intros H a b Ia Ib E; [destruct Ia|].
  apply andb_prop in H as [H1 H2]. rewrite forallb_forall in H1.
  destruct Ia as [<-|Ia], Ib as [<-|Ib]; auto.
  - specialize (H1 (f b) (in_map f _ _ Ib)). rewrite E in H1. discriminate.
  - specialize (H1 (f a) (in_map f _ _ Ia)). rewrite E, andb_false_r in H1. discriminate.
Qed.
Lemma untied_b_ok g : untied_b g = true -> untied g.
Proof.
  unfold untied_b. set (all := filter bound (all_orbits g)).
  destruct (np_min (map o_e all)) as [e|] eqn:Em; [|discriminate].
  destruct (np_max (map (fun o => nabs (o_jz o)) all)) as [uz|] eqn:Ez; [|discriminate]. cbv zeta.
  intros H. apply andb_prop in H as [H H3]. apply andb_prop in H as [H1 H2].
  intros ue' uz' up' U.
  assert (Q : ue' = nabs e /\ uz' = uz).
  { destruct (np_max (map (fun o => nabs (o_jp o)) all)) as [up|] eqn:Ep.
    - destruct (units_unique RN g g ue' uz' up' (nabs e) uz up (Permutation_refl _) U) as (A & B & _).
      + split; [exists e; split; [now apply (np_min_spec RN)|reflexivity]|now apply (np_max_spec RN)|now apply (np_max_spec RN)].
      + auto.
    - exfalso. destruct all; discriminate. }
  destruct Q as [-> ->]. fold all. cbv zeta. rewrite forallb_forall in H1, H3. split; [|split].
  - intros o Io. apply negb_true_iff. apply (H1 o Io).
  - intros o o' Io Io' E. rewrite (apart_b_ok _ _ H2 o o' Io Io' E). reflexivity.
  - intros o o' Io Io' Hm. specialize (H3 o Io). rewrite forallb_forall in H3. specialize (H3 o' Io').
    apply orb_prop in H3 as [H3|H3]; [exact H3|]. apply existsb_exists in H3 as (p & Ip & Hp).
    destruct (Hm p Ip) as [A B]. rewrite A, B in Hp. discriminate.
Qed.
End Dec.

Definition oshow (o : orbit F64) := (fshow (o_e o), fshow (o_jx o), fshow (o_jy o), fshow (o_jz o)).
Lemma oshow_inj o o' : oshow o = oshow o' -> o = o'.
Proof.
  destruct o as [a b c d], o' as [a' b' c' d']. unfold oshow, fshow; cbn [o_e o_jx o_jy o_jz]. intros [= E1 E2 E3 E4].
  apply B2SF_inj in E1, E2, E3, E4. congruence.
Qed.
Lemma perm_shown (l l' : list (orbit F64)) : Permutation (map oshow l) (map oshow l') -> Permutation l l'.
Proof.
  intros H. apply Permutation_sym, Permutation_map_inv in H as (r & E & P).
  assert (l' = r) as ->; [|exact P]. clear P. revert r E.
  induction l' as [|a l' IH]; intros [|b r]; simpl; try discriminate; auto.
  intros [= E1 E2 E3 E4 E5]. f_equal; [|auto]. apply oshow_inj. unfold oshow. congruence.
Qed.

(** A galaxy and the same particles the other way round, so that two of the stars become dark matter
    and gas; the third star is the same in both. *)
Definition fwd : res (galaxy F64) :=
  lineG (zl [(1,1,1,(-2,1)); (2,1,0,(-1,1)); (-3,1,0,(-76,100))])%Z (zl [(4,1,0,(-77,100))])%Z (zl [(5,1,0,(-501,1000))])%Z.
Definition bwd : res (galaxy F64) :=
  lineG (zl [(5,1,0,(-501,1000)); (4,1,0,(-77,100)); (-3,1,0,(-76,100))])%Z (zl [(2,1,0,(-1,1))])%Z (zl [(1,1,1,(-2,1))])%Z.

(** Two galaxies, both constructible and measured. *)
Lemma pair_ex (r r' : res (galaxy F64)) (Q : galaxy F64 -> galaxy F64 -> jcirc_t F64 -> jcirc_t F64 -> bool) :
  (forall g, r = Ok g -> constructible g) -> (forall g, r' = Ok g -> constructible g) ->
  match r, r' with
  | Ok g, Ok g' => match jcirc asort g default_bin0 default_bin1, jcirc asort g' default_bin0 default_bin1 with
                   | Ok j, Ok j' => Q g g' j j' | _, _ => false end
  | _, _ => false end = true ->
  exists g g' j j', r = Ok g /\ r' = Ok g' /\ constructible g /\ constructible g' /\
    jcirc asort g default_bin0 default_bin1 = Ok j /\ jcirc asort g' default_bin0 default_bin1 = Ok j' /\ Q g g' j j' = true.
Proof.
  intros C C' H. destruct r as [g|]; [|discriminate]. destruct r' as [g'|]; [|discriminate].
  destruct (jcirc asort g _ _) as [j|] eqn:E; [|discriminate]. destruct (jcirc asort g' _ _) as [j'|] eqn:E'; [|discriminate].
  exists g, g', j, j'. auto 10.
Qed.

Example ex_c72 : exists (g g' : galaxy F64) j j' o, constructible g /\ constructible g' /\ sorting (@asort F64) /\
  untied g /\ same_bound g g' /\ (1 < length (filter bound (all_orbits g)))%nat /\
  jcirc asort g default_bin0 default_bin1 = Ok j /\ jcirc asort g' default_bin0 default_bin1 = Ok j' /\
  nth_error (star_orbits g) 2 = Some o /\ nth_error (star_orbits g') 2 = Some o /\
  shows (jc_eps j) = [sZ 1; sZ 1; sZ (-1)] /\ shows (jc_eps j') = [sZ 1; S754_nan; sZ (-1)].
Proof.
  destruct (pair_ex fwd bwd (fun g g' j j' => untied_b g && (1 <? length (filter bound (all_orbits g)))%nat)) as (g & g' & j & j' & Eg & Eg' & C & C' & J & J' & H).
  { apply lineG_ok. }
  { apply lineG_ok. }
  { vm_compute. reflexivity. }
  apply andb_prop in H as [H1 H2]. apply Nat.ltb_lt in H2.
  assert (A : match fwd, bwd with Ok g, Ok g' =>
     rev (map oshow (filter bound (all_orbits g))) = map oshow (filter bound (all_orbits g')) /\
     nth_error (map oshow (star_orbits g)) 2 = nth_error (map oshow (star_orbits g')) 2 /\
     length (star_orbits g) = 3%nat
     | _, _ => False end) by (vm_compute; auto).
  assert (B : rmap (fun j => shows (jc_eps j)) (do g <- fwd; jcirc asort g default_bin0 default_bin1) = Ok [sZ 1; sZ 1; sZ (-1)]) by (vm_compute; reflexivity).
  assert (B' : rmap (fun j => shows (jc_eps j)) (do g <- bwd; jcirc asort g default_bin0 default_bin1) = Ok [sZ 1; S754_nan; sZ (-1)]) by (vm_compute; reflexivity).
  rewrite Eg in B. rewrite Eg' in B'. cbn [bind] in B, B'. rewrite J in B. rewrite J' in B'. cbn [rmap] in B, B'.
  injection B as B. injection B' as B'. rewrite Eg, Eg' in A. destruct A as (A1 & A2 & A3).
  rewrite !nth_error_map in A2.
  destruct (nth_error (star_orbits g) 2) as [o|] eqn:Eo; [|apply nth_error_None in Eo; lia].
  destruct (nth_error (star_orbits g') 2) as [o'|] eqn:Eo'; [|discriminate].
  cbn [option_map] in A2. assert (Q : oshow o = oshow o') by congruence. apply oshow_inj in Q. subst o'.
  exists g, g', j, j', o. split; [exact C|]. split; [exact C'|]. split; [exact (asort_sorting (F64_rounded _))|].
  split; [now apply (untied_b_ok (F64_rounded _))|]. split; [apply perm_shown; rewrite <- A1; apply Permutation_rev|].
  repeat (split; [assumption|]). assumption.
Qed.

(** Two dark matter particles with the same |Jz| in the same energy bin, in both orders. *)
Definition tie1 : res (galaxy F64) :=
  lineG (zl [(1,1,1,(-2,1)); (2,1,0,(-1,1)); (-3,1,0,(-78,100))])%Z
        (zl [(4,1,0,(-76,100)); (4,1,0,(-77,100))])%Z (zl [(5,1,0,(-501,1000))])%Z.
Definition tie2 : res (galaxy F64) :=
  lineG (zl [(1,1,1,(-2,1)); (2,1,0,(-1,1)); (-3,1,0,(-78,100))])%Z
        (zl [(4,1,0,(-77,100)); (4,1,0,(-76,100))])%Z (zl [(5,1,0,(-501,1000))])%Z.

(** C72: with ties the order matters: exchanging two dark matter particles of equal |Jz| changes the circularity
    of a star. *)
Lemma c72_ties_refuted : exists (g g' : galaxy F64) j j' o a b, constructible g /\ constructible g' /\ sorting (@asort F64) /\
  same_bound g g' /\
  jcirc asort g default_bin0 default_bin1 = Ok j /\ jcirc asort g' default_bin0 default_bin1 = Ok j' /\
  nth_error (star_orbits g) 2 = Some o /\ nth_error (star_orbits g') 2 = Some o /\
  nth_error (jc_eps j) 2 = Some a /\ nth_error (jc_eps j') 2 = Some b /\
  nfin a = true /\ nfin b = true /\ neqb a b = false.
Proof.
  destruct (pair_ex tie1 tie2 (fun g g' j j' => match nth_error (jc_eps j) 2, nth_error (jc_eps j') 2 with
     Some a, Some b => nfin a && nfin b && negb (neqb a b) | _, _ => false end))
   as (g & g' & j & j' & Eg & Eg' & C & C' & J & J' & H).
  { apply lineG_ok. }
  { apply lineG_ok. }
  { vm_compute. reflexivity. }
  assert (A : match tie1, tie2 with Ok g, Ok g' =>
     (exists a b c d r, map oshow (filter bound (all_orbits g)) = a :: b :: c :: d :: r /\
        exists e s, r = e :: s /\ map oshow (filter bound (all_orbits g')) = a :: b :: c :: e :: d :: s) /\
     nth_error (map oshow (star_orbits g)) 2 = nth_error (map oshow (star_orbits g')) 2 /\
     length (star_orbits g) = 3%nat
     | _, _ => False end).
  { vm_compute. split; [|split; reflexivity]. do 5 eexists. split; [reflexivity|]. do 2 eexists. split; reflexivity. }
  rewrite Eg, Eg' in A. destruct A as ((p & q & r & s & t & A1 & u & w & A2 & A3) & A4 & A5).
  rewrite !nth_error_map in A4.
  destruct (nth_error (star_orbits g) 2) as [o|] eqn:Eo; [|apply nth_error_None in Eo; lia].
  destruct (nth_error (star_orbits g') 2) as [o'|] eqn:Eo'; [|discriminate].
  cbn [option_map] in A4. assert (Q : oshow o = oshow o') by congruence. apply oshow_inj in Q. subst o'.
  destruct (nth_error (jc_eps j) 2) as [a|] eqn:Ea; [|discriminate].
  destruct (nth_error (jc_eps j') 2) as [b|] eqn:Eb; [|discriminate].
  apply andb_prop in H as [H H3]. apply andb_prop in H as [H1 H2]. apply negb_true_iff in H3.
  exists g, g', j, j', o, a, b. split; [exact C|]. split; [exact C'|]. split; [exact (asort_sorting (F64_rounded _))|].
  split; [apply perm_shown; rewrite A1, A2, A3; do 3 constructor; apply perm_swap|].
  repeat (split; [first [assumption|reflexivity]|]). assumption.
Qed.
