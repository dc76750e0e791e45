(** Mirror images and reversed motion: the whole analysis gives the same labels (C109). *)
From Flocq Require Import Core BinarySingleNaN.
From Coq Require Import Lra Lia FunctionalExtensionality Floats.SpecFloat.
From Verif Require Import Py Num RX F64 Np Df Data DataFacts DfFacts RebuildFacts Center CenterFacts Align AlignFacts Spec SpecR SpecCirc SpecBase SpecSym SpecImage Circ CircFacts CurveFacts CircThms Ex DataThms CenterThms AlignThms OrderThms SymFacts SymThms Base BaseFacts BaseThms Threshold EpsFacts ThresholdThms InvThms Hist Potential PotFacts PotThms PotConcFacts AccFacts SpecFma Dgemm SpecDgemm DgemmThms SpecShift UnitThms WholeThms SpecAgain AgainThms MirFacts.

(** *** Binary numbers *)
Section Binary.
Context {prec emax : Z} (Hp : (0 < prec)%Z) (Hm : (prec < emax)%Z).
Lemma bzero (x : binary_float prec emax) : bval prec emax x = XR 0 -> exists s, x = B754_zero s.
Proof.
  destruct x as [s|[|]| |s m e H]; intros E; try discriminate; [eauto|]. exfalso. injection E as E.
  apply eq_0_F2R in E. destruct s; discriminate.
Qed.
End Binary.
Lemma sq64 sm : forall x y : F64s sm, val (F64_rounded sm) x = XR 0 -> val (F64_rounded sm) y = XR 0 -> (x * x = y * y)%num.
Proof.
  intros x y X Y. destruct (bzero x X) as (s & ->). destruct (bzero y Y) as (t & ->). destruct s, t; reflexivity.
Qed.
Lemma sq32 sm : forall x y : F32s sm, val (F32_rounded sm) x = XR 0 -> val (F32_rounded sm) y = XR 0 -> (x * x = y * y)%num.
Proof.
  intros x y X Y. destruct (bzero x X) as (s & ->). destruct (bzero y Y) as (t & ->). destruct s, t; reflexivity.
Qed.
Lemma dv64 sm : forall a m : F64s sm, val (F64_rounded sm) (nopp a / m)%num = xopp (val (F64_rounded sm) (a / m)%num).
Proof.
  intros a m. destruct (xr_zero_dec (val (F64_rounded sm) m)) as [Z|Z].
  - destruct (bzero m Z) as (s & ->). destruct a as [t|t| |t ma ea Ha]; try destruct s; try destruct t; try reflexivity;
      change (XNaN = xopp XNaN) || change (XR 0 = xopp (XR 0)); simpl; auto; f_equal; lra.
  - rewrite !(val_div (F64_rounded sm)) by assumption. rewrite (val_opp (F64_rounded sm)), xdiv_opp_l. apply (rnd_opp (F64_rounded sm)).
Qed.
Lemma cast_rel sm sm' s (a b : F64s sm) : rel (F64_rounded sm) s a b -> rel (F32_rounded sm') s (to32 a : F32s sm') (to32 b : F32s sm').
Proof.
  unfold rel. intros H. change (bval 53 1024 b = xturn s (bval 53 1024 a)) in H.
  change (bval 24 128 (to32 b) = xturn s (bval 24 128 (to32 a))). rewrite !to32_val, H. apply (rnd_turn (F32_rounded sm')).
Qed.

(** *** Backends *)
Section Backends.
Context {S : Num} (RS : Rounded S) (G : S).
Hypothesis Sq : forall x y : S, val RS x = XR 0 -> val RS y = XR 0 -> (x * x = y * y)%num.
Record brel (s1 s2 s3 : bool) (b b' : body S) : Prop := {
  br_x : rel RS s1 (b_x b) (b_x b'); br_y : rel RS s2 (b_y b) (b_y b'); br_z : rel RS s3 (b_z b) (b_z b'); br_m : b_m b' = b_m b }.
Lemma bodies_rel s1 s2 s3 x y z x' y' z' (m : list S) : Forall2 (rel RS s1) x x' -> Forall2 (rel RS s2) y y' -> Forall2 (rel RS s3) z z' ->
  Forall2 (brel s1 s2 s3) (Potential.bodies x y z m) (Potential.bodies x' y' z' m).
Proof.
  intros X Y Z. unfold Potential.bodies. eapply F2_map2; [|apply F2_pair; [exact X|exact Y]|apply F2_pair; [exact Z|apply (F2_refl eq); reflexivity]].
  intros a b a' b' (A1 & A2) (B1 & B2). constructor; simpl; auto.
Qed.
Lemma diff_sq s (a b c d : S) : rel RS s a b -> rel RS s c d -> ((b - d) * (b - d) = (a - c) * (a - c))%num.
Proof. intros H1 H2. eapply sq_same; [exact Sq|]. apply rel_minus; eassumption. Qed.
Lemma fterm_same s1 s2 s3 soft2 bi bj bi' bj' : brel s1 s2 s3 bi bi' -> brel s1 s2 s3 bj bj' -> Potential.fterm soft2 bi' bj' = Potential.fterm soft2 bi bj.
Proof.
  intros [X Y Z M] [X' Y' Z' M']. unfold Potential.fterm, Potential.fdist.
  now rewrite (diff_sq _ _ _ _ _ X X'), (diff_sq _ _ _ _ _ Y Y'), (diff_sq _ _ _ _ _ Z Z'), M'.
Qed.
Lemma finner_same s1 s2 s3 soft2 i bi bi' l l' : brel s1 s2 s3 bi bi' -> Forall2 (brel s1 s2 s3) l l' ->
  forall j acc, Potential.finner soft2 i j bi' acc l' = Potential.finner soft2 i j bi acc l.
Proof.
  intros Hb F. induction F as [|b b' l l' H F IH]; intros j acc; simpl; auto. rewrite IH, (fterm_same _ _ _ _ _ _ _ _ Hb H). reflexivity.
Qed.
Lemma fortran_even have : even_potential (Potential.fortran_potential G have).
Proof.
  intros s1 s2 s3 x y z x' y' z' m so X Y Z. apply (agrees_rel RS) in X, Y, Z. pose proof (bodies_rel _ _ _ _ _ _ _ _ _ m X Y Z) as F.
  unfold Potential.fortran_potential. destruct have; [|reflexivity]. do 2 f_equal. unfold Potential.fortran_kernel. cbv zeta.
  rewrite <- (Forall2_length' _ _ _ F). apply F2_eq. eapply F2_map2; [|apply (F2_refl eq); reflexivity|exact F].
  intros i b i' b' <- Hb. symmetry. apply (finner_same _ _ _ _ _ _ _ _ _ Hb F).
Qed.
Lemma numpy_even junk : even_potential (Potential.numpy_potential G junk).
Proof.
  intros s1 s2 s3 x y z x' y' z' m so X Y Z. apply (agrees_rel RS) in X, Y, Z. pose proof (bodies_rel _ _ _ _ _ _ _ _ _ m X Y Z) as F.
  unfold Potential.numpy_potential. cbv zeta. rewrite <- (Forall2_length' _ _ _ F). f_equal. apply F2_eq.
  eapply F2_map2; [|apply (F2_refl eq); reflexivity|exact F].
  intros i b i' b' <- Hb. f_equal. f_equal. symmetry. apply F2_eq. eapply F2_map2; [|apply (F2_refl eq); reflexivity|exact F].
  intros k c k' c' <- Hc. unfold Potential.nentry. cbv zeta.
  assert (E : Potential.ndist so i k b' c' = Potential.ndist so i k b c).
  { unfold Potential.ndist. destruct (i =? k)%nat; [reflexivity|]. destruct Hb as [BX BY BZ _], Hc as [CX CY CZ _].
    now rewrite (diff_sq _ _ _ _ _ CX BX), (diff_sq _ _ _ _ _ CY BY), (diff_sq _ _ _ _ _ CZ BZ). }
  rewrite E, (br_m _ _ _ _ _ Hc). reflexivity.
Qed.
Lemma table_even have junk name f : dget (backend_table G have junk) name = Some f -> even_potential f /\
  forall x y z m so pot, length y = length x -> length z = length x -> length m = length x -> f x y z m so = Ok pot -> length pot = length x.
Proof.
  unfold backend_table. intros H. simpl in H. destruct (name =? "fortran")%string.
  - injection H as <-. split; [apply fortran_even|]. intros x y z m so pot Ly Lz Lm E. unfold Potential.fortran_potential in E.
    destruct have; [|discriminate]. injection E as <-. rewrite map_length, fortran_kernel_length. now apply bodies_length.
  - destruct (name =? "numpy")%string; [|discriminate]. injection H as <-. split; [apply numpy_even|].
    intros x y z m so pot Ly Lz Lm E. unfold Potential.numpy_potential in E. injection E as <-.
    rewrite map2_length, seq_length, Nat.min_id. now apply bodies_length.
Qed.
End Backends.

(** *** Methods *)
Section Methods.
Context {N : Num} (RN : Rounded N).
Lemma cell_num_rel c c' : cell_agrees c c' -> rel RN false (cell_num c) (cell_num c').
Proof. intros [->|(a & b & -> & -> & H)]; [reflexivity|]. now apply (agrees_iff RN). Qed.
Lemma col_rel k (X X' : matrix N) : Forall2 (Forall2 cell_agrees) X X' -> Forall2 (rel RN false) (matrix_col k X) (matrix_col k X').
Proof.
  intros F. unfold matrix_col. eapply F2_map; [|exact F]. intros r r' H. apply cell_num_rel. clear F. revert k.
  induction H as [|c c' r r' Hc H IH]; intros [|k]; simpl; auto; left; reflexivity.
Qed.
Lemma same_cmp (a b c d : N) : rel RN false a b -> rel RN false c d -> ncmp b d = ncmp a c.
Proof. intros H1 H2. unfold rel, xturn in *. now rewrite !(val_cmp RN), H1, H2. Qed.
Lemma nle_l (a b c : N) : rel RN false a b -> nle b c = nle a c /\ nlt b c = nlt a c /\ nle c b = nle c a /\ nlt c b = nlt c a.
Proof.
  intros H. assert (E1 : ncmp b c = ncmp a c) by (apply same_cmp; [exact H|reflexivity]).
  assert (E2 : ncmp c b = ncmp c a) by (apply same_cmp; [reflexivity|exact H]). unfold nle, nlt. now rewrite E1, E2.
Qed.
Lemma map_blind {A} (f : N -> A) l l' : (forall a b, rel RN false a b -> f b = f a) -> Forall2 (rel RN false) l l' -> map f l' = map f l.
Proof. intros H F. apply F2_eq. eapply F2_map; [|exact F]. intros a b R. symmetry. auto. Qed.
Lemma hist_blind {St} (pick pick' : St -> list nat -> list nat -> res (list nat * St)) junk n d st eps eps' :
  pick' = pick -> Forall2 (rel RN false) eps eps' -> hist_split pick' junk n d st eps' = hist_split pick junk n d st eps.
Proof.
  intros -> F. unfold hist_split.
  assert (E1 : make_histogram eps' n d = make_histogram eps n d).
  { unfold make_histogram, np_histogram. destruct (guard _ _); reflexivity. }
  rewrite E1, <- (Forall2_length' _ _ _ F). destruct (make_histogram eps n d) as [[edges bin0]|e]; [|reflexivity]. cbn [bind].
  assert (E2 : bin_to_particle edges (Z.to_nat n) eps' = bin_to_particle edges (Z.to_nat n) eps).
  { unfold bin_to_particle. f_equal.
    - apply map_ext. intros i. do 2 f_equal. apply map_blind; [|exact F]. intros a b R.
      destruct (nle_l a b (nth i edges nnan) R) as (_ & _ & -> & _). now destruct (nle_l a b (nth (S i) edges nnan) R) as (_ & -> & _).
    - f_equal. apply map_blind; [|exact F]. intros a b R.
      destruct (nle_l a b (nth (Z.to_nat n - 1) edges nnan) R) as (_ & _ & -> & _).
      now destruct (nle_l a b (nth (Z.to_nat n) edges nnan) R) as (-> & _). }
  now rewrite E2.
Qed.
Lemma take_rel (l l' : list N) idx : Forall2 (rel RN false) l l' ->
  match take_at l idx, take_at l' idx with
  | Ok a, Ok b => Forall2 (rel RN false) a b | Raise e, Raise e' => e' = e | _, _ => False end.
Proof.
  intros F. unfold take_at. induction idx as [|i idx IH]; cbn [mapM bind]; [constructor|].
  destruct (nth_error l i) as [a|] eqn:E.
  - destruct (F2_nth _ _ _ _ _ F E) as (b & E' & R). rewrite E'. cbn [bind].
    destruct (mapM _ idx) as [x|e]; destruct (mapM _ idx) as [y|e']; cbn [bind]; auto; try contradiction.
  - apply nth_error_None in E. rewrite (Forall2_length' _ _ _ F) in E. apply nth_error_None in E. rewrite E. reflexivity.
Qed.
Lemma histogram_blind (l l' : list N) n a b : Forall2 (rel RN false) l l' -> np_histogram l' n a b = np_histogram l n a b.
Proof.
  intros F. unfold np_histogram. destruct (guard _ _); [|reflexivity]. cbn [bind]. cbv zeta. do 2 f_equal. apply map_ext. intros i. f_equal.
  apply map_blind; [|exact F]. intros x y R. unfold in_bin.
  destruct (nle_l x y (nth i (linspace a b (Z.to_nat n)) nnan) R) as (_ & _ & -> & _).
  destruct (nle_l x y (nth (S i) (linspace a b (Z.to_nat n)) nnan) R) as (-> & -> & _). reflexivity.
Qed.
Lemma energy_blind {St} (choice : St -> list nat -> nat -> list nat * St) (E E' : list N) n : Forall2 (rel RN false) E E' ->
  pick_energy choice E' n = pick_energy choice E n.
Proof.
  intros F. apply functional_extensionality. intros st. apply functional_extensionality. intros cnt. apply functional_extensionality. intros cor.
  unfold pick_energy. pose proof (take_rel E E' cnt F) as T1. pose proof (take_rel E E' cor F) as T2.
  destruct (take_at E cnt) as [x|e], (take_at E' cnt) as [x'|e']; try contradiction; [|now rewrite T1]. cbn [bind].
  rewrite (histogram_blind _ _ n nm1 n0 T1). destruct (np_histogram x n nm1 n0) as [h|]; [|reflexivity]. cbn [bind].
  destruct (take_at E cor) as [y|e], (take_at E' cor) as [y'|e']; try contradiction; [|now rewrite T2]. cbn [bind].
  rewrite (histogram_blind _ _ n nm1 n0 T2). destruct (np_histogram y n nm1 n0) as [k|]; [|reflexivity]. cbn [bind].
  assert (S1 : energy_step choice (snd k) cor y' (fst h) (fst k) = energy_step choice (snd k) cor y (fst h) (fst k)); [|now rewrite S1].
  apply functional_extensionality. intros acc. apply functional_extensionality. intros j. unfold energy_step.
  destruct acc as [[aux s]|]; [|reflexivity]. cbn [bind]. destruct (_ =? 0)%nat; [reflexivity|].
  assert (S2 : map (fun x0 => nle (nth j (snd k) nnan) x0 && nlt x0 (nth (S j) (snd k) nnan)) y' =
               map (fun x0 => nle (nth j (snd k) nnan) x0 && nlt x0 (nth (S j) (snd k) nnan)) y); [|now rewrite S2].
  apply map_blind; [|exact T2]. intros a b R. destruct (nle_l a b (nth j (snd k) nnan) R) as (_ & _ & -> & _).
  now destruct (nle_l a b (nth (S j) (snd k) nnan) R) as (_ & -> & _).
Qed.

(** Decompositions of galaxies with the same circularities up to the signs of zeros. *)
Lemma F2_repeat {A} (R : A -> A -> Prop) x n : R x x -> Forall2 R (repeat x n) (repeat x n).
Proof. intros H. induction n; simpl; constructor; auto. Qed.
Lemma existsb_blind {A} (f : A -> bool) (R : A -> A -> Prop) l l' : (forall a b, R a b -> f b = f a) -> Forall2 R l l' ->
  existsb f l' = existsb f l /\ forallb f l' = forallb f l.
Proof. intros H F. induction F as [|a b l l' r F (IH1 & IH2)]; simpl; [auto|]. now rewrite (H _ _ r), IH1, IH2. Qed.
Lemma decompose_same argsort St (D : decomposer N St) st (g g' : galaxy N) : constructible g -> constructible g' ->
  star_attrs (d_attributes D) -> d_mask D = stars_mask -> zero_blind D -> map plen (sets g') = map plen (sets g) ->
  (forall e, jcirc argsort g (fst (d_cbins D)) (snd (d_cbins D)) = Raise e -> jcirc argsort g' (fst (d_cbins D)) (snd (d_cbins D)) = Raise e) ->
  (forall j, jcirc argsort g (fst (d_cbins D)) (snd (d_cbins D)) = Ok j ->
     exists j', jcirc argsort g' (fst (d_cbins D)) (snd (d_cbins D)) = Ok j' /\ same_up_to false j j') ->
  decompose argsort D st g' = decompose argsort D st g.
Proof.
  intros Hg Hg' HA Hm HB Hs HE HJ. destruct (jcirc argsort g (fst (d_cbins D)) (snd (d_cbins D))) as [j|e] eqn:Ej.
  2:{ destruct (star_decompose_errors RN argsort St D st g Hg HA Hm) as (R & _). rewrite (R e Ej).
      destruct (star_decompose_errors RN argsort St D st g' Hg' HA Hm) as (R' & _). apply R'. auto. }
  destruct (HJ j eq_refl) as (j' & Ej' & E1 & E2 & E3 & E4 & E5 & E6).
  pose proof (proj1 (constructible_ok _) Hg) as G. pose proof (proj1 (constructible_ok _) Hg') as G'.
  assert (Cs : forall a, In a (d_attributes D) -> circ a = true) by (intros a Ha; apply circ_attr_iff, HA, Ha).
  assert (Dp : df_part (d_attributes D) = []).
  { unfold df_part. revert Cs. generalize (d_attributes D). induction l as [|a l IH]; intros H; [reflexivity|]. simpl.
    rewrite (H a (or_introl eq_refl)). simpl. apply IH. intros b Hb. apply H. now right. }
  assert (Ln : forall (g : galaxy N) j, constructible g -> jcirc argsort g (fst (d_cbins D)) (snd (d_cbins D)) = Ok j ->
     forall a, In a (d_attributes D) -> circ a = true -> length (circ_col j a) = plen (g_stars g)).
  { intros h i Hh Hi a Ha _. destruct (c31_lengths N RN argsort h _ _ i Hh Hi) as (L1 & L2 & L3 & _).
    destruct (proj2 HA a Ha) as (Ca & Na). destruct Ca as [<-|[<-|[<-|[<-|[]]]]]; [exact L1|congruence|exact L2|exact L3]. }
  unfold decompose. cbv zeta.
  rewrite (attributes_matrix_ok argsort (d_cbins D) g j (d_attributes D) G (proj1 HA)); [|rewrite Dp; intros ? []|auto|now apply Ln].
  rewrite (attributes_matrix_ok argsort (d_cbins D) g' j' (d_attributes D) G' (proj1 HA)); [|rewrite Dp; intros ? []|auto|now apply Ln].
  cbn [bind].
  assert (Ey : gcol g' "ptypev" = gcol g "ptypev").
  { apply gal_ok_facts in G as [_ _ _ t1 t2 t3 _ _ _], G' as [_ _ _ u1 u2 u3 _ _ _]. unfold sets in Hs. simpl in Hs. injection Hs as P1 P2 P3.
    unfold gcol, pcol, maker. cbn. now rewrite P1, P2, P3, t1, t2, t3, u1, u2, u3. }
  assert (Eg : glen g' = glen g) by (rewrite !glen_sets, Hs; reflexivity).
  rewrite Ey, Eg. set (X := rows_of (glen g) (map (acol g j) (d_attributes D))). set (X' := rows_of (glen g) (map (acol g' j') (d_attributes D))).
  set (y := gcol g "ptypev").
  assert (FX : Forall2 (Forall2 cell_agrees) X X').
  { unfold X, X', rows_of. eapply F2_map; [|apply (F2_refl eq); reflexivity]. intros i i' <-. rewrite !map_map.
    assert (K : forall a, In a (d_attributes D) -> Forall2 cell_agrees (acol g j a) (acol g' j' a)).
    { intros a Ha. unfold acol. rewrite (Cs a Ha). unfold sets in Hs. simpl in Hs. injection Hs as _ P2 P3. rewrite P2, P3.
      apply Forall2_app; [|apply Forall2_app; apply F2_repeat; left; reflexivity].
      assert (T : Forall2 (agrees false) (circ_col j a) (circ_col j' a)).
      { assert (Rf : forall l : list N, Forall2 (agrees false) l l) by (intros l; apply (agrees_rel RN), F2_refl; reflexivity).
        destruct (proj2 HA a Ha) as (Ca & Na). destruct Ca as [<-|[<-|[<-|[<-|[]]]]]; [|congruence|exact E5|exact E6].
        change (Forall2 (agrees false) (jc_E j) (jc_E j')). rewrite E1. apply Rf. }
      eapply F2_map; [|exact T]. intros u w H. right. eauto. }
    revert K. generalize (d_attributes D). induction l as [|a l IH]; intros K; simpl; constructor; [|apply IH; intros; apply K; now right].
    specialize (K a (or_introl eq_refl)). clear - K. revert i. induction K; intros [|i]; simpl; auto; left; reflexivity. }
  clearbody X X' y. rewrite Hm.
  assert (EM : stars_mask X' y (d_attributes D) = stars_mask X y (d_attributes D)).
  { unfold stars_mask.
    assert (S1 : forall a b, cell_agrees (N:=N) a b -> is_str b = is_str a).
    { intros a b [->|(u & w & -> & -> & _)]; reflexivity. }
    assert (S2 : forall a b, cell_agrees (N:=N) a b -> cell_finite b = cell_finite a).
    { intros a b [->|(u & w & -> & -> & H)]; [reflexivity|]. simpl. apply (agrees_iff RN) in H. unfold rel, xturn in H. now rewrite !(val_fin RN), H. }
    rewrite (proj1 (existsb_blind (existsb is_str) _ _ _ (fun a b r => proj1 (existsb_blind is_str _ _ _ S1 r)) FX)).
    replace (map (forallb cell_finite) X') with (map (forallb (cell_finite (N:=N))) X); [reflexivity|].
    symmetry. apply F2_eq. eapply F2_map; [|exact FX]. intros a b r. symmetry. exact (proj2 (existsb_blind _ _ _ _ S2 r)). }
  rewrite EM. destruct (stars_mask X y (d_attributes D)) as [mask|]; [|reflexivity]. cbn [bind].
  pose proof (Forall2_length' _ _ _ FX) as LX. unfold select_rows. rewrite <- LX.
  destruct (guard (length mask =? length X)%nat IndexError) eqn:Gm; [|reflexivity]. cbn [bind].
  destruct (guard (length mask =? length y)%nat IndexError); [|reflexivity]. cbn [bind].
  rewrite (HB st (bmask mask X) (bmask mask X') (bmask mask y) (d_attributes D) (F2_mask _ _ _ _ FX)).
  destruct (d_split D st (bmask mask X) (bmask mask y) (d_attributes D)) as [[[l pr] st']|]; [|reflexivity]. cbn [bind].
  unfold complete_labels, complete_probs. rewrite <- LX. reflexivity.
Qed.
End Methods.

(** *** Properties *)

(** Arrays added in an order fixed by their length: reversing every entry reverses the sum. *)
Lemma c109_sums : forall sm, fixed_order sm -> even_sum (N:=F64s sm) sm.
Proof.
  intros sm (shape & Hs) s l l' F. apply (agrees_rel (F64_rounded sm)) in F. apply (agrees_iff (F64_rounded sm)).
  assert (Z : rel (F64_rounded sm) s (B754_zero false : F64s sm) (B754_zero false : F64s sm)) by apply (rel_n0 (F64_rounded sm)).
  assert (T : forall tr, rel (F64_rounded sm) s (eval p53 e1024 tr l : F64s sm) (eval p53 e1024 tr l' : F64s sm)).
  2:{ assert (EL : @length f64 l' = @length f64 l) by (symmetry; exact (Forall2_length' _ _ _ F)).
      change (bval 53 1024 (sm l') = xturn s (bval 53 1024 (sm l))). rewrite (proj1 (Hs l)), (proj1 (Hs l')), EL. exact (T _). }
  intros tr. induction tr as [|i|t1 IH1 t2 IH2]; cbn [eval].
  - exact Z.
  - revert i. induction F as [|a b l l' R F IH]; intros [|i]; simpl; auto.
  - exact (rel_add (F64_rounded sm) s _ _ _ _ IH1 IH2).
Qed.

Lemma fma64_val (x y z : f64) : bval 53 1024 (fma64 x y z) = brnd 53 1024 (xadd (xmul (bval 53 1024 x) (bval 53 1024 y)) (bval 53 1024 z)).
Proof.
  destruct (is_finite x && is_finite y) eqn:F.
  - apply andb_prop in F as (Fx & Fy). rewrite (bval_fin 53 1024 x Fx), (bval_fin 53 1024 y Fy). cbn [xmul].
    destruct (is_finite z) eqn:Fz.
    + rewrite (bval_fin 53 1024 z Fz). cbn [xadd]. apply (c94_fma64 (seqsum 53 1024 p53 e1024)); now apply bval_fin.
    + destruct z as [uz|[|]| |uz mz ez Hz]; try discriminate Fz; destruct x as [ux|ux| |ux mx ex Hx]; try discriminate Fx;
        destruct y as [uy|uy| |uy my ey Hy]; try discriminate Fy; reflexivity.
  - assert (E : bval 53 1024 (fma64 x y z) = bval 53 1024 (@Bplus 53 1024 p53 e1024 mode_NE (@Bmult 53 1024 p53 e1024 mode_NE x y) z)).
    { destruct x as [ux|[|]| |ux mx ex Hx], y as [uy|[|]| |uy my ey Hy]; try discriminate F; try destruct ux; try destruct uy;
        destruct z as [[|]|[|]| |uz mz ez Hz]; reflexivity. }
    rewrite E. set (R := F64_rounded (seqsum 53 1024 p53 e1024)).
    etransitivity; [exact (val_add R (@Bmult 53 1024 p53 e1024 mode_NE x y) z)|]. change (rnd R) with (brnd 53 1024). f_equal.
    change (val R) with (bval 53 1024). f_equal. etransitivity; [exact (val_mul R x y)|].
    change (val R) with (bval 53 1024). change (rnd R) with (brnd 53 1024).
    destruct x as [ux|[|]| |ux mx ex Hx], y as [uy|[|]| |uy my ey Hy]; try discriminate F; try reflexivity; cbn [bval xmul];
      match goal with |- context [xinf ?c] => destruct c; reflexivity end.
Qed.
Lemma fma_rel sm s t u (a b c a' b' c' : F64s sm) : rel (F64_rounded sm) s a a' -> rel (F64_rounded sm) t b b' -> rel (F64_rounded sm) u c c' ->
  xorb s t = u -> rel (F64_rounded sm) u (fma64 a b c : F64s sm) (fma64 a' b' c' : F64s sm).
Proof.
  intros A B C E.
  unfold rel in *. change (bval 53 1024 a' = xturn s (bval 53 1024 a)) in A. change (bval 53 1024 b' = xturn t (bval 53 1024 b)) in B.
  change (bval 53 1024 c' = xturn u (bval 53 1024 c)) in C. change (bval 53 1024 (fma64 a' b' c') = xturn u (bval 53 1024 (fma64 a b c))).
  rewrite !fma64_val, A, B, C. etransitivity; [|apply (rnd_turn (F64_rounded sm))]. rewrite xturn_mul, E.
  change (rnd (F64_rounded sm)) with (brnd 53 1024). f_equal. destruct u; simpl; auto. apply xadd_opp.
Qed.

(** The matrix products of Align.v, and those of a library with fused operations. *)
Lemma c109_products : forall sm, even_matmul (N:=F64s sm) plain_matmul /\ even_matmul (N:=F64s sm) (fused_matmul (S:=F64s sm) fma64).
Proof.
  intros sm. set (R := F64_rounded sm). split; intros k r1 r2 r3 c1 c2 c3 A A' x y z x' y' z' u v w u' v' w' A1 A2 A3 A4 A5 A6 A7 A8 A9 X Y Z E E';
    apply (agrees_iff R) in A1, A2, A3, A4, A5, A6, A7, A8, A9; apply (agrees_rel R) in X, Y, Z; injection E as <- <- <-; injection E' as <- <- <-;
    assert (Q : forall r c, xorb (xorb r c) c = r) by (intros [] []; reflexivity);
    (split; [|split]); apply (agrees_rel R); (eapply F2_map3; [|exact X|exact Y|exact Z]); intros p q o p' q' o' P1 P2 P3.
  1,2,3: unfold rot_x, rot_y, rot_z; repeat apply (rel_add R); (eapply rel_mul'; [eassumption|eassumption|apply Q]).
  all: unfold fused_row; apply (rel_mul' R false _ _ _ _ _ _ (rel_refl R _)) with (2 := xorb_false_l _);
    (eapply fma_rel; [eassumption|eassumption| |apply Q]); (eapply fma_rel; [eassumption|eassumption| |apply Q]);
    (eapply fma_rel; [eassumption|eassumption|apply (rel_n0 R)|apply Q]).
Qed.

(** Potentials: a galaxy and its mirror image get the same ones, bit for bit, from either backend. *)
Lemma c109_potential : forall sm sm' (G : F32s sm') have junk name w (g g' : galaxy (F64s sm)),
  constructible g -> constructible g' -> mirror_image w g g' ->
  let run := potential (W:=F64s sm) (S:=F32s sm') to32 to64 (backend_table G have junk) name in
  (forall e, run g = Raise e -> run g' = Raise e) /\
  (forall h, run g = Ok h -> exists h', run g' = Ok h' /\ constructible h /\ constructible h' /\ mirror_image w h h').
Proof.
  intros sm sm' G have junk name w g g' Hg Hg' F run. apply constructible_ok in Hg, Hg'. apply (image_iff (F64_rounded sm)) in F.
  destruct (mirror_potential (F64_rounded sm) (F32_rounded sm') to32 to64 (cast_rel sm sm') w g g' (backend_table G have junk) name Hg Hg' F
              (fun f H => table_even (F32_rounded sm') G (sq32 sm') have junk name f H)) as (E & O).
  split; [exact E|]. intros h H. destruct (O h H) as (h' & H' & K & K' & F'). exists h'. split; [exact H'|].
  split; [now apply constructible_ok|]. split; [now apply constructible_ok|]. now apply (image_iff (F64_rounded sm)).
Qed.

(** Centring commutes with mirror images. *)
Lemma c109_center : forall (N : Num) (RN : Rounded N) w (g g' : galaxy N), constructible g -> constructible g' -> mirror_image w g g' ->
  (forall e, center g = Raise e -> center g' = Raise e) /\
  (forall h, center g = Ok h -> exists h', center g' = Ok h' /\ constructible h /\ constructible h' /\ mirror_image w h h').
Proof.
  intros N RN w g g' Hg Hg' F. apply constructible_ok in Hg, Hg'. apply (image_iff RN) in F.
  destruct (mirror_center RN w g g' Hg Hg' F) as (E & O). split; [exact E|]. intros h H. destruct (O h H) as (h' & H' & K & K' & F').
  exists h'. split; [exact H'|]. split; [now apply constructible_ok|]. split; [now apply constructible_ok|]. now apply (image_iff RN).
Qed.

(** Aligned, both turn the same way: each with its own axes, the images differ by a symmetry that keeps the z
    component of the angular momentum, even if the motion was reversed. *)
Lemma c109_align : forall sm fma mm, even_sum (N:=F64s sm) sm -> is_matmul fma mm -> even_matmul (N:=F64s sm) mm ->
  forall w (g g' : galaxy (F64s sm)) c, symmetric w -> constructible g -> constructible g' -> mirror_image w g g' ->
  symmetric (aligned_signs w) /\ flips (aligned_signs w) = false /\
  (forall e, star_align_with mm g c = Raise e -> star_align_with mm g' c = Raise e) /\
  (forall h, star_align_with mm g c = Ok h -> exists h', star_align_with mm g' c = Ok h' /\ constructible h /\ constructible h' /\
     mirror_image (aligned_signs w) h h').
Proof.
  intros sm fma mm HS MM EM w g g' c Hw Hg Hg' F. apply constructible_ok in Hg, Hg'. set (R := F64_rounded sm). apply (image_iff R) in F.
  destruct (aligned_symmetric w Hw) as (S1 & S2). split; [exact S1|]. split; [exact S2|].
  assert (ES : forall s (l l' : list (F64s sm)), Forall2 (rel R s) l l' -> rel R s (nsum l) (nsum l')).
  { intros s l l' H. apply (agrees_iff R). apply HS. now apply (agrees_rel R). }
  destruct (mirror_align R (sq64 sm) (dv64 sm) ES fma mm MM EM w g g' c Hw Hg Hg' F) as (E & O). split; [exact E|].
  intros h H. destruct (O h H) as (h' & H' & K & K' & F').
  exists h'. split; [exact H'|]. split; [now apply constructible_ok|]. split; [now apply constructible_ok|]. now apply (image_iff R).
Qed.

(** The circularities are the same up to the sign of Jz and eps. *)
Lemma c109_circularity : forall sm argsort w (g g' : galaxy (F64s sm)) b0 b1, symmetric w -> constructible g -> constructible g' ->
  mirror_image w g g' ->
  (forall e, jcirc argsort g b0 b1 = Raise e -> jcirc argsort g' b0 b1 = Raise e) /\
  (forall j, jcirc argsort g b0 b1 = Ok j -> exists j', jcirc argsort g' b0 b1 = Ok j' /\ same_up_to (flips w) j j').
Proof.
  intros sm argsort w g g' b0 b1 Hw Hg Hg' F. apply constructible_ok in Hg, Hg'. set (R := F64_rounded sm). apply (image_iff R) in F.
  exact (mirror_jcirc R (sq64 sm) argsort w g g' b0 b1 Hw Hg Hg' F).
Qed.

(** JThreshold, JHistogram and JEHistogram are such methods and do not see the sign of a zero. *)
Lemma c109_methods : forall (N : Num) (RN : Rounded N) St (choice : St -> list nat -> nat -> list nat * St) junk cbins (cut : N) n d m,
  zero_blind (jthreshold junk cbins cut) /\ zero_blind (jhistogram choice junk cbins n d) /\
  zero_blind (jehistogram choice junk cbins n d m) /\
  star_method (jthreshold junk cbins cut) /\ star_method (jhistogram choice junk cbins n d) /\ star_method (jehistogram choice junk cbins n d m).
Proof.
  intros N RN St choice junk cbins cut n d m.
  assert (SM : star_method (jthreshold junk cbins cut) /\ star_method (jhistogram choice junk cbins n d) /\ star_method (jehistogram choice junk cbins n d m)).
  { assert (C : forall a, a = "eps"%string \/ a = "normalized_star_energy"%string -> circ_attr a /\ a <> "normalized_star_Jz"%string).
    { intros a [->| ->]; (split; [unfold circ_attr; simpl; auto|discriminate]). }
    split; [|split]; (split; [discriminate|split; [|reflexivity]]); intros a H; apply C; simpl in H; intuition auto. }
  split; [|split; [|split; [|exact SM]]]; clear SM; intros st X X' y a F; cbn [d_split jthreshold jhistogram jehistogram].
  - unfold jthreshold_split. cbv zeta. rewrite <- (Forall2_length' _ _ _ F). pose proof (col_rel RN 0 X X' F) as C.
    rewrite (map_blind RN (fun e => nle e cut) _ _) with (2 := C) by (intros u v H; apply (nle_l RN u v cut H)).
    rewrite (map_blind RN (fun e => ngt e cut) _ _) with (2 := C); [reflexivity|]. intros u v H. apply (nle_l RN u v cut H).
  - rewrite (hist_blind RN (pick_any choice) (pick_any choice) junk n d st _ _ eq_refl (col_rel RN 0 X X' F)). reflexivity.
  - rewrite (hist_blind RN _ _ junk n d st _ _ (energy_blind RN choice _ _ m (col_rel RN 0 X X' F)) (col_rel RN 1 X X' F)). reflexivity.
Qed.

(** The decomposition of a mirror image that keeps the z component of the angular momentum is the same. *)
Lemma c109_labels : forall sm argsort St (D : decomposer (F64s sm) St) st w (g g' : galaxy (F64s sm)),
  symmetric w -> flips w = false -> constructible g -> constructible g' -> mirror_image w g g' ->
  star_method D -> zero_blind D ->
  decompose argsort D st g' = decompose argsort D st g.
Proof.
  intros sm argsort St D st w g g' Hw Hf Hg Hg' F HM HB. destruct HM as (HA1 & HA2 & Hm). set (R := F64_rounded sm).
  destruct (c109_circularity sm argsort w g g' (fst (d_cbins D)) (snd (d_cbins D)) Hw Hg Hg' F) as (E & O). rewrite Hf in O.
  apply (decompose_same R argsort St D st g g' Hg Hg' (conj HA1 HA2) Hm HB); [|exact E|exact O].
  apply constructible_ok in Hg, Hg'. apply (image_iff R) in F. exact (proj1 (image_sizes R w g g' Hg Hg' F)).
Qed.

(** With potentials given: centring, alignment and decomposition do not see a mirror image or the reversal of all
    motion. *)
Lemma c109_given : forall sm fma mm, even_sum (N:=F64s sm) sm -> is_matmul fma mm -> even_matmul (N:=F64s sm) mm ->
  forall argsort St (D : decomposer (F64s sm) St) st w (g g' : galaxy (F64s sm)) c,
  symmetric w -> constructible g -> constructible g' -> mirror_image w g g' -> star_method D -> zero_blind D ->
  (do h1 <- center g'; do h2 <- star_align_with mm h1 c; decompose argsort D st h2) =
  (do h1 <- center g; do h2 <- star_align_with mm h1 c; decompose argsort D st h2).
Proof.
  intros sm fma mm HS MM EM argsort St D st w g g' c Hw Hg Hg' F HM HB.
  destruct (c109_center (F64s sm) (F64_rounded sm) w g g' Hg Hg' F) as (E1 & O1).
  destruct (center g) as [h1|e] eqn:P1; [|now rewrite (E1 e eq_refl)].
  destruct (O1 h1 eq_refl) as (h1' & -> & K1 & K1' & F1). cbn [bind].
  destruct (c109_align sm fma mm HS MM EM w h1 h1' c Hw K1 K1' F1) as (S1 & S2 & E2 & O2).
  destruct (star_align_with mm h1 c) as [h2|e] eqn:P2; [|now rewrite (E2 e eq_refl)].
  destruct (O2 h2 eq_refl) as (h2' & -> & K2 & K2' & F2). cbn [bind].
  exact (c109_labels sm argsort St D st _ h2 h2' S1 S2 K2 K2' F2 HM HB).
Qed.

(** The whole analysis, from the potential to the labels, does not see a mirror image or the reversal of all
    motion: same components, same state of the generator, same errors. *)
Lemma c109_whole : forall sm sm' fma mm, even_sum (N:=F64s sm) sm -> is_matmul fma mm -> even_matmul (N:=F64s sm) mm ->
  forall (G : F32s sm') have junk name argsort St (D : decomposer (F64s sm) St) st w (g g' : galaxy (F64s sm)) c,
  symmetric w -> constructible g -> constructible g' -> mirror_image w g g' ->
  star_method D -> zero_blind D ->
  let whole := fun g0 : galaxy (F64s sm) =>
    do h0 <- potential (W:=F64s sm) (S:=F32s sm') to32 to64 (backend_table G have junk) name g0;
    do h1 <- center h0; do h2 <- star_align_with mm h1 c; decompose argsort D st h2 in
  whole g' = whole g.
Proof.
  intros sm sm' fma mm HS MM EM G have junk name argsort St D st w g g' c Hw Hg Hg' F HM HB whole. unfold whole.
  destruct (c109_potential sm sm' G have junk name w g g' Hg Hg' F) as (E0 & O0).
  destruct (potential (W:=F64s sm) (S:=F32s sm') to32 to64 (backend_table G have junk) name g) as [h0|e] eqn:P0; [|now rewrite (E0 e eq_refl)].
  destruct (O0 h0 eq_refl) as (h0' & -> & K0 & K0' & F0). cbn [bind].
  exact (c109_given sm fma mm HS MM EM argsort St D st w h0 h0' c Hw K0 K0' F0 HM HB).
Qed.

(** *** An example *)
(** The galaxy of the example of C97 seen in a mirror and moving backwards. *)
Definition backwards : signs := Signs false false true true true false.
Definition exM_gal : galaxy F64 :=
  mkGal (exW_set STARS [131072; 131072] [6; 4] [5; 5] [-5; -5] [0; -448] [0; 0] [-511; 246])%Z
        (exW_set DARK_MATTER [65536] [5] [5] [-5] [0] [0] [0])%Z (exW_set GAS [] [] [] [] [] [] [])%Z false.

Lemma agreesZ s zs zs' : Forall2 (fun a b => neqb (fZ b) (turn (N:=F64) s (fZ a)) = true) zs zs' -> Forall2 (agrees (N:=F64) s) (fZs zs) (fZs zs').
Proof. intros F. unfold fZs. eapply F2_map; [|exact F]. intros a b H. right. exact H. Qed.

(** The hypotheses of C109 hold for it, although the z component of the angular momentum is reversed; both runs
    label the second star 0, for a cut at 9/10. *)
Example ex_c109 : let sm := seqsum 53 1024 p53 e1024 in
  symmetric backwards /\ flips backwards = true /\ symmetric (aligned_signs backwards) /\ flips (aligned_signs backwards) = false /\
  constructible exW_gal /\ constructible exM_gal /\ mirror_image backwards exW_gal exM_gal /\
  even_sum (N:=F64s sm) sm /\ is_matmul (S:=F64s sm) fma64 plain_matmul /\ even_matmul (N:=F64s sm) plain_matmul /\
  rmap shows (analysis (sm:=sm) (sm':=seqsum 24 128 p24 e128) asort (backend_table n1 true junk0) "fortran" (plain_matmul (S:=F64)) (fun _ => 77%Z) (nlit 9 10) exW_gal) = Ok [sZ 1; sZ 0; S754_nan] /\
  rmap shows (analysis (sm:=sm) (sm':=seqsum 24 128 p24 e128) asort (backend_table n1 true junk0) "fortran" (plain_matmul (S:=F64)) (fun _ => 77%Z) (nlit 9 10) exM_gal) = Ok [sZ 1; sZ 0; S754_nan].
Proof.
  cbv zeta. set (sm := seqsum 53 1024 p53 e1024).
  assert (KM : constructible exM_gal).
  { apply constructible_ok, gal_ok_facts. constructor; try reflexivity.
    all: apply pset_ok_iff; split; [|reflexivity]; repeat split; intros p H; discriminate H. }
  split; [repeat split|]. split; [reflexivity|]. split; [repeat split|]. split; [reflexivity|]. split; [exact exW_ok|]. split; [exact KM|].
  split.
  { unfold mirror_image, sets. repeat apply Forall2_cons; [| | |apply Forall2_nil];
      (split; [|split; [|split; [|split; [|split; [|split; [|split; [|split]]]]]]]);
      first [reflexivity|apply agreesZ; repeat apply Forall2_cons; try apply Forall2_nil; vm_compute; reflexivity]. }
  split; [exact (c109_sums sm c100_left_to_right)|]. split; [exact (proj1 (c94_plain (F64s sm) fma64))|]. split; [exact (proj1 (c109_products sm))|].
  split; vm_compute; reflexivity.
Qed.
