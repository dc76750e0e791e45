(** Whether a particle that is not a star is dark matter or gas does not matter (C112). *)
From Verif Require Import Py Num RX F64 Np Df Data DataFacts DfFacts RebuildFacts Center CenterFacts Align AlignFacts Spec SpecR SpecCirc SpecBase SpecSym SpecImage SpecRegroup Circ CircFacts CurveFacts CircThms Base BaseFacts BaseThms EpsFacts Ex DataThms CenterThms AlignThms Potential PotFacts Dgemm SpecDgemm DgemmThms PotConcFacts PotThms SpecAgain AgainThms Threshold WholeThms MirFacts.
From Coq Require Import Lia Floats.SpecFloat.

Section Re.
Context {N : Num}.

Lemma m2_app {A B C} (f : A -> B -> C) l1 l2 m1 m2 : length l1 = length m1 -> map2 f (l1 ++ l2) (m1 ++ m2) = map2 f l1 m1 ++ map2 f l2 m2.
Proof. revert m1. induction l1 as [|a l1 IH]; intros [|b m1] H; try discriminate; [reflexivity|]. cbn. f_equal. apply IH. now injection H. Qed.
Lemma m3_app {A B C D} (f : A -> B -> C -> D) a b c a' b' c' : length b = length a -> length c = length a ->
  map3' f (a ++ a') (b ++ b') (c ++ c') = map3' f a b c ++ map3' f a' b' c'.
Proof. intros H1 H2. unfold map3'. rewrite m2_app by congruence. apply m2_app. rewrite map2_length. lia. Qed.
Lemma m4_app {A B C D E} (f : A -> B -> C -> D -> E) a b c d a' b' c' d' : length b = length a -> length c = length a -> length d = length a ->
  map4 f (a ++ a') (b ++ b') (c ++ c') (d ++ d') = map4 f a b c d ++ map4 f a' b' c' d'.
Proof. intros H1 H2 H3. unfold map4. rewrite !m2_app by congruence. apply m2_app. rewrite !map2_length. lia. Qed.

(** Two sets as one. *)
Definition join (p q : pset N) : pset N :=
  pset_of GAS (p_m p ++ p_m q) (p_x p ++ p_x q) (p_y p ++ p_y q) (p_z p ++ p_z q) (p_vx p ++ p_vx q) (p_vy p ++ p_vy q) (p_vz p ++ p_vz q)
    (match p_pot p, p_pot q with Some a, Some b => Some (a ++ b) | _, _ => None end) n0.
Lemma join_orbits p q : pset_ok p -> pset_ok q -> p_haspot q = p_haspot p -> orbits (join p q) = orbits p ++ orbits q.
Proof.
  intros Hp Hq Hh. rewrite !pset_ok_haspot in Hh by assumption.
  pose proof (proj1 (pset_ok_iff _) Hp) as ((A1 & A2 & A3 & A4 & A5 & A6 & A7) & Ep).
  pose proof (proj1 (pset_ok_iff _) Hq) as ((B1 & B2 & B3 & B4 & B5 & B6 & B7) & Eq).
  destruct (orbits_cols p Hp) as (_ & _ & _ & _ & _). 
  pose proof (energies_length p Hp) as LE. destruct (J_lengths p Hp) as (LX & LY & LZ).
  assert (Ee : energies (join p q) = energies p ++ energies q).
  { unfold energies, join. cbn [pset_of p_te plen p_m]. rewrite Ep, Eq. cbn [pset_of p_te p_pot p_vx p_vy p_vz p_m plen].
    destruct (p_pot p) as [a|] eqn:Pa, (p_pot q) as [b|] eqn:Pb; try discriminate; cbn [option_map].
    - rewrite m3_app by congruence. apply m2_app. unfold map3'. rewrite !map2_length, (A7 a eq_refl). lia.
    - unfold plen. cbn. rewrite app_length. apply repeat_app. }
  assert (Ex : p_Jx (join p q) = p_Jx p ++ p_Jx q).
  { rewrite Ep, Eq. cbn. apply m4_app; congruence. }
  assert (Ey : p_Jy (join p q) = p_Jy p ++ p_Jy q).
  { rewrite Ep, Eq. cbn. apply m4_app; congruence. }
  assert (Ez : p_Jz (join p q) = p_Jz p ++ p_Jz q).
  { rewrite Ep, Eq. cbn. apply m4_app; congruence. }
  unfold orbits. rewrite Ee, Ex, Ey, Ez, !m2_app by congruence. apply m2_app. rewrite !map2_length. lia.
Qed.

(** [regrouped] in these terms. *)
Lemma re_join (g g' : galaxy N) : gal_ok g -> gal_ok g' -> regrouped g g' ->
  join (g_dm g') (g_gas g') = join (g_dm g) (g_gas g) /\ g_haspot g' = g_haspot g /\ glen g' = glen g /\
  gx g' = gx g /\ gy g' = gy g /\ gz g' = gz g /\ gm g' = gm g /\ gsoft g' = gsoft g /\ (g_haspot g = true -> gpot g' = gpot g).
Proof.
  intros Hg Hg' [S M X Y Z VX VY VZ SO PO]. unfold others in *.
  pose proof (isSome_pots g Hg) as (_ & I1 & I2). pose proof (isSome_pots g' Hg') as (_ & I1' & I2').
  apply gal_ok_facts in Hg as [s1 d1 q1 _ _ _ h1 h2 h3], Hg' as [s2 d2 q2 _ _ _ h1' h2' h3'].
  assert (Eh : g_haspot g' = g_haspot g) by congruence.
  split.
  { unfold join. rewrite M, X, Y, Z, VX, VY, VZ. f_equal.
    destruct (p_pot (g_dm g')), (p_pot (g_gas g')), (p_pot (g_dm g)), (p_pot (g_gas g)); cbn in *; try congruence. }
  split; [exact Eh|].
  split. { unfold glen, plen. apply (f_equal (@length N)) in M. rewrite !app_length in M. rewrite S, <- !Nat.add_assoc. now rewrite M. }
  unfold gx, gy, gz, gm, gsoft. rewrite S, X, Y, Z, M. unfold plen. rewrite SO. do 5 (split; [reflexivity|]).
  intros P. unfold gpot, gcol. rewrite !to_numpy_app, !pcol_num_pot, S. f_equal.
  destruct (p_pot (g_dm g')), (p_pot (g_gas g')), (p_pot (g_dm g)), (p_pot (g_gas g)); cbn in *; congruence.
Qed.

(** *** Circularity *)
Lemma re_jcirc (RN : Rounded N) argsort (g g' : galaxy N) b0 b1 : gal_ok g -> gal_ok g' -> regrouped g g' ->
  jcirc argsort g' b0 b1 = jcirc argsort g b0 b1.
Proof.
  intros Hg Hg' R. destruct (re_join g g' Hg Hg' R) as (J & Eh & _). rewrite (jcirc_run RN argsort g b0 b1 Hg), (jcirc_run RN argsort g' b0 b1 Hg').
  pose proof (proj1 (gal_ok_facts _) Hg) as [s1 d1 q1 _ _ _ h1 h2 h3]. pose proof (proj1 (gal_ok_facts _) Hg') as [s2 d2 q2 _ _ _ h1' h2' h3'].
  assert (E : all_orbits g' = all_orbits g).
  { unfold all_orbits, sets. simpl. rewrite !app_nil_r, (rg_stars _ _ R).
    rewrite <- (join_orbits _ _ d1 q1), <- (join_orbits _ _ d2 q2) by congruence. now rewrite J. }
  rewrite E. unfold star_orbits. now rewrite (rg_stars _ _ R).
Qed.

(** *** Centring *)
Lemma shift_others x0 y0 z0 (g g' : galaxy N) : regrouped g g' -> regrouped (shift_gal x0 y0 z0 g) (shift_gal x0 y0 z0 g').
Proof.
  intros [S M X Y Z VX VY VZ SO PO]. unfold others in *. constructor; unfold others; cbn; auto; rewrite <- ?map_app; congruence.
Qed.
Lemma re_center (g g' : galaxy N) : gal_ok g -> gal_ok g' -> regrouped g g' ->
  (forall e, center g = Raise e -> center g' = Raise e) /\
  (forall h, center g = Ok h -> exists h', center g' = Ok h' /\ gal_ok h /\ gal_ok h' /\ regrouped h h').
Proof.
  intros Hg Hg' R. destruct (re_join g g' Hg Hg' R) as (_ & Eh & El & Ex & Ey & Ez & _ & _ & Ep).
  destruct (g_haspot g) eqn:P.
  2:{ unfold center. rewrite Eh, P. simpl. split; [auto|discriminate]. }
  destruct (Nat.eq_dec (glen g) 0) as [L|L].
  { rewrite (center_empty _ Hg P L), center_empty by (auto; congruence). split; [auto|discriminate]. }
  destruct (center_total g Hg P) as (i & x0 & y0 & z0 & Hi & _ & Hx & Hy & Hz & E); [lia|].
  rewrite E, (center_eq g' i x0 y0 z0) by (auto; congruence || (rewrite Ep; auto)). split; [discriminate|]. intros h [= <-].
  eexists. split; [reflexivity|]. split; [now apply shift_gal_ok|]. split; [now apply shift_gal_ok|]. now apply shift_others.
Qed.
Lemma re_is_centered (g g' : galaxy N) rtol atol : gal_ok g -> gal_ok g' -> regrouped g g' ->
  is_centered g' rtol atol = is_centered g rtol atol.
Proof.
  intros Hg Hg' R. destruct (re_join g g' Hg Hg' R) as (_ & Eh & El & Ex & Ey & Ez & _ & _ & Ep).
  destruct (g_haspot g) eqn:P.
  2:{ unfold is_centered. now rewrite Eh, P. }
  destruct (Nat.eq_dec (glen g) 0) as [L|L].
  { assert (K : forall g0 : galaxy N, gal_ok g0 -> g_haspot g0 = true -> glen g0 = 0%nat -> is_centered g0 rtol atol = Raise ValueError).
    { intros g0 H0 P0 L0. unfold is_centered. rewrite P0. cbn [guard bind].
      rewrite to_df_all; [|assumption|intros k Hk; simpl in Hk; cbv; intuition|apply center_attrs_arrays; simpl; auto].
      cbn [bind]. rewrite !get_col_keyed by (simpl; auto 10). cbn [bind].
      pose proof (gcol_length g0 "potential" H0) as L1. rewrite L0 in L1. destruct (gcol g0 "potential"); [reflexivity|discriminate]. }
    rewrite !K by (auto; congruence). reflexivity. }
  destruct (center_total g Hg P) as (i & x0 & y0 & z0 & Hi & _ & Hx & Hy & Hz & E); [lia|].
  rewrite (is_centered_eq g i x0 y0 z0), (is_centered_eq g' i x0 y0 z0) by (auto; congruence || (rewrite Ep; auto)). reflexivity.
Qed.
End Re.

(** *** Alignment *)
Section ReAlign.
Context {N : Num} (fma : N -> N -> N -> N).
Variable mm : nat -> mat3 N -> list N -> list N -> list N -> list N * list N * list N.
Hypothesis MM : is_matmul fma mm.
Hypothesis CC : column_by_column mm.
Lemma re_align (g g' : galaxy N) c : gal_ok g -> gal_ok g' -> regrouped g g' ->
  (forall e, star_align_with mm g c = Raise e -> star_align_with mm g' c = Raise e) /\
  (forall h, star_align_with mm g c = Ok h -> exists h', star_align_with mm g' c = Ok h' /\ gal_ok h /\ gal_ok h' /\ regrouped h h').
Proof.
  intros Hg Hg' R. rewrite (star_align_with_eq fma mm MM g c Hg), (star_align_with_eq fma mm MM g' c Hg').
  destruct (cut_ok c); [|split; [auto|discriminate]]. split; [discriminate|]. intros h [= <-].
  eexists. split; [reflexivity|]. split; [now apply (turn_gal_ok fma mm MM)|]. split; [now apply (turn_gal_ok fma mm MM)|].
  assert (EA : gal_matrix g' c = gal_matrix g c) by (unfold gal_matrix; now rewrite (rg_stars _ _ R)). rewrite EA.
  generalize (gal_matrix g c). intros A. destruct CC as (fx & fy & fz & F).
  apply gal_ok_facts in Hg as [s1 d1 q1 _ _ _ _ _ _], Hg' as [s2 d2 q2 _ _ _ _ _ _].
  pose proof (pset_ok_lens _ d1) as (D1 & D2 & D3 & D4 & D5 & D6 & _). pose proof (pset_ok_lens _ d2) as (E1 & E2 & E3 & E4 & E5 & E6 & _).
  assert (J : forall f : mat3 N -> N -> N -> N -> N, forall a b d a' b' d', length b = length a -> length d = length a ->
     map3 (f A) a b d ++ map3 (f A) a' b' d' = map3 (f A) (a ++ a') (b ++ b') (d ++ d')).
  { intros f a b d a' b' d' H1 H2. symmetry. exact (m3_app (f A) a b d a' b' d' H1 H2). }
  destruct R as [S M X Y Z VX VY VZ SO PO]. unfold others in *.
  constructor; unfold others; cbn; rewrite ?S; auto; unfold mm_x, mm_y, mm_z; rewrite !F; cbn [fst snd]; rewrite !J by congruence; congruence.
Qed.
End ReAlign.

(** *** Potential *)
Section RePot.
Context {W S : Num} (cast : W -> S) (lift : S -> W).
Lemma re_potential (g g' : galaxy W) (table : dict (backend S)) name : gal_ok g -> gal_ok g' -> regrouped g g' ->
  (forall f : backend S, dget table name = Some f ->
     forall x y z m so pot, length y = length x -> length z = length x -> length m = length x -> f x y z m so = Ok pot -> length pot = length x) ->
  (forall e, potential cast lift table name g = Raise e -> potential cast lift table name g' = Raise e) /\
  (forall h, potential cast lift table name g = Ok h -> exists h', potential cast lift table name g' = Ok h' /\ gal_ok h /\ gal_ok h' /\ regrouped h h').
Proof.
  intros Hg Hg' R Hf. destruct (re_join g g' Hg Hg' R) as (_ & Eh & El & Ex & Ey & Ez & Em & Es & _).
  destruct (g_haspot g) eqn:P.
  { unfold potential. rewrite Eh, P. simpl. split; [auto|discriminate]. }
  destruct (dget table name) as [f|] eqn:Ef.
  2:{ unfold potential. rewrite Eh, P, Ef. simpl. split; [auto|discriminate]. }
  pose proof (Hf f eq_refl) as LP.
  destruct (f (map cast (gx g)) (map cast (gy g)) (map cast (gz g)) (map cast (gm g)) (cast (pd_max (gsoft g)))) as [pot|e] eqn:Ep.
  2:{ rewrite (potential_eq _ _ _ _ _ _ Hg P Ef), Ep. rewrite (fun H => potential_eq cast lift table name g' f Hg' H Ef) by congruence.
      rewrite Ex, Ey, Ez, Em, Es, Ep. simpl. split; [auto|discriminate]. }
  assert (Lp : length pot = glen g).
  { pose proof (gxyz_length g Hg) as (A & B & D & _). rewrite <- A, <- (map_length cast). eapply LP; [| | |exact Ep]; rewrite !map_length; try congruence.
    rewrite A. unfold gm, glen, plen. now rewrite !app_length, Nat.add_assoc. }
  rewrite (potential_ok _ _ _ _ _ _ _ Hg P Ef Ep Lp). split; [discriminate|]. intros h [= <-].
  assert (Q : forall k : galaxy W, glen k = glen g ->
     length (map (fun v => lift (nopp v)) (firstn (plen (g_stars k)) pot)) = plen (g_stars k) /\
     length (map (fun v => lift (nopp v)) (firstn (plen (g_dm k)) (skipn (plen (g_stars k)) pot))) = plen (g_dm k) /\
     length (map (fun v => lift (nopp v)) (skipn (plen (g_stars k) + plen (g_dm k)) pot)) = plen (g_gas k)).
  { intros k Lk. unfold glen in *. rewrite !map_length, !firstn_length, !skipn_length. lia. }
  destruct (Q g eq_refl) as (Q1 & Q2 & Q3). destruct (Q g' El) as (Q1' & Q2' & Q3').
  eexists. split; [apply (potential_ok cast lift table name g' f pot Hg'); auto; congruence|].
  split; [now apply pot_gal_ok|]. split; [now apply pot_gal_ok|].
  destruct R as [ST M X Y Z VX VY VZ SO PO]. unfold others in *.
  constructor; unfold others; cbn; rewrite ?ST; auto.
  assert (C : forall k : galaxy W, map (fun v => lift (nopp v)) (firstn (plen (g_dm k)) (skipn (plen (g_stars k)) pot)) ++
     map (fun v => lift (nopp v)) (skipn (plen (g_stars k) + plen (g_dm k)) pot) = map (fun v => lift (nopp v)) (skipn (plen (g_stars k)) pot)).
  { intros k. rewrite <- map_app. f_equal. generalize (plen (g_stars k)) (plen (g_dm k)). intros a b. assert (SK : skipn (a + b) pot = skipn b (skipn a pot)).
    { clear. revert pot. induction a as [|a IH]; intros [|u pot]; simpl; auto; now rewrite skipn_nil. }
    rewrite SK. apply firstn_skipn. }
  pose proof (C g') as C'. rewrite ST in C'. now rewrite (C g), C'.
Qed.
Lemma table_len (G : S) have junk name (f : backend S) : dget (backend_table G have junk) name = Some f ->
  forall x y z m so pot, length y = length x -> length z = length x -> length m = length x -> f x y z m so = Ok pot -> length pot = length x.
Proof.
  unfold backend_table. intros H. simpl in H. destruct (name =? "fortran")%string.
  - injection H as <-. intros x y z m so pot Ly Lz Lm E. unfold Potential.fortran_potential in E.
    destruct have; [|discriminate]. injection E as <-. rewrite map_length, fortran_kernel_length. now apply bodies_length.
  - destruct (name =? "numpy")%string; [|discriminate]. injection H as <-.
    intros x y z m so pot Ly Lz Lm E. unfold Potential.numpy_potential in E. injection E as <-.
    rewrite map2_length, seq_length, Nat.min_id. now apply bodies_length.
Qed.
End RePot.

(** *** Decomposition *)
Section ReDec.
Context {N : Num} (RN : Rounded N).
Lemma mask_others n k (m : list bool) (ys yo yo' : list (cell N)) : length ys = n -> length yo = k -> length yo' = k -> length m = (n + k)%nat ->
  bmask (map2 andb (repeat true n ++ repeat false k) m) (ys ++ yo') = bmask (map2 andb (repeat true n ++ repeat false k) m) (ys ++ yo).
Proof.
  revert m ys. induction n as [|n IH]; intros m ys Ly Lo Lo' Lm.
  - destruct ys; [|discriminate]. simpl in *.
    assert (Z : forall l : list (cell N), length l = k -> bmask (map2 andb (repeat false k) m) l = []).
    { intros l Ll. rewrite <- Ll in *. clear - Lm. revert m Lm. induction l as [|a l IH]; intros [|b m] H; try discriminate; [reflexivity|].
      simpl. apply IH. now injection H. }
    now rewrite !Z.
  - destruct ys as [|a ys], m as [|b m]; try discriminate. simpl. injection Ly as Ly. injection Lm as Lm.
    destruct b; simpl; rewrite (IH m ys); auto.
Qed.
Lemma re_types (g : galaxy N) : gal_ok g -> map (cell_is (ptype_value STARS)) (gcol g "ptypev") = repeat true (plen (g_stars g)) ++ repeat false (plen (g_dm g) + plen (g_gas g)).
Proof.
  intros Hg. apply gal_ok_facts in Hg as [_ _ _ t1 t2 t3 _ _ _]. unfold gcol. rewrite !pcol_ptypev, t1, t2, t3, !map_app, repeat_app.
  assert (R : forall (c : cell N) b n, cell_is (ptype_value STARS) c = b -> map (cell_is (ptype_value STARS)) (repeat c n) = repeat b n).
  { intros c b n E. induction n as [|n IH]; [reflexivity|]. cbn [repeat map]. now rewrite E, IH. }
  f_equal; [now apply R|]. f_equal; now apply R.
Qed.
Lemma re_decompose argsort St (D : decomposer N St) st (g g' : galaxy N) : gal_ok g -> gal_ok g' -> regrouped g g' ->
  star_attrs (d_attributes D) -> d_mask D = stars_mask ->
  rmap findings (decompose argsort D st g') = rmap findings (decompose argsort D st g).
Proof.
  intros G G' R HA Hm. pose proof (proj2 (constructible_ok _) G) as Hg. pose proof (proj2 (constructible_ok _) G') as Hg'.
  pose proof (re_jcirc RN argsort g g' (fst (d_cbins D)) (snd (d_cbins D)) G G' R) as EJ.
  destruct (re_join g g' G G' R) as (_ & _ & El & _).
  assert (Lp : (plen (g_dm g') + plen (g_gas g') = plen (g_dm g) + plen (g_gas g))%nat).
  { unfold glen in El. rewrite (rg_stars _ _ R), <- !Nat.add_assoc in El. now apply Nat.add_cancel_l in El. }
  destruct (jcirc argsort g (fst (d_cbins D)) (snd (d_cbins D))) as [j|e] eqn:Ej.
  2:{ destruct (star_decompose_errors RN argsort St D st g Hg HA Hm) as (K & _). rewrite (K e Ej).
      destruct (star_decompose_errors RN argsort St D st g' Hg' HA Hm) as (K' & _). now rewrite (K' e EJ). }
  assert (Cs : forall a, In a (d_attributes D) -> circ a = true) by (intros a Ha; apply circ_attr_iff, HA, Ha).
  assert (Dp : df_part (d_attributes D) = []).
  { unfold df_part. revert Cs. generalize (d_attributes D). induction l as [|a l IH]; intros H; [reflexivity|]. simpl.
    rewrite (H a (or_introl eq_refl)). simpl. apply IH. intros b Hb. apply H. now right. }
  assert (Ln : forall (g : galaxy N) j, constructible g -> jcirc argsort g (fst (d_cbins D)) (snd (d_cbins D)) = Ok j ->
     forall a, In a (d_attributes D) -> circ a = true -> length (circ_col j a) = plen (g_stars g)).
  { intros h i Hh Hi a Ha _. destruct (c31_lengths N RN argsort h _ _ i Hh Hi) as (L1 & L2 & L3 & _).
    destruct (proj2 HA a Ha) as (Ca & Na). destruct Ca as [<-|[<-|[<-|[<-|[]]]]]; [exact L1|congruence|exact L2|exact L3]. }
  unfold decompose. cbv zeta.
  rewrite (attributes_matrix_ok argsort (d_cbins D) g j (d_attributes D) G (proj1 HA)); [|rewrite Dp; intros ? []|auto|now apply Ln].
  rewrite (attributes_matrix_ok argsort (d_cbins D) g' j (d_attributes D) G' (proj1 HA)); [|rewrite Dp; intros ? []|auto|now apply Ln].
  cbn [bind]. rewrite El.
  assert (EX : map (acol g' j) (d_attributes D) = map (acol g j) (d_attributes D)).
  { apply map_ext_in. intros a Ha. unfold acol. rewrite (Cs a Ha), <- !repeat_app. now rewrite Lp. }
  rewrite EX. set (X := rows_of (glen g) (map (acol g j) (d_attributes D))).
  assert (LX : length X = glen g) by (unfold X, rows_of; now rewrite map_length, seq_length). clearbody X. rewrite Hm.
  assert (EM : stars_mask X (gcol g' "ptypev") (d_attributes D) = stars_mask X (gcol g "ptypev") (d_attributes D)).
  { unfold stars_mask. now rewrite !re_types, (rg_stars _ _ R), Lp by assumption. }
  rewrite EM. destruct (stars_mask X (gcol g "ptypev") (d_attributes D)) as [mask|] eqn:Em; [|reflexivity]. cbn [bind].
  assert (Ly : length (gcol g "ptypev") = glen g) by now apply gcol_length.
  assert (Ly' : length (gcol g' "ptypev") = glen g) by (rewrite <- El; now apply gcol_length).
  unfold select_rows. rewrite Ly, Ly'.
  destruct (guard (length mask =? length X)%nat IndexError) eqn:Gm; [|reflexivity]. cbn [bind].
  destruct (guard (length mask =? glen g)%nat IndexError); [|reflexivity]. cbn [bind].
  assert (EY : bmask mask (gcol g' "ptypev") = bmask mask (gcol g "ptypev")).
  { unfold stars_mask in Em. rewrite re_types in Em by assumption. destruct (guard _ _); [|discriminate]. cbn [bind] in Em.
    rewrite bop_eq in Em by (rewrite app_length, !repeat_length, map_length, LX; unfold glen; lia). injection Em as <-.
    unfold gcol. rewrite (rg_stars _ _ R). apply mask_others.
    - now rewrite pcol_ptypev, repeat_length.
    - now rewrite !pcol_ptypev, app_length, !repeat_length.
    - now rewrite !pcol_ptypev, app_length, !repeat_length.
    - rewrite map_length, LX. unfold glen. lia. }
  rewrite EY. destruct (d_split D st (bmask mask X) (bmask mask (gcol g "ptypev")) (d_attributes D)) as [[[l pr] st']|]; [|reflexivity]. cbn [bind].
  destruct (complete_labels X l mask) as [fl|]; [|reflexivity]. cbn [bind].
  destruct (complete_probs X pr mask) as [fp|]; [|reflexivity]. cbn [bind].
  rewrite !final_types. cbn [bind].
  assert (LT : length (type_names g') = length (type_names g)).
  { unfold type_names, sets. simpl. rewrite !app_length, !repeat_length, (rg_stars _ _ R). simpl. lia. }
  unfold mk_components. cbn [unpack bind]. destruct fp as [p|]; cbn [unpack bind]; rewrite LT.
  all: match goal with |- context [guard ?b ValueError] => destruct (guard b ValueError) end; reflexivity.
Qed.
End ReDec.

(** *** Properties *)

(** The matrix products of Align.v and of a library with fused operations treat every column alike. *)
Lemma c112_products : forall (N : Num) (fma : N -> N -> N -> N), column_by_column (N:=N) plain_matmul /\ column_by_column (fused_matmul fma).
Proof.
  intros N fma. split.
  - exists rot_x, rot_y, rot_z. reflexivity.
  - exists (fun A => fused_row fma (a11 A) (a12 A) (a13 A)), (fun A => fused_row fma (a21 A) (a22 A) (a23 A)), (fun A => fused_row fma (a31 A) (a32 A) (a33 A)). reflexivity.
Qed.

(** Potentials: every particle gets the same one, whatever set it is in, from either backend. *)
Lemma c112_potential : forall (W S : Num) (cast : W -> S) (lift : S -> W) (G : S) have junk name (g g' : galaxy W),
  constructible g -> constructible g' -> regrouped g g' ->
  let run := potential cast lift (backend_table G have junk) name in
  (forall e, run g = Raise e -> run g' = Raise e) /\
  (forall h, run g = Ok h -> exists h', run g' = Ok h' /\ constructible h /\ constructible h' /\ regrouped h h').
Proof.
  intros W S cast lift G have junk name g g' Hg Hg' R run. apply constructible_ok in Hg, Hg'.
  destruct (re_potential cast lift g g' (backend_table G have junk) name Hg Hg' R (fun f H => table_len G have junk name f H)) as (E & O).
  split; [exact E|]. intros h H. destruct (O h H) as (h' & H' & K & K' & F'). exists h'. split; [exact H'|].
  split; [now apply constructible_ok|]. split; [now apply constructible_ok|exact F'].
Qed.

(** Centring moves every particle the same way, and so does the alignment. *)
Lemma c112_center : forall (N : Num) (g g' : galaxy N), constructible g -> constructible g' -> regrouped g g' ->
  (forall e, center g = Raise e -> center g' = Raise e) /\
  (forall h, center g = Ok h -> exists h', center g' = Ok h' /\ constructible h /\ constructible h' /\ regrouped h h').
Proof.
  intros N g g' Hg Hg' R. apply constructible_ok in Hg, Hg'.
  destruct (re_center g g' Hg Hg' R) as (E & O). split; [exact E|]. intros h H. destruct (O h H) as (h' & H' & K & K' & F').
  exists h'. split; [exact H'|]. split; [now apply constructible_ok|]. split; [now apply constructible_ok|exact F'].
Qed.

(** The alignment, for a matrix product that treats every column alike. *)
Lemma c112_align : forall (N : Num) fma mm, is_matmul fma mm -> column_by_column (N:=N) mm ->
  forall (g g' : galaxy N) c, constructible g -> constructible g' -> regrouped g g' ->
  (forall e, star_align_with mm g c = Raise e -> star_align_with mm g' c = Raise e) /\
  (forall h, star_align_with mm g c = Ok h -> exists h', star_align_with mm g' c = Ok h' /\ constructible h /\ constructible h' /\ regrouped h h').
Proof.
  intros N fma mm MM CC g g' c Hg Hg' R. apply constructible_ok in Hg, Hg'.
  destruct (re_align fma mm MM CC g g' c Hg Hg' R) as (E & O). split; [exact E|]. intros h H. destruct (O h H) as (h' & H' & K & K' & F').
  exists h'. split; [exact H'|]. split; [now apply constructible_ok|]. split; [now apply constructible_ok|exact F'].
Qed.

(** The two checks say the same. *)
Lemma c112_checks : forall (N : Num) (g g' : galaxy N) c rtol atol, constructible g -> constructible g' -> regrouped g g' ->
  is_centered g' rtol atol = is_centered g rtol atol /\ is_star_aligned g' c rtol atol = is_star_aligned g c rtol atol.
Proof.
  intros N g g' c rtol atol Hg Hg' R. apply constructible_ok in Hg, Hg'. split; [now apply re_is_centered|].
  unfold is_star_aligned. now rewrite (rg_stars _ _ R).
Qed.

(** The circularities of the stars and the curve are the same, bit for bit. *)
Lemma c112_circularity : forall (N : Num) (RN : Rounded N) argsort (g g' : galaxy N) b0 b1, constructible g -> constructible g' -> regrouped g g' ->
  jcirc argsort g' b0 b1 = jcirc argsort g b0 b1.
Proof. intros N RN argsort g g' b0 b1 Hg Hg' R. apply constructible_ok in Hg, Hg'. now apply re_jcirc. Qed.

(** Every decomposer of stars finds the same: labels, probabilities and state of the generator, or the same error. *)
Lemma c112_labels : forall (N : Num) (RN : Rounded N) argsort St (D : decomposer N St) st (g g' : galaxy N),
  constructible g -> constructible g' -> regrouped g g' -> star_method D ->
  rmap findings (decompose argsort D st g') = rmap findings (decompose argsort D st g).
Proof.
  intros N RN argsort St D st g g' Hg Hg' R (A1 & A2 & A3). apply constructible_ok in Hg, Hg'. apply (re_decompose RN); auto. now split.
Qed.

(** So does the whole analysis, from the potential to the labels. *)
Lemma c112_whole : forall (W S : Num) (RW : Rounded W) (cast : W -> S) (lift : S -> W) fma mm, is_matmul fma mm -> column_by_column (N:=W) mm ->
  forall (G : S) have junk name argsort St (D : decomposer W St) st (g g' : galaxy W) c,
  constructible g -> constructible g' -> regrouped g g' -> star_method D ->
  let whole := fun g0 : galaxy W =>
    do h0 <- potential cast lift (backend_table G have junk) name g0;
    do h1 <- center h0; do h2 <- star_align_with mm h1 c; decompose argsort D st h2 in
  rmap findings (whole g') = rmap findings (whole g).
Proof.
  intros W S RW cast lift fma mm MM CC G have junk name argsort St D st g g' c Hg Hg' R HM whole. unfold whole.
  destruct (c112_potential W S cast lift G have junk name g g' Hg Hg' R) as (E0 & O0).
  destruct (potential cast lift (backend_table G have junk) name g) as [h0|e]; [|now rewrite (E0 e eq_refl)].
  destruct (O0 h0 eq_refl) as (h0' & -> & K0 & K0' & F0). cbn [bind].
  destruct (c112_center W h0 h0' K0 K0' F0) as (E1 & O1).
  destruct (center h0) as [h1|e]; [|now rewrite (E1 e eq_refl)].
  destruct (O1 h1 eq_refl) as (h1' & -> & K1 & K1' & F1). cbn [bind].
  destruct (c112_align W fma mm MM CC h1 h1' c K1 K1' F1) as (E2 & O2).
  destruct (star_align_with mm h1 c) as [h2|e]; [|now rewrite (E2 e eq_refl)].
  destruct (O2 h2 eq_refl) as (h2' & -> & K2 & K2' & F2). cbn [bind].
  exact (c112_labels W RW argsort St D st h2 h2' K2 K2' F2 HM).
Qed.

(** Softenings belong to the sets: a particle that moves to a set with another softening changes the potentials. *)
Definition exH_set (t : ptype) (m x y z vx vy vz : list Z) (so : Z) : pset F64 :=
  pset_of (N:=F64) t (fZs m) (fZs x) (fZs y) (fZs z) (fZs vx) (fZs vy) (fZs vz) None (fZ so).
Definition exH_star : pset F64 := (exH_set STARS [1] [0] [0] [0] [0] [0] [0] 0)%Z.
Definition exH_gal : galaxy F64 := mkGal exH_star (exH_set DARK_MATTER [] [] [] [] [] [] [] 0)%Z (exH_set GAS [1] [1] [0] [0] [0] [0] [0] 1)%Z false.
Definition exH_gal' : galaxy F64 := mkGal exH_star (exH_set DARK_MATTER [1] [1] [0] [0] [0] [0] [0] 0)%Z (exH_set GAS [] [] [] [] [] [] [] 1)%Z false.
Lemma exH_ok : constructible exH_gal /\ constructible exH_gal'.
Proof.
  split; apply constructible_ok, gal_ok_facts; (constructor; try reflexivity);
  apply pset_ok_iff; (split; [|reflexivity]); repeat split; intros p H; discriminate H.
Qed.
Lemma c112_softening_refuted : exists (g g' h h' : galaxy F64) v v', constructible g /\ constructible g' /\ g_stars g' = g_stars g /\
  others p_m g' = others p_m g /\ others p_x g' = others p_x g /\ others p_y g' = others p_y g /\ others p_z g' = others p_z g /\
  map p_soft (sets g') = map p_soft (sets g) /\
  potential (W:=F64) (S:=F32) to32 to64 (backend_table n1 true junk0) "fortran" g = Ok h /\
  potential (W:=F64) (S:=F32) to32 to64 (backend_table n1 true junk0) "fortran" g' = Ok h' /\
  p_pot (g_stars h) = Some [v] /\ p_pot (g_stars h') = Some [v'] /\ nlt v' v = true.
Proof.
  exists exH_gal, exH_gal'.
  assert (X : match potential (W:=F64) (S:=F32) to32 to64 (backend_table n1 true junk0) "fortran" exH_gal,
                    potential (W:=F64) (S:=F32) to32 to64 (backend_table n1 true junk0) "fortran" exH_gal' with
              | Ok h, Ok h' => match p_pot (g_stars h), p_pot (g_stars h') with Some [v], Some [v'] => nlt v' v | _, _ => false end
              | _, _ => false end = true) by (vm_compute; reflexivity).
  destruct (potential (W:=F64) (S:=F32) to32 to64 (backend_table n1 true junk0) "fortran" exH_gal) as [h|]; [|discriminate X].
  destruct (potential (W:=F64) (S:=F32) to32 to64 (backend_table n1 true junk0) "fortran" exH_gal') as [h'|]; [|discriminate X].
  destruct (p_pot (g_stars h)) as [[|v [|]]|] eqn:P; try discriminate X. destruct (p_pot (g_stars h')) as [[|v' [|]]|] eqn:P'; try discriminate X.
  exists h, h', v, v'. destruct exH_ok as (K & K'). do 2 (split; [assumption|]). do 6 (split; [reflexivity|]).
  do 2 (split; [reflexivity|]). auto.
Qed.

(** *** An example *)
(** The galaxy of the example of C97 with its particle of dark matter as gas. *)
Definition exG_gal : galaxy F64 :=
  mkGal (exW_set STARS [131072; 131072] [6; 4] [5; 5] [5; 5] [0; 448] [0; 0] [-511; 246])%Z
        (exW_set DARK_MATTER [] [] [] [] [] [] [])%Z (exW_set GAS [65536] [5] [5] [5] [0] [0] [0])%Z false.
(** The hypotheses of C112 hold, and both runs label the second star 0, for a cut at 9/10. *)
Example ex_c112 : let sm := seqsum 53 1024 p53 e1024 in
  constructible exW_gal /\ constructible exG_gal /\ regrouped exW_gal exG_gal /\ plen (g_gas exW_gal) = 0%nat /\ plen (g_gas exG_gal) = 1%nat /\
  is_matmul (S:=F64s sm) fma64 plain_matmul /\ column_by_column (N:=F64s sm) plain_matmul /\
  star_method (N:=F64) (jthreshold (fun _ => 77%Z) (default_bin0, default_bin1) (nlit 9 10)) /\
  rmap shows (analysis (sm:=sm) (sm':=seqsum 24 128 p24 e128) asort (backend_table n1 true junk0) "fortran" (plain_matmul (S:=F64)) (fun _ => 77%Z) (nlit 9 10) exW_gal) = Ok [sZ 1; sZ 0; S754_nan] /\
  rmap shows (analysis (sm:=sm) (sm':=seqsum 24 128 p24 e128) asort (backend_table n1 true junk0) "fortran" (plain_matmul (S:=F64)) (fun _ => 77%Z) (nlit 9 10) exG_gal) = Ok [sZ 1; sZ 0; S754_nan].
Proof.
  cbv zeta. set (sm := seqsum 53 1024 p53 e1024).
  split; [exact exW_ok|]. split.
  { apply constructible_ok, gal_ok_facts. constructor; try reflexivity.
    all: apply pset_ok_iff; split; [|reflexivity]; repeat split; intros p H; discriminate H. }
  split; [constructor; reflexivity|]. split; [reflexivity|]. split; [reflexivity|].
  split; [exact (proj1 (c94_plain (F64s sm) fma64))|]. split; [exact (proj1 (c112_products (F64s sm) fma64))|].
  split. { split; [discriminate|split; [|reflexivity]]. intros a H. simpl in H. destruct H as [<-|[]]. split; [unfold circ_attr; simpl; auto|discriminate]. }
  split; vm_compute; reflexivity.
Qed.
