(** Facts about mirror images of galaxies (C109). *)
From Verif Require Import Py Num RX F64 Np Df Data DataFacts DfFacts RebuildFacts Center CenterFacts Align AlignFacts Spec SpecR SpecCirc SpecSym SpecImage Circ CircFacts CurveFacts CircThms DataThms CenterThms AlignThms OrderThms SymFacts Potential PotFacts Dgemm SpecDgemm DgemmThms.
From Flocq Require Import Core.Raux.
From Coq Require Import Lra Lia.

(** *** Lists *)
Lemma F2_map {A B C D} (P : A -> C -> Prop) (Q : B -> D -> Prop) (f : A -> B) (g : C -> D) l l' :
  (forall x y, P x y -> Q (f x) (g y)) -> Forall2 P l l' -> Forall2 Q (map f l) (map g l').
Proof. intros H F. induction F; simpl; constructor; auto. Qed.
Lemma F2_impl {A B} (P Q : A -> B -> Prop) l l' : (forall x y, P x y -> Q x y) -> Forall2 P l l' -> Forall2 Q l l'.
Proof. intros H F. induction F; constructor; auto. Qed.
Lemma F2_map2 {A B C A' B' C'} (P : A -> A' -> Prop) (Q : B -> B' -> Prop) (R : C -> C' -> Prop) f f' p q p' q' :
  (forall x y x' y', P x x' -> Q y y' -> R (f x y) (f' x' y')) ->
  Forall2 P p p' -> Forall2 Q q q' -> Forall2 R (map2 f p q) (map2 f' p' q').
Proof.
  intros H F1. revert q q'. induction F1 as [|x x' p p' H1 F1 IH]; intros q q' F2; simpl; [constructor|].
  destruct F2 as [|y y' q q' H2 F2]; [constructor|]. constructor; auto.
Qed.
Lemma F2_pair {A B A' B'} (P : A -> A' -> Prop) (Q : B -> B' -> Prop) p q p' q' :
  Forall2 P p p' -> Forall2 Q q q' ->
  Forall2 (fun a b => P (fst a) (fst b) /\ Q (snd a) (snd b)) (map2 pair p q) (map2 pair p' q').
Proof. apply F2_map2. auto. Qed.
Lemma F2_map3 {A B} (P1 P2 P3 : A -> A -> Prop) (R : B -> B -> Prop) f f' p q r p' q' r' :
  (forall x y z x' y' z', P1 x x' -> P2 y y' -> P3 z z' -> R (f x y z) (f' x' y' z')) ->
  Forall2 P1 p p' -> Forall2 P2 q q' -> Forall2 P3 r r' -> Forall2 R (map3 f p q r) (map3 f' p' q' r').
Proof.
  intros H F1 F2 F3. unfold map3. eapply F2_map2; [|apply F2_pair; eassumption|exact F3].
  intros x y x' y' (H1 & H2) H3. auto.
Qed.
Lemma F2_map4 {A B} (P1 P2 P3 P4 : A -> A -> Prop) (R : B -> B -> Prop) (f f' : A -> A -> A -> A -> B) p q r s p' q' r' s' :
  (forall x y z w x' y' z' w', P1 x x' -> P2 y y' -> P3 z z' -> P4 w w' -> R (f x y z w) (f' x' y' z' w')) ->
  Forall2 P1 p p' -> Forall2 P2 q q' -> Forall2 P3 r r' -> Forall2 P4 s s' -> Forall2 R (map4 f p q r s) (map4 f' p' q' r' s').
Proof.
  intros H F1 F2 F3 F4. unfold map4. eapply F2_map2; [|apply F2_pair; eassumption|apply F2_pair; eassumption].
  intros x y x' y' (H1 & H2) (H3 & H4). auto.
Qed.
Lemma F2_mask {A B} (R : A -> B -> Prop) m l l' : Forall2 R l l' -> Forall2 R (bmask m l) (bmask m l').
Proof.
  intros F. revert m. induction F as [|x y l l' H F IH]; intros [|[|] m]; simpl; try constructor; auto.
Qed.
Lemma F2_eq {A} (l l' : list A) : Forall2 eq l l' -> l' = l.
Proof. induction 1; congruence. Qed.
Lemma F2_refl {A} (R : A -> A -> Prop) l : (forall x, R x x) -> Forall2 R l l.
Proof. intros H. induction l; constructor; auto. Qed.
Lemma F2_nth {A B} (R : A -> B -> Prop) l l' i x : Forall2 R l l' -> nth_error l i = Some x ->
  exists y, nth_error l' i = Some y /\ R x y.
Proof.
  intros F. revert i. induction F as [|a b l l' H F IH]; intros [|i] E; simpl in *; try discriminate; eauto.
  injection E as <-. eauto.
Qed.
Lemma three {N : Num} (R : pset N -> pset N -> Prop) (g g' : galaxy N) :
  Forall2 R (sets g) (sets g') <-> R (g_stars g) (g_stars g') /\ R (g_dm g) (g_dm g') /\ R (g_gas g) (g_gas g').
Proof.
  unfold sets. split.
  - intros F. inversion F as [|? ? ? ? Fs F1]; subst. inversion F1 as [|? ? ? ? Fd F2]; subst. inversion F2; subst. auto.
  - intros (? & ? & ?). repeat (constructor; [assumption|]). constructor.
Qed.

Section Mir.
Context {N : Num} (RN : Rounded N).
Local Notation v := (val RN).
Local Notation rel := (rel RN).
(** Squares of zeros are the same zero; the sign of a quotient is that of the numerator, by zero too. *)
Hypothesis Sq : forall x y : N, v x = XR 0 -> v y = XR 0 -> (x * x = y * y)%num.
Hypothesis Dv : forall a m : N, v (nopp a / m)%num = xopp (v (a / m)%num).

Lemma rel_refl (a : N) : rel false a a.
Proof. reflexivity. Qed.
Lemma rel_n0 s : rel s (n0 : N) n0.
Proof. unfold SymFacts.rel. rewrite (val_n0 RN). destruct s; simpl; auto. f_equal; lra. Qed.
Lemma rel_mul s t (a b c d : N) : rel s a b -> rel t c d -> rel (xorb s t) (a * c)%num (b * d)%num.
Proof. intros H1 H2. unfold SymFacts.rel in *. now rewrite !(val_mul RN), H1, H2, xturn_mul, rnd_turn. Qed.
Lemma rel_mul' s t u (a b c d : N) : rel s a b -> rel t c d -> xorb s t = u -> rel u (a * c)%num (b * d)%num.
Proof. intros H1 H2 <-. now apply rel_mul. Qed.
Lemma rel_add s (a b c d : N) : rel s a b -> rel s c d -> rel s (a + c)%num (b + d)%num.
Proof.
  intros H1 H2. unfold SymFacts.rel in *. rewrite !(val_add RN), H1, H2, <- rnd_turn. f_equal. destruct s; simpl; auto. apply xadd_opp.
Qed.
Lemma rel_minus s (a b c d : N) : rel s a b -> rel s c d -> rel s (a - c)%num (b - d)%num.
Proof.
  intros H1 H2. unfold SymFacts.rel in *. rewrite !(val_sub RN), H1, H2, <- rnd_turn. f_equal. destruct s; simpl; auto. apply xsub_opp.
Qed.
Lemma rel_neg s (a b : N) : rel s a b -> rel s (nopp a) (nopp b).
Proof. intros H. unfold SymFacts.rel in *. rewrite !(val_opp RN), H. now destruct s. Qed.
Lemma rel_turn s (a b : N) : rel s a b -> v a <> XR 0 -> b = turn s a.
Proof.
  intros H Z. apply (val_inj RN); rewrite ?(val_turn RN); auto. rewrite H. destruct s; simpl; auto.
  intros E. apply Z. rewrite <- (xopp_opp (v a)), E. simpl. f_equal; lra.
Qed.
Lemma rel_zero s (a b : N) : rel s a b -> v a = XR 0 -> v b = XR 0.
Proof. intros H Z. rewrite H, Z. destruct s; simpl; auto. f_equal; lra. Qed.
Lemma rel_quot s (a b m : N) : rel s a b -> rel s (a / m)%num (b / m)%num.
Proof.
  intros H. destruct (xr_zero_dec (v a)) as [Z|Z]; [apply rel_div; auto|].
  rewrite (rel_turn _ _ _ H Z). destruct s; simpl; unfold SymFacts.rel; simpl; auto.
Qed.
Lemma sq_same s (a b : N) : rel s a b -> (b * b = a * a)%num.
Proof.
  intros H. destruct (xr_zero_dec (v a)) as [Z|Z].
  - apply Sq; auto. eapply rel_zero; eauto.
  - rewrite (rel_turn _ _ _ H Z). destruct s; simpl; auto. apply (mul_opp RN).
Qed.
Lemma agrees_rel s (l l' : list N) : Forall2 (agrees s) l l' <-> Forall2 (rel s) l l'.
Proof. split; intros F; eapply F2_impl; try exact F; intros a b; apply (agrees_iff RN). Qed.

(** *** Sets *)
Record mrel (w : signs) (p q : pset N) : Prop := {
  m_x : Forall2 (rel (sx w)) (p_x p) (p_x q); m_y : Forall2 (rel (sy w)) (p_y p) (p_y q);
  m_z : Forall2 (rel (sz w)) (p_z p) (p_z q); m_vx : Forall2 (rel (svx w)) (p_vx p) (p_vx q);
  m_vy : Forall2 (rel (svy w)) (p_vy p) (p_vy q); m_vz : Forall2 (rel (svz w)) (p_vz p) (p_vz q);
  m_m : p_m q = p_m p; m_soft : p_soft q = p_soft p; m_pot : p_pot q = p_pot p }.
Lemma image_iff w (g g' : galaxy N) : mirror_image w g g' <-> Forall2 (mrel w) (sets g) (sets g').
Proof.
  unfold mirror_image. split; intros F; (eapply F2_impl; [|exact F]); cbv beta; intros p q.
  - intros (X & Y & Z & VX & VY & VZ & M & S & P). constructor; auto; now apply agrees_rel.
  - intros [X Y Z VX VY VZ M S P]. repeat split; auto; now apply agrees_rel.
Qed.
Lemma mrel_len w p q : pset_ok p -> pset_ok q -> mrel w p q -> plen q = plen p.
Proof. intros Hp Hq H. rewrite <- (plen_x _ Hp), <- (plen_x _ Hq). symmetry. exact (Forall2_length' _ _ _ (m_x _ _ _ H)). Qed.
Lemma mrel_has w p q : pset_ok p -> pset_ok q -> mrel w p q -> p_haspot q = p_haspot p.
Proof. intros Hp Hq H. rewrite (pset_ok_haspot _ Hp), (pset_ok_haspot _ Hq), (m_pot _ _ _ H). reflexivity. Qed.
Lemma kin_rel t1 t2 t3 (a b c a' b' c' : N) : rel t1 a a' -> rel t2 b b' -> rel t3 c c' -> kin a' b' c' = kin a b c.
Proof. intros H1 H2 H3. unfold kin. now rewrite (sq_same _ _ _ H1), (sq_same _ _ _ H2), (sq_same _ _ _ H3). Qed.
Lemma cross_rel s t1 t2 u1 u2 (a b c d a' b' c' d' : N) : xorb t1 u1 = s -> xorb t2 u2 = s ->
  rel t1 a a' -> rel u1 b b' -> rel t2 c c' -> rel u2 d d' -> rel s (crossc a b c d) (crossc a' b' c' d').
Proof. intros E1 E2 A B C D. unfold crossc. apply rel_minus; eapply rel_mul'; eauto. Qed.
Lemma mrel_J w p q : symmetric w -> pset_ok p -> pset_ok q -> mrel w p q ->
  Forall2 (rel (xorb (sy w) (svz w))) (p_Jx p) (p_Jx q) /\ Forall2 (rel (xorb (sz w) (svx w))) (p_Jy p) (p_Jy q) /\
  Forall2 (rel (flips w)) (p_Jz p) (p_Jz q).
Proof.
  intros (S1 & S2 & S3) Hp Hq H. destruct H as [X Y Z VX VY VZ _ _ _].
  rewrite (pset_ok_Jx _ Hp), (pset_ok_Jx _ Hq), (pset_ok_Jy _ Hp), (pset_ok_Jy _ Hq), (pset_ok_Jz _ Hp), (pset_ok_Jz _ Hq).
  repeat split; (eapply F2_map4; [|eassumption..]); intros; (eapply cross_rel; [| |eassumption..]); auto.
Qed.
Lemma mrel_orbits w p q : symmetric w -> pset_ok p -> pset_ok q -> mrel w p q ->
  Forall2 (orel RN (xorb (sy w) (svz w)) (xorb (sz w) (svx w)) (flips w)) (orbits p) (orbits q).
Proof.
  intros Hw Hp Hq H. pose proof (mrel_J _ _ _ Hw Hp Hq H) as (J1 & J2 & J3). unfold orbits. apply orbits_cols_rel; auto.
  unfold energies. rewrite (pset_ok_te _ Hp), (pset_ok_te _ Hq), (m_pot _ _ _ H), (pset_ok_ke _ Hp), (pset_ok_ke _ Hq), (mrel_len _ _ _ Hp Hq H).
  assert (map3' kin (p_vx q) (p_vy q) (p_vz q) = map3' kin (p_vx p) (p_vy p) (p_vz p)) as E; [|now rewrite E].
  apply F2_eq. destruct H as [_ _ _ VX VY VZ _ _ _]. eapply (F2_map3 _ _ _ eq kin kin); [|exact VX|exact VY|exact VZ].
  intros x y z x' y' z' A B C. symmetry. eapply kin_rel; eauto.
Qed.
Lemma mirror_krows w (g g' : galaxy N) : symmetric w -> gal_ok g -> gal_ok g' -> Forall2 (mrel w) (sets g) (sets g') ->
  Forall2 (krel RN (flips w)) (map krow_of (all_orbits g)) (map krow_of (all_orbits g')) /\
  Forall2 (krel RN (flips w)) (map krow_of (star_orbits g)) (map krow_of (star_orbits g')).
Proof.
  intros Hw Hg Hg' F. apply gal_ok_facts in Hg as [s1 d1 g1 _ _ _ _ _ _]. apply gal_ok_facts in Hg' as [s2 d2 g2 _ _ _ _ _ _].
  apply three in F as (Fs & Fd & Fg).
  assert (X : forall p q, pset_ok p -> pset_ok q -> mrel w p q ->
     Forall2 (krel RN (flips w)) (map krow_of (orbits p)) (map krow_of (orbits q))).
  { intros p q Hp Hq H. apply Forall2_map'.
    eapply F2_impl; [|apply (mrel_orbits w); eassumption]. intros a b R. eapply orel_krel; eauto. }
  unfold all_orbits, star_orbits, sets. simpl. rewrite !map_app. split; [|apply X; auto].
  repeat apply krel_app; try (apply X; auto). constructor.
Qed.
Lemma mirror_jcirc as_ w (g g' : galaxy N) b0 b1 : symmetric w -> gal_ok g -> gal_ok g' -> Forall2 (mrel w) (sets g) (sets g') ->
  (forall e, jcirc as_ g b0 b1 = Raise e -> jcirc as_ g' b0 b1 = Raise e) /\
  (forall j, jcirc as_ g b0 b1 = Ok j -> exists j', jcirc as_ g' b0 b1 = Ok j' /\ same_up_to (flips w) j j').
Proof.
  intros Hw Hg Hg' F. rewrite (jcirc_run RN as_ g b0 b1 Hg), (jcirc_run RN as_ g' b0 b1 Hg').
  destruct (mirror_krows w g g' Hw Hg Hg' F) as [F1 F2].
  apply (run_rel RN); auto. intros k Hk. apply in_map_iff in Hk as (o & <- & Ho). apply in_map. now apply star_in_all.
Qed.

(** *** Centring *)
Lemma image_sizes w (g g' : galaxy N) : gal_ok g -> gal_ok g' -> Forall2 (mrel w) (sets g) (sets g') ->
  map plen (sets g') = map plen (sets g) /\ g_haspot g' = g_haspot g /\ glen g' = glen g /\ gpot g' = gpot g.
Proof.
  intros Hg Hg' F. apply three in F as (Fs & Fd & Fg).
  pose proof (proj1 (gal_ok_facts _) Hg) as G. pose proof (proj1 (gal_ok_facts _) Hg') as G'.
  destruct G as [s1 d1 g1 ts1 td1 tg1 h1 h2 h3]. destruct G' as [s2 d2 g2 ts2 td2 tg2 h1' h2' h3'].
  pose proof (mrel_len _ _ _ s1 s2 Fs) as Ls. pose proof (mrel_len _ _ _ d1 d2 Fd) as Ld. pose proof (mrel_len _ _ _ g1 g2 Fg) as Lg.
  pose proof (mrel_has _ _ _ s1 s2 Fs) as Ps. pose proof (mrel_has _ _ _ d1 d2 Fd) as Pd. pose proof (mrel_has _ _ _ g1 g2 Fg) as Pg.
  split; [unfold sets; simpl; congruence|]. split; [congruence|]. split; [unfold glen; congruence|].
  assert (X : forall p q, pset_ok p -> pset_ok q -> mrel w p q -> to_numpy (pcol q "potential") = to_numpy (pcol p "potential")).
  { intros p q Hp Hq H. rewrite !pcol_num_pot, (m_pot _ _ _ H), (mrel_len _ _ _ Hp Hq H). reflexivity. }
  unfold gpot, gcol. rewrite !to_numpy_app. now rewrite (X _ _ s1 s2 Fs), (X _ _ d1 d2 Fd), (X _ _ g1 g2 Fg).
Qed.
Lemma image_coords w (g g' : galaxy N) : Forall2 (mrel w) (sets g) (sets g') ->
  Forall2 (rel (sx w)) (gx g) (gx g') /\ Forall2 (rel (sy w)) (gy g) (gy g') /\ Forall2 (rel (sz w)) (gz g) (gz g').
Proof.
  intros F. apply three in F as ([] & [] & []). unfold gx, gy, gz. repeat split; repeat apply Forall2_app; auto.
Qed.
Lemma shift_rel w x0 y0 z0 x1 y1 z1 (p q : pset N) : mrel w p q -> rel (sx w) x0 x1 -> rel (sy w) y0 y1 -> rel (sz w) z0 z1 ->
  mrel w (shift x0 y0 z0 p) (shift x1 y1 z1 q).
Proof.
  intros [X Y Z VX VY VZ M S P] Hx Hy Hz. constructor; simpl; auto; (eapply F2_map; [|eassumption]); intros; now apply rel_minus.
Qed.
Lemma mirror_center w (g g' : galaxy N) : gal_ok g -> gal_ok g' -> Forall2 (mrel w) (sets g) (sets g') ->
  (forall e, center g = Raise e -> center g' = Raise e) /\
  (forall h, center g = Ok h -> exists h', center g' = Ok h' /\ gal_ok h /\ gal_ok h' /\ Forall2 (mrel w) (sets h) (sets h')).
Proof.
  intros Hg Hg' F. destruct (image_sizes _ _ _ Hg Hg' F) as (_ & Eh & El & Ep).
  destruct (g_haspot g) eqn:P.
  2:{ unfold center. rewrite Eh, P. simpl. split; [auto|discriminate]. }
  destruct (Nat.eq_dec (glen g) 0) as [L|L].
  { rewrite (center_empty _ Hg P L), center_empty by (auto; congruence). split; [auto|discriminate]. }
  destruct (center_total g Hg P) as (i & x0 & y0 & z0 & Hi & _ & Hx & Hy & Hz & E); [lia|].
  destruct (image_coords _ _ _ F) as (Fx & Fy & Fz).
  destruct (F2_nth _ _ _ _ _ Fx Hx) as (x1 & Hx1 & Rx). destruct (F2_nth _ _ _ _ _ Fy Hy) as (y1 & Hy1 & Ry).
  destruct (F2_nth _ _ _ _ _ Fz Hz) as (z1 & Hz1 & Rz).
  rewrite E, (center_eq g' i x1 y1 z1) by (auto; congruence). split; [discriminate|]. intros h [= <-].
  eexists. split; [reflexivity|]. split; [now apply shift_gal_ok|]. split; [now apply shift_gal_ok|].
  apply three in F as (Fs & Fd & Fg). apply three. simpl. split; [|split]; now apply shift_rel.
Qed.

(** *** Alignment *)
Hypothesis ES : forall s (l l' : list N), Forall2 (rel s) l l' -> rel s (nsum l) (nsum l').
Lemma mask_same w (p q : pset N) c : mrel w p q ->
  make_mask (p_x q) (p_y q) (p_z q) c = make_mask (p_x p) (p_y p) (p_z p) c.
Proof.
  intros [X Y Z _ _ _ _ _ _].
  assert (E : map3 radius (p_x q) (p_y q) (p_z q) = map3 radius (p_x p) (p_y p) (p_z p)).
  { apply F2_eq. eapply (F2_map3 _ _ _ eq radius radius); [|exact X|exact Y|exact Z].
    intros x y z x' y' z' A B C. unfold radius. now rewrite (sq_same _ _ _ A), (sq_same _ _ _ B), (sq_same _ _ _ C). }
  unfold make_mask. now rewrite E.
Qed.
Lemma sums_rel w (p q : pset N) c : symmetric w -> pset_ok p -> pset_ok q -> mrel w p q ->
  exists jx jy jz jx' jy' jz', rel (xorb (sy w) (svz w)) jx jx' /\ rel (xorb (sz w) (svx w)) jy jy' /\ rel (flips w) jz jz' /\
    get_rot_matrix (p_m p) (p_x p) (p_y p) (p_z p) (p_Jx p) (p_Jy p) (p_Jz p) c = rot_of jx jy jz /\
    get_rot_matrix (p_m q) (p_x q) (p_y q) (p_z q) (p_Jx q) (p_Jy q) (p_Jz q) c = rot_of jx' jy' jz'.
Proof.
  intros Hw Hp Hq H. destruct (mrel_J _ _ _ Hw Hp Hq H) as (J1 & J2 & J3). unfold get_rot_matrix.
  rewrite (mask_same _ _ _ c H), (m_m _ _ _ H). cbv zeta.
  do 6 eexists. split; [|split; [|split; [|split; reflexivity]]]; apply ES, F2_mask;
    (eapply F2_map2; [|apply (F2_refl (rel false)), rel_refl|eassumption]); intros x y x' y' A B; (eapply rel_mul'; [exact A|exact B|apply xorb_false_l]).
Qed.
Lemma rot_rel s1 s2 s3 (x y z x' y' z' : N) : rel s1 x x' -> rel s2 y y' -> rel s3 z z' ->
  let A := rot_of x y z in let A' := rot_of x' y' z' in
  rel s2 (a11 A) (a11 A') /\ rel s1 (a12 A) (a12 A') /\ (forall t, rel t (a13 A) (a13 A')) /\
  rel (xorb s1 s3) (a21 A) (a21 A') /\ rel (xorb s2 s3) (a22 A) (a22 A') /\ rel false (a23 A) (a23 A') /\
  rel s1 (a31 A) (a31 A') /\ rel s2 (a32 A) (a32 A') /\ rel s3 (a33 A) (a33 A').
Proof.
  intros X Y Z. unfold rot_of. cbv zeta. cbn [a11 a12 a13 a21 a22 a23 a31 a32 a33].
  rewrite (sq_same _ _ _ X), (sq_same _ _ _ Y), (sq_same _ _ _ Z).
  do 2 (split; [apply rel_quot; auto using rel_neg|]). split; [intros t; apply rel_n0|].
  repeat (split; [apply rel_quot; auto using rel_mul, rel_neg, rel_refl|]). apply rel_quot; auto.
Qed.

Variable fma : N -> N -> N -> N.
Variable mm : nat -> mat3 N -> list N -> list N -> list N -> list N * list N * list N.
Hypothesis MM : is_matmul fma mm.
Hypothesis EM : even_matmul mm.
Lemma product_rel k r1 r2 r3 c1 c2 c3 (A A' : mat3 N) x y z x' y' z' :
  rel (xorb r1 c1) (a11 A) (a11 A') -> rel (xorb r1 c2) (a12 A) (a12 A') -> rel (xorb r1 c3) (a13 A) (a13 A') ->
  rel (xorb r2 c1) (a21 A) (a21 A') -> rel (xorb r2 c2) (a22 A) (a22 A') -> rel (xorb r2 c3) (a23 A) (a23 A') ->
  rel (xorb r3 c1) (a31 A) (a31 A') -> rel (xorb r3 c2) (a32 A) (a32 A') -> rel (xorb r3 c3) (a33 A) (a33 A') ->
  Forall2 (rel c1) x x' -> Forall2 (rel c2) y y' -> Forall2 (rel c3) z z' ->
  Forall2 (rel r1) (mm_x mm k A x y z) (mm_x mm k A' x' y' z') /\ Forall2 (rel r2) (mm_y mm k A x y z) (mm_y mm k A' x' y' z') /\
  Forall2 (rel r3) (mm_z mm k A x y z) (mm_z mm k A' x' y' z').
Proof.
  intros. unfold mm_x, mm_y, mm_z. destruct (mm k A x y z) as [[u1 u2] u3] eqn:E. destruct (mm k A' x' y' z') as [[u1' u2'] u3'] eqn:E'.
  cbn [fst snd]. rewrite <- !agrees_rel.
  apply (EM k r1 r2 r3 c1 c2 c3 A A' x y z x' y' z'); auto; first [now apply (agrees_iff RN)|now apply agrees_rel].
Qed.
Lemma turned_rel w k (A A' : mat3 N) (p q : pset N) : symmetric w ->
  (let s1 := xorb (sy w) (svz w) in let s2 := xorb (sz w) (svx w) in let s3 := flips w in
   rel s2 (a11 A) (a11 A') /\ rel s1 (a12 A) (a12 A') /\ (forall t, rel t (a13 A) (a13 A')) /\
   rel (xorb s1 s3) (a21 A) (a21 A') /\ rel (xorb s2 s3) (a22 A) (a22 A') /\ rel false (a23 A) (a23 A') /\
   rel s1 (a31 A) (a31 A') /\ rel s2 (a32 A) (a32 A') /\ rel s3 (a33 A) (a33 A')) ->
  mrel w p q -> mrel (aligned_signs w) (turn_set mm k A p) (turn_set mm k A' q).
Proof.
  intros (S1 & S2 & S3) (R11 & R12 & R13 & R21 & R22 & R23 & R31 & R32 & R33) [X Y Z VX VY VZ M S P].
  assert (B : forall b c t t', rel t b c -> t' = t -> rel t' b c) by (intros; subst; auto).
  assert (T : forall r1 r2 r3 c1 c2 c3, xorb r1 c1 = xorb (sz w) (svx w) -> xorb r1 c2 = xorb (sy w) (svz w) ->
     xorb r2 c1 = xorb (xorb (sy w) (svz w)) (flips w) -> xorb r2 c2 = xorb (xorb (sz w) (svx w)) (flips w) -> xorb r2 c3 = false ->
     xorb r3 c1 = xorb (sy w) (svz w) -> xorb r3 c2 = xorb (sz w) (svx w) -> xorb r3 c3 = flips w ->
     forall i x y z x' y' z', Forall2 (rel c1) x x' -> Forall2 (rel c2) y y' -> Forall2 (rel c3) z z' ->
     Forall2 (rel r1) (mm_x mm i A x y z) (mm_x mm i A' x' y' z') /\ Forall2 (rel r2) (mm_y mm i A x y z) (mm_y mm i A' x' y' z') /\
     Forall2 (rel r3) (mm_z mm i A x y z) (mm_z mm i A' x' y' z')).
  { intros r1 r2 r3 c1 c2 c3 E1 E2 E3 E4 E5 E6 E7 E8 i x y z x' y' z' FX FY FZ.
    apply product_rel with c1 c2 c3; auto; rewrite ?E1, ?E2, ?E3, ?E4, ?E5, ?E6, ?E7, ?E8; auto. }
  clear R11 R12 R13 R21 R22 R23 R31 R32 R33 B.
  destruct (T (svz w) (sz w) (xorb (xorb (sx w) (sy w)) (svz w)) (sx w) (sy w) (sz w)) with (i := (2 * k)%nat) (9 := X) (10 := Y) (11 := Z) as (P1 & P2 & P3);
    [destruct w as [[] [] [] [] [] []]; cbv in S1, S2, S3 |- *; congruence ..|].
  destruct (T (sz w) (svz w) (xorb (xorb (sx w) (sy w)) (sz w)) (svx w) (svy w) (svz w)) with (i := (2 * k + 1)%nat) (9 := VX) (10 := VY) (11 := VZ) as (Q1 & Q2 & Q3);
    [destruct w as [[] [] [] [] [] []]; cbv in S1, S2, S3 |- *; congruence ..|].
  constructor; simpl; assumption.
Qed.
Lemma aligned_symmetric w : symmetric w -> symmetric (aligned_signs w) /\ flips (aligned_signs w) = false.
Proof. intros (S1 & S2 & S3). destruct w as [[] [] [] [] [] []]; cbv in *; try discriminate; repeat split. Qed.
Lemma mirror_align w (g g' : galaxy N) c : symmetric w -> gal_ok g -> gal_ok g' -> Forall2 (mrel w) (sets g) (sets g') ->
  (forall e, star_align_with mm g c = Raise e -> star_align_with mm g' c = Raise e) /\
  (forall h, star_align_with mm g c = Ok h -> exists h', star_align_with mm g' c = Ok h' /\ gal_ok h /\ gal_ok h' /\
     Forall2 (mrel (aligned_signs w)) (sets h) (sets h')).
Proof.
  intros Hw Hg Hg' F. rewrite (star_align_with_eq fma mm MM g c Hg), (star_align_with_eq fma mm MM g' c Hg').
  destruct (cut_ok c); [|split; [auto|discriminate]]. split; [discriminate|]. intros h [= <-].
  eexists. split; [reflexivity|]. split; [now apply (turn_gal_ok fma mm MM)|]. split; [now apply (turn_gal_ok fma mm MM)|].
  apply three in F as (Fs & Fd & Fg). apply three. simpl.
  pose proof (proj1 (gal_ok_facts _) Hg) as G. pose proof (proj1 (gal_ok_facts _) Hg') as G'.
  destruct G as [s1 _ _ _ _ _ _ _ _]. destruct G' as [s2 _ _ _ _ _ _ _ _].
  destruct (sums_rel w _ _ c Hw s1 s2 Fs) as (jx & jy & jz & jx' & jy' & jz' & Rx & Ry & Rz & E & E').
  unfold gal_matrix. rewrite E, E'. pose proof (rot_rel _ _ _ _ _ _ _ _ _ Rx Ry Rz) as R.
  split; [|split]; apply turned_rel; auto.
Qed.
End Mir.

(** *** Potential *)
Section Pot.
Context {W S : Num} (RW : Rounded W) (RS : Rounded S) (cast : W -> S) (lift : S -> W).
Hypothesis C : forall s a b, rel RW s a b -> rel RS s (cast a) (cast b).
Lemma mirror_potential w (g g' : galaxy W) (table : dict (backend S)) name : gal_ok g -> gal_ok g' -> Forall2 (mrel RW w) (sets g) (sets g') ->
  (forall f : backend S, dget table name = Some f -> even_potential f /\
     forall x y z m so pot, length y = length x -> length z = length x -> length m = length x -> f x y z m so = Ok pot -> length pot = length x) ->
  (forall e, potential cast lift table name g = Raise e -> potential cast lift table name g' = Raise e) /\
  (forall h, potential cast lift table name g = Ok h -> exists h', potential cast lift table name g' = Ok h' /\ gal_ok h /\ gal_ok h' /\
     Forall2 (mrel RW w) (sets h) (sets h')).
Proof.
  intros Hg Hg' F Hf. destruct (image_sizes RW _ _ _ Hg Hg' F) as (Ls & Eh & El & _).
  destruct (g_haspot g) eqn:P.
  { unfold potential. rewrite Eh, P. simpl. split; [auto|discriminate]. }
  destruct (dget table name) as [f|] eqn:Ef.
  2:{ unfold potential. rewrite Eh, P, Ef. simpl. split; [auto|discriminate]. }
  destruct (Hf f eq_refl) as (EP & LP). destruct (image_coords RW _ _ _ F) as (Fx & Fy & Fz).
  pose proof F as F3. apply three in F3 as (Fs & Fd & Fg).
  assert (Em : gm g' = gm g) by (unfold gm; now rewrite (m_m _ _ _ _ Fs), (m_m _ _ _ _ Fd), (m_m _ _ _ _ Fg)).
  unfold sets in Ls. simpl in Ls. injection Ls as L1 L2 L3.
  assert (Es : gsoft g' = gsoft g).
  { unfold gsoft. now rewrite (m_soft _ _ _ _ Fs), (m_soft _ _ _ _ Fd), (m_soft _ _ _ _ Fg), L1, L2, L3. }
  assert (K : forall s l l', Forall2 (rel RW s) l l' -> Forall2 (agrees s) (map cast l) (map cast l')).
  { intros s l l' H. apply (agrees_rel RS). eapply F2_map; [|exact H]. apply C. }
  pose proof (EP _ _ _ _ _ _ _ _ _ (map cast (gm g)) (cast (pd_max (gsoft g))) (K _ _ _ Fx) (K _ _ _ Fy) (K _ _ _ Fz)) as EQ.
  destruct (f (map cast (gx g)) (map cast (gy g)) (map cast (gz g)) (map cast (gm g)) (cast (pd_max (gsoft g)))) as [pot|e] eqn:Ep.
  2:{ rewrite (potential_eq _ _ _ _ _ _ Hg P Ef), Ep. rewrite (fun H => potential_eq cast lift table name g' f Hg' H Ef) by congruence.
      rewrite Em, Es, EQ. simpl. split; [auto|discriminate]. }
  assert (Lp : length pot = glen g).
  { pose proof (gxyz_length g Hg) as (A & B & D & _). rewrite <- A, <- (map_length cast). eapply LP; [| | |exact Ep]; rewrite !map_length; try congruence.
    rewrite A. pose proof (proj1 (gal_ok_facts _) Hg) as [s1 d1 g1 _ _ _ _ _ _]. unfold gm, glen, plen. now rewrite !app_length, Nat.add_assoc. }
  rewrite (potential_ok _ _ _ _ _ _ _ Hg P Ef Ep Lp). split; [discriminate|]. intros h [= <-]. rewrite <- Em, <- Es in EQ.
  assert (Q1 : length (map (fun v => lift (nopp v)) (firstn (plen (g_stars g)) pot)) = plen (g_stars g)) by (rewrite map_length, firstn_length; unfold glen in Lp; lia).
  assert (Q2 : length (map (fun v => lift (nopp v)) (firstn (plen (g_dm g)) (skipn (plen (g_stars g)) pot))) = plen (g_dm g)) by (rewrite map_length, firstn_length, skipn_length; unfold glen in Lp; lia).
  assert (Q3 : length (map (fun v => lift (nopp v)) (skipn (plen (g_stars g) + plen (g_dm g)) pot)) = plen (g_gas g)) by (rewrite map_length, skipn_length; unfold glen in Lp; lia).
  eexists. split; [apply (potential_ok cast lift table name g' f pot Hg'); auto; congruence|].
  rewrite L1, L2. split; [now apply pot_gal_ok|]. split; [apply pot_gal_ok; congruence|].
  apply three. simpl.
  assert (X : forall l p q, mrel RW w p q -> mrel RW w (pot_set l p) (pot_set l q)).
  { intros l p q []. constructor; simpl; auto. }
  split; [|split]; apply X; auto.
Qed.
End Pot.
