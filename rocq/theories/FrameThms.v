(** Decomposing a centred and aligned galaxy does not depend on the frame of reference (C76). *)
From Verif Require Import Py Num RX F64 Np Df Data DataFacts DfFacts RebuildFacts Center CenterFacts Align Spec SpecR SpecCirc SpecPot SpecPipe SpecBase SpecFrame Ex DataThms CenterThms AlignFacts AlignThms Circ CircFacts CurveFacts CircThms Base BaseFacts BaseThms Threshold EpsFacts ThresholdThms OrderThms SymFacts SymThms InvThms Potential PotConcFacts PotThms PipeThms.
From Flocq Require Import IEEE754.BinarySingleNaN.
From Coq Require Import Lra Lia Floats.SpecFloat.
Local Open Scope R_scope.

Lemma rotation_orthogonal M : rotation M -> orthogonal M.
Proof. intros (_ & _ & _ & _ & _ & _ & H). unfold orthogonal. tauto. Qed.

(** Inner products of angular momenta. *)
Definition dotL (p q : particle) : R := lx p * lx q + ly p * ly q + lz p * lz q.
Definition dotx (p q : particle) : R := px p * px q + py p * py q + pz p * pz q.
Definition dotv (p q : particle) : R := pvx p * pvx q + pvy p * pvy q + pvz p * pvz q.
Definition dotxv (p q : particle) : R := px p * pvx q + py p * pvy q + pz p * pvz q.
Lemma dotL_dots p q : dotL p q = dotx p q * dotv p q - dotxv p q * dotxv q p.
Proof. unfold dotL, dotx, dotv, dotxv, lx, ly, lz. ring. Qed.
Lemma orth_dot M a b c x y z : orthogonal M ->
  (m11 M * a + m12 M * b + m13 M * c) * (m11 M * x + m12 M * y + m13 M * z) +
  (m21 M * a + m22 M * b + m23 M * c) * (m21 M * x + m22 M * y + m23 M * z) +
  (m31 M * a + m32 M * b + m33 M * c) * (m31 M * x + m32 M * y + m33 M * z) = a * x + b * y + c * z.
Proof.
  intros (H1 & H2 & H3 & H4 & H5 & H6).
  transitivity ((m11 M * m11 M + m21 M * m21 M + m31 M * m31 M) * (a * x) + (m12 M * m12 M + m22 M * m22 M + m32 M * m32 M) * (b * y) +
    (m13 M * m13 M + m23 M * m23 M + m33 M * m33 M) * (c * z) + (m11 M * m12 M + m21 M * m22 M + m31 M * m32 M) * (a * y + b * x) +
    (m11 M * m13 M + m21 M * m23 M + m31 M * m33 M) * (a * z + c * x) + (m12 M * m13 M + m22 M * m23 M + m32 M * m33 M) * (b * z + c * y)).
  - ring.
  - rewrite H1, H2, H3, H4, H5, H6. ring.
Qed.
Lemma dotL_orth M p q : orthogonal M -> dotL (rotate M p) (rotate M q) = dotL p q.
Proof. intros H. rewrite !dotL_dots. unfold dotx, dotv, dotxv, rotate; simpl. now rewrite !orth_dot. Qed.
Lemma kinr_orth M q : orthogonal M -> kinr (rotate M q) = kinr q.
Proof. intros H. unfold kinr, rotate; simpl. now rewrite orth_dot. Qed.
Lemma inside_orth M c q : orthogonal M -> inside c (rotate M q) = inside c q.
Proof. intros H. unfold inside, rad, rotate; simpl. now rewrite orth_dot. Qed.
Lemma filter_orth M c l : orthogonal M -> filter (inside c) (map (rotate M) l) = map (rotate M) (filter (inside c) l).
Proof. intros H. induction l as [|q l IH]; simpl; [reflexivity|]. rewrite inside_orth by auto. destruct (inside c q); simpl; congruence. Qed.

(** The total angular momentum against that of one particle. *)
Definition along c l q : R := LX c l * lx q + LY c l * ly q + LZ c l * lz q.
Lemma along_sum c l q : along c l q = sumR (fun p => pm p * dotL p q) (filter (inside c) l).
Proof. unfold along, LX, LY, LZ, dotL. induction (filter (inside c) l) as [|p k IH]; simpl; [ring|]. rewrite <- IH. ring. Qed.
Lemma sumR_ext f h l : (forall q, f q = h q) -> sumR f l = sumR h l.
Proof. intros H. induction l; simpl; congruence. Qed.
Lemma along_orth M c l q : orthogonal M -> along c (map (rotate M) l) (rotate M q) = along c l q.
Proof.
  intros H. rewrite !along_sum, filter_orth, sumR_map by auto. apply sumR_ext. intros p. simpl. now rewrite dotL_orth.
Qed.
Lemma norm_orth M c l : orthogonal M -> Lnorm c (map (rotate M) l) = Lnorm c l.
Proof.
  intros H. unfold Lnorm. f_equal.
  assert (S : forall k a b d, LX c k * a + LY c k * b + LZ c k * d = sumR (fun p => pm p * (lx p * a + ly p * b + lz p * d)) (filter (inside c) k)).
  { intros k a b d. unfold LX, LY, LZ. induction (filter (inside c) k) as [|p t IH]; simpl; [ring|]. rewrite <- IH. ring. }
  rewrite !S, filter_orth, sumR_map by auto. apply sumR_ext. intros p. simpl. f_equal.
  pose proof (along_orth M c l p H) as E. unfold along in E. lra.
Qed.

(** The z component after the alignment. *)
Lemma aligned_lz c l q : (LX c l <> 0 \/ LY c l <> 0) ->
  lz (rotate (rotR (LX c l) (LY c l) (LZ c l)) q) = along c l q / Lnorm c l.
Proof.
  intros H. destruct (rotate_l _ q (rotR_rotation _ _ (LZ c l) H)) as (_ & _ & ->). unfold rotR; simpl. unfold along.
  fold (Lnorm c l). assert (0 < Lnorm c l) by (apply sqrt_lt_R0; pose proof (sq_pos _ _ H); nra). field. lra.
Qed.

Lemma krows_same (p p' : pset RX) (f f' : particle -> particle) l : pset_ok p -> pset_ok p' -> holds p (map f l) -> holds p' (map f' l) -> p_pot p' = p_pot p ->
  (forall q, lx (f' q) * lx (f' q) + ly (f' q) * ly (f' q) = lx (f q) * lx (f q) + ly (f q) * ly (f q) /\
     lz (f' q) = lz (f q) /\ kinr (f' q) = kinr (f q)) ->
  map krow_of (orbits p') = map krow_of (orbits p).
Proof.
  intros Hp Hp' Hl Hl' Ep Rq. rewrite (krows_holds p' _ Hp' Hl'), (krows_holds p _ Hp Hl), Ep. rewrite !map_length, !map_map.
  assert (Ek : map (fun q => XR (kinr (f' q))) l = map (fun q => XR (kinr (f q))) l).
  { apply map_ext. intros q. f_equal. apply Rq. }
  rewrite Ek. generalize (match p_pot p with Some t => map2 (fun k u => nadd (N:=RX) k u) (map (fun q => XR (kinr (f q))) l) t
                          | None => repeat XNaN (length l) end).
  clear - Rq. induction l as [|q l IH]; intros [|e es]; simpl; auto. f_equal; [|apply IH].
  destruct (Rq q) as (A1 & A2 & _). rewrite A1, A2. reflexivity.
Qed.

(** C76: aligning a galaxy and its image under a rotation or reflection gives galaxies with the same result of
    [jcirc]. *)
Lemma c76_align : forall argsort A r (g g' h h' : galaxy RX) b0 b1 ls ld lg,
  orthogonal A -> alignable g r ls ld lg -> alignable g' r (map (rotate A) ls) (map (rotate A) ld) (map (rotate A) lg) ->
  map (@p_pot RX) (sets g') = map (@p_pot RX) (sets g) ->
  star_align g r = Ok h -> star_align g' r = Ok h' ->
  jcirc argsort h' b0 b1 = jcirc argsort h b0 b1.
Proof.
  intros argsort A r g g' h h' b0 b1 ls ld lg HA Ha Ha' P E E'.
  destruct (alignable_eq _ _ _ _ _ Ha) as (Hg & R & EE). destruct (alignable_eq _ _ _ _ _ Ha') as (Hg' & R' & EE').
  rewrite E in EE. rewrite E' in EE'. injection EE as ->. injection EE' as ->.
  destruct Ha as (_ & _ & Hs & Hd & Hq & HJ). destruct Ha' as (_ & _ & Hs' & Hd' & Hq' & HJ').
  set (M := rotR (LX r ls) (LY r ls) (LZ r ls)) in *.
  set (M' := rotR (LX r (map (rotate A) ls)) (LY r (map (rotate A) ls)) (LZ r (map (rotate A) ls))) in *.
  pose proof (rot_gal_ok (matX M) g Hg) as Hh. pose proof (rot_gal_ok (matX M') g' Hg') as Hh'.
  rewrite !(jcirc_run RX_rounded) by assumption. simpl in P. injection P as P1 P2 P3.
  destruct Hh as (G1 & G2 & G3 & _). destruct Hh' as (G1' & G2' & G3' & _).
  assert (Q : forall q, lx (rotate M' (rotate A q)) * lx (rotate M' (rotate A q)) + ly (rotate M' (rotate A q)) * ly (rotate M' (rotate A q)) =
      lx (rotate M q) * lx (rotate M q) + ly (rotate M q) * ly (rotate M q) /\
     lz (rotate M' (rotate A q)) = lz (rotate M q) /\ kinr (rotate M' (rotate A q)) = kinr (rotate M q)).
  { intros q. assert (Z : lz (rotate M' (rotate A q)) = lz (rotate M q)).
    { unfold M, M'. rewrite !aligned_lz by assumption. now rewrite along_orth, norm_orth. }
    split; [|split; [exact Z|]].
    - pose proof (dotL_orth M' (rotate A q) (rotate A q) (rotation_orthogonal _ R')) as D1.
      rewrite (dotL_orth A q q HA), <- (dotL_orth M q q (rotation_orthogonal _ R)) in D1. unfold dotL in D1. rewrite Z in D1. lra.
    - now rewrite !kinr_orth by auto using rotation_orthogonal. }
  assert (K : forall p p' l, pset_ok (rot_set (matX M) p) -> pset_ok (rot_set (matX M') p') -> holds p l -> holds p' (map (rotate A) l) -> p_pot p' = p_pot p ->
     map krow_of (orbits (rot_set (matX M') p')) = map krow_of (orbits (rot_set (matX M) p))).
  { intros p p' l O O' Hl Hl' Ep. apply (krows_same _ _ (rotate M) (fun q => rotate M' (rotate A q)) l); auto.
    - now apply rot_set_holds.
    - rewrite <- map_map. now apply rot_set_holds. }
  unfold all_orbits, star_orbits, sets. simpl. rewrite !map_app.
  rewrite (K _ _ _ G1 G1' Hs Hs' P1), (K _ _ _ G2 G2' Hd Hd' P2), (K _ _ _ G3 G3' Hq Hq' P3). reflexivity.
Qed.

Lemma holds_inj p l l' : holds p l -> holds p l' -> l = l'.
Proof.
  intros (A1 & A2 & A3 & A4 & A5 & A6 & A7) (B1 & B2 & B3 & B4 & B5 & B6 & B7).
  rewrite A1 in B1. rewrite A2 in B2. rewrite A3 in B3. rewrite A4 in B4. rewrite A5 in B5. rewrite A6 in B6. rewrite A7 in B7.
  clear A1 A2 A3 A4 A5 A6 A7. revert l' B1 B2 B3 B4 B5 B6 B7.
  induction l as [|q l IH]; intros [|q' l'] B1 B2 B3 B4 B5 B6 B7; simpl in *; try discriminate; auto.
  injection B1 as C1 B1. injection B2 as C2 B2. injection B3 as C3 B3. injection B4 as C4 B4. injection B5 as C5 B5.
  injection B6 as C6 B6. injection B7 as C7 B7. f_equal; [|auto]. destruct q, q'; simpl in *; congruence.
Qed.
(** Positions relative to those of [o]. *)
Definition minus (o q : particle) : particle :=
  Part (pm q) (px q - px o) (py q - py o) (pz q - pz o) (pvx q) (pvy q) (pvz q).
Lemma shift_holds o p l : holds p l -> holds (shift (N:=RX) (XR (px o)) (XR (py o)) (XR (pz o)) p) (map (minus o) l).
Proof.
  intros (Hm & X & Y & Z & VX & VY & VZ). unfold holds, shift, pset_of; simpl. rewrite Hm, X, Y, Z, VX, VY, VZ, !map_map. repeat split.
Qed.
Lemma center_holds (g g1 : galaxy RX) ls ld lg : gal_ok g -> holds (g_stars g) ls -> holds (g_dm g) ld -> holds (g_gas g) lg ->
  center g = Ok g1 -> g_haspot g = true /\ exists i o, pd_argmin (gpot g) = Ok i /\ nth_error (ls ++ ld ++ lg) i = Some o /\
    g1 = shift_gal (N:=RX) (XR (px o)) (XR (py o)) (XR (pz o)) g.
Proof.
  intros Hg Hs Hd Hq E. destruct (g_haspot g) eqn:Hp; [|unfold center in E; rewrite Hp in E; discriminate]. split; [reflexivity|].
  destruct (glen g) eqn:Hn; [rewrite center_empty in E by auto; discriminate|].
  destruct (center_total g Hg Hp) as (i & x0 & y0 & z0 & Hi & Li & X & Y & Z & C); [lia|].
  rewrite C in E. injection E as <-.
  assert (EX : forall f, (forall l, map (fun q => XR (f q)) (ls ++ ld ++ lg) = l -> forall v, nth_error l i = Some v ->
     exists o, nth_error (ls ++ ld ++ lg) i = Some o /\ v = XR (f o))).
  { intros f l <- v Hv. rewrite nth_error_map in Hv. destruct (nth_error (ls ++ ld ++ lg) i) as [o|]; [|discriminate].
    injection Hv as <-. eauto. }
  destruct Hs as (_ & X1 & Y1 & Z1 & _), Hd as (_ & X2 & Y2 & Z2 & _), Hq as (_ & X3 & Y3 & Z3 & _).
  unfold gx in X. unfold gy in Y. unfold gz in Z. rewrite X1, X2, X3 in X. rewrite Y1, Y2, Y3 in Y. rewrite Z1, Z2, Z3 in Z.
  rewrite <- !map_app in X, Y, Z.
  destruct (EX px _ eq_refl _ X) as (o & Eo & ->). destruct (EX py _ eq_refl _ Y) as (o' & Eo' & ->). destruct (EX pz _ eq_refl _ Z) as (o'' & Eo'' & ->).
  assert (o' = o) as -> by congruence. assert (o'' = o) as -> by congruence. exists i, o. auto.
Qed.
Lemma minus_rigid A a b c o q : minus (rigid A a b c o) (rigid A a b c q) = rotate A (minus o q).
Proof. unfold minus, rigid, rotate; simpl. f_equal; ring. Qed.

(** C76: centring, aligning and decomposing by circularities gives the same result, state of the generator
    included, whatever the axes (a left-handed system included) and the origin the galaxy was given in. *)
Lemma c76_frame : forall argsort St (D : decomposer RX St) st A a b c r (g g' g1 g1' : galaxy RX) ls ld lg ls' ld' lg',
  orthogonal A -> constructible g -> constructible g' -> seen_from A a b c g g' ->
  (forall a, In a (d_attributes D) -> circ_attr a) ->
  center g = Ok g1 -> center g' = Ok g1' -> alignable g1 r ls ld lg -> alignable g1' r ls' ld' lg' ->
  exists h h', star_align g1 r = Ok h /\ star_align g1' r = Ok h' /\ decompose argsort D st h' = decompose argsort D st h.
Proof.
  intros argsort St D st A a b c r g g' g1 g1' ls ld lg ls' ld' lg' HA Hg Hg' (P & qs & qd & qg & Hs & Hd & Hq & Hs' & Hd' & Hq') Ha E E' A1 A1'.
  pose proof (proj1 (constructible_ok _) Hg) as G. pose proof (proj1 (constructible_ok _) Hg') as G'.
  destruct (center_holds g g1 qs qd qg G Hs Hd Hq E) as (Hp & i & o & Ei & Eo & ->).
  destruct (center_holds g' g1' _ _ _ G' Hs' Hd' Hq' E') as (Hp' & i' & o' & Ei' & Eo' & ->).
  assert (Eg : gpot g' = gpot g).
  { rewrite !sets_len by auto. unfold all_pots. unfold sets in *. simpl in P |- *. injection P as -> -> ->. reflexivity. }
  rewrite Eg, Ei in Ei'. injection Ei' as <-. rewrite <- !map_app, nth_error_map, Eo in Eo'. injection Eo' as <-.
  pose proof A1 as (_ & _ & B1 & B2 & B3 & _). pose proof A1' as (_ & _ & B1' & B2' & B3' & _).
  simpl in B1, B2, B3, B1', B2', B3'.
  assert (F : forall p l l' q, holds p q -> holds (shift (N:=RX) (XR (px o)) (XR (py o)) (XR (pz o)) p) l -> forall p', holds p' (map (rigid A a b c) q) ->
     holds (shift (N:=RX) (XR (px (rigid A a b c o))) (XR (py (rigid A a b c o))) (XR (pz (rigid A a b c o))) p') l' -> l' = map (rotate A) l).
  { intros p l l' q H1 H2 p' H3 H4. rewrite (holds_inj _ _ _ H2 (shift_holds o p q H1)), (holds_inj _ _ _ H4 (shift_holds _ p' _ H3)).
    rewrite !map_map. apply map_ext. intros x. apply minus_rigid. }
  pose proof (F _ _ _ _ Hs B1 _ Hs' B1') as ->. pose proof (F _ _ _ _ Hd B2 _ Hd' B2') as ->. pose proof (F _ _ _ _ Hq B3 _ Hq' B3') as ->.
  destruct (alignable_eq _ _ _ _ _ A1) as (_ & _ & S). destruct (alignable_eq _ _ _ _ _ A1') as (_ & _ & S').
  do 2 eexists. split; [exact S|]. split; [exact S'|]. apply c75_factor; [exact Ha| |].
  - unfold sets. simpl. unfold plen. simpl. destruct Hs as (-> & _), Hd as (-> & _), Hq as (-> & _), Hs' as (-> & _), Hd' as (-> & _), Hq' as (-> & _).
    now rewrite !map_length.
  - eapply c76_align; [exact HA|exact A1|exact A1'| |exact S|exact S']. unfold sets in *. simpl in *. exact P.
Qed.

Lemma same_holds (p q : pset RX) l : same_but_potential p q -> holds p l -> holds q l.
Proof.
  unfold same_but_potential, holds. intros (_ & A1 & A2 & A3 & A4 & A5 & A6 & A7 & _).
  now rewrite A1, A2, A3, A4, A5, A6, A7.
Qed.
(** The potential in other axes (C62 for orthogonal matrices). *)
Lemma orthogonal_norm A x y z : orthogonal A ->
  (m11 A * x + m12 A * y + m13 A * z) * (m11 A * x + m12 A * y + m13 A * z) + (m21 A * x + m22 A * y + m23 A * z) * (m21 A * x + m22 A * y + m23 A * z) +
  (m31 A * x + m32 A * y + m33 A * z) * (m31 A * x + m32 A * y + m33 A * z) = x * x + y * y + z * z.
Proof.
  intros (H1 & H2 & H3 & H4 & H5 & H6).
  transitivity ((m11 A * m11 A + m21 A * m21 A + m31 A * m31 A) * (x * x) + (m12 A * m12 A + m22 A * m22 A + m32 A * m32 A) * (y * y) + (m13 A * m13 A + m23 A * m23 A + m33 A * m33 A) * (z * z) +
    2 * (m11 A * m12 A + m21 A * m22 A + m31 A * m32 A) * (x * y) + 2 * (m11 A * m13 A + m21 A * m23 A + m31 A * m33 A) * (x * z) + 2 * (m12 A * m13 A + m22 A * m23 A + m32 A * m33 A) * (y * z)); [ring|].
  rewrite H1, H2, H3, H4, H5, H6. ring.
Qed.
Lemma other_axes : forall G junk junk' (g g' : galaxy RX) l s A a b c, bare g l -> orthogonal A -> bare g' (map (rigid A a b c) l) ->
  largest_softening g (XR s) -> largest_softening g' (XR s) -> apart s l ->
  exists h h', exact_potential G junk "fortran" g = Ok h /\ exact_potential G junk' "fortran" g' = Ok h' /\ all_pots h' = all_pots h.
Proof.
  intros G junk junk' g g' l s A a b c Hb HA Hb' So So' Ap.
  assert (Hd : forall p q, sdist s (rigid A a b c p) (rigid A a b c q) = sdist s p q).
  { intros p q. unfold sdist. f_equal. f_equal.
    rewrite <- (orthogonal_norm A (px p - px q) (py p - py q) (pz p - pz q) HA). unfold rigid, rotate; simpl. ring. }
  destruct (bare_value G junk g l s Hb So Ap) as (h & Hh & E).
  destruct (bare_value G junk' g' _ s Hb' So' (apart_map s l _ Hd Ap)) as (h' & Hh' & E').
  exists h, h'. split; [exact Hh|]. split; [exact Hh'|]. rewrite E, E', map_length.
  rewrite <- (map_id (seq 0 (length l))) at 1. rewrite map2_map. apply map2_ext. intros i p. f_equal. f_equal. f_equal.
  rewrite others_map. rewrite (phi_map s p _ (rigid A a b c) 1); [ring| |]; auto. intros q. unfold rigid; simpl. ring.
Qed.

(** C76: nor does it matter when the potential is computed by the library: it is the same in both frames. *)
Lemma c76_potential : forall G junk junk' A a b c s (g g' : galaxy RX) ls ld lg,
  orthogonal A -> constructible g -> constructible g' -> g_haspot g = false -> g_haspot g' = false ->
  holds (g_stars g) ls -> holds (g_dm g) ld -> holds (g_gas g) lg ->
  holds (g_stars g') (map (rigid A a b c) ls) -> holds (g_dm g') (map (rigid A a b c) ld) -> holds (g_gas g') (map (rigid A a b c) lg) ->
  largest_softening g (XR s) -> largest_softening g' (XR s) -> apart s (ls ++ ld ++ lg) ->
  exists k k', exact_potential G junk "fortran" g = Ok k /\ exact_potential G junk' "fortran" g' = Ok k' /\
    constructible k /\ constructible k' /\ seen_from A a b c k k'.
Proof.
  intros G junk junk' A a b c s g g' ls ld lg HA Hg Hg' Hp Hp' Hs Hd Hq Hs' Hd' Hq' So So' Ap.
  destruct (other_axes G junk junk' g g' (ls ++ ld ++ lg) s A a b c) as (k & k' & K1 & K2 & K3); auto.
  { split; [exact Hg|]. split; [exact Hp|]. exists ls, ld, lg. auto. }
  { split; [exact Hg'|]. split; [exact Hp'|]. rewrite !map_app. do 3 eexists. eauto. }
  exists k, k'. split; [exact K1|]. split; [exact K2|].
  destruct (potential_returns RX RX RX_rounded idx idx (XR G) true junk "fortran" g k Hg K1) as (Q1 & _ & Q3 & Q4).
  destruct (potential_returns RX RX RX_rounded idx idx (XR G) true junk' "fortran" g' k' Hg' K2) as (R1 & _ & R3 & R4).
  split; [exact Q1|]. split; [exact R1|]. rewrite Forall2_sets in Q4, R4. destruct Q4 as (A1 & A2 & A3), R4 as (B1 & B2 & B3).
  pose proof (same_holds _ _ _ A1 Hs) as S1. pose proof (same_holds _ _ _ A2 Hd) as S2. pose proof (same_holds _ _ _ A3 Hq) as S3.
  pose proof (same_holds _ _ _ B1 Hs') as T1. pose proof (same_holds _ _ _ B2 Hd') as T2. pose proof (same_holds _ _ _ B3 Hq') as T3.
  split; [|exists ls, ld, lg; auto 10].
  apply constructible_ok, gal_ok_facts in Q1 as [q1 q2 q3 q4 q5 q6 q7 q8 q9].
  apply constructible_ok, gal_ok_facts in R1 as [r1 r2 r3 r4 r5 r6 r7 r8 r9]. rewrite Q3 in *. rewrite R3 in *.
  assert (LP : forall (p : pset RX) l, pset_ok p -> p_haspot p = true -> holds p l -> exists t, p_pot p = Some t /\ length t = length l).
  { intros p l Hk Hh (Hm & _). apply pset_ok_iff in Hk as ((_ & _ & _ & _ & _ & _ & L) & Ek). rewrite Ek in Hh. simpl in Hh.
    destruct (p_pot p) as [t|]; [|discriminate]. exists t. split; [reflexivity|]. rewrite (L t eq_refl), Hm. apply map_length. }
  destruct (LP _ _ q1 q7 S1) as (a1 & P1 & L1). destruct (LP _ _ q2 q8 S2) as (a2 & P2 & L2). destruct (LP _ _ q3 q9 S3) as (a3 & P3 & L3).
  destruct (LP _ _ r1 r7 T1) as (b1 & P1' & L1'). destruct (LP _ _ r2 r8 T2) as (b2 & P2' & L2'). destruct (LP _ _ r3 r9 T3) as (b3 & P3' & L3').
  rewrite map_length in L1', L2', L3'.
  unfold all_pots, sets in K3 |- *. cbn [flat_map map] in K3 |- *. rewrite P1, P2, P3, P1', P2', P3' in *. rewrite !app_nil_r in K3.
  apply app_split in K3 as (-> & K3); [|congruence]. apply app_split in K3 as (-> & ->); [|congruence]. reflexivity.
Qed.

(** Two stars, the first at the bottom of the potential. *)
Lemma two_centred q1 q2 : let g := galRP [(q1, -9); (q2, -3)] in
  center g = Ok (shift_gal (N:=RX) (XR (px q1)) (XR (py q1)) (XR (pz q1)) g).
Proof.
  intros g. assert (Hg : gal_ok g) by (apply constructible_ok, galRP_ok).
  destruct (center_total g Hg eq_refl) as (i & x0 & y0 & z0 & Hi & Li & X & Y & Z & C); [unfold g, glen; simpl; lia|].
  assert (i = 0)%nat as ->.
  { destruct (pd_argmin_spec RX_rounded _ _ Hi) as (b & Eb & Mn & _). rewrite sets_len in Eb, Mn by auto. simpl in Eb, Mn.
    destruct i as [|[|i]]; [reflexivity| |destruct i; discriminate]. simpl in Eb. injection Eb as <-.
    specialize (Mn (XR (-9)) (or_introl eq_refl)). apply (nlt_false RX_rounded) in Mn. exfalso. apply Mn. simpl. lra. }
  simpl in X, Y, Z. injection X as <-. injection Y as <-. injection Z as <-. exact C.
Qed.
(** Axes y and z exchanged: a left-handed system. *)
Definition swap : matR := MatR 1 0 0 0 0 1 0 1 0.

Example ex_c76 : let g := galRP [(Part 1 5 5 5 0 0 0, -9); (Part 1 6 5 5 0 1 2, -3)] in
  let g' := galRP [(Part 1 6 5 5 0 0 0, -9); (Part 1 7 5 5 0 2 1, -3)] in
  orthogonal swap /\ ~ rotation swap /\ constructible g /\ constructible g' /\ seen_from swap 1 0 0 g g' /\
  exists g1 g1' ls ls', center g = Ok g1 /\ center g' = Ok g1' /\ alignable g1 None ls [] [] /\ alignable g1' None ls' [] [].
Proof.
  intros g g'. split; [unfold orthogonal, swap; simpl; repeat split; lra|].
  split; [unfold rotation, swap; simpl; intros (_ & _ & _ & _ & _ & _ & _ & _ & _ & _ & _ & _ & H); lra|].
  split; [apply galRP_ok|]. split; [apply galRP_ok|]. split.
  { split; [reflexivity|]. exists [Part 1 5 5 5 0 0 0; Part 1 6 5 5 0 1 2], [], [].
    split; [repeat split|]. split; [repeat split|]. split; [repeat split|].
    split; [unfold holds, rigid, rotate, swap; simpl; repeat split; repeat f_equal; lra|]. split; repeat split. }
  exists (shift_gal (N:=RX) (XR 5) (XR 5) (XR 5) g), (shift_gal (N:=RX) (XR 6) (XR 5) (XR 5) g').
  exists (map (minus (Part 1 5 5 5 0 0 0)) [Part 1 5 5 5 0 0 0; Part 1 6 5 5 0 1 2]), (map (minus (Part 1 6 5 5 0 0 0)) [Part 1 6 5 5 0 0 0; Part 1 7 5 5 0 2 1]).
  split; [exact (two_centred (Part 1 5 5 5 0 0 0) (Part 1 6 5 5 0 1 2))|].
  split; [exact (two_centred (Part 1 6 5 5 0 0 0) (Part 1 7 5 5 0 2 1))|].
  split; (split; [apply constructible_ok, (shift_gal_ok (N:=RX)), constructible_ok, galRP_ok|]); (split; [discriminate|]).
  - split; [apply (shift_holds (Part 1 5 5 5 0 0 0)); repeat split|]. split; [repeat split|]. split; [repeat split|].
    right. unfold LY, ly; simpl. lra.
  - split; [apply (shift_holds (Part 1 6 5 5 0 0 0)); repeat split|]. split; [repeat split|]. split; [repeat split|].
    right. unfold LY, ly; simpl. lra.
Qed.

(** Three particles and their image in turned axes. *)
Definition turned_axes : matR := MatR 0 0 1 1 0 0 0 1 0.
Example ex_c76_potential : let ls := exA_stars in let ld := [Part 1 1 2 3 4 5 6] in
  let g := galR ls ld [] in let g' := galR (map (rigid turned_axes 7 8 9) ls) (map (rigid turned_axes 7 8 9) ld) [] in
  orthogonal turned_axes /\ constructible g /\ constructible g' /\ g_haspot g = false /\ g_haspot g' = false /\
  holds (g_stars g) ls /\ holds (g_dm g) ld /\ holds (g_gas g) [] /\
  holds (g_stars g') (map (rigid turned_axes 7 8 9) ls) /\ holds (g_dm g') (map (rigid turned_axes 7 8 9) ld) /\
  holds (g_gas g') (map (rigid turned_axes 7 8 9) []) /\
  largest_softening g (XR 0) /\ largest_softening g' (XR 0) /\ apart 0 (ls ++ ld ++ []).
Proof.
  intros ls ld g g'. split; [unfold orthogonal, turned_axes; simpl; repeat split; lra|].
  split; [apply galR_ok|]. split; [apply galR_ok|]. split; [reflexivity|]. split; [reflexivity|].
  do 6 (split; [apply psetR_holds|]). split; [apply galR_soft; discriminate|]. split; [apply galR_soft; discriminate|].
  intros i j p q Hij Hp Hq. destruct i as [|[|[|i]]], j as [|[|[|j]]]; simpl in Hp, Hq;
    try congruence; try (destruct i; discriminate); try (destruct j; discriminate);
    injection Hp as <-; injection Hq as <-; apply sdist_pos; simpl; lra.
Qed.

(** Particles given by integers: position, velocity, potential. *)
Definition gridP (t : ptype) (l : list (Z * Z * Z * Z * Z * Z * Z)) : res (pset F64) :=
  let c f := map (fun p => fZ (f p)) l in
  mk_pset t (map (fun _ => fZ 1) l) (c (fun '(x, _, _, _, _, _, _) => x)) (c (fun '(_, y, _, _, _, _, _) => y))
    (c (fun '(_, _, z, _, _, _, _) => z)) (c (fun '(_, _, _, u, _, _, _) => u)) (c (fun '(_, _, _, _, v, _, _) => v))
    (c (fun '(_, _, _, _, _, s, _) => s)) (Some (c (fun '(_, _, _, _, _, _, e) => e))) (fZ 0).
Definition gridG : res (galaxy F64) :=
  do s <- gridP STARS [(1,1,1,0,1,0,-42); (3,1,1,0,3,1,-43); (1,4,1,-2,0,1,-41); (-4,1,2,0,-2,0,-40); (1,-5,1,-1,0,0,-39)]%Z;
  do d <- gridP DARK_MATTER [(7,1,1,0,2,0,-39); (1,9,1,-1,0,1,-37); (2,2,1,-1,1,1,-45); (5,5,1,-1,2,1,-36)]%Z;
  do q <- gridP GAS []; mk_galaxy s d q.
Lemma gridG_ok g : gridG = Ok g -> constructible g.
Proof.
  unfold gridG, gridP. intros H.
  destruct (mk_pset STARS _ _ _ _ _ _ _ _ _) as [s|] eqn:E1; [|discriminate]. cbn [bind] in H.
  destruct (mk_pset DARK_MATTER _ _ _ _ _ _ _ _ _) as [d|] eqn:E2; [|discriminate]. cbn [bind] in H.
  destruct (mk_pset GAS _ _ _ _ _ _ _ _ _) as [q|] eqn:E3; [|discriminate]. cbn [bind] in H.
  exists s, d, q. split; [|split; [|split; [|exact H]]]; do 10 eexists; eassumption.
Qed.
(** The same particles, all faster by 1 along y. *)
Definition driftP (p : pset F64) : res (pset F64) :=
  mk_pset (p_type p) (p_m p) (p_x p) (p_y p) (p_z p) (p_vx p) (map (nadd (nofZ 1)) (p_vy p)) (p_vz p) (p_pot p) (p_soft p).
Definition driftG (g : galaxy F64) : res (galaxy F64) :=
  do s <- driftP (g_stars g); do d <- driftP (g_dm g); do q <- driftP (g_gas g); mk_galaxy s d q.
Lemma driftG_ok g g' : driftG g = Ok g' -> constructible g' /\
  Forall2 (fun p q : pset F64 => p_m q = p_m p /\ p_x q = p_x p /\ p_y q = p_y p /\ p_z q = p_z p /\ p_vx q = p_vx p /\
     p_vy q = map (nadd (nofZ 1)) (p_vy p) /\ p_vz q = p_vz p /\ p_pot q = p_pot p) (sets g) (sets g').
Proof.
  unfold driftG. intros H. destruct (driftP (g_stars g)) as [s|] eqn:E1; [|discriminate]. cbn [bind] in H.
  destruct (driftP (g_dm g)) as [d|] eqn:E2; [|discriminate]. cbn [bind] in H.
  destruct (driftP (g_gas g)) as [q|] eqn:E3; [|discriminate]. cbn [bind] in H. unfold driftP in E1, E2, E3.
  split.
  - exists s, d, q. split; [|split; [|split; [|exact H]]]; do 10 eexists; eassumption.
  - apply mk_pset_lens in E1 as [_ ->], E2 as [_ ->], E3 as [_ ->]. unfold sets.
    revert H. unfold mk_galaxy. destruct (_ && _)%bool; [discriminate|]. destruct (negb _); [discriminate|].
    destruct (negb _); [discriminate|]. destruct (negb _); [discriminate|]. intros [= <-]. cbn [g_stars g_dm g_gas].
    unfold pset_of. cbn [p_m p_x p_y p_z p_vx p_vy p_vz p_pot]. repeat (constructor; [repeat split|]). constructor.
Qed.
(** C76: it does depend on the motion of the frame: [center] moves the origin of the positions only, so that a galaxy
    whose particles all move faster by (0, 1, 0) is decomposed differently. *)
Lemma c76_motion_refuted : exists (g g' g1 g1' h h' : galaxy F64) c c', constructible g /\ constructible g' /\
  Forall2 (fun p q : pset F64 => p_m q = p_m p /\ p_x q = p_x p /\ p_y q = p_y p /\ p_z q = p_z p /\ p_vx q = p_vx p /\
     p_vy q = map (nadd (nofZ 1)) (p_vy p) /\ p_vz q = p_vz p /\ p_pot q = p_pot p) (sets g) (sets g') /\
  center g = Ok g1 /\ center g' = Ok g1' /\ star_align g1 None = Ok h /\ star_align g1' None = Ok h' /\
  decompose asort thr tt h = Ok (c, tt) /\ decompose asort thr tt h' = Ok (c', tt) /\
  option_map fshow (nth_error (c_labels c) 2) = Some (sZ 1) /\ option_map fshow (nth_error (c_labels c') 2) = Some (sZ 0).
Proof.
  assert (Y : match gridG with Ok g => match driftG g with Ok g' => match center g, center g' with Ok g1, Ok g1' =>
      match star_align g1 None, star_align g1' None with Ok h, Ok h' =>
      match decompose asort thr tt h, decompose asort thr tt h' with Ok (c, _), Ok (c', _) =>
        option_map fshow (nth_error (c_labels c) 2) = Some (sZ 1) /\ option_map fshow (nth_error (c_labels c') 2) = Some (sZ 0)
      | _, _ => False end | _, _ => False end | _, _ => False end | _ => False end | _ => False end) by (vm_compute; split; reflexivity).
  destruct gridG as [g|] eqn:E; [|contradiction]. destruct (driftG g) as [g'|] eqn:E'; [|contradiction].
  destruct (center g) as [g1|] eqn:C; [|contradiction]. destruct (center g') as [g1'|] eqn:C'; [|contradiction].
  destruct (star_align g1 None) as [h|] eqn:S; [|contradiction]. destruct (star_align g1' None) as [h'|] eqn:S'; [|contradiction].
  destruct (decompose asort thr tt h) as [[c []]|] eqn:D; [|contradiction].
  destruct (decompose asort thr tt h') as [[c' []]|] eqn:D'; [|contradiction]. destruct Y as [Y1 Y2].
  destruct (driftG_ok _ _ E') as [K F].
  exists g, g', g1, g1', h, h', c, c'. split; [eapply gridG_ok; exact E|]. auto 20.
Qed.
