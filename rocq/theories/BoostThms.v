(** What a uniform velocity added to all particles does to the analysis (C102). *)
From Verif Require Import Py Num RX F64 Np Df Data DataFacts DfFacts RebuildFacts Center CenterFacts Align Spec SpecR SpecCirc SpecPot SpecPipe SpecBase SpecFrame SpecBoost Ex DataThms CenterThms AlignFacts AlignThms Circ CircFacts CurveFacts CircThms Base BaseFacts BaseThms Threshold EpsFacts ThresholdThms OrderThms SymFacts SymThms InvThms Potential PotThms PipeThms FrameThms.
From Coq Require Import Lra Lia.
Local Open Scope R_scope.

Lemma moving_haspot a b c g g' : gal_ok g -> gal_ok g' -> moving a b c g g' -> g_haspot g' = g_haspot g.
Proof.
  intros H H' (P & _). apply gal_ok_facts in H as [h1 h2 h3 h4 h5 h6 h7 h8 h9]. apply gal_ok_facts in H' as [k1 k2 k3 k4 k5 k6 k7 k8 k9].
  rewrite <- h7, <- k7. apply pset_ok_iff in h1 as (_ & E). apply pset_ok_iff in k1 as (_ & E'). rewrite E, E'. simpl.
  unfold sets in P. simpl in P. injection P as -> _ _. reflexivity.
Qed.
Lemma holds_len p l : holds p l -> plen p = length l.
Proof. intros (M & _). unfold plen. rewrite M. apply map_length. Qed.
Lemma moving_glen a b c g g' : moving a b c g g' -> glen g' = glen g.
Proof.
  intros (_ & ls & ld & lg & H1 & H2 & H3 & K1 & K2 & K3). unfold glen.
  now rewrite (holds_len _ _ H1), (holds_len _ _ H2), (holds_len _ _ H3), (holds_len _ _ K1), (holds_len _ _ K2), (holds_len _ _ K3), !map_length.
Qed.
Lemma minus_boosted a b c o q : minus (boosted a b c o) (boosted a b c q) = boosted a b c (minus o q).
Proof. reflexivity. Qed.

Lemma boost_columns (p p' : pset RX) l a b c : pset_ok p -> pset_ok p' -> holds p l -> holds p' (map (boosted a b c) l) ->
  p_ke p = map (fun q => XR (kinr q)) l /\
  p_ke p' = map (fun q => XR (kinr q + (pvx q * a + pvy q * b + pvz q * c) + (a * a + b * b + c * c) / 2)) l /\
  p_Jx p' = map (fun q => XR (lx q + (py q * c - pz q * b))) l /\
  p_Jy p' = map (fun q => XR (ly q + (pz q * a - px q * c))) l /\
  p_Jz p' = map (fun q => XR (lz q + (px q * b - py q * a))) l.
Proof.
  intros Hp Hp' H H'. destruct (holds_J p l Hp H) as (_ & _ & _ & K). destruct (holds_J p' _ Hp' H') as (A & B & C & D).
  rewrite A, B, C, D, !map_map. split; [exact K|].
  repeat split; apply map_ext; intros q; f_equal; unfold lx, ly, lz, kinr, boosted; simpl; field.
Qed.
(** C102: the kinetic energy of a particle grows by the product of its velocity with the added one and half the square of the
    latter, its angular momentum by the product of its position with the added velocity. *)
Lemma c102_columns : forall a b c (g g' : galaxy RX), constructible g -> constructible g' -> moving a b c g g' ->
  Forall2 (fun p p' : pset RX => exists l, holds p l /\
    p_ke p = map (fun q => XR (kinr q)) l /\
    p_ke p' = map (fun q => XR (kinr q + (pvx q * a + pvy q * b + pvz q * c) + (a * a + b * b + c * c) / 2)) l /\
    p_Jx p' = map (fun q => XR (lx q + (py q * c - pz q * b))) l /\
    p_Jy p' = map (fun q => XR (ly q + (pz q * a - px q * c))) l /\
    p_Jz p' = map (fun q => XR (lz q + (px q * b - py q * a))) l) (sets g) (sets g').
Proof.
  intros a b c g g' Hg Hg' (_ & ls & ld & lg & H1 & H2 & H3 & K1 & K2 & K3). apply constructible_ok, gal_ok_facts in Hg as [a1 a2 a3 _ _ _ _ _ _].
  apply constructible_ok, gal_ok_facts in Hg' as [b1 b2 b3 _ _ _ _ _ _].
  apply Forall2_cons; [|apply Forall2_cons; [|apply Forall2_cons; [|apply Forall2_nil]]].
  - exists ls. split; [exact H1|]. now apply boost_columns.
  - exists ld. split; [exact H2|]. now apply boost_columns.
  - exists lg. split; [exact H3|]. now apply boost_columns.
Qed.

(** C102: centring goes through unchanged: the same error, or the centred galaxies differ by the same velocity. *)
Lemma c102_center : forall a b c (g g' : galaxy RX), constructible g -> constructible g' -> moving a b c g g' ->
  (forall e, center g = Raise e -> center g' = Raise e) /\
  (forall g1, center g = Ok g1 -> exists g1', center g' = Ok g1' /\ constructible g1' /\ moving a b c g1 g1').
Proof.
  intros a b c g g' Hg Hg' M. apply constructible_ok in Hg, Hg'.
  pose proof (moving_haspot _ _ _ _ _ Hg Hg' M) as HP. pose proof (moving_glen _ _ _ _ _ M) as HL.
  destruct M as (P & ls & ld & lg & H1 & H2 & H3 & K1 & K2 & K3).
  destruct (g_haspot g) eqn:Hp.
  2:{ assert (center g = Raise ValueError) by (unfold center; now rewrite Hp).
      assert (center g' = Raise ValueError) by (unfold center; now rewrite HP). split; intros; congruence. }
  destruct (glen g) eqn:Hn.
  { pose proof (center_empty g Hg Hp Hn) as E1. pose proof (center_empty g' Hg' HP HL) as E2.
    split; intros; congruence. }
  destruct (center_total g Hg Hp) as (i & x0 & y0 & z0 & _ & _ & _ & _ & _ & C); [lia|].
  destruct (center_total g' Hg' HP) as (i' & x0' & y0' & z0' & _ & _ & _ & _ & _ & C'); [lia|].
  split; [intros e E; congruence|]. intros g1 E. exists (shift_gal x0' y0' z0' g'). split; [exact C'|].
  split; [now apply constructible_ok, (shift_gal_ok (N:=RX))|].
  destruct (center_holds g g1 ls ld lg Hg H1 H2 H3 E) as (_ & j & o & Ej & Eo & ->).
  destruct (center_holds g' _ _ _ _ Hg' K1 K2 K3 C') as (_ & j' & o' & Ej' & Eo' & ->).
  assert (Eg : gpot g' = gpot g).
  { rewrite !sets_len by auto. unfold all_pots. unfold sets in *. simpl in P |- *. injection P as -> -> ->. reflexivity. }
  rewrite Eg, Ej in Ej'. injection Ej' as <-. rewrite <- !map_app, nth_error_map, Eo in Eo'. injection Eo' as <-.
  split; [unfold sets in *; simpl in *; exact P|].
  exists (map (minus o) ls), (map (minus o) ld), (map (minus o) lg). simpl.
  pose proof (shift_holds o _ _ H1). pose proof (shift_holds o _ _ H2). pose proof (shift_holds o _ _ H3).
  pose proof (shift_holds (boosted a b c o) _ _ K1) as Q1. pose proof (shift_holds (boosted a b c o) _ _ K2) as Q2. pose proof (shift_holds (boosted a b c o) _ _ K3) as Q3.
  rewrite map_map in Q1, Q2, Q3. rewrite !map_map. auto 8.
Qed.

Lemma filter_boosted r a b c l : filter (inside r) (map (boosted a b c) l) = map (boosted a b c) (filter (inside r) l).
Proof. induction l as [|q l IH]; simpl; [reflexivity|]. change (inside r (boosted a b c q)) with (inside r q). destruct (inside r q); simpl; congruence. Qed.
Lemma L_boosted r a b c l : balanced r l ->
  LX r (map (boosted a b c) l) = LX r l /\ LY r (map (boosted a b c) l) = LY r l /\ LZ r (map (boosted a b c) l) = LZ r l.
Proof.
  intros (B1 & B2 & B3). unfold LX, LY, LZ. rewrite filter_boosted. revert B1 B2 B3. generalize (filter (inside r) l). intros k.
  assert (S : forall f u v h h', (forall q, f (boosted a b c q) = f q + (pm q * h q) * u + (pm q * h' q) * v) ->
    sumR f (map (boosted a b c) k) = sumR f k + sumR (fun q => pm q * h q) k * u + sumR (fun q => pm q * h' q) k * v).
  { intros f u v h h' Hf. clear - Hf. induction k as [|q k IH]; simpl; [ring|]. rewrite IH, Hf. ring. }
  intros B1 B2 B3. split; [|split].
  - rewrite (S _ c (-b) py pz) by (intros q; unfold lx, boosted; simpl; ring). rewrite B2, B3. ring.
  - rewrite (S _ a (-c) pz px) by (intros q; unfold ly, boosted; simpl; ring). rewrite B1, B3. ring.
  - rewrite (S _ b (-a) px py) by (intros q; unfold lz, boosted; simpl; ring). rewrite B1, B2. ring.
Qed.
Lemma rotate_boosted M a b c q : rotate M (boosted a b c q) =
  boosted (m11 M * a + m12 M * b + m13 M * c) (m21 M * a + m22 M * b + m23 M * c) (m31 M * a + m32 M * b + m33 M * c) (rotate M q).
Proof. unfold rotate, boosted; simpl. f_equal; ring. Qed.

(** C102: if the centre of mass of the stars inside the cut-off is at the origin, both galaxies are turned by the same rotation,
    and the aligned galaxies differ by the turned velocity. *)
Lemma c102_align : forall a b c r (g g' : galaxy RX) ls ld lg, alignable g r ls ld lg -> balanced r ls ->
  constructible g' -> moving a b c g g' ->
  exists M h h', rotation M /\ star_align g r = Ok h /\ star_align g' r = Ok h' /\
    holds (g_stars h) (map (rotate M) ls) /\ holds (g_stars h') (map (rotate M) (map (boosted a b c) ls)) /\
    moving (m11 M * a + m12 M * b + m13 M * c) (m21 M * a + m22 M * b + m23 M * c) (m31 M * a + m32 M * b + m33 M * c) h h'.
Proof.
  intros a b c r g g' ls ld lg A B Hg' (P & qs & qd & qg & H1 & H2 & H3 & K1 & K2 & K3).
  pose proof A as (Hg & Hr & L1 & L2 & L3 & HJ).
  rewrite (holds_inj _ _ _ H1 L1) in *. rewrite (holds_inj _ _ _ H2 L2) in *. rewrite (holds_inj _ _ _ H3 L3) in *.
  destruct (L_boosted r a b c ls B) as (E1 & E2 & E3).
  assert (A' : alignable g' r (map (boosted a b c) ls) (map (boosted a b c) ld) (map (boosted a b c) lg)).
  { repeat (split; [assumption|]). now rewrite E1, E2. }
  destruct (alignable_eq _ _ _ _ _ A) as (_ & R & S). destruct (alignable_eq _ _ _ _ _ A') as (_ & _ & S'). rewrite E1, E2, E3 in S'.
  remember (rotR (LX r ls) (LY r ls) (LZ r ls)) as M eqn:EM. clear EM. exists M, (rot_gal (matX M) g), (rot_gal (matX M) g').
  split; [exact R|]. split; [exact S|]. split; [exact S'|].
  split; [apply rot_set_holds; exact L1|]. split; [apply rot_set_holds; exact K1|].
  split; [unfold sets in *; simpl in *; exact P|].
  exists (map (rotate M) ls), (map (rotate M) ld), (map (rotate M) lg). simpl.
  pose proof (rot_set_holds M _ _ K1) as Q1. pose proof (rot_set_holds M _ _ K2) as Q2. pose proof (rot_set_holds M _ _ K3) as Q3.
  rewrite map_map in Q1, Q2, Q3.
  repeat (split; [apply rot_set_holds; assumption|]). rewrite !map_map.
  rewrite (map_ext _ _ (fun q => eq_sym (rotate_boosted M a b c q))).
  rewrite (map_ext (fun x => boosted _ _ _ (rotate M x)) _ (fun q => eq_sym (rotate_boosted M a b c q)) ld).
  rewrite (map_ext (fun x => boosted _ _ _ (rotate M x)) _ (fun q => eq_sym (rotate_boosted M a b c q)) lg). auto.
Qed.

Lemma boost_kin a b c q : (a * a + b * b + c * c) / 4 - kinr q <= kinr (boosted a b c q).
Proof.
  unfold kinr, boosted; simpl.
  assert (0 <= (2 * pvx q + a) * (2 * pvx q + a)) by apply Rle_0_sqr.
  assert (0 <= (2 * pvy q + b) * (2 * pvy q + b)) by apply Rle_0_sqr.
  assert (0 <= (2 * pvz q + c) * (2 * pvz q + c)) by apply Rle_0_sqr. lra.
Qed.
Lemma unbound_one u q : exists V, forall a b c, V < a * a + b * b + c * c ->
  nle (N:=RX) (nadd (N:=RX) (XR (kinr (boosted a b c q))) u) n0 && negb (neqb (N:=RX) (nadd (N:=RX) (XR (kinr (boosted a b c q))) u) nninf) = false.
Proof.
  destruct u as [u| | |].
  - exists (4 * (kinr q - u)). intros a b c H. pose proof (boost_kin a b c q).
    apply Bool.andb_false_iff. left. destruct (nle _ _) eqn:E; [|reflexivity].
    apply (nle_iff RX_rounded) in E. exfalso. simpl in E. lra.
  - exists 0. intros a b c _. reflexivity.
  - exists 0. intros a b c _. reflexivity.
  - exists 0. intros a b c _. reflexivity.
Qed.
(** Energies bound to be positive (or not ordinary). *)
Definition freeE (e : xr) : Prop := nle (N:=RX) e n0 && negb (neqb (N:=RX) e nninf) = false.
Lemma unbound_set (t : list xr) l : exists V, forall a b c, V < a * a + b * b + c * c ->
  Forall freeE (map2 (fun k u => nadd (N:=RX) k u) (map (fun q => XR (kinr (boosted a b c q))) l) t).
Proof.
  revert t. induction l as [|q l IH]; intros [|u t]; [exists 0; intros; constructor|exists 0; intros; constructor|exists 0; intros; constructor|].
  destruct (unbound_one u q) as (V1 & H1). destruct (IH t) as (V2 & H2). exists (Rmax V1 V2). intros a b c H.
  pose proof (Rmax_l V1 V2). pose proof (Rmax_r V1 V2). cbn [map map2]. constructor; [apply H1; lra|apply H2; lra].
Qed.
Lemma In_map2_l {A B C} (f : A -> B -> C) l k z : In z (map2 f l k) -> exists x y, In x l /\ In y k /\ z = f x y.
Proof.
  revert k. induction l as [|x l IH]; intros [|y k] H; simpl in H; try contradiction.
  destruct H as [<-|H]; [exists x, y; simpl; auto|]. destruct (IH k H) as (x' & y' & A1 & A2 & A3). exists x', y'. simpl. auto.
Qed.
Lemma orbits_energy (p : pset RX) o : In o (orbits p) -> In (o_e o) (energies p).
Proof.
  intros H. apply In_map2_l in H as (x & y & H1 & _ & ->). apply In_map2_l in H1 as (e & j & H1 & _ & ->). exact H1.
Qed.
Lemma unbound_holds (t : option (list xr)) l : exists V, forall a b c (p : pset RX), pset_ok p -> p_pot p = t -> holds p (map (boosted a b c) l) ->
  V < a * a + b * b + c * c -> forall o, In o (orbits p) -> bound o = false.
Proof.
  destruct t as [t|].
  - destruct (unbound_set t l) as (V & HV). exists V. intros a b c p Hp Et Hl H o Ho. apply orbits_energy in Ho.
    unfold energies in Ho. pose proof (proj2 (proj1 (pset_ok_iff p) Hp)) as E.
    assert (TE : p_te p = option_map (map2 (fun k u => nadd (N:=RX) k u) (p_ke p)) (p_pot p)) by (rewrite E; reflexivity).
    rewrite TE, Et in Ho. cbn [option_map] in Ho. destruct (holds_J p _ Hp Hl) as (_ & _ & _ & K). rewrite K, map_map in Ho.
    specialize (HV a b c H). rewrite Forall_forall in HV. exact (HV _ Ho).
  - exists 0. intros a b c p Hp Et Hl H o Ho. apply orbits_energy in Ho. unfold energies in Ho. pose proof (proj2 (proj1 (pset_ok_iff p) Hp)) as E.
    assert (TE : p_te p = option_map (map2 (fun k u => nadd (N:=RX) k u) (p_ke p)) (p_pot p)) by (rewrite E; reflexivity).
    rewrite TE, Et in Ho. cbn [option_map] in Ho. apply repeat_spec in Ho. unfold bound. rewrite Ho. reflexivity.
Qed.

(** C102: the library never takes the motion of the galaxy out, and a fast one makes it useless: for every finite galaxy there is
    a speed beyond which no particle counts as bound, so that computing circularities and every decomposition on them raise
    ValueError. *)
Lemma c102_fast : forall (g : galaxy RX) ls ld lg, constructible g ->
  holds (g_stars g) ls -> holds (g_dm g) ld -> holds (g_gas g) lg ->
  exists V, forall argsort a b c (g' : galaxy RX), constructible g' -> moving a b c g g' -> V < a * a + b * b + c * c ->
    (forall o, In o (all_orbits g') -> bound o = false) /\
    (forall b0 b1, jcirc argsort g' b0 b1 = Raise ValueError) /\
    (forall cb at_, at_ <> [] -> (forall x, In x at_ -> matrix_attr x) -> (exists x, In x at_ /\ circ_attr x) ->
       attributes_matrix argsort cb g' at_ = Raise ValueError).
Proof.
  intros g ls ld lg Hg H1 H2 H3.
  destruct (unbound_holds (p_pot (g_stars g)) ls) as (V1 & W1). destruct (unbound_holds (p_pot (g_dm g)) ld) as (V2 & W2).
  destruct (unbound_holds (p_pot (g_gas g)) lg) as (V3 & W3). exists (Rmax V1 (Rmax V2 V3)).
  intros argsort a b c g' Hg' (P & qs & qd & qg & Q1 & Q2 & Q3 & K1 & K2 & K3) H.
  rewrite (holds_inj _ _ _ Q1 H1) in *. rewrite (holds_inj _ _ _ Q2 H2) in *. rewrite (holds_inj _ _ _ Q3 H3) in *.
  pose proof (Rmax_l V1 (Rmax V2 V3)). pose proof (Rmax_r V1 (Rmax V2 V3)). pose proof (Rmax_l V2 V3). pose proof (Rmax_r V2 V3).
  unfold sets in P. simpl in P. injection P as P1 P2 P3.
  assert (U : forall o, In o (all_orbits g') -> bound o = false).
  { pose proof (proj1 (constructible_ok _) Hg') as Hk. apply gal_ok_facts in Hk as [k1 k2 k3 _ _ _ _ _ _].
    intros o Ho. unfold all_orbits, sets in Ho. cbn [flat_map] in Ho. rewrite app_nil_r in Ho. apply in_app_or in Ho as [Ho|Ho].
    - apply (W1 a b c _ k1 P1 K1); [lra|exact Ho].
    - apply in_app_or in Ho as [Ho|Ho].
      + apply (W2 a b c _ k2 P2 K2); [lra|exact Ho].
      + apply (W3 a b c _ k3 P3 K3); [lra|exact Ho]. }
  split; [exact U|]. assert (J : forall b0 b1, jcirc argsort g' b0 b1 = Raise ValueError).
  { intros b0 b1. now apply (c29_errors RX RX_rounded argsort g' b0 b1 Hg'). }
  split; [exact J|]. intros cb at_ N1 N2 N3. destruct (c37_errors RX RX_rounded argsort cb g' at_ Hg') as (_ & _ & E).
  destruct (E N1 N2) as (_ & F). destruct (F N3) as (F1 & _). apply F1, J.
Qed.

Lemma in_app_or_nil {A} (x : A) l : In x (l ++ [] ++ [] ++ []) -> In x l.
Proof. intros H. apply in_app_or in H as [H|[]]. exact H. Qed.
(** Two stars of equal mass on opposite sides of the origin, bound; moving by (0, 3, 4) they are not. *)
Definition pairR (a b c : R) : galaxy RX := galRP [(boosted a b c (Part 1 1 0 0 0 1 1), -9); (boosted a b c (Part 1 (-1) 0 0 0 (-1) (-1)), -3)].
Example ex_c102 : let ls := [Part 1 1 0 0 0 1 1; Part 1 (-1) 0 0 0 (-1) (-1)] in
  constructible (pairR 0 3 4) /\ moving 0 3 4 (pairR 0 0 0) (pairR 0 3 4) /\
  alignable (pairR 0 0 0) None ls [] [] /\ balanced None ls /\ (exists g1, center (pairR 0 0 0) = Ok g1) /\
  (forall o, In o (all_orbits (pairR 0 0 0)) -> bound o = true) /\ (exists o, In o (all_orbits (pairR 0 3 4)) /\ bound o = false).
Proof.
  intros ls.
  assert (H0 : holds (g_stars (pairR 0 0 0)) ls).
  { unfold holds, pairR, ls, boosted; simpl. repeat split; repeat f_equal; lra. }
  split; [apply galRP_ok|]. split.
  { split; [reflexivity|]. exists ls, [], []. split; [exact H0|]. split; [repeat split|]. split; [repeat split|].
    split; [repeat split|]. split; repeat split. }
  split. { split; [apply galRP_ok|]. split; [discriminate|]. split; [exact H0|]. split; [repeat split|]. split; [repeat split|].
    right. unfold LY, ly, ls; simpl. lra. }
  split. { unfold balanced, ls; simpl. repeat split; lra. }
  split. { exists (shift_gal (N:=RX) (XR 1) (XR 0) (XR 0) (pairR 0 0 0)). exact (two_centred (boosted 0 0 0 (Part 1 1 0 0 0 1 1)) (boosted 0 0 0 (Part 1 (-1) 0 0 0 (-1) (-1)))). }
  assert (EN : forall a b c, energies (g_stars (pairR a b c)) = [XR (kinr (boosted a b c (Part 1 1 0 0 0 1 1)) + -9); XR (kinr (boosted a b c (Part 1 (-1) 0 0 0 (-1) (-1))) + -3)]).
  { intros a b c. unfold energies. pose proof (galRP_ok [(boosted a b c (Part 1 1 0 0 0 1 1), -9); (boosted a b c (Part 1 (-1) 0 0 0 (-1) (-1)), -3)]) as Hk.
    apply constructible_ok, gal_ok_facts in Hk as [k1 _ _ _ _ _ _ _ _].
    destruct (holds_J _ [boosted a b c (Part 1 1 0 0 0 1 1); boosted a b c (Part 1 (-1) 0 0 0 (-1) (-1))] k1) as (_ & _ & _ & K); [repeat split|].
    pose proof (proj2 (proj1 (pset_ok_iff _) k1)) as E.
    assert (TE : p_te (g_stars (pairR a b c)) = option_map (map2 (fun k u => nadd (N:=RX) k u) (p_ke (g_stars (pairR a b c)))) (p_pot (g_stars (pairR a b c)))).
    { unfold pairR. rewrite E. reflexivity. }
    rewrite TE. unfold pairR at 1. rewrite K. reflexivity. }
  split.
  - intros o Ho. assert (In (o_e o) (energies (g_stars (pairR 0 0 0)))) as H by (apply orbits_energy; exact (in_app_or_nil _ _ Ho)).
    rewrite EN in H. unfold bound. apply andb_true_intro.
    destruct H as [<-|[<-|[]]]; (split; [apply (nle_iff RX_rounded); unfold kinr, boosted; simpl; lra|reflexivity]).
  - pose proof (EN 0 3 4) as H. destruct (orbits (g_stars (pairR 0 3 4))) as [|o l] eqn:Eo; [discriminate Eo|].
    exists o. split; [unfold all_orbits, sets; cbn [flat_map]; rewrite Eo; left; reflexivity|].
    assert (In o (orbits (g_stars (pairR 0 3 4)))) as Hi by (rewrite Eo; left; reflexivity). apply orbits_energy in Hi.
    rewrite H in Hi. unfold bound. apply Bool.andb_false_iff. left.
    destruct Hi as [<-|[<-|[]]]; apply (nle_false RX_rounded); unfold kinr, boosted; simpl; lra.
Qed.
