(** Massless particles that are not bound leave no trace in the analysis of the stars (C113). *)
From Coq Require Import Reals Lra Lia Floats.SpecFloat.
From Flocq Require Import Core.Core IEEE754.BinarySingleNaN.
From Verif Require Import Py Num RX F64 Np Df Data DataFacts DfFacts RebuildFacts Center CenterFacts Align AlignFacts Spec SpecR SpecCirc SpecBase SpecSym SpecImage Circ CircFacts CurveFacts CircThms Base BaseFacts BaseThms EpsFacts Ex DataThms CenterThms AlignThms Potential PotFacts Dgemm SpecDgemm DgemmThms PotConcFacts PotThms SpecAgain AgainThms Threshold WholeThms MirFacts AccFacts SpecPot SpecRegroup RegroupThms SpecTracer TracerFacts.

(** *** The columns of all particles *)
Section Cols.
Context {N : Num}.
Definition marks (K : list bool) (g : galaxy N) : list bool := repeat false (plen (g_stars g)) ++ K.
Lemma col_without {A} (f : pset N -> list A) K (g' g : galaxy N) : g_stars g = g_stars g' -> others f g = without K (others f g') ->
  length (f (g_stars g')) = plen (g_stars g') ->
  f (g_stars g) ++ others f g = without (marks K g') (f (g_stars g') ++ others f g').
Proof.
  intros S O L. unfold marks. rewrite without_app by (rewrite repeat_length; auto). rewrite <- L, without_none. now rewrite S, O.
Qed.
Lemma col_only {A} (f : pset N -> list A) K (g' : galaxy N) : length (f (g_stars g')) = plen (g_stars g') ->
  only (marks K g') (f (g_stars g') ++ others f g') = only K (others f g').
Proof. intros L. unfold marks. rewrite only_app by (rewrite repeat_length; auto). now rewrite only_none. Qed.
Lemma marks_length K (g' : galaxy N) : length K = length (others p_m g') -> length (marks K g') = glen g'.
Proof. intros L. unfold marks, glen, plen. rewrite app_length, repeat_length, L. unfold others. rewrite app_length. lia. Qed.
Lemma rm_haspot K (g' g : galaxy N) : gal_ok g' -> gal_ok g -> removed K g' g -> g_haspot g = g_haspot g'.
Proof.
  intros Hg' Hg R. apply gal_ok_facts in Hg as [_ _ _ _ _ _ h1 _ _], Hg' as [_ _ _ _ _ _ h2 _ _]. rewrite <- h1, <- h2. now rewrite (rm_stars _ _ _ R).
Qed.
Lemma rm_gpot K (g' g : galaxy N) : gal_ok g' -> gal_ok g -> removed K g' g -> g_haspot g' = true ->
  gpot g' = pots (g_stars g') ++ others pots g' /\ gpot g = pots (g_stars g) ++ others pots g /\
  length (pots (g_stars g')) = plen (g_stars g') /\ length (others pots g') = length K.
Proof.
  intros Hg' Hg R P. pose proof (rm_haspot _ _ _ Hg' Hg R) as P'. rewrite P in P'.
  assert (Q : forall h : galaxy N, gal_ok h -> g_haspot h = true -> gpot h = pots (g_stars h) ++ others pots h /\
     length (pots (g_stars h)) = plen (g_stars h) /\ length (others pots h) = length (others p_m h)).
  { intros h Hh Ph. pose proof (isSome_pots h Hh) as (I0 & I1 & I2). apply gal_ok_facts in Hh as [s d q _ _ _ h1 h2 h3].
    apply pset_ok_iff in s as ((_ & _ & _ & _ & _ & _ & Ls) & _), d as ((_ & _ & _ & _ & _ & _ & Ld) & _), q as ((_ & _ & _ & _ & _ & _ & Lq) & _).
    rewrite Ph in *. unfold gpot, gcol, others, pots. rewrite !to_numpy_app, !pcol_num_pot, !app_length.
    destruct (p_pot (g_stars h)), (p_pot (g_dm h)), (p_pot (g_gas h)); try discriminate.
    rewrite (Ls _ eq_refl), (Ld _ eq_refl), (Lq _ eq_refl). auto. }
  destruct (Q g' Hg' P) as (A1 & A2 & A3). destruct (Q g Hg P') as (B1 & _). rewrite (rm_length _ _ _ R). auto.
Qed.
Lemma gcols (g : galaxy N) : gx g = p_x (g_stars g) ++ others p_x g /\ gy g = p_y (g_stars g) ++ others p_y g /\ gz g = p_z (g_stars g) ++ others p_z g /\
  gm g = p_m (g_stars g) ++ others p_m g.
Proof. repeat split. Qed.
Lemma rm_cols K (g' g : galaxy N) : gal_ok g' -> removed K g' g ->
  gx g = without (marks K g') (gx g') /\ gy g = without (marks K g') (gy g') /\ gz g = without (marks K g') (gz g') /\ gm g = without (marks K g') (gm g').
Proof.
  intros Hg' R. destruct (gcols g) as (-> & -> & -> & ->). destruct (gcols g') as (-> & -> & -> & ->).
  apply gal_ok_facts in Hg' as [s _ _ _ _ _ _ _ _]. apply pset_ok_lens in s as (A1 & A2 & A3 & _).
  destruct R. repeat split; apply col_without; auto; congruence.
Qed.
Lemma rm_glen K (g' g : galaxy N) : removed K g' g -> glen g = (plen (g_stars g') + length (without K (others p_m g')))%nat.
Proof. intros R. unfold glen, plen. rewrite <- (rm_m _ _ _ R), (rm_stars _ _ _ R). unfold others. rewrite app_length. lia. Qed.

(** *** Circularity *)
Lemma join_without K (g' g : galaxy N) : gal_ok g' -> gal_ok g -> removed K g' g ->
  orbits (join (g_dm g) (g_gas g)) = without K (orbits (join (g_dm g') (g_gas g'))).
Proof.
  intros Hg' Hg R. pose proof (rm_haspot _ _ _ Hg' Hg R) as Eh.
  pose proof (isSome_pots g Hg) as (_ & I1 & I2). pose proof (isSome_pots g' Hg') as (_ & I1' & I2').
  assert (EE : energies (join (g_dm g) (g_gas g)) = without K (energies (join (g_dm g') (g_gas g')))).
  { unfold energies, join. cbn [pset_of p_te plen p_m]. destruct R as [L S M X Y Z VX VY VZ PO]. unfold others, pots in *.
    destruct (p_pot (g_dm g')), (p_pot (g_gas g')), (p_pot (g_dm g)), (p_pot (g_gas g)); cbn in *; try congruence.
    - rewrite PO, VX, VY, VZ. unfold map3'. now rewrite !without_map2.
    - rewrite M. unfold plen. cbn [p_m pset_of]. revert L. generalize (p_m (g_dm g') ++ p_m (g_gas g')). clear. intros l. revert K.
      induction l as [|a l IH]; intros [|t K] H; try discriminate; [reflexivity|]. injection H as H. cbn. destruct t; cbn; now rewrite (IH K). }
  unfold orbits. rewrite EE. destruct R as [L S M X Y Z VX VY VZ PO]. unfold others, join in *. cbn [pset_of p_Jx p_Jy p_Jz].
  rewrite X, Y, Z, VX, VY, VZ. unfold map4. now rewrite !without_map2.
Qed.
Lemma others_orbits (g : galaxy N) : gal_ok g -> others orbits g = orbits (join (g_dm g) (g_gas g)) /\ length (others orbits g) = length (others p_m g).
Proof.
  intros Hg. apply gal_ok_facts in Hg as [s d q _ _ _ h1 h2 h3]. unfold others. rewrite join_orbits by congruence. split; [reflexivity|].
  assert (L : forall p : pset N, pset_ok p -> length (orbits p) = length (p_m p)).
  { intros p Hp. pose proof (energies_length p Hp) as LE. destruct (J_lengths p Hp) as (LX & LY & LZ). unfold orbits, plen in *. rewrite !map2_length. lia. }
  rewrite !app_length, !L by assumption. reflexivity.
Qed.
Lemma tr_jcirc (RN : Rounded N) argsort K (g' g : galaxy N) b0 b1 : gal_ok g' -> gal_ok g -> removed K g' g -> escaping K g' ->
  jcirc argsort g b0 b1 = jcirc argsort g' b0 b1.
Proof.
  intros Hg' Hg R E. rewrite (jcirc_run RN argsort g b0 b1 Hg), (jcirc_run RN argsort g' b0 b1 Hg').
  destruct (others_orbits g Hg) as (O & _). destruct (others_orbits g' Hg') as (O' & L').
  assert (F : filter bound (all_orbits g) = filter bound (all_orbits g')).
  { unfold all_orbits, sets. simpl. rewrite !app_nil_r. change (orbits (g_dm g) ++ orbits (g_gas g)) with (others orbits g).
    change (orbits (g_dm g') ++ orbits (g_gas g')) with (others orbits g'). rewrite !filter_app, (rm_stars _ _ _ R). f_equal.
    rewrite O, (join_without K g' g Hg' Hg R), <- O'. apply without_filter; [|exact E]. rewrite L'. apply (rm_length _ _ _ R). }
  unfold run, scaling. unfold star_orbits. rewrite (rm_stars _ _ _ R).
  assert (Q : forall h : galaxy N, filter kb (map krow_of (all_orbits h)) = map krow_of (filter bound (all_orbits h))).
  { intros h. rewrite filter_map_comm. reflexivity. }
  now rewrite !Q, F.
Qed.
End Cols.

(** *** The lowest potential *)
Section Lowest.
Context {N : Num} (RN : Rounded N).
Definition first_min (l : list N) (i : nat) : Prop :=
  exists b : N, nth_error l i = Some b /\ (forall w : N, In w l -> nlt w b = false) /\ forall j (w : N), (j < i)%nat -> nth_error l j = Some w -> nlt b w = true.
Lemma first_min_unique l i i' : first_min l i -> first_min l i' -> i = i'.
Proof.
  intros (b & B & M & F) (b' & B' & M' & F'). destruct (Nat.lt_trichotomy i i') as [H|[H|H]]; [|exact H|].
  - specialize (F' i b H B). rewrite (M b' (nth_error_In _ _ B')) in F'. discriminate.
  - specialize (F i' b' H B'). rewrite (M' b (nth_error_In _ _ B)) in F. discriminate.
Qed.
Lemma nlt_tr (a b c : N) : nlt a b = true -> nlt b c = true -> nlt a c = true.
Proof. intros H H'. apply (nlt_iff RN) in H, H'. apply (nlt_iff RN). eapply xlt_trans; eauto. Qed.
Lemma nlt_ntr (a b c : N) : nisnan c = false -> nisnan a = false -> nlt b a = false -> nlt b c = true -> nlt a c = true.
Proof.
  intros Hc Ha H H'. apply (nlt_false RN) in H. apply (nlt_iff RN) in H'. apply (nlt_iff RN). apply (nisnan_false RN) in Ha.
  destruct (xle_total (val RN a) (val RN b) Ha) as [Q|Q].
  - intros E. rewrite E in H'. destruct (val RN c); exact H'.
  - eapply xle_lt_trans; eauto.
  - contradiction.
Qed.
Lemma argmin_from_first l : forall best bi i, nisnan best = false -> Forall (fun w => nisnan w = false) l ->
  (argmin_from best bi i l = bi /\ forall w, In w l -> nlt w best = false) \/
  exists k b, argmin_from best bi i l = (i + k)%nat /\ nth_error l k = Some b /\ nlt b best = true /\
    (forall w : N, In w l -> nlt w b = false) /\ forall j (w : N), (j < k)%nat -> nth_error l j = Some w -> nlt b w = true.
Proof.
  induction l as [|x l IH]; intros best bi i Hb Hl.
  - left. split; [reflexivity|intros w []].
  - cbn [argmin_from]. rewrite Hb. inversion Hl as [|? ? Hx Hl']; subst. rewrite Hx. cbn [orb].
    destruct (nlt x best) eqn:E.
    + right. destruct (IH x i (S i) Hx Hl') as [(R & M)|(k & b & R & B & L & M & F)].
      * exists 0%nat, x. rewrite R. split; [lia|]. split; [reflexivity|]. split; [exact E|]. split.
        -- intros w [<-|Hw]; [apply (nlt_irrefl RN)|auto].
        -- intros j w H. lia.
      * exists (S k), b. rewrite R. split; [lia|]. split; [exact B|]. split; [now apply (nlt_tr b x)|]. split.
        -- intros w [<-|Hw]; [|auto]. destruct (nlt x b) eqn:Q; [|reflexivity]. pose proof (nlt_tr _ _ _ L Q) as Z. now rewrite (nlt_irrefl RN) in Z.
        -- intros [|j] w H Hw; [injection Hw as <-; exact L|]. apply (F j); [lia|exact Hw].
    + destruct (IH best bi (S i) Hb Hl') as [(R & M)|(k & b & R & B & L & M & F)].
      * left. rewrite R. split; [reflexivity|]. intros w [<-|Hw]; auto.
      * right. exists (S k), b. rewrite R. split; [lia|]. split; [exact B|]. split; [exact L|].
        assert (Q : nlt b x = true).
        { destruct (nlt b x) eqn:Q; [reflexivity|]. exfalso.
          assert (nisnan b = false) by (rewrite Forall_forall in Hl'; apply Hl'; eapply nth_error_In; eauto).
          pose proof (nlt_ntr x b best Hb Hx Q L) as Z. congruence. }
        split.
        -- intros w [<-|Hw]; [|auto]. destruct (nlt x b) eqn:Q'; [|reflexivity]. pose proof (nlt_tr _ _ _ Q Q') as Z. now rewrite (nlt_irrefl RN) in Z.
        -- intros [|j] w H Hw; [injection Hw as <-; exact Q|]. apply (F j); [lia|exact Hw].
Qed.
Lemma np_argmin_first l i : Forall (fun w : N => nisnan w = false) l -> np_argmin l = Ok i -> first_min l i.
Proof.
  intros Hl H. destruct l as [|x l]; [discriminate|]. injection H as <-. inversion Hl as [|? ? Hx Hl']; subst.
  destruct (argmin_from_first l x 0 1 Hx Hl') as [(R & M)|(k & b & R & B & L & M & F)]; rewrite R.
  - exists x. split; [reflexivity|]. split; [intros w [<-|Hw]; [apply (nlt_irrefl RN)|auto]|]. intros j w H. lia.
  - exists b. split; [exact B|]. split.
    + intros w [<-|Hw]; [|auto]. destruct (nlt x b) eqn:Q; [|reflexivity]. pose proof (nlt_tr _ _ _ L Q) as Z. now rewrite (nlt_irrefl RN) in Z.
    + intros [|j] w H Hw; [injection Hw as <-; exact L|]. apply (F j); [lia|exact Hw].
Qed.

(** Where an entry that is not marked goes. *)
Fixpoint place (M : list bool) (i : nat) : nat :=
  match M, i with
  | t :: M', S i' => ((if t then 0 else 1) + place M' i')%nat
  | _, _ => 0%nat
  end.
Lemma place_nth {A} M (c : list A) : length M = length c -> forall i, nth_error M i = Some false -> nth_error (without M c) (place M i) = nth_error c i.
Proof.
  revert c. induction M as [|t M IH]; intros [|a c] L [|i] H; try discriminate.
  - injection H as ->. reflexivity.
  - injection L as L. cbn in H |- *. destruct t; cbn; now apply IH.
Qed.
Lemma place_before {A} M (c : list A) : length M = length c -> forall i j w, (j < place M i)%nat -> nth_error (without M c) j = Some w ->
  exists j', (j' < i)%nat /\ nth_error c j' = Some w.
Proof.
  revert c. induction M as [|t M IH]; intros [|a c] L [|i] j w Hj Hw; try discriminate; cbn in Hj; try lia.
  injection L as L. cbn in Hw. destruct t.
  - destruct (IH c L i j w Hj Hw) as (j' & H1 & H2). exists (S j'). split; [lia|exact H2].
  - destruct j as [|j].
    + exists 0%nat. split; [lia|exact Hw].
    + destruct (IH c L i j w) as (j' & H1 & H2); [lia|exact Hw|]. exists (S j'). split; [lia|exact H2].
Qed.
Lemma marked_only {A} M (c : list A) : forall i a, nth_error M i = Some true -> nth_error c i = Some a -> In a (only M c).
Proof.
  revert c. induction M as [|t M IH]; intros [|b c] [|i] a H Ha; try discriminate.
  - injection H as ->. injection Ha as ->. now left.
  - cbn in H, Ha |- *. specialize (IH c i a H Ha). destruct t; [now right|exact IH].
Qed.
Lemma only_nil {A} M (c : list A) : length M = length c -> only M c = [] -> M = repeat false (length c).
Proof.
  revert c. induction M as [|t M IH]; intros [|a c] L H; try discriminate; [reflexivity|]. injection L as L. cbn in H.
  destruct t; [discriminate|]. cbn. f_equal. auto.
Qed.
Lemma argmin_without M (l : list N) i : length M = length l ->
  Forall (fun p => exists q, In q (without M l) /\ nlt q p = true) (only M l) -> pd_argmin (without M l) = Ok i ->
  exists i', pd_argmin l = Ok i' /\ forall A (c : list A), length c = length l -> nth_error (without M c) i = nth_error c i'.
Proof.
  intros L H E. destruct (only M l) as [|p0 o] eqn:O.
  { pose proof (only_nil M l L O) as EM. exists i. rewrite EM, without_none in E. split; [exact E|]. intros A c Lc. now rewrite EM, <- Lc, without_none. }
  rewrite <- O in H. assert (exists q, In q (without M l) /\ nlt q p0 = true) as (q0 & I0 & C0).
  { rewrite Forall_forall in H. apply H. rewrite O. now left. }
  assert (NN : forall a b : N, nlt a b = true -> nisnan a = false /\ nisnan b = false).
  { intros a b Q. apply (nlt_iff RN) in Q. split; apply (nisnan_false RN); intros Z; rewrite Z in Q; [|destruct (val RN a)]; exact Q. }
  set (f := fun x : N => if nisnan x then npinf else x).
  assert (F1 : forallb nisnan l = false).
  { destruct (forallb nisnan l) eqn:F; [|reflexivity]. rewrite forallb_forall in F. specialize (F q0 (without_In _ _ _ I0)).
    destruct (NN _ _ C0). congruence. }
  assert (F2 : forallb nisnan (without M l) = false).
  { destruct (forallb nisnan (without M l)) eqn:F; [|reflexivity]. rewrite forallb_forall in F. specialize (F q0 I0). destruct (NN _ _ C0). congruence. }
  unfold pd_argmin in E |- *. fold f in E |- *. rewrite F1. rewrite F2 in E. rewrite <- without_map in E.
  assert (FN : Forall (fun w => nisnan w = false) (map f l)) by (apply Forall_map, Forall_forall; intros; apply (nan_to_inf_notnan RN)).
  destruct (np_argmin (map f l)) as [i'|e] eqn:E'.
  2:{ destruct l; [destruct M; discriminate|discriminate]. }
  exists i'. split; [reflexivity|]. cbn [bind] in E.
  destruct (np_argmin (without M (map f l))) as [i0|] eqn:E0; [|discriminate]. cbn [bind] in E. injection E as <-.
  apply np_argmin_first in E'; [|exact FN].
  apply np_argmin_first in E0; [|apply Forall_forall; intros w Hw; rewrite Forall_forall in FN; apply FN; eapply without_In; eauto].
  destruct E' as (b & B & Mn & Fi). assert (Lf : length M = length (map f l)) by now rewrite map_length.
  assert (U : nth_error M i' = Some false).
  { destruct (nth_error M i') as [[]|] eqn:EM; [|reflexivity|].
    - exfalso. pose proof (marked_only M (map f l) i' b EM B) as Ib. rewrite only_map in Ib. apply in_map_iff in Ib as (p & <- & Ip).
      rewrite Forall_forall in H. destruct (H p Ip) as (q & Iq & Cq). destruct (NN _ _ Cq) as (Nq & Np).
      specialize (Mn (f q) (in_map f _ _ (without_In _ _ _ Iq))). unfold f in Mn. rewrite Nq, Np in Mn. congruence.
    - exfalso. apply nth_error_None in EM. assert (i' < length (map f l))%nat by (apply nth_error_Some; congruence). lia. }
  assert (i0 = place M i') as ->.
  { eapply first_min_unique; [exact E0|]. exists b. split; [rewrite place_nth; auto|]. split.
    - intros w Hw. apply Mn. eapply without_In; eauto.
    - intros j w Hj Hw. destruct (place_before M (map f l) Lf i' j w Hj Hw) as (j' & H1 & H2). now apply (Fi j'). }
  intros A c Lc. apply place_nth; [congruence|exact U].
Qed.

(** *** Centring *)
Lemma tr_shift x0 y0 z0 K (g' g : galaxy N) : removed K g' g -> removed K (shift_gal x0 y0 z0 g') (shift_gal x0 y0 z0 g).
Proof.
  intros [L S M X Y Z VX VY VZ PO]. unfold others, pots in *. constructor; unfold others, pots; cbn; auto; rewrite ?S; auto; rewrite <- ?map_app, ?X, ?Y, ?Z, ?without_map; auto.
Qed.
Lemma tr_center K (g' g : galaxy N) : gal_ok g' -> gal_ok g -> removed K g' g -> shallow K g' g ->
  (forall e, center g' = Raise e -> center g = Raise e) /\
  (forall h', center g' = Ok h' -> exists h, center g = Ok h /\ gal_ok h' /\ gal_ok h /\ removed K h' h /\ plen (g_stars h') = plen (g_stars g')).
Proof.
  intros Hg' Hg R Sh. pose proof (rm_haspot _ _ _ Hg' Hg R) as Eh.
  destruct (g_haspot g') eqn:P.
  2:{ unfold center. rewrite Eh, P. simpl. split; [auto|discriminate]. }
  destruct (rm_gpot _ _ _ Hg' Hg R P) as (G1 & G2 & L1 & L2).
  assert (EP : gpot g = without (marks K g') (gpot g')).
  { rewrite G1, G2. apply col_without; [apply (rm_stars _ _ _ R)|apply (rm_pot _ _ _ R)|exact L1]. }
  assert (LM : length (marks K g') = length (gpot g')).
  { rewrite marks_length by apply (rm_length _ _ _ R). rewrite G1, app_length, L1, L2, (rm_length _ _ _ R). unfold glen, others, plen. rewrite app_length. lia. }
  assert (LG : length (gpot g') = glen g') by (rewrite <- LM; apply marks_length, (rm_length _ _ _ R)).
  assert (SM : Forall (fun p => exists q, In q (without (marks K g') (gpot g')) /\ nlt q p = true) (only (marks K g') (gpot g'))).
  { rewrite <- EP. rewrite G2. unfold shallow in Sh. rewrite G1. unfold marks. rewrite only_app by (rewrite repeat_length; auto). rewrite only_none. exact Sh. }
  destruct (Nat.eq_dec (glen g) 0) as [L|L].
  { assert (Z : glen g' = 0%nat).
    { destruct (only (marks K g') (gpot g')) as [|p o] eqn:O.
      - pose proof (only_nil _ _ LM O) as EM. rewrite EM, without_none in EP. rewrite <- LG, <- EP.
        unfold gpot. unfold to_numpy. rewrite map_length, gcol_length by assumption. exact L.
      - inversion SM as [|? ? (q & Iq & _) _]; subst. rewrite <- EP in Iq.
        assert (length (gpot g) = 0%nat) by (unfold gpot, to_numpy; rewrite map_length, gcol_length by assumption; exact L).
        destruct (gpot g); [destruct Iq|discriminate]. }
    rewrite (center_empty _ Hg Eh L), (center_empty _ Hg' P Z). split; [auto|discriminate]. }
  destruct (center_total g Hg Eh) as (i & x0 & y0 & z0 & Hi & _ & Hx & Hy & Hz & E); [lia|].
  rewrite EP in Hi. destruct (argmin_without _ _ _ LM SM Hi) as (i' & Hi' & T).
  destruct (rm_cols K g' g Hg' R) as (Cx & Cy & Cz & _). pose proof (gxyz_length g' Hg') as (Lx & Ly & Lz & _).
  rewrite Cx in Hx. rewrite Cy in Hy. rewrite Cz in Hz. rewrite T in Hx, Hy, Hz by congruence.
  rewrite E, (center_eq g' i' x0 y0 z0) by auto. split; [discriminate|]. intros h' [= <-].
  eexists. split; [reflexivity|]. split; [now apply shift_gal_ok|]. split; [now apply shift_gal_ok|]. split; [now apply tr_shift|reflexivity].
Qed.
End Lowest.

(** *** Alignment *)
Section TrAlign.
Context {N : Num} (fma : N -> N -> N -> N).
Variable mm : nat -> mat3 N -> list N -> list N -> list N -> list N * list N * list N.
Hypothesis MM : is_matmul fma mm.
Hypothesis CC : column_by_column mm.
Lemma tr_align K (g' g : galaxy N) c : gal_ok g' -> gal_ok g -> removed K g' g ->
  (forall e, star_align_with mm g' c = Raise e -> star_align_with mm g c = Raise e) /\
  (forall h', star_align_with mm g' c = Ok h' -> exists h, star_align_with mm g c = Ok h /\ gal_ok h' /\ gal_ok h /\ removed K h' h /\ plen (g_stars h') = plen (g_stars g')).
Proof.
  intros Hg' Hg R. rewrite (star_align_with_eq fma mm MM g c Hg), (star_align_with_eq fma mm MM g' c Hg').
  destruct (cut_ok c); [|split; [auto|discriminate]]. split; [discriminate|]. intros h [= <-].
  eexists. split; [reflexivity|]. split; [now apply (turn_gal_ok fma mm MM)|]. split; [now apply (turn_gal_ok fma mm MM)|]. split; [|reflexivity].
  assert (EA : gal_matrix g' c = gal_matrix g c) by (unfold gal_matrix; now rewrite (rm_stars _ _ _ R)). rewrite EA.
  generalize (gal_matrix g c). intros A. destruct CC as (fx & fy & fz & F).
  apply gal_ok_facts in Hg as [s1 d1 q1 _ _ _ _ _ _], Hg' as [s2 d2 q2 _ _ _ _ _ _].
  pose proof (pset_ok_lens _ d1) as (D1 & D2 & D3 & D4 & D5 & D6 & _). pose proof (pset_ok_lens _ d2) as (E1 & E2 & E3 & E4 & E5 & E6 & _).
  assert (J : forall f : mat3 N -> N -> N -> N -> N, forall a b d a' b' d', length b = length a -> length d = length a ->
     map3 (f A) a b d ++ map3 (f A) a' b' d' = map3 (f A) (a ++ a') (b ++ b') (d ++ d')).
  { intros f a b d a' b' d' H1 H2. symmetry. exact (m3_app (f A) a b d a' b' d' H1 H2). }
  assert (W3 : forall f : mat3 N -> N -> N -> N -> N, forall a b d, without K (map3 (f A) a b d) = map3 (f A) (without K a) (without K b) (without K d)).
  { intros f a b d. unfold map3. now rewrite !without_map2. }
  destruct R as [L S M X Y Z VX VY VZ PO]. unfold others, pots in *.
  constructor; unfold others, pots; cbn; rewrite ?S; auto; unfold mm_x, mm_y, mm_z; rewrite !F; cbn [fst snd]; rewrite !J, ?W3 by congruence; congruence.
Qed.
End TrAlign.

(** *** Potential *)
Lemma ok_inj {A} (a b : A) : Ok a = Ok b -> a = b.
Proof. now intros [= ->]. Qed.
Lemma fterm_dist {S : Num} (b t : Potential.body S) (soft : S) : fterm (soft * soft)%num b t = (b_m t / soft_dist soft (src_of b) (src_of t))%num.
Proof. reflexivity. Qed.
Section TrPot.
Context (sm : list f64 -> f64) (sm' : list f32 -> f32).
Local Notation W := (F64s sm).
Local Notation S := (F32s sm').
Lemma soft_same (g g' : galaxy W) a b : same_softening g g' -> largest_softening g a -> largest_softening g' b ->
  bval 53 1024 a = bval 53 1024 b.
Proof.
  assert (U : forall (h : galaxy W) a b, largest_softening h a -> largest_softening h b -> bval 53 1024 a = bval 53 1024 b).
  { intros h u v [(p & Up & <- & Mp)|(-> & Np)] [(q & Uq & <- & Mq)|(-> & Nq)].
    - specialize (Mp q Uq). specialize (Mq p Up). destruct Up as (_ & _ & Vp), Uq as (_ & _ & Vq).
      apply (nlt_false (F64_rounded sm)) in Mp, Mq. apply (nisnan_false (F64_rounded sm)) in Vp, Vq.
      change (val (F64_rounded sm)) with (bval 53 1024) in *.
      destruct (bval 53 1024 (p_soft p)) eqn:E1, (bval 53 1024 (p_soft q)) eqn:E2; cbn in Mp, Mq; try tauto; try congruence.
      f_equal. apply Rle_antisym; apply Rnot_lt_le; assumption.
    - destruct (Nq p Up).
    - destruct (Np q Uq).
    - reflexivity. }
  intros (s & A & B) Ha Hb. transitivity (bval 53 1024 s); [now apply (U g)|now apply (U g')].
Qed.
Lemma finite_nonzero s m e B : B2R (B754_finite s m e B : f64) <> 0%R.
Proof. cbn. apply F2R_neq_0. destruct s; discriminate. Qed.
Lemma soft_square (a b : f64) : bval 53 1024 a = bval 53 1024 b -> ((to32 a : S) * to32 a)%num = ((to32 b : S) * to32 b)%num.
Proof.
  intros H. destruct (is_finite a) eqn:Fa.
  - assert (Fb : is_finite b = true) by (rewrite bval_fin_iff in *; congruence).
    rewrite !bval_fin in H by assumption. injection H as H.
    destruct (Req_dec (B2R a) 0) as [Z|Z].
    + destruct a as [sa| | |sa ma ea Ba]; try discriminate Fa; [|exfalso; revert Z; apply finite_nonzero].
      destruct b as [sb| | |sb mb eb Bb]; try discriminate Fb; [|exfalso; rewrite H in Z; revert Z; apply finite_nonzero].
      destruct sa, sb; reflexivity.
    + assert (a = b) as ->; [|reflexivity]. apply B2R_inj; auto; destruct a, b; try discriminate; try reflexivity; exfalso; (apply Z; reflexivity) || (apply Z; rewrite H; reflexivity).
  - assert (a = b) as ->; [|reflexivity]. destruct a as [|[]| |], b as [|[]| |]; try discriminate; reflexivity.
Qed.
Lemma kernel_soft (x y z m : list S) (s t : S) : (s * s)%num = (t * t)%num -> fortran_kernel x y z m s = fortran_kernel x y z m t.
Proof. intros E. unfold fortran_kernel. now rewrite E. Qed.
Lemma bodies_mass (x y z m : list S) t : In t (Potential.bodies x y z m) -> In (b_m t) m.
Proof.
  unfold Potential.bodies. intros H. apply In_nth_error in H as (i & H). rewrite map2_nth in H.
  destruct (nth_error (map2 pair x y) i) as [xy|]; [|discriminate]. destruct (nth_error (map2 pair z m) i) as [zm|] eqn:E; [|discriminate].
  injection H as <-. cbn [b_m]. rewrite map2_nth in E. destruct (nth_error z i); [|discriminate]. destruct (nth_error m i) eqn:Em; [|discriminate].
  injection E as <-. cbn [snd]. eapply nth_error_In; eauto.
Qed.
Lemma only_bodies K (x y z m : list S) : only K (Potential.bodies x y z m) = Potential.bodies (only K x) (only K y) (only K z) (only K m).
Proof. unfold Potential.bodies. now rewrite !only_map2. Qed.
Lemma without_bodies K (x y z m : list S) : without K (Potential.bodies x y z m) = Potential.bodies (without K x) (without K y) (without K z) (without K m).
Proof. unfold Potential.bodies. now rewrite !without_map2. Qed.
Lemma to32_zero : (to32 (n0 : W) : S) = pzero sm'.
Proof. reflexivity. Qed.
Lemma pull_zero (b t : Potential.body S) (soft : S) : b_m t = pzero sm' -> nlt n0 (soft_dist soft (src_of b) (src_of t)) = true ->
  fterm (soft * soft)%num b t = pzero sm'.
Proof.
  intros Hm Hd. rewrite fterm_dist, Hm. apply quotient_pzero. exact Hd.
Qed.

Lemma cast_length (l l' : list W) : length l = length l' -> length (map to32 l : list S) = length (map to32 l' : list S).
Proof. intros H. etransitivity; [apply map_length|]. etransitivity; [exact H|]. symmetry. apply map_length. Qed.
Lemma bodies_glen (h : galaxy W) : gal_ok h -> length (Potential.bodies (S:=S) (map to32 (gx h)) (map to32 (gy h)) (map to32 (gz h)) (map to32 (gm h))) = glen h.
Proof.
  intros Hh. pose proof (gxyz_length h Hh) as (A & B & C & _). pose proof (gm_length h) as D.
  etransitivity; [apply bodies_length; apply cast_length; congruence|]. etransitivity; [apply map_length|exact A].
Qed.

Lemma tr_kernel K (g' g : galaxy W) : gal_ok g' -> gal_ok g -> removed K g' g -> massless K g' -> same_softening g g' -> off_centre (W:=W) (S:=S) to32 K g' g ->
  fortran_kernel (S:=S) (map to32 (gx g)) (map to32 (gy g)) (map to32 (gz g)) (map to32 (gm g)) (to32 (pd_max (gsoft g))) =
  without (marks K g') (fortran_kernel (S:=S) (map to32 (gx g')) (map to32 (gy g')) (map to32 (gz g')) (map to32 (gm g')) (to32 (pd_max (gsoft g')))).
Proof.
  intros Hg' Hg R Ml Ss Oc. destruct (rm_cols K g' g Hg' R) as (Cx & Cy & Cz & Cm).
  pose proof (gxyz_length g' Hg') as (Lx & Ly & Lz & _). pose proof (gm_length g') as Lm.
  rewrite (kernel_soft _ _ _ _ _ (to32 (pd_max (gsoft g')))).
  2:{ apply soft_square. eapply (soft_same g g'); [exact Ss|apply (pd_max_softening (F64_rounded sm))|apply (pd_max_softening (F64_rounded sm))]. }
  rewrite Cx, Cy, Cz, Cm. rewrite <- !without_map. symmetry. apply kernel_without.
  { etransitivity; [apply marks_length, (rm_length _ _ _ R)|]. symmetry. now apply bodies_glen. }
  intros b t Hb Ht. apply pull_zero.
  - rewrite only_bodies in Ht. apply bodies_mass in Ht. rewrite only_map in Ht. apply in_map_iff in Ht as (m & <- & Im).
    destruct (gcols g') as (_ & _ & _ & E). rewrite E in Im. rewrite col_only in Im by reflexivity.
    unfold massless in Ml. rewrite Forall_forall in Ml. rewrite (Ml m Im). apply to32_zero.
  - apply (Oc (pd_max (gsoft g')) (pd_max_softening (F64_rounded sm) g')).
    + unfold all_sources. destruct (gcols g) as (<- & <- & <- & <-). rewrite <- bodies_sources. apply in_map.
      rewrite without_bodies, !without_map in Hb. now rewrite Cx, Cy, Cz, Cm.
    + unfold marked_sources. rewrite <- bodies_sources. apply in_map. rewrite only_bodies, !only_map in Ht.
      pose proof (proj1 (gal_ok_facts _) Hg') as [s _ _ _ _ _ _ _ _]. apply pset_ok_lens in s as (A1 & A2 & A3 & _).
      destruct (gcols g') as (E1 & E2 & E3 & E4). rewrite E1, E2, E3, E4, !col_only in Ht by (assumption || reflexivity). exact Ht.
Qed.
Lemma skipn_without {A} n K (l : list A) : (n <= length l)%nat -> without (repeat false n ++ K) l = firstn n l ++ without K (skipn n l).
Proof. intros H. rewrite <- (firstn_skipn n l) at 1. rewrite without_app by (rewrite repeat_length, firstn_length; lia).
  f_equal. rewrite <- (without_none (firstn n l)) at 2. now rewrite firstn_length, Nat.min_l by exact H. Qed.
Lemma tr_potential K G have junk (g' g : galaxy W) : gal_ok g' -> gal_ok g -> removed K g' g -> massless K g' -> same_softening g g' -> off_centre (W:=W) (S:=S) to32 K g' g ->
  let run := potential (W:=W) (S:=S) to32 to64 (backend_table G have junk) "fortran" in
  (forall e, run g' = Raise e -> run g = Raise e) /\
  (forall h', run g' = Ok h' -> exists h, run g = Ok h /\ gal_ok h' /\ gal_ok h /\ removed K h' h /\ plen (g_stars h') = plen (g_stars g')).
Proof.
  intros Hg' Hg R Ml Ss Oc run. unfold run. pose proof (rm_haspot _ _ _ Hg' Hg R) as Eh.
  destruct (g_haspot g') eqn:P.
  { unfold potential. rewrite Eh, P. cbn [guard bind negb]. split; [auto|discriminate]. }
  destruct have.
  2:{ rewrite (potential_eq (W:=W) (S:=S) to32 to64 (backend_table G false junk) "fortran" g (fortran_potential G false) Hg Eh eq_refl).
      rewrite (potential_eq (W:=W) (S:=S) to32 to64 (backend_table G false junk) "fortran" g' (fortran_potential G false) Hg' P eq_refl).
      cbn [fortran_potential bind]. split; [auto|discriminate]. }
  pose proof (tr_kernel K g' g Hg' Hg R Ml Ss Oc) as EK.
  set (k' := fortran_kernel (S:=S) (map to32 (gx g')) (map to32 (gy g')) (map to32 (gz g')) (map to32 (gm g')) (to32 (pd_max (gsoft g')))) in *.
  set (k := fortran_kernel (S:=S) (map to32 (gx g)) (map to32 (gy g)) (map to32 (gz g)) (map to32 (gm g)) (to32 (pd_max (gsoft g)))) in *.
  set (f := fun v : S => (v * G)%num).
  assert (L' : length (map f k') = glen g') by (unfold k'; rewrite map_length, fortran_kernel_length; now apply bodies_glen).
  assert (L : length (map f k) = glen g) by (unfold k; rewrite map_length, fortran_kernel_length; now apply bodies_glen).
  rewrite (potential_ok (W:=W) (S:=S) to32 to64 (backend_table G true junk) "fortran" g' (fortran_potential G true) (map f k') Hg' P eq_refl eq_refl L').
  split; [discriminate|]. intros h EQ. apply ok_inj in EQ. subst h.
  eexists. split; [exact (potential_ok (W:=W) (S:=S) to32 to64 (backend_table G true junk) "fortran" g (fortran_potential G true) (map f k) Hg Eh eq_refl eq_refl L)|].
  rewrite EK in *. rewrite <- without_map in *. clear EK. clearbody f k'. clear k. set (pot := map f k') in *. clearbody pot.
  assert (Q : forall (h : galaxy W) (pt : list S), length pt = glen h ->
     length (map (fun v : S => to64 (nopp v)) (firstn (plen (g_stars h)) pt)) = plen (g_stars h) /\
     length (map (fun v : S => to64 (nopp v)) (firstn (plen (g_dm h)) (skipn (plen (g_stars h)) pt))) = plen (g_dm h) /\
     length (map (fun v : S => to64 (nopp v)) (skipn (plen (g_stars h) + plen (g_dm h)) pt)) = plen (g_gas h)).
  { intros h pt Lk. unfold glen in *. rewrite !map_length, !firstn_length, !skipn_length. lia. }
  destruct (Q g _ L) as (Q1 & Q2 & Q3). destruct (Q g' _ L') as (Q1' & Q2' & Q3').
  split; [apply pot_gal_ok; [exact Hg'|exact Q1'|exact Q2'|exact Q3']|]. split; [apply pot_gal_ok; [exact Hg|exact Q1|exact Q2|exact Q3]|]. split; [|reflexivity].
  assert (C : forall (h : galaxy W) (pt : list S), map (fun v : S => to64 (nopp v)) (firstn (plen (g_dm h)) (skipn (plen (g_stars h)) pt)) ++
     map (fun v : S => to64 (nopp v)) (skipn (plen (g_stars h) + plen (g_dm h)) pt) = map (fun v : S => to64 (nopp v)) (skipn (plen (g_stars h)) pt)).
  { intros h pt. rewrite <- map_app. f_equal. generalize (plen (g_stars h)) (plen (g_dm h)). intros a b. assert (SK : skipn (a + b) pt = skipn b (skipn a pt)).
    { clear. revert pt. induction a as [|a IH]; intros [|u pt]; cbn [skipn Nat.add]; auto; now rewrite skipn_nil. }
    rewrite SK. apply firstn_skipn. }
  assert (LS : (plen (g_stars g') <= length pot)%nat) by (rewrite L'; unfold glen; lia).
  destruct R as [LK ST M X Y Z VX VY VZ PO]. unfold marks in *. rewrite skipn_without in * by exact LS.
  assert (LF : length (firstn (plen (g_stars g')) pot) = plen (g_stars g')) by (rewrite firstn_length; lia).
  unfold others, pots in *. constructor; unfold others, pots; cbn [pot_gal pot_set g_stars g_dm g_gas p_m p_x p_y p_z p_vx p_vy p_vz p_pot]; auto.
  - rewrite ST. f_equal. f_equal. rewrite firstn_app, LF, Nat.sub_diag. cbn [firstn]. rewrite app_nil_r. rewrite firstn_all2 by lia. reflexivity.
  - etransitivity; [exact (C g _)|]. etransitivity; [|symmetry; apply (f_equal (without K)); exact (C g' _)].
    etransitivity; [|symmetry; apply without_map]. apply (f_equal (map _)). rewrite ST. rewrite skipn_app, LF, Nat.sub_diag. cbn [skipn]. rewrite skipn_all2 by lia. reflexivity.
Qed.
End TrPot.

(** *** Decomposition *)
Section TrDec.
Context {N : Num} (RN : Rounded N).
Lemma fill_pad {A} (v : A) n k : forall ms vs, length ms = n -> mask_fill (ms ++ repeat false k) (repeat v (n + k)) vs = mask_fill ms (repeat v n) vs ++ repeat v k.
Proof.
  induction n as [|n IH]; intros ms vs L.
  - destruct ms; [|discriminate]. cbn. revert vs. induction k as [|k IHk]; intros vs; [reflexivity|]. cbn. now rewrite IHk.
  - destruct ms as [|b ms]; [discriminate|]. injection L as L. cbn. destruct b; [destruct vs|]; cbn; now rewrite IH.
Qed.
Lemma count_pad ms k : count (ms ++ repeat false k) = count ms.
Proof. unfold count. rewrite filter_app, app_length. replace (filter (fun b => b) (repeat false k)) with (@nil bool); [cbn; lia|]. induction k; cbn; auto. Qed.
Lemma assign_pad {A} (v : A) n k ms vs : length ms = n ->
  mask_assign (repeat v (n + k)) (ms ++ repeat false k) vs = rmap (fun r => r ++ repeat v k) (mask_assign (repeat v n) ms vs).
Proof.
  intros L. unfold mask_assign. rewrite count_pad, !fill_pad by exact L.
  destruct (length vs =? count ms)%nat; [reflexivity|]. destruct vs as [|u [|? ?]]; try reflexivity. now rewrite fill_pad by exact L.
Qed.
Lemma assign_length {A} (a : list A) ms vs r : mask_assign a ms vs = Ok r -> length r = length a.
Proof.
  unfold mask_assign. destruct (length vs =? count ms)%nat; [intros [= <-]; apply mask_fill_length|].
  destruct vs as [|u [|? ?]]; try discriminate. intros [= <-]. apply mask_fill_length.
Qed.

(** The rows of the stars, and which of them are used. *)
Definition star_rows (j : jcirc_t N) (A : list string) (n : nat) : matrix N := rows_of n (map (fun a => map CNum (circ_col j a)) A).
Definition star_used (X : matrix N) : list bool := map (forallb cell_finite) X.
Definition core {St} (D : decomposer N St) (st : St) (j : jcirc_t N) (n : nat) : res (list N * option (probs N) * St) :=
  let X := star_rows j (d_attributes D) n in
  do r <- d_split D st (bmask (star_used X) X) (bmask (star_used X) (repeat (CInt (ptype_value STARS)) n)) (d_attributes D);
  let '(labels, pr, st') := r in
  do fl <- mask_assign (repeat nnan n) (star_used X) (map nofZ labels);
  do fp <- match pr with
           | None => Ok None
           | Some p => do r <- mask_assign (repeat (repeat nnan (pr_width p)) n) (star_used X) (pr_rows p); Ok (Some (Probs (pr_width p) r))
           end;
  Ok (fl, fp, st').
Definition padded_probs (k : nat) (p : probs N) : probs N := Probs (pr_width p) (pr_rows p ++ repeat (repeat nnan (pr_width p)) k).

Lemma rows_pad (g : galaxy N) j A : (forall a, In a A -> circ a = true /\ length (circ_col j a) = plen (g_stars g)) ->
  rows_of (glen g) (map (acol g j) A) = star_rows j A (plen (g_stars g)) ++ repeat (map (fun _ => cnan) A) (plen (g_dm g) + plen (g_gas g)).
Proof.
  intros H. unfold star_rows, rows_of, glen. rewrite <- Nat.add_assoc, seq_app, map_app. f_equal.
  - apply map_ext_in. intros i Hi. apply in_seq in Hi. rewrite !map_map. apply map_ext_in. intros a Ha. destruct (H a Ha) as (C & L).
    unfold acol. rewrite C. apply app_nth1. rewrite map_length. lia.
  - cbn [Nat.add]. generalize (plen (g_dm g) + plen (g_gas g))%nat as k. intros k.
    assert (Q : forall i, (plen (g_stars g) <= i)%nat -> map (fun c => nth i c cnan) (map (acol g j) A) = map (fun _ => cnan) A).
    { intros i Hi. rewrite map_map. apply map_ext_in. intros a Ha. destruct (H a Ha) as (C & L). unfold acol. rewrite C.
      rewrite app_nth2 by (rewrite map_length; lia). rewrite <- repeat_app. apply nth_repeat. }
    assert (P : forall k s, (plen (g_stars g) <= s)%nat -> map (fun i => map (fun c => nth i c cnan) (map (acol g j) A)) (seq s k) = repeat (map (fun _ => cnan) A) k).
    { induction k0 as [|k0 IH]; intros s Hs; [reflexivity|]. cbn [seq map repeat]. rewrite Q by exact Hs. f_equal. apply IH. lia. }
    apply P. lia.
Qed.
Lemma star_rows_length j A n : length (star_rows j A n) = n.
Proof. unfold star_rows, rows_of. now rewrite map_length, seq_length. Qed.
Lemma no_strings (g : galaxy N) j A : existsb (existsb is_str) (star_rows j A (plen (g_stars g)) ++ repeat (map (fun _ => cnan) A) (plen (g_dm g) + plen (g_gas g))) = false.
Proof.
  assert (Q : forall X : matrix N, (forall r, In r X -> forall c, In c r -> is_str c = false) -> existsb (existsb is_str) X = false).
  { intros X H. destruct (existsb (existsb is_str) X) eqn:E; [|reflexivity]. apply existsb_exists in E as (r & Hr & E).
    apply existsb_exists in E as (c & Hc & E). rewrite (H r Hr c Hc) in E. discriminate. }
  apply Q. intros r Hr c Hc. apply in_app_or in Hr as [Hr|Hr].
  - unfold star_rows, rows_of in Hr. apply in_map_iff in Hr as (i & <- & _). rewrite map_map in Hc. apply in_map_iff in Hc as (a & <- & _).
    destruct (nth_in_or_default i (map CNum (circ_col j a)) cnan) as [I| ->]; [|reflexivity]. apply in_map_iff in I as (v & <- & _). reflexivity.
  - apply repeat_spec in Hr. subst r. apply in_map_iff in Hc as (a & <- & _). reflexivity.
Qed.
Lemma dec_core argsort St (D : decomposer N St) st (g : galaxy N) j : gal_ok g -> star_attrs (d_attributes D) -> d_mask D = stars_mask ->
  jcirc argsort g (fst (d_cbins D)) (snd (d_cbins D)) = Ok j ->
  decompose argsort D st g = rmap (fun r => let '(fl, fp, st') := r in
    (Comp (fl ++ repeat nnan (plen (g_dm g) + plen (g_gas g))) (type_names g) (option_map (padded_probs (plen (g_dm g) + plen (g_gas g))) fp), st'))
    (core D st j (plen (g_stars g))).
Proof.
  intros G HA Hm Ej. pose proof (proj2 (constructible_ok _) G) as Hg.
  assert (Cs : forall a, In a (d_attributes D) -> circ a = true) by (intros a Ha; apply circ_attr_iff, HA, Ha).
  assert (Dp : df_part (d_attributes D) = []).
  { unfold df_part. revert Cs. generalize (d_attributes D). induction l as [|a l IH]; intros H; [reflexivity|]. simpl.
    rewrite (H a (or_introl eq_refl)). simpl. apply IH. intros b Hb. apply H. now right. }
  assert (Ln : forall a, In a (d_attributes D) -> circ a = true -> length (circ_col j a) = plen (g_stars g)).
  { intros a Ha _. destruct (c31_lengths N RN argsort g _ _ j Hg Ej) as (L1 & L2 & L3 & _).
    destruct (proj2 HA a Ha) as (Ca & Na). destruct Ca as [<-|[<-|[<-|[<-|[]]]]]; [exact L1|congruence|exact L2|exact L3]. }
  unfold decompose. cbv zeta.
  rewrite (attributes_matrix_ok argsort (d_cbins D) g j (d_attributes D) G (proj1 HA)); [|rewrite Dp; intros ? []|auto|exact Ln].
  cbn [bind]. rewrite rows_pad by (intros a Ha; split; auto).
  set (A := d_attributes D) in *. set (k := (plen (g_dm g) + plen (g_gas g))%nat). set (n := plen (g_stars g)). set (X0 := star_rows j A n). unfold core. cbv zeta. fold A X0.
  set (ms := star_used X0).
  assert (LX0 : length X0 = n) by apply star_rows_length. assert (Lms : length ms = n) by (unfold ms, star_used; now rewrite map_length).
  assert (A0 : A <> []) by apply HA.
  assert (EM : stars_mask (X0 ++ repeat (map (fun _ => cnan) A) k) (gcol g "ptypev") A = Ok (ms ++ repeat false k)).
  { unfold stars_mask. unfold X0, k, n. rewrite no_strings. cbn [negb guard bind]. fold n k X0. rewrite re_types by exact G. fold n k.
    rewrite bop_eq by (rewrite map_length, !app_length, !repeat_length, LX0; reflexivity). f_equal. rewrite map_app.
    rewrite m2_app by (rewrite repeat_length, map_length; congruence). f_equal.
    - fold (star_used X0). fold ms. rewrite <- Lms. clear. induction ms as [|b l IH]; [reflexivity|]. cbn [length repeat map2]. now rewrite IH.
    - assert (F : forallb cell_finite (map (fun _ : string => @cnan N) A) = false).
      { destruct A as [|a A']; [contradiction|]. cbn [map forallb cell_finite cnan].
        assert (nfin (nnan : N) = false) as -> by (rewrite (val_fin RN), (val_nnan RN); reflexivity). reflexivity. }
      clear - F. induction k as [|k IH]; [reflexivity|]. cbn [repeat map map2]. rewrite IH. reflexivity. }
  rewrite Hm, EM. cbn [bind].
  assert (Ly : length (gcol g "ptypev") = (n + k)%nat) by (rewrite gcol_length by exact G; unfold glen, n, k; lia).
  assert (LX : length (X0 ++ repeat (map (fun _ : string => @cnan N) A) k) = (n + k)%nat) by (rewrite app_length, repeat_length, LX0; reflexivity).
  assert (LM : length (ms ++ repeat false k) = (n + k)%nat) by (rewrite app_length, repeat_length, Lms; reflexivity).
  unfold select_rows. rewrite LX, Ly, LM, Nat.eqb_refl. cbn [guard bind].
  rewrite bmask_app, bmask_repeat_false, app_nil_r by congruence.
  assert (EY : bmask (ms ++ repeat false k) (gcol g "ptypev") = bmask ms (repeat (CInt (ptype_value STARS)) n)).
  { pose proof (proj1 (gal_ok_facts _) G) as [_ _ _ t1 _ _ _ _ _]. unfold gcol. rewrite (pcol_ptypev (g_stars g)), t1. fold n.
    rewrite bmask_app, bmask_repeat_false, app_nil_r by (rewrite repeat_length; congruence). reflexivity. }
  rewrite EY. destruct (d_split D st (bmask ms X0) (bmask ms (repeat (CInt (ptype_value STARS)) n)) A) as [[[l pr] st']|e]; [|reflexivity]. cbn [bind].
  unfold complete_labels. rewrite LX, LM, Nat.eqb_refl. cbn [guard bind]. rewrite assign_pad by exact Lms.
  destruct (mask_assign (repeat nnan n) ms (map nofZ l)) as [fl|] eqn:Ef; [|reflexivity]. cbn [rmap bind].
  apply assign_length in Ef. rewrite repeat_length in Ef.
  assert (LT : length (type_names g) = (n + k)%nat).
  { unfold type_names, sets. simpl. rewrite !app_length, !repeat_length. unfold n, k. simpl. lia. }
  unfold complete_probs. destruct pr as [p|]; cbn [bind].
  - rewrite LX, LM, Nat.eqb_refl. cbn [guard bind]. rewrite assign_pad by exact Lms.
    destruct (mask_assign (repeat (repeat nnan (pr_width p)) n) ms (pr_rows p)) as [fp|] eqn:Ep; [|reflexivity]. cbn [rmap bind].
    apply assign_length in Ep. rewrite repeat_length in Ep. rewrite final_types. cbn [bind]. unfold mk_components. cbn [unpack bind pr_rows].
    rewrite LT, !app_length, !repeat_length, Ef, Ep, Nat.eqb_refl. reflexivity.
  - rewrite final_types. cbn [bind]. unfold mk_components. cbn [unpack bind]. rewrite LT, app_length, repeat_length, Ef, Nat.eqb_refl. reflexivity.
Qed.
Lemma tr_decompose argsort argsort' St (D : decomposer N St) st (g' g : galaxy N) : gal_ok g' -> gal_ok g -> star_attrs (d_attributes D) -> d_mask D = stars_mask ->
  plen (g_stars g) = plen (g_stars g') ->
  jcirc argsort g (fst (d_cbins D)) (snd (d_cbins D)) = jcirc argsort' g' (fst (d_cbins D)) (snd (d_cbins D)) ->
  agree (plen (g_stars g')) (decompose argsort D st g) (decompose argsort' D st g').
Proof.
  intros G' G HA Hm Ls EJ. pose proof (proj2 (constructible_ok _) G) as Hg. pose proof (proj2 (constructible_ok _) G') as Hg'.
  destruct (jcirc argsort' g' (fst (d_cbins D)) (snd (d_cbins D))) as [j|e] eqn:Ej.
  2:{ destruct (star_decompose_errors RN argsort' St D st g' Hg' HA Hm) as (K & _). rewrite (K e Ej).
      destruct (star_decompose_errors RN argsort St D st g Hg HA Hm) as (K' & _). rewrite (K' e EJ). reflexivity. }
  rewrite (dec_core argsort St D st g j G HA Hm EJ), (dec_core argsort' St D st g' j G' HA Hm Ej), Ls.
  destruct (core D st j (plen (g_stars g'))) as [[[fl fp] st']|e] eqn:EC; [|reflexivity]. cbn [rmap agree c_labels c_probs]. split; [reflexivity|].
  assert (AL : forall B (v : B) l n k k', length l = n -> alike n v (l ++ repeat v k) (l ++ repeat v k')).
  { intros B v l n k k' L. unfold alike. rewrite !firstn_app, !skipn_app, !L, !Nat.sub_diag, !skipn_all2 by lia. cbn [firstn skipn].
    split; [reflexivity|]. split; apply Forall_forall; intros u Hu; symmetry; now apply repeat_spec in Hu. }
  unfold core in EC. cbv zeta in EC. destruct (d_split _ _ _ _ _) as [[[l pr] s1]|]; [|discriminate]. cbn [bind] in EC.
  destruct (mask_assign _ _ (map nofZ l)) as [fl0|] eqn:Ef; [|discriminate]. cbn [bind] in EC. apply assign_length in Ef. rewrite repeat_length in Ef.
  destruct pr as [p|].
  - destruct (mask_assign _ _ (pr_rows p)) as [fp0|] eqn:Ep; [|discriminate]. cbn [bind] in EC. injection EC as -> <- ->.
    apply assign_length in Ep. rewrite repeat_length in Ep. split; [now apply AL|]. cbn [option_map padded_probs pr_width pr_rows]. split; [reflexivity|]. now apply AL.
  - cbn [bind] in EC. injection EC as -> <- ->. split; [now apply AL|exact I].
Qed.
End TrDec.

(** *** Distances *)
Section Apart.
Context {S : Num} (RS : Rounded S).
Lemma square_nonneg (a : S) : val RS a <> XNaN -> xle (XR 0) (val RS (a * a)%num).
Proof.
  intros H. rewrite (val_mul RS). replace (XR 0) with (rnd RS (XR 0)) by (apply (rnd_int RS 0); pose proof (intmax_pos RS); lia).
  apply (rnd_mono RS). destruct (val RS a) as [r| | |]; cbn; try tauto. apply Rle_0_sqr.
Qed.
Lemma sum_nonneg (a b : S) : xle (XR 0) (val RS a) -> xle (XR 0) (val RS b) -> xle (val RS b) (val RS (a + b)%num).
Proof.
  intros Ha Hb. rewrite (val_add RS). rewrite <- (rnd_val RS b) at 1. apply (rnd_mono RS).
  destruct (val RS a), (val RS b); cbn in *; try tauto. rewrite <- (Rplus_0_l r0) at 1. now apply Rplus_le_compat_r.
Qed.
Lemma diff_number (a b : S) : nfin a = true -> nfin b = true -> val RS (a - b)%num <> XNaN.
Proof.
  rewrite !(val_fin RS), (val_sub RS). intros Ha Hb H. apply (rnd_not_nan RS) in H. destruct (val RS a), (val RS b); discriminate.
Qed.
Lemma root_positive (a : S) : xlt (XR 0) (val RS a) -> xlt (XR 0) (val RS (nsqrt a)).
Proof.
  intros H. rewrite (val_sqrt RS). destruct (val RS a) as [r| | |] eqn:E; cbn in H; try tauto.
  - unfold xsqrt. destruct (Rlt_dec r 0) as [L0|L0]; [exfalso; lra|]. assert (L : (0 <= r)%R) by lra.
    assert (Q : xle (XR r) (rnd RS (XR (sqrt r))) \/ xle (XR 1) (rnd RS (XR (sqrt r)))).
    { destruct (Rle_lt_dec r 1) as [L1|L1].
      - left. rewrite <- E, <- (rnd_val RS a), E. apply (rnd_mono RS). cbn. rewrite <- (sqrt_Rsqr r) at 1 by exact L. apply sqrt_le_1_alt. unfold Rsqr. rewrite <- (Rmult_1_r r) at 3. now apply Rmult_le_compat_l.
      - right. replace (XR 1) with (rnd RS (XR 1)) by (apply (rnd_int RS 1); pose proof (intmax_pos RS); lia). apply (rnd_mono RS). cbn. rewrite <- sqrt_1. apply sqrt_le_1_alt. lra. }
    destruct Q as [Q|Q]; destruct (rnd RS (XR (sqrt r))); cbn in *; try tauto; lra.
  - cbn. rewrite (rnd_pinf RS). exact I.
Qed.
End Apart.

(** *** Properties *)

(** Two particles with finite coordinates are at a positive softened distance as soon as the square of the softening is
    positive. *)
Lemma c113_softened : forall (W S : Num) (RS : Rounded S) (cast : W -> S) K (g' g : galaxy W),
  (forall v, In v (p_x (g_stars g) ++ others p_x g ++ p_y (g_stars g) ++ others p_y g ++ p_z (g_stars g) ++ others p_z g) -> nfin (cast v) = true) ->
  (forall v, In v (only K (others p_x g') ++ only K (others p_y g') ++ only K (others p_z g')) -> nfin (cast v) = true) ->
  (forall s, largest_softening g' s -> nlt n0 (cast s * cast s)%num = true) ->
  off_centre cast K g' g.
Proof.
  intros W S RS cast K g' g Fg Fg' Fs s Hs p q Hp Hq. specialize (Fs s Hs).
  destruct p as [[x y] [z m]], q as [[x' y'] [z' m']].
  assert (SI : forall X Y Z M : list S, forall a b c d, In (a, b, (c, d)) (sources X Y Z M) -> In a X /\ In b Y /\ In c Z).
  { intros X Y Z M a b c d H. unfold sources in H. split; [|split].
    - apply in_combine_l in H. now apply in_combine_l in H.
    - apply in_combine_l in H. now apply in_combine_r in H.
    - apply in_combine_r in H. now apply in_combine_l in H. }
  apply SI in Hp as (Px & Py & Pz). apply SI in Hq as (Qx & Qy & Qz).
  assert (FI : forall l v, In v (map cast l) -> (forall u, In u l -> nfin (cast u) = true) -> nfin v = true).
  { intros l v H H'. apply in_map_iff in H as (u & <- & Hu). auto. }
  apply FI in Px; [|intros u Hu; apply Fg; rewrite !in_app_iff in *; tauto].
  apply FI in Py; [|intros u Hu; apply Fg; rewrite !in_app_iff in *; tauto].
  apply FI in Pz; [|intros u Hu; apply Fg; rewrite !in_app_iff in *; tauto].
  apply FI in Qx; [|intros u Hu; apply Fg'; rewrite !in_app_iff in *; tauto].
  apply FI in Qy; [|intros u Hu; apply Fg'; rewrite !in_app_iff in *; tauto].
  apply FI in Qz; [|intros u Hu; apply Fg'; rewrite !in_app_iff in *; tauto].
  unfold soft_dist. assert (V0 : val RS (n0 : S) = XR 0) by (unfold n0; rewrite (val_ofZ RS); apply (rnd_int RS 0); pose proof (intmax_pos RS); lia).
  apply (nlt_iff RS) in Fs. apply (nlt_iff RS). rewrite V0 in *. apply root_positive.
  assert (T : forall a b c : xr, xle a b -> xle b c -> xle a c) by (intros [r| | |] [r0| | |] [r1| | |]; cbn; try tauto; lra).
  eapply xlt_le_trans; [exact Fs|]. apply sum_nonneg; [|destruct (val RS (cast s * cast s)%num); cbn in *; try tauto; lra].
  pose proof (square_nonneg RS (x - x')%num (diff_number RS _ _ Px Qx)) as A.
  pose proof (square_nonneg RS (y - y')%num (diff_number RS _ _ Py Qy)) as B.
  pose proof (square_nonneg RS (z - z')%num (diff_number RS _ _ Pz Qz)) as C.
  eapply T; [exact C|]. apply sum_nonneg; [|exact C]. eapply T; [exact B|]. now apply sum_nonneg.
Qed.

(** Potential: a massless particle adds nothing to the potential of any other particle, to the last bit. *)
Lemma c113_potential : forall sm sm' K G have junk (g' g : galaxy (F64s sm)),
  constructible g' -> constructible g -> removed K g' g -> massless K g' -> same_softening g g' ->
  off_centre (W:=F64s sm) (S:=F32s sm') to32 K g' g ->
  let run := potential (W:=F64s sm) (S:=F32s sm') to32 to64 (backend_table G have junk) "fortran" in
  (forall e, run g' = Raise e -> run g = Raise e) /\
  (forall h', run g' = Ok h' -> exists h, run g = Ok h /\ constructible h' /\ constructible h /\ removed K h' h).
Proof.
  intros sm sm' K G have junk g' g Hg' Hg R Ml Ss Oc run. apply constructible_ok in Hg, Hg'.
  destruct (tr_potential sm sm' K G have junk g' g Hg' Hg R Ml Ss Oc) as (E & O). split; [exact E|].
  intros h H. destruct (O h H) as (k & H' & K1 & K2 & F & _). exists k. split; [exact H'|]. split; [now apply constructible_ok|]. split; [now apply constructible_ok|exact F].
Qed.

(** Centring: the origin is the same when no particle that is left out has the lowest potential. *)
Lemma c113_center : forall (N : Num) (RN : Rounded N) K (g' g : galaxy N), constructible g' -> constructible g -> removed K g' g -> shallow K g' g ->
  (forall e, center g' = Raise e -> center g = Raise e) /\
  (forall h', center g' = Ok h' -> exists h, center g = Ok h /\ constructible h' /\ constructible h /\ removed K h' h).
Proof.
  intros N RN K g' g Hg' Hg R Sh. apply constructible_ok in Hg, Hg'.
  destruct (tr_center RN K g' g Hg' Hg R Sh) as (E & O). split; [exact E|].
  intros h H. destruct (O h H) as (k & H' & K1 & K2 & F & _). exists k. split; [exact H'|]. split; [now apply constructible_ok|]. split; [now apply constructible_ok|exact F].
Qed.

(** Alignment: only the stars decide. *)
Lemma c113_align : forall (N : Num) fma mm, is_matmul fma mm -> column_by_column (N:=N) mm ->
  forall K (g' g : galaxy N) c, constructible g' -> constructible g -> removed K g' g ->
  (forall e, star_align_with mm g' c = Raise e -> star_align_with mm g c = Raise e) /\
  (forall h', star_align_with mm g' c = Ok h' -> exists h, star_align_with mm g c = Ok h /\ constructible h' /\ constructible h /\ removed K h' h).
Proof.
  intros N fma mm MM CC K g' g c Hg' Hg R. apply constructible_ok in Hg, Hg'.
  destruct (tr_align fma mm MM CC K g' g c Hg' Hg R) as (E & O). split; [exact E|].
  intros h H. destruct (O h H) as (k & H' & K1 & K2 & F & _). exists k. split; [exact H'|]. split; [now apply constructible_ok|]. split; [now apply constructible_ok|exact F].
Qed.

(** Circularity: particles that are not bound and are not stars do not count, with or without mass. *)
Lemma c113_circularity : forall (N : Num) (RN : Rounded N) argsort K (g' g : galaxy N) b0 b1,
  constructible g' -> constructible g -> removed K g' g -> escaping K g' -> jcirc argsort g b0 b1 = jcirc argsort g' b0 b1.
Proof. intros N RN argsort K g' g b0 b1 Hg' Hg R E. apply constructible_ok in Hg, Hg'. now apply (tr_jcirc RN argsort K). Qed.

(** Labels: what a decomposer of stars says about the stars depends only on their number and on the result of jcirc; it says
    nothing about the other particles. *)
Lemma c113_labels : forall (N : Num) (RN : Rounded N) argsort argsort' St (D : decomposer N St) st (g' g : galaxy N),
  constructible g' -> constructible g -> star_method D -> plen (g_stars g) = plen (g_stars g') ->
  jcirc argsort g (fst (d_cbins D)) (snd (d_cbins D)) = jcirc argsort' g' (fst (d_cbins D)) (snd (d_cbins D)) ->
  agree (plen (g_stars g')) (decompose argsort D st g) (decompose argsort' D st g').
Proof.
  intros N RN argsort argsort' St D st g' g Hg' Hg (A1 & A2 & A3) L E. apply constructible_ok in Hg, Hg'.
  apply (tr_decompose RN); auto. now split.
Qed.

(** The whole analysis: the stars get the same labels, probabilities and state of the generator, or the same error. *)
Lemma c113_whole : forall sm sm' fma mm, is_matmul fma mm -> column_by_column (N:=F64s sm) mm ->
  forall G have junk argsort St (D : decomposer (F64s sm) St) st K (g' g : galaxy (F64s sm)) c,
  constructible g' -> constructible g -> star_method D ->
  removed K g' g -> massless K g' -> same_softening g g' -> off_centre (W:=F64s sm) (S:=F32s sm') to32 K g' g ->
  let pot := potential (W:=F64s sm) (S:=F32s sm') to32 to64 (backend_table G have junk) "fortran" in
  (forall h' h, pot g' = Ok h' -> pot g = Ok h -> shallow K h' h) ->
  (forall h', (do h0 <- pot g'; do h1 <- center h0; star_align_with mm h1 c) = Ok h' -> escaping K h') ->
  agree (plen (g_stars g'))
    (do h0 <- pot g; do h1 <- center h0; do h2 <- star_align_with mm h1 c; decompose argsort D st h2)
    (do h0 <- pot g'; do h1 <- center h0; do h2 <- star_align_with mm h1 c; decompose argsort D st h2).
Proof.
  intros sm sm' fma mm MM CC G have junk argsort St D st K g' g c Hg' Hg HM R Ml Ss Oc pot Sh Es.
  pose proof (F64_rounded sm) as RW. apply constructible_ok in Hg, Hg'.
  destruct (tr_potential sm sm' K G have junk g' g Hg' Hg R Ml Ss Oc) as (E0 & O0). fold pot in E0, O0.
  destruct (pot g') as [h0'|e]; [|rewrite (E0 e eq_refl); reflexivity].
  destruct (O0 h0' eq_refl) as (h0 & E & K0' & K0 & R0 & N0). rewrite E in *. cbn [bind] in *.
  destruct (tr_center RW K h0' h0 K0' K0 R0 (Sh h0' h0 eq_refl eq_refl)) as (E1 & O1).
  destruct (center h0') as [h1'|e]; [|rewrite (E1 e eq_refl); reflexivity].
  destruct (O1 h1' eq_refl) as (h1 & -> & K1' & K1 & R1 & N1). cbn [bind] in *.
  destruct (tr_align fma mm MM CC K h1' h1 c K1' K1 R1) as (E2 & O2).
  destruct (star_align_with mm h1' c) as [h2'|e] eqn:EA; [|rewrite (E2 e eq_refl); reflexivity].
  destruct (O2 h2' eq_refl) as (h2 & -> & K2' & K2 & R2 & N2). cbn [bind] in *.
  rewrite <- N0, <- N1, <- N2. apply constructible_ok in K2, K2'.
  apply (c113_labels (F64s sm) RW argsort argsort St D st h2' h2 K2' K2 HM).
  - now rewrite (rm_stars _ _ _ R2).
  - apply (c113_circularity (F64s sm) RW argsort K h2' h2 _ _ K2' K2 R2). now apply Es.
Qed.

(** *** A bound one leaves a trace *)
(** The galaxy of the example of C97 with a massless particle of gas. *)
Definition exT_gal (x y z vx vy vz : Z) : galaxy F64 :=
  mkGal (exW_set STARS [131072; 131072] [6; 4] [5; 5] [5; 5] [0; 448] [0; 0] [-511; 246])%Z
        (exW_set DARK_MATTER [65536] [5] [5] [5] [0] [0] [0])%Z (exW_set GAS [0] [x] [y] [z] [vx] [vy] [vz])%Z false.
Definition exT_run (g : galaxy F64) : res (list spec_float) :=
  rmap shows (analysis (sm:=seqsum 53 1024 p53 e1024) (sm':=seqsum 24 128 p24 e128) asort (backend_table n1 true junk0) "fortran" (plain_matmul (S:=F64)) (fun _ => 77%Z) (nlit 9 10) g).
Lemma exT_ok x y z vx vy vz : constructible (exT_gal x y z vx vy vz).
Proof.
  apply constructible_ok, gal_ok_facts. constructor; try reflexivity.
  all: apply pset_ok_iff; split; [|reflexivity]; repeat split; intros p H; discriminate H.
Qed.
Lemma exT_removed x y z vx vy vz : removed [false; true] (exT_gal x y z vx vy vz) exW_gal.
Proof. constructor; reflexivity. Qed.
Lemma exT_massless x y z vx vy vz : massless [false; true] (exT_gal x y z vx vy vz).
Proof. repeat constructor. Qed.
Lemma exT_soft x y z vx vy vz : same_softening exW_gal (exT_gal x y z vx vy vz).
Proof.
  exists (fZ 0). split; left; exists (g_stars exW_gal); (split; [split; [now left|split; [discriminate|reflexivity]]|]);
  (split; [reflexivity|]); intros q (Iq & _); repeat (destruct Iq as [<-|Iq]; [reflexivity|]); destruct Iq.
Qed.
(** Distances that are positive with one value of the largest softening are so with the other. *)
Lemma off_centre_check sm sm' K (g' g : galaxy (F64s sm)) s : largest_softening g' s ->
  forallb (fun p => forallb (fun q => nlt n0 (soft_dist (S:=F32s sm') (to32 s) p q)) (marked_sources (W:=F64s sm) (S:=F32s sm') to32 K g'))
    (all_sources (W:=F64s sm) (S:=F32s sm') to32 g) = true -> off_centre (W:=F64s sm) (S:=F32s sm') to32 K g' g.
Proof.
  intros Hs F t Ht p q Hp Hq. rewrite forallb_forall in F. specialize (F p Hp). rewrite forallb_forall in F. specialize (F q Hq).
  assert (E : ((to32 t : F32s sm') * to32 t)%num = ((to32 s : F32s sm') * to32 s)%num).
  { apply soft_square. apply (soft_same sm g' g' t s); auto. exists s. auto. }
  destruct p as [[x y] [z m]], q as [[x' y'] [z' m']]. unfold soft_dist in *. now rewrite E.
Qed.
Lemma shallow_check {N : Num} K (g' g : galaxy N) :
  forallb (fun p => existsb (fun q => nlt q p) (pots (g_stars g) ++ others pots g)) (only K (others pots g')) = true -> shallow K g' g.
Proof.
  intros F. apply Forall_forall. intros p Hp. rewrite forallb_forall in F. specialize (F p Hp). apply existsb_exists in F as (q & Iq & Cq). eauto.
Qed.
Lemma escaping_check {N : Num} K (g' : galaxy N) : forallb (fun o => negb (bound o)) (only K (others orbits g')) = true -> escaping K g'.
Proof. intros F. apply Forall_forall. intros o Ho. rewrite forallb_forall in F. specialize (F o Ho). now destruct (bound o). Qed.
Definition exT_pot (g : galaxy F64) : res (galaxy F64) :=
  potential (W:=F64) (S:=F32) to32 to64 (backend_table n1 true junk0) "fortran" g.
Lemma exT_off x y z vx vy vz :
  forallb (fun p => forallb (fun q => nlt n0 (soft_dist (S:=F32) (to32 (fZ 0)) p q)) (marked_sources (W:=F64) (S:=F32) to32 [false; true] (exT_gal x y z vx vy vz)))
    (all_sources (W:=F64) (S:=F32) to32 exW_gal) = true -> off_centre (W:=F64) (S:=F32) to32 [false; true] (exT_gal x y z vx vy vz) exW_gal.
Proof.
  apply off_centre_check. left. exists (g_stars exW_gal). split; [split; [now left|split; [discriminate|reflexivity]]|].
  split; [reflexivity|]. intros q (Iq & _). repeat (destruct Iq as [<-|Iq]; [reflexivity|]). destruct Iq.
Qed.
Lemma exT_shallow x y z vx vy vz :
  match exT_pot (exT_gal x y z vx vy vz), exT_pot exW_gal with
  | Ok h', Ok h => forallb (fun p => existsb (fun q => nlt q p) (pots (g_stars h) ++ others pots h)) (only [false; true] (others pots h'))
  | _, _ => false end = true ->
  forall h' h, exT_pot (exT_gal x y z vx vy vz) = Ok h' -> exT_pot exW_gal = Ok h -> shallow [false; true] h' h.
Proof. intros F h' h E' E. rewrite E', E in F. now apply shallow_check. Qed.

(** A massless particle that is bound can change the label of a star. *)
Lemma c113_bound_refuted : exists (K : list bool) (g' g : galaxy F64), constructible g' /\ constructible g /\
  removed K g' g /\ massless K g' /\ same_softening g g' /\ off_centre (W:=F64) (S:=F32) to32 K g' g /\
  (forall h' h, potential (W:=F64) (S:=F32) to32 to64 (backend_table n1 true junk0) "fortran" g' = Ok h' ->
     potential (W:=F64) (S:=F32) to32 to64 (backend_table n1 true junk0) "fortran" g = Ok h -> shallow K h' h) /\
  exists l l', plen (g_stars g) = 2%nat /\
  analysis (sm:=seqsum 53 1024 p53 e1024) (sm':=seqsum 24 128 p24 e128) asort (backend_table n1 true junk0) "fortran" (plain_matmul (S:=F64)) (fun _ => 77%Z) (nlit 9 10) g = Ok l /\
  analysis (sm:=seqsum 53 1024 p53 e1024) (sm':=seqsum 24 128 p24 e128) asort (backend_table n1 true junk0) "fortran" (plain_matmul (S:=F64)) (fun _ => 77%Z) (nlit 9 10) g' = Ok l' /\
  shows (firstn 2 l) = [sZ 1; sZ 0] /\ shows (firstn 2 l') = [sZ 0; sZ 0].
Proof.
  exists [false; true], (exT_gal 5 5 8 456 0 0), exW_gal.
  split; [apply exT_ok|]. split; [exact exW_ok|]. split; [apply exT_removed|]. split; [apply exT_massless|]. split; [apply exT_soft|].
  split; [apply exT_off; vm_compute; reflexivity|]. split; [apply exT_shallow; vm_compute; reflexivity|].
  assert (X : forall g, match exT_run g with Ok s => exists l, analysis (sm:=seqsum 53 1024 p53 e1024) (sm':=seqsum 24 128 p24 e128) asort (backend_table n1 true junk0) "fortran" (plain_matmul (S:=F64)) (fun _ => 77%Z) (nlit 9 10) g = Ok l /\ shows (firstn 2 l) = firstn 2 s | Raise _ => True end).
  { intros g. unfold exT_run. destruct (analysis _ _ _ _ _ _ g) as [l|]; [|exact I]. exists l. split; [reflexivity|]. unfold shows. now rewrite firstn_map. }
  pose proof (X exW_gal) as X1. pose proof (X (exT_gal 5 5 8 456 0 0)) as X2. clear X.
  assert (E1 : exT_run exW_gal = Ok [sZ 1; sZ 0; S754_nan]) by (vm_compute; reflexivity).
  assert (E2 : exT_run (exT_gal 5 5 8 456 0 0) = Ok [sZ 0; sZ 0; S754_nan; S754_nan]) by (vm_compute; reflexivity).
  rewrite E1 in X1. rewrite E2 in X2. destruct X1 as (l & L1 & L2), X2 as (l' & L1' & L2'). exists l, l'.
  split; [reflexivity|]. split; [exact L1|]. split; [exact L1'|]. split; [exact L2|exact L2'].
Qed.

(** *** An example *)
(** The hypotheses of C113 hold for a massless particle of gas that leaves the galaxy, and the stars keep their labels. *)
Example ex_c113 : let sm := seqsum 53 1024 p53 e1024 in let sm' := seqsum 24 128 p24 e128 in let K := [false; true] in
  let g := exW_gal in let g' := exT_gal 100 5 5 1000 0 0 in
  let pot := potential (W:=F64s sm) (S:=F32s sm') to32 to64 (backend_table n1 true junk0) "fortran" in
  constructible g' /\ constructible g /\ removed K g' g /\ massless K g' /\ same_softening g g' /\ off_centre (W:=F64s sm) (S:=F32s sm') to32 K g' g /\
  (forall h' h, pot g' = Ok h' -> pot g = Ok h -> shallow K h' h) /\
  (forall h', (do h0 <- pot g'; do h1 <- center h0; star_align_with (plain_matmul (S:=F64s sm)) h1 None) = Ok h' -> escaping K h') /\
  glen g' = S (glen g) /\
  rmap shows (analysis (sm:=sm) (sm':=sm') asort (backend_table n1 true junk0) "fortran" (plain_matmul (S:=F64)) (fun _ => 77%Z) (nlit 9 10) g) = Ok [sZ 1; sZ 0; S754_nan] /\
  rmap shows (analysis (sm:=sm) (sm':=sm') asort (backend_table n1 true junk0) "fortran" (plain_matmul (S:=F64)) (fun _ => 77%Z) (nlit 9 10) g') = Ok [sZ 1; sZ 0; S754_nan; S754_nan].
Proof.
  cbv zeta. split; [apply exT_ok|]. split; [exact exW_ok|]. split; [apply exT_removed|]. split; [apply exT_massless|]. split; [apply exT_soft|].
  split; [apply exT_off; vm_compute; reflexivity|]. split; [apply exT_shallow; vm_compute; reflexivity|]. split.
  { assert (F : match (do h0 <- exT_pot (exT_gal 100 5 5 1000 0 0); do h1 <- center h0; star_align_with (plain_matmul (S:=F64)) h1 None) with
       | Ok h' => forallb (fun o => negb (bound o)) (only [false; true] (others orbits h')) | Raise _ => false end = true) by (vm_compute; reflexivity).
    intros h' E. unfold exT_pot in F. change (F64s (seqsum 53 1024 p53 e1024)) with F64 in *. change (F32s (seqsum 24 128 p24 e128)) with F32 in *.
    rewrite E in F. now apply escaping_check. }
  split; [reflexivity|]. split; vm_compute; reflexivity.
Qed.
