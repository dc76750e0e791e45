(** Facts about the potential API. *)
From Verif Require Import Py Num RX Np Df Data DataFacts DfFacts RebuildFacts Center CenterFacts Align
  Spec SpecR SpecPot DataThms CenterThms AlignFacts Potential PotConcFacts.

Section PotFacts.
Context {W S : Num} (cast : W -> S) (lift : S -> W).
Implicit Types (g : galaxy W) (p : pset W).

Definition pot_set (l : list W) (p : pset W) : pset W :=
  pset_of (p_type p) (p_m p) (p_x p) (p_y p) (p_z p) (p_vx p) (p_vy p) (p_vz p) (Some l) (p_soft p).
Definition pot_gal (ls ld lg : list W) (g : galaxy W) : galaxy W :=
  mkGal (pot_set ls (g_stars g)) (pot_set ld (g_dm g)) (pot_set lg (g_gas g)) true.

Definition gm (g : galaxy W) : list W := p_m (g_stars g) ++ p_m (g_dm g) ++ p_m (g_gas g).
Definition gsoft (g : galaxy W) : list W :=
  repeat (p_soft (g_stars g)) (plen (g_stars g)) ++ repeat (p_soft (g_dm g)) (plen (g_dm g)) ++
  repeat (p_soft (g_gas g)) (plen (g_gas g)).
Lemma gcol_m g : gal_ok g -> to_numpy (gcol g "m") = gm g.
Proof. intros H. apply gal_ok_facts in H as [gf_s0 gf_d0 gf_g0 gf_ts0 gf_td0 gf_tg0 gf_hs0 gf_hd0 gf_hg0]. unfold gcol, gm. rewrite !to_numpy_app.
  now rewrite !pcol_num_m by auto. Qed.
Lemma gcol_soft g : to_numpy (gcol g "softening") = gsoft g.
Proof. unfold gcol, gsoft. rewrite !to_numpy_app. now rewrite !pcol_soft. Qed.

Lemma pot_set_ok l p : pset_ok p -> length l = plen p -> pset_ok (pot_set l p).
Proof.
  intros H L. apply pset_ok_iff. split; [|reflexivity].
  pose proof (pset_ok_lens _ H) as (A1 & B & C & D & E & F & G).
  repeat split; simpl; auto. intros q [= <-]. exact L.
Qed.
Lemma pot_gal_ok ls ld lg g : gal_ok g -> length ls = plen (g_stars g) -> length ld = plen (g_dm g) ->
  length lg = plen (g_gas g) -> gal_ok (pot_gal ls ld lg g).
Proof.
  intros H A B C. apply gal_ok_facts in H as [gf_s0 gf_d0 gf_g0 gf_ts0 gf_td0 gf_tg0 gf_hs0 gf_hd0 gf_hg0].
  apply gal_ok_facts. constructor; simpl; auto using pot_set_ok.
Qed.

Lemma ncol_gal n g ks k : In k ks -> ncol (mkDf n (keyed (gcol g) ks)) k = Ok (to_numpy (gcol g k)).
Proof. intros H. unfold ncol. rewrite get_col_keyed by auto. reflexivity. Qed.

Lemma potential_eq table name g f : gal_ok g -> g_haspot g = false -> dget table name = Some f ->
  potential cast lift table name g =
  do pot <- f (map cast (gx g)) (map cast (gy g)) (map cast (gz g)) (map cast (gm g)) (cast (pd_max (gsoft g)));
  let neg := map (fun v => lift (nopp v)) in
  let a := plen (g_stars g) in let b := plen (g_dm g) in
  build (mkUpd (p_m (g_stars g)) (p_x (g_stars g)) (p_y (g_stars g)) (p_z (g_stars g)) (p_vx (g_stars g))
           (p_vy (g_stars g)) (p_vz (g_stars g)) (Some (neg (firstn a pot))) (p_soft (g_stars g)))
        (mkUpd (p_m (g_dm g)) (p_x (g_dm g)) (p_y (g_dm g)) (p_z (g_dm g)) (p_vx (g_dm g))
           (p_vy (g_dm g)) (p_vz (g_dm g)) (Some (neg (firstn b (skipn a pot)))) (p_soft (g_dm g)))
        (mkUpd (p_m (g_gas g)) (p_x (g_gas g)) (p_y (g_gas g)) (p_z (g_gas g)) (p_vx (g_gas g))
           (p_vy (g_gas g)) (p_vz (g_gas g)) (Some (neg (skipn (a + b) pot))) (p_soft (g_gas g))).
Proof.
  intros Hg Hp Hf. unfold potential. rewrite Hp, Hf. cbn [guard bind negb].
  rewrite to_df_all; [|assumption|intros k Hk; exact Hk|apply center_attrs_arrays; simpl; tauto].
  cbn [bind]. rewrite !ncol_gal by (apply dedup_In; simpl; tauto). cbn [bind].
  rewrite gcol_x, gcol_y, gcol_z, gcol_m, gcol_soft by auto.
  destruct (f _ _ _ _ _) as [pot|e]; [|reflexivity]. cbn [bind].
  rewrite Nat.add_comm, Nat.add_sub, Nat.add_comm.
  rewrite as_kwargs_kw3. rewrite <- mkgalaxy_kw3. reflexivity.
Qed.

Lemma potential_ok table name g f pot : gal_ok g -> g_haspot g = false -> dget table name = Some f ->
  f (map cast (gx g)) (map cast (gy g)) (map cast (gz g)) (map cast (gm g)) (cast (pd_max (gsoft g))) = Ok pot ->
  length pot = glen g ->
  let neg := map (fun v => lift (nopp v)) in
  let a := plen (g_stars g) in let b := plen (g_dm g) in
  potential cast lift table name g =
  Ok (pot_gal (neg (firstn a pot)) (neg (firstn b (skipn a pot))) (neg (skipn (a + b) pot)) g).
Proof.
  intros Hg Hp Hf Hpot Hl neg a b. rewrite (potential_eq _ _ _ _ Hg Hp Hf), Hpot. cbn [bind].
  apply gal_ok_facts in Hg as [gf_s0 gf_d0 gf_g0 gf_ts0 gf_td0 gf_tg0 gf_hs0 gf_hd0 gf_hg0].
  unfold glen in Hl. fold a b in Hl.
  assert (U : forall p l, pset_ok p -> length l = plen p ->
     upd_lens (mkUpd (p_m p) (p_x p) (p_y p) (p_z p) (p_vx p) (p_vy p) (p_vz p) (Some l) (p_soft p))).
  { intros p l Hk Hn. pose proof (pset_ok_lens _ Hk) as (A1 & B & C & D & E & F & G).
    repeat split; simpl; auto. intros q [= <-]. exact Hn. }
  rewrite build_ok; try reflexivity.
  - unfold pot_gal, pot_set, pset_upd; simpl. now rewrite gf_ts0, gf_td0, gf_tg0.
  - apply U; auto. rewrite map_length, firstn_length. fold a. lia.
  - apply U; auto. rewrite map_length, firstn_length, skipn_length. fold a b. lia.
  - apply U; auto. rewrite map_length, skipn_length. fold a b. lia.
Qed.

Lemma pot_gal_same ls ld lg g : gal_ok g -> Forall2 same_but_potential (sets g) (sets (pot_gal ls ld lg g)).
Proof.
  intros H. apply gal_ok_facts in H as [gf_s0 gf_d0 gf_g0 gf_ts0 gf_td0 gf_tg0 gf_hs0 gf_hd0 gf_hg0].
  assert (K : forall p l, pset_ok p -> same_but_potential p (pot_set l p)).
  { intros p l Hp. unfold same_but_potential; simpl.
    rewrite (pset_ok_Jx _ Hp), (pset_ok_Jy _ Hp), (pset_ok_Jz _ Hp), (pset_ok_ke _ Hp). repeat split. }
  apply Forall2_sets. split; [|split]; apply K; auto.
Qed.

Lemma split3 {A} (l : list A) a b : firstn a l ++ firstn b (skipn a l) ++ skipn (a + b) l = l.
Proof.
  assert (skipn (a + b) l = skipn b (skipn a l)) as ->.
  { revert l; induction a as [|a IH]; intros [|x l]; simpl; auto; destruct b; auto. }
  now rewrite firstn_skipn, firstn_skipn.
Qed.
End PotFacts.

(** ** The maximum *)
Section Max.
Context {N : Num} (RN : Rounded N).
Lemma fold_max l : forall a : N, nisnan a = false -> Forall (fun v => nisnan v = false) l ->
  In (fold_left (fun a b => if nlt a b then b else a) l a) (a :: l) /\
  forall v, In v (a :: l) -> nlt (fold_left (fun a b => if nlt a b then b else a) l a) v = false.
Proof.
  induction l as [|b l IH]; intros a Ha Hl; simpl.
  - split; [auto|]. intros v [<-|[]]. apply (nlt_irrefl RN).
  - inversion Hl as [|? ? Hb Hl']; subst. destruct (nlt a b) eqn:E.
    + destruct (IH b Hb Hl') as [I1 I2]. split; [simpl in I1; tauto|].
      intros v [<-|[<-|Hv]]; [|apply I2; simpl; auto|apply I2; simpl; auto].
      specialize (I2 b (or_introl eq_refl)). apply (nlt_false RN). apply (nlt_false RN) in I2.
      apply (nlt_iff RN) in E. intros Q. apply I2. eapply xlt_trans; eauto.
    + destruct (IH a Ha Hl') as [I1 I2]. split; [simpl in I1; tauto|].
      intros v [<-|[<-|Hv]]; [apply I2; simpl; auto| |apply I2; simpl; auto].
      specialize (I2 a (or_introl eq_refl)). apply (nlt_false RN). apply (nlt_false RN) in I2, E.
      apply (nisnan_false RN) in Ha, Hb.
      assert (La : xle (val RN b) (val RN a)).
      { destruct (xle_total (val RN b) (val RN a) Hb Ha); tauto. }
      intros Q. apply I2. eapply xlt_le_trans; eauto.
Qed.

Lemma pd_max_spec (l : list N) :
  (In (pd_max l) l /\ nisnan (pd_max l) = false /\ forall v, In v l -> nlt (pd_max l) v = false) \/
  (pd_max l = nnan /\ forall v, In v l -> nisnan v = true).
Proof.
  unfold pd_max. set (f := fun v : N => negb (nisnan v)). destruct (filter f l) as [|a l'] eqn:E.
  - right. split; [reflexivity|]. intros v Hv. destruct (nisnan v) eqn:Ev; [reflexivity|].
    assert (In v (filter f l)) as H by (apply filter_In; unfold f; rewrite Ev; auto).
    rewrite E in H. destruct H.
  - left. assert (F : Forall (fun v => nisnan v = false) (a :: l')).
    { rewrite <- E. apply Forall_forall. intros v Hv. apply filter_In in Hv as [_ Hv]. unfold f in Hv.
      now destruct (nisnan v). }
    inversion F as [|? ? Fa Fl]; subst. destruct (fold_max l' a Fa Fl) as [I1 I2].
    set (s := fold_left _ l' a) in *. split; [|split].
    + rewrite <- E in I1. apply filter_In in I1. tauto.
    + rewrite Forall_forall in F. auto.
    + intros v Hv. destruct (nisnan v) eqn:Ev.
      * apply (nlt_false RN). apply (nisnan_iff RN) in Ev. rewrite Ev. destruct (val RN s); simpl; tauto.
      * apply I2. rewrite <- E. apply filter_In. unfold f. rewrite Ev. auto.
Qed.

Lemma gsoft_In (g : galaxy N) v : In v (gsoft g) <-> exists p, In p (sets g) /\ plen p <> 0%nat /\ p_soft p = v.
Proof.
  assert (R : forall p : pset N, In v (repeat (p_soft p) (plen p)) <-> plen p <> 0%nat /\ p_soft p = v).
  { intros p. split.
    - intros H. split; [|symmetry; now apply repeat_spec in H]. intros E. rewrite E in H. destruct H.
    - intros [H <-]. destruct (plen p); [contradiction|simpl; auto]. }
  unfold gsoft. rewrite !in_app_iff, !R. unfold sets. split.
  - intros [H|[H|H]]; eexists; (split; [|exact H]); simpl; auto.
  - intros (p & Hp & H). simpl in Hp. destruct Hp as [<-|[<-|[<-|[]]]]; auto.
Qed.

Lemma pd_max_softening (g : galaxy N) : largest_softening g (pd_max (gsoft g)).
Proof.
  destruct (pd_max_spec (gsoft g)) as [(A & B & C)|(A & B)].
  - left. apply gsoft_In in A as (p & Hp & Hl & Hs). exists p. rewrite Hs. split; [auto|]. split; [reflexivity|].
    intros q (Hq & Hn & _). apply C. apply gsoft_In. eauto.
  - right. split; [exact A|]. intros p (Hp & Hn & Hs).
    rewrite B in Hs; [discriminate|]. apply gsoft_In. eauto.
Qed.
End Max.
