(** Threshold decomposition (C40). *)
From Verif Require Import Py Num RX F64 Np Df Data DataFacts DfFacts CenterFacts Ex Spec DataThms SpecCirc Circ CircFacts CircThms SpecBase Base BaseFacts BaseThms Threshold EpsFacts.
From Coq Require Import Floats.SpecFloat.

Lemma assign_all_ok {A} (a : list A) idx v : (forall i, In i idx -> (i < length a)%nat) -> exists r, assign_all a idx v = Ok r /\
  length r = length a /\ (forall i, In i idx -> nth_error r i = Some v) /\ (forall i, ~ In i idx -> nth_error r i = nth_error a i).
Proof.
  intros H. unfold assign_all. destruct (scatter_Ok a idx (repeat v (length idx)) H) as (r & E). exists r. split; [exact E|].
  split; [now apply scatter_length in E|]. split.
  - intros i Hi. now apply (scatter_const _ _ _ _ _ E).
  - intros i Hi. now apply (scatter_other _ _ _ _ _ E).
Qed.
Lemma np_empty_nth junk n i : (i < n)%nat -> nth_error (np_empty junk n) i = Some (junk i).
Proof. intros H. unfold np_empty. rewrite nth_error_map, (nth_error_nth' _ 0%nat) by now rewrite seq_length. now rewrite seq_nth. Qed.
Lemma np_empty_length junk n : length (np_empty junk n) = n.
Proof. unfold np_empty. now rewrite map_length, seq_length. Qed.

Lemma jthreshold_split_spec {N : Num} (RN : Rounded N) junk (cut : N) X : exists l, jthreshold_split junk cut X = Ok l /\ length l = length X /\
  forall r e, nth_error (matrix_col 0 X) r = Some e ->
    nth_error l r = Some (if nlt cut e then 1%Z else if nle e cut then 0%Z else junk r).
Proof.
  unfold jthreshold_split. set (eps := matrix_col 0 X). assert (Le : length eps = length X) by (unfold eps, matrix_col; now rewrite map_length).
  assert (B : forall f i, In i (where_ (map f eps)) -> (i < length X)%nat).
  { intros f i H. apply where_In in H. rewrite <- Le, <- (map_length f). apply nth_error_Some. congruence. }
  destruct (assign_all_ok (np_empty junk (length X)) (where_ (map (fun e => nle e cut) eps)) 0%Z) as (l0 & E0 & L0 & I0 & O0).
  { intros i Hi. rewrite np_empty_length. eauto. }
  rewrite E0. cbn [bind]. rewrite np_empty_length in L0.
  destruct (assign_all_ok l0 (where_ (map (fun e => ngt e cut) eps)) 1%Z) as (l1 & E1 & L1 & I1 & O1).
  { intros i Hi. rewrite L0. eauto. }
  exists l1. split; [exact E1|]. split; [congruence|]. intros r e Hr.
  assert (Hlt : (r < length X)%nat) by (rewrite <- Le; apply nth_error_Some; congruence).
  assert (W : forall f, In r (where_ (map f eps)) <-> f e = true).
  { intros f. rewrite where_In, nth_error_map, Hr. cbn. split; congruence. }
  destruct (nlt cut e) eqn:G.
  - apply I1, W. exact G.
  - rewrite O1 by (rewrite W; unfold ngt; congruence). destruct (nle e cut) eqn:F.
    + apply I0, W, F.
    + rewrite O0 by (rewrite W; congruence). now apply np_empty_nth.
Qed.

Lemma eps_attrs : star_attrs ["eps"%string].
Proof. split; [discriminate|]. intros a [<-|[]]. split; [|discriminate]. right; right; now left. Qed.
Lemma jthreshold_rows {N : Num} (RN : Rounded N) junk cb (cut : N) st X y a l p s :
  d_split (jthreshold junk cb cut) st X y a = Ok (l, p, s) -> length l = length X.
Proof.
  cbn [d_split jthreshold]. destruct (jthreshold_split_spec RN junk cut X) as (l' & -> & L & _). cbn [bind]. congruence.
Qed.

(** decompose labels a star 1 if its circularity exceeds the cut, 0 if it does not, and NaN
    if its circularity is not finite; dark matter and gas get NaN; there are no
    probabilities. *)
Lemma c40_rule : forall (N : Num) (RN : Rounded N) argsort junk cb (cut : N) (g : galaxy N) c st',
  constructible g -> nisnan cut = false -> decompose argsort (jthreshold junk cb cut) tt g = Ok (c, st') ->
  c_probs c = None /\
  exists j, jcirc argsort g (fst cb) (snd cb) = Ok j /\
  forall i p k, located g i p k -> exists w, nth_error (c_labels c) i = Some w /\
    (p_type p = STARS -> exists e, nth_error (jc_eps j) k = Some e /\
       ((nfin e = true /\ nlt cut e = true /\ w = nofZ 1) \/
        (nfin e = true /\ nle e cut = true /\ w = nofZ 0) \/
        (nfin e = false /\ w = nnan))) /\
    (p_type p <> STARS -> w = nnan).
Proof.
  intros N RN argsort junk cb cut g c st' Hc Hn H. split.
  { destruct (decompose_inv _ _ _ _ _ _ H) as (X & y & mask & labels & pr & _ & _ & _ & _ & H5 & _ & H7 & _).
    cbn [d_split jthreshold] in H5. destruct (jthreshold_split _ _ _); [|discriminate]. injection H5 as _ <- _.
    cbn [complete_probs] in H7. congruence. }
  destruct (star_decompose RN argsort unit (jthreshold junk cb cut) tt g c st' Hc eps_attrs eq_refl (jthreshold_rows RN junk cb cut) H)
    as (j & Xs & ys & labels & pr & sel & Hj & Hs & Ls & LX & Hl & _). exists j. split; [exact Hj|].
  cbn [d_split jthreshold] in Hs. destruct (jthreshold_split_spec RN junk cut Xs) as (l' & El & Ll & Hv). rewrite El in Hs. cbn [bind] in Hs.
  injection Hs as -> _ _. intros i p k Hk. destruct (Hl i p k Hk) as (_ & Hu & Hnu). cbn [d_attributes jthreshold] in Hu, Hnu.
  assert (NS : p_type p <> STARS -> nth_error (c_labels c) i = Some nnan) by (intros NS; apply Hnu; intros (T & _); contradiction).
  destruct (ptype_eqb (p_type p) STARS) eqn:T.
  2:{ assert (p_type p <> STARS) as T' by (intros T'; rewrite T' in T; discriminate). exists nnan. split; [auto|]. split; [contradiction|auto]. }
  apply ptype_eqb_eq in T. destruct (located_star g i p k Hc Hk T) as (-> & -> & Hlt).
  destruct (nth_error_lt (jc_eps j) k) as (e & He).
  { destruct (c31_lengths N RN argsort g _ _ j Hc Hj) as (_ & Le & _). now rewrite Le. }
  destruct (nfin e) eqn:Fe.
  - destruct Hu as (z & Ez & Ew & Ha).
    { split; [exact T|]. intros a [<-|[]]. exists e. auto. }
    exists (nofZ z). split; [exact Ew|]. split; [|contradiction]. intros _. exists e. split; [exact He|].
    specialize (Ha 0%nat "eps"%string eq_refl). rewrite Hv with (e := e) in Ez by (rewrite Ha; exact He). injection Ez as <-.
    assert (Ne : nisnan e = false).
    { apply (nfin_iff RN) in Fe as (r & Er). apply (nisnan_false RN). rewrite Er. discriminate. }
    destruct (nlt cut e) eqn:G; [left; auto|]. right; left. rewrite (v_nle RN) by auto. auto.
  - exists nnan. split; [|split; [|auto]].
    + apply Hnu. intros (_ & Hf). destruct (Hf "eps"%string) as (v & E & F); [now left|].
      change (circ_col j "eps") with (jc_eps j) in E. congruence.
    + intros _. exists e. auto.
Qed.

(** decompose fails exactly as jcirc does, and what it returns does not depend on the
    uninitialised memory the labels are built in. *)
Lemma c40_total : forall (N : Num) (RN : Rounded N) argsort junk cb (cut : N) (g : galaxy N), constructible g ->
  (forall e, jcirc argsort g (fst cb) (snd cb) = Raise e -> decompose argsort (jthreshold junk cb cut) tt g = Raise e) /\
  (forall j, jcirc argsort g (fst cb) (snd cb) = Ok j ->
     exists c, decompose argsort (jthreshold junk cb cut) tt g = Ok (c, tt) /\
       (nisnan cut = false -> forall junk', decompose argsort (jthreshold junk' cb cut) tt g = Ok (c, tt))).
Proof.
  intros N RN argsort junk cb cut g Hc.
  destruct (star_decompose_errors RN argsort unit (jthreshold junk cb cut) tt g Hc eps_attrs eq_refl) as (R & K).
  split; [exact R|]. intros j Hj. destruct (K j Hj) as (X & y & mask & E & Em & Lm & Ly & Fin & _ & Hok).
  cbn [d_split d_attributes d_cbins jthreshold] in Hok, Fin, E, Em.
  destruct (jthreshold_split_spec RN junk cut (select mask X)) as (l & El & Ll & Hv).
  rewrite El in Hok. cbn [bind] in Hok. destruct (Hok l tt eq_refl) as (c & Ec & _).
  { rewrite Ll. now apply select_length. }
  exists c. split; [exact Ec|]. intros Hn junk'.
  assert (S : jthreshold_split junk' cut (select mask X) = Ok l).
  { destruct (jthreshold_split_spec RN junk' cut (select mask X)) as (l' & El' & Ll' & Hv'). rewrite El'. f_equal. apply nth_error_ext. intros r.
    destruct (nth_error (matrix_col 0 (select mask X)) r) as [e|] eqn:Er.
    - rewrite (Hv _ _ Er), (Hv' _ _ Er). destruct (nlt cut e) eqn:G; [reflexivity|].
      assert (Fe : nfin e = true) by (apply (Fin 0%nat); [simpl; auto|eapply nth_error_In; eauto]).
      rewrite (v_nle RN); auto. apply (nfin_iff RN) in Fe as (q & Eq). apply (nisnan_false RN). rewrite Eq. discriminate.
    - apply nth_error_None in Er. unfold matrix_col in Er. rewrite map_length in Er.
      rewrite !(proj2 (nth_error_None _ _)) by lia. reflexivity. }
  revert Ec. unfold decompose. cbn [d_cbins d_attributes d_mask d_split jthreshold]. rewrite E. cbn [bind]. rewrite Em. cbn [bind].
  unfold select_rows. assert (length mask =? length X = true)%nat as -> by now apply Nat.eqb_eq.
  assert (length mask =? length y = true)%nat as -> by now apply Nat.eqb_eq.
  cbn [guard bind]. rewrite !bmask_select, El, S. auto.
Qed.

Lemma nofZ_01 {N : Num} (RN : Rounded N) : (nofZ 1 : N) <> nofZ 0 /\ (nofZ 1 : N) <> nnan.
Proof.
  split; intros E; apply (f_equal (val RN)) in E.
  - rewrite !(val_small RN) in E by lia. injection E. lra.
  - rewrite (val_small RN), (val_nnan RN) in E by lia. discriminate.
Qed.

(** Raising the cut never moves a particle into the disk. *)
Lemma c40_monotone : forall (N : Num) (RN : Rounded N) argsort junk junk' cb (cut cut' : N) (g : galaxy N) c c' st st' i,
  constructible g -> nle cut cut' = true ->
  decompose argsort (jthreshold junk cb cut) tt g = Ok (c, st) ->
  decompose argsort (jthreshold junk' cb cut') tt g = Ok (c', st') ->
  nth_error (c_labels c') i = Some (nofZ 1) -> nth_error (c_labels c) i = Some (nofZ 1).
Proof.
  intros N RN argsort junk junk' cb cut cut' g c c' st st' i Hc Hle H H' Hi.
  pose proof (proj1 (nle_iff RN _ _) Hle) as Hx.
  assert (N1 : nisnan cut = false) by (apply (nisnan_false RN); now apply xle_nan_l in Hx).
  assert (N2 : nisnan cut' = false) by (apply (nisnan_false RN); now apply xle_nan_r in Hx).
  destruct (c40_rule N RN _ _ _ _ g c st Hc N1 H) as (_ & j & Hj & R).
  destruct (c40_rule N RN _ _ _ _ g c' st' Hc N2 H') as (_ & j' & Hj' & R'). rewrite Hj in Hj'. injection Hj' as <-.
  destruct (c35_aligned N RN argsort unit (jthreshold junk' cb cut') tt g c' st' Hc (star_attrs_rows g _ eps_attrs) H') as (L & _).
  assert (Hlt : (i < glen g)%nat) by (rewrite <- L; apply nth_error_Some; congruence).
  destruct (c37_located N g i Hlt) as (p & k & Hl). destruct (R i p k Hl) as (w & Ew & A & B). destruct (R' i p k Hl) as (w' & Ew' & A' & B').
  assert (w' = nofZ 1) as -> by congruence. destruct (nofZ_01 RN) as (Z1 & Z2).
  destruct (ptype_eqb (p_type p) STARS) eqn:T.
  2:{ exfalso. apply Z2. apply B'. intros T'; rewrite T' in T; discriminate. }
  apply ptype_eqb_eq in T. destruct (A T) as (e & He & C). destruct (A' T) as (e' & He' & C'). assert (e' = e) as -> by congruence.
  destruct C' as [(F & G & _)|[(_ & _ & E)|(_ & E)]]; [|contradiction|contradiction].
  destruct C as [(_ & _ & ->)|[(_ & G' & _)|(F' & _)]]; [exact Ew| |congruence].
  exfalso. apply (nle_iff RN) in G'. apply (nlt_iff RN) in G. apply (xlt_not_le _ _ G). eapply xle_trans; eauto.
Qed.

(** C40: the same from the constructor: what the class is given are the bins and the cut that decide. *)
Lemma c40_constructed : forall (N : Num) (RN : Rounded N) argsort junk (b0 b1 cut : N) v D (g : galaxy N) c st',
  constructible g -> (v = HPy (PyFloat cut) \/ exists z, v = HPy (PyInt z) /\ cut = nofZ z) -> nisnan cut = false ->
  mk_jthreshold junk (HTuple [PyFloat b0; PyFloat b1]) v = Ok D -> decompose argsort D tt g = Ok (c, st') ->
  c_probs c = None /\
  exists j, jcirc argsort g b0 b1 = Ok j /\
  forall i p k, located g i p k -> exists w, nth_error (c_labels c) i = Some w /\
    (p_type p = STARS -> exists e, nth_error (jc_eps j) k = Some e /\
       ((nfin e = true /\ nlt cut e = true /\ w = nofZ 1) \/
        (nfin e = true /\ nle e cut = true /\ w = nofZ 0) \/
        (nfin e = false /\ w = nnan))) /\
    (p_type p <> STARS -> w = nnan).
Proof.
  intros N RN argsort junk b0 b1 cut v D g c st' Hg Hv Hn HD Hd.
  assert (D = jthreshold junk (b0, b1) cut) as ->.
  { revert HD. unfold mk_jthreshold. cbn [bins_validator bind].
    destruct Hv as [->|(z & -> & ->)]; unfold check_eps_cut; cbn [py_number bind].
    - destruct (_ || _)%bool; [discriminate|]. cbn [bind]. congruence.
    - destruct (_ || _)%bool; [discriminate|]. cbn [bind]. congruence. }
  exact (c40_rule N RN argsort junk (b0, b1) cut g c st' Hg Hn Hd).
Qed.

(** eps_cut = NaN passes the validator, and then the label of every star with a finite
    circularity is whatever the memory held: for each of them and each value there is a
    content of the memory for which it gets that value. *)
Lemma c40_uninitialised : forall (N : Num) (RN : Rounded N) argsort (b0 b1 : N) (g : galaxy N) j, constructible g ->
  jcirc argsort g b0 b1 = Ok j ->
  exists D : (nat -> Z) -> decomposer N unit,
    (forall junk, mk_jthreshold junk (HTuple [PyFloat b0; PyFloat b1]) (HPy (PyFloat nnan)) = Ok (D junk)) /\
    forall k e, nth_error (jc_eps j) k = Some e -> nfin e = true ->
      forall z, exists junk c, decompose argsort (D junk) tt g = Ok (c, tt) /\ nth_error (c_labels c) k = Some (nofZ z).
Proof.
  intros N RN argsort b0 b1 g j Hc Hj. exists (fun junk => jthreshold junk (b0, b1) nnan).
  assert (Nn : nisnan (nnan : N) = true) by (apply (nisnan_iff RN), (val_nnan RN)). split.
  - intros junk. unfold mk_jthreshold. cbn [bins_validator bind].
    destruct (c39_eps_cut N RN (HPy (PyFloat nnan))) as (K & _). destruct (K nnan eq_refl) as (_ & _ & K').
    rewrite K' by apply (val_nnan RN). reflexivity.
  - intros k e He Fe z. exists (fun _ => z).
    destruct (c40_total N RN argsort (fun _ => z) (b0, b1) nnan g Hc) as (_ & T). destruct (T j Hj) as (c & Ec & _). exists c. split; [exact Ec|].
    destruct (star_decompose RN argsort unit (jthreshold (fun _ => z) (b0, b1) nnan) tt g c tt Hc eps_attrs eq_refl (jthreshold_rows RN _ _ _) Ec)
      as (j' & Xs & ys & labels & pr & sel & Hj' & Hs & Ls & LX & Hl & _). cbn [d_cbins jthreshold fst snd] in Hj'. rewrite Hj in Hj'. injection Hj' as <-.
    cbn [d_split jthreshold] in Hs. destruct (jthreshold_split_spec RN (fun _ => z) nnan Xs) as (l' & El & Ll & Hv). rewrite El in Hs. cbn [bind] in Hs.
    injection Hs as -> _.
    assert (Hk : (k < plen (g_stars g))%nat).
    { destruct (c31_lengths N RN argsort g _ _ j Hc Hj) as (_ & Le & _). rewrite <- Le. apply nth_error_Some. congruence. }
    destruct (Hl k (g_stars g) k (star_located g k Hk)) as (_ & Hu & _). destruct Hu as (z' & Ez & Ew & Ha).
    { split; [|intros a [<-|[]]; exists e; auto].
      pose proof (proj1 (constructible_ok _) Hc) as (_ & _ & _ & Hg). now apply mk_galaxy_inv in Hg as (_ & _ & _ & T1 & _). }
    rewrite Ew. do 2 f_equal. specialize (Ha 0%nat "eps"%string eq_refl). rewrite Hv with (e := e) in Ez by (rewrite Ha; exact He).
    injection Ez as <-.
    assert (nlt nnan e = false) as ->.
    { apply (nlt_false RN). rewrite (val_nnan RN). intros []. }
    assert (nle e nnan = false) as ->; [|reflexivity].
    apply (nle_false RN). rewrite (val_nnan RN). intros Hx. apply xle_nan_r in Hx. now apply Hx.
Qed.

(** The sample galaxy: circularities 1, 1, -1, NaN, NaN for its stars. *)
Example ex_c40 :
  map (fun cut => rmap (fun r => shows (c_labels (fst r)))
         (do g <- sampleG; decompose asort (jthreshold (fun _ => 77%Z) (default_bin0, default_bin1) cut) tt g))
      [nlit 3 5; n1; nm1; nnan] =
  [Ok [sZ 1; sZ 1; sZ 0; S754_nan; S754_nan; S754_nan; S754_nan; S754_nan];
   Ok [sZ 0; sZ 0; sZ 0; S754_nan; S754_nan; S754_nan; S754_nan; S754_nan];
   Ok [sZ 1; sZ 1; sZ 0; S754_nan; S754_nan; S754_nan; S754_nan; S754_nan];
   Ok [sZ 77; sZ 77; sZ 77; S754_nan; S754_nan; S754_nan; S754_nan; S754_nan]].
Proof. vm_compute. reflexivity. Qed.

Example ex_c40_constructed :
  map (fun v => rmap (fun r => shows (c_labels (fst r)))
         (do g <- sampleG; do D <- mk_jthreshold (fun _ => 77%Z) (HTuple [PyFloat default_bin0; PyFloat default_bin1]) v;
          decompose asort D tt g))
      [HPy (PyFloat (nlit 3 5)); HPy (PyInt 1)] =
  [Ok [sZ 1; sZ 1; sZ 0; S754_nan; S754_nan; S754_nan; S754_nan; S754_nan];
   Ok [sZ 0; sZ 0; sZ 0; S754_nan; S754_nan; S754_nan; S754_nan; S754_nan]].
Proof. vm_compute. reflexivity. Qed.
