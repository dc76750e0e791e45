(** Decomposers by circularity attributes, end to end. *)
From Verif Require Import Py Num RX F64 Np Df Data DataFacts DfFacts CenterFacts Ex Spec DataThms SpecCirc Circ CircFacts CircThms SpecBase Base BaseFacts BaseThms Threshold.

Lemma rank_surj mask r : (r < selected_rows mask)%nat -> exists i, nth_error mask i = Some true /\ rank mask i = r.
Proof.
  revert r. induction mask as [|[|] mask IH]; intros r H; unfold selected_rows in H; simpl in H.
  - lia.
  - destruct r as [|r]; [exists 0%nat; split; reflexivity|]. destruct (IH r) as (i & E & R); [unfold selected_rows; lia|].
    exists (S i). split; [exact E|]. unfold rank in *. simpl. now rewrite R.
  - destruct (IH r) as (i & E & R); [exact H|]. exists (S i). split; [exact E|]. unfold rank in *. simpl. exact R.
Qed.

Lemma located_star {N : Num} (g : galaxy N) i p k : constructible g -> located g i p k -> p_type p = STARS -> p = g_stars g /\ i = k /\ (k < plen (g_stars g))%nat.
Proof.
  intros Hc H T. pose proof (proj1 (constructible_ok _) Hc) as Hg. destruct H as [before q after k Hs Hk].
  destruct Hg as (_ & _ & _ & Hg). apply mk_galaxy_inv in Hg as (_ & _ & _ & T1 & T2 & T3). unfold sets in Hs.
  destruct before as [|b before]; [injection Hs as <- Hs; simpl; auto|].
  exfalso.
  injection Hs as _ Hs. destruct before as [|b' before]; [injection Hs as <- _; congruence|].
  injection Hs as _ Hs. destruct before as [|b'' before]; [injection Hs as <- _; congruence|].
  injection Hs as _ Hs. destruct before; discriminate.
Qed.
Lemma star_located {N : Num} (g : galaxy N) k : (k < plen (g_stars g))%nat -> located g k (g_stars g) k.
Proof. intros H. apply (located_intro g [] (g_stars g) [g_dm g; g_gas g] k); [reflexivity|exact H]. Qed.

Section Eps.
Context {N : Num} (RN : Rounded N) (argsort : nat -> list N -> list nat).

(** The circularity attributes a class may use safely. *)
Definition star_attrs (A : list string) : Prop :=
  A <> [] /\ forall a, In a A -> circ_attr a /\ a <> "normalized_star_Jz"%string.

Lemma star_attrs_rows g A : star_attrs A -> one_row_each (N:=N) g A.
Proof. intros (_ & H) I. exfalso. now apply (proj2 (H _ I)). Qed.
Lemma star_attrs_circ A : star_attrs A -> exists a, In a A /\ circ_attr a.
Proof. intros (Hn & H). destruct A as [|a A]; [contradiction|]. exists a. split; [now left|]. apply H; now left. Qed.

Lemma nth_select {A} mask (l : list A) i : nth_error mask i = Some true -> length mask = length l ->
  nth_error (select mask l) (rank mask i) = nth_error l i.
Proof. intros H L. rewrite <- bmask_select. now apply bmask_rank. Qed.

Lemma star_decompose St (D : decomposer N St) st (g : galaxy N) c st' :
  constructible g -> star_attrs (d_attributes D) -> d_mask D = stars_mask ->
  (forall st X y a l p s, d_split D st X y a = Ok (l, p, s) -> length l = length X) ->
  decompose argsort D st g = Ok (c, st') ->
  exists j Xs ys labels pr sel,
    jcirc argsort g (fst (d_cbins D)) (snd (d_cbins D)) = Ok j /\
    d_split D st Xs ys (d_attributes D) = Ok (labels, pr, st') /\ length sel = glen g /\
    length Xs = selected_rows sel /\
    (forall i p k, located g i p k ->
      let usable := p_type p = STARS /\ forall a, In a (d_attributes D) -> exists v, nth_error (circ_col j a) k = Some v /\ nfin v = true in
      (nth_error sel i = Some true <-> usable) /\
      (usable -> exists z, nth_error labels (rank sel i) = Some z /\ nth_error (c_labels c) i = Some (nofZ z) /\
             forall n a, nth_error (d_attributes D) n = Some a -> nth_error (matrix_col n Xs) (rank sel i) = nth_error (circ_col j a) k) /\
        (~ usable -> nth_error (c_labels c) i = Some nnan)) /\
    (forall r, (r < length Xs)%nat -> exists k, (k < plen (g_stars g))%nat /\ nth_error sel k = Some true /\ rank sel k = r).
Proof.
  intros Hc HA Hm Hs H. pose proof (star_attrs_rows g _ HA) as Ho.
  destruct (decompose_inv _ _ _ _ _ _ H) as (X & y & mask & labels & pr & H1 & H2 & H3 & H4 & H5 & H6 & H7 & H8).
  destruct (c37_matrix N RN argsort _ g _ X y Hc H1 Ho) as (LX & Ly & j & Hj & Hrow).
  pose proof (Hj (star_attrs_circ _ HA)) as Ej.
  exists j, (select mask X), (select mask y), labels, pr, mask. split; [exact Ej|]. split; [exact H5|]. split; [congruence|].
  split; [now apply select_length|].
  rewrite Hm in H2. destruct (c36_mask N X y _ mask H2) as (_ & Hmask); [congruence|].
  pose proof (Hs _ _ _ _ _ _ _ H5) as Hlen. rewrite select_length in Hlen by exact H3.
  destruct (c36_labels N X labels mask _ H6 Hlen) as (_ & _ & HT & HF).
  assert (U : forall i p k, located g i p k ->
     (nth_error mask i = Some true <-> p_type p = STARS /\ forall a, In a (d_attributes D) -> exists v, nth_error (circ_col j a) k = Some v /\ nfin v = true)).
  { intros i p k Hl. destruct (Hrow i p k Hl) as (Hy & row & Er & Lr & Hcell). rewrite Hmask. split.
    - intros (r & cc & E1 & E2 & F & T). assert (r = row) as -> by congruence. assert (cc = CInt (ptype_value (p_type p))) as -> by congruence.
      assert (TS : p_type p = STARS).
      { destruct T as [T|(x & T & _)]; [|discriminate]. destruct (p_type p); [reflexivity|discriminate|discriminate]. }
      split; [exact TS|]. intros a Ha. pose proof Ha as Ha'. apply In_nth_error in Ha as (n & Hn). destruct (Hcell n a Hn) as (v & Ev & Av).
      rewrite Forall_forall in F. pose proof (F v (nth_error_In _ _ Ev)) as Fv.
      destruct Av as [(A1 & A2 & w & A3 & ->)|[(A1 & A2 & A3)|(A1 & A2)]].
      + exists w. split; [exact A3|exact Fv].
      + contradiction.
      + exfalso. apply A1, HA, Ha'.
    - intros (T & F). exists row, (CInt 0). split; [exact Er|]. split; [rewrite Hy, T; reflexivity|]. split; [|auto].
      apply Forall_forall. intros v Hv. apply In_nth_error in Hv as (n & Hn).
      destruct (nth_error (d_attributes D) n) as [a|] eqn:Ea.
      + destruct (Hcell n a Ea) as (v' & Ev & Av). assert (v' = v) as -> by congruence.
        destruct (F a (nth_error_In _ _ Ea)) as (v2 & A2 & F2).
        destruct Av as [(B1 & B2 & w & B3 & ->)|[(B1 & B2 & B3)|(B1 & B2)]].
        * assert (w = v2) as -> by congruence. exact F2.
        * contradiction.
        * exfalso. apply B1. apply HA. eapply nth_error_In; eauto.
      + apply nth_error_None in Ea. assert (n < length row)%nat by (apply nth_error_Some; congruence). lia. }
  split.
  - intros i p k Hl usable. split; [now apply U|]. split.
    + intros Hu. apply (proj2 (U i p k Hl)) in Hu as Eb. destruct (HT i Eb) as (z & Ez & Ew). exists z. split; [exact Ez|]. split; [exact Ew|].
      intros n a Hn. unfold matrix_col. rewrite nth_error_map, nth_select by auto.
      destruct (Hrow i p k Hl) as (Hy & row & Er & Lr & Hcell). rewrite Er. cbn [option_map].
      destruct (Hcell n a Hn) as (v & Ev & Av). rewrite (nth_error_nth _ _ _ Ev).
      destruct Av as [(B1 & B2 & w & B3 & ->)|[(B1 & B2 & B3)|(B1 & B2)]].
      * rewrite B3. reflexivity.
      * destruct Hu. contradiction.
      * exfalso. apply B1. apply HA. eapply nth_error_In; eauto.
    + intros Nu. apply HF. destruct (nth_error mask i) as [[|]|] eqn:E; [|reflexivity|].
      * exfalso. apply Nu. exact (proj1 (U i p k Hl) E).
      * apply nth_error_None in E. destruct (Hrow i p k Hl) as (_ & row & Er & _).
        assert (i < length X)%nat by (apply nth_error_Some; congruence). lia.
  - intros r Hr. rewrite select_length in Hr by exact H3. destruct (rank_surj _ _ Hr) as (i & Ei & Er).
    assert (Hi : (i < glen g)%nat) by (rewrite <- LX, <- H3; apply nth_error_Some; congruence).
    destruct (c37_located N g i Hi) as (p & k & Hl). pose proof (proj1 (U i p k Hl) Ei) as (T & _).
    destruct (located_star g i p k Hc Hl T) as (-> & -> & Hk). exists k. auto.
Qed.

(** Outcome: only jcirc and the class itself can fail. *)
Lemma star_decompose_errors St (D : decomposer N St) st (g : galaxy N) :
  constructible g -> star_attrs (d_attributes D) -> d_mask D = stars_mask ->
  (forall e, jcirc argsort g (fst (d_cbins D)) (snd (d_cbins D)) = Raise e -> decompose argsort D st g = Raise e) /\
  (forall j, jcirc argsort g (fst (d_cbins D)) (snd (d_cbins D)) = Ok j ->
   exists X y mask, attributes_matrix argsort (d_cbins D) g (d_attributes D) = Ok (X, y) /\
     stars_mask X y (d_attributes D) = Ok mask /\ length mask = length X /\ length mask = length y /\
     (forall n, (n < length (d_attributes D))%nat -> forall v, In v (matrix_col n (select mask X)) ->
        nfin v = true /\ forall a, nth_error (d_attributes D) n = Some a -> In v (circ_col j a)) /\
     (forall e, d_split D st (select mask X) (select mask y) (d_attributes D) = Raise e -> decompose argsort D st g = Raise e) /\
     (forall l st', d_split D st (select mask X) (select mask y) (d_attributes D) = Ok (l, None, st') ->
        length l = selected_rows mask -> exists c, decompose argsort D st g = Ok (c, st') /\ c_probs c = None)).
Proof.
  intros Hc HA Hm. pose proof (star_attrs_rows g _ HA) as Ho. destruct (c37_errors N RN argsort (d_cbins D) g (d_attributes D) Hc) as (_ & _ & C).
  destruct C as (_ & C); [apply HA|intros a Ha; left; now apply HA|]. destruct (C (star_attrs_circ _ HA)) as (C1 & C2). split.
  - intros e He. unfold decompose. now rewrite (C1 e He).
  - intros j Hj. destruct (C2 j Hj) as (_ & C3). destruct C3 as (X & y & E).
    { intros (I & _). now apply (proj2 (proj2 HA _ I)). }
    destruct (c37_matrix N RN argsort _ g _ X y Hc E Ho) as (LX & Ly & j' & Hj' & Hrow).
    assert (exists mask, stars_mask X y (d_attributes D) = Ok mask /\ length mask = length X) as (mask & Em & Lm).
    { unfold stars_mask. assert (existsb (existsb is_str) X = false) as ->.
      { apply not_true_iff_false. intros Hx. apply existsb_exists in Hx as (row & Ir & Hx). apply existsb_exists in Hx as (v & Iv & Hv).
        apply In_nth_error in Ir as (i & Ei). assert (Hi : (i < glen g)%nat) by (rewrite <- LX; apply nth_error_Some; congruence).
        destruct (c37_located N g i Hi) as (p & k & Hl). destruct (Hrow i p k Hl) as (_ & row' & Er & Lr & Hcell).
        assert (row' = row) as -> by congruence. apply In_nth_error in Iv as (n & En).
        destruct (nth_error (d_attributes D) n) as [a|] eqn:Ea.
        - destruct (Hcell n a Ea) as (v' & Ev & Av). assert (v' = v) as -> by congruence.
          destruct Av as [(B1 & B2 & w & B3 & ->)|[(B1 & B2 & ->)|(B1 & B2)]]; try discriminate.
          apply B1. apply HA. eapply nth_error_In; eauto.
        - apply nth_error_None in Ea. assert (n < length row)%nat by (apply nth_error_Some; congruence). lia. }
      cbn [negb guard bind]. rewrite bop_eq by (rewrite !map_length; congruence). eexists. split; [reflexivity|].
      rewrite map2_length, !map_length. lia. }
    exists X, y, mask. split; [exact E|]. split; [exact Em|]. split; [exact Lm|]. split; [congruence|].
    destruct (c36_mask N X y _ mask Em) as (_ & Hmask); [congruence|]. split; [|split].
    + intros n Hn v Hv. unfold matrix_col in Hv. apply in_map_iff in Hv as (row & <- & Ir). apply In_nth_error in Ir as (r & Er).
      assert (Hr : (r < selected_rows mask)%nat).
      { rewrite <- (select_length mask X Lm). apply nth_error_Some. congruence. }
      destruct (rank_surj _ _ Hr) as (i & Ei & <-). rewrite nth_select in Er by auto.
      destruct (proj1 (Hmask i) Ei) as (row' & cc & E1 & _ & F & _). assert (row' = row) as -> by congruence.
      assert (Hi : (i < glen g)%nat) by (rewrite <- LX; apply nth_error_Some; congruence).
      destruct (c37_located N g i Hi) as (p & k & Hl). destruct (Hrow i p k Hl) as (_ & row' & E2 & Lr & Hcell).
      assert (row' = row) as -> by congruence. destruct (nth_error (d_attributes D) n) as [a|] eqn:Ea; [|apply nth_error_None in Ea; lia].
      destruct (Hcell n a Ea) as (v & Ev & Av). rewrite (nth_error_nth _ _ _ Ev). rewrite Forall_forall in F.
      pose proof (F v (nth_error_In _ _ Ev)) as Fv.
      destruct Av as [(B1 & B2 & w & B3 & ->)|[(B1 & B2 & ->)|(B1 & B2)]].
      { split; [exact Fv|]. intros a' Ea'. assert (a' = a) as -> by congruence.
        pose proof (Hj' (star_attrs_circ _ HA)) as Ej. rewrite Hj in Ej. injection Ej as <-. eapply nth_error_In; eauto. }
      { exfalso. apply (nfin_iff RN) in Fv as (q & Eq). rewrite (val_nnan RN) in Eq. discriminate. }
      exfalso. apply B1. apply HA. eapply nth_error_In; eauto.
    + intros e He. unfold decompose. rewrite E. cbn [bind]. rewrite Hm, Em. cbn [bind]. unfold select_rows.
      assert (length mask =? length X = true)%nat as -> by now apply Nat.eqb_eq.
      assert (length mask =? length y = true)%nat as -> by (apply Nat.eqb_eq; congruence).
      cbn [guard bind]. rewrite !bmask_select, He. reflexivity.
    + intros l st' Hl Ll. assert (Hm' : d_mask D X y (d_attributes D) = Ok mask) by now rewrite Hm.
      destruct (c35_succeeds N RN argsort St D st g X y mask l None st' Hc Ho E Hm' Lm Hl Ll) as (c & Ec); [discriminate|].
      exists c. split; [exact Ec|].
      destruct (decompose_inv _ _ _ _ _ _ Ec) as (X1 & y1 & mask1 & labels1 & pr1 & G1 & G2 & G3 & G4 & G5 & G6 & G7 & G8).
      rewrite E in G1. injection G1 as <- <-. rewrite Hm' in G2. injection G2 as <-. rewrite Hl in G5. injection G5 as <- <-.
      cbn [complete_probs] in G7. injection G7 as <-. reflexivity.
Qed.

End Eps.
