(** Mixture models and k-means (C47, C48, C49). *)
From Verif Require Import Py Num RX F64 Np Df Data DataFacts DfFacts CenterFacts Ex Spec DataThms SpecCirc Circ CircFacts CircThms SpecBase Base BaseFacts BaseThms Threshold EpsFacts Hist SpecMix Center Mixture MixFacts MixStar.
From Coq Require Import Floats.SpecFloat Permutation Sorted Reals Lra Lia.

Lemma lit_half {N : Num} (RN : Rounded N) : xle (val RN (nlit 1 2)) (val RN (nlit 85 100)) /\ val RN (nlit (-3) 4) <> XNaN.
Proof.
  assert (V : forall p q, (Z.abs p <= 1024)%Z -> (0 < q <= 1024)%Z -> val RN (nlit p q) = rnd RN (XR (IZR p / IZR q))).
  { intros p q Hp Hq. unfold nlit. pose proof (intmax_pos RN).
    assert (Vq : val RN (nofZ q) = XR (IZR q)) by (rewrite (val_ofZ RN), (rnd_int RN) by lia; reflexivity).
    assert (Vp : val RN (nofZ p) = XR (IZR p)) by (rewrite (val_ofZ RN), (rnd_int RN) by lia; reflexivity).
    assert (IZR q <> 0%R) by (apply not_0_IZR; lia).
    rewrite (val_div RN) by (rewrite Vq; intros [= E]; contradiction). rewrite Vp, Vq. simpl. destruct (Req_EM_T (IZR q) 0); [contradiction|reflexivity]. }
  rewrite !V by lia. split; [apply (rnd_mono RN); simpl; lra|]. intros E. apply (rnd_not_nan RN) in E. discriminate.
Qed.

(** Each point of the plane lies in exactly one of the four regions; a centre with a NaN
    circularity lies in none. *)
Lemma c47_regions : forall (N : Num) (RN : Rounded N) (energy eps : N),
  (nisnan eps = false -> nisnan energy = false -> exists k, belongs k energy eps = true /\ forall k', belongs k' energy eps = true -> k' = k) /\
  (nisnan eps = true -> forall k, belongs k energy eps = false).
Proof.
  intros N RN energy eps. destruct (lit_half RN) as (L & L0). set (a := nlit 1 2) in *. set (b := nlit 85 100) in *. set (c := nlit (-3) 4) in *.
  split.
  - intros He Hn. apply (nisnan_false RN) in He, Hn.
    assert (D : forall x y : N, val RN x <> XNaN -> val RN y <> XNaN -> (nle x y = true /\ nlt y x = false) \/ (nle x y = false /\ nlt y x = true)).
    { intros x y Hx Hy. destruct (xle_total _ _ Hx Hy) as [H|H].
      - left. split; [now apply (nle_iff RN)|]. apply (nlt_false RN). intros H'. now apply xlt_not_le in H'.
      - right. split; [|now apply (nlt_iff RN)]. apply (nle_false RN). intros H'. now apply xlt_not_le in H. }
    destruct (D b eps) as [(B1 & B2)|(B1 & B2)]; [now apply xle_nan_r in L|exact He| |].
    + assert (A2 : nlt eps a = false).
      { apply (nlt_false RN). intros H. apply (nle_iff RN) in B1. apply xlt_not_le in H. apply H. eapply xle_trans; eauto. }
      exists ColdDisk. split; [exact B1|]. intros [| | |]; unfold belongs; fold a; fold b; fold c; rewrite ?A2, ?B2, ?andb_false_r; try discriminate; reflexivity.
    + destruct (D a eps) as [(A1 & A2)|(A1 & A2)]; [now apply xle_nan_l in L|exact He| |].
      * exists WarmDisk. unfold belongs. fold a; fold b; fold c. rewrite A1, B2. split; [reflexivity|].
        intros [| | |]; rewrite ?A2, ?B1; try discriminate; reflexivity.
      * destruct (D c energy) as [(C1 & C2)|(C1 & C2)]; [exact L0|exact Hn| |].
        -- exists Halo. unfold belongs. fold a; fold b; fold c. rewrite A2, C1. split; [reflexivity|].
           intros [| | |]; rewrite ?A1, ?B1, ?C2; cbn [andb]; try discriminate; reflexivity.
        -- exists Bulge. unfold belongs. fold a; fold b; fold c. rewrite A2, C2. split; [reflexivity|].
           intros [| | |]; rewrite ?A1, ?B1, ?C1; cbn [andb]; try discriminate; reflexivity.
  - intros He k. apply (nisnan_iff RN) in He.
    assert (E1 : forall x, nle x eps = false) by (intros x; apply (nle_false RN); rewrite He; intros H; now apply xle_nan_r in H).
    assert (E2 : forall x, nlt eps x = false) by (intros x; apply (nlt_false RN); rewrite He; intros []).
    destruct k; unfold belongs; rewrite ?E1, ?E2; reflexivity.
Qed.

Lemma tot_kind {N : Num} (means : list (list N)) n row :
  tot t_halo means (seq 0 n) row n0 = from_kind Halo n means row /\ tot t_bulge means (seq 0 n) row n0 = from_kind Bulge n means row /\
  tot t_cold means (seq 0 n) row n0 = from_kind ColdDisk n means row /\ tot t_warm means (seq 0 n) row n0 = from_kind WarmDisk n means row.
Proof.
  split; [reflexivity|]. split; [reflexivity|]. split; [reflexivity|]. unfold tot, from_kind. do 2 f_equal.
  apply filter_ext. intros i. unfold t_warm, belongs, nge. apply andb_comm.
Qed.

(** Every particle gets the probabilities of the four structures, in the order halo, bulge,
    cold disk, warm disk, and a label from 0 to 3: the first of the most probable. *)
Lemma c47_grouping : forall (N : Num) (RN : Rounded N) (f : fitted N) (X : matrix N) labels p,
  group f X = Ok (labels, p) ->
  exists q, f_proba f X = Ok q /\ pr_width p = 4%nat /\ length (pr_rows p) = length X /\ length labels = length X /\
  (forall r, (r < length X)%nat -> exists z row, nth_error labels r = Some (Z.of_nat z) /\ (z < 4)%nat /\
     nth_error (pr_rows p) r = Some row /\ length row = 4%nat /\
     ((forall v, In v row -> nisnan v = false) -> first_max row z)) /\
  (length (pr_rows q) = length X -> forall r qrow, nth_error (pr_rows q) r = Some qrow ->
     nth_error (pr_rows p) r = Some (map (fun k => from_kind k (f_n f) (f_means f) qrow) kinds)).
Proof.
  intros N RN f X labels p H. apply group_inv in H as (q & h & b & c & w & ls & E & F & -> & M & -> & Lh & Lb & Lc & Lw).
  exists q. split; [exact E|]. cbn [pr_width pr_rows]. pose proof (stack_length h b c w _ Lh Lb Lc Lw) as LS. destruct (mapM_nth _ _ _ M) as (LL & V).
  split; [reflexivity|]. split; [exact LS|]. split; [rewrite map_length; congruence|]. split.
  - intros r Hr. destruct (nth_error (stack h b c w) r) as [row|] eqn:Er; [|apply nth_error_None in Er; lia].
    destruct (V r row Er) as (z & Ez & Nz). pose proof (stack_row _ _ _ _ _ (nth_error_In _ _ Er)) as L4.
    exists z, row. split; [now rewrite nth_error_map, Nz|]. split; [apply np_argmax_lt in Ez; lia|]. split; [reflexivity|]. split; [exact L4|].
    intros Hn. now apply (np_argmax_first RN).
  - intros Lq r qrow Hq. assert (Hr : (r < length X)%nat) by (rewrite <- Lq; apply nth_error_Some; congruence).
    pose proof (group_fold _ _ _ _ _ _ _ _ _ _ _ F) as G. destruct (tot_kind (f_means f) (f_n f) qrow) as (T1 & T2 & T3 & T4).
    assert (Z : nth_error (repeat (n0 (N:=N)) (length X)) r = Some n0) by now apply nth_error_repeat'.
    rewrite stack_nth.
    rewrite (proj2 (G t_halo _ h ltac:(simpl; auto 6)) r n0 qrow Z Hq), (proj2 (G t_bulge _ b ltac:(simpl; auto 6)) r n0 qrow Z Hq),
      (proj2 (G t_cold _ c ltac:(simpl; auto 6)) r n0 qrow Z Hq), (proj2 (G t_warm _ w ltac:(simpl; auto 6)) r n0 qrow Z Hq).
    now rewrite T1, T2, T3, T4.
Qed.

(** It returns when scikit-learn's arrays have the shapes they should. *)
Lemma c47_returns : forall (N : Num) (f : fitted N) (X : matrix N) q,
  f_proba f X = Ok q -> length (pr_rows q) = length X -> pr_width q = f_n f -> length (f_means f) = f_n f ->
  (forall m, In m (f_means f) -> length m = 3%nat) ->
  exists labels p, group f X = Ok (labels, p).
Proof.
  intros N f X q E L W LM HM. unfold group. rewrite E. cbn [bind].
  destruct (group_fold_returns (f_means f) q (seq 0 (f_n f)) (repeat n0 (length X)) (repeat n0 (length X)) (repeat n0 (length X)) (repeat n0 (length X))) as ([[[h b] c] w] & F);
    try (rewrite repeat_length; congruence).
  { intros i Hi. apply in_seq in Hi. split; [lia|]. destruct (nth_error (f_means f) i) as [m|] eqn:Em; [|apply nth_error_None in Em; lia].
    exists m. split; [reflexivity|]. rewrite (HM m); [lia|]. eapply nth_error_In; exact Em. }
  rewrite F. cbn [bind].
  rewrite (mapM_total np_argmax (fun row => match np_argmax row with Ok z => z | _ => 0%nat end)).
  - cbn [bind]. eauto.
  - intros row I. destruct row as [|x row]; [apply stack_row in I; discriminate|reflexivity].
Qed.

Lemma fold_addR l : forall a, fold_left (nadd (N:=RX)) (map XR l) (XR a) = XR (a + fold_right Rplus 0 l)%R.
Proof.
  induction l as [|x l IH]; intros a; simpl; [f_equal; lra|]. change (fold_left (nadd (N:=RX)) (map XR l) (XR (a + x)) = XR (a + (x + fold_right Rplus 0 l))%R).
  rewrite IH. f_equal. lra.
Qed.
Definition kval {N : Num} (means : list (list N)) (qs : list R) (l : list nat) (k : kind) : R :=
  fold_right Rplus 0%R (map (fun i => nth i qs 0%R) (filter (fun i => belongs k (coord means i 0) (coord means i 1)) l)).
Lemma kval_sum {N : Num} (RN : Rounded N) (means : list (list N)) qs l : (forall i, In i l -> nisnan (coord means i 0) = false /\ nisnan (coord means i 1) = false) ->
  (kval means qs l Halo + kval means qs l Bulge + kval means qs l ColdDisk + kval means qs l WarmDisk = fold_right Rplus 0 (map (fun i => nth i qs 0%R) l))%R.
Proof.
  induction l as [|i l IH]; intros H; [unfold kval; simpl; lra|]. destruct (H i) as (H0 & H1); [now left|].
  destruct (proj1 (c47_regions N RN (coord means i 0) (coord means i 1)) H1 H0) as (k & B & U).
  cbn [map fold_right]. rewrite <- IH by (intros j Hj; apply H; now right).
  assert (E : forall k', kval means qs (i :: l) k' = ((if belongs k' (coord means i 0) (coord means i 1) then nth i qs 0%R else 0) + kval means qs l k')%R).
  { intros k'. unfold kval. cbn [filter]. destruct (belongs k' _ _); simpl; lra. }
  rewrite !E.
  assert (NB : forall k', k' <> k -> belongs k' (coord means i 0) (coord means i 1) = false).
  { intros k' Hk. destruct (belongs k' _ _) eqn:Q; [|reflexivity]. apply U in Q. contradiction. }
  destruct k; rewrite B, !NB by discriminate; lra.
Qed.

(** In exact arithmetic the four probabilities of a particle add up to the total of its
    component probabilities, if no centre is NaN. *)
Lemma c47_total : forall (f : fitted RX) (X : matrix RX) labels p q,
  group f X = Ok (labels, p) -> f_proba f X = Ok q -> length (pr_rows q) = length X ->
  (forall i, (i < f_n f)%nat -> nisnan (coord (f_means f) i 0) = false /\ nisnan (coord (f_means f) i 1) = false) ->
  forall r qs, nth_error (pr_rows q) r = Some (map XR qs) -> length qs = f_n f ->
  exists h b c w, nth_error (pr_rows p) r = Some (map XR [h; b; c; w]) /\ (h + b + c + w = fold_right Rplus 0 qs)%R.
Proof.
  intros f X labels p q H E L HM r qs Hr Lq. destruct (c47_grouping RX RX_rounded f X labels p H) as (q' & E' & _ & _ & _ & _ & G).
  assert (q' = q) as -> by congruence. specialize (G L r _ Hr).
  exists (kval (f_means f) qs (seq 0 (f_n f)) Halo), (kval (f_means f) qs (seq 0 (f_n f)) Bulge), (kval (f_means f) qs (seq 0 (f_n f)) ColdDisk), (kval (f_means f) qs (seq 0 (f_n f)) WarmDisk).
  assert (K : forall k, from_kind k (f_n f) (f_means f) (map XR qs) = XR (kval (f_means f) qs (seq 0 (f_n f)) k)).
  { intros k. unfold from_kind, kval. set (l := filter _ _).
    assert (Hl : forall i, In i l -> (i < length qs)%nat) by (intros i I; apply filter_In in I as (I & _); apply in_seq in I; lia).
    assert (EL : map (fun i => nth i (map XR qs) (nnan (N:=RX))) l = map XR (map (fun i => nth i qs 0%R) l)).
    2: { transitivity (fold_left (nadd (N:=RX)) (map XR (map (fun i => nth i qs 0%R) l)) (XR 0)); [apply (f_equal (fun x => fold_left (nadd (N:=RX)) x (XR 0))); exact EL|].
         rewrite fold_addR. f_equal. lra. }
    - rewrite map_map. apply map_ext_in. intros i I. rewrite (nth_indep _ _ (XR 0)) by (rewrite map_length; auto). apply map_nth. }
  split.
  - rewrite G. unfold kinds. cbn [map]. now rewrite !K.
  - rewrite (kval_sum RX_rounded) by (intros i I; apply in_seq in I; apply HM; lia). f_equal. rewrite <- Lq. clear. induction qs as [|x qs IH]; [reflexivity|].
    cbn [length seq map]. f_equal. rewrite <- seq_shift, map_map. exact IH.
Qed.

Lemma xadd_ge a b : xle (XR 0) a -> xle (XR 0) b -> xle a (xadd a b) /\ xle b (xadd a b).
Proof. destruct a as [a| | |], b as [b| | |]; simpl; try easy; lra. Qed.
Lemma fold_add_ge {N : Num} (RN : Rounded N) (l : list N) : forall a, xle (XR 0) (val RN a) -> (forall x, In x l -> xle (XR 0) (val RN x)) ->
  let s := fold_left nadd l a in xle (val RN a) (val RN s) /\ forall x, In x l -> xle (val RN x) (val RN s).
Proof.
  induction l as [|x l IH]; intros a Ha Hl; cbn [fold_left]; cbv zeta.
  - split; [apply xle_refl; now apply xle_nan_r in Ha|intros x []].
  - destruct (xadd_ge _ _ Ha (Hl x ltac:(now left))) as (A1 & A2).
    assert (B1 : xle (val RN a) (val RN (nadd a x))) by (rewrite (val_add RN), <- (rnd_val RN a) at 1; now apply (rnd_mono RN)).
    assert (B2 : xle (val RN x) (val RN (nadd a x))) by (rewrite (val_add RN), <- (rnd_val RN x) at 1; now apply (rnd_mono RN)).
    destruct (IH (nadd a x)) as (C1 & C2); [eapply xle_trans; eauto|intros y Hy; apply Hl; now right|]. split; [eapply xle_trans; eauto|].
    intros y [<-|Hy]; [eapply xle_trans; eauto|auto].
Qed.

(** The structure a particle is assigned to is at least as probable as each single Gaussian,
    also with rounded sums. *)
Lemma c47_most_probable : forall (N : Num) (RN : Rounded N) (f : fitted N) (X : matrix N) labels p q,
  group f X = Ok (labels, p) -> f_proba f X = Ok q -> length (pr_rows q) = length X ->
  forall r qrow i z row, nth_error (pr_rows q) r = Some qrow -> (i < f_n f)%nat -> (forall i, (i < f_n f)%nat -> nle n0 (nth i qrow nnan) = true) ->
  nisnan (coord (f_means f) i 0) = false -> nisnan (coord (f_means f) i 1) = false ->
  nth_error labels r = Some (Z.of_nat z) -> nth_error (pr_rows p) r = Some row ->
  nle (nth i qrow nnan) (nth z row nnan) = true.
Proof.
  intros N RN f X labels p q H E L r qrow i z row Hq Hi Hpos N0 N1 Hz Hrow.
  destruct (c47_grouping N RN f X labels p H) as (q' & E' & _ & _ & _ & G1 & G2). assert (q' = q) as -> by congruence.
  pose proof (G2 L r qrow Hq) as Er. assert (row = map (fun k => from_kind k (f_n f) (f_means f) qrow) kinds) as -> by congruence.
  assert (Hr : (r < length X)%nat) by (rewrite <- L; apply nth_error_Some; congruence).
  destruct (G1 r Hr) as (z' & row' & Z1 & Z2 & Z3 & _ & Z4). rewrite Z1 in Hz. injection Hz as Hz. apply Nat2Z.inj in Hz. subst z'.
  assert (row' = map (fun k => from_kind k (f_n f) (f_means f) qrow) kinds) as -> by congruence.
  assert (K : forall k, xle (XR 0) (val RN (from_kind k (f_n f) (f_means f) qrow)) /\
     (belongs k (coord (f_means f) i 0) (coord (f_means f) i 1) = true -> xle (val RN (nth i qrow nnan)) (val RN (from_kind k (f_n f) (f_means f) qrow)))).
  { intros k. unfold from_kind. set (l := map _ _).
    destruct (fold_add_ge RN l n0) as (F1 & F2).
    - rewrite (val_n0 RN). simpl. lra.
    - intros x I. apply in_map_iff in I as (j & <- & I). apply filter_In in I as (I & _). apply in_seq in I. rewrite <- (val_n0 RN). apply (nle_iff RN), Hpos. lia.
    - rewrite (val_n0 RN) in F1. split; [exact F1|]. intros B. apply F2. apply in_map_iff. exists i. split; [reflexivity|]. apply filter_In. split; [apply in_seq; lia|exact B]. }
  destruct Z4 as (w & Ew & Hw).
  { intros v I. apply in_map_iff in I as (k & <- & _). apply (nisnan_false RN). destruct (K k) as (K1 & _). now apply xle_nan_r in K1. }
  rewrite (nth_error_nth _ _ _ Ew). destruct (proj1 (c47_regions N RN _ _) N1 N0) as (k & B & _).
  apply (nle_iff RN). eapply xle_trans; [apply (K k); exact B|]. apply (nle_iff RN).
  assert (exists j, nth_error kinds j = Some k) as (j & Ej) by (apply In_nth_error; destruct k; simpl; auto 6).
  apply (Hw j). now rewrite nth_error_map, Ej.
Qed.

Section Auto.
Context {N : Num} {H : Type}.
Variable gm_fit_seed : dict (kwval H) -> Z -> matrix N -> res (fitted N).

Lemma gm_passes (n : kwval H) self : passes (gm_kwargs n self) "n_components" n mixture_names (fun a => KUser (self a)).
Proof.
  split; [reflexivity|]. split.
  - intros a Ha. unfold mixture_names in Ha. simpl in Ha. repeat (destruct Ha as [<-|Ha]; [reflexivity|]). destruct Ha.
  - intros a v Hv. assert (I : In a (dkeys (gm_kwargs n self))) by (destruct (in_dec string_dec a (dkeys (gm_kwargs n self))) as [I|I]; [exact I|]; apply dget_none_notin in I; congruence).
    simpl in I. destruct I as [<-|I]; [now left|right]. unfold mixture_names. simpl. tauto.
Qed.
Lemma km_passes (self : string -> H) : passes (km_kwargs self) "n_clusters" (KUser (self "n_components"%string)) kmeans_names (fun a => KUser (self a)).
Proof.
  split; [reflexivity|]. split.
  - intros a Ha. unfold kmeans_names in Ha. simpl in Ha. repeat (destruct Ha as [<-|Ha]; [reflexivity|]). destruct Ha.
  - intros a v Hv. assert (I : In a (dkeys (km_kwargs self))) by (destruct (in_dec string_dec a (dkeys (km_kwargs self))) as [I|I]; [exact I|]; apply dget_none_notin in I; congruence).
    simpl in I. destruct I as [<-|I]; [now left|right]. unfold kmeans_names. simpl. tauto.
Qed.

(** The value found with [2 + t] Gaussians. *)
Definition trial self X seeds (t : nat) (b : N) : Prop :=
  exists seed kw f v, nth_error seeds t = Some seed /\
    passes kw "n_components" (KInt (Z.of_nat (2 + t))) mixture_names (fun a => KUser (self a)) /\
    gm_fit_seed kw seed X = Ok f /\ f_bic f X = Ok v /\ b = (v / nofZ (Z.of_nat (length X)))%num.

Lemma trials self X seeds order : length seeds = 14%nat -> Permutation order (seq 0 14) ->
  let tasks := map (fun ns => try_components gm_fit_seed self X (fst ns) (snd ns)) (combine components_to_try seeds) in
  (exists bics, length bics = 14%nat /\ tasks = map Ok bics /\ parallel order tasks = Ok bics /\ forall t b, nth_error bics t = Some b -> trial self X seeds t b) \/
  (exists e, In (Raise e) tasks /\ parallel order tasks = Raise e).
Proof.
  intros L P tasks. assert (LT : length tasks = 14%nat) by (unfold tasks; rewrite map_length, combine_length, L; reflexivity).
  destruct (parallel_spec order tasks) as [(l & E & Ep)|Ex]; [rewrite LT; exact P| |right; exact Ex].
  left. exists l. assert (Ll : length l = 14%nat) by (rewrite <- LT, E, map_length; reflexivity). split; [exact Ll|]. split; [exact E|]. split; [exact Ep|].
  intros t b Hb. assert (Ht : (t < 14)%nat) by (rewrite <- Ll; apply nth_error_Some; congruence).
  assert (Et : nth_error tasks t = Some (Ok b)) by (rewrite E, nth_error_map, Hb; reflexivity).
  destruct (nth_error seeds t) as [seed|] eqn:Es; [|apply nth_error_None in Es; lia].
  assert (Ec : nth_error (combine components_to_try seeds) t = Some (Z.of_nat (2 + t), seed)).
  { pose proof (ctt_nth t Ht) as Ec. clear -Es Ec. revert Ec. generalize (Z.of_nat (2 + t)). intros z Ec. revert t seeds Es Ec. generalize components_to_try.
    induction l as [|x l IH]; intros [|t] [|s seeds]; simpl; intros A B; try discriminate; [congruence|]. now apply (IH t). }
  unfold tasks in Et. rewrite nth_error_map, Ec in Et. cbn [option_map fst snd] in Et. injection Et as Et. unfold try_components in Et.
  destruct (gm_fit_seed _ seed X) as [f|] eqn:Ef; [|discriminate]. cbn [bind] in Et. destruct (f_bic f X) as [v|] eqn:Ev; [|discriminate]. cbn [bind] in Et. injection Et as Et.
  exists seed, (gm_kwargs (KInt (Z.of_nat (2 + t))) self), f, v. rewrite Es. split; [reflexivity|]. split; [apply gm_passes|]. auto.
Qed.
End Auto.

(** The number of Gaussians of the final fit is the smallest of 2, ..., 15 that is good
    enough; all fits get the data, the attributes of the object and nothing else. *)
Lemma c48_selection : forall (N : Num) (H St : Type) gm_fit gm_fit_seed randint order c_bic (self : string -> H) (st : St) (X : matrix N) labels p st',
  (forall s k, length (fst (randint s k)) = k) -> Permutation order (seq 0 14) ->
  auto_split gm_fit gm_fit_seed randint order c_bic self st X = Ok (labels, p, st') ->
  exists bics m kw f, length bics = 14%nat /\
    (forall t b, nth_error bics t = Some b -> trial gm_fit_seed self X (fst (randint st 14%nat)) t b) /\
    smallest (good_enough c_bic bics) m /\
    passes kw "n_components" (KInt (Z.of_nat m)) mixture_names (fun a => KUser (self a)) /\
    gm_fit kw (snd (randint st 14%nat)) X = Ok (f, st') /\ group f X = Ok (labels, p).
Proof.
  intros N H St gm_fit gm_fit_seed randint order c_bic self st X labels p st' HR HP HS. unfold auto_split in HS.
  change (length components_to_try) with 14%nat in HS. specialize (HR st 14%nat). destruct (randint st 14%nat) as [seeds st1]. cbn [fst snd] in *.
  destruct (trials gm_fit_seed self X seeds order HR HP) as [(bics & L & _ & Ep & V)|(e & _ & Ep)]; rewrite Ep in HS; [|discriminate]. cbn [bind] in HS.
  pose proof (choose_spec c_bic bics L) as C. destruct (choose_number c_bic bics) as [z|]; [|discriminate]. cbn [bind] in HS. destruct C as (m & -> & C).
  destruct (gm_fit _ st1 X) as [[f st2]|] eqn:Ef; [|discriminate]. cbn [bind] in HS.
  destruct (group f X) as [[l' p']|] eqn:Eg; [|discriminate]. cbn [bind] in HS. injection HS as <- <- <-.
  exists bics, m, (gm_kwargs (KInt (Z.of_nat m)) self), f. split; [exact L|]. split; [exact V|]. split; [exact C|]. split; [apply gm_passes|]. auto.
Qed.

(** When it fails: with an exception of a trial if there is one, with ValueError if none of
    the numbers is good enough. *)
Lemma c48_failures : forall (N : Num) (H St : Type) gm_fit gm_fit_seed randint order c_bic (self : string -> H) (st : St) (X : matrix N),
  (forall s k, length (fst (randint s k)) = k) -> Permutation order (seq 0 14) ->
  let r := auto_split gm_fit gm_fit_seed randint order c_bic self st X in
  (exists e t seed kw, r = Raise e /\ nth_error (fst (randint st 14%nat)) t = Some seed /\
     passes kw "n_components" (KInt (Z.of_nat (2 + t))) mixture_names (fun a => KUser (self a)) /\
     (gm_fit_seed kw seed X = Raise e \/ exists f, gm_fit_seed kw seed X = Ok f /\ f_bic f X = Raise e)) \/
  (exists bics, length bics = 14%nat /\ (forall t b, nth_error bics t = Some b -> trial gm_fit_seed self X (fst (randint st 14%nat)) t b) /\
     ((forall m, ~ good_enough c_bic bics m) -> r = Raise ValueError) /\
     (forall m, smallest (good_enough c_bic bics) m -> exists kw, passes kw "n_components" (KInt (Z.of_nat m)) mixture_names (fun a => KUser (self a)) /\
        forall f st' labels p, gm_fit kw (snd (randint st 14%nat)) X = Ok (f, st') -> group f X = Ok (labels, p) -> r = Ok (labels, p, st'))).
Proof.
  intros N H St gm_fit gm_fit_seed randint order c_bic self st X HR HP r. unfold r, auto_split. clear r.
  change (length components_to_try) with 14%nat. specialize (HR st 14%nat). destruct (randint st 14%nat) as [seeds st1]. cbn [fst snd] in *.
  destruct (trials gm_fit_seed self X seeds order HR HP) as [(bics & L & _ & Ep & V)|(e & I & Ep)]; rewrite Ep; cbn [bind].
  - right. exists bics. split; [exact L|]. split; [exact V|]. pose proof (choose_spec c_bic bics L) as C. destruct (choose_number c_bic bics) as [z|e]; cbn [bind].
    + destruct C as (m & -> & C). split.
      * intros Q. exfalso. apply (Q m), C.
      * intros m' C'. assert (m' = m) as -> by (apply Nat.le_antisymm; [apply C', C|apply C, C']).
        exists (gm_kwargs (KInt (Z.of_nat m)) self). split; [apply gm_passes|]. intros f st' labels p Ef Eg. rewrite Ef. cbn [bind]. rewrite Eg. reflexivity.
    + destruct C as (-> & C). split; [reflexivity|]. intros m (Q & _). exfalso. now apply (C m).
  - left. exists e. apply in_map_iff in I as ([n seed] & Et & I). apply In_nth_error in I as (t & I). exists t, seed, (gm_kwargs (KInt (Z.of_nat (2 + t))) self). split; [reflexivity|].
    assert (nth_error components_to_try t = Some n /\ nth_error seeds t = Some seed) as (I1 & I2).
    { clear -I. revert t seeds I. generalize components_to_try. induction l as [|x l IH]; intros [|t] [|s seeds]; simpl; intros A; try discriminate; [injection A as <- <-; auto|]. now apply IH. }
    split; [exact I2|]. split; [apply gm_passes|]. assert (Ht : (t < 14)%nat) by (rewrite <- HR; apply nth_error_Some; congruence).
    rewrite (ctt_nth t Ht) in I1. injection I1 as <-. unfold try_components in Et. cbn [fst snd] in Et.
    destruct (gm_fit_seed _ seed X) as [f|e']; cbn [bind] in Et; [|left; congruence]. right. exists f. split; [reflexivity|].
    destruct (f_bic f X); cbn [bind] in Et; congruence.
Qed.

(** The order in which the parallel fits finish does not change the result. *)
Lemma c48_order : forall (N : Num) (H St : Type) gm_fit gm_fit_seed randint order order' c_bic (self : string -> H) (st : St) (X : matrix N),
  (forall s k, length (fst (randint s k)) = k) -> Permutation order (seq 0 14) -> Permutation order' (seq 0 14) ->
  let r := auto_split gm_fit gm_fit_seed randint order c_bic self st X in
  let r' := auto_split gm_fit gm_fit_seed randint order' c_bic self st X in
  r' = r \/ exists e e', r = Raise e /\ r' = Raise e'.
Proof.
  intros N H St gm_fit gm_fit_seed randint order order' c_bic self st X HR HP HP' r r'. unfold r, r', auto_split. clear r r'.
  change (length components_to_try) with 14%nat. specialize (HR st 14%nat). destruct (randint st 14%nat) as [seeds st1]. cbn [fst snd] in *.
  destruct (trials gm_fit_seed self X seeds order HR HP) as [(bics & L & E & Ep & V)|(e & I & Ep)]; rewrite Ep;
  destruct (trials gm_fit_seed self X seeds order' HR HP') as [(bics' & L' & E' & Ep' & V')|(e' & I' & Ep')]; rewrite Ep'; cbn [bind].
  - left. assert (bics' = bics) as ->; [|reflexivity]. rewrite E in E'. clear -E'. revert bics' E'. induction bics as [|x l IH]; intros [|y l'] Q; try discriminate; [reflexivity|].
    injection Q as -> Q. f_equal. now apply IH.
  - exfalso. rewrite E in I'. apply in_map_iff in I' as (x & Q & _). discriminate.
  - exfalso. rewrite E' in I. apply in_map_iff in I as (x & Q & _). discriminate.
  - right. eauto.
Qed.

(** In exact arithmetic: the criterion in real numbers; some number is good enough whenever
    the cut is not negative. *)
Lemma c48_exact : forall (bs : list R) (c : R), length bs = 14%nat ->
  (forall m, good_enough (N:=RX) (XR c) (map XR bs) m <->
     (2 <= m <= 15)%nat /\ (nth (m - 2) bs 0 - fold_right Rplus 0 (skipn 9 bs) / 5 <= c)%R) /\
  ((0 <= c)%R -> exists m, good_enough (N:=RX) (XR c) (map XR bs) m).
Proof.
  intros bs c L.
  assert (S : nsum (N:=RX) (map XR (skipn 9 bs)) = XR (fold_right Rplus 0%R (skipn 9 bs))).
  { change (fold_right xadd (XR 0) (map XR (skipn 9 bs)) = XR (fold_right Rplus 0%R (skipn 9 bs))). induction (skipn 9 bs) as [|x l IH]; [reflexivity|]. cbn [map fold_right]. rewrite IH. reflexivity. }
  assert (G : forall m, good_enough (N:=RX) (XR c) (map XR bs) m <->
     (2 <= m <= 15)%nat /\ (nth (m - 2) bs 0 - fold_right Rplus 0 (skipn 9 bs) / 5 <= c)%R).
  { intros m. unfold good_enough. split; intros (Hm & Hc); (split; [exact Hm|]).
    - rewrite skipn_map in Hc. change (nle (N:=RX) (nsub (N:=RX) (nth (m - 2) (map XR bs) XNaN) (ndiv (N:=RX) (nsum (N:=RX) (map XR (skipn 9 bs))) (XR 5))) (XR c) = true) in Hc.
      rewrite S, (nth_indep _ _ (XR 0)), map_nth, divRX in Hc by (rewrite ?map_length; lra || lia). apply nleRX in Hc. exact Hc.
    - rewrite skipn_map. change (nle (N:=RX) (nsub (N:=RX) (nth (m - 2) (map XR bs) XNaN) (ndiv (N:=RX) (nsum (N:=RX) (map XR (skipn 9 bs))) (XR 5))) (XR c) = true).
      rewrite S, (nth_indep _ _ (XR 0)), map_nth, divRX by (rewrite ?map_length; lra || lia). apply nleRX. exact Hc. }
  split; [exact G|]. intros Hc.
  assert (exists t, (9 <= t < 14)%nat /\ (nth t bs 0 <= fold_right Rplus 0 (skipn 9 bs) / 5)%R) as (t & Ht & Hb).
  { do 14 (destruct bs as [|?x bs]; [discriminate L|]). destruct bs; [|discriminate L]. cbn [skipn fold_right].
    match goal with |- exists t, _ /\ (nth t ?l 0 <= ?s)%R => destruct (Rle_dec (nth 9 l 0%R) s) as [Q|Q]; [exists 9%nat; split; [lia|exact Q]|];
      destruct (Rle_dec (nth 10 l 0%R) s) as [Q1|Q1]; [exists 10%nat; split; [lia|exact Q1]|]; destruct (Rle_dec (nth 11 l 0%R) s) as [Q2|Q2]; [exists 11%nat; split; [lia|exact Q2]|];
      destruct (Rle_dec (nth 12 l 0%R) s) as [Q3|Q3]; [exists 12%nat; split; [lia|exact Q3]|]; exists 13%nat; split; [lia|] end. cbn [nth] in *. lra. }
  exists (2 + t)%nat. apply G. split; [lia|]. replace (2 + t - 2)%nat with t by lia. lra.
Qed.

(** "Some number of Gaussians is always good enough for a cut that is not negative": false
    with rounding. *)
Lemma c48_exists_refuted : exists bics : list F64, length bics = 14%nat /\ (forall b, In b bics -> nfin b = true /\ nle n0 b = true /\ nle b n1 = true) /\
  (forall m, ~ good_enough n0 bics m) /\ choose_number n0 bics = Raise ValueError.
Proof.
  exists (repeat (nlit 47 100) 14). split; [reflexivity|]. split.
  { intros b I. apply repeat_spec in I. subst b. split; [|split]; vm_compute; reflexivity. }
  assert (E : choose_number (n0 (N:=F64)) (repeat (nlit 47 100) 14) = Raise ValueError) by (vm_compute; reflexivity).
  split; [|exact E]. pose proof (choose_spec (n0 (N:=F64)) (repeat (nlit 47 100) 14) eq_refl) as C. rewrite E in C. apply C.
Qed.

Lemma mix_attrs : star_attrs mix_attributes.
Proof.
  split; [discriminate|]. intros a [<-|[<-|[<-|[]]]]; (split; [|discriminate]); unfold circ_attr; simpl; auto 6.
Qed.
Lemma mix_usable {N : Num} (g : galaxy N) j k :
  ((k < plen (g_stars g))%nat /\ forall a, In a mix_attributes -> exists v, nth_error (circ_col j a) k = Some v /\ nfin v = true) <-> usable_star g j k.
Proof.
  split.
  - intros (Hk & F). split; [exact Hk|]. destruct (F "normalized_star_energy"%string) as (e & E1 & F1); [now left|].
    destruct (F "eps"%string) as (x & E2 & F2); [right; now left|]. destruct (F "eps_r"%string) as (r & E3 & F3); [right; right; now left|]. exists e, x, r. auto 10.
  - intros (Hk & e & x & r & E1 & E2 & E3 & F1 & F2 & F3). split; [exact Hk|]. intros a [<-|[<-|[<-|[]]]]; eauto.
Qed.

(** KMeans hands scikit-learn the rows (energy, eps, eps_r) of the stars where all three are
    finite, in order, with the attributes of the object, and puts its labels back in the
    places of those stars; all other particles get NaN. *)
Lemma c49_kmeans : forall (N : Num) (RN : Rounded N) (H St : Type) argsort km (self : string -> H) cbins (st : St) (g : galaxy N) c st',
  constructible g -> (forall kw s X l s', km kw s X = Ok (l, s') -> length l = length X) ->
  decompose argsort (kmeans km self cbins) st g = Ok (c, st') ->
  exists j used kw labels, jcirc argsort g (fst cbins) (snd cbins) = Ok j /\ StronglySorted lt used /\ (forall k, In k used <-> usable_star g j k) /\
    passes kw "n_clusters" (KUser (self "n_components"%string)) kmeans_names (fun a => KUser (self a)) /\
    km kw st (map (star_row j) used) = Ok (labels, st') /\ placed g used labels (c_labels c) /\ c_probs c = None.
Proof.
  intros N RN H St argsort km self cbins st g c st' Hc HL HD.
  destruct (star_handed RN argsort St (kmeans km self cbins) st g c st' Hc mix_attrs eq_refl HD) as (j & used & labels & pr & ys & Ej & Hs & Hu & E & P1 & P2 & _).
  cbn [kmeans d_split d_attributes d_cbins] in *. change (map (feature_row j mix_attributes) used) with (map (star_row j) used) in E.
  destruct (km (km_kwargs self) st (map (star_row j) used)) as [[l s]|] eqn:Ek; [|discriminate]. cbn [bind fst snd] in E. injection E as <- <- <-.
  exists j, used, (km_kwargs self), l. split; [exact Ej|]. split; [exact Hs|]. split; [intros k; rewrite Hu; apply mix_usable|]. split; [apply km_passes|].
  split; [exact Ek|]. split; [|now apply P2]. pose proof (HL _ _ _ _ _ Ek) as L. rewrite map_length in L. exact (P1 L).
Qed.

(** The same for GaussianMixture, with the probabilities. *)
Lemma c49_mixture : forall (N : Num) (RN : Rounded N) (H St : Type) argsort gm_fit (self : string -> H) cbins (st : St) (g : galaxy N) c st',
  constructible g ->
  (forall kw s X f s' l p, gm_fit kw s X = Ok (f, s') -> f_predict f X = Ok l -> f_proba f X = Ok p -> length l = length X /\ length (pr_rows p) = length X) ->
  decompose argsort (gaussian_mixture gm_fit self cbins) st g = Ok (c, st') ->
  exists j used kw f labels p q, jcirc argsort g (fst cbins) (snd cbins) = Ok j /\ StronglySorted lt used /\ (forall k, In k used <-> usable_star g j k) /\
    passes kw "n_components" (KUser (self "n_components"%string)) mixture_names (fun a => KUser (self a)) /\
    gm_fit kw st (map (star_row j) used) = Ok (f, st') /\ f_predict f (map (star_row j) used) = Ok labels /\ f_proba f (map (star_row j) used) = Ok p /\
    placed g used labels (c_labels c) /\ c_probs c = Some q /\ pr_width q = pr_width p /\ length (pr_rows q) = glen g /\
    (forall r k, nth_error used r = Some k -> nth_error (pr_rows q) k = nth_error (pr_rows p) r) /\
    (forall i, (i < glen g)%nat -> ~ In i used -> nth_error (pr_rows q) i = Some (repeat nnan (pr_width p))).
Proof.
  intros N RN H St argsort gm_fit self cbins st g c st' Hc HL HD.
  destruct (star_handed RN argsort St (gaussian_mixture gm_fit self cbins) st g c st' Hc mix_attrs eq_refl HD) as (j & used & labels & pr & ys & Ej & Hs & Hu & E & P1 & _ & P3).
  cbn [gaussian_mixture d_split d_attributes d_cbins] in *. change (map (feature_row j mix_attributes) used) with (map (star_row j) used) in E. unfold gm_split in E.
  destruct (gm_fit _ st (map (star_row j) used)) as [[f s]|] eqn:Ek; [|discriminate]. cbn [bind] in E.
  destruct (f_predict f (map (star_row j) used)) as [l|] eqn:El; [|discriminate]. cbn [bind] in E.
  destruct (f_proba f (map (star_row j) used)) as [p|] eqn:Ep; [|discriminate]. cbn [bind] in E. injection E as <- <- <-.
  destruct (HL _ _ _ _ _ _ _ Ek El Ep) as (L1 & L2). rewrite map_length in L1, L2. destruct (P3 p eq_refl L2) as (q & Q1 & Q2 & Q3 & Q4 & Q5).
  exists j, used, (gm_kwargs (KUser (self "n_components"%string)) self), f, l, p, q. split; [exact Ej|]. split; [exact Hs|]. split; [intros k; rewrite Hu; apply mix_usable|].
  split; [apply gm_passes|]. split; [exact Ek|]. split; [exact El|]. split; [exact Ep|]. split; [exact (P1 L1)|]. auto.
Qed.

(** The same for AutoGaussianMixture: all its fits get those rows (C48_selection), labels and
    probabilities of the four structures (C47_grouping) go to the places of the stars. *)
Lemma c49_auto : forall (N : Num) (RN : Rounded N) (H St : Type) argsort gm_fit gm_fit_seed randint order c_bic (self : string -> H) cbins (st : St) (g : galaxy N) c st',
  constructible g -> decompose argsort (auto_gaussian_mixture gm_fit gm_fit_seed randint order c_bic self cbins) st g = Ok (c, st') ->
  exists j used labels p q, jcirc argsort g (fst cbins) (snd cbins) = Ok j /\ StronglySorted lt used /\ (forall k, In k used <-> usable_star g j k) /\
    auto_split gm_fit gm_fit_seed randint (order st) c_bic self st (map (star_row j) used) = Ok (labels, p, st') /\
    placed g used labels (c_labels c) /\ (forall z, In z labels -> (0 <= z <= 3)%Z) /\
    c_probs c = Some q /\ pr_width q = 4%nat /\ length (pr_rows q) = glen g /\
    (forall r k, nth_error used r = Some k -> nth_error (pr_rows q) k = nth_error (pr_rows p) r) /\
    (forall i, (i < glen g)%nat -> ~ In i used -> nth_error (pr_rows q) i = Some (repeat nnan 4)).
Proof.
  intros N RN H St argsort gm_fit gm_fit_seed randint order c_bic self cbins st g c st' Hc HD.
  destruct (star_handed RN argsort St (auto_gaussian_mixture gm_fit gm_fit_seed randint order c_bic self cbins) st g c st' Hc mix_attrs eq_refl HD) as (j & used & labels & pr & ys & Ej & Hs & Hu & E & P1 & _ & P3).
  cbn [auto_gaussian_mixture d_split d_attributes d_cbins] in *. change (map (feature_row j mix_attributes) used) with (map (star_row j) used) in E.
  destruct (auto_split _ _ _ _ _ _ st (map (star_row j) used)) as [[[l p] s]|] eqn:Ea; [|discriminate]. cbn [bind] in E. injection E as <- <- <-.
  assert (exists f, group f (map (star_row j) used) = Ok (l, p)) as (f & Eg).
  { unfold auto_split in Ea. destruct (randint st _) as [seeds st1]. destruct (parallel _ _) as [bics|]; [|discriminate]. cbn [bind] in Ea.
    destruct (choose_number _ _) as [n|]; [|discriminate]. cbn [bind] in Ea. destruct (gm_fit _ _ _) as [[f st2]|]; [|discriminate]. cbn [bind] in Ea.
    destruct (group f _) as [[l' p']|] eqn:Eg; [|discriminate]. cbn [bind fst snd] in Ea. injection Ea as <- <- _. eauto. }
  destruct (c47_grouping N RN _ _ _ _ Eg) as (q0 & _ & W & L2 & L1 & V & _). rewrite map_length in L1, L2, V.
  destruct (P3 p eq_refl L2) as (q & Q1 & Q2 & Q3 & Q4 & Q5). rewrite W in *.
  exists j, used, l, p, q. split; [exact Ej|]. split; [exact Hs|]. split; [intros k; rewrite Hu; apply mix_usable|]. split; [exact Ea|]. split; [exact (P1 L1)|].
  split; [|auto]. intros z I. apply In_nth_error in I as (r & Er). destruct (V r) as (z' & row & E1 & Hz & _); [rewrite <- L1; apply nth_error_Some; congruence|].
  assert (z = Z.of_nat z') as -> by congruence. lia.
Qed.

(** Whatever scikit-learn raises comes through, and decompose returns when it answers with
    one label for each row. *)
Lemma c49_kmeans_outcome : forall (N : Num) (RN : Rounded N) (H St : Type) argsort km (self : string -> H) cbins (st : St) (g : galaxy N) j,
  constructible g -> jcirc argsort g (fst cbins) (snd cbins) = Ok j ->
  exists used kw, StronglySorted lt used /\ (forall k, In k used <-> usable_star g j k) /\
    passes kw "n_clusters" (KUser (self "n_components"%string)) kmeans_names (fun a => KUser (self a)) /\
    (forall e, km kw st (map (star_row j) used) = Raise e -> decompose argsort (kmeans km self cbins) st g = Raise e) /\
    (forall l st', km kw st (map (star_row j) used) = Ok (l, st') -> length l = length used -> exists c, decompose argsort (kmeans km self cbins) st g = Ok (c, st')).
Proof.
  intros N RN H St argsort km self cbins st g j Hc Hj.
  destruct (star_handed_returns RN argsort St (kmeans km self cbins) st g j Hc mix_attrs eq_refl Hj) as (used & ys & Hs & Hu & HE & HO).
  exists used, (km_kwargs self). split; [exact Hs|]. split; [intros k; rewrite Hu; apply mix_usable|]. split; [apply km_passes|].
  cbn [kmeans d_split d_attributes] in HE, HO. change (map (feature_row j mix_attributes) used) with (map (star_row j) used) in *. split.
  - intros e Ee. apply HE. now rewrite Ee.
  - intros l st' El L. apply (HO l None st'); [now rewrite El|exact L|discriminate].
Qed.
(** The same for the two mixture models. *)
Lemma c49_mixture_outcome : forall (N : Num) (RN : Rounded N) (H St : Type) argsort gm_fit (self : string -> H) cbins (st : St) (g : galaxy N) j,
  constructible g -> jcirc argsort g (fst cbins) (snd cbins) = Ok j ->
  exists used kw, StronglySorted lt used /\ (forall k, In k used <-> usable_star g j k) /\
    passes kw "n_components" (KUser (self "n_components"%string)) mixture_names (fun a => KUser (self a)) /\
    (forall e, gm_fit kw st (map (star_row j) used) = Raise e -> decompose argsort (gaussian_mixture gm_fit self cbins) st g = Raise e) /\
    (forall f l p st', gm_fit kw st (map (star_row j) used) = Ok (f, st') -> f_predict f (map (star_row j) used) = Ok l -> f_proba f (map (star_row j) used) = Ok p ->
       length l = length used -> length (pr_rows p) = length used -> exists c, decompose argsort (gaussian_mixture gm_fit self cbins) st g = Ok (c, st')).
Proof.
  intros N RN H St argsort gm_fit self cbins st g j Hc Hj.
  destruct (star_handed_returns RN argsort St (gaussian_mixture gm_fit self cbins) st g j Hc mix_attrs eq_refl Hj) as (used & ys & Hs & Hu & HE & HO).
  exists used, (gm_kwargs (KUser (self "n_components"%string)) self). split; [exact Hs|]. split; [intros k; rewrite Hu; apply mix_usable|]. split; [apply gm_passes|].
  cbn [gaussian_mixture d_split d_attributes] in HE, HO. change (map (feature_row j mix_attributes) used) with (map (star_row j) used) in *. unfold gm_split in *. split.
  - intros e Ee. apply HE. now rewrite Ee.
  - intros f l p st' Ef El Ep L1 L2. apply (HO l (Some p) st'); [rewrite Ef; cbn [bind]; rewrite El; cbn [bind]; rewrite Ep; reflexivity|exact L1|]. intros p' [= <-]. exact L2.
Qed.
Lemma c49_auto_outcome : forall (N : Num) (RN : Rounded N) (H St : Type) argsort gm_fit gm_fit_seed randint order c_bic (self : string -> H) cbins (st : St) (g : galaxy N) j,
  constructible g -> jcirc argsort g (fst cbins) (snd cbins) = Ok j ->
  exists used, StronglySorted lt used /\ (forall k, In k used <-> usable_star g j k) /\
    (forall e, auto_split gm_fit gm_fit_seed randint (order st) c_bic self st (map (star_row j) used) = Raise e ->
       decompose argsort (auto_gaussian_mixture gm_fit gm_fit_seed randint order c_bic self cbins) st g = Raise e) /\
    (forall l p st', auto_split gm_fit gm_fit_seed randint (order st) c_bic self st (map (star_row j) used) = Ok (l, p, st') ->
       exists c, decompose argsort (auto_gaussian_mixture gm_fit gm_fit_seed randint order c_bic self cbins) st g = Ok (c, st')).
Proof.
  intros N RN H St argsort gm_fit gm_fit_seed randint order c_bic self cbins st g j Hc Hj.
  destruct (star_handed_returns RN argsort St (auto_gaussian_mixture gm_fit gm_fit_seed randint order c_bic self cbins) st g j Hc mix_attrs eq_refl Hj) as (used & ys & Hs & Hu & HE & HO).
  exists used. split; [exact Hs|]. split; [intros k; rewrite Hu; apply mix_usable|].
  cbn [auto_gaussian_mixture d_split d_attributes] in HE, HO. change (map (feature_row j mix_attributes) used) with (map (star_row j) used) in *. split.
  - intros e Ee. apply HE. now rewrite Ee.
  - intros l p st' Ea.
    assert (exists f, group f (map (star_row j) used) = Ok (l, p)) as (f & Eg).
    { clear -Ea. unfold auto_split in Ea. destruct (randint st _) as [seeds st1]. destruct (parallel _ _) as [bics|]; [|discriminate]. cbn [bind] in Ea.
      destruct (choose_number _ _) as [n|]; [|discriminate]. cbn [bind] in Ea. destruct (gm_fit _ _ _) as [[f st2]|]; [|discriminate]. cbn [bind] in Ea.
      destruct (group f _) as [[l' p']|] eqn:Eg; [|discriminate]. cbn [bind fst snd] in Ea. injection Ea as <- <- _. eauto. }
    destruct (c47_grouping N RN _ _ _ _ Eg) as (q0 & _ & W & L2 & L1 & _). rewrite map_length in L1, L2.
    apply (HO l (Some p) st'); [now rewrite Ea|exact L1|]. intros p' [= <-]. exact L2.
Qed.

(** Toy estimators for the examples: the same means and probabilities for every row. *)
Definition toy_means : list (list F64) :=
  map (fun m => [nlit (fst m) 100; nlit (snd m) 100; n0]) [(-20, 85); (-20, 84); (-75, 50); (-75, 49); (-76, 49)]%Z.
Definition toy_row : list F64 := map (fun z => nlit z 16) [3; 1; 4; 2; 6]%Z.
Definition toy_fit (n : nat) : fitted F64 :=
  Fitted n toy_means (fun X => Ok (map Z.of_nat (seq 0 (length X)))) (fun X => Ok (Probs n (map (fun _ => firstn n toy_row) X)))
    (fun X => Ok (nofZ (Z.of_nat n))).
Definition toy_rows : matrix F64 := [[CNum n0; CNum n0; CNum n0]; [CNum n1; CNum n1; CNum n1]].
(** Centres on the boundaries: (-1/5, 85/100) is cold disk, (-1/5, 84/100) and (-3/4, 1/2) are
    warm disk, (-3/4, 49/100) is halo, (-76/100, 49/100) is bulge; the first of the two
    greatest probabilities wins. *)
Example ex_c47 :
  rmap (fun r => (fst r, map shows (pr_rows (snd r)))) (group (toy_fit 5) toy_rows) =
    Ok ([1; 1]%Z, repeat [sQ 1 8; sQ 3 8; sQ 3 16; sQ 5 16] 2) /\
  rmap fst (group (toy_fit 3) toy_rows) = Ok [3; 3]%Z /\
  rmap fst (group (Fitted 2 toy_means (f_predict (toy_fit 2)) (fun X => Ok (Probs 2 (map (fun _ => [nlit 1 2; nlit 1 2]) X))) (f_bic (toy_fit 2))) toy_rows) = Ok [2; 2]%Z /\
  exn_of (group (Fitted 6 toy_means (f_predict (toy_fit 6)) (f_proba (toy_fit 6)) (f_bic (toy_fit 6))) toy_rows) = Some IndexError.
Proof. vm_compute. auto. Qed.
(** A centre that is not a number belongs to no structure: the probabilities of the particle
    no longer add up to one, and the label is 0 when every centre is so. *)
Example ex_c47_nan :
  rmap (fun r => (fst r, map shows (pr_rows (snd r))))
    (group (Fitted 1 [[nnan; nnan; nnan]] (f_predict (toy_fit 1)) (fun X => Ok (Probs 1 (map (fun _ => [n1]) X))) (f_bic (toy_fit 1))) toy_rows) =
  Ok ([0; 0]%Z, repeat [sZ 0; sZ 0; sZ 0; sZ 0] 2).
Proof. vm_compute. reflexivity. Qed.

Definition toy_bics (l : list Z) : list F64 := map (fun z => nlit z 10) l.
(** The values fall from 90 to 10 and stay there: the first within the default cut of 0.1
    above the mean of the last five is the one for five Gaussians.  With a negative cut or a
    NaN among the last five no number is good enough, and the minimum of nothing fails. *)
Example ex_c48 :
  choose_number (nlit 1 10) (toy_bics [90; 50; 20; 10; 11; 10; 10; 10; 10; 10; 10; 10; 10; 10]%Z) = Ok 5%Z /\
  choose_number (nlit (-1) 10) (toy_bics [90; 50; 20; 10; 11; 10; 10; 10; 10; 10; 10; 10; 10; 10]%Z) = Raise ValueError /\
  choose_number (nlit 1 10) (toy_bics [90; 50; 20; 10; 11; 10; 10; 10; 10; 10; 10; 10; 10]%Z ++ [nnan]) = Raise ValueError.
Proof. vm_compute. auto. Qed.
(** The whole split: with toy values (20 - n) / 2 per particle for n Gaussians and cut 1/2
    twelve Gaussians are good enough, whatever the order in which the fits finish; a fit that
    fails makes it fail. *)
Definition toy_gm (kw : dict (kwval string)) (st : nat) (X : matrix F64) : res (fitted F64 * nat) :=
  match dget kw "n_components"%string with
  | Some (KInt z) => Ok (Fitted 5 toy_means (fun X => Ok (repeat z (length X))) (f_proba (toy_fit 5)) (fun X => Ok (nofZ (20 - z))), S st)
  | Some (KUser _) => Ok (toy_fit 5, S st)
  | None => Raise KeyError
  end.
Definition toy_seed (kw : dict (kwval string)) (seed : Z) (X : matrix F64) : res (fitted F64) :=
  do r <- toy_gm kw O X; if (seed =? 7)%Z then Raise ValueError else Ok (fst r).
Definition toy_randint (base : Z) (st k : nat) : list Z * nat := (map (fun i => (Z.of_nat i + base)%Z) (seq 0 k), (st + 100)%nat).
Example ex_c48_split :
  map (fun order => rmap (fun r => (fst (fst r), snd r)) (auto_split (N:=F64) toy_gm toy_seed (toy_randint 8) order (nlit 1 2) (fun a => a) 0 toy_rows))
    [seq 0 14; rev (seq 0 14)] = [Ok ([1; 1]%Z, 101%nat); Ok ([1; 1]%Z, 101%nat)] /\
  exn_of (auto_split (N:=F64) toy_gm toy_seed (toy_randint 0) (seq 0 14) (nlit 1 2) (fun a => a) 0 toy_rows) = Some ValueError /\
  rmap (map fshow) (parallel (rev (seq 0 14)) (map (fun ns => try_components (N:=F64) toy_seed (fun a : string => a) toy_rows (fst ns) (snd ns))
     (combine components_to_try (fst (toy_randint 8 0 14))))) =
  Ok (map (fun z => sQ z 2) [18; 17; 16; 15; 14; 13; 12; 11; 10; 9; 8; 7; 6; 5]%Z) /\
  choose_number (N:=F64) (nlit 1 2) (map (fun z => nlit z 2) [18; 17; 16; 15; 14; 13; 12; 11; 10; 9; 8; 7; 6; 5]%Z) = Ok 12%Z.
Proof. vm_compute. auto. Qed.

Definition toy_km (kw : dict (kwval string)) (st : nat) (X : matrix F64) : res (list Z * nat) :=
  match dget kw "n_clusters"%string with
  | Some (KUser "n_components"%string) => Ok (map Z.of_nat (seq 5 (length X)), S st)
  | _ => Raise KeyError
  end.
(** The sample galaxy has eight particles; three of its five stars can be used. *)
Example ex_c49 :
  rmap (fun r => (shows (c_labels (fst r)), match c_probs (fst r) with None => true | _ => false end, snd r))
    (do g <- sampleG; decompose asort (kmeans toy_km (fun a => a) (default_bin0, default_bin1)) 3%nat g) =
  Ok ([sZ 5; sZ 6; sZ 7; S754_nan; S754_nan; S754_nan; S754_nan; S754_nan], true, 4%nat) /\
  rmap (fun r => (shows (c_labels (fst r)), match c_probs (fst r) with None => [] | Some p => map shows (pr_rows p) end, snd r))
    (do g <- sampleG; decompose asort (gaussian_mixture toy_gm (fun a => a) (default_bin0, default_bin1)) 3%nat g) =
  Ok ([sZ 0; sZ 1; sZ 2; S754_nan; S754_nan; S754_nan; S754_nan; S754_nan],
      repeat (shows toy_row) 3 ++ repeat (repeat S754_nan 5) 5, 4%nat) /\
  rmap (fun r => (shows (c_labels (fst r)), match c_probs (fst r) with None => [] | Some p => map shows (pr_rows p) end, snd r))
    (do g <- sampleG; decompose asort (auto_gaussian_mixture toy_gm toy_seed (toy_randint 8) (fun _ => seq 0 14) (nlit 1 2) (fun a => a) (default_bin0, default_bin1)) 3%nat g) =
  Ok ([sZ 1; sZ 1; sZ 1; S754_nan; S754_nan; S754_nan; S754_nan; S754_nan],
      repeat [sQ 1 8; sQ 3 8; sQ 3 16; sQ 5 16] 3 ++ repeat (repeat S754_nan 4) 5, 104%nat).
Proof. vm_compute. auto. Qed.
(** An estimator that refuses: its error comes through. *)
Example ex_c49_error :
  exn_of (do g <- sampleG; decompose asort (kmeans (N:=F64) (fun (_ : dict (kwval string)) (st : nat) _ => Raise ValueError) (fun a => a) (default_bin0, default_bin1)) 3%nat g) = Some ValueError.
Proof. vm_compute. reflexivity. Qed.
