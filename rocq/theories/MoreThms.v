(** JHistogram and JEHistogram on some stars and on more stars (C120). *)
From Coq Require Import Lra Lia Permutation Sorted Floats.SpecFloat.
From Flocq Require Import Core.
From Verif Require Import Py Num RX F64 Np Df Data DataFacts DfFacts CenterFacts Ex Spec DataThms SpecCirc Circ CircFacts CircThms SpecBase Base BaseFacts BaseThms Threshold EpsFacts ThresholdThms SpecHist Hist HistFacts EdgeFacts HistThms EdgeThms EnergyFacts EnergyThms SpecPot SpecMirror MirrorThms SpinThms MixStar WhistFacts SpecVersus VersusThms SpecNested NestedThms SpecMore.
From Verif Require EnestThms.

Lemma bin_size {N : Num} (edges : list N) n eps b : length (bin_list edges n eps b) = length (filter (in_bin edges n b) eps).
Proof.
  unfold bin_list, where_. rewrite where_from_length. unfold count. induction eps as [|e eps IH]; [reflexivity|]. cbn [map filter].
  destruct (in_bin edges n b e); cbn [length]; now rewrite IH.
Qed.
Lemma bin_size_more {N : Num} (edges : list N) n eps extra eps' b : Permutation (eps ++ extra) eps' ->
  length (bin_list edges n eps' b) = (length (bin_list edges n eps b) + length (bin_list edges n extra b))%nat.
Proof. intros P. rewrite !bin_size, <- (filter_perm _ _ _ P), filter_app, app_length. reflexivity. Qed.
Lemma sum_add f h l : sum (fun a => f a + h a)%nat l = (sum f l + sum h l)%nat.
Proof. unfold sum. induction l as [|a l IH]; cbn [fold_right]; [reflexivity|]. rewrite IH. lia. Qed.
Lemma sum_app f a b : sum f (a ++ b) = (sum f a + sum f b)%nat.
Proof. unfold sum. induction a as [|x a IH]; cbn [app fold_right]; [reflexivity|]. rewrite IH. lia. Qed.
Lemma sum_incl f l : forall l', NoDup l -> incl l l' -> (sum f l <= sum f l')%nat.
Proof.
  induction l as [|a l IH]; intros l' ND I; [cbn; lia|]. inversion ND as [|? ? Na ND']; subst. destruct (in_split a l' (I a (or_introl eq_refl))) as (u & v & ->).
  assert (Q : (sum f l <= sum f (u ++ v))%nat).
  { apply IH; [exact ND'|]. intros x X. assert (In x (u ++ a :: v)) as Y by (apply I; now right). apply in_app_iff in Y. apply in_app_iff. destruct Y as [Y|[Y|Y]]; auto. congruence. }
  rewrite sum_app in *. cbn [sum fold_right]. fold (sum f l). fold (sum f v). lia.
Qed.
Lemma having_lab z labels : having z labels = length (filter (lab z labels) (seq 0 (length labels))).
Proof.
  unfold having. induction labels as [|y l IH]; [reflexivity|]. cbn [length seq filter]. unfold lab at 1. cbn [nth_error].
  rewrite <- seq_shift. assert (Q : length (filter (lab z (y :: l)) (map S (seq 0 (length l)))) = length (filter (lab z l) (seq 0 (length l)))).
  { generalize (seq 0 (length l)). intros q. induction q as [|i q IHq]; [reflexivity|]. cbn [map filter]. change (lab z (y :: l) (S i)) with (lab z l i). destruct (lab z l i); cbn [length]; now rewrite IHq. }
  destruct (z =? y)%Z; cbn [length]; rewrite Q, IH; reflexivity.
Qed.
Lemma labelled_perm z labels a b : Permutation a b -> SpecHist.labelled z labels a = SpecHist.labelled z labels b.
Proof. apply filter_perm. Qed.
Lemma members_same {N : Num} (edges : list N) n b eps l : (b < n)%nat -> members edges n b eps l -> Permutation l (bin_list edges n eps b).
Proof.
  intros Hb (ND & M). destruct (bin_members edges n b eps Hb) as (ND' & M'). apply NoDup_Permutation; auto. intros i. rewrite M, M'. reflexivity.
Qed.

(** Spheroid stars of one split, bin by bin. *)
Lemma spheroid_bins : forall (N : Num) (St : Type) choice junk n_bin digits (eps : list N) (st : St) labels st',
  arith N -> draws choice -> (n_bin <= 2 ^ 53)%Z -> (0 <= digits)%Z ->
  hist_split (pick_any choice) junk n_bin digits st eps = Ok (labels, st') ->
  let n := Z.to_nat n_bin in let edges := map (np_round (N:=N) digits) (linspace nm1 n1 n) in let B := bin_list edges n eps in
  exists bin0, zero_edge edges bin0 /\ grid_to n1 n edges /\ (0 < bin0 < n)%nat /\ length labels = length eps /\
    forall b, (b < n)%nat -> SpecHist.labelled 0 labels (B b) =
      if (b <? bin0)%nat then length (B b) else if (b <? 2 * bin0)%nat then Nat.min (length (B (2 * bin0 - 1 - b)%nat)) (length (B b)) else 0%nat.
Proof.
  intros N St choice junk n_bin digits eps st labels st' HA D Hn Hd E n edges B.
  destruct (c42_composition N St choice junk n_bin digits eps st labels st' HA D Hn Hd E) as (c & Hz & G & Hb & C).
  destruct (composed N St choice _ junk n_bin digits eps st labels st' HA D Hn Hd (or_introl eq_refl) E) as (L & c' & Hz' & _ & _ & _ & _ & C').
  fold n in Hz, G, Hb, C, Hz', C'. fold edges in Hz, G, C, Hz', C'. fold B in C'. assert (c' = c) by (eapply zero_edge_unique; eauto). subst c'.
  exists c. do 4 (split; [assumption|]). intros b H.
  destruct (C b (B b) H (bin_members edges n b eps H)) as (A1 & A2 & _).
  destruct (Nat.ltb_spec b c) as [Q|Q]; [now apply A1|]. destruct (Nat.ltb_spec b (2 * c)) as [Q'|Q'].
  - assert (M : (2 * c - 1 - b < n)%nat) by (clear - Q Hb; lia). apply (A2 (conj Q Q') _ (bin_members edges n _ eps M)).
  - apply C'. split; assumption.
Qed.

(** More stars, the others as before: no bin of the spheroid loses stars, whatever the generators draw; a star
    more brings at most two more to the spheroid, itself and one taken from the disk, so the disk loses at most
    one for each. *)
Lemma c120_more : forall (N : Num) (St1 St2 : Type) (choice1 : St1 -> list nat -> nat -> list nat * St1) (choice2 : St2 -> list nat -> nat -> list nat * St2)
    junk1 junk2 n_bin digits (eps extra eps' : list N) st1 st2 labels1 labels2 s1 s2,
  arith N -> draws choice1 -> draws choice2 -> (n_bin <= 2 ^ 53)%Z -> (0 <= digits)%Z ->
  Permutation (eps ++ extra) eps' ->
  (forall e, In e eps' -> nle nm1 e = true /\ nle e n1 = true) ->
  hist_split (pick_any choice1) junk1 n_bin digits st1 eps = Ok (labels1, s1) ->
  hist_split (pick_any choice2) junk2 n_bin digits st2 eps' = Ok (labels2, s2) ->
  let n := Z.to_nat n_bin in
  let edges := map (np_round digits) (linspace nm1 n1 n) in
  (forall b l l', (b < n)%nat -> members edges n b eps l -> members edges n b eps' l' -> (labelled 0 labels1 l <= labelled 0 labels2 l')%nat) /\
  (having 0 labels1 <= having 0 labels2 <= having 0 labels1 + 2 * length extra)%nat /\
  (having 1 labels1 <= having 1 labels2 + length extra)%nat.
Proof.
  intros N St1 St2 choice1 choice2 junk1 junk2 n_bin digits eps extra eps' st1 st2 l1 l2 s1 s2 HA D1 D2 Hn Hd P HR E1 E2 n edges.
  destruct (arith_grid N HA) as (RN & _).
  destruct (spheroid_bins N St1 choice1 junk1 n_bin digits eps st1 l1 s1 HA D1 Hn Hd E1) as (c & Hz & G & Hc & L1 & B1).
  destruct (spheroid_bins N St2 choice2 junk2 n_bin digits eps' st2 l2 s2 HA D2 Hn Hd E2) as (c' & Hz' & _ & _ & L2 & B2).
  fold n in Hz, G, Hc, B1, Hz', B2. fold edges in Hz, G, B1, Hz', B2. assert (c' = c) by (eapply zero_edge_unique; eauto). subst c'. clear Hz Hz'.
  assert (Hn0 : (1 <= n)%nat) by (clear - Hc; lia).
  assert (HI : forall e, In e eps \/ In e extra -> nle nm1 e = true /\ nle e n1 = true) by (intros e I; apply HR; eapply Permutation_in; [exact P|]; now apply in_app_iff).
  pose proof (partition RN n edges eps Hn0 G (fun e I => HI e (or_introl I))) as P1. pose proof (partition RN n edges extra Hn0 G (fun e I => HI e (or_intror I))) as PX. pose proof (partition RN n edges eps' Hn0 G HR) as P2.
  set (x := fun b => length (bin_list edges n extra b)).
  assert (SZ : forall b, length (bin_list edges n eps' b) = (length (bin_list edges n eps b) + x b)%nat) by (intros b; now apply bin_size_more).
  set (F1 := fun b => SpecHist.labelled 0 l1 (bin_list edges n eps b)). set (F2 := fun b => SpecHist.labelled 0 l2 (bin_list edges n eps' b)).
  set (m := fun b => if (b <? c)%nat then 0%nat else if (b <? 2 * c)%nat then x (2 * c - 1 - b)%nat else 0%nat).
  assert (LE : forall b, (b < n)%nat -> (F1 b <= F2 b)%nat /\ (F2 b <= F1 b + (x b + m b))%nat).
  { intros b Hb. unfold F1, F2, m. rewrite B1, B2 by exact Hb. rewrite !SZ. clear. destruct (b <? c)%nat; [lia|]. destruct (b <? 2 * c)%nat; lia. }
  assert (T1 : having 0 l1 = sum F1 (seq 0 n)) by (rewrite having_lab, L1, (filter_perm _ _ _ P1); apply sum_filter).
  assert (T2 : having 0 l2 = sum F2 (seq 0 n)) by (rewrite having_lab, L2, (filter_perm _ _ _ P2); apply sum_filter).
  assert (TX : sum x (seq 0 n) = length extra).
  { apply Permutation_length in PX. rewrite seq_length in PX. rewrite PX. symmetry. apply sum_length. }
  assert (TM : (sum m (seq 0 n) <= length extra)%nat).
  { rewrite <- TX. assert (S0 : forall l, (forall b, In b l -> m b = 0%nat) -> sum m l = 0%nat).
    { clear. induction l as [|a l IH]; intros H; [reflexivity|]. cbn. rewrite (H a (or_introl eq_refl)). apply IH. intros b I. apply H. now right. }
    set (k := (Nat.min (2 * c) n - c)%nat). assert (n = c + (k + (n - Nat.min (2 * c) n)))%nat as EN by (unfold k; clear - Hc; lia).
    replace (seq 0 n) with (seq 0 c ++ seq c k ++ seq (c + k) (n - Nat.min (2 * c) n)) at 1 by (rewrite <- !seq_app, <- EN; reflexivity).
    rewrite !sum_app, (S0 (seq 0 c)), (S0 (seq (c + k) _)), Nat.add_0_r.
    - cbn [Nat.add]. apply Nat.le_trans with (sum x (map (fun b => 2 * c - 1 - b)%nat (seq c k))).
      + rewrite sum_map. apply sum_le. intros b I. apply in_seq in I. unfold m. destruct (b <? c)%nat; [lia|]. destruct (b <? 2 * c)%nat; lia.
      + apply sum_incl.
        * assert (K : (k <= c)%nat) by (unfold k; lia). clear - K. revert K. generalize k as q. assert (forall q a, (c <= a)%nat -> (a + q <= 2 * c)%nat -> NoDup (map (fun b => 2 * c - 1 - b)%nat (seq a q))) as Q.
          { induction q as [|q IH]; intros a A B; cbn [seq map]; constructor; [|apply IH; lia]. intros I. apply in_map_iff in I. destruct I as (b & Eb & I). apply in_seq in I. lia. }
          intros q K. apply Q; lia.
        * intros b I. apply in_map_iff in I. destruct I as (a & <- & I). apply in_seq in I. apply in_seq. lia.
    - intros b I. apply in_seq in I. unfold m. destruct (Nat.ltb_spec b c); [reflexivity|]. destruct (Nat.ltb_spec b (2 * c)); [|reflexivity]. unfold k in I. lia.
    - intros b I. apply in_seq in I. unfold m. destruct (Nat.ltb_spec b c); [reflexivity|]. lia. }
  assert (H0 : (having 0 l1 <= having 0 l2 <= having 0 l1 + 2 * length extra)%nat).
  { rewrite T1, T2. split.
    - apply sum_le. intros b I. apply in_seq in I. apply LE. lia.
    - apply Nat.le_trans with (sum (fun b => F1 b + (x b + m b))%nat (seq 0 n)).
      + apply sum_le. intros b I. apply in_seq in I. apply LE. lia.
      + rewrite sum_add, sum_add, TX. lia. }
  assert (ALL : forall (St : Type) (choice : St -> list nat -> nat -> list nat * St) junk (ep : list N) st l s, draws choice -> (forall e, In e ep -> nle nm1 e = true /\ nle e n1 = true) ->
      hist_split (pick_any choice) junk n_bin digits st ep = Ok (l, s) -> (having 0 l + having 1 l = length ep)%nat).
  { intros St choice junk ep st l s D HE E. destruct (c41_labels N St choice junk n_bin digits ep st l s HA D Hn Hd E) as (L & A). rewrite <- L.
    assert (Q : forall z, In z l -> z = 0%Z \/ z = 1%Z).
    { intros z I. apply In_nth_error in I. destruct I as (i & I). assert (i < length l)%nat by (apply nth_error_Some; congruence).
      destruct (nth_error ep i) as [e|] eqn:Ei; [|apply nth_error_None in Ei; lia]. destruct (A i e Ei) as (A' & _). destruct (HE e (nth_error_In _ _ Ei)) as (U & V).
      destruct (A' U V) as (W & _). destruct W as [W|W]; rewrite W in I; injection I as <-; auto. }
    clear - Q. unfold having. induction l as [|z l IH]; [reflexivity|]. cbn [filter]. specialize (IH (fun y I => Q y (or_intror I))).
    destruct (Q z (or_introl eq_refl)) as [->| ->]; cbn [Z.eqb Pos.eqb length]; lia. }
  split; [|split; [exact H0|]].
  - intros b l l' Hb M M'. rewrite (labelled_perm 0 l1 _ _ (members_same edges n b eps l Hb M)), (labelled_perm 0 l2 _ _ (members_same edges n b eps' l' Hb M')). apply (LE b Hb).
  - pose proof (ALL St1 choice1 junk1 eps st1 l1 s1 D1 (fun e I => HI e (or_introl I)) E1). pose proof (ALL St2 choice2 junk2 eps' st2 l2 s2 D2 HR E2).
    pose proof (Permutation_length P) as LP. rewrite app_length in LP. lia.
Qed.

(** *** With energies *)
Lemma paired {N : Num} (edges : list N) n b (P : N -> bool) rows :
  length (with_energy P (map fst rows) (bin_list edges n (map snd rows) b)) = length (filter (fun r => in_bin edges n b (snd r) && P (fst r)) rows).
Proof.
  unfold bin_list, where_, with_energy. induction rows as [|[w e] rows IH]; [reflexivity|]. cbn [map fst snd filter where_from]. rewrite where_from_S.
  assert (Q : forall l, length (filter (fun i => match nth_error (w :: map fst rows) i with Some v => P v | None => false end) (map S l)) =
                        length (filter (fun i => match nth_error (map fst rows) i with Some v => P v | None => false end) l)).
  { induction l as [|i l IHl]; [reflexivity|]. cbn [map filter nth_error]. destruct (match nth_error (map fst rows) i with Some v => P v | None => false end); cbn [length]; now rewrite IHl. }
  destruct (in_bin edges n b e); cbn [filter nth_error andb]; [destruct (P w); cbn [length]|]; now rewrite Q, IH.
Qed.

(** JEHistogram, with added stars that all rotate against the others: no bin of the spheroid loses stars. *)
Lemma c120_energy : forall (N : Num) (St1 St2 : Type) (choice1 : St1 -> list nat -> nat -> list nat * St1) (choice2 : St2 -> list nat -> nat -> list nat * St2)
    junk1 junk2 n_bin digits n_bin_E (rows extra rows' : list (N * N)) st1 st2 labels1 labels2 s1 s2,
  arith N -> draws choice1 -> draws choice2 -> (n_bin <= 2 ^ 53)%Z -> (1 <= n_bin_E <= 2 ^ 53)%Z -> (0 <= digits)%Z ->
  Permutation (rows ++ extra) rows' ->
  (forall w e, In (w, e) rows' -> nle nm1 e = true /\ nle e n1 = true) ->
  (forall w e, In (w, e) extra -> nlt e n0 = true) ->
  hist_split (pick_energy choice1 (map fst rows) n_bin_E) junk1 n_bin digits st1 (map snd rows) = Ok (labels1, s1) ->
  hist_split (pick_energy choice2 (map fst rows') n_bin_E) junk2 n_bin digits st2 (map snd rows') = Ok (labels2, s2) ->
  let n := Z.to_nat n_bin in
  let edges := map (np_round digits) (linspace nm1 n1 n) in
  (forall b l l', (b < n)%nat -> members edges n b (map snd rows) l -> members edges n b (map snd rows') l' -> (labelled 0 labels1 l <= labelled 0 labels2 l')%nat) /\
  (having 0 labels1 + length extra <= having 0 labels2)%nat.
Proof.
  intros N St1 St2 choice1 choice2 junk1 junk2 n_bin digits n_bin_E rows extra rows' st1 st2 l1 l2 s1 s2 HA D1 D2 Hn HnE Hd P HR HX E1 E2 n edges.
  destruct (arith_grid N HA) as (RN & _).
  assert (HnE' : (1 * n_bin_E <= 2 ^ 53)%Z) by lia. assert (HnE1 : (1 <= n_bin_E)%Z) by lia.
  destruct (EnestThms.crowded_sum HA choice1 junk1 n_bin digits 1 n_bin_E st1 s1 _ _ l1 D1 Hn ltac:(lia) HnE1 HnE' Hd E1) as (c & Hz & G & Hc & A1 & A2 & A3 & A4).
  destruct (EnestThms.crowded_sum HA choice2 junk2 n_bin digits 1 n_bin_E st2 s2 _ _ l2 D2 Hn ltac:(lia) HnE1 HnE' Hd E2) as (c' & Hz' & _ & _ & B1 & B2 & B3 & B4).
  destruct (c45_labels N St1 choice1 junk1 n_bin digits n_bin_E _ _ st1 l1 s1 HA D1 Hn (proj2 HnE) Hd E1) as (L1 & _).
  destruct (c45_labels N St2 choice2 junk2 n_bin digits n_bin_E _ _ st2 l2 s2 HA D2 Hn (proj2 HnE) Hd E2) as (L2 & _).
  fold n in Hz, G, Hc, A1, A2, A3, A4, Hz', B1, B2, B3, B4. fold edges in Hz, G, A1, A2, A3, A4, Hz', B1, B2, B3, B4.
  assert (c' = c) by (eapply zero_edge_unique; eauto). subst c'.
  assert (Hn0 : (1 <= n)%nat) by (clear - Hc; lia).
  set (eps := map snd rows) in *. set (eps' := map snd rows') in *. set (ex := map snd extra).
  assert (PE : Permutation (eps ++ ex) eps') by (unfold eps, ex, eps'; rewrite <- map_app; now apply Permutation_map).
  set (x := fun b => length (bin_list edges n ex b)).
  assert (SZ : forall b, length (bin_list edges n eps' b) = (length (bin_list edges n eps b) + x b)%nat) by (intros b; now apply bin_size_more).
  assert (Z0 : neqb (nth c edges nnan) n0 = true) by apply Hz.
  assert (X0 : forall b e, (c <= b < n)%nat -> nlt e n0 = true -> in_bin edges n b e = false).
  { intros b e Hb He. destruct (in_bin edges n b e) eqn:Q; [|reflexivity]. apply in_bin_holds in Q; [|lia].
    destruct (pos_bin RN n edges [] Hn0 G (fun e (I : In e []) => match I with end) c Z0 Hc b e ltac:(lia) Q) as (Q' & _). congruence. }
  assert (XZ : forall b, (c <= b < n)%nat -> x b = 0%nat).
  { intros b Hb. unfold x. rewrite bin_size. destruct (filter (in_bin edges n b) ex) as [|e q] eqn:F; [reflexivity|].
    assert (I : In e (filter (in_bin edges n b) ex)) by (rewrite F; now left). apply filter_In in I as (I & Q). unfold ex in I. apply in_map_iff in I as ((w & v) & <- & I).
    cbn [snd] in Q. rewrite (X0 b v Hb (HX w v I)) in Q. discriminate. }
  assert (WE : forall b Q, length (with_energy Q (map fst rows') (bin_list edges n eps' b)) =
      (length (with_energy Q (map fst rows) (bin_list edges n eps b)) + length (filter (fun r => in_bin edges n b (snd r) && Q (fst r)) extra))%nat).
  { intros b Q. unfold eps, eps'. rewrite !paired, <- (filter_perm _ _ _ P), filter_app, app_length. reflexivity. }
  assert (LE : forall b, (b < n)%nat -> (SpecHist.labelled 0 l1 (bin_list edges n eps b) + x b <= SpecHist.labelled 0 l2 (bin_list edges n eps' b))%nat).
  { intros b Hb. destruct (Nat.lt_ge_cases b c) as [Q|Q]; [rewrite A1, B1, SZ by exact Q; lia|]. rewrite (XZ b (conj Q Hb)), Nat.add_0_r.
    destruct (Nat.lt_ge_cases b (2 * c)) as [Q'|Q']; [|rewrite A2 by (split; assumption); lia].
    set (b' := (2 * c - 1 - b)%nat). pose proof (SZ b) as Sb. rewrite (XZ b (conj Q Hb)) in Sb. pose proof (SZ b') as Sb'.
    destruct (Nat.le_gt_cases (length (bin_list edges n eps' b)) (length (bin_list edges n eps' b'))) as [K|K].
    - rewrite (B3 b (conj Q Q') Hb K), Sb, Nat.add_0_r. unfold SpecHist.labelled. clear. induction (bin_list edges n eps b) as [|i q IH]; [cbn; lia|].
      cbn [filter length]. destruct (match nth_error l1 i with Some z' => (0 =? z')%Z | None => false end); cbn [length]; lia.
    - rewrite (B4 b (conj Q Q') Hb K). fold b' in A4. rewrite (A4 b (conj Q Q') Hb) by (fold b'; lia). fold b'. apply sum_le. intros j _. rewrite !WE. lia. }
  split.
  - intros b l l' Hb M M'. rewrite (labelled_perm 0 l1 _ _ (members_same edges n b eps l Hb M)), (labelled_perm 0 l2 _ _ (members_same edges n b eps' l' Hb M')).
    specialize (LE b Hb). lia.
  - assert (HI' : forall e, In e eps' -> nle nm1 e = true /\ nle e n1 = true) by (intros e I; unfold eps' in I; apply in_map_iff in I as ((w & v) & <- & I); exact (HR w v I)).
    assert (HI : forall e, In e eps \/ In e ex -> nle nm1 e = true /\ nle e n1 = true) by (intros e I; apply HI'; eapply Permutation_in; [exact PE|]; now apply in_app_iff).
    pose proof (partition RN n edges eps Hn0 G (fun e I => HI e (or_introl I))) as P1. pose proof (partition RN n edges ex Hn0 G (fun e I => HI e (or_intror I))) as PX. pose proof (partition RN n edges eps' Hn0 G HI') as P2.
    assert (TX : sum x (seq 0 n) = length extra).
    { apply Permutation_length in PX. rewrite seq_length in PX. unfold ex in PX at 1. rewrite map_length in PX. rewrite PX. symmetry. apply sum_length. }
    rewrite !having_lab, L1, L2, (filter_perm _ _ _ P1), (filter_perm _ _ _ P2), !sum_filter, <- TX, <- sum_add. apply sum_le. intros b I. apply in_seq in I. apply LE. lia.
Qed.

(** Not so with JEHistogram: a bin no fuller than its mirror joins the spheroid whole, a fuller one only with the
    energies of the mirror.  Here one co-rotating star more takes all three co-rotating stars out of the spheroid,
    with the default parameters and whatever the generator does. *)
Lemma c120_energy_refuted : exists (energy eps : list F64) (w e : F64),
  (forall v, In v (e :: eps) -> nle nm1 v = true /\ nle v n1 = true) /\ (forall v, In v (w :: energy) -> nle nm1 v = true /\ nlt v n0 = true) /\
  forall (St : Type) (choice : St -> list nat -> nat -> list nat * St) junk st, exists labels1 labels2,
    hist_split (pick_energy choice energy 20) junk 100 2 st eps = Ok (labels1, st) /\
    hist_split (pick_energy choice (energy ++ [w]) 20) junk 100 2 st (eps ++ [e]) = Ok (labels2, st) /\
    having 0 labels1 = 6%nat /\ having 0 labels2 = 3%nat.
Proof.
  exists (map (fun z => nlit z 100) [-93; -93; -93; -17; -17; -17]%Z), (map (fun z => nlit z 1000) [-505; -505; -505; 505; 505; 505]%Z), (nlit (-17) 100), (nlit 505 1000).
  split; [|split].
  - apply Forall_forall. repeat constructor; vm_compute; reflexivity.
  - apply Forall_forall. repeat constructor; vm_compute; reflexivity.
  - intros St choice junk st. exists [0; 0; 0; 0; 0; 0]%Z, [0; 0; 0; 1; 1; 1; 1]%Z. split; [vm_compute; reflexivity|]. split; [vm_compute; reflexivity|]. split; reflexivity.
Qed.

(** Nor does one star more bring at most two to the spheroid of JEHistogram: here a counter-rotating one fills the
    mirror up to the co-rotating bin, and the four stars of that bin come with it. *)
Lemma c120_growth_refuted : exists (energy eps : list F64) (w e : F64),
  (forall v, In v (e :: eps) -> nle nm1 v = true /\ nle v n1 = true) /\ (forall v, In v (w :: energy) -> nle nm1 v = true /\ nlt v n0 = true) /\ nlt e n0 = true /\
  forall (St : Type) (choice : St -> list nat -> nat -> list nat * St) junk st, exists labels1 labels2,
    hist_split (pick_energy choice energy 20) junk 100 2 st eps = Ok (labels1, st) /\
    hist_split (pick_energy choice (energy ++ [w]) 20) junk 100 2 st (eps ++ [e]) = Ok (labels2, st) /\
    having 0 labels1 = 3%nat /\ having 0 labels2 = 8%nat.
Proof.
  exists (map (fun z => nlit z 100) [-93; -93; -93; -17; -17; -17; -17]%Z), (map (fun z => nlit z 1000) [-505; -505; -505; 505; 505; 505; 505]%Z), (nlit (-93) 100), (nlit (-505) 1000).
  split; [|split; [|split]].
  - apply Forall_forall. repeat constructor; vm_compute; reflexivity.
  - apply Forall_forall. repeat constructor; vm_compute; reflexivity.
  - vm_compute. reflexivity.
  - intros St choice junk st. exists [0; 0; 0; 1; 1; 1; 1]%Z, [0; 0; 0; 0; 0; 0; 0; 0]%Z. split; [vm_compute; reflexivity|]. split; [vm_compute; reflexivity|]. split; reflexivity.
Qed.

(** *** A case *)
(** One counter-rotating star more, and the spheroid has two more stars, the disk one fewer, with either way of
    drawing. *)
Example ex_c120_more :
  map (fun st => rmap fst (hist_split (pick_any turns) (fun _ => 9%Z) 4 2 st (map (fun z => nlit z 100) [-75; 60; 70; 80]%Z : list F64))) [false; true] =
  [Ok [0; 0; 1; 1]%Z; Ok [0; 1; 1; 0]%Z] /\
  map (fun st => rmap fst (hist_split (pick_any turns) (fun _ => 9%Z) 4 2 st (map (fun z => nlit z 100) [-75; 60; 70; 80; -85]%Z : list F64))) [false; true] =
  [Ok [0; 0; 0; 1; 0]%Z; Ok [0; 1; 0; 0; 0]%Z].
Proof. split; vm_compute; reflexivity. Qed.
(** The same with JEHistogram: the added counter-rotating star takes the one of its energy out of the disk. *)
Example ex_c120_energy :
  map (fun st => rmap fst (hist_split (pick_energy (N:=F64) turns (map (fun z => nlit z 10) [-9; -8; -7; -2]%Z) 2) (fun _ => 9%Z) 4 2 st
                   (map (fun z => nlit z 100) [-75; 60; 70; 80]%Z : list F64))) [false; true] =
  [Ok [0; 0; 1; 1]%Z; Ok [0; 1; 0; 1]%Z] /\
  map (fun st => rmap fst (hist_split (pick_energy (N:=F64) turns (map (fun z => nlit z 10) [-9; -8; -7; -2; -3]%Z) 2) (fun _ => 9%Z) 4 2 st
                   (map (fun z => nlit z 100) [-75; 60; 70; 80; -85]%Z : list F64))) [false; true] =
  [Ok [0; 0; 1; 0; 0]%Z; Ok [0; 1; 0; 0; 0]%Z].
Proof. split; vm_compute; reflexivity. Qed.
