(** JEHistogram with finer and coarser energy bins on one galaxy (C116). *)
From Coq Require Import Lia Lra Permutation Sorted Floats.SpecFloat.
From Flocq Require Import Core.
From Verif Require ShiftFacts.
From Verif Require Import Py Num RX F64 Np Df Data DataFacts DfFacts CenterFacts Ex Spec DataThms SpecCirc Circ CircFacts CircThms SpecBase Base BaseFacts BaseThms Threshold EpsFacts ThresholdThms SpecHist Hist HistFacts EdgeFacts HistThms EdgeThms EnergyFacts EnergyThms SpecPot SpecMirror MirrorThms SpinThms MixStar WhistFacts SpecVersus VersusThms SpecNested NestedThms SplitThms.
Local Open Scope nat_scope.

(** *** Counting by energy *)
Lemma sum_ext f g l : (forall a, In a l -> f a = g a) -> sum f l = sum g l.
Proof. intros H. apply Nat.le_antisymm; apply sum_le; intros a I; rewrite (H a I); lia. Qed.
Lemma sum_app f a b : sum f (a ++ b) = sum f a + sum f b.
Proof. unfold sum. induction a as [|x a IH]; cbn [app fold_right]; [reflexivity|]. rewrite IH. lia. Qed.
Lemma sum_zero f l : (forall a, In a l -> f a = 0) -> sum f l = 0.
Proof. unfold sum. induction l as [|a l IH]; intros H; cbn [fold_right]; [reflexivity|]. rewrite IH by (intros; apply H; now right). rewrite (H a (or_introl eq_refl)). reflexivity. Qed.
Lemma sum_plus f g l : sum (fun a => f a + g a) l = sum f l + sum g l.
Proof. unfold sum. induction l as [|a l IH]; cbn [fold_right]; [reflexivity|]. rewrite IH. lia. Qed.
Lemma sum_blocks f k n : sum f (seq 0 (k * n)) = sum (fun j => sum f (seq (k * j) k)) (seq 0 n).
Proof.
  induction n as [|n IH]; [rewrite Nat.mul_0_r; reflexivity|]. rewrite Nat.mul_succ_r, seq_app, sum_app, IH, seq_S, sum_app. cbn [Nat.add sum fold_right]. lia.
Qed.
(** A test that holds for exactly one of the tests of a family counts as their sum. *)
Lemma count_split {A} (p : A -> bool) (q : nat -> A -> bool) ns l :
  (forall x, In x l -> (if p x then 1 else 0) = sum (fun a => if q a x then 1 else 0) ns) ->
  length (filter p l) = sum (fun a => length (filter (q a) l)) ns.
Proof.
  induction l as [|x l IH]; intros H.
  - cbn. symmetry. apply sum_zero. reflexivity.
  - specialize (IH (fun y I => H y (or_intror I))). specialize (H x (or_introl eq_refl)). cbn [filter].
    rewrite (sum_ext _ (fun a => (if q a x then 1 else 0) + length (filter (q a) l)) ns).
    + rewrite sum_plus, <- H, <- IH. destruct (p x); reflexivity.
    + intros a _. destruct (q a x); reflexivity.
Qed.
Lemma sum_one (q : nat -> bool) c ns : NoDup ns -> (forall a, In a ns -> q a = true <-> a = c) ->
  sum (fun a => if q a then 1 else 0) ns = if in_dec Nat.eq_dec c ns then 1 else 0.
Proof.
  induction ns as [|x ns IH]; intros ND H; [reflexivity|]. inversion ND as [|? ? Nx ND']; subst. specialize (IH ND' (fun a I => H a (or_intror I))).
  unfold sum in *. cbn [fold_right]. rewrite IH. destruct (H x (or_introl eq_refl)) as (H1 & H2).
  destruct (in_dec Nat.eq_dec c (x :: ns)) as [I|I], (in_dec Nat.eq_dec c ns) as [I'|I'], (q x) eqn:Q; try reflexivity.
  - specialize (H1 eq_refl). subst c. contradiction.
  - exfalso. destruct I as [->|I]; [|contradiction]. specialize (H2 eq_refl). discriminate.
  - exfalso. apply I. now right.
  - exfalso. apply I. now right.
  - exfalso. apply I. left. now apply H1.
Qed.

Section Half.
Context {N : Num} (RN : Rounded N).
Lemma counted_holds edges m b (e : N) : b < m -> holds_bin edges m b e <-> counted edges m b e = true.
Proof.
  intros Hb. unfold holds_bin, counted. rewrite andb_true_iff. destruct (Nat.ltb_spec (S b) m) as [L|L].
  - split; [intros (_ & A & B & _); auto|]. intros (A & B). repeat split; auto; lia.
  - assert (S b = m) by lia. subst m. split; [intros (_ & A & _ & B); auto|]. intros (A & B). repeat split; auto; lia.
Qed.
Lemma half_counted m edges j (e : N) : grid_to n0 m edges -> j < m -> half_open edges j e = counted edges m j e && nlt e n0.
Proof.
  intros G Hj. unfold half_open, counted. rewrite <- andb_assoc. f_equal. destruct G as (L & G0 & Gn & GI). pose proof Gn as Gn'. apply (neqb_iff RN) in Gn' as (V & V').
  destruct (Nat.ltb_spec (S j) m) as [Q|Q].
  - destruct (nlt e (nth (S j) edges nnan)) eqn:X; [|reflexivity]. symmetry. apply (nlt_iff RN) in X. apply (nlt_iff RN). eapply xlt_le_trans; [exact X|].
    rewrite <- V. apply (grid_chain RN n0 m edges); [repeat split; assumption|lia].
  - assert (S j = m) by lia. subst m. destruct (nlt e n0) eqn:X.
    + apply (nlt_iff RN) in X. rewrite (proj2 (nle_iff RN _ _)); [|rewrite V; now apply xlt_le]. apply (nlt_iff RN). now rewrite V.
    + rewrite andb_false_r. destruct (nlt e (nth (S j) edges nnan)) eqn:Y; [|reflexivity]. apply (nlt_iff RN) in Y. rewrite V in Y. apply (nlt_iff RN) in Y. congruence.
Qed.
End Half.

Section Energies.
Context {N : Num} (RN : Rounded N) (k n : nat) (fine coarse : list N).
Hypothesis Hk : 1 <= k.
Hypothesis Hn : 1 <= n.
Hypothesis GF : grid_to n0 (k * n) fine.
Hypothesis GC : grid_to n0 n coarse.
Hypothesis HN : nested k n fine coarse.

(** A coarse bin is its fine bins. *)
Lemma counted_parts j (e : N) : j < n ->
  (if counted coarse n j e then 1 else 0) = sum (fun a => if counted fine (k * n) a e then 1 else 0) (seq (k * j) k).
Proof.
  intros Hj. destruct (counted coarse n j e) eqn:Q.
  - apply counted_holds in Q; [|exact Hj]. destruct (grid_inside RN n0 n coarse j e Hn GC Q) as (I1 & I2).
    destruct (grid_cover RN n0 (k * n) fine e ltac:(nia) GF I1 I2) as (c & Hc).
    pose proof (grid_unique RN _ _ _ _ _ _ GC (held_by RN n0 k n fine coarse [] Hk Hn GF HN (fun e I => match I with end) c e Hc) Q) as D.
    rewrite (sum_one _ c); [|apply seq_NoDup|].
    + destruct (in_dec Nat.eq_dec c (seq (k * j) k)) as [_|Nc]; [reflexivity|]. exfalso. apply Nc, in_seq. pose proof (Nat.div_mod c k ltac:(lia)). pose proof (Nat.mod_upper_bound c k ltac:(lia)). rewrite D in *. lia.
    + intros a I. apply in_seq in I. rewrite <- counted_holds by nia. split; [intros Ha; exact (grid_unique RN _ _ _ _ _ _ GF Ha Hc)|intros ->; exact Hc].
  - symmetry. apply sum_zero. intros a I. apply in_seq in I. destruct (counted fine (k * n) a e) eqn:A; [|reflexivity]. exfalso.
    apply counted_holds in A; [|nia]. apply (held_by RN n0 k n fine coarse [] Hk Hn GF HN (fun e I => match I with end)) in A. apply counted_holds in A; [|apply A].
    replace (a / k) with j in A; [congruence|]. apply (Nat.div_unique a k j (a - k * j)); lia.
Qed.
(** The same for lists of particles. *)
Lemma parts_counted energy l j : j < n ->
  length (with_energy (counted coarse n j) energy l) = sum (fun a => length (with_energy (counted fine (k * n) a) energy l)) (seq (k * j) k).
Proof.
  intros Hj. unfold with_energy. apply count_split. intros i _. destruct (nth_error energy i) as [e|]; [now apply counted_parts|]. symmetry. now apply sum_zero.
Qed.
Lemma parts_open energy l j : j < n ->
  length (with_energy (half_open coarse j) energy l) = sum (fun a => length (with_energy (half_open fine a) energy l)) (seq (k * j) k).
Proof.
  intros Hj. unfold with_energy. apply count_split. intros i _. destruct (nth_error energy i) as [e|]; [|symmetry; now apply sum_zero].
  rewrite (half_counted RN n coarse j e GC Hj). rewrite (sum_ext _ (fun a => if counted fine (k * n) a e && nlt e n0 then 1 else 0)) by (intros a I; apply in_seq in I; rewrite (half_counted RN (k * n) fine a e GF) by nia; reflexivity).
  destruct (nlt e n0); [|rewrite andb_false_r; symmetry; apply sum_zero; intros; now rewrite andb_false_r].
  rewrite andb_true_r, counted_parts by exact Hj. apply sum_ext. intros. now rewrite andb_true_r.
Qed.
End Energies.

Section Spheroid.
Context {N : Num} (RN : Rounded N) (n : nat) (ed energy : list N).
Hypothesis Hn : 1 <= n.
Hypothesis G : grid_to n0 n ed.
(** If the spheroid has only energies from -1 to below 0, its particles are counted bin by bin. *)
Lemma by_energy labels l : (forall i, In i l -> nth_error labels i = Some 0%Z -> exists e, nth_error energy i = Some e /\ nle nm1 e = true /\ nlt e n0 = true) ->
  SpecHist.labelled 0 labels l = sum (fun j => SpecHist.labelled 0 labels (with_energy (half_open ed j) energy l)) (seq 0 n).
Proof.
  intros H. unfold SpecHist.labelled at 1.
  rewrite (sum_ext _ (fun j => length (filter (fun i => (match nth_error energy i with Some e => half_open ed j e | None => false end) && lab 0 labels i) l))).
  2: { intros j _. unfold SpecHist.labelled, with_energy. clear. induction l as [|a l IH]; cbn [filter]; [reflexivity|]. destruct (match nth_error energy a with Some e => half_open ed j e | None => false end); cbn [filter andb]; [|exact IH]. fold (lab 0 labels a). destruct (lab 0 labels a); cbn [length]; [f_equal|]; exact IH. }
  apply count_split. intros i I. change (match nth_error labels i with Some z' => (0 =? z')%Z | None => false end) with (lab 0 labels i). destruct (lab 0 labels i) eqn:Q.
  - assert (Q' : nth_error labels i = Some 0%Z) by (unfold lab in Q; destruct (nth_error labels i); [apply Z.eqb_eq in Q; congruence|discriminate]).
    destruct (H i I Q') as (e & Ee & E1 & E2). rewrite Ee. assert (E3 : nle e n0 = true) by (apply (nlt_iff RN) in E2; apply (nle_iff RN); now apply xlt_le).
    destruct (grid_cover RN n0 n ed e Hn G E1 E3) as (c & Hc). rewrite (sum_one _ c); [|apply seq_NoDup|].
    + destruct (in_dec Nat.eq_dec c (seq 0 n)) as [_|Nc]; [reflexivity|]. exfalso. apply Nc, in_seq. destruct Hc. lia.
    + intros a Ia. apply in_seq in Ia. rewrite andb_true_r, (half_counted RN n ed a e G) by lia. rewrite E2, andb_true_r, <- counted_holds by lia.
      split; [intros Ha; exact (grid_unique RN _ _ _ _ _ _ G Ha Hc)|intros ->; exact Hc].
  - symmetry. apply sum_zero. intros a _. now rewrite andb_false_r.
Qed.
End Spheroid.

Section Cells.
Context {N : Num} (HA : arith N) {St1 : Type} (choice1 : St1 -> list nat -> nat -> list nat * St1).
Context (junk1 : nat -> Z) (n_bin digits k n_bin_E : Z) (st1 st1' : St1) (energy eps : list N) (labels1 : list Z).
Hypothesis D1 : draws choice1.
Hypothesis Hn : (n_bin <= 2 ^ 53)%Z.
Hypothesis Hk : (1 <= k)%Z.
Hypothesis HnE : (1 <= n_bin_E)%Z.
Hypothesis HkE : (k * n_bin_E <= 2 ^ 53)%Z.
Hypothesis Hd : (0 <= digits)%Z.
Let n := Z.to_nat n_bin.
Let edges := map (np_round digits) (linspace (nm1 : N) n1 n).
Let nE := Z.to_nat n_bin_E.
Hypothesis E1 : hist_split (pick_energy choice1 energy n_bin_E) junk1 n_bin digits st1 eps = Ok (labels1, st1').

(** The spheroid of a crowded bin, bin of energy by bin of energy. *)
Lemma crowded_sum : exists bin0, zero_edge edges bin0 /\ grid_to n1 n edges /\ 0 < bin0 < n /\
  (forall b, b < bin0 -> SpecHist.labelled 0 labels1 (bin_list edges n eps b) = length (bin_list edges n eps b)) /\
  (forall b, 2 * bin0 <= b < n -> SpecHist.labelled 0 labels1 (bin_list edges n eps b) = 0) /\
  (forall b, bin0 <= b < 2 * bin0 -> b < n -> length (bin_list edges n eps b) <= length (bin_list edges n eps (2 * bin0 - 1 - b)) ->
     SpecHist.labelled 0 labels1 (bin_list edges n eps b) = length (bin_list edges n eps b)) /\
  (forall b, bin0 <= b < 2 * bin0 -> b < n -> length (bin_list edges n eps (2 * bin0 - 1 - b)) < length (bin_list edges n eps b) ->
     SpecHist.labelled 0 labels1 (bin_list edges n eps b) =
     sum (fun j => Nat.min (length (with_energy (counted (linspace nm1 n0 nE) nE j) energy (bin_list edges n eps (2 * bin0 - 1 - b))))
                           (length (with_energy (half_open (linspace nm1 n0 nE) j) energy (bin_list edges n eps b)))) (seq 0 nE)).
Proof.
  assert (HE : (n_bin_E <= 2 ^ 53)%Z) by (clear - Hk HkE HnE; nia).
  destruct (c45_composition N St1 choice1 junk1 n_bin digits n_bin_E energy eps st1 labels1 st1' HA D1 Hn HE Hd E1) as (bin0 & Hz & G & Hb0 & C).
  destruct (composed N St1 choice1 _ junk1 n_bin digits _ st1 labels1 st1' HA D1 Hn Hd (or_intror (ex_intro _ _ (ex_intro _ _ (conj HE eq_refl)))) E1) as (_ & c & Hz1 & _ & _ & _ & _ & C3).
  fold n in Hz, G, Hb0, C, Hz1, C3. fold edges in Hz, G, C, Hz1, C3. fold nE in C. assert (c = bin0) by (eapply zero_edge_unique; eauto). subst c.
  assert (M : forall b, b < n -> members edges n b eps (bin_list edges n eps b)) by (intros; now apply bin_members).
  exists bin0. split; [exact Hz|]. split; [exact G|]. split; [exact Hb0|]. split; [|split; [|split]].
  - intros b Hb. destruct (C b _ ltac:(lia) (M b ltac:(lia))) as (A & _). now apply A.
  - intros b Hb. apply C3. exact Hb.
  - intros b Hb Hbn L. destruct (C b _ Hbn (M b Hbn)) as (_ & _ & A). destruct (A Hb _ (M (2 * bin0 - 1 - b) ltac:(lia))) as (_ & A' & _). now apply A'.
  - intros b Hb Hbn L. destruct (C b _ Hbn (M b Hbn)) as (_ & _ & A). destruct (A Hb _ (M (2 * bin0 - 1 - b) ltac:(lia))) as (_ & _ & A'). destruct (A' L) as (_ & _ & A1 & A2).
    destruct (arith_grid N HA) as (RN' & GR).
    rewrite (by_energy RN' nE (linspace nm1 n0 nE) energy ltac:(unfold nE; lia) (energy_grid RN' GR nE ltac:(unfold nE; lia) ltac:(unfold nE; lia)) labels1 _ A2).
    apply sum_ext. intros j I. apply in_seq in I. apply A1. lia.
Qed.
End Cells.

Section Compare.
Context {N : Num} (HA : arith N) {St1 St2 : Type} (choice1 : St1 -> list nat -> nat -> list nat * St1) (choice2 : St2 -> list nat -> nat -> list nat * St2).
Context (junk1 junk2 : nat -> Z) (n_bin digits : Z) (st1 st1' : St1) (st2 st2' : St2) (energy eps : list N) (labels1 labels2 : list Z).
Hypothesis D1 : draws choice1.
Hypothesis D2 : draws choice2.
Hypothesis Hn : (n_bin <= 2 ^ 53)%Z.
Hypothesis Hd : (0 <= digits)%Z.
Let n := Z.to_nat n_bin.
Let edges := map (np_round digits) (linspace (nm1 : N) n1 n).

Lemma finer_energy k n_bin_E : (1 <= k)%Z -> (1 <= n_bin_E)%Z -> (k * n_bin_E <= 2 ^ 53)%Z ->
  nested (Z.to_nat k) (Z.to_nat n_bin_E) (linspace (nm1 : N) n0 (Z.to_nat (k * n_bin_E))) (linspace nm1 n0 (Z.to_nat n_bin_E)) ->
  hist_split (pick_energy choice1 energy n_bin_E) junk1 n_bin digits st1 eps = Ok (labels1, st1') ->
  hist_split (pick_energy choice2 energy (k * n_bin_E)) junk2 n_bin digits st2 eps = Ok (labels2, st2') ->
  1 <= n /\ grid_to n1 n edges /\
  forall b, b < n -> SpecHist.labelled 0 labels2 (bin_list edges n eps b) <= SpecHist.labelled 0 labels1 (bin_list edges n eps b).
Proof.
  intros Hk HnE HkE HN E1 E2. destruct (arith_grid N HA) as (RN' & GR).
  destruct (crowded_sum HA choice1 junk1 n_bin digits k n_bin_E st1 st1' energy eps labels1 D1 Hn Hk HnE HkE Hd E1) as (c & Hz & G & Hc & A1 & A2 & A3 & A4).
  destruct (crowded_sum HA choice2 junk2 n_bin digits 1 (k * n_bin_E) st2 st2' energy eps labels2 D2 Hn ltac:(lia) ltac:(clear - Hk HnE; nia) ltac:(lia) Hd E2) as (c' & Hz' & _ & _ & B1 & B2 & B3 & B4).
  fold n in Hz, G, Hc, A1, A2, A3, A4, Hz', B1, B2, B3, B4. fold edges in Hz, G, A1, A2, A3, A4, Hz', B1, B2, B3, B4.
  assert (c' = c) by (eapply zero_edge_unique; eauto). subst c'. set (nE := Z.to_nat n_bin_E) in *. set (K := Z.to_nat k) in *.
  replace (Z.to_nat (k * n_bin_E)) with (K * nE) in * by (unfold K, nE; rewrite Z2Nat.inj_mul by lia; reflexivity).
  assert (HK : 1 <= K) by (unfold K; lia). assert (H1 : 1 <= nE) by (unfold nE; lia).
  assert (Q1 : (Z.of_nat nE <= 2 ^ 53)%Z) by (unfold nE; clear - Hk HnE HkE; nia). assert (Q2 : (Z.of_nat (K * nE) <= 2 ^ 53)%Z) by (unfold K, nE; clear - Hk HnE HkE; nia).
  pose proof (energy_grid RN' GR nE H1 Q1) as GC. pose proof (energy_grid RN' GR (K * nE) ltac:(clear - HK H1; nia) Q2) as GF.
  split; [lia|]. split; [exact G|]. intros b Hb. destruct (Nat.lt_ge_cases b c) as [L|L]; [rewrite A1, B1 by exact L; lia|].
  destruct (Nat.lt_ge_cases b (2 * c)) as [L'|L']; [|rewrite B2 by (split; assumption); lia].
  destruct (Nat.le_gt_cases (length (bin_list edges n eps b)) (length (bin_list edges n eps (2 * c - 1 - b)))) as [M|M]; [rewrite A3, B3 by (auto; lia); lia|].
  rewrite A4, B4 by (auto; lia). rewrite sum_blocks. apply sum_le. intros j I. apply in_seq in I.
  rewrite (parts_counted RN' K nE _ _ HK H1 GF GC HN) by lia. rewrite (parts_open RN' K nE _ _ HK H1 GF GC HN) by lia.
  apply Nat.min_glb; apply sum_le; intros a _; [apply Nat.le_min_l|apply Nat.le_min_r].
Qed.

Lemma one_energy_bin : (forall i e, nth_error eps i = Some e -> exists w, nth_error energy i = Some w /\ nle nm1 w = true /\ nle w n0 = true) -> length energy = length eps ->
  hist_split (pick_any choice1) junk1 n_bin digits st1 eps = Ok (labels1, st1') ->
  hist_split (pick_energy choice2 energy 1) junk2 n_bin digits st2 eps = Ok (labels2, st2') ->
  1 <= n /\ grid_to n1 n edges /\
  forall b, b < n -> SpecHist.labelled 0 labels2 (bin_list edges n eps b) = SpecHist.labelled 0 labels1 (bin_list edges n eps b).
Proof.
  intros HW HL E1 E2. destruct (arith_grid N HA) as (RN' & GR).
  destruct (c42_composition N St1 choice1 junk1 n_bin digits _ st1 labels1 st1' HA D1 Hn Hd E1) as (c & Hz & G & Hc & A).
  destruct (composed N St1 choice1 _ junk1 n_bin digits _ st1 labels1 st1' HA D1 Hn Hd (or_introl eq_refl) E1) as (_ & c3 & Hz3 & _ & _ & _ & _ & A2).
  destruct (crowded_sum HA choice2 junk2 n_bin digits 1 1 st2 st2' energy eps labels2 D2 Hn ltac:(lia) ltac:(lia) ltac:(lia) Hd E2) as (c' & Hz' & _ & _ & B1 & B2 & B3 & B4).
  fold n in Hz, G, Hc, A, A2, Hz', B1, B2, B3, B4, Hz3. fold edges in Hz, G, A, A2, Hz', B1, B2, B3, B4, Hz3.
  assert (c' = c) by (eapply zero_edge_unique; eauto). assert (c3 = c) by (eapply zero_edge_unique; eauto). subst c' c3. change (Z.to_nat 1) with 1 in *.
  assert (M : forall b, b < n -> members edges n b eps (bin_list edges n eps b)) by (intros; now apply bin_members).
  split; [lia|]. split; [exact G|]. intros b Hb. destruct (A b _ Hb (M b Hb)) as (A1 & A3 & _). destruct (Nat.lt_ge_cases b c) as [L|L]; [rewrite A1, B1 by exact L; reflexivity|].
  destruct (Nat.lt_ge_cases b (2 * c)) as [L'|L']; [|rewrite A2, B2 by (split; assumption); reflexivity].
  destruct (A3 (conj L L') _ (M (2 * c - 1 - b) ltac:(lia))) as (-> & _).
  destruct (Nat.le_gt_cases (length (bin_list edges n eps b)) (length (bin_list edges n eps (2 * c - 1 - b)))) as [Q|Q]; [rewrite B3 by (auto; lia); lia|].
  rewrite B4 by (auto; lia). cbn [seq sum fold_right]. rewrite Nat.add_0_r.
  pose proof (energy_grid RN' GR 1 ltac:(lia) ltac:(lia)) as GE. pose proof GE as (_ & G0 & Gn & _). apply (neqb_iff RN') in G0 as (V0 & _). apply (neqb_iff RN') in Gn as (V1 & _).
  assert (P0 : forall w : N, nle nm1 w = true -> nle w n0 = true -> counted (linspace nm1 n0 1) 1 0 w = true).
  { intros w W1 W2. unfold counted. change (1 <? 1)%nat with false. cbv iota. apply (nle_iff RN') in W1. apply (nle_iff RN') in W2.
    apply andb_true_intro. split; apply (nle_iff RN'); [now rewrite V0|now rewrite V1]. }
  assert (All : forall d, d < n -> length (with_energy (counted (linspace nm1 n0 1) 1 0) energy (bin_list edges n eps d)) = length (bin_list edges n eps d)).
  { intros d Hd'. unfold with_energy. rewrite (filter_ext_in _ (fun _ => true)).
    - clear. induction (bin_list edges n eps d); cbn; congruence.
    - intros i I. destruct (M d Hd') as (_ & Mi). apply Mi in I as (e & Ee & _). destruct (HW i e Ee) as (w & -> & W1 & W2). now apply P0. }
  rewrite (All (2 * c - 1 - b)) by lia. set (neg := length (with_energy (half_open (linspace nm1 n0 1) 0) energy (bin_list edges n eps b))).
  assert (Split : length (bin_list edges n eps b) <= neg + length (with_energy (fun e => neqb e n0) energy (bin_list edges n eps b))).
  { unfold neg, with_energy. assert (I0 : forall i, In i (bin_list edges n eps b) -> exists w, nth_error energy i = Some w /\ nle nm1 w = true /\ nle w n0 = true).
    { intros i I. destruct (M b Hb) as (_ & Mi). apply Mi in I as (e & Ee & _). exact (HW i e Ee). }
    clear - I0 P0 RN' GR. induction (bin_list edges n eps b) as [|i l IH]; [cbn; lia|]. specialize (IH (fun x I => I0 x (or_intror I))). destruct (I0 i (or_introl eq_refl)) as (w & Ew & W1 & W2).
    cbn [filter length]. rewrite Ew. pose proof (counted_half RN' GR 1 0 w ltac:(lia) ltac:(lia) ltac:(lia)) as (_ & C1 & _). specialize (C1 (P0 w W1 W2)).
    destruct (half_open (linspace nm1 n0 1) 0 w); [destruct (neqb w n0); cbn [length]; lia|]. destruct (C1 eq_refl) as (-> & _). cbn [length]. lia. }
  assert (Ge : length (bin_list edges n eps (2 * c - 1 - b)) <= neg); [|lia].
  apply Nat.nlt_ge. intros Lt.
  destruct (c46_exact N St2 choice2 junk2 n_bin digits 1 energy eps st2 HA D2 ltac:(unfold n in Hc; lia) ltac:(lia) Hd HL c Hz) as (F & _). rewrite E2 in F.
  assert (X : Ok (labels2, st2') = Raise ValueError); [|discriminate X]. apply F.
  exists b, (bin_list edges n eps b), (bin_list edges n eps (2 * c - 1 - b)). split; [lia|]. split; [exact Hb|]. split; [exact (M b Hb)|]. split; [exact (M (2 * c - 1 - b) ltac:(lia))|].
  split; [exact Q|]. change (Z.to_nat 1 - 1) with 0. change (Z.to_nat 1) with 1. cbv zeta. rewrite (All (2 * c - 1 - b)) by lia. fold neg. lia.
Qed.
End Compare.

(** Over the bins and in total, from the bins of the stars used. *)
Lemma tally_bins {N : Num} (RN : Rounded N) (g : galaxy N) j u l1 l2 c1 c2 n edges :
  handed g j u l1 c1 -> handed g j u l2 c2 -> length (jc_eps j) = plen (g_stars g) ->
  (forall r z, nth_error l1 r = Some z -> z = 0%Z \/ z = 1%Z) -> (forall r z, nth_error l2 r = Some z -> z = 0%Z \/ z = 1%Z) ->
  1 <= n -> grid_to n1 n edges -> (forall e, In e (column (jc_eps j) u) -> nle nm1 e = true /\ nle e n1 = true) ->
  (forall b, b < n -> SpecHist.labelled 0 l2 (bin_list edges n (column (jc_eps j) u) b) <= SpecHist.labelled 0 l1 (bin_list edges n (column (jc_eps j) u) b)) ->
  (forall b, b < n -> tally (counted edges n b) 0 (jc_eps j) c2 <= tally (counted edges n b) 0 (jc_eps j) c1) /\
  tally (fun _ => true) 0 (jc_eps j) c2 <= tally (fun _ => true) 0 (jc_eps j) c1.
Proof.
  intros V1 V2 HE L1 L2 Hn0 G HR CL. split.
  - intros b Hb. rewrite (tally_cell RN g j u l1 c1 V1 HE L1), (tally_cell RN g j u l2 c2 V2 HE L2) by auto. now apply CL.
  - rewrite (tally_used RN g j u l1 c1 V1 HE L1), (tally_used RN g j u l2 c2 V2 HE L2) by auto. cbn [andb].
    assert (T : forall l, length (filter (lab 0 l) (seq 0 (length u))) = sum (fun b => SpecHist.labelled 0 l (bin_list edges n (column (jc_eps j) u) b)) (seq 0 n)).
    { intros l. replace (length u) with (length (column (jc_eps j) u)) by (unfold column; apply map_length).
      rewrite (filter_perm _ _ _ (partition RN n edges (column (jc_eps j) u) Hn0 G HR)). apply sum_filter. }
    rewrite !T. apply sum_le. intros b I. apply in_seq in I. apply CL. lia.
Qed.

(** With every energy bin cut into the same number of parts the spheroid of JEHistogram loses stars or keeps their
    number: in every bin of circularity, and in total. *)
Lemma c116_finer : forall (N : Num) (St1 St2 : Type) (choice1 : St1 -> list nat -> nat -> list nat * St1) (choice2 : St2 -> list nat -> nat -> list nat * St2)
    argsort junk1 junk2 cb n_bin digits k n_bin_E st1 st2 (g : galaxy N) j c1 c2 s1 s2,
  arith N -> draws choice1 -> draws choice2 -> constructible g ->
  (n_bin <= 2 ^ 53)%Z -> (0 <= digits)%Z -> (1 <= k)%Z -> (1 <= n_bin_E)%Z -> (k * n_bin_E <= 2 ^ 53)%Z ->
  nested (Z.to_nat k) (Z.to_nat n_bin_E) (linspace (nm1 : N) n0 (Z.to_nat (k * n_bin_E))) (linspace nm1 n0 (Z.to_nat n_bin_E)) ->
  jcirc argsort g (fst cb) (snd cb) = Ok j ->
  decompose argsort (jehistogram choice1 junk1 cb n_bin digits n_bin_E) st1 g = Ok (c1, s1) ->
  decompose argsort (jehistogram choice2 junk2 cb n_bin digits (k * n_bin_E)) st2 g = Ok (c2, s2) ->
  let n := Z.to_nat n_bin in let edges := map (np_round digits) (linspace nm1 n1 n) in
  (forall b, (b < n)%nat -> (tally (counted edges n b) 0 (jc_eps j) c2 <= tally (counted edges n b) 0 (jc_eps j) c1)%nat) /\
  (tally (fun _ => true) 0 (jc_eps j) c2 <= tally (fun _ => true) 0 (jc_eps j) c1)%nat.
Proof.
  intros N St1 St2 choice1 choice2 argsort junk1 junk2 cb n_bin digits k n_bin_E st1 st2 g j c1 c2 s1 s2 HA D1 D2 Hg Hn Hd Hk HnE HkE HN Hj H1 H2 n edges.
  destruct (arith_grid N HA) as (RN & _). assert (HE1 : (n_bin_E <= 2 ^ 53)%Z) by (clear - Hk HnE HkE; nia).
  destruct (view_ehist RN HA argsort g cb Hg choice1 junk1 n_bin digits n_bin_E st1 s1 c1 D1 Hn HE1 Hd H1) as (j1 & u1 & l1 & Hj1 & V1 & M1 & L1 & E1).
  destruct (view_ehist RN HA argsort g cb Hg choice2 junk2 n_bin digits (k * n_bin_E) st2 s2 c2 D2 Hn HkE Hd H2) as (j2 & u2 & l2 & Hj2 & V2 & M2 & L2 & E2).
  assert (j1 = j) by congruence. assert (j2 = j) by congruence. subst j1 j2.
  assert (u2 = u1) by (apply sorted_members; [exact (h_sorted _ _ _ _ _ V2)|exact (h_sorted _ _ _ _ _ V1)|]; intros i; rewrite M1, M2; reflexivity). subst u2.
  pose proof (column_range RN argsort g cb Hg j u1 l1 c1 Hj V1) as HR.
  destruct (finer_energy HA choice1 choice2 junk1 junk2 n_bin digits st1 s1 st2 s2 _ _ l1 l2 D1 D2 Hn Hd k n_bin_E Hk HnE HkE HN E1 E2) as (Hn0 & G & CL).
  exact (tally_bins RN g j u1 l1 l2 c1 c2 n edges V1 V2 (eps_length RN argsort g cb Hg j Hj) L1 L2 Hn0 G HR CL).
Qed.

(** With a single energy bin the spheroid of JEHistogram has in every bin of circularity as many stars as that of
    JHistogram, if some bound particle has an energy other than zero. *)
Lemma c116_one : forall (N : Num) (St1 St2 : Type) (choice1 : St1 -> list nat -> nat -> list nat * St1) (choice2 : St2 -> list nat -> nat -> list nat * St2)
    argsort junk1 junk2 cb n_bin digits st1 st2 (g : galaxy N) j c1 c2 s1 s2,
  arith N -> draws choice1 -> draws choice2 -> constructible g -> (n_bin <= 2 ^ 53)%Z -> (0 <= digits)%Z ->
  some_depth g -> jcirc argsort g (fst cb) (snd cb) = Ok j ->
  decompose argsort (jhistogram choice1 junk1 cb n_bin digits) st1 g = Ok (c1, s1) ->
  decompose argsort (jehistogram choice2 junk2 cb n_bin digits 1) st2 g = Ok (c2, s2) ->
  let n := Z.to_nat n_bin in let edges := map (np_round digits) (linspace nm1 n1 n) in
  (forall b, (b < n)%nat -> tally (counted edges n b) 0 (jc_eps j) c2 = tally (counted edges n b) 0 (jc_eps j) c1) /\
  tally (fun _ => true) 0 (jc_eps j) c2 = tally (fun _ => true) 0 (jc_eps j) c1.
Proof.
  intros N St1 St2 choice1 choice2 argsort junk1 junk2 cb n_bin digits st1 st2 g j c1 c2 s1 s2 HA D1 D2 Hg Hn Hd SD Hj H1 H2 n edges.
  destruct (arith_grid N HA) as (RN & _).
  destruct (view_hist RN HA argsort g cb Hg choice1 junk1 n_bin digits st1 s1 c1 D1 Hn Hd H1) as (j1 & u1 & l1 & Hj1 & V1 & M1 & L1 & E1).
  destruct (view_ehist RN HA argsort g cb Hg choice2 junk2 n_bin digits 1 st2 s2 c2 D2 Hn ltac:(lia) Hd H2) as (j2 & u2 & l2 & Hj2 & V2 & M2 & L2 & E2).
  assert (j1 = j) by congruence. assert (j2 = j) by congruence. subst j1 j2.
  destruct (same_or_none RN argsort g cb Hg c1 c2 j u1 u2 l1 l2 Hj V1 V2 M1 M2) as (Q1 & _). specialize (Q1 SD). subst u2.
  pose proof (column_range RN argsort g cb Hg j u1 l1 c1 Hj V1) as HR. pose proof (eps_length RN argsort g cb Hg j Hj) as HE.
  assert (HW : forall i e, nth_error (column (jc_eps j) u1) i = Some e -> exists w, nth_error (column (jc_E j) u1) i = Some w /\ nle nm1 w = true /\ nle w n0 = true).
  { intros i e Hi. unfold column in Hi. rewrite nth_error_map in Hi. destruct (nth_error u1 i) as [m|] eqn:Em; [|discriminate].
    destruct (proj1 (M2 m) (nth_error_In _ _ Em)) as (_ & (w & Ew & Fw) & _). exists w. rewrite (column_nth (jc_E j) u1 i m Em), (nth_error_nth _ _ nnan Ew). split; [reflexivity|].
    destruct (c25_bounded N RN argsort g _ _ j Hg Hj) as (B & _). destruct (B w (nth_error_In _ _ Ew)) as [Bn|B1]; [rewrite (fin_nle RN w Fw) in Bn; discriminate|exact B1]. }
  destruct (one_energy_bin HA choice1 choice2 junk1 junk2 n_bin digits st1 s1 st2 s2 _ _ l1 l2 D1 D2 Hn Hd HW ltac:(unfold column; now rewrite !map_length) E1 E2) as (Hn0 & G & CL). fold n in Hn0, G, CL. fold edges in G, CL.
  destruct (tally_bins RN g j u1 l1 l2 c1 c2 n edges V1 V2 HE L1 L2 Hn0 G HR (fun b Hb => Nat.eq_le_incl _ _ (CL b Hb))) as (A1 & A2).
  destruct (tally_bins RN g j u1 l2 l1 c2 c1 n edges V2 V1 HE L2 L1 Hn0 G HR (fun b Hb => Nat.eq_le_incl _ _ (eq_sym (CL b Hb)))) as (B1 & B2).
  split; [intros b Hb|]; apply Nat.le_antisymm; auto.
Qed.

(** The condition on the edges: in exact arithmetic it always holds, in binary64 with any summation order it holds
    when the number of energy bins is doubled any number of times. *)
Lemma c116_edges : (forall k n, (1 <= k)%nat -> (1 <= n)%nat -> nested k n (linspace (nm1 : RX) n0 (k * n)) (linspace nm1 n0 n)) /\
  (forall sm p n, (1 <= n)%nat -> (Z.of_nat (2 ^ p * n) <= 2 ^ 53)%Z -> nested (2 ^ p) n (linspace (nm1 : F64s sm) n0 (2 ^ p * n)) (linspace nm1 n0 n)).
Proof.
  split.
  - intros k n Hk Hn i Hi. change (nm1 : RX) with (XR (-1)). change (n0 : RX) with (XR 0). rewrite !linspaceR by nia.
    apply (neqb_iff RX_rounded). split; [|discriminate]. cbn. f_equal. rewrite !Nat2Z.inj_mul, !mult_IZR. field. split; apply IZR_neq; lia.
  - intros sm p n Hn Hb i Hi. apply (neqb_iff (F64_rounded sm)).
    destruct (linspace_pow2 sm 1 n0 p n (or_introl eq_refl) (val_n0 (F64_rounded sm)) Hn Hb i Hi) as (r & _ & -> & ->). split; [reflexivity|discriminate].
Qed.

(** "More energy bins never give a larger spheroid": false if the coarse bins are not made of the fine ones; three
    energy bins against two, with the other parameters at their defaults. *)
Definition unevenE : res (galaxy F64) :=
  lineG (zl [(-51,1,0,(-121,2)); (51,1,0,(-81,2)); (51,1,0,(-81,2)); (1,1,0,(-201,2))])%Z
        (zl [(100,1,0,(-121,2)); (100,1,0,(-121,2)); (100,1,0,(-81,2)); (100,1,0,(-81,2)); (100,1,0,(-3,4))])%Z [].
Lemma c116_finer_refuted : exists (g : galaxy F64) j c1 c2 s1 s2, constructible g /\ draws turns /\
  jcirc asort g default_bin0 default_bin1 = Ok j /\
  decompose asort (jehistogram turns (fun _ => 9%Z) (default_bin0, default_bin1) 100 2 2) false g = Ok (c1, s1) /\
  decompose asort (jehistogram turns (fun _ => 9%Z) (default_bin0, default_bin1) 100 2 3) false g = Ok (c2, s2) /\
  (tally (fun _ => true) 0 (jc_eps j) c1 < tally (fun _ => true) 0 (jc_eps j) c2)%nat.
Proof.
  assert (H : match unevenE with Ok g =>
     match jcirc asort g default_bin0 default_bin1,
           decompose asort (jehistogram turns (fun _ => 9%Z) (default_bin0, default_bin1) 100 2 2) false g,
           decompose asort (jehistogram turns (fun _ => 9%Z) (default_bin0, default_bin1) 100 2 3) false g with
     | Ok j, Ok (c1, _), Ok (c2, _) => (tally (fun _ => true) 0 (jc_eps j) c1 <? tally (fun _ => true) 0 (jc_eps j) c2)%nat
     | _, _, _ => false end | _ => false end = true) by (vm_compute; reflexivity).
  destruct unevenE as [g|] eqn:Eg; [|discriminate].
  destruct (jcirc asort g default_bin0 default_bin1) as [j|] eqn:Ej; [|discriminate].
  destruct (decompose asort (jehistogram _ _ _ _ _ 2) _ g) as [[c1 s1]|] eqn:E1; [|discriminate].
  destruct (decompose asort (jehistogram _ _ _ _ _ 3) _ g) as [[c2 s2]|] eqn:E2; [|discriminate].
  exists g, j, c1, c2, s1, s2. split; [eapply lineG_ok; exact Eg|]. split; [exact turns_draws|]. repeat (split; [reflexivity||assumption|]). now apply Nat.ltb_lt.
Qed.
(** "With a single energy bin JEHistogram's spheroid is as large as JHistogram's": false if all bound particles have
    energy zero. *)
Lemma c116_one_refuted : exists (g : galaxy F64) j c1 c2 s1 s2, constructible g /\ draws turns /\
  jcirc asort g default_bin0 default_bin1 = Ok j /\
  decompose asort (jhistogram turns (fun _ => 9%Z) (default_bin0, default_bin1) 100 2) false g = Ok (c1, s1) /\
  decompose asort (jehistogram turns (fun _ => 9%Z) (default_bin0, default_bin1) 100 2 1) false g = Ok (c2, s2) /\
  (tally (fun _ => true) 0 (jc_eps j) c2 < tally (fun _ => true) 0 (jc_eps j) c1)%nat.
Proof.
  set (G := lineG (zl [(1,1,0,(-1,2)); (2,1,0,(-1,2)); (-1,1,0,(-1,2))])%Z [] []).
  assert (H : match G with Ok g =>
     match jcirc asort g default_bin0 default_bin1,
           decompose asort (jhistogram turns (fun _ => 9%Z) (default_bin0, default_bin1) 100 2) false g,
           decompose asort (jehistogram turns (fun _ => 9%Z) (default_bin0, default_bin1) 100 2 1) false g with
     | Ok j, Ok (c1, _), Ok (c2, _) => (tally (fun _ => true) 0 (jc_eps j) c2 <? tally (fun _ => true) 0 (jc_eps j) c1)%nat
     | _, _, _ => false end | _ => false end = true) by (vm_compute; reflexivity).
  destruct G as [g|] eqn:Eg; [|discriminate].
  destruct (jcirc asort g default_bin0 default_bin1) as [j|] eqn:Ej; [|discriminate].
  destruct (decompose asort (jhistogram _ _ _ _ _) _ g) as [[c1 s1]|] eqn:E1; [|discriminate].
  destruct (decompose asort (jehistogram _ _ _ _ _ _) _ g) as [[c2 s2]|] eqn:E2; [|discriminate].
  exists g, j, c1, c2, s1, s2. split; [eapply lineG_ok; exact Eg|]. split; [exact turns_draws|]. repeat (split; [reflexivity||assumption|]). now apply Nat.ltb_lt.
Qed.

(** The edges of 1, 2, 4, 5 and 10 energy bins are edges of the 20 of the default. *)
Example ex_c116_nested :
  forall k n, In (k, n) [(20, 1); (10, 2); (5, 4); (4, 5); (2, 10)]%nat -> nested k n (linspace (nm1 : F64) n0 20) (linspace nm1 n0 n).
Proof.
  assert (H : (fun l : list F64 => forallb (fun '(k, n) => (fun m => forallb (fun i => neqb (nth (k * i) l nnan) (nth i m nnan)) (seq 0 (S n))) (linspace nm1 n0 n)) [(20, 1); (10, 2); (5, 4); (4, 5); (2, 10)]%nat) (linspace nm1 n0 20) = true) by (vm_compute; reflexivity).
  intros k n I. apply nested_by. cbv beta in H. rewrite forallb_forall in H. exact (H (k, n) I).
Qed.
(** The galaxy of EX_C114: with one or two energy bins one of the two stars with circularity 0.51 goes to the
    spheroid, as with JHistogram; with four or more none does. *)
Example ex_c116_finer :
  (map (fun m => tally_by (jehistogram turns (fun _ => 9%Z) (default_bin0, default_bin1) 100 2 m) false) [1; 2; 4; 20]%Z,
   tally_by (jhistogram turns (fun _ => 9%Z) (default_bin0, default_bin1) 100 2) false) =
  (map (fun t => Ok (t, (1, 3))) [2; 2; 1; 1], Ok (2, (1, 3)))%nat.
Proof. vm_compute. reflexivity. Qed.
