(** JHistogram with finer and coarser bins on one galaxy (C115). *)
From Coq Require Import Lra Lia Permutation Sorted Floats.SpecFloat.
From Flocq Require Import Core.
From Verif Require Import Py Num RX F64 Np Df Data DataFacts DfFacts CenterFacts Ex Spec DataThms SpecCirc Circ CircFacts CircThms SpecBase Base BaseFacts BaseThms Threshold EpsFacts ThresholdThms SpecHist Hist HistFacts EdgeFacts HistThms EdgeThms EnergyFacts EnergyThms SpecPot SpecMirror MirrorThms SpinThms MixStar WhistFacts SpecVersus VersusThms SpecNested.
From Verif Require ShiftFacts.

(** *** Counting over several bins *)
Definition sum (f : nat -> nat) (l : list nat) : nat := fold_right (fun a s => f a + s)%nat 0%nat l.
Lemma sum_perm f a b : Permutation a b -> sum f a = sum f b.
Proof. unfold sum. induction 1; cbn [fold_right]; lia. Qed.
Lemma sum_le f g l : (forall a, In a l -> (f a <= g a)%nat) -> (sum f l <= sum g l)%nat.
Proof. induction l as [|a l IH]; intros H; cbn; [lia|]. pose proof (H a (or_introl eq_refl)). specialize (IH (fun b I => H b (or_intror I))). unfold sum in *. lia. Qed.
Lemma sum_map f h l : sum f (map h l) = sum (fun a => f (h a)) l.
Proof. induction l as [|a l IH]; cbn; [reflexivity|]. unfold sum in IH. now rewrite IH. Qed.
Lemma sum_filter (p : nat -> bool) (B : nat -> list nat) l : length (filter p (concat (map B l))) = sum (fun b => length (filter p (B b))) l.
Proof. induction l as [|a l IH]; cbn; [reflexivity|]. rewrite filter_app, app_length, IH. reflexivity. Qed.
Lemma sum_length (B : nat -> list nat) l : length (concat (map B l)) = sum (fun b => length (B b)) l.
Proof. induction l as [|a l IH]; cbn; [reflexivity|]. rewrite app_length, IH. reflexivity. Qed.
Lemma filter_perm {A} (p : A -> bool) a b : Permutation a b -> length (filter p a) = length (filter p b).
Proof. induction 1; cbn; try destruct (p x); try destruct (p y); cbn; lia. Qed.

Section Nest.
Context {N : Num} (RN : Rounded N) (top : N) (k n : nat) (fine coarse eps : list N).
Hypothesis Hk : (1 <= k)%nat.
Hypothesis Hn : (1 <= n)%nat.
Hypothesis GF : grid_to top (k * n) fine.
Hypothesis GC : grid_to top n coarse.
Hypothesis HN : nested k n fine coarse.
Hypothesis HI : forall e, In e eps -> nle nm1 e = true /\ nle e top = true.

Lemma edge_up b b' : (b <= b' <= k * n)%nat -> xle (val RN (nth b fine nnan)) (val RN (nth b' fine nnan)).
Proof.
  intros H. destruct (Nat.eq_dec b b') as [->|]; [|apply (grid_chain RN top (k * n)); auto; lia].
  apply xle_refl. destruct GF as (L & G0 & Gn & GI). destruct (Nat.eq_dec b' (k * n)) as [->|]; [now apply (neqb_iff RN) in Gn as (_ & ?)|].
  specialize (GI b' ltac:(lia)). apply (nle_iff RN) in GI. destruct (val RN (nth b' fine nnan)); try discriminate. contradiction.
Qed.
Lemma same_edge i : (i <= n)%nat -> val RN (nth (k * i) fine nnan) = val RN (nth i coarse nnan).
Proof. intros Hi. exact (proj1 (proj1 (neqb_iff RN _ _) (HN i Hi))). Qed.
(** What a fine bin holds, the coarse bin it is part of holds. *)
Lemma held_by b e : holds_bin fine (k * n) b e -> holds_bin coarse n (b / k) e.
Proof.
  intros (Hb & A & B & C). assert (Q : (b / k < n)%nat) by (apply Nat.div_lt_upper_bound; lia).
  pose proof (Nat.div_mod b k ltac:(lia)) as D. pose proof (Nat.mod_upper_bound b k ltac:(lia)) as D'.
  apply (nle_iff RN) in A. split; [exact Q|]. split; [|split].
  - apply (nle_iff RN). rewrite <- same_edge by lia. eapply xle_trans; [|exact A]. apply (edge_up). nia.
  - intros L. apply (nlt_iff RN). rewrite <- same_edge by lia.
    assert (S b <= k * S (b / k))%nat by nia. assert (k * S (b / k) < k * n)%nat by nia.
    specialize (B ltac:(lia)). apply (nlt_iff RN) in B. eapply xlt_le_trans; [exact B|]. apply (edge_up). lia.
  - intros L. apply (nle_iff RN). rewrite <- same_edge by lia.
    destruct (Nat.eq_dec (S b) (k * n)) as [E|E]; [apply (nle_iff RN), C, E|].
    specialize (B ltac:(lia)). apply (nlt_iff RN) in B. apply xlt_le. eapply xlt_le_trans; [exact B|]. apply (edge_up). lia.
Qed.
Let F b := bin_list fine (k * n) eps b.
Let C b := bin_list coarse n eps b.
(** The particles of a coarse bin are those of its fine bins. *)
Lemma parts b : (b < n)%nat -> Permutation (C b) (concat (map F (seq (k * b) k))).
Proof.
  intros Hb. apply NoDup_Permutation.
  - apply (bin_members coarse n b eps Hb).
  - assert (K : forall bs, NoDup bs -> (forall b, In b bs -> (b < k * n)%nat) -> NoDup (concat (map F bs))).
    { induction bs as [|a bs IH]; intros ND HB; [constructor|]. cbn [map concat]. inversion ND as [|? ? Nb ND']; subst.
      apply nodup_app; [apply where_NoDup|apply IH; auto; intros; apply HB; now right|].
      intros i I I'. apply in_concat in I' as (l & Il & I'). apply in_map_iff in Il as (c & <- & Ic).
      apply (proj2 (bin_members fine (k * n) a eps (HB a (or_introl eq_refl)))) in I as (e & E & H).
      apply (proj2 (bin_members fine (k * n) c eps (HB c (or_intror Ic)))) in I' as (e' & E' & H').
      assert (e' = e) as -> by congruence. assert (a = c) as -> by (exact (grid_unique RN _ _ _ _ _ _ GF H H')). contradiction. }
    apply K; [apply seq_NoDup|]. intros a I. apply in_seq in I. nia.
  - intros i. rewrite in_concat. unfold C. rewrite (proj2 (bin_members coarse n b eps Hb) i). split.
    + intros (e & E & H). destruct (HI e (nth_error_In _ _ E)) as (H1 & H2). destruct (grid_cover RN top (k * n) fine e ltac:(nia) GF H1 H2) as (a & Ha).
      assert (a / k = b)%nat by (eapply (grid_unique RN); [exact GC|apply held_by; exact Ha|exact H]). subst b.
      exists (F a). split; [|apply (proj2 (bin_members fine (k * n) a eps (proj1 Ha))); eauto].
      apply in_map_iff. exists a. split; [reflexivity|]. apply in_seq. pose proof (Nat.div_mod a k ltac:(lia)). pose proof (Nat.mod_upper_bound a k ltac:(lia)). lia.
    + intros (l & Il & I). apply in_map_iff in Il as (a & <- & Ia). apply in_seq in Ia.
      apply (proj2 (bin_members fine (k * n) a eps ltac:(nia))) in I as (e & E & H). exists e. split; [exact E|].
      replace b with (a / k)%nat; [now apply held_by|]. symmetry. apply (Nat.div_unique a k b (a - k * b)); lia.
Qed.
Lemma parts_length b : (b < n)%nat -> length (C b) = sum (fun a => length (F a)) (seq (k * b) k).
Proof. intros Hb. rewrite (Permutation_length (parts b Hb)). apply sum_length. Qed.
Lemma parts_label z labels b : (b < n)%nat -> SpecHist.labelled z labels (C b) = sum (fun a => SpecHist.labelled z labels (F a)) (seq (k * b) k).
Proof. intros Hb. unfold SpecHist.labelled. rewrite (filter_perm _ _ _ (parts b Hb)). apply sum_filter. Qed.
(** The opposite of the parts are the parts of the opposite. *)
Lemma parts_mirror c b : (c <= b < 2 * c)%nat -> (2 * c - 1 - b < n)%nat ->
  length (C (2 * c - 1 - b)) = sum (fun a => length (F (2 * (k * c) - 1 - a))) (seq (k * b) k).
Proof.
  intros Hc Hb. rewrite parts_length by exact Hb. rewrite <- (sum_map (fun a => length (F a)) (fun a => 2 * (k * c) - 1 - a)%nat). apply sum_perm, NoDup_Permutation; [apply seq_NoDup| |].
  - apply nodup_map_in; [|apply seq_NoDup]. intros x y Ix Iy. apply in_seq in Ix, Iy. assert (k * b + k <= 2 * (k * c))%nat by nia. lia.
  - assert (X : (k * (2 * c - 1 - b) = 2 * (k * c) - k - k * b)%nat) by (rewrite !Nat.mul_sub_distr_l; lia). assert (Y : (k * b + k <= 2 * (k * c))%nat) by nia.
    intros a. rewrite in_seq, in_map_iff, X. split.
    + intros I. exists (2 * (k * c) - 1 - a)%nat. rewrite in_seq. lia.
    + intros (x & <- & I). apply in_seq in I. lia.
Qed.
End Nest.

Section Cells.
Context {N : Num} (RN : Rounded N) (HA : arith N) {St1 St2 : Type} (choice1 : St1 -> list nat -> nat -> list nat * St1) (choice2 : St2 -> list nat -> nat -> list nat * St2).
Context (junk1 junk2 : nat -> Z) (k n_bin digits1 digits2 : Z) (st1 st1' : St1) (st2 st2' : St2) (eps : list N) (labels1 labels2 : list Z).
Hypothesis D1 : draws choice1.
Hypothesis D2 : draws choice2.
Hypothesis Hk : (1 <= k)%Z.
Hypothesis Hn : (k * n_bin <= 2 ^ 53)%Z.
Hypothesis Hd1 : (0 <= digits1)%Z.
Hypothesis Hd2 : (0 <= digits2)%Z.
Let n := Z.to_nat n_bin.
Let coarse := map (np_round digits1) (linspace (nm1 : N) n1 n).
Let fine := map (np_round digits2) (linspace (nm1 : N) n1 (Z.to_nat (k * n_bin))).
Hypothesis HN : nested (Z.to_nat k) n fine coarse.
Hypothesis HO : one_zero fine.
Hypothesis HI : forall e, In e eps -> nle nm1 e = true /\ nle e n1 = true.
Hypothesis E1 : hist_split (pick_any choice1) junk1 n_bin digits1 st1 eps = Ok (labels1, st1').
Hypothesis E2 : hist_split (pick_any choice2) junk2 (k * n_bin) digits2 st2 eps = Ok (labels2, st2').

Lemma nested_grids : (1 <= n)%nat /\ grid_to n1 n coarse /\ grid_to n1 (Z.to_nat k * n) fine.
Proof.
  assert (Hn1 : (n_bin <= 2 ^ 53)%Z) by nia.
  destruct (c42_composition N St1 choice1 junk1 n_bin digits1 _ st1 labels1 st1' HA D1 Hn1 Hd1 E1) as (b1 & _ & G1 & Hb1 & _).
  destruct (c42_composition N St2 choice2 junk2 (k * n_bin) digits2 _ st2 labels2 st2' HA D2 Hn Hd2 E2) as (b2 & _ & G2 & Hb2 & _).
  fold n in G1, Hb1. fold coarse in G1. fold fine in G2. rewrite Z2Nat.inj_mul in G2 by lia. fold n in G2. split; [lia|]. auto.
Qed.
Lemma finer_cell b : (b < n)%nat -> (SpecHist.labelled 0 labels2 (bin_list coarse n eps b) <= SpecHist.labelled 0 labels1 (bin_list coarse n eps b))%nat.
Proof.
  intros Hb. destruct nested_grids as (Hn0 & GC & GF). set (K := Z.to_nat k) in *. assert (HK : (1 <= K)%nat) by (unfold K; lia).
  assert (Hn1 : (n_bin <= 2 ^ 53)%Z) by nia.
  destruct (c42_composition N St1 choice1 junk1 n_bin digits1 _ st1 labels1 st1' HA D1 Hn1 Hd1 E1) as (c & Hz1 & _ & Hb1 & C1).
  destruct (c42_composition N St2 choice2 junk2 (k * n_bin) digits2 _ st2 labels2 st2' HA D2 Hn Hd2 E2) as (c2 & Hz2 & _ & Hb2 & C2).
  destruct (composed N St2 choice2 _ junk2 (k * n_bin) digits2 _ st2 labels2 st2' HA D2 Hn Hd2 (or_introl eq_refl) E2) as (_ & c3 & Hz3 & _ & _ & _ & _ & C3).
  fold n in Hz1, Hb1, C1. fold coarse in Hz1, C1. fold fine in Hz2, C2, Hz3, C3. assert (c3 = c2) by (eapply zero_edge_unique; eauto). subst c3.
  replace (Z.to_nat (k * n_bin)) with (K * n)%nat in * by (unfold K, n; rewrite Z2Nat.inj_mul by lia; reflexivity).
  assert (c2 = K * c)%nat.
  { destruct Hz1 as (_ & Z1 & _). destruct Hz2 as (L2 & Z2 & _). destruct GF as (LF & _). apply HO; [exact L2|rewrite LF; nia|exact Z2|].
    apply (neqb_iff RN) in Z1. apply (neqb_iff RN). rewrite (same_edge RN K n fine coarse HN) by lia. exact Z1. }
  subst c2. clear Hz1 Hz2 Hz3.
  assert (MC : forall b, (b < n)%nat -> members coarse n b eps (bin_list coarse n eps b)) by (intros; now apply bin_members).
  assert (MF : forall b, (b < K * n)%nat -> members fine (K * n) b eps (bin_list fine (K * n) eps b)) by (intros; now apply bin_members).
  destruct (C1 b _ Hb (MC b Hb)) as (A1 & A2 & _). destruct (Nat.lt_ge_cases b c) as [Q|Q].
  - rewrite A1 by exact Q. unfold SpecHist.labelled. apply flen.
  - destruct (Nat.lt_ge_cases b (2 * c)) as [Q'|Q'].
    + destruct (A2 (conj Q Q') _ (MC (2 * c - 1 - b)%nat ltac:(clear - Q Hb1; lia))) as (-> & _). apply Nat.min_glb; [|unfold SpecHist.labelled; apply flen].
      rewrite (parts_label RN n1 K n fine coarse eps HK Hn0 GF GC HN HI) by exact Hb.
      rewrite (parts_mirror RN n1 K n fine coarse eps HK Hn0 GF GC HN HI c b (conj Q Q')) by (clear - Q Hb1; lia).
      apply sum_le. intros a I. apply in_seq in I. assert (K * c <= a)%nat by (clear - I Q; nia). assert (a < 2 * (K * c))%nat by (clear - I Q'; nia). assert (a < K * n)%nat by (clear - I Hb; nia).
      assert (2 * (K * c) - 1 - a < K * n)%nat by lia.
      destruct (C2 a _ ltac:(assumption) (MF a ltac:(assumption))) as (_ & B2 & _). destruct (B2 ltac:(split; assumption) _ (MF _ ltac:(eassumption))) as (-> & _). apply Nat.le_min_l.
    + rewrite (parts_label RN n1 K n fine coarse eps HK Hn0 GF GC HN HI) by exact Hb.
      apply Nat.le_trans with (sum (fun _ => 0%nat) (seq (K * b) K)).
      * apply sum_le. intros a I. apply in_seq in I. rewrite C3; [lia|]. clear - I Q' Hb. nia.
      * clear. induction (seq (K * b) K); cbn; [lia|]. exact IHl.
Qed.
End Cells.

(** With every bin cut into the same number of parts the spheroid loses stars or keeps their number: in every one
    of the coarse bins, and in total. *)
Lemma c115_finer : forall (N : Num) (St1 St2 : Type) (choice1 : St1 -> list nat -> nat -> list nat * St1) (choice2 : St2 -> list nat -> nat -> list nat * St2)
    argsort junk1 junk2 cb k n_bin digits1 digits2 st1 st2 (g : galaxy N) j c1 c2 s1 s2,
  arith N -> draws choice1 -> draws choice2 -> constructible g ->
  (1 <= k)%Z -> (k * n_bin <= 2 ^ 53)%Z -> (0 <= digits1)%Z -> (0 <= digits2)%Z ->
  let n := Z.to_nat n_bin in
  let coarse := map (np_round digits1) (linspace nm1 n1 n) in
  let fine := map (np_round digits2) (linspace nm1 n1 (Z.to_nat (k * n_bin))) in
  nested (Z.to_nat k) n fine coarse -> one_zero fine ->
  jcirc argsort g (fst cb) (snd cb) = Ok j ->
  decompose argsort (jhistogram choice1 junk1 cb n_bin digits1) st1 g = Ok (c1, s1) ->
  decompose argsort (jhistogram choice2 junk2 cb (k * n_bin) digits2) st2 g = Ok (c2, s2) ->
  (forall b, (b < n)%nat -> (tally (counted coarse n b) 0 (jc_eps j) c2 <= tally (counted coarse n b) 0 (jc_eps j) c1)%nat) /\
  (tally (fun _ => true) 0 (jc_eps j) c2 <= tally (fun _ => true) 0 (jc_eps j) c1)%nat.
Proof.
  intros N St1 St2 choice1 choice2 argsort junk1 junk2 cb k n_bin digits1 digits2 st1 st2 g j c1 c2 s1 s2 HA D1 D2 Hg Hk Hn Hd1 Hd2 n coarse fine HN HO Hj H1 H2.
  destruct (arith_grid N HA) as (RN & _). assert (Hn1 : (n_bin <= 2 ^ 53)%Z) by nia.
  destruct (view_hist RN HA argsort g cb Hg choice1 junk1 n_bin digits1 st1 s1 c1 D1 Hn1 Hd1 H1) as (j1 & u1 & l1 & Hj1 & V1 & M1 & L1 & E1).
  destruct (view_hist RN HA argsort g cb Hg choice2 junk2 (k * n_bin) digits2 st2 s2 c2 D2 Hn Hd2 H2) as (j2 & u2 & l2 & Hj2 & V2 & M2 & L2 & E2).
  assert (j1 = j) by congruence. assert (j2 = j) by congruence. subst j1 j2.
  assert (u2 = u1) by (apply sorted_members; [exact (h_sorted _ _ _ _ _ V2)|exact (h_sorted _ _ _ _ _ V1)|]; intros i; rewrite M1, M2; reflexivity). subst u2.
  pose proof (eps_length RN argsort g cb Hg j Hj) as HE. pose proof (column_range RN argsort g cb Hg j u1 l1 c1 Hj V1) as HR.
  pose proof (finer_cell RN HA choice1 choice2 junk1 junk2 k n_bin digits1 digits2 st1 s1 st2 s2 _ l1 l2 D1 D2 Hk Hn Hd1 Hd2 HN HO HR E1 E2) as CL. fold n coarse in CL.
  destruct (nested_grids HA choice1 choice2 junk1 junk2 k n_bin digits1 digits2 st1 s1 st2 s2 _ l1 l2 D1 D2 Hk Hn Hd1 Hd2 E1 E2) as (Hn0 & GC & _). fold n coarse in Hn0, GC.
  split.
  - intros b Hb. rewrite (tally_cell RN g j u1 l1 c1 V1 HE L1), (tally_cell RN g j u1 l2 c2 V2 HE L2) by auto. now apply CL.
  - rewrite (tally_used RN g j u1 l1 c1 V1 HE L1), (tally_used RN g j u1 l2 c2 V2 HE L2) by auto. cbn [andb].
    assert (T : forall l, length (filter (lab 0 l) (seq 0 (length u1))) = sum (fun b => SpecHist.labelled 0 l (bin_list coarse n (column (jc_eps j) u1) b)) (seq 0 n)).
    { intros l. replace (length u1) with (length (column (jc_eps j) u1)) by (unfold column; apply map_length).
      rewrite (filter_perm _ _ _ (partition RN n coarse (column (jc_eps j) u1) Hn0 GC HR)). apply sum_filter. }
    rewrite !T. apply sum_le. intros b I. apply in_seq in I. apply CL. lia.
Qed.

(** *** Which edges are nested *)
(** Doubling the number of steps any number of times keeps the old points, in binary64 too. *)
Lemma linspace_pow2 sm (d : Z) (stop : F64s sm) p n : d = 1%Z \/ d = 2%Z -> val (F64_rounded sm) stop = XR (IZR (d - 1)) ->
  (1 <= n)%nat -> (Z.of_nat (2 ^ p * n) <= 2 ^ 53)%Z -> forall i, (i <= n)%nat ->
  exists r, (-1 <= r <= IZR (d - 1))%R /\ val (F64_rounded sm) (nth (2 ^ p * i) (linspace nm1 stop (2 ^ p * n)) nnan) = XR r /\ val (F64_rounded sm) (nth i (linspace nm1 stop n) nnan) = XR r.
Proof.
  intros Hd Vs.
  intros Hn Hb i Hi. set (RN := F64_rounded sm). set (k := 2 ^ p) in *. assert (Hk : 1 <= k) by (apply Nat.neq_0_lt_0, Nat.pow_nonzero; lia).
    assert (Hkn : 1 <= k * n) by nia. assert (Hn' : (Z.of_nat n <= 2 ^ 53)%Z) by (clear - Hb Hk; nia).
    destruct (linspace_val RN (grid_F64 sm) nm1 stop d n Hd (val_nm1 RN) Vs Hn Hn') as (s & f & Es & Hf & _ & Fn & _ & Ft).
    destruct (linspace_val RN (grid_F64 sm) nm1 stop d (k * n) Hd (val_nm1 RN) Vs Hkn Hb) as (s' & f' & Es' & Hf' & _ & Fn' & _ & Ft').
    rewrite (proj1 (Hf i Hi)), (proj1 (Hf' (k * i) ltac:(nia))). exists (f i). split; [exact (proj2 (Hf i Hi))|]. split; [f_equal|reflexivity].
    destruct (Nat.eq_dec i n) as [->|Ne]; [congruence|].
    assert (X : forall r q, rnd RN (XR r) = XR q -> q = round radix2 (SpecFloat.fexp 53 1024) ZnearestE r).
    { intros r q E. change (brnd 53 1024 (XR r) = XR q) in E. unfold brnd in E. destruct (Rlt_bool _ _); [now injection E|]. destruct (Rlt_bool _ _) in E; discriminate. }
    assert (KZ : IZR (Z.of_nat k) = bpow radix2 (Z.of_nat p)) by (unfold k; rewrite Nat2Z.inj_pow, <- (IZR_Zpower radix2) by lia; reflexivity).
    assert (S : (s' = s * bpow radix2 (- Z.of_nat p))%R).
    { rewrite (X _ _ Es), (X _ _ Es').
      replace (IZR d / IZR (Z.of_nat (k * n)))%R with (IZR d / IZR (Z.of_nat n) * bpow radix2 (- Z.of_nat p))%R by (rewrite Nat2Z.inj_mul, mult_IZR, KZ, bpow_opp; field; repeat split; first [apply Rgt_not_eq, bpow_gt_0 | apply IZR_neq; lia]).
      assert (Low : forall m, (1 <= m)%nat -> (Z.of_nat m <= 2 ^ 53)%Z -> (bpow radix2 (2 - 1024) <= Rabs (IZR d / IZR (Z.of_nat m)))%R).
      { intros m M1 M2. assert (1 <= IZR (Z.of_nat m) <= bpow radix2 53)%R by (split; [apply IZR_le; lia|change (bpow radix2 53) with (IZR (2 ^ 53)); apply IZR_le; exact M2]).
        assert (1 <= IZR d)%R by (apply IZR_le; lia). rewrite Rabs_pos_eq by (apply Rlt_le, Rdiv_lt_0_compat; lra). apply Rle_trans with (1 / IZR (Z.of_nat m))%R; [|unfold Rdiv; apply Rmult_le_compat_r; [apply Rlt_le, Rinv_0_lt_compat; lra|lra]]. apply Rle_trans with (bpow radix2 (-53)); [apply bpow_le; lia|].
        unfold Rdiv. rewrite Rmult_1_l. change (-53)%Z with (- (53))%Z. rewrite bpow_opp. apply Rinv_le_contravar; lra. }
      apply (ShiftFacts.round_shift (prec := 53) (emax := 1024)); [now apply Low|].
      replace (IZR d / IZR (Z.of_nat n) * bpow radix2 (- Z.of_nat p))%R with (IZR d / IZR (Z.of_nat (k * n)))%R by (rewrite Nat2Z.inj_mul, mult_IZR, KZ, bpow_opp; field; repeat split; first [apply Rgt_not_eq, bpow_gt_0 | apply IZR_neq; lia]).
      now apply Low. }
    destruct (Ft i ltac:(lia)) as (t & Et & Ef). destruct (Ft' (k * i) ltac:(nia)) as (t' & Et' & Ef').
    assert (T : (IZR (Z.of_nat (k * i)) * s' = IZR (Z.of_nat i) * s)%R).
    { rewrite S, Nat2Z.inj_mul, mult_IZR, KZ, bpow_opp. field. apply Rgt_not_eq, bpow_gt_0. }
    rewrite T in Et'. assert (t' = t) by congruence. subst t'. congruence.
Qed.

Lemma edge_zero digits (i m : nat) : (1 <= m)%nat -> (0 <= digits)%Z ->
  (neqb (XR (IZR (ZnearestE ((-1 + 2 * IZR (Z.of_nat i) / IZR (Z.of_nat m)) * IZR (10 ^ digits))) / IZR (10 ^ digits)) : RX) n0 = true <->
   (2 * Z.abs (2 * Z.of_nat i - Z.of_nat m) * 10 ^ digits <= Z.of_nat m)%Z).
Proof.
  intros Hm Hd. set (n_bin := Z.of_nat m). assert (Hp : (0 < 10 ^ digits)%Z) by (apply Z.pow_pos_nonneg; lia). pose proof (IZR_lt _ _ Hp) as Hpr.
  assert (Hnr : (1 <= IZR n_bin)%R) by (apply IZR_le; unfold n_bin; lia). clearbody n_bin. clear Hm m.
  change (n0 (N:=RX)) with (XR 0). rewrite neqbRX. set (r := ((-1 + 2 * IZR (Z.of_nat i) / IZR n_bin) * IZR (10 ^ digits))%R).
  assert (E1 : (IZR (ZnearestE r) / IZR (10 ^ digits) = 0)%R <-> ZnearestE r = 0%Z).
  { split.
    - intros E. apply eq_IZR. apply (Rmult_eq_reg_r (/ IZR (10 ^ digits))); [|apply Rinv_neq_0_compat; lra]. rewrite Rmult_0_l. exact E.
    - intros ->. unfold Rdiv. apply Rmult_0_l. }
  rewrite E1, nearest_zero. clear E1.
  assert (E2 : (r = IZR ((2 * Z.of_nat i - n_bin) * 10 ^ digits) / IZR n_bin)%R).
  { unfold r. rewrite mult_IZR, minus_IZR, mult_IZR. field. lra. }
  rewrite E2. unfold Rdiv. rewrite Rabs_mult, (Rabs_pos_eq (/ IZR n_bin)) by (apply Rlt_le, Rinv_0_lt_compat; lra).
  rewrite <- abs_IZR, Z.abs_mul, (Z.abs_eq (10 ^ digits)) by lia. set (m := (Z.abs (2 * Z.of_nat i - n_bin) * 10 ^ digits)%Z).
  replace (2 * Z.abs (2 * Z.of_nat i - n_bin) * 10 ^ digits)%Z with (2 * m)%Z by (unfold m; ring).
  assert (Hi' : (IZR n_bin * / IZR n_bin = 1)%R) by (field; lra). assert (0 < / IZR n_bin)%R by (apply Rinv_0_lt_compat; lra). split.
  - intros H1. apply le_IZR. rewrite mult_IZR. apply (Rmult_le_compat_r (IZR n_bin)) in H1; [|lra].
    rewrite Rmult_assoc, (Rmult_comm (/ _)), Hi' in H1. lra.
  - intros H0. apply IZR_le in H0. rewrite mult_IZR in H0. apply (Rmult_le_compat_r (/ IZR n_bin)) in H0; [|lra]. lra.
Qed.
(** With the same number of digits the coarse bins are always made of the fine ones in exact arithmetic, and no two
    fine edges are zero exactly if there are fewer than 4 * 10^digits fine bins and their number is even, or fewer
    than 2 * 10^digits.  In binary64, whatever the summation order, they are when the number of bins is doubled any
    number of times. *)
Lemma c115_edges : (forall k n digits, (1 <= k)%nat -> (1 <= n)%nat -> (0 <= digits)%Z ->
    let fine := map (np_round (N:=RX) digits) (linspace nm1 n1 (k * n)) in
    nested k n fine (map (np_round digits) (linspace nm1 n1 n)) /\
    (one_zero fine <-> (Z.Even (Z.of_nat (k * n)) /\ (Z.of_nat (k * n) < 4 * 10 ^ digits)%Z) \/ (Z.of_nat (k * n) < 2 * 10 ^ digits)%Z)) /\
  (forall sm p n digits, (1 <= n)%nat -> (Z.of_nat (2 ^ p * n) <= 2 ^ 53)%Z -> (0 <= digits <= 15)%Z ->
    nested (2 ^ p) n (map (np_round (N:=F64s sm) digits) (linspace nm1 n1 (2 ^ p * n))) (map (np_round digits) (linspace nm1 n1 n))).
Proof.
  split.
  - intros k n digits Hk Hn Hd fine. assert (Hkn : (1 <= k * n)%nat) by nia. split.
    + intros i Hi. unfold fine. rewrite !edge_RX by (auto; nia). apply (neqb_iff RX_rounded). split; [|discriminate]. cbn. do 2 f_equal.
      rewrite !Nat2Z.inj_mul, !mult_IZR. do 3 f_equal. field. split; apply IZR_neq; lia.
    + assert (Lf : length fine = S (k * n)) by (unfold fine; now rewrite map_length, linspace_length).
      assert (HZ : forall i, (i <= k * n)%nat -> (neqb (nth i fine nnan) n0 = true <-> (2 * Z.abs (2 * Z.of_nat i - Z.of_nat (k * n)) * 10 ^ digits <= Z.of_nat (k * n))%Z)).
      { intros i Hi. unfold fine. rewrite edge_RX by (auto; lia). now apply edge_zero. }
      clearbody fine. set (m := (k * n)%nat) in *. clearbody m. clear Hk Hn k n. assert (Hp : (0 < 10 ^ digits)%Z) by (apply Z.pow_pos_nonneg; lia). set (P := (10 ^ digits)%Z) in *. clearbody P. split.
      * intros O1. destruct (Z.Even_or_Odd (Z.of_nat m)) as [Ev|(h & Od)].
        -- left. split; [exact Ev|]. destruct Ev as (h & Eh). destruct (Z_lt_le_dec (Z.of_nat m) (4 * P)) as [L|L]; [exact L|exfalso].
           assert (Z.to_nat h = Z.to_nat (h - 1)); [|lia]. apply O1; [lia|lia|apply HZ; [lia|]|apply HZ; [lia|]]; rewrite Z2Nat.id by lia; [replace (2 * h - Z.of_nat m)%Z with 0%Z by lia|replace (2 * (h - 1) - Z.of_nat m)%Z with (-2)%Z by lia]; cbn [Z.abs]; lia.
        -- right. destruct (Z_lt_le_dec (Z.of_nat m) (2 * P)) as [L|L]; [exact L|exfalso].
           assert (Z.to_nat h = Z.to_nat (h + 1)); [|lia]. apply O1; [lia|lia|apply HZ; [lia|]|apply HZ; [lia|]]; rewrite Z2Nat.id by lia; [replace (2 * h - Z.of_nat m)%Z with (-1)%Z by lia|replace (2 * (h + 1) - Z.of_nat m)%Z with 1%Z by lia]; cbn [Z.abs]; lia.
      * intros C a b Ha Hb Za Zb. apply HZ in Za; [|lia]. apply HZ in Zb; [|lia]. rewrite Lf in Ha, Hb.
        assert (Q : forall x, (2 * Z.abs x * P <= Z.of_nat m)%Z -> (Z.of_nat m < 2 * P)%Z -> x = 0%Z) by (clear; intros; nia).
        assert (Q' : forall x, (2 * Z.abs x * P <= Z.of_nat m)%Z -> (Z.of_nat m < 4 * P)%Z -> (Z.abs x <= 1)%Z) by (clear; intros; nia).
        destruct C as [((h & Ev) & L)|L].
        -- pose proof (Q' _ Za L). pose proof (Q' _ Zb L). lia.
        -- pose proof (Q _ Za L). pose proof (Q _ Zb L). lia.
  - intros sm p n digits Hn Hb Hd i Hi. set (RN := F64_rounded sm). apply (neqb_iff RN).
    destruct (linspace_pow2 sm 2 n1 p n (or_intror eq_refl) (val_n1 RN) Hn Hb i Hi) as (r & Hr & Va & Vb). change (IZR (2 - 1)) with 1%R in Hr. fold RN in Va, Vb.
    assert (K : 1 <= 2 ^ p) by (apply Nat.neq_0_lt_0, Nat.pow_nonzero; lia).
    rewrite nth_map_in with (a := nnan) by (rewrite linspace_length; nia). rewrite nth_map_in with (a := nnan) by (rewrite linspace_length; lia).
    assert (P : val RN (pow10 (N:=F64s sm) (Z.to_nat digits)) = XR (IZR (10 ^ digits))).
    { rewrite (pow10_exact RN (grid_F64 sm)) by lia. now rewrite Z2Nat.id by lia. }
    assert (Hp : (0 < 10 ^ digits)%Z) by (apply Z.pow_pos_nonneg; lia).
    destruct (np_round_val RN (grid_F64 sm) digits (10 ^ digits) _ r ltac:(lia) Hp P Va Hr) as (t & q & E1 & E2 & E3 & _).
    destruct (np_round_val RN (grid_F64 sm) digits (10 ^ digits) _ r ltac:(lia) Hp P Vb Hr) as (t' & q' & E1' & E2' & E3' & _).
    assert (t' = t) by congruence. subst t'. rewrite E3, E3'. split; [congruence|discriminate].
Qed.

(** "More bins never give a larger spheroid": false if the coarse bins are not made of the fine ones; six bins
    against four, with the default bins of the curve. *)
Definition unevenG : res (galaxy F64) :=
  lineG (zl [(-40,1,0,(-61,2)); (55,1,0,(-61,2)); (1,1,0,(-201,2))])%Z (zl [(100,1,0,(-61,2)); (100,1,0,(-61,2)); (100,1,0,(-3,4))])%Z [].
Lemma c115_finer_refuted : exists (g : galaxy F64) j c1 c2 s1 s2, constructible g /\ draws turns /\
  jcirc asort g default_bin0 default_bin1 = Ok j /\
  decompose asort (jhistogram turns (fun _ => 9%Z) (default_bin0, default_bin1) 4 2) false g = Ok (c1, s1) /\
  decompose asort (jhistogram turns (fun _ => 9%Z) (default_bin0, default_bin1) 6 2) false g = Ok (c2, s2) /\
  (tally (fun _ => true) 0 (jc_eps j) c1 < tally (fun _ => true) 0 (jc_eps j) c2)%nat.
Proof.
  assert (H : match unevenG with Ok g =>
     match jcirc asort g default_bin0 default_bin1,
           decompose asort (jhistogram turns (fun _ => 9%Z) (default_bin0, default_bin1) 4 2) false g,
           decompose asort (jhistogram turns (fun _ => 9%Z) (default_bin0, default_bin1) 6 2) false g with
     | Ok j, Ok (c1, _), Ok (c2, _) => (tally (fun _ => true) 0 (jc_eps j) c1 <? tally (fun _ => true) 0 (jc_eps j) c2)%nat
     | _, _, _ => false end | _ => false end = true) by (vm_compute; reflexivity).
  destruct unevenG as [g|] eqn:Eg; [|discriminate].
  destruct (jcirc asort g default_bin0 default_bin1) as [j|] eqn:Ej; [|discriminate].
  destruct (decompose asort (jhistogram _ _ _ 4 _) _ g) as [[c1 s1]|] eqn:E1; [|discriminate].
  destruct (decompose asort (jhistogram _ _ _ 6 _) _ g) as [[c2 s2]|] eqn:E2; [|discriminate].
  exists g, j, c1, c2, s1, s2. split; [eapply lineG_ok; exact Eg|]. split; [exact turns_draws|]. repeat (split; [reflexivity||assumption|]). now apply Nat.ltb_lt.
Qed.

(** The edges of 2, 4, 10, 20 and 50 bins rounded to two decimals are edges of the 100 bins of the default, and the
    100 bins have one edge at zero. *)
Lemma nested_by (N : Num) k n (fine coarse : list N) :
  forallb (fun i => neqb (nth (k * i) fine nnan) (nth i coarse nnan)) (seq 0 (S n)) = true -> nested k n fine coarse.
Proof. intros H i Hi. rewrite forallb_forall in H. apply H, in_seq. lia. Qed.
Lemma one_zero_by (N : Num) (edges : list N) : (length (filter (fun a => neqb (nth a edges nnan) n0) (seq 0 (length edges))) <= 1)%nat -> one_zero edges.
Proof.
  intros H a b La Lb Za Zb.
  assert (Ia : In a (filter (fun a => neqb (nth a edges nnan) n0) (seq 0 (length edges)))) by (apply filter_In; split; [apply in_seq; lia|exact Za]).
  assert (Ib : In b (filter (fun a => neqb (nth a edges nnan) n0) (seq 0 (length edges)))) by (apply filter_In; split; [apply in_seq; lia|exact Zb]).
  destruct (filter _ _) as [|x [|y l]]; cbn in *; [contradiction| |lia]. destruct Ia as [<-|[]]. destruct Ib as [<-|[]]. reflexivity.
Qed.
Example ex_c115_nested :
  let fine := map (np_round 2) (linspace (nm1 : F64) n1 100) in
  one_zero fine /\ forall k n, In (k, n) [(50, 2); (25, 4); (10, 10); (5, 20); (2, 50)]%nat -> nested k n fine (map (np_round 2) (linspace nm1 n1 n)).
Proof.
  intros fine.
  assert (H0 : (fun l : list F64 => length (filter (fun a => neqb (nth a l nnan) n0) (seq 0 (length l))) <=? 1)%nat fine = true) by (vm_compute; reflexivity).
  split; [apply one_zero_by; now apply Nat.leb_le|].
  assert (H : (fun l : list F64 => forallb (fun '(k, n) => (fun m => forallb (fun i => neqb (nth (k * i) l nnan) (nth i m nnan)) (seq 0 (S n))) (map (np_round 2) (linspace nm1 n1 n))) [(50, 2); (25, 4); (10, 10); (5, 20); (2, 50)]%nat) fine = true) by (vm_compute; reflexivity).
  intros k n I. apply nested_by. cbv beta in H. rewrite forallb_forall in H. exact (H (k, n) I).
Qed.
(** A galaxy with circularities -0.51, 0.53 and 1: with 10 or 20 bins the star at 0.53 goes to the spheroid, with
    50 or 100 it does not. *)
Definition nestG : res (galaxy F64) :=
  lineG (zl [(-51,1,0,(-61,2)); (53,1,0,(-61,2)); (1,1,0,(-201,2))])%Z (zl [(100,1,0,(-61,2)); (100,1,0,(-61,2)); (100,1,0,(-3,4))])%Z [].
Example ex_c115_finer :
  map (fun n => do g <- nestG; do r <- decompose asort (jhistogram turns (fun _ => 9%Z) (default_bin0, default_bin1) n 2) false g;
                do j <- jcirc asort g default_bin0 default_bin1; Ok (tally (fun _ => true) 0 (jc_eps j) (fst r), having backward (jc_eps j))) [2; 4; 10; 20; 50; 100]%Z =
  map (fun t => Ok (t, 1%nat)) [2; 2; 2; 2; 1; 1]%nat.
Proof. vm_compute. reflexivity. Qed.
