(** The net rotation of the spheroid of the histogram decompositions (C79). *)
From Verif Require Import Py Num RX F64 Np Df Data DataFacts DfFacts CenterFacts Ex Spec DataThms SpecCirc Circ CircFacts CircThms SpecBase Base BaseFacts BaseThms Threshold EpsFacts ThresholdThms SpecHist Hist HistFacts EdgeFacts HistThms EdgeThms EnergyFacts EnergyThms SpecPot SpecMirror MirrorThms.
From Flocq Require Import Core.
From Coq Require Import Lia Permutation.
Local Open Scope R_scope.

(** *** Sums *)
Lemma tot_app {A} (f : A -> R) a b : total f (a ++ b) = total f a + total f b.
Proof. induction a as [|x a IH]; simpl; [lra|]. rewrite IH. lra. Qed.
Lemma tot_concat {A} (f : A -> R) ls : total f (concat ls) = total (total f) ls.
Proof. induction ls as [|l ls IH]; simpl; [reflexivity|]. now rewrite tot_app, IH. Qed.
Lemma tot_map {A B} (f : B -> R) (g : A -> B) l : total f (map g l) = total (fun a => f (g a)) l.
Proof. induction l as [|a l IH]; simpl; [reflexivity|]. now rewrite IH. Qed.
Lemma tot_perm {A} (f : A -> R) a b : Permutation a b -> total f a = total f b.
Proof. induction 1; simpl; lra. Qed.
Lemma tot_le {A} (f g : A -> R) l : (forall a, In a l -> f a <= g a) -> total f l <= total g l.
Proof. induction l as [|a l IH]; intros H; simpl; [lra|]. pose proof (H a (or_introl eq_refl)). specialize (IH ltac:(intros; apply H; now right)). lra. Qed.
Lemma tot_ext {A} (f g : A -> R) l : (forall a, In a l -> f a = g a) -> total f l = total g l.
Proof. intros H. apply Rle_antisym; apply tot_le; intros a I; rewrite (H a I); lra. Qed.
Lemma tot_0 {A} (f : A -> R) l : (forall a, In a l -> f a = 0) -> total f l = 0.
Proof. intros H. rewrite (tot_ext f (fun _ => 0)) by exact H. induction l as [|a l IH]; simpl; [reflexivity|]. rewrite IH; [lra|]. intros; apply H; now right. Qed.
Lemma tot_plus {A} (f g : A -> R) l : total (fun a => f a + g a) l = total f l + total g l.
Proof. induction l as [|a l IH]; simpl; lra. Qed.
Lemma tot_scale {A} c (f : A -> R) l : total (fun a => c * f a) l = c * total f l.
Proof. induction l as [|a l IH]; simpl; lra. Qed.
Lemma tot_filter {A} (p : A -> bool) (f : A -> R) l : total f (filter p l) = total (fun a => if p a then f a else 0) l.
Proof. induction l as [|a l IH]; simpl; [reflexivity|]. destruct (p a); simpl; lra. Qed.
Lemma tot_length {A} (l : list A) : total (fun _ => 1) l = INR (length l).
Proof. induction l as [|a l IH]; [reflexivity|]. cbn [length total fold_right]. rewrite S_INR. unfold total in IH. rewrite IH. lra. Qed.
Lemma tot_count {A} (p : A -> bool) l : INR (length (filter p l)) = total (fun a => if p a then 1 else 0) l.
Proof. now rewrite <- tot_length, tot_filter. Qed.
Lemma tot_incl {A} (f : A -> R) l l' : NoDup l -> incl l l' -> (forall a, In a l' -> 0 <= f a) -> total f l <= total f l'.
Proof.
  revert l'. induction l as [|a l IH]; intros l' N I P.
  - simpl. clear I N. induction l' as [|a l' IH]; simpl; [lra|]. pose proof (P a (or_introl eq_refl)). specialize (IH ltac:(intros; apply P; now right)). lra.
  - inversion N as [|? ? Na Nl]; subst. destruct (in_split a l' (I a (or_introl eq_refl))) as (u & v & ->).
    rewrite <- (tot_perm f (a :: u ++ v) (u ++ a :: v)) by apply Permutation_middle. simpl. apply Rplus_le_compat_l. apply IH; [exact Nl| |].
    + intros x Ix. specialize (I x (or_intror Ix)). apply in_app_iff in I as [I|[->|I]]; [apply in_app_iff; auto|contradiction|apply in_app_iff; auto].
    + intros x Ix. apply P. apply in_app_iff in Ix as [Ix|Ix]; apply in_app_iff; [now left|right; now right].
Qed.

Lemma nodup_map_in {A B} (f : A -> B) l : (forall a b, In a l -> In b l -> f a = f b -> a = b) -> NoDup l -> NoDup (map f l).
Proof.
  intros H. induction 1 as [|a l Na Nl IH]; [constructor|]. cbn [map]. constructor.
  - intros I. apply in_map_iff in I as (b & E & I). apply Na. rewrite <- (H b a); auto; [now right|now left].
  - apply IH. intros x y Ix Iy. apply H; now right.
Qed.

(** *** Particles and bins *)
Definition at_ {A} (h : A -> R) (l : list A) (i : nat) : R := match nth_error l i with Some a => h a | None => 0 end.
Lemma tot_index {A} (h : A -> R) l : total h l = total (at_ h l) (seq 0 (length l)).
Proof.
  induction l as [|a l IH]; [reflexivity|]. cbn [length seq]. rewrite <- seq_shift. change (h a + total h l = h a + total (at_ h (a :: l)) (map S (seq 0 (length l)))). rewrite tot_map, IH. reflexivity.
Qed.
Definition is0 (labels : list Z) (i : nat) : bool := match nth_error labels i with Some z => (0 =? z)%Z | None => false end.
Lemma sph_index {A} (h : A -> R) (eps : list A) labels : length labels = length eps ->
  total h (spheroid eps labels) = total (fun i => if is0 labels i then at_ h eps i else 0) (seq 0 (length eps)).
Proof.
  intros L. unfold spheroid. rewrite tot_map, tot_filter, tot_index, combine_length, L, Nat.min_id. apply tot_ext. intros i I. apply in_seq in I.
  unfold is0, at_. destruct (nth_error eps i) as [e|] eqn:E; [|apply nth_error_None in E; lia]. destruct (nth_error labels i) as [z|] eqn:Z; [|apply nth_error_None in Z; lia].
  assert (Q : nth_error (combine eps labels) i = Some (e, z)).
  { clear I L. revert labels i E Z. induction eps as [|x eps IH]; intros [|y labels] [|i]; simpl; try discriminate; [congruence|apply IH]. }
  rewrite Q. cbn [fst snd]. rewrite (Z.eqb_sym 0 z). reflexivity.
Qed.

Section Part.
Context {N : Num} (RN : Rounded N) (n : nat) (edges eps : list N).
Hypothesis Hn : (1 <= n)%nat.
Hypothesis G : grid_to n1 n edges.
Hypothesis HI : forall e, In e eps -> nle nm1 e = true /\ nle e n1 = true.
Let B b := bin_list edges n eps b.

Lemma B_in b i : (b < n)%nat -> In i (B b) <-> exists e, nth_error eps i = Some e /\ holds_bin edges n b e.
Proof. intros Hb. apply (bin_members edges n b eps Hb). Qed.
Lemma partition : Permutation (seq 0 (length eps)) (concat (map B (seq 0 n))).
Proof.
  apply NoDup_Permutation; [apply seq_NoDup| |].
  - assert (K : forall bs, NoDup bs -> (forall b, In b bs -> (b < n)%nat) -> NoDup (concat (map B bs))).
    { induction bs as [|b bs IH]; intros ND HB; [constructor|]. cbn [map concat]. inversion ND as [|? ? Nb ND']; subst.
      apply nodup_app; [apply where_NoDup|apply IH; auto; intros; apply HB; now right|].
      intros i I I'. apply in_concat in I' as (l & Il & I'). apply in_map_iff in Il as (c & <- & Ic).
      apply B_in in I as (e & E & H); [|apply HB; now left]. apply B_in in I' as (e' & E' & H'); [|apply HB; now right].
      assert (e' = e) as -> by congruence. assert (b = c) as -> by (eapply (grid_unique RN); eauto). contradiction. }
    apply K; [apply seq_NoDup|]. intros b I. apply in_seq in I. lia.
  - intros i. rewrite in_seq, in_concat. split.
    + intros I. destruct (nth_error eps i) as [e|] eqn:E; [|apply nth_error_None in E; lia].
      destruct (HI e (nth_error_In _ _ E)) as (H1 & H2). destruct (grid_cover RN n1 n edges e Hn G H1 H2) as (b & Hb).
      exists (B b). split; [apply in_map_iff; exists b; split; [reflexivity|apply in_seq; destruct Hb; lia]|]. apply B_in; [apply Hb|eauto].
    + intros (l & Il & I). apply in_map_iff in Il as (b & <- & Ib). apply in_seq in Ib. apply B_in in I as (e & E & _); [|lia].
      split; [lia|]. apply nth_error_Some. congruence.
Qed.
Lemma tot_bins (f : nat -> R) : total f (seq 0 (length eps)) = total (fun b => total f (B b)) (seq 0 n).
Proof. rewrite (tot_perm f _ _ partition), tot_concat, tot_map. reflexivity. Qed.

(** Sums over a bin: of all particles, and of those in the spheroid. *)
Lemma bin_all (h : N -> R) lo hi b : (b < n)%nat -> (forall e, holds_bin edges n b e -> lo <= h e <= hi) ->
  lo * INR (length (B b)) <= total (at_ h eps) (B b) <= hi * INR (length (B b)).
Proof.
  intros Hb H. rewrite <- !tot_length, <- !tot_scale.
  split; apply tot_le; intros i I; apply B_in in I as (e & E & He); auto; unfold at_; rewrite E; destruct (H e He); lra.
Qed.
Lemma bin_sph (h : N -> R) labels lo hi b : (b < n)%nat -> (forall e, holds_bin edges n b e -> lo <= h e <= hi) ->
  lo * INR (labelled 0 labels (B b)) <= total (fun i => if is0 labels i then at_ h eps i else 0) (B b) <= hi * INR (labelled 0 labels (B b)).
Proof.
  intros Hb H. unfold labelled. rewrite tot_count, <- !tot_scale. change (fun i => match nth_error labels i with Some z => (0 =? z)%Z | None => false end) with (is0 labels).
  split; apply tot_le; intros i I; fold (is0 labels i); destruct (is0 labels i); try lra; apply B_in in I as (e & E & He); auto; unfold at_; rewrite E; destruct (H e He); lra.
Qed.

Context (bin0 : nat).
Hypothesis Hz : neqb (nth bin0 edges nnan) n0 = true.
Hypothesis H0 : (0 < bin0 < n)%nat.

Lemma edge_to b b' : (b <= b' <= n)%nat -> xle (val RN (nth b edges nnan)) (val RN (nth b' edges nnan)).
Proof.
  intros H. destruct (Nat.eq_dec b b') as [->|]; [|apply (grid_chain RN n1 n); auto; lia].
  apply xle_refl. destruct G as (L & G0 & Gn & GI). destruct (Nat.eq_dec b' n) as [->|]; [now apply (neqb_iff RN) in Gn as (-> & ?); rewrite (val_n1 RN)|].
  specialize (GI b' ltac:(lia)). apply (nle_iff RN) in GI. destruct (val RN (nth b' edges nnan)); try discriminate. contradiction.
Qed.
Lemma neg_bin b e : (b < bin0)%nat -> holds_bin edges n b e -> nlt e n0 = true /\ nle n0 e = false.
Proof.
  intros L (_ & _ & B1 & _). specialize (B1 ltac:(lia)). apply (nlt_iff RN) in B1. pose proof Hz as Z; apply (neqb_iff RN) in Z as (Z & _).
  assert (V : xlt (val RN e) (val RN n0)) by (rewrite <- Z; eapply xlt_le_trans; [exact B1|apply edge_to; lia]).
  split; [now apply (nlt_iff RN)|]. apply (nle_false RN). intros C. now apply (xlt_not_le _ _ V).
Qed.
Lemma pos_bin b e : (bin0 <= b)%nat -> holds_bin edges n b e -> nlt e n0 = false /\ nle n0 e = true.
Proof.
  intros L (Hb & A & _ & _). apply (nle_iff RN) in A. pose proof Hz as Z; apply (neqb_iff RN) in Z as (Z & _).
  assert (V : xle (val RN n0) (val RN e)) by (rewrite <- Z; eapply xle_trans; [apply edge_to|exact A]; lia).
  split; [|now apply (nle_iff RN)]. apply (nlt_false RN). intros C. now apply (xlt_not_le _ _ C).
Qed.

(** The counter-rotating particles are those of the bins below zero. *)
Lemma counter_bins : INR (counter eps) = total (fun b => INR (length (B b))) (seq 0 bin0).
Proof.
  unfold counter. rewrite tot_count, tot_index, tot_bins. replace n with (bin0 + (n - bin0))%nat by lia. rewrite seq_app, tot_app.
  replace (bin0 + (n - bin0))%nat with n by lia. cbn [Nat.add].
  rewrite (tot_0 _ (seq bin0 (n - bin0))).
  - rewrite Rplus_0_r. apply tot_ext. intros b I. apply in_seq in I.
    destruct (bin_all (fun e => if nlt e n0 then 1 else 0) 1 1 b ltac:(lia)) as (L1 & L2); [|lra].
    intros e He. destruct (neg_bin b e ltac:(lia) He) as (-> & _). lra.
  - intros b I. apply in_seq in I. destruct (bin_all (fun e => if nlt e n0 then 1 else 0) 0 0 b ltac:(lia)) as (L1 & L2); [|lra].
    intros e He. destruct (pos_bin b e ltac:(lia) He) as (-> & _). lra.
Qed.

(** What the composition theorems say about a decomposition. *)
Context (labels : list Z).
Hypothesis HL : length labels = length eps.
Hypothesis C1 : forall b, (b < bin0)%nat -> labelled 0 labels (B b) = length (B b).
Hypothesis C2 : forall b, (bin0 <= b < 2 * bin0)%nat -> (b < n)%nat -> (labelled 0 labels (B b) <= length (B (2 * bin0 - 1 - b)))%nat.
Hypothesis C3 : forall b, (2 * bin0 <= b < n)%nat -> labelled 0 labels (B b) = 0%nat.

Lemma counts : (corot (spheroid eps labels) <= counter eps)%nat /\ counter (spheroid eps labels) = counter eps.
Proof.
  split.
  - apply INR_le. rewrite counter_bins. unfold corot. rewrite tot_count, sph_index, tot_bins by exact HL.
    set (m b := INR (length (B b))).
    apply Rle_trans with (total (fun b => if (b <? bin0)%nat then 0 else if (b <? 2 * bin0)%nat then m (2 * bin0 - 1 - b)%nat else 0) (seq 0 n)).
    + apply tot_le. intros b I. apply in_seq in I. destruct (Nat.ltb_spec b bin0) as [L|L].
      * destruct (bin_sph (fun e => if nle n0 e then 1 else 0) labels 0 0 b ltac:(lia)) as (_ & U); [|lra].
        intros e He. destruct (neg_bin b e L He) as (_ & ->). lra.
      * destruct (bin_sph (fun e => if nle n0 e then 1 else 0) labels 0 1 b ltac:(lia)) as (_ & U); [intros e He; destruct (nle n0 e); lra|].
        eapply Rle_trans; [exact U|]. rewrite Rmult_1_l. destruct (Nat.ltb_spec b (2 * bin0)) as [L'|L'].
        -- apply le_INR, C2; lia.
        -- rewrite C3 by lia. simpl. lra.
    + replace n with (bin0 + (n - bin0))%nat at 1 by lia. rewrite seq_app, tot_app, (tot_0 _ (seq 0 bin0)).
      2:{ intros b I. apply in_seq in I. destruct (Nat.ltb_spec b bin0); [reflexivity|lia]. }
      rewrite Rplus_0_l. cbn [Nat.add].
      set (l := map (fun b => (2 * bin0 - 1 - b)%nat) (filter (fun b => (b <? 2 * bin0)%nat) (seq bin0 (n - bin0)))).
      apply Rle_trans with (total m l).
      * unfold l. rewrite tot_map, tot_filter. apply Req_le, tot_ext. intros b I. apply in_seq in I. destruct (Nat.ltb_spec b bin0); [lia|reflexivity].
      * apply tot_incl.
        -- unfold l. apply nodup_map_in; [|apply NoDup_filter, seq_NoDup]. intros x y Ix Iy E. apply filter_In in Ix as (_ & Ix), Iy as (_ & Iy). apply Nat.ltb_lt in Ix, Iy. lia.
        -- intros c I. apply in_map_iff in I as (b & <- & I). apply filter_In in I as (I & L). apply in_seq in I. apply in_seq. apply Nat.ltb_lt in L. lia.
        -- intros c _. apply pos_INR.
  - apply INR_eq. rewrite counter_bins. unfold counter. rewrite tot_count, sph_index, tot_bins by exact HL.
    replace n with (bin0 + (n - bin0))%nat by lia. rewrite seq_app, tot_app. replace (bin0 + (n - bin0))%nat with n by lia. cbn [Nat.add].
    rewrite (tot_0 _ (seq bin0 (n - bin0))).
    + rewrite Rplus_0_r. apply tot_ext. intros b I. apply in_seq in I.
      destruct (bin_sph (fun e => if nlt e n0 then 1 else 0) labels 1 1 b ltac:(lia)) as (L1 & L2); [|rewrite C1 in L1, L2 by lia; lra].
      intros e He. destruct (neg_bin b e ltac:(lia) He) as (-> & _). lra.
    + intros b I. apply in_seq in I. destruct (bin_sph (fun e => if nlt e n0 then 1 else 0) labels 0 0 b ltac:(lia)) as (L1 & L2); [|lra].
      intros e He. destruct (pos_bin b e ltac:(lia) He) as (-> & _). lra.
Qed.
End Part.

(** *** The sum of the circularities *)
Definition rv (x : xr) : R := match x with XR r => r | _ => 0 end.
Lemma sph_real (eps : list R) labels : sum_of (spheroid eps labels) = total (rv : RX -> R) (spheroid (map XR eps : list RX) labels).
Proof.
  unfold sum_of, spheroid. revert labels. induction eps as [|e eps IH]; intros [|z labels]; simpl; try reflexivity.
  destruct (z =? 0)%Z; simpl; rewrite IH; reflexivity.
Qed.
Lemma sum_mirror (f : nat -> R) k : total f (seq k k) = total (fun c => f (2 * k - 1 - c)%nat) (seq 0 k).
Proof.
  rewrite <- (tot_map f (fun c => (2 * k - 1 - c)%nat)). apply tot_perm, NoDup_Permutation; [apply seq_NoDup| |].
  - apply nodup_map_in; [|apply seq_NoDup]. intros a b Ia Ib E. apply in_seq in Ia, Ib. lia.
  - intros i. rewrite in_seq, in_map_iff. split.
    + intros H. exists (2 * k - 1 - i)%nat. split; [lia|apply in_seq; lia].
    + intros (c & <- & I). apply in_seq in I. lia.
Qed.

(** The real number a value stands for. *)
Definition rof {N : Num} (RN : Rounded N) (x : N) : R := rv (val RN x).
Section Net.
Context {N : Num} (RN : Rounded N) (n : nat) (edges eps : list N) (er : nat -> R) (w : R) (bin0 : nat) (labels : list Z).
Hypothesis G : grid_to n1 n edges.
Hypothesis HI : forall e, In e eps -> nle nm1 e = true /\ nle e n1 = true.
Hypothesis HE : forall i, (i <= n)%nat -> val RN (nth i edges nnan) = XR (er i).
Hypothesis Hw : forall i, (i < n)%nat -> er (S i) - er i <= w.
Hypothesis Hr : forall i, (i <= n)%nat -> er (n - i) = - er i.
Hypothesis H2 : n = (2 * bin0)%nat.
Hypothesis H0 : (0 < bin0)%nat.
Hypothesis HL : length labels = length eps.
Let B b := bin_list edges n eps b.
Hypothesis C1 : forall b, (b < bin0)%nat -> labelled 0 labels (B b) = length (B b).
Hypothesis C2 : forall b, (bin0 <= b < n)%nat -> (labelled 0 labels (B b) <= length (B (2 * bin0 - 1 - b)))%nat.

Lemma er_le i : (i < n)%nat -> er i <= er (S i).
Proof. intros Hi. destruct G as (_ & _ & _ & GI). specialize (GI i Hi). apply (nle_iff RN) in GI. now rewrite !HE in GI by lia. Qed.
Lemma er_mono i j : (i <= j <= n)%nat -> er i <= er j.
Proof. intros H. destruct H as (H & H'). induction H as [|j H IH]; [lra|]. pose proof (er_le j ltac:(lia)). specialize (IH ltac:(lia)). lra. Qed.
Lemma er_mid : er bin0 = 0.
Proof. pose proof (Hr bin0 ltac:(lia)) as E. replace (n - bin0)%nat with bin0 in E by lia. lra. Qed.
Lemma held b e : holds_bin edges n b e -> er b <= rof RN e <= er (S b).
Proof.
  intros (Hb & A & B1 & B2). apply (nle_iff RN) in A. rewrite HE in A by lia. unfold rof.
  destruct (Nat.eq_dec (S b) n) as [Q|Q].
  - specialize (B2 Q). rewrite <- Q in B2. apply (nle_iff RN) in B2. rewrite HE in B2 by lia. destruct (val RN e); simpl in *; try contradiction. lra.
  - specialize (B1 ltac:(lia)). apply (nlt_iff RN) in B1. rewrite HE in B1 by lia. destruct (val RN e); simpl in *; try contradiction. lra.
Qed.
Lemma Hz' : neqb (nth bin0 edges nnan) n0 = true.
Proof. apply (neqb_iff RN). rewrite HE by lia. rewrite er_mid, (val_n0 RN). split; [reflexivity|discriminate]. Qed.

Let m b := INR (length (B b)).
Let T b := total (fun i => if is0 labels i then at_ (rof RN) eps i else 0) (B b).
Lemma spin_bins : total (rof RN) (spheroid eps labels) = total (fun c => T c + T (2 * bin0 - 1 - c)%nat) (seq 0 bin0).
Proof.
  rewrite (sph_index (rof RN)) by exact HL. rewrite (tot_bins RN n edges eps ltac:(lia) G HI).
  replace (seq 0 n) with (seq 0 bin0 ++ seq bin0 bin0) by (rewrite H2; replace (2 * bin0)%nat with (bin0 + bin0)%nat by lia; now rewrite seq_app). rewrite tot_app.
  rewrite tot_plus, (sum_mirror _ bin0). reflexivity.
Qed.
Lemma width_bins : total (fun c => w * m c) (seq 0 bin0) = w * INR (counter eps).
Proof. rewrite tot_scale. now rewrite (counter_bins RN n edges eps ltac:(lia) G HI bin0 Hz' ltac:(lia)). Qed.

Lemma net_upper : total (rof RN) (spheroid eps labels) <= w * INR (counter eps).
Proof.
  rewrite spin_bins, <- width_bins. apply tot_le. intros c I. apply in_seq in I. set (b := (2 * bin0 - 1 - c)%nat).
  destruct (bin_sph n edges eps (rof RN) labels (er c) (er (S c)) c ltac:(lia) (held c)) as (_ & U). change (T c <= er (S c) * INR (labelled 0 labels (B c))) in U. rewrite C1 in U by lia.
  destruct (bin_sph n edges eps (rof RN) labels (er b) (er (S b)) b ltac:(lia) (held b)) as (_ & U'). change (T b <= er (S b) * INR (labelled 0 labels (B b))) in U'.
  assert (k : INR (labelled 0 labels (B b)) <= m c).
  { pose proof (C2 b ltac:(lia)) as K. replace (2 * bin0 - 1 - b)%nat with c in K by (unfold b; lia). now apply le_INR. }
  pose proof (er_mono bin0 (S b) ltac:(unfold b; lia)) as P. rewrite er_mid in P.
  pose proof (Hr c ltac:(lia)) as Q. replace (n - c)%nat with (S b) in Q by (unfold b; lia). pose proof (Hw c ltac:(lia)) as W.
  pose proof (pos_INR (length (B c))) as M0. fold (m c) in M0, U. assert (er (S b) * m c = - er c * m c) by (rewrite Q; ring).
  assert (er (S b) * INR (labelled 0 labels (B b)) <= er (S b) * m c) by (apply Rmult_le_compat_l; lra).
  assert ((er (S c) - er c) * m c <= w * m c) by (apply Rmult_le_compat_r; lra). lra.
Qed.
Lemma net_lower : (forall b, (bin0 <= b < n)%nat -> labelled 0 labels (B b) = length (B (2 * bin0 - 1 - b)%nat)) ->
  - (w * INR (counter eps)) <= total (rof RN) (spheroid eps labels).
Proof.
  intros C. rewrite spin_bins, <- width_bins. apply Ropp_le_cancel. rewrite Ropp_involutive.
  rewrite <- (Rmult_1_l (total (fun c => T c + _) _)), <- Ropp_mult_distr_l_reverse, <- tot_scale. apply tot_le. intros c I. apply in_seq in I. set (b := (2 * bin0 - 1 - c)%nat).
  destruct (bin_sph n edges eps (rof RN) labels (er c) (er (S c)) c ltac:(lia) (held c)) as (U & _). change (er c * INR (labelled 0 labels (B c)) <= T c) in U. rewrite C1 in U by lia.
  destruct (bin_sph n edges eps (rof RN) labels (er b) (er (S b)) b ltac:(lia) (held b)) as (U' & _). change (er b * INR (labelled 0 labels (B b)) <= T b) in U'.
  rewrite (C b) in U' by (unfold b; lia). replace (2 * bin0 - 1 - b)%nat with c in U' by (unfold b; lia).
  pose proof (Hr (S c) ltac:(lia)) as Q. replace (n - S c)%nat with b in Q by (unfold b; lia). pose proof (Hw c ltac:(lia)) as W.
  pose proof (pos_INR (length (B c))) as M0. fold (m c) in M0, U, U'. assert (er b * m c = - er (S c) * m c) by (rewrite Q; ring).
  assert ((er (S c) - er c) * m c <= w * m c) by (apply Rmult_le_compat_r; lra). lra.
Qed.
End Net.

(** *** C79 *)
Lemma composed : forall (N : Num) (St : Type) choice pick junk n_bin digits (eps : list N) (st : St) labels st',
  arith N -> draws choice -> (n_bin <= 2 ^ 53)%Z -> (0 <= digits)%Z ->
  (pick = pick_any choice \/ exists (energy : list N) n_bin_E, (n_bin_E <= 2 ^ 53)%Z /\ pick = pick_energy choice energy n_bin_E) ->
  hist_split pick junk n_bin digits st eps = Ok (labels, st') ->
  let n := Z.to_nat n_bin in let edges := map (np_round (N:=N) digits) (linspace nm1 n1 n) in let B := bin_list edges n eps in
  length labels = length eps /\
  exists bin0, zero_edge edges bin0 /\ grid_to n1 n edges /\ (0 < bin0 < n)%nat /\
    (forall b, (b < bin0)%nat -> labelled 0 labels (B b) = length (B b)) /\
    (forall b, (bin0 <= b < 2 * bin0)%nat -> (b < n)%nat -> (labelled 0 labels (B b) <= length (B (2 * bin0 - 1 - b)))%nat) /\
    (forall b, (2 * bin0 <= b < n)%nat -> labelled 0 labels (B b) = 0%nat).
Proof.
  intros N St choice pick junk n_bin digits eps st labels st' HA HD Hn Hd HP H n edges B.
  assert (K : forall l, labelled 1 labels l = length l -> labelled 0 labels l = 0%nat).
  { intros l A. pose proof (labelled_all 1 labels l A) as Q. clear A. unfold labelled. induction l as [|x l IH]; [reflexivity|]. cbn [filter].
    rewrite (Q x (or_introl eq_refl)). cbn. apply IH. intros i I. apply Q. now right. }
  destruct HP as [->|(energy & n_bin_E & HE & ->)].
  - split; [exact (proj1 (c41_labels N St choice junk n_bin digits eps st labels st' HA HD Hn Hd H))|].
    destruct (c42_composition N St choice junk n_bin digits eps st labels st' HA HD Hn Hd H) as (bin0 & Hz & HG & Hb & HC). fold n in Hz, HG, Hb, HC. fold edges in Hz, HG, HC.
    exists bin0. split; [exact Hz|]. split; [exact HG|]. split; [exact Hb|]. split; [|split].
    + intros b L. apply (HC b (B b) ltac:(lia)); [apply bin_members; lia|exact L].
    + intros b L Lb. destruct (HC b (B b) Lb ltac:(apply bin_members; lia)) as (_ & A & _).
      destruct (A L (B (2 * bin0 - 1 - b)%nat) ltac:(apply bin_members; lia)) as (-> & _). apply Nat.le_min_l.
    + intros b L. apply K. apply (HC b (B b) ltac:(lia)); [apply bin_members; lia|lia].
  - split; [exact (proj1 (c45_labels N St choice junk n_bin digits n_bin_E energy eps st labels st' HA HD Hn HE Hd H))|].
    destruct (c45_composition N St choice junk n_bin digits n_bin_E energy eps st labels st' HA HD Hn HE Hd H) as (bin0 & Hz & HG & Hb & HC). fold n in Hz, HG, Hb, HC. fold edges in Hz, HG, HC.
    exists bin0. split; [exact Hz|]. split; [exact HG|]. split; [exact Hb|]. split; [|split].
    + intros b L. apply (HC b (B b) ltac:(lia)); [apply bin_members; lia|exact L].
    + intros b L Lb. destruct (HC b (B b) Lb ltac:(apply bin_members; lia)) as (_ & _ & A).
      destruct (A L (B (2 * bin0 - 1 - b)%nat) ltac:(apply bin_members; lia)) as (_ & A1 & A2).
      destruct (Nat.le_gt_cases (length (B b)) (length (B (2 * bin0 - 1 - b)%nat))) as [Q|Q]; [rewrite A1 by exact Q; exact Q|]. now apply A2.
    + intros b L. apply K. apply (HC b (B b) ltac:(lia)); [apply bin_members; lia|lia].
Qed.

(** The spheroid of either histogram decomposition holds every counter-rotating particle,
    and no more co-rotating ones than those, for any number of bins and digits. *)
Lemma c79_counts : forall (N : Num) (St : Type) choice pick junk n_bin digits (eps : list N) (st : St) labels st',
  arith N -> draws choice -> (n_bin <= 2 ^ 53)%Z -> (0 <= digits)%Z ->
  (pick = pick_any choice \/ exists (energy : list N) n_bin_E, (n_bin_E <= 2 ^ 53)%Z /\ pick = pick_energy choice energy n_bin_E) ->
  (forall e, In e eps -> nle nm1 e = true /\ nle e n1 = true) ->
  hist_split pick junk n_bin digits st eps = Ok (labels, st') ->
  (corot (spheroid eps labels) <= counter eps)%nat /\ counter (spheroid eps labels) = counter eps.
Proof.
  intros N St choice pick junk n_bin digits eps st labels st' HA HD Hn Hd HP HI H.
  destruct (composed N St choice pick junk n_bin digits eps st labels st' HA HD Hn Hd HP H) as (HL & bin0 & (_ & Hz & _) & HG & Hb & C1 & C2 & C3).
  destruct (arith_grid N HA) as (RN & _).
  exact (counts RN (Z.to_nat n_bin) (map (np_round digits) (linspace nm1 n1 (Z.to_nat n_bin))) eps ltac:(lia) HG HI bin0 Hz Hb labels HL C1 C2 C3).
Qed.

(** With bins that mirror each other (C78) the circularities of the spheroid add up to at
    most one bin width and one rounding step for each counter-rotating particle; and, if no
    co-rotating bin holds fewer particles than its mirror, to no less than minus that. *)
Lemma c79_net : forall (St : Type) choice junk n_bin digits (eps : list R) (st : St),
  draws choice -> (n_bin <= 2 ^ 53)%Z -> (0 <= digits)%Z -> Z.Even n_bin -> (n_bin < 4 * 10 ^ digits)%Z ->
  (forall e, In e eps -> -1 <= e <= 1) ->
  let w := 2 / IZR n_bin + / IZR (10 ^ digits) in
  let k := INR (length (filter (fun e => if Rlt_dec e 0 then true else false) eps)) in
  (forall pick labels st', (pick = pick_any choice \/ exists (energy : list RX) n_bin_E, (n_bin_E <= 2 ^ 53)%Z /\ pick = pick_energy choice energy n_bin_E) ->
     hist_split pick junk n_bin digits st (map XR eps : list RX) = Ok (labels, st') -> sum_of (spheroid eps labels) <= w * k) /\
  (forall labels st', hist_split (pick_any choice) junk n_bin digits st (map XR eps : list RX) = Ok (labels, st') ->
     let n := Z.to_nat n_bin in let edges := map (np_round (N:=RX) digits) (linspace nm1 n1 n) in
     (forall b l l', (2 * b < n)%nat -> members edges n b (map XR eps : list RX) l -> members edges n (n - 1 - b) (map XR eps : list RX) l' -> (length l <= length l')%nat) ->
     - (w * k) <= sum_of (spheroid eps labels)).
Proof.
  intros St choice junk n_bin digits eps st HD Hn Hd Hev Hlt HI w k.
  set (n := Z.to_nat n_bin). set (edges := map (np_round (N:=RX) digits) (linspace nm1 n1 n)).
  assert (Hk : k = INR (counter (map XR eps : list RX))).
  { unfold k, counter. f_equal. clear. induction eps as [|e eps IH]; [reflexivity|]. cbn [map filter].
    replace (nlt (XR e : RX) n0) with (if Rlt_dec e 0 then true else false).
    - destruct (Rlt_dec e 0); cbn [length]; congruence.
    - symmetry. destruct (Rlt_dec e 0) as [L|L]; [now apply nltRX|]. apply not_true_iff_false. intros C. now apply nltRX in C. }
  assert (HI' : forall e : RX, In e (map XR eps : list RX) -> nle nm1 e = true /\ nle e n1 = true).
  { intros e I. apply in_map_iff in I as (r & <- & I). specialize (HI r I). split; apply nleRX; lra. }
  assert (HT : (0 < 10 ^ digits)%Z) by (apply Z.pow_pos_nonneg; lia). assert (Hp : 0 < IZR (10 ^ digits)) by now apply IZR_lt.
  assert (HX : arith RX) by now left.
  assert (Main : forall pick labels st', (pick = pick_any choice \/ exists (energy : list RX) n_bin_E, (n_bin_E <= 2 ^ 53)%Z /\ pick = pick_energy choice energy n_bin_E) ->
     hist_split pick junk n_bin digits st (map XR eps : list RX) = Ok (labels, st') ->
     sum_of (spheroid eps labels) <= w * k /\
     exists bin0, zero_edge edges bin0 /\ n = (2 * bin0)%nat /\ (0 < bin0)%nat /\
       ((forall b, (bin0 <= b < n)%nat -> labelled 0 labels (bin_list edges n (map XR eps : list RX) b) = length (bin_list edges n (map XR eps : list RX) (2 * bin0 - 1 - b)%nat)) ->
        - (w * k) <= sum_of (spheroid eps labels))).
  { intros pick labels st' HP H.
    destruct (composed RX St choice pick junk n_bin digits (map XR eps) st labels st' HX HD Hn Hd HP H) as (HL & bin0 & Hz & HG & Hb & C1 & C2 & C3).
    fold n in Hz, HG, Hb, C1, C2, C3. fold edges in Hz, HG, C1, C2, C3.
    assert (Hn1 : (1 <= n_bin)%Z) by (unfold n in Hb; lia).
    destruct (c78_exact n_bin digits bin0 Hn1 Hd Hz) as (I78 & N78). fold n edges in I78, N78.
    assert (Rf : reflects edges bin0) by now apply I78. specialize (N78 Rf).
    assert (H2 : n = (2 * bin0)%nat) by (unfold n; lia).
    set (er := fun i => IZR (ZnearestE ((-1 + 2 * IZR (Z.of_nat i) / IZR (Z.of_nat n)) * IZR (10 ^ digits))) / IZR (10 ^ digits)).
    assert (HE : forall i, (i <= n)%nat -> nth i edges nnan = XR (er i)) by (intros i Hi; unfold edges, er; apply edge_RX; lia).
    assert (Hnn : Z.of_nat n = n_bin) by (unfold n; lia).
    assert (Hn0 : 0 < IZR n_bin) by (apply IZR_lt; lia).
    assert (Hw : forall i, (i < n)%nat -> er (S i) - er i <= w).
    { intros i Hi. unfold er. set (p j := (-1 + 2 * IZR (Z.of_nat j) / IZR (Z.of_nat n)) * IZR (10 ^ digits)). fold (p i) (p (S i)).
      pose proof (Znearest_half (fun x => negb (Z.even x)) (p i)) as A. pose proof (Znearest_half (fun x => negb (Z.even x)) (p (S i))) as A'.
      apply Rabs_le_inv in A, A'. assert (Q : p (S i) - p i = 2 / IZR n_bin * IZR (10 ^ digits)).
      { unfold p. rewrite Hnn, Nat2Z.inj_succ, succ_IZR. field. lra. }
      unfold w. apply Rmult_le_reg_r with (IZR (10 ^ digits)); [exact Hp|].
      replace ((IZR (ZnearestE (p (S i))) / IZR (10 ^ digits) - IZR (ZnearestE (p i)) / IZR (10 ^ digits)) * IZR (10 ^ digits))
        with (IZR (ZnearestE (p (S i))) - IZR (ZnearestE (p i))) by (field; lra).
      rewrite Rmult_plus_distr_r, Rinv_l by lra. lra. }
    assert (Hr : forall i, (i <= n)%nat -> er (n - i)%nat = - er i).
    { intros i Hi. unfold er. rewrite (E_opp n (10 ^ digits)) by lia. rewrite opp_IZR. field. lra. }
    assert (Hle : length edges = S n) by apply HG.
    assert (C2' : forall b, (bin0 <= b < n)%nat -> (labelled 0 labels (bin_list edges n (map XR eps : list RX) b) <= length (bin_list edges n (map XR eps : list RX) (2 * bin0 - 1 - b)%nat))%nat)
      by (intros b Hbb; apply C2; lia).
    split; [rewrite sph_real, Hk; exact (net_upper RX_rounded n edges (map XR eps) er w bin0 labels HG HI' HE Hw Hr H2 ltac:(lia) HL C1 C2')|].
    exists bin0. split; [exact Hz|]. split; [exact H2|]. split; [lia|]. intros C. rewrite sph_real, Hk.
    exact (net_lower RX_rounded n edges (map XR eps) er w bin0 labels HG HI' HE Hw Hr H2 ltac:(lia) HL C1 C2' C). }
  split.
  - intros pick labels st' HP H. exact (proj1 (Main pick labels st' HP H)).
  - intros labels st' H n' edges' HM. destruct (Main _ labels st' (or_introl eq_refl) H) as (_ & bin0 & Hz & H2 & Hb0 & L). apply L. intros b Hb.
    destruct (c42_composition RX St choice junk n_bin digits (map XR eps) st labels st' HX HD Hn Hd H) as (bin1 & Hz1 & HG & _ & HC).
    fold n in Hz1, HG, HC. fold edges in Hz1, HG, HC. assert (bin1 = bin0) as -> by (eapply zero_edge_unique; eauto).
    destruct (HC b _ ltac:(lia) (bin_members edges n b (map XR eps : list RX) ltac:(lia))) as (_ & A & _).
    destruct (A ltac:(lia) _ (bin_members edges n (2 * bin0 - 1 - b) (map XR eps : list RX) ltac:(lia))) as (-> & _). apply Nat.min_l.
    apply (HM (2 * bin0 - 1 - b)%nat); [fold n; lia|apply bin_members; fold n; lia|]. replace (n' - 1 - (2 * bin0 - 1 - b))%nat with b by (change n' with n; lia). apply bin_members. fold n. lia.
Qed.

(** Ten particles, five of them counter-rotating: the spheroid holds four of the others. *)
Example ex_c79 :
  map (fun st => rmap (fun r => (corot (spheroid tenE (fst r)), counter (spheroid tenE (fst r))))
        (hist_split (pick_any turns) (fun _ => 9%Z) 4 2 st tenE)) [false; true] = [Ok (4, 5); Ok (4, 5)]%nat
  /\ counter tenE = 5%nat /\ forallb (fun e => nle nm1 e && nle e n1) tenE = true.
Proof. vm_compute. auto. Qed.
(** Three particles in four bins: a spheroid whose circularities add up to at most 0.51. *)
Example ex_c79_net : exists labels st', hist_split (pick_any turns) (fun _ => 9%Z) 4 2 false (map XR [-(1/4); 1/8; 1/4] : list RX) = Ok (labels, st') /\
  -(51/100) <= sum_of (spheroid [-(1/4); 1/8; 1/4] labels) <= 51/100.
Proof.
  assert (HX : arith RX) by now left. pose proof turns_draws as HD.
  set (eps := [-(1/4); 1/8; 1/4]).
  destruct (c43_returns RX bool turns (fun _ => 9%Z) 4 2 (map XR eps) false HX HD ltac:(lia) ltac:(lia)) as (_ & _ & R).
  destruct (R ltac:(lia) (c43_even RX 4 2 HX ltac:(lia) ltac:(exists 2%Z; reflexivity) ltac:(lia))) as (labels & st' & H).
  exists labels, st'. split; [exact H|].
  destruct (c79_net bool turns (fun _ => 9%Z) 4 2 eps false HD ltac:(lia) ltac:(lia) ltac:(exists 2%Z; reflexivity) ltac:(cbn; lia)) as (U & L).
  { intros e [<-|[<-|[<-|[]]]]; lra. }
  replace (51/100) with ((2 / IZR 4 + / IZR (10 ^ 2)) * INR (length (filter (fun e => if Rlt_dec e 0 then true else false) eps))).
  2:{ unfold eps. cbn [filter]. destruct (Rlt_dec (-(1/4)) 0); [|lra]. destruct (Rlt_dec (1/8) 0); [lra|]. destruct (Rlt_dec (1/4) 0); [lra|].
      simpl. lra. }
  split; [|exact (U _ labels st' (or_introl eq_refl) H)]. apply (L labels st' H).
  intros b l l' Hb M M'. destruct (c43_exact 4 2 ltac:(lia) ltac:(lia)) as (_ & HE & _).
  set (edges := map (np_round (N:=RX) 2) (linspace nm1 n1 (Z.to_nat 4))) in *.
  assert (E : forall k, (k <= 4)%nat -> nth k edges nnan = XR (-1 + IZR (Z.of_nat k) / 2)).
  { intros k Hk. rewrite HE by exact Hk. f_equal. change (10 ^ 2)%Z with 100%Z.
    replace ((-1 + 2 * IZR (Z.of_nat k) / 4) * 100) with (IZR (-100 + 50 * Z.of_nat k)) by (rewrite plus_IZR, mult_IZR; simpl; field).
    rewrite Zrnd_IZR by apply valid_rnd_N. rewrite plus_IZR, mult_IZR. simpl. field. }
  assert (V : forall b e, holds_bin (N:=RX) edges 4 b e -> (b < 4)%nat /\ -1 + IZR (Z.of_nat b) / 2 <= rv e <= -1 + IZR (Z.of_nat (S b)) / 2).
  { intros c e (Hc & A & B1 & B2). split; [exact Hc|]. rewrite E in A by lia. rewrite !E in B1, B2 by lia.
    destruct (Nat.eq_dec (S c) 4) as [Q|Q].
    - specialize (B2 Q). rewrite <- Q in B2. apply (nle_iff RX_rounded) in A, B2. destruct e; simpl in A, B2; try contradiction. cbn [rv]. exact (conj A B2).
    - specialize (B1 ltac:(lia)). apply (nle_iff RX_rounded) in A. apply (nlt_iff RX_rounded) in B1. destruct e; simpl in A, B1; try contradiction. cbn [rv]. split; [exact A|apply Rlt_le, B1]. }
  assert (L1 : incl l [0%nat]).
  { intros i I. apply M in I as (e & Ee & He). destruct (V b e He) as (_ & V1). destruct i as [|i]; [now left|exfalso]. assert (Hb' : (b < 2)%nat) by (change (Z.to_nat 4) with 4%nat in Hb; lia).
    destruct i as [|[|i]]; simpl in Ee; [injection Ee as <-|injection Ee as <-|destruct i; discriminate]; destruct b as [|[|b]]; try lia; simpl in V1; lra. }
  pose proof (NoDup_incl_length (proj1 M) L1) as Ll. simpl in Ll.
  assert (Hb' : (b < 2)%nat) by (change (Z.to_nat 4) with 4%nat in Hb; lia). destruct b as [|[|b]]; [| |lia].
  - assert (l = []) as ->; [|simpl; lia]. destruct l as [|i l]; [reflexivity|exfalso]. assert (i = 0%nat) as -> by (destruct (L1 i (or_introl eq_refl)) as [<-|[]]; reflexivity).
    destruct (proj1 (proj2 M 0%nat) (or_introl eq_refl)) as (e & Ee & He). injection Ee as <-. destruct (V 0%nat _ He) as (_ & V1). simpl in V1. lra.
  - assert (I : In 1%nat l').
    { apply M'. exists (XR (1/8)). split; [reflexivity|]. change (Z.to_nat 4 - 1 - 1)%nat with 2%nat. change (Z.to_nat 4) with 4%nat. split; [lia|]. rewrite !E by lia.
      split; [apply nleRX; simpl; lra|]. split; [intros _; apply nltRX; simpl; lra|lia]. }
    destruct l'; [destruct I|simpl; lia].
Qed.
