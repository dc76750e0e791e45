(** Accuracy of AutoGaussianMixture in floating point (C83). *)
From Verif Require Import Py Num RX F64 Np Df Data DataFacts DfFacts CenterFacts Ex Spec DataThms SpecCirc Circ CircFacts CircThms SpecBase Base BaseFacts BaseThms Threshold EpsFacts Hist SpecMix Center Mixture MixFacts MixStar MixThms CurveFacts AccFacts SpecAlAcc AlAccFacts CtrAccThms SpinAccThms SpecGroup.
From Flocq Require Import Core.
From Coq Require Import Lra Lia Permutation Floats.SpecFloat.
Local Open Scope R_scope.

Section Add.
Context (sm : list f64 -> f64).
Local Notation RN := (F64_rounded sm).
Local Notation v := (val (F64_rounded sm)).
Local Notation u := (/ IZR (2 ^ 53)).
Local Notation w := (1 - / IZR (2 ^ 53)).

Lemma u_bounds : 0 < u <= / 1000.
Proof. split; [apply Rinv_0_lt_compat, IZR_lt; reflexivity|]. apply Rinv_le_contravar; [lra|]. apply IZR_le. vm_compute. discriminate. Qed.

Lemma add_acc (a b : F64s sm) x y : v a = XR x -> v b = XR y -> Rabs (x + y) <= IZR (2 ^ 1023) ->
  exists z, v (a + b)%num = XR z /\ Rabs (z - (x + y)) <= u * Rabs (x + y).
Proof.
  intros A B H. assert (B' : v (nopp b) = XR (- y)) by (rewrite (val_opp RN), B; reflexivity).
  destruct (sub_acc sm a (nopp b) x (- y) A B') as (z & Z & E & _); [now replace (x - - y) with (x + y) by ring|].
  exists z. split; [|now replace (x - - y) with (x + y) in E by ring].
  rewrite <- Z, (val_add RN), (val_sub RN), A, B, B'. simpl. now rewrite Ropp_involutive.
Qed.

(** Adding numbers that are not negative one by one. *)
Lemma fold_near (l : list (F64s sm)) : forall rs acc a A j, map v l = map XR rs -> (forall r, In r rs -> 0 <= r) ->
  v acc = XR a -> near w j a A -> A + Rsum rs <= IZR (2 ^ 1000) -> INR (j + length l) * u <= / 2 ->
  exists z, v (fold_left nadd l acc) = XR z /\ near w (j + length l) z (A + Rsum rs).
Proof.
  pose proof u_bounds as U. assert (W : 0 < w <= 1) by lra.
  induction l as [|x l IH]; intros [|r rs] acc a A j M P V Nr T K; try discriminate M.
  - exists a. split; [exact V|]. simpl. rewrite Nat.add_0_r, Rplus_0_r. exact Nr.
  - injection M as Mx M. cbn [length] in K. cbn [fold_left length]. rewrite Nat.add_succ_r in *. cbn [Rsum fold_right] in T. fold (Rsum rs) in T.
    assert (Pr : 0 <= r) by (apply P; now left). assert (PA : 0 <= A) by apply Nr. assert (Ps : 0 <= Rsum rs).
    { clear - P. assert (Q : forall y, In y rs -> 0 <= y) by (intros y I; apply P; now right). clear P. induction rs as [|y rs IH]; simpl; [lra|].
      pose proof (Q y (or_introl eq_refl)). specialize (IH ltac:(intros; apply Q; now right)). lra. }
    assert (Hk : / 2 <= w ^ j).
    { pose proof (bernoulli u j ltac:(lra)) as Bn. rewrite S_INR, plus_INR in K. pose proof (pos_INR (length l)). pose proof (pos_INR j).
      assert (INR j * u <= / 2) by nra. lra. }
    assert (Na : near w j (a + r) (A + r)) by (apply near_add; [exact Nr|apply near_mono with 0%nat; try lra; [lia|now apply near_refl]]).
    destruct (near_half w ltac:(lra) j _ _ Hk Na) as (_ & Hi).
    pose proof (near_ge0 w ltac:(lra) j _ _ Na) as Lo.
    destruct (add_acc acc x a r V Mx) as (z & Z & E).
    { rewrite Rabs_pos_eq by exact Lo. apply Rle_trans with (2 * IZR (2 ^ 1000)); [lra|]. rewrite <- mult_IZR. apply IZR_le. vm_compute. discriminate. }
    rewrite (Rabs_pos_eq (a + r)) in E by exact Lo. apply Rabs_le_inv in E.
    assert (N1 : near w 1 z (a + r)) by (unfold near; rewrite pow_1; split; [exact Lo|]; split; nra).
    assert (N2 : near w (S j) z (A + r)) by exact (near_trans w ltac:(lra) 1 j z (a + r) (A + r) N1 Na).
    destruct (IH rs (acc + x)%num z (A + r) (S j) M ltac:(intros; apply P; now right) Z N2) as (z' & Z' & N'); [lra|exact K|].
    exists z'. split; [exact Z'|]. cbn [Rsum fold_right]. fold (Rsum rs). now replace (A + (r + Rsum rs)) with (A + r + Rsum rs) by ring.
Qed.
End Add.

Section Shares.
Context (sm : list f64 -> f64) (f : fitted (F64s sm)) (qrow : list (F64s sm)) (qs : list R).
Local Notation RN := (F64_rounded sm).
Local Notation v := (val (F64_rounded sm)).
Local Notation n := (f_n f).
Hypothesis M : map v qrow = map XR qs.
Hypothesis L : length qs = n.
Hypothesis P : forall x, In x qs -> 0 <= x.
Hypothesis T : Rsum qs <= IZR (2 ^ 1000).
Hypothesis K : (Z.of_nat n <= 2 ^ 52)%Z.
Let S k := share k n (f_means f) qs.

Lemma share_nonneg k : 0 <= S k.
Proof.
  unfold S, share. assert (Q : forall l, 0 <= Rsum (map (fun i => nth i qs 0) l)).
  { induction l as [|i l IH]; simpl; [lra|]. assert (0 <= nth i qs 0) by (destruct (nth_in_or_default i qs 0) as [I| ->]; [now apply P|lra]). unfold Rsum in *. lra. }
  apply Q.
Qed.
Lemma all_sum : Rsum (map (fun i => nth i qs 0) (seq 0 n)) = Rsum qs.
Proof.
  rewrite <- L. clear. unfold Rsum. f_equal. induction qs as [|x l IH]; [reflexivity|]. cbn [length seq map]. f_equal. rewrite <- seq_shift, map_map. exact IH.
Qed.
Lemma share_total k : S k <= Rsum qs.
Proof.
  rewrite <- all_sum. unfold S, share. generalize (seq 0 n) as l. induction l as [|i l IH]; simpl; [lra|].
  assert (0 <= nth i qs 0) by (destruct (nth_in_or_default i qs 0) as [I| ->]; [now apply P|lra]).
  destruct (belongs k _ _); simpl; unfold Rsum in *; lra.
Qed.
Lemma share_sum : (forall i, (i < n)%nat -> nisnan (coord (f_means f) i 0) = false /\ nisnan (coord (f_means f) i 1) = false) ->
  S Halo + S Bulge + S ColdDisk + S WarmDisk = Rsum qs.
Proof. intros H. rewrite <- all_sum. apply (kval_sum RN). intros i I. apply in_seq in I. apply H. lia. Qed.

Lemma share_acc k : exists z, v (from_kind k n (f_means f) qrow) = XR z /\ Rabs (z - S k) <= INR n / IZR (2 ^ 52) * S k.
Proof.
  unfold from_kind. set (l := filter _ _). pose proof u_bounds as U.
  assert (Ll : (length l <= n)%nat) by (unfold l; etransitivity; [apply CurveFacts.filter_le|now rewrite seq_length]).
  assert (Hu : / IZR (2 ^ 53) = / 2 * / IZR (2 ^ 52)) by (change (2 ^ 53)%Z with (2 * 2 ^ 52)%Z; rewrite mult_IZR; field; apply IZR_neq; discriminate).
  assert (P52 : 0 < / IZR (2 ^ 52)) by (apply Rinv_0_lt_compat, IZR_lt; reflexivity).
  assert (K1 : INR n * / IZR (2 ^ 52) <= 1).
  { apply IZR_le in K. rewrite <- INR_IZR_INZ in K. apply Rmult_le_reg_r with (IZR (2 ^ 52)); [apply IZR_lt; reflexivity|].
    rewrite Rmult_assoc, Rinv_l by (apply IZR_neq; discriminate). lra. }
  assert (K2 : INR (length l) * / IZR (2 ^ 53) <= / 2) by (apply le_INR in Ll; pose proof (pos_INR (length l)); rewrite Hu; nra).
  assert (E : map v (map (fun i => nth i qrow nnan) l) = map XR (map (fun i => nth i qs 0) l)).
  { rewrite !map_map. apply map_ext_in. intros i I. unfold l in I. apply filter_In in I as (I & _). apply in_seq in I.
    assert (Q : nth_error (map v qrow) i = nth_error (map XR qs) i) by now rewrite M. rewrite !nth_error_map in Q.
    destruct (nth_error qs i) as [r|] eqn:Er; [|apply nth_error_None in Er; lia].
    destruct (nth_error qrow i) as [x|] eqn:Ex; [|discriminate Q]. cbn [option_map] in Q. rewrite (nth_error_nth _ _ _ Ex), (nth_error_nth _ _ _ Er). congruence. }
  destruct (fold_near sm (map (fun i => nth i qrow nnan) l) (map (fun i => nth i qs 0) l) n0 0 0 0 E) as (z & Z & Nz).
  - intros r I. apply in_map_iff in I as (i & <- & _). destruct (nth_in_or_default i qs 0) as [I| ->]; [now apply P|lra].
  - apply (val_n0 RN).
  - apply near_refl; lra.
  - rewrite Rplus_0_l. eapply Rle_trans; [apply (share_total k)|exact T].
  - rewrite map_length. exact K2.
  - exists z. split; [exact Z|]. rewrite Rplus_0_l, map_length in Nz. change (near (1 - / IZR (2 ^ 53)) (length l) z (S k)) in Nz.
    apply near_error in Nz; [|lra|exact K2|lra]. eapply Rle_trans; [exact Nz|]. apply Rmult_le_compat_r; [apply share_nonneg|].
    rewrite Hu. apply le_INR in Ll. unfold Rdiv. nra.
Qed.
End Shares.

(** In binary64: the probability of each structure is the exact sum of those of its Gaussians
    up to one rounding step for each Gaussian; the four add up to the total up to that; and the
    label is the structure with the greatest exact probability if it leads by more than that. *)
Lemma c83_shares : forall (sm : list f64 -> f64) (f : fitted (F64s sm)) (X : matrix (F64s sm)) labels p q,
  group f X = Ok (labels, p) -> f_proba f X = Ok q -> length (pr_rows q) = length X -> (Z.of_nat (f_n f) <= 2 ^ 52)%Z ->
  forall r qrow qs, nth_error (pr_rows q) r = Some qrow -> map (val (F64_rounded sm)) qrow = map XR qs -> length qs = f_n f ->
  (forall x, In x qs -> 0 <= x) -> Rsum qs <= IZR (2 ^ 1000) ->
  let d := INR (f_n f) / IZR (2 ^ 52) in
  let S k := share k (f_n f) (f_means f) qs in
  exists row ps z, nth_error (pr_rows p) r = Some row /\ map (val (F64_rounded sm)) row = map XR ps /\ nth_error labels r = Some (Z.of_nat z) /\
    Forall2 (fun k x => Rabs (x - S k) <= d * S k) kinds ps /\
    ((forall i, (i < f_n f)%nat -> nisnan (coord (f_means f) i 0) = false /\ nisnan (coord (f_means f) i 1) = false) ->
       S Halo + S Bulge + S ColdDisk + S WarmDisk = Rsum qs /\ Rabs (Rsum ps - Rsum qs) <= d * Rsum qs) /\
    (forall k K, nth_error kinds k = Some K -> (forall K', K' <> K -> S K' + d * (S K + S K') < S K) -> z = k).
Proof.
  intros sm f X labels p q H E Lq Kn r qrow qs Hr M L P T d S.
  destruct (c47_grouping (F64s sm) (F64_rounded sm) f X labels p H) as (q' & E' & Wp & Lp & Ll & G1 & G2). assert (q' = q) as -> by congruence.
  specialize (G2 Lq r qrow Hr). assert (Hlt : (r < length X)%nat) by (rewrite <- Lq; apply nth_error_Some; congruence).
  destruct (G1 r Hlt) as (z & row & Ez & Hz & Er & L4 & FM). assert (row = map (fun k => from_kind k (f_n f) (f_means f) qrow) kinds) as -> by congruence.
  pose proof (share_acc sm f qrow qs M L P T Kn) as A.
  destruct (A Halo) as (xh & Vh & Ah), (A Bulge) as (xb & Vb & Ab), (A ColdDisk) as (xc & Vc & Ac), (A WarmDisk) as (xw & Vw & Aw).
  fold d in Ah, Ab, Ac, Aw. fold (S Halo) in Ah. fold (S Bulge) in Ab. fold (S ColdDisk) in Ac. fold (S WarmDisk) in Aw.
  exists (map (fun k => from_kind k (f_n f) (f_means f) qrow) kinds), [xh; xb; xc; xw], z. split; [exact Er|].
  split; [unfold kinds; cbn [map]; now rewrite Vh, Vb, Vc, Vw|]. split; [exact Ez|].
  split; [unfold kinds; constructor; [exact Ah|]; constructor; [exact Ab|]; constructor; [exact Ac|]; constructor; [exact Aw|]; constructor|]. split.
  - intros C. pose proof (share_sum sm f qs L C) as Q. change (S Halo + S Bulge + S ColdDisk + S WarmDisk = Rsum qs) in Q. split; [exact Q|].
    rewrite <- Q. cbn [Rsum fold_right]. apply Rabs_le_inv in Ah, Ab, Ac, Aw. apply Rabs_le. clearbody S d. lra.
  - intros k K Hk Lead.
    assert (NN : forall x, In x (map (fun k => from_kind k (f_n f) (f_means f) qrow) kinds) -> nisnan x = false).
    { intros x I. apply in_map_iff in I as (k' & <- & _). destruct (A k') as (y & Vy & _). apply (nisnan_false (F64_rounded sm)). rewrite Vy. discriminate. }
    destruct (FM NN) as (x & Ex & Hmax).
    rewrite nth_error_map in Ex. destruct (nth_error kinds z) as [K'|] eqn:EK; [|discriminate Ex]. cbn [option_map] in Ex. injection Ex as <-.
    destruct (Hmax k (from_kind K (f_n f) (f_means f) qrow) ltac:(now rewrite nth_error_map, Hk)) as (Le & _).
    assert (KK : K' = K \/ K' <> K) by (destruct K', K; (now left) || (right; discriminate)). destruct KK as [-> |D].
    + unfold kinds in EK, Hk. destruct z as [|[|[|[|[|z]]]]], k as [|[|[|[|[|k]]]]]; cbn [nth_error] in *; congruence.
    + exfalso. specialize (Lead K' D). destruct (A K) as (y & Vy & Ay), (A K') as (y' & Vy' & Ay'). apply (nle_iff (F64_rounded sm)) in Le. rewrite Vy, Vy' in Le. cbn in Le.
      fold d in Ay, Ay'. fold (S K) in Ay. fold (S K') in Ay'. apply Rabs_le_inv in Ay, Ay'. lra.
Qed.

(** *** The number of Gaussians *)
Lemma last_five {A} (d : A) l : length l = 14%nat -> skipn 9 l = map (fun i => nth i l d) [9; 10; 11; 12; 13]%nat.
Proof. intros H. do 14 (destruct l as [|? l]; [discriminate H|]). destruct l; [reflexivity|discriminate H]. Qed.

Section Number.
Local Notation sq := (seqsum 53 1024 p53 e1024).
Local Notation RN := (F64_rounded sq).
Local Notation v := (val RN).
Local Notation u := (/ IZR (2 ^ 53)).
Local Notation ap := (ap RN u).
Context (bics : list (F64s sq)) (bs : list R) (B : R).
Hypothesis L : length bics = 14%nat.
Hypothesis M : map v bics = map XR bs.
Hypothesis HB : forall b, In b bs -> Rabs b <= B.
Hypothesis HS : bpow radix2 (-800) <= B <= bpow radix2 800.

Lemma scales k : 1 <= k <= 8 -> scale (k * B).
Proof.
  intros K. unfold scale. assert (0 < bpow radix2 (-800)) by apply bpow_gt_0. split.
  - apply Rle_trans with (bpow radix2 (-800)); [apply bpow_le; lia|]. nra.
  - apply Rle_trans with (bpow radix2 3 * bpow radix2 800); [|rewrite <- bpow_plus; apply bpow_le; lia]. change (bpow radix2 3) with 8. nra.
Qed.
Lemma u_small : 0 < u /\ u <= bpow radix2 (-40).
Proof. split; [apply Rinv_0_lt_compat, IZR_lt; reflexivity|]. change u with (bpow radix2 (-53)). apply bpow_le. lia. Qed.

Lemma excess_acc m : (2 <= m <= 15)%nat -> exists d, v (nth (m - 2) bics nnan - nsum (skipn 9 bics) / nofZ 5)%num = XR d /\ Rabs (d - excess bs m) <= B / IZR (2 ^ 47).
Proof.
  intros Hm. destruct u_small as (U0 & U1). pose proof u_bounds as U2.
  assert (Lb : length bs = 14%nat) by (rewrite <- (map_length XR), <- M, map_length; exact L).
  assert (Hx : forall k i, 0 <= k -> (i < 14)%nat -> ap k B (nth i bics nnan) (nth i bs 0)).
  { intros k i K Hi. assert (Q : nth_error (map v bics) i = nth_error (map XR bs) i) by now rewrite M. rewrite !nth_error_map in Q.
    destruct (nth_error bs i) as [r|] eqn:Er; [|apply nth_error_None in Er; lia]. destruct (nth_error bics i) as [x|] eqn:Ex; [|apply nth_error_None in Ex; lia].
    cbn [option_map] in Q. rewrite (nth_error_nth _ _ _ Ex), (nth_error_nth _ _ _ Er). apply ap_weaken with 0 B; [exact U0| |lra|lra].
    apply ap_exact; [congruence|]. apply HB. eapply nth_error_In, Er. }
  assert (PB : 0 < B) by (pose proof (bpow_gt_0 radix2 (-800)); lra).
  assert (E9 : skipn 9 bics = map (fun i => nth i bics nnan) [9; 10; 11; 12; 13]%nat) by now apply last_five.
  assert (S9 : skipn 9 bs = map (fun i => nth i bs 0) [9; 10; 11; 12; 13]%nat) by now apply last_five.
  assert (Fold : forall l acc a k s, (forall i, In i l -> (i < 14)%nat) -> 0 <= k -> k + 2 * INR (length l) <= 100 -> 1 <= s -> s + INR (length l) <= 8 ->
            ap k (s * B) acc a ->
            ap (k + 2 * INR (length l)) ((s + INR (length l)) * B) (fold_left nadd (map (fun i => nth i bics nnan) l) acc) (a + Rsum (map (fun i => nth i bs 0) l))).
  { induction l as [|i l IH]; intros acc a k s Hl K0 K1 S1 S2 A.
    - cbn [length map fold_left]. change (INR 0) with 0. cbn [Rsum fold_right]. rewrite Rmult_0_r, !Rplus_0_r. exact A.
    - cbn [length] in K1, S2 |- *. rewrite S_INR in *. cbn [map fold_left Rsum fold_right]. pose proof (pos_INR (length l)).
      replace (k + 2 * (INR (length l) + 1)) with ((k + 2) + 2 * INR (length l)) by ring.
      replace (s + (INR (length l) + 1)) with ((s + 1) + INR (length l)) by ring.
      replace (a + (nth i bs 0 + fold_right Rplus 0 (map (fun i => nth i bs 0) l))) with ((a + nth i bs 0) + Rsum (map (fun i => nth i bs 0) l)) by (unfold Rsum; ring).
      apply IH; [intros; apply Hl; now right|lra|lra|lra|lra|]. replace ((s + 1) * B) with (s * B + B) by ring.
      apply ap_add; try assumption; [apply F64_graceful|apply Hx; [lra|apply Hl; now left]|replace (s * B + B) with ((s + 1) * B) by ring; apply scales; lra|nra]. }
  assert (A0 : ap 0 (1 * B) (n0 : F64s sq) 0) by (apply ap_exact; [apply (val_n0 RN)|rewrite Rabs_R0; lra]).
  specialize (Fold [9; 10; 11; 12; 13]%nat n0 0 0 1). cbn [length] in Fold. replace (INR 5) with 5 in Fold by (simpl; lra).
  assert (As : ap 10 (6 * B) (nsum (skipn 9 bics)) (Rsum (skipn 9 bs))).
  { rewrite E9, S9. replace 10 with (0 + 2 * 5) by lra. replace 6 with (1 + 5) by lra. rewrite <- (Rplus_0_l (Rsum _)).
    apply Fold; try lra; [|exact A0]. intros i I. cbn [In] in I. lia. }
  assert (A5 : ap 0 5 (nofZ 5 : F64s sq) 5) by (apply ap_exact; [rewrite (val_ofZ RN); apply (rnd_int RN); vm_compute; discriminate|rewrite Rabs_pos_eq; lra]).
  assert (Ad : ap 22 (6 * B / 5) (nsum (skipn 9 bics) / nofZ 5)%num (Rsum (skipn 9 bs) / 5)).
  { replace 22 with (2 * 10 + 2 * 0 + 2) by lra. apply ap_div; try lra; try assumption; [apply F64_graceful|].
    replace (6 * B / 5) with (6 / 5 * B) by field. apply scales. lra. }
  assert (Ae : ap 24 (B + 6 * B / 5) (nth (m - 2) bics nnan - nsum (skipn 9 bics) / nofZ 5)%num (excess bs m)).
  { unfold excess. replace 24 with (22 + 2) by lra. apply ap_sub; try assumption; [apply F64_graceful|apply Hx; [lra|lia]| |lra].
    replace (B + 6 * B / 5) with (11 / 5 * B) by field. apply scales. lra. }
  destruct Ae as (d & Vd & Ed & _). exists d. split; [exact Vd|]. eapply Rle_trans; [exact Ed|].
  replace (B / IZR (2 ^ 47)) with (64 * u * B); [nra|]. change (2 ^ 53)%Z with (64 * 2 ^ 47)%Z. rewrite mult_IZR. field. apply IZR_neq. discriminate.
Qed.
End Number.

(** In binary64, with [np.sum] adding from left to right: numbers of Gaussians whose value is
    clearly below or clearly above the cut are accepted or rejected as in exact arithmetic; if
    that is so of all, the number used is the smallest that exact arithmetic accepts; and some
    number is found whenever the cut is not below the rounding errors. *)
Lemma c83_number : forall (bics : list F64) (bs : list R) (B : R) (cut : F64) (c : R),
  length bics = 14%nat -> map (val (F64_rounded (seqsum 53 1024 p53 e1024))) bics = map XR bs -> (forall b, In b bs -> Rabs b <= B) ->
  bpow radix2 (-800) <= B <= bpow radix2 800 -> val (F64_rounded (seqsum 53 1024 p53 e1024)) cut = XR c ->
  let d := B / IZR (2 ^ 47) in
  (forall m, (2 <= m <= 15)%nat -> (excess bs m <= c - d -> good_enough cut bics m) /\ (c + d < excess bs m -> ~ good_enough cut bics m)) /\
  ((forall m, (2 <= m <= 15)%nat -> excess bs m <= c - d \/ c + d < excess bs m) ->
   (forall m, smallest (fun m => (2 <= m <= 15)%nat /\ excess bs m <= c) m -> choose_number cut bics = Ok (Z.of_nat m)) /\
   ((forall m, (2 <= m <= 15)%nat -> c < excess bs m) -> choose_number cut bics = Raise ValueError)) /\
  (d <= c -> exists m, choose_number cut bics = Ok (Z.of_nat m)).
Proof.
  intros bics bs B cut c L M HB HS Vc d. set (RN := F64_rounded (seqsum 53 1024 p53 e1024)) in *.
  assert (D0 : 0 < d) by (unfold d, Rdiv; apply Rmult_lt_0_compat; [pose proof (bpow_gt_0 radix2 (-800)); lra|apply Rinv_0_lt_compat, IZR_lt; reflexivity]).
  assert (G : forall m, (2 <= m <= 15)%nat -> (excess bs m <= c - d -> good_enough cut bics m) /\ (c + d < excess bs m -> ~ good_enough cut bics m)).
  { intros m Hm. destruct (excess_acc bics bs B L M HB HS m Hm) as (x & Vx & Ex). fold d in Ex. apply Rabs_le_inv in Ex. split.
    - intros H. split; [exact Hm|]. apply (nle_iff RN). fold RN in Vx. change (xle (val RN (nth (m - 2) bics nnan - nsum (skipn 9 bics) / nofZ 5)%num) (val RN cut)).
      rewrite Vc. replace (val RN (nth (m - 2) bics nnan - nsum (skipn 9 bics) / nofZ 5)%num) with (XR x). simpl. lra.
    - intros H (_ & C). apply (nle_iff RN) in C. change (xle (val RN (nth (m - 2) bics nnan - nsum (skipn 9 bics) / nofZ 5)%num) (val RN cut)) in C. rewrite Vc in C. replace (val RN (nth (m - 2) bics nnan - nsum (skipn 9 bics) / nofZ 5)%num) with (XR x) in C. simpl in C. lra. }
  assert (Hc : forall m, good_enough cut bics m -> (2 <= m <= 15)%nat) by (intros m H; apply H).
  pose proof (choose_spec cut bics L) as C. split; [exact G|]. split.
  - intros Clear. split.
    + intros m ((Hm & Em) & Min). assert (Gm : good_enough cut bics m) by (apply G; [exact Hm|destruct (Clear m Hm); lra]).
      destruct (choose_number cut bics) as [z|e]; [|exfalso; exact (proj2 C m Gm)]. destruct C as (m' & -> & Gm' & Min').
      do 2 f_equal. apply Nat.le_antisymm; [exact (Min' m Gm)|]. apply Min. pose proof (Hc m' Gm') as Hm'. split; [exact Hm'|].
      destruct (Clear m' Hm') as [Q|Q]; [lra|]. exfalso. exact (proj2 (G m' Hm') Q Gm').
    + intros None'. destruct (choose_number cut bics) as [z|e]; [|now destruct C as (-> & _)]. exfalso. destruct C as (m & _ & Gm & _).
      pose proof (Hc m Gm) as Hm. specialize (None' m Hm). destruct (Clear m Hm) as [Q|Q]; [lra|]. exact (proj2 (G m Hm) Q Gm).
  - intros Hd. assert (Lb : length bs = 14%nat) by (rewrite <- (map_length XR), <- M, map_length; exact L).
    destruct (c48_exact bs 0 Lb) as (X & Y). destruct (Y (Rle_refl 0)) as (m & Gm). apply X in Gm as (Hm & Em). change (excess bs m <= 0) in Em.
    assert (Gm : good_enough cut bics m) by (apply G; [exact Hm|lra]).
    destruct (choose_number cut bics) as [z|e]; [|exfalso; exact (proj2 C m Gm)]. destruct C as (m' & -> & _). eauto.
Qed.

(** The shares of the five Gaussians of [toy_fit], and the bulge leading. *)
Example ex_c83 : exists labels p q,
  group (toy_fit 5) toy_rows = Ok (labels, p) /\ f_proba (toy_fit 5) toy_rows = Ok q /\ length (pr_rows q) = length toy_rows /\
  let qs := [3 / 16; 1 / 16; 4 / 16; 2 / 16; 6 / 16] in
  nth_error (pr_rows q) 0 = Some toy_row /\ map (val (F64_rounded (seqsum 53 1024 p53 e1024))) toy_row = map XR qs /\
  let S k := share k (f_n (toy_fit 5)) (f_means (toy_fit 5)) qs in
  S Halo = 2 / 16 /\ S Bulge = 6 / 16 /\ S ColdDisk = 3 / 16 /\ S WarmDisk = 5 / 16 /\
  (forall K', K' <> Bulge -> S K' + 5 / IZR (2 ^ 52) * (S Bulge + S K') < S Bulge) /\ nth_error labels 0 = Some 1%Z.
Proof.
  assert (C : rmap fst (group (toy_fit 5) toy_rows) = Ok [1; 1]%Z) by (vm_compute; reflexivity).
  destruct (group (toy_fit 5) toy_rows) as [[labels p]|e] eqn:H1; [|discriminate C]. cbn [rmap bind fst] in C. assert (H5 : nth_error labels 0 = Some 1%Z) by (injection C as ->; reflexivity). clear C.
  pose (q := Probs 5 (map (fun _ => toy_row) toy_rows)). assert (H2 : f_proba (toy_fit 5) toy_rows = Ok q) by reflexivity.
  assert (H3 : length (pr_rows q) = length toy_rows) by reflexivity. assert (H4 : nth_error (pr_rows q) 0 = Some toy_row) by reflexivity. clearbody q.
  exists labels, p, q.
  assert (F : filter (fun i => belongs Halo (coord toy_means i 0) (coord toy_means i 1)) (seq 0 5) = [3]%nat /\
    filter (fun i => belongs Bulge (coord toy_means i 0) (coord toy_means i 1)) (seq 0 5) = [4]%nat /\
    filter (fun i => belongs ColdDisk (coord toy_means i 0) (coord toy_means i 1)) (seq 0 5) = [0]%nat /\
    filter (fun i => belongs WarmDisk (coord toy_means i 0) (coord toy_means i 1)) (seq 0 5) = [1; 2]%nat) by (vm_compute; auto).
  destruct F as (F1 & F2 & F3 & F4).
  assert (I : forallb in60 toy_row = true /\ map of60 toy_row = map (fun z => z * 2 ^ 56)%Z [3; 1; 4; 2; 6]%Z) by (vm_compute; auto).
  split; [first [exact H1|reflexivity]|]. split; [exact H2|]. split; [exact H3|]. intros qs. split; [exact H4|]. split.
  { destruct I as (I & J). rewrite forallb_forall in I. transitivity (map (fun z => XR (IZR z / IZR (2 ^ 60))) (map of60 toy_row)).
    - rewrite map_map. apply map_ext_in. intros x Hx. apply val60, I, Hx.
    - rewrite J. cbn [map]. unfold qs. cbn [map].
      repeat (match goal with |- ?a :: _ = ?b :: _ => assert (a = b) as -> by (f_equal; rewrite ?mult_IZR; change (2 ^ 60)%Z with (2 ^ 4 * 2 ^ 56)%Z; rewrite mult_IZR; change (2 ^ 4)%Z with 16%Z; field; apply IZR_neq; discriminate); f_equal end). }
  intros S. assert (E1 : S Halo = 2 / 16) by (unfold S, share; change (f_n (toy_fit 5)) with 5%nat; change (f_means (toy_fit 5)) with toy_means; rewrite F1; unfold qs; cbn; lra).
  assert (E2 : S Bulge = 6 / 16) by (unfold S, share; change (f_n (toy_fit 5)) with 5%nat; change (f_means (toy_fit 5)) with toy_means; rewrite F2; unfold qs; cbn; lra).
  assert (E3 : S ColdDisk = 3 / 16) by (unfold S, share; change (f_n (toy_fit 5)) with 5%nat; change (f_means (toy_fit 5)) with toy_means; rewrite F3; unfold qs; cbn; lra).
  assert (E4 : S WarmDisk = 5 / 16) by (unfold S, share; change (f_n (toy_fit 5)) with 5%nat; change (f_means (toy_fit 5)) with toy_means; rewrite F4; unfold qs; cbn; lra).
  repeat (split; [assumption|]). split; [|exact H5].
  assert (D : 5 / IZR (2 ^ 52) <= 1 / 1000) by (change (2 ^ 52)%Z with 4503599627370496%Z; lra).
  assert (D0 : 0 <= 5 / IZR (2 ^ 52)) by (change (2 ^ 52)%Z with 4503599627370496%Z; lra).
  set (e := 5 / IZR (2 ^ 52)) in *. clearbody e S. intros K' N. destruct K'; [| congruence | |]; rewrite ?E1, ?E2, ?E3, ?E4; lra.
Qed.

(** Three Gaussians, two of them in the cold disk with probabilities 0.1 and 0.2, one in the
    warm disk with the rounded sum of the two. *)
Definition tie_row : list F64 := [nlit 1 10; nlit 2 10; (nlit 1 10 + nlit 2 10)%num].
Definition tie_means : list (list F64) := [[nlit (-1) 2; nlit 9 10; n0]; [nlit (-1) 2; nlit 95 100; n0]; [nlit (-1) 2; nlit 6 10; n0]].
Definition near_tie : fitted F64 :=
  Fitted 3 tie_means (fun _ => Ok []) (fun X => Ok (Probs 3 (map (fun _ => tie_row) X))) (fun _ => Ok n0).
(** Without the margin the label is not that of exact arithmetic: here the warm disk has the
    strictly greatest share, and the particle is given to the cold disk. *)
Lemma c83_label_refuted : exists (f : fitted F64) (X : matrix F64) labels p q qrow qs,
  group f X = Ok (labels, p) /\ f_proba f X = Ok q /\ length (pr_rows q) = length X /\ nth_error (pr_rows q) 0 = Some qrow /\
  map (val (F64_rounded (seqsum 53 1024 p53 e1024))) qrow = map XR qs /\ length qs = f_n f /\ (forall x, In x qs -> 0 <= x) /\
  (forall K', K' <> WarmDisk -> share K' (f_n f) (f_means f) qs < share WarmDisk (f_n f) (f_means f) qs) /\
  nth_error labels 0 = Some 2%Z.
Proof.
  assert (C : rmap fst (group near_tie toy_rows) = Ok [2; 2]%Z) by (vm_compute; reflexivity).
  destruct (group near_tie toy_rows) as [[labels p]|e] eqn:H1; [|discriminate C]. cbn [rmap bind fst] in C. assert (H5 : nth_error labels 0 = Some 2%Z) by (injection C as ->; reflexivity). clear C.
  pose (q := Probs 3 (map (fun _ => tie_row) toy_rows)). assert (H2 : f_proba near_tie toy_rows = Ok q) by reflexivity.
  assert (H3 : length (pr_rows q) = length toy_rows) by reflexivity. assert (H4 : nth_error (pr_rows q) 0 = Some tie_row) by reflexivity. clearbody q.
  exists near_tie, toy_rows, labels, p, q, tie_row.
  assert (F : filter (fun i => belongs Halo (coord tie_means i 0) (coord tie_means i 1)) (seq 0 3) = []%nat /\
    filter (fun i => belongs Bulge (coord tie_means i 0) (coord tie_means i 1)) (seq 0 3) = []%nat /\
    filter (fun i => belongs ColdDisk (coord tie_means i 0) (coord tie_means i 1)) (seq 0 3) = [0; 1]%nat /\
    filter (fun i => belongs WarmDisk (coord tie_means i 0) (coord tie_means i 1)) (seq 0 3) = [2]%nat) by (vm_compute; auto).
  destruct F as (F1 & F2 & F3 & F4).
  assert (I : forallb in60 tie_row = true /\ map of60 tie_row = map (fun z => z * 2 ^ 5)%Z [3602879701896397; 7205759403792794; 10808639105689192]%Z) by (vm_compute; auto).
  exists (map (fun z => IZR z / IZR (2 ^ 60)) (map of60 tie_row)). set (qs := map _ (map of60 tie_row)).
  destruct I as (I & J). rewrite forallb_forall in I.
  split; [first [exact H1|reflexivity]|]. split; [exact H2|]. split; [exact H3|]. split; [exact H4|].
  split; [unfold qs; rewrite !map_map; apply map_ext_in; intros x Hx; apply val60, I, Hx|].
  unfold qs. rewrite J. cbn [map]. clear qs. set (P := IZR (2 ^ 60)). assert (P0 : 0 < / P) by (apply Rinv_0_lt_compat, IZR_lt; reflexivity).
  split; [reflexivity|]. split; [|split; [|exact H5]].
  - intros x [<- |[<- |[<- |[]]]]; unfold Rdiv; apply Rmult_le_pos; try (left; exact P0); apply IZR_le; discriminate.
  - change (f_n near_tie) with 3%nat. change (f_means near_tie) with tie_means.
    intros K' N. unfold share. rewrite F4. destruct K'; [rewrite F1|rewrite F2|rewrite F3|congruence]; cbn [map nth Rsum fold_right]; unfold Rdiv; rewrite !mult_IZR; change (IZR (2 ^ 5)) with 32; set (e := / P) in *; clearbody e; lra.
Qed.

(** A cut of one half: five Gaussians, decided far from the margin. *)
Example ex_c83_number :
  let bs := map (fun z => IZR z) [9; 5; 3; 1; 2; 1; 1; 1; 1; 1; 1; 1; 1; 1]%Z in
  let bics : list F64 := map nofZ [9; 5; 3; 1; 2; 1; 1; 1; 1; 1; 1; 1; 1; 1]%Z in
  map (val (F64_rounded (seqsum 53 1024 p53 e1024))) bics = map XR bs /\ (forall b, In b bs -> Rabs b <= 9) /\
  val (F64_rounded (seqsum 53 1024 p53 e1024)) (nlit 1 2 : F64) = XR (1 / 2) /\
  (forall m, (2 <= m <= 15)%nat -> excess bs m <= 1 / 2 - 9 / IZR (2 ^ 47) \/ 1 / 2 + 9 / IZR (2 ^ 47) < excess bs m) /\
  smallest (fun m => (2 <= m <= 15)%nat /\ excess bs m <= 1 / 2) 5 /\ choose_number (nlit 1 2) bics = Ok 5%Z.
Proof.
  intros bs bics. split.
  { unfold bics, bs. rewrite !map_map. apply map_ext_in. intros z Hz. rewrite (val_ofZ (F64_rounded (seqsum 53 1024 p53 e1024))). apply (rnd_int (F64_rounded (seqsum 53 1024 p53 e1024))).
    cbn [In] in Hz. repeat (destruct Hz as [<- |Hz]; [vm_compute; discriminate|]). destruct Hz. }
  split. { intros b Hb. unfold bs in Hb. cbn [map In] in Hb. repeat (destruct Hb as [<- |Hb]; [apply Rabs_le; lra|]). destruct Hb. }
  split. { assert (I : in60 (nlit 1 2 : F64) = true /\ of60 (nlit 1 2 : F64) = (2 ^ 59)%Z) by (vm_compute; auto). destruct I as (I & J). rewrite (val60 _ _ I), J. f_equal.
    change (2 ^ 60)%Z with (2 * 2 ^ 59)%Z. rewrite mult_IZR. field. apply IZR_neq; discriminate. }
  assert (D : 0 <= 9 / IZR (2 ^ 47) <= 1 / 1000) by (change (2 ^ 47)%Z with 140737488355328%Z; lra). set (e := 9 / IZR (2 ^ 47)) in *. clearbody e.
  assert (X : forall m, (2 <= m <= 15)%nat -> excess bs m = nth (m - 2) bs 0 - 1) by (intros m _; unfold excess, bs; cbn [skipn map Rsum fold_right]; lra).
  split; [|split; [split|]].
  - intros m Hm. rewrite X by exact Hm. unfold bs. do 16 (destruct m as [|m]; [try lia; cbn; lra|]). lia.
  - split; [lia|]. rewrite X by lia. unfold bs. cbn. lra.
  - intros m (Hm & Em). rewrite X in Em by exact Hm. unfold bs in Em. do 5 (destruct m as [|m]; [try lia; cbn in Em; lra|]). lia.
  - vm_compute. reflexivity.
Qed.
