(** The histogram decompositions with other numbers of bins in floating point (C105). *)
From Verif Require Import Py Num RX F64 Np Df Data DataFacts DfFacts CenterFacts Ex Spec DataThms Circ CircFacts CircThms Base BaseFacts Threshold SpecHist Hist HistFacts HistThms EdgeFacts EdgeThms SpecMirror MirrorThms SpinAccThms SpecAlAcc AlAccFacts SpecSplit SplitThms SpecBins.
From Flocq Require Import Core.
From Coq Require Import Lra Lia Znumtheory Classical_Prop Floats.SpecFloat.
Local Open Scope R_scope.

(** *** The edges *)
Section Bins64.
Context (sm : list f64 -> f64).
Local Notation RN := (F64_rounded sm).
Local Notation v := (val (F64_rounded sm)).
Local Notation u := (/ IZR (2 ^ 53)).

Lemma u_small : 0 < u /\ u <= / 1000000000 /\ IZR (2 ^ 53) * tiny <= / 1000.
Proof.
  split; [apply Rinv_0_lt_compat, IZR_lt; reflexivity|]. split; [apply Rinv_le_contravar; [lra|apply IZR_le; lia]|].
  unfold tiny. change (IZR (2 ^ 53)) with (bpow radix2 53). rewrite <- bpow_plus. apply Rle_trans with (bpow radix2 (-10)); [apply bpow_le; lia|]. simpl. lra.
Qed.
Lemma tiny_pos : 0 < tiny <= / 1000.
Proof. split; [apply bpow_gt_0|]. apply Rle_trans with (bpow radix2 (-10)); [apply bpow_le; lia|]. simpl. lra. Qed.

Lemma near r q : Rabs r <= IZR (2 ^ 60) -> rnd RN (XR r) = XR q -> Rabs (q - r) <= u * (Rabs r + tiny).
Proof.
  intros H E. destruct (F64_graceful sm r) as (q' & E' & B).
  - apply Rle_trans with (1 := H). change (IZR (2 ^ 60)) with (bpow radix2 60). apply bpow_le. lia.
  - rewrite E in E'. now injection E' as <-.
Qed.

(** The points of [np.linspace] are accurate. *)
Lemma linspace_near (a b : F64s sm) d n i : (d = 1 \/ d = 2)%Z -> v a = XR (-1) -> v b = XR (IZR (d - 1)) -> (1 <= n)%nat -> (Z.of_nat n <= 2 ^ 53)%Z -> (i <= n)%nat ->
  exists f, v (nth i (linspace a b n) nnan) = XR f /\ -1 <= f <= 1 /\ Rabs (f - (-1 + IZR d * IZR (Z.of_nat i) / IZR (Z.of_nat n))) <= 8 * u /\
    (i = 0%nat \/ i = n -> f = -1 + IZR d * IZR (Z.of_nat i) / IZR (Z.of_nat n)).
Proof.
  intros Hd Ha Hb Hn Hn' Hi. destruct (linspace_val RN (grid_F64 sm) a b d n Hd Ha Hb Hn Hn') as (s & f & Es & Hf & F0 & Fn & _ & Ft).
  destruct (Hf i Hi) as (Vi & Bi). exists (f i). split; [exact Vi|].
  assert (D : 1 <= IZR d <= 2) by (split; apply IZR_le; lia). assert (D1 : IZR (d - 1) = IZR d - 1) by (rewrite minus_IZR; reflexivity).
  split; [lra|].
  set (N := IZR (Z.of_nat n)) in *. set (I := IZR (Z.of_nat i)) in *. assert (N1 : 1 <= N <= IZR (2 ^ 53)) by (unfold N; split; apply IZR_le; lia).
  assert (I1 : 0 <= I <= N) by (unfold I, N; split; apply IZR_le; lia).
  destruct u_small as (U0 & U1 & U2). pose proof tiny_pos as T.
  assert (Ni : 0 < / N <= 1) by (split; [apply Rinv_0_lt_compat; lra|rewrite <- Rinv_1; apply Rinv_le_contravar; lra]).
  assert (NN : N * / N = 1) by (field; lra).
  set (x := IZR d * I / N). assert (X : 0 <= x <= 2).
  { unfold x, Rdiv. split; [apply Rmult_le_pos; [apply Rmult_le_pos; lra|lra]|]. apply Rle_trans with ((2 * N) * / N); [|rewrite Rmult_assoc, NN; lra]. apply Rmult_le_compat_r; [lra|]. apply Rmult_le_compat; lra. }
  split.
  - destruct (Nat.eq_dec i n) as [->|Ne].
    { rewrite Fn, D1. replace (IZR d - 1 - (-1 + x)) with 0; [rewrite Rabs_R0; lra|]. unfold x, I. fold N. field. lra. }
    destruct (Ft i ltac:(lia)) as (t & Et & Ef). fold I in Et.
    assert (Big : 4 <= IZR (2 ^ 60)) by (apply IZR_le; lia).
    assert (S0 : 0 <= IZR d / N <= 2) by (unfold Rdiv; split; [apply Rmult_le_pos; lra|]; apply Rle_trans with (2 * 1); [apply Rmult_le_compat; lra|lra]).
    pose proof (near (IZR d / N) s ltac:(rewrite Rabs_pos_eq; lra) Es) as B1. rewrite (Rabs_pos_eq (IZR d / N)) in B1 by lra.
    assert (B2 : Rabs (I * s - x) <= u * (x + / 1000)).
    { replace (I * s - x) with (I * (s - IZR d / N)) by (unfold x; field; lra). rewrite Rabs_mult, (Rabs_pos_eq I) by lra.
      apply Rle_trans with (I * (u * (IZR d / N + tiny))); [apply Rmult_le_compat_l; lra|].
      replace (I * (u * (IZR d / N + tiny))) with (u * (x + I * tiny)) by (unfold x; field; lra). apply Rmult_le_compat_l; [lra|].
      assert (I * tiny <= IZR (2 ^ 53) * tiny) by (apply Rmult_le_compat_r; lra). lra. }
    assert (B2' : Rabs (I * s - x) <= / 1000) by (eapply Rle_trans; [exact B2|]; nra).
    assert (Y : -1 / 1000 <= I * s <= 2 + / 1000) by (apply Rabs_le_inv in B2'; lra).
    assert (Y' : Rabs (I * s) <= 3) by (apply Rabs_le; lra).
    pose proof (near (I * s) t ltac:(lra) Et) as B3.
    assert (B3' : Rabs (t - I * s) <= u * (3 + / 1000)) by (eapply Rle_trans; [exact B3|]; apply Rmult_le_compat_l; lra).
    assert (B3'' : Rabs (t - I * s) <= / 1000) by (eapply Rle_trans; [exact B3'|]; nra).
    assert (Y2 : Rabs (t + -1) <= 1 + / 100) by (apply Rabs_le_inv in B3''; apply Rabs_le; lra).
    pose proof (near (t + -1) (f i) ltac:(lra) Ef) as B4.
    assert (B4' : Rabs (f i - (t + -1)) <= u * (1 + / 50)) by (eapply Rle_trans; [exact B4|]; apply Rmult_le_compat_l; lra).
    replace (f i - (-1 + x)) with ((f i - (t + -1)) + ((t - I * s) + (I * s - x))) by ring.
    eapply Rle_trans; [apply Rabs_triang|]. eapply Rle_trans; [apply Rplus_le_compat_l, Rabs_triang|].
    assert (B2'' : Rabs (I * s - x) <= u * 3) by (eapply Rle_trans; [exact B2|]; apply Rmult_le_compat_l; lra). lra.
  - intros [-> | ->].
    + rewrite F0. unfold x, I. simpl. field. lra.
    + rewrite Fn, D1. unfold x, I. fold N. field. lra.
Qed.

(** Without ties the nearest decimal is far enough from the points halfway. *)
Lemma not_halfway n digits i k : (1 <= n)%Z -> (0 <= digits)%Z -> ~ (2 ^ (digits + 2) | n)%Z ->
  (2 * ((2 * i - n) * 10 ^ digits - k * n) <> n)%Z /\ (2 * ((2 * i - n) * 10 ^ digits - k * n) <> - n)%Z.
Proof.
  intros Hn Hd Ht.
  assert (K : forall m, Z.Odd m -> (n * m = 4 * i * 10 ^ digits)%Z -> False).
  { intros m Om E. apply Ht. apply Gauss with m.
    - exists (5 ^ digits * i)%Z. rewrite Z.mul_comm, E. change 10%Z with (2 * 5)%Z. rewrite Z.pow_mul_l, Z.pow_add_r by lia. change (2 ^ 2)%Z with 4%Z. ring.
    - apply rel_prime_sym. apply rel_prime_sym. assert (R2 : rel_prime m 2). { apply rel_prime_sym. apply prime_rel_prime; [apply prime_2|]. intros D. destruct Om as (q & ->). destruct D as (w & W). lia. }
      apply rel_prime_sym. assert (Q : forall e, (0 <= e)%Z -> rel_prime m (2 ^ e)).
      { intros e He. pattern e. apply natlike_ind; [|intros x Hx IH|exact He]; [rewrite Z.pow_0_r; apply rel_prime_sym, rel_prime_1|]. rewrite Z.pow_succ_r by exact Hx. now apply rel_prime_mult. }
      apply Q. lia. }
  split; intros E.
  - apply (K (2 * (10 ^ digits + k) + 1)%Z); [eexists; reflexivity|]. lia.
  - apply (K (2 * (10 ^ digits + k - 1) + 1)%Z); [eexists; reflexivity|]. lia.
Qed.

Lemma edges_val n digits i : (1 <= n)%Z -> no_ties n digits -> (0 <= i <= n)%Z ->
  v (nth (Z.to_nat i) (map (np_round digits) (linspace (nm1 : F64s sm) n1 (Z.to_nat n))) nnan) = rnd RN (XR (decimal_edge n digits i)).
Proof.
  intros Hn (Hd & Hb & Ht) Hi. set (Z := (10 ^ digits)%Z) in *. assert (Z1 : (1 <= Z)%Z) by (assert (0 < Z)%Z by (apply Z.pow_pos_nonneg; lia); lia).
  assert (Hd' : (digits <= 15)%Z).
  { destruct (Z_le_gt_dec digits 15) as [L|L]; [exact L|]. exfalso. assert (10 ^ 15 <= Z)%Z by (apply Z.pow_le_mono_r; lia). assert (2 ^ 48 < 10 ^ 15)%Z by reflexivity. nia. }
  assert (Ln : (Z.of_nat (Z.to_nat n) <= 2 ^ 53)%Z) by (assert (2 ^ 48 <= 2 ^ 53)%Z by (vm_compute; discriminate); nia).
  destruct (linspace_near nm1 n1 2 (Z.to_nat n) (Z.to_nat i) (or_intror eq_refl) (val_nm1 RN) (val_n1 RN) ltac:(lia) Ln ltac:(lia)) as (f & Vf & Bf & Df & _).
  rewrite !Z2Nat.id in Df by lia. rewrite nth_map_in with (a := nnan) by (rewrite linspace_length; lia).
  assert (P10 : v (pow10 (Z.to_nat digits)) = XR (IZR Z)) by (rewrite (pow10_exact RN (grid_F64 sm)) by lia; now rewrite Z2Nat.id by lia).
  destruct (np_round_val RN (grid_F64 sm) digits Z (nth (Z.to_nat i) (linspace (nm1 : F64s sm) n1 (Z.to_nat n)) nnan) f Hd ltac:(lia) P10 Vf Bf) as (t & q & Et & Eq & Vq & _).
  rewrite Vq, <- Eq. do 2 f_equal. unfold decimal_edge. fold Z. do 2 f_equal.
  set (r := (-1 + 2 * IZR i / IZR n) * IZR Z). set (k := ZnearestE r). apply Znearest_imp.
  assert (N1 : 1 <= IZR n) by (apply IZR_le; lia). assert (Z1' : 1 <= IZR Z) by (apply IZR_le; lia).
  assert (NZ : IZR n * IZR Z <= 281474976710656) by (rewrite <- mult_IZR; apply IZR_le; exact Hb).
  destruct (not_halfway n digits i k Hn Hd Ht) as (A1 & A2). fold Z in A1, A2.
  set (p := (2 * ((2 * i - n) * Z - k * n))%Z) in *.
  assert (Ep : r - IZR k = IZR p / (2 * IZR n)) by (unfold r, p; rewrite mult_IZR, minus_IZR, !mult_IZR, minus_IZR, mult_IZR; field; lra).
  assert (Hk : Rabs (r - IZR k) <= / 2) by apply Znearest_half.
  assert (Bp : (Z.abs p <= n)%Z).
  { apply le_IZR. rewrite abs_IZR. rewrite Ep in Hk. unfold Rdiv in Hk. rewrite Rabs_mult, (Rabs_pos_eq (/ _)) in Hk by (apply Rlt_le, Rinv_0_lt_compat; lra).
    apply (Rmult_le_compat_r (2 * IZR n)) in Hk; [|lra]. rewrite Rmult_assoc, Rinv_l in Hk by lra. lra. }
  assert (Bp' : (Z.abs p <= n - 1)%Z) by lia.
  assert (Hk' : Rabs (r - IZR k) <= / 2 - / (2 * IZR n)).
  { rewrite Ep. unfold Rdiv. rewrite Rabs_mult, (Rabs_pos_eq (/ _)) by (apply Rlt_le, Rinv_0_lt_compat; lra).
    apply IZR_le in Bp'. rewrite abs_IZR, minus_IZR in Bp'. apply Rle_trans with ((IZR n - 1) * / (2 * IZR n)); [apply Rmult_le_compat_r; [apply Rlt_le, Rinv_0_lt_compat; lra|lra]|].
    apply Req_le. field. lra. }
  destruct u_small as (U0 & U1 & _). pose proof tiny_pos as T.
  assert (Zb : IZR Z <= 1000000000000000) by (apply IZR_le; apply Z.le_trans with (10 ^ 15)%Z; [apply Z.pow_le_mono_r; lia|reflexivity || (vm_compute; discriminate)]).
  assert (Bt : Rabs (t - r) <= 10 * u * IZR Z).
  { assert (Bf' : Rabs (f * IZR Z) <= IZR Z) by (rewrite Rabs_mult, (Rabs_pos_eq (IZR Z)) by lra; assert (Rabs f <= 1) by (apply Rabs_le; lra); nra).
    assert (C : 1000000000000000 <= IZR (2 ^ 60)) by (apply IZR_le; vm_compute; discriminate).
    pose proof (near (f * IZR Z) t ltac:(lra) Et) as B1.
    replace (t - r) with ((t - f * IZR Z) + (f - (-1 + 2 * IZR i / IZR n)) * IZR Z) by (unfold r; ring).
    eapply Rle_trans; [apply Rabs_triang|]. rewrite (Rabs_mult (f - _)), (Rabs_pos_eq (IZR Z)) by lra.
    assert (B2 : Rabs (f - (-1 + 2 * IZR i / IZR n)) * IZR Z <= 8 * u * IZR Z) by (apply Rmult_le_compat_r; lra).
    assert (B3 : u * (Rabs (f * IZR Z) + tiny) <= u * (2 * IZR Z)) by (apply Rmult_le_compat_l; lra). lra. }
  replace (t - IZR k) with ((t - r) + (r - IZR k)) by ring. eapply Rle_lt_trans; [apply Rabs_triang|].
  assert (Q : 10 * u * IZR Z < / (2 * IZR n)); [|lra].
  apply (Rmult_lt_reg_r (2 * IZR n)); [lra|]. rewrite Rinv_l by lra. replace (10 * u * IZR Z * (2 * IZR n)) with (20 * u * (IZR n * IZR Z)) by ring.
  apply Rle_lt_trans with (20 * u * 281474976710656); [apply Rmult_le_compat_l; lra|]. change (IZR (2 ^ 53)) with 9007199254740992. lra.
Qed.

Lemma edges_RX n digits i : (1 <= n)%Z -> (0 <= digits)%Z -> (0 <= i <= n)%Z ->
  nth (Z.to_nat i) (map (np_round digits) (linspace (nm1 : RX) n1 (Z.to_nat n))) nnan = XR (decimal_edge n digits i).
Proof. intros Hn Hd Hi. rewrite edge_RX by (auto; lia). now rewrite !Z2Nat.id by lia. Qed.

(** An edge is computed as zero exactly if it is. *)
Lemma edge_zero n digits i : (1 <= n)%Z -> no_ties n digits -> (0 <= i <= n)%Z -> (rnd RN (XR (decimal_edge n digits i)) = XR 0 <-> decimal_edge n digits i = 0).
Proof.
  intros Hn (Hd & Hb & _) Hi. split; [|intros ->; apply (rnd_int RN 0); vm_compute; discriminate].
  unfold decimal_edge. set (k := ZnearestE _). set (Z := (10 ^ digits)%Z) in *. assert (Z1 : (1 <= Z)%Z) by (assert (0 < Z)%Z by (apply Z.pow_pos_nonneg; lia); lia).
  assert (Z1' : 1 <= IZR Z) by (apply IZR_le; lia). assert (ZB : IZR Z <= 281474976710656) by (apply IZR_le; nia).
  intros E. destruct (Z.eq_dec k 0) as [->|K0]; [unfold Rdiv; ring|exfalso].
  assert (K1 : 1 <= Rabs (IZR k)) by (rewrite <- abs_IZR; apply IZR_le; lia). set (x := IZR k / IZR Z) in *.
  assert (X1 : / 281474976710656 <= Rabs x).
  { unfold x, Rdiv. rewrite Rabs_mult, (Rabs_pos_eq (/ _)) by (apply Rlt_le, Rinv_0_lt_compat; lra). assert (/ 281474976710656 <= / IZR Z) by (apply Rinv_le_contravar; lra).
    assert (0 < / IZR Z) by (apply Rinv_0_lt_compat; lra). nra. }
  destruct u_small as (U0 & U1 & U2). pose proof tiny_pos as T.
  assert (T2 : tiny <= / 281474976710656 * / 1000) by (change (IZR (2 ^ 53)) with 9007199254740992 in U2; lra).
  assert (G : Rabs x <= huge).
  { assert (ND : Rabs x <= 1 + 1); [|apply Rle_trans with (1 := ND); unfold huge; apply Rle_trans with (bpow radix2 1); [simpl; lra|apply bpow_le; lia]].
    unfold x, Rdiv. rewrite Rabs_mult, (Rabs_pos_eq (/ _)) by (apply Rlt_le, Rinv_0_lt_compat; lra).
    assert (KB : Rabs (IZR k) <= IZR Z + 1).
    { pose proof (Znearest_half (fun x => negb (Z.even x)) ((-1 + 2 * IZR i / IZR n) * IZR Z)) as H. fold k in H.
      assert (0 <= IZR i / IZR n <= 1). { assert (0 < IZR n) by (apply IZR_lt; lia). assert (0 <= IZR i <= IZR n) by (split; apply IZR_le; lia). assert (0 < / IZR n) by (apply Rinv_0_lt_compat; lra). assert (IZR n * / IZR n = 1) by (field; lra). unfold Rdiv. nra. }
      apply Rabs_le_inv in H. apply Rabs_le. unfold Rdiv in *. nra. }
    assert (0 < / IZR Z <= 1) by (split; [apply Rinv_0_lt_compat; lra|rewrite <- Rinv_1; apply Rinv_le_contravar; lra]). assert (IZR Z * / IZR Z = 1) by (field; lra). nra. }
  destruct (F64_graceful sm x G) as (q & Eq & B). rewrite E in Eq. injection Eq as <-. replace (0 - x) with (- x) in B by ring. rewrite Rabs_Ropp in B.
  assert (u * (Rabs x + tiny) <= / 1000000000 * (Rabs x + tiny)) by (apply Rmult_le_compat_r; lra). lra.
Qed.

Lemma same_zero n digits b : (1 <= n)%Z -> no_ties n digits ->
  (zero_edge (map (np_round digits) (linspace (nm1 : F64s sm) n1 (Z.to_nat n))) b <-> zero_edge (map (np_round digits) (linspace (nm1 : RX) n1 (Z.to_nat n))) b).
Proof.
  intros Hn Ht. set (e1 := map _ _). set (e2 := map _ (linspace (N:=RX) _ _ _)).
  assert (L1 : length e1 = S (Z.to_nat n)) by (unfold e1; now rewrite map_length, linspace_length). assert (L2 : length e2 = S (Z.to_nat n)) by (unfold e2; now rewrite map_length, linspace_length).
  assert (K : forall i, (i <= Z.to_nat n)%nat -> neqb (nth i e1 nnan) n0 = neqb (nth i e2 nnan) n0).
  { intros i Hi. assert (Q : (neqb (nth i e1 nnan) n0 = true <-> neqb (nth i e2 nnan) n0 = true)).
    { pose proof (edges_val n digits (Z.of_nat i) Hn Ht ltac:(lia)) as V. pose proof (edges_RX n digits (Z.of_nat i) Hn (proj1 Ht) ltac:(lia)) as W. rewrite Nat2Z.id in V, W. fold e1 in V. fold e2 in W.
      rewrite (neqb_iff RN), W, V, (val_n0 RN). change (n0 (N:=RX)) with (XR 0). rewrite neqbRX, <- (edge_zero n digits (Z.of_nat i) Hn Ht ltac:(lia)).
      split; [now intros (-> & _)|]. intros ->. split; [reflexivity|discriminate]. }
    destruct (neqb (nth i e1 nnan) n0), (neqb (nth i e2 nnan) n0); try reflexivity; [symmetry|]; apply Q; reflexivity. }
  unfold zero_edge. rewrite L1, L2. split; intros (A & B & C); (split; [exact A|]); (split; [rewrite <- B; first [apply K|symmetry; apply K]; lia|]); intros i Hi; rewrite <- (C i Hi); first [apply K|symmetry; apply K]; lia.
Qed.

Lemma alike_decimals n digits (x : F64s sm) : (1 <= n)%Z -> no_ties n digits -> off_decimals sm n digits (v x) ->
  alike (map (np_round digits) (linspace (nm1 : F64s sm) n1 (Z.to_nat n))) (map (np_round digits) (linspace (nm1 : RX) n1 (Z.to_nat n))) (Z.to_nat n) x (v x : RX).
Proof.
  intros Hn Ht Ho i Hi. pose proof (edges_val n digits (Z.of_nat i) Hn Ht ltac:(lia)) as V. pose proof (edges_RX n digits (Z.of_nat i) Hn (proj1 Ht) ltac:(lia)) as W. rewrite Nat2Z.id in V, W. rewrite W.
  apply cmp_rounded; [exact V|]. rewrite V. specialize (Ho (Z.of_nat i) ltac:(lia)). cbv zeta in Ho. set (t := XR _) in *.
  destruct (classic (rnd RN t = t)) as [E|E]; [now right|left; now apply Ho].
Qed.

Lemma alike_parts n (x : F64s sm) : (n <= 2 ^ 53)%Z -> off_parts n (v x) -> alike (linspace nm1 n0 (Z.to_nat n)) (linspace (N:=RX) nm1 n0 (Z.to_nat n)) (Z.to_nat n) x (v x : RX).
Proof.
  intros Hn Ho i Hi. destruct (Z_lt_le_dec n 1) as [L|L].
  { replace (Z.to_nat n) with 0%nat in * by lia. replace i with 0%nat by lia. change (nth 0 (linspace (N:=RX) nm1 n0 0) nnan) with (XR 0).
    change (nth 0 (linspace nm1 n0 0) nnan) with (n0 : F64s sm). assert (E : rnd RN (XR 0) = XR 0) by (apply (rnd_int RN 0); vm_compute; discriminate).
    apply cmp_rounded; rewrite (val_n0 RN); [now symmetry|now right]. }
  destruct (linspace_near nm1 n0 1 (Z.to_nat n) i (or_introl eq_refl) (val_nm1 RN) (val_n0 RN) ltac:(lia) ltac:(lia) Hi) as (f & Vf & _ & Df & Ef).
  rewrite Z2Nat.id in Df, Ef by lia. change (@nm1 RX) with (XR (IZR (-1))). change (@n0 RX) with (XR 0). rewrite linspaceR by lia. rewrite Z2Nat.id by lia.
  assert (N1 : 1 <= IZR n) by (apply IZR_le; lia).
  set (t := IZR (Z.of_nat i) * ((0 - IZR (-1)) / IZR n) + IZR (-1)). replace (-1 + 1 * IZR (Z.of_nat i) / IZR n) with t in Df, Ef by (unfold t; field; lra).
  assert (Dec : forall r, v x = XR r -> f = t \/ / IZR (2 ^ 50) < Rabs (r - t)).
  { intros r Er. destruct (Nat.eq_dec i 0); [left; auto|]. destruct (Nat.eq_dec i (Z.to_nat n)); [left; auto|]. right. replace t with (IZR (Z.of_nat i) / IZR n - 1) by (unfold t; field; lra). apply (Ho r); [exact Er|lia]. }
  assert (B : forall a b : bool, (a = true <-> b = true) -> a = b) by (intros [|] [|] Q; try reflexivity; [symmetry|]; apply Q; reflexivity).
  assert (C : forall r, v x = XR r -> (f <= r <-> t <= r) /\ (r < f <-> r < t) /\ (r <= f <-> r <= t)).
  { intros r Er. destruct (Dec r Er) as [-> |F]; [tauto|]. apply Rabs_le_inv in Df. assert (8 * u = / IZR (2 ^ 50)) by (change (IZR (2 ^ 53)) with 9007199254740992; change (IZR (2 ^ 50)) with 1125899906842624; lra).
    destruct (Rle_or_lt 0 (r - t)) as [Q|Q]; [rewrite Rabs_pos_eq in F by exact Q|rewrite Rabs_left in F by exact Q]; repeat split; intros; lra. }
  repeat split; apply B.
  - rewrite (nle_iff RN), (nle_iff RX_rounded), Vf. change (val RX_rounded (XR t)) with (XR t). change (val RX_rounded (v x)) with (v x).
    destruct (v x) as [r| | |] eqn:Ex; cbn [xle]; try tauto. apply (C r eq_refl).
  - rewrite (nlt_iff RN), (nlt_iff RX_rounded), Vf. change (val RX_rounded (XR t)) with (XR t). change (val RX_rounded (v x)) with (v x).
    destruct (v x) as [r| | |] eqn:Ex; cbn [xlt]; try tauto. apply (C r eq_refl).
  - rewrite (nle_iff RN), (nle_iff RX_rounded), Vf. change (val RX_rounded (XR t)) with (XR t). change (val RX_rounded (v x)) with (v x).
    destruct (v x) as [r| | |] eqn:Ex; cbn [xle]; try tauto. apply (C r eq_refl).
Qed.

Context {St : Type}.
Lemma split_bins p1 p2 junk n digits (st : St) (eps : list (F64s sm)) : no_ties n digits ->
  (forall st cnt cor, p1 st cnt cor = p2 st cnt cor) -> (forall x, In x eps -> off_decimals sm n digits (v x)) ->
  hist_split p1 junk n digits st eps = hist_split (N:=RX) p2 junk n digits st (map (fun x => v x : RX) eps).
Proof.
  intros Ht Hp Ho. destruct (make_histogram_iff (N:=F64s sm) eps n digits) as (A1 & B1). destruct (make_histogram_iff (N:=RX) (map (fun x => v x : RX) eps) n digits) as (A2 & B2).
  destruct (Z_lt_le_dec n 1) as [L|L]; [unfold hist_split; now rewrite A1, A2|].
  destruct (B1 L) as (C1 & D1), (B2 L) as (C2 & D2). unfold round_edges in *.
  pose proof (zero_edge_where (N:=RX) (map (np_round digits) (linspace nm1 n1 (Z.to_nat n)))) as W.
  destruct (where_ _) as [|b l].
  - unfold hist_split. rewrite D1, D2; [reflexivity|exact W|]. intros b Hb. apply (same_zero n digits b L Ht) in Hb. exact (W b Hb).
  - eapply split_same; [exact L|exact Hp|apply C1; apply same_zero; eauto|apply C2; exact W|now rewrite !map_length, !linspace_length|].
    apply forall2_map. intros x I. apply alike_decimals; auto.
Qed.
End Bins64.

(** *** The properties *)

(** The computed edges are the exact ones, each rounded once. *)
Lemma c105_edges : forall sm n_bin digits i, (1 <= n_bin)%Z -> no_ties n_bin digits -> (0 <= i <= n_bin)%Z ->
  val (F64_rounded sm) (nth (Z.to_nat i) (map (np_round digits) (linspace (nm1 : F64s sm) n1 (Z.to_nat n_bin))) nnan) =
  rnd (F64_rounded sm) (XR (decimal_edge n_bin digits i)).
Proof. exact edges_val. Qed.

(** JHistogram: labels, generator and errors are those of exact arithmetic on the same circularities. *)
Lemma c105_jhistogram : forall (sm : list f64 -> f64) (St : Type) choice junk cb cb' n_bin digits (st : St) (X : matrix (F64s sm)) y y' a a',
  no_ties n_bin digits ->
  (forall row, In row X -> exists x, nth_error row 0 = Some (CNum x) /\ off_decimals sm n_bin digits (val (F64_rounded sm) x)) ->
  outcome (d_split (jhistogram choice junk cb n_bin digits) st X y a) =
  outcome (d_split (jhistogram (N:=RX) choice junk cb' n_bin digits) st (exact_matrix X) y' a').
Proof.
  intros sm St choice junk cb cb' n digits st X y y' a a' Ht H. cbn [d_split jhistogram].
  rewrite (col_exact sm 0 X) by (intros row c I E; destruct (H row I) as (x & Ex & _); exists x; congruence).
  rewrite <- (split_bins sm (pick_any choice) (pick_any choice) junk n digits st (matrix_col 0 X) Ht ltac:(reflexivity)).
  - destruct (hist_split _ _ _ _ _ _); reflexivity.
  - intros x I. unfold matrix_col in I. apply in_map_iff in I as (row & <- & I). destruct (H row I) as (x & Ex & Ox). rewrite (nth_error_nth _ _ _ Ex). exact Ox.
Qed.

(** JEHistogram: the same with any number of energy bins. *)
Lemma c105_jehistogram : forall (sm : list f64 -> f64) (St : Type) choice junk cb cb' n_bin digits n_bin_E (st : St) (X : matrix (F64s sm)) y y' a a',
  no_ties n_bin digits -> (n_bin_E <= 2 ^ 53)%Z ->
  (forall row, In row X -> exists en x, nth_error row 0 = Some (CNum en) /\ nth_error row 1 = Some (CNum x) /\
     off_parts n_bin_E (val (F64_rounded sm) en) /\ off_decimals sm n_bin digits (val (F64_rounded sm) x)) ->
  outcome (d_split (jehistogram choice junk cb n_bin digits n_bin_E) st X y a) =
  outcome (d_split (jehistogram (N:=RX) choice junk cb' n_bin digits n_bin_E) st (exact_matrix X) y' a').
Proof.
  intros sm St choice junk cb cb' n digits ne st X y y' a a' Ht He H. cbn [d_split jehistogram].
  rewrite (col_exact sm 0 X) by (intros row c I E; destruct (H row I) as (en & x & Ee & Ex & _); exists en; congruence).
  rewrite (col_exact sm 1 X) by (intros row c I E; destruct (H row I) as (en & x & Ee & Ex & _); exists x; congruence).
  rewrite <- (split_bins sm (pick_energy choice (matrix_col 0 X) ne) (pick_energy choice (map (fun x => val (F64_rounded sm) x : RX) (matrix_col 0 X)) ne) junk n digits st (matrix_col 1 X) Ht).
  - destruct (hist_split _ _ _ _ _ _); reflexivity.
  - intros s cnt cor. apply pick_same. apply forall2_map. intros x I. apply alike_parts; [exact He|]. unfold matrix_col in I. apply in_map_iff in I as (row & <- & I). destruct (H row I) as (en & x & Ee & _ & Oe & _). rewrite (nth_error_nth _ _ _ Ee). exact Oe.
  - intros x I. unfold matrix_col in I. apply in_map_iff in I as (row & <- & I). destruct (H row I) as (en & x & _ & Ex & _ & Ox). rewrite (nth_error_nth _ _ _ Ex). exact Ox.
Qed.

(** Different decimals are rounded to different doubles. *)
Lemma decimals_apart sm z a b : (1 <= z <= 2 ^ 48)%Z -> (Z.abs a <= z)%Z -> (Z.abs b <= z)%Z ->
  rnd (F64_rounded sm) (XR (IZR a / IZR z)) = rnd (F64_rounded sm) (XR (IZR b / IZR z)) -> a = b.
Proof.
  intros Hz Ha Hb E. assert (Z1 : 1 <= IZR z <= 281474976710656) by (split; [apply IZR_le; lia|apply (IZR_le z (2 ^ 48)); lia]).
  destruct u_small as (U0 & U1 & U2). pose proof tiny_pos as T. assert (Zi : 0 < / IZR z <= 1) by (split; [apply Rinv_0_lt_compat; lra|rewrite <- Rinv_1; apply Rinv_le_contravar; lra]).
  assert (ZZ : IZR z * / IZR z = 1) by (field; lra).
  assert (K : forall c, (Z.abs c <= z)%Z -> exists q, rnd (F64_rounded sm) (XR (IZR c / IZR z)) = XR q /\ Rabs (q - IZR c / IZR z) <= / IZR (2 ^ 53) * (1 + / 1000)).
  { intros c Hc. apply IZR_le in Hc. rewrite abs_IZR in Hc.
    assert (B : Rabs (IZR c / IZR z) <= 1). { unfold Rdiv. rewrite Rabs_mult, (Rabs_pos_eq (/ _)) by lra. apply Rle_trans with (IZR z * / IZR z); [apply Rmult_le_compat_r; lra|lra]. }
    destruct (F64_graceful sm (IZR c / IZR z)) as (q & Eq & D); [apply Rle_trans with (1 := B); unfold huge; apply Rle_trans with (bpow radix2 0); [simpl; lra|apply bpow_le; lia]|].
    exists q. split; [exact Eq|]. eapply Rle_trans; [exact D|]. apply Rmult_le_compat_l; lra. }
  destruct (K a Ha) as (q & Ea & Da), (K b Hb) as (q' & Eb & Db). rewrite Ea, Eb in E. injection E as <-.
  assert (D : Rabs (IZR a / IZR z - IZR b / IZR z) <= / IZR (2 ^ 53) * 3).
  { replace (IZR a / IZR z - IZR b / IZR z) with ((q - IZR b / IZR z) - (q - IZR a / IZR z)) by ring. eapply Rle_trans; [apply Rabs_triang|]. rewrite Rabs_Ropp. lra. }
  replace (IZR a / IZR z - IZR b / IZR z) with (IZR (a - b) * / IZR z) in D by (rewrite minus_IZR; unfold Rdiv; ring).
  rewrite Rabs_mult, (Rabs_pos_eq (/ _)), <- abs_IZR in D by lra.
  destruct (Z.eq_dec (a - b) 0) as [L|L]; [lia|exfalso]. assert (L1 : 1 <= IZR (Z.abs (a - b))) by (apply IZR_le; lia).
  assert (L2 : / 281474976710656 <= / IZR z) by (apply Rinv_le_contravar; lra). change (IZR (2 ^ 53)) with 9007199254740992 in D. nra.
Qed.

(** Under these conditions the paired bins mirror each other in floating point exactly when they do in exact
    arithmetic (C78). *)
Lemma c105_mirror : forall sm n_bin digits bin0, (1 <= n_bin)%Z -> no_ties n_bin digits ->
  let edges := map (np_round (N:=F64s sm) digits) (linspace nm1 n1 (Z.to_nat n_bin)) in
  zero_edge edges bin0 ->
  (reflects edges bin0 <-> Z.Even n_bin /\ (n_bin < 4 * 10 ^ digits)%Z) /\
  (reflects edges bin0 -> n_bin = (2 * Z.of_nat bin0)%Z).
Proof.
  intros sm n digits bin0 Hn Ht edges Hz. pose proof Hz as Hz2. apply (same_zero sm n digits bin0 Hn Ht) in Hz2.
  destruct (c78_exact n digits bin0 Hn (proj1 Ht) Hz2) as (A & B). set (ex := map (np_round (N:=RX) digits) _) in *.
  assert (L1 : length edges = S (Z.to_nat n)) by (unfold edges; now rewrite map_length, linspace_length). assert (L2 : length ex = S (Z.to_nat n)) by (unfold ex; now rewrite map_length, linspace_length).
  assert (E : reflects edges bin0 <-> reflects ex bin0); [|rewrite E; exact (conj A B)].
  assert (K : forall j k, (j <= Z.to_nat n)%nat -> (k <= Z.to_nat n)%nat -> (neqb (nth j edges nnan) (nopp (nth k edges nnan)) = true <-> neqb (nth j ex nnan) (nopp (nth k ex nnan)) = true)).
  { intros j k Hj Hk. pose proof (edges_val sm n digits (Z.of_nat j) Hn Ht ltac:(lia)) as Vj. pose proof (edges_val sm n digits (Z.of_nat k) Hn Ht ltac:(lia)) as Vk.
    pose proof (edges_RX n digits (Z.of_nat j) Hn (proj1 Ht) ltac:(lia)) as Wj. pose proof (edges_RX n digits (Z.of_nat k) Hn (proj1 Ht) ltac:(lia)) as Wk.
    rewrite Nat2Z.id in Vj, Vk, Wj, Wk. fold edges in Vj, Vk. fold ex in Wj, Wk.
    rewrite (neqb_iff (F64_rounded sm)), (val_opp (F64_rounded sm)), Vj, Vk, Wj, Wk, <- (rnd_opp (F64_rounded sm)).
    change (nopp (N:=RX) (XR (decimal_edge n digits (Z.of_nat k)))) with (XR (- decimal_edge n digits (Z.of_nat k))). rewrite neqbRX. cbn [xopp].
    destruct Ht as (Hd & Hb & _). set (z := (10 ^ digits)%Z) in *. assert (Z1 : (1 <= z)%Z) by (assert (0 < z)%Z by (apply Z.pow_pos_nonneg; lia); lia).
    assert (Z2 : (z <= 2 ^ 48)%Z) by nia. assert (Zr : 1 <= IZR z) by (apply IZR_le; lia).
    assert (KB : forall i, (i <= Z.to_nat n)%nat -> (Z.abs (ZnearestE ((-1 + 2 * IZR (Z.of_nat i) / IZR n) * IZR z)) <= z)%Z).
    { intros i Hi. assert (N0 : 0 < IZR n) by (apply IZR_lt; lia). assert (I0 : 0 <= IZR (Z.of_nat i) <= IZR n) by (split; apply IZR_le; lia).
      assert (0 < / IZR n) by (apply Rinv_0_lt_compat; lra). assert (IZR n * / IZR n = 1) by (field; lra).
      assert (X : 0 <= IZR (Z.of_nat i) * / IZR n <= 1) by nra.
      set (r := _ * IZR z). assert (R : IZR (- z) <= r <= IZR z) by (unfold r, Rdiv; rewrite opp_IZR; nra).
      assert (M1 : (ZnearestE (IZR (- z)) <= ZnearestE r)%Z) by (apply valid_rnd_N; lra). assert (M2 : (ZnearestE r <= ZnearestE (IZR z))%Z) by (apply valid_rnd_N; lra).
      rewrite Zrnd_IZR in M1, M2 by apply valid_rnd_N. lia. }
    unfold decimal_edge. fold z. set (a := ZnearestE _). set (b := ZnearestE ((-1 + 2 * IZR (Z.of_nat k) / IZR n) * IZR z)).
    assert (Ha : (Z.abs a <= z)%Z) by (apply KB; exact Hj). assert (Hb' : (Z.abs b <= z)%Z) by (apply KB; exact Hk).
    replace (- (IZR b / IZR z)) with (IZR (- b) / IZR z) by (rewrite opp_IZR; unfold Rdiv; ring). split.
    - intros (Q & _). apply decimals_apart in Q; [|lia|exact Ha|lia]. now rewrite Q.
    - intros ->. split; [reflexivity|]. intros Q. apply (rnd_not_nan (F64_rounded sm)) in Q. discriminate Q. }
  unfold reflects. rewrite L1, L2. split; intros H k H1 H2 H3; apply K; try lia; apply H; lia.
Qed.

(** *** Examples *)
Definition apart sm (edges : list (F64s sm)) (x : F64s sm) : bool := forallb (fun e => negb (neqb x e)) edges.
Lemma apart_spec sm n digits (x : F64s sm) : (1 <= n)%Z -> no_ties n digits ->
  apart sm (map (np_round digits) (linspace (nm1 : F64s sm) n1 (Z.to_nat n))) x = true -> off_decimals sm n digits (val (F64_rounded sm) x).
Proof.
  intros Hn Ht H i Hi t _ E. unfold apart in H. rewrite forallb_forall in H. pose proof (edges_val sm n digits i Hn Ht Hi) as V.
  set (l := map _ _) in *. assert (L : length l = S (Z.to_nat n)) by (unfold l; now rewrite map_length, linspace_length).
  specialize (H (nth (Z.to_nat i) l nnan) ltac:(apply nth_In; lia)). apply negb_true_iff in H.
  assert (Q : neqb x (nth (Z.to_nat i) l nnan) = true); [|congruence]. apply (neqb_iff (F64_rounded sm)). rewrite V. split; [exact E|]. rewrite E.
  intros B. apply (rnd_not_nan (F64_rounded sm)) in B. discriminate B.
Qed.
Lemma exB_ties : no_ties 30 2 /\ no_ties 7 2.
Proof. split; (split; [lia|]; split; [vm_compute; discriminate|]; intros (w & E); change (2 ^ (2 + 2))%Z with 16%Z in E; lia). Qed.

(** Thirty bins, whose edges -0.93, -0.87, -0.8, ... are rounded points: of the circularities 0.05, 0.05, 0.1, -0.05, 0.95 and
    -0.95 one of the first two is drawn into the spheroid, in floating point and in exact arithmetic.  Seven bins have no zero edge. *)
Example ex_c105 : let sm := seqsum 53 1024 p53 e1024 in
  no_ties 30 2 /\ no_ties 7 2 /\
  (forall row, In row (hundredths [5; 5; 10; -5; 95; -95]%Z) -> exists x, nth_error row 0 = Some (CNum x) /\
     off_decimals sm 30 2 (val (F64_rounded sm) x) /\ off_decimals sm 7 2 (val (F64_rounded sm) x)) /\
  outcome (d_split (jhistogram (N:=RX) firsts (fun _ => 7%Z) (XR 0, XR 0) 30 2) 0%nat (exact_matrix (hundredths [5; 5; 10; -5; 95; -95]%Z)) [] []) = Ok ([0; 1; 1; 0; 0; 0]%Z, 2%nat) /\
  outcome (d_split (jhistogram (N:=RX) firsts (fun _ => 7%Z) (XR 0, XR 0) 7 2) 0%nat (exact_matrix (hundredths [5; 5; 10; -5; 95; -95]%Z)) [] []) = Raise IndexError.
Proof.
  cbv zeta. set (sm := seqsum 53 1024 p53 e1024). destruct exB_ties as (T1 & T2).
  assert (O : forall row, In row (hundredths [5; 5; 10; -5; 95; -95]%Z) -> exists x, nth_error row 0 = Some (CNum x) /\
     off_decimals sm 30 2 (val (F64_rounded sm) x) /\ off_decimals sm 7 2 (val (F64_rounded sm) x)).
  { intros row I. apply in_map_iff in I as (z & <- & I). exists (nlit z 100). split; [reflexivity|].
    assert (B : forallb (fun z => apart sm (edges64 sm 30 2) (nlit z 100) && apart sm (edges64 sm 7 2) (nlit z 100))%bool [5; 5; 10; -5; 95; -95]%Z = true) by (vm_compute; reflexivity).
    rewrite forallb_forall in B. apply B, andb_prop in I as (I1 & I2). split; apply apart_spec; auto; lia. }
  split; [exact T1|]. split; [exact T2|]. split; [exact O|]. split.
  - rewrite <- (c105_jhistogram sm nat firsts (fun _ => 7%Z) (n0, n0) (XR 0, XR 0) 30 2 0%nat (hundredths [5; 5; 10; -5; 95; -95]%Z) [] [] [] [] T1); [vm_compute; reflexivity|].
    intros row I. destruct (O row I) as (x & A & B & _). eauto.
  - rewrite <- (c105_jhistogram sm nat firsts (fun _ => 7%Z) (n0, n0) (XR 0, XR 0) 7 2 0%nat (hundredths [5; 5; 10; -5; 95; -95]%Z) [] [] [] [] T2); [vm_compute; reflexivity|].
    intros row I. destruct (O row I) as (x & A & _ & B). eauto.
Qed.

Definition quarters (l : list (Z * Z)) : matrix F64 := map (fun p => [CNum (nlit (fst p) 4); CNum (nlit (snd p) 100)]) l.
Definition quarters105 : list (Z * Z) := [(-3, 5); (-3, 5); (-1, 5); (-2, 5); (-3, -5); (-1, -5)]%Z.
(** Pairs of an energy in quarters and a circularity in hundredths, with thirty bins and seven energy bins: a star of energy -3/4
    is drawn, the one of energy -1/4 is taken, to match two counter-rotating stars. *)
Example ex_c105_energy : let sm := seqsum 53 1024 p53 e1024 in
  (forall row, In row (quarters quarters105) -> exists en x, nth_error row 0 = Some (CNum en) /\ nth_error row 1 = Some (CNum x) /\
     off_parts 7 (val (F64_rounded sm) en) /\ off_decimals sm 30 2 (val (F64_rounded sm) x)) /\
  outcome (d_split (jehistogram (N:=RX) firsts (fun _ => 7%Z) (XR 0, XR 0) 30 2 7) 0%nat (exact_matrix (quarters quarters105)) [] []) = Ok ([0; 1; 0; 1; 0; 0]%Z, 1%nat).
Proof.
  cbv zeta. set (sm := seqsum 53 1024 p53 e1024). destruct exB_ties as (T1 & _).
  assert (O : forall row, In row (quarters quarters105) -> exists en x, nth_error row 0 = Some (CNum en) /\ nth_error row 1 = Some (CNum x) /\
     off_parts 7 (val (F64_rounded sm) en) /\ off_decimals sm 30 2 (val (F64_rounded sm) x)).
  { assert (B : forallb (fun p => in60 (nlit (fst p) 4 : F64s sm) && (of60 (nlit (fst p) 4 : F64s sm) =? fst p * 2 ^ 58)%Z && apart sm (edges64 sm 30 2) (nlit (snd p) 100) && (-3 <=? fst p)%Z && (fst p <? 0)%Z)%bool quarters105 = true) by (vm_compute; reflexivity).
    rewrite forallb_forall in B. intros row I. apply in_map_iff in I as (p & <- & I). apply B in I. apply andb_prop in I as (I & I5). apply andb_prop in I as (I & I4). apply andb_prop in I as (I & I3). apply andb_prop in I as (I1 & I2).
    exists (nlit (fst p) 4), (nlit (snd p) 100). split; [reflexivity|]. split; [reflexivity|]. split; [|apply apart_spec; auto; lia].
    apply Z.eqb_eq in I2. apply Z.leb_le in I4. apply Z.ltb_lt in I5. intros r i Er Hi. pose proof (eq_trans (eq_sym Er) (val60 sm _ I1)) as V. rewrite I2 in V. clear Er B I1 I2 I3. set (z := fst p) in *. clearbody z. apply (f_equal (fun x => match x with XR a => a | _ => 0 end)) in V. cbv beta iota in V. rewrite V.
    replace (IZR (z * 2 ^ 58) / IZR (2 ^ 60) - (IZR i / 7 - 1)) with (IZR (7 * z - 4 * i + 28) / 28).
    2:{ rewrite plus_IZR, minus_IZR, !mult_IZR. replace (IZR (2 ^ 60)) with (4 * IZR (2 ^ 58)) by (rewrite <- (mult_IZR 4); reflexivity). assert (IZR (2 ^ 58) <> 0) by (apply IZR_neq; discriminate). field. exact H. }
    assert (M : (1 <= Z.abs (7 * z - 4 * i + 28))%Z) by lia. apply IZR_le in M. rewrite abs_IZR in M. unfold Rdiv. rewrite Rabs_mult, (Rabs_pos_eq (/ 28)) by lra.
    change (IZR (2 ^ 50)) with 1125899906842624. lra. }
  split; [exact O|].
  rewrite <- (c105_jehistogram sm nat firsts (fun _ => 7%Z) (n0, n0) (XR 0, XR 0) 30 2 7 0%nat (quarters quarters105) [] [] [] [] T1 ltac:(vm_compute; discriminate) O). vm_compute. reflexivity.
Qed.

(** Thirty bins are paired with their reflections; eighty are not (C78), having ties. *)
Example ex_c105_mirror : forall sm, no_ties 30 2 /\ zero_edge (map (np_round (N:=F64s sm) 2) (linspace nm1 n1 (Z.to_nat 30))) 15 /\ ~ no_ties 80 2.
Proof.
  intros sm. split; [apply exB_ties|]. split; [apply zero_check_spec; vm_compute; reflexivity|].
  intros (_ & _ & H). apply H. exists 5%Z. reflexivity.
Qed.
