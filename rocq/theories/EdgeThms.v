(** When the histogram decompositions find a zero edge (C43). *)
From Verif Require Import Py Num RX F64 Np Df Data DataFacts DfFacts CenterFacts Ex Spec DataThms SpecCirc Circ CircFacts CircThms SpecBase Base BaseFacts BaseThms Threshold EpsFacts ThresholdThms SpecHist Hist HistFacts EdgeFacts HistThms.
From Flocq Require Import Core.
From Coq Require Import Lia.
Local Open Scope R_scope.

(** split fails exactly when the number of bins is not positive (ValueError) or no rounded
    edge is zero (IndexError); otherwise it returns whatever the generator does. *)
Lemma c43_returns : forall (N : Num) (St : Type) choice junk n_bin digits (eps : list N) (st : St),
  arith N -> draws choice -> (n_bin <= 2 ^ 53)%Z -> (0 <= digits)%Z ->
  let edges := map (np_round digits) (linspace (nm1 : N) n1 (Z.to_nat n_bin)) in
  ((n_bin < 1)%Z -> hist_split (pick_any choice) junk n_bin digits st eps = Raise ValueError) /\
  ((1 <= n_bin)%Z -> (forall e, In e edges -> neqb e n0 = false) ->
     hist_split (pick_any choice) junk n_bin digits st eps = Raise IndexError) /\
  ((1 <= n_bin)%Z -> (exists e, In e edges /\ neqb e n0 = true) ->
     exists labels st', hist_split (pick_any choice) junk n_bin digits st eps = Ok (labels, st')).
Proof.
  intros N St choice junk n_bin digits eps st HA HD Hn Hd edges. destruct (arith_grid N HA) as (RN & G).
  destruct (make_histogram_iff (N:=N) eps n_bin digits) as (A & B). split; [|split].
  - intros H. unfold hist_split. rewrite A by exact H. reflexivity.
  - intros H1 Hz. unfold hist_split. destruct (B H1) as (_ & B2). rewrite B2; [reflexivity|]. intros b (Hb & Hb0 & _).
    rewrite Hz in Hb0; [discriminate|]. now apply nth_In.
  - intros H1 (e & He & Hez). pose proof (zero_edge_where edges) as W. destruct (where_ _) as [|b l] eqn:Ew.
    { exfalso. apply In_nth_error in He as (i & Hi). assert (I : In i (where_ (map (fun e : N => neqb e n0) edges))).
      { apply where_In. rewrite nth_error_map, Hi. cbn. now rewrite Hez. }
      rewrite Ew in I. destruct I. }
    destruct (hist_split_cases RN G _ (pick_any_incl choice HD) n_bin digits b eps st ltac:(lia) Hd W) as [(S & st' & _ & _ & _ & _ & HL)|(e' & _ & c & _ & Hr)].
    + destruct (HL junk) as (labels & E & _). eauto.
    + exfalso. destruct Hr as (Hlt & s1 & E). unfold pick_any in E. rewrite draw_ok in E by lia. discriminate.
Qed.

(** Exact arithmetic. *)
Lemma pow10_RX d : pow10 (N:=RX) d = XR (IZR (10 ^ Z.of_nat d)).
Proof.
  assert (T : forall k z, times10 (N:=RX) k (XR (IZR z)) = XR (IZR (z * 10 ^ Z.of_nat k))).
  { induction k as [|k IH]; intros z; [simpl; now rewrite Z.mul_1_r|]. cbn [times10].
    change (nmul (N:=RX) (XR (IZR z)) (nofZ (N:=RX) 10)) with (XR (IZR z * IZR 10)). rewrite <- mult_IZR, IH.
    rewrite Nat2Z.inj_succ, Z.pow_succ_r by lia. do 2 f_equal. ring. }
  unfold pow10. destruct (Nat.ltb_spec d 9) as [L|L]; [reflexivity|].
  change (nofZ (N:=RX) (10 ^ 9)) with (XR (IZR (10 ^ 9))). rewrite T, <- Z.pow_add_r by lia. do 3 f_equal. lia.
Qed.
Lemma edge_RX n digits i : (1 <= n)%nat -> (0 <= digits)%Z -> (i <= n)%nat ->
  nth i (map (np_round (N:=RX) digits) (linspace nm1 n1 n)) nnan =
  XR (IZR (ZnearestE ((-1 + 2 * IZR (Z.of_nat i) / IZR (Z.of_nat n)) * IZR (10 ^ digits))) / IZR (10 ^ digits)).
Proof.
  intros Hn Hd Hi. rewrite nth_map_in with (a := nnan) by (rewrite linspace_length; lia).
  assert (Hp : 0 < IZR (10 ^ digits)) by (apply IZR_lt, Z.pow_pos_nonneg; lia).
  assert (HN : 0 < IZR (Z.of_nat n)) by (apply IZR_lt; lia).
  assert (E : nth i (linspace (N:=RX) nm1 n1 n) nnan = XR (-1 + 2 * IZR (Z.of_nat i) / IZR (Z.of_nat n))).
  { destruct (Nat.eq_dec i n) as [->|Hne].
    - rewrite linspace_last. change (n1 : RX) with (XR 1). f_equal. field. lra.
    - rewrite linspace_nth by lia. change (nm1 : RX) with (XR (-1)). change (n1 : RX) with (XR 1). cbn [nadd nsub nmul ndiv RX].
      change (xsub (XR 1) (XR (-1))) with (XR (1 + - -1)). change (nofZ (N:=RX) (Z.of_nat n)) with (XR (IZR (Z.of_nat n))).
      change (nofZ (N:=RX) (Z.of_nat i)) with (XR (IZR (Z.of_nat i))). cbn [xdiv]. destruct (Req_EM_T _ 0); [lra|]. cbn [xmul xadd]. f_equal. field. lra. }
  rewrite E. unfold np_round. assert ((0 <=? digits)%Z = true) as -> by now apply Z.leb_le. rewrite pow10_RX, Z2Nat.id by exact Hd.
  cbn [nmul ndiv nrint RX xmul xrint xdiv]. destruct (Req_EM_T _ 0); [lra|]. reflexivity.
Qed.
Lemma nearest_zero r : ZnearestE r = 0%Z <-> Rabs r <= / 2.
Proof.
  split.
  - intros H. pose proof (Znearest_half (fun x => negb (Z.even x)) r) as B. rewrite H in B. now rewrite Rminus_0_r in B.
  - intros H. destruct (Rle_lt_or_eq_dec _ _ H) as [L|L].
    + apply Znearest_imp. now rewrite Rminus_0_r.
    + assert (r = /2 \/ r = - / 2) as [->| ->].
      { unfold Rabs in L. destruct (Rcase_abs r); lra. }
      * unfold Znearest. assert (Zfloor (/2) = 0%Z) as -> by (apply Zfloor_imp; simpl; lra).
        rewrite Rcompare_Eq by (simpl; lra). reflexivity.
      * unfold Znearest. assert (Zfloor (-/2) = (-1)%Z) as -> by (apply Zfloor_imp; simpl; lra).
        rewrite Rcompare_Eq by (simpl; lra). simpl. assert (Zceil (-/2) = 0%Z) as -> by (apply Zceil_imp; simpl; lra). reflexivity.
Qed.

(** In exact arithmetic the edges are the points -1 + 2 i / n rounded to the nearest decimal,
    and one of them is zero exactly for an even number of bins or at least 2 * 10^digits
    bins. *)
Lemma c43_exact : forall n_bin digits, (1 <= n_bin)%Z -> (0 <= digits)%Z ->
  let n := Z.to_nat n_bin in let edges := map (np_round (N:=RX) digits) (linspace nm1 n1 n) in
  length edges = S n /\
  (forall i, (i <= n)%nat -> nth i edges nnan =
     XR (IZR (ZnearestE ((-1 + 2 * IZR (Z.of_nat i) / IZR n_bin) * IZR (10 ^ digits))) / IZR (10 ^ digits))) /\
  ((exists e, In e edges /\ neqb e n0 = true) <-> (Z.Even n_bin \/ (2 * 10 ^ digits <= n_bin)%Z)).
Proof.
  intros n_bin digits Hn Hd n edges. assert (Hn' : Z.of_nat n = n_bin) by (unfold n; lia).
  assert (Le : length edges = S n) by (unfold edges; now rewrite map_length, linspace_length). split; [exact Le|].
  assert (HE : forall i, (i <= n)%nat -> nth i edges nnan =
     XR (IZR (ZnearestE ((-1 + 2 * IZR (Z.of_nat i) / IZR n_bin) * IZR (10 ^ digits))) / IZR (10 ^ digits))).
  { intros i Hi. unfold edges. rewrite edge_RX by (auto; lia). now rewrite Hn'. }
  split; [exact HE|].
  assert (Hp : (0 < 10 ^ digits)%Z) by (apply Z.pow_pos_nonneg; lia). pose proof (IZR_lt _ _ Hp) as Hpr.
  assert (Hnr : 1 <= IZR n_bin) by (apply IZR_le; lia).
  assert (HZ : forall i, (i <= n)%nat -> (neqb (nth i edges nnan) n0 = true <-> (2 * Z.abs (2 * Z.of_nat i - n_bin) * 10 ^ digits <= n_bin)%Z)).
  { intros i Hi. rewrite HE by exact Hi. change (n0 (N:=RX)) with (XR 0). rewrite neqbRX. set (r := (-1 + 2 * IZR (Z.of_nat i) / IZR n_bin) * IZR (10 ^ digits)).
    assert (E1 : IZR (ZnearestE r) / IZR (10 ^ digits) = 0 <-> ZnearestE r = 0%Z).
    { split.
      - intros E. apply eq_IZR. apply (Rmult_eq_reg_r (/ IZR (10 ^ digits))); [|apply Rinv_neq_0_compat; lra]. rewrite Rmult_0_l. exact E.
      - intros ->. unfold Rdiv. apply Rmult_0_l. }
    rewrite E1, nearest_zero. clear E1.
    assert (E2 : r = IZR ((2 * Z.of_nat i - n_bin) * 10 ^ digits) / IZR n_bin).
    { unfold r. rewrite mult_IZR, minus_IZR, mult_IZR. field. lra. }
    rewrite E2. unfold Rdiv. rewrite Rabs_mult, (Rabs_pos_eq (/ IZR n_bin)) by (apply Rlt_le, Rinv_0_lt_compat; lra).
    rewrite <- abs_IZR, Z.abs_mul, (Z.abs_eq (10 ^ digits)) by lia. set (m := (Z.abs (2 * Z.of_nat i - n_bin) * 10 ^ digits)%Z).
    replace (2 * Z.abs (2 * Z.of_nat i - n_bin) * 10 ^ digits)%Z with (2 * m)%Z by (unfold m; ring).
    assert (Hi' : IZR n_bin * / IZR n_bin = 1) by (field; lra). assert (0 < / IZR n_bin) by (apply Rinv_0_lt_compat; lra). split.
    - intros H1. apply le_IZR. rewrite mult_IZR. apply (Rmult_le_compat_r (IZR n_bin)) in H1; [|lra].
      rewrite Rmult_assoc, (Rmult_comm (/ _)), Hi' in H1. lra.
    - intros H0. apply IZR_le in H0. rewrite mult_IZR in H0. apply (Rmult_le_compat_r (/ IZR n_bin)) in H0; [|lra]. lra. }
  split.
  - intros (e & He & Hz). apply In_nth with (d := nnan) in He as (i & Hi & <-). apply HZ in Hz; [|lia].
    destruct (Z.Even_or_Odd n_bin) as [Ev|(k & Od)]; [now left|right]. assert (1 <= Z.abs (2 * Z.of_nat i - n_bin))%Z by lia. nia.
  - assert (K : forall i, (i <= n)%nat -> (2 * Z.abs (2 * Z.of_nat i - n_bin) * 10 ^ digits <= n_bin)%Z -> exists e, In e edges /\ neqb e n0 = true).
    { intros i Hi H. exists (nth i edges nnan). split; [apply nth_In; lia|]. now apply HZ. }
    intros [(k & Ev)|Hb].
    + apply (K (Z.to_nat k)); [unfold n; lia|]. rewrite Z2Nat.id by lia. replace (2 * k - n_bin)%Z with 0%Z by lia. simpl. lia.
    + destruct (Z.Even_or_Odd n_bin) as [(k & Ev)|(k & Od)].
      * apply (K (Z.to_nat k)); [unfold n; lia|]. rewrite Z2Nat.id by lia. replace (2 * k - n_bin)%Z with 0%Z by lia. simpl. lia.
      * apply (K (Z.to_nat k)); [unfold n; lia|]. rewrite Z2Nat.id by lia. replace (2 * k - n_bin)%Z with (-1)%Z by lia. simpl (Z.abs _). lia.
Qed.

(** With up to 15 digits an even number of bins always has a zero edge, in exact and in
    binary64 arithmetic. *)
Lemma c43_even : forall (N : Num) n_bin digits, arith N -> (1 <= n_bin <= 2 ^ 53)%Z -> Z.Even n_bin -> (0 <= digits <= 15)%Z ->
  exists e, In e (map (np_round digits) (linspace (nm1 : N) n1 (Z.to_nat n_bin))) /\ neqb e n0 = true.
Proof.
  intros N n_bin digits HA Hn (m & Hm) Hd. destruct (arith_grid N HA) as (RN & G). set (n := Z.to_nat n_bin).
  assert (Hn1 : (1 <= n)%nat) by (unfold n; lia). assert (Hn2 : (Z.of_nat n <= 2 ^ 53)%Z) by (unfold n; lia).
  destruct (linspace_val RN G nm1 n1 2 n (or_intror eq_refl) (val_nm1 RN) (val_n1 RN) Hn1 Hn2) as (s & f & Es & Hf & F0 & Fn & Fm & Ft).
  simpl (2 - 1)%Z in *. set (i := Z.to_nat m). assert (Hi : (i < n)%nat) by (unfold i, n; lia).
  assert (Hin : Z.of_nat n = (2 * m)%Z) by (unfold n; lia). assert (Hii : Z.of_nat i = m) by (unfold i; lia).
  rewrite Hin in Es. destruct (g_half RN G m s) as (t & u & Et & Eu & Bu); [lia|exact Es|].
  destruct (Ft i Hi) as (t' & Et' & Eu'). rewrite Hii, Et in Et'. injection Et' as <-. rewrite Eu in Eu'. injection Eu' as Hu.
  destruct (Hf i ltac:(lia)) as (Vi & Bi). rewrite <- Hu in Vi, Bi.
  assert (P : val RN (pow10 (N:=N) (Z.to_nat digits)) = XR (IZR (10 ^ digits))).
  { rewrite (pow10_exact RN G) by lia. now rewrite Z2Nat.id by lia. }
  assert (Hp : (0 < 10 ^ digits)%Z) by (apply Z.pow_pos_nonneg; lia).
  assert (Hp' : (10 ^ digits <= 10 ^ 15)%Z) by (apply Z.pow_le_mono_r; lia).
  destruct (np_round_val RN G digits (10 ^ digits) _ u ltac:(lia) Hp P Vi Bi) as (t2 & q & E1 & E2 & E3 & _).
  exists (np_round digits (nth i (linspace nm1 n1 n) nnan)). split.
  { apply in_map, nth_In. rewrite linspace_length. lia. }
  apply (neqb_iff RN). rewrite E3, (val_n0 RN). split; [|discriminate].
  assert (Hs : Rabs (u * IZR (10 ^ digits)) <= / 2).
  { rewrite Rabs_mult, (Rabs_pos_eq (IZR (10 ^ digits))) by (apply Rlt_le, IZR_lt; lia).
    apply Rle_trans with (bpow radix2 (-52) * IZR (10 ^ 15)).
    - apply Rmult_le_compat; [apply Rabs_pos|apply IZR_le; lia|exact Bu|apply IZR_le; lia].
    - apply Rle_trans with (bpow radix2 (-52) * bpow radix2 51).
      + apply Rmult_le_compat_l; [apply bpow_ge_0|]. change (bpow radix2 51) with (IZR (2 ^ 51)). apply IZR_le. lia.
      + rewrite <- bpow_plus. simpl. lra. }
  assert (Ht2 : Rabs t2 <= / 2).
  { apply Rabs_le_inv in Hs. pose proof (g_onehalf RN G) as H1.
    assert (H2 : rnd RN (XR (- / 2)) = XR (- / 2)).
    { change (XR (- / 2)) with (xopp (XR (/ 2))). rewrite (rnd_opp RN), H1. reflexivity. }
    destruct (rnd_bet RN (- / 2) (/ 2) (u * IZR (10 ^ digits)) H2 H1 Hs) as (q' & Eq' & Bq'). rewrite E1 in Eq'. injection Eq' as <-. now apply Rabs_le. }
  apply nearest_zero in Ht2. rewrite Ht2 in E2. unfold Rdiv in E2. rewrite Rmult_0_l in E2.
  rewrite (rnd_Z RN G 0) in E2 by lia. congruence.
Qed.

(** With 16 digits it fails: 98 bins, though even, have no zero edge in binary64. *)
Lemma c43_even_refuted : exists n_bin digits, Z.Even n_bin /\ (1 <= n_bin <= 2 ^ 53)%Z /\ (0 <= digits)%Z /\
  forall St choice junk (eps : list F64) (st : St), hist_split (pick_any choice) junk n_bin digits st eps = Raise IndexError.
Proof.
  exists 98%Z, 16%Z. split; [exists 49%Z; reflexivity|]. split; [lia|]. split; [lia|]. intros St choice junk eps st.
  unfold hist_split. assert (H : make_histogram eps 98 16 = Raise IndexError); [|rewrite H; reflexivity].
  unfold make_histogram, np_histogram.
  change (guard (1 <=? 98)%Z ValueError) with (Ok tt). cbn [bind snd].
  assert (where_ (map (fun e : F64 => neqb e n0) (map (np_round 16) (linspace nm1 n1 (Z.to_nat 98)))) = []) as -> by (vm_compute; reflexivity).
  reflexivity.
Qed.

(** Negative numbers of digits. *)
Lemma times10_ge {N : Num} (RN : Rounded N) (G : grid RN) k (x : N) :
  (val RN x = XPInf \/ exists z, (10 <= z)%Z /\ val RN x = XR (IZR z)) ->
  val RN (times10 k x) = XPInf \/ exists z, (10 <= z)%Z /\ val RN (times10 k x) = XR (IZR z).
Proof.
  revert x. induction k as [|k IH]; intros x H; [exact H|]. simpl. apply IH. rewrite (val_mul RN), (val_small RN) by lia.
  destruct H as [->|(z & Hz & ->)].
  - left. cbn [xmul xsgn]. rewrite Rcompare_Gt by lra. apply (rnd_pinf RN).
  - cbn [xmul]. rewrite <- mult_IZR. destruct (g_int RN G (z * 10) ltac:(lia)) as [E|(z' & Hz' & E)]; [now left|right].
    exists z'. split; [|exact E]. apply le_IZR.
    apply (rnd_le RN (IZR 10) (IZR (z * 10)) _ _ (rnd_Z RN G 10 ltac:(lia)) E). apply IZR_le. lia.
Qed.
Lemma pow10_ge {N : Num} (RN : Rounded N) (G : grid RN) d : (1 <= d)%nat ->
  val RN (pow10 (N:=N) d) = XPInf \/ exists z, (10 <= z)%Z /\ val RN (pow10 (N:=N) d) = XR (IZR z).
Proof.
  intros Hd. unfold pow10. destruct (Nat.ltb_spec d 9) as [L|L].
  - right. exists (10 ^ Z.of_nat d)%Z. assert (10 ^ 1 <= 10 ^ Z.of_nat d <= 10 ^ 9)%Z by (split; apply Z.pow_le_mono_r; lia).
    split; [lia|]. rewrite (val_ofZ RN). apply (rnd_Z RN G). lia.
  - apply (times10_ge RN G). right. exists (10 ^ 9)%Z. split; [lia|]. rewrite (val_ofZ RN). apply (rnd_Z RN G). lia.
Qed.

(** With a negative number of digits every edge rounds to zero (or to NaN), and split always
    fails: AttributeError, because the empty spheroid is still a list, or IndexError. *)
Lemma c43_negative : forall (N : Num) (St : Type) choice junk n_bin digits (eps : list N) (st : St),
  arith N -> (1 <= n_bin <= 2 ^ 53)%Z -> (digits < 0)%Z ->
  hist_split (pick_any choice) junk n_bin digits st eps = Raise AttributeError \/
  hist_split (pick_any choice) junk n_bin digits st eps = Raise IndexError.
Proof.
  intros N St choice junk n_bin digits eps st HA Hn Hd. destruct (arith_grid N HA) as (RN & G). set (n := Z.to_nat n_bin).
  assert (Hn1 : (1 <= n)%nat) by (unfold n; lia). assert (Hn2 : (Z.of_nat n <= 2 ^ 53)%Z) by (unfold n; lia).
  destruct (linspace_val RN G nm1 n1 2 n (or_intror eq_refl) (val_nm1 RN) (val_n1 RN) Hn1 Hn2) as (s & f & Es & Hf & F0 & Fn & Fm & Ft).
  simpl (2 - 1)%Z in *. destruct (Hf 0%nat ltac:(lia)) as (V0 & _). rewrite F0 in V0.
  destruct (make_histogram_iff (N:=N) eps n_bin digits) as (_ & MH). destruct (MH ltac:(lia)) as (M1 & M2). unfold round_edges in M1, M2. fold n in M1, M2.
  set (L := linspace (nm1 : N) n1 n) in *. assert (LL : length L = S n) by apply linspace_length.
  assert (R : np_round digits = fun x : N => (nrint (x / pow10 (Z.to_nat (- digits))) * pow10 (Z.to_nat (- digits)))%num).
  { unfold np_round. assert ((0 <=? digits)%Z = false) as -> by now apply Z.leb_gt. reflexivity. }
  destruct (pow10_ge RN G (Z.to_nat (- digits)) ltac:(lia)) as [P|(z & Hz & P)].
  - right. unfold hist_split. rewrite M2; [reflexivity|]. intros b (Hb & Hb0 & _). rewrite map_length, LL in Hb.
    rewrite nth_map_in with (a := nnan) in Hb0 by lia. destruct (Hf b ltac:(lia)) as (Vb & Bb). apply (neqb_iff RN) in Hb0 as (Hb0 & _).
    rewrite R, (val_n0 RN), (val_mul RN), (val_rint RN), (val_div RN), Vb, P in Hb0 by (rewrite P; discriminate).
    cbn [xdiv] in Hb0. rewrite (rnd_Z RN G 0) in Hb0 by lia. cbn [xrint] in Hb0.
    rewrite (proj2 (nearest_zero 0)) in Hb0 by (rewrite Rabs_R0; lra). cbn [xmul xsgn] in Hb0. rewrite Rcompare_Eq in Hb0 by reflexivity. cbn in Hb0.
    rewrite (rnd_nan RN) in Hb0. discriminate.
  - left. assert (Z0 : zero_edge (map (np_round digits) L) 0).
    { split; [rewrite map_length; lia|]. split; [|lia]. rewrite nth_map_in with (a := nnan) by lia.
      assert (Hz1 : 10 <= IZR z) by (apply IZR_le; lia).
      apply (neqb_iff RN). rewrite (val_n0 RN). enough (val RN (np_round digits (nth 0 L nnan)) = XR 0) as -> by (split; [reflexivity|discriminate]).
      rewrite R, (val_mul RN), (val_rint RN), (val_div RN), V0, P by (rewrite P; intros E; injection E; lra).
      cbn [xdiv]. destruct (Req_EM_T (IZR z) 0); [lra|].
      assert (B : - / 2 <= -1 / IZR z <= / 2).
      { assert (0 < / IZR z) by (apply Rinv_0_lt_compat; lra). assert (IZR z * / IZR z = 1) by (field; lra). unfold Rdiv. split; nra. }
      pose proof (g_onehalf RN G) as H1.
      assert (H2 : rnd RN (XR (- / 2)) = XR (- / 2)).
      { change (XR (- / 2)) with (xopp (XR (/ 2))). rewrite (rnd_opp RN), H1. reflexivity. }
      destruct (rnd_bet RN (- / 2) (/ 2) _ H2 H1 B) as (q & Eq & Bq). rewrite Eq. cbn [xrint].
      rewrite (proj2 (nearest_zero q)) by now apply Rabs_le. cbn [xmul]. rewrite Rmult_0_l. apply (rnd_Z RN G 0). lia. }
    unfold hist_split. rewrite (M1 0%nat Z0). cbn [bind]. unfold make_count_sph. cbn [seq fold_left bind].
    unfold make_corot_sph. cbn [Nat.mul Nat.leb seq fold_left bind Nat.sub Nat.add].
    unfold make_disk. cbn [Nat.mul Nat.leb seq fold_left bind Nat.sub Nat.add length].
    unfold gather at 1. cbn. reflexivity.
Qed.

(** The same for decompose: it fails as jcirc does, or because there is no positive number
    of bins or no zero edge, and in no other case. *)
Lemma c43_decompose : forall (N : Num) (St : Type) choice argsort junk cbins n_bin digits (st : St) (g : galaxy N),
  arith N -> draws choice -> constructible g -> (n_bin <= 2 ^ 53)%Z -> (0 <= digits)%Z ->
  let edges := map (np_round digits) (linspace (nm1 : N) n1 (Z.to_nat n_bin)) in
  let r := decompose argsort (jhistogram choice junk cbins n_bin digits) st g in
  (forall e, jcirc argsort g (fst cbins) (snd cbins) = Raise e -> r = Raise e) /\
  (forall j, jcirc argsort g (fst cbins) (snd cbins) = Ok j ->
    ((n_bin < 1)%Z -> r = Raise ValueError) /\
    ((1 <= n_bin)%Z -> (forall e, In e edges -> neqb e n0 = false) -> r = Raise IndexError) /\
    ((1 <= n_bin)%Z -> (exists e, In e edges /\ neqb e n0 = true) -> exists c st', r = Ok (c, st') /\ c_probs c = None)).
Proof.
  intros N St choice argsort junk cbins n_bin digits st g HA HD Hc Hn Hd edges r. destruct (arith_grid N HA) as (RN & G).
  destruct (star_decompose_errors RN argsort St (jhistogram choice junk cbins n_bin digits) st g Hc eps_attrs eq_refl) as (R & K).
  split; [exact R|]. intros j Hj. destruct (K j Hj) as (X & y & mask & E & Em & Lm & Ly & _ & Hr & Hok). cbn [d_split jhistogram] in Hr, Hok.
  destruct (c43_returns N St choice junk n_bin digits (matrix_col 0 (select mask X)) st HA HD Hn Hd) as (A1 & A2 & A3).
  split; [|split].
  - intros H. apply Hr. rewrite A1 by exact H. reflexivity.
  - intros H H'. apply Hr. rewrite A2 by auto. reflexivity.
  - intros H H'. destruct (A3 H H') as (labels & st' & El). rewrite El in Hok. cbn [bind fst snd] in Hok.
    destruct (Hok labels st' eq_refl) as (c & Ec & Hp).
    + destruct (c41_labels N St choice junk n_bin digits _ st labels st' HA HD Hn Hd El) as (LL & _). rewrite LL. unfold matrix_col.
      rewrite map_length. now apply select_length.
    + eauto.
Qed.

(** Pairs of n_bin and digits, and how split ends. *)
Example ex_c43 :
  map (fun p => exn_of (hist_split (pick_any turns) (fun _ => 9%Z) (fst p) (snd p) false tenE))
      [(100, 2); (0, 2); (3, 2); (3, 0); (1, 0); (19, 1); (21, 1); (98, 15); (98, 16); (4, -1); (2, -400)]%Z =
  [None; Some ValueError; Some IndexError; None; Some IndexError; Some IndexError; None; None; Some IndexError; Some AttributeError; Some IndexError].
Proof. vm_compute. reflexivity. Qed.
