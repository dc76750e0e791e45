(** Symmetry of the histogram decompositions around zero (C78). *)
From Verif Require Import Py Num RX F64 Np Df Data DataFacts DfFacts CenterFacts Ex Spec DataThms SpecCirc Circ CircFacts CircThms SpecBase Base BaseFacts BaseThms Threshold EpsFacts ThresholdThms SpecHist Hist HistFacts EdgeFacts HistThms EdgeThms EnergyFacts EnergyThms SpecPot SpecMirror.
From Flocq Require Import Core.
From Coq Require Import Lia Permutation.
Local Open Scope R_scope.

(** *** The edges in exact arithmetic *)
Lemma ZnearestE_opp x : ZnearestE (- x) = (- ZnearestE x)%Z.
Proof.
  rewrite Znearest_opp. f_equal. unfold Znearest. case Rcompare; trivial.
  apply (f_equal (fun b : bool => if b then Zceil x else Zfloor x)). rewrite Bool.negb_involutive, Z.even_opp, Z.even_add. now destruct (Z.even (Zfloor x)).
Qed.

Section Exact.
Context (n : nat) (T : Z).
Hypothesis Hn : (1 <= n)%nat.
Hypothesis HT : (0 < T)%Z.
Local Notation P i := ((-1 + 2 * IZR (Z.of_nat i) / IZR (Z.of_nat n)) * IZR T).
Local Notation E i := (ZnearestE (P i)).

Lemma n_pos : 0 < IZR (Z.of_nat n).
Proof. apply IZR_lt. lia. Qed.
Lemma T_pos : 0 < IZR T.
Proof. now apply IZR_lt. Qed.
Lemma P_opp i : (i <= n)%nat -> P (n - i) = - P i.
Proof. intros Hi. pose proof n_pos. rewrite Nat2Z.inj_sub by exact Hi. rewrite minus_IZR. field. lra. Qed.
Lemma E_opp i : (i <= n)%nat -> E (n - i) = (- E i)%Z.
Proof. intros Hi. rewrite P_opp by exact Hi. apply ZnearestE_opp. Qed.
Lemma E_le i j : (i <= j)%nat -> (E i <= E j)%Z.
Proof.
  intros H. pose proof n_pos. pose proof T_pos. apply Zrnd_le; [apply valid_rnd_N|]. apply Rmult_le_compat_r; [lra|].
  apply Rplus_le_compat_l. unfold Rdiv. apply Rmult_le_compat_r; [apply Rlt_le, Rinv_0_lt_compat; lra|].
  apply Rmult_le_compat_l; [lra|]. apply IZR_le. lia.
Qed.
Lemma E_0 : E 0 = (- T)%Z.
Proof.
  pose proof n_pos. replace (P 0) with (IZR (- T)); [apply Zrnd_IZR; apply valid_rnd_N|].
  rewrite opp_IZR. simpl. field. lra.
Qed.
(** An edge just below the middle. *)
Lemma E_below i : (2 * i + 2 = n)%nat -> (E i = 0%Z <-> (4 * T <= Z.of_nat n)%Z).
Proof.
  intros Hi. pose proof n_pos as A. pose proof T_pos as B. rewrite nearest_zero.
  assert (Q : P i = - (2 * IZR T / IZR (Z.of_nat n))).
  { replace (IZR (Z.of_nat i)) with (IZR (Z.of_nat n) / 2 - 1); [field; lra|]. rewrite <- Hi, Nat2Z.inj_add, plus_IZR, Nat2Z.inj_mul, mult_IZR. simpl. field. }
  rewrite Q, Rabs_Ropp, Rabs_pos_eq.
  2:{ apply Rlt_le, Rdiv_lt_0_compat; lra. }
  assert (I : 0 < / IZR (Z.of_nat n)) by now apply Rinv_0_lt_compat.
  assert (J : IZR (Z.of_nat n) * / IZR (Z.of_nat n) = 1) by (field; lra). split.
  - intros H. apply le_IZR. rewrite mult_IZR. apply (Rmult_le_compat_r (IZR (Z.of_nat n))) in H; [|lra].
    unfold Rdiv in H. rewrite Rmult_assoc, (Rmult_comm (/ _)), J in H. lra.
  - intros H. apply IZR_le in H. rewrite mult_IZR in H. apply (Rmult_le_compat_r (/ IZR (Z.of_nat n))) in H; [|lra]. unfold Rdiv. lra.
Qed.

Context (b : nat).
Hypothesis Hb : (b <= n)%nat.
Hypothesis Hz : E b = 0%Z.
Hypothesis Hf : forall i, (i < b)%nat -> E i <> 0%Z.

Lemma b_half : (2 * b <= n)%nat.
Proof.
  destruct (Nat.le_gt_cases (2 * b) n) as [L|L]; [exact L|]. exfalso. apply (Hf (n - b)); [lia|]. rewrite E_opp, Hz by exact Hb. reflexivity.
Qed.
Lemma b_pos : (0 < b)%nat.
Proof. destruct b; [|lia]. rewrite E_0 in Hz. lia. Qed.

Lemma reflect_iff : (forall k, (k <= 2 * b)%nat -> E (2 * b - k) = (- E k)%Z) <-> (Z.Even (Z.of_nat n) /\ (Z.of_nat n < 4 * T)%Z).
Proof.
  pose proof b_half as H2. pose proof b_pos as H1. split.
  - intros H. destruct (Nat.eq_dec (2 * b) n) as [En|Nn].
    + split; [exists (Z.of_nat b); lia|]. assert (L : ~ (4 * T <= Z.of_nat n)%Z); [|lia].
      intros C. apply (Hf (b - 1)); [lia|]. apply E_below; [lia|exact C].
    + exfalso. set (k := (n - 2 * b)%nat). assert (Hk : (0 < k <= n)%nat) by (unfold k; lia).
      assert (St : forall j, (k <= j <= n)%nat -> E j = E (j - k)).
      { intros j Hj. specialize (H (n - j)%nat ltac:(unfold k in Hj; lia)). rewrite E_opp in H by lia.
        replace (2 * b - (n - j))%nat with (j - k)%nat in H by (unfold k in *; lia). lia. }
      assert (Ch : forall q t, (t + q * k <= n)%nat -> E (t + q * k) = E t).
      { induction q as [|q IH]; intros t Ht; [now rewrite Nat.add_0_r|]. rewrite St by (simpl; simpl in Ht; lia).
        replace (t + S q * k - k)%nat with (t + q * k)%nat by (simpl; lia). apply IH. simpl in Ht. lia. }
      pose proof (Nat.div_mod b k ltac:(lia)) as D. pose proof (Nat.mod_upper_bound b k ltac:(lia)) as M.
      specialize (Ch (b / k)%nat (b mod k)%nat). rewrite (Nat.mul_comm (b / k)), Nat.add_comm, <- D in Ch. specialize (Ch Hb).
      pose proof (E_le (b mod k) k ltac:(lia)) as L. rewrite <- Ch, Hz, (St k) in L by lia. rewrite Nat.sub_diag, E_0 in L. lia.
  - intros ((m & Ev) & Lt). assert (En : (2 * b = n)%nat).
    { destruct (Nat.eq_dec (2 * b) n) as [En|Nn]; [exact En|exfalso].
      set (i := (Z.to_nat m - 1)%nat). assert (Hi : (2 * i + 2 = n)%nat) by (unfold i; lia).
      pose proof (E_le b i ltac:(lia)) as L1. pose proof (E_le i (n - b) ltac:(lia)) as L2. rewrite E_opp, Hz in L2 by exact Hb.
      assert (E i = 0%Z) as Ei by lia. apply E_below in Ei; lia. }
    intros k Hk. rewrite En in *. now apply E_opp.
Qed.
End Exact.

(** The mirror bin of the code is the reflection of a bin around zero exactly for an even
    number of bins below 4 * 10^digits: otherwise the zero edge it uses is not the middle one. *)
Lemma c78_exact : forall n_bin digits bin0, (1 <= n_bin)%Z -> (0 <= digits)%Z ->
  let edges := map (np_round (N:=RX) digits) (linspace nm1 n1 (Z.to_nat n_bin)) in
  zero_edge edges bin0 ->
  (reflects edges bin0 <-> Z.Even n_bin /\ (n_bin < 4 * 10 ^ digits)%Z) /\
  (reflects edges bin0 -> n_bin = (2 * Z.of_nat bin0)%Z).
Proof.
  intros n_bin digits bin0 Hn Hd edges (Hb & Hz & Hf).
  set (n := Z.to_nat n_bin) in *. assert (Nn : Z.of_nat n = n_bin) by (unfold n; lia).
  assert (HT : (0 < 10 ^ digits)%Z) by (apply Z.pow_pos_nonneg; lia). set (T := (10 ^ digits)%Z) in *.
  assert (Hp : 0 < IZR T) by now apply IZR_lt.
  assert (Le : length edges = S n) by (unfold edges; now rewrite map_length, linspace_length).
  assert (HE : forall i, (i <= n)%nat -> nth i edges nnan = XR (IZR (ZnearestE ((-1 + 2 * IZR (Z.of_nat i) / IZR (Z.of_nat n)) * IZR T)) / IZR T)).
  { intros i Hi. unfold edges. now rewrite edge_RX by (auto; lia). }
  set (E := fun i => ZnearestE ((-1 + 2 * IZR (Z.of_nat i) / IZR (Z.of_nat n)) * IZR T)).
  assert (HZ : forall i, (i <= n)%nat -> (neqb (nth i edges nnan) n0 = true <-> E i = 0%Z)).
  { intros i Hi. rewrite HE by exact Hi. change (n0 (N:=RX)) with (XR 0). rewrite neqbRX. fold (E i). split.
    - intros Q. apply eq_IZR. apply (Rmult_eq_reg_r (/ IZR T)); [|apply Rinv_neq_0_compat; lra]. rewrite Rmult_0_l. exact Q.
    - intros ->. unfold Rdiv. apply Rmult_0_l. }
  assert (Hbn : (bin0 <= n)%nat) by lia.
  assert (Z0 : E bin0 = 0%Z) by now apply HZ.
  assert (F0 : forall i, (i < bin0)%nat -> E i <> 0%Z).
  { intros i Hi C. specialize (Hf i Hi). apply HZ in C; [|lia]. congruence. }
  pose proof (b_half n T ltac:(lia) bin0 Hbn Z0 F0) as H2.
  assert (RE : reflects edges bin0 <-> forall k, (k <= 2 * bin0)%nat -> E (2 * bin0 - k)%nat = (- E k)%Z).
  { assert (Q : forall k, (k <= 2 * bin0)%nat -> (neqb (nth (2 * bin0 - k) edges nnan) (nopp (nth k edges nnan)) = true <-> E (2 * bin0 - k)%nat = (- E k)%Z)).
    { intros k Hk. rewrite !HE by lia. cbn [nopp RX xopp]. rewrite neqbRX. fold (E k) (E (2 * bin0 - k)%nat). split.
      - intros C. apply eq_IZR. rewrite opp_IZR. apply (Rmult_eq_reg_r (/ IZR T)); [|apply Rinv_neq_0_compat; lra].
        unfold Rdiv in C. rewrite C. ring.
      - intros ->. rewrite opp_IZR. unfold Rdiv. ring. }
    split.
    - intros H k Hk. apply Q; [exact Hk|]. apply H; lia.
    - intros H k Hk _ _. now apply Q, H. }
  assert (I : (forall k, (k <= 2 * bin0)%nat -> E (2 * bin0 - k)%nat = (- E k)%Z) <-> Z.Even n_bin /\ (n_bin < 4 * T)%Z).
  { rewrite <- Nn. exact (reflect_iff n T ltac:(lia) HT bin0 Hbn Z0 F0). }
  split; [now rewrite RE|].
  intros H. destruct (proj1 I (proj1 RE H)) as ((m & Ev) & Lt).
  destruct (Z.eq_dec n_bin (2 * Z.of_nat bin0)) as [Q|Q]; [exact Q|exfalso].
  set (i := (Z.to_nat m - 1)%nat). assert (Hi : (2 * i + 2 = n)%nat) by (unfold i, n in *; lia).
  pose proof (E_le n T ltac:(lia) HT bin0 i ltac:(lia)) as L1. pose proof (E_le n T ltac:(lia) HT i (n - bin0) ltac:(lia)) as L2.
  rewrite (E_opp n T) in L2 by lia. change (E bin0 <= E i)%Z in L1. change (E i <= - E bin0)%Z in L2. rewrite Z0 in L1, L2.
  assert (E i = 0%Z) as Ei by lia. apply (E_below n T ltac:(lia) HT) in Ei; lia.
Qed.
Local Close Scope R_scope.

(** *** The edges in binary64 *)
Definition zero_check {N : Num} (edges : list N) (b : nat) : bool :=
  (b <? length edges)%nat && neqb (nth b edges nnan) n0 && forallb (fun e => negb (neqb e n0)) (firstn b edges).
Lemma zero_check_spec {N : Num} (edges : list N) b : zero_check edges b = true -> zero_edge edges b.
Proof.
  unfold zero_check. intros H. apply andb_prop in H as (H & H3). apply andb_prop in H as (H1 & H2). apply Nat.ltb_lt in H1.
  split; [exact H1|]. split; [exact H2|]. intros i Hi. rewrite forallb_forall in H3. apply Bool.negb_true_iff, H3.
  rewrite <- (firstn_skipn b edges) at 1. rewrite app_nth1 by (rewrite firstn_length; lia). apply nth_In. rewrite firstn_length. lia.
Qed.
Definition reflect_check {N : Num} (edges : list N) (b : nat) : bool :=
  forallb (fun k => neqb (nth (2 * b - k) edges nnan) (nopp (nth k edges nnan))) (seq 0 (2 * b + 1)).
Lemma reflect_check_spec {N : Num} (edges : list N) b : reflect_check edges b = true -> reflects edges b.
Proof. intros H k Hk _ _. unfold reflect_check in H. rewrite forallb_forall in H. apply H, in_seq. lia. Qed.
Definition edges64 sm n_bin digits := map (np_round (N:=F64s sm) digits) (linspace nm1 n1 (Z.to_nat n_bin)).
Lemma default_mirror sm : zero_check (edges64 sm 100 2) 50 && reflect_check (edges64 sm 100 2) 50 = true.
Proof. vm_compute. reflexivity. Qed.
Lemma eighty_mirror sm : zero_check (edges64 sm 80 2) 40 = true /\ neqb (nth 73 (edges64 sm 80 2) nnan) (nopp (nth 7 (edges64 sm 80 2) nnan)) = false.
Proof. split; vm_compute; reflexivity. Qed.

(** In binary64, as the code computes, it is the reflection for the default parameters. *)
Lemma c78_default : forall sm bin0,
  let edges := map (np_round (N:=F64s sm) 2) (linspace nm1 n1 (Z.to_nat 100)) in
  zero_edge edges bin0 -> bin0 = 50%nat /\ reflects edges bin0.
Proof.
  intros sm bin0 edges H. pose proof (default_mirror sm) as D. apply andb_prop in D as (D1 & D2). apply zero_check_spec in D1.
  assert (bin0 = 50%nat) as -> by (eapply zero_edge_unique; eauto). split; [reflexivity|]. now apply reflect_check_spec.
Qed.

(** But not for every even number of bins below 4 * 10^digits: with 80 bins the edges of
    -0.825 and 0.825, both halfway between hundredths, are rounded apart. *)
Lemma c78_float_refuted : exists n_bin digits bin0, (Z.Even n_bin /\ 1 <= n_bin < 4 * 10 ^ digits /\ 0 <= digits)%Z /\
  forall sm, let edges := map (np_round (N:=F64s sm) digits) (linspace nm1 n1 (Z.to_nat n_bin)) in
  zero_edge edges bin0 /\ ~ reflects edges bin0.
Proof.
  exists 80%Z, 2%Z, 40%nat. split; [split; [exists 40%Z; reflexivity|split; [cbn; lia|lia]]|]. intros sm edges.
  destruct (eighty_mirror sm) as (E1 & E2). split; [now apply zero_check_spec|]. intros H.
  specialize (H 7%nat ltac:(lia)). assert (L : length edges = 81%nat) by (unfold edges; now rewrite map_length, linspace_length).
  rewrite L in H. specialize (H ltac:(lia) ltac:(lia)). change (2 * 40 - 7)%nat with 73%nat in H. unfold edges64, edges in *. congruence.
Qed.

Lemma labelled_all z labels l : labelled z labels l = length l -> forall i, In i l -> nth_error labels i = Some z.
Proof.
  unfold labelled. intros H i Hi. assert (F : forallb (fun i => match nth_error labels i with Some z' => (z =? z')%Z | None => false end) l = true).
  { clear Hi i. induction l as [|a l IH]; [reflexivity|]. cbn [filter forallb length] in *. set (p := match nth_error labels a with Some z' => (z =? z')%Z | None => false end) in *.
    destruct p; [simpl in *; apply IH; lia|]. exfalso. match type of H with length (filter ?f l) = _ => pose proof (flen f l) end. lia. }
  rewrite forallb_forall in F. specialize (F i Hi). cbv beta in F. destruct (nth_error labels i) as [z'|]; [|discriminate]. apply Z.eqb_eq in F. now subst.
Qed.

Lemma no_match {N : Num} St choice junk n_bin digits (eps : list N) (st : St) labels st' bin0 :
  arith N -> draws choice -> (n_bin <= 2 ^ 53)%Z -> (0 <= digits)%Z ->
  hist_split (pick_any choice) junk n_bin digits st eps = Ok (labels, st') ->
  let n := Z.to_nat n_bin in let edges := map (np_round (N:=N) digits) (linspace nm1 n1 n) in
  zero_edge edges bin0 -> (2 * bin0 < n)%nat ->
  (forall b, (bin0 <= b < 2 * bin0)%nat -> nlt (nth b edges nnan) (nth (S b) edges nnan) = false \/
     nlt (nth (2 * bin0 - 1 - b) edges nnan) (nth (S (2 * bin0 - 1 - b)) edges nnan) = false) ->
  forall i e, nth_error eps i = Some e -> nle n0 e = true -> nle e n1 = true -> nth_error labels i = Some 1%Z.
Proof.
  intros HA HD Hn Hd H n edges Hz0 H2 HE i e Hi H0 H1.
  destruct (c42_composition N St choice junk n_bin digits eps st labels st' HA HD Hn Hd H) as (bin1 & Hz & HG & Hb & HC).
  fold n in Hz, HG, Hb, HC. fold edges in Hz, HG, HC.
  assert (bin1 = bin0) as -> by (eapply zero_edge_unique; eauto). clear Hz0.
  destruct (arith_grid N HA) as (RN & _).
  assert (Hm1 : nle nm1 e = true).
  { apply (nle_iff RN). apply (nle_iff RN) in H0. eapply xle_trans; [|exact H0]. rewrite (val_nm1 RN), (val_n0 RN). simpl. lra. }
  destruct (grid_cover RN n1 n edges e ltac:(lia) HG Hm1 H1) as (b & Hbe).
  assert (Hbb : (bin0 <= b)%nat).
  { destruct (Nat.le_gt_cases bin0 b) as [L|L]; [exact L|exfalso]. destruct Hbe as (_ & _ & B & _).
    specialize (B ltac:(lia)). apply (nlt_iff RN) in B. apply (nle_iff RN) in H0. destruct Hz as (_ & Hz & _). apply (neqb_iff RN) in Hz as (Hz & _).
    apply (xlt_not_le _ _ B). eapply xle_trans; [|exact H0]. rewrite <- Hz.
    destruct (Nat.eq_dec (S b) bin0) as [Q|Q]; [rewrite Q; apply xle_refl; rewrite Hz, (val_n0 RN); discriminate|]. apply (grid_chain RN n1 n); [exact HG|lia]. }
  assert (Hbn : (b < n)%nat) by apply Hbe.
  pose proof (bin_members edges n b eps Hbn) as Ml. assert (Il : In i (bin_list edges n eps b)) by (apply Ml; eauto).
  destruct (HC b _ Hbn Ml) as (_ & A2 & A3). apply (labelled_all 1 labels (bin_list edges n eps b)); [|exact Il].
  destruct (Nat.le_gt_cases (2 * bin0) b) as [L|L]; [now apply A3|].
  set (c := (2 * bin0 - 1 - b)%nat) in *. assert (Hc : (c < n)%nat) by (unfold c; lia).
  pose proof (bin_members edges n c eps Hc) as Mc. destruct (A2 ltac:(lia) _ Mc) as (_ & ->).
  enough (Q : bin_list edges n eps c = []) by (rewrite Q; cbn [length Nat.min]; lia).
  specialize (HE b ltac:(lia)). fold c in HE. destruct HE as [D|D].
  - exfalso. destruct Hbe as (_ & A & B & _). specialize (B ltac:(lia)).
    assert (nlt (nth b edges nnan) (nth (S b) edges nnan) = true); [|congruence].
    apply (nlt_iff RN). apply (nle_iff RN) in A. apply (nlt_iff RN) in B. eapply xle_lt_trans; eauto.
  - destruct (bin_list edges n eps c) as [|k l] eqn:Q; [reflexivity|exfalso].
    destruct (proj1 (proj2 Mc k)) as (e' & _ & (_ & A & B & _)); [now left|]. specialize (B ltac:(unfold c in *; lia)).
    assert (nlt (nth c edges nnan) (nth (S c) edges nnan) = true); [|congruence].
    apply (nlt_iff RN). apply (nle_iff RN) in A. apply (nlt_iff RN) in B. eapply xle_lt_trans; eauto.
Qed.
Lemma no_mirror sm : zero_check (edges64 sm 1000 2) 498 &&
  (let edges := edges64 sm 1000 2 in
   let empty := fun b => negb (nlt (nth b edges nnan) (nth (S b) edges nnan)) in
   forallb (fun b => empty b || empty (2 * 498 - 1 - b)) (seq 498 498)) = true.
Proof. vm_cast_no_check (eq_refl true). Qed.

(** With 1000 bins and 2 digits there is no spheroid among the co-rotating particles at all:
    of every co-rotating bin and its mirror one is empty, whatever the data. *)
Lemma c78_no_spheroid : forall sm (St : Type) choice junk (eps : list (F64s sm)) (st : St) labels st',
  draws choice -> hist_split (pick_any choice) junk 1000 2 st eps = Ok (labels, st') ->
  forall i e, nth_error eps i = Some e -> nle n0 e = true -> nle e n1 = true -> nth_error labels i = Some 1%Z.
Proof.
  intros sm St choice junk eps st labels st' HD H.
  pose proof (no_mirror sm) as D. apply andb_prop in D as (D1 & D2). apply zero_check_spec in D1. cbv zeta in D2. rewrite forallb_forall in D2.
  apply (no_match St choice junk 1000 2 eps st labels st' 498 ltac:(right; eauto) HD ltac:(lia) ltac:(lia) H D1).
  - apply Nat.ltb_lt. reflexivity.
  - intros b Hb. specialize (D2 b). rewrite in_seq in D2. specialize (D2 Hb). cbv beta in D2.
    apply Bool.orb_true_iff in D2 as [D2|D2]; apply Bool.negb_true_iff in D2; [left|right]; exact D2.
Qed.

Lemma first_zero {N : Num} (edges : list N) : (exists e, In e edges /\ neqb e n0 = true) -> exists b, zero_edge edges b.
Proof.
  induction edges as [|x l IH]; intros (e & I & E); [destruct I|]. destruct (neqb x n0) eqn:X.
  - exists 0%nat. split; [simpl; lia|]. split; [exact X|lia].
  - destruct IH as (b & H1 & H2 & H3); [destruct I as [->|I]; [congruence|eauto]|]. exists (S b). split; [simpl; lia|]. split; [exact H2|].
    intros [|i] Hi; [exact X|]. apply H3. lia.
Qed.
(** In exact arithmetic 80 bins are mirrored, 401 are not although they have a zero edge. *)
Example ex_c78 :
  (exists b, zero_edge (map (np_round (N:=RX) 2) (linspace nm1 n1 80)) b /\ reflects (map (np_round (N:=RX) 2) (linspace nm1 n1 80)) b) /\
  (exists b, zero_edge (map (np_round (N:=RX) 2) (linspace nm1 n1 401)) b /\ ~ reflects (map (np_round (N:=RX) 2) (linspace nm1 n1 401)) b).
Proof.
  split.
  - destruct (c43_exact 80 2 ltac:(lia) ltac:(lia)) as (_ & _ & H). destruct (first_zero _ (proj2 H ltac:(left; exists 40%Z; reflexivity))) as (b & Hb).
    exists b. split; [exact Hb|]. apply (proj1 (c78_exact 80 2 b ltac:(lia) ltac:(lia) Hb)). split; [exists 40%Z; reflexivity|cbn; lia].
  - destruct (c43_exact 401 2 ltac:(lia) ltac:(lia)) as (_ & _ & H). destruct (first_zero _ (proj2 H ltac:(right; cbn; lia))) as (b & Hb).
    exists b. split; [exact Hb|]. intros C. apply (proj1 (c78_exact 401 2 b ltac:(lia) ltac:(lia) Hb)) in C as (_ & C). cbn in C. lia.
Qed.
(** Two particles with opposite circularities: a spheroid with 100 bins, not with 1000. *)
Example ex_c78_no_spheroid : let eps := map (fun z => nlit z 20) [-9; 9]%Z : list F64 in
  rmap fst (hist_split (pick_any turns) (fun _ => 9%Z) 100 2 false eps) = Ok [0; 0]%Z /\
  exists labels st', hist_split (pick_any turns) (fun _ => 9%Z) 1000 2 false eps = Ok (labels, st') /\ nth_error labels 1 = Some 1%Z.
Proof.
  intros eps. split; [vm_compute; reflexivity|]. assert (HA : arith F64) by (right; eexists; reflexivity).
  destruct (c43_returns F64 bool turns (fun _ => 9%Z) 1000 2 eps false HA turns_draws ltac:(lia) ltac:(lia)) as (_ & _ & R).
  destruct (R ltac:(lia) (c43_even F64 1000 2 HA ltac:(lia) ltac:(exists 500%Z; reflexivity) ltac:(lia))) as (labels & st' & H).
  exists labels, st'. split; [exact H|]. eapply (c78_no_spheroid (seqsum 53 1024 p53 e1024)); [exact turns_draws|exact H|reflexivity| |]; vm_compute; reflexivity.
Qed.
