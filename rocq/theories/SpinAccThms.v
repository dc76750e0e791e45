(** The net rotation of the spheroid of a decomposed galaxy, in floating point (C82). *)
From Verif Require Import Py Num RX F64 Np Df Data DataFacts DfFacts CenterFacts Ex Spec DataThms SpecCirc Circ CircFacts CircThms SpecBase Base BaseFacts BaseThms Threshold EpsFacts ThresholdThms SpecHist Hist HistFacts EdgeFacts HistThms EdgeThms EnergyFacts EnergyThms SpecPot SpecMirror MirrorThms PlotFacts SpinThms.
From Flocq Require Import Core IEEE754.BinarySingleNaN.
From Coq Require Import Lia Permutation.
Local Open Scope R_scope.

Lemma rank_inj m i k : nth_error m i = Some true -> nth_error m k = Some true -> rank m i = rank m k -> i = k.
Proof.
  assert (M : forall a b, (a < b)%nat -> nth_error m a = Some true -> (rank m a < rank m b)%nat).
  { intros a b H A. apply nth_true in A. induction H as [|b H IH]; [rewrite rank_S, A; lia|]. rewrite rank_S. lia. }
  intros A B E. destruct (Nat.lt_trichotomy i k) as [H|[H|H]]; [|assumption|].
  - specialize (M i k H A). lia.
  - specialize (M k i H B). lia.
Qed.

Lemma tot_pos {A} (f : A -> R) l : (forall a, In a l -> 0 <= f a) -> 0 <= total f l.
Proof. intros H. rewrite <- (tot_0 (fun _ : A => 0) l) by reflexivity. now apply tot_le. Qed.

(** A sum over the spheroid, by star. *)
Lemma bulge_index {N : Num} (h : N -> R) (labels eps : list N) : (length eps <= length labels)%nat ->
  total h (bulge labels eps) =
  total (fun k => match nth_error labels k with Some w => if neqb w n0 then at_ h eps k else 0 | None => 0 end) (seq 0 (length eps)).
Proof.
  intros L. unfold bulge. rewrite tot_map, tot_filter, tot_index, combine_length, Nat.min_r by exact L. apply tot_ext. intros i I. apply in_seq in I.
  destruct (nth_error eps i) as [e|] eqn:E; [|apply nth_error_None in E; lia]. destruct (nth_error labels i) as [z|] eqn:Z; [|apply nth_error_None in Z; lia].
  assert (Q : nth_error (combine labels eps) i = Some (z, e)).
  { clear I L. revert labels i E Z. induction eps as [|x eps IH]; intros [|y labels] [|i]; simpl; try discriminate; [congruence|apply IH]. }
  unfold at_ at 1. rewrite Q. cbn [fst snd]. unfold at_. now rewrite E.
Qed.

(** What a histogram decomposer makes of the galaxy is what it makes of the circularities of
    the stars it can use. *)
Lemma hist_bridge {N : Num} (RN : Rounded N) (G : grid RN) St (pk : matrix N -> St -> list nat -> list nat -> res (list nat * St)) col attrs
  argsort cbins n_bin digits junk st (g : galaxy N) c st' :
  (forall X st a b s st', pk X st a b = Ok (s, st') -> incl s b) ->
  star_attrs attrs -> nth_error attrs col = Some "eps"%string -> constructible g -> (n_bin <= 2 ^ 53)%Z -> (0 <= digits)%Z ->
  decompose argsort (hist_decomposer pk col attrs cbins n_bin digits junk) st g = Ok (c, st') ->
  exists j Xs labels, jcirc argsort g (fst cbins) (snd cbins) = Ok j /\
    hist_split (pk Xs) junk n_bin digits st (matrix_col col Xs) = Ok (labels, st') /\
    (forall e, In e (matrix_col col Xs) -> nle nm1 e = true /\ nle e n1 = true) /\
    (forall h, total h (bulge (c_labels c) (jc_eps j)) = total h (spheroid (matrix_col col Xs) labels)) /\
    (forall k e w, nth_error (jc_eps j) k = Some e -> nth_error (c_labels c) k = Some w -> nisnan w = false ->
       exists r z, nth_error (matrix_col col Xs) r = Some e /\ nth_error labels r = Some z /\ w = nofZ z).
Proof.
  intros Hp HA Hcol Hc Hn Hd H. set (D := hist_decomposer pk col attrs cbins n_bin digits junk) in *.
  assert (Hrows : forall st X y a l p s, d_split D st X y a = Ok (l, p, s) -> length l = length X).
  { intros st0 X y a l p s E. cbn [d_split D hist_decomposer] in E. destruct (hist_split _ _ _ _ _ _) as [(l0, s0)|] eqn:E0; [|discriminate].
    cbn [bind fst snd] in E. injection E as <- _ _. destruct (hist_split_labels RN G _ (Hp X) _ _ _ _ _ _ _ Hn Hd E0) as (L & _).
    rewrite L. unfold matrix_col. apply map_length. }
  destruct (star_decompose RN argsort St D st g c st' Hc HA eq_refl Hrows H) as (j & Xs & ys & labels & pr & sel & Hj & Hs & Ls & LX & Hl & Hr).
  cbn [d_split D hist_decomposer] in Hs. destruct (hist_split _ _ _ _ _ _) as [(l0, s0)|] eqn:E0; [|discriminate].
  cbn [bind fst snd] in Hs. injection Hs as -> _ ->. cbn [d_cbins D hist_decomposer] in Hj. cbn [d_attributes D hist_decomposer] in Hl.
  destruct (hist_split_labels RN G _ (Hp Xs) _ _ _ _ _ _ _ Hn Hd E0) as (LL & HL).
  destruct (c24_eps N RN argsort g _ _ j Hc Hj) as (B & _).
  destruct (c31_lengths N RN argsort g _ _ j Hc Hj) as (_ & Le & _).
  assert (Lm : length (matrix_col col Xs) = length Xs) by (unfold matrix_col; apply map_length).
  (* a selected star *)
  assert (K : forall k, (k < plen (g_stars g))%nat -> nth_error sel k = Some true -> exists e z, nth_error (jc_eps j) k = Some e /\
            nth_error (matrix_col col Xs) (rank sel k) = Some e /\ nle nm1 e = true /\ nle e n1 = true /\
            nth_error labels (rank sel k) = Some z /\ (z = 0 \/ z = 1)%Z /\ nth_error (c_labels c) k = Some (nofZ z)).
  { intros k Hk Sk. destruct (Hl k _ k (star_located g k Hk)) as (U & Hu & _). apply U in Sk. clear U. destruct (Hu Sk) as (z & Ez & Ew & Hcell).
    destruct Sk as (_ & F). destruct (F "eps"%string (nth_error_In _ _ Hcol)) as (e & He & Fe). change (circ_col j "eps") with (jc_eps j) in He.
    specialize (Hcell col _ Hcol). change (circ_col j "eps") with (jc_eps j) in Hcell. rewrite He in Hcell.
    destruct (B e (nth_error_In _ _ He)) as [B1|(B1 & B2)].
    { exfalso. apply (nfin_iff RN) in Fe as (r & Er). apply (nisnan_iff RN) in B1. congruence. }
    exists e, z. split; [exact He|]. split; [exact Hcell|]. split; [exact B1|]. split; [exact B2|]. split; [exact Ez|]. split; [|exact Ew].
    destruct (HL _ _ Hcell) as (A & _). destruct (A B1 B2) as ([C|C] & _); rewrite Ez in C; injection C as ->; auto. }
  assert (K' : forall k, (k < plen (g_stars g))%nat -> nth_error sel k <> Some true -> nth_error (c_labels c) k = Some nnan).
  { intros k Hk Sk. destruct (Hl k _ k (star_located g k Hk)) as (U & _ & Hnu). apply Hnu. intros V. now apply Sk, U. }
  assert (Nn : nisnan (nnan : N) = true) by (apply (nisnan_iff RN), (val_nnan RN)).
  exists j, Xs, labels. split; [exact Hj|]. split; [exact E0|]. split; [|split].
  - intros e I. apply In_nth_error in I as (r & Er). assert (Hlt : (r < length Xs)%nat) by (rewrite <- Lm; apply nth_error_Some; congruence).
    destruct (Hr r Hlt) as (k & Hk & Sk & Rk). destruct (K k Hk Sk) as (e' & z & _ & E' & B1 & B2 & _). rewrite Rk, Er in E'. injection E' as <-. auto.
  - intros h. rewrite sph_index, bulge_index by (exact LL || (rewrite Le; destruct (Nat.le_gt_cases (plen (g_stars g)) (length (c_labels c))) as [Q|Q]; [exact Q|exfalso;
      assert (N0 : nth_error (c_labels c) (length (c_labels c)) = None) by (apply nth_error_None; lia);
      destruct (nth_error sel (length (c_labels c))) as [[|]|] eqn:S0;
      [destruct (K _ Q S0) as (? & ? & _ & _ & _ & _ & _ & _ & X); congruence|rewrite K' in N0 by (exact Q || congruence); discriminate N0|rewrite K' in N0 by (exact Q || congruence); discriminate N0]])).
    rewrite Le, Lm. set (s k := match nth_error sel k with Some true => true | _ => false end).
    set (Gf r := if is0 labels r then at_ h (matrix_col col Xs) r else 0).
    transitivity (total Gf (map (rank sel) (filter s (seq 0 (plen (g_stars g)))))).
    + rewrite tot_map, tot_filter. apply tot_ext. intros k I. apply in_seq in I. unfold s. destruct (nth_error sel k) as [[|]|] eqn:Sk.
      * destruct (K k ltac:(lia) Sk) as (e & z & He & Hcell & _ & _ & Ez & Z01 & Ew). rewrite Ew. unfold Gf, is0, at_. rewrite Ez, Hcell, He.
        destruct Z01 as [-> | ->].
        -- assert (neqb (nofZ 0 : N) n0 = true) as -> by (change (neqb (@n0 N) n0 = true); apply (neqb_iff RN); rewrite (val_n0 RN); split; [reflexivity|discriminate]). reflexivity.
        -- assert (neqb (nofZ 1 : N) n0 = false) as ->; [|reflexivity].
           destruct (neqb (nofZ 1 : N) n0) eqn:Q; [|reflexivity]. apply (neqb_iff RN) in Q as (Q & _). change (nofZ 1 : N) with (@n1 N) in Q.
           rewrite (val_n0 RN), (v_n1 RN) in Q. injection Q as Q. lra.
      * rewrite K' by (lia || congruence). destruct (neqb (nnan : N) n0) eqn:Q; [|reflexivity]. apply (neqb_iff RN) in Q as (Q & Q'). rewrite (val_nnan RN) in Q'. contradiction.
      * rewrite K' by (lia || congruence). destruct (neqb (nnan : N) n0) eqn:Q; [|reflexivity]. apply (neqb_iff RN) in Q as (Q & Q'). rewrite (val_nnan RN) in Q'. contradiction.
    + apply tot_perm, NoDup_Permutation; [|apply seq_NoDup|].
      * apply nodup_map_in; [|apply NoDup_filter, seq_NoDup]. intros a b Ia Ib E. apply filter_In in Ia as (_ & Sa), Ib as (_ & Sb). unfold s in Sa, Sb.
        destruct (nth_error sel a) as [[|]|] eqn:Ea; try discriminate Sa. destruct (nth_error sel b) as [[|]|] eqn:Eb; try discriminate Sb. now apply (rank_inj sel).
      * intros r. rewrite in_seq, in_map_iff. split.
        -- intros (k & <- & I). apply filter_In in I as (_ & Sk). unfold s in Sk. destruct (nth_error sel k) as [[|]|] eqn:Ek; try discriminate Sk.
           apply rank_lt in Ek. lia.
        -- intros I. destruct (Hr r ltac:(lia)) as (k & Hk & Sk & Rk). exists k. split; [exact Rk|]. apply filter_In. split; [apply in_seq; lia|]. unfold s. now rewrite Sk.
  - intros k e w Ee Ew Nw. assert (Hk : (k < plen (g_stars g))%nat) by (rewrite <- Le; apply nth_error_Some; congruence).
    destruct (nth_error sel k) as [[|]|] eqn:Sk; [|rewrite K' in Ew by (lia || congruence); congruence|rewrite K' in Ew by (lia || congruence); congruence].
    destruct (K k Hk Sk) as (e' & z & He & Hcell & _ & _ & Ez & _ & Ew'). exists (rank sel k), z. split; [congruence|]. split; [exact Ez|congruence].
Qed.

(** *** The default edges in floating point *)

(** The value in units of 2^-60, for the values that are multiples of it. *)
Definition in60 (x : f64) : bool := match x with B754_zero _ => true | B754_finite _ _ e _ => (-60 <=? e)%Z | _ => false end.
Definition of60 (x : f64) : Z := match x with B754_finite s m e _ => cond_Zopp s (Zpos m) * 2 ^ (60 + e) | _ => 0 end.
Lemma val60 sm (x : F64s sm) : in60 x = true -> val (F64_rounded sm) x = XR (IZR (of60 x) / IZR (2 ^ 60)).
Proof.
  change (val (F64_rounded sm) x) with (bval _ _ x). destruct x as [s| | |s m e H]; cbn [in60]; intros I; try discriminate I.
  - cbn [bval of60]. f_equal. unfold Rdiv. now rewrite Rmult_0_l.
  - apply Z.leb_le in I. cbn [bval of60 B2R]. f_equal. unfold F2R. cbn [Fnum Fexp]. rewrite mult_IZR.
    assert (P : IZR (2 ^ (60 + e)) = bpow radix2 e * IZR (2 ^ 60)).
    { pose proof (IZR_Zpower radix2 (60 + e) ltac:(lia)) as P. change (IZR (2 ^ (60 + e)) = bpow radix2 (60 + e)) in P. rewrite P, bpow_plus. change (bpow radix2 60) with (IZR (2 ^ 60)). ring. }
    rewrite P. field. apply IZR_neq. discriminate.
Qed.

Definition width_check sm (edges : list (F64s sm)) : bool :=
  forallb (fun i => in60 (nth i edges nnan)) (seq 0 101) &&
  forallb (fun i => (50 * (of60 (nth (S i) edges nnan) - of60 (nth i edges nnan)) <=? 2 ^ 60 + 50 * 2 ^ 7)%Z) (seq 0 100) &&
  forallb (fun i => (of60 (nth (100 - i) edges nnan) =? - of60 (nth i edges nnan))%Z) (seq 0 101).
Lemma default_widths sm : width_check sm (edges64 sm 100 2) = true.
Proof. vm_compute. reflexivity. Qed.

(** *** C82 *)
Section Spin64.
Context (sm : list f64 -> f64).
Local Notation RN := (F64_rounded sm).
Local Notation v := (val (F64_rounded sm)).

Lemma widths_spec edges : width_check sm edges = true -> exists er,
  (forall i, (i <= 100)%nat -> v (nth i edges nnan) = XR (er i)) /\
  (forall i, (i < 100)%nat -> er (S i) - er i <= 1 / 50 + / IZR (2 ^ 53)) /\
  (forall i, (i <= 100)%nat -> er (100 - i)%nat = - er i).
Proof.
  intros W. unfold width_check in W. apply andb_prop in W as (W & W3). apply andb_prop in W as (W1 & W2).
  rewrite forallb_forall in W1, W2, W3. set (D i := of60 (nth i edges nnan)). exists (fun i => IZR (D i) / IZR (2 ^ 60)).
  assert (V2 : forall i, (i < 100)%nat -> (50 * (D (S i) - D i) <= 2 ^ 60 + 50 * 2 ^ 7)%Z) by (intros i Hi; apply Z.leb_le, W2, in_seq; lia).
  assert (V3 : forall i, (i <= 100)%nat -> (D (100 - i)%nat = - D i)%Z) by (intros i Hi; apply Z.eqb_eq, W3, in_seq; lia).
  assert (P : 0 < IZR (2 ^ 60)) by (apply IZR_lt; reflexivity). split; [|split].
  - intros i Hi. apply val60, W1, in_seq. lia.
  - intros i Hi. specialize (V2 i Hi). apply IZR_le in V2. rewrite mult_IZR, minus_IZR, plus_IZR, mult_IZR in V2.
    replace (/ IZR (2 ^ 53)) with (IZR (2 ^ 7) / IZR (2 ^ 60)).
    + set (K := IZR (2 ^ 60)) in *. set (A := IZR (2 ^ 7)) in *. clearbody K A. apply Rmult_le_reg_r with K; [exact P|].
      replace ((IZR (D (S i)) / K - IZR (D i) / K) * K) with (IZR (D (S i)) - IZR (D i)) by (field; lra).
      replace ((1 / 50 + A / K) * K) with (K / 50 + A) by (field; lra). lra.
    + change (2 ^ 60)%Z with (2 ^ 7 * 2 ^ 53)%Z. rewrite mult_IZR. field. split; apply IZR_neq; discriminate.
  - intros i Hi. rewrite V3, opp_IZR by exact Hi. lra.
Qed.

Lemma edges_default : exists er,
  (forall i, (i <= 100)%nat -> v (nth i (edges64 sm 100 2) nnan) = XR (er i)) /\
  (forall i, (i < 100)%nat -> er (S i) - er i <= 1 / 50 + / IZR (2 ^ 53)) /\
  (forall i, (i <= 100)%nat -> er (100 - i)%nat = - er i).
Proof. exact (widths_spec _ (default_widths sm)). Qed.

(** The sum of the circularities, as real numbers. *)
Lemma reals_of (l : list (F64s sm)) : (forall e, In e l -> nle nm1 e = true /\ nle e n1 = true) ->
  exists rs, map v l = map XR rs /\ sum_of rs = total (rof RN) l.
Proof.
  intros H. exists (map (rof RN) l). split.
  - rewrite map_map. apply map_ext_in. intros e I. destruct (H e I) as (A & B). apply (nle_iff RN) in A, B. unfold rof. rewrite (val_nm1 RN) in A. rewrite (v_n1 RN) in B.
    destruct (v e); simpl in *; try contradiction. reflexivity.
  - unfold sum_of. now rewrite tot_map.
Qed.
Lemma sph_incl {A} (eps : list A) labels e : In e (spheroid eps labels) -> In e eps.
Proof. unfold spheroid. intros I. apply in_map_iff in I as ((a & z) & <- & I). apply filter_In in I as (I & _). eapply in_combine_l, I. Qed.

Lemma net64 (St : Type) choice pick junk (eps : list (F64s sm)) (st : St) labels st' :
  draws choice -> (forall e, In e eps -> nle nm1 e = true /\ nle e n1 = true) ->
  (pick = pick_any choice \/ exists (energy : list (F64s sm)) n_bin_E, (n_bin_E <= 2 ^ 53)%Z /\ pick = pick_energy choice energy n_bin_E) ->
  hist_split pick junk 100 2 st eps = Ok (labels, st') ->
  let w := 1 / 50 + / IZR (2 ^ 53) in
  total (rof RN) (spheroid eps labels) <= w * INR (counter eps) /\
  (pick = pick_any choice ->
   (forall b l l', (b < 50)%nat -> members (edges64 sm 100 2) 100 b eps l -> members (edges64 sm 100 2) 100 (99 - b) eps l' -> (length l <= length l')%nat) ->
   - (w * INR (counter eps)) <= total (rof RN) (spheroid eps labels)).
Proof.
  intros HD HI HP H w. assert (HA : arith (F64s sm)) by (right; eauto). assert (Hn : (100 <= 2 ^ 53)%Z) by (vm_compute; discriminate).
  destruct (composed (F64s sm) St choice pick junk 100 2 eps st labels st' HA HD Hn ltac:(lia) HP H) as (HL & bin0 & Hz & HG & Hb & C1 & C2 & C3).
  destruct (c78_default sm bin0 Hz) as (-> & _). fold (edges64 sm 100 2) in Hz, HG, C1, C2, C3. change (Z.to_nat 100) with 100%nat in *.
  destruct edges_default as (er & HE & Hw & Hr).
  assert (C2' : forall b, (50 <= b < 100)%nat -> (labelled 0 labels (bin_list (edges64 sm 100 2) 100 eps b) <= length (bin_list (edges64 sm 100 2) 100 eps (2 * 50 - 1 - b)%nat))%nat)
    by (intros b Hbb; apply C2; lia).
  split; [exact (net_upper RN 100 (edges64 sm 100 2) eps er w 50 labels HG HI HE Hw Hr eq_refl ltac:(lia) HL C1 C2')|].
  intros -> HM. apply (net_lower RN 100 (edges64 sm 100 2) eps er w 50 labels HG HI HE Hw Hr eq_refl ltac:(lia) HL C1 C2'). intros b Hbb.
  destruct (c42_composition (F64s sm) St choice junk 100 2 eps st labels st' HA HD Hn ltac:(lia) H) as (bin1 & Hz1 & _ & _ & HC).
  destruct (c78_default sm bin1 Hz1) as (-> & _). fold (edges64 sm 100 2) in HC. change (Z.to_nat 100) with 100%nat in HC.
  destruct (HC b _ ltac:(lia) (bin_members (edges64 sm 100 2) 100 b eps ltac:(lia))) as (_ & A & _).
  destruct (A ltac:(lia) _ (bin_members (edges64 sm 100 2) 100 (2 * 50 - 1 - b) eps ltac:(lia))) as (-> & _). apply Nat.min_l.
  apply (HM (2 * 50 - 1 - b)%nat); [lia|apply bin_members; lia|]. replace (99 - (2 * 50 - 1 - b))%nat with b by lia. apply bin_members. lia.
Qed.
End Spin64.

(** With the default bins, in binary64: the circularities of the spheroid of either histogram
    decomposition add up to at most one bin width for each counter-rotating particle; and, for
    JHistogram, if no co-rotating bin holds fewer particles than its mirror, to no less than
    minus that. *)
Lemma c82_net : forall (sm : list f64 -> f64) (St : Type) choice pick junk (eps : list (F64s sm)) (st : St) labels st',
  draws choice -> (forall e, In e eps -> nle nm1 e = true /\ nle e n1 = true) ->
  (pick = pick_any choice \/ exists (energy : list (F64s sm)) n_bin_E, (n_bin_E <= 2 ^ 53)%Z /\ pick = pick_energy choice energy n_bin_E) ->
  hist_split pick junk 100 2 st eps = Ok (labels, st') ->
  let w := 1 / 50 + / IZR (2 ^ 53) in
  let edges := map (np_round (N:=F64s sm) 2) (linspace nm1 n1 100) in
  exists rs, map (val (F64_rounded sm)) (spheroid eps labels) = map XR rs /\
    sum_of rs <= w * INR (counter eps) /\
    (pick = pick_any choice ->
     (forall b l l', (b < 50)%nat -> members edges 100 b eps l -> members edges 100 (99 - b) eps l' -> (length l <= length l')%nat) ->
     - (w * INR (counter eps)) <= sum_of rs).
Proof.
  intros sm St choice pick junk eps st labels st' HD HI HP H w edges.
  destruct (reals_of sm (spheroid eps labels)) as (rs & E & S); [intros e I; apply HI; eapply sph_incl; exact I|].
  exists rs. split; [exact E|]. rewrite S. exact (net64 sm St choice pick junk eps st labels st' HD HI HP H).
Qed.

(** A negative circularity is put into the spheroid. *)
Lemma negative_label {N : Num} (RN : Rounded N) (St : Type) choice pick junk n_bin digits (eps : list N) (st : St) labels st' r e z :
  arith N -> draws choice -> (n_bin <= 2 ^ 53)%Z -> (0 <= digits)%Z ->
  (pick = pick_any choice \/ exists (energy : list N) n_bin_E, (n_bin_E <= 2 ^ 53)%Z /\ pick = pick_energy choice energy n_bin_E) ->
  (forall e, In e eps -> nle nm1 e = true /\ nle e n1 = true) ->
  hist_split pick junk n_bin digits st eps = Ok (labels, st') ->
  nth_error eps r = Some e -> nth_error labels r = Some z -> nlt e n0 = true -> z = 0%Z.
Proof.
  intros HA HD Hn Hd HP HI H Er Ez Hneg.
  destruct (composed N St choice pick junk n_bin digits eps st labels st' HA HD Hn Hd HP H) as (HL & bin0 & (_ & Hz & _) & HG & Hb & C1 & _ & _).
  set (n := Z.to_nat n_bin) in *. set (edges := map (np_round digits) (linspace nm1 n1 n)) in *.
  destruct (HI e (nth_error_In _ _ Er)) as (I1 & I2). destruct (grid_cover RN n1 n edges e ltac:(lia) HG I1 I2) as (b & Hbb).
  destruct (Nat.le_gt_cases bin0 b) as [L|L].
  { destruct (pos_bin RN n edges eps ltac:(lia) HG HI bin0 Hz Hb b e L Hbb) as (Q & _). congruence. }
  pose proof (labelled_all 0 labels _ (C1 b L) r) as Q. rewrite Ez in Q.
  assert (I : In r (bin_list edges n eps b)) by (apply (B_in n edges eps b r ltac:(lia)); eauto). specialize (Q I). congruence.
Qed.

(** What either decomposer makes of a galaxy, in terms of the circularities of the usable stars. *)
Lemma hist_core {N : Num} (RN : Rounded N) (G : grid RN) (St : Type) choice argsort junk cbins n_bin digits n_bin_E (D : decomposer N St) (st : St) (g : galaxy N) c st' :
  draws choice -> constructible g -> (n_bin <= 2 ^ 53)%Z -> (n_bin_E <= 2 ^ 53)%Z -> (0 <= digits)%Z ->
  (D = jhistogram choice junk cbins n_bin digits \/ D = jehistogram choice junk cbins n_bin digits n_bin_E) ->
  decompose argsort D st g = Ok (c, st') ->
  exists j col Xs pick labels, jcirc argsort g (fst cbins) (snd cbins) = Ok j /\
    (pick = pick_any choice \/ exists (energy : list N) n_bin_E, (n_bin_E <= 2 ^ 53)%Z /\ pick = pick_energy choice energy n_bin_E) /\
    hist_split pick junk n_bin digits st (matrix_col col Xs) = Ok (labels, st') /\
    (forall e, In e (matrix_col col Xs) -> nle nm1 e = true /\ nle e n1 = true) /\
    (forall h, total h (bulge (c_labels c) (jc_eps j)) = total h (spheroid (matrix_col col Xs) labels)) /\
    (forall k e w, nth_error (jc_eps j) k = Some e -> nth_error (c_labels c) k = Some w -> nisnan w = false ->
       exists r z, nth_error (matrix_col col Xs) r = Some e /\ nth_error labels r = Some z /\ w = nofZ z).
Proof.
  intros HD Hc Hn HnE Hd [-> | ->] H.
  - destruct (hist_bridge RN G St (fun _ => pick_any choice) 0 ["eps"%string] argsort cbins n_bin digits junk st g c st'
              (fun _ => pick_any_incl choice HD) eps_attrs eq_refl Hc Hn Hd H) as (j & Xs & labels & A & B). exists j, 0%nat, Xs, (pick_any choice), labels. auto.
  - destruct (hist_bridge RN G St (fun X => pick_energy choice (matrix_col 0 X) n_bin_E) 1 ["normalized_star_energy"; "eps"]%string argsort cbins n_bin digits junk st g c st'
              (fun X => pick_energy_incl RN G choice (matrix_col 0 X) n_bin_E HD HnE) energy_attrs eq_refl Hc Hn Hd H) as (j & Xs & labels & A & B).
    exists j, 1%nat, Xs, (pick_energy choice (matrix_col 0 Xs) n_bin_E), labels. split; [exact A|]. split; [right; eauto|exact B].
Qed.

(** In a decomposed galaxy every labelled star with negative circularity is in the spheroid,
    and the spheroid holds no more stars with circularity from zero on than of those, for any
    number of bins and digits and in any arithmetic. *)
Lemma c82_stars : forall (N : Num) (St : Type) choice argsort junk cbins n_bin digits n_bin_E (D : decomposer N St) (st : St) (g : galaxy N) c st',
  arith N -> draws choice -> constructible g -> (n_bin <= 2 ^ 53)%Z -> (n_bin_E <= 2 ^ 53)%Z -> (0 <= digits)%Z ->
  (D = jhistogram choice junk cbins n_bin digits \/ D = jehistogram choice junk cbins n_bin digits n_bin_E) ->
  decompose argsort D st g = Ok (c, st') ->
  exists j, jcirc argsort g (fst cbins) (snd cbins) = Ok j /\
    (forall k e w, nth_error (jc_eps j) k = Some e -> nth_error (c_labels c) k = Some w -> nisnan w = false -> nlt e n0 = true -> w = nofZ 0) /\
    let S := bulge (c_labels c) (jc_eps j) in (corot S <= counter S)%nat.
Proof.
  intros N St choice argsort junk cbins n_bin digits n_bin_E D st g c st' HA HD Hc Hn HnE Hd HP H. destruct (arith_grid N HA) as (RN & G).
  destruct (hist_core RN G St choice argsort junk cbins n_bin digits n_bin_E D st g c st' HD Hc Hn HnE Hd HP H) as (j & col & Xs & pick & labels & Hj & Hpk & Hs & HI & HT & HL).
  exists j. split; [exact Hj|]. split.
  - intros k e w Ee Ew Nw Hneg. destruct (HL k e w Ee Ew Nw) as (r & z & Er & Ez & ->). f_equal.
    exact (negative_label RN St choice pick junk n_bin digits _ st labels st' r e z HA HD Hn Hd Hpk HI Hs Er Ez Hneg).
  - intros S. apply INR_le. unfold corot, counter, S. rewrite !tot_count, !HT, <- !tot_count. fold (corot (spheroid (matrix_col col Xs) labels)) (counter (spheroid (matrix_col col Xs) labels)).
    apply le_INR. destruct (c79_counts N St choice pick junk n_bin digits _ st labels st' HA HD Hn Hd Hpk HI Hs) as (L & ->). exact L.
Qed.

(** With the default bins, in binary64: the circularities of the stars of the spheroid are
    real numbers that add up to at most one bin width for each counter-rotating star in it. *)
Lemma c82_galaxy : forall (sm : list f64 -> f64) (St : Type) choice argsort junk cbins n_bin_E (D : decomposer (F64s sm) St) (st : St) (g : galaxy (F64s sm)) c st',
  draws choice -> constructible g -> (n_bin_E <= 2 ^ 53)%Z ->
  (D = jhistogram choice junk cbins 100 2 \/ D = jehistogram choice junk cbins 100 2 n_bin_E) ->
  decompose argsort D st g = Ok (c, st') ->
  exists j rs, jcirc argsort g (fst cbins) (snd cbins) = Ok j /\
    let S := bulge (c_labels c) (jc_eps j) in
    map (val (F64_rounded sm)) S = map XR rs /\ sum_of rs <= (1 / 50 + / IZR (2 ^ 53)) * INR (counter S).
Proof.
  intros sm St choice argsort junk cbins n_bin_E D st g c st' HD Hc HnE HP H. assert (HA : arith (F64s sm)) by (right; eauto).
  assert (Hn : (100 <= 2 ^ 53)%Z) by (vm_compute; discriminate).
  destruct (hist_core (F64_rounded sm) (grid_F64 sm) St choice argsort junk cbins 100 2 n_bin_E D st g c st' HD Hc Hn HnE ltac:(lia) HP H) as (j & col & Xs & pick & labels & Hj & Hpk & Hs & HI & HT & HL).
  set (S := bulge (c_labels c) (jc_eps j)) in *.
  assert (HS : forall e, In e S -> nle nm1 e = true /\ nle e n1 = true).
  { assert (Z : total (fun e : F64s sm => if nle nm1 e && nle e n1 then 0 else 1) S = 0).
    { rewrite HT. apply tot_0. intros e I. destruct (HI e (sph_incl _ _ _ I)) as (-> & ->). reflexivity. }
    clear - Z. induction S as [|x S IH]; [intros e []|]. cbn [total fold_right] in Z.
    assert (P : 0 <= total (fun e : F64s sm => if nle nm1 e && nle e n1 then 0 else 1) S) by (apply tot_pos; intros e _; destruct (nle nm1 e && nle e n1); lra).
    unfold total in Z, P, IH. intros e [->|I].
    - destruct (nle nm1 e); [destruct (nle e n1); [auto|]|]; cbn [andb] in Z; lra.
    - apply IH; [|exact I]. destruct (nle nm1 x && nle x n1); lra. }
  destruct (reals_of sm S HS) as (rs & E & Er). exists j, rs. split; [exact Hj|]. cbv zeta. fold S. split; [exact E|]. rewrite Er, HT.
  replace (INR (counter S)) with (INR (counter (matrix_col col Xs))).
  - exact (proj1 (net64 sm St choice pick junk _ st labels st' HD HI Hpk Hs)).
  - destruct (c79_counts (F64s sm) St choice pick junk 100 2 _ st labels st' HA HD Hn ltac:(lia) Hpk HI Hs) as (_ & <-).
    unfold counter. rewrite !tot_count. symmetry. apply HT.
Qed.

(** The sample galaxy with the default parameters: one counter-rotating star and one other in
    the spheroid, whichever star is drawn. *)
Example ex_c82 :
  map (fun st =>
     (do g <- sampleG; do j <- jcirc asort g default_bin0 default_bin1;
      do r <- decompose asort (jhistogram turns (fun _ => 9%Z) (default_bin0, default_bin1) 100 2) st g;
      do q <- decompose asort (jehistogram turns (fun _ => 9%Z) (default_bin0, default_bin1) 100 2 20) st g;
      let A := bulge (c_labels (fst r)) (jc_eps j) in let B := bulge (c_labels (fst q)) (jc_eps j) in
      Ok (shows A, corot A, counter A, (corot B, counter B)))) [false; true] =
  [Ok ([sZ 1; sZ (-1)], 1, 1, (1, 1)); Ok ([sZ 1; sZ (-1)], 1, 1, (1, 1))]%nat.
Proof. vm_compute. reflexivity. Qed.
(** Eight circularities in the default bins: three of them negative, five in the spheroid. *)
Example ex_c82_net :
  let eps := map (fun z => nlit z 1000) [-905; -313; -312; 5; 311; 312; 313; 914]%Z : list F64 in
  map (fun st => rmap (fun r => (fst r, counter eps, corot (spheroid eps (fst r)), counter (spheroid eps (fst r))))
        (hist_split (pick_any turns) (fun _ => 9%Z) 100 2 st eps)) [false; true] =
  [Ok ([0; 0; 0; 1; 0; 0; 1; 0]%Z, 3, 3, 3); Ok ([0; 0; 0; 1; 1; 0; 0; 0]%Z, 3, 3, 3)]%nat
  /\ forallb (fun e => nle nm1 e && nle e n1) eps = true.
Proof. vm_compute. auto. Qed.
