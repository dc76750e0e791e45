(** JEHistogram (C45, C46). *)
From Verif Require Import Py Num RX F64 Np Df Data DataFacts DfFacts CenterFacts Ex Spec DataThms SpecCirc Circ CircFacts CircThms SpecBase Base BaseFacts BaseThms Threshold EpsFacts ThresholdThms SpecHist Hist HistFacts EdgeFacts HistThms EnergyFacts.
From Coq Require Import Floats.SpecFloat Permutation Lia.

Lemma take_at_range {N : Num} (a : list N) l es : take_at a l = Ok es -> forall i, In i l -> (i < length a)%nat.
Proof.
  unfold take_at. revert es. induction l as [|k l IH]; intros es H i I; [destruct I|]. cbn [mapM] in H.
  destruct (nth_error a k) as [x|] eqn:E; [|discriminate]. cbn [bind] in H. destruct (mapM _ l) as [es'|] eqn:E'; [|discriminate].
  destruct I as [<-|I]; [apply nth_error_Some; congruence|]. eapply IH; eauto.
Qed.
Lemma pick_energy_range {N : Num} {St} (choice : St -> list nat -> nat -> list nat * St) (energy : list N) n_bin_E st cnt cor s st' :
  pick_energy choice energy n_bin_E st cnt cor = Ok (s, st') ->
  (1 <= n_bin_E)%Z /\ (forall i, In i cnt -> (i < length energy)%nat) /\ (forall i, In i cor -> (i < length energy)%nat).
Proof.
  unfold pick_energy. destruct (take_at energy cnt) as [ecnt|] eqn:E1; [|discriminate]. cbn [bind]. unfold np_histogram.
  destruct (Z.leb_spec 1 n_bin_E) as [L|L]; [|discriminate]. cbn [guard bind]. destruct (take_at energy cor) as [ecor|] eqn:E2; [|discriminate].
  intros _. split; [exact L|]. split; eapply take_at_range; eauto.
Qed.
Lemma pick_energy_sound {N : Num} (RN : Rounded N) (G : grid RN) {St} (choice : St -> list nat -> nat -> list nat * St) (energy : list N) n_bin_E : draws choice -> (n_bin_E <= 2 ^ 53)%Z ->
  forall st a b s st', pick_energy choice energy n_bin_E st a b = Ok (s, st') -> incl s b /\ (NoDup b -> NoDup s).
Proof.
  intros HD Hn st a b s st' H. destruct (pick_energy_range _ _ _ _ _ _ _ _ H) as (H1 & Ha & Hb).
  destruct (pick_energy_ok RN G choice HD energy n_bin_E ltac:(lia) st a b s st' Ha Hb H) as (A & B & _). auto.
Qed.
Lemma pick_energy_incl {N : Num} (RN : Rounded N) (G : grid RN) {St} (choice : St -> list nat -> nat -> list nat * St) (energy : list N) n_bin_E : draws choice -> (n_bin_E <= 2 ^ 53)%Z ->
  forall st a b s st', pick_energy choice energy n_bin_E st a b = Ok (s, st') -> incl s b.
Proof. intros HD Hn st a b s st' H. apply (pick_energy_sound RN G choice energy n_bin_E HD Hn _ _ _ _ _ H). Qed.

(** As for JHistogram, each particle with a circularity between -1 and 1 gets the label 0 or
    1, whatever the energies, the generator and the memory of the labels. *)
Lemma c45_labels : forall (N : Num) (St : Type) choice junk n_bin digits n_bin_E (energy eps : list N) (st : St) labels st',
  arith N -> draws choice -> (n_bin <= 2 ^ 53)%Z -> (n_bin_E <= 2 ^ 53)%Z -> (0 <= digits)%Z ->
  hist_split (pick_energy choice energy n_bin_E) junk n_bin digits st eps = Ok (labels, st') ->
  length labels = length eps /\
  forall i e, nth_error eps i = Some e ->
    (nle nm1 e = true -> nle e n1 = true ->
       (nth_error labels i = Some 0%Z \/ nth_error labels i = Some 1%Z) /\
       forall junk', exists labels', hist_split (pick_energy choice energy n_bin_E) junk' n_bin digits st eps = Ok (labels', st') /\
         nth_error labels' i = nth_error labels i) /\
    (nle nm1 e && nle e n1 = false -> nth_error labels i = Some (junk i)).
Proof.
  intros N St choice junk n_bin digits n_bin_E energy eps st labels st' HA HD Hn HnE Hd H. destruct (arith_grid N HA) as (RN & G).
  apply (hist_split_labels RN G _ (pick_energy_incl RN G choice energy n_bin_E HD HnE) _ _ _ _ _ _ _ Hn Hd H).
Qed.

Lemma energy_attrs : star_attrs ["normalized_star_energy"; "eps"]%string.
Proof.
  split; [discriminate|]. intros a [<-|[<-|[]]]; (split; [|discriminate]).
  - now left.
  - right; right; now left.
Qed.

(** decompose gives each star with a finite energy and circularity the label 0 or 1 and every
    other particle NaN; nothing depends on what the memory held before. *)
Lemma c45_decompose : forall (N : Num) (St : Type) choice argsort junk cbins n_bin digits n_bin_E (st : St) (g : galaxy N) c st',
  arith N -> draws choice -> constructible g -> (n_bin <= 2 ^ 53)%Z -> (n_bin_E <= 2 ^ 53)%Z -> (0 <= digits)%Z ->
  decompose argsort (jehistogram choice junk cbins n_bin digits n_bin_E) st g = Ok (c, st') ->
  (exists j, jcirc argsort g (fst cbins) (snd cbins) = Ok j /\
     forall i p k, located g i p k ->
      let usable := p_type p = STARS /\ exists w e, nth_error (jc_E j) k = Some w /\ nth_error (jc_eps j) k = Some e /\ nfin w = true /\ nfin e = true in
      (usable -> nth_error (c_labels c) i = Some (nofZ 0) \/ nth_error (c_labels c) i = Some (nofZ 1)) /\
      (~ usable -> nth_error (c_labels c) i = Some nnan)) /\
  forall junk', decompose argsort (jehistogram choice junk' cbins n_bin digits n_bin_E) st g = Ok (c, st').
Proof.
  intros N St choice argsort junk cbins n_bin digits n_bin_E st g c st' HA HD Hc Hn HnE Hd H. destruct (arith_grid N HA) as (RN & G).
  destruct (hist_decompose RN G St (fun X => pick_energy choice (matrix_col 0 X) n_bin_E) 1 ["normalized_star_energy"; "eps"]%string argsort cbins n_bin digits junk st g c st'
              (fun X => pick_energy_incl RN G choice (matrix_col 0 X) n_bin_E HD HnE) energy_attrs eq_refl Hc Hn Hd H) as ((j & Hj & HL) & HJ).
  split; [|exact HJ]. exists j. split; [exact Hj|]. intros i p k Hk usable. destruct (HL i p k Hk) as (A & B). unfold usable. split.
  - intros (T & w & e & Ew & Ee & Fw & Fe). apply A. split; [exact T|]. intros a [<-|[<-|[]]]; eauto.
  - intros U. apply B. intros (T & V). apply U. split; [exact T|].
    destruct (V "normalized_star_energy"%string) as (w & Ew & Fw); [now left|]. destruct (V "eps"%string) as (e & Ee & Fe); [right; now left|].
    exists w, e. auto.
Qed.

(** Two objects with the same hyper-parameters and generator agree on every sequence of
    galaxies, though their memory differs. *)
Lemma c44_reproducible_energy : forall (N : Num) (St : Type) choice argsort junk1 junk2 cbins n_bin digits n_bin_E (st : St) (gs : list (galaxy N)),
  arith N -> draws choice -> Forall constructible gs -> (n_bin <= 2 ^ 53)%Z -> (n_bin_E <= 2 ^ 53)%Z -> (0 <= digits)%Z ->
  session argsort (jehistogram choice junk1 cbins n_bin digits n_bin_E) st gs =
  session argsort (jehistogram choice junk2 cbins n_bin digits n_bin_E) st gs.
Proof.
  intros N St choice argsort junk1 junk2 cbins n_bin digits n_bin_E st gs HA HD HC Hn HnE Hd. destruct (arith_grid N HA) as (RN & G).
  exact (hist_session RN G St (fun X => pick_energy choice (matrix_col 0 X) n_bin_E) 1 ["normalized_star_energy"; "eps"]%string argsort cbins n_bin digits junk1 junk2 st gs
           (fun X => pick_energy_incl RN G choice (matrix_col 0 X) n_bin_E HD HnE) energy_attrs eq_refl HC Hn Hd).
Qed.

(** The composition of the spheroid: as for JHistogram, but in a co-rotating bin more
    populated than its mirror each energy bin gives min(counter, co) particles, only
    energies in [-1, 0) give any, and so never more than the mirror holds. *)
Lemma c45_composition : forall (N : Num) (St : Type) choice junk n_bin digits n_bin_E (energy eps : list N) (st : St) labels st',
  arith N -> draws choice -> (n_bin <= 2 ^ 53)%Z -> (n_bin_E <= 2 ^ 53)%Z -> (0 <= digits)%Z ->
  hist_split (pick_energy choice energy n_bin_E) junk n_bin digits st eps = Ok (labels, st') ->
  let n := Z.to_nat n_bin in let edges := map (np_round digits) (linspace nm1 n1 n) in
  let nE := Z.to_nat n_bin_E in let ed := linspace nm1 n0 nE in
  exists bin0, zero_edge edges bin0 /\ grid_to n1 n edges /\ (0 < bin0 < n)%nat /\
   forall b l, (b < n)%nat -> members edges n b eps l ->
    ((b < bin0)%nat -> labelled 0 labels l = length l) /\
    ((2 * bin0 <= b)%nat -> labelled 1 labels l = length l) /\
    ((bin0 <= b < 2 * bin0)%nat -> forall l', members edges n (2 * bin0 - 1 - b) eps l' ->
       (labelled 0 labels l + labelled 1 labels l = length l)%nat /\
       ((length l <= length l')%nat -> labelled 0 labels l = length l) /\
       ((length l' < length l)%nat ->
          (1 <= n_bin_E)%Z /\ (labelled 0 labels l <= length l')%nat /\
          (forall j, (j < nE)%nat -> labelled 0 labels (with_energy (half_open ed j) energy l) =
             Nat.min (length (with_energy (counted ed nE j) energy l')) (length (with_energy (half_open ed j) energy l))) /\
          (forall i, In i l -> nth_error labels i = Some 0%Z -> exists e, nth_error energy i = Some e /\ nle nm1 e = true /\ nlt e n0 = true))).
Proof.
  intros N St choice junk n_bin digits n_bin_E energy eps st labels st' HA HD Hn HnE Hd H. destruct (arith_grid N HA) as (RN & G).
  destruct (hist_compose RN G _ (pick_energy_sound RN G choice energy n_bin_E HD HnE) _ _ _ _ _ _ _ Hn Hd H) as (bin0 & Hz & HG & Hb & HC).
  exists bin0. split; [exact Hz|]. split; [exact HG|]. split; [exact Hb|]. intros b l Hbn Hl. destruct (HC b l Hbn Hl) as (A1 & A2 & A3).
  split; [exact A1|]. split; [exact A2|]. intros Hm l' Hl'. destruct (A3 Hm l' Hl') as (s & NS & IS & Hs & -> & -> & B1 & B2).
  pose proof (NoDup_incl_length NS IS) as Ls.
  split; [lia|]. split; [exact B1|]. intros L. destruct (B2 L) as (a & b' & s1 & s2 & P & P' & (Nb & _) & _ & E).
  destruct (pick_energy_range _ _ _ _ _ _ _ _ E) as (H1 & Ha & Hb').
  destruct (pick_energy_ok RN G choice HD energy n_bin_E ltac:(lia) s1 a b' s s2 Ha Hb' E) as (_ & _ & C3 & C4 & C5).
  split; [exact H1|]. split; [rewrite <- (Permutation_length P); exact C3|]. split.
  - intros j Hj. specialize (C5 Nb j Hj). rewrite (with_energy_perm _ _ _ _ P), (with_energy_perm _ _ _ _ P') in C5. rewrite <- C5. unfold labelled, with_energy.
    assert (NL : NoDup l) by apply Hl. apply count_in.
    + now apply NoDup_filter.
    + now apply NoDup_filter.
    + intros i I. apply filter_In in I as (I & F). apply filter_In. auto.
    + intros i I. apply filter_In in I as (I & F). rewrite filter_In, <- (Hs i I). split.
      * intros Q. split; [|exact F]. destruct (nth_error labels i) as [z|]; [|discriminate]. apply Z.eqb_eq in Q. now subst.
      * intros (Q & _). now rewrite Q.
  - intros i I Q. apply C4. now apply Hs.
Qed.

(** Exactly when the selection fails: in some co-rotating bin more populated than its
    mirror, the last energy bin has more counter-rotating particles than co-rotating ones
    of negative energy, but fewer than when those of energy zero are added.  Then split
    raises ValueError whatever the generator does, otherwise it returns. *)
Lemma c46_exact : forall (N : Num) (St : Type) choice junk n_bin digits n_bin_E (energy eps : list N) (st : St),
  arith N -> draws choice -> (1 <= n_bin <= 2 ^ 53)%Z -> (1 <= n_bin_E <= 2 ^ 53)%Z -> (0 <= digits)%Z -> length energy = length eps ->
  let n := Z.to_nat n_bin in let edges := map (np_round digits) (linspace nm1 n1 n) in
  let nE := Z.to_nat n_bin_E in let ed := linspace nm1 n0 nE in
  let r := hist_split (pick_energy choice energy n_bin_E) junk n_bin digits st eps in
  let fails bin0 := exists b l l', (bin0 <= b < 2 * bin0)%nat /\ (b < n)%nat /\ members edges n b eps l /\ members edges n (2 * bin0 - 1 - b) eps l' /\
    (length l' < length l)%nat /\
    (let negative := length (with_energy (half_open ed (nE - 1)) energy l) in let zero := length (with_energy (fun e => neqb e n0) energy l) in
     negative < length (with_energy (counted ed nE (nE - 1)) energy l') < negative + zero)%nat in
  forall bin0, zero_edge edges bin0 ->
    (fails bin0 -> r = Raise ValueError) /\ (~ fails bin0 -> exists labels st', r = Ok (labels, st')).
Proof.
  intros N St choice junk n_bin digits n_bin_E energy eps st HA HD Hn HnE Hd HL n edges nE ed r fails bin0 Hz. destruct (arith_grid N HA) as (RN & G).
  assert (HnE1 : (1 <= nE)%nat) by (unfold nE; lia). assert (HnE2 : (Z.of_nat nE <= 2 ^ 53)%Z) by (unfold nE; lia).
  set (B := bin_list edges n eps).
  assert (RB : forall k i, (k < n)%nat -> In i (B k) -> (i < length energy)%nat).
  { intros k i Hk I. destruct (bin_members edges n k eps Hk) as (_ & M). apply M in I as (e & He & _). rewrite HL. apply nth_error_Some. congruence. }
  assert (LAST : forall l, length (with_energy (counted ed nE (nE - 1)) energy l) =
     (length (with_energy (half_open ed (nE - 1)) energy l) + length (with_energy (fun e => neqb e n0) energy l))%nat).
  { intros l. apply with_energy_split; intros e; destruct (counted_half RN G nE (nE - 1) e HnE1 HnE2 ltac:(lia)) as (C1 & C2 & C3); fold ed in C1, C2, C3.
    - split; [|intros [Q|Q]; [auto|apply C3; [lia|exact Q]]]. intros Q. destruct (half_open ed (nE - 1) e); [now left|right]. now apply C2.
    - intros Q1 Q2. destruct (C3 ltac:(lia) Q2) as (_ & Q3). congruence. }
  assert (SH : forall cnt cor, (exists j, (j < nE)%nat /\ short energy n_bin_E cnt cor j) <->
     (length (with_energy (half_open ed (nE - 1)) energy cor) < length (with_energy (counted ed nE (nE - 1)) energy cnt) <
      length (with_energy (half_open ed (nE - 1)) energy cor) + length (with_energy (fun e => neqb e n0) energy cor))%nat).
  { intros cnt cor. rewrite <- LAST. split.
    - intros (j & Hj & Hs). unfold short in Hs. fold nE in Hs. fold ed in Hs. destruct (Nat.eq_dec j (nE - 1)) as [->|Q]; [exact Hs|]. exfalso.
      assert (E : with_energy (counted ed nE j) energy cor = with_energy (half_open ed j) energy cor).
      { apply with_energy_ext. intros e. unfold counted, half_open. destruct (Nat.ltb_spec (Datatypes.S j) nE); [reflexivity|lia]. }
      rewrite E in Hs. lia.
    - intros Hs. exists (nE - 1)%nat. split; [lia|]. exact Hs. }
  assert (PF : forall l l' a b, Permutation l l' -> Permutation a b ->
     ((length (with_energy (half_open ed (nE - 1)) energy l) < length (with_energy (counted ed nE (nE - 1)) energy a) <
      length (with_energy (half_open ed (nE - 1)) energy l) + length (with_energy (fun e => neqb e n0) energy l))%nat <->
      (length (with_energy (half_open ed (nE - 1)) energy l') < length (with_energy (counted ed nE (nE - 1)) energy b) <
      length (with_energy (half_open ed (nE - 1)) energy l') + length (with_energy (fun e => neqb e n0) energy l'))%nat)).
  { intros l l' a b P Q. now rewrite !(with_energy_perm _ _ _ _ P), !(with_energy_perm _ _ _ _ Q). }
  destruct (hist_split_cases RN G _ (pick_energy_incl RN G choice energy n_bin_E HD ltac:(lia)) n_bin digits bin0 eps st Hn Hd Hz)
    as [(S & st' & S1 & S2 & _ & _ & HLb)|(e & HR & c & M & Hlt & s1 & E)].
  - destruct (HLb junk) as (labels & El & _). split; [|intros _; unfold r; eauto].
    intros (b & l & l' & Hb & Hbn & Hl & Hl' & Hll & Hf). exfalso. cbn zeta in Hf.
    pose proof (bin_members edges n b eps Hbn) as MB. pose proof (bin_members edges n (2 * bin0 - 1 - b) eps ltac:(lia)) as MB'.
    pose proof (members_perm _ _ _ _ _ _ MB Hl) as P. pose proof (members_perm _ _ _ _ _ _ MB' Hl') as P'. fold B in P, P', MB, MB'.
    apply (PF _ _ _ _ P P') in Hf. apply SH in Hf.
    assert (M : mirrored n bin0 (2 * bin0 - 1 - b)) by (unfold mirrored; lia).
    specialize (S2 _ M). unfold contributes in S2. replace (2 * bin0 - 1 - (2 * bin0 - 1 - b))%nat with b in S2 by lia.
    change (bin_list (map (np_round digits) (linspace nm1 n1 (Z.to_nat n_bin))) (Z.to_nat n_bin) eps) with B in S2.
    rewrite <- (Permutation_length P), <- (Permutation_length P') in Hll.
    destruct S2 as [(Hle & _)|(_ & s1 & s2 & E)]; [lia|].
    destruct (pick_energy_cases RN G choice HD energy n_bin_E HnE s1 (B (2 * bin0 - 1 - b)) (B b)) as [(T & st1 & _ & HT)|(E' & _)]; [|intros i I; eapply RB; [|exact I]; lia| |congruence].
    + intros i I. apply (RB (2 * bin0 - 1 - b)%nat); [lia|exact I].
    + destruct Hf as (j & Hj & Hs). now apply (HT j Hj).
  - change (bin_list (map (np_round digits) (linspace nm1 n1 (Z.to_nat n_bin))) (Z.to_nat n_bin) eps) with B in E, Hlt. destruct M as (M1 & M2). fold n in M2.
    destruct (pick_energy_cases RN G choice HD energy n_bin_E HnE s1 (B c) (B (2 * bin0 - 1 - c))) as [(T & st1 & E' & _)|(E' & Hs)];
      [intros i I; apply (RB c); [lia|exact I]|intros i I; apply (RB (2 * bin0 - 1 - c)%nat); [lia|exact I]|congruence|].
    assert (e = ValueError) as -> by congruence. apply SH in Hs. unfold r. split; [intros _; apply HR|]. intros NF. exfalso. apply NF.
    exists (2 * bin0 - 1 - c)%nat, (B (2 * bin0 - 1 - c)), (B c). split; [lia|]. split; [exact M2|]. split; [now apply bin_members|].
    replace (2 * bin0 - 1 - (2 * bin0 - 1 - c))%nat with c by lia. split; [apply bin_members; lia|]. split; [exact Hlt|exact Hs].
Qed.

(** If no energy equals zero the selection never fails. *)
Lemma c46_no_zero : forall (N : Num) (St : Type) choice junk n_bin digits n_bin_E (energy eps : list N) (st : St),
  arith N -> draws choice -> (1 <= n_bin <= 2 ^ 53)%Z -> (1 <= n_bin_E <= 2 ^ 53)%Z -> (0 <= digits)%Z -> length energy = length eps ->
  (exists bin0, zero_edge (map (np_round digits) (linspace (N:=N) nm1 n1 (Z.to_nat n_bin))) bin0) ->
  (forall e, In e energy -> neqb e n0 = false) ->
  exists labels st', hist_split (pick_energy choice energy n_bin_E) junk n_bin digits st eps = Ok (labels, st').
Proof.
  intros N St choice junk n_bin digits n_bin_E energy eps st HA HD Hn HnE Hd HL (bin0 & Hz) H0.
  apply (c46_exact N St choice junk n_bin digits n_bin_E energy eps st HA HD Hn HnE Hd HL bin0 Hz).
  intros (b & l & l' & _ & _ & _ & _ & _ & Hf). cbn zeta in Hf.
  assert (E : with_energy (fun e => neqb e n0) energy l = []).
  { unfold with_energy. clear Hf. induction l as [|i l IH]; [reflexivity|]. cbn [filter].
    destruct (nth_error energy i) as [e|] eqn:E; [|exact IH]. rewrite (H0 e) by (eapply nth_error_In; exact E). exact IH. }
  rewrite E in Hf. simpl in Hf. lia.
Qed.

(** Without energy bins split raises ValueError as soon as a co-rotating bin holds more
    particles than its mirror, and returns otherwise. *)
Lemma c46_no_bins : forall (N : Num) (St : Type) choice junk n_bin digits n_bin_E (energy eps : list N) (st : St),
  arith N -> draws choice -> (1 <= n_bin <= 2 ^ 53)%Z -> (n_bin_E < 1)%Z -> (0 <= digits)%Z -> length energy = length eps ->
  let n := Z.to_nat n_bin in let edges := map (np_round digits) (linspace nm1 n1 n) in
  let r := hist_split (pick_energy choice energy n_bin_E) junk n_bin digits st eps in
  let more bin0 := exists b l l', (bin0 <= b < 2 * bin0)%nat /\ (b < n)%nat /\ members edges n b eps l /\ members edges n (2 * bin0 - 1 - b) eps l' /\
    (length l' < length l)%nat in
  forall bin0, zero_edge edges bin0 ->
    (more bin0 -> r = Raise ValueError) /\ (~ more bin0 -> exists labels st', r = Ok (labels, st')).
Proof.
  intros N St choice junk n_bin digits n_bin_E energy eps st HA HD Hn HnE Hd HL n edges r more bin0 Hz. destruct (arith_grid N HA) as (RN & G).
  set (B := bin_list edges n eps).
  assert (PE : forall s1 cnt cor, (forall i, In i cnt -> (i < length energy)%nat) -> pick_energy choice energy n_bin_E s1 cnt cor = Raise ValueError).
  { intros s1 cnt cor Hi. unfold pick_energy. destruct (take_at_ok energy cnt Hi) as (es & ->). cbn [bind]. unfold np_histogram.
    destruct (Z.leb_spec 1 n_bin_E); [lia|reflexivity]. }
  assert (RB : forall k i, (k < n)%nat -> In i (B k) -> (i < length energy)%nat).
  { intros k i Hk I. destruct (bin_members edges n k eps Hk) as (_ & M). apply M in I as (e & He & _). rewrite HL. apply nth_error_Some. congruence. }
  destruct (hist_split_cases RN G _ (pick_energy_incl RN G choice energy n_bin_E HD ltac:(lia)) n_bin digits bin0 eps st Hn Hd Hz)
    as [(S & st' & S1 & S2 & _ & _ & HLb)|(e & HR & c & M & Hlt & s1 & E)].
  - destruct (HLb junk) as (labels & El & _). split; [|intros _; unfold r; eauto].
    intros (b & l & l' & Hb & Hbn & Hl & Hl' & Hll). exfalso.
    pose proof (bin_members edges n b eps Hbn) as MB. pose proof (bin_members edges n (2 * bin0 - 1 - b) eps ltac:(lia)) as MB'.
    pose proof (members_perm _ _ _ _ _ _ MB Hl) as P. pose proof (members_perm _ _ _ _ _ _ MB' Hl') as P'. fold B in P, P', MB, MB'.
    assert (M : mirrored n bin0 (2 * bin0 - 1 - b)) by (unfold mirrored; lia).
    specialize (S2 _ M). unfold contributes in S2. replace (2 * bin0 - 1 - (2 * bin0 - 1 - b))%nat with b in S2 by lia.
    change (bin_list (map (np_round digits) (linspace nm1 n1 (Z.to_nat n_bin))) (Z.to_nat n_bin) eps) with B in S2.
    rewrite <- (Permutation_length P), <- (Permutation_length P') in Hll.
    destruct S2 as [(Hle & _)|(_ & s1 & s2 & E)]; [lia|]. rewrite PE in E; [discriminate|].
    intros i I. apply (RB (2 * bin0 - 1 - b)%nat); [lia|exact I].
  - change (bin_list (map (np_round digits) (linspace nm1 n1 (Z.to_nat n_bin))) (Z.to_nat n_bin) eps) with B in E, Hlt. destruct M as (M1 & M2). fold n in M2.
    rewrite PE in E by (intros i I; apply (RB c); [lia|exact I]). injection E as <-. split; [intros _; apply HR|]. intros NF. exfalso. apply NF.
    exists (2 * bin0 - 1 - c)%nat, (B (2 * bin0 - 1 - c)), (B c). split; [lia|]. split; [exact M2|]. split; [now apply bin_members|].
    replace (2 * bin0 - 1 - (2 * bin0 - 1 - c))%nat with c by lia. split; [apply bin_members; lia|exact Hlt].
Qed.

(** Two co-rotating stars of energy exactly zero and a counter-rotating one with the
    opposite circularity and a slightly negative energy. *)
Definition zeroG : res (galaxy F64) :=
  lineG (zl [(1,1,0,(-201,2)); (-51,1,0,(-3,4)); (51,1,0,(-1,2)); (51,1,0,(-1,2))])%Z (zl [(100,1,0,(-3,4))])%Z [].

(** "JEHistogram decomposes every galaxy whose stars have energies in [-1, 0] and
    circularities in [-1, 1]": false with the default parameters, whatever the generator. *)
Lemma c46_returns_refuted : exists (g : galaxy F64) j, constructible g /\ jcirc asort g default_bin0 default_bin1 = Ok j /\
  length (jc_E j) = 4%nat /\ length (jc_eps j) = 4%nat /\
  (forall e, In e (jc_E j) -> nle nm1 e && nle e n0 = true) /\ (forall e, In e (jc_eps j) -> nle nm1 e && nle e n1 = true) /\
  forall (St : Type) choice junk (st : St),
    decompose asort (jehistogram choice junk (default_bin0, default_bin1) 100 2 20) st g = Raise ValueError.
Proof.
  set (P := fun (g : galaxy F64) (j : jcirc_t F64) => (length (jc_E j) =? 4)%nat && (length (jc_eps j) =? 4)%nat &&
     forallb (fun e => nle nm1 e && nle e n0) (jc_E j) && forallb (fun e => nle nm1 e && nle e n1) (jc_eps j)).
  assert (H : match zeroG with Ok g => match jcirc asort g default_bin0 default_bin1 with Ok j => P g j | _ => false end | _ => false end = true) by (vm_compute; reflexivity).
  assert (H' : forall (St : Type) choice junk (st : St), match zeroG with Ok g =>
     match decompose asort (jehistogram choice junk (default_bin0, default_bin1) 100 2 20) st g with Raise ValueError => true | _ => false end | _ => false end = true)
    by (intros; vm_compute; reflexivity).
  destruct zeroG as [g|] eqn:Eg; [|discriminate]. destruct (jcirc asort g default_bin0 default_bin1) as [j|] eqn:Ej; [|discriminate].
  exists g, j. split; [eapply lineG_ok; exact Eg|]. split; [exact Ej|]. unfold P in H. apply andb_prop in H as (H & H4). apply andb_prop in H as (H & H3). apply andb_prop in H as (H1 & H2).
  split; [now apply Nat.eqb_eq|]. split; [now apply Nat.eqb_eq|]. split; [now apply forallb_forall|]. split; [now apply forallb_forall|].
  intros St choice junk st. specialize (H' St choice junk st). destruct (decompose _ _ _ _) as [[]|[]]; congruence.
Qed.

(** Four bins; the third holds five particles and its mirror three, with energies in two of
    two energy bins: one of three is drawn in the first and both are taken in the second. *)
Example ex_c45 :
  map (fun st => rmap fst (hist_split (pick_energy (N:=F64) turns (map (fun z => nlit z 10) [-9; -4; -3; -8; -7; -6; -2; -1]%Z) 2) (fun _ => 9%Z) 4 2 st
                   (map (fun z => nlit z 10) [-1; -2; -3; 1; 2; 3; 4; 0]%Z : list F64))) [false; true] =
  [Ok [0; 0; 0; 0; 1; 1; 0; 0]%Z; Ok [0; 0; 0; 1; 1; 0; 0; 0]%Z].
Proof. vm_compute. reflexivity. Qed.
(** decompose with the default parameters on the sample galaxy: the star removed from the
    disk is the one with the energy of the counter-rotating star. *)
Example ex_c45_decompose :
  map (fun st => rmap (fun r => shows (c_labels (fst r)))
         (do g <- sampleG; decompose asort (jehistogram turns (fun _ => 9%Z) (default_bin0, default_bin1) 100 2 20) st g)) [false; true] =
  [Ok [sZ 1; sZ 0; sZ 0; S754_nan; S754_nan; S754_nan; S754_nan; S754_nan];
   Ok [sZ 1; sZ 0; sZ 0; S754_nan; S754_nan; S754_nan; S754_nan; S754_nan]].
Proof. vm_compute. reflexivity. Qed.
(** The zero energies matter: with -1/100 instead the same circularities split. *)
Example ex_c46 :
  map (fun e => rmap fst (hist_split (pick_energy (N:=F64) turns [nlit (-1) 50; e; e] 20) (fun _ => 9%Z) 100 2 false
                   (map (fun z => nlit z 100) [-51; 51; 51]%Z : list F64))) [n0; nlit (-1) 100] =
  [Raise ValueError; Ok [0; 0; 1]%Z].
Proof. vm_compute. reflexivity. Qed.
