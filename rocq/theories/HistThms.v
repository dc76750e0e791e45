(** Histogram decompositions (C41-C46). *)
From Verif Require Import Py Num RX F64 Np Df Data DataFacts DfFacts CenterFacts Ex Spec DataThms SpecCirc Circ CircFacts CircThms SpecBase Base BaseFacts BaseThms Threshold EpsFacts ThresholdThms SpecHist Hist HistFacts EdgeFacts.
From Coq Require Import Floats.SpecFloat Permutation Lia.

(** *** Split *)

Section Core.
Context {N : Num} (RN : Rounded N) (G : grid RN) {St : Type}.
Variable pick : St -> list nat -> list nat -> res (list nat * St).
Hypothesis pick_incl : forall st a b s st', pick st a b = Ok (s, st') -> incl s b.

Notation edges_of n_bin digits := (map (np_round digits) (linspace (nm1 : N) n1 (Z.to_nat n_bin))).

Lemma hist_split_cases n_bin digits bin0 (eps : list N) st : (1 <= n_bin <= 2 ^ 53)%Z -> (0 <= digits)%Z ->
  zero_edge (edges_of n_bin digits) bin0 ->
  let n := Z.to_nat n_bin in let B := bin_list (edges_of n_bin digits) n eps in
  (exists S st', 
     (forall k, (k < bin0)%nat -> S k = B k) /\ (forall c, mirrored n bin0 c -> contributes pick bin0 B S c) /\
     (forall k, (k < top_bin n bin0)%nat -> incl (S k) (B k)) /\
     ((forall c, mirrored n bin0 c -> (length (B (2 * bin0 - 1 - c)) <= length (B c))%nat) -> st' = st) /\
     forall junk, exists labels, hist_split pick junk n_bin digits st eps = Ok (labels, st') /\ length labels = length eps /\
       (forall b i, (b < n)%nat -> In i (B b) ->
          (in_spheroid n bin0 S b i -> nth_error labels i = Some 0%Z) /\ (~ in_spheroid n bin0 S b i -> nth_error labels i = Some 1%Z)) /\
       (forall i, (i < length eps)%nat -> (forall b, (b < n)%nat -> ~ In i (B b)) -> nth_error labels i = Some (junk i))) \/
  (exists e, (forall junk, hist_split pick junk n_bin digits st eps = Raise e) /\ exists c, mirrored n bin0 c /\ refuses pick bin0 B e c).
Proof.
  intros Hn Hd Hz n B. destruct (round_edges_ok RN G n_bin digits bin0 Hn Hd Hz) as (HG & Hb). fold n in HG, Hb.
  destruct (make_histogram_iff (N:=N) eps n_bin digits) as (_ & MH). destruct (MH ltac:(lia)) as (MH1 & _). specialize (MH1 bin0 Hz).
  assert (Hbtp : has (bin_to_particle (edges_of n_bin digits) n eps) (fun k => (k < n)%nat) B).
  { apply btp_has; [unfold n; lia|]. apply HG. }
  destruct (count_sph_has n bin0 B _ Hbtp Hb) as (sph0 & E0 & H0).
  destruct (corot_sph_has pick n bin0 B _ Hbtp Hb sph0 st H0) as [(S & sph & st' & E1 & H1 & S1 & S2 & S3)|(e & E1 & Hr)].
  - left. exists S, st'. split; [exact S1|]. split; [exact S2|].
    assert (SI : forall k, (k < top_bin n bin0)%nat -> incl (S k) (B k)).
    { intros k Hk. destruct (Nat.lt_ge_cases k bin0) as [L|L]; [rewrite S1 by exact L; apply incl_refl|].
      assert (M : mirrored n bin0 (2 * bin0 - 1 - k)) by (unfold mirrored; unfold top_bin in Hk; lia).
      specialize (S2 _ M). unfold contributes in S2. replace (2 * bin0 - 1 - (2 * bin0 - 1 - k))%nat with k in S2 by (unfold top_bin in Hk; lia).
      destruct S2 as [(_ & ->)|(_ & s1 & s2 & E)]; [apply incl_refl|]. eapply pick_incl; eauto. }
    split; [exact SI|]. split; [exact S3|]. intros junk.
    destruct (disk_has n bin0 B _ Hbtp Hb sph S H1 S1) as (dsk & D & E2 & H2 & D0 & D1 & D2).
    destruct (labels_has n bin0 B Hb sph S dsk D junk (length eps) H1 H2 S1 D0 D1 D2 SI) as (e & d & l0 & labels & G1 & G2 & A1 & A2 & L & Hin & Hout).
    { intros k i Hk Hi. unfold B in Hi. destruct (bin_members (edges_of n_bin digits) n k eps Hk) as (_ & M). apply M in Hi as (x & Hx & _).
      apply nth_error_Some. congruence. }
    exists labels. split; [|split; [exact L|split; [|exact Hout]]].
    + unfold hist_split. rewrite MH1. cbn [bind]. unfold round_edges. unfold n in E0, E1, E2. rewrite E0. cbn [bind]. rewrite E1. cbn [bind]. rewrite E2. cbn [bind].
      rewrite G1. cbn [bind]. rewrite G2. cbn [bind]. rewrite A1. cbn [bind]. rewrite A2. reflexivity.
    + intros b i Hbn Hi. apply Hin; [exact Hbn|exact Hi|]. intros b' Hb' Hi'.
      destruct (bin_members (edges_of n_bin digits) n b eps Hbn) as (_ & M). destruct (bin_members (edges_of n_bin digits) n b' eps Hb') as (_ & M').
      apply M in Hi as (x & Hx & Hh). apply M' in Hi' as (x' & Hx' & Hh'). assert (x' = x) as -> by congruence.
      eapply (grid_unique RN); eauto.
  - right. exists e. split; [|exact Hr]. intros junk. unfold hist_split. rewrite MH1. cbn [bind]. unfold round_edges. unfold n in E0, E1.
    rewrite E0. cbn [bind]. rewrite E1. reflexivity.
Qed.

Lemma hist_split_zero junk n_bin digits (eps : list N) st labels st' : hist_split pick junk n_bin digits st eps = Ok (labels, st') ->
  (1 <= n_bin)%Z /\ exists bin0, zero_edge (edges_of n_bin digits) bin0.
Proof.
  intros H. destruct (make_histogram_iff (N:=N) eps n_bin digits) as (A & B). unfold hist_split in H.
  destruct (Z_lt_ge_dec n_bin 1) as [L|L]; [rewrite A in H by exact L; discriminate|]. split; [lia|].
  destruct (B ltac:(lia)) as (_ & B2). pose proof (zero_edge_where (edges_of n_bin digits)) as W.
  destruct (where_ _) as [|b l]; [|eauto]. rewrite B2 in H by exact W. discriminate.
Qed.

(** Everything about a successful call. *)
Lemma hist_split_ok junk n_bin digits (eps : list N) st labels st' : (n_bin <= 2 ^ 53)%Z -> (0 <= digits)%Z ->
  hist_split pick junk n_bin digits st eps = Ok (labels, st') ->
  let n := Z.to_nat n_bin in let edges := edges_of n_bin digits in let B := bin_list edges n eps in
  exists bin0 S, (1 <= n)%nat /\ zero_edge edges bin0 /\ grid_to n1 n edges /\ (0 < bin0 < n)%nat /\
     (forall k, (k < bin0)%nat -> S k = B k) /\ (forall c, mirrored n bin0 c -> contributes pick bin0 B S c) /\
     (forall k, (k < top_bin n bin0)%nat -> incl (S k) (B k)) /\
     length labels = length eps /\
     (forall b i, (b < n)%nat -> In i (B b) ->
          (in_spheroid n bin0 S b i -> nth_error labels i = Some 0%Z) /\ (~ in_spheroid n bin0 S b i -> nth_error labels i = Some 1%Z)) /\
     (forall i, (i < length eps)%nat -> (forall b, (b < n)%nat -> ~ In i (B b)) -> nth_error labels i = Some (junk i)) /\
     ((forall c, mirrored n bin0 c -> (length (B (2 * bin0 - 1 - c)) <= length (B c))%nat) -> st' = st) /\
     forall junk', exists labels', hist_split pick junk' n_bin digits st eps = Ok (labels', st') /\
       forall b i, (b < n)%nat -> In i (B b) -> nth_error labels' i = nth_error labels i.
Proof.
  intros Hn Hd H n edges B. destruct (hist_split_zero _ _ _ _ _ _ _ H) as (Hn1 & bin0 & Hz).
  destruct (round_edges_ok RN G n_bin digits bin0 ltac:(lia) Hd Hz) as (HG & Hb). fold n in HG, Hb.
  destruct (hist_split_cases n_bin digits bin0 eps st ltac:(lia) Hd Hz) as [(S & st1 & S1 & S2 & S3 & S4 & HL)|(e & E & _)].
  - destruct (HL junk) as (l & El & Ll & Hin & Hout). rewrite H in El. injection El as <- <-.
    exists bin0, S. split; [unfold n; lia|]. split; [exact Hz|]. split; [exact HG|]. split; [exact Hb|]. split; [exact S1|]. split; [exact S2|].
    split; [exact S3|]. split; [exact Ll|]. split; [exact Hin|]. split; [exact Hout|]. split; [exact S4|]. intros junk'.
    destruct (HL junk') as (l' & El' & Ll' & Hin' & _). exists l'. split; [exact El'|]. intros b i Hbn Hi.
    destruct (Hin b i Hbn Hi) as (A1 & A2). destruct (Hin' b i Hbn Hi) as (A1' & A2').
    assert (Dec : in_spheroid n bin0 S b i \/ ~ in_spheroid n bin0 S b i).
    { unfold in_spheroid. destruct (lt_dec b (top_bin n bin0)), (in_dec Nat.eq_dec i (S b)); tauto. }
    destruct Dec as [Dc|Dc]; [rewrite (A1 Dc), (A1' Dc)|rewrite (A2 Dc), (A2' Dc)]; reflexivity.
  - rewrite E in H. discriminate.
Qed.

(** Each value between -1 and 1 is labelled, the others are not. *)
Lemma hist_split_labels junk n_bin digits (eps : list N) st labels st' : (n_bin <= 2 ^ 53)%Z -> (0 <= digits)%Z ->
  hist_split pick junk n_bin digits st eps = Ok (labels, st') ->
  length labels = length eps /\
  forall i e, nth_error eps i = Some e ->
    (nle nm1 e = true -> nle e n1 = true ->
       (nth_error labels i = Some 0%Z \/ nth_error labels i = Some 1%Z) /\
       forall junk', exists labels', hist_split pick junk' n_bin digits st eps = Ok (labels', st') /\ nth_error labels' i = nth_error labels i) /\
    (nle nm1 e && nle e n1 = false -> nth_error labels i = Some (junk i)).
Proof.
  intros Hn Hd H. destruct (hist_split_ok _ _ _ _ _ _ _ Hn Hd H) as (bin0 & S & Hn1 & Hz & HG & Hb & S1 & S2 & S3 & L & Hin & Hout & _ & HJ).
  set (n := Z.to_nat n_bin) in *. set (edges := edges_of n_bin digits) in *.
  split; [exact L|]. intros i e He. split.
  - intros H1 H2. destruct (grid_cover RN n1 n edges e Hn1 HG H1 H2) as (b & Hbb).
    pose proof Hbb as (Hbn & _). destruct (bin_members edges n b eps Hbn) as (_ & M).
    assert (Hi : In i (bin_list edges n eps b)) by (apply M; eauto).
    destruct (Hin b i Hbn Hi) as (A1 & A2). split.
    + assert (Dec : in_spheroid n bin0 S b i \/ ~ in_spheroid n bin0 S b i).
      { unfold in_spheroid. destruct (lt_dec b (top_bin n bin0)), (in_dec Nat.eq_dec i (S b)); tauto. }
      destruct Dec; auto.
    + intros junk'. destruct (HJ junk') as (l' & El' & Hl'). exists l'. split; [exact El'|]. now apply (Hl' b).
  - intros Hf. apply Hout; [apply nth_error_Some; congruence|]. intros b Hbn Hi.
    destruct (bin_members edges n b eps Hbn) as (_ & M). apply M in Hi as (x & Hx & Hh). assert (x = e) as -> by congruence.
    destruct (grid_inside RN n1 n edges b e Hn1 HG Hh) as (A & A'). rewrite A, A' in Hf. discriminate.
Qed.
End Core.

(** Draws. *)
Lemma nodup_app_l {A} (l l' : list A) : NoDup (l ++ l') -> NoDup l.
Proof.
  induction l as [|a l IH]; [constructor|]. intros H. inversion H as [|? ? H1 H2]; subst. constructor; [|auto].
  intros I. apply H1, in_app_iff. now left.
Qed.
Lemma filter_perm {A} (P : A -> bool) l l' : Permutation l l' -> length (filter P l) = length (filter P l').
Proof.
  induction 1; simpl; auto; [|destruct (P x), (P y); reflexivity|congruence]. destruct (P x); simpl; congruence.
Qed.
Lemma draw_spec {St} (choice : St -> list nat -> nat -> list nat * St) st l k s st' : draws choice -> draw choice st l k = Ok (s, st') ->
  incl s l /\ length s = k /\ (k <= length l)%nat /\ (NoDup l -> NoDup s).
Proof.
  intros HD H. unfold draw in H. destruct (Nat.leb_spec k (length l)) as [L|L]; [|discriminate]. cbn [guard bind] in H. injection H as H.
  destruct (HD st l k L) as (rest & P & Lk). rewrite H in P, Lk. cbn [fst] in *. split; [|split; [exact Lk|split; [exact L|]]].
  - intros x Hx. apply (Permutation_in x P). apply in_app_iff. now left.
  - intros ND. apply Permutation_sym in P. pose proof (Permutation_NoDup P ND) as ND'. now apply nodup_app_l in ND'.
Qed.
Lemma draw_ok {St} (choice : St -> list nat -> nat -> list nat * St) st l k : (k <= length l)%nat -> draw choice st l k = Ok (choice st l k).
Proof. intros H. unfold draw. destruct (Nat.leb_spec k (length l)); [reflexivity|lia]. Qed.
Lemma pick_any_incl {St} (choice : St -> list nat -> nat -> list nat * St) : draws choice ->
  forall st a b s st', pick_any choice st a b = Ok (s, st') -> incl s b.
Proof. intros HD st a b s st' H. unfold pick_any in H. now apply draw_spec in H. Qed.

Lemma count_in (l s : list nat) (P : nat -> bool) : NoDup l -> NoDup s -> incl s l -> (forall i, In i l -> (P i = true <-> In i s)) ->
  length (filter P l) = length s.
Proof.
  intros Hl Hs Hi HP. apply Permutation_length. apply NoDup_Permutation; [now apply NoDup_filter|exact Hs|].
  intros x. rewrite filter_In. split; [intros (A & B); now apply HP|]. intros A. split; [now apply Hi|]. apply HP; auto.
Qed.
Lemma labelled_spheroid labels l s : NoDup l -> NoDup s -> incl s l ->
  (forall i, In i l -> (In i s -> nth_error labels i = Some 0%Z) /\ (~ In i s -> nth_error labels i = Some 1%Z)) ->
  labelled 0 labels l = length s /\ labelled 1 labels l = (length l - length s)%nat.
Proof.
  intros Hl Hs Hi HL. unfold labelled. split.
  - apply count_in; auto. intros i I. destruct (HL i I) as (A & B). destruct (in_dec Nat.eq_dec i s) as [C|C].
    + rewrite (A C). simpl. tauto.
    + rewrite (B C). simpl. split; [discriminate|contradiction].
  - assert (K : forall P l, (length (filter P l) + length (filter (fun x : nat => negb (P x)) l) = length l)%nat).
    { clear. intros P l. induction l as [|a l IH]; simpl; [reflexivity|]. destruct (P a); simpl; lia. }
    rewrite <- (K (fun i => existsb (Nat.eqb i) s) l). rewrite (count_in l s (fun i => existsb (Nat.eqb i) s)); auto.
    2:{ intros i _. rewrite existsb_exists. split; [intros (x & I & E); apply Nat.eqb_eq in E; now subst|]. intros I. exists i. split; [exact I|apply Nat.eqb_refl]. }
    replace (length s + _ - length s)%nat with (length (filter (fun x => negb (existsb (Nat.eqb x) s)) l)) by lia.
    f_equal. apply filter_ext_in. intros i I. destruct (HL i I) as (A & B). destruct (existsb (Nat.eqb i) s) eqn:E; simpl.
    + rewrite A; [reflexivity|]. apply existsb_exists in E as (x & J & E). apply Nat.eqb_eq in E. now subst.
    + rewrite B; [reflexivity|]. intros C. apply not_true_iff_false in E. apply E. apply existsb_exists. exists i. split; [exact C|apply Nat.eqb_refl].
Qed.
Lemma members_perm {N : Num} edges n b (eps : list N) l l' : members edges n b eps l -> members edges n b eps l' -> Permutation l l'.
Proof. intros (A & B) (A' & B'). apply NoDup_Permutation; auto. intros x. rewrite B, B'. tauto. Qed.
Lemma labelled_perm z labels l l' : Permutation l l' -> labelled z labels l = labelled z labels l'.
Proof. intros P. unfold labelled. now apply filter_perm. Qed.

Section Compose.
Context {N : Num} (RN : Rounded N) (G : grid RN) {St : Type}.
Variable pick : St -> list nat -> list nat -> res (list nat * St).
Hypothesis pick_ok : forall st a b s st', pick st a b = Ok (s, st') -> incl s b /\ (NoDup b -> NoDup s).
Notation edges_of n_bin digits := (map (np_round digits) (linspace (nm1 : N) n1 (Z.to_nat n_bin))).

(** Counts of a successful call, bin by bin. *)
Lemma hist_compose junk n_bin digits (eps : list N) st labels st' : (n_bin <= 2 ^ 53)%Z -> (0 <= digits)%Z ->
  hist_split pick junk n_bin digits st eps = Ok (labels, st') ->
  let n := Z.to_nat n_bin in let edges := edges_of n_bin digits in let B := bin_list edges n eps in
  exists bin0, zero_edge edges bin0 /\ grid_to n1 n edges /\ (0 < bin0 < n)%nat /\
   forall b l, (b < n)%nat -> members edges n b eps l ->
    ((b < bin0)%nat -> labelled 0 labels l = length l) /\
    ((2 * bin0 <= b)%nat -> labelled 1 labels l = length l) /\
    ((bin0 <= b < 2 * bin0)%nat -> forall l', members edges n (2 * bin0 - 1 - b) eps l' ->
       exists s, NoDup s /\ incl s l /\ (forall i, In i l -> (nth_error labels i = Some 0%Z <-> In i s)) /\
         labelled 0 labels l = length s /\ labelled 1 labels l = (length l - length s)%nat /\
         ((length l <= length l')%nat -> length s = length l) /\
         ((length l' < length l)%nat -> exists a b' s1 s2, Permutation a l' /\ Permutation b' l /\ members edges n b eps b' /\ members edges n (2 * bin0 - 1 - b) eps a /\
            pick s1 a b' = Ok (s, s2))).
Proof.
  intros Hn Hd H n edges B.
  assert (PI : forall st a b s st', pick st a b = Ok (s, st') -> incl s b) by (intros ? ? ? ? ? E; apply (pick_ok _ _ _ _ _ E)).
  destruct (hist_split_ok RN G pick PI _ _ _ _ _ _ _ Hn Hd H) as (bin0 & S & Hn1 & Hz & HG & Hb & S1 & S2 & S3 & L & Hin & Hout & _ & HJ).
  fold edges in Hn1, HG, Hb, S1, S2, S3, Hin, Hout, HJ, Hz. fold n in Hn1, HG, Hb, S1, S2, S3, Hin, Hout, HJ, Hz. fold B in S1, S2, S3, Hin, Hout, HJ.
  exists bin0. split; [exact Hz|]. split; [exact HG|]. split; [exact Hb|]. intros b l Hbn Hl.
  pose proof (bin_members edges n b eps Hbn) as HB. fold B in HB. pose proof (members_perm _ _ _ _ _ _ HB Hl) as P.
  pose proof HB as (NB & _). pose proof Hl as (Nl & _).
  rewrite <- !(labelled_perm _ _ _ _ P). rewrite <- (Permutation_length P).
  split; [|split].
  - intros Hlt. assert (ND : NoDup (B b)) by apply HB.
    apply (labelled_spheroid labels (B b) (B b)); auto using incl_refl. intros i I. split; [|contradiction]. intros _.
    apply (proj1 (Hin b i Hbn I)). split; [unfold top_bin; lia|]. now rewrite S1.
  - intros Hge. destruct (labelled_spheroid labels (B b) []) as (_ & ->); auto; [constructor|intros x []| |now rewrite Nat.sub_0_r].
    intros i I. split; [intros []|]. intros _. apply (proj2 (Hin b i Hbn I)). unfold in_spheroid, top_bin. lia.
  - intros Hm l' Hl'. pose proof (bin_members edges n (2 * bin0 - 1 - b) eps ltac:(lia)) as HB'. fold B in HB'.
    pose proof (members_perm _ _ _ _ _ _ HB' Hl') as P'.
    assert (M : mirrored n bin0 (2 * bin0 - 1 - b)) by (unfold mirrored; lia).
    specialize (S2 _ M). unfold contributes in S2. replace (2 * bin0 - 1 - (2 * bin0 - 1 - b))%nat with b in S2 by lia.
    assert (NS : NoDup (S b)).
    { destruct S2 as [(_ & ->)|(_ & s1 & s2 & E)]; [exact NB|]. now apply (pick_ok _ _ _ _ _ E). }
    assert (HI : incl (S b) (B b)) by (apply S3; unfold top_bin; lia).
    assert (HL : forall i, In i (B b) -> (In i (S b) -> nth_error labels i = Some 0%Z) /\ (~ In i (S b) -> nth_error labels i = Some 1%Z)).
    { intros i I. destruct (Hin b i Hbn I) as (A1 & A2). unfold in_spheroid in A1, A2. split; intros J.
      - apply A1. split; [unfold top_bin; lia|exact J].
      - apply A2. tauto. }
    exists (S b). split; [exact NS|]. split; [intros x I; apply (Permutation_in x P), HI, I|]. split.
    { intros i I. apply (Permutation_in i (Permutation_sym P)) in I. destruct (HL i I) as (A1 & A2). split; [|exact A1].
      intros E. destruct (in_dec Nat.eq_dec i (S b)) as [J|J]; [exact J|]. rewrite (A2 J) in E. discriminate. }
    destruct (labelled_spheroid labels (B b) (S b)) as (C1 & C2); auto.
    split; [exact C1|]. split; [exact C2|].
    rewrite <- (Permutation_length P'). split.
    + intros Hle. destruct S2 as [(_ & ->)|(Hlt & _)]; [reflexivity|lia].
    + intros Hlt. destruct S2 as [(Hle & _)|(_ & s1 & s2 & E)]; [lia|].
      exists (B (2 * bin0 - 1 - b)), (B b), s1, s2. auto.
Qed.
End Compose.

(** split gives each particle with a circularity between -1 and 1 the label 0 or 1, whatever
    the generator draws and whatever the memory of the labels held before; a particle
    without such a circularity keeps what the memory held. *)
Lemma c41_labels : forall (N : Num) (St : Type) choice junk n_bin digits (eps : list N) (st : St) labels st',
  arith N -> draws choice -> (n_bin <= 2 ^ 53)%Z -> (0 <= digits)%Z ->
  hist_split (pick_any choice) junk n_bin digits st eps = Ok (labels, st') ->
  length labels = length eps /\
  forall i e, nth_error eps i = Some e ->
    (nle nm1 e = true -> nle e n1 = true ->
       (nth_error labels i = Some 0%Z \/ nth_error labels i = Some 1%Z) /\
       forall junk', exists labels', hist_split (pick_any choice) junk' n_bin digits st eps = Ok (labels', st') /\
         nth_error labels' i = nth_error labels i) /\
    (nle nm1 e && nle e n1 = false -> nth_error labels i = Some (junk i)).
Proof.
  intros N St choice junk n_bin digits eps st labels st' HA HD Hn Hd H. destruct (arith_grid N HA) as (RN & G).
  eapply (hist_split_labels RN G); eauto using pick_any_incl.
Qed.

(** The decomposers, for any selection. *)
Definition hist_decomposer {N : Num} {St} (pk : matrix N -> St -> list nat -> list nat -> res (list nat * St))
  (col : nat) (attrs : list string) (cbins : N * N) n_bin digits junk : decomposer N St :=
  Decomposer St cbins attrs stars_mask
    (fun st X y a => do r <- hist_split (pk X) junk n_bin digits st (matrix_col col X); Ok (fst r, None, snd r)).

Lemma hist_decompose {N : Num} (RN : Rounded N) (G : grid RN) St (pk : matrix N -> St -> list nat -> list nat -> res (list nat * St)) col attrs
  argsort cbins n_bin digits junk st (g : galaxy N) c st' :
  (forall X st a b s st', pk X st a b = Ok (s, st') -> incl s b) ->
  star_attrs attrs -> nth_error attrs col = Some "eps"%string -> constructible g -> (n_bin <= 2 ^ 53)%Z -> (0 <= digits)%Z ->
  decompose argsort (hist_decomposer pk col attrs cbins n_bin digits junk) st g = Ok (c, st') ->
  (exists j, jcirc argsort g (fst cbins) (snd cbins) = Ok j /\
     forall i p k, located g i p k ->
      let usable := p_type p = STARS /\ forall a, In a attrs -> exists v, nth_error (circ_col j a) k = Some v /\ nfin v = true in
      (usable -> nth_error (c_labels c) i = Some (nofZ 0) \/ nth_error (c_labels c) i = Some (nofZ 1)) /\
      (~ usable -> nth_error (c_labels c) i = Some nnan)) /\
  forall junk', decompose argsort (hist_decomposer pk col attrs cbins n_bin digits junk') st g = Ok (c, st').
Proof.
  intros Hp HA Hcol Hc Hn Hd H. set (D := hist_decomposer pk col attrs cbins n_bin digits) in *.
  assert (Hrows : forall junk st X y a l p s, d_split (D junk) st X y a = Ok (l, p, s) -> length l = length X).
  { intros junk0 st0 X y a l p s E. cbn [d_split D hist_decomposer] in E. destruct (hist_split _ _ _ _ _ _) as [(l0, s0)|] eqn:E0; [|discriminate].
    cbn [bind fst snd] in E. injection E as <- _ _. destruct (hist_split_labels RN G _ (Hp X) _ _ _ _ _ _ _ Hn Hd E0) as (L & _).
    rewrite L. unfold matrix_col. apply map_length. }
  split.
  - destruct (star_decompose RN argsort St (D junk) st g c st' Hc HA eq_refl (Hrows junk) H) as (j & Xs & ys & labels & pr & sel & Hj & Hs & Ls & LX & Hl & _).
    exists j. split; [exact Hj|]. intros i p k Hk usable. destruct (Hl i p k Hk) as (_ & Hu & Hnu). split; [|exact Hnu].
    intros U. destruct (Hu U) as (z & Ez & Ew & Hcell). rewrite Ew.
    cbn [d_split D hist_decomposer] in Hs. destruct (hist_split _ _ _ _ _ _) as [(l0, s0)|] eqn:E0; [|discriminate].
    cbn [bind fst snd] in Hs. injection Hs as -> _ _. destruct (hist_split_labels RN G _ (Hp Xs) _ _ _ _ _ _ _ Hn Hd E0) as (_ & HL).
    destruct U as (T & U). destruct (U "eps"%string (nth_error_In _ _ Hcol)) as (e & He & Fe). change (circ_col j "eps") with (jc_eps j) in He.
    specialize (Hcell col _ Hcol). change (circ_col j "eps") with (jc_eps j) in Hcell. rewrite He in Hcell.
    destruct (HL _ _ Hcell) as (A & _). destruct (c24_eps N RN argsort g _ _ j Hc Hj) as (B & _).
    destruct (B e (nth_error_In _ _ He)) as [B1|(B1 & B2)].
    { exfalso. apply (nfin_iff RN) in Fe as (r & Er). apply (nisnan_iff RN) in B1. congruence. }
    destruct (A B1 B2) as ([C|C] & _); rewrite Ez in C; injection C as ->; auto.
  - intros junk'. destruct (star_decompose_errors RN argsort St (D junk) st g Hc HA eq_refl) as (R & K).
    destruct (jcirc argsort g (fst cbins) (snd cbins)) as [j|e] eqn:Hj.
    2:{ specialize (R e Hj). rewrite R in H. discriminate. }
    destruct (K j Hj) as (X & y & mask & E & Em & Lm & Ly & Fin & Hr & _).
    pose proof H as H'. revert H. unfold decompose. cbn [d_cbins d_attributes d_mask d_split D hist_decomposer] in *. rewrite E. cbn [bind]. rewrite Em. cbn [bind].
    unfold select_rows. assert (length mask =? length X = true)%nat as -> by now apply Nat.eqb_eq.
    assert (length mask =? length y = true)%nat as -> by now apply Nat.eqb_eq.
    cbn [guard bind]. rewrite !bmask_select.
    destruct (hist_split _ junk _ _ _ _) as [(l0, s0)|e0] eqn:E0; [|discriminate].
    assert (S : hist_split (pk (select mask X)) junk' n_bin digits st (matrix_col col (select mask X)) = Ok (l0, s0)); [|rewrite S; auto].
    destruct (hist_split_ok RN G _ (Hp _) _ _ _ _ _ _ _ Hn Hd E0) as (bin0 & S & Hn1 & Hz & HG & Hb & S1 & S2 & S3 & L & Hin & Hout & _ & HJ).
    destruct (HJ junk') as (l1 & E1 & Heq). rewrite E1. do 2 f_equal. apply nth_error_ext. intros r.
    destruct (hist_split_labels RN G _ (Hp _) _ _ _ _ _ _ _ Hn Hd E1) as (L1 & _).
    destruct (nth_error (matrix_col col (select mask X)) r) as [e|] eqn:Er.
    + destruct (Fin col ltac:(apply nth_error_Some; congruence) e (nth_error_In _ _ Er)) as (Fe & He).
      specialize (He _ Hcol). change (circ_col j "eps") with (jc_eps j) in He.
      destruct (c24_eps N RN argsort g _ _ j Hc Hj) as (B & _).
      destruct (B e He) as [B1|(B1 & B2)].
      { exfalso. apply (nfin_iff RN) in Fe as (q & Eq). apply (nisnan_iff RN) in B1. congruence. }
      destruct (grid_cover RN n1 _ _ e Hn1 HG B1 B2) as (b & Hbb). apply (Heq b); [apply Hbb|].
      destruct (bin_members (map (np_round digits) (linspace nm1 n1 (Z.to_nat n_bin))) (Z.to_nat n_bin) b (matrix_col col (select mask X)) (proj1 Hbb)) as (_ & M).
      apply M. eauto.
    + apply nth_error_None in Er. rewrite !(proj2 (nth_error_None _ _)) by lia. reflexivity.
Qed.

(** decompose gives each star with a finite circularity the label 0 or 1 and every other
    particle NaN; nothing depends on what the memory held before. *)
Lemma c41_decompose : forall (N : Num) (St : Type) choice argsort junk cbins n_bin digits (st : St) (g : galaxy N) c st',
  arith N -> draws choice -> constructible g -> (n_bin <= 2 ^ 53)%Z -> (0 <= digits)%Z ->
  decompose argsort (jhistogram choice junk cbins n_bin digits) st g = Ok (c, st') ->
  (exists j, jcirc argsort g (fst cbins) (snd cbins) = Ok j /\
     forall i p k, located g i p k ->
      let usable := p_type p = STARS /\ exists e, nth_error (jc_eps j) k = Some e /\ nfin e = true in
      (usable -> nth_error (c_labels c) i = Some (nofZ 0) \/ nth_error (c_labels c) i = Some (nofZ 1)) /\
      (~ usable -> nth_error (c_labels c) i = Some nnan)) /\
  forall junk', decompose argsort (jhistogram choice junk' cbins n_bin digits) st g = Ok (c, st').
Proof.
  intros N St choice argsort junk cbins n_bin digits st g c st' HA HD Hc Hn Hd H. destruct (arith_grid N HA) as (RN & G).
  destruct (hist_decompose RN G St (fun _ => pick_any choice) 0 ["eps"%string] argsort cbins n_bin digits junk st g c st'
              (fun _ => pick_any_incl choice HD) eps_attrs eq_refl Hc Hn Hd H) as ((j & Hj & HL) & HJ).
  split; [|exact HJ]. exists j. split; [exact Hj|]. intros i p k Hk usable. destruct (HL i p k Hk) as (A & B). unfold usable. split.
  - intros (T & U). apply A. split; [exact T|]. intros a [<-|[]]. exact U.
  - intros U. apply B. intros (T & V). apply U. split; [exact T|]. apply (V "eps"%string). now left.
Qed.

(** The composition of the spheroid, bin by bin: with [bin0] the first zero edge, the bins
    below it are all spheroid; bin [b] mirrors bin [2 * bin0 - 1 - b] around zero and gets
    min(counter, co) spheroid particles; bins without a mirror are all disk. *)
Lemma c42_composition : forall (N : Num) (St : Type) choice junk n_bin digits (eps : list N) (st : St) labels st',
  arith N -> draws choice -> (n_bin <= 2 ^ 53)%Z -> (0 <= digits)%Z ->
  hist_split (pick_any choice) junk n_bin digits st eps = Ok (labels, st') ->
  let n := Z.to_nat n_bin in let edges := map (np_round digits) (linspace nm1 n1 n) in
  exists bin0, zero_edge edges bin0 /\ grid_to n1 n edges /\ (0 < bin0 < n)%nat /\
   forall b l, (b < n)%nat -> members edges n b eps l ->
    ((b < bin0)%nat -> labelled 0 labels l = length l) /\
    ((bin0 <= b < 2 * bin0)%nat -> forall l', members edges n (2 * bin0 - 1 - b) eps l' ->
       labelled 0 labels l = Nat.min (length l') (length l) /\
       labelled 1 labels l = (length l - Nat.min (length l') (length l))%nat) /\
    ((2 * bin0 <= b)%nat -> labelled 1 labels l = length l).
Proof.
  intros N St choice junk n_bin digits eps st labels st' HA HD Hn Hd H. destruct (arith_grid N HA) as (RN & G).
  assert (PK : forall st a b s st', pick_any choice st a b = Ok (s, st') -> incl s b /\ (NoDup b -> NoDup s)).
  { intros st0 a b s st1 E. unfold pick_any in E. destruct (draw_spec _ _ _ _ _ _ HD E) as (A & _ & _ & B). auto. }
  destruct (hist_compose RN G _ PK _ _ _ _ _ _ _ Hn Hd H) as (bin0 & Hz & HG & Hb & HC).
  exists bin0. split; [exact Hz|]. split; [exact HG|]. split; [exact Hb|]. intros b l Hbn Hl. destruct (HC b l Hbn Hl) as (A1 & A2 & A3).
  split; [exact A1|]. split; [|exact A2]. intros Hm l' Hl'. destruct (A3 Hm l' Hl') as (s & _ & _ & _ & -> & -> & B1 & B2).
  destruct (Nat.lt_ge_cases (length l') (length l)) as [L|L].
  - destruct (B2 L) as (a & b' & s1 & s2 & P & P' & _ & _ & E). unfold pick_any in E. destruct (draw_spec _ _ _ _ _ _ HD E) as (_ & C & _).
    rewrite (Permutation_length P) in C. lia.
  - rewrite (B1 L). lia.
Qed.

(** When no co-rotating bin holds more particles than its mirror nothing is drawn: the
    generator stays where it was and every generator gives the same labels. *)
Lemma c44_no_draw : forall (N : Num) (St : Type) choice junk n_bin digits (eps : list N) (st : St) labels st',
  arith N -> draws choice -> (n_bin <= 2 ^ 53)%Z -> (0 <= digits)%Z ->
  hist_split (pick_any choice) junk n_bin digits st eps = Ok (labels, st') ->
  let n := Z.to_nat n_bin in let edges := map (np_round digits) (linspace nm1 n1 n) in
  (forall bin0 b l l', zero_edge edges bin0 -> (bin0 <= b < 2 * bin0)%nat -> (b < n)%nat ->
     members edges n b eps l -> members edges n (2 * bin0 - 1 - b) eps l' -> (length l <= length l')%nat) ->
  st' = st /\
  forall (St2 : Type) (choice2 : St2 -> list nat -> nat -> list nat * St2) st2, draws choice2 ->
    hist_split (pick_any choice2) junk n_bin digits st2 eps = Ok (labels, st2).
Proof.
  intros N St choice junk n_bin digits eps st labels st' HA HD Hn Hd H n edges Hno. destruct (arith_grid N HA) as (RN & G).
  destruct (hist_split_ok RN G _ (pick_any_incl choice HD) _ _ _ _ _ _ _ Hn Hd H) as (bin0 & S & Hn1 & Hz & HG & Hb & S1 & S2 & S3 & L & Hin & Hout & Hst & HJ).
  fold n in Hn1, Hz, HG, Hb, S1, S2, S3, Hin, Hout, Hst, HJ. fold edges in Hn1, Hz, HG, Hb, S1, S2, S3, Hin, Hout, Hst, HJ. set (B := bin_list edges n eps) in *.
  assert (NO : forall c, mirrored n bin0 c -> (length (B (2 * bin0 - 1 - c)) <= length (B c))%nat).
  { intros c (M1 & M2). apply (Hno bin0 (2 * bin0 - 1 - c)%nat); [exact Hz|lia|exact M2|now apply bin_members|].
    replace (2 * bin0 - 1 - (2 * bin0 - 1 - c))%nat with c by lia. apply bin_members. lia. }
  split; [now apply Hst|]. intros St2 choice2 st2 HD2.
  destruct (hist_split_cases RN G _ (pick_any_incl choice2 HD2) n_bin digits bin0 eps st2 ltac:(unfold n in Hn1; lia) Hd Hz) as [(S' & st3 & T1 & T2 & T3 & T4 & HL)|(e & _ & c & M & Hr & _)].
  2:{ specialize (NO c M). exfalso. change (length (B c) < length (B (2 * bin0 - 1 - c)))%nat in Hr. lia. }
  rewrite T4 in HL by exact NO. destruct (HL junk) as (l2 & E2 & L2 & Hin2 & Hout2). rewrite E2. do 2 f_equal.
  fold n in T1, T2, Hin2, Hout2. fold edges in T1, T2, Hin2, Hout2. fold B in T1, T2, Hin2, Hout2.
  assert (ES : forall k, (k < top_bin n bin0)%nat -> S k = B k /\ S' k = B k).
  { intros k Hk. destruct (Nat.lt_ge_cases k bin0) as [Lk|Lk]; [auto|].
    assert (M : mirrored n bin0 (2 * bin0 - 1 - k)) by (unfold mirrored; unfold top_bin in Hk; lia). pose proof (NO _ M) as Q.
    specialize (S2 _ M). specialize (T2 _ M). unfold contributes in S2, T2.
    replace (2 * bin0 - 1 - (2 * bin0 - 1 - k))%nat with k in * by (unfold top_bin in Hk; lia).
    split; [destruct S2 as [(_ & A)|(A & _)]; [exact A|lia]|destruct T2 as [(_ & A)|(A & _)]; [exact A|lia]]. }
  apply nth_error_ext. intros i. destruct (Nat.lt_ge_cases i (length eps)) as [Li|Li].
  2:{ rewrite !(proj2 (nth_error_None _ _)) by lia. reflexivity. }
  destruct (existsb (fun b => existsb (Nat.eqb i) (B b)) (seq 0 n)) eqn:Ex.
  - apply existsb_exists in Ex as (b & Ib & Ex). apply in_seq in Ib. apply existsb_exists in Ex as (x & Ix & Ex). apply Nat.eqb_eq in Ex. subst x.
    destruct (Hin b i ltac:(lia) Ix) as (A1 & A2). destruct (Hin2 b i ltac:(lia) Ix) as (B1 & B2). unfold in_spheroid in *.
    destruct (lt_dec b (top_bin n bin0)) as [Q|Q].
    + destruct (ES b Q) as (E & E'). rewrite A1, B1; [reflexivity|rewrite E'; auto|rewrite E; auto].
    + rewrite A2, B2; [reflexivity|tauto|tauto].
  - assert (NI : forall b, (b < n)%nat -> ~ In i (B b)).
    { intros b Hbn I. apply not_true_iff_false in Ex. apply Ex. apply existsb_exists. exists b. split; [apply in_seq; lia|].
      apply existsb_exists. exists i. split; [exact I|apply Nat.eqb_refl]. }
    rewrite Hout, Hout2; auto.
Qed.

Lemma flen {A} (P : A -> bool) l : (length (filter P l) <= length l)%nat.
Proof. induction l as [|a l IH]; simpl; [lia|]. destruct (P a); simpl; lia. Qed.

(** How many particles of each bin go to the spheroid does not depend on the generator. *)
Lemma c44_counts : forall (N : Num) (St1 St2 : Type) choice1 choice2 junk1 junk2 n_bin digits (eps : list N) (st1 : St1) (st2 : St2) labels1 labels2 st1' st2',
  arith N -> draws choice1 -> draws choice2 -> (n_bin <= 2 ^ 53)%Z -> (0 <= digits)%Z ->
  hist_split (pick_any choice1) junk1 n_bin digits st1 eps = Ok (labels1, st1') ->
  hist_split (pick_any choice2) junk2 n_bin digits st2 eps = Ok (labels2, st2') ->
  let n := Z.to_nat n_bin in let edges := map (np_round digits) (linspace nm1 n1 n) in
  forall b l, (b < n)%nat -> members edges n b eps l -> labelled 0 labels1 l = labelled 0 labels2 l.
Proof.
  intros N St1 St2 choice1 choice2 junk1 junk2 n_bin digits eps st1 st2 labels1 labels2 st1' st2' HA HD1 HD2 Hn Hd H1 H2 n edges b l Hb Hl.
  destruct (c42_composition N St1 choice1 junk1 n_bin digits eps st1 labels1 st1' HA HD1 Hn Hd H1) as (z & Hz & _ & _ & C1).
  destruct (c42_composition N St2 choice2 junk2 n_bin digits eps st2 labels2 st2' HA HD2 Hn Hd H2) as (z' & Hz' & _ & Hzn & C2).
  assert (z' = z) as -> by (eapply zero_edge_unique; eauto).
  destruct (C1 b l Hb Hl) as (A1 & A2 & A3). destruct (C2 b l Hb Hl) as (B1 & B2 & B3).
  destruct (Nat.lt_ge_cases b z) as [L|L]; [rewrite A1, B1; auto|]. destruct (Nat.lt_ge_cases b (2 * z)) as [L'|L'].
  - pose proof (bin_members edges n (2 * z - 1 - b) eps ltac:(unfold n in *; lia)) as M.
    destruct (A2 ltac:(lia) _ M) as (-> & _). destruct (B2 ltac:(lia) _ M) as (-> & _). reflexivity.
  - assert (K : forall labels, labelled 1 labels l = length l -> labelled 0 labels l = 0%nat).
    { intros labels. unfold labelled. clear. induction l as [|x l IH]; [reflexivity|]. cbn [filter].
      pose proof (flen (fun i => match nth_error labels i with Some z' => (1 =? z')%Z | None => false end) l) as F.
      destruct (nth_error labels x) as [w|]; [|cbn [length]; intros E; lia].
      destruct (Z.eqb_spec 1 w) as [<-|]; cbn [length]; [|intros E; lia]. change (0 =? 1)%Z with false. cbn iota. intros E. apply IH. lia. }
    rewrite (K _ (A3 L')), (K _ (B3 L')). reflexivity.
Qed.

Lemma hist_session {N : Num} (RN : Rounded N) (G : grid RN) St (pk : matrix N -> St -> list nat -> list nat -> res (list nat * St)) col attrs
  argsort cbins n_bin digits junk1 junk2 st (gs : list (galaxy N)) :
  (forall X st a b s st', pk X st a b = Ok (s, st') -> incl s b) ->
  star_attrs attrs -> nth_error attrs col = Some "eps"%string -> Forall constructible gs -> (n_bin <= 2 ^ 53)%Z -> (0 <= digits)%Z ->
  session argsort (hist_decomposer pk col attrs cbins n_bin digits junk1) st gs =
  session argsort (hist_decomposer pk col attrs cbins n_bin digits junk2) st gs.
Proof.
  intros Hp HA Hcol HG Hn Hd. revert st. induction HG as [|g gs Hg _ IH]; intros st; [reflexivity|]. cbn [session].
  set (D := hist_decomposer pk col attrs cbins n_bin digits) in *.
  destruct (decompose argsort (D junk1) st g) as [(c, st')|e] eqn:E.
  - destruct (hist_decompose RN G St pk col attrs argsort cbins n_bin digits junk1 st g c st' Hp HA Hcol Hg Hn Hd E) as (_ & K).
    unfold D in *. rewrite K, IH. reflexivity.
  - destruct (decompose argsort (D junk2) st g) as [(c, st')|e'] eqn:E'.
    + destruct (hist_decompose RN G St pk col attrs argsort cbins n_bin digits junk2 st g c st' Hp HA Hcol Hg Hn Hd E') as (_ & K).
      unfold D in *. rewrite K in E. discriminate.
    + f_equal. f_equal. destruct (star_decompose_errors RN argsort St (D junk1) st g Hg HA eq_refl) as (R1 & K1).
      destruct (star_decompose_errors RN argsort St (D junk2) st g Hg HA eq_refl) as (R2 & K2). cbn [d_cbins D hist_decomposer] in *.
      destruct (jcirc argsort g (fst cbins) (snd cbins)) as [j|e0].
      2:{ specialize (R1 e0 eq_refl). specialize (R2 e0 eq_refl). congruence. }
      destruct (K1 j eq_refl) as (X & y & mask & EX & EM & LM & LY & _ & Q1 & Q1').
      destruct (K2 j eq_refl) as (X2 & y2 & mask2 & EX2 & EM2 & _ & _ & _ & Q2 & _).
      unfold D in *. cbn [d_attributes d_split hist_decomposer] in *. rewrite EX in EX2. injection EX2 as <- <-. rewrite EM in EM2. injection EM2 as <-.
      set (Xs := select mask X) in *.
      destruct (hist_split (pk Xs) junk1 n_bin digits st (matrix_col col Xs)) as [(l1, s1)|e1] eqn:H1.
      { exfalso. cbn [bind fst snd] in Q1'. destruct (Q1' l1 s1 eq_refl) as (c & Ec & _); [|congruence].
        destruct (hist_split_labels RN G _ (Hp Xs) _ _ _ _ _ _ _ Hn Hd H1) as (L & _). rewrite L. unfold matrix_col, Xs. rewrite map_length. now apply select_length. }
      cbn [bind] in Q1. rewrite (Q1 e1 eq_refl) in E. injection E as <-.
      assert (H2 : hist_split (pk Xs) junk2 n_bin digits st (matrix_col col Xs) = Raise e1).
      { destruct (make_histogram_iff (N:=N) (matrix_col col Xs) n_bin digits) as (A & B).
        destruct (Z_lt_ge_dec n_bin 1) as [L|L]; [unfold hist_split in *; rewrite A in * by exact L; exact H1|].
        destruct (B ltac:(lia)) as (_ & B2). pose proof (zero_edge_where (round_edges (N:=N) n_bin digits)) as W. destruct (where_ _) as [|b l].
        { unfold hist_split in *. rewrite B2 in * by exact W. exact H1. }
        destruct (hist_split_cases RN G _ (Hp Xs) n_bin digits b (matrix_col col Xs) st ltac:(lia) Hd W) as [(S & s2 & _ & _ & _ & _ & HL)|(e2 & HR & _)].
        - destruct (HL junk1) as (l3 & El & _). congruence.
        - rewrite HR in *. exact H1. }
      rewrite H2 in Q2. cbn [bind] in Q2. specialize (Q2 e1 eq_refl). congruence.
Qed.
(** Two objects with the same hyper-parameters and generator agree on every sequence of
    galaxies, though their memory differs. *)
Lemma c44_reproducible : forall (N : Num) (St : Type) choice argsort junk1 junk2 cbins n_bin digits (st : St) (gs : list (galaxy N)),
  arith N -> draws choice -> Forall constructible gs -> (n_bin <= 2 ^ 53)%Z -> (0 <= digits)%Z ->
  session argsort (jhistogram choice junk1 cbins n_bin digits) st gs =
  session argsort (jhistogram choice junk2 cbins n_bin digits) st gs.
Proof.
  intros N St choice argsort junk1 junk2 cbins n_bin digits st gs HA HD HC Hn Hd. destruct (arith_grid N HA) as (RN & G).
  exact (hist_session RN G St (fun _ => pick_any choice) 0 ["eps"%string] argsort cbins n_bin digits junk1 junk2 st gs
           (fun _ => pick_any_incl choice HD) eps_attrs eq_refl HC Hn Hd).
Qed.

(** A generator: the first entries, then the last, in turn. *)
Definition turns (st : bool) (l : list nat) (k : nat) : list nat * bool := (firstn k (if st then rev l else l), negb st).
Lemma turns_draws : draws turns.
Proof.
  intros st l k Hk. exists (skipn k (if st then rev l else l)). cbn [fst turns]. rewrite firstn_skipn. split.
  - destruct st; [apply Permutation_sym, Permutation_rev|reflexivity].
  - apply firstn_length_le. destruct st; [rewrite rev_length|]; exact Hk.
Qed.

(** The generator advances, so one object can give two answers for the same galaxy. *)
Lemma c44_repeated_call_refuted : exists (St : Type) (choice : St -> list nat -> nat -> list nat * St) (st : St) (g : galaxy F64) c1 c2,
  draws choice /\ constructible g /\
  (forall junk, session asort (jhistogram choice junk (default_bin0, default_bin1) 100 2) st [g; g] = [Ok c1; Ok c2]) /\
  exists i a b, nth_error (c_labels c1) i = Some a /\ nth_error (c_labels c2) i = Some b /\ neqb a n0 = true /\ neqb b n1 = true.
Proof.
  set (P := fun r : list (res (components F64)) => match r with [Ok c1; Ok c2] =>
     match c_labels c1, c_labels c2 with
     | a :: _, b :: _ => neqb (a : F64) n0 && neqb (b : F64) n1 | _, _ => false end | _ => false end).
  assert (H : match sampleG with Ok g => P (session asort (jhistogram turns (fun _ => 9%Z) (default_bin0, default_bin1) 100 2) false [g; g]) | _ => false end = true) by (vm_compute; reflexivity).
  destruct sampleG as [g|] eqn:Eg; [|discriminate]. pose proof (lineG_ok _ _ _ _ Eg) as Hc.
  unfold P in H. destruct (session _ _ _ _) as [|[c1|] [|[c2|] [|]]] eqn:E; try discriminate.
  exists bool, turns, false, g, c1, c2. split; [apply turns_draws|]. split; [exact Hc|]. split.
  - intros junk. rewrite (c44_reproducible F64 bool turns asort junk (fun _ => 9%Z)); [exact E|right; eexists; reflexivity|apply turns_draws|auto|lia|lia].
  - exists 0%nat. destruct (c_labels c1) as [|a l1]; [discriminate|]. destruct (c_labels c2) as [|b l2]; [discriminate|]. cbn [nth_error].
    apply andb_prop in H as (H1 & H2). exists a, b. auto.
Qed.

(** Ten particles in four bins of width 1/2: five counter-rotating, in bins 0 and 1; bin 2
    has three particles for its mirror's two, bin 3 two for its mirror's three. *)
Definition tenE : list F64 := map (fun z => nlit z 10) [-9; -8; -7; -3; -2; 1; 2; 3; 9; 10]%Z.
Example ex_c42 :
  map (fun st => rmap fst (hist_split (pick_any turns) (fun _ => 9%Z) 4 2 st tenE)) [false; true] =
  [Ok [0; 0; 0; 0; 0; 0; 0; 1; 0; 0]%Z; Ok [0; 0; 0; 0; 0; 1; 0; 0; 0; 0]%Z].
Proof. vm_compute. reflexivity. Qed.
(** A value outside [-1, 1] keeps what the memory held. *)
Example ex_c41 :
  rmap fst (hist_split (pick_any turns) (fun i => Z.of_nat (100 + i)) 100 2 false (map (fun z => nlit z 10) [-11; -10; 0; 4; 10; 11]%Z : list F64)) =
  Ok [100; 0; 1; 1; 0; 105]%Z.
Proof. vm_compute. reflexivity. Qed.
(** decompose with the default parameters on the sample galaxy. *)
Example ex_c41_decompose :
  map (fun st => rmap (fun r => shows (c_labels (fst r)))
         (do g <- sampleG; decompose asort (jhistogram turns (fun _ => 9%Z) (default_bin0, default_bin1) 100 2) st g)) [false; true] =
  [Ok [sZ 0; sZ 1; sZ 0; S754_nan; S754_nan; S754_nan; S754_nan; S754_nan];
   Ok [sZ 1; sZ 0; sZ 0; S754_nan; S754_nan; S754_nan; S754_nan; S754_nan]].
Proof. vm_compute. reflexivity. Qed.
(** Nothing is drawn when each co-rotating bin is at most as full as its mirror. *)
Example ex_c44 :
  map (fun st => hist_split (pick_any turns) (fun _ => 9%Z) 4 2 st (map (fun z => nlit z 10) [-9; -8; -3; 1; 10]%Z : list F64)) [false; true] =
  [Ok ([0; 0; 0; 0; 0]%Z, false); Ok ([0; 0; 0; 0; 0]%Z, true)].
Proof. vm_compute. reflexivity. Qed.
