(** Facts about the model of the histogram decompositions. *)
From Verif Require Import Py Num RX F64 Np Df Data CenterFacts CircFacts SpecHist Circ Base Threshold ThresholdThms Hist.
From Coq Require Import Permutation Lia.

(** ** Dictionaries *)

Definition has (d : bdict) (P : nat -> Prop) (f : nat -> list nat) : Prop :=
  NoDup (map fst d) /\ (forall k, In k (map fst d) <-> P k) /\ forall k, P k -> bget d k = Ok (f k).

Lemma bset_keys d k v : (In k (map fst d) -> map fst (bset d k v) = map fst d) /\
  (~ In k (map fst d) -> map fst (bset d k v) = map fst d ++ [k]).
Proof.
  induction d as [|[k' v'] d (IH1 & IH2)]; simpl; [tauto|]. destruct (Nat.eqb_spec k k') as [->|H]; simpl.
  - split; [reflexivity|]. intros C. exfalso. apply C. now left.
  - split.
    + intros [C|C]; [congruence|]. now rewrite IH1.
    + intros C. rewrite IH2; [reflexivity|]. intros C'. apply C. now right.
Qed.
Lemma bget_bset d k v x : bget (bset d k v) x = if (x =? k)%nat then Ok v else bget d x.
Proof.
  induction d as [|[k' v'] d IH]; simpl.
  - destruct (x =? k)%nat; reflexivity.
  - destruct (Nat.eqb_spec k k') as [->|H]; simpl.
    + destruct (x =? k')%nat; reflexivity.
    + rewrite IH. destruct (Nat.eqb_spec x k') as [->|]; [|reflexivity]. destruct (Nat.eqb_spec k' k); [congruence|reflexivity].
Qed.
Lemma has_bset d P f k v : has d P f -> has (bset d k v) (fun x => P x \/ x = k) (fun x => if (x =? k)%nat then v else f x).
Proof.
  intros (H1 & H2 & H3). destruct (bset_keys d k v) as (K1 & K2). split; [|split].
  - destruct (in_dec Nat.eq_dec k (map fst d)) as [I|I].
    + now rewrite K1.
    + rewrite K2 by exact I. apply NoDup_Add with (a := k) (l := map fst d); [|split; assumption].
      replace (map fst d) with (map fst d ++ []) at 1 by apply app_nil_r. apply Add_app.
  - intros x. destruct (in_dec Nat.eq_dec k (map fst d)) as [I|I].
    + rewrite K1 by exact I. rewrite H2. split; [auto|]. intros [C| ->]; [exact C|]. now apply H2.
    + rewrite K2 by exact I. rewrite in_app_iff, H2. simpl. intuition.
  - intros x Hx. rewrite bget_bset. destruct (Nat.eqb_spec x k); [reflexivity|]. apply H3. tauto.
Qed.
Lemma has_ext d P f P' f' : has d P f -> (forall k, P k <-> P' k) -> (forall k, P k -> f k = f' k) -> has d P' f'.
Proof.
  intros (H1 & H2 & H3) HP Hf. split; [exact H1|]. split; [intros k; rewrite H2; apply HP|]. intros k Hk. apply HP in Hk. rewrite H3, Hf; auto.
Qed.
Lemma has_length d m f : has d (fun k => (k < m)%nat) f -> length d = m.
Proof.
  intros (H1 & H2 & _). rewrite <- (map_length fst d), <- (seq_length m 0). apply Permutation_length.
  apply NoDup_Permutation; [exact H1|apply seq_NoDup|]. intros x. rewrite H2, in_seq. lia.
Qed.
Lemma has_nil f : has [] (fun _ => False) f.
Proof. split; [constructor|]. split; [simpl; tauto|tauto]. Qed.
Lemma mapM_fn {A B} (g : A -> res B) h l : (forall x, In x l -> g x = Ok (h x)) -> mapM g l = Ok (map h l).
Proof. induction l as [|a l IH]; intros H; simpl; [reflexivity|]. rewrite H by now left. cbn [bind]. rewrite IH; [reflexivity|]. intros; apply H; now right. Qed.

Lemma gather_has d m f : has d (fun k => (k < m)%nat) f -> (0 < m)%nat -> gather d = Ok (concat (map f (seq 0 m))).
Proof.
  intros H Hm. unfold gather. rewrite (has_length _ _ _ H). destruct (Nat.eqb_spec m 0); [lia|]. cbn [negb guard bind].
  rewrite (mapM_fn (bget d) f); [reflexivity|]. intros x Hx. apply in_seq in Hx. apply H. lia.
Qed.
Lemma gather_in (f : nat -> list nat) m i : In i (concat (map f (seq 0 m))) <-> exists k, (k < m)%nat /\ In i (f k).
Proof.
  rewrite in_concat. split.
  - intros (l & Hl & Hi). apply in_map_iff in Hl as (k & <- & Hk). apply in_seq in Hk. exists k. split; [lia|exact Hi].
  - intros (k & Hk & Hi). exists (f k). split; [|exact Hi]. apply in_map_iff. exists k. split; [reflexivity|]. apply in_seq. lia.
Qed.

Lemma unique_in l x : In x (np_unique l) <-> In x l.
Proof.
  assert (U : forall y l, In x (uinsert y l) <-> x = y \/ In x l).
  { clear. intros y l. induction l as [|z l IH]; simpl; [intuition|]. destruct (y <? z)%nat; [simpl; intuition|].
    destruct (Nat.eqb_spec y z) as [->|]; simpl; [intuition|]. rewrite IH. intuition. }
  induction l as [|y l IH]; simpl; [tauto|]. rewrite U, IH. intuition.
Qed.
Lemma unique_nil l : (forall x, ~ In x l) -> np_unique l = [].
Proof. destruct l as [|x l]; [reflexivity|]. intros H. exfalso. apply (H x). now left. Qed.

(** ** Bins *)

Section Bins.
Context {N : Num} (RN : Rounded N).

Definition bin_list (edges : list N) (n : nat) (eps : list N) (i : nat) : list nat := where_ (map (in_bin edges n i) eps).

Lemma in_bin_holds edges n b (e : N) : (b < n)%nat -> (in_bin edges n b e = true <-> holds_bin edges n b e).
Proof.
  intros Hb. unfold in_bin, holds_bin. rewrite andb_true_iff. destruct (Nat.eqb_spec (S b) n) as [E|E].
  - split; [intros (A & B); repeat split; auto; try lia; intros _; now rewrite <- E|]. intros (_ & A & _ & B). split; [exact A|]. rewrite E. now apply B.
  - split; [intros (A & B); repeat split; auto; intros; lia|]. intros (_ & A & B & _). split; [exact A|]. apply B. lia.
Qed.

Lemma where_NoDup m : NoDup (where_ m).
Proof.
  unfold where_. generalize 0%nat as k. induction m as [|[|] m IH]; intros k; simpl; [constructor| |apply IH].
  constructor; [|apply IH]. intros H. apply where_from_In in H. lia.
Qed.
Lemma bin_members edges n b eps : (b < n)%nat -> members edges n b eps (bin_list edges n eps b).
Proof.
  intros Hb. split; [apply where_NoDup|]. intros i. unfold bin_list. rewrite where_In, nth_error_map.
  destruct (nth_error eps i) as [e|]; cbn [option_map].
  - split.
    + intros [= H]. exists e. split; [reflexivity|]. now apply in_bin_holds.
    + intros (e' & [= <-] & H). f_equal. now apply in_bin_holds.
  - split; [discriminate|]. intros (e & H & _). discriminate.
Qed.

Lemma btp_has edges n eps : (1 <= n)%nat -> length edges = S n ->
  has (bin_to_particle edges n eps) (fun k => (k < n)%nat) (bin_list edges n eps).
Proof.
  intros Hn Le. unfold bin_to_particle.
  assert (length (removelast edges) = n) as ->.
  { rewrite removelast_firstn_len, Le. simpl. rewrite firstn_length. lia. }
  set (f := fun i => where_ (map (fun e => nle (nth i edges nnan) e && nlt e (nth (S i) edges nnan)) eps)).
  assert (H : has (map (fun i => (i, f i)) (seq 0 (n - 1))) (fun k => (k < n - 1)%nat) f).
  { assert (K : map fst (map (fun i => (i, f i)) (seq 0 (n - 1))) = seq 0 (n - 1)) by (rewrite map_map; simpl; apply map_id).
    split; [rewrite K; apply seq_NoDup|]. split; [intros k; rewrite K, in_seq; lia|]. intros k Hk.
    assert (I : In k (seq 0 (n - 1))) by (apply in_seq; lia). clear K Hk. induction (seq 0 (n - 1)) as [|a l IH]; [destruct I|]. simpl.
    destruct (Nat.eqb_spec k a) as [->|Hne]; [reflexivity|]. apply IH. destruct I; [congruence|assumption]. }
  eapply has_ext; [apply has_bset, H| |].
  - intros k. simpl. lia.
  - intros k Hk. simpl in Hk. unfold bin_list, f. destruct (Nat.eqb_spec k (n - 1)) as [->|Hne].
    + f_equal. apply map_ext. intros e. unfold in_bin. replace (S (n - 1)) with n by lia. now rewrite Nat.eqb_refl.
    + f_equal. apply map_ext. intros e. unfold in_bin. destruct (Nat.eqb_spec (S k) n); [lia|reflexivity].
Qed.

(** Bins of a grid: each value between the ends is in exactly one. *)
Lemma grid_chain (top : N) n edges i j : grid_to top n edges -> (i < j <= n)%nat -> xle (val RN (nth i edges nnan)) (val RN (nth j edges nnan)).
Proof.
  intros (_ & _ & _ & H) Hij. replace j with (i + S (j - i - 1))%nat by lia. assert (K : (i + S (j - i - 1) <= n)%nat) by lia.
  revert K. generalize (j - i - 1)%nat as k. induction k as [|k IH]; intros K.
  - replace (i + 1)%nat with (S i) by lia. apply (nle_iff RN). apply H. lia.
  - apply xle_trans with (val RN (nth (i + S k) edges nnan)); [apply IH; lia|]. apply (nle_iff RN).
    replace (i + S (S k))%nat with (S (i + S k)) by lia. apply H. lia.
Qed.
Lemma grid_unique (top : N) n edges b b' e : grid_to top n edges -> holds_bin edges n b e -> holds_bin edges n b' e -> b = b'.
Proof.
  intros G. assert (K : forall b b', (b < b')%nat -> holds_bin edges n b e -> holds_bin edges n b' e -> False).
  { clear b b'. intros b b' L (Hb & A & B & C) (Hb' & A' & _). specialize (B ltac:(lia)). apply (nlt_iff RN) in B. apply (nle_iff RN) in A'.
    apply (xlt_not_le _ _ B). destruct (Nat.eq_dec (S b) b') as [->|]; [exact A'|]. eapply xle_trans; [|exact A']. apply (grid_chain top n); [exact G|lia]. }
  intros H H'. destruct (Nat.lt_trichotomy b b') as [L|[L|L]]; [exfalso; eauto|exact L|exfalso; eauto].
Qed.
Lemma grid_cover (top : N) n edges e : (1 <= n)%nat -> grid_to top n edges -> nle nm1 e = true -> nle e top = true -> exists b, holds_bin edges n b e.
Proof.
  intros Hn G H1 H2. destruct G as (L & G0 & Gn & G). apply (nle_iff RN) in H1, H2. apply (neqb_iff RN) in G0 as (G0 & _), Gn as (Gn & _).
  assert (K : forall m, (m < n)%nat -> exists b, (b <= m)%nat /\ nle (nth b edges nnan) e = true /\ ((b < m)%nat -> nlt e (nth (S b) edges nnan) = true)).
  { induction m as [|m IH]; intros Hm.
    - exists 0%nat. split; [lia|]. split; [apply (nle_iff RN); now rewrite G0|lia].
    - destruct IH as (b & B1 & B2 & B3); [lia|]. destruct (Nat.eq_dec b m) as [->|].
      + destruct (nle (nth (S m) edges nnan) e) eqn:E.
        * exists (S m). split; [lia|]. split; [exact E|lia].
        * exists m. split; [lia|]. split; [exact B2|]. intros _. apply (nle_false RN) in E. apply (nlt_iff RN).
          assert (Nn : val RN (nth (S m) edges nnan) <> XNaN).
          { specialize (G m ltac:(lia)). apply (nle_iff RN) in G. now apply xle_nan_r in G. }
          destruct (xle_total (val RN (nth (S m) edges nnan)) (val RN e)); auto; [|contradiction]. now apply xle_nan_r in H1.
      + exists b. split; [lia|]. split; [exact B2|]. intros _. apply B3. lia. }
  destruct (K (n - 1)%nat) as (b & B1 & B2 & B3); [lia|]. exists b. split; [lia|]. split; [exact B2|]. split.
  - intros Hb. apply B3. lia.
  - intros Hb. apply (nle_iff RN). now rewrite Gn.
Qed.
Lemma grid_inside (top : N) n edges b e : (1 <= n)%nat -> grid_to top n edges -> holds_bin edges n b e -> nle nm1 e = true /\ nle e top = true.
Proof.
  intros Hn G (Hb & A & B & C). pose proof G as (L & G0 & Gn & _). apply (neqb_iff RN) in G0 as (G0 & _), Gn as (Gn & _).
  apply (nle_iff RN) in A. split; apply (nle_iff RN).
  - rewrite <- G0. destruct b as [|b]; [exact A|]. eapply xle_trans; [|exact A]. apply (grid_chain top n); [exact G|lia].
  - rewrite <- Gn. destruct (Nat.eq_dec (S b) n) as [E|E]; [apply (nle_iff RN); now apply C|].
    specialize (B ltac:(lia)). apply (nlt_iff RN) in B. apply xlt_le in B. eapply xle_trans; [exact B|]. apply (grid_chain top n); [exact G|lia].
Qed.
End Bins.

(** ** The steps of split *)

Section Split.
Context {St : Type}.
Variable pick : St -> list nat -> list nat -> res (list nat * St).
Variables (n bin0 : nat) (B : nat -> list nat) (btp : bdict).
Hypothesis Hbtp : has btp (fun k => (k < n)%nat) B.
Hypothesis Hb0 : (0 < bin0 < n)%nat.

Lemma count_sph_has : exists sph, make_count_sph bin0 btp = Ok sph /\ has sph (fun k => (k < bin0)%nat) B.
Proof.
  unfold make_count_sph.
  assert (K : forall m, (m <= n)%nat -> exists sph,
     fold_left (fun acc i => do sph <- acc; do v <- bget btp i; Ok (bset sph i v)) (seq 0 m) (Ok []) = Ok sph /\ has sph (fun k => (k < m)%nat) B).
  { induction m as [|m IH]; intros Hm.
    - exists []. split; [reflexivity|]. eapply has_ext; [apply (has_nil B)| |]; simpl; intros; lia || tauto.
    - destruct IH as (sph & E & H); [lia|]. rewrite seq_S, fold_left_app, E. simpl. destruct Hbtp as (_ & _ & Hg).
      rewrite Hg by lia. cbn [bind]. eexists. split; [reflexivity|]. eapply has_ext; [apply has_bset, H| |].
      + intros k. simpl. lia.
      + intros k _. simpl. destruct (Nat.eqb_spec k m); [now subst|reflexivity]. }
  destruct (K bin0) as (sph & E & H); [lia|]. eauto.
Qed.

(** What the co-rotating bin mirrored from [c] contributes. *)
Definition contributes (S : nat -> list nat) (c : nat) : Prop :=
  let co := (2 * bin0 - 1 - c)%nat in
  ((length (B co) <= length (B c))%nat /\ S co = B co) \/
  ((length (B c) < length (B co))%nat /\ exists s1 s2, pick s1 (B c) (B co) = Ok (S co, s2)).
Definition refuses (e : exn) (c : nat) : Prop :=
  let co := (2 * bin0 - 1 - c)%nat in
  (length (B c) < length (B co))%nat /\ exists s1, pick s1 (B c) (B co) = Raise e.

Lemma corot_raise cs e : fold_left (corot_step pick bin0 btp) cs (Raise e) = Raise e.
Proof. induction cs as [|c cs IH]; simpl; auto. Qed.

Lemma corot_loop cs : NoDup cs -> (forall c, In c cs -> (c < bin0)%nat /\ (2 * bin0 - 1 - c < n)%nat) ->
  forall sph st P f, has sph P f ->
  (exists S sph' st', fold_left (corot_step pick bin0 btp) cs (Ok (sph, st)) = Ok (sph', st') /\
     has sph' (fun k => P k \/ exists c, In c cs /\ k = (2 * bin0 - 1 - c)%nat) S /\
     (forall k, (forall c, In c cs -> k <> (2 * bin0 - 1 - c)%nat) -> S k = f k) /\
     (forall c, In c cs -> contributes S c) /\
     ((forall c, In c cs -> (length (B (2 * bin0 - 1 - c)) <= length (B c))%nat) -> st' = st)) \/
  (exists e, fold_left (corot_step pick bin0 btp) cs (Ok (sph, st)) = Raise e /\ exists c, In c cs /\ refuses e c).
Proof.
  induction cs as [|c cs IH]; intros ND Hc sph st P f H.
  - left. exists f, sph, st. split; [reflexivity|]. split; [eapply has_ext; [exact H| |reflexivity]; intros k; split; [auto|intros [A|(c & [] & _)]; exact A]|].
    split; [reflexivity|]. split; [intros c []|reflexivity].
  - inversion ND as [|? ? Nc ND']; subst. destruct (Hc c) as (Hc1 & Hc2); [now left|]. set (co := (2 * bin0 - 1 - c)%nat).
    assert (Hc' : forall c, In c cs -> (c < bin0)%nat /\ (2 * bin0 - 1 - c < n)%nat) by (intros; apply Hc; now right).
    destruct Hbtp as (_ & _ & Hg).
    assert (Dist : forall c', In c' cs -> co <> (2 * bin0 - 1 - c')%nat).
    { intros c' I E. assert (c = c') by (destruct (Hc' c' I); unfold co in E; lia). subst. contradiction. }
    cbn [fold_left]. unfold corot_step at 2 4. cbn [bind]. fold co. rewrite (Hg c) by lia. cbn [bind]. rewrite (Hg co) by exact Hc2. cbn [bind].
    assert (Step : forall w st1, (contributes (fun _ => w) c) ->
       ((length (B co) <= length (B c))%nat -> st1 = st) ->
      (exists S sph' st', fold_left (corot_step pick bin0 btp) cs (Ok (bset sph co w, st1)) = Ok (sph', st') /\
         has sph' (fun k => P k \/ exists c', In c' (c :: cs) /\ k = (2 * bin0 - 1 - c')%nat) S /\
         (forall k, (forall c', In c' (c :: cs) -> k <> (2 * bin0 - 1 - c')%nat) -> S k = f k) /\
         (forall c', In c' (c :: cs) -> contributes S c') /\
         ((forall c', In c' (c :: cs) -> (length (B (2 * bin0 - 1 - c')) <= length (B c'))%nat) -> st' = st)) \/
      (exists e, fold_left (corot_step pick bin0 btp) cs (Ok (bset sph co w, st1)) = Raise e /\ exists c', In c' (c :: cs) /\ refuses e c')).
    { intros w st1 Hw Hst. destruct (IH ND' Hc' (bset sph co w) st1 _ _ (has_bset _ _ _ co w H)) as [(S & sph' & st' & E & HS & Ho & Hcs & Hn)|(e & E & c' & I & Rf)].
      - left. exists S, sph', st'. split; [exact E|].
        assert (Sco : S co = w) by (rewrite Ho by exact Dist; now rewrite Nat.eqb_refl).
        split; [eapply has_ext; [exact HS| |reflexivity]|split; [|split]].
        + intros k. simpl. split.
          * intros [[A| ->]|(c' & I & ->)]; [auto|right; exists c; auto|right; exists c'; auto].
          * intros [A|(c' & [<-|I] & ->)]; [auto|left; right; reflexivity|right; exists c'; auto].
        + intros k Hk. rewrite Ho by (intros c' I; apply Hk; now right).
          destruct (Nat.eqb_spec k co) as [->|]; [|reflexivity]. exfalso. apply (Hk c); [now left|reflexivity].
        + intros c' [<-|I]; [|now apply Hcs]. unfold contributes in *. fold co in Hw |- *. rewrite Sco. exact Hw.
        + intros Hall. rewrite Hn; [apply Hst; apply Hall; now left|]. intros c' I. apply Hall. now right.
      - right. exists e. split; [exact E|]. exists c'. split; [now right|exact Rf]. }
    destruct (Nat.leb_spec (length (B co)) (length (B c))) as [L|L].
    + apply Step; [|auto]. left. auto.
    + destruct (pick st (B c) (B co)) as [[w st1]|e] eqn:Ep; cbn [bind fst snd].
      * apply Step; [|fold co; lia]. right. split; [exact L|]. eauto.
      * right. exists e. rewrite corot_raise. split; [reflexivity|]. exists c. split; [now left|]. split; [exact L|]. eauto.
Qed.

Definition lim_aux : nat := if (2 * bin0 <=? n)%nat then 0%nat else (2 * bin0 - n)%nat.
Definition mirrored (c : nat) : Prop := (c < bin0)%nat /\ (2 * bin0 - 1 - c < n)%nat.
Lemma mirrored_seq c : In c (seq lim_aux (bin0 - lim_aux)) <-> mirrored c.
Proof. rewrite in_seq. unfold lim_aux, mirrored. destruct (Nat.leb_spec (2 * bin0) n); lia. Qed.

Definition top_bin : nat := Nat.min (2 * bin0) n.

Lemma corot_sph_has sph st : has sph (fun k => (k < bin0)%nat) B ->
  (exists S sph' st', make_corot_sph pick st n bin0 btp sph = Ok (sph', st') /\ has sph' (fun k => (k < top_bin)%nat) S /\
     (forall k, (k < bin0)%nat -> S k = B k) /\ (forall c, mirrored c -> contributes S c) /\
     ((forall c, mirrored c -> (length (B (2 * bin0 - 1 - c)) <= length (B c))%nat) -> st' = st)) \/
  (exists e, make_corot_sph pick st n bin0 btp sph = Raise e /\ exists c, mirrored c /\ refuses e c).
Proof.
  intros H. unfold make_corot_sph. fold lim_aux.
  destruct (corot_loop (seq lim_aux (bin0 - lim_aux)) (seq_NoDup _ _)) with (sph := sph) (st := st) (P := fun k => (k < bin0)%nat) (f := B)
    as [(S & sph' & st' & E & HS & Ho & Hcs & Hn)|(e & E & c & I & Rf)]; [intros c Hc; now apply mirrored_seq|exact H| |].
  - left. exists S, sph', st'. split; [exact E|]. split; [|split; [|split]].
    + eapply has_ext; [exact HS| |reflexivity]. intros k. unfold top_bin. split.
      * intros [A|(c & I & ->)]; [lia|]. apply mirrored_seq in I. unfold mirrored in I. lia.
      * intros A. destruct (Nat.lt_ge_cases k bin0) as [|L]; [auto|right]. exists (2 * bin0 - 1 - k)%nat. split; [apply mirrored_seq; unfold mirrored; lia|lia].
    + intros k Hk. apply Ho. intros c I. apply mirrored_seq in I. unfold mirrored in I. lia.
    + intros c Hc. apply Hcs. now apply mirrored_seq.
    + intros Hall. apply Hn. intros c I. apply Hall. now apply mirrored_seq.
  - right. exists e. split; [exact E|]. exists c. split; [now apply mirrored_seq|exact Rf].
Qed.

Definition not_in (l : list nat) (x : nat) : bool := negb (existsb (Nat.eqb x) l).
Lemma not_in_spec l x : not_in l x = true <-> ~ In x l.
Proof.
  unfold not_in. rewrite negb_true_iff, <- not_true_iff_false, existsb_exists. split.
  - intros H C. apply H. exists x. split; [exact C|apply Nat.eqb_refl].
  - intros H (y & I & E). apply Nat.eqb_eq in E. now subst.
Qed.

Lemma disk_has sph S : has sph (fun k => (k < top_bin)%nat) S -> (forall k, (k < bin0)%nat -> S k = B k) ->
  exists dsk D, make_disk n bin0 btp sph = Ok dsk /\ has dsk (fun k => (k < n)%nat) D /\
    (forall k, (k < bin0)%nat -> D k = []) /\
    (forall k, (bin0 <= k < top_bin)%nat -> D k = np_unique (filter (not_in (S k)) (B k))) /\
    (forall k, (top_bin <= k < n)%nat -> D k = B k).
Proof.
  intros HS HSB. unfold make_disk. rewrite (has_length _ _ _ HS). destruct Hbtp as (_ & _ & Hg). destruct HS as (_ & _ & HSg).
  set (lim := if (2 * bin0 <=? n)%nat then bin0 else (n - bin0)%nat).
  assert (Hlim : (lim <= bin0)%nat) by (unfold lim; destruct (Nat.leb_spec (2 * bin0) n); lia).
  assert (Htop : (bin0 < top_bin <= n)%nat) by (unfold top_bin; lia).
  assert (K1 : forall m, (m <= bin0)%nat -> has (fold_left (fun d i => bset d i []) (seq 0 m) btp) (fun k => (k < n)%nat) (fun k => if (k <? m)%nat then [] else B k)).
  { induction m as [|m IH]; intros Hm.
    - simpl. eapply has_ext; [exact Hbtp|tauto|reflexivity].
    - rewrite seq_S, fold_left_app. simpl. eapply has_ext; [apply has_bset, IH; lia| |].
      + intros k. simpl. lia.
      + intros k _. simpl. destruct (Nat.eqb_spec k m) as [->|]; [now rewrite (proj2 (Nat.ltb_lt m (Datatypes.S m))) by lia|].
        destruct (Nat.ltb_spec k m), (Nat.ltb_spec k (Datatypes.S m)); reflexivity || lia. }
  pose proof (K1 bin0 (Nat.le_refl _)) as H1. set (dsk := fold_left _ (seq 0 bin0) btp) in *.
  assert (K2 : forall m, (lim + m <= top_bin)%nat -> exists d, fold_left (disk_step btp sph) (seq lim m) (Ok dsk) = Ok d /\
     has d (fun k => (k < n)%nat) (fun k => if (lim <=? k)%nat && (k <? lim + m)%nat then np_unique (filter (not_in (S k)) (B k))
                                             else if (k <? bin0)%nat then [] else B k)).
  { induction m as [|m IH]; intros Hm.
    - exists dsk. split; [reflexivity|]. eapply has_ext; [exact H1|tauto|]. intros k _. simpl.
      destruct (Nat.leb_spec lim k), (Nat.ltb_spec k (lim + 0)); try reflexivity. lia.
    - destruct IH as (d & E & H); [lia|]. rewrite seq_S, fold_left_app, E. cbn [fold_left]. unfold disk_step at 1. cbn [bind].
      rewrite (Hg (lim + m)%nat) by lia. cbn [bind]. rewrite (HSg (lim + m)%nat) by lia. cbn [bind]. eexists. split; [reflexivity|].
      eapply has_ext; [apply has_bset, H| |].
      + intros k. simpl. lia.
      + intros k _. simpl. destruct (Nat.eqb_spec k (lim + m)) as [->|Hne].
        * destruct (Nat.leb_spec lim (lim + m)); [|lia]. destruct (Nat.ltb_spec (lim + m) (lim + Datatypes.S m)); [|lia]. reflexivity.
        * destruct (Nat.leb_spec lim k), (Nat.ltb_spec k (lim + m)), (Nat.ltb_spec k (lim + Datatypes.S m)); simpl; try reflexivity; lia. }
  destruct (K2 (top_bin - lim)%nat) as (d & E & H); [lia|]. exists d. eexists. split; [exact E|]. split; [exact H|].
  replace (lim + (top_bin - lim))%nat with top_bin by lia. split; [|split].
  - intros k Hk. destruct (Nat.leb_spec lim k), (Nat.ltb_spec k top_bin), (Nat.ltb_spec k bin0); simpl; try reflexivity; try lia.
    apply unique_nil. intros x Hx. apply filter_In in Hx as (I & F). apply not_in_spec in F. apply F. now rewrite HSB.
  - intros k Hk. destruct (Nat.leb_spec lim k); [|lia]. destruct (Nat.ltb_spec k top_bin); [reflexivity|lia].
  - intros k Hk. destruct (Nat.leb_spec lim k); [|lia]. destruct (Nat.ltb_spec k top_bin); [lia|]. simpl.
    destruct (Nat.ltb_spec k bin0); [lia|reflexivity].
Qed.

(** The labels. *)
Definition in_spheroid (S : nat -> list nat) (b i : nat) : Prop := (b < top_bin)%nat /\ In i (S b).
Lemma labels_has sph S dsk D junk m :
  has sph (fun k => (k < top_bin)%nat) S -> has dsk (fun k => (k < n)%nat) D ->
  (forall k, (k < bin0)%nat -> S k = B k) -> (forall k, (k < bin0)%nat -> D k = []) ->
  (forall k, (bin0 <= k < top_bin)%nat -> D k = np_unique (filter (not_in (S k)) (B k))) ->
  (forall k, (top_bin <= k < n)%nat -> D k = B k) ->
  (forall k, (k < top_bin)%nat -> incl (S k) (B k)) -> (forall k i, (k < n)%nat -> In i (B k) -> (i < m)%nat) ->
  exists e d l0 labels, gather sph = Ok e /\ gather dsk = Ok d /\ assign_all (np_empty junk m) e 0%Z = Ok l0 /\ assign_all l0 d 1%Z = Ok labels /\
    length labels = m /\
    (forall b i, (b < n)%nat -> In i (B b) -> (forall b', (b' < n)%nat -> In i (B b') -> b' = b) ->
       (in_spheroid S b i -> nth_error labels i = Some 0%Z) /\ (~ in_spheroid S b i -> nth_error labels i = Some 1%Z)) /\
    (forall i, (i < m)%nat -> (forall b, (b < n)%nat -> ~ In i (B b)) -> nth_error labels i = Some (junk i)).
Proof.
  intros HS HD SB D0 D1 D2 SI Hm. assert (Htop : (bin0 < top_bin <= n)%nat) by (unfold top_bin; lia).
  assert (DI : forall k, (k < n)%nat -> incl (D k) (B k)).
  { intros k Hk x Hx. destruct (Nat.lt_ge_cases k bin0); [rewrite D0 in Hx by lia; destruct Hx|].
    destruct (Nat.lt_ge_cases k top_bin); [|rewrite D2 in Hx by lia; exact Hx].
    rewrite D1 in Hx by lia. apply (proj1 (unique_in _ _)) in Hx. apply filter_In in Hx. tauto. }
  exists (concat (map S (seq 0 top_bin))), (concat (map D (seq 0 n))).
  destruct (assign_all_ok (np_empty junk m) (concat (map S (seq 0 top_bin))) 0%Z) as (l0 & E0 & L0 & I0 & O0).
  { intros i Hi. apply gather_in in Hi as (k & Hk & Hi). rewrite np_empty_length. apply (Hm k); [lia|]. now apply SI. }
  rewrite np_empty_length in L0.
  destruct (assign_all_ok l0 (concat (map D (seq 0 n))) 1%Z) as (l1 & E1 & L1 & I1 & O1).
  { intros i Hi. apply gather_in in Hi as (k & Hk & Hi). rewrite L0. apply (Hm k); [lia|]. now apply DI. }
  exists l0, l1. split; [apply gather_has; [exact HS|lia]|]. split; [apply gather_has; [exact HD|lia]|].
  split; [exact E0|]. split; [exact E1|]. split; [congruence|]. split.
  - intros b i Hb Hi Hu.
    assert (Dmem : In i (concat (map D (seq 0 n))) <-> In i (D b)).
    { rewrite gather_in. split; [|intros Hd; exists b; auto]. intros (k & Hk & Hd). assert (k = b) as <-; [|exact Hd]. apply Hu; [exact Hk|]. now apply DI. }
    assert (Smem : In i (concat (map S (seq 0 top_bin))) <-> in_spheroid S b i).
    { rewrite gather_in. split; [|intros (Hb' & Hd); exists b; auto]. intros (k & Hk & Hd). assert (k = b) as <-; [|split; assumption]. apply Hu; [lia|]. now apply SI. }
    split; intros Hs.
    + rewrite O1; [apply I0; now apply Smem|]. rewrite Dmem. intros Hd. destruct Hs as (Hb' & Hs).
      destruct (Nat.lt_ge_cases b bin0) as [Lb|Lb]; [rewrite D0 in Hd by lia; destruct Hd|].
      rewrite D1 in Hd by lia. apply (proj1 (unique_in _ _)) in Hd. apply filter_In in Hd as (_ & Hd). apply not_in_spec in Hd. contradiction.
    + apply I1. apply Dmem. destruct (Nat.lt_ge_cases b bin0) as [Lb|Lb].
      { exfalso. apply Hs. split; [lia|]. now rewrite SB. }
      destruct (Nat.lt_ge_cases b top_bin) as [Lt|Lt]; [|rewrite D2 by lia; exact Hi].
      rewrite D1 by lia. apply unique_in. apply filter_In. split; [exact Hi|]. apply not_in_spec. intros C. apply Hs. now split.
  - intros i Hi Hno. rewrite O1, O0.
    + now apply np_empty_nth.
    + intros Hd. apply gather_in in Hd as (k & Hk & Hd). apply (Hno k); [lia|]. now apply SI.
    + intros Hd. apply gather_in in Hd as (k & Hk & Hd). apply (Hno k); [lia|]. now apply DI.
Qed.
End Split.
