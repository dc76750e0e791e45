(** The tolerance [c_bic] of AutoGaussianMixture and the number of Gaussians (C117). *)
From Coq Require Import Floats.SpecFloat Permutation Sorted Reals Lra Lia.
From Verif Require Import Py Num RX F64 Np Df Data DataFacts DfFacts CenterFacts Ex Spec DataThms SpecCirc Circ CircFacts CircThms SpecBase Base BaseFacts BaseThms Threshold EpsFacts Hist SpecMix Center Mixture MixFacts MixStar MixThms.

Lemma good_raise {N : Num} (RN : Rounded N) (c c' : N) bics m : nle c c' = true -> good_enough c bics m -> good_enough c' bics m.
Proof. intros Hc (R & G). split; [exact R|]. apply (nle_iff RN). apply (nle_iff RN) in Hc, G. eapply xle_trans; eassumption. Qed.
Lemma smallest_exists (P : nat -> Prop) m : (forall n, P n \/ ~ P n) -> P m -> exists m', smallest P m' /\ (m' <= m)%nat.
Proof.
  intros D. induction m as [m IH] using lt_wf_ind. intros Hm.
  assert (K : (exists a, (a < m)%nat /\ P a) \/ forall a, (a < m)%nat -> ~ P a).
  { clear - D. induction m as [|m [(a & La & Pa)|Q]]; [right; intros; lia|left; exists a; split; [lia|exact Pa]|].
    destruct (D m) as [Y|Nn]; [left; exists m; split; [lia|exact Y]|right]. intros a La. destruct (Nat.eq_dec a m) as [->|]; [exact Nn|apply Q; lia]. }
  destruct K as [(a & La & Pa)|Q].
  - destruct (IH a La Pa) as (m' & S & L). exists m'. split; [exact S|lia].
  - exists m. split; [|lia]. split; [exact Hm|]. intros a Pa. destruct (Nat.le_gt_cases m a) as [L|L]; [exact L|]. now apply Q in Pa.
Qed.
Lemma good_dec {N : Num} (c : N) bics m : good_enough c bics m \/ ~ good_enough c bics m.
Proof.
  unfold good_enough. destruct (Nat.le_gt_cases 2 m); [|right; intros ((A & _) & _); lia]. destruct (Nat.le_gt_cases m 15); [|right; intros ((_ & A) & _); lia].
  destruct (nle _ c); [left; auto|right; intros (_ & A); discriminate].
Qed.

(** If the split succeeds with the tolerance [c], then a larger tolerance finds a number of Gaussians too, and no
    larger one, from the same trials, whatever the order in which the fits finish. *)
Lemma c117_monotone : forall (N : Num) (RN : Rounded N) (H St : Type) gm_fit gm_fit_seed randint order order' (c c' : N) (self : string -> H) (st : St) (X : matrix N) labels p st',
  (forall s k, length (fst (randint s k)) = k) -> Permutation order (seq 0 14) -> Permutation order' (seq 0 14) ->
  nle c c' = true ->
  auto_split gm_fit gm_fit_seed randint order c self st X = Ok (labels, p, st') ->
  exists bics m m' kw kw' f, length bics = 14%nat /\
    (forall t b, nth_error bics t = Some b -> trial gm_fit_seed self X (fst (randint st 14%nat)) t b) /\
    smallest (good_enough c bics) m /\ smallest (good_enough c' bics) m' /\ (m' <= m)%nat /\
    passes kw "n_components" (KInt (Z.of_nat m)) mixture_names (fun a => KUser (self a)) /\
    passes kw' "n_components" (KInt (Z.of_nat m')) mixture_names (fun a => KUser (self a)) /\
    gm_fit kw (snd (randint st 14%nat)) X = Ok (f, st') /\ group f X = Ok (labels, p) /\
    (forall f2 st2 labels2 p2, gm_fit kw' (snd (randint st 14%nat)) X = Ok (f2, st2) -> group f2 X = Ok (labels2, p2) ->
       auto_split gm_fit gm_fit_seed randint order' c' self st X = Ok (labels2, p2, st2)) /\
    (m' = m -> auto_split gm_fit gm_fit_seed randint order' c' self st X = Ok (labels, p, st')).
Proof.
  intros N RN H St gm_fit gm_fit_seed randint order order' c c' self st X labels p st' HR HP HP' Hc HS. unfold auto_split in *.
  change (length components_to_try) with 14%nat in *. specialize (HR st 14%nat). destruct (randint st 14%nat) as [seeds st1]. cbn [fst snd] in *.
  destruct (trials gm_fit_seed self X seeds order HR HP) as [(bics & L & E & Ep & V)|(e & I & Ep)]; rewrite Ep in HS; [|discriminate]. cbn [bind] in HS.
  destruct (trials gm_fit_seed self X seeds order' HR HP') as [(bics' & L' & E' & Ep' & V')|(e' & I' & Ep')]; rewrite Ep'; cbn [bind].
  2:{ exfalso. rewrite E in I'. apply in_map_iff in I' as (x & Q & _). discriminate. }
  assert (bics' = bics) as ->.
  { rewrite E in E'. clear -E'. revert bics' E'. induction bics as [|x l IH]; intros [|y l'] Q; try discriminate; [reflexivity|]. injection Q as -> Q. f_equal. now apply IH. }
  pose proof (choose_spec c bics L) as C. destruct (choose_number c bics) as [z|]; [|discriminate]. cbn [bind] in HS. destruct C as (m & -> & C).
  pose proof (choose_spec c' bics L) as C'. destruct (choose_number c' bics) as [z|]; cbn [bind].
  2:{ exfalso. destruct C' as (_ & Q). apply (Q m), (good_raise RN c); [exact Hc|apply C]. }
  destruct C' as (m' & -> & C').
  destruct (gm_fit _ st1 X) as [[f st2]|] eqn:Ef in HS; [|discriminate]. cbn [bind] in HS.
  destruct (group f X) as [[l' p']|] eqn:Eg; [|discriminate]. cbn [bind] in HS. injection HS as <- <- <-.
  exists bics, m, m', (gm_kwargs (KInt (Z.of_nat m)) self), (gm_kwargs (KInt (Z.of_nat m')) self), f.
  split; [exact L|]. split; [exact V|]. split; [exact C|]. split; [exact C'|]. split; [apply C', (good_raise RN c); [exact Hc|apply C]|].
  split; [apply gm_passes|]. split; [apply gm_passes|]. split; [exact Ef|]. split; [exact Eg|]. split.
  - intros f2 s2 l2 p2 E2 G2. rewrite E2. cbn [bind]. rewrite G2. reflexivity.
  - intros ->. rewrite Ef. cbn [bind]. rewrite Eg. reflexivity.
Qed.

(** If the values never rise from one number of Gaussians to the next, the number used is where they settle: exactly
    the numbers from it upwards are good enough. *)
Lemma c117_settled : forall (N : Num) (RN : Rounded N) (H St : Type) gm_fit gm_fit_seed randint order (c : N) (self : string -> H) (st : St) (X : matrix N) labels p st',
  (forall s k, length (fst (randint s k)) = k) -> Permutation order (seq 0 14) ->
  (forall t b b', trial gm_fit_seed self X (fst (randint st 14%nat)) t b -> trial gm_fit_seed self X (fst (randint st 14%nat)) (S t) b' -> nfin b' = true /\ nle b' b = true) ->
  auto_split gm_fit gm_fit_seed randint order c self st X = Ok (labels, p, st') ->
  exists bics m kw f, length bics = 14%nat /\
    (forall t b, nth_error bics t = Some b -> trial gm_fit_seed self X (fst (randint st 14%nat)) t b) /\
    (2 <= m <= 15)%nat /\ (forall n, good_enough c bics n <-> (m <= n <= 15)%nat) /\
    passes kw "n_components" (KInt (Z.of_nat m)) mixture_names (fun a => KUser (self a)) /\
    gm_fit kw (snd (randint st 14%nat)) X = Ok (f, st') /\ group f X = Ok (labels, p).
Proof.
  intros N RN H St gm_fit gm_fit_seed randint order c self st X labels p st' HR HP HF HS.
  destruct (c48_selection N H St gm_fit gm_fit_seed randint order c self st X labels p st' HR HP HS) as (bics & m & kw & f & L & V & (((M1 & M2) & G) & SM) & PK & Ef & Eg).
  exists bics, m, kw, f. split; [exact L|]. split; [exact V|]. split; [lia|]. split; [|auto].
  assert (K : forall d, (m + d <= 15)%nat -> good_enough c bics (m + d)).
  { induction d as [|d IH]; intros Hd; [rewrite Nat.add_0_r; split; [lia|exact G]|]. specialize (IH ltac:(lia)). destruct IH as (_ & IH). split; [lia|].
    assert (F : forall t, (t < 14)%nat -> nth_error bics t = Some (nth t bics nnan)) by (intros t Ht; apply nth_error_nth'; lia).
    replace (m + S d - 2)%nat with (S (m + d - 2)) by lia. set (t := (m + d - 2)%nat) in *.
    destruct (HF t _ _ (V _ _ (F t ltac:(unfold t; lia))) (V _ _ (F (S t) ltac:(unfold t; lia)))) as (Fb & Hb).
    apply (nle_iff RN). apply (nle_iff RN) in IH, Hb. eapply xle_trans; [|exact IH]. rewrite !(val_sub RN) in *. rewrite (val_fin RN) in Fb.
    apply (rnd_mono RN). set (mu := val RN (nsum (skipn 9 bics) / nofZ 5)%num) in *.
    assert (NN : xsub (val RN (nth t bics nnan)) mu <> XNaN) by (intros Q; rewrite Q, (rnd_nan RN) in IH; destruct IH).
    destruct (val RN (nth (S t) bics nnan)), (val RN (nth t bics nnan)), mu; try discriminate; cbn in *; try tauto; try lra; try congruence. }
  intros n. split.
  - intros Gn. split; [now apply SM|apply Gn].
  - intros Hn. replace n with (m + (n - m))%nat by lia. apply K. lia.
Qed.

(** In exact arithmetic a constant added to all the values changes nothing. *)
Lemma c117_offset : forall (bs : list R) (a c : R) m, length bs = 14%nat ->
  (good_enough (N:=RX) (XR c) (map XR (map (Rplus a) bs)) m <-> good_enough (N:=RX) (XR c) (map XR bs) m).
Proof.
  intros bs a c m L. destruct (c48_exact bs c L) as (A & _). destruct (c48_exact (map (Rplus a) bs) c ltac:(now rewrite map_length)) as (B & _). rewrite A, B.
  assert (E : (2 <= m <= 15)%nat -> (nth (m - 2) (map (Rplus a) bs) 0 - fold_right Rplus 0 (skipn 9 (map (Rplus a) bs)) / 5 = nth (m - 2) bs 0 - fold_right Rplus 0 (skipn 9 bs) / 5)%R).
  { intros Hm. rewrite (nth_indep _ 0%R (a + 0)%R) by (rewrite map_length; lia). rewrite map_nth. rewrite skipn_map.
    assert (L5 : length (skipn 9 bs) = 5%nat) by (rewrite skipn_length; lia). destruct (skipn 9 bs) as [|x1 [|x2 [|x3 [|x4 [|x5 [|x6 l]]]]]]; try discriminate L5. cbn. field. }
  split; intros (Hm & Q); (split; [exact Hm|]); rewrite E in * by exact Hm; exact Q.
Qed.
Lemma number_of {N : Num} (c : N) bics m : length bics = 14%nat -> choose_number c bics = Ok (Z.of_nat m) -> smallest (good_enough c bics) m.
Proof. intros L E. pose proof (choose_spec c bics L) as C. rewrite E in C. destruct C as (m' & Em & C). assert (m' = m) as -> by lia. exact C. Qed.
(** In binary64 it can: 2^52 added to the values of the example below. *)
Lemma c117_offset_refuted : exists (bics : list F64) (a c : F64) m m', length bics = 14%nat /\ (forall b, In b (a :: c :: bics) -> nfin b = true) /\
  smallest (good_enough c bics) m /\ smallest (good_enough c (map (nadd a) bics)) m' /\ m <> m'.
Proof.
  set (bics := toy_bics [90; 50; 20; 12; 11; 10; 10; 10; 10; 10; 10; 10; 10; 10]%Z). set (a := nofZ (2 ^ 52) : F64). set (c := nlit 1 10 : F64).
  assert (H : choose_number c bics = Ok 7%Z) by (vm_compute; reflexivity).
  assert (H' : choose_number c (map (nadd a) bics) = Ok 5%Z) by (vm_compute; reflexivity).
  pose proof (number_of c bics 7 eq_refl H) as C. pose proof (number_of c (map (nadd a) bics) 5 eq_refl H') as C'.
  exists bics, a, c, 7%nat, 5%nat. split; [reflexivity|]. split; [|split; [exact C|split; [exact C'|discriminate]]].
  assert (F : forallb nfin (a :: c :: bics) = true) by (vm_compute; reflexivity). rewrite forallb_forall in F. exact F.
Qed.
(** "A number above a good enough one is good enough": false if the values rise somewhere. *)
Lemma c117_settled_refuted : exists (bics : list F64) (c : F64) m n, length bics = 14%nat /\ (forall b, In b (c :: bics) -> nfin b = true /\ nle n0 b = true) /\
  smallest (good_enough c bics) m /\ (m < n <= 15)%nat /\ ~ good_enough c bics n.
Proof.
  set (bics := toy_bics [90; 50; 20; 10; 12; 10; 10; 10; 10; 10; 10; 10; 10; 10]%Z). set (c := nlit 1 10 : F64).
  assert (H : choose_number c bics = Ok 5%Z) by (vm_compute; reflexivity).
  pose proof (number_of c bics 5 eq_refl H) as C.
  exists bics, c, 5%nat, 6%nat. split; [reflexivity|]. split; [|split; [exact C|split; [lia|]]].
  - assert (F : forallb (fun b => nfin b && nle n0 b) (c :: bics) = true) by (vm_compute; reflexivity). rewrite forallb_forall in F. intros b I. now apply andb_prop, F.
  - intros (_ & Q). assert (F : nle (nth (6 - 2) bics nnan - nsum (skipn 9 bics) / nofZ 5)%num c = false) by (vm_compute; reflexivity). clearbody bics c. clear - Q F. congruence.
Qed.

(** The toy fits of [ex_c48_split], whose values fall by 1/2 with every Gaussian: with tolerances 1/2, 1 and 3 twelve,
    eleven and seven Gaussians are used. *)
Example ex_c117 :
  map (fun c => rmap (fun r => snd r) (auto_split (N:=F64) toy_gm toy_seed (toy_randint 8) (seq 0 14) c (fun a => a) 0 toy_rows)) [nlit 1 2; n1; nofZ 3] = repeat (Ok 101%nat) 3 /\
  map (fun c => choose_number (N:=F64) c (map (fun z => nlit z 2) [18; 17; 16; 15; 14; 13; 12; 11; 10; 9; 8; 7; 6; 5]%Z)) [nlit 1 2; n1; nofZ 3] = [Ok 12; Ok 11; Ok 7]%Z.
Proof. vm_compute. auto. Qed.
(** Their values are finite and never rise. *)
Example ex_c117_falls : forall t b b', trial (N:=F64) toy_seed (fun a : string => a) toy_rows (fst (toy_randint 8 0 14)) t b ->
  trial toy_seed (fun a : string => a) toy_rows (fst (toy_randint 8 0 14)) (S t) b' -> nfin b' = true /\ nle b' b = true.
Proof.
  assert (OI : forall A (a b : A), Ok a = Ok b -> a = b) by (intros A a b E; now injection E).
  assert (V : forall t b, trial (N:=F64) toy_seed (fun a : string => a) toy_rows (fst (toy_randint 8 0 14)) t b -> (t < 14)%nat /\ b = (nofZ (20 - Z.of_nat (2 + t)) / nofZ (Z.of_nat (length toy_rows)))%num).
  { intros t b (seed & kw & f & w & Es & (K & _) & Ef & Ew & ->). split; [assert (Q : nth_error (fst (toy_randint 8 0 14)) t <> None) by congruence; apply nth_error_Some in Q; exact Q|].
    unfold toy_seed, toy_gm in Ef. rewrite K in Ef. cbn [bind] in Ef. destruct (seed =? 7)%Z; [discriminate|]. cbn [fst] in Ef. apply OI in Ef. rewrite <- Ef in Ew. cbn [f_bic] in Ew. apply OI in Ew. now rewrite Ew. }
  intros t b b' T T'. destruct (V _ _ T) as (Ht & ->). destruct (V _ _ T') as (Ht' & ->).
  assert (Q : forallb (fun t => (fun b b' : F64 => nfin b' && nle b' b) (nofZ (20 - Z.of_nat (2 + t)) / nofZ (Z.of_nat (length toy_rows)))%num (nofZ (20 - Z.of_nat (2 + S t)) / nofZ (Z.of_nat (length toy_rows)))%num) (seq 0 13) = true) by (vm_compute; reflexivity).
  rewrite forallb_forall in Q. apply andb_prop. apply (Q t). apply in_seq. lia.
Qed.
