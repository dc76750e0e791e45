(** Property lemmas about two analyses of the same particles: C108. *)
From Flocq Require Import Core BinarySingleNaN.
From Coq Require Import Lra Lia Permutation Sorted Floats.SpecFloat.
From Verif Require Import Py Num RX F64 Np Df Data DataFacts DfFacts RebuildFacts Center CenterFacts Align Spec SpecR SpecCirc SpecAlAcc SpecBase SpecCurve SpecChain SpecFma Dgemm SpecDgemm SpecAcc SpecWhole SpecWhist SpecHist Ex DataThms CenterThms Circ Base Threshold Hist SpecPot Potential PotConcFacts PotThms SpecPotAcc SpecNpAcc Fma AlAccSum AlAccThms NpAccThms CircThms DgemmThms HistThms WholeThms WhistFacts WhistThms SpecAgain.
Local Open Scope R_scope.

(** *** Exact quantities do not depend on the order *)
Definition pot_of (k s : R) (l : list particle) (p : particle) : R := - (k * (phi s p l - pm p / sdist s p p)).
Lemma exact_pots_of k s l : exact_pots k s l = map (pot_of k s l) l.
Proof.
  apply nth_error_ext. intros i. unfold exact_pots. rewrite !nth_error_map. destruct (nth_error l i) as [p|] eqn:Ep.
  - assert (i < length l)%nat by (apply nth_error_Some; congruence).
    rewrite (nth_error_nth' _ 0%nat) by (rewrite seq_length; auto). rewrite seq_nth by auto. cbn [option_map Nat.add]. rewrite Ep. do 2 f_equal. unfold pot_of. f_equal.
    assert (phi s p l = phi s p (p :: others l i)) as ->.
    { apply phi_perm. rewrite (split_nth l i p Ep) at 1. unfold others. symmetry. apply Permutation_middle. }
    unfold phi; simpl. ring.
  - replace (nth_error (seq 0 (length l)) i) with (@None nat); [reflexivity|]. symmetry. apply nth_error_None. rewrite seq_length. now apply nth_error_None.
Qed.
Lemma pot_of_perm k s l l' p : Permutation l l' -> pot_of k s l p = pot_of k s l' p.
Proof. intros P. unfold pot_of. now rewrite (phi_perm s p l l' P). Qed.

Lemma sumR_perm f l l' : Permutation l l' -> sumR f l = sumR f l'.
Proof. induction 1; unfold sumR in *; simpl; lra. Qed.
Lemma filter_all {A} (f : A -> bool) l : (forall x, f x = true) -> filter f l = l.
Proof. intros H. induction l as [|x l IH]; simpl; [reflexivity|]. now rewrite H, IH. Qed.
Lemma totals_perm l l' : Permutation l l' ->
  LX None l = LX None l' /\ LY None l = LY None l' /\ LZ None l = LZ None l' /\ Lnorm None l = Lnorm None l' /\ Lplane l = Lplane l' /\ weights l = weights l'.
Proof.
  intros P.
  assert (A : LX None l = LX None l') by (unfold LX; rewrite !filter_all by reflexivity; now apply sumR_perm).
  assert (B : LY None l = LY None l') by (unfold LY; rewrite !filter_all by reflexivity; now apply sumR_perm).
  assert (C : LZ None l = LZ None l') by (unfold LZ; rewrite !filter_all by reflexivity; now apply sumR_perm).
  unfold Lnorm, Lplane, weights. rewrite A, B, C, (sumR_perm weight _ _ P). auto 10.
Qed.
Lemma axis_perm l l' q : Permutation l l' -> axis_part l q = axis_part l' q.
Proof. intros P. destruct (totals_perm l l' P) as (A & B & C & D & _). unfold axis_part. now rewrite A, B, C, D. Qed.
Lemma resolved_perm u k t l l' d ue uz q p : Permutation l l' -> resolved u k t l d ue uz q p -> resolved u k t l' d ue uz q p.
Proof. intros P. destruct (totals_perm l l' P) as (A & B & C & D & _ & E). unfold resolved, spin_error. now rewrite D, E. Qed.
Lemma spin_perm u k l l' : Permutation l l' -> strong_spin u k l -> strong_spin u k l'.
Proof.
  intros P (A & B & C & D & E). destruct (totals_perm l l' P) as (_ & _ & _ & F & G & H). rewrite F, H in D. rewrite G, H in E.
  split; [intros q I; apply A; eapply Permutation_in; [apply Permutation_sym, P|exact I]|]. rewrite <- (Permutation_length P). auto.
Qed.

Definition body_at (kG s : R) (o : particle) (ls lr : list particle) (p : particle) : R * R :=
  whole_body (map (seen_from o) ls) (seen_from o p) (pot_of kG s lr p).
Lemma map2_same {A B C D} (f : B -> C -> D) (g : A -> B) (h : A -> C) l : map2 f (map g l) (map h l) = map (fun x => f (g x) (h x)) l.
Proof. induction l as [|x l IH]; simpl; [reflexivity|]. now rewrite IH. Qed.
Lemma combine_same {A B C} (g : A -> B) (h : A -> C) l : combine (map g l) (map h l) = map (fun x => (g x, h x)) l.
Proof. induction l as [|x l IH]; simpl; [reflexivity|]. now rewrite IH. Qed.
Lemma bodies_at kG s o ls ld lg : bodies_of kG s o ls ld lg = map (body_at kG s o ls (ls ++ ld ++ lg)) (ls ++ ld ++ lg).
Proof. unfold bodies_of. rewrite exact_pots_of. exact (map2_same _ (seen_from o) (pot_of kG s (ls ++ ld ++ lg)) _). Qed.
Lemma body_perm kG s o ls ls' lr lr' p : Permutation ls ls' -> Permutation lr lr' -> body_at kG s o ls lr p = body_at kG s o ls' lr' p.
Proof.
  intros P Q. unfold body_at, whole_body. rewrite (pot_of_perm kG s lr lr' p Q). f_equal. apply axis_perm. now apply Permutation_map.
Qed.

Lemma filter_perm {A} (f : A -> bool) l l' : Permutation l l' -> Permutation (filter f l) (filter f l').
Proof.
  induction 1 as [|x l l' P IH|x y l|l l' l'' P IH P' IH']; simpl; auto.
  - destruct (f x); auto.
  - destruct (f x), (f y); auto. apply perm_swap.
  - eapply Permutation_trans; eauto.
Qed.
Lemma point_perm m es ps ps' i o : Permutation ps ps' -> point m es ps i o -> point m es ps' i o.
Proof.
  intros P. unfold point. cbv zeta. assert (Q := filter_perm (fun p => inbin es i (fst p)) ps ps' P). revert Q.
  generalize (filter (fun p => inbin es i (fst p)) ps) (filter (fun p => inbin es i (fst p)) ps'). intros rows rows' Q. destruct o as [p|].
  - destruct (S i <? length es)%nat.
    + intros [E|r rest E H1 H2 H3|a rest E H1 H2].
      * apply chosen_alone. subst. now apply Permutation_length_1_inv.
      * apply (chosen_first _ _ _ r rest); auto. eapply Permutation_trans; [apply Permutation_sym, Q|exact E].
      * apply (chosen_second _ _ _ a rest); auto. eapply Permutation_trans; [apply Permutation_sym, Q|exact E].
    + intros (rest & E & H). exists rest. split; [|exact H]. eapply Permutation_trans; [apply Permutation_sym, Q|exact E].
  - intros ->. now apply Permutation_nil.
Qed.
Lemma curve_perm m es l l' ue uz cv : Permutation l l' -> exact_curve m es l ue uz cv -> exact_curve m es l' ue uz cv.
Proof.
  intros P [(A & A') (B & (b & Ib & Nb & Eb) & B') C (p0 & rest & pts & pt & E & F)].
  assert (I : forall b, In b l' -> In b l) by (intros b' I; eapply Permutation_in; [apply Permutation_sym, P|exact I]).
  assert (Q : Permutation (map (scaled ue uz) (filter negative l)) (map (scaled ue uz) (filter negative l'))) by apply Permutation_map, filter_perm, P.
  constructor; auto.
  - split; [exact B|]. split; [|auto]. exists b. split; [|auto]. eapply Permutation_in; eauto.
  - destruct F as (F1 & F2 & F3 & F4 & F5 & F6). exists p0, rest, pts, pt. split; [eapply Permutation_trans; [apply Permutation_sym, Q|exact E]|].
    do 3 (split; [assumption|]). split; [|auto]. intros i o H. eapply point_perm; [exact Q|]. now apply F4.
Qed.
Lemma perm_pairs {A} (Rel : A -> A -> Prop) l l' : Permutation l l' ->
  (forall i j p q, i <> j -> nth_error l i = Some p -> nth_error l j = Some q -> Rel p q) ->
  (forall i j p q, i <> j -> nth_error l' i = Some p -> nth_error l' j = Some q -> Rel p q).
Proof.
  intros P H. apply (Permutation_nth_error) in P as (Hl & f & Hf & Hn).
  intros i j p q Hij Hp Hq. rewrite Hn in Hp, Hq. eapply (H (f i) (f j)); eauto.
Qed.
Lemma in_others {A} (l : list A) i q : In q (others l i) <-> exists j, j <> i /\ nth_error l j = Some q.
Proof.
  revert i. induction l as [|x l IH]; intros i.
  - unfold others. rewrite firstn_nil, skipn_nil. split; [intros []|]. intros (j & _ & H). destruct j; discriminate.
  - destruct i as [|i].
    + change (others (x :: l) 0) with l. split.
      * intros I. apply In_nth_error in I as [j Hj]. exists (S j). split; [lia|exact Hj].
      * intros (j & Nj & Hj). destruct j as [|j]; [congruence|]. exact (nth_error_In l j Hj).
    + change (others (x :: l) (S i)) with (x :: others l i). split.
      * intros [<-|I]; [exists 0%nat; split; [lia|reflexivity]|]. apply IH in I as (j & Nj & Hj). exists (S j). split; [lia|exact Hj].
      * intros (j & Nj & Hj). destruct j as [|j]; [left; now injection Hj|]. right. apply IH. exists j. split; [lia|exact Hj].
Qed.
Lemma others_perm {A} (l l' : list A) i i' o : Permutation l l' -> nth_error l i = Some o -> nth_error l' i' = Some o -> Permutation (others l i) (others l' i').
Proof.
  intros P H H'. apply (Permutation_cons_inv (a:=o)).
  assert (Q : forall (l : list A) i, nth_error l i = Some o -> Permutation (o :: others l i) l).
  { intros k n E. rewrite (split_nth k n o E) at 2. unfold others. apply Permutation_middle. }
  eapply Permutation_trans; [apply Q, H|]. eapply Permutation_trans; [exact P|]. apply Permutation_sym, Q, H'.
Qed.
Lemma low_perm kG s t lr lr' i i' o : Permutation lr lr' -> nth_error lr i = Some o -> nth_error lr' i' = Some o ->
  clearly_lowest t (exact_pots kG s lr) i -> clearly_lowest t (exact_pots kG s lr') i'.
Proof.
  intros P Ho Ho' (p & Hp & H). rewrite exact_pots_of in *. rewrite nth_error_map, Ho in Hp. cbn in Hp. injection Hp as <-.
  exists (pot_of kG s lr o). split.
  { rewrite nth_error_map, Ho'. cbn. now rewrite <- (pot_of_perm kG s lr lr' o P). }
  intros j' p' Nj Hj'. rewrite nth_error_map in Hj'. destruct (nth_error lr' j') as [q|] eqn:Eq; [|discriminate]. cbn in Hj'. injection Hj' as <-. rewrite <- (pot_of_perm kG s lr lr' q P).
  assert (I : In q (others lr i)).
  { eapply Permutation_in; [apply Permutation_sym, (others_perm lr lr' i i' o P Ho Ho')|]. apply in_others. eauto. }
  apply in_others in I as (j & Nj' & Hj). apply (H j _ Nj'). now rewrite nth_error_map, Hj.
Qed.

Section Reordered.
Context (kG s R0 D k : R) (o : particle) (m a d ue uz : R) (cv : list (R * R)) (ls ld lg ls' ld' lg' : list particle).
Hypothesis Ps : Permutation ls ls'.
Hypothesis Pr : Permutation (ld ++ lg) (ld' ++ lg').
Lemma all_perm : Permutation (ls ++ ld ++ lg) (ls' ++ ld' ++ lg').
Proof. now apply Permutation_app. Qed.
Lemma bodies_perm : Permutation (bodies_of kG s o ls ld lg) (bodies_of kG s o ls' ld' lg').
Proof.
  rewrite !bodies_at. rewrite (map_ext _ (body_at kG s o ls' (ls' ++ ld' ++ lg'))); [apply Permutation_map, all_perm|].
  intros p. apply body_perm; [exact Ps|exact all_perm].
Qed.
Lemma clear_perm : clear_galaxy kG s R0 D k o m a d ue uz cv ls ld lg -> clear_galaxy kG s R0 D k o m a d ue uz cv ls' ld' lg'.
Proof.
  pose proof all_perm as P. assert (I : forall q, In q (ls' ++ ld' ++ lg') -> In q (ls ++ ld ++ lg)) by (intros q; apply Permutation_in, Permutation_sym, P).
  pose proof (Permutation_length P) as L. assert (Ps' : Permutation (map (seen_from o) ls) (map (seen_from o) ls')) by now apply Permutation_map.
  intros [H1 H2 H3 H4 H5 H6 H7 (i & H8 & H8') H9 H10 H11 H12 H13 H14]. constructor; auto.
  - intros i1 j p q. apply (perm_pairs (fun p q => D <= sdist s p q) _ _ P H4).
  - now rewrite <- L.
  - assert (J : In o (ls' ++ ld' ++ lg')) by (eapply Permutation_in; [exact P|]; eapply nth_error_In, H8').
    apply In_nth_error in J as [i' Hi']. exists i'. split; [|exact Hi']. rewrite <- L. eapply low_perm; eauto.
  - eapply spin_perm; eauto.
  - intros q J. apply H10. eapply Permutation_in; [apply Permutation_map, Permutation_sym, Pr|exact J].
  - intros q x J. rewrite <- L. apply (resolved_perm _ _ _ _ _ _ _ _ _ _ Ps'). apply H12. rewrite exact_pots_of, combine_same in *. apply in_map_iff in J as (p & E & J). injection E as <- <-.
    apply in_map_iff. exists p. split; [|auto]. now rewrite (pot_of_perm kG s _ _ p P).
  - eapply curve_perm; [apply bodies_perm|exact H13].
Qed.
(** The same star has the same energy and angular momentum in both orders. *)
Lemma body_same j j' p : nth_error ls j = Some p -> nth_error ls' j' = Some p ->
  exists b, nth_error (bodies_of kG s o ls ld lg) j = Some b /\ nth_error (bodies_of kG s o ls' ld' lg') j' = Some b.
Proof.
  intros H H'. exists (body_at kG s o ls (ls ++ ld ++ lg) p). rewrite !bodies_at, !nth_error_map, !nth_error_app1 by (apply nth_error_Some; congruence).
  rewrite H, H'. split; [reflexivity|]. cbn. f_equal. symmetry. apply body_perm; [exact Ps|exact all_perm].
Qed.
End Reordered.

(** *** One run *)
Lemma sums_more sm K K' u : 0 <= u -> (forall n, K n <= K' n) -> sums_well (F64_rounded sm) u K -> sums_well (F64_rounded sm) u K'.
Proof.
  intros U H S l rl E L B. destruct (S l rl E) as (x & Hx & Bx); [specialize (H (length l)); lra|exact B|]. exists x. split; [exact Hx|].
  eapply Rle_trans; [exact Bx|]. apply Rmult_le_compat_r.
  - assert (0 <= tiny) by (unfold tiny; apply bpow_ge_0).
    assert (forall l, 0 <= Rsum (map Rabs l)) as Z. { induction l0 as [|y l0 IH]; simpl; [lra|]. pose proof (Rabs_pos y). lra. } specialize (Z rl). lra.
  - apply Rmult_le_compat_r; auto.
Qed.
Section Run.
Context {sm : list f64 -> f64} {sm' : list f32 -> f32} (k kG s : R) (K : nat -> R) (argsort : nat -> list (F64s sm) -> list nat) (G : F32s sm')
  (table : dict (backend (F32s sm'))) (name : string) (fma : F64s sm -> F64s sm -> F64s sm -> F64s sm)
  (mm : nat -> mat3 (F64s sm) -> list (F64s sm) -> list (F64s sm) -> list (F64s sm) -> list (F64s sm) * list (F64s sm) * list (F64s sm))
  (g : galaxy (F64s sm)) (ls ld lg : list particle).
Hypothesis PF : platform k kG s K argsort G table name fma mm g ls ld lg.
Context (R0 D : R) (o : particle) (m a d ue uz : R) (cv : list (R * R)).
Hypothesis CG : clear_galaxy kG s R0 D k o m a d ue uz cv ls ld lg.
Lemma run_labels junk cut rt : val (F64_rounded sm) cut = XR rt ->
  ((exists ws, analysis argsort table name mm junk cut g = Ok ws) <-> bound_first (length ls) (bodies_of kG s o ls ld lg)) /\
  forall ws, analysis argsort table name mm junk cut g = Ok ws ->
    forall j b l, (j < length ls)%nat -> nth_error (bodies_of kG s o ls ld lg) j = Some b ->
      decided ((12 * d + / IZR (2 ^ 47)) / a) rt cv ue uz b l -> nth_error ws j = Some (code l).
Proof.
  intros A8. destruct PF as [A1 A2 A3 A4 A5 A6 A7 (A9 & A9') A10 A11 A12 A13], CG as [H1 H2 H3 H4 H5 H6 H7 (i0 & H8 & H8') H9 H10 (H11 & H11') H12 H13 (H14 & H15)].
  set (K' := fun n => if (n =? length ls)%nat then k else K n).
  assert (U : 0 <= / IZR (2 ^ 53)) by (apply Rlt_le, Rinv_0_lt_compat, IZR_lt; reflexivity).
  assert (A1' : sums_well (F64_rounded sm) (/ IZR (2 ^ 53)) K').
  { apply (sums_more sm K); auto. intros n. unfold K'. destruct (Nat.eqb_spec n (length ls)) as [->|_]; [exact A2|apply Rle_refl]. }
  assert (EK : K' (length ls) = k) by (unfold K'; now rewrite Nat.eqb_refl).
  assert (NE : ls ++ ld ++ lg <> []) by (intros E; rewrite E in H8'; destruct i0; discriminate).
  destruct (c97_all sm sm' K' argsort junk table name fma mm cut rt g G kG s ls ld lg R0 D A1' A3 A4 A5 A9 A9' A10 A11 A12 A6 A7 H1 A13 H2 H3 H4 H5 H6 H7 NE A8)
    as (h0 & h1 & i & o' & E0 & E1 & Lo & Cl & Ho & H). rewrite (Cl i0 H8) in Ho. assert (o' = o) as -> by congruence. rewrite EK in H.
  destruct H as (h2 & E2 & H); [exact H9|intros q J; apply H10; rewrite map_app; apply in_or_app; tauto|].
  destruct (H m a d ue uz cv H11 H11' H12 H13 H14 H15) as (Hb & Hl). clear H. change (map2 _ _ _) with (bodies_of kG s o ls ld lg) in Hb, Hl.
  assert (EA : analysis argsort table name mm junk cut g = do r <- decompose argsort (jthreshold junk (default_bin0, default_bin1) cut) tt h2; Ok (c_labels (fst r))).
  { unfold analysis. rewrite E0. cbn [bind]. rewrite E1. cbn [bind]. rewrite E2. reflexivity. }
  split.
  - rewrite <- Hb, EA. destruct (decompose _ _ _ h2) as [[cs []]|e]; cbn [bind fst]; split; intros (x & Hx); try discriminate; eauto.
  - intros ws Hw j b l Lj Hj (c & Ic & Hc). rewrite EA in Hw. destruct (decompose _ _ _ h2) as [[cs st]|e] eqn:Ed; [|discriminate]. cbn [bind fst] in Hw. injection Hw as <-.
    destruct (Hl cs st eq_refl j b Lj Hj) as (w & Hw & c' & Ic' & W1 & W2 & W3 & W4).
    destruct (curve_value (bodies_of kG s o ls ld lg) m d ue uz cv H11 H11' H13 (fst b / ue)) as (c0 & _ & _ & Q). rewrite (Q c' Ic') in *. rewrite (Q c Ic) in Hc. rewrite Hw. f_equal.
    destruct Hc as [(-> & [Hc|(Hc & Hc')])|[(-> & Hc & Hc' & Hc'')|(-> & Hc & Hc' & Hc'')]]; cbn [code]; auto.
Qed.
Lemma run_cells St (choice : St -> list nat -> nat -> list nat * St) junk st : draws choice ->
  (forall j b, (j < length ls)%nat -> nth_error (bodies_of kG s o ls ld lg) j = Some b ->
    settled ((12 * d + / IZR (2 ^ 47)) / a) cv ue uz (clearly_lowest (pot_error (length (ls ++ ld ++ lg)) R0 D) (exact_pots kG s (ls ++ ld ++ lg)) j) b) ->
  bound_first (length ls) (bodies_of kG s o ls ld lg) ->
  exists ws, hist_analysis argsort table name mm choice junk st g = Ok ws /\
    forall c l l', (0 <= c < 50)%Z -> NoDup l -> NoDup l' ->
      (forall j, In j l <-> in_cell (length ls) (bodies_of kG s o ls ld lg) ue uz cv c j) -> (forall j, In j l' <-> in_cell (length ls) (bodies_of kG s o ls ld lg) ue uz cv (-1 - c) j) ->
      count_label 0 ws l' = length l' /\ count_label 0 ws l = Nat.min (length l') (length l) /\
      count_label 1 ws l = (length l - Nat.min (length l') (length l))%nat.
Proof.
  intros DC HS BF. destruct PF as [A1 A2 A3 A4 A5 A6 A7 (A9 & A9') A10 A11 A12 A13], CG as [H1 H2 H3 H4 H5 H6 H7 (i0 & H8 & H8') H9 H10 (H11 & H11') H12 H13 (H14 & H15)].
  set (K' := fun n => if (n =? length ls)%nat then k else K n).
  assert (U : 0 <= / IZR (2 ^ 53)) by (apply Rlt_le, Rinv_0_lt_compat, IZR_lt; reflexivity).
  assert (A1' : sums_well (F64_rounded sm) (/ IZR (2 ^ 53)) K').
  { apply (sums_more sm K); auto. intros n. unfold K'. destruct (Nat.eqb_spec n (length ls)) as [->|_]; [exact A2|apply Rle_refl]. }
  assert (EK : K' (length ls) = k) by (unfold K'; now rewrite Nat.eqb_refl).
  assert (NE : ls ++ ld ++ lg <> []) by (intros E; rewrite E in H8'; destruct i0; discriminate).
  destruct (c99_all sm sm' K' argsort table name fma mm g G kG s ls ld lg R0 D A1' A3 A4 A5 A9 A9' A10 A11 A12 A6 A7 H1 A13 H2 H3 H4 H5 H6 H7 NE)
    as (h0 & h1 & i & o' & E0 & E1 & Lo & Cl & Ho & H). rewrite (Cl i0 H8) in Ho. assert (o' = o) as -> by congruence. rewrite EK in H.
  destruct H as (h2 & E2 & H); [exact H9|intros q J; apply H10; rewrite map_app; apply in_or_app; tauto|].
  destruct (H m a d ue uz cv H11 H11' H12 H13 H14 H15 HS BF St choice junk st DC) as (cs & st' & Ed & _ & Hc).
  exists (c_labels cs). split; [|exact Hc].
  unfold hist_analysis. rewrite E0. cbn [bind]. rewrite E1. cbn [bind]. rewrite E2. cbn [bind]. rewrite Ed. reflexivity.
Qed.
End Run.

(** A cell holds the same number of stars in both orders. *)
Lemma cell_perm kG s o ls ld lg ls' ld' lg' ue uz cv c l r : Permutation ls ls' -> Permutation (ld ++ lg) (ld' ++ lg') -> NoDup l -> NoDup r ->
  (forall j, In j l <-> in_cell (length ls) (bodies_of kG s o ls ld lg) ue uz cv c j) ->
  (forall j, In j r <-> in_cell (length ls') (bodies_of kG s o ls' ld' lg') ue uz cv c j) -> length l = length r.
Proof.
  assert (W : forall ls ld lg ls' ld' lg' l r, Permutation ls ls' -> Permutation (ld ++ lg) (ld' ++ lg') -> NoDup l ->
    (forall j, In j l <-> in_cell (length ls) (bodies_of kG s o ls ld lg) ue uz cv c j) ->
    (forall j, In j r <-> in_cell (length ls') (bodies_of kG s o ls' ld' lg') ue uz cv c j) -> (length l <= length r)%nat).
  { clear. intros ls ld lg ls' ld' lg' l r Ps Pr Nl Hl Hr. destruct (proj1 (Permutation_nth_error _ _) (Permutation_sym Ps)) as (L & f & Hf & Hn).
    rewrite <- (map_length f l). apply NoDup_incl_length; [now apply FinFun.Injective_map_NoDup|].
    intros j' J. apply in_map_iff in J as (j & <- & J). apply Hl in J as (Lj & b & x & Eb & J). apply Hr.
    destruct (nth_error ls j) as [p|] eqn:Ep; [|apply nth_error_None in Ep; lia]. pose proof (Hn j) as En. rewrite Ep in En.
    destruct (body_same kG s o _ _ _ _ _ _ Ps Pr j (f j) p Ep (eq_sym En)) as (b' & Eb1 & Eb2). assert (b' = b) as -> by congruence.
    split; [apply nth_error_Some; congruence|]. exists b, x. auto. }
  intros Ps Pr Nl Nr Hl Hr. apply Nat.le_antisymm; [exact (W ls ld lg ls' ld' lg' l r Ps Pr Nl Hl Hr)|].
  exact (W ls' ld' lg' ls ld lg r l (Permutation_sym Ps) (Permutation_sym Pr) Nr Hr Hl).
Qed.

(** Two analyses of the same particles, with the stars in another order and the dark matter and the gas in another
    order or exchanged, on any two platforms and backends: each returns if no unbound star
    precedes a bound one in its own order, and a star whose exact label is clear by the margin gets that label in both. *)
Lemma c108_labels : forall sm1 sm1' sm2 sm2' k kG s rt K1 K2 argsort1 argsort2 G1 G2 table1 table2 name1 name2 fma1 fma2 mm1 mm2 cut1 cut2
    (g1 : galaxy (F64s sm1)) (g2 : galaxy (F64s sm2)) junk1 junk2 ls ld lg ls' ld' lg' R0 D o m a d ue uz cv,
  platform (sm':=sm1') k kG s K1 argsort1 G1 table1 name1 fma1 mm1 g1 ls ld lg ->
  platform (sm':=sm2') k kG s K2 argsort2 G2 table2 name2 fma2 mm2 g2 ls' ld' lg' ->
  val (F64_rounded sm1) cut1 = XR rt -> val (F64_rounded sm2) cut2 = XR rt ->
  Permutation ls ls' -> Permutation (ld ++ lg) (ld' ++ lg') ->
  clear_galaxy kG s R0 D k o m a d ue uz cv ls ld lg ->
  ((exists ws, analysis argsort1 table1 name1 mm1 junk1 cut1 g1 = Ok ws) <-> bound_first (length ls) (bodies_of kG s o ls ld lg)) /\
  ((exists ws', analysis argsort2 table2 name2 mm2 junk2 cut2 g2 = Ok ws') <-> bound_first (length ls') (bodies_of kG s o ls' ld' lg')) /\
  forall ws ws', analysis argsort1 table1 name1 mm1 junk1 cut1 g1 = Ok ws -> analysis argsort2 table2 name2 mm2 junk2 cut2 g2 = Ok ws' ->
    forall j j' p b l, nth_error ls j = Some p -> nth_error ls' j' = Some p -> nth_error (bodies_of kG s o ls ld lg) j = Some b ->
      decided ((12 * d + / IZR (2 ^ 47)) / a) rt cv ue uz b l -> nth_error ws j = Some (code l) /\ nth_error ws' j' = Some (code l).
Proof.
  intros sm1 sm1' sm2 sm2' k kG s rt K1 K2 argsort1 argsort2 G1 G2 table1 table2 name1 name2 fma1 fma2 mm1 mm2 cut1 cut2 g1 g2 junk1 junk2 ls ld lg ls' ld' lg' R0 D o m a d ue uz cv
    F1 F2 Vc1 Vc2 Ps Pr CG.
  pose proof (clear_perm kG s R0 D k o m a d ue uz cv _ _ _ _ _ _ Ps Pr CG) as CG'.
  destruct (run_labels _ _ _ _ _ _ _ _ _ _ _ _ _ _ F1 _ _ _ _ _ _ _ _ _ CG junk1 cut1 rt Vc1) as (B1 & L1).
  destruct (run_labels _ _ _ _ _ _ _ _ _ _ _ _ _ _ F2 _ _ _ _ _ _ _ _ _ CG' junk2 cut2 rt Vc2) as (B2 & L2).
  split; [exact B1|]. split; [exact B2|]. intros ws ws' Hw Hw' j j' p b l Hj Hj' Hb Hd.
  destruct (body_same kG s o _ _ _ _ _ _ Ps Pr j j' p Hj Hj') as (b' & Eb & Eb'). assert (b' = b) as -> by congruence.
  split; [eapply L1|eapply L2]; eauto; apply nth_error_Some; congruence.
Qed.

(** With JHistogram and any generators that draw without replacement: if no unbound star precedes a bound one in either
    order and every bound star is settled (C99), both analyses return and give the same numbers of stars of each exact cell
    to the spheroid and to the disc. *)
Lemma c108_cells : forall sm1 sm1' sm2 sm2' k kG s K1 K2 argsort1 argsort2 G1 G2 table1 table2 name1 name2 fma1 fma2 mm1 mm2
    (g1 : galaxy (F64s sm1)) (g2 : galaxy (F64s sm2)) junk1 junk2 ls ld lg ls' ld' lg' R0 D o m a d ue uz cv,
  platform (sm':=sm1') k kG s K1 argsort1 G1 table1 name1 fma1 mm1 g1 ls ld lg ->
  platform (sm':=sm2') k kG s K2 argsort2 G2 table2 name2 fma2 mm2 g2 ls' ld' lg' ->
  Permutation ls ls' -> Permutation (ld ++ lg) (ld' ++ lg') ->
  clear_galaxy kG s R0 D k o m a d ue uz cv ls ld lg ->
  (forall j b, (j < length ls)%nat -> nth_error (bodies_of kG s o ls ld lg) j = Some b ->
    settled ((12 * d + / IZR (2 ^ 47)) / a) cv ue uz (clearly_lowest (pot_error (length (ls ++ ld ++ lg)) R0 D) (exact_pots kG s (ls ++ ld ++ lg)) j) b) ->
  bound_first (length ls) (bodies_of kG s o ls ld lg) -> bound_first (length ls') (bodies_of kG s o ls' ld' lg') ->
  forall St1 St2 (choice1 : St1 -> list nat -> nat -> list nat * St1) (choice2 : St2 -> list nat -> nat -> list nat * St2) st1 st2, draws choice1 -> draws choice2 ->
  exists ws ws', hist_analysis argsort1 table1 name1 mm1 choice1 junk1 st1 g1 = Ok ws /\ hist_analysis argsort2 table2 name2 mm2 choice2 junk2 st2 g2 = Ok ws' /\
    forall c l l' r r', (0 <= c < 50)%Z -> NoDup l -> NoDup l' -> NoDup r -> NoDup r' ->
      (forall j, In j l <-> in_cell (length ls) (bodies_of kG s o ls ld lg) ue uz cv c j) -> (forall j, In j l' <-> in_cell (length ls) (bodies_of kG s o ls ld lg) ue uz cv (-1 - c) j) ->
      (forall j, In j r <-> in_cell (length ls') (bodies_of kG s o ls' ld' lg') ue uz cv c j) -> (forall j, In j r' <-> in_cell (length ls') (bodies_of kG s o ls' ld' lg') ue uz cv (-1 - c) j) ->
      count_label 0 ws l = count_label 0 ws' r /\ count_label 1 ws l = count_label 1 ws' r /\
      count_label 0 ws l' = length l' /\ count_label 0 ws' r' = length l'.
Proof.
  intros sm1 sm1' sm2 sm2' k kG s K1 K2 argsort1 argsort2 G1 G2 table1 table2 name1 name2 fma1 fma2 mm1 mm2 g1 g2 junk1 junk2 ls ld lg ls' ld' lg' R0 D o m a d ue uz cv
    F1 F2 Ps Pr CG HS B1 B2 St1 St2 choice1 choice2 st1 st2 D1 D2.
  pose proof (clear_perm kG s R0 D k o m a d ue uz cv _ _ _ _ _ _ Ps Pr CG) as CG'. pose proof (all_perm _ _ _ _ _ _ Ps Pr) as P.
  assert (HS' : forall j b, (j < length ls')%nat -> nth_error (bodies_of kG s o ls' ld' lg') j = Some b ->
    settled ((12 * d + / IZR (2 ^ 47)) / a) cv ue uz (clearly_lowest (pot_error (length (ls' ++ ld' ++ lg')) R0 D) (exact_pots kG s (ls' ++ ld' ++ lg')) j) b).
  { intros j' b Lj' Hb. destruct (nth_error ls' j') as [p|] eqn:Ep'; [|apply nth_error_None in Ep'; lia].
    assert (I : In p ls) by (eapply Permutation_in; [apply Permutation_sym, Ps|eapply nth_error_In, Ep']). apply In_nth_error in I as [j Ep].
    destruct (body_same kG s o _ _ _ _ _ _ Ps Pr j j' p Ep Ep') as (b' & Eb & Eb'). assert (b' = b) as -> by congruence.
    assert (Lj : (j < length ls)%nat) by (apply nth_error_Some; congruence). intros Nb. destruct (HS j b Lj Eb Nb) as [C|[C|(C & C')]]; [left; exact C|right; left; exact C|].
    right; right. split; [|exact C']. rewrite <- (Permutation_length P).
    refine (low_perm kG s _ _ _ j j' p P _ _ C); rewrite nth_error_app1; assumption. }
  destruct (run_cells _ _ _ _ _ _ _ _ _ _ _ _ _ _ F1 _ _ _ _ _ _ _ _ _ CG _ choice1 junk1 st1 D1 HS B1) as (ws & E & W).
  destruct (run_cells _ _ _ _ _ _ _ _ _ _ _ _ _ _ F2 _ _ _ _ _ _ _ _ _ CG' _ choice2 junk2 st2 D2 HS' B2) as (ws' & E' & W').
  exists ws, ws'. split; [exact E|]. split; [exact E'|]. intros c l l' r r' Hc Nl Nl' Nr Nr' Hl Hl' Hr Hr'.
  destruct (W c l l' Hc Nl Nl' Hl Hl') as (X1 & X2 & X3). destruct (W' c r r' Hc Nr Nr' Hr Hr') as (Y1 & Y2 & Y3).
  pose proof (cell_perm kG s o _ _ _ _ _ _ ue uz cv c l r Ps Pr Nl Nr Hl Hr) as L. pose proof (cell_perm kG s o _ _ _ _ _ _ ue uz cv (-1 - c) l' r' Ps Pr Nl' Nr' Hl' Hr') as L'.
  rewrite X1, X2, X3, Y1, Y2, Y3, L, L'. auto.
Qed.

(** *** An example *)
(** The galaxy of the example of C97 with the stars exchanged and the other particle given as gas. *)
Definition exA_gal : galaxy F64 :=
  mkGal (exW_set STARS [131072; 131072] [4; 6] [5; 5] [5; 5] [448; 0] [0; 0] [246; -511])%Z
        (exW_set DARK_MATTER [] [] [] [] [] [] [])%Z (exW_set GAS [65536] [5] [5] [5] [0] [0] [0])%Z false.
Definition exA_stars : list particle := [Part 131072 4 5 5 448 0 246; Part 131072 6 5 5 0 0 (-511)].

Lemma exA_reads : reads_set (F64_rounded (seqsum 53 1024 p53 e1024)) (g_stars exA_gal) exA_stars.
Proof.
  set (RS := F64_rounded _).
  assert (V : forall z, (Z.abs z <= 1048576)%Z -> val RS (fZ z) = XR (IZR z)).
  { intros z Hz. unfold fZ. change (nofZ (N:=F64) z) with (nofZ (N:=F64s (seqsum 53 1024 p53 e1024)) z). rewrite (val_ofZ RS). apply (rnd_int RS). change (intmax RS) with (2 ^ 53)%Z. lia. }
  assert (M : forall zs rs, Forall2 (fun z r => (Z.abs z <= 1048576)%Z /\ IZR z = r) zs rs -> map (val RS) (fZs zs) = map XR rs).
  { induction 1 as [|z r zs rs [H1 H2] F IH]; [reflexivity|]. change (fZs (z :: zs)) with (fZ z :: fZs zs). cbn [map]. etransitivity; [exact (f_equal2 cons (V z H1) IH)|]. now rewrite H2. }
  repeat split; (etransitivity; [apply M; repeat (constructor; [split; [lia|reflexivity]|]); constructor|reflexivity]).
Qed.
Lemma exA_soft so : largest_softening exA_gal so -> val (F64_rounded (seqsum 53 1024 p53 e1024)) so = XR 0.
Proof.
  assert (V : val (F64_rounded (seqsum 53 1024 p53 e1024)) (fZ 0) = XR 0) by (apply (val_small (F64_rounded (seqsum 53 1024 p53 e1024))); lia).
  intros [(p & (I & _) & <- & _)|(_ & Nu)].
  - destruct I as [<-|[<-|[<-|[]]]]; exact V.
  - exfalso. apply (Nu (g_stars exA_gal)). split; [simpl; auto|]. split; [discriminate|reflexivity].
Qed.

(** Both galaxies, one with the Fortran module and the other with numpy, meet the hypotheses of C108; the slower star
    is decided to be labelled 1 for the cut 1/4, and in both runs it is.  In the first run it is
    star number 1, in the second one star number 0. *)
Example ex_c108 : let RS := F64_rounded (seqsum 53 1024 p53 e1024) in
  let cv := [(-1, 0); (-1023 / 524288, 1)] in let o := Part 65536 5 5 5 0 0 0 in
  platform (sm:=seqsum 53 1024 p53 e1024) (sm':=seqsum 24 128 p24 e128) (2 * INR 2) 1 0 (fun n => 2 * INR n) asort n1 (backend_table n1 true junk0) "fortran" fma64 (plain_matmul (S:=F64)) exW_gal exW_stars exW_dark [] /\
  platform (sm:=seqsum 53 1024 p53 e1024) (sm':=seqsum 24 128 p24 e128) (2 * INR 2) 1 0 (fun n => 2 * INR n) asort n1 (backend_table n1 false junk0) "numpy" fma64 (plain_matmul (S:=F64)) exA_gal exA_stars [] exW_dark /\
  Permutation exW_stars exA_stars /\ Permutation (exW_dark ++ []) ([] ++ exW_dark) /\
  clear_galaxy 1 0 6 1 (2 * INR 2) o (/ 1000) (99 / 100) (/ 150000) 262144 511 cv exW_stars exW_dark [] /\
  bound_first 2 (bodies_of 1 0 o exW_stars exW_dark []) /\ bound_first 2 (bodies_of 1 0 o exA_stars [] exW_dark) /\
  nth_error (bodies_of 1 0 o exW_stars exW_dark []) 1 = Some (-462, 246) /\
  decided ((12 * / 150000 + / IZR (2 ^ 47)) / (99 / 100)) (1 / 4) cv 262144 511 (-462, 246) (Some 1%Z) /\
  rmap shows (analysis (sm:=seqsum 53 1024 p53 e1024) (sm':=seqsum 24 128 p24 e128) asort (backend_table n1 true junk0) "fortran" (plain_matmul (S:=F64)) (fun _ => 77%Z) (nlit 1 4) exW_gal) = Ok [sZ 1; sZ 1; S754_nan] /\
  rmap shows (analysis (sm:=seqsum 53 1024 p53 e1024) (sm':=seqsum 24 128 p24 e128) asort (backend_table n1 false junk0) "numpy" (plain_matmul (S:=F64)) (fun _ => 77%Z) (nlit 9 10) exW_gal) = Ok [sZ 1; sZ 0; S754_nan] /\
  rmap shows (analysis (sm:=seqsum 53 1024 p53 e1024) (sm':=seqsum 24 128 p24 e128) asort (backend_table n1 false junk0) "numpy" (plain_matmul (S:=F64)) (fun _ => 77%Z) (nlit 9 10) exA_gal) = Ok [sZ 0; sZ 1; S754_nan].
Proof.
  cbv zeta.
  assert (T : 0 <= pot_error 3 6 1 <= / 170000).
  { unfold pot_error. simpl INR. change (IZR (2 ^ 23)) with 8388608. change (IZR (2 ^ 22)) with 4194304. lra. }
  assert (Vn1 : val (F32_rounded (seqsum 24 128 p24 e128)) n1 = XR 1) by (apply (val_small (F32_rounded (seqsum 24 128 p24 e128))); lia).
  assert (Vn0 : val (F32_rounded (seqsum 24 128 p24 e128)) n0 = XR 0) by (apply (val_small (F32_rounded (seqsum 24 128 p24 e128))); lia).
  assert (Ps : Permutation exW_stars exA_stars) by apply perm_swap.
  assert (Pr : Permutation (exW_dark ++ []) ([] ++ exW_dark)) by (rewrite app_nil_r; apply Permutation_refl).
  assert (Eb : bodies_of 1 0 (Part 65536 5 5 5 0 0 0) exW_stars exW_dark [] = exW_bodies).
  { unfold bodies_of. rewrite exW_pots, !map_app. destruct (exW_from (Part 65536 5 5 5 0 0 0)) as (-> & ->); [reflexivity..|]. cbn [map]. rewrite app_nil_r. exact exW_body. }
  split.
  { destruct exW_reads as (R1 & R2 & R3). constructor; auto.
    - apply c68_double.
    - apply Rle_refl.
    - apply c94_fma64.
    - apply c94_plain.
    - exact (asort_sorting (F64_rounded (seqsum 53 1024 p53 e1024))).
    - constructor.
    - split; [exact exW_ok|reflexivity].
    - exact exW_soft. }
  split.
  { constructor; auto.
    - apply c68_double.
    - apply Rle_refl.
    - apply c94_fma64.
    - apply c94_plain.
    - exact (asort_sorting (F64_rounded (seqsum 53 1024 p53 e1024))).
    - apply by_numpy; [exact seqsum_added|]. intros i. exact Vn0.
    - split; [|reflexivity]. apply constructible_ok, gal_ok_facts. constructor; try reflexivity.
      all: apply pset_ok_iff; split; [|reflexivity]; repeat split; intros p H; discriminate H.
    - exact exA_reads.
    - repeat split.
    - exact (proj1 (proj2 exW_reads)).
    - exact exA_soft. }
  split; [exact Ps|]. split; [exact Pr|].
  assert (I2 : interpolates [(-1, 0); (-1023 / 524288, 1)] (-462 / 262144) 1). { apply int_skip; [lra|]. apply int_right. lra. }
  assert (/ IZR (2 ^ 44) <= / 1000000) by (apply Rinv_le_contravar; [lra|apply IZR_le; lia]).
  assert (/ IZR (2 ^ 47) <= / 1000000) by (apply Rinv_le_contravar; [lra|apply IZR_le; lia]). assert (0 < / IZR (2 ^ 47)) by (apply Rinv_0_lt_compat, IZR_lt; reflexivity).
  split.
  { destruct exW_spans as (_ & _ & S3 & _). assert (E1 : 65536 <= bpow radix2 99) by (change 65536 with (bpow radix2 16); apply bpow_le; lia).
    constructor.
    - split; [|apply IZR_le; lia]. apply Rle_trans with (/ 1); [apply Rinv_le_contravar; [lra|apply IZR_le; lia]|lra].
    - left. reflexivity.
    - exact exW_usual.
    - exact exW_dist.
    - apply Rle_trans with (/ 1); [apply Rinv_le_contravar; [lra|apply IZR_le; lia]|lra].
    - change (IZR (2 ^ 19)) with 524288. lra.
    - change (length (exW_stars ++ exW_dark ++ [])) with 3%nat. change (IZR (2 ^ 22)) with 4194304. simpl INR. lra.
    - exists 2%nat. split; [|reflexivity]. rewrite exW_pots. change (length (exW_stars ++ exW_dark ++ [])) with 3%nat. exists (-262144). split; [reflexivity|]. intros j p' Nj Hj. assert (p' = -131072) as ->.
      { destruct j as [|[|[|j]]]; [injection Hj; auto|injection Hj; auto|congruence|destruct j; discriminate Hj]. }
      rewrite (Rabs_left (-262144)), (Rabs_left (-131072)) by lra. lra.
    - destruct (exW_from (Part 65536 5 5 5 0 0 0)) as (-> & _); [reflexivity..|]. exact exW_spin.
    - rewrite app_nil_r. destruct (exW_from (Part 65536 5 5 5 0 0 0)) as (_ & ->); [reflexivity..|]. intros q [<-|[]]. unfold SpecChain.within. cbn [pm px py pz pvx pvy pvz]. rewrite Rabs_pos_eq by lra. repeat split; lra.
    - split; lra.
    - rewrite exW_pots, !map_app. destruct (exW_from (Part 65536 5 5 5 0 0 0)) as (-> & ->); [reflexivity..|]. cbn [map]. rewrite app_nil_r. change (length (exW_stars ++ exW_dark ++ [])) with 3%nat. exact exW_resolved.
    - rewrite Eb. exact exW_curve.
    - split; [lra|]. exact exW_gentle. }
  rewrite Eb.
  split. { intros i j bi bj (L1 & L2) Hi Hj Nj. destruct i as [|i]; [|lia]. injection Hi as <-. cbn [fst]. lra. }
  split.
  { intros i j bi bj (L1 & L2) Hi Hj Nj. destruct i as [|i]; [|lia].
    destruct (body_same 1 0 (Part 65536 5 5 5 0 0 0) _ _ _ _ _ _ Ps Pr 1 0 _ eq_refl eq_refl) as (b & B1 & B2). rewrite Eb in B1. injection B1 as <-. rewrite Hi in B2. injection B2 as ->. cbn [fst]. lra. }
  split; [reflexivity|].
  split. { exists 1. split; [exact I2|]. right; left. split; [reflexivity|]. cbn [fst snd]. split; [lra|]. split; [rewrite Rabs_pos_eq by lra; lra|]. rewrite Rabs_pos_eq by lra. lra. }
  split; [vm_compute; reflexivity|]. split; vm_compute; reflexivity.
Qed.

(** The two stars are settled: the faster one is a point of the curve and the slower one lies inside its cell.  The
    runs with JHistogram label both 1, in either order. *)
Example ex_c108_cells : let cv := [(-1, 0); (-1023 / 524288, 1)] in let o := Part 65536 5 5 5 0 0 0 in
  (forall j b, (j < 2)%nat -> nth_error (bodies_of 1 0 o exW_stars exW_dark []) j = Some b ->
    settled ((12 * / 150000 + / IZR (2 ^ 47)) / (99 / 100)) cv 262144 511
      (clearly_lowest (pot_error 3 6 1) (exact_pots 1 0 (exW_stars ++ exW_dark ++ [])) j) b) /\
  draws turns /\
  rmap shows (hist_analysis (sm:=seqsum 53 1024 p53 e1024) (sm':=seqsum 24 128 p24 e128) asort (backend_table n1 true junk0) "fortran" (plain_matmul (S:=F64)) turns (fun _ => 77%Z) true exW_gal) = Ok [sZ 1; sZ 1; S754_nan] /\
  rmap shows (hist_analysis (sm:=seqsum 53 1024 p53 e1024) (sm':=seqsum 24 128 p24 e128) asort (backend_table n1 false junk0) "numpy" (plain_matmul (S:=F64)) turns (fun _ => 77%Z) false exA_gal) = Ok [sZ 1; sZ 1; S754_nan].
Proof.
  cbv zeta.
  assert (I1 : forall c, interpolates [(-1, 0); (-1023 / 524288, 1)] (-462 / 262144) c -> c = 1).
  { intros c Ic. inversion Ic as [|? ? ? ?|? ? ? ? ? ? B1 B2|? ? ? ? ? ? ? B1 Ic']; subst; [lra|lra|]. inversion Ic'; subst; [lra|reflexivity]. }
  assert (Eb : bodies_of 1 0 (Part 65536 5 5 5 0 0 0) exW_stars exW_dark [] = exW_bodies).
  { unfold bodies_of. rewrite exW_pots, !map_app. destruct (exW_from (Part 65536 5 5 5 0 0 0)) as (-> & ->); [reflexivity..|]. cbn [map]. rewrite app_nil_r. exact exW_body. }
  assert (/ IZR (2 ^ 47) <= / 1000000) by (apply Rinv_le_contravar; [lra|apply IZR_le; lia]). assert (0 < / IZR (2 ^ 47)) by (apply Rinv_0_lt_compat, IZR_lt; reflexivity).
  rewrite Eb. split.
  { intros j b Lj Hb _. destruct j as [|[|j]]; [| |lia]; injection Hb as <-; cbn [fst snd].
    - right; left. rewrite Rabs_pos_eq by lra. split; [right; left; f_equal; lra|lra].
    - left. intros c k Ic Hk. apply I1 in Ic as ->. destruct (Z_le_gt_dec k 24) as [L|L]; [apply IZR_le in L; rewrite Rabs_pos_eq by lra; lra|].
      assert (L' : (25 <= k)%Z) by lia. apply IZR_le in L'. rewrite Rabs_left by lra. lra. }
  split; [exact turns_draws|]. split; vm_compute; reflexivity.
Qed.
