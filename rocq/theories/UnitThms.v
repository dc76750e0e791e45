(** Units that are powers of two (C100). *)
From Verif Require Import Py Num RX F64 Np Df Data DataFacts DfFacts RebuildFacts Center CenterFacts Align Spec SpecR SpecCirc SpecOrder SpecSym SpecBase Ex DataThms CenterThms AlignFacts AlignThms Circ CircFacts CurveFacts CircThms Base BaseFacts BaseThms Threshold EpsFacts ThresholdThms OrderThms SymFacts SymThms InvThms SpecShift ShiftFacts UnitFacts UnitChain.
From Flocq Require Import Core.Zaux Core.Raux Core.Defs Core.Float_prop IEEE754.BinarySingleNaN.
From Coq Require Import Lra Lia Floats.SpecFloat.

(** C100: multiplying positions by 2^a, velocities by 2^b and potentials by 2^(2b), exactly, changes no bit of
    the circularities, of the normalised energies and angular momenta, of the curve, nor an error. *)
Lemma c100_jcirc : forall sm argsort a b (g g' : galaxy (F64s sm)) b0 b1,
  constructible g -> constructible g' -> (Z.abs a <= 50)%Z -> (Z.abs b <= 50)%Z -> in_units a b g g' -> tame 150 g ->
  jcirc argsort g' b0 b1 = jcirc argsort g b0 b1.
Proof.
  intros sm as_ a b g g' b0 b1 Hg Hg' Ha Hb F T. apply constructible_ok in Hg, Hg'. now apply (in_units_jcirc a b Ha Hb).
Qed.

(** C100: so no label changes, for any decomposer that looks at circularities. *)
Lemma c100_labels : forall sm argsort St (D : decomposer (F64s sm) St) st a b (g g' : galaxy (F64s sm)),
  constructible g -> constructible g' -> (forall x, In x (d_attributes D) -> circ_attr x) ->
  (Z.abs a <= 50)%Z -> (Z.abs b <= 50)%Z -> in_units a b g g' -> tame 150 g ->
  decompose argsort D st g' = decompose argsort D st g.
Proof.
  intros sm as_ St D st a b g g' Hg Hg' HD Ha Hb F T. apply c75_factor; [exact HD| |now apply (c100_jcirc sm as_ a b)].
  eapply plens_of; [exact Hg|exact Hg'| |exact F]. intros p q (E & _). symmetry. exact (Forall2_length' _ _ _ E).
Qed.

Lemma both_outcome {A B} (R R' : A -> B -> Prop) (r : res A) (r' : res B) : (forall h h', R h h' -> R' h h') -> both R r r' -> same_error_or R' r r'.
Proof.
  intros I. destruct r as [h|e], r' as [h'|e']; cbn; try contradiction.
  - intros H. right. exists h, h'. auto.
  - intros ->. left. eauto.
Qed.

(** C100: centring commutes with the change of units, *)
Lemma c100_center : forall sm a b n (g g' : galaxy (F64s sm)),
  constructible g -> constructible g' -> (0 <= n)%Z -> (n + Z.abs a <= 1000)%Z -> in_units a b g g' -> tame n g ->
  same_error_or (fun h h' => constructible h /\ constructible h' /\ in_units a b h h' /\ tame (n + 1) h) (center g) (center g').
Proof.
  intros sm a b n g g' Hg Hg' H0 Hn F T. apply constructible_ok in Hg, Hg'.
  eapply both_outcome; [|exact (center_shift a b n g g' Hg Hg' H0 Hn F T)].
  intros h h' (U & T' & O & O' & _). split; [now apply constructible_ok|]. split; [now apply constructible_ok|]. auto.
Qed.

(** C100: and so does the alignment, the masses of the stars multiplied by 2^c, whatever the order of the sums,
    provided it depends on the number of stars alone; *)
Lemma c100_align : forall sm a b c (g g' : galaxy (F64s sm)) r r',
  constructible g -> constructible g' -> fixed_order sm ->
  (Z.abs a <= 30)%Z -> (Z.abs b <= 30)%Z -> (Z.abs c <= 30)%Z -> cut_in a r r' ->
  (Z.of_nat (plen (g_stars g)) <= 2 ^ 38)%Z -> in_units a b g g' -> tame 61 g ->
  Forall2 (shifted c) (p_m (g_stars g)) (p_m (g_stars g')) -> Forall (within2 61) (p_m (g_stars g)) ->
  same_error_or (fun h h' => constructible h /\ constructible h' /\ in_units a b h h') (star_align g r) (star_align g' r').
Proof.
  intros sm a b c g g' r r' Hg Hg' Ho Ha Hb Hc Hr Hl F T Fm Gm. apply constructible_ok in Hg, Hg'.
  eapply both_outcome; [|exact (align_shift a b c Ha Hb Hc g g' r r' Hg Hg' Ho Hr Hl F T Fm Gm)].
  intros h h' (U & O & O'). split; [now apply constructible_ok|]. split; [now apply constructible_ok|]. exact U.
Qed.

(** C100: so that the analysis of a galaxy from its centring to its labels gives the same labels in both units. *)
Lemma c100_chain : forall sm argsort St (D : decomposer (F64s sm) St) st a b c (g g' h k : galaxy (F64s sm)) r r',
  constructible g -> constructible g' -> fixed_order sm -> (forall x, In x (d_attributes D) -> circ_attr x) ->
  (Z.abs a <= 30)%Z -> (Z.abs b <= 30)%Z -> (Z.abs c <= 30)%Z -> cut_in a r r' ->
  (Z.of_nat (plen (g_stars g)) <= 2 ^ 38)%Z -> in_units a b g g' -> tame 60 g ->
  Forall2 (shifted c) (p_m (g_stars g)) (p_m (g_stars g')) -> Forall (within2 61) (p_m (g_stars g)) ->
  center g = Ok h -> star_align h r = Ok k -> tame 150 k ->
  exists h' k', center g' = Ok h' /\ star_align h' r' = Ok k' /\ in_units a b k k' /\
    decompose argsort D st k' = decompose argsort D st k.
Proof.
  intros sm as_ St D st a b c g g' h k r r' Hg Hg' Ho HD Ha Hb Hc Hr Hl F T Fm Gm Eh Ek Tk. apply constructible_ok in Hg, Hg'.
  pose proof (center_shift a b 60 g g' Hg Hg' ltac:(lia) ltac:(lia) F T) as C. rewrite Eh in C.
  destruct (center g') as [h'|] eqn:Eh'; [|contradiction]. destruct C as (U & T1 & O & O' & M & M'). exists h'.
  injection M as M1 _ _. injection M' as M1' _ _.
  assert (Pm : forall p : pset (F64s sm), plen p = length (p_m p)) by reflexivity. rewrite Pm, <- M1 in Hl. rewrite <- M1 in Gm. rewrite <- M1, <- M1' in Fm.
  pose proof (align_shift a b c Ha Hb Hc h h' r r' O O' Ho Hr Hl U T1 Fm Gm) as A. rewrite Ek in A.
  destruct (star_align h' r') as [k'|] eqn:Ek'; [|contradiction]. destruct A as (U' & Ok1 & Ok2). exists k'.
  split; [reflexivity|]. split; [reflexivity|]. split; [exact U'|].
  apply (c100_labels sm as_ St D st a b k k'); [now apply constructible_ok|now apply constructible_ok|exact HD|lia|lia|exact U'|exact Tk].
Qed.

(** C100: adding from left to right is such an order. *)
Lemma c100_left_to_right : fixed_order (seqsum 53 1024 p53 e1024).
Proof.
  exists (fun n => fold_left (fun t i => Node t (Leaf i)) (seq 0 n) Zero). intros l. split.
  - unfold seqsum.
    assert (Z0 : bin_ofZ 53 1024 p53 e1024 0 = B754_zero false) by reflexivity. rewrite Z0.
    assert (G : forall k pre t, length pre = k -> forall s,
      fold_left (@Bplus 53 1024 p53 e1024 mode_NE) s (eval p53 e1024 t (pre ++ s)) =
      eval p53 e1024 (fold_left (fun t i => Node t (Leaf i)) (seq k (length s)) t) (pre ++ s)).
    { intros k pre t Hk s. revert k pre t Hk. induction s as [|x s IH]; intros k pre t Hk; [reflexivity|].
      cbn [fold_left length seq]. specialize (IH (S k) (pre ++ [x]) (Node t (Leaf k))).
      rewrite <- app_assoc in IH. cbn [app] in IH. rewrite <- IH by (rewrite app_length; cbn; lia). f_equal.
      cbn [eval]. rewrite app_nth2 by lia. replace (k - length pre)%nat with 0%nat by lia. reflexivity. }
    exact (G 0%nat [] Zero eq_refl l).
  - assert (G : forall k n t, leaves (fold_left (fun t i => Node t (Leaf i)) (seq k n) t) = (leaves t + Z.of_nat n)%Z).
    { intros k n. revert k. induction n as [|n IH]; intros k t; cbn [seq fold_left]; [cbn; lia|]. rewrite IH. cbn [leaves]. lia. }
    rewrite G. cbn [leaves]. lia.
Qed.

(** Checks by computation of the hypotheses on numbers. *)
Definition shiftedb (k : Z) (x y : F64) : bool :=
  match fshow x, fshow y with
  | S754_zero s, S754_zero t => Bool.eqb s t
  | S754_infinity s, S754_infinity t => Bool.eqb s t
  | S754_nan, S754_nan => true
  | S754_finite s m e, S754_finite t n f =>
      Bool.eqb s t && (let o := Z.min (e + k) f in Z.eqb (Zpos m * 2 ^ (e + k - o)) (Zpos n * 2 ^ (f - o)))
  | _, _ => false
  end.
Definition within2b (n : Z) (x : F64) : bool :=
  match fshow x with S754_finite _ m e => Z.leb (- n) e && Z.leb (Z.log2 (Zpos m) + 1 + e) n | _ => true end.
Lemma shiftedb_ok k (x y : F64) : shiftedb k x y = true -> shifted k (x : f64) (y : f64).
Proof.
  unfold shiftedb, fshow, shifted.
  destruct (x : f64) as [s|s| |s m e B], (y : f64) as [t|t| |t n f B']; cbn [B2SF]; try discriminate; intros H.
  - right. apply Bool.eqb_prop in H. subst t. cbn. rewrite Rmult_0_l. auto.
  - left. apply Bool.eqb_prop in H. subst t. auto.
  - left. auto.
  - right. apply andb_prop in H. destruct H as [H1 H2]. apply Bool.eqb_prop in H1. subst t.
    apply Z.eqb_eq in H2. split; [reflexivity|]. split; [reflexivity|]. split; [|reflexivity].
    assert (D : forall z w o, (o <= w)%Z -> (IZR z * bpow radix2 w = IZR (z * 2 ^ (w - o)) * bpow radix2 o)%R).
    { intros z w o Ho. rewrite mult_IZR. change (2 ^ (w - o))%Z with (radix2 ^ (w - o))%Z. rewrite IZR_Zpower by lia.
      rewrite Rmult_assoc, <- bpow_plus. do 2 f_equal. lia. }
    cbn [B2R]. unfold F2R. cbn [Fnum Fexp].
    rewrite Rmult_assoc, <- bpow_plus. set (o := Z.min (e + k) f) in *.
    rewrite (D _ f o), (D _ (e + k)%Z o) by lia. f_equal. f_equal. destruct s; cbn [cond_Zopp]; nia.
Qed.
Lemma within2b_ok n (x : F64) : within2b n x = true -> within2 n (x : f64).
Proof.
  unfold within2b, fshow, within2.
  destruct (x : f64) as [s|s| |s m e B]; cbn [B2SF is_finite]; intros H F; try discriminate.
  - split; [exists 0%Z; cbn; ring|]. cbn [B2R]. rewrite Rabs_R0. apply bpow_ge_0.
  - apply andb_prop in H. destruct H as [H1 H2]. apply Z.leb_le in H1, H2. cbn [B2R]. split.
    + exists (cond_Zopp s (Zpos m) * 2 ^ (e + n))%Z. unfold F2R. cbn [Fnum Fexp].
      rewrite mult_IZR. change (2 ^ (e + n))%Z with (radix2 ^ (e + n))%Z. rewrite IZR_Zpower by lia.
      rewrite Rmult_assoc, <- bpow_plus. do 2 f_equal. lia.
    + rewrite <- Float_prop.F2R_Zabs. unfold F2R. cbn [Fnum Fexp]. rewrite abs_cond_Zopp. cbn [Z.abs].
      apply Rle_trans with (bpow radix2 (Z.log2 (Zpos m) + 1) * bpow radix2 e)%R.
      * apply Rmult_le_compat_r; [apply bpow_ge_0|]. rewrite <- IZR_Zpower by (pose proof (Z.log2_nonneg (Zpos m)); lia).
        apply IZR_le. pose proof (Z.log2_spec (Zpos m) ltac:(lia)) as [_ L]. change (radix2 : Z) with 2%Z. unfold Z.succ in L. lia.
      * rewrite <- bpow_plus. apply bpow_le. exact H2.
Qed.
Definition all2b (f : F64 -> F64 -> bool) (l l' : list F64) : bool :=
  Nat.eqb (length l) (length l') && forallb (fun q => f (fst q) (snd q)) (combine l l').
Lemma all2b_ok f (R : F64 -> F64 -> Prop) l l' : (forall x y, f x y = true -> R x y) -> all2b f l l' = true -> Forall2 R l l'.
Proof.
  intros I. unfold all2b. intros H. apply andb_prop in H. destruct H as [H1 H2]. apply Nat.eqb_eq in H1.
  revert l' H1 H2. induction l as [|x l IH]; intros [|y l'] H1 H2; try discriminate; [apply Forall2_nil|].
  cbn [combine forallb fst snd] in H2. apply andb_prop in H2. destruct H2 as [H2 H3].
  apply Forall2_cons; [now apply I|]. apply IH; [injection H1; auto|exact H3].
Qed.
Definition setb (a b : Z) (p q : pset F64) : bool :=
  all2b (shiftedb a) (p_x p) (p_x q) && (all2b (shiftedb a) (p_y p) (p_y q) && (all2b (shiftedb a) (p_z p) (p_z q) &&
  (all2b (shiftedb b) (p_vx p) (p_vx q) && (all2b (shiftedb b) (p_vy p) (p_vy q) && (all2b (shiftedb b) (p_vz p) (p_vz q) &&
  match p_pot p, p_pot q with Some l, Some l' => all2b (shiftedb (2 * b)) l l' | None, None => true | _, _ => false end))))).
Definition unitsb (a b : Z) (g g' : galaxy F64) : bool :=
  setb a b (g_stars g) (g_stars g') && (setb a b (g_dm g) (g_dm g') && setb a b (g_gas g) (g_gas g')).
Lemma unitsb_ok a b (g g' : galaxy F64) : unitsb a b g g' = true -> in_units a b g g'.
Proof.
  assert (S : forall p q, setb a b p q = true ->
     Forall2 (shifted a) (p_x p) (p_x q) /\ Forall2 (shifted a) (p_y p) (p_y q) /\ Forall2 (shifted a) (p_z p) (p_z q) /\
     Forall2 (shifted b) (p_vx p) (p_vx q) /\ Forall2 (shifted b) (p_vy p) (p_vy q) /\ Forall2 (shifted b) (p_vz p) (p_vz q) /\
     match p_pot p, p_pot q with Some l, Some l' => Forall2 (shifted (2 * b)) l l' | None, None => True | _, _ => False end).
  { intros p q H. unfold setb in H.
    repeat (apply andb_prop in H; let X := fresh in destruct H as [X H]; apply (all2b_ok _ (shifted _) _ _ (shiftedb_ok _)) in X).
    do 6 (split; [assumption|]). destruct (p_pot p), (p_pot q); try discriminate; [|exact I].
    exact (all2b_ok _ (shifted _) _ _ (shiftedb_ok _) H). }
  unfold unitsb. intros H. apply andb_prop in H. destruct H as [H1 H]. apply andb_prop in H. destruct H as [H2 H3].
  unfold in_units, sets. repeat apply Forall2_cons; auto.
Qed.
Definition tamesetb (n : Z) (p : pset F64) : bool :=
  forallb (within2b n) (p_x p) && (forallb (within2b n) (p_y p) && (forallb (within2b n) (p_z p) &&
  (forallb (within2b n) (p_vx p) && (forallb (within2b n) (p_vy p) && (forallb (within2b n) (p_vz p) &&
  match p_pot p with Some l => forallb (within2b (2 * n)) l | None => true end))))).
Definition tameb (n : Z) (g : galaxy F64) : bool :=
  tamesetb n (g_stars g) && (tamesetb n (g_dm g) && tamesetb n (g_gas g)).
Lemma forallb_within n (l : list F64) : forallb (within2b n) l = true -> Forall (within2 n) (l : list f64).
Proof. rewrite forallb_forall. intros H. apply Forall_forall. intros x Hx. apply within2b_ok. now apply H. Qed.
Lemma tameb_ok n (g : galaxy F64) : tameb n g = true -> tame n g.
Proof.
  assert (S : forall p, tamesetb n p = true ->
     Forall (within2 n) (p_x p) /\ Forall (within2 n) (p_y p) /\ Forall (within2 n) (p_z p) /\
     Forall (within2 n) (p_vx p) /\ Forall (within2 n) (p_vy p) /\ Forall (within2 n) (p_vz p) /\
     match p_pot p with Some l => Forall (within2 (2 * n)) l | None => True end).
  { intros p H. unfold tamesetb in H.
    repeat (apply andb_prop in H; let X := fresh in destruct H as [X H]; apply forallb_within in X).
    do 6 (split; [assumption|]). destruct (p_pot p); [|exact I]. now apply forallb_within. }
  unfold tameb. intros H. apply andb_prop in H. destruct H as [H1 H]. apply andb_prop in H. destruct H as [H2 H3].
  unfold tame, sets. repeat apply Forall_cons; auto.
Qed.

(** A galaxy with masses, positions, velocities and potentials multiplied. *)
Definition timesP (cm cx cv ce : F64) (p : pset F64) : res (pset F64) :=
  mk_pset (p_type p) (map (nmul cm) (p_m p)) (map (nmul cx) (p_x p)) (map (nmul cx) (p_y p)) (map (nmul cx) (p_z p))
    (map (nmul cv) (p_vx p)) (map (nmul cv) (p_vy p)) (map (nmul cv) (p_vz p)) (option_map (map (nmul ce)) (p_pot p)) (p_soft p).
Definition timesG (cm cx cv ce : F64) (g : galaxy F64) : res (galaxy F64) :=
  do s <- timesP cm cx cv ce (g_stars g); do d <- timesP cm cx cv ce (g_dm g); do q <- timesP cm cx cv ce (g_gas g); mk_galaxy s d q.
Lemma timesG_ok cm cx cv ce g g' : constructible g -> timesG cm cx cv ce g = Ok g' -> constructible g'.
Proof.
  intros Hg E. apply constructible_ok in Hg. unfold timesG, timesP in E.
  destruct (mk_pset (p_type (g_stars g)) _ _ _ _ _ _ _ _ _) as [s|] eqn:E1; [|discriminate]. cbn [bind] in E.
  destruct (mk_pset (p_type (g_dm g)) _ _ _ _ _ _ _ _ _) as [d|] eqn:E2; [|discriminate]. cbn [bind] in E.
  destruct (mk_pset (p_type (g_gas g)) _ _ _ _ _ _ _ _ _) as [q|] eqn:E3; [|discriminate]. cbn [bind] in E.
  exists s, d, q. split; [|split; [|split; [|exact E]]]; do 10 eexists; eassumption.
Qed.

(** C100: ten particles; positions times eight, velocities times a half, potentials times a quarter, masses
    times four; centring, alignment and the threshold decomposer. *)
Example ex_c100 : exists (g g' h k : galaxy F64) (cut : F64) c, constructible g /\ constructible g' /\
  in_units 3 (-1) g g' /\ tame 60 g /\ Forall2 (shifted 2) (p_m (g_stars g)) (p_m (g_stars g')) /\
  Forall (within2 61) (p_m (g_stars g)) /\ center g = Ok h /\ star_align h None = Ok k /\ tame 150 k /\
  decompose asort (jthreshold (fun _ => 77%Z) (default_bin0, default_bin1) cut) tt k = Ok (c, tt) /\
  firstn 7 (shows (c_labels c)) = [S754_nan; S754_nan; S754_nan; sZ 1; sZ 0; S754_nan; sZ 1] /\
  shows (p_x (g_stars g)) <> shows (p_x (g_stars g')).
Proof.
  pose (cut := nlit 1 2 : F64).
  assert (X : match tenthsG with Ok g => match timesG (fZ 4) (fZ 8) (nlit 1 2) (nlit 1 4) g with Ok g' =>
      match center g with Ok h => match star_align h None with Ok k =>
      match decompose asort (jthreshold (fun _ => 77%Z) (default_bin0, default_bin1) cut) tt k with
      | Ok (c, _) => (unitsb 3 (-1) g g' && (tameb 60 g && (all2b (shiftedb 2) (p_m (g_stars g)) (p_m (g_stars g')) &&
          (forallb (within2b 61) (p_m (g_stars g)) && tameb 150 k)))) = true /\
          (hd S754_nan (shows (p_x (g_stars g))), hd S754_nan (shows (p_x (g_stars g')))) = (sQ 11 10, sQ 88 10) /\
          firstn 7 (shows (c_labels c)) = [S754_nan; S754_nan; S754_nan; sZ 1; sZ 0; S754_nan; sZ 1]
      | _ => False end | _ => False end | _ => False end | _ => False end | _ => False end) by (vm_compute; repeat split; reflexivity).
  destruct tenthsG as [g|] eqn:E; [|contradiction].
  destruct (timesG (fZ 4) (fZ 8) (nlit 1 2) (nlit 1 4) g) as [g'|] eqn:E'; [|contradiction].
  destruct (center g) as [h|] eqn:Eh; [|contradiction]. destruct (star_align h None) as [k|] eqn:Ek; [|contradiction].
  destruct (decompose asort _ tt k) as [[c []]|] eqn:D; [|contradiction]. destruct X as (X1 & X2 & X3).
  apply andb_prop in X1. destruct X1 as [Y1 X1]. apply andb_prop in X1. destruct X1 as [Y2 X1].
  apply andb_prop in X1. destruct X1 as [Y3 X1]. apply andb_prop in X1. destruct X1 as [Y4 Y5].
  assert (C : constructible g) by (eapply lineG_ok; exact E).
  exists g, g', h, k, cut, c. split; [exact C|]. split; [exact (timesG_ok _ _ _ _ _ _ C E')|].
  split; [now apply unitsb_ok|]. split; [now apply tameb_ok|]. split; [exact (all2b_ok _ (shifted _) _ _ (shiftedb_ok _) Y3)|].
  split; [now apply forallb_within|]. split; [exact Eh|]. split; [exact Ek|]. split; [now apply tameb_ok|]. split; [exact D|].
  split; [exact X3|]. intros F. rewrite F in X2. injection X2 as A B. rewrite A in B. vm_compute in B. discriminate B.
Qed.

Lemma SFdec (x y : spec_float) : {x = y} + {x <> y}.
Proof. decide equality; solve [apply Bool.bool_dec|apply Pos.eq_dec|apply Z.eq_dec]. Defined.
(** A galaxy of size about 2^-1000. *)
Definition small (l : list (Z * Z * Z * Z)) : list (F64 * F64 * F64 * F64) :=
  map (fun p => let '(x, vy, vz, e) := p in (nlit x (2 ^ 1000), nlit vy 10, nlit vz 10, nlit e 100)) l.
Definition smallG : res (galaxy F64) :=
  lineG (small [(11,10,10,-210); (23,7,2,-130); (-7,12,3,-170); (7,1,1,-120); (13,2,4,-140); (3,7,4,-160); (9,2,4,-110)])%Z
    (small [(43,11,2,-80); (17,8,3,-190)])%Z (small [(53,13,2,-89)])%Z.
(** C100: the range matters: dividing the positions of a galaxy of size 2^-1000 by 2^50, still exactly, changes
    circularities, the angular momenta having become subnormal. *)
Lemma c100_range_refuted : exists (g g' : galaxy F64) j j', constructible g /\ constructible g' /\ in_units (-50) 0 g g' /\
  jcirc asort g default_bin0 default_bin1 = Ok j /\ jcirc asort g' default_bin0 default_bin1 = Ok j' /\
  shows (jc_eps j) <> shows (jc_eps j').
Proof.
  assert (X : match smallG with Ok g => match timesG (fZ 1) (nlit 1 (2 ^ 50)) (fZ 1) (fZ 1) g with Ok g' =>
      match jcirc asort g default_bin0 default_bin1, jcirc asort g' default_bin0 default_bin1 with
      | Ok j, Ok j' => unitsb (-50) 0 g g' = true /\ (if list_eq_dec (fun x y : spec_float => SFdec x y) (shows (jc_eps j)) (shows (jc_eps j')) then false else true) = true
      | _, _ => False end | _ => False end | _ => False end) by (vm_compute; split; reflexivity).
  destruct smallG as [g|] eqn:E; [|contradiction].
  destruct (timesG (fZ 1) (nlit 1 (2 ^ 50)) (fZ 1) (fZ 1) g) as [g'|] eqn:E'; [|contradiction].
  destruct (jcirc asort g _ _) as [j|] eqn:J; [|contradiction]. destruct (jcirc asort g' _ _) as [j'|] eqn:J'; [|contradiction].
  destruct X as [X1 X2]. assert (C : constructible g) by (eapply lineG_ok; exact E).
  exists g, g', j, j'. split; [exact C|]. split; [exact (timesG_ok _ _ _ _ _ _ C E')|]. split; [now apply unitsb_ok|].
  split; [exact J|]. split; [exact J'|]. intros F. rewrite F in X2.
  destruct (list_eq_dec _ (shows (jc_eps j')) (shows (jc_eps j'))) as [_|N] in X2; [discriminate|]. now apply N.
Qed.
