(** Potentials and the whole analysis in units that are powers of two (C101). *)
From Verif Require Import Py Num RX F64 Np Df Data DataFacts DfFacts RebuildFacts Center CenterFacts Align Spec SpecR SpecCirc SpecOrder SpecSym SpecBase Ex DataThms CenterThms AlignFacts AlignThms Circ CircFacts CurveFacts CircThms Base BaseFacts BaseThms Threshold EpsFacts ThresholdThms OrderThms SymFacts SymThms InvThms Potential SpecShift SpecUnitPot ShiftFacts UnitFacts UnitChain UnitPot UnitThms.
From Flocq Require Import Core.Zaux Core.Raux Core.Defs Core.Float_prop IEEE754.BinarySingleNaN.
From Coq Require Import Lra Lia Floats.SpecFloat.

(** C101: with positions and softenings multiplied by 2^a, velocities by 2^b and masses by 2^(a+2b), either backend,
    though it computes in binary32, gives potentials multiplied by exactly 2^(2b), or the same error. *)
Lemma c101_potential : forall sm sm32 a b (G : F32s sm32) have (junk : nat -> nat -> F32s sm32) name (g g' : galaxy (F64s sm)),
  constructible g -> constructible g' -> (Z.abs a <= 10)%Z -> (Z.abs b <= 10)%Z -> sized 18 0 G -> fixed_order32 sm32 ->
  (forall i j, junk i j = n0) -> in_units a b g g' -> weights_in a (a + 2 * b) g g' -> in_range g -> (Z.of_nat (glen g) <= 2 ^ 20)%Z ->
  same_error_or (fun h h' => constructible h /\ constructible h' /\ in_units a b h h')
    (potential (W:=F64s sm) (S:=F32s sm32) to32 to64 (backend_table G have junk) name g)
    (potential (W:=F64s sm) (S:=F32s sm32) to32 to64 (backend_table G have junk) name g').
Proof.
  intros sm sm32 a b G have junk name g g' Hg Hg' Ha Hb HG Ho Hj F Fw R Hl. apply constructible_ok in Hg, Hg'.
  eapply both_outcome; [|exact (potential_shift a b Ha Hb G HG g g' have junk name Ho Hj Hg Hg' F Fw R Hl)].
  intros h h' (U & O & O' & _). split; [now apply constructible_ok|]. split; [now apply constructible_ok|]. exact U.
Qed.

(** C101: so the whole analysis, from the particles to the labels, gives the same labels in both units. *)
Lemma c101_whole : forall sm sm32 argsort St (D : decomposer (F64s sm) St) st a b (G : F32s sm32) have (junk : nat -> nat -> F32s sm32) name
    (g g' p h k : galaxy (F64s sm)) r r',
  constructible g -> constructible g' -> (Z.abs a <= 10)%Z -> (Z.abs b <= 10)%Z -> sized 18 0 G -> fixed_order32 sm32 -> fixed_order sm ->
  (forall i j, junk i j = n0) -> (forall x, In x (d_attributes D) -> circ_attr x) -> cut_in a r r' ->
  in_units a b g g' -> weights_in a (a + 2 * b) g g' -> in_range g -> tame 60 g -> Forall (within2 61) (p_m (g_stars g)) -> (Z.of_nat (glen g) <= 2 ^ 20)%Z ->
  potential (W:=F64s sm) (S:=F32s sm32) to32 to64 (backend_table G have junk) name g = Ok p -> center p = Ok h -> star_align h r = Ok k -> tame 150 k ->
  exists p' h' k', potential (W:=F64s sm) (S:=F32s sm32) to32 to64 (backend_table G have junk) name g' = Ok p' /\
    center p' = Ok h' /\ star_align h' r' = Ok k' /\ in_units a b k k' /\ decompose argsort D st k' = decompose argsort D st k.
Proof.
  intros sm sm32 as_ St D st a b G have junk name g g' p h k r r' Hg Hg' Ha Hb HG Ho Ho' Hj HD Hr F Fw R T Gm Hl Ep Eh Ek Tk.
  apply constructible_ok in Hg, Hg'.
  pose proof (potential_shift a b Ha Hb G HG g g' have junk name Ho Hj Hg Hg' F Fw R Hl) as P. rewrite Ep in P.
  destruct (potential (W:=F64s sm) (S:=F32s sm32) to32 to64 (backend_table G have junk) name g') as [p'|] eqn:Ep'; [|contradiction].
  destruct P as (U & O & O' & Tp & M & M'). injection M as M1 _ _. injection M' as M1' _ _.
  assert (Fm : Forall2 (shifted (a + 2 * b)) (p_m (g_stars g)) (p_m (g_stars g'))) by (unfold weights_in in Fw; apply sets3 in Fw; apply Fw).
  assert (Ls : (Z.of_nat (plen (g_stars p)) <= 2 ^ 38)%Z).
  { unfold plen. rewrite M1. unfold glen, plen in Hl. assert ((2 ^ 20 <= 2 ^ 38)%Z) by (apply Z.pow_le_mono_r; lia). lia. }
  rewrite <- M1 in Gm. rewrite <- M1, <- M1' in Fm.
  destruct (c100_chain sm as_ St D st a b (a + 2 * b) p p' h k r r') as (h' & k' & A); auto; try lia;
    try (now apply constructible_ok); [apply Tp; [lia|exact T]|].
  exists p', h', k'. split; [reflexivity|exact A].
Qed.

(** C101: adding from left to right in binary32 is such an order. *)
Lemma c101_left_to_right : fixed_order32 (seqsum 24 128 p24 e128).
Proof.
  exists ltr. intros l. split; [|rewrite ltr_leaves; lia]. rewrite <- (ltr_eval (sm:=seqsum 24 128 p24 e128)). unfold seqsum.
  assert (Z0 : bin_ofZ 24 128 p24 e128 0 = B754_zero false) by reflexivity. now rewrite Z0.
Qed.

(** Checks by computation. *)
Definition sizedb (n u : Z) (s : spec_float) : bool :=
  match s with S754_finite _ m e => Z.leb (- n) (Z.log2 (Zpos m) + e) && Z.leb (Z.log2 (Zpos m) + 1 + e) u | _ => true end.
Lemma sizedb_ok {prec emax} n u (x : binary_float prec emax) : sizedb n u (B2SF x) = true -> sized n u x.
Proof.
  unfold sizedb, sized. destruct x as [s|s| |s m e B]; cbn [B2SF is_finite]; intros H F N; try discriminate; [now elim N|].
  apply andb_prop in H. destruct H as [H1 H2]. apply Z.leb_le in H1, H2. cbn [B2R].
  rewrite <- F2R_Zabs. unfold F2R. cbn [Fnum Fexp]. rewrite abs_cond_Zopp. cbn [Z.abs].
  pose proof (Z.log2_nonneg (Zpos m)) as L0. pose proof (Z.log2_spec (Zpos m) ltac:(lia)) as [L1 L2]. unfold Z.succ in L2. split.
  - apply Rle_trans with (bpow radix2 (Z.log2 (Zpos m)) * bpow radix2 e)%R; [rewrite <- bpow_plus; now apply bpow_le|].
    apply Rmult_le_compat_r; [apply bpow_ge_0|]. rewrite <- IZR_Zpower by lia. apply IZR_le. exact L1.
  - apply Rle_trans with (bpow radix2 (Z.log2 (Zpos m) + 1) * bpow radix2 e)%R; [|rewrite <- bpow_plus; now apply bpow_le].
    apply Rmult_le_compat_r; [apply bpow_ge_0|]. rewrite <- IZR_Zpower by lia. apply IZR_le. change (radix2 : Z) with 2%Z. lia.
Qed.
Lemma forallb_sized n u (l : list F64) : forallb (fun x => sizedb n u (fshow x)) l = true -> Forall (sized n u) (l : list f64).
Proof. rewrite forallb_forall. intros H. apply Forall_forall. intros x Hx. apply sizedb_ok. exact (H x Hx). Qed.
Definition rangesetb (p : pset F64) : bool :=
  forallb (fun x => sizedb 16 20 (fshow x)) (p_x p) && (forallb (fun x => sizedb 16 20 (fshow x)) (p_y p) && (forallb (fun x => sizedb 16 20 (fshow x)) (p_z p) &&
  (forallb (fun x => sizedb 10 40 (fshow x)) (p_m p) && sizedb 16 20 (fshow (p_soft p))))).
Definition rangeb (g : galaxy F64) : bool := rangesetb (g_stars g) && (rangesetb (g_dm g) && rangesetb (g_gas g)).
Lemma rangeb_ok (g : galaxy F64) : rangeb g = true -> in_range g.
Proof.
  assert (S : forall p, rangesetb p = true -> Forall (sized 16 20) (p_x p) /\ Forall (sized 16 20) (p_y p) /\ Forall (sized 16 20) (p_z p) /\
     Forall (sized 10 40) (p_m p) /\ sized 16 20 (p_soft p : f64)).
  { intros p H. unfold rangesetb in H.
    repeat (apply andb_prop in H; let X := fresh in destruct H as [X H]; apply forallb_sized in X).
    do 4 (split; [assumption|]). now apply sizedb_ok. }
  unfold rangeb. intros H. apply andb_prop in H. destruct H as [H1 H]. apply andb_prop in H. destruct H as [H2 H3].
  unfold in_range, sets. repeat apply Forall_cons; auto.
Qed.
Definition weightsetb (a c : Z) (p q : pset F64) : bool := all2b (shiftedb c) (p_m p) (p_m q) && shiftedb a (p_soft p) (p_soft q).
Definition weightsb (a c : Z) (g g' : galaxy F64) : bool :=
  weightsetb a c (g_stars g) (g_stars g') && (weightsetb a c (g_dm g) (g_dm g') && weightsetb a c (g_gas g) (g_gas g')).
Lemma weightsb_ok a c (g g' : galaxy F64) : weightsb a c g g' = true -> weights_in a c g g'.
Proof.
  assert (S : forall p q, weightsetb a c p q = true -> Forall2 (shifted c) (p_m p) (p_m q) /\ shifted a (p_soft p : f64) (p_soft q : f64)).
  { intros p q H. unfold weightsetb in H. apply andb_prop in H. destruct H as [H1 H2].
    split; [exact (all2b_ok _ (shifted _) _ _ (shiftedb_ok _) H1)|now apply shiftedb_ok]. }
  unfold weightsb. intros H. apply andb_prop in H. destruct H as [H1 H]. apply andb_prop in H. destruct H as [H2 H3].
  unfold weights_in, sets. repeat apply Forall2_cons; auto.
Qed.

(** A galaxy without potentials, its softenings multiplied too. *)
Definition barP (t : ptype) (l : list (Z * (Z * Z * Z) * (Z * Z * Z))) (cm cx cv : F64) : res (pset F64) :=
  let f d s := map (fun p => (s * nlit (d p) 10)%num) l in
  mk_pset t (f (fun p => fst (fst p)) cm) (f (fun p => fst (fst (snd (fst p)))) cx) (f (fun p => snd (fst (snd (fst p)))) cx) (f (fun p => snd (snd (fst p))) cx)
    (f (fun p => fst (fst (snd p))) cv) (f (fun p => snd (fst (snd p))) cv) (f (fun p => snd (snd p)) cv) None (cx * nlit 1 10)%num.
Definition bareG (cm cx cv : F64) : res (galaxy F64) :=
  do s <- barP STARS [(70, (11, 0, 1), (0, 31, 1)); (90, (0, 23, -2), (-29, 1, 2)); (50, (-32, 1, 1), (2, -27, 1)); (80, (12, 2, 1), (3, 11, 1)); (60, (2, -41, 1), (26, 0, 2));
    (40, (21, 3, 1), (-1, 9, 4)); (30, (-13, 5, 2), (4, -12, 3)); (70, (3, 33, -1), (-8, 2, 7))]%Z cm cx cv;
  do d <- barP DARK_MATTER [(900, (2, 0, 1), (1, 1, 0)); (700, (-41, 37, 29), (2, -1, 1))]%Z cm cx cv;
  do q <- barP GAS [(30, (19, -17, 2), (-3, 5, 1))]%Z cm cx cv; mk_galaxy s d q.
Lemma bareG_ok cm cx cv g : bareG cm cx cv = Ok g -> constructible g.
Proof.
  unfold bareG, barP. intros H.
  destruct (mk_pset STARS _ _ _ _ _ _ _ _ _) as [s|] eqn:E1; [|discriminate]. cbn [bind] in H.
  destruct (mk_pset DARK_MATTER _ _ _ _ _ _ _ _ _) as [d|] eqn:E2; [|discriminate]. cbn [bind] in H.
  destruct (mk_pset GAS _ _ _ _ _ _ _ _ _) as [q|] eqn:E3; [|discriminate]. cbn [bind] in H.
  exists s, d, q. split; [|split; [|split; [|exact H]]]; do 10 eexists; eassumption.
Qed.
Definition G32 : F32 := to32 (nlit (N:=F64) 430091727 100000000000000).
Definition zeros (i j : nat) : F32 := n0.

Definition run101 (name : string) (g : galaxy F64) : option (bool * list spec_float) :=
  match potential (W:=F64) (S:=F32) to32 to64 (backend_table G32 true zeros) name g with Ok p =>
  match center p with Ok h => match star_align h None with Ok k =>
  match decompose asort (jthreshold (fun _ => 77%Z) (default_bin0, default_bin1) (nlit 1 2)) tt k with Ok (c, _) =>
     Some (tameb 150 k, firstn 8 (shows (c_labels c)))
  | _ => None end | _ => None end | _ => None end | _ => None end.

(** C101: eleven particles; positions times eight, velocities times a half, masses times two; the two backends. *)
Example ex_c101 : exists g g' : galaxy F64, constructible g /\ constructible g' /\ g_haspot g = false /\ sized 18 0 (G32 : f32) /\
  in_units 3 (-1) g g' /\ weights_in 3 1 g g' /\ in_range g /\ tame 60 g /\ Forall (within2 61) (p_m (g_stars g)) /\
  forall name, In name ["fortran"; "numpy"]%string -> exists p h k c,
    potential (W:=F64) (S:=F32) to32 to64 (backend_table G32 true zeros) name g = Ok p /\ center p = Ok h /\ star_align h None = Ok k /\ tame 150 k /\
    decompose asort (jthreshold (fun _ => 77%Z) (default_bin0, default_bin1) (nlit 1 2)) tt k = Ok (c, tt) /\
    firstn 8 (shows (c_labels c)) = [S754_nan; S754_nan; S754_nan; sZ 1; S754_nan; sZ 0; sZ 1; sZ 1].
Proof.
  assert (X : match bareG (fZ 100000) (fZ 1) (fZ 1), bareG (fZ 200000) (fZ 8) (nlit 1 2) with Ok g, Ok g' =>
      (negb (g_haspot g) && (unitsb 3 (-1) g g' && (weightsb 3 1 g g' && (rangeb g && (tameb 60 g && forallb (within2b 61) (p_m (g_stars g))))))) = true /\
      run101 "fortran" g = Some (true, [S754_nan; S754_nan; S754_nan; sZ 1; S754_nan; sZ 0; sZ 1; sZ 1]) /\ run101 "numpy" g = Some (true, [S754_nan; S754_nan; S754_nan; sZ 1; S754_nan; sZ 0; sZ 1; sZ 1])
      | _, _ => False end) by (vm_compute; repeat split; reflexivity).
  destruct (bareG (fZ 100000) _ _) as [g|] eqn:E; [|contradiction]. destruct (bareG (fZ 200000) _ _) as [g'|] eqn:E'; [|contradiction].
  destruct X as (X & Xf & Xn). apply andb_prop in X. destruct X as [Y1 X]. apply andb_prop in X. destruct X as [Y2 X]. apply andb_prop in X. destruct X as [Y3 X].
  apply andb_prop in X. destruct X as [Y4 X]. apply andb_prop in X. destruct X as [Y5 Y6].
  exists g, g'. split; [exact (bareG_ok _ _ _ _ E)|]. split; [exact (bareG_ok _ _ _ _ E')|]. split; [now destruct (g_haspot g)|].
  split; [apply sizedb_ok; vm_compute; reflexivity|].
  split; [now apply unitsb_ok|]. split; [now apply weightsb_ok|]. split; [now apply rangeb_ok|]. split; [now apply tameb_ok|]. split; [now apply forallb_within|].
  assert (Q : forall name, run101 name g = Some (true, [S754_nan; S754_nan; S754_nan; sZ 1; S754_nan; sZ 0; sZ 1; sZ 1]) -> exists p h k c,
    potential (W:=F64) (S:=F32) to32 to64 (backend_table G32 true zeros) name g = Ok p /\ center p = Ok h /\ star_align h None = Ok k /\ tame 150 k /\
    decompose asort (jthreshold (fun _ => 77%Z) (default_bin0, default_bin1) (nlit 1 2)) tt k = Ok (c, tt) /\
    firstn 8 (shows (c_labels c)) = [S754_nan; S754_nan; S754_nan; sZ 1; S754_nan; sZ 0; sZ 1; sZ 1]).
  { intros name H. unfold run101 in H.
    destruct (potential _ _ _ name g) as [p|]; [|discriminate]. destruct (center p) as [h|] eqn:Eh; [|discriminate]. destruct (star_align h None) as [k|] eqn:Ek; [|discriminate].
    destruct (decompose asort _ tt k) as [[c []]|] eqn:D; [|discriminate].
    assert (H1 : tameb 150 k = true) by congruence. assert (H2 : firstn 8 (shows (c_labels c)) = [S754_nan; S754_nan; S754_nan; sZ 1; S754_nan; sZ 0; sZ 1; sZ 1]) by congruence.
    exists p, h, k, c. split; [reflexivity|]. split; [exact Eh|]. split; [exact Ek|]. split; [now apply tameb_ok|]. split; [exact D|exact H2]. }
  intros name [<-|[<-|[]]]; now apply Q.
Qed.

(** C101: outside the range it fails: with positions of 2^60 the squares of the distances overflow binary32 when
    the unit of length is divided by 2^10, and the potentials, which should stay the same, vanish. *)
Lemma c101_range_refuted : exists (g g' p p' : galaxy F64), constructible g /\ constructible g' /\ in_units 10 0 g g' /\ weights_in 10 10 g g' /\
  potential (W:=F64) (S:=F32) to32 to64 (backend_table G32 true zeros) "fortran" g = Ok p /\
  potential (W:=F64) (S:=F32) to32 to64 (backend_table G32 true zeros) "fortran" g' = Ok p' /\
  option_map (map fshow) (p_pot (g_stars p)) <> option_map (map fshow) (p_pot (g_stars p')).
Proof.
  assert (X : match bareG (fZ (2 ^ 60)) (fZ (2 ^ 60)) (fZ 1), bareG (fZ (2 ^ 70)) (fZ (2 ^ 70)) (fZ 1) with Ok g, Ok g' =>
      match potential (W:=F64) (S:=F32) to32 to64 (backend_table G32 true zeros) "fortran" g, potential (W:=F64) (S:=F32) to32 to64 (backend_table G32 true zeros) "fortran" g' with
      | Ok p, Ok p' => (unitsb 10 0 g g' && weightsb 10 10 g g') = true /\
          match p_pot (g_stars p), p_pot (g_stars p') with
          | Some (x :: _), Some (y :: _) => (match fshow x, fshow y with S754_finite _ _ _, S754_zero _ => true | _, _ => false end) = true
          | _, _ => False end
      | _, _ => False end | _, _ => False end) by (vm_compute; split; reflexivity).
  destruct (bareG (fZ (2 ^ 60)) _ _) as [g|] eqn:E; [|contradiction]. destruct (bareG (fZ (2 ^ 70)) _ _) as [g'|] eqn:E'; [|contradiction].
  destruct (potential _ _ _ _ g) as [p|] eqn:P; [|contradiction]. destruct (potential _ _ _ _ g') as [p'|] eqn:P'; [|contradiction].
  destruct X as [X1 X2]. apply andb_prop in X1. destruct X1 as [Y1 Y2]. exists g, g', p, p'.
  split; [exact (bareG_ok _ _ _ _ E)|]. split; [exact (bareG_ok _ _ _ _ E')|]. split; [now apply unitsb_ok|]. split; [now apply weightsb_ok|].
  split; [exact P|]. split; [exact P'|]. destruct (p_pot (g_stars p)) as [[|x l]|]; try contradiction. destruct (p_pot (g_stars p')) as [[|y l']|]; try contradiction.
  cbn [option_map map]. intros H. assert (H' : fshow x = fshow y) by congruence. rewrite H' in X2. destruct (fshow y); discriminate.
Qed.
