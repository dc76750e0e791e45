(** Property theorems. Whether a particle that is not a star is dark matter or gas does not matter (C112). Proofs are in RegroupThms.v. *)
From Verif Require Import Py Num RX F64 Np Df Data DataFacts DfFacts RebuildFacts Center CenterFacts Align AlignFacts Spec SpecR SpecCirc SpecBase SpecSym SpecImage SpecRegroup Circ CircFacts CurveFacts CircThms Base BaseFacts BaseThms EpsFacts Ex DataThms CenterThms AlignThms Potential PotFacts Dgemm SpecDgemm DgemmThms PotConcFacts PotThms SpecAgain AgainThms Threshold WholeThms MirFacts RegroupThms.
From Coq Require Import Lia Floats.SpecFloat.

(** The matrix products of Align.v and of a library with fused operations treat every column alike. *)
Theorem C112_products : forall (N : Num) (fma : N -> N -> N -> N), column_by_column (N:=N) plain_matmul /\ column_by_column (fused_matmul fma).
Proof. exact c112_products. Qed.
Print Assumptions C112_products.

(** Potentials: every particle gets the same one, whatever set it is in, from either backend. *)
Theorem C112_potential : forall (W S : Num) (cast : W -> S) (lift : S -> W) (G : S) have junk name (g g' : galaxy W),
  constructible g -> constructible g' -> regrouped g g' ->
  let run := potential cast lift (backend_table G have junk) name in
  (forall e, run g = Raise e -> run g' = Raise e) /\
  (forall h, run g = Ok h -> exists h', run g' = Ok h' /\ constructible h /\ constructible h' /\ regrouped h h').
Proof. exact c112_potential. Qed.
Print Assumptions C112_potential.

(** Centring moves every particle the same way, and so does the alignment. *)
Theorem C112_center : forall (N : Num) (g g' : galaxy N), constructible g -> constructible g' -> regrouped g g' ->
  (forall e, center g = Raise e -> center g' = Raise e) /\
  (forall h, center g = Ok h -> exists h', center g' = Ok h' /\ constructible h /\ constructible h' /\ regrouped h h').
Proof. exact c112_center. Qed.
Print Assumptions C112_center.

(** The alignment, for a matrix product that treats every column alike. *)
Theorem C112_align : forall (N : Num) fma mm, is_matmul fma mm -> column_by_column (N:=N) mm ->
  forall (g g' : galaxy N) c, constructible g -> constructible g' -> regrouped g g' ->
  (forall e, star_align_with mm g c = Raise e -> star_align_with mm g' c = Raise e) /\
  (forall h, star_align_with mm g c = Ok h -> exists h', star_align_with mm g' c = Ok h' /\ constructible h /\ constructible h' /\ regrouped h h').
Proof. exact c112_align. Qed.
Print Assumptions C112_align.

(** The two checks say the same. *)
Theorem C112_checks : forall (N : Num) (g g' : galaxy N) c rtol atol, constructible g -> constructible g' -> regrouped g g' ->
  is_centered g' rtol atol = is_centered g rtol atol /\ is_star_aligned g' c rtol atol = is_star_aligned g c rtol atol.
Proof. exact c112_checks. Qed.
Print Assumptions C112_checks.

(** The circularities of the stars and the curve are the same, bit for bit. *)
Theorem C112_circularity : forall (N : Num) (RN : Rounded N) argsort (g g' : galaxy N) b0 b1, constructible g -> constructible g' -> regrouped g g' ->
  jcirc argsort g' b0 b1 = jcirc argsort g b0 b1.
Proof. exact c112_circularity. Qed.
Print Assumptions C112_circularity.

(** Every decomposer of stars finds the same: labels, probabilities and state of the generator, or the same error. *)
Theorem C112_labels : forall (N : Num) (RN : Rounded N) argsort St (D : decomposer N St) st (g g' : galaxy N),
  constructible g -> constructible g' -> regrouped g g' -> star_method D ->
  rmap findings (decompose argsort D st g') = rmap findings (decompose argsort D st g).
Proof. exact c112_labels. Qed.
Print Assumptions C112_labels.

(** So does the whole analysis, from the potential to the labels. *)
Theorem C112_whole : forall (W S : Num) (RW : Rounded W) (cast : W -> S) (lift : S -> W) fma mm, is_matmul fma mm -> column_by_column (N:=W) mm ->
  forall (G : S) have junk name argsort St (D : decomposer W St) st (g g' : galaxy W) c,
  constructible g -> constructible g' -> regrouped g g' -> star_method D ->
  let whole := fun g0 : galaxy W =>
    do h0 <- potential cast lift (backend_table G have junk) name g0;
    do h1 <- center h0; do h2 <- star_align_with mm h1 c; decompose argsort D st h2 in
  rmap findings (whole g') = rmap findings (whole g).
Proof. exact c112_whole. Qed.
Print Assumptions C112_whole.

Theorem C112_softening_refuted : exists (g g' h h' : galaxy F64) v v', constructible g /\ constructible g' /\ g_stars g' = g_stars g /\
  others p_m g' = others p_m g /\ others p_x g' = others p_x g /\ others p_y g' = others p_y g /\ others p_z g' = others p_z g /\
  map p_soft (sets g') = map p_soft (sets g) /\
  potential (W:=F64) (S:=F32) to32 to64 (backend_table n1 true junk0) "fortran" g = Ok h /\
  potential (W:=F64) (S:=F32) to32 to64 (backend_table n1 true junk0) "fortran" g' = Ok h' /\
  p_pot (g_stars h) = Some [v] /\ p_pot (g_stars h') = Some [v'] /\ nlt v' v = true.
Proof. exact c112_softening_refuted. Qed.
Print Assumptions C112_softening_refuted.

(** The hypotheses of C112 hold, and both runs label the second star 0, for a cut at 9/10. *)
Example EX_C112 : let sm := seqsum 53 1024 p53 e1024 in
  constructible exW_gal /\ constructible exG_gal /\ regrouped exW_gal exG_gal /\ plen (g_gas exW_gal) = 0%nat /\ plen (g_gas exG_gal) = 1%nat /\
  is_matmul (S:=F64s sm) fma64 plain_matmul /\ column_by_column (N:=F64s sm) plain_matmul /\
  star_method (N:=F64) (jthreshold (fun _ => 77%Z) (default_bin0, default_bin1) (nlit 9 10)) /\
  rmap shows (analysis (sm:=sm) (sm':=seqsum 24 128 p24 e128) asort (backend_table n1 true junk0) "fortran" (plain_matmul (S:=F64)) (fun _ => 77%Z) (nlit 9 10) exW_gal) = Ok [sZ 1; sZ 0; S754_nan] /\
  rmap shows (analysis (sm:=sm) (sm':=seqsum 24 128 p24 e128) asort (backend_table n1 true junk0) "fortran" (plain_matmul (S:=F64)) (fun _ => 77%Z) (nlit 9 10) exG_gal) = Ok [sZ 1; sZ 0; S754_nan].
Proof. exact ex_c112. Qed.
