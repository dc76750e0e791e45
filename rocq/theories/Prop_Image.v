(** Property theorems. Mirror images and reversed motion: the whole analysis gives the same labels (C109). Proofs are in ImageThms.v. *)
From Verif Require Import Py Num RX F64 Np Df Data DataFacts DfFacts RebuildFacts Center CenterFacts Align AlignFacts Spec SpecR SpecCirc SpecBase SpecSym SpecImage Circ CircFacts CurveFacts CircThms Ex DataThms CenterThms AlignThms OrderThms SymFacts SymThms Base BaseFacts BaseThms Threshold EpsFacts ThresholdThms InvThms Hist Potential PotFacts PotThms PotConcFacts AccFacts SpecFma Dgemm SpecDgemm DgemmThms SpecShift UnitThms WholeThms SpecAgain AgainThms MirFacts ImageThms.
From Flocq Require Import Core BinarySingleNaN.
From Coq Require Import Lra Lia FunctionalExtensionality Floats.SpecFloat.

(** Arrays added in an order fixed by their length: reversing every entry reverses the sum. *)
Theorem C109_sums : forall sm, fixed_order sm -> even_sum (N:=F64s sm) sm.
Proof. exact c109_sums. Qed.
Print Assumptions C109_sums.

(** The matrix products of Align.v, and those of a library with fused operations. *)
Theorem C109_products : forall sm, even_matmul (N:=F64s sm) plain_matmul /\ even_matmul (N:=F64s sm) (fused_matmul (S:=F64s sm) fma64).
Proof. exact c109_products. Qed.
Print Assumptions C109_products.

(** Potentials: a galaxy and its mirror image get the same ones, bit for bit, from either backend. *)
Theorem C109_potential : forall sm sm' (G : F32s sm') have junk name w (g g' : galaxy (F64s sm)),
  constructible g -> constructible g' -> mirror_image w g g' ->
  let run := potential (W:=F64s sm) (S:=F32s sm') to32 to64 (backend_table G have junk) name in
  (forall e, run g = Raise e -> run g' = Raise e) /\
  (forall h, run g = Ok h -> exists h', run g' = Ok h' /\ constructible h /\ constructible h' /\ mirror_image w h h').
Proof. exact c109_potential. Qed.
Print Assumptions C109_potential.

(** Centring commutes with mirror images. *)
Theorem C109_center : forall (N : Num) (RN : Rounded N) w (g g' : galaxy N), constructible g -> constructible g' -> mirror_image w g g' ->
  (forall e, center g = Raise e -> center g' = Raise e) /\
  (forall h, center g = Ok h -> exists h', center g' = Ok h' /\ constructible h /\ constructible h' /\ mirror_image w h h').
Proof. exact c109_center. Qed.
Print Assumptions C109_center.

(** Aligned, both turn the same way: each with its own axes, the images differ by a symmetry that keeps the z
    component of the angular momentum, even if the motion was reversed. *)
Theorem C109_align : forall sm fma mm, even_sum (N:=F64s sm) sm -> is_matmul fma mm -> even_matmul (N:=F64s sm) mm ->
  forall w (g g' : galaxy (F64s sm)) c, symmetric w -> constructible g -> constructible g' -> mirror_image w g g' ->
  symmetric (aligned_signs w) /\ flips (aligned_signs w) = false /\
  (forall e, star_align_with mm g c = Raise e -> star_align_with mm g' c = Raise e) /\
  (forall h, star_align_with mm g c = Ok h -> exists h', star_align_with mm g' c = Ok h' /\ constructible h /\ constructible h' /\
     mirror_image (aligned_signs w) h h').
Proof. exact c109_align. Qed.
Print Assumptions C109_align.

(** The circularities are the same up to the sign of Jz and eps. *)
Theorem C109_circularity : forall sm argsort w (g g' : galaxy (F64s sm)) b0 b1, symmetric w -> constructible g -> constructible g' ->
  mirror_image w g g' ->
  (forall e, jcirc argsort g b0 b1 = Raise e -> jcirc argsort g' b0 b1 = Raise e) /\
  (forall j, jcirc argsort g b0 b1 = Ok j -> exists j', jcirc argsort g' b0 b1 = Ok j' /\ same_up_to (flips w) j j').
Proof. exact c109_circularity. Qed.
Print Assumptions C109_circularity.

(** JThreshold, JHistogram and JEHistogram are such methods and do not see the sign of a zero. *)
Theorem C109_methods : forall (N : Num) (RN : Rounded N) St (choice : St -> list nat -> nat -> list nat * St) junk cbins (cut : N) n d m,
  zero_blind (jthreshold junk cbins cut) /\ zero_blind (jhistogram choice junk cbins n d) /\
  zero_blind (jehistogram choice junk cbins n d m) /\
  star_method (jthreshold junk cbins cut) /\ star_method (jhistogram choice junk cbins n d) /\ star_method (jehistogram choice junk cbins n d m).
Proof. exact c109_methods. Qed.
Print Assumptions C109_methods.

(** The decomposition of a mirror image that keeps the z component of the angular momentum is the same. *)
Theorem C109_labels : forall sm argsort St (D : decomposer (F64s sm) St) st w (g g' : galaxy (F64s sm)),
  symmetric w -> flips w = false -> constructible g -> constructible g' -> mirror_image w g g' ->
  star_method D -> zero_blind D ->
  decompose argsort D st g' = decompose argsort D st g.
Proof. exact c109_labels. Qed.
Print Assumptions C109_labels.

(** With potentials given: centring, alignment and decomposition do not see a mirror image or the reversal of all
    motion. *)
Theorem C109_given : forall sm fma mm, even_sum (N:=F64s sm) sm -> is_matmul fma mm -> even_matmul (N:=F64s sm) mm ->
  forall argsort St (D : decomposer (F64s sm) St) st w (g g' : galaxy (F64s sm)) c,
  symmetric w -> constructible g -> constructible g' -> mirror_image w g g' -> star_method D -> zero_blind D ->
  (do h1 <- center g'; do h2 <- star_align_with mm h1 c; decompose argsort D st h2) =
  (do h1 <- center g; do h2 <- star_align_with mm h1 c; decompose argsort D st h2).
Proof. exact c109_given. Qed.
Print Assumptions C109_given.

(** The whole analysis, from the potential to the labels, does not see a mirror image or the reversal of all
    motion: same components, same state of the generator, same errors. *)
Theorem C109_whole : forall sm sm' fma mm, even_sum (N:=F64s sm) sm -> is_matmul fma mm -> even_matmul (N:=F64s sm) mm ->
  forall (G : F32s sm') have junk name argsort St (D : decomposer (F64s sm) St) st w (g g' : galaxy (F64s sm)) c,
  symmetric w -> constructible g -> constructible g' -> mirror_image w g g' ->
  star_method D -> zero_blind D ->
  let whole := fun g0 : galaxy (F64s sm) =>
    do h0 <- potential (W:=F64s sm) (S:=F32s sm') to32 to64 (backend_table G have junk) name g0;
    do h1 <- center h0; do h2 <- star_align_with mm h1 c; decompose argsort D st h2 in
  whole g' = whole g.
Proof. exact c109_whole. Qed.
Print Assumptions C109_whole.

(** The hypotheses of C109 hold for it, although the z component of the angular momentum is reversed; both runs
    label the second star 0, for a cut at 9/10. *)
Example EX_C109 : let sm := seqsum 53 1024 p53 e1024 in
  symmetric backwards /\ flips backwards = true /\ symmetric (aligned_signs backwards) /\ flips (aligned_signs backwards) = false /\
  constructible exW_gal /\ constructible exM_gal /\ mirror_image backwards exW_gal exM_gal /\
  even_sum (N:=F64s sm) sm /\ is_matmul (S:=F64s sm) fma64 plain_matmul /\ even_matmul (N:=F64s sm) plain_matmul /\
  rmap shows (analysis (sm:=sm) (sm':=seqsum 24 128 p24 e128) asort (backend_table n1 true junk0) "fortran" (plain_matmul (S:=F64)) (fun _ => 77%Z) (nlit 9 10) exW_gal) = Ok [sZ 1; sZ 0; S754_nan] /\
  rmap shows (analysis (sm:=sm) (sm':=seqsum 24 128 p24 e128) asort (backend_table n1 true junk0) "fortran" (plain_matmul (S:=F64)) (fun _ => 77%Z) (nlit 9 10) exM_gal) = Ok [sZ 1; sZ 0; S754_nan].
Proof. exact ex_c109. Qed.
