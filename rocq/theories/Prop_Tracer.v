(** Property theorems. Massless particles that are not bound leave no trace in the analysis of the stars (C113). Proofs are in TracerThms.v. *)
From Verif Require Import Py Num RX F64 Np Df Data DataFacts DfFacts RebuildFacts Center CenterFacts Align AlignFacts Spec SpecR SpecCirc SpecBase SpecSym SpecImage Circ CircFacts CurveFacts CircThms Base BaseFacts BaseThms EpsFacts Ex DataThms CenterThms AlignThms Potential PotFacts Dgemm SpecDgemm DgemmThms PotConcFacts PotThms SpecAgain AgainThms Threshold WholeThms MirFacts AccFacts SpecPot SpecRegroup RegroupThms SpecTracer TracerFacts TracerThms.
From Coq Require Import Reals Lra Lia Floats.SpecFloat.
From Flocq Require Import Core.Core IEEE754.BinarySingleNaN.

(** Two particles with finite coordinates are at a positive softened distance as soon as the square of the softening is
    positive. *)
Theorem C113_softened : forall (W S : Num) (RS : Rounded S) (cast : W -> S) K (g' g : galaxy W),
  (forall v, In v (p_x (g_stars g) ++ others p_x g ++ p_y (g_stars g) ++ others p_y g ++ p_z (g_stars g) ++ others p_z g) -> nfin (cast v) = true) ->
  (forall v, In v (only K (others p_x g') ++ only K (others p_y g') ++ only K (others p_z g')) -> nfin (cast v) = true) ->
  (forall s, largest_softening g' s -> nlt n0 (cast s * cast s)%num = true) ->
  off_centre cast K g' g.
Proof. exact c113_softened. Qed.
Print Assumptions C113_softened.

(** Potential: a massless particle adds nothing to the potential of any other particle, to the last bit. *)
Theorem C113_potential : forall sm sm' K G have junk (g' g : galaxy (F64s sm)),
  constructible g' -> constructible g -> removed K g' g -> massless K g' -> same_softening g g' ->
  off_centre (W:=F64s sm) (S:=F32s sm') to32 K g' g ->
  let run := potential (W:=F64s sm) (S:=F32s sm') to32 to64 (backend_table G have junk) "fortran" in
  (forall e, run g' = Raise e -> run g = Raise e) /\
  (forall h', run g' = Ok h' -> exists h, run g = Ok h /\ constructible h' /\ constructible h /\ removed K h' h).
Proof. exact c113_potential. Qed.
Print Assumptions C113_potential.

(** Centring: the origin is the same when no particle that is left out has the lowest potential. *)
Theorem C113_center : forall (N : Num) (RN : Rounded N) K (g' g : galaxy N), constructible g' -> constructible g -> removed K g' g -> shallow K g' g ->
  (forall e, center g' = Raise e -> center g = Raise e) /\
  (forall h', center g' = Ok h' -> exists h, center g = Ok h /\ constructible h' /\ constructible h /\ removed K h' h).
Proof. exact c113_center. Qed.
Print Assumptions C113_center.

(** Alignment: only the stars decide. *)
Theorem C113_align : forall (N : Num) fma mm, is_matmul fma mm -> column_by_column (N:=N) mm ->
  forall K (g' g : galaxy N) c, constructible g' -> constructible g -> removed K g' g ->
  (forall e, star_align_with mm g' c = Raise e -> star_align_with mm g c = Raise e) /\
  (forall h', star_align_with mm g' c = Ok h' -> exists h, star_align_with mm g c = Ok h /\ constructible h' /\ constructible h /\ removed K h' h).
Proof. exact c113_align. Qed.
Print Assumptions C113_align.

(** Circularity: particles that are not bound and are not stars do not count, with or without mass. *)
Theorem C113_circularity : forall (N : Num) (RN : Rounded N) argsort K (g' g : galaxy N) b0 b1,
  constructible g' -> constructible g -> removed K g' g -> escaping K g' -> jcirc argsort g b0 b1 = jcirc argsort g' b0 b1.
Proof. exact c113_circularity. Qed.
Print Assumptions C113_circularity.

(** Labels: what a decomposer of stars says about the stars depends only on their number and on the result of jcirc; it says
    nothing about the other particles. *)
Theorem C113_labels : forall (N : Num) (RN : Rounded N) argsort argsort' St (D : decomposer N St) st (g' g : galaxy N),
  constructible g' -> constructible g -> star_method D -> plen (g_stars g) = plen (g_stars g') ->
  jcirc argsort g (fst (d_cbins D)) (snd (d_cbins D)) = jcirc argsort' g' (fst (d_cbins D)) (snd (d_cbins D)) ->
  agree (plen (g_stars g')) (decompose argsort D st g) (decompose argsort' D st g').
Proof. exact c113_labels. Qed.
Print Assumptions C113_labels.

(** The whole analysis: the stars get the same labels, probabilities and state of the generator, or the same error. *)
Theorem C113_whole : forall sm sm' fma mm, is_matmul fma mm -> column_by_column (N:=F64s sm) mm ->
  forall G have junk argsort St (D : decomposer (F64s sm) St) st K (g' g : galaxy (F64s sm)) c,
  constructible g' -> constructible g -> star_method D ->
  removed K g' g -> massless K g' -> same_softening g g' -> off_centre (W:=F64s sm) (S:=F32s sm') to32 K g' g ->
  let pot := potential (W:=F64s sm) (S:=F32s sm') to32 to64 (backend_table G have junk) "fortran" in
  (forall h' h, pot g' = Ok h' -> pot g = Ok h -> shallow K h' h) ->
  (forall h', (do h0 <- pot g'; do h1 <- center h0; star_align_with mm h1 c) = Ok h' -> escaping K h') ->
  agree (plen (g_stars g'))
    (do h0 <- pot g; do h1 <- center h0; do h2 <- star_align_with mm h1 c; decompose argsort D st h2)
    (do h0 <- pot g'; do h1 <- center h0; do h2 <- star_align_with mm h1 c; decompose argsort D st h2).
Proof. exact c113_whole. Qed.
Print Assumptions C113_whole.

(** A massless particle that is bound can change the label of a star. *)
Theorem C113_bound_refuted : exists (K : list bool) (g' g : galaxy F64), constructible g' /\ constructible g /\
  removed K g' g /\ massless K g' /\ same_softening g g' /\ off_centre (W:=F64) (S:=F32) to32 K g' g /\
  (forall h' h, potential (W:=F64) (S:=F32) to32 to64 (backend_table n1 true junk0) "fortran" g' = Ok h' ->
     potential (W:=F64) (S:=F32) to32 to64 (backend_table n1 true junk0) "fortran" g = Ok h -> shallow K h' h) /\
  exists l l', plen (g_stars g) = 2%nat /\
  analysis (sm:=seqsum 53 1024 p53 e1024) (sm':=seqsum 24 128 p24 e128) asort (backend_table n1 true junk0) "fortran" (plain_matmul (S:=F64)) (fun _ => 77%Z) (nlit 9 10) g = Ok l /\
  analysis (sm:=seqsum 53 1024 p53 e1024) (sm':=seqsum 24 128 p24 e128) asort (backend_table n1 true junk0) "fortran" (plain_matmul (S:=F64)) (fun _ => 77%Z) (nlit 9 10) g' = Ok l' /\
  shows (firstn 2 l) = [sZ 1; sZ 0] /\ shows (firstn 2 l') = [sZ 0; sZ 0].
Proof. exact c113_bound_refuted. Qed.
Print Assumptions C113_bound_refuted.

(** The hypotheses of C113 hold for a massless particle of gas that leaves the galaxy, and the stars keep their labels. *)
Example EX_C113 : let sm := seqsum 53 1024 p53 e1024 in let sm' := seqsum 24 128 p24 e128 in let K := [false; true] in
  let g := exW_gal in let g' := exT_gal 100 5 5 1000 0 0 in
  let pot := potential (W:=F64s sm) (S:=F32s sm') to32 to64 (backend_table n1 true junk0) "fortran" in
  constructible g' /\ constructible g /\ removed K g' g /\ massless K g' /\ same_softening g g' /\ off_centre (W:=F64s sm) (S:=F32s sm') to32 K g' g /\
  (forall h' h, pot g' = Ok h' -> pot g = Ok h -> shallow K h' h) /\
  (forall h', (do h0 <- pot g'; do h1 <- center h0; star_align_with (plain_matmul (S:=F64s sm)) h1 None) = Ok h' -> escaping K h') /\
  glen g' = S (glen g) /\
  rmap shows (analysis (sm:=sm) (sm':=sm') asort (backend_table n1 true junk0) "fortran" (plain_matmul (S:=F64)) (fun _ => 77%Z) (nlit 9 10) g) = Ok [sZ 1; sZ 0; S754_nan] /\
  rmap shows (analysis (sm:=sm) (sm':=sm') asort (backend_table n1 true junk0) "fortran" (plain_matmul (S:=F64)) (fun _ => 77%Z) (nlit 9 10) g') = Ok [sZ 1; sZ 0; S754_nan; S754_nan].
Proof. exact ex_c113. Qed.
