(** Property theorems. A galaxy that has been stored is analysed like the original (C87). Proofs are in StoreThms.v. *)
From Verif Require Import Py Num RX F64 Np Df Data DataFacts DfFacts RebuildFacts Center CenterFacts Align Spec SpecR SpecCirc SpecOrder SpecSym SpecBase Ex DataThms CenterThms AlignFacts AlignThms Circ CircFacts CurveFacts CircThms Base BaseFacts BaseThms Threshold EpsFacts ThresholdThms OrderThms SymFacts SymThms InvThms Io SpecIo IoFacts IoThms Potential SpecPot PotThms SpecPipe PipeThms StoreThms.
From Coq Require Import Lia Floats.SpecFloat.

(** A galaxy that is stored and read again, whatever softenings it is given then: centring,
    aligning and decomposing it gives the components (or the error) of the original, bit for
    bit, if the decomposer uses circularities. *)
Theorem C87_decompose : forall (N : Num) (RN : Rounded N) (M : Type) defaults (now : M) (f : h5 N M) (g : galaxy N) metadata f' r,
  constructible g -> no_nan g -> NoDup (dkeys (h_objs f)) ->
  to_hdf5 quiet defaults now f g metadata None None = (f', r) ->
  forall ss sd sg argsort St (D : decomposer N St) st r_cut, (forall a, In a (d_attributes D) -> circ_attr a) ->
  (do g' <- read_hdf5 f' ss sd sg; do c <- center g'; do a <- star_align c r_cut; decompose argsort D st a) =
  (do c <- center g; do a <- star_align c r_cut; decompose argsort D st a).
Proof. exact c87_decompose. Qed.
Print Assumptions C87_decompose.

(** With the softenings of the original it is the original. *)
Theorem C87_same : forall (N : Num) (M : Type) defaults (now : M) (f : h5 N M) (g : galaxy N) metadata f' r,
  constructible g -> no_nan g -> NoDup (dkeys (h_objs f)) ->
  to_hdf5 quiet defaults now f g metadata None None = (f', r) ->
  read_hdf5 f' (p_soft (g_stars g)) (p_soft (g_dm g)) (p_soft (g_gas g)) = Ok g.
Proof. exact c87_same. Qed.
Print Assumptions C87_same.

Example EX_C87 : exists g f', sampleG = Ok g /\ constructible g /\ no_nan g /\ NoDup (dkeys (h_objs empty5)) /\
  to_hdf5 quiet [] 0%Z empty5 g None None None = (f', Ok tt) /\ (forall a, In a (d_attributes thr) -> circ_attr a) /\
  (do g' <- read_hdf5 f' (fZ 7) (fZ 8) (fZ 9); analysed g') = analysed g /\
  rmap (fun cs => shows (c_labels (fst cs))) (analysed g) = Ok [S754_nan; sZ 0; S754_nan; sZ 1; S754_nan; S754_nan; S754_nan; S754_nan].
Proof. exact ex_c87. Qed.

(** The softenings are not stored: a potential computed after reading with the default
    softenings need not be that of the original. *)
Theorem C87_softening_refuted : exists (g g' h h' : galaxy F64) (f' : h5 F64 Z), constructible g /\ no_nan g /\
  to_hdf5 quiet [] 0%Z empty5 g None None None = (f', Ok tt) /\ read_hdf5 f' (fZ 0) (fZ 0) (fZ 0) = Ok g' /\
  potential (W:=F64) (S:=F32) to32 to64 (backend_table n1 true junk0) "fortran" g = Ok h /\
  potential (W:=F64) (S:=F32) to32 to64 (backend_table n1 true junk0) "fortran" g' = Ok h' /\
  shows (all_pots h) = [sZ (-3); sZ (-3)] /\ shows (all_pots h') = [sZ (-5); sZ (-5)].
Proof. exact c87_softening_refuted. Qed.
Print Assumptions C87_softening_refuted.
