(** Property theorems. Potentials and the whole analysis in units that are powers of two (C101). Proofs are in UnitPotThms.v. *)
From Verif Require Import Py Num RX F64 Np Df Data DataFacts DfFacts RebuildFacts Center CenterFacts Align Spec SpecR SpecCirc SpecOrder SpecSym SpecBase Ex DataThms CenterThms AlignFacts AlignThms Circ CircFacts CurveFacts CircThms Base BaseFacts BaseThms Threshold EpsFacts ThresholdThms OrderThms SymFacts SymThms InvThms Potential SpecShift SpecUnitPot ShiftFacts UnitFacts UnitChain UnitPot UnitThms UnitPotThms.
From Flocq Require Import Core.Zaux Core.Raux Core.Defs Core.Float_prop IEEE754.BinarySingleNaN.
From Coq Require Import Lra Lia Floats.SpecFloat.

(** C101: with positions and softenings multiplied by 2^a, velocities by 2^b and masses by 2^(a+2b), either backend,
    though it computes in binary32, gives potentials multiplied by exactly 2^(2b), or the same error. *)
Theorem C101_potential : forall sm sm32 a b (G : F32s sm32) have (junk : nat -> nat -> F32s sm32) name (g g' : galaxy (F64s sm)),
  constructible g -> constructible g' -> (Z.abs a <= 10)%Z -> (Z.abs b <= 10)%Z -> sized 18 0 G -> fixed_order32 sm32 ->
  (forall i j, junk i j = n0) -> in_units a b g g' -> weights_in a (a + 2 * b) g g' -> in_range g -> (Z.of_nat (glen g) <= 2 ^ 20)%Z ->
  same_error_or (fun h h' => constructible h /\ constructible h' /\ in_units a b h h')
    (potential (W:=F64s sm) (S:=F32s sm32) to32 to64 (backend_table G have junk) name g)
    (potential (W:=F64s sm) (S:=F32s sm32) to32 to64 (backend_table G have junk) name g').
Proof. exact c101_potential. Qed.
Print Assumptions C101_potential.

(** C101: so the whole analysis, from the particles to the labels, gives the same labels in both units. *)
Theorem C101_whole : forall sm sm32 argsort St (D : decomposer (F64s sm) St) st a b (G : F32s sm32) have (junk : nat -> nat -> F32s sm32) name
    (g g' p h k : galaxy (F64s sm)) r r',
  constructible g -> constructible g' -> (Z.abs a <= 10)%Z -> (Z.abs b <= 10)%Z -> sized 18 0 G -> fixed_order32 sm32 -> fixed_order sm ->
  (forall i j, junk i j = n0) -> (forall x, In x (d_attributes D) -> circ_attr x) -> cut_in a r r' ->
  in_units a b g g' -> weights_in a (a + 2 * b) g g' -> in_range g -> tame 60 g -> Forall (within2 61) (p_m (g_stars g)) -> (Z.of_nat (glen g) <= 2 ^ 20)%Z ->
  potential (W:=F64s sm) (S:=F32s sm32) to32 to64 (backend_table G have junk) name g = Ok p -> center p = Ok h -> star_align h r = Ok k -> tame 150 k ->
  exists p' h' k', potential (W:=F64s sm) (S:=F32s sm32) to32 to64 (backend_table G have junk) name g' = Ok p' /\
    center p' = Ok h' /\ star_align h' r' = Ok k' /\ in_units a b k k' /\ decompose argsort D st k' = decompose argsort D st k.
Proof. exact c101_whole. Qed.
Print Assumptions C101_whole.

(** C101: adding from left to right in binary32 is such an order. *)
Theorem C101_left_to_right : fixed_order32 (seqsum 24 128 p24 e128).
Proof. exact c101_left_to_right. Qed.
Print Assumptions C101_left_to_right.

(** C101: eleven particles; positions times eight, velocities times a half, masses times two; the two backends. *)
Example EX_C101 : exists g g' : galaxy F64, constructible g /\ constructible g' /\ g_haspot g = false /\ sized 18 0 (G32 : f32) /\
  in_units 3 (-1) g g' /\ weights_in 3 1 g g' /\ in_range g /\ tame 60 g /\ Forall (within2 61) (p_m (g_stars g)) /\
  forall name, In name ["fortran"; "numpy"]%string -> exists p h k c,
    potential (W:=F64) (S:=F32) to32 to64 (backend_table G32 true zeros) name g = Ok p /\ center p = Ok h /\ star_align h None = Ok k /\ tame 150 k /\
    decompose asort (jthreshold (fun _ => 77%Z) (default_bin0, default_bin1) (nlit 1 2)) tt k = Ok (c, tt) /\
    firstn 8 (shows (c_labels c)) = [S754_nan; S754_nan; S754_nan; sZ 1; S754_nan; sZ 0; sZ 1; sZ 1].
Proof. exact ex_c101. Qed.

(** C101: outside the range it fails: with positions of 2^60 the squares of the distances overflow binary32 when
    the unit of length is divided by 2^10, and the potentials, which should stay the same, vanish. *)
Theorem C101_range_refuted : exists (g g' p p' : galaxy F64), constructible g /\ constructible g' /\ in_units 10 0 g g' /\ weights_in 10 10 g g' /\
  potential (W:=F64) (S:=F32) to32 to64 (backend_table G32 true zeros) "fortran" g = Ok p /\
  potential (W:=F64) (S:=F32) to32 to64 (backend_table G32 true zeros) "fortran" g' = Ok p' /\
  option_map (map fshow) (p_pot (g_stars p)) <> option_map (map fshow) (p_pot (g_stars p')).
Proof. exact c101_range_refuted. Qed.
Print Assumptions C101_range_refuted.
