(** Property theorems. Units that are powers of two (C100). Proofs are in UnitThms.v. *)
From Verif Require Import Py Num RX F64 Np Df Data DataFacts DfFacts RebuildFacts Center CenterFacts Align Spec SpecR SpecCirc SpecOrder SpecSym SpecBase Ex DataThms CenterThms AlignFacts AlignThms Circ CircFacts CurveFacts CircThms Base BaseFacts BaseThms Threshold EpsFacts ThresholdThms OrderThms SymFacts SymThms InvThms SpecShift ShiftFacts UnitFacts UnitChain UnitThms.
From Flocq Require Import Core.Zaux Core.Raux Core.Defs Core.Float_prop IEEE754.BinarySingleNaN.
From Coq Require Import Lra Lia Floats.SpecFloat.

(** C100: multiplying positions by 2^a, velocities by 2^b and potentials by 2^(2b), exactly, changes no bit of
    the circularities, of the normalised energies and angular momenta, of the curve, nor an error. *)
Theorem C100_jcirc : forall sm argsort a b (g g' : galaxy (F64s sm)) b0 b1,
  constructible g -> constructible g' -> (Z.abs a <= 50)%Z -> (Z.abs b <= 50)%Z -> in_units a b g g' -> tame 150 g ->
  jcirc argsort g' b0 b1 = jcirc argsort g b0 b1.
Proof. exact c100_jcirc. Qed.
Print Assumptions C100_jcirc.

(** C100: so no label changes, for any decomposer that looks at circularities. *)
Theorem C100_labels : forall sm argsort St (D : decomposer (F64s sm) St) st a b (g g' : galaxy (F64s sm)),
  constructible g -> constructible g' -> (forall x, In x (d_attributes D) -> circ_attr x) ->
  (Z.abs a <= 50)%Z -> (Z.abs b <= 50)%Z -> in_units a b g g' -> tame 150 g ->
  decompose argsort D st g' = decompose argsort D st g.
Proof. exact c100_labels. Qed.
Print Assumptions C100_labels.

(** C100: centring commutes with the change of units, *)
Theorem C100_center : forall sm a b n (g g' : galaxy (F64s sm)),
  constructible g -> constructible g' -> (0 <= n)%Z -> (n + Z.abs a <= 1000)%Z -> in_units a b g g' -> tame n g ->
  same_error_or (fun h h' => constructible h /\ constructible h' /\ in_units a b h h' /\ tame (n + 1) h) (center g) (center g').
Proof. exact c100_center. Qed.
Print Assumptions C100_center.

(** C100: and so does the alignment, the masses of the stars multiplied by 2^c, whatever the order of the sums,
    provided it depends on the number of stars alone; *)
Theorem C100_align : forall sm a b c (g g' : galaxy (F64s sm)) r r',
  constructible g -> constructible g' -> fixed_order sm ->
  (Z.abs a <= 30)%Z -> (Z.abs b <= 30)%Z -> (Z.abs c <= 30)%Z -> cut_in a r r' ->
  (Z.of_nat (plen (g_stars g)) <= 2 ^ 38)%Z -> in_units a b g g' -> tame 61 g ->
  Forall2 (shifted c) (p_m (g_stars g)) (p_m (g_stars g')) -> Forall (within2 61) (p_m (g_stars g)) ->
  same_error_or (fun h h' => constructible h /\ constructible h' /\ in_units a b h h') (star_align g r) (star_align g' r').
Proof. exact c100_align. Qed.
Print Assumptions C100_align.

(** C100: so that the analysis of a galaxy from its centring to its labels gives the same labels in both units. *)
Theorem C100_chain : forall sm argsort St (D : decomposer (F64s sm) St) st a b c (g g' h k : galaxy (F64s sm)) r r',
  constructible g -> constructible g' -> fixed_order sm -> (forall x, In x (d_attributes D) -> circ_attr x) ->
  (Z.abs a <= 30)%Z -> (Z.abs b <= 30)%Z -> (Z.abs c <= 30)%Z -> cut_in a r r' ->
  (Z.of_nat (plen (g_stars g)) <= 2 ^ 38)%Z -> in_units a b g g' -> tame 60 g ->
  Forall2 (shifted c) (p_m (g_stars g)) (p_m (g_stars g')) -> Forall (within2 61) (p_m (g_stars g)) ->
  center g = Ok h -> star_align h r = Ok k -> tame 150 k ->
  exists h' k', center g' = Ok h' /\ star_align h' r' = Ok k' /\ in_units a b k k' /\
    decompose argsort D st k' = decompose argsort D st k.
Proof. exact c100_chain. Qed.
Print Assumptions C100_chain.

(** C100: adding from left to right is such an order. *)
Theorem C100_left_to_right : fixed_order (seqsum 53 1024 p53 e1024).
Proof. exact c100_left_to_right. Qed.
Print Assumptions C100_left_to_right.

(** C100: ten particles; positions times eight, velocities times a half, potentials times a quarter, masses
    times four; centring, alignment and the threshold decomposer. *)
Example EX_C100 : exists (g g' h k : galaxy F64) (cut : F64) c, constructible g /\ constructible g' /\
  in_units 3 (-1) g g' /\ tame 60 g /\ Forall2 (shifted 2) (p_m (g_stars g)) (p_m (g_stars g')) /\
  Forall (within2 61) (p_m (g_stars g)) /\ center g = Ok h /\ star_align h None = Ok k /\ tame 150 k /\
  decompose asort (jthreshold (fun _ => 77%Z) (default_bin0, default_bin1) cut) tt k = Ok (c, tt) /\
  firstn 7 (shows (c_labels c)) = [S754_nan; S754_nan; S754_nan; sZ 1; sZ 0; S754_nan; sZ 1] /\
  shows (p_x (g_stars g)) <> shows (p_x (g_stars g')).
Proof. exact ex_c100. Qed.

(** C100: the range matters: dividing the positions of a galaxy of size 2^-1000 by 2^50, still exactly, changes
    circularities, the angular momenta having become subnormal. *)
Theorem C100_range_refuted : exists (g g' : galaxy F64) j j', constructible g /\ constructible g' /\ in_units (-50) 0 g g' /\
  jcirc asort g default_bin0 default_bin1 = Ok j /\ jcirc asort g' default_bin0 default_bin1 = Ok j' /\
  shows (jc_eps j) <> shows (jc_eps j').
Proof. exact c100_range_refuted. Qed.
Print Assumptions C100_range_refuted.
