(** Property theorems. Property lemmas about JEHistogram in the whole analysis: C111. Proofs are in JeThms.v. *)
From Verif Require Import SpecPipe SpecFrame FrameThms Py Num RX F64 Np Df Data DataFacts DfFacts RebuildFacts Center CenterFacts Align Spec SpecR SpecCirc SpecAlAcc SpecBase SpecCurve SpecChain SpecFma Dgemm SpecDgemm SpecAcc SpecWhole SpecWhist SpecHist Ex DataThms CenterThms Circ Base Threshold Hist SpecPot Potential PotConcFacts PotThms SpecPotAcc SpecNpAcc Fma AlAccSum AlAccThms NpAccThms CircFacts CircThms DgemmThms EpsAccThms CurveAccThms EdgeFacts EdgeThms HistFacts HistThms SpecSplit EnergyThms SplitThms WholeThms WhistFacts WhistThms SpecAgain AgainThms SpecAxes AxesThms SpecJe JeThms.
From Flocq Require Import Core BinarySingleNaN.
From Coq Require Import Lra Lia Permutation Sorted Floats.SpecFloat.
Local Open Scope R_scope.

(** What JEHistogram does in exact arithmetic with the exact energies and circularities, cell by cell and energy bin by
    energy bin; it never fails, as no bound star has energy zero. *)
Theorem C111_counts : forall (N : Num) (RN : Rounded N) St (choice : St -> list nat -> nat -> list nat * St) junk cb st n total bodies m ue uz cv used rows (r : res (components N * St)),
  draws choice -> 0 < m -> exact_curve m SpecCurve.edgesR bodies ue uz cv -> exact_stars n bodies ue uz cv used rows ->
  carries total used (outcome (d_split (jehistogram (N:=RX) choice junk cb 100 2 20) st (map (fun r => [CNum (N:=RX) (XR (fst r)); CNum (N:=RX) (XR (snd r))]) rows) [] [])) r ->
  exists cs st', r = Ok (cs, st') /\
    (forall i, (i < total)%nat -> ~ In i used -> nth_error (c_labels cs) i = Some nnan) /\
    energy_shares (c_labels cs) n bodies ue uz cv.
Proof. exact c111_counts. Qed.
Print Assumptions C111_counts.

(** The whole analysis with JEHistogram: the potential of any of the backends, centring, aligning with any matrix product
    and the decomposition, for every generator that draws without replacement.  It fails if an unbound star precedes a bound one.
    Otherwise, if every bound star is settled, it returns, stars that are not kept and other particles get NaN,
    and the stars of each cell and energy bin are shared as in exact arithmetic. *)
Theorem C111_all : forall sm sm' k kG s K argsort G table name fma mm (g : galaxy (F64s sm)) ls ld lg R0 D o m a d ue uz cv,
  platform (sm':=sm') k kG s K argsort G table name fma mm g ls ld lg ->
  clear_galaxy kG s R0 D k o m a d ue uz cv ls ld lg ->
  (forall j b, (j < length ls)%nat -> nth_error (bodies_of kG s o ls ld lg) j = Some b ->
    settled ((12 * d + / IZR (2 ^ 47)) / a) cv ue uz (clearly_lowest (pot_error (length (ls ++ ld ++ lg)) R0 D) (exact_pots kG s (ls ++ ld ++ lg)) j) b) ->
  forall St (choice : St -> list nat -> nat -> list nat * St) junk st, draws choice ->
  (bound_first (length ls) (bodies_of kG s o ls ld lg) ->
    exists ws, je_analysis argsort table name mm choice junk st g = Ok ws /\
      (forall j, (j < length (ls ++ ld ++ lg))%nat -> ~ ((j < length ls)%nat /\ exists b, nth_error (bodies_of kG s o ls ld lg) j = Some b /\ SpecWhist.kept cv ue uz b) -> nth_error ws j = Some nnan) /\
      energy_shares ws (length ls) (bodies_of kG s o ls ld lg) ue uz cv) /\
  (~ bound_first (length ls) (bodies_of kG s o ls ld lg) -> exists e, je_analysis argsort table name mm choice junk st g = Raise e).
Proof. exact c111_all. Qed.
Print Assumptions C111_all.

(** The whole analysis of one galaxy given in two systems of axes with two origins, in any two orders and on any two platforms and backends, with any two generators:
    JEHistogram gives the same numbers of stars of each cell and energy bin to the spheroid and to the disc. *)
Theorem C111_axes : forall (A : matR) dx dy dz sm1 sm1' sm2 sm2' k kG s K1 K2 argsort1 argsort2 G1 G2 table1 table2 name1 name2 fma1 fma2 mm1 mm2
    (g1 : galaxy (F64s sm1)) (g2 : galaxy (F64s sm2)) junk1 junk2 ls ld lg ls' ld' lg' R0 D o m a d ue uz cv, orthogonal A -> let M := rigid A dx dy dz in
  platform (sm':=sm1') k kG s K1 argsort1 G1 table1 name1 fma1 mm1 g1 ls ld lg ->
  platform (sm':=sm2') k kG s K2 argsort2 G2 table2 name2 fma2 mm2 g2 ls' ld' lg' ->
  Permutation (map M ls) ls' -> Permutation (map M (ld ++ lg)) (ld' ++ lg') ->
  clear_galaxy kG s R0 D k o m a d ue uz cv ls ld lg ->
  fits_axes kG s R0 D k (M o) d ue uz (map M ls) (map M ld) (map M lg) ->
  (forall j b, (j < length ls)%nat -> nth_error (bodies_of kG s o ls ld lg) j = Some b ->
    settled ((12 * d + / IZR (2 ^ 47)) / a) cv ue uz (clearly_lowest (pot_error (length (ls ++ ld ++ lg)) R0 D) (exact_pots kG s (ls ++ ld ++ lg)) j) b) ->
  bound_first (length ls) (bodies_of kG s o ls ld lg) -> bound_first (length ls') (bodies_of kG s (M o) ls' ld' lg') ->
  forall St1 St2 (choice1 : St1 -> list nat -> nat -> list nat * St1) (choice2 : St2 -> list nat -> nat -> list nat * St2) st1 st2, draws choice1 -> draws choice2 ->
  exists ws ws', je_analysis argsort1 table1 name1 mm1 choice1 junk1 st1 g1 = Ok ws /\ je_analysis argsort2 table2 name2 mm2 choice2 junk2 st2 g2 = Ok ws' /\
    forall c j l l' r r', (0 <= c < 50)%Z -> (0 <= j < 20)%Z -> NoDup l -> NoDup l' -> NoDup r -> NoDup r' ->
      (forall i, In i l <-> in_box (length ls) (bodies_of kG s o ls ld lg) ue uz cv c j i) -> (forall i, In i l' <-> in_box (length ls) (bodies_of kG s o ls ld lg) ue uz cv (-1 - c) j i) ->
      (forall i, In i r <-> in_box (length ls') (bodies_of kG s (M o) ls' ld' lg') ue uz cv c j i) -> (forall i, In i r' <-> in_box (length ls') (bodies_of kG s (M o) ls' ld' lg') ue uz cv (-1 - c) j i) ->
      count_label 0 ws l = count_label 0 ws' r /\ count_label 1 ws l = count_label 1 ws' r /\ length l = length r /\ length l' = length r'.
Proof. exact c111_axes. Qed.
Print Assumptions C111_axes.

(** The galaxies of the example of C110 meet the hypotheses of C111: the slower star has circularity 246/511 and normalised
    energy -231/131072, so it lies in the cell from 0.48 to 0.5 and in the last energy bin.  No star rotates the other way,
    and both runs give both stars to the disc. *)
Example EX_C111 : let M := rigid exV_axes 1 (-5) (-10) in
  let cv := [(-1, 0); (-1023 / 524288, 1)] in let o := Part 65536 5 5 5 0 0 0 in let bs := bodies_of 1 0 o exW_stars exW_dark [] in
  orthogonal exV_axes /\
  platform (sm:=seqsum 53 1024 p53 e1024) (sm':=seqsum 24 128 p24 e128) (2 * INR 2) 1 0 (fun n => 2 * INR n) asort n1 (backend_table n1 true junk0) "fortran" fma64 (plain_matmul (S:=F64)) exW_gal exW_stars exW_dark [] /\
  platform (sm:=seqsum 53 1024 p53 e1024) (sm':=seqsum 24 128 p24 e128) (2 * INR 2) 1 0 (fun n => 2 * INR n) asort n1 (backend_table n1 false junk0) "numpy" fma64 (plain_matmul (S:=F64)) exV_gal exV_stars [] exV_dark /\
  Permutation (map M exW_stars) exV_stars /\ Permutation (map M (exW_dark ++ [])) ([] ++ exV_dark) /\
  clear_galaxy 1 0 6 1 (2 * INR 2) o (/ 1000) (99 / 100) (/ 150000) 262144 511 cv exW_stars exW_dark [] /\
  fits_axes 1 0 6 1 (2 * INR 2) (M o) (/ 150000) 262144 511 (map M exW_stars) (map M exW_dark) (map M []) /\
  (forall j b, (j < 2)%nat -> nth_error bs j = Some b ->
    settled ((12 * / 150000 + / IZR (2 ^ 47)) / (99 / 100)) cv 262144 511
      (clearly_lowest (pot_error 3 6 1) (exact_pots 1 0 (exW_stars ++ exW_dark ++ [])) j) b) /\
  bound_first 2 bs /\ bound_first 2 (bodies_of 1 0 (M o) exV_stars [] exV_dark) /\ draws turns /\
  in_box 2 bs 262144 511 cv 24 19 1 /\
  rmap shows (je_analysis (sm:=seqsum 53 1024 p53 e1024) (sm':=seqsum 24 128 p24 e128) asort (backend_table n1 true junk0) "fortran" (plain_matmul (S:=F64)) turns (fun _ => 77%Z) true exW_gal) = Ok [sZ 1; sZ 1; S754_nan] /\
  rmap shows (je_analysis (sm:=seqsum 53 1024 p53 e1024) (sm':=seqsum 24 128 p24 e128) asort (backend_table n1 false junk0) "numpy" (plain_matmul (S:=F64)) turns (fun _ => 77%Z) false exV_gal) = Ok [sZ 1; sZ 1; S754_nan].
Proof. exact ex_c111. Qed.
