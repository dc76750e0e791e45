(** Property theorems. Property lemmas about the whole analysis of a galaxy given in other axes: C110. Proofs are in AxesThms.v. *)
From Verif Require Import SpecPipe SpecFrame FrameThms Py Num RX F64 Np Df Data DataFacts DfFacts RebuildFacts Center CenterFacts Align Spec SpecR SpecCirc SpecAlAcc SpecBase SpecCurve SpecChain SpecFma Dgemm SpecDgemm SpecAcc SpecWhole SpecWhist SpecHist Ex DataThms CenterThms Circ Base Threshold Hist SpecPot Potential PotConcFacts PotThms SpecPotAcc SpecNpAcc Fma AlAccSum AlAccThms NpAccThms CircThms DgemmThms HistThms WholeThms WhistFacts WhistThms SpecAgain AgainThms SpecAxes AxesThms.
From Flocq Require Import Core BinarySingleNaN.
From Coq Require Import Lra Lia Permutation Sorted Floats.SpecFloat.
Local Open Scope R_scope.

(** In other axes (turned or reflected) and with another origin, every particle keeps its exact potential, energy and
    angular momentum along the axis of the stars, and the curve [cv] is that of the image as well. *)
Theorem C110_exact : forall (A : matR) dx dy dz kG s o ls ld lg, orthogonal A -> let M := rigid A dx dy dz in
  exact_pots kG s (map M ls ++ map M ld ++ map M lg) = exact_pots kG s (ls ++ ld ++ lg) /\
  bodies_of kG s (M o) (map M ls) (map M ld) (map M lg) = bodies_of kG s o ls ld lg /\
  forall R0 D k m a d ue uz cv, clear_galaxy kG s R0 D k o m a d ue uz cv ls ld lg ->
    fits_axes kG s R0 D k (M o) d ue uz (map M ls) (map M ld) (map M lg) ->
    clear_galaxy kG s R0 D k (M o) m a d ue uz cv (map M ls) (map M ld) (map M lg).
Proof. exact c110_exact. Qed.
Print Assumptions C110_exact.

(** The whole analysis of one galaxy given in two systems of axes with two origins, in any two orders and on any two
    platforms and backends: each analysis returns if no unbound star precedes a bound one in its own order, and a star
    whose exact label is clear by the margin gets that label in both. *)
Theorem C110_labels : forall (A : matR) dx dy dz sm1 sm1' sm2 sm2' k kG s rt K1 K2 argsort1 argsort2 G1 G2 table1 table2 name1 name2 fma1 fma2 mm1 mm2 cut1 cut2
    (g1 : galaxy (F64s sm1)) (g2 : galaxy (F64s sm2)) junk1 junk2 ls ld lg ls' ld' lg' R0 D o m a d ue uz cv, orthogonal A -> let M := rigid A dx dy dz in
  platform (sm':=sm1') k kG s K1 argsort1 G1 table1 name1 fma1 mm1 g1 ls ld lg ->
  platform (sm':=sm2') k kG s K2 argsort2 G2 table2 name2 fma2 mm2 g2 ls' ld' lg' ->
  val (F64_rounded sm1) cut1 = XR rt -> val (F64_rounded sm2) cut2 = XR rt ->
  Permutation (map M ls) ls' -> Permutation (map M (ld ++ lg)) (ld' ++ lg') ->
  clear_galaxy kG s R0 D k o m a d ue uz cv ls ld lg ->
  fits_axes kG s R0 D k (M o) d ue uz (map M ls) (map M ld) (map M lg) ->
  ((exists ws, analysis argsort1 table1 name1 mm1 junk1 cut1 g1 = Ok ws) <-> bound_first (length ls) (bodies_of kG s o ls ld lg)) /\
  ((exists ws', analysis argsort2 table2 name2 mm2 junk2 cut2 g2 = Ok ws') <-> bound_first (length ls') (bodies_of kG s (M o) ls' ld' lg')) /\
  forall ws ws', analysis argsort1 table1 name1 mm1 junk1 cut1 g1 = Ok ws -> analysis argsort2 table2 name2 mm2 junk2 cut2 g2 = Ok ws' ->
    forall j j' p b l, nth_error ls j = Some p -> nth_error ls' j' = Some (M p) -> nth_error (bodies_of kG s o ls ld lg) j = Some b ->
      decided ((12 * d + / IZR (2 ^ 47)) / a) rt cv ue uz b l -> nth_error ws j = Some (code l) /\ nth_error ws' j' = Some (code l).
Proof. exact c110_labels. Qed.
Print Assumptions C110_labels.

(** With JHistogram and any generators that draw without replacement: if no unbound star precedes a bound one in either
    order and every bound star is settled (C99), both analyses return and give the same numbers of stars of each exact cell
    to the spheroid and to the disc. *)
Theorem C110_cells : forall (A : matR) dx dy dz sm1 sm1' sm2 sm2' k kG s K1 K2 argsort1 argsort2 G1 G2 table1 table2 name1 name2 fma1 fma2 mm1 mm2
    (g1 : galaxy (F64s sm1)) (g2 : galaxy (F64s sm2)) junk1 junk2 ls ld lg ls' ld' lg' R0 D o m a d ue uz cv, orthogonal A -> let M := rigid A dx dy dz in
  platform (sm':=sm1') k kG s K1 argsort1 G1 table1 name1 fma1 mm1 g1 ls ld lg ->
  platform (sm':=sm2') k kG s K2 argsort2 G2 table2 name2 fma2 mm2 g2 ls' ld' lg' ->
  Permutation (map M ls) ls' -> Permutation (map M (ld ++ lg)) (ld' ++ lg') ->
  clear_galaxy kG s R0 D k o m a d ue uz cv ls ld lg ->
  fits_axes kG s R0 D k (M o) d ue uz (map M ls) (map M ld) (map M lg) ->
  (forall j b, (j < length ls)%nat -> nth_error (bodies_of kG s o ls ld lg) j = Some b ->
    settled ((12 * d + / IZR (2 ^ 47)) / a) cv ue uz (clearly_lowest (pot_error (length (ls ++ ld ++ lg)) R0 D) (exact_pots kG s (ls ++ ld ++ lg)) j) b) ->
  bound_first (length ls) (bodies_of kG s o ls ld lg) -> bound_first (length ls') (bodies_of kG s (M o) ls' ld' lg') ->
  forall St1 St2 (choice1 : St1 -> list nat -> nat -> list nat * St1) (choice2 : St2 -> list nat -> nat -> list nat * St2) st1 st2, draws choice1 -> draws choice2 ->
  exists ws ws', hist_analysis argsort1 table1 name1 mm1 choice1 junk1 st1 g1 = Ok ws /\ hist_analysis argsort2 table2 name2 mm2 choice2 junk2 st2 g2 = Ok ws' /\
    forall c l l' r r', (0 <= c < 50)%Z -> NoDup l -> NoDup l' -> NoDup r -> NoDup r' ->
      (forall j, In j l <-> in_cell (length ls) (bodies_of kG s o ls ld lg) ue uz cv c j) -> (forall j, In j l' <-> in_cell (length ls) (bodies_of kG s o ls ld lg) ue uz cv (-1 - c) j) ->
      (forall j, In j r <-> in_cell (length ls') (bodies_of kG s (M o) ls' ld' lg') ue uz cv c j) -> (forall j, In j r' <-> in_cell (length ls') (bodies_of kG s (M o) ls' ld' lg') ue uz cv (-1 - c) j) ->
      count_label 0 ws l = count_label 0 ws' r /\ count_label 1 ws l = count_label 1 ws' r /\
      count_label 0 ws l' = length l' /\ count_label 0 ws' r' = length l'.
Proof. exact c110_cells. Qed.
Print Assumptions C110_cells.

(** Both galaxies, one with the Fortran module and the other with numpy, meet the hypotheses of C110; the slower
    star is decided to be labelled 1 for the cut 1/4, and in both runs it is.  With the cut 9/10 it is labelled 0, as star
    number 1 in the first run and as star number 0 in the second. *)
Example EX_C110 : let M := rigid exV_axes 1 (-5) (-10) in
  let cv := [(-1, 0); (-1023 / 524288, 1)] in let o := Part 65536 5 5 5 0 0 0 in
  orthogonal exV_axes /\
  platform (sm:=seqsum 53 1024 p53 e1024) (sm':=seqsum 24 128 p24 e128) (2 * INR 2) 1 0 (fun n => 2 * INR n) asort n1 (backend_table n1 true junk0) "fortran" fma64 (plain_matmul (S:=F64)) exW_gal exW_stars exW_dark [] /\
  platform (sm:=seqsum 53 1024 p53 e1024) (sm':=seqsum 24 128 p24 e128) (2 * INR 2) 1 0 (fun n => 2 * INR n) asort n1 (backend_table n1 false junk0) "numpy" fma64 (plain_matmul (S:=F64)) exV_gal exV_stars [] exV_dark /\
  Permutation (map M exW_stars) exV_stars /\ Permutation (map M (exW_dark ++ [])) ([] ++ exV_dark) /\
  clear_galaxy 1 0 6 1 (2 * INR 2) o (/ 1000) (99 / 100) (/ 150000) 262144 511 cv exW_stars exW_dark [] /\
  fits_axes 1 0 6 1 (2 * INR 2) (M o) (/ 150000) 262144 511 (map M exW_stars) (map M exW_dark) (map M []) /\
  bound_first 2 (bodies_of 1 0 o exW_stars exW_dark []) /\ bound_first 2 (bodies_of 1 0 (M o) exV_stars [] exV_dark) /\
  nth_error (bodies_of 1 0 o exW_stars exW_dark []) 1 = Some (-462, 246) /\
  decided ((12 * / 150000 + / IZR (2 ^ 47)) / (99 / 100)) (1 / 4) cv 262144 511 (-462, 246) (Some 1%Z) /\
  rmap shows (analysis (sm:=seqsum 53 1024 p53 e1024) (sm':=seqsum 24 128 p24 e128) asort (backend_table n1 false junk0) "numpy" (plain_matmul (S:=F64)) (fun _ => 77%Z) (nlit 1 4) exV_gal) = Ok [sZ 1; sZ 1; S754_nan] /\
  rmap shows (analysis (sm:=seqsum 53 1024 p53 e1024) (sm':=seqsum 24 128 p24 e128) asort (backend_table n1 true junk0) "fortran" (plain_matmul (S:=F64)) (fun _ => 77%Z) (nlit 9 10) exW_gal) = Ok [sZ 1; sZ 0; S754_nan] /\
  rmap shows (analysis (sm:=seqsum 53 1024 p53 e1024) (sm':=seqsum 24 128 p24 e128) asort (backend_table n1 false junk0) "numpy" (plain_matmul (S:=F64)) (fun _ => 77%Z) (nlit 9 10) exV_gal) = Ok [sZ 0; sZ 1; S754_nan] /\
  rmap shows (hist_analysis (sm:=seqsum 53 1024 p53 e1024) (sm':=seqsum 24 128 p24 e128) asort (backend_table n1 false junk0) "numpy" (plain_matmul (S:=F64)) turns (fun _ => 77%Z) false exV_gal) = Ok [sZ 1; sZ 1; S754_nan].
Proof. exact ex_c110. Qed.
