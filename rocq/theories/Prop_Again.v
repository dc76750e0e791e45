(** Property theorems. Property lemmas about two analyses of the same particles: C108. Proofs are in AgainThms.v. *)
From Verif Require Import Py Num RX F64 Np Df Data DataFacts DfFacts RebuildFacts Center CenterFacts Align Spec SpecR SpecCirc SpecAlAcc SpecBase SpecCurve SpecChain SpecFma Dgemm SpecDgemm SpecAcc SpecWhole SpecWhist SpecHist Ex DataThms CenterThms Circ Base Threshold Hist SpecPot Potential PotConcFacts PotThms SpecPotAcc SpecNpAcc Fma AlAccSum AlAccThms NpAccThms CircThms DgemmThms HistThms WholeThms WhistFacts WhistThms SpecAgain AgainThms.
From Flocq Require Import Core BinarySingleNaN.
From Coq Require Import Lra Lia Permutation Sorted Floats.SpecFloat.
Local Open Scope R_scope.

(** Two analyses of the same particles, with the stars in another order and the dark matter and the gas in another
    order or exchanged, on any two platforms and backends: each returns if no unbound star
    precedes a bound one in its own order, and a star whose exact label is clear by the margin gets that label in both. *)
Theorem C108_labels : forall sm1 sm1' sm2 sm2' k kG s rt K1 K2 argsort1 argsort2 G1 G2 table1 table2 name1 name2 fma1 fma2 mm1 mm2 cut1 cut2
    (g1 : galaxy (F64s sm1)) (g2 : galaxy (F64s sm2)) junk1 junk2 ls ld lg ls' ld' lg' R0 D o m a d ue uz cv,
  platform (sm':=sm1') k kG s K1 argsort1 G1 table1 name1 fma1 mm1 g1 ls ld lg ->
  platform (sm':=sm2') k kG s K2 argsort2 G2 table2 name2 fma2 mm2 g2 ls' ld' lg' ->
  val (F64_rounded sm1) cut1 = XR rt -> val (F64_rounded sm2) cut2 = XR rt ->
  Permutation ls ls' -> Permutation (ld ++ lg) (ld' ++ lg') ->
  clear_galaxy kG s R0 D k o m a d ue uz cv ls ld lg ->
  ((exists ws, analysis argsort1 table1 name1 mm1 junk1 cut1 g1 = Ok ws) <-> bound_first (length ls) (bodies_of kG s o ls ld lg)) /\
  ((exists ws', analysis argsort2 table2 name2 mm2 junk2 cut2 g2 = Ok ws') <-> bound_first (length ls') (bodies_of kG s o ls' ld' lg')) /\
  forall ws ws', analysis argsort1 table1 name1 mm1 junk1 cut1 g1 = Ok ws -> analysis argsort2 table2 name2 mm2 junk2 cut2 g2 = Ok ws' ->
    forall j j' p b l, nth_error ls j = Some p -> nth_error ls' j' = Some p -> nth_error (bodies_of kG s o ls ld lg) j = Some b ->
      decided ((12 * d + / IZR (2 ^ 47)) / a) rt cv ue uz b l -> nth_error ws j = Some (code l) /\ nth_error ws' j' = Some (code l).
Proof. exact c108_labels. Qed.
Print Assumptions C108_labels.

(** With JHistogram and any generators that draw without replacement: if no unbound star precedes a bound one in either
    order and every bound star is settled (C99), both analyses return and give the same numbers of stars of each exact cell
    to the spheroid and to the disc. *)
Theorem C108_cells : forall sm1 sm1' sm2 sm2' k kG s K1 K2 argsort1 argsort2 G1 G2 table1 table2 name1 name2 fma1 fma2 mm1 mm2
    (g1 : galaxy (F64s sm1)) (g2 : galaxy (F64s sm2)) junk1 junk2 ls ld lg ls' ld' lg' R0 D o m a d ue uz cv,
  platform (sm':=sm1') k kG s K1 argsort1 G1 table1 name1 fma1 mm1 g1 ls ld lg ->
  platform (sm':=sm2') k kG s K2 argsort2 G2 table2 name2 fma2 mm2 g2 ls' ld' lg' ->
  Permutation ls ls' -> Permutation (ld ++ lg) (ld' ++ lg') ->
  clear_galaxy kG s R0 D k o m a d ue uz cv ls ld lg ->
  (forall j b, (j < length ls)%nat -> nth_error (bodies_of kG s o ls ld lg) j = Some b ->
    settled ((12 * d + / IZR (2 ^ 47)) / a) cv ue uz (clearly_lowest (pot_error (length (ls ++ ld ++ lg)) R0 D) (exact_pots kG s (ls ++ ld ++ lg)) j) b) ->
  bound_first (length ls) (bodies_of kG s o ls ld lg) -> bound_first (length ls') (bodies_of kG s o ls' ld' lg') ->
  forall St1 St2 (choice1 : St1 -> list nat -> nat -> list nat * St1) (choice2 : St2 -> list nat -> nat -> list nat * St2) st1 st2, draws choice1 -> draws choice2 ->
  exists ws ws', hist_analysis argsort1 table1 name1 mm1 choice1 junk1 st1 g1 = Ok ws /\ hist_analysis argsort2 table2 name2 mm2 choice2 junk2 st2 g2 = Ok ws' /\
    forall c l l' r r', (0 <= c < 50)%Z -> NoDup l -> NoDup l' -> NoDup r -> NoDup r' ->
      (forall j, In j l <-> in_cell (length ls) (bodies_of kG s o ls ld lg) ue uz cv c j) -> (forall j, In j l' <-> in_cell (length ls) (bodies_of kG s o ls ld lg) ue uz cv (-1 - c) j) ->
      (forall j, In j r <-> in_cell (length ls') (bodies_of kG s o ls' ld' lg') ue uz cv c j) -> (forall j, In j r' <-> in_cell (length ls') (bodies_of kG s o ls' ld' lg') ue uz cv (-1 - c) j) ->
      count_label 0 ws l = count_label 0 ws' r /\ count_label 1 ws l = count_label 1 ws' r /\
      count_label 0 ws l' = length l' /\ count_label 0 ws' r' = length l'.
Proof. exact c108_cells. Qed.
Print Assumptions C108_cells.

(** Both galaxies, one with the Fortran module and the other with numpy, meet the hypotheses of C108; the slower star
    is decided to be labelled 1 for the cut 1/4, and in both runs it is.  In the first run it is
    star number 1, in the second one star number 0. *)
Example EX_C108 : let RS := F64_rounded (seqsum 53 1024 p53 e1024) in
  let cv := [(-1, 0); (-1023 / 524288, 1)] in let o := Part 65536 5 5 5 0 0 0 in
  platform (sm:=seqsum 53 1024 p53 e1024) (sm':=seqsum 24 128 p24 e128) (2 * INR 2) 1 0 (fun n => 2 * INR n) asort n1 (backend_table n1 true junk0) "fortran" fma64 (plain_matmul (S:=F64)) exW_gal exW_stars exW_dark [] /\
  platform (sm:=seqsum 53 1024 p53 e1024) (sm':=seqsum 24 128 p24 e128) (2 * INR 2) 1 0 (fun n => 2 * INR n) asort n1 (backend_table n1 false junk0) "numpy" fma64 (plain_matmul (S:=F64)) exA_gal exA_stars [] exW_dark /\
  Permutation exW_stars exA_stars /\ Permutation (exW_dark ++ []) ([] ++ exW_dark) /\
  clear_galaxy 1 0 6 1 (2 * INR 2) o (/ 1000) (99 / 100) (/ 150000) 262144 511 cv exW_stars exW_dark [] /\
  bound_first 2 (bodies_of 1 0 o exW_stars exW_dark []) /\ bound_first 2 (bodies_of 1 0 o exA_stars [] exW_dark) /\
  nth_error (bodies_of 1 0 o exW_stars exW_dark []) 1 = Some (-462, 246) /\
  decided ((12 * / 150000 + / IZR (2 ^ 47)) / (99 / 100)) (1 / 4) cv 262144 511 (-462, 246) (Some 1%Z) /\
  rmap shows (analysis (sm:=seqsum 53 1024 p53 e1024) (sm':=seqsum 24 128 p24 e128) asort (backend_table n1 true junk0) "fortran" (plain_matmul (S:=F64)) (fun _ => 77%Z) (nlit 1 4) exW_gal) = Ok [sZ 1; sZ 1; S754_nan] /\
  rmap shows (analysis (sm:=seqsum 53 1024 p53 e1024) (sm':=seqsum 24 128 p24 e128) asort (backend_table n1 false junk0) "numpy" (plain_matmul (S:=F64)) (fun _ => 77%Z) (nlit 9 10) exW_gal) = Ok [sZ 1; sZ 0; S754_nan] /\
  rmap shows (analysis (sm:=seqsum 53 1024 p53 e1024) (sm':=seqsum 24 128 p24 e128) asort (backend_table n1 false junk0) "numpy" (plain_matmul (S:=F64)) (fun _ => 77%Z) (nlit 9 10) exA_gal) = Ok [sZ 0; sZ 1; S754_nan].
Proof. exact ex_c108. Qed.

(** The two stars are settled: the faster one is a point of the curve and the slower one lies inside its cell.  The
    runs with JHistogram label both 1, in either order. *)
Example EX_C108_cells : let cv := [(-1, 0); (-1023 / 524288, 1)] in let o := Part 65536 5 5 5 0 0 0 in
  (forall j b, (j < 2)%nat -> nth_error (bodies_of 1 0 o exW_stars exW_dark []) j = Some b ->
    settled ((12 * / 150000 + / IZR (2 ^ 47)) / (99 / 100)) cv 262144 511
      (clearly_lowest (pot_error 3 6 1) (exact_pots 1 0 (exW_stars ++ exW_dark ++ [])) j) b) /\
  draws turns /\
  rmap shows (hist_analysis (sm:=seqsum 53 1024 p53 e1024) (sm':=seqsum 24 128 p24 e128) asort (backend_table n1 true junk0) "fortran" (plain_matmul (S:=F64)) turns (fun _ => 77%Z) true exW_gal) = Ok [sZ 1; sZ 1; S754_nan] /\
  rmap shows (hist_analysis (sm:=seqsum 53 1024 p53 e1024) (sm':=seqsum 24 128 p24 e128) asort (backend_table n1 false junk0) "numpy" (plain_matmul (S:=F64)) turns (fun _ => 77%Z) false exA_gal) = Ok [sZ 1; sZ 1; S754_nan].
Proof. exact ex_c108_cells. Qed.
