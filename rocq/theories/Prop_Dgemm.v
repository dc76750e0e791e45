(** Property theorems. Property lemmas about alignment with any matrix product: C94. Proofs are in DgemmThms.v. *)
From Verif Require Import Py Num RX F64 Np Df Data DataFacts DfFacts RebuildFacts Center Align Spec Ex DataThms CenterFacts CenterThms AlignFacts AlignThms SpecR SpecAlAcc AlAccFacts AlAccRot AlAccSum AlAccThms SpecCirc SpecChain ChainFacts ChainThms SpecFma Dgemm SpecDgemm DgemmThms.
From Flocq Require Import Core BinarySingleNaN.
From Coq Require Import Lra Lia Permutation.
Local Open Scope R_scope.

(** With any matrix product, star_align raises ValueError exactly for a cut-off that compares [<= 0], and
    otherwise returns a galaxy with everything but positions and velocities as before. *)
Theorem C94_frame : forall (S : Num) fma mm, is_matmul (S:=S) fma mm -> forall (g : galaxy S) c, constructible g ->
  (star_align_with mm g c = Raise ValueError <-> exists v, c = Some v /\ nle v n0 = true) /\
  ((exists h, star_align_with mm g c = Ok h) <-> forall v, c = Some v -> nle v n0 = false) /\
  forall h, star_align_with mm g c = Ok h -> constructible h /\ g_haspot h = g_haspot g /\ Forall2 same_but_phase (sets g) (sets h).
Proof. exact c94_frame. Qed.
Print Assumptions C94_frame.

(** The products of Align.v are one case, those of a BLAS with fused operations another. *)
Theorem C94_plain : forall (S : Num) (fma : S -> S -> S -> S),
  is_matmul fma plain_matmul /\ is_matmul fma (fused_matmul fma) /\
  forall (g : galaxy S) c, constructible g -> star_align_with plain_matmul g c = star_align g c.
Proof. exact c94_plain. Qed.
Print Assumptions C94_plain.

(** C68 whichever matrix product is used: every particle is turned by one rotation up to 800 units of
    rounding of its largest coordinate, and the angular momentum of the turned stars points along z up to
    the same error. *)
Theorem C94_turned : forall (S : Num) (RS : Rounded S) u K, graceful RS u -> 0 < u -> u <= bpow radix2 (-40) -> sums_well RS u K ->
  forall fma mm, fused RS fma -> is_matmul fma mm ->
  forall (g : galaxy S) ls ld lg, constructible g ->
  reads_set RS (g_stars g) ls -> reads_set RS (g_dm g) ld -> reads_set RS (g_gas g) lg ->
  (forall q, In q ld \/ In q lg -> bounded q) -> clear_spin u (K (length ls)) ls ->
  exists h M ls' ld' lg', star_align_with mm g None = Ok h /\ constructible h /\ rotation M /\
    reads_set RS (g_stars h) ls' /\ reads_set RS (g_dm h) ld' /\ reads_set RS (g_gas h) lg' /\
    Forall2 (turned_near u M) ls ls' /\ Forall2 (turned_near u M) ld ld' /\ Forall2 (turned_near u M) lg lg' /\
    (let err := 50 * (K (length ls) + 1000) * u * weights ls in
     Rabs (LX None ls') <= err /\ Rabs (LY None ls') <= err /\ Rabs (LZ None ls' - Lnorm None ls) <= err).
Proof. exact c94_turned. Qed.
Print Assumptions C94_turned.

(** ... and the result is found aligned, with tolerances as in C68. *)
Theorem C94_aligned : forall (S : Num) (RS : Rounded S) u K, graceful RS u -> 0 < u -> u <= bpow radix2 (-40) -> sums_well RS u K ->
  forall fma mm, fused RS fma -> is_matmul fma mm ->
  forall (g : galaxy S) ls (rtol atol : S) rt at', constructible g -> reads_set RS (g_stars g) ls -> clear_spin u (K (length ls)) ls ->
  val RS rtol = XR rt -> / 1000000 <= rt -> val RS atol = XR at' -> 0 <= at' ->
  exists h, star_align_with mm g None = Ok h /\ is_star_aligned h None rtol atol = Ok true.
Proof. exact c94_aligned. Qed.
Print Assumptions C94_aligned.

(** Centring and then aligning with any matrix product, as C93. *)
Theorem C94_chain : forall (S : Num) (RS : Rounded S) u K, graceful RS u -> bpow radix2 (-100) <= u -> u <= bpow radix2 (-40) -> sums_well RS u K ->
  forall fma mm, fused RS fma -> is_matmul fma mm ->
  forall (g h1 : galaxy S) ls ld lg, constructible g ->
  reads_set RS (g_stars g) ls -> reads_set RS (g_dm g) ld -> reads_set RS (g_gas g) lg -> center g = Ok h1 ->
  exists i o, lowest g i /\ nth_error (ls ++ ld ++ lg) i = Some o /\
    (let seen := map (seen_from o) in let k := K (length ls) in
     strong_spin u k (seen ls) -> (forall q, In q (seen ld) \/ In q (seen lg) -> within q) ->
     exists h2, star_align_with mm h1 None = Ok h2 /\ constructible h2 /\
       set_near RS u k (seen ls) (g_stars h2) (seen ls) /\ set_near RS u k (seen ls) (g_dm h2) (seen ld) /\
       set_near RS u k (seen ls) (g_gas h2) (seen lg)).
Proof. exact c94_chain. Qed.
Print Assumptions C94_chain.

(** In exact arithmetic it makes no difference which matrix product is used. *)
Theorem C94_exact : forall fma mm, fused RX_rounded fma -> is_matmul (S:=RX) fma mm ->
  forall (g : galaxy RX) c ls ld lg, alignable g c ls ld lg -> star_align_with mm g c = star_align g c.
Proof. exact c94_exact. Qed.
Print Assumptions C94_exact.

(** The fused operation of double precision rounds once. *)
Theorem C94_fma64 : forall sm, fused (F64_rounded sm) fma64.
Proof. exact c94_fma64. Qed.
Print Assumptions C94_fma64.

(** In particular in double precision, with fused operations wherever the library has them. *)
Theorem C94_double : forall mm, is_matmul (S:=F64) fma64 mm -> forall (g h1 : galaxy F64) ls ld lg, constructible g ->
  let RS := F64_rounded (seqsum 53 1024 p53 e1024) in let u := / IZR (2 ^ 53) in let k := 2 * INR (length ls) in
  reads_set RS (g_stars g) ls -> reads_set RS (g_dm g) ld -> reads_set RS (g_gas g) lg -> center g = Ok h1 ->
  exists i o, lowest g i /\ nth_error (ls ++ ld ++ lg) i = Some o /\
    (let seen := map (seen_from o) in
     strong_spin u k (seen ls) -> (forall q, In q (seen ld) \/ In q (seen lg) -> within q) ->
     exists h2, star_align_with mm h1 None = Ok h2 /\ constructible h2 /\
       set_near RS u k (seen ls) (g_stars h2) (seen ls) /\ set_near RS u k (seen ls) (g_dm h2) (seen ld) /\
       set_near RS u k (seen ls) (g_gas h2) (seen lg)).
Proof. exact c94_double. Qed.
Print Assumptions C94_double.

(** So the galaxy returned depends on the library. *)
Theorem C94_bits_refuted : exists mm (g h k : galaxy F64), is_matmul (S:=F64) fma64 mm /\ constructible g /\
  star_align g None = Ok h /\ star_align_with mm g None = Ok k /\ p_vx (g_dm k) <> p_vx (g_dm h).
Proof. exact c94_bits_refuted. Qed.
Print Assumptions C94_bits_refuted.

(** The hypotheses are met by the kernels with fused operations and the galaxy of C93; both stars get an
    angular momentum along z near sqrt 2. *)
Example EX_C94 : is_matmul (S:=F64) fma64 (fused_matmul (S:=F64) fma64) /\ constructible exC_gal /\
  (let RS := F64_rounded (seqsum 53 1024 p53 e1024) in
   reads_set RS (g_stars exC_gal) exC_stars /\ reads_set RS (g_dm exC_gal) exC_dark /\ reads_set RS (g_gas exC_gal) []) /\
  map (seen_from (Part 9 5 5 5 6 7 8)) exC_stars = exT_stars /\ strong_spin (/ IZR (2 ^ 53)) (2 * INR 2) exT_stars /\
  clear_spin (/ IZR (2 ^ 53)) (2 * INR 2) exT_stars /\
  (do h1 <- center exC_gal; do h2 <- star_align_with (fused_matmul (S:=F64) fma64) h1 None;
   Ok (map (fun x => andb (nlt (nlit 141421 100000) x) (nlt x (nlit 141422 100000))) (p_Jz (g_stars h2)))) = Ok [true; true].
Proof. exact ex_c94. Qed.
