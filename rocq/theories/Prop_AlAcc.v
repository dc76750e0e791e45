(** Property theorems. Property lemmas about the accuracy of the alignment: C68. Proofs are in AlAccThms.v. *)
From Verif Require Import Py Num RX F64 Np Df Data DataFacts Center Align Spec Ex DataThms CenterThms AlignFacts AlignThms SpecR SpecAlAcc AlAccFacts AlAccRot AlAccSum AlAccThms.
From Flocq Require Import Core BinarySingleNaN.
From Coq Require Import Lra Lia.
Local Open Scope R_scope.

(** In floating point, star_align turns every particle by one rotation up to 800 units of rounding
    of its largest coordinate, and the angular momentum of the turned stars, computed without error,
    points along z up to [50 (k + 1000)] units of rounding of the sum of mass times position times
    velocity. *)
Theorem C68_turned : forall (S : Num) (RS : Rounded S) u K, graceful RS u -> 0 < u -> u <= bpow radix2 (-40) -> sums_well RS u K ->
  forall (g : galaxy S) ls ld lg, constructible g ->
  reads_set RS (g_stars g) ls -> reads_set RS (g_dm g) ld -> reads_set RS (g_gas g) lg ->
  (forall q, In q ld \/ In q lg -> bounded q) -> clear_spin u (K (length ls)) ls ->
  exists h M ls' ld' lg', star_align g None = Ok h /\ rotation M /\
    reads_set RS (g_stars h) ls' /\ reads_set RS (g_dm h) ld' /\ reads_set RS (g_gas h) lg' /\
    Forall2 (turned_near u M) ls ls' /\ Forall2 (turned_near u M) ld ld' /\ Forall2 (turned_near u M) lg lg' /\
    (let err := 50 * (K (length ls) + 1000) * u * weights ls in
     Rabs (LX None ls') <= err /\ Rabs (LY None ls') <= err /\ Rabs (LZ None ls' - Lnorm None ls) <= err).
Proof. exact c68_turned. Qed.
Print Assumptions C68_turned.

(** A galaxy whose stars have a clear direction of rotation is found aligned after star_align, for
    every relative tolerance of at least 10^-6 and every absolute tolerance that is not negative. *)
Theorem C68_aligned : forall (S : Num) (RS : Rounded S) u K, graceful RS u -> 0 < u -> u <= bpow radix2 (-40) -> sums_well RS u K ->
  forall (g : galaxy S) ls (rtol atol : S) rt at', constructible g -> reads_set RS (g_stars g) ls -> clear_spin u (K (length ls)) ls ->
  val RS rtol = XR rt -> / 1000000 <= rt -> val RS atol = XR at' -> 0 <= at' ->
  exists h, star_align g None = Ok h /\ is_star_aligned h None rtol atol = Ok true.
Proof. exact c68_aligned. Qed.
Print Assumptions C68_aligned.

(** Double precision, adding one number after the other, is such an arithmetic. *)
Theorem C68_double : let RS := F64_rounded (seqsum 53 1024 p53 e1024) in let u := / IZR (2 ^ 53) in
  graceful RS u /\ 0 < u /\ u <= bpow radix2 (-40) /\ sums_well RS u (fun n => 2 * INR n).
Proof. exact c68_double. Qed.
Print Assumptions C68_double.

(** In particular in double precision with the default tolerances. *)
Theorem C68_default : forall (g : galaxy F64) ls, constructible g -> reads_set (F64_rounded (seqsum 53 1024 p53 e1024)) (g_stars g) ls ->
  clear_spin (/ IZR (2 ^ 53)) (2 * INR (length ls)) ls ->
  exists h, star_align g None = Ok h /\ is_star_aligned h None (nlit 1 100000) (nlit 1 100000000) = Ok true.
Proof. exact c68_default. Qed.
Print Assumptions C68_default.

(** The two stars meet the hypotheses; the galaxy is found aligned with the default tolerances. *)
Example EX_C68 : clear_spin (/ IZR (2 ^ 53)) (2 * INR 2) exT_stars /\
  (let RS := F64_rounded (seqsum 53 1024 p53 e1024) in
   reads_set RS (g_stars exT_gal) exT_stars /\ reads_set RS (g_dm exT_gal) [Part 2 3 4 5 6 7 8] /\ reads_set RS (g_gas exT_gal) []) /\
  constructible exT_gal /\
  (do h <- star_align exT_gal None; is_star_aligned h None (nlit 1 100000) (nlit 1 100000000)) = Ok true /\
  is_star_aligned exT_gal None (nlit 1 100000) (nlit 1 100000000) = Ok false.
Proof. exact ex_c68. Qed.

(** Without a clear direction it fails: a star that moves (up to rounding) straight outwards is not
    found aligned after star_align, with the default tolerances 10^-5 and 10^-8, although every number
    is finite. *)
Theorem C68_every_refuted : exists g h : galaxy F64, constructible g /\ star_align g None = Ok h /\
  forallb nfin (p_x (g_stars h) ++ p_y (g_stars h) ++ p_z (g_stars h) ++ p_vx (g_stars h) ++ p_vy (g_stars h) ++ p_vz (g_stars h)) = true /\
  is_star_aligned h None (nlit 1 100000) (nlit 1 100000000) = Ok false.
Proof. exact c68_every_refuted. Qed.
Print Assumptions C68_every_refuted.
