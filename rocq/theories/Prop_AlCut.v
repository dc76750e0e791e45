(** Property theorems. The accuracy of the alignment with a cut-off radius: C68. Proofs are in AlCutThms.v. *)
From Verif Require Import Py Num RX F64 Np Df Data DataFacts Center CenterFacts Align Spec Ex DataThms CenterThms AlignFacts AlignThms SpecR SpecAlAcc AlAccFacts AlAccRot AlAccSum AlAccThms AlCutThms.
From Flocq Require Import Core BinarySingleNaN.
From Coq Require Import Lra Lia.
Local Open Scope R_scope.

(** With a cut-off radius (at least 2^-90) from which every star keeps a distance of 20000 units of rounding, and a clear
    direction of rotation of the stars inside: star_align turns every particle by one rotation up to 800 units of rounding,
    the same stars are inside afterwards, and their angular momentum points along z. *)
Theorem C68_cut : forall (S : Num) (RS : Rounded S) u K, graceful RS u -> 0 < u -> u <= bpow radix2 (-40) -> sums_well RS u K ->
  forall (g : galaxy S) ls ld lg (r : S) c, constructible g -> val RS r = XR c -> bpow radix2 (-90) <= c ->
  reads_set RS (g_stars g) ls -> reads_set RS (g_dm g) ld -> reads_set RS (g_gas g) lg ->
  (forall q, In q ls \/ In q ld \/ In q lg -> bounded q) -> (forall q, In q ls -> 20000 * u * rad q < Rabs (rad q - c)) ->
  let ins := filter (inside (Some (XR c))) ls in clear_spin u (K (length ins)) ins ->
  exists h M ls' ld' lg', star_align g (Some r) = Ok h /\ rotation M /\
    reads_set RS (g_stars h) ls' /\ reads_set RS (g_dm h) ld' /\ reads_set RS (g_gas h) lg' /\
    Forall2 (turned_near u M) ls ls' /\ Forall2 (turned_near u M) ld ld' /\ Forall2 (turned_near u M) lg lg' /\
    Forall2 (fun q q' => inside (Some (XR c)) q = inside (Some (XR c)) q') ls ls' /\
    (let err := 50 * (K (length ins) + 1000) * u * weights ins in
     Rabs (LX (Some (XR c)) ls') <= err /\ Rabs (LY (Some (XR c)) ls') <= err /\
     Rabs (LZ (Some (XR c)) ls' - Lnorm (Some (XR c)) ls) <= err).
Proof. exact c68_cut. Qed.
Print Assumptions C68_cut.

(** Such a galaxy is found aligned, with the same cut-off. *)
Theorem C68_cut_aligned : forall (S : Num) (RS : Rounded S) u K, graceful RS u -> 0 < u -> u <= bpow radix2 (-40) -> sums_well RS u K ->
  forall (g : galaxy S) ls (r : S) c (rtol atol : S) rt at', constructible g -> val RS r = XR c -> bpow radix2 (-90) <= c ->
  reads_set RS (g_stars g) ls -> (forall q, In q ls -> bounded q /\ 20000 * u * rad q < Rabs (rad q - c)) ->
  (let ins := filter (inside (Some (XR c))) ls in clear_spin u (K (length ins)) ins) ->
  val RS rtol = XR rt -> / 1000000 <= rt -> val RS atol = XR at' -> 0 <= at' ->
  exists h, star_align g (Some r) = Ok h /\ is_star_aligned h (Some r) rtol atol = Ok true.
Proof. exact c68_cut_aligned. Qed.
Print Assumptions C68_cut_aligned.

Example EX_C68_cut :
  (let RS := F64_rounded (seqsum 53 1024 p53 e1024) in let u := / IZR (2 ^ 53) in
   val RS (fZ 5) = XR 5 /\ bpow radix2 (-90) <= 5 /\ reads_set RS (g_stars exU_gal) exU_stars /\
   (forall q, In q exU_stars -> bounded q /\ 20000 * u * rad q < Rabs (rad q - 5)) /\
   filter (inside (Some (XR 5))) exU_stars = exT_stars /\ clear_spin u (2 * INR 2) exT_stars) /\
  constructible exU_gal /\
  (do h <- star_align exU_gal (Some (fZ 5)); is_star_aligned h (Some (fZ 5)) (nlit 1 100000) (nlit 1 100000000)) = Ok true /\
  (do h <- star_align exU_gal (Some (fZ 5)); is_star_aligned h None (nlit 1 100000) (nlit 1 100000000)) = Ok false /\
  is_star_aligned exU_gal (Some (fZ 5)) (nlit 1 100000) (nlit 1 100000000) = Ok false.
Proof. exact ex_c68_cut. Qed.

(** A star too close to the cut-off may be inside before the alignment and outside after it, and then the galaxy is not
    found aligned: here one star of two, at (1, 1, 1), with the cut-off next to its distance. *)
Theorem C68_edge_refuted : exists (g h : galaxy F64) r, constructible g /\ star_align g (Some r) = Ok h /\
  length (near (Some r) (g_stars g)) = 2%nat /\ length (near (Some r) (g_stars h)) = 1%nat /\
  is_star_aligned h (Some r) (nlit 1 100000) (nlit 1 100000000) = Ok false.
Proof. exact c68_edge_refuted. Qed.
Print Assumptions C68_edge_refuted.
