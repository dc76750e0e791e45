(** Specification of two analyses of the same particles, in any order and on any platform (C108). *)
From Flocq Require Import Core.
From Verif Require Import Py Num RX F64 Np Data Center Align Circ Base Threshold Hist Potential Dgemm Spec SpecR SpecAlAcc SpecCirc SpecCurve SpecChain SpecAcc SpecPot SpecFma SpecDgemm SpecNpAcc SpecPotAcc SpecWhole.
Local Open Scope R_scope.

Section Runs.
Context {sm : list f64 -> f64} {sm' : list f32 -> f32}.

(** The analysis of a galaxy without potential: potential, centring, alignment and JThreshold
    with the default bins; its outcome is the list of labels. *)
Definition analysis (argsort : nat -> list (F64s sm) -> list nat) (table : dict (backend (F32s sm'))) (name : string)
  (mm : nat -> mat3 (F64s sm) -> list (F64s sm) -> list (F64s sm) -> list (F64s sm) -> list (F64s sm) * list (F64s sm) * list (F64s sm))
  (junk : nat -> Z) (cut : F64s sm) (g : galaxy (F64s sm)) : res (list (F64s sm)) :=
  do h0 <- potential (W:=F64s sm) (S:=F32s sm') to32 to64 table name g;
  do h1 <- center h0;
  do h2 <- star_align_with mm h1 None;
  do r <- decompose argsort (jthreshold junk (default_bin0, default_bin1) cut) tt h2;
  Ok (c_labels (fst r)).

(** The same with JHistogram, which draws with [choice] from the state [st]. *)
Definition hist_analysis {St} (argsort : nat -> list (F64s sm) -> list nat) (table : dict (backend (F32s sm'))) (name : string)
  (mm : nat -> mat3 (F64s sm) -> list (F64s sm) -> list (F64s sm) -> list (F64s sm) -> list (F64s sm) * list (F64s sm) * list (F64s sm))
  (choice : St -> list nat -> nat -> list nat * St) (junk : nat -> Z) (st : St) (g : galaxy (F64s sm)) : res (list (F64s sm)) :=
  do h0 <- potential (W:=F64s sm) (S:=F32s sm') to32 to64 table name g;
  do h1 <- center h0;
  do h2 <- star_align_with mm h1 None;
  do r <- decompose argsort (jhistogram choice junk (default_bin0, default_bin1) 100 2) st h2;
  Ok (c_labels (fst r)).

(** A platform (order of summation, of equal values and of the products, backend of the potential) and a
    galaxy of the stars [ls], the dark matter [ld] and the gas [lg] without potential. *)
Record platform (k kG s : R) (K : nat -> R) (argsort : nat -> list (F64s sm) -> list nat) (G : F32s sm')
  (table : dict (backend (F32s sm'))) (name : string) (fma : F64s sm -> F64s sm -> F64s sm -> F64s sm)
  (mm : nat -> mat3 (F64s sm) -> list (F64s sm) -> list (F64s sm) -> list (F64s sm) -> list (F64s sm) * list (F64s sm) * list (F64s sm))
  (g : galaxy (F64s sm)) (ls ld lg : list particle) : Prop := {
  pf_sums : sums_well (F64_rounded sm) (/ IZR (2 ^ 53)) K;
  pf_k : K (length ls) <= k;
  pf_fma : fused (F64_rounded sm) fma;
  pf_mm : is_matmul fma mm;
  pf_sort : sorting argsort;
  pf_backend : backend_of G table name;
  pf_G : val (F32_rounded sm') G = XR kG;
  pf_gal : constructible g /\ g_haspot g = false;
  pf_stars : reads_set (F64_rounded sm) (g_stars g) ls;
  pf_dm : reads_set (F64_rounded sm) (g_dm g) ld;
  pf_gas : reads_set (F64_rounded sm) (g_gas g) lg;
  pf_soft : forall so, largest_softening g so -> val (F64_rounded sm) so = XR s }.
End Runs.

(** Exact energies, and angular momenta along the axis of the stars, seen from [o]. *)
Definition bodies_of (kG s : R) (o : particle) (ls ld lg : list particle) : list (R * R) :=
  map2 (whole_body (map (seen_from o) ls)) (map (seen_from o) (ls ++ ld ++ lg)) (exact_pots kG s (ls ++ ld ++ lg)).

(** The exact analysis is clear: the particle [o] has the lowest potential and the curve [cv] with its units
    stands out from the errors, as in C97. *)
Record clear_galaxy (kG s R0 D k : R) (o : particle) (m a d ue uz : R) (cv : list (R * R)) (ls ld lg : list particle) : Prop := {
  cg_G : / IZR (2 ^ 40) <= kG <= IZR (2 ^ 20);
  cg_soft : usual s;
  cg_usual : forall q, In q (ls ++ ld ++ lg) -> 0 < pm q /\ usual (pm q) /\ forall a, In a [px q; py q; pz q] -> ordinary a /\ Rabs a <= R0;
  cg_far : forall i j p q, i <> j -> nth_error (ls ++ ld ++ lg) i = Some p -> nth_error (ls ++ ld ++ lg) j = Some q -> D <= sdist s p q;
  cg_D : / IZR (2 ^ 60) <= D;
  cg_R0 : 0 <= R0 <= IZR (2 ^ 19) * D;
  cg_len : INR (length (ls ++ ld ++ lg)) <= IZR (2 ^ 22);
  cg_low : exists i, clearly_lowest (pot_error (length (ls ++ ld ++ lg)) R0 D) (exact_pots kG s (ls ++ ld ++ lg)) i /\ nth_error (ls ++ ld ++ lg) i = Some o;
  cg_spin : strong_spin (/ IZR (2 ^ 53)) k (map (seen_from o) ls);
  cg_within : forall q, In q (map (seen_from o) (ld ++ lg)) -> SpecChain.within q;
  cg_d : 0 <= d /\ 16 * d + / IZR (2 ^ 44) <= m;
  cg_resolved : forall q x, In (q, x) (combine (map (seen_from o) (ls ++ ld ++ lg)) (exact_pots kG s (ls ++ ld ++ lg))) ->
    resolved (/ IZR (2 ^ 53)) k (pot_error (length (ls ++ ld ++ lg)) R0 D) (map (seen_from o) ls) d ue uz q x;
  cg_curve : exact_curve m edgesR (bodies_of kG s o ls ld lg) ue uz cv;
  cg_gentle : 0 < a <= 1 /\ gentle a cv }.

(** The exact rule gives a star with energy and angular momentum [b] the label [l] (none: NaN), clear by the margin [t]. *)
Definition decided (t rt : R) (cv : list (R * R)) (ue uz : R) (b : R * R) (l : option Z) : Prop :=
  exists c, interpolates cv (fst b / ue) c /\
    (l = None /\ (0 < fst b \/ fst b < 0 /\ c + t < Rabs (snd b / uz)) \/
     l = Some 1%Z /\ fst b < 0 /\ Rabs (snd b / uz) < c - t /\ rt * c + (1 + Rabs rt) * t < snd b / uz \/
     l = Some 0%Z /\ fst b < 0 /\ Rabs (snd b / uz) < c - t /\ snd b / uz < rt * c - (1 + Rabs rt) * t).
(** The number written for a label. *)
Definition code {N : Num} (l : option Z) : N := match l with None => nnan | Some z => nofZ z end.
