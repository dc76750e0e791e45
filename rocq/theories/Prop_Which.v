(** Property theorems. Property lemmas about the particle in the centre and infinite values: C95. Proofs are in WhichThms.v. *)
From Verif Require Import Py Num RX F64 Np Df Data DataFacts DfFacts RebuildFacts Center Align Spec Ex DataThms CenterFacts CenterThms AlignFacts AlignThms SpecWhich SpecR WhichThms.
From Flocq Require Import Core BinarySingleNaN.
From Coq Require Import Lra Lia.

(** There is at most one such particle. *)
Theorem C95_unique : forall (N : Num) (g : galaxy N) i j, centre g i -> centre g j -> i = j.
Proof. exact c95_unique. Qed.
Print Assumptions C95_unique.

(** [center] works for every galaxy with potential and at least one particle, and moves that particle
    -- ties, missing and infinite potentials included -- to the origin. *)
Theorem C95_center : forall (N : Num) (RN : Rounded N) (g : galaxy N), constructible g -> g_haspot g = true -> all_x g <> [] ->
  exists h i x0 y0 z0, center g = Ok h /\ centre g i /\
    nth_error (all_x g) i = Some x0 /\ nth_error (all_y g) i = Some y0 /\ nth_error (all_z g) i = Some z0 /\
    moved (fun a => a - x0)%num (fun a => a - y0)%num (fun a => a - z0)%num g h.
Proof. exact c95_center. Qed.
Print Assumptions C95_center.

(** [is_centered] says True exactly when that particle has three finite coordinates of at most [atol]
    in absolute value; a finite [rtol] makes no difference. *)
Theorem C95_centered : forall (N : Num) (RN : Rounded N) (g : galaxy N) i x y z (rtol atol : N) t, constructible g -> g_haspot g = true ->
  centre g i -> nth_error (all_x g) i = Some x -> nth_error (all_y g) i = Some y -> nth_error (all_z g) i = Some z ->
  nfin rtol = true -> val RN atol = XR t ->
  exists b, is_centered g rtol atol = Ok b /\
    (b = true <-> forall a, In a [x; y; z] -> exists r, val RN a = XR r /\ (Rabs r <= t)%R).
Proof. exact c95_centered. Qed.
Print Assumptions C95_centered.

(** [is_star_aligned] when a component of the total angular momentum is infinite or NaN: True exactly
    when the z component is plus infinity and the others are not NaN, whatever the tolerances. *)
Theorem C95_aligned : forall (N : Num) (RN : Rounded N) (g : galaxy N) c rtol atol, constructible g ->
  let jx := nsum (map (fun s => s_jx s * s_m s)%num (near c (g_stars g))) in
  let jy := nsum (map (fun s => s_jy s * s_m s)%num (near c (g_stars g))) in
  let jz := nsum (map (fun s => s_jz s * s_m s)%num (near c (g_stars g))) in
  nfin jx = false \/ nfin jy = false \/ nfin jz = false ->
  exists b, is_star_aligned g c rtol atol = Ok b /\
    (b = true <-> val RN jz = XPInf /\ nisnan jx = false /\ nisnan jy = false).
Proof. exact c95_aligned. Qed.
Print Assumptions C95_aligned.

(** The default tolerances, in exact arithmetic: [is_centered] allows 10^-8 in each coordinate,
    [is_star_aligned] a z component that falls short of the total by 10^-8 plus 10^-5 of the total. *)
Theorem C95_defaults : forall (g : galaxy RX), constructible g ->
  (forall i x y z, g_haspot g = true -> centre g i -> nth_error (all_x g) i = Some x -> nth_error (all_y g) i = Some y -> nth_error (all_z g) i = Some z ->
     exists b, is_centered g default_rtol default_atol = Ok b /\
       (b = true <-> forall a, In a [x; y; z] -> exists r, a = XR r /\ (Rabs r <= / 100000000)%R)) /\
  (forall c ls, holds (g_stars g) ls ->
     exists b, is_star_aligned g c default_rtol default_atol = Ok b /\
       (b = true <-> (Lnorm c ls - LZ c ls <= / 100000000 + / 100000 * Lnorm c ls)%R)).
Proof. exact c95_defaults. Qed.
Print Assumptions C95_defaults.

(** An angular momentum exactly along z can be found not aligned: its square is beyond the range of
    double precision. *)
Theorem C95_overflow_refuted : exists g : galaxy F64, constructible g /\
  nsum (map (fun s => s_jx s * s_m s)%num (near None (g_stars g))) = n0 /\
  nsum (map (fun s => s_jy s * s_m s)%num (near None (g_stars g))) = n0 /\
  nfin (nsum (map (fun s => s_jz s * s_m s)%num (near None (g_stars g)))) = true /\
  nlt n0 (nsum (map (fun s => s_jz s * s_m s)%num (near None (g_stars g)))) = true /\
  is_star_aligned g None (nlit 1 100000) (nlit 1 100000000) = Ok false.
Proof. exact c95_overflow_refuted. Qed.
Print Assumptions C95_overflow_refuted.

(** Two particles of equal potential: the first is in the centre.  Without any known potential the
    last is.  An infinite angular momentum along z counts as aligned. *)
Example EX_C95 :
  (let g := mkGal (exW_set STARS (fZs [1; 1]%Z) (fZs [3; 4]%Z) (fZs [0; 0]%Z) (fZs [0; 0]%Z) (fZs [0; 0]%Z) (fZs [0; 0]%Z) (fZs [0; 0]%Z) [nnan; fZ (-2)])
     (exW_set DARK_MATTER [fZ 1] [fZ 5] [fZ 0] [fZ 0] [fZ 0] [fZ 0] [fZ 0] [fZ (-2)]) (exW_none GAS) true in
   constructible g /\ rmap (fun h => shows (all_x h)) (center g) = Ok [sZ (-1); sZ 0; sZ 1]) /\
  (let g := mkGal (exW_set STARS (fZs [1; 1]%Z) (fZs [3; 4]%Z) (fZs [0; 0]%Z) (fZs [0; 0]%Z) (fZs [0; 0]%Z) (fZs [0; 0]%Z) (fZs [0; 0]%Z) [nnan; nnan])
     (exW_set DARK_MATTER [fZ 1] [fZ 5] [fZ 0] [fZ 0] [fZ 0] [fZ 0] [fZ 0] [nnan]) (exW_none GAS) true in
   constructible g /\ rmap (fun h => shows (all_x h)) (center g) = Ok [sZ (-2); sZ (-1); sZ 0]) /\
  (let g := mkGal (exW_set STARS [fZ 1] [nofZ (10 ^ 200)] [fZ 0] [fZ 0] [fZ 0] [nofZ (10 ^ 200)] [fZ 0] [fZ 0]) (exW_none DARK_MATTER) (exW_none GAS) true in
   constructible g /\ is_star_aligned g None n0 n0 = Ok true /\ is_centered g default_rtol default_atol = Ok false).
Proof. exact ex_c95. Qed.

(** A star that circles the z axis counts as aligned, one that circles the x axis does not. *)
Example EX_C95_defaults :
  is_star_aligned (galR [Part 1 1 0 0 0 1 0]%R [] []) None default_rtol default_atol = Ok true /\
  is_star_aligned (galR [Part 1 0 1 0 0 0 1]%R [] []) None default_rtol default_atol = Ok false.
Proof. exact ex_c95_defaults. Qed.
