(** Property theorems. Cut-off radii of star_align that select the same stars (C119). Proofs are in RcutThms.v. *)
From Verif Require Import Py Num RX F64 Np Df Data DataFacts DfFacts RebuildFacts Center CenterFacts Align Spec SpecR Ex DataThms CenterThms AlignFacts AlignThms RcutThms.
From Coq Require Import Reals Lra Lia Floats.SpecFloat.
From Flocq Require Import Core.Raux.

(** Two cut-offs that are accepted and select the same stars give the same galaxy and the same answer of
    is_star_aligned, in any arithmetic. *)
Theorem C119_same : forall (N : Num) (g : galaxy N) c c', constructible g -> near c (g_stars g) = near c' (g_stars g) ->
  (forall rtol atol, is_star_aligned g c rtol atol = is_star_aligned g c' rtol atol) /\
  ((exists h, star_align g c = Ok h) -> (exists h', star_align g c' = Ok h') -> star_align g c = star_align g c').
Proof. exact c119_same. Qed.
Print Assumptions C119_same.

(** If the computed distance of every star is below the positive cut-off, the result is that without a cut-off. *)
Theorem C119_all : forall (N : Num) (RN : Rounded N) (g : galaxy N) c, constructible g -> nlt n0 c = true ->
  (forall i x y z, nth_error (p_x (g_stars g)) i = Some x -> nth_error (p_y (g_stars g)) i = Some y -> nth_error (p_z (g_stars g)) i = Some z ->
     nlt (nsqrt ((x * x + y * y) + z * z))%num c = true) ->
  star_align g (Some c) = star_align g None /\ forall rtol atol, is_star_aligned g (Some c) rtol atol = is_star_aligned g None rtol atol.
Proof. exact c119_all. Qed.
Print Assumptions C119_all.

(** In exact arithmetic: if every star is closer to the origin than the cut-off. *)
Theorem C119_exact : forall (g : galaxy RX) c, constructible g -> (0 < c)%R ->
  (forall i x y z, nth_error (p_x (g_stars g)) i = Some x -> nth_error (p_y (g_stars g)) i = Some y -> nth_error (p_z (g_stars g)) i = Some z ->
     exists a b d, x = XR a /\ y = XR b /\ z = XR d /\ (sqrt (a * a + b * b + d * d) < c)%R) ->
  star_align g (Some (XR c : RX)) = star_align g None.
Proof. exact c119_exact. Qed.
Print Assumptions C119_exact.

Theorem C119_overflow_refuted : exists (g h h' : galaxy F64), far_stars = Ok g /\
  shows (p_x (g_stars g)) = [sZ 0; sZ (2 ^ 600)] /\ shows (p_y (g_stars g)) = [sZ 1; sZ 0] /\ shows (p_z (g_stars g)) = [sZ 0; sZ 0] /\
  star_align g (Some (nofZ (2 ^ 700))) = Ok h /\ star_align g None = Ok h' /\ shows (all_x h) <> shows (all_x h').
Proof. exact c119_overflow_refuted. Qed.
Print Assumptions C119_overflow_refuted.

(** The galaxy of [ex_c13], with stars at distances 1 and 15.59: cut-offs 2 and 15 give one result, 16 and no cut-off
    another. *)
Example EX_C119 :
  let a c := rmap (fun h => (shows (all_x h), shows (all_y h), shows (all_z h))) (do g <- galA; star_align (N:=F64) g c) in
  a (Some (fZ 2)) = a (Some (fZ 15)) /\ a (Some (fZ 16)) = a None /\ a (Some (fZ 15)) <> a (Some (fZ 16)).
Proof. exact ex_c119. Qed.
