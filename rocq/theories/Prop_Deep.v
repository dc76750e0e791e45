(** Property theorems. Heavier surroundings and a smaller softening never raise a computed potential (C118). Proofs are in DeepThms.v. *)
From Verif Require Import Py Num RX F64 Np Data Spec SpecR SpecPot Potential DataFacts DataThms PotConcFacts PotFacts CenterFacts CenterThms AlignThms PotThms Ex SpecAcc AccFacts AccThms SpecDeep DeepThms.
From Coq Require Import Reals Lra Lia.
Local Open Scope R_scope.

(** The potential of one particle in two galaxies.  [g'] has no larger softening; around the particle, which is at the
    same place in both, [g'] has the same particles, none of them lighter, and possibly more.  Then the computed
    potential is no higher in [g'], bit for bit, and with the same kinetic energy neither is the total energy: a bound
    particle stays bound. *)
Theorem C118_deeper : forall (W S : Num) (RW : Rounded W) (RS : Rounded S) (cast : W -> S) (lift : S -> W) (G : S) junk junk' (g g' h h' : galaxy W) so so' i i' p p' w w',
  (forall y, val RW (lift y) = val RS y) -> nlt n0 G = true -> nfin G = true ->
  constructible g -> constructible g' -> g_haspot g = false -> g_haspot g' = false ->
  (forall s, largest_softening g s -> cast s = so) -> (forall s, largest_softening g' s -> cast s = so') ->
  nle n0 so' = true -> nle so' so = true ->
  let l := sources (map cast (all_x g)) (map cast (all_y g)) (map cast (all_z g)) (map cast (all_m g)) in
  let l' := sources (map cast (all_x g')) (map cast (all_y g')) (map cast (all_z g')) (map cast (all_m g')) in
  nth_error l i = Some p -> nth_error l' i' = Some p' -> same_place p p' -> heavier (others l i) (others l' i') ->
  (forall q, In q (others l' i') -> nlt n0 (soft_dist so' p' q) = true) ->
  potential cast lift (backend_table G true junk) "fortran" g = Ok h ->
  potential cast lift (backend_table G true junk') "fortran" g' = Ok h' ->
  nth_error (all_pots h) i = Some w -> nth_error (all_pots h') i' = Some w' ->
  nle w' w = true /\ nle w n0 = true /\
  forall ke, nfin ke = true -> nle (ke + w')%num (ke + w)%num = true /\ (nlt (ke + w)%num n0 = true -> nlt (ke + w')%num n0 = true).
Proof. exact c118_deeper. Qed.
Print Assumptions C118_deeper.

Theorem C118_strict_refuted : exists (g g' h h' : galaxy F64), galP = Ok g /\ galQ = Ok g' /\
  shows (all_m g') = shows (all_m g) ++ [sZ 1] /\ shows (all_x g') = shows (all_x g) ++ [sZ 1073741824] /\
  shows (all_y g') = shows (all_y g) ++ [sZ 0] /\ shows (all_z g') = shows (all_z g) ++ [sZ 0] /\
  potential (W:=F64) (S:=F32) to32 to64 (backend_table n1 true junk0) "fortran" g = Ok h /\
  potential (W:=F64) (S:=F32) to32 to64 (backend_table n1 true junk0) "fortran" g' = Ok h' /\
  firstn 3 (shows (all_pots h')) = shows (all_pots h).
Proof. exact c118_strict_refuted. Qed.
Print Assumptions C118_strict_refuted.

Example EX_C118 :
  rmap (fun h => firstn 1 (shows (all_pots h))) (do g <- galP; potential (W:=F64) (S:=F32) to32 to64 (backend_table n1 true junk0) "fortran" g) = Ok [sZ (-4)] /\
  rmap (fun h => firstn 1 (shows (all_pots h))) (do g <- galR; potential (W:=F64) (S:=F32) to32 to64 (backend_table n1 true junk0) "fortran" g) = Ok [sQ (-25) 4] /\
  let cast l := map to32 (fZs l) : list F32 in
  let l := sources (cast [0; 1; 2]%Z) (cast [0; 0; 0]%Z) (cast [0; 0; 0]%Z) (cast [1; 2; 4]%Z) in
  let l' := sources (cast [0; 1; 4; 2]%Z) (cast [0; 0; 0; 0]%Z) (cast [0; 0; 0; 0]%Z) (cast [1; 3; 5; 4]%Z) in
  heavier (others l 0) (others l' 0) /\
  (forall p q, nth_error l' 0 = Some p -> In q (others l' 0) -> nlt n0 (soft_dist (S:=F32) (to32 (fZ 0)) p q) = true).
Proof. exact ex_c118. Qed.
