(** Property theorems. Sequences of calls (C58, C61, C62). Proofs are in PipeThms.v. *)
From Verif Require Import Py Num RX F64 Np Df Data DataFacts DfFacts RebuildFacts Center CenterFacts Align Spec SpecPot Ex DataThms CenterThms AlignFacts AlignThms Potential PotConc PotConcFacts PotFacts PotThms Io SpecIo IoFacts CircThms IoThms SpecPipe SpecR PipeThms.
From Flocq Require Import Core.Raux.
From Coq Require Import Lia Lra.
Local Open Scope R_scope.

(** Whatever is called in whatever order, however the writes are disturbed: the galaxy is
    consistent and made of the same particles. *)
Theorem C58_matter : forall (W S : Num) (RW : Rounded W) (M : Type) (cast : W -> S) lift G (cs : list (call (W:=W) (S:=S) (M:=M))) g f g' f',
  constructible g -> fresh f -> run cast lift G (g, f) cs = (g', f') -> constructible g' /\ same_matter g g'.
Proof. exact c58_matter. Qed.
Print Assumptions C58_matter.

(** As long as nothing is read but what has just been written, a galaxy that has potentials
    keeps them, value by value. *)
Theorem C58_potential : forall (W S : Num) (RW : Rounded W) (M : Type) (cast : W -> S) lift G (cs : list (call (W:=W) (S:=S) (M:=M))) g f g' f',
  constructible g -> NoDup (dkeys (h_objs f)) -> in_step cs -> run cast lift G (g, f) cs = (g', f') ->
  g_haspot g = true -> same_pots g g'.
Proof. exact c58_potential. Qed.
Print Assumptions C58_potential.

(** Reading an old file takes the potentials away again. *)
Theorem C58_revert_refuted : exists (g g1 g2 : galaxy F64) cs (f1 f2 : h5 F64 Z),
  constructible g /\ g_haspot g = false /\
  run (W:=F64) (S:=F32) to32 to64 n1 (g, H5 [] []) (CSave quiet [] 0%Z None None None :: cs) = (g1, f1) /\ g_haspot g1 = true /\
  run (W:=F64) (S:=F32) to32 to64 n1 (g, H5 [] []) (CSave quiet [] 0%Z None None None :: cs ++ [CLoad n0 n0 n0]) = (g2, f2) /\ g_haspot g2 = false.
Proof. exact c58_revert_refuted. Qed.
Print Assumptions C58_revert_refuted.

(** In exact arithmetic and with undisturbed writes, whatever is called in whatever order: all
    particles have undergone one and the same rigid motion, or a position is lost (NaN). *)
Theorem C58_rigid : forall (S : Num) (M : Type) (cast : RX -> S) lift G (cs : list (call (W:=RX) (S:=S) (M:=M))) (g : galaxy RX) f g' f' ls ld lg,
  constructible g -> fresh f -> (forall c, In c cs -> calm c) -> holds (g_stars g) ls -> holds (g_dm g) ld -> holds (g_gas g) lg ->
  run cast lift G (g, f) cs = (g', f') -> lost g' \/ rigid_image ls ld lg g'.
Proof. exact c58_rigid. Qed.
Print Assumptions C58_rigid.

(** A rigid motion keeps masses, distances and kinetic energies. *)
Theorem C58_rigid_keeps : forall A a b c p q, rotation A ->
  pm (rigid A a b c p) = pm p /\ dist (rigid A a b c p) (rigid A a b c q) = dist p q /\ kinr (rigid A a b c p) = kinr p.
Proof. exact c58_rigid_keeps. Qed.
Print Assumptions C58_rigid_keeps.

Example EX_C58 : in_step (tl pipe) /\ fresh (W:=F64) (M:=Z) (H5 [] []) /\
  rmap (fun g => let r := run (W:=F64) (S:=F32) to32 to64 n1 (g, H5 [] []) pipe in
    (g_haspot g, g_haspot (fst r), shows (all_m (fst r)), shows (all_pots (fst r)), length (h_objs (snd r)))) galP =
  Ok (false, true, shows [fZ 1; fZ 2; fZ 4], shows [fZ (-4); fZ (-5); fZ (-2) + fZ (-1) / fZ 2]%num, 3%nat).
Proof. exact ex_c58. Qed.

(** An exact run that turns the galaxy and keeps all its positions. *)
Example EX_C58_rigid : exists h, run (W:=RX) (S:=RX) (M:=Z) idx idx (XR 1) (galR exA_stars [Part 1 1 2 3 4 5 6]%R [], H5 [] []) [CAlign (W:=RX) (Some (XR 5)); CCenter] = (h, H5 [] []) /\
  ~ lost h /\ rigid_image exA_stars [Part 1 1 2 3 4 5 6]%R [] h.
Proof. exact ex_c58_rigid. Qed.

(** Aligning a centred galaxy leaves it centred, as long as the coordinates stay finite; for
    every rounded arithmetic. *)
Theorem C61_stays_centred : forall (N : Num) (RN : Rounded N) (g g1 g2 : galaxy N) c,
  constructible g -> center g = Ok g1 -> star_align g1 c = Ok g2 ->
  (forall a, In a (all_x g ++ all_y g ++ all_z g) -> nfin a = true) ->
  (forall a, In a (all_x g2 ++ all_y g2 ++ all_z g2) -> nfin a = true) ->
  forall rtol atol, nfin rtol = true -> nle n0 atol = true -> is_centered g2 rtol atol = Ok true.
Proof. exact c61_stays_centred. Qed.
Print Assumptions C61_stays_centred.

(** In exact arithmetic, centring and then aligning gives a galaxy that is both. *)
Theorem C61_both : forall (g g1 g2 : galaxy RX) c ls ld lg, constructible g -> center g = Ok g1 -> alignable g1 c ls ld lg ->
  (forall a, In a (all_x g ++ all_y g ++ all_z g) -> xfin a = true) -> star_align g1 c = Ok g2 ->
  forall rtol atol, nfin (N:=RX) rtol = true -> xle (XR 0) rtol -> xle (XR 0) atol ->
  is_centered g2 rtol atol = Ok true /\ is_star_aligned g2 c rtol atol = Ok true.
Proof. exact c61_both. Qed.
Print Assumptions C61_both.

(** The other order does not do: centring a galaxy that has been aligned undoes the alignment. *)
Theorem C61_order_refuted : exists g g1 g2 : galaxy F64, constructible g /\ star_align g None = Ok g1 /\
  is_star_aligned g1 None default_rtol default_atol = Ok true /\ center g1 = Ok g2 /\ is_star_aligned g2 None default_rtol default_atol = Ok false.
Proof. exact c61_order_refuted. Qed.
Print Assumptions C61_order_refuted.

(** Centring and aligning a galaxy in double precision. *)
Example EX_C61 : rmap (fun r => r) (do g <- galA; do g1 <- center g; do g2 <- star_align g1 None;
  do a <- is_centered g2 default_rtol default_atol; do b <- is_star_aligned g2 None default_rtol default_atol;
  Ok (forallb nfin (all_x g ++ all_y g ++ all_z g), forallb nfin (all_x g2 ++ all_y g2 ++ all_z g2), a, b)) = Ok (true, true, true, true).
Proof. exact ex_c61. Qed.

(** In exact arithmetic the potential is the same before and after a rigid motion of all
    particles; in particular aligning and computing the potential can be interchanged. *)
Theorem C62_rigid : forall G junk junk' (g g' : galaxy RX) l s A a b c, bare g l -> rotation A -> bare g' (map (rigid A a b c) l) ->
  largest_softening g (XR s) -> largest_softening g' (XR s) -> apart s l ->
  exists h h', exact_potential G junk "fortran" g = Ok h /\ exact_potential G junk' "fortran" g' = Ok h' /\ all_pots h' = all_pots h.
Proof. exact c62_rigid. Qed.
Print Assumptions C62_rigid.

(** Computing the potential and aligning can be interchanged: the two orders give the same
    galaxy (exact arithmetic, Fortran backend). *)
Theorem C62_align : forall G junk junk' (g h : galaxy RX) c ls ld lg s, alignable g c ls ld lg -> g_haspot g = false ->
  largest_softening g (XR s) -> apart s (ls ++ ld ++ lg) -> star_align g c = Ok h ->
  exists k k', exact_potential G junk "fortran" g = Ok k /\ exact_potential G junk' "fortran" h = Ok k' /\
    all_pots k' = all_pots k /\ star_align k c = Ok k'.
Proof. exact c62_align. Qed.
Print Assumptions C62_align.

(** The galaxy of the example of C14. *)
Example EX_C62 : exists h, star_align (galR exA_stars [Part 1 1 2 3 4 5 6]%R []) (Some (XR 5)) = Ok h /\
  exists k k', exact_potential 1 (fun _ _ => XNaN) "fortran" (galR exA_stars [Part 1 1 2 3 4 5 6]%R []) = Ok k /\
    exact_potential 1 (fun _ _ => XNaN) "fortran" h = Ok k' /\ all_pots k' = all_pots k /\ star_align k (Some (XR 5)) = Ok k'.
Proof. exact ex_c62. Qed.
