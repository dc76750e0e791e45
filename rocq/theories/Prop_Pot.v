(** Property theorems. Property lemmas about utils/_potential.py and utils/fortran/potential.f95: C19 - C23. Proofs are in PotThms.v. *)
From Verif Require Import Py Num RX F64 Np Df Data DataFacts DfFacts RebuildFacts Center CenterFacts Align
  Spec SpecR SpecPot Ex DataThms CenterThms AlignFacts AlignThms Potential PotConc PotConcFacts PotFacts PotThms.
From Flocq Require Import Core.Raux.
From Coq Require Import Floats.SpecFloat.
Local Open Scope R_scope.
Local Open Scope R_scope.
Local Open Scope R_scope.

(** A galaxy that has a potential is refused whatever the backend; an unknown backend is a
    KeyError; an exception of the backend is passed on. *)
Theorem C19_errors : forall (W S : Num) (cast : W -> S) (lift : S -> W) table name (g : galaxy W),
  constructible g ->
  (g_haspot g = true -> potential cast lift table name g = Raise ValueError) /\
  (g_haspot g = false -> ~ In name (dkeys table) -> potential cast lift table name g = Raise KeyError) /\
  (g_haspot g = false -> forall f e, dget table name = Some f ->
     (forall x y z m s, f x y z m s = Raise e) -> potential cast lift table name g = Raise e).
Proof. exact c19_errors. Qed.
Print Assumptions C19_errors.

(** Otherwise the backend is called on the cast positions and masses of all particles
    (stars, dark matter, gas) and the largest softening, and when it returns one value per
    particle, the negated [i]-th value becomes the potential of the [i]-th particle;
    nothing else changes, and the result cannot be given a potential again. *)
Theorem C19_result : forall (W S : Num), Rounded W ->
  forall (cast : W -> S) (lift : S -> W) table name f (g : galaxy W),
  constructible g -> g_haspot g = false -> dget table name = Some f ->
  exists s, largest_softening g s /\
    forall pot, f (map cast (all_x g)) (map cast (all_y g)) (map cast (all_z g)) (map cast (all_m g)) (cast s) = Ok pot ->
    length pot = glen g ->
    exists h, potential cast lift table name g = Ok h /\ constructible h /\ g_haspot h = true /\
      Forall2 same_but_potential (sets g) (sets h) /\
      all_pots h = map (fun v => lift (nopp v)) pot /\
      forall table' name', potential cast lift table' name' h = Raise ValueError.
Proof. exact c19_result. Qed.
Print Assumptions C19_result.

(** The two backends of the module always return one value per particle (Fortran when it
    could be imported), so [potential] succeeds with both. *)
Theorem C19_backends : forall (W S : Num) (cast : W -> S) (lift : S -> W) (G : S) junk (g : galaxy W),
  constructible g -> g_haspot g = false ->
  (exists h, potential cast lift (backend_table G true junk) "fortran" g = Ok h) /\
  (forall have, exists h, potential cast lift (backend_table G have junk) "numpy" g = Ok h) /\
  potential cast lift (backend_table G false junk) "fortran" g = Raise AttributeError.
Proof. exact c19_backends. Qed.
Print Assumptions C19_backends.

Example EX_C19 :
  rmap (fun h => shows (all_pots h))
    (do g <- galP; potential (W:=F64) (S:=F32) to32 to64 (backend_table n1 true junk0) "fortran" g) =
    Ok [sZ (-4); sZ (-5); sQ (-5) 2] /\
  rmap (fun h => shows (all_pots h))
    (do g <- galP; potential (W:=F64) (S:=F32) to32 to64 (backend_table n1 true junk0) "numpy" g) =
    Ok [sZ (-4); sZ (-5); sQ (-5) 2] /\
  exn_of (do g <- galP; potential (W:=F64) (S:=F32) to32 to64 (backend_table n1 true junk0) "gpu" g) = Some KeyError.
Proof. exact ex_c19. Qed.

(** Every terminating parallel execution -- any interleaving of the reads and writes of
    any number of concurrently running iterations, from any initial contents of the output
    array -- returns at [i] the sum over the other particles in index order. *)
Theorem C20_schedule : forall (S : Num) (x y z m : list S) soft pe0 out,
  length y = length x -> length z = length x -> length m = length x -> length pe0 = length x ->
  parallel_run x y z m soft pe0 out ->
  length out = length x /\
  forall i p, nth_error (sources x y z m) i = Some p ->
    nth_error out i = Some (pair_sum soft (sources x y z m) i p).
Proof. exact c20_schedule. Qed.
Print Assumptions C20_schedule.

(** No execution gets stuck or runs forever: from every reachable state the loop can be
    completed, and no execution has more than n(3n+1) steps. *)
Theorem C20_terminates : forall (S : Num) (x y z m : list S) soft pe0,
  length y = length x -> length z = length x -> length m = length x -> length pe0 = length x ->
  let bs := bodies x y z m in let s0 := St pe0 (repeat Start (length bs)) in
  (forall s, steps (soft * soft)%num bs s0 s -> exists t, steps (soft * soft)%num bs s t /\ finished bs t) /\
  (forall (f : nat -> state S) k, f 0%nat = s0 ->
     (forall a, (a < k)%nat -> step (soft * soft)%num bs (f a) (f (Datatypes.S a))) ->
     (k <= length x * (3 * length x + 1))%nat) /\
  exists out, parallel_run x y z m soft pe0 out.
Proof. exact c20_terminates. Qed.
Print Assumptions C20_terminates.

(** The sequential kernel used in [potential] is one of (hence equal to all) these runs. *)
Theorem C20_sequential : forall (S : Num) (x y z m : list S) soft pe0 out,
  length y = length x -> length z = length x -> length m = length x -> length pe0 = length x ->
  (parallel_run x y z m soft pe0 out <-> out = fortran_kernel x y z m soft).
Proof. exact c20_sequential. Qed.
Print Assumptions C20_sequential.

Example EX_C20 : shows (map to64 (fortran_kernel (S:=F32) (map nofZ [0; 1; 2]%Z) (map nofZ [0; 0; 0]%Z)
    (map nofZ [0; 0; 0]%Z) (map nofZ [1; 2; 4]%Z) n0)) = [sZ 4; sZ 5; sQ 5 2] /\
  forall pe0, length pe0 = 3%nat -> exists out, parallel_run (S:=F32) (map nofZ [0; 1; 2]%Z) (map nofZ [0; 0; 0]%Z)
    (map nofZ [0; 0; 0]%Z) (map nofZ [1; 2; 4]%Z) n0 pe0 out.
Proof. exact ex_c20. Qed.

(** The exact value: the potential of particle [i] is -G times the sum over all the other
    particles of mass over softened distance. *)
Theorem C22_value : forall G junk (g : galaxy RX) ls ld lg s, constructible g -> g_haspot g = false ->
  holds (g_stars g) ls -> holds (g_dm g) ld -> holds (g_gas g) lg ->
  largest_softening g (XR s) -> apart s (ls ++ ld ++ lg) ->
  exists h, exact_potential G junk "fortran" g = Ok h /\
    length (all_pots h) = length (ls ++ ld ++ lg) /\
    forall i p, nth_error (ls ++ ld ++ lg) i = Some p ->
      nth_error (all_pots h) i = Some (XR (- (G * phi s p (others (ls ++ ld ++ lg) i)))).
Proof. exact c22_value. Qed.
Print Assumptions C22_value.

(** With positive masses and at least two particles every potential is negative. *)
Theorem C22_negative : forall G junk (g : galaxy RX) l s, (0 < G)%R -> bare g l ->
  largest_softening g (XR s) -> apart s l -> (2 <= length l)%nat -> (forall q, In q l -> 0 < pm q)%R ->
  exists h, exact_potential G junk "fortran" g = Ok h /\ length (all_pots h) = length l /\
    forall v, In v (all_pots h) -> exists r, v = XR r /\ (r < 0)%R.
Proof. exact c22_negative. Qed.
Print Assumptions C22_negative.

(** Translating every particle leaves all potentials unchanged; multiplying all masses by
    [k] multiplies all potentials by [k]. *)
Theorem C22_translate_scale : forall G junk junk' (g g' : galaxy RX) l s k a b c, bare g l ->
  bare g' (map (fun q => Part (k * pm q) (px q + a) (py q + b) (pz q + c) (pvx q) (pvy q) (pvz q))%R l) ->
  largest_softening g (XR s) -> largest_softening g' (XR s) -> apart s l ->
  exists h h', exact_potential G junk "fortran" g = Ok h /\ exact_potential G junk' "fortran" g' = Ok h' /\
    all_pots h' = map (nmul (N:=RX) (XR k)) (all_pots h).
Proof. exact c22_translate_scale. Qed.
Print Assumptions C22_translate_scale.

(** Reordering the particles (also across the three sets) reorders the potentials in the
    same way. *)
Theorem C22_permute : forall G junk junk' (g g' : galaxy RX) l l' s, bare g l -> bare g' l' -> Permutation l l' ->
  largest_softening g (XR s) -> largest_softening g' (XR s) -> apart s l ->
  exists h h', exact_potential G junk "fortran" g = Ok h /\ exact_potential G junk' "fortran" g' = Ok h' /\
    Permutation (combine l (all_pots h)) (combine l' (all_pots h')).
Proof. exact c22_permute. Qed.
Print Assumptions C22_permute.

Example EX_C22 : exists h, exact_potential 1 (fun _ _ => XNaN) "fortran" galP3 = Ok h /\
  length (all_pots h) = 3%nat /\ (forall v, In v (all_pots h) -> exists r, v = XR r /\ r < 0) /\
  nth_error (all_pots h) 0 = Some (XR (- (5 / 3))).
Proof. exact ex_c22. Qed.

(** Shifted by (10, 0, 0) with masses doubled, and with the particles in another order. *)
Example EX_C22_symmetries :
  (exists h h', exact_potential 1 (fun _ _ => XNaN) "fortran" galP3 = Ok h /\
    exact_potential 1 (fun _ _ => XNaN) "fortran"
      (galR [Part (2 * 1) (0 + 10) (0 + 0) (0 + 0) 0 0 0] [Part (2 * 2) (3 + 10) (0 + 0) (0 + 0) 0 0 0]
            [Part (2 * 4) (0 + 10) (4 + 0) (0 + 0) 0 0 0]) = Ok h' /\
    all_pots h' = map (nmul (N:=RX) (XR 2)) (all_pots h)) /\
  (exists h h', exact_potential 1 (fun _ _ => XNaN) "fortran" galP3 = Ok h /\
    exact_potential 1 (fun _ _ => XNaN) "fortran"
      (galR [Part 4 0 4 0 0 0 0; Part 1 0 0 0 0 0 0] [] [Part 2 3 0 0 0 0 0]) = Ok h' /\
    Permutation (combine exP (all_pots h))
      (combine [Part 4 0 4 0 0 0 0; Part 1 0 0 0 0 0 0; Part 2 3 0 0 0 0 0] (all_pots h'))).
Proof. exact ex_c22_symmetries. Qed.

(** The value the numpy backend computes, whatever the (finite) contents [u] of the fresh
    array and whatever pairs coincide. *)
Theorem C21_value : forall G junk u (g : galaxy RX) l s, (forall i j, junk i j = XR (u i j)) ->
  bare g l -> largest_softening g (XR s) ->
  exists h, exact_potential G junk "numpy" g = Ok h /\ length (all_pots h) = length l /\
    forall i p, nth_error l i = Some p -> nth_error (all_pots h) i = Some (XR (- (G * numpy_row s u i p l))).
Proof. exact c21_value. Qed.
Print Assumptions C21_value.

(** When no two particles coincide and the skipped entries hold zero, both backends give
    the same galaxy. *)
Theorem C21_agree : forall G junk (g : galaxy RX) l s, bare g l -> largest_softening g (XR s) -> apart s l ->
  (forall i j, junk i j = XR 0) ->
  exists h, exact_potential G junk "numpy" g = Ok h /\ exact_potential G junk "fortran" g = Ok h.
Proof. exact c21_agree. Qed.
Print Assumptions C21_agree.

(** For every galaxy with at least one particle (coincident or not) there are two memory
    contents for which every single potential differs. *)
Theorem C21_depends : forall G (g : galaxy RX) l s, G <> 0 -> bare g l -> largest_softening g (XR s) ->
  exists junk junk' h h', exact_potential G junk "numpy" g = Ok h /\ exact_potential G junk' "numpy" g = Ok h' /\
    forall i, (i < length l)%nat -> nth_error (all_pots h) i <> nth_error (all_pots h') i.
Proof. exact c21_depends. Qed.
Print Assumptions C21_depends.

(** In single precision, on every galaxy: NaN in the fresh memory makes every potential
    NaN (positions and masses may be anything). *)
Theorem C21_float : forall (W : Num), Rounded W -> forall (cast : W -> F32) (lift : F32 -> W) (G : F32) have junk (g : galaxy W),
  constructible g -> g_haspot g = false -> (forall i, junk i i = nnan) ->
  exists h, potential cast lift (backend_table (S:=F32) G have junk) "numpy" g = Ok h /\
    length (all_pots h) = glen g /\ forall v, In v (all_pots h) -> v = lift nnan.
Proof. exact c21_float. Qed.
Print Assumptions C21_float.

(** Two coincident particles without softening: the Fortran backend gives -inf, the numpy
    backend whatever finite memory contents it finds for that pair. *)
Theorem C21_coincident : forall G junk u (g : galaxy RX) l i j p q, 0 < G -> bare g l -> largest_softening g (XR 0) ->
  (forall i j, junk i j = XR (u i j)) -> (forall r, In r l -> 0 < pm r) ->
  i <> j -> nth_error l i = Some p -> nth_error l j = Some q -> px p = px q -> py p = py q -> pz p = pz q ->
  exists h h', exact_potential G junk "fortran" g = Ok h /\ exact_potential G junk "numpy" g = Ok h' /\
    nth_error (all_pots h) i = Some XNInf /\
    nth_error (all_pots h') i = Some (XR (- (G * numpy_row 0 u i p l))).
Proof. exact c21_coincident. Qed.
Print Assumptions C21_coincident.

Example EX_C21 :
  (exists h, exact_potential 1 (fun _ _ => XR 0) "numpy" galP3 = Ok h /\ exact_potential 1 (fun _ _ => XR 0) "fortran" galP3 = Ok h) /\
  (exists junk junk' h h', exact_potential 1 junk "numpy" galP3 = Ok h /\ exact_potential 1 junk' "numpy" galP3 = Ok h' /\
    forall i, (i < 3)%nat -> nth_error (all_pots h) i <> nth_error (all_pots h') i).
Proof. exact ex_c21. Qed.

(** Single precision: the same galaxy with memory holding zeros, sevens and NaN; and two
    stars in the same place. *)
Example EX_C21_float :
  let run j := rmap (fun h => shows (all_pots h))
    (do g <- galP; potential (W:=F64) (S:=F32) to32 to64 (backend_table n1 true j) "numpy" g) in
  run junk0 = Ok [sZ (-4); sZ (-5); sQ (-5) 2] /\
  run (fun _ _ => nofZ 7) = Ok [sZ (-11); sZ (-12); sQ (-19) 2] /\
  run (fun _ _ => nnan) = Ok [S754_nan; S754_nan; S754_nan].
Proof. exact ex_c21_float. Qed.

Example EX_C21_coincident :
  let g := do s <- (zset STARS [1; 2] [3; 3] [4; 4] [5; 5] [0; 0] [0; 0] [0; 0] None 0)%Z;
           do d <- (zset DARK_MATTER [] [] [] [] [] [] [] None 0)%Z;
           do q <- (zset GAS [] [] [] [] [] [] [] None 0)%Z; mk_galaxy s d q in
  let run (n : string) j := rmap (fun h => shows (all_pots h))
    (do g <- g; potential (W:=F64) (S:=F32) to32 to64 (backend_table n1 true j) n g) in
  run "fortran"%string junk0 = Ok [S754_infinity true; S754_infinity true] /\
  run "numpy"%string junk0 = Ok [S754_zero true; S754_zero true] /\
  run "numpy"%string (fun _ _ => nofZ 7) = Ok [sZ (-14); sZ (-14)].
Proof. exact ex_c21_coincident. Qed.

Example EX_C21_coincident_exact :
  let l := [Part 1 3 4 5 0 0 0; Part 2 3 4 5 0 0 0] in
  exists h h', exact_potential 1 (fun _ _ => XR 7) "fortran" (galR l [] []) = Ok h /\
    exact_potential 1 (fun _ _ => XR 7) "numpy" (galR l [] []) = Ok h' /\
    nth_error (all_pots h) 0 = Some XNInf /\
    nth_error (all_pots h') 0 = Some (XR (- (1 * numpy_row 0 (fun _ _ => 7) 0 (Part 1 3 4 5 0 0 0) l))).
Proof. exact ex_c21_coincident_exact. Qed.

(** The backend sees the galaxy's softening only through the largest one: two backends
    that agree at that softening give the same result, and one that fails exactly there
    makes [potential] fail. *)
Theorem C23_softening : forall (W S : Num), Rounded W -> forall (cast : W -> S) (lift : S -> W) (g : galaxy W),
  constructible g -> g_haspot g = false ->
  exists s, largest_softening g s /\
    (forall (table table' : dict (backend S)) name f f', dget table name = Some f -> dget table' name = Some f' ->
      (forall x y z m, f x y z m (cast s) = f' x y z m (cast s)) ->
      potential cast lift table name g = potential cast lift table' name g) /\
    (forall (table : dict (backend S)) name f e, dget table name = Some f -> (forall x y z m, f x y z m (cast s) = Raise e) ->
      potential cast lift table name g = Raise e).
Proof. exact c23_softening. Qed.
Print Assumptions C23_softening.

(** In exact arithmetic there is only one such softening. *)
Theorem C23_unique : forall (g : galaxy RX) s s', largest_softening g s -> largest_softening g s' -> s = s'.
Proof. exact c23_unique. Qed.
Print Assumptions C23_unique.

(** Softenings of empty sets are irrelevant. *)
Theorem C23_empty : forall (W S : Num) (cast : W -> S) (lift : S -> W) (table : dict (backend S)) name (g g' : galaxy W),
  constructible g -> constructible g' -> g_haspot g = false -> g_haspot g' = false ->
  Forall2 (fun p p' => p_m p = p_m p' /\ p_x p = p_x p' /\ p_y p = p_y p' /\ p_z p = p_z p' /\
    (plen p <> 0%nat -> p_soft p = p_soft p')) (sets g) (sets g') ->
  (forall f, dget table name = Some f -> forall x y z m s pot, f x y z m s = Ok pot -> length pot = length m) ->
  match potential cast lift table name g, potential cast lift table name g' with
  | Ok h, Ok h' => all_pots h = all_pots h'
  | Raise e, Raise e' => e = e'
  | _, _ => False
  end.
Proof. exact c23_empty. Qed.
Print Assumptions C23_empty.

Example EX_C23 :
  let run d := rmap (fun h => shows (all_pots h))
    (do g <- galS d; potential (W:=F64) (S:=F32) to32 to64 [("echo"%string, echo)] "echo" g) in
  run [] = Ok [sZ (-3); sZ (-3); sZ (-3)] /\ run [5%Z] = Ok [sZ (-7); sZ (-7); sZ (-7); sZ (-7)].
Proof. exact ex_c23. Qed.
