(** Property theorems. Construction, copying, comparison and printing of decomposers and galaxies (C65-C67). Proofs are in CtorThms.v. *)
From Verif Require Import Py Num Np Df Data Circ Base Threshold RX F64 Spec DataFacts DataThms BaseThms Ex Ctor SpecCtor CtorFacts CtorThms.
From Coq Require Import DecimalString DecimalNat Lia.

(** Each class on offer is constructed exactly by keyword arguments out of its documented table,
    with cbins a tuple of two floats, eps_cut a number not above 1 nor below -1 and an
    accepted seed; the instance then holds, under each documented name, what was
    asked for or the documented default. *)
Theorem C65_construct : forall (N : Num) (RN : Rounded N) seed (c : dclass N) name T, In (c, name, T) shipped ->
  forall nargs kw next o next',
  construct seed c nargs kw next = Ok (o, next') <->
  nargs = 0 /\ (forall k, In k (dkeys kw) -> In k (dkeys T)) /\ o_class o = name /\
  holds_settings seed T kw next (o_dict o) next' /\
  (forall v, In ("cbins"%string, v) T -> two_floats (asked kw "cbins" v)) /\
  (forall v, In ("eps_cut"%string, v) T -> cut_ok RN (asked kw "eps_cut" v)).
Proof. exact c65_construct. Qed.
Print Assumptions C65_construct.

(** The two abstract classes cannot be constructed at all, and no class takes positional or
    unknown arguments: TypeError. With known keywords and an acceptable seed, a wrong cbins is a
    ValueError, whatever eps_cut is. *)
Theorem C65_errors : forall (N : Num) seed (kw : dict (pval N)) nargs next,
  construct seed GalaxyDecomposerABC nargs kw next = Raise TypeError /\
  construct seed StarsGaussianABC nargs kw next = Raise TypeError /\
  (forall c name T, In (c, name, T) shipped ->
     (nargs <> 0 \/ (exists k, In k (dkeys kw) /\ ~ In k (dkeys T)) -> construct seed c nargs kw next = Raise TypeError) /\
     (nargs = 0 -> (forall k, In k (dkeys kw) -> In k (dkeys T)) ->
      (forall v, In ("random_state"%string, v) T -> (exists i, asked kw "random_state" v = PGen i) \/ seed (asked kw "random_state" v) = Ok tt) ->
      (forall v, In ("cbins"%string, v) T -> ~ two_floats (asked kw "cbins" v)) ->
      construct seed c nargs kw next = Raise ValueError)).
Proof. exact c65_errors. Qed.
Print Assumptions C65_errors.

(** [cls] applied to the hyper-parameters of an instance gives the same instance; no
    new generator is made, the copy shares that of the original. *)
Theorem C65_rebuild : forall (N : Num) (RN : Rounded N) seed (c : dclass N) name T, In (c, name, T) shipped ->
  forall nargs kw next o next' m,
  construct seed c nargs kw next = Ok (o, next') -> construct seed c 0 (o_dict o) m = Ok (o, m).
Proof. exact c65_rebuild. Qed.
Print Assumptions C65_rebuild.

(** The class JThreshold accepts what the decomposer of [Threshold.v] accepts. *)
Theorem C65_threshold : forall (N : Num) (RN : Rounded N) seed junk (a b : hval N) next,
  (exists o n, construct seed JThreshold 0 [("cbins", PV a); ("eps_cut", PV b)]%string next = Ok (o, n)) <->
  (exists D, mk_jthreshold junk a b = Ok D).
Proof. exact c65_threshold. Qed.
Print Assumptions C65_threshold.

Example EX_C65 :
  rmap (fun r => dget (o_dict (fst r)) "n_bin_E") (construct any_seed JEHistogram 0 [("n_bin_E", int 7); ("random_state", int 42)]%string 3) =
    Ok (Some (int 7)) /\
  rmap (fun r => (dget (o_dict (fst r)) "random_state", snd r)) (construct any_seed JEHistogram 0 [("random_state"%string, int 42)] 3) =
    Ok (Some (PGen 3), 4) /\
  rmap (fun r => (dget (o_dict (fst r)) "random_state", snd r)) (construct any_seed KMeans 0 [("random_state"%string, PGen 1)] 3) =
    Ok (Some (PGen 1), 3) /\
  exn_of (construct any_seed KMeans 0 [("n_clusters"%string, int 2)] 3) = Some TypeError /\
  exn_of (construct any_seed JThreshold 1 [] 3) = Some TypeError /\
  exn_of (construct any_seed JThreshold 0 [("eps_cut"%string, int 2)] 3) = Some ValueError /\
  exn_of (construct any_seed JThreshold 0 [("eps_cut"%string, txt "a")] 3) = Some TypeError /\
  exn_of (construct any_seed JThreshold 0 [("cbins", int 2); ("eps_cut", txt "a")]%string 3) = Some ValueError.
Proof. exact ex_c65. Qed.

(** Two instances made one after the other with the same arguments are equal exactly if the
    class has no random_state or was given a generator: with the same seed, or with none, they differ. *)
Theorem C66_equal : forall (N : Num) (RN : Rounded N) seed same (c : dclass N) name T, In (c, name, T) shipped ->
  (forall v : pval N, same v v = true) ->
  forall kw next a n b n',
  construct seed c 0 kw next = Ok (a, n) -> construct seed c 0 kw n = Ok (b, n') ->
  instance_eq same a b = true <->
  (~ In "random_state"%string (dkeys T) \/ exists i, dget kw "random_state" = Some (PGen i)).
Proof. exact c66_equal. Qed.
Print Assumptions C66_equal.

(** Instances of different classes are never equal. *)
Theorem C66_class : forall (N : Num) (RN : Rounded N) seed same (c c' : dclass N) name name' T T',
  In (c, name, T) shipped -> In (c', name', T') shipped -> name <> name' ->
  forall nargs nargs' kw kw' next next' a n b n',
  construct seed c nargs kw next = Ok (a, n) -> construct seed c' nargs' kw' next' = Ok (b, n') -> instance_eq same a b = false.
Proof. exact c66_class. Qed.
Print Assumptions C66_class.

(** So equal arguments, the seed included, do not give equal decomposers. *)
Theorem C66_same_seed_refuted : forall (N : Num) (same : pval N -> pval N -> bool),
  exists (kw : dict (pval N)) a n b n', construct (fun _ => Ok tt) KMeans 0 kw 0 = Ok (a, n) /\
    construct (fun _ => Ok tt) KMeans 0 kw n = Ok (b, n') /\ instance_eq same a b = false.
Proof. exact c66_same_seed_refuted. Qed.
Print Assumptions C66_same_seed_refuted.

Example EX_C66 :
  let same := fun _ _ : pval F64 => true in
  (forall v, same v v = true) /\
  rmap (fun r => rmap (fun r' => instance_eq same (fst r) (fst r')) (construct any_seed JThreshold 0 [] (snd r))) (construct any_seed JThreshold 0 [] 0) = Ok (Ok true) /\
  rmap (fun r => rmap (fun r' => instance_eq same (fst r) (fst r')) (construct any_seed KMeans 0 [("random_state"%string, PGen 9)] (snd r)))
    (construct any_seed KMeans 0 [("random_state"%string, PGen 9)] 0) = Ok (Ok true) /\
  rmap (fun r => rmap (fun r' => instance_eq same (fst r) (fst r')) (construct any_seed KMeans 0 [("random_state"%string, int 42)] (snd r)))
    (construct any_seed KMeans 0 [("random_state"%string, int 42)] 0) = Ok (Ok false).
Proof. exact ex_c66. Qed.

(** The printed forms: the counts are decimal numerals of the numbers of particles. *)
Theorem C67_printed : forall (N : Num) (show_soft : N -> string),
  (forall g : galaxy N, exists a b c, numeral a (plen (g_stars g)) /\ numeral b (plen (g_dm g)) /\ numeral c (plen (g_gas g)) /\
     galaxy_repr g = ("Galaxy(stars=" ++ a ++ ", dark_matter=" ++ b ++ ", gas=" ++ c ++ ", potential=" ++ truth (g_haspot g) ++ ")")%string) /\
  (forall p : pset N, exists a, numeral a (plen p) /\
     pset_repr show_soft p = ("ParticleSet(" ++ match p_type p with STARS => "STARS" | DARK_MATTER => "DARK_MATTER" | GAS => "GAS" end ++
       ", size=" ++ a ++ ", softening=" ++ show_soft (p_soft p) ++ ", potentials=" ++ truth (p_haspot p) ++ ")")%string).
Proof. exact c67_printed. Qed.
Print Assumptions C67_printed.

(** Two galaxies print alike exactly if they have as many particles of each type and both or
    neither have a potential. *)
Theorem C67_galaxy : forall (N : Num) (g h : galaxy N),
  galaxy_repr g = galaxy_repr h <->
  plen (g_stars g) = plen (g_stars h) /\ plen (g_dm g) = plen (g_dm h) /\ plen (g_gas g) = plen (g_gas h) /\ g_haspot g = g_haspot h.
Proof. exact c67_galaxy. Qed.
Print Assumptions C67_galaxy.

(** Two particle sets of one softening print alike exactly if they have the same type, the
    same number of particles and both or neither have a potential. *)
Theorem C67_set : forall (N : Num) (show_soft : N -> string) (p q : pset N), p_soft p = p_soft q ->
  pset_repr show_soft p = pset_repr show_soft q <-> p_type p = p_type q /\ plen p = plen q /\ p_haspot p = p_haspot q.
Proof. exact c67_set. Qed.
Print Assumptions C67_set.

(** A decomposer prints as its class name and all its documented hyper-parameters, in the documented
    order, each with what the instance holds under that name. *)
Theorem C67_decomposer : forall (N : Num) (RN : Rounded N) seed (show : pval N -> string) (c : dclass N) name T, In (c, name, T) shipped ->
  forall nargs kw next o next', construct seed c nargs kw next = Ok (o, next') ->
  instance_repr show o =
  (name ++ "(" ++ String.concat ", " (map (fun k => k ++ "=" ++ match dget (o_dict o) k with Some v => show v | None => "" end) (dkeys T)) ++ ")")%string.
Proof. exact c67_decomposer. Qed.
Print Assumptions C67_decomposer.

(** [angular_momentum_] of a galaxy: stars, dark matter, gas in this order; for each set the
    three components of the cross product of position and velocity, particle by particle. *)
Theorem C67_angular : forall (N : Num) (g : galaxy N), constructible g ->
  exists s d q, galaxy_angular g = [s; d; q] /\
  forall p J, In (p, J) [(g_stars g, s); (g_dm g, d); (g_gas g, q)] ->
  exists a b c, J = [a; b; c] /\ length a = plen p /\ length b = plen p /\ length c = plen p /\
  forall i x y z vx vy vz,
  nth_error (p_x p) i = Some x -> nth_error (p_y p) i = Some y -> nth_error (p_z p) i = Some z ->
  nth_error (p_vx p) i = Some vx -> nth_error (p_vy p) i = Some vy -> nth_error (p_vz p) i = Some vz ->
  nth_error a i = Some (y * vz - z * vy)%num /\ nth_error b i = Some (z * vx - x * vz)%num /\ nth_error c i = Some (x * vy - y * vx)%num.
Proof. exact c67_angular. Qed.
Print Assumptions C67_angular.

Example EX_C67 :
  rmap (pset_repr (fun _ => "0.0")%string) (zset GAS [1; 1] [1; 1] [2; 2] [3; 3] [4; 4] [5; 5] [6; 6] (Some [-100; -7]) 0)%Z =
    Ok "ParticleSet(GAS, size=2, softening=0.0, potentials=True)"%string /\
  rmap (fun p => map shows (pset_angular p)) (zset STARS [1] [1] [2] [3] [4] [5] [6] None 0)%Z = Ok [[sZ (-3)]; [sZ 6]; [sZ (-3)]] /\
  rmap galaxy_repr
    (do s <- zset STARS [1] [1] [2] [3] [4] [5] [6] None 0; do d <- zset DARK_MATTER [] [] [] [] [] [] [] None 0;
     do q <- zset GAS [1; 1] [1; 1] [2; 2] [3; 3] [4; 4] [5; 5] [6; 6] None 0; mk_galaxy s d q)%Z =
    Ok "Galaxy(stars=1, dark_matter=0, gas=2, potential=False)"%string.
Proof. exact ex_c67. Qed.
