(** Property theorems. Property lemmas about data.py: C01 - C07. Proofs are in DataThms.v. *)
From Verif Require Import Py Num RX F64 Np Df Data DataFacts DfFacts RebuildFacts CenterFacts Spec Ex DataThms.

(** [mktype] returns exactly the type its argument denotes and raises ValueError on
    every value that denotes none. *)
Theorem C01_mktype : forall (N : Num) (RN : Rounded N) (v : pyval N),
  (forall p, mktype v = Ok p <-> denotes v p) /\
  ((forall p, ~ denotes v p) <-> mktype v = Raise ValueError).
Proof. exact c01_mktype. Qed.
Print Assumptions C01_mktype.

(** Names, values and humanised names are inverted; letter case is irrelevant. *)
Theorem C01_inverse : forall (N : Num) (p : ptype),
  mktype (N:=N) (PyType p) = Ok p /\ mktype (N:=N) (PyInt (ptype_value p)) = Ok p /\
  mktype (N:=N) (PyStr (ptype_name p)) = Ok p /\ mktype (N:=N) (PyStr (humanize p)) = Ok p /\
  (forall s t, upper s = upper t -> mktype (N:=N) (PyStr s) = mktype (N:=N) (PyStr t)).
Proof. exact c01_inverse. Qed.
Print Assumptions C01_inverse.

Example EX_C01 : denotes (N:=F64) (PyStr "Dark_Matter") DARK_MATTER /\
  mktype (N:=F64) (PyStr "Dark_Matter") = Ok DARK_MATTER /\
  mktype (N:=F64) (PyStr "1") = Raise ValueError /\
  mktype (N:=F64) PyNone = Raise ValueError.
Proof. exact ex_c01. Qed.

(** The constructor accepts exactly inputs of one common length; otherwise ValueError. *)
Theorem C02_constructor : forall (N : Num) t (m x y z vx vy vz : list N) pot soft,
  let same := Forall (fun l => length l = length m)
                (x :: y :: z :: vx :: vy :: vz :: match pot with Some p => [p] | None => [] end) in
  (same <-> exists p, mk_pset t m x y z vx vy vz pot soft = Ok p) /\
  (~ same <-> mk_pset t m x y z vx vy vz pot soft = Raise ValueError).
Proof. exact c02_constructor. Qed.
Print Assumptions C02_constructor.

(** What is stored: the inputs unchanged, and derived arrays of the same length. *)
Theorem C02_stored : forall (N : Num) t (m x y z vx vy vz : list N) pot soft p,
  mk_pset t m x y z vx vy vz pot soft = Ok p ->
  p_type p = t /\ p_m p = m /\ p_x p = x /\ p_y p = y /\ p_z p = z /\
  p_vx p = vx /\ p_vy p = vy /\ p_vz p = vz /\ p_pot p = pot /\ p_soft p = soft /\
  (p_haspot p = true <-> exists l, pot = Some l) /\ plen p = length m /\
  Forall (fun l => length l = length m) [p_ke p; p_Jx p; p_Jy p; p_Jz p] /\
  (forall l, p_te p = Some l -> length l = length m) /\
  (p_te p = None <-> pot = None).
Proof. exact c02_stored. Qed.
Print Assumptions C02_stored.

Example EX_C02_ok : exists p, (zset STARS [1; 2] [1; 2] [1; 2] [1; 2] [1; 2] [1; 2] [1; 2] (Some [1; 2]) 0)%Z = Ok p.
Proof. exact ex_c02_ok. Qed.

(** numpy would broadcast the length-1 velocity, the constructor still refuses it. *)
Example EX_C02_broadcast : (zset STARS [1; 2] [1; 2] [1; 2] [1; 2] [1] [1; 2] [1; 2] None 0)%Z = Raise ValueError.
Proof. exact ex_c02_broadcast. Qed.

(** Energies and angular momentum of particle [i] come from particle [i] alone, in the
    documented operation order, in any arithmetic. *)
Theorem C03_derived : forall (N : Num) (p : pset N) i x y z vx vy vz,
  constructible_set p ->
  nth_error (p_x p) i = Some x -> nth_error (p_y p) i = Some y -> nth_error (p_z p) i = Some z ->
  nth_error (p_vx p) i = Some vx -> nth_error (p_vy p) i = Some vy -> nth_error (p_vz p) i = Some vz ->
  nth_error (p_ke p) i = Some (nlit 1 2 * (vx * vx + vy * vy + vz * vz))%num /\
  nth_error (p_Jx p) i = Some (y * vz - z * vy)%num /\
  nth_error (p_Jy p) i = Some (z * vx - x * vz)%num /\
  nth_error (p_Jz p) i = Some (x * vy - y * vx)%num /\
  (p_pot p = None -> p_te p = None) /\
  (forall pot u, p_pot p = Some pot -> nth_error pot i = Some u ->
     exists te, p_te p = Some te /\
       nth_error te i = Some (nlit 1 2 * (vx * vx + vy * vy + vz * vz) + u)%num).
Proof. exact c03_derived. Qed.
Print Assumptions C03_derived.

(** In exact arithmetic, on finite data: J is orthogonal to position and velocity and
    the kinetic energy is half the squared speed, hence non-negative. *)
Theorem C03_physics : forall (p : pset RX) i x y z vx vy vz,
  constructible_set p ->
  nth_error (p_x p) i = Some (XR x) -> nth_error (p_y p) i = Some (XR y) -> nth_error (p_z p) i = Some (XR z) ->
  nth_error (p_vx p) i = Some (XR vx) -> nth_error (p_vy p) i = Some (XR vy) -> nth_error (p_vz p) i = Some (XR vz) ->
  exists jx jy jz ke,
    nth_error (p_Jx p) i = Some (XR jx) /\ nth_error (p_Jy p) i = Some (XR jy) /\
    nth_error (p_Jz p) i = Some (XR jz) /\ nth_error (p_ke p) i = Some (XR ke) /\
    (jx * x + jy * y + jz * z = 0 /\ jx * vx + jy * vy + jz * vz = 0 /\
     jx * jx + jy * jy + jz * jz =
       (x*x + y*y + z*z) * (vx*vx + vy*vy + vz*vz) - (x*vx + y*vy + z*vz) * (x*vx + y*vy + z*vz) /\
     ke = (vx*vx + vy*vy + vz*vz) / 2 /\ 0 <= ke)%R.
Proof. exact c03_physics. Qed.
Print Assumptions C03_physics.

Example EX_C03 : exists p, (zset STARS [1] [1] [2] [3] [4] [5] [6] (Some [-100]) 0)%Z = Ok p /\
  (shows (p_Jx p), shows (p_Jy p), shows (p_Jz p), oshow (p_te p)) =
  ([sZ (-3)], [sZ 6], [sZ (-3)], Some [sQ (-123) 2]).
Proof. exact ex_c03. Qed.

(** Galaxy construction: mixed potentials are a ValueError, otherwise a misplaced set is
    a TypeError, otherwise the galaxy is built and knows whether it has a potential. *)
Theorem C04_galaxy : forall (N : Num) (s d q : pset N),
  let mixed := ~ (p_haspot s = p_haspot d /\ p_haspot d = p_haspot q) in
  let typed := p_type s = STARS /\ p_type d = DARK_MATTER /\ p_type q = GAS in
  (mk_galaxy s d q = Raise ValueError <-> mixed) /\
  (mk_galaxy s d q = Raise TypeError <-> ~ mixed /\ ~ typed) /\
  (forall g, mk_galaxy s d q = Ok g <->
     (~ mixed /\ typed /\ g_stars g = s /\ g_dm g = d /\ g_gas g = q /\
      g_haspot g = p_haspot s)).
Proof. exact c04_galaxy. Qed.
Print Assumptions C04_galaxy.

(** [mkgalaxy] called with all required arrays (and well-typed optional ones) never
    raises TypeError: it only fails, with ValueError, for unequal lengths or mixed potentials. *)
Theorem C04_mkgalaxy_no_typeerror : forall (N : Num) (us ud uq : upd9 N) e,
  mkgalaxy (kw3 us ud uq) = Raise e -> e = ValueError.
Proof. exact c04_mkgalaxy_no_typeerror. Qed.
Print Assumptions C04_mkgalaxy_no_typeerror.

Example EX_C04 : is_ok (gal3 (Some (-5)%Z) (Some (-4)%Z) (Some (-3)%Z)) = true /\
  gal3 (Some (-5)%Z) None (Some (-3)%Z) = Raise ValueError /\
  (do s <- mkset1 GAS None 1; do d <- mkset1 DARK_MATTER None 2; do q <- mkset1 STARS None 3;
   mk_galaxy s d q) = Raise TypeError.
Proof. exact ex_c04. Qed.

Theorem C05_round_trip : forall (N : Num) (g : galaxy N),
  constructible g -> mkgalaxy (galaxy_as_kwargs g) = Ok g.
Proof. exact c05_round_trip. Qed.
Print Assumptions C05_round_trip.

(** The dictionary has exactly the 27 parameters of [mkgalaxy]. *)
Theorem C05_keys : forall (N : Num) (g : galaxy N),
  NoDup (dkeys (galaxy_as_kwargs g)) /\ length (galaxy_as_kwargs g) = 27%nat /\
  (forall k, In k (dkeys (galaxy_as_kwargs g)) <->
     exists a s, k = (a ++ "_" ++ s)%string /\
       In a ["m"; "x"; "y"; "z"; "vx"; "vy"; "vz"; "potential"; "softening"]%string /\
       In s ["s"; "dm"; "g"]%string).
Proof. exact c05_keys. Qed.
Print Assumptions C05_keys.

Example EX_C05 : exists g, gal3 (Some (-5)%Z) (Some (-4)%Z) (Some (-3)%Z) = Ok g /\
  rmap gshow (mkgalaxy (galaxy_as_kwargs g)) = Ok (gshow g).
Proof. exact ex_c05. Qed.

(** The rows of the frame: the wanted sets stacked in the order stars, dark matter, gas;
    row [i] of a set's block holds the attributes of particle [i] of that set. *)
Theorem C06_rows : forall (N : Num) (g : galaxy N) sel a d (keep : pset N -> bool),
  constructible g -> to_df g sel a = Ok d -> requested a <> [] ->
  (forall p, keep p = true <-> wanted sel p) ->
  let kept := filter keep (sets g) in
  nrows d = list_sum (map plen kept) /\
  (forall k c, get_col d k = Ok c -> length c = nrows d) /\
  (forall before p after i k,
     kept = before ++ p :: after -> (i < plen p)%nat -> In k (requested a) ->
     cell_at d k (list_sum (map plen before) + i) = attr_value p k i /\ attr_value p k i <> None).
Proof. exact c06_rows. Qed.
Print Assumptions C06_rows.

(** When the frame exists, and its columns: the requested names, first occurrences, in order. *)
Theorem C07_columns : forall (N : Num) (g : galaxy N) sel a (keep : pset N -> bool),
  constructible g -> (forall p, keep p = true <-> wanted sel p) ->
  let kept := filter keep (sets g) in
  (kept = [] -> to_df g sel a = Raise ValueError) /\
  (kept <> [] -> (exists k, In k (requested a) /\ ~ known_attr k) -> to_df g sel a = Raise KeyError) /\
  (kept <> [] -> (forall k, In k (requested a) -> known_attr k) -> requested a <> [] ->
     (forall k, In k (requested a) -> scalar_attr (g_haspot g) k) -> to_df g sel a = Raise ValueError) /\
  (kept <> [] -> (forall k, In k (requested a) -> known_attr k) ->
     (exists k, In k (requested a) /\ ~ scalar_attr (g_haspot g) k) ->
     exists d, to_df g sel a = Ok d /\ dkeys (cols d) = first_occurrences (requested a)) /\
  (kept <> [] -> a = Some [] -> to_df g sel a = Ok (mkDf 0 [])).
Proof. exact c07_columns. Qed.
Print Assumptions C07_columns.

(** One set: which attribute requests are refused. *)
Theorem C07_particle_set : forall (N : Num) (p : pset N) a,
  constructible_set p ->
  ((exists k, In k (requested a) /\ ~ known_attr k) -> pset_to_df p a = Raise KeyError) /\
  ((forall k, In k (requested a) -> known_attr k) -> requested a <> [] ->
     (forall k, In k (requested a) -> scalar_attr (p_haspot p) k) -> pset_to_df p a = Raise ValueError) /\
  ((forall k, In k (requested a) -> known_attr k) ->
     (exists k, In k (requested a) /\ ~ scalar_attr (p_haspot p) k) ->
     exists d, pset_to_df p a = Ok d /\ nrows d = plen p /\
       dkeys (cols d) = first_occurrences (requested a)).
Proof. exact c07_particle_set. Qed.
Print Assumptions C07_particle_set.

Example EX_C06 : exists g, gal3 (Some (-5)%Z) (Some (-4)%Z) (Some (-3)%Z) = Ok g /\
  rmap dfshow (to_df g (PTList ["gas"; "stars"]%string) (Some ["x"; "ptype"; "softening"; "x"]%string)) =
  Ok [("x", [ShF (sZ 2); ShF (sZ 4)]); ("ptype", [ShS "stars"; ShS "gas"]);
            ("softening", [ShF (sZ 0); ShF (sZ 0)])]%string.
Proof. exact ex_c06. Qed.

Example EX_C07 : exists g, gal3 None None None = Ok g /\
  exn_of (to_df g PTNone (Some ["softening"; "potential"]%string)) = Some ValueError /\
  exn_of (to_df g (PTList ["star"]%string) (Some ["x"]%string)) = Some ValueError /\
  exn_of (to_df g PTNone (Some ["x"; "foo"]%string)) = Some KeyError.
Proof. exact ex_c07. Qed.
