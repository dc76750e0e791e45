(** Model of galaxychop/data.py. *)
From Verif Require Import Py Num Np Df.

(** data.py 30-40: [class ParticleSetType(enum.IntEnum)]. *)
Inductive ptype : Type := STARS | DARK_MATTER | GAS.

(** data.py 38-40: the values. *)
Definition ptype_value (p : ptype) : Z :=
  match p with STARS => 0 | DARK_MATTER => 1 | GAS => 2 end.
(** data.py 38-40: the names. *)
Definition ptype_name (p : ptype) : string :=
  match p with STARS => "STARS" | DARK_MATTER => "DARK_MATTER" | GAS => "GAS" end.
(** Iteration order of the enum (definition order) (data.py 49). *)
Definition ptypes_all : list ptype := [STARS; DARK_MATTER; GAS].

(** data.py 54-56: [humanize] is [self.name.lower()]. *)
Definition humanize (p : ptype) : string := lower (ptype_name p).

(** Members are compared by value (data.py 327-333). *)
Definition ptype_eqb (p q : ptype) : bool := Z.eqb (ptype_value p) (ptype_value q).

Section Data.
Context {N : Num}.

(** Python values that can be handed to [mktype]. [PyOther] stands for any object
    that is equal to no string and no integer (tuples, lists, dicts, ...).
    Simplification: strings are ASCII (data.py 43). *)
Inductive pyval : Type :=
| PyNone | PyBool (b : bool) | PyInt (z : Z) | PyFloat (x : N)
| PyStr (s : string) | PyType (p : ptype) | PyOther.

(** [v in (p.name, p.value)]: equality with the name or with the integer value
    (Python: [True == 1], [0.0 == 0]) (data.py 50). *)
Definition py_matches (v : pyval) (p : ptype) : bool :=
  match v with
  | PyStr s => String.eqb s (ptype_name p)
  | PyInt z => Z.eqb z (ptype_value p)
  | PyBool b => Z.eqb (if b then 1 else 0) (ptype_value p)
  | PyFloat x => neqb x (nofZ (ptype_value p))
  | _ => false
  end.

(** data.py 42-52: [ParticleSetType.mktype]. *)
Definition mktype (v : pyval) : res ptype :=
  match v with
  | PyType p => Ok p
  | _ =>
    let v := match v with PyStr s => PyStr (upper s) | _ => v end in
    match find (py_matches v) ptypes_all with
    | Some p => Ok p
    | None => Raise ValueError
    end
  end.

(** data.py 59-126: [class ParticleSet].  Arrays are in the canonical units (units
    are not modelled); the [_]-suffixed attributes are computed at construction. *)
Record pset : Type := mkPset {
  p_type : ptype;
  p_m : list N; p_x : list N; p_y : list N; p_z : list N;
  p_vx : list N; p_vy : list N; p_vz : list N;
  p_pot : option (list N);
  p_soft : N;
  p_haspot : bool;
  p_ke : list N;
  p_te : option (list N);
  p_Jx : list N; p_Jy : list N; p_Jz : list N
}.

(** [a ** 2] (numpy evaluates it as [a * a]) (data.py 137). *)
Definition sq_arr (a : list N) : list N := map (fun x => (x * x)%num) a.

(** data.py 133-138: [0.5 * (vx**2 + vy**2 + vz**2)], with numpy broadcasting. *)
Definition kinetic_default (vx vy vz : list N) : res (list N) :=
  do s1 <- bop nadd (sq_arr vx) (sq_arr vy);
  do s2 <- bop nadd s1 (sq_arr vz);
  Ok (map (nmul (nlit 1 2)) s2).

(** data.py 140-149: kinetic + potential, [None] without potential. *)
Definition total_default (ke : list N) (pot : option (list N)) : res (option (list N)) :=
  match pot with
  | None => Ok None
  | Some p => do t <- bop nadd ke p; Ok (Some t)
  end.

(** data.py 151-165: one component [a * d - b * c] of [r x v]. *)
Definition cross_default (a d b c : list N) : res (list N) :=
  do p <- bop nmul a d; do q <- bop nmul b c; bop nsub p q.

(** data.py 167-195: [__attrs_post_init__]: one common length. *)
Definition same_lengths (m x y z vx vy vz : list N) (pot : option (list N)) : bool :=
  forallb (fun l => Nat.eqb (length l) (length m)) [x; y; z; vx; vy; vz]
  && match pot with None => true | Some p => Nat.eqb (length p) (length m) end.

(** data.py 59-195: [ParticleSet(ptype, m, x, y, z, vx, vy, vz, potential, softening)].
    The derived attributes are evaluated first (they may already fail to broadcast),
    then the lengths are compared. *)
Definition mk_pset (t : ptype) (m x y z vx vy vz : list N)
    (pot : option (list N)) (soft : N) : res pset :=
  let haspot := match pot with Some _ => true | None => false end in
  do ke <- kinetic_default vx vy vz;
  do te <- total_default ke pot;
  do jx <- cross_default y vz z vy;
  do jy <- cross_default z vx x vz;
  do jz <- cross_default x vy y vx;
  do _ <- guard (same_lengths m x y z vx vy vz pot) ValueError;
  Ok (mkPset t m x y z vx vy vz pot soft haspot ke te jx jy jz).

(** data.py 214-216: [__len__]. *)
Definition plen (p : pset) : nat := length (p_m p).

(** A column of floats (data.py 240-262). *)
Definition anum (l : list N) : coldata N := Arr (map CNum l).

(** data.py 240-262: [columns_makers], in order. *)
Definition column_makers (p : pset) : dict (coldata N) :=
  [("ptype"%string, Arr (repeat (CStr (humanize (p_type p))) (plen p)));
   ("ptypev"%string, Arr (repeat (CInt (ptype_value (p_type p))) (plen p)));
   ("m"%string, anum (p_m p));
   ("x"%string, anum (p_x p)); ("y"%string, anum (p_y p)); ("z"%string, anum (p_z p));
   ("vx"%string, anum (p_vx p)); ("vy"%string, anum (p_vy p)); ("vz"%string, anum (p_vz p));
   ("softening"%string, Scal (CNum (p_soft p)));
   ("potential"%string,
     match p_pot p with Some l => anum l | None => Scal cnan end);
   ("kinetic_energy"%string, anum (p_ke p));
   ("total_energy"%string,
     match p_te p with Some l => anum l | None => Scal cnan end);
   ("Jx"%string, anum (p_Jx p)); ("Jy"%string, anum (p_Jy p)); ("Jz"%string, anum (p_Jz p))].

(** data.py 240-262, the keys. *)
Definition all_attributes : list string :=
  ["ptype"; "ptypev"; "m"; "x"; "y"; "z"; "vx"; "vy"; "vz"; "softening"; "potential";
   "kinetic_energy"; "total_energy"; "Jx"; "Jy"; "Jz"]%string.

(** data.py 263-269: the loop filling an OrderedDict; KeyError on unknown names. *)
Fixpoint fill_columns (makers : dict (coldata N)) (acc : dict (coldata N))
    (attrs : list string) : res (dict (coldata N)) :=
  match attrs with
  | [] => Ok acc
  | a :: attrs' =>
      match dget makers a with
      | None => Raise KeyError
      | Some c => fill_columns makers (dset acc a c) attrs'
      end
  end.

(** data.py 220-270: [ParticleSet.to_dataframe(attributes)]. *)
Definition pset_to_df (p : pset) (attributes : option (list string)) : res (df N) :=
  let attrs := match attributes with None => all_attributes | Some l => l end in
  do d <- fill_columns (column_makers p) [] attrs;
  mk_df d.

(** data.py 278-305: [class Galaxy]. *)
Record galaxy : Type := mkGal {
  g_stars : pset; g_dm : pset; g_gas : pset; g_haspot : bool
}.

(** data.py 307-334: [Galaxy(stars, dark_matter, gas)]: mixed potentials raise
    ValueError (default of [has_potential_]), then the types are checked. *)
Definition mk_galaxy (s d g : pset) : res galaxy :=
  let hs := p_haspot s in let hd := p_haspot d in let hg := p_haspot g in
  if (hs || hg || hd) && negb (hs && hg && hd) then Raise ValueError
  else
    if negb (ptype_eqb (p_type s) STARS) then Raise TypeError
    else if negb (ptype_eqb (p_type d) DARK_MATTER) then Raise TypeError
    else if negb (ptype_eqb (p_type g) GAS) then Raise TypeError
    else Ok (mkGal s d g hs).

(** data.py 336-338: [__len__]. *)
Definition glen (g : galaxy) : nat := plen (g_stars g) + plen (g_dm g) + plen (g_gas g).

(** The [ptypes] argument: None, a container of strings, or a plain string (for which
    Python's [in] is the substring test) (data.py 350). *)
Inductive ptsel : Type := PTNone | PTList (l : list string) | PTStr (s : string).

(** [in] between strings (data.py 376). *)
Definition is_substring (sub s : string) : bool :=
  match String.index 0 sub s with Some _ => true | None => false end.

(** data.py 373-376: [ptypes is None or pset.ptype.humanize() in ptypes]. *)
Definition selected (sel : ptsel) (p : pset) : bool :=
  match sel with
  | PTNone => true
  | PTList l => smem (humanize (p_type p)) l
  | PTStr s => is_substring (humanize (p_type p)) s
  end.

(** data.py 372. *)
Definition psets (g : galaxy) : list pset := [g_stars g; g_dm g; g_gas g].

(** data.py 350-380: [Galaxy.to_dataframe(ptypes, attributes)]. *)
Definition to_df (g : galaxy) (sel : ptsel) (attributes : option (list string)) : res (df N) :=
  do parts <- mapM (fun p => pset_to_df p attributes) (filter (selected sel) (psets g));
  concat_rows parts.

(** data.py 419-534: energy and angular momentum properties. *)
Definition kinetic_energy_ (g : galaxy) : list N * list N * list N :=
  (p_ke (g_stars g), p_ke (g_dm g), p_ke (g_gas g)).
(** data.py 445-474. *)
Definition potential_energy_ (g : galaxy)
  : option (option (list N) * option (list N) * option (list N)) :=
  if g_haspot g then Some (p_pot (g_stars g), p_pot (g_dm g), p_pot (g_gas g)) else None.
(** data.py 476-504. *)
Definition total_energy_ (g : galaxy)
  : option (option (list N) * option (list N) * option (list N)) :=
  if g_haspot g then Some (p_te (g_stars g), p_te (g_dm g), p_te (g_gas g)) else None.

(** A keyword-argument value: array, number or None (data.py 573-601). *)
Inductive kwval : Type := KArr (l : list N) | KNum (x : N) | KNone.

(** data.py 558-561, 563: [attr.asdict] keeps the init attributes of a particle set, in
    definition order, and [ptype] is dropped. *)
Definition pset_kwargs (p : pset) (suffix : string) : dict kwval :=
  [(("m_" ++ suffix)%string, KArr (p_m p));
   (("x_" ++ suffix)%string, KArr (p_x p));
   (("y_" ++ suffix)%string, KArr (p_y p));
   (("z_" ++ suffix)%string, KArr (p_z p));
   (("vx_" ++ suffix)%string, KArr (p_vx p));
   (("vy_" ++ suffix)%string, KArr (p_vy p));
   (("vz_" ++ suffix)%string, KArr (p_vz p));
   (("potential_" ++ suffix)%string,
      match p_pot p with Some l => KArr l | None => KNone end);
   (("softening_" ++ suffix)%string, KNum (p_soft p))].

(** data.py 542-570: [galaxy_as_kwargs]. *)
Definition galaxy_as_kwargs (g : galaxy) : dict kwval :=
  dupdate [] (pset_kwargs (g_stars g) "s" ++ pset_kwargs (g_dm g) "dm"
              ++ pset_kwargs (g_gas g) "g").

(** Parameter names of one particle set in [mkgalaxy]'s signature (data.py 574-594). *)
Definition required_names (suffix : string) : list string :=
  map (fun k => (k ++ "_" ++ suffix)%string) ["m"; "x"; "y"; "z"; "vx"; "vy"; "vz"]%string.
(** data.py 595-600. *)
Definition optional_names (suffix : string) : list string :=
  map (fun k => (k ++ "_" ++ suffix)%string) ["softening"; "potential"]%string.
(** data.py 573-601: all parameters. *)
Definition mkgalaxy_params : list string :=
  flat_map required_names ["s"; "dm"; "g"]%string
  ++ flat_map optional_names ["s"; "dm"; "g"]%string.

(** A required array argument. Anything but an array ends in a TypeError
    (simplification: scalars and None are not distinguished) (data.py 645-680). *)
Definition kw_array (kw : dict kwval) (k : string) : res (list N) :=
  match dget kw k with Some (KArr l) => Ok l | _ => Raise TypeError end.
(** data.py 595-597, 114: softening, default 0.0, converted by [float], which also takes an
    array with one element. *)
Definition kw_soft (kw : dict kwval) (k : string) : res N :=
  match dget kw k with
  | Some (KNum x) | Some (KArr [x]) => Ok x
  | None => Ok n0
  | Some _ => Raise TypeError
  end.
(** data.py 598-600: potential, default None; validated as an ndarray. *)
Definition kw_pot (kw : dict kwval) (k : string) : res (option (list N)) :=
  match dget kw k with
  | Some (KArr l) => Ok (Some l)
  | Some KNone | None => Ok None
  | Some (KNum _) => Raise TypeError
  end.

(** data.py 645-680: one [ParticleSet(...)] call of [mkgalaxy]. *)
Definition mk_pset_kw (kw : dict kwval) (t : ptype) (suffix : string) : res pset :=
  do m <- kw_array kw ("m_" ++ suffix);
  do x <- kw_array kw ("x_" ++ suffix);
  do y <- kw_array kw ("y_" ++ suffix);
  do z <- kw_array kw ("z_" ++ suffix);
  do vx <- kw_array kw ("vx_" ++ suffix);
  do vy <- kw_array kw ("vy_" ++ suffix);
  do vz <- kw_array kw ("vz_" ++ suffix);
  do pot <- kw_pot kw ("potential_" ++ suffix);
  do soft <- kw_soft kw ("softening_" ++ suffix);
  mk_pset t m x y z vx vy vz pot soft.

(** data.py 573-682: [mkgalaxy( **kw)].  Python's call protocol: an unexpected or a
    missing keyword is a TypeError before the body runs. *)
Definition mkgalaxy (kw : dict kwval) : res galaxy :=
  do _ <- guard (forallb (fun k => smem k mkgalaxy_params) (dkeys kw)) TypeError;
  do _ <- guard (forallb (fun k => smem k (dkeys kw))
                   (flat_map required_names ["s"; "dm"; "g"]%string)) TypeError;
  do s <- mk_pset_kw kw STARS "s";
  do d <- mk_pset_kw kw DARK_MATTER "dm";
  do g <- mk_pset_kw kw GAS "g";
  mk_galaxy s d g.

End Data.
Arguments pyval : clear implicits.
Arguments pset : clear implicits.
Arguments galaxy : clear implicits.
Arguments kwval : clear implicits.
