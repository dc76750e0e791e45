(** Model of the physical units in galaxychop/data.py and of the functions that rebuild a galaxy.

    The other files take all arrays in the default units.  Here the attributes are what the code
    stores: numbers together with a unit.  uttrs is modelled as documented: an argument without unit
    gets the default unit, one with a unit keeps it, the unit has to be equivalent to the default
    one, and [arr_] converts to the default unit. *)
From Verif Require Import Py Num Np Df Data Center Align Potential.

Section Units.
Context {N : Num} {unit : Type}.

(** astropy: the conversion between two units; None if they are not equivalent. *)
Context (conv : unit -> unit -> option (N -> N)).
(** data.py 101-125: the default units M_sun, kpc, km/s, (km/s)^2, kpc km/s. *)
Context (Msun kpc kms kms2 kpckms : unit).

(** An astropy Quantity: numbers and a unit (data.py 101-125). *)
Record qty : Type := Qty { q_val : list N; q_unit : unit }.

(** uttrs [ArrayAccessor.__getattr__] (data.py 91-94): the values in the default unit [c].  The
    UnitConversionError of astropy is a ValueError. *)
Definition arr (c : unit) (q : qty) : res (list N) :=
  match conv (q_unit q) c with Some f => Ok (map f (q_val q)) | None => Raise ValueError end.
(** uttrs: the validator of an attribute with unit [c] (data.py 101-125). *)
Definition fits (c : unit) (q : qty) : bool := match conv (q_unit q) c with Some _ => true | None => false end.

(** data.py 59-126: the attributes as stored. *)
Record uset : Type := mkUset {
  us_type : ptype;
  us_m : qty; us_x : qty; us_y : qty; us_z : qty; us_vx : qty; us_vy : qty; us_vz : qty;
  us_pot : option qty; us_soft : N; us_haspot : bool;
  us_ke : qty; us_te : option qty; us_Jx : qty; us_Jy : qty; us_Jz : qty }.

(** data.py 59-195: construction.  The defaults of the derived attributes read [arr_] and get the
    default unit; then the validators run, then the lengths are compared. *)
Definition u_mk_pset (t : ptype) (m x y z vx vy vz : qty) (pot : option qty) (soft : N) : res uset :=
  let haspot := match pot with Some _ => true | None => false end in
  do avx <- arr kms vx; do avy <- arr kms vy; do avz <- arr kms vz;
  do ke <- kinetic_default avx avy avz;
  do te <- match pot with
           | None => Ok None
           | Some p => do ake <- arr kms2 (Qty ke kms2); do ap <- arr kms2 p; total_default ake (Some ap)
           end;
  do ay <- arr kpc y; do az <- arr kpc z;
  do jx <- cross_default ay avz az avy;
  do ax <- arr kpc x;
  do jy <- cross_default az avx ax avz;
  do jz <- cross_default ax avy ay avx;
  do _ <- guard (fits Msun m && fits kpc x && fits kpc y && fits kpc z && fits kms vx && fits kms vy && fits kms vz
                 && match pot with Some p => fits kms2 p | None => true end) ValueError;
  do _ <- guard (same_lengths (q_val m) (q_val x) (q_val y) (q_val z) (q_val vx) (q_val vy) (q_val vz)
                   (option_map q_val pot)) ValueError;
  Ok (mkUset t m x y z vx vy vz pot soft haspot (Qty ke kms2) (option_map (fun l => Qty l kms2) te)
        (Qty jx kpckms) (Qty jy kpckms) (Qty jz kpckms)).

(** data.py 278-334: [class Galaxy]. *)
Record ugalaxy : Type := mkUgal { ug_stars : uset; ug_dm : uset; ug_gas : uset; ug_haspot : bool }.

(** data.py 307-334. *)
Definition u_mk_galaxy (s d g : uset) : res ugalaxy :=
  let hs := us_haspot s in let hd := us_haspot d in let hg := us_haspot g in
  if (hs || hg || hd) && negb (hs && hg && hd) then Raise ValueError
  else
    if negb (ptype_eqb (us_type s) STARS) then Raise TypeError
    else if negb (ptype_eqb (us_type d) DARK_MATTER) then Raise TypeError
    else if negb (ptype_eqb (us_type g) GAS) then Raise TypeError
    else Ok (mkUgal s d g hs).

(** A keyword argument: array, Quantity, number, number with unit, None (data.py 573-601). *)
Inductive uval : Type := UArr (l : list N) | UQty (q : qty) | UNum (x : N) | UNumQ (x : N) (u : unit) | UNone.

(** uttrs: an argument without unit gets the default one (data.py 101-107, 109). *)
Definition u_array (kw : dict uval) (k : string) (c : unit) : res qty :=
  match dget kw k with Some (UArr l) => Ok (Qty l c) | Some (UQty q) => Ok q | _ => Raise TypeError end.
(** data.py 117, 595-597: [float(softening)], which does not take anything with a unit.
    (Simplification: dimensionless quantities are left out.) *)
Definition u_soft (kw : dict uval) (k : string) : res N :=
  match dget kw k with
  | Some (UNum x) | Some (UArr [x]) => Ok x
  | None => Ok n0
  | Some _ => Raise TypeError
  end.
(** data.py 109-115, 598-600. *)
Definition u_kwpot (kw : dict uval) (k : string) : res (option qty) :=
  match dget kw k with
  | Some (UArr l) => Ok (Some (Qty l kms2))
  | Some (UQty q) => Ok (Some q)
  | Some UNone | None => Ok None
  | Some _ => Raise TypeError
  end.

(** data.py 645-680. *)
Definition u_mk_pset_kw (kw : dict uval) (t : ptype) (suffix : string) : res uset :=
  do m <- u_array kw ("m_" ++ suffix) Msun;
  do x <- u_array kw ("x_" ++ suffix) kpc;
  do y <- u_array kw ("y_" ++ suffix) kpc;
  do z <- u_array kw ("z_" ++ suffix) kpc;
  do vx <- u_array kw ("vx_" ++ suffix) kms;
  do vy <- u_array kw ("vy_" ++ suffix) kms;
  do vz <- u_array kw ("vz_" ++ suffix) kms;
  do pot <- u_kwpot kw ("potential_" ++ suffix);
  do soft <- u_soft kw ("softening_" ++ suffix);
  u_mk_pset t m x y z vx vy vz pot soft.

(** data.py 573-682: [mkgalaxy( **kw)]. *)
Definition u_mkgalaxy (kw : dict uval) : res ugalaxy :=
  do _ <- guard (forallb (fun k => smem k mkgalaxy_params) (dkeys kw)) TypeError;
  do _ <- guard (forallb (fun k => smem k (dkeys kw))
                   (flat_map required_names ["s"; "dm"; "g"]%string)) TypeError;
  do s <- u_mk_pset_kw kw STARS "s";
  do d <- u_mk_pset_kw kw DARK_MATTER "dm";
  do g <- u_mk_pset_kw kw GAS "g";
  u_mk_galaxy s d g.

(** data.py 542-570: [galaxy_as_kwargs]: the attributes as stored, with their units. *)
Definition u_pset_kwargs (p : uset) (suffix : string) : dict uval :=
  [(("m_" ++ suffix)%string, UQty (us_m p));
   (("x_" ++ suffix)%string, UQty (us_x p)); (("y_" ++ suffix)%string, UQty (us_y p));
   (("z_" ++ suffix)%string, UQty (us_z p));
   (("vx_" ++ suffix)%string, UQty (us_vx p)); (("vy_" ++ suffix)%string, UQty (us_vy p));
   (("vz_" ++ suffix)%string, UQty (us_vz p));
   (("potential_" ++ suffix)%string, match us_pot p with Some q => UQty q | None => UNone end);
   (("softening_" ++ suffix)%string, UNum (us_soft p))].
(** data.py 542-570. *)
Definition u_as_kwargs (g : ugalaxy) : dict uval :=
  dupdate [] (u_pset_kwargs (ug_stars g) "s" ++ u_pset_kwargs (ug_dm g) "dm" ++ u_pset_kwargs (ug_gas g) "g").

(** Everything [arr_] shows of a set; what [to_dataframe] (data.py 220-270) and the energies of a set
    in the default units are made from. *)
Definition u_values (p : uset) : res (pset N) :=
  do m <- arr Msun (us_m p);
  do x <- arr kpc (us_x p); do y <- arr kpc (us_y p); do z <- arr kpc (us_z p);
  do vx <- arr kms (us_vx p); do vy <- arr kms (us_vy p); do vz <- arr kms (us_vz p);
  do pot <- match us_pot p with Some q => do l <- arr kms2 q; Ok (Some l) | None => Ok None end;
  do ke <- arr kms2 (us_ke p);
  do te <- match us_te p with Some q => do l <- arr kms2 q; Ok (Some l) | None => Ok None end;
  do jx <- arr kpckms (us_Jx p); do jy <- arr kpckms (us_Jy p); do jz <- arr kpckms (us_Jz p);
  Ok (mkPset (us_type p) m x y z vx vy vz pot (us_soft p) (us_haspot p) ke te jx jy jz).
(** data.py 350-380: the same for the three sets. *)
Definition ug_values (g : ugalaxy) : res (galaxy N) :=
  do s <- u_values (ug_stars g); do d <- u_values (ug_dm g); do q <- u_values (ug_gas g);
  Ok (mkGal s d q (ug_haspot g)).

(** data.py 420-443: [kinetic_energy_] gives the derived quantities, [potential_energy_] the stored ones. *)
Definition u_kinetic_energy_ (g : ugalaxy) : list qty := map us_ke [ug_stars g; ug_dm g; ug_gas g].
(** data.py 445-474. *)
Definition u_potential_energy_ (g : ugalaxy) : option (list (option qty)) :=
  if ug_haspot g then Some (map us_pot [ug_stars g; ug_dm g; ug_gas g]) else None.
(** data.py 476-504. *)
Definition u_total_energy_ (g : ugalaxy) : option (list (option qty)) :=
  if ug_haspot g then Some (map us_te [ug_stars g; ug_dm g; ug_gas g]) else None.
(** data.py 199-205, 506-534. *)
Definition u_angular_momentum_ (g : ugalaxy) : list (list qty) :=
  map (fun p => [us_Jx p; us_Jy p; us_Jz p]) [ug_stars g; ug_dm g; ug_gas g].

(** New arrays without units, as handed to [dict.update] (_center.py 64-76, _align.py 150-170). *)
Definition bare (kw : dict (kwval N)) : dict uval :=
  map (fun kv => (fst kv, match snd kv with KArr l => UArr l | KNum x => UNum x | KNone => UNone end)) kw.
End Units.
Arguments qty : clear implicits.
Arguments uset : clear implicits.
Arguments ugalaxy : clear implicits.
Arguments uval : clear implicits.

(** The arrays that [center], [star_align] and [potential] compute; they read the galaxy only through
    [to_dataframe]. *)
Section News.
Context {N : Num}.
(** _center.py 40-73. *)
Definition center_news (g : galaxy N) : res (dict (kwval N)) :=
  do _ <- guard (g_haspot g) ValueError;
  do d <- to_df g PTNone (Some ["ptypev"; "x"; "y"; "z"; "potential"]%string);
  do pt <- get_col d "ptypev";
  do cx <- get_col d "x";
  do cy <- get_col d "y";
  do cz <- get_col d "z";
  do cp <- get_col d "potential";
  do i <- pd_argmin (to_numpy cp);
  do x0 <- iloc cx i;
  do y0 <- iloc cy i;
  do z0 <- iloc cz i;
  let nx := map (fun v => (v - x0)%num) (to_numpy cx) in
  let ny := map (fun v => (v - y0)%num) (to_numpy cy) in
  let nz := map (fun v => (v - z0)%num) (to_numpy cz) in
  let ms := ptype_mask pt STARS in
  let md := ptype_mask pt DARK_MATTER in
  let mg := ptype_mask pt GAS in
  Ok [("x_s"%string, KArr (bmask ms nx)); ("y_s"%string, KArr (bmask ms ny));
     ("z_s"%string, KArr (bmask ms nz));
     ("x_dm"%string, KArr (bmask md nx)); ("y_dm"%string, KArr (bmask md ny));
     ("z_dm"%string, KArr (bmask md nz));
     ("x_g"%string, KArr (bmask mg nx)); ("y_g"%string, KArr (bmask mg ny));
     ("z_g"%string, KArr (bmask mg nz))].
(** _align.py 109-170. *)
Definition align_news (r_cut : option N) (g : galaxy N) : res (dict (kwval N)) :=
  do _ <- guard (match r_cut with Some c => negb (nle c n0) | None => true end) ValueError;
  do sd <- pset_to_df (g_stars g) (Some (["m"; "Jx"; "Jy"; "Jz"]%string ++ pos_vel));
  do dd <- pset_to_df (g_dm g) (Some pos_vel);
  do gd <- pset_to_df (g_gas g) (Some pos_vel);
  do m <- ncol sd "m";
  do x <- ncol sd "x"; do y <- ncol sd "y"; do z <- ncol sd "z";
  do Jx <- ncol sd "Jx"; do Jy <- ncol sd "Jy"; do Jz <- ncol sd "Jz";
  let A := get_rot_matrix m x y z Jx Jy Jz r_cut in
  do us <- rotated A sd "s";
  do ud <- rotated A dd "dm";
  do ug <- rotated A gd "g";
  Ok (us ++ ud ++ ug).
End News.
Section NewsPot.
Context {W S : Num} (cast : W -> S) (lift : S -> W).
(** _potential.py 134-175; the new values carry the default unit (172-174). *)
Definition potential_news (table : dict (backend S)) (name : string) (g : galaxy W) : res (dict (kwval W)) :=
  do _ <- guard (negb (g_haspot g)) ValueError;
  do f <- match dget table name with Some f => Ok f | None => Raise KeyError end;
  do d <- to_df g PTNone None;
  do x <- ncol d "x";
  do y <- ncol d "y";
  do z <- ncol d "z";
  do m <- ncol d "m";
  do so <- ncol d "softening";
  let softening := pd_max so in
  do pot <- f (map cast x) (map cast y) (map cast z) (map cast m) (cast softening);
  let num_s := plen (g_stars g) in
  let num := (plen (g_stars g) + plen (g_dm g))%nat in
  let neg := map (fun v => lift (nopp v)) in
  Ok [("potential_s"%string, KArr (neg (firstn num_s pot)));
      ("potential_dm"%string, KArr (neg (firstn (num - num_s) (skipn num_s pot))));
      ("potential_g"%string, KArr (neg (skipn num pot)))].
End NewsPot.

(** [new = galaxy_as_kwargs(galaxy); new.update(...); return mkgalaxy( **new)], as in _center.py 63-78,
    _align.py 143-172 and _potential.py 168-177, for a galaxy with units. *)
Section Rebuilt.
Context {N : Num} {unit : Type} (conv : unit -> unit -> option (N -> N)) (Msun kpc kms kms2 kpckms : unit).
(** _center.py 62-78, _align.py 148-172, _potential.py 168-177. *)
Definition u_rebuilt (news : galaxy N -> res (dict (kwval N))) (g : ugalaxy N unit) : res (ugalaxy N unit) :=
  do v <- ug_values conv Msun kpc kms kms2 kpckms g;
  do new <- news v;
  u_mkgalaxy conv Msun kpc kms kms2 kpckms (dupdate (u_as_kwargs g) (bare new)).
(** _center.py 26-78, _align.py 89-172. *)
Definition u_center : ugalaxy N unit -> res (ugalaxy N unit) := u_rebuilt center_news.
(** _align.py 89-172. *)
Definition u_star_align (g : ugalaxy N unit) (r_cut : option N) : res (ugalaxy N unit) := u_rebuilt (align_news r_cut) g.
End Rebuilt.
(** _potential.py 117-177. *)
Definition u_potential {W S : Num} {unit : Type} (conv : unit -> unit -> option (W -> W)) (Msun kpc kms kms2 kpckms : unit)
    (cast : W -> S) (lift : S -> W) (table : dict (backend S)) (name : string) (g : ugalaxy W unit) : res (ugalaxy W unit) :=
  u_rebuilt conv Msun kpc kms kms2 kpckms (potential_news cast lift table name) g.
