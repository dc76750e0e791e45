(** Small independent specifications used by the property statements. *)
From Verif Require Import Py Num Np Df Data.

Section Spec.
Context {N : Num}.

(** A galaxy that a user can hold: three particle sets accepted by the ParticleSet
    constructor, put together by the Galaxy constructor. *)
Definition constructible_set (p : pset N) : Prop :=
  exists t m x y z vx vy vz pot soft, mk_pset t m x y z vx vy vz pot soft = Ok p.
Definition constructible (g : galaxy N) : Prop :=
  exists s d q, constructible_set s /\ constructible_set d /\ constructible_set q /\
    mk_galaxy s d q = Ok g.

(** Which Python values name a particle type. *)
Inductive denotes : pyval N -> ptype -> Prop :=
| den_member p : denotes (PyType p) p
| den_int p : denotes (PyInt (ptype_value p)) p
| den_bool (b : bool) : denotes (PyBool b) (if b then DARK_MATTER else STARS)
| den_float x p : neqb x (nofZ (ptype_value p)) = true -> denotes (PyFloat x) p
| den_str s p : upper s = ptype_name p -> denotes (PyStr s) p.

(** Value of attribute [k] of particle [i]. *)
Definition attr_value (p : pset N) (k : string) (i : nat) : option (cell N) :=
  let num l := option_map CNum (nth_error l i) in
  if (k =? "ptype")%string then Some (CStr (humanize (p_type p)))
  else if (k =? "ptypev")%string then Some (CInt (ptype_value (p_type p)))
  else if (k =? "m")%string then num (p_m p)
  else if (k =? "x")%string then num (p_x p)
  else if (k =? "y")%string then num (p_y p)
  else if (k =? "z")%string then num (p_z p)
  else if (k =? "vx")%string then num (p_vx p)
  else if (k =? "vy")%string then num (p_vy p)
  else if (k =? "vz")%string then num (p_vz p)
  else if (k =? "softening")%string then Some (CNum (p_soft p))
  else if (k =? "potential")%string then
    match p_pot p with Some l => num l | None => Some (CNum nnan) end
  else if (k =? "kinetic_energy")%string then num (p_ke p)
  else if (k =? "total_energy")%string then
    match p_te p with Some l => num l | None => Some (CNum nnan) end
  else if (k =? "Jx")%string then num (p_Jx p)
  else if (k =? "Jy")%string then num (p_Jy p)
  else if (k =? "Jz")%string then num (p_Jz p)
  else None.

(** Which sets the [ptypes] argument asks for: all, those whose name is listed, or (for
    a plain string) those whose name is a substring. *)
Definition wanted (sel : ptsel) (p : pset N) : Prop :=
  match sel with
  | PTNone => True
  | PTList l => In (humanize (p_type p)) l
  | PTStr s => exists a b, s = (a ++ humanize (p_type p) ++ b)%string
  end.

(** Requested attribute names: the list given, or every known name. *)
Definition requested (a : option (list string)) : list string :=
  match a with
  | Some l => l
  | None => ["ptype"; "ptypev"; "m"; "x"; "y"; "z"; "vx"; "vy"; "vz"; "softening";
        "potential"; "kinetic_energy"; "total_energy"; "Jx"; "Jy"; "Jz"]%string
  end.

(** Attributes stored as one scalar per set. *)
Definition scalar_attr (haspot : bool) (k : string) : Prop :=
  k = "softening"%string \/
  (haspot = false /\ (k = "potential"%string \/ k = "total_energy"%string)).

(** Known attribute names. *)
Definition known_attr (k : string) : Prop :=
  In k ["ptype"; "ptypev"; "m"; "x"; "y"; "z"; "vx"; "vy"; "vz"; "softening";
        "potential"; "kinetic_energy"; "total_energy"; "Jx"; "Jy"; "Jz"]%string.

(** The names of [l] in order of first occurrence, without repetition. *)
Definition first_occurrences (l : list string) : list string :=
  rev (nodup string_dec (rev l)).

(** Everything but the positions (and what is derived from them) agrees. *)
Definition same_but_positions (p q : pset N) : Prop :=
  p_type p = p_type q /\ p_m p = p_m q /\ p_vx p = p_vx q /\ p_vy p = p_vy q /\
  p_vz p = p_vz q /\ p_pot p = p_pot q /\ p_soft p = p_soft q /\
  p_haspot p = p_haspot q /\ p_ke p = p_ke q /\ p_te p = p_te q /\ plen p = plen q.

(** Everything but positions, velocities and what is derived from them agrees. *)
Definition same_but_phase (p q : pset N) : Prop :=
  p_type p = p_type q /\ p_m p = p_m q /\ p_pot p = p_pot q /\ p_soft p = p_soft q /\
  p_haspot p = p_haspot q /\ plen p = plen q.

(** Everything but the potential and the total energy agrees. *)
Definition same_but_potential (p q : pset N) : Prop :=
  p_type p = p_type q /\ p_m p = p_m q /\ p_x p = p_x q /\ p_y p = p_y q /\ p_z p = p_z q /\
  p_vx p = p_vx q /\ p_vy p = p_vy q /\ p_vz p = p_vz q /\ p_soft p = p_soft q /\
  p_ke p = p_ke q /\ p_Jx p = p_Jx q /\ p_Jy p = p_Jy q /\ p_Jz p = p_Jz q.

(** The [k]-th particle set ([0] stars, [1] dark matter, [2] gas). *)
Definition sets (g : galaxy N) : list (pset N) := [g_stars g; g_dm g; g_gas g].

(** [x] is a potential of some particle of [g], at position [i] of stars ++ dark matter ++ gas. *)
Definition all_pots (g : galaxy N) : list N :=
  flat_map (fun p => match p_pot p with Some l => l | None => [] end) (sets g).
Definition all_x (g : galaxy N) : list N := flat_map p_x (sets g).
Definition all_y (g : galaxy N) : list N := flat_map p_y (sets g).
Definition all_z (g : galaxy N) : list N := flat_map p_z (sets g).

End Spec.

(** Particle [i] (counting stars, then dark matter, then gas) has a potential below which
    no particle's potential lies. *)
Definition lowest {N : Num} (g : galaxy N) (i : nat) : Prop :=
  exists v, nth_error (all_pots g) i = Some v /\
    (forall w, In w (all_pots g) -> nlt w v = false) /\
    ((exists w, In w (all_pots g) /\ nlt w npinf = true) -> nisnan v = false).

(** [g'] is [g] with [f], [h], [k] applied to all x, y, z positions. *)
Definition moved {N : Num} (f h k : N -> N) (g g' : galaxy N) : Prop :=
  g_haspot g' = g_haspot g /\ constructible g' /\
  Forall2 (fun p q => same_but_positions p q /\
     p_x q = map f (p_x p) /\ p_y q = map h (p_y p) /\ p_z q = map k (p_z p))
    (sets g) (sets g').

(** A star with what the alignment looks at. *)
Record star {N : Num} : Type := Star { s_m : N; s_x : N; s_y : N; s_z : N; s_jx : N; s_jy : N; s_jz : N }.
Arguments star : clear implicits.

Fixpoint stars_from {N : Num} (m x y z jx jy jz : list N) : list (star N) :=
  match m, x, y, z, jx, jy, jz with
  | m0 :: m', x0 :: x', y0 :: y', z0 :: z', jx0 :: jx', jy0 :: jy', jz0 :: jz' =>
      Star N m0 x0 y0 z0 jx0 jy0 jz0 :: stars_from m' x' y' z' jx' jy' jz'
  | _, _, _, _, _, _, _ => []
  end.
Definition stars_of {N : Num} (p : pset N) : list (star N) :=
  stars_from (p_m p) (p_x p) (p_y p) (p_z p) (p_Jx p) (p_Jy p) (p_Jz p).

(** Stars with radius below the cut-off; all of them when there is no cut-off. *)
Definition near {N : Num} (c : option N) (p : pset N) : list (star N) :=
  filter (fun s => match c with
                   | None => true
                   | Some c => nlt (nsqrt ((s_x s * s_x s + s_y s * s_y s) + s_z s * s_z s))%num c
                   end) (stars_of p).

(** [q] is [p] with positions and velocities multiplied by the matrix with rows
    [(a,b,c)], [(d,e,f)], [(h,k,l)]; everything else that is stored is unchanged. *)
Definition turned {N : Num} (a b c d e f h k l : N) (p q : pset N) : Prop :=
  same_but_phase p q /\ constructible_set q /\
  forall i x y z vx vy vz,
    nth_error (p_x p) i = Some x -> nth_error (p_y p) i = Some y -> nth_error (p_z p) i = Some z ->
    nth_error (p_vx p) i = Some vx -> nth_error (p_vy p) i = Some vy -> nth_error (p_vz p) i = Some vz ->
    nth_error (p_x q) i = Some ((a * x + b * y) + c * z)%num /\
    nth_error (p_y q) i = Some ((d * x + e * y) + f * z)%num /\
    nth_error (p_z q) i = Some ((h * x + k * y) + l * z)%num /\
    nth_error (p_vx q) i = Some ((a * vx + b * vy) + c * vz)%num /\
    nth_error (p_vy q) i = Some ((d * vx + e * vy) + f * vz)%num /\
    nth_error (p_vz q) i = Some ((h * vx + k * vy) + l * vz)%num.
