(** Specification of one galaxy whose particles all move with an additional uniform velocity. *)
From Verif Require Import Py Num RX Np Data Spec SpecR.
Local Open Scope R_scope.

(** The particle with the velocity (a, b, c) added to its own. *)
Definition boosted (a b c : R) (q : particle) : particle :=
  Part (pm q) (px q) (py q) (pz q) (pvx q + a) (pvy q + b) (pvz q + c).

(** [g'] is the finite galaxy [g] with the velocity (a, b, c) added to every particle, and the same potentials. *)
Definition moving (a b c : R) (g g' : galaxy RX) : Prop :=
  map (@p_pot RX) (sets g') = map (@p_pot RX) (sets g) /\
  exists ls ld lg, holds (g_stars g) ls /\ holds (g_dm g) ld /\ holds (g_gas g) lg /\
    holds (g_stars g') (map (boosted a b c) ls) /\ holds (g_dm g') (map (boosted a b c) ld) /\
    holds (g_gas g') (map (boosted a b c) lg).

(** The centre of mass of the particles inside the cut-off is at the origin. *)
Definition balanced (r : option xr) (l : list particle) : Prop :=
  sumR (fun q => pm q * px q) (filter (inside r) l) = 0 /\
  sumR (fun q => pm q * py q) (filter (inside r) l) = 0 /\
  sumR (fun q => pm q * pz q) (filter (inside r) l) = 0.
