(** Specification vocabulary for the symmetries of the circularity. *)
From Verif Require Import Py Num RX Np Data Spec SpecCirc Circ.

Section SpecSym.
Context {N : Num}.

(** [a] with its sign changed if [s]. *)
Definition turn (s : bool) (a : N) : N := if s then nopp a else a.
(** The numbers are both NaN, or [b] equals [a] up to that sign. *)
Definition agrees (s : bool) (a b : N) : Prop := (nisnan a = true /\ nisnan b = true) \/ neqb b (turn s a) = true.

(** Which axes of position and velocity are reversed. *)
Record signs : Type := Signs { sx : bool; sy : bool; sz : bool; svx : bool; svy : bool; svz : bool }.
(** Each component of the angular momentum is kept or reversed as a whole. *)
Definition symmetric (w : signs) : Prop :=
  xorb (sx w) (svy w) = xorb (sy w) (svx w) /\ xorb (sy w) (svz w) = xorb (sz w) (svy w) /\
  xorb (sz w) (svx w) = xorb (sx w) (svz w).
(** The z component of the angular momentum is reversed. *)
Definition flips (w : signs) : bool := xorb (sx w) (svy w).

(** [g'] is [g] with these axes reversed, same potentials, any masses and softenings. *)
Definition reflected (w : signs) (g g' : galaxy N) : Prop :=
  Forall2 (fun p q => p_x q = map (turn (sx w)) (p_x p) /\ p_y q = map (turn (sy w)) (p_y p) /\
     p_z q = map (turn (sz w)) (p_z p) /\ p_vx q = map (turn (svx w)) (p_vx p) /\
     p_vy q = map (turn (svy w)) (p_vy p) /\ p_vz q = map (turn (svz w)) (p_vz p) /\ p_pot q = p_pot p)
    (sets g) (sets g').

(** The same circularities, Jz and eps with the sign changed if [s]. *)
Definition same_up_to (s : bool) (j j' : jcirc_t N) : Prop :=
  jc_E j' = jc_E j /\ jc_x j' = jc_x j /\ jc_y j' = jc_y j /\
  Forall2 (agrees s) (jc_Jz j) (jc_Jz j') /\ Forall2 (agrees s) (jc_eps j) (jc_eps j') /\
  Forall2 (agrees false) (jc_eps_r j) (jc_eps_r j').
End SpecSym.
Arguments signs : clear implicits.

(** [g'] is [g] in other units: positions multiplied by [a], velocities by [b], potentials by [b^2]. *)
Definition rescaled (a b : R) (g g' : galaxy RX) : Prop :=
  Forall2 (fun p q : pset RX => p_x q = map (xmul (XR a)) (p_x p) /\ p_y q = map (xmul (XR a)) (p_y p) /\
     p_z q = map (xmul (XR a)) (p_z p) /\ p_vx q = map (xmul (XR b)) (p_vx p) /\
     p_vy q = map (xmul (XR b)) (p_vy p) /\ p_vz q = map (xmul (XR b)) (p_vz p) /\
     p_pot q = option_map (map (xmul (XR (b * b)))) (p_pot p))
    (sets g) (sets g').
