(** Specification vocabulary: mirror images and reversed motion of a galaxy (C109). *)
From Verif Require Import Py Num RX Np Df Data Spec SpecBase Align SpecSym Base.

Section SpecImage.
Context {N : Num}.

(** [g'] is [g] with these axes reversed: coordinates and velocities agree up to the signs (a zero may have
    either), masses, softenings and potentials are the same. *)
Definition mirror_image (w : signs) (g g' : galaxy N) : Prop :=
  Forall2 (fun p q =>
     Forall2 (agrees (sx w)) (p_x p) (p_x q) /\ Forall2 (agrees (sy w)) (p_y p) (p_y q) /\
     Forall2 (agrees (sz w)) (p_z p) (p_z q) /\ Forall2 (agrees (svx w)) (p_vx p) (p_vx q) /\
     Forall2 (agrees (svy w)) (p_vy p) (p_vy q) /\ Forall2 (agrees (svz w)) (p_vz p) (p_vz q) /\
     p_m q = p_m p /\ p_soft q = p_soft p /\ p_pot q = p_pot p)
    (sets g) (sets g').

(** The axes reversed once both galaxies are aligned with their own angular momenta: a symmetry again, which
    keeps the z component of the angular momentum. *)
Definition aligned_signs (w : signs) : signs :=
  Signs (svz w) (sz w) (xorb (xorb (sx w) (sy w)) (svz w)) (sz w) (svz w) (xorb (xorb (sx w) (sy w)) (sz w)).

(** Reversing the sign of every entry of an array reverses the sign of its sum. *)
Definition even_sum (sum : list N -> N) : Prop := forall s l l', Forall2 (agrees s) l l' -> agrees s (sum l) (sum l').

(** Reversing rows [r] of a matrix of rotation and columns [c], and the coordinates [c], reverses rows [r] of the
    product. *)
Definition even_matmul (mm : nat -> mat3 N -> list N -> list N -> list N -> list N * list N * list N) : Prop :=
  forall k r1 r2 r3 c1 c2 c3 A A' x y z x' y' z' u v w u' v' w',
  agrees (xorb r1 c1) (a11 A) (a11 A') -> agrees (xorb r1 c2) (a12 A) (a12 A') -> agrees (xorb r1 c3) (a13 A) (a13 A') ->
  agrees (xorb r2 c1) (a21 A) (a21 A') -> agrees (xorb r2 c2) (a22 A) (a22 A') -> agrees (xorb r2 c3) (a23 A) (a23 A') ->
  agrees (xorb r3 c1) (a31 A) (a31 A') -> agrees (xorb r3 c2) (a32 A) (a32 A') -> agrees (xorb r3 c3) (a33 A) (a33 A') ->
  Forall2 (agrees c1) x x' -> Forall2 (agrees c2) y y' -> Forall2 (agrees c3) z z' ->
  mm k A x y z = (u, v, w) -> mm k A' x' y' z' = (u', v', w') ->
  Forall2 (agrees r1) u u' /\ Forall2 (agrees r2) v v' /\ Forall2 (agrees r3) w w'.

(** A method of decomposition does not see the sign of a zero. *)
Definition cell_agrees (c c' : cell N) : Prop :=
  c = c' \/ exists a b, c = CNum a /\ c' = CNum b /\ agrees false a b.
Definition zero_blind {St} (D : decomposer N St) : Prop :=
  forall st X X' y a, Forall2 (Forall2 cell_agrees) X X' -> d_split D st X' y a = d_split D st X y a.
(** A method that labels stars by their circularities, energies or projected circularities. *)
Definition star_method {St} (D : decomposer N St) : Prop :=
  d_attributes D <> [] /\ (forall a, In a (d_attributes D) -> circ_attr a /\ a <> "normalized_star_Jz"%string) /\
  d_mask D = stars_mask.
End SpecImage.

(** A computation of the potential does not see which way the axes point. *)
Definition even_potential {S : Num} (f : list S -> list S -> list S -> list S -> S -> res (list S)) : Prop :=
  forall s1 s2 s3 x y z x' y' z' m so,
  Forall2 (agrees s1) x x' -> Forall2 (agrees s2) y y' -> Forall2 (agrees s3) z z' -> f x' y' z' m so = f x y z m so.
