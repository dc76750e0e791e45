(** Specification vocabulary for the accuracy of the alignment. *)
From Flocq Require Import Core.
From Verif Require Import Py Num RX Np Data Spec SpecR.
Local Open Scope R_scope.

Definition tiny : R := bpow radix2 (-1000).
Definition huge : R := bpow radix2 1000.

(** Rounding with gradual underflow: the error is at most [u] times the number plus [tiny]. *)
Definition graceful {S : Num} (RS : Rounded S) (u : R) : Prop :=
  forall r, Rabs r <= huge -> exists r', rnd RS (XR r) = XR r' /\ Rabs (r' - r) <= u * (Rabs r + tiny).

Definition Rsum (l : list R) : R := fold_right Rplus 0 l.

(** The error of a sum of [n] numbers is at most [K n] units of rounding of the sum of their
    absolute values.  (Adding one after the other, [K n = 2 n] for up to a million numbers; adding in
    pairs does better.) *)
Definition sums_well {S : Num} (RS : Rounded S) (u : R) (K : nat -> R) : Prop :=
  forall (l : list S) (rl : list R), map (val RS) l = map XR rl -> K (length l) <= bpow radix2 21 ->
  Rsum (map Rabs rl) <= bpow radix2 900 ->
  exists s, val RS (nsum l) = XR s /\ Rabs (s - Rsum rl) <= K (length l) * u * (Rsum (map Rabs rl) + tiny).

(** The columns of a particle set hold the numbers of [l]. *)
Definition reads_set {S : Num} (RS : Rounded S) (p : pset S) (l : list particle) : Prop :=
  map (val RS) (p_m p) = map (fun q => XR (pm q)) l /\
  map (val RS) (p_x p) = map (fun q => XR (px q)) l /\ map (val RS) (p_y p) = map (fun q => XR (py q)) l /\
  map (val RS) (p_z p) = map (fun q => XR (pz q)) l /\ map (val RS) (p_vx p) = map (fun q => XR (pvx q)) l /\
  map (val RS) (p_vy p) = map (fun q => XR (pvy q)) l /\ map (val RS) (p_vz p) = map (fun q => XR (pvz q)) l.

(** Largest coordinate, but at least 2^-100. *)
Definition span (a b c : R) : R := Rmax (bpow radix2 (-100)) (Rmax (Rabs a) (Rmax (Rabs b) (Rabs c))).
(** Mass times position times velocity, a bound for the angular momentum of one particle. *)
Definition weight (q : particle) : R :=
  Rmax (bpow radix2 (-100)) (Rabs (pm q)) * span (px q) (py q) (pz q) * span (pvx q) (pvy q) (pvz q).
Definition weights (l : list particle) : R := sumR weight l.
(** No number is larger than 2^100. *)
Definition bounded (q : particle) : Prop :=
  Rabs (pm q) <= bpow radix2 100 /\ span (px q) (py q) (pz q) <= bpow radix2 100 /\ span (pvx q) (pvy q) (pvz q) <= bpow radix2 100.
(** In-plane part of the total angular momentum. *)
Definition Lplane (l : list particle) : R := sqrt (LX None l * LX None l + LY None l * LY None l).
(** A clear direction: at most a million particles, none with a number above 2^100, whose total
    angular momentum stands out from the errors ([k] is the factor of the summation). *)
Definition clear_spin (u k : R) (l : list particle) : Prop :=
  (forall q, In q l -> bounded q) /\ INR (length l) <= bpow radix2 20 /\ 0 <= k <= bpow radix2 21 /\
  100000 * (k + 1000) * u * weights l <= Lnorm None l /\
  bpow radix2 (-390) + 100 * (k + 10) * u * weights l <= Lplane l.
(** [q'] is [q] turned by [M], up to 800 units of rounding of the largest coordinate. *)
Definition turned_near (u : R) (M : matR) (q q' : particle) : Prop :=
  let t := rotate M q in
  let dx := 800 * u * span (px q) (py q) (pz q) in let dv := 800 * u * span (pvx q) (pvy q) (pvz q) in
  pm q' = pm q /\ Rabs (px q' - px t) <= dx /\ Rabs (py q' - py t) <= dx /\ Rabs (pz q' - pz t) <= dx /\
  Rabs (pvx q' - pvx t) <= dv /\ Rabs (pvy q' - pvy t) <= dv /\ Rabs (pvz q' - pvz t) <= dv.
