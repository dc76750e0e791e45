(** The loop of utils/fortran/potential.f95 when the compiler contracts products and sums to
    fused multiply-adds (gcc does by default on processors that have the instruction;
    setup.py 86-93 passes no option against it). *)
From Verif Require Import Py Num F64 Np Data Potential.
From Flocq Require Import BinarySingleNaN.

Section Fma.
Context {S : Num}.
(** _potential.py 38-41, as in [Potential.v]. *)
Variable G : S.
(** [fma a b c] is a b + c with one rounding. *)
Variable fma : S -> S -> S -> S.

(** How the first sum of potential.f95 46-51 is evaluated: two products and a sum, or a fused
    operation that takes one of the products. *)
Inductive first_sum : Type := Plain | FuseX | FuseY.
(** A choice for each of the three sums ([c_z], [c_soft]: is the product fused into it) (potential.f95 46-51). *)
Record contraction : Type := Contr { c_xy : first_sum; c_z : bool; c_soft : bool }.

(** potential.f95 35, 46-51: the softened distance. *)
Definition cdist (c : contraction) (soft : S) (bi bj : body S) : S :=
  let dx := (b_x bi - b_x bj)%num in
  let dy := (b_y bi - b_y bj)%num in
  let dz := (b_z bi - b_z bj)%num in
  let xy := match c_xy c with
            | Plain => (dx * dx + dy * dy)%num
            | FuseX => fma dx dx (dy * dy)%num
            | FuseY => fma dy dy (dx * dx)%num
            end in
  let xyz := if c_z c then fma dz dz xy else (xy + dz * dz)%num in
  nsqrt (if c_soft c then fma soft soft xyz else (xyz + soft * soft)%num).

(** potential.f95 41-56, one iteration of the outer loop; the choice may differ from pair to
    pair (unrolled and vectorised copies of the loop body need not agree). *)
Fixpoint cinner (plan : nat -> nat -> contraction) (soft : S) (i j : nat) (bi : body S) (acc : S) (l : list (body S)) : S :=
  match l with
  | [] => acc
  | bj :: l' => cinner plan soft i (Datatypes.S j) bi
                  (if (i =? j)%nat then acc else acc + b_m bj / cdist (plan i j) soft bi bj)%num l'
  end.
(** potential.f95 16-59. *)
Definition contracted_kernel (plan : nat -> nat -> contraction) (x y z m : list S) (soft : S) : list S :=
  let bs := bodies x y z m in
  map2 (fun i bi => cinner plan soft i 0 bi n0 bs) (seq 0 (length bs)) bs.
(** _potential.py 49-70 and the table of backends 110-113 with that kernel. *)
Definition contracted_potential (plan : nat -> nat -> contraction) (x y z m : list S) (soft : S) : res (list S) :=
  Ok (map (fun v => (v * G)%num) (contracted_kernel plan x y z m soft)).
(** _potential.py 110-113 with the contracted loop. *)
Definition contracted_table (plan : nat -> nat -> contraction) (junk : nat -> nat -> S) : dict (backend S) :=
  [("fortran"%string, contracted_potential plan); ("numpy"%string, numpy_potential G junk)].
End Fma.

(** The fused multiply-add of the processor in single precision (potential.f95 46-51). *)
Definition fma32 (a b c : f32) : f32 := @Bfma 24 128 p24 e128 mode_NE a b c.
