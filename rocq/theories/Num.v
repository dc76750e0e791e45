(** Abstract number type: the operations of numpy's float64 used by galaxy-chop. *)
From Verif Require Import Py.

(** A [Num] bundles the elementary operations the Python code applies to its
    floats.  The model is parametric in it; the instances are [F64]/[F32]
    (IEEE-754 binary64/binary32, file F64.v) and [RX] (real numbers extended with
    infinities and NaN, file RX.v). *)
Record Num : Type := mkNum {
  car :> Type;
  nadd : car -> car -> car;
  nsub : car -> car -> car;
  nmul : car -> car -> car;
  ndiv : car -> car -> car;
  nopp : car -> car;
  nabs : car -> car;
  nsqrt : car -> car;
  nrint : car -> car;                       (* np.rint: nearest integer, ties to even *)
  ncmp : car -> car -> option comparison;   (* None iff unordered (a NaN is involved) *)
  nfin : car -> bool;                       (* np.isfinite *)
  nofZ : Z -> car;                          (* conversion of a Python int *)
  nnan : car;
  npinf : car;
  nninf : car;
  nceil : car -> option Z;                  (* math.ceil; None when not finite *)
  nsum : list car -> car                    (* np.sum; the association order is the instance's *)
}.

Arguments nadd {N} _ _ : rename.
Arguments nsub {N} _ _ : rename.
Arguments nmul {N} _ _ : rename.
Arguments ndiv {N} _ _ : rename.
Arguments nopp {N} _ : rename.
Arguments nabs {N} _ : rename.
Arguments nsqrt {N} _ : rename.
Arguments nrint {N} _ : rename.
Arguments ncmp {N} _ _ : rename.
Arguments nfin {N} _ : rename.
Arguments nofZ {N} _ : rename.
Arguments nnan {N} : rename.
Arguments npinf {N} : rename.
Arguments nninf {N} : rename.
Arguments nceil {N} _ : rename.
Arguments nsum {N} _ : rename.

Declare Scope num_scope.
Delimit Scope num_scope with num.
Infix "+" := nadd : num_scope.
Infix "-" := nsub : num_scope.
Infix "*" := nmul : num_scope.
Infix "/" := ndiv : num_scope.

(** Python's comparison operators on floats: false whenever a NaN is involved. *)
Definition nle {N : Num} (x y : N) : bool :=
  match ncmp x y with Some Lt | Some Eq => true | _ => false end.
Definition nlt {N : Num} (x y : N) : bool :=
  match ncmp x y with Some Lt => true | _ => false end.
Definition neqb {N : Num} (x y : N) : bool :=
  match ncmp x y with Some Eq => true | _ => false end.
Definition nge {N : Num} (x y : N) : bool := nle y x.
Definition ngt {N : Num} (x y : N) : bool := nlt y x.
(** [np.isnan]. *)
Definition nisnan {N : Num} (x : N) : bool :=
  match ncmp x x with None => true | _ => false end.

Definition n0 {N : Num} : N := nofZ 0.
Definition n1 {N : Num} : N := nofZ 1.
Definition nm1 {N : Num} : N := nofZ (-1).
(** The float literal denoting the rational [p/q]: a Python literal is the binary64
    nearest to its decimal value, which is the correctly rounded quotient of the two
    (exactly representable) integers. *)
Definition nlit {N : Num} (p q : Z) : N := ndiv (nofZ p) (nofZ q).
