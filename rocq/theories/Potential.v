(** Model of galaxychop/utils/_potential.py and utils/fortran/potential.f95. *)
From Verif Require Import Py Num Np Df Data Center Align.

(** ** The backends.  [S] is the single-precision number type the inputs are cast to. *)
Section Backends.
Context {S : Num}.
(** _potential.py 38-41: the module constant [G] as it takes part in a product with a
    float32 array (numpy keeps float32, so [G] is rounded to it). *)
Variable G : S.

(** potential.f95 46-51: the softened distance between particles i and j; [x ** 2] is a
    product, the sum associates to the left (no fused multiply-add). *)
Definition fdist (soft2 xi yi zi xj yj zj : S) : S :=
  nsqrt (((((xi - xj) * (xi - xj)) + ((yi - yj) * (yi - yj))) + ((zi - zj) * (zi - zj))) + soft2)%num.

(** The arrays of the kernel as one list of bodies (potential.f95 16-30). *)
Record body : Type := Body { b_x : S; b_y : S; b_z : S; b_m : S }.
(** The arrays of the kernel as one list (potential.f95 16-30). *)
Definition bodies (x y z m : list S) : list body :=
  map2 (fun xy zm => Body (fst xy) (snd xy) (fst zm) (snd zm)) (map2 pair x y) (map2 pair z m).

(** potential.f95 52: the increment of [pe(i)] by particle j. *)
Definition fterm (soft2 : S) (bi bj : body) : S :=
  (b_m bj / fdist soft2 (b_x bi) (b_y bi) (b_z bi) (b_x bj) (b_y bj) (b_z bj))%num.

(** potential.f95 41-56: one iteration of the outer loop run alone; [i] is the row, [j]
    counts the inner loop. *)
Fixpoint finner (soft2 : S) (i j : nat) (bi : body) (acc : S) (l : list body) : S :=
  match l with
  | [] => acc
  | bj :: l' => finner soft2 i (Datatypes.S j) bi (if (i =? j)%nat then acc else acc + fterm soft2 bi bj)%num l'
  end.

(** potential.f95 16-59: what the subroutine returns when its iterations are run one
    after the other ([PotConc.v] treats the parallel execution). *)
Definition fortran_kernel (x y z m : list S) (soft : S) : list S :=
  let soft2 := (soft * soft)%num in
  let bs := bodies x y z m in
  map2 (fun i bi => finner soft2 i 0 bi n0 bs) (seq 0 (length bs)) bs.

(** _potential.py 49-70: [fortran_potential]; [have_f] is whether the compiled module
    could be imported (otherwise [potential_f] is None: AttributeError). *)
Definition fortran_potential (have_f : bool) (x y z m : list S) (soft : S) : res (list S) :=
  if have_f then Ok (map (fun v => (v * G)%num) (fortran_kernel x y z m soft)) else Raise AttributeError.

(** _potential.py 91-98: one entry of [dist]; row [i], column [j]:
    [x - x.reshape(-1, 1)] is [x[j] - x[i]]; the diagonal is filled with 0. *)
Definition ndist (soft : S) (i j : nat) (bi bj : body) : S :=
  if (i =? j)%nat then n0
  else nsqrt (((((b_x bj - b_x bi) * (b_x bj - b_x bi)) + ((b_y bj - b_y bi) * (b_y bj - b_y bi)))
       + ((b_z bj - b_z bi) * (b_z bj - b_z bi))) + soft * soft)%num.

(** _potential.py 100-101: [np.divide(m, dist, where=flt)] without [out]: entries where
    [dist == 0] keep the contents [junk i j] of the freshly allocated array. *)
Definition nentry (junk : nat -> nat -> S) (soft : S) (i j : nat) (bi bj : body) : S :=
  let d := ndist soft i j bi bj in
  if neqb d n0 then junk i j else (b_m bj / d)%num.

(** _potential.py 73-103: [numpy_potential]. *)
Definition numpy_potential (junk : nat -> nat -> S) (x y z m : list S) (soft : S) : res (list S) :=
  let bs := bodies x y z m in
  let n := length bs in
  Ok (map2 (fun i bi => (nsum (map2 (fun j bj => nentry junk soft i j bi bj) (seq 0 n) bs) * G)%num)
           (seq 0 n) bs).

(** A backend maps (x, y, z, m, softening) to an array; the second component of the
    returned pair is [np.asarray] in both implementations, i.e. the identity (_potential.py 49-113). *)
Definition backend : Type := list S -> list S -> list S -> list S -> S -> res (list S).

(** _potential.py 110-113: [POTENTIAL_BACKENDS]. *)
Definition backend_table (have_f : bool) (junk : nat -> nat -> S) : dict backend :=
  [("fortran"%string, fortran_potential have_f); ("numpy"%string, numpy_potential junk)].

End Backends.
Arguments body : clear implicits.
Arguments backend : clear implicits.

(** ** The API.  [W] is the number type of the galaxy (float64), [cast] the conversion by
    [np.asarray(.., dtype=np.float32)], [lift] the exact reading of a float32 as float64. *)
Section Api.
Context {W S : Num} (cast : W -> S) (lift : S -> W).

(** [pd.Series.max()]: NaN are skipped, the maximum of nothing is NaN (_potential.py 146). *)
Definition pd_max (l : list W) : W :=
  match filter (fun v => negb (nisnan v)) l with
  | [] => nnan
  | v :: l' => fold_left (fun a b => if nlt a b then b else a) l' v
  end.

(** _potential.py 117-177: [potential(galaxy, backend)].  The backend table is an
    argument.  Simplification: the new potentials are stored as float32 quantities by
    the code and are represented here by the equal float64 values. *)
Definition potential (table : dict (backend S)) (name : string) (g : galaxy W) : res (galaxy W) :=
  do _ <- guard (negb (g_haspot g)) ValueError;
  do f <- match dget table name with Some f => Ok f | None => Raise KeyError end;
  do d <- to_df g PTNone None;
  do x <- ncol d "x";
  do y <- ncol d "y";
  do z <- ncol d "z";
  do m <- ncol d "m";
  do so <- ncol d "softening";
  let softening := pd_max so in
  do pot <- f (map cast x) (map cast y) (map cast z) (map cast m) (cast softening);
  let num_s := plen (g_stars g) in
  let num := (plen (g_stars g) + plen (g_dm g))%nat in
  let pot_s := firstn num_s pot in
  let pot_dm := firstn (num - num_s) (skipn num_s pot) in
  let pot_g := skipn num pot in
  let neg := map (fun v => lift (nopp v)) in
  mkgalaxy (dupdate (galaxy_as_kwargs g)
    [("potential_s"%string, KArr (neg pot_s)); ("potential_dm"%string, KArr (neg pot_dm));
     ("potential_g"%string, KArr (neg pot_g))]).

End Api.
