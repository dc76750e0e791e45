(** Model of galaxychop/utils/_align.py with the matrix products done by any BLAS. *)
From Flocq Require Import BinarySingleNaN.
From Verif Require Import Py Num F64 Np Df Data Center Align.

Section Dgemm.
Context {S : Num}.
(** [np.dot(A, v)] of _align.py 139-146 for a 3x3 array [A] and the three rows of [v]; numpy leaves it
    to the BLAS library it was built with.  The first argument numbers the six calls. *)
Variable matmul : nat -> mat3 S -> list S -> list S -> list S -> list S * list S * list S.

(** _align.py 139-146 and 151-168 for one particle set, [k] counting the sets. *)
Definition rotated_with (k : nat) (A : mat3 S) (d : df S) (suffix : string) : res (dict (kwval S)) :=
  do x <- ncol d "x"; do y <- ncol d "y"; do z <- ncol d "z";
  do vx <- ncol d "vx"; do vy <- ncol d "vy"; do vz <- ncol d "vz";
  let '(px, py, pz) := matmul (2 * k) A x y z in
  let '(qx, qy, qz) := matmul (2 * k + 1) A vx vy vz in
  Ok [(("x_" ++ suffix)%string, KArr px); (("y_" ++ suffix)%string, KArr py); (("z_" ++ suffix)%string, KArr pz);
      (("vx_" ++ suffix)%string, KArr qx); (("vy_" ++ suffix)%string, KArr qy); (("vz_" ++ suffix)%string, KArr qz)].

(** _align.py 89-172, as [star_align] of Align.v. *)
Definition star_align_with (g : galaxy S) (r_cut : option S) : res (galaxy S) :=
  do _ <- guard (match r_cut with Some c => negb (nle c n0) | None => true end) ValueError;
  do sd <- pset_to_df (g_stars g) (Some (["m"; "Jx"; "Jy"; "Jz"]%string ++ pos_vel));
  do dd <- pset_to_df (g_dm g) (Some pos_vel);
  do gd <- pset_to_df (g_gas g) (Some pos_vel);
  do m <- ncol sd "m";
  do x <- ncol sd "x"; do y <- ncol sd "y"; do z <- ncol sd "z";
  do Jx <- ncol sd "Jx"; do Jy <- ncol sd "Jy"; do Jz <- ncol sd "Jz";
  let A := get_rot_matrix m x y z Jx Jy Jz r_cut in
  do us <- rotated_with 0 A sd "s";
  do ud <- rotated_with 1 A dd "dm";
  do ug <- rotated_with 2 A gd "g";
  mkgalaxy (dupdate (galaxy_as_kwargs g) (us ++ ud ++ ug)).
End Dgemm.

(** The products of Align.v: each entry from left to right without fused operations (_align.py 139-146). *)
Definition plain_matmul {S : Num} (_ : nat) (A : mat3 S) (x y z : list S) : list S * list S * list S :=
  (map3 (rot_x A) x y z, map3 (rot_y A) x y z, map3 (rot_z A) x y z).
(** Another one, as the kernels of OpenBLAS work: from zero, each product fused into the sum, the
    result times alpha = 1 (_align.py 139-146). *)
Definition fused_row {S : Num} (fma : S -> S -> S -> S) (a b c x y z : S) : S :=
  (n1 * fma c z (fma b y (fma a x n0)))%num.
(** The product of _align.py 139-146 with such rows. *)
Definition fused_matmul {S : Num} (fma : S -> S -> S -> S) (_ : nat) (A : mat3 S) (x y z : list S) : list S * list S * list S :=
  (map3 (fused_row fma (a11 A) (a12 A) (a13 A)) x y z, map3 (fused_row fma (a21 A) (a22 A) (a23 A)) x y z,
   map3 (fused_row fma (a31 A) (a32 A) (a33 A)) x y z).
(** The fused operation of double precision (_align.py 139-146). *)
Definition fma64 (a b c : f64) : f64 := @Bfma 53 1024 p53 e1024 mode_NE a b c.
