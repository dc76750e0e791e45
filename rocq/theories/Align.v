(** Model of galaxychop/utils/_align.py. *)
From Verif Require Import Py Num Np Df Data Center.

Section Align.
Context {N : Num}.

(** _align.py 26-32: [_make_mask].  [np.where(r < r_cut)] used as an index selects the
    same entries as the boolean array. *)
Definition radius (x y z : N) : N := nsqrt ((x * x + y * y) + z * z)%num.
(** Three arrays combined entry by entry (_align.py 27). *)
Definition map3 {A B C D} (f : A -> B -> C -> D) (a : list A) (b : list B) (c : list C) : list D :=
  map2 (fun p z => f (fst p) (snd p) z) (map2 pair a b) c.
(** _align.py 26-32. *)
Definition make_mask (x y z : list N) (r_cut : option N) : list bool :=
  let r := map3 radius x y z in
  match r_cut with
  | None => map (fun _ => true) r
  | Some c => map (fun v => nlt v c) r
  end.

(** A 3x3 matrix by rows (_align.py 84). *)
Record mat3 : Type := mkMat3 {
  a11 : N; a12 : N; a13 : N;
  a21 : N; a22 : N; a23 : N;
  a31 : N; a32 : N; a33 : N
}.

(** _align.py 70-84: the matrix built from the total angular momentum. *)
Definition rot_of (rjx rjy rjz : N) : mat3 :=
  let rjp := nsqrt (rjx * rjx + rjy * rjy)%num in
  let rj := nsqrt ((rjx * rjx + rjy * rjy) + rjz * rjz)%num in
  mkMat3 (rjy / rjp)%num (nopp rjx / rjp)%num n0
         ((rjx * rjz) / (rjp * rj))%num ((rjy * rjz) / (rjp * rj))%num (nopp rjp / rj)%num
         (rjx / rj)%num (rjy / rj)%num (rjz / rj)%num.

(** _align.py 35-86: [_get_rot_matrix].  All arrays come from one particle set, hence
    have one length. *)
Definition get_rot_matrix (m x y z Jx Jy Jz : list N) (r_cut : option N) : mat3 :=
  let mask := make_mask x y z r_cut in
  let rjx := nsum (bmask mask (map2 nmul m Jx)) in
  let rjy := nsum (bmask mask (map2 nmul m Jy)) in
  let rjz := nsum (bmask mask (map2 nmul m Jz)) in
  rot_of rjx rjy rjz.

(** One row of [np.dot(A, v)]: products accumulated left to right (other
    orders and fused multiply-adds: Dgemm.v) (_align.py 139-146). *)
Definition dot3 (a b c x y z : N) : N := ((a * x + b * y) + c * z)%num.
(** _align.py 139-146: first row of the product. *)
Definition rot_x (A : mat3) (x y z : N) : N := dot3 (a11 A) (a12 A) (a13 A) x y z.
(** _align.py 139-146: second row of the product. *)
Definition rot_y (A : mat3) (x y z : N) : N := dot3 (a21 A) (a22 A) (a23 A) x y z.
(** _align.py 139-146: third row of the product. *)
Definition rot_z (A : mat3) (x y z : N) : N := dot3 (a31 A) (a32 A) (a33 A) x y z.

(** Numeric column of a frame (_align.py 122-146). *)
Definition ncol (d : df N) (k : string) : res (list N) :=
  do c <- get_col d k; Ok (to_numpy c).

(** _align.py 139-146: [pos_columns] and [vel_columns]. *)
Definition pos_vel : list string := ["x"; "y"; "z"; "vx"; "vy"; "vz"]%string.

(** The six rotated columns of one frame (_align.py 134-141), keyed for [mkgalaxy]. *)
Definition rotated (A : mat3) (d : df N) (suffix : string) : res (dict (kwval N)) :=
  do x <- ncol d "x"; do y <- ncol d "y"; do z <- ncol d "z";
  do vx <- ncol d "vx"; do vy <- ncol d "vy"; do vz <- ncol d "vz";
  Ok [(("x_" ++ suffix)%string, KArr (map3 (rot_x A) x y z));
      (("y_" ++ suffix)%string, KArr (map3 (rot_y A) x y z));
      (("z_" ++ suffix)%string, KArr (map3 (rot_z A) x y z));
      (("vx_" ++ suffix)%string, KArr (map3 (rot_x A) vx vy vz));
      (("vy_" ++ suffix)%string, KArr (map3 (rot_y A) vx vy vz));
      (("vz_" ++ suffix)%string, KArr (map3 (rot_z A) vx vy vz))].

(** _align.py 89-172: [star_align(galaxy, r_cut)]. *)
Definition star_align (g : galaxy N) (r_cut : option N) : res (galaxy N) :=
  do _ <- guard (match r_cut with Some c => negb (nle c n0) | None => true end) ValueError;
  do sd <- pset_to_df (g_stars g) (Some (["m"; "Jx"; "Jy"; "Jz"]%string ++ pos_vel));
  do dd <- pset_to_df (g_dm g) (Some pos_vel);
  do gd <- pset_to_df (g_gas g) (Some pos_vel);
  do m <- ncol sd "m";
  do x <- ncol sd "x"; do y <- ncol sd "y"; do z <- ncol sd "z";
  do Jx <- ncol sd "Jx"; do Jy <- ncol sd "Jy"; do Jz <- ncol sd "Jz";
  let A := get_rot_matrix m x y z Jx Jy Jz r_cut in
  do us <- rotated A sd "s";
  do ud <- rotated A dd "dm";
  do ug <- rotated A gd "g";
  mkgalaxy (dupdate (galaxy_as_kwargs g) (us ++ ud ++ ug)).

(** _align.py 175-207: [is_star_aligned(galaxy, r_cut, rtol, atol)].  (No check on
    [r_cut] here.) *)
Definition is_star_aligned (g : galaxy N) (r_cut : option N) (rtol atol : N) : res bool :=
  do sd <- pset_to_df (g_stars g) (Some ["m"; "x"; "y"; "z"; "Jx"; "Jy"; "Jz"]%string);
  do m <- ncol sd "m";
  do x <- ncol sd "x"; do y <- ncol sd "y"; do z <- ncol sd "z";
  do Jx <- ncol sd "Jx"; do Jy <- ncol sd "Jy"; do Jz <- ncol sd "Jz";
  let mask := make_mask x y z r_cut in
  let Jxt := nsum (map2 nmul (bmask mask Jx) (bmask mask m)) in
  let Jyt := nsum (map2 nmul (bmask mask Jy) (bmask mask m)) in
  let Jzt := nsum (map2 nmul (bmask mask Jz) (bmask mask m)) in
  let Jt := nsqrt ((Jxt * Jxt + Jyt * Jyt) + Jzt * Jzt)%num in
  Ok (isclose rtol atol Jzt Jt).

End Align.
Arguments mat3 : clear implicits.
