(** Model of galaxychop/utils/_circ.py (preproc circularity), with the numpy functions it
    uses. *)
From Verif Require Import Py Num Np Df Data Center Align.

Section Circ.
Context {N : Num}.

(** [np.min]/[np.max]: NaN if there is one, ValueError on an empty array (_circ.py 124). *)
Definition pick_min (a b : N) : N :=
  if nisnan a then a else if nisnan b then b else if nlt b a then b else a.
(** The larger one, or NaN (_circ.py 125). *)
Definition pick_max (a b : N) : N :=
  if nisnan a then a else if nisnan b then b else if nlt a b then b else a.
(** [np.min] (_circ.py 124). *)
Definition np_min (l : list N) : res N :=
  match l with [] => Raise ValueError | x :: l' => Ok (fold_left pick_min l' x) end.
(** [np.max] (_circ.py 125). *)
Definition np_max (l : list N) : res N :=
  match l with [] => Raise ValueError | x :: l' => Ok (fold_left pick_max l' x) end.

(** [np.arange(start, stop, step)] for [start < stop]: the length is the ceiling of
    (stop - start)/step (1 for an infinite step, 0 for a negative one, ValueError for NaN and
    for a length that does not fit in an array: below -2^63, or 2^60 and more values of 8
    bytes; the quotient 2^63, whose conversion C leaves undefined, is taken as too large, and
    memory is unlimited otherwise);
    the first two values are [start] and [start + step], the others start + i*delta with
    delta the difference of the first two (_circ.py 129-130). *)
Definition arange_fill (start step : N) (n : nat) : list N :=
  let second := (start + step)%num in
  let delta := (second - start)%num in
  map (fun i => match i with
                | O => start
                | S O => second
                | _ => (start + nofZ (Z.of_nat i) * delta)%num
                end) (seq 0 n).
(** The length of [np.arange] (_circ.py 129-130). *)
Definition arange_len (start stop step : N) : res nat :=
  if neqb step n0 then Raise ZeroDivisionError
  else
    let delta := (stop - start)%num in
    let q := (delta / step)%num in
    if neqb q n0 && negb (neqb delta n0) then Ok (if nlt step n0 then 0%nat else 1%nat)
    else match nceil q with
         | Some z => if ((z <? - 2 ^ 63) || (2 ^ 60 <=? z))%Z then Raise ValueError else Ok (Z.to_nat z)
         | None => Raise ValueError
         end.
(** [np.arange] (_circ.py 129-130). *)
Definition arange (start stop step : N) : res (list N) :=
  do n <- arange_len start stop step; Ok (arange_fill start step n).

(** [np.interp(x, xp, fp)] at one point.  The segment is searched linearly, which finds
    what numpy's binary search finds when [xp] is increasing (property C27) (_circ.py 198). *)
Fixpoint interp_seg (v x0 y0 : N) (pts : list (N * N)) : N :=
  match pts with
  | [] => y0
  | (x1, y1) :: rest =>
      if nle x1 v then interp_seg v x1 y1 rest
      else if neqb x0 v then y0
      else
        let slope := ((y1 - y0) / (x1 - x0))%num in
        let r := (slope * (v - x0) + y0)%num in
        if nisnan r then
          let r' := (slope * (v - x1) + y1)%num in
          if nisnan r' && neqb y0 y1 then y0 else r'
        else r
  end.
(** [np.interp] at one point (_circ.py 198); NaN stays NaN. *)
Definition interp1 (pts : list (N * N)) (v : N) : N :=
  match pts with
  | [] => nnan
  | (x0, y0) :: rest =>
      if nisnan v then (match rest with [] => y0 | _ => v end)
      else if nlt v x0 then y0 else interp_seg v x0 y0 rest
  end.
(** [np.interp] (_circ.py 198). *)
Definition np_interp (v : list N) (pts : list (N * N)) : res (list N) :=
  match pts with [] => Raise ValueError | _ => Ok (map (interp1 pts) v) end.

(** _circ.py 119-122 and 178-182: bound particles have E <= 0 and E != -inf. *)
Definition is_bound (e : N) : bool := nle e n0 && negb (neqb e nninf).

(** Value at an index that is in range in every use (_circ.py 136-164). *)
Definition at_ (l : list N) (i : nat) : N := nth i l nnan.

(** [np.argsort] is not determined on ties, so it is an argument; the first argument is
    the iteration of the loop in which it is called. *)
Variable argsort : nat -> list N -> list nat.

(** _circ.py 140-161: the point of the bin (lo, hi]; (0, 0) when it is empty. *)
Definition bin_point (i : nat) (lo hi : N) (E Jz : list N) : N * N :=
  let mask := map (fun e => nle e hi && nlt lo e) E in
  let Em := bmask mask E in
  let Jm := bmask mask Jz in
  let s := argsort i (map nabs Jm) in
  match length s with
  | O => (n0, n0)
  | S O => let k := nth 0 s 0%nat in (at_ Em k, nabs (at_ Jm k))
  | S (S n) =>
      let k1 := nth (S n) s 0%nat in    (* s[-1] *)
      let k2 := nth n s 0%nat in        (* s[-2] *)
      if nle (nlit 1 100) (n1 - nabs (at_ Jm k2) / nabs (at_ Jm k1))%num
      then (at_ Em k2, nabs (at_ Jm k2))
      else (at_ Em k1, nabs (at_ Jm k1))
  end.

(** _circ.py 127-130: the bin edges. *)
Definition bin_edges (bin0 bin1 : N) : res (list N) :=
  do aux0 <- arange nm1 (nlit (-1) 10) bin0;
  do aux1 <- arange (nlit (-1) 10) n0 bin1;
  Ok (aux0 ++ aux1).

(** _circ.py 132-174: the points (x, y) of the curve, from the normalised energies and
    angular momenta of the bound particles.  The arrays [x] and [y] are one list of pairs. *)
Definition curve (aux E Jz : list N) : res (list (N * N)) :=
  do i0 <- np_argmin E;
  let first := (nm1, nabs (at_ Jz i0)) in
  let bins := map (fun i => bin_point i (at_ aux (i - 1)) (at_ aux i) E Jz) (seq 1 (length aux - 1)) in
  do top <- match nth_error aux (length aux - 1) with Some a => Ok a | None => Raise IndexError end;
  let mask := map (fun e => nlt top e) E in
  let Em := bmask mask E in
  let Jm := bmask mask Jz in
  do pts <- match Em with
    | [] =>
        let pts := first :: bins ++ [(n0, n0)] in
        let i := (length (filter (fun p => neqb (snd p) n0) pts) - 1)%nat in
        Ok (firstn (length pts - (if (i =? 0)%nat then 1 else i))%nat pts)
    | _ =>
        do k <- np_argmax (map nabs Jm);
        Ok (first :: bins ++ [(at_ Em k, nabs (at_ Jm k))])
    end;
  Ok (filter (fun p => negb (neqb (fst p) n0)) pts).

(** _circ.py 44-75: [JCirc]. *)
Record jcirc_t : Type := JC {
  jc_E : list N; jc_Jz : list N; jc_eps : list N; jc_eps_r : list N;
  jc_x : list N; jc_y : list N }.

(** [a[idx] = np.nan] (_circ.py 214-223). *)
Definition nan_at (a : list N) (idx : list nat) : res (list N) := scatter a idx (repeat nnan (length idx)).

(** _circ.py 208-219: one of the two removals. *)
Definition remove (mask : list nat) (j : list N * list N * list N * list N) : res (list N * list N * list N * list N) :=
  let '(e, z, p, r) := j in
  do e <- nan_at e mask;
  do z <- nan_at z mask;
  do p <- nan_at p mask;
  do r <- nan_at r mask;
  Ok (e, z, p, r).

(** _circ.py 109-232: [_jcirc] after the data frame has been read; [te], [jx], [jy], [jz]
    are the columns of all particles, [ste], [sjx], [sjy], [sjz] those of the stars. *)
Definition jcirc_cols (bin0 bin1 : N) (te jx jy jz ste sjx sjy sjz : list N) : res jcirc_t :=
  let jr a b := nsqrt (a * a + b * b)%num in
  let bound := map is_bound te in
  let Jr_part := map2 jr jx jy in
  do emin <- np_min (bmask bound te);
  let esc := nabs emin in
  let E := map (fun e => (e / esc)%num) (bmask bound te) in
  do jmax <- np_max (map nabs (bmask bound jz));
  let Jz := map (fun j => (j / jmax)%num) (bmask bound jz) in
  do aux <- bin_edges bin0 bin1;
  do pts <- curve aux E Jz;
  let bs := map is_bound ste in
  let idx := where_ bs in
  let E_star := map (fun e => (e / esc)%num) (bmask bs ste) in
  let Jz_star := map (fun j => (j / jmax)%num) (bmask bs sjz) in
  do rmax <- np_max (map nabs (bmask bound Jr_part));
  let Jr_star := map (fun j => (j / rmax)%num) (bmask bs (map2 jr sjx sjy)) in
  do j_circ <- np_interp E_star pts;
  let eps := map2 ndiv Jz_star j_circ in
  let eps_r := map2 ndiv Jr_star j_circ in
  let fresh n := repeat nnan n in
  do E_ <- scatter (fresh (length ste)) idx E_star;
  do Jz_ <- scatter (fresh (length Jz_star)) idx Jz_star;
  do eps_ <- scatter (fresh (length ste)) idx eps;
  do eps_r_ <- scatter (fresh (length ste)) idx eps_r;
  do q <- remove (where_ (map (fun v => nlt n1 v) eps_)) (E_, Jz_, eps_, eps_r_);
  let '(E_, Jz_, eps_, eps_r_) := q in
  do q <- remove (where_ (map (fun v => nlt v nm1) eps_)) (E_, Jz_, eps_, eps_r_);
  let '(E_, Jz_, eps_, eps_r_) := q in
  Ok (JC E_ Jz_ eps_ eps_r_ (map fst pts) (map snd pts)).

(** _circ.py 109-114, 176-178, 235-296: [jcirc(galaxy, bin0, bin1)]; warnings are not modelled. *)
Definition jcirc (g : galaxy N) (bin0 bin1 : N) : res jcirc_t :=
  do d <- to_df g PTNone (Some ["ptypev"; "total_energy"; "Jx"; "Jy"; "Jz"]%string);
  do jx <- ncol d "Jx";
  do jy <- ncol d "Jy";
  do te <- ncol d "total_energy";
  do jz <- ncol d "Jz";
  do pt <- get_col d "ptypev";
  let ms := ptype_mask pt STARS in
  jcirc_cols bin0 bin1 te jx jy jz (bmask ms te) (bmask ms jx) (bmask ms jy) (bmask ms jz).

(** _circ.py 29: [DEFAULT_CBIN]. *)
Definition default_bin0 : N := nlit 5 100.
(** _circ.py 29. *)
Definition default_bin1 : N := nlit 5 1000.

(** _circ.py 77-90: sorted names of the stored attributes. *)
Definition circularity_attributes : list string :=
  ["eps"; "eps_r"; "normalized_star_Jz"; "normalized_star_energy"]%string.
(** _circ.py 92-99: [as_dict], in declaration order. *)
Definition jc_dict (j : jcirc_t) : dict (list N) :=
  [("normalized_star_energy"%string, jc_E j); ("normalized_star_Jz"%string, jc_Jz j);
   ("eps"%string, jc_eps j); ("eps_r"%string, jc_eps_r j)].
(** _circ.py 101-106: [isfinite]; arrays of different lengths cannot be stacked (numpy
    >= 1.24: ValueError). *)
Definition jc_isfinite (j : jcirc_t) : res (list bool) :=
  let n := length (jc_E j) in
  do _ <- guard ((length (jc_Jz j) =? n) && (length (jc_eps j) =? n) && (length (jc_eps_r j) =? n))%nat ValueError;
  Ok (map2 andb (map2 andb (map2 andb (map nfin (jc_E j)) (map nfin (jc_Jz j))) (map nfin (jc_eps j)))
          (map nfin (jc_eps_r j))).

End Circ.
Arguments jcirc_t : clear implicits.
