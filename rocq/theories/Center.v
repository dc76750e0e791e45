(** Model of galaxychop/utils/_center.py, with the numpy/pandas reductions it uses. *)
From Verif Require Import Py Num Np Df Data.

Section Center.
Context {N : Num}.

(** [ndarray.argmin]: index of the first NaN if there is one, otherwise of the first
    minimum. [best]/[bi] is the running candidate, [i] the next index (_circ.py 137). *)
Fixpoint argmin_from (best : N) (bi i : nat) (l : list N) : nat :=
  match l with
  | [] => bi
  | x :: l' =>
      if nisnan best then bi
      else if nisnan x || nlt x best then argmin_from x i (S i) l'
      else argmin_from best bi (S i) l'
  end.
(** [np.argmin] (_circ.py 137): ValueError on an empty array. *)
Definition np_argmin (l : list N) : res nat :=
  match l with [] => Raise ValueError | x :: l' => Ok (argmin_from x 0 1 l') end.

(** [ndarray.argmax] (_circ.py 163). *)
Fixpoint argmax_from (best : N) (bi i : nat) (l : list N) : nat :=
  match l with
  | [] => bi
  | x :: l' =>
      if nisnan best then bi
      else if nisnan x || nlt best x then argmax_from x i (S i) l'
      else argmax_from best bi (S i) l'
  end.
(** [argmax] (_circ.py 163): ValueError on an empty array. *)
Definition np_argmax (l : list N) : res nat :=
  match l with [] => Raise ValueError | x :: l' => Ok (argmax_from x 0 1 l') end.

(** [pd.Series.argmin()] (skipna): NaN are replaced by +inf; when everything is NaN the
    result is -1, which [iloc] reads as the last row (_center.py 50, 106). *)
Definition pd_argmin (l : list N) : res nat :=
  do i <- np_argmin (map (fun x => if nisnan x then npinf else x) l);
  Ok (if forallb nisnan l then (length l - 1)%nat else i).

(** [df.iloc[i]] restricted to one numeric column (_center.py 51, 107). *)
Definition iloc (c : list (cell N)) (i : nat) : res N :=
  match nth_error c i with Some v => Ok (cell_num v) | None => Raise IndexError end.

(** [df.ptypev == t.value] row mask (_center.py 59-61). *)
Definition ptype_mask (c : list (cell N)) (t : ptype) : list bool :=
  map (fun v => match v with CInt z => Z.eqb z (ptype_value t) | _ => false end) c.

(** _center.py 26-78: [center(galaxy)]. *)
Definition center (g : galaxy N) : res (galaxy N) :=
  do _ <- guard (g_haspot g) ValueError;
  do d <- to_df g PTNone (Some ["ptypev"; "x"; "y"; "z"; "potential"]%string);
  do pt <- get_col d "ptypev";
  do cx <- get_col d "x";
  do cy <- get_col d "y";
  do cz <- get_col d "z";
  do cp <- get_col d "potential";
  do i <- pd_argmin (to_numpy cp);
  do x0 <- iloc cx i;
  do y0 <- iloc cy i;
  do z0 <- iloc cz i;
  (* df[columns] - min_values[columns] *)
  let nx := map (fun v => (v - x0)%num) (to_numpy cx) in
  let ny := map (fun v => (v - y0)%num) (to_numpy cy) in
  let nz := map (fun v => (v - z0)%num) (to_numpy cz) in
  let ms := ptype_mask pt STARS in
  let md := ptype_mask pt DARK_MATTER in
  let mg := ptype_mask pt GAS in
  mkgalaxy (dupdate (galaxy_as_kwargs g)
    [("x_s"%string, KArr (bmask ms nx)); ("y_s"%string, KArr (bmask ms ny));
     ("z_s"%string, KArr (bmask ms nz));
     ("x_dm"%string, KArr (bmask md nx)); ("y_dm"%string, KArr (bmask md ny));
     ("z_dm"%string, KArr (bmask md nz));
     ("x_g"%string, KArr (bmask mg nx)); ("y_g"%string, KArr (bmask mg ny));
     ("z_g"%string, KArr (bmask mg nz))]).

(** [np.isclose(a, b, rtol, atol)] on scalars (_center.py 109, _align.py 207). *)
Definition isclose (rtol atol a b : N) : bool :=
  if nfin a && nfin b then nle (nabs (a - b)%num) (atol + rtol * nabs b)%num
  else neqb a b.
(** [np.allclose] of a list against a scalar (_center.py 109, _align.py 207). *)
Definition allclose (rtol atol : N) (l : list N) (b : N) : bool :=
  forallb (fun a => isclose rtol atol a b) l.

(** _center.py 81-109: [is_centered(galaxy, rtol, atol)]. *)
Definition is_centered (g : galaxy N) (rtol atol : N) : res bool :=
  do _ <- guard (g_haspot g) ValueError;
  do d <- to_df g PTNone (Some ["x"; "y"; "z"; "potential"]%string);
  do cx <- get_col d "x";
  do cy <- get_col d "y";
  do cz <- get_col d "z";
  do cp <- get_col d "potential";
  do i <- pd_argmin (to_numpy cp);
  do x0 <- iloc cx i;
  do y0 <- iloc cy i;
  do z0 <- iloc cz i;
  Ok (allclose rtol atol [x0; y0; z0] n0).

(** _center.py 81: default tolerances 1e-05 and 1e-08. *)
Definition default_rtol : N := nlit 1 100000.
(** _center.py 81. *)
Definition default_atol : N := nlit 1 100000000.

End Center.
