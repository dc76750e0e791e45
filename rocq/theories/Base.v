(** Model of galaxychop/models/_base.py. *)
From Coq Require Import DecimalString.
From Verif Require Import Py Num Np Df Data Circ.

Section Base.
Context {N : Num}.

(** ** Hyper-parameters *)

(** Values a hyper-parameter can be given: a scalar object, a tuple, another sequence.
    [PyFloat] stands for instances of [float] (so for np.float64 but not np.float32); numpy
    arrays are not modelled as hyper-parameters (_base.py 140-164, 188-196). *)
Inductive hval : Type := HPy (v : pyval N) | HTuple (l : list (pyval N)) | HSeq (l : list (pyval N)).

(** _base.py 188-196: [_bins_validator]; the value is returned when it is accepted. *)
Definition bins_validator (v : hval) : res (N * N) :=
  match v with
  | HTuple [PyFloat a; PyFloat b] => Ok (a, b)
  | _ => Raise ValueError
  end.

(** Order comparison of a Python object with a float: the number it stands for, or
    TypeError. Integers between -1 and 1 are the only ones for which the conversion is used (_threshold.py 85-90). *)
Definition py_number (v : hval) : res (Z + N) :=
  match v with
  | HPy (PyFloat x) => Ok (inr x)
  | HPy (PyInt z) => Ok (inl z)
  | HPy (PyBool b) => Ok (inl (if b then 1 else 0)%Z)
  | HPy (PyType p) => Ok (inl (ptype_value p))
  | _ => Raise TypeError
  end.
(** _threshold.py 81-93: [check_eps_cut]. *)
Definition check_eps_cut (v : hval) : res N :=
  do n <- py_number v;
  match n with
  | inl z => if (1 <? z)%Z || (z <? -1)%Z then Raise ValueError else Ok (nofZ z)
  | inr x => if nlt n1 x || nlt x nm1 then Raise ValueError else Ok x
  end.

(** ** Attribute matrix *)

(** Rows of cells; a row has one cell per attribute (_base.py 398-403). *)
Definition matrix : Type := list (list (cell N)).

Variable argsort : nat -> list N -> list nat.

(** Dictionary built from pairs (_base.py 309-327). *)
Definition dict_of {V} (l : list (string * V)) : dict V := dupdate [] l.

(** _base.py 299-329: [_get_jcirc_df(galaxy, attributes)]. *)
Definition nan_df (n : nat) (t : ptype) (attrs : list string) : res (df N) :=
  mk_df (dset (dict_of (map (fun a => (a, Arr (repeat cnan n))) attrs)) "ptypev" (Scal (CInt (ptype_value t)))).
(** _base.py 299-309: the dictionary of the circularities with [ptypev]. *)
Definition jcirc_dict (j : jcirc_t N) : dict (coldata N) :=
  dset (map (fun kv => (fst kv, Arr (map CNum (snd kv)))) (jc_dict j)) "ptypev" (Scal (CInt (ptype_value STARS))).
(** _base.py 299-329. *)
Definition get_jcirc_df (cbins : N * N) (g : galaxy N) (attrs : list string) : res (df N) :=
  do j <- jcirc argsort g (fst cbins) (snd cbins);
  do cs <- mapM (fun a => match dget (jcirc_dict j) a with Some c => Ok (a, c) | None => Raise KeyError end) attrs;
  do sdf <- mk_df (dict_of cs);
  do ddf <- nan_df (plen (g_dm g)) DARK_MATTER attrs;
  do gdf <- nan_df (plen (g_gas g)) GAS attrs;
  concat_rows [sdf; ddf; gdf].

(** _base.py 35: [_PTYPES_ORDER]. *)
Definition ptypes_order : list string := map humanize [STARS; DARK_MATTER; GAS].

(** [pd.concat(parts, axis=1)] of frames with default indices: the shorter ones are padded
    with NaN (_base.py 130, 393). *)
Definition concat_cols (parts : list (df N)) : res (df N) :=
  match parts with
  | [] => Raise ValueError
  | _ =>
      let n := list_max (map nrows parts) in
      Ok (mkDf n (flat_map (fun p => map (fun kc => (fst kc, snd kc ++ repeat cnan (n - length (snd kc)))) (cols p)) parts))
  end.
(** [df.loc[:, ~df.columns.duplicated()]]: the first column of every name (_base.py 396). *)
Definition drop_duplicated (d : df N) : df N :=
  mkDf (nrows d) (flat_map (fun k => match dget (cols d) k with Some c => [(k, c)] | None => [] end)
                           (dedup [] (dkeys (cols d)))).
(** [.to_numpy()] of a frame (_base.py 399). *)
Definition rows_of (n : nat) (cs : list (list (cell N))) : matrix :=
  map (fun i => map (fun c => nth i c cnan) cs) (seq 0 n).

(** _base.py 331-403: [attributes_matrix(galaxy, attributes)]. *)
Definition attributes_matrix (cbins : N * N) (g : galaxy N) (attributes : list string)
  : res (matrix * list (cell N)) :=
  let circ_attrs := filter (fun a => smem a circularity_attributes) attributes in
  let df_attrs := filter (fun a => negb (smem a circularity_attributes)) attributes in
  do r1 <- match df_attrs with
           | [] => Ok []
           | _ =>
               let df_attrs := if smem "ptypev" df_attrs then df_attrs else df_attrs ++ ["ptypev"%string] in
               do d <- to_df g (PTList ptypes_order) (Some df_attrs); Ok [d]
           end;
  do r2 <- match circ_attrs with
           | [] => Ok []
           | _ => do d <- get_jcirc_df cbins g (circ_attrs ++ ["ptypev"%string]); Ok [d]
           end;
  do d <- concat_cols (r1 ++ r2);
  let d := drop_duplicated d in
  do cs <- mapM (get_col d) attributes;
  do y <- get_col d "ptypev";
  Ok (rows_of (nrows d) cs, y).

(** ** Completion *)

(** A two dimensional array of probabilities: number of columns and rows (_base.py 66, 474-480). *)
Record probs : Type := Probs { pr_width : nat; pr_rows : list (list N) }.

(** _base.py 405-435: [complete_labels]. *)
Definition complete_labels (X : matrix) (labels : list Z) (mask : list bool) : res (list N) :=
  do _ <- guard (length mask =? length X)%nat IndexError;
  mask_assign (repeat nnan (length X)) mask (map nofZ labels).
(** _base.py 437-485: [complete_probs]. *)
Definition complete_probs (X : matrix) (p : option probs) (mask : list bool) : res (option probs) :=
  match p with
  | None => Ok None
  | Some p =>
      do _ <- guard (length mask =? length X)%nat IndexError;
      do r <- mask_assign (repeat (repeat nnan (pr_width p)) (length X)) mask (pr_rows p);
      Ok (Some (Probs (pr_width p) r))
  end.

(** ** Components *)

(** _base.py 41-68: [Components]. *)
Record components : Type := Comp { c_labels : list N; c_ptypes : list string; c_probs : option probs }.
(** _base.py 63-82: construction; an argument that is not an array raises TypeError (attrs
    runs the validators in order), then the lengths are compared. Arrays have at least one
    dimension. *)
Inductive arg (A : Type) : Type := ANd (a : A) | AOther.
Arguments ANd {A} a.
Arguments AOther {A}.
(** _base.py 63-67: the validators [instance_of(np.ndarray)]. *)
Definition unpack {A} (a : arg A) : res A := match a with ANd a => Ok a | AOther => Raise TypeError end.
(** _base.py 63-81. *)
Definition mk_components (labels : arg (list N)) (ptypes : arg (list string)) (pr : option (arg probs)) : res components :=
  do l <- unpack labels;
  do t <- unpack ptypes;
  do p <- match pr with None => Ok None | Some a => do p <- unpack a; Ok (Some p) end;
  do _ <- guard ((length l =? length t) &&
                 match p with None => true | Some p => length (pr_rows p) =? length l end)%nat ValueError;
  Ok (Comp l t p).
(** _base.py 84-86. *)
Definition c_len (c : components) : nat := length (c_labels c).

(** Decimal digits of a column number (_base.py 123). *)
Definition digits_of (n : nat) : string := NilEmpty.string_of_uint (Nat.to_uint n).
(** _base.py 121-124: the frame of the probabilities. *)
Definition probs_df (p : probs) : df N :=
  mkDf (length (pr_rows p))
       (map (fun k => (("probs_" ++ digits_of k)%string, map (fun r => CNum (nth k r nnan)) (pr_rows p)))
            (seq 0 (pr_width p))).
(** _base.py 95-132: [Components.to_dataframe(attributes)]. *)
Fixpoint comp_columns (c : components) (acc : dict (coldata N)) (attrs : list string) : res (dict (coldata N)) :=
  match attrs with
  | [] => Ok acc
  | a :: attrs' =>
      if String.eqb a "probabilities" then comp_columns c acc attrs'
      else if String.eqb a "labels" then comp_columns c (dset acc a (Arr (map CNum (c_labels c)))) attrs'
      else if String.eqb a "ptypes" then comp_columns c (dset acc a (Arr (map CStr (c_ptypes c)))) attrs'
      else Raise KeyError
  end.
(** _base.py 94-132. *)
Definition comp_to_df (c : components) (attributes : option (list string)) : res (df N) :=
  let attrs := match attributes with
               | None => ["labels"; "ptypes"; "probabilities"]%string
               | Some l => l
               end in
  do d <- comp_columns c [] attrs;
  do d <- mk_df d;
  match c_probs c with
  | Some p => if smem "probabilities" attrs then concat_cols [d; probs_df p] else Ok d
  | None => Ok d
  end.

(** ** Decomposers *)

(** [X[mask]] / [y[mask]] (_base.py 506-507). *)
Definition select_rows {A} (mask : list bool) (a : list A) : res (list A) :=
  do _ <- guard (length mask =? length a)%nat IndexError; Ok (bmask mask a).

(** A decomposer: its bins and what its class implements (_base.py 223-290); [St] is the
    state of the random generator it owns. *)
Record decomposer (St : Type) : Type := Decomposer {
  d_cbins : N * N;
  d_attributes : list string;
  d_mask : matrix -> list (cell N) -> list string -> res (list bool);
  d_split : St -> matrix -> list (cell N) -> list string -> res (list Z * option probs * St) }.
Arguments d_cbins {St}. Arguments d_attributes {St}. Arguments d_mask {St}. Arguments d_split {St}.

(** A cell seen as a Python object (_base.py 522-525). *)
Definition py_of_cell (c : cell N) : pyval N :=
  match c with CNum x => PyFloat x | CInt z => PyInt z | CStr s => PyStr s end.

(** _base.py 487-531: [decompose(galaxy)], with the state of the generator afterwards (of no
    interest when it raises). *)
Definition decompose {St} (D : decomposer St) (st : St) (g : galaxy N) : res (components * St) :=
  let attributes := d_attributes D in
  do Xy <- attributes_matrix (d_cbins D) g attributes;
  let '(X, y) := Xy in
  do mask <- d_mask D X y attributes;
  do Xc <- select_rows mask X;
  do yc <- select_rows mask y;
  do r <- d_split D st Xc yc attributes;
  let '(labels, pr, st') := r in
  do final_labels <- complete_labels X labels mask;
  do final_probs <- complete_probs X pr mask;
  do final_y <- mapM (fun yi => do p <- mktype (py_of_cell yi); Ok (humanize p)) y;
  do c <- mk_components (ANd final_labels) (ANd final_y) (match final_probs with None => None | Some p => Some (ANd p) end);
  Ok (c, st').

(** [np.isfinite] of a cell; TypeError on an array of objects, which a matrix is when one of
    its columns holds strings (_base.py 557). *)
Definition cell_finite (c : cell N) : bool :=
  match c with CNum x => nfin x | CInt _ => true | CStr _ => false end.
(** _base.py 557: a cell of an array of objects. *)
Definition is_str (c : cell N) : bool := match c with CStr _ => true | _ => false end.
(** [np.equal(y, 0)] of a cell (_base.py 556). *)
Definition cell_is (z : Z) (c : cell N) : bool :=
  match c with CNum x => neqb x (nofZ z) | CInt z' => (z =? z')%Z | CStr _ => false end.
(** _base.py 539-558: [DynamicStarsDecomposerMixin.get_rows_mask]. *)
Definition stars_mask (X : matrix) (y : list (cell N)) (attributes : list string) : res (list bool) :=
  let only_stars := map (cell_is (ptype_value STARS)) y in
  do _ <- guard (negb (existsb (existsb is_str) X)) TypeError;
  bop andb only_stars (map (forallb cell_finite) X).

End Base.
Arguments hval : clear implicits.
Arguments matrix : clear implicits.
Arguments probs : clear implicits.
Arguments components : clear implicits.
Arguments decomposer : clear implicits.
Arguments ANd {A} a.
Arguments AOther {A}.
Arguments d_cbins {N St}. Arguments d_attributes {N St}. Arguments d_mask {N St}. Arguments d_split {N St}.
