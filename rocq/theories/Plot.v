(** Model of galaxychop/plot.py. *)
From Verif Require Import Py Num Np Df Data Circ Base.

Section Plot.
Context {N : Num}.
Variable argsort : nat -> list N -> list nat.

(** ** Dispatch *)

(** plot.py 38: [_P_KIND_FORBIDEN_METHODS]. *)
Definition forbidden_kinds : list string := ["get_df_and_hue"; "get_circ_df_and_hue"]%string.
(** plot.py 74-562: the attributes of the accessor whose name does not start with an
    underscore, all of them methods. *)
Definition public_methods : list string :=
  ["get_df_and_hue"; "pairplot"; "scatter"; "hist"; "kde";
   "get_circ_df_and_hue"; "circ_pairplot"; "circ_scatter"; "circ_hist"; "circ_kde"]%string.
(** plot.py 44-70: [__call__(plot_kind)]; the name of the method that is called. *)
Definition plot_call (kind : string) : res string :=
  do _ <- guard (negb (String.prefix "_" kind || smem kind forbidden_kinds)) ValueError;
  do _ <- guard (smem kind public_methods) ValueError;
  Ok kind.

(** ** Arguments *)

(** plot.py 74, 292: the [labels] argument: None, a column name, the result of a decomposition or an array. *)
Inductive plabels : Type := LNone | LName (s : string) | LComp (c : components N) | LArr (l : list (cell N)).
(** plot.py 74, 292: the [lmap] argument: None, a dictionary, a function. *)
Inductive plmap : Type := MNone | MDict (d : list (cell N * cell N)) | MFun (f : cell N -> res (cell N)).

(** plot.py 96-98, 320-322: components stand for their labels. *)
Definition unpack_labels (l : plabels) : plabels :=
  match l with LComp c => LArr (map CNum (c_labels c)) | _ => l end.

(** plot.py 122, 364: Python's [==] on cells: numbers by value, strings by character. *)
Definition cell_eqb (a b : cell N) : bool :=
  match a, b with
  | CNum x, CNum y => neqb x y
  | CInt x, CInt y => (x =? y)%Z
  | CNum x, CInt y => neqb x (nofZ y)
  | CInt x, CNum y => neqb (nofZ x) y
  | CStr s, CStr t => String.eqb s t
  | _, _ => false
  end.
(** plot.py 122, 364: [lmap.get(l, l)]. *)
Definition lget (d : list (cell N * cell N)) (l : cell N) : cell N :=
  match find (fun kv => cell_eqb l (fst kv)) d with Some kv => snd kv | None => l end.

(** plot.py 109, 342: [np.unique] of an array of strings: sorted, each once. *)
Fixpoint insert_name (s : string) (l : list string) : list string :=
  match l with
  | [] => [s]
  | t :: l' => match String.compare s t with Lt => s :: l | Eq => l | Gt => t :: insert_name s l' end
  end.
(** plot.py 109, 342. *)
Definition unique_names (l : list string) : list string := fold_right insert_name [] l.

(** plot.py 118, 360: [df.insert(0, name, values)]: ValueError if the column exists; a frame without rows first
    gets as many rows of NaN as there are values; then the lengths must agree. *)
Definition insert_first (d : df N) (name : string) (values : list (cell N)) : res (df N) :=
  do _ <- guard (negb (smem name (dkeys (cols d)))) ValueError;
  let d := if (nrows d =? 0)%nat then mkDf (length values) (map (fun kc => (fst kc, repeat cnan (length values))) (cols d)) else d in
  do _ <- guard (length values =? nrows d)%nat ValueError;
  Ok (mkDf (nrows d) ((name, values) :: cols d)).

(** plot.py 120-124, 362-366: [df[hue] = df[hue].apply(lmap_func)]. *)
Definition apply_lmap (d : df N) (hue : option string) (m : plmap) : res (df N) :=
  match hue, m with
  | None, _ | _, MNone | Some EmptyString, _ => Ok d
  | Some h, MDict t => do c <- get_col d h; Ok (set_col d h (map (lget t) c))
  | Some h, MFun f => do c <- get_col d h; do c' <- mapM f c; Ok (set_col d h c')
  end.

(** plot.py 74-126: [get_df_and_hue]. *)
Definition get_df_and_hue (g : galaxy N) (ptypes : ptsel) (attributes : option (list string)) (labels : plabels) (lmap : plmap)
  : res (df N * option string) :=
  let labels := unpack_labels labels in
  let attributes := match attributes with None => ["x"; "y"; "z"]%string | Some a => a end in
  let attributes := match labels with LName s => unique_names (attributes ++ [s]) | _ => attributes end in
  do d <- to_df g ptypes (Some attributes);
  do dh <- match labels with
           | LName s => Ok (d, Some s)
           | LArr l => do d <- insert_first d "Labels" l; Ok (d, Some "Labels"%string)
           | _ => Ok (d, None)
           end;
  let '(d, hue) := dh in
  do d <- apply_lmap d hue lmap;
  Ok (d, hue).

(** plot.py 292-368: [get_circ_df_and_hue]. *)
Definition get_circ_df_and_hue (g : galaxy N) (cbins : N * N) (attributes : option (list string)) (labels : plabels) (lmap : plmap)
  : res (df N * option string) :=
  let labels := unpack_labels labels in
  do circ <- jcirc argsort g (fst cbins) (snd cbins);
  do mask <- jc_isfinite circ;
  let circ_dict := jc_dict circ in
  let attributes := match attributes with None => dkeys circ_dict | Some a => a end in
  let attributes := match labels with LName s => unique_names (attributes ++ [s]) | _ => attributes end in
  do columns <- mapM (fun a => match dget circ_dict a with Some c => Ok (a, Arr (map CNum (bmask mask c))) | None => Raise KeyError end) attributes;
  do d <- mk_df (dict_of columns);
  do dh <- match labels with
           | LName s => Ok (d, Some s)
           | LArr l =>
               do _ <- guard (negb (existsb is_str l)) TypeError;
               do d <- insert_first d "Labels" (filter cell_finite l); Ok (d, Some "Labels"%string)
           | _ => Ok (d, None)
           end;
  let '(d, hue) := dh in
  do d <- apply_lmap d hue lmap;
  Ok (d, hue).

(** ** The plots *)

(** plot.py 172, 210, 248, 287: what is handed to seaborn: the function, the arguments x, y (None if not given), data, hue
    and the options, values of type [V]. *)
Context {V : Type}.
(** plot.py 172, 210, 248, 287. *)
Record draw : Type := Draw { d_fn : string; d_x : option string; d_y : option string; d_data : df N; d_hue : option string; d_opts : dict V }.
(** plot.py 172, 210, 248, 287, 417, 463, 510, 561: [sns.f(..., data=df, hue=hue, **kwargs)]: no argument twice. *)
Definition call_seaborn (fn : string) (x y : option string) (dh : df N * option string) (kwargs : dict V) : res draw :=
  do _ <- guard (negb (smem "data" (dkeys kwargs) || smem "hue" (dkeys kwargs))) TypeError;
  Ok (Draw fn x y (fst dh) (snd dh) kwargs).

(** plot.py 169-170, 414-415: [kwargs.setdefault]. *)
Definition setdefault (d : dict V) (k : string) (v : V) : dict V := match dget d k with Some _ => d | None => dset d k v end.
Variables vhist vkde : V.  (* the strings "hist" and "kde" as option values (plot.py 169-170, 414-415). *)
Definition pair_options (kwargs : dict V) : dict V := setdefault (setdefault kwargs "kind" vhist) "diag_kind" vkde.

(** plot.py 236-248, 275-287: [[x] if y is None else [x, y]]. *)
Definition xy_names (x : string) (y : option string) : list string := match y with None => [x] | Some y => [x; y] end.

(** plot.py 128-173: [pairplot] ([labels] defaults to "ptype"). *)
Definition pairplot (g : galaxy N) (ptypes : ptsel) (attributes : option (list string)) (labels : plabels) (lmap : plmap) (kwargs : dict V) : res draw :=
  do dh <- get_df_and_hue g ptypes attributes labels lmap;
  call_seaborn "pairplot" None None dh (pair_options kwargs).
(** plot.py 175-211: [scatter]. *)
Definition scatter_plot (g : galaxy N) (x y : string) (ptypes : ptsel) (labels : plabels) (lmap : plmap) (kwargs : dict V) : res draw :=
  do dh <- get_df_and_hue g ptypes (Some [x; y]) labels lmap;
  call_seaborn "scatterplot" (Some x) (Some y) dh kwargs.
(** plot.py 213-249: [hist]. *)
Definition hist_plot (g : galaxy N) (x : string) (y : option string) (ptypes : ptsel) (labels : plabels) (lmap : plmap) (kwargs : dict V) : res draw :=
  do dh <- get_df_and_hue g ptypes (Some (xy_names x y)) labels lmap;
  call_seaborn "histplot" (Some x) y dh kwargs.
(** plot.py 251-288: [kde]. *)
Definition kde_plot (g : galaxy N) (x : string) (y : option string) (ptypes : ptsel) (labels : plabels) (lmap : plmap) (kwargs : dict V) : res draw :=
  do dh <- get_df_and_hue g ptypes (Some (xy_names x y)) labels lmap;
  call_seaborn "kdeplot" (Some x) y dh kwargs.
(** plot.py 370-418: [circ_pairplot]. *)
Definition circ_pairplot (g : galaxy N) (cbins : N * N) (attributes : option (list string)) (labels : plabels) (lmap : plmap) (kwargs : dict V) : res draw :=
  do dh <- get_circ_df_and_hue g cbins attributes labels lmap;
  call_seaborn "pairplot" None None dh (pair_options kwargs).
(** plot.py 420-464: [circ_scatter]. *)
Definition circ_scatter (g : galaxy N) (x y : string) (cbins : N * N) (labels : plabels) (lmap : plmap) (kwargs : dict V) : res draw :=
  do dh <- get_circ_df_and_hue g cbins (Some [x; y]) labels lmap;
  call_seaborn "scatterplot" (Some x) (Some y) dh kwargs.
(** plot.py 466-511: [circ_hist]. *)
Definition circ_hist (g : galaxy N) (x : string) (y : option string) (cbins : N * N) (labels : plabels) (lmap : plmap) (kwargs : dict V) : res draw :=
  do dh <- get_circ_df_and_hue g cbins (Some (xy_names x y)) labels lmap;
  call_seaborn "histplot" (Some x) y dh kwargs.
(** plot.py 513-562: [circ_kde]. *)
Definition circ_kde (g : galaxy N) (x : string) (y : option string) (cbins : N * N) (labels : plabels) (lmap : plmap) (kwargs : dict V) : res draw :=
  do dh <- get_circ_df_and_hue g cbins (Some (xy_names x y)) labels lmap;
  call_seaborn "kdeplot" (Some x) y dh kwargs.

End Plot.
Arguments plabels : clear implicits.
Arguments plmap : clear implicits.
Arguments draw : clear implicits.
Arguments draw {N} V.
Arguments Draw {N V}. Arguments d_fn {N V}. Arguments d_x {N V}. Arguments d_y {N V}. Arguments d_data {N V}. Arguments d_hue {N V}. Arguments d_opts {N V}.
