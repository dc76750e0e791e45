(** Model of galaxychop/io.py.  HDF5 is a store of named objects and attributes; the bytes
    are not modelled.  Files are taken as opened: errors of [open] and [np.load] themselves
    are outside. *)
From Verif Require Import Py Num Np Df Data.

Section Io.
Context {N : Num}.

(** ** astropy tables *)

(** [astropy.table.Table]: named columns of one length, in order. Booleans are 0 and 1 (io.py 54-63). *)
Definition table : Type := dict (list (cell N)).

(** [pd.isnull] of a cell (io.py 63). *)
Definition cell_null (c : cell N) : bool := match c with CNum x => nisnan x | _ => false end.
(** [Table.from_pandas] turns a column with nulls into a masked column, and
    [write_table_hdf5] stores a masked column as two: the data and, under [name.mask], the
    mask (the keyword [serialize_meta], which would let the reader undo this, is not used) (io.py 63, 171-173). *)
Definition stored_col (kc : string * list (cell N)) : table :=
  if existsb cell_null (snd kc)
  then [kc; ((fst kc ++ ".mask")%string, map (fun c => CInt (if cell_null c then 1 else 0)%Z) (snd kc))]
  else [kc].
(** io.py 63. *)
Definition from_pandas (d : df N) : table := flat_map stored_col (cols d).

(** io.py 54-57: [_table_to_dict]. *)
Definition table_to_dict (t : table) (suffix : string) : dict (kwval N) :=
  let kws := dupdate [] (map (fun kc => ((fst kc ++ "_" ++ suffix)%string, KArr (to_numpy (snd kc))))
                             (filter (fun kc => negb (String.eqb (fst kc) "id")) t)) in
  let key := ("potential_" ++ suffix)%string in
  dset (ddel kws key) key (match dget kws key with Some v => v | None => KNone end).

(** io.py 60-63: [_df_to_table]. *)
Definition cell_is_str (s : string) (c : cell N) : bool := match c with CStr s' => String.eqb s s' | _ => false end.
(** io.py 60-63. *)
Definition df_to_table (d : df N) (t : ptype) : res table :=
  do c <- get_col d "ptype";
  let td := row_filter (map (cell_is_str (humanize t)) c) d in
  Ok (from_pandas (mkDf (nrows td) (ddel (cols td) "ptype"))).

(** io.py 114-120, 263-269: the keyword arguments of the three tables put together. *)
Definition galaxy_kws (ss sd sg : N) (ts td tg : table) : dict (kwval N) :=
  dupdate (dupdate (dupdate [("softening_s", KNum ss); ("softening_dm", KNum sd); ("softening_g", KNum sg)]%string
    (table_to_dict ts "s")) (table_to_dict td "dm")) (table_to_dict tg "g").

(** ** HDF5 *)

(** An open file: named objects and attributes (values of type [M]).  An object that is no
    table has some exception that [Table.read] raises for it. *)
Context {M : Type}.
(** An object of a file (io.py 99-102). *)
Inductive hobj : Type := HTable (t : table) | HOther (e : exn).
(** An open file (io.py 99, 170). *)
Record h5 : Type := H5 { h_objs : dict hobj; h_attrs : dict M }.

(** [Table.read(f[name])] (io.py 99-102). *)
Definition read_table (f : h5) (name : string) : res table :=
  match dget (h_objs f) name with
  | None => Raise KeyError
  | Some (HOther e) => Raise e
  | Some (HTable t) => Ok t
  end.

(** io.py 71-121: [read_hdf5]. *)
Definition read_hdf5 (f : h5) (ss sd sg : N) : res (galaxy N) :=
  do ts <- read_table f "stars";
  do td <- read_table f "dark_matter";
  do tg <- read_table f "gas";
  mkgalaxy (galaxy_kws ss sd sg ts td tg).

(** Operations on the file are numbered; [fault k = Some e] makes operation [k] raise [e]
    without effect (disk full, an option the library rejects, an interrupt, ...). *)
Variable fault : nat -> option exn.
(** The file and the number of operations done (io.py 170-175). *)
Definition world : Type := h5 * nat.
(** One operation on the file (io.py 170-175). *)
Definition perform (change : h5 -> h5) (w : world) : world * res unit :=
  match fault (snd w) with
  | Some e => (w, Raise e)
  | None => ((change (fst w), S (snd w)), Ok tt)
  end.
(** One operation after the other, unless the first one raises (io.py 170-175). *)
Definition then_ (a b : world -> world * res unit) (w : world) : world * res unit :=
  match a w with (w', Ok _) => b w' | (w', Raise e) => (w', Raise e) end.

(** [write_table_hdf5(t, h5, path=name, append=.., overwrite=..)]: an existing object is
    deleted if both flags are set and otherwise an OSError; h5py links a new dataset after
    its data are written (io.py 171-173). *)
Definition write_table (append overwrite : bool) (name : string) (t : table) (w : world) : world * res unit :=
  let create := perform (fun f => H5 (dset (h_objs f) name (HTable t)) (h_attrs f)) in
  match dget (h_objs (fst w)) name with
  | None => create w
  | Some _ =>
      if append && overwrite then then_ (perform (fun f => H5 (ddel (h_objs f) name) (h_attrs f))) create w
      else (w, Raise OSError)
  end.
(** [h5.attrs.update(md)] (io.py 175). *)
Definition write_attrs (md : dict M) (w : world) : world * res unit :=
  fold_left (fun acc kv => then_ (fun _ => acc) (perform (fun f => H5 (h_objs f) (dset (h_attrs f) (fst kv) (snd kv)))) w)
    md (w, Ok tt).

(** io.py 42-50, 158-160: the metadata. [defaults] is [_DEFAULT_METADATA], [now] the time stamp. *)
Definition h5_metadata (defaults : dict M) (now : M) (metadata : option (dict M)) : dict M :=
  dupdate (dset defaults "utc_timestamp"%string now) (match metadata with Some m => m | None => [] end).

(** io.py 145-151: the frame that is stored. *)
Definition h5_attributes (haspot : bool) : list string :=
  ["ptype"; "m"; "x"; "y"; "z"; "vx"; "vy"; "vz"]%string ++ (if haspot then ["potential"%string] else []).
(** io.py 146-153: the frame. *)
Definition h5_frame (g : galaxy N) : res (df N) :=
  do d <- to_df g PTNone (Some (h5_attributes (g_haspot g)));
  Ok (mkDf (nrows d) (("id"%string, map (fun i => CInt (Z.of_nat i)) (seq 0 (nrows d))) :: cols d)).
(** io.py 155-157: the three tables. *)
Definition h5_tables (g : galaxy N) : res (table * table * table) :=
  do d <- h5_frame g;
  do ts <- df_to_table d STARS;
  do td <- df_to_table d DARK_MATTER;
  do tg <- df_to_table d GAS;
  Ok (ts, td, tg).

(** io.py 124-175: [to_hdf5]; [append] and [overwrite] are the keyword arguments of that name,
    if given. Returns the file left behind and the outcome. *)
Definition to_hdf5 (defaults : dict M) (now : M) (f : h5) (g : galaxy N) (metadata : option (dict M))
  (append overwrite : option bool) : h5 * res unit :=
  match h5_tables g with
  | Raise e => (f, Raise e)
  | Ok (ts, td, tg) =>
      let a := match append with Some b => b | None => true end in
      let o := match overwrite with Some b => b | None => true end in
      let r := then_ (write_table a o "stars" ts)
                 (then_ (write_table a o "dark_matter" td)
                    (then_ (write_table a o "gas" tg)
                       (write_attrs (h5_metadata defaults now metadata)))) (f, 0%nat) in
      (fst (fst r), snd r)
  end.

(** ** numpy files *)

(** A loaded two-dimensional array: number of columns and rows (io.py 236-238). *)
Record ndarray2 : Type := Nd2 { nd_width : nat; nd_rows : list (list N) }.

(** [Table(matrix, names=columns)]: one name for each column and no name twice (io.py 236-238). *)
Definition nd_table (a : ndarray2) (columns : list string) : res table :=
  do _ <- guard (length columns =? nd_width a)%nat ValueError;
  do _ <- guard (length (dedup [] columns) =? length columns)%nat ValueError;
  Ok (map (fun ik => (snd ik, map (fun row => CNum (nth (fst ik) row nnan)) (nd_rows a))) (combine (seq 0 (nd_width a)) columns)).

(** [table.add_column(pot, name="potential")]: no second column of that name; one value is
    repeated for all rows if there are any; otherwise the lengths must agree (with no columns
    at all any length will do). [n] is the number of rows (io.py 240-250). *)
Definition add_potential (t : table) (n : nat) (pot : option (list N)) : res table :=
  match pot with
  | None => Ok t
  | Some p =>
      let p := if (length p =? 1)%nat && (0 <? n)%nat then repeat (nth 0 p nnan) n else p in
      do _ <- guard (match t with [] => true | _ => (length p =? n)%nat end) ValueError;
      do _ <- guard (negb (smem "potential" (dkeys t))) ValueError;
      Ok (t ++ [("potential"%string, map CNum p)])
  end.

(** io.py 183-269: [read_npy]. *)
Definition read_npy (as_ ad ag : ndarray2) (columns : list string) (ps pd pg : option (list N)) (ss sd sg : N) : res (galaxy N) :=
  do ts <- nd_table as_ columns;
  do td <- nd_table ad columns;
  do tg <- nd_table ag columns;
  do ts <- add_potential ts (length (nd_rows as_)) ps;
  do td <- add_potential td (length (nd_rows ad)) pd;
  do tg <- add_potential tg (length (nd_rows ag)) pg;
  mkgalaxy (galaxy_kws ss sd sg ts td tg).

End Io.
Arguments hobj : clear implicits.
Arguments h5 : clear implicits.
Arguments table : clear implicits.
Arguments ndarray2 : clear implicits.
