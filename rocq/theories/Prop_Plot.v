(** Property theorems. Plots (C55 to C57, C60). Proofs are in PlotThms.v. *)
From Verif Require Import Py Num RX F64 Np Df Data DataFacts DfFacts RebuildFacts CenterFacts Ex Spec SpecR SpecCirc SpecBase DataThms CircThms Base BaseFacts BaseThms Circ Threshold ThresholdThms Plot SpecPlot PlotFacts PlotThms.
From Coq Require Import Lia Lra.
From Flocq Require Import Core.Raux.
From Coq Require Import Floats.SpecFloat.

(** A plot is dispatched exactly if it is one of the eight kinds; every other name, private,
    a helper or unknown, raises ValueError. *)
Theorem C55_dispatch : forall kind : string,
  (In kind plot_kinds -> plot_call kind = Ok kind) /\
  (~ In kind plot_kinds -> plot_call kind = Raise ValueError).
Proof. exact c55_dispatch. Qed.
Print Assumptions C55_dispatch.

(** A kind, a private name, a helper, an unknown name, and a name that only ends like one. *)
Example EX_C55 : plot_call "circ_kde" = Ok "circ_kde"%string /\ plot_call "_galaxy" = Raise ValueError /\
  plot_call "get_df_and_hue" = Raise ValueError /\ plot_call "violin" = Raise ValueError /\ plot_call "" = Raise ValueError.
Proof. exact ex_c55. Qed.

(** The frame of the plots: one row per particle of the wanted types in galaxy order, with the
    values of its attributes; the column that gives the colours, an attribute or the array,
    holds the labels as [lmap] shows them, everything else is untouched. *)
Theorem C56_rows : forall (N : Num) (g : galaxy N) sel a labels m d h (keep : pset N -> bool),
  constructible g -> get_df_and_hue g sel a labels m = Ok (d, h) -> (forall p, keep p = true <-> wanted sel p) ->
  let kept := filter keep (sets g) in
  let rows := list_sum (map plen kept) in
  let names := needed ["x"; "y"; "z"]%string a labels in
  names <> [] -> rows <> 0%nat ->
  h = hue_name labels /\ nrows d = rows /\ wf_df d /\
  (forall before p after i, kept = before ++ p :: after -> (i < plen p)%nat ->
     let r := (list_sum (map plen before) + i)%nat in
     (forall k, In k names -> Some k <> h -> attr_value p k i <> None /\ cell_at d k r = attr_value p k i) /\
     (forall s, labels = LName s -> exists c c', attr_value p s i = Some c /\ cell_at d s r = Some c' /\ relabels m c c')) /\
  (forall l, label_values labels = Some l -> length l = rows /\
     forall r c, nth_error l r = Some c -> exists c', cell_at d "Labels" r = Some c' /\ relabels m c c').
Proof. exact c56_rows. Qed.
Print Assumptions C56_rows.

(** Its columns: "Labels" first if the labels are an array, then the attributes in the order
    they were asked for, each once; in alphabetical order if the label is an attribute. *)
Theorem C56_columns : forall (N : Num) (g : galaxy N) sel a labels m d h,
  constructible g -> get_df_and_hue g sel a labels m = Ok (d, h) ->
  let asked := match a with None => ["x"; "y"; "z"]%string | Some a => a end in
  (labels = LNone -> dkeys (cols d) = first_occurrences asked) /\
  (forall l, label_values labels = Some l -> dkeys (cols d) = "Labels"%string :: first_occurrences asked) /\
  (forall s, labels = LName s -> increasing_names (dkeys (cols d)) /\ forall k, In k (dkeys (cols d)) <-> k = s \/ In k asked).
Proof. exact c56_columns. Qed.
Print Assumptions C56_columns.

(** When there is a frame: no wanted type is a ValueError, an unknown name a KeyError, only
    single-valued attributes a ValueError; then an array of another length than the frame is
    a ValueError, and everything else succeeds if [lmap] does. *)
Theorem C56_errors : forall (N : Num) (g : galaxy N) sel a labels m (keep : pset N -> bool),
  constructible g -> (forall p, keep p = true <-> wanted sel p) ->
  let kept := filter keep (sets g) in
  let rows := list_sum (map plen kept) in
  let names := needed ["x"; "y"; "z"]%string a labels in
  (kept = [] -> get_df_and_hue g sel a labels m = Raise ValueError) /\
  (kept <> [] -> (exists k, In k names /\ ~ known_attr k) -> get_df_and_hue g sel a labels m = Raise KeyError) /\
  (kept <> [] -> (forall k, In k names -> known_attr k) -> names <> [] ->
     (forall k, In k names -> scalar_attr (g_haspot g) k) -> get_df_and_hue g sel a labels m = Raise ValueError) /\
  (kept <> [] -> (forall k, In k names -> known_attr k) -> (exists k, In k names /\ ~ scalar_attr (g_haspot g) k) ->
     (forall l, label_values labels = Some l -> rows <> 0%nat -> length l <> rows -> get_df_and_hue g sel a labels m = Raise ValueError) /\
     ((forall l, label_values labels = Some l -> length l = rows) -> total_map m ->
        exists d, get_df_and_hue g sel a labels m = Ok (d, hue_name labels))).
Proof. exact c56_errors. Qed.
Print Assumptions C56_errors.

(** A frame without rows, because the wanted types have no particles or no attribute was
    asked for, takes an array of any length: as many rows of NaN as there are labels. *)
Theorem C56_blank : forall (N : Num) (g : galaxy N) sel a labels l m (keep : pset N -> bool),
  constructible g -> (forall p, keep p = true <-> wanted sel p) -> label_values labels = Some l -> total_map m ->
  let kept := filter keep (sets g) in
  let names := needed ["x"; "y"; "z"]%string a labels in
  kept <> [] -> (forall k, In k names -> known_attr k) ->
  (names = [] \/ list_sum (map plen kept) = 0%nat /\ exists k, In k names /\ ~ scalar_attr (g_haspot g) k) ->
  exists d, get_df_and_hue g sel a labels m = Ok (d, Some "Labels"%string) /\ nrows d = length l /\
    (forall k r, In k names -> (r < length l)%nat -> cell_at d k r = Some (CNum nnan)) /\
    (forall r c, nth_error l r = Some c -> exists c', cell_at d "Labels" r = Some c' /\ relabels m c c').
Proof. exact c56_blank. Qed.
Print Assumptions C56_blank.

(** The result of a decomposition as labels, all particles drawn: the row of every particle
    shows its own attributes and its own label. *)
Theorem C56_components : forall (N : Num) (RN : Rounded N) argsort St (D : decomposer N St) st (g : galaxy N) c st' a,
  constructible g -> one_row_each g (d_attributes D) -> decompose argsort D st g = Ok (c, st') ->
  let names := match a with None => ["x"; "y"; "z"]%string | Some a => a end in
  (forall k, In k names -> known_attr k) -> (exists k, In k names /\ ~ scalar_attr (g_haspot g) k) ->
  exists d, get_df_and_hue g PTNone a (LComp c) MNone = Ok (d, Some "Labels"%string) /\
    forall i p k, located g i p k ->
      cell_at d "Labels" i = option_map CNum (nth_error (c_labels c) i) /\
      forall n, In n names -> attr_value p n k <> None /\ cell_at d n i = attr_value p n k.
Proof. exact c56_components. Qed.
Print Assumptions C56_components.

(** The frame of the circularity plots: one row per star whose four circularity values are
    finite, in order, with its values; a label that is one of the attributes is shown through
    [lmap]; an array of labels loses its non-finite entries and what is left is matched with
    the rows by position: the n-th finite label goes to the n-th finite star. *)
Theorem C57_rows : forall (N : Num) (RN : Rounded N) argsort (g : galaxy N) cb a labels m d h,
  constructible g -> get_circ_df_and_hue argsort g cb a labels m = Ok (d, h) ->
  let names := needed ["normalized_star_energy"; "normalized_star_Jz"; "eps"; "eps_r"]%string a labels in
  exists j stars, jcirc argsort g (fst cb) (snd cb) = Ok j /\ length stars = plen (g_stars g) /\
  (forall i, nth_error stars i = Some true <-> finite_star j i) /\
  (names <> [] -> selected_rows stars <> 0%nat ->
   h = hue_name labels /\ nrows d = selected_rows stars /\ wf_df d /\
   (forall i, finite_star j i ->
      (forall k, In k names -> Some k <> h -> exists w, nth_error (circ_col j k) i = Some w /\ cell_at d k (rank stars i) = Some (CNum w)) /\
      (forall s, labels = LName s -> exists w c', nth_error (circ_col j s) i = Some w /\ cell_at d s (rank stars i) = Some c' /\ relabels m (CNum w) c')) /\
   (forall l, label_values labels = Some l -> exists finite, length finite = length l /\
      (forall k, nth_error finite k = Some true <-> finite_label l k) /\ selected_rows finite = selected_rows stars /\
      forall k c i, nth_error l k = Some c -> finite_cell c -> finite_star j i -> rank finite k = rank stars i ->
        exists c', cell_at d "Labels" (rank stars i) = Some c' /\ relabels m c c')).
Proof. exact c57_rows. Qed.
Print Assumptions C57_rows.

(** If the labels are finite exactly for the finite stars, every star is shown with its own. *)
Theorem C57_own : forall (N : Num) (RN : Rounded N) argsort (g : galaxy N) cb a labels l m d h j,
  constructible g -> get_circ_df_and_hue argsort g cb a labels m = Ok (d, h) -> jcirc argsort g (fst cb) (snd cb) = Ok j ->
  a <> Some [] -> label_values labels = Some l -> (forall i, finite_label l i <-> finite_star j i) ->
  exists stars, (forall i, nth_error stars i = Some true <-> finite_star j i) /\
    forall i c, finite_star j i -> nth_error l i = Some c -> exists c', cell_at d "Labels" (rank stars i) = Some c' /\ relabels m c c'.
Proof. exact c57_own. Qed.
Print Assumptions C57_own.

(** When there is a frame: the errors of jcirc come through, an unbound star is a ValueError,
    an unknown attribute a KeyError, a string among the labels a TypeError; then a number of
    finite labels other than that of finite stars is a ValueError, unless no star is finite;
    everything else succeeds if [lmap] does. *)
Theorem C57_errors : forall (N : Num) (RN : Rounded N) argsort (g : galaxy N) cb a labels m,
  constructible g ->
  let names := needed ["normalized_star_energy"; "normalized_star_Jz"; "eps"; "eps_r"]%string a labels in
  let run := get_circ_df_and_hue argsort g cb a labels m in
  (forall e, jcirc argsort g (fst cb) (snd cb) = Raise e -> run = Raise e) /\
  (forall j, jcirc argsort g (fst cb) (snd cb) = Ok j ->
     ((exists o, In o (star_orbits g) /\ bound o = false) -> run = Raise ValueError) /\
     ((forall o, In o (star_orbits g) -> bound o = true) ->
        ((exists k, In k names /\ ~ circ_attr k) -> run = Raise KeyError) /\
        ((forall k, In k names -> circ_attr k) ->
           (forall l s, label_values labels = Some l -> In (CStr s) l -> run = Raise TypeError) /\
           (forall l finite stars, label_values labels = Some l -> (forall s, ~ In (CStr s) l) ->
              (forall k, nth_error finite k = Some true <-> finite_label l k) ->
              (forall i, nth_error stars i = Some true <-> finite_star j i) ->
              names <> [] -> selected_rows stars <> 0%nat -> selected_rows finite <> selected_rows stars -> run = Raise ValueError) /\
           (total_map m -> (forall l, label_values labels = Some l -> (forall s, ~ In (CStr s) l) /\
              exists finite stars, (forall k, nth_error finite k = Some true <-> finite_label l k) /\
                (forall i, nth_error stars i = Some true <-> finite_star j i) /\
                (names = [] \/ selected_rows stars = 0%nat \/ selected_rows finite = selected_rows stars)) ->
            exists d, run = Ok (d, hue_name labels))))).
Proof. exact c57_errors. Qed.
Print Assumptions C57_errors.

(** When no star is finite, or no attribute is asked for, there is no ValueError: the frame
    gets one row of NaN per finite label. *)
Theorem C57_blank : forall (N : Num) (RN : Rounded N) argsort (g : galaxy N) cb a labels l finite m j,
  constructible g -> jcirc argsort g (fst cb) (snd cb) = Ok j -> (forall o, In o (star_orbits g) -> bound o = true) ->
  label_values labels = Some l -> (forall s, ~ In (CStr s) l) -> (forall k, nth_error finite k = Some true <-> finite_label l k) -> total_map m ->
  let names := needed ["normalized_star_energy"; "normalized_star_Jz"; "eps"; "eps_r"]%string a labels in
  (forall k, In k names -> circ_attr k) -> (names = [] \/ forall i, ~ finite_star j i) ->
  exists d, get_circ_df_and_hue argsort g cb a labels m = Ok (d, Some "Labels"%string) /\ nrows d = selected_rows finite /\
    (forall k r, In k names -> (r < selected_rows finite)%nat -> cell_at d k r = Some (CNum nnan)) /\
    (forall i c, nth_error l i = Some c -> finite_cell c -> exists c', cell_at d "Labels" (rank finite i) = Some c' /\ relabels m c c').
Proof. exact c57_blank. Qed.
Print Assumptions C57_blank.

(** The labels of a decomposition of the stars, drawn with the same bins: if the stars the
    method uses are those with finite circularities, every row shows a star's values beside
    the label of that star. *)
Theorem C57_decompose : forall (N : Num) (RN : Rounded N) argsort St (D : decomposer N St) st (g : galaxy N) c st' j a,
  constructible g -> one_row_each g (d_attributes D) -> d_mask D = stars_mask ->
  (forall st X y a l p s, d_split D st X y a = Ok (l, p, s) -> length l = length X /\ forall z, In z l -> nfin (nofZ z : N) = true) ->
  decompose argsort D st g = Ok (c, st') ->
  (exists a, In a (d_attributes D) /\ circ_attr a) -> jcirc argsort g (fst (d_cbins D)) (snd (d_cbins D)) = Ok j ->
  (forall o, In o (star_orbits g) -> bound o = true) ->
  (forall i, finite_star j i <-> forall a, In a (d_attributes D) -> exists v, attribute j (g_stars g) i a v /\ finite_cell v) ->
  let names := match a with None => ["normalized_star_energy"; "normalized_star_Jz"; "eps"; "eps_r"]%string | Some a => a end in
  (forall k, In k names -> circ_attr k) -> names <> [] ->
  exists d stars, get_circ_df_and_hue argsort g (d_cbins D) a (LComp c) MNone = Ok (d, Some "Labels"%string) /\
    (forall i, nth_error stars i = Some true <-> finite_star j i) /\ nrows d = selected_rows stars /\
    forall i, finite_star j i -> exists w, nth_error (c_labels c) i = Some w /\ nisnan w = false /\
      cell_at d "Labels" (rank stars i) = Some (CNum w) /\
      forall k, In k names -> exists v, nth_error (circ_col j k) i = Some v /\ cell_at d k (rank stars i) = Some (CNum v).
Proof. exact c57_decompose. Qed.
Print Assumptions C57_decompose.

(** In exact arithmetic the stars a method with the attribute "eps" uses are those with finite
    circularities, if some bound particle has angular momentum outside the z axis. *)
Theorem C57_exact : forall argsort (g : galaxy RX) (b0 b1 : RX) j attributes,
  constructible g -> sorting argsort -> nlt n0 b0 = true -> nlt n0 b1 = true -> regular g ->
  (exists o, In o (all_orbits g) /\ bound o = true /\ o_jp o <> XR 0) ->
  (forall o, In o (star_orbits g) -> bound o = true) -> jcirc argsort g b0 b1 = Ok j ->
  In "eps"%string attributes -> (forall a, In a attributes -> circ_attr a) ->
  forall i, finite_star j i <-> forall a, In a attributes -> exists v, attribute j (g_stars g) i a v /\ finite_cell v.
Proof. exact c57_exact. Qed.
Print Assumptions C57_exact.

(** The frame a plot hands to seaborn has the columns it names: x, y and the colour. *)
Theorem C60_complete : forall (N : Num) V argsort (g : galaxy N) x y y' sel cb a labels m (kw : dict V) vhist vkde r, constructible g ->
  pairplot vhist vkde g sel a labels m kw = Ok r \/ scatter_plot g x y sel labels m kw = Ok r \/
  hist_plot g x y' sel labels m kw = Ok r \/ kde_plot g x y' sel labels m kw = Ok r \/
  circ_pairplot argsort vhist vkde g cb a labels m kw = Ok r \/ circ_scatter argsort g x y cb labels m kw = Ok r \/
  circ_hist argsort g x y' cb labels m kw = Ok r \/ circ_kde argsort g x y' cb labels m kw = Ok r ->
  complete r /\ d_hue r = hue_name labels.
Proof. exact c60_complete. Qed.
Print Assumptions C60_complete.

(** The call a plot makes: the seaborn function of its name, the axes as given, the options as
    given, and the frame of exactly those axes; "data" or "hue" among the options is a TypeError,
    anything that goes wrong with the frame is passed on. *)
Theorem C60_calls : forall (N : Num) V argsort (g : galaxy N) x y y' sel cb labels m (kw : dict V) fn cx cy p frame,
  (fn, cx, cy, p, frame) = ("scatterplot"%string, Some x, Some y, scatter_plot g x y sel labels m kw, fun a => get_df_and_hue g sel (Some a) labels m) \/
  (fn, cx, cy, p, frame) = ("histplot"%string, Some x, y', hist_plot g x y' sel labels m kw, fun a => get_df_and_hue g sel (Some a) labels m) \/
  (fn, cx, cy, p, frame) = ("kdeplot"%string, Some x, y', kde_plot g x y' sel labels m kw, fun a => get_df_and_hue g sel (Some a) labels m) \/
  (fn, cx, cy, p, frame) = ("scatterplot"%string, Some x, Some y, circ_scatter argsort g x y cb labels m kw, fun a => get_circ_df_and_hue argsort g cb (Some a) labels m) \/
  (fn, cx, cy, p, frame) = ("histplot"%string, Some x, y', circ_hist argsort g x y' cb labels m kw, fun a => get_circ_df_and_hue argsort g cb (Some a) labels m) \/
  (fn, cx, cy, p, frame) = ("kdeplot"%string, Some x, y', circ_kde argsort g x y' cb labels m kw, fun a => get_circ_df_and_hue argsort g cb (Some a) labels m) ->
  exists axes, (forall c, In c axes <-> cx = Some c \/ cy = Some c) /\
  match frame axes with
  | Raise e => p = Raise e
  | Ok (d, h) => (In "data"%string (dkeys kw) \/ In "hue"%string (dkeys kw) -> p = Raise TypeError) /\
      (~ In "data"%string (dkeys kw) -> ~ In "hue"%string (dkeys kw) ->
       exists r, p = Ok r /\ d_fn r = fn /\ d_x r = cx /\ d_y r = cy /\ d_data r = d /\ d_hue r = h /\ d_opts r = kw)
  end.
Proof. exact c60_calls. Qed.
Print Assumptions C60_calls.

(** The options of a pair plot: the caller's win, "kind" and "diag_kind" have defaults; giving
    "data" or "hue" is a TypeError in every plot whose frame exists. *)
Theorem C60_options : forall (N : Num) V argsort (g : galaxy N) sel cb a labels m (kw : dict V) vhist vkde,
  (forall r, pairplot vhist vkde g sel a labels m kw = Ok r \/ circ_pairplot argsort vhist vkde g cb a labels m kw = Ok r ->
     d_fn r = "pairplot"%string /\ d_x r = None /\ d_y r = None /\ forall k, dget (d_opts r) k =
       match dget kw k with
       | Some v => Some v
       | None => if (k =? "kind")%string then Some vhist else if (k =? "diag_kind")%string then Some vkde else None
       end) /\
  (forall r, pairplot vhist vkde g sel a labels m kw = Ok r -> get_df_and_hue g sel a labels m = Ok (d_data r, d_hue r)) /\
  (forall r, circ_pairplot argsort vhist vkde g cb a labels m kw = Ok r -> get_circ_df_and_hue argsort g cb a labels m = Ok (d_data r, d_hue r)) /\
  (In "data"%string (dkeys kw) \/ In "hue"%string (dkeys kw) ->
     (forall dh, get_df_and_hue g sel a labels m = Ok dh -> pairplot vhist vkde g sel a labels m kw = Raise TypeError) /\
     (forall dh, get_circ_df_and_hue argsort g cb a labels m = Ok dh -> circ_pairplot argsort vhist vkde g cb a labels m kw = Raise TypeError)).
Proof. exact c60_options. Qed.
Print Assumptions C60_options.

(** Colour by type with a dictionary, and by an array. *)
Example EX_C56 :
  pframe (do g <- boundG; get_df_and_hue g PTNone (Some ["y"; "x"]%string) (LName "ptype") (MDict [(CStr "gas", CStr "Gas")])) =
  Ok (4%nat, [("ptype", [ShS "stars"; ShS "stars"; ShS "stars"; ShS "Gas"]);
              ("x", [ShF (sZ 1); ShF (sZ (-3)); ShF (sZ (-2)); ShF (sZ 5)]);
              ("y", [ShF (sZ 0); ShF (sZ 0); ShF (sZ 0); ShF (sZ 0)])]%string, Some "ptype"%string) /\
  pframe (do g <- boundG; get_df_and_hue g (PTList ["stars"%string]) (Some ["x"%string]) (LArr [CInt 1; CNum (fZ 0); CInt 2]) (MDict [(CInt 0, CStr "a"); (CNum (fZ 2), CStr "b")])) =
  Ok (3%nat, [("Labels", [ShI 1; ShS "a"; ShS "b"]); ("x", [ShF (sZ 1); ShF (sZ (-3)); ShF (sZ (-2))])]%string, Some "Labels"%string) /\
  exn_of (do g <- boundG; get_df_and_hue g PTNone None (LArr [CInt 1]) MNone) = Some ValueError /\
  exn_of (do g <- boundG; get_df_and_hue g PTNone None (LName "nope") MNone) = Some KeyError /\
  exn_of (do g <- boundG; get_df_and_hue g PTNone (Some ["softening"%string]) LNone MNone) = Some ValueError.
Proof. exact ex_c56. Qed.

(** The empty dark matter takes two labels: two rows that no particle has. *)
Example EX_C56_blank :
  pframe (do g <- boundG; get_df_and_hue g (PTList ["dark_matter"%string]) (Some ["x"%string]) (LArr [CInt 1; CInt 2]) MNone) =
  Ok (2%nat, [("Labels", [ShI 1; ShI 2]); ("x", [ShF S754_nan; ShF S754_nan])]%string, Some "Labels"%string).
Proof. exact ex_c56_blank. Qed.

(** So an array of the wrong length is not always refused. *)
Theorem C56_length_refuted : exists (g : galaxy F64) sel l d h, constructible g /\
  list_sum (map plen (filter (selected sel) (sets g))) = 0%nat /\ filter (selected sel) (sets g) <> [] /\ length l = 2%nat /\
  get_df_and_hue g sel None (LArr l) MNone = Ok (d, h) /\ nrows d = 2%nat.
Proof. exact c56_length_refuted. Qed.
Print Assumptions C56_length_refuted.

(** The labels of a threshold decomposition and of the types, drawn. *)
Example EX_C56_components :
  pframe (do g <- boundG; do c <- decompose asort cut06 tt g; get_df_and_hue g PTNone (Some ["x"%string]) (LComp (fst c)) MNone) =
  Ok (4%nat, [("Labels", [ShF (sZ 1); ShF S754_nan; ShF (sZ 0); ShF S754_nan]);
              ("x", [ShF (sZ 1); ShF (sZ (-3)); ShF (sZ (-2)); ShF (sZ 5)])]%string, Some "Labels"%string).
Proof. exact ex_c56_components. Qed.

(** The second star is not drawn; the labels of the other two are their own. An array whose
    finite labels are those of the second and third star is accepted as well, and then the first
    star is drawn with the label of the second. *)
Example EX_C57 :
  pframe (do g <- boundG; do c <- decompose asort cut06 tt g;
          get_circ_df_and_hue asort g bins0 (Some ["eps"; "eps_r"]%string) (LComp (fst c)) (MDict [(CInt 1, CStr "Disk")])) =
  Ok (2%nat, [("Labels", [ShS "Disk"; ShF (sZ 0)]); ("eps", [ShF (sZ 1); ShF (sZ (-1))]); ("eps_r", [ShF (sZ 5); ShF (sZ 0)])]%string, Some "Labels"%string) /\
  pframe (do g <- boundG; get_circ_df_and_hue asort g bins0 (Some ["eps_r"%string]) (LName "eps") MNone) =
  Ok (2%nat, [("eps", [ShF (sZ 1); ShF (sZ (-1))]); ("eps_r", [ShF (sZ 5); ShF (sZ 0)])]%string, Some "eps"%string) /\
  pframe (do g <- boundG; get_circ_df_and_hue asort g bins0 (Some ["eps"%string]) (LArr [CNum nnan; CInt 5; CInt 6]) MNone) =
  Ok (2%nat, [("Labels", [ShI 5; ShI 6]); ("eps", [ShF (sZ 1); ShF (sZ (-1))])]%string, Some "Labels"%string) /\
  exn_of (do g <- boundG; get_circ_df_and_hue asort g bins0 None (LArr [CInt 5; CInt 6; CInt 7]) MNone) = Some ValueError /\
  exn_of (do g <- boundG; get_circ_df_and_hue asort g bins0 None (LArr [CInt 5; CStr "disk"]) MNone) = Some TypeError /\
  exn_of (do g <- boundG; get_circ_df_and_hue asort g bins0 None (LName "ptype") MNone) = Some KeyError /\
  exn_of (do g <- sampleG; get_circ_df_and_hue asort g bins0 None LNone MNone) = Some ValueError.
Proof. exact ex_c57. Qed.

(** It meets the hypotheses of the theorem about decompositions. *)
Example EX_C57_decompose : exists (g : galaxy F64) c j, constructible g /\ one_row_each g (d_attributes cut06) /\ d_mask cut06 = stars_mask /\
  (forall st X y a l p s, d_split cut06 st X y a = Ok (l, p, s) -> length l = length X /\ forall z, In z l -> nfin (nofZ z : F64) = true) /\
  decompose asort cut06 tt g = Ok (c, tt) /\ jcirc asort g (fst (d_cbins cut06)) (snd (d_cbins cut06)) = Ok j /\
  (forall o, In o (star_orbits g) -> bound o = true) /\
  (forall i, finite_star j i <-> forall a, In a (d_attributes cut06) -> exists v, attribute j (g_stars g) i a v /\ finite_cell v).
Proof. exact ex_c57_decompose. Qed.

(** In a galaxy whose particles all move in the plane z = 0 every eps_r is NaN, so that no
    star is drawn; a threshold decomposition labels every star, and its labels are drawn beside
    rows of NaN. *)
Theorem C57_planar_refuted : exists (g : galaxy F64) c j d, constructible g /\ (forall o, In o (star_orbits g) -> bound o = true) /\
  decompose asort cut06 tt g = Ok (c, tt) /\ jcirc asort g (fst (d_cbins cut06)) (snd (d_cbins cut06)) = Ok j /\
  plen (g_stars g) = 2%nat /\ (forall i, (i < 2)%nat -> finite_label (map CNum (c_labels c)) i) /\
  (forall w, In w (jc_eps j) -> nfin w = true) /\
  get_circ_df_and_hue asort g (d_cbins cut06) None (LComp c) MNone = Ok (d, Some "Labels"%string) /\ nrows d = 2%nat /\
  forall i, (i < 2)%nat -> cell_at d "eps" i = Some (CNum nnan).
Proof. exact c57_planar_refuted. Qed.
Print Assumptions C57_planar_refuted.

(** The exact-arithmetic hypotheses hold for a single star on an inclined orbit. *)
Example EX_C57_exact : let g := galRP [(Part 1 1 0 0 0 1 1, -2)%R] in
  constructible g /\ regular g /\ (exists o, In o (all_orbits g) /\ bound o = true /\ o_jp o <> XR 0) /\
  (forall o, In o (star_orbits g) -> bound o = true).
Proof. exact ex_c57_exact. Qed.

(** A scatter plot and a pair plot as seaborn gets them. *)
Example EX_C60 :
  rmap (fun r => (d_fn r, d_x r, d_y r, d_hue r, d_opts r, dfshow (d_data r)))
    (do g <- boundG; scatter_plot (V:=Z) g "x" "y" (PTList ["gas"%string]) (LArr [CInt 3]) MNone [("s"%string, 7%Z)]) =
  Ok ("scatterplot", Some "x", Some "y", Some "Labels", [("s", 7%Z)],
      [("Labels", [ShI 3]); ("x", [ShF (sZ 5)]); ("y", [ShF (sZ 0)])])%string /\
  rmap (fun r => (d_fn r, d_opts r, dkeys (cols (d_data r))))
    (do g <- boundG; circ_pairplot asort 1%Z 2%Z g bins0 None (LName "eps") MNone [("diag_kind"%string, 9%Z)]) =
  Ok ("pairplot", [("diag_kind", 9%Z); ("kind", 1%Z)], ["eps"; "eps_r"; "normalized_star_Jz"; "normalized_star_energy"])%string /\
  exn_of (do g <- boundG; hist_plot (V:=Z) g "x" None PTNone LNone MNone [("hue"%string, 1%Z)]) = Some TypeError.
Proof. exact ex_c60. Qed.
