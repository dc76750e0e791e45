(** Specification vocabulary for plots. *)
From Verif Require Import Py Num Np Df Data Circ Base Spec SpecCirc SpecBase Plot.

(** The plots. *)
Definition plot_kinds : list string :=
  ["pairplot"; "scatter"; "hist"; "kde"; "circ_pairplot"; "circ_scatter"; "circ_hist"; "circ_kde"]%string.

(** Every name comes before those after it. *)
Definition increasing_names (l : list string) : Prop :=
  forall i k s t, (i < k)%nat -> nth_error l i = Some s -> nth_error l k = Some t -> String.compare s t = Lt.

Section SpecPlot.
Context {N : Num}.

(** Equality of labels as Python sees it. *)
Inductive py_equal : cell N -> cell N -> Prop :=
| eq_num x y : neqb x y = true -> py_equal (CNum x) (CNum y)
| eq_int z : py_equal (CInt z) (CInt z)
| eq_num_int x z : neqb x (nofZ z) = true -> py_equal (CNum x) (CInt z)
| eq_int_num z x : neqb (nofZ z) x = true -> py_equal (CInt z) (CNum x)
| eq_str s : py_equal (CStr s) (CStr s).

(** [relabels m c c']: the label [c] is shown as [c']. *)
Inductive relabels : plmap N -> cell N -> cell N -> Prop :=
| relabel_none c : relabels MNone c c
| relabel_fun f c c' : f c = Ok c' -> relabels (MFun f) c c'
| relabel_found before k c' after c : py_equal c k -> (forall kv, In kv before -> ~ py_equal c (fst kv)) ->
    relabels (MDict (before ++ (k, c') :: after)) c c'
| relabel_missing t c : (forall kv, In kv t -> ~ py_equal c (fst kv)) -> relabels (MDict t) c c.
(** The map gives a value to every label. *)
Definition total_map (m : plmap N) : Prop := match m with MFun f => forall c, exists c', f c = Ok c' | _ => True end.

(** The values of an array of labels. *)
Definition label_values (l : plabels N) : option (list (cell N)) :=
  match l with LArr l => Some l | LComp c => Some (map CNum (c_labels c)) | _ => None end.
(** The name of the column that gives the colours. *)
Definition hue_name (l : plabels N) : option string :=
  match l with LNone => None | LName s => Some s | _ => Some "Labels"%string end.
(** The attributes that are needed: those asked for and the label if it is one. *)
Definition needed (default : list string) (a : option (list string)) (l : plabels N) : list string :=
  match a with None => default | Some a => a end ++ match l with LName s => [s] | _ => [] end.

(** The four circularity values of star [i] are finite. *)
Definition finite_star (j : jcirc_t N) (i : nat) : Prop :=
  forall a, circ_attr a -> exists w, nth_error (circ_col j a) i = Some w /\ nfin w = true.
(** Label [i] is a finite number. *)
Definition finite_label (l : list (cell N)) (i : nat) : Prop := exists c, nth_error l i = Some c /\ finite_cell c.

End SpecPlot.

(** Every column seaborn is told to use is in the frame it gets, with one value per row. *)
Definition complete {N : Num} {V} (r : draw (N:=N) V) : Prop :=
  forall c, d_x r = Some c \/ d_y r = Some c \/ d_hue r = Some c ->
    exists col, get_col (d_data r) c = Ok col /\ length col = nrows (d_data r).
