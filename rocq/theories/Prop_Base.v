(** Property theorems. Decomposition base class (C35-C39). Proofs are in BaseThms.v. *)
From Verif Require Import Py Num RX F64 Np Df Data DataFacts DfFacts CenterFacts Ex Spec DataThms SpecCirc Circ CircFacts CircThms SpecBase Base BaseFacts BaseThms.
From Coq Require Import Floats.SpecFloat DecimalString DecimalNat.

(** Row [i], column [c] of the matrix is attribute [c] of particle [i]. *)
Theorem C37_matrix : forall (N : Num) (RN : Rounded N) argsort cb (g : galaxy N) attributes X y,
  constructible g -> attributes_matrix argsort cb g attributes = Ok (X, y) -> one_row_each g attributes ->
  length X = glen g /\ length y = glen g /\
  exists j, ((exists a, In a attributes /\ circ_attr a) -> jcirc argsort g (fst cb) (snd cb) = Ok j) /\
  forall i p k, located g i p k ->
    nth_error y i = Some (CInt (ptype_value (p_type p))) /\
    exists row, nth_error X i = Some row /\ length row = length attributes /\
      forall c a, nth_error attributes c = Some a -> exists v, nth_error row c = Some v /\ attribute j p k a v.
Proof. exact c37_matrix. Qed.
Print Assumptions C37_matrix.

(** Every row is that of a particle. *)
Theorem C37_located : forall (N : Num) (g : galaxy N) i, (i < glen g)%nat -> exists p k, located g i p k.
Proof. exact c37_located. Qed.
Print Assumptions C37_located.

(** When there is a matrix: an empty list of attributes raises ValueError, an unknown name
    KeyError; otherwise any error of jcirc comes through if a circularity attribute is asked
    for, normalized_star_Jz beside another circularity attribute raises ValueError if a star
    is not bound, and everything else succeeds. *)
Theorem C37_errors : forall (N : Num) (RN : Rounded N) argsort cb (g : galaxy N) attributes, constructible g ->
  (attributes = [] -> attributes_matrix argsort cb g attributes = Raise ValueError) /\
  ((exists a, In a attributes /\ ~ matrix_attr a) -> attributes_matrix argsort cb g attributes = Raise KeyError) /\
  (attributes <> [] -> (forall a, In a attributes -> matrix_attr a) ->
    ((forall a, In a attributes -> ~ circ_attr a) -> exists X y, attributes_matrix argsort cb g attributes = Ok (X, y)) /\
    ((exists a, In a attributes /\ circ_attr a) ->
       (forall e, jcirc argsort g (fst cb) (snd cb) = Raise e -> attributes_matrix argsort cb g attributes = Raise e) /\
       (forall j, jcirc argsort g (fst cb) (snd cb) = Ok j ->
          let clash := In "normalized_star_Jz"%string attributes /\
            (exists a, In a attributes /\ circ_attr a /\ a <> "normalized_star_Jz"%string) /\
            (exists o, In o (star_orbits g) /\ bound o = false) in
          (clash -> attributes_matrix argsort cb g attributes = Raise ValueError) /\
          (~ clash -> exists X y, attributes_matrix argsort cb g attributes = Ok (X, y))))).
Proof. exact c37_errors. Qed.
Print Assumptions C37_errors.

(** Without [one_row_each] the matrix can be misaligned: with the attribute
    normalized_star_Jz alone and an unbound star there is one row per bound star, so the
    matrix has fewer rows than the galaxy has particles and row 4 describes the first dark
    matter particle where particle 4 is a star. *)
Theorem C37_alignment_refuted : exists (g : galaxy F64) X y,
  constructible g /\ attributes_matrix asort (default_bin0, default_bin1) g ["normalized_star_Jz"%string] = Ok (X, y) /\
  glen g = 8%nat /\ length X = 7%nat /\ located g 4 (g_stars g) 4 /\ p_type (g_stars g) = STARS /\
  nth_error y 4 = Some (CInt (ptype_value DARK_MATTER)).
Proof. exact c37_alignment_refuted. Qed.
Print Assumptions C37_alignment_refuted.

Example EX_C37 :
  mshow (do g <- sampleG; attributes_matrix asort (default_bin0, default_bin1) g ["eps"; "x"]%string) =
  Ok ([[ShF (sZ 1); ShF (sZ 1)]; [ShF (sZ 1); ShF (sZ 2)]; [ShF (sZ (-1)); ShF (sZ (-2))]; [ShF S754_nan; ShF (sZ (-3))];
       [ShF S754_nan; ShF (sZ 1)]; [ShF S754_nan; ShF (sZ 4)]; [ShF S754_nan; ShF (sZ 1)]; [ShF S754_nan; ShF (sZ 5)]],
      [ShI 0; ShI 0; ShI 0; ShI 0; ShI 0; ShI 1; ShI 1; ShI 2]).
Proof. exact ex_c37. Qed.

(** Its error cases. *)
Example EX_C37_errors :
  map (fun a => exn_of (do g <- sampleG; attributes_matrix asort (default_bin0, default_bin1) g a))
      [[]; ["eps"; "mass"]; ["eps"; "normalized_star_Jz"]; ["m"; "softening"]; ["softening"]; ["normalized_star_Jz"]]%string =
  [Some ValueError; Some KeyError; Some ValueError; None; None; None].
Proof. exact ex_c37_errors. Qed.

(** The k-th label goes to the k-th selected row, every other row is NaN. *)
Theorem C36_labels : forall (N : Num) (X : matrix N) labels mask r,
  complete_labels X labels mask = Ok r -> length labels = selected_rows mask ->
  length r = length X /\ length mask = length X /\
  (forall i, nth_error mask i = Some true ->
     exists z, nth_error labels (rank mask i) = Some z /\ nth_error r i = Some (nofZ z)) /\
  (forall i, nth_error mask i = Some false -> nth_error r i = Some nnan).
Proof. exact c36_labels. Qed.
Print Assumptions C36_labels.

(** Same for the rows of probabilities. *)
Theorem C36_probs : forall (N : Num) (X : matrix N) p mask r,
  complete_probs X (Some p) mask = Ok r -> length (pr_rows p) = selected_rows mask ->
  exists q, r = Some q /\ pr_width q = pr_width p /\ length (pr_rows q) = length X /\
  (forall i, nth_error mask i = Some true -> nth_error (pr_rows q) i = nth_error (pr_rows p) (rank mask i)) /\
  (forall i, nth_error mask i = Some false -> nth_error (pr_rows q) i = Some (repeat nnan (pr_width p))).
Proof. exact c36_probs. Qed.
Print Assumptions C36_probs.

(** When completion fails: a mask of the wrong length is an IndexError, a number of labels
    other than that of selected rows a ValueError, except that a single label is given to all
    of them. *)
Theorem C36_errors : forall (N : Num) (X : matrix N) labels mask,
  (length mask <> length X -> complete_labels X labels mask = Raise IndexError) /\
  (length mask = length X -> length labels <> selected_rows mask -> length labels <> 1%nat ->
     complete_labels X labels mask = Raise ValueError) /\
  (length mask = length X -> forall z, labels = [z] -> exists r, complete_labels X labels mask = Ok r /\
     forall i, nth_error mask i = Some true -> nth_error r i = Some (nofZ z)) /\
  (length mask = length X -> length labels = selected_rows mask -> exists r, complete_labels X labels mask = Ok r).
Proof. exact c36_errors. Qed.
Print Assumptions C36_errors.

(** A mask, four labels, three of them on selected rows. *)
Example EX_C36 :
  rmap shows (complete_labels (N:=F64) [[]; []; []; []; []] [7; 8; 9]%Z [true; false; true; true; false]) =
  Ok [sZ 7; S754_nan; sZ 8; sZ 9; S754_nan] /\
  rmap (fun p => option_map (fun p => map shows (pr_rows p)) p)
    (complete_probs (N:=F64) [[]; []; []] (Some (Probs 2 [fZs [1; 2]%Z; fZs [3; 4]%Z])) [true; false; true]) =
  Ok (Some [[sZ 1; sZ 2]; [S754_nan; S754_nan]; [sZ 3; sZ 4]]) /\
  exn_of (complete_labels (N:=F64) [[]; []; []] [7; 8]%Z [true; true; true]) = Some ValueError /\
  exn_of (complete_labels (N:=F64) [[]; []; []] [7; 8]%Z [true; true]) = Some IndexError.
Proof. exact ex_c36. Qed.

(** The mask of the stars mixin on a matrix of the right shape: the star rows whose cells are
    all finite. *)
Theorem C36_mask : forall (N : Num) (X : matrix N) y attributes mask,
  stars_mask X y attributes = Ok mask -> length X = length y ->
  length mask = length X /\
  forall i, nth_error mask i = Some true <->
    exists row c, nth_error X i = Some row /\ nth_error y i = Some c /\ Forall finite_cell row /\
      (c = CInt 0 \/ exists x, c = CNum x /\ neqb x n0 = true).
Proof. exact c36_mask. Qed.
Print Assumptions C36_mask.

(** The result has one label, one type and (if there are probabilities) one row of
    probabilities per particle, the types being those of the particles in order. *)
Theorem C35_aligned : forall (N : Num) (RN : Rounded N) argsort St (D : decomposer N St) st (g : galaxy N) c st',
  constructible g -> one_row_each g (d_attributes D) -> decompose argsort D st g = Ok (c, st') ->
  length (c_labels c) = glen g /\ c_ptypes c = type_names g /\ length (c_ptypes c) = glen g /\
  (forall p, c_probs c = Some p -> length (pr_rows p) = glen g).
Proof. exact c35_aligned. Qed.
Print Assumptions C35_aligned.

(** It succeeds whenever the mask has one entry per row and the class returns one label (and
    row of probabilities) per selected row. *)
Theorem C35_succeeds : forall (N : Num) (RN : Rounded N) argsort St (D : decomposer N St) st (g : galaxy N) X y mask labels pr st',
  constructible g -> one_row_each g (d_attributes D) ->
  attributes_matrix argsort (d_cbins D) g (d_attributes D) = Ok (X, y) ->
  d_mask D X y (d_attributes D) = Ok mask -> length mask = length X ->
  d_split D st (select mask X) (select mask y) (d_attributes D) = Ok (labels, pr, st') ->
  length labels = selected_rows mask -> (forall p, pr = Some p -> length (pr_rows p) = selected_rows mask) ->
  exists c, decompose argsort D st g = Ok (c, st').
Proof. exact c35_succeeds. Qed.
Print Assumptions C35_succeeds.

(** End to end, for a class that uses the stars mixin and returns one label per row it is
    given: particle [i] gets a label exactly if it is a star with finite attributes, and then
    the one the class gave to its row; dark matter, gas and the other stars get NaN. *)
Theorem C36_decompose : forall (N : Num) (RN : Rounded N) argsort St (D : decomposer N St) st (g : galaxy N) c st',
  constructible g -> one_row_each g (d_attributes D) -> d_mask D = stars_mask ->
  (forall st X y a l p s, d_split D st X y a = Ok (l, p, s) -> length l = length X) ->
  decompose argsort D st g = Ok (c, st') ->
  exists j Xs ys labels pr sel,
    ((exists a, In a (d_attributes D) /\ circ_attr a) -> jcirc argsort g (fst (d_cbins D)) (snd (d_cbins D)) = Ok j) /\
    d_split D st Xs ys (d_attributes D) = Ok (labels, pr, st') /\ length sel = glen g /\
    forall i p k, located g i p k ->
      let usable := p_type p = STARS /\ forall a, In a (d_attributes D) -> exists v, attribute j p k a v /\ finite_cell v in
      exists w, nth_error (c_labels c) i = Some w /\
        (usable -> nth_error sel i = Some true /\ nisnan w = false /\
           exists z row, nth_error labels (rank sel i) = Some z /\ w = nofZ z /\
             nth_error Xs (rank sel i) = Some row /\
             forall n a, nth_error (d_attributes D) n = Some a -> exists v, nth_error row n = Some v /\ attribute j p k a v) /\
        (~ usable -> nth_error sel i = Some false /\ w = nnan).
Proof. exact c36_decompose. Qed.
Print Assumptions C36_decompose.

Example EX_C35 :
  rmap (fun r => (cshowc (fst r), snd r)) (do g <- sampleG; decompose asort numbering 0%nat g) =
  Ok (([sZ 10; sZ 11; sZ 12; S754_nan; S754_nan; S754_nan; S754_nan; S754_nan],
       ["stars"; "stars"; "stars"; "stars"; "stars"; "dark_matter"; "dark_matter"; "gas"]%string,
       Some [[sZ 1]; [sZ 1]; [sZ 1]; [S754_nan]; [S754_nan]; [S754_nan]; [S754_nan]; [S754_nan]]), 1%nat).
Proof. exact ex_c35. Qed.

(** It satisfies the hypotheses of the theorems. *)
Example EX_C36_decompose : exists (g : galaxy F64) c st', constructible g /\ one_row_each g (d_attributes numbering) /\
  d_mask numbering = stars_mask /\
  (forall st X y a l p s, d_split numbering st X y a = Ok (l, p, s) -> length l = length X) /\
  decompose asort numbering 0%nat g = Ok (c, st').
Proof. exact ex_c36_decompose. Qed.

(** The three arguments must be arrays (TypeError) of one common length (ValueError). *)
Theorem C38_construct : forall (N : Num) (labels : arg (list N)) (ptypes : arg (list string)) (pr : option (arg (probs N))),
  ((labels = AOther \/ ptypes = AOther \/ pr = Some AOther) -> mk_components labels ptypes pr = Raise TypeError) /\
  (forall l t, labels = ANd l -> ptypes = ANd t -> pr <> Some AOther ->
     let fits := length l = length t /\ forall p, pr = Some (ANd p) -> length (pr_rows p) = length l in
     (~ fits -> mk_components labels ptypes pr = Raise ValueError) /\
     (fits -> exists c, mk_components labels ptypes pr = Ok c /\ c_labels c = l /\ c_ptypes c = t /\ c_len c = length l /\
        (pr = None -> c_probs c = None) /\ forall p, pr = Some (ANd p) -> c_probs c = Some p)).
Proof. exact c38_construct. Qed.
Print Assumptions C38_construct.

(** The data frame of a result: labels, types and one column per component, in order. *)
Theorem C38_frame : forall (N : Num) l t pr (c : components N),
  mk_components (ANd l) (ANd t) (option_map ANd pr) = Ok c ->
  (forall p, pr = Some p -> Forall (fun r => length r = pr_width p) (pr_rows p)) ->
  let w := match pr with Some p => pr_width p | None => 0%nat end in
  exists d, comp_to_df c None = Ok d /\ nrows d = length l /\ wf_df d /\
    dkeys (cols d) = ["labels"; "ptypes"]%string ++ map (fun k => "probs_" ++ decimal k)%string (seq 0 w) /\ NoDup (dkeys (cols d)) /\
    (forall i, (i < length l)%nat ->
       cell_at d "labels" i = option_map CNum (nth_error l i) /\ cell_at d "ptypes" i = option_map CStr (nth_error t i)) /\
    (forall p r k x i, pr = Some p -> nth_error (pr_rows p) i = Some r -> nth_error r k = Some x ->
       cell_at d ("probs_" ++ decimal k)%string i = Some (CNum x)).
Proof. exact c38_frame. Qed.
Print Assumptions C38_frame.

(** With an explicit list of attributes: an unknown name is a KeyError, otherwise the columns
    are the requested ones, followed by those of the probabilities if they are requested and
    there are any. *)
Theorem C38_attributes : forall (N : Num) l t pr (c : components N) attrs,
  mk_components (ANd l) (ANd t) (option_map ANd pr) = Ok c ->
  ((exists a, In a attrs /\ ~ In a ["labels"; "ptypes"; "probabilities"]%string) -> comp_to_df c (Some attrs) = Raise KeyError) /\
  ((forall a, In a attrs -> In a ["labels"; "ptypes"; "probabilities"]%string) ->
     exists d, comp_to_df c (Some attrs) = Ok d /\
       dkeys (cols d) = first_occurrences (filter (fun a => negb (a =? "probabilities")%string) attrs) ++
         match pr with
         | Some p => if in_dec string_dec "probabilities"%string attrs
                     then map (fun k => "probs_" ++ decimal k)%string (seq 0 (pr_width p)) else []
         | None => []
         end).
Proof. exact c38_attributes. Qed.
Print Assumptions C38_attributes.

Example EX_C38 :
  rmap dfshow (do c <- mk_components (N:=F64) (ANd (fZs [0; 1]%Z)) (ANd ["stars"; "gas"]%string) (Some (ANd (Probs 2 [fZs [1; 0]%Z; fZs [2; 3]%Z])));
    comp_to_df c None) =
  Ok [("labels", [ShF (sZ 0); ShF (sZ 1)]); ("ptypes", [ShS "stars"; ShS "gas"]);
      ("probs_0", [ShF (sZ 1); ShF (sZ 2)]); ("probs_1", [ShF (sZ 0); ShF (sZ 3)])]%string /\
  exn_of (mk_components (N:=F64) (ANd (fZs [0; 1]%Z)) (ANd ["stars"]%string) None) = Some ValueError /\
  exn_of (mk_components (N:=F64) (ANd (fZs [0]%Z)) AOther None) = Some TypeError /\
  exn_of (do c <- mk_components (N:=F64) (ANd (fZs [0]%Z)) (ANd ["stars"%string]) None; comp_to_df c (Some ["label"%string])) = Some KeyError.
Proof. exact ex_c38. Qed.

(** cbins is accepted exactly if it is a tuple of two floats, whatever they are. *)
Theorem C39_cbins : forall (N : Num) (v : hval N),
  (forall ab, bins_validator v = Ok ab <-> v = HTuple [PyFloat (fst ab); PyFloat (snd ab)]) /\
  ((forall a b, v <> HTuple [PyFloat a; PyFloat b]) <-> bins_validator v = Raise ValueError).
Proof. exact c39_cbins. Qed.
Print Assumptions C39_cbins.

(** eps_cut: anything that cannot be ordered with a float raises TypeError; a number is
    rejected exactly if it is greater than 1 or less than -1, so that NaN and the end points
    are accepted; an accepted integer is -1, 0 or 1. *)
Theorem C39_eps_cut : forall (N : Num) (RN : Rounded N) (v : hval N),
  (forall x, v = HPy (PyFloat x) ->
     (check_eps_cut v = Raise ValueError <-> xlt (XR 1) (val RN x) \/ xlt (val RN x) (XR (-1))) /\
     (check_eps_cut v = Ok x <-> ~ xlt (XR 1) (val RN x) /\ ~ xlt (val RN x) (XR (-1))) /\
     (val RN x = XNaN -> check_eps_cut v = Ok x)) /\
  (forall z, v = HPy (PyInt z) ->
     (check_eps_cut v = Ok (nofZ z) <-> (-1 <= z <= 1)%Z) /\ (check_eps_cut v = Raise ValueError <-> ~ (-1 <= z <= 1)%Z)) /\
  (forall b, v = HPy (PyBool b) -> check_eps_cut v = Ok (nofZ (if b then 1 else 0)%Z)) /\
  (forall l, v = HTuple l \/ v = HSeq l \/ v = HPy PyNone \/ (exists s, v = HPy (PyStr s)) \/ v = HPy PyOther ->
     check_eps_cut v = Raise TypeError).
Proof. exact c39_eps_cut. Qed.
Print Assumptions C39_eps_cut.

Example EX_C39 :
  is_ok (bins_validator (N:=F64) (HTuple [PyFloat nnan; PyFloat (nopp n1)])) = true /\
  exn_of (bins_validator (N:=F64) (HTuple [PyInt 1; PyFloat n1])) = Some ValueError /\
  exn_of (bins_validator (N:=F64) (HSeq [PyFloat n1; PyFloat n1])) = Some ValueError /\
  map (fun v => exn_of (check_eps_cut (N:=F64) v))
    [HPy (PyFloat nnan); HPy (PyFloat n1); HPy (PyFloat (nlit 11 10)); HPy (PyFloat nninf); HPy (PyInt (-1)); HPy (PyInt 2); HPy (PyStr "0.5"); HPy (PyType GAS)] =
  [None; None; Some ValueError; Some ValueError; None; Some ValueError; Some TypeError; Some ValueError].
Proof. exact ex_c39. Qed.
