(** Property theorems. The printed form of a decomposition (C77). Proofs are in UniqueThms.v. *)
From Verif Require Import Py Num Np Df Data Circ Base Threshold RX F64 Spec SpecCirc SpecBase DataFacts CenterFacts DataThms BaseThms EpsFacts ThresholdThms Ex Ctor SpecCtor CtorFacts CtorThms CircFacts CurveFacts CircThms Unique SpecUnique UniqueThms.
From Coq Require Import Lia Lra Permutation Sorted Floats.SpecFloat.

(** [np.unique] as [__repr__] uses it, whatever the order its sort leaves ties in: entries of the array, each value
    once, in increasing order, and the NaNs at the end: one, or all of them with NumPy before 1.21. *)
Theorem C77_unique : forall (N : Num) (RN : Rounded N) equal_nan sort (l : list N), sorted_copy l (sort l) ->
  let u := np_unique equal_nan sort l in
  increasing u /\ (forall x, In x u -> In x l) /\
  (forall x, In x l -> nisnan x = false -> exists y, In y u /\ neqb y x = true) /\
  nans u = (if equal_nan then Nat.min 1 (nans l) else nans l).
Proof. exact c77_unique. Qed.
Print Assumptions C77_unique.

(** For the labels of a decomposition, integers and NaN: the integers in use, each once, in increasing order, and the NaNs. *)
Theorem C77_labels : forall (N : Num) (RN : Rounded N) equal_nan sort (l : list N), sorted_copy l (sort l) ->
  (forall x, In x l -> x = nnan \/ exists z, (Z.abs z <= intmax RN)%Z /\ x = nofZ z) ->
  exists zs, np_unique equal_nan sort l = map nofZ zs ++ repeat nnan (if equal_nan then Nat.min 1 (nans l) else nans l) /\
    StronglySorted Z.lt zs /\ (forall z, In z zs -> (Z.abs z <= intmax RN)%Z) /\
    (forall z, (Z.abs z <= intmax RN)%Z -> In z zs <-> In (nofZ z) l).
Proof. exact c77_labels. Qed.
Print Assumptions C77_labels.

(** A threshold decomposition prints the labels in use among 0 and 1, and NaN if some particle has no label. *)
Theorem C77_threshold : forall (N : Num) (RN : Rounded N) argsort sort junk cb (cut : N) (g : galaxy N) c st',
  constructible g -> nisnan cut = false -> decompose argsort (jthreshold junk cb cut) tt g = Ok (c, st') ->
  sorted_copy (c_labels c) (sort (c_labels c)) ->
  exists a b k, np_unique true sort (c_labels c) = a ++ b ++ k /\
    (a = [nofZ 0] /\ In (nofZ 0) (c_labels c) \/ a = [] /\ ~ In (nofZ 0) (c_labels c)) /\
    (b = [nofZ 1] /\ In (nofZ 1) (c_labels c) \/ b = [] /\ ~ In (nofZ 1) (c_labels c)) /\
    (k = [nnan] /\ In nnan (c_labels c) \/ k = [] /\ ~ In nnan (c_labels c)).
Proof. exact c77_threshold. Qed.
Print Assumptions C77_threshold.

(** The text: the number of particles as a decimal numeral, the array of the labels in use, and whether there are
    probabilities. *)
Theorem C77_printed : forall (N : Num) equal_nan sort (show : list N -> string) (c : components N),
  exists n, numeral n (length (c_labels c)) /\
    components_repr equal_nan sort show c =
    ("Components(" ++ n ++ ", labels=" ++ show (np_unique equal_nan sort (c_labels c)) ++ ", probabilities=" ++
     truth (match c_probs c with None => false | Some _ => true end) ++ ")")%string.
Proof. exact c77_printed. Qed.
Print Assumptions C77_printed.

(** The sample galaxy of C40: five NaN among eight labels. *)
Example EX_C77 : exists g c st', sampleG = Ok g /\
  decompose asort (jthreshold (fun _ => 77%Z) (default_bin0, default_bin1) (nlit 3 5)) tt g = Ok (c, st') /\
  sorted_copy (c_labels c) (isorted (c_labels c)) /\ constructible g /\
  shows (np_unique true isorted (c_labels c)) = [sZ 0; sZ 1; S754_nan] /\
  shows (np_unique false isorted (c_labels c)) = [sZ 0; sZ 1; S754_nan; S754_nan; S754_nan; S754_nan; S754_nan] /\
  components_repr true isorted (fun l => if (length l =? 3)%nat then "[ 0.  1. nan]"%string else ""%string) c =
    "Components(8, labels=[ 0.  1. nan], probabilities=False)"%string.
Proof. exact ex_c77. Qed.
