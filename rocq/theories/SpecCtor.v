(** Specification for the construction of decomposers: the documented hyper-parameters of every
    class, with their defaults, and what an instance holds. *)
From Coq Require Import DecimalString.
From Verif Require Import Py Num Np Df Data Circ Base RX Ctor.

Section SpecCtor.
Context {N : Num}.

Definition flt (p q : Z) : pval N := PV (HPy (PyFloat (ndiv (nofZ p) (nofZ q)))).
Definition int (z : Z) : pval N := PV (HPy (PyInt z)).
Definition txt (s : string) : pval N := PV (HPy (PyStr s)).
Definition none : pval N := PV (HPy PyNone).
Definition bins : pval N := PV (HTuple [PyFloat (ndiv (nofZ 5) (nofZ 100)); PyFloat (ndiv (nofZ 5) (nofZ 1000))]).

(** The tables of the class documentation, spelt out for each class. *)
Definition doc_threshold : dict (pval N) := [("cbins", bins); ("eps_cut", flt 6 10)]%string.
Definition doc_kmeans : dict (pval N) :=
  [("cbins", bins); ("n_components", int 2); ("init", txt "k-means++"); ("n_init", int 10); ("max_iter", int 300);
   ("tol", flt 1 10000); ("verbose", int 0); ("random_state", none); ("algorithm", txt "auto")]%string.
Definition doc_jhist : dict (pval N) := [("cbins", bins); ("n_bin", int 100); ("digits", int 2); ("random_state", none)]%string.
Definition doc_jehist : dict (pval N) :=
  [("cbins", bins); ("n_bin", int 100); ("digits", int 2); ("random_state", none); ("n_bin_E", int 20)]%string.
Definition doc_gmm_common : dict (pval N) :=
  [("cbins", bins); ("covariance_type", txt "full"); ("tol", flt 1 1000); ("reg_covar", flt 1 1000000); ("max_iter", int 100);
   ("n_init", int 10); ("init_params", txt "kmeans"); ("weights_init", none); ("means_init", none); ("precisions_init", none);
   ("random_state", none); ("warm_start", PV (HPy (PyBool false))); ("verbose", int 0); ("verbose_interval", int 10)]%string.
Definition doc_gmm : dict (pval N) := doc_gmm_common ++ [("n_components"%string, int 2)].
Definition doc_auto : dict (pval N) := doc_gmm_common ++ [("c_bic", flt 1 10); ("n_jobs", none)]%string.

(** The value asked for under a name: the keyword argument, or else the default. *)
Definition asked (kw : dict (pval N)) (k : string) (default : pval N) : pval N :=
  match dget kw k with Some v => v | None => default end.

(** What an instance holds: the documented names; under each what was asked for, except that
    random_state is a generator: the one given, or else a new one. *)
Definition holds_settings (seed : pval N -> res unit) (T kw : dict (pval N)) (next : nat) (d : dict (pval N)) (next' : nat) : Prop :=
  dkeys d = dkeys T /\
  (forall k v, In (k, v) T -> k <> "random_state"%string -> dget d k = Some (asked kw k v)) /\
  (forall v, In ("random_state"%string, v) T ->
     (forall i, asked kw "random_state" v = PGen i -> dget d "random_state" = Some (PGen i) /\ next' = next) /\
     ((forall i, asked kw "random_state" v <> PGen i) ->
        seed (asked kw "random_state" v) = Ok tt /\ dget d "random_state" = Some (PGen next) /\ next' = S next)) /\
  (~ In "random_state"%string (dkeys T) -> next' = next).

(** A tuple of two floats. *)
Definition two_floats (v : pval N) : Prop := exists a b, v = PV (HTuple [PyFloat a; PyFloat b]).
(** A number that is neither above 1 nor below -1. *)
Definition cut_ok (RN : Rounded N) (v : pval N) : Prop :=
  (exists x, v = PV (HPy (PyFloat x)) /\ ~ xlt (XR 1) (val RN x) /\ ~ xlt (val RN x) (XR (-1))) \/
  (exists z, v = PV (HPy (PyInt z)) /\ (-1 <= z <= 1)%Z) \/
  (exists b, v = PV (HPy (PyBool b))) \/
  (exists p, v = PV (HPy (PyType p)) /\ (ptype_value p <= 1)%Z).
(** The decomposers on offer: class, its name, its table. *)
Definition shipped : list (dclass N * string * dict (pval N)) :=
  [(JThreshold, "JThreshold", doc_threshold); (KMeans, "KMeans", doc_kmeans); (JHistogram, "JHistogram", doc_jhist);
   (JEHistogram, "JEHistogram", doc_jehist); (GaussianMixture, "GaussianMixture", doc_gmm);
   (AutoGaussianMixture, "AutoGaussianMixture", doc_auto)]%string.
End SpecCtor.

(** A decimal numeral that reads as [n]. *)
Definition numeral (s : string) (n : nat) : Prop := exists u, NilZero.uint_of_string s = Some u /\ Nat.of_uint u = n.
Definition truth (b : bool) : string := if b then "True" else "False".
