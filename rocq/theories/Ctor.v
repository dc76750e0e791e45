(** Model of the construction of decomposers: models/_base.py 140-296 and the class bodies of
    models/*.py, on top of what attrs generates; and of the [__repr__] of data.py. *)
From Coq Require Import DecimalString.
From Verif Require Import Py Num Np Df Data Circ Base.

Section Ctor.
Context {N : Num}.

(** Objects given as hyper-parameters: the values of [Base.v], random generators (known by
    their identity) and any other objects (_base.py 140-164). *)
Inductive pval : Type := PV (v : hval N) | PGen (id : nat) | PObj (o : nat).

(** _base.py 140-163: [hparam(default, converter=np.random.default_rng)] or without converter,
    together with the validator attached to it. *)
Record field : Type := Field { f_name : string; f_default : pval; f_rng : bool; f_valid : option (pval -> res unit) }.
(** _base.py 140-164, without converter. *)
Definition hparam (name : string) (default : pval) : field := Field name default false None.

(** _base.py 199-217: [__init_subclass__] applies [attr.s] to every subclass. attrs gives
    a class first the fields of its bases, in the order of the method resolution and each name
    once, unless the class redefines it, then its own (collect_by_mro is not set). *)
Record dclass : Type := DClass { k_name : string; k_attrs : list field; k_methods : dict bool; k_mro : list (dict bool) }.
(** Collection of the fields by attrs (_base.py 199-216). *)
Fixpoint inherit (taken : list string) (fs : list field) : list field :=
  match fs with
  | [] => []
  | f :: fs' => if smem (f_name f) taken then inherit taken fs' else f :: inherit (f_name f :: taken) fs'
  end.
(** [methods] are those of the class body, with whether they are abstract; [bases] is the
    method resolution order without the class itself and [object] (_base.py 199-216). *)
Definition subclass (name : string) (own : list field) (methods : dict bool) (bases : list dclass) : dclass :=
  DClass name (inherit (map f_name own) (flat_map k_attrs bases) ++ own) methods (methods :: map k_methods bases).
(** [cls.__abstractmethods__] is empty: every method is found first as a concrete one (_base.py 168-281). *)
Definition resolves (mro : list (dict bool)) (m : string) : option bool :=
  match flat_map (fun d => match dget d m with Some b => [b] | None => [] end) mro with [] => None | b :: _ => Some b end.
(** The class has an abstract method (_base.py 218-281): no instances. *)
Definition abstract (c : dclass) : bool :=
  existsb (fun m => match resolves (k_mro c) m with Some b => b | None => false end) (flat_map (@dkeys bool) (k_mro c)).

(** ** The classes *)

(** A default such as [0.6] (_threshold.py 80). *)
Definition pfloat (p q : Z) : pval := PV (HPy (PyFloat (nlit p q))).
(** A default such as [2] (_kmeans.py 74). *)
Definition pint (z : Z) : pval := PV (HPy (PyInt z)).
(** A default such as ["full"] (_gaussian_mixture.py 70). *)
Definition pstr (s : string) : pval := PV (HPy (PyStr s)).
(** The default [None] (_histogram.py 66). *)
Definition pnone : pval := PV (HPy PyNone).

(** _base.py 188-196 and _threshold.py 82-93: validators. Generators and other objects are no
    tuples, and comparing them with a float is a TypeError. *)
Definition valid_bins (v : pval) : res unit :=
  match v with PV v => do _ <- bins_validator v; Ok tt | _ => Raise ValueError end.
(** _threshold.py 82-94. *)
Definition valid_eps (v : pval) : res unit :=
  match v with PV v => do _ <- check_eps_cut v; Ok tt | _ => Raise TypeError end.
(** _histogram.py 66, _kmeans.py 81, _gaussian_mixture.py 82. *)
Definition random_state : field := Field "random_state" pnone true None.

(** _base.py 170-283: GalaxyDecomposerABC. *)
Definition GalaxyDecomposerABC : dclass :=
  subclass "GalaxyDecomposerABC"
    [Field "cbins" (PV (HTuple [PyFloat default_bin0; PyFloat default_bin1])) false (Some valid_bins)]
    [("get_attributes", true); ("get_rows_mask", true); ("split", true)]%string [].
(** _base.py 539-558: the mixin, which is no attrs class. *)
Definition StarsMixin : dclass := DClass "DynamicStarsDecomposerMixin" [] [("get_rows_mask"%string, false)] [].
(** _threshold.py 24-123. *)
Definition JThreshold : dclass :=
  subclass "JThreshold" [Field "eps_cut" (pfloat 6 10) false (Some valid_eps)]
    [("check_eps_cut", false); ("get_attributes", false); ("split", false)]%string [StarsMixin; GalaxyDecomposerABC].
(** _kmeans.py 26-117. *)
Definition KMeans : dclass :=
  subclass "KMeans"
    [hparam "n_components" (pint 2); hparam "init" (pstr "k-means++"); hparam "n_init" (pint 10); hparam "max_iter" (pint 300);
     hparam "tol" (pfloat 1 10000); hparam "verbose" (pint 0); random_state; hparam "algorithm" (pstr "auto")]
    [("get_attributes", false); ("split", false)]%string [StarsMixin; GalaxyDecomposerABC].
(** _histogram.py 24-187. *)
Definition JHistogram : dclass :=
  subclass "JHistogram" [hparam "n_bin" (pint 100); hparam "digits" (pint 2); random_state]
    [("_make_histogram", false); ("_make_count_sph", false); ("_make_corot_sph", false); ("_make_disk", false);
     ("get_attributes", false); ("split", false)]%string
    [StarsMixin; GalaxyDecomposerABC].
(** _histogram.py 190-399. *)
Definition JEHistogram : dclass :=
  subclass "JEHistogram" [hparam "n_bin_E" (pint 20)]
    [("_make_corot_sph", false); ("get_attributes", false); ("split", false)]%string
    [JHistogram; StarsMixin; GalaxyDecomposerABC].
(** _gaussian_mixture.py 27-97: leaves [split] open. *)
Definition StarsGaussianABC : dclass :=
  subclass "DynamicStarsGaussianDecomposerABC"
    [hparam "covariance_type" (pstr "full"); hparam "tol" (pfloat 1 1000); hparam "reg_covar" (pfloat 1 1000000);
     hparam "max_iter" (pint 100); hparam "n_init" (pint 10); hparam "init_params" (pstr "kmeans");
     hparam "weights_init" pnone; hparam "means_init" pnone; hparam "precisions_init" pnone; random_state;
     hparam "warm_start" (PV (HPy (PyBool false))); hparam "verbose" (pint 0); hparam "verbose_interval" (pint 10)]
    [("get_attributes"%string, false)] [StarsMixin; GalaxyDecomposerABC].
(** _gaussian_mixture.py 103-174. *)
Definition GaussianMixture : dclass :=
  subclass "GaussianMixture" [hparam "n_components" (pint 2)] [("split"%string, false)]
    [StarsGaussianABC; StarsMixin; GalaxyDecomposerABC].
(** _gaussian_mixture.py 182-319. *)
Definition AutoGaussianMixture : dclass :=
  subclass "AutoGaussianMixture" [hparam "c_bic" (pfloat 1 10); hparam "n_jobs" pnone]
    [("_run_gmm", false); ("_try_components", false); ("split", false)]%string
    [StarsGaussianABC; StarsMixin; GalaxyDecomposerABC].

(** ** Construction *)

(** An instance: class and hyper-parameters in the order of the fields (_base.py 140-216). *)
Record instance : Type := Inst { o_class : string; o_dict : dict pval }.

(** [np.random.default_rng]: a generator is returned as it is, anything else is a seed of a
    new one, if it is accepted ([seed]). New objects get the identity [next]. *)
Variable seed : pval -> res unit.
(** The converter of [random_state] (_histogram.py 66, _kmeans.py 81, _gaussian_mixture.py 82). *)
Definition default_rng (v : pval) (next : nat) : res (pval * nat) :=
  match v with
  | PGen i => Ok (v, next)
  | _ => do _ <- seed v; Ok (PGen next, S next)
  end.

(** The [__init__] of attrs: every field is given by keyword or has its default; converters in
    the order of the fields, then validators in that order (_base.py 199-216). *)
Fixpoint init_fields (fs : list field) (kw : dict pval) (next : nat) : res (dict pval * nat) :=
  match fs with
  | [] => Ok ([], next)
  | f :: fs' =>
      let v := match dget kw (f_name f) with Some v => v | None => f_default f end in
      do r <- (if f_rng f then default_rng v next else Ok (v, next));
      do r' <- init_fields fs' kw (snd r);
      Ok ((f_name f, fst r) :: fst r', snd r')
  end.
(** Validators in the order of the fields (_base.py 188-196, _threshold.py 82-94). *)
Fixpoint run_validators (fs : list field) (d : dict pval) : res unit :=
  match fs with
  | [] => Ok tt
  | f :: fs' =>
      do _ <- match f_valid f, dget d (f_name f) with Some check, Some v => check v | _, _ => Ok tt end;
      run_validators fs' d
  end.
(** _base.py 163 ([kw_only=True]): [cls( *args, **kw)] with [nargs] positional arguments. *)
Definition construct (c : dclass) (nargs : nat) (kw : dict pval) (next : nat) : res (instance * nat) :=
  do _ <- guard (negb (abstract c)) TypeError;
  do _ <- guard ((nargs =? 0)%nat && forallb (fun k => smem k (map f_name (k_attrs c))) (dkeys kw)) TypeError;
  do r <- init_fields (k_attrs c) kw next;
  do _ <- run_validators (k_attrs c) (fst r);
  Ok (Inst (k_name c) (fst r), snd r).

(** [__eq__] of attrs (attr.s with eq on, _base.py 170, 217): same class and equal tuples of
    values. [same] compares two objects that are no generators; generators have no [__eq__]
    of their own. *)
Variable same : pval -> pval -> bool.
(** Comparison of two hyper-parameters (_base.py 216). *)
Definition pval_eq (v w : pval) : bool :=
  match v, w with
  | PGen i, PGen j => (i =? j)%nat
  | PGen _, _ | _, PGen _ => false
  | _, _ => same v w
  end.
(** Comparison of the tuples of hyper-parameters (_base.py 216). *)
Fixpoint values_eq (d e : dict pval) : bool :=
  match d, e with
  | [], [] => true
  | (_, v) :: d', (_, w) :: e' => pval_eq v w && values_eq d' e'
  | _, _ => false
  end.
(** [__eq__] (_base.py 216). *)
Definition instance_eq (a b : instance) : bool := String.eqb (o_class a) (o_class b) && values_eq (o_dict a) (o_dict b).

(** _base.py 285-296: [__repr__]; [show] is [repr] of a value. *)
Variable show : pval -> string.
(** _base.py 285-295. *)
Definition instance_repr (a : instance) : string :=
  (o_class a ++ "(" ++ String.concat ", " (map (fun kv => fst kv ++ "=" ++ show (snd kv)) (o_dict a)) ++ ")")%string.
End Ctor.
Arguments pval : clear implicits.
Arguments field : clear implicits.
Arguments dclass : clear implicits.
Arguments instance : clear implicits.

(** ** [__repr__] of data.py *)
Section Repr.
Context {N : Num}.
(** f-strings: decimal digits of a length, and [True] or [False] (data.py 207-212, 340-346). *)
Definition show_bool (b : bool) : string := if b then "True" else "False".
(** data.py 207-212, 340-346: a length in an f-string. *)
Definition show_len (n : nat) : string := NilZero.string_of_uint (Nat.to_uint n).
(** data.py 207-212; [show_soft] formats the softening (a quantity). *)
Definition pset_repr (show_soft : N -> string) (p : pset N) : string :=
  ("ParticleSet(" ++ ptype_name (p_type p) ++ ", size=" ++ show_len (plen p) ++ ", softening=" ++ show_soft (p_soft p) ++
   ", potentials=" ++ show_bool (p_haspot p) ++ ")")%string.
(** data.py 340-346. *)
Definition galaxy_repr (g : galaxy N) : string :=
  ("Galaxy(stars=" ++ show_len (plen (g_stars g)) ++ ", dark_matter=" ++ show_len (plen (g_dm g)) ++
   ", gas=" ++ show_len (plen (g_gas g)) ++ ", potential=" ++ show_bool (g_haspot g) ++ ")")%string.
(** data.py 199-203 and 507-534, without the units: the array of the three components, of one set and of the three sets. *)
Definition pset_angular (p : pset N) : list (list N) := [p_Jx p; p_Jy p; p_Jz p].
(** data.py 506-534. *)
Definition galaxy_angular (g : galaxy N) : list (list (list N)) := map pset_angular [g_stars g; g_dm g; g_gas g].
End Repr.
