(** Model of galaxychop/models/_kmeans.py and galaxychop/models/_gaussian_mixture.py.
    scikit-learn's estimators, joblib's scheduling and the generator are arguments: the
    theorems hold whatever they do. *)
From Verif Require Import Py Num Np Df Data Center Circ Base Threshold Hist.

Section Mixture.
Context {N : Num}.

(** Hyper-parameters are opaque objects; [self name] is the attribute of the decomposer with
    that name.  A keyword argument is such an object or an integer of numpy. *)
Context {H : Type}.
(** A keyword argument (_kmeans.py 106-115, _gaussian_mixture.py 154-169). *)
Inductive kwval : Type := KUser (h : H) | KInt (z : Z).

(** State of the bit generator the object owns: a [RandomState] built on it advances it. *)
Context {St : Type}.

(** ** KMeans *)

(** _kmeans.py 106-115: the keyword arguments but [random_state]. *)
Definition km_kwargs (self : string -> H) : dict kwval :=
  [("n_clusters", KUser (self "n_components"));
   ("init", KUser (self "init"));
   ("n_init", KUser (self "n_init"));
   ("max_iter", KUser (self "max_iter"));
   ("tol", KUser (self "tol"));
   ("verbose", KUser (self "verbose"));
   ("algorithm", KUser (self "algorithm"))]%string.

(** _kmeans.py 84-94, _gaussian_mixture.py 87-97: [get_attributes]. *)
Definition mix_attributes : list string := ["normalized_star_energy"; "eps"; "eps_r"]%string.

(** _kmeans.py 26-117: the class; [km] builds [cluster.KMeans]
    with these keywords and a RandomState and calls [fit_predict(X)]. *)
Definition kmeans (km : dict kwval -> St -> matrix N -> res (list Z * St)) (self : string -> H) (cbins : N * N)
  : decomposer N St :=
  Decomposer St cbins mix_attributes stars_mask
    (fun st X y a => do r <- km (km_kwargs self) st X; Ok (fst r, None, snd r)).

(** ** GaussianMixture *)

(** A fitted [mixture.GaussianMixture] (_gaussian_mixture.py 154-174). *)
Record fitted : Type := Fitted {
  f_n : nat;                                 (* n_components *)
  f_means : list (list N);                   (* means_ *)
  f_predict : matrix N -> res (list Z);
  f_proba : matrix N -> res (probs N);
  f_bic : matrix N -> res N }.

(** _gaussian_mixture.py 154-169 and 231-246: the keyword arguments but [random_state]. *)
Definition gm_kwargs (n_components : kwval) (self : string -> H) : dict kwval :=
  [("n_components", n_components);
   ("covariance_type", KUser (self "covariance_type"));
   ("tol", KUser (self "tol"));
   ("reg_covar", KUser (self "reg_covar"));
   ("max_iter", KUser (self "max_iter"));
   ("n_init", KUser (self "n_init"));
   ("init_params", KUser (self "init_params"));
   ("weights_init", KUser (self "weights_init"));
   ("means_init", KUser (self "means_init"));
   ("precisions_init", KUser (self "precisions_init"));
   ("warm_start", KUser (self "warm_start"));
   ("verbose", KUser (self "verbose"));
   ("verbose_interval", KUser (self "verbose_interval"))]%string.

(** [mixture.GaussianMixture] with these keywords fitted to [X], with a RandomState on the
    generator of the object and with an integer seed. *)
Variable gm_fit : dict kwval -> St -> matrix N -> res (fitted * St).
Variable gm_fit_seed : dict kwval -> Z -> matrix N -> res fitted.

(** _gaussian_mixture.py 144-174: [GaussianMixture.split]. *)
Definition gm_split (self : string -> H) (st : St) (X : matrix N) : res (list Z * probs N * St) :=
  do r <- gm_fit (gm_kwargs (KUser (self "n_components"%string)) self) st X;
  let '(f, st') := r in
  do labels <- f_predict f X;
  do proba <- f_proba f X;
  Ok (labels, proba, st').
(** _gaussian_mixture.py 103-174: the class. *)
Definition gaussian_mixture (self : string -> H) (cbins : N * N) : decomposer N St :=
  Decomposer St cbins mix_attributes stars_mask
    (fun st X y a => do r <- gm_split self st X; let '(labels, proba, st') := r in Ok (labels, Some proba, st')).

(** ** AutoGaussianMixture *)

(** _gaussian_mixture.py 228: [_COMPONENTS_TO_TRY]. *)
Definition components_to_try : list Z := map Z.of_nat (seq 2 14).

(** [joblib.Parallel]: tasks finish in some order and their results go to their places; the
    first one to fail is reported (_gaussian_mixture.py 268-278). *)
Fixpoint finish {A} (tasks : list (res A)) (order : list nat) (slots : list (option A)) : res (list (option A)) :=
  match order with
  | [] => Ok slots
  | i :: order' =>
      match nth_error tasks i with
      | Some t => do a <- t; finish tasks order' (upd slots i (Some a))
      | None => finish tasks order' slots
      end
  end.
(** [joblib.Parallel] (_gaussian_mixture.py 268-278). *)
Definition parallel {A} (order : list nat) (tasks : list (res A)) : res (list A) :=
  do slots <- finish tasks order (repeat None (length tasks));
  mapM (fun s => match s with Some a => Ok a | None => Raise OSError end) slots.

(** _gaussian_mixture.py 230-252: [_run_gmm] and [_try_components]. *)
Definition try_components (self : string -> H) (X : matrix N) (n seed : Z) : res N :=
  do f <- gm_fit_seed (gm_kwargs (KInt n) self) seed X;
  do b <- f_bic f X;
  Ok (b / nofZ (Z.of_nat (length X)))%num.

(** _gaussian_mixture.py 282-290: the number of Gaussians. *)
Definition np_minZ (l : list Z) : res Z :=
  match l with [] => Raise ValueError | z :: l' => Ok (fold_left Z.min l' z) end.
(** _gaussian_mixture.py 280-290. *)
Definition choose_number (c_bic : N) (bic_med : list N) : res Z :=
  let bic_min := (nsum (skipn (length bic_med - 5) bic_med) / nofZ 5)%num in
  let delta_bic := map (fun b => (b - bic_min)%num) bic_med in
  let mask := where_ (map (fun d => nle d c_bic) delta_bic) in
  do ns <- take_at components_to_try mask;
  np_minZ ns.

(** [predict_proba[:, i]], [center[i, k]] and the sum of two arrays.  (A length of one
    would broadcast; the arrays added here have the number of rows scikit-learn got.)
    (_gaussian_mixture.py 306-314) *)
Definition p_col (p : probs N) (i : nat) : res (list N) :=
  do _ <- guard (i <? pr_width p)%nat IndexError; Ok (map (fun r => nth i r nnan) (pr_rows p)).
(** [center[i, k]] (_gaussian_mixture.py 306-314). *)
Definition entry (m : list (list N)) (i k : nat) : res N :=
  match nth_error m i with
  | Some r => match nth_error r k with Some x => Ok x | None => Raise IndexError end
  | None => Raise IndexError
  end.
(** The sum of two arrays (_gaussian_mixture.py 306-314). *)
Definition vadd (a b : list N) : res (list N) :=
  do _ <- guard (length a =? length b)%nat ValueError; Ok (map2 nadd a b).

(** _gaussian_mixture.py 306-314: one Gaussian is added to its group. *)
Definition add_if (b : bool) (p : probs N) (i : nat) (acc : list N) : res (list N) :=
  if b then do c <- p_col p i; vadd acc c else Ok acc.
(** _gaussian_mixture.py 306-314: one Gaussian. *)
Definition group_step (means : list (list N)) (p : probs N)
  (acc : res (list N * list N * list N * list N)) (i : nat) : res (list N * list N * list N * list N) :=
  do a <- acc;
  let '(halo, bulge, cold, warm) := a in
  do eps <- entry means i 1;
  do cold <- add_if (nge eps (nlit 85 100)) p i cold;
  do warm <- add_if (nlt eps (nlit 85 100) && nge eps (nlit 1 2)) p i warm;
  do energy <- entry means i 0;
  do halo <- add_if (nlt eps (nlit 1 2) && nge energy (nlit (-3) 4)) p i halo;
  do bulge <- add_if (nlt eps (nlit 1 2) && nlt energy (nlit (-3) 4)) p i bulge;
  Ok (halo, bulge, cold, warm).

(** _gaussian_mixture.py 316-317: [np.column_stack] of the four and [argmax(axis=1)]. *)
Fixpoint stack (a b c d : list N) : list (list N) :=
  match a, b, c, d with
  | x :: a, y :: b, z :: c, w :: d => [x; y; z; w] :: stack a b c d
  | _, _, _, _ => []
  end.

(** _gaussian_mixture.py 295-319: the grouping of a fitted mixture. *)
Definition group (f : fitted) (X : matrix N) : res (list Z * probs N) :=
  do p <- f_proba f X;
  let zeros := repeat n0 (length X) in
  do r <- fold_left (group_step (f_means f) p) (seq 0 (f_n f)) (Ok (zeros, zeros, zeros, zeros));
  let '(halo, bulge, cold, warm) := r in
  let rows := stack halo bulge cold warm in
  do labels <- mapM np_argmax rows;
  Ok (map Z.of_nat labels, Probs 4 rows).

(** _gaussian_mixture.py 254-319: [split]; [randint st k] are the [k] seeds, [order] the
    order in which the fits finish. *)
Variable randint : St -> nat -> list Z * St.
(** _gaussian_mixture.py 254-319. *)
Definition auto_split (order : list nat) (c_bic : N) (self : string -> H) (st : St) (X : matrix N)
  : res (list Z * probs N * St) :=
  let '(seeds, st1) := randint st (length components_to_try) in
  do bic_med <- parallel order (map (fun ns => try_components self X (fst ns) (snd ns)) (combine components_to_try seeds));
  do n <- choose_number c_bic bic_med;
  do r <- gm_fit (gm_kwargs (KInt n) self) st1 X;
  let '(f, st2) := r in
  do lp <- group f X;
  Ok (fst lp, snd lp, st2).
(** _gaussian_mixture.py 182-319: the class. *)
Definition auto_gaussian_mixture (order : St -> list nat) (c_bic : N) (self : string -> H) (cbins : N * N) : decomposer N St :=
  Decomposer St cbins mix_attributes stars_mask
    (fun st X y a => do r <- auto_split (order st) c_bic self st X; let '(labels, proba, st') := r in Ok (labels, Some proba, st')).

End Mixture.
Arguments kwval : clear implicits.
Arguments fitted : clear implicits.
