(** Specification vocabulary for the mixture models. *)
From Verif Require Import Py Num Np Df Data Circ.

Section SpecMix.
Context {N : Num}.

(** The four structures of AutoGaussianMixture in the order of their labels 0 to 3, and the
    documented region of the (energy, circularity) plane of each. *)
Inductive kind : Type := Halo | Bulge | ColdDisk | WarmDisk.
Definition kinds : list kind := [Halo; Bulge; ColdDisk; WarmDisk].
Definition belongs (k : kind) (energy eps : N) : bool :=
  match k with
  | ColdDisk => nle (nlit 85 100) eps
  | WarmDisk => nle (nlit 1 2) eps && nlt eps (nlit 85 100)
  | Halo => nlt eps (nlit 1 2) && nle (nlit (-3) 4) energy
  | Bulge => nlt eps (nlit 1 2) && nlt energy (nlit (-3) 4)
  end.

(** Coordinates of centre [i]. *)
Definition coord (means : list (list N)) (i k : nat) : N := nth k (nth i means []) nnan.

(** What the Gaussians of one structure give a particle whose component probabilities are
    [row]: added one by one to zero. *)
Definition from_kind (k : kind) (n : nat) (means : list (list N)) (row : list N) : N :=
  fold_left nadd (map (fun i => nth i row nnan) (filter (fun i => belongs k (coord means i 0) (coord means i 1)) (seq 0 n))) n0.

(** [z] is the first place of a greatest value. *)
Definition first_max (row : list N) (z : nat) : Prop :=
  exists w, nth_error row z = Some w /\
  forall j v, nth_error row j = Some v -> nle v w = true /\ ((j < z)%nat -> nlt v w = true).

(** Fits with 2 to 15 Gaussians are tried; [m] Gaussians are good enough when the value for
    [m] exceeds the mean of the last five by [cut] at most. *)
Definition good_enough (cut : N) (bics : list N) (m : nat) : Prop :=
  (2 <= m <= 15)%nat /\ nle (nth (m - 2) bics nnan - nsum (skipn 9 bics) / nofZ 5)%num cut = true.
Definition smallest (P : nat -> Prop) (m : nat) : Prop := P m /\ forall m', P m' -> (m <= m')%nat.

(** A star scikit-learn sees: its energy and both circularities are finite; and the row it is
    given for it. *)
Definition usable_star (g : galaxy N) (j : jcirc_t N) (k : nat) : Prop :=
  (k < plen (g_stars g))%nat /\ exists e x r, nth_error (jc_E j) k = Some e /\ nth_error (jc_eps j) k = Some x /\ nth_error (jc_eps_r j) k = Some r /\
    nfin e = true /\ nfin x = true /\ nfin r = true.
Definition star_row (j : jcirc_t N) (k : nat) : list (cell N) :=
  [CNum (nth k (jc_E j) nnan); CNum (nth k (jc_eps j) nnan); CNum (nth k (jc_eps_r j) nnan)].
(** The answers for the used stars are at their places in the result, NaN at all others. *)
Definition placed (g : galaxy N) (used : list nat) (labels : list Z) (result : list N) : Prop :=
  (forall r k, nth_error used r = Some k -> exists z, nth_error labels r = Some z /\ nth_error result k = Some (nofZ z)) /\
  (forall i, (i < plen (g_stars g) + plen (g_dm g) + plen (g_gas g))%nat -> ~ In i used -> nth_error result i = Some nnan).

End SpecMix.

(** Keyword arguments: the number of components under its name, the attributes of the object
    under theirs, and nothing else. *)
Definition passes {V} (kw : dict V) (count_name : string) (n : V) (names : list string) (attr : string -> V) : Prop :=
  dget kw count_name = Some n /\ (forall a, In a names -> dget kw a = Some (attr a)) /\
  (forall a v, dget kw a = Some v -> a = count_name \/ In a names).
(** The parameters of the scikit-learn classes that the wrappers expose under the same name
    (beside [random_state]). *)
Definition kmeans_names : list string := ["init"; "n_init"; "max_iter"; "tol"; "verbose"; "algorithm"]%string.
Definition mixture_names : list string :=
  ["covariance_type"; "tol"; "reg_covar"; "max_iter"; "n_init"; "init_params"; "weights_init"; "means_init";
   "precisions_init"; "warm_start"; "verbose"; "verbose_interval"]%string.
