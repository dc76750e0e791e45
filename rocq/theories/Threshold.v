(** Model of galaxychop/models/_threshold.py. *)
From Verif Require Import Py Num Np Df Data Circ Base.

Section Threshold.
Context {N : Num}.

(** [np.empty(n, dtype=int)]: whatever the memory holds (_threshold.py 119). *)
Definition np_empty (junk : nat -> Z) (n : nat) : list Z := map junk (seq 0 n).

(** Column [k] of the matrix as numbers.  The columns of a decomposition by circularity are
    floats (_threshold.py 116-117). *)
Definition matrix_col (k : nat) (X : matrix N) : list N := map (fun row => cell_num (nth k row cnan)) X.

(** [a[idx] = v] for a scalar [v] (_threshold.py 120-121). *)
Definition assign_all {A} (a : list A) (idx : list nat) (v : A) : res (list A) :=
  scatter a idx (repeat v (length idx)).

(** _threshold.py 108-123: [split].  [X] has one column, so the first array [np.where]
    returns holds the rows. *)
Definition jthreshold_split (junk : nat -> Z) (eps_cut : N) (X : matrix N) : res (list Z) :=
  let eps := matrix_col 0 X in
  let esf_idx := where_ (map (fun e => nle e eps_cut) eps) in
  let disk_idx := where_ (map (fun e => ngt e eps_cut) eps) in
  do labels <- assign_all (np_empty junk (length X)) esf_idx 0%Z;
  assign_all labels disk_idx 1%Z.

(** _threshold.py 24-123: the class; attributes at 95-106. It owns no generator. *)
Definition jthreshold (junk : nat -> Z) (cbins : N * N) (eps_cut : N) : decomposer N unit :=
  Decomposer unit cbins ["eps"%string] stars_mask
    (fun st X y a => do labels <- jthreshold_split junk eps_cut X; Ok (labels, None, st)).

(** Construction: attrs validates the parameters in the order of their definition
    (_base.py 188-196, _threshold.py 80-93). *)
Definition mk_jthreshold (junk : nat -> Z) (cbins eps_cut : hval N) : res (decomposer N unit) :=
  do b <- bins_validator cbins;
  do c <- check_eps_cut eps_cut;
  Ok (jthreshold junk b c).

End Threshold.
