(** Model of galaxychop/models/_histogram.py. *)
From Verif Require Import Py Num Np Df Data Circ Base Threshold.

Section Hist.
Context {N : Num}.

(** ** numpy functions used *)

(** [np.linspace(start, stop, n + 1)] for [n >= 1]: arange times the step plus the start, the
    last point replaced by [stop].  (numpy takes another path when the step is zero, which
    does not happen for the ranges used here.) (_histogram.py 71, 249-258). *)
Definition linspace (start stop : N) (n : nat) : list N :=
  let step := ((stop - start) / nofZ (Z.of_nat n))%num in
  map (fun i => (nofZ (Z.of_nat i) * step + start)%num) (seq 0 n) ++ [stop].

(** The power of ten [np.round] scales with: exact up to 10^8, then a product (_histogram.py 74). *)
Fixpoint times10 (k : nat) (x : N) : N :=
  match k with O => x | S k' => times10 k' (x * nofZ 10)%num end.
(** The scale of [np.round] (_histogram.py 74). *)
Definition pow10 (d : nat) : N :=
  if (d <? 9)%nat then nofZ (10 ^ Z.of_nat d) else times10 (d - 9) (nofZ (10 ^ 9)).
(** [np.round(x, digits)] of a float (_histogram.py 74). *)
Definition np_round (digits : Z) (x : N) : N :=
  if (0 <=? digits)%Z
  then (nrint (x * pow10 (Z.to_nat digits)) / pow10 (Z.to_nat digits))%num
  else (nrint (x / pow10 (Z.to_nat (- digits))) * pow10 (Z.to_nat (- digits)))%num.

(** [np.unique]: sorted, without repetitions (_histogram.py 119). *)
Fixpoint uinsert (x : nat) (l : list nat) : list nat :=
  match l with
  | [] => [x]
  | y :: l' => if (x <? y)%nat then x :: l else if (x =? y)%nat then l else y :: uinsert x l'
  end.
(** [np.unique] (_histogram.py 119). *)
Definition np_unique (l : list nat) : list nat := fold_right uinsert [] l.

(** Dictionaries from bin numbers to arrays of particle numbers (_histogram.py 82-118, 148-158). *)
Definition bdict : Type := list (nat * list nat).
(** [d[k]] (_histogram.py 82-118): KeyError if there is none. *)
Fixpoint bget (d : bdict) (k : nat) : res (list nat) :=
  match d with
  | [] => Raise KeyError
  | (k', v) :: d' => if (k =? k')%nat then Ok v else bget d' k
  end.
(** [d[k] = v] (_histogram.py 82-118). *)
Fixpoint bset (d : bdict) (k : nat) (v : list nat) : bdict :=
  match d with
  | [] => [(k, v)]
  | (k', v') :: d' => if (k =? k')%nat then (k, v) :: d' else (k', v') :: bset d' k v
  end.

(** [np.histogram(a, n, range=(start, stop))]: the number of bins must be positive; bins are
    half open but the last.  (numpy computes the bin of each value and corrects it by at most
    one against the edges; the model counts against the edges.) (_histogram.py 71, 249-258). *)
Definition in_bin (edges : list N) (n i : nat) (x : N) : bool :=
  nle (nth i edges nnan) x &&
  (if (S i =? n)%nat then nle x (nth (S i) edges nnan) else nlt x (nth (S i) edges nnan)).
(** [np.histogram] (_histogram.py 71, 249-258). *)
Definition np_histogram (a : list N) (n_bin : Z) (start stop : N) : res (list nat * list N) :=
  do _ <- guard (1 <=? n_bin)%Z ValueError;
  let n := Z.to_nat n_bin in
  let edges := linspace start stop n in
  Ok (map (fun i => count (map (in_bin edges n i) a)) (seq 0 n), edges).

(** [a[idx]] with integers (_histogram.py 250, 255, 283). *)
Definition take_at {A} (a : list A) (idx : list nat) : res (list A) :=
  mapM (fun i => match nth_error a i with Some x => Ok x | None => Raise IndexError end) idx.

(** ** The random generator *)

(** [choice st l k]: [k] distinct entries of [l] and the next state; a sample larger than [l]
    raises ValueError. *)
Context {St : Type}.
Variable choice : St -> list nat -> nat -> list nat * St.
(** [random_state.choice(l, k, replace=False)] (_histogram.py 102-106, 304-311). *)
Definition draw (st : St) (l : list nat) (k : nat) : res (list nat * St) :=
  do _ <- guard (k <=? length l)%nat ValueError;
  Ok (choice st l k).

(** ** JHistogram *)

(** _histogram.py 68-79: [_make_histogram]: the rounded edges and the first one equal to zero
    (the other values it returns are not used). *)
Definition make_histogram (eps : list N) (n_bin digits : Z) : res (list N * nat) :=
  do h <- np_histogram eps n_bin nm1 n1;
  let edges := map (np_round digits) (snd h) in
  match where_ (map (fun e => neqb e n0) edges) with
  | [] => Raise IndexError
  | bin0 :: _ => Ok (edges, bin0)
  end.

(** _histogram.py 144-158 (347-361 in JEHistogram): [bin_to_particle]. *)
Definition bin_to_particle (edges : list N) (n : nat) (eps : list N) : bdict :=
  bset (map (fun i => (i, where_ (map (fun e => nle (nth i edges nnan) e && nlt e (nth (S i) edges nnan)) eps))) (seq 0 (n - 1)))
       (length (removelast edges) - 1)
       (where_ (map (fun e => nle (nth (n - 1) edges nnan) e && nle e (nth n edges nnan)) eps)).

(** _histogram.py 81-86: [_make_count_sph]. *)
Definition make_count_sph (bin0 : nat) (btp : bdict) : res bdict :=
  fold_left (fun acc i => do sph <- acc; do v <- bget btp i; Ok (bset sph i v)) (seq 0 bin0) (Ok []).

(** _histogram.py 88-107, 236-245, 320: [_make_corot_sph]; [pick] makes the selection when the co-rotating
    bin holds more particles than its mirror (JEHistogram replaces that step only). *)
Definition corot_step (pick : St -> list nat -> list nat -> res (list nat * St)) (bin0 : nat) (btp : bdict)
  (acc : res (bdict * St)) (count_bin : nat) : res (bdict * St) :=
  do a <- acc;
  let '(sph, st) := a in
  let corot_bin := (2 * bin0 - 1 - count_bin)%nat in
  do cnt <- bget btp count_bin;
  do cor <- bget btp corot_bin;
  if (length cor <=? length cnt)%nat then Ok (bset sph corot_bin cor, st)
  else do r <- pick st cnt cor; Ok (bset sph corot_bin (fst r), snd r).
(** _histogram.py 88-107: the loop over the bins. *)
Definition make_corot_sph pick (st : St) (n bin0 : nat) (btp sph : bdict) : res (bdict * St) :=
  let lim_aux := if (2 * bin0 <=? n)%nat then 0%nat else (2 * bin0 - n)%nat in
  fold_left (corot_step pick bin0 btp) (seq lim_aux (bin0 - lim_aux)) (Ok (sph, st)).
(** _histogram.py 102-106. *)
Definition pick_any (st : St) (cnt cor : list nat) : res (list nat * St) := draw st cor (length cnt).

(** _histogram.py 109-120: [_make_disk]. *)
Definition disk_step (btp sph : bdict) (acc : res bdict) (key : nat) : res bdict :=
  do dsk <- acc;
  do arr <- bget btp key;
  do flt <- bget sph key;
  Ok (bset dsk key (np_unique (filter (fun x => negb (existsb (Nat.eqb x) flt)) arr))).
(** _histogram.py 109-120: the loop over the bins. *)
Definition make_disk (n bin0 : nat) (btp sph : bdict) : res bdict :=
  let dsk := fold_left (fun d i => bset d i []) (seq 0 bin0) btp in
  let lim := if (2 * bin0 <=? n)%nat then bin0 else (n - bin0)%nat in
  fold_left (disk_step btp sph) (seq lim (length sph - lim)) (Ok dsk).

(** _histogram.py 170-178, 384-392: concatenation of the bins; an empty dictionary leaves a Python
    list, which has no [astype]. Indices go through floats, exact below 2^53. *)
Definition gather (d : bdict) : res (list nat) :=
  do _ <- guard (negb (length d =? 0)%nat) AttributeError;
  do ls <- mapM (bget d) (seq 0 (length d));
  Ok (concat ls).

(** _histogram.py 140-184, 341-399: the part of [split] both classes share. *)
Definition hist_split pick (junk : nat -> Z) (n_bin digits : Z) (st : St) (eps : list N) : res (list Z * St) :=
  do h <- make_histogram eps n_bin digits;
  let '(edges, bin0) := h in
  let n := Z.to_nat n_bin in
  let btp := bin_to_particle edges n eps in
  do sph <- make_count_sph bin0 btp;
  do r <- make_corot_sph pick st n bin0 btp sph;
  let '(sph, st') := r in
  do dsk <- make_disk n bin0 btp sph;
  do esf_idx <- gather sph;
  do disk_idx <- gather dsk;
  do labels <- assign_all (np_empty junk (length eps)) esf_idx 0%Z;
  do labels <- assign_all labels disk_idx 1%Z;
  Ok (labels, st').

(** _histogram.py 24-184: the class JHistogram. [X] has one column, so [np.where(...)[0]] and
    [len] of the matrix are those of the column. *)
Definition jhistogram (junk : nat -> Z) (cbins : N * N) (n_bin digits : Z) : decomposer N St :=
  Decomposer St cbins ["eps"%string] stars_mask
    (fun st X y a => do r <- hist_split pick_any junk n_bin digits st (matrix_col 0 X); Ok (fst r, None, snd r)).

(** ** JEHistogram *)

(** _histogram.py 249-320: the selection by energy in one pair of bins. *)
Definition energy_step (edges : list N) (cor : list nat) (ecor : list N) (hcnt hcor : list nat)
  (acc : res (list nat * St)) (j : nat) : res (list nat * St) :=
  do a <- acc;
  let '(aux0, st) := a in
  let cj := nth j hcnt 0%nat in
  if (cj =? 0)%nat then Ok (aux0, st)
  else
    let sel := bmask (map (fun x => nle (nth j edges nnan) x && nlt x (nth (S j) edges nnan)) ecor) cor in
    if (nth j hcor 0%nat <=? cj)%nat then Ok (aux0 ++ sel, st)
    else do r <- draw st sel cj; Ok (aux0 ++ fst r, snd r).
(** _histogram.py 249-317: histograms of the energies and the loop over their bins. *)
Definition pick_energy (energy : list N) (n_bin_E : Z) (st : St) (cnt cor : list nat) : res (list nat * St) :=
  do ecnt <- take_at energy cnt;
  do hcnt <- np_histogram ecnt n_bin_E nm1 n0;
  do ecor <- take_at energy cor;
  do hcor <- np_histogram ecor n_bin_E nm1 n0;
  fold_left (energy_step (snd hcor) cor ecor (fst hcnt) (fst hcor)) (seq 0 (Z.to_nat n_bin_E)) (Ok ([], st)).

(** _histogram.py 190-399: the class JEHistogram. *)
Definition jehistogram (junk : nat -> Z) (cbins : N * N) (n_bin digits n_bin_E : Z) : decomposer N St :=
  Decomposer St cbins ["normalized_star_energy"; "eps"]%string stars_mask
    (fun st X y a =>
       do r <- hist_split (pick_energy (matrix_col 0 X) n_bin_E) junk n_bin digits st (matrix_col 1 X);
       Ok (fst r, None, snd r)).

End Hist.
