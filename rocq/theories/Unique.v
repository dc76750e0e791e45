(** Printing of a decomposition: [Components.__repr__] and the [np.unique] in it. *)
From Verif Require Import Py Num Data Base Ctor.

Section Unique.
Context {N : Num}.

(** [np.unique], _base.py 90, on the sorted array: [mask\[0\] = True; mask\[1:\] = aux\[1:\] != aux\[:-1\]]. *)
Fixpoint changes (prev : N) (l : list N) : list N :=
  match l with [] => [] | x :: r => if negb (neqb x prev) then x :: changes x r else changes x r end.
(** The first entry of every run of equal ones (_base.py 90). *)
Definition run_heads (l : list N) : list N := match l with [] => [] | x :: r => x :: changes x r end.
(** ... the entries before the first NaN ([np.searchsorted] of the last entry, a NaN) (_base.py 90). *)
Fixpoint before_nan (l : list N) : list N :=
  match l with [] => [] | x :: r => if nisnan x then [] else x :: before_nan r end.
(** [np.unique(ar)], _base.py 90, of a one-dimensional array of floats. [sort] is [ar.sort()]. [equal_nan]: since
    NumPy 1.21 the entries from the first NaN on give one NaN; older versions (setup.py:48 asks for 1.13.3 or later)
    compare them as any other. *)
Definition np_unique (equal_nan : bool) (sort : list N -> list N) (l : list N) : list N :=
  let aux := sort l in
  if equal_nan && existsb nisnan (match rev aux with [] => [] | x :: _ => [x] end)
  then run_heads (before_nan aux) ++ [nnan]
  else run_heads aux.

(** _base.py 87-92: [__repr__]; [show] is the text of an array in an f-string. *)
Definition components_repr (equal_nan : bool) (sort : list N -> list N) (show : list N -> string) (c : components N) : string :=
  let length := c_len c in
  let labels := np_unique equal_nan sort (c_labels c) in
  let probs := match c_probs c with Some _ => true | None => false end in
  ("Components(" ++ show_len length ++ ", labels=" ++ show labels ++ ", probabilities=" ++ show_bool probs ++ ")")%string.
End Unique.
