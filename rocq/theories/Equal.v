(** Model of [==], [!=] and [hash] of the data classes: data.py 59, 278 ([@uttr.s(frozen=True)])
    and models/_base.py 41 ([@attr.s(frozen=True)]) leave them to attrs, which compares the
    tuples of all attributes, in the order of the class body, and hashes that tuple.
    Quantities are given by their values in the default units. *)
From Verif Require Import Py Num Np Df Data Circ Base.

Section Equal.
Context {N : Num}.
(** numpy from version 1.25 on raises for [==] of arrays that do not broadcast; before, the
    result was False (with a warning). *)
Variable new_numpy : bool.

(** The values of attributes. Arrays and floats are objects known by an identity (data.py 102-130, _base.py 63-67). *)
Inductive pyv : Type :=
| VType (t : ptype) | VBool (b : bool) | VNone
| VFloat (id : nat) (x : N)
| VArr (id : nat) (l : list N)
| VStrs (id : nat) (l : list string)
| VMat (id : nat) (w : nat) (rows : list (list N)).

(** [a is b]; enum members, booleans and None exist once (data.py 59). *)
Definition is_ (a b : pyv) : bool :=
  match a, b with
  | VType t, VType u => ptype_eqb t u
  | VBool b, VBool c => Bool.eqb b c
  | VNone, VNone => true
  | VFloat i _, VFloat j _ | VArr i _, VArr j _ | VStrs i _, VStrs j _ | VMat i _ _, VMat j _ _ => (i =? j)%nat
  | _, _ => false
  end.

(** [bool(array)]: one element counts, an empty array is false, otherwise ambiguous (data.py 59). *)
Definition truth (l : list bool) : res bool :=
  match l with [] => Ok false | [b] => Ok b | _ => Raise ValueError end.
(** [a == b] of 1-D arrays (numpy broadcasting), then [bool] (data.py 59). *)
Definition arr_eq {A} (eqb : A -> A -> bool) (a b : list A) : res bool :=
  if (length a =? length b)%nat then truth (map2 eqb a b)
  else match a, b with
       | [x], _ => truth (map (eqb x) b)
       | _, [y] => truth (map (fun x => eqb x y) a)
       | _, _ => if new_numpy then Raise ValueError else Ok false
       end.
(** The same of 2-D arrays; of unequal shapes only the number of rows is looked at here
    (simplification: two arrays of unequal widths count as not broadcasting) (_base.py 41, 66). *)
Definition mat_eq (w : nat) (a : list (list N)) (w' : nat) (b : list (list N)) : res bool :=
  if (w =? w')%nat && (length a =? length b)%nat then truth (map2 neqb (concat a) (concat b))
  else if new_numpy then Raise ValueError else Ok false.
(** [bool(a == b)]. An array and None, or an array and something else, are unequal (data.py 59). *)
Definition eq_ (a b : pyv) : res bool :=
  match a, b with
  | VFloat _ x, VFloat _ y => Ok (neqb x y)
  | VArr _ l, VArr _ l' => arr_eq neqb l l'
  | VStrs _ l, VStrs _ l' => arr_eq String.eqb l l'
  | VMat _ w l, VMat _ w' l' => mat_eq w l w' l'
  | _, _ => Ok (is_ a b)
  end.
(** [(a, ...) == (b, ...)] of tuples: items that are the same object count as equal, the
    others are compared; the first unequal pair decides (data.py 59). *)
Definition item_eq (a b : pyv) : res bool := if is_ a b then Ok true else eq_ a b.
(** Comparison of tuples (data.py 59, 278, _base.py 41). *)
Fixpoint tuple_eq (l l' : list pyv) : res bool :=
  match l, l' with
  | [], [] => Ok true
  | a :: l, b :: l' => do e <- item_eq a b; if e then tuple_eq l l' else Ok false
  | _, _ => Ok false
  end.
(** [hash((a, ...))]: arrays and quantities have no hash (data.py 59). *)
Definition hashable (a : pyv) : bool :=
  match a with VArr _ _ | VStrs _ _ | VMat _ _ _ => false | _ => true end.
(** Hash of a tuple (data.py 59, 278, _base.py 41). *)
Definition tuple_hash (l : list pyv) : res unit := guard (forallb hashable l) TypeError.

(** A ParticleSet object: its identity, that of its attributes (by position) and its contents (data.py 59-130). *)
Record sobj : Type := SObj { so_id : nat; so_ids : nat -> nat; so_set : pset N }.
(** An optional array (data.py 109-115). *)
Definition varr (id : nat) (o : option (list N)) : pyv := match o with Some l => VArr id l | None => VNone end.
(** data.py 102-130: the attributes of ParticleSet in their order. *)
Definition set_fields (s : sobj) : list pyv :=
  let i := so_ids s in let p := so_set s in
  [VType (p_type p); VArr (i 1) (p_m p); VArr (i 2) (p_x p); VArr (i 3) (p_y p); VArr (i 4) (p_z p);
   VArr (i 5) (p_vx p); VArr (i 6) (p_vy p); VArr (i 7) (p_vz p); varr (i 8) (p_pot p); VFloat (i 9) (p_soft p);
   VBool (p_haspot p); VArr (i 11) (p_ke p); varr (i 12) (p_te p);
   VArr (i 13) (p_Jx p); VArr (i 14) (p_Jy p); VArr (i 15) (p_Jz p)]%nat.
(** data.py 59: [ParticleSet.__eq__] and [__hash__]. *)
Definition set_eq (s t : sobj) : res bool := tuple_eq (set_fields s) (set_fields t).
(** data.py 59. *)
Definition set_hash (s : sobj) : res unit := tuple_hash (set_fields s).

(** A Galaxy object: three ParticleSet objects (data.py 278-306). *)
Record gobj : Type := GObj { go_stars : sobj; go_dm : sobj; go_gas : sobj; go_haspot : bool }.
(** The contents of the object (data.py 278-306). *)
Definition go_galaxy (o : gobj) : galaxy N := mkGal (so_set (go_stars o)) (so_set (go_dm o)) (so_set (go_gas o)) (go_haspot o).
(** One item of the tuples compared by [Galaxy.__eq__] (data.py 278). *)
Definition set_item_eq (s t : sobj) : res bool := if (so_id s =? so_id t)%nat then Ok true else set_eq s t.
(** data.py 278, 302-306: [Galaxy.__eq__], [__ne__] and [__hash__]. *)
Definition galaxy_eq (o o' : gobj) : res bool :=
  do a <- set_item_eq (go_stars o) (go_stars o'); if negb a then Ok false else
  do b <- set_item_eq (go_dm o) (go_dm o'); if negb b then Ok false else
  do c <- set_item_eq (go_gas o) (go_gas o'); if negb c then Ok false else
  tuple_eq [VBool (go_haspot o)] [VBool (go_haspot o')].
(** data.py 278. *)
Definition galaxy_ne (o o' : gobj) : res bool := rmap negb (galaxy_eq o o').
(** data.py 278. *)
Definition galaxy_hash (o : gobj) : res unit :=
  do _ <- set_hash (go_stars o); do _ <- set_hash (go_dm o); do _ <- set_hash (go_gas o); Ok tt.

(** A Components object (_base.py 41-67). *)
Record cobj : Type := CObj { co_ids : nat -> nat; co_comp : components N }.
(** _base.py 63-67: the attributes of Components. *)
Definition comp_fields (c : cobj) : list pyv :=
  let i := co_ids c in let k := co_comp c in
  [VArr (i 0) (c_labels k); VStrs (i 1) (c_ptypes k);
   match c_probs k with Some p => VMat (i 2) (pr_width p) (pr_rows p) | None => VNone end]%nat.
(** _base.py 41: [Components.__eq__] and [__hash__]. *)
Definition comp_eq (c d : cobj) : res bool := tuple_eq (comp_fields c) (comp_fields d).
(** _base.py 41. *)
Definition comp_hash (c : cobj) : res unit := tuple_hash (comp_fields c).

End Equal.
Arguments pyv : clear implicits.
Arguments sobj : clear implicits.
Arguments gobj : clear implicits.
Arguments cobj : clear implicits.
