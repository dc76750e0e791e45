(** Property theorems. Comparing and hashing galaxies and decompositions (C88). Proofs are in EqualThms.v. *)
From Verif Require Import Py Num RX F64 Np Df Data DataFacts Spec Ex DataThms CenterFacts Circ Base BaseThms Equal SpecEqual CircThms InvThms PotAccThms EqualThms.
From Coq Require Import Lia Floats.SpecFloat.

(** A galaxy is equal to itself, whatever it contains (NaN too). *)
Theorem C88_self : forall (N : Num) nn (o : gobj N), galaxy_eq nn o o = Ok true /\ galaxy_ne nn o o = Ok false.
Proof. exact c88_self. Qed.
Print Assumptions C88_self.

(** Two galaxies made separately compare equal exactly if every set consists of one particle
    and all numbers agree. *)
Theorem C88_separate : forall (N : Num) nn (o o' : gobj N), constructible (go_galaxy o) -> constructible (go_galaxy o') -> apart o o' ->
  (galaxy_eq nn o o' = Ok true <->
   single_equal (go_stars o) (go_stars o') /\ single_equal (go_dm o) (go_dm o') /\ single_equal (go_gas o) (go_gas o')).
Proof. exact c88_separate. Qed.
Print Assumptions C88_separate.

(** Comparing galaxies made separately, unless both have exactly one star: ValueError if both numbers
    of stars agree, or one of them is one, and one of them is at least two; if the numbers differ and neither
    is one, ValueError, or False if numpy is old; False if one galaxy has no star and
    the other at most one.  [!=] likewise. *)
Theorem C88_many : forall (N : Num) nn (o o' : gobj N), constructible (go_galaxy o) -> constructible (go_galaxy o') -> apart o o' ->
  let n := plen (so_set (go_stars o)) in let n' := plen (so_set (go_stars o')) in
  (n = n' \/ n = 1%nat \/ n' = 1%nat -> (2 <= n)%nat \/ (2 <= n')%nat -> galaxy_eq nn o o' = Raise ValueError /\ galaxy_ne nn o o' = Raise ValueError) /\
  (n <> n' -> n <> 1%nat -> n' <> 1%nat ->
   (nn = true -> galaxy_eq nn o o' = Raise ValueError /\ galaxy_ne nn o o' = Raise ValueError) /\ (nn = false -> galaxy_eq nn o o' = Ok false /\ galaxy_ne nn o o' = Ok true)) /\
  (n = 0%nat /\ (n' <= 1)%nat \/ (n <= 1)%nat /\ n' = 0%nat -> galaxy_eq nn o o' = Ok false /\ galaxy_ne nn o o' = Ok true).
Proof. exact c88_many. Qed.
Print Assumptions C88_many.

(** Galaxies and decompositions cannot be hashed. *)
Theorem C88_hash : forall (N : Num) (o : gobj N) (c : cobj N), galaxy_hash o = Raise TypeError /\ comp_hash c = Raise TypeError.
Proof. exact c88_hash. Qed.
Print Assumptions C88_hash.

(** Decompositions of the same number of particles, at least two, made separately: the
    comparison raises ValueError. *)
Theorem C88_components : forall (N : Num) nn (c d : cobj N), co_ids c 0%nat <> co_ids d 0%nat ->
  let n := length (c_labels (co_comp c)) in n = length (c_labels (co_comp d)) -> (2 <= n)%nat -> comp_eq nn c d = Raise ValueError.
Proof. exact c88_components. Qed.
Print Assumptions C88_components.

(** Decompositions made separately compare equal exactly if each has one particle, with equal labels
    (not NaN), equal types, and no probabilities or one equal probability. *)
Theorem C88_comp_separate : forall (N : Num) nn (c d : cobj N), (forall i, co_ids c i <> co_ids d i) ->
  (forall k, k = co_comp c \/ k = co_comp d -> forall p r, c_probs k = Some p -> In r (pr_rows p) -> length r = pr_width p) ->
  (comp_eq nn c d = Ok true <->
   one_equal (c_labels (co_comp c)) (c_labels (co_comp d)) /\ (exists t, c_ptypes (co_comp c) = [t] /\ c_ptypes (co_comp d) = [t]) /\
   match c_probs (co_comp c), c_probs (co_comp d) with
   | None, None => True
   | Some p, Some q => exists x y, pr_rows p = [[x]] /\ pr_rows q = [[y]] /\ neqb x y = true
   | _, _ => False
   end).
Proof. exact c88_comp_separate. Qed.
Print Assumptions C88_comp_separate.

Example EX_C88 : exists g h, oneG = Ok g /\ constructible (go_galaxy (gobj_of 1 g)) /\ apart (gobj_of 1 g) (gobj_of 2 g) /\
  galaxy_eq true (gobj_of 1 g) (gobj_of 2 g) = Ok true /\
  sampleG = Ok h /\ constructible (go_galaxy (gobj_of 1 h)) /\ apart (gobj_of 1 h) (gobj_of 2 h) /\ plen (so_set (go_stars (gobj_of 1 h))) = 5%nat /\
  galaxy_eq true (gobj_of 1 h) (gobj_of 1 h) = Ok true /\ galaxy_eq true (gobj_of 1 h) (gobj_of 2 h) = Raise ValueError.
Proof. exact ex_c88. Qed.

(** Equality of contents is not what [==] computes: two galaxies with the same contents, one
    star each and nothing else, compare unequal. *)
Theorem C88_contents_refuted : exists (o o' : gobj F64), constructible (go_galaxy o) /\ go_galaxy o = go_galaxy o' /\ apart o o' /\
  galaxy_eq true o o' = Ok false /\ galaxy_eq false o o' = Ok false.
Proof. exact c88_contents_refuted. Qed.
Print Assumptions C88_contents_refuted.

(** Decompositions of the sample galaxy. *)
Example EX_C88_components : exists k, rmap fst (do g <- sampleG; decompose asort thr tt g) = Ok k /\ length (c_labels k) = 8%nat /\
  comp_eq true (CObj (fun i => i) k) (CObj (fun i => 3 + i)%nat k) = Raise ValueError /\ comp_eq true (CObj (fun i => i) k) (CObj (fun i => i) k) = Ok true.
Proof. exact ex_c88_components. Qed.

(** Decompositions of one particle made separately: equal with equal labels and probabilities, not with one
    that has no probabilities; and one star against two cannot be compared. *)
Example EX_C88_comp_one : let k := Comp (N:=F64) [fZ 1] ["stars"%string] (Some (Probs 1 [[fZ 1]])) in let k' := Comp (N:=F64) [fZ 1] ["stars"%string] None in
  comp_eq true (CObj (fun i => i) k) (CObj (fun i => 3 + i)%nat k) = Ok true /\ comp_eq true (CObj (fun i => i) k) (CObj (fun i => 3 + i)%nat k') = Ok false /\
  exists g h, loneG = Ok g /\ sampleG = Ok h /\ galaxy_eq false (gobj_of 1 g) (gobj_of 2 h) = Raise ValueError.
Proof. exact ex_c88_comp_one. Qed.
