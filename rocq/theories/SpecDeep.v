(** Specification vocabulary for heavier surroundings (C118). *)
From Verif Require Import Py Num SpecPot.

Section SpecDeep.
Context {S : Num}.
(** Two sources at the same place. *)
Definition same_place (p q : source (S:=S)) : Prop := fst p = fst q /\ fst (snd p) = fst (snd q).
(** The second list holds the particles of the first in the same order, none of them lighter, with any number of
    particles added anywhere; all masses are finite and not negative. *)
Inductive heavier : list (source (S:=S)) -> list (source (S:=S)) -> Prop :=
| heavier_nil : heavier [] []
| heavier_same q q' l l' : same_place q q' -> nle n0 (src_m q) = true -> nle (src_m q) (src_m q') = true -> nfin (src_m q') = true ->
    heavier l l' -> heavier (q :: l) (q' :: l')
| heavier_new q' l l' : nle n0 (src_m q') = true -> nfin (src_m q') = true -> heavier l l' -> heavier l (q' :: l').
End SpecDeep.
