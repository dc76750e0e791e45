(** Specification of JEHistogram in the whole analysis, energy bin by energy bin (C111). *)
From Verif Require Import Py Num RX F64 Np Data Center Align Circ Base Threshold Hist Potential Dgemm Spec SpecR SpecCirc SpecWhist.
Local Open Scope R_scope.

(** Star number [i] is in the cell [k] of circularities and has a normalised energy from j/20 - 1 up to (j+1)/20 - 1. *)
Definition in_box (n : nat) (bodies : list (R * R)) (ue uz : R) (cv : list (R * R)) (k j : Z) (i : nat) : Prop :=
  in_cell n bodies ue uz cv k i /\ exists b, nth_error bodies i = Some b /\ IZR j / 20 - 1 <= fst b / ue < IZR (j + 1) / 20 - 1.

(** The exact shares: the spheroid takes every star that rotates against the disc.  Of the cell [k] it
    takes all stars if there are no more of them than in the mirrored cell, else in each energy bin as
    many as the mirrored cell holds there, or all if there are fewer; the disc gets the rest. *)
Definition energy_shares {N : Num} (ws : list N) (n : nat) (bodies : list (R * R)) (ue uz : R) (cv : list (R * R)) : Prop :=
  forall k l l', (0 <= k < 50)%Z -> NoDup l -> NoDup l' ->
    (forall i, In i l <-> in_cell n bodies ue uz cv k i) -> (forall i, In i l' <-> in_cell n bodies ue uz cv (-1 - k) i) ->
    count_label 0 ws l' = length l' /\
    forall j m m', (0 <= j < 20)%Z -> NoDup m -> NoDup m' ->
      (forall i, In i m <-> in_box n bodies ue uz cv k j i) -> (forall i, In i m' <-> in_box n bodies ue uz cv (-1 - k) j i) ->
      let taken := if (length l <=? length l')%nat then length m else Nat.min (length m') (length m) in
      count_label 0 ws m = taken /\ count_label 1 ws m = (length m - taken)%nat.

(** The analysis of a galaxy without potential with JEHistogram, which draws with [choice] from the state [st]. *)
Definition je_analysis {sm : list f64 -> f64} {sm' : list f32 -> f32} {St} (argsort : nat -> list (F64s sm) -> list nat) (table : dict (backend (F32s sm'))) (name : string)
  (mm : nat -> mat3 (F64s sm) -> list (F64s sm) -> list (F64s sm) -> list (F64s sm) -> list (F64s sm) * list (F64s sm) * list (F64s sm))
  (choice : St -> list nat -> nat -> list nat * St) (junk : nat -> Z) (st : St) (g : galaxy (F64s sm)) : res (list (F64s sm)) :=
  do h0 <- potential (W:=F64s sm) (S:=F32s sm') to32 to64 table name g;
  do h1 <- center h0;
  do h2 <- star_align_with mm h1 None;
  do r <- decompose argsort (jehistogram choice junk (default_bin0, default_bin1) 100 2 20) st h2;
  Ok (c_labels (fst r)).
