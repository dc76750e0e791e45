(** Specification vocabulary for bound particles that decide nothing in jcirc. *)
From Verif Require Import Py Num RX Np Data Spec SpecCirc.

(** In the energy bin [i] (with energies [E] and angular momenta [J]) the particles [b] outdo [d]: two of
    them have a larger |Jz|; one is enough in the last bin. *)
Definition outdone {N : Num} (edges : list N) (E J : orbit N -> N) (b : list (orbit N)) (i : nat) (d : orbit N) : Prop :=
  if (i <? length edges)%nat
  then exists a a' rest, Permutation b (a :: a' :: rest) /\ ebin edges i (E a) = true /\ ebin edges i (E a') = true /\
         nlt (J d) (J a) = true /\ nlt (J d) (J a') = true
  else exists a, In a b /\ ebin edges i (E a) = true /\ nlt (J d) (J a) = true.

(** [d] decides nothing beside [b]: one of [b] is more bound, one has at least its |Jz|, one at least its
    projected angular momentum, and it is outdone in its energy bin. *)
Record idle {N : Num} (edges : list N) (ue uz : N) (b : list (orbit N)) (d : orbit N) : Prop := {
  idle_e : exists a, In a b /\ nle (o_e a) (o_e d) = true /\ nlt (o_e a / ue)%num (o_e d / ue)%num = true;
  idle_z : exists a, In a b /\ nle (nabs (o_jz d)) (nabs (o_jz a)) = true;
  idle_p : exists a, In a b /\ nle (nabs (o_jp d)) (nabs (o_jp a)) = true;
  idle_bin : forall i, ebin edges i (o_e d / ue)%num = true ->
    outdone edges (fun o => (o_e o / ue)%num) (fun o => nabs (o_jz o / uz)%num) b i d }.

(** [g'] has the bound particles of [g] and others that decide nothing beside them; the unbound ones are
    arbitrary, and so is the order and the set each particle is in. *)
Definition padded {N : Num} (edges : list N) (g g' : galaxy N) : Prop :=
  exists ds, Permutation (filter bound (all_orbits g')) (filter bound (all_orbits g) ++ ds) /\
    forall ue uz up, units g ue uz up -> forall d, In d ds -> idle edges ue uz (filter bound (all_orbits g)) d.
