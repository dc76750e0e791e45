(** Property theorems. Property lemmas about utils/_center.py: C08 - C12. Proofs are in CenterThms.v. *)
From Verif Require Import Py Num RX F64 Np Df Data DataFacts DfFacts RebuildFacts Center CenterFacts
  Spec Ex DataThms CenterThms.

(** Without potential: ValueError.  With potential: both succeed iff there is a particle,
    and raise ValueError on an empty galaxy. *)
Theorem C08_guard : forall (N : Num) (g : galaxy N) rtol atol, constructible g ->
  (g_haspot g = false -> center g = Raise ValueError /\ is_centered g rtol atol = Raise ValueError) /\
  (g_haspot g = true -> glen g = 0%nat ->
     center g = Raise ValueError /\ is_centered g rtol atol = Raise ValueError) /\
  (g_haspot g = true -> (0 < glen g)%nat ->
     (exists g', center g = Ok g') /\ exists b, is_centered g rtol atol = Ok b).
Proof. exact c08_guard. Qed.
Print Assumptions C08_guard.

Example EX_C08 : exn_of (do g <- gal3 None None None; center g) = Some ValueError /\
  is_ok (do g <- gal3 (Some (-5)%Z) (Some (-9)%Z) (Some (-3)%Z); center g) = true.
Proof. exact ex_c08. Qed.

(** [center] subtracts from every position of every set the position of one particle of
    lowest potential; nothing else changes. *)
Theorem C09_translation : forall (N : Num) (RN : Rounded N) (g g' : galaxy N),
  constructible g -> center g = Ok g' ->
  exists i x0 y0 z0, lowest g i /\
    nth_error (all_x g) i = Some x0 /\ nth_error (all_y g) i = Some y0 /\ nth_error (all_z g) i = Some z0 /\
    moved (fun a => a - x0)%num (fun a => a - y0)%num (fun a => a - z0)%num g g'.
Proof. exact c09_translation. Qed.
Print Assumptions C09_translation.

Example EX_C09 : exists g, gal3 (Some (-5)%Z) (Some (-9)%Z) (Some (-3)%Z) = Ok g /\
  rmap (fun g' => (shows (all_x g'), shows (all_y g'))) (center g) =
    Ok ([sZ (-1); sZ 0; sZ 1], [sZ (-1); sZ 0; sZ 1]) /\
  shows (all_x g) = [sZ 2; sZ 3; sZ 4].
Proof. exact ex_c09. Qed.

(** After [center], if the particles of lowest potential have finite coordinates, one of them sits exactly
    at the origin, and [is_centered] holds for any non-negative [atol] and finite [rtol]. *)
Theorem C10_origin : forall (N : Num) (RN : Rounded N) (g g' : galaxy N),
  constructible g -> center g = Ok g' ->
  (forall i a, lowest g i -> In (Some a) [nth_error (all_x g) i; nth_error (all_y g) i; nth_error (all_z g) i] -> nfin a = true) ->
  (exists i, lowest g' i /\ nth_error (all_x g') i = Some n0 /\
     nth_error (all_y g') i = Some n0 /\ nth_error (all_z g') i = Some n0) /\
  (forall rtol atol, nfin rtol = true -> nle n0 atol = true -> is_centered g' rtol atol = Ok true).
Proof. exact c10_origin. Qed.
Print Assumptions C10_origin.

(** With NaN tolerances the answer of [is_centered] after [center] is False. *)
Example EX_C10 : exists g, (do g <- gal3 (Some (-5)%Z) (Some (-9)%Z) (Some (-3)%Z); center g) = Ok g /\
  is_centered g default_rtol default_atol = Ok true /\ is_centered g nnan n0 = Ok false /\
  shows (all_x g) = [sZ (-1); sZ 0; sZ 1].
Proof. exact ex_c10. Qed.

(** If the particles of lowest potential have finite coordinates, centring twice is centring once, bit for bit. *)
Theorem C11_idempotent : forall (N : Num) (RN : Rounded N) (g g' : galaxy N),
  constructible g -> center g = Ok g' ->
  (forall i a, lowest g i -> In (Some a) [nth_error (all_x g) i; nth_error (all_y g) i; nth_error (all_z g) i] -> nfin a = true) ->
  center g' = Ok g'.
Proof. exact c11_idempotent. Qed.
Print Assumptions C11_idempotent.

Example EX_C11 : exists g, (do g <- gal3 (Some (-5)%Z) (Some (-9)%Z) (Some (-3)%Z); center g) = Ok g /\
  rmap gshow (center g) = Ok (gshow g) /\ forallb nfin (all_x g ++ all_y g ++ all_z g) = true.
Proof. exact ex_c11. Qed.

(** In exact arithmetic: translating a galaxy by any vector does not change the result. *)
Theorem C12_invariance : forall (g gt : galaxy RX) (a b c : R),
  constructible g ->
  moved (N:=RX) (fun v => xadd v (XR a)) (fun v => xadd v (XR b)) (fun v => xadd v (XR c)) g gt ->
  center gt = center g.
Proof. exact c12_invariance. Qed.
Print Assumptions C12_invariance.

(** In exact arithmetic: separations between particles are preserved. *)
Theorem C12_separation : forall (g g' : galaxy RX) i j (xi xj : R),
  constructible g -> center g = Ok g' ->
  (forall i a, lowest g i -> In (Some a) [nth_error (all_x g) i; nth_error (all_y g) i; nth_error (all_z g) i] -> xfin a = true) ->
  forall coord, coord = all_x \/ coord = all_y \/ coord = all_z ->
  nth_error (coord g) i = Some (XR xi) -> nth_error (coord g) j = Some (XR xj) ->
  exists yi yj, nth_error (coord g') i = Some (XR yi) /\ nth_error (coord g') j = Some (XR yj) /\
    (yi - yj = xi - xj)%R.
Proof. exact c12_separation. Qed.
Print Assumptions C12_separation.

Example EX_C12 : constructible (rgal 0) /\
  moved (N:=RX) (fun v => xadd v (XR 7)) (fun v => xadd v (XR 0)) (fun v => xadd v (XR 0)) (rgal 0) (rgal 7).
Proof. exact ex_c12. Qed.
