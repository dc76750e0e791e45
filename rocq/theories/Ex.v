(** Helpers for the concrete examples: printable forms of double-precision results.
    Floats are shown without the proof they carry, so that [vm_compute] stays small. *)
From Verif Require Import Py Num RX F64 Np Df Data.
From Flocq Require Import IEEE754.BinarySingleNaN.
From Coq Require Import Floats.SpecFloat.

Definition fshow (x : F64) : spec_float := B2SF (x : f64).
Definition fZ (z : Z) : F64 := nofZ z.
Definition fZs (l : list Z) : list F64 := map nofZ l.
Definition shows (l : list F64) : list spec_float := map fshow l.
(** Integer literals and quotients as shown floats. *)
Definition sZ (z : Z) : spec_float := fshow (nofZ z).
Definition sQ (p q : Z) : spec_float := fshow (nlit (N:=F64) p q).

Inductive shown := ShF (x : spec_float) | ShI (z : Z) | ShS (s : string).
Definition cshow (c : cell F64) : shown :=
  match c with CNum x => ShF (fshow x) | CInt z => ShI z | CStr s => ShS s end.
Definition dfshow (d : df F64) : dict (list shown) :=
  map (fun kc => (fst kc, map cshow (snd kc))) (cols d).
Definition oshow (o : option (list F64)) : option (list spec_float) := option_map shows o.
Definition pshow (p : pset F64) :=
  (p_type p, [shows (p_m p); shows (p_x p); shows (p_y p); shows (p_z p); shows (p_vx p);
   shows (p_vy p); shows (p_vz p); shows (p_ke p); shows (p_Jx p); shows (p_Jy p); shows (p_Jz p)],
   oshow (p_pot p), oshow (p_te p), fshow (p_soft p), p_haspot p).
Definition gshow (g : galaxy F64) := (pshow (g_stars g), pshow (g_dm g), pshow (g_gas g), g_haspot g).

(** The exception raised, if any. *)
Definition exn_of {A} (r : res A) : option exn := match r with Ok _ => None | Raise e => Some e end.
Lemma exn_of_raise {A} (r : res A) e : exn_of r = Some e <-> r = Raise e.
Proof. destruct r; simpl; split; congruence. Qed.

Lemma is_ok_ex {A} (r : res A) : is_ok r = true -> exists a, r = Ok a.
Proof. destruct r; [eauto|discriminate]. Qed.
Lemma ok_sat {A} (P : A -> Prop) (r : res A) :
  match r with Ok a => P a | Raise _ => False end -> exists a, r = Ok a /\ P a.
Proof. destruct r; [eauto|contradiction]. Qed.

(** A small set: coordinates and velocities as lists of integers. *)
Definition zset (t : ptype) (m x y z vx vy vz : list Z) (pot : option (list Z)) (soft : Z)
  : res (pset F64) :=
  mk_pset t (fZs m) (fZs x) (fZs y) (fZs z) (fZs vx) (fZs vy) (fZs vz) (option_map fZs pot) (fZ soft).
Arguments fZ z%Z.
Arguments sZ z%Z.
Arguments sQ (p q)%Z.
