(** Specification of physical units: arguments in any unit are the same galaxy as their values in the
    default units. *)
From Verif Require Import Py Num Np Df Data Center Align Potential Units.

Section SpecUnits.
Context {N : Num} {unit : Type} (conv : unit -> unit -> option (N -> N)) (Msun kpc kms kms2 kpckms : unit).

(** The unit in which an argument of [mkgalaxy] is documented. *)
Definition doc_unit (k : string) : option unit :=
  if smem k ["m_s"; "m_dm"; "m_g"]%string then Some Msun
  else if smem k ["x_s"; "y_s"; "z_s"; "x_dm"; "y_dm"; "z_dm"; "x_g"; "y_g"; "z_g"]%string then Some kpc
  else if smem k ["vx_s"; "vy_s"; "vz_s"; "vx_dm"; "vy_dm"; "vz_dm"; "vx_g"; "vy_g"; "vz_g"]%string then Some kms
  else if smem k ["potential_s"; "potential_dm"; "potential_g"]%string then Some kms2
  else None.

(** Arguments with a unit have one that converts to the documented one. *)
Definition good_units (kw : dict (uval N unit)) : Prop :=
  forall k v, dget kw k = Some v ->
  match v with
  | UQty q => exists c f, doc_unit k = Some c /\ conv (q_unit q) c = Some f
  | UNumQ _ _ => False
  | _ => True
  end.

(** The number(s) behind an argument, in the documented unit. *)
Definition number_of (k : string) (v : uval N unit) : kwval N :=
  match v with
  | UArr l => KArr l
  | UNum x | UNumQ x _ => KNum x
  | UNone => KNone
  | UQty q =>
      KArr (match doc_unit k with
            | Some c => match conv (q_unit q) c with Some f => map f (q_val q) | None => q_val q end
            | None => q_val q
            end)
  end.
Definition numbers (kw : dict (uval N unit)) : dict (kwval N) :=
  map (fun kv => (fst kv, number_of (fst kv) (snd kv))) kw.

(** What two sets store alike, units included. *)
Definition same_mass (p q : uset N unit) : Prop := us_m p = us_m q.
Definition same_place (p q : uset N unit) : Prop := us_x p = us_x q /\ us_y p = us_y q /\ us_z p = us_z q.
Definition same_motion (p q : uset N unit) : Prop := us_vx p = us_vx q /\ us_vy p = us_vy q /\ us_vz p = us_vz q.
Definition same_potential (p q : uset N unit) : Prop := us_pot p = us_pot q.
Definition same_soft (p q : uset N unit) : Prop := us_soft p = us_soft q.
Definition each (P : uset N unit -> uset N unit -> Prop) (g h : ugalaxy N unit) : Prop :=
  P (ug_stars g) (ug_stars h) /\ P (ug_dm g) (ug_dm h) /\ P (ug_gas g) (ug_gas h).
Definition every (P : uset N unit -> Prop) (g : ugalaxy N unit) : Prop :=
  P (ug_stars g) /\ P (ug_dm g) /\ P (ug_gas g).
Definition place_in (c : unit) (p : uset N unit) : Prop :=
  q_unit (us_x p) = c /\ q_unit (us_y p) = c /\ q_unit (us_z p) = c.
Definition motion_in (c : unit) (p : uset N unit) : Prop :=
  q_unit (us_vx p) = c /\ q_unit (us_vy p) = c /\ q_unit (us_vz p) = c.
Definition potential_in (c : unit) (p : uset N unit) : Prop :=
  match us_pot p with Some q => q_unit q = c | None => False end.
End SpecUnits.

(** A system of units: conversions, of which those to the same unit do nothing, and the default units. *)
Record system (N : Num) : Type := System {
  sy_unit : Type;
  sy_conv : sy_unit -> sy_unit -> option (N -> N);
  sy_Msun : sy_unit; sy_kpc : sy_unit; sy_kms : sy_unit; sy_kms2 : sy_unit; sy_kpckms : sy_unit;
  sy_id : forall u, sy_conv u u = Some (fun x => x) }.
Arguments sy_unit {N}. Arguments sy_conv {N}. Arguments sy_Msun {N}. Arguments sy_kpc {N}. Arguments sy_kms {N}.
Arguments sy_kms2 {N}. Arguments sy_kpckms {N}. Arguments sy_id {N}.

(** The functions of the model, and the notions above, in a given system of units. *)
Section InSystem.
Context {N : Num} (S : system N).
Definition S_mkgalaxy (kw : dict (uval N (sy_unit S))) : res (ugalaxy N (sy_unit S)) :=
  u_mkgalaxy (sy_conv S) (sy_Msun S) (sy_kpc S) (sy_kms S) (sy_kms2 S) (sy_kpckms S) kw.
Definition S_values (g : ugalaxy N (sy_unit S)) : res (galaxy N) :=
  ug_values (sy_conv S) (sy_Msun S) (sy_kpc S) (sy_kms S) (sy_kms2 S) (sy_kpckms S) g.
Definition S_center (g : ugalaxy N (sy_unit S)) : res (ugalaxy N (sy_unit S)) :=
  u_center (sy_conv S) (sy_Msun S) (sy_kpc S) (sy_kms S) (sy_kms2 S) (sy_kpckms S) g.
Definition S_star_align (g : ugalaxy N (sy_unit S)) (r_cut : option N) : res (ugalaxy N (sy_unit S)) :=
  u_star_align (sy_conv S) (sy_Msun S) (sy_kpc S) (sy_kms S) (sy_kms2 S) (sy_kpckms S) g r_cut.
Definition S_potential {P : Num} (cast : N -> P) (lift : P -> N) table name (g : ugalaxy N (sy_unit S)) : res (ugalaxy N (sy_unit S)) :=
  u_potential (sy_conv S) (sy_Msun S) (sy_kpc S) (sy_kms S) (sy_kms2 S) (sy_kpckms S) cast lift table name g.
Definition S_good (kw : dict (uval N (sy_unit S))) : Prop :=
  good_units (sy_conv S) (sy_Msun S) (sy_kpc S) (sy_kms S) (sy_kms2 S) kw.
Definition S_numbers (kw : dict (uval N (sy_unit S))) : dict (kwval N) :=
  numbers (sy_conv S) (sy_Msun S) (sy_kpc S) (sy_kms S) (sy_kms2 S) kw.
(** The same outcome, once with units and once in plain numbers of the default units. *)
Definition mirrors (r : res (ugalaxy N (sy_unit S))) (s : res (galaxy N)) : Prop :=
  match r with Ok h => exists w, S_values h = Ok w /\ s = Ok w | Raise e => s = Raise e end.
End InSystem.

(** A small system for the examples: a unit is a kind of quantity and a size. *)
Definition toy_conv (N : Num) (a b : nat * Z) : option (N -> N) :=
  if Nat.eqb (fst a) (fst b)
  then if Z.eqb (snd a) (snd b) then Some (fun x => x) else Some (fun x => (x * nofZ (snd a) / nofZ (snd b))%num)
  else None.
Lemma toy_id (N : Num) u : toy_conv N u u = Some (fun x => x).
Proof. unfold toy_conv. now rewrite Nat.eqb_refl, Z.eqb_refl. Qed.
Definition toy (N : Num) : system N :=
  System N (nat * Z) (toy_conv N) (0, 1%Z) (1, 1000%Z) (2, 1000%Z) (3, 1000000%Z) (4, 1000000%Z) (toy_id N).

(** The stored quantity behind each argument with a unit. *)
Definition stored_set {N : Num} {unit : Type} (p : uset N unit) (sfx : string) : dict (option (qty N unit)) :=
  [(("m_" ++ sfx)%string, Some (us_m p)); (("x_" ++ sfx)%string, Some (us_x p)); (("y_" ++ sfx)%string, Some (us_y p));
   (("z_" ++ sfx)%string, Some (us_z p)); (("vx_" ++ sfx)%string, Some (us_vx p)); (("vy_" ++ sfx)%string, Some (us_vy p));
   (("vz_" ++ sfx)%string, Some (us_vz p)); (("potential_" ++ sfx)%string, us_pot p)].
Definition stored {N : Num} {unit : Type} (g : ugalaxy N unit) : dict (option (qty N unit)) :=
  stored_set (ug_stars g) "s" ++ stored_set (ug_dm g) "dm" ++ stored_set (ug_gas g) "g".
(** What a documented argument should be stored as. *)
Definition stored_as {N : Num} {unit : Type} (c : unit) (v : option (uval N unit)) : option (option (qty N unit)) :=
  match v with
  | Some (UArr l) => Some (Some (Qty l c))
  | Some (UQty q) => Some (Some q)
  | Some UNone | None => Some None
  | Some _ => None
  end.
(** The derived attributes are in the default units. *)
Definition derived_in {N : Num} {unit : Type} (e j : unit) (p : uset N unit) : Prop :=
  q_unit (us_ke p) = e /\ match us_te p with Some q => q_unit q = e | None => us_pot p = None end
  /\ q_unit (us_Jx p) = j /\ q_unit (us_Jy p) = j /\ q_unit (us_Jz p) = j.
