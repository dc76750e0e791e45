(** Physical units of the arguments and of what a galaxy stores (C69, C70). *)
From Verif Require Import Py Num Np Df Data Center Align Potential RX F64 Ex DataFacts Units SpecUnits UnitsFacts.

(** *** C69 *)

(** C69: a galaxy can be built exactly from arguments whose units convert to the documented ones, and
    then building it with units and from the converted plain numbers is the same, errors included. *)
Lemma c69_values : forall (N : Num) (S : system N) (kw : dict (uval N (sy_unit S))),
  (S_good S kw -> mirrors S (S_mkgalaxy S kw) (mkgalaxy (S_numbers S kw)))
  /\ (~ S_good S kw -> exists e, S_mkgalaxy S kw = Raise e).
Proof.
  intros N S kw.
  split.
  - intros G. destruct (galaxy_good _ _ _ _ _ (sy_kpckms S) (sy_id S) kw G) as (A & B).
    unfold mirrors. fold (S_mkgalaxy S kw) in A, B. change (numbers _ _ _ _ _ kw) with (S_numbers S kw) in A.
    destruct (S_mkgalaxy S kw) as [g|e]; [|now rewrite <- A].
    destruct (B g eq_refl) as (v & E). exists v. split; [exact E|]. rewrite <- A. exact E.
  - intros G. destruct (S_mkgalaxy S kw) as [g|e] eqn:E; [|eauto]. exfalso. apply G. exact (galaxy_units _ _ _ _ _ _ kw g E).
Qed.

Lemma mirrors_rebuilt (N : Num) (S : system N) news g v :
  S_values S g = Ok v ->
  mirrors S (u_rebuilt (sy_conv S) (sy_Msun S) (sy_kpc S) (sy_kms S) (sy_kms2 S) (sy_kpckms S) news g)
    (do n <- news v; mkgalaxy (dupdate (galaxy_as_kwargs v) n)).
Proof.
  intros E. pose proof (rebuilt_values _ _ _ _ _ _ (sy_id S) news g v E) as R. unfold mirrors.
  destruct (u_rebuilt _ _ _ _ _ _ news g) as [h|e] eqn:H; cbn [bind] in R; [|now rewrite <- R].
  unfold u_rebuilt in H. apply bind_ok in H as (v' & _ & H). apply bind_ok in H as (n & _ & H).
  destruct (galaxy_good _ _ _ _ _ (sy_kpckms S) (sy_id S) _ (galaxy_units _ _ _ _ _ _ _ _ H)) as (_ & B).
  destruct (B _ H) as (w & W). exists w. split; [exact W|]. rewrite <- R. exact W.
Qed.

Lemma bind_assoc {A B C} (r : res A) (f : A -> res B) (h : B -> res C) :
  (do y <- (do x <- r; f x); h y) = do x <- r; do y <- f x; h y.
Proof. destruct r; reflexivity. Qed.

Ltac bstep := rewrite bind_assoc; match goal with |- bind ?r _ = _ => destruct r; cbn [bind]; [|reflexivity] end.

(** C69: centring does not depend on the units the galaxy is stored in. *)
Lemma c69_center : forall (N : Num) (S : system N) g v,
  S_values S g = Ok v -> mirrors S (S_center S g) (center v).
Proof.
  intros N S g v.
  intros E. pose proof (mirrors_rebuilt N S center_news g v E) as M. unfold S_center, u_center.
  replace (center v) with (do n <- center_news v; mkgalaxy (dupdate (galaxy_as_kwargs v) n)); [exact M|].
  unfold center_news, center. repeat bstep. reflexivity.
Qed.
(** C69: nor does the alignment. *)
Lemma c69_align : forall (N : Num) (S : system N) g v r_cut,
  S_values S g = Ok v -> mirrors S (S_star_align S g r_cut) (star_align v r_cut).
Proof.
  intros N S g v r_cut.
  intros E. pose proof (mirrors_rebuilt N S (align_news r_cut) g v E) as M. unfold S_star_align, u_star_align.
  replace (star_align v r_cut) with (do n <- align_news r_cut v; mkgalaxy (dupdate (galaxy_as_kwargs v) n)); [exact M|].
  unfold align_news, star_align. repeat bstep. reflexivity.
Qed.
(** C69: nor does the potential. *)
Lemma c69_potential : forall (N P : Num) (S : system N) (cast : N -> P) (lift : P -> N) table name g v,
  S_values S g = Ok v -> mirrors S (S_potential S cast lift table name g) (potential cast lift table name v).
Proof.
  intros N P S cast lift table name g v.
  intros E. pose proof (mirrors_rebuilt N S (potential_news cast lift table name) g v E) as M. unfold S_potential, u_potential.
  replace (potential cast lift table name v)
    with (do n <- potential_news cast lift table name v; mkgalaxy (dupdate (galaxy_as_kwargs v) n)); [exact M|].
  unfold potential_news, potential. repeat bstep. reflexivity.
Qed.

(** Stars at rest 3 kpc and 5000 pc from the centre, masses bare, velocities in m/s, potential in (m/s)^2. *)
Definition kwU : dict (uval F64 (nat * Z)) :=
  [("m_s"%string, UArr (fZs [2; 1]%Z)); ("x_s"%string, UArr (fZs [3; 5]%Z)); ("y_s"%string, UQty (Qty (fZs [0; 5000]%Z) (1, 1%Z)));
   ("z_s"%string, UArr (fZs [0; 0]%Z)); ("vx_s"%string, UQty (Qty (fZs [2000; 0]%Z) (2, 1%Z))); ("vy_s"%string, UArr (fZs [1; 0]%Z));
   ("vz_s"%string, UArr (fZs [0; 0]%Z));
   ("m_dm"%string, UArr []); ("x_dm"%string, UArr []); ("y_dm"%string, UArr []); ("z_dm"%string, UArr []);
   ("vx_dm"%string, UArr []); ("vy_dm"%string, UArr []); ("vz_dm"%string, UArr []);
   ("m_g"%string, UArr (fZs [1]%Z)); ("x_g"%string, UQty (Qty (fZs [1000]%Z) (1, 1%Z))); ("y_g"%string, UArr (fZs [1]%Z));
   ("z_g"%string, UArr (fZs [1]%Z));
   ("vx_g"%string, UArr (fZs [0]%Z)); ("vy_g"%string, UArr (fZs [0]%Z)); ("vz_g"%string, UArr (fZs [0]%Z));
   ("potential_s"%string, UQty (Qty (fZs [-9000000; -1000000]%Z) (3, 1%Z))); ("potential_dm"%string, UArr []);
   ("potential_g"%string, UArr (fZs [-2]%Z))].
Definition gU : res (ugalaxy F64 (nat * Z)) := S_mkgalaxy (toy F64) kwU.
Definition uviews (r : res (ugalaxy F64 (nat * Z))) :=
  match r with
  | Ok g => match S_values (toy F64) g with
            | Ok v => Some (shows (p_y (g_stars v)), shows (p_vx (g_stars v)), option_map shows (p_te (g_stars v)), shows (p_x (g_gas v)))
            | Raise _ => None end
  | Raise _ => None
  end.

(** The galaxy reads in kpc, km/s and (km/s)^2, and centring it moves the origin to the first star. *)
Example ex_c69 :
  uviews gU = Some (map sZ [0; 5]%Z, map sZ [2; 0]%Z, Some [sQ (-13) 2; sZ (-1)], map sZ [1]%Z)
  /\ uviews (do g <- gU; S_center (toy F64) g) = Some (map sZ [0; 5]%Z, map sZ [2; 0]%Z, Some [sQ (-13) 2; sZ (-1)], map sZ [-2]%Z)
  /\ exn_of (S_mkgalaxy (toy F64) (dset kwU "y_s" (UQty (Qty (fZs [0; 5]%Z) (2, 1%Z))))) = Some ValueError.
Proof. repeat split; vm_compute; reflexivity. Qed.

(** *** C70 *)

(** C70: what is given with a unit is stored with that unit, what is given without gets the documented one. *)
Lemma c70_stored : forall (N : Num) (S : system N) kw g,
  S_mkgalaxy S kw = Ok g ->
  forall k c, doc_unit (sy_Msun S) (sy_kpc S) (sy_kms S) (sy_kms2 S) k = Some c ->
  dget (stored g) k = stored_as c (dget kw k).
Proof.
  intros N S kw g.
  intros H k c D. pose proof (galaxy_inv _ _ _ _ _ _ _ _ H) as (Hs & Hd & Hg & _).
  apply set_args in Hs as (Em & (Ex & Ey & Ez) & (Evx & Evy & Evz) & Ep & _).
  apply set_args in Hd as (Fm & (Fx & Fy & Fz) & (Fvx & Fvy & Fvz) & Fp & _).
  apply set_args in Hg as (Gm & (Gx & Gy & Gz) & (Gvx & Gvy & Gvz) & Gp & _).
  assert (A : forall k c q, u_array kw k c = Ok q -> Some (Some q) = stored_as c (dget kw k)).
  { clear. intros k c q. unfold u_array, stored_as. destruct (dget kw k) as [[]|]; intros [= <-]; reflexivity. }
  assert (P : forall k q, u_kwpot (sy_kms2 S) kw k = Ok q -> Some q = stored_as (sy_kms2 S) (dget kw k)).
  { clear. intros k q. unfold u_kwpot, stored_as. destruct (dget kw k) as [[]|]; intros [= <-]; reflexivity. }
  unfold doc_unit in D.
  destruct (smem k ["m_s"; "m_dm"; "m_g"]%string) eqn:K1.
  { injection D as <-. apply smem_In in K1. cbn [In] in K1. destruct K1 as [<-|[<-|[<-|[]]]]; apply A; assumption. }
  destruct (smem k ["x_s"; _; _; _; _; _; _; _; _]%string) eqn:K2.
  { injection D as <-. apply smem_In in K2. cbn [In] in K2.
    destruct K2 as [<-|[<-|[<-|[<-|[<-|[<-|[<-|[<-|[<-|[]]]]]]]]]]; apply A; assumption. }
  destruct (smem k ["vx_s"; _; _; _; _; _; _; _; _]%string) eqn:K3.
  { injection D as <-. apply smem_In in K3. cbn [In] in K3.
    destruct K3 as [<-|[<-|[<-|[<-|[<-|[<-|[<-|[<-|[<-|[]]]]]]]]]]; apply A; assumption. }
  destruct (smem k ["potential_s"; "potential_dm"; "potential_g"]%string) eqn:K4; [|discriminate].
  injection D as <-. apply smem_In in K4. cbn [In] in K4. destruct K4 as [<-|[<-|[<-|[]]]]; apply P; assumption.
Qed.

(** C70: the derived attributes are in the default units, whatever the arguments are in. *)
Lemma c70_derived : forall (N : Num) (S : system N) kw g,
  S_mkgalaxy S kw = Ok g -> every (derived_in (sy_kms2 S) (sy_kpckms S)) g.
Proof.
  intros N S kw g.
  intros H. pose proof (galaxy_inv _ _ _ _ _ _ _ _ H) as (Hs & Hd & Hg & _).
  assert (A : forall t sfx p, u_mk_pset_kw (sy_conv S) (sy_Msun S) (sy_kpc S) (sy_kms S) (sy_kms2 S) (sy_kpckms S) kw t sfx = Ok p ->
     derived_in (sy_kms2 S) (sy_kpckms S) p).
  { clear. intros t sfx p H. apply set_args in H as (_ & _ & _ & _ & _ & _ & H).
    revert H. generalize (us_m p) (us_x p) (us_y p) (us_z p) (us_vx p) (us_vy p) (us_vz p) (us_pot p) (us_soft p).
    intros m x y z vx vy vz pot so H. unfold u_mk_pset in H.
    do 3 (apply bind_ok in H as (? & _ & H)). apply bind_ok in H as (ke & Hke & H). apply bind_ok in H as (te & Hte & H).
    repeat (apply bind_ok in H as (? & _ & H)). injection H as <-. unfold derived_in. cbn [us_ke us_te us_pot us_Jx us_Jy us_Jz q_unit].
    destruct pot as [q|].
    - apply bind_ok in Hte as (? & _ & Hte). apply bind_ok in Hte as (? & _ & Hte). cbn [total_default] in Hte.
      apply bind_ok in Hte as (? & _ & Hte). injection Hte as <-. cbn. auto.
    - injection Hte as <-. cbn. auto. }
  unfold every. split; [|split]; eapply A; eassumption.
Qed.

Lemma good_values (N : Num) (S : system N) kw g :
  S_mkgalaxy S kw = Ok g -> exists v, mkgalaxy (S_numbers S kw) = Ok v /\ S_values S g = Ok v.
Proof.
  intros H. destruct (c69_values N S kw) as [A B]. destruct (Classical_Prop.classic (S_good S kw)) as [G|G].
  - specialize (A G). rewrite H in A. destruct A as (w & E & F). exists w. split; assumption.
  - destruct (B G) as (e & E). congruence.
Qed.
Lemma read_own (N : Num) (S : system N) u q l : q_unit q = u -> arr (sy_conv S) u q = Ok l -> q = Qty l u.
Proof. destruct q as [v w]. cbn [q_unit]. intros ->. unfold arr. cbn [q_unit q_val]. rewrite sy_id, map_id. intros [= <-]. reflexivity. Qed.
Lemma derived_read (N : Num) (S : system N) p w :
  derived_in (sy_kms2 S) (sy_kpckms S) p ->
  u_values (sy_conv S) (sy_Msun S) (sy_kpc S) (sy_kms S) (sy_kms2 S) (sy_kpckms S) p = Ok w ->
  us_ke p = Qty (p_ke w) (sy_kms2 S)
  /\ us_te p = option_map (fun l => Qty l (sy_kms2 S)) (p_te w)
  /\ us_Jx p = Qty (p_Jx w) (sy_kpckms S) /\ us_Jy p = Qty (p_Jy w) (sy_kpckms S) /\ us_Jz p = Qty (p_Jz w) (sy_kpckms S).
Proof.
  intros (A & B & C & D & E) H. unfold u_values in H.
  repeat (apply bind_ok in H as (? & ? & H)). injection H as <-. cbn [p_ke p_te p_Jx p_Jy p_Jz].
  repeat match goal with K : arr _ _ (us_ke p) = _ |- _ => apply read_own in K; [|exact A] end.
  split; [assumption|]. split.
  - destruct (us_te p) as [q|]; cbn [option_map].
    + match goal with K : bind (arr _ _ q) _ = _ |- _ => apply bind_ok in K as (l & K & K'); injection K' as <- end.
      cbn [option_map]. f_equal. eapply read_own; [|eassumption]. exact B.
    + match goal with K : Ok None = Ok _ |- _ => injection K as <- end. reflexivity.
  - repeat split; eapply read_own; eassumption.
Qed.

(** C70: the energies and angular momenta of the galaxy are those of stars, dark matter and gas, in
    this order, of the galaxy made from the converted numbers, in (km/s)^2 and kpc km/s. *)
Lemma c70_kinetic_energy : forall (N : Num) (S : system N) kw g,
  S_mkgalaxy S kw = Ok g ->
  exists v, mkgalaxy (S_numbers S kw) = Ok v
  /\ u_kinetic_energy_ g = [Qty (p_ke (g_stars v)) (sy_kms2 S); Qty (p_ke (g_dm v)) (sy_kms2 S); Qty (p_ke (g_gas v)) (sy_kms2 S)]
  /\ (g_haspot v = false -> u_total_energy_ g = None)
  /\ (forall s d q, p_te (g_stars v) = Some s -> p_te (g_dm v) = Some d -> p_te (g_gas v) = Some q ->
       g_haspot v = true ->
       u_total_energy_ g = Some [Some (Qty s (sy_kms2 S)); Some (Qty d (sy_kms2 S)); Some (Qty q (sy_kms2 S))])
  /\ u_angular_momentum_ g
     = [[Qty (p_Jx (g_stars v)) (sy_kpckms S); Qty (p_Jy (g_stars v)) (sy_kpckms S); Qty (p_Jz (g_stars v)) (sy_kpckms S)];
        [Qty (p_Jx (g_dm v)) (sy_kpckms S); Qty (p_Jy (g_dm v)) (sy_kpckms S); Qty (p_Jz (g_dm v)) (sy_kpckms S)];
        [Qty (p_Jx (g_gas v)) (sy_kpckms S); Qty (p_Jy (g_gas v)) (sy_kpckms S); Qty (p_Jz (g_gas v)) (sy_kpckms S)]].
Proof.
  intros N S kw g H. destruct (c70_derived N S kw g H) as (A & B & C).
  destruct (good_values N S kw g H) as (v & Ev & Sv). exists v. split; [exact Ev|].
  unfold S_values, ug_values in Sv.
  apply bind_ok in Sv as (s & Es & Sv). apply bind_ok in Sv as (d & Ed & Sv). apply bind_ok in Sv as (q & Eq & Sv).
  injection Sv as <-. cbn [g_stars g_dm g_gas g_haspot].
  destruct (derived_read N S _ _ A Es) as (K1 & T1 & X1 & Y1 & Z1).
  destruct (derived_read N S _ _ B Ed) as (K2 & T2 & X2 & Y2 & Z2).
  destruct (derived_read N S _ _ C Eq) as (K3 & T3 & X3 & Y3 & Z3).
  unfold u_kinetic_energy_, u_total_energy_, u_angular_momentum_. cbn [map].
  rewrite K1, K2, K3, T1, T2, T3, X1, X2, X3, Y1, Y2, Y3, Z1, Z2, Z3.
  split; [reflexivity|]. split; [intros ->; reflexivity|]. split; [|reflexivity].
  intros a b c -> -> -> ->. reflexivity.
Qed.

(** C70: taking a galaxy apart and building it again gives the same galaxy, units included. *)
Lemma c70_round_trip : forall (N : Num) (S : system N) kw g,
  S_mkgalaxy S kw = Ok g -> S_mkgalaxy S (u_as_kwargs g) = Ok g.
Proof.
  intros N S kw g.
apply u_mkgalaxy_kwargs. Qed.

Ltac args H :=
  apply galaxy_inv in H as (Hs & Hd & Hg & _);
  apply set_args in Hs as (Em & (Ex & Ey & Ez) & (Evx & Evy & Evz) & Ep & Eo & _);
  apply set_args in Hd as (Fm & (Fx & Fy & Fz) & (Fvx & Fvy & Fvz) & Fp & Fo & _);
  apply set_args in Hg as (Gm & (Gx & Gy & Gz) & (Gvx & Gvy & Gvz) & Gp & Go & _).

Ltac known E := match type of E with ?l = ?r => let l' := eval hnf in l in change (l' = r) in E end; injection E as E.
Ltac known_all := repeat match goal with
  | E : u_array _ _ _ = Ok _ |- _ => known E
  | E : u_soft _ _ = Ok _ |- _ => known E
  end.
Lemma kwpot_kept {N : Num} {unit} (c : unit) (kw : dict (uval N unit)) k (p : uset N unit) q :
  dget kw k = Some (match us_pot p with Some q => UQty q | None => UNone end) -> u_kwpot c kw k = Ok q -> us_pot p = q.
Proof. unfold u_kwpot. intros ->. destruct (us_pot p); intros [= <-]; reflexivity. Qed.

(** C70: centring leaves everything but the positions as stored; the new positions are in kpc. *)
Lemma c70_center : forall (N : Num) (S : system N) g h,
  S_center S g = Ok h ->
  each same_mass g h /\ each same_motion g h /\ each same_potential g h /\ each same_soft g h
  /\ every (place_in (sy_kpc S)) h.
Proof.
  intros N S g h.
  unfold S_center, u_center, u_rebuilt. intros H. apply bind_ok in H as (v & _ & H). apply bind_ok in H as (n & E & H).
  unfold center_news in E. repeat (apply bind_ok in E as (? & _ & E)). injection E as <-. args H.
  apply kwpot_kept with (p := ug_stars g) in Ep; [|reflexivity].
  apply kwpot_kept with (p := ug_dm g) in Fp; [|reflexivity].
  apply kwpot_kept with (p := ug_gas g) in Gp; [|reflexivity].
  known_all. unfold each, every, same_mass, same_motion, same_potential, same_soft, place_in.
  rewrite <- Ex, <- Ey, <- Ez, <- Fx, <- Fy, <- Fz, <- Gx, <- Gy, <- Gz. cbn [q_unit]. auto 20.
Qed.
(** C70: aligning leaves the masses and potentials as stored; positions are in kpc and velocities in km/s. *)
Lemma c70_align : forall (N : Num) (S : system N) g h r_cut,
  S_star_align S g r_cut = Ok h ->
  each same_mass g h /\ each same_potential g h /\ each same_soft g h
  /\ every (place_in (sy_kpc S)) h /\ every (motion_in (sy_kms S)) h.
Proof.
  intros N S g h r_cut.
  unfold S_star_align, u_star_align, u_rebuilt. intros H. apply bind_ok in H as (v & _ & H). apply bind_ok in H as (n & E & H).
  unfold align_news in E. do 11 (apply bind_ok in E as (? & _ & E)). cbv zeta in E.
  apply bind_ok in E as (us & Us & E). apply bind_ok in E as (ud & Ud & E). apply bind_ok in E as (ug & Ug & E). injection E as <-.
  unfold rotated in Us, Ud, Ug.
  do 6 (apply bind_ok in Us as (? & _ & Us)). do 6 (apply bind_ok in Ud as (? & _ & Ud)). do 6 (apply bind_ok in Ug as (? & _ & Ug)).
  injection Us as <-. injection Ud as <-. injection Ug as <-. args H.
  apply kwpot_kept with (p := ug_stars g) in Ep; [|reflexivity].
  apply kwpot_kept with (p := ug_dm g) in Fp; [|reflexivity].
  apply kwpot_kept with (p := ug_gas g) in Gp; [|reflexivity].
  known_all. unfold each, every, same_mass, same_potential, same_soft, place_in, motion_in.
  rewrite <- Ex, <- Ey, <- Ez, <- Fx, <- Fy, <- Fz, <- Gx, <- Gy, <- Gz.
  rewrite <- Evx, <- Evy, <- Evz, <- Fvx, <- Fvy, <- Fvz, <- Gvx, <- Gvy, <- Gvz. cbn [q_unit]. auto 20.
Qed.
(** C70: computing the potential leaves the matter as stored; the potential is in (km/s)^2. *)
Lemma c70_potential : forall (N P : Num) (S : system N) (cast : N -> P) (lift : P -> N) table name g h,
  S_potential S cast lift table name g = Ok h ->
  each same_mass g h /\ each same_place g h /\ each same_motion g h /\ each same_soft g h
  /\ every (potential_in (sy_kms2 S)) h.
Proof.
  intros N P S cast lift table name g h.
  unfold S_potential, u_potential, u_rebuilt. intros H. apply bind_ok in H as (v & _ & H). apply bind_ok in H as (n & E & H).
  unfold potential_news in E. do 8 (apply bind_ok in E as (? & _ & E)). cbv zeta in E. apply bind_ok in E as (pot & _ & E). injection E as <-.
  args H. known Ep. known Fp. known Gp. known_all.
  unfold each, every, same_mass, same_place, same_motion, same_soft, potential_in.
  rewrite <- Ep, <- Fp, <- Gp. cbn [q_unit]. auto 20.
Qed.

(** The galaxy above keeps its (m/s)^2 and m/s when it is centred; its y positions are then in kpc. *)
Example ex_c70 :
  match gU with
  | Ok g => match S_center (toy F64) g with
            | Ok h => (q_unit (us_y (ug_stars g)), q_unit (us_y (ug_stars h)), q_unit (us_vx (ug_stars h)),
                       option_map q_unit (us_pot (ug_stars h)))
                      = ((1, 1%Z), (1, 1000%Z), (2, 1%Z), Some (3, 1%Z))
            | Raise _ => False
            end
  | Raise _ => False
  end.
Proof. vm_compute. reflexivity. Qed.

(** C70: not vacuous. The kinetic and total energies of the same galaxy, in (km/s)^2. *)
Example ex_c70_energies :
  match gU with
  | Ok g => (map (fun q => (shows (q_val q), q_unit q)) (u_kinetic_energy_ g),
             option_map (map (option_map (fun q => (shows (q_val q), q_unit q)))) (u_total_energy_ g))
            = ([([sQ 5 2; sZ 0]%Z, (3, 1000000%Z)); ([], (3, 1000000%Z)); ([sZ 0]%Z, (3, 1000000%Z))],
               Some [Some ([sQ (-13) 2; sZ (-1)]%Z, (3, 1000000%Z)); Some ([], (3, 1000000%Z)); Some ([sZ (-2)]%Z, (3, 1000000%Z))])
  | Raise _ => False
  end.
Proof. vm_compute. reflexivity. Qed.

(** C70: the documentation of [potential_energy_] says (km/s)^2; it is in the unit the potential was
    given in. *)
Lemma c70_potential_energy_refuted : exists (kw : dict (uval F64 (nat * Z))) g q l,
  S_mkgalaxy (toy F64) kw = Ok g /\ u_potential_energy_ g = Some (Some q :: l) /\ q_unit q <> sy_kms2 (toy F64).
Proof.
  destruct (is_ok_ex gU) as (g & E); [vm_compute; reflexivity|].
  assert (M : match gU with Ok g => match u_potential_energy_ g with
     | Some (Some q :: _) => q_unit q = (3, 1%Z) | _ => False end | Raise _ => False end) by (vm_compute; reflexivity).
  rewrite E in M. destruct (u_potential_energy_ g) as [[|[q|] l]|] eqn:U; try contradiction.
  exists kwU, g, q, l. split; [exact E|]. split; [exact U|].
  intros Q. assert (C : (3, 1%Z) = (3, 1000000%Z)) by (transitivity (q_unit q); [symmetry; exact M|exact Q]). discriminate C.
Qed.

(** C70: the documentation lists [softening] as a Quantity in kpc; given as one it is refused, although
    the number alone is taken. *)
Lemma c70_softening_refuted : exists (kw : dict (uval F64 (nat * Z))) x,
  S_mkgalaxy (toy F64) (dset kw "softening_s" (UNumQ x (sy_kpc (toy F64)))) = Raise TypeError
  /\ exists g, S_mkgalaxy (toy F64) (dset kw "softening_s" (UNum x)) = Ok g.
Proof.
  exists kwU, (fZ 1). split.
  - apply exn_of_raise. vm_compute. reflexivity.
  - apply is_ok_ex. vm_compute. reflexivity.
Qed.
