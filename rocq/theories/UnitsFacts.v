(** Facts on units: conversion of the arguments commutes with construction. *)
From Verif Require Import Py Num Np Df Data DataFacts Center Align Potential Units SpecUnits.

Section Facts.
Context {N : Num} {unit : Type} (conv : unit -> unit -> option (N -> N)) (Msun kpc kms kms2 kpckms : unit).
Context (conv_id : forall u, conv u u = Some (fun x => x)).

Notation arr := (arr conv).
Notation fits := (fits conv).
Notation u_mk_pset := (u_mk_pset conv Msun kpc kms kms2 kpckms).
Notation u_mk_pset_kw := (u_mk_pset_kw conv Msun kpc kms kms2 kpckms).
Notation u_mkgalaxy := (u_mkgalaxy conv Msun kpc kms kms2 kpckms).
Notation u_values := (u_values conv Msun kpc kms kms2 kpckms).
Notation ug_values := (ug_values conv Msun kpc kms kms2 kpckms).
Notation doc_unit := (doc_unit Msun kpc kms kms2).
Notation good_units := (good_units conv Msun kpc kms kms2).
Notation number_of := (number_of conv Msun kpc kms kms2).
Notation numbers := (numbers conv Msun kpc kms kms2).

Definition co (c : unit) (q : qty N unit) : list N :=
  match conv (q_unit q) c with Some f => map f (q_val q) | None => q_val q end.

Lemma arr_fits c q : fits c q = true -> arr c q = Ok (co c q).
Proof. unfold Units.fits, Units.arr, co. destruct (conv (q_unit q) c); [auto|discriminate]. Qed.
Lemma arr_ok c q l : arr c q = Ok l -> fits c q = true /\ l = co c q.
Proof. unfold Units.fits, Units.arr, co. destruct (conv (q_unit q) c); [|discriminate]. now intros [= <-]. Qed.
Lemma arr_own c l : arr c (Qty l c) = Ok l.
Proof. unfold Units.arr. cbn. now rewrite conv_id, map_id. Qed.
Lemma co_length c q : length (co c q) = length (q_val q).
Proof. unfold co. destruct (conv _ _); [apply map_length|auto]. Qed.

Definition pot_fits (p : option (qty N unit)) : bool := match p with Some q => fits kms2 q | None => true end.
Definition all_fit (m x y z vx vy vz : qty N unit) (pot : option (qty N unit)) : bool :=
  fits Msun m && fits kpc x && fits kpc y && fits kpc z && fits kms vx && fits kms vy && fits kms vz && pot_fits pot.

(** The stored set that belongs to a set in default units. *)
Definition dress (m x y z vx vy vz : qty N unit) (pot : option (qty N unit)) (v : pset N) : uset N unit :=
  mkUset (p_type v) m x y z vx vy vz pot (p_soft v) (p_haspot v) (Qty (p_ke v) kms2)
    (option_map (fun l => Qty l kms2) (p_te v)) (Qty (p_Jx v) kpckms) (Qty (p_Jy v) kpckms) (Qty (p_Jz v) kpckms).

Lemma u_mk_pset_fit t m x y z vx vy vz pot soft : all_fit m x y z vx vy vz pot = true ->
  u_mk_pset t m x y z vx vy vz pot soft =
  do v <- mk_pset t (co Msun m) (co kpc x) (co kpc y) (co kpc z) (co kms vx) (co kms vy) (co kms vz)
            (option_map (co kms2) pot) soft;
  Ok (dress m x y z vx vy vz pot v).
Proof.
  intros H. pose proof H as H0. unfold all_fit in H. rewrite !andb_true_iff in H.
  destruct H as (((((((Hm & Hx) & Hy) & Hz) & Hvx) & Hvy) & Hvz) & Hp).
  unfold Units.u_mk_pset, mk_pset.
  rewrite !arr_fits by auto. cbn [bind].
  destruct (kinetic_default _ _ _) as [ke|] eqn:Eke; cbn [bind]; [|reflexivity].
  rewrite arr_own. cbn [bind].
  assert (Ete : match pot with
          | Some p => do ap <- arr kms2 p; total_default ke (Some ap)
          | None => Ok None
          end = total_default ke (option_map (co kms2) pot)).
  { destruct pot as [p|]; [|reflexivity]. cbn in Hp. rewrite arr_fits by auto. reflexivity. }
  rewrite Ete. destruct (total_default ke _) as [te|]; cbn [bind]; [|reflexivity].
  destruct (cross_default (co kpc y) _ _ _) as [jx|]; cbn [bind]; [|reflexivity].
  destruct (cross_default (co kpc z) _ _ _) as [jy|]; cbn [bind]; [|reflexivity].
  destruct (cross_default (co kpc x) _ _ _) as [jz|]; cbn [bind]; [|reflexivity].
  change (match pot with Some p => fits kms2 p | None => true end) with (pot_fits pot).
  unfold all_fit in H0. rewrite H0. cbn [guard bind].
  assert (EL : same_lengths (co Msun m) (co kpc x) (co kpc y) (co kpc z) (co kms vx) (co kms vy) (co kms vz)
                 (option_map (co kms2) pot)
             = same_lengths (q_val m) (q_val x) (q_val y) (q_val z) (q_val vx) (q_val vy) (q_val vz) (option_map q_val pot)).
  { unfold same_lengths. cbn [forallb]. rewrite !co_length. destruct pot; cbn; rewrite ?co_length; reflexivity. }
  rewrite EL. clear EL.
  destruct (same_lengths (q_val m) _ _ _ _ _ _ _); cbn [guard bind]; [|reflexivity].
  unfold dress. cbn. destruct pot; reflexivity.
Qed.

Lemma u_mk_pset_ok t m x y z vx vy vz pot soft p :
  u_mk_pset t m x y z vx vy vz pot soft = Ok p -> all_fit m x y z vx vy vz pot = true.
Proof.
  unfold Units.u_mk_pset. intros H.
  repeat (apply bind_ok in H as (? & ?E & H)).
  match goal with E : guard (_ && match pot with _ => _ end) _ = _ |- _ => rename E into G end.
  unfold all_fit, pot_fits. destruct (_ && match pot with _ => _ end); [reflexivity|discriminate G].
Qed.

Lemma u_values_dress t m x y z vx vy vz pot soft v : all_fit m x y z vx vy vz pot = true ->
  mk_pset t (co Msun m) (co kpc x) (co kpc y) (co kpc z) (co kms vx) (co kms vy) (co kms vz)
            (option_map (co kms2) pot) soft = Ok v ->
  u_values (dress m x y z vx vy vz pot v) = Ok v.
Proof.
  intros H E. unfold all_fit in H. rewrite !andb_true_iff in H.
  destruct H as (((((((Hm & Hx) & Hy) & Hz) & Hvx) & Hvy) & Hvz) & Hp).
  unfold mk_pset in E. repeat (apply bind_ok in E as (? & ? & E)). injection E as <-.
  unfold Units.u_values, dress. cbn [us_type us_m us_x us_y us_z us_vx us_vy us_vz us_pot us_soft us_haspot us_ke us_te us_Jx us_Jy us_Jz].
  rewrite !arr_fits by auto. cbn [bind p_ke p_Jx p_Jy p_Jz p_te p_type p_soft p_haspot]. rewrite !arr_own. cbn [bind].
  destruct pot as [q|]; cbn [option_map bind].
  - cbn in Hp. rewrite arr_fits by auto. cbn [bind].
    destruct x1 as [te|]; cbn [option_map bind]; rewrite ?arr_own; reflexivity.
  - destruct x1 as [te|]; cbn [option_map bind]; rewrite ?arr_own; reflexivity.
Qed.

(** *** Whole galaxies *)

Lemma dget_numbers kw k : dget (numbers kw) k = option_map (number_of k) (dget kw k).
Proof.
  unfold SpecUnits.numbers. induction kw as [|[k' v] kw IH]; cbn; [reflexivity|].
  destruct (String.eqb_spec k k') as [-> |]; auto.
Qed.
Lemma dkeys_numbers kw : dkeys (numbers kw) = dkeys kw.
Proof. unfold SpecUnits.numbers, dkeys. rewrite map_map. reflexivity. Qed.
Lemma dset_numbers kw k v : numbers (dset kw k v) = dset (numbers kw) k (number_of k v).
Proof.
  induction kw as [|[k' w] kw IH]; cbn; [reflexivity|].
  destruct (String.eqb_spec k k') as [-> |]; cbn; [reflexivity|]. now f_equal.
Qed.
Lemma dupdate_numbers e kw : numbers (dupdate kw e) = dupdate (numbers kw) (numbers e).
Proof.
  unfold dupdate. revert kw; induction e as [|[k v] e IH]; intros kw; [reflexivity|].
  change (numbers ((k, v) :: e)) with ((k, number_of k v) :: numbers e). cbn [fold_left fst snd].
  rewrite IH, dset_numbers. reflexivity.
Qed.
Lemma numbers_bare n : numbers (bare n) = n.
Proof.
  unfold SpecUnits.numbers, bare. rewrite map_map. rewrite <- (map_id n) at 2. apply map_ext.
  intros [k [l|x|]]; reflexivity.
Qed.

Lemma array_iff kw k c : doc_unit k = Some c ->
  kw_array (numbers kw) k = do q <- u_array kw k c; Ok (co c q).
Proof.
  intros D. unfold kw_array, u_array. rewrite dget_numbers.
  destruct (dget kw k) as [[l|q|x|x w|]|]; cbn; try reflexivity.
  - unfold co. cbn. now rewrite conv_id, map_id.
  - rewrite D. reflexivity.
Qed.
Lemma array_fit kw k c q : doc_unit k = Some c -> good_units kw -> u_array kw k c = Ok q -> fits c q = true.
Proof.
  intros D G. unfold u_array. destruct (dget kw k) as [[l|r|x|x w|]|] eqn:E; try discriminate; intros [= <-].
  - unfold Units.fits. cbn. now rewrite conv_id.
  - destruct (G _ _ E) as (c' & f & D' & F). rewrite D in D'. injection D' as <-. unfold Units.fits. now rewrite F.
Qed.
Lemma pot_iff kw k : doc_unit k = Some kms2 ->
  kw_pot (numbers kw) k = do q <- u_kwpot kms2 kw k; Ok (option_map (co kms2) q).
Proof.
  intros D. unfold kw_pot, u_kwpot. rewrite dget_numbers.
  destruct (dget kw k) as [[l|q|x|x w|]|]; cbn; try reflexivity.
  - unfold co. cbn. now rewrite conv_id, map_id.
  - rewrite D. reflexivity.
Qed.
Lemma pot_fit kw k q : doc_unit k = Some kms2 -> good_units kw -> u_kwpot kms2 kw k = Ok q -> pot_fits q = true.
Proof.
  intros D G. unfold u_kwpot. destruct (dget kw k) as [[l|r|x|x w|]|] eqn:E; try discriminate; intros [= <-]; try reflexivity.
  - unfold pot_fits, Units.fits. cbn. now rewrite conv_id.
  - destruct (G _ _ E) as (c' & f & D' & F). rewrite D in D'. injection D' as <-. unfold pot_fits, Units.fits. now rewrite F.
Qed.
Lemma soft_iff kw k : doc_unit k = None -> good_units kw -> kw_soft (numbers kw) k = u_soft kw k.
Proof.
  intros D G. unfold kw_soft, u_soft. rewrite dget_numbers.
  destruct (dget kw k) as [[l|q|x|x w|]|] eqn:E; cbn; try reflexivity.
  - destruct (G _ _ E) as (c' & f & D' & F). congruence.
  - destruct (G _ _ E).
Qed.

(** The names of one set. *)
Record names (sfx : string) : Prop := {
  n_m : doc_unit ("m_" ++ sfx) = Some Msun;
  n_x : doc_unit ("x_" ++ sfx) = Some kpc; n_y : doc_unit ("y_" ++ sfx) = Some kpc; n_z : doc_unit ("z_" ++ sfx) = Some kpc;
  n_vx : doc_unit ("vx_" ++ sfx) = Some kms; n_vy : doc_unit ("vy_" ++ sfx) = Some kms; n_vz : doc_unit ("vz_" ++ sfx) = Some kms;
  n_pot : doc_unit ("potential_" ++ sfx) = Some kms2;
  n_soft : doc_unit ("softening_" ++ sfx) = None }.
Lemma names_s : names "s". Proof. constructor; reflexivity. Qed.
Lemma names_dm : names "dm". Proof. constructor; reflexivity. Qed.
Lemma names_g : names "g". Proof. constructor; reflexivity. Qed.

Lemma set_good kw t sfx : names sfx -> good_units kw ->
  (do p <- u_mk_pset_kw kw t sfx; u_values p) = mk_pset_kw (numbers kw) t sfx
  /\ (forall p, u_mk_pset_kw kw t sfx = Ok p -> exists v, u_values p = Ok v /\ us_type p = p_type v /\ us_haspot p = p_haspot v)
  /\ (forall e, u_mk_pset_kw kw t sfx = Raise e <-> mk_pset_kw (numbers kw) t sfx = Raise e).
Proof.
  intros NM G. destruct NM. unfold Units.u_mk_pset_kw, mk_pset_kw.
  rewrite (array_iff kw _ _ n_m0), (array_iff kw _ _ n_x0), (array_iff kw _ _ n_y0), (array_iff kw _ _ n_z0),
    (array_iff kw _ _ n_vx0), (array_iff kw _ _ n_vy0), (array_iff kw _ _ n_vz0), (pot_iff kw _ n_pot0), (soft_iff kw _ n_soft0 G).
  Ltac fails := split; [reflexivity|split; [discriminate|intros ?; split; intros [= ->]; reflexivity]].
  destruct (u_array kw _ Msun) as [m|] eqn:Em; cbn [bind]; [|fails].
  destruct (u_array kw ("x_" ++ sfx) kpc) as [x|] eqn:Ex; cbn [bind]; [|fails].
  destruct (u_array kw ("y_" ++ sfx) kpc) as [y|] eqn:Ey; cbn [bind]; [|fails].
  destruct (u_array kw ("z_" ++ sfx) kpc) as [z|] eqn:Ez; cbn [bind]; [|fails].
  destruct (u_array kw ("vx_" ++ sfx) kms) as [vx|] eqn:Evx; cbn [bind]; [|fails].
  destruct (u_array kw ("vy_" ++ sfx) kms) as [vy|] eqn:Evy; cbn [bind]; [|fails].
  destruct (u_array kw ("vz_" ++ sfx) kms) as [vz|] eqn:Evz; cbn [bind]; [|fails].
  destruct (u_kwpot kms2 kw _) as [pot|] eqn:Ep; cbn [bind]; [|fails].
  destruct (u_soft kw _) as [so|] eqn:Es; cbn [bind]; [|fails].
  assert (F : all_fit m x y z vx vy vz pot = true).
  { unfold all_fit. rewrite !andb_true_iff. repeat split; eauto using array_fit, pot_fit. }
  rewrite u_mk_pset_fit by auto.
  destruct (mk_pset t _ _ _ _ _ _ _ _ so) as [v|] eqn:Ev; cbn [bind].
  - pose proof (u_values_dress _ _ _ _ _ _ _ _ _ _ _ F Ev) as U. rewrite U. split; [reflexivity|]. split.
    + intros p [= <-]. exists v. auto.
    + intros e. split; discriminate.
  - fails.
Qed.

Lemma galaxy_good kw : good_units kw ->
  (do g <- u_mkgalaxy kw; ug_values g) = mkgalaxy (numbers kw)
  /\ (forall g, u_mkgalaxy kw = Ok g -> exists v, ug_values g = Ok v).
Proof.
  intros G. unfold Units.u_mkgalaxy, mkgalaxy. rewrite dkeys_numbers.
  destruct (forallb _ (dkeys kw)); cbn [guard bind]; [|split; [reflexivity|discriminate]].
  destruct (forallb _ (flat_map _ _)); cbn [guard bind]; [|split; [reflexivity|discriminate]].
  destruct (set_good kw STARS "s" names_s G) as (As & Bs & Cs).
  destruct (set_good kw DARK_MATTER "dm" names_dm G) as (Ad & Bd & Cd).
  destruct (set_good kw GAS "g" names_g G) as (Ag & Bg & Cg).
  destruct (u_mk_pset_kw kw STARS "s") as [s|e]; cbn [bind] in *.
  2: { rewrite (proj1 (Cs e) eq_refl). split; [reflexivity|discriminate]. }
  rewrite <- As. destruct (Bs _ eq_refl) as (vs & Es & Ts & Hs). rewrite Es. cbn [bind].
  destruct (u_mk_pset_kw kw DARK_MATTER "dm") as [d|e]; cbn [bind] in *.
  2: { rewrite (proj1 (Cd e) eq_refl). split; [reflexivity|discriminate]. }
  rewrite <- Ad. destruct (Bd _ eq_refl) as (vd & Ed & Td & Hd). rewrite Ed. cbn [bind].
  destruct (u_mk_pset_kw kw GAS "g") as [g|e]; cbn [bind] in *.
  2: { rewrite (proj1 (Cg e) eq_refl). split; [reflexivity|discriminate]. }
  rewrite <- Ag. destruct (Bg _ eq_refl) as (vg & Eg & Tg & Hg). rewrite Eg. cbn [bind].
  unfold u_mk_galaxy, mk_galaxy. rewrite Ts, Td, Tg, Hs, Hd, Hg.
  destruct (_ && negb _); [split; [reflexivity|discriminate]|].
  destruct (negb (ptype_eqb (p_type vs) STARS)); [split; [reflexivity|discriminate]|].
  destruct (negb (ptype_eqb (p_type vd) DARK_MATTER)); [split; [reflexivity|discriminate]|].
  destruct (negb (ptype_eqb (p_type vg) GAS)); [split; [reflexivity|discriminate]|].
  cbn [bind]. unfold Units.ug_values. cbn [ug_stars ug_dm ug_gas ug_haspot]. rewrite Es, Ed, Eg. cbn [bind].
  split; [reflexivity|]. intros h [= <-]. cbn [ug_stars ug_dm ug_gas ug_haspot]. rewrite Es, Ed, Eg. cbn [bind]. eauto.
Qed.

Definition good_at (kw : dict (uval N unit)) (k : string) : Prop :=
  forall v, dget kw k = Some v ->
  match v with
  | UQty q => exists c f, doc_unit k = Some c /\ conv (q_unit q) c = Some f
  | UNumQ _ _ => False
  | _ => True
  end.
Lemma array_good kw k c q : doc_unit k = Some c -> u_array kw k c = Ok q -> fits c q = true -> good_at kw k.
Proof.
  intros D E F v Hv. unfold u_array in E. rewrite Hv in E. destruct v; try discriminate; auto.
  injection E as ->. unfold Units.fits in F. destruct (conv (q_unit q) c) eqn:C; [eauto|discriminate].
Qed.
Lemma pot_good kw k q : doc_unit k = Some kms2 -> u_kwpot kms2 kw k = Ok q -> pot_fits q = true -> good_at kw k.
Proof.
  intros D E F v Hv. unfold u_kwpot in E. rewrite Hv in E. destruct v; try discriminate; auto.
  injection E as <-. unfold pot_fits, Units.fits in F. destruct (conv (q_unit q0) kms2) eqn:C; [eauto|discriminate].
Qed.
Lemma soft_good kw k x : u_soft kw k = Ok x -> good_at kw k.
Proof. intros E v Hv. unfold u_soft in E. rewrite Hv in E. destruct v; try discriminate; auto. Qed.

Definition nine (sfx : string) : list string :=
  map (fun k => (k ++ sfx)%string) ["m_"; "x_"; "y_"; "z_"; "vx_"; "vy_"; "vz_"; "potential_"; "softening_"]%string.
Lemma set_args kw t sfx p : u_mk_pset_kw kw t sfx = Ok p ->
  u_array kw ("m_" ++ sfx) Msun = Ok (us_m p) /\
  (u_array kw ("x_" ++ sfx) kpc = Ok (us_x p) /\ u_array kw ("y_" ++ sfx) kpc = Ok (us_y p) /\ u_array kw ("z_" ++ sfx) kpc = Ok (us_z p)) /\
  (u_array kw ("vx_" ++ sfx) kms = Ok (us_vx p) /\ u_array kw ("vy_" ++ sfx) kms = Ok (us_vy p) /\ u_array kw ("vz_" ++ sfx) kms = Ok (us_vz p)) /\
  u_kwpot kms2 kw ("potential_" ++ sfx) = Ok (us_pot p) /\ u_soft kw ("softening_" ++ sfx) = Ok (us_soft p) /\ us_type p = t /\
  u_mk_pset t (us_m p) (us_x p) (us_y p) (us_z p) (us_vx p) (us_vy p) (us_vz p) (us_pot p) (us_soft p) = Ok p.
Proof.
  unfold Units.u_mk_pset_kw. intros H.
  apply bind_ok in H as (m & Em & H). apply bind_ok in H as (x & Ex & H). apply bind_ok in H as (y & Ey & H).
  apply bind_ok in H as (z & Ez & H). apply bind_ok in H as (vx & Evx & H). apply bind_ok in H as (vy & Evy & H).
  apply bind_ok in H as (vz & Evz & H). apply bind_ok in H as (pot & Ep & H). apply bind_ok in H as (so & Es & H).
  rewrite Em, Ex, Ey, Ez, Evx, Evy, Evz, Ep, Es.
  assert (us_m p = m /\ us_x p = x /\ us_y p = y /\ us_z p = z /\ us_vx p = vx /\ us_vy p = vy /\ us_vz p = vz /\ us_pot p = pot /\ us_soft p = so /\ us_type p = t)
    as (-> & -> & -> & -> & -> & -> & -> & -> & -> & ->).
  { clear - H. unfold Units.u_mk_pset in H. repeat (apply bind_ok in H as (? & _ & H)). injection H as <-. cbn. auto 12. }
  auto 12.
Qed.
Lemma set_good_at kw t sfx p : names sfx -> u_mk_pset_kw kw t sfx = Ok p -> forall k, In k (nine sfx) -> good_at kw k.
Proof.
  intros [] H k Hk. apply set_args in H as (Em & (Ex & Ey & Ez) & (Evx & Evy & Evz) & Ep & Es & _ & H).
  apply u_mk_pset_ok in H. unfold all_fit in H. rewrite !andb_true_iff in H.
  destruct H as (((((((Hm & Hx) & Hy) & Hz) & Hvx) & Hvy) & Hvz) & Hp).
  cbn [nine map In] in Hk.
  destruct Hk as [<-|[<-|[<-|[<-|[<-|[<-|[<-|[<-|[<-|[]]]]]]]]]]; eauto using array_good, pot_good, soft_good.
Qed.

Lemma galaxy_inv kw g : u_mkgalaxy kw = Ok g ->
  u_mk_pset_kw kw STARS "s" = Ok (ug_stars g) /\ u_mk_pset_kw kw DARK_MATTER "dm" = Ok (ug_dm g)
  /\ u_mk_pset_kw kw GAS "g" = Ok (ug_gas g) /\ u_mk_galaxy (ug_stars g) (ug_dm g) (ug_gas g) = Ok g.
Proof.
  unfold Units.u_mkgalaxy. intros H.
  apply bind_ok in H as (? & _ & H). apply bind_ok in H as (? & _ & H).
  apply bind_ok in H as (s & Es & H). apply bind_ok in H as (d & Ed & H). apply bind_ok in H as (q & Eq & H).
  assert (ug_stars g = s /\ ug_dm g = d /\ ug_gas g = q) as (-> & -> & ->).
  { clear - H. unfold u_mk_galaxy in H. cbv zeta in H.
    destruct (_ && negb _); [discriminate|]. do 3 (destruct (negb _); [discriminate|]). injection H as <-. auto. }
  auto.
Qed.

Lemma galaxy_units kw g : u_mkgalaxy kw = Ok g -> good_units kw.
Proof.
  intros H k v Hv. pose proof (galaxy_inv _ _ H) as (Hs & Hd & Hg & _).
  assert (K : In k (nine "s" ++ nine "dm" ++ nine "g")).
  { unfold Units.u_mkgalaxy in H. destruct (forallb _ (dkeys kw)) eqn:F; [|discriminate].
    rewrite forallb_forall in F.
    assert (In k (dkeys kw)) as I by (apply dget_In in Hv; apply in_map_iff; exists (k, v); auto).
    apply F in I. apply smem_In in I.
    assert (Q : forallb (fun k => smem k (nine "s" ++ nine "dm" ++ nine "g")) mkgalaxy_params = true) by (vm_compute; reflexivity).
    rewrite forallb_forall in Q. apply Q in I. now apply smem_In in I. }
  apply in_app_or in K as [K|K]; [|apply in_app_or in K as [K|K]].
  - exact (set_good_at _ _ _ _ names_s Hs k K v Hv).
  - exact (set_good_at _ _ _ _ names_dm Hd k K v Hv).
  - exact (set_good_at _ _ _ _ names_g Hg k K v Hv).
Qed.

(** *** Rebuilding *)
Lemma pot_arr (p : option (qty N unit)) l : match p with Some q => do l <- arr kms2 q; Ok (Some l) | None => Ok None end = Ok l ->
  pot_fits p = true /\ l = option_map (co kms2) p.
Proof.
  destruct p as [q|]; [|intros [= <-]; auto]. intros H. apply bind_ok in H as (a & E & [= <-]).
  apply arr_ok in E as [F ->]. auto.
Qed.
Lemma u_values_stored p v : u_values p = Ok v ->
  all_fit (us_m p) (us_x p) (us_y p) (us_z p) (us_vx p) (us_vy p) (us_vz p) (us_pot p) = true /\
  p_m v = co Msun (us_m p) /\ p_x v = co kpc (us_x p) /\ p_y v = co kpc (us_y p) /\ p_z v = co kpc (us_z p) /\
  p_vx v = co kms (us_vx p) /\ p_vy v = co kms (us_vy p) /\ p_vz v = co kms (us_vz p) /\
  p_pot v = option_map (co kms2) (us_pot p) /\ p_soft v = us_soft p.
Proof.
  unfold Units.u_values. intros H.
  apply bind_ok in H as (m & Em & H). apply bind_ok in H as (x & Ex & H). apply bind_ok in H as (y & Ey & H).
  apply bind_ok in H as (z & Ez & H). apply bind_ok in H as (vx & Evx & H). apply bind_ok in H as (vy & Evy & H).
  apply bind_ok in H as (vz & Evz & H). apply bind_ok in H as (pot & Ep & H).
  repeat (apply bind_ok in H as (? & _ & H)). injection H as <-. cbn.
  apply arr_ok in Em as [Fm ->], Ex as [Fx ->], Ey as [Fy ->], Ez as [Fz ->], Evx as [Fvx ->], Evy as [Fvy ->], Evz as [Fvz ->].
  apply pot_arr in Ep as [Fp ->]. split; [|auto 12]. unfold all_fit. now rewrite Fm, Fx, Fy, Fz, Fvx, Fvy, Fvz, Fp.
Qed.

Lemma kwargs_numbers g v : ug_values g = Ok v -> numbers (u_as_kwargs g) = galaxy_as_kwargs v.
Proof.
  unfold Units.ug_values. intros H.
  apply bind_ok in H as (s & Es & H). apply bind_ok in H as (d & Ed & H). apply bind_ok in H as (q & Eq & H). injection H as <-.
  assert (S1 : forall p w sfx, names sfx -> u_values p = Ok w -> numbers (u_pset_kwargs p sfx) = pset_kwargs w sfx).
  { clear. intros p w sfx [] H. apply u_values_stored in H as (F & E1 & E2 & E3 & E4 & E5 & E6 & E7 & E8 & E9).
    unfold SpecUnits.numbers, u_pset_kwargs, pset_kwargs. cbn [map fst snd].
    rewrite E1, E2, E3, E4, E5, E6, E7, E8, E9. cbn [SpecUnits.number_of]. unfold co.
    rewrite n_m0, n_x0, n_y0, n_z0, n_vx0, n_vy0, n_vz0.
    destruct (us_pot p); cbn [option_map SpecUnits.number_of]; rewrite ?n_pot0; reflexivity. }
  unfold u_as_kwargs, galaxy_as_kwargs. rewrite dupdate_numbers. cbn [g_stars g_dm g_gas].
  unfold SpecUnits.numbers at 2. rewrite !map_app.
  change (map (fun kv => (fst kv, number_of (fst kv) (snd kv)))) with numbers.
  rewrite (S1 _ _ _ names_s Es), (S1 _ _ _ names_dm Ed), (S1 _ _ _ names_g Eq). reflexivity.
Qed.

Lemma kwargs_good g v : ug_values g = Ok v -> good_units (u_as_kwargs g).
Proof.
  unfold Units.ug_values. intros H.
  apply bind_ok in H as (s & Es & H). apply bind_ok in H as (d & Ed & H). apply bind_ok in H as (q & Eq & H). clear H.
  assert (S1 : forall p w sfx k x, names sfx -> u_values p = Ok w -> In (k, x) (u_pset_kwargs p sfx) ->
     match x with
     | UQty q => exists c f, doc_unit k = Some c /\ conv (q_unit q) c = Some f
     | UNumQ _ _ => False
     | _ => True
     end).
  { clear. intros p w sfx k x [] H D. apply u_values_stored in H as (F & _).
    unfold all_fit in F. rewrite !andb_true_iff in F.
    destruct F as (((((((Hm & Hx) & Hy) & Hz) & Hvx) & Hvy) & Hvz) & Hp).
    assert (FF : forall c q, fits c q = true -> forall k, doc_unit k = Some c -> exists c f, doc_unit k = Some c /\ conv (q_unit q) c = Some f).
    { clear. intros c q F k D. unfold Units.fits in F. destruct (conv (q_unit q) c) eqn:E; [eauto|discriminate]. }
    unfold u_pset_kwargs in D. cbn [In] in D.
    destruct D as [D|[D|[D|[D|[D|[D|[D|[D|[D|[]]]]]]]]]]; injection D as <- <-; eauto.
    destruct (us_pot p); cbn in Hp; eauto. }
  intros k x Hx. unfold u_as_kwargs in Hx. rewrite dget_dupdate in Hx. cbn [dget] in Hx.
  destruct (dget (rev _) k) eqn:E; [|discriminate]. injection Hx as ->.
  apply dget_In in E. apply in_rev in E. 
  apply in_app_or in E as [E|E]; [|apply in_app_or in E as [E|E]].
  - exact (S1 _ _ _ _ _ names_s Es E).
  - exact (S1 _ _ _ _ _ names_dm Ed E).
  - exact (S1 _ _ _ _ _ names_g Eq E).
Qed.

Lemma good_update kw n : good_units kw -> good_units (dupdate kw (bare n)).
Proof.
  intros G k v Hv. rewrite dget_dupdate in Hv. destruct (dget (rev (bare n)) k) eqn:E; [|now apply G].
  injection Hv as ->. apply dget_In in E. apply in_rev in E. unfold bare in E. apply in_map_iff in E as ([k' w] & [= <- <-] & _).
  cbn. destruct w; exact I.
Qed.

Notation u_rebuilt := (u_rebuilt conv Msun kpc kms kms2 kpckms).
Lemma rebuilt_values news g v : ug_values g = Ok v ->
  (do h <- u_rebuilt news g; ug_values h) = do n <- news v; mkgalaxy (dupdate (galaxy_as_kwargs v) n).
Proof.
  intros E. unfold Units.u_rebuilt. rewrite E. cbn [bind]. destruct (news v) as [n|]; cbn [bind]; [|reflexivity].
  destruct (galaxy_good (dupdate (u_as_kwargs g) (bare n))) as (A & _); [apply good_update; eapply kwargs_good; eauto|].
  rewrite A, dupdate_numbers, numbers_bare, (kwargs_numbers _ _ E). reflexivity.
Qed.

Lemma u_mkgalaxy_kwargs kw g : u_mkgalaxy kw = Ok g -> u_mkgalaxy (u_as_kwargs g) = Ok g.
Proof.
  intros H. pose proof (galaxy_inv _ _ H) as (Hs & Hd & Hg & HG).
  apply set_args in Hs as (_ & _ & _ & _ & _ & _ & Hs), Hd as (_ & _ & _ & _ & _ & _ & Hd), Hg as (_ & _ & _ & _ & _ & _ & Hg).
  unfold Units.u_mkgalaxy.
  assert (forallb (fun k => smem k mkgalaxy_params) (dkeys (u_as_kwargs g)) = true) as -> by reflexivity.
  assert (forallb (fun k => smem k (dkeys (u_as_kwargs g))) (flat_map required_names ["s"; "dm"; "g"]%string) = true) as -> by reflexivity.
  cbn [guard bind].
  assert (P : forall t sfx p, In (sfx, p) [("s", ug_stars g); ("dm", ug_dm g); ("g", ug_gas g)]%string ->
     u_mk_pset_kw (u_as_kwargs g) t sfx =
     u_mk_pset t (us_m p) (us_x p) (us_y p) (us_z p) (us_vx p) (us_vy p) (us_vz p) (us_pot p) (us_soft p)).
  { clear. intros t sfx p [E|[E|[E|[]]]]; injection E as <- <-; unfold Units.u_mk_pset_kw, u_array, u_kwpot, u_soft.
    - destruct (us_pot (ug_stars g)) eqn:E; unfold u_as_kwargs, u_pset_kwargs; rewrite E; reflexivity.
    - destruct (us_pot (ug_dm g)) eqn:E; unfold u_as_kwargs, u_pset_kwargs; rewrite E; reflexivity.
    - destruct (us_pot (ug_gas g)) eqn:E; unfold u_as_kwargs, u_pset_kwargs; rewrite E; reflexivity. }
  rewrite (P STARS "s"%string (ug_stars g)) by (cbn; auto). rewrite Hs. cbn [bind].
  rewrite (P DARK_MATTER "dm"%string (ug_dm g)) by (cbn; auto). rewrite Hd. cbn [bind].
  rewrite (P GAS "g"%string (ug_gas g)) by (cbn; auto). rewrite Hg. cbn [bind]. exact HG.
Qed.
End Facts.
