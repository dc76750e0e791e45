(** Facts about centring. *)
From Verif Require Import Py Num RX Np Df Data DataFacts DfFacts RebuildFacts Center.

(** ** Order on a rounded number type *)
Section Ord.
Context {N : Num} (RN : Rounded N).
Local Notation v := (val RN).

Lemma nle_iff x y : nle x y = true <-> xle (v x) (v y).
Proof. unfold nle. rewrite (val_cmp RN). apply xcmp_le. Qed.
Lemma nlt_iff x y : nlt x y = true <-> xlt (v x) (v y).
Proof. unfold nlt. rewrite (val_cmp RN). apply xcmp_lt. Qed.
Lemma neqb_iff x y : neqb x y = true <-> v x = v y /\ v x <> XNaN.
Proof. unfold neqb. rewrite (val_cmp RN). apply xcmp_eq. Qed.
Lemma nisnan_iff x : nisnan x = true <-> v x = XNaN.
Proof.
  unfold nisnan. rewrite (val_cmp RN). destruct (v x); simpl; try (split; congruence).
Qed.
Lemma nlt_false x y : nlt x y = false <-> ~ xlt (v x) (v y).
Proof. rewrite <- nlt_iff. destruct (nlt x y); split; congruence || tauto. Qed.
Lemma nle_false x y : nle x y = false <-> ~ xle (v x) (v y).
Proof. rewrite <- nle_iff. destruct (nle x y); split; congruence || tauto. Qed.
Lemma nisnan_false x : nisnan x = false <-> v x <> XNaN.
Proof. rewrite <- nisnan_iff. destruct (nisnan x); split; congruence || tauto. Qed.
Lemma nfin_iff x : nfin x = true <-> exists r, v x = XR r.
Proof.
  rewrite (val_fin RN). destruct (v x); simpl; split; intros H; try discriminate; eauto;
  destruct H; discriminate.
Qed.
Lemma val_small z : (Z.abs z <= 1024)%Z -> v (nofZ z) = XR (IZR z).
Proof.
  intros H. rewrite (val_ofZ RN). apply (rnd_int RN). pose proof (intmax_pos RN). lia.
Qed.
Lemma val_n0 : v n0 = XR 0. Proof. apply val_small; simpl; lia. Qed.
Lemma val_n1 : v n1 = XR 1. Proof. apply val_small; simpl; lia. Qed.
Lemma val_nm1 : v nm1 = XR (-1). Proof. apply val_small; simpl; lia. Qed.

End Ord.

Section CenterFacts.
Context {N : Num}.
Implicit Types (g : galaxy N) (p : pset N).

(** All potentials / positions of a galaxy in frame order. *)
Definition gpot (g : galaxy N) : list N := to_numpy (gcol g "potential").
Definition gx (g : galaxy N) : list N := p_x (g_stars g) ++ p_x (g_dm g) ++ p_x (g_gas g).
Definition gy (g : galaxy N) : list N := p_y (g_stars g) ++ p_y (g_dm g) ++ p_y (g_gas g).
Definition gz (g : galaxy N) : list N := p_z (g_stars g) ++ p_z (g_dm g) ++ p_z (g_gas g).

Definition shift (x0 y0 z0 : N) (p : pset N) : pset N :=
  pset_of (p_type p) (p_m p)
    (map (fun a => (a - x0)%num) (p_x p)) (map (fun a => (a - y0)%num) (p_y p))
    (map (fun a => (a - z0)%num) (p_z p)) (p_vx p) (p_vy p) (p_vz p) (p_pot p) (p_soft p).
Definition shift_gal (x0 y0 z0 : N) (g : galaxy N) : galaxy N :=
  mkGal (shift x0 y0 z0 (g_stars g)) (shift x0 y0 z0 (g_dm g)) (shift x0 y0 z0 (g_gas g))
        (g_haspot g).

Lemma gcol_x g : gal_ok g -> to_numpy (gcol g "x") = gx g.
Proof. intros H. apply gal_ok_facts in H as [gf_s0 gf_d0 gf_g0 gf_ts0 gf_td0 gf_tg0 gf_hs0 gf_hd0 gf_hg0]. unfold gcol, gx. rewrite !to_numpy_app.
  now rewrite !pcol_num_x by auto. Qed.
Lemma gcol_y g : gal_ok g -> to_numpy (gcol g "y") = gy g.
Proof. intros H. apply gal_ok_facts in H as [gf_s0 gf_d0 gf_g0 gf_ts0 gf_td0 gf_tg0 gf_hs0 gf_hd0 gf_hg0]. unfold gcol, gy. rewrite !to_numpy_app.
  now rewrite !pcol_num_y by auto. Qed.
Lemma gcol_z g : gal_ok g -> to_numpy (gcol g "z") = gz g.
Proof. intros H. apply gal_ok_facts in H as [gf_s0 gf_d0 gf_g0 gf_ts0 gf_td0 gf_tg0 gf_hs0 gf_hd0 gf_hg0]. unfold gcol, gz. rewrite !to_numpy_app.
  now rewrite !pcol_num_z by auto. Qed.

Lemma gcol_length g k : gal_ok g -> length (gcol g k) = glen g.
Proof.
  intros H. apply gal_ok_facts in H as [gf_s0 gf_d0 gf_g0 gf_ts0 gf_td0 gf_tg0 gf_hs0 gf_hd0 gf_hg0]. unfold gcol, glen. rewrite !app_length, !pcol_length by auto. lia.
Qed.

Lemma iloc_num c i : iloc (N:=N) c i = match nth_error (to_numpy c) i with Some x => Ok x | None => Raise IndexError end.
Proof. unfold iloc, to_numpy. rewrite nth_error_map. now destruct (nth_error c i). Qed.

Lemma ptype_mask_gal g t : gal_ok g ->
  ptype_mask (gcol g "ptypev") t =
  repeat (ptype_eqb STARS t) (plen (g_stars g)) ++
  repeat (ptype_eqb DARK_MATTER t) (plen (g_dm g)) ++
  repeat (ptype_eqb GAS t) (plen (g_gas g)).
Proof.
  intros H. apply gal_ok_facts in H as [gf_s0 gf_d0 gf_g0 gf_ts0 gf_td0 gf_tg0 gf_hs0 gf_hd0 gf_hg0]. unfold gcol, ptype_mask.
  rewrite !pcol_ptypev, gf_ts0, gf_td0, gf_tg0, !map_app.
  assert (R : forall n z, map (fun v : cell N => match v with CInt z => Z.eqb z (ptype_value t) | _ => false end)
     (repeat (CInt z) n) = repeat (Z.eqb z (ptype_value t)) n).
  { clear. induction n; simpl; intros; [reflexivity|]. f_equal. apply IHn. }
  now rewrite !R.
Qed.

Lemma split_mask (a b c : list N) (n1' n2 n3 : nat) t :
  length a = n1' -> length b = n2 -> length c = n3 ->
  bmask (repeat (ptype_eqb STARS t) n1' ++ repeat (ptype_eqb DARK_MATTER t) n2 ++
         repeat (ptype_eqb GAS t) n3) (a ++ b ++ c) =
  match t with STARS => a | DARK_MATTER => b | GAS => c end.
Proof.
  intros <- <- <-. rewrite bmask_app by apply repeat_length.
  rewrite bmask_app by apply repeat_length.
  destruct t; cbn [ptype_eqb ptype_value Z.eqb];
    change (ptype_eqb STARS STARS) with true; change (ptype_eqb DARK_MATTER STARS) with false;
    change (ptype_eqb GAS STARS) with false; change (ptype_eqb STARS DARK_MATTER) with false;
    change (ptype_eqb DARK_MATTER DARK_MATTER) with true; change (ptype_eqb GAS DARK_MATTER) with false;
    change (ptype_eqb STARS GAS) with false; change (ptype_eqb DARK_MATTER GAS) with false;
    change (ptype_eqb GAS GAS) with true;
    rewrite ?bmask_repeat_true, ?bmask_repeat_false; simpl; rewrite ?app_nil_r; reflexivity.
Qed.

(** ** argmin *)

Lemma argmin_from_bound (l : list N) best bi i : (bi < i)%nat ->
  (argmin_from best bi i l < i + length l)%nat.
Proof.
  revert best bi i; induction l as [|x l IH]; intros best bi i H; simpl; [lia|].
  destruct (nisnan best); [lia|].
  destruct (nisnan x || nlt x best).
  - specialize (IH x i (S i)). lia.
  - specialize (IH best bi (S i)). lia.
Qed.

Lemma np_argmin_bound (l : list N) i : np_argmin l = Ok i -> (i < length l)%nat.
Proof.
  destruct l as [|x l]; [discriminate|]. simpl. intros [= <-].
  pose proof (argmin_from_bound l x 0 1). simpl. lia.
Qed.

Lemma pd_argmin_ok (l : list N) : l <> [] -> exists i, pd_argmin l = Ok i /\ (i < length l)%nat.
Proof.
  intros H. unfold pd_argmin.
  destruct (np_argmin _) as [i|e] eqn:E.
  - simpl. eexists; split; [reflexivity|]. apply np_argmin_bound in E. rewrite map_length in E.
    destruct (forallb nisnan l); [destruct l; [easy|simpl; lia]|exact E].
  - destruct l; [easy|]. discriminate.
Qed.

(** Column list needed by center: arrays for every set. *)
Lemma center_attrs_arrays (g : galaxy N) l :
  In "x"%string l -> forall p, In p (psets g) -> existsb (is_array p) l = true.
Proof. intros H p _. apply existsb_exists. exists "x"%string. split; [auto|reflexivity]. Qed.

Lemma isSome_pots g : gal_ok g ->
  isSome (p_pot (g_stars g)) = g_haspot g /\ isSome (p_pot (g_dm g)) = g_haspot g /\
  isSome (p_pot (g_gas g)) = g_haspot g.
Proof.
  intros H. apply gal_ok_facts in H as [gf_s0 gf_d0 gf_g0 gf_ts0 gf_td0 gf_tg0 gf_hs0 gf_hd0 gf_hg0].
  pose proof (pset_ok_haspot _ gf_s0). pose proof (pset_ok_haspot _ gf_d0).
  pose proof (pset_ok_haspot _ gf_g0). unfold isSome. repeat split; congruence.
Qed.

Lemma center_eq g i x0 y0 z0 : gal_ok g -> g_haspot g = true ->
  pd_argmin (gpot g) = Ok i ->
  nth_error (gx g) i = Some x0 -> nth_error (gy g) i = Some y0 -> nth_error (gz g) i = Some z0 ->
  center g = Ok (shift_gal x0 y0 z0 g).
Proof.
  intros Hg Hp Hi Hx Hy Hz. unfold center. rewrite Hp. cbn [guard bind].
  rewrite to_df_all; [|assumption|intros k Hk; simpl in Hk; cbv; intuition|
    apply center_attrs_arrays; simpl; auto].
  cbn [bind]. rewrite !get_col_keyed by (simpl; auto 10). cbn [bind].
  fold (gpot g). rewrite Hi. cbn [bind].
  rewrite !iloc_num, gcol_x, gcol_y, gcol_z, Hx, Hy, Hz by auto. cbn [bind].
  rewrite !ptype_mask_gal by auto.
  pose proof (isSome_pots g Hg) as (Is & Id & Ig).
  apply gal_ok_facts in Hg as F. destruct F as [gf_s0 gf_d0 gf_g0 gf_ts0 gf_td0 gf_tg0 gf_hs0 gf_hd0 gf_hg0].
  pose proof (pset_ok_lens _ gf_s0) as (S1 & S2 & S3 & S4 & S5 & S6 & S7).
  pose proof (pset_ok_lens _ gf_d0) as (D1 & D2 & D3 & D4 & D5 & D6 & D7).
  pose proof (pset_ok_lens _ gf_g0) as (G1 & G2 & G3 & G4 & G5 & G6 & G7).
  unfold gx, gy, gz. rewrite !map_app.
  rewrite !split_mask by (rewrite map_length; assumption).
  set (X0 := fun a : N => (a - x0)%num). set (Y0 := fun a : N => (a - y0)%num).
  set (Z0 := fun a : N => (a - z0)%num).
  rewrite as_kwargs_kw3.
  match goal with |- mkgalaxy ?k = _ => 
    replace k with (kw3
     (mkUpd (p_m (g_stars g)) (map X0 (p_x (g_stars g))) (map Y0 (p_y (g_stars g))) (map Z0 (p_z (g_stars g)))
            (p_vx (g_stars g)) (p_vy (g_stars g)) (p_vz (g_stars g)) (p_pot (g_stars g)) (p_soft (g_stars g)))
     (mkUpd (p_m (g_dm g)) (map X0 (p_x (g_dm g))) (map Y0 (p_y (g_dm g))) (map Z0 (p_z (g_dm g)))
            (p_vx (g_dm g)) (p_vy (g_dm g)) (p_vz (g_dm g)) (p_pot (g_dm g)) (p_soft (g_dm g)))
     (mkUpd (p_m (g_gas g)) (map X0 (p_x (g_gas g))) (map Y0 (p_y (g_gas g))) (map Z0 (p_z (g_gas g)))
            (p_vx (g_gas g)) (p_vy (g_gas g)) (p_vz (g_gas g)) (p_pot (g_gas g)) (p_soft (g_gas g))))
      by reflexivity end.
  rewrite mkgalaxy_kw3, build_ok; simpl; try congruence.
  - f_equal. unfold shift_gal, shift. fold X0 Y0 Z0. rewrite gf_ts0, gf_td0, gf_tg0.
    unfold pset_upd; simpl. f_equal. congruence.
  - repeat split; simpl; rewrite ?map_length; auto.
  - repeat split; simpl; rewrite ?map_length; auto.
  - repeat split; simpl; rewrite ?map_length; auto.
Qed.

Lemma gxyz_length g : gal_ok g ->
  length (gx g) = glen g /\ length (gy g) = glen g /\ length (gz g) = glen g /\ length (gpot g) = glen g.
Proof.
  intros H. rewrite <- gcol_x, <- gcol_y, <- gcol_z by auto. unfold gpot, to_numpy.
  rewrite !map_length, !gcol_length by auto. auto.
Qed.

Lemma nth_error_lt {A} (l : list A) i : (i < length l)%nat -> exists x, nth_error l i = Some x.
Proof. intros H. destruct (nth_error l i) eqn:E; eauto. apply nth_error_None in E. lia. Qed.

Lemma center_total g : gal_ok g -> g_haspot g = true -> (0 < glen g)%nat ->
  exists i x0 y0 z0, pd_argmin (gpot g) = Ok i /\ (i < glen g)%nat /\
    nth_error (gx g) i = Some x0 /\ nth_error (gy g) i = Some y0 /\ nth_error (gz g) i = Some z0 /\
    center g = Ok (shift_gal x0 y0 z0 g).
Proof.
  intros Hg Hp Hn. pose proof (gxyz_length g Hg) as (A & B & C & D).
  destruct (pd_argmin_ok (gpot g)) as (i & Hi & Hb).
  { intros E. rewrite E in D. simpl in D. lia. }
  destruct (nth_error_lt (gx g) i) as [x0 Hx]; [lia|].
  destruct (nth_error_lt (gy g) i) as [y0 Hy]; [lia|].
  destruct (nth_error_lt (gz g) i) as [z0 Hz]; [lia|].
  exists i, x0, y0, z0. repeat split; auto; try lia. eapply center_eq; eauto.
Qed.

Lemma center_empty g : gal_ok g -> g_haspot g = true -> glen g = 0%nat -> center g = Raise ValueError.
Proof.
  intros Hg Hp Hn. unfold center. rewrite Hp. cbn [guard bind].
  rewrite to_df_all; [|assumption|intros k Hk; simpl in Hk; cbv; intuition|
    apply center_attrs_arrays; simpl; auto].
  cbn [bind]. rewrite !get_col_keyed by (simpl; auto 10). cbn [bind].
  pose proof (gcol_length g "potential" Hg) as L. rewrite Hn in L.
  destruct (gcol g "potential"); [reflexivity|discriminate].
Qed.

Lemma is_centered_eq g i x0 y0 z0 rtol atol : gal_ok g -> g_haspot g = true ->
  pd_argmin (gpot g) = Ok i ->
  nth_error (gx g) i = Some x0 -> nth_error (gy g) i = Some y0 -> nth_error (gz g) i = Some z0 ->
  is_centered g rtol atol = Ok (allclose rtol atol [x0; y0; z0] n0).
Proof.
  intros Hg Hp Hi Hx Hy Hz. unfold is_centered. rewrite Hp. cbn [guard bind].
  rewrite to_df_all; [|assumption|intros k Hk; simpl in Hk; cbv; intuition|
    apply center_attrs_arrays; simpl; auto].
  cbn [bind]. rewrite !get_col_keyed by (simpl; auto 10). cbn [bind].
  fold (gpot g). rewrite Hi. cbn [bind].
  rewrite !iloc_num, gcol_x, gcol_y, gcol_z, Hx, Hy, Hz by auto. reflexivity.
Qed.

Lemma is_centered_empty g rtol atol : gal_ok g -> g_haspot g = true -> glen g = 0%nat ->
  is_centered g rtol atol = Raise ValueError.
Proof.
  intros Hg Hp Hn. unfold is_centered. rewrite Hp. cbn [guard bind].
  rewrite to_df_all; [|assumption|intros k Hk; simpl in Hk; cbv; intuition|
    apply center_attrs_arrays; simpl; auto].
  cbn [bind]. rewrite !get_col_keyed by (simpl; auto 10). cbn [bind].
  pose proof (gcol_length g "potential" Hg) as L. rewrite Hn in L.
  destruct (gcol g "potential"); [reflexivity|discriminate].
Qed.

Lemma shift_ok x0 y0 z0 p : pset_ok p -> pset_ok (shift x0 y0 z0 p).
Proof.
  intros H. pose proof (pset_ok_lens _ H) as (A & B & C & D & E & F & G).
  apply pset_ok_iff. split; [|reflexivity].
  repeat split; simpl; rewrite ?map_length; auto.
Qed.

Lemma shift_gal_ok x0 y0 z0 g : gal_ok g -> gal_ok (shift_gal x0 y0 z0 g).
Proof.
  intros H. pose proof (isSome_pots g H) as (Is & Id & Ig).
  apply gal_ok_facts in H as [gf_s0 gf_d0 gf_g0 gf_ts0 gf_td0 gf_tg0 gf_hs0 gf_hd0 gf_hg0]. apply gal_ok_facts. constructor; simpl; auto using shift_ok.
Qed.

Lemma shift_gx x0 y0 z0 g : gx (shift_gal x0 y0 z0 g) = map (fun a => (a - x0)%num) (gx g).
Proof. unfold gx; simpl. now rewrite !map_app. Qed.
Lemma shift_gy x0 y0 z0 g : gy (shift_gal x0 y0 z0 g) = map (fun a => (a - y0)%num) (gy g).
Proof. unfold gy; simpl. now rewrite !map_app. Qed.
Lemma shift_gz x0 y0 z0 g : gz (shift_gal x0 y0 z0 g) = map (fun a => (a - z0)%num) (gz g).
Proof. unfold gz; simpl. now rewrite !map_app. Qed.

End CenterFacts.
