(** Property lemmas about utils/_center.py: C08 - C12. *)
From Verif Require Import Py Num RX F64 Np Df Data DataFacts DfFacts RebuildFacts Center CenterFacts
  Spec Ex DataThms.

Lemma sets_len {N : Num} (g : galaxy N) : gal_ok g -> g_haspot g = true ->
  gpot g = all_pots g.
Proof.
  intros Hg Hp. pose proof (isSome_pots g Hg) as (A & B & C).
  unfold gpot, gcol, all_pots. simpl. rewrite !to_numpy_app, !pcol_num_pot.
  destruct (p_pot (g_stars g)), (p_pot (g_dm g)), (p_pot (g_gas g)); simpl in *; try congruence.
  now rewrite app_nil_r.
Qed.
Lemma all_x_gx {N : Num} (g : galaxy N) : all_x g = gx g.
Proof. unfold all_x, gx; simpl. now rewrite app_nil_r. Qed.
Lemma all_y_gy {N : Num} (g : galaxy N) : all_y g = gy g.
Proof. unfold all_y, gy; simpl. now rewrite app_nil_r. Qed.
Lemma all_z_gz {N : Num} (g : galaxy N) : all_z g = gz g.
Proof. unfold all_z, gz; simpl. now rewrite app_nil_r. Qed.

(** *** argmin returns a position of a least element *)
Section Argmin.
Context {N : Num} (RN : Rounded N).
Local Notation v := (val RN).

Lemma argmin_from_spec (l : list N) : forall pre best bi,
  nth_error pre bi = Some best -> nisnan best = false ->
  Forall (fun w => nisnan w = false /\ nlt w best = false) pre ->
  Forall (fun w => nisnan w = false) l ->
  exists b, nth_error (pre ++ l) (argmin_from best bi (length pre) l) = Some b /\
    Forall (fun w => nlt w b = false) (pre ++ l).
Proof.
  induction l as [|x l IH]; intros pre best bi Hb Hn Hp Hl.
  - exists best. rewrite app_nil_r. split; [exact Hb|]. eapply Forall_impl; [|exact Hp]. simpl; tauto.
  - simpl. rewrite Hn. inversion Hl as [|? ? Hx Hl']; subst. rewrite Hx. simpl.
    destruct (nlt x best) eqn:E.
    + specialize (IH (pre ++ [x]) x (length pre)). rewrite app_length in IH. simpl in IH.
      rewrite Nat.add_1_r in IH. rewrite <- app_assoc in IH. apply IH; auto.
      * rewrite nth_error_app2, Nat.sub_diag by lia. reflexivity.
      * apply Forall_app. split.
        -- eapply Forall_impl; [|exact Hp]. simpl. intros w [Hw1 Hw2]. split; auto.
           apply (nlt_false RN). apply (nlt_false RN) in Hw2. apply (nlt_iff RN) in E.
           intros H. apply Hw2. eapply xlt_trans; eauto.
        -- constructor; [|constructor]. split; auto. apply (nlt_false RN). intros H.
           apply (xlt_not_le _ _ H). apply xle_refl. now apply (nisnan_false RN).
    + specialize (IH (pre ++ [x]) best bi). rewrite app_length in IH. simpl in IH.
      rewrite Nat.add_1_r in IH. rewrite <- app_assoc in IH. apply IH; auto.
      * rewrite nth_error_app1; [exact Hb|]. apply nth_error_Some. congruence.
      * apply Forall_app. split; [exact Hp|]. constructor; auto.
Qed.

Lemma nlt_irrefl (x : N) : nlt x x = false.
Proof.
  apply (nlt_false RN). intros H. apply (xlt_not_le _ _ H). apply xle_refl.
  destruct (v x); simpl in H; congruence.
Qed.

Lemma nan_to_inf_notnan (x : N) : nisnan (if nisnan x then npinf else x) = false.
Proof.
  destruct (nisnan x) eqn:E; [|exact E]. apply (nisnan_false RN). rewrite (val_npinf RN). discriminate.
Qed.

Lemma pd_argmin_spec (l : list N) i : pd_argmin l = Ok i ->
  exists b, nth_error l i = Some b /\ (forall w, In w l -> nlt w b = false) /\
    ((exists w, In w l /\ nlt w npinf = true) -> nisnan b = false).
Proof.
  intros H. unfold pd_argmin in H. set (f := fun x : N => if nisnan x then npinf else x) in *.
  apply bind_ok in H as (j & Hj & H). injection H as H.
  destruct (forallb nisnan l) eqn:A.
  - destruct l as [|x0 l']; [discriminate|]. set (l := x0 :: l') in *.
    destruct (nth_error_lt l i) as [b Hb]; [subst i; simpl; lia|].
    rewrite forallb_forall in A. exists b. split; [exact Hb|]. split.
    + intros w Hw. apply (nlt_false RN). apply A, (nisnan_iff RN) in Hw. rewrite Hw. simpl. tauto.
    + intros (w & Hw & E). apply A, (nisnan_iff RN) in Hw. apply (nlt_iff RN) in E.
      rewrite Hw in E. contradiction.
  - subst j. destruct l as [|x0 l']; [discriminate|]. simpl in Hj. injection Hj as Hj.
    pose proof (argmin_from_spec (map f l') [f x0] (f x0) 0) as P. simpl in P.
    destruct P as (b & Hb & Hall); auto.
    + apply nan_to_inf_notnan.
    + constructor; [|constructor]. split; [apply nan_to_inf_notnan|apply nlt_irrefl].
    + apply Forall_map, Forall_forall. intros; apply nan_to_inf_notnan.
    + change (f x0 :: map f l') with (map f (x0 :: l')) in *.
      fold f in Hj. rewrite Hj in Hb. rewrite nth_error_map in Hb.
      destruct (nth_error (x0 :: l') i) as [c|] eqn:Ec; [|discriminate]. injection Hb as Hb.
      exists c. split; [reflexivity|]. rewrite Forall_map in Hall. rewrite Forall_forall in Hall.
      split.
      * intros w Hw. specialize (Hall w Hw). apply (nlt_false RN). apply (nlt_false RN) in Hall.
        subst b. unfold f in Hall. intros Q. apply Hall.
        destruct (nisnan w) eqn:Ew.
        { apply (nisnan_iff RN) in Ew. rewrite Ew in Q. contradiction. }
        destruct (nisnan c) eqn:Ec'.
        { apply (nisnan_iff RN) in Ec'. rewrite Ec' in Q. destruct (v w); contradiction. }
        exact Q.
      * intros (w & Hw & E). specialize (Hall w Hw). subst b. unfold f in Hall.
        destruct (nisnan c) eqn:Ec'; [|reflexivity]. exfalso.
        assert (nisnan w = false) as Ew.
        { apply (nisnan_false RN). apply (nlt_iff RN) in E. destruct (v w); simpl in E; congruence. }
        rewrite Ew in Hall. congruence.
Qed.
End Argmin.

Lemma Forall2_sets {N : Num} (R : pset N -> pset N -> Prop) g h :
  Forall2 R (sets g) (sets h) <-> R (g_stars g) (g_stars h) /\ R (g_dm g) (g_dm h) /\ R (g_gas g) (g_gas h).
Proof.
  unfold sets. split.
  - intros H. inversion H as [|? ? ? ? A H1]; subst. inversion H1 as [|? ? ? ? B H2]; subst.
    inversion H2 as [|? ? ? ? C H3]; subst. auto.
  - intros (A & B & C). repeat constructor; auto.
Qed.

Lemma shift_moved {N : Num} x0 y0 z0 (g : galaxy N) : gal_ok g ->
  moved (fun a => a - x0)%num (fun a => a - y0)%num (fun a => a - z0)%num g (shift_gal x0 y0 z0 g).
Proof.
  intros Hg. split; [reflexivity|]. split; [apply constructible_ok, shift_gal_ok, Hg|].
  apply gal_ok_facts in Hg as [gf_s0 gf_d0 gf_g0 gf_ts0 gf_td0 gf_tg0 gf_hs0 gf_hd0 gf_hg0].
  assert (S : forall p : pset N, pset_ok p -> same_but_positions p (shift x0 y0 z0 p)).
  { intros p Hp. unfold same_but_positions, shift; simpl.
    rewrite (pset_ok_te _ Hp), (pset_ok_ke _ Hp). rewrite (pset_ok_haspot _ Hp). repeat split. }
  apply Forall2_sets. simpl. auto 10.
Qed.

Lemma pset_ok_ext {N : Num} (p q : pset N) : pset_ok p -> pset_ok q ->
  p_type p = p_type q -> p_m p = p_m q -> p_x p = p_x q -> p_y p = p_y q -> p_z p = p_z q ->
  p_vx p = p_vx q -> p_vy p = p_vy q -> p_vz p = p_vz q -> p_pot p = p_pot q -> p_soft p = p_soft q -> p = q.
Proof. unfold pset_ok. intros. congruence. Qed.

Lemma gal_ext {N : Num} (g h : galaxy N) : g_stars g = g_stars h -> g_dm g = g_dm h -> g_gas g = g_gas h ->
  g_haspot g = g_haspot h -> g = h.
Proof. destruct g, h; simpl; intros; congruence. Qed.

(** *** C08 *)

(** Without potential: ValueError.  With potential: both succeed iff there is a particle,
    and raise ValueError on an empty galaxy. *)
Lemma c08_guard : forall (N : Num) (g : galaxy N) rtol atol, constructible g ->
  (g_haspot g = false -> center g = Raise ValueError /\ is_centered g rtol atol = Raise ValueError) /\
  (g_haspot g = true -> glen g = 0%nat ->
     center g = Raise ValueError /\ is_centered g rtol atol = Raise ValueError) /\
  (g_haspot g = true -> (0 < glen g)%nat ->
     (exists g', center g = Ok g') /\ exists b, is_centered g rtol atol = Ok b).
Proof.
  intros N g rtol atol Hg. apply constructible_ok in Hg. split; [|split].
  - intros H. unfold center, is_centered. rewrite H. auto.
  - intros H E. split; [now apply center_empty|now apply is_centered_empty].
  - intros H E. destruct (center_total g Hg H E) as (i & x0 & y0 & z0 & Hi & _ & X & Y & Z & C).
    split; [eauto|]. eexists. eapply is_centered_eq; eauto.
Qed.

Example ex_c08 : exn_of (do g <- gal3 None None None; center g) = Some ValueError /\
  is_ok (do g <- gal3 (Some (-5)%Z) (Some (-9)%Z) (Some (-3)%Z); center g) = true.
Proof. vm_compute. auto. Qed.

(** *** C09 *)

(** [center] subtracts from every position of every set the position of one particle of
    lowest potential; nothing else changes. *)
Lemma c09_translation : forall (N : Num) (RN : Rounded N) (g g' : galaxy N),
  constructible g -> center g = Ok g' ->
  exists i x0 y0 z0, lowest g i /\
    nth_error (all_x g) i = Some x0 /\ nth_error (all_y g) i = Some y0 /\ nth_error (all_z g) i = Some z0 /\
    moved (fun a => a - x0)%num (fun a => a - y0)%num (fun a => a - z0)%num g g'.
Proof.
  intros N RN g g' Hg H. apply constructible_ok in Hg.
  destruct (g_haspot g) eqn:Hp; [|unfold center in H; rewrite Hp in H; discriminate].
  destruct (glen g) eqn:Hn; [rewrite center_empty in H by auto; discriminate|].
  destruct (center_total g Hg Hp) as (i & x0 & y0 & z0 & Hi & _ & X & Y & Z & C); [lia|].
  rewrite C in H. injection H as <-.
  exists i, x0, y0, z0. rewrite all_x_gx, all_y_gy, all_z_gz. repeat split; auto.
  - unfold lowest. rewrite <- sets_len by auto. apply (pd_argmin_spec RN _ _ Hi).
  - apply shift_moved; auto.
  - apply shift_moved; auto.
Qed.

Example ex_c09 : exists g, gal3 (Some (-5)%Z) (Some (-9)%Z) (Some (-3)%Z) = Ok g /\
  rmap (fun g' => (shows (all_x g'), shows (all_y g'))) (center g) =
    Ok ([sZ (-1); sZ 0; sZ 1], [sZ (-1); sZ 0; sZ 1]) /\
  shows (all_x g) = [sZ 2; sZ 3; sZ 4].
Proof. apply ok_sat. vm_compute. auto. Qed.

(** *** C10 *)

(** After [center], if the particles of lowest potential have finite coordinates, one of them sits exactly
    at the origin, and [is_centered] holds for any non-negative [atol] and finite [rtol]. *)
Lemma c10_origin : forall (N : Num) (RN : Rounded N) (g g' : galaxy N),
  constructible g -> center g = Ok g' ->
  (forall i a, lowest g i -> In (Some a) [nth_error (all_x g) i; nth_error (all_y g) i; nth_error (all_z g) i] -> nfin a = true) ->
  (exists i, lowest g' i /\ nth_error (all_x g') i = Some n0 /\
     nth_error (all_y g') i = Some n0 /\ nth_error (all_z g') i = Some n0) /\
  (forall rtol atol, nfin rtol = true -> nle n0 atol = true -> is_centered g' rtol atol = Ok true).
Proof.
  intros N RN g g' Hg H Hf. apply constructible_ok in Hg.
  destruct (g_haspot g) eqn:Hp; [|unfold center in H; rewrite Hp in H; discriminate].
  destruct (glen g) eqn:Hn; [rewrite center_empty in H by auto; discriminate|].
  destruct (center_total g Hg Hp) as (i & x0 & y0 & z0 & Hi & _ & X & Y & Z & C); [lia|].
  rewrite C in H. injection H as <-. rewrite all_x_gx, all_y_gy, all_z_gz in Hf.
  assert (Lo : lowest g i) by (unfold lowest; rewrite <- sets_len by auto; apply (pd_argmin_spec RN); exact Hi).
  assert (Fx : nfin x0 = true) by (apply (Hf i x0 Lo); rewrite X; simpl; auto).
  assert (Fy : nfin y0 = true) by (apply (Hf i y0 Lo); rewrite Y; simpl; auto).
  assert (Fz : nfin z0 = true) by (apply (Hf i z0 Lo); rewrite Z; simpl; auto).
  assert (X' : nth_error (gx (shift_gal x0 y0 z0 g)) i = Some n0).
  { rewrite shift_gx, nth_error_map, X. simpl. now rewrite (sub_self RN) by assumption. }
  assert (Y' : nth_error (gy (shift_gal x0 y0 z0 g)) i = Some n0).
  { rewrite shift_gy, nth_error_map, Y. simpl. now rewrite (sub_self RN) by assumption. }
  assert (Z' : nth_error (gz (shift_gal x0 y0 z0 g)) i = Some n0).
  { rewrite shift_gz, nth_error_map, Z. simpl. now rewrite (sub_self RN) by assumption. }
  pose proof (shift_gal_ok x0 y0 z0 g Hg) as Hg'. split.
  - exists i. rewrite all_x_gx, all_y_gy, all_z_gz. repeat split; auto.
  - intros rtol atol Hr Ha.
    rewrite (is_centered_eq _ i n0 n0 n0) by auto. f_equal. unfold allclose. simpl.
    assert (isclose rtol atol n0 n0 = true) as ->; [|reflexivity].
    unfold isclose.
    assert (nfin (n0 : N) = true) as -> by (apply (nfin_iff RN); rewrite (val_n0 RN); eauto).
    simpl. apply (nle_iff RN). rewrite (val_abs RN), (val_sub RN), (val_add RN), (val_mul RN), (val_abs RN).
    rewrite (val_n0 RN). apply (nfin_iff RN) in Hr as [r Er]. rewrite Er.
    unfold xsub; simpl. rewrite Rabs_R0, Rmult_0_r, Ropp_0, Rplus_0_r.
    rewrite !(rnd_int RN 0) by (pose proof (intmax_pos RN); lia). simpl. rewrite Rabs_R0.
    apply (nle_iff RN) in Ha. rewrite (val_n0 RN) in Ha.
    assert (xadd (val RN atol) (XR 0) = val RN atol) as ->.
    { destruct (val RN atol); simpl; f_equal; try reflexivity; ring. }
    rewrite (rnd_val RN). exact Ha.
Qed.

(** With NaN tolerances the answer of [is_centered] after [center] is False. *)
Example ex_c10 : exists g, (do g <- gal3 (Some (-5)%Z) (Some (-9)%Z) (Some (-3)%Z); center g) = Ok g /\
  is_centered g default_rtol default_atol = Ok true /\ is_centered g nnan n0 = Ok false /\
  shows (all_x g) = [sZ (-1); sZ 0; sZ 1].
Proof. apply ok_sat. vm_compute. auto. Qed.

(** *** C11 *)

(** If the particles of lowest potential have finite coordinates, centring twice is centring once, bit for bit. *)
Lemma c11_idempotent : forall (N : Num) (RN : Rounded N) (g g' : galaxy N),
  constructible g -> center g = Ok g' ->
  (forall i a, lowest g i -> In (Some a) [nth_error (all_x g) i; nth_error (all_y g) i; nth_error (all_z g) i] -> nfin a = true) ->
  center g' = Ok g'.
Proof.
  intros N RN g g' Hg H Hf. apply constructible_ok in Hg.
  destruct (g_haspot g) eqn:Hp; [|unfold center in H; rewrite Hp in H; discriminate].
  destruct (glen g) eqn:Hn; [rewrite center_empty in H by auto; discriminate|].
  destruct (center_total g Hg Hp) as (i & x0 & y0 & z0 & Hi & _ & X & Y & Z & C); [lia|].
  rewrite C in H. injection H as <-. rewrite all_x_gx, all_y_gy, all_z_gz in Hf.
  assert (Lo : lowest g i) by (unfold lowest; rewrite <- sets_len by auto; apply (pd_argmin_spec RN); exact Hi).
  assert (Fx : nfin x0 = true) by (apply (Hf i x0 Lo); rewrite X; simpl; auto).
  assert (Fy : nfin y0 = true) by (apply (Hf i y0 Lo); rewrite Y; simpl; auto).
  assert (Fz : nfin z0 = true) by (apply (Hf i z0 Lo); rewrite Z; simpl; auto).
  assert (X' : nth_error (gx (shift_gal x0 y0 z0 g)) i = Some (nofZ 0)).
  { rewrite shift_gx, nth_error_map, X. simpl. now rewrite (sub_self RN) by assumption. }
  assert (Y' : nth_error (gy (shift_gal x0 y0 z0 g)) i = Some (nofZ 0)).
  { rewrite shift_gy, nth_error_map, Y. simpl. now rewrite (sub_self RN) by assumption. }
  assert (Z' : nth_error (gz (shift_gal x0 y0 z0 g)) i = Some (nofZ 0)).
  { rewrite shift_gz, nth_error_map, Z. simpl. now rewrite (sub_self RN) by assumption. }
  pose proof (shift_gal_ok x0 y0 z0 g Hg) as Hg'.
  set (h := shift_gal x0 y0 z0 g) in *.
  rewrite (center_eq h i (nofZ 0) (nofZ 0) (nofZ 0)) by auto. f_equal.
  assert (E : forall l : list N, map (fun a => (a - nofZ 0)%num) l = l).
  { intros l. rewrite <- (map_id l) at 2. apply map_ext. intros a. apply (sub_zero RN). }
  assert (S : forall p : pset N, pset_ok p -> shift (nofZ 0) (nofZ 0) (nofZ 0) p = p).
  { intros p Hq. apply pset_ok_ext; auto using shift_ok; simpl; auto. }
  apply gal_ok_facts in Hg' as [gf_s0 gf_d0 gf_g0 gf_ts0 gf_td0 gf_tg0 gf_hs0 gf_hd0 gf_hg0].
  apply gal_ext; simpl; auto.
Qed.

Example ex_c11 : exists g, (do g <- gal3 (Some (-5)%Z) (Some (-9)%Z) (Some (-3)%Z); center g) = Ok g /\
  rmap gshow (center g) = Ok (gshow g) /\ forallb nfin (all_x g ++ all_y g ++ all_z g) = true.
Proof. apply ok_sat. vm_compute. auto. Qed.

(** *** C12 *)

Lemma xsub_shift a b t : xsub (xadd a (XR t)) (xadd b (XR t)) = xsub a b.
Proof. unfold xsub. destruct a, b; simpl; try reflexivity; f_equal; ring. Qed.

(** In exact arithmetic: translating a galaxy by any vector does not change the result. *)
Lemma c12_invariance : forall (g gt : galaxy RX) (a b c : R),
  constructible g ->
  moved (N:=RX) (fun v => xadd v (XR a)) (fun v => xadd v (XR b)) (fun v => xadd v (XR c)) g gt ->
  center gt = center g.
Proof.
  intros g gt a b c Hg (Hh & Hc & F). apply constructible_ok in Hg, Hc.
  apply Forall2_sets in F as ((A0 & Ax & Ay & Az) & (B0 & Bx & By & Bz) & (C0 & Cx & Cy & Cz)).
  destruct (g_haspot g) eqn:Hp; [|unfold center; rewrite Hp, Hh; cbn [guard bind]; reflexivity].
  assert (L : glen gt = glen g).
  { unfold glen. destruct A0 as (_ & _ & _ & _ & _ & _ & _ & _ & _ & _ & ->).
    destruct B0 as (_ & _ & _ & _ & _ & _ & _ & _ & _ & _ & ->).
    destruct C0 as (_ & _ & _ & _ & _ & _ & _ & _ & _ & _ & ->). reflexivity. }
  destruct (glen g) eqn:Hn; [rewrite !center_empty by auto; reflexivity|].
  destruct (center_total g Hg Hp) as (i & x0 & y0 & z0 & Hi & _ & X & Y & Z & C); [lia|].
  rewrite C.
  assert (P : gpot gt = gpot g).
  { rewrite !sets_len by auto. unfold all_pots. simpl.
    destruct A0 as (_ & _ & _ & _ & _ & -> & _). destruct B0 as (_ & _ & _ & _ & _ & -> & _).
    destruct C0 as (_ & _ & _ & _ & _ & -> & _). reflexivity. }
  rewrite (center_eq gt i (xadd x0 (XR a)) (xadd y0 (XR b)) (xadd z0 (XR c))); auto.
  - f_equal. pose proof (shift_gal_ok (N:=RX) x0 y0 z0 g Hg) as S.
    pose proof (shift_gal_ok (N:=RX) (xadd x0 (XR a)) (xadd y0 (XR b)) (xadd z0 (XR c)) gt Hc) as S'.
    apply gal_ok_facts in S as [s1 s2 s3 _ _ _ _ _ _].
    apply gal_ok_facts in S' as [t1 t2 t3 _ _ _ _ _ _].
    destruct A0 as (A1 & A2 & A3 & A4 & A5 & A6 & A7 & _).
    destruct B0 as (B1 & B2 & B3 & B4 & B5 & B6 & B7 & _).
    destruct C0 as (C1 & C2 & C3 & C4 & C5 & C6 & C7 & _).
    assert (M : forall (l : list xr) x t,
      map (fun w => xsub w (xadd x (XR t))) (map (fun w => xadd w (XR t)) l) = map (fun w => xsub w x) l).
    { intros l x t. rewrite map_map. apply map_ext. intros w. apply xsub_shift. }
    apply gal_ext; [| | |simpl; congruence];
      (apply pset_ok_ext; [assumption|assumption|simpl; try congruence..];
       rewrite ?Ax, ?Ay, ?Az, ?Bx, ?By, ?Bz, ?Cx, ?Cy, ?Cz; apply M).
  - rewrite P; auto.
  - unfold gx in *. rewrite Ax, Bx, Cx, <- !map_app, nth_error_map, X. reflexivity.
  - unfold gy in *. rewrite Ay, By, Cy, <- !map_app, nth_error_map, Y. reflexivity.
  - unfold gz in *. rewrite Az, Bz, Cz, <- !map_app, nth_error_map, Z. reflexivity.
Qed.

(** In exact arithmetic: separations between particles are preserved. *)
Lemma c12_separation : forall (g g' : galaxy RX) i j (xi xj : R),
  constructible g -> center g = Ok g' ->
  (forall i a, lowest g i -> In (Some a) [nth_error (all_x g) i; nth_error (all_y g) i; nth_error (all_z g) i] -> xfin a = true) ->
  forall coord, coord = all_x \/ coord = all_y \/ coord = all_z ->
  nth_error (coord g) i = Some (XR xi) -> nth_error (coord g) j = Some (XR xj) ->
  exists yi yj, nth_error (coord g') i = Some (XR yi) /\ nth_error (coord g') j = Some (XR yj) /\
    (yi - yj = xi - xj)%R.
Proof.
  intros g g' i j xi xj Hg H Hf coord Hcoord Hi Hj.
  destruct (c09_translation RX RX_rounded g g' Hg H) as (k & x0 & y0 & z0 & Lo & X & Y & Z & Hh & _ & F).
  apply Forall2_sets in F as ((_ & Ax & Ay & Az) & (_ & Bx & By & Bz) & (_ & Cx & Cy & Cz)).
  assert (G : forall c0 (l l' : list xr), xfin c0 = true -> l' = map (fun a => xsub a c0) l ->
    nth_error l i = Some (XR xi) -> nth_error l j = Some (XR xj) ->
    exists yi yj, nth_error l' i = Some (XR yi) /\ nth_error l' j = Some (XR yj) /\ (yi - yj = xi - xj)%R).
  { intros c0 l l' Fc -> Qi Qj. rewrite !nth_error_map, Qi, Qj. destruct c0 as [c0| | |]; try discriminate.
    exists (xi + - c0)%R, (xj + - c0)%R. simpl. repeat split. ring. }
  destruct Hcoord as [ -> | [ -> | -> ] ].
  - apply (G x0 (all_x g)); auto.
    + apply (Hf k x0 Lo). rewrite X. simpl; auto.
    + unfold all_x; simpl. rewrite Ax, Bx, Cx, !app_nil_r, <- !map_app. reflexivity.
  - apply (G y0 (all_y g)); auto.
    + apply (Hf k y0 Lo). rewrite Y. simpl; auto.
    + unfold all_y; simpl. rewrite Ay, By, Cy, !app_nil_r, <- !map_app. reflexivity.
  - apply (G z0 (all_z g)); auto.
    + apply (Hf k z0 Lo). rewrite Z. simpl; auto.
    + unfold all_z; simpl. rewrite Az, Bz, Cz, !app_nil_r, <- !map_app. reflexivity.
Qed.

(** A galaxy in exact arithmetic, to show the hypotheses can be met. *)
Definition rset (t : ptype) (m x y z vx vy vz : R) (pot : R) : pset RX :=
  pset_of (N:=RX) t [XR m] [XR x] [XR y] [XR z] [XR vx] [XR vy] [XR vz] (Some [XR pot]) (XR 0).
Definition rgal (dx : R) : galaxy RX :=
  mkGal (N:=RX) (rset STARS 1 (1 + dx) 2 3 0 1 0 (-5)) (rset DARK_MATTER 1 (2 + dx) 2 3 0 1 0 (-6))
    (rset GAS 1 (4 + dx) 2 3 0 1 0 (-1)) true.
Lemma rgal_ok dx : constructible (rgal dx).
Proof.
  apply constructible_ok, gal_ok_facts. constructor; simpl; try reflexivity.
  all: apply pset_ok_iff; split; [|reflexivity]; repeat split; simpl; intros p [= <-]; reflexivity.
Qed.
Example ex_c12 : constructible (rgal 0) /\
  moved (N:=RX) (fun v => xadd v (XR 7)) (fun v => xadd v (XR 0)) (fun v => xadd v (XR 0)) (rgal 0) (rgal 7).
Proof.
  split; [apply rgal_ok|]. split; [reflexivity|]. split; [apply rgal_ok|].
  apply Forall2_sets. unfold same_but_positions; simpl.
  repeat split; f_equal; f_equal; ring.
Qed.
