(** Property lemmas about utils/_circ.py: C24 - C34. *)
From Coq Require Import Sorted.
From Flocq Require Import Core.Raux.
From Coq Require Import Floats.SpecFloat.
From Verif Require Import Py Num RX F64 Np Df Data DataFacts DfFacts RebuildFacts Center CenterFacts Align
  Spec SpecR SpecCirc Ex DataThms CenterThms AlignFacts AlignThms Circ CircFacts CurveFacts.

Section Inv.
Context {N : Num} (RN : Rounded N).
Local Notation v := (val RN).

Lemma filter_krow (l : list (orbit N)) : filter kb (map krow_of l) = map krow_of (filter bound l).
Proof. rewrite filter_map_comm. reflexivity. Qed.

Lemma jcirc_inv argsort (g : galaxy N) b0 b1 j : gal_ok g -> jcirc argsort g b0 b1 = Ok j ->
  exists (c : scales N) edges, units g (s_e c) (s_z c) (s_p c) /\ bin_edges b0 b1 = Ok edges /\
    curve argsort edges (map (fun o => (o_e o / s_e c)%num) (filter bound (all_orbits g)))
          (map (fun o => (o_jz o / s_z c)%num) (filter bound (all_orbits g))) = Ok (s_pts c) /\
    s_pts c <> [] /\ prefix (map bound (star_orbits g)) = true /\
    j = result c (map krow_of (star_orbits g)).
Proof.
  intros Hg. rewrite (jcirc_run RN) by assumption. unfold run, scaling. rewrite !filter_krow, !map_map.
  destruct (np_min _) as [em|] eqn:Em; [|discriminate]. cbn [bind].
  destruct (np_max _) as [z|] eqn:Ez; [|discriminate]. cbn [bind].
  destruct (bin_edges b0 b1) as [edges|]; [|discriminate]. cbn [bind].
  destruct (curve _ _ _ _) as [pts|] eqn:Ec; [|discriminate]. cbn [bind].
  destruct (np_max (map (fun x => nabs (k_p (krow_of x))) _)) as [p|] eqn:Ep; [|discriminate]. cbn [bind s_pts].
  destruct pts as [|p0 pts]; [discriminate|]. cbn [guard bind].
  change (fun x => kb (krow_of x)) with (@bound N).
  destruct (prefix _) eqn:Pf; [|discriminate]. cbn [guard bind]. intros [= <-].
  rewrite !map_map in Ec. exists (Sc (nabs em) z p (p0 :: pts)), edges. cbn [s_e s_z s_p s_pts].
  split; [|split; [reflexivity|split; [exact Ec|split; [discriminate|split; reflexivity]]]]. split.
  - exists em. split; [|reflexivity]. apply (np_min_spec RN) in Em. exact Em.
  - apply (np_max_spec RN) in Ez. exact Ez.
  - apply (np_max_spec RN) in Ep. exact Ep.
Qed.

Lemma bin_edges_split b0 b1 edges : bin_edges (N:=N) b0 b1 = Ok edges ->
  exists l0 l1, arange nm1 (nlit (-1) 10) b0 = Ok l0 /\ arange (nlit (-1) 10) n0 b1 = Ok l1 /\ edges = l0 ++ l1.
Proof.
  unfold bin_edges. destruct (arange nm1 _ b0) as [l0|]; [|discriminate]. cbn [bind].
  destruct (arange (nlit (-1) 10) n0 b1) as [l1|]; [|discriminate]. cbn [bind]. intros [= <-]. eauto.
Qed.

Lemma curve_nonempty argsort edges (E Z : list N) pts : curve argsort edges E Z = Ok pts -> edges <> [].
Proof.
  unfold curve. destruct (np_argmin E); [|discriminate]. cbn [bind]. intros H ->. discriminate.
Qed.

Lemma prefix_nth {A} (b : A -> bool) s k o : prefix (map b s) = true -> nth_error s k = Some o -> b o = true ->
  nth_error (filter b s) k = Some o.
Proof.
  revert k; induction s as [|x s IH]; intros k; [destruct k; discriminate|]. simpl. intros Hp Hk Ho.
  destruct (b x) eqn:Ex.
  - destruct k as [|k]; [exact Hk|]. simpl in *. auto.
  - exfalso. destruct k as [|k]; [simpl in Hk; congruence|]. simpl in Hk.
    rewrite forallb_forall in Hp. specialize (Hp (b o)). rewrite Ho in Hp. simpl in Hp.
    assert (In true (map b s)) by (rewrite <- Ho; apply in_map; eapply nth_error_In; eauto). 
    specialize (Hp H). discriminate.
Qed.
Lemma prefix_le {A} (b : A -> bool) s i k x y : prefix (map b s) = true -> (i <= k)%nat ->
  nth_error s i = Some x -> nth_error s k = Some y -> b y = true -> b x = true.
Proof.
  revert i k; induction s as [|a s IH]; intros i k; [destruct i; discriminate|]. simpl. intros Hp Hik Hx Hy Hb.
  destruct (b a) eqn:Ea.
  - destruct i as [|i]; [simpl in Hx; congruence|]. destruct k as [|k]; [lia|]. simpl in *. apply (IH i k); auto. lia.
  - exfalso. destruct k as [|k]; [simpl in Hy; congruence|]. simpl in Hy. rewrite forallb_forall in Hp.
    assert (In true (map b s)) by (rewrite <- Hb; apply in_map; eapply nth_error_In; eauto).
    specialize (Hp _ H). discriminate.
Qed.
Lemma not_prefix {A} (b : A -> bool) s : prefix (map b s) = false ->
  exists i k x y, (i < k)%nat /\ nth_error s i = Some x /\ nth_error s k = Some y /\ b x = false /\ b y = true.
Proof.
  induction s as [|a s IH]; simpl; [discriminate|]. destruct (b a) eqn:Ea.
  - intros H. destruct (IH H) as (i & k & x & y & H1 & H2 & H3 & H4). exists (S i), (S k), x, y. split; [lia|]. auto.
  - intros H. assert (exists y, In y s /\ b y = true) as (y & Iy & By).
    { clear - H. induction s as [|c s IH]; simpl in *; [discriminate|]. destruct (b c) eqn:E; [eauto|].
      destruct (IH H) as (y & ? & ?). eauto. }
    apply In_nth_error in Iy as [k Hk]. exists 0%nat, (S k), a, y. repeat split; auto. lia.
Qed.

(** *** Quotients by a bound *)
Lemma v_n1 : v n1 = XR 1. Proof. apply (val_n1 RN). Qed.
Lemma rnd_between r a b : (Z.abs a <= 1)%Z -> (Z.abs b <= 1)%Z -> (IZR a <= r <= IZR b)%R ->
  xle (XR (IZR a)) (rnd RN (XR r)) /\ xle (rnd RN (XR r)) (XR (IZR b)).
Proof.
  intros Ha Hb [H1 H2]. pose proof (intmax_pos RN).
  rewrite <- (rnd_int RN a), <- (rnd_int RN b) by lia. split; apply (rnd_mono RN); simpl; lra.
Qed.
Definition within (lo hi x : N) : Prop := nisnan x = true \/ (nle lo x = true /\ nle x hi = true).

Lemma within_div (x m : N) a b : (Z.abs a <= 1)%Z -> (Z.abs b <= 1)%Z -> (a <= 0 <= b)%Z -> (a = -1)%Z ->
  xle (v (nabs x)) (v m) -> (b = 0%Z -> xle (v x) (XR 0)) ->
  nisnan (x / m)%num = true \/
  (xle (XR (IZR a)) (v (x / m)%num) /\ xle (v (x / m)%num) (XR (IZR b))).
Proof.
  intros Ha Hb Hab Hm1 Hx H0. rewrite (val_abs RN) in Hx. subst a.
  destruct (v m) as [r| | |] eqn:Vm.
  - destruct (v x) as [q| | |] eqn:Vx; simpl in Hx; try contradiction.
    destruct (Req_EM_T r 0) as [->|Hr].
    + left. apply (nisnan_iff RN). apply (val_div0_nan RN); [|exact Vm].
      rewrite Vx. assert (Rabs q = 0)%R by (pose proof (Rabs_pos q); lra).
      destruct (Req_EM_T q 0) as [->|]; [reflexivity|]. apply Rabs_no_R0 in n. contradiction.
    + right. assert (Hp : (0 < r)%R) by (pose proof (Rabs_pos q); lra).
      assert (E : v (x / m)%num = rnd RN (XR (q / r))).
      { rewrite (val_div RN) by (rewrite Vm; congruence). rewrite Vx, Vm. simpl. destruct (Req_EM_T r 0); [contradiction|reflexivity]. }
      rewrite E. apply rnd_between; auto; try lia.
      assert (Hq : (- r <= q <= r)%R) by (split; [pose proof (Rle_abs (- q)); rewrite Rabs_Ropp in *; lra|pose proof (Rle_abs q); lra]).
      split.
      * apply Rmult_le_reg_r with r; [exact Hp|]. unfold Rdiv. rewrite Rmult_assoc, Rinv_l, Rmult_1_r by exact Hr. lra.
      * apply Rmult_le_reg_r with r; [exact Hp|]. unfold Rdiv. rewrite Rmult_assoc, Rinv_l, Rmult_1_r by exact Hr.
        assert (b = 0 \/ b = 1)%Z as [->| ->] by lia; [specialize (H0 eq_refl); simpl in H0; lra|lra].
  - assert (V : v (x / m)%num = XNaN \/ v (x / m)%num = XR 0).
    { rewrite (val_div RN) by (rewrite Vm; discriminate). rewrite Vm.
      destruct (v x); simpl; rewrite ?(rnd_nan RN); auto. right. exact (rnd_int RN 0 ltac:(pose proof (intmax_pos RN); simpl; lia)). }
    destruct V as [V|V]; [left; now apply (nisnan_iff RN)|right]. rewrite V. simpl.
    assert (0 <= IZR b)%R by (apply IZR_le; lia). lra.
  - destruct (v x); simpl in Hx; contradiction.
  - exfalso. destruct (v x); simpl in Hx; contradiction.
Qed.

Lemma nisnan_div_r (x m : N) : nisnan m = true -> nisnan (x / m)%num = true.
Proof.
  intros H. apply (nisnan_iff RN) in H. apply (nisnan_iff RN). rewrite (val_div RN) by (rewrite H; discriminate).
  rewrite H. replace (xdiv (v x) XNaN) with XNaN by (now destruct (v x)). apply (rnd_nan RN).
Qed.

Lemma z_within (l : list (orbit N)) uz o : largest (fun o => nabs (o_jz o)) l uz -> In o l -> within nm1 n1 (o_jz o / uz)%num.
Proof.
  intros [_ [H|H]] Ho; [left; now apply nisnan_div_r|].
  destruct (within_div (o_jz o) uz (-1) 1) as [W|[W1 W2]]; try lia.
  - apply (nle_iff RN). now apply (H o).
  - left; exact W.
  - right. split; apply (nle_iff RN); [now rewrite (val_nm1 RN)|now rewrite v_n1].
Qed.
Lemma bound_val (o : orbit N) : bound o = true -> exists r, v (o_e o) = XR r /\ (r <= 0)%R.
Proof.
  unfold bound. intros H. apply andb_prop in H as [H1 H2]. apply (nle_iff RN) in H1. rewrite (val_n0 RN) in H1.
  destruct (v (o_e o)) as [r| | |] eqn:V; simpl in H1; try contradiction.
  - eauto.
  - exfalso. assert (neqb (o_e o) nninf = true); [|rewrite H in H2; discriminate].
    apply (neqb_iff RN). rewrite V, (val_nninf RN). split; [reflexivity|discriminate].
Qed.
Lemma e_within (l : list (orbit N)) ue o : (exists e, smallest o_e (filter bound l) e /\ ue = nabs e) ->
  In o (filter bound l) -> within nm1 n0 (o_e o / ue)%num.
Proof.
  intros (e & [[a [Ia Ea]] H] & ->) Ho. pose proof Ho as Hb. apply filter_In in Hb as [_ Hb]. apply filter_In in Ia as [_ Ia].
  destruct (bound_val a Ia) as (re & Ve & Le). destruct (bound_val o Hb) as (r & Vo & Lo). rewrite Ea in Ve.
  destruct H as [H|H]; [apply (nisnan_iff RN) in H; congruence|].
  specialize (H o Ho). apply (nle_iff RN) in H. rewrite Ve, Vo in H. simpl in H.
  destruct (within_div (o_e o) (nabs e) (-1) 0) as [W|[W1 W2]]; try lia.
  - rewrite !(val_abs RN), Ve, Vo. simpl. rewrite !Rabs_left1 by lra. lra.
  - intros _. rewrite Vo. exact Lo.
  - left; exact W.
  - right. split; apply (nle_iff RN); [now rewrite (val_nm1 RN)|now rewrite (val_n0 RN)].
Qed.
Lemma star_in_all (g : galaxy N) o : In o (star_orbits g) -> In o (all_orbits g).
Proof. intros H. unfold all_orbits, sets. simpl. apply in_or_app. auto. Qed.

Lemma nnan_isnan : nisnan (nnan : N) = true.
Proof. apply (nisnan_iff RN), (val_nnan RN). Qed.
Lemma v_nle (x y : N) : nisnan x = false -> nisnan y = false -> nlt y x = false -> nle x y = true.
Proof.
  intros Hx Hy H. apply (nle_iff RN). apply (nisnan_false RN) in Hx, Hy. apply (nlt_false RN) in H.
  destruct (xle_total (v x) (v y)); auto. contradiction.
Qed.
End Inv.

(** *** C24 *)

(** Every circularity is NaN or in [-1,1]; a bound star keeps its normalised energy, Jz,
    Jz/Jcirc and Jp/Jcirc when Jz/Jcirc is not out of [-1,1], and gets NaN for all four
    otherwise. *)
Lemma c24_eps : forall (N : Num) (RN : Rounded N) argsort (g : galaxy N) b0 b1 j,
  constructible g -> jcirc argsort g b0 b1 = Ok j ->
  (forall w, In w (jc_eps j) -> nisnan w = true \/ (nle nm1 w = true /\ nle w n1 = true)) /\
  exists ue uz up, units g ue uz up /\
    forall k o, nth_error (star_orbits g) k = Some o -> bound o = true ->
      let jc := interp1 (combine (jc_x j) (jc_y j)) (o_e o / ue)%num in
      let raw := (o_jz o / uz / jc)%num in
      let out a := if nlt n1 raw || nlt raw nm1 then Some nnan else Some a in
      nth_error (jc_E j) k = out (o_e o / ue)%num /\
      nth_error (jc_Jz j) k = out (o_jz o / uz)%num /\
      nth_error (jc_eps j) k = out raw /\
      nth_error (jc_eps_r j) k = out (o_jp o / up / jc)%num.
Proof.
  intros N RN argsort g b0 b1 j Hg Hj. apply constructible_ok in Hg.
  destruct (jcirc_inv RN _ _ _ _ _ Hg Hj) as (c & edges & U & _ & _ & _ & Pf & ->). split.
  - cbn [jc_eps result]. intros w Hw. apply in_map_iff in Hw as (k & <- & Hk). unfold kept, keep, out_of_range.
    destruct (kb k); [|left; apply (nnan_isnan RN)]. cbn [andb].
    destruct (nisnan (raw_eps c k)) eqn:En.
    { left. destruct (_ || _); [apply (nnan_isnan RN)|exact En]. }
    destruct (nlt n1 _) eqn:L1; [left; apply (nnan_isnan RN)|]. destruct (nlt _ nm1) eqn:L2; [left; apply (nnan_isnan RN)|].
    right. simpl. split; apply (v_nle RN); auto.
    + apply (nisnan_false RN). rewrite (val_nm1 RN). discriminate.
    + apply (nisnan_false RN). rewrite (val_n1 RN). discriminate.
  - exists (s_e c), (s_z c), (s_p c). split; [exact U|]. intros k o Hk Ho. cbn [jc_x jc_y jc_E jc_Jz jc_eps jc_eps_r result].
    assert (Cp : combine (map fst (s_pts c)) (map snd (s_pts c)) = s_pts c).
    { clear. induction (s_pts c) as [|[a b] l IH]; simpl; congruence. }
    rewrite Cp. rewrite filter_krow, !map_map, !nth_error_map, Hk, (prefix_nth bound _ _ _ Pf Hk Ho). cbn [option_map].
    unfold kept, keep, out_of_range. change (kb (krow_of o)) with (bound o). rewrite Ho. cbn [andb].
    change (raw_eps c (krow_of o)) with (o_jz o / s_z c / interp1 (s_pts c) (o_e o / s_e c))%num.
    destruct (_ || _); cbn [negb]; repeat split; reflexivity.
Qed.

(** *** C25 *)

(** Normalised energies are NaN or in [-1,0], normalised angular momenta NaN or in [-1,1],
    rounding included. *)
Lemma c25_bounded : forall (N : Num) (RN : Rounded N) argsort (g : galaxy N) b0 b1 j,
  constructible g -> jcirc argsort g b0 b1 = Ok j ->
  (forall w, In w (jc_E j) -> nisnan w = true \/ (nle nm1 w = true /\ nle w n0 = true)) /\
  (forall w, In w (jc_Jz j) -> nisnan w = true \/ (nle nm1 w = true /\ nle w n1 = true)).
Proof.
  intros N RN argsort g b0 b1 j Hg Hj. apply constructible_ok in Hg.
  destruct (jcirc_inv RN _ _ _ _ _ Hg Hj) as (c & edges & U & _ & _ & _ & Pf & ->). cbn [jc_E jc_Jz result].
  split; intros w Hw.
  - rewrite map_map in Hw. apply in_map_iff in Hw as (o & <- & Ho). unfold kept, keep.
    change (kb (krow_of o)) with (bound o). destruct (bound o) eqn:B; [|left; apply (nnan_isnan RN)].
    cbn [andb]. destruct (negb _); [|left; apply (nnan_isnan RN)].
    apply (e_within RN (all_orbits g) (s_e c) o); [apply U|]. apply filter_In. split; [now apply star_in_all|exact B].
  - rewrite filter_krow, map_map in Hw. apply in_map_iff in Hw as (o & <- & Ho). unfold kept.
    destruct (keep c (krow_of o)); [|left; apply (nnan_isnan RN)].
    apply (z_within RN (filter bound (all_orbits g)) (s_z c) o); [apply U|].
    apply filter_In in Ho as [H1 H2]. apply filter_In. split; [now apply star_in_all|exact H2].
Qed.

(** *** C26 *)

(** A star with positive, NaN or -inf energy gets NaN energy, eps and eps_r. *)
Lemma c26_unbound : forall (N : Num) (RN : Rounded N) argsort (g : galaxy N) b0 b1 j k o,
  constructible g -> jcirc argsort g b0 b1 = Ok j -> nth_error (star_orbits g) k = Some o ->
  (nlt n0 (o_e o) = true \/ nisnan (o_e o) = true \/ neqb (o_e o) nninf = true) ->
  nth_error (jc_E j) k = Some nnan /\ nth_error (jc_eps j) k = Some nnan /\ nth_error (jc_eps_r j) k = Some nnan.
Proof.
  intros N RN argsort g b0 b1 j k o Hg Hj Hk Ho. apply constructible_ok in Hg.
  destruct (jcirc_inv RN _ _ _ _ _ Hg Hj) as (c & edges & U & _ & _ & _ & Pf & ->). cbn [jc_E jc_eps jc_eps_r result].
  assert (B : bound o = false).
  { unfold bound. destruct Ho as [H|[H|H]].
    - destruct (nle (o_e o) n0) eqn:L; [|reflexivity]. apply (nle_iff RN) in L. apply (nlt_iff RN) in H.
      exfalso. exact (xlt_not_le _ _ H L).
    - destruct (nle (o_e o) n0) eqn:L; [|reflexivity]. apply (nle_iff RN) in L. apply (nisnan_iff RN) in H.
      exfalso. exact (xle_nan_l _ _ L H).
    - rewrite H. apply andb_false_r. }
  rewrite !map_map, !nth_error_map, Hk. cbn [option_map]. unfold kept, keep. change (kb (krow_of o)) with (bound o).
  rewrite B. repeat split; reflexivity.
Qed.

(** *** C29 and C30 *)

Lemma energies_nan {N : Num} (p : pset N) : p_te p = None -> forall o, In o (orbits p) -> o_e o = nnan.
Proof.
  intros H o. unfold orbits, energies. rewrite H. generalize (p_Jx p) (p_Jy p) (p_Jz p) (plen p). intros a b c n.
  revert a b c. induction n as [|n IH]; intros [|x a] [|y b] [|z c]; simpl; try tauto.
  intros [<-|Ho]; [reflexivity|]. eapply IH; eauto.
Qed.

(** Without potential, and without a bound particle, ValueError. *)
Lemma c29_errors : forall (N : Num) (RN : Rounded N) argsort (g : galaxy N) b0 b1, constructible g ->
  (g_haspot g = false -> jcirc argsort g b0 b1 = Raise ValueError) /\
  ((forall o, In o (all_orbits g) -> bound o = false) -> jcirc argsort g b0 b1 = Raise ValueError).
Proof.
  intros N RN argsort g b0 b1 Hg. apply constructible_ok in Hg.
  assert (Q : (forall o, In o (all_orbits g) -> bound o = false) -> jcirc argsort g b0 b1 = Raise ValueError).
  { intros H. rewrite (jcirc_run RN) by assumption. unfold run, scaling. rewrite filter_krow.
    assert (filter bound (all_orbits g) = []) as ->; [|reflexivity].
    revert H. generalize (all_orbits g). induction l as [|a l IH]; simpl; intros H; [reflexivity|].
    rewrite (H a) by auto. auto. }
  split; [|exact Q]. intros Hp. apply Q. intros o Ho.
  apply gal_ok_facts in Hg as [gf_s gf_d gf_g gf_ts gf_td gf_tg gf_hs gf_hd gf_hg].
  assert (T : forall p : pset N, pset_ok p -> p_haspot p = g_haspot g -> p_te p = None).
  { intros p Hok Hh. rewrite Hp, (pset_ok_haspot p Hok) in Hh. apply pset_ok_iff in Hok as [_ E]. rewrite E. simpl.
    destruct (p_pot p); [discriminate|reflexivity]. }
  assert (E : o_e o = nnan).
  { unfold all_orbits in Ho. apply in_flat_map in Ho as (p & Ip & Io). apply (energies_nan p); [|exact Io].
    simpl in Ip. destruct Ip as [<-|[<-|[<-|[]]]]; auto. }
  unfold bound. rewrite E. destruct (nle nnan n0) eqn:L; [|reflexivity]. exfalso. apply (nle_iff RN) in L.
  rewrite (val_nnan RN) in L. exact L.
Qed.

Lemma run_total {N : Num} (RN : Rounded N) argsort (g : galaxy N) b0 b1 l0 l1 : gal_ok g -> sorting argsort ->
  arange nm1 (nlit (-1) 10) b0 = Ok l0 -> arange (nlit (-1) 10) n0 b1 = Ok l1 -> l0 ++ l1 <> [] ->
  (exists o, In o (all_orbits g) /\ bound o = true) ->
  exists c, s_pts c <> [] /\ jcirc argsort g b0 b1 =
    if prefix (map bound (star_orbits g)) then Ok (result c (map krow_of (star_orbits g))) else Raise IndexError.
Proof.
  intros Hg Hs H0 H1 Hne (o & Io & Bo). rewrite (jcirc_run RN) by assumption. unfold run, scaling.
  assert (Hb : filter bound (all_orbits g) <> []).
  { intros Z. assert (In o []) as []. rewrite <- Z. apply filter_In. auto. }
  rewrite !filter_krow, !map_map. set (b := filter bound (all_orbits g)) in *.
  assert (M1 : forall f : orbit N -> N, exists m, np_min (map f b) = Ok m) by (intros f; destruct b; [tauto|simpl; eauto]).
  assert (M2 : forall f : orbit N -> N, exists m, np_max (map f b) = Ok m) by (intros f; destruct b; [tauto|simpl; eauto]).
  destruct (M1 (fun x => k_e (krow_of x))) as [em Em]. rewrite Em. cbn [bind].
  destruct (M2 (fun x => nabs (k_z (krow_of x)))) as [z Ez]. rewrite Ez. cbn [bind].
  unfold bin_edges. rewrite H0, H1. cbn [bind]. rewrite !map_map.
  destruct (curve_ok (fun x => (k_e (krow_of x) / nabs em)%num) (fun x => (k_z (krow_of x) / z)%num) argsort (l0 ++ l1) b Hb Hne) as [pts Ec].
  rewrite Ec. cbn [bind].
  destruct (M2 (fun x => nabs (k_p (krow_of x)))) as [p Ep]. rewrite Ep. cbn [bind s_pts].
  destruct (curve_spec RN _ _ _ _ _ _ Hs Hne Ec) as (raw & R & T).
  destruct (trimmed_head RN _ _ _ _ _ Hne R) as (a0 & r & _ & _ & T'). rewrite T' in T.
  exists (Sc (nabs em) z p pts). split; [cbn [s_pts]; rewrite T; discriminate|]. rewrite T. cbn [guard bind].
  change (fun x => kb (krow_of x)) with (@bound N).
  destruct (prefix _); reflexivity.
Qed.

(** When jcirc returns, the bound stars come before all the unbound ones. *)
Lemma c30_prefix : forall (N : Num) (RN : Rounded N) argsort (g : galaxy N) b0 b1 j i k oi ok,
  constructible g -> jcirc argsort g b0 b1 = Ok j -> (i <= k)%nat ->
  nth_error (star_orbits g) i = Some oi -> nth_error (star_orbits g) k = Some ok ->
  bound ok = true -> bound oi = true.
Proof.
  intros N RN argsort g b0 b1 j i k oi ok Hg Hj Hik Hi Hk Hb. apply constructible_ok in Hg.
  destruct (jcirc_inv RN _ _ _ _ _ Hg Hj) as (c & edges & _ & _ & _ & _ & Pf & _).
  exact (prefix_le bound _ _ _ _ _ Pf Hik Hi Hk Hb).
Qed.

(** With valid bins, an unbound star before a bound one makes it fail with IndexError. *)
Lemma c30_fails : forall (N : Num) (RN : Rounded N) argsort (g : galaxy N) b0 b1 l0 l1 i k oi ok,
  constructible g -> sorting argsort ->
  arange nm1 (nlit (-1) 10) b0 = Ok l0 -> arange (nlit (-1) 10) n0 b1 = Ok l1 -> l0 ++ l1 <> [] ->
  (i < k)%nat -> nth_error (star_orbits g) i = Some oi -> nth_error (star_orbits g) k = Some ok ->
  bound oi = false -> bound ok = true ->
  jcirc argsort g b0 b1 = Raise IndexError.
Proof.
  intros N RN argsort g b0 b1 l0 l1 i k oi ok Hg Hs H0 H1 Hne Hik Hi Hk Bi Bk. apply constructible_ok in Hg.
  destruct (run_total RN argsort g b0 b1 l0 l1 Hg Hs H0 H1 Hne) as (c & _ & ->).
  { exists ok. split; [|exact Bk]. apply star_in_all. eapply nth_error_In; eauto. }
  destruct (prefix _) eqn:Pf; [|reflexivity]. exfalso.
  rewrite (prefix_le bound _ _ _ _ _ Pf (Nat.lt_le_incl _ _ Hik) Hi Hk Bk) in Bi. discriminate.
Qed.

(** With valid bins, jcirc returns exactly when there is a bound particle and no unbound
    star comes before a bound one. *)
Lemma c30_returns : forall (N : Num) (RN : Rounded N) argsort (g : galaxy N) b0 b1 l0 l1,
  constructible g -> sorting argsort ->
  arange nm1 (nlit (-1) 10) b0 = Ok l0 -> arange (nlit (-1) 10) n0 b1 = Ok l1 -> l0 ++ l1 <> [] ->
  ((exists j, jcirc argsort g b0 b1 = Ok j) <->
   (exists o, In o (all_orbits g) /\ bound o = true) /\
   (forall i k oi ok, (i < k)%nat -> nth_error (star_orbits g) i = Some oi ->
      nth_error (star_orbits g) k = Some ok -> bound ok = true -> bound oi = true)).
Proof.
  intros N RN argsort g b0 b1 l0 l1 Hg Hs H0 H1 Hne. split.
  - intros [j Hj]. split.
    + destruct (existsb bound (all_orbits g)) eqn:Eb; [apply existsb_exists in Eb; exact Eb|].
      exfalso. assert (jcirc argsort g b0 b1 = Raise ValueError); [|congruence].
      apply (c29_errors N RN); [exact Hg|]. intros o Ho. destruct (bound o) eqn:B; [|reflexivity].
      rewrite <- Eb. symmetry. apply existsb_exists. eauto.
    + intros i k oi ok Hik. apply (c30_prefix N RN argsort g b0 b1 j i k oi ok Hg Hj). lia.
  - intros [Hb Hp]. apply constructible_ok in Hg.
    destruct (run_total RN argsort g b0 b1 l0 l1 Hg Hs H0 H1 Hne Hb) as (c & _ & E). rewrite E.
    destruct (prefix _) eqn:Pf; [eauto|]. apply not_prefix in Pf as (i & k & x & y & Hik & Hx & Hy & Bx & By).
    rewrite (Hp i k x y) in Bx by auto. discriminate.
Qed.

(** *** C31 *)

(** One energy, eps and eps_r per star, but one Jz per bound star, so that the finiteness
    mask can be formed exactly when all stars are bound. *)
Lemma c31_lengths : forall (N : Num) (RN : Rounded N) argsort (g : galaxy N) b0 b1 j,
  constructible g -> jcirc argsort g b0 b1 = Ok j ->
  length (jc_E j) = plen (g_stars g) /\ length (jc_eps j) = plen (g_stars g) /\
  length (jc_eps_r j) = plen (g_stars g) /\
  length (jc_Jz j) = length (filter bound (star_orbits g)) /\
  (length (jc_Jz j) = length (jc_E j) <-> forall o, In o (star_orbits g) -> bound o = true) /\
  ((forall o, In o (star_orbits g) -> bound o = true) <-> exists m, jc_isfinite j = Ok m) /\
  ((exists o, In o (star_orbits g) /\ bound o = false) <-> jc_isfinite j = Raise ValueError).
Proof.
  intros N RN argsort g b0 b1 j Hg Hj. apply constructible_ok in Hg.
  destruct (jcirc_inv RN _ _ _ _ _ Hg Hj) as (c & edges & _ & _ & _ & _ & _ & ->).
  assert (Ls : length (star_orbits g) = plen (g_stars g)) by (apply orbits_cols; apply Hg).
  assert (L : forall l : list (orbit N), (length (filter bound l) = length l) <-> forall o, In o l -> bound o = true).
  { clear. induction l as [|o l IH]; simpl; [tauto|]. destruct (bound o) eqn:B; simpl.
    - split; [intros E x [<-|Hx]; [exact B|apply IH; auto]|]. intros H. f_equal. apply IH. auto.
    - split; [intros E; pose proof (filter_le bound l); lia|]. intros H. rewrite H in B by auto. discriminate. }
  assert (E1 : length (jc_E (result c (map krow_of (star_orbits g)))) = plen (g_stars g))
    by (cbn [jc_E result]; now rewrite !map_length).
  assert (E2 : length (jc_eps (result c (map krow_of (star_orbits g)))) = plen (g_stars g))
    by (cbn [jc_eps result]; now rewrite !map_length).
  assert (E3 : length (jc_eps_r (result c (map krow_of (star_orbits g)))) = plen (g_stars g))
    by (cbn [jc_eps_r result]; now rewrite !map_length).
  assert (E4 : length (jc_Jz (result c (map krow_of (star_orbits g)))) = length (filter bound (star_orbits g)))
    by (cbn [jc_Jz result]; now rewrite map_length, filter_krow, map_length).
  assert (E5 : length (jc_Jz (result c (map krow_of (star_orbits g)))) = length (jc_E (result c (map krow_of (star_orbits g)))) <->
     forall o, In o (star_orbits g) -> bound o = true) by (rewrite E4, E1, <- Ls; apply L).
  split; [exact E1|]. split; [exact E2|]. split; [exact E3|]. split; [exact E4|]. split; [exact E5|].
  unfold jc_isfinite. cbv zeta. rewrite E2, E3, E1, Nat.eqb_refl, !andb_true_r.
  rewrite E1 in E5. destruct (Nat.eqb_spec (length (jc_Jz (result c (map krow_of (star_orbits g))))) (plen (g_stars g))) as [Eq|Ne];
    cbn [guard bind].
  - split; [split; [eauto|intros _; now apply E5]|]. split; [|discriminate]. intros (o & Ho & Bo).
    rewrite (proj1 E5 Eq o Ho) in Bo. discriminate.
  - split; [split; [intros H; now apply E5 in H|intros [m Hm]; discriminate]|]. split; [reflexivity|]. intros _.
    destruct (forallb bound (star_orbits g)) eqn:F.
    + exfalso. apply Ne, E5. now apply forallb_forall.
    + clear - F. induction (star_orbits g) as [|o l IH]; simpl in F; [discriminate|].
      destruct (bound o) eqn:B; [|exists o; simpl; auto]. destruct (IH F) as (x & Hx & Bx). exists x. simpl; auto.
Qed.

(** *** C27 *)

Definition ofE {N : Num} (ue : N) (o : orbit N) : N := (o_e o / ue)%num.
Definition ofZ {N : Num} (uz : N) (o : orbit N) : N := (o_jz o / uz)%num.

(** What is known of the curve of a successful run. *)
Lemma curve_of_run {N : Num} (RN : Rounded N) argsort (g : galaxy N) b0 b1 j :
  gal_ok g -> sorting argsort -> jcirc argsort g b0 b1 = Ok j ->
  exists ue uz up l0 l1 raw, units g ue uz up /\
    arange nm1 (nlit (-1) 10) b0 = Ok l0 /\ arange (nlit (-1) 10) n0 b1 = Ok l1 /\ l0 ++ l1 <> [] /\
    raw_points (ofE ue) (ofZ uz) (l0 ++ l1) (filter bound (all_orbits g)) raw /\
    combine (jc_x j) (jc_y j) = trimmed (ofE ue) (l0 ++ l1) (filter bound (all_orbits g)) raw /\
    jc_x j = map fst (trimmed (ofE ue) (l0 ++ l1) (filter bound (all_orbits g)) raw) /\
    jc_y j = map snd (trimmed (ofE ue) (l0 ++ l1) (filter bound (all_orbits g)) raw).
Proof.
  intros Hg Hs Hj. destruct (jcirc_inv RN _ _ _ _ _ Hg Hj) as (c & edges & U & He & Hc & Hn & _ & ->).
  pose proof (curve_nonempty _ _ _ _ _ Hc) as Hne. destruct (bin_edges_split _ _ _ He) as (l0 & l1 & H0 & H1 & ->).
  destruct (curve_spec RN (ofE (s_e c)) (ofZ (s_z c)) _ _ _ _ Hs Hne Hc) as (raw & R & T).
  exists (s_e c), (s_z c), (s_p c), l0, l1, raw. cbn [jc_x jc_y result].
  assert (Cp : combine (map fst (s_pts c)) (map snd (s_pts c)) = s_pts c).
  { clear. induction (s_pts c) as [|[a b] l IH]; simpl; congruence. }
  rewrite Cp. repeat (split; [assumption|]). split; now rewrite <- T.
Qed.

Lemma ebin_not_nan {N : Num} (RN : Rounded N) edges i (x : N) : ebin edges i x = true -> nisnan x = false.
Proof.
  unfold ebin. destruct (nth_error edges (i - 1)) as [lo|]; [|discriminate]. intros H. apply andb_prop in H as [H _].
  apply (nlt_iff RN) in H. apply (nisnan_false RN). intros W. rewrite W in H. destruct (val RN lo); contradiction.
Qed.

(** For any bins whose edges do not decrease and start at -1, x and y have equal non-zero
    lengths, x starts at -1, increases strictly and stays below 0. *)
Lemma c27_edges : forall (N : Num) (RN : Rounded N) argsort (g : galaxy N) b0 b1 l0 l1 j,
  constructible g -> sorting argsort ->
  arange nm1 (nlit (-1) 10) b0 = Ok l0 -> arange (nlit (-1) 10) n0 b1 = Ok l1 ->
  nth_error (l0 ++ l1) 0 = Some nm1 ->
  (forall i k a b, (i < k)%nat -> nth_error (l0 ++ l1) i = Some a -> nth_error (l0 ++ l1) k = Some b -> nle a b = true) ->
  jcirc argsort g b0 b1 = Ok j ->
  length (jc_x j) = length (jc_y j) /\ nth_error (jc_x j) 0 = Some nm1 /\
  (forall i k a b, (i < k)%nat -> nth_error (jc_x j) i = Some a -> nth_error (jc_x j) k = Some b -> nlt a b = true) /\
  (forall a, In a (jc_x j) -> nlt a n0 = true).
Proof.
  intros N RN argsort g b0 b1 l0 l1 j Hg Hs H0 H1 Hfirst Hle Hj. apply constructible_ok in Hg.
  destruct (curve_of_run RN _ _ _ _ _ Hg Hs Hj) as (ue & uz & up & k0 & k1 & raw & U & G0 & G1 & Hne & R & T & X & Y).
  rewrite H0 in G0. injection G0 as <-. rewrite H1 in G1. injection G1 as <-.
  assert (Hr : rising (l0 ++ l1)) by (split; assumption).
  pose proof (trimmed_sorted RN _ _ _ _ _ Hr R) as S.
  destruct (trimmed_head RN _ _ _ _ _ Hne R) as (a0 & r & Ia & Ma & E).
  split; [rewrite X, Y, !map_length; reflexivity|].
  rewrite X. split; [rewrite E; reflexivity|]. split.
  - intros i k a b Hik Ha Hb. rewrite nth_error_map in Ha, Hb.
    destruct (nth_error (trimmed _ _ _ _) i) as [p|] eqn:Ep; [|discriminate].
    destruct (nth_error (trimmed _ _ _ _) k) as [q|] eqn:Eq; [|discriminate].
    injection Ha as <-. injection Hb as <-. exact (proj2 (SS_nth _ _) S i k p q Hik Ep Eq).
  - intros a Ha. rewrite E in Ha. cbn [map] in Ha. destruct Ha as [<-|Ha].
    + apply (nlt_iff RN). simpl fst. rewrite (val_nm1 RN), (val_n0 RN). simpl. lra.
    + apply in_map_iff in Ha as (q & <- & Hq).
      destruct (trimmed_tail RN _ _ _ _ _ _ _ _ Hne R E Hq) as (Nz & i & _ & C & _).
      unfold nzx in Nz. destruct C as [[_ ->]|(o & Ho & -> & _)].
      { simpl in Nz. rewrite (n0_eqb RN) in Nz. discriminate. }
      simpl in Nz. apply filter_In in Ho as [Ho Bo]. simpl fst.
      destruct (e_within RN (all_orbits g) ue o (unit_e _ _ _ _ U) Ho) as [W|[_ W]].
      * exfalso. apply (ebin_not_nan RN) in Bo. unfold ofE in Bo. congruence.
      * apply (nlt_iff RN). apply (nle_iff RN) in W. destruct (xle_lt_or_eq _ _ W) as [|Q]; [assumption|].
        exfalso. apply negb_true_iff in Nz. assert (neqb (ofE ue o) n0 = true); [|congruence].
        apply (neqb_iff RN). split; [exact Q|]. unfold ofE. rewrite Q, (val_n0 RN). discriminate.
Qed.

Lemma nth_arange_fill {N : Num} (a s : N) n i x : nth_error (arange_fill a s n) i = Some x ->
  (i < n)%nat /\ x = match i with O => a | S O => (a + s)%num | _ => (a + nofZ (Z.of_nat i) * ((a + s) - a))%num end.
Proof.
  intros H. unfold arange_fill in H. rewrite nth_error_map in H.
  destruct (Nat.lt_ge_cases i n) as [L|L].
  - rewrite (nth_error_nth' _ 0%nat) in H by (now rewrite seq_length). rewrite seq_nth in H by assumption.
    injection H as <-. auto.
  - rewrite (proj2 (nth_error_None _ _)) in H by (now rewrite seq_length). discriminate.
Qed.

Local Open Scope R_scope.
Lemma nth_fillRX a s n i x : nth_error (arange_fill (N:=RX) (XR a) (XR s) n) i = Some x ->
  (i < n)%nat /\ x = XR (a + INR i * s).
Proof.
  intros H. apply nth_arange_fill in H as [L ->]. split; [exact L|]. destruct i as [|[|i]].
  - simpl. f_equal. lra.
  - simpl. f_equal. lra.
  - rewrite INR_IZR_INZ. change ((XR (a + IZR (Z.of_nat (S (S i))) * ((a + s) - a))) = XR (a + IZR (Z.of_nat (S (S i))) * s)).
    f_equal. lra.
Qed.

(** Over the reals np.arange gives start, start + step, ... below stop. *)
Lemma arangeRX a b (step : xr) l : a < b -> nlt (N:=RX) n0 step = true ->
  arange (N:=RX) (XR a) (XR b) step = Ok l -> nth_error l 0 = Some (XR a) /\
    (forall i k x y, (i < k)%nat -> nth_error l i = Some x -> nth_error l k = Some y -> nle (N:=RX) x y = true) /\
    (forall x, In x l -> exists r, x = XR r /\ a <= r < b).
Proof.
  intros Hab Hs Hl. apply (nlt_iff RX_rounded) in Hs. change (val RX_rounded (n0 : RX)) with (XR 0) in Hs.
  change (val RX_rounded step) with step in Hs. unfold arange, arange_len in Hl.
  destruct step as [s| | |]; simpl in Hs; try contradiction.
  - assert (E0 : neqb (N:=RX) (XR s) n0 = false).
    { destruct (neqb (N:=RX) (XR s) n0) eqn:E; [|reflexivity]. apply (neqb_iff RX_rounded) in E as [E _].
      injection E as E. lra. }
    rewrite E0 in Hl. cbv zeta in Hl.
    assert (Q : ndiv (N:=RX) (nsub (N:=RX) (XR b) (XR a)) (XR s) = XR ((b - a) / s)).
    { simpl. destruct (Req_EM_T s 0); [lra|reflexivity]. }
    rewrite Q in Hl. assert (Hq : 0 < (b - a) / s) by (apply Rdiv_lt_0_compat; lra).
    assert (E1 : neqb (N:=RX) (XR ((b - a) / s)) n0 = false).
    { destruct (neqb (N:=RX) (XR ((b - a) / s)) n0) eqn:E; [|reflexivity]. apply (neqb_iff RX_rounded) in E as [E _].
      injection E as E. lra. }
    rewrite E1 in Hl. cbn [andb] in Hl. change (nceil (N:=RX) (XR ((b - a) / s))) with (Some (Zceil ((b - a) / s))) in Hl.
    cbv iota beta in Hl. destruct (_ || _)%bool in Hl; [discriminate|]. cbn [bind] in Hl. injection Hl as <-. set (n := Z.to_nat (Zceil ((b - a) / s))).
    assert (Hn : forall i, (i < n)%nat -> a + INR i * s < b).
    { intros i Hi. assert (Z.of_nat i < Zceil ((b - a) / s))%Z by (unfold n in Hi; lia).
      assert (IZR (Z.of_nat i) < (b - a) / s).
      { apply Rnot_le_lt. intros Hc. apply Zceil_glb in Hc. lia. }
      rewrite INR_IZR_INZ. apply Rmult_lt_compat_r with (r := s) in H0; [|exact Hs].
      unfold Rdiv in H0. rewrite Rmult_assoc, Rinv_l in H0 by lra. lra. }
    assert (n0' : (0 < n)%nat).
    { assert (0 < Zceil ((b - a) / s))%Z; [|lia]. apply lt_IZR. eapply Rlt_le_trans; [exact Hq|apply Zceil_ub]. }
    split; [|split].
    + unfold arange_fill. destruct n; [lia|]. reflexivity.
    + intros i k x y Hik Hx Hy. apply nth_fillRX in Hx as [_ ->]. apply nth_fillRX in Hy as [_ ->].
      apply (nle_iff RX_rounded). simpl. apply lt_INR in Hik. 
      assert (INR i * s <= INR k * s) by (apply Rmult_le_compat_r; lra). lra.
    + intros x Hx. apply In_nth_error in Hx as [i Hi]. apply nth_fillRX in Hi as [Hi ->]. eexists. split; [reflexivity|].
      split; [|now apply Hn]. pose proof (pos_INR i). assert (0 <= INR i * s) by (apply Rmult_le_pos; lra). lra.
  - assert (E0 : neqb (N:=RX) XPInf n0 = false) by reflexivity. rewrite E0 in Hl. cbv zeta in Hl.
    change (ndiv (N:=RX) (nsub (N:=RX) (XR b) (XR a)) XPInf) with (XR 0 : RX) in Hl.
    assert (E1 : neqb (N:=RX) (XR 0) n0 = true).
    { apply (neqb_iff RX_rounded). split; [reflexivity|discriminate]. }
    assert (E2 : neqb (N:=RX) (nsub (N:=RX) (XR b) (XR a)) n0 = false).
    { destruct (neqb (N:=RX) (nsub (N:=RX) (XR b) (XR a)) n0) eqn:E; [|reflexivity]. apply (neqb_iff RX_rounded) in E as [E _].
      change (XR (b - a) = XR 0) in E. injection E as E. lra. }
    rewrite E1, E2 in Hl. cbn [andb negb] in Hl. change (nlt (N:=RX) XPInf n0) with false in Hl. cbn [bind] in Hl.
    injection Hl as <-. split; [reflexivity|]. split.
    + intros i k x y Hik Hx Hy. apply nth_arange_fill in Hy as [Hy _]. lia.
    + intros x [<-|[]]. exists a. split; [reflexivity|lra].
Qed.
Lemma arange_oneRX a b : a < b <= a + 1 -> exists l, arange (N:=RX) (XR a) (XR b) n1 = Ok l.
Proof.
  intros Hab. unfold arange, arange_len.
  destruct (neqb (N:=RX) n1 n0) eqn:E0; [apply (neqb_iff RX_rounded) in E0 as [E0 _]; injection E0 as E0; lra|]. cbv zeta.
  assert (Q : ndiv (N:=RX) (nsub (N:=RX) (XR b) (XR a)) n1 = XR (b - a)).
  { simpl. destruct (Req_EM_T 1 0); [lra|]. f_equal. field. }
  rewrite Q.
  destruct (neqb (N:=RX) (XR (b - a)) n0) eqn:E1; [apply (neqb_iff RX_rounded) in E1 as [E1 _]; injection E1 as E1; lra|].
  cbn [andb]. change (nceil (N:=RX) (XR (b - a))) with (Some (Zceil (b - a))). cbv iota beta.
  assert (C : Zceil (b - a) = 1%Z) by (apply Zceil_imp; simpl; lra). rewrite C. cbn. eauto.
Qed.

Lemma nlit_m01_RX : nlit (N:=RX) (-1) 10 = XR (-1 / 10).
Proof. unfold nlit. simpl. destruct (Req_EM_T 10 0); [lra|reflexivity]. Qed.

(** In exact arithmetic this holds for every pair of positive bins, infinite ones included. *)
Lemma c27_exact : forall argsort (g : galaxy RX) (b0 b1 : RX) j,
  constructible g -> sorting argsort -> nlt n0 b0 = true -> nlt n0 b1 = true ->
  jcirc argsort g b0 b1 = Ok j ->
  length (jc_x j) = length (jc_y j) /\ nth_error (jc_x j) 0 = Some (XR (-1)) /\
  (forall i k a b, (i < k)%nat -> nth_error (jc_x j) i = Some a -> nth_error (jc_x j) k = Some b -> nlt (N:=RX) a b = true) /\
  (forall a, In a (jc_x j) -> nlt (N:=RX) a (XR 0) = true).
Proof.
  intros argsort g b0 b1 j Hg Hs H0 H1 Hj.
  destruct (curve_of_run RX_rounded argsort g b0 b1 j (proj1 (constructible_ok _) Hg) Hs Hj) as (_ & _ & _ & l0 & l1 & _ & _ & A0 & A1 & _).
  rewrite nlit_m01_RX in A0, A1.
  destruct (arangeRX (-1) (-1 / 10) b0 l0) as (F0 & M0 & R0); [lra|exact H0|exact A0|].
  destruct (arangeRX (-1 / 10) 0 b1 l1) as (F1 & M1 & R1); [lra|exact H1|exact A1|].
  apply (c27_edges RX RX_rounded argsort g b0 b1 l0 l1 j Hg Hs); [rewrite nlit_m01_RX; exact A0|rewrite nlit_m01_RX; exact A1| | |exact Hj].
  - destruct l0; [discriminate|]. exact F0.
  - intros i k a b Hik Ha Hb. destruct (Nat.lt_ge_cases k (length l0)) as [L|L].
    + rewrite nth_error_app1 in Ha, Hb by lia. exact (M0 i k a b Hik Ha Hb).
    + rewrite nth_error_app2 in Hb by lia. destruct (Nat.lt_ge_cases i (length l0)) as [L'|L'].
      * rewrite nth_error_app1 in Ha by lia. apply nth_error_In, R0 in Ha as (r & -> & Hr).
        apply nth_error_In, R1 in Hb as (r' & -> & Hr'). apply (nle_iff RX_rounded). simpl. lra.
      * rewrite nth_error_app2 in Ha by lia. apply (M1 (i - length l0)%nat (k - length l0)%nat a b); auto. lia.
Qed.
Local Close Scope R_scope.

Fixpoint pairs_le {N : Num} (l : list N) : bool :=
  match l with [] => true | x :: l' => forallb (nle x) l' && pairs_le l' end.
Lemma pairs_le_spec {N : Num} (l : list N) : pairs_le l = true ->
  forall i k a b, (i < k)%nat -> nth_error l i = Some a -> nth_error l k = Some b -> nle a b = true.
Proof.
  intros H. apply (SS_nth (fun a b => nle a b = true)). induction l as [|x l IH]; simpl in H; constructor.
  - apply andb_prop in H. now apply IH.
  - apply andb_prop in H as [H _]. now apply Forall_forall, forallb_forall.
Qed.
Definition edges_check {N : Num} (b0 b1 : N) : bool :=
  match arange nm1 (nlit (-1) 10) b0, arange (nlit (-1) 10) n0 b1 with
  | Ok l0, Ok l1 => negb (length l0 =? 0)%nat && pairs_le (l0 ++ l1)
  | _, _ => false
  end.
Lemma edges_check_spec {N : Num} (b0 b1 : N) : edges_check b0 b1 = true ->
  exists l0 l1, arange nm1 (nlit (-1) 10) b0 = Ok l0 /\ arange (nlit (-1) 10) n0 b1 = Ok l1 /\
    nth_error (l0 ++ l1) 0 = Some nm1 /\
    forall i k a b, (i < k)%nat -> nth_error (l0 ++ l1) i = Some a -> nth_error (l0 ++ l1) k = Some b -> nle a b = true.
Proof.
  unfold edges_check. destruct (arange nm1 _ b0) as [l0|] eqn:E0; [|discriminate].
  destruct (arange (nlit (-1) 10) n0 b1) as [l1|]; [|discriminate]. intros H. apply andb_prop in H as [H1 H2].
  exists l0, l1. split; [reflexivity|]. split; [reflexivity|]. split; [|now apply pairs_le_spec].
  unfold arange in E0. destruct (arange_len _ _ b0) as [n|]; [|discriminate]. cbn [bind] in E0. injection E0 as <-.
  unfold arange_fill in *. rewrite map_length, seq_length in H1. destruct n; [discriminate|]. reflexivity.
Qed.
Lemma default_edges sm : edges_check (N:=F64s sm) default_bin0 default_bin1 = true.
Proof. vm_compute. reflexivity. Qed.

(** In binary64 it holds for the default bins. *)
Lemma c27_default : forall sm argsort (g : galaxy (F64s sm)) j,
  constructible g -> sorting argsort -> jcirc argsort g default_bin0 default_bin1 = Ok j ->
  length (jc_x j) = length (jc_y j) /\ nth_error (jc_x j) 0 = Some nm1 /\
  (forall i k a b, (i < k)%nat -> nth_error (jc_x j) i = Some a -> nth_error (jc_x j) k = Some b -> nlt a b = true) /\
  (forall a, In a (jc_x j) -> nlt a n0 = true).
Proof.
  intros sm argsort g j Hg Hs Hj. destruct (edges_check_spec _ _ (default_edges sm)) as (l0 & l1 & A0 & A1 & F & M).
  exact (c27_edges _ (F64_rounded sm) argsort g _ _ l0 l1 j Hg Hs A0 A1 F M Hj).
Qed.

(** *** C28 *)

Lemma before_trans {N : Num} (RN : Rounded N) (a b c : N) : before a b -> before b c -> before a c.
Proof.
  intros H1 [H2|H2]; [left; exact H2|]. apply (nle_iff RN) in H2.
  destruct H1 as [H1|H1].
  - exfalso. apply (nisnan_iff RN) in H1. exact (xle_nan_l _ _ H2 H1).
  - right. apply (nle_iff RN) in H1. apply (nle_iff RN). eapply xle_trans; eauto.
Qed.
Lemma before_not_lt {N : Num} (RN : Rounded N) (a b : N) : before a b -> nlt b a = false.
Proof.
  intros [H|H]; apply (nlt_false RN); intros L.
  - apply (nisnan_iff RN) in H. rewrite H in L. simpl in L. destruct (val RN a); contradiction.
  - apply (nle_iff RN) in H. exact (xlt_not_le _ _ L H).
Qed.
Lemma filter_perm {A} (P : A -> bool) l l' : Permutation l l' -> length (filter P l) = length (filter P l').
Proof.
  induction 1; simpl; auto; try congruence.
  - destruct (P x); simpl; congruence.
  - destruct (P x), (P y); reflexivity.
Qed.
Lemma filter_none {A} (P : A -> bool) l : (forall a, In a l -> P a = false) -> filter P l = [].
Proof. induction l as [|x l IH]; simpl; intros H; [reflexivity|]. rewrite (H x) by auto. auto. Qed.

(** At most one particle of the bin has more angular momentum than the chosen one. *)
Lemma picked_one {N : Num} (RN : Rounded N) {A} (f : A -> N) rows a : picked f rows a ->
  (length (filter (fun b => nlt (f a) (f b)) rows) <= 1)%nat.
Proof.
  intros [x E|x r rest P B1 B2 _|x r rest P B1 B2 _].
  - subst. simpl. destruct (nlt _ _); simpl; lia.
  - rewrite (filter_perm _ _ _ P). rewrite filter_none; [simpl; lia|].
    intros b [<-|[<-|Hb]]; [apply (nlt_irr RN)|now apply (before_not_lt RN)|].
    apply (before_not_lt RN). eapply (before_trans RN); eauto.
  - rewrite (filter_perm _ _ _ P). simpl. rewrite (nlt_irr RN).
    rewrite filter_none; [destruct (nlt _ _); simpl; lia|].
    intros b Hb. apply (before_not_lt RN). auto.
Qed.

(** The first point is (-1, |Jz|) of a particle of lowest energy.  Every other point is the
    energy and |Jz| of a bound particle of some energy bin: in the last bin one with largest
    |Jz|, in the others the one with largest |Jz| unless the next lower |Jz| is at least one
    per cent lower, in which case that one; so at most one has more. *)
Lemma c28_points : forall (N : Num) (RN : Rounded N) argsort (g : galaxy N) b0 b1 j,
  constructible g -> sorting argsort -> jcirc argsort g b0 b1 = Ok j ->
  exists ue uz up l0 l1, units g ue uz up /\
    arange nm1 (nlit (-1) 10) b0 = Ok l0 /\ arange (nlit (-1) 10) n0 b1 = Ok l1 /\
    let edges := l0 ++ l1 in
    let all := filter bound (all_orbits g) in
    let E o := (o_e o / ue)%num in
    let J o := nabs (o_jz o / uz)%num in
    (exists o, In o all /\ (forall o', In o' all -> nlt (E o') (E o) = false) /\
       nth_error (jc_x j) 0 = Some nm1 /\ nth_error (jc_y j) 0 = Some (J o)) /\
    forall k x y, nth_error (jc_x j) (S k) = Some x -> nth_error (jc_y j) (S k) = Some y ->
      exists i o, let same_bin := filter (fun o' => ebin edges i (E o')) all in
        (1 <= i <= length edges)%nat /\ In o same_bin /\ x = E o /\ y = J o /\
        (if (i <? length edges)%nat then picked J same_bin o
         else forall o', In o' same_bin -> nlt (J o) (J o') = false) /\
        (length (filter (fun o' => nlt (J o) (J o')) same_bin) <= 1)%nat.
Proof.
  intros N RN argsort g b0 b1 j Hg Hs Hj. apply constructible_ok in Hg.
  destruct (curve_of_run RN _ _ _ _ _ Hg Hs Hj) as (ue & uz & up & l0 & l1 & raw & U & H0 & H1 & Hne & R & T & X & Y).
  exists ue, uz, up, l0, l1. split; [exact U|]. split; [exact H0|]. split; [exact H1|]. cbv zeta.
  destruct (trimmed_head RN _ _ _ _ _ Hne R) as (a0 & r & Ia & Ma & E). rewrite X, Y, E. split.
  - exists a0. split; [exact Ia|]. split; [exact Ma|]. split; reflexivity.
  - intros k x y Hx Hy. cbn [map nth_error] in Hx, Hy. rewrite nth_error_map in Hx, Hy.
    destruct (nth_error r k) as [q|] eqn:Eq; [|discriminate]. injection Hx as <-. injection Hy as <-.
    destruct (trimmed_tail RN _ _ _ _ _ _ _ _ Hne R E (nth_error_In _ _ Eq)) as (Nz & i & Hi & C & _).
    destruct C as [[_ ->]|(o & Ho & -> & P)].
    { unfold nzx in Nz. simpl in Nz. rewrite (n0_eqb RN) in Nz. discriminate. }
    exists i, o. split; [exact Hi|]. split; [exact Ho|]. split; [reflexivity|]. split; [reflexivity|]. split; [exact P|].
    destruct (i <? length (l0 ++ l1))%nat; [exact (picked_one RN _ _ _ P)|].
    rewrite filter_none; [simpl; lia|exact P].
Qed.

(** *** C32 *)

Lemma In_filter_nth {A} (P : A -> bool) l k a : nth_error l k = Some a -> P a = true -> In a (filter P l).
Proof. intros H Ha. apply filter_In. split; [eapply nth_error_In; eauto|exact Ha]. Qed.
Lemma ebin_pt_in {N : Num} {A} edges (fE fZ : A -> N) rows i p a : ebin_point edges fE fZ rows i p ->
  In a rows -> ebin edges i (fE a) = true -> exists o, In o rows /\ ebin edges i (fE o) = true /\ p = (fE o, nabs (fZ o)).
Proof.
  intros [[E _]|(o & Ho & -> & _)] Ha Hb.
  - exfalso. assert (In a []) as []. rewrite <- E. apply filter_In. auto.
  - apply filter_In in Ho as [H1 H2]. eauto.
Qed.
Lemma nth_firstn {A} (l : list A) n k : (k < n)%nat -> nth_error (firstn n l) k = nth_error l k.
Proof. revert l k; induction n as [|n IH]; intros [|x l] [|k] H; simpl; auto; try lia. apply IH. lia. Qed.

(** When a bound particle lies above the last edge, every populated bin contributes a point
    (unless a particle of the bin has energy exactly 0). *)
Lemma c32_full : forall (N : Num) (RN : Rounded N) argsort (g : galaxy N) b0 b1 j,
  constructible g -> sorting argsort -> jcirc argsort g b0 b1 = Ok j ->
  exists ue uz up l0 l1, units g ue uz up /\
    arange nm1 (nlit (-1) 10) b0 = Ok l0 /\ arange (nlit (-1) 10) n0 b1 = Ok l1 /\
    let edges := l0 ++ l1 in
    let all := filter bound (all_orbits g) in
    let E o := (o_e o / ue)%num in
    (exists o, In o all /\ ebin edges (length edges) (E o) = true) ->
    forall i o, (1 <= i <= length edges)%nat -> In o all -> ebin edges i (E o) = true ->
      (forall o', In o' all -> ebin edges i (E o') = true -> neqb (E o') n0 = false) ->
      exists x, In x (jc_x j) /\ ebin edges i x = true.
Proof.
  intros N RN argsort g b0 b1 j Hg Hs Hj. apply constructible_ok in Hg.
  destruct (curve_of_run RN _ _ _ _ _ Hg Hs Hj) as (ue & uz & up & l0 & l1 & raw & U & H0 & H1 & Hne & R & T & X & Y).
  exists ue, uz, up, l0, l1. split; [exact U|]. split; [exact H0|]. split; [exact H1|]. cbv zeta.
  intros (t & It & Bt) i o Hi Io Bo Hz. rewrite X. unfold trimmed.
  destruct (filter (fun a => ebin (l0 ++ l1) (length (l0 ++ l1)) (ofE ue a)) (filter bound (all_orbits g))) as [|f0 f] eqn:F.
  { exfalso. assert (In t []) as []. rewrite <- F. apply filter_In. auto. }
  destruct R as [a0 ps Ia Ma L H]. destruct i as [|i]; [lia|].
  destruct (nth_error_lt ps i) as [p Hp]; [lia|].
  destruct (ebin_pt_in _ _ _ _ _ _ o (H i p Hp) Io Bo) as (o' & Io' & Bo' & ->).
  exists (ofE ue o'). split; [|exact Bo'].
  apply in_map_iff. exists (ofE ue o', nabs (ofZ uz o')). split; [reflexivity|].
  apply (In_filter_nth _ _ (S i)); [exact Hp|]. simpl. apply negb_true_iff. exact (Hz o' Io' Bo').
Qed.

(** Number of empty bins below the last one. *)
Definition empty_bins {N : Num} (edges : list N) (es : list N) : nat :=
  length (filter (fun i => negb (existsb (ebin edges i) es)) (seq 1 (length edges - 1))).

Lemma zeros_count {N : Num} (RN : Rounded N) {A} edges (fE fZ : A -> N) b ps :
  (0 < length edges)%nat -> length ps = length edges ->
  (forall i p, nth_error ps i = Some p -> ebin_point edges fE fZ b (S i) p) ->
  (forall a, In a b -> ebin edges (length edges) (fE a) = false) ->
  (empty_bins edges (map fE b) < length (filter (fun p : N * N => neqb (snd p) n0) ps))%nat /\
  ((forall a, In a b -> neqb (nabs (fZ a)) n0 = false) ->
   length (filter (fun p : N * N => neqb (snd p) n0) ps) = S (empty_bins edges (map fE b))).
Proof.
  intros Hn Hl H Htop. unfold empty_bins.
  assert (EP : forall i p, nth_error ps i = Some p ->
    (existsb (ebin edges (S i)) (map fE b) = false -> p = (n0, n0)) /\
    (existsb (ebin edges (S i)) (map fE b) = true -> exists a, In a b /\ p = (fE a, nabs (fZ a)))).
  { intros i p Hp. specialize (H i p Hp). split; intros E.
    - destruct H as [[_ ->]|(a & Ha & -> & _)]; [reflexivity|]. exfalso. apply filter_In in Ha as [Ha Ba].
      assert (existsb (ebin edges (S i)) (map fE b) = true); [|congruence].
      apply existsb_exists. exists (fE a). split; [now apply in_map|exact Ba].
    - apply existsb_exists in E as (x & Ix & Bx). apply in_map_iff in Ix as (a & <- & Ia).
      destruct (ebin_pt_in _ _ _ _ _ _ a H Ia Bx) as (o & Io & _ & ->). eauto. }
  assert (Last : existsb (ebin edges (length edges)) (map fE b) = false).
  { destruct (existsb _ _) eqn:E; [|reflexivity]. apply existsb_exists in E as (x & Ix & Bx).
    apply in_map_iff in Ix as (a & <- & Ia). rewrite Htop in Bx by assumption. discriminate. }
  set (em := fun i => negb (existsb (ebin edges i) (map fE b))) in *.
  assert (Full : length (filter em (seq 1 (length ps))) = S (length (filter em (seq 1 (length edges - 1))))).
  { rewrite Hl. replace (length edges) with (S (length edges - 1)) at 1 by lia.
    rewrite seq_S, filter_app, app_length. simpl. replace (S (length edges - 1)) with (length edges) by lia.
    unfold em at 2. rewrite Last. simpl. lia. }
  assert (G : forall qs k, (forall i p, nth_error qs i = Some p -> 
      (em (k + i)%nat = true -> p = (n0, n0)) /\ (em (k + i)%nat = false -> exists a, In a b /\ p = (fE a, nabs (fZ a)))) ->
      (length (filter em (seq k (length qs))) <= length (filter (fun p : N * N => neqb (snd p) n0) qs))%nat /\
      ((forall a, In a b -> neqb (nabs (fZ a)) n0 = false) ->
        length (filter em (seq k (length qs))) = length (filter (fun p : N * N => neqb (snd p) n0) qs))).
  { clear - RN. induction qs as [|q qs IH]; intros k Hq; [simpl; auto|]. simpl length. simpl seq. cbn [filter].
    destruct (IH (S k)) as [IH1 IH2].
    { intros i p Hi. replace (S k + i)%nat with (k + S i)%nat by lia. now apply Hq. }
    destruct (Hq 0%nat q eq_refl) as [Q1 Q2]. rewrite Nat.add_0_r in Q1, Q2.
    destruct (em k) eqn:Ek.
    - rewrite (Q1 eq_refl). cbn [snd]. rewrite (n0_eqb RN). cbn [length]. split; [lia|]. intros Z. f_equal. auto.
    - destruct (Q2 eq_refl) as (a & Ia & ->). cbn [snd]. split.
      + destruct (neqb (nabs (fZ a)) n0); cbn [length]; lia.
      + intros Z. rewrite (Z a Ia). auto. }
  destruct (G ps 1%nat) as [G1 G2].
  { intros i p Hp. destruct (EP i p Hp) as [A1 A2]. unfold em. simpl Nat.add. split; intros E.
    - apply A1. now apply negb_true_iff in E.
    - apply A2. now apply negb_false_iff in E. }
  split; [lia|]. intros Z. rewrite <- (G2 Z). exact Full.
Qed.

(** When no bound particle lies above the last edge, with [e] empty bins below it: no point
    after the first comes from one of the last [e - 1] bins below it, populated or not; and
    if no bound particle has Jz = 0 all the other populated bins contribute. *)
Lemma c32_dropped : forall (N : Num) (RN : Rounded N) argsort (g : galaxy N) b0 b1 j,
  constructible g -> sorting argsort -> jcirc argsort g b0 b1 = Ok j ->
  exists ue uz up l0 l1, units g ue uz up /\
    arange nm1 (nlit (-1) 10) b0 = Ok l0 /\ arange (nlit (-1) 10) n0 b1 = Ok l1 /\
    let edges := l0 ++ l1 in
    let all := filter bound (all_orbits g) in
    let E o := (o_e o / ue)%num in
    let e := length (filter (fun i => negb (existsb (ebin edges i) (map E all))) (seq 1 (length edges - 1))) in
    (forall o, In o all -> ebin edges (length edges) (E o) = false) ->
    (forall k x, nth_error (jc_x j) (S k) = Some x ->
       exists i, (1 <= i)%nat /\ (i + e <= length edges)%nat /\ ebin edges i x = true) /\
    ((forall o, In o all -> neqb (nabs (o_jz o / uz)%num) n0 = false) ->
     forall i o, (1 <= i < length edges)%nat -> (i + e <= length edges)%nat -> In o all -> ebin edges i (E o) = true ->
       (forall o', In o' all -> ebin edges i (E o') = true -> neqb (E o') n0 = false) ->
       exists x, In x (jc_x j) /\ ebin edges i x = true).
Proof.
  intros N RN argsort g b0 b1 j Hg Hs Hj. apply constructible_ok in Hg.
  destruct (curve_of_run RN _ _ _ _ _ Hg Hs Hj) as (ue & uz & up & l0 & l1 & raw & U & H0 & H1 & Hne & R & T & X & Y).
  exists ue, uz, up, l0, l1. split; [exact U|]. split; [exact H0|]. split; [exact H1|]. cbv zeta. intros Htop.
  set (all := filter bound (all_orbits g)) in *. set (edges := l0 ++ l1) in *.
  set (e := length (filter _ _)).
  assert (Ee : e = empty_bins edges (map (ofE ue) all)) by reflexivity.
  assert (Fn : filter (fun a => ebin edges (length edges) (ofE ue a)) all = []).
  { apply filter_none. exact Htop. }
  assert (Hn : (0 < length edges)%nat) by (destruct edges; [tauto|simpl; lia]).
  pose proof (trimmed_head RN _ _ _ _ _ Hne R) as (a0' & r & _ & _ & E').
  unfold trimmed in X, E'. rewrite Fn in X, E'.
  destruct R as [a0 ps Ia Ma L H].
  destruct (zeros_count RN edges (ofE ue) (ofZ uz) all ps Hn L H Htop) as [Z1 Z2]. rewrite <- Ee in Z1, Z2.
  set (raw := (nm1, nabs (ofZ uz a0)) :: ps) in *.
  assert (Lr : length raw = S (length edges)) by (unfold raw; simpl; now rewrite L).
  set (z := length (filter (fun p : N * N => neqb (snd p) n0) ps)) in *.
  assert (Cz : (z <= length (filter (fun p : N * N => neqb (snd p) n0) raw))%nat).
  { unfold raw. cbn [filter]. destruct (neqb _ n0); cbn [length]; lia. }
  assert (C1 : (e <= cut raw /\ 1 <= cut raw)%nat).
  { unfold cut. cbv zeta. destruct (Nat.eqb_spec (length (filter (fun p : N * N => neqb (snd p) n0) raw) - 1) 0); lia. }
  split.
  - intros k x Hx. rewrite X, nth_error_map in Hx.
    destruct (nth_error (filter _ (firstn _ raw)) (S k)) as [q|] eqn:Eq; [|discriminate]. injection Hx as <-.
    assert (Q : exists i, nth_error raw (S i) = Some q /\ (S i < length raw - cut raw)%nat /\ nzx q = true).
    { change (fun p : N * N => negb (neqb (fst p) n0)) with (@nzx N) in Eq.
      destruct (length raw - cut raw)%nat as [|m] eqn:Em; [discriminate|]. unfold raw in Eq. rewrite firstn_cons in Eq.
      cbn [filter] in Eq. assert (nzx (nm1, nabs (ofZ uz a0)) = true) as Zh by exact (nm1_nz RN). rewrite Zh in Eq.
      cbn [nth_error] in Eq. apply nth_error_In, filter_In in Eq as [Eq Nq]. apply In_nth_error in Eq as [i Hi].
      assert (i < m)%nat.
      { pose proof (proj1 (nth_error_Some _ _) ltac:(rewrite Hi; discriminate)) as Q. rewrite firstn_length in Q. lia. }
      rewrite nth_firstn in Hi by assumption. exists i. split; [exact Hi|]. split; [lia|exact Nq]. }
    destruct Q as (i & Hi & Li & Nq). exists (S i). split; [lia|]. split; [lia|].
    destruct (H i q Hi) as [[_ ->]|(o & Ho & -> & _)].
    + unfold nzx in Nq. simpl in Nq. rewrite (n0_eqb RN) in Nq. discriminate.
    + apply filter_In in Ho as [_ Ho]. exact Ho.
  - intros NZ i o Hi Hie Io Bo Hz. specialize (Z2 NZ).
    assert (Cr : cut raw = Nat.max 1 e).
    { assert (A0 : neqb (nabs (ofZ uz a0)) n0 = false) by exact (NZ a0 Ia).
      unfold cut, raw. cbv zeta. cbn [filter snd]. rewrite A0. fold z. rewrite Z2.
      replace (S e - 1)%nat with e by lia. clearbody e. destruct (Nat.eqb_spec e 0); lia. }
    destruct i as [|i]; [lia|]. destruct (nth_error_lt ps i) as [p Hp]; [lia|].
    destruct (ebin_pt_in _ _ _ _ _ _ o (H i p Hp) Io Bo) as (o' & Io' & Bo' & ->).
    exists (ofE ue o'). split; [|exact Bo']. rewrite X.
    apply in_map_iff. exists (ofE ue o', nabs (ofZ uz o')). split; [reflexivity|].
    apply (In_filter_nth _ _ (S i)).
    + rewrite nth_firstn by (rewrite Lr, Cr; lia). exact Hp.
    + simpl. apply negb_true_iff. exact (Hz o' Io' Bo').
Qed.

(** *** C33 *)

Lemma same_orbits {N : Num} (p q : pset N) : pset_ok p -> pset_ok q ->
  p_x p = p_x q -> p_y p = p_y q -> p_z p = p_z q -> p_vx p = p_vx q -> p_vy p = p_vy q -> p_vz p = p_vz q ->
  p_pot p = p_pot q -> orbits p = orbits q.
Proof.
  intros Hp Hq X Y Z VX VY VZ P. apply pset_ok_iff in Hp as [L E]. apply pset_ok_iff in Hq as [L' E'].
  assert (PL : plen p = plen q).
  { unfold plen. destruct L as [L _], L' as [L' _]. rewrite <- L, <- L'. now rewrite X. }
  unfold orbits, energies. rewrite PL. rewrite E, E'. simpl. now rewrite X, Y, Z, VX, VY, VZ, P.
Qed.

(** jcirc depends on a galaxy only through the specific energies and angular momenta of its
    particles, in order, and on which of them are stars. *)
Lemma c33_orbits : forall (N : Num) (RN : Rounded N) argsort (g g' : galaxy N) b0 b1,
  constructible g -> constructible g' ->
  star_orbits g' = star_orbits g -> all_orbits g' = all_orbits g ->
  jcirc argsort g' b0 b1 = jcirc argsort g b0 b1.
Proof.
  intros N RN argsort g g' b0 b1 Hg Hg' S A. apply constructible_ok in Hg, Hg'.
  rewrite !(jcirc_run RN) by assumption. now rewrite S, A.
Qed.

(** jcirc does not depend on masses and softenings. *)
Lemma c33_mass : forall (N : Num) (RN : Rounded N) argsort (g g' : galaxy N) b0 b1,
  constructible g -> constructible g' ->
  Forall2 (fun p q => p_x p = p_x q /\ p_y p = p_y q /\ p_z p = p_z q /\ p_vx p = p_vx q /\ p_vy p = p_vy q /\
     p_vz p = p_vz q /\ p_pot p = p_pot q) (sets g) (sets g') ->
  jcirc argsort g b0 b1 = jcirc argsort g' b0 b1.
Proof.
  intros N RN argsort g g' b0 b1 Hg Hg' H. apply constructible_ok in Hg, Hg'.
  assert (S : forall p q : pset N, pset_ok p -> pset_ok q -> (p_x p = p_x q /\ p_y p = p_y q /\ p_z p = p_z q /\ p_vx p = p_vx q /\
     p_vy p = p_vy q /\ p_vz p = p_vz q /\ p_pot p = p_pot q) -> orbits p = orbits q).
  { intros p q Hp Hq (X & Y & Z & VX & VY & VZ & P). now apply same_orbits. }
  rewrite !(jcirc_run RN) by assumption.
  inversion H as [|? ? ? ? A1 H1]; subst. inversion H1 as [|? ? ? ? A2 H2]; subst. inversion H2 as [|? ? ? ? A3 H3]; subst.
  destruct Hg as (G1 & G2 & G3 & _). destruct Hg' as (G1' & G2' & G3' & _).
  unfold all_orbits, star_orbits, sets. simpl.
  rewrite (S _ _ G1 G1' A1), (S _ _ G2 G2' A2), (S _ _ G3 G3' A3). reflexivity.
Qed.

Local Open Scope R_scope.
Lemma Rz_l c s q : c * c + s * s = 1 ->
  lx (rotate (Rz c s) q) = c * lx q - s * ly q /\ ly (rotate (Rz c s) q) = s * lx q + c * ly q /\
  lz (rotate (Rz c s) q) = lz q /\ kinr (rotate (Rz c s) q) = kinr q.
Proof.
  intros H. unfold lx, ly, lz, kinr, rotate, Rz; simpl. assert (C : c * c = 1 - s * s) by lra. repeat split.
  - ring.
  - ring.
  - transitivity ((c * c + s * s) * (px q * pvy q - py q * pvx q)); [ring|rewrite H; ring].
  - f_equal. transitivity ((c * c + s * s) * (pvx q * pvx q + pvy q * pvy q) + pvz q * pvz q); [ring|rewrite H; ring].
Qed.

Lemma krows_holds (p : pset RX) l : pset_ok p -> holds p l ->
  map krow_of (orbits p) = map2 (fun e q => K (N:=RX) e (XR (sqrt (lx q * lx q + ly q * ly q))) (XR (lz q)))
    (match p_pot p with Some t => map2 (fun k u => nadd (N:=RX) k u) (map (fun q => XR (kinr q)) l) t | None => repeat XNaN (length l) end) l.
Proof.
  intros Hp Hl. destruct (holds_J p l Hp Hl) as (J1 & J2 & J3 & J4). pose proof Hl as (M & _).
  assert (PL : plen p = length l) by (unfold plen; rewrite M; apply map_length).
  assert (TE : p_te p = option_map (map2 (fun k u => nadd (N:=RX) k u) (p_ke p)) (p_pot p)).
  { apply pset_ok_iff in Hp as [_ E]. rewrite E. simpl. reflexivity. }
  unfold orbits, energies. rewrite TE, J1, J2, J3, J4, PL.
  assert (G : forall (es : list xr), length es = length l ->
    map krow_of (map2 (fun ex yz : xr * xr => Orb (N:=RX) (fst ex) (snd ex) (fst yz) (snd yz))
      (map2 pair es (map (fun q => XR (lx q)) l)) (map2 pair (map (fun q => XR (ly q)) l) (map (fun q => XR (lz q)) l))) =
    map2 (fun e q => K (N:=RX) e (XR (sqrt (lx q * lx q + ly q * ly q))) (XR (lz q))) es l).
  { clear. induction l as [|q l IH]; intros [|e es] H; simpl in *; try discriminate; auto.
    f_equal; [|apply IH; lia]. unfold krow_of, o_jp. simpl. f_equal.
    destruct (Rlt_dec _ _); [exfalso; nra|reflexivity]. }
  destruct (p_pot p) as [t|] eqn:Et; simpl option_map; cbv iota.
  - apply G. apply pset_ok_lens in Hp as (_ & _ & _ & _ & _ & _ & L). specialize (L t Et).
    assert (Lt : length t = length l) by (rewrite L; exact PL).
    clear - Lt. revert t Lt. induction l as [|q l IH]; intros [|a t] L; simpl in *; try discriminate; auto.
  - apply G. apply repeat_length.
Qed.

(** In exact arithmetic a rotation about the z axis changes nothing in the result. *)
Lemma c33_rotation : forall argsort (g g' : galaxy RX) b0 b1 c s ls ld lg,
  c * c + s * s = 1 -> constructible g -> constructible g' ->
  holds (g_stars g) ls -> holds (g_dm g) ld -> holds (g_gas g) lg ->
  holds (g_stars g') (map (rotate (Rz c s)) ls) -> holds (g_dm g') (map (rotate (Rz c s)) ld) ->
  holds (g_gas g') (map (rotate (Rz c s)) lg) ->
  map (@p_pot RX) (sets g') = map (@p_pot RX) (sets g) ->
  jcirc argsort g' b0 b1 = jcirc argsort g b0 b1.
Proof.
  intros argsort g g' b0 b1 c s ls ld lg H Hg Hg' S D Q S' D' Q' P. apply constructible_ok in Hg, Hg'.
  rewrite !(jcirc_run RX_rounded) by assumption. simpl in P. injection P as P1 P2 P3.
  destruct Hg as (G1 & G2 & G3 & _). destruct Hg' as (G1' & G2' & G3' & _).
  assert (E : forall p p' l, pset_ok p -> pset_ok p' -> holds p l -> holds p' (map (rotate (Rz c s)) l) ->
    p_pot p' = p_pot p -> map krow_of (orbits p') = map krow_of (orbits p)).
  { intros p p' l Hp Hp' Hl Hl' Ep. rewrite (krows_holds p' _ Hp' Hl'), (krows_holds p _ Hp Hl), Ep.
    assert (Rq : forall q, lx (rotate (Rz c s) q) * lx (rotate (Rz c s) q) + ly (rotate (Rz c s) q) * ly (rotate (Rz c s) q) =
       lx q * lx q + ly q * ly q /\ lz (rotate (Rz c s) q) = lz q /\ kinr (rotate (Rz c s) q) = kinr q).
    { intros q. destruct (Rz_l c s q H) as (A1 & A2 & A3 & A4). split; [|auto]. rewrite A1, A2.
      transitivity ((c * c + s * s) * (lx q * lx q + ly q * ly q)); [ring|rewrite H; ring]. }
    rewrite map_length, map_map.
    assert (Ek : map (fun q => XR (kinr (rotate (Rz c s) q))) l = map (fun q => XR (kinr q)) l).
    { apply map_ext. intros q. f_equal. apply Rq. }
    rewrite Ek. generalize (match p_pot p with Some t => map2 (fun k u => nadd (N:=RX) k u) (map (fun q => XR (kinr q)) l) t
                            | None => repeat XNaN (length l) end).
    clear - Rq. induction l as [|q l IH]; intros [|e es]; simpl; auto. f_equal; [|apply IH].
    destruct (Rq q) as (A1 & A2 & _). rewrite A1, A2. reflexivity. }
  unfold all_orbits, star_orbits, sets. simpl. rewrite !map_app.
  rewrite (E _ _ _ G1 G1' S S' P1), (E _ _ _ G2 G2' D D' P2), (E _ _ _ G3 G3' Q Q' P3). reflexivity.
Qed.
Local Close Scope R_scope.

(** *** C34 *)

Local Open Scope R_scope.
Definition toR (a : xr) : R := match a with XR r => r | _ => 0 end.
Definition xpts (l : list (R * R)) : list (RX * RX) := map (fun p => (XR (fst p) : RX, XR (snd p) : RX)) l.

Lemma nleRX a b : nle (N:=RX) (XR a) (XR b) = true <-> a <= b.
Proof. exact (nle_iff RX_rounded (XR a) (XR b)). Qed.
Lemma nltRX a b : nlt (N:=RX) (XR a) (XR b) = true <-> a < b.
Proof. exact (nlt_iff RX_rounded (XR a) (XR b)). Qed.
Lemma neqbRX a b : neqb (N:=RX) (XR a) (XR b) = true <-> a = b.
Proof.
  split.
  - intros H. apply (neqb_iff RX_rounded) in H as [H _]. now injection H.
  - intros ->. apply (neqb_iff RX_rounded). split; [reflexivity|discriminate].
Qed.

Lemma interp_seg_spec l : forall v x y, x <= v -> StronglySorted (fun p q : R * R => fst p < fst q) ((x, y) :: l) ->
  exists r, interp_seg (N:=RX) (XR v) (XR x) (XR y) (xpts l) = XR r /\ interpolates ((x, y) :: l) v r.
Proof.
  induction l as [|[x1 y1] l IH]; intros v x y Hv Hs; cbn [xpts map interp_seg fst snd].
  - exists y. split; [reflexivity|]. now apply int_right.
  - inversion Hs as [|? ? Hs' F]; subst. inversion F as [|? ? Hx _]; subst. simpl in Hx.
    destruct (nle (N:=RX) (XR x1) (XR v)) eqn:L.
    + apply nleRX in L. destruct (IH v x1 y1 L Hs') as (r & E & I). exists r. split; [exact E|]. now apply int_skip.
    + assert (Lv : v < x1) by (apply Rnot_le_lt; intros C; apply nleRX in C; congruence).
      destruct (neqb (N:=RX) (XR x) (XR v)) eqn:Q.
      * apply neqbRX in Q. subst. exists y. split; [reflexivity|]. apply int_left. lra.
      * exists (y + (y1 - y) * ((v - x) / (x1 - x))). split; [|apply int_seg; lra].
        assert (D : ndiv (N:=RX) (nsub (N:=RX) (XR y1) (XR y)) (nsub (N:=RX) (XR x1) (XR x)) = XR ((y1 - y) / (x1 - x))).
        { simpl. unfold xsub. simpl. destruct (Req_EM_T (x1 + - x) 0) as [Z|Z]; [lra|reflexivity]. }
        rewrite D. cbv zeta.
        change (nadd (N:=RX) (nmul (N:=RX) (XR ((y1 - y) / (x1 - x))) (nsub (N:=RX) (XR v) (XR x))) (XR y))
          with (XR ((y1 - y) / (x1 - x) * (v + - x) + y)).
        assert (Nn : nisnan (N:=RX) (XR ((y1 - y) / (x1 - x) * (v + - x) + y)) = false)
          by (apply (nisnan_false RX_rounded); discriminate).
        rewrite Nn. f_equal. field. lra.
Qed.
Lemma interp1_spec l v : l <> [] -> StronglySorted (fun p q : R * R => fst p < fst q) l ->
  exists r, interp1 (N:=RX) (xpts l) (XR v) = XR r /\ interpolates l v r.
Proof.
  destruct l as [|[x y] l]; [tauto|]. intros _ Hs. cbn [xpts map interp1 fst snd].
  assert (Nn : nisnan (N:=RX) (XR v) = false).
  { apply (nisnan_false RX_rounded). discriminate. }
  rewrite Nn. destruct (nlt (N:=RX) (XR v) (XR x)) eqn:L.
  - apply nltRX in L. exists y. split; [reflexivity|]. apply int_left. lra.
  - apply interp_seg_spec; [|exact Hs]. apply Rnot_lt_le. intros C. apply nltRX in C. congruence.
Qed.

Lemma divRX a b : b <> 0 -> ndiv (N:=RX) (XR a) (XR b) = XR (a / b).
Proof. intros H. simpl. destruct (Req_EM_T b 0); [contradiction|reflexivity]. Qed.
Lemma units_real (g : galaxy RX) ue uz up : regular g -> units g ue uz up ->
  exists a b c, ue = XR a /\ uz = XR b /\ up = XR c /\ 0 < a /\ 0 <= b /\ 0 <= c /\
    forall o, In o (filter bound (all_orbits g)) -> exists e, o_e o = XR e /\ e <= 0.
Proof.
  intros [H1 (o & Io & Bo & No)] [(e & [[oe [Ie Ee]] Me] & ->) [[oz [Iz Ez]] _] [[op [Ip Ep]] _]].
  assert (B : forall o, In o (filter bound (all_orbits g)) -> exists e, o_e o = XR e /\ e <= 0).
  { intros o' Ho'. apply filter_In in Ho' as [_ Ho']. exact (bound_val RX_rounded o' Ho'). }
  destruct (B oe Ie) as (re & Ve & Le). subst e. rewrite Ve in Me. rewrite Ve.
  apply filter_In in Iz as [Iz Bz]. apply filter_In in Ip as [Ip Bp].
  destruct (H1 oz Iz Bz) as (jz & _ & Jz & _). destruct (H1 op Ip Bp) as (_ & jp & _ & Jp).
  rewrite Jz in Ez. rewrite Jp in Ep. exists (Rabs re), (Rabs jz), (Rabs jp).
  split; [reflexivity|]. split; [now rewrite <- Ez|]. split; [now rewrite <- Ep|].
  split; [|split; [apply Rabs_pos|split; [apply Rabs_pos|exact B]]].
  apply Rabs_pos_lt. intros ->. assert (Io' : In o (filter bound (all_orbits g))) by (apply filter_In; auto).
  destruct (B o Io') as (r & Vo & Lo). destruct Me as [Me|Me].
  - apply (nisnan_iff RX_rounded) in Me. discriminate.
  - specialize (Me o Io'). rewrite Vo in Me. apply nleRX in Me. apply No. rewrite Vo. f_equal. lra.
Qed.

(** For a star with finite eps = r, Jcirc = uz * jc is the interpolated curve at the star's
    energy in units of the largest |Jz| of bound particles, and r * Jcirc = Jz; eps_r is
    Jp/Jcirc times (largest |Jz|) / (largest Jp), which is Jp/Jcirc only if both largest values
    agree or Jp = 0. *)
Lemma c34_value : forall argsort (g : galaxy RX) (b0 b1 : RX) j k r,
  constructible g -> sorting argsort -> nlt n0 b0 = true -> nlt n0 b1 = true -> regular g ->
  jcirc argsort g b0 b1 = Ok j -> nth_error (jc_eps j) k = Some (XR r) ->
  exists ue uz up e jz jp jc pts o,
    units g (XR ue) (XR uz) (XR up) /\ 0 < ue /\ 0 < uz /\
    nth_error (star_orbits g) k = Some o /\ o_e o = XR e /\ o_jz o = XR jz /\ o_jp o = XR jp /\
    jc_x j = map (fun p => XR (fst p)) pts /\ jc_y j = map (fun p => XR (snd p)) pts /\
    interpolates pts (e / ue) jc /\ jc <> 0 /\
    r * (uz * jc) = jz /\ -1 <= r <= 1 /\
    (0 < up -> nth_error (jc_eps_r j) k = Some (XR (jp / (uz * jc) * (uz / up))) /\
       (jp / (uz * jc) * (uz / up) = jp / (uz * jc) <-> jp = 0 \/ uz = up)).
Proof.
  intros argsort g b0 b1 j k r Hg Hs H0 H1 Hr Hj Hk.
  pose proof (c27_exact argsort g b0 b1 j Hg Hs H0 H1 Hj) as (_ & _ & Hsort & _).
  pose proof (c24_eps RX RX_rounded argsort g b0 b1 j Hg Hj) as [Hrange _].
  pose proof (proj1 (constructible_ok g) Hg) as Hok.
  destruct (jcirc_inv RX_rounded _ _ _ _ _ Hok Hj) as (c & edges & U & He & Hc & Hn & Pf & Ej).
  destruct (units_real g _ _ _ Hr U) as (a & b & p & Ea & Eb & Ep & Pa & Pb & Pp & Be).
  pose proof (curve_nonempty _ _ _ _ _ Hc) as Hne.
  destruct (curve_spec RX_rounded (ofE (s_e c)) (ofZ (s_z c)) _ _ _ _ Hs Hne Hc) as (raw & Rw & T).
  subst j. cbn [jc_eps jc_x jc_y jc_eps_r result] in *.
  rewrite map_map, nth_error_map in Hk.
  destruct (nth_error (star_orbits g) k) as [o|] eqn:Eo; [|discriminate]. cbn [option_map] in Hk.
  unfold kept in Hk. destruct (keep c (krow_of o)) eqn:Kp; [|discriminate].
  assert (Hk' : raw_eps c (krow_of o) = XR r) by congruence. clear Hk. rename Hk' into Hk.
  pose proof Kp as Kp'. unfold keep in Kp'. apply andb_prop in Kp' as [Bo Oo]. change (kb (krow_of o)) with (bound o) in Bo.
  assert (Iall : In o (all_orbits g)) by (apply star_in_all; eapply nth_error_In; eauto).
  destruct (proj1 Hr o Iall Bo) as (jz & jp & Jz & Jp).
  destruct (Be o) as (e & Ve & Le); [apply filter_In; auto|].
  assert (Nb : b <> 0).
  { intros ->. unfold raw_eps, nZ in Hk. change (k_z (krow_of o)) with (o_jz o) in Hk. rewrite Eb in Hk.
    destruct (unit_z _ _ _ _ U) as [_ [M|M]]; [rewrite Eb in M; apply (nisnan_iff RX_rounded) in M; discriminate|].
    specialize (M o). rewrite Jz, Eb in M. assert (Zj : Rabs jz <= 0) by (apply nleRX; apply M; apply filter_In; auto).
    assert (jz = 0) by (destruct (Req_EM_T jz 0) as [|Z]; [assumption|]; apply Rabs_pos_lt in Z; lra). subst jz.
    rewrite Jz in Hk. assert (D : ndiv (N:=RX) (XR 0) (XR 0) = XNaN).
    { simpl. destruct (Req_EM_T 0 0); [|lra]. rewrite Rcompare_Eq by reflexivity. reflexivity. }
    rewrite D in Hk. simpl in Hk. discriminate. }
  assert (Pts : forall q, In q (s_pts c) -> exists x y, q = (XR x : RX, XR y : RX)).
  { destruct (trimmed_head RX_rounded _ _ _ _ _ Hne Rw) as (a0 & rr & Ia & Ma & E).
    assert (Yr : forall o', In o' (filter bound (all_orbits g)) -> exists y, nabs (ofZ (s_z c) o') = (XR y : RX)).
    { intros o' Ho'. apply filter_In in Ho' as [Ho1 Ho2]. destruct (proj1 Hr o' Ho1 Ho2) as (u & _ & Ju & _).
      unfold ofZ. rewrite Ju, Eb, divRX by exact Nb. eexists. reflexivity. }
    rewrite T, E. intros q [<-|Hq].
    - destruct (Yr a0 Ia) as [y ->]. exists (-1), y. reflexivity.
    - destruct (trimmed_tail RX_rounded _ _ _ _ _ _ _ _ Hne Rw E Hq) as (Nz & i & _ & C & _).
      destruct C as [[_ ->]|(o' & Ho' & -> & _)].
      + exfalso. unfold nzx in Nz. apply negb_true_iff in Nz. pose proof (n0_eqb RX_rounded) as Z0.
        change (neqb (N:=RX) n0 n0 = false) in Nz. congruence.
      + apply filter_In in Ho' as [Ho' _]. destruct (Yr o' Ho') as [y ->]. destruct (Be o' Ho') as (e' & Ve' & _).
        unfold ofE. rewrite Ve', Ea, divRX by lra. eauto. }
  set (pts := map (fun q : RX * RX => (toR (fst q), toR (snd q))) (s_pts c)).
  assert (Epts : s_pts c = xpts pts).
  { unfold xpts, pts. rewrite map_map. symmetry. rewrite <- (map_id (s_pts c)) at 2. apply map_ext_in.
    intros q Hq. destruct (Pts q Hq) as (x & y & ->). reflexivity. }
  assert (Sp : StronglySorted (fun p q : R * R => fst p < fst q) pts).
  { apply SS_nth. intros i i' q q' Hii Hq Hq'.
    assert (X : nlt (N:=RX) (XR (fst q)) (XR (fst q')) = true); [|now apply nltRX in X].
    apply (Hsort i i' (XR (fst q)) (XR (fst q')) Hii); rewrite Epts; unfold xpts; rewrite map_map, nth_error_map.
    - rewrite Hq. reflexivity.
    - rewrite Hq'. reflexivity. }
  assert (Np : pts <> []) by (intros Z; apply Hn; rewrite Epts, Z; reflexivity).
  destruct (interp1_spec pts (e / a) Np Sp) as (jc & Ejc & Ijc).
  assert (Jc : jcv c (krow_of o) = XR jc).
  { unfold jcv, nE. change (k_e (krow_of o)) with (o_e o). rewrite Ve, Ea, divRX by lra. rewrite Epts. exact Ejc. }
  assert (Nj : jc <> 0).
  { intros ->. unfold raw_eps in Hk. rewrite Jc in Hk. unfold nZ in Hk. change (k_z (krow_of o)) with (o_jz o) in Hk.
    rewrite Jz, Eb, divRX in Hk by exact Nb. simpl in Hk. destruct (Req_EM_T 0 0); [|lra].
    destruct (Rcompare (jz / b) 0); discriminate. }
  assert (Er : r = jz / b / jc).
  { unfold raw_eps in Hk. rewrite Jc in Hk. unfold nZ in Hk. change (k_z (krow_of o)) with (o_jz o) in Hk.
    rewrite Jz, Eb, divRX in Hk by exact Nb. rewrite divRX in Hk by exact Nj. now injection Hk. }
  exists a, b, p, e, jz, jp, jc, pts, o. rewrite <- Ea, <- Eb, <- Ep.
  split; [exact U|]. split; [exact Pa|]. split; [lra|]. split; [reflexivity|].
  split; [exact Ve|]. split; [exact Jz|]. split; [exact Jp|].
  split; [rewrite Epts; unfold xpts; now rewrite map_map|]. split; [rewrite Epts; unfold xpts; now rewrite map_map|].
  split; [exact Ijc|]. split; [exact Nj|]. split; [rewrite Er; field; auto|]. split.
  - destruct (Hrange (XR r)) as [W|[W1 W2]].
    + rewrite map_map. apply in_map_iff. exists o. split; [|eapply nth_error_In; eauto]. unfold kept. rewrite Kp. exact Hk.
    + apply (nisnan_iff RX_rounded) in W. discriminate.
    + split; [apply nleRX; exact W1|apply nleRX; exact W2].
  - intros Pup. split.
    + rewrite map_map, nth_error_map, Eo. cbn [option_map]. unfold kept. rewrite Kp. f_equal.
      unfold raw_eps_r. rewrite Jc. unfold nP. change (k_p (krow_of o)) with (o_jp o). rewrite Jp, Ep, divRX by lra.
      rewrite divRX by exact Nj. f_equal. field. repeat split; lra.
    + split.
      * intros Q. destruct (Req_EM_T jp 0) as [|Nz]; [auto|right].
        assert (b / p = 1).
        { assert (D : jp / (b * jc) <> 0).
          { unfold Rdiv. apply Rmult_integral_contrapositive. split; [exact Nz|]. apply Rinv_neq_0_compat.
            apply Rmult_integral_contrapositive. auto. }
          apply (Rmult_eq_reg_l (jp / (b * jc))); [lra|exact D]. }
        assert (b = b / p * p) by (field; lra). rewrite H in H2. lra.
      * intros [->| ->]; field; repeat split; lra.
Qed.
Local Close Scope R_scope.

(** *** Examples *)

(** A sort: insertion of the indices one by one. *)
Section Isort.
Context {N : Num} (RN : Rounded N).
Definition beforeb (x y : N) : bool := nisnan y || nle x y.
Fixpoint ins (key : nat -> N) (i : nat) (s : list nat) : list nat :=
  match s with
  | [] => [i]
  | j :: s' => if beforeb (key i) (key j) then i :: j :: s' else j :: ins key i s'
  end.
Definition isort (l : list N) : list nat := fold_right (ins (fun i => nth i l nnan)) [] (seq 0 (length l)).

Lemma ins_perm key i s : Permutation (ins key i s) (i :: s).
Proof.
  induction s as [|j s IH]; simpl; [reflexivity|]. destruct (beforeb _ _); [reflexivity|].
  etransitivity; [apply perm_skip, IH|]. apply perm_swap.
Qed.
Lemma ins_sorted key i s : StronglySorted (fun a b => before (key a) (key b)) s ->
  StronglySorted (fun a b => before (key a) (key b)) (ins key i s).
Proof.
  induction s as [|j s IH]; intros H; simpl; [repeat constructor|].
  inversion H as [|? ? Hs F]; subst. destruct (beforeb (key i) (key j)) eqn:B.
  - apply orb_prop in B. fold (before (key i) (key j)) in B. constructor; [exact H|]. constructor; [exact B|].
    eapply Forall_impl; [|exact F]. intros k Hk. eapply (before_trans RN); eauto.
  - apply orb_false_elim in B as [B1 B2].
    assert (G : before (key j) (key i)).
    { unfold before. destruct (nisnan (key i)) eqn:E; [auto|right]. apply (v_nle RN); auto.
      apply (nlt_false RN). intros L. apply xlt_le, (nle_iff RN) in L. congruence. }
    constructor; [auto|]. apply Forall_forall. intros k Hk.
    eapply Permutation_in in Hk; [|apply ins_perm]. destruct Hk as [<-|Hk]; [exact G|].
    rewrite Forall_forall in F. auto.
Qed.
Lemma isort_sorts l : sorts l (isort l).
Proof.
  unfold isort. set (key := fun i => nth i l nnan). split.
  - generalize (seq 0 (length l)). induction l0 as [|i l0 IH]; simpl; [reflexivity|].
    etransitivity; [apply ins_perm|]. now apply perm_skip.
  - assert (S : StronglySorted (fun a b => before (key a) (key b)) (fold_right (ins key) [] (seq 0 (length l)))).
    { generalize (seq 0 (length l)). induction l0 as [|i l0 IH]; simpl; [constructor|]. now apply ins_sorted. }
    intros a b i j x y Hab Ha Hb Hx Hy. pose proof (proj2 (SS_nth _ _) S a b i j Hab Ha Hb) as B.
    unfold key in B. rewrite (nth_error_nth _ _ _ Hx), (nth_error_nth _ _ _ Hy) in B. exact B.
Qed.
Definition asort : nat -> list N -> list nat := fun _ => isort.
Lemma asort_sorting : sorting asort.
Proof. intros i l. apply isort_sorts. Qed.
End Isort.

(** Galaxies on the x axis: each particle has a position x, velocities vy and vz and a potential. *)
Definition lineP (t : ptype) (l : list (F64 * F64 * F64 * F64)) : res (pset F64) :=
  let z := map (fun _ => fZ 0) l in
  mk_pset t (map (fun _ => fZ 1) l) (map (fun p => fst (fst (fst p))) l) z z z (map (fun p => snd (fst (fst p))) l)
    (map (fun p => snd (fst p)) l) (Some (map snd l)) (fZ 0).
Definition lineG (ls ld lg : list (F64 * F64 * F64 * F64)) : res (galaxy F64) :=
  do s <- lineP STARS ls; do d <- lineP DARK_MATTER ld; do g <- lineP GAS lg; mk_galaxy s d g.
Lemma lineG_ok ls ld lg g : lineG ls ld lg = Ok g -> constructible g.
Proof.
  unfold lineG, lineP. intros H.
  destruct (mk_pset STARS _ _ _ _ _ _ _ _ _) as [s|] eqn:E1; [|discriminate]. cbn [bind] in H.
  destruct (mk_pset DARK_MATTER _ _ _ _ _ _ _ _ _) as [d|] eqn:E2; [|discriminate]. cbn [bind] in H.
  destruct (mk_pset GAS _ _ _ _ _ _ _ _ _) as [q|] eqn:E3; [|discriminate]. cbn [bind] in H.
  exists s, d, q. split; [|split; [|split; [|exact H]]]; do 10 eexists; eassumption.
Qed.
Definition zl (l : list (Z * Z * Z * (Z * Z))) : list (F64 * F64 * F64 * F64) :=
  map (fun p => let '(x, vy, vz, (a, b)) := p in (fZ x, fZ vy, fZ vz, nlit a b)) l.
Definition jshow (j : jcirc_t F64) := (shows (jc_E j), shows (jc_Jz j), shows (jc_eps j), shows (jc_eps_r j), shows (jc_x j), shows (jc_y j)).

(** Five stars, two dark matter particles and one gas particle. *)
Definition sampleG : res (galaxy F64) :=
  lineG (zl [(1,1,1,(-2,1)); (2,1,0,(-1,1)); (-2,1,1,(-3,2)); (-3,1,0,(-1,1)); (1,2,0,(-1,1))])%Z
        (zl [(4,1,0,(-3,4)); (1,1,1,(-5,4))])%Z (zl [(5,1,0,(-501,1000))])%Z.
(** The fourth star has Jz/Jcirc = -3/2 and the fifth is unbound: both get NaN, and Jz has
    one entry less than the rest. *)
Example ex_c24 :
  rmap jshow (do g <- sampleG; jcirc asort g default_bin0 default_bin1) =
  Ok ([sZ (-1); sQ (-1) 2; sQ (-1) 2; S754_nan; S754_nan],
      [sQ 1 5; sQ 2 5; sQ (-2) 5; S754_nan],
      [sZ 1; sZ 1; sZ (-1); S754_nan; S754_nan],
      [sQ 5 2; sZ 0; sQ 5 2; S754_nan; S754_nan],
      [sZ (-1); sQ (-1) 2; sQ (-1) 4; fshow (nlit (-501) 1000 + nlit 1 2)%num],
      [sQ 1 5; sQ 2 5; sQ 1 5; sZ 1]).
Proof. vm_compute. reflexivity. Qed.

(** Runs the model on a galaxy on the x axis and applies a boolean check. *)
Definition checkG (ls ld lg : list (Z * Z * Z * (Z * Z))) (b0 b1 : F64) (P : galaxy F64 -> jcirc_t F64 -> bool) : bool :=
  match lineG (zl ls) (zl ld) (zl lg) with
  | Raise _ => false
  | Ok g => match jcirc asort g b0 b1 with Ok j => P g j | Raise _ => false end
  end.
Lemma checkG_ex ls ld lg b0 b1 P : checkG ls ld lg b0 b1 P = true ->
  exists g j, constructible g /\ jcirc asort g b0 b1 = Ok j /\ P g j = true.
Proof.
  unfold checkG. destruct (lineG _ _ _) as [g|] eqn:E; [|discriminate].
  destruct (jcirc asort g b0 b1) as [j|] eqn:F; [|discriminate]. intros H. exists g, j.
  split; [eapply lineG_ok; eauto|auto].
Qed.
Definition s_ls : list (Z * Z * Z * (Z * Z)) :=
  [(1,1,1,(-2,1)); (2,1,0,(-1,1)); (-2,1,1,(-3,2)); (-3,1,0,(-1,1)); (1,2,0,(-1,1))]%Z.
Definition s_ld : list (Z * Z * Z * (Z * Z)) := [(4,1,0,(-3,4)); (1,1,1,(-5,4))]%Z.
Definition s_lg : list (Z * Z * Z * (Z * Z)) := [(5,1,0,(-501,1000))]%Z.

(** All the hypotheses of C24-C28, C31 and the ones of C32 are met by this galaxy: its stars
    are bound but the last, and there is a particle in the last bin. *)
Example ex_c25 : exists (g : galaxy F64) j, constructible g /\ jcirc asort g default_bin0 default_bin1 = Ok j /\
  existsb (fun w => nlt w n0 && nlt nm1 w) (jc_E j) = true /\ existsb (fun w => nlt w n0) (jc_Jz j) = true /\
  (length (jc_Jz j) < length (jc_E j))%nat.
Proof.
  destruct (checkG_ex s_ls s_ld s_lg default_bin0 default_bin1 (fun g j =>
    existsb (fun w => nlt w n0 && nlt nm1 w) (jc_E j) && existsb (fun w => nlt w n0) (jc_Jz j) &&
    (length (jc_Jz j) <? length (jc_E j))%nat)) as (g & j & H1 & H2 & H3).
  { vm_compute. reflexivity. }
  apply andb_prop in H3 as [H3 H5]. apply andb_prop in H3 as [H3 H4]. apply Nat.ltb_lt in H5. exists g, j. auto.
Qed.
Example ex_c26 : exists (g : galaxy F64) j o, constructible g /\ jcirc asort g default_bin0 default_bin1 = Ok j /\
  nth_error (star_orbits g) 4 = Some o /\ nlt n0 (o_e o) = true.
Proof.
  destruct (checkG_ex s_ls s_ld s_lg default_bin0 default_bin1 (fun g j =>
    match nth_error (star_orbits g) 4 with Some o => nlt n0 (o_e o) | None => false end)) as (g & j & H1 & H2 & H3).
  { vm_compute. reflexivity. }
  destruct (nth_error (star_orbits g) 4) as [o|] eqn:E; [|discriminate]. exists g, j, o. auto.
Qed.

(** With the default bins the curve of the sample has four points. *)
Example ex_c27 : sorting (@asort F64) /\ exists (g : galaxy F64) j, constructible g /\
  jcirc asort g default_bin0 default_bin1 = Ok j /\ length (jc_x j) = 4%nat.
Proof.
  split; [exact (asort_sorting (F64_rounded _))|].
  destruct (checkG_ex s_ls s_ld s_lg default_bin0 default_bin1 (fun g j => (length (jc_x j) =? 4)%nat))
    as (g & j & H1 & H2 & H3).
  { vm_compute. reflexivity. }
  apply Nat.eqb_eq in H3. exists g, j. auto.
Qed.

(** With bin0 = 0.03 the binary64 edges decrease where the two ranges meet; a particle there
    falls into two bins and the abscissae of the curve repeat. *)
Lemma c27_bins_refuted : exists (g : galaxy F64) j a b, constructible g /\ sorting (@asort F64) /\
  jcirc asort g (nlit 3 100) default_bin1 = Ok j /\
  nth_error (jc_x j) 1 = Some a /\ nth_error (jc_x j) 2 = Some b /\ neqb a b = true /\ nlt a b = false.
Proof.
  destruct (checkG_ex [(1,1,0,(-3,2)); (1,1,0,(-5999999999999995,10000000000000000)); (5,1,0,(-501,1000))]%Z [] []
    (nlit 3 100) default_bin1 (fun g j =>
    match nth_error (jc_x j) 1, nth_error (jc_x j) 2 with
    | Some a, Some b => neqb a b && negb (nlt a b) | _, _ => false end)) as (g & j & H1 & H2 & H3).
  { vm_compute. reflexivity. }
  destruct (nth_error (jc_x j) 1) as [a|] eqn:E1; [|discriminate].
  destruct (nth_error (jc_x j) 2) as [b|] eqn:E2; [|discriminate].
  apply andb_prop in H3 as [H3 H4]. apply negb_true_iff in H4. exists g, j, a, b.
  split; [exact H1|]. split; [exact (asort_sorting (F64_rounded _))|]. auto.
Qed.

(** In the sample the dark matter particles share the bin (-0.3, -0.25] and the one with
    |Jz| = 1 is chosen: 1 is lower than 4 by more than one per cent. *)
Example ex_c28 : let l := [XR 4; XR 1] in picked (N:=RX) (fun x => x) l (XR 1).
Proof.
  intros l. eapply picked_second with (a := XR 4) (rest := []); [reflexivity| | |].
  - right. apply (nle_iff RX_rounded). simpl. lra.
  - intros b [].
  - apply (nle_iff RX_rounded). unfold nlit. cbn [ndiv RX nsub nofZ n1 val RX_rounded].
    simpl. destruct (Req_EM_T 100 0); [lra|]. destruct (Req_EM_T 4 0); [lra|]. simpl. lra.
Qed.

(** No potential; no bound particle. *)
Example ex_c29 :
  exn_of (do s <- (zset STARS [1] [1] [0] [0] [0] [1] [0] None 0)%Z;
          do d <- (zset DARK_MATTER [] [] [] [] [] [] [] None 0)%Z;
          do q <- (zset GAS [] [] [] [] [] [] [] None 0)%Z;
          do g <- mk_galaxy s d q; jcirc asort g default_bin0 default_bin1) = Some ValueError /\
  exn_of (do g <- lineG (zl [(1,2,0,(-1,1))])%Z [] []; jcirc asort g default_bin0 default_bin1) = Some ValueError.
Proof. vm_compute. auto. Qed.

(** The same two stars in both orders. *)
Example ex_c30 :
  exn_of (do g <- lineG (zl [(1,1,0,(-2,1)); (1,2,0,(-1,1))])%Z [] []; jcirc asort g default_bin0 default_bin1) = None /\
  exn_of (do g <- lineG (zl [(1,2,0,(-1,1)); (1,1,0,(-2,1))])%Z [] []; jcirc asort g default_bin0 default_bin1) = Some IndexError.
Proof. vm_compute. auto. Qed.

(** A galaxy all of whose stars are bound, so that the mask exists, and one where it does not. *)
Example ex_c31 :
  rmap (fun b => b) (do g <- lineG (zl [(1,1,1,(-2,1)); (2,1,0,(-1,1)); (-3,1,0,(-1,1))])%Z [] (zl [(5,1,0,(-501,1000))])%Z;
    do j <- jcirc asort g default_bin0 default_bin1; jc_isfinite j) = Ok [true; true; false] /\
  exn_of (do g <- sampleG; do j <- jcirc asort g default_bin0 default_bin1; jc_isfinite j) = Some ValueError.
Proof. vm_compute. auto. Qed.

(** Two stars on circular orbits with energies -1 and -1/2 in the units of the galaxy: the bin
    of the second one has no point on the curve, which is reduced to its first point, and the
    circularity of the second star, which is the largest possible at its energy, is NaN. *)
Lemma c32_populated_refuted : exists (g : galaxy F64) j ue uz up o l0 l1 i w, constructible g /\ sorting (@asort F64) /\
  jcirc asort g default_bin0 default_bin1 = Ok j /\ units g ue uz up /\
  arange nm1 (nlit (-1) 10) default_bin0 = Ok l0 /\ arange (nlit (-1) 10) n0 default_bin1 = Ok l1 /\
  In o (filter bound (all_orbits g)) /\ (1 <= i < length (l0 ++ l1))%nat /\ ebin (l0 ++ l1) i (o_e o / ue)%num = true /\
  (forall x, In x (jc_x j) -> ebin (l0 ++ l1) i x = false) /\
  nth_error (star_orbits g) 1 = Some o /\ nth_error (jc_eps j) 1 = Some w /\ nisnan w = true.
Proof.
  destruct (checkG_ex [(1,1,0,(-3,2)); (2,1,0,(-1,1))]%Z [] [] default_bin0 default_bin1 (fun g j =>
    match arange nm1 (nlit (-1) 10) default_bin0, arange (nlit (-1) 10) n0 default_bin1,
          nth_error (star_orbits g) 1, nth_error (jc_eps j) 1 with
    | Ok l0, Ok l1, Some o, Some w =>
        let all := filter bound (all_orbits g) in
        bound o && nisnan w && existsb (fun i => (1 <=? i)%nat && (i <? length (l0 ++ l1))%nat &&
          forallb (fun o' => negb (forallb (fun o2 => nle (o_e o') (o_e o2)) all) || ebin (l0 ++ l1) i (o_e o / nabs (o_e o'))%num) all &&
          forallb (fun x => negb (ebin (l0 ++ l1) i x)) (jc_x j)) (seq 0 (length (l0 ++ l1)))
    | _, _, _, _ => false end)) as (g & j & H1 & H2 & H3).
  { vm_compute. reflexivity. }
  destruct (arange nm1 _ _) as [l0|] eqn:E0; [|discriminate]. destruct (arange _ n0 _) as [l1|] eqn:E1; [|discriminate].
  destruct (nth_error (star_orbits g) 1) as [o|] eqn:Eo; [|discriminate].
  destruct (nth_error (jc_eps j) 1) as [w|] eqn:Ew; [|discriminate]. cbv zeta in H3.
  apply andb_prop in H3 as [H3 H4]. apply andb_prop in H3 as [H3 H5].
  apply existsb_exists in H4 as (i & _ & H4). apply andb_prop in H4 as [H4 H6]. apply andb_prop in H4 as [H4 H7].
  apply andb_prop in H4 as [H4 H8]. apply Nat.leb_le in H4. apply Nat.ltb_lt in H8.
  rewrite forallb_forall in H6, H7.
  destruct (jcirc_inv (F64_rounded _) _ _ _ _ _ (proj1 (constructible_ok g) H1) H2) as (c & _ & U & _).
  exists g, j, (s_e c), (s_z c), (s_p c), o, l0, l1, i, w.
  split; [exact H1|]. split; [exact (asort_sorting (F64_rounded _))|]. split; [exact H2|]. split; [exact U|].
  split; [reflexivity|]. split; [reflexivity|].
  split; [apply filter_In; split; [apply star_in_all; eapply nth_error_In; eauto|exact H3]|].
  split; [auto|]. split.
  - destruct U as [(e & [(o' & Io & Eo') Me] & ->) _ _]. specialize (H7 o' Io). rewrite <- Eo'.
    apply orb_prop in H7 as [H7|H7]; [|exact H7]. exfalso. apply negb_true_iff in H7.
    assert (forallb (fun o2 => nle (o_e o') (o_e o2)) (filter bound (all_orbits g)) = true) as HT; [|exact (eq_true_false_abs _ HT H7)].
    apply forallb_forall. intros o2 I2. rewrite Eo'. destruct Me as [Me|Me]; [|now apply Me].
    apply filter_In in Io as [_ Bo]. destruct (bound_val (F64_rounded _) o' Bo) as (r & V & _).
    apply (nisnan_iff (F64_rounded _)) in Me. subst e. rewrite V in Me. discriminate.
  - split; [|auto]. intros x Hx. apply negb_true_iff, H6, Hx.
Qed.

(** A galaxy of real numbers: particles with a potential. *)
Local Open Scope R_scope.
Definition psetRP (t : ptype) (l : list (particle * R)) : pset RX :=
  let q f := map (fun p => XR (f (fst p))) l in
  pset_of (N:=RX) t (q pm) (q px) (q py) (q pz) (q pvx) (q pvy) (q pvz) (Some (map (fun p => XR (snd p)) l)) (XR 0).
Definition galRP (ls : list (particle * R)) : galaxy RX :=
  mkGal (psetRP STARS ls) (psetRP DARK_MATTER []) (psetRP GAS []) true.
Lemma galRP_ok ls : constructible (galRP ls).
Proof.
  apply constructible_ok, gal_ok_facts. constructor; simpl; try reflexivity.
  all: apply pset_ok_iff; split; [|reflexivity]; repeat split; simpl; rewrite ?map_length; auto;
    intros p [= <-]; now rewrite map_length.
Qed.

(** Same orbits with different masses; a turn by the angle of the 3-4-5 triangle. *)
Example ex_c33 :
  let q m := Part m 1 0 0 0 1 1 in
  let r := Part 2 (3/5) (4/5) 0 (-4/5) (3/5) 1 in
  constructible (galRP [(q 2, -2)]) /\ constructible (galRP [(q 7, -2)]) /\ constructible (galRP [(r, -2)]) /\
  holds (g_stars (galRP [(q 2, -2)])) [q 2] /\ holds (g_stars (galRP [(r, -2)])) (map (rotate (Rz (3/5) (4/5))) [q 2]).
Proof.
  cbv zeta. split; [apply galRP_ok|]. split; [apply galRP_ok|]. split; [apply galRP_ok|]. split; [repeat split|].
  unfold holds, rotate, Rz; simpl. repeat split; apply (f_equal (fun r => [XR r])); field.
Qed.

(** Another place and another velocity, the same energy and angular momentum: (2, 0, 0) with
    velocity (0, 2, 0), and (4, 0, 0) with velocity (0, 1, 0) and a higher potential. *)
Example ex_c33_orbits :
  let g := galRP [(Part 1 2 0 0 0 2 0, -3)] in
  let g' := galRP [(Part 1 4 0 0 0 1 0, -(3/2))] in
  constructible g /\ constructible g' /\ star_orbits g' = star_orbits g /\ all_orbits g' = all_orbits g /\
  p_x (g_stars g') <> p_x (g_stars g).
Proof.
  cbv zeta. split; [apply galRP_ok|]. split; [apply galRP_ok|].
  assert (E : star_orbits (galRP [(Part 1 4 0 0 0 1 0, -(3/2))]) = star_orbits (galRP [(Part 1 2 0 0 0 2 0, -3)])).
  { unfold star_orbits, orbits, energies; simpl. destruct (Req_EM_T 2 0); [lra|]. simpl.
    f_equal. f_equal; f_equal; lra. }
  split; [exact E|]. split.
  - unfold all_orbits, sets. cbn [flat_map]. unfold star_orbits in E. rewrite E. reflexivity.
  - simpl. intros C. injection C as C. lra.
Qed.

(** One star of energy -1 with Jz = Jp = 1: its circularity is 1. *)
Example ex_c34 : let g := galRP [(Part 1 1 0 0 0 1 1, -2)] in
  constructible g /\ sorting (@asort RX) /\ nlt (N:=RX) n0 n1 = true /\ regular g /\
  exists j, jcirc asort g n1 n1 = Ok j /\ nth_error (jc_eps j) 0 = Some (XR 1).
Proof.
  intros g. assert (Hc : constructible g) by apply galRP_ok.
  assert (Hs : sorting (@asort RX)) by exact (asort_sorting RX_rounded).
  assert (L1 : nlt (N:=RX) n0 n1 = true) by (apply nltRX; lra).
  set (o := Orb (N:=RX) (XR (-1)) (XR 0) (XR (-1)) (XR 1)).
  assert (Eo : all_orbits g = [o]).
  { unfold all_orbits, orbits, energies, g, o; simpl. destruct (Req_EM_T 2 0); [lra|]. simpl.
    f_equal. f_equal; f_equal; lra. }
  assert (Es : star_orbits g = [o]).
  { rewrite <- Eo. unfold star_orbits, all_orbits, sets. cbn [flat_map].
    change (orbits (g_dm g)) with (@nil (orbit RX)). change (orbits (g_gas g)) with (@nil (orbit RX)).
    now rewrite !app_nil_r. }
  assert (Bo : bound o = true).
  { unfold bound, o. cbn [o_e]. apply andb_true_intro. split; [apply nleRX; lra|reflexivity]. }
  assert (Jp : o_jp o = XR 1).
  { unfold o_jp, o; simpl. replace (0 * 0 + -1 * -1) with (1 * 1) by ring. rewrite sqrt_square by lra.
    destruct (Rlt_dec _ _); [lra|reflexivity]. }
  split; [exact Hc|]. split; [exact Hs|]. split; [exact L1|]. split.
  { split.
    - rewrite Eo. intros o' [<-|[]] _. exists 1, 1. split; [reflexivity|exact Jp].
    - exists o. rewrite Eo. split; [now left|]. split; [exact Bo|]. unfold o. cbn [o_e]. intros C. injection C as C. lra. }
  destruct (arange_oneRX (-1) (-1/10)) as (l0 & A0); [lra|].
  destruct (arange_oneRX (-1/10) 0) as (l1 & A1); [lra|].
  destruct (arangeRX (-1) (-1/10) (n1 (N:=RX)) l0) as (F0 & _); [lra|exact L1|exact A0|].
  assert (Hne : l0 ++ l1 <> []) by (destruct l0; discriminate).
  destruct (proj2 (c30_returns RX RX_rounded asort g n1 n1 l0 l1 Hc Hs
    (eq_trans (f_equal (fun e => arange (N:=RX) nm1 e n1) nlit_m01_RX) A0)
    (eq_trans (f_equal (fun e => arange (N:=RX) e n0 n1) nlit_m01_RX) A1) Hne)) as [j Hj].
  { split; [exists o; rewrite Eo; split; [now left|exact Bo]|]. intros i k oi ok Hik Hi Hk. rewrite Es in Hi, Hk.
    destruct i; [|destruct i; discriminate]. injection Hi as <-. auto. }
  exists j. split; [exact Hj|].
  destruct (c24_eps RX RX_rounded asort g n1 n1 j Hc Hj) as (_ & ue & uz & up & U & V).
  destruct (c28_points RX RX_rounded asort g n1 n1 j Hc Hs Hj) as (ue' & uz' & up' & l0' & l1' & U' & _ & _ & (o' & Io & _ & X0 & Y0) & _).
  assert (Eu : forall a b c, units g a b c -> a = XR 1 /\ b = XR 1).
  { intros a b c [(e & [(x & Ix & Ex) _] & ->) [(y & Iy & Ey) _] _]. rewrite Eo in Ix, Iy.
    cbn [filter] in Ix, Iy. rewrite Bo in Ix, Iy. destruct Ix as [<-|[]]. destruct Iy as [<-|[]].
    subst e b. unfold o. cbn [o_e o_jz]. simpl. rewrite Rabs_R1, Rabs_left by lra.
    split; f_equal; lra. }
  destruct (Eu _ _ _ U) as [-> ->]. destruct (Eu _ _ _ U') as [-> ->].
  assert (o' = o) as ->.
  { rewrite Eo in Io. cbn [filter] in Io. rewrite Bo in Io. destruct Io as [<-|[]]. reflexivity. }
  destruct (V 0%nat o) as (_ & _ & V3 & _); [rewrite Es; reflexivity|exact Bo|].
  rewrite V3. clear V V3.
  destruct (c27_exact asort g n1 n1 j Hc Hs L1 L1 Hj) as (_ & _ & Mx & _).
  destruct (jc_x j) as [|x0 xs]; [discriminate|]. destruct (jc_y j) as [|y0 ys]; [discriminate|].
  injection X0 as ->. assert (Ey : y0 = nabs (N:=RX) (ndiv (N:=RX) (XR 1) (XR 1))) by (change (o_jz o) with (XR 1) in Y0; cbn [nth_error] in Y0; congruence). rewrite divRX in Ey by lra.
  assert (y0 = XR 1) as -> by (rewrite Ey; simpl; f_equal; rewrite Rabs_right; lra). clear Ey Y0. unfold o. cbn [o_e o_jz]. rewrite !divRX by lra.
  replace (-1 / 1) with (-1) by lra. replace (1 / 1) with 1 by lra.
  assert (I : interp1 (N:=RX) (combine (XR (-1) :: xs) (XR 1 :: ys)) (XR (-1)) = XR 1).
  { cbn [combine interp1]. assert (nisnan (N:=RX) (XR (-1)) = false) as -> by (apply (nisnan_false RX_rounded); discriminate).
    assert (nlt (N:=RX) (XR (-1)) (XR (-1)) = false) as -> by (apply (nlt_false RX_rounded); simpl; lra).
    destruct xs as [|x1 xs], ys as [|y1 ys]; try reflexivity. cbn [combine interp_seg].
    assert (L : nlt (N:=RX) (XR (-1)) x1 = true) by (apply (Mx 0%nat 1%nat); [lia|reflexivity|reflexivity]).
    assert (nle (N:=RX) x1 (XR (-1)) = false) as ->.
    { apply (nle_false RX_rounded). intros C. apply (nlt_iff RX_rounded) in L. exact (xlt_not_le _ _ L C). }
    assert (neqb (N:=RX) (XR (-1)) (XR (-1)) = true) as -> by (apply (neqb_iff RX_rounded); split; [reflexivity|discriminate]).
    reflexivity. }
  match goal with |- context [interp1 ?a ?b] => replace (interp1 a b) with (XR 1) by (symmetry; exact I) end.
  rewrite divRX by lra. replace (1 / 1) with 1 by lra.
  assert (nlt (N:=RX) n1 (XR 1) = false) as -> by (apply (nlt_false RX_rounded); simpl; lra).
  assert (nlt (N:=RX) (XR 1) nm1 = false) as -> by (apply (nlt_false RX_rounded); simpl; lra). reflexivity.
Qed.
