(** Energies of a whole galaxy (C92). *)
From Verif Require Import Py Num RX F64 Np Df Data DataFacts DfFacts Center CenterFacts Align Spec SpecR SpecPot Ex DataThms CenterThms AlignFacts AlignThms Potential RebuildFacts PotFacts PotThms SpecGalEnergy.

(** [kinetic_energy_], [potential_energy_] and [total_energy_] of a galaxy: one array per particle
    set, in the order stars, dark matter, gas, with one entry per particle; the last two exist
    exactly when the galaxy has a potential. *)
Lemma c92_tuples : forall (N : Num) (g : galaxy N), constructible g ->
  (forall k p, nth_error (sets g) k = Some p -> exists ke, nth_error (listed (kinetic_energy_ g)) k = Some ke /\
     length ke = plen p /\
     forall i vx vy vz, nth_error (p_vx p) i = Some vx -> nth_error (p_vy p) i = Some vy -> nth_error (p_vz p) i = Some vz ->
       nth_error ke i = Some (nlit 1 2 * (vx * vx + vy * vy + vz * vz))%num) /\
  (g_haspot g = false -> potential_energy_ g = None /\ total_energy_ g = None) /\
  (g_haspot g = true -> exists P T, potential_energy_ g = Some P /\ total_energy_ g = Some T /\
     forall k p, nth_error (sets g) k = Some p -> exists ke pot te,
       nth_error (listed (kinetic_energy_ g)) k = Some ke /\
       nth_error (listed P) k = Some (Some pot) /\ nth_error (listed T) k = Some (Some te) /\ p_pot p = Some pot /\
       length pot = plen p /\ length te = plen p /\
       forall i e u, nth_error ke i = Some e -> nth_error pot i = Some u -> nth_error te i = Some (e + u)%num).
Proof.
  intros N g Hg. pose proof (proj1 (constructible_ok g) Hg) as O. apply gal_ok_facts in O as [Os Od Og Ts Td Tg Hs Hd Hq].
  assert (K : forall k p, nth_error (sets g) k = Some p -> nth_error (listed (kinetic_energy_ g)) k = Some (p_ke p) /\ pset_ok p /\ p_haspot p = g_haspot g).
  { intros [|[|[|k]]] p E; simpl in E; try (destruct k; discriminate); injection E as <-; cbn [listed kinetic_energy_ nth_error]; auto. }
  split; [|split].
  - intros k p E. destruct (K k p E) as (A & B & C). exists (p_ke p). split; [exact A|].
    split; [pose proof (pset_ok_lengths _ B); tauto|].
    intros i vx vy vz E1 E2 E3. rewrite (pset_ok_ke _ B), map3'_nth, E1, E2, E3. reflexivity.
  - intros H. unfold potential_energy_, total_energy_. rewrite H. auto.
  - intros H. unfold potential_energy_, total_energy_. rewrite H. do 2 eexists. split; [reflexivity|]. split; [reflexivity|].
    intros k p E. destruct (K k p E) as (A & B & C). rewrite H, (pset_ok_haspot _ B) in C.
    destruct (p_pot p) as [pot|] eqn:Ep; [|discriminate]. pose proof (pset_ok_te _ B) as Et. rewrite Ep in Et.
    exists (p_ke p), pot, (map2 nadd (p_ke p) pot). split; [exact A|].
    assert (X : nth_error (listed (p_pot (g_stars g), p_pot (g_dm g), p_pot (g_gas g))) k = Some (p_pot p) /\
                nth_error (listed (p_te (g_stars g), p_te (g_dm g), p_te (g_gas g))) k = Some (p_te p)).
    { destruct k as [|[|[|k]]]; simpl in E; try (destruct k; discriminate); injection E as <-; auto. }
    destruct X as (X1 & X2). rewrite Ep in X1. rewrite Et in X2.
    destruct (pset_ok_lengths _ B) as (_ & _ & _ & _ & _ & _ & _ & _ & _ & _ & L1 & L2).
    split; [exact X1|]. split; [exact X2|]. split; [reflexivity|]. split; [auto|]. split; [auto|].
    intros i e u E1 E2. rewrite map2_nth, E1, E2. reflexivity.
Qed.

Lemma scalar_dec hp k : {scalar_attr hp k} + {~ scalar_attr hp k}.
Proof.
  unfold scalar_attr. destruct (string_dec k "softening"); [left; auto|].
  destruct hp; [right; intuition discriminate|].
  destruct (string_dec k "potential"); [left; auto|].
  destruct (string_dec k "total_energy"); [left; auto|]. right; intuition.
Qed.

(** The columns of the data frame of the whole galaxy are these arrays one after the other. *)
Lemma c92_frame : forall (N : Num) (g : galaxy N) a d, constructible g -> to_df g PTNone a = Ok d ->
  (In "kinetic_energy"%string (requested a) ->
     dget (cols d) "kinetic_energy" = Some (map CNum (concat (listed (kinetic_energy_ g))))) /\
  (In "total_energy"%string (requested a) -> forall t1 t2 t3, total_energy_ g = Some (Some t1, Some t2, Some t3) ->
     dget (cols d) "total_energy" = Some (map CNum (t1 ++ t2 ++ t3))) /\
  (In "total_energy"%string (requested a) -> total_energy_ g = None ->
     dget (cols d) "total_energy" = Some (repeat (CNum nnan) (glen g))).
Proof.
  intros N g a d Hg Hd. pose proof (proj1 (constructible_ok g) Hg) as O. pose proof O as O'.
  apply gal_ok_facts in O' as [Os Od Og Ts Td Tg Hs Hd' Hq].
  pose proof (to_df_cases g PTNone a O) as (C1 & C2 & C3 & C4 & C5). cbn [psets filter selected] in C2, C4, C5.
  assert (Col : forall k, In k (requested a) -> In k all_attributes ->
    dget (cols d) k = Some (flat_map (fun p => pcol p k) [g_stars g; g_dm g; g_gas g])).
  { intros k Hk Ha. rewrite requested_attrs in *.
    destruct (Forall_dec (fun k => In k all_attributes) (fun k => in_dec string_dec k all_attributes) (attrs_of a)) as [Hi|Hi].
    2:{ rewrite C2 in Hd; [discriminate|discriminate|]. intros I. apply Hi. apply Forall_forall. auto. }
    assert (Inc : incl (attrs_of a) all_attributes) by (intros x Hx; rewrite Forall_forall in Hi; auto).
    destruct (Exists_dec (fun k => ~ scalar_attr (g_haspot g) k) (attrs_of a)) as [Hx|Hx].
    { intros x. destruct (scalar_dec (g_haspot g) x); [right|left]; tauto. }
    - apply Exists_exists in Hx. rewrite C5 in Hd by (auto; discriminate). injection Hd as <-. cbn [cols]. rewrite dget_keyed.
      assert (smem k (dedup [] (attrs_of a)) = true) as ->; [|reflexivity]. apply smem_In, dedup_In. split; [exact Hk|intros []].
    - rewrite C4 in Hd; auto; [discriminate|discriminate|intros E; rewrite E in Hk; contradiction|].
      intros x Ix. destruct (scalar_dec (g_haspot g) x) as [Y|Y]; [exact Y|]. exfalso. apply Hx, Exists_exists. eauto. }
  split; [|split].
  - intros I. rewrite (Col _ I) by (apply smem_In; reflexivity). cbn [flat_map listed kinetic_energy_ concat]. rewrite !map_app, !app_nil_r. reflexivity.
  - intros I t1 t2 t3 E. rewrite (Col _ I) by (apply smem_In; reflexivity). unfold total_energy_ in E. destruct (g_haspot g); [|discriminate].
    assert (E1 : p_te (g_stars g) = Some t1) by congruence. assert (E2 : p_te (g_dm g) = Some t2) by congruence.
    assert (E3 : p_te (g_gas g) = Some t3) by congruence.
    cbn [flat_map]. rewrite !app_nil_r, !map_app. unfold pcol, maker. cbn. rewrite E1, E2, E3. reflexivity.
  - intros I E. rewrite (Col _ I) by (apply smem_In; reflexivity). unfold total_energy_ in E. destruct (g_haspot g) eqn:H; [discriminate|].
    assert (T : forall p : pset N, pset_ok p -> p_haspot p = false -> pcol p "total_energy" = repeat (CNum nnan) (plen p)).
    { intros p Hp Hh. rewrite (pset_ok_haspot _ Hp) in Hh. unfold pcol, maker. cbn. rewrite (pset_ok_te _ Hp). destruct (p_pot p); [discriminate|]. reflexivity. }
    cbn [flat_map]. rewrite app_nil_r, !T by auto. unfold glen. now rewrite <- !repeat_app, Nat.add_assoc.
Qed.

(** Centring leaves all of them as they are, bit for bit. *)
Lemma c92_center : forall (N : Num) (RN : Rounded N) (g h : galaxy N), constructible g -> center g = Ok h ->
  kinetic_energy_ h = kinetic_energy_ g /\ potential_energy_ h = potential_energy_ g /\ total_energy_ h = total_energy_ g.
Proof.
  intros N RN g h Hg Hc. destruct (c09_translation N RN g h Hg Hc) as (i & x0 & y0 & z0 & _ & _ & _ & _ & Hh & _ & F).
  unfold sets in F. inversion F as [|? ? ? ? (A & _) F1]; subst. inversion F1 as [|? ? ? ? (B & _) F2]; subst.
  inversion F2 as [|? ? ? ? (C & _) F3]; subst. unfold same_but_positions in A, B, C.
  destruct A as (_ & _ & _ & _ & _ & A1 & _ & _ & A2 & A3 & _), B as (_ & _ & _ & _ & _ & B1 & _ & _ & B2 & B3 & _), C as (_ & _ & _ & _ & _ & C1 & _ & _ & C2 & C3 & _).
  unfold kinetic_energy_, potential_energy_, total_energy_. rewrite Hh, A1, A2, A3, B1, B2, B3, C1, C2, C3. auto.
Qed.

(** Computing the potential keeps the kinetic energies ... *)
Lemma c92_potential : forall (W S : Num), Rounded W -> forall (cast : W -> S) (lift : S -> W) table name (g h : galaxy W),
  constructible g -> potential cast lift table name g = Ok h ->
  kinetic_energy_ h = kinetic_energy_ g /\ potential_energy_ g = None /\ exists P, potential_energy_ h = Some P.
Proof.
  intros W S RW cast lift table name g h Hg H. pose proof (proj1 (constructible_ok g) Hg) as O.
  destruct (c19_errors W S cast lift table name g Hg) as (E1 & E2 & _).
  destruct (g_haspot g) eqn:Hp; [rewrite E1 in H by reflexivity; discriminate|].
  destruct (dget table name) as [f|] eqn:Ef; [|rewrite E2 in H by (auto; now apply dget_none_notin); discriminate].
  rewrite (potential_eq _ _ _ _ _ _ O Hp Ef) in H. apply bind_ok in H as (pot & _ & H). cbn zeta in H. unfold build in H.
  apply bind_ok in H as (s & Hs & H). apply bind_ok in H as (d & Hd & H). apply bind_ok in H as (q & Hq & H).
  apply mk_galaxy_inv in H as (-> & _). unfold build1 in Hs, Hd, Hq. cbn in Hs, Hd, Hq.
  apply mk_pset_lens in Hs as (_ & ->), Hd as (_ & ->), Hq as (_ & ->).
  apply gal_ok_facts in O as [Os Od Og _ _ _ _ _ _].
  split; [|split].
  - unfold kinetic_energy_. cbn. rewrite (pset_ok_ke _ Os), (pset_ok_ke _ Od), (pset_ok_ke _ Og). reflexivity.
  - unfold potential_energy_. rewrite Hp. reflexivity.
  - unfold potential_energy_. cbn. eexists. reflexivity.
Qed.

Section Pairs.
Variable s : R.
(** Mass times potential, summed; [pre]: particles already passed. *)
Fixpoint Wpre (pre l : list particle) : R :=
  match l with
  | [] => 0
  | p :: l' => pm p * phi s p (pre ++ l') + Wpre (pre ++ [p]) l'
  end.
Lemma sumR_nil f : sumR f [] = 0%R.
Proof. reflexivity. Qed.
Lemma sumR_cons f p l : sumR f (p :: l) = (f p + sumR f l)%R.
Proof. reflexivity. Qed.
Lemma sumR_app f l l' : sumR f (l ++ l') = (sumR f l + sumR f l')%R.
Proof. induction l as [|p l IH]; [rewrite sumR_nil; simpl; lra|]. simpl app. rewrite !sumR_cons, IH. lra. Qed.
Lemma sdist_sym p q : sdist s p q = sdist s q p.
Proof. unfold sdist. f_equal. ring. Qed.
Lemma phi_app p l l' : phi s p (l ++ l') = (phi s p l + phi s p l')%R.
Proof. apply sumR_app. Qed.
Lemma Wpre_pairs l : forall pre, Wpre pre l = (sumR (fun p => pm p * phi s p pre) l + 2 * pair_energy s l)%R.
Proof.
  induction l as [|p l IH]; intros pre; cbn [Wpre pair_energy]; [rewrite sumR_nil; lra|].
  rewrite IH, sumR_cons, phi_app.
  assert (A : sumR (fun q => pm q * phi s q (pre ++ [p])) l = (sumR (fun q => pm q * phi s q pre) l + sumR (fun q => pm p * pm q / sdist s p q) l)%R).
  { clear IH. induction l as [|q l IH]; [rewrite !sumR_nil; lra|]. rewrite !sumR_cons, IH, phi_app.
    assert (B : phi s q [p] = (pm p / sdist s p q)%R) by (unfold phi; rewrite sumR_cons, sumR_nil, sdist_sym; lra). rewrite B. unfold Rdiv. ring. }
  assert (B : (pm p * phi s p l)%R = sumR (fun q => pm p * pm q / sdist s p q) l).
  { unfold phi. clear. induction l as [|q l IH]; [rewrite !sumR_nil; lra|]. rewrite !sumR_cons, <- IH. unfold Rdiv. ring. }
  rewrite A. replace (pm p * (phi s p pre + phi s p l))%R with (pm p * phi s p pre + pm p * phi s p l)%R by ring. rewrite B. lra.
Qed.
Lemma weighted_Wpre k l : forall pre vs, length vs = length l ->
  (forall i p, nth_error l i = Some p -> nth_error vs i = Some (k * phi s p (others (pre ++ l) (length pre + i)))%R) ->
  weighted l vs = (k * Wpre pre l)%R.
Proof.
  induction l as [|p l IH]; intros pre [|v vs] L H; cbn [weighted Wpre]; try discriminate; [lra|].
  rewrite (IH (pre ++ [p]) vs).
  - pose proof (H 0%nat p eq_refl) as H0. cbn [nth_error] in H0. injection H0 as ->.
    unfold others. rewrite Nat.add_0_r, firstn_app, firstn_all, Nat.sub_diag. cbn [firstn]. rewrite app_nil_r.
    replace (skipn (S (length pre)) (pre ++ p :: l)) with l. 2:{ rewrite skipn_app, skipn_all2 by lia. replace (S (length pre) - length pre)%nat with 1%nat by lia. reflexivity. }
    ring.
  - simpl in L. lia.
  - intros i q E. rewrite app_length, <- app_assoc. simpl. replace (length pre + 1 + i)%nat with (length pre + S i)%nat by lia. exact (H (S i) q E).
Qed.
End Pairs.

(** ... and in exact arithmetic the potentials, weighted with the masses, add up to minus twice
    G times the sum over all pairs of particles. *)
Lemma c92_pairs : forall G junk (g : galaxy RX) l s, bare g l -> largest_softening g (XR s) -> apart s l ->
  exists h vs, exact_potential G junk "fortran" g = Ok h /\ all_pots h = map XR vs /\ length vs = length l /\
    weighted l vs = (- 2 * G * pair_energy s l)%R.
Proof.
  intros G junk g l s (Hg & Hp & ls & ld & lg & -> & Hs & Hd & Hq) So Ap.
  destruct (c22_value G junk g ls ld lg s Hg Hp Hs Hd Hq So Ap) as (h & Hh & L & V). set (l := ls ++ ld ++ lg) in *.
  assert (X : exists vs, all_pots h = map XR vs /\ length vs = length l /\
    forall i p, nth_error l i = Some p -> nth_error vs i = Some (- G * phi s p (others l i))%R).
  { exists (map (fun v => match v with XR r => r | _ => 0%R end) (all_pots h)).
    assert (A : forall i v, nth_error (all_pots h) i = Some v -> exists p, nth_error l i = Some p /\ v = XR (- (G * phi s p (others l i)))).
    { intros i v E. destruct (nth_error l i) as [p|] eqn:Ep.
      - exists p. split; [reflexivity|]. rewrite (V i p Ep) in E. congruence.
      - apply nth_error_None in Ep. assert (nth_error (all_pots h) i <> None) by congruence. apply nth_error_Some in H. lia. }
    split; [|split].
    - rewrite map_map, <- (map_id (all_pots h)) at 1. apply map_ext_in. intros v I. apply In_nth_error in I as (i & E).
      destruct (A i v E) as (p & _ & ->). reflexivity.
    - now rewrite map_length.
    - intros i p E. pose proof (V i p E) as V'. etransitivity; [exact (map_nth_error (fun v : xr => match v with XR r => r | _ => 0%R end) i _ V')|]. cbn. f_equal. ring. }
  destruct X as (vs & E & Lv & Hv). exists h, vs. split; [exact Hh|]. split; [exact E|]. split; [exact Lv|].
  rewrite (weighted_Wpre s (- G) l [] vs Lv Hv), Wpre_pairs.
  assert (Z : forall l', sumR (fun p => pm p * phi s p []) l' = 0%R). { intros l'. induction l' as [|q l' IH]; [reflexivity|]. rewrite sumR_cons, IH. unfold phi. rewrite sumR_nil. lra. }
  rewrite Z. ring.
Qed.

Example ex_c92 : (exists g, gal3 (Some (-5)%Z) (Some (-9)%Z) (Some (-3)%Z) = Ok g /\
    map shows (listed (kinetic_energy_ g)) = [[sZ 31]; [sQ 65 2]; [sZ 35]] /\
    option_map (fun t => map (option_map shows) (listed t)) (potential_energy_ g) = Some [Some [sZ (-5)]; Some [sZ (-9)]; Some [sZ (-3)]] /\
    option_map (fun t => map (option_map shows) (listed t)) (total_energy_ g) = Some [Some [sZ 26]; Some [sQ 47 2]; Some [sZ 32]]) /\
  (exists h vs, exact_potential 1 (fun _ _ => XNaN) "fortran" galP3 = Ok h /\ all_pots h = map XR vs /\
    weighted exP vs = (- (98 / 15))%R).
Proof.
  split.
  - apply ok_sat. vm_compute. auto.
  - destruct (c92_pairs 1 (fun _ _ => XNaN) galP3 exP 0 galP3_bare galP3_soft exP_apart) as (h & vs & Hh & E & _ & W).
    exists h, vs. split; [exact Hh|]. split; [exact E|]. rewrite W. unfold exP, pair_energy, sumR, sdist. cbn [fold_right pm px py pz].
    replace ((0 - 3) * (0 - 3) + (0 - 0) * (0 - 0) + (0 - 0) * (0 - 0) + 0 * 0)%R with (3 * 3)%R by ring.
    replace ((0 - 0) * (0 - 0) + (0 - 4) * (0 - 4) + (0 - 0) * (0 - 0) + 0 * 0)%R with (4 * 4)%R by ring.
    replace ((3 - 0) * (3 - 0) + (0 - 4) * (0 - 4) + (0 - 0) * (0 - 0) + 0 * 0)%R with (5 * 5)%R by ring.
    rewrite !sqrt_square by lra. field.
Qed.
