(** What the labels of a decomposition do not depend on (C75). *)
From Verif Require Import Py Num RX F64 Np Df Data DataFacts DfFacts RebuildFacts Center CenterFacts Align Spec SpecR SpecCirc SpecOrder SpecSym SpecBase Ex DataThms CenterThms AlignFacts AlignThms Circ CircFacts CurveFacts CircThms Base BaseFacts BaseThms Threshold EpsFacts ThresholdThms OrderThms SymFacts SymThms.
From Flocq Require Import IEEE754.BinarySingleNaN.
From Coq Require Import Lra Lia Floats.SpecFloat.

(** C75: a decomposer whose attributes are circularities sees of a galaxy what [jcirc] returns and the sizes of
    its sets: when they are the same, so is everything it returns, state of the generator included. *)
Lemma c75_factor : forall (N : Num) argsort St (D : decomposer N St) st (g g' : galaxy N),
  (forall a, In a (d_attributes D) -> circ_attr a) ->
  map plen (sets g') = map plen (sets g) ->
  jcirc argsort g' (fst (d_cbins D)) (snd (d_cbins D)) = jcirc argsort g (fst (d_cbins D)) (snd (d_cbins D)) ->
  decompose argsort D st g' = decompose argsort D st g.
Proof.
  intros N argsort St D st g g' Ha Hp Hj. unfold decompose.
  assert (E : attributes_matrix argsort (d_cbins D) g' (d_attributes D) = attributes_matrix argsort (d_cbins D) g (d_attributes D)).
  { unfold attributes_matrix.
    assert (filter (fun a => negb (smem a circularity_attributes)) (d_attributes D) = []) as ->.
    { revert Ha. generalize (d_attributes D). induction l as [|a l IH]; intros H; [reflexivity|]. cbn [filter].
      assert (smem a circularity_attributes = true) as -> by (apply circ_attr_iff, H; simpl; auto).
      cbn [negb]. apply IH. intros b Hb. apply H. simpl; auto. }
    cbn [bind]. unfold get_jcirc_df. rewrite Hj. unfold sets in Hp. simpl in Hp. injection Hp as _ P2 P3. rewrite P2, P3. reflexivity. }
  rewrite E. reflexivity.
Qed.

Lemma plens_of {N : Num} (R : pset N -> pset N -> Prop) (g g' : galaxy N) : constructible g -> constructible g' ->
  (forall p q, R p q -> length (p_x q) = length (p_x p)) -> Forall2 R (sets g) (sets g') -> map plen (sets g') = map plen (sets g).
Proof.
  intros Hg Hg' HR F. apply constructible_ok in Hg, Hg'.
  assert (A : forall p, In p (sets g) -> pset_ok p) by (intros p; now apply sets_ok).
  assert (A' : forall p, In p (sets g') -> pset_ok p) by (intros p; now apply sets_ok).
  clear Hg Hg'. induction F as [|p q l l' H F IH]; [reflexivity|]. simpl. f_equal.
  - rewrite <- (plen_x p), <- (plen_x q) by (first [now apply A; left|now apply A'; left]). auto.
  - apply IH; intros r Hr; [apply A|apply A']; now right.
Qed.

(** C75: so the labels do not change with the masses and softenings, *)
Lemma c75_mass : forall (N : Num) (RN : Rounded N) argsort St (D : decomposer N St) st (g g' : galaxy N),
  constructible g -> constructible g' -> (forall a, In a (d_attributes D) -> circ_attr a) ->
  Forall2 (fun p q => p_x p = p_x q /\ p_y p = p_y q /\ p_z p = p_z q /\ p_vx p = p_vx q /\ p_vy p = p_vy q /\
     p_vz p = p_vz q /\ p_pot p = p_pot q) (sets g') (sets g) ->
  decompose argsort D st g' = decompose argsort D st g.
Proof.
  intros N RN argsort St D st g g' Hg Hg' Ha F. apply c75_factor; [exact Ha| |now apply (c33_mass N RN)].
  symmetry. eapply plens_of; [exact Hg'|exact Hg| |exact F]. intros p q (E & _). now rewrite E.
Qed.

(** C75: nor, in exact arithmetic, with the units, *)
Lemma c75_scale : forall argsort St (D : decomposer RX St) st (a b : R) (g g' : galaxy RX),
  constructible g -> constructible g' -> (forall a, In a (d_attributes D) -> circ_attr a) ->
  (0 < a)%R -> (0 < b)%R -> rescaled a b g g' ->
  decompose argsort D st g' = decompose argsort D st g.
Proof.
  intros argsort St D st a b g g' Hg Hg' Ha Pa Pb F. apply c75_factor; [exact Ha| |exact (c73_scale argsort a b g g' _ _ Hg Hg' Pa Pb F)].
  eapply plens_of; [exact Hg|exact Hg'| |exact F]. intros p q (E & _). rewrite E. apply map_length.
Qed.

(** *** JThreshold *)
Section Thr.
Context {N : Num} (RN : Rounded N).
Implicit Types (g : galaxy N) (cut : N).

Definition label_of cut (e : N) : N := if nfin e then (if nlt cut e then nofZ 1 else nofZ 0) else nnan.
Lemma thr_star argsort junk cb cut g c st j k e : constructible g -> nisnan cut = false ->
  decompose argsort (jthreshold junk cb cut) tt g = Ok (c, st) -> jcirc argsort g (fst cb) (snd cb) = Ok j ->
  nth_error (jc_eps j) k = Some e -> nth_error (c_labels c) k = Some (label_of cut e).
Proof.
  intros Hg Hn Hd Hj He. destruct (c40_rule N RN argsort junk cb cut g c st Hg Hn Hd) as (_ & j' & Hj' & R).
  rewrite Hj in Hj'. injection Hj' as <-.
  assert (Hk : (k < plen (g_stars g))%nat).
  { destruct (c31_lengths N RN argsort g _ _ j Hg Hj) as (_ & L & _). rewrite <- L. apply nth_error_Some. congruence. }
  destruct (R k (g_stars g) k (located_intro g [] (g_stars g) [g_dm g; g_gas g] k eq_refl Hk)) as (w & W & S & _).
  assert (T : p_type (g_stars g) = STARS).
  { pose proof (proj1 (constructible_ok _) Hg) as G. now apply gal_ok_facts in G as []. }
  destruct (S T) as (e' & E' & C). rewrite He in E'. injection E' as <-. rewrite W. unfold label_of.
  destruct C as [(-> & -> & ->)|[(-> & L & ->)|(-> & ->)]]; auto.
  destruct (nlt cut e) eqn:Q; [|reflexivity]. exfalso. apply (nle_iff RN) in L. apply (nlt_iff RN) in Q. exact (xlt_not_le _ _ Q L).
Qed.
Lemma thr_other argsort junk cb cut g c st i : constructible g -> nisnan cut = false ->
  decompose argsort (jthreshold junk cb cut) tt g = Ok (c, st) ->
  (plen (g_stars g) <= i < glen g)%nat -> nth_error (c_labels c) i = Some nnan.
Proof.
  intros Hg Hn Hd Hi. destruct (c40_rule N RN argsort junk cb cut g c st Hg Hn Hd) as (_ & j' & Hj' & R).
  destruct (c37_located N g i) as (p & k & L); [lia|]. destruct (R i p k L) as (w & W & _ & O). rewrite W. f_equal. apply O.
  intros T. destruct (located_star g i p k Hg L T) as (_ & -> & Hk). lia.
Qed.
Lemma thr_parts argsort junk cb cut g c st : constructible g -> nisnan cut = false ->
  decompose argsort (jthreshold junk cb cut) tt g = Ok (c, st) ->
  length (c_labels c) = glen g /\ c_ptypes c = type_names g /\ c_probs c = None.
Proof.
  intros Hg Hn Hd. destruct (c40_rule N RN argsort junk cb cut g c st Hg Hn Hd) as (P & _).
  destruct (c35_aligned N RN argsort unit (jthreshold junk cb cut) tt g c st Hg) as (L & T & _); auto.
  apply star_attrs_rows. exact eps_attrs.
Qed.
Lemma same_names g g' : constructible g -> constructible g' -> map plen (sets g') = map plen (sets g) -> type_names g' = type_names g.
Proof.
  intros H H' P. apply constructible_ok in H, H'. apply gal_ok_facts in H as [_ _ _ T1 T2 T3 _ _ _].
  apply gal_ok_facts in H' as [_ _ _ T1' T2' T3' _ _ _]. unfold type_names, sets in *. simpl in *. injection P as P1 P2 P3.
  now rewrite T1, T2, T3, T1', T2', T3', P1, P2, P3.
Qed.
Lemma sum_sets g : glen g = list_sum (map plen (sets g)).
Proof. apply glen_sets. Qed.
Lemma agrees_label cut (e e' : N) : agrees false e e' -> label_of cut e' = label_of cut e.
Proof.
  intros H. apply (agrees_iff RN) in H. unfold rel, xturn in H. unfold label_of, nlt. rewrite !(val_fin RN), !(val_cmp RN), H. reflexivity.
Qed.
Lemma thr_same argsort junk cb cut g g' j j' : constructible g -> constructible g' -> nisnan cut = false ->
  map plen (sets g') = map plen (sets g) -> jcirc argsort g (fst cb) (snd cb) = Ok j -> jcirc argsort g' (fst cb) (snd cb) = Ok j' ->
  Forall2 (agrees false) (jc_eps j) (jc_eps j') ->
  exists c, decompose argsort (jthreshold junk cb cut) tt g = Ok (c, tt) /\ decompose argsort (jthreshold junk cb cut) tt g' = Ok (c, tt).
Proof.
  intros Hg Hg' Hn Hp Hj Hj' F.
  destruct (proj2 (c40_total N RN argsort junk cb cut g Hg) j Hj) as (c & Hc & _).
  destruct (proj2 (c40_total N RN argsort junk cb cut g' Hg') j' Hj') as (c' & Hc' & _).
  exists c. split; [exact Hc|]. rewrite Hc'. do 2 f_equal.
  destruct (thr_parts _ _ _ _ _ _ _ Hg Hn Hc) as (L & T & P). destruct (thr_parts _ _ _ _ _ _ _ Hg' Hn Hc') as (L' & T' & P').
  rewrite (same_names g g' Hg Hg' Hp) in T'. rewrite sum_sets, Hp, <- sum_sets in L'.
  destruct c as [l t p], c' as [l' t' p']. cbn [c_labels c_ptypes c_probs] in *. subst. f_equal. apply nth_error_ext. intros i.
  destruct (Nat.lt_ge_cases i (glen g)) as [Hi|Hi].
  2:{ rewrite !(proj2 (nth_error_None _ _)); auto; lia. }
  assert (P1 : plen (g_stars g') = plen (g_stars g)) by (unfold sets in Hp; simpl in Hp; congruence).
  destruct (Nat.lt_ge_cases i (plen (g_stars g))) as [Hs|Hs].
  - destruct (c31_lengths N RN argsort g _ _ j Hg Hj) as (_ & Le & _).
    destruct (nth_error_lt (jc_eps j) i) as (e & He); [lia|].
    destruct (nth_error (jc_eps j') i) as [e'|] eqn:He'.
    2:{ apply nth_error_None in He'. rewrite <- (Forall2_length' _ _ _ F) in He'. lia. }
    pose proof (thr_star _ _ _ _ _ _ _ _ _ _ Hg Hn Hc Hj He) as A. pose proof (thr_star _ _ _ _ _ _ _ _ _ _ Hg' Hn Hc' Hj' He') as A'.
    cbn [c_labels] in A, A'. rewrite A, A'. f_equal. apply agrees_label.
    clear - F He He'. revert i He He'. induction F as [|a b l l' r F IH]; intros [|i] He He'; simpl in *; try discriminate; eauto. congruence.
  - pose proof (thr_other _ _ _ _ _ _ _ i Hg Hn Hc) as A. pose proof (thr_other _ _ _ _ _ _ _ i Hg' Hn Hc') as A'.
    cbn [c_labels] in A, A'. rewrite A, A'; auto; rewrite ?P1, ?(sum_sets g'), ?Hp, <- ?sum_sets; lia.
Qed.
End Thr.

(** C75: nor, for JThreshold in any arithmetic, when axes are reversed so that Jz is kept: half turns about the z
    axis and reflections in the plane z = 0 leave every label the same, and every error. *)
Lemma c75_mirror : forall (N : Num) (RN : Rounded N) argsort junk cb (cut : N) w (g g' : galaxy N),
  constructible g -> constructible g' -> nisnan cut = false -> symmetric w -> flips w = false -> reflected w g g' ->
  decompose argsort (jthreshold junk cb cut) tt g' = decompose argsort (jthreshold junk cb cut) tt g.
Proof.
  intros N RN argsort junk cb cut w g g' Hg Hg' Hn Hw Hf Hr.
  destruct (c73_mirror N RN argsort w g g' (fst cb) (snd cb) Hg Hg' Hw Hr) as [R K].
  assert (Hp : map plen (sets g') = map plen (sets g)).
  { eapply plens_of; [exact Hg|exact Hg'| |exact Hr]. intros p q (E & _). rewrite E. apply map_length. }
  destruct (jcirc argsort g (fst cb) (snd cb)) as [j|e] eqn:Hj.
  - destruct (K j eq_refl) as (j' & Hj' & _ & _ & _ & _ & F & _). rewrite Hf in F.
    destruct (thr_same RN argsort junk cb cut g g' j j' Hg Hg' Hn Hp Hj Hj' F) as (c & -> & ->). reflexivity.
  - rewrite (proj1 (c40_total N RN argsort junk cb cut g Hg) e Hj).
    apply (c40_total N RN argsort junk cb cut g' Hg'). auto.
Qed.

(** C75: nor, for JThreshold without ties, with the order of the particles, the set a bound particle that is not a
    star is in, and the sorting algorithm: a star gets the same label wherever it stands. *)
Lemma c75_order : forall (N : Num) (RN : Rounded N) as1 as2 junk1 junk2 cb (cut : N) (g g' : galaxy N) c c' k k' o,
  constructible g -> constructible g' -> sorting as1 -> sorting as2 -> nisnan cut = false ->
  untied g -> same_bound g g' ->
  decompose as1 (jthreshold junk1 cb cut) tt g = Ok (c, tt) -> decompose as2 (jthreshold junk2 cb cut) tt g' = Ok (c', tt) ->
  nth_error (star_orbits g) k = Some o -> nth_error (star_orbits g') k' = Some o ->
  exists w, nth_error (c_labels c) k = Some w /\ nth_error (c_labels c') k' = Some w.
Proof.
  intros N RN as1 as2 junk1 junk2 cb cut g g' c c' k k' o Hg Hg' S1 S2 Hn Hu Hb Hc Hc' Ho Ho'.
  destruct (c40_rule N RN _ _ _ _ _ _ _ Hg Hn Hc) as (_ & j & Hj & _).
  destruct (c40_rule N RN _ _ _ _ _ _ _ Hg' Hn Hc') as (_ & j' & Hj' & _).
  destruct (c72_order N RN as1 as2 g g' _ _ j j' Hg Hg' S1 S2 Hu Hb Hj Hj') as (_ & _ & K).
  destruct (K k k' o Ho Ho') as (_ & _ & E & _).
  assert (L : (k < plen (g_stars g))%nat).
  { pose proof (proj1 (constructible_ok _) Hg) as G. apply gal_ok_facts in G as [s1 _ _ _ _ _ _ _ _].
    destruct (orbits_cols _ s1) as (_ & _ & _ & _ & Ls). unfold star_orbits in Ho. rewrite <- Ls. apply nth_error_Some. congruence. }
  destruct (c31_lengths N RN as1 g _ _ j Hg Hj) as (_ & Le & _).
  destruct (nth_error_lt (jc_eps j) k) as (e & He); [lia|]. rewrite He in E. symmetry in E.
  exists (label_of cut e). split.
  - exact (thr_star RN _ _ _ _ _ _ _ _ _ _ Hg Hn Hc Hj He).
  - exact (thr_star RN _ _ _ _ _ _ _ _ _ _ Hg' Hn Hc' Hj' E).
Qed.

(** The galaxy of C31 seen in a mirror, and with other masses. *)
Definition heavy (g : galaxy F64) : res (galaxy F64) :=
  let f p := mk_pset (p_type p) (map (fun m => nadd m m) (p_m p)) (p_x p) (p_y p) (p_z p) (p_vx p) (p_vy p) (p_vz p) (p_pot p) (p_soft p) in
  do s <- f (g_stars g); do d <- f (g_dm g); do q <- f (g_gas g); mk_galaxy s d q.
Lemma heavy_ok g g' : heavy g = Ok g' -> constructible g' /\
  Forall2 (fun p q => p_x p = p_x q /\ p_y p = p_y q /\ p_z p = p_z q /\ p_vx p = p_vx q /\ p_vy p = p_vy q /\
     p_vz p = p_vz q /\ p_pot p = p_pot q) (sets g') (sets g).
Proof.
  unfold heavy. intros H. destruct (mk_pset (p_type (g_stars g)) _ _ _ _ _ _ _ _ _) as [s|] eqn:E1; [|discriminate]. cbn [bind] in H.
  destruct (mk_pset (p_type (g_dm g)) _ _ _ _ _ _ _ _ _) as [d|] eqn:E2; [|discriminate]. cbn [bind] in H.
  destruct (mk_pset (p_type (g_gas g)) _ _ _ _ _ _ _ _ _) as [q|] eqn:E3; [|discriminate]. cbn [bind] in H.
  split.
  - exists s, d, q. split; [|split; [|split; [|exact H]]]; do 10 eexists; eassumption.
  - apply mk_pset_lens in E1 as [_ ->], E2 as [_ ->], E3 as [_ ->]. unfold sets.
    revert H. unfold mk_galaxy. destruct (_ && _)%bool; [discriminate|]. destruct (negb _); [discriminate|].
    destruct (negb _); [discriminate|]. destruct (negb _); [discriminate|]. intros [= <-]. cbn [g_stars g_dm g_gas].
    unfold pset_of. cbn [p_x p_y p_z p_vx p_vy p_vz p_pot]. repeat (constructor; [repeat split|]). constructor.
Qed.
Definition thr : decomposer F64 unit := jthreshold (fun _ => 77%Z) (default_bin0, default_bin1) (nlit 3 5).

Example ex_c75 : (forall a, In a (d_attributes thr) -> circ_attr a) /\
  nisnan (nlit 3 5 : F64) = false /\ symmetric mirror /\ flips mirror = false /\
  exists (g g' g'' : galaxy F64) c, constructible g /\ constructible g' /\ constructible g'' /\ reflected mirror g g' /\
    Forall2 (fun p q => p_x p = p_x q /\ p_y p = p_y q /\ p_z p = p_z q /\ p_vx p = p_vx q /\ p_vy p = p_vy q /\
      p_vz p = p_vz q /\ p_pot p = p_pot q) (sets g'') (sets g) /\
    map (fun p => shows (p_m p)) (sets g'') <> map (fun p => shows (p_m p)) (sets g) /\
    decompose asort thr tt g = Ok (c, tt) /\ decompose asort thr tt g' = Ok (c, tt) /\ decompose asort thr tt g'' = Ok (c, tt) /\
    shows (c_labels c) = [sZ 1; sZ 1; sZ 0; S754_nan; S754_nan; S754_nan; S754_nan; S754_nan].
Proof.
  assert (A : forall a, In a (d_attributes thr) -> circ_attr a).
  { intros a Ha. apply circ_attr_iff. simpl in Ha. destruct Ha as [<-|[]]. reflexivity. }
  assert (Hn : nisnan (nlit 3 5 : F64) = false) by (vm_compute; reflexivity).
  split; [exact A|]. split; [exact Hn|]. split; [repeat split|]. split; [reflexivity|].
  assert (X : match sampleG with Ok g => match turnG mirror (Ok g), heavy g with
    | Ok g', Ok g'' => map (fun p => shows (p_m p)) (sets g'') <> map (fun p => shows (p_m p)) (sets g) /\
        match decompose asort thr tt g with
        | Ok (c, _) => shows (c_labels c) = [sZ 1; sZ 1; sZ 0; S754_nan; S754_nan; S754_nan; S754_nan; S754_nan]
        | _ => False end | _, _ => False end | _ => False end) by (vm_compute; split; [discriminate|reflexivity]).
  destruct sampleG as [g|] eqn:E; [|contradiction]. destruct (turnG mirror (Ok g)) as [g'|] eqn:E'; [|contradiction].
  destruct (heavy g) as [g''|] eqn:E''; [|contradiction]. destruct X as [X1 X2].
  destruct (decompose asort thr tt g) as [[c []]|] eqn:Ed; [|contradiction].
  destruct (turnG_ok _ _ _ E') as [C' R]. destruct (heavy_ok _ _ E'') as [C'' M].
  assert (C : constructible g) by (eapply lineG_ok; exact E).
  exists g, g', g'', c. split; [exact C|]. split; [exact C'|]. split; [exact C''|]. split; [exact R|]. split; [exact M|].
  split; [exact X1|]. split; [exact Ed|]. split; [|split; [|exact X2]].
  - rewrite <- Ed. apply (c75_mirror F64 (F64_rounded _) asort _ _ _ mirror g g'); auto. repeat split.
  - rewrite <- Ed. apply (c75_mass F64 (F64_rounded _)); auto.
Qed.

(** Stars and dark matter in the opposite order: the third star keeps its label. *)
Example ex_c75_order : exists (g g' : galaxy F64) c c' o, constructible g /\ constructible g' /\ sorting (@asort F64) /\
  untied g /\ same_bound g g' /\ (1 < length (filter bound (all_orbits g)))%nat /\
  nth_error (star_orbits g) 2 = Some o /\ nth_error (star_orbits g') 2 = Some o /\
  decompose asort thr tt g = Ok (c, tt) /\ decompose asort thr tt g' = Ok (c', tt) /\
  firstn 3 (shows (c_labels c)) = [sZ 1; sZ 1; sZ 0] /\ firstn 3 (shows (c_labels c')) = [sZ 1; S754_nan; sZ 0].
Proof.
  assert (A : match fwd, bwd with Ok g, Ok g' =>
     rev (map oshow (filter bound (all_orbits g))) = map oshow (filter bound (all_orbits g')) /\
     nth_error (map oshow (star_orbits g)) 2 = nth_error (map oshow (star_orbits g')) 2 /\
     length (star_orbits g) = 3%nat /\ (untied_b g && (1 <? length (filter bound (all_orbits g)))%nat)%bool = true /\
     match decompose asort thr tt g, decompose asort thr tt g' with
     | Ok (c, _), Ok (c', _) => firstn 3 (shows (c_labels c)) = [sZ 1; sZ 1; sZ 0] /\ firstn 3 (shows (c_labels c')) = [sZ 1; S754_nan; sZ 0]
     | _, _ => False end
     | _, _ => False end) by (vm_compute; auto 10).
  destruct fwd as [g|] eqn:Eg; [|contradiction]. destruct bwd as [g'|] eqn:Eg'; [|contradiction].
  destruct A as (A1 & A2 & A3 & A4 & A5). apply andb_prop in A4 as [H1 H2]. apply Nat.ltb_lt in H2.
  destruct (decompose asort thr tt g) as [[c []]|] eqn:D; [|contradiction].
  destruct (decompose asort thr tt g') as [[c' []]|] eqn:D'; [|contradiction]. destruct A5 as [A5 A6].
  rewrite !nth_error_map in A2.
  destruct (nth_error (star_orbits g) 2) as [o|] eqn:Eo; [|apply nth_error_None in Eo; lia].
  destruct (nth_error (star_orbits g') 2) as [o'|] eqn:Eo'; [|discriminate].
  cbn [option_map] in A2. assert (Q : oshow o = oshow o') by congruence. apply oshow_inj in Q. subst o'.
  exists g, g', c, c', o. split; [eapply lineG_ok; exact Eg|]. split; [eapply lineG_ok; exact Eg'|]. split; [exact (asort_sorting (F64_rounded _))|].
  split; [now apply (untied_b_ok (F64_rounded _))|]. split; [apply perm_shown; rewrite <- A1; apply Permutation_rev|].
  do 5 (split; [assumption|]). split; assumption.
Qed.

(** Lengths twice, velocities three times as large: the star is still in the disc. *)
Example ex_c75_scale : let g := galRP [(Part 1 1 0 0 0 1 1, -2)%R] in let g' := galRP [(Part 5 2 0 0 0 3 3, -18)%R] in
  let D := jthreshold (fun _ => 77%Z) (n1, n1) (XR (1/2) : RX) in
  constructible g /\ constructible g' /\ (forall a, In a (d_attributes D) -> circ_attr a) /\ rescaled 2 3 g g' /\
  exists c, decompose asort D tt g = Ok (c, tt) /\ decompose asort D tt g' = Ok (c, tt) /\
    nth_error (c_labels c) 0 = Some (XR 1).
Proof.
  intros g g' D. destruct ex_c73_scale as (C & C' & R & j & J & E).
  assert (A : forall a, In a (d_attributes D) -> circ_attr a).
  { intros a Ha. apply circ_attr_iff. simpl in Ha. destruct Ha as [<-|[]]. reflexivity. }
  split; [exact C|]. split; [exact C'|]. split; [exact A|]. split; [exact R|].
  destruct (proj2 (c40_total RX RX_rounded asort (fun _ => 77%Z) (n1, n1) (XR (1/2) : RX) g' C') j J) as (c & Hc & _).
  exists c. split; [|split; [exact Hc|]].
  - rewrite <- Hc. symmetry. apply (c75_scale asort unit D tt 2 3 g g'); auto; lra.
  - assert (Hn : nisnan (XR (1/2) : RX) = false) by (apply (nisnan_false RX_rounded); discriminate).
    rewrite (thr_star RX_rounded asort _ _ _ g' c tt j 0 _ C' Hn Hc J E). f_equal.
    assert (L : nlt (XR (1/2) : RX) (XR 1 : RX) = true).
    { apply (nlt_iff RX_rounded). change (val RX_rounded) with (fun x : RX => x). unfold xlt. cbn. lra. }
    unfold label_of. rewrite L. simpl. f_equal.
Qed.

(** Positions three times as large, in binary64. *)
Definition tripleP (p : pset F64) : res (pset F64) :=
  let t := map (nmul (nofZ 3)) in
  mk_pset (p_type p) (p_m p) (t (p_x p)) (t (p_y p)) (t (p_z p)) (p_vx p) (p_vy p) (p_vz p) (p_pot p) (p_soft p).
Definition tripleG (g : galaxy F64) : res (galaxy F64) :=
  do s <- tripleP (g_stars g); do d <- tripleP (g_dm g); do q <- tripleP (g_gas g); mk_galaxy s d q.
Lemma tripleG_ok g g' : tripleG g = Ok g' -> constructible g' /\
  Forall2 (fun p q : pset F64 => p_x q = map (nmul (nofZ 3)) (p_x p) /\ p_y q = map (nmul (nofZ 3)) (p_y p) /\
     p_z q = map (nmul (nofZ 3)) (p_z p) /\ p_vx q = p_vx p /\ p_vy q = p_vy p /\ p_vz q = p_vz p /\ p_pot q = p_pot p)
    (sets g) (sets g').
Proof.
  unfold tripleG. intros H. destruct (tripleP (g_stars g)) as [s|] eqn:E1; [|discriminate]. cbn [bind] in H.
  destruct (tripleP (g_dm g)) as [d|] eqn:E2; [|discriminate]. cbn [bind] in H.
  destruct (tripleP (g_gas g)) as [q|] eqn:E3; [|discriminate]. cbn [bind] in H. unfold tripleP in E1, E2, E3.
  split.
  - exists s, d, q. split; [|split; [|split; [|exact H]]]; do 10 eexists; eassumption.
  - apply mk_pset_lens in E1 as [_ ->], E2 as [_ ->], E3 as [_ ->]. unfold sets.
    revert H. unfold mk_galaxy. destruct (_ && _)%bool; [discriminate|]. destruct (negb _); [discriminate|].
    destruct (negb _); [discriminate|]. destruct (negb _); [discriminate|]. intros [= <-]. cbn [g_stars g_dm g_gas].
    unfold pset_of. cbn [p_x p_y p_z p_vx p_vy p_vz p_pot]. repeat (constructor; [repeat split|]). constructor.
Qed.
Definition tenths (l : list (Z * Z * Z * Z)) : list (F64 * F64 * F64 * F64) :=
  map (fun p => let '(x, vy, vz, e) := p in (nlit x 10, nlit vy 10, nlit vz 10, nlit e 100)) l.
Definition tenthsG : res (galaxy F64) :=
  lineG (tenths [(11,10,10,-210); (23,7,2,-130); (-7,12,3,-170); (7,1,1,-120); (13,2,4,-140); (3,7,4,-160); (9,2,4,-110)])%Z
    (tenths [(43,11,2,-80); (17,8,3,-190)])%Z (tenths [(53,13,2,-89)])%Z.
(** C75: in binary64 the labels do change with the units: measuring the same positions in a unit of a third the
    size moves a star from the spheroid to the disc, its circularity having gone up by one unit in the last place. *)
Lemma c75_units_refuted : exists (g g' : galaxy F64) (cut : F64) c c',
  constructible g /\ constructible g' /\ nisnan cut = false /\
  Forall2 (fun p q : pset F64 => p_x q = map (nmul (nofZ 3)) (p_x p) /\ p_y q = map (nmul (nofZ 3)) (p_y p) /\
     p_z q = map (nmul (nofZ 3)) (p_z p) /\ p_vx q = p_vx p /\ p_vy q = p_vy p /\ p_vz q = p_vz p /\ p_pot q = p_pot p)
    (sets g) (sets g') /\
  decompose asort (jthreshold (fun _ => 77%Z) (default_bin0, default_bin1) cut) tt g = Ok (c, tt) /\
  decompose asort (jthreshold (fun _ => 77%Z) (default_bin0, default_bin1) cut) tt g' = Ok (c', tt) /\
  option_map fshow (nth_error (c_labels c) 4) = Some (sZ 0) /\ option_map fshow (nth_error (c_labels c') 4) = Some (sZ 1).
Proof.
  pose (cut := nlit 7305178999645996 9007199254740992 : F64).
  assert (X : match tenthsG with Ok g => match tripleG g with Ok g' =>
      match decompose asort (jthreshold (fun _ => 77%Z) (default_bin0, default_bin1) cut) tt g,
            decompose asort (jthreshold (fun _ => 77%Z) (default_bin0, default_bin1) cut) tt g' with
      | Ok (c, _), Ok (c', _) => option_map fshow (nth_error (c_labels c) 4) = Some (sZ 0) /\
          option_map fshow (nth_error (c_labels c') 4) = Some (sZ 1)
      | _, _ => False end | _ => False end | _ => False end) by (vm_compute; split; reflexivity).
  destruct tenthsG as [g|] eqn:E; [|contradiction]. destruct (tripleG g) as [g'|] eqn:E'; [|contradiction].
  destruct (decompose asort _ tt g) as [[c []]|] eqn:D; [|contradiction].
  destruct (decompose asort _ tt g') as [[c' []]|] eqn:D'; [|contradiction].
  destruct (tripleG_ok _ _ E') as [C F]. destruct X as [X1 X2]. exists g, g', cut, c, c'.
  split; [eapply lineG_ok; exact E|]. split; [exact C|]. split; [vm_compute; reflexivity|]. auto 10.
Qed.
