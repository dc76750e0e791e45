(** Symmetries of the circularity (C73). *)
From Verif Require Import Py Num RX F64 Np Df Data DataFacts DfFacts RebuildFacts Center CenterFacts Align Spec SpecR SpecCirc SpecSym Ex DataThms CenterThms AlignFacts AlignThms Circ CircFacts CurveFacts CircThms OrderThms SymFacts ScaleFacts.
From Flocq Require Import IEEE754.BinarySingleNaN.
From Coq Require Import Lra Lia Floats.SpecFloat.

(** C73: reversing axes of position and velocity so that each component of the angular momentum is kept or
    reversed (half turns, mirror images, reversed motion) changes nothing but the sign of Jz and eps, when
    the z component is reversed; bit for bit but for the sign of zeros. *)
Lemma c73_mirror : forall (N : Num) (RN : Rounded N) argsort w (g g' : galaxy N) b0 b1,
  constructible g -> constructible g' -> symmetric w -> reflected w g g' ->
  (forall e, jcirc argsort g b0 b1 = Raise e -> jcirc argsort g' b0 b1 = Raise e) /\
  (forall j, jcirc argsort g b0 b1 = Ok j -> exists j', jcirc argsort g' b0 b1 = Ok j' /\ same_up_to (flips w) j j').
Proof.
  intros N RN as_ w g g' b0 b1 Hg Hg' Hw Hr. apply constructible_ok in Hg, Hg'.
  rewrite (jcirc_run RN as_ g b0 b1 Hg), (jcirc_run RN as_ g' b0 b1 Hg').
  destruct (reflected_krows RN w g g' Hw Hg Hg' Hr) as [F1 F2].
  apply (run_rel RN); auto. intros k Hk. apply in_map_iff in Hk as (o & <- & Ho). apply in_map. now apply star_in_all.
Qed.

(** C73: particles that are not bound, stars aside, have no influence. *)
Lemma c73_unbound : forall (N : Num) (RN : Rounded N) argsort (g g' : galaxy N) b0 b1,
  constructible g -> constructible g' -> star_orbits g' = star_orbits g ->
  filter bound (all_orbits g') = filter bound (all_orbits g) ->
  jcirc argsort g' b0 b1 = jcirc argsort g b0 b1.
Proof.
  intros N RN as_ g g' b0 b1 Hg Hg' Es Eb. apply constructible_ok in Hg, Hg'.
  rewrite (jcirc_run RN as_ g b0 b1 Hg), (jcirc_run RN as_ g' b0 b1 Hg'). unfold run.
  assert (E : scaling as_ b0 b1 (map krow_of (all_orbits g')) = scaling as_ b0 b1 (map krow_of (all_orbits g))).
  { unfold scaling. rewrite !filter_krow, Eb. reflexivity. }
  rewrite E, Es. reflexivity.
Qed.

(** C73: in exact arithmetic the units of position and velocity do not matter, provided the potentials are in
    the units of the square of the velocities. *)
Lemma c73_scale : forall argsort (a b : R) (g g' : galaxy RX) b0 b1,
  constructible g -> constructible g' -> (0 < a)%R -> (0 < b)%R -> rescaled a b g g' ->
  jcirc argsort g' b0 b1 = jcirc argsort g b0 b1.
Proof.
  intros as_ a b g g' b0 b1 Hg Hg' Ha Hb H. apply constructible_ok in Hg, Hg'. exact (rescaled_jcirc a b Ha Hb as_ g g' b0 b1 Hg Hg' H).
Qed.

(** A galaxy with axes reversed. *)
Definition turnP (w : signs) (p : pset F64) : res (pset F64) :=
  mk_pset (p_type p) (p_m p) (map (turn (sx w)) (p_x p)) (map (turn (sy w)) (p_y p)) (map (turn (sz w)) (p_z p))
    (map (turn (svx w)) (p_vx p)) (map (turn (svy w)) (p_vy p)) (map (turn (svz w)) (p_vz p)) (p_pot p) (p_soft p).
Definition turnG (w : signs) (r : res (galaxy F64)) : res (galaxy F64) :=
  do g <- r; do s <- turnP w (g_stars g); do d <- turnP w (g_dm g); do q <- turnP w (g_gas g); mk_galaxy s d q.
Lemma turnP_fields w p q : turnP w p = Ok q ->
  p_x q = map (turn (sx w)) (p_x p) /\ p_y q = map (turn (sy w)) (p_y p) /\
  p_z q = map (turn (sz w)) (p_z p) /\ p_vx q = map (turn (svx w)) (p_vx p) /\
  p_vy q = map (turn (svy w)) (p_vy p) /\ p_vz q = map (turn (svz w)) (p_vz p) /\ p_pot q = p_pot p.
Proof.
  unfold turnP. intros H. apply mk_pset_lens in H as [_ ->]. unfold pset_of. cbn [p_x p_y p_z p_vx p_vy p_vz p_pot].
  repeat split.
Qed.
Lemma turnG_ok w g g' : turnG w (Ok g) = Ok g' -> constructible g' /\ reflected w g g'.
Proof.
  unfold turnG. cbn [bind]. intros H.
  destruct (turnP w (g_stars g)) as [s|] eqn:E1; [|discriminate]. cbn [bind] in H.
  destruct (turnP w (g_dm g)) as [d|] eqn:E2; [|discriminate]. cbn [bind] in H.
  destruct (turnP w (g_gas g)) as [q|] eqn:E3; [|discriminate]. cbn [bind] in H.
  split.
  - exists s, d, q. split; [|split; [|split; [|exact H]]]; unfold turnP in E1, E2, E3; do 10 eexists; eassumption.
  - apply turnP_fields in E1, E2, E3. pose proof (mk_galaxy_inv _ _ _ _ H) as I. unfold reflected, sets.
    revert H. unfold mk_galaxy. destruct (_ && _)%bool; [discriminate|]. destruct (negb _); [discriminate|].
    destruct (negb _); [discriminate|]. destruct (negb _); [discriminate|]. intros [= <-]. cbn [g_stars g_dm g_gas].
    repeat (constructor; [assumption|]). constructor.
Qed.

(** Reversed motion: the z component of the angular momentum changes sign. *)
Definition back : signs := Signs false false false true true true.
(** Mirror image in the plane z = 0: it does not. *)
Definition mirror : signs := Signs false false true false false true.

Example ex_c73 : symmetric back /\ flips back = true /\ symmetric mirror /\ flips mirror = false /\
  (exists (g g' : galaxy F64) j j', constructible g /\ constructible g' /\ reflected back g g' /\
    jcirc asort g default_bin0 default_bin1 = Ok j /\ jcirc asort g' default_bin0 default_bin1 = Ok j' /\
    shows (jc_eps j) = [sZ 1; sZ 1; sZ (-1); S754_nan; S754_nan] /\
    shows (jc_eps j') = [sZ (-1); sZ (-1); sZ 1; S754_nan; S754_nan]) /\
  (exists (g g' : galaxy F64) j j', constructible g /\ constructible g' /\ reflected mirror g g' /\
    jcirc asort g default_bin0 default_bin1 = Ok j /\ jcirc asort g' default_bin0 default_bin1 = Ok j' /\
    shows (jc_eps j') = [sZ 1; sZ 1; sZ (-1); S754_nan; S754_nan]).
Proof.
  split; [repeat split|]. split; [reflexivity|]. split; [repeat split|]. split; [reflexivity|].
  assert (X : forall w sh, match sampleG, turnG w sampleG with
    | Ok g, Ok g' => match jcirc asort g default_bin0 default_bin1, jcirc asort g' default_bin0 default_bin1 with
       | Ok j, Ok j' => shows (jc_eps j) = [sZ 1; sZ 1; sZ (-1); S754_nan; S754_nan] /\ shows (jc_eps j') = sh | _, _ => False end
    | _, _ => False end ->
    exists (g g' : galaxy F64) j j', constructible g /\ constructible g' /\ reflected w g g' /\
    jcirc asort g default_bin0 default_bin1 = Ok j /\ jcirc asort g' default_bin0 default_bin1 = Ok j' /\
    shows (jc_eps j) = [sZ 1; sZ 1; sZ (-1); S754_nan; S754_nan] /\ shows (jc_eps j') = sh).
  { intros w sh H. destruct sampleG as [g|] eqn:E; [|contradiction].
    destruct (turnG w (Ok g)) as [g'|] eqn:E'; [|contradiction]. destruct (turnG_ok _ _ _ E') as [C R].
    destruct (jcirc asort g _ _) as [j|] eqn:J; [|contradiction].
    destruct (jcirc asort g' _ _) as [j'|] eqn:J'; [|contradiction]. destruct H as [H1 H2].
    exists g, g', j, j'. split; [eapply lineG_ok; exact E|]. auto 10. }
  split.
  - apply (X back). vm_compute. auto.
  - destruct (X mirror [sZ 1; sZ 1; sZ (-1); S754_nan; S754_nan]) as (g & g' & j & j' & H1 & H2 & H3 & H4 & H5 & _ & H6).
    + vm_compute. auto.
    + exists g, g', j, j'. auto 10.
Qed.

(** The same stars with and without an unbound dark matter particle. *)
Definition extraG : res (galaxy F64) :=
  lineG (zl [(1,1,1,(-2,1)); (2,1,0,(-1,1)); (-2,1,1,(-3,2)); (-3,1,0,(-1,1)); (1,2,0,(-1,1))])%Z
        (zl [(4,1,0,(-3,4)); (100,9,1,(-5,4)); (1,1,1,(-5,4))])%Z (zl [(5,1,0,(-501,1000))])%Z.
Example ex_c73_unbound : exists (g g' : galaxy F64) j, constructible g /\ constructible g' /\
  star_orbits g' = star_orbits g /\ filter bound (all_orbits g') = filter bound (all_orbits g) /\
  length (all_orbits g') = S (length (all_orbits g)) /\
  jcirc asort g default_bin0 default_bin1 = Ok j /\ shows (jc_eps j) = [sZ 1; sZ 1; sZ (-1); S754_nan; S754_nan].
Proof.
  assert (H : match sampleG, extraG with
    | Ok g, Ok g' => map oshow (star_orbits g') = map oshow (star_orbits g) /\
        map oshow (filter bound (all_orbits g')) = map oshow (filter bound (all_orbits g)) /\
        length (all_orbits g') = S (length (all_orbits g)) /\
        match jcirc asort g default_bin0 default_bin1 with
        | Ok j => shows (jc_eps j) = [sZ 1; sZ 1; sZ (-1); S754_nan; S754_nan] | _ => False end
    | _, _ => False end) by (vm_compute; auto).
  destruct sampleG as [g|] eqn:E; [|contradiction]. destruct extraG as [g'|] eqn:E'; [|contradiction].
  destruct H as (H1 & H2 & H3 & H4). destruct (jcirc asort g _ _) as [j|] eqn:J; [|contradiction].
  assert (I : forall l l' : list (orbit F64), map oshow l = map oshow l' -> l = l').
  { induction l as [|a l IH]; intros [|b l'] M; try discriminate; auto. cbn [map] in M.
    f_equal; [|apply IH; congruence]. apply oshow_inj. congruence. }
  exists g, g', j. split; [eapply lineG_ok; exact E|]. split; [eapply lineG_ok; exact E'|]. auto 10.
Qed.

(** Lengths twice, velocities three times as large: the circularity of the star is still 1. *)
Example ex_c73_scale : let g := galRP [(Part 1 1 0 0 0 1 1, -2)%R] in let g' := galRP [(Part 5 2 0 0 0 3 3, -18)%R] in
  constructible g /\ constructible g' /\ rescaled 2 3 g g' /\
  exists j, jcirc asort g' n1 n1 = Ok j /\ nth_error (jc_eps j) 0 = Some (XR 1).
Proof.
  intros g g'. assert (R : rescaled 2 3 g g').
  { unfold rescaled, sets, g, g'. simpl. constructor.
    - simpl. repeat split; repeat f_equal; lra.
    - constructor; [simpl; repeat split|]. constructor; [simpl; repeat split|]. constructor. }
  destruct ex_c34 as (C & _ & _ & _ & j & J & E). split; [exact C|]. split; [apply galRP_ok|]. split; [exact R|].
  exists j. split; [|exact E].
  rewrite <- J. apply (c73_scale asort 2 3); [exact C|apply galRP_ok|lra|lra|exact R].
Qed.
