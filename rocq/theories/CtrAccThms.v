(** Accuracy of the centring in floating point (C71). *)
From Verif Require Import Py Num RX F64 Np Data Spec Center DataFacts DataThms RebuildFacts CenterFacts CenterThms Ex.
From Flocq Require Import Core Relative Sterbenz Plus_error.
From Coq Require Import Lra Lia.
Local Open Scope R_scope.

(** The coordinate lists of the centred galaxy. *)
Lemma centred_coord (N : Num) (RN : Rounded N) (g g' : galaxy N) : constructible g -> center g = Ok g' ->
  exists i, lowest g i /\ forall coord, coord = all_x \/ coord = all_y \/ coord = all_z ->
    exists c0, nth_error (coord g) i = Some c0 /\ coord g' = map (fun a => a - c0)%num (coord g).
Proof.
  intros Hg H.
  destruct (c09_translation N RN g g' Hg H) as (k & x0 & y0 & z0 & L & X & Y & Z & Hh & _ & F).
  apply Forall2_sets in F as ((_ & Ax & Ay & Az) & (_ & Bx & By & Bz) & (_ & Cx & Cy & Cz)).
  exists k. split; [exact L|]. intros coord [ -> | [ -> | -> ] ].
  - exists x0. split; [exact X|]. unfold all_x; simpl. rewrite Ax, Bx, Cx, !app_nil_r, <- !map_app. reflexivity.
  - exists y0. split; [exact Y|]. unfold all_y; simpl. rewrite Ay, By, Cy, !app_nil_r, <- !map_app. reflexivity.
  - exists z0. split; [exact Z|]. unfold all_z; simpl. rewrite Az, Bz, Cz, !app_nil_r, <- !map_app. reflexivity.
Qed.

Notation dexp := (FLT_exp (3 - 1024 - 53) 53).
Lemma format_val sm (x : F64s sm) r : val (F64_rounded sm) x = XR r -> generic_format radix2 dexp r.
Proof.
  intros E. pose proof (rnd_val (F64_rounded sm) x) as V. rewrite E in V.
  change (brnd 53 1024 (XR r) = XR r) in V. unfold brnd in V.
  destruct (Rlt_bool _ _) in V; [|destruct (Rlt_bool r 0) in V; discriminate].
  pose proof (FLT_exp_valid (3 - 1024 - 53) 53 (prec_gt_0_ := p53)) as Vx.
  injection V as V. rewrite <- V. apply (generic_format_round radix2 dexp ZnearestE).
Qed.
Lemma sub_acc sm (x c : F64s sm) r r0 : val (F64_rounded sm) x = XR r -> val (F64_rounded sm) c = XR r0 ->
  Rabs (r - r0) <= IZR (2 ^ 1023) ->
  exists r', val (F64_rounded sm) (x - c)%num = XR r' /\ Rabs (r' - (r - r0)) <= / IZR (2 ^ 53) * Rabs (r - r0) /\
    (0 <= r * r0 -> Rabs r0 <= 2 * Rabs r -> Rabs r <= 2 * Rabs r0 -> r' = r - r0).
Proof.
  intros X C B. pose proof (format_val _ _ _ X) as FX. pose proof (format_val _ _ _ C) as FC.
  pose proof (FLT_exp_valid (3 - 1024 - 53) 53 (prec_gt_0_ := p53)) as V.
  pose proof (FLT_exp_monotone (3 - 1024 - 53) 53) as M.
  rewrite (val_sub (F64_rounded sm)), X, C.
  change (rnd (F64_rounded sm) (xsub (XR r) (XR r0))) with (brnd 53 1024 (XR (r + - r0))).
  exists (round radix2 dexp ZnearestE (r - r0)). split; [|split].
  - unfold brnd. change (SpecFloat.fexp 53 1024) with dexp. change (r + - r0) with (r - r0). rewrite Rlt_bool_true; [reflexivity|].
    apply Rle_lt_trans with (bpow radix2 1023).
    + apply abs_round_le_generic; [exact V|apply valid_rnd_N| |exact B].
      apply generic_format_bpow. unfold FLT_exp. lia.
    + apply bpow_lt. lia.
  - destruct (FLT_plus_error_N_ex radix2 (3 - 1024 - 53) 53 (fun x => negb (Z.even x)) (prec_gt_0_ := p53) r (- r0)) as (ep & E1 & E);
      [exact FX|apply generic_format_opp; exact FC|].
    change (Znearest (fun x => negb (Z.even x))) with ZnearestE in E. unfold Rminus at 2. rewrite E.
    replace ((r + - r0) * (1 + ep) - (r - r0)) with (ep * (r - r0)) by ring. rewrite Rabs_mult.
    apply Rmult_le_compat_r; [apply Rabs_pos|]. eapply Rle_trans; [exact E1|].
    assert (U : u_ro radix2 53 = / IZR (2 ^ 53)) by (unfold u_ro; simpl; lra). rewrite U.
    assert (0 < / IZR (2 ^ 53)) by (apply Rinv_0_lt_compat, IZR_lt; reflexivity).
    apply Rmult_le_reg_r with (1 + / IZR (2 ^ 53)); [lra|]. unfold Rdiv. rewrite Rmult_assoc, Rinv_l by lra. nra.
  - intros S1 S2 S3. apply round_generic; [apply valid_rnd_N|].
    assert (P : forall a b, generic_format radix2 dexp a -> generic_format radix2 dexp b -> 0 <= a -> 0 <= b ->
              b <= 2 * a -> a <= 2 * b -> generic_format radix2 dexp (a - b)).
    { intros a b Fa Fb A0 B0 H1 H2. apply sterbenz; auto; lra. }
    destruct (Rle_lt_dec 0 r) as [R1|R1]; destruct (Rle_lt_dec 0 r0) as [R2|R2].
    + rewrite !Rabs_pos_eq in S2, S3 by assumption. auto.
    + rewrite (Rabs_pos_eq r), (Rabs_left r0) in S2, S3 by assumption. assert (r = 0) by nra. lra.
    + rewrite (Rabs_left r), (Rabs_pos_eq r0) in S2, S3 by assumption. assert (r0 = 0) by nra. lra.
    + rewrite (Rabs_left r), (Rabs_left r0) in S2, S3 by assumption.
      replace (r - r0) with (- ((- r) - (- r0))) by ring. apply generic_format_opp.
      apply P; try (apply generic_format_opp; assumption); lra.
Qed.

(** *** C71 *)

(** C71: centring keeps the order of the particles along each axis, in any arithmetic. *)
Lemma c71_order : forall (N : Num) (RN : Rounded N) (g g' : galaxy N) i j a b,
  constructible g -> center g = Ok g' ->
  (forall v, In v (all_x g ++ all_y g ++ all_z g) -> nfin v = true) ->
  forall coord, coord = all_x \/ coord = all_y \/ coord = all_z ->
  nth_error (coord g) i = Some a -> nth_error (coord g) j = Some b -> nle a b = true ->
  exists a' b', nth_error (coord g') i = Some a' /\ nth_error (coord g') j = Some b' /\ nle a' b' = true.
Proof.
  intros N RN g g' i j a b Hg H Hf coord Hc Hi Hj L.
  destruct (centred_coord N RN g g' Hg H) as (k & _ & K). destruct (K coord Hc) as (c0 & C & E).
  assert (Fn : forall n v, nth_error (coord g) n = Some v -> exists r, val RN v = XR r).
  { intros n v Q. assert (F : nfin v = true).
    { apply Hf. apply nth_error_In in Q. rewrite !in_app_iff. destruct Hc as [ -> | [ -> | -> ] ]; auto. }
    rewrite (val_fin RN) in F. destruct (val RN v); try discriminate. eauto. }
  destruct (Fn _ _ Hi) as (ra & Va). destruct (Fn _ _ Hj) as (rb & Vb). destruct (Fn _ _ C) as (rc & Vc).
  exists (a - c0)%num, (b - c0)%num. rewrite E, !nth_error_map, Hi, Hj. split; [reflexivity|]. split; [reflexivity|].
  apply (nle_iff RN) in L. apply (nle_iff RN). rewrite !(val_sub RN). apply (rnd_mono RN).
  rewrite Va, Vb, Vc in *. simpl in *. lra.
Qed.

(** C71: in double precision every new coordinate is the difference to the position of one and the same
    particle of lowest potential, up to a relative error of 2^-53; it is exact when the two are
    within a factor of two of each other. *)
Lemma c71_accuracy : forall sm (g g' : galaxy (F64s sm)),
  constructible g -> center g = Ok g' ->
  exists i, lowest g i /\
  forall coord, coord = all_x \/ coord = all_y \/ coord = all_z ->
  exists c0, nth_error (coord g) i = Some c0 /\
  forall r0, val (F64_rounded sm) c0 = XR r0 ->
  forall j a r, nth_error (coord g) j = Some a -> val (F64_rounded sm) a = XR r ->
  Rabs (r - r0) <= IZR (2 ^ 1023) ->
  exists a' r', nth_error (coord g') j = Some a' /\ val (F64_rounded sm) a' = XR r' /\
    Rabs (r' - (r - r0)) <= / IZR (2 ^ 53) * Rabs (r - r0) /\
    (0 <= r * r0 -> Rabs r0 <= 2 * Rabs r -> Rabs r <= 2 * Rabs r0 -> r' = r - r0).
Proof.
  intros sm g g' Hg H. destruct (centred_coord _ (F64_rounded sm) g g' Hg H) as (k & L & K).
  exists k. split; [exact L|]. intros coord Hc. destruct (K coord Hc) as (c0 & C & E). exists c0. split; [exact C|].
  intros r0 V0 j a r Ha Va B. destruct (sub_acc sm a c0 r r0 Va V0 B) as (r' & V' & A1 & A2).
  exists (a - c0)%num, r'. rewrite E, nth_error_map, Ha. auto.
Qed.

(** C71: separations along an axis are kept up to 2^-53 times the two distances to the centre. *)
Lemma c71_separation : forall sm (g g' : galaxy (F64s sm)),
  constructible g -> center g = Ok g' ->
  exists i, lowest g i /\
  forall coord, coord = all_x \/ coord = all_y \/ coord = all_z ->
  exists c0, nth_error (coord g) i = Some c0 /\
  forall r0, val (F64_rounded sm) c0 = XR r0 ->
  forall j k a b r s, nth_error (coord g) j = Some a -> val (F64_rounded sm) a = XR r ->
  nth_error (coord g) k = Some b -> val (F64_rounded sm) b = XR s ->
  Rabs (r - r0) <= IZR (2 ^ 1023) -> Rabs (s - r0) <= IZR (2 ^ 1023) ->
  exists a' b' r' s', nth_error (coord g') j = Some a' /\ val (F64_rounded sm) a' = XR r' /\
    nth_error (coord g') k = Some b' /\ val (F64_rounded sm) b' = XR s' /\
    Rabs ((r' - s') - (r - s)) <= / IZR (2 ^ 53) * (Rabs (r - r0) + Rabs (s - r0)).
Proof.
  intros sm g g' Hg H. destruct (c71_accuracy sm g g' Hg H) as (i & L & K). exists i. split; [exact L|].
  intros coord Hc. destruct (K coord Hc) as (c0 & C & A). exists c0. split; [exact C|].
  intros r0 V0 j k a b r s Ha Va Hb Vb Ba Bb.
  destruct (A r0 V0 j a r Ha Va Ba) as (a' & r' & Na & Wa & Ea & _).
  destruct (A r0 V0 k b s Hb Vb Bb) as (b' & s' & Nb & Wb & Eb & _).
  exists a', b', r', s'. repeat (split; [assumption|]).
  replace ((r' - s') - (r - s)) with ((r' - (r - r0)) - (s' - (s - r0))) by ring.
  eapply Rle_trans; [apply Rabs_triang|]. rewrite Rabs_Ropp. lra.
Qed.

(** Stars at the given abscissae, the first one deepest in the potential; no other particles. *)
Definition row (a b c : F64) : galaxy F64 :=
  let o := fZs [0; 0; 0]%Z in
  mkGal (pset_of STARS (fZs [1; 1; 1]%Z) [a; b; c] o o o o o (Some (fZs [-9; -1; -1]%Z)) (fZ 0))
    (pset_of DARK_MATTER [] [] [] [] [] [] [] (Some []) (fZ 0))
    (pset_of GAS [] [] [] [] [] [] [] (Some []) (fZ 0)) true.
Lemma row_ok a b c : constructible (row a b c).
Proof.
  apply constructible_ok, gal_ok_facts. constructor; simpl; try reflexivity.
  all: apply pset_ok_iff; split; [|reflexivity]; repeat split; simpl; intros p [= <-]; reflexivity.
Qed.

Example ex_c71 : constructible (row (fZ 1000) (fZ 1700) (fZ (-3))) /\
  rmap (fun g' => shows (all_x g')) (center (row (fZ 1000) (fZ 1700) (fZ (-3)))) = Ok [sZ 0; sZ 700; sZ (-1003)] /\
  forallb nfin (all_x (row (fZ 1000) (fZ 1700) (fZ (-3)))) = true.
Proof. split; [apply row_ok|]. vm_compute. split; reflexivity. Qed.

(** C71: in double precision, particles at different places can be put at the same place by the centring. *)
Lemma c71_distinct_refuted : exists g g' : galaxy F64, constructible g /\ center g = Ok g' /\
  (forall v, In v (all_x g ++ all_y g ++ all_z g) -> nfin v = true) /\
  exists i j a b a' b', nth_error (all_x g) i = Some a /\ nth_error (all_x g) j = Some b /\ nlt a b = true /\
    nth_error (all_x g') i = Some a' /\ nth_error (all_x g') j = Some b' /\ neqb a' b' = true.
Proof.
  exists (row (fZ (- 2 ^ 53)) (fZ 0) (fZ 1)).
  destruct (is_ok_ex (center (row (fZ (- 2 ^ 53)) (fZ 0) (fZ 1)))) as (g' & E); [vm_compute; reflexivity|].
  exists g'. split; [apply row_ok|]. split; [exact E|]. split.
  - intros v Hv. revert v Hv. apply forallb_forall. vm_compute. reflexivity.
  - exists 1%nat, 2%nat, (fZ 0), (fZ 1).
    assert (A : match center (row (fZ (- 2 ^ 53)) (fZ 0) (fZ 1)) with
                | Ok g' => match nth_error (all_x g') 1, nth_error (all_x g') 2 with
                           | Some a', Some b' => neqb a' b' | _, _ => false end
                | Raise _ => false end = true) by (vm_compute; reflexivity).
    rewrite E in A. destruct (nth_error (all_x g') 1) as [a'|]; [|discriminate].
    destruct (nth_error (all_x g') 2) as [b'|]; [|discriminate].
    exists a', b'. split; [reflexivity|]. split; [reflexivity|]. split; [vm_compute; reflexivity|].
    split; [reflexivity|]. split; [reflexivity|]. exact A.
Qed.

(** C71: the invariance under translations (C12) is lost in double precision: translating first can give other positions. *)
Lemma c71_translation_refuted : exists (g gt g1 g2 : galaxy F64) (t : F64), constructible g /\ nfin t = true /\
  (forall v, In v (all_x g ++ all_x gt) -> nfin v = true) /\
  moved (fun v => v + t)%num (fun v => v) (fun v => v) g gt /\
  center g = Ok g1 /\ center gt = Ok g2 /\
  exists i a b, nth_error (all_x g1) i = Some a /\ nth_error (all_x g2) i = Some b /\ neqb a b = false.
Proof.
  set (t := fZ (2 ^ 53)).
  exists (row (fZ 0) (fZ 1) (fZ 2)), (row (fZ 0 + t)%num (fZ 1 + t)%num (fZ 2 + t)%num).
  destruct (is_ok_ex (center (row (fZ 0) (fZ 1) (fZ 2)))) as (g1 & E1); [vm_compute; reflexivity|].
  destruct (is_ok_ex (center (row (fZ 0 + t)%num (fZ 1 + t)%num (fZ 2 + t)%num))) as (g2 & E2); [vm_compute; reflexivity|].
  exists g1, g2, t. split; [apply row_ok|]. split; [vm_compute; reflexivity|]. split.
  { intros v Hv. revert v Hv. apply forallb_forall. vm_compute. reflexivity. }
  split.
  { split; [reflexivity|]. split; [apply row_ok|]. apply Forall2_sets. unfold same_but_positions. repeat split. }
  split; [exact E1|]. split; [exact E2|].
  assert (A : match center (row (fZ 0) (fZ 1) (fZ 2)), center (row (fZ 0 + t)%num (fZ 1 + t)%num (fZ 2 + t)%num) with
              | Ok g1, Ok g2 => match nth_error (all_x g1) 1, nth_error (all_x g2) 1 with
                         | Some a', Some b' => negb (neqb a' b') | _, _ => false end
              | _, _ => false end = true) by (vm_compute; reflexivity).
  rewrite E1, E2 in A. exists 1%nat.
  destruct (nth_error (all_x g1) 1) as [a|]; [|discriminate]. destruct (nth_error (all_x g2) 1) as [b|]; [|discriminate].
  exists a, b. split; [reflexivity|]. split; [reflexivity|]. apply Bool.negb_true_iff. exact A.
Qed.
