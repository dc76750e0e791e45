(** The curve of circular orbits computed in floating point against the exact one (C96). *)
From Verif Require Import Py Num RX F64 Np Df Data DataFacts DfFacts RebuildFacts Center CenterFacts Align Spec SpecR SpecCirc SpecAlAcc SpecBase SpecCurve Ex DataThms CenterThms AlignFacts AlignThms Circ CircFacts CurveFacts CircThms OrderThms AlAccFacts CtrAccThms EpsAccFacts EpsAccThms EpsCutThms Base Threshold ThresholdThms PolyFacts ChoiceFacts CurveAccFacts.
From Flocq Require Import Core BinarySingleNaN.
From Coq Require Import Lra Lia Sorted Floats.SpecFloat.
Local Open Scope R_scope.

(** *** The exact curve *)

Lemma edges_in es : edges_ok es -> In (-1) es /\ forall e, In e es -> -1 <= e.
Proof.
  intros [H0 M]. split; [eapply nth_error_In; eauto|]. intros e I. apply In_nth_error in I as [[|i] E]; [rewrite H0 in E; injection E as <-; lra|].
  exact (M 0%nat (S i) (-1) e ltac:(lia) H0 E).
Qed.

Lemma chosen_in m rows p : chosen m rows p -> In p rows.
Proof.
  intros [->|r rest P _ _ _|a rest P _ _]; [now left| |]; (eapply Permutation_in; [symmetry; exact P|simpl; auto]).
Qed.
Lemma point_in m es ps i p : point m es ps i (Some p) -> In p ps /\ inbin es i (fst p) = true.
Proof.
  unfold point. intros H. assert (I : In p (filter (fun p => inbin es i (fst p)) ps)).
  { destruct (S i <? length es)%nat; [now apply chosen_in in H|]. destruct H as (rest & P & _). eapply Permutation_in; [symmetry; exact P|now left]. }
  now apply filter_In in I.
Qed.

(** Points of different bins. *)
Lemma somes_sorted m es : 0 < m -> edges_ok es -> forall pts k,
  (forall i p, nth_error pts i = Some (Some p) -> inbin es (k + i) (fst p) = true /\ forall e, In e es -> m <= Rabs (fst p - e)) ->
  Sorted (apart m) (somes pts) /\ forall p, In p (somes pts) -> exists i, inbin es (k + i) (fst p) = true /\ forall e, In e es -> m <= Rabs (fst p - e).
Proof.
  intros M [H0 Mo]. induction pts as [|o pts IH]; intros k H; [split; [constructor|intros p []]|].
  destruct (IH (S k)) as [S1 I1]. { intros i p Hp. replace (S k + i)%nat with (k + S i)%nat by lia. now apply H. }
  destruct o as [p|].
  - change (somes (Some p :: pts)) with (p :: somes pts). destruct (H 0%nat p eq_refl) as [Hb Hf]. split.
    + constructor; [exact S1|]. destruct (somes pts) as [|q l]; [constructor|]. constructor. destruct (I1 q ltac:(now left)) as (i & Bq & Fq).
      unfold inbin in Hb, Bq. replace (k + 0)%nat with k in Hb by lia.
      destruct (nth_error es k) as [lo|] eqn:E1; [|discriminate]. destruct (nth_error es (S k + i)) as [lo'|] eqn:E2; [|discriminate].
      apply andb_prop in Hb as [_ Hb]. apply andb_prop in Bq as [Bq _].
      assert (exists hi, nth_error es (S k) = Some hi) as (hi & E3).
      { assert (S k < length es)%nat. { assert (S k + i < length es)%nat by (apply nth_error_Some; congruence). lia. }
        destruct (nth_error es (S k)) eqn:E; [eauto|]. apply nth_error_None in E. lia. }
      rewrite E3 in Hb. destruct (Rle_bool_spec (fst p) hi) as [B1|]; [|discriminate]. destruct (Rlt_bool_spec lo' (fst q)) as [B2|]; [|discriminate].
      assert (hi <= lo'). { destruct i; [rewrite Nat.add_0_r in E2; rewrite E3 in E2; injection E2 as ->; lra|]. exact (Mo (S k) (S k + S i)%nat hi lo' ltac:(lia) E3 E2). }
      pose proof (Hf hi (nth_error_In _ _ E3)) as F1. rewrite Rabs_left1 in F1 by lra.
      pose proof (Fq lo' (nth_error_In _ _ E2)) as F2. rewrite Rabs_pos_eq in F2 by lra. unfold apart. lra.
    + intros q [<-|Iq]; [exists 0%nat; auto|]. destruct (I1 q Iq) as (i & Bq & Fq). exists (S i). replace (k + S i)%nat with (S k + i)%nat by lia. auto.
  - change (somes (None :: pts)) with (somes pts). split; [exact S1|].
    intros q Iq. destruct (I1 q Iq) as (i & Bq & Fq). exists (S i). replace (k + S i)%nat with (S k + i)%nat by lia. auto.
Qed.

Lemma curve_shape m es l ue uz cv : 0 < m -> edges_ok es -> exact_curve m es l ue uz cv -> Sorted (apart m) cv /\ Forall level cv /\ cv <> [].
Proof.
  intros M Eo H. destruct (edges_in es Eo) as [I1 Ige]. destruct (ec_uz _ _ _ _ _ _ H) as (Pz & _ & Mz). destruct (ec_ue _ _ _ _ _ _ H) as [Pe Me].
  destruct (ec_pts _ _ _ _ _ _ H) as (p0 & rest & pts & pt & P & E0 & F & Ln & Pt & _ & ->).
  set (ps := map (scaled ue uz) (filter negative l)) in *.
  assert (Lv : forall p, In p ps -> level p).
  { intros p I. apply in_map_iff in I as (b & <- & Ib). apply filter_In in Ib as [Ib Nb]. unfold negative in Nb. destruct (Rlt_bool_spec (fst b) 0) as [C|]; [|discriminate].
    specialize (Mz b Ib C). unfold level, scaled. cbn [snd]. split; [apply inv_nonneg; [exact Pz|apply Rabs_pos]|].
    apply Rmult_le_reg_r with uz; [lra|]. unfold Rdiv. rewrite Rmult_assoc, Rinv_l by lra. lra. }
  assert (Hp : forall i p, nth_error pts i = Some (Some p) -> In p ps /\ inbin es i (fst p) = true /\ forall e, In e es -> m <= Rabs (fst p - e)).
  { intros i p E. destruct (point_in _ _ _ _ _ (Pt i (Some p) E)) as [Ip Ib]. split; [exact Ip|]. split; [exact Ib|].
    apply (Permutation_in _ P) in Ip as [Ep|Ip]; [|intros e Ie; now apply F].
    exfalso. subst p. unfold inbin in Ib. destruct (nth_error es i) as [lo|] eqn:El; [|discriminate]. rewrite E0 in Ib.
    rewrite Rlt_bool_false in Ib by (apply Ige; eapply nth_error_In; eauto). discriminate. }
  destruct (somes_sorted m es M Eo pts 0) as [S1 S2]. { intros i p E. apply (Hp i p) in E. apply E. }
  split; [|split; [|discriminate]].
  - constructor; [exact S1|]. destruct (somes pts) as [|q r] eqn:Es; [constructor|]. constructor. destruct (S2 q ltac:(simpl; auto)) as (i & Bq & Fq).
    specialize (Fq (-1) I1). unfold apart. cbn [fst]. unfold inbin in Bq. destruct (nth_error es (0 + i)) as [lo|] eqn:El; [|discriminate].
    apply andb_prop in Bq as [Bq _]. destruct (Rlt_bool_spec lo (fst q)); [|discriminate]. pose proof (Ige lo (nth_error_In _ _ El)).
    rewrite Rabs_pos_eq in Fq by lra. lra.
  - constructor; [exact (Lv p0 (Permutation_in _ (Permutation_sym P) (or_introl eq_refl)))|].
    apply Forall_forall. intros p Ip. unfold somes in Ip. apply in_flat_map in Ip as (o & Io & Ip). destruct o as [q|]; [|destruct Ip].
    destruct Ip as [<-|[]]. apply In_nth_error in Io as (i & Ei). apply Lv, (Hp i q Ei).
Qed.

(** *** The default edges *)

(** Edge [i] as a fraction. *)
Definition edgesZ : list (Z * Z) := map (fun i => (Z.of_nat i - 20, 20)%Z) (seq 0 18) ++ map (fun i => (Z.of_nat i - 20, 200)%Z) (seq 0 20).
Lemma edgesR_Z : edgesR = map (fun q => IZR (fst q) / IZR (snd q)) edgesZ.
Proof.
  unfold edgesR, edgesZ. rewrite map_app, !map_map. f_equal; apply map_ext; intros i; cbn [fst snd]; rewrite minus_IZR, <- INR_IZR_INZ; field.
Qed.
Definition edge_ok (x : f64) (q : Z * Z) : bool :=
  match B2SF x with
  | S754_finite s m e => let n := if s then Z.neg m else Z.pos m in
      (e <? 0)%Z && (0 <? snd q)%Z && (Z.abs (n * snd q - fst q * 2 ^ (- e)) * 2 ^ 50 <=? snd q * 2 ^ (- e))%Z && (- 2 ^ (- e) <=? n)%Z
  | _ => false
  end.
Fixpoint all2 {A B} (f : A -> B -> bool) (l : list A) (l' : list B) : bool :=
  match l, l' with [], [] => true | a :: l, b :: l' => f a b && all2 f l l' | _, _ => false end.

Lemma edge_ok_near sm (x : F64s sm) q : edge_ok x q = true -> near_edge (F64_rounded sm) x (IZR (fst q) / IZR (snd q)).
Proof.
  intros H. unfold edge_ok in H. destruct x as [s|s| |s m e Hb]; cbn [B2SF] in H; try discriminate H. set (n := if s then Z.neg m else Z.pos m) in *.
  apply andb_prop in H as [H H4]. apply andb_prop in H as [H H3]. apply andb_prop in H as [H1 H2].
  apply Z.ltb_lt in H1, H2. apply Z.leb_le in H3, H4.
  set (k := (2 ^ (- e))%Z) in *. assert (Pk : (0 < k)%Z) by (apply Z.pow_pos_nonneg; lia).
  assert (V : val (F64_rounded sm) (B754_finite s m e Hb) = XR (IZR n / IZR k)).
  { change (val (F64_rounded sm) (B754_finite s m e Hb)) with (XR (B2R (B754_finite (prec:=53) (emax:=1024) s m e Hb))). f_equal.
    unfold B2R, F2R. cbn [Fnum Fexp]. assert ((if s then Z.neg m else Z.pos m) = n) as Q by reflexivity.
    replace (SpecFloat.cond_Zopp s (Z.pos m)) with n by (unfold n; destruct s; reflexivity). unfold Rdiv. f_equal.
    unfold k. replace e with (- (- e))%Z at 1 by lia. rewrite bpow_opp. f_equal. rewrite <- IZR_Zpower by lia. reflexivity. }
  apply IZR_lt in H2, Pk. apply IZR_le in H3, H4. rewrite !mult_IZR, abs_IZR, minus_IZR, !mult_IZR in H3. rewrite opp_IZR in H4.
  exists (IZR n / IZR k). split; [exact V|]. split.
  - replace (IZR n / IZR k - IZR (fst q) / IZR (snd q)) with ((IZR n * IZR (snd q) - IZR (fst q) * IZR k) * / (IZR (snd q) * IZR k)) by (field; lra).
    assert (P2 : 0 < IZR (snd q) * IZR k) by (apply Rmult_lt_0_compat; assumption).
    rewrite Rabs_mult, Rabs_inv, (Rabs_pos_eq (IZR (snd q) * IZR k)) by lra.
    assert (P50 : 0 < IZR (2 ^ 50)) by (apply IZR_lt; reflexivity).
    apply Rmult_le_reg_r with (IZR (snd q) * IZR k); [exact P2|]. rewrite Rmult_assoc, Rinv_l by lra. rewrite Rmult_1_r.
    apply Rmult_le_reg_r with (IZR (2 ^ 50)); [exact P50|]. rewrite (Rmult_comm (/ _)), (Rmult_assoc (_ * _)), Rinv_l by lra. lra.
  - apply Rmult_le_reg_r with (IZR k); [lra|]. unfold Rdiv. rewrite Rmult_assoc, Rinv_l by lra. lra.
Qed.
Lemma all2_near sm (l : list (F64s sm)) l' : all2 edge_ok l l' = true -> Forall2 (near_edge (F64_rounded sm)) l (map (fun q => IZR (fst q) / IZR (snd q)) l').
Proof.
  revert l'. induction l as [|a l IH]; intros [|q l'] H; try discriminate H; [constructor|]. cbn [all2] in H. apply andb_prop in H as [H1 H2].
  constructor; [now apply edge_ok_near|auto].
Qed.
Definition near_check {N : Num} (f : N -> Z * Z -> bool) (b0 b1 : N) : bool :=
  match arange nm1 (nlit (-1) 10) b0, arange (nlit (-1) 10) n0 b1 with
  | Ok l0, Ok l1 => all2 f (l0 ++ l1) edgesZ
  | _, _ => false
  end.
Lemma default_near_check sm : near_check (N:=F64s sm) edge_ok default_bin0 default_bin1 = true.
Proof. vm_compute. reflexivity. Qed.
Lemma default_near sm l0 l1 : arange (N:=F64s sm) nm1 (nlit (-1) 10) default_bin0 = Ok l0 -> arange (N:=F64s sm) (nlit (-1) 10) n0 default_bin1 = Ok l1 ->
  Forall2 (near_edge (F64_rounded sm)) (l0 ++ l1) edgesR.
Proof.
  intros A0 A1. rewrite edgesR_Z. apply all2_near. pose proof (default_near_check sm) as H. unfold near_check in H. now rewrite A0, A1 in H.
Qed.

Lemma edgesR_nth i a : nth_error edgesR i = Some a -> (i < 38)%nat /\ a = if (i <? 18)%nat then -1 + INR i / 20 else - (1 / 10) + (INR i - 18) / 200.
Proof.
  intros H. assert (Li : (i < 38)%nat). { replace 38%nat with (length edgesR) by reflexivity. apply nth_error_Some. congruence. }
  split; [exact Li|]. unfold edgesR in H. destruct (Nat.ltb_spec i 18) as [C|C].
  - rewrite nth_error_app1, nth_error_map in H by (rewrite map_length, seq_length; lia).
    rewrite (nth_error_nth' _ 0%nat) in H by (rewrite seq_length; lia). rewrite seq_nth in H by lia. injection H as <-. reflexivity.
  - rewrite nth_error_app2, nth_error_map in H by (rewrite map_length, seq_length; lia). rewrite map_length, seq_length in H.
    rewrite (nth_error_nth' _ 0%nat) in H by (rewrite seq_length; lia). rewrite seq_nth in H by lia. injection H as <-.
    cbn [plus]. rewrite minus_INR by lia. simpl INR. f_equal. f_equal. lra.
Qed.
Lemma edgesR_ok : edges_ok edgesR.
Proof.
  split; [unfold edgesR; simpl; f_equal; lra|]. intros i k a b H Ha Hb. apply edgesR_nth in Ha as [Li ->]. apply edgesR_nth in Hb as [Lk ->].
  assert (Hik : INR i <= INR k) by (apply le_INR; lia).
  destruct (Nat.ltb_spec i 18) as [C|C]; destruct (Nat.ltb_spec k 18) as [C'|C']; [lra| |lia|lra].
  apply le_INR in C'. assert (INR i <= INR 17) by (apply le_INR; lia). simpl INR in *. lra.
Qed.

(** *** C96 *)

Lemma combine_nth_in {A B} (l : list A) (l' : list B) k a b : nth_error l k = Some a -> nth_error l' k = Some b -> In (a, b) (combine l l').
Proof.
  revert l l'. induction k as [|k IH]; intros [|x l] [|y l'] H H'; try discriminate; simpl in *.
  - injection H as ->. injection H' as ->. now left.
  - right. auto.
Qed.

Lemma pts_unique (pts pts' : list (R * R)) : map (fun p => XR (fst p)) pts = map (fun p => XR (fst p)) pts' ->
  map (fun p => XR (snd p)) pts = map (fun p => XR (snd p)) pts' -> pts = pts'.
Proof.
  revert pts'. induction pts as [|[x y] pts IH]; intros [|[x' y'] pts'] H H'; try discriminate; [reflexivity|].
  cbn [map fst snd] in *. injection H as -> H. injection H' as -> H'. f_equal. auto.
Qed.

Lemma reads_close sm d q cv : Forall2 (pt_near sm d) q cv -> exists pts, map (val (F64_rounded sm)) (map fst q) = map (fun p => XR (fst p)) pts /\
  map (val (F64_rounded sm)) (map snd q) = map (fun p => XR (snd p)) pts /\ Forall2 (close (3 * d + 2 * u53)) pts cv.
Proof.
  induction 1 as [|a p q cv (x & y & Vx & Vy & C) _ (pts & Ex & Ey & F)]; [exists []; repeat split; constructor|].
  exists ((x, y) :: pts). cbn [map fst snd]. rewrite Vx, Vy, Ex, Ey. split; [reflexivity|]. split; [reflexivity|]. constructor; assumption.
Qed.

(** For any bins: let the energies and Jz of the particles be, up to [d] times the units, those
    of particles over the real numbers whose curve is clear by a margin [m] of at least
    16 d + 2^-44.  Then the computed curve has exactly as many points, and each is the exact
    point up to 3 d + 2^-52 in both coordinates. *)
Lemma c96_bins : forall sm argsort (g : galaxy (F64s sm)) b0 b1 l0 l1 es j bodies m d ue uz cv,
  constructible g -> sorting argsort ->
  arange nm1 (nlit (-1) 10) b0 = Ok l0 -> arange (nlit (-1) 10) n0 b1 = Ok l1 ->
  Forall2 (near_edge (F64_rounded sm)) (l0 ++ l1) es -> edges_ok es ->
  jcirc argsort g b0 b1 = Ok j ->
  0 <= d -> 16 * d + / IZR (2 ^ 44) <= m ->
  Forall2 (near_orbit (F64_rounded sm) d ue uz) (all_orbits g) bodies ->
  exact_curve m es bodies ue uz cv ->
  exists pts, map (val (F64_rounded sm)) (jc_x j) = map (fun p => XR (fst p)) pts /\
    map (val (F64_rounded sm)) (jc_y j) = map (fun p => XR (snd p)) pts /\
    Forall2 (fun p q => Rabs (fst p - fst q) <= 3 * d + / IZR (2 ^ 52) /\ Rabs (snd p - snd q) <= 3 * d + / IZR (2 ^ 52)) pts cv.
Proof.
  intros sm argsort g b0 b1 l0 l1 es j bodies m d ue uz cv Hg Hs A0 A1 He Eo Hj Hd Hm Hn Hc. rewrite u44 in Hm. rewrite u52.
  pose proof (proj1 (constructible_ok g) Hg) as Hok.
  destruct (curve_of_run (F64_rounded sm) argsort g b0 b1 j Hok Hs Hj) as (se & sz & sp & k0 & k1 & raw & U & B0 & B1 & Hne & Rw & _ & X & Y).
  assert (k0 = l0) by congruence. assert (k1 = l1) by congruence. subst k0 k1.
  pose proof (edges_in es Eo) as Ei.
  assert (Bf : map fst (filter (fun l => negative (snd l)) (combine (all_orbits g) bodies)) = filter bound (all_orbits g)) by (eapply B_fst; eauto).
  rewrite <- Bf in Rw, X, Y.
  pose proof (curve_same sm g (l0 ++ l1) es bodies se sz sp m d ue uz cv U He Ei Hd Hm Hn Hc raw Rw) as F.
  destruct (reads_close sm d _ _ F) as (pts & Px & Py & Fp). exists pts. rewrite X, Y. split; [exact Px|]. split; [exact Py|]. exact Fp.
Qed.

(** With the default bins the exact edges are -1, -0.95, …, -0.15, -0.1, -0.095, …, -0.005. *)
Lemma c96_default : forall sm argsort (g : galaxy (F64s sm)) j bodies m d ue uz cv,
  constructible g -> sorting argsort -> jcirc argsort g default_bin0 default_bin1 = Ok j ->
  0 <= d -> 16 * d + / IZR (2 ^ 44) <= m ->
  Forall2 (near_orbit (F64_rounded sm) d ue uz) (all_orbits g) bodies ->
  exact_curve m edgesR bodies ue uz cv ->
  exists pts, map (val (F64_rounded sm)) (jc_x j) = map (fun p => XR (fst p)) pts /\
    map (val (F64_rounded sm)) (jc_y j) = map (fun p => XR (snd p)) pts /\
    Forall2 (fun p q => Rabs (fst p - fst q) <= 3 * d + / IZR (2 ^ 52) /\ Rabs (snd p - snd q) <= 3 * d + / IZR (2 ^ 52)) pts cv.
Proof.
  intros sm argsort g j bodies m d ue uz cv Hg Hs Hj Hd Hm Hn Hc. destruct (default_ranges sm) as (l0 & l1 & A0 & A1 & _).
  exact (c96_bins sm argsort g _ _ l0 l1 edgesR j bodies m d ue uz cv Hg Hs A0 A1 (default_near sm l0 l1 A0 A1) edgesR_ok Hj Hd Hm Hn Hc).
Qed.

(** The exact curve has one value at every energy, between 0 and 1. *)
Lemma c96_exact : forall m es bodies ue uz cv x, 0 < m -> edges_ok es -> exact_curve m es bodies ue uz cv ->
  exists c, interpolates cv x c /\ 0 <= c <= 1 /\ forall c', interpolates cv x c' -> c' = c.
Proof.
  intros m es bodies ue uz cv x M Eo Hc. destruct (curve_shape m es bodies ue uz cv M Eo Hc) as (S & Lv & Ne).
  destruct (polygon_total m cv x M Ne S Lv) as (c & I & B). exists c. split; [exact I|]. split; [exact B|]. intros c' I'.
  pose proof (lip m cv x x c c' M (apart_steps m cv M S Lv) I I') as Q. rewrite (Rminus_diag_eq x x), Rabs_R0 in Q by reflexivity. unfold Rdiv in Q. rewrite Rmult_0_l in Q.
  destruct (Req_EM_T c' c) as [E|E]; [exact E|]. assert (c' - c <> 0) as E' by lra. apply Rabs_pos_lt in E'. lra.
Qed.

Lemma ratio_acc ra rb A B d : 0 < B -> 0 <= d <= / 16 -> Rabs (ra - A) <= d * B -> Rabs (rb - B) <= d * B -> Rabs A <= B ->
  Rabs (ra / rb - A / B) <= 3 * d.
Proof.
  intros PB D Ea Eb HA. apply Rabs_le_inv in Eb. assert (Pb : 0 < rb) by nra.
  replace (ra / rb - A / B) with (((ra - A) - A / B * (rb - B)) * / rb) by (field; lra).
  assert (AB : Rabs (A / B) <= 1).
  { unfold Rdiv. rewrite Rabs_mult, Rabs_inv, (Rabs_pos_eq B) by lra. apply Rmult_le_reg_r with B; [lra|]. rewrite Rmult_assoc, Rinv_l by lra. lra. }
  rewrite Rabs_mult, Rabs_inv, (Rabs_pos_eq rb) by lra. apply Rmult_le_reg_r with rb; [lra|]. rewrite Rmult_assoc, Rinv_l by lra. rewrite Rmult_1_r.
  pose proof (Rabs_triang (ra - A) (- (A / B * (rb - B)))) as T1. rewrite Rabs_Ropp, (Rabs_mult (A / B)) in T1.
  assert (Rabs (rb - B) <= d * B) by (apply Rabs_le; lra). pose proof (Rabs_pos (A / B)). pose proof (Rabs_pos (rb - B)). unfold Rminus at 1. nra.
Qed.

(** The exact curve is nowhere steeper than one over the margin. *)
Lemma c96_gentle : forall m es bodies ue uz cv, 0 < m -> edges_ok es -> exact_curve m es bodies ue uz cv -> gentle m cv.
Proof.
  intros m es bodies ue uz cv M Eo Hc. destruct (curve_shape m es bodies ue uz cv M Eo Hc) as (S & Lv & _).
  pose proof (apart_steps m cv M S Lv) as H. clear - H. induction H as [|p l H I F]; constructor; [exact I|]. inversion F as [|q l' [_ A]]; subst; constructor. exact A.
Qed.

(** JThreshold with the default bins and any finite cut, for data within [d] of exact ones whose
    curve is clear by [m] and nowhere steeper than 1/[a]: with t = (12 d + 2^-47) / a, a star with exact energy e and Jz z is left out if
    e > 0; if |z/uz| exceeds the exact curve at e/ue by t it is left out; if it is below by
    t it is in the disk where z/uz exceeds cut * c by (1 + |cut|) t, and in the spheroid where
    it is below cut * c by (1 + |cut|) t. *)
Lemma c96_labels : forall sm argsort junk (cut : F64s sm) rt (g : galaxy (F64s sm)) cs st' bodies m a d ue uz cv k e z,
  constructible g -> sorting argsort -> val (F64_rounded sm) cut = XR rt ->
  decompose argsort (jthreshold junk (default_bin0, default_bin1) cut) tt g = Ok (cs, st') ->
  0 <= d -> 16 * d + / IZR (2 ^ 44) <= m ->
  Forall2 (near_orbit (F64_rounded sm) d ue uz) (all_orbits g) bodies ->
  exact_curve m edgesR bodies ue uz cv -> 0 < a <= 1 -> gentle a cv ->
  (k < plen (g_stars g))%nat -> nth_error bodies k = Some (e, z) ->
  exists c w, interpolates cv (e / ue) c /\ nth_error (c_labels cs) k = Some w /\
    (0 < e -> w = nnan) /\
    (e < 0 -> c + (12 * d + / IZR (2 ^ 47)) / a < Rabs (z / uz) -> w = nnan) /\
    (e < 0 -> Rabs (z / uz) < c - (12 * d + / IZR (2 ^ 47)) / a ->
      rt * c + (1 + Rabs rt) * ((12 * d + / IZR (2 ^ 47)) / a) < z / uz -> w = nofZ 1) /\
    (e < 0 -> Rabs (z / uz) < c - (12 * d + / IZR (2 ^ 47)) / a ->
      z / uz < rt * c - (1 + Rabs rt) * ((12 * d + / IZR (2 ^ 47)) / a) -> w = nofZ 0).
Proof.
  intros sm argsort junk cut rt g cs st' bodies m a d ue uz cv k e z Hg Hs Vc Hd D0 Hm Hn Hc Pa Ga Lk Hb.
  pose proof u53_pos as PU. assert (Pm : 0 < m) by (rewrite u44 in Hm; lra).
  destruct (c96_exact m edgesR bodies ue uz cv (e / ue) Pm edgesR_ok Hc) as (c & Ic & Bc & _). exists c.
  pose proof (proj1 (constructible_ok g) Hg) as Hok.
  assert (Nc : nisnan cut = false) by (apply (nisnan_false (F64_rounded sm)); rewrite Vc; discriminate).
  destruct (c40_rule _ (F64_rounded sm) argsort junk _ cut g cs st' Hg Nc Hd) as (_ & j & Hj & Rl). cbn [fst snd] in Hj.
  destruct (Rl k (g_stars g) k (located_intro g [] (g_stars g) _ k eq_refl Lk)) as (w & Hw & Rs & _). exists w.
  split; [exact Ic|]. split; [exact Hw|].
  pose proof (proj1 (constructible_ok g) Hg) as (_ & _ & _ & Hmk). apply mk_galaxy_inv in Hmk as (_ & _ & _ & Ty & _).
  destruct (Rs Ty) as (we & Hwe & Cs).
  assert (exists o, nth_error (star_orbits g) k = Some o) as (o & Ho).
  { destruct (nth_error (star_orbits g) k) eqn:E; [eauto|]. apply nth_error_None in E.
    assert (length (star_orbits g) = plen (g_stars g)) by (apply orbits_cols; apply Hok). lia. }
  assert (Ha : nth_error (all_orbits g) k = Some o).
  { unfold all_orbits, sets. cbn [flat_map]. rewrite nth_error_app1; [exact Ho|]. apply nth_error_Some. change (nth_error (star_orbits g) k <> None). congruence. }
  pose proof (edges_in edgesR edgesR_ok) as Ei. assert (Hm' : 16 * d + 512 * u53 <= m) by now rewrite <- u44.
  destruct (Forall2_nth_l _ _ _ Hn k o Ha) as (b & Hb' & Nb). rewrite Hb in Hb'. injection Hb' as <-.
  assert (Bs : forall l, In l (combine (all_orbits g) bodies) -> bound (fst l) = negative (snd l)) by (intros l I; eapply bound_same; eauto).
  assert (Io : In (o, (e, z)) (combine (all_orbits g) bodies)) by (apply (combine_nth_in _ _ k); assumption).
  pose proof (Bs _ Io) as Bo. cbn [fst snd] in Bo.
  split.
  { intros Pe. unfold negative in Bo. cbn [fst] in Bo. rewrite Rlt_bool_false in Bo by lra. destruct Nb as (e' & Ve & _).
    destruct (c26_unbound _ (F64_rounded sm) argsort g _ _ j k o Hg Hj Ho) as (_ & Hn' & _).
    { left. unfold bound in Bo. apply andb_false_iff in Bo as [Q|Q].
      - apply (nle_false (F64_rounded sm)) in Q. apply (nlt_iff (F64_rounded sm)). rewrite Ve, (val_n0 (F64_rounded sm)) in Q. rewrite Ve, (val_n0 (F64_rounded sm)). simpl in Q |- *. lra.
      - apply negb_false_iff, (neqb_iff (F64_rounded sm)) in Q as [Q _]. rewrite Ve, (val_nninf (F64_rounded sm)) in Q. discriminate Q. }
    assert (Ew : we = nnan) by congruence. assert (Fn : nfin (nnan : F64s sm) = false) by (rewrite (val_fin (F64_rounded sm)), (val_nnan (F64_rounded sm)); reflexivity). rewrite Ew, Fn in Cs.
    destruct Cs as [(C & _)|[(C & _)|(_ & C)]]; [discriminate C|discriminate C|exact C]. }
  destruct (Rlt_dec e 0) as [Ne|Ne]; [|repeat split; intros; lra].
  unfold negative in Bo. cbn [fst] in Bo. rewrite Rlt_bool_true in Bo by exact Ne.
  assert (Hz : forall o, In o (all_orbits g) -> bound o = true -> nfin (o_jz o) = true).
  { intros o' I1 B1. assert (exists l, In l (combine (all_orbits g) bodies) /\ fst l = o') as (l & Il & <-).
    { rewrite <- (map_fst_combine (all_orbits g) bodies (Forall2_length _ _ _ Hn)) in I1. apply in_map_iff in I1 as (l & <- & Il). eauto. }
    pose proof (Forall2_combine _ _ _ Hn l Il) as (_ & _ & _ & Z). rewrite (Bs l Il) in B1. unfold negative in B1.
    destruct (Rlt_bool_spec (fst (snd l)) 0) as [C|]; [|discriminate B1]. destruct (Z C) as (z' & Vz & _). now rewrite (val_fin (F64_rounded sm)), Vz. }
  assert (exists se sz sp, units g se sz sp) as (se & sz & sp & U).
  { destruct (curve_of_run (F64_rounded sm) argsort g _ _ j Hok Hs Hj) as (se & sz & sp & k0 & k1 & raw & U & _). eauto. }
  assert (Ue : forall se sz sp, units g se sz sp -> (exists e0, val (F64_rounded sm) se = XR e0 /\ 0 < e0 /\ Rabs (e0 - ue) <= d * ue) /\
     (exists z0, val (F64_rounded sm) sz = XR z0 /\ 0 < z0 /\ Rabs (z0 - uz) <= d * uz) /\
     exists o, In o (all_orbits g) /\ bound o = true /\ neqb (o_e o) n0 = false).
  { intros se' sz' sp' U'.
    destruct (unit_e_same sm g edgesR bodies se' sz' sp' m d ue uz cv U' Ei D0 Hm' Hn Hc) as (l0 & LR & e0 & P & E0 & V0 & Vs & P0 & A0 & _).
    destruct (unit_z_same sm g edgesR bodies se' sz' sp' m d ue uz cv U' Ei D0 Hm' Hn Hc) as (z0 & Vz & Pz & Az & _).
    split; [eauto|]. split; [eauto|]. exists (fst l0).
    assert (I0 : In l0 (filter (fun l => negative (snd l)) (combine (all_orbits g) bodies))) by (eapply Permutation_in; [symmetry; exact P|now left]).
    apply filter_In in I0 as [I0 N0]. split. { rewrite <- (map_fst_combine (all_orbits g) bodies (Forall2_length _ _ _ Hn)). now apply in_map. }
    split; [now rewrite (Bs l0 I0)|]. destruct (neqb (o_e (fst l0)) n0) eqn:Q; [|reflexivity]. apply (neqb_iff (F64_rounded sm)) in Q as [Q _].
    rewrite V0, (val_n0 (F64_rounded sm)) in Q. injection Q. lra. }
  destruct (Ue se sz sp U) as (_ & (z0 & Vz0 & Pz0 & _) & Hne).
  assert (Hnz : exists o, In o (all_orbits g) /\ bound o = true /\ neqb (o_jz o) n0 = false).
  { destruct (unit_z _ _ _ _ U) as [[oz [Iz Ez]] _]. apply filter_In in Iz as [Iz Bz]. exists oz. split; [exact Iz|]. split; [exact Bz|].
    destruct (neqb (o_jz oz) n0) eqn:Q; [|reflexivity]. apply (neqb_iff (F64_rounded sm)) in Q as [Q _]. rewrite (val_n0 (F64_rounded sm)) in Q.
    rewrite <- Ez, (val_abs (F64_rounded sm)), Q in Vz0. simpl in Vz0. rewrite Rabs_R0 in Vz0. injection Vz0. lra. }
  destruct (c81_labels sm argsort junk cut rt g cs st' k o Hg Hs Vc Hd Hz Hne Hnz Ho Bo)
    as (j' & vue & vuz & vup & ue' & uz' & e' & jz' & re & pts & c' & w' & Hj' & U' & V1 & V2 & P1 & P2 & V3 & V4 & Ae & Px & Py & I' & B' & Hw' & K1 & K2 & K3).
  assert (j' = j) by congruence. subst j'. assert (w' = w) by congruence. subst w'.
  destruct (c96_default sm argsort g j bodies m d ue uz cv Hg Hs Hj D0 Hm Hn Hc) as (pts' & Px' & Py' & Fc).
  assert (pts' = pts) by (apply pts_unique; congruence). subst pts'.
  destruct (Ue vue vuz vup U') as ((e0 & Ve0 & _ & Ae0) & (z1 & Vz1 & _ & Az1) & _).
  assert (e0 = ue') by congruence. subst e0. assert (z1 = uz') by congruence. subst z1.
  destruct Nb as (e1 & Ve1 & Ae1 & Zb). cbn [fst snd] in *. destruct (Zb Ne) as (z2 & Vz2 & Az2).
  assert (e1 = e') by congruence. subst e1. assert (z2 = jz') by congruence. subst z2.
  pose proof (m_le1 sm g edgesR bodies m d ue uz cv Ei Hn Hc) as M1.
  destruct (ec_ue _ _ _ _ _ _ Hc) as [Pue Mue]. destruct (ec_uz _ _ _ _ _ _ Hc) as (Puz & _ & Muz).
  pose proof (nth_error_In _ _ Hb) as Ib. specialize (Mue _ Ib). specialize (Muz _ Ib). cbn [fst snd] in *. specialize (Muz Ne).
  assert (Md : 0 <= d <= / 16) by lra.
  pose proof (ratio_acc e' ue' e ue d Pue Md Ae1 Ae0 ltac:(apply Rabs_le; lra)) as Re.
  pose proof (ratio_acc jz' uz' z uz d Puz Md Az2 Az1 Muz) as Rz.
  rewrite u52 in Ae, Fc. rewrite u48 in K1, K2, K3. rewrite u47.
  assert (Rr : Rabs (re - e / ue) <= 3 * d + 2 * u53).
  { replace (re - e / ue) with ((re - e' / ue') + (e' / ue' - e / ue)) by ring. eapply Rle_trans; [apply Rabs_triang|]. lra. }
  destruct (curve_shape m edgesR bodies ue uz cv Pm edgesR_ok Hc) as (Sc & _ & _).
  pose proof (polygon_close m a (3 * d + 2 * u53) pts cv re (e / ue) c' c ltac:(lra) ltac:(lra) Pa Fc Sc Ga Rr I' Ic) as Cc.
  set (t := (12 * d + 64 * u53) / a). set (q := 3 * (3 * d + 2 * u53) / a) in *.
  assert (T : q + 3 * d + 32 * u53 <= t).
  { unfold t, q. apply Rmult_le_reg_r with a; [lra|].
    replace ((3 * (3 * d + 2 * u53) / a + 3 * d + 32 * u53) * a) with (3 * (3 * d + 2 * u53) + (3 * d + 32 * u53) * a) by (field; lra).
    replace ((12 * d + 64 * u53) / a * a) with (12 * d + 64 * u53) by (field; lra). nra. }
  clearbody t q. pose proof (Rabs_triang_inv2 (jz' / uz') (z / uz)) as Ti. pose proof (Rabs_pos rt) as Pr.
  apply Rabs_le_inv in Cc. assert (Rz' := Rz). apply Rabs_le_inv in Rz'. assert (Ti' : Rabs (Rabs (jz' / uz') - Rabs (z / uz)) <= 3 * d) by lra. apply Rabs_le_inv in Ti'.
  assert (Rt : Rabs (rt * (c' - c)) <= Rabs rt * q) by (rewrite Rabs_mult; apply Rmult_le_compat_l; [exact Pr|apply Rabs_le; lra]).
  apply Rabs_le_inv in Rt. assert (Rq : Rabs rt * q <= Rabs rt * t) by (apply Rmult_le_compat_l; lra).
  split; [|split].
  - intros _ H. apply K1. lra.
  - intros _ H1 H2. apply K2; lra.
  - intros _ H1 H2. apply K3; lra.
Qed.

(** Three stars, a dark matter and a gas particle, all values exact. *)
Definition cv_ls : list (Z * Z * Z * (Z * Z)) := [(1,1,0,(-3,2)); (1,1,0,(-41,32)); (4,1,0,(-41,32))]%Z.
Definition cv_ld : list (Z * Z * Z * (Z * Z)) := [(2,1,0,(-81,64))]%Z.
Definition cv_lg : list (Z * Z * Z * (Z * Z)) := [(1,1,0,(-257,512))]%Z.
Definition cv_bodies : list (R * R) := [(-1, 1); (-25 / 32, 1); (-25 / 32, 4); (-49 / 64, 2); (-1 / 512, 1)].
Definition cv_pts : list (option (R * R)) :=
  repeat None 4 ++ [Some (-49 / 64, 1 / 2)] ++ repeat None 32 ++ [Some (-1 / 512, 1 / 4)].

Lemma cv_scaled : map (scaled 1 4) (filter negative cv_bodies) = [(-1, 1 / 4); (-25 / 32, 1 / 4); (-25 / 32, 1); (-49 / 64, 1 / 2); (-1 / 512, 1 / 4)].
Proof.
  unfold cv_bodies, negative. cbn [filter fst]. rewrite !Rlt_bool_true by lra. unfold scaled. cbn [map fst snd].
  rewrite !Rabs_pos_eq by lra. repeat (f_equal; try field).
Qed.


Lemma cv_rows i (y0 y1 y2 y3 y4 : R) : (i < 38)%nat ->
  filter (fun p => inbin edgesR i (fst p)) [(-1, y0); (-25 / 32, y1); (-25 / 32, y2); (-49 / 64, y3); (-1 / 512, y4)] =
  if (i =? 4)%nat then [(-25 / 32, y1); (-25 / 32, y2); (-49 / 64, y3)] else if (i =? 37)%nat then [(-1 / 512, y4)] else [].
Proof.
  intros Li.
  assert (E : forall x, inbin edgesR i x = match nth_error edgesR i with Some lo => Rlt_bool lo x && match nth_error edgesR (S i) with Some hi => Rle_bool x hi | None => true end | None => false end) by reflexivity.
  cbn [filter fst]. rewrite !E. clear E.
  do 38 (destruct i as [|i]; [cbn [edgesR nth_error map seq app INR Nat.eqb];
    repeat match goal with
    | |- context [Rlt_bool ?a ?b] => first [rewrite (Rlt_bool_true a b) by lra|rewrite (Rlt_bool_false a b) by lra]
    | |- context [Rle_bool ?a ?b] => first [rewrite (Rle_bool_true a b) by lra|rewrite (Rle_bool_false a b) by lra]
    end; reflexivity|]). lia.
Qed.
Lemma cv_point m (y0 y1 y2 y3 y4 : R) q i o :
  chosen m [(-25 / 32, y1); (-25 / 32, y2); (-49 / 64, y3)] q ->
  nth_error (repeat None 4 ++ [Some q] ++ repeat None 32 ++ [Some (-1 / 512, y4)]) i = Some o ->
  point m edgesR [(-1, y0); (-25 / 32, y1); (-25 / 32, y2); (-49 / 64, y3); (-1 / 512, y4)] i o.
Proof.
  intros C H. assert (Li : (i < 38)%nat).
  { replace 38%nat with (length (repeat None 4 ++ [Some q] ++ repeat None 32 ++ [Some (-1 / 512, y4)])) by reflexivity. apply nth_error_Some. congruence. }
  unfold point. cbv zeta. rewrite (cv_rows i y0 y1 y2 y3 y4 Li).
  destruct (Nat.eq_dec i 4) as [->|N4]; [|destruct (Nat.eq_dec i 37) as [->|N37]].
  - injection H as <-. change (S 4 <? length edgesR)%nat with true. cbn [Nat.eqb]. cbv iota. exact C.
  - injection H as <-. change (S 37 <? length edgesR)%nat with false. cbn [Nat.eqb]. cbv iota. exists []. split; [reflexivity|intros b []].
  - rewrite (proj2 (Nat.eqb_neq _ _) N4), (proj2 (Nat.eqb_neq _ _) N37).
    do 38 (destruct i as [|i]; [first [lia|injection H as <-; reflexivity]|]). lia.
Qed.
Lemma cv_far (y1 y2 y3 y4 : R) p e : In p [(-25 / 32, y1); (-25 / 32, y2); (-49 / 64, y3); (-1 / 512, y4)] -> In e edgesR -> / 1000 <= Rabs (fst p - e).
Proof.
  intros Hp He. apply In_nth_error in He as [i Hi]. apply edgesR_nth in Hi as [Li ->].
  repeat (destruct Hp as [<-|Hp]; [cbn [fst]; clear - Li; do 38 (destruct i as [|i]; [cbn [Nat.ltb Nat.leb INR];
    (match goal with |- _ <= Rabs ?x => destruct (Rcase_abs x); [rewrite (Rabs_left x) by assumption|rewrite (Rabs_right x) by assumption] end); lra|])|]).
  all: try (exfalso; lia). destruct Hp.
Qed.
Lemma cv_second : chosen (/ 1000) [(-25 / 32, 1 / 4); (-25 / 32, 1); (-49 / 64, 1 / 2)] (-49 / 64, 1 / 2).
Proof.
  apply chosen_second with (-25 / 32, 1) [(-25 / 32, 1 / 4)]; cbn [snd]; [|lra|intros b [<-|[]]; cbn [snd]; lra].
  apply (Permutation_trans (l' := [(-25 / 32, 1); (-25 / 32, 1 / 4); (-49 / 64, 1 / 2)])); [apply perm_swap|apply perm_skip, perm_swap].
Qed.

(** The exact curve of these particles, clear by 1/1000. *)
Example ex_c96_exact : exact_curve (/ 1000) edgesR cv_bodies 1 4 [(-1, 1 / 4); (-49 / 64, 1 / 2); (-1 / 512, 1 / 4)].
Proof.
  constructor.
  - split; [lra|]. intros b Hb. repeat (destruct Hb as [<-|Hb]; [cbn [fst]; lra|]). destruct Hb.
  - split; [lra|]. split.
    + exists (-25 / 32, 4). split; [simpl; auto|]. cbn [fst snd]. split; [lra|]. rewrite Rabs_pos_eq; lra.
    + intros b Hb _. repeat (destruct Hb as [<-|Hb]; [cbn [snd]; rewrite Rabs_pos_eq; lra|]). destruct Hb.
  - intros b Hb. repeat (destruct Hb as [<-|Hb]; [cbn [fst]; rewrite Rabs_left; lra|]). destruct Hb.
  - rewrite cv_scaled. eexists (-1, 1 / 4), _, cv_pts, (-1 / 512, 1 / 4). split; [reflexivity|]. split; [reflexivity|]. split.
    + apply cv_far.
    + split; [reflexivity|]. split; [intros i o; apply cv_point, cv_second|]. split; reflexivity.
Qed.

(** The floating-point galaxy, whose values are exactly these. *)
Definition shown_near (d ue uz : R) (s : spec_float * spec_float) (b : R * R) : Prop :=
  exists e z, shown_val (fst s) = XR e /\ shown_val (snd s) = XR z /\ Rabs (e - fst b) <= d * ue /\ Rabs (z - snd b) <= d * uz.
Lemma near_shown (l : list (orbit F64)) (ss : list (spec_float * spec_float)) bodies d ue uz :
  map (fun o => (fshow (o_e o), fshow (o_jz o))) l = ss -> Forall2 (shown_near d ue uz) ss bodies ->
  Forall2 (near_orbit (F64_rounded (seqsum 53 1024 p53 e1024)) d ue uz) l bodies.
Proof.
  intros <-. revert bodies. induction l as [|o l IH]; intros bodies H; inversion H as [|? b ? bs (e & z & H1 & H2 & H3 & H4) H5]; subst; constructor; [|auto].
  cbn [fst snd] in *. exists e. split; [now rewrite val_shown|]. split; [exact H3|]. intros _. exists z. split; [now rewrite val_shown|exact H4].
Qed.
Ltac show_one e z := exists e, z; cbn [fst snd];
  repeat (match goal with |- context [sZ ?n] => let x := eval vm_compute in (sZ n) in change (sZ n) with x
                        | |- context [sQ ?n ?m] => let x := eval vm_compute in (sQ n m) in change (sQ n m) with x end);
  unfold shown_val, F2R; simpl; (split; [f_equal; lra|]); (split; [f_equal; lra|]); split; apply Rabs_le; lra.
Definition sOrb (g : res (galaxy F64)) : option (list (spec_float * spec_float)) :=
  match g with Ok g => Some (map (fun o => (fshow (o_e o), fshow (o_jz o))) (all_orbits g)) | _ => None end.

(** The hypotheses of C96 are met: with [d = 0] and the margin 1/1000. *)
Example ex_c96 : exists (g : galaxy F64) j, constructible g /\ sorting (@asort F64) /\ jcirc asort g default_bin0 default_bin1 = Ok j /\
  Forall2 (near_orbit (F64_rounded (seqsum 53 1024 p53 e1024)) 0 1 4) (all_orbits g) cv_bodies /\ 16 * 0 + / IZR (2 ^ 44) <= / 1000 /\ gentle (9 / 10) [(-1, 1 / 4); (-49 / 64, 1 / 2); (-1 / 512, 1 / 4)] /\
  length (jc_x j) = 3%nat /\ (forall k, (k < 3)%nat -> (k < plen (g_stars g))%nat) /\
  rmap (fun r => shows (c_labels (fst r))) (decompose asort (jthreshold (fun _ => 77%Z) (default_bin0, default_bin1) (nlit 1 2)) tt g) =
  Ok [sZ 1; sZ 1; S754_nan; S754_nan; S754_nan].
Proof.
  assert (Hc : match lineG (zl cv_ls) (zl cv_ld) (zl cv_lg) with Ok g => match jcirc asort g default_bin0 default_bin1 with
            | Ok j => (sOrb (Ok g), length (jc_x j), plen (g_stars g), Some (rmap (fun r => shows (c_labels (fst r))) (decompose asort (jthreshold (fun _ => 77%Z) (default_bin0, default_bin1) (nlit 1 2)) tt g)))
            | _ => (None, 0%nat, 0%nat, None) end | _ => (None, 0%nat, 0%nat, None) end =
    (Some [(sZ (-1), sZ 1); (sQ (-25) 32, sZ 1); (sQ (-25) 32, sZ 4); (sQ (-49) 64, sZ 2); (sQ (-1) 512, sZ 1)], 3%nat, 3%nat,
     Some (Ok [sZ 1; sZ 1; S754_nan; S754_nan; S754_nan]))) by (vm_compute; reflexivity).
  destruct (lineG (zl cv_ls) (zl cv_ld) (zl cv_lg)) as [g|] eqn:Eg; [|discriminate Hc].
  destruct (jcirc asort g default_bin0 default_bin1) as [j|] eqn:Ej; [|discriminate Hc].
  apply (f_equal (fun t => (fst (fst (fst t)), snd (fst (fst t)), snd (fst t), snd t))) in Hc. cbn [fst snd sOrb] in Hc.
  assert (H1 : map (fun o => (fshow (o_e o), fshow (o_jz o))) (all_orbits g) = [(sZ (-1), sZ 1); (sQ (-25) 32, sZ 1); (sQ (-25) 32, sZ 4); (sQ (-49) 64, sZ 2); (sQ (-1) 512, sZ 1)]) by congruence.
  assert (H2 : length (jc_x j) = 3%nat) by congruence. assert (H3 : plen (g_stars g) = 3%nat) by congruence.
  exists g, j. split; [exact (lineG_ok _ _ _ _ Eg)|]. split; [apply (asort_sorting (F64_rounded (seqsum 53 1024 p53 e1024)))|]. split; [exact Ej|].
  split.
  - apply (near_shown _ _ _ 0 1 4 H1). unfold cv_bodies.
    constructor; [show_one (-1) 1|]. constructor; [show_one (-25 / 32) 1|]. constructor; [show_one (-25 / 32) 4|].
    constructor; [show_one (-49 / 64) 2|]. constructor; [show_one (-1 / 512) 1|]. constructor.
  - split. { rewrite Rmult_0_r, Rplus_0_l. apply Rinv_le_contravar; [lra|apply IZR_le; vm_compute; discriminate]. }
    split. { unfold gentle. apply Sorted_cons; [apply Sorted_cons; [apply Sorted_cons; [apply Sorted_nil|apply HdRel_nil]|apply HdRel_cons]|apply HdRel_cons]; cbn [fst snd]; [rewrite Rabs_left by lra|rewrite Rabs_pos_eq by lra]; lra. }
    split; [exact H2|]. split; [intros k Hk; lia|]. congruence.
Qed.

(** Without a margin it fails: two particles of a bin have the same |Jz| in floating point, and
    exact ones that differ by 2^-60; the code takes the wrong one, and the point of the curve is
    at -49/64 rather than -25/32. *)
Definition tie_ld : list (Z * Z * Z * (Z * Z)) := [(4,1,0,(-81,64))]%Z.
Definition tie_bodies : list (R * R) := [(-1, 1); (-25 / 32, 1); (-25 / 32, 4); (-49 / 64, 4 - / IZR (2 ^ 60)); (-1 / 512, 1)].
Lemma c96_margin_refuted : exists (g : galaxy F64) j bodies d ue uz cv pts,
  constructible g /\ sorting (@asort F64) /\ jcirc asort g default_bin0 default_bin1 = Ok j /\ d = / IZR (2 ^ 60) /\
  Forall2 (near_orbit (F64_rounded (seqsum 53 1024 p53 e1024)) d ue uz) (all_orbits g) bodies /\
  exact_curve 0 edgesR bodies ue uz cv /\
  map (val (F64_rounded (seqsum 53 1024 p53 e1024))) (jc_x j) = map (fun p => XR (fst p)) pts /\
  map (val (F64_rounded (seqsum 53 1024 p53 e1024))) (jc_y j) = map (fun p => XR (snd p)) pts /\
  exists p q, nth_error pts 1 = Some p /\ nth_error cv 1 = Some q /\ / 100 < Rabs (fst p - fst q).
Proof.
  set (t := / IZR (2 ^ 60)). assert (Pt : 0 < t <= / 1000).
  { unfold t. split; [apply Rinv_0_lt_compat, IZR_lt; reflexivity|apply Rinv_le_contravar; [lra|apply IZR_le; vm_compute; discriminate]]. }
  assert (Hc : match lineG (zl cv_ls) (zl tie_ld) (zl cv_lg) with Ok g => match jcirc asort g default_bin0 default_bin1 with
            | Ok j => (sOrb (Ok g), shows (jc_x j), shows (jc_y j))
            | _ => (None, [], []) end | _ => (None, [], []) end =
    (Some [(sZ (-1), sZ 1); (sQ (-25) 32, sZ 1); (sQ (-25) 32, sZ 4); (sQ (-49) 64, sZ 4); (sQ (-1) 512, sZ 1)],
     [sZ (-1); sQ (-49) 64; sQ (-1) 512], [sQ 1 4; sZ 1; sQ 1 4])) by (vm_compute; reflexivity).
  destruct (lineG (zl cv_ls) (zl tie_ld) (zl cv_lg)) as [g|] eqn:Eg; [|discriminate Hc].
  destruct (jcirc asort g default_bin0 default_bin1) as [j|] eqn:Ej; [|discriminate Hc]. cbn [sOrb] in Hc.
  assert (H1 : map (fun o => (fshow (o_e o), fshow (o_jz o))) (all_orbits g) = [(sZ (-1), sZ 1); (sQ (-25) 32, sZ 1); (sQ (-25) 32, sZ 4); (sQ (-49) 64, sZ 4); (sQ (-1) 512, sZ 1)]) by congruence.
  assert (H2 : shows (jc_x j) = [sZ (-1); sQ (-49) 64; sQ (-1) 512]) by congruence.
  assert (H3 : shows (jc_y j) = [sQ 1 4; sZ 1; sQ 1 4]) by congruence. clear Hc.
  exists g, j, tie_bodies, t, 1, 4, [(-1, 1 / 4); (-25 / 32, 1); (-1 / 512, 1 / 4)], [(-1, 1 / 4); (-49 / 64, 1); (-1 / 512, 1 / 4)].
  split; [exact (lineG_ok _ _ _ _ Eg)|]. split; [apply (asort_sorting (F64_rounded (seqsum 53 1024 p53 e1024)))|]. split; [exact Ej|]. split; [reflexivity|].
  split.
  { apply (near_shown _ _ _ t 1 4 H1). unfold tie_bodies. fold t.
    constructor; [show_one (-1) 1|]. constructor; [show_one (-25 / 32) 1|]. constructor; [show_one (-25 / 32) 4|].
    constructor; [show_one (-49 / 64) 4|]. constructor; [show_one (-1 / 512) 1|]. constructor. }
  split.
  { constructor.
    - split; [lra|]. intros b Hb. repeat (destruct Hb as [<-|Hb]; [cbn [fst]; lra|]). destruct Hb.
    - split; [lra|]. split.
      + exists (-25 / 32, 4). split; [simpl; auto|]. cbn [fst snd]. split; [lra|]. rewrite Rabs_pos_eq; lra.
      + intros b Hb _. unfold tie_bodies in Hb. fold t in Hb. repeat (destruct Hb as [<-|Hb]; [cbn [snd]; rewrite Rabs_pos_eq; lra|]). destruct Hb.
    - intros b Hb. rewrite Rmult_0_l. apply Rabs_pos.
    - assert (E : map (scaled 1 4) (filter negative tie_bodies) = [(-1, 1 / 4); (-25 / 32, 1 / 4); (-25 / 32, 1); (-49 / 64, 1 - t / 4); (-1 / 512, 1 / 4)]).
      { unfold tie_bodies, negative. fold t. cbn [filter fst]. rewrite !Rlt_bool_true by lra. unfold scaled. cbn [map fst snd].
        rewrite !Rabs_pos_eq by lra. repeat (f_equal; try field). }
      rewrite E. eexists (-1, 1 / 4), _, (repeat None 4 ++ [Some (-25 / 32, 1)] ++ repeat None 32 ++ [Some (-1 / 512, 1 / 4)]), (-1 / 512, 1 / 4).
      split; [reflexivity|]. split; [reflexivity|]. split; [intros p e Hp He; apply Rabs_pos|].
      split; [reflexivity|]. split; [|split; reflexivity]. intros i o. apply cv_point.
      apply chosen_first with (-49 / 64, 1 - t / 4) [(-25 / 32, 1 / 4)]; cbn [snd]; [|lra|intros b [<-|[]]; cbn [snd]; lra|lra].
      apply (Permutation_trans (l' := [(-25 / 32, 1); (-25 / 32, 1 / 4); (-49 / 64, 1 - t / 4)])); [apply perm_swap|apply perm_skip, perm_swap]. }
  split. { rewrite vals_shown, H2. unfold shown_val, F2R. cbn. repeat (apply f_equal2; [f_equal; lra|]). reflexivity. }
  split. { rewrite vals_shown, H3. unfold shown_val, F2R. cbn. repeat (apply f_equal2; [f_equal; lra|]). reflexivity. }
  exists (-49 / 64, 1), (-25 / 32, 1). split; [reflexivity|]. split; [reflexivity|]. cbn [fst]. rewrite Rabs_pos_eq; lra.
Qed.
