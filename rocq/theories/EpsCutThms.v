(** Which stars are discarded and which are put into the disk, in floating point (C81). *)
From Verif Require Import Py Num RX F64 Np Df Data DataFacts DfFacts RebuildFacts Center CenterFacts Align Spec SpecR SpecCirc SpecAlAcc SpecBase Ex DataThms CenterThms AlignFacts AlignThms Circ CircFacts CurveFacts CircThms OrderThms AlAccFacts CtrAccThms EpsAccFacts EpsAccThms Base Threshold ThresholdThms.
From Flocq Require Import Core.
From Coq Require Import Lra Lia Sorted Floats.SpecFloat.
Local Open Scope R_scope.

Lemma u48 : / IZR (2 ^ 48) = 32 * u53.
Proof. change (2 ^ 53)%Z with (32 * 2 ^ 48)%Z. rewrite mult_IZR. field. apply IZR_neq. discriminate. Qed.
Lemma u52 : / IZR (2 ^ 52) = 2 * u53.
Proof. change (2 ^ 53)%Z with (2 * 2 ^ 52)%Z. rewrite mult_IZR. field. apply IZR_neq. discriminate. Qed.

Section Cut.
Context (sm : list f64 -> f64).
Local Notation RN := (F64_rounded sm).
Local Notation v := (val (F64_rounded sm)).

(** A quotient of which numerator is smaller than the denominator. *)
Lemma quot_below (z c : F64s sm) rz r : v z = XR rz -> v c = XR r -> Rabs rz < r ->
  exists w, v (z / c)%num = XR w /\ -1 <= w <= 1.
Proof.
  intros Z C H. pose proof (Rabs_pos rz).
  assert (Q : v (z / c)%num = rnd RN (XR (rz / r))).
  { rewrite (val_div RN); rewrite C; [|intros [= E]; lra]. rewrite Z. simpl. destruct (Req_EM_T r 0); [lra|reflexivity]. }
  assert (B : -1 <= rz / r <= 1).
  { apply Rabs_le_inv. unfold Rdiv. rewrite Rabs_mult, Rabs_inv, (Rabs_pos_eq r) by lra.
    apply Rmult_le_reg_r with r; [lra|]. rewrite Rmult_assoc, Rinv_l by lra. lra. }
  assert (L : xle (v (z / c)%num) (XR 1)).
  { rewrite Q.
    replace (XR 1) with (rnd RN (XR (IZR 1))) by (apply (rnd_int RN); vm_compute; discriminate). apply (rnd_mono RN). simpl. lra. }
  assert (G : xle (XR (-1)) (v (z / c)%num)).
  { rewrite Q. replace (XR (-1)) with (rnd RN (XR (IZR (-1)))) by (apply (rnd_int RN); vm_compute; discriminate). apply (rnd_mono RN). simpl. lra. }
  destruct (v (z / c)%num) as [w| | |]; simpl in L, G; try contradiction. eauto.
Qed.

(** A star that is bound, in a galaxy where some bound particle has energy and some has Jz. *)
Lemma star_core argsort (g : galaxy (F64s sm)) b0 b1 l0 l1 j k o :
  constructible g -> sorting argsort ->
  arange nm1 (nlit (-1) 10) b0 = Ok l0 -> arange (nlit (-1) 10) n0 b1 = Ok l1 ->
  nth_error (l0 ++ l1) 0 = Some nm1 ->
  (forall i k a b, (i < k)%nat -> nth_error (l0 ++ l1) i = Some a -> nth_error (l0 ++ l1) k = Some b -> nle a b = true) ->
  (forall a, In a (l0 ++ l1) -> nle a (nlit (-1) (2 ^ 40)) = true) ->
  jcirc argsort g b0 b1 = Ok j ->
  (forall o, In o (all_orbits g) -> bound o = true -> nfin (o_jz o) = true) ->
  (exists o, In o (all_orbits g) /\ bound o = true /\ neqb (o_e o) n0 = false) ->
  (exists o, In o (all_orbits g) /\ bound o = true /\ neqb (o_jz o) n0 = false) ->
  nth_error (star_orbits g) k = Some o -> bound o = true ->
  exists vue vuz vup ue uz e jz re pts c w,
    units g vue vuz vup /\ v vue = XR ue /\ v vuz = XR uz /\ 0 < ue /\ 0 < uz /\ v (o_e o) = XR e /\ v (o_jz o) = XR jz /\
    Rabs (re - e / ue) <= / IZR (2 ^ 52) /\
    map v (jc_x j) = map (fun p => XR (fst p)) pts /\ map v (jc_y j) = map (fun p => XR (snd p)) pts /\
    interpolates pts re c /\ 0 <= c <= 1 /\ nth_error (jc_eps j) k = Some w /\
    (Rabs (jz / uz) < c - / IZR (2 ^ 48) -> nth_error (jc_E j) k = Some (o_e o / vue)%num /\ v (o_e o / vue)%num = XR re /\
       exists rw, v w = XR rw /\ -1 <= rw <= 1) /\
    (forall rw, v w = XR rw -> -1 <= rw <= 1 /\ Rabs (rw * c - jz / uz) <= / IZR (2 ^ 48)) /\
    (c + / IZR (2 ^ 48) < Rabs (jz / uz) -> nisnan w = true).
Proof.
  intros Hg Hs A0 A1 Hf Hle Htop Hj Hz [oe [Ie [Be Ne]]] [oj [Ij [Bj Nj]]] Ho Bo.
  pose proof (proj1 (constructible_ok g) Hg) as Hok.
  destruct (jcirc_inv RN _ _ _ _ _ Hok Hj) as (c & edges & U & Hb & Hc & Hn & Pf & Ej).
  assert (edges = l0 ++ l1) as ->.
  { destruct (bin_edges_split _ _ _ Hb) as (k0 & k1 & B0 & B1 & ->). congruence. }
  assert (Fz : forall o', In o' (all_orbits g) -> bound o' = true -> exists jz, v (o_jz o') = XR jz).
  { intros o' H1 H2. specialize (Hz o' H1 H2). rewrite (val_fin RN) in Hz. destruct (v (o_jz o')) as [jz| | |]; try discriminate Hz. eauto. }
  assert (Iall : In o (filter bound (all_orbits g))).
  { apply filter_In. split; [apply star_in_all; eapply nth_error_In; eauto|exact Bo]. }
  assert (Io : In o (all_orbits g)) by (apply filter_In in Iall; apply Iall).
  assert (N0 : forall x : F64s sm, v x = XR 0 -> neqb x n0 = true).
  { intros x X. apply (neqb_iff RN). rewrite X, (val_n0 RN). split; [reflexivity|discriminate]. }
  (* units *)
  destruct (unit_e _ _ _ _ U) as (em & [[oem [Iem Eem]] Mem] & Ue). apply filter_In in Iem as [Iem Bem].
  destruct (bound_val RN oem Bem) as (rem & Vem & Lem). rewrite Eem in Vem.
  assert (Vue : v (s_e c) = XR (Rabs rem)) by (rewrite Ue, (val_abs RN), Vem; reflexivity).
  assert (Pue : 0 < Rabs rem).
  { apply Rabs_pos_lt. intros ->. destruct Mem as [M|M]; [apply (nisnan_iff RN) in M; congruence|].
    destruct (bound_val RN oe Be) as (r & Vr & Lr). specialize (M oe (proj2 (filter_In _ _ _) (conj Ie Be))).
    apply (nle_iff RN) in M. rewrite Vem, Vr in M. simpl in M. assert (r = 0) by lra. subst r. apply N0 in Vr. congruence. }
  destruct (unit_z _ _ _ _ U) as [[oz [Iz Ez]] Mz]. apply filter_In in Iz as [Iz Bz].
  destruct (Fz oz Iz Bz) as (jzm & Vjz). destruct (Fz o Io Bo) as (jz & Vjo). destruct (Fz oj Ij Bj) as (jj & Vjj).
  assert (Vuz : v (s_z c) = XR (Rabs jzm)) by (rewrite <- Ez, (val_abs RN), Vjz; reflexivity).
  assert (Puz : 0 < Rabs jzm).
  { apply Rabs_pos_lt. intros ->. rewrite Rabs_R0 in Vuz. destruct Mz as [M|M]; [apply (nisnan_iff RN) in M; congruence|].
    specialize (M oj (proj2 (filter_In _ _ _) (conj Ij Bj))). apply (nle_iff RN) in M. rewrite (val_abs RN), Vjj, Vuz in M. simpl in M.
    assert (jj = 0) by (destruct (Req_EM_T jj 0) as [|Z]; [assumption|]; apply Rabs_pos_lt in Z; lra). subst jj.
    apply N0 in Vjj. congruence. }
  assert (Hr : rising (l0 ++ l1)) by (split; assumption).
  destruct (at_bound sm argsort g (l0 ++ l1) c o _ _ Hs Hr Htop U Hc Hn Hz Vue Pue Vuz Puz Iall)
    as (pts & re & r & jc & Ve & Er & Fp & Vr & Int & Aj & Bjc).
  destruct (bound_val RN o Bo) as (e & Vo & _).
  destruct (unit_acc sm _ _ _ _ _ Vo Vue Ve) as [_ Ae]; [apply Rabs_le; lra|].
  (* Jz *)
  destruct (within_real sm nm1 n1 (o_jz o / s_z c)%num (-1) 1 (z_within RN _ _ o (unit_z _ _ _ _ U) Iall)) as (rz & Vz & Bz');
    [apply (val_nm1 RN)|apply (val_n1 RN)| |].
  { apply (nisnan_false RN). rewrite (val_div RN); rewrite Vuz; [|intros [= Q]; lra]. rewrite Vjo. simpl.
    destruct (Req_EM_T (Rabs jzm) 0) as [Z|_]; [lra|]. intros Q. apply (rnd_not_nan RN) in Q. discriminate. }
  destruct (unit_acc sm _ _ _ _ _ Vjo Vuz Vz) as [_ Az]; [apply Rabs_le; lra|].
  rewrite u52 in Az. pose proof u53_pos as P53.
  set (raw := (o_jz o / s_z c / interp1 (s_pts c) (o_e o / s_e c))%num).
  subst j. cbn [jc_E jc_Jz jc_eps jc_x jc_y jc_eps_r result] in *.
  exists (s_e c), (s_z c), (s_p c), (Rabs rem), (Rabs jzm), e, jz, re, pts, jc, (if out_of_range raw then nnan else raw).
  assert (Small : forall rw, v (if out_of_range raw then nnan else raw) = XR rw -> -1 <= rw <= 1 /\ Rabs (rw * jc - jz / Rabs jzm) <= / IZR (2 ^ 48)).
  { intros rw Vw. destruct (out_of_range raw) eqn:Oo; [rewrite (val_nnan RN) in Vw; discriminate Vw|].
    assert (Wr : -1 <= rw <= 1).
    { unfold out_of_range in Oo. apply orb_false_iff in Oo as [O1 O2]. apply (nlt_false RN) in O1, O2.
      rewrite Vw, (v_n1 RN) in O1. rewrite Vw, (val_nm1 RN) in O2. simpl in O1, O2. lra. }
    split; [exact Wr|].
    assert (Rr : Rabs r <= 2).
    { replace r with ((r - jc) + jc) by ring. eapply Rle_trans; [apply Rabs_triang|]. rewrite (Rabs_pos_eq jc) by lra. lra. }
    destruct (quot_acc sm _ _ _ _ _ Vz Vr Vw) as [_ Q]; [|apply Rabs_le; lra|exact Rr|].
    { apply Rle_trans with 1; [apply Rabs_le; lra|apply IZR_le; vm_compute; discriminate]. }
    rewrite u48. replace (rw * jc - jz / Rabs jzm) with ((rw * r - rz) + (rw * (jc - r) + (rz - jz / Rabs jzm))) by ring.
    eapply Rle_trans; [apply Rabs_triang|]. pose proof (Rabs_triang (rw * (jc - r)) (rz - jz / Rabs jzm)) as T.
    rewrite (Rabs_mult rw), (Rabs_minus_sym jc r) in T. assert (Rabs rw <= 1) by (apply Rabs_le; lra).
    pose proof (Rabs_pos rw). pose proof (Rabs_pos (r - jc)). nra. }
  split; [exact U|]. split; [exact Vue|]. split; [exact Vuz|]. split; [exact Pue|]. split; [exact Puz|]. split; [exact Vo|].
  split; [exact Vjo|]. split; [exact Ae|].
  split. { rewrite map_map. clear - Fp. induction Fp as [|? ? ? ? [P _] _ IH]; cbn [map]; [reflexivity|]. f_equal; [exact P|exact IH]. }
  split. { rewrite map_map. clear - Fp. induction Fp as [|? ? ? ? [_ P] _ IH]; cbn [map]; [reflexivity|]. f_equal; [exact P|exact IH]. }
  split; [exact Int|]. split; [exact Bjc|].
  assert (Kb : kb (krow_of o) = true) by exact Bo.
  assert (Kp : keep c (krow_of o) = negb (out_of_range raw)).
  { unfold keep. rewrite Kb. cbn [andb]. f_equal. }
  split. { rewrite map_map, nth_error_map, Ho. cbn [option_map]. unfold kept. rewrite Kp. destruct (out_of_range raw); reflexivity. }
  split; [|split; [exact Small|]].
  - intros Hlt. rewrite u48 in Hlt.
    assert (Lr : Rabs rz < r).
    { apply Rabs_le_inv in Aj. replace rz with ((rz - jz / Rabs jzm) + jz / Rabs jzm) by ring.
      eapply Rle_lt_trans; [apply Rabs_triang|]. lra. }
    destruct (quot_below _ _ _ _ Vz Vr Lr) as (rw & Vw & Bw). fold raw in Vw.
    assert (Oo : out_of_range raw = false).
    { unfold out_of_range. apply orb_false_iff. split; apply (nlt_false RN).
      - rewrite Vw, (v_n1 RN). simpl. lra.
      - rewrite Vw, (val_nm1 RN). simpl. lra. }
    split. { rewrite map_map, nth_error_map, Ho. cbn [option_map]. unfold kept. rewrite Kp, Oo. reflexivity. }
    split; [exact Ve|]. exists rw. rewrite Oo. split; assumption.
  - intros Hgt. destruct (out_of_range raw) eqn:Oo; [apply (nisnan_iff RN), (val_nnan RN)|].
    pose proof (Rabs_pos (jz / Rabs jzm)).
    destruct (v raw) as [rw| | |] eqn:Vw; [exfalso|exfalso|exfalso|].
    + destruct (Small rw eq_refl) as [B1 B2].
      assert (Rabs (jz / Rabs jzm) <= Rabs (rw * jc) + / IZR (2 ^ 48)).
      { replace (jz / Rabs jzm) with (rw * jc - (rw * jc - jz / Rabs jzm)) at 1 by ring.
        unfold Rminus at 1. eapply Rle_trans; [apply Rabs_triang|]. rewrite Rabs_Ropp. lra. }
      assert (Rabs (rw * jc) <= jc).
      { rewrite Rabs_mult, (Rabs_pos_eq jc) by lra. assert (Rabs rw <= 1) by (apply Rabs_le; lra). nra. }
      lra.
    + unfold out_of_range in Oo. apply orb_false_iff in Oo as [O1 _]. apply (nlt_false RN) in O1. rewrite Vw, (v_n1 RN) in O1.
      exact (O1 I).
    + unfold out_of_range in Oo. apply orb_false_iff in Oo as [_ O1]. apply (nlt_false RN) in O1. rewrite Vw, (val_nm1 RN) in O1.
      exact (O1 I).
    + now apply (nisnan_iff RN).
Qed.
End Cut.

(** *** C81 *)

(** With the default bins: let c be the value of the stored curve, interpolated with real
    arithmetic, at the rounded energy of a bound star, and jz/uz its exact normalised Jz.  A
    star with |jz/uz| below c by 2^-48 keeps its energy and circularity, one with |jz/uz|
    above c by 2^-48 is discarded. *)
Lemma c81_kept : forall sm argsort (g : galaxy (F64s sm)) j k o,
  constructible g -> sorting argsort -> jcirc argsort g default_bin0 default_bin1 = Ok j ->
  (forall o, In o (all_orbits g) -> bound o = true -> nfin (o_jz o) = true) ->
  (exists o, In o (all_orbits g) /\ bound o = true /\ neqb (o_e o) n0 = false) ->
  (exists o, In o (all_orbits g) /\ bound o = true /\ neqb (o_jz o) n0 = false) ->
  nth_error (star_orbits g) k = Some o -> bound o = true ->
  exists vue vuz vup ue uz e jz re pts c en w,
    units g vue vuz vup /\ val (F64_rounded sm) vue = XR ue /\ val (F64_rounded sm) vuz = XR uz /\ 0 < ue /\ 0 < uz /\
    val (F64_rounded sm) (o_e o) = XR e /\ val (F64_rounded sm) (o_jz o) = XR jz /\
    Rabs (re - e / ue) <= / IZR (2 ^ 52) /\
    map (val (F64_rounded sm)) (jc_x j) = map (fun p => XR (fst p)) pts /\
    map (val (F64_rounded sm)) (jc_y j) = map (fun p => XR (snd p)) pts /\
    interpolates pts re c /\ 0 <= c <= 1 /\ nth_error (jc_E j) k = Some en /\ nth_error (jc_eps j) k = Some w /\
    (Rabs (jz / uz) < c - / IZR (2 ^ 48) -> val (F64_rounded sm) en = XR re /\ nfin w = true) /\
    (forall rw, val (F64_rounded sm) w = XR rw -> Rabs (rw * c - jz / uz) <= / IZR (2 ^ 48)) /\
    (c + / IZR (2 ^ 48) < Rabs (jz / uz) -> nisnan w = true).
Proof.
  intros sm argsort g j k o Hg Hs Hj Hz He Hn Ho Bo. destruct (default_ranges sm) as (l0 & l1 & A0 & A1 & F & M & T).
  destruct (star_core sm argsort g _ _ l0 l1 j k o Hg Hs A0 A1 F M T Hj Hz He Hn Ho Bo)
    as (vue & vuz & vup & ue & uz & e & jz & re & pts & c & w & U & V1 & V2 & P1 & P2 & V3 & V4 & Ae & Px & Py & I & B & Hw & K & S & D).
  pose proof (c31_lengths _ (F64_rounded sm) argsort g _ _ j Hg Hj) as L.
  assert (exists en, nth_error (jc_E j) k = Some en) as [en En].
  { apply nth_error_lt. destruct L as (L1 & L2 & _). rewrite L1, <- L2. apply nth_error_Some. congruence. }
  exists vue, vuz, vup, ue, uz, e, jz, re, pts, c, en, w.
  repeat (split; [assumption|]). split; [|split; [|exact D]].
  - intros Q. destruct (K Q) as (E1 & E2 & rw & Vw & _). split; [congruence|]. rewrite (val_fin (F64_rounded sm)), Vw. reflexivity.
  - intros rw Vw. exact (proj2 (S rw Vw)).
Qed.

(** JThreshold with the default bins and any finite cut: a bound star is put into the disk or
    the spheroid, or left out, as exact arithmetic tells, unless |jz/uz| is within 2^-48 of c
    or jz/uz within 2^-48 of cut * c. *)
Lemma c81_labels : forall sm argsort junk (cut : F64s sm) rt (g : galaxy (F64s sm)) cs st' k o,
  constructible g -> sorting argsort -> val (F64_rounded sm) cut = XR rt ->
  decompose argsort (jthreshold junk (default_bin0, default_bin1) cut) tt g = Ok (cs, st') ->
  (forall o, In o (all_orbits g) -> bound o = true -> nfin (o_jz o) = true) ->
  (exists o, In o (all_orbits g) /\ bound o = true /\ neqb (o_e o) n0 = false) ->
  (exists o, In o (all_orbits g) /\ bound o = true /\ neqb (o_jz o) n0 = false) ->
  nth_error (star_orbits g) k = Some o -> bound o = true ->
  exists j vue vuz vup ue uz e jz re pts c w,
    jcirc argsort g default_bin0 default_bin1 = Ok j /\
    units g vue vuz vup /\ val (F64_rounded sm) vue = XR ue /\ val (F64_rounded sm) vuz = XR uz /\ 0 < ue /\ 0 < uz /\
    val (F64_rounded sm) (o_e o) = XR e /\ val (F64_rounded sm) (o_jz o) = XR jz /\
    Rabs (re - e / ue) <= / IZR (2 ^ 52) /\
    map (val (F64_rounded sm)) (jc_x j) = map (fun p => XR (fst p)) pts /\
    map (val (F64_rounded sm)) (jc_y j) = map (fun p => XR (snd p)) pts /\
    interpolates pts re c /\ 0 <= c <= 1 /\ nth_error (c_labels cs) k = Some w /\
    (c + / IZR (2 ^ 48) < Rabs (jz / uz) -> w = nnan) /\
    (Rabs (jz / uz) < c - / IZR (2 ^ 48) -> rt * c + / IZR (2 ^ 48) < jz / uz -> w = nofZ 1) /\
    (Rabs (jz / uz) < c - / IZR (2 ^ 48) -> jz / uz < rt * c - / IZR (2 ^ 48) -> w = nofZ 0).
Proof.
  intros sm argsort junk cut rt g cs st' k o Hg Hs Vc Hd Hz He Hn Ho Bo.
  assert (Nc : nisnan cut = false) by (apply (nisnan_false (F64_rounded sm)); rewrite Vc; discriminate).
  destruct (c40_rule _ (F64_rounded sm) argsort junk _ cut g cs st' Hg Nc Hd) as (_ & j & Hj & R). cbn [fst snd] in Hj.
  destruct (c81_kept sm argsort g j k o Hg Hs Hj Hz He Hn Ho Bo)
    as (vue & vuz & vup & ue & uz & e & jz & re & pts & c & en & w & U & V1 & V2 & P1 & P2 & V3 & V4 & Ae & Px & Py & I & B & _ & Hw & K & S & D).
  assert (Lk : (k < plen (g_stars g))%nat).
  { destruct (c31_lengths _ (F64_rounded sm) argsort g _ _ j Hg Hj) as (_ & L & _). rewrite <- L. apply nth_error_Some. congruence. }
  destruct (R k (g_stars g) k (located_intro g [] (g_stars g) _ k eq_refl Lk)) as (x & Hx & Rs & _).
  destruct (proj1 (constructible_ok g) Hg) as (_ & _ & _ & Hm). apply mk_galaxy_inv in Hm as (_ & _ & _ & Ty & _).
  destruct (Rs Ty) as (w' & Hw' & Cs). rewrite Hw in Hw'. injection Hw' as <-.
  exists j, vue, vuz, vup, ue, uz, e, jz, re, pts, c, x. repeat (split; [assumption|]).
  assert (Nf : nisnan w = true -> nfin w = false).
  { intros Q. apply (nisnan_iff (F64_rounded sm)) in Q. now rewrite (val_fin (F64_rounded sm)), Q. }
  split; [|split].
  - intros Q. specialize (Nf (D Q)). destruct Cs as [(C & _)|[(C & _)|(_ & C)]]; [congruence|congruence|exact C].
  - intros Q1 Q2. destruct (K Q1) as [_ Fw]. destruct Cs as [(_ & _ & C)|[(_ & C & _)|(C & _)]]; [exact C|exfalso|congruence].
    rewrite (val_fin (F64_rounded sm)) in Fw. destruct (val (F64_rounded sm) w) as [rw| | |] eqn:Vw; try discriminate Fw.
    specialize (S rw eq_refl). apply Rabs_le_inv in S. apply (nle_iff (F64_rounded sm)) in C. rewrite Vw, Vc in C. simpl in C. nra.
  - intros Q1 Q2. destruct (K Q1) as [_ Fw]. destruct Cs as [(_ & C & _)|[(_ & _ & C)|(C & _)]]; [exfalso|exact C|congruence].
    rewrite (val_fin (F64_rounded sm)) in Fw. destruct (val (F64_rounded sm) w) as [rw| | |] eqn:Vw; try discriminate Fw.
    specialize (S rw eq_refl). apply Rabs_le_inv in S. apply (nlt_iff (F64_rounded sm)) in C. rewrite Vw, Vc in C. simpl in C. nra.
Qed.

(** Three stars, a dark matter and a gas particle, all values exact. *)
Definition cut_ls : list (Z * Z * Z * (Z * Z)) := [(1,1,0,(-3,2)); (1,1,0,(-41,32)); (4,1,0,(-41,32))]%Z.
Definition cut_ld : list (Z * Z * Z * (Z * Z)) := [(2,1,0,(-5,4))]%Z.
Definition cut_lg : list (Z * Z * Z * (Z * Z)) := [(1,1,0,(-257,512))]%Z.

(** The hypotheses of C81 hold, and the curve has the points (-1, 1/4), (-3/4, 1/2) and
    (-1/512, 1/4). *)
Example ex_c81 : exists (g : galaxy F64) j, constructible g /\ jcirc asort g default_bin0 default_bin1 = Ok j /\
  (forall o, In o (all_orbits g) -> bound o = true /\ nfin (o_jz o) = true /\ neqb (o_e o) n0 = false /\ neqb (o_jz o) n0 = false) /\
  shows (map o_e (star_orbits g)) = [sZ (-1); sQ (-25) 32; sQ (-25) 32] /\ shows (map o_jz (star_orbits g)) = [sZ 1; sZ 1; sZ 4] /\
  shows (jc_x j) = [sZ (-1); sQ (-3) 4; sQ (-1) 512] /\ shows (jc_y j) = [sQ 1 4; sQ 1 2; sQ 1 4].
Proof.
  assert (Hc : match lineG (zl cut_ls) (zl cut_ld) (zl cut_lg) with Ok g => match jcirc asort g default_bin0 default_bin1 with
            | Ok j => (forallb (fun o => bound o && (nfin (o_jz o) && (negb (neqb (o_e o) n0) && negb (neqb (o_jz o) n0)))) (all_orbits g),
                 Some (shows (map o_e (star_orbits g)), shows (map o_jz (star_orbits g)), shows (jc_x j), shows (jc_y j))) | _ => (false, None) end | _ => (false, None) end =
    (true, Some ([sZ (-1); sQ (-25) 32; sQ (-25) 32], [sZ 1; sZ 1; sZ 4], [sZ (-1); sQ (-3) 4; sQ (-1) 512], [sQ 1 4; sQ 1 2; sQ 1 4])))
    by (vm_compute; reflexivity).
  destruct (lineG (zl cut_ls) (zl cut_ld) (zl cut_lg)) as [g|] eqn:Eg; [|discriminate Hc].
  destruct (jcirc asort g default_bin0 default_bin1) as [j|] eqn:Ej; [|discriminate Hc].
  injection Hc as Hb H1 H2 H3 H4. exists g, j. split; [exact (lineG_ok _ _ _ _ Eg)|]. split; [exact Ej|]. split; [|auto].
  intros o Io. rewrite forallb_forall in Hb. specialize (Hb o Io). apply andb_prop in Hb as [B1 Hb]. apply andb_prop in Hb as [B2 Hb].
  apply andb_prop in Hb as [B3 B4]. apply negb_true_iff in B3, B4. auto.
Qed.

(** There c is 15/32 at the energy of the last two stars and uz is 4: the last one, with
    jz/uz = 1, is left out, and the one before, with jz/uz = 1/4, is in the disk for the cut 1/2
    and in the spheroid for the cut 3/5, as C81 says. *)
Example ex_c81_margins :
  interpolates [(-1, 1 / 4); (-3 / 4, 1 / 2); (-1 / 512, 1 / 4)] (-25 / 32) (15 / 32) /\
  15 / 32 + / IZR (2 ^ 48) < Rabs (4 / 4) /\ Rabs (1 / 4) < 15 / 32 - / IZR (2 ^ 48) /\
  1 / 2 * (15 / 32) + / IZR (2 ^ 48) < 1 / 4 /\ 1 / 4 < 3 / 5 * (15 / 32) - / IZR (2 ^ 48) /\
  map (fun cut => rmap (fun r => shows (c_labels (fst r)))
         (do g <- lineG (zl cut_ls) (zl cut_ld) (zl cut_lg);
          decompose asort (jthreshold (fun _ => 77%Z) (default_bin0, default_bin1) cut) tt g)) [nlit 1 2; nlit 3 5] =
  [Ok [sZ 1; sZ 1; S754_nan; S754_nan; S754_nan]; Ok [sZ 1; sZ 0; S754_nan; S754_nan; S754_nan]].
Proof.
  assert (S : / IZR (2 ^ 48) < / 1000) by (apply Rinv_lt_contravar; [apply Rmult_lt_0_compat; [lra|apply IZR_lt; reflexivity]|apply IZR_lt; reflexivity]).
  split. { replace (15 / 32) with (1 / 4 + (1 / 2 - 1 / 4) * ((-25 / 32 - -1) / (-3 / 4 - -1))) by field. apply int_seg; lra. }
  split; [rewrite Rabs_pos_eq by lra; lra|]. split; [rewrite Rabs_pos_eq by lra; lra|]. split; [lra|]. split; [lra|].
  vm_compute. reflexivity.
Qed.
