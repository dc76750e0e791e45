(** Errors of the totals before and after the rotation, and the outcome of the check. *)
From Flocq Require Import Core.
From Coq Require Import Lra Lia.
From Verif Require Import Py Num RX Np Df Data DataFacts Center Align Spec DataThms CenterThms AlignFacts AlignThms SpecR SpecAlAcc AlAccFacts AlAccRot.
Local Open Scope R_scope.
Local Notation e := (bpow radix2).

(** ** Real numbers *)
Definition nrm (a b c : R) : R := sqrt (a * a + b * b + c * c).
Lemma nrm_sq a b c : nrm a b c * nrm a b c = a * a + b * b + c * c.
Proof. apply sqrt_sqrt. nra. Qed.
Lemma nrm_pos a b c : 0 <= nrm a b c.
Proof. apply sqrt_pos. Qed.
Lemma nrm_ge a b c : Rabs a <= nrm a b c /\ Rabs b <= nrm a b c /\ Rabs c <= nrm a b c.
Proof.
  pose proof (nrm_sq a b c). pose proof (nrm_pos a b c).
  repeat split; apply Rabs_le; split; nra.
Qed.
Lemma abs_prod a d n : Rabs a <= n -> 2 * (a * d) <= 2 * (n * Rabs d).
Proof.
  intros H. apply Rmult_le_compat_l; [lra|]. apply Rle_trans with (Rabs (a * d)); [apply Rle_abs|].
  rewrite Rabs_mult. apply Rmult_le_compat_r; [apply Rabs_pos|exact H].
Qed.
Lemma nrm_diff x y z a b c : nrm x y z <= nrm a b c + (Rabs (x - a) + Rabs (y - b) + Rabs (z - c)).
Proof.
  destruct (nrm_ge a b c) as (A & B & C). pose proof (nrm_pos a b c) as P. pose proof (nrm_sq a b c) as Q.
  set (n := nrm a b c) in *. unfold nrm.
  pose proof (Rabs_pos (x - a)) as P1. pose proof (Rabs_pos (y - b)) as P2. pose proof (Rabs_pos (z - c)) as P3.
  apply Rsqr_incr_0_var; [|lra]. rewrite Rsqr_sqrt by nra. unfold Rsqr.
  pose proof (abs_prod a (x - a) n A) as H1. pose proof (abs_prod b (y - b) n B) as H2. pose proof (abs_prod c (z - c) n C) as H3.
  assert (S : forall d, d * d = Rabs d * Rabs d) by (intros d; unfold Rabs; destruct (Rcase_abs d); ring).
  pose proof (S (x - a)) as S1. pose proof (S (y - b)) as S2. pose proof (S (z - c)) as S3.
  set (d1 := Rabs (x - a)) in *. set (d2 := Rabs (y - b)) in *. set (d3 := Rabs (z - c)) in *.
  replace (x * x) with (a * a + 2 * (a * (x - a)) + (x - a) * (x - a)) by ring.
  replace (y * y) with (b * b + 2 * (b * (y - b)) + (y - b) * (y - b)) by ring.
  replace (z * z) with (c * c + 2 * (c * (z - c)) + (z - c) * (z - c)) by ring.
  rewrite S1, S2, S3. pose proof (Rmult_le_pos _ _ P1 P2). pose proof (Rmult_le_pos _ _ P1 P3). pose proof (Rmult_le_pos _ _ P2 P3).
  replace ((n + (d1 + d2 + d3)) * (n + (d1 + d2 + d3))) with
    (n * n + 2 * (n * d1) + 2 * (n * d2) + 2 * (n * d3) + d1 * d1 + d2 * d2 + d3 * d3 + 2 * (d1 * d2) + 2 * (d1 * d3) + 2 * (d2 * d3)) by ring.
  lra.
Qed.
Lemma Rsum_tri l m k : Forall2 (fun v rw => Rabs (v - fst rw) <= k * snd rw /\ Rabs (fst rw) <= snd rw) l m ->
  Rabs (Rsum l - Rsum (map fst m)) <= k * Rsum (map snd m).
Proof.
  induction 1 as [|v rw l m (H & _) F IH]; cbn [Rsum map fold_right] in *; [rewrite Rminus_0_r, Rabs_R0; lra|].
  fold (Rsum l) (Rsum (map fst m)) (Rsum (map snd m)) in *.
  replace (v + Rsum l - (fst rw + Rsum (map fst m))) with ((v - fst rw) + (Rsum l - Rsum (map fst m))) by ring.
  eapply Rle_trans; [apply Rabs_triang|]. lra.
Qed.
Lemma Rsum_abs l m k : Forall2 (fun v rw => Rabs (v - fst rw) <= k * snd rw /\ Rabs (fst rw) <= snd rw) l m ->
  Rsum (map Rabs l) <= (1 + k) * Rsum (map snd m).
Proof.
  induction 1 as [|v rw l m (H & H') F IH]; cbn [Rsum map fold_right] in *; [lra|].
  fold (Rsum (map Rabs l)) (Rsum (map snd m)) in *.
  assert (Rabs v <= Rabs (v - fst rw) + Rabs (fst rw)) by (replace v with ((v - fst rw) + fst rw) at 1 by ring; apply Rabs_triang). lra.
Qed.
Lemma sumR_Rsum f l : sumR f l = Rsum (map f l).
Proof. unfold sumR, Rsum. induction l; simpl; congruence. Qed.
Lemma sumR_scale c f l : sumR (fun q => c * f q) l = c * sumR f l.
Proof. induction l as [|q l IH]; cbn [sumR fold_right]; [ring|]. fold (sumR (fun q => c * f q) l) (sumR f l). rewrite IH. ring. Qed.
Lemma inside_none l : filter (inside None) l = l.
Proof. induction l as [|q l IH]; simpl; congruence. Qed.

Lemma weights_range l : (forall q, In q l -> bounded q) -> (l <> [] -> e (-300) <= weights l) /\ 0 <= weights l <= INR (length l) * e 300.
Proof.
  induction l as [|q l IH]; intros B; [split; [congruence|unfold weights; simpl; lra]|].
  destruct (IH (fun q H => B q (or_intror H))) as (_ & L & H). pose proof (weight_range q (B q (or_introl eq_refl))) as (W1 & W2).
  pose proof (bpow_gt_0 radix2 (-300)). unfold weights in *. cbn [sumR fold_right length]. fold (sumR weight l). rewrite S_INR.
  split; [intros _|]; lra.
Qed.

Section Sum.
Context {S : Num} (RS : Rounded S).
Variable u : R.
Variable K : nat -> R.
Hypothesis U : graceful RS u.
Hypothesis U0 : 0 < u.
Hypothesis U1 : u <= e (-40).
Hypothesis UK : sums_well RS u K.
Local Notation ap := (ap RS u).
Local Notation ap_body := (ap_body RS u).

(** A sum over all particles. *)
Lemma sum_err k c (f : body S -> S) (r : particle -> R) bs l :
  Forall2 (fun b q => ap k (c * weight q) (f b) (r q)) bs l -> (forall q, In q l -> bounded q) -> INR (length l) <= e 20 ->
  0 <= K (length l) <= e 21 -> 1 <= c <= 32 -> 0 <= k <= 100000 -> l <> [] ->
  exists s, val RS (nsum (map f bs)) = XR s /\ Rabs (s - sumR r l) <= (k + 2 * K (length l)) * c * u * weights l.
Proof.
  intros F B HN HK C Hk NE. pose proof (small u U0 U1 k Hk) as Ku.
  assert (V : exists vs, map (val RS) (map f bs) = map XR vs /\
    Forall2 (fun v rw => Rabs (v - fst rw) <= k * u * snd rw /\ Rabs (fst rw) <= snd rw) vs (map (fun q => (r q, c * weight q)) l)).
  { clear - F. induction F as [|b q bs l (v & E & A & A') F (vs & IE & IH)]; [exists []; split; [reflexivity|constructor]|].
    exists (v :: vs). split; [cbn [map]; now rewrite E, IE|]. constructor; [cbn [fst snd]; split; [exact A|exact A']|exact IH]. }
  destruct V as (vs & E & FV).
  pose proof (Rsum_tri _ _ _ FV) as T. pose proof (Rsum_abs _ _ _ FV) as TA. rewrite !map_map in T; rewrite !map_map in TA. cbn [fst snd] in T, TA.
  change (map (fun x : particle => r x) l) with (map r l) in T. rewrite <- (sumR_Rsum r) in T. rewrite <- (sumR_Rsum (fun q => c * weight q)), sumR_scale in T. rewrite <- (sumR_Rsum (fun q => c * weight q)), sumR_scale in TA. fold (weights l) in T, TA.
  pose proof (weights_range l B) as (W0 & W1 & W2).
  assert (Wb : weights l <= e 320).
  { eapply Rle_trans; [exact W2|]. replace (e 320) with (e 20 * e 300) by (rewrite e_add; reflexivity). apply Rmult_le_compat_r; [left; apply bpow_gt_0|exact HN]. }
  assert (Len : length (map f bs) = length l) by (rewrite map_length; now apply Forall2_length in F).
  assert (CW : 0 <= c * weights l) by (apply Rmult_le_pos; lra).
  assert (TA2 : Rsum (map Rabs vs) <= 5 / 4 * (c * weights l)) by (eapply Rle_trans; [exact TA|]; apply Rmult_le_compat_r; lra).
  assert (TB : Rsum (map Rabs vs) <= e 900).
  { eapply Rle_trans; [exact TA2|]. apply Rle_trans with (64 * e 320); [nra|]. replace 64 with (e 6) by (simpl; lra). rewrite e_add. apply bpow_le; lia. }
  destruct (UK (map f bs) vs E ltac:(rewrite Len; apply HK) TB) as (s & Es & Bs). rewrite Len in Bs.
  exists s. split; [exact Es|].
  assert (Tn : l <> [] -> Rsum (map Rabs vs) + tiny <= 2 * (c * weights l)).
  { intros Hl. specialize (W0 Hl). assert (tiny <= / 4 * e (-300)).
    { unfold tiny. replace (/ 4) with (e (-2)) by (simpl; lra). rewrite e_add. apply bpow_le; lia. }
    assert (e (-300) <= c * weights l) by (pose proof (bpow_gt_0 radix2 (-300)); nra). lra. }
  specialize (Tn NE).
  replace (s - sumR r l) with ((s - Rsum vs) + (Rsum vs - sumR r l)) by ring. eapply Rle_trans; [apply Rabs_triang|].
  apply Rle_trans with (K (length l) * u * (2 * (c * weights l)) + k * u * (c * weights l)).
  + apply Rplus_le_compat; [|exact T]. eapply Rle_trans; [exact Bs|]. apply Rmult_le_compat_l; [apply Rmult_le_pos; lra|exact Tn].
  + right. ring.
Qed.

(** ** The columns as particles *)
Definition cols (p : pset S) (bs : list (body S)) : Prop :=
  p_m p = map b_m bs /\ p_x p = map b_x bs /\ p_y p = map b_y bs /\ p_z p = map b_z bs /\
  p_vx p = map b_vx bs /\ p_vy p = map b_vy bs /\ p_vz p = map b_vz bs.
Definition reads_body (b : body S) (q : particle) : Prop :=
  val RS (b_m b) = XR (pm q) /\ val RS (b_x b) = XR (px q) /\ val RS (b_y b) = XR (py q) /\ val RS (b_z b) = XR (pz q) /\
  val RS (b_vx b) = XR (pvx q) /\ val RS (b_vy b) = XR (pvy q) /\ val RS (b_vz b) = XR (pvz q).

Lemma reads_cols p l : reads_set RS p l -> exists bs, cols p bs /\ Forall2 reads_body bs l.
Proof.
  unfold reads_set, cols. generalize (p_m p) (p_x p) (p_y p) (p_z p) (p_vx p) (p_vy p) (p_vz p). clear.
  induction l as [|q l IH]; intros m x y z vx vy vz (A & B & C & D & E & F & G).
  - apply map_eq_nil in A, B, C, D, E, F, G. subst. exists []. split; [|constructor]. simpl. tauto.
  - destruct m as [|m0 m], x as [|x0 x], y as [|y0 y], z as [|z0 z], vx as [|vx0 vx], vy as [|vy0 vy], vz as [|vz0 vz]; try discriminate.
    cbn [map] in *. injection A as A A'. injection B as B B'. injection C as C C'. injection D as D D'. injection E as E E'. injection F as F F'. injection G as G G'.
    destruct (IH m x y z vx vy vz) as (bs & (H1 & H2 & H3 & H4 & H5 & H6 & H7) & HF); [tauto|].
    exists (Body m0 x0 y0 z0 vx0 vy0 vz0 :: bs). split; [|constructor; [|exact HF]].
    + cbn [map b_m b_x b_y b_z b_vx b_vy b_vz]. rewrite <- H1, <- H2, <- H3, <- H4, <- H5, <- H6, <- H7. tauto.
    + unfold reads_body; cbn [b_m b_x b_y b_z b_vx b_vy b_vz]. tauto.
Qed.
Lemma reads_ap b q : reads_body b q -> ap_body 0 1 b q q.
Proof.
  intros (A & B & C & D & E & F & G). unfold AlAccRot.ap_body.
  destruct (span_ge (px q) (py q) (pz q)) as (_ & X1 & X2 & X3). destruct (span_ge (pvx q) (pvy q) (pvz q)) as (_ & V1 & V2 & V3).
  split; [apply ap_exact; [exact A|apply Rmax_r]|]. rewrite !Rmult_1_l.
  repeat (split; [apply ap_exact; auto|]). apply ap_exact; auto.
Qed.

Definition star_of (b : body S) : star S := Star S (b_m b) (b_x b) (b_y b) (b_z b) (b_jx b) (b_jy b) (b_jz b).
Lemma near_cols p bs : pset_ok p -> cols p bs -> near None p = map star_of bs.
Proof.
  intros Hp (A & B & C & D & E & F & G). unfold near, stars_of.
  rewrite (pset_ok_Jx _ Hp), (pset_ok_Jy _ Hp), (pset_ok_Jz _ Hp). rewrite A, B, C, D, E, F, G. rewrite !map4_map. clear.
  induction bs as [|b bs IH]; [reflexivity|]. cbn [map stars_from filter]. now rewrite IH.
Qed.
Lemma cols_rot A p bs : cols p bs -> cols (rot_set A p) (map (rotb A) bs).
Proof.
  intros (B & C & D & E & F & G & H). unfold cols, rot_set. cbn [pset_of p_m p_x p_y p_z p_vx p_vy p_vz].
  rewrite B, C, D, E, F, G, H, !map3_map, !map_map. tauto.
Qed.

(** ** Totals *)
Lemma totals k f (g : particle -> particle) bs l (h : S -> S -> S) :
  Forall2 (fun b q => ap_body k f b q (g q)) bs l -> (forall q, In q l -> bounded q) -> INR (length l) <= e 20 ->
  0 <= K (length l) <= e 21 -> 1 <= f <= 4 -> 0 <= k <= 300 -> l <> [] -> h = nmul \/ h = (fun x y => nmul y x) ->
  let err := (8 * k + 10 + 2 * K (length l)) * (2 * (f * f)) * u * weights l in
  exists a b c,
    val RS (nsum (map (fun s => h (s_m s) (s_jx s)) (map star_of bs))) = XR a /\
    val RS (nsum (map (fun s => h (s_m s) (s_jy s)) (map star_of bs))) = XR b /\
    val RS (nsum (map (fun s => h (s_m s) (s_jz s)) (map star_of bs))) = XR c /\
    Rabs (a - LX None (map g l)) <= err /\ Rabs (b - LY None (map g l)) <= err /\ Rabs (c - LZ None (map g l)) <= err.
Proof.
  intros F B HN HK Hf Hk NE Hh err.
  assert (One : forall (j : body S -> S) (r : particle -> R), (j = b_jx /\ r = lx) \/ (j = b_jy /\ r = ly) \/ (j = b_jz /\ r = lz) ->
    exists s, val RS (nsum (map (fun b => h (b_m b) (j b)) bs)) = XR s /\ Rabs (s - sumR (fun q => pm (g q) * r (g q)) l) <= err).
  { intros j r Hj. unfold err. apply (sum_err (8 * k + 10) (2 * (f * f)) (fun b => h (b_m b) (j b)) (fun q => pm (g q) * r (g q)));
      auto; try lra; try nra.
    clear - F B Hf Hk Hj Hh U U0 U1. induction F as [|b q bs l Hb F IH]; [constructor|]. constructor; [|apply IH; intros q' H'; apply B; now right].
    destruct (ap_moment RS u U U0 U1 k f b q (g q) Hb (B q (or_introl eq_refl)) ltac:(lra) Hk j (r (g q))) as (M1 & M2).
    { destruct Hj as [[-> ->]|[[-> ->]|[-> ->]]]; auto. }
    destruct Hh as [-> | ->]; assumption. }
  assert (L : forall r, sumR (fun q => pm q * r q) (filter (inside None) (map g l)) = sumR (fun q => pm (g q) * r (g q)) l).
  { intros r. rewrite inside_none. rewrite !sumR_Rsum, map_map. reflexivity. }
  destruct (One b_jx lx ltac:(auto)) as (a & Ea & Ba). destruct (One b_jy ly ltac:(auto)) as (b & Eb & Bb). destruct (One b_jz lz ltac:(auto)) as (c & Ec & Bc).
  exists a, b, c. rewrite !map_map. cbn [star_of s_m s_jx s_jy s_jz]. unfold LX, LY, LZ. rewrite !L.
  repeat (split; [assumption|]). assumption.
Qed.

(** ** The check *)
Lemma norm_ap jx jy jz a b c : val RS jx = XR a -> val RS jy = XR b -> val RS jz = XR c ->
  e (-400) <= nrm a b c <= e 400 -> ap 20 (nrm a b c) (nsqrt (jx * jx + jy * jy + jz * jz)%num) (nrm a b c).
Proof.
  intros Ea Eb Ec HT. destruct (nrm_ge a b c) as (A & B & C). pose proof (nrm_sq a b c) as Q. set (T := nrm a b c) in *.
  pose proof (bpow_gt_0 radix2 (-400)) as P400.
  assert (HPP : forall v, T * T <= v <= 4 * (T * T) -> scale v).
  { intros v Hv. apply scale_between with (-800)%Z 802%Z; [|lia..].
    assert (e (-800) <= T * T) by (change (-800)%Z with (-400 + -400)%Z; rewrite <- e_add; apply Rmult_le_compat; lra).
    assert (T * T <= e 800) by (change 800%Z with (400 + 400)%Z; rewrite <- e_add; apply Rmult_le_compat; lra).
    replace (e 802) with (4 * e 800) by (change 802%Z with (2 + 800)%Z; rewrite <- e_add; simpl; lra). lra. }
  assert (ST : scale T) by (apply scale_between with (-400)%Z 400%Z; [lra|lia..]).
  assert (Sq : forall j r, val RS j = XR r -> Rabs r <= T -> ap 2 (T * T) (j * j)%num (r * r)).
  { intros j r Hj Hr. pose proof (ap_exact RS u T j r Hj Hr). replace 2 with (2 * 0 + 2 * 0 + 2) by ring.
    apply ap_mul; auto; try lra; first [apply small; auto; lra|apply HPP; nra]. }
  replace 20 with (18 + 2) by ring. apply ap_sqrt; auto; [|lra|apply small; auto; lra].
  assert (Z2 : ap 4 (T * T + T * T) (jx * jx + jy * jy)%num (a * a + b * b)).
  { replace 4 with (2 + 2) by ring. apply ap_add; auto; first [apply small; auto; lra|apply HPP; nra]. }
  assert (Z3 : ap 6 ((T * T + T * T) + T * T) (jx * jx + jy * jy + jz * jz)%num (a * a + b * b + c * c)).
  { replace 6 with (4 + 2) by ring. apply ap_add; auto; [|apply HPP; nra|apply small; auto; lra].
    apply (ap_weaken RS u U0 2 4 (T * T)); auto; lra. }
  rewrite <- Q in Z3. destruct Z3 as (v & E & Bv & _). exists v. split; [exact E|]. split; [lra|]. rewrite Rabs_pos_eq; nra.
Qed.

Lemma check_passes jx jy jz a b c Q d (rtol atol : S) rt at' :
  val RS jx = XR a -> val RS jy = XR b -> val RS jz = XR c ->
  Rabs a <= d -> Rabs b <= d -> Rabs (c - Q) <= d -> 1900 * d <= Q -> e (-399) <= Q <= e 399 ->
  val RS rtol = XR rt -> / 1000000 <= rt -> val RS atol = XR at' -> 0 <= at' ->
  isclose rtol atol jz (nsqrt (jx * jx + jy * jy + jz * jz)%num) = true.
Proof.
  intros Ea Eb Ec Ba Bb Bc Dd HQ Ert Hrt Eat Hat.
  pose proof (bpow_gt_0 radix2 (-399)) as P399. pose proof (Rabs_pos a) as D0.
  assert (U2 : u <= / 1000000000000) by (eapply Rle_trans; [exact U1|simpl; lra]).
  assert (Cc : 0.999 * Q <= c) by (apply Rabs_le_inv in Bc; lra).
  assert (HT1 : c <= nrm a b c) by (eapply Rle_trans; [apply Rle_abs|]; apply nrm_ge).
  assert (HT2 : nrm a b c <= 1.01 * Q).
  { pose proof (nrm_diff a b c 0 0 Q) as H. rewrite !Rminus_0_r in H.
    replace (nrm 0 0 Q) with Q in H by (unfold nrm; replace (0 * 0 + 0 * 0 + Q * Q) with (Q * Q) by ring; now rewrite sqrt_square by lra). lra. }
  assert (HT : e (-400) <= nrm a b c <= e 400).
  { change (-400)%Z with (-1 + -399)%Z. change 400%Z with (1 + 399)%Z. rewrite <- !e_add. replace (e (-1)) with (/ 2) by (simpl; lra). replace (e 1) with 2 by (simpl; lra). lra. }
  pose proof (norm_ap jx jy jz a b c Ea Eb Ec HT) as (t & Et & Bt & _).
  pose proof (nrm_sq a b c) as SQ. set (T := nrm a b c) in *. set (tt := nsqrt _) in *.
  assert (TC : T - c <= 0.0000003 * T).
  { assert (A2 : a * a <= d * d) by (apply Rabs_le_inv in Ba; nra). assert (B2 : b * b <= d * d) by (apply Rabs_le_inv in Bb; nra).
    assert (D2 : d * d <= Q / 1900 * (Q / 1900)) by (apply Rmult_le_compat; lra).
    assert (E1 : (T - c) * (T + c) <= 2 * (Q / 1900 * (Q / 1900))) by nra.
    destruct (Rle_or_lt (T - c) (0.0000003 * T)) as [|L]; [assumption|exfalso].
    assert (0.0000003 * 0.999 * Q <= T - c) by lra. assert (1.998 * Q <= T + c) by lra.
    assert ((0.0000003 * 0.999 * Q) * (1.998 * Q) <= (T - c) * (T + c)) by (apply Rmult_le_compat; lra).
    assert (0 < Q * Q) by (apply Rmult_lt_0_compat; lra). lra. }
  assert (Bt' : Rabs (t - T) <= 0.0000000001 * T) by (eapply Rle_trans; [exact Bt|]; apply Rmult_le_compat_r; lra).
  apply Rabs_le_inv in Bt'.
  assert (Ct : Rabs (c - t) <= 0.00000031 * T) by (apply Rabs_le; lra).
  assert (Ty : 0 < tiny <= T).
  { unfold tiny. split; [apply bpow_gt_0|]. eapply Rle_trans; [|apply HT]. apply bpow_le; lia. }
  assert (Hu : T <= huge) by (unfold huge; eapply Rle_trans; [apply HT|]; apply bpow_le; lia).
  destruct (U (c - t)) as (df & Edf & Bdf); [lra|].
  destruct (U (/ 1000000 * t)) as (y & Ey & By); [rewrite Rabs_pos_eq; lra|].
  assert (Yl : 0.00000098 * T <= y).
  { rewrite (Rabs_pos_eq (/ 1000000 * t)) in By by lra. apply Rabs_le_inv in By.
    assert (u * (/ 1000000 * t + tiny) <= / 1000000000000 * (2 * T)) by (apply Rmult_le_compat; lra). lra. }
  assert (Dl : Rabs df <= 0.0000004 * T).
  { replace df with ((df - (c - t)) + (c - t)) by ring. eapply Rle_trans; [apply Rabs_triang|].
    assert (u * (Rabs (c - t) + tiny) <= / 1000000000000 * (2 * T)) by (apply Rmult_le_compat; pose proof (Rabs_pos (c - t)); lra). lra. }
  unfold isclose. rewrite !(val_fin RS), Ec, Et. cbn [xfin andb]. unfold nle. rewrite (val_cmp RS), (val_abs RS), (val_sub RS), Ec, Et.
  change (xsub (XR c) (XR t)) with (XR (c + - t)). replace (c + - t) with (c - t) by ring. rewrite Edf. cbn [xabs].
  assert (Rhs : xle (XR y) (val RS (atol + rtol * nabs tt)%num)).
  { rewrite (val_add RS), Eat.
    assert (M : xle (XR y) (val RS (rtol * nabs tt)%num)).
    { rewrite (val_mul RS), (val_abs RS), Ert, Et. cbn [xabs xmul]. rewrite <- Ey. apply (rnd_mono RS). cbn [xle]. rewrite (Rabs_pos_eq t) by lra. apply Rmult_le_compat_r; lra. }
    pose proof (rnd_val RS (rtol * nabs tt)%num) as Rz. destruct (val RS (rtol * nabs tt)%num) as [z| | |]; cbn [xadd xle] in *; try tauto.
    - assert (Z : xle (rnd RS (XR z)) (rnd RS (XR (at' + z)))) by (apply (rnd_mono RS); cbn [xle]; lra).
      rewrite Rz in Z. destruct (rnd RS (XR (at' + z))); cbn [xle] in *; try tauto; lra.
    - rewrite (rnd_pinf RS). exact I. }
  destruct (val RS (atol + rtol * nabs tt)%num) as [z| | |]; cbn [xle xcmp] in *; try tauto.
  destruct (Rcompare_spec (Rabs df) z); try reflexivity. lra.
Qed.
End Sum.
