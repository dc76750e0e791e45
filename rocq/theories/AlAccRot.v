(** Errors of the rotation matrix, the rotated particles and the totals. *)
From Flocq Require Import Core.
From Coq Require Import Lra Lia.
From Verif Require Import Py Num RX Np Df Data Center Align Spec SpecR DataFacts AlignFacts AlignThms SpecAlAcc AlAccFacts.
Local Open Scope R_scope.
Local Notation e := (bpow radix2).

Section Rot.
Context {S : Num} (RS : Rounded S).
Variable u : R.
Hypothesis U : graceful RS u.
Hypothesis U0 : 0 < u.
Hypothesis U1 : u <= e (-40).
Local Notation ap := (ap RS u).

Lemma small k : 0 <= k <= 100000 -> k * u <= / 4.
Proof.
  intros K. apply Rle_trans with (100000 * e (-40)); [apply Rmult_le_compat; lra|].
  apply Rle_trans with (e 17 * e (-40)); [apply Rmult_le_compat_r; [left; apply bpow_gt_0|simpl; lra]|].
  rewrite e_add. apply Rle_trans with (e (-2)); [apply bpow_le; lia|simpl; lra].
Qed.

Lemma scale_between a b s : e a <= s <= e b -> (-900 <= a)%Z -> (b <= 900)%Z -> scale s.
Proof. intros (A & B) Ha Hb. split; [apply Rle_trans with (e a); [apply bpow_le; lia|exact A]|apply Rle_trans with (e b); [exact B|apply bpow_le; lia]]. Qed.

(** ** The matrix *)
Definition ap_mat (k : R) (A : mat3 S) (M : matR) : Prop :=
  ap k 1 (a11 A) (m11 M) /\ ap k 1 (a12 A) (m12 M) /\ ap k 1 (a13 A) (m13 M) /\
  ap k 1 (a21 A) (m21 M) /\ ap k 1 (a22 A) (m22 M) /\ ap k 1 (a23 A) (m23 M) /\
  ap k 1 (a31 A) (m31 M) /\ ap k 1 (a32 A) (m32 M) /\ ap k 1 (a33 A) (m33 M).

Lemma rot_of_ap jx jy jz a b c : val RS jx = XR a -> val RS jy = XR b -> val RS jz = XR c ->
  e (-400) <= sqrt (a * a + b * b) -> sqrt (a * a + b * b + c * c) <= e 400 ->
  ap_mat 130 (rot_of jx jy jz) (rotR a b c).
Proof.
  intros Ea Eb Ec HP HQ.
  pose proof (bpow_gt_0 radix2 (-400)) as P400.
  assert (NZ : a <> 0 \/ b <> 0).
  { destruct (Req_dec a 0) as [->|]; [|now left]. destruct (Req_dec b 0) as [->|]; [|now right].
    exfalso. replace (0 * 0 + 0 * 0) with 0 in HP by ring. rewrite sqrt_0 in HP. lra. }
  destruct (rot_units a b c NZ) as (x & y & s & t & P & Q & P0 & Q0 & EP & EQ & Xa & Xb & XP & Xc & X1 & X2 & EM).
  rewrite EM. rewrite <- EP in HP. rewrite <- EQ in HQ.
  assert (Hx : Rabs x <= 1) by (apply Rabs_le; nra). assert (Hy : Rabs y <= 1) by (apply Rabs_le; nra).
  assert (Hs : Rabs s <= 1) by (apply Rabs_le; nra). assert (Ht : Rabs t <= 1) by (apply Rabs_le; nra).
  assert (s0 : 0 < s) by nra. assert (PQ : P <= Q) by (rewrite XP; rewrite Rabs_pos_eq in Hs by lra; nra).
  assert (HPP : forall v, P * P <= v <= 4 * (Q * Q) -> scale v).
  { intros v Hv. apply scale_between with (-800)%Z 802%Z; [|lia..].
    assert (e (-800) <= P * P) by (change (-800)%Z with (-400 + -400)%Z; rewrite <- e_add; apply Rmult_le_compat; lra).
    assert (Q * Q <= e 800) by (change 800%Z with (400 + 400)%Z; rewrite <- e_add; apply Rmult_le_compat; lra).
    replace (e 802) with (4 * e 800) by (change 802%Z with (2 + 800)%Z; rewrite <- e_add; simpl; lra). lra. }
  assert (SP : scale P) by (apply scale_between with (-400)%Z 400%Z; [lra|lia..]).
  assert (SQ : scale Q) by (apply scale_between with (-400)%Z 400%Z; [lra|lia..]).
  assert (S1 : scale 1) by (apply scale_between with 0%Z 0%Z; [simpl; lra|lia..]).
  assert (Aa : ap 0 P jx a) by (apply ap_exact; [exact Ea|rewrite Xa, Rabs_mult, (Rabs_pos_eq P); nra]).
  assert (Ab : ap 0 P jy b) by (apply ap_exact; [exact Eb|rewrite Xb, Rabs_mult, (Rabs_pos_eq P); nra]).
  assert (Ac : ap 0 Q jz c) by (apply ap_exact; [exact Ec|rewrite Xc, Rabs_mult, (Rabs_pos_eq Q); nra]).
  assert (Paa : ap 2 (P * P) (jx * jx)%num (a * a)).
  { replace 2 with (2 * 0 + 2 * 0 + 2) by ring. apply ap_mul; auto; try lra; first [apply small; lra|apply HPP; nra]. }
  assert (Pbb : ap 2 (P * P) (jy * jy)%num (b * b)).
  { replace 2 with (2 * 0 + 2 * 0 + 2) by ring. apply ap_mul; auto; try lra; first [apply small; lra|apply HPP; nra]. }
  assert (Pcc : ap 2 (Q * Q) (jz * jz)%num (c * c)).
  { replace 2 with (2 * 0 + 2 * 0 + 2) by ring. apply ap_mul; auto; try lra; first [apply small; lra|apply HPP; nra]. }
  assert (Pab : ap 4 (P * P + P * P) (jx * jx + jy * jy)%num (a * a + b * b)).
  { replace 4 with (2 + 2) by ring. apply ap_add; auto; [apply HPP; nra|apply small; lra]. }
  assert (Rp : a * a + b * b = P * P) by (rewrite Xa, Xb; replace (x * P * (x * P) + y * P * (y * P)) with ((x * x + y * y) * (P * P)) by ring; rewrite X1; ring).
  assert (Rq : a * a + b * b + c * c = Q * Q).
  { rewrite Rp, Xc, XP. replace (s * Q * (s * Q) + t * Q * (t * Q)) with ((s * s + t * t) * (Q * Q)) by ring. rewrite X2. ring. }
  assert (Ap : ap 10 P (nsqrt (jx * jx + jy * jy)%num) P).
  { replace 10 with (8 + 2) by ring. apply ap_sqrt; auto; [|lra|apply small; lra].
    rewrite Rp in Pab. destruct Pab as (v & E & B & _). exists v. split; [exact E|]. split; [lra|rewrite Rabs_pos_eq; nra]. }
  assert (Aq : ap 20 Q (nsqrt (jx * jx + jy * jy + jz * jz)%num) Q).
  { replace 20 with (18 + 2) by ring. apply ap_sqrt; auto; [|lra|apply small; lra].
    assert (Z3 : ap 6 (2 * (Q * Q) + Q * Q) (jx * jx + jy * jy + jz * jz)%num (a * a + b * b + c * c)).
    { replace 6 with (4 + 2) by ring. apply ap_add; auto; [| |apply HPP; nra|apply small; lra].
      - apply (ap_weaken RS u U0 4 4 (P * P + P * P)); [exact Pab|lra|nra].
      - apply (ap_weaken RS u U0 2 4 (Q * Q)); [exact Pcc|lra|lra]. }
    rewrite Rq in Z3. destruct Z3 as (v & E & B & _). exists v. split; [exact E|]. split; [lra|rewrite Rabs_pos_eq; nra]. }
  assert (Apq : ap 62 (P * Q) (nsqrt (jx * jx + jy * jy) * nsqrt (jx * jx + jy * jy + jz * jz))%num (P * Q)).
  { replace 62 with (2 * 10 + 2 * 20 + 2) by ring. apply ap_mul; auto; try lra; first [apply small; lra|apply HPP; nra]. }
  assert (Wk : forall k z r, ap k 1 z r -> 0 <= k <= 130 -> ap 130 1 z r).
  { intros k z r H K. apply (ap_weaken RS u U0 k 130 1 1); auto; lra. }
  assert (Dv : forall k1 k2 D num den r, ap k1 D num r -> ap k2 D den D -> 0 < D -> 0 <= k1 -> 0 <= k2 -> 2 * k1 + 2 * k2 + 2 <= 130 ->
    ap 130 1 (num / den)%num (r / D)).
  { intros k1 k2 D num den r Hn Hd HD K1 K2 K. apply (Wk (2 * k1 + 2 * k2 + 2)); [|lra].
    replace 1 with (D / D) by (field; lra). apply ap_div; auto; [replace (D / D) with 1 by (field; lra); exact S1|apply small; lra]. }
  assert (Up : forall num r, ap 0 P num r -> ap 0 Q num r) by (intros num r H; apply (ap_weaken RS u U0 0 0 P Q); [exact H|lra|exact PQ]).
  unfold ap_mat, rot_of. cbn [a11 a12 a13 a21 a22 a23 a31 a32 a33 m11 m12 m13 m21 m22 m23 m31 m32 m33].
  assert (H0 : ap 130 1 (n0 : S) 0).
  { apply (Wk 0); [|lra]. apply ap_exact; [unfold n0; rewrite (val_ofZ RS), (rnd_int RS); [reflexivity|pose proof (intmax_pos RS); cbn; lia]|rewrite Rabs_R0; lra]. }
  assert (Mac : ap 2 (P * Q) (jx * jz)%num (a * c)).
  { replace 2 with (2 * 0 + 2 * 0 + 2) by ring. apply ap_mul; auto; try lra; first [apply small; lra|apply HPP; nra]. }
  assert (Mbc : ap 2 (P * Q) (jy * jz)%num (b * c)).
  { replace 2 with (2 * 0 + 2 * 0 + 2) by ring. apply ap_mul; auto; try lra; first [apply small; lra|apply HPP; nra]. }
  split; [replace y with (b / P) by (rewrite Xb; field; lra); apply (Dv 0 10); auto; lra|].
  split; [replace (- x) with (- a / P) by (rewrite Xa; field; lra); apply (Dv 0 10); auto using ap_opp; lra|].
  split; [exact H0|].
  split; [replace (x * t) with (a * c / (P * Q)) by (rewrite Xa, Xc; field; lra); apply (Dv 2 62); auto; try lra; nra|].
  split; [replace (y * t) with (b * c / (P * Q)) by (rewrite Xb, Xc; field; lra); apply (Dv 2 62); auto; try lra; nra|].
  split; [replace (- s) with (- P / Q) by (rewrite XP; field; lra); apply (Dv 10 20); auto; try lra;
          apply ap_opp; apply (ap_weaken RS u U0 10 10 P Q); auto; lra|].
  split; [replace (x * s) with (a / Q) by (rewrite Xa, XP; field; lra); apply (Dv 0 20); auto; lra|].
  split; [replace (y * s) with (b / Q) by (rewrite Xb, XP; field; lra); apply (Dv 0 20); auto; lra|].
  replace t with (c / Q) by (rewrite Xc; field; lra); apply (Dv 0 20); auto; lra.
Qed.

(** ** One particle *)
Record body : Type := Body { b_m : S; b_x : S; b_y : S; b_z : S; b_vx : S; b_vy : S; b_vz : S }.
Definition b_jx (b : body) : S := (b_y b * b_vz b - b_z b * b_vy b)%num.
Definition b_jy (b : body) : S := (b_z b * b_vx b - b_x b * b_vz b)%num.
Definition b_jz (b : body) : S := (b_x b * b_vy b - b_y b * b_vx b)%num.
(** Position, velocity and mass of [b] are those of [q], up to [k u] times the scales. *)
Definition ap_body (k f : R) (b : body) (q0 q : particle) : Prop :=
  let X := f * span (px q0) (py q0) (pz q0) in let V := f * span (pvx q0) (pvy q0) (pvz q0) in
  ap 0 (Rmax (e (-100)) (Rabs (pm q0))) (b_m b) (pm q) /\
  ap k X (b_x b) (px q) /\ ap k X (b_y b) (py q) /\ ap k X (b_z b) (pz q) /\
  ap k V (b_vx b) (pvx q) /\ ap k V (b_vy b) (pvy q) /\ ap k V (b_vz b) (pvz q).

Lemma span_ge a b c : e (-100) <= span a b c /\ Rabs a <= span a b c /\ Rabs b <= span a b c /\ Rabs c <= span a b c.
Proof.
  unfold span. pose proof (Rmax_l (e (-100)) (Rmax (Rabs a) (Rmax (Rabs b) (Rabs c)))).
  pose proof (Rmax_r (e (-100)) (Rmax (Rabs a) (Rmax (Rabs b) (Rabs c)))). pose proof (Rmax_l (Rabs a) (Rmax (Rabs b) (Rabs c))).
  pose proof (Rmax_r (Rabs a) (Rmax (Rabs b) (Rabs c))). pose proof (Rmax_l (Rabs b) (Rabs c)). pose proof (Rmax_r (Rabs b) (Rabs c)).
  repeat split; lra.
Qed.
Lemma mass_ge q : bounded q -> e (-100) <= Rmax (e (-100)) (Rabs (pm q)) <= e 100.
Proof. intros (A & _). split; [apply Rmax_l|]. apply Rmax_lub; [apply bpow_le; lia|exact A]. Qed.

Lemma pos3 a b c : e (-100) <= a <= e 100 -> e (-100) <= b <= e 100 -> e (-100) <= c <= e 100 -> e (-300) <= a * b * c <= e 300.
Proof.
  intros A B C. pose proof (bpow_gt_0 radix2 (-100)). pose proof (bpow_gt_0 radix2 100).
  change (-300)%Z with (-100 + -100 + -100)%Z. change 300%Z with (100 + 100 + 100)%Z. rewrite <- !e_add.
  split; repeat apply Rmult_le_compat; try lra; repeat apply Rmult_le_pos; lra.
Qed.
Lemma weight_range q : bounded q -> e (-300) <= weight q <= e 300.
Proof.
  intros B. pose proof (mass_ge q B). destruct B as (_ & X & V). unfold weight.
  apply pos3; auto; split; auto; apply span_ge.
Qed.

(** Mass times one component of the angular momentum. *)
Lemma ap_moment k f (b : body) q0 q : ap_body k f b q0 q -> bounded q0 -> 1 <= f <= 16 -> 0 <= k <= 300 ->
  forall g r, (g = b_jx /\ r = lx q) \/ (g = b_jy /\ r = ly q) \/ (g = b_jz /\ r = lz q) ->
  ap (8 * k + 10) (2 * (f * f) * weight q0) (b_m b * g b)%num (pm q * r) /\
  ap (8 * k + 10) (2 * (f * f) * weight q0) (g b * b_m b)%num (pm q * r).
Proof.
  intros (Hm & Hx & Hy & Hz & Hvx & Hvy & Hvz) HB F K g r Hg.
  pose proof (mass_ge q0 HB) as GM. destruct HB as (_ & GX & GV).
  destruct (span_ge (px q0) (py q0) (pz q0)) as (LX0 & _). destruct (span_ge (pvx q0) (pvy q0) (pvz q0)) as (LV0 & _).
  unfold weight. set (M := Rmax _ _) in *. set (X := span _ _ _) in *. set (V := span (pvx q0) _ _) in *.
  pose proof (bpow_gt_0 radix2 (-100)) as P100. pose proof (bpow_gt_0 radix2 (-200)) as P200.
  assert (XV : e (-200) <= X * V <= e 200).
  { change (-200)%Z with (-100 + -100)%Z. change 200%Z with (100 + 100)%Z. rewrite <- !e_add. split; apply Rmult_le_compat; lra. }
  assert (MXV : e (-300) <= M * X * V <= e 300) by (apply pos3; lra).
  assert (FF : 1 <= f * f <= 256) by nra.
  assert (Big : forall t lo hi, e lo <= t <= e hi -> (-800 <= lo)%Z -> (hi <= 800)%Z -> forall c w, w = c * t -> 1 <= c <= 512 -> scale w).
  { intros t lo hi Ht Hlo Hhi c w -> Hc. pose proof (bpow_gt_0 radix2 lo). apply scale_between with lo (hi + 9)%Z; [|lia..]. rewrite <- e_add. replace (e 9) with 512 by (simpl; lra).
    pose proof (Rmult_le_compat_r t 1 c ltac:(lra) ltac:(lra)). pose proof (Rmult_le_compat_r t c 512 ltac:(lra) ltac:(lra)). lra. }
  assert (SC : scale (f * X * (f * V))) by (apply (Big (X * V) (-200)%Z 200%Z XV ltac:(lia) ltac:(lia) (f * f)); [ring|lra]).
  assert (SC2 : scale (f * X * (f * V) + f * X * (f * V))) by (apply (Big (X * V) (-200)%Z 200%Z XV ltac:(lia) ltac:(lia) (2 * (f * f))); [ring|lra]).
  assert (SC3 : scale (2 * (f * f) * (M * X * V))) by (apply (Big (M * X * V) (-300)%Z 300%Z MXV ltac:(lia) ltac:(lia) (2 * (f * f))); [ring|lra]).
  assert (Mul : forall p v rp rv, ap k (f * X) p rp -> ap k (f * V) v rv -> ap (4 * k + 2) (f * X * (f * V)) (p * v)%num (rp * rv)).
  { intros p v rp rv A B. replace (4 * k + 2) with (2 * k + 2 * k + 2) by ring. apply ap_mul; auto; try lra. apply small; lra. }
  assert (J : ap (4 * k + 4) (f * X * (f * V) + f * X * (f * V)) (g b) r).
  { replace (4 * k + 4) with (4 * k + 2 + 2) by ring.
    destruct Hg as [[-> ->]|[[-> ->]|[-> ->]]]; unfold b_jx, b_jy, b_jz, lx, ly, lz; apply ap_sub; auto; apply small; lra. }
  assert (Eq : M * (f * X * (f * V) + f * X * (f * V)) = 2 * (f * f) * (M * X * V)) by ring.
  split.
  - rewrite <- Eq. replace (8 * k + 10) with (2 * 0 + 2 * (4 * k + 4) + 2) by ring. apply ap_mul; auto; try lra; [rewrite Eq; exact SC3|apply small; lra].
  - rewrite <- Eq, (Rmult_comm M), (Rmult_comm (pm q)). replace (8 * k + 10) with (2 * (4 * k + 4) + 2 * 0 + 2) by ring.
    apply ap_mul; auto; try lra; [rewrite Rmult_comm, Eq; exact SC3|apply small; lra].
Qed.

(** Rotating a particle. *)
Definition rotb (A : mat3 S) (b : body) : body :=
  Body (b_m b) (rot_x A (b_x b) (b_y b) (b_z b)) (rot_y A (b_x b) (b_y b) (b_z b)) (rot_z A (b_x b) (b_y b) (b_z b))
    (rot_x A (b_vx b) (b_vy b) (b_vz b)) (rot_y A (b_vx b) (b_vy b) (b_vz b)) (rot_z A (b_vx b) (b_vy b) (b_vz b)).

Lemma ap_dot a b c x y z ra rb rc rx ry rz X : ap 130 1 a ra -> ap 130 1 b rb -> ap 130 1 c rc ->
  ap 0 X x rx -> ap 0 X y ry -> ap 0 X z rz -> e (-100) <= X <= e 100 ->
  ap 266 (3 * X) (dot3 a b c x y z) (ra * rx + rb * ry + rc * rz).
Proof.
  intros A B C DX DY DZ HX. pose proof (bpow_gt_0 radix2 (-100)).
  assert (Sc : forall w, X <= w <= 4 * X -> scale w).
  { intros w Hw. apply scale_between with (-100)%Z 102%Z; [|lia..]. change 102%Z with (2 + 100)%Z. rewrite <- e_add. replace (e 2) with 4 by (simpl; lra). lra. }
  assert (Mul : forall p v rp rv, ap 130 1 p rp -> ap 0 X v rv -> ap 262 X (p * v)%num (rp * rv)).
  { intros p v rp rv Hp Hv. replace 262 with (2 * 130 + 2 * 0 + 2) by ring. replace X with (1 * X) by ring.
    apply ap_mul; auto; try lra; [apply Sc; lra|apply small; lra]. }
  unfold dot3. replace (3 * X) with ((X + X) + X) by ring. replace 266 with (264 + 2) by ring.
  apply ap_add; auto; [| |apply Sc; lra|apply small; lra].
  - replace 264 with (262 + 2) by ring. apply ap_add; auto; [apply Sc; lra|apply small; lra].
  - apply (ap_weaken RS u U0 262 264 X X); [auto|lra|lra].
Qed.

Lemma ap_rotb A M b q : ap_mat 130 A M -> ap_body 0 1 b q q -> bounded q -> ap_body 266 3 (rotb A b) q (rotate M q).
Proof.
  intros (A11 & A12 & A13 & A21 & A22 & A23 & A31 & A32 & A33) (Hm & Hx & Hy & Hz & Hvx & Hvy & Hvz) (_ & GX & GV).
  rewrite Rmult_1_l in Hx, Hy, Hz, Hvx, Hvy, Hvz.
  destruct (span_ge (px q) (py q) (pz q)) as (LX0 & _). destruct (span_ge (pvx q) (pvy q) (pvz q)) as (LV0 & _).
  unfold ap_body. cbn [rotb b_m b_x b_y b_z b_vx b_vy b_vz rotate pm px py pz pvx pvy pvz].
  split; [exact Hm|]. unfold rot_x, rot_y, rot_z.
  split; [|split; [|split; [|split; [|split]]]]; apply ap_dot; auto.
Qed.
End Rot.
Arguments body S : clear implicits.
