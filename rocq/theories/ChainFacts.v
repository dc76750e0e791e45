(** Centring and aligning one after the other: real-number part (C93). *)
From Flocq Require Import Core.
From Coq Require Import Lra Lia.
From Verif Require Import Py Num RX Np Data Spec SpecR SpecAlAcc SpecChain AlignThms AlAccFacts AlAccRot AlAccSum AlAccThms.
Local Open Scope R_scope.

Lemma cauchy a b c x y z : Rabs (a * x + b * y + c * z) <= nrm a b c * nrm x y z.
Proof.
  pose proof (nrm_pos a b c). pose proof (nrm_pos x y z).
  apply Rsqr_incr_0_var; [|now apply Rmult_le_pos]. unfold Rsqr.
  replace (Rabs (a * x + b * y + c * z) * Rabs (a * x + b * y + c * z)) with ((a * x + b * y + c * z) * (a * x + b * y + c * z)).
  2:{ rewrite <- Rabs_mult. rewrite Rabs_pos_eq; [reflexivity|apply Rle_0_sqr]. }
  replace (nrm a b c * nrm x y z * (nrm a b c * nrm x y z)) with ((nrm a b c * nrm a b c) * (nrm x y z * nrm x y z)) by ring.
  rewrite !nrm_sq. pose proof (Rle_0_sqr (a * y - b * x)). pose proof (Rle_0_sqr (a * z - c * x)). pose proof (Rle_0_sqr (b * z - c * y)). unfold Rsqr in *. nra.
Qed.
Lemma nrm_le a b c D : 0 <= D -> Rabs a <= D -> Rabs b <= D -> Rabs c <= D -> nrm a b c <= 2 * D.
Proof.
  intros D0 A B C. apply Rsqr_incr_0_var; [|lra]. unfold Rsqr. rewrite nrm_sq.
  assert (S : forall t, Rabs t <= D -> t * t <= D * D).
  { intros t T. replace (t * t) with (Rabs t * Rabs t) by (rewrite <- Rabs_mult; apply Rabs_pos_eq, Rle_0_sqr). apply Rmult_le_compat; auto using Rabs_pos. }
  pose proof (S a A). pose proof (S b B). pose proof (S c C). nra.
Qed.

Section Axis.
Variable M : matR.
Hypothesis RM : rotation M.
Variables lx0 ly0 lz0 jx jy jz n D : R.
Let wx := m11 M * lx0 + m12 M * ly0 + m13 M * lz0.
Let wy := m21 M * lx0 + m22 M * ly0 + m23 M * lz0.
Let wz := m31 M * lx0 + m32 M * ly0 + m33 M * lz0.
Let vx := m11 M * jx + m12 M * jy + m13 M * jz.
Let vy := m21 M * jx + m22 M * jy + m23 M * jz.
Let vz := m31 M * jx + m32 M * jy + m33 M * jz.
Hypothesis N0 : 0 < n.
Hypothesis Nn : n = nrm lx0 ly0 lz0.
Hypothesis Wx : Rabs wx <= D.
Hypothesis Wy : Rabs wy <= D.
Hypothesis Wz : Rabs (wz - n) <= D.
Let a := (lx0 * jx + ly0 * jy + lz0 * jz) / n.
Let J := nrm jx jy jz.

Lemma dot_kept p q r s t v : (m11 M * p + m12 M * q + m13 M * r) * (m11 M * s + m12 M * t + m13 M * v) +
   (m21 M * p + m22 M * q + m23 M * r) * (m21 M * s + m22 M * t + m23 M * v) +
   (m31 M * p + m32 M * q + m33 M * r) * (m31 M * s + m32 M * t + m33 M * v) = p * s + q * t + r * v.
Proof.
  destruct RM as (_ & _ & _ & _ & _ & _ & C1 & C2 & C3 & C4 & C5 & C6 & _).
  transitivity (p * s * (m11 M * m11 M + m21 M * m21 M + m31 M * m31 M) + q * t * (m12 M * m12 M + m22 M * m22 M + m32 M * m32 M) +
    r * v * (m13 M * m13 M + m23 M * m23 M + m33 M * m33 M) + (p * t + q * s) * (m11 M * m12 M + m21 M * m22 M + m31 M * m32 M) +
    (p * v + r * s) * (m11 M * m13 M + m21 M * m23 M + m31 M * m33 M) + (q * v + r * t) * (m12 M * m13 M + m22 M * m23 M + m32 M * m33 M)); [ring|].
  rewrite C1, C2, C3, C4, C5, C6. ring.
Qed.
Lemma nrm_v : nrm vx vy vz = J.
Proof. unfold J, nrm. f_equal. apply dot_kept. Qed.
Lemma D_pos : 0 <= D.
Proof. pose proof (Rabs_pos wx). lra. Qed.
Lemma axis_close : Rabs (vz - a) <= 2 * D * J / n.
Proof.
  assert (E : vz - a = - ((wx * vx + wy * vy + (wz - n) * vz) / n)).
  { unfold a. rewrite <- (dot_kept lx0 ly0 lz0 jx jy jz). fold wx wy wz vx vy vz. field. lra. }
  rewrite E, Rabs_Ropp. unfold Rdiv. rewrite Rabs_mult, (Rabs_pos_eq (/ n)) by (left; now apply Rinv_0_lt_compat).
  apply Rmult_le_compat_r; [left; now apply Rinv_0_lt_compat|]. eapply Rle_trans; [apply cauchy|]. rewrite nrm_v.
  apply Rmult_le_compat_r; [apply nrm_pos|]. apply nrm_le; auto using D_pos.
Qed.
Lemma a_le : Rabs a <= J.
Proof.
  unfold a, Rdiv. rewrite Rabs_mult, (Rabs_pos_eq (/ n)) by (left; now apply Rinv_0_lt_compat).
  apply Rmult_le_reg_r with n; [exact N0|]. rewrite Rmult_assoc, Rinv_l, Rmult_1_r by lra. rewrite Nn, (Rmult_comm J). apply cauchy.
Qed.
Lemma plane_close : Rabs (nrm vx vy 0 - sqrt (jx * jx + jy * jy + jz * jz - a * a)) <= 5 * D * J / n.
Proof.
  set (x := vx - a * (wx / n)). set (y := vy - a * (wy / n)). set (z := vz - a * (wz / n)).
  assert (E : sqrt (jx * jx + jy * jy + jz * jz - a * a) = nrm x y z).
  { unfold nrm. f_equal. unfold x, y, z. rewrite <- (dot_kept jx jy jz jx jy jz). fold vx vy vz.
    assert (A : wx * vx + wy * vy + wz * vz = a * n). { unfold a, wx, wy, wz, vx, vy, vz. rewrite dot_kept. field. lra. }
    assert (B : wx * wx + wy * wy + wz * wz = n * n). { unfold wx, wy, wz. rewrite dot_kept, Nn, nrm_sq. reflexivity. }
    transitivity (vx * vx + vy * vy + vz * vz - 2 * (a / n) * (wx * vx + wy * vy + wz * vz) + (a / n) * (a / n) * (wx * wx + wy * wy + wz * wz)); [|field; lra].
    rewrite A, B. field. lra. }
  rewrite E. pose proof (nrm_diff vx vy 0 x y z) as D1. pose proof (nrm_diff x y z vx vy 0) as D2.
  rewrite (Rabs_minus_sym x), (Rabs_minus_sym y), (Rabs_minus_sym z) in D2.
  pose proof a_le as A. assert (J0 : 0 <= J) by apply nrm_pos. pose proof D_pos as D0.
  assert (In : 0 < / n) by now apply Rinv_0_lt_compat.
  assert (T : forall w, Rabs w <= D -> Rabs (a * (w / n)) <= D * J / n).
  { intros w H. unfold Rdiv. rewrite !Rabs_mult, (Rabs_pos_eq (/ n)) by lra. replace (D * J * / n) with (J * (D * / n)) by ring.
    apply Rmult_le_compat; auto using Rabs_pos; [apply Rmult_le_pos; [apply Rabs_pos|lra]|]. apply Rmult_le_compat_r; lra. }
  assert (X : Rabs (vx - x) <= D * J / n) by (replace (vx - x) with (a * (wx / n)) by (unfold x; ring); auto).
  assert (Y : Rabs (vy - y) <= D * J / n) by (replace (vy - y) with (a * (wy / n)) by (unfold y; ring); auto).
  assert (Z : Rabs (0 - z) <= 3 * (D * J / n)).
  { replace (0 - z) with (a * ((wz - n) / n) + (- (vz - a))) by (unfold z; field; lra). eapply Rle_trans; [apply Rabs_triang|]. rewrite Rabs_Ropp.
    pose proof (T _ Wz). pose proof axis_close as Ax. replace (2 * D * J / n) with (2 * (D * J / n)) in Ax by (unfold Rdiv; ring). lra. }
  replace (5 * D * J / n) with (5 * (D * J / n)) by (unfold Rdiv; ring). apply Rabs_le. lra.
Qed.
End Axis.
