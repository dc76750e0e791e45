(** Propagation of absolute errors through the alignment. *)
From Flocq Require Import Core BinarySingleNaN Relative.
From Coq Require Import Lra Lia.
From Verif Require Import Py Num RX F64 Np Data Spec SpecR SpecAlAcc Align.
Local Open Scope R_scope.

Local Notation e := (bpow radix2).

Lemma e_pos k : 0 < e k. Proof. apply bpow_gt_0. Qed.
Lemma e_add a b : e a * e b = e (a + b). Proof. symmetry. apply bpow_plus. Qed.

(** ** The format *)
Lemma F64_graceful sm : graceful (F64_rounded sm) (/ IZR (2 ^ 53)).
Proof.
  intros r H. pose proof (FLT_exp_valid (3 - 1024 - 53) 53 (prec_gt_0_ := p53)) as V.
  exists (round radix2 (SpecFloat.fexp 53 1024) ZnearestE r). split.
  - change (rnd (F64_rounded sm) (XR r)) with (brnd 53 1024 (XR r)). unfold brnd. rewrite Rlt_bool_true; [reflexivity|].
    apply Rle_lt_trans with (e 1000).
    + apply abs_round_le_generic; [exact V|apply valid_rnd_N| |exact H].
      apply generic_format_bpow. change (SpecFloat.fexp 53 1024) with (FLT_exp (3 - 1024 - 53) 53). unfold FLT_exp. lia.
    + apply bpow_lt. lia.
  - change (SpecFloat.fexp 53 1024) with (FLT_exp (3 - 1024 - 53) 53).
    destruct (error_N_FLT radix2 (3 - 1024 - 53) 53 ltac:(lia) (fun x => negb (Z.even x)) r) as (ep & et & E1 & E2 & _ & E).
    change (Znearest (fun x => negb (Z.even x))) with ZnearestE in E. rewrite E.
    replace (r * (1 + ep) + et - r) with (r * ep + et) by ring.
    eapply Rle_trans; [apply Rabs_triang|]. rewrite Rabs_mult.
    assert (A : / 2 * e (- (53) + 1) = / IZR (2 ^ 53)) by (simpl; lra).
    assert (B : Rabs et <= / IZR (2 ^ 53) * tiny).
    { eapply Rle_trans; [exact E2|]. replace (/ IZR (2 ^ 53)) with (e (-53)) by (simpl; reflexivity).
      unfold tiny. rewrite e_add. replace (/ 2) with (e (-1)) by (simpl; lra). rewrite e_add. apply bpow_le. lia. }
    rewrite A in E1. pose proof (Rabs_pos r). nra.
Qed.

(** ** Errors relative to a scale *)
Section Err.
Context {S : Num} (RS : Rounded S).
Variable u : R.
Hypothesis U : graceful RS u.
Hypothesis U0 : 0 < u.
Hypothesis U1 : u <= e (-40).

(** [x] is [r] up to [k u s], and [r] is at most [s]. *)
Definition ap (k s : R) (x : S) (r : R) : Prop := exists v, val RS x = XR v /\ Rabs (v - r) <= k * u * s /\ Rabs r <= s.
Definition scale (s : R) : Prop := e (-900) <= s <= e 900.

Lemma scale_pos s : scale s -> 0 < s.
Proof. intros (A & _). pose proof (e_pos (-900)). lra. Qed.
Lemma tiny_scale s : scale s -> 0 < tiny /\ tiny <= s / 4.
Proof.
  intros (A & _). split; [apply e_pos|]. apply Rle_trans with (e (-900) / 4); [|lra].
  apply Rle_trans with (e (-902)); [apply bpow_le; lia|]. replace (e (-902)) with (e (-900) * e (-2)) by (rewrite e_add; reflexivity).
  replace (e (-2)) with (/ 4) by (simpl; lra). lra.
Qed.
Lemma scale_huge s t : scale s -> t <= 4 * s -> t <= huge.
Proof.
  intros (_ & A) H. apply Rle_trans with (4 * e 900); [lra|]. replace 4 with (e 2) by (simpl; lra). rewrite e_add. apply bpow_le. lia.
Qed.

Lemma ap_val k s x r : ap k s x r -> k * u <= / 4 -> exists v, val RS x = XR v /\ Rabs (v - r) <= k * u * s /\ Rabs r <= s /\ Rabs v <= 5 / 4 * s.
Proof.
  intros (v & E & A & B) K. exists v. split; [exact E|]. split; [exact A|]. split; [exact B|].
  pose proof (Rabs_pos r). assert (k * u * s <= / 4 * s) by (apply Rmult_le_compat_r; lra).
  replace v with ((v - r) + r) by ring. eapply Rle_trans; [apply Rabs_triang|]. lra.
Qed.
Lemma ap_weaken k k' s s' x r : ap k s x r -> 0 <= k <= k' -> s <= s' -> ap k' s' x r.
Proof.
  intros (v & E & A & B) K L. exists v. split; [exact E|]. pose proof (Rabs_pos r). split; [|lra].
  eapply Rle_trans; [exact A|]. apply Rmult_le_compat; nra.
Qed.
Lemma ap_exact s x r : val RS x = XR r -> Rabs r <= s -> ap 0 s x r.
Proof. intros E B. exists r. split; [exact E|]. split; [|exact B]. replace (r - r) with 0 by ring. rewrite Rabs_R0. lra. Qed.

(** One more rounding. *)
Lemma ap_round k s x t r : scale s -> k * u <= / 4 -> val RS x = rnd RS (XR t) -> Rabs (t - r) <= k * u * s -> Rabs r <= s ->
  ap (k + 2) s x r.
Proof.
  intros H K E A B. pose proof (scale_pos s H). destruct (tiny_scale s H) as [T0 T1].
  assert (k * u * s <= / 4 * s) by (apply Rmult_le_compat_r; lra).
  assert (C : Rabs t <= 5 / 4 * s) by (replace t with ((t - r) + r) by ring; eapply Rle_trans; [apply Rabs_triang|]; lra).
  destruct (U t) as (v & Ev & Bv); [apply (scale_huge s _ H); lra|].
  exists v. split; [congruence|]. split; [|exact B].
  replace (v - r) with ((v - t) + (t - r)) by ring. eapply Rle_trans; [apply Rabs_triang|].
  assert (u * (Rabs t + tiny) <= u * (2 * s)) by (apply Rmult_le_compat_l; lra). lra.
Qed.

Lemma ap_add k s1 s2 x y r q : ap k s1 x r -> ap k s2 y q -> scale (s1 + s2) -> k * u <= / 4 -> ap (k + 2) (s1 + s2) (x + y)%num (r + q).
Proof.
  intros (v & E & A & B) (w & F & C & D) H K. apply ap_round with (v + w); auto.
  - rewrite (val_add RS), E, F. reflexivity.
  - replace (v + w - (r + q)) with ((v - r) + (w - q)) by ring. eapply Rle_trans; [apply Rabs_triang|]. lra.
  - eapply Rle_trans; [apply Rabs_triang|]. lra.
Qed.
Lemma ap_sub k s1 s2 x y r q : ap k s1 x r -> ap k s2 y q -> scale (s1 + s2) -> k * u <= / 4 -> ap (k + 2) (s1 + s2) (x - y)%num (r - q).
Proof.
  intros (v & E & A & B) (w & F & C & D) H K. apply ap_round with (v - w); auto.
  - rewrite (val_sub RS), E, F. reflexivity.
  - replace (v - w - (r - q)) with ((v - r) + - (w - q)) by ring. eapply Rle_trans; [apply Rabs_triang|]. rewrite Rabs_Ropp. lra.
  - unfold Rminus. eapply Rle_trans; [apply Rabs_triang|]. rewrite Rabs_Ropp. lra.
Qed.
Lemma ap_opp k s x r : ap k s x r -> ap k s (nopp x) (- r).
Proof.
  intros (v & E & A & B). exists (- v). split; [rewrite (val_opp RS), E; reflexivity|].
  split; [replace (- v - - r) with (- (v - r)) by ring; now rewrite Rabs_Ropp|now rewrite Rabs_Ropp].
Qed.
Lemma ap_mul k1 k2 s1 s2 x y r q : ap k1 s1 x r -> ap k2 s2 y q -> scale (s1 * s2) -> 0 <= k1 -> 0 <= k2 -> (2 * k1 + 2 * k2) * u <= / 4 ->
  ap (2 * k1 + 2 * k2 + 2) (s1 * s2) (x * y)%num (r * q).
Proof.
  intros X Y H K1 K2 K. destruct (ap_val _ _ _ _ X ltac:(nra)) as (v & E & A & B & _). destruct (ap_val _ _ _ _ Y ltac:(nra)) as (w & F & C & D & G).
  pose proof (Rabs_pos r). pose proof (Rabs_pos q). apply ap_round with (v * w); auto.
  - rewrite (val_mul RS), E, F. reflexivity.
  - replace (v * w - r * q) with ((v - r) * w + r * (w - q)) by ring. eapply Rle_trans; [apply Rabs_triang|]. rewrite !Rabs_mult.
    pose proof (Rabs_pos (v - r)). pose proof (Rabs_pos (w - q)). pose proof (Rabs_pos w).
    assert (Rabs (v - r) * Rabs w <= (k1 * u * s1) * (5 / 4 * s2)) by (apply Rmult_le_compat; lra).
    assert (Rabs r * Rabs (w - q) <= s1 * (k2 * u * s2)) by (apply Rmult_le_compat; lra).
    assert (0 <= k1 * u * (s1 * s2)) by (repeat apply Rmult_le_pos; lra).
    assert (0 <= k2 * u * (s1 * s2)) by (repeat apply Rmult_le_pos; lra). nra.
  - rewrite Rabs_mult. apply Rmult_le_compat; lra.
Qed.

(** Division by a positive number known to a relative error. *)
Lemma ap_div k1 k2 s x y r D : ap k1 s x r -> ap k2 D y D -> 0 < D -> scale (s / D) -> 0 <= k1 -> 0 <= k2 -> (2 * k1 + 2 * k2) * u <= / 4 ->
  ap (2 * k1 + 2 * k2 + 2) (s / D) (x / y)%num (r / D).
Proof.
  intros (v & E & A & B) (w & F & C & _) HD H K1 K2 K. pose proof (Rabs_pos r).
  assert (L : k2 * u * D <= / 8 * D) by (apply Rmult_le_compat_r; nra).
  assert (W : 7 / 8 * D <= w) by (revert C; unfold Rabs; destruct (Rcase_abs (w - D)); lra).
  assert (I : / w <= 8 / 7 * / D).
  { apply Rle_trans with (/ (7 / 8 * D)); [apply Rinv_le_contravar; lra|]. right. field. lra. }
  assert (I0 : 0 < / w) by (apply Rinv_0_lt_compat; lra). assert (ID : 0 < / D) by now apply Rinv_0_lt_compat.
  apply ap_round with (v / w); auto.
  - rewrite (val_div RS) by (rewrite F; intros [=]; lra). rewrite E, F. cbn. unfold xdiv. destruct (Req_EM_T w 0); [lra|reflexivity].
  - replace (v / w - r / D) with ((v - r) * / w + r * (D - w) * (/ w * / D)) by (field; lra).
    eapply Rle_trans; [apply Rabs_triang|]. rewrite !Rabs_mult, (Rabs_pos_eq (/ w)), (Rabs_pos_eq (/ D)) by lra.
    rewrite (Rabs_minus_sym D w). pose proof (Rabs_pos (v - r)). pose proof (Rabs_pos (w - D)).
    assert (P1 : Rabs (v - r) * / w <= (k1 * u * s) * (8 / 7 * / D)) by (apply Rmult_le_compat; lra).
    assert (P2 : Rabs r * Rabs (w - D) <= s * (k2 * u * D)) by (apply Rmult_le_compat; lra).
    assert (P3 : Rabs r * Rabs (w - D) * (/ w * / D) <= s * (k2 * u * D) * (8 / 7 * / D * / D)).
    { apply Rmult_le_compat; [nra|nra|exact P2|]. apply Rmult_le_compat_r; lra. }
    replace (s * (k2 * u * D) * (8 / 7 * / D * / D)) with (8 / 7 * (k2 * u * (s / D))) in P3 by (field; lra).
    replace (k1 * u * s * (8 / 7 * / D)) with (8 / 7 * (k1 * u * (s / D))) in P1 by (field; lra).
    assert (0 <= s / D) by (unfold Rdiv; nra).
    assert (0 <= k1 * u * (s / D)) by (repeat apply Rmult_le_pos; lra).
    assert (0 <= k2 * u * (s / D)) by (repeat apply Rmult_le_pos; lra). nra.
  - unfold Rdiv. rewrite Rabs_mult, (Rabs_pos_eq (/ D)) by lra. apply Rmult_le_compat_r; lra.
Qed.

(** Square root of a number known to a relative error. *)
Lemma ap_sqrt k x T : ap k (T * T) x (T * T) -> scale T -> 0 <= k -> k * u <= / 4 -> ap (k + 2) T (nsqrt x) T.
Proof.
  intros (v & E & A & _) H K0 K. pose proof (scale_pos T H).
  assert (L : k * u * (T * T) <= / 4 * (T * T)) by (apply Rmult_le_compat_r; nra).
  assert (V : 0 <= v) by (revert A; unfold Rabs; destruct (Rcase_abs (v - T * T)); nra).
  apply ap_round with (sqrt v); auto; [| |rewrite Rabs_pos_eq; lra].
  - rewrite (val_sqrt RS), E. cbn. destruct (Rlt_dec v 0); [lra|reflexivity].
  - pose proof (sqrt_pos v). pose proof (sqrt_sqrt v V) as Q.
    assert (M : Rabs (sqrt v - T) * (sqrt v + T) <= k * u * T * T).
    { rewrite <- (Rabs_pos_eq (sqrt v + T)) by lra. rewrite <- Rabs_mult. replace ((sqrt v - T) * (sqrt v + T)) with (v - T * T) by nra. lra. }
    pose proof (Rabs_pos (sqrt v - T)). apply Rmult_le_reg_r with T; [lra|]. nra.
Qed.
End Err.
