(** Lemmas on the propagation of relative errors. *)
From Flocq Require Import Core BinarySingleNaN Relative.
From Coq Require Import Lra Lia.
From Verif Require Import Py Num RX F64 Np Data Spec SpecR SpecPot CenterFacts AlignThms SpecAcc.
Local Open Scope R_scope.

(** The formats satisfy the standard model. *)
Section Format.
Variables prec emax : Z.
Hypothesis Hp : (0 < prec)%Z.
Hypothesis He : (128 <= emax)%Z.
Lemma brnd_standard r : / IZR (2 ^ 126) <= Rabs r <= IZR (2 ^ 127) ->
  exists r', brnd prec emax (XR r) = XR r' /\ Rabs (r' - r) <= / 2 * bpow radix2 (- prec + 1) * Rabs r.
Proof.
  intros (L & U). pose proof (FLT_exp_valid (3 - emax - prec) prec (prec_gt_0_ := Hp)) as V.
  exists (round radix2 (SpecFloat.fexp prec emax) ZnearestE r). split.
  - unfold brnd. rewrite Rlt_bool_true; [reflexivity|].
    apply Rle_lt_trans with (bpow radix2 127).
    + apply abs_round_le_generic; [exact V|apply valid_rnd_N| |exact U].
      apply generic_format_bpow. change (SpecFloat.fexp prec emax) with (FLT_exp (3 - emax - prec) prec). unfold FLT_exp. lia.
    + apply bpow_lt. lia.
  - change (SpecFloat.fexp prec emax) with (FLT_exp (3 - emax - prec) prec).
    apply relative_error_N_FLT; [exact Hp|]. apply Rle_trans with (bpow radix2 (-126)); [apply bpow_le; lia|].
    replace (bpow radix2 (-126)) with (/ IZR (2 ^ 126)) by (simpl; reflexivity). exact L.
Qed.
End Format.

Lemma F32_standard sm : standard (F32_rounded sm) (/ IZR (2 ^ 24)).
Proof.
  intros r H. destruct (brnd_standard 24 128 p24 ltac:(lia) r H) as (r' & E & B). exists r'. split; [exact E|].
  replace (/ IZR (2 ^ 24)) with (/ 2 * bpow radix2 (-24 + 1)); [exact B|]. simpl. lra.
Qed.
Lemma F64_standard sm : standard (F64_rounded sm) (/ IZR (2 ^ 53)).
Proof.
  intros r H. destruct (brnd_standard 53 1024 p53 ltac:(lia) r H) as (r' & E & B). exists r'. split; [exact E|].
  replace (/ IZR (2 ^ 53)) with (/ 2 * bpow radix2 (-53 + 1)); [exact B|]. simpl. lra.
Qed.

Section Near.
Variable w : R.
Hypothesis W0 : 0 < w.
Hypothesis W1 : w <= 1.
(** [x] and [r] agree up to the factor w^k. *)
Definition near (k : nat) (x r : R) : Prop := 0 <= r /\ r * w ^ k <= x /\ x * w ^ k <= r.

Lemma wk_pos k : 0 < w ^ k. Proof. now apply pow_lt. Qed.
Lemma wk_le1 k : w ^ k <= 1.
Proof. induction k; simpl; [lra|]. pose proof (wk_pos k). nra. Qed.
Lemma wk_mono k k' : (k <= k')%nat -> w ^ k' <= w ^ k.
Proof. intros H. destruct (Nat.le_exists_sub _ _ H) as (d & -> & _). rewrite pow_add. pose proof (wk_pos k). pose proof (wk_le1 d). nra. Qed.
Lemma near_ge0 k x r : near k x r -> 0 <= x.
Proof. intros (A & B & _). pose proof (wk_pos k). nra. Qed.
Lemma near_refl x : 0 <= x -> near 0 x x.
Proof. intros H. unfold near. simpl. lra. Qed.
Lemma near_mono k k' x r : (k <= k')%nat -> near k x r -> near k' x r.
Proof.
  intros H N. pose proof (near_ge0 _ _ _ N). destruct N as (A & B & C). pose proof (wk_mono _ _ H). pose proof (wk_pos k').
  split; [exact A|]. split; nra.
Qed.
Lemma near_zero k x : near k x 0 -> x = 0.
Proof. intros (A & B & C). pose proof (wk_pos k). nra. Qed.
Lemma near_trans j k x y r : near j x y -> near k y r -> near (j + k) x r.
Proof.
  intros (A & B & C) (A' & B' & C'). pose proof (wk_pos j). pose proof (wk_pos k). unfold near. rewrite pow_add.
  split; [exact A'|]. split.
  - apply Rle_trans with (y * w ^ j); [|exact B]. nra.
  - apply Rle_trans with (y * w ^ k); [|exact C']. nra.
Qed.
Lemma near_mul j k x y r s : near j x r -> near k y s -> near (j + k) (x * y) (r * s).
Proof.
  intros N N'. pose proof (near_ge0 _ _ _ N). pose proof (near_ge0 _ _ _ N'). destruct N as (A & B & C), N' as (A' & B' & C').
  pose proof (wk_pos j). pose proof (wk_pos k). unfold near. rewrite pow_add. split; [nra|]. split.
  - replace (r * s * (w ^ j * w ^ k)) with ((r * w ^ j) * (s * w ^ k)) by ring. apply Rmult_le_compat; nra.
  - replace (x * y * (w ^ j * w ^ k)) with ((x * w ^ j) * (y * w ^ k)) by ring. apply Rmult_le_compat; nra.
Qed.
Lemma near_add k x y r s : near k x r -> near k y s -> near k (x + y) (r + s).
Proof. intros (A & B & C) (A' & B' & C'). split; [lra|]. split; lra. Qed.
Lemma near_inv k y s : 0 < s -> near k y s -> near k (/ y) (/ s).
Proof.
  intros S0 (A & B & C). pose proof (wk_pos k). assert (0 < y) by nra.
  split; [left; now apply Rinv_0_lt_compat|]. split.
  - apply Rmult_le_reg_l with (s * y); [nra|]. replace (s * y * (/ s * w ^ k)) with (y * w ^ k) by (field; lra). replace (s * y * / y) with s by (field; lra). exact C.
  - apply Rmult_le_reg_l with (s * y); [nra|]. replace (s * y * (/ y * w ^ k)) with (s * w ^ k) by (field; lra). replace (s * y * / s) with y by (field; lra). exact B.
Qed.
Lemma near_sqrt k x r : near (k + k) x r -> near k (sqrt x) (sqrt r).
Proof.
  intros N. pose proof (near_ge0 _ _ _ N). destruct N as (A & B & C). rewrite pow_add in B, C. pose proof (wk_pos k).
  split; [apply sqrt_pos|]. rewrite <- (sqrt_square (w ^ k)) by lra. rewrite <- !sqrt_mult by nra. split; apply sqrt_le_1; nra.
Qed.
(** With few factors the values differ by a factor of two at most. *)
Lemma near_half k x r : / 2 <= w ^ k -> near k x r -> r / 2 <= x <= 2 * r.
Proof. intros H N. pose proof (near_ge0 _ _ _ N). destruct N as (A & B & C). split; nra. Qed.
End Near.

Section Steps.
Context {S : Num} (RS : Rounded S).
Variable u : R.
Hypothesis U : standard RS u.
Hypothesis U0 : 0 <= u.
Hypothesis U1 : u < 1.
Local Notation w := (1 - u).
Lemma w0 : 0 < w. Proof. lra. Qed.
Lemma w1 : w <= 1. Proof. lra. Qed.
Local Notation near := (near w).

Lemma near_round a x : / IZR (2 ^ 126) <= Rabs x <= IZR (2 ^ 127) \/ x = 0 -> val RS a = rnd RS (XR x) ->
  exists y, val RS a = XR y /\ near 1 (Rabs y) (Rabs x) /\ (0 <= x -> 0 <= y).
Proof.
  intros [H|H] E.
  - destruct (U x H) as (y & Ey & B). exists y. split; [congruence|]. unfold AccFacts.near. rewrite pow_1. pose proof (Rabs_pos x) as P.
    assert (B' : Rabs x - u * Rabs x <= Rabs y <= Rabs x + u * Rabs x).
    { pose proof (Rabs_triang_inv y x) as T1. pose proof (Rabs_triang_inv x y) as T2. rewrite (Rabs_minus_sym x y) in T2. lra. }
    split.
    + split; [exact P|]. split; nra.
    + intros X. rewrite (Rabs_right x) in B by lra. apply Rabs_le_inv in B. nra.
  - subst x. rewrite (rnd0 RS) in E. exists 0. split; [exact E|]. rewrite Rabs_R0. unfold AccFacts.near. lra.
Qed.
(** One operation whose exact result, for the computed operands, agrees with [r] up to k
    factors and is in range. *)
Lemma near_op k a x r : (/ 2 <= w ^ k) -> near k x r -> r = 0 \/ 2 * / IZR (2 ^ 126) <= r <= IZR (2 ^ 126) -> val RS a = rnd RS (XR x) ->
  exists y, val RS a = XR y /\ near (k + 1) y r.
Proof.
  intros K N R E. pose proof (near_ge0 w w0 _ _ _ N) as X0. pose proof (near_half w w0 _ _ _ K N) as H.
  assert (Q : IZR (2 ^ 127) = 2 * IZR (2 ^ 126)) by (rewrite <- mult_IZR; reflexivity).
  destruct (near_round a x) as (y & Ey & Ny & Py); [|exact E|].
  - destruct R as [-> | R]; [right; now apply (near_zero w w0 k)|left]. rewrite Rabs_right by lra. rewrite Q. lra.
  - exists y. split; [exact Ey|]. rewrite Nat.add_comm. specialize (Py X0). rewrite !Rabs_right in Ny by lra. eapply near_trans; eauto using w0, w1.
Qed.
(** A difference. *)
Lemma near_diff a b c x y : val RS a = XR x -> val RS b = XR y -> c = nsub a b -> x - y = 0 \/ / IZR (2 ^ 126) <= Rabs (x - y) <= IZR (2 ^ 127) ->
  exists d, val RS c = XR d /\ near 1 (Rabs d) (Rabs (x - y)).
Proof.
  intros A B -> H. destruct (near_round (nsub a b) (x - y)) as (d & D & N & _); [tauto| |eauto].
  rewrite (val_sub RS), A, B. unfold xsub, Rminus. reflexivity.
Qed.
End Steps.

Lemma bernoulli u k : 0 <= u <= 1 -> 1 - INR k * u <= (1 - u) ^ k.
Proof.
  intros H. induction k as [|k IH]; [simpl; lra|]. rewrite S_INR, <- tech_pow_Rmult. pose proof (pos_INR k). nra.
Qed.

(** Zero, or between the two bounds. *)
Definition zb (lo hi r : R) : Prop := r = 0 \/ lo <= r <= hi.
Lemma zb_mul a b c d r s : 0 < a -> 0 < c -> zb a b r -> zb c d s -> zb (a * c) (b * d) (r * s).
Proof.
  intros A C [-> | H] [-> | K]; [left; ring|left; ring|left; ring|right]. split; apply Rmult_le_compat; lra.
Qed.
Lemma zb_add a b d r s : 0 < a -> 0 <= b -> 0 <= d -> zb a b r -> zb a d s -> zb a (b + d) (r + s).
Proof. intros A B D [-> | H] [-> | K]; unfold zb; [left|right|right|right]; lra. Qed.
Lemma zb_weak a b a' b' r : a' <= a -> b <= b' -> zb a b r -> zb a' b' r.
Proof. unfold zb; intros A B [H|H]; [left|right]; lra. Qed.
Local Notation e := (bpow radix2).
Lemma zb_mul2 a b c d r s : zb (e a) (e b) r -> zb (e c) (e d) s -> zb (e (a + c)) (e (b + d)) (r * s).
Proof. intros H K. rewrite !bpow_plus. apply zb_mul; auto using bpow_gt_0. Qed.
Lemma zb_add2 a b c d r s : zb (e a) (e b) r -> zb (e c) (e d) s ->
  zb (e (Z.min a c)) (e (Z.max b d + 1)) (r + s).
Proof.
  intros H K. apply (zb_weak (e (Z.min a c)) (e (Z.max b d) + e (Z.max b d))); [lra|rewrite bpow_plus; simpl; lra|].
  pose proof (bpow_gt_0 radix2 (Z.max b d)).
  apply zb_add; [apply bpow_gt_0|lra|lra|eapply zb_weak; [| |exact H]|eapply zb_weak; [| |exact K]]; apply bpow_le; lia.
Qed.
Lemma zb_le a b c d r : (c <= a)%Z -> (b <= d)%Z -> zb (e a) (e b) r -> zb (e c) (e d) r.
Proof. intros A B. apply zb_weak; now apply bpow_le. Qed.
Lemma zb_moderate a : moderate a -> zb (e (-40)) (e 40) (Rabs a).
Proof. intros [-> | H]; [left; apply Rabs_R0|right; exact H]. Qed.
Lemma zb_sqrt a b r : zb (e (a + a)) (e (b + b)) r -> zb (e a) (e b) (sqrt r).
Proof.
  intros [-> | H]; [left; apply sqrt_0|right]. rewrite !bpow_plus in H. pose proof (bpow_gt_0 radix2 a). pose proof (bpow_gt_0 radix2 b).
  rewrite <- (sqrt_square (e a)), <- (sqrt_square (e b)) by lra. split; apply sqrt_le_1; nra.
Qed.
Lemma zb_inv a b r : r <> 0 -> zb (e a) (e b) r -> zb (e (- b)) (e (- a)) (/ r).
Proof.
  intros Z [H|H]; [easy|right]. pose proof (bpow_gt_0 radix2 a). rewrite !bpow_opp. split; apply Rinv_le_contravar; lra.
Qed.
Lemma abs_sq a : Rabs a * Rabs a = a * a.
Proof. rewrite <- Rabs_mult. apply Rabs_pos_eq, Rle_0_sqr. Qed.

(** The pair sum. *)
Section Pair.
Context {S : Num} (RS : Rounded S).
Variable u : R.
Hypothesis U : standard RS u.
Hypothesis U0 : 0 <= u.
Hypothesis U1 : u <= / IZR (2 ^ 24).
Local Notation w := (1 - u).
Local Notation near := (near w).
Lemma u_small : u <= / 16777216. Proof. exact U1. Qed.
Lemma half k : INR k <= 8388608 -> / 2 <= w ^ k.
Proof.
  intros H. pose proof u_small. eapply Rle_trans; [|apply bernoulli; lra].
  pose proof (pos_INR k). assert (INR k * u <= 8388608 * / 16777216) by (apply Rmult_le_compat; lra). lra.
Qed.
Lemma u_lt1 : u < 1. Proof. pose proof u_small. lra. Qed.
Lemma wp : 0 < w. Proof. pose proof u_lt1. lra. Qed.
Lemma wl : w <= 1. Proof. lra. Qed.

(** The range in which [near_op] applies. *)
Lemma op k a x r : INR k <= 8388608 -> near k x r -> zb (e (-125)) (e 126) r -> val RS a = rnd RS (XR x) ->
  exists y, val RS a = XR y /\ near (k + 1) y r.
Proof.
  intros K N R E. apply (near_op RS u U U0 u_lt1 k a x r (half _ K) N); [|exact E].
  destruct R as [R|R]; [now left|right]. change (/ IZR (2 ^ 126)) with (e (-126)). change (IZR (2 ^ 126)) with (e 126).
  replace (2 * e (-126)) with (e (-125)); [exact R|]. change (-125)%Z with (1 + -126)%Z. now rewrite bpow_plus.
Qed.
Lemma square_near a b x y : val RS a = XR x -> val RS b = XR y -> moderate (x - y) ->
  exists d, val RS (nmul (nsub a b) (nsub a b)) = XR d /\ near 3 d ((x - y) * (x - y)).
Proof.
  intros A B M. pose proof (zb_moderate _ M) as Z.
  destruct (near_diff RS u U U0 u_lt1 a b (nsub a b) x y A B eq_refl) as (d & D & N).
  { destruct M as [M|M]; [now left|right]. change (/ IZR (2 ^ 126)) with (e (-126)). change (IZR (2 ^ 127)) with (e 127).
    change (/ IZR (2 ^ 40)) with (e (-40)) in M. change (IZR (2 ^ 40)) with (e 40) in M.
    split; [eapply Rle_trans; [|apply M]|eapply Rle_trans; [apply M|]]; apply bpow_le; lia. }
  rewrite <- (abs_sq (x - y)).
  change 3%nat with (2 + 1)%nat. apply (op 2 _ (d * d)); [simpl; lra| | |].
  - rewrite <- (abs_sq d). apply (near_mul w wp 1 1); assumption.
  - eapply zb_le; [| |apply (zb_mul2 _ _ _ _ _ _ Z Z)]; lia.
  - now rewrite (val_mul RS), D.
Qed.
(** The distance. *)
Lemma zb_sq a : moderate a -> zb (e (-80)) (e 80) (a * a).
Proof. intros M. rewrite <- abs_sq. apply zb_moderate in M. exact (zb_mul2 _ _ _ _ _ _ M M). Qed.
Lemma dist2_range s p q : moderate s -> moderate (px p - px q) -> moderate (py p - py q) -> moderate (pz p - pz q) ->
  zb (e (-40)) (e 42) (sdist s p q).
Proof.
  intros M X Y Z. apply zb_sqrt. eapply zb_le; [| |apply zb_add2; [apply zb_add2; [apply zb_add2|]|]; apply zb_sq; eassumption]; lia.
Qed.
Lemma dist_near soft s p q pr qr : val RS soft = XR s -> reads RS p pr -> reads RS q qr ->
  moderate s -> moderate (px pr - px qr) -> moderate (py pr - py qr) -> moderate (pz pr - pz qr) ->
  exists d, val RS (soft_dist soft p q) = XR d /\ near 4 d (sdist s pr qr).
Proof.
  intros Vs Rp Rq Ms Mx My Mz. destruct p as ((x, y), (z, m)), q as ((x', y'), (z', m')).
  destruct Rp as (X & Y & Z & _), Rq as (X' & Y' & Z' & _). unfold soft_dist, sdist.
  destruct (square_near _ _ _ _ X X' Mx) as (a & A & Na), (square_near _ _ _ _ Y Y' My) as (b & B & Nb), (square_near _ _ _ _ Z Z' Mz) as (c & C & Nc).
  pose proof (zb_sq _ Mx) as Zx. pose proof (zb_sq _ My) as Zy. pose proof (zb_sq _ Mz) as Zz. pose proof (zb_sq _ Ms) as Zs.
  assert (D : exists d, val RS (nmul soft soft) = XR d /\ near 1 d (s * s)).
  { apply (op 0 _ (s * s)); [simpl; lra|apply near_refl, Rle_0_sqr|eapply zb_le; [| |exact Zs]; lia|now rewrite (val_mul RS), Vs]. }
  destruct D as (d & D & Nd).
  destruct (op 3 (nadd (nmul (nsub x x') (nsub x x')) (nmul (nsub y y') (nsub y y'))) (a + b) _ ltac:(simpl; lra) (near_add w _ _ _ _ _ Na Nb)) as (ab & AB & Nab).
  { eapply zb_le; [| |apply zb_add2; eassumption]; lia. }
  { now rewrite (val_add RS), A, B. }
  apply (near_mono w wp wl 3 4) in Nc; [|lia].
  destruct (op 4 (nadd (nadd (nmul (nsub x x') (nsub x x')) (nmul (nsub y y') (nsub y y'))) (nmul (nsub z z') (nsub z z'))) (ab + c) _ ltac:(simpl; lra) (near_add w _ _ _ _ _ Nab Nc)) as (abc & ABC & Nabc).
  { eapply zb_le; [| |apply zb_add2; [apply zb_add2|]; eassumption]; lia. }
  { now rewrite (val_add RS), AB, C. }
  apply (near_mono w wp wl 1 5) in Nd; [|lia].
  destruct (op 5 (nadd (nadd (nadd (nmul (nsub x x') (nsub x x')) (nmul (nsub y y') (nsub y y'))) (nmul (nsub z z') (nsub z z'))) (nmul soft soft)) (abc + d) _ ltac:(simpl; lra) (near_add w _ _ _ _ _ Nabc Nd)) as (t & T & Nt).
  { eapply zb_le; [| |apply zb_add2; [apply zb_add2; [apply zb_add2|]|]; eassumption]; lia. }
  { now rewrite (val_add RS), ABC, D. }
  pose proof (near_ge0 w wp _ _ _ Nt) as T0. apply (near_sqrt w wp 3) in Nt.
  apply (op 3 _ (sqrt t)); [simpl; lra|exact Nt| |].
  - eapply zb_le; [| |apply (dist2_range s pr qr); assumption]; lia.
  - rewrite (val_sqrt RS), T. unfold xsqrt. destruct (Rlt_dec t 0); [lra|reflexivity].
Qed.
(** One term of the sum, then the sum. *)
Lemma term_range s p q : 0 < pm q -> moderate (pm q) -> sdist s p q <> 0 -> zb (e (-40)) (e 42) (sdist s p q) ->
  zb (e (-82)) (e 80) (pm q / sdist s p q).
Proof.
  intros Q M D H. apply zb_moderate in M. rewrite Rabs_pos_eq in M by lra.
  exact (zb_mul2 _ _ _ _ _ _ M (zb_inv _ _ _ D H)).
Qed.
Lemma term_near soft s p q pr qr : val RS soft = XR s -> reads RS p pr -> reads RS q qr ->
  moderate s -> moderate (px pr - px qr) -> moderate (py pr - py qr) -> moderate (pz pr - pz qr) ->
  0 < pm qr -> moderate (pm qr) -> sdist s pr qr <> 0 ->
  exists t, val RS (ndiv (src_m q) (soft_dist soft p q)) = XR t /\ near 5 t (pm qr / sdist s pr qr).
Proof.
  intros Vs Rp Rq Ms Mx My Mz P Mm Dn. destruct (dist_near soft s p q pr qr) as (d & D & Nd); auto.
  pose proof (dist2_range s pr qr Ms Mx My Mz) as Zd.
  assert (Sp : 0 < sdist s pr qr) by (pose proof (sqrt_pos ((px pr - px qr) * (px pr - px qr) + (py pr - py qr) * (py pr - py qr) + (pz pr - pz qr) * (pz pr - pz qr) + s * s)); unfold sdist in *; lra).
  assert (d <> 0). { intros ->. destruct Nd as (_ & B & _). pose proof (wk_pos w wp 4). nra. }
  assert (Vm : val RS (src_m q) = XR (pm qr)) by (destruct q as ((x', y'), (z', m')); apply Rq).
  apply (op 4 _ (pm qr / d)); [simpl; lra| | |].
  - apply (near_mul w wp 0 4); [apply near_refl; lra|]. now apply (near_inv w wp).
  - eapply zb_le; [| |apply (term_range s pr qr); assumption]; lia.
  - rewrite (val_div RS); rewrite D, ?Vm; [|congruence]. unfold xdiv. destruct (Req_EM_T d 0); [contradiction|reflexivity].
Qed.
Lemma sum_near soft s p pr l lr : val RS soft = XR s -> moderate s -> reads RS p pr -> Forall2 (reads RS) l lr ->
  (forall q, In q lr -> 0 < pm q /\ moderate (pm q) /\ moderate (px pr - px q) /\ moderate (py pr - py q) /\ moderate (pz pr - pz q) /\ sdist s pr q <> 0) ->
  forall acc a r k, val RS acc = XR a -> near k a r -> (5 <= k)%nat -> INR (k + length l) <= 8388608 ->
  zb (e (-82)) (e 104) (r + INR (length l) * e 80) -> zb (e (-82)) (e 104) r ->
  exists y, val RS (fold_left (fun acc q => nadd acc (ndiv (src_m q) (soft_dist soft p q))) l acc) = XR y /\
    near (k + length l) y (r + phi s pr lr) /\ zb (e (-82)) (e 104) (r + phi s pr lr).
Proof.
  intros Vs Ms Rp F. induction F as [|q qr l lr Rq F IH]; intros H acc a r k Va Na K L Z Zr.
  - exists a. unfold phi; simpl in *. rewrite Nat.add_0_r, Rplus_0_r. auto.
  - destruct (H qr (or_introl eq_refl)) as (P & Mm & Mx & My & Mz & D).
    destruct (term_near soft s p q pr qr) as (t & T & Nt); auto. simpl fold_left.
    pose proof (term_range s pr qr P Mm D (dist2_range s pr qr Ms Mx My Mz)) as Zt.
    assert (Lk : INR (k + length (q :: l)) = INR k + INR (length l) + 1) by (rewrite plus_INR; cbn [length]; rewrite S_INR; ring).
    rewrite Lk in L. pose proof (pos_INR (length l)) as L0. pose proof (bpow_gt_0 radix2 80) as E80. pose proof (bpow_gt_0 radix2 (-82)) as E82.
    assert (Hr : 0 <= r) by (apply Na). assert (Ht : 0 <= t) by (eapply (near_ge0 w wp); eauto).
    cbn [length] in Z. rewrite S_INR in Z.
    assert (Ub : r + (INR (length l) + 1) * e 80 <= e 104) by (destruct Z as [Z|Z]; [pose proof (bpow_gt_0 radix2 104); lra|lra]).
    assert (Tt : 0 <= pm qr / sdist s pr qr <= e 80) by (destruct Zt as [Zt|Zt]; lra).
    assert (Zn : zb (e (-82)) (e 104) (r + pm qr / sdist s pr qr)).
    { destruct Zt as [Zt|Zt]; [rewrite Zt, Rplus_0_r; exact Zr|right]. nra. }
    destruct (op k (nadd acc (ndiv (src_m q) (soft_dist soft p q))) (a + t) (r + pm qr / sdist s pr qr)) as (b & B & Nb).
    + lra.
    + apply near_add; [exact Na|]. now apply (near_mono w wp wl 5 k).
    + eapply zb_le; [| |exact Zn]; lia.
    + now rewrite (val_add RS), Va, T.
    + destruct (IH (fun q' h => H q' (or_intror h)) _ b _ (k + 1)%nat B Nb) as (y & Y & Ny & Zy).
      * lia.
      * rewrite !plus_INR. simpl (INR 1). lra.
      * destruct (Req_dec (r + pm qr / sdist s pr qr + INR (length l) * e 80) 0) as [E0|E0]; [now left|right].
        destruct Zn as [Zn|Zn]; [|nra]. rewrite Zn in *. split; [|nra].
        destruct l as [|q0 l]; [simpl in E0; lra|]. cbn [length] in *. rewrite S_INR in *. pose proof (pos_INR (length l)).
        pose proof (bpow_le radix2 (-82) 80 ltac:(lia)). nra.
      * exact Zn.
      * exists y. split; [exact Y|]. unfold phi in *; simpl sumR. rewrite <- Rplus_assoc. cbn [length].
        replace (k + Datatypes.S (length l))%nat with (k + 1 + length l)%nat by lia. auto.
Qed.
End Pair.

(** From factors to a relative error. *)
Lemma near_error u k y r : 0 <= u -> INR k * u <= / 2 -> u <= 1 -> near (1 - u) k y r -> Rabs (y - r) <= 2 * INR k * u * r.
Proof.
  intros U K U1 (A & B & C). pose proof (bernoulli u k (conj U U1)) as D. pose proof (pos_INR k).
  replace (2 * INR k * u * r) with (2 * (INR k * u) * r) by ring. pose proof (Rmult_le_pos _ _ H U) as Dp.
  revert Dp K D B C. generalize ((1 - u) ^ k) as W. generalize (INR k * u) as d. intros d W Dp K D B C.
  assert (0 <= y) by nra. apply Rabs_le. split; [nra|].
  assert (y * (1 - d) <= r) by nra. assert (0 <= r * (d * (1 - 2 * d))) by (apply Rmult_le_pos; [lra|apply Rmult_le_pos; lra]).
  assert (r <= r * (1 + 2 * d) * (1 - d)) by lra.
  assert ((y - r * (1 + 2 * d)) * (1 - d) <= 0) by lra. nra.
Qed.

(** Conversions. *)
Lemma normalize_val prec emax (Hp : FLX.Prec_gt_0 prec) (Hm : Prec_lt_emax prec emax) s m e :
  bval prec emax (binary_normalize prec emax Hp Hm mode_NE (cond_Zopp s (Zpos m)) e s) =
  brnd prec emax (XR (F2R (Float radix2 (cond_Zopp s (Zpos m)) e))).
Proof.
  pose proof (binary_normalize_correct prec emax Hp Hm mode_NE (cond_Zopp s (Zpos m)) e s) as C. cbv zeta in C. simpl round_mode in C.
  set (r := F2R (Float radix2 (cond_Zopp s (Zpos m)) e)) in *.
  apply (val_of_spec prec emax _ _ (Rlt_bool r 0)).
  destruct (Rlt_bool (Rabs _) _); [tauto|]. split; [exact C|].
  intros Hn. destruct (Rlt_bool_spec r 0); split; intros; try discriminate; lra.
Qed.
Lemma to32_val x : bval 24 128 (to32 x) = brnd 24 128 (bval 53 1024 x).
Proof.
  destruct x as [s|[|]| |s m e H]; try reflexivity; [|apply normalize_val].
  change (XR 0 = brnd 24 128 (XR 0)). unfold brnd. rewrite round_0, Rabs_R0 by apply valid_rnd_N. rewrite Rlt_bool_true; [reflexivity|apply bpow_gt_0].
Qed.
Lemma to64_val x : bval 53 1024 (to64 x) = bval 24 128 x.
Proof.
  destruct x as [s|[|]| |s m e H]; try reflexivity. unfold to64. rewrite normalize_val.
  change (F2R (Float radix2 (cond_Zopp s (Z.pos m)) e)) with (B2R (B754_finite (prec:=24) (emax:=128) s m e H)).
  pose proof (generic_format_B2R 24 128 (B754_finite s m e H)) as F. pose proof (abs_B2R_lt_emax 24 128 (B754_finite s m e H)) as L.
  change (bval 24 128 (B754_finite s m e H)) with (XR (B2R (B754_finite (prec:=24) (emax:=128) s m e H))).
  generalize dependent (B2R (B754_finite (prec:=24) (emax:=128) s m e H)). intros r F L.
  unfold brnd. rewrite round_generic; [|apply valid_rnd_N|].
  - rewrite Rlt_bool_true; [reflexivity|]. eapply Rlt_trans; [exact L|]. apply bpow_lt. lia.
  - revert F. apply generic_inclusion_mag. intros _. unfold SpecFloat.fexp, SpecFloat.emin. lia.
Qed.

(** Rounding anywhere below 2^127: relative error [u] and an absolute one for tiny results. *)
Section Any.
Context {S : Num} (RS : Rounded S).
Variable u : R.
Hypothesis U : standard RS u.
Hypothesis U0 : 0 <= u.
Hypothesis U1 : u <= / IZR (2 ^ 24).
Local Notation tiny := (/ IZR (2 ^ 124)).
Lemma tiny_eq : tiny = 4 * / IZR (2 ^ 126).
Proof.
  change tiny with (e (-124)). change (/ IZR (2 ^ 126)) with (e (-126)). change (-124)%Z with (2 + -126)%Z. now rewrite bpow_plus.
Qed.
Lemma round_any r : Rabs r <= IZR (2 ^ 127) -> exists r', rnd RS (XR r) = XR r' /\ Rabs (r' - r) <= u * Rabs r + tiny.
Proof.
  intros H. pose proof (u_small u U1) as Us. rewrite tiny_eq. pose proof (bpow_gt_0 radix2 (-126)) as T.
  change (e (-126)) with (/ IZR (2 ^ 126)) in T. set (t := / IZR (2 ^ 126)) in *.
  destruct (Rle_or_lt t (Rabs r)) as [L|L].
  - destruct (U r (conj L H)) as (r' & E & B). exists r'. split; [exact E|lra].
  - assert (Tt : t <= 1). { unfold t. change (/ IZR (2 ^ 126)) with (e (-126)). change 1 with (e 0). apply bpow_le. lia. }
    assert (B1 : 1 <= IZR (2 ^ 127)) by (change (IZR (2 ^ 127)) with (e 127); change 1 with (e 0); apply bpow_le; lia).
    assert (At : Rabs t = t) by (apply Rabs_pos_eq; lra).
    destruct (U t) as (a & Ea & Ba); [fold t; rewrite At; lra|].
    destruct (U (- t)) as (b & Eb & Bb); [fold t; rewrite Rabs_Ropp, At; lra|].
    rewrite At in Ba. rewrite Rabs_Ropp, At in Bb. apply Rabs_le_inv in Ba. apply Rabs_le_inv in Bb.
    apply Rabs_def2 in L as (L1 & L2).
    assert (M1 : xle (rnd RS (XR r)) (rnd RS (XR t))) by (apply (rnd_mono RS); simpl; lra).
    assert (M2 : xle (rnd RS (XR (- t))) (rnd RS (XR r))) by (apply (rnd_mono RS); simpl; lra).
    rewrite Ea in M1. rewrite Eb in M2. destruct (rnd RS (XR r)) as [r'| | |]; simpl in M1, M2; try contradiction.
    exists r'. split; [reflexivity|]. pose proof (Rabs_pos r). assert (u * t <= t) by nra. assert (0 <= u * Rabs r) by nra. apply Rabs_le. lra.
Qed.
Lemma mul_err a b x y : val RS a = XR x -> val RS b = XR y -> moderate x -> moderate y ->
  exists p, val RS (nmul a b) = XR p /\ Rabs (p - x * y) <= u * Rabs (x * y) /\ Rabs (x * y) <= e 80.
Proof.
  intros A B X Y. pose proof (zb_mul2 _ _ _ _ _ _ (zb_moderate _ X) (zb_moderate _ Y)) as Z. rewrite <- Rabs_mult in Z.
  rewrite (val_mul RS), A, B. simpl xmul. destruct Z as [Z|Z].
  - assert (E : x * y = 0) by (destruct (Req_dec (x * y) 0) as [E|E]; [exact E|now apply Rabs_no_R0 in E]).
    rewrite E, (rnd0 RS). exists 0. split; [reflexivity|]. rewrite Rminus_0_r, !Rabs_R0. pose proof (bpow_gt_0 radix2 80). lra.
  - destruct (U (x * y)) as (p & P & Bp); [|exists p; split; [exact P|split; [exact Bp|apply Z]]].
    change (/ IZR (2 ^ 126)) with (e (-126)). change (IZR (2 ^ 127)) with (e 127).
    split; [eapply Rle_trans; [|apply Z]|eapply Rle_trans; [apply Z|]]; apply bpow_le; lia.
Qed.
(** A component of the angular momentum. *)
Lemma cross_err a d b c x y z t : val RS a = XR x -> val RS d = XR y -> val RS b = XR z -> val RS c = XR t ->
  moderate x -> moderate y -> moderate z -> moderate t ->
  exists j, val RS (nsub (nmul a d) (nmul b c)) = XR j /\
    Rabs (j - (x * y - z * t)) <= 4 * u * (Rabs (x * y) + Rabs (z * t)) + tiny.
Proof.
  intros A D B C X Y Z T. pose proof (u_small u U1) as Us.
  destruct (mul_err _ _ _ _ A D X Y) as (p & P & Bp & Rp), (mul_err _ _ _ _ B C Z T) as (q & Q & Bq & Rq).
  rewrite (val_sub RS), P, Q. unfold xsub. simpl xopp. simpl xadd. fold (p - q).
  set (m := x * y) in *. set (n := z * t) in *. pose proof (Rabs_pos m). pose proof (Rabs_pos n).
  assert (Pm : Rabs p <= 2 * Rabs m). { replace p with ((p - m) + m) by ring. eapply Rle_trans; [apply Rabs_triang|]. nra. }
  assert (Qn : Rabs q <= 2 * Rabs n). { replace q with ((q - n) + n) by ring. eapply Rle_trans; [apply Rabs_triang|]. nra. }
  assert (PQ : Rabs (p - q) <= Rabs p + Rabs q) by (eapply Rle_trans; [apply Rabs_triang|rewrite Rabs_Ropp; lra]).
  destruct (round_any (p - q)) as (j & J & Bj).
  { eapply Rle_trans; [exact PQ|]. change (IZR (2 ^ 127)) with (e 127). apply Rle_trans with (e (2 + 80)); [|apply bpow_le; lia].
    rewrite bpow_plus. change (e 2) with 4. lra. }
  exists j. split; [exact J|].
  replace (j - (m - n)) with ((j - (p - q)) + ((p - m) - (q - n))) by ring.
  eapply Rle_trans; [apply Rabs_triang|]. assert (Rabs (p - m - (q - n)) <= u * Rabs m + u * Rabs n) by (eapply Rle_trans; [apply Rabs_triang|rewrite Rabs_Ropp; lra]).
  assert (u * Rabs (p - q) <= u * (2 * Rabs m + 2 * Rabs n)) by (apply Rmult_le_compat_l; lra). nra.
Qed.
(** The kinetic energy. *)
Lemma kin_near a b c x y z : val RS a = XR x -> val RS b = XR y -> val RS c = XR z -> moderate x -> moderate y -> moderate z ->
  exists k, val RS (nmul (nlit 1 2) (nadd (nadd (nmul a a) (nmul b b)) (nmul c c))) = XR k /\
    near (1 - u) 5 k (/ 2 * (x * x + y * y + z * z)).
Proof.
  intros A B C X Y Z. pose proof (zb_sq _ X) as Zx. pose proof (zb_sq _ Y) as Zy. pose proof (zb_sq _ Z) as Zz.
  assert (Sq : forall v r, val RS v = XR r -> zb (e (-80)) (e 80) (r * r) -> exists d, val RS (nmul v v) = XR d /\ near (1 - u) 1 d (r * r)).
  { intros v r V R. apply (op RS u U U0 U1 0 _ (r * r)); [simpl; lra|apply near_refl, Rle_0_sqr|eapply zb_le; [| |exact R]; lia|now rewrite (val_mul RS), V]. }
  destruct (Sq _ _ A Zx) as (p & P & Np), (Sq _ _ B Zy) as (q & Q & Nq), (Sq _ _ C Zz) as (s & Es & Ns).
  destruct (op RS u U U0 U1 1 (nadd (nmul a a) (nmul b b)) (p + q) _ ltac:(simpl; lra) (near_add _ _ _ _ _ _ Np Nq)) as (pq & PQ & Npq).
  { eapply zb_le; [| |apply zb_add2; eassumption]; lia. }
  { now rewrite (val_add RS), P, Q. }
  apply (near_mono (1 - u) (wp u U1) (wl u U0) 1 2) in Ns; [|lia].
  destruct (op RS u U U0 U1 2 (nadd (nadd (nmul a a) (nmul b b)) (nmul c c)) (pq + s) _ ltac:(simpl; lra) (near_add _ _ _ _ _ _ Npq Ns)) as (t & T & Nt).
  { eapply zb_le; [| |apply zb_add2; [apply zb_add2|]; eassumption]; lia. }
  { now rewrite (val_add RS), PQ, Es. }
  destruct (op RS u U U0 U1 0 (nlit (N:=S) 1 2) (/ 2) (/ 2)) as (h & Hh & Nh).
  { simpl; lra. }
  { apply near_refl. lra. }
  { right. change (/ 2) with (e (-1)). split; apply bpow_le; lia. }
  { unfold nlit. rewrite (val_div RS).
    - rewrite !(val_small RS) by (simpl; lia). unfold xdiv. destruct (Req_EM_T 2 0); [lra|]. do 2 f_equal. lra.
    - rewrite (val_small RS) by (simpl; lia). intros E. injection E as E. lra. }
  apply (op RS u U U0 U1 4 _ (h * t)); [simpl; lra|apply (near_mul (1 - u) (wp u U1) 1 3); assumption| |now rewrite (val_mul RS), Hh, T].
  assert (Zh : zb (e (-1)) (e 0) (/ 2)) by (right; simpl; lra).
  eapply zb_le; [| |apply (zb_mul2 _ _ _ _ _ _ Zh (zb_add2 _ _ _ _ _ _ (zb_add2 _ _ _ _ _ _ Zx Zy) Zz))]; lia.
Qed.
End Any.
