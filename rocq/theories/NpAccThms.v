(** Accuracy of the potential by the numpy backend (C86). *)
From Verif Require Import Py Num RX F64 Np Data Spec SpecR SpecPot Potential DataFacts DataThms PotConcFacts PotFacts CenterFacts CenterThms AlignThms PotThms Ex SpecAcc AccFacts AccThms SpecPotAcc PotAccThms SpecNpAcc.
From Flocq Require Import Core.
From Coq Require Import Lra Lia Psatz Permutation Floats.SpecFloat.
Local Open Scope R_scope.

Lemma perm_forall2 {A B} (P : A -> B -> Prop) l l' : Permutation l l' -> forall r, Forall2 P l' r -> exists r', Forall2 P l r' /\ Permutation r' r.
Proof.
  induction 1 as [|x l l' H IH|x y l|l l' l'' H1 IH1 H2 IH2]; intros r F.
  - inversion F; subst. exists []. auto.
  - inversion F as [|x' b l1 r1 P1 F1]; subst. destruct (IH _ F1) as (r' & F' & Q). exists (b :: r'). split; [now constructor|now constructor].
  - inversion F as [|x' b l1 r1 P1 F1]; subst. inversion F1 as [|x'' b' l2 r2 P2 F2]; subst. exists (b' :: b :: r2). split; [repeat constructor; auto|constructor].
  - destruct (IH2 _ F) as (r2 & F2 & Q2). destruct (IH1 _ F2) as (r1 & F1 & Q1). exists r1. split; [exact F1|]. now transitivity r2.
Qed.
Local Notation tot := (total (fun r : R => r)).
Lemma tot_app l l' : tot (l ++ l') = tot l + tot l'.
Proof. unfold total. induction l as [|a l IH]; cbn [app fold_right]; [ring|]. rewrite IH. ring. Qed.
Lemma tot_perm l l' : Permutation l l' -> tot l = tot l'.
Proof. unfold total. induction 1; cbn [fold_right]; lra. Qed.

Local Notation e := (bpow radix2).
Section Sum.
Context {S : Num} (RS : Rounded S).
Variable u : R.
Hypothesis U : standard RS u.
Hypothesis U0 : 0 <= u.
Hypothesis U1 : u <= / IZR (2 ^ 24).
Local Notation w := (1 - u).

Lemma tot_range rs : (forall r, In r rs -> zb (e (-82)) (e 80) r) -> (tot rs = 0 \/ e (-82) <= tot rs) /\ 0 <= tot rs <= INR (length rs) * e 80.
Proof.
  pose proof (bpow_gt_0 radix2 80). pose proof (bpow_gt_0 radix2 (-82)). unfold total. induction rs as [|r rs IH]; intros Z; cbn [fold_right].
  - simpl. lra.
  - destruct (IH (fun q h => Z q (or_intror h))) as (A & B). cbn [length]. rewrite S_INR. destruct (Z r (or_introl eq_refl)) as [C|C]; lra.
Qed.

(** Adding up numbers that are not negative, each within [k] factors, in any order. *)
Lemma added_near l x : added l x -> forall rs k, Forall2 (fun a r => exists y, val RS a = XR y /\ near w k y r) l rs ->
  (forall r, In r rs -> zb (e (-82)) (e 80) r) -> INR (k + length l) <= 8388608 ->
  exists y, val RS x = XR y /\ near w (k + (length l - 1)) y (tot rs).
Proof.
  pose proof (wp u U1) as W0. pose proof (wl u U0) as W1.
  induction 1 as [|x|l l' x x' A IH A' IH'|l l' x P A IH]; intros rs k F Z L.
  - inversion F; subst. exists 0. split; [apply (val_n0 RS)|]. unfold total, near; cbn [fold_right]. lra.
  - inversion F as [|x' r l1 r1 (y & Y & N) F1]; subst. inversion F1; subst. exists y. split; [exact Y|]. unfold total. cbn [fold_right length]. now rewrite Nat.add_0_r, Rplus_0_r.
  - apply Forall2_app_inv_l in F as (r1 & r2 & F1 & F2 & ->). pose proof (Forall2_length _ _ _ F1) as L1. pose proof (Forall2_length _ _ _ F2) as L2.
    rewrite app_length in *.
    assert (Z1 : forall r, In r r1 -> zb (e (-82)) (e 80) r) by (intros r h; apply Z, in_or_app; auto). assert (Z2 : forall r, In r r2 -> zb (e (-82)) (e 80) r) by (intros r h; apply Z, in_or_app; auto).
    rewrite !plus_INR in L. pose proof (pos_INR (length l)) as P1. pose proof (pos_INR (length l')) as P2.
    destruct (IH r1 k F1 Z1) as (y & Y & N); [rewrite plus_INR; lra|]. destruct (IH' r2 k F2 Z2) as (y' & Y' & N'); [rewrite plus_INR; lra|].
    rewrite tot_app. assert (Zero : forall v, near w k v 0 -> v = 0) by (intros v h; now apply (near_zero w W0 k)).
    destruct l as [|a l]; [|destruct l' as [|a' l']].
    + destruct r1; [|discriminate L1]. cbn [length] in *. unfold total at 1. cbn [fold_right]. rewrite Rplus_0_l.
      rewrite Nat.add_0_r in N. apply Zero in N as ->. exists y'. split; [|exact N'].
      rewrite (val_add RS), Y, Y'. cbn [xadd]. rewrite Rplus_0_l, <- Y'. apply (rnd_val RS).
    + destruct r2; [|discriminate L2]. cbn [length] in *. unfold total at 2. cbn [fold_right]. rewrite Rplus_0_r, Nat.add_0_r.
      rewrite Nat.add_0_r in N'. apply Zero in N' as ->. exists y. split; [|exact N].
      rewrite (val_add RS), Y, Y'. cbn [xadd]. rewrite Rplus_0_r, <- Y. apply (rnd_val RS).
    + set (n := (length (a :: l) - 1)%nat) in *. set (n' := (length (a' :: l') - 1)%nat) in *.
      replace (k + (length (a :: l) + length (a' :: l') - 1))%nat with (k + n + n' + 1)%nat by (unfold n, n'; cbn [length]; lia).
      assert (Ln : INR (k + n + n') <= 8388608).
      { rewrite !plus_INR. unfold n, n'. rewrite !minus_INR by (cbn [length]; lia). simpl (INR 1). lra. }
      apply (op RS u U U0 U1 (k + n + n') _ (y + y')).
      * exact Ln.
      * apply near_add; eapply (near_mono w W0 W1); [|exact N| |exact N']; lia.
      * destruct (tot_range r1 Z1) as (A1 & B1), (tot_range r2 Z2) as (A2 & B2). pose proof (bpow_gt_0 radix2 80). pose proof (bpow_gt_0 radix2 (-82)).
        apply (zb_le (-82) 104); [lia|lia|]. destruct (Req_dec (tot r1 + tot r2) 0) as [E0|E0]; [now left|right]. split; [lra|].
        replace (e 104) with (16777216 * e 80) by (change 104%Z with (24 + 80)%Z; rewrite bpow_plus; reflexivity).
        apply Rle_trans with ((INR (length r1) + INR (length r2)) * e 80); [lra|]. apply Rmult_le_compat_r; [lra|]. rewrite <- L1, <- L2. pose proof (pos_INR k). lra.
      * now rewrite (val_add RS), Y, Y'.
  - destruct (perm_forall2 _ _ _ P _ F) as (r' & F' & Q). rewrite <- (Permutation_length P), <- (tot_perm _ _ Q). apply IH; [exact F'| |now rewrite (Permutation_length P)].
    intros r h. apply Z. eapply Permutation_in; eauto.
Qed.

Lemma sdist_swap s p q : sdist s p q = sdist s q p.
Proof. unfold sdist. f_equal. ring. Qed.
Definition body_of (p : source (S:=S)) : body S := Body (fst (fst p)) (snd (fst p)) (fst (snd p)) (snd (snd p)).
(** One entry of the matrix. *)
Lemma entry_near junk soft s i j p q pr qr : val RS soft = XR s -> reads RS p pr -> reads RS q qr -> i <> j ->
  moderate s -> moderate (px pr - px qr) -> moderate (py pr - py qr) -> moderate (pz pr - pz qr) ->
  0 < pm qr -> moderate (pm qr) -> sdist s pr qr <> 0 ->
  exists t, val RS (nentry junk soft i j (body_of p) (body_of q)) = XR t /\ near w 5 t (pm qr / sdist s pr qr).
Proof.
  intros Vs Rp Rq Ne Ms Mx My Mz P Mm Dn. pose proof (wp u U1) as W0.
  assert (Sw : forall a b, moderate (a - b) -> moderate (b - a)) by (intros a b [H|H]; [left; lra|right; now rewrite Rabs_minus_sym]).
  destruct (dist_near RS u U U0 U1 soft s q p qr pr) as (d & D & Nd); auto.
  pose proof (dist2_range s pr qr Ms Mx My Mz) as Zd. rewrite (sdist_swap s qr pr) in Nd.
  assert (Sp : 0 < sdist s pr qr) by (pose proof (sqrt_pos ((px pr - px qr) * (px pr - px qr) + (py pr - py qr) * (py pr - py qr) + (pz pr - pz qr) * (pz pr - pz qr) + s * s)); unfold sdist in *; lra).
  assert (D0 : d <> 0). { intros ->. destruct Nd as (_ & B & _). pose proof (wk_pos w W0 4). nra. }
  assert (E : nentry junk soft i j (body_of p) (body_of q) = ndiv (src_m q) (soft_dist soft q p)).
  { unfold nentry, ndist. destruct (Nat.eqb_spec i j); [contradiction|]. destruct p as ((x, y), (z, m)), q as ((x', y'), (z', m')). cbn [body_of fst snd b_x b_y b_z b_m src_m soft_dist] in *.
    destruct (neqb _ n0) eqn:Q; [|reflexivity]. exfalso. apply (neqb_iff RS) in Q as (Q & _). rewrite D, (val_n0 RS) in Q. congruence. }
  rewrite E. assert (Vm : val RS (src_m q) = XR (pm qr)) by (destruct q as ((x', y'), (z', m')); apply Rq).
  apply (op RS u U U0 U1 4 _ (pm qr / d)); [simpl; lra| | |].
  - apply (near_mul w W0 0 4); [apply near_refl; lra|]. now apply (near_inv w W0).
  - eapply zb_le; [| |apply (term_range s pr qr); assumption]; lia.
  - rewrite (val_div RS); rewrite D, ?Vm; [|congruence]. unfold xdiv. destruct (Req_EM_T d 0); [contradiction|reflexivity].
Qed.

(** One row. *)
Lemma row_near junk soft s G g (l : list source) lr i p pr x : val RS soft = XR s -> val RS G = XR g ->
  / IZR (2 ^ 40) <= g <= IZR (2 ^ 20) -> Forall2 (reads RS) l lr -> tame s lr -> val RS (junk i i) = XR 0 ->
  nth_error l i = Some p -> nth_error lr i = Some pr ->
  added (map2 (fun j bj => nentry junk soft i j (body_of p) bj) (seq 0 (length l)) (map body_of l)) x ->
  exists v, val RS (nmul x G) = XR v /\
    Rabs (v - g * phi s pr (others lr i)) <= 2 * (INR (length l) + 5) * u * (g * phi s pr (others lr i)).
Proof.
  intros Vs Vg Hg F (Ms & Ap & Mm & Md & Ln) Vj Ep Epr A. pose proof (wp u U1) as W0. pose proof (wl u U0) as W1.
  assert (Ip : (i < length l)%nat) by (apply nth_error_Some; congruence).
  assert (LL : length l = length lr) by (eapply Forall2_length; eauto).
  assert (Rp : reads RS p pr).
  { clear - F Ep Epr. revert i Ep Epr. induction F; intros [|i] E1 E2; simpl in *; try discriminate; [congruence|eauto]. }
  rewrite <- LL in Ln. change (IZR (2 ^ 22)) with 4194304 in Ln.
  pose (f := fun jq : nat * particle => if Nat.eqb i (fst jq) then 0 else if Req_EM_T (sdist s pr (snd jq)) 0 then 0 else pm (snd jq) / sdist s pr (snd jq)).
  assert (Cell : forall k l0 lr0, Forall2 (reads RS) l0 lr0 -> (forall j q, nth_error lr0 j = Some q -> nth_error lr (k + j) = Some q) ->
    Forall2 (fun a r => exists y, val RS a = XR y /\ near w 5 y r)
      (map2 (fun j bj => nentry junk soft i j (body_of p) bj) (seq k (length l0)) (map body_of l0)) (map f (combine (seq k (length l0)) lr0))).
  { intros k l0 lr0 F0. revert k. induction F0 as [|q qr l0 lr0 Rq F0 IH]; intros k Hn; [constructor|]. cbn [length seq map map2 combine]. constructor.
    - specialize (Hn 0%nat qr eq_refl). rewrite Nat.add_0_r in Hn. unfold f. cbn [fst snd]. destruct (Nat.eqb_spec i k) as [<- |Ne].
      + exists 0. split; [|unfold near; lra]. unfold nentry, ndist. rewrite Nat.eqb_refl. destruct (neqb n0 n0) eqn:Q; [exact Vj|].
        exfalso. rewrite (proj2 (neqb_iff RS n0 n0)) in Q; [discriminate Q|]. split; [reflexivity|]. rewrite (val_n0 RS). discriminate.
      + pose proof (Ap i k pr qr Ne Epr Hn) as D. destruct (Req_EM_T (sdist s pr qr) 0); [contradiction|].
        destruct (Md i k pr qr Ne Epr Hn) as (Mx & My & Mz), (Mm qr (nth_error_In _ _ Hn)) as (P & M). apply entry_near; assumption.
    - apply IH. intros j q' Hj. specialize (Hn (Datatypes.S j) q' Hj). now rewrite <- Nat.add_succ_comm in Hn. }
  specialize (Cell 0%nat l lr F (fun j q h => h)).
  assert (Zr : forall r, In r (map f (combine (seq 0 (length l)) lr)) -> zb (e (-82)) (e 80) r).
  { intros r Hr. apply in_map_iff in Hr as ((j & q) & <- & Hj). unfold f. cbn [fst snd]. destruct (Nat.eqb_spec i j) as [_|Ne]; [now left|].
    destruct (Req_EM_T (sdist s pr q) 0) as [_|D]; [now left|]. apply In_nth_error in Hj as (t & Ht).
    assert (Hq : nth_error lr t = Some q /\ t = j).
    { rewrite LL in Ht. clear - Ht. assert (G : forall lr k t, nth_error (combine (seq k (length lr)) lr) t = Some (j, q) -> nth_error lr t = Some q /\ (k + t)%nat = j).
      { induction lr0 as [|a lr0 IH]; intros k [|t0] H; cbn [length seq combine nth_error] in *; try discriminate H; [split; [congruence|injection H as H _; lia]|].
        destruct (IH _ _ H) as (Q1 & Q2). split; [exact Q1|lia]. }
      destruct (G lr 0%nat t Ht) as (Q1 & Q2). auto. }
    destruct Hq as (Hq & ->). destruct (Mm q (nth_error_In _ _ Hq)) as (P & M), (Md i j pr q Ne Epr Hq) as (Mx & My & Mz). apply term_range; auto. now apply dist2_range. }
  assert (Tt : tot (map f (combine (seq 0 (length l)) lr)) = phi s pr (others lr i)).
  { transitivity (total f (combine (seq 0 (length l)) lr)).
    - unfold total. generalize (combine (seq 0 (length l)) lr) as t. induction t as [|a t IH]; cbn [map fold_right]; [reflexivity|now rewrite IH].
    - rewrite LL. unfold f. rewrite (row_others s (fun _ _ => 0) pr lr i 0); [now rewrite Nat.sub_0_r, Rplus_0_l| |lia|now rewrite Nat.sub_0_r].
      intros j q Hj Hn. apply (Ap i j); auto. }
  assert (Lx : length (map2 (fun j bj => nentry junk soft i j (body_of p) bj) (seq 0 (length l)) (map body_of l)) = length l) by (rewrite map2_length, seq_length, map_length; apply Nat.min_id).
  destruct (added_near _ _ A _ 5%nat Cell Zr) as (y & Y & Ny); [rewrite Lx, plus_INR; simpl (INR 5); lra|].
  rewrite Lx, Tt in Ny.
  assert (Zy : zb (e (-82)) (e 104) (phi s pr (others lr i))).
  { rewrite <- Tt. destruct (tot_range _ Zr) as (A1 & B1). pose proof (bpow_gt_0 radix2 80). destruct A1 as [A1|A1]; [now left|right]. split; [exact A1|].
    replace (e 104) with (16777216 * e 80) by (change 104%Z with (24 + 80)%Z; rewrite bpow_plus; reflexivity).
    eapply Rle_trans; [apply B1|]. apply Rmult_le_compat_r; [lra|]. rewrite map_length, combine_length, seq_length, <- LL, Nat.min_id. lra. }
  assert (Zg : zb (e (-40)) (e 20) g) by (right; exact Hg).
  assert (G0 : 0 <= g) by (pose proof (bpow_gt_0 radix2 (-40)) as B; change (e (-40)) with (/ IZR (2 ^ 40)) in B; lra).
  assert (Li : INR (length l - 1) = INR (length l) - 1) by (rewrite minus_INR by lia; reflexivity).
  destruct (op RS u U U0 U1 (5 + (length l - 1)) (nmul x G) (y * g) (phi s pr (others lr i) * g)) as (v & V & Nv).
  - rewrite plus_INR, Li. simpl (INR 5). lra.
  - replace (5 + (length l - 1))%nat with (5 + (length l - 1) + 0)%nat by lia. apply near_mul; [exact W0|exact Ny|now apply near_refl].
  - eapply zb_le; [| |apply (zb_mul2 _ _ _ _ _ _ Zy Zg)]; lia.
  - now rewrite (val_mul RS), Y, Vg.
  - exists v. split; [exact V|]. rewrite (Rmult_comm g).
    replace (INR (length l) + 5) with (INR (5 + (length l - 1) + 1)) by (rewrite !plus_INR, Li; simpl; ring).
    assert (U1' : u <= / 16777216) by exact U1.
    apply near_error; [exact U0| |lra|exact Nv].
    rewrite !plus_INR, Li. simpl (INR 5). simpl (INR 1). pose proof (pos_INR (length l)).
    apply Rle_trans with (4194310 * / 16777216); [|lra]. apply Rmult_le_compat; try lra.
Qed.
End Sum.

Lemma bodies_of {S : Num} (x y z m : list S) : bodies x y z m = map body_of (sources x y z m).
Proof.
  rewrite <- bodies_sources, map_map. rewrite <- (map_id (bodies x y z m)) at 1. apply map_ext. intros [a b c d]. reflexivity.
Qed.
(** The converted inputs. *)
Lemma np_converted sm sm' (g : galaxy (F64s sm)) (G : F32s sm') have junk k s lr : (forall l, added (N:=F32s sm') l (sm' l)) ->
  constructible g -> g_haspot g = false ->
  val (F32_rounded sm') G = XR k -> / IZR (2 ^ 40) <= k <= IZR (2 ^ 20) -> (forall i, val (F32_rounded sm') (junk i i) = XR 0) ->
  (forall so, largest_softening g so -> val (F32_rounded sm') (to32 so) = XR s) ->
  Forall2 (reads (F32_rounded sm'))
    (sources (S:=F32s sm') (map to32 (all_x g)) (map to32 (all_y g)) (map to32 (all_z g)) (map to32 (all_m g))) lr ->
  tame s lr ->
  exists h, potential (W:=F64s sm) (S:=F32s sm') to32 to64 (backend_table G have junk) "numpy" g = Ok h /\
    length (all_pots h) = length lr /\
    forall i p, nth_error lr i = Some p -> exists w v, nth_error (all_pots h) i = Some w /\
      val (F64_rounded sm) w = XR v /\
      Rabs (v + k * phi s p (others lr i)) <= (INR (length lr) + 5) * / IZR (2 ^ 23) * (k * phi s p (others lr i)).
Proof.
  intros Ad Hg Hp Vk Hk Hj So F T.
  destruct (c19_result _ (F32s sm') (F64_rounded sm) to32 to64 (backend_table G have junk) "numpy"
     (numpy_potential (S:=F32s sm') G junk) g Hg Hp eq_refl) as (s' & So' & K).
  set (src := sources _ _ _ _) in F.
  assert (Eb : bodies (S:=F32s sm') (map to32 (all_x g)) (map to32 (all_y g)) (map to32 (all_z g)) (map to32 (all_m g)) = map body_of src) by apply bodies_of.
  assert (Lg : length src = glen g).
  { rewrite <- (map_length body_of), <- Eb. exact (bodies_glen (F64s sm) (F32s sm') to32 g Hg). }
  pose (row := fun i bi => nmul (N:=F32s sm') (nsum (map2 (fun j bj => nentry junk (to32 s') i j bi bj) (seq 0 (length src)) (map body_of src))) G).
  assert (En : numpy_potential (S:=F32s sm') G junk (map to32 (all_x g)) (map to32 (all_y g)) (map to32 (all_z g)) (map to32 (all_m g)) (to32 s') =
    Ok (map2 row (seq 0 (length src)) (map body_of src))).
  { unfold numpy_potential. rewrite Eb, map_length. reflexivity. }
  specialize (K _ En). assert (Ll : length (map2 row (seq 0 (length src)) (map body_of src)) = length src) by (rewrite map2_length, seq_length, map_length; apply Nat.min_id).
  destruct K as (h & Hh & _ & _ & _ & Hpots & _); [etransitivity; [exact Ll|exact Lg]|].
  exists h. split; [exact Hh|]. pose proof (Forall2_length _ _ _ F) as Lr. split.
  { rewrite Hpots. etransitivity; [apply map_length|]. etransitivity; [exact Ll|exact Lr]. }
  intros i p Hi. destruct (nth_error src i) as [q|] eqn:Eq.
  2:{ apply nth_error_None in Eq. assert (i < length lr)%nat by (apply nth_error_Some; congruence). lia. }
  assert (Ii : (i < length src)%nat) by (apply nth_error_Some; congruence).
  destruct (row_near (F32_rounded sm') _ (F32_standard sm') ltac:(left; apply Rinv_0_lt_compat, IZR_lt; reflexivity) ltac:(lra)
    junk (to32 s') s G k src lr i q p (nsum (map2 (fun j bj => nentry junk (to32 s') i j (body_of q) bj) (seq 0 (length src)) (map body_of src))) (So _ So') Vk Hk F T (Hj i) Eq Hi (Ad _)) as (v & V & B).
  exists (to64 (nopp (N:=F32s sm') (row i (body_of q)))), (- v). split.
  - rewrite Hpots, nth_error_map, map2_nth, nth_error_map, Eq, (nth_error_nth' _ 0%nat) by (now rewrite seq_length). rewrite seq_nth by exact Ii. reflexivity.
  - split.
    + change (bval 53 1024 (to64 (nopp (N:=F32s sm') (row i (body_of q)))) = XR (- v)).
      rewrite to64_val. etransitivity; [apply (val_opp (F32_rounded sm'))|]. unfold row. now rewrite V.
    + replace (- v + k * phi s p (others lr i)) with (- (v - k * phi s p (others lr i))) by ring. rewrite Rabs_Ropp.
      eapply Rle_trans; [exact B|]. rewrite Lr. right. change (IZR (2 ^ 24)) with 16777216. change (IZR (2 ^ 23)) with 8388608. lra.
Qed.

(** The numpy backend, when the fresh memory of the diagonal holds zeros, is as accurate as
    the Fortran one (C84), in whatever order np.sum adds. *)
Lemma c86_numpy : forall sm sm' (g : galaxy (F64s sm)) (G : F32s sm') have junk k s lr R0 D,
  (forall l, added (N:=F32s sm') l (nsum l)) -> (forall i, val (F32_rounded sm') (junk i i) = XR 0) ->
  constructible g -> g_haspot g = false ->
  val (F32_rounded sm') G = XR k -> / IZR (2 ^ 40) <= k <= IZR (2 ^ 20) ->
  (forall so, largest_softening g so -> val (F64_rounded sm) so = XR s) -> usual s ->
  Forall2 (reads (F64_rounded sm)) (sources (all_x g) (all_y g) (all_z g) (all_m g)) lr ->
  (forall q, In q lr -> 0 < pm q /\ usual (pm q) /\ forall a, In a [px q; py q; pz q] -> ordinary a /\ Rabs a <= R0) ->
  (forall i j p q, i <> j -> nth_error lr i = Some p -> nth_error lr j = Some q -> D <= sdist s p q) ->
  0 < D -> 0 <= R0 <= IZR (2 ^ 19) * D -> INR (length lr) <= IZR (2 ^ 22) ->
  exists h, potential (W:=F64s sm) (S:=F32s sm') to32 to64 (backend_table G have junk) "numpy" g = Ok h /\
    length (all_pots h) = length lr /\
    forall i p, nth_error lr i = Some p -> exists w v, nth_error (all_pots h) i = Some w /\
      val (F64_rounded sm) w = XR v /\
      Rabs (v + k * phi s p (others lr i)) <= ((INR (length lr) + 8) / IZR (2 ^ 23) + 3 * (R0 / (IZR (2 ^ 22) * D))) * (k * phi s p (others lr i)).
Proof.
  intros sm sm' g G have junk k s lr R0 D Ad Hj Hg Hp Vk Hk So Us F Q Ap D0 HR Ln.
  apply (as_given sm sm' g _ k s lr R0 D); auto. intros s' lr' So' F' T. apply (np_converted sm sm' g G have junk k s' lr'); auto.
Qed.
Lemma seqsum_added (l : list F32) : added (N:=F32) l (nsum l).
Proof.
  assert (H : forall l' (acc : F32) l0, added l0 acc -> added (l0 ++ l') (fold_left (fun a b => nadd (N:=F32) a b) l' acc)).
  { induction l' as [|b l' IH]; intros acc l0 A; cbn [fold_left]; [now rewrite app_nil_r|].
    change (b :: l') with ([b] ++ l'). rewrite app_assoc. apply IH. apply added_two; [exact A|constructor]. }
  exact (H l n0 [] added_none).
Qed.

(** So the two backends agree within twice that bound, and with that the potential hardly
    depends on whether the compiled module could be imported. *)
Lemma c86_backends : forall sm sm' (g : galaxy (F64s sm)) (G : F32s sm') junk k s lr R0 D,
  (forall l, added (N:=F32s sm') l (nsum l)) -> (forall i, val (F32_rounded sm') (junk i i) = XR 0) ->
  constructible g -> g_haspot g = false ->
  val (F32_rounded sm') G = XR k -> / IZR (2 ^ 40) <= k <= IZR (2 ^ 20) ->
  (forall so, largest_softening g so -> val (F64_rounded sm) so = XR s) -> usual s ->
  Forall2 (reads (F64_rounded sm)) (sources (all_x g) (all_y g) (all_z g) (all_m g)) lr ->
  (forall q, In q lr -> 0 < pm q /\ usual (pm q) /\ forall a, In a [px q; py q; pz q] -> ordinary a /\ Rabs a <= R0) ->
  (forall i j p q, i <> j -> nth_error lr i = Some p -> nth_error lr j = Some q -> D <= sdist s p q) ->
  0 < D -> 0 <= R0 <= IZR (2 ^ 19) * D -> INR (length lr) <= IZR (2 ^ 22) ->
  exists h h', potential (W:=F64s sm) (S:=F32s sm') to32 to64 (backend_table G true junk) "numpy" g = Ok h /\
    potential (W:=F64s sm) (S:=F32s sm') to32 to64 (backend_table G true junk) "fortran" g = Ok h' /\
    forall i p, nth_error lr i = Some p -> exists w w' v v', nth_error (all_pots h) i = Some w /\ nth_error (all_pots h') i = Some w' /\
      val (F64_rounded sm) w = XR v /\ val (F64_rounded sm) w' = XR v' /\
      Rabs (v - v') <= 2 * ((INR (length lr) + 8) / IZR (2 ^ 23) + 3 * (R0 / (IZR (2 ^ 22) * D))) * (k * phi s p (others lr i)).
Proof.
  intros sm sm' g G junk k s lr R0 D Ad Hj Hg Hp Vk Hk So Us F Q Ap D0 HR Ln.
  destruct (c86_numpy sm sm' g G true junk k s lr R0 D) as (h & Hh & _ & B); auto.
  destruct (c84_potential sm sm' g G junk k s lr R0 D) as (h' & Hh' & _ & B'); auto.
  exists h, h'. split; [exact Hh|]. split; [exact Hh'|]. intros i p Hi. destruct (B i p Hi) as (w & v & E & V & X), (B' i p Hi) as (w' & v' & E' & V' & X').
  exists w, w', v, v'. repeat (split; [assumption|]). set (b := (INR (length lr) + 8) / IZR (2 ^ 23) + 3 * (R0 / (IZR (2 ^ 22) * D))) in *. set (f := k * phi s p (others lr i)) in *. clearbody b f.
  replace (v - v') with ((v + f) - (v' + f)) by ring. eapply Rle_trans; [apply Rabs_triang|]. rewrite Rabs_Ropp. lra.
Qed.

(** Three particles at 0, 1 and 2 without softening. *)
Example ex_c86 : exists g h, galP = Ok g /\ (forall l, added (N:=F32) l (nsum l)) /\ (forall i, val (F32_rounded (seqsum 24 128 p24 e128)) (junk0 i i) = XR 0) /\
  (forall q, In q partsP -> 0 < pm q /\ usual (pm q) /\ forall a, In a [px q; py q; pz q] -> ordinary a /\ Rabs a <= 2) /\
  (forall i j p q, i <> j -> nth_error partsP i = Some p -> nth_error partsP j = Some q -> 1 <= sdist 0 p q) /\
  potential (W:=F64) (S:=F32) to32 to64 (backend_table n1 false junk0) "numpy" g = Ok h /\
  length (all_pots h) = 3%nat /\
  forall i p, nth_error partsP i = Some p -> exists w v, nth_error (all_pots h) i = Some w /\
    val (F64_rounded (seqsum 53 1024 p53 e1024)) w = XR v /\
    Rabs (v + 1 * phi 0 p (others partsP i)) <= ((3 + 8) / IZR (2 ^ 23) + 3 * (2 / (IZR (2 ^ 22) * 1))) * (1 * phi 0 p (others partsP i)).
Proof.
  destruct ex_c84 as (g & _ & E & Q & Ap & _). destruct galP_fields as (g' & E' & C). assert (g' = g) as -> by congruence.
  destruct C as (Hc & Hp & Ex & Ey & Ez & Em & Es & Eq & Ld & Ls).
  assert (V : forall z, (Z.abs z <= 1024)%Z -> val (F64_rounded (seqsum 53 1024 p53 e1024)) (fZ z) = XR (IZR z)) by (intros z; apply (val_small (F64_rounded (seqsum 53 1024 p53 e1024)))).
  assert (J : forall i, val (F32_rounded (seqsum 24 128 p24 e128)) (junk0 i i) = XR 0) by (intros i; apply (val_n0 (F32_rounded (seqsum 24 128 p24 e128)))).
  destruct (c86_numpy (seqsum 53 1024 p53 e1024) (seqsum 24 128 p24 e128) g n1 false junk0 1 0 partsP 2 1 seqsum_added J Hc Hp) as (h & Hh & L & W); try assumption.
  - apply (val_n1 (F32_rounded (seqsum 24 128 p24 e128))).
  - exact one_range.
  - intros so [(p & (I & Np & _) & <- & _)|(_ & Nu)].
    + destruct I as [<-|[<-|[<-|[]]]]; [change (val (F64_rounded (seqsum 53 1024 p53 e1024)) (p_soft (N:=F64) (g_stars g)) = XR 0); rewrite Es; apply V; lia|contradiction|change (val (F64_rounded (seqsum 53 1024 p53 e1024)) (p_soft (N:=F64) (g_gas g)) = XR 0); rewrite Eq; apply V; lia].
    + exfalso. apply (Nu (g_stars g)). split; [simpl; auto|]. split; [change (plen (N:=F64) (g_stars g) <> 0%nat); rewrite Ls; discriminate|].
      change (nisnan (N:=F64) (p_soft (g_stars g)) = false). rewrite Es. reflexivity.
  - now left.
  - change (F64s (seqsum 53 1024 p53 e1024)) with F64. rewrite Ex, Ey, Ez, Em. unfold sources, fZs, partsP. cbn [map combine].
    repeat (constructor; [repeat split; apply V; lia|]). constructor.
  - lra.
  - change (IZR (2 ^ 19)) with 524288. lra.
  - simpl. lra.
  - exists g, h. split; [exact E|]. split; [exact seqsum_added|]. split; [exact J|]. split; [exact Q|]. split; [exact Ap|]. split; [exact Hh|]. split; [exact L|]. intros i p Hi. destruct (W i p Hi) as (w & v & A & B & C).
    exists w, v. split; [exact A|]. split; [exact B|]. simpl length in C. replace (INR 3) with 3 in C by (simpl; ring). exact C.
Qed.

(** np.sum from the other end. *)
Definition backsum (l : list f32) : f32 := seqsum 24 128 p24 e128 (rev l).
(** Masses 1, 2^24, 1 and 1, the last three at distance 1 from the first. *)
Definition orderG : res (galaxy F64) :=
  do s <- zset STARS [1; 2 ^ 24; 1; 1]%Z [0; 1; 0; 0]%Z [0; 0; 1; 0]%Z [0; 0; 0; 1]%Z [0; 0; 0; 0]%Z [0; 0; 0; 0]%Z [0; 0; 0; 0]%Z None 0;
  do d <- zset DARK_MATTER [] [] [] [] [] [] [] None 0; do q <- zset GAS [] [] [] [] [] [] [] None 0; mk_galaxy s d q.
(** Not bit for bit: the last digit depends on the order in which np.sum adds. *)
Lemma c86_order_refuted : exists (g h h' : galaxy F64), constructible g /\
  (forall l, added (N:=F32) l (nsum l)) /\ (forall l, added (N:=F32s backsum) l (nsum l)) /\
  potential (W:=F64) (S:=F32) to32 to64 (backend_table n1 true (fun _ _ => n0)) "numpy" g = Ok h /\
  potential (W:=F64) (S:=F32s backsum) to32 to64 (backend_table n1 true (fun _ _ => n0)) "numpy" g = Ok h' /\
  option_map fshow (nth_error (all_pots h) 0) = Some (sZ (- 2 ^ 24)) /\ option_map fshow (nth_error (all_pots h') 0) = Some (sZ (- (2 ^ 24 + 2))).
Proof.
  assert (B : (match orderG with Ok g =>
      match potential (W:=F64) (S:=F32) to32 to64 (backend_table n1 true (fun _ _ => n0)) "numpy" g, potential (W:=F64) (S:=F32s backsum) to32 to64 (backend_table n1 true (fun _ _ => n0)) "numpy" g with
      | Ok h, Ok h' => Some (option_map fshow (nth_error (all_pots h) 0), option_map fshow (nth_error (all_pots h') 0)) | _, _ => None end
      | _ => None end) = Some (Some (sZ (- 2 ^ 24)), Some (sZ (- (2 ^ 24 + 2))))) by (vm_compute; reflexivity).
  assert (H : match orderG with Ok g => constructible g | Raise _ => True end).
  { unfold orderG. destruct (zset STARS _ _ _ _ _ _ _ _ _) as [s|] eqn:Es; [|exact I]. destruct (zset DARK_MATTER _ _ _ _ _ _ _ _ _) as [d|] eqn:Ed; [|exact I].
    destruct (zset GAS _ _ _ _ _ _ _ _ _) as [q|] eqn:Eq; [|exact I]. cbn [bind]. destruct (mk_galaxy s d q) as [g|] eqn:Eg; [|exact I].
    exists s, d, q. unfold constructible_set. unfold zset in Es, Ed, Eq. split; [|split; [|split]]; eauto 20. }
  destruct orderG as [g|]; [|discriminate B].
  destruct (potential _ _ _ _ g) as [h|] eqn:E1 in B; [|discriminate B]. destruct (potential _ _ _ _ g) as [h'|] eqn:E2 in B; [|discriminate B].
  exists g, h, h'. split; [exact H|]. split; [exact seqsum_added|]. split; [|split; [exact E1|split; [exact E2|split; congruence]]].
  intros l. apply added_order with (rev l); [apply Permutation_sym, Permutation_rev|].
  assert (X : forall l' (acc : F32s backsum) l0, added l0 acc -> added (l0 ++ l') (fold_left (fun a b => nadd (N:=F32s backsum) a b) l' acc)).
  { induction l' as [|b l' IH]; intros acc l0 A; cbn [fold_left]; [now rewrite app_nil_r|].
    change (b :: l') with ([b] ++ l'). rewrite app_assoc. apply IH. apply added_two; [exact A|constructor]. }
  exact (X (rev l) n0 [] added_none).
Qed.
