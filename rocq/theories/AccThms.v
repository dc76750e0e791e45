(** Accuracy of the single-precision potential (C63). *)
From Verif Require Import Py Num RX F64 Np Data Spec SpecR SpecPot Potential DataFacts DataThms PotConcFacts PotFacts CenterFacts CenterThms AlignThms PotThms Ex SpecAcc AccFacts.
From Coq Require Import Lra Lia.
Local Open Scope R_scope.

Lemma Forall2_app_split {A B} (P : A -> B -> Prop) l r i : Forall2 P l r -> Forall2 P (others l i) (others r i).
Proof.
  intros F. unfold others. revert i. induction F as [|a b l r H F IH]; intros [|i]; simpl; auto.
  constructor; [exact H|apply (IH i)].
Qed.
Lemma others_in {A} (l : list A) i q : In q (others l i) -> exists j, i <> j /\ nth_error l j = Some q.
Proof.
  unfold others. revert i. induction l as [|a l IH]; intros [|i] H.
  - destruct H.
  - destruct H.
  - simpl in H. apply In_nth_error in H as (j & H). exists (S j). split; [lia|exact H].
  - simpl in H. destruct H as [<-|H]; [exists 0%nat; split; [lia|reflexivity]|].
    destruct (IH i H) as (j & N & E). exists (S j). split; [lia|exact E].
Qed.
Lemma others_length {A} (l : list A) i : (i < length l)%nat -> length (others l i) = (length l - 1)%nat.
Proof. intros H. unfold others. rewrite app_length, firstn_length, skipn_length. lia. Qed.

Lemma bodies_glen (W S : Num) (cast : W -> S) (g : galaxy W) : constructible g ->
  length (bodies (map cast (all_x g)) (map cast (all_y g)) (map cast (all_z g)) (map cast (all_m g))) = glen g.
Proof.
  intros Hg. rewrite all_x_gx, all_y_gy, all_z_gz, all_m_gm. apply constructible_ok in Hg.
  pose proof (gxyz_length g Hg) as (Lx & Ly & Lz & _). rewrite bodies_length; rewrite !map_length; rewrite ?gm_length; lia.
Qed.

(** *** C63 *)

(** In any arithmetic that rounds with relative error at most [u], for tame inputs, the value
    the Fortran loop computes for a particle, times G, has a relative error of at
    most 2 (n + 5) u, where n is the number of particles. *)
Lemma c63_pair_sum : forall (S : Num) (RS : Rounded S) u, standard RS u -> 0 <= u <= / IZR (2 ^ 24) ->
  forall soft s G g (l : list source) lr i p pr, val RS soft = XR s -> val RS G = XR g ->
  / IZR (2 ^ 40) <= g <= IZR (2 ^ 20) -> Forall2 (reads RS) l lr -> tame s lr ->
  nth_error l i = Some p -> nth_error lr i = Some pr ->
  exists v, val RS (nmul (pair_sum soft l i p) G) = XR v /\
    Rabs (v - g * phi s pr (others lr i)) <= 2 * (INR (length l) + 5) * u * (g * phi s pr (others lr i)).
Proof.
  intros S RS u U (U0 & U1) soft s G g l lr i p pr Vs Vg Hg F (Ms & Ap & Mm & Md & Ln) Ep Epr.
  assert (Ip : (i < length l)%nat) by (apply nth_error_Some; congruence).
  assert (LL : length l = length lr) by (eapply Forall2_length; eauto).
  assert (Rp : reads RS p pr).
  { clear - F Ep Epr. revert i Ep Epr. induction F; intros [|i] E1 E2; simpl in *; try discriminate; [congruence|eauto]. }
  assert (Li : INR (length (others l i)) = INR (length l) - 1) by (rewrite others_length, minus_INR by lia; reflexivity).
  rewrite <- LL in Ln. change (IZR (2 ^ 22)) with 4194304 in Ln.
  pose proof (Flocq.Core.Raux.bpow_gt_0 Flocq.Core.Zaux.radix2 80) as E80.
  assert (Q : forall q, In q (others lr i) -> 0 < pm q /\ moderate (pm q) /\ moderate (px pr - px q) /\ moderate (py pr - py q) /\ moderate (pz pr - pz q) /\ sdist s pr q <> 0).
  { intros q H. destruct (others_in _ _ _ H) as (j & N & E). destruct (Mm q (nth_error_In _ _ E)), (Md i j pr q N Epr E) as (? & ? & ?).
    repeat (split; auto). eapply Ap; eauto. }
  destruct (sum_near RS u U U0 U1 soft s p pr (others l i) (others lr i) Vs Ms Rp (Forall2_app_split _ _ _ i F) Q n0 0 0 5) as (y & Y & Ny & Zy).
  - apply (val_n0 RS).
  - unfold near. lra.
  - lia.
  - rewrite plus_INR, Li. simpl (INR 5). lra.
  - rewrite Rplus_0_l, Li. destruct (Req_dec (INR (length l) - 1) 0) as [->|Ne]; [left; ring|right].
    assert (1 <= INR (length l) - 1). { assert (2 <= length l)%nat. { destruct (Nat.eq_dec (length l) 1) as [E|E]; [rewrite E in Ne; simpl in Ne; lra|lia]. } apply le_INR in H. simpl in H. lra. }
    pose proof (Flocq.Core.Raux.bpow_le Flocq.Core.Zaux.radix2 (-82) 80 ltac:(lia)).
    split; [nra|]. change 104%Z with (24 + 80)%Z. rewrite Flocq.Core.Raux.bpow_plus. apply Rmult_le_compat_r; [lra|]. simpl. lra.
  - now left.
  - rewrite Rplus_0_l in Ny, Zy. fold (pair_sum soft l i p) in Y.
    assert (Zg : zb (Flocq.Core.Raux.bpow Flocq.Core.Zaux.radix2 (-40)) (Flocq.Core.Raux.bpow Flocq.Core.Zaux.radix2 20) g) by (right; exact Hg).
    assert (G0 : 0 <= g) by (pose proof (Flocq.Core.Raux.bpow_gt_0 Flocq.Core.Zaux.radix2 (-40)) as B; change (Flocq.Core.Raux.bpow Flocq.Core.Zaux.radix2 (-40)) with (/ IZR (2 ^ 40)) in B; lra).
    destruct (op RS u U U0 U1 (5 + length (others l i)) (nmul (pair_sum soft l i p) G) (y * g) (phi s pr (others lr i) * g)) as (v & V & Nv).
    + rewrite plus_INR, Li. simpl (INR 5). lra.
    + replace (5 + length (others l i))%nat with (5 + length (others l i) + 0)%nat by lia.
      apply near_mul; [exact (wp u U1)|exact Ny|now apply near_refl].
    + eapply zb_le; [| |apply (zb_mul2 _ _ _ _ _ _ Zy Zg)]; lia.
    + now rewrite (val_mul RS), Y, Vg.
    + exists v. split; [exact V|]. rewrite (Rmult_comm g).
      replace (INR (length l) + 5) with (INR (5 + length (others l i) + 1)) by (rewrite !plus_INR, Li; simpl; ring).
      change (/ IZR (2 ^ 24)) with (/ 16777216) in U1.
      apply near_error; [exact U0| |lra|exact Nv].
      rewrite !plus_INR, Li. simpl (INR 5). simpl (INR 1). pose proof (pos_INR (length l)).
      apply Rle_trans with (4194310 * / 16777216); [|lra]. apply Rmult_le_compat; try lra.
Qed.

(** The conversions between float64 and float32: to float32 is rounding to nearest, to
    float64 keeps the value. *)
Lemma c63_casts : forall sm sm' (x : F64s sm) (y : F32s sm'),
  val (F32_rounded sm') (to32 x) = rnd (F32_rounded sm') (val (F64_rounded sm) x) /\
  val (F64_rounded sm) (to64 y) = val (F32_rounded sm') y.
Proof. intros sm sm' x y. split; [apply to32_val|apply to64_val]. Qed.

(** The float64 galaxy, the Fortran backend in float32: when the float32 positions, masses
    and softening are tame, [potential] succeeds and each potential is within a relative
    error of (n + 5) 2^-23 of the exact one of the float32 inputs. *)
Lemma c63_potential : forall sm sm' (g : galaxy (F64s sm)) (G : F32s sm') junk k s lr,
  constructible g -> g_haspot g = false ->
  val (F32_rounded sm') G = XR k -> / IZR (2 ^ 40) <= k <= IZR (2 ^ 20) ->
  (forall so, largest_softening g so -> val (F32_rounded sm') (to32 so) = XR s) ->
  Forall2 (reads (F32_rounded sm'))
    (sources (S:=F32s sm') (map to32 (all_x g)) (map to32 (all_y g)) (map to32 (all_z g)) (map to32 (all_m g))) lr ->
  tame s lr ->
  exists h, potential (W:=F64s sm) (S:=F32s sm') to32 to64 (backend_table G true junk) "fortran" g = Ok h /\
    length (all_pots h) = length lr /\
    forall i p, nth_error lr i = Some p -> exists w v, nth_error (all_pots h) i = Some w /\
      val (F64_rounded sm) w = XR v /\
      Rabs (v + k * phi s p (others lr i)) <= (INR (length lr) + 5) * / IZR (2 ^ 23) * (k * phi s p (others lr i)).
Proof.
  intros sm sm' g G junk k s lr Hg Hp Vk Hk So F T.
  destruct (c19_result _ (F32s sm') (F64_rounded sm) to32 to64 (backend_table G true junk) "fortran"
     (fortran_potential (S:=F32s sm') G true) g Hg Hp eq_refl) as (s' & So' & K).
  set (src := sources _ _ _ _) in F.
  assert (Lb : length (bodies (S:=F32s sm') (map to32 (all_x g)) (map to32 (all_y g)) (map to32 (all_z g)) (map to32 (all_m g))) = length src)
    by (unfold src; rewrite <- bodies_sources; symmetry; apply map_length).
  assert (Lg : length src = glen g).
  { rewrite <- Lb. exact (bodies_glen (F64s sm) (F32s sm') to32 g Hg). }
  specialize (K _ eq_refl). destruct K as (h & Hh & _ & _ & _ & Hpots & _).
  { etransitivity; [apply map_length|]. etransitivity; [apply fortran_kernel_length|]. etransitivity; [exact Lb|exact Lg]. }
  exists h. split; [exact Hh|]. pose proof (Forall2_length _ _ _ F) as Lr. split.
  { rewrite Hpots. etransitivity; [apply map_length|]. etransitivity; [apply map_length|]. etransitivity; [apply fortran_kernel_length|]. etransitivity; [exact Lb|exact Lr]. }
  intros i p Hi. destruct (nth_error src i) as [q|] eqn:Eq.
  2:{ apply nth_error_None in Eq. assert (i < length lr)%nat by (apply nth_error_Some; congruence). lia. }
  destruct (c63_pair_sum _ (F32_rounded sm') _ (F32_standard sm') ltac:(split; [left; apply Rinv_0_lt_compat, IZR_lt; reflexivity|lra])
    (to32 s') s G k src lr i q p (So _ So') Vk Hk F T Eq Hi) as (v & V & B).
  eexists. exists (- v). split.
  - rewrite Hpots, !nth_error_map. rewrite (fortran_kernel_nth (S:=F32s sm') _ _ _ _ _ _ _ Eq). reflexivity.
  - split.
    + change (bval 53 1024 (to64 (nopp (N:=F32s sm') (nmul (pair_sum (S:=F32s sm') (to32 s') src i q) G))) = XR (- v)).
      rewrite to64_val. etransitivity; [apply (val_opp (F32_rounded sm'))|]. now rewrite V.
    + replace (- v + k * phi s p (others lr i)) with (- (v - k * phi s p (others lr i))) by ring. rewrite Rabs_Ropp.
      eapply Rle_trans; [exact B|]. rewrite Lr. right. change (IZR (2 ^ 24)) with 16777216. change (IZR (2 ^ 23)) with 8388608. lra.
Qed.

(** Masses 1, 2 and 4 at 0, 1 and 2 on the x axis. *)
Definition partsP : list particle := [Part 1 0 0 0 0 0 0; Part 2 1 0 0 0 0 0; Part 4 2 0 0 0 0 0].
Lemma moderate_Z z : (Z.abs z <= 1024)%Z -> moderate (IZR z).
Proof.
  intros H. destruct (Z.eq_dec z 0) as [->|N]; [now left|right]. rewrite <- abs_IZR. split.
  - apply Rle_trans with 1; [|apply IZR_le; lia]. rewrite <- Rinv_1. apply Rinv_le_contravar; [lra|]. apply IZR_le. now compute.
  - apply IZR_le. change (2 ^ 40)%Z with 1099511627776%Z. lia.
Qed.
Lemma one_range : / IZR (2 ^ 40) <= 1 <= IZR (2 ^ 20).
Proof. change (IZR (2 ^ 40)) with 1099511627776. change (IZR (2 ^ 20)) with 1048576. lra. Qed.
Lemma to32_fZ sm' z : (Z.abs z <= 1024)%Z -> val (F32_rounded sm') (to32 (fZ z)) = XR (IZR z).
Proof.
  intros H. etransitivity; [apply to32_val|].
  assert (E : bval 53 1024 (fZ z) = XR (IZR z)) by (apply (val_small (F64_rounded (seqsum 53 1024 p53 e1024))); exact H).
  rewrite E. apply (rnd_int (F32_rounded sm')). pose proof (intmax_pos (F32_rounded sm')). lia.
Qed.
Lemma partsP_tame : tame 0 partsP.
Proof.
  split; [now left|]. split; [|split; [|split]].
  - intros i j p q Hij Hp Hq. destruct i as [|[|[|i]]], j as [|[|[|j]]]; simpl in Hp, Hq;
      try congruence; try (destruct i; discriminate); try (destruct j; discriminate);
      injection Hp as <-; injection Hq as <-; apply sdist_pos; simpl; lra.
  - intros q [<-|[<-|[<-|[]]]]; simpl; split; try lra; apply moderate_Z; lia.
  - intros i j p q Hij Hp Hq. destruct i as [|[|[|i]]], j as [|[|[|j]]]; simpl in Hp, Hq;
      try congruence; try (destruct i; discriminate); try (destruct j; discriminate);
      injection Hp as <-; injection Hq as <-; simpl; rewrite <- !minus_IZR; repeat split; apply moderate_Z; simpl; lia.
  - simpl. lra.
Qed.

Lemma galP_fields : exists g, galP = Ok g /\ constructible g /\ g_haspot g = false /\ all_x g = fZs [0; 1; 2]%Z /\ all_y g = fZs [0; 0; 0]%Z /\
  all_z g = fZs [0; 0; 0]%Z /\ all_m g = fZs [1; 2; 4]%Z /\ p_soft (g_stars g) = fZ 0 /\ p_soft (g_gas g) = fZ 0 /\
  plen (g_dm g) = 0%nat /\ plen (g_stars g) = 2%nat.
Proof.
  unfold galP, zset. generalize (fZ 7). intros s7.
  set (a := pset_of STARS (fZs [1; 2]%Z) (fZs [0; 1]%Z) (fZs [0; 0]%Z) (fZs [0; 0]%Z) (fZs [0; 0]%Z) (fZs [0; 0]%Z) (fZs [0; 0]%Z) None (fZ 0)).
  set (b := pset_of (N:=F64) DARK_MATTER [] [] [] [] [] [] [] None s7).
  set (c := pset_of GAS (fZs [4]%Z) (fZs [2]%Z) (fZs [0]%Z) (fZs [0]%Z) (fZs [0]%Z) (fZs [0]%Z) (fZs [0]%Z) None (fZ 0)).
  assert (Ea : mk_pset STARS (fZs [1; 2]%Z) (fZs [0; 1]%Z) (fZs [0; 0]%Z) (fZs [0; 0]%Z) (fZs [0; 0]%Z) (fZs [0; 0]%Z) (fZs [0; 0]%Z) None (fZ 0) = Ok a) by (apply mk_pset_ok; repeat split; intros; discriminate).
  assert (Eb : mk_pset (N:=F64) DARK_MATTER [] [] [] [] [] [] [] None s7 = Ok b) by (apply mk_pset_ok; repeat split; intros; discriminate).
  assert (Ec : mk_pset GAS (fZs [4]%Z) (fZs [2]%Z) (fZs [0]%Z) (fZs [0]%Z) (fZs [0]%Z) (fZs [0]%Z) (fZs [0]%Z) None (fZ 0) = Ok c) by (apply mk_pset_ok; repeat split; intros; discriminate).
  assert (Eg : mk_galaxy a b c = Ok (mkGal a b c false)) by reflexivity.
  exists (mkGal a b c false). split.
  { unfold option_map. rewrite Ea. cbn [bind]. change (fZs []) with (@nil F64). rewrite Eb. cbn [bind]. rewrite Ec. exact Eg. }
  split; [exists a, b, c; unfold constructible_set; split; [|split; [|split]]; eauto 20|]. repeat split.
Qed.

(** That galaxy in float64, its potential in float32 with G = 1. *)
Example ex_c63 : exists g h, galP = Ok g /\
  potential (W:=F64) (S:=F32) to32 to64 (backend_table n1 true junk0) "fortran" g = Ok h /\
  length (all_pots h) = 3%nat /\
  forall i p, nth_error partsP i = Some p -> exists w v, nth_error (all_pots h) i = Some w /\
    val (F64_rounded (seqsum 53 1024 p53 e1024)) w = XR v /\
    Rabs (v + 1 * phi 0 p (others partsP i)) <= (3 + 5) * / IZR (2 ^ 23) * (1 * phi 0 p (others partsP i)).
Proof.
  destruct galP_fields as (g & E & C).
  destruct C as (Hc & Hp & Ex & Ey & Ez & Em & Es & Eq & Ld & Ls).
  assert (Vs : bval 24 128 (to32 (p_soft (N:=F64) (g_stars g))) = XR 0) by (rewrite Es; apply (to32_fZ (seqsum 24 128 p24 e128)); lia).
  assert (Vg : bval 24 128 (to32 (p_soft (N:=F64) (g_gas g))) = XR 0) by (rewrite Eq; apply (to32_fZ (seqsum 24 128 p24 e128)); lia).
  destruct (c63_potential (seqsum 53 1024 p53 e1024) (seqsum 24 128 p24 e128) g n1 junk0 1 0 partsP Hc Hp) as (h & Hh & L & V).
  - apply (val_n1 (F32_rounded (seqsum 24 128 p24 e128))).
  - exact one_range.
  - intros so [(p & (I & Np & _) & <- & _)|(_ & Nu)].
    + destruct I as [<-|[<-|[<-|[]]]]; [exact Vs|contradiction|exact Vg].
    + exfalso. apply (Nu (g_stars g)). split; [simpl; auto|]. split; [change (plen (N:=F64) (g_stars g) <> 0%nat); rewrite Ls; discriminate|].
      change (nisnan (N:=F64) (p_soft (g_stars g)) = false). rewrite Es. reflexivity.
  - change (F64s (seqsum 53 1024 p53 e1024)) with F64. rewrite Ex, Ey, Ez, Em. unfold sources, fZs, partsP. cbn [map combine].
    repeat (constructor; [repeat split; apply to32_fZ; lia|]). constructor.
  - apply partsP_tame.
  - exists g, h. split; [exact E|]. split; [exact Hh|]. split; [exact L|]. intros i p Hi. destruct (V i p Hi) as (w & v & A & B & C).
    exists w, v. split; [exact A|]. split; [exact B|]. simpl length in C. replace (INR 3) with 3 in C by (simpl; ring). exact C.
Qed.

(** *** C64 *)

(** Kinetic energy, angular momentum and total energy of a particle, in any arithmetic with
    relative error at most [u], for moderate positions and velocities. The energy of motion
    is accurate relative to itself; the components of the angular momentum and the total
    energy, where terms may cancel, relative to the size of the terms. *)
Lemma c64_derived : forall (S : Num) (RS : Rounded S) u, standard RS u -> 0 <= u <= / IZR (2 ^ 24) ->
  forall (p : pset S) i x y z vx vy vz q, constructible_set p ->
  nth_error (p_x p) i = Some x -> nth_error (p_y p) i = Some y -> nth_error (p_z p) i = Some z ->
  nth_error (p_vx p) i = Some vx -> nth_error (p_vy p) i = Some vy -> nth_error (p_vz p) i = Some vz ->
  val RS x = XR (px q) -> val RS y = XR (py q) -> val RS z = XR (pz q) ->
  val RS vx = XR (pvx q) -> val RS vy = XR (pvy q) -> val RS vz = XR (pvz q) ->
  Forall moderate [px q; py q; pz q; pvx q; pvy q; pvz q] ->
  let speed2 := pvx q * pvx q + pvy q * pvy q + pvz q * pvz q in
  let shown l r e := exists v r', nth_error l i = Some v /\ val RS v = XR r' /\ Rabs (r' - r) <= e in
  let cross a d b c := 4 * u * (Rabs (a * d) + Rabs (b * c)) + / IZR (2 ^ 124) in
  shown (p_ke p) (/ 2 * speed2) (10 * u * (/ 2 * speed2)) /\
  shown (p_Jx p) (py q * pvz q - pz q * pvy q) (cross (py q) (pvz q) (pz q) (pvy q)) /\
  shown (p_Jy p) (pz q * pvx q - px q * pvz q) (cross (pz q) (pvx q) (px q) (pvz q)) /\
  shown (p_Jz p) (px q * pvy q - py q * pvx q) (cross (px q) (pvy q) (py q) (pvx q)) /\
  (forall pot w r, p_pot p = Some pot -> nth_error pot i = Some w -> val RS w = XR r -> Rabs r <= IZR (2 ^ 100) ->
    exists te, p_te p = Some te /\
      shown te (/ 2 * speed2 + r) (12 * u * (/ 2 * speed2 + Rabs r) + / IZR (2 ^ 124))).
Proof.
  intros S RS u U (U0 & U1) p i x y z vx vy vz q Hp Hx Hy Hz Hvx Hvy Hvz X Y Z VX VY VZ M speed2 shown cross.
  destruct (c03_derived S p i x y z vx vy vz Hp Hx Hy Hz Hvx Hvy Hvz) as (Ek & Ex & Ey & Ez & _ & Et).
  rewrite !Forall_cons_iff in M. destruct M as (Mx & My & Mz & Mvx & Mvy & Mvz & _).
  destruct (kin_near RS u U U0 U1 vx vy vz _ _ _ VX VY VZ Mvx Mvy Mvz) as (k & K & Nk).
  pose proof (u_small u U1) as Us.
  assert (Bk : Rabs (k - / 2 * speed2) <= 10 * u * (/ 2 * speed2)).
  { eapply Rle_trans; [apply (near_error u 5); try exact Nk; try lra; simpl; lra|]. simpl. unfold speed2. right. ring. }
  assert (S0 : 0 <= speed2) by (unfold speed2; nra).
  split; [exists (nlit 1 2 * (vx * vx + vy * vy + vz * vz))%num, k; auto|].
  split; [destruct (cross_err RS u U U0 U1 y vz z vy _ _ _ _ Y VZ Z VY) as (j & J & B); auto; exists (y * vz - z * vy)%num, j; auto|].
  split; [destruct (cross_err RS u U U0 U1 z vx x vz _ _ _ _ Z VX X VZ) as (j & J & B); auto; exists (z * vx - x * vz)%num, j; auto|].
  split; [destruct (cross_err RS u U U0 U1 x vy y vx _ _ _ _ X VY Y VX) as (j & J & B); auto; exists (x * vy - y * vx)%num, j; auto|].
  intros pot w r Hpot Hw Vw Rw. destruct (Et pot w Hpot Hw) as (te & Ht & Hi). exists te. split; [exact Ht|].
  assert (Kb : Rabs k <= 2 * (/ 2 * speed2)).
  { replace k with ((k - / 2 * speed2) + / 2 * speed2) by ring. eapply Rle_trans; [apply Rabs_triang|]. rewrite (Rabs_pos_eq (/ 2 * speed2)) by lra. nra. }
  assert (Sb : speed2 <= Flocq.Core.Raux.bpow Flocq.Core.Zaux.radix2 82).
  { pose proof (zb_add2 _ _ _ _ _ _ (zb_add2 _ _ _ _ _ _ (zb_sq _ Mvx) (zb_sq _ Mvy)) (zb_sq _ Mvz)) as Zs.
    destruct Zs as [Zs|Zs]; [unfold speed2; rewrite Zs; apply Flocq.Core.Raux.bpow_ge_0|]. eapply Rle_trans; [apply Zs|]. apply Flocq.Core.Raux.bpow_le. lia. }
  destruct (round_any RS u U U0 U1 (k + r)) as (t & T & Bt).
  { eapply Rle_trans; [apply Rabs_triang|]. change (IZR (2 ^ 127)) with (Flocq.Core.Raux.bpow Flocq.Core.Zaux.radix2 127).
    change (IZR (2 ^ 100)) with (Flocq.Core.Raux.bpow Flocq.Core.Zaux.radix2 100) in Rw.
    pose proof (Flocq.Core.Raux.bpow_le Flocq.Core.Zaux.radix2 82 100 ltac:(lia)).
    apply Rle_trans with (Flocq.Core.Raux.bpow Flocq.Core.Zaux.radix2 (1 + 100)); [|apply Flocq.Core.Raux.bpow_le; lia].
    rewrite Flocq.Core.Raux.bpow_plus. change (Flocq.Core.Raux.bpow Flocq.Core.Zaux.radix2 1) with 2. lra. }
  eexists _, t. split; [exact Hi|]. split; [now rewrite (val_add RS), K, Vw|].
  replace (t - (/ 2 * speed2 + r)) with ((t - (k + r)) + (k - / 2 * speed2)) by ring.
  eapply Rle_trans; [apply Rabs_triang|].
  assert (u * Rabs (k + r) <= u * (2 * (/ 2 * speed2) + Rabs r)) by (apply Rmult_le_compat_l; [exact U0|]; eapply Rle_trans; [apply Rabs_triang|]; lra).
  pose proof (Rabs_pos r). nra.
Qed.

(** float32 and float64 have relative errors of at most 2^-24 and 2^-53, whatever the order
    in which np.sum adds. *)
Lemma c64_formats : forall sm sm',
  standard (F32_rounded sm) (/ IZR (2 ^ 24)) /\ standard (F64_rounded sm') (/ IZR (2 ^ 53)) /\
  0 <= / IZR (2 ^ 53) <= / IZR (2 ^ 24).
Proof.
  intros sm sm'. split; [apply F32_standard|]. split; [apply F64_standard|].
  change (IZR (2 ^ 53)) with 9007199254740992. change (IZR (2 ^ 24)) with 16777216. lra.
Qed.

(** One star at (1, 2, 3) with velocity (4, 5, 6) and potential -7. *)
Example ex_c64 : exists p, zset STARS [1]%Z [1]%Z [2]%Z [3]%Z [4]%Z [5]%Z [6]%Z (Some [-7])%Z 0 = Ok p /\
  let shown l r e := exists v r', nth_error l 0 = Some v /\ val (F64_rounded (seqsum 53 1024 p53 e1024)) v = XR r' /\ Rabs (r' - r) <= e in
  shown (p_ke p) (77 / 2) (/ IZR (2 ^ 44)) /\ shown (p_Jz p) (-3) (/ IZR (2 ^ 44)) /\
  exists te, p_te p = Some te /\ shown te (63 / 2) (/ IZR (2 ^ 43)).
Proof.
  set (sm := seqsum 53 1024 p53 e1024).
  set (p := pset_of (N:=F64) STARS (fZs [1]%Z) (fZs [1]%Z) (fZs [2]%Z) (fZs [3]%Z) (fZs [4]%Z) (fZs [5]%Z) (fZs [6]%Z) (Some (fZs [-7]%Z)) (fZ 0)).
  assert (E : zset STARS [1]%Z [1]%Z [2]%Z [3]%Z [4]%Z [5]%Z [6]%Z (Some [-7])%Z 0 = Ok p).
  { apply mk_pset_ok. repeat split. intros l H. injection H as <-. reflexivity. }
  exists p. split; [exact E|].
  assert (V : forall z, (Z.abs z <= 1024)%Z -> val (F64_rounded sm) (fZ z) = XR (IZR z)) by (intros z; apply (val_small (F64_rounded sm))).
  assert (C : constructible_set p) by (unfold constructible_set; do 10 eexists; exact E).
  destruct (c64_formats (seqsum 24 128 p24 e128) sm) as (_ & St & Us).
  destruct (c64_derived (F64s sm) (F64_rounded sm) _ St Us p 0 (fZ 1) (fZ 2) (fZ 3) (fZ 4) (fZ 5) (fZ 6) (Part 1 1 2 3 4 5 6) C)
    as (A & _ & _ & B & T); try reflexivity; try (apply V; lia).
  - repeat (apply Forall_cons; [apply moderate_Z; lia|]). apply Forall_nil.
  - cbv zeta. simpl px in *. simpl py in *. simpl pvx in *. simpl pvy in *. simpl pvz in *.
    assert (H44 : / IZR (2 ^ 44) = 512 * / IZR (2 ^ 53)) by (change (IZR (2 ^ 44)) with 17592186044416; change (IZR (2 ^ 53)) with 9007199254740992; lra).
    assert (H124 : / IZR (2 ^ 124) <= / IZR (2 ^ 53)) by (exact (Flocq.Core.Raux.bpow_le Flocq.Core.Zaux.radix2 (-124) (-53) ltac:(lia))).
    assert (H43 : / IZR (2 ^ 43) = 1024 * / IZR (2 ^ 53)) by (change (IZR (2 ^ 43)) with 8796093022208; change (IZR (2 ^ 53)) with 9007199254740992; lra).
    rewrite H44, H43. set (u := / IZR (2 ^ 53)) in *.
    split; [|split].
    + destruct A as (v & r & Hv & Vv & Bv). exists v, r. split; [exact Hv|]. split; [exact Vv|].
      replace (/ 2 * (4 * 4 + 5 * 5 + 6 * 6)) with (77 / 2) in Bv by lra. lra.
    + destruct B as (v & r & Hv & Vv & Bv). exists v, r. split; [exact Hv|]. split; [exact Vv|].
      replace (1 * 5 - 2 * 4) with (-3) in Bv by ring. rewrite (Rabs_pos_eq (1 * 5)), (Rabs_pos_eq (2 * 4)) in Bv by lra. lra.
    + destruct (T (fZs [-7]%Z) (fZ (-7)) (-7) eq_refl eq_refl (V (-7)%Z ltac:(lia))) as (te & Ht & (v & r & Hv & Vv & Bv)).
      { rewrite Rabs_left by lra. change (IZR (2 ^ 100)) with (Flocq.Core.Raux.bpow Flocq.Core.Zaux.radix2 100).
        apply Rle_trans with (Flocq.Core.Raux.bpow Flocq.Core.Zaux.radix2 3); [simpl; lra|apply Flocq.Core.Raux.bpow_le; lia]. }
      exists te. split; [exact Ht|]. exists v, r. split; [exact Hv|]. split; [exact Vv|].
      rewrite (Rabs_left (-7)) in Bv by lra. replace (/ 2 * (4 * 4 + 5 * 5 + 6 * 6) + -7) with (63 / 2) in Bv by lra. lra.
Qed.
