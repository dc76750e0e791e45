(** Accuracy of the Fortran backend with fused multiply-adds (C91). *)
From Verif Require Import Py Num RX F64 Np Data Spec SpecR SpecPot Potential DataFacts DataThms PotConcFacts PotFacts CenterFacts CenterThms AlignThms PotThms Ex SpecAcc SpecPotAcc AccFacts AccThms PotAccThms Fma SpecFma.
From Flocq Require Import Core BinarySingleNaN.
From Coq Require Import Lra Lia.
Local Open Scope R_scope.

Section Pair.
Context {S : Num} (RS : Rounded S).
Variable u : R.
Hypothesis U : standard RS u.
Hypothesis U0 : 0 <= u.
Hypothesis U1 : u <= / IZR (2 ^ 24).
Variable fma : S -> S -> S -> S.
Hypothesis FM : fused RS fma.
Local Notation w := (1 - u).
Local Notation near := (near w).
Local Notation e := (bpow radix2).
Let op := op RS u U U0 U1.
Let wp := wp u U1.
Let wl := wl u U0.

Lemma diff_near a b x y : val RS a = XR x -> val RS b = XR y -> moderate (x - y) ->
  exists d, val RS (nsub a b) = XR d /\ near 2 (d * d) ((x - y) * (x - y)).
Proof.
  intros A B M. destruct (near_diff RS u U U0 (u_lt1 u U1) a b (nsub a b) x y A B eq_refl) as (d & D & N).
  { destruct M as [M|M]; [now left|right]. change (/ IZR (2 ^ 126)) with (e (-126)). change (IZR (2 ^ 127)) with (e 127).
    change (/ IZR (2 ^ 40)) with (e (-40)) in M. change (IZR (2 ^ 40)) with (e 40) in M.
    split; [eapply Rle_trans; [|apply M]|eapply Rle_trans; [apply M|]]; apply bpow_le; lia. }
  exists d. split; [exact D|]. rewrite <- (abs_sq (x - y)), <- (abs_sq d). apply (near_mul w wp 1 1); assumption.
Qed.
(** A sum with a product, fused or not. *)
Lemma step_near (f : bool) k a b t x y q r : (3 <= k)%nat -> INR k <= 100 -> val RS a = XR x -> near 2 (x * x) q -> zb (e (-80)) (e 80) q ->
  val RS t = XR y -> near k y r -> zb (e (-80)) (e 100) r -> zb (e (-80)) (e 101) (r + q) ->
  b = (if f then fma a a t else nadd t (nmul a a)) ->
  exists v, val RS b = XR v /\ near (k + 1) v (r + q).
Proof.
  intros K Kb A N Zq T Nt Zr Zs ->. destruct f.
  - apply (op k _ (y + x * x)); [lra| |eapply zb_le; [| |exact Zs]; lia|].
    + apply near_add; [exact Nt|]. apply (near_mono w wp wl 2 k); [lia|exact N].
    + rewrite (FM a a t x x y A A T). now rewrite Rplus_comm.
  - destruct (op 2 (nmul a a) (x * x) q ltac:(simpl; lra) N) as (v & V & Nv); [eapply zb_le; [| |exact Zq]; lia|now rewrite (val_mul RS), A|].
    apply (op k _ (y + v)); [lra| |eapply zb_le; [| |exact Zs]; lia|].
    + apply near_add; [exact Nt|]. apply (near_mono w wp wl (2 + 1) k); [lia|exact Nv].
    + now rewrite (val_add RS), T, V.
Qed.
Lemma cdist_near c soft s p q pr qr : val RS soft = XR s -> reads RS (src_of p) pr -> reads RS (src_of q) qr ->
  moderate s -> moderate (px pr - px qr) -> moderate (py pr - py qr) -> moderate (pz pr - pz qr) ->
  exists d, val RS (cdist fma c soft p q) = XR d /\ near 4 d (sdist s pr qr).
Proof.
  intros Vs (X & Y & Z & _) (X' & Y' & Z' & _) Ms Mx My Mz.
  destruct (diff_near _ _ _ _ X X' Mx) as (a & A & Na), (diff_near _ _ _ _ Y Y' My) as (b & B & Nb), (diff_near _ _ _ _ Z Z' Mz) as (d & D & Nd).
  pose proof (zb_sq _ Mx) as Zx. pose proof (zb_sq _ My) as Zy. pose proof (zb_sq _ Mz) as Zz. pose proof (zb_sq _ Ms) as Zs.
  assert (Ns : near 2 (s * s) (s * s)) by (apply (near_mono w wp wl 0 2); [lia|]; apply near_refl, Rle_0_sqr).
  unfold cdist, sdist. set (dx := (b_x p - b_x q)%num) in *. set (dy := (b_y p - b_y q)%num) in *. set (dz := (b_z p - b_z q)%num) in *.
  assert (XY : exists v, val RS (match c_xy c with Plain => (dx * dx + dy * dy)%num | FuseX => fma dx dx (dy * dy)%num | FuseY => fma dy dy (dx * dx)%num end) = XR v /\
     near 4 v ((px pr - px qr) * (px pr - px qr) + (py pr - py qr) * (py pr - py qr))).
  { assert (PX : exists v, val RS (nmul dx dx) = XR v /\ near 3 v ((px pr - px qr) * (px pr - px qr))) by (apply (op 2 _ (a * a)); [simpl; lra|exact Na|eapply zb_le; [| |exact Zx]; lia|now rewrite (val_mul RS), A]).
    assert (PY : exists v, val RS (nmul dy dy) = XR v /\ near 3 v ((py pr - py qr) * (py pr - py qr))) by (apply (op 2 _ (b * b)); [simpl; lra|exact Nb|eapply zb_le; [| |exact Zy]; lia|now rewrite (val_mul RS), B]).
    destruct PX as (vx & VX & NX), PY as (vy & VY & NY).
    assert (Zxy : zb (e (-80)) (e 101) ((px pr - px qr) * (px pr - px qr) + (py pr - py qr) * (py pr - py qr))) by (eapply zb_le; [| |apply zb_add2; eassumption]; lia).
    destruct (c_xy c).
    - apply (step_near false 3 dy _ (nmul dx dx) b vx); auto; [simpl; lra|eapply zb_le; [| |exact Zx]; lia].
    - rewrite Rplus_comm. rewrite Rplus_comm in Zxy. apply (step_near true 3 dx _ (nmul dy dy) a vy); auto; [simpl; lra|eapply zb_le; [| |exact Zy]; lia].
    - apply (step_near true 3 dy _ (nmul dx dx) b vx); auto; [simpl; lra|eapply zb_le; [| |exact Zx]; lia]. }
  set (xy := match c_xy c with Plain => _ | FuseX => _ | FuseY => _ end) in *. destruct XY as (vxy & VXY & NXY).
  destruct (step_near (c_z c) 4 dz (if c_z c then fma dz dz xy else (xy + dz * dz)%num) xy d vxy _ _ ltac:(lia) ltac:(simpl; lra) D Nd Zz VXY NXY) as (v3 & V3 & N3);
    [eapply zb_le; [| |apply zb_add2; eassumption]; lia|eapply zb_le; [| |apply zb_add2; [apply zb_add2|]; eassumption]; lia|reflexivity|].
  set (xyz := if c_z c then _ else _) in *.
  destruct (step_near (c_soft c) 5 soft (if c_soft c then fma soft soft xyz else (xyz + soft * soft)%num) xyz s v3 _ _ ltac:(lia) ltac:(simpl; lra) Vs Ns Zs V3 N3) as (t & T & Nt);
    [eapply zb_le; [| |apply zb_add2; [apply zb_add2|]; eassumption]; lia|eapply zb_le; [| |apply zb_add2; [apply zb_add2; [apply zb_add2|]|]; eassumption]; lia|reflexivity|].
  pose proof (near_ge0 w wp _ _ _ Nt) as T0. apply (near_sqrt w wp 3) in Nt.
  apply (op 3 _ (sqrt t)); [simpl; lra|exact Nt| |].
  - eapply zb_le; [| |apply (dist2_range s pr qr); assumption]; lia.
  - rewrite (val_sqrt RS), T. unfold xsqrt. destruct (Rlt_dec t 0); [lra|reflexivity].
Qed.

(** The sum over any list of things with a mass and a distance. *)
Lemma any_sum_near {A} (mass dst : A -> S) s pr (l : list A) lr : moderate s ->
  Forall2 (fun a q => val RS (mass a) = XR (pm q) /\ exists d, val RS (dst a) = XR d /\ near 4 d (sdist s pr q)) l lr ->
  (forall q, In q lr -> 0 < pm q /\ moderate (pm q) /\ moderate (px pr - px q) /\ moderate (py pr - py q) /\ moderate (pz pr - pz q) /\ sdist s pr q <> 0) ->
  forall acc a r k, val RS acc = XR a -> near k a r -> (5 <= k)%nat -> INR (k + length l) <= 8388608 ->
  zb (e (-82)) (e 104) (r + INR (length l) * e 80) -> zb (e (-82)) (e 104) r ->
  exists y, val RS (fold_left (fun acc q => nadd acc (ndiv (mass q) (dst q))) l acc) = XR y /\
    near (k + length l) y (r + phi s pr lr) /\ zb (e (-82)) (e 104) (r + phi s pr lr).
Proof.
  intros Ms F. induction F as [|q qr l lr (Vm & d & Vd & Nd) F IH]; intros H acc a r k Va Na K L Z Zr.
  - exists a. unfold phi; simpl in *. rewrite Nat.add_0_r, Rplus_0_r. auto.
  - destruct (H qr (or_introl eq_refl)) as (P & Mm & Mx & My & Mz & D).
    pose proof (dist2_range s pr qr Ms Mx My Mz) as Zd.
    assert (Sp : 0 < sdist s pr qr) by (pose proof (sqrt_pos ((px pr - px qr) * (px pr - px qr) + (py pr - py qr) * (py pr - py qr) + (pz pr - pz qr) * (pz pr - pz qr) + s * s)); unfold sdist in *; lra).
    assert (T : exists t, val RS (ndiv (mass q) (dst q)) = XR t /\ near 5 t (pm qr / sdist s pr qr)).
    { assert (d <> 0). { intros ->. destruct Nd as (_ & B & _). pose proof (wk_pos w wp 4). nra. }
      apply (op 4 _ (pm qr / d)); [simpl; lra| | |].
      - apply (near_mul w wp 0 4); [apply near_refl; lra|]. now apply (near_inv w wp).
      - eapply zb_le; [| |apply (term_range s pr qr); assumption]; lia.
      - rewrite (val_div RS); rewrite Vd, ?Vm; [|congruence]. unfold xdiv. destruct (Req_EM_T d 0); [contradiction|reflexivity]. }
    destruct T as (t & T & Nt). simpl fold_left.
    pose proof (term_range s pr qr P Mm D Zd) as Zt.
    assert (Lk : INR (k + length (q :: l)) = INR k + INR (length l) + 1) by (rewrite plus_INR; cbn [length]; rewrite S_INR; ring).
    rewrite Lk in L. pose proof (pos_INR (length l)) as L0. pose proof (bpow_gt_0 radix2 80) as E80. pose proof (bpow_gt_0 radix2 (-82)) as E82.
    assert (Hr : 0 <= r) by (apply Na). assert (Ht : 0 <= t) by (eapply (near_ge0 w wp); eauto).
    cbn [length] in Z. rewrite S_INR in Z.
    assert (Ub : r + (INR (length l) + 1) * e 80 <= e 104) by (destruct Z as [Z|Z]; [pose proof (bpow_gt_0 radix2 104); lra|lra]).
    assert (Tt : 0 <= pm qr / sdist s pr qr <= e 80) by (destruct Zt as [Zt|Zt]; lra).
    assert (Zn : zb (e (-82)) (e 104) (r + pm qr / sdist s pr qr)).
    { destruct Zt as [Zt|Zt]; [rewrite Zt, Rplus_0_r; exact Zr|right]. nra. }
    destruct (op k (nadd acc (ndiv (mass q) (dst q))) (a + t) (r + pm qr / sdist s pr qr)) as (b & B & Nb).
    + lra.
    + apply near_add; [exact Na|]. now apply (near_mono w wp wl 5 k).
    + eapply zb_le; [| |exact Zn]; lia.
    + now rewrite (val_add RS), Va, T.
    + destruct (IH (fun q' h => H q' (or_intror h)) _ b _ (k + 1)%nat B Nb) as (y & Y & Ny & Zy).
      * lia.
      * rewrite !plus_INR. simpl (INR 1). lra.
      * destruct (Req_dec (r + pm qr / sdist s pr qr + INR (length l) * e 80) 0) as [E0|E0]; [now left|right].
        destruct Zn as [Zn|Zn]; [|nra]. rewrite Zn in *. split; [|nra].
        destruct l as [|q0 l]; [simpl in E0; lra|]. cbn [length] in *. rewrite S_INR in *. pose proof (pos_INR (length l)).
        pose proof (bpow_le radix2 (-82) 80 ltac:(lia)). nra.
      * exact Zn.
      * exists y. split; [exact Y|]. unfold phi in *; simpl sumR. rewrite <- Rplus_assoc. cbn [length].
        replace (k + Datatypes.S (length l))%nat with (k + 1 + length l)%nat by lia. auto.
Qed.
End Pair.

Section Kernel.
Context {S : Num}.
Variable fma : S -> S -> S -> S.
Variable plan : nat -> nat -> contraction.
Variable soft : S.
Definition cterm (i : nat) (bi : body S) (kb : nat * body S) : S := (b_m (snd kb) / cdist fma (plan i (fst kb)) soft bi (snd kb))%num.
Lemma cinner_after i j bi acc l : (i < j)%nat ->
  cinner fma plan soft i j bi acc l = fold_left (fun a kb => (a + cterm i bi kb)%num) (combine (seq j (length l)) l) acc.
Proof.
  revert j acc. induction l as [|b l IH]; intros j acc H; [reflexivity|]. cbn [cinner]. rewrite (proj2 (Nat.eqb_neq i j)) by lia. rewrite IH by lia. reflexivity.
Qed.
Lemma cinner_others i j bi acc l : (i < length l)%nat ->
  cinner fma plan soft (j + i) j bi acc l = fold_left (fun a kb => (a + cterm (j + i) bi kb)%num) (others (combine (seq j (length l)) l) i) acc.
Proof.
  revert i j acc. induction l as [|b l IH]; intros i j acc H; [inversion H|]. cbn [cinner]. destruct i as [|i].
  - rewrite Nat.add_0_r, Nat.eqb_refl, cinner_after by lia. reflexivity.
  - rewrite (proj2 (Nat.eqb_neq (j + Datatypes.S i) j)) by lia. replace (j + Datatypes.S i)%nat with (Datatypes.S j + i)%nat by lia. cbn in H. rewrite IH by lia. reflexivity.
Qed.
Lemma contracted_length x y z m : length (contracted_kernel fma plan x y z m soft) = length (bodies x y z m).
Proof. unfold contracted_kernel. rewrite map2_length, seq_length. lia. Qed.
Lemma contracted_nth x y z m i bi : nth_error (bodies x y z m) i = Some bi ->
  nth_error (contracted_kernel fma plan x y z m soft) i =
  Some (fold_left (fun a kb => (a + cterm i bi kb)%num) (others (combine (seq 0 (length (bodies x y z m))) (bodies x y z m)) i) n0).
Proof.
  intros E. assert (L : (i < length (bodies x y z m))%nat) by (apply nth_error_Some; congruence). unfold contracted_kernel. rewrite map2_nth, E.
  rewrite (nth_error_nth' _ 0%nat) by (rewrite seq_length; exact L). rewrite seq_nth by exact L. f_equal. apply (cinner_others i 0 bi n0 _ L).
Qed.
End Kernel.
Lemma Forall2_others {A B} (P : A -> B -> Prop) (Q : nat -> A -> B -> Prop) (l : list A) (r : list B) i :
  Forall2 P l r -> (forall j a b, j <> i -> nth_error l j = Some a -> nth_error r j = Some b -> P a b -> Q j a b) ->
  Forall2 (fun ka b => Q (fst ka) (snd ka) b) (others (combine (seq 0 (length l)) l) i) (others r i).
Proof.
  intros F H.
  assert (X : Forall2 (fun ka b => fst ka <> i -> Q (fst ka) (snd ka) b) (combine (seq 0 (length l)) l) r).
  { assert (G : forall j l r, Forall2 P l r -> (forall k a b, (j + k)%nat <> i -> nth_error l k = Some a -> nth_error r k = Some b -> P a b -> Q (j + k)%nat a b) ->
      Forall2 (fun ka b => fst ka <> i -> Q (fst ka) (snd ka) b) (combine (seq j (length l)) l) r).
    { clear. intros j l r F. revert j. induction F as [|a b l r Pab F IH]; intros j H; cbn; constructor.
      - cbn. intros N. rewrite <- (Nat.add_0_r j). apply H; [now rewrite Nat.add_0_r|reflexivity|reflexivity|exact Pab].
      - apply IH. intros k x y N E1 E2 Pxy. replace (Datatypes.S j + k)%nat with (j + Datatypes.S k)%nat by lia. apply H; auto. intros E. apply N. lia. }
    apply (G 0%nat l r F). intros k a b N. now apply H. }
  apply (Forall2_app_split _ _ _ i) in X. assert (Ne : forall ka, In ka (others (combine (seq 0 (length l)) l) i) -> fst ka <> i).
  { intros ka I. apply others_in in I as (j & N & E). assert (Z : fst ka = j).
    { clear - E. assert (G : forall l m k, nth_error (combine (seq m (length l)) l) k = Some ka -> fst ka = (m + k)%nat).
      { clear. induction l as [|a l IH]; intros m [|k] E; cbn in E; try discriminate E; [injection E as <-; cbn; lia|]. apply IH in E. lia. }
      apply G in E. lia. }
    congruence. }
  induction X as [|ka b ks bs Q1 X IH]; constructor; [apply Q1, Ne; now left|apply IH; intros k I; apply Ne; now right].
Qed.

(** In any arithmetic that rounds with relative error at most [u] and any way to contract: the
    value for a particle, times G, has a relative error of at most 2 (n + 5) u. *)
Lemma c91_kernel : forall (S : Num) (RS : Rounded S) u fma, standard RS u -> 0 <= u <= / IZR (2 ^ 24) -> fused RS fma ->
  forall plan soft s G g (x y z m : list S) lr i pr, val RS soft = XR s -> val RS G = XR g ->
  / IZR (2 ^ 40) <= g <= IZR (2 ^ 20) -> Forall2 (reads RS) (sources x y z m) lr -> tame s lr -> nth_error lr i = Some pr ->
  exists t v, nth_error (contracted_kernel fma plan x y z m soft) i = Some t /\ val RS (nmul t G) = XR v /\
    Rabs (v - g * phi s pr (others lr i)) <= 2 * (INR (length lr) + 5) * u * (g * phi s pr (others lr i)).
Proof.
  intros S RS u fma U (U0 & U1) FM plan soft s G g x y z m lr i pr Vs Vg Hg F (Ms & Ap & Mm & Md & Ln) Epr.
  set (bs := bodies x y z m). assert (Fb : Forall2 (fun b q => reads RS (src_of b) q) bs lr).
  { rewrite <- bodies_sources in F. fold bs in F. revert F. generalize lr. induction bs as [|b l IH]; intros r F; inversion F; subst; constructor; auto. }
  pose proof (Forall2_length _ _ _ Fb) as LL. assert (Ip : (i < length lr)%nat) by (apply nth_error_Some; congruence).
  destruct (nth_error bs i) as [bi|] eqn:Ebi; [|apply nth_error_None in Ebi; lia].
  assert (Rp : reads RS (src_of bi) pr).
  { clear - Fb Ebi Epr. revert i Ebi Epr. induction Fb; intros [|i] E1 E2; simpl in *; try discriminate; [congruence|eauto]. }
  rewrite (contracted_nth fma plan soft x y z m i bi Ebi). fold bs. eexists. 
  set (L := others (combine (seq 0 (length bs)) bs) i).
  assert (Q : forall q, In q (others lr i) -> 0 < pm q /\ moderate (pm q) /\ moderate (px pr - px q) /\ moderate (py pr - py q) /\ moderate (pz pr - pz q) /\ sdist s pr q <> 0).
  { intros q H. destruct (others_in _ _ _ H) as (j & N & E). destruct (Mm q (nth_error_In _ _ E)), (Md i j pr q N Epr E) as (? & ? & ?).
    repeat (split; auto). eapply Ap; eauto. }
  assert (FL : Forall2 (fun ka q => val RS (b_m (snd ka)) = XR (pm q) /\ exists d, val RS (cdist fma (plan i (fst ka)) soft bi (snd ka)) = XR d /\ near (1 - u) 4 d (sdist s pr q)) L (others lr i)).
  { apply (Forall2_others _ (fun k b q => val RS (b_m b) = XR (pm q) /\ exists d, val RS (cdist fma (plan i k) soft bi b) = XR d /\ near (1 - u) 4 d (sdist s pr q)) _ _ i Fb).
    intros j b q N Eb Eq Rq. split; [apply Rq|]. destruct (Md i j pr q (not_eq_sym N) Epr Eq) as (Mx & My & Mz). apply (cdist_near RS u U U0 U1 fma FM); assumption. }
  assert (Ll : length L = (length lr - 1)%nat) by (rewrite (Forall2_length _ _ _ FL); now apply others_length).
  assert (Li : INR (length L) = INR (length lr) - 1) by (rewrite Ll, minus_INR by lia; reflexivity).
  change (IZR (2 ^ 22)) with 4194304 in Ln.
  pose proof (bpow_gt_0 radix2 80) as E80.
  destruct (any_sum_near RS u U U0 U1 (fun ka => b_m (snd ka)) (fun ka => cdist fma (plan i (fst ka)) soft bi (snd ka)) s pr L (others lr i) Ms FL Q n0 0 0 5) as (v0 & Y & Ny & Zy).
  - apply (val_n0 RS).
  - unfold near. lra.
  - lia.
  - rewrite plus_INR, Li. simpl (INR 5). lra.
  - rewrite Rplus_0_l, Li. destruct (Req_dec (INR (length lr) - 1) 0) as [->|Ne]; [left; ring|right].
    assert (1 <= INR (length lr) - 1). { assert (2 <= length lr)%nat. { destruct (Nat.eq_dec (length lr) 1) as [E|E]; [rewrite E in Ne; simpl in Ne; lra|lia]. } apply le_INR in H. simpl in H. lra. }
    pose proof (bpow_le radix2 (-82) 80 ltac:(lia)).
    split; [nra|]. change 104%Z with (24 + 80)%Z. rewrite bpow_plus. apply Rmult_le_compat_r; [lra|]. simpl. lra.
  - now left.
  - rewrite Rplus_0_l in Ny, Zy.
    assert (Zg : zb (bpow radix2 (-40)) (bpow radix2 20) g) by (right; exact Hg).
    assert (G0 : 0 <= g) by (pose proof (bpow_gt_0 radix2 (-40)) as B; change (bpow radix2 (-40)) with (/ IZR (2 ^ 40)) in B; lra).
    set (t := fold_left _ L n0). change (val RS t = XR v0) in Y.
    destruct (op RS u U U0 U1 (5 + length L) (nmul t G) (v0 * g) (phi s pr (others lr i) * g)) as (v & V & Nv).
    + rewrite plus_INR, Li. simpl (INR 5). lra.
    + replace (5 + length L)%nat with (5 + length L + 0)%nat by lia.
      apply near_mul; [exact (wp u U1)|exact Ny|now apply near_refl].
    + eapply zb_le; [| |apply (zb_mul2 _ _ _ _ _ _ Zy Zg)]; lia.
    + now rewrite (val_mul RS), Y, Vg.
    + exists v. split; [reflexivity|]. split; [exact V|]. rewrite (Rmult_comm g).
      replace (INR (length lr) + 5) with (INR (5 + length L + 1)) by (rewrite !plus_INR, Li; simpl; ring).
      change (/ IZR (2 ^ 24)) with (/ 16777216) in U1.
      apply near_error; [exact U0| |lra|exact Nv].
      rewrite !plus_INR, Li. simpl (INR 5). simpl (INR 1).
      assert (0 <= INR (length lr)) by apply pos_INR. assert ((5 + (INR (length lr) - 1) + 1) * u <= (4194304 + 5) * / 16777216) by (apply Rmult_le_compat; lra). lra.
Qed.

(** The instruction of the processor is fused in this sense. *)
Lemma c91_fma32 : forall sm, fused (F32_rounded sm) fma32.
Proof.
  intros sm a b c x y z A B C. change (bval 24 128 (fma32 a b c) = brnd 24 128 (XR (x * y + z))).
  change (bval 24 128 a = XR x) in A. change (bval 24 128 b = XR y) in B. change (bval 24 128 c = XR z) in C.
  assert (K : forall v r, bval 24 128 v = XR r -> is_finite v = true /\ B2R v = r).
  { intros v r H. assert (Hf : is_finite v = true) by (rewrite bval_fin_iff, H; reflexivity). split; [exact Hf|]. rewrite bval_fin in H by exact Hf. now injection H. }
  apply K in A as (Fa & <-). apply K in B as (Fb & <-). apply K in C as (Fc & <-).
  pose proof (Bfma_correct 24 128 p24 e128 mode_NE a b c Fa Fb Fc) as H. cbv zeta in H. fold (fma32 a b c) in H.
  apply val_of_spec with (s := Rlt_bool (B2R a * B2R b + B2R c) 0). change (round_mode mode_NE) with ZnearestE in H.
  destruct (Rlt_bool (Rabs (round radix2 (SpecFloat.fexp 24 128) ZnearestE (B2R a * B2R b + B2R c))) (bpow radix2 128)).
  - destruct H as (H1 & H2 & _). split; assumption.
  - split; [exact H|]. intros N. split; intros E; destruct (Rlt_bool_spec (B2R a * B2R b + B2R c) 0); try discriminate E; lra.
Qed.

(** Without contractions this is the kernel of the other claims. *)
Lemma c91_plain : forall (S : Num) (G : S) fma x y z m soft,
  contracted_potential G fma (fun _ _ => Contr Plain false false) x y z m soft = fortran_potential G true x y z m soft.
Proof.
  intros S G fma x y z m soft. unfold contracted_potential, fortran_potential. do 2 f_equal. unfold contracted_kernel, fortran_kernel.
  set (bs := bodies x y z m). assert (X : forall i bi l j acc, cinner fma (fun _ _ => Contr Plain false false) soft i j bi acc l = finner (soft * soft)%num i j bi acc l).
  { intros i bi. induction l as [|b l IH]; intros j acc; [reflexivity|]. cbn [cinner finner]. rewrite IH. reflexivity. }
  generalize (seq 0 (length bs)). intros is. assert (Y : forall l, map2 (fun i bi => cinner fma (fun _ _ => Contr Plain false false) soft i 0 bi n0 bs) is l = map2 (fun i bi => finner (soft * soft)%num i 0 bi n0 bs) is l).
  { induction is as [|i is IH]; intros [|b l]; cbn; try reflexivity. now rewrite X, IH. }
  apply Y.
Qed.

(** The contraction does not change what the numpy backend computes, nor the error for an unknown
    backend. *)
Lemma c91_others : forall (W S : Num) (cast : W -> S) (lift : S -> W) (G : S) fma plan junk name (g : galaxy W), name <> "fortran"%string ->
  potential cast lift (contracted_table G fma plan junk) name g = potential cast lift (backend_table G true junk) name g /\
  (name <> "numpy"%string -> g_haspot g = false -> potential cast lift (contracted_table G fma plan junk) name g = Raise KeyError).
Proof.
  intros W S cast lift G fma plan junk name g Nf. assert (F : ("fortran" =? name)%string = false) by (apply String.eqb_neq; congruence).
  assert (F' : (name =? "fortran")%string = false) by (apply String.eqb_neq; congruence).
  assert (D : dget (contracted_table G fma plan junk) name = dget (backend_table G true junk) name) by (cbn; rewrite ?F, ?F'; reflexivity).
  unfold potential. rewrite D. split; [reflexivity|]. intros Nn ->. assert (M : ("numpy" =? name)%string = false) by (apply String.eqb_neq; congruence).
  assert (M' : (name =? "numpy")%string = false) by (apply String.eqb_neq; congruence). cbn. rewrite ?F, ?F', ?M, ?M'. reflexivity.
Qed.

(** The float64 galaxy with the contracted Fortran backend in float32: as in C63, each
    potential is within a relative error of (n + 5) 2^-23 of the exact one of the float32 inputs,
    whatever products the compiler fuses. *)
Lemma c91_potential : forall sm sm' (g : galaxy (F64s sm)) (G : F32s sm') plan junk k s lr,
  constructible g -> g_haspot g = false ->
  val (F32_rounded sm') G = XR k -> / IZR (2 ^ 40) <= k <= IZR (2 ^ 20) ->
  (forall so, largest_softening g so -> val (F32_rounded sm') (to32 so) = XR s) ->
  Forall2 (reads (F32_rounded sm'))
    (sources (S:=F32s sm') (map to32 (all_x g)) (map to32 (all_y g)) (map to32 (all_z g)) (map to32 (all_m g))) lr ->
  tame s lr ->
  exists h, potential (W:=F64s sm) (S:=F32s sm') to32 to64 (contracted_table (S:=F32s sm') G fma32 plan junk) "fortran" g = Ok h /\
    length (all_pots h) = length lr /\
    forall i p, nth_error lr i = Some p -> exists w v, nth_error (all_pots h) i = Some w /\
      val (F64_rounded sm) w = XR v /\
      Rabs (v + k * phi s p (others lr i)) <= (INR (length lr) + 5) * / IZR (2 ^ 23) * (k * phi s p (others lr i)).
Proof.
  intros sm sm' g G plan junk k s lr Hg Hp Vk Hk So F T.
  destruct (c19_result _ (F32s sm') (F64_rounded sm) to32 to64 (contracted_table (S:=F32s sm') G fma32 plan junk) "fortran"
     (contracted_potential (S:=F32s sm') G fma32 plan) g Hg Hp eq_refl) as (s' & So' & K).
  set (src := sources _ _ _ _) in F.
  assert (Lb : length (bodies (S:=F32s sm') (map to32 (all_x g)) (map to32 (all_y g)) (map to32 (all_z g)) (map to32 (all_m g))) = length src)
    by (unfold src; rewrite <- bodies_sources; symmetry; apply map_length).
  assert (Lg : length src = glen g) by (rewrite <- Lb; exact (bodies_glen (F64s sm) (F32s sm') to32 g Hg)).
  specialize (K _ eq_refl). destruct K as (h & Hh & _ & _ & _ & Hpots & _).
  { etransitivity; [apply map_length|]. etransitivity; [apply (contracted_length (S:=F32s sm'))|]. etransitivity; [exact Lb|exact Lg]. }
  exists h. split; [exact Hh|]. pose proof (Forall2_length _ _ _ F) as Lr. split.
  { rewrite Hpots. etransitivity; [apply map_length|]. etransitivity; [apply map_length|]. etransitivity; [apply (contracted_length (S:=F32s sm'))|]. etransitivity; [exact Lb|exact Lr]. }
  intros i p Hi.
  destruct (c91_kernel (F32s sm') (F32_rounded sm') (/ IZR (2 ^ 24)) fma32 (F32_standard sm') ltac:(split; [left; apply Rinv_0_lt_compat, IZR_lt; reflexivity|lra]) (c91_fma32 sm')
    plan (to32 s') s G k _ _ _ _ lr i p (So _ So') Vk Hk F T Hi) as (t & v & Et & V & B).
  eexists. exists (- v). split.
  - rewrite Hpots, !nth_error_map. exact (f_equal (fun o => option_map (fun v => to64 (nopp (N:=F32s sm') v)) (option_map (fun v => nmul (N:=F32s sm') v G) o)) Et).
  - split.
    + change (bval 53 1024 (to64 (nopp (N:=F32s sm') (nmul (N:=F32s sm') t G))) = XR (- v)).
      rewrite to64_val. etransitivity; [apply (val_opp (F32_rounded sm'))|]. now rewrite V.
    + replace (- v + k * phi s p (others lr i)) with (- (v - k * phi s p (others lr i))) by ring. rewrite Rabs_Ropp.
      eapply Rle_trans; [exact B|]. right. change (IZR (2 ^ 24)) with 16777216. change (IZR (2 ^ 23)) with 8388608. lra.
Qed.

(** ... and of the galaxy as given, in double precision, under the conditions of C84. *)
Lemma c91_given : forall sm sm' (g : galaxy (F64s sm)) (G : F32s sm') plan junk k s lr R0 D,
  constructible g -> g_haspot g = false ->
  val (F32_rounded sm') G = XR k -> / IZR (2 ^ 40) <= k <= IZR (2 ^ 20) ->
  (forall so, largest_softening g so -> val (F64_rounded sm) so = XR s) -> usual s ->
  Forall2 (reads (F64_rounded sm)) (sources (all_x g) (all_y g) (all_z g) (all_m g)) lr ->
  (forall q, In q lr -> 0 < pm q /\ usual (pm q) /\ forall a, In a [px q; py q; pz q] -> ordinary a /\ Rabs a <= R0) ->
  (forall i j p q, i <> j -> nth_error lr i = Some p -> nth_error lr j = Some q -> D <= sdist s p q) ->
  0 < D -> 0 <= R0 <= IZR (2 ^ 19) * D -> INR (length lr) <= IZR (2 ^ 22) ->
  exists h, potential (W:=F64s sm) (S:=F32s sm') to32 to64 (contracted_table (S:=F32s sm') G fma32 plan junk) "fortran" g = Ok h /\
    length (all_pots h) = length lr /\
    forall i p, nth_error lr i = Some p -> exists w v, nth_error (all_pots h) i = Some w /\
      val (F64_rounded sm) w = XR v /\
      Rabs (v + k * phi s p (others lr i)) <= ((INR (length lr) + 8) / IZR (2 ^ 23) + 3 * (R0 / (IZR (2 ^ 22) * D))) * (k * phi s p (others lr i)).
Proof.
  intros sm sm' g G plan junk k s lr R0 D Hg Hp Vk Hk So Us F Q Ap D0 HR Ln.
  apply (as_given sm sm' g _ k s lr R0 D); auto. intros s' lr' So' F' T. apply (c91_potential sm sm' g G plan junk k s' lr'); auto.
Qed.

(** Fusing does change the bits: the distance between (5725, 8910, 8826) and the origin. *)
Lemma c91_bits_refuted : exists (c : contraction) (p q : body F32),
  B2SF (cdist (S:=F32) fma32 c n0 p q) <> B2SF (cdist (S:=F32) fma32 (Contr Plain false false) n0 p q).
Proof.
  exists (Contr FuseY true true), (Body (nofZ 5725) (nofZ 8910) (nofZ 8826) n1), (Body n0 n0 n0 n1). intros H.
  assert (X : (match B2SF (cdist (S:=F32) fma32 (Contr FuseY true true) n0 (Body (nofZ 5725) (nofZ 8910) (nofZ 8826) n1) (Body n0 n0 n0 n1)),
     B2SF (cdist (S:=F32) fma32 (Contr Plain false false) n0 (Body (nofZ 5725) (nofZ 8910) (nofZ 8826) n1) (Body n0 n0 n0 n1)) with
     | SpecFloat.S754_finite _ m _, SpecFloat.S754_finite _ m' _ => Pos.eqb m m' | _, _ => true end) = false) by (vm_compute; reflexivity).
  rewrite H in X. destruct (B2SF (cdist (S:=F32) fma32 (Contr Plain false false) n0 (Body (nofZ 5725) (nofZ 8910) (nofZ 8826) n1) (Body n0 n0 n0 n1))); try discriminate X.
  rewrite Pos.eqb_refl in X. discriminate X.
Qed.

(** The three particles of C63 with everything fused for even pairs and nothing for odd ones. *)
Definition mixed (i j : nat) : contraction := if Nat.even (i + j) then Contr FuseX true true else Contr Plain false false.
Example ex_c91 : exists g h, galP = Ok g /\
  potential (W:=F64) (S:=F32) to32 to64 (contracted_table (S:=F32) n1 fma32 mixed junk0) "fortran" g = Ok h /\
  length (all_pots h) = 3%nat /\
  forall i p, nth_error partsP i = Some p -> exists w v, nth_error (all_pots h) i = Some w /\
    val (F64_rounded (seqsum 53 1024 p53 e1024)) w = XR v /\
    Rabs (v + 1 * phi 0 p (others partsP i)) <= (INR 3 + 5) * / IZR (2 ^ 23) * (1 * phi 0 p (others partsP i)).
Proof.
  destruct galP_fields as (g & E & C).
  destruct C as (Hc & Hp & Ex & Ey & Ez & Em & Es & Eq & Ld & Ls).
  assert (Vs : bval 24 128 (to32 (p_soft (N:=F64) (g_stars g))) = XR 0) by (rewrite Es; apply (to32_fZ (seqsum 24 128 p24 e128)); lia).
  assert (Vg : bval 24 128 (to32 (p_soft (N:=F64) (g_gas g))) = XR 0) by (rewrite Eq; apply (to32_fZ (seqsum 24 128 p24 e128)); lia).
  destruct (c91_potential (seqsum 53 1024 p53 e1024) (seqsum 24 128 p24 e128) g n1 mixed junk0 1 0 partsP Hc Hp) as (h & Hh & L & V).
  - apply (val_n1 (F32_rounded (seqsum 24 128 p24 e128))).
  - exact one_range.
  - intros so [(p & (I & Np & _) & <- & _)|(_ & Nu)].
    + destruct I as [<-|[<-|[<-|[]]]]; [exact Vs|contradiction|exact Vg].
    + exfalso. apply (Nu (g_stars g)). split; [simpl; auto|]. split; [change (plen (N:=F64) (g_stars g) <> 0%nat); rewrite Ls; discriminate|].
      change (nisnan (N:=F64) (p_soft (g_stars g)) = false). rewrite Es. reflexivity.
  - change (F64s (seqsum 53 1024 p53 e1024)) with F64. rewrite Ex, Ey, Ez, Em. unfold sources, fZs, partsP. cbn [map combine].
    repeat (constructor; [repeat split; apply to32_fZ; lia|]). constructor.
  - apply partsP_tame.
  - exists g, h. split; [exact E|]. split; [exact Hh|]. split; [exact L|]. exact V.
Qed.
