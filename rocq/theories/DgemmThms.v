(** Property lemmas about alignment with any matrix product: C94. *)
From Flocq Require Import Core BinarySingleNaN.
From Coq Require Import Lra Lia Permutation.
From Verif Require Import Py Num RX F64 Np Df Data DataFacts DfFacts RebuildFacts Center Align Spec Ex DataThms CenterFacts CenterThms AlignFacts AlignThms SpecR SpecAlAcc AlAccFacts AlAccRot AlAccSum AlAccThms SpecCirc SpecChain ChainFacts ChainThms SpecFma Dgemm SpecDgemm.
Local Open Scope R_scope.
Local Notation e := (bpow radix2).

(** ** The run *)
Section Run.
Context {S : Num}.
Variable fma : S -> S -> S -> S.
Variable mm : nat -> mat3 S -> list S -> list S -> list S -> list S * list S * list S.
Hypothesis MM : is_matmul fma mm.

Definition mm_x k A x y z : list S := fst (fst (mm k A x y z)).
Definition mm_y k A x y z : list S := snd (fst (mm k A x y z)).
Definition mm_z k A x y z : list S := snd (mm k A x y z).
Definition turn_set (k : nat) (A : mat3 S) (p : pset S) : pset S :=
  pset_of (p_type p) (p_m p)
    (mm_x (2 * k) A (p_x p) (p_y p) (p_z p)) (mm_y (2 * k) A (p_x p) (p_y p) (p_z p)) (mm_z (2 * k) A (p_x p) (p_y p) (p_z p))
    (mm_x (2 * k + 1) A (p_vx p) (p_vy p) (p_vz p)) (mm_y (2 * k + 1) A (p_vx p) (p_vy p) (p_vz p)) (mm_z (2 * k + 1) A (p_vx p) (p_vy p) (p_vz p))
    (p_pot p) (p_soft p).
Definition turn_gal (A : mat3 S) (g : galaxy S) : galaxy S :=
  mkGal (turn_set 0 A (g_stars g)) (turn_set 1 A (g_dm g)) (turn_set 2 A (g_gas g)) (g_haspot g).

Lemma mm_rows k A x y z : length y = length x -> length z = length x ->
  row_of fma (a11 A) (a12 A) (a13 A) x y z (mm_x k A x y z) /\ row_of fma (a21 A) (a22 A) (a23 A) x y z (mm_y k A x y z) /\
  row_of fma (a31 A) (a32 A) (a33 A) x y z (mm_z k A x y z).
Proof.
  intros Hy Hz. destruct (MM k A x y z Hy Hz) as (rx & ry & rz & E & H). unfold mm_x, mm_y, mm_z. rewrite E. exact H.
Qed.
Lemma turn_lens k A p : pset_ok p ->
  lens_ok (p_m p)
    (mm_x (2 * k) A (p_x p) (p_y p) (p_z p)) (mm_y (2 * k) A (p_x p) (p_y p) (p_z p)) (mm_z (2 * k) A (p_x p) (p_y p) (p_z p))
    (mm_x (2 * k + 1) A (p_vx p) (p_vy p) (p_vz p)) (mm_y (2 * k + 1) A (p_vx p) (p_vy p) (p_vz p)) (mm_z (2 * k + 1) A (p_vx p) (p_vy p) (p_vz p))
    (p_pot p).
Proof.
  intros H. pose proof (pset_ok_lens _ H) as (A1 & B & C & D & E & F & G).
  destruct (mm_rows (2 * k) A (p_x p) (p_y p) (p_z p) ltac:(lia) ltac:(lia)) as ((L1 & _) & (L2 & _) & (L3 & _)).
  destruct (mm_rows (2 * k + 1) A (p_vx p) (p_vy p) (p_vz p) ltac:(lia) ltac:(lia)) as ((L4 & _) & (L5 & _) & (L6 & _)).
  repeat split; auto; lia.
Qed.
Lemma turn_set_ok k A p : pset_ok p -> pset_ok (turn_set k A p).
Proof. intros H. apply pset_ok_iff. split; [|reflexivity]. exact (turn_lens k A p H). Qed.
Lemma turn_gal_ok A g : gal_ok g -> gal_ok (turn_gal A g).
Proof.
  intros H. apply gal_ok_facts in H as [gf_s0 gf_d0 gf_g0 gf_ts0 gf_td0 gf_tg0 gf_hs0 gf_hd0 gf_hg0].
  pose proof (pset_ok_haspot _ gf_s0) as Is. pose proof (pset_ok_haspot _ gf_d0) as Id. pose proof (pset_ok_haspot _ gf_g0) as Ig.
  apply gal_ok_facts. constructor; simpl; auto using turn_set_ok; congruence.
Qed.

Lemma rotated_with_eq k A p ks sfx n : pset_ok p -> incl pos_vel ks ->
  rotated_with mm k A (mkDf n (keyed (pcol p) ks)) sfx =
  Ok [(("x_" ++ sfx)%string, KArr (mm_x (2 * k) A (p_x p) (p_y p) (p_z p)));
      (("y_" ++ sfx)%string, KArr (mm_y (2 * k) A (p_x p) (p_y p) (p_z p)));
      (("z_" ++ sfx)%string, KArr (mm_z (2 * k) A (p_x p) (p_y p) (p_z p)));
      (("vx_" ++ sfx)%string, KArr (mm_x (2 * k + 1) A (p_vx p) (p_vy p) (p_vz p)));
      (("vy_" ++ sfx)%string, KArr (mm_y (2 * k + 1) A (p_vx p) (p_vy p) (p_vz p)));
      (("vz_" ++ sfx)%string, KArr (mm_z (2 * k + 1) A (p_vx p) (p_vy p) (p_vz p)))].
Proof.
  intros Hp Hi. unfold rotated_with. rewrite !ncol_pcol by (apply Hi; simpl; tauto). cbn [bind].
  rewrite pcol_num_x, pcol_num_y, pcol_num_z, pcol_num_vx, pcol_num_vy, pcol_num_vz by auto.
  unfold mm_x, mm_y, mm_z. destruct (mm (2 * k) A _ _ _) as [[? ?] ?]. destruct (mm (2 * k + 1) A _ _ _) as [[? ?] ?]. reflexivity.
Qed.

Lemma star_align_with_eq g c : gal_ok g ->
  star_align_with mm g c = if cut_ok c then Ok (turn_gal (gal_matrix g c) g) else Raise ValueError.
Proof.
  intros Hg. unfold star_align_with. fold (cut_ok c). destruct (cut_ok c); [|reflexivity]. cbn [guard bind].
  apply gal_ok_facts in Hg as F. destruct F as [gf_s0 gf_d0 gf_g0 gf_ts0 gf_td0 gf_tg0 gf_hs0 gf_hd0 gf_hg0].
  assert (I1 : incl pos_vel all_attributes) by (intros k Hk; simpl in Hk; cbv; intuition).
  assert (I2 : incl (["m"; "Jx"; "Jy"; "Jz"]%string ++ pos_vel) all_attributes)
    by (intros k Hk; simpl in Hk; cbv; intuition).
  rewrite (pv_df _ _ gf_s0 I2) by (simpl; tauto).
  rewrite (pv_df _ _ gf_d0 I1) by (simpl; tauto). rewrite (pv_df _ _ gf_g0 I1) by (simpl; tauto).
  cbn [bind]. rewrite !ncol_pcol by (apply dedup_In; simpl; tauto). cbn [bind].
  rewrite pcol_num_m, pcol_num_x, pcol_num_y, pcol_num_z, pcol_num_Jx, pcol_num_Jy, pcol_num_Jz by auto.
  fold (gal_matrix g c). generalize (gal_matrix g c). intros A.
  rewrite !rotated_with_eq by (auto; intros k Hk; apply dedup_In; simpl in *; tauto). cbn [bind].
  rewrite as_kwargs_kw3.
  pose (uu := fun k p => mkUpd (p_m p)
    (mm_x (2 * k) A (p_x p) (p_y p) (p_z p)) (mm_y (2 * k) A (p_x p) (p_y p) (p_z p)) (mm_z (2 * k) A (p_x p) (p_y p) (p_z p))
    (mm_x (2 * k + 1) A (p_vx p) (p_vy p) (p_vz p)) (mm_y (2 * k + 1) A (p_vx p) (p_vy p) (p_vz p)) (mm_z (2 * k + 1) A (p_vx p) (p_vy p) (p_vz p))
    (p_pot p) (p_soft p)).
  match goal with |- mkgalaxy ?k = _ =>
    replace k with (kw3 (uu 0%nat (g_stars g)) (uu 1%nat (g_dm g)) (uu 2%nat (g_gas g))) by reflexivity end.
  assert (L : forall k p, pset_ok p -> upd_lens (uu k p)) by (intros k p Hp; exact (turn_lens k A p Hp)).
  pose proof (isSome_pots g Hg) as (Is & Id & Ig).
  rewrite mkgalaxy_kw3, build_ok; simpl; try congruence; auto.
  f_equal. unfold turn_gal, turn_set. rewrite gf_ts0, gf_td0, gf_tg0.
  unfold pset_upd; simpl. f_equal. congruence.
Qed.
End Run.

(** ** One entry *)
Section Entry.
Context {S : Num} (RS : Rounded S).
Variable u : R.
Variable fma : S -> S -> S -> S.
Hypothesis U : graceful RS u.
Hypothesis U0 : 0 < u.
Hypothesis U1 : u <= e (-40).
Hypothesis FM : fused RS fma.
Local Notation ap := (ap RS u).

(** The product of a pair is [r] before it is rounded. *)
Definition near_product (X : R) (ab : S * S) (r : R) : Prop :=
  exists x y, val RS (fst ab) = XR x /\ val RS (snd ab) = XR y /\ Rabs (x * y - r) <= 130 * u * X /\ Rabs r <= X.

Lemma Rsum_perm l m : Permutation l m -> Rsum l = Rsum m.
Proof. unfold Rsum. induction 1; cbn [fold_right] in *; lra. Qed.
Lemma Rsum_app l m : Rsum (l ++ m) = Rsum l + Rsum m.
Proof. unfold Rsum. induction l as [|a l IH]; cbn [app fold_right]; [|rewrite IH]; ring. Qed.

Lemma sum_value X l s : e (-100) <= X <= e 100 -> sum_of_products fma l s -> (length l <= 3)%nat -> forall rl, Forall2 (near_product X) l rl ->
  (l = [] -> val RS s = XR 0) /\ (l <> [] -> ap (130 + 2 * INR (length l)) (INR (length l) * X) s (Rsum rl)).
Proof.
  intros HX HS. pose proof (bpow_gt_0 radix2 (-100)) as P100.
  assert (Sc : forall n, (1 <= n <= 3)%nat -> scale (INR n * X)).
  { intros n Hn. apply scale_between with (-100)%Z 102%Z; [|lia..]. change 102%Z with (2 + 100)%Z. rewrite <- e_add. replace (e 2) with 4 by (simpl; lra).
    assert (B : 1 <= INR n <= 3) by (split; [apply (le_INR 1); lia|]; replace 3 with (INR 3) by (simpl; lra); apply le_INR; lia). nra. }
  assert (Sm : forall n, (n <= 3)%nat -> (130 + 2 * INR n) * u <= / 4).
  { intros n Hn. apply small; auto. assert (0 <= INR n <= 3) by (split; [apply pos_INR|]; replace 3 with (INR 3) by (simpl; lra); apply le_INR; lia). lra. }
  assert (Z0 : val RS n0 = XR 0) by apply val_n0.
  assert (One : forall a b r s, near_product X (a, b) r -> (forall x y, val RS a = XR x -> val RS b = XR y -> val RS s = rnd RS (XR (x * y))) -> ap (130 + 2 * INR 1) (INR 1 * X) s (r + 0)).
  { intros a b r s' (x & y & Ex & Ey & B & Br) H. simpl INR. rewrite Rmult_1_l, Rplus_0_r. replace (130 + 2 * 1) with (130 + 2) by ring.
    apply ap_round with (x * y); auto; [rewrite <- (Rmult_1_l X); apply (Sc 1%nat); lia|apply small; auto; lra]. }
  induction HS as [|a b|a b|l m s t H1 IH1 H2 IH2|a b l s H IH|l s H IH|l m s P H IH]; intros HL rl F.
  - inversion F; subst. split; [auto|congruence].
  - inversion F as [|? r ? rl' Hr F']; subst. inversion F'; subst. split; [discriminate|]. intros _. cbn [Rsum fold_right length].
    apply (One a b); auto. intros x y Ex Ey. cbn [fst snd] in *. rewrite (val_mul RS), Ex, Ey. reflexivity.
  - inversion F as [|? r ? rl' Hr F']; subst. inversion F'; subst. split; [discriminate|]. intros _. cbn [Rsum fold_right length].
    apply (One a b); auto. intros x y Ex Ey. cbn [fst snd] in *. rewrite (val_mul RS), Ex, Ey. cbn [xmul]. now rewrite Rmult_comm.
  - rewrite app_length in HL. apply Forall2_app_inv_l in F as (rl1 & rl2 & F1 & F2 & ->).
    destruct (IH1 ltac:(lia) rl1 F1) as (E1 & A1). destruct (IH2 ltac:(lia) rl2 F2) as (E2 & A2). rewrite Rsum_app, app_length.
    destruct l as [|p l].
    + specialize (E1 eq_refl). inversion F1; subst. cbn [app length plus Rsum fold_right] in *. rewrite Rplus_0_l.
      assert (V : val RS (s + t)%num = val RS t).
      { rewrite (val_add RS), E1. rewrite <- (rnd_val RS t) at 2. f_equal. destruct (val RS t); cbn [xadd]; auto. f_equal. ring. }
      split; [intros ->; rewrite V; auto|]. intros NE. destruct (A2 NE) as (v & Ev & Bv). exists v. split; [congruence|exact Bv].
    + specialize (A1 ltac:(discriminate)). destruct m as [|q m].
      * specialize (E2 eq_refl). inversion F2; subst. cbn [Rsum fold_right] in *. change (length (@nil (S * S))) with 0%nat. rewrite Nat.add_0_r, Rplus_0_r. rewrite app_nil_r.
        split; [discriminate|]. intros _. destruct A1 as (v & Ev & Bv). exists v. split; [|exact Bv].
        rewrite (val_add RS), E2, Ev. cbn [xadd]. rewrite Rplus_0_r. rewrite <- Ev. apply (rnd_val RS).
      * specialize (A2 ltac:(discriminate)). split; [discriminate|]. intros _.
        set (n1 := length (p :: l)) in *. set (n2 := length (q :: m)) in *.
        assert (N1 : (1 <= n1)%nat) by (unfold n1; cbn; lia). assert (N2 : (1 <= n2)%nat) by (unfold n2; cbn; lia).
        assert (B1 : 1 <= INR n1) by (apply (le_INR 1); lia). assert (B2 : 1 <= INR n2) by (apply (le_INR 1); lia).
        destruct A1 as (v & Ev & Bv & Cv). destruct A2 as (w & Ew & Bw & Cw). rewrite plus_INR.
        replace (130 + 2 * (INR n1 + INR n2)) with (130 + 2 * (INR n1 + INR n2 - 1) + 2) by ring.
        assert (u0 : 0 <= u * X) by (apply Rmult_le_pos; lra).
        apply ap_round with (v + w); auto.
        -- rewrite <- plus_INR. apply Sc. lia.
        -- apply Rle_trans with ((130 + 2 * INR 3) * u); [|apply (Sm 3%nat); lia]. apply Rmult_le_compat_r; [lra|].
           assert (INR n1 + INR n2 <= INR 3) by (rewrite <- plus_INR; apply le_INR; lia). lra.
        -- rewrite (val_add RS), Ev, Ew. reflexivity.
        -- replace (v + w - (Rsum rl1 + Rsum rl2)) with ((v - Rsum rl1) + (w - Rsum rl2)) by ring. eapply Rle_trans; [apply Rabs_triang|].
           replace ((130 + 2 * INR n1) * u * (INR n1 * X)) with ((130 + 2 * INR n1) * INR n1 * (u * X)) in Bv by ring.
           replace ((130 + 2 * INR n2) * u * (INR n2 * X)) with ((130 + 2 * INR n2) * INR n2 * (u * X)) in Bw by ring.
           replace ((130 + 2 * (INR n1 + INR n2 - 1)) * u * ((INR n1 + INR n2) * X)) with ((130 + 2 * (INR n1 + INR n2 - 1)) * (INR n1 + INR n2) * (u * X)) by ring.
           assert ((130 + 2 * INR n1) * INR n1 + (130 + 2 * INR n2) * INR n2 <= (130 + 2 * (INR n1 + INR n2 - 1)) * (INR n1 + INR n2)) by nra. nra.
        -- eapply Rle_trans; [apply Rabs_triang|]. lra.
  - inversion F as [|? r ? rl' Hr F']; subst. cbn [length] in HL. destruct (IH ltac:(lia) rl' F') as (E1 & A1). split; [discriminate|]. intros _.
    cbn [Rsum fold_right]. fold (Rsum rl'). destruct l as [|p l].
    + inversion F'; subst. cbn [Rsum fold_right length]. apply (One a b); auto. intros x y Ex Ey. rewrite (FM a b s x y 0) by auto. now rewrite Rplus_0_r.
    + specialize (A1 ltac:(discriminate)). destruct Hr as (x & y & Ex & Ey & B & Br). cbn [fst snd] in *. destruct A1 as (v & Ev & Bv & Cv).
      set (n := length (p :: l)) in *. change (length ((a, b) :: p :: l)) with (1 + n)%nat. assert (N1 : (1 <= n)%nat) by (unfold n; cbn; lia).
      assert (B1 : 1 <= INR n) by (apply (le_INR 1); lia). rewrite plus_INR. change (INR 1) with 1.
      replace (130 + 2 * (1 + INR n)) with (130 + 2 * INR n + 2) by ring. assert (u0 : 0 <= u * X) by (apply Rmult_le_pos; lra).
      apply ap_round with (x * y + v); auto.
      * replace (1 + INR n) with (INR (1 + n)) by (rewrite plus_INR; reflexivity). apply Sc. lia.
      * apply Sm. lia.
      * replace (x * y + v - (r + Rsum rl')) with ((x * y - r) + (v - Rsum rl')) by ring. eapply Rle_trans; [apply Rabs_triang|].
        replace ((130 + 2 * INR n) * u * ((1 + INR n) * X)) with ((130 + 2 * INR n) * (u * X) + (130 + 2 * INR n) * u * (INR n * X)) by ring.
        apply Rplus_le_compat; [|exact Bv]. eapply Rle_trans; [exact B|]. replace (130 * u * X) with (130 * (u * X)) by ring. apply Rmult_le_compat_r; lra.
      * eapply Rle_trans; [apply Rabs_triang|]. lra.
  - destruct (IH HL rl F) as (E1 & A1).
    assert (V : forall v, val RS s = XR v -> val RS (n1 * s)%num = XR v).
    { intros v Ev. rewrite (val_mul RS), (val_n1 RS), Ev. cbn [xmul]. rewrite Rmult_1_l, <- Ev. apply (rnd_val RS). }
    split; [intros E; apply V; auto|]. intros NE. destruct (A1 NE) as (v & Ev & Bv). exists v. split; [now apply V|exact Bv].
  - apply Permutation_sym in P. destruct (Permutation_Forall2 P F) as (rl' & P' & F'). pose proof (Permutation_length P) as PL.
    destruct (IH ltac:(lia) rl' F') as (E1 & A1). rewrite (Rsum_perm _ _ P'), PL. split.
    + intros ->. apply E1. apply Permutation_length in P. cbn in P. now destruct l.
    + intros NE. apply A1. intros ->. cbn in PL. destruct m; [congruence|discriminate].
Qed.

(** A row times a vector, as [ap_dot]. *)
Lemma ap_row a b c x y z ra rb rc rx ry rz X s : ap 130 1 a ra -> ap 130 1 b rb -> ap 130 1 c rc ->
  ap 0 X x rx -> ap 0 X y ry -> ap 0 X z rz -> e (-100) <= X <= e 100 -> sum_of_products fma [(a, x); (b, y); (c, z)] s ->
  ap 266 (3 * X) s (ra * rx + rb * ry + rc * rz).
Proof.
  intros A B C DX DY DZ HX HS. pose proof (bpow_gt_0 radix2 (-100)) as P100.
  assert (NP : forall p v rp rv, ap 130 1 p rp -> ap 0 X v rv -> near_product X (p, v) (rp * rv)).
  { intros p v rp rv (p' & Ep & Bp & Cp) (v' & Ev & Bv & Cv). rewrite Rmult_0_l, Rmult_0_l in Bv. assert (v' = rv) as -> by (apply Rabs_le_inv in Bv; lra).
    exists p', rv. cbn [fst snd]. split; [exact Ep|]. split; [exact Ev|]. split.
    - replace (p' * rv - rp * rv) with ((p' - rp) * rv) by ring. rewrite Rabs_mult. rewrite Rmult_1_r in Bp. apply Rmult_le_compat; auto using Rabs_pos.
    - rewrite Rabs_mult. replace X with (1 * X) by ring. apply Rmult_le_compat; auto using Rabs_pos. }
  destruct (sum_value X _ s HX HS ltac:(cbn; lia) [ra * rx; rb * ry; rc * rz]) as (_ & V); [repeat constructor; auto|].
  specialize (V ltac:(discriminate)). cbn [length Rsum fold_right] in V. replace (ra * rx + (rb * ry + (rc * rz + 0))) with (ra * rx + rb * ry + rc * rz) in V by ring.
  apply (ap_weaken RS u U0 _ 266 _ (3 * X) s _ V); simpl INR; lra.
Qed.
End Entry.

(** ** Whole sets *)
Section Sets.
Context {S : Num} (RS : Rounded S).
Variable u : R.
Variable fma : S -> S -> S -> S.
Variable mm : nat -> mat3 S -> list S -> list S -> list S -> list S * list S * list S.
Hypothesis MM : is_matmul fma mm.

(** [b'] is [b] with position and velocity multiplied by [A]. *)
Definition dot_body (A : mat3 S) (b b' : body S) : Prop :=
  b_m b' = b_m b /\
  sum_of_products fma [(a11 A, b_x b); (a12 A, b_y b); (a13 A, b_z b)] (b_x b') /\
  sum_of_products fma [(a21 A, b_x b); (a22 A, b_y b); (a23 A, b_z b)] (b_y b') /\
  sum_of_products fma [(a31 A, b_x b); (a32 A, b_y b); (a33 A, b_z b)] (b_z b') /\
  sum_of_products fma [(a11 A, b_vx b); (a12 A, b_vy b); (a13 A, b_vz b)] (b_vx b') /\
  sum_of_products fma [(a21 A, b_vx b); (a22 A, b_vy b); (a23 A, b_vz b)] (b_vy b') /\
  sum_of_products fma [(a31 A, b_vx b); (a32 A, b_vy b); (a33 A, b_vz b)] (b_vz b').

Lemma row_cons a b c x y z x0 y0 z0 r : row_of fma a b c (x0 :: x) (y0 :: y) (z0 :: z) r ->
  exists v r', r = v :: r' /\ sum_of_products fma [(a, x0); (b, y0); (c, z0)] v /\ row_of fma a b c x y z r'.
Proof.
  intros (L & H). destruct r as [|v r']; [discriminate|]. exists v, r'. split; [reflexivity|]. split; [exact (H 0%nat _ _ _ _ eq_refl eq_refl eq_refl eq_refl)|].
  split; [now injection L|]. intros i. exact (H (1 + i)%nat).
Qed.
Lemma row_nil a b c y z r : row_of fma a b c [] y z r -> r = [].
Proof. intros (L & _). now destruct r. Qed.

Lemma bodies A bs : forall r1 r2 r3 r4 r5 r6,
  row_of fma (a11 A) (a12 A) (a13 A) (map b_x bs) (map b_y bs) (map b_z bs) r1 ->
  row_of fma (a21 A) (a22 A) (a23 A) (map b_x bs) (map b_y bs) (map b_z bs) r2 ->
  row_of fma (a31 A) (a32 A) (a33 A) (map b_x bs) (map b_y bs) (map b_z bs) r3 ->
  row_of fma (a11 A) (a12 A) (a13 A) (map b_vx bs) (map b_vy bs) (map b_vz bs) r4 ->
  row_of fma (a21 A) (a22 A) (a23 A) (map b_vx bs) (map b_vy bs) (map b_vz bs) r5 ->
  row_of fma (a31 A) (a32 A) (a33 A) (map b_vx bs) (map b_vy bs) (map b_vz bs) r6 ->
  exists bs', Forall2 (dot_body A) bs bs' /\ map b_m bs' = map b_m bs /\ map b_x bs' = r1 /\ map b_y bs' = r2 /\ map b_z bs' = r3 /\
    map b_vx bs' = r4 /\ map b_vy bs' = r5 /\ map b_vz bs' = r6.
Proof.
  induction bs as [|b bs IH]; intros r1 r2 r3 r4 r5 r6 H1 H2 H3 H4 H5 H6; cbn [map] in *.
  - apply row_nil in H1, H2, H3, H4, H5, H6. subst. exists []. split; [constructor|]. repeat split.
  - apply row_cons in H1 as (v1 & s1 & -> & P1 & Q1). apply row_cons in H2 as (v2 & s2 & -> & P2 & Q2). apply row_cons in H3 as (v3 & s3 & -> & P3 & Q3).
    apply row_cons in H4 as (v4 & s4 & -> & P4 & Q4). apply row_cons in H5 as (v5 & s5 & -> & P5 & Q5). apply row_cons in H6 as (v6 & s6 & -> & P6 & Q6).
    destruct (IH s1 s2 s3 s4 s5 s6 Q1 Q2 Q3 Q4 Q5 Q6) as (bs' & F & E0 & E1 & E2 & E3 & E4 & E5 & E6).
    exists (Body (b_m b) v1 v2 v3 v4 v5 v6 :: bs'). cbn [map b_m b_x b_y b_z b_vx b_vy b_vz]. rewrite E0, E1, E2, E3, E4, E5, E6.
    split; [constructor; [|exact F]; unfold dot_body; cbn [b_m b_x b_y b_z b_vx b_vy b_vz]; auto 10|]. repeat split.
Qed.
Lemma cols_turn k A p bs : cols p bs -> exists bs', cols (turn_set mm k A p) bs' /\ Forall2 (dot_body A) bs bs'.
Proof.
  intros (B & C & D & E & F & G & H). unfold cols, turn_set. cbn [pset_of p_m p_x p_y p_z p_vx p_vy p_vz]. rewrite B, C, D, E, F, G, H.
  destruct (mm_rows fma mm MM (2 * k) A (map b_x bs) (map b_y bs) (map b_z bs)) as (R1 & R2 & R3); [rewrite !map_length; reflexivity..|].
  destruct (mm_rows fma mm MM (2 * k + 1) A (map b_vx bs) (map b_vy bs) (map b_vz bs)) as (R4 & R5 & R6); [rewrite !map_length; reflexivity..|].
  destruct (bodies A bs _ _ _ _ _ _ R1 R2 R3 R4 R5 R6) as (bs' & Q & E0 & E1 & E2 & E3 & E4 & E5 & E6).
  exists bs'. split; [|exact Q]. repeat split; symmetry; assumption.
Qed.

Hypothesis U : graceful RS u.
Hypothesis U0 : 0 < u.
Hypothesis U1 : u <= e (-40).
Hypothesis FM : fused RS fma.

Lemma ap_dotb A M b b' q : dot_body A b b' -> ap_mat RS u 130 A M -> ap_body RS u 0 1 b q q -> bounded q -> ap_body RS u 266 3 b' q (rotate M q).
Proof.
  intros (E & S1 & S2 & S3 & S4 & S5 & S6) (A11 & A12 & A13 & A21 & A22 & A23 & A31 & A32 & A33) (Hm & Hx & Hy & Hz & Hvx & Hvy & Hvz) (_ & GX & GV).
  rewrite Rmult_1_l in Hx, Hy, Hz, Hvx, Hvy, Hvz.
  destruct (span_ge (px q) (py q) (pz q)) as (LX0 & _). destruct (span_ge (pvx q) (pvy q) (pvz q)) as (LV0 & _).
  unfold ap_body. rewrite E. cbn [rotate pm px py pz pvx pvy pvz].
  split; [exact Hm|].
  split; [|split; [|split; [|split; [|split]]]]; eapply (ap_row RS u fma U U0 U1 FM); eauto.
Qed.

Lemma turn_bodies A M bs bs' l : Forall2 (dot_body A) bs bs' -> ap_mat RS u 130 A M -> Forall2 (reads_body RS) bs l -> (forall q, In q l -> bounded q) ->
  Forall2 (fun b q => ap_body RS u 266 3 b q (rotate M q)) bs' l.
Proof.
  intros F HM HF HB. revert l HF HB. induction F as [|b b' bs bs' D F IH]; intros l HF HB; inversion HF as [|? q ? l0 Hb HF0]; subst; constructor.
  - apply ap_dotb with A b; auto; [now apply reads_ap|apply HB; now left].
  - apply IH; auto. intros q' H. apply HB. now right.
Qed.

Lemma turn_reads k A M (p : pset S) bs l : ap_mat RS u 130 A M -> cols p bs -> Forall2 (reads_body RS) bs l -> (forall q, In q l -> bounded q) ->
  exists l', reads_set RS (turn_set mm k A p) l' /\ Forall2 (turned_near u M) l l'.
Proof.
  intros HM Hc HF HB. destruct (cols_turn k A p bs Hc) as (bs' & Hc' & D).
  assert (V : exists l', Forall2 (reads_body RS) bs' l' /\ Forall2 (turned_near u M) l l').
  { pose proof (turn_bodies A M bs bs' l D HM HF HB) as FB. clear Hc Hc' HB.
    revert bs HF D. induction FB as [|b' q bs' l Hb FB IH]; intros bs HF D.
    { exists []. split; constructor. }
    inversion D as [|b ? bs0 ? D1 D2]; subst. inversion HF as [|? ? ? ? R1 R2]; subst.
    destruct (IH bs0 R2 D2) as (l' & I1 & I2). destruct Hb as (_ & (x & Ex & Bx & _) & (y & Ey & By & _) & (z & Ez & Bz & _) & (vx & Evx & Bvx & _) & (vy & Evy & Bvy & _) & (vz & Evz & Bvz & _)).
    exists (Part (pm q) x y z vx vy vz :: l'). split; [constructor; [|exact I1]|constructor; [|exact I2]].
    - destruct R1 as (Hm & _). destruct D1 as (E & _). unfold reads_body. cbn [pm px py pz pvx pvy pvz]. rewrite E. split; [exact Hm|]. auto 10.
    - unfold turned_near. cbn [pm px py pz pvx pvy pvz]. split; [reflexivity|].
      destruct (span_ge (px q) (py q) (pz q)) as (X0 & _). destruct (span_ge (pvx q) (pvy q) (pvz q)) as (V0 & _). pose proof (bpow_gt_0 radix2 (-100)).
      assert (G : forall s, 0 < s -> 266 * u * (3 * s) <= 800 * u * s) by (intros s Hs; assert (0 < u * s) by (apply Rmult_lt_0_compat; lra); nra).
      repeat (split; [eapply Rle_trans; [eassumption|apply G; lra]|]). eapply Rle_trans; [eassumption|apply G; lra]. }
  destruct V as (l' & V1 & V2). exists l'. split; [|exact V2]. exact (reads_back RS bs' _ l' Hc' V1).
Qed.
End Sets.

(** *** C94 *)

(** With any matrix product, star_align raises ValueError exactly for a cut-off that compares [<= 0], and
    otherwise returns a galaxy with everything but positions and velocities as before. *)
Lemma c94_frame : forall (S : Num) fma mm, is_matmul (S:=S) fma mm -> forall (g : galaxy S) c, constructible g ->
  (star_align_with mm g c = Raise ValueError <-> exists v, c = Some v /\ nle v n0 = true) /\
  ((exists h, star_align_with mm g c = Ok h) <-> forall v, c = Some v -> nle v n0 = false) /\
  forall h, star_align_with mm g c = Ok h -> constructible h /\ g_haspot h = g_haspot g /\ Forall2 same_but_phase (sets g) (sets h).
Proof.
  intros S fma mm MM g c Hg. apply constructible_ok in Hg. rewrite (star_align_with_eq fma mm MM) by auto.
  split; [|split].
  - unfold cut_ok. destruct c as [v|].
    + destruct (nle v n0) eqn:E; cbn [negb]; split; intros H; eauto; try discriminate. destruct H as (w & [= <-] & H). congruence.
    + split; [discriminate|]. intros (v & H & _). discriminate.
  - unfold cut_ok. destruct c as [v|].
    + destruct (nle v n0) eqn:E; cbn [negb]; split; intros H; eauto; try discriminate.
      * destruct H; discriminate.
      * specialize (H v eq_refl). congruence.
      * intros w [= <-]. exact E.
    + split; [discriminate|eauto].
  - intros h H. destruct (cut_ok c); [|discriminate]. injection H as <-. split; [apply constructible_ok, (turn_gal_ok fma mm MM), Hg|]. split; [reflexivity|].
    apply gal_ok_facts in Hg as [gf_s0 gf_d0 gf_g0 gf_ts0 gf_td0 gf_tg0 gf_hs0 gf_hd0 gf_hg0].
    assert (G : forall k p, pset_ok p -> same_but_phase p (turn_set mm k (gal_matrix g c) p)).
    { intros k p Hp. pose proof (pset_ok_haspot _ Hp). repeat split; auto. }
    repeat constructor; auto; apply G; auto.
Qed.

(** The products of Align.v are one case, those of a BLAS with fused operations another. *)
Lemma c94_plain : forall (S : Num) (fma : S -> S -> S -> S),
  is_matmul fma plain_matmul /\ is_matmul fma (fused_matmul fma) /\
  forall (g : galaxy S) c, constructible g -> star_align_with plain_matmul g c = star_align g c.
Proof.
  intros S fma.
  assert (R : forall (a b c : S) (f : S -> S -> S -> S), (forall x y z, sum_of_products fma [(a, x); (b, y); (c, z)] (f x y z)) ->
    forall x y z, length y = length x -> length z = length x -> row_of fma a b c x y z (map3 f x y z)).
  { intros a b c f H x y z Hy Hz. split; [apply map3_length; lia|]. intros i x0 y0 z0 v Ex Ey Ez Ev.
    rewrite map3_nth, Ex, Ey, Ez in Ev. injection Ev as <-. apply H. }
  assert (P : is_matmul fma plain_matmul).
  { intros k A x y z Hy Hz. exists (map3 (rot_x A) x y z), (map3 (rot_y A) x y z), (map3 (rot_z A) x y z). split; [reflexivity|].
    assert (D : forall a b c x y z, sum_of_products fma [(a, x); (b, y); (c, z)] (dot3 (N:=S) a b c x y z)).
    { intros a b c x0 y0 z0. unfold dot3. apply (sp_sum fma [(a, x0); (b, y0)] [(c, z0)]); [apply (sp_sum fma [(a, x0)] [(b, y0)])|]; apply sp_product. }
    split; [|split]; apply R; auto; intros; apply D. }
  split; [exact P|]. split.
  - intros k A x y z Hy Hz. do 3 eexists. split; [reflexivity|].
    assert (D : forall a b c x y z, sum_of_products fma [(a, x); (b, y); (c, z)] (fused_row fma a b c x y z)).
    { intros a b c x0 y0 z0. unfold fused_row. apply sp_once. apply sp_order with [(c, z0); (b, y0); (a, x0)].
      - apply Permutation_sym. exact (Permutation_rev [(a, x0); (b, y0); (c, z0)]).
      - repeat apply sp_fused. apply sp_zero. }
    split; [|split]; apply R; auto; intros; apply D.
  - intros g c Hg. apply constructible_ok in Hg. rewrite (star_align_with_eq fma plain_matmul P), star_align_eq by auto. reflexivity.
Qed.

(** C68 whichever matrix product is used: every particle is turned by one rotation up to 800 units of
    rounding of its largest coordinate, and the angular momentum of the turned stars points along z up to
    the same error. *)
Lemma c94_turned : forall (S : Num) (RS : Rounded S) u K, graceful RS u -> 0 < u -> u <= bpow radix2 (-40) -> sums_well RS u K ->
  forall fma mm, fused RS fma -> is_matmul fma mm ->
  forall (g : galaxy S) ls ld lg, constructible g ->
  reads_set RS (g_stars g) ls -> reads_set RS (g_dm g) ld -> reads_set RS (g_gas g) lg ->
  (forall q, In q ld \/ In q lg -> bounded q) -> clear_spin u (K (length ls)) ls ->
  exists h M ls' ld' lg', star_align_with mm g None = Ok h /\ constructible h /\ rotation M /\
    reads_set RS (g_stars h) ls' /\ reads_set RS (g_dm h) ld' /\ reads_set RS (g_gas h) lg' /\
    Forall2 (turned_near u M) ls ls' /\ Forall2 (turned_near u M) ld ld' /\ Forall2 (turned_near u M) lg lg' /\
    (let err := 50 * (K (length ls) + 1000) * u * weights ls in
     Rabs (LX None ls') <= err /\ Rabs (LY None ls') <= err /\ Rabs (LZ None ls' - Lnorm None ls) <= err).
Proof.
  intros S RS u K U U0 U1 UK fma mm FM MM g ls ld lg Hg Rs Rd Rg HB CS. apply constructible_ok in Hg.
  destruct (reads_cols RS _ _ Rs) as (bs & Cs & Fs). destruct (reads_cols RS _ _ Rd) as (bd & Cd & Fd). destruct (reads_cols RS _ _ Rg) as (bg & Cg & Fg).
  pose proof (matrix_none g bs Hg Cs) as GM. destruct (core RS u K U U0 U1 UK ls bs Fs CS) as (M & Q & RM & AM & B1 & B2 & B3 & B4 & _).
  rewrite <- GM in AM. pose proof (clear_nonempty u _ _ CS) as NE. destruct CS as (HBs & HN & HK & _).
  destruct (turn_reads RS u fma mm MM U U0 U1 FM 0 _ M _ bs ls AM Cs Fs HBs) as (ls' & Rs' & Ts).
  destruct (turn_reads RS u fma mm MM U U0 U1 FM 1 _ M _ bd ld AM Cd Fd ltac:(auto)) as (ld' & Rd' & Td).
  destruct (turn_reads RS u fma mm MM U U0 U1 FM 2 _ M _ bg lg AM Cg Fg ltac:(auto)) as (lg' & Rg' & Tg).
  exists (turn_gal mm (gal_matrix g None) g), M, ls', ld', lg'.
  split; [now rewrite (star_align_with_eq fma mm MM) by exact Hg|]. split; [apply constructible_ok, (turn_gal_ok fma mm MM), Hg|]. do 7 (split; [assumption|]).
  destruct (turned_total u U0 U1 M ls ls' Ts RM HBs HN NE) as (T1 & T2 & T3).
  assert (uW : 0 <= u * weights ls) by (apply Rmult_le_pos; [lra|apply weights_range; exact HBs]).
  set (k := K (length ls)) in *.
  assert (E : 40000 * u * weights ls + 6 * ((20 + 4 * k) * u * weights ls) <= 50 * (k + 1000) * u * weights ls) by nra.
  assert (E2 : 0 <= (20 + 4 * k) * u * weights ls) by nra.
  apply Rabs_le_inv in T1, T2, T3, B1, B2, B3, B4.
  cbv zeta. repeat split; apply Rabs_le; lra.
Qed.

(** ... and the result is found aligned, with tolerances as in C68. *)
Lemma c94_aligned : forall (S : Num) (RS : Rounded S) u K, graceful RS u -> 0 < u -> u <= bpow radix2 (-40) -> sums_well RS u K ->
  forall fma mm, fused RS fma -> is_matmul fma mm ->
  forall (g : galaxy S) ls (rtol atol : S) rt at', constructible g -> reads_set RS (g_stars g) ls -> clear_spin u (K (length ls)) ls ->
  val RS rtol = XR rt -> / 1000000 <= rt -> val RS atol = XR at' -> 0 <= at' ->
  exists h, star_align_with mm g None = Ok h /\ is_star_aligned h None rtol atol = Ok true.
Proof.
  intros S RS u K U U0 U1 UK fma mm FM MM g ls rtol atol rt at' Hg Rs CS Ert Hrt Eat Hat. apply constructible_ok in Hg.
  destruct (reads_cols RS _ _ Rs) as (bs & Cs & Fs).
  pose proof (matrix_none g bs Hg Cs) as GM. destruct (core RS u K U U0 U1 UK ls bs Fs CS) as (M & Q & RM & AM & B1 & B2 & B3 & B4 & B5).
  rewrite <- GM in AM. pose proof (clear_nonempty u _ _ CS) as NE. destruct CS as (HBs & HN & HK & C1 & _).
  exists (turn_gal mm (gal_matrix g None) g). split; [now rewrite (star_align_with_eq fma mm MM) by exact Hg|].
  rewrite is_star_aligned_eq by (apply (turn_gal_ok fma mm MM); exact Hg). cbn [turn_gal g_stars].
  assert (gs : pset_ok (g_stars g)) by (apply gal_ok_facts in Hg; now destruct Hg).
  destruct (cols_turn fma mm MM 0 (gal_matrix g None) _ _ Cs) as (bs' & Cs' & D).
  rewrite (near_cols _ _ (turn_set_ok fma mm MM 0 _ _ gs) Cs').
  pose proof (turn_bodies RS u fma U U0 U1 FM _ M bs bs' ls D AM Fs HBs) as FB.
  destruct (totals RS u K U U0 U1 UK 266 3 (rotate M) _ ls (fun x y => nmul y x) FB HBs HN HK ltac:(lra) ltac:(lra) NE ltac:(auto)) as (a & b & c & Ea & Eb & Ec & Ba & Bb & Bc).
  f_equal. set (k := K (length ls)) in *.
  assert (uW : 0 <= u * weights ls) by (apply Rmult_le_pos; [lra|apply weights_range; exact HBs]).
  apply (check_passes RS u U U0 U1 _ _ _ a b c Q (50 * (k + 1000) * u * weights ls) rtol atol rt at'); auto.
  - apply Rabs_le_inv in Ba, B1. apply Rabs_le. nra.
  - apply Rabs_le_inv in Bb, B2. apply Rabs_le. nra.
  - apply Rabs_le_inv in Bc, B3. apply Rabs_le. nra.
  - apply Rabs_le_inv in B4. nra.
  - split; [eapply Rle_trans; [|apply B5]; apply bpow_le; lia|eapply Rle_trans; [apply B5|]; apply bpow_le; lia].
Qed.

(** Centring and then aligning with any matrix product, as C93. *)
Lemma c94_chain : forall (S : Num) (RS : Rounded S) u K, graceful RS u -> bpow radix2 (-100) <= u -> u <= bpow radix2 (-40) -> sums_well RS u K ->
  forall fma mm, fused RS fma -> is_matmul fma mm ->
  forall (g h1 : galaxy S) ls ld lg, constructible g ->
  reads_set RS (g_stars g) ls -> reads_set RS (g_dm g) ld -> reads_set RS (g_gas g) lg -> center g = Ok h1 ->
  exists i o, lowest g i /\ nth_error (ls ++ ld ++ lg) i = Some o /\
    (let seen := map (seen_from o) in let k := K (length ls) in
     strong_spin u k (seen ls) -> (forall q, In q (seen ld) \/ In q (seen lg) -> within q) ->
     exists h2, star_align_with mm h1 None = Ok h2 /\ constructible h2 /\
       set_near RS u k (seen ls) (g_stars h2) (seen ls) /\ set_near RS u k (seen ls) (g_dm h2) (seen ld) /\
       set_near RS u k (seen ls) (g_gas h2) (seen lg)).
Proof.
  intros S RS u K U U0 U1 UK fma mm FM MM. apply (chain_from S RS u K U U0 U1 (fun h => star_align_with mm h None)). intros g ls ld lg Hg Rs Rd Rg HB CS.
  exact (c94_turned S RS u K U (u_pos u U0) U1 UK fma mm FM MM g ls ld lg Hg Rs Rd Rg HB CS).
Qed.

(** Over the reals every way to compute a sum of products gives the sum of products. *)
Lemma sum_exact fma l s : fused RX_rounded fma -> sum_of_products (S:=RX) fma l s ->
  forall rl, l = map (fun ab => (XR (fst ab), XR (snd ab))) rl -> s = XR (Rsum (map (fun ab => fst ab * snd ab) rl)).
Proof.
  intros FM HS. induction HS as [|a b|a b|l m s t H1 IH1 H2 IH2|a b l s H IH|l s H IH|l m s P H IH]; intros rl E.
  - destruct rl; [reflexivity|discriminate].
  - destruct rl as [|[x y] [|]]; try discriminate. injection E as -> ->. cbn. f_equal. ring.
  - destruct rl as [|[x y] [|]]; try discriminate. injection E as -> ->. cbn. f_equal. ring.
  - symmetry in E. apply map_eq_app in E as (r1 & r2 & -> & E1 & E2). rewrite (IH1 r1), (IH2 r2) by auto. rewrite map_app, Rsum_app. reflexivity.
  - destruct rl as [|[x y] rl]; [discriminate|]. injection E as -> -> E. rewrite (IH rl E). cbn [map fst snd Rsum fold_right].
    exact (FM (XR x) (XR y) (XR _) x y _ eq_refl eq_refl eq_refl).
  - rewrite (IH rl E). cbn. f_equal. ring.
  - subst m. apply Permutation_map_inv in P as (rl' & -> & P). rewrite (IH rl' eq_refl). f_equal.
    apply Rsum_perm, Permutation_map, Permutation_sym, P.
Qed.
Lemma row_exact fma a b c (x y z : list R) r : fused RX_rounded fma -> length y = length x -> length z = length x ->
  row_of (S:=RX) fma (XR a) (XR b) (XR c) (map XR x) (map XR y) (map XR z) r ->
  r = map3 (dot3 (N:=RX) (XR a) (XR b) (XR c)) (map XR x) (map XR y) (map XR z).
Proof.
  intros FM. revert y z r. induction x as [|x0 x IH]; intros [|y0 y] [|z0 z] r Hy Hz H; try discriminate; cbn [map] in H.
  - exact (row_nil fma _ _ _ _ _ _ H).
  - destruct (row_cons (S:=RX) fma (XR a) (XR b) (XR c) (map XR x) (map XR y) (map XR z) (XR x0) (XR y0) (XR z0) r H) as (v & r' & -> & Hs & Hr). cbn [map map3]. refine (f_equal2 cons _ _).
    + etransitivity; [apply (sum_exact fma _ _ FM Hs [(a, x0); (b, y0); (c, z0)] eq_refl)|]. cbn. f_equal. ring.
    + apply IH; auto.
Qed.

(** In exact arithmetic it makes no difference which matrix product is used. *)
Lemma c94_exact : forall fma mm, fused RX_rounded fma -> is_matmul (S:=RX) fma mm ->
  forall (g : galaxy RX) c ls ld lg, alignable g c ls ld lg -> star_align_with mm g c = star_align g c.
Proof.
  intros fma mm FM MM g c ls ld lg H. destruct H as (Hg & Hc & Hs & Hd & Hq & HJ). apply constructible_ok in Hg.
  rewrite (star_align_with_eq fma mm MM), star_align_eq by exact Hg. destruct (cut_ok (N:=RX) c); [|reflexivity]. f_equal.
  rewrite gal_matrix_near by exact Hg. assert (gs : pset_ok (g_stars g)) by (apply gal_ok_facts in Hg; now destruct Hg).
  destruct (near_sum_holds _ ls c gs Hs) as (E1 & E2 & E3). rewrite E1, E2, E3. rewrite rot_of_real by auto.
  set (M := rotR _ _ _). unfold turn_gal, rot_gal.
  assert (G : forall k p l, holds p l -> turn_set mm k (matX M) p = rot_set (matX M) p).
  { intros k p l (_ & X & Y & Z & VX & VY & VZ).
    assert (XX : forall f : particle -> R, map (fun q => XR (f q)) l = map XR (map f l)) by (intros f; now rewrite map_map).
    rewrite XX in X, Y, Z, VX, VY, VZ. unfold turn_set, rot_set. rewrite X, Y, Z, VX, VY, VZ.
    assert (LL : forall f f' : particle -> R, length (map f l) = length (map f' l)) by (intros; now rewrite !map_length).
    destruct (mm_rows fma mm MM (2 * k) (matX M) (map XR (map px l)) (map XR (map py l)) (map XR (map pz l))) as (R1 & R2 & R3); [rewrite !map_length; reflexivity..|].
    destruct (mm_rows fma mm MM (2 * k + 1) (matX M) (map XR (map pvx l)) (map XR (map pvy l)) (map XR (map pvz l))) as (R4 & R5 & R6); [rewrite !map_length; reflexivity..|].
    unfold matX in *. cbn [a11 a12 a13 a21 a22 a23 a31 a32 a33] in *.
    f_equal; match goal with H : row_of _ _ _ _ _ _ _ ?r |- ?r = _ => exact (row_exact fma _ _ _ _ _ _ _ FM (LL _ _) (LL _ _) H) end. }
  now rewrite (G 0%nat _ _ Hs), (G 1%nat _ _ Hd), (G 2%nat _ _ Hq).
Qed.

(** The fused operation of double precision rounds once. *)
Lemma c94_fma64 : forall sm, fused (F64_rounded sm) fma64.
Proof.
  intros sm a b c x y z A B C. change (bval 53 1024 (fma64 a b c) = brnd 53 1024 (XR (x * y + z))).
  change (bval 53 1024 a = XR x) in A. change (bval 53 1024 b = XR y) in B. change (bval 53 1024 c = XR z) in C.
  assert (K : forall v r, bval 53 1024 v = XR r -> is_finite v = true /\ B2R v = r).
  { intros v r H. assert (Hf : is_finite v = true) by (rewrite bval_fin_iff, H; reflexivity). split; [exact Hf|]. rewrite bval_fin in H by exact Hf. now injection H. }
  apply K in A as (Fa & <-). apply K in B as (Fb & <-). apply K in C as (Fc & <-).
  pose proof (Bfma_correct 53 1024 p53 e1024 mode_NE a b c Fa Fb Fc) as H. cbv zeta in H. fold (fma64 a b c) in H.
  apply val_of_spec with (s := Rlt_bool (B2R a * B2R b + B2R c) 0). change (round_mode mode_NE) with ZnearestE in H.
  destruct (Rlt_bool (Rabs (round radix2 (SpecFloat.fexp 53 1024) ZnearestE (B2R a * B2R b + B2R c))) (bpow radix2 1024)).
  - destruct H as (H1 & H2 & _). split; assumption.
  - split; [exact H|]. intros N. split; intros E; destruct (Rlt_bool_spec (B2R a * B2R b + B2R c) 0); try discriminate E; lra.
Qed.

(** In particular in double precision, with fused operations wherever the library has them. *)
Lemma c94_double : forall mm, is_matmul (S:=F64) fma64 mm -> forall (g h1 : galaxy F64) ls ld lg, constructible g ->
  let RS := F64_rounded (seqsum 53 1024 p53 e1024) in let u := / IZR (2 ^ 53) in let k := 2 * INR (length ls) in
  reads_set RS (g_stars g) ls -> reads_set RS (g_dm g) ld -> reads_set RS (g_gas g) lg -> center g = Ok h1 ->
  exists i o, lowest g i /\ nth_error (ls ++ ld ++ lg) i = Some o /\
    (let seen := map (seen_from o) in
     strong_spin u k (seen ls) -> (forall q, In q (seen ld) \/ In q (seen lg) -> within q) ->
     exists h2, star_align_with mm h1 None = Ok h2 /\ constructible h2 /\
       set_near RS u k (seen ls) (g_stars h2) (seen ls) /\ set_near RS u k (seen ls) (g_dm h2) (seen ld) /\
       set_near RS u k (seen ls) (g_gas h2) (seen lg)).
Proof.
  intros mm MM g h1 ls ld lg Hg RS u k Rs Rd Rg Hc. destruct c68_double as (G & U0 & U1 & UK). fold RS u in G, U0, U1, UK.
  apply (c94_chain (F64s (seqsum 53 1024 p53 e1024)) RS u (fun n => 2 * INR n) G ltac:(change u with (e (-53)); apply bpow_le; lia) U1 UK
    fma64 mm (c94_fma64 _) MM g h1 ls ld lg Hg Rs Rd Rg Hc).
Qed.

(** Two libraries need not agree in every bit: fused operations change a velocity of this galaxy. *)
Definition exD_gal : galaxy F64 :=
  mkGal (exT_set STARS [1; 1] [1; -1] [2; 0] [3; 0] [4; 0] [5; -1] [-7; -1])%Z
        (exT_set DARK_MATTER [2] [3] [4] [5] [6] [7] [8])%Z (exT_set GAS [] [] [] [] [] [] [])%Z false.
Lemma exD_gal_ok : constructible exD_gal.
Proof.
  apply constructible_ok, gal_ok_facts. constructor; try reflexivity.
  all: apply pset_ok_iff; split; [|reflexivity]; repeat split; intros p [= <-].
Qed.

(** So the galaxy returned depends on the library. *)
Lemma c94_bits_refuted : exists mm (g h k : galaxy F64), is_matmul (S:=F64) fma64 mm /\ constructible g /\
  star_align g None = Ok h /\ star_align_with mm g None = Ok k /\ p_vx (g_dm k) <> p_vx (g_dm h).
Proof.
  destruct (c94_plain F64 fma64) as (_ & FM & _).
  exists (fused_matmul (S:=F64) fma64), exD_gal, (rot_gal (gal_matrix exD_gal None) exD_gal), (turn_gal (fused_matmul (S:=F64) fma64) (gal_matrix exD_gal None) exD_gal).
  pose proof exD_gal_ok as Hg. split; [exact FM|]. split; [exact Hg|]. apply constructible_ok in Hg.
  split; [now rewrite star_align_eq by exact Hg|]. split; [now rewrite (star_align_with_eq (S:=F64) fma64 _ FM) by exact Hg|].
  intros E.
  assert (X : forallb (fun b => b) (map2 (@neqb F64) (p_vx (g_dm (turn_gal (fused_matmul (S:=F64) fma64) (gal_matrix exD_gal None) exD_gal))) (p_vx (g_dm (rot_gal (gal_matrix exD_gal None) exD_gal)))) = false)
    by (vm_compute; reflexivity).
  assert (Y : forallb (fun b => b) (map2 (@neqb F64) (p_vx (g_dm (rot_gal (gal_matrix exD_gal None) exD_gal))) (p_vx (g_dm (rot_gal (gal_matrix exD_gal None) exD_gal)))) = true)
    by (vm_compute; reflexivity).
  rewrite E, Y in X. discriminate X.
Qed.

(** The hypotheses are met by the kernels with fused operations and the galaxy of C93; both stars get an
    angular momentum along z near sqrt 2. *)
Example ex_c94 : is_matmul (S:=F64) fma64 (fused_matmul (S:=F64) fma64) /\ constructible exC_gal /\
  (let RS := F64_rounded (seqsum 53 1024 p53 e1024) in
   reads_set RS (g_stars exC_gal) exC_stars /\ reads_set RS (g_dm exC_gal) exC_dark /\ reads_set RS (g_gas exC_gal) []) /\
  map (seen_from (Part 9 5 5 5 6 7 8)) exC_stars = exT_stars /\ strong_spin (/ IZR (2 ^ 53)) (2 * INR 2) exT_stars /\
  clear_spin (/ IZR (2 ^ 53)) (2 * INR 2) exT_stars /\
  (do h1 <- center exC_gal; do h2 <- star_align_with (fused_matmul (S:=F64) fma64) h1 None;
   Ok (map (fun x => andb (nlt (nlit 141421 100000) x) (nlt x (nlit 141422 100000))) (p_Jz (g_stars h2)))) = Ok [true; true].
Proof.
  destruct (c94_plain F64 fma64) as (_ & FM & _). split; [exact FM|]. split; [exact exC_gal_ok|]. split; [exact exC_reads|].
  split; [exact exC_seen|]. split; [exact exC_spin|]. split; [exact exT_spin|]. vm_compute. reflexivity.
Qed.
