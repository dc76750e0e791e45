(** Property lemmas about the particle in the centre and infinite values: C95. *)
From Flocq Require Import Core BinarySingleNaN.
From Coq Require Import Lra Lia.
From Verif Require Import Py Num RX F64 Np Df Data DataFacts DfFacts RebuildFacts Center Align Spec Ex DataThms CenterFacts CenterThms AlignFacts AlignThms SpecWhich SpecR.

Section First.
Context {N : Num} (RN : Rounded N).
Local Notation v := (val RN).

Lemma argmin_first (l : list N) : forall pre best bi,
  nth_error pre bi = Some best -> nisnan best = false -> Forall (fun w => nisnan w = false) (pre ++ l) ->
  (forall j w, nth_error pre j = Some w -> nlt w best = false /\ ((j < bi)%nat -> nlt best w = true)) ->
  let k := argmin_from best bi (length pre) l in
  exists b, nth_error (pre ++ l) k = Some b /\
    forall j w, nth_error (pre ++ l) j = Some w -> nlt w b = false /\ ((j < k)%nat -> nlt b w = true).
Proof.
  induction l as [|x l IH]; intros pre best bi Hb Hn Hf Hp.
  - cbv zeta. cbn [argmin_from]. exists best. rewrite app_nil_r. split; [exact Hb|exact Hp].
  - assert (Hx : nisnan x = false) by (rewrite Forall_forall in Hf; apply Hf, in_or_app; right; now left).
    cbv zeta. cbn [argmin_from]. rewrite Hn, Hx. cbn [orb].
    assert (E1 : pre ++ x :: l = (pre ++ [x]) ++ l) by (rewrite <- app_assoc; reflexivity).
    assert (E2 : S (length pre) = length (pre ++ [x])) by (rewrite app_length; cbn; lia).
    rewrite E1, E2. rewrite E1 in Hf. assert (Hbi : (bi < length pre)%nat) by (apply nth_error_Some; congruence).
    destruct (nlt x best) eqn:E.
    + apply IH; auto.
      * rewrite nth_error_app2, Nat.sub_diag by lia. reflexivity.
      * intros j w Hj. destruct (Nat.lt_ge_cases j (length pre)) as [L|L].
        -- rewrite nth_error_app1 in Hj by exact L. destruct (Hp j w Hj) as (Q & _).
           assert (Hw : nisnan w = false) by (rewrite Forall_forall in Hf; apply Hf, in_or_app; left; apply in_or_app; left; eapply nth_error_In; eauto).
           apply (nlt_iff RN) in E. apply (nlt_false RN) in Q. apply (nisnan_false RN) in Hw, Hn.
           assert (T : xlt (v x) (v w)) by (destruct (v x), (v best), (v w); cbn in *; try tauto; try congruence; lra).
           split; [|intros _; now apply (nlt_iff RN)]. apply (nlt_false RN). destruct (v x), (v w); cbn in *; try tauto; lra.
        -- rewrite nth_error_app2 in Hj by exact L. destruct (j - length pre)%nat as [|d] eqn:D; [|destruct d; discriminate].
           injection Hj as <-. split; [apply (nlt_irrefl RN)|lia].
    + apply IH; auto.
      * rewrite nth_error_app1; auto.
      * intros j w Hj. destruct (Nat.lt_ge_cases j (length pre)) as [L|L].
        -- rewrite nth_error_app1 in Hj by exact L. now apply Hp.
        -- rewrite nth_error_app2 in Hj by exact L. destruct (j - length pre)%nat as [|d] eqn:D; [|destruct d; discriminate].
           injection Hj as <-. split; [exact E|lia].
Qed.

Lemma argmin_centre (l : list N) i : pd_argmin l = Ok i ->
  exists b, nth_error l i = Some b /\
  ((forall w, In w l -> nisnan w = true) -> S i = length l) /\
  ((exists w, In w l /\ nisnan w = false) ->
   forall j w, nth_error l j = Some w -> nlt (height w) (height b) = false /\ ((j < i)%nat -> nlt (height b) (height w) = true)).
Proof.
  intros H. unfold pd_argmin in H. change (map (fun x : N => if nisnan x then npinf else x) l) with (map height l) in H.
  apply bind_ok in H as (k & Hk & H). injection H as H. destruct l as [|x0 l]; [discriminate|].
  destruct (forallb nisnan (x0 :: l)) eqn:A.
  - rewrite forallb_forall in A. destruct (nth_error_lt (x0 :: l) i) as (b & Hb); [subst i; cbn; lia|].
    exists b. split; [exact Hb|]. split; [intros _; subst i; cbn; lia|]. intros (w & Hw & E). rewrite A in E by exact Hw. discriminate.
  - subst k. assert (NN : exists w, In w (x0 :: l) /\ nisnan w = false).
    { clear - A. induction (x0 :: l) as [|y m IH]; [discriminate|]. cbn in A. destruct (nisnan y) eqn:E; [|exists y; split; [now left|exact E]].
      destruct (IH A) as (w & Hw & Ew). exists w. split; [now right|exact Ew]. }
    cbn [map np_argmin] in Hk. injection Hk as Hk.
    destruct (argmin_first (map height l) [height x0] (height x0) 0 eq_refl (nan_to_inf_notnan RN x0)) as (b & Hb & Q).
    + change ([height x0] ++ map height l) with (map height (x0 :: l)). apply Forall_map, Forall_forall. intros. apply nan_to_inf_notnan, RN.
    + intros [|[|j]] w Hj; try discriminate. injection Hj as <-. split; [apply (nlt_irrefl RN)|lia].
    + cbn [length] in Hb, Q. rewrite Hk in Hb, Q. change ([height x0] ++ map height l) with (map height (x0 :: l)) in Hb, Q.
      rewrite nth_error_map in Hb. destruct (nth_error (x0 :: l) i) as [c|] eqn:Ec; [|discriminate]. injection Hb as <-.
      exists c. split; [reflexivity|]. split.
      * intros Al. destruct NN as (w & Hw & Ew). rewrite Al in Ew by exact Hw. discriminate.
      * intros _ j w Hj. apply Q. now rewrite nth_error_map, Hj.
Qed.
End First.

(** *** C95 *)

(** There is at most one such particle. *)
Lemma c95_unique : forall (N : Num) (g : galaxy N) i j, centre g i -> centre g j -> i = j.
Proof.
  intros N g i j (a & Ha & A1 & A2) (b & Hb & B1 & B2).
  destruct (forallb nisnan (all_pots g)) eqn:E.
  - rewrite forallb_forall in E. specialize (A1 E). specialize (B1 E). lia.
  - assert (NN : exists w, In w (all_pots g) /\ nisnan w = false).
    { clear - E. induction (all_pots g) as [|y m IH]; [discriminate|]. cbn in E. destruct (nisnan y) eqn:F; [|exists y; split; [now left|exact F]].
      destruct (IH E) as (w & Hw & Ew). exists w. split; [now right|exact Ew]. }
    specialize (A2 NN). specialize (B2 NN). destruct (Nat.lt_trichotomy i j) as [L|[L|L]]; [exfalso|exact L|exfalso].
    + destruct (A2 j b Hb) as (P & _). destruct (B2 i a Ha) as (_ & Q). rewrite Q in P by exact L. discriminate.
    + destruct (B2 i a Ha) as (P & _). destruct (A2 j b Hb) as (_ & Q). rewrite Q in P by exact L. discriminate.
Qed.

(** [center] works for every galaxy with potential and at least one particle, and moves that particle
    -- ties, missing and infinite potentials included -- to the origin. *)
Lemma c95_center : forall (N : Num) (RN : Rounded N) (g : galaxy N), constructible g -> g_haspot g = true -> all_x g <> [] ->
  exists h i x0 y0 z0, center g = Ok h /\ centre g i /\
    nth_error (all_x g) i = Some x0 /\ nth_error (all_y g) i = Some y0 /\ nth_error (all_z g) i = Some z0 /\
    moved (fun a => a - x0)%num (fun a => a - y0)%num (fun a => a - z0)%num g h.
Proof.
  intros N RN g Hg Hp NE. apply constructible_ok in Hg.
  destruct (center_total g Hg Hp) as (i & x0 & y0 & z0 & Hi & _ & X & Y & Z & C).
  { pose proof (gxyz_length g Hg) as (A & _). rewrite <- all_x_gx in A. destruct (all_x g); [congruence|cbn in A; lia]. }
  exists (shift_gal x0 y0 z0 g), i, x0, y0, z0. rewrite all_x_gx, all_y_gy, all_z_gz. split; [exact C|]. split; [|split; [|split; [|split]]]; auto.
  - unfold centre. rewrite <- sets_len by auto. apply (argmin_centre RN _ _ Hi).
  - apply shift_moved; auto.
Qed.

(** [is_centered] says True exactly when that particle has three finite coordinates of at most [atol]
    in absolute value; a finite [rtol] makes no difference. *)
Lemma c95_centered : forall (N : Num) (RN : Rounded N) (g : galaxy N) i x y z (rtol atol : N) t, constructible g -> g_haspot g = true ->
  centre g i -> nth_error (all_x g) i = Some x -> nth_error (all_y g) i = Some y -> nth_error (all_z g) i = Some z ->
  nfin rtol = true -> val RN atol = XR t ->
  exists b, is_centered g rtol atol = Ok b /\
    (b = true <-> forall a, In a [x; y; z] -> exists r, val RN a = XR r /\ (Rabs r <= t)%R).
Proof.
  intros N RN g i x y z rtol atol t Hg Hp Hc X Y Z Hr Et. apply constructible_ok in Hg as Hg'.
  destruct (center_total g Hg' Hp) as (k & x0 & y0 & z0 & Hk & _ & X0 & Y0 & Z0 & _).
  { pose proof (gxyz_length g Hg') as (A & _). rewrite <- all_x_gx in A. destruct (all_x g); [destruct i; discriminate|cbn in A; lia]. }
  assert (k = i) as ->.
  { apply (c95_unique N g); [|exact Hc]. unfold centre. rewrite <- sets_len by auto. apply (argmin_centre RN _ _ Hk). }
  rewrite <- all_x_gx, X in X0. rewrite <- all_y_gy, Y in Y0. rewrite <- all_z_gz, Z in Z0. injection X0 as <-. injection Y0 as <-. injection Z0 as <-.
  rewrite (is_centered_eq g i x y z) by (rewrite <- ?all_x_gx, <- ?all_y_gy, <- ?all_z_gz; auto).
  eexists. split; [reflexivity|]. unfold allclose. rewrite forallb_forall.
  assert (G : forall a, isclose rtol atol a n0 = true <-> exists r, val RN a = XR r /\ (Rabs r <= t)%R).
  { intros a. unfold isclose. assert (nfin (n0 : N) = true) as -> by (apply (nfin_iff RN); rewrite (val_n0 RN); eauto). rewrite andb_true_r.
    apply (nfin_iff RN) in Hr as (r0 & Er). destruct (nfin a) eqn:Fa.
    - apply (nfin_iff RN) in Fa as (r & Ea). rewrite (nle_iff RN), (val_abs RN), (val_add RN), (val_mul RN), (val_abs RN), (val_n0 RN), Er, Et.
      replace (val RN (a - n0)%num) with (XR r) by (unfold n0; now rewrite (sub_zero RN)). cbn [xabs xmul]. rewrite Rabs_R0, Rmult_0_r.
      rewrite (rnd_int RN 0) by (pose proof (intmax_pos RN); lia). cbn [xadd]. rewrite Rplus_0_r, <- Et, (rnd_val RN), Et, Ea. cbn [xle].
      split; [intros H; eauto|intros (r' & [= <-] & H); exact H].
    - rewrite (neqb_iff RN), (val_n0 RN). split.
      + intros (E & _). assert (nfin a = true) by (apply (nfin_iff RN); eauto). congruence.
      + intros (r & E & _). assert (nfin a = true) by (apply (nfin_iff RN); eauto). congruence. }
  split; intros H a Ha; apply G, H, Ha.
Qed.

Section Norm.
Context {N : Num} (RN : Rounded N).
Local Notation v := (val RN).
Lemma square_sign (a : N) : v a = XNaN /\ v (a * a)%num = XNaN \/ v a <> XNaN /\ xle (XR 0) (v (a * a)%num).
Proof.
  rewrite (val_mul RN). destruct (v a) as [r| | |] eqn:E; cbn [xmul xsgn csmul xinf].
  - right. split; [discriminate|]. replace (XR 0) with (rnd RN (XR 0)) by (apply (rnd_int RN 0); pose proof (intmax_pos RN); lia). apply (rnd_mono RN). cbn. nra.
  - right. split; [discriminate|]. cbn. rewrite (rnd_pinf RN). exact I.
  - right. split; [discriminate|]. cbn. rewrite (rnd_pinf RN). exact I.
  - left. split; [reflexivity|]. apply (rnd_nan RN).
Qed.
Lemma square_inf (a : N) : nfin a = false -> v a <> XNaN -> v (a * a)%num = XPInf.
Proof. intros F NN. rewrite (val_fin RN) in F. rewrite (val_mul RN). destruct (v a); try discriminate; try congruence; apply (rnd_pinf RN). Qed.
Lemma add_sign (a b : N) : xle (XR 0) (v a) -> xle (XR 0) (v b) -> xle (XR 0) (v (a + b)%num) /\ (v a = XPInf \/ v b = XPInf -> v (a + b)%num = XPInf).
Proof.
  intros A B. rewrite (val_add RN). destruct (v a) as [r| | |], (v b) as [s| | |]; cbn [xle xadd] in *; try tauto; split; rewrite ?(rnd_pinf RN); try exact I; auto.
  - change (xle (XR 0) (rnd RN (XR (r + s)))). replace (XR 0) with (rnd RN (XR 0)) by (apply (rnd_int RN 0); pose proof (intmax_pos RN); lia). apply (rnd_mono RN). cbn. lra.
  - intros [H|H]; discriminate.
Qed.
(** The length of a vector with an infinite or unknown component. *)
Lemma norm_nan (a b c : N) : v a = XNaN \/ v b = XNaN \/ v c = XNaN -> v (nsqrt ((a * a + b * b) + c * c)%num) = XNaN.
Proof.
  intros H. rewrite (val_sqrt RN), !(val_add RN), !(val_mul RN).
  assert (M : forall x, xmul XNaN x = XNaN) by (intros []; reflexivity). assert (P : forall x, xadd x XNaN = XNaN) by (intros []; reflexivity).
  assert (P' : forall x, xadd XNaN x = XNaN) by (intros []; reflexivity).
  destruct H as [H|[H|H]]; rewrite H, ?M, ?(rnd_nan RN), ?P, ?P', ?(rnd_nan RN), ?P', ?(rnd_nan RN); reflexivity || (cbn; rewrite ?(rnd_nan RN); reflexivity).
Qed.
Lemma norm_inf (a b c : N) : v a <> XNaN -> v b <> XNaN -> v c <> XNaN -> nfin a = false \/ nfin b = false \/ nfin c = false ->
  v (nsqrt ((a * a + b * b) + c * c)%num) = XPInf.
Proof.
  intros A B C H.
  destruct (square_sign a) as [[? _]|[_ SA]]; [congruence|]. destruct (square_sign b) as [[? _]|[_ SB]]; [congruence|]. destruct (square_sign c) as [[? _]|[_ SC]]; [congruence|].
  destruct (add_sign _ _ SA SB) as (P1 & Q1). destruct (add_sign _ _ P1 SC) as (P2 & Q2).
  rewrite (val_sqrt RN), Q2; [cbn; apply (rnd_pinf RN)|]. destruct H as [H|[H|H]]; [left; apply Q1; left|left; apply Q1; right|right]; now apply square_inf.
Qed.
End Norm.

(** [is_star_aligned] when a component of the total angular momentum is infinite or NaN: True exactly
    when the z component is plus infinity and the others are not NaN, whatever the tolerances. *)
Lemma c95_aligned : forall (N : Num) (RN : Rounded N) (g : galaxy N) c rtol atol, constructible g ->
  let jx := nsum (map (fun s => s_jx s * s_m s)%num (near c (g_stars g))) in
  let jy := nsum (map (fun s => s_jy s * s_m s)%num (near c (g_stars g))) in
  let jz := nsum (map (fun s => s_jz s * s_m s)%num (near c (g_stars g))) in
  nfin jx = false \/ nfin jy = false \/ nfin jz = false ->
  exists b, is_star_aligned g c rtol atol = Ok b /\
    (b = true <-> val RN jz = XPInf /\ nisnan jx = false /\ nisnan jy = false).
Proof.
  intros N RN g c rtol atol Hg jx jy jz H. apply constructible_ok in Hg. rewrite is_star_aligned_eq by exact Hg. cbv zeta. fold jx jy jz.
  eexists. split; [reflexivity|]. unfold isclose. set (J := nsqrt _).
  assert (NJ : nfin J = false /\ (val RN J = XNaN \/ val RN J = XPInf)).
  { destruct (nisnan jx) eqn:Ex; [|destruct (nisnan jy) eqn:Ey; [|destruct (nisnan jz) eqn:Ez]].
    1-3: assert (E : val RN J = XNaN) by (apply norm_nan; rewrite <- !(nisnan_iff RN); tauto); rewrite (val_fin RN), E; split; [reflexivity|tauto].
    apply (nisnan_false RN) in Ex, Ey, Ez. assert (E : val RN J = XPInf) by (apply norm_inf; auto). rewrite (val_fin RN), E; split; [reflexivity|tauto]. }
  destruct NJ as (FJ & VJ). rewrite FJ, andb_false_r, (neqb_iff RN), !(nisnan_false RN). split.
  - intros (E & NN). destruct VJ as [VJ|VJ]; [congruence|]. split; [congruence|]. split; intros Q.
    + assert (val RN J = XNaN) by (apply norm_nan; tauto). congruence.
    + assert (val RN J = XNaN) by (apply norm_nan; tauto). congruence.
  - intros (E & X & Y). split; [|congruence]. rewrite E. symmetry. apply norm_inf; auto. congruence.
Qed.

Definition exW_set (t : ptype) (m x y z vx vy vz pot : list F64) : pset F64 := pset_of (N:=F64) t m x y z vx vy vz (Some pot) (fZ 0).
Definition exW_none (t : ptype) : pset F64 := exW_set t [] [] [] [] [] [] [] [].
Lemma exW_ok s d : pset_ok s -> pset_ok d -> p_type s = STARS -> p_type d = DARK_MATTER -> p_haspot s = true -> p_haspot d = true ->
  constructible (mkGal s d (exW_none GAS) true).
Proof.
  intros A B C D E F. apply constructible_ok, gal_ok_facts. constructor; auto.
  apply pset_ok_iff. split; [|reflexivity]. repeat split; intros p [= <-]; reflexivity.
Qed.
Ltac exset := apply pset_ok_iff; split; [|reflexivity]; repeat split; intros p [= <-]; reflexivity.

(** The default tolerances, in exact arithmetic: [is_centered] allows 10^-8 in each coordinate,
    [is_star_aligned] a z component that falls short of the total by 10^-8 plus 10^-5 of the total. *)
Lemma c95_defaults : forall (g : galaxy RX), constructible g ->
  (forall i x y z, g_haspot g = true -> centre g i -> nth_error (all_x g) i = Some x -> nth_error (all_y g) i = Some y -> nth_error (all_z g) i = Some z ->
     exists b, is_centered g default_rtol default_atol = Ok b /\
       (b = true <-> forall a, In a [x; y; z] -> exists r, a = XR r /\ (Rabs r <= / 100000000)%R)) /\
  (forall c ls, holds (g_stars g) ls ->
     exists b, is_star_aligned g c default_rtol default_atol = Ok b /\
       (b = true <-> (Lnorm c ls - LZ c ls <= / 100000000 + / 100000 * Lnorm c ls)%R)).
Proof.
  intros g Hg.
  assert (E1 : (@default_rtol RX) = XR (/ 100000)) by (unfold default_rtol, nlit; simpl; destruct (Req_EM_T 100000 0); [lra|f_equal; lra]).
  assert (E2 : (@default_atol RX) = XR (/ 100000000)) by (unfold default_atol, nlit; simpl; destruct (Req_EM_T 100000000 0); [lra|f_equal; lra]).
  rewrite E1, E2. split.
  - intros i x y z Hp Hc X Y Z. exact (c95_centered RX RX_rounded g i x y z (XR (/ 100000)) (XR (/ 100000000)) (/ 100000000)%R Hg Hp Hc X Y Z eq_refl eq_refl).
  - intros c ls Hl. destruct (c18_meaning g c ls (/ 100000) (/ 100000000) Hg Hl) as (b & E & H). exists b. split; [exact E|]. rewrite H.
    assert (L : (LZ c ls <= Lnorm c ls)%R).
    { unfold Lnorm. set (a := LX c ls). set (b0 := LY c ls). set (d := LZ c ls).
      destruct (Rle_lt_dec d 0) as [Q|Q]; [pose proof (sqrt_pos (a * a + b0 * b0 + d * d)); lra|].
      rewrite <- (sqrt_square d) at 1 by lra. apply sqrt_le_1_alt. pose proof (Rle_0_sqr a). pose proof (Rle_0_sqr b0). unfold Rsqr in *. lra. }
    rewrite Rabs_left1 by lra. split; lra.
Qed.

(** An angular momentum exactly along z can be found not aligned: its square is beyond the range of
    double precision. *)
Lemma c95_overflow_refuted : exists g : galaxy F64, constructible g /\
  nsum (map (fun s => s_jx s * s_m s)%num (near None (g_stars g))) = n0 /\
  nsum (map (fun s => s_jy s * s_m s)%num (near None (g_stars g))) = n0 /\
  nfin (nsum (map (fun s => s_jz s * s_m s)%num (near None (g_stars g)))) = true /\
  nlt n0 (nsum (map (fun s => s_jz s * s_m s)%num (near None (g_stars g)))) = true /\
  is_star_aligned g None (nlit 1 100000) (nlit 1 100000000) = Ok false.
Proof.
  exists (mkGal (exW_set STARS [fZ 1] [nofZ (10 ^ 100)] [fZ 0] [fZ 0] [fZ 0] [nofZ (10 ^ 100)] [fZ 0] [fZ 0]) (exW_none DARK_MATTER) (exW_none GAS) true).
  split; [apply exW_ok; try reflexivity; exset|].
  repeat split; vm_compute; reflexivity.
Qed.

(** Two particles of equal potential: the first is in the centre.  Without any known potential the
    last is.  An infinite angular momentum along z counts as aligned. *)
Example ex_c95 :
  (let g := mkGal (exW_set STARS (fZs [1; 1]%Z) (fZs [3; 4]%Z) (fZs [0; 0]%Z) (fZs [0; 0]%Z) (fZs [0; 0]%Z) (fZs [0; 0]%Z) (fZs [0; 0]%Z) [nnan; fZ (-2)])
     (exW_set DARK_MATTER [fZ 1] [fZ 5] [fZ 0] [fZ 0] [fZ 0] [fZ 0] [fZ 0] [fZ (-2)]) (exW_none GAS) true in
   constructible g /\ rmap (fun h => shows (all_x h)) (center g) = Ok [sZ (-1); sZ 0; sZ 1]) /\
  (let g := mkGal (exW_set STARS (fZs [1; 1]%Z) (fZs [3; 4]%Z) (fZs [0; 0]%Z) (fZs [0; 0]%Z) (fZs [0; 0]%Z) (fZs [0; 0]%Z) (fZs [0; 0]%Z) [nnan; nnan])
     (exW_set DARK_MATTER [fZ 1] [fZ 5] [fZ 0] [fZ 0] [fZ 0] [fZ 0] [fZ 0] [nnan]) (exW_none GAS) true in
   constructible g /\ rmap (fun h => shows (all_x h)) (center g) = Ok [sZ (-2); sZ (-1); sZ 0]) /\
  (let g := mkGal (exW_set STARS [fZ 1] [nofZ (10 ^ 200)] [fZ 0] [fZ 0] [fZ 0] [nofZ (10 ^ 200)] [fZ 0] [fZ 0]) (exW_none DARK_MATTER) (exW_none GAS) true in
   constructible g /\ is_star_aligned g None n0 n0 = Ok true /\ is_centered g default_rtol default_atol = Ok false).
Proof.
  cbv zeta. repeat split; try (apply exW_ok; try reflexivity; exset); vm_compute; reflexivity.
Qed.

(** A star that circles the z axis counts as aligned, one that circles the x axis does not. *)
Example ex_c95_defaults :
  is_star_aligned (galR [Part 1 1 0 0 0 1 0]%R [] []) None default_rtol default_atol = Ok true /\
  is_star_aligned (galR [Part 1 0 1 0 0 0 1]%R [] []) None default_rtol default_atol = Ok false.
Proof.
  split.
  - destruct (proj2 (c95_defaults _ (galR_ok [Part 1 1 0 0 0 1 0]%R [] [])) None _ (psetR_holds STARS _)) as (b & E & H). rewrite E. f_equal. apply H.
    unfold Lnorm, LX, LY, LZ, lx, ly, lz; simpl.
    match goal with |- context [sqrt ?e] => replace e with (1 * 1)%R by ring end. rewrite sqrt_square by lra. lra.
  - destruct (proj2 (c95_defaults _ (galR_ok [Part 1 0 1 0 0 0 1]%R [] [])) None _ (psetR_holds STARS _)) as (b & E & H). rewrite E. f_equal.
    destruct b; [|reflexivity]. exfalso. pose proof (proj1 H eq_refl) as Q. revert Q.
    unfold Lnorm, LX, LY, LZ, lx, ly, lz; simpl.
    match goal with |- context [sqrt ?e] => replace e with (1 * 1)%R by ring end. rewrite sqrt_square by lra. lra.
Qed.
