(** Property lemmas about utils/_align.py: C13 - C18. *)
From Flocq Require Import Core.Raux.
From Coq Require Import Floats.SpecFloat.
From Verif Require Import Py Num RX F64 Np Df Data DataFacts DfFacts RebuildFacts Center CenterFacts Align
  Spec SpecR Ex DataThms CenterThms AlignFacts.

(** *** C13 *)

(** A cut-off that is given and not positive (compares [<= 0]) is a ValueError; in every
    other case, NaN included, a galaxy is returned. *)
Lemma c13_guard : forall (N : Num) (g : galaxy N) c, constructible g ->
  (star_align g c = Raise ValueError <-> exists v, c = Some v /\ nle v n0 = true) /\
  ((exists h, star_align g c = Ok h) <-> forall v, c = Some v -> nle v n0 = false).
Proof.
  intros N g c Hg. apply constructible_ok in Hg. rewrite star_align_eq by auto.
  unfold cut_ok. destruct c as [v|].
  - destruct (nle v n0) eqn:E; simpl; split; split; intros H; eauto; try discriminate.
    + destruct H; discriminate.
    + specialize (H v eq_refl); congruence.
    + destruct H as (w & [= <-] & H); congruence.
    + intros w [= <-]; auto.
  - split; split; intros H; try discriminate; eauto.
    destruct H as (w & H & _); discriminate.
Qed.

(** One common matrix turns the positions and velocities of all three sets, nothing else
    changes, and the matrix depends only on the stars inside the cut-off: two galaxies
    that agree on those are turned by the same matrix. *)
Lemma c13_frame : forall (N : Num) (g1 g2 h1 h2 : galaxy N) c,
  constructible g1 -> constructible g2 -> near c (g_stars g1) = near c (g_stars g2) ->
  star_align g1 c = Ok h1 -> star_align g2 c = Ok h2 ->
  exists a11 a12 a13 a21 a22 a23 a31 a32 a33 : N,
    Forall2 (turned a11 a12 a13 a21 a22 a23 a31 a32 a33) (sets g1) (sets h1) /\
    Forall2 (turned a11 a12 a13 a21 a22 a23 a31 a32 a33) (sets g2) (sets h2) /\
    constructible h1 /\ g_haspot h1 = g_haspot g1.
Proof.
  intros N g1 g2 h1 h2 c H1 H2 E A1 A2. apply constructible_ok in H1, H2.
  rewrite star_align_eq in A1, A2 by auto. destruct (cut_ok c); [|discriminate].
  injection A1 as <-. injection A2 as <-.
  assert (M : gal_matrix g1 c = gal_matrix g2 c) by (rewrite !gal_matrix_near, E by auto; reflexivity).
  rewrite M. set (A := gal_matrix g2 c).
  exists (a11 A), (a12 A), (a13 A), (a21 A), (a22 A), (a23 A), (a31 A), (a32 A), (a33 A).
  assert (T : forall g : galaxy N, gal_ok g -> Forall2 (turned (a11 A) (a12 A) (a13 A) (a21 A) (a22 A) (a23 A) (a31 A) (a32 A) (a33 A))
    (sets g) (sets (rot_gal A g))).
  { intros g Hg. apply gal_ok_facts in Hg as [gf_s0 gf_d0 gf_g0 gf_ts0 gf_td0 gf_tg0 gf_hs0 gf_hd0 gf_hg0].
    apply Forall2_sets. split; [|split]; apply rot_set_turned; auto. }
  split; [auto|]. split; [auto|]. split; [|reflexivity]. now apply constructible_ok, rot_gal_ok.
Qed.

(** A small galaxy: one star moving in the y-z plane, one dark matter and one gas particle. *)
Definition galA : res (galaxy F64) :=
  do s <- (zset STARS [2; 1] [0; 9] [1; 9] [0; 9] [0; 1] [0; 0] [1; 0] (Some [-3; -1]) 0)%Z;
  do d <- (zset DARK_MATTER [2] [1] [2] [3] [4] [5] [6] (Some [-3]) 0)%Z;
  do q <- (zset GAS [2] [1] [0] [0] [0] [1] [0] (Some [-3]) 0)%Z;
  mk_galaxy s d q.

Example ex_c13 :
  exn_of (do g <- galA; star_align g (Some (fZ 0))) = Some ValueError /\
  rmap (fun h => (shows (all_x h), shows (all_y h), shows (all_z h))) (do g <- galA; star_align g (Some (fZ 5))) =
    Ok ([sZ (-1); sZ (-9); sZ (-2); sZ 0], [sZ 0; sZ (-9); sZ (-3); sZ 0], [sZ 0; sZ 9; sZ 1; sZ 1]).
Proof. vm_compute. auto. Qed.

(** *** Real matrices *)
Section RealRot.
Local Open Scope R_scope.

(** The matrix star_align builds, over the reals. *)
Definition rotR (jx jy jz : R) : matR :=
  let jp := sqrt (jx * jx + jy * jy) in
  let j := sqrt (jx * jx + jy * jy + jz * jz) in
  MatR (jy / jp) (- jx / jp) 0
       (jx * jz / (jp * j)) (jy * jz / (jp * j)) (- jp / j)
       (jx / j) (jy / j) (jz / j).

Lemma sq_pos (a b : R) : a <> 0 \/ b <> 0 -> 0 < a * a + b * b.
Proof. intros [H|H]; nra. Qed.

Lemma rot_units jx jy jz : jx <> 0 \/ jy <> 0 ->
  exists u w s c jp j, 0 < jp /\ 0 < j /\
    jp = sqrt (jx * jx + jy * jy) /\ j = sqrt (jx * jx + jy * jy + jz * jz) /\
    jx = u * jp /\ jy = w * jp /\ jp = s * j /\ jz = c * j /\
    u * u + w * w = 1 /\ s * s + c * c = 1 /\
    rotR jx jy jz = MatR w (- u) 0 (u * c) (w * c) (- s) (u * s) (w * s) c.
Proof.
  intros H. pose proof (sq_pos _ _ H) as P.
  set (jp := sqrt (jx * jx + jy * jy)). set (j := sqrt (jx * jx + jy * jy + jz * jz)).
  assert (Pp : 0 < jp) by (apply sqrt_lt_R0; auto).
  assert (Pj : 0 < j) by (apply sqrt_lt_R0; nra).
  assert (Sp : jp * jp = jx * jx + jy * jy) by (apply sqrt_sqrt; lra).
  assert (Sj : j * j = jx * jx + jy * jy + jz * jz) by (apply sqrt_sqrt; nra).
  exists (jx / jp), (jy / jp), (jp / j), (jz / j), jp, j.
  split; [exact Pp|]. split; [exact Pj|]. split; [reflexivity|]. split; [reflexivity|].
  split; [field; lra|]. split; [field; lra|]. split; [field; lra|]. split; [field; lra|].
  split; [|split].
  - replace (jx / jp * (jx / jp) + jy / jp * (jy / jp)) with ((jx * jx + jy * jy) / (jp * jp)) by (field; lra).
    rewrite Sp. field. lra.
  - replace (jp / j * (jp / j) + jz / j * (jz / j)) with ((jp * jp + jz * jz) / (j * j)) by (field; lra).
    rewrite Sp, Sj. field. nra.
  - unfold rotR. fold jp j. f_equal; field; lra.
Qed.

Lemma rotR_rotation jx jy jz : jx <> 0 \/ jy <> 0 -> rotation (rotR jx jy jz).
Proof.
  intros H. destruct (rot_units jx jy jz H) as (u & w & s & c & jp & j & _ & _ & _ & _ & _ & _ & _ & _ & U & S & ->).
  unfold rotation; simpl.
  assert (W : w * w = 1 - u * u) by lra. assert (C : s * s = 1 - c * c) by lra.
  repeat split.
  - lra.
  - replace (u * c * (u * c) + w * c * (w * c) + - s * - s) with ((u * u + w * w) * (c * c) + s * s) by ring.
    rewrite U. lra.
  - replace (u * s * (u * s) + w * s * (w * s) + c * c) with ((u * u + w * w) * (s * s) + c * c) by ring.
    rewrite U. lra.
  - ring.
  - ring.
  - replace (u * c * (u * s) + w * c * (w * s) + - s * c) with ((u * u + w * w) * (c * s) - s * c) by ring.
    rewrite U. ring.
  - replace (w * w + u * c * (u * c) + u * s * (u * s)) with (w * w + u * u * (s * s + c * c)) by ring.
    rewrite S. lra.
  - replace (- u * - u + w * c * (w * c) + w * s * (w * s)) with (u * u + w * w * (s * s + c * c)) by ring.
    rewrite S. lra.
  - lra.
  - replace (w * - u + u * c * (w * c) + u * s * (w * s)) with (u * w * (s * s + c * c) - u * w) by ring.
    rewrite S. ring.
  - ring.
  - ring.
  - replace (w * (w * c * c - - s * (w * s)) - - u * (u * c * c - - s * (u * s)) +
       0 * (u * c * (w * s) - w * c * (u * s))) with ((u * u + w * w) * (s * s + c * c)) by ring.
    rewrite U, S. ring.
Qed.

Lemma rotR_J jx jy jz : jx <> 0 \/ jy <> 0 ->
  let M := rotR jx jy jz in
  m11 M * jx + m12 M * jy + m13 M * jz = 0 /\ m21 M * jx + m22 M * jy + m23 M * jz = 0 /\
  m31 M * jx + m32 M * jy + m33 M * jz = sqrt (jx * jx + jy * jy + jz * jz).
Proof.
  intros H M. unfold M.
  destruct (rot_units jx jy jz H) as (u & w & s & c & jp & j & _ & _ & _ & Ej & X & Y & P & Z & U & S & ->).
  simpl. rewrite <- Ej. clear Ej H. subst jx jy jz. repeat split.
  - ring.
  - replace (u * c * (u * jp) + w * c * (w * jp) + - s * (c * j)) with ((u * u + w * w) * (c * jp) - s * c * j) by ring.
    rewrite U, P. ring.
  - replace (u * s * (u * jp) + w * s * (w * jp) + c * (c * j)) with ((u * u + w * w) * (s * jp) + c * c * j) by ring.
    rewrite U, P. replace (1 * (s * (s * j)) + c * c * j) with ((s * s + c * c) * j) by ring. rewrite S. ring.
Qed.

(** A rotation carries cross products to cross products. *)
Lemma rotation_cof M : rotation M ->
  m22 M * m33 M - m23 M * m32 M = m11 M /\ m23 M * m31 M - m21 M * m33 M = m12 M /\
  m21 M * m32 M - m22 M * m31 M = m13 M /\
  m32 M * m13 M - m33 M * m12 M = m21 M /\ m33 M * m11 M - m31 M * m13 M = m22 M /\
  m31 M * m12 M - m32 M * m11 M = m23 M /\
  m12 M * m23 M - m13 M * m22 M = m31 M /\ m13 M * m21 M - m11 M * m23 M = m32 M /\
  m11 M * m22 M - m12 M * m21 M = m33 M.
Proof.
  destruct M as [a b c d e f h k l]. unfold rotation; simpl.
  intros (R1 & R2 & R3 & R12 & R13 & R23 & C1 & C2 & C3 & C12 & C13 & C23 & D).
  assert (G : forall p q r,
    p = p * (a*a+d*d+h*h) + q * (a*b+d*e+h*k) + r * (a*c+d*f+h*l) /\
    q = p * (a*b+d*e+h*k) + q * (b*b+e*e+k*k) + r * (b*c+e*f+k*l) /\
    r = p * (a*c+d*f+h*l) + q * (b*c+e*f+k*l) + r * (c*c+f*f+l*l)).
  { intros p q r. rewrite C1, C2, C3, C12, C13, C23. repeat split; ring. }
  assert (D' : a * (e * l - f * k) + b * (f * h - d * l) + c * (d * k - e * h) = 1) by (rewrite <- D; ring).
  destruct (G (e * l - f * k) (f * h - d * l) (d * k - e * h)) as (G1 & G2 & G3).
  destruct (G (k * c - l * b) (l * a - h * c) (h * b - k * a)) as (G4 & G5 & G6).
  destruct (G (b * f - c * e) (c * d - a * f) (a * e - b * d)) as (G7 & G8 & G9).
  repeat split.
  - rewrite G1. replace (_ + _ + _) with (a * (a * (e * l - f * k) + b * (f * h - d * l) + c * (d * k - e * h))) by ring.
    rewrite D'. ring.
  - rewrite G2. replace (_ + _ + _) with (b * (a * (e * l - f * k) + b * (f * h - d * l) + c * (d * k - e * h))) by ring.
    rewrite D'. ring.
  - rewrite G3. replace (_ + _ + _) with (c * (a * (e * l - f * k) + b * (f * h - d * l) + c * (d * k - e * h))) by ring.
    rewrite D'. ring.
  - rewrite G4. replace (_ + _ + _) with (d * (a * (e * l - f * k) + b * (f * h - d * l) + c * (d * k - e * h))) by ring.
    rewrite D'. ring.
  - rewrite G5. replace (_ + _ + _) with (e * (a * (e * l - f * k) + b * (f * h - d * l) + c * (d * k - e * h))) by ring.
    rewrite D'. ring.
  - rewrite G6. replace (_ + _ + _) with (f * (a * (e * l - f * k) + b * (f * h - d * l) + c * (d * k - e * h))) by ring.
    rewrite D'. ring.
  - rewrite G7. replace (_ + _ + _) with (h * (a * (e * l - f * k) + b * (f * h - d * l) + c * (d * k - e * h))) by ring.
    rewrite D'. ring.
  - rewrite G8. replace (_ + _ + _) with (k * (a * (e * l - f * k) + b * (f * h - d * l) + c * (d * k - e * h))) by ring.
    rewrite D'. ring.
  - rewrite G9. replace (_ + _ + _) with (l * (a * (e * l - f * k) + b * (f * h - d * l) + c * (d * k - e * h))) by ring.
    rewrite D'. ring.
Qed.

Lemma rotate_l M q : rotation M ->
  lx (rotate M q) = m11 M * lx q + m12 M * ly q + m13 M * lz q /\
  ly (rotate M q) = m21 M * lx q + m22 M * ly q + m23 M * lz q /\
  lz (rotate M q) = m31 M * lx q + m32 M * ly q + m33 M * lz q.
Proof.
  intros H. pose proof (rotation_cof M H) as (A1 & A2 & A3 & A4 & A5 & A6 & A7 & A8 & A9).
  unfold lx, ly, lz, rotate; simpl. repeat split.
  - rewrite <- A1, <- A2, <- A3. ring.
  - rewrite <- A4, <- A5, <- A6. ring.
  - rewrite <- A7, <- A8, <- A9. ring.
Qed.

Lemma rotation_norm M x y z : rotation M ->
  (m11 M * x + m12 M * y + m13 M * z) * (m11 M * x + m12 M * y + m13 M * z) +
  (m21 M * x + m22 M * y + m23 M * z) * (m21 M * x + m22 M * y + m23 M * z) +
  (m31 M * x + m32 M * y + m33 M * z) * (m31 M * x + m32 M * y + m33 M * z) = x * x + y * y + z * z.
Proof.
  destruct M as [a b c d e f h k l]. unfold rotation; simpl.
  intros (_ & _ & _ & _ & _ & _ & C1 & C2 & C3 & C12 & C13 & C23 & _).
  replace (_ + _ + _) with ((a*a+d*d+h*h) * (x*x) + (b*b+e*e+k*k) * (y*y) + (c*c+f*f+l*l) * (z*z)
    + 2 * (a*b+d*e+h*k) * (x*y) + 2 * (a*c+d*f+h*l) * (x*z) + 2 * (b*c+e*f+k*l) * (y*z)) by ring.
  rewrite C1, C2, C3, C12, C13, C23. ring.
Qed.

Lemma rotate_rad M q : rotation M -> rad (rotate M q) = rad q.
Proof. intros H. unfold rad, rotate; simpl. now rewrite rotation_norm. Qed.
Lemma rotate_kin M q : rotation M -> kinr (rotate M q) = kinr q.
Proof. intros H. unfold kinr, rotate; simpl. now rewrite rotation_norm. Qed.
Lemma rotate_dist M p q : rotation M -> dist (rotate M p) (rotate M q) = dist p q.
Proof.
  intros H. unfold dist, rotate; simpl. f_equal.
  rewrite <- (rotation_norm M (px p - px q) (py p - py q) (pz p - pz q) H). ring.
Qed.

Lemma inside_rotate M c q : rotation M -> inside c (rotate M q) = inside c q.
Proof. intros H. unfold inside. now rewrite rotate_rad. Qed.
Lemma filter_rotate M c l : rotation M ->
  filter (inside c) (map (rotate M) l) = map (rotate M) (filter (inside c) l).
Proof.
  intros H. induction l as [|q l IH]; simpl; [reflexivity|]. rewrite inside_rotate by auto.
  destruct (inside c q); simpl; congruence.
Qed.
Lemma sumR_lin (a b c : R) f1 f2 f3 f l :
  (forall q, In q l -> f q = a * f1 q + b * f2 q + c * f3 q) ->
  sumR f l = a * sumR f1 l + b * sumR f2 l + c * sumR f3 l.
Proof.
  induction l as [|q l IH]; intros H; simpl; [ring|].
  rewrite IH by (intros; apply H; simpl; auto). rewrite (H q) by (simpl; auto). ring.
Qed.
Lemma sumR_map M f l : sumR f (map (rotate M) l) = sumR (fun q => f (rotate M q)) l.
Proof. induction l; simpl; congruence. Qed.

Lemma rotate_L M c l : rotation M ->
  LX c (map (rotate M) l) = m11 M * LX c l + m12 M * LY c l + m13 M * LZ c l /\
  LY c (map (rotate M) l) = m21 M * LX c l + m22 M * LY c l + m23 M * LZ c l /\
  LZ c (map (rotate M) l) = m31 M * LX c l + m32 M * LY c l + m33 M * LZ c l.
Proof.
  intros H. unfold LX, LY, LZ. rewrite !filter_rotate, !sumR_map by auto.
  repeat split; apply sumR_lin; intros q _; destruct (rotate_l M q H) as (A & B & C);
    rewrite ?A, ?B, ?C; simpl; ring.
Qed.
End RealRot.

(** *** From the model over [RX] to reals *)
Section Bridge.
Local Open Scope R_scope.

Lemma fold_sum f l : fold_right xadd (XR 0) (map (fun q : particle => XR (f q)) l) = XR (sumR f l).
Proof. induction l as [|q l IH]; simpl; [reflexivity|]. rewrite IH. reflexivity. Qed.

Lemma map4_map {A B} (f : A -> A -> A -> A -> B) {E} (a b c d : E -> A) l :
  map4 f (map a l) (map b l) (map c l) (map d l) = map (fun q => f (a q) (b q) (c q) (d q)) l.
Proof. unfold map4. induction l as [|q l IH]; simpl; congruence. Qed.
Lemma map3'_map {A B} (f : A -> A -> A -> B) {E} (a b c : E -> A) l :
  map3' f (map a l) (map b l) (map c l) = map (fun q => f (a q) (b q) (c q)) l.
Proof. unfold map3'. induction l as [|q l IH]; simpl; congruence. Qed.

Lemma holds_J p l : pset_ok p -> holds p l ->
  p_Jx p = map (fun q => XR (lx q)) l /\ p_Jy p = map (fun q => XR (ly q)) l /\
  p_Jz p = map (fun q => XR (lz q)) l /\
  p_ke p = map (fun q => XR (kinr q)) l.
Proof.
  intros Hp (M & X & Y & Z & VX & VY & VZ).
  rewrite (pset_ok_Jx _ Hp), (pset_ok_Jy _ Hp), (pset_ok_Jz _ Hp), (pset_ok_ke _ Hp).
  rewrite X, Y, Z, VX, VY, VZ. clear. rewrite !map4_map, map3'_map.
  repeat split; apply map_ext; intros q; unfold crossc, kin, nlit; simpl; unfold xsub; simpl;
    try (destruct (Req_EM_T 2 0); [lra|]; simpl); f_equal; unfold lx, ly, lz, kinr; field.
Qed.

Lemma near_holds p l c : pset_ok p -> holds p l ->
  map (fun s => (s_m s, s_jx s, s_jy s, s_jz s)) (near (N:=RX) c p) =
  map (fun q => (XR (pm q), XR (lx q), XR (ly q), XR (lz q))) (filter (inside c) l).
Proof.
  intros Hp Hl. destruct (holds_J p l Hp Hl) as (J1 & J2 & J3 & _).
  destruct Hl as (M & X & Y & Z & _). unfold near, stars_of. rewrite M, X, Y, Z, J1, J2, J3. clear.
  induction l as [|q l IH]; simpl; [reflexivity|].
  assert (E : (if Rlt_dec (px q * px q + py q * py q + pz q * pz q) 0 then XNaN
    else XR (sqrt (px q * px q + py q * py q + pz q * pz q))) = XR (rad q)).
  { destruct (Rlt_dec _ _); [nra|reflexivity]. }
  unfold inside. destruct c as [c|]; simpl in *.
  - rewrite E. destruct (nlt (N:=RX) (XR (rad q)) c); simpl; [f_equal|]; apply IH.
  - f_equal. apply IH.
Qed.

Lemma near_sum_holds p l c : pset_ok p -> holds p l ->
  nsum (map (fun s => s_m s * s_jx s)%num (near (N:=RX) c p)) = XR (LX c l) /\
  nsum (map (fun s => s_m s * s_jy s)%num (near (N:=RX) c p)) = XR (LY c l) /\
  nsum (map (fun s => s_m s * s_jz s)%num (near (N:=RX) c p)) = XR (LZ c l).
Proof.
  intros Hp Hl. pose proof (near_holds p l c Hp Hl) as E.
  set (f1 := fun t : xr * xr * xr * xr => xmul (fst (fst (fst t))) (snd (fst (fst t)))).
  set (f2 := fun t : xr * xr * xr * xr => xmul (fst (fst (fst t))) (snd (fst t))).
  set (f3 := fun t : xr * xr * xr * xr => xmul (fst (fst (fst t))) (snd t)).
  pose proof (f_equal (map f1) E) as E1. pose proof (f_equal (map f2) E) as E2.
  pose proof (f_equal (map f3) E) as E3. rewrite !map_map in E1, E2, E3.
  repeat split; (etransitivity; [exact (f_equal (fold_right xadd (XR 0)) E1) ||
      exact (f_equal (fold_right xadd (XR 0)) E2) || exact (f_equal (fold_right xadd (XR 0)) E3)|]).
  - apply (fold_sum (fun q => pm q * lx q)).
  - apply (fold_sum (fun q => pm q * ly q)).
  - apply (fold_sum (fun q => pm q * lz q)).
Qed.

Lemma near_comm f l : map (fun s : star RX => (f s * s_m s)%num) l = map (fun s => (s_m s * f s)%num) l.
Proof.
  apply map_ext. intros s. simpl. unfold xmul. destruct (f s), (s_m s); simpl; try reflexivity;
      try (f_equal; ring); f_equal; (destruct (Rcompare r 0); reflexivity).
Qed.

Definition matX (M : matR) : mat3 RX :=
  mkMat3 (N:=RX) (XR (m11 M)) (XR (m12 M)) (XR (m13 M)) (XR (m21 M)) (XR (m22 M)) (XR (m23 M))
    (XR (m31 M)) (XR (m32 M)) (XR (m33 M)).

Lemma rot_of_real jx jy jz : jx <> 0 \/ jy <> 0 ->
  rot_of (N:=RX) (XR jx) (XR jy) (XR jz) = matX (rotR jx jy jz).
Proof.
  intros H. pose proof (sq_pos _ _ H) as P. unfold rot_of, matX, rotR. simpl.
  destruct (Rlt_dec (jx * jx + jy * jy) 0); [lra|].
  destruct (Rlt_dec (jx * jx + jy * jy + jz * jz) 0); [nra|].
  assert (P1 : 0 < sqrt (jx * jx + jy * jy)) by (apply sqrt_lt_R0; auto).
  assert (P2 : 0 < sqrt (jx * jx + jy * jy + jz * jz)) by (apply sqrt_lt_R0; nra).
  unfold xdiv; simpl.
  destruct (Req_EM_T (sqrt (jx * jx + jy * jy)) 0); [lra|].
  destruct (Req_EM_T (sqrt (jx * jx + jy * jy + jz * jz)) 0); [lra|].
  destruct (Req_EM_T (sqrt (jx * jx + jy * jy) * sqrt (jx * jx + jy * jy + jz * jz)) 0); [nra|].
  reflexivity.
Qed.

Lemma rot_set_holds M p l : holds p l -> holds (rot_set (matX M) p) (map (rotate M) l).
Proof.
  intros (Hm & X & Y & Z & VX & VY & VZ). unfold holds, rot_set; simpl.
  rewrite Hm, X, Y, Z, VX, VY, VZ, !map3_map, !map_map. repeat split.
Qed.

Lemma star_align_real (g : galaxy RX) c ls ld lg : gal_ok g -> cut_ok (N:=RX) c = true ->
  holds (g_stars g) ls -> holds (g_dm g) ld -> holds (g_gas g) lg ->
  (LX c ls <> 0 \/ LY c ls <> 0) ->
  let M := rotR (LX c ls) (LY c ls) (LZ c ls) in
  star_align g c = Ok (rot_gal (matX M) g).
Proof.
  intros Hg Hc Hs Hd Hq HJ M. rewrite star_align_eq, Hc, gal_matrix_near by auto.
  apply gal_ok_facts in Hg as [gf_s0 gf_d0 gf_g0 gf_ts0 gf_td0 gf_tg0 gf_hs0 gf_hd0 gf_hg0].
  destruct (near_sum_holds _ ls c gf_s0 Hs) as (E1 & E2 & E3).
  rewrite E1, E2, E3. rewrite rot_of_real by auto. reflexivity.
Qed.
End Bridge.

Lemma alignable_eq g c ls ld lg : alignable g c ls ld lg ->
  gal_ok g /\ rotation (rotR (LX c ls) (LY c ls) (LZ c ls)) /\
  star_align g c = Ok (rot_gal (matX (rotR (LX c ls) (LY c ls) (LZ c ls))) g).
Proof.
  intros (Hg & Hc & Hs & Hd & Hq & HJ). apply constructible_ok in Hg.
  split; [auto|]. split; [apply rotR_rotation; auto|].
  apply (star_align_real g c ls ld lg); auto. unfold cut_ok. destruct c as [v|]; auto.
  now rewrite (Hc v eq_refl).
Qed.

(** *** C14 *)

(** [star_align] succeeds and applies one proper rotation (orthogonal, determinant 1) to
    all particles of all three sets. *)
Lemma c14_rotation : forall (g : galaxy RX) c ls ld lg, alignable g c ls ld lg ->
  exists h M, star_align g c = Ok h /\ rotation M /\
    holds (g_stars h) (map (rotate M) ls) /\ holds (g_dm h) (map (rotate M) ld) /\
    holds (g_gas h) (map (rotate M) lg).
Proof.
  intros g c ls ld lg H. destruct (alignable_eq _ _ _ _ _ H) as (Hg & R & E).
  destruct H as (_ & _ & Hs & Hd & Hq & _).
  do 2 eexists. split; [exact E|]. split; [exact R|]. split; [|split]; apply rot_set_holds; auto.
Qed.

(** *** C15 *)

(** Afterwards the stars inside the cut-off carry angular momentum (0, 0, |J|), they are
    the images of the stars inside before, and [is_star_aligned] says True. *)
Lemma c15_aligned : forall (g h : galaxy RX) c ls ld lg, alignable g c ls ld lg ->
  star_align g c = Ok h ->
  exists ls', holds (g_stars h) ls' /\ length ls' = length ls /\
    (forall i q q', nth_error ls i = Some q -> nth_error ls' i = Some q' -> inside c q' = inside c q) /\
    LX c ls' = 0%R /\ LY c ls' = 0%R /\ LZ c ls' = Lnorm c ls /\ (0 < LZ c ls')%R /\
    forall rtol atol, xle (XR 0) rtol -> xle (XR 0) atol -> is_star_aligned h c rtol atol = Ok true.
Proof.
  intros g h c ls ld lg H A. destruct (alignable_eq _ _ _ _ _ H) as (Hg & R & E).
  destruct H as (_ & _ & Hs & Hd & Hq & HJ). rewrite E in A. injection A as <-.
  set (M := rotR (LX c ls) (LY c ls) (LZ c ls)) in *.
  destruct (rotate_L M c ls R) as (E1 & E2 & E3).
  destruct (rotR_J (LX c ls) (LY c ls) (LZ c ls) HJ) as (F1 & F2 & F3). fold M in F1, F2, F3.
  rewrite F1 in E1. rewrite F2 in E2. rewrite F3 in E3.
  assert (P : (0 < LZ c (map (rotate M) ls))%R).
  { rewrite E3. apply sqrt_lt_R0. pose proof (sq_pos _ _ HJ). nra. }
  exists (map (rotate M) ls).
  assert (Hs' : holds (g_stars (rot_gal (matX M) g)) (map (rotate M) ls)) by (apply rot_set_holds; auto).
  split; [exact Hs'|]. split; [apply map_length|]. split.
  { intros i q q' Hq1 Hq2. rewrite nth_error_map, Hq1 in Hq2. injection Hq2 as <-. now apply inside_rotate. }
  split; [exact E1|]. split; [exact E2|]. split; [exact E3|]. split; [exact P|].
  intros rtol atol Hr Ha.
  pose proof (rot_gal_ok (matX M) g Hg) as Hh.
  rewrite is_star_aligned_eq by auto.
  assert (Hsok : pset_ok (g_stars (rot_gal (matX M) g))).
  { apply gal_ok_facts in Hh as [gf_s0 gf_d0 gf_g0 gf_ts0 gf_td0 gf_tg0 gf_hs0 gf_hd0 gf_hg0]. exact gf_s0. }
  destruct (near_sum_holds _ _ c Hsok Hs') as (N1 & N2 & N3).
  rewrite !near_comm. rewrite N1, N2, N3, E1, E2.
  set (j := LZ c (map (rotate M) ls)) in *. f_equal. unfold isclose. simpl.
  destruct (Rlt_dec (0 * 0 + 0 * 0 + j * j) 0); [nra|]. simpl.
  assert (sqrt (0 * 0 + 0 * 0 + j * j) = j) as ->.
  { replace (0 * 0 + 0 * 0 + j * j)%R with (j * j)%R by ring. apply sqrt_square. lra. }
  apply (nle_iff RX_rounded). simpl. replace (j + - j)%R with 0%R by ring. rewrite Rabs_R0.
  rewrite (Rabs_pos_eq j) by lra.
  destruct rtol as [r| | |]; try contradiction; destruct atol as [a| | |]; try contradiction; simpl in *; auto.
  - nra.
  - unfold xinf. destruct (Rcompare_spec j 0); simpl; try lra; auto.
  - unfold xinf. destruct (Rcompare_spec j 0); simpl; try lra; auto.
Qed.

(** *** C16 *)

(** Distances, radii, kinetic and total energies are preserved, angular momenta rotate. *)
Lemma c16_isometry : forall (g h : galaxy RX) c ls ld lg, alignable g c ls ld lg ->
  star_align g c = Ok h ->
  exists M ls' ld' lg', rotation M /\
    holds (g_stars h) ls' /\ holds (g_dm h) ld' /\ holds (g_gas h) lg' /\
    Forall2 (fun p q => p_ke p = p_ke q /\ p_te p = p_te q /\ p_pot p = p_pot q) (sets g) (sets h) /\
    let all := ls ++ ld ++ lg in let all' := ls' ++ ld' ++ lg' in
    length all' = length all /\
    (forall i j p q p' q', nth_error all i = Some p -> nth_error all j = Some q ->
       nth_error all' i = Some p' -> nth_error all' j = Some q' -> dist p' q' = dist p q) /\
    (forall i q q', nth_error all i = Some q -> nth_error all' i = Some q' ->
       rad q' = rad q /\ kinr q' = kinr q /\ pm q' = pm q /\
       lx q' = (m11 M * lx q + m12 M * ly q + m13 M * lz q)%R /\
       ly q' = (m21 M * lx q + m22 M * ly q + m23 M * lz q)%R /\
       lz q' = (m31 M * lx q + m32 M * ly q + m33 M * lz q)%R).
Proof.
  intros g h c ls ld lg H A. destruct (alignable_eq _ _ _ _ _ H) as (Hg & R & E).
  destruct H as (_ & _ & Hs & Hd & Hq & HJ). rewrite E in A. injection A as <-.
  set (M := rotR (LX c ls) (LY c ls) (LZ c ls)) in *.
  exists M, (map (rotate M) ls), (map (rotate M) ld), (map (rotate M) lg).
  split; [exact R|]. split; [apply rot_set_holds; auto|]. split; [apply rot_set_holds; auto|].
  split; [apply rot_set_holds; auto|]. split.
  { apply gal_ok_facts in Hg as [gf_s0 gf_d0 gf_g0 gf_ts0 gf_td0 gf_tg0 gf_hs0 gf_hd0 gf_hg0].
    assert (K : forall p l, pset_ok p -> holds p l ->
      p_ke p = p_ke (rot_set (matX M) p) /\ p_te p = p_te (rot_set (matX M) p) /\ p_pot p = p_pot (rot_set (matX M) p)).
    { intros p l Hp Hl. pose proof (rot_set_ok (matX M) p Hp) as Hp'.
      pose proof (rot_set_holds M p l Hl) as Hl'.
      destruct (holds_J p l Hp Hl) as (_ & _ & _ & K1). destruct (holds_J _ _ Hp' Hl') as (_ & _ & _ & K2).
      assert (KE : p_ke p = p_ke (rot_set (matX M) p)).
      { rewrite K1, K2, map_map. apply map_ext. intros q. now rewrite rotate_kin. }
      split; [exact KE|]. split; [|reflexivity].
      rewrite (pset_ok_te _ Hp), (pset_ok_te _ Hp'), KE. reflexivity. }
    apply Forall2_sets. split; [|split]; eapply K; eauto. }
  cbv zeta. rewrite <- !map_app. split; [apply map_length|]. split.
  - intros i j p q p' q' P1 P2 P3 P4. rewrite nth_error_map in P3, P4. rewrite P1 in P3. rewrite P2 in P4.
    injection P3 as <-. injection P4 as <-. now apply rotate_dist.
  - intros i q q' P1 P2. rewrite nth_error_map, P1 in P2. injection P2 as <-.
    destruct (rotate_l M q R) as (A1 & A2 & A3).
    split; [now apply rotate_rad|]. split; [now apply rotate_kin|]. split; [reflexivity|]. auto.
Qed.

(** A galaxy meeting the hypotheses of C14-C16: J of the inner star is (1,0,0); the outer
    star is cut off by r_cut = 5. *)
Definition psetR (t : ptype) (l : list particle) : pset RX :=
  pset_of (N:=RX) t (map (fun q => XR (pm q)) l) (map (fun q => XR (px q)) l) (map (fun q => XR (py q)) l)
    (map (fun q => XR (pz q)) l) (map (fun q => XR (pvx q)) l) (map (fun q => XR (pvy q)) l)
    (map (fun q => XR (pvz q)) l) None (XR 0).
Definition galR (ls ld lg : list particle) : galaxy RX :=
  mkGal (psetR STARS ls) (psetR DARK_MATTER ld) (psetR GAS lg) false.
Lemma galR_ok ls ld lg : constructible (galR ls ld lg).
Proof.
  apply constructible_ok, gal_ok_facts. constructor; simpl; try reflexivity.
  all: apply pset_ok_iff; split; [|reflexivity]; repeat split; simpl; rewrite ?map_length; auto; intros p; discriminate.
Qed.
Lemma psetR_holds t l : holds (psetR t l) l.
Proof. repeat split. Qed.

Definition exA_stars : list particle := [Part 1 0 1 0 0 0 1; Part 1 9 0 0 0 1 0]%R.
Example ex_c14 : alignable (galR exA_stars [Part 1 1 2 3 4 5 6]%R []) (Some (XR 5)) exA_stars [Part 1 1 2 3 4 5 6]%R [].
Proof.
  split; [apply galR_ok|]. split.
  { intros v [= <-]. apply (nle_false RX_rounded). simpl. lra. }
  split; [apply psetR_holds|]. split; [apply psetR_holds|]. split; [apply psetR_holds|].
  left. unfold LX, exA_stars. cbn [filter].
  assert (inside (Some (XR 5)) (Part 1 0 1 0 0 0 1)%R = true) as ->.
  { apply (nlt_iff RX_rounded). unfold rad; simpl. replace (0*0+1*1+0*0)%R with (1*1)%R by ring.
    rewrite sqrt_square; lra. }
  assert (inside (Some (XR 5)) (Part 1 9 0 0 0 1 0)%R = false) as ->.
  { apply (nlt_false RX_rounded). unfold rad; simpl. replace (9*9+0*0+0*0)%R with (9*9)%R by ring.
    rewrite sqrt_square; lra. }
  simpl. unfold lx; simpl. lra.
Qed.

(** *** C17 *)

Section NoInPlane.
Context {N : Num} (RN : Rounded N).
Local Notation v := (val RN).

Lemma v_nan_mul_l x y : v x = XNaN -> v (nmul x y) = XNaN.
Proof. intros H. rewrite (val_mul RN), H. simpl. apply (rnd_nan RN). Qed.
Lemma v_nan_add_l x y : v x = XNaN -> v (nadd x y) = XNaN.
Proof. intros H. rewrite (val_add RN), H. simpl. apply (rnd_nan RN). Qed.
Lemma v_nan_is x : v x = XNaN -> x = nnan.
Proof. intros H. apply (val_nan_inj RN); auto. apply (val_nnan RN). Qed.
Lemma rnd0 : rnd RN (XR 0) = XR 0.
Proof. apply (rnd_int RN 0). pose proof (intmax_pos RN). lia. Qed.

Lemma rot_of_nan jx jy jz : v jx = XR 0 -> v jy = XR 0 ->
  v (a11 (rot_of jx jy jz)) = XNaN /\ v (a21 (rot_of jx jy jz)) = XNaN.
Proof.
  intros Hx Hy. simpl.
  assert (P0 : v (jx * jx + jy * jy)%num = XR 0).
  { rewrite (val_add RN), !(val_mul RN), Hx, Hy. simpl. rewrite Rmult_0_r, rnd0. simpl.
    rewrite Rplus_0_r. apply rnd0. }
  assert (P : v (nsqrt (jx * jx + jy * jy)%num) = XR 0).
  { rewrite (val_sqrt RN), P0. simpl. destruct (Rlt_dec 0 0); [lra|]. rewrite sqrt_0. apply rnd0. }
  split.
  - apply (val_div0_nan RN); auto.
  - set (jp := nsqrt (jx * jx + jy * jy)%num) in *.
    set (j := nsqrt (jx * jx + jy * jy + jz * jz)%num).
    assert (J0 : v (jp * j)%num = XR 0 \/ v (jp * j)%num = XNaN).
    { rewrite (val_mul RN), P. destruct (v j) as [w| | |]; simpl;
        rewrite ?Rmult_0_l, ?rnd0, ?(rnd_nan RN); auto;
        (rewrite Rcompare_Eq by reflexivity; simpl; rewrite (rnd_nan RN); auto). }
    assert (X : v (jx * jz)%num = XR 0 \/ v (jx * jz)%num = XNaN).
    { rewrite (val_mul RN), Hx. destruct (v jz) as [w| | |]; simpl;
        rewrite ?Rmult_0_l, ?rnd0, ?(rnd_nan RN); auto;
        (rewrite Rcompare_Eq by reflexivity; simpl; rewrite (rnd_nan RN); auto). }
    destruct X as [X|X]; [|apply (val_div_nan RN); auto].
    destruct J0 as [J0|J0]; [apply (val_div0_nan RN); auto|].
    rewrite (val_div RN) by congruence. rewrite X, J0. apply (rnd_nan RN).
Qed.

Lemma dot3_nan a b c x y z : v a = XNaN -> dot3 a b c x y z = nnan.
Proof. intros H. apply v_nan_is. unfold dot3. now apply v_nan_add_l, v_nan_add_l, v_nan_mul_l. Qed.
End NoInPlane.

(** Whenever the x and y angular momenta of the stars inside the cut-off compare equal to
    zero -- in particular for a galaxy that is already aligned, and when there is no star
    inside -- the x and y components of all positions and velocities of all particles
    become NaN.  (For every rounded number system.) *)
Lemma c17_nan : forall (N : Num), Rounded N -> forall (g h : galaxy N) c, constructible g ->
  neqb (nsum (map (fun s => s_m s * s_jx s)%num (near c (g_stars g)))) n0 = true ->
  neqb (nsum (map (fun s => s_m s * s_jy s)%num (near c (g_stars g)))) n0 = true ->
  star_align g c = Ok h ->
  Forall (fun p => (forall v, In v (p_x p) -> v = nnan) /\ (forall v, In v (p_y p) -> v = nnan) /\
                   (forall v, In v (p_vx p) -> v = nnan) /\ (forall v, In v (p_vy p) -> v = nnan)) (sets h).
Proof.
  intros N RN g h c Hg Hx Hy A. apply constructible_ok in Hg.
  rewrite star_align_eq in A by auto. destruct (cut_ok c); [|discriminate]. injection A as <-.
  apply (neqb_iff RN) in Hx, Hy. unfold n0 in Hx, Hy. rewrite (val_ofZ RN), rnd0 in Hx, Hy. destruct Hx as [Hx _], Hy as [Hy _].
  rewrite gal_matrix_near by auto.
  match goal with |- context [rot_of ?a ?b ?c] => destruct (rot_of_nan RN a b c Hx Hy) as (E1 & E2);
    generalize dependent (rot_of a b c) end.
  intros A E1 E2.
  assert (K : forall (f : N -> N -> N -> N) a b c, (forall x y z, f x y z = nnan) ->
    forall u, In u (map3 f a b c) -> u = nnan).
  { intros f a b c' Hf u Hu. unfold map3 in Hu. apply In_nth_error in Hu as (i & Hi).
    rewrite !map2_nth in Hi. destruct (nth_error a i), (nth_error b i), (nth_error c' i); simpl in Hi;
      try discriminate. injection Hi as <-. apply Hf. }
  assert (S : forall p : pset N, let p := rot_set A p in (forall v, In v (p_x p) -> v = nnan) /\ (forall v, In v (p_y p) -> v = nnan) /\
                   (forall v, In v (p_vx p) -> v = nnan) /\ (forall v, In v (p_vy p) -> v = nnan)).
  { intros p; simpl. repeat split; apply K; intros; apply (dot3_nan RN); auto. }
  unfold sets. repeat apply Forall_cons; auto; apply S.
Qed.

(** In exact arithmetic aligning twice always destroys the x and y components: the galaxy
    returned by a successful alignment is one that the next alignment turns into NaN. *)
Lemma c17_twice : forall (g h k : galaxy RX) c ls ld lg, alignable g c ls ld lg ->
  star_align g c = Ok h -> star_align h c = Ok k ->
  is_star_aligned h c (XR 0) (XR 0) = Ok true /\
  Forall (fun p : pset RX => (forall v, In v (p_x p) -> v = XNaN) /\ (forall v, In v (p_y p) -> v = XNaN) /\
                   (forall v, In v (p_vx p) -> v = XNaN) /\ (forall v, In v (p_vy p) -> v = XNaN)) (sets k).
Proof.
  intros g h k c ls ld lg H A B.
  destruct (c15_aligned _ _ _ _ _ _ H A) as (ls' & Hl & _ & _ & E1 & E2 & _ & _ & T).
  split. { apply T; simpl; lra. }
  destruct (alignable_eq _ _ _ _ _ H) as (Hg & R & E). rewrite E in A. injection A as <-.
  pose proof (rot_gal_ok (matX (rotR (LX c ls) (LY c ls) (LZ c ls))) g Hg) as Hh.
  assert (Hs : pset_ok (g_stars (rot_gal (matX (rotR (LX c ls) (LY c ls) (LZ c ls))) g))).
  { apply gal_ok_facts in Hh as [gf_s0 gf_d0 gf_g0 gf_ts0 gf_td0 gf_tg0 gf_hs0 gf_hd0 gf_hg0]. exact gf_s0. }
  destruct (near_sum_holds _ _ c Hs Hl) as (N1 & N2 & _).
  eapply (c17_nan RX RX_rounded); [apply constructible_ok; exact Hh| | |exact B];
    rewrite ?N1, ?N2, ?E1, ?E2; apply (neqb_iff RX_rounded); simpl; split; congruence.
Qed.

(** Corollary in binary64 (any summation order that sums nothing to zero): no star inside
    the cut-off, e.g. a NaN cut-off or a galaxy without stars. *)
Lemma c17_no_star : forall sm : list f64 -> f64, sm [] = nofZ (N:=F64) 0 ->
  forall (g h : galaxy (F64s sm)) c, constructible g -> near c (g_stars g) = [] ->
  star_align g c = Ok h ->
  Forall (fun p => (forall v, In v (p_x p) -> v = nnan) /\ (forall v, In v (p_y p) -> v = nnan) /\
                   (forall v, In v (p_vx p) -> v = nnan) /\ (forall v, In v (p_vy p) -> v = nnan)) (sets h).
Proof.
  intros sm Hsm g h c Hg Hn A. eapply (c17_nan _ (F64_rounded sm)); eauto; rewrite Hn; simpl;
    rewrite Hsm; reflexivity.
Qed.

(** A NaN cut-off passes the guard and selects no star. *)
Example ex_c17_nan_cut :
  rmap (fun h => (shows (all_x h), shows (all_y h))) (do g <- galA; star_align g (Some nnan)) =
    Ok (repeat S754_nan 4, repeat S754_nan 4) /\
  rmap (fun g => length (near (Some nnan) (g_stars g))) galA = Ok 0%nat.
Proof. vm_compute. auto. Qed.

(** Aligning the aligned galaxy of [ex_c13] once more. *)
Example ex_c17_twice :
  (do g <- galA; do h <- star_align g (Some (fZ 5)); is_star_aligned h (Some (fZ 5)) (fZ 0) (fZ 0)) = Ok true /\
  rmap (fun h => (shows (all_x h), shows (all_y h), shows (all_z h)))
    (do g <- galA; do h <- star_align g (Some (fZ 5)); star_align h (Some (fZ 5))) =
    Ok (repeat S754_nan 4, repeat S754_nan 4, [sZ 0; sZ 9; sZ 1; sZ 1]).
Proof. vm_compute. auto. Qed.

(** *** C18 *)

(** Over the reals [is_star_aligned] compares Jz with |J| as [np.isclose] does. *)
Lemma c18_meaning : forall (g : galaxy RX) c ls (rtol atol : R), constructible g ->
  holds (g_stars g) ls ->
  exists b, is_star_aligned g c (XR rtol) (XR atol) = Ok b /\
    (b = true <-> (Rabs (LZ c ls - Lnorm c ls) <= atol + rtol * Lnorm c ls)%R).
Proof.
  intros g c ls rtol atol Hg Hs. apply constructible_ok in Hg.
  rewrite is_star_aligned_eq by auto.
  apply gal_ok_facts in Hg as [gf_s0 gf_d0 gf_g0 gf_ts0 gf_td0 gf_tg0 gf_hs0 gf_hd0 gf_hg0].
  destruct (near_sum_holds _ _ c gf_s0 Hs) as (N1 & N2 & N3).
  rewrite !near_comm, N1, N2, N3. eexists; split; [reflexivity|].
  unfold isclose. simpl.
  set (jx := LX c ls). set (jy := LY c ls). set (jz := LZ c ls). unfold Lnorm. fold jx jy jz.
  destruct (Rlt_dec (jx * jx + jy * jy + jz * jz) 0); [nra|]. simpl.
  rewrite (nle_iff RX_rounded). simpl.
  rewrite (Rabs_pos_eq (sqrt _)) by apply sqrt_pos. reflexivity.
Qed.

(** With zero tolerances: J points along +z (or vanishes). *)
Lemma c18_exact : forall (g : galaxy RX) c ls, constructible g -> holds (g_stars g) ls ->
  is_star_aligned g c (XR 0) (XR 0) = Ok true <->
  (LX c ls = 0 /\ LY c ls = 0 /\ 0 <= LZ c ls)%R.
Proof.
  intros g c ls Hg Hs. destruct (c18_meaning g c ls 0 0 Hg Hs) as (b & -> & Hb).
  assert (K : (Rabs (LZ c ls - Lnorm c ls) <= 0 + 0 * Lnorm c ls <->
    LX c ls = 0 /\ LY c ls = 0 /\ 0 <= LZ c ls)%R).
  { unfold Lnorm. set (x := LX c ls). set (y := LY c ls). set (z := LZ c ls).
    assert (S : (sqrt (x * x + y * y + z * z) * sqrt (x * x + y * y + z * z) = x * x + y * y + z * z)%R)
      by (apply sqrt_sqrt; nra).
    pose proof (sqrt_pos (x * x + y * y + z * z)) as P. split.
    - intros H. pose proof (Rabs_pos (z - sqrt (x * x + y * y + z * z))).
      assert (E : (z - sqrt (x * x + y * y + z * z) = 0)%R)
        by (destruct (Req_dec (z - sqrt (x * x + y * y + z * z)) 0) as [|D]; auto;
            apply Rabs_pos_lt in D; lra).
      assert (z = sqrt (x * x + y * y + z * z))%R as Z by lra.
      rewrite <- Z in S. repeat split; nra.
    - intros (-> & -> & Hz). replace (0 * 0 + 0 * 0 + z * z)%R with (z * z)%R by ring.
      rewrite sqrt_square by auto. replace (z - z)%R with 0%R by ring. rewrite Rabs_R0. lra. }
  rewrite <- K, <- Hb. split; congruence.
Qed.

(** A galaxy whose J has no positive z component is accepted only if |J| itself is within
    the tolerance. *)
Lemma c18_no_negative : forall (g : galaxy RX) c ls (rtol atol : R), constructible g ->
  holds (g_stars g) ls -> (LZ c ls <= 0)%R ->
  is_star_aligned g c (XR rtol) (XR atol) = Ok true ->
  (Lnorm c ls + Rabs (LZ c ls) <= atol + rtol * Lnorm c ls)%R.
Proof.
  intros g c ls rtol atol Hg Hs Hz A. destruct (c18_meaning g c ls rtol atol Hg Hs) as (b & E & Hb).
  rewrite E in A. injection A as ->. destruct Hb as [Hb _]. specialize (Hb eq_refl).
  pose proof (sqrt_pos (LX c ls * LX c ls + LY c ls * LY c ls + LZ c ls * LZ c ls)) as P.
  fold (Lnorm c ls) in P. rewrite Rabs_left1 in Hb by lra. rewrite (Rabs_left1 (LZ c ls)) by lra. lra.
Qed.

(** Both answers occur. *)
Example ex_c18 :
  (do g <- galA; is_star_aligned g None (nlit 1 100000) (nlit 1 100000000)) = Ok false /\
  (do g <- galA; do h <- star_align g None; is_star_aligned h None (nlit 1 100000) (nlit 1 100000000)) = Ok true.
Proof. vm_compute. auto. Qed.

Example ex_c18_exact :
  constructible (galR [Part 1 1 0 0 0 1 0]%R [] []) /\
  holds (g_stars (galR [Part 1 1 0 0 0 1 0]%R [] [])) [Part 1 1 0 0 0 1 0]%R /\
  (LX None [Part 1 1 0 0 0 1 0] = 0 /\ LY None [Part 1 1 0 0 0 1 0] = 0 /\ LZ None [Part 1 1 0 0 0 1 0] = 1)%R.
Proof.
  split; [apply galR_ok|]. split; [apply psetR_holds|].
  unfold LX, LY, LZ, lx, ly, lz; simpl. repeat split; ring.
Qed.
