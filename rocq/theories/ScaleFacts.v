(** Facts about the circularity of a galaxy in other units (exact arithmetic). *)
From Verif Require Import Py Num RX Np Df Data DataFacts DfFacts Center CenterFacts Align Spec SpecR SpecCirc SpecSym Circ CircFacts CurveFacts CircThms SymFacts.
From Flocq Require Import Core.Raux.
From Coq Require Import Lra Lia.

Local Notation rx := (car RX).

(** Multiplication by a positive number. *)
Definition sc (c : R) (a : rx) : rx := match (a : xr) with XR r => XR (c * r) | i => i end.
Lemma sc_mul c a : (0 < c)%R -> xmul (XR c) a = sc c a.
Proof.
  intros H. destruct a; simpl; auto; destruct (Rcompare_spec c 0); simpl; auto; lra.
Qed.
Section Pos.
Context (c : R) (Hc : (0 < c)%R).

Lemma Rcompare_sc r s : Rcompare (c * r) (c * s) = Rcompare r s.
Proof. now apply Rcompare_mult_l. Qed.
Lemma Rcompare_sc0 r : Rcompare (c * r) 0 = Rcompare r 0.
Proof. rewrite <- (Rmult_0_r c) at 1. apply Rcompare_sc. Qed.
Lemma sc_cmp a b : xcmp (sc c a) (sc c b) = xcmp a b.
Proof. destruct a, b; simpl; auto. now rewrite Rcompare_sc. Qed.
Lemma sc_zero : sc c (XR 0) = XR 0.
Proof. simpl. f_equal. ring. Qed.
Lemma sc_div a b : xdiv (sc c a) (sc c b) = xdiv a b.
Proof.
  destruct a as [r| | |], b as [s| | |]; simpl; auto.
  - destruct (Req_EM_T (c * s) 0) as [E|E], (Req_EM_T s 0) as [E'|E'].
    + now rewrite Rcompare_sc0.
    + apply Rmult_integral in E. lra.
    + subst. lra.
    + f_equal. field. lra.
  - rewrite Rcompare_sc0. destruct (Req_EM_T (c * s) 0) as [E|E], (Req_EM_T s 0) as [E'|E']; auto.
    + apply Rmult_integral in E. lra.
    + subst. lra.
  - rewrite Rcompare_sc0. destruct (Req_EM_T (c * s) 0) as [E|E], (Req_EM_T s 0) as [E'|E']; auto.
    + apply Rmult_integral in E. lra.
    + subst. lra.
Qed.
Lemma sc_add a b : xadd (sc c a) (sc c b) = sc c (xadd a b).
Proof. destruct a, b; simpl; auto. f_equal. ring. Qed.
Lemma sc_opp a : xopp (sc c a) = sc c (xopp a).
Proof. destruct a; simpl; auto. f_equal. ring. Qed.
Lemma sc_sub a b : xsub (sc c a) (sc c b) = sc c (xsub a b).
Proof. unfold xsub. rewrite sc_opp. apply sc_add. Qed.
Lemma sc_abs a : xabs (sc c a) = sc c (xabs a).
Proof. destruct a; simpl; auto. f_equal. rewrite Rabs_mult. f_equal. apply Rabs_pos_eq. lra. Qed.
Lemma sc_sgn a : xsgn (sc c a) = xsgn a.
Proof. destruct a; simpl; auto. apply Rcompare_sc0. Qed.
Lemma sc_sqrt a : xsqrt (sc (c * c) a) = sc c (xsqrt a).
Proof.
  destruct a as [r| | |]; simpl; auto. destruct (Rlt_dec (c * c * r) 0) as [L|L], (Rlt_dec r 0) as [L'|L']; simpl; auto.
  - exfalso. apply L'. apply Rnot_le_lt. intros L2. assert (0 <= c * c * r)%R by (apply Rmult_le_pos; nra). lra.
  - exfalso. apply L. assert (0 < c * c)%R by nra. nra.
  - f_equal. rewrite sqrt_mult by nra. f_equal. apply sqrt_square. lra.
Qed.
(** The comparisons of the model. *)
Lemma sc_lt (a b : rx) : nlt (N:=RX) (sc c a : rx) (sc c b) = nlt (N:=RX) a b.
Proof. unfold nlt. simpl. now rewrite sc_cmp. Qed.
Lemma sc_nan (a : rx) : nisnan (N:=RX) (sc c a : rx) = nisnan (N:=RX) a.
Proof. unfold nisnan. simpl. now rewrite sc_cmp. Qed.
Lemma sc_bound (a : rx) : is_bound (N:=RX) (sc c a : rx) = is_bound (N:=RX) a.
Proof.
  unfold is_bound, nle, neqb, n0. simpl. f_equal; [|f_equal].
  - rewrite <- (sc_cmp a (XR 0)), sc_zero. reflexivity.
  - rewrite <- (sc_cmp a XNInf). reflexivity.
Qed.
Lemma sc_fold_max (l : list rx) : forall x : rx,
  fold_left (pick_max (N:=RX)) (map (sc c) l) (sc c x : rx) = sc c (fold_left (pick_max (N:=RX)) l x).
Proof.
  induction l as [|y l IH]; intros x; [reflexivity|]. simpl. rewrite <- IH. f_equal. unfold pick_max.
  rewrite !sc_nan, sc_lt. now destruct (nisnan x), (nisnan y), (nlt x y).
Qed.
Lemma sc_fold_min (l : list rx) : forall x : rx,
  fold_left (pick_min (N:=RX)) (map (sc c) l) (sc c x : rx) = sc c (fold_left (pick_min (N:=RX)) l x).
Proof.
  induction l as [|y l IH]; intros x; [reflexivity|]. simpl. rewrite <- IH. f_equal. unfold pick_min.
  rewrite !sc_nan, sc_lt. now destruct (nisnan x), (nisnan y), (nlt y x).
Qed.
Lemma sc_max (l : list rx) : np_max (N:=RX) (map (sc c) l) = rmap (sc c) (np_max (N:=RX) l).
Proof. destruct l as [|x l]; [reflexivity|]. simpl. now rewrite sc_fold_max. Qed.
Lemma sc_min (l : list rx) : np_min (N:=RX) (map (sc c) l) = rmap (sc c) (np_min (N:=RX) l).
Proof. destruct l as [|x l]; [reflexivity|]. simpl. now rewrite sc_fold_min. Qed.
End Pos.

Lemma sc_mul2 a b (x y : xr) : (0 < a)%R -> (0 < b)%R -> xmul (sc a x) (sc b y) = sc (a * b) (xmul x y).
Proof.
  intros Ha Hb. unfold xmul. rewrite !sc_sgn by auto. destruct x, y; simpl; auto; try (f_equal; ring);
    try (destruct (Rcompare _ 0); reflexivity).
Qed.

(** *** Rows *)
Definition ksc (ce cj : R) (k : krow RX) : krow RX :=
  @K RX (sc ce (k_e k)) (sc cj (k_p k)) (sc cj (k_z k)).
Section Rows.
Context (ce cj : R) (He : (0 < ce)%R) (Hj : (0 < cj)%R).
Context (as_ : nat -> list rx -> list nat) (b0 b1 : rx).

Lemma kb_sc k : kb (ksc ce cj k) = kb k.
Proof. unfold kb. simpl. now apply sc_bound. Qed.
Lemma filter_sc l : filter kb (map (ksc ce cj) l) = map (ksc ce cj) (filter kb l).
Proof.
  rewrite filter_map_comm. f_equal. apply filter_ext. apply kb_sc.
Qed.
Definition scsc (c : scales RX) : scales RX := @Sc RX (sc ce (s_e c)) (sc cj (s_z c)) (sc cj (s_p c)) (s_pts c).

Lemma scaling_sc l : scaling as_ b0 b1 (map (ksc ce cj) l) = rmap scsc (scaling as_ b0 b1 l).
Proof.
  unfold scaling. rewrite filter_sc. set (b := filter kb l). rewrite !map_map. cbn [ksc k_e k_z k_p].
  rewrite <- (map_map (@k_e RX) (sc ce : rx -> rx)), (sc_min _ He). destruct (np_min _) as [e|]; [|reflexivity]. cbn [rmap bind].
  assert (Z : forall f : krow RX -> rx, map (fun k => nabs (sc cj (f k) : rx)) b = map (sc cj) (map (fun k => nabs (f k)) b)).
  { intros f. rewrite map_map. apply map_ext. intros k. now apply sc_abs. }
  rewrite !Z, !(sc_max _ Hj). destruct (np_max (map (fun k => nabs (k_z k)) b)) as [z|]; [|reflexivity]. cbn [rmap bind].
  destruct (bin_edges b0 b1) as [aux|]; [|reflexivity]. cbn [bind]. rewrite !map_map. cbn [ksc k_e k_z].
  rewrite (map_ext (fun x : krow RX => (sc ce (k_e x) / nabs (sc ce e))%num) (fun x => (k_e x / nabs e)%num)).
  2:{ intros k. change (nabs (sc ce e)) with (xabs (sc ce e)). rewrite sc_abs by auto. now apply sc_div. }
  rewrite (map_ext (fun x : krow RX => (sc cj (k_z x) / sc cj z)%num) (fun x => (k_z x / z)%num)).
  2:{ intros k. now apply sc_div. }
  destruct (curve _ _ _ _) as [pts|]; [|reflexivity]. cbn [bind].
  destruct (np_max (map (fun k => nabs (k_p k)) b)) as [p|]; [|reflexivity]. cbn [rmap bind]. unfold scsc. simpl.
  now rewrite sc_abs.
Qed.
Lemma result_sc c st : result (scsc c) (map (ksc ce cj) st) = result c st.
Proof.
  assert (E : forall k, nE (scsc c) (ksc ce cj k) = nE c k) by (intros k; now apply sc_div).
  assert (Z : forall k, nZ (scsc c) (ksc ce cj k) = nZ c k) by (intros k; now apply sc_div).
  assert (P : forall k, nP (scsc c) (ksc ce cj k) = nP c k) by (intros k; now apply sc_div).
  assert (J : forall k, jcv (scsc c) (ksc ce cj k) = jcv c k) by (intros k; unfold jcv; now rewrite E).
  assert (R1 : forall k, raw_eps (scsc c) (ksc ce cj k) = raw_eps c k) by (intros k; unfold raw_eps; now rewrite Z, J).
  assert (R2 : forall k, raw_eps_r (scsc c) (ksc ce cj k) = raw_eps_r c k) by (intros k; unfold raw_eps_r; now rewrite P, J).
  assert (Ke : forall k, keep (scsc c) (ksc ce cj k) = keep c k) by (intros k; unfold keep; now rewrite kb_sc, R1).
  unfold result. rewrite filter_sc, !map_map. cbn [scsc s_pts]. f_equal; apply map_ext; intros k; unfold kept; rewrite Ke;
    rewrite ?E, ?Z, ?R1, ?R2; reflexivity.
Qed.
Lemma run_sc l st : run as_ b0 b1 (map (ksc ce cj) l) (map (ksc ce cj) st) = run as_ b0 b1 l st.
Proof.
  unfold run. rewrite scaling_sc. destruct (scaling as_ b0 b1 l) as [c|]; [|reflexivity]. cbn [rmap bind].
  cbn [scsc s_pts]. destruct (guard _ ValueError); [|reflexivity]. cbn [bind].
  rewrite map_map, (map_ext _ kb) by apply kb_sc.
  destruct (guard _ IndexError); [|reflexivity]. cbn [bind]. now rewrite result_sc.
Qed.
End Rows.

(** *** Orbits *)
Section Orbits.
Context (a b : R) (Ha : (0 < a)%R) (Hb : (0 < b)%R).
Definition osc (o : orbit RX) : orbit RX :=
  @Orb RX (sc (b * b) (o_e o)) (sc (a * b) (o_jx o)) (sc (a * b) (o_jy o)) (sc (a * b) (o_jz o)).
Lemma Hab : (0 < a * b)%R. Proof. now apply Rmult_lt_0_compat. Qed.
Lemma Hbb : (0 < b * b)%R. Proof. now apply Rmult_lt_0_compat. Qed.

Lemma krow_osc o : krow_of (osc o) = ksc (b * b) (a * b) (krow_of o).
Proof.
  unfold krow_of, ksc. simpl. f_equal. unfold o_jp. simpl. rewrite !sc_mul2 by apply Hab.
  rewrite sc_add by (apply Rmult_lt_0_compat; apply Hab). apply sc_sqrt. apply Hab.
Qed.
Lemma half : nlit (N:=RX) 1 2 = XR (1 / 2).
Proof. unfold nlit. simpl. destruct (Req_EM_T 2 0); [lra|]. reflexivity. Qed.
Lemma kin_sc (x y z : rx) : kin (N:=RX) (sc b x : rx) (sc b y) (sc b z) = sc (b * b) (kin (N:=RX) x y z).
Proof.
  unfold kin. rewrite half. change (@nmul RX) with xmul. change (@nadd RX) with xadd.
  rewrite !sc_mul2 by auto. rewrite !sc_add by apply Hbb. rewrite !sc_mul by (try apply Hbb; lra).
  destruct (xadd _ _); simpl; auto. f_equal. ring.
Qed.
Lemma crossc_sc (x y z w : rx) : crossc (N:=RX) (sc a x : rx) (sc b y) (sc a z) (sc b w) = sc (a * b) (crossc (N:=RX) x y z w).
Proof.
  unfold crossc. change (@nmul RX) with xmul. change (@nsub RX) with xsub.
  rewrite !sc_mul2 by auto. apply sc_sub.
Qed.
Lemma map4_sc {A B} (f : A -> A -> A -> A -> B) (h1 h2 h3 h4 : A -> A) (h : B -> B) p q r s :
  (forall x y z w, f (h1 x) (h2 y) (h3 z) (h4 w) = h (f x y z w)) ->
  map4 f (map h1 p) (map h2 q) (map h3 r) (map h4 s) = map h (map4 f p q r s).
Proof.
  intros H. unfold map4. revert q r s. induction p as [|x p IH]; intros [|y q] [|z r] [|w s]; simpl; auto; f_equal; auto; apply IH.
Qed.
Lemma map3'_sc {A B} (f : A -> A -> A -> B) (h1 h2 h3 : A -> A) (h : B -> B) p q r :
  (forall x y z, f (h1 x) (h2 y) (h3 z) = h (f x y z)) ->
  map3' f (map h1 p) (map h2 q) (map h3 r) = map h (map3' f p q r).
Proof.
  intros H. unfold map3'. revert q r. induction p as [|x p IH]; intros [|y q] [|z r]; simpl; auto; f_equal; auto; apply IH.
Qed.
Lemma map2_sc {A B C D E F} (f : A -> B -> C) (f' : D -> E -> F) (h1 : A -> D) (h2 : B -> E) (h : C -> F) p q :
  (forall x y, f' (h1 x) (h2 y) = h (f x y)) -> map2 f' (map h1 p) (map h2 q) = map h (map2 f p q).
Proof. intros H. revert q. induction p as [|x p IH]; intros [|y q]; simpl; auto. f_equal; auto. Qed.
Lemma map_mul c l : (0 < c)%R -> map (xmul (XR c)) l = map (sc c) l.
Proof. intros H. apply map_ext. intros x. now apply sc_mul. Qed.

Lemma orbits_sc (p q : pset RX) : pset_ok p -> pset_ok q ->
  p_x q = map (xmul (XR a)) (p_x p) /\ p_y q = map (xmul (XR a)) (p_y p) /\
     p_z q = map (xmul (XR a)) (p_z p) /\ p_vx q = map (xmul (XR b)) (p_vx p) /\
     p_vy q = map (xmul (XR b)) (p_vy p) /\ p_vz q = map (xmul (XR b)) (p_vz p) /\
     p_pot q = option_map (map (xmul (XR (b * b)))) (p_pot p) ->
  orbits q = map osc (orbits p).
Proof.
  intros Hp Hq (Ex & Ey & Ez & Evx & Evy & Evz & Ep).
  rewrite !map_mul in * by auto.
  assert (JX : p_Jx q = map (sc (a * b)) (p_Jx p)).
  { rewrite (pset_ok_Jx _ Hp), (pset_ok_Jx _ Hq), Ey, Evz, Ez, Evy. apply map4_sc. apply crossc_sc. }
  assert (JY : p_Jy q = map (sc (a * b)) (p_Jy p)).
  { rewrite (pset_ok_Jy _ Hp), (pset_ok_Jy _ Hq), Ez, Evx, Ex, Evz. apply map4_sc. apply crossc_sc. }
  assert (JZ : p_Jz q = map (sc (a * b)) (p_Jz p)).
  { rewrite (pset_ok_Jz _ Hp), (pset_ok_Jz _ Hq), Ex, Evy, Ey, Evx. apply map4_sc. apply crossc_sc. }
  assert (EN : energies q = map (sc (b * b)) (energies p)).
  { unfold energies. rewrite (pset_ok_te _ Hp), (pset_ok_te _ Hq), Ep, (pset_ok_ke _ Hp), (pset_ok_ke _ Hq), Evx, Evy, Evz.
    rewrite (map3'_sc (kin (N:=RX)) (sc b) (sc b) (sc b) (sc (b * b))) by apply kin_sc.
    destruct (p_pot p) as [pot|]; simpl.
    - rewrite map_mul by apply Hbb. apply (map2_sc (xadd) (xadd)). intros x y. apply sc_add.
    - assert (MR : forall n, map (sc (b * b)) (repeat (nnan : rx) n) = repeat (nnan : rx) n).
      { induction n as [|n IH]; [reflexivity|]. cbn [repeat map]. rewrite IH. reflexivity. }
      transitivity (repeat (nnan : rx) (plen p)); [|symmetry; apply MR].
      rewrite <- (plen_x _ Hp), <- (plen_x _ Hq), Ex, map_length. reflexivity. }
  unfold orbits. rewrite JX, JY, JZ, EN.
  rewrite (map2_sc pair pair (sc (b * b)) (sc (a * b)) (fun e => (sc (b * b) (fst e), sc (a * b) (snd e)))) by reflexivity.
  rewrite (map2_sc pair pair (sc (a * b)) (sc (a * b)) (fun e => (sc (a * b) (fst e), sc (a * b) (snd e)))) by reflexivity.
  apply map2_sc. reflexivity.
Qed.
Lemma rescaled_jcirc as_ (g g' : galaxy RX) b0 b1 : gal_ok g -> gal_ok g' -> rescaled a b g g' ->
  jcirc as_ g' b0 b1 = jcirc as_ g b0 b1.
Proof.
  intros Hg Hg' F. rewrite (jcirc_run RX_rounded as_ g b0 b1 Hg), (jcirc_run RX_rounded as_ g' b0 b1 Hg').
  apply gal_ok_facts in Hg as [s1 d1 g1 _ _ _ _ _ _]. apply gal_ok_facts in Hg' as [s2 d2 g2 _ _ _ _ _ _].
  unfold rescaled, sets in F.
  inversion F as [|? ? ? ? Fs F1]; subst. inversion F1 as [|? ? ? ? Fd F2]; subst. inversion F2 as [|? ? ? ? Fg _]; subst.
  unfold all_orbits, star_orbits, sets. simpl.
  rewrite (orbits_sc _ _ s1 s2 Fs), (orbits_sc _ _ d1 d2 Fd), (orbits_sc _ _ g1 g2 Fg), !app_nil_r, <- !map_app.
  rewrite !(map_map osc), !(map_ext _ _ krow_osc), <- !(map_map krow_of).
  apply run_sc; [apply Hbb|apply Hab].
Qed.
End Orbits.
