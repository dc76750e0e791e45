(** Facts about the circularity of a galaxy with some axes reversed. *)
From Verif Require Import Py Num RX F64 Np Df Data DataFacts DfFacts RebuildFacts Center CenterFacts Align Spec SpecR SpecCirc SpecSym Ex DataThms CenterThms AlignFacts AlignThms Circ CircFacts CurveFacts CircThms OrderThms.
From Flocq Require Import Core.Raux.
From Coq Require Import Lra Lia.

(** *** Lists *)
Lemma Forall2_map4 {A B} (R : B -> B -> Prop) (f : A -> A -> A -> A -> B) (h1 h2 h3 h4 : A -> A) a b c d :
  (forall x y z w, R (f x y z w) (f (h1 x) (h2 y) (h3 z) (h4 w))) ->
  Forall2 R (map4 f a b c d) (map4 f (map h1 a) (map h2 b) (map h3 c) (map h4 d)).
Proof.
  intros H. unfold map4. revert b c d. induction a as [|x a IH]; intros [|y b] [|z c] [|w d]; simpl; constructor; auto; apply IH.
Qed.
Lemma map3'_same {A B} (f : A -> A -> A -> B) (h1 h2 h3 : A -> A) a b c :
  (forall x y z, f (h1 x) (h2 y) (h3 z) = f x y z) ->
  map3' f (map h1 a) (map h2 b) (map h3 c) = map3' f a b c.
Proof.
  intros H. unfold map3'. revert b c. induction a as [|x a IH]; intros [|y b] [|z c]; simpl; auto; f_equal; auto; apply IH.
Qed.
Lemma Forall2_length' {A B} (R : A -> B -> Prop) l l' : Forall2 R l l' -> length l = length l'.
Proof. induction 1; simpl; congruence. Qed.
Lemma Forall2_impl_In {A B} (R R' : A -> B -> Prop) l l' :
  (forall a b, In a l -> In b l' -> R a b -> R' a b) -> Forall2 R l l' -> Forall2 R' l l'.
Proof. intros H F. induction F; constructor; [apply H; simpl; auto|]. apply IHF. intros; apply H; simpl; auto. Qed.
Lemma Forall2_map' {A B C D} (R : C -> D -> Prop) (f : A -> C) (g : B -> D) l l' :
  Forall2 (fun a b => R (f a) (g b)) l l' -> Forall2 R (map f l) (map g l').
Proof. induction 1; simpl; constructor; auto. Qed.
Lemma Forall2_map_eq {A B C} (f : A -> C) (g : B -> C) l l' :
  Forall2 (fun a b => f a = g b) l l' -> map f l = map g l'.
Proof. induction 1; simpl; congruence. Qed.
Lemma Forall2_filter' {A B} (R : A -> B -> Prop) p q l l' : (forall a b, R a b -> p a = q b) ->
  Forall2 R l l' -> Forall2 R (filter p l) (filter q l').
Proof.
  intros H F. induction F as [|a b l l' r F IH]; simpl; [constructor|]. rewrite (H _ _ r). destruct (q b); [constructor; auto|auto].
Qed.
Lemma bmask_map' {A B} (f : A -> B) m l : bmask m (map f l) = map f (bmask m l).
Proof. revert l. induction m as [|[] m IH]; intros [|x l]; simpl; auto. f_equal. apply IH. Qed.

(** *** The curve depends on the absolute values only *)
Section Curve.
Context {N : Num}.

Lemma abs_at (Z Z' : list N) k : map nabs Z = map nabs Z' -> nabs (at_ Z k) = nabs (at_ Z' k).
Proof. intros H. unfold at_. rewrite <- !(map_nth nabs). now rewrite H. Qed.
Lemma bin_point_abs as_ i lo hi (E Z Z' : list N) : map nabs Z = map nabs Z' ->
  bin_point as_ i lo hi E Z = bin_point as_ i lo hi E Z'.
Proof.
  intros H. unfold bin_point.
  set (m := map (fun e => nle e hi && nlt lo e) E).
  assert (Hm : map nabs (bmask m Z) = map nabs (bmask m Z')) by (rewrite <- !bmask_map'; now rewrite H).
  rewrite Hm. destruct (length (as_ i (map nabs (bmask m Z')))) as [|[|n]]; [reflexivity| |].
  - now rewrite (abs_at _ _ _ Hm).
  - rewrite !(abs_at _ _ _ Hm). reflexivity.
Qed.
Lemma curve_abs as_ aux (E Z Z' : list N) : map nabs Z = map nabs Z' -> curve as_ aux E Z = curve as_ aux E Z'.
Proof.
  intros H. unfold curve. destruct (np_argmin E) as [i0|e]; [|reflexivity]. cbn [bind].
  rewrite (abs_at _ _ _ H).
  rewrite (map_ext _ (fun i => bin_point as_ i (at_ aux (i - 1)) (at_ aux i) E Z'))
    by (intros i; now apply bin_point_abs).
  destruct (nth_error aux _) as [top|]; [|reflexivity]. cbn [bind].
  set (m := map (fun e => nlt top e) E).
  assert (Hm : map nabs (bmask m Z) = map nabs (bmask m Z')) by (rewrite <- !bmask_map'; now rewrite H).
  rewrite Hm. destruct (bmask m E); [reflexivity|]. destruct (np_argmax _) as [k|e]; [|reflexivity]. cbn [bind].
  now rewrite (abs_at _ _ _ Hm).
Qed.
End Curve.

(** *** Signs *)
Definition xturn (s : bool) (a : xr) : xr := if s then xopp a else a.
Lemma xopp_opp a : xopp (xopp a) = a.
Proof. destruct a; simpl; auto. f_equal; lra. Qed.
Lemma csmul_opp_l a b : csmul (CompOpp a) b = CompOpp (csmul a b).
Proof. destruct a, b; reflexivity. Qed.
Lemma xinf_opp c : xinf (CompOpp c) = xopp (xinf c).
Proof. destruct c; reflexivity. Qed.
Lemma xmul_opp_l a b : xmul (xopp a) b = xopp (xmul a b).
Proof.
  unfold xmul. rewrite xsgn_opp, csmul_opp_l. destruct a as [r| | |], b as [q| | |]; simpl; rewrite ?xinf_opp; try reflexivity.
  f_equal. ring.
Qed.
Lemma xmul_opp_r a b : xmul a (xopp b) = xopp (xmul a b).
Proof. rewrite <- (xopp_opp a) at 1. rewrite xmul_opp_opp. apply xmul_opp_l. Qed.
Lemma xdiv_opp_l a b : xdiv (xopp a) b = xopp (xdiv a b).
Proof.
  unfold xdiv. destruct a as [r| | |], b as [q| | |]; simpl; try reflexivity.
  - destruct (Req_EM_T q 0); [|simpl; f_equal; field; assumption].
    rewrite <- xinf_opp. f_equal. apply (xsgn_opp (XR r)).
  - f_equal. lra.
  - f_equal. lra.
  - destruct (Req_EM_T q 0); simpl; [reflexivity|]. destruct (Rcompare q 0); reflexivity.
  - destruct (Req_EM_T q 0); simpl; [reflexivity|]. destruct (Rcompare q 0); reflexivity.
Qed.
Lemma xadd_opp a b : xadd (xopp a) (xopp b) = xopp (xadd a b).
Proof. destruct a, b; simpl; try reflexivity. f_equal. ring. Qed.
Lemma xsub_opp a b : xsub (xopp a) (xopp b) = xopp (xsub a b).
Proof. unfold xsub. apply xadd_opp. Qed.
Lemma xabs_opp a : xabs (xopp a) = xabs a.
Proof. destruct a; simpl; try reflexivity. f_equal. apply Rabs_Ropp. Qed.

Section Sym.
Context {N : Num} (RN : Rounded N).
Local Notation v := (val RN).

Definition rel (s : bool) (a b : N) : Prop := v b = xturn s (v a).

Lemma val_turn s (a : N) : v (turn s a) = xturn s (v a).
Proof. destruct s; simpl; [apply (val_opp RN)|reflexivity]. Qed.
Lemma xturn_mul s t a b : xmul (xturn s a) (xturn t b) = xturn (xorb s t) (xmul a b).
Proof. destruct s, t; simpl; auto using xmul_opp_opp, xmul_opp_l, xmul_opp_r. Qed.
Lemma rnd_turn s a : rnd RN (xturn s a) = xturn s (rnd RN a).
Proof. destruct s; simpl; [apply (rnd_opp RN)|reflexivity]. Qed.
Lemma agrees_iff s (a b : N) : agrees s a b <-> rel s a b.
Proof.
  unfold agrees, rel. rewrite !(nisnan_iff RN), (neqb_iff RN), val_turn. split.
  - intros [[-> ->]|[H _]]; [now destruct s|exact H].
  - intros H. rewrite H. destruct s, (v a); simpl; auto; right; split; congruence.
Qed.
Lemma rel_sub s t1 t2 (a b c d : N) u1 u2 : xorb t1 u1 = s -> xorb t2 u2 = s ->
  rel s (crossc a b c d) (crossc (turn t1 a) (turn u1 b) (turn t2 c) (turn u2 d)).
Proof.
  intros H1 H2. unfold rel, crossc. rewrite !(val_sub RN), !(val_mul RN), !val_turn, !xturn_mul, H1, H2.
  destruct s; simpl; auto. rewrite !(rnd_opp RN), xsub_opp. apply (rnd_opp RN).
Qed.
Lemma kin_turn t1 t2 t3 (a b c : N) : kin (turn t1 a) (turn t2 b) (turn t3 c) = kin a b c.
Proof. unfold kin. destruct t1, t2, t3; simpl; rewrite ?(mul_opp RN); reflexivity. Qed.
Lemma rel_abs s (a b : N) : rel s a b -> nabs b = nabs a.
Proof. intros H. apply (abs_eq RN). rewrite !(val_abs RN), H. destruct s; simpl; auto. apply xabs_opp. Qed.
Lemma rel_false_inj (a b : N) : rel false a b -> v a <> XR 0 -> b = a.
Proof. intros H Z. symmetry. apply (val_inj RN); auto. Qed.
Lemma rel_square s (a b : N) : rel s a b -> (v (b * b) = v (a * a))%num.
Proof. intros H. rewrite !(val_mul RN), H, xturn_mul. now destruct s. Qed.

(** Quotients by a nonzero number, or of zeros. *)
Lemma rel_div s (a b m : N) : rel s a b -> (v m = XR 0 -> v a = XR 0) -> rel s (a / m)%num (b / m)%num.
Proof.
  intros H Hz. unfold rel. destruct (xr_zero_dec (v m)) as [Z|Z].
  - specialize (Hz Z). rewrite (val_div0_nan RN), (val_div0_nan RN); auto.
    + now destruct s.
    + rewrite H, Hz. destruct s; simpl; f_equal; lra.
  - rewrite !(val_div RN) by auto. rewrite H, <- rnd_turn. f_equal. destruct s; simpl; auto. apply xdiv_opp_l.
Qed.

Record krel (s : bool) (k k' : krow N) : Prop := {
  kr_e : k_e k' = k_e k;
  kr_z : rel s (k_z k) (k_z k');
  kr_p : rel false (k_p k) (k_p k') }.
Lemma krel_kb s k k' : krel s k k' -> kb k = kb k'.
Proof. intros [H _ _]. unfold kb. now rewrite H. Qed.

(** A zero maximum of absolute values. *)
Lemma max_zero {A} (f : A -> N) l m a : np_max (map (fun k => nabs (f k)) l) = Ok m -> In a l -> v m = XR 0 -> v (f a) = XR 0.
Proof.
  intros H Ia Z. apply (np_max_spec RN) in H as [_ [H|H]].
  - apply (nisnan_iff RN) in H. congruence.
  - specialize (H a Ia). apply (nle_iff RN) in H. rewrite (val_abs RN), Z in H.
    destruct (v (f a)) as [r| | |]; simpl in H; try contradiction. f_equal.
    destruct (Req_EM_T r 0) as [E|E]; [assumption|]. pose proof (Rabs_pos_lt r E). lra.
Qed.

Section Run.
Context (as_ : nat -> list N -> list nat) (b0 b1 : N) (s : bool).

Lemma scaling_rel l l' : Forall2 (krel s) l l' -> scaling as_ b0 b1 l' = scaling as_ b0 b1 l.
Proof.
  intros F. unfold scaling. apply (Forall2_filter' _ kb kb) in F; [|apply krel_kb].
  set (b := filter kb l) in *. set (b' := filter kb l') in *.
  assert (Ee : map k_e b' = map k_e b).
  { symmetry. apply Forall2_map_eq. eapply Forall2_impl_In; [|exact F]. intros a c _ _ []. auto. }
  assert (Ez : map (fun k => nabs (k_z k)) b' = map (fun k => nabs (k_z k)) b).
  { symmetry. apply Forall2_map_eq. eapply Forall2_impl_In; [|exact F]. intros a c _ _ []. symmetry. eapply rel_abs; eauto. }
  assert (Ep : map (fun k => nabs (k_p k)) b' = map (fun k => nabs (k_p k)) b).
  { symmetry. apply Forall2_map_eq. eapply Forall2_impl_In; [|exact F]. intros a c _ _ []. symmetry. eapply rel_abs; eauto. }
  rewrite Ee, Ez, Ep. destruct (np_min _) as [e|]; [|reflexivity]. cbn [bind].
  destruct (np_max (map (fun k => nabs (k_z k)) b)) as [z|] eqn:Mz; [|reflexivity]. cbn [bind].
  destruct (bin_edges b0 b1) as [aux|]; [|reflexivity]. cbn [bind].
  rewrite <- (map_map k_e (fun x => (x / nabs e)%num)), Ee, map_map.
  rewrite (curve_abs as_ aux _ (map (fun k => (k_z k / z)%num) b') (map (fun k => (k_z k / z)%num) b)); [reflexivity|].
  rewrite !map_map. symmetry. apply Forall2_map_eq. eapply Forall2_impl_In; [|exact F]. intros a c Ia _ [_ Hz _].
  symmetry. eapply rel_abs. apply rel_div; [exact Hz|]. intros Z. eapply (max_zero k_z); eauto.
Qed.

Lemma rel_nan t : rel t (nnan : N) nnan.
Proof. unfold rel. rewrite (val_nnan RN). now destruct t. Qed.
Lemma oor_rel t (a b : N) : rel t a b -> out_of_range b = out_of_range a.
Proof.
  intros H. unfold out_of_range.
  assert (X : forall x y : N, nlt x y = match xcmp (v x) (v y) with Some Lt => true | _ => false end).
  { intros x y. unfold nlt. now rewrite (val_cmp RN). }
  rewrite !X, H, (val_n1 RN), (val_nm1 RN). clear X H. destruct t; [|reflexivity]. simpl.
  destruct (v a) as [r| | |]; simpl; try reflexivity.
  destruct (Rcompare_spec 1 (- r)), (Rcompare_spec (- r) (-1)), (Rcompare_spec 1 r), (Rcompare_spec r (-1)); simpl; try reflexivity; lra.
Qed.
Lemma oor_inf (a : N) : v a = XPInf \/ v a = XNInf -> out_of_range a = true.
Proof.
  intros H. unfold out_of_range. apply orb_true_iff. rewrite !(nlt_iff RN), (val_n1 RN), (val_nm1 RN).
  destruct H as [-> | ->]; simpl; auto.
Qed.

(** A quotient of related numbers: related, or both out of range. *)
Lemma quot_rel t (a b m : N) : rel t a b ->
  rel t (a / m)%num (b / m)%num \/ (out_of_range (a / m)%num = true /\ out_of_range (b / m)%num = true).
Proof.
  intros H. destruct (xr_zero_dec (v m)) as [Z|Z]; [|left; apply rel_div; [exact H|congruence]].
  destruct (xr_zero_dec (v a)) as [Za|Za]; [left; apply rel_div; auto|].
  assert (D : v a = XNaN \/ v a <> XNaN) by (destruct (v a); auto; right; discriminate).
  destruct D as [Dn|Dn].
  - left. unfold rel. rewrite !(val_div_nan RN); auto; [now destruct t|]. rewrite H, Dn. now destruct t.
  - right. split; apply oor_inf, (val_div0_inf RN); auto; rewrite H; destruct t; simpl; auto; intros E; [apply Za|apply Dn];
      rewrite <- (xopp_opp (v a)), E; simpl; auto. f_equal; lra.
Qed.
Lemma quot_same (a b m : N) : rel false a b -> rel false (a / m)%num (b / m)%num.
Proof.
  intros H. destruct (xr_zero_dec (v a)) as [Za|Za]; [apply rel_div; auto|].
  now rewrite (rel_false_inj _ _ H Za).
Qed.

Lemma result_rel l c st st' : scaling as_ b0 b1 l = Ok c -> Forall2 (krel s) st st' -> incl st l ->
  same_up_to s (result c st) (result c st').
Proof.
  intros Hc F Hi.
  assert (Mz : forall k, In k l -> kb k = true -> v (s_z c) = XR 0 -> v (k_z k) = XR 0).
  { intros k Ik Bk. revert Hc. unfold scaling. destruct (np_min _) as [e|]; [|discriminate]. cbn [bind].
    destruct (np_max (map (fun k => nabs (k_z k)) _)) as [z|] eqn:Ez; [|discriminate]. cbn [bind].
    destruct (bin_edges b0 b1) as [aux|]; [|discriminate]. cbn [bind].
    destruct (curve _ _ _ _) as [pts|]; [|discriminate]. cbn [bind].
    destruct (np_max (map (fun k => nabs (k_p k)) _)) as [q|]; [|discriminate]. cbn [bind]. intros [= <-]. simpl.
    intros Z. eapply (max_zero k_z); eauto. apply filter_In; auto. }
  assert (R1 : forall a b, In a l -> kb a = true -> krel s a b -> rel s (nZ c a) (nZ c b)).
  { intros a b Ia Ba [_ Hz _]. unfold nZ. apply rel_div; auto. }
  assert (R2 : forall a b, krel s a b -> jcv c b = jcv c a).
  { intros a b [He _ _]. unfold jcv, nE. now rewrite He. }
  assert (R3 : forall a b, In a l -> kb a = true -> krel s a b ->
     rel s (raw_eps c a) (raw_eps c b) \/ (out_of_range (raw_eps c a) = true /\ out_of_range (raw_eps c b) = true)).
  { intros a b Ia Ba K. unfold raw_eps. rewrite (R2 a b K). apply quot_rel. auto. }
  assert (Kp : forall a b, In a l -> krel s a b -> keep c b = keep c a).
  { intros a b Ia K. unfold keep. rewrite <- (krel_kb s a b K). destruct (kb a) eqn:B; [|reflexivity]. simpl. f_equal.
    destruct (R3 a b Ia B K) as [H|[-> ->]]; [now apply (oor_rel s)|reflexivity]. }
  assert (Kb : forall a, keep c a = true -> kb a = true /\ out_of_range (raw_eps c a) = false).
  { intros a H. apply andb_true_iff in H as [H1 H2]. apply negb_true_iff in H2. auto. }
  assert (E : map (kept c nE) st' = map (kept c nE) st).
  { symmetry. apply Forall2_map_eq. eapply Forall2_impl_In; [|exact F]. intros a b Ia _ K. unfold kept.
    rewrite (Kp a b (Hi _ Ia) K). unfold nE. now rewrite (kr_e _ _ _ K). }
  assert (T : forall t (f : scales N -> krow N -> N) a b, In a st -> krel s a b ->
      (kb a = true -> out_of_range (raw_eps c a) = false -> rel t (f c a) (f c b)) -> agrees t (kept c f a) (kept c f b)).
  { intros t f a b Ia K H. apply agrees_iff. unfold kept. rewrite (Kp a b (Hi _ Ia) K).
    destruct (keep c a) eqn:Ke; [|apply rel_nan]. destruct (Kb a Ke). auto. }
  repeat split; simpl; try reflexivity; [exact E| | |].
  - apply Forall2_map'. apply (Forall2_impl_In (krel s)); [|apply Forall2_filter'; [apply krel_kb|exact F]].
    intros a b Ia _ K. apply filter_In in Ia as [Ia Ba]. apply T; auto.
  - apply Forall2_map'. eapply Forall2_impl_In; [|exact F]. intros a b Ia _ K. apply T; auto. intros Ba O.
    destruct (R3 a b (Hi _ Ia) Ba K) as [H|[H _]]; [exact H|congruence].
  - apply Forall2_map'. eapply Forall2_impl_In; [|exact F]. intros a b Ia _ K. apply T; auto. intros Ba O.
    unfold raw_eps_r. rewrite (R2 a b K). apply quot_same. unfold nP. apply quot_same. apply K.
Qed.

Lemma run_rel l l' st st' : Forall2 (krel s) l l' -> Forall2 (krel s) st st' -> incl st l ->
  (forall e, run as_ b0 b1 l st = Raise e -> run as_ b0 b1 l' st' = Raise e) /\
  (forall j, run as_ b0 b1 l st = Ok j -> exists j', run as_ b0 b1 l' st' = Ok j' /\ same_up_to s j j').
Proof.
  intros F1 F2 Hi. unfold run. rewrite (scaling_rel _ _ F1).
  assert (E : map kb st' = map kb st).
  { symmetry. apply Forall2_map_eq. eapply Forall2_impl_In; [|exact F2]. intros a b _ _. apply krel_kb. }
  rewrite E. destruct (scaling as_ b0 b1 l) as [c|e] eqn:Hc; cbn [bind]; [|split; [auto|discriminate]].
  destruct (guard _ ValueError); cbn [bind]; [|split; [auto|discriminate]].
  destruct (guard (prefix (map kb st)) IndexError); cbn [bind]; [|split; [auto|discriminate]].
  split; [discriminate|]. intros j [= <-]. eexists. split; [reflexivity|]. eapply result_rel; eauto.
Qed.
End Run.

(** *** Orbits of the reversed galaxy *)
Definition orel (s1 s2 s3 : bool) (o o' : orbit N) : Prop :=
  o_e o' = o_e o /\ rel s1 (o_jx o) (o_jx o') /\ rel s2 (o_jy o) (o_jy o') /\ rel s3 (o_jz o) (o_jz o').
Lemma orel_krel s1 s2 s3 o o' : orel s1 s2 s3 o o' -> krel s3 (krow_of o) (krow_of o').
Proof.
  intros (He & Hx & Hy & Hz). constructor; simpl; auto. unfold rel, o_jp. simpl.
  rewrite !(val_sqrt RN), !(val_add RN), (rel_square _ _ _ Hx), (rel_square _ _ _ Hy). reflexivity.
Qed.
Lemma orbits_cols_rel s1 s2 s3 (E X Y Z E' X' Y' Z' : list N) : E' = E -> Forall2 (rel s1) X X' -> Forall2 (rel s2) Y Y' ->
  Forall2 (rel s3) Z Z' ->
  Forall2 (orel s1 s2 s3)
    (map2 (fun ex yz => Orb (fst ex) (snd ex) (fst yz) (snd yz)) (map2 pair E X) (map2 pair Y Z))
    (map2 (fun ex yz => Orb (fst ex) (snd ex) (fst yz) (snd yz)) (map2 pair E' X') (map2 pair Y' Z')).
Proof.
  intros -> FX. revert E Y Z Y' Z'. induction FX as [|x x' X X' rx FX IH]; intros [|e E] Y Z Y' Z' FY FZ; try constructor.
  destruct FY as [|y y' Y Y' ry FY]; [constructor|]. destruct FZ as [|z z' Z Z' rz FZ]; [constructor|].
  simpl. constructor; [repeat split; auto|]. apply IH; auto.
Qed.
Lemma plen_x (p : pset N) : pset_ok p -> length (p_x p) = plen p.
Proof. intros H. apply pset_ok_iff in H as [H _]. unfold plen. now destruct H as (? & _). Qed.
Lemma set_orbits w (p q : pset N) : symmetric w -> pset_ok p -> pset_ok q ->
  p_x q = map (turn (sx w)) (p_x p) -> p_y q = map (turn (sy w)) (p_y p) ->
  p_z q = map (turn (sz w)) (p_z p) -> p_vx q = map (turn (svx w)) (p_vx p) ->
  p_vy q = map (turn (svy w)) (p_vy p) -> p_vz q = map (turn (svz w)) (p_vz p) -> p_pot q = p_pot p ->
  Forall2 (orel (xorb (sy w) (svz w)) (xorb (sz w) (svx w)) (flips w)) (orbits p) (orbits q).
Proof.
  intros (S1 & S2 & S3) Hp Hq Ex Ey Ez Evx Evy Evz Ep. unfold orbits. apply orbits_cols_rel.
  - unfold energies. rewrite (pset_ok_te _ Hp), (pset_ok_te _ Hq), Ep, (pset_ok_ke _ Hp), (pset_ok_ke _ Hq), Evx, Evy, Evz.
    rewrite (map3'_same kin) by (intros; apply kin_turn).
    destruct (p_pot p); simpl; auto. f_equal. rewrite <- (plen_x _ Hp), <- (plen_x _ Hq), Ex. apply map_length.
  - rewrite (pset_ok_Jx _ Hp), (pset_ok_Jx _ Hq), Ey, Evz, Ez, Evy. apply Forall2_map4. intros. now apply rel_sub.
  - rewrite (pset_ok_Jy _ Hp), (pset_ok_Jy _ Hq), Ez, Evx, Ex, Evz. apply Forall2_map4. intros. now apply rel_sub.
  - rewrite (pset_ok_Jz _ Hp), (pset_ok_Jz _ Hq), Ex, Evy, Ey, Evx. apply Forall2_map4. intros. now apply rel_sub.
Qed.

(** *** Galaxies *)
Lemma krel_app s l1 l1' l2 l2' : Forall2 (krel s) l1 l1' -> Forall2 (krel s) l2 l2' -> Forall2 (krel s) (l1 ++ l2) (l1' ++ l2').
Proof. intros. apply Forall2_app; auto. Qed.
Lemma reflected_krows w (g g' : galaxy N) : symmetric w -> gal_ok g -> gal_ok g' -> reflected w g g' ->
  Forall2 (krel (flips w)) (map krow_of (all_orbits g)) (map krow_of (all_orbits g')) /\
  Forall2 (krel (flips w)) (map krow_of (star_orbits g)) (map krow_of (star_orbits g')).
Proof.
  intros Hw Hg Hg' F. apply gal_ok_facts in Hg as [s1 d1 g1 _ _ _ _ _ _]. apply gal_ok_facts in Hg' as [s2 d2 g2 _ _ _ _ _ _].
  unfold reflected, sets in F.
  inversion F as [|? ? ? ? Fs F1]; subst. inversion F1 as [|? ? ? ? Fd F2]; subst. inversion F2 as [|? ? ? ? Fg _]; subst.
  assert (X : forall p q, pset_ok p -> pset_ok q -> (p_x q = map (turn (sx w)) (p_x p) /\ p_y q = map (turn (sy w)) (p_y p) /\
     p_z q = map (turn (sz w)) (p_z p) /\ p_vx q = map (turn (svx w)) (p_vx p) /\
     p_vy q = map (turn (svy w)) (p_vy p) /\ p_vz q = map (turn (svz w)) (p_vz p) /\ p_pot q = p_pot p) ->
     Forall2 (krel (flips w)) (map krow_of (orbits p)) (map krow_of (orbits q))).
  { intros p q Hp Hq (? & ? & ? & ? & ? & ? & ?). apply Forall2_map'.
    eapply Forall2_impl_In; [|apply (set_orbits w); eassumption]. intros a b _ _ R. eapply orel_krel; eauto. }
  unfold all_orbits, star_orbits, sets. simpl. rewrite !map_app. split; [|apply X; auto].
  repeat apply krel_app; try (apply X; auto). constructor.
Qed.
End Sym.
