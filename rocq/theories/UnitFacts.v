(** Circularities of a galaxy in units changed by powers of two. *)
From Flocq Require Import Core BinarySingleNaN.
From Coq Require Import Reals Lra Lia ZArith.
From Verif Require Import Py Num RX F64 Np Df Data DataFacts DfFacts Center CenterFacts Align Spec SpecR SpecCirc SpecSym Circ CircFacts CurveFacts CircThms SymFacts SpecShift ShiftFacts.

Section Unit.
Context {sm : list f64 -> f64}.
Notation W := (F64s sm).
Notation sh := (@shifted 53 1024).
Let Hp : (0 < 53)%Z := p53.
Let Hm : (53 < 1024)%Z := e1024.

(** *** Comparisons *)
Lemma sh_lt k (x y x' y' : W) : sh k x y -> sh k x' y' -> nlt y y' = nlt x x'.
Proof. intros H H'. unfold nlt. simpl ncmp. now rewrite (sh_cmp _ _ _ _ _ H H'). Qed.
Lemma sh_isnan k (x y : W) : sh k x y -> nisnan y = nisnan x.
Proof. intros H. unfold nisnan. simpl ncmp. now rewrite (sh_cmp _ _ _ _ _ H H). Qed.
Lemma sh_zero0 k : sh k (n0 : W) (n0 : W).
Proof. right. repeat split. change (B2R (n0 : W)) with 0%R. ring. Qed.
Lemma sh_bound k (x y : W) : sh k x y -> is_bound (N:=W) y = is_bound (N:=W) x.
Proof.
  intros H. unfold is_bound, nle, neqb.
  pose proof (sh_cmp k _ _ _ _ H (sh_zero0 k)) as C0.
  assert (Ci : sh k (nninf : W) (nninf : W)) by (left; split; reflexivity).
  pose proof (sh_cmp k _ _ _ _ H Ci) as C1.
  change (ncmp (N:=W) y n0 = ncmp (N:=W) x n0) in C0. change (ncmp (N:=W) y nninf = ncmp (N:=W) x nninf) in C1.
  rewrite C0, C1. reflexivity.
Qed.
Lemma sh_fold_max k (l l' : list W) : Forall2 (sh k) l l' -> forall x y : W, sh k x y ->
  sh k (fold_left (pick_max (N:=W)) l x) (fold_left (pick_max (N:=W)) l' y).
Proof.
  induction 1 as [|a b l l' H F IH]; intros x y Hx; [exact Hx|]. simpl. apply IH. unfold pick_max.
  rewrite (sh_isnan _ _ _ H), (sh_isnan _ _ _ Hx), (sh_lt _ _ _ _ _ Hx H).
  now destruct (nisnan (N:=W) x), (nisnan (N:=W) a), (nlt (N:=W) x a).
Qed.
Lemma sh_fold_min k (l l' : list W) : Forall2 (sh k) l l' -> forall x y : W, sh k x y ->
  sh k (fold_left (pick_min (N:=W)) l x) (fold_left (pick_min (N:=W)) l' y).
Proof.
  induction 1 as [|a b l l' H F IH]; intros x y Hx; [exact Hx|]. simpl. apply IH. unfold pick_min.
  rewrite (sh_isnan _ _ _ H), (sh_isnan _ _ _ Hx), (sh_lt _ _ _ _ _ H Hx).
  now destruct (nisnan (N:=W) x), (nisnan (N:=W) a), (nlt (N:=W) a x).
Qed.
(** Results related, or the same error. *)
Definition both {A B} (R : A -> B -> Prop) (r : res A) (r' : res B) : Prop :=
  match r, r' with Ok a, Ok b => R a b | Raise e, Raise e' => e' = e | _, _ => False end.
Lemma sh_max k (l l' : list W) : Forall2 (sh k) l l' -> both (sh k) (np_max (N:=W) l) (np_max (N:=W) l').
Proof. intros F. inversion F; subst; simpl; [reflexivity|]. now apply sh_fold_max. Qed.
Lemma sh_min k (l l' : list W) : Forall2 (sh k) l l' -> both (sh k) (np_min (N:=W) l) (np_min (N:=W) l').
Proof. intros F. inversion F; subst; simpl; [reflexivity|]. now apply sh_fold_min. Qed.

(** *** Rows *)
Record kshift (ke kj : Z) (k k' : krow W) : Prop := {
  ks_e : sh ke (k_e k) (k_e k');
  ks_z : sh kj (k_z k) (k_z k');
  ks_p : sh kj (k_p k) (k_p k') }.
Record cshift (ke kj : Z) (c c' : scales W) : Prop := {
  cs_e : sh ke (s_e c) (s_e c');
  cs_z : sh kj (s_z c) (s_z c');
  cs_p : sh kj (s_p c) (s_p c');
  cs_pts : s_pts c' = s_pts c }.
Section Rows.
Context (ke kj : Z) (as_ : nat -> list W -> list nat) (b0 b1 : W).
Lemma kb_shift k k' : kshift ke kj k k' -> kb k = kb k'.
Proof. intros [H _ _]. unfold kb. symmetry. now apply (sh_bound ke). Qed.
Lemma div_shift k (x y x' y' : W) : sh k x y -> sh k x' y' -> (y / y')%num = (x / x')%num.
Proof. intros H H'. exact (sh_div Hp Hm k x y x' y' H H'). Qed.
Lemma abs_shift k (x y : W) : sh k x y -> sh k (nabs x : W) (nabs y : W).
Proof. apply sh_abs. Qed.

Lemma scaling_shift l l' : Forall2 (kshift ke kj) l l' -> both (cshift ke kj) (scaling as_ b0 b1 l) (scaling as_ b0 b1 l').
Proof.
  intros F. unfold scaling. apply (Forall2_filter' _ kb kb) in F; [|apply kb_shift].
  set (b := filter kb l) in *. set (b' := filter kb l') in *.
  assert (Fe : Forall2 (sh ke) (map k_e b) (map k_e b')).
  { apply Forall2_map'. eapply Forall2_impl_In; [|exact F]. intros a c _ _ []; auto. }
  assert (Fz : Forall2 (sh kj) (map (fun k => nabs (k_z k)) b) (map (fun k => nabs (k_z k)) b')).
  { apply Forall2_map'. eapply Forall2_impl_In; [|exact F]. intros a c _ _ []; now apply abs_shift. }
  assert (Fp : Forall2 (sh kj) (map (fun k => nabs (k_p k)) b) (map (fun k => nabs (k_p k)) b')).
  { apply Forall2_map'. eapply Forall2_impl_In; [|exact F]. intros a c _ _ []; now apply abs_shift. }
  pose proof (sh_min _ _ _ Fe) as Me. destruct (np_min (map k_e b)) as [e|], (np_min (map k_e b')) as [e'|]; try contradiction; [|exact Me].
  pose proof (sh_max _ _ _ Fz) as Mz. cbn [bind].
  destruct (np_max (map (fun k => nabs (k_z k)) b)) as [z|], (np_max (map (fun k => nabs (k_z k)) b')) as [z'|]; try contradiction; [|exact Mz].
  cbn [bind]. destruct (bin_edges b0 b1) as [aux|]; [|reflexivity]. cbn [bind].
  cbn [both] in Me, Mz. pose proof (abs_shift _ _ _ Me) as Ma.
  assert (Ee : map (fun k => (k_e k / nabs e')%num) b' = map (fun k => (k_e k / nabs e)%num) b).
  { symmetry. apply Forall2_map_eq. eapply Forall2_impl_In; [|exact F]. intros a c _ _ [He _ _]. symmetry. exact (div_shift ke _ _ _ _ He Ma). }
  assert (Ez : map (fun k => (k_z k / z')%num) b' = map (fun k => (k_z k / z)%num) b).
  { symmetry. apply Forall2_map_eq. eapply Forall2_impl_In; [|exact F]. intros a c _ _ [_ Hz _]. symmetry. exact (div_shift kj _ _ _ _ Hz Mz). }
  rewrite Ee, Ez. destruct (curve _ _ _ _) as [pts|]; [|reflexivity]. cbn [bind].
  pose proof (sh_max _ _ _ Fp) as Mp.
  destruct (np_max (map (fun k => nabs (k_p k)) b)) as [p|], (np_max (map (fun k => nabs (k_p k)) b')) as [p'|]; try contradiction; [|exact Mp].
  constructor; auto.
Qed.
Lemma result_shift c c' st st' : cshift ke kj c c' -> Forall2 (kshift ke kj) st st' -> result c' st' = result c st.
Proof.
  intros [Ce Cz Cp Cs] F.
  assert (E : forall k k', kshift ke kj k k' -> nE c' k' = nE c k) by (intros k k' []; unfold nE; eapply div_shift; eauto).
  assert (Z : forall k k', kshift ke kj k k' -> nZ c' k' = nZ c k) by (intros k k' []; unfold nZ; eapply div_shift; eauto).
  assert (P : forall k k', kshift ke kj k k' -> nP c' k' = nP c k) by (intros k k' []; unfold nP; eapply div_shift; eauto).
  assert (J : forall k k', kshift ke kj k k' -> jcv c' k' = jcv c k) by (intros k k' K; unfold jcv; now rewrite Cs, (E _ _ K)).
  assert (R1 : forall k k', kshift ke kj k k' -> raw_eps c' k' = raw_eps c k) by (intros k k' K; unfold raw_eps; now rewrite (Z _ _ K), (J _ _ K)).
  assert (R2 : forall k k', kshift ke kj k k' -> raw_eps_r c' k' = raw_eps_r c k) by (intros k k' K; unfold raw_eps_r; now rewrite (P _ _ K), (J _ _ K)).
  assert (Ke : forall k k', kshift ke kj k k' -> keep c' k' = keep c k) by (intros k k' K; unfold keep; now rewrite (R1 _ _ K), (kb_shift _ _ K)).
  assert (T : forall f, (forall k k', kshift ke kj k k' -> f c' k' = f c k) -> forall l l', Forall2 (kshift ke kj) l l' ->
     map (kept c' f) l' = map (kept c f) l).
  { intros f Hf l l' Fl. symmetry. apply Forall2_map_eq. eapply Forall2_impl_In; [|exact Fl]. intros a b _ _ K. unfold kept.
    now rewrite (Ke _ _ K), (Hf _ _ K). }
  unfold result. rewrite Cs. f_equal; apply T; auto. apply (Forall2_filter' _ kb kb); auto. apply kb_shift.
Qed.
Lemma run_shift l l' st st' : Forall2 (kshift ke kj) l l' -> Forall2 (kshift ke kj) st st' ->
  run as_ b0 b1 l' st' = run as_ b0 b1 l st.
Proof.
  intros F F'. unfold run. pose proof (scaling_shift _ _ F) as S.
  destruct (scaling as_ b0 b1 l) as [c|], (scaling as_ b0 b1 l') as [c'|]; try contradiction; [|cbn in S; now rewrite S].
  cbn [bind]. rewrite (cs_pts _ _ _ _ S).
  assert (E : map kb st' = map kb st).
  { symmetry. apply Forall2_map_eq. eapply Forall2_impl_In; [|exact F']. intros a b _ _. apply kb_shift. }
  rewrite E. destruct (guard _ ValueError); [|reflexivity]. cbn [bind]. destruct (guard _ IndexError); [|reflexivity]. cbn [bind].
  now rewrite (result_shift _ _ _ _ S F').
Qed.
End Rows.

(** *** Orbits *)
Lemma within_grid n (x : W) : within2 n x <-> grid n n x.
Proof. reflexivity. Qed.
Lemma half_grid : grid 1 0 (nlit 1 2 : W).
Proof.
  intros _. assert (E : B2SF (nlit 1 2 : W) = SpecFloat.S754_finite false 4503599627370496 (-53)) by (vm_compute; reflexivity).
  rewrite <- SF2R_B2SF, E. simpl SF2R. unfold F2R. simpl Fnum. simpl Fexp. simpl cond_Zopp.
  assert (Hh : (IZR 4503599627370496 * bpow radix2 (-53) = 1 * bpow radix2 (-1))%R).
  { change (-53)%Z with (-1 + -52)%Z. rewrite bpow_plus. change 4503599627370496%Z with (2 ^ 52)%Z. rewrite (IZR_Zpower radix2) by lia.
    replace (bpow radix2 52 * (bpow radix2 (-1) * bpow radix2 (-52)))%R with (bpow radix2 (-1) * (bpow radix2 52 * bpow radix2 (-52)))%R by ring.
    rewrite <- (bpow_plus radix2 52). simpl (52 + -52)%Z. simpl (bpow radix2 0). ring. }
  rewrite Hh. split; [exists 1%Z; reflexivity|]. rewrite Rmult_1_l, Rabs_pos_eq by apply bpow_ge_0. apply bpow_le. lia.
Qed.
Section Orbits.
Context (a b : Z) (Ha : (Z.abs a <= 50)%Z) (Hb : (Z.abs b <= 50)%Z).
Definition oshift (o o' : orbit W) : Prop :=
  sh (2 * b) (o_e o) (o_e o') /\
  (sh (a + b) (o_jx o) (o_jx o') /\ grid 300 301 (o_jx o)) /\ (sh (a + b) (o_jy o) (o_jy o') /\ grid 300 301 (o_jy o)) /\
  sh (a + b) (o_jz o) (o_jz o').
Lemma cross_shift (x y x' y' z w z' w' : W) : sh a x x' -> sh b y y' -> sh a z z' -> sh b w w' ->
  within2 150 x -> within2 150 y -> within2 150 z -> within2 150 w ->
  sh (a + b) (crossc (N:=W) x y z w) (crossc (N:=W) x' y' z' w') /\ grid 300 301 (crossc (N:=W) x y z w).
Proof.
  intros Sx Sy Sz Sw Gx Gy Gz Gw. unfold crossc.
  destruct (sh_mul Hp Hm a b 150 150 150 150 x x' y y' ltac:(lia) ltac:(lia) ltac:(lia) ltac:(lia) Sx Sy Gx Gy) as [S1 G1].
  destruct (sh_mul Hp Hm a b 150 150 150 150 z z' w w' ltac:(lia) ltac:(lia) ltac:(lia) ltac:(lia) Sz Sw Gz Gw) as [S2 G2].
  exact (sh_sub Hp Hm (a + b) 300 300 _ _ _ _ ltac:(lia) ltac:(lia) ltac:(lia) ltac:(lia) ltac:(lia) S1 S2 G1 G2).
Qed.
Lemma jp_shift o o' : oshift o o' -> sh (a + b) (o_jp o : W) (o_jp o' : W).
Proof.
  intros (_ & [Sx Gx] & [Sy Gy] & _). unfold o_jp.
  destruct (sh_mul Hp Hm (a + b) (a + b) 300 300 301 301 _ _ _ _ ltac:(lia) ltac:(lia) ltac:(lia) ltac:(lia) Sx Sx Gx Gx) as [S1 G1].
  destruct (sh_mul Hp Hm (a + b) (a + b) 300 300 301 301 _ _ _ _ ltac:(lia) ltac:(lia) ltac:(lia) ltac:(lia) Sy Sy Gy Gy) as [S2 G2].
  destruct (sh_add Hp Hm (a + b + (a + b)) 600 602 _ _ _ _ ltac:(lia) ltac:(lia) ltac:(lia) ltac:(lia) ltac:(lia) S1 S2 G1 G2) as [S3 G3].
  replace (a + b + (a + b))%Z with (2 * (a + b))%Z in S3 by lia.
  exact (sh_sqrt Hp Hm (a + b) 600 603 _ _ ltac:(lia) ltac:(lia) ltac:(lia) ltac:(lia) S3 G3).
Qed.
Lemma krow_shift o o' : oshift o o' -> kshift (2 * b) (a + b) (krow_of o) (krow_of o').
Proof. intros H. pose proof (jp_shift _ _ H). destruct H as (He & _ & _ & Hz). constructor; auto. Qed.
Lemma kin_shift (x y z x' y' z' : W) : sh b x x' -> sh b y y' -> sh b z z' -> within2 150 x -> within2 150 y -> within2 150 z ->
  sh (2 * b) (kin (N:=W) x y z) (kin (N:=W) x' y' z') /\ grid 301 302 (kin (N:=W) x y z).
Proof.
  intros Sx Sy Sz Gx Gy Gz. unfold kin.
  destruct (sh_mul Hp Hm b b 150 150 150 150 _ _ _ _ ltac:(lia) ltac:(lia) ltac:(lia) ltac:(lia) Sx Sx Gx Gx) as [S1 G1].
  destruct (sh_mul Hp Hm b b 150 150 150 150 _ _ _ _ ltac:(lia) ltac:(lia) ltac:(lia) ltac:(lia) Sy Sy Gy Gy) as [S2 G2].
  destruct (sh_mul Hp Hm b b 150 150 150 150 _ _ _ _ ltac:(lia) ltac:(lia) ltac:(lia) ltac:(lia) Sz Sz Gz Gz) as [S3 G3].
  destruct (sh_add Hp Hm (b + b) 300 300 _ _ _ _ ltac:(lia) ltac:(lia) ltac:(lia) ltac:(lia) ltac:(lia) S1 S2 G1 G2) as [S4 G4].
  destruct (sh_add Hp Hm (b + b) 300 301 _ _ _ _ ltac:(lia) ltac:(lia) ltac:(lia) ltac:(lia) ltac:(lia) S4 S3 G4
    (grid_weak _ _ 300 301 _ G3 ltac:(lia) ltac:(lia))) as [S5 G5].
  destruct (sh_mul Hp Hm 0 (b + b) 1 300 0 302 _ _ _ _ ltac:(lia) ltac:(lia) ltac:(lia) ltac:(lia) (sh_refl (nlit 1 2 : W)) S5 half_grid G5) as [S6 G6].
  replace (2 * b)%Z with (0 + (b + b))%Z by lia. split; [exact S6|exact G6].
Qed.

Lemma map4_rel {A B C} (P : A -> A -> Prop) (Q : A -> A -> Prop) (G : A -> Prop) (R : B -> C -> Prop) (f : A -> A -> A -> A -> B) (f' : A -> A -> A -> A -> C)
   p q r s p' q' r' s' :
  (forall x y z w x' y' z' w', P x x' -> Q y y' -> P z z' -> Q w w' -> G x -> G y -> G z -> G w -> R (f x y z w) (f' x' y' z' w')) ->
  Forall2 P p p' -> Forall2 Q q q' -> Forall2 P r r' -> Forall2 Q s s' -> Forall G p -> Forall G q -> Forall G r -> Forall G s ->
  Forall2 R (map4 f p q r s) (map4 f' p' q' r' s').
Proof.
  intros H F1. revert q q' r r' s s'. unfold map4. induction F1 as [|x x' p p' H1 F1 IH]; intros q q' r r' s s' F2 F3 F4 G1 G2 G3 G4.
  { simpl. constructor. }
  destruct F2 as [|y y' q q' H2 F2]; [simpl; constructor|]. destruct F3 as [|z z' r r' H3 F3]; [simpl; constructor|].
  destruct F4 as [|w w' s s' H4 F4]; [simpl; constructor|]. simpl.
  inversion G1; inversion G2; inversion G3; inversion G4; subst. apply Forall2_cons; [now apply H|]. now apply IH.
Qed.
Lemma map3_rel {A B C} (P : A -> A -> Prop) (G : A -> Prop) (R : B -> C -> Prop) (f : A -> A -> A -> B) (f' : A -> A -> A -> C) p q r p' q' r' :
  (forall x y z x' y' z', P x x' -> P y y' -> P z z' -> G x -> G y -> G z -> R (f x y z) (f' x' y' z')) ->
  Forall2 P p p' -> Forall2 P q q' -> Forall2 P r r' -> Forall G p -> Forall G q -> Forall G r ->
  Forall2 R (map3' f p q r) (map3' f' p' q' r').
Proof.
  intros H F1. revert q q' r r'. unfold map3'. induction F1 as [|x x' p p' H1 F1 IH]; intros q q' r r' F2 F3 G1 G2 G3.
  { simpl. constructor. }
  destruct F2 as [|y y' q q' H2 F2]; [simpl; constructor|]. destruct F3 as [|z z' r r' H3 F3]; [simpl; constructor|]. simpl.
  inversion G1; inversion G2; inversion G3; subst. apply Forall2_cons; [now apply H|]. now apply IH.
Qed.
Lemma map2_rel {A B C D E F} (P : A -> D -> Prop) (Q : B -> E -> Prop) (G : B -> Prop) (R : C -> F -> Prop) (f : A -> B -> C) (f' : D -> E -> F) p q p' q' :
  (forall x y x' y', P x x' -> Q y y' -> G y -> R (f x y) (f' x' y')) ->
  Forall2 P p p' -> Forall2 Q q q' -> Forall G q -> Forall2 R (map2 f p q) (map2 f' p' q').
Proof.
  intros H F1. revert q q'. induction F1 as [|x x' p p' H1 F1 IH]; intros q q' F2 G1; [simpl; constructor|].
  destruct F2 as [|y y' q q' H2 F2]; [simpl; constructor|]. simpl. inversion G1; subst. apply Forall2_cons; auto.
Qed.
Lemma Forall_True {A} (l : list A) : Forall (fun _ => True) l.
Proof. now apply Forall_forall. Qed.

Lemma orbits_shift (p q : pset W) : pset_ok p -> pset_ok q ->
  Forall2 (sh a) (p_x p) (p_x q) /\ Forall2 (sh a) (p_y p) (p_y q) /\ Forall2 (sh a) (p_z p) (p_z q) /\
     Forall2 (sh b) (p_vx p) (p_vx q) /\ Forall2 (sh b) (p_vy p) (p_vy q) /\ Forall2 (sh b) (p_vz p) (p_vz q) /\
     match p_pot p, p_pot q with
     | Some l, Some l' => Forall2 (sh (2 * b)) l l'
     | None, None => True
     | _, _ => False
     end ->
  Forall (within2 150) (p_x p) /\ Forall (within2 150) (p_y p) /\ Forall (within2 150) (p_z p) /\
     Forall (within2 150) (p_vx p) /\ Forall (within2 150) (p_vy p) /\ Forall (within2 150) (p_vz p) /\
     match p_pot p with Some l => Forall (within2 (2 * 150)) l | None => True end ->
  Forall2 oshift (orbits p) (orbits q).
Proof.
  intros Op Oq (Fx & Fy & Fz & Fvx & Fvy & Fvz & Fp) (Gx & Gy & Gz & Gvx & Gvy & Gvz & Gp).
  pose (R := fun u w : W => sh (a + b) u w /\ grid 300 301 u).
  assert (JX : Forall2 R (p_Jx p) (p_Jx q)).
  { rewrite (pset_ok_Jx _ Op), (pset_ok_Jx _ Oq). apply (map4_rel (sh a) (sh b) (within2 150)); auto. intros. now apply cross_shift. }
  assert (JY : Forall2 R (p_Jy p) (p_Jy q)).
  { rewrite (pset_ok_Jy _ Op), (pset_ok_Jy _ Oq). apply (map4_rel (sh a) (sh b) (within2 150)); auto. intros. now apply cross_shift. }
  assert (JZ : Forall2 R (p_Jz p) (p_Jz q)).
  { rewrite (pset_ok_Jz _ Op), (pset_ok_Jz _ Oq). apply (map4_rel (sh a) (sh b) (within2 150)); auto. intros. now apply cross_shift. }
  assert (EN : Forall2 (sh (2 * b)) (energies p) (energies q)).
  { unfold energies. rewrite (pset_ok_te _ Op), (pset_ok_te _ Oq), (pset_ok_ke _ Op), (pset_ok_ke _ Oq).
    assert (K : Forall2 (fun u w : W => sh (2 * b) u w /\ grid 301 302 u) (map3' (kin (N:=W)) (p_vx p) (p_vy p) (p_vz p)) (map3' (kin (N:=W)) (p_vx q) (p_vy q) (p_vz q))).
    { apply (map3_rel (sh b) (within2 150)); auto. intros. now apply kin_shift. }
    destruct (p_pot p) as [pot|], (p_pot q) as [pot'|]; try contradiction; cbn [option_map].
    - apply (map2_rel (fun u w : W => sh (2 * b) u w /\ grid 301 302 u) (sh (2 * b)) (within2 300)); auto.
      intros x y x' y' [Hx Gx'] Hy Gy'.
      exact (proj1 (sh_add Hp Hm (2 * b) 301 302 _ _ _ _ ltac:(lia) ltac:(lia) ltac:(lia) ltac:(lia) ltac:(lia) Hx Hy Gx'
        (grid_weak _ _ 301 302 _ Gy' ltac:(lia) ltac:(lia)))).
    - rewrite <- (plen_x _ Op), <- (plen_x _ Oq). pose proof (Forall2_length' _ _ _ Fx) as EL. cbn [car F64s BNum] in *. rewrite EL.
      assert (Fn : sh (2 * b) (nnan : W) (nnan : W)) by (left; split; reflexivity).
      match goal with |- context [repeat _ ?l] => generalize l end. clear - Fn. intros n. induction n as [|n IH]; [constructor|]. apply Forall2_cons; assumption. }
  unfold orbits.
  apply (map2_rel (fun u w => sh (2 * b) (fst u) (fst w) /\ R (snd u) (snd w)) (fun u w => R (fst u) (fst w) /\ R (snd u) (snd w)) (fun _ => True)).
  - intros [e x] [y z] [e' x'] [y' z'] [He Hx] [Hy Hz] _. cbn [fst snd] in *. unfold oshift. cbn [o_e o_jx o_jy o_jz]. unfold R in *. tauto.
  - apply (map2_rel (sh (2 * b)) R (fun _ => True)); auto using Forall_True.
  - apply (map2_rel R R (fun _ => True)); auto using Forall_True.
  - apply Forall_True.
Qed.
Lemma in_units_jcirc as_ (g g' : galaxy W) b0 b1 : gal_ok g -> gal_ok g' -> in_units a b g g' -> tame 150 g ->
  jcirc as_ g' b0 b1 = jcirc as_ g b0 b1.
Proof.
  intros Hg Hg' F T.
  rewrite (jcirc_run (F64_rounded sm) as_ g b0 b1 Hg), (jcirc_run (F64_rounded sm) as_ g' b0 b1 Hg').
  apply gal_ok_facts in Hg as [s1 d1 g1 _ _ _ _ _ _]. apply gal_ok_facts in Hg' as [s2 d2 g2 _ _ _ _ _ _].
  unfold in_units, tame, sets in *.
  inversion F as [|? ? ? ? Fs F1]; subst. inversion F1 as [|? ? ? ? Fd F2]; subst. inversion F2 as [|? ? ? ? Fg _]; subst.
  inversion T as [|? ? Ts T1]; subst. inversion T1 as [|? ? Td T2]; subst. inversion T2 as [|? ? Tg _]; subst.
  pose proof (orbits_shift _ _ s1 s2 Fs Ts) as Os. pose proof (orbits_shift _ _ d1 d2 Fd Td) as Od. pose proof (orbits_shift _ _ g1 g2 Fg Tg) as Og.
  assert (K : forall l l', Forall2 oshift l l' -> Forall2 (kshift (2 * b) (a + b)) (map krow_of l) (map krow_of l')).
  { intros l l' H. apply Forall2_map'. eapply Forall2_impl_In; [|exact H]. intros o o' _ _. apply krow_shift. }
  apply (run_shift (2 * b) (a + b)); apply K; [|exact Os].
  unfold all_orbits, sets. simpl. rewrite !app_nil_r. repeat apply Forall2_app; assumption.
Qed.
End Orbits.
End Unit.
