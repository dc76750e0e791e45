(** Centring and alignment of a galaxy in units changed by powers of two. *)
From Flocq Require Import Core BinarySingleNaN.
From Coq Require Import Reals Lra Lia ZArith.
From Verif Require Import Py Num RX F64 Np Df Data DataFacts DfFacts Center CenterFacts Align AlignFacts Spec SpecR SpecCirc SpecSym Circ CircFacts CurveFacts CircThms CenterThms SymFacts SpecShift ShiftFacts UnitFacts.

Section Chain.
Context {sm : list f64 -> f64}.
Notation W := (F64s sm).
Notation sh := (@shifted 53 1024).
Let Hp : (0 < 53)%Z := p53.
Let Hm : (53 < 1024)%Z := e1024.

(** *** The particle of least potential *)
Lemma argmin_shift k (l l' : list W) : Forall2 (sh k) l l' -> forall (x y : W) bi i, sh k x y ->
  argmin_from (N:=W) y bi i l' = argmin_from (N:=W) x bi i l.
Proof.
  induction 1 as [|a b l l' H F IH]; intros x y bi i Hx; [reflexivity|]. cbn [argmin_from].
  rewrite (sh_isnan (sm:=sm) _ _ _ Hx), (sh_isnan (sm:=sm) _ _ _ H), (sh_lt (sm:=sm) _ _ _ _ _ H Hx).
  destruct (nisnan (N:=W) x); [reflexivity|]. destruct (_ || _); now apply IH.
Qed.
Lemma pd_argmin_shift k (l l' : list W) : Forall2 (sh k) l l' -> pd_argmin (N:=W) l' = pd_argmin (N:=W) l.
Proof.
  intros F. unfold pd_argmin.
  assert (E : forallb (nisnan (N:=W)) l' = forallb (nisnan (N:=W)) l).
  { clear - F. induction F as [|a b l l' H F IH]; [reflexivity|]. cbn [forallb]. now rewrite (sh_isnan (sm:=sm) _ _ _ H), IH. }
  assert (G : Forall2 (sh k) (map (fun x : W => if nisnan x then npinf else x) l) (map (fun x : W => if nisnan x then npinf else x) l')).
  { apply Forall2_map'. eapply Forall2_impl_In; [|exact F]. intros x y _ _ H. cbv beta. rewrite (sh_isnan (sm:=sm) _ _ _ H).
    destruct (nisnan (N:=W) x); [left; split; reflexivity|exact H]. }
  assert (EL : length l' = length l) by (symmetry; exact (Forall2_length' _ _ _ F)).
  rewrite E, EL. revert G.
  generalize (map (fun x : W => if nisnan x then npinf else x) l) (map (fun x : W => if nisnan x then npinf else x) l').
  intros u w G. destruct G as [|a b r r' H R]; [reflexivity|].
  cbn [np_argmin]. now rewrite (argmin_shift k r r' R a b 0 1 H).
Qed.

Section Units.
Context (a b : Z).
Notation rel p q := (Forall2 (sh a) (p_x p) (p_x q) /\ Forall2 (sh a) (p_y p) (p_y q) /\ Forall2 (sh a) (p_z p) (p_z q) /\
     Forall2 (sh b) (p_vx p) (p_vx q) /\ Forall2 (sh b) (p_vy p) (p_vy q) /\ Forall2 (sh b) (p_vz p) (p_vz q) /\
     match p_pot p, p_pot q with
     | Some l, Some l' => Forall2 (sh (2 * b)) l l'
     | None, None => True
     | _, _ => False
     end).
Notation small n p := (Forall (within2 n) (p_x p) /\ Forall (within2 n) (p_y p) /\ Forall (within2 n) (p_z p) /\
     Forall (within2 n) (p_vx p) /\ Forall (within2 n) (p_vy p) /\ Forall (within2 n) (p_vz p) /\
     match p_pot p with Some l => Forall (within2 (2 * n)) l | None => True end).
Lemma sets3 (R : pset W -> pset W -> Prop) (g g' : galaxy W) :
  Forall2 R (sets g) (sets g') <-> R (g_stars g) (g_stars g') /\ R (g_dm g) (g_dm g') /\ R (g_gas g) (g_gas g').
Proof.
  unfold sets. split.
  - intros F. inversion F as [|? ? ? ? Fs F1]; subst. inversion F1 as [|? ? ? ? Fd F2]; subst. inversion F2; subst. auto.
  - intros (? & ? & ?). apply Forall2_cons; [assumption|]. apply Forall2_cons; [assumption|]. apply Forall2_cons; [assumption|]. constructor.
Qed.
Lemma sets3' (R : pset W -> Prop) (g : galaxy W) : Forall R (sets g) <-> R (g_stars g) /\ R (g_dm g) /\ R (g_gas g).
Proof.
  unfold sets. split.
  - intros F. inversion F as [|? ? Fs F1]; subst. inversion F1 as [|? ? Fd F2]; subst. inversion F2; subst. auto.
  - intros (? & ? & ?). auto.
Qed.
Lemma pots_shift (g g' : galaxy W) : gal_ok g -> gal_ok g' -> in_units a b g g' -> g_haspot g' = g_haspot g /\
  (g_haspot g = true -> Forall2 (sh (2 * b)) (gpot g) (gpot g')).
Proof.
  intros Hg Hg' F. apply gal_ok_facts in Hg as [s1 d1 g1 _ _ _ h1 h2 h3]. apply gal_ok_facts in Hg' as [s2 d2 g2 _ _ _ k1 k2 k3].
  rewrite (pset_ok_haspot _ s1) in h1. rewrite (pset_ok_haspot _ d1) in h2. rewrite (pset_ok_haspot _ g1) in h3.
  rewrite (pset_ok_haspot _ s2) in k1. rewrite (pset_ok_haspot _ d2) in k2. rewrite (pset_ok_haspot _ g2) in k3.
  apply sets3 in F as (Fs & Fd & Fg). unfold gpot, gcol. rewrite !to_numpy_app, !pcol_num_pot.
  destruct Fs as (_ & _ & _ & _ & _ & _ & Fs). destruct Fd as (_ & _ & _ & _ & _ & _ & Fd). destruct Fg as (_ & _ & _ & _ & _ & _ & Fg).
  destruct (p_pot (g_stars g)), (p_pot (g_stars g')); try contradiction; split; try congruence; intros Hh; try congruence.
  destruct (p_pot (g_dm g)), (p_pot (g_dm g')); try contradiction; try congruence.
  destruct (p_pot (g_gas g)), (p_pot (g_gas g')); try contradiction; try congruence.
  repeat apply Forall2_app; assumption.
Qed.
Lemma nth_shift k (l l' : list W) i x : Forall2 (sh k) l l' -> nth_error l i = Some x -> exists y, nth_error l' i = Some y /\ sh k x y.
Proof.
  intros F. revert i. induction F as [|u w l l' H F IH]; intros [|i]; cbn [nth_error]; intros E; try discriminate.
  - injection E as <-. eauto.
  - now apply IH.
Qed.
Lemma nth_small n (l : list W) i x : Forall (within2 n) l -> nth_error l i = Some x -> within2 n x.
Proof. intros F E. eapply Forall_forall in F; [exact F|]. eapply nth_error_In; eauto. Qed.

Lemma sub_shift n (l l' : list W) (x y : W) : (0 <= n)%Z -> (n + Z.abs a <= 1000)%Z -> Forall2 (sh a) l l' -> sh a x y -> Forall (within2 n) l -> within2 n x ->
  Forall2 (sh a) (map (fun v : W => (v - x)%num) l) (map (fun v : W => (v - y)%num) l') /\
  Forall (within2 (n + 1)) (map (fun v : W => (v - x)%num) l).
Proof.
  intros H0 Hn F H G Gx.
  assert (S : forall u w : W, sh a u w -> within2 n u -> sh a (u - x)%num (w - y)%num /\ grid n (n + 1) (u - x)%num).
  { intros u w Hu Gu. exact (sh_sub Hp Hm a n n _ _ _ _ ltac:(lia) ltac:(lia) ltac:(lia) ltac:(lia) ltac:(lia) Hu H Gu Gx). }
  split.
  - apply Forall2_map'. eapply Forall2_impl_In; [|exact F]. intros u w Iu _ Hu. apply S; [exact Hu|]. eapply Forall_forall in G; eauto.
  - clear -F G S. induction F as [|u w l l' Hu F IH]; [constructor|]. inversion G; subst. cbn [map]. constructor; [|now apply IH].
    intros Fi. eapply (grid_weak n (n + 1)); [apply (S u w); assumption|lia|lia|exact Fi].
Qed.
Lemma weak_small n n' (l : list W) : (n <= n')%Z -> Forall (within2 n) l -> Forall (within2 n') l.
Proof. intros H. apply Forall_impl. intros x G. now apply (grid_weak n n n' n'). Qed.

Lemma center_shift n (g g' : galaxy W) : gal_ok g -> gal_ok g' -> (0 <= n)%Z -> (n + Z.abs a <= 1000)%Z ->
  in_units a b g g' -> tame n g ->
  both (fun h h' => in_units a b h h' /\ tame (n + 1) h /\ gal_ok h /\ gal_ok h' /\
      map (@p_m W) (sets h) = map (@p_m W) (sets g) /\ map (@p_m W) (sets h') = map (@p_m W) (sets g')) (center g) (center g').
Proof.
  intros Hg Hg' H0 Hn F T. destruct (pots_shift g g' Hg Hg' F) as [Eh Fp].
  destruct (g_haspot g) eqn:Hh.
  2:{ unfold center. rewrite Hh, Eh. reflexivity. }
  specialize (Fp eq_refl). pose proof (pd_argmin_shift _ _ _ Fp) as Ea.
  pose proof (gxyz_length g Hg) as (_ & _ & _ & L). pose proof (gxyz_length g' Hg') as (_ & _ & _ & L').
  assert (LL : length (gpot g) = length (gpot g')) by (exact (Forall2_length' _ _ _ Fp)).
  destruct (Nat.eq_dec (glen g) 0) as [Z|Z].
  { rewrite (center_empty g Hg Hh Z), (center_empty g' Hg' Eh) by congruence. reflexivity. }
  destruct (center_total g Hg Hh) as (i & x0 & y0 & z0 & Hi & _ & Hx & Hy & Hz & Hc); [lia|].
  unfold in_units in F. apply sets3 in F as (Fs & Fd & Fg). unfold tame in T. apply sets3' in T as (Ts & Td & Tg).
  destruct Fs as (Sx & Sy & Sz & Svx & Svy & Svz & Sp), Fd as (Dx & Dy & Dz & Dvx & Dvy & Dvz & Dp), Fg as (Gx & Gy & Gz & Gvx & Gvy & Gvz & Gp).
  destruct Ts as (Tx & Ty & Tz & Tvx & Tvy & Tvz & Tp), Td as (Ux & Uy & Uz & Uvx & Uvy & Uvz & Up), Tg as (Vx & Vy & Vz & Vvx & Vvy & Vvz & Vp).
  assert (X : Forall2 (sh a) (gx g) (gx g')) by (repeat apply Forall2_app; assumption).
  assert (Y : Forall2 (sh a) (gy g) (gy g')) by (repeat apply Forall2_app; assumption).
  assert (Z' : Forall2 (sh a) (gz g) (gz g')) by (repeat apply Forall2_app; assumption).
  assert (GX : within2 n x0) by (eapply nth_small; [|exact Hx]; unfold gx; rewrite !Forall_app; auto).
  assert (GY : within2 n y0) by (eapply nth_small; [|exact Hy]; unfold gy; rewrite !Forall_app; auto).
  assert (GZ : within2 n z0) by (eapply nth_small; [|exact Hz]; unfold gz; rewrite !Forall_app; auto).
  destruct (nth_shift _ _ _ _ _ X Hx) as (x1 & Hx1 & Rx). destruct (nth_shift _ _ _ _ _ Y Hy) as (y1 & Hy1 & Ry).
  destruct (nth_shift _ _ _ _ _ Z' Hz) as (z1 & Hz1 & Rz).
  rewrite Hc, (center_eq g' i x1 y1 z1 Hg' Eh) by (assumption || congruence). cbn [both].
  assert (O : forall (u : galaxy W) x y z, gal_ok u -> gal_ok (shift_gal x y z u)).
  { intros u x y z Hu. pose proof (isSome_pots u Hu) as (Is & Id & Ig). apply gal_ok_facts in Hu as [u1 u2 u3 u4 u5 u6 u7 u8 u9].
    apply gal_ok_facts. constructor; cbn [g_stars g_dm g_gas g_haspot shift_gal shift p_type pset_of p_haspot]; auto;
    apply pset_ok_iff; (split; [|reflexivity]);
    [pose proof (pset_ok_lens _ u1) as (A & B & C & D & E & F & G)|pose proof (pset_ok_lens _ u2) as (A & B & C & D & E & F & G)|
     pose proof (pset_ok_lens _ u3) as (A & B & C & D & E & F & G)]; repeat split; cbn; rewrite ?map_length; auto. }
  split; [|split; [|split; [now apply O|split; [now apply O|split; reflexivity]]]].
  - apply sets3. cbn [shift_gal g_stars g_dm g_gas]. unfold shift. cbn [p_x p_y p_z p_vx p_vy p_vz p_pot pset_of].
    split; [|split]; repeat (split; [first [assumption|eapply (sub_shift n); eassumption]|]); assumption.
  - apply sets3'. cbn [shift_gal g_stars g_dm g_gas]. unfold shift. cbn [p_x p_y p_z p_vx p_vy p_vz p_pot pset_of].
    assert (Hw : (n <= n + 1)%Z) by lia. assert (Hw2 : (2 * n <= 2 * (n + 1))%Z) by lia.
    split; [|split].
    + do 6 (split; [first [now apply (weak_small n)|eapply (sub_shift n); eassumption]|]). destruct (p_pot (g_stars g)); [now apply (weak_small (2 * n))|exact I].
    + do 6 (split; [first [now apply (weak_small n)|eapply (sub_shift n); eassumption]|]). destruct (p_pot (g_dm g)); [now apply (weak_small (2 * n))|exact I].
    + do 6 (split; [first [now apply (weak_small n)|eapply (sub_shift n); eassumption]|]). destruct (p_pot (g_gas g)); [now apply (weak_small (2 * n))|exact I].
Qed.

(** *** The alignment *)
Context (c : Z) (Ha : (Z.abs a <= 30)%Z) (Hb : (Z.abs b <= 30)%Z) (Hc : (Z.abs c <= 30)%Z).

(** Products of masses and angular momenta. *)
Lemma cross61 (x y x' y' z w z' w' : W) : sh a x x' -> sh b y y' -> sh a z z' -> sh b w w' ->
  within2 61 x -> within2 61 y -> within2 61 z -> within2 61 w ->
  sh (a + b) (crossc (N:=W) x y z w) (crossc (N:=W) x' y' z' w') /\ grid 122 123 (crossc (N:=W) x y z w).
Proof.
  intros Sx Sy Sz Sw Gx Gy Gz Gw. unfold crossc.
  destruct (sh_mul Hp Hm a b 61 61 61 61 x x' y y' ltac:(lia) ltac:(lia) ltac:(lia) ltac:(lia) Sx Sy Gx Gy) as [S1 G1].
  destruct (sh_mul Hp Hm a b 61 61 61 61 z z' w w' ltac:(lia) ltac:(lia) ltac:(lia) ltac:(lia) Sz Sw Gz Gw) as [S2 G2].
  exact (sh_sub Hp Hm (a + b) 122 122 _ _ _ _ ltac:(lia) ltac:(lia) ltac:(lia) ltac:(lia) ltac:(lia) S1 S2 G1 G2).
Qed.
Definition jrel (u w : W) : Prop := sh (a + b) u w /\ grid 122 123 u.
Definition mjrel (u w : W) : Prop := sh (a + b + c) u w /\ grid 183 184 u.
Lemma J_shift (p q : pset W) : pset_ok p -> pset_ok q -> rel p q -> small 61 p ->
  Forall2 jrel (p_Jx p) (p_Jx q) /\ Forall2 jrel (p_Jy p) (p_Jy q) /\ Forall2 jrel (p_Jz p) (p_Jz q).
Proof.
  intros Op Oq (Fx & Fy & Fz & Fvx & Fvy & Fvz & _) (Gx & Gy & Gz & Gvx & Gvy & Gvz & _). repeat split.
  - rewrite (pset_ok_Jx _ Op), (pset_ok_Jx _ Oq). apply (map4_rel (sh a) (sh b) (within2 61)); auto. intros. now apply cross61.
  - rewrite (pset_ok_Jy _ Op), (pset_ok_Jy _ Oq). apply (map4_rel (sh a) (sh b) (within2 61)); auto. intros. now apply cross61.
  - rewrite (pset_ok_Jz _ Op), (pset_ok_Jz _ Oq). apply (map4_rel (sh a) (sh b) (within2 61)); auto. intros. now apply cross61.
Qed.
Lemma mJ_shift (m m' J J' : list W) : Forall2 (sh c) m m' -> Forall (within2 61) m -> Forall2 jrel J J' ->
  Forall2 mjrel (map2 (nmul (N:=W)) m J) (map2 (nmul (N:=W)) m' J').
Proof.
  intros Fm Gm FJ.
  assert (F' : Forall2 (fun u w : W => sh c u w /\ within2 61 u) m m').
  { clear - Fm Gm. induction Fm as [|u w m m' H F IH]; [constructor|]. inversion Gm; subst. apply Forall2_cons; auto. }
  apply (map2_rel (fun u w : W => sh c u w /\ within2 61 u) jrel (fun _ => True)); auto using Forall_True.
  intros x y x' y' [S1 G1] [S2 G2] _.
  destruct (sh_mul Hp Hm c (a + b) 61 122 61 123 _ _ _ _ ltac:(lia) ltac:(lia) ltac:(lia) ltac:(lia) S1 S2 G1 G2) as [S3 G3].
  unfold mjrel. replace (a + b + c)%Z with (c + (a + b))%Z by lia. split; [exact S3|exact G3].
Qed.
Lemma mask_rel {A B} (R : A -> B -> Prop) m l l' : Forall2 R l l' -> Forall2 R (bmask m l) (bmask m l').
Proof.
  intros F. revert m. induction F as [|x y l l' H F IH]; intros [|[|] m]; simpl; try constructor; auto.
Qed.
(** The cut-off radius, if there is one. *)
Definition cut_rel (r r' : option W) : Prop :=
  match r, r' with Some x, Some y => sh a x y | None, None => True | _, _ => False end.
Lemma cut_ok_shift r r' : cut_rel r r' -> cut_ok (N:=W) r' = cut_ok (N:=W) r.
Proof.
  destruct r as [x|], r' as [y|]; try contradiction; [|reflexivity]. intros H. unfold cut_ok, nle.
  pose proof (sh_cmp a _ _ _ _ H (sh_zero0 (sm:=sm) a)) as C0. change (ncmp (N:=W) y n0 = ncmp (N:=W) x n0) in C0. now rewrite C0.
Qed.
Lemma radius_shift (x y z x' y' z' : W) : sh a x x' -> sh a y y' -> sh a z z' -> within2 61 x -> within2 61 y -> within2 61 z ->
  sh a (radius (N:=W) x y z) (radius (N:=W) x' y' z').
Proof.
  intros Sx Sy Sz Gx Gy Gz. unfold radius.
  destruct (sh_mul Hp Hm a a 61 61 61 61 _ _ _ _ ltac:(lia) ltac:(lia) ltac:(lia) ltac:(lia) Sx Sx Gx Gx) as [S1 G1].
  destruct (sh_mul Hp Hm a a 61 61 61 61 _ _ _ _ ltac:(lia) ltac:(lia) ltac:(lia) ltac:(lia) Sy Sy Gy Gy) as [S2 G2].
  destruct (sh_mul Hp Hm a a 61 61 61 61 _ _ _ _ ltac:(lia) ltac:(lia) ltac:(lia) ltac:(lia) Sz Sz Gz Gz) as [S3 G3].
  destruct (sh_add Hp Hm (a + a) 122 122 _ _ _ _ ltac:(lia) ltac:(lia) ltac:(lia) ltac:(lia) ltac:(lia) S1 S2 G1 G2) as [S4 G4].
  destruct (sh_add Hp Hm (a + a) 122 123 _ _ _ _ ltac:(lia) ltac:(lia) ltac:(lia) ltac:(lia) ltac:(lia) S4 S3 G4
    (grid_weak _ _ 122 123 _ G3 ltac:(lia) ltac:(lia))) as [S5 G5].
  replace (a + a)%Z with (2 * a)%Z in S5 by lia.
  exact (sh_sqrt Hp Hm a 122 124 _ _ ltac:(lia) ltac:(lia) ltac:(lia) ltac:(lia) S5 G5).
Qed.
Lemma mask_shift (x y z x' y' z' : list W) r r' : cut_rel r r' -> Forall2 (sh a) x x' -> Forall2 (sh a) y y' -> Forall2 (sh a) z z' ->
  Forall (within2 61) x -> Forall (within2 61) y -> Forall (within2 61) z -> make_mask (N:=W) x' y' z' r' = make_mask (N:=W) x y z r.
Proof.
  intros Hr Fx Fy Fz Gx Gy Gz. unfold make_mask.
  assert (F : Forall2 (sh a) (map3 (radius (N:=W)) x y z) (map3 (radius (N:=W)) x' y' z')).
  { apply (map3_rel (sh a) (within2 61)); auto. intros. now apply radius_shift. }
  destruct r as [c1|], r' as [c2|]; try contradiction.
  - symmetry. apply Forall2_map_eq. eapply Forall2_impl_In; [|exact F]. intros u w _ _ Hu. symmetry. exact (sh_lt (sm:=sm) a u w c1 c2 Hu Hr).
  - symmetry. apply Forall2_map_eq. eapply Forall2_impl_In; [|exact F]. reflexivity.
Qed.
(** Total angular momentum. *)
Lemma sum_shift (l l' : list W) : fixed_order sm -> (Z.of_nat (length l) <= 2 ^ 38)%Z -> Forall2 mjrel l l' ->
  sh (a + b + c) (nsum l : W) (nsum l' : W) /\ grid 183 224 (nsum l : W).
Proof.
  intros [shape Hs] Hl F.
  assert (F1 : Forall2 (sh (a + b + c)) l l') by (eapply Forall2_impl_In; [|exact F]; intros u w _ _ []; assumption).
  assert (F2 : Forall (grid 183 184) l).
  { clear - F. induction F as [|u w l l' [_ H] F IH]; constructor; assumption. }
  assert (EL : length l' = length l) by (symmetry; exact (Forall2_length' _ _ _ F)).
  assert (E1 : (nsum l : W) = eval p53 e1024 (shape (length l)) l) by (exact (proj1 (Hs l))).
  assert (E2 : (nsum l' : W) = eval p53 e1024 (shape (length l)) l') by (rewrite <- EL; exact (proj1 (Hs l'))).
  rewrite E1, E2. clear E1 E2. assert (Hv : (leaves (shape (length l)) <= 2 * Z.of_nat (length l) + 8)%Z) by (exact (proj2 (Hs l))).
  assert (Hv' : (leaves (shape (length l)) <= 2 ^ 40)%Z).
  { eapply Z.le_trans; [exact Hv|]. change (2 ^ 40)%Z with (4 * 2 ^ 38)%Z. change (2 ^ 38)%Z with 274877906944%Z in *.
    clear - Hl. lia. }
  destruct (eval_shift Hp Hm (a + b + c) 183 184 40 _ ltac:(lia) ltac:(lia) ltac:(lia) ltac:(lia) ltac:(lia) ltac:(lia) Hv' l l' F1 F2) as [S G].
  split; [exact S|]. intros Fi. exact (gridB_grid 183 184 _ 40 _ ltac:(lia) Hv' (G Fi)).
Qed.
(** The matrix: the same, with entries that are not tiny. *)
Definition entries (P : W -> Prop) (A : mat3 W) : Prop :=
  P (a11 A) /\ P (a12 A) /\ P (a13 A) /\ P (a21 A) /\ P (a22 A) /\ P (a23 A) /\ P (a31 A) /\ P (a32 A) /\ P (a33 A).
Lemma rot_shift (x y z x' y' z' : W) : sh (a + b + c) x x' -> sh (a + b + c) y y' -> sh (a + b + c) z z' ->
  grid 183 224 x -> grid 183 224 y -> grid 183 224 z ->
  rot_of (N:=W) x' y' z' = rot_of (N:=W) x y z /\ entries (grid 870 922) (rot_of (N:=W) x y z).
Proof.
  intros Sx Sy Sz Gx Gy Gz. set (k := (a + b + c)%Z) in *. assert (Hk : (Z.abs k <= 90)%Z) by lia. clearbody k.
  assert (M : forall u u' w w' : W, sh k u u' -> sh k w w' -> grid 183 225 u -> grid 183 225 w -> sh (2 * k) (u * w)%num (u' * w')%num /\ grid 366 450 (u * w)%num).
  { intros u u' w w' Su Sw Gu Gw.
    destruct (sh_mul Hp Hm k k 183 183 225 225 _ _ _ _ ltac:(lia) ltac:(lia) ltac:(lia) ltac:(lia) Su Sw Gu Gw) as [S G].
    replace (2 * k)%Z with (k + k)%Z by lia. split; [exact S|exact G]. }
  assert (M4 : forall u u' w w' : W, sh k u u' -> sh k w w' -> grid 183 224 u -> grid 183 224 w -> sh (2 * k) (u * w)%num (u' * w')%num /\ grid 366 448 (u * w)%num).
  { intros u u' w w' Su Sw Gu Gw.
    destruct (sh_mul Hp Hm k k 183 183 224 224 _ _ _ _ ltac:(lia) ltac:(lia) ltac:(lia) ltac:(lia) Su Sw Gu Gw) as [S G].
    replace (2 * k)%Z with (k + k)%Z by lia. split; [exact S|exact G]. }
  destruct (M4 _ _ _ _ Sx Sx Gx Gx) as [Sxx Gxx]. destruct (M4 _ _ _ _ Sy Sy Gy Gy) as [Syy Gyy]. destruct (M4 _ _ _ _ Sz Sz Gz Gz) as [Szz Gzz].
  destruct (M4 _ _ _ _ Sx Sz Gx Gz) as [Sxz Gxz]. destruct (M4 _ _ _ _ Sy Sz Gy Gz) as [Syz Gyz].
  destruct (sh_add Hp Hm (2 * k) 366 448 _ _ _ _ ltac:(lia) ltac:(lia) ltac:(lia) ltac:(lia) ltac:(lia) Sxx Syy Gxx Gyy) as [Sp Gp].
  destruct (sh_add Hp Hm (2 * k) 366 449 _ _ _ _ ltac:(lia) ltac:(lia) ltac:(lia) ltac:(lia) ltac:(lia) Sp Szz Gp
    (grid_weak _ _ 366 449 _ Gzz ltac:(lia) ltac:(lia))) as [Sr Gr].
  pose proof (sh_sqrt Hp Hm k 366 449 _ _ ltac:(lia) ltac:(lia) ltac:(lia) ltac:(lia) Sp Gp) as SP.
  pose proof (sh_sqrt Hp Hm k 366 450 _ _ ltac:(lia) ltac:(lia) ltac:(lia) ltac:(lia) Sr Gr) as SR.
  pose proof (grid_sqrt Hp Hm 183 225 _ ltac:(lia) ltac:(lia) ltac:(lia) (grid_weak _ _ (2 * 183) (2 * 225) _ Gp ltac:(lia) ltac:(lia))) as GP.
  pose proof (grid_sqrt Hp Hm 183 225 _ ltac:(lia) ltac:(lia) ltac:(lia) (grid_weak _ _ (2 * 183) (2 * 225) _ Gr ltac:(lia) ltac:(lia))) as GR.
  change (183 + 53)%Z with 236%Z in GP, GR.
  destruct (sh_mul Hp Hm k k 236 236 225 225 _ _ _ _ ltac:(lia) ltac:(lia) ltac:(lia) ltac:(lia) SP SR GP GR) as [SPR GPR].
  replace (k + k)%Z with (2 * k)%Z in SPR by lia. change (236 + 236)%Z with 472%Z in GPR. change (225 + 225)%Z with 450%Z in GPR.
  pose proof (sh_opp _ _ _ Sx) as SO. pose proof (sh_opp _ _ _ SP) as SOP.
  split.
  - unfold rot_of. f_equal; first [reflexivity|exact (sh_div Hp Hm _ _ _ _ _ Sy SP)|exact (sh_div Hp Hm _ _ _ _ _ SO SP)|exact (sh_div Hp Hm _ _ _ _ _ Sxz SPR)|
      exact (sh_div Hp Hm _ _ _ _ _ Syz SPR)|exact (sh_div Hp Hm _ _ _ _ _ SOP SR)|exact (sh_div Hp Hm _ _ _ _ _ Sx SR)|
      exact (sh_div Hp Hm _ _ _ _ _ Sy SR)|exact (sh_div Hp Hm _ _ _ _ _ Sz SR)].
  - assert (Q : forall n u (v w : W), (n <= 236)%Z -> (u <= 226)%Z -> (0 <= n)%Z -> (0 <= u)%Z -> grid n u v -> grid 236 225 w -> grid 870 922 (v / w)%num).
    { intros n u v w Hn Hu Hn0 Hu0 Gv Gw. eapply (grid_weak (n + 225 + 53) (u + 236)); [|lia|lia].
      exact (grid_div Hp Hm n u 236 225 v w ltac:(lia) ltac:(lia) Gv Gw). }
    assert (Q2 : forall v w : W, grid 366 448 v -> grid 472 450 w -> grid 870 922 (v / w)%num).
    { intros v w Gv Gw. eapply (grid_weak (366 + 450 + 53) (448 + 472)); [|lia|lia].
      exact (grid_div Hp Hm 366 448 472 450 v w ltac:(lia) ltac:(lia) Gv Gw). }
    unfold entries, rot_of. cbn [a11 a12 a13 a21 a22 a23 a31 a32 a33].
    assert (GO : grid 183 224 (nopp x : W)) by (exact (grid_opp _ _ _ Gx)).
    assert (GOP := grid_opp _ _ _ GP).
    assert (GZ0 : grid 870 922 (n0 : W)) by (exact (grid_zero 870 922 false)).
    assert (q3 : forall v w : W, grid 183 224 v -> grid 236 225 w -> grid 870 922 (v / w)%num) by (intros v w; apply Q; lia).
    split; [apply q3; assumption|]. split; [apply q3; assumption|]. split; [exact GZ0|].
    split; [apply Q2; assumption|]. split; [apply Q2; assumption|].
    split; [apply (Q 236%Z 225%Z); [lia|lia|lia|lia|exact GOP|exact GR]|]. split; [apply q3; assumption|]. split; [apply q3; assumption|apply q3; assumption].
Qed.
Lemma dot_shift k (e1 e2 e3 x y z x' y' z' : W) : (Z.abs k <= 30)%Z -> grid 870 922 e1 -> grid 870 922 e2 -> grid 870 922 e3 ->
  sh k x x' -> sh k y y' -> sh k z z' -> within2 61 x -> within2 61 y -> within2 61 z ->
  sh k (dot3 (N:=W) e1 e2 e3 x y z) (dot3 (N:=W) e1 e2 e3 x' y' z').
Proof.
  intros Hk G1 G2 G3 Sx Sy Sz Gx Gy Gz. unfold dot3.
  destruct (sh_mul Hp Hm 0 k 870 61 922 61 _ _ _ _ ltac:(lia) ltac:(lia) ltac:(lia) ltac:(lia) (sh_refl e1) Sx G1 Gx) as [S1 H1].
  destruct (sh_mul Hp Hm 0 k 870 61 922 61 _ _ _ _ ltac:(lia) ltac:(lia) ltac:(lia) ltac:(lia) (sh_refl e2) Sy G2 Gy) as [S2 H2].
  destruct (sh_mul Hp Hm 0 k 870 61 922 61 _ _ _ _ ltac:(lia) ltac:(lia) ltac:(lia) ltac:(lia) (sh_refl e3) Sz G3 Gz) as [S3 H3].
  change (0 + k)%Z with k in *. change (870 + 61)%Z with 931%Z in *. change (922 + 61)%Z with 983%Z in *.
  destruct (sh_add Hp Hm k 931 983 _ _ _ _ ltac:(lia) ltac:(lia) ltac:(lia) ltac:(lia) ltac:(lia) S1 S2 H1 H2) as [S4 H4].
  exact (proj1 (sh_add Hp Hm k 931 984 _ _ _ _ ltac:(lia) ltac:(lia) ltac:(lia) ltac:(lia) ltac:(lia) S4 S3 H4
    (grid_weak _ _ 931 984 _ H3 ltac:(lia) ltac:(lia)))).
Qed.
Lemma rot_set_shift A (p q : pset W) : entries (grid 870 922) A -> rel p q -> small 61 p -> rel (rot_set A p) (rot_set A q).
Proof.
  intros (E1 & E2 & E3 & E4 & E5 & E6 & E7 & E8 & E9) (Fx & Fy & Fz & Fvx & Fvy & Fvz & Fp) (Gx & Gy & Gz & Gvx & Gvy & Gvz & _).
  unfold rot_set. cbn [p_x p_y p_z p_vx p_vy p_vz p_pot pset_of].
  split; [|split; [|split; [|split; [|split; [|split; [|exact Fp]]]]]];
    first [apply (map3_rel (sh a) (within2 61)); auto; intros; apply (dot_shift a); assumption|
           apply (map3_rel (sh b) (within2 61)); auto; intros; apply (dot_shift b); assumption].
Qed.
Lemma align_shift (g g' : galaxy W) r r' : gal_ok g -> gal_ok g' -> fixed_order sm -> cut_rel r r' ->
  (Z.of_nat (plen (g_stars g)) <= 2 ^ 38)%Z ->
  in_units a b g g' -> tame 61 g -> Forall2 (sh c) (p_m (g_stars g)) (p_m (g_stars g')) -> Forall (within2 61) (p_m (g_stars g)) ->
  both (fun h h' => in_units a b h h' /\ gal_ok h /\ gal_ok h') (star_align g r) (star_align g' r').
Proof.
  intros Hg Hg' Ho Hr Hl F T Fm Gm. rewrite !star_align_eq by assumption. rewrite (cut_ok_shift _ _ Hr).
  destruct (cut_ok (N:=W) r); [|reflexivity]. cbn [both].
  apply sets3 in F as (Fs & Fd & Fg). apply sets3' in T as (Ts & Td & Tg).
  pose proof Hg as Og. apply gal_ok_facts in Og as [Os _ _ _ _ _ _ _ _]. pose proof Hg' as Og'. apply gal_ok_facts in Og' as [Os' _ _ _ _ _ _ _ _].
  destruct (J_shift _ _ Os Os' Fs Ts) as (JX & JY & JZ).
  assert (M : gal_matrix g' r' = gal_matrix g r /\ entries (grid 870 922) (gal_matrix g r)).
  { unfold gal_matrix, get_rot_matrix. destruct Fs as (Fx & Fy & Fz & _). destruct Ts as (Gx & Gy & Gz & _).
    rewrite (mask_shift _ _ _ _ _ _ r r' Hr Fx Fy Fz Gx Gy Gz). set (mask := make_mask (N:=W) _ _ _ _).
    pose proof (pset_ok_lens _ Os) as LM.
    assert (LB : forall (J : list W), (Z.of_nat (length (bmask mask (map2 (nmul (N:=W)) (p_m (g_stars g)) J))) <= 2 ^ 38)%Z).
    { intros J. assert (B : forall (m : list bool) (l : list W), (length (bmask m l) <= length l)%nat).
      { induction m as [|[|] m IH]; intros [|u l]; cbn [bmask length]; try lia; specialize (IH l); cbn [car F64s BNum] in *; lia. }
      specialize (B mask (map2 (nmul (N:=W)) (p_m (g_stars g)) J)).
      pose proof (map2_length (nmul (N:=W)) (p_m (g_stars g)) J) as E. rewrite E in B.
      assert (LP : length (p_m (g_stars g)) = plen (g_stars g)) by reflexivity.
      rewrite LP in B. clear - B Hl. lia. }
    destruct (sum_shift _ _ Ho (LB _) (mask_rel _ mask _ _ (mJ_shift _ _ _ _ Fm Gm JX))) as [S1 G1].
    destruct (sum_shift _ _ Ho (LB _) (mask_rel _ mask _ _ (mJ_shift _ _ _ _ Fm Gm JY))) as [S2 G2].
    destruct (sum_shift _ _ Ho (LB _) (mask_rel _ mask _ _ (mJ_shift _ _ _ _ Fm Gm JZ))) as [S3 G3].
    exact (rot_shift _ _ _ _ _ _ S1 S2 S3 G1 G2 G3). }
  destruct M as [EM GM]. rewrite EM.
  split; [|split; apply rot_gal_ok; assumption].
  apply sets3. cbn [rot_gal g_stars g_dm g_gas]. split; [|split]; apply rot_set_shift; assumption.
Qed.
End Units.
End Chain.
