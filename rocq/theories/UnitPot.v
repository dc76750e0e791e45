(** Potentials of a galaxy in units changed by powers of two. *)
From Flocq Require Import Core BinarySingleNaN.
From Coq Require Import Reals Lra Lia ZArith.
From Verif Require Import Py Num RX F64 Np Df Data DataFacts DfFacts RebuildFacts Center CenterFacts Align Spec SpecR SpecPot DataThms CenterThms AlignFacts Potential PotConcFacts PotFacts SymFacts SpecShift SpecUnitPot ShiftFacts ShiftDiv UnitFacts UnitChain.

Section Pot32.
Context {sm : list f32 -> f32}.
Notation S := (F32s sm).
Notation sh := (@shifted 24 128).
Let Hp : (0 < 24)%Z := p24.
Let Hm : (24 < 128)%Z := e128.
(** A relation with the range of the first number. *)
Definition rel (k n u : Z) (x y : S) : Prop := sh k x y /\ grid n u (x : f32).

Lemma rel_sub k n u (x y x' y' : S) : (n <= 126)%Z -> (n - k <= 126)%Z -> (- n <= u)%Z -> (u + 1 < 128)%Z -> (u + 1 + k < 128)%Z ->
  rel k n u x y -> rel k n u x' y' -> rel k n (u + 1) (x - x')%num (y - y')%num.
Proof. intros H1 H2 H3 H4 H5 [A A'] [B B']. apply (sh_sub Hp Hm k n u); auto. Qed.
Lemma rel_add k n u (x y x' y' : S) : (n <= 126)%Z -> (n - k <= 126)%Z -> (- n <= u)%Z -> (u + 1 < 128)%Z -> (u + 1 + k < 128)%Z ->
  rel k n u x y -> rel k n u x' y' -> rel k n (u + 1) (x + x')%num (y + y')%num.
Proof. intros H1 H2 H3 H4 H5 [A A'] [B B']. apply (sh_add Hp Hm k n u); auto. Qed.
Lemma rel_mul k k' n n' u u' (x y x' y' : S) :
  (n + n' <= 126)%Z -> (n + n' - (k + k') <= 126)%Z -> (- (n + n') <= u + u' < 128)%Z -> (u + u' + (k + k') < 128)%Z ->
  rel k n u x y -> rel k' n' u' x' y' -> rel (k + k') (n + n') (u + u') (x * x')%num (y * y')%num.
Proof. intros H1 H2 H3 H4 [A A'] [B B']. apply (sh_mul Hp Hm k k' n n' u u'); auto. Qed.
Lemma rel_weak k n u n' u' x y : (n <= n')%Z -> (u <= u')%Z -> rel k n u x y -> rel k n' u' x y.
Proof. intros H1 H2 [A B]. split; [exact A|]. now apply (grid_weak n u). Qed.

(** Sums. *)
Definition ltr (n : nat) : tree := fold_left (fun t i => Node t (Leaf i)) (seq 0 n) Zero.
Lemma ltr_eval (l : list f32) : fold_left (@Bplus 24 128 p24 e128 mode_NE) l (B754_zero false) = eval p24 e128 (ltr (length l)) l.
Proof.
  assert (Q : forall s k pre t, length pre = k ->
      fold_left (@Bplus 24 128 p24 e128 mode_NE) s (eval p24 e128 t (pre ++ s)) =
      eval p24 e128 (fold_left (fun t i => Node t (Leaf i)) (seq k (length s)) t) (pre ++ s)).
  { induction s as [|x s IH]; intros k pre t Hk; [reflexivity|].
    cbn [fold_left length seq]. specialize (IH (Datatypes.S k) (pre ++ [x]) (Node t (Leaf k))).
    rewrite <- app_assoc in IH. cbn [app] in IH. rewrite <- IH by (rewrite app_length; cbn; lia). f_equal.
    cbn [eval]. rewrite app_nth2 by lia. replace (k - length pre)%nat with 0%nat by lia. reflexivity. }
  exact (Q l 0%nat [] Zero eq_refl).
Qed.
Lemma ltr_leaves n : leaves (ltr n) = (1 + Z.of_nat n)%Z.
Proof.
  assert (Q : forall n k t, leaves (fold_left (fun t i => Node t (Leaf i)) (seq k n) t) = (leaves t + Z.of_nat n)%Z).
  { clear n. induction n as [|n IH]; intros k t; cbn [seq fold_left]; [cbn; lia|]. rewrite IH. cbn [leaves]. lia. }
  unfold ltr. rewrite Q. reflexivity.
Qed.

Section Units.
Context (a c : Z) (Ha : (Z.abs a <= 10)%Z) (Hc : (Z.abs (c - a) <= 20)%Z) (G : S) (HG : sized 18 0 (G : f32)).

Definition brel (b b' : body S) : Prop :=
  rel a 39 20 (b_x b) (b_x b') /\ rel a 39 20 (b_y b) (b_y b') /\ rel a 39 20 (b_z b) (b_z b') /\
  sh c (b_m b) (b_m b') /\ sized 10 40 (b_m b : f32).

(** Distances. *)
Lemma dist_rel (x y z x' y' z' s s' : S) :
  rel a 39 21 x x' -> rel a 39 21 y y' -> rel a 39 21 z z' -> rel (a + a) 78 40 s s' ->
  sh a (nsqrt ((((x * x) + (y * y)) + (z * z)) + s)%num) (nsqrt ((((x' * x') + (y' * y')) + (z' * z')) + s')%num) /\
  sized 39 23 (nsqrt ((((x * x) + (y * y)) + (z * z)) + s)%num : f32).
Proof.
  intros Hx Hy Hz Hs.
  assert (Q : forall x x' : S, rel a 39 21 x x' -> rel (a + a) 78 42 (x * x)%num (x' * x')%num).
  { intros u v H. apply (rel_mul a a 39 39 21 21); auto; lia. }
  assert (A1 : rel (a + a) 78 43 (x * x + y * y)%num (x' * x' + y' * y')%num) by (apply (rel_add (a + a) 78 42); auto; lia).
  assert (A2 : rel (a + a) 78 44 (x * x + y * y + z * z)%num (x' * x' + y' * y' + z' * z')%num).
  { apply (rel_add (a + a) 78 43); try lia; [exact A1|]. apply (rel_weak _ 78 42); auto; lia. }
  assert (A3 : rel (a + a) 78 45 (x * x + y * y + z * z + s)%num (x' * x' + y' * y' + z' * z' + s')%num).
  { apply (rel_add (a + a) 78 44); try lia; [exact A2|]. apply (rel_weak _ 78 40); auto; lia. }
  destruct A3 as [S3 G3]. split.
  - apply (sh_sqrt Hp Hm a 78 45); try lia; [|exact G3]. replace (2 * a)%Z with (a + a)%Z by lia. exact S3.
  - apply (sized_sqrt Hp Hm 39 23); try lia. apply grid_sized. apply (grid_weak 78 45); auto; lia.
Qed.
Lemma term_rel (m m' d d' : S) : sh c m m' -> sized 10 40 (m : f32) -> sh a d d' -> sized 39 23 (d : f32) ->
  rel (c - a) 56 79 (m / d)%num (m' / d')%num.
Proof.
  intros H1 H2 H3 H4.
  destruct (sh_divk Hp Hm c a 10 40 39 23 m m' d d' ltac:(lia) ltac:(lia) ltac:(lia) ltac:(lia) H1 H3 H2 H4) as [A B].
  split; [exact A|]. apply (grid_weak 56 79); [|lia|lia]. exact (sized_grid 33 79 _ B).
Qed.
Lemma fterm_rel s s' b b' p p' : rel (a + a) 78 40 s s' -> brel b b' -> brel p p' ->
  rel (c - a) 56 79 (fterm s b p) (fterm s' b' p').
Proof.
  intros Hs (X & Y & Z & _) (X' & Y' & Z' & M & M'). unfold fterm, fdist.
  destruct (dist_rel (b_x b - b_x p)%num (b_y b - b_y p)%num (b_z b - b_z p)%num (b_x b' - b_x p')%num (b_y b' - b_y p')%num (b_z b' - b_z p')%num s s') as [D1 D2];
    [apply (rel_sub a 39 20); auto; lia..|exact Hs|]. now apply term_rel.
Qed.
Lemma ndist_rel s s' i j b b' p p' : rel a 39 20 s s' -> brel b b' -> brel p p' ->
  sh a (ndist s i j b p) (ndist s' i j b' p') /\ sized 39 23 (ndist s i j b p : f32).
Proof.
  intros Hs (X & Y & Z & _) (X' & Y' & Z' & _). unfold ndist. destruct (i =? j)%nat.
  - split; [right; repeat split; change (B2R (n0 : S)) with 0%R; ring|]. apply (sized_zero (prec:=24) (emax:=128) 39 23 false).
  - apply dist_rel; [apply (rel_sub a 39 20); auto; lia..|]. apply (rel_weak _ 78 40); [lia|lia|]. apply (rel_mul a a 39 39 20 20); auto; lia.
Qed.
Lemma nentry_rel (junk junk' : nat -> nat -> S) s s' i j b b' p p' : (forall i j, rel (c - a) 56 79 (junk i j) (junk' i j)) ->
  rel a 39 20 s s' -> brel b b' -> brel p p' -> rel (c - a) 56 79 (nentry junk s i j b p) (nentry junk' s' i j b' p').
Proof.
  intros J Hs B P. unfold nentry. destruct (ndist_rel s s' i j b b' p p' Hs B P) as [D1 D2].
  assert (E : neqb (ndist s' i j b' p') n0 = neqb (ndist s i j b p) n0).
  { unfold neqb. assert (Z0 : sh a (n0 : S) (n0 : S)) by (right; repeat split; change (B2R (n0 : S)) with 0%R; ring).
    change (ncmp (N:=S)) with (fun x y : f32 => Bcompare x y). cbv beta. now rewrite (sh_cmp a _ _ _ _ D1 Z0). }
  rewrite E. clear E. destruct (neqb (ndist s i j b p) n0); [apply J|]. destruct P as (_ & _ & _ & M & M'). now apply term_rel.
Qed.

Lemma rel_parts k n u (l l' : list S) : Forall2 (rel k n u) l l' -> Forall2 (sh k) l l' /\ Forall (grid n u) (l : list f32).
Proof. induction 1 as [|x y l l' [A B] F [IH1 IH2]]; split; [apply Forall2_nil|apply Forall_nil|apply Forall2_cons; auto|apply Forall_cons; auto]. Qed.
Lemma sum_rel t (l l' : list S) : (leaves t <= 2 ^ 22)%Z -> Forall2 (rel (c - a) 56 79) l l' ->
  rel (c - a) 56 101 (eval p24 e128 t l) (eval p24 e128 t l').
Proof.
  intros Ht F. apply rel_parts in F as [F1 F2].
  destruct (eval_shift Hp Hm (c - a) 56 79 22 t ltac:(lia) ltac:(lia) ltac:(lia) ltac:(lia) ltac:(lia) ltac:(lia) Ht _ _ F1 F2) as [A B].
  split; [exact A|]. intros Fi. exact (gridB_grid 56 79 _ 22 _ ltac:(lia) Ht (B Fi)).
Qed.
Lemma G_rel v v' : rel (c - a) 56 101 v v' -> rel (c - a) 97 101 (v * G)%num (v' * G)%num.
Proof.
  intros H. replace (c - a)%Z with (c - a + 0)%Z by lia. apply (rel_mul (c - a) 0 56 41 101 0); try lia; [exact H|].
  split; [apply sh_refl|]. exact (sized_grid 18 0 _ HG).
Qed.

Fixpoint oterms (s : S) (i j : nat) (b : body S) (l : list (body S)) : list S :=
  match l with [] => [] | p :: l' => if (i =? j)%nat then oterms s i (Datatypes.S j) b l' else fterm s b p :: oterms s i (Datatypes.S j) b l' end.
Lemma finner_oterms s i j b acc l : finner s i j b acc l = fold_left (@Bplus 24 128 p24 e128 mode_NE) (oterms s i j b l) acc.
Proof. revert j acc. induction l as [|p l IH]; intros j acc; [reflexivity|]. cbn [finner oterms]. rewrite IH. now destruct (i =? j)%nat. Qed.
Lemma oterms_length s i j b l : (length (oterms s i j b l) <= length l)%nat.
Proof. revert j. induction l as [|p l IH]; intros j; [apply le_n|]. cbn [oterms]. specialize (IH (Datatypes.S j)). destruct (i =? j)%nat; cbn [length]; lia. Qed.
Lemma oterms_rel s s' i j b b' l l' : rel (a + a) 78 40 s s' -> brel b b' -> Forall2 brel l l' ->
  Forall2 (rel (c - a) 56 79) (oterms s i j b l) (oterms s' i j b' l').
Proof.
  intros Hs B F. revert j. induction F as [|p p' l l' P F IH]; intros j; [apply Forall2_nil|]. cbn [oterms].
  destruct (i =? j)%nat; [apply IH|]. apply Forall2_cons; [now apply fterm_rel|apply IH].
Qed.

Lemma bodies_rel x x' y y' z z' m m' : Forall2 (rel a 39 20) x x' -> Forall2 (rel a 39 20) y y' -> Forall2 (rel a 39 20) z z' ->
  Forall2 (fun p q : S => sh c p q /\ sized 10 40 (p : f32)) m m' -> Forall2 brel (bodies x y z m) (bodies x' y' z' m').
Proof.
  intros X Y Z M. unfold bodies.
  apply (map2_rel (fun p q => rel a 39 20 (fst p) (fst q) /\ rel a 39 20 (snd p) (snd q))
           (fun p q : S * S => rel a 39 20 (fst p) (fst q) /\ sh c (snd p) (snd q) /\ sized 10 40 (snd p : f32)) (fun _ => True)).
  - intros p q p' q' (A1 & A2) (A3 & A4 & A5) _. unfold brel. cbn. auto.
  - apply (map2_rel (rel a 39 20) (rel a 39 20) (fun _ => True)); auto. apply Forall_forall. auto.
  - apply (map2_rel (rel a 39 20) (fun p q : S => sh c p q /\ sized 10 40 (p : f32)) (fun _ => True)); auto. apply Forall_forall. auto.
  - apply Forall_forall. auto.
Qed.

Lemma seq_rel k n : Forall2 eq (seq k n) (seq k n).
Proof. revert k. induction n; intros k; [apply Forall2_nil|apply Forall2_cons; auto]. Qed.
Lemma fortran_rel x x' y y' z z' m m' s s' : Forall2 (rel a 39 20) x x' -> Forall2 (rel a 39 20) y y' -> Forall2 (rel a 39 20) z z' ->
  Forall2 (fun p q : S => sh c p q /\ sized 10 40 (p : f32)) m m' -> rel a 39 20 s s' -> (Z.of_nat (length m) <= 2 ^ 20)%Z ->
  forall have, both (Forall2 (rel (c - a) 97 101)) (fortran_potential G have x y z m s) (fortran_potential G have x' y' z' m' s').
Proof.
  intros X Y Z M Hs Hl [|]; [|reflexivity]. cbn [fortran_potential both].
  pose proof (bodies_rel _ _ _ _ _ _ _ _ X Y Z M) as B.
  assert (Lb : (length (bodies x y z m) <= length m)%nat) by (unfold bodies; rewrite !map2_length; lia).
  assert (H2 : rel (a + a) 78 40 (s * s)%num (s' * s')%num) by (apply (rel_weak _ 78 40); [lia|lia|]; apply (rel_mul a a 39 39 20 20); auto; lia).
  unfold fortran_kernel. cbv zeta. rewrite <- (Forall2_length' _ _ _ B).
  apply Forall2_map'. refine (Forall2_impl_In _ _ _ _ _ (map2_rel eq brel (fun _ => True) (rel (c - a) 56 101) _ _ _ _ _ _ _ (seq_rel 0 _) B _)).
  - intros v v' _ _ V. now apply G_rel.
  - intros i b i' b' <- Bb _. rewrite !finner_oterms.
    change (n0 : S) with (B754_zero false : f32).
    rewrite !ltr_eval.
    pose proof (oterms_rel _ _ i 0 _ _ _ _ H2 Bb B) as T.
    pose proof (oterms_length (s * s)%num i 0 b (bodies x y z m)) as Lo.
    set (t := oterms _ i 0 b _) in *. set (t' := oterms _ i 0 b' _) in *. clearbody t t'.
    assert (EL : @length f32 t' = @length f32 t) by (symmetry; exact (Forall2_length' _ _ _ T)). rewrite EL.
    apply sum_rel; [|exact T]. rewrite ltr_leaves. change (@length f32 t) with (@length S t). lia.
  - apply Forall_forall. auto.
Qed.
Lemma numpy_rel (junk junk' : nat -> nat -> S) x x' y y' z z' m m' s s' : fixed_order32 sm -> (forall i j, rel (c - a) 56 79 (junk i j) (junk' i j)) ->
  Forall2 (rel a 39 20) x x' -> Forall2 (rel a 39 20) y y' -> Forall2 (rel a 39 20) z z' ->
  Forall2 (fun p q : S => sh c p q /\ sized 10 40 (p : f32)) m m' -> rel a 39 20 s s' -> (Z.of_nat (length m) <= 2 ^ 20)%Z ->
  both (Forall2 (rel (c - a) 97 101)) (numpy_potential G junk x y z m s) (numpy_potential G junk' x' y' z' m' s').
Proof.
  intros [shape Hsm] J X Y Z M Hs Hl. unfold numpy_potential, both. cbv zeta.
  pose proof (bodies_rel _ _ _ _ _ _ _ _ X Y Z M) as B.
  assert (Lb : (length (bodies x y z m) <= length m)%nat) by (unfold bodies; rewrite !map2_length; lia).
  rewrite <- (Forall2_length' _ _ _ B).
  apply (map2_rel eq brel (fun _ => True)); [|apply seq_rel|exact B|apply Forall_forall; auto].
  intros i b i' b' <- Bb _. apply G_rel.
  set (l := map2 _ (seq 0 _) (bodies x y z m)). set (l' := map2 _ (seq 0 _) (bodies x' y' z' m')).
  assert (T : Forall2 (rel (c - a) 56 79) l l').
  { apply (map2_rel eq brel (fun _ => True)); [|apply seq_rel|exact B|apply Forall_forall; auto].
    intros j p j' p' <- P _. now apply nentry_rel. }
  change (rel (c - a) 56 101 (sm l) (sm l')). destruct (Hsm l) as [E1 E2], (Hsm l') as [E1' _].
  assert (EL : @length f32 l' = @length f32 l) by (symmetry; exact (Forall2_length' _ _ _ T)).
  rewrite E1, E1', EL. apply sum_rel; [|exact T].
  assert (Ll : (length l <= length m)%nat) by (unfold l; rewrite map2_length, seq_length; lia). change (@length f32 l) with (@length S l) in *. lia.
Qed.
End Units.
End Pot32.

Section PotApi.
Context {sm : list f64 -> f64} {sm32 : list f32 -> f32}.
Notation W := (F64s sm).
Notation S := (F32s sm32).
Definition srel (k n u : Z) (x y : W) : Prop := shifted k x y /\ sized n u (x : f64).

Lemma pd_max_rel k n u (l l' : list W) : Forall2 (srel k n u) l l' -> srel k n u (pd_max l) (pd_max l').
Proof.
  intros F. unfold pd_max.
  assert (F' : Forall2 (srel k n u) (filter (fun v : W => negb (nisnan v)) l) (filter (fun v : W => negb (nisnan v)) l')).
  { apply Forall2_filter'; [|exact F]. intros x y [H _]. f_equal. symmetry. exact (sh_isnan k x y H). }
  destruct F' as [|x y m m' H F']; [split; [left; split; reflexivity|intros D; discriminate D]|].
  revert x y H. induction F' as [|p q m m' P F' IH]; intros x y H; [exact H|]. cbn [fold_left]. apply IH.
  destruct P as [P1 P2], H as [H1 H2]. rewrite (sh_lt k x y p q H1 P1). destruct (nlt (N:=W) x p); split; assumption.
Qed.
Lemma repeat_rel (R : W -> W -> Prop) x y n : R x y -> Forall2 R (repeat x n) (repeat y n).
Proof. intros H. induction n; [apply Forall2_nil|apply Forall2_cons; auto]. Qed.

Section U.
Context (a b : Z) (Ha : (Z.abs a <= 10)%Z) (Hb : (Z.abs b <= 10)%Z) (G : S) (HG : sized 18 0 (G : f32)).
Let c : Z := (a + 2 * b)%Z.

Lemma cast_rel (l l' : list W) : Forall2 (shifted a) l l' -> Forall (sized 16 20) l ->
  Forall2 (rel (sm:=sm32) a 39 20) (map (to32 : W -> S) l) (map (to32 : W -> S) l').
Proof.
  intros F Fl. induction F as [|x y l l' H F IH]; [apply Forall2_nil|]. inversion Fl; subst. cbn [map]. apply Forall2_cons; [|auto].
  destruct (to32_sh a 16 20 x y ltac:(lia) ltac:(lia) ltac:(lia) ltac:(lia) H) as [A B]; [assumption|].
  split; [exact A|]. exact (sized_grid 16 20 _ B).
Qed.
Lemma cast_mass (l l' : list W) : Forall2 (shifted c) l l' -> Forall (sized 10 40) l ->
  Forall2 (fun p q : S => shifted c p q /\ sized 10 40 (p : f32)) (map (to32 : W -> S) l) (map (to32 : W -> S) l').
Proof.
  intros F Fl. induction F as [|x y l l' H F IH]; [apply Forall2_nil|]. inversion Fl; subst. cbn [map]. apply Forall2_cons; [|auto].
  unfold c in *. apply to32_sh; try lia; assumption.
Qed.
(** What is known of a result. *)
Definition pots_ok (g g' h h' : galaxy W) : Prop :=
  in_units a b h h' /\ gal_ok h /\ gal_ok h' /\ (forall n, (60 <= n)%Z -> tame n g -> tame n h) /\
  map (@p_m W) (sets h) = map (@p_m W) (sets g) /\ map (@p_m W) (sets h') = map (@p_m W) (sets g').
Lemma firstn_rel {A B} (R : A -> B -> Prop) n l l' : Forall2 R l l' -> Forall2 R (firstn n l) (firstn n l').
Proof. intros F. revert n. induction F; intros [|n]; cbn; try apply Forall2_nil. apply Forall2_cons; auto. Qed.
Lemma skipn_rel {A B} (R : A -> B -> Prop) n l l' : Forall2 R l l' -> Forall2 R (skipn n l) (skipn n l').
Proof. intros F. revert n. induction F; intros [|n]; cbn; try apply Forall2_nil; auto. Qed.

Lemma given_pot (g g' : galaxy W) (pot pot' : list S) : gal_ok g -> gal_ok g' -> in_units a b g g' ->
  Forall2 (rel (sm:=sm32) (2 * b) 97 101) pot pot' -> length pot = glen g -> length pot' = glen g' ->
  let neg := map (fun v : S => (to64 (nopp v) : W)) in
  let n := plen (g_stars g) in let m := plen (g_dm g) in
  let n' := plen (g_stars g') in let m' := plen (g_dm g') in
  pots_ok g g' (pot_gal (neg (firstn n pot)) (neg (firstn m (skipn n pot))) (neg (skipn (n + m) pot)) g)
    (pot_gal (neg (firstn n' pot')) (neg (firstn m' (skipn n' pot'))) (neg (skipn (n' + m') pot')) g').
Proof.
  intros Hg Hg' F Fp Lp Lp' neg n m n' m'.
  pose proof F as F0. unfold in_units in F0. apply sets3 in F0 as (Fs & Fd & Fg).
  apply gal_ok_facts in Hg as X. apply gal_ok_facts in Hg' as X'.
  assert (Ln : n' = n). { unfold n, n'. rewrite <- !plen_x by (apply X || apply X'). destruct Fs as (E & _). symmetry. exact (Forall2_length' _ _ _ E). }
  assert (Lm : m' = m). { unfold m, m'. rewrite <- !plen_x by (apply X || apply X'). destruct Fd as (E & _). symmetry. exact (Forall2_length' _ _ _ E). }
  assert (N : forall l l', Forall2 (rel (sm:=sm32) (2 * b) 97 101) l l' -> Forall2 (shifted (2 * b)) (neg l) (neg l') /\ Forall (grid 97 101) (neg l : list f64)).
  { intros l l' Fl. induction Fl as [|x y l l' [H1 H2] Fl [IH1 IH2]]; [split; [apply Forall2_nil|apply Forall_nil]|].
    split; [apply Forall2_cons; [|exact IH1]|apply Forall_cons; [|exact IH2]].
    - apply to64_sh. change (shifted (2 * b) (Bopp (x : f32)) (Bopp (y : f32))). now apply sh_opp.
    - apply to64_grid. change (grid 97 101 (Bopp (x : f32))). now apply grid_opp. }
  assert (T : forall k l, (60 <= k)%Z -> Forall (grid 97 101) (l : list f64) -> Forall (within2 (2 * k)) (l : list f64)).
  { intros k l Hk. apply Forall_impl. intros x Gx Fx.
    destruct (grid_weak 97 101 (2 * k) (2 * k) x Gx ltac:(lia) ltac:(lia) Fx) as [A B]. split; [exact A|exact B]. }
  unfold glen in Lp, Lp'. fold n m in Lp. fold n' m' in Lp'. rewrite Ln, Lm in *.
  destruct (N _ _ (firstn_rel _ n _ _ Fp)) as [S1 T1].
  destruct (N _ _ (firstn_rel _ m _ _ (skipn_rel _ n _ _ Fp))) as [S2 T2].
  destruct (N _ _ (skipn_rel _ (n + m) _ _ Fp)) as [S3 T3].
  split; [|split; [|split; [|split; [|split; reflexivity]]]].
  - unfold in_units. apply sets3. cbn [pot_gal pot_set g_stars g_dm g_gas p_x p_y p_z p_vx p_vy p_vz p_pot pset_of].
    split; [|split]; [destruct Fs as (? & ? & ? & ? & ? & ? & _)|destruct Fd as (? & ? & ? & ? & ? & ? & _)|destruct Fg as (? & ? & ? & ? & ? & ? & _)];
      do 6 (split; [assumption|]); assumption.
  - apply pot_gal_ok; auto; unfold neg; rewrite map_length, ?firstn_length, ?skipn_length; fold n m; lia.
  - apply pot_gal_ok; auto; unfold neg; rewrite map_length, ?firstn_length, ?skipn_length; fold n' m'; rewrite ?Ln, ?Lm; lia.
  - intros k Hk Tk. unfold tame in Tk. apply sets3' in Tk as (Ts & Td & Tg).
    unfold tame. apply sets3'. cbn [pot_gal pot_set g_stars g_dm g_gas p_x p_y p_z p_vx p_vy p_vz p_pot pset_of].
    split; [|split]; [destruct Ts as (? & ? & ? & ? & ? & ? & _)|destruct Td as (? & ? & ? & ? & ? & ? & _)|destruct Tg as (? & ? & ? & ? & ? & ? & _)];
      do 6 (split; [assumption|]); now apply T.
Qed.

Lemma gm_len (u : galaxy W) : length (gm u) = glen u.
Proof. unfold gm, glen, plen. rewrite !app_length. lia. Qed.
Lemma both_bind_pot (g g' : galaxy W) (tb tb' : dict (backend S)) name (f f' : backend S) : gal_ok g -> gal_ok g' -> in_units a b g g' ->
  g_haspot g = false -> g_haspot g' = false -> dget tb name = Some f -> dget tb' name = Some f' ->
  (forall x y z m s r, f x y z m s = Ok r -> length (x : list S) = length y -> length x = length z -> length x = length m -> length r = length x) ->
  (forall x y z m s r, f' x y z m s = Ok r -> length (x : list S) = length y -> length x = length z -> length x = length m -> length r = length x) ->
  both (Forall2 (rel (sm:=sm32) (2 * b) 97 101))
     (f (map (to32 : W -> S) (gx g)) (map (to32 : W -> S) (gy g)) (map (to32 : W -> S) (gz g)) (map (to32 : W -> S) (gm g)) (to32 (pd_max (gsoft g))))
     (f' (map (to32 : W -> S) (gx g')) (map (to32 : W -> S) (gy g')) (map (to32 : W -> S) (gz g')) (map (to32 : W -> S) (gm g')) (to32 (pd_max (gsoft g')))) ->
  both (pots_ok g g') (potential (W:=W) (S:=S) to32 to64 tb name g) (potential (W:=W) (S:=S) to32 to64 tb' name g').
Proof.
  intros Hg Hg' F Hp Hp' Ef Ef' Lf Lf' B.
  assert (LL : forall u : galaxy W, gal_ok u -> length (gy u) = length (gx u) /\ length (gz u) = length (gx u) /\ length (gm u) = length (gx u) /\ length (gx u) = glen u).
  { intros u Hu. pose proof (gxyz_length u Hu) as (A & B0 & C & _). pose proof (gm_len u). repeat split; congruence. }
  destruct (LL g Hg) as (A1 & A2 & A3 & A4), (LL g' Hg') as (B1 & B2 & B3 & B4).
  destruct (f _ _ _ _ _) as [pot|e] eqn:E; destruct (f' _ _ _ _ _) as [pot'|e'] eqn:E'; cbn [both] in B; try contradiction.
  - apply Lf in E as L1; [|rewrite !map_length; congruence..]. apply Lf' in E' as L2; [|rewrite !map_length; congruence..].
    rewrite map_length in L1, L2.
    rewrite (potential_ok (W:=W) (S:=S) to32 to64 tb name g f pot), (potential_ok (W:=W) (S:=S) to32 to64 tb' name g' f' pot') by (auto; congruence).
    cbn [both]. apply given_pot; auto; congruence.
  - rewrite (potential_eq (W:=W) (S:=S) to32 to64 tb name g f), (potential_eq (W:=W) (S:=S) to32 to64 tb' name g' f') by auto. rewrite E, E'. cbn. exact B.
Qed.

Lemma potential_shift (g g' : galaxy W) have (junk : nat -> nat -> S) name : fixed_order32 sm32 ->
  (forall i j, junk i j = n0) -> gal_ok g -> gal_ok g' -> in_units a b g g' -> weights_in a c g g' -> in_range g -> (Z.of_nat (glen g) <= 2 ^ 20)%Z ->
  both (pots_ok g g') (potential (W:=W) (S:=S) to32 to64 (backend_table G have junk) name g)
    (potential (W:=W) (S:=S) to32 to64 (backend_table G have junk) name g').
Proof.
  intros Ho Hj Hg Hg' F Fw R Hl. destruct (pots_shift a b g g' Hg Hg' F) as [Eh _].
  destruct (g_haspot g) eqn:Hh; [unfold potential; rewrite Eh, Hh; reflexivity|].
  pose proof F as F0. unfold in_units in F0. apply sets3 in F0 as (Fs & Fd & Fg).
  unfold weights_in in Fw. apply sets3 in Fw as ((Ms & Ss) & (Md & Sd) & (Mg & Sg)).
  unfold in_range in R. apply sets3' in R as (Rs & Rd & Rg).
  destruct Fs as (Sx & Sy & Sz & _), Fd as (Dx & Dy & Dz & _), Fg as (Gx & Gy & Gz & _).
  destruct Rs as (Tx & Ty & Tz & Tm & Ts), Rd as (Ux & Uy & Uz & Um & Us), Rg as (Vx & Vy & Vz & Vm & Vs).
  assert (X : Forall2 (rel (sm:=sm32) a 39 20) (map (to32 : W -> S) (gx g)) (map (to32 : W -> S) (gx g')))
    by (apply cast_rel; [repeat apply Forall2_app; assumption|unfold gx; rewrite !Forall_app; auto]).
  assert (Y : Forall2 (rel (sm:=sm32) a 39 20) (map (to32 : W -> S) (gy g)) (map (to32 : W -> S) (gy g')))
    by (apply cast_rel; [repeat apply Forall2_app; assumption|unfold gy; rewrite !Forall_app; auto]).
  assert (Z : Forall2 (rel (sm:=sm32) a 39 20) (map (to32 : W -> S) (gz g)) (map (to32 : W -> S) (gz g')))
    by (apply cast_rel; [repeat apply Forall2_app; assumption|unfold gz; rewrite !Forall_app; auto]).
  assert (M : Forall2 (fun p q : S => shifted c p q /\ sized 10 40 (p : f32)) (map (to32 : W -> S) (gm g)) (map (to32 : W -> S) (gm g')))
    by (apply cast_mass; [repeat apply Forall2_app; assumption|unfold gm; rewrite !Forall_app; auto]).
  assert (SS : srel a 16 20 (pd_max (gsoft g)) (pd_max (gsoft g'))).
  { apply pd_max_rel. unfold gsoft.
    assert (Pl : forall p q : pset W, Forall2 (shifted c) (p_m p) (p_m q) -> plen q = plen p)
      by (intros p q H; symmetry; exact (Forall2_length' _ _ _ H)).
    rewrite (Pl _ _ Ms), (Pl _ _ Md), (Pl _ _ Mg). repeat apply Forall2_app; apply repeat_rel; split; assumption. }
  assert (Hs : rel (sm:=sm32) a 39 20 (to32 (pd_max (gsoft g))) (to32 (pd_max (gsoft g')))).
  { destruct SS as [A B]. destruct (to32_sh a 16 20 _ _ ltac:(lia) ltac:(lia) ltac:(lia) ltac:(lia) A B) as [A' B'].
    split; [exact A'|]. exact (sized_grid 16 20 _ B'). }
  assert (Lm : (Z.of_nat (length (map (to32 : W -> S) (gm g))) <= 2 ^ 20)%Z) by (rewrite map_length, gm_len; exact Hl).
  assert (Ec : (c - a = 2 * b)%Z) by (unfold c; lia).
  destruct (String.eqb_spec name "fortran") as [->|Nf]; [|destruct (String.eqb_spec name "numpy") as [->|Nn]].
  - assert (Lfo : forall x y z m s r, fortran_potential G have x y z m s = Ok r -> length x = length y -> length x = length z -> length x = length m -> length r = length x).
    { intros x y z m s r E L1 L2 L3. unfold fortran_potential in E. destruct have; [|discriminate E]. injection E as <-.
      etransitivity; [apply map_length|]. etransitivity; [exact (fortran_kernel_length (S:=S) x y z m s)|]. apply bodies_length; congruence. }
    eapply both_bind_pot; auto; try congruence; try reflexivity.
    + exact Lfo.
    + exact Lfo.
    + rewrite <- Ec. apply fortran_rel; auto; lia.
  - assert (Ln : forall x y z m s r, numpy_potential G junk x y z m s = Ok r -> length x = length y -> length x = length z -> length x = length m -> length r = length x).
    { intros x y z m s r E L1 L2 L3. injection E as <-. rewrite map2_length, seq_length, bodies_length by congruence. apply Nat.min_id. }
    eapply both_bind_pot; auto; try congruence; try reflexivity; try exact Ln.
    rewrite <- Ec. apply numpy_rel; auto; try lia. intros i j. rewrite Hj. split.
    + right. repeat split. change (B2R (n0 : S)) with 0%R. ring.
    + apply (grid_zero (prec:=24) (emax:=128) 56 79 false).
  - assert (D : dget (backend_table G have junk) name = None).
    { unfold backend_table. cbn [dget]. destruct (String.eqb_spec name "fortran"); [contradiction|]. destruct (String.eqb_spec name "numpy"); [contradiction|reflexivity]. }
    unfold potential. rewrite Eh, Hh, D. reflexivity.
Qed.
End U.
End PotApi.
