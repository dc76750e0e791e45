(** Comparing and hashing galaxies and decompositions (C88). *)
From Verif Require Import Py Num RX F64 Np Df Data DataFacts Spec Ex DataThms CenterFacts Circ Base BaseThms Equal SpecEqual CircThms InvThms PotAccThms.
From Coq Require Import Lia Floats.SpecFloat.

Section Facts.
Context {N : Num} (nn : bool).

Lemma arr_eq_true (a b : list N) : arr_eq nn neqb a b = Ok true <-> one_equal a b.
Proof.
  unfold one_equal. split.
  - unfold arr_eq. destruct a as [|x [|x' a]], b as [|y [|y' b]], nn; cbn; try (intros H; discriminate H);
      try (intros H; injection H as H; now eauto); destruct ((length a =? length b)%nat); cbn; intros H; discriminate H.
  - intros (x & y & -> & -> & H). cbn. now rewrite H.
Qed.
Lemma tuple_true (a b : pyv N) l l' : tuple_eq nn (a :: l) (b :: l') = Ok true <-> item_eq nn a b = Ok true /\ tuple_eq nn l l' = Ok true.
Proof.
  cbn [tuple_eq]. destruct (item_eq nn a b) as [[|]|e]; cbn [bind]; split; intros H; try tauto; try discriminate H; destruct H as (H & _); discriminate H.
Qed.
Lemma item_arr i j (l l' : list N) : i <> j -> item_eq nn (VArr i l) (VArr j l') = Ok true <-> one_equal l l'.
Proof. intros H. unfold item_eq. cbn [is_ eq_]. apply Nat.eqb_neq in H. rewrite H. apply arr_eq_true. Qed.
Lemma item_opt i j (l l' : option (list N)) : i <> j -> item_eq nn (varr i l) (varr j l') = Ok true <-> one_equal_opt l l'.
Proof.
  intros H. destruct l as [l|], l' as [l'|]; cbn [varr one_equal_opt]; [now apply item_arr|..]; unfold item_eq; cbn; split; auto; try (intros K; discriminate K); contradiction.
Qed.
Lemma item_float i j (x y : N) : item_eq nn (VFloat i x) (VFloat j y) = Ok true <-> i = j \/ neqb x y = true.
Proof.
  unfold item_eq. cbn [is_ eq_]. destruct (Nat.eqb_spec i j) as [E|E]; [split; auto|]. split; [intros H; injection H; auto|]. intros [H|H]; [contradiction|now rewrite H].
Qed.
Lemma item_type t : item_eq nn (VType t : pyv N) (VType t) = Ok true.
Proof. unfold item_eq. cbn [is_]. now destruct t. Qed.
Lemma item_bool b c : item_eq nn (VBool b : pyv N) (VBool c) = Ok true <-> b = c.
Proof. destruct b, c; cbn; split; auto; intros H; discriminate H. Qed.
Lemma haspot_pot (p : pset N) : pset_ok p -> p_haspot p = match p_pot p with Some _ => true | None => false end.
Proof. intros H. apply pset_ok_iff in H as (_ & E). rewrite E at 1. cbn. now destruct (p_pot p). Qed.

Lemma set_eq_true (s t : sobj N) : apart_sets s t -> pset_ok (so_set s) -> pset_ok (so_set t) -> p_type (so_set s) = p_type (so_set t) ->
  set_item_eq nn s t = Ok true <-> single_equal s t.
Proof.
  intros (I & A) P Q T. unfold set_item_eq. apply Nat.eqb_neq in I. rewrite I. unfold set_eq, set_fields. rewrite T.
  rewrite !tuple_true, !item_arr, !item_opt, item_float, item_bool by (apply A; discriminate).
  apply haspot_pot in P, Q. rewrite P, Q. unfold single_equal. pose proof (item_type (p_type (so_set t))) as Ty. cbn [tuple_eq]. split.
  - tauto.
  - intros (H1 & H2 & H3 & H4 & H5 & H6 & H7 & H8 & H9 & H). repeat (split; [assumption|]). split; [|tauto].
    revert H8. destruct (p_pot (so_set s)), (p_pot (so_set t)); cbn; tauto.
Qed.
Lemma is_refl (a : pyv N) : is_ a a = true.
Proof. destruct a; cbn; auto using Nat.eqb_refl; [now destruct t|now destruct b]. Qed.
Lemma tuple_refl (l l' : list (pyv N)) : Forall2 (fun a b => is_ a b = true) l l' -> tuple_eq nn l l' = Ok true.
Proof. induction 1 as [|a b l l' E _ IH]; [reflexivity|]. cbn [tuple_eq]. unfold item_eq. rewrite E. exact IH. Qed.

End Facts.

(** A galaxy is equal to itself, whatever it contains (NaN too). *)
Lemma c88_self : forall (N : Num) nn (o : gobj N), galaxy_eq nn o o = Ok true /\ galaxy_ne nn o o = Ok false.
Proof.
  intros N nn o. assert (E : galaxy_eq nn o o = Ok true).
  { unfold galaxy_eq, set_item_eq. rewrite !Nat.eqb_refl. cbn [bind negb]. apply tuple_refl. constructor; [apply is_refl|constructor]. }
  split; [exact E|]. unfold galaxy_ne. now rewrite E.
Qed.

(** Two galaxies made separately compare equal exactly if every set consists of one particle
    and all numbers agree. *)
Lemma c88_separate : forall (N : Num) nn (o o' : gobj N), constructible (go_galaxy o) -> constructible (go_galaxy o') -> apart o o' ->
  (galaxy_eq nn o o' = Ok true <->
   single_equal (go_stars o) (go_stars o') /\ single_equal (go_dm o) (go_dm o') /\ single_equal (go_gas o) (go_gas o')).
Proof.
  intros N nn o o' G G' (A1 & A2 & A3). apply constructible_ok in G as (P1 & P2 & P3 & M). apply constructible_ok in G' as (Q1 & Q2 & Q3 & M').
  cbn [go_galaxy g_stars g_dm g_gas] in *. apply mk_galaxy_inv in M as (E & _ & _ & T1 & T2 & T3). apply mk_galaxy_inv in M' as (E' & _ & _ & T1' & T2' & T3').
  injection E as E. injection E' as E'.
  rewrite <- (set_eq_true nn _ _ A1), <- (set_eq_true nn _ _ A2), <- (set_eq_true nn _ _ A3) by (assumption || congruence).
  unfold galaxy_eq. destruct (set_item_eq nn (go_stars o) (go_stars o')) as [[|]|e] eqn:X1; cbn [bind negb].
  2:{ split; [intros H; discriminate H|intros (H & _); discriminate H]. } 2:{ split; [intros H; discriminate H|intros (H & _); discriminate H]. }
  destruct (set_item_eq nn (go_dm o) (go_dm o')) as [[|]|e]; cbn [bind negb].
  2:{ split; [intros H; discriminate H|intros (_ & H & _); discriminate H]. } 2:{ split; [intros H; discriminate H|intros (_ & H & _); discriminate H]. }
  destruct (set_item_eq nn (go_gas o) (go_gas o')) as [[|]|e]; cbn [bind negb].
  2:{ split; [intros H; discriminate H|intros (_ & _ & H); discriminate H]. } 2:{ split; [intros H; discriminate H|intros (_ & _ & H); discriminate H]. }
  split; [auto|]. intros _. apply tuple_true. split; [|reflexivity]. apply item_bool. rewrite E, E'.
  apply (set_eq_true nn) in X1; [|assumption|assumption|assumption|congruence]. destruct X1 as (_ & _ & _ & _ & _ & _ & _ & X & _).
  rewrite (haspot_pot _ P1), (haspot_pot _ Q1). revert X. destruct (p_pot (so_set (go_stars o))), (p_pot (so_set (go_stars o'))); cbn; tauto.
Qed.

(** Comparing galaxies made separately, unless both have exactly one star: ValueError if both numbers
    of stars agree, or one of them is one, and one of them is at least two; if the numbers differ and neither
    is one, ValueError, or False if numpy is old; False if one galaxy has no star and
    the other at most one.  [!=] likewise. *)
Lemma c88_many : forall (N : Num) nn (o o' : gobj N), constructible (go_galaxy o) -> constructible (go_galaxy o') -> apart o o' ->
  let n := plen (so_set (go_stars o)) in let n' := plen (so_set (go_stars o')) in
  (n = n' \/ n = 1%nat \/ n' = 1%nat -> (2 <= n)%nat \/ (2 <= n')%nat -> galaxy_eq nn o o' = Raise ValueError /\ galaxy_ne nn o o' = Raise ValueError) /\
  (n <> n' -> n <> 1%nat -> n' <> 1%nat ->
   (nn = true -> galaxy_eq nn o o' = Raise ValueError /\ galaxy_ne nn o o' = Raise ValueError) /\ (nn = false -> galaxy_eq nn o o' = Ok false /\ galaxy_ne nn o o' = Ok true)) /\
  (n = 0%nat /\ (n' <= 1)%nat \/ (n <= 1)%nat /\ n' = 0%nat -> galaxy_eq nn o o' = Ok false /\ galaxy_ne nn o o' = Ok true).
Proof.
  intros N nn o o' G G' ((I & A) & _) n n'. apply constructible_ok in G as (_ & _ & _ & M). apply constructible_ok in G' as (_ & _ & _ & M').
  apply mk_galaxy_inv in M as (_ & _ & _ & T & _). apply mk_galaxy_inv in M' as (_ & _ & _ & T' & _). cbn [go_galaxy g_stars] in *.
  apply Nat.eqb_neq in I. specialize (A 1%nat ltac:(discriminate)). apply Nat.eqb_neq in A. unfold galaxy_ne.
  assert (E : forall r, arr_eq nn neqb (p_m (so_set (go_stars o))) (p_m (so_set (go_stars o'))) = r -> r <> Ok true -> galaxy_eq nn o o' = r).
  { intros r E R. unfold galaxy_eq, set_item_eq. rewrite I. unfold set_eq, set_fields. cbn [tuple_eq]. rewrite T, T', item_type. cbn [bind]. unfold item_eq. cbn [is_ eq_]. rewrite A, E.
    destruct r as [[|]|e]; [congruence|reflexivity|reflexivity]. }
  assert (V : arr_eq nn neqb (p_m (so_set (go_stars o))) (p_m (so_set (go_stars o'))) = Raise ValueError -> galaxy_eq nn o o' = Raise ValueError /\ rmap negb (galaxy_eq nn o o') = Raise ValueError).
  { intros X. rewrite (E _ X) by discriminate. split; reflexivity. }
  assert (F : arr_eq nn neqb (p_m (so_set (go_stars o))) (p_m (so_set (go_stars o'))) = Ok false -> galaxy_eq nn o o' = Ok false /\ rmap negb (galaxy_eq nn o o') = Ok true).
  { intros X. rewrite (E _ X) by discriminate. split; reflexivity. }
  subst n n'. unfold plen in *. clear E. destruct (p_m (so_set (go_stars o))) as [|a [|b l]], (p_m (so_set (go_stars o'))) as [|a' [|b' l']]; cbn [length] in *;
    (split; [|split]); intros; try lia; try (apply V; reflexivity); try (apply F; reflexivity).
  - split; intros ->; [apply V|apply F]; reflexivity.
  - split; intros ->; [apply V|apply F]; reflexivity.
  - apply V. unfold arr_eq. cbn [length]. replace (length l) with (length l') by lia. now rewrite Nat.eqb_refl.
  - assert (X : (S (S (length l)) =? S (S (length l')))%nat = false) by (apply Nat.eqb_neq; lia).
    split; intros ->; [apply V|apply F]; unfold arr_eq; cbn [length]; rewrite X; reflexivity.
Qed.

(** Galaxies and decompositions cannot be hashed. *)
Lemma c88_hash : forall (N : Num) (o : gobj N) (c : cobj N), galaxy_hash o = Raise TypeError /\ comp_hash c = Raise TypeError.
Proof. intros N o c. split; reflexivity. Qed.

(** Decompositions of the same number of particles, at least two, made separately: the
    comparison raises ValueError. *)
Lemma c88_components : forall (N : Num) nn (c d : cobj N), co_ids c 0%nat <> co_ids d 0%nat ->
  let n := length (c_labels (co_comp c)) in n = length (c_labels (co_comp d)) -> (2 <= n)%nat -> comp_eq nn c d = Raise ValueError.
Proof.
  intros N nn c d I n E H. apply Nat.eqb_neq in I. unfold comp_eq, comp_fields. cbn [tuple_eq]. unfold item_eq. cbn [is_ eq_]. rewrite I. subst n. unfold arr_eq. rewrite <- E, Nat.eqb_refl.
  destruct (c_labels (co_comp c)) as [|a [|b l]]; [cbn in H; lia|cbn in H; lia|]. destruct (c_labels (co_comp d)) as [|a' [|b' l']]; [discriminate E|discriminate E|]. reflexivity.
Qed.

(** Decompositions made separately compare equal exactly if each has one particle, with equal labels
    (not NaN), equal types, and no probabilities or one equal probability. *)
Lemma c88_comp_separate : forall (N : Num) nn (c d : cobj N), (forall i, co_ids c i <> co_ids d i) ->
  (forall k, k = co_comp c \/ k = co_comp d -> forall p r, c_probs k = Some p -> In r (pr_rows p) -> length r = pr_width p) ->
  (comp_eq nn c d = Ok true <->
   one_equal (c_labels (co_comp c)) (c_labels (co_comp d)) /\ (exists t, c_ptypes (co_comp c) = [t] /\ c_ptypes (co_comp d) = [t]) /\
   match c_probs (co_comp c), c_probs (co_comp d) with
   | None, None => True
   | Some p, Some q => exists x y, pr_rows p = [[x]] /\ pr_rows q = [[y]] /\ neqb x y = true
   | _, _ => False
   end).
Proof.
  intros N nn c d I W. unfold comp_eq, comp_fields. rewrite !tuple_true.
  assert (I0 : (co_ids c 0 =? co_ids d 0)%nat = false) by (apply Nat.eqb_neq, I). assert (I1 : (co_ids c 1 =? co_ids d 1)%nat = false) by (apply Nat.eqb_neq, I).
  assert (I2 : (co_ids c 2 =? co_ids d 2)%nat = false) by (apply Nat.eqb_neq, I).
  assert (A : item_eq nn (VArr (co_ids c 0) (c_labels (co_comp c))) (VArr (co_ids d 0) (c_labels (co_comp d))) = Ok true <-> one_equal (c_labels (co_comp c)) (c_labels (co_comp d))).
  { unfold item_eq. cbn [is_ eq_]. rewrite I0. apply arr_eq_true. }
  assert (B : item_eq (N:=N) nn (VStrs (co_ids c 1) (c_ptypes (co_comp c))) (VStrs (co_ids d 1) (c_ptypes (co_comp d))) = Ok true <-> exists t, c_ptypes (co_comp c) = [t] /\ c_ptypes (co_comp d) = [t]).
  { unfold item_eq. cbn [is_ eq_]. rewrite I1. split.
    - unfold arr_eq. destruct (c_ptypes (co_comp c)) as [|x [|x' a]], (c_ptypes (co_comp d)) as [|y [|y' b]]; cbn; try (intros H; discriminate H); try (destruct nn; intros H; discriminate H).
      + intros H. exists x. split; [reflexivity|]. injection H as H. apply String.eqb_eq in H. now subst.
      + destruct (length a =? length b)%nat; [|destruct nn]; intros H; discriminate H.
    - intros (t & -> & ->). cbn. now rewrite String.eqb_refl. }
  rewrite A, B. clear A B. split; (intros (A & B & C); split; [exact A|split; [exact B|]]).
  - destruct C as (C & _). unfold item_eq in C. destruct (c_probs (co_comp c)) as [p|] eqn:Ep, (c_probs (co_comp d)) as [q|] eqn:Eq; cbn [is_ eq_] in C; try discriminate C; [|exact Logic.I].
    rewrite I2 in C. unfold mat_eq in C. destruct ((pr_width p =? pr_width q)%nat && (length (pr_rows p) =? length (pr_rows q))%nat) eqn:Y; [|destruct nn; discriminate C].
    apply andb_prop in Y as (Y1 & Y2). apply Nat.eqb_eq in Y1, Y2.
    pose proof (W _ (or_introl eq_refl) p) as Wp. pose proof (W _ (or_intror eq_refl) q) as Wq. specialize (fun r => Wp r Ep). specialize (fun r => Wq r Eq).
    destruct p as [w P], q as [w' Q]. cbn [pr_width pr_rows] in *. subst w'.
    destruct P as [|r P], Q as [|r' Q]; try discriminate Y2; [discriminate C|].
    assert (L : forall (l l' : list N), length l = length l' -> truth (map2 neqb l l') = Ok true -> exists x y, l = [x] /\ l' = [y] /\ neqb x y = true).
    { intros [|x [|x2 l]] [|y [|y2 l']] E H; try discriminate E; try discriminate H. exists x, y. cbn in H. split; [reflexivity|]. split; [reflexivity|congruence]. }
    assert (LL : length (concat (r :: P)) = length (concat (r' :: Q))).
    { clear - Wp Wq Y2. revert Y2 Wp Wq. generalize (r :: P). generalize (r' :: Q). clear r r' P Q. intros Q P. revert Q. induction P as [|r P IH]; intros [|r' Q] E Hp Hq; try discriminate E; [reflexivity|].
      cbn [concat]. rewrite !app_length, (Hp r), (Hq r') by (now left). f_equal. apply IH; [cbn in E; congruence| |]; intros; [apply Hp|apply Hq]; now right. }
    destruct (L _ _ LL C) as (x & y & X & Y & E). exists x, y. pose proof (Wp r (or_introl eq_refl)) as Lr. pose proof (Wq r' (or_introl eq_refl)) as Lr'. cbn [concat] in X, Y.
    assert (Nz : w <> 0%nat).
    { intros ->. assert (Z : forall (M : list (list N)), (forall r, In r M -> length r = 0%nat) -> concat M = []).
      { induction M as [|m M IH]; intros H; [reflexivity|]. cbn. rewrite IH by (intros; apply H; now right). destruct m; [reflexivity|]. discriminate (H _ (or_introl eq_refl)). }
      pose proof (Z (r :: P) Wp) as ZZ. cbn [concat] in ZZ. rewrite X in ZZ. discriminate ZZ. }
    assert (S : forall (m : list N) M x, length m = w -> (forall r, In r M -> length r = w) -> m ++ concat M = [x] -> m :: M = [[x]]).
    { intros m M x0 Lm LM H. destruct m as [|m0 [|m1 m]]; [cbn in Lm; lia| |discriminate H]. cbn in H. injection H as -> H. destruct M as [|r0 M]; [reflexivity|].
      cbn in H. apply app_eq_nil in H as (-> & _). specialize (LM [] (or_introl eq_refl)). cbn in LM. lia. }
    split; [apply S; auto; intros; apply Wp; now right|]. split; [apply S; auto; intros; apply Wq; now right|exact E].
  - split; [|reflexivity]. unfold item_eq. destruct (c_probs (co_comp c)) as [p|] eqn:Ep, (c_probs (co_comp d)) as [q|] eqn:Eq; cbn [is_ eq_]; try contradiction; [|reflexivity].
    rewrite I2. destruct C as (x & y & Ex & Ey & E). pose proof (W _ (or_introl eq_refl) p [x] Ep) as Wp. pose proof (W _ (or_intror eq_refl) q [y] Eq) as Wq. rewrite Ex in Wp. rewrite Ey in Wq.
    unfold mat_eq. rewrite <- Wp, <- Wq, Ex, Ey by (now left). cbn. now rewrite E.
Qed.

(** Galaxy objects whose parts have the identities given by [k]. *)
Definition gobj_of (k : nat) (g : galaxy F64) : gobj F64 :=
  GObj (SObj (100 * k) (fun i => 100 * k + 1 + i)%nat (g_stars g)) (SObj (100 * k + 30) (fun i => 100 * k + 31 + i)%nat (g_dm g))
       (SObj (100 * k + 60) (fun i => 100 * k + 61 + i)%nat (g_gas g)) (g_haspot g).
Lemma gobj_apart g h : apart (gobj_of 1 g) (gobj_of 2 h).
Proof. unfold apart, apart_sets, gobj_of. cbn. repeat split; intros; lia. Qed.
Lemma gobj_galaxy k g : go_galaxy (gobj_of k g) = g.
Proof. now destruct g. Qed.
(** One particle in each set; one star and nothing else; the sample galaxy. *)
Definition oneG : res (galaxy F64) := lineG (zl [(1,1,1,(-2,1))]%Z) (zl [(2,1,1,(-2,1))]%Z) (zl [(3,1,1,(-2,1))]%Z).
Definition loneG : res (galaxy F64) := lineG (zl [(1,1,1,(-2,1))]%Z) [] [].
Example ex_c88 : exists g h, oneG = Ok g /\ constructible (go_galaxy (gobj_of 1 g)) /\ apart (gobj_of 1 g) (gobj_of 2 g) /\
  galaxy_eq true (gobj_of 1 g) (gobj_of 2 g) = Ok true /\
  sampleG = Ok h /\ constructible (go_galaxy (gobj_of 1 h)) /\ apart (gobj_of 1 h) (gobj_of 2 h) /\ plen (so_set (go_stars (gobj_of 1 h))) = 5%nat /\
  galaxy_eq true (gobj_of 1 h) (gobj_of 1 h) = Ok true /\ galaxy_eq true (gobj_of 1 h) (gobj_of 2 h) = Raise ValueError.
Proof.
  destruct (ok_sat (fun g => galaxy_eq true (gobj_of 1 g) (gobj_of 2 g) = Ok true) oneG) as (g & E & C); [vm_compute; reflexivity|].
  destruct (ok_sat (fun h => plen (so_set (go_stars (gobj_of 1 h))) = 5%nat /\ galaxy_eq true (gobj_of 1 h) (gobj_of 2 h) = Raise ValueError) sampleG) as (h & F & P & D); [vm_compute; auto|].
  exists g, h. rewrite !gobj_galaxy. split; [exact E|]. split; [exact (lineG_ok _ _ _ _ E)|]. split; [apply gobj_apart|]. split; [exact C|].
  split; [exact F|]. split; [exact (lineG_ok _ _ _ _ F)|]. split; [apply gobj_apart|]. split; [exact P|]. split; [apply c88_self|exact D].
Qed.

(** Equality of contents is not what [==] computes: two galaxies with the same contents, one
    star each and nothing else, compare unequal. *)
Lemma c88_contents_refuted : exists (o o' : gobj F64), constructible (go_galaxy o) /\ go_galaxy o = go_galaxy o' /\ apart o o' /\
  galaxy_eq true o o' = Ok false /\ galaxy_eq false o o' = Ok false.
Proof.
  destruct (ok_sat (fun g => galaxy_eq true (gobj_of 1 g) (gobj_of 2 g) = Ok false /\ galaxy_eq false (gobj_of 1 g) (gobj_of 2 g) = Ok false) loneG) as (g & E & C & D); [vm_compute; auto|].
  exists (gobj_of 1 g), (gobj_of 2 g). rewrite !gobj_galaxy. split; [exact (lineG_ok _ _ _ _ E)|]. split; [reflexivity|]. split; [apply gobj_apart|]. auto.
Qed.

(** Decompositions of the sample galaxy. *)
Example ex_c88_components : exists k, rmap fst (do g <- sampleG; decompose asort thr tt g) = Ok k /\ length (c_labels k) = 8%nat /\
  comp_eq true (CObj (fun i => i) k) (CObj (fun i => 3 + i)%nat k) = Raise ValueError /\ comp_eq true (CObj (fun i => i) k) (CObj (fun i => i) k) = Ok true.
Proof. apply ok_sat. vm_compute. auto. Qed.

(** Decompositions of one particle made separately: equal with equal labels and probabilities, not with one
    that has no probabilities; and one star against two cannot be compared. *)
Example ex_c88_comp_one : let k := Comp (N:=F64) [fZ 1] ["stars"%string] (Some (Probs 1 [[fZ 1]])) in let k' := Comp (N:=F64) [fZ 1] ["stars"%string] None in
  comp_eq true (CObj (fun i => i) k) (CObj (fun i => 3 + i)%nat k) = Ok true /\ comp_eq true (CObj (fun i => i) k) (CObj (fun i => 3 + i)%nat k') = Ok false /\
  exists g h, loneG = Ok g /\ sampleG = Ok h /\ galaxy_eq false (gobj_of 1 g) (gobj_of 2 h) = Raise ValueError.
Proof.
  split; [vm_compute; reflexivity|]. split; [vm_compute; reflexivity|].
  destruct (ok_sat (fun g => galaxy_eq false (gobj_of 1 g) (gobj_of 2 g) = Ok false) loneG) as (g & E & _); [vm_compute; reflexivity|].
  destruct (ok_sat (fun h => (do g <- loneG; galaxy_eq false (gobj_of 1 g) (gobj_of 2 h)) = Raise ValueError) sampleG) as (h & F & D); [vm_compute; auto|].
  exists g, h. split; [exact E|]. split; [exact F|]. rewrite E in D. exact D.
Qed.
