(** Facts about reductions, bins and the curve of the circularity model. *)
From Coq Require Import Sorted.
From Verif Require Import Py Num RX Np Df Data Center CenterFacts Align Spec SpecCirc Circ CircFacts.

Section Curve.
Context {N : Num} (RN : Rounded N).
Local Notation v := (val RN).

(** *** Reductions *)
Lemma pick_max_cases (a b : N) : pick_max a b = a \/ pick_max a b = b.
Proof. unfold pick_max. destruct (nisnan a), (nisnan b), (nlt a b); auto. Qed.
Lemma pick_min_cases (a b : N) : pick_min a b = a \/ pick_min a b = b.
Proof. unfold pick_min. destruct (nisnan a), (nisnan b), (nlt b a); auto. Qed.

Lemma fold_max_spec (l : list N) : forall x, let m := fold_left pick_max l x in
  In m (x :: l) /\ (nisnan m = true \/ forall b, In b (x :: l) -> nle b m = true).
Proof.
  induction l as [|y l IH]; intros x; cbn [fold_left].
  - split; [simpl; auto|]. destruct (nisnan x) eqn:E; [auto|right]. intros b [<-|[]].
    apply (nle_iff RN), xle_refl. now apply (nisnan_false RN).
  - destruct (IH (pick_max x y)) as [A B]. split.
    + destruct A as [A|A]; [|simpl; auto]. rewrite <- A. destruct (pick_max_cases x y) as [->| ->]; simpl; auto.
    + destruct B as [B|B]; [auto|]. set (m := fold_left pick_max l (pick_max x y)) in *.
      destruct (nisnan m) eqn:Em; [auto|]. right.
      assert (P : nle (pick_max x y) m = true) by (apply B; simpl; auto).
      assert (Q : nle x (pick_max x y) = true /\ nle y (pick_max x y) = true).
      { unfold pick_max in *. destruct (nisnan x) eqn:Ex.
        { apply (nle_iff RN) in P. apply (nisnan_iff RN) in Ex. apply xle_nan_l in P. congruence. }
        destruct (nisnan y) eqn:Ey.
        { apply (nle_iff RN) in P. apply (nisnan_iff RN) in Ey. apply xle_nan_l in P. congruence. }
        apply (nisnan_false RN) in Ex, Ey.
        destruct (nlt x y) eqn:L.
        - apply (nlt_iff RN) in L. split; apply (nle_iff RN); [now apply xlt_le|now apply xle_refl].
        - apply (nlt_false RN) in L. split; apply (nle_iff RN); [now apply xle_refl|].
          destruct (xle_total (v y) (v x)); auto. contradiction. }
      intros b [<-|[<-|Hb]].
      * apply (nle_iff RN). eapply xle_trans; apply (nle_iff RN); [apply Q|exact P].
      * apply (nle_iff RN). eapply xle_trans; apply (nle_iff RN); [apply Q|exact P].
      * apply B. simpl; auto.
Qed.
Lemma fold_min_spec (l : list N) : forall x, let m := fold_left pick_min l x in
  In m (x :: l) /\ (nisnan m = true \/ forall b, In b (x :: l) -> nle m b = true).
Proof.
  induction l as [|y l IH]; intros x; cbn [fold_left].
  - split; [simpl; auto|]. destruct (nisnan x) eqn:E; [auto|right]. intros b [<-|[]].
    apply (nle_iff RN), xle_refl. now apply (nisnan_false RN).
  - destruct (IH (pick_min x y)) as [A B]. split.
    + destruct A as [A|A]; [|simpl; auto]. rewrite <- A. destruct (pick_min_cases x y) as [->| ->]; simpl; auto.
    + destruct B as [B|B]; [auto|]. set (m := fold_left pick_min l (pick_min x y)) in *.
      destruct (nisnan m) eqn:Em; [auto|]. right.
      assert (P : nle m (pick_min x y) = true) by (apply B; simpl; auto).
      assert (Q : nle (pick_min x y) x = true /\ nle (pick_min x y) y = true).
      { unfold pick_min in *. destruct (nisnan x) eqn:Ex.
        { apply (nle_iff RN) in P. apply (nisnan_iff RN) in Ex. apply xle_nan_r in P. congruence. }
        destruct (nisnan y) eqn:Ey.
        { apply (nle_iff RN) in P. apply (nisnan_iff RN) in Ey. apply xle_nan_r in P. congruence. }
        apply (nisnan_false RN) in Ex, Ey.
        destruct (nlt y x) eqn:L.
        - apply (nlt_iff RN) in L. split; apply (nle_iff RN); [now apply xlt_le|now apply xle_refl].
        - apply (nlt_false RN) in L. split; apply (nle_iff RN); [now apply xle_refl|].
          destruct (xle_total (v x) (v y)); auto. contradiction. }
      intros b [<-|[<-|Hb]].
      * apply (nle_iff RN). eapply xle_trans; apply (nle_iff RN); [exact P|apply Q].
      * apply (nle_iff RN). eapply xle_trans; apply (nle_iff RN); [exact P|apply Q].
      * apply B. simpl; auto.
Qed.

Lemma np_max_spec {A} (f : A -> N) l m : np_max (map f l) = Ok m -> largest f l m.
Proof.
  destruct l as [|a l]; [discriminate|]. cbn [map np_max]. intros [= <-].
  destruct (fold_max_spec (map f l) (f a)) as [I B]. rewrite <- (map_cons f a l) in I, B. split.
  - apply in_map_iff in I as (b & E & Hb). eauto.
  - destruct B as [B|B]; [auto|right]. intros b Hb. apply B. now apply in_map.
Qed.
Lemma np_min_spec {A} (f : A -> N) l m : np_min (map f l) = Ok m -> smallest f l m.
Proof.
  destruct l as [|a l]; [discriminate|]. cbn [map np_min]. intros [= <-].
  destruct (fold_min_spec (map f l) (f a)) as [I B]. rewrite <- (map_cons f a l) in I, B. split.
  - apply in_map_iff in I as (b & E & Hb). eauto.
  - destruct B as [B|B]; [auto|right]. intros b Hb. apply B. now apply in_map.
Qed.

Lemma argmax_from_spec (l : list N) : forall pre best bi,
  nth_error pre bi = Some best -> Forall (fun w => nlt best w = false) pre ->
  exists b, nth_error (pre ++ l) (argmax_from best bi (length pre) l) = Some b /\
    Forall (fun w => nlt b w = false) (pre ++ l).
Proof.
  induction l as [|x l IH]; intros pre best bi Hb Hp.
  - exists best. rewrite app_nil_r. auto.
  - simpl. destruct (nisnan best) eqn:En.
    { exists best. split; [rewrite nth_error_app1; [exact Hb|apply nth_error_Some; congruence]|].
      apply Forall_forall. intros w _. apply (nlt_false RN). apply (nisnan_iff RN) in En. rewrite En. simpl. tauto. }
    destruct (nisnan x || nlt best x) eqn:E.
    + specialize (IH (pre ++ [x]) x (length pre)). rewrite app_length in IH. simpl in IH.
      rewrite Nat.add_1_r in IH. rewrite <- app_assoc in IH. apply IH.
      * rewrite nth_error_app2, Nat.sub_diag by lia. reflexivity.
      * apply Forall_app. split.
        -- eapply Forall_impl; [|exact Hp]. intros w Hw. apply (nlt_false RN). apply (nlt_false RN) in Hw.
           intros H. apply orb_prop in E as [E|E].
           ++ apply (nisnan_iff RN) in E. rewrite E in H. destruct (v w); contradiction.
           ++ apply (nlt_iff RN) in E. apply Hw. eapply xlt_trans; eauto.
        -- constructor; [|constructor]. apply (nlt_false RN). intros H. apply (xlt_not_le _ _ H).
           apply xle_refl. destruct (v x); simpl in *; congruence.
    + apply orb_false_elim in E as [_ E].
      specialize (IH (pre ++ [x]) best bi). rewrite app_length in IH. simpl in IH.
      rewrite Nat.add_1_r in IH. rewrite <- app_assoc in IH. apply IH.
      * rewrite nth_error_app1; [exact Hb|]. apply nth_error_Some. congruence.
      * apply Forall_app. split; [exact Hp|]. constructor; auto.
Qed.
Lemma argmin_from_spec' (l : list N) : forall pre best bi,
  nth_error pre bi = Some best -> Forall (fun w => nlt w best = false) pre ->
  exists b, nth_error (pre ++ l) (argmin_from best bi (length pre) l) = Some b /\
    Forall (fun w => nlt w b = false) (pre ++ l).
Proof.
  induction l as [|x l IH]; intros pre best bi Hb Hp.
  - exists best. rewrite app_nil_r. auto.
  - simpl. destruct (nisnan best) eqn:En.
    { exists best. split; [rewrite nth_error_app1; [exact Hb|apply nth_error_Some; congruence]|].
      apply Forall_forall. intros w _. apply (nlt_false RN). apply (nisnan_iff RN) in En. rewrite En.
      destruct (v w); simpl; tauto. }
    destruct (nisnan x || nlt x best) eqn:E.
    + specialize (IH (pre ++ [x]) x (length pre)). rewrite app_length in IH. simpl in IH.
      rewrite Nat.add_1_r in IH. rewrite <- app_assoc in IH. apply IH.
      * rewrite nth_error_app2, Nat.sub_diag by lia. reflexivity.
      * apply Forall_app. split.
        -- eapply Forall_impl; [|exact Hp]. intros w Hw. apply (nlt_false RN). apply (nlt_false RN) in Hw.
           intros H. apply orb_prop in E as [E|E].
           ++ apply (nisnan_iff RN) in E. rewrite E in H. destruct (v w); contradiction.
           ++ apply (nlt_iff RN) in E. apply Hw. eapply xlt_trans; eauto.
        -- constructor; [|constructor]. apply (nlt_false RN). intros H. apply (xlt_not_le _ _ H).
           apply xle_refl. destruct (v x); simpl in *; congruence.
    + apply orb_false_elim in E as [_ E].
      specialize (IH (pre ++ [x]) best bi). rewrite app_length in IH. simpl in IH.
      rewrite Nat.add_1_r in IH. rewrite <- app_assoc in IH. apply IH.
      * rewrite nth_error_app1; [exact Hb|]. apply nth_error_Some. congruence.
      * apply Forall_app. split; [exact Hp|]. constructor; auto.
Qed.
Lemma nlt_irr (x : N) : nlt x x = false.
Proof. apply (nlt_false RN). intros H. apply (xlt_not_le _ _ H). apply xle_refl. destruct (v x); simpl in *; congruence. Qed.
Lemma np_argmax_spec {A} (f : A -> N) l i : np_argmax (map f l) = Ok i ->
  exists a, nth_error l i = Some a /\ forall b, In b l -> nlt (f a) (f b) = false.
Proof.
  destruct l as [|a l]; [discriminate|]. cbn [map np_argmax]. intros [= <-].
  destruct (argmax_from_spec (map f l) [f a] (f a) 0) as (b & Hb & F); [reflexivity|constructor; [apply nlt_irr|constructor]|].
  simpl app in Hb, F. simpl length in Hb. rewrite <- (map_cons f a l) in Hb, F. rewrite nth_error_map in Hb.
  destruct (nth_error (a :: l) _) as [c|] eqn:E; [|discriminate]. injection Hb as <-.
  exists c. split; [reflexivity|]. intros b Hb. rewrite Forall_forall in F. apply F. now apply in_map.
Qed.
Lemma np_argmin_spec {A} (f : A -> N) l i : np_argmin (map f l) = Ok i ->
  exists a, nth_error l i = Some a /\ forall b, In b l -> nlt (f b) (f a) = false.
Proof.
  destruct l as [|a l]; [discriminate|]. cbn [map np_argmin]. intros [= <-].
  destruct (argmin_from_spec' (map f l) [f a] (f a) 0) as (b & Hb & F); [reflexivity|constructor; [apply nlt_irr|constructor]|].
  simpl app in Hb, F. simpl length in Hb. rewrite <- (map_cons f a l) in Hb, F. rewrite nth_error_map in Hb.
  destruct (nth_error (a :: l) _) as [c|] eqn:E; [|discriminate]. injection Hb as <-.
  exists c. split; [reflexivity|]. intros b Hb. rewrite Forall_forall in F. apply F. now apply in_map.
Qed.

(** *** One bin *)
Lemma at_map {A} (f : A -> N) l k a : nth_error l k = Some a -> at_ (map f l) k = f a.
Proof. intros H. unfold at_. erewrite nth_error_nth; [reflexivity|]. rewrite nth_error_map, H. reflexivity. Qed.

Context {A : Type} (fE fZ : A -> N).

Definition in_bin (lo hi : N) (a : A) : bool := nle (fE a) hi && nlt lo (fE a).
Local Notation aZ := (fun a => nabs (fZ a)).

Lemma map_nth_perm {B} (l : list B) d s : Permutation s (seq 0 (length l)) -> Permutation l (map (fun i => nth i l d) s).
Proof.
  intros H. apply Permutation_sym. etransitivity; [apply Permutation_map, H|].
  replace (map (fun i => nth i l d) (seq 0 (length l))) with l; [reflexivity|].
  clear. induction l as [|x l IH]; [reflexivity|]. simpl. f_equal. rewrite <- seq_shift, map_map. exact IH.
Qed.

Lemma pick_spec rows s : sorts (map aZ rows) s ->
  let Em := map fE rows in let Jm := map fZ rows in
  let p := match length s with
    | O => (n0, n0)
    | S O => let k := nth 0 s 0%nat in (at_ Em k, nabs (at_ Jm k))
    | S (S n) => let k1 := nth (S n) s 0%nat in let k2 := nth n s 0%nat in
        if nle (nlit 1 100) (n1 - nabs (at_ Jm k2) / nabs (at_ Jm k1))%num
        then (at_ Em k2, nabs (at_ Jm k2)) else (at_ Em k1, nabs (at_ Jm k1))
    end in
  (rows = [] /\ p = (n0, n0)) \/ (exists a, In a rows /\ p = (fE a, nabs (fZ a)) /\ picked aZ rows a).
Proof.
  intros [Hp Hs] Em Jm. rewrite map_length in Hp. pose proof (Permutation_length Hp) as Hl. rewrite seq_length in Hl.
  destruct rows as [|d rows']; [left; now rewrite Hl|]. right. remember (d :: rows') as rows eqn:Er.
  pose proof (map_nth_perm rows d s Hp) as P.
  assert (Hin : forall k, In k s -> nth_error rows k = Some (nth k rows d)).
  { intros k Hk. apply nth_error_nth'. eapply Permutation_in in Hk; [|exact Hp]. apply in_seq in Hk. lia. }
  assert (I : forall k, In k s -> In (nth k rows d) rows).
  { intros k Hk. eapply nth_error_In. now apply Hin. }
  assert (Fe : forall k, In k s -> at_ Em k = fE (nth k rows d)) by (intros k Hk; apply at_map; auto).
  assert (Fz : forall k, In k s -> at_ Jm k = fZ (nth k rows d)) by (intros k Hk; apply at_map; auto).
  assert (O : forall a b i j, (a < b)%nat -> nth_error s a = Some i -> nth_error s b = Some j ->
    before (nabs (fZ (nth i rows d))) (nabs (fZ (nth j rows d)))).
  { intros a b i j Hab Ha Hb. apply (Hs a b i j); auto; rewrite nth_error_map, Hin; auto; eapply nth_error_In; eauto. }
  assert (NE : rows <> []) by (subst rows; discriminate).
  clear Hs Hin Hp Er. revert P I Fe Fz O Hl.
  destruct (rev s) as [|k1 [|k2 t]] eqn:Rs;
    apply (f_equal (@rev nat)) in Rs; rewrite rev_involutive in Rs; subst s; intros P I Fe Fz O Hl; cbn [rev app] in *.
  - exfalso. apply Permutation_sym, Permutation_nil in P. contradiction.
  - exists (nth k1 rows d). split; [apply I; simpl; auto|]. simpl. rewrite Fe, Fz by (simpl; auto). split; [reflexivity|].
    apply picked_alone. apply Permutation_sym, Permutation_length_1_inv in P. exact P.
  - rewrite <- app_assoc in *. cbn [app] in *. set (u := rev t) in *. clearbody u. clear t.
    assert (L : length (u ++ [k2; k1]) = S (S (length u))) by (rewrite app_length; simpl; lia). rewrite L.
    assert (N1 : nth (S (length u)) (u ++ [k2; k1]) 0%nat = k1).
    { rewrite app_nth2 by lia. replace (S (length u) - length u)%nat with 1%nat by lia. reflexivity. }
    assert (N2 : nth (length u) (u ++ [k2; k1]) 0%nat = k2).
    { rewrite app_nth2 by lia. rewrite Nat.sub_diag. reflexivity. }
    cbv zeta. rewrite N1, N2.
    assert (I1 : In k1 (u ++ [k2; k1])) by (apply in_or_app; simpl; auto).
    assert (I2 : In k2 (u ++ [k2; k1])) by (apply in_or_app; simpl; auto).
    rewrite !Fe, !Fz by assumption.
    set (a1 := nth k1 rows d) in *. set (a2 := nth k2 rows d) in *.
    assert (E1 : nth_error (u ++ [k2; k1]) (S (length u)) = Some k1).
    { rewrite nth_error_app2 by lia. replace (S (length u) - length u)%nat with 1%nat by lia. reflexivity. }
    assert (E2 : nth_error (u ++ [k2; k1]) (length u) = Some k2).
    { rewrite nth_error_app2 by lia. rewrite Nat.sub_diag. reflexivity. }
    assert (PP : Permutation rows (a1 :: a2 :: map (fun i => nth i rows d) u)).
    { etransitivity; [exact P|]. rewrite map_app. simpl. fold a1 a2.
      etransitivity; [apply Permutation_app_comm|]. simpl. apply perm_swap. }
    assert (B1 : before (nabs (fZ a2)) (nabs (fZ a1))) by (eapply O; [|exact E2|exact E1]; lia).
    assert (B2 : forall b, In b (map (fun i => nth i rows d) u) -> before (nabs (fZ b)) (nabs (fZ a2))).
    { intros b Hb. apply in_map_iff in Hb as (k & <- & Hk). apply In_nth_error in Hk as [j Hj].
      assert (j < length u)%nat by (apply nth_error_Some; congruence).
      apply (O j (length u)); [assumption|rewrite nth_error_app1 by assumption; exact Hj|exact E2]. }
    destruct (nle _ _) eqn:C.
    + exists a2. split; [apply I; auto|]. split; [reflexivity|]. eapply picked_second; eauto.
    + exists a1. split; [apply I; auto|]. split; [reflexivity|]. eapply picked_first; eauto.
Qed.

Lemma bin_point_spec argsort i lo hi b : (forall l, sorts l (argsort i l)) ->
  let rows := filter (in_bin lo hi) b in
  (rows = [] /\ bin_point argsort i lo hi (map fE b) (map fZ b) = (n0, n0)) \/
  (exists a, In a rows /\ bin_point argsort i lo hi (map fE b) (map fZ b) = (fE a, nabs (fZ a)) /\ picked aZ rows a).
Proof.
  intros Hs rows. unfold bin_point. rewrite map_map.
  change (fun x => nle (fE x) hi && nlt lo (fE x)) with (in_bin lo hi). rewrite !bmask_map_map. fold rows.
  rewrite map_map. apply (pick_spec rows (argsort i (map aZ rows))). apply Hs.
Qed.

(** *** The curve *)
Local Notation raw_points := (raw_points fE fZ).
Definition cut (pts : list (N * N)) : nat :=
  let z := (length (filter (fun p => neqb (snd p) n0) pts) - 1)%nat in if (z =? 0)%nat then 1 else z.
Definition trimmed (edges : list N) (b : list A) (raw : list (N * N)) : list (N * N) :=
  filter (fun p => negb (neqb (fst p) n0))
    (match filter (fun a => ebin edges (length edges) (fE a)) b with
     | [] => firstn (length raw - cut raw) raw | _ => raw end).

Lemma nth_error_last (l : list N) : l <> [] -> exists t, nth_error l (length l - 1) = Some t.
Proof. intros H. apply nth_error_lt. destruct l; [tauto|simpl; lia]. Qed.

Lemma curve_spec argsort edges b pts : sorting argsort -> edges <> [] ->
  curve argsort edges (map fE b) (map fZ b) = Ok pts ->
  exists raw, raw_points edges b raw /\ pts = trimmed edges b raw.
Proof.
  intros Hs He. unfold curve. destruct (np_argmin (map fE b)) as [i0|] eqn:Ei; [|discriminate]. cbn [bind].
  apply np_argmin_spec in Ei as (a0 & Ha0 & Hmin). rewrite (at_map _ _ _ _ Ha0).
  destruct (nth_error_last edges He) as [top Ht]. rewrite Ht. cbn [bind]. rewrite map_map.
  change (fun x => nlt top (fE x)) with (fun x => nlt top (fE x)). rewrite !bmask_map_map.
  set (up := filter (fun x => nlt top (fE x)) b).
  assert (Hup : filter (fun a => ebin edges (length edges) (fE a)) b = up).
  { apply filter_ext. intros a. unfold ebin. rewrite Ht.
    assert (nth_error edges (length edges) = None) as -> by (apply nth_error_None; lia). now rewrite andb_true_r. }
  assert (Hn : (0 < length edges)%nat) by (destruct edges; [tauto|simpl; lia]).
  set (bins := map _ (seq 1 (length edges - 1))).
  assert (Lb : length bins = (length edges - 1)%nat) by (unfold bins; now rewrite map_length, seq_length).
  assert (Hbins : forall i p, nth_error bins i = Some p -> ebin_point edges fE fZ b (S i) p).
  { intros i p Hi. assert (Hlt : (i < length edges - 1)%nat) by (rewrite <- Lb; apply nth_error_Some; congruence).
    unfold bins in Hi. rewrite nth_error_map, (nth_error_nth' _ 0%nat) in Hi by (rewrite seq_length; lia).
    rewrite seq_nth in Hi by lia. simpl in Hi. rewrite Nat.sub_0_r in Hi. injection Hi as <-.
    destruct (nth_error_lt edges i) as [lo Hlo]; [lia|]. destruct (nth_error_lt edges (S i)) as [hi Hhi]; [lia|].
    unfold at_. rewrite (nth_error_nth _ _ _ Hlo), (nth_error_nth _ _ _ Hhi).
    unfold ebin_point.
    assert (F : filter (fun a => ebin edges (S i) (fE a)) b = filter (in_bin lo hi) b).
    { apply filter_ext. intros a. unfold ebin, in_bin. replace (S i - 1)%nat with i by lia. rewrite Hlo, Hhi. apply andb_comm. }
    rewrite F. destruct (Nat.ltb_spec (S i) (length edges)); [|lia].
    destruct (bin_point_spec argsort (S i) lo hi b) as [H1|H1]; [apply Hs|left; exact H1|right; exact H1]. }
  assert (Hraw : forall last, ebin_point edges fE fZ b (length edges) last ->
     raw_points edges b ((nm1, nabs (fZ a0)) :: bins ++ [last])).
  { intros last Hl. constructor.
    - eapply nth_error_In; eauto.
    - exact Hmin.
    - rewrite app_length, Lb. simpl. lia.
    - intros i p Hi. destruct (Nat.lt_ge_cases i (length bins)).
      + rewrite nth_error_app1 in Hi by auto. auto.
      + rewrite nth_error_app2 in Hi by auto. destruct (i - length bins)%nat as [|k] eqn:Ek.
        * simpl in Hi. injection Hi as <-. replace (S i) with (length edges) by lia. exact Hl.
        * simpl in Hi. destruct k; discriminate. }
  unfold trimmed. rewrite Hup. destruct up as [|u0 up'] eqn:Eu.
  - cbn [map bind]. intros [= <-]. eexists. split; [apply Hraw|].
    + left. unfold ebin_point. now rewrite Hup.
    + reflexivity.
  - rewrite <- Eu in *. cbn [map]. rewrite map_map.
    destruct (np_argmax (map aZ up)) as [k|e] eqn:Ek;
      [|rewrite Eu in Ek; discriminate].
    intros H. assert (H' : Ok (filter (fun p => negb (neqb (fst p) n0))
       ((nm1, nabs (fZ a0)) :: bins ++ [(at_ (map fE up) k, nabs (at_ (map fZ up) k))])) = Ok pts).
    { destruct (map fE up) eqn:Q; [rewrite Eu in Q; discriminate|]. exact H. }
    injection H' as <-. apply np_argmax_spec in Ek as (a & Ha & Hmax).
    rewrite !(at_map _ _ _ _ Ha). eexists. split; [apply Hraw|reflexivity].
    right. exists a. rewrite Hup. split; [eapply nth_error_In; eauto|]. split; [reflexivity|].
    destruct (Nat.ltb_spec (length edges) (length edges)); [lia|]. exact Hmax.
Qed.

(** The curve exists whenever there is a particle and an edge. *)
Lemma curve_ok argsort edges b : b <> [] -> edges <> [] -> exists pts, curve argsort edges (map fE b) (map fZ b) = Ok pts.
Proof.
  intros Hb He. unfold curve. destruct (np_argmin (map fE b)) as [i0|] eqn:Ei; [|destruct b; [tauto|discriminate]].
  cbn [bind]. destruct (nth_error_last edges He) as [top Ht]. rewrite Ht. cbn [bind]. rewrite !map_map, !bmask_map_map, map_map.
  destruct (filter _ b) as [|u up]; [eexists; reflexivity|]. eexists. reflexivity.
Qed.

(** *** Order of the points *)
Definition rising (edges : list N) : Prop :=
  nth_error edges 0 = Some nm1 /\
  forall i j a b, (i < j)%nat -> nth_error edges i = Some a -> nth_error edges j = Some b -> nle a b = true.

Lemma ebin_above edges i x : rising edges -> (1 <= i)%nat -> ebin edges i x = true -> nlt nm1 x = true.
Proof.
  intros [H0 Hr] Hi. unfold ebin. destruct (nth_error edges (i - 1)) as [lo|] eqn:E; [|discriminate].
  intros H. apply andb_prop in H as [H _]. destruct (i - 1)%nat as [|k] eqn:Ek; [congruence|].
  assert (nle nm1 lo = true) by (eapply Hr; [|exact H0|exact E]; lia).
  apply (nlt_iff RN). eapply xle_lt_trans; [apply (nle_iff RN)|apply (nlt_iff RN)]; eauto.
Qed.
Lemma ebin_order edges i j x y : rising edges -> (1 <= i)%nat -> (i < j)%nat ->
  ebin edges i x = true -> ebin edges j y = true -> nlt x y = true.
Proof.
  intros [H0 Hr] Hi Hij. unfold ebin.
  destruct (nth_error edges (i - 1)) as [lo|] eqn:E1; [|discriminate].
  destruct (nth_error edges (j - 1)) as [lo'|] eqn:E2; [|discriminate].
  destruct (nth_error edges i) as [hi|] eqn:E3.
  2:{ apply nth_error_None in E3. assert (j - 1 < length edges)%nat by (apply nth_error_Some; congruence). lia. }
  intros H H'. apply andb_prop in H as [_ H]. apply andb_prop in H' as [H' _].
  apply (nlt_iff RN). eapply xle_lt_trans; [apply (nle_iff RN); exact H|].
  apply (nlt_iff RN) in H'. destruct (Nat.eq_dec i (j - 1)) as [->|]; [assert (hi = lo') by congruence; now subst|].
  eapply xle_lt_trans; [|exact H']. apply (nle_iff RN). eapply Hr; [|exact E3|exact E2]. lia.
Qed.

Definition nzx (p : N * N) : bool := negb (neqb (fst p) n0).
Definition lt_pt (p q : N * N) : Prop := nlt (fst p) (fst q) = true.

Lemma SS_nth {B} (R : B -> B -> Prop) l :
  (forall i j p q, (i < j)%nat -> nth_error l i = Some p -> nth_error l j = Some q -> R p q) <-> StronglySorted R l.
Proof.
  split.
  - induction l as [|x l IH]; intros H; constructor.
    + apply IH. intros i j p q Hij Hi Hj. apply (H (S i) (S j)); auto. lia.
    + apply Forall_forall. intros y Hy. apply In_nth_error in Hy as [k Hk]. apply (H 0%nat (S k)); auto. lia.
  - induction 1 as [|x l Hs IH F]; intros i j p q Hij Hi Hj; [destruct i; discriminate|].
    destruct j as [|j]; [lia|]. destruct i as [|i].
    + injection Hi as <-. rewrite Forall_forall in F. apply F. eapply nth_error_In; eauto.
    + apply (IH i j); auto. lia.
Qed.
Lemma SS_firstn {B} (R : B -> B -> Prop) n l : StronglySorted R l -> StronglySorted R (firstn n l).
Proof.
  intros H. apply SS_nth. intros i j p q Hij Hi Hj. pose proof (proj2 (SS_nth R l) H) as G.
  assert (F : forall k r, nth_error (firstn n l) k = Some r -> nth_error l k = Some r).
  { clear. revert l. induction n as [|n IH]; intros [|x l] [|k] r; simpl; try discriminate; auto. }
  apply (G i j); auto.
Qed.
Lemma SS_filter {B} (R : B -> B -> Prop) (P : B -> bool) l :
  StronglySorted (fun p q => P p = true -> P q = true -> R p q) l -> StronglySorted R (filter P l).
Proof.
  induction 1 as [|x l Hs IH F]; simpl; [constructor|]. destruct (P x) eqn:E; [|exact IH].
  constructor; [exact IH|]. apply Forall_forall. intros y Hy. apply filter_In in Hy as [Hy Py].
  rewrite Forall_forall in F. now apply F.
Qed.

Lemma n0_eqb : neqb (n0 : N) n0 = true.
Proof. apply (neqb_iff RN). rewrite (val_n0 RN). split; [reflexivity|discriminate]. Qed.

Lemma raw_sorted edges b raw : rising edges -> raw_points edges b raw ->
  StronglySorted (fun p q => nzx p = true -> nzx q = true -> lt_pt p q) raw.
Proof.
  intros Hr [a0 ps _ _ L H]. apply SS_nth. intros i j p q Hij Hi Hj Np Nq.
  assert (C : forall k r, nth_error ps k = Some r -> nzx r = true -> ebin edges (S k) (fst r) = true).
  { intros k r Hk Nr. destruct (H k r Hk) as [[_ ->]|(a & Ha & -> & _)].
    - unfold nzx in Nr. simpl in Nr. now rewrite n0_eqb in Nr.
    - apply filter_In in Ha as [_ Ha]. exact Ha. }
  destruct j as [|j]; [lia|]. simpl in Hj. unfold lt_pt. destruct i as [|i].
  - simpl in Hi. injection Hi as <-. simpl. apply (ebin_above edges (S j)); auto with arith.
  - simpl in Hi. apply (ebin_order edges (S i) (S j)); auto; lia.
Qed.
Lemma trimmed_sorted edges b raw : rising edges -> raw_points edges b raw -> StronglySorted lt_pt (trimmed edges b raw).
Proof.
  intros Hr H. pose proof (raw_sorted _ _ _ Hr H) as S. unfold trimmed. apply SS_filter.
  change (fun p => negb (neqb (fst p) n0)) with nzx.
  destruct (filter _ b); [apply SS_firstn|]; exact S.
Qed.

Lemma nm1_nz : nzx (nm1, n0) = true.
Proof. unfold nzx. simpl. apply negb_true_iff. destruct (neqb nm1 n0) eqn:E; [|reflexivity].
  apply (neqb_iff RN) in E. rewrite (val_n0 RN), (val_nm1 RN) in E. destruct E as [E _]. injection E as E. exfalso. lra. Qed.

Lemma filter_le {B} (f : B -> bool) l : (length (filter f l) <= length l)%nat.
Proof. induction l as [|x l IH]; simpl; [lia|]. destruct (f x); simpl; lia. Qed.
(** The first point survives. *)
Lemma cut_lt edges b raw : edges <> [] -> raw_points edges b raw -> (cut raw < length raw)%nat.
Proof.
  intros He [a0 ps _ _ L H]. unfold cut.
  assert (length (filter (fun p : N * N => neqb (snd p) n0) ((nm1, nabs (fZ a0)) :: ps)) <= S (length ps))%nat.
  { etransitivity; [apply filter_le|]. simpl. lia. }
  assert (0 < length ps)%nat by (rewrite L; destruct edges; [tauto|simpl; lia]).
  change (length ((nm1, nabs (fZ a0)) :: ps)) with (S (length ps)).
  set (z := length (filter _ _)) in *. clearbody z. destruct (_ =? 0)%nat; lia.
Qed.
Lemma trimmed_head edges b raw : edges <> [] -> raw_points edges b raw ->
  exists a0 r, In a0 b /\ (forall a, In a b -> nlt (fE a) (fE a0) = false) /\
    trimmed edges b raw = (nm1, nabs (fZ a0)) :: r.
Proof.
  intros He H. pose proof (cut_lt _ _ _ He H) as C. destruct H as [a0 ps I M L H]. exists a0.
  unfold trimmed. change (fun p => negb (neqb (fst p) n0)) with nzx.
  assert (Z : nzx (nm1, nabs (fZ a0)) = true) by exact nm1_nz.
  destruct (filter _ b).
  - simpl length in *. destruct (S (length ps) - cut _)%nat as [|k] eqn:Ek; [lia|].
    rewrite firstn_cons. cbn [filter]. rewrite Z. eauto.
  - cbn [filter]. rewrite Z. eauto.
Qed.
Lemma In_firstn {B} n (l : list B) x : In x (firstn n l) -> In x l.
Proof. intros H. rewrite <- (firstn_skipn n l). apply in_or_app; auto. Qed.
(** Every point after the first belongs to a bin. *)
Lemma trimmed_tail edges b raw p q r : edges <> [] -> raw_points edges b raw -> trimmed edges b raw = p :: r -> In q r ->
  nzx q = true /\ exists i, (1 <= i <= length edges)%nat /\ ebin_point edges fE fZ b i q /\ nth_error raw i = Some q.
Proof.
  intros He H. pose proof (trimmed_head _ _ _ He H) as (a0' & r' & _ & _ & E). pose proof (cut_lt _ _ _ He H) as C.
  destruct H as [a0 ps I M L H]. intros T Hq.
  assert (Q : In q (filter nzx ps)).
  { unfold trimmed in T. change (fun p => negb (neqb (fst p) n0)) with nzx in T. assert (Z : nzx (nm1, nabs (fZ a0)) = true) by exact nm1_nz.
    destruct (filter (fun a => ebin edges _ _) b).
    - simpl length in *. destruct (S (length ps) - cut _)%nat as [|k] eqn:Ek; [lia|].
      rewrite firstn_cons in T. cbn [filter] in T. rewrite Z in T. injection T as _ T. subst r.
      apply filter_In in Hq as [Hq1 Hq2]. apply filter_In. split; [eapply In_firstn; eauto|exact Hq2].
    - cbn [filter] in T. rewrite Z in T. injection T as _ T. subst r. exact Hq. }
  apply filter_In in Q as [Q1 Q2]. split; [exact Q2|]. apply In_nth_error in Q1 as [k Hk]. exists (S k).
  assert (k < length ps)%nat by (apply nth_error_Some; congruence). split; [lia|]. split; [auto|exact Hk].
Qed.

End Curve.
