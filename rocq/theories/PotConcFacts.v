(** Every parallel execution of the Fortran loop returns the sequential result. *)
From Verif Require Import Py Num Np Data Potential PotConc RX Spec SpecR SpecPot CenterFacts.

Section Facts.
Context {S : Num}.
Implicit Types (bs : list (body S)) (bi bj : body S).

Lemma finner_app (soft2 : S) i j bi acc l l' :
  finner soft2 i j bi acc (l ++ l') = finner soft2 i (j + length l) bi (finner soft2 i j bi acc l) l'.
Proof.
  revert j acc; induction l as [|b l IH]; intros j acc; simpl; [now rewrite Nat.add_0_r|].
  rewrite IH. f_equal. lia.
Qed.

Lemma finner_none (soft2 : S) i j bi acc l : (i < j \/ j + length l <= i)%nat ->
  finner soft2 i j bi acc l = fold_left (fun a b => (a + fterm soft2 bi b)%num) l acc.
Proof.
  revert j acc; induction l as [|b l IH]; intros j acc H; simpl; [reflexivity|].
  simpl in H. rewrite IH by lia. destruct (Nat.eqb_spec i j); [lia|reflexivity].
Qed.

Lemma firstn_S_nth {A} (l : list A) j b : nth_error l j = Some b -> firstn (Datatypes.S j) l = firstn j l ++ [b].
Proof.
  revert j; induction l as [|a l IH]; intros [|j] H; try discriminate.
  - injection H as ->. reflexivity.
  - change (firstn (Datatypes.S (Datatypes.S j)) (a :: l)) with (a :: firstn (Datatypes.S j) l).
    rewrite (IH j) by exact H. reflexivity.
Qed.
Lemma split_nth {A} (l : list A) i b : nth_error l i = Some b -> l = firstn i l ++ b :: skipn (Datatypes.S i) l.
Proof.
  revert i; induction l as [|a l IH]; intros [|i] H; try discriminate.
  - injection H as ->. reflexivity.
  - change (a :: l = a :: (firstn i l ++ b :: skipn (Datatypes.S i) l)). f_equal. now apply IH.
Qed.

(** The sequential inner loop skips exactly entry [i]. *)
Lemma finner_others (soft2 : S) bs i bi acc : nth_error bs i = Some bi ->
  finner soft2 i 0 bi acc bs = fold_left (fun a b => (a + fterm soft2 bi b)%num) (others bs i) acc.
Proof.
  intros H. pose proof (nth_error_Some bs i) as L. rewrite H in L.
  assert (i < length bs)%nat by (apply L; discriminate). clear L.
  rewrite (split_nth bs i bi H) at 1. rewrite finner_app. simpl.
  rewrite firstn_length, Nat.min_l by lia. rewrite Nat.eqb_refl.
  rewrite !finner_none by (rewrite ?firstn_length; lia).
  unfold others. now rewrite fold_left_app.
Qed.

Section Inv.
Variable soft2 : S.
Variable bs : list (body S).
Let n := length bs.

(** Value of [pe(i)] when the inner loop of iteration [i] reaches [j]. *)
Definition prefix (i j : nat) (bi : body S) : S := finner soft2 i 0 bi n0 (firstn j bs).

Lemma prefix_S i j bi bj : nth_error bs j = Some bj ->
  prefix i (Datatypes.S j) bi = if (i =? j)%nat then prefix i j bi else (prefix i j bi + fterm soft2 bi bj)%num.
Proof.
  intros H. unfold prefix. rewrite (firstn_S_nth _ _ _ H), finner_app. simpl.
  rewrite firstn_length. assert (j < length bs)%nat by (apply nth_error_Some; congruence).
  rewrite Nat.min_l by lia. reflexivity.
Qed.

Definition task_ok (i : nat) (bi : body S) (c : pc S) (v : S) : Prop :=
  match c with
  | Start => True
  | Head j => (j <= n)%nat /\ v = prefix i j bi
  | Have j d => exists bj, nth_error bs j = Some bj /\ i <> j /\ v = prefix i j bi /\
      d = fdist soft2 (b_x bi) (b_y bi) (b_z bi) (b_x bj) (b_y bj) (b_z bj)
  | Read j d r => exists bj, nth_error bs j = Some bj /\ i <> j /\ r = prefix i j bi /\
      d = fdist soft2 (b_x bi) (b_y bi) (b_z bi) (b_x bj) (b_y bj) (b_z bj)
  end.

Definition inv (s : state S) : Prop :=
  length (pe s) = n /\ length (pcs s) = n /\
  forall i bi c v, nth_error bs i = Some bi -> nth_error (pcs s) i = Some c -> nth_error (pe s) i = Some v ->
    task_ok i bi c v.

Lemma inv_init pe0 : length pe0 = n -> inv (St pe0 (repeat Start n)).
Proof.
  intros H. split; [exact H|]. split; [apply repeat_length|]. simpl. intros i bi c v _ Hc _.
  apply nth_error_In, repeat_spec in Hc. subst c. exact I.
Qed.

Lemma inv_step s t : inv s -> step soft2 bs s t -> inv t.
Proof.
  intros (L1 & L2 & H) St. inversion St as [i c mem cs mem' c' Hc Ht]; subst s t. clear St. simpl in *.
  assert (Hi : (i < n)%nat) by (rewrite <- L2; apply nth_error_Some; congruence).
  destruct (nth_error bs i) as [bi|] eqn:Ebi; [|apply nth_error_None in Ebi; lia].
  destruct (nth_error mem i) as [v|] eqn:Ev; [|apply nth_error_None in Ev; lia].
  pose proof (H i bi c v Ebi Hc Ev) as K.
  assert (F : forall mem'' c'', length mem'' = n -> (forall k, k <> i -> nth_error mem'' k = nth_error mem k) ->
     (forall w, nth_error mem'' i = Some w -> task_ok i bi c'' w) -> inv (St mem'' (upd cs i c''))).
  { intros mem'' c'' Lm Oth Own. split; [exact Lm|]. split; [simpl; rewrite upd_length; exact L2|].
    simpl. intros k bk ck vk Hbk Hck Hvk. rewrite upd_nth in Hck by (rewrite L2; exact Hi).
    destruct (Nat.eqb_spec k i) as [->|Hk].
    - injection Hck as <-. assert (bk = bi) as -> by congruence. now apply Own.
    - rewrite Oth in Hvk by exact Hk. eapply H; eauto. }
  assert (U : forall w k, k <> i -> nth_error (upd mem i w) k = nth_error mem k).
  { intros w k Hk. rewrite upd_nth by (rewrite L1; exact Hi). destruct (Nat.eqb_spec k i); congruence. }
  assert (V : forall w w', nth_error (upd mem i w) i = Some w' -> w' = w).
  { intros w w' Hw. rewrite upd_nth in Hw by (rewrite L1; exact Hi). rewrite Nat.eqb_refl in Hw. congruence. }
  destruct c as [|j|j d|j d r]; simpl in Ht, K.
  - injection Ht as <- <-. apply F; [rewrite upd_length; exact L1|apply U|].
    intros w Hw. apply V in Hw. subst w. simpl. split; [lia|reflexivity].
  - rewrite Ebi in Ht. destruct (nth_error bs j) as [bj|] eqn:Ebj; [|discriminate].
    destruct K as [Kj Kv]. assert (j < n)%nat by (apply nth_error_Some; congruence).
    destruct (Nat.eqb_spec i j) as [<-|Hij]; injection Ht as <- <-.
    + apply F; auto. intros w Hw. assert (w = v) by congruence. subst w. simpl. split; [lia|].
      rewrite (prefix_S i i bi bi Ebi), Nat.eqb_refl. exact Kv.
    + apply F; auto. intros w Hw. assert (w = v) by congruence. subst w. simpl. eauto 6.
  - rewrite Ev in Ht. injection Ht as <- <-. destruct K as (bj & Ebj & Hij & Kv & Kd).
    apply F; auto. intros w Hw. simpl. eauto 6.
  - destruct K as (bj & Ebj & Hij & Kr & Kd). rewrite Ebj in Ht. injection Ht as <- <-.
    apply F; [rewrite upd_length; exact L1|apply U|]. intros w Hw. apply V in Hw. subst w. simpl.
    assert (j < n)%nat by (apply nth_error_Some; congruence). split; [lia|].
    rewrite (prefix_S i j bi bj Ebj). destruct (Nat.eqb_spec i j); [contradiction|].
    unfold fterm. congruence.
Qed.

Lemma inv_steps s t : inv s -> steps soft2 bs s t -> inv t.
Proof. intros Hs H. induction H; auto. apply IHsteps. eapply inv_step; eauto. Qed.

Lemma inv_finished s : inv s -> finished bs s ->
  pe s = map2 (fun i bi => finner soft2 i 0 bi n0 bs) (seq 0 n) bs.
Proof.
  intros (L1 & L2 & H) Fin. apply nth_error_ext. intros i. rewrite map2_nth.
  destruct (Nat.lt_ge_cases i n) as [Hi|Hi].
  - destruct (nth_error_lt (pe s) i) as [v Hv]; [lia|].
    destruct (nth_error_lt bs i) as [bi Hbi]; [exact Hi|].
    destruct (nth_error_lt (pcs s) i) as [c Hc]; [lia|].
    pose proof (H i bi c v Hbi Hc Hv) as K.
    unfold finished in Fin. rewrite Forall_forall in Fin. apply nth_error_In in Hc. apply Fin in Hc. subst c.
    destruct K as [_ K]. unfold prefix in K. rewrite firstn_all in K.
    rewrite Hv, Hbi. rewrite (nth_error_nth' _ 0%nat) by (rewrite seq_length; exact Hi).
    rewrite seq_nth by exact Hi. simpl. congruence.
  - assert (nth_error (pe s) i = None) as -> by (apply nth_error_None; lia).
    assert (nth_error (seq 0 n) i = None) as -> by (apply nth_error_None; rewrite seq_length; lia).
    reflexivity.
Qed.

(** ** Progress and termination *)
Definition cost (c : pc S) : nat :=
  match c with
  | Start => 3 * n + 1
  | Head j => 3 * (n - j)
  | Have j _ => 3 * (n - j) - 1
  | Read j _ _ => 3 * (n - j) - 2
  end.
Definition total_cost (s : state S) : nat := list_sum (map cost (pcs s)).

Lemma list_sum_upd (f : pc S -> nat) cs i c c' : nth_error cs i = Some c ->
  (list_sum (map f (upd cs i c')) + f c = list_sum (map f cs) + f c')%nat.
Proof.
  revert i; induction cs as [|a cs IH]; intros [|i] H; try discriminate; simpl.
  - injection H as ->. lia.
  - specialize (IH i H). lia.
Qed.

Lemma step_cost s t : inv s -> step soft2 bs s t -> (total_cost t < total_cost s)%nat.
Proof.
  intros (L1 & L2 & H) St. inversion St as [i c mem cs mem' c' Hc Ht]; subst s t. clear St. simpl in *.
  assert (Hi : (i < n)%nat) by (rewrite <- L2; apply nth_error_Some; congruence).
  destruct (nth_error_lt bs i Hi) as [bi Ebi]. destruct (nth_error_lt mem i) as [v Ev]; [lia|].
  pose proof (H i bi c v Ebi Hc Ev) as K.
  unfold total_cost; simpl. pose proof (list_sum_upd cost cs i c c' Hc) as E.
  enough (cost c' < cost c)%nat by lia.
  destruct c as [|j|j d|j d r]; simpl in Ht, K.
  - injection Ht as _ <-. simpl. lia.
  - rewrite Ebi in Ht. destruct (nth_error bs j) as [bj|] eqn:Ebj; [|discriminate].
    assert (j < n)%nat by (apply nth_error_Some; congruence).
    destruct (i =? j)%nat; injection Ht as _ <-; simpl; lia.
  - rewrite Ev in Ht. injection Ht as _ <-. destruct K as (bj & Ebj & _).
    assert (j < n)%nat by (apply nth_error_Some; congruence). simpl. lia.
  - destruct K as (bj & Ebj & _). rewrite Ebj in Ht. injection Ht as _ <-.
    assert (j < n)%nat by (apply nth_error_Some; congruence). simpl. lia.
Qed.

Lemma progress s : inv s -> ~ finished bs s -> exists t, step soft2 bs s t.
Proof.
  intros (L1 & L2 & H) NF. destruct s as [mem cs]. simpl in *.
  assert (exists i c, nth_error cs i = Some c /\ c <> Head n) as (i & c & Hc & Hn).
  { unfold finished in NF. simpl in NF. clear L2 H. induction cs as [|a cs IH]; [exfalso; apply NF; constructor|].
    assert (D : a = Head n \/ a <> Head n).
    { destruct a as [|j| |]; try (right; discriminate). destruct (Nat.eq_dec j n) as [->|]; auto.
      right. intros [= E]. contradiction. }
    destruct D as [->|D].
    - destruct IH as (i & c & Hc & Hn).
      + intros F. apply NF. constructor; auto.
      + exists (Datatypes.S i), c. auto.
    - exists 0%nat, a. auto. }
  assert (Hi : (i < n)%nat) by (rewrite <- L2; apply nth_error_Some; congruence).
  destruct (nth_error_lt bs i Hi) as [bi Ebi]. destruct (nth_error_lt mem i) as [v Ev]; [lia|].
  pose proof (H i bi c v Ebi Hc Ev) as K.
  assert (exists r, task_step soft2 bs i c mem = Some r) as [[mem' c'] Ht].
  { destruct c as [|j|j d|j d r]; simpl in *.
    - eauto.
    - rewrite Ebi. destruct K as [Kj _].
      destruct (nth_error_lt bs j) as [bj ->]. { destruct (Nat.eq_dec j n); [congruence|unfold n in *; lia]. }
      destruct (i =? j)%nat; eauto.
    - rewrite Ev. eauto.
    - destruct K as (bj & -> & _). eauto. }
  exists (St mem' (upd cs i c')). econstructor; eauto.
Qed.

Lemma finished_dec s : {finished bs s} + {~ finished bs s}.
Proof.
  unfold finished. apply Forall_dec. intros [|j| |]; try (right; discriminate).
  destruct (Nat.eq_dec j (length bs)) as [->|]; [left; reflexivity|right; intros [= E]; contradiction].
Qed.

Lemma can_finish s : inv s -> exists t, steps soft2 bs s t /\ finished bs t.
Proof.
  remember (total_cost s) as k eqn:E. revert s E. induction k as [k IH] using lt_wf_ind. intros s E Hs.
  destruct (finished_dec s) as [F|F]; [exists s; split; [constructor|exact F]|].
  destruct (progress s Hs F) as [t Ht]. pose proof (step_cost s t Hs Ht) as L.
  destruct (IH (total_cost t) ltac:(lia) t eq_refl (inv_step _ _ Hs Ht)) as (u & Hu & Fu).
  exists u. split; [econstructor; eauto|exact Fu].
Qed.

Lemma steps_bounded k : forall (f : nat -> state S), inv (f 0%nat) ->
  (forall a, (a < k)%nat -> step soft2 bs (f a) (f (Datatypes.S a))) -> (k <= total_cost (f 0%nat))%nat.
Proof.
  intros f H0 Hs.
  assert (Q : forall a, (a <= k)%nat -> inv (f a) /\ (total_cost (f a) + a <= total_cost (f 0%nat))%nat).
  { induction a as [|a IHa]; intros Ha; [split; [exact H0|lia]|].
    destruct IHa as [Ia Ca]; [lia|]. specialize (Hs a ltac:(lia)). split; [eapply inv_step; eauto|].
    pose proof (step_cost _ _ Ia Hs). lia. }
  destruct (Q k (Nat.le_refl k)). lia.
Qed.
End Inv.

(** ** The lists of bodies and of sources *)
Definition src_of (b : body S) : source := (b_x b, b_y b, (b_z b, b_m b)).
Lemma bodies_sources x y z m : map src_of (bodies x y z m) = sources x y z m.
Proof.
  unfold bodies, sources. rewrite map_map2. unfold src_of. simpl.
  assert (E : forall A B (a : list A) (b : list B), map2 pair a b = combine a b).
  { clear. induction a; intros [|]; simpl; congruence. }
  rewrite !E. rewrite <- (E _ _ (combine x y) (combine z m)). apply map2_ext. intros [] []; reflexivity.
Qed.
Lemma bodies_length (x y z m : list S) : length y = length x -> length z = length x -> length m = length x ->
  length (bodies x y z m) = length x.
Proof. intros. unfold bodies. rewrite !map2_length. lia. Qed.
Lemma others_map {A B} (f : A -> B) l i : others (map f l) i = map f (others l i).
Proof. unfold others. now rewrite map_app, firstn_map, skipn_map. Qed.

Lemma fortran_kernel_nth (x y z m : list S) soft i p :
  nth_error (sources x y z m) i = Some p ->
  nth_error (fortran_kernel x y z m soft) i = Some (pair_sum soft (sources x y z m) i p).
Proof.
  intros H. rewrite <- bodies_sources in H |- *. rewrite nth_error_map in H.
  destruct (nth_error (bodies x y z m) i) as [b|] eqn:Eb; [|discriminate]. injection H as <-.
  unfold fortran_kernel. rewrite map2_nth, Eb.
  assert (i < length (bodies x y z m))%nat by (apply nth_error_Some; congruence).
  rewrite (nth_error_nth' _ 0%nat) by (rewrite seq_length; auto). rewrite seq_nth by auto. simpl.
  f_equal. rewrite (finner_others _ _ _ _ _ Eb). unfold pair_sum. rewrite others_map.
  generalize (others (bodies x y z m) i) as l. generalize (n0 : S) as acc. clear.
  intros acc l; revert acc; induction l as [|c l IH]; intros acc; simpl; [reflexivity|]. now rewrite IH.
Qed.
Lemma fortran_kernel_length (x y z m : list S) soft : length (fortran_kernel x y z m soft) = length (bodies x y z m).
Proof. unfold fortran_kernel. rewrite map2_length, seq_length. lia. Qed.

End Facts.
