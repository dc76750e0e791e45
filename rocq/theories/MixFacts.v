(** Facts on the mixture models. *)
From Verif Require Import Py Num RX F64 Np Df Data CenterFacts SpecBase Base BaseFacts Center Threshold Hist EnergyFacts SpecMix Mixture.
From Coq Require Import Permutation Lia.

(** ** Grouping *)
Section Group.
Context {N : Num}.

Lemma p_col_ok (p : probs N) i c : p_col p i = Ok c -> (i < pr_width p)%nat /\ c = map (fun r => nth i r nnan) (pr_rows p).
Proof. unfold p_col. destruct (Nat.ltb_spec i (pr_width p)); [|discriminate]. intros [= <-]. auto. Qed.

Lemma add_if_ok b (p : probs N) i acc acc' : add_if b p i acc = Ok acc' ->
  length acc' = length acc /\
  forall r v row, nth_error acc r = Some v -> nth_error (pr_rows p) r = Some row ->
    nth_error acc' r = Some (if b then nadd v (nth i row nnan) else v).
Proof.
  unfold add_if. destruct b; [|intros [= <-]; auto].
  destruct (p_col p i) as [c|] eqn:E; [|discriminate]. cbn [bind]. apply p_col_ok in E as (Hi & ->). unfold vadd.
  destruct (Nat.eqb_spec (length acc) (length (map (fun r => nth i r nnan) (pr_rows p)))) as [L|L]; [|discriminate]. intros [= <-].
  split; [rewrite map2_length; lia|]. intros r v row Hv Hr. rewrite map2_nth, Hv, nth_error_map, Hr. reflexivity.
Qed.
Lemma add_if_returns b (p : probs N) i acc : (i < pr_width p)%nat -> length (pr_rows p) = length acc -> exists acc', add_if b p i acc = Ok acc'.
Proof.
  intros Hi L. unfold add_if. destruct b; [|eauto]. unfold p_col. apply Nat.ltb_lt in Hi. rewrite Hi. cbn [guard bind]. unfold vadd.
  rewrite map_length, L, Nat.eqb_refl. cbn [guard bind]. eauto.
Qed.

Lemma entry_ok (m : list (list N)) i k x : entry m i k = Ok x -> x = coord m i k.
Proof.
  unfold entry, coord. destruct (nth_error m i) as [r|] eqn:E; [|discriminate]. destruct (nth_error r k) as [y|] eqn:F; [|discriminate].
  intros [= <-]. rewrite (nth_error_nth _ _ _ E). symmetry. now apply nth_error_nth.
Qed.

Definition tot (k : N -> N -> bool) (means : list (list N)) (l : list nat) (row : list N) (v : N) : N :=
  fold_left nadd (map (fun i => nth i row nnan) (filter (fun i => k (coord means i 0) (coord means i 1)) l)) v.
Definition t_cold (energy eps : N) := nge eps (nlit 85 100).
Definition t_warm (energy eps : N) := nlt eps (nlit 85 100) && nge eps (nlit 1 2).
Definition t_halo (energy eps : N) := nlt eps (nlit 1 2) && nge energy (nlit (-3) 4).
Definition t_bulge (energy eps : N) := nlt eps (nlit 1 2) && nlt energy (nlit (-3) 4).

Lemma group_step_ok means (p : probs N) h b c w i h' b' c' w' :
  group_step means p (Ok (h, b, c, w)) i = Ok (h', b', c', w') ->
  let e := coord means i 0 in let x := coord means i 1 in
  add_if (t_halo e x) p i h = Ok h' /\ add_if (t_bulge e x) p i b = Ok b' /\
  add_if (t_cold e x) p i c = Ok c' /\ add_if (t_warm e x) p i w = Ok w'.
Proof.
  unfold group_step. cbn [bind]. destruct (entry means i 1) as [x|] eqn:E1; [|discriminate]. apply entry_ok in E1. subst x. cbn [bind].
  destruct (add_if (nge _ _) p i c) as [c1|] eqn:A1; [|discriminate]. cbn [bind].
  destruct (add_if (nlt _ _ && nge (coord means i 1) _) p i w) as [w1|] eqn:A2; [|discriminate]. cbn [bind].
  destruct (entry means i 0) as [e|] eqn:E0; [|discriminate]. apply entry_ok in E0. subst e. cbn [bind].
  destruct (add_if (nlt _ _ && nge (coord means i 0) _) p i h) as [h1|] eqn:A3; [|discriminate]. cbn [bind].
  destruct (add_if (nlt _ _ && nlt (coord means i 0) _) p i b) as [b1|] eqn:A4; [|discriminate]. cbn [bind].
  intros [= <- <- <- <-]. auto.
Qed.
Lemma group_fold_raise means (p : probs N) e l : fold_left (group_step means p) l (Raise e) = Raise e.
Proof. induction l; [reflexivity|exact IHl]. Qed.

Lemma group_fold means (p : probs N) l : forall h b c w h' b' c' w',
  fold_left (group_step means p) l (Ok (h, b, c, w)) = Ok (h', b', c', w') ->
  forall k x x', In (k, x, x') [(t_halo, h, h'); (t_bulge, b, b'); (t_cold, c, c'); (t_warm, w, w')] ->
  length x' = length x /\
  forall r v row, nth_error x r = Some v -> nth_error (pr_rows p) r = Some row -> nth_error x' r = Some (tot k means l row v).
Proof.
  induction l as [|i l IH]; intros h b c w h' b' c' w' H k x x' Hin.
  - simpl in H. injection H as <- <- <- <-. destruct Hin as [[= <- <- <-]|[[= <- <- <-]|[[= <- <- <-]|[[= <- <- <-]|[]]]]]; split; auto.
  - cbn [fold_left] in H. destruct (group_step means p (Ok (h, b, c, w)) i) as [[[[h1 b1] c1] w1]|e] eqn:E; [|rewrite group_fold_raise in H; discriminate].
    apply group_step_ok in E as (A1 & A2 & A3 & A4).
    assert (exists x1, In (k, x1, x') [(t_halo, h1, h'); (t_bulge, b1, b'); (t_cold, c1, c'); (t_warm, w1, w')] /\ add_if (k (coord means i 0) (coord means i 1)) p i x = Ok x1) as (x1 & I1 & A).
    { destruct Hin as [[= <- <- <-]|[[= <- <- <-]|[[= <- <- <-]|[[= <- <- <-]|[]]]]]; eexists; (split; [|eassumption]); simpl; auto 6. }
    destruct (IH _ _ _ _ _ _ _ _ H k x1 x' I1) as (L & V). apply add_if_ok in A as (L1 & V1). split; [congruence|].
    intros r v row Hv Hr. rewrite (V r _ row (V1 r v row Hv Hr) Hr). unfold tot. cbn [filter].
    destruct (k (coord means i 0) (coord means i 1)); reflexivity.
Qed.
Lemma group_fold_returns means (p : probs N) l : forall h b c w,
  (forall i, In i l -> (i < pr_width p)%nat /\ exists r, nth_error means i = Some r /\ (2 <= length r)%nat) ->
  length h = length (pr_rows p) -> length b = length (pr_rows p) -> length c = length (pr_rows p) -> length w = length (pr_rows p) ->
  exists r, fold_left (group_step means p) l (Ok (h, b, c, w)) = Ok r.
Proof.
  induction l as [|i l IH]; intros h b c w Hl Lh Lb Lc Lw; [simpl; eauto|]. cbn [fold_left].
  destruct (Hl i) as (Hi & r & Hr & L2); [now left|].
  assert (forall k, (k < 2)%nat -> exists x, entry means i k = Ok x) as HE.
  { intros k Hk. unfold entry. rewrite Hr. destruct (nth_error r k) as [x|] eqn:E; [eauto|]. apply nth_error_None in E. lia. }
  destruct (HE 0%nat) as (e & E0); [lia|]. destruct (HE 1%nat) as (x & E1); [lia|].
  destruct (add_if_returns (t_cold e x) p i c) as (c1 & A1); [auto|auto|].
  destruct (add_if_returns (t_warm e x) p i w) as (w1 & A2); [auto|auto|].
  destruct (add_if_returns (t_halo e x) p i h) as (h1 & A3); [auto|auto|].
  destruct (add_if_returns (t_bulge e x) p i b) as (b1 & A4); [auto|auto|].
  assert (group_step means p (Ok (h, b, c, w)) i = Ok (h1, b1, c1, w1)) as ->.
  { unfold group_step. cbn [bind]. rewrite E1. cbn [bind]. unfold t_cold in A1. rewrite A1. cbn [bind]. unfold t_warm in A2. rewrite A2. cbn [bind].
    rewrite E0. cbn [bind]. unfold t_halo in A3. rewrite A3. cbn [bind]. unfold t_bulge in A4. rewrite A4. reflexivity. }
  apply add_if_ok in A1 as (A1 & _). apply add_if_ok in A2 as (A2 & _). apply add_if_ok in A3 as (A3 & _). apply add_if_ok in A4 as (A4 & _).
  apply IH; try congruence. intros j Hj. apply Hl. now right.
Qed.

Lemma stack_nth (a b c d : list N) r : nth_error (stack a b c d) r =
  match nth_error a r, nth_error b r, nth_error c r, nth_error d r with
  | Some x, Some y, Some z, Some w => Some [x; y; z; w]
  | _, _, _, _ => None
  end.
Proof.
  revert b c d r. induction a as [|x a IH]; intros [|y b] [|z c] [|w d] [|r]; simpl; try reflexivity; try apply IH;
    repeat match goal with |- context [match nth_error ?l ?i with _ => _ end] => destruct (nth_error l i) end; reflexivity.
Qed.
Lemma stack_length (a b c d : list N) n : length a = n -> length b = n -> length c = n -> length d = n -> length (stack a b c d) = n.
Proof.
  revert a b c d. induction n as [|n IH]; intros [|x a] [|y b] [|z c] [|w d]; simpl; intros; try discriminate; auto.
Qed.
Lemma stack_row (a b c d : list N) row : In row (stack a b c d) -> length row = 4%nat.
Proof.
  intros I. apply In_nth_error in I as (r & E). rewrite stack_nth in E.
  destruct (nth_error a r), (nth_error b r), (nth_error c r), (nth_error d r); try discriminate. injection E as <-. reflexivity.
Qed.

Lemma group_inv (f : fitted N) X labels (p : probs N) : group f X = Ok (labels, p) ->
  exists q h b c w ls, f_proba f X = Ok q /\
    fold_left (group_step (f_means f) q) (seq 0 (f_n f)) (Ok (repeat n0 (length X), repeat n0 (length X), repeat n0 (length X), repeat n0 (length X))) = Ok (h, b, c, w) /\
    p = Probs 4 (stack h b c w) /\ mapM np_argmax (stack h b c w) = Ok ls /\ labels = map Z.of_nat ls /\
    length h = length X /\ length b = length X /\ length c = length X /\ length w = length X.
Proof.
  unfold group. destruct (f_proba f X) as [q|] eqn:E; [|discriminate]. cbn [bind].
  destruct (fold_left _ _ _) as [[[[h b] c] w]|] eqn:F; [|discriminate]. cbn [bind].
  destruct (mapM np_argmax _) as [ls|] eqn:M; [|discriminate]. cbn [bind]. intros [= <- <-].
  exists q, h, b, c, w, ls. pose proof (group_fold _ _ _ _ _ _ _ _ _ _ _ F) as G.
  split; [reflexivity|]. split; [exact F|]. split; [reflexivity|]. split; [exact M|]. split; [reflexivity|].
  repeat split; (etransitivity; [eapply G; simpl; eauto 6|apply repeat_length]).
Qed.

End Group.

(** ** Order *)
Section Order.
Context {N : Num} (RN : Rounded N).

Lemma argmax_from_max (l : list N) : forall (best : N) bi i,
  nisnan best = false -> (forall x, In x l -> nisnan x = false) -> (bi < i)%nat ->
  let z := argmax_from best bi i l in
  (z = bi /\ (forall x, In x l -> nle x best = true)) \/
  (i <= z /\ exists w, nth_error l (z - i) = Some w /\ nlt best w = true /\
     forall j v, nth_error l j = Some v -> nle v w = true /\ ((j < z - i)%nat -> nlt v w = true))%nat.
Proof.
  induction l as [|x l IH]; intros best bi i Hb Hl Hi; cbn [argmax_from]; cbv zeta.
  - left. split; [reflexivity|intros x []].
  - rewrite Hb. assert (Hx : nisnan x = false) by (apply Hl; now left). rewrite Hx. cbn [orb].
    assert (Hl' : forall y, In y l -> nisnan y = false) by (intros y Hy; apply Hl; now right).
    destruct (nlt best x) eqn:E.
    + right. destruct (IH x i (S i) Hx Hl' ltac:(lia)) as [(-> & A)|(A & w & B & C & D)].
      * split; [lia|]. exists x. rewrite Nat.sub_diag. split; [reflexivity|]. split; [exact E|]. intros j v Hv. split; [|lia].
        destruct j as [|j]; simpl in Hv; [injection Hv as <-|apply A; eapply nth_error_In; exact Hv].
        apply (nle_iff RN), xle_refl. apply (nisnan_false RN). exact Hx.
      * set (z := argmax_from x i (S i) l) in *. split; [lia|]. exists w. replace (z - i)%nat with (S (z - S i)) by lia. split; [exact B|].
        apply (nlt_iff RN) in E, C. split; [apply (nlt_iff RN); eapply xlt_trans; eauto|].
        intros [|j] v Hv; simpl in Hv.
        -- injection Hv as <-. split; [apply (nle_iff RN); now apply xlt_le|intros _; now apply (nlt_iff RN)].
        -- destruct (D j v Hv) as (D1 & D2). split; [exact D1|]. intros Hj. apply D2. lia.
    + assert (X : nle x best = true).
      { apply (nlt_false RN) in E. apply (nle_iff RN). apply (nisnan_false RN) in Hb, Hx. destruct (xle_total _ _ Hx Hb); [assumption|contradiction]. }
      destruct (IH best bi (S i) Hb Hl' ltac:(lia)) as [(-> & A)|(A & w & B & C & D)].
      * left. split; [reflexivity|]. intros y [<-|Hy]; auto.
      * right. set (z := argmax_from best bi (S i) l) in *. split; [lia|]. exists w. replace (z - i)%nat with (S (z - S i)) by lia. split; [exact B|]. split; [exact C|].
        apply (nlt_iff RN) in C. apply (nle_iff RN) in X.
        intros [|j] v Hv; simpl in Hv.
        -- injection Hv as <-. assert (xlt (val RN x) (val RN w)) by (eapply xle_lt_trans; eauto).
           split; [apply (nle_iff RN); now apply xlt_le|intros _; now apply (nlt_iff RN)].
        -- destruct (D j v Hv) as (D1 & D2). split; [exact D1|]. intros Hj. apply D2. lia.
Qed.
Lemma np_argmax_first (l : list N) z : np_argmax l = Ok z -> (forall x, In x l -> nisnan x = false) -> first_max l z.
Proof.
  destruct l as [|x l]; [discriminate|]. intros [= <-] Hl. assert (Hx : nisnan x = false) by (apply Hl; now left).
  assert (RX : nle x x = true).
  { apply (nle_iff RN), xle_refl. now apply (nisnan_false RN). }
  destruct (argmax_from_max l x 0 1 Hx) as [(-> & A)|(A & w & B & C & D)]; [intros y Hy; apply Hl; now right|lia| |].
  - exists x. split; [reflexivity|]. intros j v Hv. split; [|lia]. destruct j as [|j]; simpl in Hv; [injection Hv as <-; exact RX|apply A; eapply nth_error_In; exact Hv].
  - set (z := argmax_from x 0 1 l) in *. exists w. destruct z as [|z]; [lia|]. simpl in B. rewrite Nat.sub_0_r in B. split; [exact B|].
    apply (nlt_iff RN) in C. intros [|j] v Hv; simpl in Hv.
    + injection Hv as <-. split; [apply (nle_iff RN); now apply xlt_le|intros _; now apply (nlt_iff RN)].
    + destruct (D j v Hv) as (D1 & D2). split; [exact D1|]. intros Hj. apply D2. lia.
Qed.
Lemma argmax_from_lt (l : list N) : forall best bi i, (bi < i)%nat -> (argmax_from best bi i l < i + length l)%nat.
Proof.
  induction l as [|x l IH]; intros best bi i H; simpl; [lia|]. destruct (nisnan best); [lia|].
  destruct (_ || _).
  - specialize (IH x i (S i) ltac:(lia)). lia.
  - specialize (IH best bi (S i) ltac:(lia)). lia.
Qed.
Lemma np_argmax_lt (l : list N) z : np_argmax l = Ok z -> (z < length l)%nat.
Proof. destruct l as [|x l]; [discriminate|]. intros [= <-]. pose proof (argmax_from_lt l x 0 1 ltac:(lia)). simpl. lia. Qed.
End Order.

Lemma mapM_nth {A B} (f : A -> res B) l l' : mapM f l = Ok l' -> length l' = length l /\
  forall i a, nth_error l i = Some a -> exists b, f a = Ok b /\ nth_error l' i = Some b.
Proof.
  revert l'. induction l as [|x l IH]; intros l' H; cbn [mapM] in H; [injection H as <-; split; [reflexivity|intros [|i] a; discriminate]|].
  destruct (f x) as [y|] eqn:E; [|discriminate]. cbn [bind] in H. destruct (mapM f l) as [t|] eqn:F; [|discriminate]. injection H as <-.
  destruct (IH t eq_refl) as (L & V). split; [simpl; congruence|]. intros [|i] a Ha; simpl in *; [injection Ha as <-; eauto|eauto].
Qed.

(** ** Model selection *)
Section Choose.
Context {N : Num}.

Lemma np_minZ_spec l : match np_minZ l with
  | Ok z => In z l /\ forall x, In x l -> (z <= x)%Z
  | Raise e => e = ValueError /\ l = []
  end.
Proof.
  destruct l as [|z l]; [split; reflexivity|]. cbn [np_minZ].
  assert (G : forall l z, (fold_left Z.min l z = z \/ In (fold_left Z.min l z) l) /\ (fold_left Z.min l z <= z)%Z /\ forall x, In x l -> (fold_left Z.min l z <= x)%Z).
  { clear. induction l as [|y l IH]; intros z; simpl; [split; [auto|split; [lia|tauto]]|]. destruct (IH (Z.min z y)) as (A & B & C). split; [|split].
    - destruct A as [A|A]; [|auto]. destruct (Z.min_spec z y) as [(_ & E)|(_ & E)]; rewrite A, E; auto.
    - lia.
    - intros x [<-|Hx]; [lia|auto]. }
  destruct (G l z) as (A & B & C). split; [destruct A as [A|A]; [left; now symmetry|now right]|]. intros x [<-|Hx]; auto.
Qed.

Lemma ctt_nth t : (t < 14)%nat -> nth_error components_to_try t = Some (Z.of_nat (2 + t)).
Proof. intros H. unfold components_to_try. rewrite nth_error_map, nth_error_nth' with (d := 0%nat) by (rewrite seq_length; exact H). now rewrite seq_nth. Qed.

Lemma choose_spec (c : N) bics : length bics = 14%nat -> match choose_number c bics with
  | Ok z => exists m, z = Z.of_nat m /\ smallest (good_enough c bics) m
  | Raise e => e = ValueError /\ forall m, ~ good_enough c bics m
  end.
Proof.
  intros L. unfold choose_number. rewrite L. change (14 - 5)%nat with 9%nat. set (mean := (nsum (skipn 9 bics) / nofZ 5)%num).
  set (mask := where_ _).
  assert (HI : forall t, In t mask <-> good_enough c bics (2 + t)).
  { intros t. unfold mask, good_enough. rewrite where_In, map_map, nth_error_map. cbn [Nat.sub Nat.add]. rewrite Nat.sub_0_r.
    split.
    - intros H. destruct (nth_error bics t) as [b|] eqn:E; [|discriminate]. injection H as H. assert (t < 14)%nat by (rewrite <- L; apply nth_error_Some; congruence).
      split; [lia|]. now rewrite (nth_error_nth _ _ _ E).
    - intros (H1 & H2). rewrite (nth_error_nth' bics nnan) by lia. cbn [option_map]. now f_equal. }
  assert (T : take_at components_to_try mask = Ok (map (fun t => Z.of_nat (2 + t)) mask)).
  { unfold take_at. apply mapM_total. intros t I. apply HI in I as (I & _). rewrite ctt_nth by lia. reflexivity. }
  rewrite T. cbn [bind]. pose proof (np_minZ_spec (map (fun t => Z.of_nat (2 + t)) mask)) as S.
  destruct (np_minZ _) as [z|e].
  - destruct S as (S1 & S2). apply in_map_iff in S1 as (t & <- & I). exists (2 + t)%nat. split; [reflexivity|]. split; [now apply HI|].
    intros m Hm. pose proof Hm as (Hm' & _). replace m with (2 + (m - 2))%nat in Hm by lia. apply HI in Hm.
    specialize (S2 (Z.of_nat (2 + (m - 2)))). assert (In (Z.of_nat (2 + (m - 2))) (map (fun t => Z.of_nat (2 + t)) mask)) as J by (apply in_map_iff; eauto).
    specialize (S2 J). lia.
  - destruct S as (-> & S). split; [reflexivity|]. intros m Hm. pose proof Hm as (Hm' & _). replace m with (2 + (m - 2))%nat in Hm by lia. apply HI in Hm.
    apply map_eq_nil in S. rewrite S in Hm. destruct Hm.
Qed.
End Choose.

(** ** Parallel execution *)
Lemma finish_ok {A} (l : list A) : forall order slots, length slots = length l ->
  exists s', finish (map Ok l) order slots = Ok s' /\ length s' = length l /\
  forall i, (In i order -> (i < length l)%nat -> nth_error s' i = Some (nth_error l i)) /\ (~ In i order -> nth_error s' i = nth_error slots i).
Proof.
  induction order as [|k order IH]; intros slots L; cbn [finish].
  - exists slots. split; [reflexivity|]. split; [exact L|]. intros i. split; [intros []|auto].
  - rewrite nth_error_map. destruct (nth_error l k) as [a|] eqn:E; cbn [option_map bind].
    + destruct (IH (upd slots k (Some a))) as (s' & H & L' & V); [now rewrite upd_length|]. exists s'. split; [exact H|]. split; [exact L'|].
      intros i. destruct (V i) as (V1 & V2). split.
      * intros I Hi. destruct (in_dec Nat.eq_dec i order) as [J|J]; [auto|]. destruct I as [<-|I]; [|contradiction].
        rewrite (V2 J), upd_nth, Nat.eqb_refl by lia. now rewrite E.
      * intros I. rewrite V2 by (intros J; apply I; now right). assert (k < length l)%nat by (apply nth_error_Some; congruence).
        rewrite upd_nth by lia. destruct (Nat.eqb_spec i k) as [->|Q]; [exfalso; apply I; now left|reflexivity].
    + destruct (IH slots L) as (s' & H & L' & V). exists s'. split; [exact H|]. split; [exact L'|]. intros i. destruct (V i) as (V1 & V2). split.
      * intros [<-|I] Hi; [|auto]. apply nth_error_None in E. lia.
      * intros I. apply V2. intros J. apply I. now right.
Qed.
Lemma finish_raise {A} (tasks : list (res A)) : forall order slots,
  (exists s, finish tasks order slots = Ok s /\ forall i t, In i order -> nth_error tasks i = Some t -> exists a, t = Ok a) \/
  (exists e, finish tasks order slots = Raise e /\ In (Raise e) tasks).
Proof.
  induction order as [|k order IH]; intros slots; cbn [finish]; [left; exists slots; split; [reflexivity|intros i t []]|].
  destruct (nth_error tasks k) as [t|] eqn:E.
  - destruct t as [a|e]; cbn [bind].
    + destruct (IH (upd slots k (Some a))) as [(s & H & V)|H]; [left|now right]. exists s. split; [exact H|]. intros i t [<-|I] Ht; [|eauto].
      exists a. congruence.
    + right. exists e. split; [reflexivity|]. eapply nth_error_In; eauto.
  - destruct (IH slots) as [(s & H & V)|H]; [left|now right]. exists s. split; [exact H|]. intros i t [<-|I] Ht; [congruence|eauto].
Qed.

(** The results come in the order of the tasks, whatever the order in which they finish. *)
Lemma parallel_spec {A} order (tasks : list (res A)) : Permutation order (seq 0 (length tasks)) ->
  (exists l, tasks = map Ok l /\ parallel order tasks = Ok l) \/
  (exists e, In (Raise e) tasks /\ parallel order tasks = Raise e).
Proof.
  intros P. unfold parallel. destruct (finish_raise tasks order (repeat None (length tasks))) as [(s & H & V)|(e & H & I)].
  - left. assert (exists l, tasks = map Ok l) as (l & ->).
    { assert (G : forall t, In t tasks -> exists a, t = Ok a).
      { intros t I. apply In_nth_error in I as (i & E). apply (V i t); [|exact E]. apply (Permutation_in _ (Permutation_sym P)). apply in_seq.
        split; [lia|]. apply nth_error_Some. congruence. }
      clear -G. induction tasks as [|t tasks IH]; [exists []; reflexivity|]. destruct (G t) as (a & ->); [now left|].
      destruct IH as (l & ->); [intros; apply G; now right|]. now exists (a :: l). }
    exists l. split; [reflexivity|]. rewrite map_length in *.
    destruct (finish_ok l order (repeat None (length l))) as (s' & H' & L & W); [apply repeat_length|]. rewrite H'. cbn [bind].
    assert (s' = map Some l) as ->.
    { apply nth_error_ext. intros i. destruct (lt_dec i (length l)) as [Q|Q].
      - rewrite (proj1 (W i)); [|apply (Permutation_in _ (Permutation_sym P)); apply in_seq; lia|exact Q]. rewrite nth_error_map.
        destruct (nth_error l i) eqn:E; [reflexivity|]. apply nth_error_None in E. lia.
      - rewrite (proj2 (nth_error_None s' i)), (proj2 (nth_error_None (map Some l) i)); [reflexivity|rewrite map_length; lia|lia]. }
    clear. induction l as [|x l IH]; [reflexivity|]. cbn [map mapM bind]. rewrite IH. reflexivity.
  - right. exists e. split; [exact I|]. now rewrite H.
Qed.
