(** The header checker (C59). *)
From Verif Require Import Py Header SpecHeader.
From Coq Require Import Lia.
Local Open Scope Z_scope.

Lemma isspace_iff c : isspace c = true <-> In c spaces.
Proof. unfold isspace, spaces. rewrite !orb_true_iff, !andb_true_iff, !Z.leb_le, !Z.eqb_eq. simpl. lia. Qed.
Lemma isbreak_iff c : isbreak c = true <-> In c boundaries.
Proof. unfold isbreak, boundaries. rewrite !orb_true_iff, !andb_true_iff, !Z.leb_le, !Z.eqb_eq. simpl. lia. Qed.
Lemma isbreak_false c : ~ In c boundaries -> isbreak c = false.
Proof. intros H. destruct (isbreak c) eqn:E; [|reflexivity]. now apply isbreak_iff in E. Qed.

Local Opaque spaces boundaries.
Lemma lstrip_spec l : exists w, l = w ++ lstrip l /\ (forall c, In c w -> In c spaces) /\ (forall c r, lstrip l = c :: r -> ~ In c spaces).
Proof.
  induction l as [|c l (w & E & A & B)]; simpl; [exists []; simpl; split; [reflexivity|split; [tauto|discriminate]]|].
  destruct (isspace c) eqn:Q.
  - exists (c :: w). split; [simpl; congruence|]. split; [|exact B]. intros d [<-|I]; [now apply isspace_iff|auto].
  - exists []. split; [reflexivity|]. split; [intros d []|]. intros d r [= <- <-] I. apply isspace_iff in I. congruence.
Qed.
Lemma rstrip_trims l : trims l (rstrip l).
Proof.
  destruct (lstrip_spec (rev l)) as (w & E & A & B). exists (rev w). split; [|split].
  - unfold rstrip. rewrite <- rev_app_distr, <- E, rev_involutive. reflexivity.
  - intros c I. apply A. now apply in_rev.
  - intros r' c Q. unfold rstrip in Q. apply (f_equal (@rev Z)) in Q. rewrite rev_involutive, rev_app_distr in Q. exact (B _ _ Q).
Qed.
Lemma trims_fun l r r' : trims l r -> trims l r' -> r = r'.
Proof.
  intros (w & E & A & B) (w' & E' & A' & B').
  assert (H : forall r w r' w', r ++ w = r' ++ w' -> (forall c, In c w' -> In c spaces) -> (forall q c, r = q ++ [c] -> ~ In c spaces) -> (length r <= length r')%nat -> length r = length r' -> r = r').
  { clear. intros r w r' w' E _ _ _ L. revert r' L E. induction r as [|x r IH]; intros [|y r'] L E; simpl in *; try discriminate; [reflexivity|].
    injection E as -> E. f_equal. apply IH; auto. }
  assert (K : forall r w r' w', r ++ w = r' ++ w' -> (forall c, In c w -> In c spaces) -> (forall q c, r' = q ++ [c] -> ~ In c spaces) -> (length r' <= length r)%nat).
  { clear. intros r w r' w' E A B. destruct (Nat.le_gt_cases (length r') (length r)) as [L|L]; [exact L|exfalso].
    destruct (@exists_last _ r') as (q & c & Q); [destruct r'; [simpl in L; lia|discriminate]|]. apply (B q c Q). apply A.
    subst r'. rewrite app_length in L. simpl in L. rewrite <- app_assoc in E. 
    assert (exists t, w = t ++ c :: w') as (t & ->).
    { assert (Lq : (length r <= length q)%nat) by lia. clear - E Lq. revert q Lq E. induction r as [|x r IH]; intros q Lq E; [exists q; exact E|].
      destruct q as [|y q]; [simpl in Lq; lia|]. simpl in *. injection E as _ E. apply (IH q); [lia|exact E]. }
    apply in_or_app. right. now left. }
  rewrite E in E'. apply (H r w r' w'); auto.
  - apply (K r' w' r w); auto.
  - apply Nat.le_antisymm; [apply (K r' w' r w); auto|apply (K r w r' w'); auto].
Qed.
Lemma trims_rstrip l r : trims l r <-> rstrip l = r.
Proof. split; [|intros <-; apply rstrip_trims]. intros H. eapply trims_fun; [apply rstrip_trims|exact H]. Qed.
Lemma trims_line l r : line l -> trims l r -> line r.
Proof. intros H (w & -> & _) c I. apply H, in_or_app. auto. Qed.

(** *** Lines *)
Lemma split_line cur l r : line l -> split_from cur (l ++ r) = split_from (rev l ++ cur) r.
Proof.
  revert cur. induction l as [|c l IH]; intros cur H; [reflexivity|]. simpl. rewrite isbreak_false by (apply H; now left).
  rewrite IH by (intros d I; apply H; now right). rewrite <- app_assoc. reflexivity.
Qed.
Lemma split_ended ls last : (forall l, In l ls -> line l) -> line last -> splitlines (ended [10] ls last) = lines_of ls last.
Proof.
  intros H HL. unfold splitlines, ended, lines_of. induction ls as [|l ls IH]; simpl.
  - rewrite <- (app_nil_r last) at 1. rewrite split_line by auto. rewrite app_nil_r. simpl. destruct last as [|x last] using rev_ind; [reflexivity|].
    rewrite rev_app_distr. simpl. rewrite rev_involutive. destruct (last ++ [x]) eqn:E; [destruct last; discriminate|reflexivity].
  - rewrite <- !app_assoc, split_line by (apply H; now left). simpl. rewrite app_nil_r, rev_involutive.
    rewrite <- IH by (intros; apply H; now right). destruct (concat (map (fun l0 => l0 ++ [10]) ls) ++ last) eqn:E; reflexivity.
Qed.
Lemma read_line cur l r : ~ In 10 l -> read_from cur (l ++ r) = read_from (rev l ++ cur) r.
Proof.
  revert cur. induction l as [|c l IH]; intros cur H; [reflexivity|]. simpl. destruct (c =? 10) eqn:E; [apply Z.eqb_eq in E; subst; exfalso; apply H; now left|].
  rewrite IH by (intros I; apply H; now right). rewrite <- app_assoc. reflexivity.
Qed.
Lemma read_ended ls r : (forall l, In l ls -> ~ In 10 l) -> readlines (ended [10] ls r) = map (fun l => l ++ [10]) ls ++ readlines r.
Proof.
  intros H. unfold readlines, ended. induction ls as [|l ls IH]; simpl; [reflexivity|].
  rewrite <- !app_assoc, read_line by (apply H; now left). simpl. rewrite app_nil_r, rev_involutive. f_equal. apply IH. intros; apply H; now right.
Qed.
Lemma read_last l : ~ In 10 l -> readlines l = match l with [] => [] | _ => [l] end.
Proof.
  intros H. unfold readlines. rewrite <- (app_nil_r l) at 1. rewrite read_line by auto. rewrite app_nil_r. simpl. destruct l as [|x l] using rev_ind; [reflexivity|].
  rewrite rev_app_distr. simpl. rewrite rev_involutive. destruct (l ++ [x]) eqn:E; [destruct l; discriminate|reflexivity].
Qed.
Lemma univ_line l r : ~ In 13 l -> universal (l ++ r) = l ++ universal r.
Proof.
  induction l as [|c l IH]; intros H; [reflexivity|]. simpl. destruct (c =? 13) eqn:E; [apply Z.eqb_eq in E; subst; exfalso; apply H; now left|].
  f_equal. apply IH. intros I. apply H. now right.
Qed.
Lemma univ_ended e ls last : eol e -> (forall l, In l ls -> ~ In 13 l /\ ~ In 10 l) -> ~ In 13 last -> ~ In 10 last -> universal (ended e ls last) = ended [10] ls last.
Proof.
  intros He H HL HN. unfold ended. induction ls as [|l ls IH]; simpl.
  - rewrite <- (app_nil_r last) at 1. rewrite univ_line by auto. simpl. apply app_nil_r.
  - rewrite <- !app_assoc, univ_line by (apply H; now left). f_equal. rewrite <- IH by (intros; apply H; now right).
    destruct He as [-> | [-> | ->]]; simpl; try reflexivity.
    assert (D : forall d r', concat (map (fun l => l ++ [13]) ls) ++ last = d :: r' -> d =? 10 = false).
    { intros d r' E. apply Z.eqb_neq. intros ->. destruct ls as [|l0 ls]; simpl in E.
      - apply HN. rewrite E. now left.
      - destruct l0 as [|x l0]; simpl in E; [discriminate|]. injection E as -> _. apply (proj2 (H (10 :: l0) (or_intror (or_introl eq_refl)))). now left. }
    destruct (concat (map (fun l0 => l0 ++ [13]) ls) ++ last) as [|d r'] eqn:E; [reflexivity|]. rewrite (D d r' eq_refl). reflexivity.
Qed.
Lemma line_no l : line l -> ~ In 10 l /\ ~ In 13 l.
Proof. intros H. split; intros I; apply (H _ I); apply isbreak_iff; reflexivity. Qed.

(** Joining: the lines are recovered, except for a last one that is empty. *)
Lemma join_cons l r : r <> [] -> join (l :: r) = l ++ 10 :: join r.
Proof. destruct r; [congruence|reflexivity]. Qed.
Lemma join_snoc T t : join (T ++ [t]) = ended [10] T t.
Proof.
  induction T as [|l T IH]; [reflexivity|]. cbn [List.app]. rewrite join_cons by (destruct T; discriminate). rewrite IH.
  unfold ended. cbn [map concat]. rewrite <- !app_assoc. reflexivity.
Qed.
Lemma split_join T t : (forall l, In l T -> line l) -> line t -> splitlines (join (T ++ [t])) = lines_of T t.
Proof. intros. rewrite join_snoc. now apply split_ended. Qed.
Lemma join_inj L T : (forall l, In l (L ++ T) -> ~ In 10 l) -> L <> [] -> T <> [] -> join L = join T -> L = T.
Proof.
  revert T. induction L as [|l L IH]; intros T H NL NT E; [congruence|]. destruct T as [|t T]; [congruence|].
  assert (P : forall (a b u v : text), ~ In 10 a -> ~ In 10 b -> a ++ 10 :: u = b ++ 10 :: v -> a = b /\ u = v).
  { clear. induction a as [|x a IH]; intros [|y b] u v A B E; simpl in *.
    - injection E; auto. 
    - injection E as <- _. exfalso; apply B; now left.
    - injection E as -> _. exfalso; apply A; now left.
    - injection E as -> E. destruct (IH b u v) as (-> & ->); auto. }
  assert (Hl : ~ In 10 l) by (apply H; now left). assert (Ht : ~ In 10 t) by (apply H, in_or_app; right; now left).
  destruct L as [|l' L], T as [|t' T].
  - simpl in E. congruence.
  - rewrite (join_cons t) in E by discriminate. simpl in E. exfalso. apply Hl. rewrite E. apply in_or_app. right. now left.
  - rewrite (join_cons l) in E by discriminate. simpl in E. exfalso. apply Ht. rewrite <- E. apply in_or_app. right. now left.
  - rewrite !join_cons in E by discriminate. destruct (P _ _ _ _ Hl Ht E) as (-> & E'). f_equal. apply IH; try discriminate; [|exact E'].
    intros x I. apply H. apply in_app_or in I as [I|I]; [right; apply in_or_app; now left|apply in_or_app; right; now right].
Qed.
Lemma text_eqb_iff a b : text_eqb a b = true <-> a = b.
Proof. unfold text_eqb. destruct (list_eq_dec Z.eq_dec a b); split; congruence. Qed.

Lemma first_ended k hs last : (forall l, In l (lines_of hs last) -> ~ In 10 l) ->
  exists hs1 last1, concat (firstn k (readlines (ended [10] hs last))) = ended [10] hs1 last1 /\ lines_of hs1 last1 = firstn k (lines_of hs last).
Proof.
  intros H. rewrite read_ended by (intros l I; apply H; unfold lines_of; apply in_or_app; now left).
  rewrite read_last by (destruct last; [intros []|apply H; unfold lines_of; apply in_or_app; right; now left]).
  destruct (Nat.le_gt_cases k (length hs)) as [L|L].
  - exists (firstn k hs), []. unfold ended, lines_of. rewrite !app_nil_r.
    rewrite !firstn_app, map_length. replace (k - length hs)%nat with 0%nat by lia. rewrite !firstn_O, !app_nil_r, firstn_map. split; reflexivity.
  - exists hs, last. unfold ended, lines_of.
    assert (X : forall r : list text, (length r <= 1)%nat -> firstn k (map (fun l => l ++ [10]) hs ++ r) = map (fun l => l ++ [10]) hs ++ r /\ firstn k (hs ++ r) = hs ++ r).
    { intros r Lr. split; apply firstn_all2; rewrite app_length, ?map_length; lia. }
    destruct (X match last with [] => [] | _ => [last] end) as (X1 & X2); [destruct last; simpl; lia|].
    rewrite X1, X2. split; [|reflexivity]. rewrite concat_app. f_equal. destruct last; [reflexivity|]. apply app_nil_r.
Qed.
Lemma Forall2_trims L T : Forall2 trims L T <-> map rstrip L = T.
Proof.
  split.
  - induction 1 as [|l t L T H _ IH]; [reflexivity|]. simpl. apply trims_rstrip in H. congruence.
  - intros <-. induction L; simpl; constructor; auto. apply rstrip_trims.
Qed.
Lemma template_join e ls last T : eol e -> (forall l, In l (lines_of ls last) -> line l) -> Forall2 trims (lines_of ls last) T ->
  lines_rstrip (universal (ended e ls last)) = join T /\ (forall t, In t T -> line t).
Proof.
  intros He H F.
  assert (H1 : forall l, In l ls -> line l) by (intros l I; apply H, in_or_app; now left).
  assert (H2 : line last) by (destruct last; [intros c []|apply H, in_or_app; right; now left]).
  split.
  - rewrite univ_ended; auto; [|intros l I; specialize (H1 l I); apply line_no in H1; tauto|now apply line_no..].
    unfold lines_rstrip. rewrite split_ended by auto. apply Forall2_trims in F. now rewrite F.
  - intros t I. apply Forall2_trims in F. subst T. apply in_map_iff in I as (l & <- & I). eapply trims_line; [apply H, I|apply rstrip_trims].
Qed.
Lemma lines_rstrip_first e k hs last : eol e -> (forall l, In l (lines_of hs last) -> ~ In 10 l /\ ~ In 13 l) ->
  (forall l, In l (firstn k (lines_of hs last)) -> line l) ->
  lines_rstrip (concat (firstn k (readlines (universal (ended e hs last))))) = join (map rstrip (firstn k (lines_of hs last))).
Proof.
  intros He H HL.
  assert (H2 : ~ In 10 last /\ ~ In 13 last) by (destruct last; [split; intros []|apply H, in_or_app; right; now left]).
  rewrite univ_ended; auto; try tauto; [|intros l I; specialize (H l ltac:(apply in_or_app; now left)); tauto].
  destruct (first_ended k hs last) as (hs1 & last1 & -> & E); [intros l I; now apply H|].
  unfold lines_rstrip. rewrite <- E in *. rewrite split_ended; [reflexivity|intros l I; apply HL, in_or_app; now left|].
  destruct last1; [intros c []|apply HL, in_or_app; right; now left].
Qed.

(** *** C59 *)

(** A template whose last line is not blank: a file is accepted if and only if its first lines,
    without the white space at their ends, are the lines of the template without theirs. The
    two texts may use different line endings. *)
Lemma c59_header : forall e ls last T t e' hs last', eol e -> eol e' ->
  (forall l, In l (lines_of ls last) -> line l) -> Forall2 trims (lines_of ls last) (T ++ [t]) -> t <> [] ->
  (forall l, In l (lines_of hs last') -> ~ In 10 l /\ ~ In 13 l) ->
  (forall l, In l (firstn (length (T ++ [t])) (lines_of hs last')) -> line l) ->
  (check_file_header (ended e' hs last') (lines_rstrip (universal (ended e ls last))) = true <->
   exists first rest, lines_of hs last' = first ++ rest /\ Forall2 trims first (T ++ [t])).
Proof.
  intros e ls last T t e' hs last' He He' H F Ht Hf HL.
  destruct (template_join _ _ _ _ He H F) as (-> & LT).
  unfold check_file_header.
  assert (SJ : splitlines (join (T ++ [t])) = T ++ [t]).
  { rewrite split_join; [|intros l I; apply LT, in_or_app; now left|apply LT, in_or_app; right; now left]. unfold lines_of. destruct t; [congruence|reflexivity]. }
  rewrite SJ, text_eqb_iff, lines_rstrip_first by auto. set (TT := T ++ [t]) in *. set (k := length TT) in *.
  assert (NT : TT <> []) by (unfold TT; destruct T; discriminate).
  assert (NJ : join TT <> []).
  { intros E. assert (Z0 : splitlines (join TT) = []) by (rewrite E; reflexivity). congruence. }
  split.
  - intros E. exists (firstn k (lines_of hs last')), (skipn k (lines_of hs last')). rewrite firstn_skipn. split; [reflexivity|].
    apply Forall2_trims. apply join_inj; auto.
    + intros l I. apply in_app_or in I as [I|I]; [|apply line_no, LT; exact I].
      apply in_map_iff in I as (q & <- & I). eapply (line_no (rstrip q)), trims_line; [apply HL; exact I|apply rstrip_trims].
    + intros Z0. rewrite Z0 in E. simpl in E. congruence.
  - intros (fs & rs & E & Q). apply Forall2_trims in Q. rewrite E, firstn_app.
    assert (L : length fs = k) by (unfold k; rewrite <- Q, map_length; reflexivity).
    rewrite L, Nat.sub_diag, firstn_O, app_nil_r, firstn_all2 by lia. now rewrite Q.
Qed.

(** A template of two lines or more that ends in a blank line is satisfied by no such file. *)
Lemma c59_blank : forall e ls last T e' hs last', eol e -> eol e' ->
  (forall l, In l (lines_of ls last) -> line l) -> Forall2 trims (lines_of ls last) (T ++ [[]]) -> T <> [] ->
  (forall l, In l (lines_of hs last') -> ~ In 10 l /\ ~ In 13 l) ->
  (forall l, In l (firstn (length T) (lines_of hs last')) -> line l) ->
  check_file_header (ended e' hs last') (lines_rstrip (universal (ended e ls last))) = false.
Proof.
  intros e ls last T e' hs last' He He' H F Ht Hf HL.
  destruct (template_join _ _ _ _ He H F) as (-> & LT).
  unfold check_file_header.
  assert (SJ : splitlines (join (T ++ [[]])) = T).
  { rewrite split_join; [|intros l I; apply LT, in_or_app; now left|intros c []]. unfold lines_of. apply app_nil_r. }
  rewrite SJ, lines_rstrip_first by auto. apply not_true_iff_false. rewrite text_eqb_iff. intros E.
  destruct (map rstrip (firstn (length T) (lines_of hs last'))) as [|x r] eqn:M.
  - simpl in E. rewrite join_snoc in E. unfold ended in E. destruct T as [|t0 T]; [congruence|]. simpl in E. destruct t0; discriminate.
  - apply join_inj in E; try discriminate.
    + apply (f_equal (@length text)) in E. rewrite <- M, map_length, app_length, firstn_length in E. simpl in E. lia.
    + rewrite <- M. intros l I. apply in_app_or in I as [I|I]; [|apply line_no, LT; exact I].
      apply in_map_iff in I as (q & <- & I). eapply (line_no (rstrip q)), trims_line; [apply HL; exact I|apply rstrip_trims].
    + destruct T; discriminate.
Qed.
(** So the plain claim -- accepted if the first lines agree with the template -- is false: the
    template "a", blank line, is not satisfied by a copy of itself. *)
Lemma c59_blank_refuted : exists ls hs : list text,
  (forall l, In l (ls ++ hs) -> line l) /\ lines_of hs [] = ls ++ [[98]] /\
  check_file_header (ended [10] hs []) (lines_rstrip (universal (ended [10] ls []))) = false.
Proof.
  exists [[97]; []], [[97]; []; [98]]. split; [|split; reflexivity].
  intros l I c J. intros B. apply isbreak_iff in B. revert B. simpl in I. repeat destruct I as [<-|I]; simpl in J; try tauto; destruct J as [<-|[]]; discriminate.
Qed.
(** A template without text, or of one blank line, is satisfied by every file. *)
Lemma c59_nothing : forall e ls last T content, eol e -> (forall l, In l (lines_of ls last) -> line l) -> Forall2 trims (lines_of ls last) T -> T = [] \/ T = [[]] ->
  check_file_header content (lines_rstrip (universal (ended e ls last))) = true.
Proof.
  intros e ls last T content He H F HT. destruct (template_join _ _ _ _ He H F) as (-> & _). destruct HT as [-> | ->]; reflexivity.
Qed.

(** What follows the first lines of the file is irrelevant, for every template (the file can
    hold any characters). *)
Lemma c59_rest : forall e ls last T t e' hs b b', eol e -> eol e' ->
  (forall l, In l (lines_of ls last) -> line l) -> Forall2 trims (lines_of ls last) (T ++ [t]) ->
  (forall l, In l hs -> ~ In 10 l /\ ~ In 13 l) -> length hs = length (T ++ [t]) -> (e' = [13] -> hd 0 b <> 10 /\ hd 0 b' <> 10) ->
  check_file_header (ended e' hs b) (lines_rstrip (universal (ended e ls last))) =
  check_file_header (ended e' hs b') (lines_rstrip (universal (ended e ls last))).
Proof.
  intros e ls last T t e' hs b b' He He' H F Hf HL HB. destruct (template_join _ _ _ _ He H F) as (-> & LT).
  unfold check_file_header. set (k := length (splitlines (join (T ++ [t])))).
  assert (Lk : (k <= length hs)%nat).
  { unfold k. rewrite split_join; [|intros l I; apply LT, in_or_app; now left|apply LT, in_or_app; right; now left]. rewrite HL. unfold lines_of. rewrite !app_length. destruct t; simpl; lia. }
  assert (U : forall c, (e' = [13] -> hd 0 c <> 10) -> universal (ended e' hs c) = ended [10] hs (universal c)).
  { intros c Hc. unfold ended. clear k Lk HL. induction hs as [|l hs IH]; [reflexivity|]. simpl. rewrite <- !app_assoc, univ_line by (apply Hf; now left). f_equal.
    assert (Hf' : forall l, In l hs -> ~ In 10 l /\ ~ In 13 l) by (intros; apply Hf; now right).
    specialize (IH Hf'). destruct He' as [-> | [-> | ->]]; simpl; try (now rewrite IH).
    rewrite <- IH. assert (D : forall d r', concat (map (fun l => l ++ [13]) hs) ++ c = d :: r' -> d =? 10 = false).
    { intros d r' E. apply Z.eqb_neq. intros ->. destruct hs as [|l0 hs']; simpl in E.
      - apply Hc; [reflexivity|]. rewrite E. reflexivity.
      - destruct l0 as [|x l0]; simpl in E; [discriminate|]. injection E as -> _. apply (proj1 (Hf' (10 :: l0) (or_introl eq_refl))). now left. }
    destruct (concat (map (fun l0 => l0 ++ [13]) hs) ++ c) as [|d r'] eqn:E; [reflexivity|]. rewrite (D d r' eq_refl). reflexivity. }
  rewrite !U by (intros Q; now apply HB). rewrite !read_ended by (intros; now apply Hf).
  rewrite !firstn_app, map_length. replace (k - length hs)%nat with 0%nat by lia. reflexivity.
Qed.

(** The checker reads lines and splits them again in another way: a file of one line, with a
    form feed in it, satisfies a template of two lines, and a file that
    begins with the text of its template, form feed included, is rejected. *)
Lemma c59_boundary_refuted :
  (exists content tpl : text, ~ In 10 content /\ In 10 tpl /\ check_file_header content (lines_rstrip (universal tpl)) = true) /\
  (exists content tpl r : text, content = tpl ++ 10 :: r /\ last tpl 0 = 99 /\ check_file_header content (lines_rstrip (universal tpl)) = false).
Proof.
  split.
  - exists [97; 12; 98], [97; 10; 98]. split; [simpl; lia|]. split; [simpl; auto|reflexivity].
  - exists [97; 12; 98; 10; 99; 10; 100], [97; 12; 98; 10; 99], [100]. auto.
Qed.

Lemma suffix_py : forall name, suffix name = ".py"%string <-> exists stem, stem <> ""%string /\ name = (stem ++ ".py")%string.
Proof.
  assert (A : forall u b, after_dot (u ++ ".py") b = Some ".py"%string).
  { induction u as [|c u IH]; intros b; [reflexivity|]. simpl. apply IH. }
  assert (B : forall s b, after_dot s b = Some ".py"%string -> (exists u, s = (u ++ ".py")%string) \/ b = Some ".py"%string).
  { induction s as [|c s IH]; intros b H; [auto|]. cbn [after_dot] in H. destruct (IH _ H) as [(u & ->)|Q].
    - left. exists (String c u). reflexivity.
    - destruct (Ascii.eqb c "."%char); [|auto]. left. exists ""%string. cbn [String.append]. congruence. }
  intros name. split.
  - intros H. destruct name as [|c r]; [discriminate|]. unfold suffix in H. destruct (after_dot r None) as [s|] eqn:E; [|discriminate].
    destruct (String.eqb s "."); [discriminate|]. subst s. destruct (B _ _ E) as [(u & ->)|Q]; [|discriminate]. exists (String c u). split; [discriminate|reflexivity].
  - intros (stem & N & ->). destruct stem as [|c u]; [congruence|]. simpl. rewrite A. reflexivity.
Qed.

Section CliFacts.
Variable read : nat -> res text.
Lemma put_spec k b d q : (In q (map fst (put k b d)) <-> q = k \/ In q (map fst d)) /\
  (NoDup (map fst d) -> NoDup (map fst (put k b d))).
Proof.
  induction d as [|(k', b') d (IH1 & IH2)]; simpl; [split; [intuition congruence|intros _; constructor; [tauto|constructor]]|].
  destruct (Nat.eqb k k') eqn:E; simpl.
  - apply Nat.eqb_eq in E. subst. split; [intuition congruence|auto].
  - rewrite IH1. split; [intuition congruence|]. intros N. inversion N; subst. constructor; auto.
    apply Nat.eqb_neq in E. clear - E H1. intros I. induction d as [|(a, b0) d IH]; simpl in *; [intuition congruence|].
    destruct (Nat.eqb k a) eqn:Q; simpl in *; [apply Nat.eqb_eq in Q; subst; intuition congruence|tauto].
Qed.
Lemma put_in k b d q c : NoDup (map fst d) -> In (q, c) (put k b d) <-> (q = k /\ c = b) \/ (q <> k /\ In (q, c) d).
Proof.
  induction d as [|(k', b') d IH]; simpl; intros N; [split; [intros [[= <- <-]|[]]; auto|intros [(-> & ->)|(_ & [])]; auto]|].
  inversion N as [|? ? N1 N2]; subst. destruct (Nat.eqb k k') eqn:E; simpl.
  - apply Nat.eqb_eq in E. subst k'. split.
    + intros [[= <- <-]|I]; [auto|]. right. split; [|auto]. intros ->. apply N1. now apply (in_map fst) in I.
    + intros [(-> & ->)|(Q & [[= -> _]|I])]; [auto|congruence|auto].
  - apply Nat.eqb_neq in E. rewrite IH by auto. split.
    + intros [[= <- <-]|[H|(H & I)]]; [right; auto|auto|right; auto].
    + intros [H|(H & [I|I])]; [auto|auto|auto].
Qed.
(** Invariant: the entries are the results of the files seen so far. *)
Definition good (tpl : text) (seen : list nat) (d : list (nat * bool)) : Prop :=
  NoDup (map fst d) /\ forall q c, In (q, c) d <-> In q seen /\ exists t, read q = Ok t /\ c = check_file_header t tpl.
Lemma good_one tpl seen d p t : good tpl seen d -> read p = Ok t -> check_one read tpl d p = Ok (put p (check_file_header t tpl) d) /\ good tpl (seen ++ [p]) (put p (check_file_header t tpl) d).
Proof.
  intros (N & G) E. unfold check_one. rewrite E. split; [reflexivity|]. split; [now apply (proj2 (put_spec _ _ _ 0%nat))|].
  intros q c. rewrite put_in by exact N. rewrite G, in_app_iff. simpl. split.
  - intros [(-> & ->)|(H & I & J)]; [split; [tauto|exists t; auto]|split; [tauto|exact J]].
  - intros (I & u & Eu & ->). destruct (Nat.eq_dec q p) as [->|Q]; [left; split; congruence|]. right. split; [exact Q|]. split; [intuition congruence|exists u; auto].
Qed.
Lemma good_all tpl ps : (forall p, In p ps -> exists t, read p = Ok t) -> forall seen d, good tpl seen d -> exists d', check_all read tpl d ps = Ok d' /\ good tpl (seen ++ ps) d'.
Proof.
  induction ps as [|p ps IH]; intros H seen d G; simpl; [exists d; rewrite app_nil_r; auto|].
  destruct (H p) as (t & E); [now left|]. destruct (good_one tpl seen d p t G E) as (-> & G'). simpl.
  destruct (IH (fun q I => H q (or_intror I)) _ _ G') as (d' & E' & G''). exists d'. split; [exact E'|]. now rewrite <- app_assoc in G''.
Qed.
Lemma good_sources tpl ss : (forall s, In s ss -> named s /\ forall p, In p (files_of s) -> exists t, read p = Ok t) -> forall seen d rest, good tpl seen d ->
  exists d', check_sources read tpl d (ss ++ rest) = check_sources read tpl d' rest /\ good tpl (seen ++ flat_map files_of ss) d'.
Proof.
  induction ss as [|s ss IH]; intros H seen d rest G; simpl; [exists d; rewrite app_nil_r; auto|].
  destruct (H s (or_introl eq_refl)) as (Nm & R). destruct s as [fs|p name]; simpl in *.
  - destruct (good_all tpl fs R seen d G) as (d1 & -> & G1). simpl. destruct (IH (fun q I => H q (or_intror I)) _ _ rest G1) as (d' & E' & G2).
    exists d'. split; [exact E'|]. now rewrite <- app_assoc in G2.
  - apply suffix_py in Nm. rewrite Nm. simpl. destruct (R p) as (t & E); [now left|]. destruct (good_one tpl seen d p t G E) as (-> & G1). simpl.
    destruct (IH (fun q I => H q (or_intror I)) _ _ rest G1) as (d' & E' & G2). exists d'. split; [exact E'|]. now rewrite <- app_assoc in G2.
Qed.
Lemma good_nil tpl : good tpl [] [].
Proof. split; [constructor|]. intros q c. simpl. tauto. Qed.
End CliFacts.

(** The command, when everything can be read and every file named ends in ".py": exit code 0 if
    and only if every file has the header, 1 otherwise, and the files reported, each once, are
    the ones without it. *)
Lemma c59_command : forall read sources template t,
  read template = Ok t -> (forall s, In s sources -> named s /\ forall p, In p (files_of s) -> exists u, read p = Ok u) ->
  exists code wrong, check read sources template = Ok (code, wrong) /\ NoDup wrong /\
    (forall p, In p wrong <-> In p (flat_map files_of sources) /\ exists u, read p = Ok u /\ check_file_header u (lines_rstrip (universal t)) = false) /\
    (code = 0 /\ wrong = [] \/ code = 1 /\ wrong <> []).
Proof.
  intros read sources template t E H. unfold check. rewrite E. cbn [bind].
  destruct (good_sources read (lines_rstrip (universal t)) sources H [] [] [] (good_nil read _)) as (d & Ed & N & G). rewrite app_nil_r in Ed. rewrite Ed. cbn [check_sources List.app] in *.
  do 2 eexists. split; [reflexivity|]. split; [|split].
  - clear - N. induction d as [|(k, b) d IH]; simpl in *; [constructor|]. inversion N; subst. destruct b; simpl; [auto|]. constructor; [|auto].
    intros I. apply H1. apply in_map_iff in I as (x & <- & I). apply filter_In in I as (I & _). now apply in_map.
  - intros p. rewrite in_map_iff. split.
    + intros ((q, c) & <- & I). apply filter_In in I as (I & Q). simpl in Q. apply negb_true_iff in Q. subst c. apply G in I as (I & u & Eu & Q). split; [exact I|]. exists u. auto.
    + intros (I & u & Eu & Q). exists (p, false). split; [reflexivity|]. apply filter_In. split; [|reflexivity]. apply G. split; [exact I|]. exists u. auto.
  - clear. assert (X : forallb snd d = true <-> map fst (filter (fun kb => negb (snd kb)) d) = []).
    { induction d as [|(k, b) d IH]; simpl; [tauto|]. destruct b; simpl; [exact IH|]. split; discriminate. }
    destruct (forallb snd d) eqn:Q; [left; split; [reflexivity|now apply X]|right; split; [reflexivity|]]. intros Z0. apply X in Z0. discriminate.
Qed.

(** The first thing that goes wrong decides: a file with another ending raises ValueError,
    whatever the files before it; a file (or the template) that cannot be opened gives exit
    code 1 without a report, and any other exception of reading is passed on. *)
Lemma c59_command_errors : forall read sources template,
  (read template = Raise OSError -> check read sources template = Ok (1, [])) /\
  (forall t before s after, read template = Ok t -> sources = before ++ s :: after ->
     (forall s, In s before -> named s /\ forall p, In p (files_of s) -> exists u, read p = Ok u) ->
     (~ named s -> check read sources template = Raise ValueError) /\
     (forall ps p qs e, named s -> files_of s = ps ++ p :: qs -> (forall q, In q ps -> exists u, read q = Ok u) -> read p = Raise e ->
        check read sources template = if match e with OSError => true | _ => false end then Ok (1, []) else Raise e)).
Proof.
  intros read sources template. split; [intros E; unfold check; rewrite E; reflexivity|].
  intros t before s after E -> H. unfold check. rewrite E. cbn [bind].
  destruct (good_sources read (lines_rstrip (universal t)) before H [] [] (s :: after) (good_nil read _)) as (d & -> & G). split.
  - intros Nn. destruct s as [fs|p name]; [exfalso; apply Nn; exact I|]. cbn [check_sources].
    destruct (String.eqb (suffix name) ".py") eqn:Q; [|reflexivity]. exfalso. apply Nn. apply String.eqb_eq in Q. now apply suffix_py.
  - intros ps p qs e Nm Fs Hp Ep.
    assert (A : check_sources read (lines_rstrip (universal t)) d (s :: after) = Raise e).
    { destruct s as [fs|p' name]; cbn [check_sources files_of] in *.
      - subst fs. assert (X : forall ps d, (forall q, In q ps -> exists u, read q = Ok u) -> check_all read (lines_rstrip (universal t)) d (ps ++ p :: qs) = Raise e).
        { clear - Ep. induction ps as [|q ps IH]; intros d Hp; simpl; [unfold check_one; rewrite Ep; reflexivity|].
          destruct (Hp q) as (u & Eu); [now left|]. unfold check_one at 1. rewrite Eu. simpl. apply IH. intros; apply Hp; now right. }
        now rewrite (X ps d Hp).
      - cbn [named] in Nm. apply suffix_py in Nm. rewrite Nm. simpl. destruct ps as [|q ps]; [|destruct ps; discriminate]. injection Fs as -> _.
        unfold check_one. rewrite Ep. reflexivity. }
    rewrite A. destruct e; reflexivity.
Qed.

(** The template "# a", "# b" with a trailing blank in a file using CR LF: accepted; with the
    second line changed: rejected. *)
Example ex_c59 :
  check_file_header (ended [13; 10] [[35; 32; 97; 32]; [35; 32; 98]; [99]] [100]) (lines_rstrip (universal (ended [10] [[35; 32; 97]] [35; 32; 98; 9]))) = true /\
  Forall2 trims (lines_of [[35; 32; 97]] [35; 32; 98; 9]) ([[35; 32; 97]] ++ [[35; 32; 98]]) /\
  check_file_header (ended [13; 10] [[35; 32; 97; 32]; [35; 32; 99]; [99]] [100]) (lines_rstrip (universal (ended [10] [[35; 32; 97]] [35; 32; 98; 9]))) = false.
Proof. split; [reflexivity|]. split; [apply Forall2_trims; reflexivity|reflexivity]. Qed.

(** One directory with two files and one file named on the command line. *)
Definition ex_read (p : nat) : res text :=
  match p with 0%nat => Ok [97; 10] | 1%nat => Ok [97; 32; 10; 98] | 2%nat => Ok [98] | _ => Raise OSError end.
Example ex_c59_command : check ex_read [Directory [1; 2]%nat; File 2 "x.py"] 0 = Ok (1, [2%nat]) /\ check ex_read [Directory [1%nat]] 0 = Ok (0, []) /\
  check ex_read [Directory [1%nat]; File 2 ".py"; File 3 "y.py"] 0 = Raise ValueError /\ check ex_read [File 3 "y.py"; File 2 "x.txt"] 0 = Ok (1, []) /\ check ex_read [Directory []] 0 = Ok (0, []).
Proof. repeat split. Qed.
