(** How the polygon through a list of points depends on the points. *)
From Verif Require Import Py Num RX Np Data Spec SpecR SpecCirc SpecCurve.
From Flocq Require Import Core.
From Coq Require Import Lra Lia Sorted.
Local Open Scope R_scope.

(** Consecutive points at least [m] apart, and heights between 0 and 1. *)
Definition apart (m : R) (p q : R * R) : Prop := fst p + m <= fst q.
Definition level (p : R * R) : Prop := 0 <= snd p <= 1.
Definition close (d : R) (p q : R * R) : Prop := Rabs (fst p - fst q) <= d /\ Rabs (snd p - snd q) <= d.

Lemma Rdiv_le a b m : 0 < m -> a <= b -> a / m <= b / m.
Proof. intros M H. apply Rmult_le_compat_r; [left; now apply Rinv_0_lt_compat|exact H]. Qed.
(** Each point is to the right of the one before, and the segment between them is not steeper than [1 / m]. *)
Definition steps (m : R) (p q : R * R) : Prop := fst p < fst q /\ m * Rabs (snd q - snd p) <= fst q - fst p.
Lemma level_step m x y x' y' : 0 < m -> steps m (x, y) (x', y') -> Rabs (y' - y) <= (x' - x) / m.
Proof.
  unfold steps. cbn [fst snd]. intros M [_ A].
  apply Rmult_le_reg_r with m; [exact M|]. unfold Rdiv. rewrite Rmult_assoc, Rinv_l by lra. lra.
Qed.
Lemma apart_steps m P : 0 < m -> Sorted (apart m) P -> Forall level P -> Sorted (steps m) P.
Proof.
  intros M S. induction S as [|p P S IH H]; intros L; [constructor|]. inversion L as [|? ? L0 L']; subst. constructor; [apply IH, L'|].
  inversion H as [|q P' A]; subst; constructor. inversion L' as [|? ? L1 _]; subst. unfold apart in A. unfold level in L0, L1. split; [lra|].
  assert (Rabs (snd q - snd p) <= 1) by (apply Rabs_le; lra). nra.
Qed.
Lemma gentle_steps m a P : 0 < m -> Sorted (apart m) P -> gentle a P -> Sorted (steps a) P.
Proof.
  intros M S. induction S as [|p P S IH H]; intros L; [constructor|]. inversion L as [|? ? L' L0]; subst. constructor; [apply IH, L'|].
  inversion H as [|q P' A]; subst; constructor. inversion L0; subst. unfold apart in A. split; [lra|assumption].
Qed.
Lemma inv_nonneg a m : 0 < m -> 0 <= a -> 0 <= a / m.
Proof. intros M A. apply Rmult_le_pos; [exact A|left; now apply Rinv_0_lt_compat]. Qed.

(** A point of a segment. *)
Lemma seg_from m x y x' y' w : 0 < m -> steps m (x, y) (x', y') -> x <= w <= x' ->
  forall w', x <= w' <= x' ->
  Rabs (y + (y' - y) * ((w' - x) / (x' - x)) - (y + (y' - y) * ((w - x) / (x' - x)))) <= Rabs (w' - w) / m.
Proof.
  intros M A W w' W'. pose proof (level_step m x y x' y' M A) as B. unfold steps in A. cbn [fst snd] in A. destruct A as [A _].
  replace (y + (y' - y) * ((w' - x) / (x' - x)) - (y + (y' - y) * ((w - x) / (x' - x)))) with ((y' - y) * / (x' - x) * (w' - w)) by (field; lra).
  rewrite Rabs_mult. unfold Rdiv. rewrite (Rmult_comm (Rabs (w' - w))). apply Rmult_le_compat_r; [apply Rabs_pos|].
  rewrite Rabs_mult, Rabs_inv, (Rabs_pos_eq (x' - x)) by lra.
  apply Rmult_le_reg_r with (x' - x); [lra|]. rewrite Rmult_assoc, Rinv_l by lra. unfold Rdiv in B. lra.
Qed.

(** The polygon to the right of its first point. *)
Lemma from_first m P : 0 < m -> forall x y l w c, P = (x, y) :: l -> Sorted (steps m) P ->
  interpolates P w c -> x <= w -> Rabs (c - y) <= (w - x) / m.
Proof.
  intros M. induction P as [|p P IH]; intros x y l w c E S I W; [discriminate|]. injection E as -> ->.
  inversion I as [? ? ? ? Hv|? ? ? Hv|? ? x' y' ? ? Hv Hx|? ? x' y' ? ? ? Hv Hi]; subst.
  - rewrite Rminus_diag_eq, Rabs_R0 by reflexivity. apply inv_nonneg; lra.
  - rewrite Rminus_diag_eq, Rabs_R0 by reflexivity. apply inv_nonneg; lra.
  - inversion S as [|? ? S' H]; subst. inversion H; subst.
    pose proof (seg_from m x y x' y' x M ltac:(assumption) ltac:(lra) w ltac:(lra)) as Q.
    replace (y + (y' - y) * ((x - x) / (x' - x))) with y in Q by (field; lra). rewrite (Rabs_pos_eq (w - x)) in Q by lra. exact Q.
  - inversion S as [|? ? S' H]; subst. inversion H as [|? ? A]; subst.
    pose proof (IH x' y' _ w c eq_refl S' Hi Hv) as Q. pose proof (level_step m x y x' y' M A) as T.
    replace (c - y) with ((c - y') + (y' - y)) by ring. eapply Rle_trans; [apply Rabs_triang|].
    replace ((w - x) / m) with ((w - x') / m + (x' - x) / m) by (field; lra). lra.
Qed.

(** The polygon is not steeper than [1 / m]. *)
Lemma lip_le m P : 0 < m -> forall w w' c c', Sorted (steps m) P ->
  interpolates P w c -> interpolates P w' c' -> w <= w' -> Rabs (c' - c) <= (w' - w) / m.
Proof.
  intros M. induction P as [|[x y] P IH]; intros w w' c c' S I I' W; [inversion I|].
  destruct (Rle_dec w x) as [X|X].
  - (* left of the first point *)
    assert (C : c = y).
    { inversion I as [? ? ? ? Hv|? ? ? Hv|? ? x' y' ? ? Hv Hx|? ? x' y' ? ? ? Hv Hi]; subst; [reflexivity|reflexivity| |].
      - replace w with x by lra. field. lra.
      - inversion S as [|? ? S' H]; subst. inversion H as [|? ? A]; subst. unfold steps in A. cbn [fst snd] in A. lra. }
    subst c. destruct (Rle_dec x w') as [X'|X'].
    + eapply Rle_trans; [exact (from_first m _ M x y P w' c' eq_refl S I' X')|]. apply Rdiv_le; lra.
    + assert (c' = y) as ->.
      { inversion I' as [? ? ? ? Hv|? ? ? Hv|? ? x' y' ? ? Hv Hx|? ? x' y' ? ? ? Hv Hi]; subst; [reflexivity|reflexivity|lra|].
        inversion S as [|? ? S' H]; subst. inversion H as [|? ? A]; subst. unfold steps in A. cbn [fst snd] in A. lra. }
      rewrite Rminus_diag_eq, Rabs_R0 by reflexivity. apply inv_nonneg; lra.
  - inversion I as [? ? ? ? Hv|? ? ? Hv|? ? x1 y1 ? ? Hv Hx|? ? x1 y1 ? ? ? Hv Hi]; subst; [lra| | |].
    + inversion I'; subst; rewrite Rminus_diag_eq, Rabs_R0 by reflexivity; apply inv_nonneg; lra.
    + inversion S as [|? ? S' H]; subst. inversion H as [|? ? A]; subst.
      inversion I' as [? ? ? ? Hv'|? ? ? Hv'|? ? ? ? ? ? Hv' Hx'|? ? ? ? ? ? ? Hv' Hi']; subst; [lra| |].
      * eapply Rle_trans; [exact (seg_from m x y x1 y1 w M A Hv w' Hv')|]. rewrite Rabs_pos_eq by lra. lra.
      * pose proof (seg_from m x y x1 y1 w M A Hv x1 ltac:(lra)) as Q.
        replace (y + (y1 - y) * ((x1 - x) / (x1 - x))) with y1 in Q by (field; lra). rewrite (Rabs_pos_eq (x1 - w)) in Q by lra.
        pose proof (from_first m _ M x1 y1 _ w' c' eq_refl S' Hi' Hv') as T.
        set (cc := y + (y1 - y) * ((w - x) / (x1 - x))) in *.
        replace (c' - cc) with ((c' - y1) + (y1 - cc)) by ring. eapply Rle_trans; [apply Rabs_triang|].
        replace ((w' - w) / m) with ((w' - x1) / m + (x1 - w) / m) by (field; lra). lra.
    + inversion S as [|? ? S' H]; subst. inversion H as [|? ? A]; subst.
      unfold steps in A. cbn [fst snd] in A.
      inversion I' as [? ? ? ? Hv'|? ? ? Hv'|? ? ? ? ? ? Hv' Hx'|? ? ? ? ? ? ? Hv' Hi']; subst; [lra| |].
      * assert (w = x1) by lra. assert (w' = x1) by lra. subst w w'.
        replace (y + (y1 - y) * ((x1 - x) / (x1 - x))) with y1 by (field; lra). rewrite Rabs_minus_sym.
        exact (from_first m _ M x1 y1 _ x1 c eq_refl S' Hi Hv).
      * exact (IH w w' c c' S' Hi Hi' W).
Qed.
Lemma lip m P w w' c c' : 0 < m -> Sorted (steps m) P ->
  interpolates P w c -> interpolates P w' c' -> Rabs (c' - c) <= Rabs (w' - w) / m.
Proof.
  intros M S I I'. destruct (Rle_dec w w') as [W|W].
  - rewrite (Rabs_pos_eq (w' - w)) by lra. exact (lip_le m P M w w' c c' S I I' W).
  - rewrite Rabs_minus_sym, (Rabs_minus_sym w'). rewrite (Rabs_pos_eq (w - w')) by lra.
    apply (lip_le m P M w' w c' c S I' I). lra.
Qed.

(** Moving the points: right of the first point, *)
Lemma moved_right m d P' : 0 < m -> 0 <= d -> forall P x' y' l' x y l w c', P' = (x', y') :: l' -> P = (x, y) :: l ->
  Forall2 (close d) P' P -> Sorted (apart m) P -> interpolates P' w c' -> x' <= w ->
  exists w0 c, interpolates P w0 c /\ x <= w0 /\ Rabs (w - w0) <= d /\ Rabs (c' - c) <= d.
Proof.
  intros M D. induction P' as [|p P' IH]; intros P x' y' l' x y l w c' E E' F S I W; [discriminate|]. injection E as -> ->. subst P.
  inversion F as [|? ? ? ? C F']; subst. destruct C as [Cx Cy]. cbn [fst snd] in Cx, Cy.
  apply Rabs_le_inv in Cx.
  inversion I as [? ? ? ? Hv|? ? ? Hv|? ? x1' y1' ? ? Hv Hx|? ? x1' y1' ? ? ? Hv Hi]; subst.
  - exists x, y. split; [apply int_left; lra|]. split; [lra|]. split; [apply Rabs_le; lra|exact Cy].
  - inversion F'; subst. exists (Rmax w x), y. pose proof (Rmax_l w x). pose proof (Rmax_r w x).
    split; [now apply int_right|]. split; [assumption|]. split; [|exact Cy].
    apply Rabs_le. unfold Rmax in *. destruct (Rle_dec w x); lra.
  - inversion F' as [|? [x1 y1] ? l2 C1 F2]; subst. destruct C1 as [C1x C1y]. cbn [fst snd] in C1x, C1y. apply Rabs_le_inv in C1x.
    inversion S as [|? ? S' H]; subst. inversion H as [|? ? A]; subst. unfold apart in A. cbn [fst] in A.
    set (t := (w - x') / (x1' - x')).
    assert (T : 0 <= t <= 1).
    { unfold t. split; [apply inv_nonneg; lra|]. apply Rmult_le_reg_r with (x1' - x'); [lra|]. unfold Rdiv. rewrite Rmult_assoc, Rinv_l by lra. lra. }
    assert (Ew : w = x' + t * (x1' - x')) by (unfold t; field; lra).
    exists (x + t * (x1 - x)), (y + (y1 - y) * t). split.
    { replace t with ((x + t * (x1 - x) - x) / (x1 - x)) at 2 by (field; lra). apply int_seg; [split; nra|lra]. }
    split; [nra|]. split.
    + rewrite Ew. apply Rabs_le. split; nra.
    + apply Rabs_le_inv in Cy. apply Rabs_le_inv in C1y. apply Rabs_le. split; nra.
  - inversion F' as [|? [x1 y1] ? l2 C1 F2]; subst.
    inversion S as [|? ? S' H]; subst. inversion H as [|? ? A]; subst. unfold apart in A. cbn [fst] in A.
    destruct (IH ((x1, y1) :: l2) x1' y1' _ x1 y1 l2 w c' eq_refl eq_refl F' S' Hi Hv) as (w0 & c & J & B1 & B2 & B3).
    exists w0, c. split; [now apply int_skip|]. split; [lra|]. split; assumption.
Qed.

(** and anywhere. *)
Lemma moved m d P' P w c' : 0 <= d -> 2 * d < m ->
  Forall2 (close d) P' P -> Sorted (apart m) P -> interpolates P' w c' ->
  exists w0 c, interpolates P w0 c /\ Rabs (w - w0) <= d /\ Rabs (c' - c) <= d.
Proof.
  intros D M F S I. destruct P' as [|[x' y'] l']; [inversion I|]. inversion F as [|? [x y] ? l C F']; subst.
  destruct (Rle_dec x' w) as [W|W].
  - destruct (moved_right m d ((x', y') :: l') ltac:(lra) D ((x, y) :: l) x' y' l' x y l w c' eq_refl eq_refl F S I W) as (w0 & c & J & _ & B).
    eauto.
  - assert (c' = y') as ->.
    { inversion I as [? ? ? ? Hv|? ? ? Hv|? ? x1' y1' ? ? Hv Hx|? ? x1' y1' ? ? ? Hv Hi]; subst; [reflexivity|reflexivity|lra|].
      inversion F' as [|? [x1 y1] ? l2 C1 F2]; subst. inversion S as [|? ? S' H]; subst. inversion H as [|? ? A]; subst.
      destruct C as [C _]. destruct C1 as [C1 _]. unfold apart in A. cbn [fst] in *. apply Rabs_le_inv in C. apply Rabs_le_inv in C1. lra. }
    destruct C as [Cx Cy]. cbn [fst snd] in *. apply Rabs_le_inv in Cx. exists (Rmin w x), y. split; [apply int_left, Rmin_r|]. split; [|exact Cy].
    apply Rabs_le. unfold Rmin. destruct (Rle_dec w x); lra.
Qed.

(** The value of the moved polygon at a moved place. *)
Lemma polygon_close m a d P' P w' w c' c : 0 <= d -> 2 * d < m -> 0 < a <= 1 ->
  Forall2 (close d) P' P -> Sorted (apart m) P -> gentle a P -> Rabs (w' - w) <= d ->
  interpolates P' w' c' -> interpolates P w c -> Rabs (c' - c) <= 3 * d / a.
Proof.
  intros D M Pa F S L W I' I. destruct (moved m d P' P w' c' D ltac:(lra) F S I') as (w0 & c0 & J & B1 & B2).
  pose proof (lip a P w w0 c c0 ltac:(lra) (gentle_steps m a P ltac:(lra) S L) I J) as Q.
  assert (Rabs (w0 - w) <= 2 * d).
  { replace (w0 - w) with (- (w' - w0) + (w' - w)) by ring. eapply Rle_trans; [apply Rabs_triang|]. rewrite Rabs_Ropp. lra. }
  replace (c' - c) with ((c' - c0) + (c0 - c)) by ring. eapply Rle_trans; [apply Rabs_triang|].
  assert (Rabs (w0 - w) / a <= 2 * d / a) by (apply Rdiv_le; lra).
  assert (d <= d / a). { apply Rmult_le_reg_r with a; [lra|]. unfold Rdiv. rewrite Rmult_assoc, Rinv_l by lra. nra. }
  replace (3 * d / a) with (d / a + 2 * d / a) by (field; lra). lra.
Qed.

(** There is a value everywhere, and it is a height. *)
Lemma polygon_total m P w : 0 < m -> P <> [] -> Sorted (apart m) P -> Forall level P -> exists c, interpolates P w c /\ 0 <= c <= 1.
Proof.
  intros M. induction P as [|[x y] P IH]; [tauto|]. intros _ S L. inversion L as [|? ? L0 L']; subst.
  destruct (Rle_dec w x) as [W|W]; [exists y; split; [now apply int_left|exact L0]|].
  destruct P as [|[x1 y1] P]; [exists y; split; [apply int_right; lra|exact L0]|].
  inversion S as [|? ? S' H]; subst. inversion H as [|? ? A]; subst. unfold apart in A. cbn [fst] in A. inversion L' as [|? ? L1 _]; subst.
  destruct (Rle_dec x1 w) as [W1|W1].
  - destruct (IH ltac:(discriminate) S' L') as (c & I & B). exists c. split; [now apply int_skip|exact B].
  - exists (y + (y1 - y) * ((w - x) / (x1 - x))). split; [apply int_seg; lra|].
    assert (T : 0 <= (w - x) / (x1 - x) <= 1).
    { split; [apply inv_nonneg; lra|]. apply Rmult_le_reg_r with (x1 - x); [lra|]. unfold Rdiv. rewrite Rmult_assoc, Rinv_l by lra. lra. }
    unfold level in L0, L1. cbn [snd] in L0, L1. set (t := (w - x) / (x1 - x)) in *. split; nra.
Qed.
