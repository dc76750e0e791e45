(** The particle chosen in a bin does not depend on small errors when the choice is clear. *)
From Verif Require Import Py Num RX Np Data Spec SpecR SpecCirc SpecCurve.
From Flocq Require Import Core.
From Coq Require Import Lra Lia.
Local Open Scope R_scope.

Lemma perm_map2 {A B} (h : A -> B) L a r rest : Permutation (map h L) (a :: r :: rest) ->
  exists la lr lrest, Permutation L (la :: lr :: lrest) /\ h la = a /\ h lr = r /\ map h lrest = rest.
Proof.
  intros P. apply Permutation_sym, Permutation_map_inv in P as (l3 & E & P).
  destruct l3 as [|la [|lr lrest]]; try discriminate. injection E as -> -> ->. exists la, lr, lrest. auto.
Qed.
Lemma perm_map1 {A B} (h : A -> B) L a rest : Permutation (map h L) (a :: rest) ->
  exists la lrest, Permutation L (la :: lrest) /\ h la = a /\ map h lrest = rest.
Proof.
  intros P. apply Permutation_sym, Permutation_map_inv in P as (l3 & E & P).
  destruct l3 as [|la lrest]; try discriminate. injection E as -> ->. exists la, lrest. auto.
Qed.

Section Choice.
Context {T : Type} (f y : T -> R) (L : list T) (D t m : R).
Hypothesis Hd : forall l, In l L -> Rabs (f l - y l) <= D.
Hypothesis Hy : forall l, In l L -> 0 <= y l.
Hypothesis Hm : 0 <= D /\ 0 <= t /\ 2 * D + t < m.

Local Lemma near l : In l L -> y l - D <= f l <= y l + D.
Proof. intros I. pose proof (Rabs_le_inv _ _ (Hd l I)). lra. Qed.

(** The largest by the computed values is the largest by the exact ones. *)
Lemma same_top la l' lp lp' : Permutation L (la :: l') -> Permutation L (lp :: lp') ->
  (forall b, In b l' -> f b <= f la) -> (forall b, In b lp' -> y b + m <= y lp) -> la = lp.
Proof.
  intros P P' A B. assert (Ia : In la L) by (eapply Permutation_in; [symmetry; exact P|now left]).
  assert (Ip : In lp L) by (eapply Permutation_in; [symmetry; exact P'|now left]).
  destruct (Permutation_in _ P' Ia) as [E|I]; [auto|]. specialize (B _ I).
  destruct (Permutation_in _ P Ip) as [E|J]; [auto|]. specialize (A _ J).
  pose proof (near _ Ia). pose proof (near _ Ip). lra.
Qed.

(** What the computed choice amounts to; [t] bounds the error of the comparison with 0.99. *)
Inductive computed : T -> Prop :=
| comp_alone l : L = [l] -> computed l
| comp_first la lr rest : Permutation L (la :: lr :: rest) -> f lr <= f la -> (forall b, In b rest -> f b <= f lr) ->
    (0 < f la -> 99 / 100 * f la - t <= f lr) -> computed la
| comp_second la lr rest : Permutation L (la :: lr :: rest) -> f lr <= f la -> (forall b, In b rest -> f b <= f lr) ->
    (0 < f la -> f lr <= 99 / 100 * f la + t) -> computed lr.

Lemma same_choice (q : T -> R * R) l p : (forall l, In l L -> snd (q l) = y l) ->
  computed l -> chosen m (map q L) p -> q l = p.
Proof.
  intros Q C P.
  assert (In2 : forall a r rest, Permutation L (a :: r :: rest) -> In a L /\ In r L /\ forall b, In b rest -> In b L).
  { intros a r rest H. apply Permutation_sym in H. split; [|split]; [| |intros b B]; (eapply Permutation_in; [exact H|simpl; auto]). }
  assert (Len : forall (x : R * R) a r rest, map q L = [x] -> Permutation L (a :: r :: rest) -> False).
  { intros x a r rest H H'. apply Permutation_length in H'. assert (length (map q L) = 1%nat) by now rewrite H.
    rewrite map_length in *. simpl in H'. lia. }
  assert (Top : forall la lr rest lp r2 rest2, Permutation L (la :: lr :: rest) -> f lr <= f la -> (forall b, In b rest -> f b <= f lr) ->
     Permutation L (lp :: r2 :: rest2) -> y r2 + m <= y lp -> (forall b, In b rest2 -> y b <= y r2) -> la = lp).
  { intros la lr rest lp r2 rest2 P1 A B P2 C1 C2. apply (same_top la (lr :: rest) lp (r2 :: rest2) P1 P2).
    - intros b [<-|Hb]; [exact A|]. specialize (B b Hb). lra.
    - intros b [<-|Hb]; [exact C1|]. specialize (C2 b Hb). lra. }
  destruct C as [l E|la lr rest P1 A B G|la lr rest P1 A B G].
  - rewrite E in P. destruct P as [E'|r rest H|a rest H].
    + simpl in E'. now injection E'.
    + apply Permutation_length in H. discriminate.
    + apply Permutation_length in H. discriminate.
  - destruct P as [E'|r rest' H S1 S2 S3|a rest' H S1 S2].
    + destruct (Len _ _ _ _ E' P1).
    + apply perm_map2 in H as (lp & lr2 & lrest2 & P2 & <- & <- & <-). destruct (In2 _ _ _ P2) as (I1 & I2 & I3).
      rewrite (Q _ I1), (Q _ I2) in *. f_equal. apply (Top la lr rest lp lr2 lrest2 P1 A B P2 S1).
      intros b Hb. rewrite <- (Q b (I3 b Hb)). apply S2. now apply in_map.
    + exfalso. apply perm_map2 in H as (la2 & lp & lrest2 & P2 & <- & <- & <-). destruct (In2 _ _ _ P2) as (I1 & I2 & I3).
      rewrite (Q _ I1), (Q _ I2) in *. pose proof (Hy _ I1). pose proof (Hy _ I2).
      assert (S2' : forall b, In b lrest2 -> y b + m <= y lp) by (intros b Hb; rewrite <- (Q b (I3 b Hb)); apply S2; now apply in_map).
      assert (la = la2).
      { apply (Top la lr rest la2 lp lrest2 P1 A B P2); [lra|]. intros b Hb. specialize (S2' b Hb). lra. }
      subst la2. assert (P3 : Permutation (lr :: rest) (lp :: lrest2)).
      { apply Permutation_cons_inv with la. now rewrite <- P1, <- P2. }
      pose proof (near _ I1). pose proof (near _ I2). destruct (In2 _ _ _ P1) as (_ & J & J').
      assert (E : lr = lp).
      { destruct (Permutation_in lr P3) as [E|I]; [now left|now symmetry|]. specialize (S2' _ I).
        destruct (Permutation_in lp (Permutation_sym P3)) as [E|I']; [now left|exact E|]. specialize (B _ I').
        pose proof (near _ J). lra. }
      subst lp. specialize (G ltac:(lra)). lra.
  - destruct P as [E'|r rest' H S1 S2 S3|a rest' H S1 S2].
    + destruct (Len _ _ _ _ E' P1).
    + exfalso. apply perm_map2 in H as (lp & lr2 & lrest2 & P2 & <- & <- & <-). destruct (In2 _ _ _ P2) as (I1 & I2 & I3).
      rewrite (Q _ I1), (Q _ I2) in *. pose proof (Hy _ I2).
      assert (la = lp).
      { apply (Top la lr rest lp lr2 lrest2 P1 A B P2 S1). intros b Hb. rewrite <- (Q b (I3 b Hb)). apply S2. now apply in_map. }
      subst lp. assert (P3 : Permutation (lr :: rest) (lr2 :: lrest2)).
      { apply Permutation_cons_inv with la. now rewrite <- P1, <- P2. }
      assert (f lr2 <= f lr).
      { destruct (Permutation_in lr2 (Permutation_sym P3)) as [E|I]; [now left|subst; lra|exact (B _ I)]. }
      pose proof (near _ I1). pose proof (near _ I2). specialize (G ltac:(lra)). lra.
    + apply perm_map2 in H as (la2 & lp & lrest2 & P2 & <- & <- & <-). destruct (In2 _ _ _ P2) as (I1 & I2 & I3).
      rewrite (Q _ I1), (Q _ I2) in *. pose proof (Hy _ I1). pose proof (Hy _ I2).
      assert (S2' : forall b, In b lrest2 -> y b + m <= y lp) by (intros b Hb; rewrite <- (Q b (I3 b Hb)); apply S2; now apply in_map).
      assert (la = la2).
      { apply (Top la lr rest la2 lp lrest2 P1 A B P2); [lra|]. intros b Hb. specialize (S2' b Hb). lra. }
      subst la2. assert (P3 : Permutation (lr :: rest) (lp :: lrest2)).
      { apply Permutation_cons_inv with la. now rewrite <- P1, <- P2. }
      destruct (In2 _ _ _ P1) as (_ & J & J'). f_equal.
      destruct (Permutation_in lr P3) as [E|I]; [now left|now symmetry|]. specialize (S2' _ I).
      destruct (Permutation_in lp (Permutation_sym P3)) as [E|I']; [now left|exact E|]. specialize (B _ I').
      pose proof (near _ J). pose proof (near _ I2). lra.
Qed.
End Choice.
