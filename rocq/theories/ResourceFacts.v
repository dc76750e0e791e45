(** Lemmas about the reference programs. *)
From Verif Require Import Py Num RX F64 Np Data Spec SpecR SpecPot Potential PotConc PotConcFacts Resource SpecResource.
From Flocq Require Import IEEE754.BinarySingleNaN Core.
From Coq Require Import Lia Lra Reals.

Section Zero.
Variables prec emax : Z.
Hypothesis Hp : (0 < prec)%Z.
Hypothesis Hm : (prec < emax)%Z.
Local Instance Hp2 : Prec_gt_0 prec := Hp.
Local Instance Hm2 : Prec_lt_emax prec emax := Hm.
Notation bf := (binary_float prec emax).

(** Squares and sums of numbers with positive sign have a positive sign. *)
Lemma sq_sign (x : bf) : Bsign (Bmult mode_NE x x) = false.
Proof.
  pose proof (Bmult_correct prec emax _ _ mode_NE x x) as H. destruct (Rlt_bool _ _).
  - destruct H as (_ & _ & H). destruct (is_nan (Bmult mode_NE x x)) eqn:E; [now destruct (Bmult mode_NE x x)|]. rewrite H by auto. now destruct (Bsign x).
  - rewrite Bool.xorb_nilpotent in H. destruct (Bmult mode_NE x x) as [s|s| |s m e h]; try discriminate H. cbn in *. congruence.
Qed.
Lemma sum_sign (x y : bf) : Bsign x = false -> Bsign y = false -> Bsign (Bplus mode_NE x y) = false.
Proof.
  intros X Y. destruct (is_finite x) eqn:Fx; [destruct (is_finite y) eqn:Fy|].
  - pose proof (Bplus_correct prec emax _ _ mode_NE x y Fx Fy) as H. destruct (Rlt_bool _ _).
    + destruct H as (_ & _ & ->). assert (P : (0 <= B2R x + B2R y)%R).
      { assert (Q : forall z : bf, Bsign z = false -> (0 <= B2R z)%R). { intros [s|s| |s m e h] E; cbn in *; try lra. subst s. apply F2R_ge_0. cbn. lia. }
        apply Rplus_le_le_0_compat; auto. }
      destruct (Rcompare_spec (B2R x + B2R y) 0); [lra|now rewrite X|reflexivity].
    + destruct H as (H & _). rewrite X in H. destruct (Bplus mode_NE x y) as [s|s| |s m e h]; try discriminate H. cbn in *. congruence.
  - destruct x as [s|s| |s m e h], y as [t|t| |t m' e' h']; try discriminate; cbn in *; subst; reflexivity.
  - destruct x as [s|s| |s m e h], y as [t|t| |t m' e' h']; try discriminate; cbn in *; subst; reflexivity.
Qed.
Lemma plus_zero (x : bf) : Bsign x = false -> Bplus mode_NE x (B754_zero false) = x.
Proof. destruct x as [[|]|s| |s m e h]; cbn; try reflexivity; intros H; discriminate H. Qed.
Lemma rdist_soft0 sm (bi bj : body (BNum prec emax Hp Hm sm)) : rdist bi bj = tdist n0 bi bj.
Proof.
  unfold rdist, tdist. f_equal. assert (Z : nmul (n0 : BNum prec emax Hp Hm sm) n0 = B754_zero false) by reflexivity. rewrite Z.
  symmetry. refine (plus_zero _ _). refine (sum_sign _ _ (sum_sign _ _ _ _) _); refine (sq_sign _).
Qed.
End Zero.

Section Loop.
Context {S : Num}.
Implicit Types (bs : list (body S)).

Notation src := source_of.
Lemma rinner_ext d d' i j bi acc bs : (forall a b, d a b = d' a b) -> rinner d i j bi acc bs = rinner d' i j bi acc bs.
Proof. intros E. revert j acc. induction bs as [|b bs IH]; intros j acc; cbn; [reflexivity|]. now rewrite E, IH. Qed.
Lemma rinner_finner eps i j bi acc bs : rinner (tdist eps) i j bi acc bs = finner (eps * eps)%num i j bi acc bs.
Proof. revert j acc. induction bs as [|b bs IH]; intros j acc; cbn; [reflexivity|]. rewrite IH. reflexivity. Qed.
Lemma rloop_length G d bs : length (rloop G d bs) = length bs.
Proof. unfold rloop. rewrite map2_length, seq_length. lia. Qed.
Lemma rloop_nth G eps bs i b : nth_error bs i = Some b ->
  nth_error (rloop G (tdist eps) bs) i = Some (pair_sum eps (map src bs) i (src b) * G)%num.
Proof.
  intros E. unfold rloop. rewrite map2_nth, E. assert (i < length bs)%nat by (apply nth_error_Some; congruence).
  rewrite (nth_error_nth' _ 0%nat) by (rewrite seq_length; auto). rewrite seq_nth by auto. cbn [plus]. rewrite rinner_finner, (finner_others _ _ _ _ _ E).
  do 2 f_equal. unfold pair_sum. rewrite others_map. generalize (others bs i) as l. generalize (n0 : S) as acc. clear.
  intros acc l; revert acc; induction l as [|c l IH]; intros acc; cbn; [reflexivity|]. now rewrite IH.
Qed.
Lemma map2_same {A B C} (f f' : A -> B -> C) l l' : (forall a b, f a b = f' a b) -> map2 f l l' = map2 f' l l'.
Proof. intros H. revert l'. induction l as [|a l IH]; intros [|b l']; cbn; try reflexivity. now rewrite H, IH. Qed.
Lemma rloop_ext G d d' bs : (forall a b, d a b = d' a b) -> rloop G d bs = rloop G d' bs.
Proof. intros E. unfold rloop. apply map2_same. intros i bi. now rewrite (rinner_ext d d') by exact E. Qed.
End Loop.

(** ** Parallel execution *)
Section Par.
Context {S : Num}.
Variables (G : S) (dist : body S -> body S -> S) (bs : list (body S)).
Let n := length bs.

(** What an iteration does to its own cell. *)
Definition local (i : nat) (c : rpc S) (cell : S) : option (S * rpc S) :=
  match c with
  | RStart => Some (n0, RHead 0)
  | RHead j =>
      match nth_error bs i, nth_error bs j with
      | Some bi, Some bj => Some (cell, if (i =? j)%nat then RHead (Datatypes.S j) else RHave j (dist bi bj))
      | _, _ => Some (cell, RScale)
      end
  | RHave j d => Some (cell, RRead j d cell)
  | RRead j d r => match nth_error bs j with Some bj => Some ((r + b_m bj / d)%num, RHead (Datatypes.S j)) | None => None end
  | RScale => Some (cell, RScaleR cell)
  | RScaleR r => Some ((r * G)%num, RDone)
  | RDone => None
  end.
Lemma upd_same {A} (l : list A) i x : nth_error l i = Some x -> upd l i x = l.
Proof. revert i. induction l as [|a l IH]; intros [|i] E; cbn in *; try discriminate; [congruence|]. f_equal. auto. Qed.
Lemma rtask_local i c mem cell : nth_error mem i = Some cell ->
  rtask G dist bs i c mem = match local i c cell with Some (cell', c') => Some (upd mem i cell', c') | None => None end.
Proof.
  intros E. destruct c as [|j|j d|j d r| |r|]; cbn; try reflexivity.
  - destruct (nth_error bs i) as [bi|]; [destruct (nth_error bs j) as [bj|]|]; rewrite (upd_same _ _ _ E); reflexivity.
  - rewrite E, (upd_same _ _ _ E). reflexivity.
  - destruct (nth_error bs j); reflexivity.
  - rewrite E, (upd_same _ _ _ E). reflexivity.
Qed.

Inductive lsteps (i : nat) : S * rpc S -> S * rpc S -> Prop :=
| ls_refl x : lsteps i x x
| ls_next x y z : local i (snd x) (fst x) = Some y -> lsteps i y z -> lsteps i x z.
Lemma ls_trans i x y z : lsteps i x y -> lsteps i y z -> lsteps i x z.
Proof. induction 1; [auto|]. intros. eapply ls_next; eauto. Qed.
(** One iteration alone is deterministic: everything reached lies before the end. *)
Lemma ls_end i x y z : lsteps i x y -> lsteps i x z -> snd z = RDone -> lsteps i y z.
Proof.
  intros H. revert z. induction H as [|x y y' E _ IH]; intros z Z D; [exact Z|]. inversion Z as [|a b c E' Z']; subst.
  - rewrite D in E. discriminate E.
  - rewrite E in E'. injection E' as ->. auto.
Qed.
Lemma ls_done i x y : lsteps i x y -> snd x = RDone -> y = x.
Proof. intros H D. destruct H as [|x y z E _]; [reflexivity|]. rewrite D in E. discriminate E. Qed.

(** Shared states in which array and counters have the right sizes; every iteration's cell and
    counter. *)
Definition sized (s : rstate S) : Prop := length (ep s) = n /\ length (rpcs s) = n.
Definition at_ (s : rstate S) (i : nat) (x : S * rpc S) : Prop := nth_error (ep s) i = Some (fst x) /\ nth_error (rpcs s) i = Some (snd x).
Lemma at_ex s i : sized s -> (i < n)%nat -> exists x, at_ s i x.
Proof.
  intros (A & B) L. destruct (nth_error (ep s) i) as [e|] eqn:E; [|apply nth_error_None in E; lia]. destruct (nth_error (rpcs s) i) as [c|] eqn:C; [|apply nth_error_None in C; lia].
  exists (e, c). split; assumption.
Qed.
Lemma at_fun s i x y : at_ s i x -> at_ s i y -> x = y.
Proof. destruct x, y. intros (A & B) (C & D). cbn in *. congruence. Qed.
Definition put (s : rstate S) i (x : S * rpc S) : rstate S := RSt (upd (ep s) i (fst x)) (upd (rpcs s) i (snd x)).
Lemma put_sized s i x : sized s -> sized (put s i x).
Proof. intros (A & B). split; cbn; rewrite upd_length; assumption. Qed.
Lemma put_at s i x k : sized s -> (i < n)%nat -> at_ (put s i x) k = if (k =? i)%nat then at_ (put s i x) k else at_ s k.
Proof.
  intros (A & B) L. destruct (Nat.eqb_spec k i) as [|K]; [reflexivity|]. unfold at_. cbn. rewrite !upd_nth by lia. now rewrite (proj2 (Nat.eqb_neq k i) K).
Qed.
Lemma put_here s i x : sized s -> (i < n)%nat -> at_ (put s i x) i x.
Proof. intros (A & B) L. unfold at_. cbn. rewrite !upd_nth by lia. rewrite Nat.eqb_refl. split; reflexivity. Qed.
Lemma step_local s t : sized s -> rstep G dist bs s t <-> sized s /\ exists i x y, (i < n)%nat /\ at_ s i x /\ local i (snd x) (fst x) = Some y /\ t = put s i y.
Proof.
  intros Z. split.
  - intros H. split; [exact Z|]. destruct H as [i c mem cs mem' c' C T]. assert (L : (i < n)%nat) by (destruct Z as (_ & Z); cbn in Z; rewrite <- Z; apply nth_error_Some; congruence).
    destruct (at_ex _ i Z L) as (x & X). pose proof X as (E & C'). cbn in E, C'. rewrite (rtask_local i c mem _ E) in T. exists i, x.
    assert (snd x = c) as <- by congruence. destruct (local i (snd x) (fst x)) as [y|]; [|discriminate]. destruct y as (cell', d). injection T as <- <-. exists (cell', d). auto.
  - intros (_ & i & x & y & L & (E & C) & T & ->). destruct s as (mem, cs). cbn in E, C. unfold put. cbn. econstructor; [exact C|]. rewrite (rtask_local _ _ _ _ E), T. destruct y; reflexivity.
Qed.
Lemma step_sized s t : sized s -> rstep G dist bs s t -> sized t.
Proof. intros Z H. apply (step_local s t Z) in H as (_ & i & x & y & _ & _ & _ & ->). now apply put_sized. Qed.
Lemma steps_local k s t : sized s -> rsteps G dist bs k s t -> sized t /\ forall i x y, at_ s i x -> at_ t i y -> lsteps i x y.
Proof.
  intros Z H. revert Z. induction H as [s|k s t u H _ IH]; intros Z.
  - split; [exact Z|]. intros i x y X Y. rewrite (at_fun _ _ _ _ X Y). constructor.
  - destruct (IH (step_sized _ _ Z H)) as (U & F). split; [exact U|]. intros i x y X Y.
    apply (step_local s t Z) in H as (_ & i0 & x0 & y0 & L & X0 & T & ->). destruct (Nat.eq_dec i i0) as [->|K].
    + assert (x = x0) as -> by (eapply at_fun; eauto). eapply ls_next; [exact T|]. apply F; [|exact Y]. now apply put_here.
    + apply F; [|exact Y]. rewrite put_at by assumption. now rewrite (proj2 (Nat.eqb_neq i i0) K).
Qed.
(** The whole run of one iteration alone. *)
Lemma run_inner i bi : nth_error bs i = Some bi -> forall l j acc, skipn j bs = l -> lsteps i (acc, RHead j) (rinner dist i j bi acc l, RScale).
Proof.
  intros Hi. induction l as [|b l IH]; intros j acc E.
  - eapply ls_next; [cbn|constructor]. rewrite Hi. assert (X : nth_error bs j = None) by (apply nth_error_None; apply (f_equal (@length _)) in E; rewrite skipn_length in E; cbn in E; lia). now rewrite X.
  - assert (X : nth_error bs j = Some b /\ skipn (Datatypes.S j) bs = l).
    { clear - E. revert E. generalize bs. induction j as [|j IH]; intros [|c cs] E; cbn in *; try discriminate; [split; congruence|]. apply IH in E. exact E. }
    destruct X as (X & E'). cbn [rinner]. destruct (Nat.eqb_spec i j) as [K|K].
    + eapply ls_next; [cbn; rewrite Hi, X, (proj2 (Nat.eqb_eq i j) K); reflexivity|]. now apply IH.
    + eapply ls_next; [cbn; rewrite Hi, X, (proj2 (Nat.eqb_neq i j) K); reflexivity|]. eapply ls_next; [reflexivity|]. eapply ls_next; [cbn; rewrite X; reflexivity|]. now apply IH.
Qed.
Lemma run_task i bi e : nth_error bs i = Some bi -> lsteps i (e, RStart) ((rinner dist i 0 bi n0 bs * G)%num, RDone).
Proof.
  intros H. eapply ls_next; [reflexivity|]. eapply ls_trans; [now apply (run_inner i bi H bs 0)|]. eapply ls_next; [reflexivity|]. eapply ls_next; [reflexivity|]. constructor.
Qed.
(** The start and what is reached from it. *)
Lemma init_sized ep0 : length ep0 = n -> sized (rinit bs ep0).
Proof. intros H. split; cbn; [exact H|apply repeat_length]. Qed.
Lemma init_at ep0 i x : at_ (rinit bs ep0) i x -> x = (fst x, RStart).
Proof. intros (_ & H). apply nth_error_In, repeat_spec in H. destruct x. cbn in *. congruence. Qed.
Lemma reach_end ep0 k s i x bi : length ep0 = n -> rsteps G dist bs k (rinit bs ep0) s -> nth_error bs i = Some bi -> at_ s i x ->
  lsteps i x ((rinner dist i 0 bi n0 bs * G)%num, RDone).
Proof.
  intros L H Hi X. pose proof (init_sized _ L) as Z. destruct (steps_local _ _ _ Z H) as (Z' & F).
  assert (Li : (i < n)%nat) by (apply nth_error_Some; congruence). destruct (at_ex _ i Z Li) as (x0 & X0). pose proof (F _ _ _ X0 X) as R.
  rewrite (init_at _ _ _ X0) in R. eapply ls_end; [exact R|now apply run_task|reflexivity].
Qed.
(** An iteration that is not finished can advance; the number of steps is bounded. *)
Lemma ls_stuck i x z : lsteps i x z -> snd z = RDone -> snd x <> RDone -> exists y, local i (snd x) (fst x) = Some y.
Proof. intros H. destruct H; [contradiction|]. eauto. Qed.
Definition rcost (c : rpc S) : nat :=
  match c with
  | RStart => 3 * n + 4
  | RHead j => 3 * (n - j) + 3
  | RHave j _ => 3 * (n - j) + 2
  | RRead j _ _ => 3 * (n - j) + 1
  | RScale => 2
  | RScaleR _ => 1
  | RDone => 0
  end.
Definition rcosts (s : rstate S) : nat := list_sum (map rcost (rpcs s)).
Lemma sum_upd cs i c c' : nth_error cs i = Some c -> (list_sum (map rcost (upd cs i c')) + rcost c = list_sum (map rcost cs) + rcost c')%nat.
Proof.
  revert i; induction cs as [|a cs IH]; intros [|i] H; try discriminate; cbn [upd map list_sum fold_right].
  - injection H as ->. unfold list_sum. lia.
  - specialize (IH i H). unfold list_sum in *. lia.
Qed.
Lemma local_cost i c e y : local i c e = Some y -> (rcost (snd y) < rcost c)%nat.
Proof.
  destruct c as [|j|j d|j d r| |r|]; cbn [local]; intros H; try discriminate.
  - injection H as <-. cbn. lia.
  - destruct (nth_error bs i) as [bi|] eqn:Ei; [destruct (nth_error bs j) as [bj|] eqn:Ej|].
    + assert (j < n)%nat by (apply nth_error_Some; congruence). destruct (i =? j)%nat; injection H as <-; cbn [snd rcost]; lia.
    + injection H as <-. cbn [snd rcost]. lia.
    + injection H as <-. cbn [snd rcost]. lia.
  - injection H as <-. cbn [snd rcost]. lia.
  - destruct (nth_error bs j) as [bj|] eqn:Ej; [|discriminate]. assert (j < n)%nat by (apply nth_error_Some; congruence). injection H as <-. cbn [snd rcost]. lia.
  - injection H as <-. cbn. lia.
  - injection H as <-. cbn. lia.
Qed.
Lemma step_rcost s t : sized s -> rstep G dist bs s t -> (rcosts t < rcosts s)%nat.
Proof.
  intros Z H. apply (step_local s t Z) in H as (_ & i & x & y & L & (E & C) & T & ->). unfold rcosts, put. cbn [rpcs].
  pose proof (sum_upd (rpcs s) i _ (snd y) C). pose proof (local_cost _ _ _ _ T). lia.
Qed.
Lemma steps_rcost k s t : sized s -> rsteps G dist bs k s t -> (k + rcosts t <= rcosts s)%nat.
Proof.
  intros Z H. revert Z. induction H as [s|k s t u H _ IH]; intros Z; [lia|]. pose proof (step_rcost _ _ Z H). specialize (IH (step_sized _ _ Z H)). lia.
Qed.
End Par.
