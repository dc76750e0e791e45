(** The printed form of a decomposition (C77). *)
From Verif Require Import Py Num Np Df Data Circ Base Threshold RX F64 Spec SpecCirc SpecBase DataFacts CenterFacts DataThms BaseThms EpsFacts ThresholdThms Ex Ctor SpecCtor CtorFacts CtorThms CircFacts CurveFacts CircThms Unique SpecUnique.
From Coq Require Import Lia Lra Permutation Sorted Floats.SpecFloat.

Section U.
Context {N : Num} (RN : Rounded N).
Local Notation v := (val RN).

Definition bf (x y : N) : Prop := v y = XNaN \/ xle (v x) (v y).
Definition inc (x y : N) : Prop := v y = XNaN \/ xlt (v x) (v y).

Lemma nth_SS (P R : N -> N -> Prop) (s : list N) : (forall x y, P x y -> R x y) ->
  (forall a b x y, (a < b)%nat -> nth_error s a = Some x -> nth_error s b = Some y -> P x y) -> StronglySorted R s.
Proof.
  intros PR. induction s as [|x s IH]; intros H; constructor.
  - apply IH. intros a b u w L A B. exact (H (S a) (S b) u w ltac:(lia) A B).
  - apply Forall_forall. intros y Hy. apply In_nth_error in Hy. destruct Hy as (k & Hk).
    apply PR. exact (H 0%nat (S k) x y ltac:(lia) eq_refl Hk).
Qed.

Lemma SS_nth (R : N -> N -> Prop) (s : list N) : StronglySorted R s ->
  forall a b x y, (a < b)%nat -> nth_error s a = Some x -> nth_error s b = Some y -> R x y.
Proof.
  induction 1 as [|x s SS IH F]; intros a b u w L A B; [now destruct a|].
  destruct b as [|b]; [lia|]. destruct a as [|a]; cbn in A, B.
  - injection A as <-. rewrite Forall_forall in F. apply F. eapply nth_error_In; eauto.
  - exact (IH a b u w ltac:(lia) A B).
Qed.

Lemma sorted_SS l s : sorted_copy l s -> StronglySorted bf s.
Proof.
  intros (_ & H). refine (nth_SS _ _ s _ H). intros x y [A|A]; [left; now apply (nisnan_iff RN)|right; now apply (nle_iff RN)].
Qed.

Lemma inc_trans x y z : bf x y -> inc y z -> inc x z.
Proof.
  unfold bf, inc. intros [A|A] [B|B]; auto.
  - rewrite A in B. cbn in B. destruct (v z); contradiction.
  - right. destruct (v x), (v y), (v z); cbn in *; try easy; lra.
Qed.

Lemma changes_facts prev l : StronglySorted bf (prev :: l) ->
  StronglySorted inc (prev :: changes prev l) /\
  (forall x, In x (prev :: changes prev l) -> In x (prev :: l)) /\
  (forall x, In x (prev :: l) -> v x <> XNaN -> exists y, In y (prev :: changes prev l) /\ v y = v x) /\
  nans (prev :: changes prev l) = nans (prev :: l).
Proof.
  revert prev. induction l as [|x l IH]; intros prev SS; cbn [changes].
  - split; [constructor; constructor|]. split; [auto|]. split; [eauto|reflexivity].
  - inversion SS as [|? ? SS' F]; subst. rewrite Forall_forall in F.
    destruct (IH x SS') as (A & B & C & D). inversion A as [|? ? A' FA]; subst. rewrite Forall_forall in FA.
    destruct (neqb x prev) eqn:E; cbn [negb].
    + apply (neqb_iff RN) in E. destruct E as (E & Nx). split; [|split; [|split]].
      * constructor; [exact A'|]. apply Forall_forall. intros y Hy. specialize (FA y Hy). unfold inc in *. now rewrite <- E.
      * intros y [<-|Hy]; [now left|]. right. apply B. now right.
      * intros y Hy Ny. assert (G : exists w, In w (x :: changes x l) /\ v w = v y).
        { destruct Hy as [<-|Hy]; [exists x; split; [now left|exact E]|]. apply C; auto. }
        destruct G as (w & [<-|Hw] & Ew); [exists prev; split; [now left|congruence]|exists w; split; [now right|exact Ew]].
      * unfold nans in *. cbn [filter] in *.
        assert (Ex : nisnan x = false) by now apply (nisnan_false RN).
        assert (Ep : nisnan prev = false) by (apply (nisnan_false RN); congruence).
        rewrite Ex in *. rewrite Ep. exact D.
    + assert (I : inc prev x).
      { destruct (F x (or_introl eq_refl)) as [G|G]; [now left|]. right.
        destruct (xle_lt_or_eq _ _ G) as [L|L]; [exact L|]. exfalso.
        assert (neqb x prev = true); [|congruence]. apply (neqb_iff RN). split; [now symmetry|].
        intros Nx. rewrite Nx in G. destruct (v prev); exact G. }
      split; [|split; [|split]].
      * constructor; [exact A|]. apply Forall_forall. intros y [<-|Hy]; [exact I|].
        apply (inc_trans prev x y); [apply F; now left|now apply FA].
      * intros y [<-|Hy]; [now left|]. right. now apply B.
      * intros y [<-|Hy] Ny; [exists prev; split; [now left|reflexivity]|].
        destruct (C y Hy Ny) as (w & Hw & Ew). exists w. split; [now right|exact Ew].
      * unfold nans in *. cbn [filter] in *. destruct (nisnan prev); cbn [length]; [f_equal|]; exact D.
Qed.

Lemma run_heads_facts s : StronglySorted bf s ->
  StronglySorted inc (run_heads s) /\ (forall x, In x (run_heads s) -> In x s) /\
  (forall x, In x s -> v x <> XNaN -> exists y, In y (run_heads s) /\ v y = v x) /\ nans (run_heads s) = nans s.
Proof.
  destruct s as [|x s]; intros SS; [|now apply changes_facts]. cbn. split; [constructor|]. split; [easy|]. split; [easy|reflexivity].
Qed.

Lemma before_nan_split s : StronglySorted bf s ->
  exists r, s = before_nan s ++ r /\ (forall x, In x r -> v x = XNaN) /\ (forall x, In x (before_nan s) -> v x <> XNaN).
Proof.
  induction 1 as [|x s SS IH F]; [exists []; cbn; split; [reflexivity|split; easy]|]. cbn [before_nan]. destruct (nisnan x) eqn:E.
  - exists (x :: s). split; [reflexivity|]. split; [|easy]. intros y [<-|Hy]; [now apply (nisnan_iff RN)|].
    rewrite Forall_forall in F. destruct (F y Hy) as [G|G]; [exact G|]. apply (nisnan_iff RN) in E. rewrite E in G. destruct (v y); contradiction.
  - destruct IH as (r & A & B & C). exists r. split; [cbn; now f_equal|]. split; [exact B|].
    intros y [<-|Hy]; [now apply (nisnan_false RN)|now apply C].
Qed.

Lemma SS_app_l (R : N -> N -> Prop) a b : StronglySorted R (a ++ b) -> StronglySorted R a.
Proof.
  induction a as [|x a IH]; intros H; [constructor|]. inversion H as [|? ? H' F]; subst. constructor; [auto|].
  rewrite Forall_forall in *. intros y Hy. apply F. apply in_or_app. now left.
Qed.

Lemma nans_perm (l s : list N) : Permutation l s -> nans l = nans s.
Proof.
  unfold nans. induction 1; cbn [filter]; auto.
  - destruct (nisnan x); cbn [length]; congruence.
  - destruct (nisnan x), (nisnan y); reflexivity.
  - congruence.
Qed.
Lemma nans_0 (l : list N) : nans l = 0%nat <-> forall x, In x l -> v x <> XNaN.
Proof.
  unfold nans. induction l as [|x l IH]; cbn [filter length]; [split; [easy|reflexivity]|].
  destruct (nisnan x) eqn:E.
  - split; [discriminate|]. intros H. exfalso. apply (H x (or_introl eq_refl)). now apply (nisnan_iff RN).
  - rewrite IH. split; [intros H y [<-|Hy]; [now apply (nisnan_false RN)|auto]|intros H y Hy; apply H; now right].
Qed.
Lemma nans_app (a b : list N) : nans (a ++ b) = (nans a + nans b)%nat.
Proof. unfold nans. now rewrite filter_app, app_length. Qed.

(** The last entry is a NaN exactly if there is one. *)
Lemma last_nan s : StronglySorted bf s ->
  existsb nisnan (match rev s with [] => [] | x :: _ => [x] end) = negb (nans s =? 0)%nat.
Proof.
  intros SS. destruct (rev s) as [|x r] eqn:E.
  - apply (f_equal (@rev N)) in E. rewrite rev_involutive in E. subst s. reflexivity.
  - apply (f_equal (@rev N)) in E. rewrite rev_involutive in E. cbn [rev] in E.
    cbn [existsb]. rewrite Bool.orb_false_r. destruct (nisnan x) eqn:Ex.
    + symmetry. apply Bool.negb_true_iff, Nat.eqb_neq. rewrite E, nans_app. unfold nans at 2. cbn [filter]. rewrite Ex. cbn. lia.
    + symmetry. apply Bool.negb_false_iff, Nat.eqb_eq. apply nans_0. intros y Hy Ny.
      rewrite E in Hy. apply in_app_or in Hy. destruct Hy as [Hy|[<-|[]]].
      * apply In_nth_error in Hy. destruct Hy as (k & Hk). assert (L : (k < length (rev r))%nat) by (apply nth_error_Some; congruence).
        assert (B : bf y x).
        { apply (SS_nth bf s SS k (length (rev r))); [exact L|rewrite E, nth_error_app1; auto|].
          rewrite E, nth_error_app2, Nat.sub_diag by lia. reflexivity. }
        destruct B as [B|B]; [apply (nisnan_false RN) in Ex; contradiction|]. rewrite Ny in B. exact B.
      * apply (nisnan_false RN) in Ex. contradiction.
Qed.

Lemma unique_facts eqn sort l : sorted_copy l (sort l) -> let u := np_unique eqn sort l in
  StronglySorted inc u /\ (forall x, In x u -> In x l) /\
  (forall x, In x l -> v x <> XNaN -> exists y, In y u /\ v y = v x) /\
  nans u = (if eqn then Nat.min 1 (nans l) else nans l).
Proof.
  intros H u. pose proof (sorted_SS _ _ H) as SS. destruct H as (P & _). subst u. unfold np_unique. rewrite (last_nan _ SS).
  rewrite <- (nans_perm _ _ P).
  assert (IL : forall x, In x (sort l) <-> In x l) by (intros x; split; apply Permutation_in; [now apply Permutation_sym|exact P]).
  destruct (run_heads_facts _ SS) as (A & B & C & D).
  destruct (eqn && negb (nans l =? 0)%nat) eqn:E.
  - apply andb_prop in E. destruct E as (-> & E). apply Bool.negb_true_iff, Nat.eqb_neq in E.
    destruct (before_nan_split _ SS) as (r & S1 & S2 & S3).
    assert (SB : StronglySorted bf (before_nan (sort l))) by (apply (SS_app_l _ _ r); now rewrite <- S1).
    destruct (run_heads_facts _ SB) as (A' & B' & C' & D'). split; [|split; [|split]].
    + assert (G : forall h, StronglySorted inc h -> StronglySorted inc (h ++ [nnan])).
      { induction 1 as [|x h Sh IH F]; cbn [app]; constructor; auto; [constructor|]. apply Forall_forall. intros y Hy.
        apply in_app_or in Hy. rewrite Forall_forall in F. destruct Hy as [Hy|[<-|[]]]; [auto|left; apply (val_nnan RN)]. }
      now apply G.
    + intros x Hx. apply in_app_or in Hx. apply IL. rewrite S1. apply in_or_app. destruct Hx as [Hx|[<-|[]]]; [left; auto|].
      right. destruct r as [|y r].
      * exfalso. apply E. rewrite (nans_perm _ _ P), S1, app_nil_r. now apply nans_0.
      * left. apply (val_nan_inj RN); [apply S2; now left|apply (val_nnan RN)].
    + intros x Hx Nx. apply IL in Hx. rewrite S1 in Hx. apply in_app_or in Hx. destruct Hx as [Hx|Hx]; [|now apply S2 in Hx].
      destruct (C' x Hx Nx) as (y & Hy & Ey). exists y. split; [apply in_or_app; now left|exact Ey].
    + rewrite nans_app, D'. replace (nans (before_nan (sort l))) with 0%nat by (symmetry; now apply nans_0).
      unfold nans at 1. cbn [filter]. replace (nisnan (nnan : N)) with true by (symmetry; apply (nisnan_iff RN), (val_nnan RN)). cbn [length].
      destruct (nans l); [contradiction|cbn; lia].
  - split; [exact A|]. split; [intros x Hx; now apply IL, B|]. split; [intros x Hx; now apply C, IL|].
    rewrite D, <- (nans_perm _ _ P). destruct eqn; [|reflexivity]. cbn in E. apply Bool.negb_false_iff, Nat.eqb_eq in E. now rewrite E.
Qed.
End U.

(** [np.unique] as [__repr__] uses it, whatever the order its sort leaves ties in: entries of the array, each value
    once, in increasing order, and the NaNs at the end: one, or all of them with NumPy before 1.21. *)
Lemma c77_unique : forall (N : Num) (RN : Rounded N) equal_nan sort (l : list N), sorted_copy l (sort l) ->
  let u := np_unique equal_nan sort l in
  increasing u /\ (forall x, In x u -> In x l) /\
  (forall x, In x l -> nisnan x = false -> exists y, In y u /\ neqb y x = true) /\
  nans u = (if equal_nan then Nat.min 1 (nans l) else nans l).
Proof.
  intros N RN eqn sort l H u. destruct (unique_facts RN eqn sort l H) as (A & B & C & D). fold u in A, B, C, D.
  split; [|split; [exact B|split; [|exact D]]].
  - intros a b x y L Ha Hb. destruct (SS_nth _ _ A a b x y L Ha Hb) as [G|G]; [left; now apply (nisnan_iff RN)|right; now apply (nlt_iff RN)].
  - intros x Hx Nx. apply (nisnan_false RN) in Nx. destruct (C x Hx Nx) as (y & Hy & Ey). exists y. split; [exact Hy|].
    apply (neqb_iff RN). split; [exact Ey|congruence].
Qed.

(** For the labels of a decomposition, integers and NaN: the integers in use, each once, in increasing order, and the NaNs. *)
Lemma c77_labels : forall (N : Num) (RN : Rounded N) equal_nan sort (l : list N), sorted_copy l (sort l) ->
  (forall x, In x l -> x = nnan \/ exists z, (Z.abs z <= intmax RN)%Z /\ x = nofZ z) ->
  exists zs, np_unique equal_nan sort l = map nofZ zs ++ repeat nnan (if equal_nan then Nat.min 1 (nans l) else nans l) /\
    StronglySorted Z.lt zs /\ (forall z, In z zs -> (Z.abs z <= intmax RN)%Z) /\
    (forall z, (Z.abs z <= intmax RN)%Z -> In z zs <-> In (nofZ z) l).
Proof.
  intros N RN eqn sort l H I. destruct (unique_facts RN eqn sort l H) as (A & B & C & D). set (u := np_unique eqn sort l) in *.
  set (k := if eqn then _ else _) in *.
  assert (VZ : forall z, (Z.abs z <= intmax RN)%Z -> val RN (nofZ z) = XR (IZR z)) by (intros z Hz; rewrite (val_ofZ RN); now apply (rnd_int RN)).
  assert (G : forall u, StronglySorted (inc RN) u -> (forall x, In x u -> x = nnan \/ exists z, (Z.abs z <= intmax RN)%Z /\ x = nofZ z) ->
     exists zs, u = map nofZ zs ++ repeat nnan (nans u) /\ StronglySorted Z.lt zs /\ forall z, In z zs -> (Z.abs z <= intmax RN)%Z).
  { clear - VZ. induction 1 as [|x u SS IH F]; intros I; [exists []; cbn; split; [reflexivity|split; [constructor|easy]]|].
    destruct IH as (zs & E & SZ & Bz); [intros y Hy; apply I; now right|]. rewrite Forall_forall in F.
    destruct (I x (or_introl eq_refl)) as [->|(z & Hz & ->)].
    - assert (zs = []) as ->.
      { destruct zs as [|z zs]; [reflexivity|]. exfalso. destruct (F (nofZ z)) as [G|G]; [rewrite E; now left| |].
        - rewrite VZ in G by (apply Bz; now left). discriminate.
        - rewrite (val_nnan RN) in G. exact G. }
      exists []. cbn [map app] in *. split; [|split; [constructor|easy]]. unfold nans. cbn [filter].
      replace (nisnan (nnan : N)) with true by (symmetry; apply (nisnan_iff RN), (val_nnan RN)). cbn [length repeat]. now f_equal.
    - exists (z :: zs). split; [|split].
      + unfold nans. cbn [filter]. replace (nisnan (nofZ z : N)) with false; [cbn [map app]; now f_equal|].
        symmetry. apply (nisnan_false RN). now rewrite VZ.
      + constructor; [exact SZ|]. apply Forall_forall. intros w Hw. destruct (F (nofZ w)) as [G|G].
        * rewrite E. apply in_or_app. left. now apply in_map.
        * rewrite VZ in G by auto. discriminate.
        * rewrite !VZ in G by auto. now apply lt_IZR.
      + intros w [<-|Hw]; auto. }
  destruct (G u A) as (zs & E & SZ & Bz); [intros x Hx; apply I, B, Hx|]. exists zs. rewrite D in E. split; [exact E|]. split; [exact SZ|]. split; [exact Bz|].
  intros z Hz. split.
  - intros Hi. apply B. rewrite E. apply in_or_app. left. now apply in_map.
  - intros Hi. destruct (C _ Hi) as (y & Hy & Ey); [rewrite VZ by auto; discriminate|].
    rewrite VZ in Ey by auto. rewrite E in Hy. apply in_app_or in Hy. destruct Hy as [Hy|Hy].
    + apply in_map_iff in Hy. destruct Hy as (w & <- & Hw). rewrite VZ in Ey by auto. injection Ey as Ey. apply eq_IZR in Ey. now subst.
    + apply repeat_spec in Hy. subst y. rewrite (val_nnan RN) in Ey. discriminate.
Qed.

(** A threshold decomposition prints the labels in use among 0 and 1, and NaN if some particle has no label. *)
Lemma c77_threshold : forall (N : Num) (RN : Rounded N) argsort sort junk cb (cut : N) (g : galaxy N) c st',
  constructible g -> nisnan cut = false -> decompose argsort (jthreshold junk cb cut) tt g = Ok (c, st') ->
  sorted_copy (c_labels c) (sort (c_labels c)) ->
  exists a b k, np_unique true sort (c_labels c) = a ++ b ++ k /\
    (a = [nofZ 0] /\ In (nofZ 0) (c_labels c) \/ a = [] /\ ~ In (nofZ 0) (c_labels c)) /\
    (b = [nofZ 1] /\ In (nofZ 1) (c_labels c) \/ b = [] /\ ~ In (nofZ 1) (c_labels c)) /\
    (k = [nnan] /\ In nnan (c_labels c) \/ k = [] /\ ~ In nnan (c_labels c)).
Proof.
  intros N RN argsort sort junk cb cut g c st' CG HC H SC.
  pose proof (intmax_pos RN) as IM.
  assert (I : forall x, In x (c_labels c) -> x = nnan \/ x = nofZ 0 \/ x = nofZ 1).
  { intros x Hx. apply In_nth_error in Hx. destruct Hx as (i & Hi).
    assert (Li : (i < glen g)%nat).
    { destruct (c35_aligned N RN argsort unit (jthreshold junk cb cut) tt g c st' CG (star_attrs_rows g _ eps_attrs) H) as (L & _). rewrite <- L. apply nth_error_Some. congruence. }
    destruct (c37_located N g i Li) as (p & k & Lo).
    destruct (c40_rule N RN argsort junk cb cut g c st' CG HC H) as (_ & j & _ & R). destruct (R i p k Lo) as (w & Ew & S1 & S2).
    assert (w = x) as -> by congruence. destruct (ptype_eqb (p_type p) STARS) eqn:T.
    - destruct S1 as (e & _ & [(_ & _ & ->)|[(_ & _ & ->)|(_ & ->)]]); auto. destruct (p_type p); auto; discriminate.
    - left. apply S2. intros T'. rewrite T' in T. discriminate. }
  destruct (c77_labels N RN true sort (c_labels c) SC) as (zs & E & SZ & Bz & Iz).
  { intros x Hx. destruct (I x Hx) as [->|[->| ->]]; [now left|right; exists 0%Z|right; exists 1%Z]; (split; [lia|reflexivity]). }
  assert (Z01 : forall z, In z zs -> z = 0%Z \/ z = 1%Z).
  { intros z Hz. pose proof (Bz z Hz) as Bz'. apply Iz in Hz; [|exact Bz']. 
    assert (VZ : forall z, (Z.abs z <= intmax RN)%Z -> val RN (nofZ z) = XR (IZR z)) by (intros q Hq; rewrite (val_ofZ RN); now apply (rnd_int RN)).
    destruct (I _ Hz) as [G|[G|G]]; apply (f_equal (val RN)) in G; rewrite VZ in G by auto.
    - rewrite (val_nnan RN) in G. discriminate.
    - rewrite VZ in G by lia. injection G as G. apply eq_IZR in G. auto.
    - rewrite VZ in G by lia. injection G as G. apply eq_IZR in G. auto. }
  pose proof (Iz 0%Z ltac:(lia)) as I0. pose proof (Iz 1%Z ltac:(lia)) as I1.
  assert (K : let k := repeat (nnan : N) (Nat.min 1 (nans (c_labels c))) in
     k = [nnan] /\ In nnan (c_labels c) \/ k = [] /\ ~ In nnan (c_labels c)).
  { cbn zeta. destruct (nans (c_labels c)) as [|m] eqn:Em.
    - right. split; [reflexivity|]. intros Hn. apply (proj1 (nans_0 RN _) Em) in Hn. apply Hn, (val_nnan RN).
    - left. split; [reflexivity|]. destruct (filter nisnan (c_labels c)) as [|y r] eqn:Ef; [unfold nans in Em; rewrite Ef in Em; discriminate|].
      assert (Hy : In y (filter nisnan (c_labels c))) by (rewrite Ef; now left). apply filter_In in Hy. destruct Hy as (Hy & Ny).
      replace (nnan : N) with y; [exact Hy|]. apply (val_nan_inj RN); [now apply (nisnan_iff RN)|apply (val_nnan RN)]. }
  destruct zs as [|z1 [|z2 [|z3 zs]]].
  - exists [], [], (repeat nnan (Nat.min 1 (nans (c_labels c)))). split; [exact E|]. cbn in I0, I1. split; [right; tauto|]. split; [right; tauto|exact K].
  - destruct (Z01 z1 (or_introl eq_refl)) as [-> | ->].
    + exists [nofZ 0], [], (repeat nnan (Nat.min 1 (nans (c_labels c)))). split; [exact E|]. split; [left; split; [reflexivity|apply I0; now left]|].
      split; [right; split; [reflexivity|intros G; apply I1 in G; destruct G as [[=]|[]]]|exact K].
    + exists [], [nofZ 1], (repeat nnan (Nat.min 1 (nans (c_labels c)))). split; [exact E|].
      split; [right; split; [reflexivity|intros G; apply I0 in G; destruct G as [[=]|[]]]|].
      split; [left; split; [reflexivity|apply I1; now left]|exact K].
  - inversion SZ as [|? ? SZ' F]; subst. inversion F; subst.
    assert (z1 = 0%Z /\ z2 = 1%Z) as (-> & ->).
    { destruct (Z01 z1 (or_introl eq_refl)), (Z01 z2 (or_intror (or_introl eq_refl))); lia. }
    exists [nofZ 0], [nofZ 1], (repeat nnan (Nat.min 1 (nans (c_labels c)))). split; [exact E|].
    split; [left; split; [reflexivity|apply I0; now left]|]. split; [left; split; [reflexivity|apply I1; right; now left]|exact K].
  - exfalso. inversion SZ as [|? ? SZ' F]; subst. inversion F as [|? ? ? F']; subst. inversion F'; subst. inversion SZ' as [|? ? ? F2]; subst. inversion F2; subst.
    destruct (Z01 z1 ltac:(cbn; auto)), (Z01 z2 ltac:(cbn; auto)), (Z01 z3 ltac:(cbn; auto)); lia.
Qed.

(** The text: the number of particles as a decimal numeral, the array of the labels in use, and whether there are
    probabilities. *)
Lemma c77_printed : forall (N : Num) equal_nan sort (show : list N -> string) (c : components N),
  exists n, numeral n (length (c_labels c)) /\
    components_repr equal_nan sort show c =
    ("Components(" ++ n ++ ", labels=" ++ show (np_unique equal_nan sort (c_labels c)) ++ ", probabilities=" ++
     truth (match c_probs c with None => false | Some _ => true end) ++ ")")%string.
Proof.
  intros N eqn sort show c. exists (show_len (length (c_labels c))). split; [apply show_len_numeral|].
  unfold components_repr, c_len. destruct (c_probs c); reflexivity.
Qed.

(** A sort. *)
Definition isorted {N : Num} (l : list N) : list N := map (fun i => nth i l nnan) (isort l).
Lemma isorted_copy {N : Num} (RN : Rounded N) (l : list N) : sorted_copy l (isorted l).
Proof.
  destruct (isort_sorts RN l) as (P & S). unfold isorted. split.
  - transitivity (map (fun i => nth i l nnan) (seq 0 (length l))).
    + assert (G : forall (k : list N), map (fun i => nth i k nnan) (seq 0 (length k)) = k); [|now rewrite G].
      induction k as [|x k IH]; cbn [length seq map nth]; [reflexivity|]. f_equal. rewrite <- seq_shift, map_map. exact IH.
    + apply Permutation_map. now apply Permutation_sym.
  - intros a b x y L Ha Hb. rewrite nth_error_map in Ha, Hb.
    destruct (nth_error (isort l) a) as [i|] eqn:Ei; [|discriminate]. destruct (nth_error (isort l) b) as [j|] eqn:Ej; [|discriminate].
    injection Ha as <-. injection Hb as <-.
    assert (B : forall k c, nth_error (isort l) c = Some k -> nth_error l k = Some (nth k l nnan)).
    { intros k c Hk. apply nth_error_nth'. apply nth_error_In in Hk. apply (Permutation_in _ P), in_seq in Hk. lia. }
    exact (S a b i j _ _ L Ei Ej (B _ _ Ei) (B _ _ Ej)).
Qed.

Lemma ok_triple {A B C} (a a' : A) (b b' : B) (c c' : C) : Ok (a, b, c) = Ok (a', b', c') -> a = a' /\ b = b' /\ c = c'.
Proof. intros [= -> -> ->]. auto. Qed.

(** The sample galaxy of C40: five NaN among eight labels. *)
Example ex_c77 : exists g c st', sampleG = Ok g /\
  decompose asort (jthreshold (fun _ => 77%Z) (default_bin0, default_bin1) (nlit 3 5)) tt g = Ok (c, st') /\
  sorted_copy (c_labels c) (isorted (c_labels c)) /\ constructible g /\
  shows (np_unique true isorted (c_labels c)) = [sZ 0; sZ 1; S754_nan] /\
  shows (np_unique false isorted (c_labels c)) = [sZ 0; sZ 1; S754_nan; S754_nan; S754_nan; S754_nan; S754_nan] /\
  components_repr true isorted (fun l => if (length l =? 3)%nat then "[ 0.  1. nan]"%string else ""%string) c =
    "Components(8, labels=[ 0.  1. nan], probabilities=False)"%string.
Proof.
  destruct sampleG as [g|] eqn:Eg; [|discriminate (eq_trans (eq_sym (f_equal (rmap (fun _ => true)) Eg)) (ltac:(vm_compute; reflexivity) : _ = Ok true))].
  destruct (decompose asort (jthreshold (fun _ => 77%Z) (default_bin0, default_bin1) (nlit 3 5)) tt g) as [(c & st')|] eqn:E.
  2: { assert (S : rmap (fun _ => true) (do g <- sampleG; decompose asort (jthreshold (fun _ => 77%Z) (default_bin0, default_bin1) (nlit 3 5)) tt g) = Ok true)
         by (vm_compute; reflexivity). rewrite Eg in S. cbn [bind] in S. rewrite E in S. discriminate. }
  exists g, c, st'. split; [reflexivity|]. split; [exact E|]. split; [exact (isorted_copy (F64_rounded (seqsum 53 1024 p53 e1024)) (c_labels c))|]. split; [exact (lineG_ok _ _ _ _ Eg)|].
  assert (S : rmap (fun r => (shows (np_unique true isorted (c_labels (fst r))), shows (np_unique false isorted (c_labels (fst r))),
       components_repr true isorted (fun l => if (length l =? 3)%nat then "[ 0.  1. nan]"%string else ""%string) (fst r)))
     (do g <- sampleG; decompose asort (jthreshold (fun _ => 77%Z) (default_bin0, default_bin1) (nlit 3 5)) tt g) =
     Ok ([sZ 0; sZ 1; S754_nan], [sZ 0; sZ 1; S754_nan; S754_nan; S754_nan; S754_nan; S754_nan],
         "Components(8, labels=[ 0.  1. nan], probabilities=False)"%string)) by (vm_compute; reflexivity).
  rewrite Eg in S. cbn [bind] in S. rewrite E in S. cbn [rmap fst] in S. exact (ok_triple _ _ _ _ _ _ S).
Qed.
