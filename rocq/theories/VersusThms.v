(** The decomposers compared with each other on one galaxy (C114). *)
From Coq Require Import Lia Permutation Sorted Floats.SpecFloat.
From Flocq Require Import Core.
From Verif Require Import Py Num RX F64 Np Df Data DataFacts DfFacts CenterFacts Ex Spec DataThms SpecCirc Circ CircFacts CircThms SpecBase Base BaseFacts BaseThms Threshold EpsFacts ThresholdThms SpecHist Hist HistFacts EdgeFacts HistThms EdgeThms EnergyFacts EnergyThms SpecPot SpecMirror MirrorThms SpinThms MixStar WhistFacts SpecVersus.
Local Open Scope R_scope.

(** *** Counting *)
Lemma filter_count {A} (f g : A -> bool) (l l' : list A) : NoDup l -> NoDup l' ->
  (forall a, In a l /\ f a = true <-> In a l' /\ g a = true) -> length (filter f l) = length (filter g l').
Proof.
  intros H H' E. apply Permutation_length, NoDup_Permutation; [now apply NoDup_filter|now apply NoDup_filter|].
  intros a. rewrite !filter_In. apply E.
Qed.
Lemma sorted_nodup l : StronglySorted lt l -> NoDup l.
Proof.
  induction 1 as [|a l S IH F]; constructor; [|exact IH]. intros I. rewrite Forall_forall in F. specialize (F a I). lia.
Qed.
Lemma map_nth_seq (l : list nat) d : map (fun j => nth j l d) (seq 0 (length l)) = l.
Proof.
  apply nth_error_ext. intros r. rewrite nth_error_map. destruct (Nat.lt_ge_cases r (length l)) as [L|L].
  - rewrite (nth_error_nth' (seq 0 (length l)) 0%nat) by now rewrite seq_length. rewrite seq_nth by exact L. cbn. symmetry. now apply nth_error_nth'.
  - rewrite !(proj2 (nth_error_None _ _)); [reflexivity|exact L|now rewrite seq_length].
Qed.
Lemma filter_nth (f : nat -> bool) used : length (filter f used) = length (filter (fun r => f (nth r used 0%nat)) (seq 0 (length used))).
Proof.
  rewrite <- (map_nth_seq used 0%nat) at 1. remember (seq 0 (length used)) as s. clear Heqs. induction s as [|a s IH]; [reflexivity|].
  cbn [map filter]. destruct (f (nth a used 0%nat)); cbn [length]; now rewrite IH.
Qed.

(** *** What a decomposition by circularity does to the stars *)
Definition lab (z : Z) (labels : list Z) (i : nat) : bool := match nth_error labels i with Some z' => (z =? z')%Z | None => false end.
Definition column {N : Num} (l : list N) (used : list nat) : list N := map (fun k => nth k l nnan) used.
Lemma column_nth {N : Num} (l : list N) used r k : nth_error used r = Some k -> nth_error (column l used) r = Some (nth k l nnan).
Proof. intros H. unfold column. now rewrite nth_error_map, H. Qed.

Record handed {N : Num} (g : galaxy N) (j : jcirc_t N) (used : list nat) (labels : list Z) (c : components N) : Prop := {
  h_sorted : StronglySorted lt used;
  h_range : forall k, In k used -> (k < plen (g_stars g))%nat /\ exists e, nth_error (jc_eps j) k = Some e /\ nfin e = true;
  h_length : length labels = length used;
  h_label : forall r k, nth_error used r = Some k -> exists z, nth_error labels r = Some z /\ nth_error (c_labels c) k = Some (nofZ z);
  h_other : forall i, (i < glen g)%nat -> ~ In i used -> nth_error (c_labels c) i = Some nnan }.

Section Galaxy.
Context {N : Num} (RN : Rounded N) (argsort : nat -> list N -> list nat) (g : galaxy N).
Hypothesis Hg : constructible g.

Lemma handed_hist St (choice : St -> list nat -> nat -> list nat * St) junk cb n_bin digits st c st' :
  decompose argsort (jhistogram choice junk cb n_bin digits) st g = Ok (c, st') ->
  exists j used labels, jcirc argsort g (fst cb) (snd cb) = Ok j /\ handed g j used labels c /\
    (forall k, In k used <-> (k < plen (g_stars g))%nat /\ exists e, nth_error (jc_eps j) k = Some e /\ nfin e = true) /\
    hist_split (pick_any choice) junk n_bin digits st (column (jc_eps j) used) = Ok (labels, st').
Proof.
  intros H. destruct (star_handed RN argsort St (jhistogram choice junk cb n_bin digits) st g c st' Hg eps_attrs eq_refl H) as (j & used & labels & pr & ys & Hj & Su & Mu & E & K & _).
  cbn [d_attributes d_cbins d_split jhistogram] in *. exists j, used, labels.
  assert (Col : matrix_col 0 (map (feature_row j ["eps"%string]) used) = column (jc_eps j) used) by (unfold matrix_col, column; rewrite map_map; reflexivity).
  rewrite Col in E. destruct (hist_split _ _ _ _ _ _) as [[l s]|] eqn:E0; [|discriminate]. cbn [bind fst snd] in E.
  assert (l = labels) by congruence. assert (s = st') by congruence. subst l s.
  assert (L : length labels = length used) by (apply hist_length in E0; rewrite E0; unfold column; apply map_length).
  assert (M : forall k, In k used <-> (k < plen (g_stars g))%nat /\ exists e, nth_error (jc_eps j) k = Some e /\ nfin e = true).
  { intros k. rewrite Mu. split; intros (A & B); (split; [exact A|]); [exact (B "eps"%string (or_introl eq_refl))|intros a [<-|[]]; exact B]. }
  destruct (K L) as (K1 & K2). split; [exact Hj|]. split; [|split; [exact M|reflexivity]].
  constructor; auto. intros k I. now apply M.
Qed.
Lemma handed_ehist St (choice : St -> list nat -> nat -> list nat * St) junk cb n_bin digits n_bin_E st c st' :
  decompose argsort (jehistogram choice junk cb n_bin digits n_bin_E) st g = Ok (c, st') ->
  exists j used labels, jcirc argsort g (fst cb) (snd cb) = Ok j /\ handed g j used labels c /\
    (forall k, In k used <-> (k < plen (g_stars g))%nat /\ (exists w, nth_error (jc_E j) k = Some w /\ nfin w = true) /\ exists e, nth_error (jc_eps j) k = Some e /\ nfin e = true) /\
    hist_split (pick_energy choice (column (jc_E j) used) n_bin_E) junk n_bin digits st (column (jc_eps j) used) = Ok (labels, st').
Proof.
  intros H. destruct (star_handed RN argsort St (jehistogram choice junk cb n_bin digits n_bin_E) st g c st' Hg energy_attrs eq_refl H) as (j & used & labels & pr & ys & Hj & Su & Mu & E & K & _).
  cbn [d_attributes d_cbins d_split jehistogram] in *. exists j, used, labels.
  assert (Col : matrix_col 1 (map (feature_row j ["normalized_star_energy"; "eps"]%string) used) = column (jc_eps j) used) by (unfold matrix_col, column; rewrite map_map; reflexivity).
  assert (Col0 : matrix_col 0 (map (feature_row j ["normalized_star_energy"; "eps"]%string) used) = column (jc_E j) used) by (unfold matrix_col, column; rewrite map_map; reflexivity).
  rewrite Col, Col0 in E. destruct (hist_split _ _ _ _ _ _) as [[l s]|] eqn:E0; [|discriminate]. cbn [bind fst snd] in E.
  assert (l = labels) by congruence. assert (s = st') by congruence. subst l s.
  assert (L : length labels = length used) by (apply hist_length in E0; rewrite E0; unfold column; apply map_length).
  assert (M : forall k, In k used <-> (k < plen (g_stars g))%nat /\ (exists w, nth_error (jc_E j) k = Some w /\ nfin w = true) /\ exists e, nth_error (jc_eps j) k = Some e /\ nfin e = true).
  { intros k. rewrite Mu. split.
    - intros (A & B). split; [exact A|]. split; [exact (B "normalized_star_energy"%string (or_introl eq_refl))|exact (B "eps"%string (or_intror (or_introl eq_refl)))].
    - intros (A & B & C). split; [exact A|]. intros a [<-|[<-|[]]]; [exact B|exact C]. }
  destruct (K L) as (K1 & K2). split; [exact Hj|]. split; [|split; [exact M|reflexivity]].
  constructor; auto. intros k I. apply M in I as (A & _ & B). auto.
Qed.

(** The energies of the stars are all finite, or none of them is. *)
Lemma energies_finite b0 b1 j : jcirc argsort g b0 b1 = Ok j ->
  (some_depth g -> forall k e, nth_error (jc_eps j) k = Some e -> nfin e = true -> exists w, nth_error (jc_E j) k = Some w /\ nfin w = true) /\
  (~ some_depth g -> forall k w, nth_error (jc_E j) k = Some w -> nfin w = false).
Proof.
  intros Hj. pose proof Hg as Hok. apply constructible_ok in Hok.
  destruct (jcirc_inv RN _ _ _ _ _ Hok Hj) as (c & edges & U & _ & _ & _ & _ & ->). cbn [jc_E jc_eps result].
  destruct (unit_e _ _ _ _ U) as (em & ((o1 & I1 & E1) & Sm) & Es).
  assert (Bd : forall o, bound o = true -> exists r, val RN (o_e o) = XR r /\ r <= 0).
  { intros o B. unfold bound in B. apply andb_prop in B as (B1 & B2). apply (nle_iff RN) in B1. rewrite (val_n0 RN) in B1.
    apply negb_true_iff in B2. destruct (val RN (o_e o)) as [r| | |] eqn:V; try contradiction; [exists r; auto|].
    exfalso. revert B2. rewrite (proj2 (neqb_iff RN _ _)); [discriminate|]. rewrite V, (val_nninf RN). split; [reflexivity|discriminate]. }
  pose proof (proj2 (proj1 (filter_In _ _ _) I1)) as B1. destruct (Bd o1 B1) as (m & Vm & Lm). rewrite E1 in Vm.
  assert (Low : forall o, In o (all_orbits g) -> bound o = true -> exists r, val RN (o_e o) = XR r /\ m <= r <= 0).
  { intros o I B. destruct (Bd o B) as (r & Vr & Lr). exists r. split; [exact Vr|]. split; [|exact Lr]. destruct Sm as [S|S].
    - exfalso. apply (nisnan_iff RN) in S. congruence.
    - specialize (S o ltac:(apply filter_In; auto)). apply (nle_iff RN) in S. rewrite Vr, Vm in S. exact S. }
  assert (Ve : val RN (s_e c) = XR (- m)). { rewrite Es, (val_abs RN), Vm. cbn. f_equal. apply Rabs_left1. exact Lm. }
  assert (Row : forall k w, nth_error (map (kept c nE) (map krow_of (star_orbits g))) k = Some w ->
     exists o, nth_error (star_orbits g) k = Some o /\ w = kept c nE (krow_of o)).
  { intros k w H. rewrite map_map, nth_error_map in H. destruct (nth_error (star_orbits g) k) as [o|]; [|discriminate]. exists o. split; [reflexivity|]. cbn [option_map] in H. congruence. }
  split.
  - intros (o2 & I2 & B2 & Z2) k e Hk Fe. rewrite map_map, nth_error_map in Hk. rewrite map_map, nth_error_map.
    destruct (nth_error (star_orbits g) k) as [o|] eqn:Eo; [|discriminate]. cbn [option_map] in *. exists (kept c nE (krow_of o)). split; [reflexivity|].
    assert (Hk' : kept c raw_eps (krow_of o) = e) by congruence. clear Hk. unfold kept in *. destruct (keep c (krow_of o)) eqn:Kp.
    2:{ subst e. rewrite (val_fin RN), (val_nnan RN) in Fe. discriminate. }
    unfold keep in Kp. apply andb_prop in Kp as (B & _). change (kb (krow_of o)) with (bound o) in B.
    assert (Io : In o (all_orbits g)) by (apply star_in_all; eapply nth_error_In; eauto).
    destruct (Low o2 I2 B2) as (r2 & V2 & L2). destruct (Low o Io B) as (r & Vr & Lr).
    assert (Nm : m <> 0).
    { intros ->. assert (r2 = 0) by lra. subst r2. revert Z2. rewrite (proj2 (neqb_iff RN _ _)); [discriminate|]. rewrite V2, (val_n0 RN). split; [reflexivity|discriminate]. }
    unfold nE. change (k_e (krow_of o)) with (o_e o).
    assert (W := e_within RN (all_orbits g) (s_e c) o (unit_e _ _ _ _ U) ltac:(apply filter_In; auto)).
    destruct W as [W|(W1 & W2)].
    + exfalso. apply (nisnan_iff RN) in W. rewrite (val_div RN), Vr, Ve in W by (rewrite Ve; intros Q; injection Q; lra).
      apply (rnd_not_nan RN) in W. cbn in W. destruct (Req_EM_T (- m) 0) as [Q|Q]; [lra|discriminate].
    + apply (nle_iff RN) in W1, W2. rewrite (val_nm1 RN) in W1. rewrite (val_n0 RN) in W2. rewrite (val_fin RN). destruct (val RN (o_e o / s_e c)%num); try contradiction. reflexivity.
  - intros ND k w Hk. destruct (Row k w Hk) as (o & Eo & ->). unfold kept. destruct (keep c (krow_of o)) eqn:Kp.
    2:{ now rewrite (val_fin RN), (val_nnan RN). }
    unfold keep in Kp. apply andb_prop in Kp as (B & _). change (kb (krow_of o)) with (bound o) in B.
    assert (Io : In o (all_orbits g)) by (apply star_in_all; eapply nth_error_In; eauto).
    assert (Z : forall o, In o (all_orbits g) -> bound o = true -> val RN (o_e o) = XR 0).
    { intros o' I' B'. destruct (neqb (o_e o') n0) eqn:Q; [|exfalso; apply ND; exists o'; auto]. apply (neqb_iff RN) in Q as (Q & _). now rewrite Q, (val_n0 RN). }
    assert (m = 0). { apply filter_In in I1 as (I1 & _). specialize (Z o1 I1 B1). rewrite E1 in Z. congruence. } subst m.
    unfold nE. change (k_e (krow_of o)) with (o_e o). rewrite (val_fin RN), (val_div0_nan RN); [reflexivity|auto|rewrite Ve; f_equal; lra].
Qed.
End Galaxy.

(** *** Counts of labels *)
Lemma ofZ_eqb {N : Num} (RN : Rounded N) a b : (Z.abs a <= 1)%Z -> (Z.abs b <= 1)%Z -> neqb (nofZ a : N) (nofZ b) = (b =? a)%Z.
Proof.
  intros A B. apply Bool.eq_iff_eq_true. rewrite (neqb_iff RN), !(val_ofZ RN), !(rnd_int RN) by (pose proof (intmax_pos RN); lia). rewrite Z.eqb_eq. split; [|intros ->; split; [reflexivity|discriminate]].
  intros (E & _). assert (E' : IZR a = IZR b) by congruence. apply eq_IZR in E'. auto.
Qed.
Section Counts.
Context {N : Num} (RN : Rounded N) (g : galaxy N) (j : jcirc_t N) (used : list nat) (labels : list Z) (c : components N).
Hypothesis H : handed g j used labels c.
Hypothesis HE : length (jc_eps j) = plen (g_stars g).
Hypothesis HL : forall r z, nth_error labels r = Some z -> z = 0%Z \/ z = 1%Z.

Lemma stars_first : (plen (g_stars g) <= glen g)%nat.
Proof. unfold glen. lia. Qed.
Lemma tally_used P z : (z = 0 \/ z = 1)%Z ->
  tally P z (jc_eps j) c = length (filter (fun r => P (nth r (column (jc_eps j) used) nnan) && lab z labels r) (seq 0 (length used))).
Proof.
  intros Hz. unfold tally. rewrite HE.
  set (f := fun k => match nth_error (jc_eps j) k, nth_error (c_labels c) k with Some e, Some w => P e && neqb w (nofZ z) | _, _ => false end).
  rewrite (filter_count f f (seq 0 (plen (g_stars g))) used (seq_NoDup _ _) (sorted_nodup _ (h_sorted _ _ _ _ _ H))).
  - rewrite filter_nth. f_equal. apply filter_ext_in. intros r I. apply in_seq in I. destruct (nth_error used r) as [k|] eqn:Ek; [|apply nth_error_None in Ek; lia].
    rewrite (nth_error_nth _ _ 0%nat Ek). destruct (h_label _ _ _ _ _ H r k Ek) as (z' & Ez & Ew). destruct (h_range _ _ _ _ _ H k (nth_error_In _ _ Ek)) as (_ & e & Ee & _).
    unfold f. rewrite Ee, Ew, (nth_error_nth _ _ nnan (column_nth (jc_eps j) used r k Ek)), (nth_error_nth _ _ nnan Ee). unfold lab. rewrite Ez. f_equal.
    apply (ofZ_eqb RN); [destruct (HL r z' Ez) as [->| ->]; lia|destruct Hz as [->| ->]; lia].
  - intros k. split.
    + intros (I & F). split; [|exact F]. destruct (in_dec Nat.eq_dec k used) as [Y|Nn]; [exact Y|]. exfalso. apply in_seq in I.
      revert F. unfold f. rewrite (h_other _ _ _ _ _ H k) by (try assumption; pose proof stars_first; lia).
      destruct (nth_error (jc_eps j) k); [|discriminate]. unfold neqb. rewrite (val_cmp RN), (val_nnan RN). cbn. rewrite andb_false_r. discriminate.
    + intros (I & F). split; [|exact F]. destruct (h_range _ _ _ _ _ H k I) as (L & _). apply in_seq. lia.
Qed.
(** In one cell. *)
Lemma tally_cell edges n b z : (z = 0 \/ z = 1)%Z -> (b < n)%nat ->
  tally (counted edges n b) z (jc_eps j) c = SpecHist.labelled z labels (bin_list edges n (column (jc_eps j) used) b).
Proof.
  intros Hz Hb. rewrite tally_used by exact Hz. unfold SpecHist.labelled. destruct (bin_members edges n b (column (jc_eps j) used) Hb) as (ND & M).
  apply filter_count; [apply seq_NoDup|exact ND|]. intros r. fold (lab z labels r).
  assert (Q : forall e, holds_bin edges n b e <-> counted edges n b e = true).
  { intros e. unfold holds_bin, counted. rewrite andb_true_iff. destruct (Nat.ltb_spec (S b) n) as [L|L].
    - split; [intros (_ & A & B & _); auto|]. intros (A & B). repeat split; auto; lia.
    - assert (S b = n) by lia. subst n. split; [intros (_ & A & _ & B); auto|]. intros (A & B). repeat split; auto; lia. }
  rewrite M. split.
  - intros (I & F). apply andb_prop in F as (F1 & F2). split; [|exact F2]. apply in_seq in I.
    destruct (nth_error (column (jc_eps j) used) r) as [e|] eqn:E; [|apply nth_error_None in E; unfold column in E; rewrite map_length in E; lia].
    exists e. split; [reflexivity|]. rewrite (nth_error_nth _ _ nnan E) in F1. now apply Q.
  - intros ((e & E & F1) & F2). split.
    + apply in_seq. assert (r < length (column (jc_eps j) used))%nat by (apply nth_error_Some; congruence). unfold column in *. rewrite map_length in *. lia.
    + rewrite (nth_error_nth _ _ nnan E). apply andb_true_intro. split; [now apply Q|exact F2].
Qed.
(** Over all of them. *)
Lemma tally_all : tally (fun _ => true) 0 (jc_eps j) c = length (spheroid (column (jc_eps j) used) labels).
Proof.
  rewrite tally_used by auto. apply INR_eq. rewrite tot_count, <- (tot_length (spheroid _ _)), sph_index.
  - unfold column at 2. rewrite map_length. apply tot_ext. intros r I. apply in_seq in I. cbn [andb]. change (is0 labels r) with (lab 0 labels r).
    destruct (lab 0 labels r); [|reflexivity]. unfold at_. destruct (nth_error (column (jc_eps j) used) r) eqn:E; [reflexivity|].
    apply nth_error_None in E. unfold column in E. rewrite map_length in E. lia.
  - unfold column. rewrite map_length. exact (h_length _ _ _ _ _ H).
Qed.
(** The stars with a circularity. *)
Lemma having_used P : (forall e, P e = true -> nisnan e = false) -> (forall k, In k used <-> (k < plen (g_stars g))%nat /\ exists e, nth_error (jc_eps j) k = Some e /\ nfin e = true) ->
  (forall e, In e (jc_eps j) -> nisnan e = true \/ nle nm1 e = true /\ nle e n1 = true) ->
  having P (jc_eps j) = having P (column (jc_eps j) used).
Proof.
  intros HP M B. unfold having.
  assert (E : forall l : list N, length (filter P l) = length (filter (fun k => match nth_error l k with Some e => P e | None => false end) (seq 0 (length l)))).
  { clear. intros l. apply INR_eq. rewrite !tot_count, tot_index. apply tot_ext. intros k I. unfold at_. destruct (nth_error l k); reflexivity. }
  rewrite E, (E (column _ _)). unfold column at 2. rewrite map_length, HE.
  set (f := fun k => match nth_error (jc_eps j) k with Some e => P e | None => false end).
  rewrite (filter_count f f (seq 0 (plen (g_stars g))) used (seq_NoDup _ _) (sorted_nodup _ (h_sorted _ _ _ _ _ H))).
  - rewrite filter_nth. f_equal. apply filter_ext_in. intros r I. apply in_seq in I. destruct (nth_error used r) as [k|] eqn:Ek; [|apply nth_error_None in Ek; lia].
    rewrite (nth_error_nth _ _ 0%nat Ek), (column_nth (jc_eps j) used r k Ek). destruct (h_range _ _ _ _ _ H k (nth_error_In _ _ Ek)) as (_ & e & Ee & _).
    unfold f. now rewrite Ee, (nth_error_nth _ _ nnan Ee).
  - intros k. split; intros (I & F); (split; [|exact F]).
    + apply in_seq in I. apply M. split; [lia|]. unfold f in F. destruct (nth_error (jc_eps j) k) as [e|] eqn:Ee; [|discriminate]. exists e. split; [reflexivity|].
      destruct (B e (nth_error_In _ _ Ee)) as [Bn|(B1 & B2)]; [rewrite (HP e F) in Bn; discriminate|].
      apply (nle_iff RN) in B1, B2. rewrite (val_nm1 RN) in B1. rewrite (val_n1 RN) in B2. rewrite (val_fin RN). destruct (val RN e); try contradiction. reflexivity.
    + apply M in I as (I & _). apply in_seq. lia.
Qed.
End Counts.

Section Two.
Context {N : Num} (RN : Rounded N) (HA : arith N) (argsort : nat -> list N -> list nat) (g : galaxy N) (cb : N * N).
Hypothesis Hg : constructible g.

Lemma eps_length j : jcirc argsort g (fst cb) (snd cb) = Ok j -> length (jc_eps j) = plen (g_stars g).
Proof. intros Hj. destruct (c31_lengths N RN argsort g _ _ j Hg Hj) as (_ & L & _). exact L. Qed.
Lemma column_range j used labels c : jcirc argsort g (fst cb) (snd cb) = Ok j -> handed g j used labels c ->
  forall e, In e (column (jc_eps j) used) -> nle nm1 e = true /\ nle e n1 = true.
Proof.
  intros Hj H e I. unfold column in I. apply in_map_iff in I as (k & <- & I). destruct (h_range _ _ _ _ _ H k I) as (_ & e & Ee & Fe).
  rewrite (nth_error_nth _ _ nnan Ee). destruct (c24_eps N RN argsort g _ _ j Hg Hj) as (B & _). destruct (B e (nth_error_In _ _ Ee)) as [B1|B1]; [|exact B1].
  exfalso. apply (nisnan_iff RN) in B1. rewrite (val_fin RN), B1 in Fe. discriminate.
Qed.
Lemma labels_01 (eps : list N) (labels : list Z) : length labels = length eps -> (forall e, In e eps -> nle nm1 e = true /\ nle e n1 = true) ->
  (forall i e, nth_error eps i = Some e -> nle nm1 e = true -> nle e n1 = true -> nth_error labels i = Some 0%Z \/ nth_error labels i = Some 1%Z) ->
  forall r z, nth_error labels r = Some z -> z = 0%Z \/ z = 1%Z.
Proof.
  intros L B K r z Hr. assert (Q : (r < length labels)%nat) by (apply nth_error_Some; congruence). rewrite L in Q.
  destruct (nth_error eps r) as [e|] eqn:E; [|apply nth_error_None in E; lia]. destruct (B e (nth_error_In _ _ E)) as (B1 & B2).
  destruct (K r e E B1 B2) as [A|A]; rewrite Hr in A; injection A as ->; auto.
Qed.
Lemma fin_nle a : nfin (a : N) = true -> nisnan a = false.
Proof. intros F. apply (nisnan_false RN). rewrite (val_fin RN) in F. intros E. rewrite E in F. discriminate. Qed.
Lemma nofZ_fin z : (z = 0 \/ z = 1)%Z -> nisnan (nofZ z : N) = false.
Proof. intros Hz. apply (nisnan_false RN). rewrite (val_small RN) by (destruct Hz as [->| ->]; lia). discriminate. Qed.
Lemma classified_used j used labels c : handed g j used labels c -> (forall r z, nth_error labels r = Some z -> z = 0%Z \/ z = 1%Z) ->
  forall i, (i < glen g)%nat -> classified c i <-> In i used.
Proof.
  intros H HL i Li. split.
  - intros (w & Ew & Fw). destruct (in_dec Nat.eq_dec i used) as [Y|Y]; [exact Y|]. rewrite (h_other _ _ _ _ _ H i Li Y) in Ew.
    assert (w = nnan) by congruence. subst w. rewrite (nnan_isnan RN) in Fw. discriminate.
  - intros I. apply In_nth_error in I as (r & Er). destruct (h_label _ _ _ _ _ H r i Er) as (z & Ez & Ew). exists (nofZ z). split; [exact Ew|]. apply nofZ_fin. eauto.
Qed.

Section Pair.
Context {St1 St2 : Type} (choice1 : St1 -> list nat -> nat -> list nat * St1) (choice2 : St2 -> list nat -> nat -> list nat * St2).
Context (junk1 junk2 : nat -> Z) (n_bin digits n_bin_E : Z) (st1 st1' : St1) (st2 st2' : St2) (c1 c2 : components N).
Hypothesis D1 : draws choice1.
Hypothesis D2 : draws choice2.
Hypothesis Hn : (n_bin <= 2 ^ 53)%Z.
Hypothesis HnE : (n_bin_E <= 2 ^ 53)%Z.
Hypothesis Hd : (0 <= digits)%Z.

Lemma view_hist : decompose argsort (jhistogram choice1 junk1 cb n_bin digits) st1 g = Ok (c1, st1') ->
  exists j used labels, jcirc argsort g (fst cb) (snd cb) = Ok j /\ handed g j used labels c1 /\
    (forall k, In k used <-> (k < plen (g_stars g))%nat /\ exists e, nth_error (jc_eps j) k = Some e /\ nfin e = true) /\
    (forall r z, nth_error labels r = Some z -> z = 0%Z \/ z = 1%Z) /\
    hist_split (pick_any choice1) junk1 n_bin digits st1 (column (jc_eps j) used) = Ok (labels, st1').
Proof.
  intros H. destruct (handed_hist RN argsort g Hg _ _ _ _ _ _ _ _ _ H) as (j & used & labels & Hj & Hh & M & E). exists j, used, labels.
  split; [exact Hj|]. split; [exact Hh|]. split; [exact M|]. split; [|exact E].
  destruct (c41_labels N St1 choice1 junk1 n_bin digits _ st1 labels st1' HA D1 Hn Hd E) as (L & K).
  apply (labels_01 _ _ L (column_range j used labels c1 Hj Hh)). intros i e Hi B1 B2. now apply (K i e Hi).
Qed.
Lemma view_ehist : decompose argsort (jehistogram choice2 junk2 cb n_bin digits n_bin_E) st2 g = Ok (c2, st2') ->
  exists j used labels, jcirc argsort g (fst cb) (snd cb) = Ok j /\ handed g j used labels c2 /\
    (forall k, In k used <-> (k < plen (g_stars g))%nat /\ (exists w, nth_error (jc_E j) k = Some w /\ nfin w = true) /\ exists e, nth_error (jc_eps j) k = Some e /\ nfin e = true) /\
    (forall r z, nth_error labels r = Some z -> z = 0%Z \/ z = 1%Z) /\
    hist_split (pick_energy choice2 (column (jc_E j) used) n_bin_E) junk2 n_bin digits st2 (column (jc_eps j) used) = Ok (labels, st2').
Proof.
  intros H. destruct (handed_ehist RN argsort g Hg _ _ _ _ _ _ _ _ _ _ H) as (j & used & labels & Hj & Hh & M & E). exists j, used, labels.
  split; [exact Hj|]. split; [exact Hh|]. split; [exact M|]. split; [|exact E].
  destruct (c45_labels N St2 choice2 junk2 n_bin digits n_bin_E _ _ st2 labels st2' HA D2 Hn HnE Hd E) as (L & K).
  apply (labels_01 _ _ L (column_range j used labels c2 Hj Hh)). intros i e Hi B1 B2. now apply (K i e Hi).
Qed.

(** Either both see the same stars, or the second one sees none. *)
Lemma same_or_none j used1 used2 labels1 labels2 : jcirc argsort g (fst cb) (snd cb) = Ok j -> handed g j used1 labels1 c1 -> handed g j used2 labels2 c2 ->
  (forall k, In k used1 <-> (k < plen (g_stars g))%nat /\ exists e, nth_error (jc_eps j) k = Some e /\ nfin e = true) ->
  (forall k, In k used2 <-> (k < plen (g_stars g))%nat /\ (exists w, nth_error (jc_E j) k = Some w /\ nfin w = true) /\ exists e, nth_error (jc_eps j) k = Some e /\ nfin e = true) ->
  (some_depth g -> used2 = used1) /\ (~ some_depth g -> used2 = []).
Proof.
  intros Hj H1 H2 M1 M2. destruct (energies_finite RN argsort g Hg _ _ j Hj) as (F1 & F2). split; intros SD.
  - apply sorted_members; [exact (h_sorted _ _ _ _ _ H2)|exact (h_sorted _ _ _ _ _ H1)|]. intros k. rewrite M1, M2. split; [intros (A & _ & B); auto|].
    intros (A & e & Ee & Fe). split; [exact A|]. split; [exact (F1 SD k e Ee Fe)|eauto].
  - destruct used2 as [|k l]; [reflexivity|]. exfalso. destruct (proj1 (M2 k) (or_introl eq_refl)) as (_ & (w & Ew & Fw) & _).
    rewrite (F2 SD k w Ew) in Fw. discriminate.
Qed.

Lemma cell_le j used labels1 labels2 : jcirc argsort g (fst cb) (snd cb) = Ok j -> length labels1 = length used ->
  hist_split (pick_any choice1) junk1 n_bin digits st1 (column (jc_eps j) used) = Ok (labels1, st1') ->
  hist_split (pick_energy choice2 (column (jc_E j) used) n_bin_E) junk2 n_bin digits st2 (column (jc_eps j) used) = Ok (labels2, st2') ->
  let n := Z.to_nat n_bin in let edges := map (np_round digits) (linspace nm1 n1 n) in
  forall b, (b < n)%nat -> (SpecHist.labelled 0 labels2 (bin_list edges n (column (jc_eps j) used) b) <= SpecHist.labelled 0 labels1 (bin_list edges n (column (jc_eps j) used) b))%nat.
Proof.
  intros Hj L E1 E2 n edges b Hb.
  destruct (c42_composition N St1 choice1 junk1 n_bin digits _ st1 labels1 st1' HA D1 Hn Hd E1) as (bin0 & Hz & _ & Hb0 & HC).
  destruct (composed N St2 choice2 _ junk2 n_bin digits _ st2 labels2 st2' HA D2 Hn Hd (or_intror (ex_intro _ _ (ex_intro _ _ (conj HnE eq_refl)))) E2) as (_ & bin1 & Hz1 & _ & _ & C1 & C2 & C3).
  fold n edges in Hz, HC, Hz1, C1, C2, C3, Hb0. assert (bin1 = bin0) by (eapply zero_edge_unique; eauto). subst bin1.
  set (B := bin_list edges n (column (jc_eps j) used)) in *. assert (M : forall b, (b < n)%nat -> members edges n b (column (jc_eps j) used) (B b)) by (intros; now apply bin_members).
  destruct (HC b (B b) Hb (M b Hb)) as (A1 & A2 & A3). destruct (Nat.lt_ge_cases b bin0) as [Q|Q].
  - rewrite A1 by exact Q. unfold SpecHist.labelled. apply flen.
  - destruct (Nat.lt_ge_cases b (2 * bin0)) as [Q'|Q'].
    + destruct (A2 (conj Q Q') (B (2 * bin0 - 1 - b)%nat) (M (2 * bin0 - 1 - b)%nat ltac:(clear - Q Hb0; lia))) as (-> & _). apply Nat.min_glb; [apply C2; clear - Q Q' Hb; lia|unfold SpecHist.labelled; apply flen].
    + rewrite C3 by (clear - Q' Hb; lia). apply Nat.le_0_l.
Qed.
End Pair.

Lemma view_threshold junk cut c s : nisnan cut = false -> decompose argsort (jthreshold junk cb cut) tt g = Ok (c, s) ->
  exists j used labels, jcirc argsort g (fst cb) (snd cb) = Ok j /\ handed g j used labels c /\
    (forall k, In k used <-> (k < plen (g_stars g))%nat /\ exists e, nth_error (jc_eps j) k = Some e /\ nfin e = true) /\
    (forall r z, nth_error labels r = Some z -> z = 0%Z \/ z = 1%Z) /\
    (forall r k e, nth_error used r = Some k -> nth_error (jc_eps j) k = Some e -> nle e cut = true -> nth_error labels r = Some 0%Z).
Proof.
  intros Hcut H. destruct (star_handed RN argsort unit (jthreshold junk cb cut) tt g c s Hg eps_attrs eq_refl H) as (j & used & labels & pr & ys & Hj & Su & Mu & E & K & _).
  cbn [d_attributes d_cbins d_split jthreshold] in *. exists j, used, labels.
  assert (Col : matrix_col 0 (map (feature_row j ["eps"%string]) used) = column (jc_eps j) used) by (unfold matrix_col, column; rewrite map_map; reflexivity).
  destruct (jthreshold_split_spec RN junk cut (map (feature_row j ["eps"%string]) used)) as (l & El & Ll & Hv). rewrite El in E. cbn [bind] in E.
  assert (l = labels) by congruence. subst l. rewrite map_length in Ll. rewrite Col in Hv. destruct (K Ll) as (K1 & K2).
  assert (M : forall k, In k used <-> (k < plen (g_stars g))%nat /\ exists e, nth_error (jc_eps j) k = Some e /\ nfin e = true).
  { intros k. rewrite Mu. split; intros (A & B); (split; [exact A|]); [exact (B "eps"%string (or_introl eq_refl))|intros a [<-|[]]; exact B]. }
  split; [exact Hj|]. split; [constructor; auto; intros k I; now apply M|]. split; [exact M|].
  assert (V : forall r k e, nth_error used r = Some k -> nth_error (jc_eps j) k = Some e -> nth_error labels r = Some (if nlt cut e then 1%Z else 0%Z)).
  { intros r k e Hr He. rewrite (Hv r e) by (rewrite (column_nth _ _ _ _ Hr), (nth_error_nth _ _ nnan He); reflexivity).
    destruct (nlt cut e) eqn:Q; [reflexivity|]. destruct (proj1 (M k) (nth_error_In _ _ Hr)) as (_ & e' & He' & Fe). assert (e' = e) by congruence. subst e'.
    rewrite (v_nle RN); [reflexivity|now apply fin_nle|exact Hcut|exact Q]. }
  split.
  - intros r z Hr. assert (Q : (r < length labels)%nat) by (apply nth_error_Some; congruence). rewrite Ll in Q.
    destruct (nth_error used r) as [k|] eqn:Ek; [|apply nth_error_None in Ek; lia]. destruct (proj1 (M k) (nth_error_In _ _ Ek)) as (_ & e & He & _).
    rewrite (V r k e Ek He) in Hr. injection Hr as <-. destruct (nlt cut e); auto.
  - intros r k e Hr He Q. rewrite (V r k e Hr He). destruct (nlt cut e) eqn:Q'; [|reflexivity]. exfalso.
    apply (nlt_iff RN) in Q'. apply (nle_iff RN) in Q. now apply (xlt_not_le _ _ Q').
Qed.
End Two.

(** *** C114 *)

(** JThreshold and JHistogram give a label to the same particles, whatever the cut and the number of bins;
    JEHistogram gives one to no others, and to all of them if some bound particle has an energy other than
    zero. *)
Lemma c114_who : forall (N : Num) (St1 St2 : Type) (choice1 : St1 -> list nat -> nat -> list nat * St1) (choice2 : St2 -> list nat -> nat -> list nat * St2)
    argsort junk0 junk1 junk2 cb (cut : N) n_bin digits n_bin' digits' n_bin_E st1 st2 (g : galaxy N) c0 c1 c2 s0 s1 s2,
  arith N -> draws choice1 -> draws choice2 -> constructible g -> nisnan cut = false ->
  (n_bin <= 2 ^ 53)%Z -> (0 <= digits)%Z -> (n_bin' <= 2 ^ 53)%Z -> (0 <= digits')%Z -> (n_bin_E <= 2 ^ 53)%Z ->
  decompose argsort (jthreshold junk0 cb cut) tt g = Ok (c0, s0) ->
  decompose argsort (jhistogram choice1 junk1 cb n_bin digits) st1 g = Ok (c1, s1) ->
  decompose argsort (jehistogram choice2 junk2 cb n_bin' digits' n_bin_E) st2 g = Ok (c2, s2) ->
  forall i, (i < glen g)%nat ->
    (classified c0 i <-> classified c1 i) /\ (classified c2 i -> classified c1 i) /\ (some_depth g -> classified c1 i -> classified c2 i).
Proof.
  intros N St1 St2 choice1 choice2 argsort junk0 junk1 junk2 cb cut n_bin digits n_bin' digits' n_bin_E st1 st2 g c0 c1 c2 s0 s1 s2 HA D1 D2 Hg Hcut Hn Hd Hn' Hd' HnE H0 H1 H2 i Li.
  destruct (arith_grid N HA) as (RN & _).
  destruct (view_threshold RN argsort g cb Hg junk0 cut c0 s0 Hcut H0) as (j0 & u0 & l0 & Hj0 & V0 & M0 & L0 & _).
  destruct (view_hist RN HA argsort g cb Hg choice1 junk1 n_bin digits st1 s1 c1 D1 Hn Hd H1) as (j1 & u1 & l1 & Hj1 & V1 & M1 & L1 & _).
  destruct (view_ehist RN HA argsort g cb Hg choice2 junk2 n_bin' digits' n_bin_E st2 s2 c2 D2 Hn' HnE Hd' H2) as (j2 & u2 & l2 & Hj2 & V2 & M2 & L2 & _).
  assert (j1 = j0) by congruence. assert (j2 = j0) by congruence. subst j1 j2.
  rewrite (classified_used RN g j0 u0 l0 c0 V0 L0 i Li), (classified_used RN g j0 u1 l1 c1 V1 L1 i Li), (classified_used RN g j0 u2 l2 c2 V2 L2 i Li).
  split; [now rewrite M0, M1|]. split; [rewrite M1, M2; tauto|]. intros SD.
  destruct (same_or_none RN argsort g cb Hg c1 c2 j0 u1 u2 l1 l2 Hj0 V1 V2 M1 M2) as (Q & _). now rewrite (Q SD).
Qed.

(** A star with negative circularity is in the spheroid of all three: of JThreshold if the cut is not negative,
    of JEHistogram if it gives a label at all. *)
Lemma c114_backward : forall (N : Num) (St1 St2 : Type) (choice1 : St1 -> list nat -> nat -> list nat * St1) (choice2 : St2 -> list nat -> nat -> list nat * St2)
    argsort junk0 junk1 junk2 cb (cut : N) n_bin digits n_bin' digits' n_bin_E st1 st2 (g : galaxy N) j c0 c1 c2 s0 s1 s2 k e,
  arith N -> draws choice1 -> draws choice2 -> constructible g -> nle n0 cut = true ->
  (n_bin <= 2 ^ 53)%Z -> (0 <= digits)%Z -> (n_bin' <= 2 ^ 53)%Z -> (0 <= digits')%Z -> (n_bin_E <= 2 ^ 53)%Z ->
  jcirc argsort g (fst cb) (snd cb) = Ok j -> nth_error (jc_eps j) k = Some e -> backward e = true ->
  decompose argsort (jthreshold junk0 cb cut) tt g = Ok (c0, s0) ->
  decompose argsort (jhistogram choice1 junk1 cb n_bin digits) st1 g = Ok (c1, s1) ->
  decompose argsort (jehistogram choice2 junk2 cb n_bin' digits' n_bin_E) st2 g = Ok (c2, s2) ->
  nth_error (c_labels c0) k = Some (nofZ 0) /\ nth_error (c_labels c1) k = Some (nofZ 0) /\
  (classified c2 k -> nth_error (c_labels c2) k = Some (nofZ 0)).
Proof.
  intros N St1 St2 choice1 choice2 argsort junk0 junk1 junk2 cb cut n_bin digits n_bin' digits' n_bin_E st1 st2 g j c0 c1 c2 s0 s1 s2 k e
    HA D1 D2 Hg Hcut Hn Hd Hn' Hd' HnE Hj He Hb H0 H1 H2.
  destruct (arith_grid N HA) as (RN & _). unfold backward in Hb.
  assert (Xc := proj1 (nle_iff RN _ _) Hcut). assert (Nc : nisnan cut = false) by (apply (nisnan_false RN); now apply xle_nan_r in Xc).
  assert (Xb := proj1 (nlt_iff RN _ _) Hb).
  assert (Lk : (k < plen (g_stars g))%nat) by (rewrite <- (eps_length RN argsort g cb Hg j Hj); apply nth_error_Some; congruence).
  assert (Fe : nfin e = true /\ nle nm1 e = true /\ nle e n1 = true).
  { destruct (c24_eps N RN argsort g _ _ j Hg Hj) as (B & _). destruct (B e (nth_error_In _ _ He)) as [B1|(B1 & B2)].
    - exfalso. apply (nisnan_iff RN) in B1. rewrite B1 in Xb. exact Xb.
    - split; [|auto]. apply (nle_iff RN) in B1, B2. rewrite (val_nm1 RN) in B1. rewrite (val_n1 RN) in B2. rewrite (val_fin RN). destruct (val RN e); try contradiction. reflexivity. }
  assert (Split : forall St (choice : St -> list nat -> nat -> list nat * St) pick junk n_bin digits st st' used labels c, draws choice -> (n_bin <= 2 ^ 53)%Z -> (0 <= digits)%Z ->
     (pick = pick_any choice \/ exists (energy : list N) n_bin_E, (n_bin_E <= 2 ^ 53)%Z /\ pick = pick_energy choice energy n_bin_E) ->
     handed g j used labels c -> hist_split pick junk n_bin digits st (column (jc_eps j) used) = Ok (labels, st') -> In k used -> nth_error (c_labels c) k = Some (nofZ 0)).
  { intros St choice pick junk nb dg st st' used labels c HD Hnb Hdg HP Hh E I.
    destruct (composed N St choice pick junk nb dg _ st labels st' HA HD Hnb Hdg HP E) as (_ & bin0 & (_ & Hz & _) & HG & Hb0 & C1 & _).
    apply In_nth_error in I as (r & Er). destruct (h_label _ _ _ _ _ Hh r k Er) as (z & Ez & ->).
    set (edges := map (np_round dg) (linspace nm1 n1 (Z.to_nat nb))) in *.
    destruct (grid_cover RN n1 (Z.to_nat nb) edges e ltac:(lia) HG (proj1 (proj2 Fe)) (proj2 (proj2 Fe))) as (b & HBb). pose proof (proj1 HBb) as Lb.
    assert (Qb : (b < bin0)%nat).
    { destruct (Nat.lt_ge_cases b bin0) as [|Q]; [assumption|]. destruct (pos_bin RN (Z.to_nat nb) edges (column (jc_eps j) used) ltac:(lia) HG (column_range RN argsort g cb Hg j used labels c Hj Hh) bin0 Hz Hb0 b e Q HBb) as (Q' & _). congruence. }
    assert (Ib : In r (bin_list edges (Z.to_nat nb) (column (jc_eps j) used) b)).
    { apply (bin_members edges (Z.to_nat nb) b _ Lb). exists e. split; [|exact HBb]. rewrite (column_nth _ _ _ _ Er). now rewrite (nth_error_nth _ _ nnan He). }
    pose proof (labelled_all 0 labels _ (C1 b Qb) r Ib) as Q. rewrite Ez in Q. congruence. }
  destruct (view_threshold RN argsort g cb Hg junk0 cut c0 s0 Nc H0) as (j0 & u0 & l0 & Hj0 & V0 & M0 & L0 & T0).
  destruct (view_hist RN HA argsort g cb Hg choice1 junk1 n_bin digits st1 s1 c1 D1 Hn Hd H1) as (j1 & u1 & l1 & Hj1 & V1 & M1 & L1 & E1).
  destruct (view_ehist RN HA argsort g cb Hg choice2 junk2 n_bin' digits' n_bin_E st2 s2 c2 D2 Hn' HnE Hd' H2) as (j2 & u2 & l2 & Hj2 & V2 & M2 & L2 & E2).
  assert (j0 = j) by congruence. assert (j1 = j) by congruence. assert (j2 = j) by congruence. subst j0 j1 j2.
  split; [|split].
  - assert (I : In k u0) by (apply M0; split; [exact Lk|exists e; tauto]). apply In_nth_error in I as (r & Er). destruct (h_label _ _ _ _ _ V0 r k Er) as (z & Ez & ->).
    rewrite (T0 r k e Er He) in Ez; [congruence|]. apply (nle_iff RN). eapply xle_trans; [apply xlt_le; exact Xb|exact Xc].
  - apply (Split St1 choice1 _ junk1 n_bin digits st1 s1 u1 l1 c1 D1 Hn Hd (or_introl eq_refl) V1 E1). apply M1. split; [exact Lk|exists e; tauto].
  - intros K. assert (Lg : (k < glen g)%nat) by (unfold glen; lia). apply (classified_used RN g j u2 l2 c2 V2 L2 k Lg) in K.
    exact (Split St2 choice2 _ junk2 n_bin' digits' st2 s2 u2 l2 c2 D2 Hn' Hd' (or_intror (ex_intro _ _ (ex_intro _ _ (conj HnE eq_refl)))) V2 E2 K).
Qed.

(** With the same bins of circularity JEHistogram takes no more stars to the spheroid than JHistogram does, in
    any bin, whatever the number of its energy bins and the generators. *)
Lemma c114_cells : forall (N : Num) (St1 St2 : Type) (choice1 : St1 -> list nat -> nat -> list nat * St1) (choice2 : St2 -> list nat -> nat -> list nat * St2)
    argsort junk1 junk2 cb n_bin digits n_bin_E st1 st2 (g : galaxy N) j c1 c2 s1 s2,
  arith N -> draws choice1 -> draws choice2 -> constructible g ->
  (n_bin <= 2 ^ 53)%Z -> (0 <= digits)%Z -> (n_bin_E <= 2 ^ 53)%Z ->
  jcirc argsort g (fst cb) (snd cb) = Ok j ->
  decompose argsort (jhistogram choice1 junk1 cb n_bin digits) st1 g = Ok (c1, s1) ->
  decompose argsort (jehistogram choice2 junk2 cb n_bin digits n_bin_E) st2 g = Ok (c2, s2) ->
  let n := Z.to_nat n_bin in let edges := map (np_round digits) (linspace nm1 n1 n) in
  (forall b, (b < n)%nat -> (tally (counted edges n b) 0 (jc_eps j) c2 <= tally (counted edges n b) 0 (jc_eps j) c1)%nat) /\
  (tally (fun _ => true) 0 (jc_eps j) c2 <= tally (fun _ => true) 0 (jc_eps j) c1)%nat.
Proof.
  intros N St1 St2 choice1 choice2 argsort junk1 junk2 cb n_bin digits n_bin_E st1 st2 g j c1 c2 s1 s2 HA D1 D2 Hg Hn Hd HnE Hj H1 H2 n edges.
  destruct (arith_grid N HA) as (RN & _).
  destruct (view_hist RN HA argsort g cb Hg choice1 junk1 n_bin digits st1 s1 c1 D1 Hn Hd H1) as (j1 & u1 & l1 & Hj1 & V1 & M1 & L1 & E1).
  destruct (view_ehist RN HA argsort g cb Hg choice2 junk2 n_bin digits n_bin_E st2 s2 c2 D2 Hn HnE Hd H2) as (j2 & u2 & l2 & Hj2 & V2 & M2 & L2 & E2).
  assert (j1 = j) by congruence. assert (j2 = j) by congruence. subst j1 j2.
  pose proof (eps_length RN argsort g cb Hg j Hj) as HE.
  destruct (same_or_none RN argsort g cb Hg c1 c2 j u1 u2 l1 l2 Hj V1 V2 M1 M2) as (Q1 & Q2).
  destruct (Classical_Prop.classic (some_depth g)) as [SD|SD].
  - rewrite (Q1 SD) in *. clear Q1 Q2 u2 M2.
    pose proof (cell_le HA argsort g cb choice1 choice2 junk1 junk2 n_bin digits n_bin_E st1 s1 st2 s2 D1 D2 Hn HnE Hd j u1 l1 l2 Hj (h_length _ _ _ _ _ V1) E1 E2) as CL.
    cbv zeta in CL. fold n in CL. fold edges in CL. split.
    + intros b Hb. rewrite (tally_cell RN g j u1 l1 c1 V1 HE L1), (tally_cell RN g j u1 l2 c2 V2 HE L2) by auto. now apply CL.
    + rewrite (tally_used RN g j u1 l1 c1 V1 HE L1), (tally_used RN g j u1 l2 c2 V2 HE L2) by auto. cbn [andb].
      destruct (composed N St1 choice1 _ junk1 n_bin digits _ st1 l1 s1 HA D1 Hn Hd (or_introl eq_refl) E1) as (_ & bin0 & _ & HG & Hb0 & _). fold n in HG, Hb0. fold edges in HG.
      assert (T : forall l, INR (length (filter (lab 0 l) (seq 0 (length u1)))) = total (fun b => INR (SpecHist.labelled 0 l (bin_list edges n (column (jc_eps j) u1) b))) (seq 0 n)).
      { intros l. rewrite tot_count. replace (length u1) with (length (column (jc_eps j) u1)) by (unfold column; apply map_length).
        rewrite (tot_bins RN n edges (column (jc_eps j) u1) ltac:(lia) HG (column_range RN argsort g cb Hg j u1 l1 c1 Hj V1)).
        apply tot_ext. intros b _. unfold SpecHist.labelled. rewrite tot_count. reflexivity. }
      apply INR_le. rewrite !T. apply tot_le. intros b I. apply in_seq in I. apply le_INR, CL. lia.
  - rewrite (Q2 SD) in *. split; [intros b Hb|]; rewrite (tally_used RN g j [] l2 c2 V2 HE L2) by auto; cbn; lia.
Qed.

(** The spheroid of JHistogram has all stars of negative circularity and, of the others, no more than there are
    of those; with two bins it has exactly as many as that allows. *)
Lemma c114_sizes : forall (N : Num) (St : Type) (choice : St -> list nat -> nat -> list nat * St) argsort junk cb n_bin digits st (g : galaxy N) j c s,
  arith N -> draws choice -> constructible g -> (n_bin <= 2 ^ 53)%Z -> (0 <= digits)%Z ->
  jcirc argsort g (fst cb) (snd cb) = Ok j ->
  decompose argsort (jhistogram choice junk cb n_bin digits) st g = Ok (c, s) ->
  let most := (having backward (jc_eps j) + Nat.min (having backward (jc_eps j)) (having forward (jc_eps j)))%nat in
  (having backward (jc_eps j) <= tally (fun _ => true) 0 (jc_eps j) c <= most)%nat /\
  (n_bin = 2%Z -> tally (fun _ => true) 0 (jc_eps j) c = most).
Proof.
  intros N St choice argsort junk cb n_bin digits st g j c s HA HD Hg Hn Hd Hj H most. destruct (arith_grid N HA) as (RN & _).
  destruct (view_hist RN HA argsort g cb Hg choice junk n_bin digits st s c HD Hn Hd H) as (j1 & u & l & Hj1 & V & M & L & E).
  assert (j1 = j) by congruence. subst j1. pose proof (eps_length RN argsort g cb Hg j Hj) as HE.
  pose proof (column_range RN argsort g cb Hg j u l c Hj V) as HR.
  destruct (c24_eps N RN argsort g _ _ j Hg Hj) as (B & _).
  assert (Hbk : having backward (jc_eps j) = counter (column (jc_eps j) u)).
  { apply (having_used RN g j u l c V HE L backward); auto. intros e Q. apply (nisnan_false RN). intros Q'. apply (nlt_iff RN) in Q. rewrite Q' in Q. exact Q. }
  assert (Hfw : having forward (jc_eps j) = corot (column (jc_eps j) u)).
  { apply (having_used RN g j u l c V HE L forward); auto. intros e Q. apply (nisnan_false RN). intros Q'. apply (nle_iff RN) in Q. rewrite Q' in Q. destruct (val RN n0); exact Q. }
  destruct (c79_counts N St choice _ junk n_bin digits _ st l s HA HD Hn Hd (or_introl eq_refl) HR E) as (C1 & C2).
  assert (Lin : forall (eps : list N) labels e, In e (spheroid eps labels) -> In e eps).
  { intros eps labels e I. unfold spheroid in I. apply in_map_iff in I as ((a, z) & <- & I). apply filter_In in I as (I & _). cbn. eapply in_combine_l; eauto. }
  assert (Two : forall l : list N, (forall e, In e l -> nle nm1 e = true /\ nle e n1 = true) -> (length l = counter l + corot l)%nat).
  { unfold counter, corot. induction l0 as [|a l0 IH]; intros Q; [reflexivity|]. cbn [filter]. destruct (Q a (or_introl eq_refl)) as (Q1 & _). apply (nle_iff RN) in Q1.
    assert (Ra : val RN a <> XNaN) by (apply xle_nan_r in Q1; exact Q1).
    destruct (nlt a n0) eqn:X; [rewrite (proj2 (nle_false RN _ _)) by (intros Y; apply (nlt_iff RN) in X; now apply (xlt_not_le _ _ X))|
      rewrite (v_nle RN n0 a) by (auto; apply (nisnan_false RN); rewrite ?(val_n0 RN); congruence)]; cbn [length]; rewrite IH by (intros; apply Q; now right); lia. }
  rewrite (tally_all RN g j u l c V HE L), (Two _ (fun e I => HR e (Lin _ _ e I))). rewrite C2.
  assert (C3 : (corot (spheroid (column (jc_eps j) u) l) <= corot (column (jc_eps j) u))%nat).
  { unfold corot, spheroid. clear. generalize (column (jc_eps j) u) as eps. induction l as [|z l IH]; intros [|e eps]; cbn; try lia.
    specialize (IH eps). destruct (z =? 0)%Z; cbn; destruct (nle n0 e); cbn; lia. }
  unfold most. rewrite Hbk, Hfw. split; [lia|]. intros ->. f_equal.
  destruct (c42_composition N St choice junk 2 digits _ st l s HA HD Hn Hd E) as (bin0 & Hz & HG & Hb0 & HC). change (Z.to_nat 2) with 2%nat in *.
  assert (bin0 = 1%nat) by lia. subst bin0. set (edges := map (np_round digits) (linspace nm1 n1 2)) in *.
  set (bl := bin_list edges 2 (column (jc_eps j) u)).
  assert (Mb : forall b, (b < 2)%nat -> members edges 2 b (column (jc_eps j) u) (bl b)) by (intros; now apply bin_members).
  destruct (HC 1%nat (bl 1%nat) ltac:(lia) (Mb 1%nat ltac:(lia))) as (_ & A & _). destruct (A ltac:(lia) (bl 0%nat) (Mb 0%nat ltac:(lia))) as (A1 & _).
  destruct Hz as (_ & Hz & _).
  assert (Len : length (column (jc_eps j) u) = length l) by (rewrite (h_length _ _ _ _ _ V); unfold column; apply map_length).
  assert (X0 : counter (column (jc_eps j) u) = length (bl 0%nat)).
  { apply INR_eq. rewrite (counter_bins RN 2 edges (column (jc_eps j) u) ltac:(lia) HG HR 1%nat Hz Hb0). cbn [seq total]. fold bl. apply Rplus_0_r. }
  assert (X1 : corot (column (jc_eps j) u) = length (bl 1%nat)).
  { pose proof (Permutation_length (partition RN 2 edges (column (jc_eps j) u) ltac:(lia) HG HR)) as Q. rewrite seq_length in Q. cbn [seq map concat] in Q. rewrite !app_length in Q. cbn [length] in Q.
    pose proof (Two _ HR) as Q'. unfold bl in *. lia. }
  rewrite X0, X1. rewrite <- A1. apply INR_eq. unfold corot. rewrite tot_count, sph_index by congruence.
  rewrite (tot_bins RN 2 edges (column (jc_eps j) u) ltac:(lia) HG HR). cbn [seq total map fold_right].
  pose proof (bin_sph 2 edges (column (jc_eps j) u)) as BS.
  destruct (BS (fun e => if nle n0 e then 1 else 0) l 0 0 0%nat ltac:(lia)) as (U1 & U2).
  { intros e He. destruct (neg_bin RN 2 edges (column (jc_eps j) u) ltac:(lia) HG HR 1%nat Hz Hb0 0%nat e ltac:(lia) He) as (_ & ->). lra. }
  destruct (BS (fun e => if nle n0 e then 1 else 0) l 1 1 1%nat ltac:(lia)) as (W1 & W2).
  { intros e He. destruct (pos_bin RN 2 edges (column (jc_eps j) u) ltac:(lia) HG HR 1%nat Hz Hb0 1%nat e ltac:(lia) He) as (_ & ->). lra. }
  unfold bl. lra.
Qed.

(** So no number of bins makes the spheroid larger than two bins do. *)
Lemma c114_coarse : forall (N : Num) (St1 St2 : Type) (choice1 : St1 -> list nat -> nat -> list nat * St1) (choice2 : St2 -> list nat -> nat -> list nat * St2)
    argsort junk1 junk2 cb n_bin digits digits' st1 st2 (g : galaxy N) j c1 c2 s1 s2,
  arith N -> draws choice1 -> draws choice2 -> constructible g -> (n_bin <= 2 ^ 53)%Z -> (0 <= digits)%Z -> (0 <= digits')%Z ->
  jcirc argsort g (fst cb) (snd cb) = Ok j ->
  decompose argsort (jhistogram choice1 junk1 cb n_bin digits) st1 g = Ok (c1, s1) ->
  decompose argsort (jhistogram choice2 junk2 cb 2 digits') st2 g = Ok (c2, s2) ->
  (tally (fun _ => true) 0 (jc_eps j) c1 <= tally (fun _ => true) 0 (jc_eps j) c2)%nat.
Proof.
  intros N St1 St2 choice1 choice2 argsort junk1 junk2 cb n_bin digits digits' st1 st2 g j c1 c2 s1 s2 HA D1 D2 Hg Hn Hd Hd' Hj H1 H2.
  destruct (c114_sizes N St1 choice1 argsort junk1 cb n_bin digits st1 g j c1 s1 HA D1 Hg Hn Hd Hj H1) as ((_ & A) & _).
  destruct (c114_sizes N St2 choice2 argsort junk2 cb 2 digits' st2 g j c2 s2 HA D2 Hg ltac:(lia) Hd' Hj H2) as (_ & B).
  rewrite (B eq_refl). exact A.
Qed.

(** "JEHistogram gives a label to the particles JThreshold and JHistogram give one to": false if all bound
    particles have energy zero, with the default parameters, whatever the generator. *)
Lemma c114_who_refuted : exists (g : galaxy F64) i, constructible g /\ (i < plen (g_stars g))%nat /\
  forall (St : Type) (choice : St -> list nat -> nat -> list nat * St) junk (st : St), exists c0 c1 c2 s1 s2,
    decompose asort (jthreshold junk (default_bin0, default_bin1) (nlit 6 10)) tt g = Ok (c0, tt) /\
    decompose asort (jhistogram choice junk (default_bin0, default_bin1) 100 2) st g = Ok (c1, s1) /\
    decompose asort (jehistogram choice junk (default_bin0, default_bin1) 100 2 20) st g = Ok (c2, s2) /\
    classified c0 i /\ classified c1 i /\ ~ classified c2 i.
Proof.
  set (G := lineG (zl [(1,1,0,(-1,2)); (2,1,0,(-1,2)); (-1,1,0,(-1,2))])%Z [] []).
  set (lb := fun c : components F64 => match nth_error (c_labels c) 2 with Some w => negb (nisnan w) | None => false end).
  assert (Hl : match G with Ok g => (2 <? plen (g_stars g))%nat | _ => false end = true) by (vm_compute; reflexivity).
  assert (H : forall (St : Type) (choice : St -> list nat -> nat -> list nat * St) junk (st : St), match G with Ok g =>
     match decompose asort (jthreshold junk (default_bin0, default_bin1) (nlit 6 10)) tt g,
           decompose asort (jhistogram choice junk (default_bin0, default_bin1) 100 2) st g,
           decompose asort (jehistogram choice junk (default_bin0, default_bin1) 100 2 20) st g with
     | Ok (c0, _), Ok (c1, _), Ok (c2, _) => lb c0 && lb c1 && negb (lb c2)
     | _, _, _ => false end | _ => false end = true) by (intros; vm_compute; reflexivity).
  destruct G as [g|] eqn:Eg; [|discriminate]. exists g, 2%nat. split; [eapply lineG_ok; exact Eg|]. split; [now apply Nat.ltb_lt|].
  intros St choice junk st. specialize (H St choice junk st).
  destruct (decompose asort (jthreshold _ _ _) _ g) as [[c0 []]|]; [|discriminate].
  destruct (decompose asort (jhistogram _ _ _ _ _) _ g) as [[c1 s1]|]; [|discriminate].
  destruct (decompose asort (jehistogram _ _ _ _ _ _) _ g) as [[c2 s2]|]; [|discriminate].
  exists c0, c1, c2, s1, s2. apply andb_prop in H as (H & H2). apply andb_prop in H as (H0 & H1). unfold lb in *. apply negb_true_iff in H2.
  repeat (split; [reflexivity|]).
  assert (K : forall c : components F64, match nth_error (c_labels c) 2 with Some w => negb (nisnan w) | None => false end = true <-> classified c 2).
  { intros c. unfold classified. destruct (nth_error (c_labels c) 2) as [w|]; [|split; [discriminate|intros (w & E & _); discriminate]].
    rewrite negb_true_iff. split; [intros E; exists w; auto|intros (w' & E & F); congruence]. }
  split; [now apply K|]. split; [now apply K|]. intros C. apply K in C. congruence.
Qed.

(** Two stars with circularity 0.51 and one with -0.51 of another energy, and a star on the curve: JThreshold
    with the cut 0.6 takes the first three to the spheroid, JHistogram one of the two, JEHistogram none of them,
    and with two bins JHistogram takes two of the three co-rotating ones. *)
Definition versusG : res (galaxy F64) :=
  lineG (zl [(1,1,0,(-201,2)); (-51,1,0,(-3,4)); (51,1,0,(-61,2)); (51,1,0,(-61,2))])%Z (zl [(100,1,0,(-3,4)); (100,1,0,(-61,2)); (100,1,0,(-61,2))])%Z [].
Definition labels_by {St} (D : decomposer F64 St) (st : St) : res (list spec_float) :=
  rmap (fun r => shows (firstn 5 (c_labels (fst r)))) (do g <- versusG; decompose asort D st g).
Example ex_c114 :
  [labels_by (jthreshold (fun _ => 9%Z) (default_bin0, default_bin1) (nlit 6 10)) tt;
   labels_by (jhistogram turns (fun _ => 9%Z) (default_bin0, default_bin1) 100 2) false;
   labels_by (jehistogram turns (fun _ => 9%Z) (default_bin0, default_bin1) 100 2 20) false;
   labels_by (jhistogram turns (fun _ => 9%Z) (default_bin0, default_bin1) 2 2) false] =
  [Ok [sZ 1; sZ 0; sZ 0; sZ 0; S754_nan]; Ok [sZ 1; sZ 0; sZ 1; sZ 0; S754_nan];
   Ok [sZ 1; sZ 0; sZ 1; sZ 1; S754_nan]; Ok [sZ 0; sZ 0; sZ 1; sZ 1; S754_nan]].
Proof. vm_compute. reflexivity. Qed.
(** The tallies of the same decompositions, and the bound. *)
Definition tally_by {St} (D : decomposer F64 St) (st : St) : res (nat * (nat * nat)) :=
  do g <- versusG; do r <- decompose asort D st g; do j <- jcirc asort g default_bin0 default_bin1;
  Ok (tally (fun _ => true) 0 (jc_eps j) (fst r), (having backward (jc_eps j), having forward (jc_eps j))).
Example ex_c114_tally :
  [tally_by (jhistogram turns (fun _ => 9%Z) (default_bin0, default_bin1) 100 2) false;
   tally_by (jehistogram turns (fun _ => 9%Z) (default_bin0, default_bin1) 100 2 20) false;
   tally_by (jhistogram turns (fun _ => 9%Z) (default_bin0, default_bin1) 2 2) true] =
  [Ok (2, (1, 3)); Ok (1, (1, 3)); Ok (2, (1, 3))]%nat.
Proof. vm_compute. reflexivity. Qed.
