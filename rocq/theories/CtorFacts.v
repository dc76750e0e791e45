(** Facts about the construction of decomposers. *)
From Verif Require Import Py Num Np Df Data Circ Base RX Ctor SpecCtor.

Section Facts.
Context {N : Num}.
Variable seed : pval N -> res unit.

Definition table (fs : list (field N)) : dict (pval N) := map (fun f => (f_name f, f_default f)) fs.
Definition tidy (fs : list (field N)) : Prop :=
  NoDup (map f_name fs) /\ forall f, In f fs -> f_rng f = String.eqb (f_name f) "random_state".

Lemma table_keys fs : dkeys (table fs) = map f_name fs.
Proof. unfold table, dkeys. rewrite map_map. reflexivity. Qed.

Lemma tidy_tail f fs : tidy (f :: fs) -> tidy fs.
Proof. intros [A B]. split; [now inversion A|intros g Hg; apply B; now right]. Qed.

Fixpoint tidyb (fs : list (field N)) : bool :=
  match fs with
  | [] => true
  | f :: fs' => negb (smem (f_name f) (map f_name fs')) && Bool.eqb (f_rng f) (String.eqb (f_name f) "random_state") && tidyb fs'
  end.
Lemma tidyb_ok fs : tidyb fs = true -> tidy fs.
Proof.
  induction fs as [|f fs IH]; intros H; [split; [constructor|intros f []]|].
  cbn [tidyb] in H. apply andb_true_iff in H. destruct H as [H H3]. apply andb_true_iff in H. destruct H as [H1 H2].
  apply negb_true_iff in H1. apply smem_false in H1. apply eqb_prop in H2. destruct (IH H3) as [A B].
  split; [now constructor|]. intros g [<-|Hg]; auto.
Qed.

Lemma init_settings fs : tidy fs -> forall kw next d next',
  init_fields seed fs kw next = Ok (d, next') -> holds_settings seed (table fs) kw next d next'.
Proof.
  induction fs as [|f fs IH]; intros T kw next d next' H.
  - simpl in H. injection H as <- <-. split; [reflexivity|]. split; [intros k v []|]. split; [intros v []|reflexivity].
  - pose proof (tidy_tail _ _ T) as T'. destruct T as [ND RG]. inversion ND as [|? ? NI ND']; subst.
    pose proof (RG f (or_introl eq_refl)) as Rf.
    cbn [init_fields] in H. change (match dget kw (f_name f) with Some v => v | None => f_default f end) with (asked kw (f_name f) (f_default f)) in H.
    destruct (if f_rng f then default_rng seed (asked kw (f_name f) (f_default f)) next else Ok (asked kw (f_name f) (f_default f), next))
      as [[v n1]|] eqn:E1; [|discriminate].
    cbn [bind fst snd] in H. destruct (init_fields seed fs kw n1) as [[d2 n2]|] eqn:E2; [|discriminate].
    cbn [bind fst snd] in H. injection H as <- <-.
    destruct (IH T' kw n1 d2 n2 E2) as (K & P & Q & R).
    assert (Other : forall k, k <> f_name f -> dget ((f_name f, v) :: d2) k = dget d2 k).
    { intros k Hk. simpl. destruct (String.eqb_spec k (f_name f)); [contradiction|reflexivity]. }
    assert (Same : dget ((f_name f, v) :: d2) (f_name f) = Some v) by (simpl; now rewrite String.eqb_refl).
    assert (In' : forall k w, In (k, w) (table fs) -> k <> f_name f).
    { intros k w Hw ->. apply NI. rewrite <- table_keys. apply (in_map fst) in Hw. exact Hw. }
    rewrite Rf in E1. destruct (String.eqb_spec (f_name f) "random_state") as [En|En].
    + assert (NR : ~ In "random_state"%string (dkeys (table fs))) by (rewrite table_keys; now rewrite <- En).
      specialize (R NR). subst n2.
      split; [simpl; now rewrite K|]. split; [|split].
      * intros k w [Hw|Hw] Hk; [injection Hw as <- <-; contradiction|]. rewrite Other by eauto. eauto.
      * intros w [Hw|Hw].
        -- injection Hw as Hn <-. rewrite <- En, Same. unfold default_rng in E1. split.
           ++ intros i Hi. rewrite Hi in E1. injection E1 as <- <-. auto.
           ++ intros Hi. destruct (asked kw (f_name f) (f_default f)) as [u|i|o] eqn:EA; [|now contradiction (Hi i)|];
                (destruct (seed _) as [[]|] eqn:ES; [|discriminate]; cbn in E1; injection E1 as <- <-; auto).
        -- exfalso. apply NR. apply (in_map fst) in Hw. exact Hw.
      * intros HN. exfalso. apply HN. simpl. auto.
    + injection E1 as <- <-.
      split; [simpl; now rewrite K|]. split; [|split].
      * intros k w [Hw|Hw] Hk; [injection Hw as <- <-; exact Same|]. rewrite Other by eauto. eauto.
      * intros w [Hw|Hw]; [injection Hw as Hn _; contradiction|]. rewrite Other by congruence. now apply Q.
      * intros HN. apply R. intros Hin. apply HN. simpl. auto.
Qed.

(** A dictionary is determined by its keys and what is found under them. *)
Lemma dict_ext {V} (d e : dict V) : NoDup (dkeys d) -> dkeys d = dkeys e -> (forall k, In k (dkeys d) -> dget d k = dget e k) -> d = e.
Proof.
  revert e. induction d as [|[k v] d IH]; intros [|[k' w] e] ND K H; try discriminate; [reflexivity|].
  cbn [dkeys map fst] in K. assert (Kk : k = k') by congruence. assert (K2 : dkeys d = dkeys e) by (unfold dkeys in *; congruence). subst k'. inversion ND as [|? ? NI ND']; subst.
  pose proof (H k (or_introl eq_refl)) as Hk. simpl in Hk. rewrite String.eqb_refl in Hk. injection Hk as <-.
  f_equal. apply IH; [exact ND'|exact K2|]. intros x Hx. specialize (H x (or_intror Hx)). simpl in H.
  destruct (String.eqb_spec x k) as [Ex|Ex]; [exfalso; apply NI; rewrite <- Ex; exact Hx|exact H].
Qed.

Lemma settings_unique fs kw next d e n m : tidy fs ->
  holds_settings seed (table fs) kw next d n -> holds_settings seed (table fs) kw next e m -> d = e /\ n = m.
Proof.
  intros [ND _] (K & P & Q & R) (K' & P' & Q' & R').
  assert (D : forall v, {exists i, v = PGen i} + {forall i, v <> @PGen N i}).
  { intros [u|i|o]; [right; discriminate|left; eauto|right; discriminate]. }
  split.
  - apply dict_ext; [now rewrite K, table_keys|congruence|]. intros k Hk. rewrite K in Hk.
    apply in_map_iff in Hk. destruct Hk as ([k' v] & <- & Hin). simpl.
    destruct (String.eqb_spec k' "random_state") as [->|Hn]; [|rewrite (P _ _ Hin Hn), (P' _ _ Hin Hn); reflexivity].
    destruct (Q _ Hin) as [Q1 Q2], (Q' _ Hin) as [Q1' Q2'].
    destruct (D (asked kw "random_state" v)) as [(i & Hi)|Hi].
    + destruct (Q1 _ Hi), (Q1' _ Hi). congruence.
    + destruct (Q2 Hi) as (_ & ? & _), (Q2' Hi) as (_ & ? & _). congruence.
  - destruct (in_dec string_dec "random_state"%string (dkeys (table fs))) as [Hin|Hin]; [|rewrite (R Hin), (R' Hin); reflexivity].
    apply in_map_iff in Hin. destruct Hin as ([k' v] & Hk & Hin). simpl in Hk. subst k'.
    destruct (Q _ Hin) as [Q1 Q2], (Q' _ Hin) as [Q1' Q2'].
    destruct (D (asked kw "random_state" v)) as [(i & Hi)|Hi].
    + destruct (Q1 _ Hi), (Q1' _ Hi). congruence.
    + destruct (Q2 Hi) as (_ & _ & ?), (Q2' Hi) as (_ & _ & ?). congruence.
Qed.

(** The seeds that are asked for are accepted. *)
Definition seeds_ok (fs : list (field N)) (kw : dict (pval N)) : Prop :=
  forall f, In f fs -> f_rng f = true -> (exists i, asked kw (f_name f) (f_default f) = PGen i) \/ seed (asked kw (f_name f) (f_default f)) = Ok tt.

Lemma init_total fs kw : seeds_ok fs kw -> forall next, exists d n, init_fields seed fs kw next = Ok (d, n).
Proof.
  induction fs as [|f fs IH]; intros S next; [simpl; eauto|].
  assert (S' : seeds_ok fs kw) by (intros g Hg; apply S; now right).
  cbn [init_fields]. change (match dget kw (f_name f) with Some v => v | None => f_default f end) with (asked kw (f_name f) (f_default f)).
  assert (E : exists v n, (if f_rng f then default_rng seed (asked kw (f_name f) (f_default f)) next else Ok (asked kw (f_name f) (f_default f), next)) = Ok (v, n)).
  { destruct (f_rng f) eqn:Ef; [|eauto]. destruct (S f (or_introl eq_refl) Ef) as [(i & ->)|Hs]; [simpl; eauto|].
    unfold default_rng. destruct (asked kw (f_name f) (f_default f)); try rewrite Hs; simpl; eauto. }
  destruct E as (v & n & ->). cbn [bind fst snd]. destruct (IH S' n) as (d & m & ->). cbn [bind fst snd]. eauto.
Qed.

Lemma init_iff fs kw next d n : tidy fs ->
  init_fields seed fs kw next = Ok (d, n) <-> holds_settings seed (table fs) kw next d n.
Proof.
  intros T. split; [now apply init_settings|]. intros H.
  assert (S : seeds_ok fs kw).
  { intros f Hf Hr. rewrite (proj2 T f Hf) in Hr. apply String.eqb_eq in Hr.
    destruct H as (_ & _ & Q & _). assert (Hin : In ("random_state"%string, f_default f) (table fs)).
    { rewrite <- Hr. unfold table. now apply (in_map (fun f => (f_name f, f_default f))). }
    rewrite Hr. destruct (asked kw "random_state" (f_default f)) as [u|i|o] eqn:E; [right|left; eauto|right];
      (destruct (Q _ Hin) as [_ Q2]; rewrite E in Q2; now destruct (Q2 ltac:(discriminate))). }
  destruct (init_total fs kw S next) as (d' & n' & E).
  destruct (settings_unique fs kw next d d' n n' T H (init_settings fs T _ _ _ _ E)) as [-> ->]. exact E.
Qed.

End Facts.
