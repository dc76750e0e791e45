(** Construction, copying, comparison and printing of decomposers and galaxies (C65-C67). *)
From Verif Require Import Py Num Np Df Data Circ Base Threshold RX F64 Spec DataFacts DataThms BaseThms Ex Ctor SpecCtor CtorFacts.
From Coq Require Import DecimalString DecimalNat Lia.

(** *** C65 *)

Lemma valid_bins_iff (N : Num) (v : pval N) : valid_bins v = Ok tt <-> two_floats v.
Proof.
  unfold two_floats. destruct v as [v|i|o]; cbn [valid_bins]; [|split; [discriminate|intros (a & b & E); discriminate]..].
  split.
  - intros H. destruct (bins_validator v) as [[a b]|] eqn:E; [|discriminate].
    apply (proj1 (c39_cbins N v)) in E. cbn in E. exists a, b. now rewrite E.
  - intros (a & b & [= ->]). reflexivity.
Qed.

Lemma valid_eps_iff (N : Num) (RN : Rounded N) (v : pval N) : valid_eps v = Ok tt <-> cut_ok RN v.
Proof.
  assert (G : forall h : hval N, (do _ <- check_eps_cut h; Ok tt) = Ok tt <-> exists x, check_eps_cut h = Ok x).
  { intros h. destruct (check_eps_cut h); cbn; split; eauto; try discriminate. intros (x & [=]). }
  unfold cut_ok. destruct v as [h|i|o]; cbn [valid_eps].
  2,3: split; [discriminate|intros [(x & [=] & _)|[(x & [=] & _)|[(x & [=])|(x & [=] & _)]]]].
  rewrite G. destruct (c39_eps_cut N RN h) as (A & B & C & D). split.
  - intros (x & E). destruct h as [p|l|l].
    + destruct p as [|b|z|y|s|p|].
      * exfalso. now rewrite (D [] ltac:(tauto)) in E.
      * right; right; left. eauto.
      * right; left. exists z. split; [reflexivity|]. unfold check_eps_cut in E. cbn [py_number bind] in E.
        destruct (1 <? z)%Z eqn:E1; [discriminate|]. destruct (z <? -1)%Z eqn:E2; [discriminate|].
        apply Z.ltb_ge in E1, E2. lia.
      * left. exists y. split; [reflexivity|]. apply (A y eq_refl). unfold check_eps_cut in *. cbn [py_number bind] in *.
        destruct (nlt n1 y || nlt y nm1); [discriminate|reflexivity].
      * exfalso. rewrite (D [] ltac:(right; right; right; left; eauto)) in E. discriminate.
      * right; right; right. exists p. split; [reflexivity|]. destruct p; cbn in *; first [lia|discriminate].
      * exfalso. rewrite (D [] ltac:(tauto)) in E. discriminate.
    + exfalso. rewrite (D l ltac:(first [left; reflexivity|right; left; reflexivity])) in E. discriminate.
    + exfalso. rewrite (D l ltac:(first [left; reflexivity|right; left; reflexivity])) in E. discriminate.
  - intros [(x & [= ->] & H)|[(z & [= ->] & H)|[(b & [= ->])|(p & [= ->] & H)]]].
    + exists x. destruct (A x eq_refl) as (_ & A2 & _). now apply A2.
    + exists (nofZ z). destruct (B z eq_refl) as (B1 & _). now apply B1.
    + eexists. now apply (C b).
    + destruct p; cbn in H; cbn; eauto; lia.
Qed.

Lemma construct_iff (N : Num) seed (c : dclass N) nargs kw next o n : abstract c = false -> tidy (k_attrs c) ->
  construct seed c nargs kw next = Ok (o, n) <->
  nargs = 0 /\ (forall k, In k (dkeys kw) -> In k (map f_name (k_attrs c))) /\
  holds_settings seed (table (k_attrs c)) kw next (o_dict o) n /\ run_validators (k_attrs c) (o_dict o) = Ok tt /\ o_class o = k_name c.
Proof.
  intros HA HT. unfold construct. rewrite HA. cbn [negb guard bind].
  assert (F : forallb (fun k => smem k (map f_name (k_attrs c))) (dkeys kw) = true <-> forall k, In k (dkeys kw) -> In k (map f_name (k_attrs c))).
  { rewrite forallb_forall. split; intros H k Hk; apply smem_In; auto. }
  destruct (Nat.eqb_spec nargs 0) as [->|Hn].
  2: { cbn. split; [discriminate|intros (E & _); contradiction]. }
  destruct (forallb _ (dkeys kw)) eqn:EF; cbn [andb guard bind].
  2: { split; [discriminate|]. intros (_ & H & _). apply F in H. congruence. }
  assert (F' := proj1 F eq_refl). rewrite <- (init_iff seed (k_attrs c) kw next (o_dict o) n HT). split.
  - intros H. destruct (init_fields seed (k_attrs c) kw next) as [[d m]|] eqn:E; [|discriminate]. cbn [bind fst snd] in H.
    destruct (run_validators (k_attrs c) d) as [[]|] eqn:V; [|discriminate]. cbn in H. injection H as <- <-. cbn. auto.
  - intros (_ & _ & -> & V & K). cbn [bind fst snd]. rewrite V. cbn. destruct o; cbn in *. now subst.
Qed.

Lemma shipped_ok (N : Num) (c : dclass N) name T : In (c, name, T) shipped ->
  abstract c = false /\ tidy (k_attrs c) /\ table (k_attrs c) = T /\ k_name c = name /\
  (exists v, In ("cbins"%string, v) T) /\
  (forall d, run_validators (k_attrs c) d = Ok tt <->
     (forall v, dget d "cbins" = Some v -> valid_bins v = Ok tt) /\
     (In "eps_cut"%string (dkeys T) -> forall v, dget d "eps_cut" = Some v -> valid_eps v = Ok tt)).
Proof.
  intros H. unfold shipped in H. cbn [In] in H.
  repeat (destruct H as [H|H]; [injection H as <- <- <-|]); [..|contradiction].
  all: split; [reflexivity|].
  all: split; [apply tidyb_ok; reflexivity|].
  all: split; [reflexivity|]. all: split; [reflexivity|].
  all: split; [eexists; cbn; eauto 8|].
  all: intros d; cbn -[valid_bins valid_eps dget].
  all: destruct (dget d "cbins") as [v|] eqn:E1; [destruct (valid_bins v) as [[]|] eqn:F1|]; cbn [bind].
  all: try (split; [discriminate|intros [H1 _]; specialize (H1 v eq_refl); congruence]).
  all: try (split; [intros _; split; [intros ? [= <-]; assumption|intros Hi; exfalso; repeat (destruct Hi as [Hi|Hi]; [discriminate|]); contradiction]|reflexivity]).
  all: try (split; [intros _; split; [intros ? [=]|intros Hi; exfalso; repeat (destruct Hi as [Hi|Hi]; [discriminate|]); contradiction]|reflexivity]).
  all: destruct (dget d "eps_cut") as [w|] eqn:E2; [destruct (valid_eps w) as [[]|] eqn:F2|]; cbn [bind].
  all: split; [intros H; first [discriminate|split; [intros ? [=]; congruence|intros _ ? [=]; congruence]]|
               intros [_ H2]; first [reflexivity|specialize (H2 (or_intror (or_introl eq_refl)) w eq_refl); congruence]].
Qed.

Lemma settings_get (N : Num) seed (T kw : dict (pval N)) next d n k v :
  holds_settings seed T kw next d n -> In (k, v) T -> k <> "random_state"%string -> dget d k = Some (asked kw k v).
Proof. intros (_ & P & _). apply P. Qed.

(** Each class on offer is constructed exactly by keyword arguments out of its documented table,
    with cbins a tuple of two floats, eps_cut a number not above 1 nor below -1 and an
    accepted seed; the instance then holds, under each documented name, what was
    asked for or the documented default. *)
Lemma c65_construct : forall (N : Num) (RN : Rounded N) seed (c : dclass N) name T, In (c, name, T) shipped ->
  forall nargs kw next o next',
  construct seed c nargs kw next = Ok (o, next') <->
  nargs = 0 /\ (forall k, In k (dkeys kw) -> In k (dkeys T)) /\ o_class o = name /\
  holds_settings seed T kw next (o_dict o) next' /\
  (forall v, In ("cbins"%string, v) T -> two_floats (asked kw "cbins" v)) /\
  (forall v, In ("eps_cut"%string, v) T -> cut_ok RN (asked kw "eps_cut" v)).
Proof.
  intros N RN seed c name T HS nargs kw next o n.
  destruct (shipped_ok N c name T HS) as (HA & HT & <- & <- & (v0 & H0) & HV).
  rewrite (construct_iff N seed c nargs kw next o n HA HT), <- table_keys, HV.
  assert (Key : forall k v, In (k, v) (table (k_attrs c)) -> In k (dkeys (table (k_attrs c)))) by (intros k v Hk; apply (in_map fst) in Hk; exact Hk).
  split.
  - intros (E1 & E2 & E3 & [V1 V2] & E4). split; [exact E1|]. split; [exact E2|]. split; [exact E4|]. split; [exact E3|]. split.
    + intros v Hv. apply valid_bins_iff, V1. now apply (settings_get _ _ _ _ _ _ _ _ _ E3 Hv).
    + intros v Hv. apply valid_eps_iff. apply V2; [eauto|]. now apply (settings_get _ _ _ _ _ _ _ _ _ E3 Hv).
  - intros (E1 & E2 & E4 & E3 & V1 & V2). split; [exact E1|]. split; [exact E2|]. split; [exact E3|]. split; [|exact E4]. split.
    + intros w Hw. rewrite (settings_get _ _ _ _ _ _ _ _ _ E3 H0 ltac:(discriminate)) in Hw. injection Hw as <-.
      apply valid_bins_iff. now apply V1.
    + intros Hi w Hw. apply in_map_iff in Hi. destruct Hi as ([k v] & Hk & Hi). cbn in Hk. subst k.
      rewrite (settings_get _ _ _ _ _ _ _ _ _ E3 Hi ltac:(discriminate)) in Hw. injection Hw as <-.
      apply (valid_eps_iff N RN). now apply V2.
Qed.

(** The two abstract classes cannot be constructed at all, and no class takes positional or
    unknown arguments: TypeError. With known keywords and an acceptable seed, a wrong cbins is a
    ValueError, whatever eps_cut is. *)
Lemma c65_errors : forall (N : Num) seed (kw : dict (pval N)) nargs next,
  construct seed GalaxyDecomposerABC nargs kw next = Raise TypeError /\
  construct seed StarsGaussianABC nargs kw next = Raise TypeError /\
  (forall c name T, In (c, name, T) shipped ->
     (nargs <> 0 \/ (exists k, In k (dkeys kw) /\ ~ In k (dkeys T)) -> construct seed c nargs kw next = Raise TypeError) /\
     (nargs = 0 -> (forall k, In k (dkeys kw) -> In k (dkeys T)) ->
      (forall v, In ("random_state"%string, v) T -> (exists i, asked kw "random_state" v = PGen i) \/ seed (asked kw "random_state" v) = Ok tt) ->
      (forall v, In ("cbins"%string, v) T -> ~ two_floats (asked kw "cbins" v)) ->
      construct seed c nargs kw next = Raise ValueError)).
Proof.
  intros N seed kw nargs next. split; [reflexivity|]. split; [reflexivity|].
  intros c name T HS. destruct (shipped_ok N c name T HS) as (HA & HT & HTab & _ & (v0 & H0) & _).
  assert (HK : dkeys T = map f_name (k_attrs c)) by (rewrite <- HTab; apply table_keys).
  split.
  - intros H. unfold construct. rewrite HA. cbn [negb guard bind].
    destruct (Nat.eqb_spec nargs 0) as [E|E]; [|reflexivity]. destruct H as [H|(k & Hk & Hn)]; [contradiction|].
    destruct (forallb _ (dkeys kw)) eqn:EF; [|reflexivity]. exfalso. apply Hn. rewrite HK.
    rewrite forallb_forall in EF. apply smem_In, EF, Hk.
  - intros -> HKw HSeed HBins. unfold construct. rewrite HA. cbn [negb guard bind Nat.eqb andb].
    replace (forallb (fun k => smem k (map f_name (k_attrs c))) (dkeys kw)) with true.
    2: { symmetry. apply forallb_forall. intros k Hk. apply smem_In. rewrite <- HK. auto. }
    cbn [guard bind].
    assert (S : seeds_ok seed (k_attrs c) kw).
    { intros f Hf Hr. rewrite (proj2 HT f Hf) in Hr. apply String.eqb_eq in Hr. rewrite Hr. apply HSeed.
      rewrite <- HTab, <- Hr. unfold table. now apply (in_map (fun f => (f_name f, f_default f))). }
    destruct (init_total seed (k_attrs c) kw S next) as (d & m & E). rewrite E. cbn [bind fst snd].
    apply (init_iff seed _ _ _ _ _ HT) in E. rewrite HTab in E.
    pose proof (settings_get _ _ _ _ _ _ _ _ _ E H0 ltac:(discriminate)) as Hd. specialize (HBins _ H0). rewrite <- valid_bins_iff in HBins.
    assert (HB : valid_bins (asked kw "cbins" v0) = Raise ValueError).
    { rewrite valid_bins_iff in HBins. destruct (asked kw "cbins" v0) as [h|i|o]; [|reflexivity..]. cbn [valid_bins].
      rewrite (proj1 (proj2 (c39_cbins N h))); [reflexivity|]. intros a b ->. apply HBins. now exists a, b. }
    unfold shipped in HS. cbn [In] in HS.
    repeat (destruct HS as [HS|HS]; [injection HS as <- _ <-; cbn [k_attrs run_validators f_valid f_name]|]); [..|contradiction];
      cbn; rewrite ?Hd, ?HB; reflexivity.
Qed.

(** [cls] applied to the hyper-parameters of an instance gives the same instance; no
    new generator is made, the copy shares that of the original. *)
Lemma c65_rebuild : forall (N : Num) (RN : Rounded N) seed (c : dclass N) name T, In (c, name, T) shipped ->
  forall nargs kw next o next' m,
  construct seed c nargs kw next = Ok (o, next') -> construct seed c 0 (o_dict o) m = Ok (o, m).
Proof.
  intros N RN seed c name T HS nargs kw next o n m H.
  apply (c65_construct N RN seed c name T HS) in H. destruct H as (_ & _ & HC & E & V1 & V2).
  pose proof E as (K & P & Q & R).
  assert (A : forall k v, In (k, v) T -> k <> "random_state"%string -> asked (o_dict o) k v = asked kw k v).
  { intros k v Hk Hn. unfold asked at 1. now rewrite (P k v Hk Hn). }
  apply (c65_construct N RN seed c name T HS). split; [reflexivity|]. split; [intros k Hk; now rewrite K in Hk|].
  split; [exact HC|]. split; [|split; intros v Hv; rewrite (A _ _ Hv) by discriminate; auto].
  split; [exact K|]. split; [|split; [|reflexivity]].
  - intros k v Hk Hn. rewrite (A k v Hk Hn). now apply P.
  - intros v Hv. assert (G : exists i, dget (o_dict o) "random_state" = Some (PGen i)).
    { destruct (Q v Hv) as [Q1 Q2]. destruct (asked kw "random_state" v) as [u|i|w] eqn:EA.
      - destruct (Q2 ltac:(discriminate)) as (_ & -> & _). eauto.
      - destruct (Q1 i eq_refl) as [-> _]. eauto.
      - destruct (Q2 ltac:(discriminate)) as (_ & -> & _). eauto. }
    destruct G as (i & G). unfold asked. rewrite G. split; [|intros Hi; now contradiction (Hi i)].
    intros j [= ->]. auto.
Qed.

(** The class JThreshold accepts what the decomposer of [Threshold.v] accepts. *)
Lemma c65_threshold : forall (N : Num) (RN : Rounded N) seed junk (a b : hval N) next,
  (exists o n, construct seed JThreshold 0 [("cbins", PV a); ("eps_cut", PV b)]%string next = Ok (o, n)) <->
  (exists D, mk_jthreshold junk a b = Ok D).
Proof.
  intros N RN seed junk a b next. unfold construct, mk_jthreshold. cbn.
  destruct (bins_validator a); cbn; [|split; [intros (o & n & [=])|intros (D & [=])]].
  destruct (check_eps_cut b); cbn; [|split; [intros (o & n & [=])|intros (D & [=])]].
  split; intros _; eauto.
Qed.

Definition any_seed (v : pval F64) : res unit := Ok tt.
Example ex_c65 :
  rmap (fun r => dget (o_dict (fst r)) "n_bin_E") (construct any_seed JEHistogram 0 [("n_bin_E", int 7); ("random_state", int 42)]%string 3) =
    Ok (Some (int 7)) /\
  rmap (fun r => (dget (o_dict (fst r)) "random_state", snd r)) (construct any_seed JEHistogram 0 [("random_state"%string, int 42)] 3) =
    Ok (Some (PGen 3), 4) /\
  rmap (fun r => (dget (o_dict (fst r)) "random_state", snd r)) (construct any_seed KMeans 0 [("random_state"%string, PGen 1)] 3) =
    Ok (Some (PGen 1), 3) /\
  exn_of (construct any_seed KMeans 0 [("n_clusters"%string, int 2)] 3) = Some TypeError /\
  exn_of (construct any_seed JThreshold 1 [] 3) = Some TypeError /\
  exn_of (construct any_seed JThreshold 0 [("eps_cut"%string, int 2)] 3) = Some ValueError /\
  exn_of (construct any_seed JThreshold 0 [("eps_cut"%string, txt "a")] 3) = Some TypeError /\
  exn_of (construct any_seed JThreshold 0 [("cbins", int 2); ("eps_cut", txt "a")]%string 3) = Some ValueError.
Proof. repeat split; vm_compute; reflexivity. Qed.

(** *** C66 *)

Lemma values_eq_iff (N : Num) same (d e : dict (pval N)) : NoDup (dkeys d) -> dkeys d = dkeys e ->
  values_eq same d e = true <-> forall k v w, dget d k = Some v -> dget e k = Some w -> pval_eq same v w = true.
Proof.
  revert e. induction d as [|[k v] d IH]; intros [|[k' w] e] ND K; try discriminate; [cbn; split; [discriminate|reflexivity]|].
  cbn [dkeys map fst] in K. assert (Kk : k = k') by congruence. assert (K2 : dkeys d = dkeys e) by (unfold dkeys in *; congruence). subst k'.
  inversion ND as [|? ? NI ND']; subst. cbn [values_eq]. rewrite andb_true_iff, (IH e ND' K2). split.
  - intros [A B] x p q. cbn [dget]. destruct (String.eqb_spec x k) as [E|E]; [now intros [= <-] [= <-]|apply B].
  - intros H. split.
    + apply (H k); cbn [dget]; now rewrite String.eqb_refl.
    + intros x p q Hp Hq. assert (E : x <> k).
      { intros ->. apply NI. apply dget_In in Hp. apply (in_map fst) in Hp. exact Hp. }
      apply (H x); cbn [dget]; destruct (String.eqb_spec x k); try contradiction; assumption.
Qed.

(** Two instances made one after the other with the same arguments are equal exactly if the
    class has no random_state or was given a generator: with the same seed, or with none, they differ. *)
Lemma c66_equal : forall (N : Num) (RN : Rounded N) seed same (c : dclass N) name T, In (c, name, T) shipped ->
  (forall v : pval N, same v v = true) ->
  forall kw next a n b n',
  construct seed c 0 kw next = Ok (a, n) -> construct seed c 0 kw n = Ok (b, n') ->
  instance_eq same a b = true <->
  (~ In "random_state"%string (dkeys T) \/ exists i, dget kw "random_state" = Some (PGen i)).
Proof.
  intros N RN seed same c name T HS Hsame kw next a n b n' Ha Hb.
  pose proof (shipped_ok N c name T HS) as (_ & [HND _] & HTab & _). rewrite <- table_keys, HTab in HND.
  apply (c65_construct N RN seed c name T HS) in Ha, Hb.
  destruct Ha as (_ & _ & Ca & (Ka & Pa & Qa & Ra) & _), Hb as (_ & _ & Cb & (Kb & Pb & Qb & Rb) & _).
  unfold instance_eq. rewrite Ca, Cb, String.eqb_refl. cbn [andb].
  rewrite (values_eq_iff N same) by (congruence || (rewrite Ka; exact HND)).
  assert (Hdef : forall v, In ("random_state"%string, v) T -> v = none).
  { intros v Hv. clear - HS Hv. unfold shipped in HS. cbn [In] in HS.
    repeat (destruct HS as [HS|HS]; [injection HS as <- <- <-; cbn in Hv; repeat (destruct Hv as [Hv|Hv]; [try discriminate; now injection Hv as <-|]); contradiction|]); contradiction. }
  assert (Hrefl : forall v, pval_eq same v v = true) by (intros [h|i|o]; cbn; auto using Nat.eqb_refl).
  split.
  - intros H. destruct (in_dec string_dec "random_state"%string (dkeys T)) as [Hi|Hi]; [|now left]. right.
    apply in_map_iff in Hi. destruct Hi as ([k v] & Hk & Hi). cbn in Hk. subst k.
    destruct (Qa _ Hi) as [Qa1 Qa2], (Qb _ Hi) as [Qb1 Qb2]. pose proof (Hdef v Hi) as ->.
    destruct (dget kw "random_state") as [[h|i|o]|] eqn:E; [|eauto|..]; exfalso.
    all: unfold asked in *; rewrite E in *;
      destruct (Qa2 ltac:(discriminate)) as (_ & Ga & ->), (Qb2 ltac:(discriminate)) as (_ & Gb & _);
      specialize (H _ _ _ Ga Gb); cbn in H; apply Nat.eqb_eq in H; lia.
  - intros H k v w Hv Hw. destruct (String.eqb_spec k "random_state") as [->|Hk].
    + assert (Hi : In "random_state"%string (dkeys T)) by (rewrite <- Ka; apply dget_In in Hv; apply (in_map fst) in Hv; exact Hv).
      destruct H as [H|(i & E)]; [contradiction|]. apply in_map_iff in Hi. destruct Hi as ([k u] & Hk & Hi). cbn in Hk. subst k.
      assert (EA : asked kw "random_state" u = PGen i) by (unfold asked; now rewrite E).
      destruct (Qa _ Hi) as [Qa1 _], (Qb _ Hi) as [Qb1 _]. destruct (Qa1 i EA) as [Ga _], (Qb1 i EA) as [Gb _].
      rewrite Ga in Hv. rewrite Gb in Hw. injection Hv as <-. injection Hw as <-. apply Hrefl.
    + assert (Hi : In k (dkeys T)) by (rewrite <- Ka; apply dget_In in Hv; apply (in_map fst) in Hv; exact Hv).
      apply in_map_iff in Hi. destruct Hi as ([k' u] & Hk' & Hi). cbn in Hk'. subst k'.
      rewrite (Pa _ _ Hi Hk) in Hv. rewrite (Pb _ _ Hi Hk) in Hw. injection Hv as <-. injection Hw as <-. apply Hrefl.
Qed.

(** Instances of different classes are never equal. *)
Lemma c66_class : forall (N : Num) (RN : Rounded N) seed same (c c' : dclass N) name name' T T',
  In (c, name, T) shipped -> In (c', name', T') shipped -> name <> name' ->
  forall nargs nargs' kw kw' next next' a n b n',
  construct seed c nargs kw next = Ok (a, n) -> construct seed c' nargs' kw' next' = Ok (b, n') -> instance_eq same a b = false.
Proof.
  intros N RN seed same c c' name name' T T' HS HS' Hn nargs nargs' kw kw' next next' a n b n' Ha Hb.
  apply (c65_construct N RN seed c name T HS) in Ha. apply (c65_construct N RN seed c' name' T' HS') in Hb.
  destruct Ha as (_ & _ & Ca & _), Hb as (_ & _ & Cb & _). unfold instance_eq. rewrite Ca, Cb.
  destruct (String.eqb_spec name name'); [contradiction|reflexivity].
Qed.

Definition kmeans_with {N : Num} (g : nat) : instance N :=
  Inst "KMeans" [("cbins", bins); ("n_components", int 2); ("init", txt "k-means++"); ("n_init", int 10); ("max_iter", int 300);
    ("tol", flt 1 10000); ("verbose", int 0); ("random_state", PGen g); ("algorithm", txt "auto")]%string.

(** So equal arguments, the seed included, do not give equal decomposers. *)
Lemma c66_same_seed_refuted : forall (N : Num) (same : pval N -> pval N -> bool),
  exists (kw : dict (pval N)) a n b n', construct (fun _ => Ok tt) KMeans 0 kw 0 = Ok (a, n) /\
    construct (fun _ => Ok tt) KMeans 0 kw n = Ok (b, n') /\ instance_eq same a b = false.
Proof.
  intros N same. exists [("random_state"%string, int 42)], (kmeans_with 0), 1, (kmeans_with 1), 2.
  split; [vm_compute; reflexivity|]. split; [vm_compute; reflexivity|].
  unfold instance_eq, kmeans_with. cbn [o_class o_dict values_eq pval_eq Nat.eqb andb]. rewrite ?andb_false_r. reflexivity.
Qed.

Example ex_c66 :
  let same := fun _ _ : pval F64 => true in
  (forall v, same v v = true) /\
  rmap (fun r => rmap (fun r' => instance_eq same (fst r) (fst r')) (construct any_seed JThreshold 0 [] (snd r))) (construct any_seed JThreshold 0 [] 0) = Ok (Ok true) /\
  rmap (fun r => rmap (fun r' => instance_eq same (fst r) (fst r')) (construct any_seed KMeans 0 [("random_state"%string, PGen 9)] (snd r)))
    (construct any_seed KMeans 0 [("random_state"%string, PGen 9)] 0) = Ok (Ok true) /\
  rmap (fun r => rmap (fun r' => instance_eq same (fst r) (fst r')) (construct any_seed KMeans 0 [("random_state"%string, int 42)] (snd r)))
    (construct any_seed KMeans 0 [("random_state"%string, int 42)] 0) = Ok (Ok false).
Proof. split; [reflexivity|]. repeat split; vm_compute; reflexivity. Qed.

(** *** C67 *)

(** No comma in a string. *)
Fixpoint no_comma (s : string) : Prop :=
  match s with EmptyString => True | String c s' => c <> ","%char /\ no_comma s' end.

Lemma cut_comma s s' r r' : no_comma s -> no_comma s' -> (s ++ String ","%char r = s' ++ String ","%char r')%string -> s = s' /\ r = r'.
Proof.
  revert s'. induction s as [|c s IH]; intros [|c' s'] A B H; cbn in *.
  - injection H as <-. auto.
  - injection H as H _. destruct B as [B _]. congruence.
  - injection H as H _. destruct A as [A _]. congruence.
  - injection H as <- H. destruct A as [_ A], B as [_ B]. destruct (IH s' A B H) as [-> ->]. auto.
Qed.

Lemma show_len_no_comma n : no_comma (show_len n).
Proof.
  assert (G : forall d, no_comma (NilEmpty.string_of_uint d)) by (induction d; cbn; auto; split; auto; discriminate).
  unfold show_len, NilZero.string_of_uint. destruct (Nat.to_uint n); try apply G. cbn. split; [discriminate|exact I].
Qed.

Lemma show_len_inj n m : show_len n = show_len m -> n = m.
Proof.
  assert (NN : forall k, Nat.to_uint k <> Decimal.Nil).
  { intros k H. pose proof (Unsigned.of_to k) as E. rewrite H in E. cbn in E. subst k. discriminate. }
  intros H. unfold show_len in H. apply (f_equal NilZero.uint_of_string) in H.
  rewrite !NilZero.usu in H by apply NN. injection H as H. now apply Unsigned.to_uint_inj.
Qed.

Lemma show_len_numeral n : numeral (show_len n) n.
Proof.
  exists (Nat.to_uint n). split; [|apply Unsigned.of_to]. apply NilZero.usu. intros H.
  pose proof (Unsigned.of_to n) as E. rewrite H in E. cbn in E. subst n. discriminate.
Qed.

(** The printed forms: the counts are decimal numerals of the numbers of particles. *)
Lemma c67_printed : forall (N : Num) (show_soft : N -> string),
  (forall g : galaxy N, exists a b c, numeral a (plen (g_stars g)) /\ numeral b (plen (g_dm g)) /\ numeral c (plen (g_gas g)) /\
     galaxy_repr g = ("Galaxy(stars=" ++ a ++ ", dark_matter=" ++ b ++ ", gas=" ++ c ++ ", potential=" ++ truth (g_haspot g) ++ ")")%string) /\
  (forall p : pset N, exists a, numeral a (plen p) /\
     pset_repr show_soft p = ("ParticleSet(" ++ match p_type p with STARS => "STARS" | DARK_MATTER => "DARK_MATTER" | GAS => "GAS" end ++
       ", size=" ++ a ++ ", softening=" ++ show_soft (p_soft p) ++ ", potentials=" ++ truth (p_haspot p) ++ ")")%string).
Proof.
  intros N show_soft. split.
  - intros g. exists (show_len (plen (g_stars g))), (show_len (plen (g_dm g))), (show_len (plen (g_gas g))).
    split; [apply show_len_numeral|]. split; [apply show_len_numeral|]. split; [apply show_len_numeral|]. reflexivity.
  - intros p. exists (show_len (plen p)). split; [apply show_len_numeral|]. unfold pset_repr. destruct (p_type p); reflexivity.
Qed.

Lemma show_bool_inj b c : (show_bool b ++ ")" = show_bool c ++ ")")%string -> b = c.
Proof. destruct b, c; cbn; congruence. Qed.

Lemma append_inj (p a b : string) : (p ++ a = p ++ b)%string -> a = b.
Proof. induction p as [|c p IH]; cbn; [auto|]. intros [= H]. auto. Qed.

(** Two galaxies print alike exactly if they have as many particles of each type and both or
    neither have a potential. *)
Lemma c67_galaxy : forall (N : Num) (g h : galaxy N),
  galaxy_repr g = galaxy_repr h <->
  plen (g_stars g) = plen (g_stars h) /\ plen (g_dm g) = plen (g_dm h) /\ plen (g_gas g) = plen (g_gas h) /\ g_haspot g = g_haspot h.
Proof.
  intros N g h. split.
  - intros H. unfold galaxy_repr in H. apply append_inj in H.
    change (", dark_matter="%string) with (String ","%char " dark_matter="%string) in H.
    change (", gas="%string) with (String ","%char " gas="%string) in H.
    change (", potential="%string) with (String ","%char " potential="%string) in H. cbn [append] in H.
    apply cut_comma in H; [|apply show_len_no_comma..]. destruct H as [H1 H]. apply show_len_inj in H1.
    injection H as H. apply cut_comma in H; [|apply show_len_no_comma..]. destruct H as [H2 H]. apply show_len_inj in H2.
    injection H as H. apply cut_comma in H; [|apply show_len_no_comma..]. destruct H as [H3 H]. apply show_len_inj in H3.
    injection H as H. apply show_bool_inj in H. auto.
  - intros (A & B & C & D). unfold galaxy_repr. now rewrite A, B, C, D.
Qed.

(** Two particle sets of one softening print alike exactly if they have the same type, the
    same number of particles and both or neither have a potential. *)
Lemma c67_set : forall (N : Num) (show_soft : N -> string) (p q : pset N), p_soft p = p_soft q ->
  pset_repr show_soft p = pset_repr show_soft q <-> p_type p = p_type q /\ plen p = plen q /\ p_haspot p = p_haspot q.
Proof.
  intros N show p q S. split.
  - intros H. unfold pset_repr in H. apply append_inj in H.
    change (", size="%string) with (String ","%char " size="%string) in H.
    change (", softening="%string) with (String ","%char " softening="%string) in H. cbn [append] in H.
    apply cut_comma in H; [|destruct (p_type p)|destruct (p_type q)]; [|cbn; repeat split; discriminate..].
    destruct H as [H1 H]. injection H as H. apply cut_comma in H; [|apply show_len_no_comma..]. destruct H as [H2 H].
    apply show_len_inj in H2. injection H as H. rewrite S in H. apply append_inj in H.
    injection H as H. apply show_bool_inj in H. split; [|auto]. destruct (p_type p), (p_type q); cbn in H1; congruence.
  - intros (A & B & C). unfold pset_repr. now rewrite A, B, C, S.
Qed.

(** A decomposer prints as its class name and all its documented hyper-parameters, in the documented
    order, each with what the instance holds under that name. *)
Lemma c67_decomposer : forall (N : Num) (RN : Rounded N) seed (show : pval N -> string) (c : dclass N) name T, In (c, name, T) shipped ->
  forall nargs kw next o next', construct seed c nargs kw next = Ok (o, next') ->
  instance_repr show o =
  (name ++ "(" ++ String.concat ", " (map (fun k => k ++ "=" ++ match dget (o_dict o) k with Some v => show v | None => "" end) (dkeys T)) ++ ")")%string.
Proof.
  intros N RN seed show c name T HS nargs kw next o n H.
  destruct (shipped_ok N c name T HS) as (_ & [ND _] & HT & _). rewrite <- table_keys, HT in ND.
  apply (c65_construct N RN seed c name T HS) in H. destruct H as (_ & _ & HC & (K & _) & _).
  unfold instance_repr. rewrite HC. do 2 f_equal. f_equal. f_equal. rewrite <- K in ND |- *.
  assert (G : forall d : dict (pval N), NoDup (dkeys d) ->
    map (fun kv => (fst kv ++ "=" ++ show (snd kv))%string) d =
    map (fun k => (k ++ "=" ++ match dget d k with Some v => show v | None => "" end)%string) (dkeys d)).
  { intros d. induction d as [|[k v] d IH]; intros HD; [reflexivity|]. inversion HD as [|? ? NI HD']; subst.
    cbn [map dkeys fst snd]. f_equal; [cbn [dget]; now rewrite String.eqb_refl|].
    rewrite (IH HD'). apply map_ext_in. intros k' Hk'. cbn [dget].
    destruct (String.eqb_spec k' k) as [E|E]; [subst; contradiction|reflexivity]. }
  now apply G.
Qed.

(** [angular_momentum_] of a galaxy: stars, dark matter, gas in this order; for each set the
    three components of the cross product of position and velocity, particle by particle. *)
Lemma c67_angular : forall (N : Num) (g : galaxy N), constructible g ->
  exists s d q, galaxy_angular g = [s; d; q] /\
  forall p J, In (p, J) [(g_stars g, s); (g_dm g, d); (g_gas g, q)] ->
  exists a b c, J = [a; b; c] /\ length a = plen p /\ length b = plen p /\ length c = plen p /\
  forall i x y z vx vy vz,
  nth_error (p_x p) i = Some x -> nth_error (p_y p) i = Some y -> nth_error (p_z p) i = Some z ->
  nth_error (p_vx p) i = Some vx -> nth_error (p_vy p) i = Some vy -> nth_error (p_vz p) i = Some vz ->
  nth_error a i = Some (y * vz - z * vy)%num /\ nth_error b i = Some (z * vx - x * vz)%num /\ nth_error c i = Some (x * vy - y * vx)%num.
Proof.
  intros N g (s0 & d0 & q0 & Hs & Hd & Hq & Hg).
  assert (CS : constructible_set (g_stars g) /\ constructible_set (g_dm g) /\ constructible_set (g_gas g)).
  { unfold mk_galaxy in Hg. repeat (match type of Hg with (if ?b then _ else _) = _ => destruct b; [discriminate|] end).
    injection Hg as <-. auto. }
  do 3 eexists. split; [reflexivity|]. intros p J HJ.
  assert (Hp : constructible_set p /\ J = pset_angular p).
  { destruct CS as (A & B & C). cbn in HJ. destruct HJ as [[= <- <-]|[[= <- <-]|[[= <- <-]|[]]]]; auto. }
  destruct Hp as [Hp ->]. exists (p_Jx p), (p_Jy p), (p_Jz p). split; [reflexivity|].
  pose proof (pset_ok_lengths _ (proj1 (constructible_set_ok _) Hp)) as L.
  destruct L as (_ & _ & _ & _ & _ & _ & _ & L1 & L2 & L3 & _).
  split; [exact L1|]. split; [exact L2|]. split; [exact L3|].
  intros i x y z vx vy vz Hx Hy Hz Hvx Hvy Hvz.
  destruct (c03_derived N p i _ _ _ _ _ _ Hp Hx Hy Hz Hvx Hvy Hvz) as (_ & A & B & C & _). auto.
Qed.

Example ex_c67 :
  rmap (pset_repr (fun _ => "0.0")%string) (zset GAS [1; 1] [1; 1] [2; 2] [3; 3] [4; 4] [5; 5] [6; 6] (Some [-100; -7]) 0)%Z =
    Ok "ParticleSet(GAS, size=2, softening=0.0, potentials=True)"%string /\
  rmap (fun p => map shows (pset_angular p)) (zset STARS [1] [1] [2] [3] [4] [5] [6] None 0)%Z = Ok [[sZ (-3)]; [sZ 6]; [sZ (-3)]] /\
  rmap galaxy_repr
    (do s <- zset STARS [1] [1] [2] [3] [4] [5] [6] None 0; do d <- zset DARK_MATTER [] [] [] [] [] [] [] None 0;
     do q <- zset GAS [1; 1] [1; 1] [2; 2] [3; 3] [4; 4] [5; 5] [6; 6] None 0; mk_galaxy s d q)%Z =
    Ok "Galaxy(stars=1, dark_matter=0, gas=2, potential=False)"%string.
Proof. repeat split; vm_compute; reflexivity. Qed.
