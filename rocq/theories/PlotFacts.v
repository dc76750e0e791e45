(** Facts about the model of plot.py. *)
From Verif Require Import Py Num Np Df Data DataFacts DfFacts Circ Base BaseFacts Spec SpecCirc SpecBase Plot SpecPlot.
From Coq Require Import Lia.

(** ** Names in order *)
Lemma ascii_compare_trans a b c : Ascii.compare a b = Lt -> Ascii.compare b c = Lt -> Ascii.compare a c = Lt.
Proof. unfold Ascii.compare. rewrite !N.compare_lt_iff. apply N.lt_trans. Qed.
Lemma ascii_compare_eq a b : Ascii.compare a b = Eq <-> a = b.
Proof.
  unfold Ascii.compare. rewrite N.compare_eq_iff. split; [|congruence].
  intros H. rewrite <- (ascii_N_embedding a), <- (ascii_N_embedding b). now rewrite H.
Qed.
Lemma compare_lt_trans s : forall t u, String.compare s t = Lt -> String.compare t u = Lt -> String.compare s u = Lt.
Proof.
  induction s as [|a s IH]; intros [|b t] [|c u]; simpl; try discriminate; auto.
  destruct (Ascii.compare a b) eqn:E1; try discriminate; destruct (Ascii.compare b c) eqn:E2; try discriminate; intros H1 H2.
  - apply ascii_compare_eq in E1, E2. subst. assert (Ascii.compare c c = Eq) as -> by now apply ascii_compare_eq. eauto.
  - apply ascii_compare_eq in E1. subst. now rewrite E2.
  - apply ascii_compare_eq in E2. subst. now rewrite E1.
  - now rewrite (ascii_compare_trans _ _ _ E1 E2).
Qed.
Lemma compare_refl s : String.compare s s = Eq.
Proof. induction s as [|a s IH]; simpl; [reflexivity|]. assert (Ascii.compare a a = Eq) as -> by now apply ascii_compare_eq. exact IH. Qed.

Inductive incr : list string -> Prop :=
| incr_nil : incr []
| incr_cons s l : Forall (fun t => String.compare s t = Lt) l -> incr l -> incr (s :: l).
Lemma incr_increasing l : incr l -> increasing_names l.
Proof.
  induction 1 as [|s l F I IH]; intros i k a b Hik Ha Hb; [destruct i; discriminate|].
  destruct k as [|k]; [lia|]. simpl in Hb. destruct i as [|i]; simpl in Ha.
  - injection Ha as <-. rewrite Forall_forall in F. apply F. eapply nth_error_In; eauto.
  - apply (IH i k); [lia|exact Ha|exact Hb].
Qed.
Lemma insert_name_In s l k : In k (insert_name s l) <-> k = s \/ In k l.
Proof.
  induction l as [|t l IH]; simpl; [intuition congruence|].
  destruct (String.compare s t) eqn:E; simpl.
  - apply String.compare_eq_iff in E. subst. intuition congruence.
  - intuition congruence.
  - rewrite IH. intuition congruence.
Qed.
Lemma insert_name_incr s l : incr l -> incr (insert_name s l).
Proof.
  induction 1 as [|t l F I IH]; simpl; [repeat constructor|].
  destruct (String.compare s t) eqn:E.
  - now constructor.
  - constructor; [|now constructor]. constructor; [exact E|]. eapply Forall_impl; [|exact F]. intros u. now apply compare_lt_trans.
  - constructor; [|exact IH]. apply Forall_forall. intros u Hu. apply insert_name_In in Hu as [->|Hu].
    + rewrite String.compare_antisym, E. reflexivity.
    + rewrite Forall_forall in F. auto.
Qed.
Lemma unique_names_In l k : In k (unique_names l) <-> In k l.
Proof. induction l as [|s l IH]; simpl; [tauto|]. rewrite insert_name_In, IH. intuition congruence. Qed.
Lemma unique_names_incr l : incr (unique_names l).
Proof. induction l; simpl; [constructor|]. now apply insert_name_incr. Qed.
Lemma incr_NoDup l : incr l -> NoDup l.
Proof.
  induction 1 as [|s l F I IH]; constructor; auto. intros H. rewrite Forall_forall in F. apply F in H. rewrite compare_refl in H. discriminate.
Qed.
Lemma unique_names_dedup l : dedup [] (unique_names l) = unique_names l.
Proof. apply dedup_nodup_id; [apply incr_NoDup, unique_names_incr|auto]. Qed.

(** ** Ranks *)
Lemma firstn_S_nth {A} (d : A) l n : firstn (S n) l = firstn n l ++ (if (n <? length l)%nat then [nth n l d] else []).
Proof.
  revert n; induction l as [|x l IH]; intros n; [now rewrite !firstn_nil|].
  destruct n as [|n]; [reflexivity|]. change (firstn (S (S n)) (x :: l)) with (x :: firstn (S n) l). rewrite IH. reflexivity.
Qed.
Lemma rank_S m i : rank m (S i) = (rank m i + (if nth i m false then 1 else 0))%nat.
Proof.
  unfold rank. rewrite (firstn_S_nth false), filter_app, app_length. f_equal.
  destruct (Nat.ltb_spec i (length m)) as [H|H]; [destruct (nth i m false); reflexivity|]. rewrite nth_overflow by lia. reflexivity.
Qed.
Lemma nth_true m i : nth_error m i = Some true <-> nth i m false = true.
Proof.
  split; [intros H; now apply nth_error_nth|]. intros H. destruct (Nat.lt_ge_cases i (length m)) as [L|L].
  - rewrite (nth_error_nth' m false L). now f_equal.
  - rewrite nth_overflow in H by lia. discriminate.
Qed.
Lemma rank_same m m' : (forall i, nth_error m i = Some true <-> nth_error m' i = Some true) -> forall i, rank m i = rank m' i.
Proof.
  intros H. induction i as [|i IH]; [reflexivity|]. rewrite !rank_S, IH. f_equal.
  specialize (H i). rewrite !nth_true in H. destruct (nth i m false), (nth i m' false); intuition congruence.
Qed.
Lemma rank_beyond m i : (length m <= i)%nat -> rank m i = selected_rows m.
Proof. intros H. unfold rank, selected_rows. now rewrite firstn_all2. Qed.
Lemma selected_same m m' : (forall i, nth_error m i = Some true <-> nth_error m' i = Some true) -> selected_rows m = selected_rows m'.
Proof.
  intros H. rewrite <- (rank_beyond m (length m + length m')) by lia. rewrite <- (rank_beyond m' (length m + length m')) by lia. now apply rank_same.
Qed.
Lemma selected_zero m : selected_rows m = 0%nat <-> forall i, nth_error m i <> Some true.
Proof.
  unfold selected_rows. split.
  - intros H i Hi. apply nth_error_In in Hi. assert (In true (filter (fun b : bool => b) m)) by now apply filter_In. destruct (filter _ m); [contradiction|discriminate].
  - intros H. destruct (filter (fun b : bool => b) m) as [|b l] eqn:E; [reflexivity|].
    assert (In b (filter (fun b : bool => b) m)) as I by (rewrite E; now left). apply filter_In in I as [I ->]. apply In_nth_error in I as [i Hi]. now apply H in Hi.
Qed.
Lemma rank_lt m i : nth_error m i = Some true -> (rank m i < selected_rows m)%nat.
Proof.
  intros H. destruct (Nat.lt_ge_cases i (length m)) as [L|L]; [|apply nth_error_None in L; congruence].
  assert (M : forall k, (rank m (S i) <= rank m (S i + k))%nat).
  { induction k as [|k IH]; [rewrite Nat.add_0_r; lia|]. rewrite Nat.add_succ_r, (rank_S m (S i + k)). lia. }
  specialize (M (length m)). rewrite (rank_beyond m (S i + length m)) in M by lia. rewrite rank_S in M.
  apply nth_true in H. rewrite H in M. lia.
Qed.

Section PlotFacts.
Context {N : Num}.

(** ** Relabelling *)
Lemma cell_eqb_iff (a b : cell N) : cell_eqb a b = true <-> py_equal a b.
Proof.
  split.
  - destruct a, b; simpl; intros H; try discriminate; try (now constructor).
    + apply Z.eqb_eq in H. subst. constructor.
    + apply String.eqb_eq in H. subst. constructor.
  - destruct 1; simpl; auto; [apply Z.eqb_refl|apply String.eqb_refl].
Qed.
Lemma lget_relabels t (c : cell N) : relabels (MDict t) c (lget t c).
Proof.
  unfold lget. destruct (find _ t) as [[k v]|] eqn:E.
  - assert (G : exists before after, t = before ++ (k, v) :: after /\ py_equal c k /\ forall kv, In kv before -> ~ py_equal c (fst kv)).
    { clear - E. induction t as [|[k' v'] t IH]; [discriminate|]. simpl in E. destruct (cell_eqb c k') eqn:Q.
      - injection E as -> ->. exists [], t. split; [reflexivity|]. split; [now apply cell_eqb_iff|intros ? []].
      - destruct (IH E) as (b & a & -> & P & H). exists ((k', v') :: b), a. split; [reflexivity|]. split; [exact P|].
        intros kv [<-|I]; [|auto]. simpl. rewrite <- cell_eqb_iff. congruence. }
    destruct G as (b & a & -> & P & H). simpl. now constructor.
  - constructor. intros kv I. rewrite <- cell_eqb_iff. intros Q. pose proof (find_none _ _ E _ I) as H. simpl in H. congruence.
Qed.

Definition over (f : string -> list (cell N)) (h : string) (c : list (cell N)) (a : string) : list (cell N) := if String.eqb a h then c else f a.
Lemma apply_lmap_eq (d : df N) h m : h <> ""%string -> apply_lmap d (Some h) m =
  match m with
  | MNone => Ok d
  | MDict t => do c <- get_col d h; Ok (set_col d h (map (lget t) c))
  | MFun f => do c <- get_col d h; do c' <- mapM f c; Ok (set_col d h c')
  end.
Proof. intros H. destruct h; [contradiction|]. destruct m; reflexivity. Qed.
Lemma apply_lmap_ok n (f : string -> list (cell N)) ks h m d : NoDup ks -> In h ks -> h <> ""%string ->
  apply_lmap (mkDf n (keyed f ks)) (Some h) m = Ok d ->
  exists c', Forall2 (relabels m) (f h) c' /\ d = mkDf n (keyed (over f h c') ks).
Proof.
  intros Hn Hh He H. rewrite apply_lmap_eq in H by auto. assert (G : get_col (mkDf n (keyed f ks)) h = Ok (f h)).
  { unfold get_col. simpl. rewrite dget_keyed. apply smem_In in Hh. now rewrite Hh. }
  destruct m as [|t|g].
  - injection H as <-. exists (f h). split; [|f_equal; apply map_ext; intros a; unfold over; destruct (String.eqb_spec a h) as [->|]; reflexivity].
    clear. induction (f h); constructor; [constructor|auto].
  - rewrite G in H. cbn [bind] in H. injection H as <-. exists (map (lget t) (f h)). split.
    + clear. induction (f h); constructor; [apply lget_relabels|auto].
    + unfold set_col. simpl. f_equal. now apply dset_keyed_over.
  - rewrite G in H. cbn [bind] in H. apply bind_ok in H as (c' & Hc & H). injection H as <-. exists c'. split.
    + apply mapM_ok in Hc. clear - Hc. induction Hc; constructor; [now constructor|auto].
    + unfold set_col. simpl. f_equal. now apply dset_keyed_over.
Qed.
Lemma apply_lmap_total n (f : string -> list (cell N)) ks h m : In h ks -> total_map m -> exists d, apply_lmap (mkDf n (keyed f ks)) (Some h) m = Ok d.
Proof.
  intros Hh Ht. assert (G : get_col (mkDf n (keyed f ks)) h = Ok (f h)).
  { unfold get_col. simpl. rewrite dget_keyed. apply smem_In in Hh. now rewrite Hh. }
  unfold apply_lmap. destruct h as [|ch h0], m as [|t|g]; eauto; rewrite G; cbn [bind]; eauto.
  assert (exists c', mapM g (f (String ch h0)) = Ok c') as [c' ->]; [|cbn [bind]; eauto].
  clear - Ht. induction (f (String ch h0)) as [|c l [c' IH]]; simpl; [eauto|]. destruct (Ht c) as [x ->]. cbn [bind]. rewrite IH. cbn [bind]. eauto.
Qed.

(** ** Insertion *)
Definition inserted (f : string -> list (cell N)) (n : nat) (vs : list (cell N)) : string -> list (cell N) :=
  over (if (n =? 0)%nat then fun _ => repeat cnan (length vs) else f) "Labels" vs.
Lemma insert_first_keyed n (f : string -> list (cell N)) ks vs : ~ In "Labels"%string ks ->
  insert_first (mkDf n (keyed f ks)) "Labels" vs =
  if ((n =? 0) || (length vs =? n))%nat then Ok (mkDf (length vs) (keyed (inserted f n vs) ("Labels"%string :: ks))) else Raise ValueError.
Proof.
  intros H. unfold insert_first. cbn [cols nrows]. rewrite dkeys_keyed. assert (smem "Labels" ks = false) as -> by now apply smem_false.
  cbn [negb guard bind]. unfold inserted.
  assert (K : forall f', keyed (over f' "Labels" vs) ("Labels"%string :: ks) = ("Labels"%string, vs) :: keyed f' ks).
  { intros f'. unfold keyed. simpl. f_equal. apply map_ext_in. intros a Ha. unfold over. destruct (String.eqb_spec a "Labels") as [->|]; [contradiction|reflexivity]. }
  destruct (Nat.eqb_spec n 0) as [->|Hn]; cbn [orb].
  - rewrite K. simpl. rewrite Nat.eqb_refl. cbn [guard bind]. unfold keyed. rewrite map_map. reflexivity.
  - rewrite K. simpl. destruct (Nat.eqb_spec (length vs) n) as [E|E]; cbn [guard bind]; [|reflexivity]. rewrite E. reflexivity.
Qed.

Lemma cell_keyed n (f : string -> list (cell N)) ks k i : In k ks -> cell_at (mkDf n (keyed f ks)) k i = nth_error (f k) i.
Proof. intros H. unfold cell_at. simpl. rewrite dget_keyed. apply smem_In in H. now rewrite H. Qed.

Lemma Forall2_nth {A B} (R : A -> B -> Prop) l l' i a : Forall2 R l l' -> nth_error l i = Some a -> exists b, nth_error l' i = Some b /\ R a b.
Proof.
  intros H; revert i; induction H as [|x y l l' Hxy H IH]; intros i E; [destruct i; discriminate|].
  destruct i as [|i]; simpl in *; [injection E as <-; eauto|auto].
Qed.

(** ** The common end of both helpers: colours by a column of the frame, or by an array. *)
Lemma by_name n (f : string -> list (cell N)) ks s m d : NoDup ks -> In s ks -> s <> ""%string -> (forall k, In k ks -> length (f k) = n) ->
  apply_lmap (mkDf n (keyed f ks)) (Some s) m = Ok d ->
  nrows d = n /\ wf_df d /\ dkeys (cols d) = ks /\
  (forall k i, In k ks -> k <> s -> cell_at d k i = nth_error (f k) i) /\
  (forall i c, nth_error (f s) i = Some c -> exists c', cell_at d s i = Some c' /\ relabels m c c').
Proof.
  intros Hn Hs He Hl H. apply apply_lmap_ok in H as (c' & F & ->); auto. pose proof (Forall2_length _ _ _ F) as L.
  split; [reflexivity|]. split; [|split; [apply dkeys_keyed|split]].
  - apply keyed_wf. intros k Hk. unfold over. destruct (String.eqb_spec k s) as [->|]; [rewrite <- L; auto|auto].
  - intros k i Hk D. rewrite cell_keyed by auto. unfold over. apply String.eqb_neq in D. now rewrite D.
  - intros i c Hc. destruct (Forall2_nth _ _ _ _ _ F Hc) as (b & Hb & R). exists b. split; [|exact R].
    rewrite cell_keyed by auto. unfold over. now rewrite String.eqb_refl.
Qed.
Lemma by_array n (f : string -> list (cell N)) ks vs m d : NoDup ks -> ~ In "Labels"%string ks -> (forall k, In k ks -> length (f k) = n) ->
  (do d <- insert_first (mkDf n (keyed f ks)) "Labels" vs; apply_lmap d (Some "Labels"%string) m) = Ok d ->
  (n = 0%nat \/ length vs = n) /\ nrows d = length vs /\ wf_df d /\ dkeys (cols d) = "Labels"%string :: ks /\
  (forall k i, In k ks -> n <> 0%nat -> cell_at d k i = nth_error (f k) i) /\
  (forall k i, In k ks -> n = 0%nat -> (i < length vs)%nat -> cell_at d k i = Some cnan) /\
  (forall i c, nth_error vs i = Some c -> exists c', cell_at d "Labels" i = Some c' /\ relabels m c c').
Proof.
  intros Hn HL Hl H. rewrite insert_first_keyed in H by auto.
  destruct ((n =? 0) || (length vs =? n))%nat eqn:E; [|discriminate]. cbn [bind] in H.
  assert (C : n = 0%nat \/ length vs = n).
  { apply orb_prop in E as [E|E]; apply Nat.eqb_eq in E; auto. }
  assert (IL : inserted f n vs "Labels" = vs) by reflexivity.
  assert (IK : forall k, In k ks -> inserted f n vs k = if (n =? 0)%nat then repeat cnan (length vs) else f k).
  { intros k Hk. unfold inserted, over. destruct (String.eqb_spec k "Labels") as [->|]; [contradiction|]. destruct (n =? 0)%nat; reflexivity. }
  apply by_name in H; [|now constructor|now left|discriminate|].
  - destruct H as (H1 & H2 & H3 & H4 & H5). rewrite IL in H5. repeat (split; [assumption|]).
    assert (NL : forall k, In k ks -> k <> "Labels"%string) by (intros k Hk ->; contradiction).
    split; [|split; [|exact H5]].
    + intros k i Hk Hz. rewrite H4 by (simpl; auto). rewrite IK by auto. apply Nat.eqb_neq in Hz. now rewrite Hz.
    + intros k i Hk Hz Hi. rewrite H4 by (simpl; auto). rewrite IK by auto. rewrite Hz. simpl. now apply nth_error_repeat.
  - intros k [<-|Hk]; [now rewrite IL|]. rewrite IK by auto. destruct (Nat.eqb_spec n 0) as [->|Z]; [apply repeat_length|]. rewrite Hl by auto. lia.
Qed.
Lemma by_array_total n (f : string -> list (cell N)) ks vs m : ~ In "Labels"%string ks -> total_map m -> n = 0%nat \/ length vs = n ->
  exists d, (do d <- insert_first (mkDf n (keyed f ks)) "Labels" vs; apply_lmap d (Some "Labels"%string) m) = Ok d.
Proof.
  intros HL Ht C. rewrite insert_first_keyed by auto.
  assert (((n =? 0) || (length vs =? n))%nat = true) as -> by (destruct C as [->| <-]; rewrite Nat.eqb_refl; [reflexivity|apply orb_true_r]).
  cbn [bind]. apply apply_lmap_total; [now left|auto].
Qed.
End PlotFacts.
