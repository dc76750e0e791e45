(** Plots (C55 to C57, C60). *)
From Verif Require Import Py Num RX F64 Np Df Data DataFacts DfFacts RebuildFacts CenterFacts Ex Spec SpecR SpecCirc SpecBase DataThms CircThms Base BaseFacts BaseThms Circ Threshold ThresholdThms Plot SpecPlot PlotFacts.
From Coq Require Import Lia Lra.
From Flocq Require Import Core.Raux.
From Coq Require Import Floats.SpecFloat.

(** A plot is dispatched exactly if it is one of the eight kinds; every other name, private,
    a helper or unknown, raises ValueError. *)
Lemma c55_dispatch : forall kind : string,
  (In kind plot_kinds -> plot_call kind = Ok kind) /\
  (~ In kind plot_kinds -> plot_call kind = Raise ValueError).
Proof.
  intros kind. split.
  - intros H. repeat (destruct H as [<-|H]; [reflexivity|]). destruct H.
  - intros H. unfold plot_call. destruct (String.prefix "_" kind || smem kind forbidden_kinds) eqn:E; [reflexivity|].
    cbn [negb guard bind]. destruct (smem kind public_methods) eqn:P; [|reflexivity]. exfalso. apply H.
    apply orb_false_elim in E as [_ E]. apply smem_false in E. apply smem_In in P. clear H.
    unfold forbidden_kinds, public_methods, plot_kinds in *. simpl in *. tauto.
Qed.

(** A kind, a private name, a helper, an unknown name, and a name that only ends like one. *)
Example ex_c55 : plot_call "circ_kde" = Ok "circ_kde"%string /\ plot_call "_galaxy" = Raise ValueError /\
  plot_call "get_df_and_hue" = Raise ValueError /\ plot_call "violin" = Raise ValueError /\ plot_call "" = Raise ValueError.
Proof. repeat split; reflexivity. Qed.

Section Frames.
Context {N : Num}.

Definition base_names (default : list string) (a : option (list string)) (l : plabels N) : list string :=
  match l with LName s => unique_names (match a with None => default | Some a => a end ++ [s]) | _ => match a with None => default | Some a => a end end.
Lemma base_names_In df a (l : plabels N) k : In k (base_names df a l) <-> In k (needed df a l).
Proof. destruct l; unfold base_names, needed; rewrite ?unique_names_In, ?app_nil_r; tauto. Qed.
Lemma base_names_nil df a (l : plabels N) : base_names df a l = [] <-> needed df a l = [].
Proof.
  split; intros H.
  - destruct (needed df a l) as [|k r] eqn:E; [reflexivity|]. assert (In k (base_names df a l)) as I by (apply base_names_In; rewrite E; now left). rewrite H in I. destruct I.
  - destruct (base_names df a l) as [|k r] eqn:E; [reflexivity|]. assert (In k (needed df a l)) as I by (apply base_names_In; rewrite E; now left). rewrite H in I. destruct I.
Qed.

(** The common end. *)
Definition finish (d : df N) (labels : plabels N) (vs : list (cell N) -> res (list (cell N))) (m : plmap N) : res (df N * option string) :=
  do dh <- match unpack_labels labels with
           | LName s => Ok (d, Some s)
           | LArr l => do l <- vs l; do d <- insert_first d "Labels" l; Ok (d, Some "Labels"%string)
           | _ => Ok (d, None)
           end;
  let '(d, hue) := dh in
  do d <- apply_lmap d hue m;
  Ok (d, hue).
Lemma finish_none d vs m : finish d LNone vs m = Ok (d, None).
Proof. reflexivity. Qed.
Lemma finish_name d s vs m : finish d (LName s) vs m = do d <- apply_lmap d (Some s) m; Ok (d, Some s).
Proof. reflexivity. Qed.
Lemma finish_array d labels l vs m : label_values labels = Some l ->
  finish d labels vs m = do l <- vs l; do d <- (do d <- insert_first d "Labels" l; apply_lmap d (Some "Labels"%string) m); Ok (d, Some "Labels"%string).
Proof.
  destruct labels as [|s|c|l']; try discriminate; intros [= <-]; unfold finish; cbn [unpack_labels].
  - destruct (vs _) as [w|]; [|reflexivity]. cbn [bind]. destruct (insert_first d "Labels" w); reflexivity.
  - destruct (vs _) as [w|]; [|reflexivity]. cbn [bind]. destruct (insert_first d "Labels" w); reflexivity.
Qed.

Definition xyz : list string := ["x"; "y"; "z"]%string.
Lemma get_df_eq (g : galaxy N) sel a labels m :
  get_df_and_hue g sel a labels m = do d <- to_df g sel (Some (base_names xyz a labels)); finish d labels (fun l => Ok l) m.
Proof.
  unfold get_df_and_hue, finish. destruct labels as [|s|c|l]; cbn [unpack_labels base_names];
    (destruct (to_df g sel _); [|reflexivity]); cbn [bind]; reflexivity.
Qed.

Lemma kept_rows (kept : list (pset N)) k : (forall p, In p kept -> pset_ok p) -> length (flat_map (fun p => pcol p k) kept) = list_sum (map plen kept).
Proof.
  intros OK. induction kept as [|p l IH]; [reflexivity|]. simpl. rewrite app_length, pcol_length, IH by (intros; apply OK; simpl; auto). reflexivity.
Qed.
Lemma kept_ok (g : galaxy N) sel p : gal_ok g -> In p (filter (selected sel) (psets g)) -> pset_ok p.
Proof. intros Hg Hp. apply filter_In in Hp as [Hp _]. now apply (sets_ok g). Qed.

Lemma scalar_dec hp k : {scalar_attr hp k} + {~ scalar_attr hp k}.
Proof.
  unfold scalar_attr. destruct (string_dec k "softening"); [left; auto|].
  destruct hp; [right; intuition discriminate|].
  destruct (string_dec k "potential"); [left; auto|].
  destruct (string_dec k "total_energy"); [left; auto|]. right; intuition.
Qed.
Lemma scalars_dec hp l : {k | In k l /\ ~ scalar_attr hp k} + {forall k, In k l -> scalar_attr hp k}.
Proof.
  induction l as [|k l [(k' & Hk & Hs)|IH]].
  - right. intros k [].
  - left. exists k'. simpl; auto.
  - destruct (scalar_dec hp k) as [S|S]; [right; intros k' [<-|H]; auto|left; exists k; simpl; auto].
Qed.
Lemma known_dec l : {k | In k l /\ ~ known_attr k} + {forall k, In k l -> known_attr k}.
Proof.
  induction l as [|k l [(k' & Hk & Hs)|IH]].
  - right. intros k [].
  - left. exists k'. simpl; auto.
  - destruct (in_dec string_dec k all_attributes) as [S|S]; [right; intros k' [<-|H]; auto|left; exists k; simpl; auto].
Qed.

(** The frame before the labels. *)
Lemma base_frame (g : galaxy N) sel names d : gal_ok g -> to_df g sel (Some names) = Ok d ->
  let kept := filter (selected sel) (psets g) in
  kept <> [] /\ (forall k, In k names -> known_attr k) /\ (names = [] \/ exists k, In k names /\ ~ scalar_attr (g_haspot g) k) /\
  d = mkDf (match names with [] => 0 | _ => list_sum (map plen kept) end)%nat (keyed (fun k => flat_map (fun p => pcol p k) kept) (dedup [] names)).
Proof.
  intros Hg H kept. destruct (to_df_cases g sel (Some names) Hg) as (C1 & C2 & C3 & C4 & C5). fold kept in C1, C2, C3, C4, C5. simpl attrs_of in *.
  assert (K : kept <> []) by (intros E; rewrite C1 in H by auto; discriminate). split; [exact K|].
  destruct (known_dec names) as [(k & Hk & Hu)|HK].
  { rewrite C2 in H; [discriminate|auto|]. intros I. apply Hu. exact (I k Hk). }
  split; [exact HK|]. destruct names as [|n0 names].
  { split; [now left|]. rewrite C3 in H by auto. injection H as <-. reflexivity. }
  destruct (scalars_dec (g_haspot g) (n0 :: names)) as [(k & Hk & Hs)|HS].
  - split; [right; eauto|]. rewrite C5 in H by eauto. injection H as <-. reflexivity.
  - rewrite C4 in H; [discriminate|auto|auto|discriminate|auto].
Qed.
Lemma labels_unknown names : (forall k, In k names -> known_attr k) -> ~ In "Labels"%string (dedup [] names).
Proof.
  intros H I. apply dedup_In in I as [I _]. apply H in I. unfold known_attr in I. simpl in I.
  repeat (destruct I as [I|I]; [discriminate|]). exact I.
Qed.
Lemma known_nonempty : ~ known_attr "".
Proof. intros I. unfold known_attr in I. simpl in I. repeat (destruct I as [I|I]; [discriminate|]). exact I. Qed.
End Frames.

(** The frame of the plots: one row per particle of the wanted types in galaxy order, with the
    values of its attributes; the column that gives the colours, an attribute or the array,
    holds the labels as [lmap] shows them, everything else is untouched. *)
Lemma c56_rows : forall (N : Num) (g : galaxy N) sel a labels m d h (keep : pset N -> bool),
  constructible g -> get_df_and_hue g sel a labels m = Ok (d, h) -> (forall p, keep p = true <-> wanted sel p) ->
  let kept := filter keep (sets g) in
  let rows := list_sum (map plen kept) in
  let names := needed ["x"; "y"; "z"]%string a labels in
  names <> [] -> rows <> 0%nat ->
  h = hue_name labels /\ nrows d = rows /\ wf_df d /\
  (forall before p after i, kept = before ++ p :: after -> (i < plen p)%nat ->
     let r := (list_sum (map plen before) + i)%nat in
     (forall k, In k names -> Some k <> h -> attr_value p k i <> None /\ cell_at d k r = attr_value p k i) /\
     (forall s, labels = LName s -> exists c c', attr_value p s i = Some c /\ cell_at d s r = Some c' /\ relabels m c c')) /\
  (forall l, label_values labels = Some l -> length l = rows /\
     forall r c, nth_error l r = Some c -> exists c', cell_at d "Labels" r = Some c' /\ relabels m c c').
Proof.
  intros N g sel a labels m d h keep Hg H Hk kept rows names Hn Hr. rewrite get_df_eq in H. apply bind_ok in H as (b & Hb & H).
  apply constructible_ok in Hg. pose proof (base_frame _ _ _ _ Hg Hb) as (K & KA & _ & Eb).
  assert (EK : kept = filter (selected sel) (psets g)) by (unfold kept; rewrite (keep_selected sel keep Hk); reflexivity).
  rewrite <- EK in *. set (nm := base_names xyz a labels) in *.
  assert (NM : forall k, In k names <-> In k nm) by (intros k; unfold names, nm; rewrite base_names_In; tauto).
  assert (NN : nm <> []) by (intros E; apply Hn; apply base_names_nil in E; exact E).
  assert (OK : forall p, In p kept -> pset_ok p) by (intros p Hp; rewrite EK in Hp; now apply (kept_ok g sel)).
  replace (match nm with [] => 0%nat | _ => list_sum (map plen kept) end) with rows in Eb by (destruct nm; [contradiction|reflexivity]).
  set (f := fun k => flat_map (fun p => pcol p k) kept) in *.
  assert (FL : forall k, In k (dedup [] nm) -> length (f k) = rows) by (intros k _; unfold f; now apply kept_rows).
  assert (CV : forall before p after i k, kept = before ++ p :: after -> (i < plen p)%nat -> In k nm ->
     attr_value p k i <> None /\ nth_error (f k) (list_sum (map plen before) + i) = attr_value p k i).
  { intros before p after i k E Hi Ik. assert (Hp : pset_ok p) by (apply OK; rewrite E; apply in_or_app; simpl; auto).
    unfold f. rewrite E. rewrite <- (kept_rows before k) by (intros q Hq; apply OK; rewrite E; apply in_or_app; auto).
    assert (LE : forall l : list (pset N), length (flat_map (fun q => pcol q k) l) = list_sum (map (fun q => length (pcol q k)) l)).
    { clear. induction l; simpl; [reflexivity|]. rewrite app_length. congruence. }
    rewrite LE, nth_error_flat_map by (rewrite pcol_length; auto). destruct (pcol_attr p k i Hp (KA k Ik) Hi) as [A B]. split; [exact B|exact A]. }
  assert (DD : forall k, In k nm -> In k (dedup [] nm)) by (intros k Ik; apply dedup_In; simpl; tauto).
  destruct (label_values labels) as [l|] eqn:EL.
  - rewrite (finish_array _ _ l) in H by auto. cbn [bind] in H. apply bind_ok in H as (d' & H & E). injection E as <- <-. rewrite Eb in H.
    apply by_array in H; [|apply dedup_NoDup|now apply labels_unknown|exact FL]. destruct H as (H1 & H2 & H3 & H4 & H5 & H6 & H7).
    destruct H1 as [H1|H1]; [contradiction|]. split; [destruct labels; try discriminate; reflexivity|]. split; [congruence|]. split; [exact H3|]. split.
    + intros before p after i E Hi r. split.
      * intros k Ik _. apply NM in Ik. rewrite H5 by auto. eapply CV; eauto.
      * intros s ->. discriminate.
    + intros l' [= <-]. auto.
  - destruct labels as [|s|c|l]; try discriminate.
    + rewrite finish_none in H. injection H as <- <-. split; [reflexivity|]. rewrite Eb. split; [reflexivity|].
      split; [now apply keyed_wf|]. split; [|discriminate]. intros before p after i E Hi r. split; [|discriminate].
      intros k Ik _. apply NM in Ik. rewrite cell_keyed by auto. eapply CV; eauto.
    + rewrite finish_name in H. apply bind_ok in H as (d' & H & E). injection E as <- <-. rewrite Eb in H.
      assert (Is : In s nm) by (apply NM; unfold names, needed; apply in_or_app; right; now left).
      apply by_name in H; [|apply dedup_NoDup|auto|intros ->; now apply known_nonempty, KA|exact FL].
      destruct H as (H1 & H2 & H3 & H4 & H5). split; [reflexivity|]. split; [exact H1|]. split; [exact H2|]. split; [|discriminate].
      intros before p after i E Hi r. split.
      * intros k Ik D. apply NM in Ik. rewrite H4 by (auto; intros ->; now apply D). eapply CV; eauto.
      * intros s' [= <-]. destruct (CV before p after i s E Hi Is) as [A B]. destruct (attr_value p s i) as [c|] eqn:Ec; [|contradiction].
        destruct (H5 _ _ B) as (c' & C1 & C2). eauto 6.
Qed.

(** Its columns: "Labels" first if the labels are an array, then the attributes in the order
    they were asked for, each once; in alphabetical order if the label is an attribute. *)
Lemma c56_columns : forall (N : Num) (g : galaxy N) sel a labels m d h,
  constructible g -> get_df_and_hue g sel a labels m = Ok (d, h) ->
  let asked := match a with None => ["x"; "y"; "z"]%string | Some a => a end in
  (labels = LNone -> dkeys (cols d) = first_occurrences asked) /\
  (forall l, label_values labels = Some l -> dkeys (cols d) = "Labels"%string :: first_occurrences asked) /\
  (forall s, labels = LName s -> increasing_names (dkeys (cols d)) /\ forall k, In k (dkeys (cols d)) <-> k = s \/ In k asked).
Proof.
  intros N g sel a labels m d h Hg H asked. rewrite get_df_eq in H. apply bind_ok in H as (b & Hb & H).
  apply constructible_ok in Hg. pose proof (base_frame _ _ _ _ Hg Hb) as (K & KA & _ & Eb).
  set (kept := filter (selected sel) (psets g)) in *. set (n := match base_names xyz a labels with [] => _ | _ => _ end) in Eb. clearbody n.
  split; [|split].
  - intros ->. rewrite finish_none in H. injection H as <- <-. rewrite Eb. simpl. rewrite dkeys_keyed. apply dedup_first.
  - intros l EL. rewrite (finish_array _ _ l) in H by auto. cbn [bind] in H. apply bind_ok in H as (d' & H & E). injection E as <- <-. rewrite Eb in H.
    rewrite insert_first_keyed in H by now apply labels_unknown. destruct (_ || _); [|discriminate]. cbn [bind] in H.
    assert (BN : base_names xyz a labels = asked) by (destruct labels; try discriminate; reflexivity). rewrite BN in *.
    apply apply_lmap_ok in H; [|constructor; [now apply labels_unknown|apply dedup_NoDup]|now left|discriminate].
    destruct H as (c' & _ & ->). simpl. rewrite dkeys_keyed. f_equal. apply dedup_first.
  - intros s ->. rewrite finish_name in H. apply bind_ok in H as (d' & H & E). injection E as <- <-. rewrite Eb in H.
    assert (Is : In s (base_names (N:=N) xyz a (LName s))) by (apply base_names_In; apply in_or_app; right; now left).
    apply apply_lmap_ok in H; [|apply dedup_NoDup|apply dedup_In; simpl; tauto|intros ->; now apply known_nonempty, KA].
    destruct H as (c' & _ & ->). simpl. rewrite dkeys_keyed. cbn [base_names]. rewrite unique_names_dedup. split.
    + apply incr_increasing, unique_names_incr.
    + intros k. rewrite unique_names_In, in_app_iff. simpl. unfold asked, xyz. intuition congruence.
Qed.

(** When there is a frame: no wanted type is a ValueError, an unknown name a KeyError, only
    single-valued attributes a ValueError; then an array of another length than the frame is
    a ValueError, and everything else succeeds if [lmap] does. *)
Lemma c56_errors : forall (N : Num) (g : galaxy N) sel a labels m (keep : pset N -> bool),
  constructible g -> (forall p, keep p = true <-> wanted sel p) ->
  let kept := filter keep (sets g) in
  let rows := list_sum (map plen kept) in
  let names := needed ["x"; "y"; "z"]%string a labels in
  (kept = [] -> get_df_and_hue g sel a labels m = Raise ValueError) /\
  (kept <> [] -> (exists k, In k names /\ ~ known_attr k) -> get_df_and_hue g sel a labels m = Raise KeyError) /\
  (kept <> [] -> (forall k, In k names -> known_attr k) -> names <> [] ->
     (forall k, In k names -> scalar_attr (g_haspot g) k) -> get_df_and_hue g sel a labels m = Raise ValueError) /\
  (kept <> [] -> (forall k, In k names -> known_attr k) -> (exists k, In k names /\ ~ scalar_attr (g_haspot g) k) ->
     (forall l, label_values labels = Some l -> rows <> 0%nat -> length l <> rows -> get_df_and_hue g sel a labels m = Raise ValueError) /\
     ((forall l, label_values labels = Some l -> length l = rows) -> total_map m ->
        exists d, get_df_and_hue g sel a labels m = Ok (d, hue_name labels))).
Proof.
  intros N g sel a labels m keep Hg Hk kept rows names. apply constructible_ok in Hg. rewrite get_df_eq.
  assert (EK : kept = filter (selected sel) (psets g)) by (unfold kept; rewrite (keep_selected sel keep Hk); reflexivity).
  set (nm := base_names xyz a labels) in *.
  assert (NM : forall k, In k names <-> In k nm) by (intros k; unfold names, nm; rewrite base_names_In; tauto).
  destruct (to_df_cases g sel (Some nm) Hg) as (C1 & C2 & C3 & C4 & C5). rewrite <- EK in *. simpl attrs_of in *.
  split; [intros E; now rewrite C1 by auto|]. split.
  { intros Ke (k & Ik & Uk). rewrite C2; [reflexivity|auto|]. intros I. apply Uk. apply I, NM, Ik. }
  split.
  { intros Ke KA Ne Sc. rewrite C4; [reflexivity|auto|intros k Ik; apply KA, NM, Ik| |intros k Ik; apply Sc, NM, Ik].
    intros E. apply Ne. apply base_names_nil in E. exact E. }
  intros Ke KA (k & Ik & Sk). rewrite C5; [|auto|intros q Iq; apply KA, NM, Iq|exists k; split; [now apply NM|auto]]. cbn [bind].
  assert (KA' : forall k, In k nm -> known_attr k) by (intros q Iq; apply KA, NM, Iq). split.
  - intros l EL R D. rewrite (finish_array _ _ l) by auto. cbn [bind]. rewrite insert_first_keyed by now apply labels_unknown. fold rows.
    apply Nat.eqb_neq in R, D. rewrite R, D. reflexivity.
  - intros L T. destruct (label_values labels) as [l|] eqn:EL.
    + rewrite (finish_array _ _ l) by auto. cbn [bind]. fold rows.
      destruct (by_array_total rows (fun k => flat_map (fun p => pcol p k) kept) (dedup [] nm) l m) as [d ->]; [now apply labels_unknown|auto|auto|].
      exists d. destruct labels; try discriminate; reflexivity.
    + destruct labels as [|s|c|l]; try discriminate; [rewrite finish_none; eexists; reflexivity|]. rewrite finish_name.
      destruct (apply_lmap_total rows (fun k => flat_map (fun p => pcol p k) kept) (dedup [] nm) s m) as [d Hd]; [|exact T|fold rows; rewrite Hd; exists d; reflexivity].
      apply dedup_In. simpl. split; [|tauto]. apply NM. unfold names, needed. apply in_or_app. right. now left.
Qed.

(** A frame without rows, because the wanted types have no particles or no attribute was
    asked for, takes an array of any length: as many rows of NaN as there are labels. *)
Lemma c56_blank : forall (N : Num) (g : galaxy N) sel a labels l m (keep : pset N -> bool),
  constructible g -> (forall p, keep p = true <-> wanted sel p) -> label_values labels = Some l -> total_map m ->
  let kept := filter keep (sets g) in
  let names := needed ["x"; "y"; "z"]%string a labels in
  kept <> [] -> (forall k, In k names -> known_attr k) ->
  (names = [] \/ list_sum (map plen kept) = 0%nat /\ exists k, In k names /\ ~ scalar_attr (g_haspot g) k) ->
  exists d, get_df_and_hue g sel a labels m = Ok (d, Some "Labels"%string) /\ nrows d = length l /\
    (forall k r, In k names -> (r < length l)%nat -> cell_at d k r = Some (CNum nnan)) /\
    (forall r c, nth_error l r = Some c -> exists c', cell_at d "Labels" r = Some c' /\ relabels m c c').
Proof.
  intros N g sel a labels l m keep Hg Hk EL T kept names Ke KA D. apply constructible_ok in Hg. rewrite get_df_eq.
  assert (EK : kept = filter (selected sel) (psets g)) by (unfold kept; rewrite (keep_selected sel keep Hk); reflexivity).
  set (nm := base_names xyz a labels) in *.
  assert (NM : forall k, In k names <-> In k nm) by (intros k; unfold names, nm; rewrite base_names_In; tauto).
  assert (KA' : forall k, In k nm -> known_attr k) by (intros q Iq; apply KA, NM, Iq).
  destruct (to_df_cases g sel (Some nm) Hg) as (C1 & C2 & C3 & C4 & C5). rewrite <- EK in *. simpl attrs_of in *.
  set (f := fun k => flat_map (fun p => pcol p k) kept) in *.
  assert (B : to_df g sel (Some nm) = Ok (mkDf 0 (keyed f (dedup [] nm))) /\ (forall k, In k (dedup [] nm) -> length (f k) = 0%nat)).
  { destruct D as [D|(D & k & Ik & Sk)].
    - assert (E : nm = []) by (apply base_names_nil; exact D). rewrite E in *. split; [now apply C3|intros k []].
    - split; [rewrite C5; [rewrite D; reflexivity|auto|intros q Iq; apply KA', Iq|exists k; split; [now apply NM|auto]]|].
      intros q _. unfold f. rewrite kept_rows; [exact D|]. intros p Hp. rewrite EK in Hp. now apply (kept_ok g sel). }
  destruct B as [B FL]. rewrite B. cbn [bind]. rewrite (finish_array _ _ l) by auto. cbn [bind].
  destruct (by_array_total 0 f (dedup [] nm) l m) as [d Hd]; [now apply labels_unknown|auto|auto|]. rewrite Hd. exists d. split; [reflexivity|].
  apply by_array in Hd; [|apply dedup_NoDup|now apply labels_unknown|exact FL]. destruct Hd as (_ & H2 & H3 & H4 & H5 & H6 & H7).
  split; [exact H2|]. split; [|exact H7]. intros k r Ik Hr. apply H6; auto. apply dedup_In. simpl. split; [|tauto]. now apply NM.
Qed.

(** The result of a decomposition as labels, all particles drawn: the row of every particle
    shows its own attributes and its own label. *)
Lemma c56_components : forall (N : Num) (RN : Rounded N) argsort St (D : decomposer N St) st (g : galaxy N) c st' a,
  constructible g -> one_row_each g (d_attributes D) -> decompose argsort D st g = Ok (c, st') ->
  let names := match a with None => ["x"; "y"; "z"]%string | Some a => a end in
  (forall k, In k names -> known_attr k) -> (exists k, In k names /\ ~ scalar_attr (g_haspot g) k) ->
  exists d, get_df_and_hue g PTNone a (LComp c) MNone = Ok (d, Some "Labels"%string) /\
    forall i p k, located g i p k ->
      cell_at d "Labels" i = option_map CNum (nth_error (c_labels c) i) /\
      forall n, In n names -> attr_value p n k <> None /\ cell_at d n i = attr_value p n k.
Proof.
  intros N RN argsort St D st g c st' a Hg O Hd names KA SA.
  destruct (c35_aligned N RN argsort St D st g c st' Hg O Hd) as (L & _).
  assert (KT : forall p : pset N, (fun _ => true) p = true <-> wanted PTNone p) by (intros; simpl; tauto).
  assert (FT : filter (fun _ : pset N => true) (sets g) = sets g) by reflexivity.
  assert (NE : needed ["x"; "y"; "z"]%string a (LComp c) = names) by (unfold needed; rewrite app_nil_r; reflexivity).
  destruct (c56_errors N g PTNone a (LComp c) MNone _ Hg KT) as (_ & _ & _ & E). rewrite NE, FT in E.
  destruct E as [_ E]; [discriminate|exact KA|exact SA|].
  assert (GL : list_sum (map plen (sets g)) = glen g) by (symmetry; apply glen_sets).
  destruct E as [d Ed]; [intros l [= <-]; rewrite map_length, GL; exact L|exact I|].
  exists d. split; [exact Ed|]. intros i p k Hl.
  pose proof (c56_rows N g PTNone a (LComp c) MNone d _ _ Hg Ed KT) as R. rewrite NE, FT in R. cbv zeta in R.
  assert (RL : list_sum (map plen (sets g)) <> 0%nat).
  { destruct Hl as [before p after k E Hk]. rewrite E, map_app, list_sum_app. simpl. lia. }
  destruct R as (_ & _ & _ & R1 & R2); [destruct SA as (k0 & Ik & _); intros E0; rewrite E0 in Ik; destruct Ik|exact RL|].
  destruct Hl as [before p after k E Hk]. split.
  - destruct (R2 _ eq_refl) as [_ R]. set (i := (list_sum (map plen before) + k)%nat) in *.
    destruct (nth_error (c_labels c) i) as [w|] eqn:W.
    + destruct (R i (CNum w)) as (c' & C1 & C2); [now rewrite nth_error_map, W|]. inversion C2; subst. exact C1.
    + exfalso. apply nth_error_None in W. rewrite L, <- GL, E, map_app, list_sum_app in W. unfold i in W. simpl in W. lia.
  - intros n In_. destruct (R1 before p after k E Hk) as [Q _]. apply Q; [exact In_|]. intros [= ->]. apply KA in In_.
    unfold known_attr in In_. simpl in In_. repeat (destruct In_ as [In_|In_]; [discriminate|]). exact In_.
Qed.

Section Circ.
Context {N : Num}.

Lemma circ_dict_get (j : jcirc_t N) a : dget (jc_dict j) a = if smem a circularity_attributes then Some (circ_col j a) else None.
Proof.
  unfold jc_dict, circ_col, smem, circularity_attributes. simpl.
  destruct (String.eqb_spec a "normalized_star_energy") as [->|]; [reflexivity|].
  destruct (String.eqb_spec a "normalized_star_Jz") as [->|]; [reflexivity|].
  destruct (String.eqb_spec a "eps") as [->|]; [reflexivity|].
  destruct (String.eqb_spec a "eps_r") as [->|]; reflexivity.
Qed.
Lemma circ_mem a : smem a circularity_attributes = true <-> circ_attr a.
Proof. exact (circ_attr_iff a). Qed.

Lemma isfinite_mask (j : jcirc_t N) mask : jc_isfinite j = Ok mask ->
  length mask = length (jc_E j) /\ (forall a, circ_attr a -> length (circ_col j a) = length mask) /\
  (forall i, nth_error mask i = Some true <-> finite_star j i).
Proof.
  unfold jc_isfinite. cbv zeta. destruct (_ && _)%bool eqn:E; [|discriminate]. cbn [guard bind]. intros [= <-].
  apply andb_prop in E as [E E3]. apply andb_prop in E as [E1 E2]. apply Nat.eqb_eq in E1, E2, E3.
  assert (L : length (map2 andb (map2 andb (map2 andb (map nfin (jc_E j)) (map nfin (jc_Jz j))) (map nfin (jc_eps j))) (map nfin (jc_eps_r j))) = length (jc_E j)).
  { rewrite !map2_length, !map_length. lia. }
  split; [exact L|]. rewrite L. split.
  - intros a Ha. destruct Ha as [<-|[<-|[<-|[<-|[]]]]]; unfold circ_col; simpl; auto.
  - intros i.
    assert (C : forall A B (f : A -> B) l k, nth_error (map f l) k = option_map f (nth_error l k)) by (intros; apply nth_error_map).
    destruct (Nat.lt_ge_cases i (length (jc_E j))) as [Hi|Hi].
    + destruct (nth_error (jc_E j) i) as [w1|] eqn:W1; [|apply nth_error_None in W1; lia].
      destruct (nth_error (jc_Jz j) i) as [w2|] eqn:W2; [|apply nth_error_None in W2; lia].
      destruct (nth_error (jc_eps j) i) as [w3|] eqn:W3; [|apply nth_error_None in W3; lia].
      destruct (nth_error (jc_eps_r j) i) as [w4|] eqn:W4; [|apply nth_error_None in W4; lia].
      rewrite !map2_nth, !C, W1, W2, W3, W4. simpl. split.
      * intros [= H]. apply andb_prop in H as [H H4]. apply andb_prop in H as [H H3]. apply andb_prop in H as [H1 H2].
        intros a Ha. destruct Ha as [<-|[<-|[<-|[<-|[]]]]]; unfold circ_col; simpl; eauto.
      * intros F. destruct (F "normalized_star_energy"%string) as (v1 & V1 & F1); [simpl; unfold circ_attr; simpl; tauto|].
        destruct (F "normalized_star_Jz"%string) as (v2 & V2 & F2); [unfold circ_attr; simpl; tauto|].
        destruct (F "eps"%string) as (v3 & V3 & F3); [unfold circ_attr; simpl; tauto|].
        destruct (F "eps_r"%string) as (v4 & V4 & F4); [unfold circ_attr; simpl; tauto|].
        unfold circ_col in V1, V2, V3, V4. simpl in V1, V2, V3, V4. rewrite W1 in V1. rewrite W2 in V2. rewrite W3 in V3. rewrite W4 in V4.
        injection V1 as ->. injection V2 as ->. injection V3 as ->. injection V4 as ->. now rewrite F1, F2, F3, F4.
    + split; intros H.
      * assert (i < length (jc_E j))%nat; [|lia]. rewrite <- L. apply nth_error_Some. congruence.
      * destruct (H "normalized_star_energy"%string) as (v & V & _); [unfold circ_attr; simpl; tauto|]. unfold circ_col in V. simpl in V.
        assert (i < length (jc_E j))%nat; [|lia]. apply nth_error_Some. congruence.
Qed.

Definition ccol (j : jcirc_t N) (mask : list bool) (a : string) : list (cell N) := map CNum (bmask mask (circ_col j a)).
Definition circ_columns (j : jcirc_t N) (mask : list bool) (names : list string) : res (df N) :=
  do columns <- mapM (fun a => match dget (jc_dict j) a with Some c => Ok (a, Arr (map CNum (bmask mask c))) | None => Raise KeyError end) names;
  mk_df (dict_of columns).
Lemma circ_columns_ok (j : jcirc_t N) mask names : (forall a, circ_attr a -> length (circ_col j a) = length mask) ->
  (forall a, In a names -> circ_attr a) ->
  circ_columns j mask names = Ok (mkDf (match names with [] => 0 | _ => selected_rows mask end)%nat (keyed (ccol j mask) (dedup [] names))).
Proof.
  intros HL HC. unfold circ_columns.
  rewrite (mapM_total _ (fun a => (a, Arr (ccol j mask a)))).
  2:{ intros a Ha. rewrite circ_dict_get. apply HC, circ_mem in Ha. rewrite Ha. reflexivity. }
  cbn [bind]. rewrite dict_of_keyed. destruct names as [|n0 names]; [reflexivity|].
  rewrite (mk_df_same _ _ (selected_rows mask)).
  - do 2 f_equal.
  - exists n0, (ccol j mask n0). split; [apply dedup_In; simpl; tauto|reflexivity].
  - intros k Hk. apply dedup_In in Hk as [Hk _]. simpl. apply Nat.eqb_eq. unfold ccol. rewrite map_length. apply bmask_length. symmetry. now apply HL, HC.
Qed.
Lemma circ_columns_unknown (j : jcirc_t N) mask names : (exists a, In a names /\ ~ circ_attr a) -> circ_columns j mask names = Raise KeyError.
Proof.
  intros (a & Ha & Hu). unfold circ_columns.
  assert (mapM (fun a => match dget (jc_dict j) a with Some c => Ok (a, Arr (map CNum (bmask mask c))) | None => Raise KeyError end) names = Raise KeyError) as ->; [|reflexivity].
  induction names as [|b names IH]; [destruct Ha|]. cbn [mapM]. rewrite circ_dict_get. destruct (smem b circularity_attributes) eqn:E; [|reflexivity].
  cbn [bind]. rewrite IH; [reflexivity|]. destruct Ha as [->|Ha]; [|exact Ha]. apply circ_mem in E. contradiction.
Qed.

Definition circ_names : list string := ["normalized_star_energy"; "normalized_star_Jz"; "eps"; "eps_r"]%string.
Definition finite_values (l : list (cell N)) : res (list (cell N)) :=
  do _ <- guard (negb (existsb is_str l)) TypeError; Ok (filter cell_finite l).
Lemma get_circ_eq argsort (g : galaxy N) cb a labels m :
  get_circ_df_and_hue argsort g cb a labels m =
  do j <- jcirc argsort g (fst cb) (snd cb); do mask <- jc_isfinite j;
  do d <- circ_columns j mask (base_names circ_names a labels); finish d labels finite_values m.
Proof.
  unfold get_circ_df_and_hue, circ_columns, finish, finite_values.
  destruct (jcirc argsort g (fst cb) (snd cb)) as [j|]; [|reflexivity]. cbn [bind]. destruct (jc_isfinite j) as [mask|]; [|reflexivity]. cbn [bind].
  assert (EN : base_names (N:=N) circ_names a labels =
    match unpack_labels labels with LName s => unique_names (match a with None => dkeys (jc_dict j) | Some a => a end ++ [s]) | _ => match a with None => dkeys (jc_dict j) | Some a => a end end)
    by (destruct labels; reflexivity).
  rewrite EN. destruct (mapM _ _) as [cs|]; [|reflexivity]. cbn [bind]. destruct (mk_df _) as [d|]; [|reflexivity]. cbn [bind].
  destruct (unpack_labels labels) as [|s|c|l]; try reflexivity. destruct (existsb is_str l); reflexivity.
Qed.
Lemma labels_not_circ names : (forall a, In a names -> circ_attr a) -> ~ In "Labels"%string (dedup [] names).
Proof.
  intros H I. apply dedup_In in I as [I _]. apply H in I. unfold circ_attr in I. simpl in I. repeat (destruct I as [I|I]; [discriminate|]). exact I.
Qed.
Lemma circ_attr_dec names : {a | In a names /\ ~ circ_attr a} + {forall a, In a names -> circ_attr a}.
Proof.
  induction names as [|k l [(k' & Hk & Hs)|IH]].
  - right. intros k [].
  - left. exists k'. simpl; auto.
  - destruct (in_dec string_dec k circ_names) as [S|S]; [right; intros k' [<-|H]; auto|left; exists k; simpl; auto].
Qed.
Lemma cell_finite_iff (c : cell N) : cell_finite c = true <-> finite_cell c.
Proof. destruct c; simpl; intuition congruence. Qed.
Lemma finite_mask (l : list (cell N)) i : nth_error (map cell_finite l) i = Some true <-> finite_label l i.
Proof.
  rewrite nth_error_map. unfold finite_label. destruct (nth_error l i) as [c|]; simpl.
  - split; [intros [= H]; exists c; split; [reflexivity|now apply cell_finite_iff]|intros (c' & [= <-] & H); f_equal; now apply cell_finite_iff].
  - split; [discriminate|intros (c & H & _); discriminate].
Qed.
End Circ.

(** The frame of the circularity plots: one row per star whose four circularity values are
    finite, in order, with its values; a label that is one of the attributes is shown through
    [lmap]; an array of labels loses its non-finite entries and what is left is matched with
    the rows by position: the n-th finite label goes to the n-th finite star. *)
Lemma c57_rows : forall (N : Num) (RN : Rounded N) argsort (g : galaxy N) cb a labels m d h,
  constructible g -> get_circ_df_and_hue argsort g cb a labels m = Ok (d, h) ->
  let names := needed ["normalized_star_energy"; "normalized_star_Jz"; "eps"; "eps_r"]%string a labels in
  exists j stars, jcirc argsort g (fst cb) (snd cb) = Ok j /\ length stars = plen (g_stars g) /\
  (forall i, nth_error stars i = Some true <-> finite_star j i) /\
  (names <> [] -> selected_rows stars <> 0%nat ->
   h = hue_name labels /\ nrows d = selected_rows stars /\ wf_df d /\
   (forall i, finite_star j i ->
      (forall k, In k names -> Some k <> h -> exists w, nth_error (circ_col j k) i = Some w /\ cell_at d k (rank stars i) = Some (CNum w)) /\
      (forall s, labels = LName s -> exists w c', nth_error (circ_col j s) i = Some w /\ cell_at d s (rank stars i) = Some c' /\ relabels m (CNum w) c')) /\
   (forall l, label_values labels = Some l -> exists finite, length finite = length l /\
      (forall k, nth_error finite k = Some true <-> finite_label l k) /\ selected_rows finite = selected_rows stars /\
      forall k c i, nth_error l k = Some c -> finite_cell c -> finite_star j i -> rank finite k = rank stars i ->
        exists c', cell_at d "Labels" (rank stars i) = Some c' /\ relabels m c c')).
Proof.
  intros N RN argsort g cb a labels m d h Hg H names. rewrite get_circ_eq in H.
  apply bind_ok in H as (j & Hj & H). apply bind_ok in H as (mask & Hm & H). apply bind_ok in H as (b & Hb & H).
  destruct (isfinite_mask j mask Hm) as (L1 & L2 & L3).
  destruct (c31_lengths N RN argsort g _ _ j Hg Hj) as (LE & _). exists j, mask. split; [exact Hj|]. split; [congruence|]. split; [exact L3|].
  intros Hn Hr. set (nm := base_names circ_names a labels) in *.
  assert (NM : forall k, In k names <-> In k nm) by (intros k; unfold names, nm; rewrite base_names_In; tauto).
  assert (NN : nm <> []) by (intros E; apply Hn; apply base_names_nil in E; exact E).
  destruct (circ_attr_dec nm) as [U|KA]; [rewrite circ_columns_unknown in Hb by (destruct U as [k Hk]; eauto); discriminate|].
  rewrite circ_columns_ok in Hb by auto. injection Hb as Eb.
  replace (match nm with [] => 0%nat | _ => selected_rows mask end) with (selected_rows mask) in Eb by (destruct nm; [contradiction|reflexivity]).
  assert (FL : forall k, In k (dedup [] nm) -> length (ccol j mask k) = selected_rows mask).
  { intros k Ik. apply dedup_In in Ik as [Ik _]. unfold ccol. rewrite map_length. apply bmask_length. symmetry. now apply L2, KA. }
  assert (CV : forall k i, In k nm -> finite_star j i -> exists w, nth_error (circ_col j k) i = Some w /\ nth_error (ccol j mask k) (rank mask i) = Some (CNum w)).
  { intros k i Ik Fi. destruct (Fi k (KA k Ik)) as (w & W & _). exists w. split; [exact W|].
    unfold ccol. rewrite nth_error_map, bmask_rank by now apply L3. now rewrite W. }
  assert (DD : forall k, In k nm -> In k (dedup [] nm)) by (intros k Ik; apply dedup_In; simpl; tauto).
  destruct (label_values labels) as [l|] eqn:EL.
  - rewrite (finish_array _ _ l) in H by auto. unfold finite_values in H. destruct (existsb is_str l); [discriminate|]. cbn [negb guard bind] in H.
    apply bind_ok in H as (d' & H & E). injection E as <- <-. rewrite <- Eb in H.
    apply by_array in H; [|apply dedup_NoDup|now apply labels_not_circ|exact FL]. destruct H as (H1 & H2 & H3 & H4 & H5 & H6 & H7).
    destruct H1 as [H1|H1]; [contradiction|]. split; [destruct labels; try discriminate; reflexivity|]. split; [congruence|]. split; [exact H3|]. split.
    + intros i Fi. split; [|intros s ->; discriminate]. intros k Ik _. apply NM in Ik. rewrite H5 by auto. now apply CV.
    + intros l' [= <-]. rewrite <- (bmask_map cell_finite l) in H1, H7. exists (map cell_finite l).
      split; [apply map_length|]. split; [intros k; apply finite_mask|]. split.
      * rewrite <- H1. symmetry. apply bmask_length. apply map_length.
      * intros k c i Hc Fc Fi Er. rewrite <- Er. apply H7. rewrite bmask_rank; [exact Hc|]. apply finite_mask. exists c; auto.
  - destruct labels as [|s|c|l]; try discriminate.
    + rewrite finish_none in H. injection H as <- <-. split; [reflexivity|]. rewrite <- Eb. split; [reflexivity|].
      split; [now apply keyed_wf|]. split; [|discriminate]. intros i Fi. split; [|discriminate].
      intros k Ik _. apply NM in Ik. rewrite cell_keyed by auto. now apply CV.
    + rewrite finish_name in H. apply bind_ok in H as (d' & H & E). injection E as <- <-. rewrite <- Eb in H.
      assert (Is : In s nm) by (apply NM; unfold names, needed; apply in_or_app; right; now left).
      apply by_name in H; [|apply dedup_NoDup|auto| |exact FL].
      2:{ intros ->. apply KA in Is. unfold circ_attr in Is. simpl in Is. repeat (destruct Is as [Is|Is]; [discriminate|]). exact Is. }
      destruct H as (H1 & H2 & H3 & H4 & H5). split; [reflexivity|]. split; [exact H1|]. split; [exact H2|]. split; [|discriminate].
      intros i Fi. split.
      * intros k Ik D. apply NM in Ik. rewrite H4 by (auto; intros ->; now apply D). now apply CV.
      * intros s' [= <-]. destruct (CV s i Is Fi) as (w & W & B). destruct (H5 _ _ B) as (c' & C1 & C2). eauto 6.
Qed.

(** If the labels are finite exactly for the finite stars, every star is shown with its own. *)
Lemma c57_own : forall (N : Num) (RN : Rounded N) argsort (g : galaxy N) cb a labels l m d h j,
  constructible g -> get_circ_df_and_hue argsort g cb a labels m = Ok (d, h) -> jcirc argsort g (fst cb) (snd cb) = Ok j ->
  a <> Some [] -> label_values labels = Some l -> (forall i, finite_label l i <-> finite_star j i) ->
  exists stars, (forall i, nth_error stars i = Some true <-> finite_star j i) /\
    forall i c, finite_star j i -> nth_error l i = Some c -> exists c', cell_at d "Labels" (rank stars i) = Some c' /\ relabels m c c'.
Proof.
  intros N RN argsort g cb a labels l m d h j Hg H Hj Ha EL SF.
  destruct (c57_rows N RN argsort g cb a labels m d h Hg H) as (j' & stars & Hj' & L & S & R).
  rewrite Hj in Hj'. injection Hj' as <-. exists stars. split; [exact S|]. intros i c Fi Hc.
  destruct R as (_ & _ & _ & _ & R).
  - unfold needed. destruct labels; try discriminate; rewrite app_nil_r; destruct a; try discriminate; congruence.
  - intros Z. rewrite selected_zero in Z. apply (Z i). now apply S.
  - destruct (R l EL) as (fin & _ & F & _ & P). apply (P i c i); auto.
    + destruct (proj2 (SF i) Fi) as (c' & Hc' & Fc). congruence.
    + apply rank_same. intros k. rewrite F, S. apply SF.
Qed.

(** When there is a frame: the errors of jcirc come through, an unbound star is a ValueError,
    an unknown attribute a KeyError, a string among the labels a TypeError; then a number of
    finite labels other than that of finite stars is a ValueError, unless no star is finite;
    everything else succeeds if [lmap] does. *)
Lemma c57_errors : forall (N : Num) (RN : Rounded N) argsort (g : galaxy N) cb a labels m,
  constructible g ->
  let names := needed ["normalized_star_energy"; "normalized_star_Jz"; "eps"; "eps_r"]%string a labels in
  let run := get_circ_df_and_hue argsort g cb a labels m in
  (forall e, jcirc argsort g (fst cb) (snd cb) = Raise e -> run = Raise e) /\
  (forall j, jcirc argsort g (fst cb) (snd cb) = Ok j ->
     ((exists o, In o (star_orbits g) /\ bound o = false) -> run = Raise ValueError) /\
     ((forall o, In o (star_orbits g) -> bound o = true) ->
        ((exists k, In k names /\ ~ circ_attr k) -> run = Raise KeyError) /\
        ((forall k, In k names -> circ_attr k) ->
           (forall l s, label_values labels = Some l -> In (CStr s) l -> run = Raise TypeError) /\
           (forall l finite stars, label_values labels = Some l -> (forall s, ~ In (CStr s) l) ->
              (forall k, nth_error finite k = Some true <-> finite_label l k) ->
              (forall i, nth_error stars i = Some true <-> finite_star j i) ->
              names <> [] -> selected_rows stars <> 0%nat -> selected_rows finite <> selected_rows stars -> run = Raise ValueError) /\
           (total_map m -> (forall l, label_values labels = Some l -> (forall s, ~ In (CStr s) l) /\
              exists finite stars, (forall k, nth_error finite k = Some true <-> finite_label l k) /\
                (forall i, nth_error stars i = Some true <-> finite_star j i) /\
                (names = [] \/ selected_rows stars = 0%nat \/ selected_rows finite = selected_rows stars)) ->
            exists d, run = Ok (d, hue_name labels))))).
Proof.
  intros N RN argsort g cb a labels m Hg names run. unfold run. rewrite get_circ_eq.
  split; [intros e ->; reflexivity|]. intros j Hj. rewrite Hj. cbn [bind].
  destruct (c31_lengths N RN argsort g _ _ j Hg Hj) as (_ & _ & _ & _ & _ & B1 & B2). split.
  { intros U. rewrite (proj1 B2 U). reflexivity. }
  intros A. destruct (proj1 B1 A) as [mask Hm]. rewrite Hm. cbn [bind]. destruct (isfinite_mask j mask Hm) as (L1 & L2 & L3).
  set (nm := base_names circ_names a labels) in *.
  assert (NM : forall k, In k names <-> In k nm) by (intros k; unfold names, nm; rewrite base_names_In; tauto).
  split.
  { intros (k & Ik & Uk). rewrite circ_columns_unknown by (exists k; split; [now apply NM|auto]). reflexivity. }
  intros KA. assert (KA' : forall k, In k nm -> circ_attr k) by (intros k Ik; apply KA, NM, Ik). rewrite circ_columns_ok by auto. cbn [bind].
  assert (NS : forall l : list (cell N), (forall s, ~ In (CStr s) l) -> existsb is_str l = false).
  { intros l Hl. apply Bool.not_true_iff_false. intros E. apply existsb_exists in E as (c & Hc & E). destruct c; try discriminate. now apply Hl in Hc. }
  assert (SM : forall stars, (forall i, nth_error stars i = Some true <-> finite_star j i) -> selected_rows mask = selected_rows stars).
  { intros stars S. apply selected_same. intros i. rewrite S. apply L3. }
  assert (FM : forall (l : list (cell N)) fin, (forall k, nth_error fin k = Some true <-> finite_label l k) -> length (filter cell_finite l) = selected_rows fin).
  { intros l fin F. rewrite <- (bmask_map cell_finite l), bmask_length by apply map_length. apply selected_same. intros i. rewrite F. apply finite_mask. }
  split; [|split].
  - intros l s EL Is. rewrite (finish_array _ _ l) by auto. unfold finite_values.
    assert (existsb is_str l = true) as -> by (apply existsb_exists; exists (CStr s); split; [auto|reflexivity]). reflexivity.
  - intros l fin stars EL Hs F S Ne Z D. rewrite (finish_array _ _ l) by auto. unfold finite_values. rewrite (NS l Hs). cbn [negb guard bind].
    rewrite insert_first_keyed by now apply labels_not_circ. rewrite (FM l fin F), (SM stars S).
    replace (match nm with [] => 0%nat | _ => selected_rows stars end) with (selected_rows stars).
    2:{ destruct nm eqn:E; [|reflexivity]. exfalso. apply Ne. unfold names. apply base_names_nil. exact E. }
    apply Nat.eqb_neq in Z, D. rewrite Z, D. reflexivity.
  - intros T C. destruct (label_values labels) as [l|] eqn:EL.
    + destruct (C l eq_refl) as (Hs & fin & stars & F & S & D). rewrite (finish_array _ _ l) by auto. unfold finite_values. rewrite (NS l Hs). cbn [negb guard bind].
      set (n := match nm with [] => 0%nat | _ => selected_rows mask end).
      destruct (by_array_total n (ccol j mask) (dedup [] nm) (filter cell_finite l) m) as [d ->]; [now apply labels_not_circ|auto| |].
      * rewrite (FM l fin F). unfold n. destruct D as [D|[D|D]].
        -- left. assert (E : nm = []) by (apply base_names_nil; exact D). now rewrite E.
        -- left. rewrite (SM stars S), D. now destruct nm.
        -- destruct nm; [now left|right]. rewrite (SM stars S). exact D.
      * exists d. destruct labels; try discriminate; reflexivity.
    + destruct labels as [|s|c|l]; try discriminate; [rewrite finish_none; eexists; reflexivity|]. rewrite finish_name.
      set (n := match nm with [] => 0%nat | _ => selected_rows mask end).
      destruct (apply_lmap_total n (ccol j mask) (dedup [] nm) s m) as [d Hd]; [|exact T|rewrite Hd; exists d; reflexivity].
      apply dedup_In. simpl. split; [|tauto]. apply NM. unfold names, needed. apply in_or_app. right. now left.
Qed.

(** When no star is finite, or no attribute is asked for, there is no ValueError: the frame
    gets one row of NaN per finite label. *)
Lemma c57_blank : forall (N : Num) (RN : Rounded N) argsort (g : galaxy N) cb a labels l finite m j,
  constructible g -> jcirc argsort g (fst cb) (snd cb) = Ok j -> (forall o, In o (star_orbits g) -> bound o = true) ->
  label_values labels = Some l -> (forall s, ~ In (CStr s) l) -> (forall k, nth_error finite k = Some true <-> finite_label l k) -> total_map m ->
  let names := needed ["normalized_star_energy"; "normalized_star_Jz"; "eps"; "eps_r"]%string a labels in
  (forall k, In k names -> circ_attr k) -> (names = [] \/ forall i, ~ finite_star j i) ->
  exists d, get_circ_df_and_hue argsort g cb a labels m = Ok (d, Some "Labels"%string) /\ nrows d = selected_rows finite /\
    (forall k r, In k names -> (r < selected_rows finite)%nat -> cell_at d k r = Some (CNum nnan)) /\
    (forall i c, nth_error l i = Some c -> finite_cell c -> exists c', cell_at d "Labels" (rank finite i) = Some c' /\ relabels m c c').
Proof.
  intros N RN argsort g cb a labels l fin m j Hg Hj A EL Hs F T names KA Z. rewrite get_circ_eq, Hj. cbn [bind].
  destruct (c31_lengths N RN argsort g _ _ j Hg Hj) as (_ & _ & _ & _ & _ & B1 & _). destruct (proj1 B1 A) as [mask Hm]. rewrite Hm. cbn [bind].
  destruct (isfinite_mask j mask Hm) as (L1 & L2 & L3). set (nm := base_names circ_names a labels) in *.
  assert (NM : forall k, In k names <-> In k nm) by (intros k; unfold names, nm; rewrite base_names_In; tauto).
  assert (KA' : forall k, In k nm -> circ_attr k) by (intros k Ik; apply KA, NM, Ik). rewrite circ_columns_ok by auto. cbn [bind].
  assert (ES : existsb is_str l = false).
  { apply Bool.not_true_iff_false. intros E. apply existsb_exists in E as (c & Hc & E). destruct c; try discriminate. now apply Hs in Hc. }
  rewrite (finish_array _ _ l) by auto. unfold finite_values. rewrite ES. cbn [negb guard bind].
  assert (RF : forall i, rank (map cell_finite l) i = rank fin i) by (apply rank_same; intros i; rewrite F; apply finite_mask).
  assert (FM : length (filter cell_finite l) = selected_rows fin).
  { rewrite <- (bmask_map cell_finite l), bmask_length by apply map_length. apply selected_same. intros i. rewrite F. apply finite_mask. }
  assert (N0 : match nm with [] => 0%nat | _ => selected_rows mask end = 0%nat).
  { destruct Z as [Z|Z]; [assert (E : nm = []) by (apply base_names_nil; exact Z); now rewrite E|].
    assert (selected_rows mask = 0%nat) as ->; [|now destruct nm]. apply selected_zero. intros i Hi. apply L3 in Hi. now apply Z in Hi. }
  rewrite N0.
  assert (FL : forall k, In k (dedup [] nm) -> length (ccol j mask k) = 0%nat).
  { intros k Ik. apply dedup_In in Ik as [Ik _]. unfold ccol. rewrite map_length, bmask_length by (symmetry; now apply L2, KA').
    destruct nm; [destruct Ik|exact N0]. }
  destruct (by_array_total 0 (ccol j mask) (dedup [] nm) (filter cell_finite l) m) as [d Hd]; [now apply labels_not_circ|auto|auto|].
  rewrite Hd. exists d. split; [reflexivity|]. apply by_array in Hd; [|apply dedup_NoDup|now apply labels_not_circ|exact FL].
  destruct Hd as (_ & H2 & H3 & H4 & H5 & H6 & H7). rewrite FM in *. split; [exact H2|]. split.
  - intros k r Ik Hr. apply H6; auto. apply dedup_In. simpl. split; [|tauto]. now apply NM.
  - intros i c Hc Fc. rewrite <- RF. apply H7. rewrite <- (bmask_map cell_finite l), bmask_rank; [exact Hc|]. apply finite_mask. exists c; auto.
Qed.

(** The labels of a decomposition of the stars, drawn with the same bins: if the stars the
    method uses are those with finite circularities, every row shows a star's values beside
    the label of that star. *)
Lemma c57_decompose : forall (N : Num) (RN : Rounded N) argsort St (D : decomposer N St) st (g : galaxy N) c st' j a,
  constructible g -> one_row_each g (d_attributes D) -> d_mask D = stars_mask ->
  (forall st X y a l p s, d_split D st X y a = Ok (l, p, s) -> length l = length X /\ forall z, In z l -> nfin (nofZ z : N) = true) ->
  decompose argsort D st g = Ok (c, st') ->
  (exists a, In a (d_attributes D) /\ circ_attr a) -> jcirc argsort g (fst (d_cbins D)) (snd (d_cbins D)) = Ok j ->
  (forall o, In o (star_orbits g) -> bound o = true) ->
  (forall i, finite_star j i <-> forall a, In a (d_attributes D) -> exists v, attribute j (g_stars g) i a v /\ finite_cell v) ->
  let names := match a with None => ["normalized_star_energy"; "normalized_star_Jz"; "eps"; "eps_r"]%string | Some a => a end in
  (forall k, In k names -> circ_attr k) -> names <> [] ->
  exists d stars, get_circ_df_and_hue argsort g (d_cbins D) a (LComp c) MNone = Ok (d, Some "Labels"%string) /\
    (forall i, nth_error stars i = Some true <-> finite_star j i) /\ nrows d = selected_rows stars /\
    forall i, finite_star j i -> exists w, nth_error (c_labels c) i = Some w /\ nisnan w = false /\
      cell_at d "Labels" (rank stars i) = Some (CNum w) /\
      forall k, In k names -> exists v, nth_error (circ_col j k) i = Some v /\ cell_at d k (rank stars i) = Some (CNum v).
Proof.
  intros N RN argsort St D st g c st' j a Hg O HM HS Hd HC Hj A U names KN NN.
  destruct (c36_decompose N RN argsort St D st g c st' Hg O HM (fun st X y a l p s H => proj1 (HS st X y a l p s H)) Hd)
    as (j' & Xs & ys & labels & pr & sel & Ej & Es & Ls & P).
  specialize (Ej HC). rewrite Hj in Ej. injection Ej as <-.
  destruct (c35_aligned N RN argsort St D st g c st' Hg O Hd) as (LC & _).
  destruct (c31_lengths N RN argsort g _ _ j Hg Hj) as (LE & _ & _ & _ & _ & B1 & _). destruct (proj1 B1 A) as [stars Hm].
  destruct (isfinite_mask j stars Hm) as (L1 & L2 & L3).
  assert (TS : p_type (g_stars g) = STARS).
  { apply constructible_ok in Hg. apply gal_ok_facts in Hg as [gf_s0 gf_d0 gf_g0 gf_ts0 gf_td0 gf_tg0 gf_hs0 gf_hd0 gf_hg0]. exact gf_ts0. }
  assert (LOC : forall i, (i < plen (g_stars g))%nat -> located g i (g_stars g) i).
  { intros i Hi. apply (located_intro g [] (g_stars g) [g_dm g; g_gas g] i); [reflexivity|exact Hi]. }
  assert (FB : forall i, finite_star j i -> (i < plen (g_stars g))%nat).
  { intros i Fi. apply L3 in Fi. rewrite <- LE, <- L1. apply nth_error_Some. congruence. }
  assert (V : forall i, finite_star j i -> exists w, nth_error (c_labels c) i = Some w /\ nisnan w = false /\ nfin w = true).
  { intros i Fi. destruct (P i (g_stars g) i (LOC i (FB i Fi))) as (w & W & P1 & _). exists w. split; [exact W|].
    destruct P1 as (_ & Nn & z & row & Z1 & Z2 & _); [split; [exact TS|now apply U]|]. split; [exact Nn|]. subst w.
    destruct (HS _ _ _ _ _ _ _ Es) as [_ F]. apply F. eapply nth_error_In; eauto. }
  set (l := map CNum (c_labels c)).
  assert (SF : forall i, finite_label l i <-> finite_star j i).
  { intros i. split.
    - intros (x & Hx & Fx). unfold l in Hx. rewrite nth_error_map in Hx. destruct (nth_error (c_labels c) i) as [w|] eqn:W; [|discriminate].
      injection Hx as <-. simpl in Fx. assert (Hi : (i < glen g)%nat) by (rewrite <- LC; apply nth_error_Some; congruence).
      destruct (c37_located N g i Hi) as (p & k & Lk). destruct (P i p k Lk) as (w' & W' & _ & P2). rewrite W in W'. injection W' as <-.
      assert (UD : ~ ~ (p_type p = STARS /\ forall a, In a (d_attributes D) -> exists v, attribute j p k a v /\ finite_cell v)).
      { intros NU. destruct (P2 NU) as [_ E]. subst w. destruct (proj1 (nfin_iff RN nnan) Fx) as [r Hr]. rewrite (val_nnan RN) in Hr. discriminate. }
      destruct (nth_error stars i) as [[|]|] eqn:Si; [now apply L3| |].
      + exfalso. apply UD. intros [Tp Ua]. assert (Pk : p = g_stars g /\ k = i).
        { destruct Lk as [before p after k E Hk]. destruct before as [|b1 [|b2 [|b3 before]]]; simpl in E; inversion E; subst; auto.
          - exfalso. apply constructible_ok in Hg. apply gal_ok_facts in Hg as [gf_s0 gf_d0 gf_g0 gf_ts0 gf_td0 gf_tg0 gf_hs0 gf_hd0 gf_hg0]. congruence.
          - exfalso. apply constructible_ok in Hg. apply gal_ok_facts in Hg as [gf_s0 gf_d0 gf_g0 gf_ts0 gf_td0 gf_tg0 gf_hs0 gf_hd0 gf_hg0]. congruence.
          - destruct before; discriminate. }
        destruct Pk as [-> ->]. apply U in Ua. apply L3 in Ua. congruence.
      + exfalso. apply UD. intros [Tp Ua]. apply nth_error_None in Si. rewrite L1, LE in Si.
        destruct Lk as [before p after k E Hk]. destruct before as [|b1 [|b2 [|b3 before]]]; simpl in E; inversion E; subst; auto.
        * simpl in Si. lia.
        * apply constructible_ok in Hg. apply gal_ok_facts in Hg as [gf_s0 gf_d0 gf_g0 gf_ts0 gf_td0 gf_tg0 gf_hs0 gf_hd0 gf_hg0]. congruence.
        * apply constructible_ok in Hg. apply gal_ok_facts in Hg as [gf_s0 gf_d0 gf_g0 gf_ts0 gf_td0 gf_tg0 gf_hs0 gf_hd0 gf_hg0]. congruence.
        * destruct before; discriminate.
    - intros Fi. destruct (V i Fi) as (w & W & _ & F). exists (CNum w). split; [unfold l; now rewrite nth_error_map, W|exact F]. }
  assert (NE : needed ["normalized_star_energy"; "normalized_star_Jz"; "eps"; "eps_r"]%string a (LComp c) = names) by (unfold needed; rewrite app_nil_r; reflexivity).
  assert (NoS : forall s, ~ In (CStr s) l).
  { intros s I. unfold l in I. apply in_map_iff in I as (x & E & _). discriminate. }
  assert (FinM : forall k, nth_error (map cell_finite l) k = Some true <-> finite_label l k) by (intros; apply finite_mask).
  assert (SelE : selected_rows (map cell_finite l) = selected_rows stars).
  { apply selected_same. intros i. rewrite FinM, L3. apply SF. }
  destruct (c57_errors N RN argsort g (d_cbins D) a (LComp c) MNone Hg) as [_ E]. rewrite NE in E.
  destruct (E j Hj) as [_ E']. destruct (E' A) as [_ E'']. destruct (E'' KN) as (_ & _ & E3). clear E E' E''.
  destruct E3 as [d Ed]; [exact I| |].
  { intros l' [= <-]. split; [exact NoS|]. exists (map cell_finite l), stars. split; [exact FinM|]. split; [exact L3|]. right. right. exact SelE. }
  exists d, stars. split; [exact Ed|]. split; [exact L3|].
  destruct (Nat.eq_dec (selected_rows stars) 0) as [Z|Z].
  - assert (NF : forall i, ~ finite_star j i) by (intros i Fi; apply L3 in Fi; rewrite selected_zero in Z; now apply Z in Fi).
    split; [|intros i Fi; now apply NF in Fi].
    destruct (c57_blank N RN argsort g (d_cbins D) a (LComp c) l (map cell_finite l) MNone j Hg Hj A eq_refl NoS FinM I) as (d' & Ed' & R & _).
    + rewrite NE. exact KN.
    + right. exact NF.
    + rewrite Ed in Ed'. injection Ed' as <-. rewrite R. exact SelE.
  - destruct (c57_rows N RN argsort g (d_cbins D) a (LComp c) MNone d _ Hg Ed) as (j2 & stars2 & Hj2 & LS & S2 & R). rewrite Hj in Hj2. injection Hj2 as <-.
    assert (RS : forall i, rank stars2 i = rank stars i) by (apply rank_same; intros i; rewrite S2, L3; tauto).
    assert (SS : selected_rows stars2 = selected_rows stars) by (apply selected_same; intros i; rewrite S2, L3; tauto).
    rewrite NE, SS in R. destruct (R NN Z) as (_ & R1 & _ & R2 & R3). split; [exact R1|]. intros i Fi. destruct (V i Fi) as (w & W & Nn & Fw).
    exists w. split; [exact W|]. split; [exact Nn|]. split.
    + destruct (R3 l eq_refl) as (fin & _ & F & _ & Q). destruct (Q i (CNum w) i) as (c' & C1 & C2); auto.
      * unfold l. now rewrite nth_error_map, W.
      * apply rank_same. intros k. rewrite F, S2. apply SF.
      * inversion C2; subst. rewrite <- RS. exact C1.
    + intros k Ik. destruct (R2 i Fi) as [Q _]. rewrite <- RS. apply Q; [exact Ik|]. intros [= ->]. apply KN in Ik. unfold circ_attr in Ik. simpl in Ik.
      repeat (destruct Ik as [Ik|Ik]; [discriminate|]). exact Ik.
Qed.

(** In exact arithmetic the stars a method with the attribute "eps" uses are those with finite
    circularities, if some bound particle has angular momentum outside the z axis. *)
Lemma c57_exact : forall argsort (g : galaxy RX) (b0 b1 : RX) j attributes,
  constructible g -> sorting argsort -> nlt n0 b0 = true -> nlt n0 b1 = true -> regular g ->
  (exists o, In o (all_orbits g) /\ bound o = true /\ o_jp o <> XR 0) ->
  (forall o, In o (star_orbits g) -> bound o = true) -> jcirc argsort g b0 b1 = Ok j ->
  In "eps"%string attributes -> (forall a, In a attributes -> circ_attr a) ->
  forall i, finite_star j i <-> forall a, In a attributes -> exists v, attribute j (g_stars g) i a v /\ finite_cell v.
Proof.
  intros argsort g b0 b1 j attributes Hg Hs H0 H1 Hr (op & Io & Bo & Jo) A Hj Ie KA i.
  assert (TS : p_type (g_stars g) = STARS).
  { apply constructible_ok in Hg. apply gal_ok_facts in Hg as [gf_s0 gf_d0 gf_g0 gf_ts0 gf_td0 gf_tg0 gf_hs0 gf_hd0 gf_hg0]. exact gf_ts0. }
  split.
  - intros F a Ia. destruct (F a (KA a Ia)) as (w & W & Fw). exists (CNum w). split; [|exact Fw]. left. split; [now apply KA|]. split; [exact TS|]. eauto.
  - intros U. destruct (U "eps"%string Ie) as (v & [(_ & _ & w & W & Ev)|[(_ & T & _)|(C & _)]] & Fv).
    2:{ now rewrite TS in T. }
    2:{ exfalso. apply C. unfold circ_attr. simpl. tauto. }
    subst v. change (circ_col j "eps") with (jc_eps j) in W. simpl in Fv. destruct w as [r| | |]; try discriminate.
    destruct (c34_value argsort g b0 b1 j i r Hg Hs H0 H1 Hr Hj W)
      as (ue & uz & up & e & jz & jp & jc & pts & o & Un & Pe & Pz & No & Ee & Ez & Ep & Ex & Ey & Ip & Nj & Er & Rr & Pr).
    assert (Pu : (0 < up)%R).
    { destruct (unit_p _ _ _ _ Un) as [_ [M|M]]; [apply (nisnan_iff RX_rounded) in M; discriminate|].
      specialize (M op). destruct (proj1 Hr op Io Bo) as (_ & p' & _ & Jp'). rewrite Jp' in *.
      assert (Q : (Rabs p' <= up)%R) by (apply nleRX; apply M; apply filter_In; auto).
      assert (Z : p' <> 0%R) by (intros ->; now apply Jo). apply Rabs_pos_lt in Z. lra. }
    destruct (Pr Pu) as [Wr _].
    destruct (c24_eps RX RX_rounded argsort g b0 b1 j Hg Hj) as (_ & ue' & uz' & up' & Un' & K).
    assert (Bi : bound o = true) by (apply A; eapply nth_error_In; eauto).
    destruct (K i o No Bi) as (K1 & K2 & K3 & K4). clear K. rewrite W in K3.
    destruct (nlt n1 _ || nlt _ nm1); [discriminate|].
    destruct (units_real g _ _ _ Hr Un') as (a' & b' & c' & -> & -> & -> & Pa & Pb & Pc & _).
    assert (Nb : b' <> 0%R).
    { intros ->. destruct (unit_z _ _ _ _ Un') as [_ [M|M]]; [apply (nisnan_iff RX_rounded) in M; discriminate|].
      assert (Io' : In o (filter bound (all_orbits g))) by (apply filter_In; split; [apply star_in_all; eapply nth_error_In; eauto|exact Bi]).
      specialize (M o Io'). rewrite Ez in M. assert (Q : (Rabs jz <= 0)%R) by (apply nleRX; exact M).
      assert (Zj : jz = 0%R) by (destruct (Req_EM_T jz 0) as [|Z]; [assumption|]; apply Rabs_pos_lt in Z; lra).
      rewrite Ez, Zj in K3. assert (D : ndiv (N:=RX) (XR 0) (XR 0) = XNaN).
      { simpl. destruct (Req_EM_T 0 0); [|lra]. rewrite Rcompare_Eq by reflexivity. reflexivity. }
      rewrite D in K3. simpl in K3. discriminate. }
    rewrite Ee, divRX in K1 by lra. rewrite Ez, divRX in K2 by exact Nb.
    intros a Ha. destruct Ha as [<-|[<-|[<-|[<-|[]]]]]; unfold circ_col; cbn [String.eqb Ascii.eqb Bool.eqb].
    + exists (XR (e / a')). split; [exact K1|reflexivity].
    + exists (XR (jz / b')). split; [exact K2|reflexivity].
    + exists (XR r). split; [exact W|reflexivity].
    + eexists. split; [exact Wr|reflexivity].
Qed.

Section Complete.
Context {N : Num}.
Definition frame_ok (default : list string) (a : option (list string)) (labels : plabels N) (d : df N) (h : option string) : Prop :=
  wf_df d /\ h = hue_name labels /\ (forall k, In k (needed default a labels) -> In k (dkeys (cols d))) /\ (forall k, h = Some k -> In k (dkeys (cols d))).
Lemma finish_ok default a (labels : plabels N) vs n f m d h :
  finish (mkDf n (keyed f (dedup [] (base_names default a labels)))) labels vs m = Ok (d, h) ->
  (forall k, In k (base_names default a labels) -> length (f k) = n) -> ~ In "Labels"%string (base_names default a labels) -> ~ In ""%string (base_names default a labels) ->
  frame_ok default a labels d h.
Proof.
  intros H FL NL NE. set (nm := base_names default a labels) in *.
  assert (NM : forall k, In k (needed default a labels) <-> In k nm) by (intros k; unfold nm; rewrite base_names_In; tauto).
  assert (DD : forall k, In k (dedup [] nm) <-> In k nm) by (intros k; rewrite dedup_In; simpl; tauto).
  assert (FL' : forall k, In k (dedup [] nm) -> length (f k) = n) by (intros k Ik; apply FL, DD, Ik).
  destruct (label_values labels) as [l|] eqn:EL.
  - rewrite (finish_array _ _ l) in H by auto. apply bind_ok in H as (w & _ & H). apply bind_ok in H as (d' & H & E). injection E as <- <-.
    apply by_array in H; [|apply dedup_NoDup|rewrite DD; exact NL|exact FL']. destruct H as (_ & _ & H3 & H4 & _).
    split; [exact H3|]. split; [destruct labels; try discriminate; reflexivity|]. rewrite H4. split.
    + intros k Ik. right. now apply DD, NM.
    + intros k [= <-]. now left.
  - destruct labels as [|s|c|l]; try discriminate.
    + rewrite finish_none in H. injection H as <- <-. split; [now apply keyed_wf|]. split; [reflexivity|]. simpl. rewrite dkeys_keyed. split; [|discriminate].
      intros k Ik. now apply DD, NM.
    + rewrite finish_name in H. apply bind_ok in H as (d' & H & E). injection E as <- <-.
      assert (Is : In s nm) by (apply NM; unfold needed; apply in_or_app; right; now left).
      apply by_name in H; [|apply dedup_NoDup|now apply DD|intros ->; contradiction|exact FL'].
      destruct H as (_ & H2 & H3 & _). split; [exact H2|]. split; [reflexivity|]. rewrite H3. split; [intros k Ik; now apply DD, NM|intros k [= <-]; now apply DD].
Qed.
Lemma get_df_frame (g : galaxy N) sel a labels m d h : constructible g -> get_df_and_hue g sel a labels m = Ok (d, h) ->
  frame_ok ["x"; "y"; "z"]%string a labels d h.
Proof.
  intros Hg H. rewrite get_df_eq in H. apply bind_ok in H as (b & Hb & H).
  apply constructible_ok in Hg. pose proof (base_frame _ _ _ _ Hg Hb) as (K & KA & _ & Eb). rewrite Eb in H.
  apply finish_ok in H; auto.
  - intros k Ik. destruct (base_names xyz a labels) eqn:E; [destruct Ik|]. apply kept_rows. intros p Hp. now apply (kept_ok g sel).
  - intros I. apply KA in I. unfold known_attr in I. simpl in I. repeat (destruct I as [I|I]; [discriminate|]). exact I.
  - intros I. now apply known_nonempty, KA.
Qed.
Lemma get_circ_frame argsort (g : galaxy N) cb a labels m d h : get_circ_df_and_hue argsort g cb a labels m = Ok (d, h) ->
  frame_ok ["normalized_star_energy"; "normalized_star_Jz"; "eps"; "eps_r"]%string a labels d h.
Proof.
  intros H. rewrite get_circ_eq in H. apply bind_ok in H as (j & Hj & H). apply bind_ok in H as (mask & Hm & H). apply bind_ok in H as (b & Hb & H).
  destruct (isfinite_mask j mask Hm) as (L1 & L2 & L3). set (nm := base_names circ_names a labels) in *.
  destruct (circ_attr_dec nm) as [U|KA]; [rewrite circ_columns_unknown in Hb by (destruct U as [k Hk]; eauto); discriminate|].
  rewrite circ_columns_ok in Hb by auto. injection Hb as Eb. rewrite <- Eb in H. apply finish_ok in H; auto.
  - intros k Ik. fold nm in Ik. unfold ccol. rewrite map_length, bmask_length by (symmetry; now apply L2, KA). destruct nm; [destruct Ik|reflexivity].
  - intros I. apply KA in I. unfold circ_attr in I. simpl in I. repeat (destruct I as [I|I]; [discriminate|]). exact I.
  - intros I. apply KA in I. unfold circ_attr in I. simpl in I. repeat (destruct I as [I|I]; [discriminate|]). exact I.
Qed.
Lemma column_of (d : df N) c : wf_df d -> In c (dkeys (cols d)) -> exists col, get_col d c = Ok col /\ length col = nrows d.
Proof.
  intros W I. destruct (dget_keys (cols d) c I) as [col E]. exists col. unfold get_col. rewrite E. split; [reflexivity|].
  unfold wf_df in W. rewrite Forall_forall in W. apply dget_In in E. exact (W _ E).
Qed.
Lemma call_ok V fn x y (dh : df N * option string) (kw : dict V) r : call_seaborn fn x y dh kw = Ok r ->
  r = Draw fn x y (fst dh) (snd dh) kw /\ ~ In "data"%string (dkeys kw) /\ ~ In "hue"%string (dkeys kw).
Proof.
  unfold call_seaborn. destruct (smem "data" (dkeys kw)) eqn:A; [discriminate|]. destruct (smem "hue" (dkeys kw)) eqn:B; [discriminate|].
  cbn. intros [= <-]. apply smem_false in A, B. auto.
Qed.
Lemma xy_in x y (c : string) : c = x \/ y = Some c -> In c (xy_names x y).
Proof. destruct y; simpl; intuition congruence. Qed.
End Complete.

(** The frame a plot hands to seaborn has the columns it names: x, y and the colour. *)
Lemma c60_complete : forall (N : Num) V argsort (g : galaxy N) x y y' sel cb a labels m (kw : dict V) vhist vkde r, constructible g ->
  pairplot vhist vkde g sel a labels m kw = Ok r \/ scatter_plot g x y sel labels m kw = Ok r \/
  hist_plot g x y' sel labels m kw = Ok r \/ kde_plot g x y' sel labels m kw = Ok r \/
  circ_pairplot argsort vhist vkde g cb a labels m kw = Ok r \/ circ_scatter argsort g x y cb labels m kw = Ok r \/
  circ_hist argsort g x y' cb labels m kw = Ok r \/ circ_kde argsort g x y' cb labels m kw = Ok r ->
  complete r /\ d_hue r = hue_name labels.
Proof.
  intros N V argsort g x y y' sel cb a labels m kw vhist vkde r Hg H.
  assert (Q : forall default a' fn cx cy dh (kw' : dict V), frame_ok default a' labels (fst dh) (snd dh) -> call_seaborn fn cx cy dh kw' = Ok r ->
    (forall c, cx = Some c \/ cy = Some c -> In c (needed default a' labels)) -> complete r /\ d_hue r = hue_name labels).
  { intros default a' fn cx cy dh kw' (W & E & K1 & K2) C I. apply call_ok in C as (-> & _ & _). split; [|exact E].
    intros c Hc. cbn [d_x d_y d_hue d_data] in *. apply column_of; [exact W|].
    destruct Hc as [Hc|[Hc|Hc]]; [apply K1, I; auto|apply K1, I; auto|apply K2; exact Hc]. }
  assert (X1 : forall dd c, Some x = Some c \/ Some y = Some c -> In c (needed dd (Some [x; y]) labels)).
  { intros dd c [[= <-]|[= <-]]; unfold needed; apply in_or_app; left; simpl; auto. }
  assert (X2 : forall dd c, Some x = Some c \/ y' = Some c -> In c (needed dd (Some (xy_names x y')) labels)).
  { intros dd c Hc. unfold needed. apply in_or_app. left. apply xy_in. destruct Hc as [[= ->]|Hc]; auto. }
  assert (X0 : forall dd aa c, @None string = Some c \/ @None string = Some c -> In c (needed dd aa labels)) by (intros ? ? ? [|]; discriminate).
  destruct H as [H|[H|[H|[H|[H|[H|[H|H]]]]]]]; apply bind_ok in H as ([d h] & Hd & H).
  - apply get_df_frame in Hd; [|exact Hg]. exact (Q _ _ _ _ _ (d, h) _ Hd H (X0 _ _)).
  - apply get_df_frame in Hd; [|exact Hg]. exact (Q _ _ _ _ _ (d, h) _ Hd H (X1 _)).
  - apply get_df_frame in Hd; [|exact Hg]. exact (Q _ _ _ _ _ (d, h) _ Hd H (X2 _)).
  - apply get_df_frame in Hd; [|exact Hg]. exact (Q _ _ _ _ _ (d, h) _ Hd H (X2 _)).
  - apply get_circ_frame in Hd. exact (Q _ _ _ _ _ (d, h) _ Hd H (X0 _ _)).
  - apply get_circ_frame in Hd. exact (Q _ _ _ _ _ (d, h) _ Hd H (X1 _)).
  - apply get_circ_frame in Hd. exact (Q _ _ _ _ _ (d, h) _ Hd H (X2 _)).
  - apply get_circ_frame in Hd. exact (Q _ _ _ _ _ (d, h) _ Hd H (X2 _)).
Qed.

(** The call a plot makes: the seaborn function of its name, the axes as given, the options as
    given, and the frame of exactly those axes; "data" or "hue" among the options is a TypeError,
    anything that goes wrong with the frame is passed on. *)
Lemma c60_calls : forall (N : Num) V argsort (g : galaxy N) x y y' sel cb labels m (kw : dict V) fn cx cy p frame,
  (fn, cx, cy, p, frame) = ("scatterplot"%string, Some x, Some y, scatter_plot g x y sel labels m kw, fun a => get_df_and_hue g sel (Some a) labels m) \/
  (fn, cx, cy, p, frame) = ("histplot"%string, Some x, y', hist_plot g x y' sel labels m kw, fun a => get_df_and_hue g sel (Some a) labels m) \/
  (fn, cx, cy, p, frame) = ("kdeplot"%string, Some x, y', kde_plot g x y' sel labels m kw, fun a => get_df_and_hue g sel (Some a) labels m) \/
  (fn, cx, cy, p, frame) = ("scatterplot"%string, Some x, Some y, circ_scatter argsort g x y cb labels m kw, fun a => get_circ_df_and_hue argsort g cb (Some a) labels m) \/
  (fn, cx, cy, p, frame) = ("histplot"%string, Some x, y', circ_hist argsort g x y' cb labels m kw, fun a => get_circ_df_and_hue argsort g cb (Some a) labels m) \/
  (fn, cx, cy, p, frame) = ("kdeplot"%string, Some x, y', circ_kde argsort g x y' cb labels m kw, fun a => get_circ_df_and_hue argsort g cb (Some a) labels m) ->
  exists axes, (forall c, In c axes <-> cx = Some c \/ cy = Some c) /\
  match frame axes with
  | Raise e => p = Raise e
  | Ok (d, h) => (In "data"%string (dkeys kw) \/ In "hue"%string (dkeys kw) -> p = Raise TypeError) /\
      (~ In "data"%string (dkeys kw) -> ~ In "hue"%string (dkeys kw) ->
       exists r, p = Ok r /\ d_fn r = fn /\ d_x r = cx /\ d_y r = cy /\ d_data r = d /\ d_hue r = h /\ d_opts r = kw)
  end.
Proof.
  intros N V argsort g x y y' sel cb labels m kw fn cx cy p frame H.
  assert (Q : forall cx cy axes F, (forall c, In c axes <-> cx = Some c \/ cy = Some c) -> forall p, p = (do dh <- F axes; call_seaborn (N:=N) fn cx cy dh kw) ->
    exists axes, (forall c, In c axes <-> cx = Some c \/ cy = Some c) /\
      match F axes with
      | Raise e => p = Raise e
      | Ok (d, h) => (In "data"%string (dkeys kw) \/ In "hue"%string (dkeys kw) -> p = Raise TypeError) /\
          (~ In "data"%string (dkeys kw) -> ~ In "hue"%string (dkeys kw) ->
           exists r, p = Ok r /\ d_fn r = fn /\ d_x r = cx /\ d_y r = cy /\ d_data r = d /\ d_hue r = h /\ d_opts r = kw)
      end).
  { clear. intros cx cy axes F A p ->. exists axes. split; [exact A|]. destruct (F axes) as [[d h]|e]; cbn [bind]; [|reflexivity]. unfold call_seaborn. split.
    - intros H. assert (B : (smem "data" (dkeys kw) || smem "hue" (dkeys kw))%bool = true) by (apply orb_true_iff; destruct H as [H|H]; apply smem_In in H; auto).
      rewrite B. reflexivity.
    - intros H1 H2. assert (B : (smem "data" (dkeys kw) || smem "hue" (dkeys kw))%bool = false).
      { apply orb_false_iff. split; destruct (smem _ _) eqn:E; auto; apply smem_In in E; contradiction. }
      rewrite B. cbn [negb guard bind]. eexists. split; [reflexivity|]. simpl. auto 10. }
  assert (A2 : forall c, In c [x; y] <-> Some x = Some c \/ Some y = Some c).
  { intros c. simpl. split; [intros [->|[->|[]]]; auto|intros [[= ->]|[= ->]]; auto]. }
  assert (A1 : forall c, In c (xy_names x y') <-> Some x = Some c \/ y' = Some c).
  { intros c. destruct y'; simpl; split; [intros [->|[->|[]]]; auto|intros [[= ->]|[= ->]]; auto|intros [->|[]]; auto|intros [[= ->]|]; [auto|discriminate]]. }
  destruct H as [H|[H|[H|[H|[H|H]]]]]; injection H as -> -> -> -> ->; eapply Q; first [exact A1|exact A2|reflexivity].
Qed.

(** The options of a pair plot: the caller's win, "kind" and "diag_kind" have defaults; giving
    "data" or "hue" is a TypeError in every plot whose frame exists. *)
Lemma c60_options : forall (N : Num) V argsort (g : galaxy N) sel cb a labels m (kw : dict V) vhist vkde,
  (forall r, pairplot vhist vkde g sel a labels m kw = Ok r \/ circ_pairplot argsort vhist vkde g cb a labels m kw = Ok r ->
     d_fn r = "pairplot"%string /\ d_x r = None /\ d_y r = None /\ forall k, dget (d_opts r) k =
       match dget kw k with
       | Some v => Some v
       | None => if (k =? "kind")%string then Some vhist else if (k =? "diag_kind")%string then Some vkde else None
       end) /\
  (forall r, pairplot vhist vkde g sel a labels m kw = Ok r -> get_df_and_hue g sel a labels m = Ok (d_data r, d_hue r)) /\
  (forall r, circ_pairplot argsort vhist vkde g cb a labels m kw = Ok r -> get_circ_df_and_hue argsort g cb a labels m = Ok (d_data r, d_hue r)) /\
  (In "data"%string (dkeys kw) \/ In "hue"%string (dkeys kw) ->
     (forall dh, get_df_and_hue g sel a labels m = Ok dh -> pairplot vhist vkde g sel a labels m kw = Raise TypeError) /\
     (forall dh, get_circ_df_and_hue argsort g cb a labels m = Ok dh -> circ_pairplot argsort vhist vkde g cb a labels m kw = Raise TypeError)).
Proof.
  intros N V argsort g sel cb a labels m kw vhist vkde.
  assert (G : forall k, dget (pair_options vhist vkde kw) k = match dget kw k with
     | Some v => Some v | None => if (k =? "kind")%string then Some vhist else if (k =? "diag_kind")%string then Some vkde else None end).
  { intros k.
    assert (D : forall (d : dict V) k0 v k, dget (setdefault d k0 v) k = match dget d k with Some w => Some w | None => if (k =? k0)%string then Some v else None end).
    { clear. intros d k0 v k. unfold setdefault. destruct (dget d k0) as [w|] eqn:E.
      - destruct (dget d k) eqn:E'; [reflexivity|]. destruct (String.eqb_spec k k0) as [->|]; congruence.
      - destruct (String.eqb_spec k k0) as [->|Hk]; [rewrite dget_dset_same, E; reflexivity|].
        rewrite dget_dset_other by congruence. destruct (dget d k); reflexivity. }
    unfold pair_options. rewrite !D. destruct (dget kw k); [reflexivity|]. destruct (k =? "kind")%string; reflexivity. }
  split.
  - intros r [H|H]; apply bind_ok in H as (dh & _ & H); apply call_ok in H as (-> & _ & _); repeat (split; [reflexivity|]); exact G.
  - split; [|split].
    + intros r H. apply bind_ok in H as ([d h] & Hd & H). apply call_ok in H as (-> & _ & _). exact Hd.
    + intros r H. apply bind_ok in H as ([d h] & Hd & H). apply call_ok in H as (-> & _ & _). exact Hd.
    + intros H.
    assert (S : forall k, In k (dkeys kw) -> smem k (dkeys (pair_options vhist vkde kw)) = true).
    { intros k Hk. apply smem_In. destruct (dget (pair_options vhist vkde kw) k) eqn:E; [apply dget_In in E; unfold dkeys; apply in_map_iff; eexists; split; [|exact E]; reflexivity|].
      rewrite G in E. destruct (dget kw k) eqn:E'; [discriminate|]. apply dget_none_notin in E'. contradiction. }
    assert (B : (smem "data" (dkeys (pair_options vhist vkde kw)) || smem "hue" (dkeys (pair_options vhist vkde kw)))%bool = true).
    { destruct H as [H|H]; apply S in H; rewrite H; [reflexivity|apply orb_true_r]. }
    split; intros dh E; [unfold pairplot|unfold circ_pairplot]; rewrite E; cbn [bind]; unfold call_seaborn; rewrite B; reflexivity.
Qed.

Definition pframe (r : res (df F64 * option string)) := rmap (fun dh => (nrows (fst dh), dfshow (fst dh), snd dh)) r.
Definition bins0 : F64 * F64 := (default_bin0, default_bin1).
(** Three bound stars, the second one without finite circularity, no dark matter, one gas
    particle; and a galaxy in the plane z = 0. *)
Definition boundG : res (galaxy F64) := lineG (zl [(1,1,1,(-2,1)); (-3,1,0,(-1,1)); (-2,1,0,(-1,1))])%Z [] (zl [(5,1,0,(-501,1000))])%Z.
Definition planarG : res (galaxy F64) := lineG (zl [(1,1,0,(-2,1)); (2,1,0,(-1,1))])%Z [] (zl [(5,1,0,(-501,1000))])%Z.
Definition cut06 : decomposer F64 unit := jthreshold (fun _ => 7%Z) bins0 (nlit 3 5).

(** Colour by type with a dictionary, and by an array. *)
Example ex_c56 :
  pframe (do g <- boundG; get_df_and_hue g PTNone (Some ["y"; "x"]%string) (LName "ptype") (MDict [(CStr "gas", CStr "Gas")])) =
  Ok (4%nat, [("ptype", [ShS "stars"; ShS "stars"; ShS "stars"; ShS "Gas"]);
              ("x", [ShF (sZ 1); ShF (sZ (-3)); ShF (sZ (-2)); ShF (sZ 5)]);
              ("y", [ShF (sZ 0); ShF (sZ 0); ShF (sZ 0); ShF (sZ 0)])]%string, Some "ptype"%string) /\
  pframe (do g <- boundG; get_df_and_hue g (PTList ["stars"%string]) (Some ["x"%string]) (LArr [CInt 1; CNum (fZ 0); CInt 2]) (MDict [(CInt 0, CStr "a"); (CNum (fZ 2), CStr "b")])) =
  Ok (3%nat, [("Labels", [ShI 1; ShS "a"; ShS "b"]); ("x", [ShF (sZ 1); ShF (sZ (-3)); ShF (sZ (-2))])]%string, Some "Labels"%string) /\
  exn_of (do g <- boundG; get_df_and_hue g PTNone None (LArr [CInt 1]) MNone) = Some ValueError /\
  exn_of (do g <- boundG; get_df_and_hue g PTNone None (LName "nope") MNone) = Some KeyError /\
  exn_of (do g <- boundG; get_df_and_hue g PTNone (Some ["softening"%string]) LNone MNone) = Some ValueError.
Proof. vm_compute. auto. Qed.

(** The empty dark matter takes two labels: two rows that no particle has. *)
Example ex_c56_blank :
  pframe (do g <- boundG; get_df_and_hue g (PTList ["dark_matter"%string]) (Some ["x"%string]) (LArr [CInt 1; CInt 2]) MNone) =
  Ok (2%nat, [("Labels", [ShI 1; ShI 2]); ("x", [ShF S754_nan; ShF S754_nan])]%string, Some "Labels"%string).
Proof. vm_compute. auto. Qed.

(** So an array of the wrong length is not always refused. *)
Lemma c56_length_refuted : exists (g : galaxy F64) sel l d h, constructible g /\
  list_sum (map plen (filter (selected sel) (sets g))) = 0%nat /\ filter (selected sel) (sets g) <> [] /\ length l = 2%nat /\
  get_df_and_hue g sel None (LArr l) MNone = Ok (d, h) /\ nrows d = 2%nat.
Proof.
  assert (H : match boundG with
              | Ok g => match get_df_and_hue g (PTList ["dark_matter"%string]) None (LArr [CInt 1; CInt 2]) MNone with
                        | Ok (d, _) => (nrows d =? 2)%nat && (length (filter (selected (PTList ["dark_matter"%string])) (sets g)) =? 1)%nat &&
                                       (list_sum (map plen (filter (selected (PTList ["dark_matter"%string])) (sets g))) =? 0)%nat
                        | _ => false end
              | _ => false end = true) by (vm_compute; reflexivity).
  destruct boundG as [g|] eqn:Eg; [|discriminate].
  destruct (get_df_and_hue g (PTList ["dark_matter"%string]) None (LArr [CInt 1; CInt 2]) MNone) as [[d h]|] eqn:Ed; [|discriminate].
  apply andb_prop in H as [H H3]. apply andb_prop in H as [H1 H2]. apply Nat.eqb_eq in H1, H2, H3.
  exists g, (PTList ["dark_matter"%string]), [CInt 1; CInt 2], d, h. split; [eapply lineG_ok; exact Eg|]. split; [exact H3|].
  split; [intros E; rewrite E in H2; discriminate|]. split; [reflexivity|]. split; [exact Ed|exact H1].
Qed.

(** The labels of a threshold decomposition and of the types, drawn. *)
Example ex_c56_components :
  pframe (do g <- boundG; do c <- decompose asort cut06 tt g; get_df_and_hue g PTNone (Some ["x"%string]) (LComp (fst c)) MNone) =
  Ok (4%nat, [("Labels", [ShF (sZ 1); ShF S754_nan; ShF (sZ 0); ShF S754_nan]);
              ("x", [ShF (sZ 1); ShF (sZ (-3)); ShF (sZ (-2)); ShF (sZ 5)])]%string, Some "Labels"%string).
Proof. vm_compute. auto. Qed.

(** The second star is not drawn; the labels of the other two are their own. An array whose
    finite labels are those of the second and third star is accepted as well, and then the first
    star is drawn with the label of the second. *)
Example ex_c57 :
  pframe (do g <- boundG; do c <- decompose asort cut06 tt g;
          get_circ_df_and_hue asort g bins0 (Some ["eps"; "eps_r"]%string) (LComp (fst c)) (MDict [(CInt 1, CStr "Disk")])) =
  Ok (2%nat, [("Labels", [ShS "Disk"; ShF (sZ 0)]); ("eps", [ShF (sZ 1); ShF (sZ (-1))]); ("eps_r", [ShF (sZ 5); ShF (sZ 0)])]%string, Some "Labels"%string) /\
  pframe (do g <- boundG; get_circ_df_and_hue asort g bins0 (Some ["eps_r"%string]) (LName "eps") MNone) =
  Ok (2%nat, [("eps", [ShF (sZ 1); ShF (sZ (-1))]); ("eps_r", [ShF (sZ 5); ShF (sZ 0)])]%string, Some "eps"%string) /\
  pframe (do g <- boundG; get_circ_df_and_hue asort g bins0 (Some ["eps"%string]) (LArr [CNum nnan; CInt 5; CInt 6]) MNone) =
  Ok (2%nat, [("Labels", [ShI 5; ShI 6]); ("eps", [ShF (sZ 1); ShF (sZ (-1))])]%string, Some "Labels"%string) /\
  exn_of (do g <- boundG; get_circ_df_and_hue asort g bins0 None (LArr [CInt 5; CInt 6; CInt 7]) MNone) = Some ValueError /\
  exn_of (do g <- boundG; get_circ_df_and_hue asort g bins0 None (LArr [CInt 5; CStr "disk"]) MNone) = Some TypeError /\
  exn_of (do g <- boundG; get_circ_df_and_hue asort g bins0 None (LName "ptype") MNone) = Some KeyError /\
  exn_of (do g <- sampleG; get_circ_df_and_hue asort g bins0 None LNone MNone) = Some ValueError.
Proof. vm_compute. auto 10. Qed.

(** It meets the hypotheses of the theorem about decompositions. *)
Example ex_c57_decompose : exists (g : galaxy F64) c j, constructible g /\ one_row_each g (d_attributes cut06) /\ d_mask cut06 = stars_mask /\
  (forall st X y a l p s, d_split cut06 st X y a = Ok (l, p, s) -> length l = length X /\ forall z, In z l -> nfin (nofZ z : F64) = true) /\
  decompose asort cut06 tt g = Ok (c, tt) /\ jcirc asort g (fst (d_cbins cut06)) (snd (d_cbins cut06)) = Ok j /\
  (forall o, In o (star_orbits g) -> bound o = true) /\
  (forall i, finite_star j i <-> forall a, In a (d_attributes cut06) -> exists v, attribute j (g_stars g) i a v /\ finite_cell v).
Proof.
  assert (H : match boundG with
              | Ok g => match decompose asort cut06 tt g with
                        | Ok (c, _) => match jcirc asort g (fst bins0) (snd bins0) with
                                       | Ok j => forallb bound (star_orbits g) &&
                                          match jc_isfinite j with Ok [true; false; true] => true | _ => false end &&
                                          match map nfin (jc_eps j) with [true; false; true] => true | _ => false end
                                       | _ => false end
                        | _ => false end
              | _ => false end = true) by (vm_compute; reflexivity).
  destruct boundG as [g|] eqn:Eg; [|discriminate]. destruct (decompose asort cut06 tt g) as [[c u]|] eqn:Ed; [|discriminate]. destruct u.
  destruct (jcirc asort g (fst bins0) (snd bins0)) as [j|] eqn:Ej; [|discriminate].
  apply andb_prop in H as [H H3]. apply andb_prop in H as [H1 H2]. rewrite forallb_forall in H1.
  assert (Cg : constructible g) by (eapply lineG_ok; exact Eg).
  exists g, c, j. split; [exact Cg|]. split; [intros [H0|[]]; discriminate H0|]. split; [reflexivity|]. split.
  { intros st X y a l p s E. unfold cut06 in E. cbn [d_split jthreshold] in E.
    assert (S : exists l', jthreshold_split (N:=F64) (fun _ => 7%Z) (nlit 3 5) X = Ok l' /\ length l' = length X /\
      forall r e, nth_error (matrix_col 0 X) r = Some e ->
        nth_error l' r = Some (if nlt (nlit 3 5) e then 1%Z else if nle e (nlit 3 5) then 0%Z else 7%Z))
      by exact (jthreshold_split_spec (F64_rounded (seqsum 53 1024 p53 e1024)) (fun _ => 7%Z) (nlit 3 5 : F64) X).
    destruct S as (l' & El & Ll & Hv). rewrite El in E. cbn [bind] in E. injection E as <- _ _.
    split; [exact Ll|]. intros z Hz. apply In_nth_error in Hz as [i Hi].
    assert (Hi' : (i < length (matrix_col 0 X))%nat) by (unfold matrix_col; rewrite map_length, <- Ll; apply nth_error_Some; congruence).
    destruct (nth_error (matrix_col 0 X) i) as [e|] eqn:Ee; [|apply nth_error_None in Ee; lia].
    specialize (Hv i e Ee). rewrite Hi in Hv.
    destruct (nlt _ e); [|destruct (nle e _)]; apply (f_equal (fun o => match o with Some w => w | None => z end)) in Hv; cbv iota beta in Hv; rewrite Hv; vm_compute; reflexivity. }
  split; [exact Ed|]. split; [exact Ej|]. split; [exact H1|].
  destruct (jc_isfinite j) as [m|] eqn:Em; [|discriminate]. destruct (isfinite_mask j m Em) as (L1 & L2 & L3).
  assert (M : forall i, nth_error m i = Some true <-> nth_error (map nfin (jc_eps j)) i = Some true).
  { destruct m as [|[|] [|[|] [|[|] [|]]]]; try discriminate. destruct (map nfin (jc_eps j)) as [|[|] [|[|] [|[|] [|]]]]; try discriminate. tauto. }
  assert (TS : p_type (g_stars g) = STARS).
  { apply constructible_ok in Cg. apply gal_ok_facts in Cg as [gf_s0 gf_d0 gf_g0 gf_ts0 gf_td0 gf_tg0 gf_hs0 gf_hd0 gf_hg0]. exact gf_ts0. }
  intros i. rewrite <- L3, M, nth_error_map. change (d_attributes cut06) with ["eps"%string]. split.
  - intros H a [<-|[]]. destruct (nth_error (jc_eps j) i) as [w|] eqn:W; [|discriminate]. injection H as H. exists (CNum w). split; [|exact H].
    left. split; [unfold circ_attr; simpl; tauto|]. split; [exact TS|]. exists w. auto.
  - intros U. destruct (U "eps"%string (or_introl eq_refl)) as (v & [(_ & _ & w & W & Ev)|[(_ & T & _)|(C & _)]] & Fv).
    + subst v. change (circ_col j "eps") with (jc_eps j) in W. rewrite W. simpl. f_equal. exact Fv.
    + now rewrite TS in T.
    + exfalso. apply C. unfold circ_attr. simpl. tauto.
Qed.

(** In a galaxy whose particles all move in the plane z = 0 every eps_r is NaN, so that no
    star is drawn; a threshold decomposition labels every star, and its labels are drawn beside
    rows of NaN. *)
Lemma c57_planar_refuted : exists (g : galaxy F64) c j d, constructible g /\ (forall o, In o (star_orbits g) -> bound o = true) /\
  decompose asort cut06 tt g = Ok (c, tt) /\ jcirc asort g (fst (d_cbins cut06)) (snd (d_cbins cut06)) = Ok j /\
  plen (g_stars g) = 2%nat /\ (forall i, (i < 2)%nat -> finite_label (map CNum (c_labels c)) i) /\
  (forall w, In w (jc_eps j) -> nfin w = true) /\
  get_circ_df_and_hue asort g (d_cbins cut06) None (LComp c) MNone = Ok (d, Some "Labels"%string) /\ nrows d = 2%nat /\
  forall i, (i < 2)%nat -> cell_at d "eps" i = Some (CNum nnan).
Proof.
  assert (H : match planarG with
              | Ok g => match decompose asort cut06 tt g with
                        | Ok (c, _) => match jcirc asort g (fst bins0) (snd bins0) with
                                       | Ok j => forallb bound (star_orbits g) && forallb nfin (jc_eps j) && (plen (g_stars g) =? 2)%nat &&
                                          forallb (fun w => negb (nfin w)) (jc_eps_r j) && match map nfin (c_labels c) with [true; true; false] => true | _ => false end
                                       | _ => false end
                        | _ => false end
              | _ => false end = true) by (vm_compute; reflexivity).
  destruct planarG as [g|] eqn:Eg; [|discriminate]. destruct (decompose asort cut06 tt g) as [[c u]|] eqn:Ed; [|discriminate]. destruct u.
  destruct (jcirc asort g (fst bins0) (snd bins0)) as [j|] eqn:Ej; [|discriminate].
  apply andb_prop in H as [H H5]. apply andb_prop in H as [H H4]. apply andb_prop in H as [H H3]. apply andb_prop in H as [H1 H2].
  rewrite forallb_forall in H1, H2, H4. apply Nat.eqb_eq in H3. assert (Cg : constructible g) by (eapply lineG_ok; exact Eg).
  set (l := map CNum (c_labels c)).
  assert (ML : map cell_finite l = map nfin (c_labels c)) by (unfold l; rewrite map_map; reflexivity).
  assert (E5 : map cell_finite l = [true; true; false]).
  { rewrite ML. destruct (map nfin (c_labels c)) as [|[|] [|[|] [|[|] [|]]]]; try discriminate. reflexivity. }
  assert (FinM : forall k, nth_error [true; true; false] k = Some true <-> finite_label l k) by (intros k; rewrite <- E5; apply finite_mask).
  assert (NF : forall i, ~ finite_star j i).
  { intros i F. destruct (F "eps_r"%string) as (w & W & Fw); [unfold circ_attr; simpl; tauto|]. change (circ_col j "eps_r") with (jc_eps_r j) in W.
    apply nth_error_In, H4 in W. rewrite Fw in W. discriminate. }
  destruct (c57_blank F64 (F64_rounded (seqsum 53 1024 p53 e1024)) asort g bins0 None (LComp c) l [true; true; false] MNone j Cg Ej H1 eq_refl) as (d & Dd & R & Nn & _).
  - intros s I. unfold l in I. apply in_map_iff in I as (x & E & _). discriminate.
  - exact FinM.
  - exact I.
  - intros k Hk. exact Hk.
  - right. exact NF.
  - exists g, c, j, d. split; [exact Cg|]. split; [exact H1|]. split; [exact Ed|]. split; [exact Ej|]. split; [exact H3|]. split.
    { intros i Hi. apply FinM. destruct i as [|[|i]]; [reflexivity|reflexivity|lia]. }
    split; [exact H2|]. split; [exact Dd|]. split; [exact R|]. intros i Hi. apply Nn; [simpl; tauto|exact Hi].
Qed.

(** The exact-arithmetic hypotheses hold for a single star on an inclined orbit. *)
Example ex_c57_exact : let g := galRP [(Part 1 1 0 0 0 1 1, -2)%R] in
  constructible g /\ regular g /\ (exists o, In o (all_orbits g) /\ bound o = true /\ o_jp o <> XR 0) /\
  (forall o, In o (star_orbits g) -> bound o = true).
Proof.
  intros g. destruct ex_c34 as (Hc & _ & _ & Hr & _). fold g in Hc, Hr.
  set (o := Orb (N:=RX) (XR (-1)) (XR 0) (XR (-1)) (XR 1)).
  assert (Eo : all_orbits g = [o]).
  { unfold all_orbits, orbits, energies, g, o; simpl. destruct (Req_EM_T 2 0); [lra|]. simpl.
    f_equal. f_equal; f_equal; lra. }
  assert (Bo : bound o = true).
  { unfold bound, o. cbn [o_e]. apply andb_true_intro. split; [apply nleRX; lra|reflexivity]. }
  assert (Jp : o_jp o = XR 1).
  { unfold o_jp, o; simpl. replace (0 * 0 + -1 * -1)%R with (1 * 1)%R by ring. rewrite sqrt_square by lra.
    destruct (Rlt_dec _ _); [lra|reflexivity]. }
  split; [exact Hc|]. split; [exact Hr|]. split.
  - exists o. rewrite Eo, Jp. split; [now left|]. split; [exact Bo|]. intros C. injection C as C. lra.
  - intros o' I. apply star_in_all in I. rewrite Eo in I. destruct I as [<-|[]]. exact Bo.
Qed.

(** A scatter plot and a pair plot as seaborn gets them. *)
Example ex_c60 :
  rmap (fun r => (d_fn r, d_x r, d_y r, d_hue r, d_opts r, dfshow (d_data r)))
    (do g <- boundG; scatter_plot (V:=Z) g "x" "y" (PTList ["gas"%string]) (LArr [CInt 3]) MNone [("s"%string, 7%Z)]) =
  Ok ("scatterplot", Some "x", Some "y", Some "Labels", [("s", 7%Z)],
      [("Labels", [ShI 3]); ("x", [ShF (sZ 5)]); ("y", [ShF (sZ 0)])])%string /\
  rmap (fun r => (d_fn r, d_opts r, dkeys (cols (d_data r))))
    (do g <- boundG; circ_pairplot asort 1%Z 2%Z g bins0 None (LName "eps") MNone [("diag_kind"%string, 9%Z)]) =
  Ok ("pairplot", [("diag_kind", 9%Z); ("kind", 1%Z)], ["eps"; "eps_r"; "normalized_star_Jz"; "normalized_star_energy"])%string /\
  exn_of (do g <- boundG; hist_plot (V:=Z) g "x" None PTNone LNone MNone [("hue"%string, 1%Z)]) = Some TypeError.
Proof. vm_compute. auto. Qed.
