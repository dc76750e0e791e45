(** Facts about data frames built from particle sets and galaxies. *)
From Verif Require Import Py Num Np Df Data DataFacts.

(** ** Names in first-occurrence order *)

Lemma dedup_In seen l k : In k (dedup seen l) <-> In k l /\ ~ In k seen.
Proof.
  revert seen; induction l as [|a l IH]; intros seen; simpl; [tauto|].
  destruct (smem a seen) eqn:E.
  - apply smem_In in E. rewrite IH. split; [tauto|].
    intros [[->|H] Hn]; tauto.
  - apply smem_false in E. simpl. rewrite IH. simpl. split.
    + intros [->|[H1 H2]]; [tauto|]. split; [auto|]. tauto.
    + intros [[->|H] Hn]; [auto|]. destruct (string_dec a k); [auto|]. right; tauto.
Qed.

Lemma dedup_NoDup seen l : NoDup (dedup seen l).
Proof.
  revert seen; induction l as [|a l IH]; intros seen; simpl; [constructor|].
  destruct (smem a seen) eqn:E; [apply IH|]. constructor; [|apply IH].
  rewrite dedup_In. simpl. tauto.
Qed.

Lemma dedup_incl_nil seen l : incl l seen -> dedup seen l = [].
Proof.
  revert seen; induction l as [|a l IH]; intros seen H; simpl; [reflexivity|].
  assert (In a seen) as Ha by (apply H; simpl; auto). apply smem_In in Ha. rewrite Ha.
  apply IH. intros k Hk. apply H; simpl; auto.
Qed.

Lemma dedup_app seen l l' : dedup seen (l ++ l') = dedup seen l ++ dedup (rev l ++ seen) l'.
Proof.
  revert seen; induction l as [|a l IH]; intros seen; simpl; [reflexivity|].
  destruct (smem a seen) eqn:E; rewrite IH.
  - f_equal. rewrite <- app_assoc. simpl.
    apply smem_In in E.
    (* membership in the seen list is all that matters *)
    assert (G : forall s s', (forall k, In k s <-> In k s') -> dedup s l' = dedup s' l').
    { clear. induction l' as [|b l' IH]; intros s s' H; simpl; [reflexivity|].
      assert (smem b s = smem b s') as ->.
      { destruct (smem b s) eqn:A, (smem b s') eqn:B; auto.
        - apply smem_In in A. apply smem_false in B. firstorder.
        - apply smem_In in B. apply smem_false in A. firstorder. }
      destruct (smem b s'); [auto|]. f_equal. apply IH. intros k; simpl. rewrite H; tauto. }
    apply G. intros k. rewrite !in_app_iff. simpl. split; [tauto|].
    intros [?|[->|?]]; auto.
  - simpl. f_equal. f_equal. now rewrite <- app_assoc.
Qed.

Lemma dedup_nodup_id l seen : NoDup l -> (forall k, In k l -> ~ In k seen) -> dedup seen l = l.
Proof.
  revert seen; induction l as [|a l IH]; intros seen Hnd H; simpl; [reflexivity|].
  inversion Hnd; subst.
  assert (E : smem a seen = false) by (apply smem_false, H; simpl; auto).
  rewrite E. f_equal. apply IH; auto.
  intros k Hk [->|Hs]; [auto|]. eapply H; simpl; eauto.
Qed.

Section DfFacts.
Context {N : Num}.

(** ** Column dictionaries of a particle set *)

Definition keyed {V} (f : string -> V) (ks : list string) : dict V := map (fun k => (k, f k)) ks.

Lemma dkeys_keyed {V} (f : string -> V) ks : dkeys (keyed f ks) = ks.
Proof. unfold dkeys, keyed. rewrite map_map. apply map_id. Qed.

Lemma dget_keyed {V} (f : string -> V) ks k :
  dget (keyed f ks) k = if smem k ks then Some (f k) else None.
Proof.
  induction ks as [|a ks IH]; simpl; [reflexivity|].
  unfold smem; simpl. destruct (String.eqb_spec k a) as [->|]; simpl; auto.
Qed.

Lemma dset_keyed {V} (f : string -> V) ks k :
  dset (keyed f ks) k (f k) = if smem k ks then keyed f ks else keyed f (ks ++ [k]).
Proof.
  induction ks as [|a ks IH]; simpl; [reflexivity|].
  unfold smem in *; simpl. destruct (String.eqb_spec k a) as [->|]; simpl; [reflexivity|].
  unfold keyed in *; rewrite IH. destruct (existsb (String.eqb k) ks); reflexivity.
Qed.

Lemma fill_columns_keyed makers (f : string -> coldata N) attrs ks :
  (forall k, In k attrs -> dget makers k = Some (f k)) ->
  fill_columns makers (keyed f ks) attrs = Ok (keyed f (ks ++ dedup ks attrs)).
Proof.
  revert ks; induction attrs as [|a attrs IH]; intros ks H; simpl.
  - now rewrite app_nil_r.
  - rewrite H by (simpl; auto). rewrite dset_keyed.
    destruct (smem a ks) eqn:E.
    + apply IH. intros k Hk; apply H; simpl; auto.
    + rewrite IH by (intros k Hk; apply H; simpl; auto).
      rewrite <- app_assoc. simpl. do 3 f_equal.
      (* seen lists differ only by order *)
      f_equal.
      assert (G : forall s s' l', (forall k, In k s <-> In k s') -> dedup s l' = dedup s' l').
      { clear. intros s s' l'; revert s s'; induction l' as [|b l' IH]; intros s s' H; simpl; [reflexivity|].
        assert (smem b s = smem b s') as ->.
        { destruct (smem b s) eqn:A, (smem b s') eqn:B; auto.
          - apply smem_In in A. apply smem_false in B. firstorder.
          - apply smem_In in B. apply smem_false in A. firstorder. }
        destruct (smem b s'); [auto|]. f_equal. apply IH. intros k; simpl. rewrite H; tauto. }
      apply G. intros k. rewrite in_app_iff. simpl. tauto.
Qed.

Lemma fill_columns_unknown makers attrs acc :
  (exists k, In k attrs /\ dget makers k = None) ->
  fill_columns (N:=N) makers acc attrs = Raise KeyError.
Proof.
  revert acc; induction attrs as [|a attrs IH]; intros acc (k & Hk & E); [easy|]. simpl.
  destruct (dget makers a) eqn:Ea; [|reflexivity].
  apply IH. destruct Hk as [->|Hk]; [congruence|eauto].
Qed.

(** The column maker for [k], and the column it becomes. *)
Definition maker (p : pset N) (k : string) : coldata N :=
  match dget (column_makers p) k with Some c => c | None => Scal cnan end.
Definition pcol (p : pset N) (k : string) : list (cell N) := broadcast (plen p) (maker p k).

Lemma dkeys_makers (p : pset N) : dkeys (column_makers p) = all_attributes.
Proof. reflexivity. Qed.

Lemma maker_known (p : pset N) k :
  In k all_attributes -> dget (column_makers p) k = Some (maker p k).
Proof.
  intros H. unfold maker. destruct (dget (column_makers p) k) eqn:E; [reflexivity|].
  apply dget_none_notin in E. rewrite dkeys_makers in E. contradiction.
Qed.

(** Is attribute [k] of [p] an array (as opposed to a scalar)? *)
Definition is_array (p : pset N) (k : string) : bool :=
  match maker p k with Arr _ => true | Scal _ => false end.

Lemma maker_len p k : pset_ok p -> has_len (plen p) (maker p k) = true.
Proof.
  intros H. pose proof (pset_ok_lengths _ H) as (A & B & C & D & E & F & G & I & J & K & L & M).
  unfold maker. destruct (dget (column_makers p) k) as [c|] eqn:Ec; [|reflexivity].
  apply dget_In in Ec. unfold column_makers in Ec. simpl in Ec.
  repeat destruct Ec as [Ec|Ec]; try contradiction; injection Ec as _ <-; simpl;
    rewrite ?map_length, ?repeat_length; try (apply Nat.eqb_eq; assumption); try reflexivity.
  - apply Nat.eqb_refl.
  - apply Nat.eqb_refl.
  - apply Nat.eqb_refl.
  - destruct (p_pot p) eqn:Ep; [|reflexivity]. simpl. rewrite map_length. apply Nat.eqb_eq; auto.
  - destruct (p_te p) eqn:Ep; [|reflexivity]. simpl. rewrite map_length. apply Nat.eqb_eq; auto.
Qed.

Lemma pcol_length p k : pset_ok p -> length (pcol p k) = plen p.
Proof.
  intros H. pose proof (maker_len p k H) as L. unfold pcol.
  destruct (maker p k); simpl in *; [now apply Nat.eqb_eq | apply repeat_length].
Qed.

Lemma first_len_keyed p ks : pset_ok p ->
  first_len (keyed (maker p) ks) = if existsb (is_array p) ks then Some (plen p) else None.
Proof.
  intros H. induction ks as [|k ks IH]; simpl; [reflexivity|].
  pose proof (maker_len p k H) as L. unfold is_array at 1.
  destruct (maker p k) as [l|c] eqn:E; simpl in *; [|exact IH].
  apply Nat.eqb_eq in L. now rewrite L.
Qed.

Lemma mk_df_keyed p ks : pset_ok p -> existsb (is_array p) ks = true ->
  mk_df (keyed (maker p) ks) = Ok (mkDf (plen p) (keyed (pcol p) ks)).
Proof.
  intros H E. unfold mk_df. destruct ks as [|k0 ks']; [discriminate|].
  rewrite first_len_keyed, E by auto.
  change (keyed (maker p) (k0 :: ks')) with ((k0, maker p k0) :: keyed (maker p) ks').
  cbv iota. change ((k0, maker p k0) :: keyed (maker p) ks') with (keyed (maker p) (k0 :: ks')).
  generalize (k0 :: ks'). intros ks.
  assert (F : forallb (fun kc => has_len (plen p) (snd kc)) (keyed (maker p) ks) = true).
  { apply forallb_forall. intros [k c] Hk. unfold keyed in Hk. apply in_map_iff in Hk as (k' & Hk' & _).
    injection Hk' as <- <-. now apply maker_len. }
  rewrite F. unfold keyed. rewrite map_map. reflexivity.
Qed.

Lemma existsb_dedup (f : string -> bool) l : existsb f (dedup [] l) = existsb f l.
Proof.
  destruct (existsb f l) eqn:E.
  - apply existsb_exists in E as (x & Hx & Hf). apply existsb_exists. exists x. split; auto.
    apply dedup_In. simpl; tauto.
  - destruct (existsb f (dedup [] l)) eqn:E'; [|reflexivity].
    apply existsb_exists in E' as (x & Hx & Hf). apply dedup_In in Hx as [Hx _].
    assert (existsb f l = true) by (apply existsb_exists; eauto). congruence.
Qed.

Definition attrs_of (a : option (list string)) : list string :=
  match a with None => all_attributes | Some l => l end.

Lemma pset_to_df_ok p a : pset_ok p ->
  incl (attrs_of a) all_attributes -> existsb (is_array p) (attrs_of a) = true ->
  pset_to_df p a = Ok (mkDf (plen p) (keyed (pcol p) (dedup [] (attrs_of a)))).
Proof.
  intros H I E. unfold pset_to_df. fold (attrs_of a).
  change (@nil (string * coldata N)) with (keyed (maker p) []).
  rewrite (fill_columns_keyed _ (maker p)) by (intros k Hk; apply maker_known; auto).
  cbn [bind app]. apply mk_df_keyed; auto. now rewrite existsb_dedup.
Qed.

Lemma pset_to_df_scalars p l : pset_ok p -> l <> [] ->
  incl l all_attributes -> existsb (is_array p) l = false ->
  pset_to_df p (Some l) = Raise ValueError.
Proof.
  intros H Hn I E. unfold pset_to_df.
  change (@nil (string * coldata N)) with (keyed (maker p) []).
  rewrite (fill_columns_keyed _ (maker p)) by (intros k Hk; apply maker_known; auto).
  cbn [bind app]. unfold mk_df. rewrite first_len_keyed by auto. rewrite existsb_dedup, E.
  destruct l as [|a l]; [easy|]. simpl. reflexivity.
Qed.

Lemma pset_to_df_unknown p l : ~ incl l all_attributes ->
  pset_to_df (N:=N) p (Some l) = Raise KeyError.
Proof.
  intros H. unfold pset_to_df. rewrite fill_columns_unknown; [reflexivity|].
  assert (D : forall l', {incl l' all_attributes} + {exists k, In k l' /\ ~ In k all_attributes}).
  { clear. induction l' as [|a l' [IH|IH]].
    - left. intros k [].
    - destruct (in_dec string_dec a all_attributes) as [Ha|Ha].
      + left. intros k [<-|Hk]; auto.
      + right. exists a. simpl; auto.
    - right. destruct IH as (k & Hk & Hn). exists k; simpl; auto. }
  destruct (D l) as [Hi|(k & Hk & Hn)]; [contradiction|].
  exists k. split; [auto|]. apply dget_none_notin. now rewrite dkeys_makers.
Qed.

Lemma pset_to_df_nil p : pset_to_df (N:=N) p (Some []) = Ok (mkDf 0 []).
Proof. reflexivity. Qed.

(** ** Galaxy frames *)

Lemma concat_rows_keyed (l : list (pset N)) ks :
  l <> [] -> NoDup ks ->
  concat_rows (map (fun p => mkDf (plen p) (keyed (pcol p) ks)) l) =
  Ok (mkDf (list_sum (map plen l)) (keyed (fun k => flat_map (fun p => pcol p k) l) ks)).
Proof.
  intros Hl Hnd. unfold concat_rows.
  destruct (map _ l) eqn:E; [destruct l; easy|]. rewrite <- E. clear E.
  f_equal. f_equal; [rewrite map_map; reflexivity|].
  assert (K : dedup [] (flat_map (fun p => dkeys (cols p))
      (map (fun p => mkDf (plen p) (keyed (pcol p) ks)) l)) = ks).
  { rewrite flat_map_concat_map, map_map. simpl.
    rewrite (map_ext _ (fun _ => ks)) by (intros; apply dkeys_keyed).
    destruct l as [|p l]; [easy|]. simpl. rewrite dedup_app.
    rewrite dedup_nodup_id by auto. rewrite dedup_incl_nil; [now rewrite app_nil_r|].
    intros k Hk. rewrite app_nil_r. apply in_rev. rewrite rev_involutive.
    apply in_concat in Hk as (x & Hx & Hk). apply in_map_iff in Hx as (? & <- & _). exact Hk. }
  rewrite K. unfold keyed. apply map_ext_in. intros k Hk. f_equal.
  rewrite !flat_map_concat_map, map_map. f_equal. apply map_ext. intros p.
  unfold col_or_nan. simpl. fold (keyed (pcol p) ks). rewrite dget_keyed.
  apply smem_In in Hk. now rewrite Hk.
Qed.

Lemma to_df_ok g sel a : gal_ok g ->
  incl (attrs_of a) all_attributes ->
  (forall p, In p (filter (selected sel) (psets g)) -> existsb (is_array p) (attrs_of a) = true) ->
  filter (selected sel) (psets g) <> [] ->
  to_df g sel a =
  Ok (mkDf (list_sum (map plen (filter (selected sel) (psets g))))
       (keyed (fun k => flat_map (fun p => pcol p k) (filter (selected sel) (psets g)))
              (dedup [] (attrs_of a)))).
Proof.
  intros Hg Hi Ha Hn. unfold to_df.
  rewrite (mapM_total _ (fun p => mkDf (plen p) (keyed (pcol p) (dedup [] (attrs_of a))))).
  - cbn [bind]. apply concat_rows_keyed; auto. apply dedup_NoDup.
  - intros p Hp. apply pset_to_df_ok; auto.
    apply filter_In in Hp as [Hp _]. apply gal_ok_facts in Hg as [].
    simpl in Hp. destruct Hp as [<-|[<-|[<-|[]]]]; auto.
Qed.

(** All-galaxy column [k]. *)
Definition gcol (g : galaxy N) (k : string) : list (cell N) :=
  pcol (g_stars g) k ++ pcol (g_dm g) k ++ pcol (g_gas g) k.

Lemma to_df_all g a : gal_ok g -> incl (attrs_of a) all_attributes ->
  (forall p, In p (psets g) -> existsb (is_array p) (attrs_of a) = true) ->
  to_df g PTNone a = Ok (mkDf (glen g) (keyed (gcol g) (dedup [] (attrs_of a)))).
Proof.
  intros Hg Hi Ha. rewrite to_df_ok; auto.
  - simpl. f_equal. f_equal.
    + unfold glen. lia.
    + unfold keyed. apply map_ext. intros k. unfold gcol. now rewrite app_nil_r.
  - simpl. discriminate.
Qed.

Lemma get_col_keyed n (f : string -> list (cell N)) ks k :
  In k ks -> get_col (mkDf n (keyed f ks)) k = Ok (f k).
Proof. intros H. unfold get_col; simpl. rewrite dget_keyed. apply smem_In in H. now rewrite H. Qed.

Lemma to_numpy_app (a b : list (cell N)) : to_numpy (a ++ b) = to_numpy a ++ to_numpy b.
Proof. apply map_app. Qed.
Lemma pcol_num_x p : pset_ok p -> to_numpy (pcol p "x") = p_x p. Proof. intros _. unfold pcol, maker; simpl. unfold to_numpy. rewrite map_map. apply map_id. Qed.
Lemma pcol_num_y p : pset_ok p -> to_numpy (pcol p "y") = p_y p. Proof. intros _. unfold pcol, maker; simpl. unfold to_numpy. rewrite map_map. apply map_id. Qed.
Lemma pcol_num_z p : pset_ok p -> to_numpy (pcol p "z") = p_z p. Proof. intros _. unfold pcol, maker; simpl. unfold to_numpy. rewrite map_map. apply map_id. Qed.
Lemma pcol_num_m p : pset_ok p -> to_numpy (pcol p "m") = p_m p. Proof. intros _. unfold pcol, maker; simpl. unfold to_numpy. rewrite map_map. apply map_id. Qed.
Lemma pcol_num_vx p : pset_ok p -> to_numpy (pcol p "vx") = p_vx p. Proof. intros _. unfold pcol, maker; simpl. unfold to_numpy. rewrite map_map. apply map_id. Qed.
Lemma pcol_num_vy p : pset_ok p -> to_numpy (pcol p "vy") = p_vy p. Proof. intros _. unfold pcol, maker; simpl. unfold to_numpy. rewrite map_map. apply map_id. Qed.
Lemma pcol_num_vz p : pset_ok p -> to_numpy (pcol p "vz") = p_vz p. Proof. intros _. unfold pcol, maker; simpl. unfold to_numpy. rewrite map_map. apply map_id. Qed.
Lemma pcol_num_Jx p : pset_ok p -> to_numpy (pcol p "Jx") = p_Jx p. Proof. intros _. unfold pcol, maker; simpl. unfold to_numpy. rewrite map_map. apply map_id. Qed.
Lemma pcol_num_Jy p : pset_ok p -> to_numpy (pcol p "Jy") = p_Jy p. Proof. intros _. unfold pcol, maker; simpl. unfold to_numpy. rewrite map_map. apply map_id. Qed.
Lemma pcol_num_Jz p : pset_ok p -> to_numpy (pcol p "Jz") = p_Jz p. Proof. intros _. unfold pcol, maker; simpl. unfold to_numpy. rewrite map_map. apply map_id. Qed.

Lemma pcol_num_pot p : to_numpy (pcol p "potential") =
  match p_pot p with Some l => l | None => repeat nnan (plen p) end.
Proof.
  unfold pcol, maker; simpl. destruct (p_pot p); simpl; unfold to_numpy.
  - rewrite map_map. apply map_id.
  - generalize (plen p). induction n; simpl; congruence.
Qed.
Lemma pcol_num_te p : to_numpy (pcol p "total_energy") =
  match p_te p with Some l => l | None => repeat nnan (plen p) end.
Proof.
  unfold pcol, maker; simpl. destruct (p_te p); simpl; unfold to_numpy.
  - rewrite map_map. apply map_id.
  - generalize (plen p). induction n; simpl; congruence.
Qed.
Lemma pcol_ptypev (p : pset N) : pcol p "ptypev" = repeat (CInt (ptype_value (p_type p))) (plen p).
Proof. reflexivity. Qed.
Lemma pcol_soft (p : pset N) : to_numpy (pcol p "softening") = repeat (p_soft p) (plen p).
Proof. unfold pcol, maker; simpl. generalize (plen p). induction n; simpl; congruence. Qed.

(** ** Keyword round trip *)

Definition kwpot (o : option (list N)) : kwval N := match o with Some l => KArr l | None => KNone end.

Lemma mk_pset_kw_ok kw sfx t m x y z vx vy vz pot s :
  dget kw ("m_" ++ sfx)%string = Some (KArr m) ->
  dget kw ("x_" ++ sfx)%string = Some (KArr x) ->
  dget kw ("y_" ++ sfx)%string = Some (KArr y) ->
  dget kw ("z_" ++ sfx)%string = Some (KArr z) ->
  dget kw ("vx_" ++ sfx)%string = Some (KArr vx) ->
  dget kw ("vy_" ++ sfx)%string = Some (KArr vy) ->
  dget kw ("vz_" ++ sfx)%string = Some (KArr vz) ->
  dget kw ("potential_" ++ sfx)%string = Some (kwpot pot) ->
  dget kw ("softening_" ++ sfx)%string = Some (KNum s) ->
  mk_pset_kw kw t sfx = mk_pset t m x y z vx vy vz pot s.
Proof.
  intros H1 H2 H3 H4 H5 H6 H7 H8 H9. unfold mk_pset_kw, kw_array, kw_pot, kw_soft.
  rewrite H1, H2, H3, H4, H5, H6, H7, H8, H9. destruct pot; reflexivity.
Qed.

End DfFacts.
