(** Facts about the model of models/_base.py. *)
From Verif Require Import Py Num Np Df Data DataFacts DfFacts Circ Base Spec SpecCirc SpecBase.

Section Dicts.
Context {V : Type}.
Lemma dget_app (d e : dict V) k :
  dget (d ++ e) k = match dget d k with Some v => Some v | None => dget e k end.
Proof. induction d as [|[a v] d IH]; simpl; [reflexivity|]. destruct (String.eqb k a); auto. Qed.

Lemma dict_of_keyed (f : string -> V) ks : dict_of (map (fun a => (a, f a)) ks) = keyed f (dedup [] ks).
Proof.
  unfold dict_of, dupdate.
  assert (G : forall l s, fold_left (fun acc kv => dset acc (fst kv) (snd kv)) (map (fun a => (a, f a)) l) (keyed f s)
    = keyed f (s ++ dedup s l)).
  { induction l as [|a l IH]; intros s; simpl; [now rewrite app_nil_r|].
    rewrite dset_keyed. destruct (smem a s) eqn:E; [apply IH|]. rewrite IH, <- app_assoc. simpl. do 3 f_equal.
    assert (Q : forall s s' l', (forall k, In k s <-> In k s') -> dedup s l' = dedup s' l').
    { clear. intros s s' l'; revert s s'; induction l' as [|b l' IH]; intros s s' H; simpl; [reflexivity|].
      assert (smem b s = smem b s') as ->.
      { destruct (smem b s) eqn:A, (smem b s') eqn:B; auto.
        - apply smem_In in A. apply smem_false in B. firstorder.
        - apply smem_In in B. apply smem_false in A. firstorder. }
      destruct (smem b s'); [auto|]. f_equal. apply IH. intros k; simpl. rewrite H; tauto. }
    apply Q. intros k. rewrite in_app_iff. simpl. tauto. }
  exact (G ks []).
Qed.

Lemma dset_keyed_over (f : string -> V) ks k v : In k ks -> NoDup ks ->
  dset (keyed f ks) k v = keyed (fun a => if String.eqb a k then v else f a) ks.
Proof.
  induction ks as [|a ks IH]; simpl; [tauto|]. intros H Hn. inversion Hn as [|? ? Na Hn']; subst.
  rewrite (String.eqb_sym a k). destruct (String.eqb_spec k a) as [->|Hk].
  - f_equal. apply map_ext_in. intros b Hb. destruct (String.eqb_spec b a) as [->|]; [contradiction|reflexivity].
  - f_equal. apply IH; [|auto]. destruct H; [congruence|auto].
Qed.
End Dicts.

Section BaseFacts.
Context {N : Num}.

Lemma concat_rows_same (l : list (nat * (string -> list (cell N)))) ks : l <> [] -> NoDup ks ->
  concat_rows (map (fun nf => mkDf (fst nf) (keyed (snd nf) ks)) l) =
  Ok (mkDf (list_sum (map fst l)) (keyed (fun k => flat_map (fun nf => snd nf k) l) ks)).
Proof.
  intros Hl Hnd. unfold concat_rows.
  destruct (map _ l) eqn:E; [destruct l; easy|]. rewrite <- E. clear E.
  f_equal. f_equal; [rewrite map_map; reflexivity|].
  assert (K : dedup [] (flat_map (fun p => dkeys (cols p)) (map (fun nf => mkDf (fst nf) (keyed (snd nf) ks)) l)) = ks).
  { rewrite flat_map_concat_map, map_map. simpl.
    rewrite (map_ext _ (fun _ => ks)) by (intros; apply dkeys_keyed).
    destruct l as [|p l]; [easy|]. simpl. rewrite dedup_app.
    rewrite dedup_nodup_id by auto. rewrite dedup_incl_nil; [now rewrite app_nil_r|].
    intros k Hk. rewrite app_nil_r. apply in_rev. rewrite rev_involutive.
    apply in_concat in Hk as (x & Hx & Hk). apply in_map_iff in Hx as (? & <- & _). exact Hk. }
  rewrite K. unfold keyed. apply map_ext_in. intros k Hk. f_equal.
  rewrite !flat_map_concat_map, map_map. f_equal. apply map_ext. intros p.
  unfold col_or_nan. simpl. fold (keyed (snd p) ks). rewrite dget_keyed.
  apply smem_In in Hk. now rewrite Hk.
Qed.

Lemma mk_df_same (f : string -> coldata N) ks n :
  (exists k l, In k ks /\ f k = Arr l) -> (forall k, In k ks -> has_len n (f k) = true) ->
  mk_df (keyed f ks) = Ok (mkDf n (keyed (fun k => broadcast n (f k)) ks)).
Proof.
  intros (k & l & Hk & Ek) H. unfold mk_df.
  destruct (keyed f ks) as [|x d] eqn:E; [destruct ks; [destruct Hk|discriminate]|]. rewrite <- E. clear E x d.
  assert (first_len (keyed f ks) = Some n) as ->.
  { clear - Hk Ek H. induction ks as [|a ks IH]; [destruct Hk|]. simpl.
    pose proof (H a (or_introl eq_refl)) as Ha. destruct (f a) as [l'|c] eqn:Ea.
    - simpl in Ha. apply Nat.eqb_eq in Ha. now subst.
    - apply IH; [|intros; apply H; now right]. destruct Hk as [->|]; [congruence|auto]. }
  assert (forallb (fun kc => has_len n (snd kc)) (keyed f ks) = true) as ->.
  { apply forallb_forall. intros [a c] Hc. apply in_map_iff in Hc as (b & [= <- <-] & Hb). apply H, Hb. }
  do 2 f_equal. unfold keyed. now rewrite map_map.
Qed.

Lemma mk_df_differ (f : string -> coldata N) ks a b l l' : In a ks -> In b ks -> f a = Arr l -> f b = Arr l' ->
  length l <> length l' -> mk_df (keyed f ks) = Raise ValueError.
Proof.
  intros Ha Hb Ea Eb D. unfold mk_df.
  destruct (keyed f ks) as [|x d] eqn:E; [destruct ks; [destruct Ha|discriminate]|]. rewrite <- E. clear E x d.
  destruct (first_len _) as [n|]; [|reflexivity].
  destruct (forallb _ _) eqn:F; [|reflexivity]. exfalso. rewrite forallb_forall in F.
  pose proof (F (a, f a)) as Fa. pose proof (F (b, f b)) as Fb. simpl in Fa, Fb. rewrite Ea in Fa. rewrite Eb in Fb.
  simpl in Fa, Fb. assert (length l = n) by (apply Nat.eqb_eq, Fa; rewrite <- Ea; unfold keyed; apply in_map_iff; eauto).
  assert (length l' = n) by (apply Nat.eqb_eq, Fb; rewrite <- Eb; unfold keyed; apply in_map_iff; eauto). congruence.
Qed.

Lemma order_all (g : galaxy N) a : gal_ok g -> to_df g (PTList ptypes_order) a = to_df g PTNone a.
Proof.
  intros Hg. unfold to_df. f_equal. apply gal_ok_facts in Hg. destruct Hg.
  simpl. rewrite gf_ts, gf_td, gf_tg. reflexivity.
Qed.

(** Columns of the frame of circularities. *)
Definition circ (a : string) : bool := smem a circularity_attributes.
Lemma circ_attr_iff a : circ a = true <-> circ_attr a.
Proof. unfold circ. rewrite smem_In. unfold circ_attr, circularity_attributes. simpl. tauto. Qed.
Lemma circ_not_ptypev a : circ a = true -> (a =? "ptypev")%string = false.
Proof. intros H. destruct (String.eqb_spec a "ptypev") as [->|]; [discriminate|reflexivity]. Qed.

Definition ccol (g : galaxy N) (j : jcirc_t N) (n : nat) (a : string) : list (cell N) :=
  if (a =? "ptypev")%string
  then repeat (CInt (ptype_value STARS)) n ++ repeat (CInt (ptype_value DARK_MATTER)) (plen (g_dm g)) ++
       repeat (CInt (ptype_value GAS)) (plen (g_gas g))
  else map CNum (circ_col j a) ++ repeat cnan (plen (g_dm g)) ++ repeat cnan (plen (g_gas g)).

Lemma jcirc_dict_get (j : jcirc_t N) a : circ a = true \/ a = "ptypev"%string ->
  dget (jcirc_dict j) a = Some (if (a =? "ptypev")%string then Scal (CInt (ptype_value STARS)) else Arr (map CNum (circ_col j a))).
Proof.
  intros [H| ->]; [|reflexivity]. apply circ_attr_iff in H. simpl in H.
  destruct H as [<-|[<-|[<-|[<-|[]]]]]; reflexivity.
Qed.

Lemma nan_df_ok n t ks : In "ptypev"%string ks -> (exists a, In a ks /\ a <> "ptypev"%string) ->
  nan_df (N:=N) n t ks = Ok (mkDf n (keyed (fun a => if (a =? "ptypev")%string then repeat (CInt (ptype_value t)) n else repeat cnan n)
     (dedup [] ks))).
Proof.
  intros Hp (a & Ha & Na). unfold nan_df. rewrite (dict_of_keyed (fun _ => Arr (repeat cnan n))).
  rewrite dset_keyed_over; [|apply dedup_In; auto|apply dedup_NoDup]. rewrite (mk_df_same _ _ n).
  - do 2 f_equal. unfold keyed. apply map_ext. intros b. f_equal. now destruct (b =? "ptypev")%string.
  - exists a, (repeat cnan n). split; [apply dedup_In; auto|]. destruct (String.eqb_spec a "ptypev"); congruence.
  - intros b _. destruct (b =? "ptypev")%string; [reflexivity|]. simpl. now rewrite repeat_length, Nat.eqb_refl.
Qed.

Variable argsort : nat -> list N -> list nat.

Lemma get_jcirc_df_ok cb (g : galaxy N) j n attrs :
  jcirc argsort g (fst cb) (snd cb) = Ok j -> attrs <> [] -> (forall a, In a attrs -> circ a = true) ->
  (forall a, In a attrs -> length (circ_col j a) = n) ->
  get_jcirc_df argsort cb g (attrs ++ ["ptypev"%string]) =
  Ok (mkDf (n + plen (g_dm g) + plen (g_gas g)) (keyed (ccol g j n) (dedup [] (attrs ++ ["ptypev"%string])))).
Proof.
  intros Hj Hne Hc Hl. unfold get_jcirc_df. rewrite Hj. cbn [bind].
  set (ks := attrs ++ ["ptypev"%string]).
  assert (Hk : forall a, In a ks -> circ a = true \/ a = "ptypev"%string).
  { intros a Ha. apply in_app_iff in Ha as [Ha|[<-|[]]]; auto. }
  assert (Hp : In "ptypev"%string ks) by (apply in_app_iff; right; now left).
  assert (He : exists a, In a ks /\ a <> "ptypev"%string).
  { destruct attrs as [|a l]; [easy|]. exists a. split; [now left|]. intros ->. pose proof (Hc _ (or_introl eq_refl)). discriminate. }
  set (f := fun a => if (a =? "ptypev")%string then Scal (CInt (ptype_value STARS)) else Arr (map (@CNum N) (circ_col j a))).
  rewrite (mapM_total _ (fun a => (a, f a))).
  2:{ intros a Ha. now rewrite jcirc_dict_get by auto. }
  cbn [bind]. rewrite dict_of_keyed. rewrite (mk_df_same _ _ n).
  2:{ destruct He as (a & Ha & Na). exists a, (map CNum (circ_col j a)). split; [apply dedup_In; auto|].
      unfold f. destruct (String.eqb_spec a "ptypev"); congruence. }
  2:{ intros a Ha. apply dedup_In in Ha as [Ha _]. unfold f. destruct (String.eqb_spec a "ptypev") as [|Na]; [reflexivity|].
      simpl. rewrite map_length. apply Nat.eqb_eq, Hl. apply in_app_iff in Ha as [Ha|[Ha|[]]]; [auto|congruence]. }
  cbn [bind]. rewrite !nan_df_ok by auto. cbn [bind].
  pose proof (concat_rows_same
    [(n, fun a => broadcast n (f a));
     (plen (g_dm g), fun a => if (a =? "ptypev")%string then repeat (CInt (ptype_value DARK_MATTER)) (plen (g_dm g)) else repeat cnan (plen (g_dm g)));
     (plen (g_gas g), fun a => if (a =? "ptypev")%string then repeat (CInt (ptype_value GAS)) (plen (g_gas g)) else repeat cnan (plen (g_gas g)))]
    (dedup [] ks) ltac:(discriminate) (dedup_NoDup _ _)) as C.
  cbn [map fst snd] in C. rewrite C. do 2 f_equal; [simpl; lia|]. unfold keyed. apply map_ext. intros a. f_equal.
  cbn [flat_map fst snd]. unfold ccol, f. destruct (a =? "ptypev")%string; cbn [broadcast]; now rewrite app_nil_r.
Qed.

Lemma get_jcirc_df_differ cb (g : galaxy N) j attrs a b :
  jcirc argsort g (fst cb) (snd cb) = Ok j -> (forall a, In a attrs -> circ a = true) ->
  In a attrs -> In b attrs -> length (circ_col j a) <> length (circ_col j b) ->
  get_jcirc_df argsort cb g (attrs ++ ["ptypev"%string]) = Raise ValueError.
Proof.
  intros Hj Hc Ha Hb D. unfold get_jcirc_df. rewrite Hj. cbn [bind].
  set (ks := attrs ++ ["ptypev"%string]).
  assert (Hk : forall a, In a ks -> circ a = true \/ a = "ptypev"%string).
  { intros c Hc'. apply in_app_iff in Hc' as [Hc'|[<-|[]]]; auto. }
  set (f := fun a => if (a =? "ptypev")%string then Scal (CInt (ptype_value STARS)) else Arr (map (@CNum N) (circ_col j a))).
  rewrite (mapM_total _ (fun a => (a, f a))).
  2:{ intros c Hc'. now rewrite jcirc_dict_get by auto. }
  cbn [bind]. rewrite dict_of_keyed. rewrite (mk_df_differ f _ a b (map CNum (circ_col j a)) (map CNum (circ_col j b))); [reflexivity| | | | |].
  - apply dedup_In. split; [apply in_app_iff; auto|auto].
  - apply dedup_In. split; [apply in_app_iff; auto|auto].
  - unfold f. now rewrite (circ_not_ptypev a) by auto.
  - unfold f. now rewrite (circ_not_ptypev b) by auto.
  - now rewrite !map_length.
Qed.

(** The columns of [drop_duplicated] are the first ones. *)
Lemma drop_duplicated_get (d : df N) k : dget (cols (drop_duplicated d)) k = dget (cols d) k.
Proof.
  unfold drop_duplicated. cbn [cols].
  assert (K : forall k v, dget (cols d) k = Some v -> In k (dkeys (cols d))).
  { induction (cols d) as [|[a c] l IH]; simpl; intros k' v'; [discriminate|].
    destruct (String.eqb_spec k' a) as [->|]; [auto|]. intros H. right. eapply IH; eauto. }
  assert (G : forall l, dget (flat_map (fun a => match dget (cols d) a with Some c => [(a, c)] | None => [] end) l) k =
     if smem k l then dget (cols d) k else None).
  { induction l as [|a l IH]; simpl; [reflexivity|]. rewrite dget_app, IH. unfold smem. simpl. fold (smem k l).
    destruct (String.eqb_spec k a) as [->|Na]; simpl.
    - destruct (dget (cols d) a) as [c|]; simpl; [now rewrite String.eqb_refl|]. now destruct (smem a l).
    - destruct (dget (cols d) a) as [c|]; simpl; [|reflexivity]. destruct (String.eqb_spec k a); [contradiction|reflexivity]. }
  rewrite G. destruct (smem k _) eqn:E; [reflexivity|].
  destruct (dget (cols d) k) as [c|] eqn:D; [|reflexivity]. exfalso. apply smem_false in E. apply E.
  apply dedup_In. split; [eapply K; eauto|auto].
Qed.

Lemma concat_cols_same (parts : list (df N)) n : parts <> [] ->
  (forall p, In p parts -> nrows p = n /\ wf_df p) ->
  concat_cols parts = Ok (mkDf n (flat_map (@cols N) parts)).
Proof.
  intros Hne H. unfold concat_cols. destruct parts as [|p0 ps]; [easy|]. set (parts := p0 :: ps) in *.
  assert (L : list_max (map nrows parts) = n).
  { assert (forall l, (forall p, In p l -> nrows p = n) -> l <> [] -> list_max (map (@nrows N) l) = n) as G.
    { clear. induction l as [|a l IH]; [easy|]. intros H _. simpl. rewrite (H a (or_introl eq_refl)).
      destruct l as [|b l]; [simpl; lia|]. fold (list_max (map nrows (b :: l))).
      rewrite IH; [lia|intros; apply H; now right|discriminate]. }
    apply G; [intros p Hp; apply H, Hp|discriminate]. }
  rewrite L. do 2 f_equal. rewrite !flat_map_concat_map. f_equal. apply map_ext_in. intros p Hp.
  destruct (H p Hp) as [Hn W]. unfold wf_df in W. rewrite Forall_forall in W.
  transitivity (map (fun kc : string * list (cell N) => kc) (cols p)); [|apply map_id]. apply map_ext_in. intros [k c] Hc.
  simpl. pose proof (W _ Hc) as Hw. simpl in Hw. rewrite Hw, Hn, Nat.sub_diag, app_nil_r. reflexivity.
Qed.

(** Column [a] of the attribute matrix. *)
Definition acol (g : galaxy N) (j : jcirc_t N) (a : string) : list (cell N) :=
  if circ a then map CNum (circ_col j a) ++ repeat cnan (plen (g_dm g)) ++ repeat cnan (plen (g_gas g)) else gcol g a.

Lemma keyed_wf n (f : string -> list (cell N)) ks : (forall k, In k ks -> length (f k) = n) -> wf_df (mkDf n (keyed f ks)).
Proof.
  intros H. apply Forall_forall. intros [k c] Hc. apply in_map_iff in Hc as (b & [= <- <-] & Hb). simpl. auto.
Qed.
Lemma gcol_length (g : galaxy N) k : gal_ok g -> length (gcol g k) = glen g.
Proof.
  intros Hg. apply gal_ok_facts in Hg as []. unfold gcol, glen. rewrite !app_length, !pcol_length by auto. lia.
Qed.

Definition df_part (attributes : list string) : list string := filter (fun a => negb (circ a)) attributes.
Definition circ_part (attributes : list string) : list string := filter circ attributes.

Lemma attributes_matrix_ok cb (g : galaxy N) j attributes : gal_ok g -> attributes <> [] ->
  incl (df_part attributes) all_attributes ->
  (circ_part attributes <> [] -> jcirc argsort g (fst cb) (snd cb) = Ok j) ->
  (forall a, In a attributes -> circ a = true -> length (circ_col j a) = plen (g_stars g)) ->
  attributes_matrix argsort cb g attributes =
  Ok (rows_of (glen g) (map (acol g j) attributes), gcol g "ptypev").
Proof.
  intros Hg Hne Hi Hj Hl. unfold attributes_matrix.
  change (filter (fun a => negb (smem a circularity_attributes)) attributes) with (df_part attributes).
  change (filter (fun a => smem a circularity_attributes) attributes) with (circ_part attributes). cbv zeta.
  set (da := if smem "ptypev" (df_part attributes) then df_part attributes else df_part attributes ++ ["ptypev"%string]).
  assert (Ida : incl da all_attributes).
  { unfold da. destruct (smem _ _); [exact Hi|]. apply incl_app; [exact Hi|]. intros k [<-|[]]. simpl. tauto. }
  assert (Pda : In "ptypev"%string da).
  { unfold da. destruct (smem _ _) eqn:E; [now apply smem_In|]. apply in_app_iff. right. now left. }
  set (d1 := mkDf (glen g) (keyed (gcol g) (dedup [] da))).
  set (d2 := mkDf (plen (g_stars g) + plen (g_dm g) + plen (g_gas g))
               (keyed (ccol g j (plen (g_stars g))) (dedup [] (circ_part attributes ++ ["ptypev"%string])))).
  assert (T : to_df g (PTList ptypes_order) (Some da) = Ok d1).
  { rewrite order_all by auto. rewrite to_df_all; [reflexivity|auto|exact Ida|].
    intros p _. apply existsb_exists. exists "ptypev"%string. split; [exact Pda|reflexivity]. }
  set (r1 := match df_part attributes with [] => [] | _ => [d1] end).
  set (r2 := match circ_part attributes with [] => [] | _ => [d2] end).
  transitivity (do d <- concat_cols (r1 ++ r2); let d := drop_duplicated d in
    do cs <- mapM (get_col d) attributes; do y <- get_col d "ptypev"; Ok (rows_of (nrows d) cs, y)).
  { destruct (df_part attributes) as [|x l] eqn:Ed.
    - cbn [bind]. destruct (circ_part attributes) as [|x' l'] eqn:Ec; [reflexivity|].
      rewrite (get_jcirc_df_ok cb g j (plen (g_stars g))); [reflexivity|apply Hj; discriminate|discriminate| |].
      + intros a Ha. rewrite <- Ec in Ha. now apply filter_In in Ha.
      + intros a Ha. rewrite <- Ec in Ha. apply filter_In in Ha as [H1 H2]. auto.
    - rewrite T. cbn [bind]. destruct (circ_part attributes) as [|x' l'] eqn:Ec; [reflexivity|].
      rewrite (get_jcirc_df_ok cb g j (plen (g_stars g))); [reflexivity|apply Hj; discriminate|discriminate| |].
      + intros a Ha. rewrite <- Ec in Ha. now apply filter_In in Ha.
      + intros a Ha. rewrite <- Ec in Ha. apply filter_In in Ha as [H1 H2]. auto. }
  assert (G2 : glen g = (plen (g_stars g) + plen (g_dm g) + plen (g_gas g))%nat) by reflexivity.
  rewrite (concat_cols_same _ (glen g)).
  2:{ unfold r1, r2. destruct attributes as [|a l]; [easy|]. unfold df_part, circ_part. simpl.
      destruct (circ a); simpl; [destruct (filter _ l)|]; discriminate. }
  2:{ intros p Hp. apply in_app_iff in Hp as [Hp|Hp].
      - unfold r1 in Hp. destruct (df_part attributes); [destruct Hp|]. destruct Hp as [<-|[]]. split; [reflexivity|].
        apply keyed_wf. intros; now apply gcol_length.
      - unfold r2 in Hp. destruct (circ_part attributes) as [|x l] eqn:Ec; [destruct Hp|]. destruct Hp as [<-|[]]. split; [reflexivity|].
        apply keyed_wf. intros k Hk. apply dedup_In in Hk as [Hk _]. unfold ccol.
        destruct (String.eqb_spec k "ptypev") as [|Nk].
        + rewrite !app_length, !repeat_length. lia.
        + rewrite !app_length, map_length, !repeat_length. rewrite Hl; [lia| |].
          * apply in_app_iff in Hk as [Hk|[Hk|[]]]; [|congruence]. rewrite <- Ec in Hk. now apply filter_In in Hk.
          * apply in_app_iff in Hk as [Hk|[Hk|[]]]; [|congruence]. rewrite <- Ec in Hk. now apply filter_In in Hk. }
  cbn [bind]. set (d := drop_duplicated _). cbv zeta.
  assert (Gd : forall k, In k attributes \/ k = "ptypev"%string -> get_col d k = Ok (if circ k then acol g j k else gcol g k)).
  { intros k Hk. unfold get_col, d. rewrite drop_duplicated_get. cbn [cols]. rewrite flat_map_app, dget_app.
    assert (D1 : df_part attributes <> [] -> dget (flat_map (@cols N) r1) k = if smem k da then Some (gcol g k) else None).
    { intros H. unfold r1. destruct (df_part attributes); [easy|]. simpl. rewrite app_nil_r, dget_keyed.
      destruct (smem k da) eqn:E, (smem k (dedup [] da)) eqn:E'; auto.
      - apply smem_false in E'. apply smem_In in E. exfalso. apply E'. apply dedup_In. auto.
      - apply smem_false in E. apply smem_In in E'. exfalso. apply dedup_In in E' as [E' _]. auto. }
    assert (D2 : circ_part attributes <> [] -> dget (flat_map (@cols N) r2) k =
       if smem k (circ_part attributes ++ ["ptypev"%string]) then Some (ccol g j (plen (g_stars g)) k) else None).
    { intros H. unfold r2. set (cp := circ_part attributes ++ _) in *. destruct (circ_part attributes); [easy|].
      cbn [flat_map cols d2]. rewrite app_nil_r. unfold d2. cbn [cols]. rewrite dget_keyed.
      destruct (smem k cp) eqn:E, (smem k (dedup [] cp)) eqn:E'; auto.
      - apply smem_false in E'. apply smem_In in E. exfalso. apply E'. apply dedup_In. auto.
      - apply smem_false in E. apply smem_In in E'. exfalso. apply dedup_In in E' as [E' _]. auto. }
    destruct (circ k) eqn:Ck.
    - (* a circularity attribute *)
      destruct Hk as [Hk| ->]; [|discriminate].
      assert (In k (circ_part attributes)) as Ik by (apply filter_In; auto).
      assert (dget (flat_map (@cols N) r1) k = None) as ->.
      { destruct (df_part attributes) eqn:Ed; [unfold r1; now rewrite ?Ed|]. rewrite D1 by discriminate.
        destruct (smem k da) eqn:E; [|reflexivity]. exfalso. apply smem_In in E.
        assert (In k (df_part attributes ++ ["ptypev"%string])) as E2.
        { rewrite Ed. unfold da in E. destruct (smem _ _) in E; [apply in_app_iff; auto|exact E]. }
        apply in_app_iff in E2 as [E2|[<-|[]]]; [|discriminate]. apply filter_In in E2 as [_ E2]. rewrite Ck in E2. discriminate. }
      rewrite D2 by (destruct (circ_part attributes); [destruct Ik|discriminate]).
      assert (smem k (circ_part attributes ++ ["ptypev"%string]) = true) as -> by (apply smem_In, in_app_iff; auto).
      unfold acol, ccol. now rewrite Ck, (circ_not_ptypev k Ck).
    - destruct (df_part attributes) as [|x l] eqn:Ed.
      + (* no data-frame attribute: it is the type *)
        assert (k = "ptypev"%string) as ->.
        { destruct Hk as [Hk|]; [|auto]. assert (In k (df_part attributes)) as E by (apply filter_In; now rewrite Ck).
          rewrite Ed in E. destruct E. }
        assert (circ_part attributes <> []) as Cn.
        { destruct attributes as [|a l]; [easy|]. unfold df_part, circ_part in *. simpl in *. destruct (circ a); discriminate. }
        assert (flat_map (@cols N) r1 = []) as -> by (unfold r1; now rewrite ?Ed).
        simpl dget at 1. rewrite D2 by exact Cn.
        assert (smem "ptypev" (circ_part attributes ++ ["ptypev"%string]) = true) as -> by (apply smem_In, in_app_iff; right; now left).
        unfold ccol, gcol. rewrite !pcol_ptypev. apply gal_ok_facts in Hg. destruct Hg. rewrite gf_ts, gf_td, gf_tg. reflexivity.
      + rewrite D1 by discriminate.
        assert (smem k da = true) as ->; [|reflexivity]. apply smem_In. destruct Hk as [Hk| ->]; [|exact Pda].
        assert (In k (df_part attributes)) as E by (apply filter_In; now rewrite Ck). rewrite Ed in E.
        unfold da. destruct (smem _ _); [exact E|apply in_app_iff; auto]. }
  rewrite (mapM_total _ (acol g j)).
  2:{ intros k Hk. rewrite Gd by auto. unfold acol. destruct (circ k); reflexivity. }
  cbn [bind]. rewrite Gd by auto. cbn [bind]. unfold d. reflexivity.
Qed.

(** Blocks of the columns of the matrix. *)
Definition ablock (j : jcirc_t N) (a : string) (p : pset N) : list (cell N) :=
  if circ a then
    match p_type p with STARS => map CNum (circ_col j a) | _ => repeat cnan (plen p) end
  else pcol p a.
Lemma acol_blocks (g : galaxy N) j a : gal_ok g -> acol g j a = flat_map (ablock j a) (sets g).
Proof.
  intros Hg. apply gal_ok_facts in Hg as [_ _ _ Ts Td Tg _ _ _].
  unfold acol, ablock, sets, gcol. simpl. rewrite Ts, Td, Tg, app_nil_r. now destruct (circ a).
Qed.
Lemma sets_ok (g : galaxy N) p : gal_ok g -> In p (sets g) -> pset_ok p.
Proof.
  intros Hg Hp. apply gal_ok_facts in Hg as [Hs Hd Hq _ _ _ _ _ _].
  simpl in Hp. destruct Hp as [<-|[<-|[<-|[]]]]; auto.
Qed.
Lemma ablock_length (g : galaxy N) j a p : gal_ok g -> In p (sets g) ->
  (circ a = true -> length (circ_col j a) = plen (g_stars g)) -> length (ablock j a p) = plen p.
Proof.
  intros Hg Hp H. unfold ablock. destruct (circ a).
  - pose proof (proj1 (gal_ok_facts _) Hg) as [_ _ _ Ts Td Tg _ _ _].
    simpl in Hp. destruct Hp as [<-|[<-|[<-|[]]]].
    + rewrite Ts, map_length. auto.
    + rewrite Td. apply repeat_length.
    + rewrite Tg. apply repeat_length.
  - apply pcol_length. eapply sets_ok; eauto.
Qed.
Lemma glen_sets (g : galaxy N) : glen g = list_sum (map plen (sets g)).
Proof. unfold glen, sets. simpl. lia. Qed.

(** What happens with the attribute list. *)
Lemma get_jcirc_df_raise cb (g : galaxy N) e attrs :
  jcirc argsort g (fst cb) (snd cb) = Raise e -> get_jcirc_df argsort cb g attrs = Raise e.
Proof. intros H. unfold get_jcirc_df. now rewrite H. Qed.

Lemma to_df_part (g : galaxy N) l : gal_ok g -> In "ptypev"%string l ->
  (incl l all_attributes -> to_df g (PTList ptypes_order) (Some l) = Ok (mkDf (glen g) (keyed (gcol g) (dedup [] l)))).
Proof.
  intros Hg Hp Hi. rewrite order_all by auto. rewrite to_df_all; [reflexivity|auto|exact Hi|].
  intros p _. apply existsb_exists. exists "ptypev"%string. auto.
Qed.

Lemma dget_keys {V} (d : dict V) k : In k (dkeys d) -> exists v, dget d k = Some v.
Proof.
  induction d as [|[a v] d IH]; simpl; [tauto|]. destruct (String.eqb_spec k a) as [->|H]; [eauto|].
  intros [->|Hk]; [congruence|auto].
Qed.
Lemma concat_cols_keys (parts : list (df N)) d : concat_cols parts = Ok d ->
  dkeys (cols d) = flat_map (fun p => dkeys (cols p)) parts.
Proof.
  assert (G : forall n l, dkeys (flat_map (fun p => map (fun kc => (fst kc, snd kc ++ repeat cnan (n - length (snd kc)))) (cols p)) l) =
    flat_map (fun p : df N => dkeys (cols p)) l).
  { intros n l. induction l as [|p l IH]; [reflexivity|]. cbn [flat_map]. unfold dkeys in *. rewrite map_app, IH. f_equal.
    rewrite map_map. reflexivity. }
  unfold concat_cols. destruct parts as [|p0 ps]; [discriminate|]. intros H.
  assert (d = mkDf (list_max (map nrows (p0 :: ps))) (flat_map (fun p => map (fun kc => (fst kc, snd kc ++ repeat cnan (list_max (map nrows (p0 :: ps)) - length (snd kc)))) (cols p)) (p0 :: ps))) as -> by congruence.
  apply G.
Qed.
End BaseFacts.

(** Ranks and masks. *)
Lemma mask_fill_rank {A} mask (a vs : list A) i : length mask = length a -> length vs = count mask ->
  nth_error mask i = Some true -> nth_error (mask_fill mask a vs) i = nth_error vs (rank mask i) /\ (rank mask i < length vs)%nat.
Proof.
  revert a vs i. induction mask as [|b mask IH]; intros a vs i La Lv Hi; [destruct i; discriminate|].
  destruct a as [|x a]; [discriminate|]. injection La as La. unfold count in Lv. simpl in Lv.
  destruct i as [|i]; simpl in Hi.
  - injection Hi as ->. simpl. destruct vs as [|v vs]; [discriminate|]. unfold rank. simpl. split; [reflexivity|lia].
  - simpl. destruct b.
    + destruct vs as [|v vs]; [discriminate|]. injection Lv as Lv. destruct (IH a vs i La Lv Hi) as [H1 H2].
      unfold rank in *. simpl. split; [exact H1|lia].
    + destruct (IH a vs i La Lv Hi) as [H1 H2]. unfold rank in *. simpl. auto.
Qed.
Lemma mask_fill_false {A} mask (a vs : list A) i : nth_error mask i = Some false -> nth_error (mask_fill mask a vs) i = nth_error a i.
Proof.
  revert a vs i. induction mask as [|b mask IH]; intros a vs i Hi; [destruct i; discriminate|].
  destruct a as [|x a]; [reflexivity|]. destruct i as [|i]; simpl in Hi.
  - injection Hi as ->. reflexivity.
  - simpl. destruct b; [destruct vs|]; simpl; auto.
Qed.
Lemma bmask_rank {A} mask (a : list A) i : nth_error mask i = Some true -> nth_error (bmask mask a) (rank mask i) = nth_error a i.
Proof.
  revert a i. induction mask as [|b mask IH]; intros a i Hi; [destruct i; discriminate|].
  destruct a as [|x a]; [simpl; destruct i, (rank (b :: mask) _); reflexivity|]. destruct i as [|i]; simpl in Hi.
  - injection Hi as ->. reflexivity.
  - unfold rank. simpl. destruct b; simpl; apply IH; exact Hi.
Qed.

