(** Lemmas on reading and writing galaxies. *)
From Verif Require Import Py Num Np Df Data DataFacts DfFacts RebuildFacts CenterFacts Io.
From Coq Require Import Lia.

(** ** Dictionaries *)

Lemma dkeys_dset_in {V} (d : dict V) k v k' : In k' (dkeys (dset d k v)) <-> k' = k \/ In k' (dkeys d).
Proof.
  rewrite dkeys_dset. destruct (smem k (dkeys d)) eqn:E.
  - apply smem_In in E. split; [auto|]. intros [->|]; auto.
  - rewrite in_app_iff. simpl. split; intros [H|H]; auto. destruct H as [H|[]]; auto.
Qed.
Lemma dkeys_dupdate_in {V} (e d : dict V) k : In k (dkeys (dupdate d e)) <-> In k (dkeys d) \/ In k (dkeys e).
Proof.
  unfold dupdate. revert d; induction e as [|[k1 v1] e IH]; intros d; simpl; [tauto|]. rewrite IH, dkeys_dset_in. simpl.
  split; intros [H|H]; auto; destruct H; auto.
Qed.
Lemma dget_ddel_other {V} (d : dict V) k k' : k' <> k -> dget (ddel d k) k' = dget d k'.
Proof.
  intros Hn. induction d as [|[k1 v1] d IH]; simpl; [reflexivity|].
  destruct (String.eqb_spec k k1) as [->|]; simpl; destruct (String.eqb_spec k' k1); congruence.
Qed.
Lemma dget_ddel_same {V} (d : dict V) k : NoDup (dkeys d) -> dget (ddel d k) k = None.
Proof.
  induction d as [|[k1 v1] d IH]; simpl; intros H; [reflexivity|]. inversion H as [|? ? H1 H2]; subst.
  destruct (String.eqb_spec k k1) as [->|]; simpl; [now apply dget_none_notin|]. destruct (String.eqb_spec k k1); [contradiction|auto].
Qed.
Lemma dget_rev {V} (e : dict V) k : NoDup (dkeys e) -> dget (rev e) k = dget e k.
Proof.
  induction e as [|[k1 v1] e IH]; simpl; intros H; [reflexivity|]. inversion H as [|? ? H1 H2]; subst.
  rewrite dget_app, IH by auto. simpl. destruct (String.eqb_spec k k1) as [->|].
  - now apply dget_none_notin in H1 as ->.
  - now destruct (dget e k).
Qed.
Lemma NoDup_dset {V} (d : dict V) k v : NoDup (dkeys d) -> NoDup (dkeys (dset d k v)).
Proof.
  intros H. rewrite dkeys_dset. destruct (smem k (dkeys d)) eqn:E; [auto|]. apply smem_false in E.
  revert H E. generalize (dkeys d). intros l. induction l as [|a l IH]; simpl; intros H E; [repeat constructor; auto|].
  inversion H; subst. constructor; [|apply IH; auto]. rewrite in_app_iff. simpl. intros [|[]]; auto.
Qed.
Lemma NoDup_dupdate {V} (e d : dict V) : NoDup (dkeys d) -> NoDup (dkeys (dupdate d e)).
Proof. unfold dupdate. revert d; induction e as [|kv e IH]; simpl; intros d H; [auto|]. apply IH. now apply NoDup_dset. Qed.

(** ** mkgalaxy sees the keyword arguments as a function *)

Section Facts.
Context {N : Num}.

(** ** Tables written by to_hdf5 *)

(** The columns stored for one particle set. *)
Definition tab (ids : list (cell N)) (u : upd9 N) : table N :=
  [("id", ids); ("m", map CNum (u_m u)); ("x", map CNum (u_x u)); ("y", map CNum (u_y u)); ("z", map CNum (u_z u));
   ("vx", map CNum (u_vx u)); ("vy", map CNum (u_vy u)); ("vz", map CNum (u_vz u))]%string ++
  match u_pot u with Some l => [("potential"%string, map CNum l)] | None => [] end.
Definition set_soft (s : N) (u : upd9 N) : upd9 N :=
  mkUpd (u_m u) (u_x u) (u_y u) (u_z u) (u_vx u) (u_vy u) (u_vz u) (u_pot u) s.

Lemma to_numpy_CNum (l : list N) : to_numpy (map CNum l) = l.
Proof. unfold to_numpy. rewrite map_map. simpl. apply map_id. Qed.

(** Names with a suffix. *)
Fixpoint lasta (d : Ascii.ascii) (s : string) : Ascii.ascii := match s with EmptyString => d | String c s' => lasta c s' end.
Lemma lasta_app s : forall d c t, lasta d (s ++ String c t)%string = lasta c t.
Proof. induction s as [|a s IH]; simpl; intros; [reflexivity|apply IH]. Qed.
Lemma app_inj_str a : forall b t, (a ++ t)%string = (b ++ t)%string -> a = b.
Proof.
  assert (L : forall s t, String.length (s ++ t)%string = (String.length s + String.length t)%nat) by (induction s; simpl; intros; auto).
  induction a as [|c a IH]; intros [|c' b] t H; [reflexivity|..].
  - apply (f_equal String.length) in H. simpl in H. rewrite L in H. lia.
  - apply (f_equal String.length) in H. simpl in H. rewrite L in H. lia.
  - simpl in H. injection H as <- H. f_equal. eauto.
Qed.
Definition key (a sfx : string) : string := (a ++ "_" ++ sfx)%string.
Lemma key_inj a b sfx : key a sfx = key b sfx -> a = b.
Proof. apply app_inj_str. Qed.
Lemma key_eqb a b sfx : String.eqb (key a sfx) (key b sfx) = String.eqb a b.
Proof. destruct (String.eqb_spec a b) as [->|Hn]; [apply String.eqb_refl|]. destruct (String.eqb_spec (key a sfx) (key b sfx)) as [E|]; [apply key_inj in E; contradiction|reflexivity]. Qed.
Definition suffix3 (sfx : string) : Prop := sfx = "s"%string \/ sfx = "dm"%string \/ sfx = "g"%string.
Lemma key_sfx a b sfx sfx' : suffix3 sfx -> suffix3 sfx' -> key a sfx = key b sfx' -> a = b /\ sfx = sfx'.
Proof.
  intros H H' E. assert (sfx = sfx') as <-.
  { apply (f_equal (lasta Ascii.zero)) in E. unfold key in E. cbn [String.append] in E. rewrite !lasta_app in E.
    destruct H as [->|[->| ->]], H' as [->|[->| ->]]; try reflexivity; discriminate. }
  split; [now apply key_inj in E|reflexivity].
Qed.

(** What a table gives under each keyword. *)
Definition field (t : table N) (a : string) : option (kwval N) :=
  if String.eqb a "potential" then Some (match dget t "potential" with Some c => KArr (to_numpy c) | None => KNone end)
  else if String.eqb a "id" then None else option_map (fun c => KArr (to_numpy c)) (dget t a).

Definition renamed (t : table N) (sfx : string) : dict (kwval N) :=
  map (fun kc => (key (fst kc) sfx, KArr (to_numpy (snd kc)))) (filter (fun kc => negb (String.eqb (fst kc) "id")) t).
Lemma renamed_keys t sfx k : In k (dkeys (renamed t sfx)) <-> exists a, k = key a sfx /\ a <> "id"%string /\ In a (dkeys t).
Proof.
  unfold dkeys, renamed. rewrite map_map. simpl. rewrite in_map_iff. split.
  - intros ([a c] & <- & H). apply filter_In in H as (H & E). simpl in *. exists a. split; [reflexivity|]. split.
    + intros ->. discriminate.
    + apply in_map_iff. exists (a, c). auto.
  - intros (a & -> & Hn & H). apply in_map_iff in H as ([a' c] & <- & H). exists (a', c). split; [reflexivity|]. apply filter_In. split; [auto|]. simpl in *. destruct (String.eqb_spec a' "id"); [contradiction|reflexivity].
Qed.
Lemma renamed_get t sfx a : dget (renamed t sfx) (key a sfx) = if String.eqb a "id" then None else option_map (fun c => KArr (to_numpy c)) (dget t a).
Proof.
  unfold renamed. induction t as [|[b c] t IH]; cbn [filter fst]; [cbn; now destruct (String.eqb a "id")|]. cbn [dget].
  destruct (String.eqb_spec b "id") as [->|Hb]; cbn [negb]; [destruct (String.eqb_spec a "id"); [exact IH|exact IH]|].
  cbn [map dget fst snd]. rewrite key_eqb, IH. destruct (String.eqb_spec a b) as [->|]; [|reflexivity]. destruct (String.eqb_spec b "id"); [contradiction|reflexivity].
Qed.
Lemma renamed_nodup t sfx : NoDup (dkeys t) -> NoDup (dkeys (renamed t sfx)).
Proof.
  unfold renamed, dkeys. rewrite map_map. simpl. induction t as [|[a c] t IH]; simpl; intros H; [constructor|]. inversion H as [|? ? H1 H2]; subst.
  destruct (String.eqb a "id"); simpl; [auto|]. constructor; [|auto]. intros I. apply H1. apply in_map_iff in I as ([b c'] & E & I). simpl in E. apply key_inj in E as ->.
  apply filter_In in I as (I & _). apply in_map_iff. exists (a, c'). auto.
Qed.

Lemma table_unfold t sfx : table_to_dict t sfx = dset (ddel (dupdate [] (renamed t sfx)) (key "potential" sfx)) (key "potential" sfx)
  (match dget (dupdate [] (renamed t sfx)) (key "potential" sfx) with Some v => v | None => KNone end).
Proof. reflexivity. Qed.
Lemma table_get t sfx a : NoDup (dkeys t) -> dget (table_to_dict t sfx) (key a sfx) = field t a.
Proof.
  intros H. rewrite table_unfold.
  rewrite dget_dset, key_eqb. unfold field. rewrite !dget_dupdate, !dget_rev by now apply renamed_nodup. rewrite !renamed_get.
  destruct (String.eqb_spec a "potential") as [->|Hn]; [destruct (dget t "potential"); reflexivity|].
  rewrite dget_ddel_other by (intros E; apply key_inj in E; contradiction). rewrite dget_dupdate, dget_rev by now apply renamed_nodup. rewrite renamed_get.
  destruct (String.eqb a "id"); [reflexivity|]. now destruct (dget t a).
Qed.
Lemma table_get_other (t : table N) sfx k : (forall a, k <> key a sfx) -> dget (table_to_dict t sfx) k = None.
Proof.
  intros H. rewrite table_unfold.
  rewrite dget_dset_other by apply H. rewrite dget_ddel_other by apply H. apply dget_none_notin. rewrite dkeys_dupdate_in. simpl. intros [[]|I].
  apply renamed_keys in I as (a & -> & _). now apply (H a).
Qed.
Lemma NoDup_ddel {V} (d : dict V) k : NoDup (dkeys d) -> NoDup (dkeys (ddel d k)).
Proof.
  assert (I : forall x (d : dict V), In x (dkeys (ddel d k)) -> In x (dkeys d)).
  { intros x e. induction e as [|[b c] e IH]; simpl; [tauto|]. destruct (String.eqb k b); simpl; tauto. }
  induction d as [|[a c] d IH]; simpl; intros H; [constructor|]. inversion H; subst. destruct (String.eqb k a); [auto|]. simpl. constructor; [|auto]. intros J. apply I in J. auto.
Qed.
Lemma table_nodup (t : table N) sfx : NoDup (dkeys (table_to_dict t sfx)).
Proof. rewrite table_unfold. apply NoDup_dset, NoDup_ddel, NoDup_dupdate. constructor. Qed.

(** The keyword argument [a]_[sfx] of the galaxy. *)
Definition kw_of (soft : N) (t : table N) (a : string) : option (kwval N) :=
  match field t a with Some v => Some v | None => if String.eqb a "softening" then Some (KNum soft) else None end.
Lemma kws_get ss sd sg ts td tg a : NoDup (dkeys ts) -> NoDup (dkeys td) -> NoDup (dkeys tg) ->
  dget (galaxy_kws ss sd sg ts td tg) (key a "s") = kw_of ss ts a /\
  dget (galaxy_kws ss sd sg ts td tg) (key a "dm") = kw_of sd td a /\
  dget (galaxy_kws ss sd sg ts td tg) (key a "g") = kw_of sg tg a.
Proof.
  intros H1 H2 H3. unfold galaxy_kws, kw_of. rewrite !dget_dupdate, !dget_rev by apply table_nodup.
  assert (S3 : suffix3 "s" /\ suffix3 "dm" /\ suffix3 "g") by (unfold suffix3; auto). destruct S3 as (S1 & S2 & S3).
  assert (O : forall (t : table N) sfx sfx', suffix3 sfx -> suffix3 sfx' -> sfx <> sfx' -> dget (table_to_dict t sfx) (key a sfx') = None).
  { intros t sfx sfx' A B Hn. apply table_get_other. intros b E. apply key_sfx in E as (_ & E); auto. }
  rewrite (O tg "g"%string "s"%string), (O td "dm"%string "s"%string), (O tg "g"%string "dm"%string), (O td "dm"%string "g"%string), (O ts "s"%string "g"%string), (O ts "s"%string "dm"%string) by (auto; discriminate).
  rewrite !table_get by auto.
  assert (D : forall sfx, dget [("softening_s", KNum ss); ("softening_dm", KNum sd); ("softening_g", KNum sg)]%string (key a sfx) =
     if String.eqb (key a sfx) (key "softening" "s") then Some (KNum ss) else if String.eqb (key a sfx) (key "softening" "dm") then Some (KNum sd)
     else if String.eqb (key a sfx) (key "softening" "g") then Some (KNum sg) else None) by reflexivity.
  rewrite !D. clear D.
  assert (Q : forall sfx sfx', suffix3 sfx -> suffix3 sfx' -> sfx <> sfx' -> String.eqb (key a sfx) (key "softening" sfx') = false).
  { intros sfx sfx' A B Hn. destruct (String.eqb_spec (key a sfx) (key "softening" sfx')) as [E|]; [apply key_sfx in E as (_ & E); auto; contradiction|reflexivity]. }
  rewrite (Q "dm"%string "s"%string), (Q "g"%string "s"%string), (Q "g"%string "dm"%string), (Q "s"%string "dm"%string), (Q "s"%string "g"%string), (Q "dm"%string "g"%string), !key_eqb by (auto; discriminate).
  split; [|split]; destruct (field _ a); destruct (String.eqb a "softening"); reflexivity.
Qed.
Lemma kws_keys (ss sd sg : N) ts td tg k : In k (dkeys (galaxy_kws ss sd sg ts td tg)) ->
  exists a sfx, suffix3 sfx /\ k = key a sfx.
Proof.
  unfold galaxy_kws. rewrite !dkeys_dupdate_in.
  assert (T : forall (t : table N) sfx, suffix3 sfx -> In k (dkeys (table_to_dict t sfx)) -> exists a sfx, suffix3 sfx /\ k = key a sfx).
  { intros t sfx S I. rewrite table_unfold in I. apply dkeys_dset_in in I as [->|I]; [exists "potential"%string, sfx; auto|].
    assert (J : In k (dkeys (renamed t sfx))).
    { revert I. generalize (key "potential" sfx). intros q I.
      assert (I' : In k (dkeys (dupdate [] (renamed t sfx)))).
      { revert I. generalize (dupdate [] (renamed t sfx)). intros e. induction e as [|[b c] e IH]; simpl; [tauto|]. destruct (String.eqb q b); simpl; tauto. }
      apply dkeys_dupdate_in in I' as [[]|I']; auto. }
    apply renamed_keys in J as (a & -> & _). eauto. }
  intros [[[I|I]|I]|I].
  - simpl in I. destruct I as [<-|[<-|[<-|[]]]]; exists "softening"%string; [exists "s"%string|exists "dm"%string|exists "g"%string]; unfold suffix3; auto.
  - eapply T; [|exact I]. unfold suffix3; auto.
  - eapply T; [|exact I]. unfold suffix3; auto.
  - eapply T; [|exact I]. unfold suffix3; auto.
Qed.

(** mkgalaxy of three tables. *)
Definition known : list string := ["m"; "x"; "y"; "z"; "vx"; "vy"; "vz"; "softening"; "potential"]%string.
Definition seven : list string := ["m"; "x"; "y"; "z"; "vx"; "vy"; "vz"]%string.
Lemma params_key a sfx : suffix3 sfx -> smem (key a sfx) mkgalaxy_params = smem a known.
Proof.
  intros H. apply Bool.eq_iff_eq_true. rewrite !smem_In.
  assert (P : forall k, In k mkgalaxy_params <-> exists a sfx, suffix3 sfx /\ In a known /\ k = key a sfx).
  { intros k. split.
    - intros I. unfold mkgalaxy_params, required_names, optional_names in I. cbn [flat_map map app] in I. unfold suffix3.
      repeat (destruct I as [<-|I]; [eexists; eexists; split; [|split; [|unfold key; reflexivity]]; [auto|simpl; tauto]|]). destruct I.
    - intros (b & s & S & B & ->). unfold known in B. simpl in B. unfold mkgalaxy_params, required_names, optional_names. cbn [flat_map map app].
      destruct S as [->|[->| ->]]; (destruct B as [<-|[<-|[<-|[<-|[<-|[<-|[<-|[<-|[<-|[]]]]]]]]]]; unfold key; cbn [String.append In]; tauto). }
  rewrite P. split.
  - intros (b & s & S & B & E). apply key_sfx in E as (-> & _); auto.
  - intros B. exists a, sfx. auto.
Qed.

Definition names_ok (t : table N) : bool := forallb (fun a => smem a ("id"%string :: known)) (dkeys t).
Definition complete (t : table N) : bool := forallb (fun a => smem a (dkeys t)) seven.
Definition tcol (t : table N) (a : string) : list N := match dget t a with Some c => to_numpy c | None => [] end.
Definition tsoft (t : table N) (soft : N) : res N :=
  match dget t "softening" with Some [c] => Ok (cell_num c) | Some _ => Raise TypeError | None => Ok soft end.
Definition table_pset (ty : ptype) (t : table N) (soft : N) : res (pset N) :=
  do s <- tsoft t soft;
  mk_pset ty (tcol t "m") (tcol t "x") (tcol t "y") (tcol t "z") (tcol t "vx") (tcol t "vy") (tcol t "vz") (option_map to_numpy (dget t "potential")) s.

Lemma kw_of_in soft t a : a <> "id"%string -> In a (dkeys t) -> kw_of soft t a <> None.
Proof.
  intros Hn I. unfold kw_of, field. destruct (String.eqb a "potential"); [discriminate|]. destruct (String.eqb_spec a "id"); [contradiction|].
  destruct (dget t a) eqn:E; [discriminate|]. apply dget_none_notin in E. contradiction.
Qed.
Lemma kw_of_notin soft t a : ~ In a (dkeys t) -> a <> "potential"%string -> a <> "softening"%string -> kw_of soft t a = None.
Proof.
  intros I H1 H2. unfold kw_of, field. destruct (String.eqb_spec a "potential"); [contradiction|]. destruct (String.eqb_spec a "softening"); [contradiction|].
  apply dget_none_notin in I as ->. now destruct (String.eqb a "id").
Qed.

Lemma mkgalaxy_tables ss sd sg ts td tg : NoDup (dkeys ts) -> NoDup (dkeys td) -> NoDup (dkeys tg) ->
  mkgalaxy (galaxy_kws ss sd sg ts td tg) =
  (do _ <- guard (names_ok ts && names_ok td && names_ok tg) TypeError;
   do _ <- guard (complete ts && complete td && complete tg) TypeError;
   do s <- table_pset STARS ts ss; do d <- table_pset DARK_MATTER td sd; do g <- table_pset GAS tg sg; mk_galaxy s d g).
Proof.
  intros H1 H2 H3. set (kw := galaxy_kws ss sd sg ts td tg).
  assert (G : forall a, dget kw (key a "s") = kw_of ss ts a /\ dget kw (key a "dm") = kw_of sd td a /\ dget kw (key a "g") = kw_of sg tg a) by (intros a; now apply kws_get).
  assert (S3 : suffix3 "s" /\ suffix3 "dm" /\ suffix3 "g") by (unfold suffix3; auto). destruct S3 as (S1 & S2 & S3).
  assert (F1 : forallb (fun k => smem k mkgalaxy_params) (dkeys kw) = names_ok ts && names_ok td && names_ok tg).
  { apply Bool.eq_iff_eq_true. rewrite !andb_true_iff, forallb_forall. unfold names_ok. rewrite !forallb_forall. split.
    - intros F.
      assert (P : forall (t : table N) soft sfx, suffix3 sfx -> (forall a, dget kw (key a sfx) = kw_of soft t a) -> forall a, In a (dkeys t) -> smem a ("id"%string :: known) = true).
      { intros t soft sfx S E a I. unfold smem. cbn [existsb]. destruct (String.eqb_spec a "id"); [reflexivity|]. cbn [orb]. fold (smem a known).
        rewrite <- (params_key a sfx S). apply F. destruct (in_dec string_dec (key a sfx) (dkeys kw)) as [|J]; [auto|]. apply dget_none_notin in J. rewrite E in J.
        exfalso. revert J. now apply kw_of_in. }
      split; [split|]; [apply (P ts ss "s"%string S1)|apply (P td sd "dm"%string S2)|apply (P tg sg "g"%string S3)]; intros b; apply G.
    - intros ((A & B) & C) k I. destruct (kws_keys ss sd sg ts td tg k I) as (a & sfx & S & ->). rewrite params_key by auto.
      assert (P : forall (t : table N) soft, (forall a, In a (dkeys t) -> smem a ("id"%string :: known) = true) -> kw_of soft t a <> None -> smem a known = true).
      { intros t soft E J. destruct (smem a known) eqn:K; [reflexivity|]. exfalso. apply J. apply smem_false in K.
        destruct (string_dec a "id") as [->|Hi]; [reflexivity|]. apply kw_of_notin.
        - intros I'. apply E in I'. unfold smem in I'. cbn [existsb] in I'. apply orb_true_iff in I' as [I'|I']; [apply String.eqb_eq in I'; contradiction|]. apply K, smem_In. exact I'.
        - intros ->. apply K. simpl; tauto.
        - intros ->. apply K. simpl; tauto. }
      assert (J : dget kw (key a sfx) <> None) by (intros E; apply dget_none_notin in E; contradiction).
      destruct (G a) as (G1 & G2 & G3). destruct S as [->|[->| ->]]; [rewrite G1 in J; eapply (P ts)|rewrite G2 in J; eapply (P td)|rewrite G3 in J; eapply (P tg)]; eauto. }
  assert (F2 : forallb (fun k => smem k (dkeys kw)) (flat_map required_names ["s"; "dm"; "g"]%string) = complete ts && complete td && complete tg).
  { assert (M : forall (t : table N) soft sfx, (forall a, dget kw (key a sfx) = kw_of soft t a) -> forallb (fun k => smem k (dkeys kw)) (required_names sfx) = complete t).
    { intros t soft sfx E. unfold required_names, complete. fold seven.
      change (map (fun k => (k ++ "_" ++ sfx)%string) seven) with (map (fun k => key k sfx) seven).
      assert (Q : forall a, In a seven -> smem (key a sfx) (dkeys kw) = smem a (dkeys t)).
      { intros a Ia. apply Bool.eq_iff_eq_true. rewrite !smem_In. specialize (E a).
        assert (a <> "id"%string /\ a <> "potential"%string /\ a <> "softening"%string) as (N1 & N2 & N3) by (simpl in Ia; intuition congruence).
        split; intros I.
        - destruct (in_dec string_dec a (dkeys t)) as [|J]; [auto|]. rewrite kw_of_notin in E by auto. apply dget_none_notin in E. contradiction.
        - destruct (in_dec string_dec (key a sfx) (dkeys kw)) as [|J]; [auto|]. apply dget_none_notin in J. rewrite E in J. exfalso. revert J. now apply kw_of_in. }
      revert Q. generalize seven. intros l Q. induction l as [|a l IH]; [reflexivity|]. cbn [map forallb]. rewrite (Q a) by (left; reflexivity). f_equal. apply IH. intros b Hb. apply Q. now right. }
    cbn [flat_map]. rewrite !forallb_app, (M ts ss), (M td sd), (M tg sg) by (intros a; apply G). cbn [forallb]. now rewrite andb_true_r, andb_assoc. }
  unfold mkgalaxy. rewrite F1, F2. destruct (names_ok ts && names_ok td && names_ok tg); [|reflexivity].
  destruct (complete ts && complete td && complete tg) eqn:C; [|reflexivity]. cbn [guard bind].
  apply andb_prop in C as (C & C3). apply andb_prop in C as (C1 & C2).
  assert (P : forall (t : table N) soft sfx ty, complete t = true -> (forall a, dget kw (key a sfx) = kw_of soft t a) -> mk_pset_kw kw ty sfx = table_pset ty t soft).
  { intros t soft sfx ty C E. unfold mk_pset_kw, table_pset.
    assert (A : forall a, In a seven -> kw_array kw (key a sfx) = Ok (tcol t a)).
    { intros a Ia. unfold kw_array, tcol. rewrite E. unfold complete in C. rewrite forallb_forall in C. specialize (C a Ia). apply smem_In in C.
      unfold kw_of, field. assert (a <> "id"%string /\ a <> "potential"%string) as (N1 & N2) by (simpl in Ia; intuition congruence).
      destruct (String.eqb_spec a "potential"); [contradiction|]. destruct (String.eqb_spec a "id"); [contradiction|]. destruct (dget t a) eqn:D; [reflexivity|]. apply dget_none_notin in D. contradiction. }
    assert (Hp : kw_pot kw (key "potential" sfx) = Ok (option_map to_numpy (dget t "potential"))).
    { unfold kw_pot. rewrite E. unfold kw_of, field. cbn [String.eqb Ascii.eqb Bool.eqb]. destruct (dget t "potential"); reflexivity. }
    assert (Hs : kw_soft kw (key "softening" sfx) = tsoft t soft).
    { unfold kw_soft, tsoft. rewrite E. unfold kw_of, field. cbn [String.eqb Ascii.eqb Bool.eqb]. destruct (dget t "softening") as [[|c [|c' l]]|]; reflexivity. }
    pose proof (A "m"%string ltac:(simpl; tauto)) as A1. pose proof (A "x"%string ltac:(simpl; tauto)) as A2. pose proof (A "y"%string ltac:(simpl; tauto)) as A3.
    pose proof (A "z"%string ltac:(simpl; tauto)) as A4. pose proof (A "vx"%string ltac:(simpl; tauto)) as A5. pose proof (A "vy"%string ltac:(simpl; tauto)) as A6.
    pose proof (A "vz"%string ltac:(simpl; tauto)) as A7. unfold key in *. cbn [String.append] in *.
    rewrite A1, A2, A3, A4, A5, A6, A7, Hp, Hs. reflexivity. }
  rewrite (P ts ss "s"%string STARS), (P td sd "dm"%string DARK_MATTER), (P tg sg "g"%string GAS) by (auto; intros a; apply G). reflexivity.
Qed.

Lemma tab_nodup i u : NoDup (dkeys (tab i u)).
Proof. unfold tab, dkeys. destruct (u_pot u); cbn [app map fst]; repeat (constructor; [simpl; intuition discriminate|]); constructor. Qed.
Lemma read_tabs ss sd sg i1 i2 i3 us ud ug :
  mkgalaxy (galaxy_kws ss sd sg (tab i1 us) (tab i2 ud) (tab i3 ug)) = build (set_soft ss us) (set_soft sd ud) (set_soft sg ug).
Proof.
  rewrite mkgalaxy_tables by apply tab_nodup.
  assert (A : forall i u, names_ok (tab i u) = true) by (intros i u; unfold tab; destruct (u_pot u); reflexivity).
  assert (B : forall i u, complete (tab i u) = true) by (intros i u; unfold tab; destruct (u_pot u); reflexivity).
  assert (P : forall ty i u s, table_pset ty (tab i u) s = build1 ty (set_soft s u)).
  { intros ty i u s. unfold table_pset, build1, set_soft. cbn [u_m u_x u_y u_z u_vx u_vy u_vz u_pot u_soft].
    assert (tsoft (tab i u) s = Ok s) as -> by (unfold tab; destruct (u_pot u); reflexivity). cbn [bind].
    unfold tcol, tab. destruct (u_pot u); cbn [app dget String.eqb Ascii.eqb Bool.eqb option_map]; rewrite ?to_numpy_CNum; reflexivity. }
  rewrite !A, !B, !P. reflexivity.
Qed.

(** ** What to_hdf5 stores *)

Definition ids (o n : nat) : list (cell N) := map (fun i => CInt (Z.of_nat i)) (seq o n).
Definition stored (o : nat) (p : pset N) : table N := flat_map stored_col (tab (ids o (plen p)) (upd_of p)).

Lemma ptype_cells (g : galaxy N) t : gal_ok g ->
  map (cell_is_str (humanize t)) (gcol g "ptype") =
  repeat (ptype_eqb STARS t) (plen (g_stars g)) ++ repeat (ptype_eqb DARK_MATTER t) (plen (g_dm g)) ++ repeat (ptype_eqb GAS t) (plen (g_gas g)).
Proof.
  intros H. apply gal_ok_facts in H as [? ? ? Ts Td Tg ? ? ?]. unfold gcol.
  assert (P : forall p : pset N, pcol p "ptype" = repeat (CStr (humanize (p_type p))) (plen p)) by reflexivity.
  rewrite !P, Ts, Td, Tg, !map_app.
  assert (R : forall n u, map (cell_is_str (N:=N) (humanize t)) (repeat (CStr (humanize u)) n) = repeat (ptype_eqb u t) n).
  { intros n u. assert (String.eqb (humanize t) (humanize u) = ptype_eqb u t) by (destruct t, u; reflexivity). induction n; simpl; congruence. }
  now rewrite !R.
Qed.
Lemma split_cells {A} (a b c : list A) t :
  bmask (repeat (ptype_eqb STARS t) (length a) ++ repeat (ptype_eqb DARK_MATTER t) (length b) ++ repeat (ptype_eqb GAS t) (length c)) (a ++ b ++ c) =
  match t with STARS => a | DARK_MATTER => b | GAS => c end.
Proof.
  rewrite bmask_app by apply repeat_length. rewrite bmask_app by apply repeat_length.
  destruct t;
    change (ptype_eqb STARS STARS) with true; change (ptype_eqb DARK_MATTER STARS) with false;
    change (ptype_eqb GAS STARS) with false; change (ptype_eqb STARS DARK_MATTER) with false;
    change (ptype_eqb DARK_MATTER DARK_MATTER) with true; change (ptype_eqb GAS DARK_MATTER) with false;
    change (ptype_eqb STARS GAS) with false; change (ptype_eqb DARK_MATTER GAS) with false;
    change (ptype_eqb GAS GAS) with true;
    rewrite ?bmask_repeat_true, ?bmask_repeat_false; simpl; rewrite ?app_nil_r; reflexivity.
Qed.

Lemma h5_tables_ok (g : galaxy N) : gal_ok g ->
  h5_tables g = Ok (stored 0 (g_stars g), stored (plen (g_stars g)) (g_dm g), stored (plen (g_stars g) + plen (g_dm g)) (g_gas g)).
Proof.
  intros H. unfold h5_tables, h5_frame.
  assert (NoDup (h5_attributes (g_haspot g))) as ND by (destruct (g_haspot g); cbn; repeat (constructor; [simpl; intuition discriminate|]); constructor).
  rewrite to_df_all; auto.
  - cbn [bind attrs_of nrows cols]. rewrite dedup_nodup_id by (auto; simpl; tauto). set (A := h5_attributes (g_haspot g)) in *.
    pose proof H as H'. apply gal_ok_facts in H' as [Hs Hd Hg Ts Td Tg Ps Pd Pg].
    assert (G : forall t o p, (t, o, p) = (STARS, 0%nat, g_stars g) \/ (t, o, p) = (DARK_MATTER, plen (g_stars g), g_dm g) \/ (t, o, p) = (GAS, (plen (g_stars g) + plen (g_dm g))%nat, g_gas g) ->
       df_to_table (mkDf (glen g) (("id"%string, map (fun i => CInt (Z.of_nat i)) (seq 0 (glen g))) :: keyed (gcol g) A)) t = Ok (stored o p)).
    { intros t o p E. unfold df_to_table, get_col. cbn [cols dget String.eqb Ascii.eqb Bool.eqb]. rewrite dget_keyed.
      assert (smem "ptype" A = true) as -> by reflexivity. cbn [bind]. rewrite ptype_cells by auto. f_equal. unfold from_pandas, stored. cbn [row_filter nrows cols map fst snd].
      set (mask := _ ++ _ ++ _).
      assert (MK : forall k, bmask mask (gcol g k) = pcol p k).
      { intros k. unfold mask, gcol. rewrite <- (pcol_length (g_stars g) k), <- (pcol_length (g_dm g) k), <- (pcol_length (g_gas g) k) by auto. rewrite split_cells.
        destruct E as [[= -> -> ->]|[[= -> -> ->]|[= -> -> ->]]]; reflexivity. }
      assert (MI : bmask mask (map (fun i => CInt (N:=N) (Z.of_nat i)) (seq 0 (glen g))) = ids o (plen p)).
      { unfold mask, glen. rewrite !seq_app, !map_app. cbn [plus Nat.add]. fold (ids 0 (plen (g_stars g))) (ids (plen (g_stars g)) (plen (g_dm g))) (ids (plen (g_stars g) + plen (g_dm g)) (plen (g_gas g))).
        assert (L : forall o n, length (ids o n) = n) by (intros; unfold ids; now rewrite map_length, seq_length).
        rewrite <- app_assoc. rewrite <- (L 0%nat (plen (g_stars g))) at 1. rewrite <- (L (plen (g_stars g)) (plen (g_dm g))) at 1. rewrite <- (L (plen (g_stars g) + plen (g_dm g))%nat (plen (g_gas g))) at 1.
        rewrite split_cells. destruct E as [[= -> -> ->]|[[= -> -> ->]|[= -> -> ->]]]; reflexivity. }
      rewrite MI. cbn [ddel String.eqb Ascii.eqb Bool.eqb]. f_equal. unfold keyed. rewrite map_map. cbn [fst snd]. rewrite (map_ext _ (fun k => (k, pcol p k))) by (intros k; now rewrite MK).
      assert (HP : g_haspot g = match p_pot p with Some _ => true | None => false end).
      { destruct E as [[= -> -> ->]|[[= -> -> ->]|[= -> -> ->]]]; [rewrite <- Ps|rewrite <- Pd|rewrite <- Pg]; now apply pset_ok_haspot. }
      unfold A, h5_attributes, tab, upd_of. rewrite HP. cbn [u_pot u_m u_x u_y u_z u_vx u_vy u_vz]. unfold pcol, maker.
      destruct (p_pot p) eqn:EP; cbn [app map ddel String.eqb Ascii.eqb Bool.eqb column_makers dget broadcast anum]; rewrite ?EP; reflexivity. }
    rewrite (G STARS 0%nat (g_stars g)), (G DARK_MATTER (plen (g_stars g)) (g_dm g)), (G GAS (plen (g_stars g) + plen (g_dm g))%nat (g_gas g)) by auto. reflexivity.
  - cbn [attrs_of]. intros k I. destruct (g_haspot g); simpl in I; simpl; intuition.
Qed.
End Facts.
