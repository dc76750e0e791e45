(** Reading and writing (C50 to C54). *)
From Verif Require Import Py Num RX F64 Np Df Data DataFacts DfFacts RebuildFacts CenterFacts Ex Spec DataThms CircThms Io SpecIo IoFacts.
From Coq Require Import Lia Permutation.

Section Write.
Context {N : Num} {M : Type}.

Lemma read_sets (f : h5 N M) ss sd sg i1 i2 i3 s d g :
  dget (h_objs f) "stars" = Some (HTable (tab i1 (upd_of s))) -> dget (h_objs f) "dark_matter" = Some (HTable (tab i2 (upd_of d))) ->
  dget (h_objs f) "gas" = Some (HTable (tab i3 (upd_of g))) ->
  read_hdf5 f ss sd sg = build (set_soft ss (upd_of s)) (set_soft sd (upd_of d)) (set_soft sg (upd_of g)).
Proof. intros H1 H2 H3. unfold read_hdf5, read_table. rewrite H1, H2, H3. cbn [bind]. apply read_tabs. Qed.

Lemma softened s (p : pset N) : pset_ok p -> same_but_softening s p (pset_upd (p_type p) (set_soft s (upd_of p))).
Proof. intros H. rewrite <- (pset_upd_of p H) at 1. unfold same_but_softening. cbn. tauto. Qed.

Lemma build_soft ss sd sg (s d g : pset N) : pset_ok s -> pset_ok d -> pset_ok g ->
  p_type s = STARS -> p_type d = DARK_MATTER -> p_type g = GAS ->
  (p_haspot d = p_haspot s -> p_haspot g = p_haspot s -> exists g', build (set_soft ss (upd_of s)) (set_soft sd (upd_of d)) (set_soft sg (upd_of g)) = Ok g' /\
     same_but_softening ss s (g_stars g') /\ same_but_softening sd d (g_dm g') /\ same_but_softening sg g (g_gas g') /\ g_haspot g' = p_haspot s) /\
  (p_haspot d <> p_haspot s \/ p_haspot g <> p_haspot s -> build (set_soft ss (upd_of s)) (set_soft sd (upd_of d)) (set_soft sg (upd_of g)) = Raise ValueError).
Proof.
  intros Hs Hd Hg Ts Td Tg. pose proof (pset_ok_haspot _ Hs) as A. pose proof (pset_ok_haspot _ Hd) as B. pose proof (pset_ok_haspot _ Hg) as C. split.
  - intros E1 E2. rewrite build_ok.
    + eexists. split; [reflexivity|]. cbn [g_stars g_dm g_gas g_haspot]. rewrite <- Ts at 1. rewrite <- Td at 1. rewrite <- Tg at 1.
      split; [now apply softened|]. split; [now apply softened|]. split; [now apply softened|]. unfold isSome, set_soft, upd_of. cbn. congruence.
    + apply (upd_of_lens s Hs).
    + apply (upd_of_lens d Hd).
    + apply (upd_of_lens g Hg).
    + unfold isSome, set_soft, upd_of. cbn. congruence.
    + unfold isSome, set_soft, upd_of. cbn. congruence.
  - intros E. unfold build. rewrite (build1_ok STARS (set_soft ss (upd_of s))), (build1_ok DARK_MATTER (set_soft sd (upd_of d))), (build1_ok GAS (set_soft sg (upd_of g)))
      by (apply (upd_of_lens _ Hs) || apply (upd_of_lens _ Hd) || apply (upd_of_lens _ Hg)). cbn [bind]. unfold mk_galaxy, pset_upd, pset_of, set_soft, upd_of. cbn. rewrite A, B, C in E.
    destruct (p_pot s), (p_pot d), (p_pot g); cbn in *; try reflexivity; destruct E; congruence.
Qed.

Lemma stored_clean o (p : pset N) : (forall v, In v (saved_values p) -> nisnan v = false) -> stored o p = tab (ids o (plen p)) (upd_of p).
Proof.
  intros H. unfold stored.
  assert (F : forall t : table N, (forall kc, In kc t -> existsb cell_null (snd kc) = false) -> flat_map stored_col t = t).
  { intros t. induction t as [|kc t IH]; intros K; [reflexivity|]. cbn [flat_map]. unfold stored_col at 1. rewrite K by (left; reflexivity). cbn [app]. f_equal. apply IH. intros; apply K; now right. }
  apply F. intros kc I.
  assert (E : forall l : list N, (forall v, In v l -> nisnan v = false) -> existsb cell_null (map CNum l) = false).
  { intros l K. induction l as [|a l IH]; [reflexivity|]. cbn. rewrite K by (left; reflexivity). apply IH. intros; apply K; now right. }
  assert (E0 : existsb cell_null (ids (N:=N) o (plen p)) = false).
  { unfold ids. induction (seq o (plen p)); auto. }
  unfold tab in I. apply in_app_or in I as [I|I].
  - unfold saved_values in H. rewrite !in_app_iff in H || idtac.
    simpl in I. destruct I as [<-|[<-|[<-|[<-|[<-|[<-|[<-|[<-|[]]]]]]]]]; cbn [snd upd_of u_m u_x u_y u_z u_vx u_vy u_vz]; [exact E0|apply E..]; intros v Iv; apply H; rewrite !in_app_iff; tauto.
  - cbn [upd_of u_pot] in I. unfold saved_values in H. destruct (p_pot p) as [l|]; [|destruct I]. destruct I as [<-|[]]. apply E. intros v Iv. apply H. rewrite !in_app_iff. tauto.
Qed.

(** ** Effects of the operations *)

Variable fault : nat -> option exn.

Lemma write_table_effect name t (f : h5 N M) k w r : NoDup (dkeys (h_objs f)) ->
  write_table fault true true name t (f, k) = (w, r) ->
  h_attrs (fst w) = h_attrs f /\ NoDup (dkeys (h_objs (fst w))) /\ (forall n, n <> name -> dget (h_objs (fst w)) n = dget (h_objs f) n) /\
  ((r = Ok tt /\ dget (h_objs (fst w)) name = Some (HTable t)) \/
   (exists e i, r = Raise e /\ fault i = Some e /\ (dget (h_objs (fst w)) name = dget (h_objs f) name \/ dget (h_objs (fst w)) name = None))).
Proof.
  intros ND. unfold write_table, then_, perform. cbn [fst snd].
  destruct (dget (h_objs f) name) eqn:E.
  - cbn [andb]. destruct (fault k) as [e|] eqn:F1.
    + intros [= <- <-]. cbn. split; [auto|]. split; [auto|]. split; [auto|]. right. exists e, k. auto.
    + cbn [fst snd]. destruct (fault (S k)) as [e|] eqn:F2; intros [= <- <-]; cbn.
      * split; [auto|]. split; [now apply NoDup_ddel|]. split; [intros; now apply dget_ddel_other|]. right. exists e, (S k). split; [auto|]. split; [auto|]. right. now apply dget_ddel_same.
      * split; [auto|]. split; [now apply NoDup_dset, NoDup_ddel|]. split; [intros n Hn; rewrite dget_dset_other by auto; now apply dget_ddel_other|]. left. split; [auto|]. apply dget_dset_same.
  - destruct (fault k) as [e|] eqn:F1; intros [= <- <-]; cbn.
    + split; [auto|]. split; [auto|]. split; [auto|]. right. exists e, k. auto.
    + split; [auto|]. split; [now apply NoDup_dset|]. split; [intros n Hn; now rewrite dget_dset_other|]. left. split; [auto|]. apply dget_dset_same.
Qed.

Lemma then_acc (w0 : world) r0 b (w : world (N:=N) (M:=M)) : then_ (fun _ => (w0, r0)) b w = match r0 with Ok _ => b w0 | Raise e => (w0, Raise e) end.
Proof. reflexivity. Qed.
Lemma write_attrs_effect md (f : h5 N M) k w r :
  write_attrs fault md (f, k) = (w, r) ->
  h_objs (fst w) = h_objs f /\ ((r = Ok tt /\ h_attrs (fst w) = dupdate (h_attrs f) md) \/ exists e i n, r = Raise e /\ fault i = Some e /\ h_attrs (fst w) = dupdate (h_attrs f) (firstn n md)).
Proof.
  unfold write_attrs.
  assert (G : forall md2 md1 w0 r0, (h_objs (fst w0) = h_objs f /\ ((r0 = Ok tt /\ h_attrs (fst w0) = dupdate (h_attrs f) md1) \/
              exists e i n, r0 = Raise e /\ fault i = Some e /\ h_attrs (fst w0) = dupdate (h_attrs f) (firstn n (md1 ++ md2)))) ->
    fold_left (fun acc kv => then_ (fun _ : world => acc) (perform fault (fun f => H5 (h_objs f) (dset (h_attrs f) (fst kv) (snd kv)))) (f, k)) md2 (w0, r0) = (w, r) ->
    h_objs (fst w) = h_objs f /\ ((r = Ok tt /\ h_attrs (fst w) = dupdate (h_attrs f) (md1 ++ md2)) \/ exists e i n, r = Raise e /\ fault i = Some e /\ h_attrs (fst w) = dupdate (h_attrs f) (firstn n (md1 ++ md2)))).
  { induction md2 as [|kv md2 IH]; intros md1 w0 r0 H0 E.
    - cbn in E. injection E as <- <-. rewrite app_nil_r in *. exact H0.
    - cbn [fold_left] in E. destruct H0 as (O & [(-> & A)|(e & i & n & -> & Fi & A)]).
      + replace (md1 ++ kv :: md2) with ((md1 ++ [kv]) ++ md2) by now rewrite <- app_assoc.
        destruct w0 as [f0 k0]. cbn [fst snd] in O, A. rewrite then_acc in E. unfold perform at 2 in E. cbn [fst snd] in E. destruct (fault k0) as [e|] eqn:F0.
        * eapply IH; [|exact E]. cbn. split; [auto|]. right. exists e, k0, (length md1). split; [auto|]. split; [auto|]. rewrite <- app_assoc, firstn_app, Nat.sub_diag, firstn_all. cbn. now rewrite app_nil_r.
        * eapply IH; [|exact E]. cbn. split; [auto|]. left. split; [auto|]. rewrite A. unfold dupdate. rewrite fold_left_app. reflexivity.
      + replace (md1 ++ kv :: md2) with ((md1 ++ [kv]) ++ md2) in * by now rewrite <- app_assoc.
        rewrite then_acc in E. eapply IH; [|exact E]. cbn. split; [auto|]. right. exists e, i, n. auto. }
  intros E. apply (G md [] (f, k) (Ok tt)); [|exact E]. split; [auto|]. left. auto.
Qed.
End Write.

Section Effect.
Context {N : Num} {M : Type}.

Definition newtabs (g : galaxy N) : list (table N) :=
  [stored 0 (g_stars g); stored (plen (g_stars g)) (g_dm g); stored (plen (g_stars g) + plen (g_dm g)) (g_gas g)].

Lemma names3_no k name : nth_error names3 (S (S (S k))) = Some name -> False.
Proof. destruct k; discriminate. Qed.

Lemma to_hdf5_effect fault defaults (now : M) (f : h5 N M) g md f' r : gal_ok g -> NoDup (dkeys (h_objs f)) ->
  to_hdf5 fault defaults now f g md None None = (f', r) ->
  NoDup (dkeys (h_objs f')) /\ (forall name, ~ In name names3 -> dget (h_objs f') name = dget (h_objs f) name) /\
  ((forall k name t, nth_error names3 k = Some name -> nth_error (newtabs g) k = Some t -> dget (h_objs f') name = Some (HTable t)) /\
    ((r = Ok tt /\ h_attrs f' = dupdate (h_attrs f) (h5_metadata defaults now md)) \/
     (exists e i j, r = Raise e /\ fault i = Some e /\ h_attrs f' = dupdate (h_attrs f) (firstn j (h5_metadata defaults now md)))) \/
   exists n e i, (n < 3)%nat /\ r = Raise e /\ fault i = Some e /\ h_attrs f' = h_attrs f /\
     (forall k name t, (k < n)%nat -> nth_error names3 k = Some name -> nth_error (newtabs g) k = Some t -> dget (h_objs f') name = Some (HTable t)) /\
     (forall name, nth_error names3 n = Some name -> dget (h_objs f') name = dget (h_objs f) name \/ dget (h_objs f') name = None) /\
     (forall k name, (n < k)%nat -> nth_error names3 k = Some name -> dget (h_objs f') name = dget (h_objs f) name)).
Proof.
  intros Hg ND. unfold to_hdf5. rewrite h5_tables_ok by auto. set (t1 := stored 0 (g_stars g)). set (t2 := stored (plen (g_stars g)) (g_dm g)). set (t3 := stored _ (g_gas g)).
  intros E.
  assert (E' : exists w, then_ (write_table fault true true "stars" t1) (then_ (write_table fault true true "dark_matter" t2) (then_ (write_table fault true true "gas" t3) (write_attrs fault (h5_metadata defaults now md)))) (f, 0%nat) = (w, r) /\ fst w = f').
  { destruct (then_ _ _ _) as [w r'] eqn:Q. cbn in E. injection E as <- <-. exists w. auto. }
  clear E. destruct E' as (w & E & <-). unfold then_ in E.
  assert (D : "dark_matter"%string <> "stars"%string /\ "gas"%string <> "stars"%string /\ "gas"%string <> "dark_matter"%string /\ "stars"%string <> "dark_matter"%string /\ "stars"%string <> "gas"%string /\ "dark_matter"%string <> "gas"%string) by (repeat split; discriminate).
  destruct D as (D1 & D2 & D3 & D4 & D5 & D6).
  destruct (write_table fault true true "stars" t1 (f, 0%nat)) as [w1 r1] eqn:W1. destruct (write_table_effect fault _ _ _ _ _ _ ND W1) as (A1 & N1 & O1 & C1).
  destruct C1 as [(-> & G1)|(e & i & -> & F1 & G1)].
  2:{ injection E as <- <-. split; [auto|]. split; [intros name I; apply O1; intros ->; apply I; simpl; auto|]. right. exists 0%nat, e, i. split; [lia|]. split; [auto|]. split; [auto|]. split; [auto|].
      split; [intros; lia|]. split; [intros name [= <-]; exact G1|]. intros [|[|[|k]]] name Hk; try lia; try (intros Q; now apply names3_no in Q); intros [= <-]; apply O1; auto. }
  destruct w1 as [f1 k1]. cbn [fst] in *.
  destruct (write_table fault true true "dark_matter" t2 (f1, k1)) as [w2 r2] eqn:W2. destruct (write_table_effect fault _ _ _ _ _ _ N1 W2) as (A2 & N2 & O2 & C2).
  destruct C2 as [(-> & G2)|(e & i & -> & F2 & G2)].
  2:{ injection E as <- <-. split; [auto|]. split; [intros name I; rewrite O2, O1; auto; intros ->; apply I; simpl; auto|]. right. exists 1%nat, e, i. split; [lia|]. split; [auto|]. split; [auto|]. split; [congruence|].
      split; [intros [|k] name t Hk; [|lia]; intros [= <-] [= <-]; rewrite O2 by auto; exact G1|]. split; [intros name [= <-]; rewrite O1 in G2 by auto; exact G2|].
      intros [|[|[|k]]] name Hk; try lia; try (intros Q; now apply names3_no in Q); intros [= <-]; rewrite O2, O1 by auto; auto. }
  destruct w2 as [f2 k2]. cbn [fst] in *.
  destruct (write_table fault true true "gas" t3 (f2, k2)) as [w3 r3] eqn:W3. destruct (write_table_effect fault _ _ _ _ _ _ N2 W3) as (A3 & N3 & O3 & C3).
  destruct C3 as [(-> & G3)|(e & i & -> & F3 & G3)].
  2:{ injection E as <- <-. split; [auto|]. split; [intros name I; rewrite O3, O2, O1; auto; intros ->; apply I; simpl; auto|]. right. exists 2%nat, e, i. split; [lia|]. split; [auto|]. split; [auto|]. split; [congruence|].
      split; [intros [|[|k]] name t Hk; try lia; intros [= <-] [= <-]; rewrite O3 by auto; [rewrite O2 by auto; exact G1|exact G2]|]. split; [intros name [= <-]; rewrite O2, O1 in G3 by auto; exact G3|].
      intros [|[|[|k]]] name Hk; try lia; intros Q; now apply names3_no in Q. }
  destruct w3 as [f3 k3]. cbn [fst] in *. destruct (write_attrs_effect fault _ _ _ _ _ E) as (O4 & C4). rewrite O4.
  split; [auto|]. split; [intros name I; rewrite O3, O2, O1; auto; intros ->; apply I; simpl; auto|]. left. split.
  - intros [|[|[|k]]] name t; [intros [= <-] [= <-]; rewrite O3, O2 by auto; exact G1|intros [= <-] [= <-]; rewrite O3 by auto; exact G2|intros [= <-] [= <-]; exact G3|intros Q; now apply names3_no in Q].
  - assert (h_attrs f3 = h_attrs f) as Ea by congruence. rewrite Ea in C4. destruct C4 as [C4|(e & i & j & C4)]; [left; exact C4|right; exists e, i, j; exact C4].
Qed.

(** Undisturbed. *)
Lemma to_hdf5_quiet defaults (now : M) (f : h5 N M) g md f' r : gal_ok g -> NoDup (dkeys (h_objs f)) ->
  to_hdf5 quiet defaults now f g md None None = (f', r) ->
  r = Ok tt /\ NoDup (dkeys (h_objs f')) /\ (forall name, ~ In name names3 -> dget (h_objs f') name = dget (h_objs f) name) /\
  (forall k name t, nth_error names3 k = Some name -> nth_error (newtabs g) k = Some t -> dget (h_objs f') name = Some (HTable t)) /\
  h_attrs f' = dupdate (h_attrs f) (h5_metadata defaults now md).
Proof.
  intros Hg ND E. destruct (to_hdf5_effect _ _ _ _ _ _ _ _ Hg ND E) as (A & B & [(C & [(D & F)|(e & i & j & _ & Q & _)])|(n & e & i & _ & _ & Q & _)]); [auto|discriminate..].
Qed.

Lemma clean_set (g : galaxy N) p : no_nan g -> In p (sets g) -> forall v, In v (saved_values p) -> nisnan v = false.
Proof. intros H I v. now apply H. Qed.

(** The tables of the file are those of these particle sets. *)
Lemma read_new (f : h5 N M) ss sd sg g : gal_ok g -> no_nan g ->
  (forall k name t, nth_error names3 k = Some name -> nth_error (newtabs g) k = Some t -> dget (h_objs f) name = Some (HTable t)) ->
  exists g', read_hdf5 f ss sd sg = Ok g' /\ read_back ss sd sg g g'.
Proof.
  intros Hg Hn H. apply gal_ok_facts in Hg as [Hs Hd Hq Ts Td Tg Ps Pd Pg].
  pose proof (H 0%nat _ _ eq_refl eq_refl) as H0. pose proof (H 1%nat _ _ eq_refl eq_refl) as H1. pose proof (H 2%nat _ _ eq_refl eq_refl) as H2.
  rewrite stored_clean in H0 by (apply (clean_set g); [auto|simpl; auto]). rewrite stored_clean in H1 by (apply (clean_set g); [auto|simpl; auto]). rewrite stored_clean in H2 by (apply (clean_set g); [auto|simpl; auto]).
  rewrite (read_sets _ ss sd sg _ _ _ _ _ _ H0 H1 H2). destruct (build_soft ss sd sg (g_stars g) (g_dm g) (g_gas g)) as (B & _); auto.
  destruct B as (g' & E & B1 & B2 & B3 & B4); [congruence..|]. exists g'. split; [exact E|]. unfold read_back. rewrite B4, Ps. auto.
Qed.
End Effect.

(** *** C50 *)

(** Reading what was written gives the galaxy with the softenings asked for. *)
Lemma c50_round_trip : forall (N : Num) (M : Type) defaults (now : M) (f : h5 N M) (g : galaxy N) metadata f' r,
  constructible g -> no_nan g -> NoDup (dkeys (h_objs f)) ->
  to_hdf5 quiet defaults now f g metadata None None = (f', r) ->
  r = Ok tt /\ forall ss sd sg, exists g', read_hdf5 f' ss sd sg = Ok g' /\ read_back ss sd sg g g'.
Proof.
  intros N M defaults now f g md f' r Hg Hn ND E. apply constructible_ok in Hg. destruct (to_hdf5_quiet _ _ _ _ _ _ _ Hg ND E) as (Hr & _ & _ & H & _).
  split; [exact Hr|]. intros ss sd sg. now apply read_new.
Qed.

Lemma kw_unknown {N : Num} (kw : dict (kwval N)) k : In k (dkeys kw) -> ~ In k mkgalaxy_params -> mkgalaxy kw = Raise TypeError.
Proof.
  intros I H. unfold mkgalaxy. assert (forallb (fun k => smem k mkgalaxy_params) (dkeys kw) = false) as ->; [|reflexivity].
  destruct (forallb _ _) eqn:F; [|reflexivity]. rewrite forallb_forall in F. apply F in I. apply smem_In in I. contradiction.
Qed.

(** A galaxy with a NaN among the stored values is written without complaint and cannot be
    read again: its column comes back with a mask column beside it. *)
Lemma c50_nan : forall (N : Num) (M : Type) defaults (now : M) (f : h5 N M) (g : galaxy N) metadata f' r p v,
  constructible g -> In p (sets g) -> In v (saved_values p) -> nisnan v = true -> NoDup (dkeys (h_objs f)) ->
  to_hdf5 quiet defaults now f g metadata None None = (f', r) ->
  r = Ok tt /\ forall ss sd sg, read_hdf5 f' ss sd sg = Raise TypeError.
Proof.
  intros N M defaults now f g md f' r p v Hg Hp Hv Hn ND E. apply constructible_ok in Hg. destruct (to_hdf5_quiet _ _ _ _ _ _ _ Hg ND E) as (Hr & _ & _ & H & _).
  split; [exact Hr|]. intros ss sd sg. unfold read_hdf5, read_table.
  rewrite (H 0%nat _ _ eq_refl eq_refl), (H 1%nat _ _ eq_refl eq_refl), (H 2%nat _ _ eq_refl eq_refl). cbn [bind].
  set (ts := stored 0 (g_stars g)). set (td := stored (plen (g_stars g)) (g_dm g)). set (tg := stored (plen (g_stars g) + plen (g_dm g)) (g_gas g)).
  assert (T : forall o, exists a, In a ["m"; "x"; "y"; "z"; "vx"; "vy"; "vz"; "potential"]%string /\ In (a ++ ".mask")%string (dkeys (stored o p))).
  { intros o. assert (C : forall a l, In a ["m"; "x"; "y"; "z"; "vx"; "vy"; "vz"; "potential"]%string -> In (a, map CNum l) (tab (ids o (plen p)) (upd_of p)) -> In v l ->
       exists a, In a ["m"; "x"; "y"; "z"; "vx"; "vy"; "vz"; "potential"]%string /\ In (a ++ ".mask")%string (dkeys (stored o p))).
    { intros a l Ia It Iv. exists a. split; [exact Ia|]. unfold stored, dkeys. apply in_map_iff. exists ((a ++ ".mask")%string, map (fun c => CInt (if cell_null c then 1 else 0)%Z) (map CNum l)). split; [reflexivity|].
      apply in_flat_map. exists (a, map CNum l). split; [exact It|]. unfold stored_col. cbn [snd fst].
      assert (existsb cell_null (map CNum l) = true) as -> by (apply existsb_exists; exists (CNum v); split; [now apply in_map|exact Hn]). right. now left. }
    unfold tab, upd_of in C. cbn [u_m u_x u_y u_z u_vx u_vy u_vz u_pot] in C. unfold saved_values in Hv. rewrite !in_app_iff in Hv.
    destruct Hv as [Hv|[Hv|[Hv|[Hv|[Hv|[Hv|[Hv|Hv]]]]]]];
      [apply (C "m"%string (p_m p))|apply (C "x"%string (p_x p))|apply (C "y"%string (p_y p))|apply (C "z"%string (p_z p))|apply (C "vx"%string (p_vx p))|apply (C "vy"%string (p_vy p))|apply (C "vz"%string (p_vz p))|];
      auto; try (simpl; tauto).
    destruct (p_pot p) as [l|] eqn:Ep; [|destruct Hv]. apply (C "potential"%string l); auto; simpl; tauto. }
  assert (D : forall (t : table N) sfx a, In a (dkeys t) -> a <> "id"%string -> In (key a sfx) (dkeys (table_to_dict t sfx))).
  { intros t sfx a I Ha. rewrite table_unfold. apply dkeys_dset_in. destruct (string_dec a "potential") as [->|Hb]; [now left|]. right.
    destruct (in_dec string_dec (key a sfx) (dkeys (ddel (dupdate [] (renamed t sfx)) (key "potential" sfx)))) as [|J]; [auto|]. exfalso.
    apply dget_none_notin in J. rewrite dget_ddel_other in J by (intros Q; apply key_inj in Q; contradiction). apply dget_none_notin in J. apply J. apply dkeys_dupdate_in. right.
    apply renamed_keys. eauto. }
  assert (U : forall a sfx, In a ["m"; "x"; "y"; "z"; "vx"; "vy"; "vz"; "potential"]%string -> suffix3 sfx -> ~ In (key (a ++ ".mask") sfx) mkgalaxy_params).
  { intros a sfx Ia S I. apply smem_In in I. rewrite params_key in I by auto. simpl in Ia. repeat (destruct Ia as [<-|Ia]; [discriminate|]). destruct Ia. }
  assert (Hm : forall a, (a ++ ".mask")%string <> "id"%string).
  { intros a Q. apply (f_equal (lasta Ascii.zero)) in Q. cbn [String.append] in Q. rewrite lasta_app in Q. discriminate. }
  assert (S3 : suffix3 "s" /\ suffix3 "dm" /\ suffix3 "g") by (unfold suffix3; auto). destruct S3 as (S1 & S2 & S3).
  destruct Hp as [<-|[<-|[<-|[]]]].
  - destruct (T 0%nat) as (a & Ia & It). apply (kw_unknown _ (key (a ++ ".mask") "s")); [|auto]. unfold galaxy_kws. rewrite !dkeys_dupdate_in. left. left. right. now apply D.
  - destruct (T (plen (g_stars g))) as (a & Ia & It). apply (kw_unknown _ (key (a ++ ".mask") "dm")); [|auto]. unfold galaxy_kws. rewrite !dkeys_dupdate_in. left. right. now apply D.
  - destruct (T (plen (g_stars g) + plen (g_dm g))%nat) as (a & Ia & It). apply (kw_unknown _ (key (a ++ ".mask") "g")); [|auto]. unfold galaxy_kws. rewrite !dkeys_dupdate_in. right. now apply D.
Qed.

(** *** C51 *)

Section Any.
Context {N : Num} {M : Type}.
Variable fault : nat -> option exn.
Definition keeps (w w' : world (N:=N) (M:=M)) : Prop :=
  (NoDup (dkeys (h_objs (fst w))) -> NoDup (dkeys (h_objs (fst w')))) /\
  forall name, ~ In name names3 -> dget (h_objs (fst w')) name = dget (h_objs (fst w)) name.
Lemma keeps_trans w1 w2 w3 : keeps w1 w2 -> keeps w2 w3 -> keeps w1 w3.
Proof. intros (A & B) (C & D). split; [auto|]. intros name I. rewrite D, B; auto. Qed.
Lemma keeps_then a b (w : world (N:=N) (M:=M)) : (forall w, keeps w (fst (a w))) -> (forall w, keeps w (fst (b w))) -> keeps w (fst (then_ a b w)).
Proof. intros A B. unfold then_. specialize (A w). destruct (a w) as [w1 [u|e]]; [|exact A]. eapply keeps_trans; [exact A|apply B]. Qed.
Lemma keeps_refl w : keeps w w.
Proof. split; auto. Qed.
Lemma keeps_perform change w : (forall f, keeps (f, 0%nat) (change f, 0%nat)) -> keeps w (fst (perform fault change w)).
Proof. intros H. unfold perform. destruct (fault (snd w)); [apply keeps_refl|]. destruct w as [f k]. exact (H f). Qed.
Lemma keeps_table a o name t w : In name names3 -> keeps w (fst (write_table fault a o name t w)).
Proof.
  intros Hn. unfold write_table. assert (P : forall w, keeps w (fst (perform fault (fun f => H5 (dset (h_objs f) name (HTable t)) (h_attrs f)) w))).
  { intros w0. apply keeps_perform. intros f. split; cbn; [apply NoDup_dset|]. intros n I. rewrite dget_dset_other; auto. intros ->. contradiction. }
  destruct (dget _ name); [|apply P]. destruct (a && o); [|apply keeps_refl]. apply keeps_then; [|exact P]. intros w0. apply keeps_perform.
  intros f. split; cbn; [apply NoDup_ddel|]. intros n I. rewrite dget_ddel_other; auto. intros ->. contradiction.
Qed.
Lemma keeps_attrs md w : keeps w (fst (write_attrs fault md w)).
Proof.
  unfold write_attrs.
  assert (G : forall w0 md w1 r1, keeps w w1 -> keeps w (fst (fold_left (fun acc kv => then_ (fun _ => acc) (perform fault (fun f => H5 (h_objs f) (dset (h_attrs f) (fst kv) (snd kv)))) w0) md (w1, r1)))).
  { intros w0. induction md0 as [|kv md0 IH]; intros w1 r1 K; [exact K|]. cbn [fold_left]. rewrite then_acc. destruct r1; [|now apply IH].
    destruct (perform fault _ w1) as [w2 r2] eqn:E. apply IH. eapply keeps_trans; [exact K|]. replace w2 with (fst (perform fault (fun f => H5 (h_objs f) (dset (h_attrs f) (fst kv) (snd kv))) w1)) by now rewrite E.
    apply keeps_perform. intros f. split; auto. }
  apply G, keeps_refl.
Qed.
Lemma to_hdf5_keeps defaults now f g md a o : keeps (f, 0%nat) (fst (to_hdf5 fault defaults now f g md a o), 0%nat).
Proof.
  unfold to_hdf5. destruct (h5_tables g) as [[[t1 t2] t3]|e]; [|apply keeps_refl]. cbn [fst snd].
  match goal with |- keeps _ (fst (fst (?x)), _) => set (X := x); assert (K : keeps (f, 0%nat) (fst X)) end; [|destruct K as (A & B); split; auto].
  subst X. apply keeps_then; [intros; apply keeps_table; simpl; auto|]. intros w. apply keeps_then; [intros; apply keeps_table; simpl; auto|]. intros w'.
  apply keeps_then; [intros; apply keeps_table; simpl; auto|]. intros w''. apply keeps_attrs.
Qed.
End Any.

(** Whatever was written before, however it ended, the last complete write is what is read;
    other objects in the file are never touched. *)
Lemma c51_last_wins : forall (N : Num) (M : Type) (f : h5 N M) (history : list (event M)) defaults (now : M) (g : galaxy N) metadata f' r,
  NoDup (dkeys (h_objs f)) -> constructible g -> no_nan g ->
  to_hdf5 quiet defaults now (fold_left after history f) g metadata None None = (f', r) ->
  r = Ok tt /\
  (forall ss sd sg, exists g', read_hdf5 f' ss sd sg = Ok g' /\ read_back ss sd sg g g') /\
  (forall name, ~ In name names3 -> dget (h_objs f') name = dget (h_objs f) name).
Proof.
  intros N M f hist defaults now g md f' r ND Hg Hn E.
  assert (K : NoDup (dkeys (h_objs (fold_left after hist f))) /\ forall name, ~ In name names3 -> dget (h_objs (fold_left after hist f)) name = dget (h_objs f) name).
  { clear E. revert f ND. induction hist as [|ev hist IH]; intros f ND; [split; auto|]. cbn [fold_left].
    destruct ev as [[[[[[fa de] no] ga] me] ap] ov]. unfold after at 2 4. pose proof (to_hdf5_keeps fa de no f ga me ap ov) as (A & B). cbn [fst] in A, B.
    destruct (IH _ (A ND)) as (C & D). split; [exact C|]. intros name I. rewrite D, B; auto. }
  destruct K as (K1 & K2). destruct (c50_round_trip _ _ _ _ _ _ _ _ _ Hg Hn K1 E) as (A & B). split; [exact A|]. split; [exact B|].
  intros name I. apply constructible_ok in Hg. destruct (to_hdf5_quiet _ _ _ _ _ _ _ Hg K1 E) as (_ & _ & O & _). rewrite O; auto.
Qed.

(** *** C52 *)

(** However a write is disturbed, its three objects are, up to some point, those of the
    undisturbed write, at that point old or missing, and old beyond it. *)
Lemma c52_crash : forall (N : Num) (M : Type) fault defaults (now : M) (f : h5 N M) (g : galaxy N) metadata f1 r1 f' r,
  NoDup (dkeys (h_objs f)) -> constructible g ->
  to_hdf5 quiet defaults now f g metadata None None = (f1, r1) ->
  to_hdf5 fault defaults now f g metadata None None = (f', r) ->
  (forall name, ~ In name names3 -> dget (h_objs f') name = dget (h_objs f) name) /\
  exists n, (n <= 3)%nat /\
    (forall k name, nth_error names3 k = Some name ->
       ((k < n)%nat -> dget (h_objs f') name = dget (h_objs f1) name) /\
       (k = n -> dget (h_objs f') name = dget (h_objs f) name \/ dget (h_objs f') name = None) /\
       ((n < k)%nat -> dget (h_objs f') name = dget (h_objs f) name)) /\
    ((n < 3)%nat -> h_attrs f' = h_attrs f) /\
    (r = Ok tt -> n = 3%nat /\ h_attrs f' = h_attrs f1) /\
    (r = Ok tt \/ exists e i, r = Raise e /\ fault i = Some e).
Proof.
  intros N M fault defaults now f g md f1 r1 f' r ND Hg E1 E. apply constructible_ok in Hg.
  destruct (to_hdf5_quiet _ _ _ _ _ _ _ Hg ND E1) as (_ & _ & _ & Q & Qa). destruct (to_hdf5_effect _ _ _ _ _ _ _ _ Hg ND E) as (_ & O & C). split; [exact O|].
  assert (L : forall k name, nth_error names3 k = Some name -> exists t, nth_error (newtabs g) k = Some t).
  { intros [|[|[|k]]] name K; [eexists; reflexivity..|]. now apply names3_no in K. }
  destruct C as [(T & C)|(n & e & i & Hn & -> & Fi & Ha & T1 & T2 & T3)].
  - exists 3%nat. split; [lia|]. split; [|split; [lia|split]].
    + intros k name K. split; [|split].
      * intros _. destruct (L _ _ K) as (t & Ht). rewrite (T _ _ _ K Ht). symmetry. eauto.
      * intros ->. now apply names3_no in K.
      * intros J. destruct k as [|[|[|k]]]; try lia. now apply names3_no in K.
    + intros ->. split; [auto|]. destruct C as [(_ & C)|(e & i & j & C & _)]; [congruence|discriminate].
    + destruct C as [(C & _)|(e & i & j & C & D & _)]; [auto|right; eauto].
  - exists n. split; [lia|]. split; [|split; [auto|split; [discriminate|right; eauto]]]. intros k name K. split; [|split].
    + intros J. destruct (L _ _ K) as (t & Ht). rewrite (T1 _ _ _ J K Ht). symmetry. eauto.
    + intros ->. eauto.
    + intros J. eauto.
Qed.

Section Crash.
Context {N : Num} {M : Type}.
Variable fault : nat -> option exn.
Implicit Types f : h5 N M.

Lemma step_ok f k name t o : dget (h_objs f) name = Some o -> fault k = None -> fault (S k) = None ->
  exists f1, write_table fault true true name t (f, k) = ((f1, S (S k)), Ok tt) /\ dget (h_objs f1) name = Some (HTable t) /\ forall n, n <> name -> dget (h_objs f1) n = dget (h_objs f) n.
Proof.
  intros E F1 F2. unfold write_table, then_, perform. cbn [fst snd andb]. rewrite E, F1. cbn [fst snd]. rewrite F2. eexists. split; [reflexivity|]. cbn. split; [apply dget_dset_same|].
  intros n Hn. now rewrite dget_dset_other, dget_ddel_other.
Qed.
Lemma step_first f k name t o e : dget (h_objs f) name = Some o -> fault k = Some e -> write_table fault true true name t (f, k) = ((f, k), Raise e).
Proof. intros E F. unfold write_table, then_, perform. cbn [fst snd andb]. now rewrite E, F. Qed.
Lemma step_second f k name t o e : NoDup (dkeys (h_objs f)) -> dget (h_objs f) name = Some o -> fault k = None -> fault (S k) = Some e ->
  exists f1, write_table fault true true name t (f, k) = ((f1, S k), Raise e) /\ dget (h_objs f1) name = None /\ forall n, n <> name -> dget (h_objs f1) n = dget (h_objs f) n.
Proof.
  intros ND E F1 F2. unfold write_table, then_, perform. cbn [fst snd andb]. rewrite E, F1. cbn [fst snd]. rewrite F2. eexists. split; [reflexivity|]. cbn.
  split; [now apply dget_ddel_same|]. intros n Hn. now apply dget_ddel_other.
Qed.

Lemma crash_at defaults now f g md f' r n e : gal_ok g -> NoDup (dkeys (h_objs f)) -> (forall name, In name names3 -> dget (h_objs f) name <> None) -> (n < 3)%nat ->
  (forall i, (i < 2 * n)%nat -> fault i = None) ->
  to_hdf5 fault defaults now f g md None None = (f', r) ->
  (forall (gone : bool), (if gone then fault (2 * n)%nat = None /\ fault (2 * n + 1)%nat = Some e else fault (2 * n)%nat = Some e) ->
    r = Raise e /\ forall k name t, nth_error names3 k = Some name -> nth_error (newtabs g) k = Some t ->
      dget (h_objs f') name = if (k <? n)%nat then Some (HTable t) else if gone && (k =? n)%nat then None else dget (h_objs f) name).
Proof.
  intros Hg ND Ho Hn Hf E gone Hgone. unfold to_hdf5 in E. rewrite h5_tables_ok in E by auto.
  set (t1 := stored 0 (g_stars g)) in E. set (t2 := stored (plen (g_stars g)) (g_dm g)) in E. set (t3 := stored _ (g_gas g)) in E.
  assert (E' : exists w, then_ (write_table fault true true "stars" t1) (then_ (write_table fault true true "dark_matter" t2) (then_ (write_table fault true true "gas" t3) (write_attrs fault (h5_metadata defaults now md)))) (f, 0%nat) = (w, r) /\ fst w = f').
  { destruct (then_ _ _ _) as [w r'] eqn:Q. cbn in E. injection E as <- <-. exists w. auto. }
  clear E. destruct E' as (w & E & <-). unfold then_ in E.
  assert (D : "dark_matter"%string <> "stars"%string /\ "gas"%string <> "stars"%string /\ "gas"%string <> "dark_matter"%string /\ "stars"%string <> "dark_matter"%string /\ "stars"%string <> "gas"%string /\ "dark_matter"%string <> "gas"%string) by (repeat split; discriminate).
  destruct D as (D1 & D2 & D3 & D4 & D5 & D6).
  assert (ND1 : forall t f1 w1, write_table fault true true "stars" t (f, 0%nat) = ((f1, w1), Ok tt) -> NoDup (dkeys (h_objs f1))) by (intros t f1 w1 Q; now destruct (write_table_effect fault _ _ _ _ _ _ ND Q) as (_ & Q1 & _)).
  destruct (dget (h_objs f) "stars") as [o1|] eqn:O1; [|now destruct (Ho "stars"%string (or_introl eq_refl))].
  destruct (dget (h_objs f) "dark_matter") as [o2|] eqn:O2; [|now destruct (Ho "dark_matter"%string (or_intror (or_introl eq_refl)))].
  destruct (dget (h_objs f) "gas") as [o3|] eqn:O3; [|now destruct (Ho "gas"%string (or_intror (or_intror (or_introl eq_refl))))].
  assert (F : forall P : nat -> string -> table N -> Prop, P 0%nat "stars"%string t1 -> P 1%nat "dark_matter"%string t2 -> P 2%nat "gas"%string t3 -> forall k name t, nth_error names3 k = Some name -> nth_error (newtabs g) k = Some t -> P k name t).
  { intros P P0 P1 P2 [|[|[|k]]] name t; [intros [= <-] [= <-]; auto..|]. intros Q. now apply names3_no in Q. }
  destruct n as [|[|[|n]]]; [..|lia]; cbn [Nat.mul Nat.add] in Hgone.
  - destruct gone.
    + destruct Hgone as (G1 & G2). destruct (step_second _ _ _ t1 _ _ ND O1 G1 G2) as (f1 & W & A & B). rewrite W in E. injection E as <- <-. split; [auto|].
      apply F; cbn; rewrite ?B by auto; auto.
    + rewrite (step_first _ _ _ t1 _ _ O1 Hgone) in E. injection E as <- <-. split; [auto|]. apply F; cbn; auto.
  - destruct (step_ok _ 0 _ t1 _ O1) as (f1 & W1 & A1 & B1); [apply Hf; lia..|]. rewrite W1 in E. pose proof O2 as P2. rewrite <- B1 in P2 by auto. destruct gone.
    + destruct Hgone as (G1 & G2). destruct (step_second _ _ _ t2 _ _ (ND1 _ _ _ W1) P2 G1 G2) as (f2 & W & A & B). rewrite W in E. injection E as <- <-. split; [auto|].
      apply F; cbn; rewrite ?B by auto; rewrite ?B1 by auto; auto.
    + rewrite (step_first _ _ _ t2 _ _ P2 Hgone) in E. injection E as <- <-. split; [auto|]. apply F; cbn; rewrite ?B1 by auto; auto.
  - destruct (step_ok _ 0 _ t1 _ O1) as (f1 & W1 & A1 & B1); [apply Hf; lia..|]. rewrite W1 in E. pose proof O2 as P2. rewrite <- B1 in P2 by auto.
    destruct (step_ok _ 2 _ t2 _ P2) as (f2 & W2 & A2 & B2); [apply Hf; lia..|]. rewrite W2 in E. pose proof O3 as P3. rewrite <- B1, <- B2 in P3 by auto.
    destruct (write_table_effect fault _ _ _ _ _ _ (ND1 _ _ _ W1) W2) as (_ & ND2 & _). cbn [fst] in ND2. destruct gone.
    + destruct Hgone as (G1 & G2). destruct (step_second _ _ _ t3 _ _ ND2 P3 G1 G2) as (f3 & W & A & B). rewrite W in E. injection E as <- <-. split; [auto|].
      apply F; cbn; rewrite ?B by auto; rewrite ?B2 by auto; rewrite ?B1 by auto; auto.
    + rewrite (step_first _ _ _ t3 _ _ P3 Hgone) in E. injection E as <- <-. split; [auto|]. apply F; cbn; rewrite ?B2 by auto; rewrite ?B1 by auto; auto.
Qed.
End Crash.

(** Over the file of one galaxy [g0] a second one is being written and the run ends before
    the [n]-th object is replaced: what is left reads as a mixture of the two galaxies, or
    not at all if only one of them has a potential. *)
Lemma c52_mixed : forall (N : Num) (M : Type) (fault : nat -> option exn) defaults (now : M) (f f0 : h5 N M) (g0 g1 : galaxy N) metadata0 metadata1 f' r n e,
  constructible g0 -> constructible g1 -> no_nan g0 -> no_nan g1 -> NoDup (dkeys (h_objs f)) ->
  to_hdf5 quiet defaults now f g0 metadata0 None None = (f0, Ok tt) ->
  (n < 3)%nat -> (forall i, (i < 2 * n)%nat -> fault i = None) -> fault (2 * n)%nat = Some e ->
  to_hdf5 fault defaults now f0 g1 metadata1 None None = (f', r) ->
  r = Raise e /\
  forall ss sd sg,
    (g_haspot g0 = g_haspot g1 -> exists g' s d q, read_hdf5 f' ss sd sg = Ok g' /\
       mixed_set n 0 g0 g1 = Some s /\ mixed_set n 1 g0 g1 = Some d /\ mixed_set n 2 g0 g1 = Some q /\
       same_but_softening ss s (g_stars g') /\ same_but_softening sd d (g_dm g') /\ same_but_softening sg q (g_gas g')) /\
    (g_haspot g0 <> g_haspot g1 -> (0 < n)%nat -> read_hdf5 f' ss sd sg = Raise ValueError).
Proof.
  intros N M fault defaults now f f0 g0 g1 md0 md1 f' r n e C0 C1 H0 H1 ND E0 Hn Hf He E1. apply constructible_ok in C0, C1.
  destruct (to_hdf5_quiet _ _ _ _ _ _ _ C0 ND E0) as (_ & ND0 & _ & T0 & _).
  assert (Hp : forall name, In name names3 -> dget (h_objs f0) name <> None).
  { intros name [<-|[<-|[<-|[]]]]; [rewrite (T0 0%nat _ _ eq_refl eq_refl)|rewrite (T0 1%nat _ _ eq_refl eq_refl)|rewrite (T0 2%nat _ _ eq_refl eq_refl)]; discriminate. }
  destruct (crash_at fault _ _ _ _ _ _ _ n e C1 ND0 Hp Hn Hf E1 false He) as (R & T1). split; [exact R|]. intros ss sd sg.
  pose proof (T1 0%nat _ _ eq_refl eq_refl) as S0. pose proof (T1 1%nat _ _ eq_refl eq_refl) as S1. pose proof (T1 2%nat _ _ eq_refl eq_refl) as S2. cbn [andb] in S0, S1, S2.
  rewrite (T0 0%nat _ _ eq_refl eq_refl) in S0. rewrite (T0 1%nat _ _ eq_refl eq_refl) in S1. rewrite (T0 2%nat _ _ eq_refl eq_refl) in S2.
  assert (K : forall g : galaxy N, no_nan g -> forall p o, In p (sets g) -> stored o p = tab (ids o (plen p)) (upd_of p)) by (intros g Hg p o I; apply stored_clean, (clean_set g); auto).
  rewrite (K g0 H0 (g_stars g0)), (K g1 H1 (g_stars g1)) in S0 by (simpl; auto). rewrite (K g0 H0 (g_dm g0)), (K g1 H1 (g_dm g1)) in S1 by (simpl; auto). rewrite (K g0 H0 (g_gas g0)), (K g1 H1 (g_gas g1)) in S2 by (simpl; auto).
  apply gal_ok_facts in C0 as [A1 A2 A3 A4 A5 A6 A7 A8 A9]. apply gal_ok_facts in C1 as [B1 B2 B3 B4 B5 B6 B7 B8 B9].
  assert (R3 : exists o0 o1 o2 s d q, nth_error (sets (if (0 <? n)%nat then g1 else g0)) 0 = Some s /\ nth_error (sets (if (1 <? n)%nat then g1 else g0)) 1 = Some d /\ nth_error (sets (if (2 <? n)%nat then g1 else g0)) 2 = Some q /\
     dget (h_objs f') "stars" = Some (HTable (tab (ids o0 (plen s)) (upd_of s))) /\ dget (h_objs f') "dark_matter" = Some (HTable (tab (ids o1 (plen d)) (upd_of d))) /\ dget (h_objs f') "gas" = Some (HTable (tab (ids o2 (plen q)) (upd_of q)))).
  { destruct n as [|[|[|n]]]; [..|lia]; cbn in S0, S1, S2 |- *; do 6 eexists; eauto 10. }
  destruct R3 as (o0 & o1 & o2 & s & d & q & Ns & Nd & Nq & Gs & Gd & Gq).
  rewrite (read_sets _ ss sd sg _ _ _ _ _ _ Gs Gd Gq).
  assert (Os : pset_ok s /\ p_type s = STARS /\ p_haspot s = g_haspot (if (0 <? n)%nat then g1 else g0)) by (destruct (0 <? n)%nat; injection Ns as <-; auto).
  assert (Od : pset_ok d /\ p_type d = DARK_MATTER /\ p_haspot d = g_haspot (if (1 <? n)%nat then g1 else g0)) by (destruct (1 <? n)%nat; injection Nd as <-; auto).
  assert (Oq : pset_ok q /\ p_type q = GAS /\ p_haspot q = g_haspot (if (2 <? n)%nat then g1 else g0)) by (destruct (2 <? n)%nat; injection Nq as <-; auto).
  destruct Os as (Os & Ys & Hs), Od as (Od & Yd & Hd), Oq as (Oq & Yq & Hq).
  destruct (build_soft ss sd sg s d q Os Od Oq Ys Yd Yq) as (BA & BB). split.
  - intros Eq. destruct BA as (g' & E & L1 & L2 & L3 & _).
    + rewrite Hs, Hd. destruct (0 <? n)%nat, (1 <? n)%nat; auto.
    + rewrite Hs, Hq. destruct (0 <? n)%nat, (2 <? n)%nat; auto.
    + exists g', s, d, q. unfold mixed_set. auto 10.
  - intros Ne Pn. apply BB. right. rewrite Hs, Hq. clear - Ne Pn Hn. destruct n as [|[|[|n]]]; [inversion Pn|exact Ne|exact Ne|exfalso; lia].
Qed.

(** If it ends between the removal of the old object and the creation of the new one the file
    cannot be read. *)
Lemma c52_gone : forall (N : Num) (M : Type) (fault : nat -> option exn) defaults (now : M) (f f0 : h5 N M) (g0 g1 : galaxy N) metadata0 metadata1 f' r n e,
  constructible g0 -> constructible g1 -> NoDup (dkeys (h_objs f)) ->
  to_hdf5 quiet defaults now f g0 metadata0 None None = (f0, Ok tt) ->
  (n < 3)%nat -> (forall i, (i < 2 * n + 1)%nat -> fault i = None) -> fault (2 * n + 1)%nat = Some e ->
  to_hdf5 fault defaults now f0 g1 metadata1 None None = (f', r) ->
  r = Raise e /\ forall ss sd sg, read_hdf5 f' ss sd sg = Raise KeyError.
Proof.
  intros N M fault defaults now f f0 g0 g1 md0 md1 f' r n e C0 C1 ND E0 Hn Hf He E1. apply constructible_ok in C0, C1.
  destruct (to_hdf5_quiet _ _ _ _ _ _ _ C0 ND E0) as (_ & ND0 & _ & T0 & _).
  assert (Hp : forall name, In name names3 -> dget (h_objs f0) name <> None).
  { intros name [<-|[<-|[<-|[]]]]; [rewrite (T0 0%nat _ _ eq_refl eq_refl)|rewrite (T0 1%nat _ _ eq_refl eq_refl)|rewrite (T0 2%nat _ _ eq_refl eq_refl)]; discriminate. }
  destruct (crash_at fault defaults now f0 g1 md1 f' r n e C1 ND0 Hp Hn) with (gone := true) as (R & T1); [intros; apply Hf; lia|exact E1|split; [apply Hf; lia|exact He]|].
  split; [exact R|]. intros ss sd sg. unfold read_hdf5, read_table.
  rewrite (T1 0%nat _ _ eq_refl eq_refl), (T1 1%nat _ _ eq_refl eq_refl), (T1 2%nat _ _ eq_refl eq_refl), (T0 0%nat _ _ eq_refl eq_refl), (T0 1%nat _ _ eq_refl eq_refl), (T0 2%nat _ _ eq_refl eq_refl).
  destruct n as [|[|[|n]]]; [reflexivity..|lia].
Qed.

(** Without leave to overwrite (or to append) a file that has a stars object is not changed. *)
Lemma c52_no_overwrite : forall (N : Num) (M : Type) fault defaults (now : M) (f : h5 N M) (g : galaxy N) metadata append overwrite,
  constructible g -> dget (h_objs f) "stars"%string <> None -> append = Some false \/ overwrite = Some false ->
  to_hdf5 fault defaults now f g metadata append overwrite = (f, Raise OSError).
Proof.
  intros N M fault defaults now f g md a o Hg Hs Ha. apply constructible_ok in Hg. unfold to_hdf5. rewrite h5_tables_ok by auto.
  assert (E : forall t, write_table fault (match a with Some b => b | None => true end) (match o with Some b => b | None => true end) "stars" t (f, 0%nat) = ((f, 0%nat), Raise OSError)).
  { intros t. unfold write_table. cbn [fst]. destruct (dget (h_objs f) "stars"); [|congruence]. assert ((match a with Some b => b | None => true end && match o with Some b => b | None => true end)%bool = false) as ->; [|reflexivity].
    destruct Ha as [->| ->]; [reflexivity|apply andb_false_r]. }
  set (t1 := stored 0 (g_stars g)). set (t2 := stored (plen (g_stars g)) (g_dm g)). set (t3 := stored _ (g_gas g)). unfold then_. now rewrite E.
Qed.

(** *** C53 *)

(** Attributes: the user's, else the time stamp and the defaults, else what was there. *)
Lemma c53_metadata : forall (N : Num) (M : Type) defaults (now : M) (f : h5 N M) (g : galaxy N) metadata f' r,
  constructible g -> NoDup (dkeys (h_objs f)) -> NoDup (dkeys defaults) -> (forall m, metadata = Some m -> NoDup (dkeys m)) ->
  to_hdf5 quiet defaults now f g metadata None None = (f', r) ->
  forall k,
    (forall m v, metadata = Some m -> dget m k = Some v -> dget (h_attrs f') k = Some v) /\
    ((forall m, metadata = Some m -> dget m k = None) ->
       (k = "utc_timestamp"%string -> dget (h_attrs f') k = Some now) /\
       (k <> "utc_timestamp"%string ->
          (forall v, dget defaults k = Some v -> dget (h_attrs f') k = Some v) /\
          (dget defaults k = None -> dget (h_attrs f') k = dget (h_attrs f) k))).
Proof.
  intros N M defaults now f g md f' r Hg ND NDd NDm E k. apply constructible_ok in Hg. destruct (to_hdf5_quiet _ _ _ _ _ _ _ Hg ND E) as (_ & _ & _ & _ & ->).
  set (m := match md with Some m => m | None => [] end). assert (NM : NoDup (dkeys m)) by (subst m; destruct md; [eauto|constructor]).
  assert (Q : dget (dupdate (h_attrs f) (h5_metadata defaults now md)) k =
    match dget m k with Some v => Some v | None => if String.eqb k "utc_timestamp" then Some now else match dget defaults k with Some v => Some v | None => dget (h_attrs f) k end end).
  { rewrite dget_dupdate. rewrite dget_rev by (unfold h5_metadata; now apply NoDup_dupdate, NoDup_dset). unfold h5_metadata. fold m. rewrite dget_dupdate, (dget_rev m) by auto.
    destruct (dget m k); [reflexivity|]. rewrite dget_dset. destruct (String.eqb k "utc_timestamp"); reflexivity. }
  rewrite Q. split.
  - intros m' v Em Ev. subst m. rewrite Em, Ev. reflexivity.
  - intros Hm. assert (dget m k = None) as -> by (subst m; destruct md; [eauto|reflexivity]). split.
    + intros ->. reflexivity.
    + intros Hk. apply String.eqb_neq in Hk. rewrite Hk. split; [intros v ->; reflexivity|intros ->; reflexivity].
Qed.

(** *** C54 *)

Section Npy.
Context {N : Num}.
Implicit Types (a : ndarray2 N) (columns : list string) (t : table N).

Lemma guard_raise b (e e' : exn) : guard b e = Raise e' -> b = false /\ e' = e.
Proof. destruct b; cbn; intros H; [discriminate|injection H as <-; auto]. Qed.
Lemma guard_ok b (e : exn) u : guard b e = Ok u -> b = true.
Proof. destruct b; cbn; congruence. Qed.

Definition npy1 a columns (file : option (list N)) : res (table N) :=
  do t <- nd_table a columns; add_potential t (length (nd_rows a)) file.

Lemma nd_raise a columns e : nd_table a columns = Raise e -> e = ValueError.
Proof.
  unfold nd_table. intros H. apply bind_raise in H as [H|(u & _ & H)]; [apply guard_raise in H; tauto|].
  apply bind_raise in H as [H|(u' & _ & H)]; [apply guard_raise in H; tauto|discriminate].
Qed.
Lemma add_raise t n file e : add_potential t n file = Raise e -> e = ValueError.
Proof.
  unfold add_potential. destruct file; [|discriminate]. intros H. apply bind_raise in H as [H|(u & _ & H)]; [apply guard_raise in H; tauto|].
  apply bind_raise in H as [H|(u' & _ & H)]; [apply guard_raise in H; tauto|discriminate].
Qed.
Lemma read_npy_eq as_ ad ag columns ps pd pg ss sd sg :
  read_npy as_ ad ag columns ps pd pg ss sd sg =
  (do ts <- npy1 as_ columns ps; do td <- npy1 ad columns pd; do tg <- npy1 ag columns pg; mkgalaxy (galaxy_kws ss sd sg ts td tg)).
Proof.
  unfold read_npy, npy1.
  destruct (nd_table as_ columns) as [ts|e] eqn:E1; cbn [bind]; [|reflexivity].
  destruct (nd_table ad columns) as [td|e] eqn:E2; cbn [bind].
  2:{ destruct (add_potential ts _ ps) as [t1|e1] eqn:A1; cbn [bind]; [reflexivity|]. apply nd_raise in E2. apply add_raise in A1. congruence. }
  destruct (nd_table ag columns) as [tg|e] eqn:E3; cbn [bind].
  - reflexivity.
  - apply nd_raise in E3. destruct (add_potential ts _ ps) as [t1|e1] eqn:A1; cbn [bind]; [|apply add_raise in A1; congruence].
    destruct (add_potential td _ pd) as [t2|e2] eqn:A2; cbn [bind]; [reflexivity|apply add_raise in A2; congruence].
Qed.

Definition colvals a (i : nat) : list N := map (fun row => nth i row nnan) (nd_rows a).

Lemma dget_combine (F : nat -> list (cell N)) columns : forall o name, NoDup columns ->
  dget (map (fun ik => (snd ik, F (fst ik))) (combine (seq o (length columns)) columns)) name =
  match find (fun i => String.eqb name (nth i columns ""%string)) (seq 0 (length columns)) with Some i => Some (F (o + i)%nat) | None => None end.
Proof.
  induction columns as [|c columns IH]; intros o name ND; [reflexivity|]. inversion ND as [|? ? H1 H2]; subst. cbn [length seq combine map fst snd dget find nth].
  destruct (String.eqb_spec name c) as [->|Hn]; [now rewrite Nat.add_0_r|]. rewrite IH by auto. rewrite <- seq_shift. clear.
  induction (seq 0 (length columns)) as [|i l IH]; [reflexivity|]. cbn [map find nth]. destruct (String.eqb name (nth i columns ""%string)); [do 2 f_equal; lia|exact IH].
Qed.

Lemma nd_iff a columns t : nd_table a columns = Ok t -> fits a columns /\ dkeys t = columns /\
  (forall i name, nth_error columns i = Some name -> dget t name = Some (map CNum (colvals a i))).
Proof.
  unfold nd_table. intros H. apply bind_ok in H as (u & G1 & H). apply bind_ok in H as (u' & G2 & H). apply guard_ok in G1, G2. apply Nat.eqb_eq in G1, G2. injection H as <-.
  assert (ND : NoDup columns).
  { assert (I : incl columns (dedup [] columns)) by (intros k Ik; apply dedup_In; split; [exact Ik|intros []]).
    apply NoDup_incl_NoDup with (l := dedup [] columns); [apply dedup_NoDup|lia|]. intros k Ik. now apply dedup_In in Ik. }
  split; [split; auto|]. split.
  - unfold dkeys. rewrite map_map. cbn [fst]. rewrite <- G1. clear. generalize 0%nat. induction columns as [|c l IH]; intros o; [reflexivity|]. cbn. f_equal. apply IH.
  - intros i name Hi. rewrite <- G1. rewrite (dget_combine (fun i => map (fun row => CNum (nth i row nnan)) (nd_rows a))) by auto.
    assert (Li : (i < length columns)%nat) by (apply nth_error_Some; congruence).
    destruct (find _ _) as [j|] eqn:F.
    + apply find_some in F as (Ij & Ej). apply in_seq in Ij. apply String.eqb_eq in Ej. assert (j = i) as ->.
      { apply (proj1 (NoDup_nth columns ""%string) ND); [lia|lia|]. rewrite <- Ej. symmetry. now apply nth_error_nth. }
      unfold colvals. now rewrite map_map.
    + exfalso. apply find_none with (x := i) in F; [|apply in_seq; lia]. apply String.eqb_neq in F. apply F. symmetry. now apply nth_error_nth.
Qed.
Lemma nd_fits a columns : fits a columns -> exists t, nd_table a columns = Ok t.
Proof. intros (A & B). unfold nd_table. rewrite A, Nat.eqb_refl. cbn [guard bind]. rewrite dedup_nodup_id by (auto; intros k _ []). rewrite A, Nat.eqb_refl. cbn [guard bind]. eauto. Qed.

(** What a loaded table holds. *)
Record holds a columns (file : option (list N)) t : Prop := {
  hd_fits : fits a columns;
  hd_keys : dkeys t = columns ++ match file with Some _ => ["potential"%string] | None => [] end;
  hd_nodup : NoDup (dkeys t);
  hd_col : forall i name, nth_error columns i = Some name -> dget t name = Some (map CNum (colvals a i));
  hd_pot : columns <> [] -> potential_ok a columns file;
  hd_file : forall v, file = Some v -> exists l, (columns <> [] -> potential_for a v l) /\ dget t "potential" = Some (map CNum l) }.

Lemma dget_app1 {V} (d : dict V) k v k' : dget (d ++ [(k, v)]) k' = match dget d k' with Some w => Some w | None => if String.eqb k' k then Some v else None end.
Proof. rewrite dget_app. reflexivity. Qed.

Lemma npy1_holds a columns file t : npy1 a columns file = Ok t -> holds a columns file t.
Proof.
  unfold npy1. intros H. apply bind_ok in H as (t0 & H0 & H). apply nd_iff in H0 as (Hf & Hk & Hc). unfold add_potential in H. destruct file as [v|].
  - apply bind_ok in H as (u & G1 & H). apply bind_ok in H as (u' & G2 & H). apply guard_ok in G1, G2. injection H as <-. rewrite Hk in G2. apply negb_true_iff in G2.
    assert (NI : ~ In "potential"%string columns) by (intros I; apply smem_In in I; congruence).
    assert (PF : columns <> [] -> potential_for a v (if ((length v =? 1)%nat && (0 <? length (nd_rows a))%nat)%bool then repeat (nth 0 v nnan) (length (nd_rows a)) else v)).
    { intros NE. destruct t0 as [|kc t0]; [now subst columns|]. apply Nat.eqb_eq in G1. split; [exact G1|].
      destruct ((length v =? 1)%nat && (0 <? length (nd_rows a))%nat)%bool eqn:B; [|now left]. apply andb_true_iff in B as (B1 & B2). apply Nat.eqb_eq in B1. apply Nat.ltb_lt in B2.
      right. split; [intros Q; rewrite Q in B2; cbn in B2; lia|]. destruct v as [|x [|]]; try discriminate. exists x. auto. }
    split; auto.
    + unfold dkeys in *. rewrite map_app, Hk. reflexivity.
    + unfold dkeys in *. rewrite map_app, Hk. cbn [map fst]. destruct Hf as (_ & ND). clear - ND NI. induction columns as [|c l IH]; [constructor; [intros []|constructor]|].
      inversion ND; subst. cbn. constructor; [|apply IH; [auto|intros I; apply NI; now right]]. rewrite in_app_iff. intros [I|[I|[]]]; [contradiction|]. apply NI. now left.
    + intros i name Hi. rewrite dget_app1, (Hc _ _ Hi). reflexivity.
    + intros NE p [= <-]. split; [exact NI|]. eexists. now apply PF.
    + intros v' [= <-]. eexists. split; [exact PF|]. rewrite dget_app1. rewrite <- Hk in NI. apply dget_none_notin in NI as ->. reflexivity.
  - injection H as <-. split; auto; try (rewrite ?app_nil_r; auto; fail).
    + rewrite Hk. apply Hf.
    + intros _ p Q. discriminate.
    + intros v Q. discriminate.
Qed.

Lemma npy1_ok a columns file : fits a columns -> potential_ok a columns file -> exists t, npy1 a columns file = Ok t.
Proof.
  intros Hf Hp. destruct (nd_fits _ _ Hf) as (t & Ht). unfold npy1. rewrite Ht. cbn [bind]. apply nd_iff in Ht as (_ & Hk & _). unfold add_potential. destruct file as [v|]; [|eauto].
  destruct (Hp v eq_refl) as (NI & l & Hl & Hv). rewrite Hk. assert (smem "potential" columns = false) as ->.
  { destruct (smem "potential" columns) eqn:E; [|reflexivity]. apply smem_In in E. contradiction. }
  cbn [negb]. set (p := if _ : bool then _ else _). assert (length p = length (nd_rows a)).
  { subst p. destruct Hv as [->|(NE & x & -> & ->)].
    - destruct ((length v =? 1)%nat && (0 <? length (nd_rows a))%nat)%bool; [apply repeat_length|exact Hl].
    - cbn [length]. destruct (nd_rows a); [congruence|]. cbn. now rewrite repeat_length. }
  assert (match t with [] => true | _ :: _ => (length p =? length (nd_rows a))%nat end = true) as -> by (destruct t; [auto|now apply Nat.eqb_eq]). cbn [guard bind]. eauto.
Qed.

Lemma npy1_raise a columns file e : npy1 a columns file = Raise e -> e = ValueError.
Proof. unfold npy1. intros H. apply bind_raise in H as [H|(t & _ & H)]; [now apply nd_raise in H|now apply add_raise in H]. Qed.

Lemma holds_names a columns file t : holds a columns file t -> names_ok t = true <-> forall c, In c columns -> known_column c.
Proof.
  intros [_ Hk _ _ _ _]. unfold names_ok. rewrite forallb_forall, Hk. split.
  - intros H c I. specialize (H c (in_or_app _ _ _ (or_introl I))). apply smem_In in H. exact H.
  - intros H c I. apply smem_In. apply in_app_or in I as [I|I]; [now apply H|]. destruct file; [|destruct I]. destruct I as [<-|[]]. simpl. tauto.
Qed.
Lemma holds_complete a columns file t : holds a columns file t -> complete t = true <-> forall c, In c needed_columns -> In c columns.
Proof.
  intros [_ Hk _ _ _ _]. unfold complete. rewrite forallb_forall, Hk. split.
  - intros H c I. specialize (H c I). apply smem_In in H. apply in_app_or in H as [H|H]; [exact H|]. destruct file; [|destruct H]. destruct H as [<-|[]]. simpl in I.
    repeat (destruct I as [I|I]; [discriminate I|]). destruct I.
  - intros H c I. apply smem_In, in_or_app. left. now apply H.
Qed.
Lemma holds_tcol a columns file t c : holds a columns file t -> In c columns -> named a columns c (tcol t c) /\ length (tcol t c) = length (nd_rows a).
Proof.
  intros H I. apply In_nth_error in I as (i & Hi). unfold tcol. rewrite (hd_col _ _ _ _ H _ _ Hi), to_numpy_CNum. unfold named, colvals. split; [exists i; auto|apply map_length].
Qed.
Lemma holds_none a columns file t c : holds a columns file t -> ~ In c columns -> c <> "potential"%string -> dget t c = None.
Proof.
  intros H I Hc. apply dget_none_notin. rewrite (hd_keys _ _ _ _ H), in_app_iff. intros [J|J]; [auto|]. destruct file; [|destruct J]. destruct J as [<-|[]]. congruence.
Qed.
Lemma holds_pot a columns file t : holds a columns file t -> columns <> [] -> exists o, option_map to_numpy (dget t "potential") = o /\
  (o <> None <-> gives_potential columns file) /\ (forall l, o = Some l -> length l = length (nd_rows a)) /\
  match file with Some v => exists l, potential_for a v l /\ o = Some l | None => match o with Some l => named a columns "potential" l | None => ~ In "potential"%string columns end end.
Proof.
  intros H NE. destruct file as [v|].
  - destruct (hd_file _ _ _ _ H v eq_refl) as (l & Hl & ->). cbn. rewrite to_numpy_CNum. exists (Some l). split; [auto|]. split; [split; [right; discriminate|discriminate]|].
    split; [intros l' [= <-]; now apply Hl|]. exists l. auto.
  - destruct (in_dec string_dec "potential"%string columns) as [I|I].
    + apply In_nth_error in I as (i & Hi). rewrite (hd_col _ _ _ _ H _ _ Hi). cbn. rewrite to_numpy_CNum. eexists. split; [reflexivity|]. split; [split; [left; now apply nth_error_In in Hi|discriminate]|].
      split; [intros l [= <-]; apply map_length|]. exists i. auto.
    + assert (dget t "potential" = None) as ->. { apply dget_none_notin. now rewrite (hd_keys _ _ _ _ H), app_nil_r. }
      exists None. split; [auto|]. split; [split; [congruence|intros [J|J]; contradiction]|]. split; [discriminate|exact I].
Qed.

(** The particle set of one table. *)
Lemma table_pset_meaning ty a columns file t soft : holds a columns file t -> (forall c, In c needed_columns -> In c columns) ->
  ((In "softening"%string columns -> length (nd_rows a) = 1%nat) ->
     exists p, table_pset ty t soft = Ok p /\ loaded a columns file soft p /\ p_type p = ty /\ pset_ok p /\ (p_haspot p = true <-> gives_potential columns file)) /\
  (In "softening"%string columns -> length (nd_rows a) <> 1%nat -> table_pset ty t soft = Raise TypeError).
Proof.
  intros H Hn. assert (NE : columns <> []) by (intros ->; destruct (Hn "m"%string); simpl; auto).
  assert (B : forall s, tsoft t soft = Ok s -> exists p, table_pset ty t soft = Ok p /\ p_type p = ty /\ pset_ok p /\ (p_haspot p = true <-> gives_potential columns file) /\ p_soft p = s /\
     (((~ In "softening"%string columns /\ s = soft) \/ named a columns "softening" [s]) -> loaded a columns file soft p)).
  { intros s Es. unfold table_pset. rewrite Es. cbn [bind]. destruct (holds_pot _ _ _ _ H NE) as (o & -> & Ho1 & Ho2 & Ho3).
    assert (C : forall c, In c needed_columns -> named a columns c (tcol t c) /\ length (tcol t c) = length (nd_rows a)) by (intros c I; eapply holds_tcol; eauto).
    assert (I7 : In "m"%string needed_columns /\ In "x"%string needed_columns /\ In "y"%string needed_columns /\ In "z"%string needed_columns /\ In "vx"%string needed_columns /\ In "vy"%string needed_columns /\ In "vz"%string needed_columns) by (simpl; tauto).
    destruct I7 as (I1 & I2 & I3 & I4 & I5 & I6 & I7). apply C in I1 as (N1 & L1), I2 as (N2 & L2), I3 as (N3 & L3), I4 as (N4 & L4), I5 as (N5 & L5), I6 as (N6 & L6), I7 as (N7 & L7).
    assert (L : lens_ok (tcol t "m") (tcol t "x") (tcol t "y") (tcol t "z") (tcol t "vx") (tcol t "vy") (tcol t "vz") o).
    { unfold lens_ok. rewrite L1, L2, L3, L4, L5, L6, L7. repeat (split; [reflexivity|]). exact Ho2. }
    pose proof (mk_pset_ok ty _ _ _ _ _ _ _ _ s L) as E. rewrite E. eexists. split; [reflexivity|]. split; [reflexivity|]. split; [now apply mk_pset_pset_ok in E|].
    split; [|split; [reflexivity|]].
    - unfold pset_of. cbn [p_haspot]. rewrite <- Ho1. destruct o; split; congruence.
    - intros S. unfold loaded, pset_of. cbn. repeat (split; [assumption|]). exact S. }
  split.
  - intros Hs. destruct (in_dec string_dec "softening"%string columns) as [I|I].
    + specialize (Hs I). pose proof I as I'. apply In_nth_error in I as (i & Hi). destruct (nd_rows a) as [|row [|? ?]] eqn:R; try discriminate.
      destruct (B (nth i row nnan)) as (p & E & T & P & Q & Sp & L).
      { unfold tsoft. rewrite (hd_col _ _ _ _ H _ _ Hi). unfold colvals. rewrite R. reflexivity. }
      exists p. split; [exact E|]. split; [|auto]. apply L. right. exists i. split; [exact Hi|]. now rewrite R.
    + destruct (B soft) as (p & E & T & P & Q & Sp & L).
      { unfold tsoft. rewrite (holds_none _ _ _ _ _ H I); [reflexivity|discriminate]. }
      exists p. split; [exact E|]. split; [|auto]. apply L. now left.
  - intros I Hl. apply In_nth_error in I as (i & Hi). unfold table_pset, tsoft. rewrite (hd_col _ _ _ _ H _ _ Hi). unfold colvals.
    destruct (nd_rows a) as [|row [|? ?]]; [reflexivity|now destruct Hl|reflexivity].
Qed.
End Npy.

Section NpyOut.
Context {N : Num}.
Variables (as_ ad ag : ndarray2 N) (columns : list string) (ps pd pg : option (list N)) (ss sd sg : N).

(** The names are right. *)
Definition names_right : Prop := (forall c, In c columns -> known_column c) /\ (forall c, In c needed_columns -> In c columns).

Lemma names_guard ts td tg : holds as_ columns ps ts -> holds ad columns pd td -> holds ag columns pg tg ->
  (names_right -> names_ok ts && names_ok td && names_ok tg = true /\ complete ts && complete td && complete tg = true) /\
  (~ names_right -> names_ok ts && names_ok td && names_ok tg = false \/ complete ts && complete td && complete tg = false).
Proof.
  intros H1 H2 H3. split.
  - intros (A & B). split; rewrite !andb_true_iff; repeat split; try (eapply holds_names; eassumption); eapply holds_complete; eassumption.
  - intros H. destruct (names_ok ts && names_ok td && names_ok tg) eqn:E1; [|auto]. destruct (complete ts && complete td && complete tg) eqn:E2; [|auto]. exfalso. apply H.
    rewrite !andb_true_iff in E1, E2. split; [eapply holds_names; [exact H1|tauto]|eapply holds_complete; [exact H1|tauto]].
Qed.

Lemma npy_outcome : fits as_ columns -> fits ad columns -> fits ag columns -> potential_ok as_ columns ps -> potential_ok ad columns pd -> potential_ok ag columns pg ->
  let r := read_npy as_ ad ag columns ps pd pg ss sd sg in
  (~ names_right -> r = Raise TypeError) /\
  (names_right -> 
     let one := In "softening"%string columns -> length (nd_rows as_) = 1%nat /\ length (nd_rows ad) = 1%nat /\ length (nd_rows ag) = 1%nat in
     (~ one -> r = Raise TypeError) /\
     (one -> exists s d g, loaded as_ columns ps ss s /\ loaded ad columns pd sd d /\ loaded ag columns pg sg g /\
        p_type s = STARS /\ p_type d = DARK_MATTER /\ p_type g = GAS /\ pset_ok s /\ pset_ok d /\ pset_ok g /\
        (p_haspot s = true <-> gives_potential columns ps) /\ (p_haspot d = true <-> gives_potential columns pd) /\ (p_haspot g = true <-> gives_potential columns pg) /\
        r = mk_galaxy s d g)).
Proof.
  intros F1 F2 F3 P1 P2 P3 r. subst r. rewrite read_npy_eq.
  destruct (npy1_ok _ _ _ F1 P1) as (ts & E1). destruct (npy1_ok _ _ _ F2 P2) as (td & E2). destruct (npy1_ok _ _ _ F3 P3) as (tg & E3). rewrite E1, E2, E3. cbn [bind].
  apply npy1_holds in E1, E2, E3. rewrite mkgalaxy_tables by (eapply hd_nodup; eassumption).
  destruct (names_guard _ _ _ E1 E2 E3) as (G1 & G2). split.
  - intros H. destruct (G2 H) as [-> | Q]; [reflexivity|]. rewrite Q. destruct (names_ok ts && names_ok td && names_ok tg); reflexivity.
  - intros H. destruct (G1 H) as (-> & ->). cbn [guard bind]. destruct H as (_ & H).
    destruct (table_pset_meaning STARS _ _ _ _ ss E1 H) as (M1 & R1). destruct (table_pset_meaning DARK_MATTER _ _ _ _ sd E2 H) as (M2 & R2). destruct (table_pset_meaning GAS _ _ _ _ sg E3 H) as (M3 & R3).
    split.
    + intros NO. assert (I : In "softening"%string columns).
      { destruct (in_dec string_dec "softening"%string columns) as [I|I]; [exact I|]. exfalso. apply NO. intros J. contradiction. }
      destruct (Nat.eq_dec (length (nd_rows as_)) 1) as [L1|L1]; [|now rewrite R1]. destruct M1 as (s & -> & _); [auto|]. cbn [bind].
      destruct (Nat.eq_dec (length (nd_rows ad)) 1) as [L2|L2]; [|now rewrite R2]. destruct M2 as (d & -> & _); [auto|]. cbn [bind].
      destruct (Nat.eq_dec (length (nd_rows ag)) 1) as [L3|L3]; [|now rewrite R3]. exfalso. apply NO. auto.
    + intros O. destruct M1 as (s & -> & A1 & A2 & A3 & A4); [intros I; now apply O|]. destruct M2 as (d & -> & B1 & B2 & B3 & B4); [intros I; now apply O|]. destruct M3 as (g & -> & C1 & C2 & C3 & C4); [intros I; now apply O|].
      cbn [bind]. exists s, d, g. repeat (split; [assumption|]). reflexivity.
Qed.

Lemma npy_shape : (~ fits as_ columns \/ ~ fits ad columns \/ ~ fits ag columns) \/
   (columns <> [] /\ (~ potential_ok as_ columns ps \/ ~ potential_ok ad columns pd \/ ~ potential_ok ag columns pg)) ->
  read_npy as_ ad ag columns ps pd pg ss sd sg = Raise ValueError.
Proof.
  intros H. rewrite read_npy_eq.
  destruct (npy1 as_ columns ps) as [ts|e] eqn:E1; [|apply npy1_raise in E1; now subst]. cbn [bind].
  destruct (npy1 ad columns pd) as [td|e] eqn:E2; [|apply npy1_raise in E2; now subst]. cbn [bind].
  destruct (npy1 ag columns pg) as [tg|e] eqn:E3; [|apply npy1_raise in E3; now subst]. exfalso.
  apply npy1_holds in E1 as [A1 _ _ _ B1 _], E2 as [A2 _ _ _ B2 _], E3 as [A3 _ _ _ B3 _]. tauto.
Qed.
End NpyOut.

(** Whatever is read has the meaning its column names say. *)
Lemma c54_meaning : forall (N : Num) (as_ ad ag : ndarray2 N) columns ps pd pg ss sd sg g,
  read_npy as_ ad ag columns ps pd pg ss sd sg = Ok g ->
  loaded as_ columns ps ss (g_stars g) /\ loaded ad columns pd sd (g_dm g) /\ loaded ag columns pg sg (g_gas g) /\ constructible g.
Proof.
  intros N as_ ad ag columns ps pd pg ss sd sg g H.
  assert (D : (fits as_ columns /\ fits ad columns /\ fits ag columns) /\ (columns = [] \/ potential_ok as_ columns ps /\ potential_ok ad columns pd /\ potential_ok ag columns pg)).
  { pose proof H as H'. rewrite read_npy_eq in H'. apply bind_ok in H' as (ts & E1 & H'). apply bind_ok in H' as (td & E2 & H'). apply bind_ok in H' as (tg & E3 & _).
    apply npy1_holds in E1 as [A1 _ _ _ B1 _], E2 as [A2 _ _ _ B2 _], E3 as [A3 _ _ _ B3 _]. split; [auto|]. destruct columns; [now left|]. right. split; [now apply B1|]. split; [now apply B2|now apply B3]. }
  destruct D as ((F1 & F2 & F3) & D).
  assert (K : forall (b : bool) (P : Prop), (b = true <-> P) -> P \/ ~ P) by (intros [] P Q; [left; now apply Q|right; intros HP; now apply Q in HP]).
  destruct D as [->|(P1 & P2 & P3)].
  - exfalso. rewrite read_npy_eq in H. apply bind_ok in H as (ts & E1 & H). apply bind_ok in H as (td & E2 & H). apply bind_ok in H as (tg & E3 & H).
    apply npy1_holds in E1, E2, E3. rewrite mkgalaxy_tables in H by (eapply hd_nodup; eassumption). apply bind_ok in H as (u & _ & H). apply bind_ok in H as (u' & G & _). apply guard_ok in G.
    rewrite !andb_true_iff in G. destruct G as ((G & _) & _). pose proof (proj1 (holds_complete _ _ _ _ E1) G) as Q. destruct (Q "m"%string). simpl. auto.
  - destruct (npy_outcome as_ ad ag columns ps pd pg ss sd sg F1 F2 F3 P1 P2 P3) as (A & B).
    assert (NR : names_right columns).
    { destruct (npy1_ok _ _ _ F1 P1) as (ts & E1). apply npy1_holds in E1. destruct (names_ok ts) eqn:Q1, (complete ts) eqn:Q2.
      - split; [now apply (holds_names _ _ _ _ E1)|now apply (holds_complete _ _ _ _ E1)].
      - exfalso. rewrite A in H; [discriminate|]. intros (_ & C). apply (holds_complete _ _ _ _ E1) in C. congruence.
      - exfalso. rewrite A in H; [discriminate|]. intros (C & _). apply (holds_names _ _ _ _ E1) in C. congruence.
      - exfalso. rewrite A in H; [discriminate|]. intros (C & _). apply (holds_names _ _ _ _ E1) in C. congruence. }
    destruct (B NR) as (B1 & B2).
    assert (O : In "softening"%string columns -> length (nd_rows as_) = 1%nat /\ length (nd_rows ad) = 1%nat /\ length (nd_rows ag) = 1%nat).
    { intros I. destruct (Nat.eq_dec (length (nd_rows as_)) 1), (Nat.eq_dec (length (nd_rows ad)) 1), (Nat.eq_dec (length (nd_rows ag)) 1); auto;
        (exfalso; rewrite B1 in H; [discriminate|]; intros Q; destruct (Q I) as (? & ? & ?); contradiction). }
    destruct (B2 O) as (s & d & q & L1 & L2 & L3 & T1 & T2 & T3 & O1 & O2 & O3 & _ & _ & _ & E). rewrite E in H.
    assert (C : constructible g) by (exists s, d, q; split; [|split; [|split; [|exact H]]]; rewrite <- ?T1, <- ?T2, <- ?T3; do 10 eexists; eassumption).
    unfold mk_galaxy in H. rewrite T1, T2, T3 in H. cbn in H. destruct (_ && _); [discriminate|]. injection H as <-. cbn. auto.
Qed.

(** When it returns. *)
Lemma c54_returns : forall (N : Num) (as_ ad ag : ndarray2 N) columns ps pd pg ss sd sg,
  fits as_ columns -> fits ad columns -> fits ag columns ->
  potential_ok as_ columns ps -> potential_ok ad columns pd -> potential_ok ag columns pg ->
  (forall c, In c columns -> known_column c) -> (forall c, In c needed_columns -> In c columns) ->
  (In "softening"%string columns -> length (nd_rows as_) = 1%nat /\ length (nd_rows ad) = 1%nat /\ length (nd_rows ag) = 1%nat) ->
  ((gives_potential columns ps <-> gives_potential columns pd) /\ (gives_potential columns ps <-> gives_potential columns pg)) ->
  exists g, read_npy as_ ad ag columns ps pd pg ss sd sg = Ok g.
Proof.
  intros N as_ ad ag columns ps pd pg ss sd sg F1 F2 F3 P1 P2 P3 K C O (G1 & G2).
  destruct (npy_outcome as_ ad ag columns ps pd pg ss sd sg F1 F2 F3 P1 P2 P3) as (_ & B). destruct (B (conj K C)) as (_ & B2).
  destruct (B2 O) as (s & d & q & _ & _ & _ & T1 & T2 & T3 & _ & _ & _ & H1 & H2 & H3 & ->). unfold mk_galaxy. rewrite T1, T2, T3. cbn.
  assert (p_haspot d = p_haspot s /\ p_haspot q = p_haspot s) as (-> & ->) by (split; apply Bool.eq_iff_eq_true; tauto). destruct (p_haspot s); cbn; eauto.
Qed.

(** When it raises, and what. *)
Lemma c54_errors : forall (N : Num) (as_ ad ag : ndarray2 N) columns ps pd pg ss sd sg,
  let r := read_npy as_ ad ag columns ps pd pg ss sd sg in
  let shaped := (fits as_ columns /\ fits ad columns /\ fits ag columns) /\
                (potential_ok as_ columns ps /\ potential_ok ad columns pd /\ potential_ok ag columns pg) in
  (~ (fits as_ columns /\ fits ad columns /\ fits ag columns) -> r = Raise ValueError) /\
  (columns <> [] -> ~ shaped -> r = Raise ValueError) /\
  (forall c, shaped -> In c columns -> ~ known_column c -> r = Raise TypeError) /\
  (forall c, shaped -> In c needed_columns -> ~ In c columns -> r = Raise TypeError) /\
  (forall a, shaped -> In "softening"%string columns -> In a [as_; ad; ag] -> length (nd_rows a) <> 1%nat -> r = Raise TypeError) /\
  (shaped -> (forall c, In c columns -> known_column c) -> (forall c, In c needed_columns -> In c columns) -> ~ In "softening"%string columns ->
     ~ ((gives_potential columns ps <-> gives_potential columns pd) /\ (gives_potential columns ps <-> gives_potential columns pg)) -> r = Raise ValueError).
Proof.
  intros N as_ ad ag columns ps pd pg ss sd sg r shaped.
  assert (DF : forall a : ndarray2 N, fits a columns \/ ~ fits a columns).
  { intros a. destruct (nd_table a columns) as [t|e] eqn:E; [left; now apply nd_iff in E|]. right. intros F. apply nd_fits in F as (t & F). congruence. }
  assert (DP : forall (a : ndarray2 N) p, fits a columns -> columns <> [] -> potential_ok a columns p \/ ~ potential_ok a columns p).
  { intros a p F NE. destruct (npy1 a columns p) as [t|e] eqn:E; [left; now apply (hd_pot _ _ _ _ (npy1_holds _ _ _ _ E))|]. right. intros P. destruct (npy1_ok _ _ _ F P). congruence. }
  assert (S1 : ~ (fits as_ columns /\ fits ad columns /\ fits ag columns) -> r = Raise ValueError).
  { intros H. apply npy_shape. left. destruct (DF as_), (DF ad), (DF ag); tauto. }
  split; [exact S1|]. split; [|split; [|split; [|split]]].
  - intros NE H. destruct (DF as_) as [F1|F1]; [|apply S1; tauto]. destruct (DF ad) as [F2|F2]; [|apply S1; tauto]. destruct (DF ag) as [F3|F3]; [|apply S1; tauto].
    apply npy_shape. right. split; [exact NE|]. unfold shaped in H. destruct (DP as_ ps F1 NE), (DP ad pd F2 NE), (DP ag pg F3 NE); tauto.
  - intros c ((F1 & F2 & F3) & P1 & P2 & P3) I K. apply (proj1 (npy_outcome as_ ad ag columns ps pd pg ss sd sg F1 F2 F3 P1 P2 P3)). intros (Q & _). apply K. auto.
  - intros c ((F1 & F2 & F3) & P1 & P2 & P3) I K. apply (proj1 (npy_outcome as_ ad ag columns ps pd pg ss sd sg F1 F2 F3 P1 P2 P3)). intros (_ & Q). apply K. auto.
  - intros a ((F1 & F2 & F3) & P1 & P2 & P3) I Ia La. destruct (npy_outcome as_ ad ag columns ps pd pg ss sd sg F1 F2 F3 P1 P2 P3) as (A & B).
    assert (D : names_right columns \/ ~ names_right columns).
    { destruct (npy1_ok _ _ _ F1 P1) as (ts & E1). apply npy1_holds in E1. destruct (names_ok ts) eqn:Q1, (complete ts) eqn:Q2.
      - left. split; [now apply (holds_names _ _ _ _ E1)|now apply (holds_complete _ _ _ _ E1)].
      - right. intros (_ & C). apply (holds_complete _ _ _ _ E1) in C. congruence.
      - right. intros (C & _). apply (holds_names _ _ _ _ E1) in C. congruence.
      - right. intros (C & _). apply (holds_names _ _ _ _ E1) in C. congruence. }
    destruct D as [D|D]; [|now apply A]. apply (B D). intros O. destruct (O I) as (L1 & L2 & L3). destruct Ia as [<-|[<-|[<-|[]]]]; contradiction.
  - intros ((F1 & F2 & F3) & P1 & P2 & P3) K C NS NG. destruct (npy_outcome as_ ad ag columns ps pd pg ss sd sg F1 F2 F3 P1 P2 P3) as (_ & B).
    destruct (B (conj K C)) as (_ & B2). destruct B2 as (s & d & q & _ & _ & _ & T1 & T2 & T3 & _ & _ & _ & H1 & H2 & H3 & E); [contradiction|]. unfold r. rewrite E. unfold mk_galaxy.
    destruct (p_haspot s), (p_haspot d), (p_haspot q); cbn; try reflexivity; exfalso; apply NG; rewrite <- H1, <- H2, <- H3; tauto.
Qed.

Section NpySame.
Context {N : Num}.
Implicit Types (a b : ndarray2 N) (t : table N).

(** Tables that mkgalaxy cannot tell apart. *)
Definition alike t t' : Prop := NoDup (dkeys t) /\ NoDup (dkeys t') /\ forall c, c <> "id"%string -> dget t c = dget t' c.

Lemma alike_keys t t' c : alike t t' -> c <> "id"%string -> In c (dkeys t) <-> In c (dkeys t').
Proof.
  intros (_ & _ & H) Hc. specialize (H c Hc). destruct (in_dec string_dec c (dkeys t)) as [I|I], (in_dec string_dec c (dkeys t')) as [J|J]; try tauto.
  - apply dget_none_notin in J. rewrite J in H. apply dget_none_notin in H. contradiction.
  - apply dget_none_notin in I. rewrite I in H. symmetry in H. apply dget_none_notin in H. contradiction.
Qed.
Lemma alike_names t t' : alike t t' -> names_ok t = names_ok t'.
Proof.
  intros H. unfold names_ok. apply Bool.eq_iff_eq_true. rewrite !forallb_forall. split; intros F c I; (destruct (string_dec c "id") as [->|Hc]; [reflexivity|]); apply F; apply (alike_keys _ _ c H); auto.
Qed.
Lemma alike_complete t t' : alike t t' -> complete t = complete t'.
Proof.
  intros H. unfold complete. apply Bool.eq_iff_eq_true. rewrite !forallb_forall.
  assert (Q : forall c, In c seven -> c <> "id"%string) by (intros c I ->; simpl in I; repeat (destruct I as [I|I]; [discriminate I|]); destruct I).
  split; intros F c I; apply smem_In; apply (alike_keys _ _ c H); auto; apply smem_In; auto.
Qed.
Lemma alike_pset ty t t' soft : alike t t' -> table_pset ty t soft = table_pset ty t' soft.
Proof.
  intros (_ & _ & H). unfold table_pset, tsoft, tcol. now rewrite (H "softening"%string), (H "m"%string), (H "x"%string), (H "y"%string), (H "z"%string), (H "vx"%string), (H "vy"%string), (H "vz"%string), (H "potential"%string) by discriminate.
Qed.
Lemma alike_mkgalaxy ss sd sg ts td tg ts' td' tg' : alike ts ts' -> alike td td' -> alike tg tg' ->
  mkgalaxy (galaxy_kws ss sd sg ts td tg) = mkgalaxy (galaxy_kws ss sd sg ts' td' tg').
Proof.
  intros A B C. rewrite !mkgalaxy_tables by (apply A || apply B || apply C).
  now rewrite (alike_names _ _ A), (alike_names _ _ B), (alike_names _ _ C), (alike_complete _ _ A), (alike_complete _ _ B), (alike_complete _ _ C), (alike_pset _ _ _ _ A), (alike_pset _ _ _ _ B), (alike_pset _ _ _ _ C).
Qed.

(** The same columns, perhaps at other places. *)
Record similar (a : ndarray2 N) (columns : list string) (b : ndarray2 N) (columns' : list string) : Prop := {
  si_fits : fits a columns <-> fits b columns';
  si_names : forall c, In c columns <-> In c columns';
  si_rows : length (nd_rows a) = length (nd_rows b);
  si_cols : forall i name, nth_error columns i = Some name -> name <> "id"%string -> exists j, nth_error columns' j = Some name /\ colvals b j = colvals a i }.

Lemma npy1_similar a columns b columns' file : similar a columns b columns' ->
  (npy1 a columns file = Raise ValueError /\ npy1 b columns' file = Raise ValueError) \/
  exists t t', npy1 a columns file = Ok t /\ npy1 b columns' file = Ok t' /\ alike t t'.
Proof.
  intros [Sf Sn Sr Sc]. unfold npy1.
  destruct (nd_table a columns) as [t|e] eqn:E1.
  2:{ left. pose proof (nd_raise _ _ _ E1) as ->. split; [reflexivity|]. destruct (nd_table b columns') as [t'|e'] eqn:E2; [|apply nd_raise in E2; now subst].
      apply nd_iff in E2 as (F & _). apply Sf in F. apply nd_fits in F as (t & F). congruence. }
  pose proof (nd_iff _ _ _ E1) as (F & K & C). destruct (nd_fits b columns') as (t' & E2); [now apply Sf|]. rewrite E2. pose proof (nd_iff _ _ _ E2) as (F' & K' & C'). cbn [bind].
  assert (AL : alike t t').
  { split; [rewrite K; apply F|]. split; [rewrite K'; apply F'|]. intros c Hc. destruct (in_dec string_dec c columns) as [I|I].
    - apply In_nth_error in I as (i & Hi). destruct (Sc _ _ Hi Hc) as (j & Hj & Q). rewrite (C _ _ Hi), (C' _ _ Hj). now rewrite Q.
    - assert (dget t c = None) as -> by (apply dget_none_notin; now rewrite K). symmetry. apply dget_none_notin. rewrite K', <- Sn. exact I. }
  destruct file as [v|]; [|right; exists t, t'; auto]. unfold add_potential. rewrite K, K', <- Sr.
  assert (smem "potential" columns' = smem "potential" columns) as -> by (apply Bool.eq_iff_eq_true; rewrite !smem_In; symmetry; apply Sn).
  set (p := if _ : bool then _ else _).
  assert ((match t' with [] => true | _ :: _ => (length p =? length (nd_rows a))%nat end) = (match t with [] => true | _ :: _ => (length p =? length (nd_rows a))%nat end)) as ->.
  { destruct t as [|kc t], t' as [|kc' t']; try reflexivity; exfalso.
    - assert (I : In (fst kc') columns) by (apply Sn; rewrite <- K'; now left). rewrite <- K in I. destruct I.
    - assert (I : In (fst kc) columns') by (apply Sn; rewrite <- K; now left). rewrite <- K' in I. destruct I. }
  destruct (match t with [] => true | _ :: _ => (length p =? length (nd_rows a))%nat end); [|left; auto]. cbn [guard bind].
  destruct (smem "potential" columns) eqn:SP; cbn [negb guard bind]; [left; auto|]. right. eexists. eexists. split; [reflexivity|]. split; [reflexivity|].
  assert (NP : ~ In "potential"%string columns) by (intros I; apply smem_In in I; congruence).
  destruct AL as (A1 & A2 & A3). assert (ND : forall t : table N, NoDup (dkeys t) -> ~ In "potential"%string (dkeys t) -> NoDup (dkeys (t ++ [("potential"%string, map CNum p)]))).
  { intros t0 ND NI. unfold dkeys in *. rewrite map_app. cbn [map fst]. induction (map fst t0) as [|c l IH]; [constructor; [intros []|constructor]|].
    inversion ND; subst. cbn. constructor; [|apply IH; [auto|intros I; apply NI; now right]]. rewrite in_app_iff. intros [I|[I|[]]]; [contradiction|]. apply NI. now left. }
  split; [apply ND; [auto|now rewrite K]|]. split; [apply ND; [auto|rewrite K'; now rewrite <- Sn]|]. intros c Hc. now rewrite !dget_app1, A3.
Qed.

Lemma read_similar columns columns' as_ ad ag bs bd bg ps pd pg ss sd sg :
  similar as_ columns bs columns' -> similar ad columns bd columns' -> similar ag columns bg columns' ->
  read_npy as_ ad ag columns ps pd pg ss sd sg = read_npy bs bd bg columns' ps pd pg ss sd sg.
Proof.
  intros A B C. rewrite !read_npy_eq.
  destruct (npy1_similar _ _ _ _ ps A) as [(-> & ->)|(ts & ts' & -> & -> & Ls)]; [reflexivity|]. cbn [bind].
  destruct (npy1_similar _ _ _ _ pd B) as [(-> & ->)|(td & td' & -> & -> & Ld)]; [reflexivity|]. cbn [bind].
  destruct (npy1_similar _ _ _ _ pg C) as [(-> & ->)|(tg & tg' & -> & -> & Lg)]; [reflexivity|]. cbn [bind].
  now apply alike_mkgalaxy.
Qed.

Lemma colvals_ext a b i j : length (nd_rows a) = length (nd_rows b) ->
  (forall k, nth j (nth k (nd_rows b) []) nnan = nth i (nth k (nd_rows a) []) nnan) -> colvals b j = colvals a i.
Proof.
  unfold colvals. generalize (nd_rows a) (nd_rows b). induction l as [|r l IH]; intros [|r' l'] L H; try discriminate; [reflexivity|]. cbn. f_equal; [exact (H 0%nat)|].
  apply IH; [now injection L|]. intros k. exact (H (S k)).
Qed.

Lemma map_nth_seq {A} (l : list A) d : map (fun j => nth j l d) (seq 0 (length l)) = l.
Proof. induction l as [|x l IH]; [reflexivity|]. cbn. f_equal. now rewrite <- seq_shift, map_map. Qed.

Lemma reorder_similar order a columns : Permutation order (seq 0 (length columns)) ->
  similar a columns (reorder order a) (map (fun j => nth j columns ""%string) order).
Proof.
  intros P. assert (PC : Permutation columns (map (fun j => nth j columns ""%string) order)).
  { rewrite <- (map_nth_seq columns ""%string) at 1. now apply Permutation_sym, Permutation_map. }
  split.
  - unfold fits. cbn [reorder nd_width]. rewrite map_length. rewrite (Permutation_length P), seq_length. split; intros (A & B); split; auto; [now apply (Permutation_NoDup PC)|now apply (Permutation_NoDup (Permutation_sym PC))].
  - intros c. split; apply Permutation_in; [exact PC|now apply Permutation_sym].
  - cbn. now rewrite map_length.
  - intros i name Hi _. assert (Li : (i < length columns)%nat) by (apply nth_error_Some; congruence).
    assert (I : In i order) by (apply (Permutation_in _ (Permutation_sym P)), in_seq; lia). apply In_nth_error in I as (j & Hj). exists j.
    split; [rewrite (map_nth_error _ _ _ Hj); now rewrite (nth_error_nth _ _ _ Hi)|].
    apply colvals_ext; [cbn; now rewrite map_length|]. intros k. cbn [reorder nd_rows].
    assert (Lj : (j < length order)%nat) by (apply nth_error_Some; congruence).
    destruct (Nat.lt_ge_cases k (length (nd_rows a))) as [Lk|Lk].
    + rewrite (nth_indep _ [] (map (fun j0 => nth j0 (nth k (nd_rows a) []) nnan) order)) by now rewrite map_length.
      rewrite (nth_indep _ _ ((fun row => map (fun j0 => nth j0 row nnan) order) [])) by now rewrite map_length. rewrite (map_nth (fun row => map (fun j0 => nth j0 row nnan) order)).
      rewrite (nth_indep _ _ ((fun j0 => nth j0 (nth k (nd_rows a) []) nnan) 0%nat)) by now rewrite map_length. rewrite (map_nth (fun j0 => nth j0 (nth k (nd_rows a) []) nnan)). now rewrite (nth_error_nth _ _ _ Hj).
    + rewrite !nth_overflow with (n := k) by (rewrite ?map_length; lia). destruct i, j; reflexivity.
Qed.
End NpySame.

(** The order of the columns does not matter, whatever the outcome. *)
Lemma c54_order : forall (N : Num) (as_ ad ag : ndarray2 N) columns order ps pd pg ss sd sg,
  Permutation order (seq 0 (length columns)) ->
  read_npy (reorder order as_) (reorder order ad) (reorder order ag) (map (fun j => nth j columns ""%string) order) ps pd pg ss sd sg =
  read_npy as_ ad ag columns ps pd pg ss sd sg.
Proof. intros. symmetry. apply read_similar; now apply reorder_similar. Qed.

(** Nor do the values of the column id. *)
Lemma c54_id : forall (N : Num) (as_ ad ag bs bd bg : ndarray2 N) columns ps pd pg ss sd sg,
  same_but_id columns as_ bs -> same_but_id columns ad bd -> same_but_id columns ag bg ->
  read_npy as_ ad ag columns ps pd pg ss sd sg = read_npy bs bd bg columns ps pd pg ss sd sg.
Proof.
  intros N as_ ad ag bs bd bg columns ps pd pg ss sd sg A B C.
  assert (K : forall a b : ndarray2 N, same_but_id columns a b -> similar a columns b columns).
  { intros a b (W & L & H). split; [unfold fits; now rewrite W|tauto|exact L|]. intros i name Hi Hn. exists i. split; [exact Hi|]. apply colvals_ext; [exact L|]. intros k. symmetry. eauto. }
  apply read_similar; now apply K.
Qed.

(** *** Refutations and examples *)

Definition clean (g : galaxy F64) : bool := forallb (fun p => forallb (fun v => negb (nisnan v)) (saved_values p)) (sets g).
Lemma clean_no_nan g : clean g = true -> no_nan g.
Proof.
  intros H p v Ip Iv. unfold clean in H. rewrite forallb_forall in H. specialize (H p Ip). rewrite forallb_forall in H. specialize (H v Iv). now apply negb_true_iff in H.
Qed.
Definition empty5 : h5 F64 Z := H5 [] [].

(** Not every galaxy that can be written can be read. *)
Lemma c50_every_refuted : exists (g : galaxy F64) (f' : h5 F64 Z),
  constructible g /\ to_hdf5 quiet [] 0%Z empty5 g None None None = (f', Ok tt) /\
  forall ss sd sg, read_hdf5 f' ss sd sg = Raise TypeError.
Proof.
  destruct (ok_sat (fun g : galaxy F64 => existsb nisnan (saved_values (g_stars g)) = true) (lineG [(nnan, fZ 1, fZ 0, fZ (-1))] [] [])) as (g & E & Hx); [vm_compute; reflexivity|].
  apply existsb_exists in Hx as (v & Iv & Hv).
  destruct (to_hdf5 quiet [] 0%Z empty5 g None None None) as [f' r] eqn:W. exists g, f'.
  pose proof (lineG_ok _ _ _ _ E) as C. assert (Is : In (g_stars g) (sets g)) by now left.
  destruct (c50_nan F64 Z [] 0%Z empty5 g None f' r (g_stars g) v C Is Iv Hv (NoDup_nil _) W) as (-> & R). auto.
Qed.

(** The galaxies of [sampleG] and [gal3] both survive; the second has softening 7 afterwards. *)
Definition written (g : res (galaxy F64)) (md : option (dict Z)) (f : h5 F64 Z) : h5 F64 Z :=
  match g with Ok g => fst (to_hdf5 quiet [("url"%string, 3%Z)] 5%Z f g md None None) | Raise _ => f end.
Definition g_with : res (galaxy F64) := gal3 (Some (-5)%Z) (Some (-4)%Z) (Some (-3)%Z).
Definition g_without : res (galaxy F64) := gal3 None None None.

Example ex_c50 : exists g, sampleG = Ok g /\ constructible g /\ no_nan g /\
  rmap gshow (read_hdf5 (written sampleG None empty5) (fZ 0) (fZ 0) (fZ 0)) = Ok (gshow g) /\
  rmap (fun g => map fshow [p_soft (g_stars g); p_soft (g_dm g); p_soft (g_gas g)]) (read_hdf5 (written g_without None empty5) (fZ 7) (fZ 8) (fZ 9)) = Ok (map sZ [7; 8; 9]%Z).
Proof.
  destruct (ok_sat (fun g => clean g = true /\ rmap gshow (read_hdf5 (written sampleG None empty5) (fZ 0) (fZ 0) (fZ 0)) = Ok (gshow g)) sampleG) as (g & E & C & R); [vm_compute; auto|].
  exists g. split; [exact E|]. split; [exact (lineG_ok _ _ _ _ E)|]. split; [now apply clean_no_nan|]. split; [exact R|]. vm_compute. reflexivity.
Qed.

(** With a potential, without, and back: no potential is left over; the foreign object stays. *)
Definition foreign : h5 F64 Z := H5 [("notes"%string, HOther ValueError); ("gas"%string, HOther TypeError)] [("owner"%string, 1%Z)].
Example ex_c51 : rmap (fun g => oshow (p_pot (g_stars g))) (read_hdf5 (written g_without None (written g_with None foreign)) (fZ 0) (fZ 0) (fZ 0)) = Ok None /\
  rmap (fun g => oshow (p_pot (g_gas g))) (read_hdf5 (written g_with None (written g_without None foreign)) (fZ 0) (fZ 0) (fZ 0)) = Ok (Some [sZ (-3)]) /\
  exn_of (read_hdf5 foreign (fZ 0) (fZ 0) (fZ 0)) = Some KeyError /\
  option_map (fun o => match o with HTable _ => None | HOther e => Some e end) (dget (h_objs (written g_without None (written g_with None foreign))) "notes"%string) = Some (Some ValueError).
Proof. vm_compute. auto. Qed.

(** Writing is not atomic: interrupted before its third object, it leaves a readable file
    that holds neither the old nor the new galaxy. *)
Definition only (n : nat) : nat -> option exn := fun i => if (i =? n)%nat then Some OSError else None.
Lemma c52_atomic_refuted : exists (g0 g1 : galaxy F64) (f0 f' : h5 F64 Z),
  constructible g0 /\ constructible g1 /\ to_hdf5 quiet [] 0%Z empty5 g0 None None None = (f0, Ok tt) /\
  to_hdf5 (only 4) [] 0%Z f0 g1 None None None = (f', Raise OSError) /\
  exists g', read_hdf5 f' (fZ 0) (fZ 0) (fZ 0) = Ok g' /\ ~ read_back (fZ 0) (fZ 0) (fZ 0) g0 g' /\ ~ read_back (fZ 0) (fZ 0) (fZ 0) g1 g'.
Proof.
  destruct (ok_sat (fun g => clean g = true /\ map (fun p => shows (p_x p)) (sets g) = [[sZ 1]; [sZ 2]; [sZ 3]] /\ g_haspot g = true) (lineG (zl [(1,1,1,(-2,1))]) (zl [(2,1,1,(-2,1))]) (zl [(3,1,1,(-2,1))]))%Z) as (g0 & E0 & C0 & X0 & H0); [vm_compute; auto|].
  destruct (ok_sat (fun g => clean g = true /\ map (fun p => shows (p_x p)) (sets g) = [[sZ 4]; [sZ 5]; [sZ 6]] /\ g_haspot g = true) (lineG (zl [(4,1,1,(-2,1))]) (zl [(5,1,1,(-2,1))]) (zl [(6,1,1,(-2,1))]))%Z) as (g1 & E1 & C1 & X1 & H1); [vm_compute; auto|].
  apply lineG_ok in E0, E1. apply clean_no_nan in C0, C1.
  destruct (to_hdf5 quiet [] 0%Z empty5 g0 None None None) as [f0 r0] eqn:W0. destruct (to_hdf5 (only 4) [] 0%Z f0 g1 None None None) as [f' r1] eqn:W1.
  destruct (c50_round_trip F64 Z _ _ empty5 _ _ _ _ E0 C0 (NoDup_nil _) W0) as (-> & _).
  destruct (c52_mixed F64 Z (only 4) [] 0%Z empty5 f0 g0 g1 None None f' r1 2 OSError E0 E1 C0 C1 (NoDup_nil _) W0) as (-> & R); [lia| |reflexivity|exact W1|].
  { intros [|[|[|[|i]]]] Hi; try reflexivity. cbn in Hi. lia. }
  exists g0, g1, f0, f'. repeat (split; [assumption || reflexivity|]). destruct (R (fZ 0) (fZ 0) (fZ 0)) as (R1 & _).
  destruct R1 as (g' & s & d & q & Rg & Ms & Md & Mq & Ss & Sd & Sq); [congruence|]. exists g'. split; [exact Rg|].
  injection Ms as <-. injection Md as <-. injection Mq as <-. cbn [map sets] in X0, X1. injection X0 as X01 X02 X03. injection X1 as X11 X12 X13.
  split; intros (A & B & C & _).
  - assert (Q : p_x (g_stars g1) = p_x (g_stars g0)) by (destruct A as (_ & _ & A & _), Ss as (_ & _ & Ss & _); congruence). rewrite Q, X01 in X11. discriminate X11.
  - assert (Q : p_x (g_gas g1) = p_x (g_gas g0)) by (destruct C as (_ & _ & C & _), Sq as (_ & _ & Sq & _); congruence). rewrite Q, X03 in X13. discriminate X13.
Qed.

(** Interrupted after the removal of the old dark matter; refused with overwrite=False; and a
    file without stars, which is changed although the call fails. *)
Example ex_c52 : exists g, g_with = Ok g /\
  let f0 := written g_without None empty5 in
  exn_of (read_hdf5 (fst (to_hdf5 (only 3) [] 0%Z f0 g None None None)) (fZ 0) (fZ 0) (fZ 0)) = Some KeyError /\
  exn_of (read_hdf5 (fst (to_hdf5 (only 2) [] 0%Z f0 g None None None)) (fZ 0) (fZ 0) (fZ 0)) = Some ValueError /\
  exn_of (snd (to_hdf5 quiet [] 0%Z f0 g None None (Some false))) = Some OSError /\
  exn_of (snd (to_hdf5 quiet [] 0%Z foreign g None None (Some false))) = Some OSError /\
  dkeys (h_objs (fst (to_hdf5 quiet [] 0%Z foreign g None None (Some false)))) = ["notes"; "gas"; "stars"; "dark_matter"]%string.
Proof. apply ok_sat. vm_compute. auto 10. Qed.

Example ex_c53 : h_attrs (written g_with (Some [("url"%string, 8%Z); ("mine"%string, 9%Z)]) (written g_without None foreign)) =
  [("owner", 1); ("url", 8); ("utc_timestamp", 5); ("mine", 9)]%string%Z /\
  h_attrs (written g_with (Some [("utc_timestamp"%string, 8%Z)]) foreign) = [("owner", 1); ("url", 3); ("utc_timestamp", 8)]%string%Z.
Proof. vm_compute. auto. Qed.

(** Two stars, one dark matter particle and one of gas with the columns in disorder; the
    potential file of the stars has one value, used for both. *)
Definition npy_cols : list string := ["vz"; "id"; "m"; "z"; "x"; "vx"; "y"; "vy"]%string.
Definition npy_s : ndarray2 F64 := Nd2 8 [fZs [7; 0; 1; 4; 2; 5; 3; 6]; fZs [17; 1; 11; 14; 12; 15; 13; 16]]%Z.
Definition npy_d : ndarray2 F64 := Nd2 8 [fZs [27; 9; 21; 24; 22; 25; 23; 26]]%Z.
Example ex_c54 :
  rmap (fun g => (map shows [p_m (g_stars g); p_x (g_stars g); p_y (g_stars g); p_z (g_stars g); p_vx (g_stars g); p_vy (g_stars g); p_vz (g_stars g)], oshow (p_pot (g_stars g)), fshow (p_soft (g_stars g))))
    (read_npy npy_s npy_d npy_d npy_cols (Some (fZs [-1])%Z) (Some (fZs [-2])%Z) (Some (fZs [-3])%Z) (fZ 1) (fZ 2) (fZ 3)) =
  Ok ([[sZ 1; sZ 11]; [sZ 2; sZ 12]; [sZ 3; sZ 13]; [sZ 4; sZ 14]; [sZ 5; sZ 15]; [sZ 6; sZ 16]; [sZ 7; sZ 17]], Some [sZ (-1); sZ (-1)], sZ 1) /\
  exn_of (read_npy npy_s npy_d npy_d npy_cols (Some (fZs [-1])%Z) None None (fZ 1) (fZ 2) (fZ 3)) = Some ValueError /\
  exn_of (read_npy npy_s npy_d npy_d npy_cols (Some (fZs [-1; -1; -1])%Z) (Some (fZs [-2])%Z) (Some (fZs [-3])%Z) (fZ 1) (fZ 2) (fZ 3)) = Some ValueError /\
  exn_of (read_npy npy_s npy_d npy_d ["vz"; "id"; "m"; "z"; "x"; "vx"; "y"; "w"]%string None None None (fZ 1) (fZ 2) (fZ 3)) = Some TypeError /\
  exn_of (read_npy npy_s npy_d npy_d ["vz"; "id"; "m"; "z"; "x"; "vx"; "y"; "softening"]%string None None None (fZ 1) (fZ 2) (fZ 3)) = Some TypeError /\
  exn_of (read_npy npy_s npy_d npy_d ["vz"; "id"; "m"; "z"; "x"; "vx"; "y"; "y"]%string None None None (fZ 1) (fZ 2) (fZ 3)) = Some ValueError.
Proof. vm_compute. auto 10. Qed.

(** Reordering the columns of that example. *)
Example ex_c54_order : Permutation [4; 6; 3; 2; 5; 7; 0; 1]%nat (seq 0 (length npy_cols)) /\
  map (fun j => nth j npy_cols ""%string) [4; 6; 3; 2; 5; 7; 0; 1]%nat = ["x"; "y"; "z"; "m"; "vx"; "vy"; "vz"; "id"]%string /\
  map shows (nd_rows (reorder [4; 6; 3; 2; 5; 7; 0; 1]%nat npy_d)) = [map sZ [22; 23; 24; 21; 25; 26; 27; 9]]%Z.
Proof.
  split; [|vm_compute; auto]. apply NoDup_Permutation; [repeat constructor; simpl; lia|apply seq_NoDup|]. intros x. rewrite in_seq. simpl. lia.
Qed.
