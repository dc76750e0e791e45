(** Sequences of calls (C58, C61, C62). *)
From Verif Require Import Py Num RX F64 Np Df Data DataFacts DfFacts RebuildFacts Center CenterFacts Align Spec SpecPot Ex DataThms CenterThms AlignFacts AlignThms Potential PotConc PotConcFacts PotFacts PotThms Io SpecIo IoFacts CircThms IoThms SpecPipe SpecR.
From Flocq Require Import Core.Raux.
From Coq Require Import Lia Lra.

Lemma mkgalaxy_constructible {N : Num} (kw : dict (kwval N)) g : mkgalaxy kw = Ok g -> constructible g.
Proof.
  intros E. unfold mkgalaxy in E. apply bind_ok in E as (u & _ & E). apply bind_ok in E as (u' & _ & E).
  apply bind_ok in E as (s & Es & E). apply bind_ok in E as (d & Ed & E). apply bind_ok in E as (q & Eq & E).
  assert (C : forall t sfx p, mk_pset_kw kw t sfx = Ok p -> constructible_set p).
  { intros t sfx p H. unfold mk_pset_kw in H. do 9 (apply bind_ok in H as (? & _ & H)). do 10 eexists. exact H. }
  exists s, d, q. split; [eapply C; exact Es|]. split; [eapply C; exact Ed|]. split; [eapply C; exact Eq|exact E].
Qed.

Section Files.
Context {N : Num} {M : Type}.

(** A stored set with a NaN cannot be read again. *)
Lemma stored_mask o (p : pset N) v : In v (saved_values p) -> nisnan v = true ->
  exists a, In a ["m"; "x"; "y"; "z"; "vx"; "vy"; "vz"; "potential"]%string /\ In (a ++ ".mask")%string (dkeys (stored o p)).
Proof.
  intros Hv Hn. assert (C : forall a l, In a ["m"; "x"; "y"; "z"; "vx"; "vy"; "vz"; "potential"]%string -> In (a, map CNum l) (tab (ids o (plen p)) (upd_of p)) -> In v l ->
     exists a, In a ["m"; "x"; "y"; "z"; "vx"; "vy"; "vz"; "potential"]%string /\ In (a ++ ".mask")%string (dkeys (stored o p))).
  { intros a l Ia It Iv. exists a. split; [exact Ia|]. unfold stored, dkeys. apply in_map_iff. exists ((a ++ ".mask")%string, map (fun c => CInt (if cell_null c then 1 else 0)%Z) (map CNum l)). split; [reflexivity|].
    apply in_flat_map. exists (a, map CNum l). split; [exact It|]. unfold stored_col. cbn [snd fst].
    assert (existsb cell_null (map CNum l) = true) as -> by (apply existsb_exists; exists (CNum v); split; [now apply in_map|exact Hn]). right. now left. }
  unfold tab, upd_of in C. cbn [u_m u_x u_y u_z u_vx u_vy u_vz u_pot] in C. unfold saved_values in Hv. rewrite !in_app_iff in Hv.
  destruct Hv as [Hv|[Hv|[Hv|[Hv|[Hv|[Hv|[Hv|Hv]]]]]]];
    [apply (C "m"%string (p_m p))|apply (C "x"%string (p_x p))|apply (C "y"%string (p_y p))|apply (C "z"%string (p_z p))|apply (C "vx"%string (p_vx p))|apply (C "vy"%string (p_vy p))|apply (C "vz"%string (p_vz p))|];
    auto; try (simpl; tauto).
  destruct (p_pot p) as [l|] eqn:Ep; [|destruct Hv]. apply (C "potential"%string l); auto; simpl; tauto.
Qed.
Lemma mask_key (t : table N) sfx a : In (a ++ ".mask")%string (dkeys t) -> In (key (a ++ ".mask") sfx) (dkeys (table_to_dict t sfx)).
Proof.
  intros I. assert (Ha : (a ++ ".mask")%string <> "id"%string).
  { intros Q. apply (f_equal (lasta Ascii.zero)) in Q. rewrite lasta_app in Q. discriminate. }
  rewrite table_unfold. apply dkeys_dset_in. destruct (string_dec (a ++ ".mask") "potential") as [->|Hb]; [now left|]. right.
  destruct (in_dec string_dec (key (a ++ ".mask") sfx) (dkeys (ddel (dupdate [] (renamed t sfx)) (key "potential" sfx)))) as [|J]; [auto|]. exfalso.
  apply dget_none_notin in J. rewrite dget_ddel_other in J by (intros Q; apply key_inj in Q; contradiction). apply dget_none_notin in J. apply J. apply dkeys_dupdate_in. right.
  apply renamed_keys. eauto.
Qed.

Lemma clean_dec (p : pset N) : (forall v, In v (saved_values p) -> nisnan v = false) \/ exists v, In v (saved_values p) /\ nisnan v = true.
Proof.
  destruct (existsb nisnan (saved_values p)) eqn:E.
  - right. apply existsb_exists in E as (v & I & H). eauto.
  - left. intros v I. destruct (nisnan v) eqn:H; [|reflexivity]. exfalso. assert (existsb nisnan (saved_values p) = true) by (apply existsb_exists; eauto). congruence.
Qed.

(** What is read from three stored sets, if it is read. *)
Lemma read_stored (f : h5 N M) ss sd sg os od og s d q g' :
  dget (h_objs f) "stars" = Some (HTable (stored os s)) -> dget (h_objs f) "dark_matter" = Some (HTable (stored od d)) ->
  dget (h_objs f) "gas" = Some (HTable (stored og q)) -> pset_ok s -> pset_ok d -> pset_ok q ->
  p_type s = STARS -> p_type d = DARK_MATTER -> p_type q = GAS -> read_hdf5 f ss sd sg = Ok g' ->
  same_but_softening ss s (g_stars g') /\ same_but_softening sd d (g_dm g') /\ same_but_softening sg q (g_gas g') /\ g_haspot g' = p_haspot s /\
  (forall p v, In p [s; d; q] -> In v (saved_values p) -> nisnan v = false).
Proof.
  intros H1 H2 H3 Ks Kd Kq Ts Td Tq E.
  assert (U : forall a sfx, In a ["m"; "x"; "y"; "z"; "vx"; "vy"; "vz"; "potential"]%string -> suffix3 sfx -> ~ In (key (a ++ ".mask") sfx) mkgalaxy_params).
  { intros a sfx Ia S I. apply smem_In in I. rewrite params_key in I by auto. simpl in Ia. repeat (destruct Ia as [<-|Ia]; [discriminate|]). destruct Ia. }
  assert (S3 : suffix3 "s" /\ suffix3 "dm" /\ suffix3 "g") by (unfold suffix3; auto). destruct S3 as (S1 & S2 & S3).
  assert (E' : mkgalaxy (galaxy_kws ss sd sg (stored os s) (stored od d) (stored og q)) = Ok g') by (unfold read_hdf5, read_table in E; rewrite H1, H2, H3 in E; exact E).
  destruct (clean_dec s) as [Cs|(v & I & Hn)].
  2:{ destruct (stored_mask os s v I Hn) as (a & Ia & It). rewrite (kw_unknown _ (key (a ++ ".mask") "s")) in E'; [discriminate| |auto].
      unfold galaxy_kws. rewrite !dkeys_dupdate_in. left. left. right. now apply mask_key. }
  destruct (clean_dec d) as [Cd|(v & I & Hn)].
  2:{ destruct (stored_mask od d v I Hn) as (a & Ia & It). rewrite (kw_unknown _ (key (a ++ ".mask") "dm")) in E'; [discriminate| |auto].
      unfold galaxy_kws. rewrite !dkeys_dupdate_in. left. right. now apply mask_key. }
  destruct (clean_dec q) as [Cq|(v & I & Hn)].
  2:{ destruct (stored_mask og q v I Hn) as (a & Ia & It). rewrite (kw_unknown _ (key (a ++ ".mask") "g")) in E'; [discriminate| |auto].
      unfold galaxy_kws. rewrite !dkeys_dupdate_in. right. now apply mask_key. }
  rewrite stored_clean in H1, H2, H3 by auto. rewrite (read_sets _ ss sd sg _ _ _ _ _ _ H1 H2 H3) in E.
  destruct (build_soft ss sd sg s d q) as (B1 & B2); auto.
  assert (CC : forall p v, In p [s; d; q] -> In v (saved_values p) -> nisnan v = false) by (intros p v [<-|[<-|[<-|[]]]]; auto).
  destruct (Bool.bool_dec (p_haspot d) (p_haspot s)) as [P1|P1]; [|rewrite B2 in E by auto; discriminate].
  destruct (Bool.bool_dec (p_haspot q) (p_haspot s)) as [P2|P2]; [|rewrite B2 in E by auto; discriminate].
  destruct (B1 P1 P2) as (h & Eh & X1 & X2 & X3 & X4). rewrite Eh in E. injection E as <-. auto.
Qed.

(** Every object of the three is old, gone or new after a write, however it goes. *)
Definition mixes (T : list (table N)) (w w' : world (N:=N) (M:=M)) : Prop :=
  NoDup (dkeys (h_objs (fst w))) -> NoDup (dkeys (h_objs (fst w'))) /\
  forall k name, nth_error names3 k = Some name ->
    dget (h_objs (fst w')) name = dget (h_objs (fst w)) name \/ dget (h_objs (fst w')) name = None \/
    exists t, nth_error T k = Some t /\ dget (h_objs (fst w')) name = Some (HTable t).
Lemma mixes_refl T w : mixes T w w.
Proof. intros ND. split; auto. Qed.
Lemma mixes_trans T w1 w2 w3 : mixes T w1 w2 -> mixes T w2 w3 -> mixes T w1 w3.
Proof.
  intros A B ND. destruct (A ND) as (N2 & C). destruct (B N2) as (N3 & D). split; [exact N3|]. intros k name H.
  destruct (D k name H) as [E|[E|E]]; auto. rewrite E. apply C. exact H.
Qed.
Variable fault : nat -> option exn.
Lemma mixes_then T a b w : (forall w, mixes T w (fst (a w))) -> (forall w, mixes T w (fst (b w))) -> mixes T w (fst (then_ a b w)).
Proof. intros A B. unfold then_. specialize (A w). destruct (a w) as [w1 [u|e]]; [|exact A]. eapply mixes_trans; [exact A|apply B]. Qed.
Lemma mixes_perform T change w : (forall f, mixes T (f, 0%nat) (change f, 0%nat)) -> mixes T w (fst (perform fault change w)).
Proof. intros H. unfold perform. destruct (fault (snd w)); [apply mixes_refl|]. destruct w as [f k]. exact (H f). Qed.
Lemma names3_inj k k' name : nth_error names3 k = Some name -> nth_error names3 k' = Some name -> k' = k.
Proof.
  destruct k as [|[|[|k]]]; [| | |intros Q; now apply names3_no in Q]; destruct k' as [|[|[|k']]]; try (intros _ Q; now apply names3_no in Q); simpl; congruence.
Qed.
Lemma mixes_table T a o k name t w : nth_error names3 k = Some name -> nth_error T k = Some t -> mixes T w (fst (write_table fault a o name t w)).
Proof.
  intros Hk Ht. unfold write_table. assert (P : forall w, mixes T w (fst (perform fault (fun f => H5 (dset (h_objs f) name (HTable t)) (h_attrs f)) w))).
  { intros w0. apply mixes_perform. intros f ND. split; cbn; [now apply NoDup_dset|]. intros k' n' H'. destruct (string_dec n' name) as [->|Hn].
    - right. right. exists t. rewrite (names3_inj _ _ _ Hk H'). split; [exact Ht|]. apply dget_dset_same.
    - left. now rewrite dget_dset_other. }
  destruct (dget _ name); [|apply P]. destruct (a && o); [|apply mixes_refl]. apply mixes_then; [|exact P]. intros w0. apply mixes_perform.
  intros f ND. split; cbn; [now apply NoDup_ddel|]. intros k' n' H'. destruct (string_dec n' name) as [->|Hn].
  - right. left. now apply dget_ddel_same.
  - left. now rewrite dget_ddel_other.
Qed.
Lemma mixes_attrs T md w : mixes T w (fst (write_attrs fault md w)).
Proof.
  unfold write_attrs.
  assert (G : forall w0 md w1 r1, mixes T w w1 -> mixes T w (fst (fold_left (fun acc kv => then_ (fun _ => acc) (perform fault (fun f => H5 (h_objs f) (dset (h_attrs f) (fst kv) (snd kv)))) w0) md (w1, r1)))).
  { intros w0. induction md0 as [|kv md0 IH]; intros w1 r1 K; [exact K|]. cbn [fold_left]. rewrite then_acc. destruct r1; [|now apply IH].
    destruct (perform fault _ w1) as [w2 r2] eqn:E. apply IH. eapply mixes_trans; [exact K|]. replace w2 with (fst (perform fault (fun f => H5 (h_objs f) (dset (h_attrs f) (fst kv) (snd kv))) w1)) by now rewrite E.
    apply mixes_perform. intros f ND. split; auto. }
  apply G, mixes_refl.
Qed.
Lemma to_hdf5_mixes defaults now f (g : galaxy N) md a o : gal_ok g -> mixes (newtabs g) (f, 0%nat) (fst (to_hdf5 fault defaults now f g md a o), 0%nat).
Proof.
  intros Hg. unfold to_hdf5. rewrite h5_tables_ok by exact Hg. cbn [fst snd].
  match goal with |- mixes _ _ (fst (fst (?x)), _) => set (X := x); assert (K : mixes (newtabs g) (f, 0%nat) (fst X)) end; [|exact K].
  subst X. apply mixes_then; [intros; eapply (mixes_table _ _ _ 0); reflexivity|]. intros w. apply mixes_then; [intros; eapply (mixes_table _ _ _ 1); reflexivity|]. intros w'.
  apply mixes_then; [intros; eapply (mixes_table _ _ _ 2); reflexivity|]. intros w''. apply mixes_attrs.
Qed.
End Files.

(** *** C58 *)

(** The calls to potential, center and star_align, if they return. *)
Lemma potential_returns (W S : Num) (RW : Rounded W) (cast : W -> S) lift G have junk name (g h : galaxy W) : constructible g ->
  potential cast lift (backend_table G have junk) name g = Ok h ->
  constructible h /\ g_haspot g = false /\ g_haspot h = true /\ Forall2 same_but_potential (sets g) (sets h).
Proof.
  intros Hg E. destruct (c19_errors W S cast lift (backend_table G have junk) name g Hg) as (E1 & E2 & _).
  destruct (g_haspot g) eqn:P; [rewrite E1 in E by reflexivity; discriminate|].
  destruct (in_dec string_dec name (dkeys (backend_table G have junk))) as [I|I]; [|rewrite E2 in E by auto; discriminate].
  destruct (dget (backend_table G have junk) name) as [b|] eqn:D; [|apply dget_none_notin in D; contradiction].
  destruct (c19_result W S RW cast lift _ name b g Hg P D) as (s & _ & R).
  pose proof Hg as Hg'. apply constructible_ok in Hg'. pose proof (gxyz_length g Hg') as (Lx & Ly & Lz & _).
  assert (LB : length (bodies (map cast (gx g)) (map cast (gy g)) (map cast (gz g)) (map cast (gm g))) = glen g).
  { rewrite bodies_length; rewrite !map_length; rewrite ?gm_length; lia. }
  assert (Q : exists pot, b (map cast (all_x g)) (map cast (all_y g)) (map cast (all_z g)) (map cast (all_m g)) (cast s) = Ok pot /\ length pot = glen g).
  { rewrite all_x_gx, all_y_gy, all_z_gz, all_m_gm. unfold backend_table in D, I. cbn [dget] in D.
    destruct (String.eqb name "fortran") eqn:N1; [|destruct (String.eqb name "numpy") eqn:N2; [|discriminate]].
    - destruct have.
      + injection D as <-. eexists. split; [reflexivity|]. rewrite map_length, fortran_kernel_length. exact LB.
      + apply String.eqb_eq in N1. subst name. destruct (c19_backends W S cast lift G junk g Hg P) as (_ & _ & B3). rewrite B3 in E. discriminate.
    - injection D as <-. eexists. split; [reflexivity|]. rewrite map2_length, seq_length, LB. lia. }
  destruct Q as (pot & Q1 & Q2). destruct (R pot Q1 Q2) as (h' & E' & A & B & C & _). rewrite E' in E. injection E as <-. auto.
Qed.

Lemma center_matter {W : Num} (RW : Rounded W) (g h : galaxy W) : constructible g -> center g = Ok h -> constructible h /\ same_matter g h /\ same_pots g h.
Proof.
  intros Hg E. destruct (c09_translation W RW g h Hg E) as (i & x0 & y0 & z0 & _ & _ & _ & _ & (P & C & F)). split; [exact C|].
  unfold same_matter, same_pots. rewrite Forall2_sets in F. rewrite !Forall2_sets. unfold same_but_positions in F. intuition congruence.
Qed.
Lemma align_matter {W : Num} (g h : galaxy W) c : constructible g -> star_align g c = Ok h -> constructible h /\ same_matter g h /\ same_pots g h.
Proof.
  intros Hg E. destruct (c13_frame W g g h h c Hg Hg eq_refl E E) as (a & b & d & e & f & i & j & k & l & F & _ & C & P). split; [exact C|].
  unfold same_matter, same_pots. rewrite Forall2_sets in F. rewrite !Forall2_sets. unfold turned, same_but_phase in F. intuition congruence.
Qed.

Section Matter.
Context {W S : Num} {M : Type}.
Variables (RW : Rounded W) (cast : W -> S) (lift : S -> W) (G : S).

Lemma matter_refl (g : galaxy W) : same_matter g g.
Proof. unfold same_matter, sets. repeat constructor. Qed.
Lemma matter_trans (g1 g2 g3 : galaxy W) : same_matter g1 g2 -> same_matter g2 g3 -> same_matter g1 g3.
Proof.
  unfold same_matter. rewrite !Forall2_sets. intros ((A1 & A2 & A3) & (A4 & A5 & A6) & (A7 & A8 & A9)) ((B1 & B2 & B3) & (B4 & B5 & B6) & (B7 & B8 & B9)).
  repeat split; congruence.
Qed.

Lemma potential_matter have junk name (g h : galaxy W) : constructible g -> potential cast lift (backend_table G have junk) name g = Ok h -> constructible h /\ same_matter g h.
Proof.
  intros Hg E. destruct (potential_returns W S RW cast lift G have junk name g h Hg E) as (A & _ & _ & B). split; [exact A|].
  unfold same_matter. rewrite Forall2_sets in *. unfold same_but_potential in B. unfold plen. intuition congruence.
Qed.
(** The objects of the file come from galaxies of the same matter. *)
Definition file_of (g0 : galaxy W) (f : h5 W M) : Prop :=
  NoDup (dkeys (h_objs f)) /\ forall k name, nth_error names3 k = Some name ->
    dget (h_objs f) name = None \/ exists o p q, nth_error (sets g0) k = Some q /\ p_type p = p_type q /\ p_m p = p_m q /\ pset_ok p /\ dget (h_objs f) name = Some (HTable (stored o p)).

Lemma save_file g0 g f fault defaults (now : M) md a o : constructible g -> same_matter g0 g -> file_of g0 f -> file_of g0 (fst (to_hdf5 fault defaults now f g md a o)).
Proof.
  intros Hg Hm (ND & F). apply constructible_ok in Hg. destruct (to_hdf5_mixes fault defaults now f g md a o Hg ND) as (ND' & K). cbn [fst] in *.
  split; [exact ND'|]. intros k name H. destruct (K k name H) as [E|[E|(t & Ht & E)]]; [rewrite E; now apply F|now left|]. right.
  unfold same_matter in Hm. rewrite Forall2_sets in Hm. destruct Hm as ((A1 & A2 & _) & (A3 & A4 & _) & (A5 & A6 & _)).
  apply gal_ok_facts in Hg as [Hs Hd Hq Ts Td Tg Ps Pd Pg].
  destruct k as [|[|[|k]]]; [| | |now apply names3_no in H]; injection Ht as <-; eexists _, _, _; (split; [reflexivity|]); eauto.
Qed.
Lemma load_matter g0 f ss sd sg h : constructible g0 -> file_of g0 f -> read_hdf5 f ss sd sg = Ok h -> constructible h /\ same_matter g0 h.
Proof.
  clear RW cast lift G. intros Hg (ND & F) E. apply constructible_ok in Hg. apply gal_ok_facts in Hg as [Hs Hd Hq Ts Td Tg Ps Pd Pg].
  destruct (F 0%nat _ eq_refl) as [E1|(o1 & p1 & q1 & [= <-] & T1 & M1 & K1 & E1)]; [unfold read_hdf5, read_table in E; rewrite E1 in E; discriminate|].
  destruct (F 1%nat _ eq_refl) as [E2|(o2 & p2 & q2 & [= <-] & T2 & M2 & K2 & E2)]; [unfold read_hdf5, read_table in E; rewrite E1, E2 in E; discriminate|].
  destruct (F 2%nat _ eq_refl) as [E3|(o3 & p3 & q3 & [= <-] & T3 & M3 & K3 & E3)]; [unfold read_hdf5, read_table in E; rewrite E1, E2, E3 in E; discriminate|].
  rewrite Ts in T1. rewrite Td in T2. rewrite Tg in T3.
  destruct (read_stored f ss sd sg _ _ _ _ _ _ _ E1 E2 E3 K1 K2 K3 T1 T2 T3 E) as (A & B & C & _).
  split.
  - unfold read_hdf5 in E. apply bind_ok in E as (t1 & _ & E). apply bind_ok in E as (t2 & _ & E). apply bind_ok in E as (t3 & _ & E). eapply mkgalaxy_constructible; exact E.
  - unfold same_matter. rewrite Forall2_sets. unfold same_but_softening in *. unfold plen. intuition congruence.
Qed.
End Matter.

(** Whatever is called in whatever order, however the writes are disturbed: the galaxy is
    consistent and made of the same particles. *)
Lemma c58_matter : forall (W S : Num) (RW : Rounded W) (M : Type) (cast : W -> S) lift G (cs : list (call (W:=W) (S:=S) (M:=M))) g f g' f',
  constructible g -> fresh f -> run cast lift G (g, f) cs = (g', f') -> constructible g' /\ same_matter g g'.
Proof.
  intros W S RW M cast lift G cs g f g' f' Hg (ND & Hf) E.
  assert (Q : forall cs h f, constructible h -> same_matter g h -> file_of g f -> run cast lift G (h, f) cs = (g', f') -> constructible g' /\ same_matter g g').
  { clear f ND Hf E cs. induction cs as [|c cs IH]; intros h f Hh Hm Hf E; [injection E as <- <-; auto|]. unfold run in E. cbn [fold_left] in E.
    assert (A : forall r, (forall k, r = Ok k -> constructible k /\ same_matter g k) -> constructible (attempt h r) /\ same_matter g (attempt h r)).
    { intros [k|e] Hr; [now apply Hr|]. auto. }
    destruct c as [name have junk| |c|fault de now md ap ov|ss sd sg]; cbn [do_call] in E.
    - destruct (A (potential cast lift (backend_table G have junk) name h)) as (A1 & A2); [|exact (IH _ _ A1 A2 Hf E)].
      intros k Ek. destruct (potential_matter RW cast lift G _ _ _ _ _ Hh Ek) as (B1 & B2). split; [exact B1|]. exact (matter_trans _ _ _ Hm B2).
    - destruct (A (center h)) as (A1 & A2); [|exact (IH _ _ A1 A2 Hf E)].
      intros k Ek. destruct (center_matter RW _ _ Hh Ek) as (B1 & B2 & _). split; [exact B1|]. exact (matter_trans _ _ _ Hm B2).
    - destruct (A (star_align h c)) as (A1 & A2); [|exact (IH _ _ A1 A2 Hf E)].
      intros k Ek. destruct (align_matter _ _ _ Hh Ek) as (B1 & B2 & _). split; [exact B1|]. exact (matter_trans _ _ _ Hm B2).
    - refine (IH _ _ Hh Hm _ E). now apply save_file.
    - destruct (A (read_hdf5 f ss sd sg)) as (A1 & A2); [|exact (IH _ _ A1 A2 Hf E)].
      intros k Ek. exact (load_matter _ _ _ _ _ _ Hg Hf Ek). }
  apply (Q cs g f); auto; [apply matter_refl|]. split; [exact ND|]. intros k name H. left. apply Hf. eapply nth_error_In; exact H.
Qed.

(** As long as nothing is read but what has just been written, a galaxy that has potentials
    keeps them, value by value. *)
Lemma c58_potential : forall (W S : Num) (RW : Rounded W) (M : Type) (cast : W -> S) lift G (cs : list (call (W:=W) (S:=S) (M:=M))) g f g' f',
  constructible g -> NoDup (dkeys (h_objs f)) -> in_step cs -> run cast lift G (g, f) cs = (g', f') ->
  g_haspot g = true -> same_pots g g'.
Proof.
  intros W S RW M cast lift G cs g f g' f' Hg ND H. revert g f Hg ND.
  assert (T : forall a b c : galaxy W, same_pots a b -> same_pots b c -> same_pots a c).
  { unfold same_pots. intros a b c (A1 & A2) (B1 & B2). rewrite Forall2_sets in *. intuition congruence. }
  assert (R : forall a : galaxy W, same_pots a a) by (intros a; unfold same_pots; rewrite Forall2_sets; auto 10).
  assert (A : forall (h : galaxy W) r, constructible h -> (forall k, r = Ok k -> constructible k /\ same_pots h k) -> constructible (attempt h r) /\ same_pots h (attempt h r)).
  { intros h [k|e] Hh Hr; [now apply Hr|]. auto. }
  induction H as [|c cs NL H IH|de now md ss sd sg cs H IH]; intros g f Hg ND E HP; [injection E as <- <-; apply R| |].
  - unfold run in E. cbn [fold_left] in E.
    destruct c as [name have junk| |c|fault de now md ap ov|ss sd sg]; cbn [do_call] in E.
    + destruct (c19_errors W S cast lift (backend_table G have junk) name g Hg) as (E1 & _). rewrite E1 in E by exact HP. exact (IH g f Hg ND E HP).
    + destruct (A g (center g) Hg) as (A1 & A2); [intros k Ek; destruct (center_matter RW _ _ Hg Ek) as (B1 & _ & B2); auto|].
      eapply T; [exact A2|]. apply (IH _ _ A1 ND E). rewrite <- HP. apply A2.
    + destruct (A g (star_align g c) Hg) as (A1 & A2); [intros k Ek; destruct (align_matter _ _ _ Hg Ek) as (B1 & _ & B2); auto|].
      eapply T; [exact A2|]. apply (IH _ _ A1 ND E). rewrite <- HP. apply A2.
    + refine (IH _ _ Hg _ E HP). apply (to_hdf5_keeps fault de now f g md ap ov). exact ND.
    + exfalso. eapply NL. reflexivity.
  - unfold run in E. cbn [fold_left do_call] in E. destruct (to_hdf5 quiet de now f g md None None) as [f1 r] eqn:Es. cbn [fst] in E.
    assert (ND1 : NoDup (dkeys (h_objs f1))) by (pose proof (to_hdf5_keeps quiet de now f g md None None) as (K & _); rewrite Es in K; exact (K ND)).
    destruct (A g (read_hdf5 f1 ss sd sg) Hg) as (A1 & A2).
    { intros k Ek. split; [unfold read_hdf5 in Ek; apply bind_ok in Ek as (t1 & _ & Ek); apply bind_ok in Ek as (t2 & _ & Ek); apply bind_ok in Ek as (t3 & _ & Ek); eapply mkgalaxy_constructible; exact Ek|].
      assert (NN : no_nan g).
      { intros p v Ip Iv. destruct (nisnan v) eqn:Hn; [|reflexivity]. destruct (c50_nan W M de now f g md f1 r p v Hg Ip Iv Hn ND Es) as (_ & Q). rewrite Q in Ek. discriminate. }
      destruct (c50_round_trip W M de now f g md f1 r Hg NN ND Es) as (_ & Q). destruct (Q ss sd sg) as (k' & Ek' & B). rewrite Ek' in Ek. injection Ek as <-.
      unfold read_back, same_but_softening in B. unfold same_pots. rewrite Forall2_sets. intuition congruence. }
    eapply T; [exact A2|]. apply (IH _ _ A1 ND1 E). rewrite <- HP. apply A2.
Qed.

(** Reading an old file takes the potentials away again. *)
Lemma c58_revert_refuted : exists (g g1 g2 : galaxy F64) cs (f1 f2 : h5 F64 Z),
  constructible g /\ g_haspot g = false /\
  run (W:=F64) (S:=F32) to32 to64 n1 (g, H5 [] []) (CSave quiet [] 0%Z None None None :: cs) = (g1, f1) /\ g_haspot g1 = true /\
  run (W:=F64) (S:=F32) to32 to64 n1 (g, H5 [] []) (CSave quiet [] 0%Z None None None :: cs ++ [CLoad n0 n0 n0]) = (g2, f2) /\ g_haspot g2 = false.
Proof.
  pose (cs := [CPotential (W:=F64) (S:=F32) (M:=Z) "numpy" false junk0]).
  assert (H : match galP with
              | Ok g => let r1 := run (W:=F64) (S:=F32) to32 to64 n1 (g, H5 [] []) (CSave quiet [] 0%Z None None None :: cs) in
                        let r2 := run (W:=F64) (S:=F32) to32 to64 n1 (g, H5 [] []) (CSave quiet [] 0%Z None None None :: cs ++ [CLoad n0 n0 n0]) in
                        negb (g_haspot g) && g_haspot (fst r1) && negb (g_haspot (fst r2))
              | _ => false end = true) by (vm_compute; reflexivity).
  destruct galP as [g|] eqn:Eg; [|discriminate]. cbv zeta in H. apply andb_prop in H as (H & H3). apply andb_prop in H as (H1 & H2).
  destruct (run (W:=F64) (S:=F32) to32 to64 n1 (g, H5 [] []) (CSave quiet [] 0%Z None None None :: cs)) as [g1 f1] eqn:R1.
  destruct (run (W:=F64) (S:=F32) to32 to64 n1 (g, H5 [] []) (CSave quiet [] 0%Z None None None :: cs ++ [CLoad n0 n0 n0])) as [g2 f2] eqn:R2.
  exists g, g1, g2, cs, f1, f2. cbn [fst] in *. apply negb_true_iff in H1, H3.
  split; [|auto 10]. unfold galP in Eg. apply bind_ok in Eg as (s & Es & Eg). apply bind_ok in Eg as (d & Ed & Eg). apply bind_ok in Eg as (q & Eq & Eg).
  exists s, d, q. repeat split; [do 10 eexists; eassumption..|exact Eg].
Qed.

Section Rigid.
Local Open Scope R_scope.

Definition mulR (A B : matR) : matR := MatR
  (m11 A * m11 B + m12 A * m21 B + m13 A * m31 B) (m11 A * m12 B + m12 A * m22 B + m13 A * m32 B) (m11 A * m13 B + m12 A * m23 B + m13 A * m33 B)
  (m21 A * m11 B + m22 A * m21 B + m23 A * m31 B) (m21 A * m12 B + m22 A * m22 B + m23 A * m32 B) (m21 A * m13 B + m22 A * m23 B + m23 A * m33 B)
  (m31 A * m11 B + m32 A * m21 B + m33 A * m31 B) (m31 A * m12 B + m32 A * m22 B + m33 A * m32 B) (m31 A * m13 B + m32 A * m23 B + m33 A * m33 B).
Definition trR (A : matR) : matR := MatR (m11 A) (m21 A) (m31 A) (m12 A) (m22 A) (m32 A) (m13 A) (m23 A) (m33 A).
Lemma rotation_tr A : rotation A -> rotation (trR A).
Proof. destruct A. unfold rotation; simpl. intros (H1 & H2 & H3 & H4 & H5 & H6 & H7 & H8 & H9 & H10 & H11 & H12 & H13). repeat split; try lra. Qed.
Lemma rotation_dot M x y z u v w : rotation M ->
  (m11 M * x + m12 M * y + m13 M * z) * (m11 M * u + m12 M * v + m13 M * w) +
  (m21 M * x + m22 M * y + m23 M * z) * (m21 M * u + m22 M * v + m23 M * w) +
  (m31 M * x + m32 M * y + m33 M * z) * (m31 M * u + m32 M * v + m33 M * w) = x * u + y * v + z * w.
Proof.
  destruct M as [a b c d e f h k l]. unfold rotation; simpl.
  intros (_ & _ & _ & _ & _ & _ & C1 & C2 & C3 & C12 & C13 & C23 & _).
  replace (_ + _ + _) with ((a*a+d*d+h*h) * (x*u) + (b*b+e*e+k*k) * (y*v) + (c*c+f*f+l*l) * (z*w)
    + (a*b+d*e+h*k) * (x*v+y*u) + (a*c+d*f+h*l) * (x*w+z*u) + (b*c+e*f+k*l) * (y*w+z*v)) by ring.
  rewrite C1, C2, C3, C12, C13, C23. ring.
Qed.
Lemma rotation_mul A B : rotation A -> rotation B -> rotation (mulR A B).
Proof.
  intros HA HB. pose proof (rotation_tr _ HB) as HT.
  pose proof (fun x y z u v w => rotation_dot A x y z u v w HA) as DA. pose proof (fun x y z u v w => rotation_dot (trR B) x y z u v w HT) as DB.
  destruct A as [a b c d e f h k l], B as [a' b' c' d' e' f' h' k' l']. unfold trR, mulR in *. unfold rotation in *. simpl in *.
  destruct HA as (A1 & A2 & A3 & A4 & A5 & A6 & A7 & A8 & A9 & A10 & A11 & A12 & A13).
  destruct HB as (B1 & B2 & B3 & B4 & B5 & B6 & B7 & B8 & B9 & B10 & B11 & B12 & B13).
  repeat split.
  - etransitivity; [|exact A1]. rewrite <- (DB a b c a b c). ring.
  - etransitivity; [|exact A2]. rewrite <- (DB d e f d e f). ring.
  - etransitivity; [|exact A3]. rewrite <- (DB h k l h k l). ring.
  - etransitivity; [|exact A4]. rewrite <- (DB a b c d e f). ring.
  - etransitivity; [|exact A5]. rewrite <- (DB a b c h k l). ring.
  - etransitivity; [|exact A6]. rewrite <- (DB d e f h k l). ring.
  - etransitivity; [|exact B7]. rewrite <- (DA a' d' h' a' d' h'). ring.
  - etransitivity; [|exact B8]. rewrite <- (DA b' e' k' b' e' k'). ring.
  - etransitivity; [|exact B9]. rewrite <- (DA c' f' l' c' f' l'). ring.
  - etransitivity; [|exact B10]. rewrite <- (DA a' d' h' b' e' k'). ring.
  - etransitivity; [|exact B11]. rewrite <- (DA a' d' h' c' f' l'). ring.
  - etransitivity; [|exact B12]. rewrite <- (DA b' e' k' c' f' l'). ring.
  - transitivity ((a * (e * l - f * k) - b * (d * l - f * h) + c * (d * k - e * h)) * (a' * (e' * l' - f' * k') - b' * (d' * l' - f' * h') + c' * (d' * k' - e' * h'))); [ring|].
    rewrite A13, B13. ring.
Qed.

Lemma rotate_rigid M A a b c q : rotate M (rigid A a b c q) =
  rigid (mulR M A) (m11 M * a + m12 M * b + m13 M * c) (m21 M * a + m22 M * b + m23 M * c) (m31 M * a + m32 M * b + m33 M * c) q.
Proof. unfold rigid, rotate, mulR; simpl. f_equal; ring. Qed.

Definition unitR : matR := MatR 1 0 0 0 1 0 0 0 1.
Lemma unit_rotation : rotation unitR.
Proof. unfold rotation, unitR; simpl. repeat split; ring. Qed.
Lemma rigid_unit q : rigid unitR 0 0 0 q = q.
Proof. destruct q. unfold rigid, rotate, unitR; simpl. f_equal; ring. Qed.
Lemma image_refl ls ld lg (g : galaxy RX) : holds (g_stars g) ls -> holds (g_dm g) ld -> holds (g_gas g) lg -> rigid_image ls ld lg g.
Proof.
  intros A B C. exists unitR, 0, 0, 0. split; [apply unit_rotation|].
  rewrite !(map_ext (rigid unitR 0 0 0) (fun q => q)) by apply rigid_unit. rewrite !map_id. auto.
Qed.

Lemma center_image ls ld lg (g h : galaxy RX) : constructible g -> center g = Ok h -> rigid_image ls ld lg g -> rigid_image ls ld lg h.
Proof.
  intros Hg E (A & a & b & c & HA & Hs & Hd & Hq).
  destruct (c09_translation RX RX_rounded g h Hg E) as (i & x0 & y0 & z0 & _ & X & Y & Z & (_ & _ & F)).
  rewrite Forall2_sets in F.
  assert (V : forall (coord : galaxy RX -> list RX) (sel : pset RX -> list RX) (pr : particle -> R) v,
     (coord g = sel (g_stars g) ++ sel (g_dm g) ++ sel (g_gas g)) ->
     (forall p l, holds p l -> sel p = map (fun q => XR (pr q)) l) -> nth_error (coord g) i = Some v -> exists r, v = XR r).
  { intros coord sel pr v EC Hh H. rewrite EC, (Hh _ _ Hs), (Hh _ _ Hd), (Hh _ _ Hq), <- !map_app, nth_error_map in H.
    destruct (nth_error (map (rigid A a b c) (ls ++ ld ++ lg)) i) as [q0|]; cbn [option_map] in H; [|discriminate]. exists (pr q0). congruence. }
  destruct (V all_x p_x px x0) as (rx & ->); [unfold all_x, sets; cbn [flat_map]; now rewrite app_nil_r|unfold holds; tauto|exact X|].
  destruct (V all_y p_y py y0) as (ry & ->); [unfold all_y, sets; cbn [flat_map]; now rewrite app_nil_r|unfold holds; tauto|exact Y|].
  destruct (V all_z p_z pz z0) as (rz & ->); [unfold all_z, sets; cbn [flat_map]; now rewrite app_nil_r|unfold holds; tauto|exact Z|].
  exists A, (a - rx), (b - ry), (c - rz). split; [exact HA|].
  assert (Q : forall p q l, (same_but_positions p q /\ p_x q = map (fun v => nsub (N:=RX) v (XR rx)) (p_x p) /\ p_y q = map (fun v => nsub (N:=RX) v (XR ry)) (p_y p) /\ p_z q = map (fun v => nsub (N:=RX) v (XR rz)) (p_z p)) ->
     holds p (map (rigid A a b c) l) -> holds q (map (rigid A (a - rx) (b - ry) (c - rz)) l)).
  { intros p q l ((_ & M1 & M2 & M3 & M4 & _) & P1 & P2 & P3) (H1 & H2 & H3 & H4 & H5 & H6 & H7). unfold holds.
    rewrite P1, P2, P3, H2, H3, H4, <- M1, <- M2, <- M3, <- M4, H1, H5, H6, H7, !map_map.
    repeat split; apply map_ext; intros r; unfold rigid; simpl; try reflexivity; unfold xsub; simpl; f_equal; ring. }
  destruct F as (F1 & F2 & F3). split; [|split]; eapply Q; eassumption.
Qed.
Lemma Forall2_nth_in {A B} (R : A -> B -> Prop) l l' : Forall2 R l l' -> forall x, In x l -> exists y, In y l' /\ R x y.
Proof. intros F. induction F as [|x y l l' Hxy F IH]; intros z I; [destruct I|]. destruct I as [<-|I]; [exists y; simpl; auto|]. destruct (IH z I) as (w & Iw & Hw). exists w. simpl. auto. Qed.
Lemma center_lost (g h : galaxy RX) : constructible g -> center g = Ok h -> lost g -> lost h.
Proof.
  intros Hg E (p & i & Ip & H). destruct (c09_translation RX RX_rounded g h Hg E) as (k & x0 & y0 & z0 & _ & X & Y & Z & (_ & _ & F)).
  destruct (Forall2_nth_in _ _ _ F p Ip) as (q & Iq & (_ & Q & _)). exists q, i. split; [exact Iq|]. rewrite Q, nth_error_map, H. simpl. now destruct x0.
Qed.

Lemma align_lost (g h : galaxy RX) c : constructible g -> star_align g c = Ok h -> lost g -> lost h.
Proof.
  intros Hg E (p & i & Ip & H). destruct (c13_frame RX g g h h c Hg Hg eq_refl E E) as (a & b & d & e & f & i1 & j1 & k & l & F & _ & _).
  destruct (Forall2_nth_in _ _ _ F p Ip) as (q & Iq & (_ & _ & Q)). exists q, i. split; [exact Iq|].
  assert (K : pset_ok p).
  { apply constructible_ok in Hg. apply gal_ok_facts in Hg as [gf_s0 gf_d0 gf_g0 gf_ts0 gf_td0 gf_tg0 gf_hs0 gf_hd0 gf_hg0]. destruct Ip as [<-|[<-|[<-|[]]]]; auto. }
  assert (L : (i < length (p_x p))%nat) by (apply nth_error_Some; congruence).
  apply pset_ok_iff in K as ((K1 & K2 & K3 & K4 & K5 & K6 & _) & _).
  assert (X : forall l0 : list RX, length l0 = length (p_m p) -> exists v, nth_error l0 i = Some v).
  { intros l0 L0. destruct (nth_error l0 i) eqn:N0; [eauto|]. apply nth_error_None in N0. lia. }
  destruct (X _ K2) as (y & Y), (X _ K3) as (z & Z), (X _ K4) as (vx & VX), (X _ K5) as (vy & VY), (X _ K6) as (vz & VZ).
  destruct (Q i _ _ _ _ _ _ H Y Z VX VY VZ) as (Q1 & _). rewrite Q1. f_equal. simpl. now destruct a.
Qed.

Lemma align_image ls ld lg (g h : galaxy RX) c : constructible g -> star_align g c = Ok h -> rigid_image ls ld lg g -> lost h \/ rigid_image ls ld lg h.
Proof.
  intros Hg E (A & a & b & d & HA & Hs & Hd & Hq).
  assert (Hc : forall v, c = Some v -> nle (N:=RX) v n0 = false) by (apply (proj2 (c13_guard RX g c Hg)); eauto).
  set (ls' := map (rigid A a b d) ls) in *. set (ld' := map (rigid A a b d) ld) in *. set (lg' := map (rigid A a b d) lg) in *.
  destruct (Req_dec (LX c ls') 0) as [Lx|Lx]; [destruct (Req_dec (LY c ls') 0) as [Ly|Ly]|].
  - assert (K : pset_ok (g_stars g)).
    { pose proof Hg as Hg'. apply constructible_ok in Hg'. apply gal_ok_facts in Hg' as [gf_s0 gf_d0 gf_g0 gf_ts0 gf_td0 gf_tg0 gf_hs0 gf_hd0 gf_hg0]. exact gf_s0. }
    destruct (near_sum_holds _ _ c K Hs) as (S1 & S2 & _).
    assert (F : Forall (fun p : pset RX => (forall v, In v (p_x p) -> v = XNaN) /\ (forall v, In v (p_y p) -> v = XNaN) /\ (forall v, In v (p_vx p) -> v = XNaN) /\ (forall v, In v (p_vy p) -> v = XNaN)) (sets h)).
    { apply (c17_nan RX RX_rounded g h c Hg); [rewrite S1, Lx|rewrite S2, Ly|exact E]; apply (neqb_iff RX_rounded); (split; [symmetry; exact (val_n0 RX_rounded)|discriminate]). }
    rewrite Forall_forall in F.
    assert (LL : length (p_x (g_stars h)) = length ls /\ length (p_x (g_dm h)) = length ld /\ length (p_x (g_gas h)) = length lg).
    { destruct (align_matter g h c Hg E) as (Hh & Hm & _). unfold same_matter in Hm. rewrite Forall2_sets in Hm.
      apply constructible_ok in Hh. apply gal_ok_facts in Hh as [gf_s0 gf_d0 gf_g0 gf_ts0 gf_td0 gf_tg0 gf_hs0 gf_hd0 gf_hg0].
      apply pset_ok_iff in gf_s0 as ((J1 & _) & _), gf_d0 as ((J2 & _) & _), gf_g0 as ((J3 & _) & _). rewrite J1, J2, J3.
      destruct Hm as ((_ & M1 & _) & (_ & M2 & _) & (_ & M3 & _)). rewrite M1, M2, M3.
      rewrite (proj1 Hs), (proj1 Hd), (proj1 Hq). unfold ls', ld', lg'. now rewrite !map_length. }
    destruct LL as (J1 & J2 & J3).
    assert (X : forall p, In p (sets h) -> p_x p <> [] -> lost h).
    { intros p Ip Np. exists p, 0%nat. split; [exact Ip|]. destruct (p_x p) as [|v l] eqn:Ex; [contradiction|]. simpl. f_equal. apply (proj1 (F p Ip)). rewrite Ex. now left. }
    destruct (p_x (g_stars h)) eqn:E1; [|left; apply (X (g_stars h)); [simpl; auto|congruence]].
    destruct (p_x (g_dm h)) eqn:E2; [|left; apply (X (g_dm h)); [simpl; auto|congruence]].
    destruct (p_x (g_gas h)) eqn:E3; [|left; apply (X (g_gas h)); [simpl; auto|congruence]].
    right. assert (Hh : constructible h) by (apply (align_matter g h c Hg E)).
    apply constructible_ok in Hh. apply gal_ok_facts in Hh as [gf_s0 gf_d0 gf_g0 gf_ts0 gf_td0 gf_tg0 gf_hs0 gf_hd0 gf_hg0].
    destruct ls; [|discriminate]. destruct ld; [|discriminate]. destruct lg; [|discriminate].
    assert (Z : forall p : pset RX, pset_ok p -> p_x p = [] -> holds p []).
    { intros p Kp Ep. apply pset_ok_iff in Kp as ((K1 & K2 & K3 & K4 & K5 & K6 & _) & _). rewrite Ep in K1. symmetry in K1. apply length_zero_iff_nil in K1.
      rewrite K1 in K2, K3, K4, K5, K6. apply length_zero_iff_nil in K2, K3, K4, K5, K6. unfold holds. cbn [map]. auto 10. }
    exists unitR, 0, 0, 0. split; [apply unit_rotation|]. cbn [map]. auto.
  - right. destruct (c14_rotation g c ls' ld' lg') as (h' & M & E' & HM & H1 & H2 & H3); [unfold alignable; auto 10|].
    rewrite E' in E. injection E as <-. do 4 eexists. split; [exact (rotation_mul M A HM HA)|].
    unfold ls', ld', lg' in *. rewrite !map_map in H1, H2, H3. rewrite (map_ext _ _ (rotate_rigid M A a b d)) in H1, H2, H3. eauto.
  - right. destruct (c14_rotation g c ls' ld' lg') as (h' & M & E' & HM & H1 & H2 & H3); [unfold alignable; auto 10|].
    rewrite E' in E. injection E as <-. do 4 eexists. split; [exact (rotation_mul M A HM HA)|].
    unfold ls', ld', lg' in *. rewrite !map_map in H1, H2, H3. rewrite (map_ext _ _ (rotate_rigid M A a b d)) in H1, H2, H3. eauto.
Qed.

(** In exact arithmetic and with undisturbed writes, whatever is called in whatever order: all
    particles have undergone one and the same rigid motion, or a position is lost (NaN). *)
Lemma c58_rigid : forall (S : Num) (M : Type) (cast : RX -> S) lift G (cs : list (call (W:=RX) (S:=S) (M:=M))) (g : galaxy RX) f g' f' ls ld lg,
  constructible g -> fresh f -> (forall c, In c cs -> calm c) -> holds (g_stars g) ls -> holds (g_dm g) ld -> holds (g_gas g) lg ->
  run cast lift G (g, f) cs = (g', f') -> lost g' \/ rigid_image ls ld lg g'.
Proof.
  intros S M cast lift G cs g f g' f' ls ld lg Hg (ND & Hf) Hc Hs Hd Hq E.
  set (good := fun h : galaxy RX => constructible h /\ (lost h \/ rigid_image ls ld lg h)).
  set (fgood := fun f : h5 RX M => NoDup (dkeys (h_objs f)) /\
    ((forall name, In name names3 -> dget (h_objs f) name = None) \/
     exists k, good k /\ forall i name t, nth_error names3 i = Some name -> nth_error (newtabs k) i = Some t -> dget (h_objs f) name = Some (HTable t))).
  assert (Q : forall cs h f, (forall c, In c cs -> calm c) -> good h -> fgood f -> run cast lift G (h, f) cs = (g', f') -> good g').
  { clear f ND Hf E cs Hc. induction cs as [|c cs IH]; intros h f Hc Gh Gf E; [injection E as <- <-; exact Gh|]. unfold run in E. cbn [fold_left] in E.
    assert (Hc' : forall c, In c cs -> calm c) by (intros c' I; apply Hc; now right). pose proof Gh as (Hh & Lh).
    assert (A : forall r, (forall k, r = Ok k -> good k) -> good (attempt h r)) by (intros [k|e] Hr; [now apply Hr|exact Gh]).
    destruct c as [name have junk| |c|fault de now md ap ov|ss sd sg]; cbn [do_call] in E.
    - refine (IH _ _ Hc' (A _ _) Gf E). intros k Ek. destruct (potential_returns RX S RX_rounded cast lift G have junk name h k Hh Ek) as (B1 & _ & _ & B2). split; [exact B1|].
      destruct Lh as [(p & i & Ip & X)|(A0 & a & b & d & HA & H1 & H2 & H3)].
      + left. destruct (Forall2_nth_in _ _ _ B2 p Ip) as (q & Iq & Pq). exists q, i. split; [exact Iq|]. unfold same_but_potential in Pq. destruct Pq as (_ & _ & <- & _). exact X.
      + right. exists A0, a, b, d. split; [exact HA|]. rewrite Forall2_sets in B2. unfold same_but_potential in B2. unfold holds in *. intuition congruence.
    - refine (IH _ _ Hc' (A _ _) Gf E). intros k Ek. destruct (center_matter RX_rounded _ _ Hh Ek) as (B1 & _). split; [exact B1|].
      destruct Lh as [L|L]; [left; now apply (center_lost h)|right; now apply (center_image _ _ _ h)].
    - refine (IH _ _ Hc' (A _ _) Gf E). intros k Ek. destruct (align_matter _ _ _ Hh Ek) as (B1 & _). split; [exact B1|].
      destruct Lh as [L|L]; [left; now apply (align_lost h _ c)|now apply (align_image _ _ _ h _ c)].
    - pose proof (Hc _ (or_introl eq_refl)) as (Q & -> & ->). refine (IH _ _ Hc' Gh _ E). destruct Gf as (ND & _).
      destruct (to_hdf5 fault de now f h md None None) as [f1 r] eqn:Es. cbn [fst].
      assert (Hk : gal_ok h) by (now apply constructible_ok).
      destruct (to_hdf5_effect _ _ _ _ _ _ _ _ Hk ND Es) as (A1 & B1 & [(C1 & _)|(n & e & i & _ & _ & Q' & _)]); [|rewrite Q in Q'; discriminate].
      split; [exact A1|]. right. exists h. split; [exact Gh|exact C1].
    - refine (IH _ _ Hc' (A _ _) Gf E). intros k Ek. destruct Gf as (ND & [Fr|(k0 & (Hk0 & Lk0) & T)]).
      { unfold read_hdf5, read_table in Ek. rewrite Fr in Ek by (simpl; auto). discriminate. }
      split; [unfold read_hdf5 in Ek; apply bind_ok in Ek as (t1 & _ & Ek); apply bind_ok in Ek as (t2 & _ & Ek); apply bind_ok in Ek as (t3 & _ & Ek); eapply mkgalaxy_constructible; exact Ek|].
      apply constructible_ok in Hk0. apply gal_ok_facts in Hk0 as [gf_s0 gf_d0 gf_g0 gf_ts0 gf_td0 gf_tg0 gf_hs0 gf_hd0 gf_hg0].
      destruct (read_stored f ss sd sg _ _ _ _ _ _ _ (T 0%nat _ _ eq_refl eq_refl) (T 1%nat _ _ eq_refl eq_refl) (T 2%nat _ _ eq_refl eq_refl) gf_s0 gf_d0 gf_g0 gf_ts0 gf_td0 gf_tg0 Ek) as (B1 & B2 & B3 & _ & NN).
      right. destruct Lk0 as [(p & i & Ip & X)|(A0 & a & b & d & HA & H1 & H2 & H3)].
      + exfalso. assert (nisnan (N:=RX) XNaN = false) as Z; [|discriminate Z]. apply (NN p _ Ip). unfold saved_values. rewrite !in_app_iff. right. left. eapply nth_error_In; exact X.
      + exists A0, a, b, d. split; [exact HA|]. unfold same_but_softening in *. unfold holds in *. intuition congruence. }
  apply (Q cs g f Hc); [split; [exact Hg|right; now apply image_refl]|split; [exact ND|left; exact Hf]|exact E].
Qed.

(** A rigid motion keeps masses, distances and kinetic energies. *)
Lemma c58_rigid_keeps : forall A a b c p q, rotation A ->
  pm (rigid A a b c p) = pm p /\ dist (rigid A a b c p) (rigid A a b c q) = dist p q /\ kinr (rigid A a b c p) = kinr p.
Proof.
  intros A a b c p q HA. split; [reflexivity|]. split.
  - rewrite <- (rotate_dist A p q HA). unfold dist, rigid; simpl. f_equal. ring.
  - exact (rotate_kin A p HA).
Qed.
End Rigid.

(** Potential, save, load, centre and align: masses and potentials are kept, and the failing
    second potential and the unreadable file change nothing. *)
Definition pipe : list (call (W:=F64) (S:=F32) (M:=Z)) :=
  [CLoad n0 n0 n0; CPotential "numpy" false junk0; CCenter; CSave quiet [] 0%Z None None None; CLoad n0 n0 n0;
   CPotential "fortran" true junk0; CAlign None].
Lemma fresh_empty : fresh (W:=F64) (M:=Z) (H5 [] []).
Proof. split; [constructor|]. intros name _. reflexivity. Qed.
Example ex_c58 : in_step (tl pipe) /\ fresh (W:=F64) (M:=Z) (H5 [] []) /\
  rmap (fun g => let r := run (W:=F64) (S:=F32) to32 to64 n1 (g, H5 [] []) pipe in
    (g_haspot g, g_haspot (fst r), shows (all_m (fst r)), shows (all_pots (fst r)), length (h_objs (snd r)))) galP =
  Ok (false, true, shows [fZ 1; fZ 2; fZ 4], shows [fZ (-4); fZ (-5); fZ (-2) + fZ (-1) / fZ 2]%num, 3%nat).
Proof.
  split; [|split; [exact fresh_empty|]].
  - unfold pipe. cbn [tl]. do 2 (apply step_call; [discriminate|]). apply step_pair. do 2 (apply step_call; [discriminate|]). apply step_nil.
  - vm_compute. reflexivity.
Qed.
(** An exact run that turns the galaxy and keeps all its positions. *)
Example ex_c58_rigid : exists h, run (W:=RX) (S:=RX) (M:=Z) idx idx (XR 1) (galR exA_stars [Part 1 1 2 3 4 5 6]%R [], H5 [] []) [CAlign (W:=RX) (Some (XR 5)); CCenter] = (h, H5 [] []) /\
  ~ lost h /\ rigid_image exA_stars [Part 1 1 2 3 4 5 6]%R [] h.
Proof.
  destruct (c14_rotation _ _ _ _ _ ex_c14) as (h & M & E & HM & H1 & H2 & H3). exists h. split; [|split].
  - unfold run. cbn [fold_left do_call]. rewrite E. cbn [attempt]. assert (HP : g_haspot h = false).
    { destruct (align_matter _ _ _ (galR_ok _ _ _) E) as (_ & _ & (-> & _)). reflexivity. }
    unfold center. rewrite HP. reflexivity.
  - intros (p & i & I & X). apply nth_error_In in X. simpl in I. unfold holds in H1, H2, H3.
    destruct I as [<-|[<-|[<-|[]]]]; [destruct H1 as (_ & Y & _)|destruct H2 as (_ & Y & _)|destruct H3 as (_ & Y & _)]; rewrite Y in X; apply in_map_iff in X as (q & Q & _); discriminate Q.
  - exists M, 0%R, 0%R, 0%R. assert (RG : forall q, rotate M q = rigid M 0%R 0%R 0%R q) by (intros q; unfold rigid, rotate; simpl; f_equal; ring).
    rewrite <- !(map_ext _ _ RG). auto.
Qed.

(** *** C61 *)

Section Centred.
Context {N : Num} (RN : Rounded N).
Local Notation v := (val RN).
Lemma dot3_zero a b c x y z : v x = XR 0 -> v y = XR 0 -> v z = XR 0 -> nfin (dot3 (N:=N) a b c x y z) = true -> v (dot3 a b c x y z) = XR 0.
Proof.
  intros X Y Z F. apply (nfin_iff RN) in F as (r & F). unfold dot3 in *.
  assert (M0 : forall p q, v q = XR 0 -> v (nmul (N:=N) p q) = XR 0 \/ v (nmul p q) = XNaN).
  { assert (C : Rcompare 0 0 = Eq) by (now apply Rcompare_Eq).
    intros p q Q. rewrite (val_mul RN), Q. destruct (v p) as [w| | |]; simpl; rewrite ?C; simpl; rewrite ?Rmult_0_r, ?(rnd0 RN), ?(rnd_nan RN); auto. }
  assert (A0 : forall p q, (v p = XR 0 \/ v p = XNaN) -> (v q = XR 0 \/ v q = XNaN) -> v (nadd (N:=N) p q) = XR 0 \/ v (nadd p q) = XNaN).
  { intros p q [P|P] [Q|Q]; rewrite (val_add RN), P, Q; simpl; rewrite ?Rplus_0_r, ?(rnd0 RN), ?(rnd_nan RN); auto. }
  destruct (A0 _ _ (A0 _ _ (M0 a x X) (M0 b y Y)) (M0 c z Z)) as [H|H]; [exact H|]. congruence.
Qed.
Lemma close_zero rtol atol x : v x = XR 0 -> nfin rtol = true -> nle n0 atol = true -> isclose rtol atol x n0 = true.
Proof.
  intros X Hr Ha. unfold isclose.
  assert (nfin (n0 : N) = true) as -> by (apply (nfin_iff RN); rewrite (val_n0 RN); eauto).
  assert (nfin x = true) as -> by (apply (nfin_iff RN); rewrite X; eauto).
  simpl. apply (nle_iff RN). rewrite (val_abs RN), (val_sub RN), (val_add RN), (val_mul RN), (val_abs RN).
  rewrite (val_n0 RN), X. apply (nfin_iff RN) in Hr as [r Er]. rewrite Er.
  unfold xsub; simpl. rewrite Rabs_R0, Rmult_0_r, Ropp_0, Rplus_0_r.
  rewrite !(rnd_int RN 0) by (pose proof (intmax_pos RN); lia). simpl. rewrite Rabs_R0.
  apply (nle_iff RN) in Ha. rewrite (val_n0 RN) in Ha.
  assert (xadd (v atol) (XR 0) = v atol) as ->.
  { destruct (v atol); simpl; f_equal; try reflexivity; ring. }
  rewrite (rnd_val RN). exact Ha.
Qed.
Lemma nth_map3 {A B} (f : A -> A -> A -> B) a b c i x y z : nth_error a i = Some x -> nth_error b i = Some y -> nth_error c i = Some z ->
  nth_error (map3 f a b c) i = Some (f x y z).
Proof.
  unfold map3. revert b c i. induction a as [|a0 a IH]; intros [|b0 b] [|c0 c] [|i]; simpl; try discriminate.
  - intros [= <-] [= <-] [= <-]. reflexivity.
  - apply IH.
Qed.
End Centred.

(** Aligning a centred galaxy leaves it centred, as long as the coordinates stay finite; for
    every rounded arithmetic. *)
Lemma c61_stays_centred : forall (N : Num) (RN : Rounded N) (g g1 g2 : galaxy N) c,
  constructible g -> center g = Ok g1 -> star_align g1 c = Ok g2 ->
  (forall a, In a (all_x g ++ all_y g ++ all_z g) -> nfin a = true) ->
  (forall a, In a (all_x g2 ++ all_y g2 ++ all_z g2) -> nfin a = true) ->
  forall rtol atol, nfin rtol = true -> nle n0 atol = true -> is_centered g2 rtol atol = Ok true.
Proof.
  intros N RN g g1 g2 c Hg H E2 Hf Hf2 rtol atol Hr Ha. apply constructible_ok in Hg.
  destruct (g_haspot g) eqn:Hp; [|unfold center in H; rewrite Hp in H; discriminate].
  destruct (glen g) eqn:Hn; [rewrite center_empty in H by auto; discriminate|].
  destruct (center_total g Hg Hp) as (i & x0 & y0 & z0 & Hi & Li & X & Y & Z & C); [lia|].
  rewrite C in H. injection H as <-. rewrite all_x_gx, all_y_gy, all_z_gz in Hf.
  assert (Fx : nfin x0 = true) by (apply Hf, in_or_app; left; eapply nth_error_In; eauto).
  assert (Fy : nfin y0 = true) by (apply Hf, in_or_app; right; apply in_or_app; left; eapply nth_error_In; eauto).
  assert (Fz : nfin z0 = true) by (apply Hf, in_or_app; right; apply in_or_app; right; eapply nth_error_In; eauto).
  set (h := shift_gal x0 y0 z0 g) in *. pose proof (shift_gal_ok x0 y0 z0 g Hg : gal_ok h) as Hh.
  assert (X' : nth_error (gx h) i = Some (n0 : N)) by (unfold h; rewrite shift_gx, nth_error_map, X; simpl; now rewrite (sub_self RN) by assumption).
  assert (Y' : nth_error (gy h) i = Some (n0 : N)) by (unfold h; rewrite shift_gy, nth_error_map, Y; simpl; now rewrite (sub_self RN) by assumption).
  assert (Z' : nth_error (gz h) i = Some (n0 : N)) by (unfold h; rewrite shift_gz, nth_error_map, Z; simpl; now rewrite (sub_self RN) by assumption).
  rewrite star_align_eq in E2 by exact Hh. destruct (cut_ok c); [|discriminate]. injection E2 as <-. set (A := gal_matrix h c) in *.
  assert (M3 : forall (f : N -> N -> N -> N) a1 a2 a3 b1 b2 b3 c1 c2 c3, length b1 = length a1 -> length c1 = length a1 -> length b2 = length a2 -> length c2 = length a2 ->
     map3 f (a1 ++ a2 ++ a3) (b1 ++ b2 ++ b3) (c1 ++ c2 ++ c3) = map3 f a1 b1 c1 ++ map3 f a2 b2 c2 ++ map3 f a3 b3 c3).
  { intros f a1 a2 a3 b1 b2 b3 c1 c2 c3 L1 L2 L3 L4.
    assert (P : forall a b c a' b' c', length b = length a -> length c = length a -> map3 f (a ++ a') (b ++ b') (c ++ c') = map3 f a b c ++ map3 f a' b' c').
    { clear. unfold map3. induction a as [|x a IH]; intros [|y b] [|z c] a' b' c'; simpl; try discriminate; [reflexivity|]. intros [= L] [= L']. f_equal. now apply IH. }
    rewrite !P by auto. reflexivity. }
  pose proof Hh as Hh'. apply gal_ok_facts in Hh' as [gf_s0 gf_d0 gf_g0 gf_ts0 gf_td0 gf_tg0 gf_hs0 gf_hd0 gf_hg0].
  apply pset_ok_iff in gf_s0 as ((S1 & S2 & S3 & _) & _), gf_d0 as ((D1 & D2 & D3 & _) & _).
  rewrite all_x_gx, all_y_gy, all_z_gz in Hf2.
  assert (PX : gx (rot_gal A h) = map3 (rot_x A) (gx h) (gy h) (gz h)).
  { unfold gx, gy, gz. rewrite M3 by congruence. reflexivity. }
  assert (PY : gy (rot_gal A h) = map3 (rot_y A) (gx h) (gy h) (gz h)).
  { unfold gx, gy, gz. rewrite M3 by congruence. reflexivity. }
  assert (PZ : gz (rot_gal A h) = map3 (rot_z A) (gx h) (gy h) (gz h)).
  { unfold gx, gy, gz. rewrite M3 by congruence. reflexivity. }
  pose proof (nth_map3 (rot_x A) _ _ _ i _ _ _ X' Y' Z') as Qx. rewrite <- PX in Qx.
  pose proof (nth_map3 (rot_y A) _ _ _ i _ _ _ X' Y' Z') as Qy. rewrite <- PY in Qy.
  pose proof (nth_map3 (rot_z A) _ _ _ i _ _ _ X' Y' Z') as Qz. rewrite <- PZ in Qz.
  rewrite (is_centered_eq _ i _ _ _ rtol atol (rot_gal_ok A h Hh) Hp Hi Qx Qy Qz). f_equal.
  pose proof (val_n0 RN) as V0.
  unfold allclose. cbn [forallb].
  rewrite !(close_zero RN); auto; apply (dot3_zero RN); auto; apply Hf2; rewrite !in_app_iff;
    [right; right; eapply nth_error_In; exact Qz|right; left; eapply nth_error_In; exact Qy|left; eapply nth_error_In; exact Qx].
Qed.

(** In exact arithmetic, centring and then aligning gives a galaxy that is both. *)
Lemma c61_both : forall (g g1 g2 : galaxy RX) c ls ld lg, constructible g -> center g = Ok g1 -> alignable g1 c ls ld lg ->
  (forall a, In a (all_x g ++ all_y g ++ all_z g) -> xfin a = true) -> star_align g1 c = Ok g2 ->
  forall rtol atol, nfin (N:=RX) rtol = true -> xle (XR 0) rtol -> xle (XR 0) atol ->
  is_centered g2 rtol atol = Ok true /\ is_star_aligned g2 c rtol atol = Ok true.
Proof.
  intros g g1 g2 c ls ld lg Hg E1 Ha Hf E2 rtol atol Fr Hr Hat.
  destruct (c15_aligned g1 g2 c ls ld lg Ha E2) as (ls' & _ & _ & _ & _ & _ & _ & _ & Q). split; [|now apply Q].
  destruct (c14_rotation g1 c ls ld lg Ha) as (h & M & E & _ & H1 & H2 & H3). rewrite E in E2. injection E2 as <-.
  eapply (c61_stays_centred RX RX_rounded g g1 h c); eauto.
  - intros a I. unfold all_x, all_y, all_z, sets in I. cbn [flat_map] in I. rewrite !app_nil_r in I. unfold holds in H1, H2, H3.
    destruct H1 as (_ & X1 & Y1 & Z1 & _), H2 as (_ & X2 & Y2 & Z2 & _), H3 as (_ & X3 & Y3 & Z3 & _).
    rewrite X1, Y1, Z1, X2, Y2, Z2, X3, Y3, Z3 in I. rewrite !in_app_iff, !in_map_iff in I.
    repeat destruct I as [I|I]; destruct I as (q & <- & _); reflexivity.
  - apply (nle_iff RX_rounded). exact Hat.
Qed.

(** The other order does not do: centring a galaxy that has been aligned undoes the alignment. *)
Lemma c61_order_refuted : exists g g1 g2 : galaxy F64, constructible g /\ star_align g None = Ok g1 /\
  is_star_aligned g1 None default_rtol default_atol = Ok true /\ center g1 = Ok g2 /\ is_star_aligned g2 None default_rtol default_atol = Ok false.
Proof.
  assert (H : match galA with
              | Ok g => match star_align g None with
                        | Ok g1 => match is_star_aligned g1 None default_rtol default_atol, center g1 with
                                   | Ok true, Ok g2 => match is_star_aligned g2 None default_rtol default_atol with Ok false => true | _ => false end
                                   | _, _ => false end
                        | _ => false end
              | _ => false end = true) by (vm_compute; reflexivity).
  destruct galA as [g|] eqn:Eg; [|discriminate]. destruct (star_align g None) as [g1|] eqn:E1; [|discriminate].
  destruct (is_star_aligned g1 None default_rtol default_atol) as [[]|] eqn:E2; try discriminate. destruct (center g1) as [g2|] eqn:E3; [|discriminate].
  destruct (is_star_aligned g2 None default_rtol default_atol) as [[]|] eqn:E4; try discriminate.
  exists g, g1, g2. split; [|auto]. unfold galA in Eg. apply bind_ok in Eg as (s & Es & Eg). apply bind_ok in Eg as (d & Ed & Eg). apply bind_ok in Eg as (q & Eq & Eg).
  exists s, d, q. repeat split; [do 10 eexists; eassumption..|exact Eg].
Qed.

(** Centring and aligning a galaxy in double precision. *)
Example ex_c61 : rmap (fun r => r) (do g <- galA; do g1 <- center g; do g2 <- star_align g1 None;
  do a <- is_centered g2 default_rtol default_atol; do b <- is_star_aligned g2 None default_rtol default_atol;
  Ok (forallb nfin (all_x g ++ all_y g ++ all_z g), forallb nfin (all_x g2 ++ all_y g2 ++ all_z g2), a, b)) = Ok (true, true, true, true).
Proof. vm_compute. reflexivity. Qed.

(** *** C62 *)

(** In exact arithmetic the potential is the same before and after a rigid motion of all
    particles; in particular aligning and computing the potential can be interchanged. *)
Lemma c62_rigid : forall G junk junk' (g g' : galaxy RX) l s A a b c, bare g l -> rotation A -> bare g' (map (rigid A a b c) l) ->
  largest_softening g (XR s) -> largest_softening g' (XR s) -> apart s l ->
  exists h h', exact_potential G junk "fortran" g = Ok h /\ exact_potential G junk' "fortran" g' = Ok h' /\ all_pots h' = all_pots h.
Proof.
  intros G junk junk' g g' l s A a b c Hb HA Hb' So So' Ap.
  assert (Hd : forall p q, sdist s (rigid A a b c p) (rigid A a b c q) = sdist s p q).
  { intros p q. unfold sdist. f_equal. f_equal.
    rewrite <- (rotation_norm A (px p - px q) (py p - py q) (pz p - pz q) HA). unfold rigid, rotate; simpl. ring. }
  destruct (bare_value G junk g l s Hb So Ap) as (h & Hh & E).
  destruct (bare_value G junk' g' _ s Hb' So' (apart_map s l _ Hd Ap)) as (h' & Hh' & E').
  exists h, h'. split; [exact Hh|]. split; [exact Hh'|]. rewrite E, E', map_length.
  rewrite <- (map_id (seq 0 (length l))) at 1. rewrite map2_map. apply map2_ext. intros i p. f_equal. f_equal. f_equal.
  rewrite others_map. rewrite (phi_map s p _ (rigid A a b c) 1); [ring| |]; auto. intros q. unfold rigid; simpl. ring.
Qed.
Lemma pset_same {N : Num} (p q : pset N) : pset_ok p -> pset_ok q -> p_type p = p_type q -> p_m p = p_m q -> p_x p = p_x q -> p_y p = p_y q -> p_z p = p_z q ->
  p_vx p = p_vx q -> p_vy p = p_vy q -> p_vz p = p_vz q -> p_pot p = p_pot q -> p_soft p = p_soft q -> p = q.
Proof.
  intros Hp Hq. apply pset_ok_iff in Hp as (_ & Ep), Hq as (_ & Eq). intros. rewrite Ep, Eq. congruence.
Qed.
Lemma app_split {A} (a b a' b' : list A) : length a = length a' -> a ++ b = a' ++ b' -> a = a' /\ b = b'.
Proof.
  revert a'. induction a as [|x a IH]; intros [|y a']; simpl; try discriminate; [auto|].
  intros [= L] [= -> E]. destruct (IH _ L E) as (-> & ->). auto.
Qed.
(** Computing the potential and aligning can be interchanged: the two orders give the same
    galaxy (exact arithmetic, Fortran backend). *)
Lemma c62_align : forall G junk junk' (g h : galaxy RX) c ls ld lg s, alignable g c ls ld lg -> g_haspot g = false ->
  largest_softening g (XR s) -> apart s (ls ++ ld ++ lg) -> star_align g c = Ok h ->
  exists k k', exact_potential G junk "fortran" g = Ok k /\ exact_potential G junk' "fortran" h = Ok k' /\
    all_pots k' = all_pots k /\ star_align k c = Ok k'.
Proof.
  intros G junk junk' g h c ls ld lg s Ha Hp So Ap E.
  destruct (c14_rotation g c ls ld lg Ha) as (h' & M & E' & HM & H1 & H2 & H3). rewrite E in E'. injection E' as <-.
  pose proof Ha as (Hg & Hc & Hs & Hd & Hq & _). pose proof Hg as Ok1. apply constructible_ok in Ok1.
  pose proof E as E0. rewrite star_align_eq in E by exact Ok1. destruct (cut_ok (N:=RX) c) eqn:Ec; [|discriminate].
  assert (Eh : h = rot_gal (gal_matrix (N:=RX) g c) g) by congruence. clear E. pose proof (rot_gal_ok (gal_matrix (N:=RX) g c) g Ok1) as Ok2. rewrite <- Eh in Ok2.
  assert (RG : forall q, rotate M q = rigid M 0 0 0 q) by (intros q; unfold rigid, rotate; simpl; f_equal; ring).
  assert (Sh : largest_softening h (XR s)).
  { rewrite Eh. unfold largest_softening in *. cbn zeta in *. unfold sets in *. cbn [rot_gal g_stars g_dm g_gas].
    destruct So as [(p & (I & L & Z) & P & Mx)|(Z & _)]; [left|discriminate].
    exists (rot_set (gal_matrix (N:=RX) g c) p). split; [split; [|exact (conj L Z)]|split; [exact P|]].
    - simpl in I |- *. intuition congruence.
    - intros q (I' & L' & Z'). simpl in I'. destruct I' as [<-|[<-|[<-|[]]]]; [apply (Mx (g_stars g))|apply (Mx (g_dm g))|apply (Mx (g_gas g))];
        (split; [simpl; auto|exact (conj L' Z')]). }
  destruct (c62_rigid G junk junk' g h (ls ++ ld ++ lg) s M 0 0 0) as (k & k' & K1 & K2 & K3); auto.
  { split; [exact Hg|]. split; [exact Hp|]. exists ls, ld, lg. auto. }
  { split; [now apply constructible_ok|]. split; [rewrite Eh; exact Hp|]. rewrite !map_app, <- !(map_ext _ _ RG). exists (map (rotate M) ls), (map (rotate M) ld), (map (rotate M) lg). auto. }
  exists k, k'. split; [exact K1|]. split; [exact K2|]. split; [exact K3|].
  destruct (potential_returns RX RX RX_rounded idx idx (XR G) true junk "fortran" g k Hg K1) as (Q1 & _ & Q3 & Q4).
  destruct (potential_returns RX RX RX_rounded idx idx (XR G) true junk' "fortran" h k' (proj2 (constructible_ok h) Ok2) K2) as (R1 & _ & R3 & R4).
  apply constructible_ok in Q1, R1. rewrite star_align_eq, Ec by exact Q1. f_equal.
  pose proof (rot_gal_ok (gal_matrix (N:=RX) k c) k Q1) as Q5.
  assert (Em : gal_matrix (N:=RX) k c = gal_matrix g c).
  { rewrite Forall2_sets in Q4. destruct Q4 as (S1 & _). unfold same_but_potential in S1. unfold gal_matrix.
    destruct S1 as (_ & -> & -> & -> & -> & _ & _ & _ & _ & _ & -> & -> & ->). reflexivity. }
  rewrite Em in *. set (A := gal_matrix (N:=RX) g c) in *.
  apply gal_ok_facts in Q1 as F1, R1 as F2, Q5 as F3.
  destruct F1 as [q1 q2 q3 q4 q5 q6 q7 q8 q9], F2 as [r1 r2 r3 r4 r5 r6 r7 r8 r9], F3 as [s1 s2 s3 s4 s5 s6 s7 s8 s9].
  rewrite Forall2_sets in Q4, R4. destruct Q4 as (A1 & A2 & A3), R4 as (B1 & B2 & B3). rewrite Eh in B1, B2, B3. cbn [rot_gal g_stars g_dm g_gas] in *.
  assert (LP : forall p : pset RX, pset_ok p -> p_haspot p = true -> exists l, p_pot p = Some l /\ length l = plen p).
  { intros p Hk Hh. apply pset_ok_iff in Hk as ((_ & _ & _ & _ & _ & _ & L) & Ek). rewrite Ek in Hh. simpl in Hh. destruct (p_pot p) as [l|]; [|discriminate]. exists l. split; [reflexivity|]. now apply L. }
  rewrite Q3 in *. rewrite R3 in *.
  destruct (LP _ q1 q7) as (a1 & P1 & L1). destruct (LP _ q2 q8) as (a2 & P2 & L2). destruct (LP _ q3 q9) as (a3 & P3 & L3).
  destruct (LP _ r1 r7) as (b1 & P1' & L1'). destruct (LP _ r2 r8) as (b2 & P2' & L2'). destruct (LP _ r3 r9) as (b3 & P3' & L3').
  unfold all_pots, sets in K3. cbn [flat_map] in K3. rewrite P1, P2, P3, P1', P2', P3', !app_nil_r in K3. unfold plen in *. unfold same_but_potential in *.
  apply app_split in K3 as (-> & K3); [|cbn [rot_set pset_of p_m] in *; intuition congruence].
  apply app_split in K3 as (-> & ->); [|cbn [rot_set pset_of p_m] in *; intuition congruence].
  destruct k as [ks kd kg kp], k' as [ks' kd' kg' kp']. cbn [g_stars g_dm g_gas g_haspot] in *. unfold rot_gal. cbn [g_stars g_dm g_gas g_haspot].
  f_equal; [| | |congruence]; apply pset_same; auto; cbn [rot_set pset_of p_type p_m p_x p_y p_z p_vx p_vy p_vz p_pot p_soft] in *; intuition congruence.
Qed.

(** The galaxy of the example of C14. *)
Example ex_c62 : exists h, star_align (galR exA_stars [Part 1 1 2 3 4 5 6]%R []) (Some (XR 5)) = Ok h /\
  exists k k', exact_potential 1 (fun _ _ => XNaN) "fortran" (galR exA_stars [Part 1 1 2 3 4 5 6]%R []) = Ok k /\
    exact_potential 1 (fun _ _ => XNaN) "fortran" h = Ok k' /\ all_pots k' = all_pots k /\ star_align k (Some (XR 5)) = Ok k'.
Proof.
  destruct (c14_rotation _ _ _ _ _ ex_c14) as (h & _ & E & _). exists h. split; [exact E|].
  eapply (c62_align 1 _ _ _ _ _ _ _ _ 0); [exact ex_c14|reflexivity|apply galR_soft; discriminate| |exact E].
  intros i j p q Hij Hp Hq. destruct i as [|[|[|i]]], j as [|[|[|j]]]; simpl in Hp, Hq;
    try congruence; try (destruct i; discriminate); try (destruct j; discriminate);
    injection Hp as <-; injection Hq as <-; apply sdist_pos; simpl; lra.
Qed.
