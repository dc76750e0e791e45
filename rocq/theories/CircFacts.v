(** Facts about the circularity model. *)
From Verif Require Import Py Num RX Np Df Data DataFacts DfFacts RebuildFacts Center CenterFacts Align AlignFacts
  Spec SpecCirc Circ.

(** *** Lists *)
Lemma map2_same {A B C D} (f : B -> C -> D) (g : A -> B) (h : A -> C) l :
  map2 f (map g l) (map h l) = map (fun a => f (g a) (h a)) l.
Proof. induction l; simpl; congruence. Qed.

Lemma scatter_raise {A} (a : list A) idx vs : length vs = length idx -> (exists i, In i idx /\ (length a <= i)%nat) ->
  scatter a idx vs = Raise IndexError.
Proof.
  revert a vs; induction idx as [|i idx IH]; intros a [|v vs] L (k & Hk & Hl); simpl in *; try lia; try tauto.
  destruct (Nat.ltb_spec i (length a)); [|reflexivity].
  apply IH; [lia|]. exists k. rewrite upd_length. destruct Hk; [lia|auto].
Qed.

Lemma scatter_Ok {A} (a : list A) idx vs : (forall i, In i idx -> (i < length a)%nat) -> exists r, scatter a idx vs = Ok r.
Proof.
  revert a vs; induction idx as [|i idx IH]; intros a [|v vs] H; simpl; eauto.
  destruct (Nat.ltb_spec i (length a)) as [L|L]; [|exfalso; specialize (H i); simpl in H; lia].
  apply IH. intros j Hj. rewrite upd_length. apply H. simpl; auto.
Qed.

Lemma scatter_other {A} (a : list A) idx vs r k : scatter a idx vs = Ok r -> ~ In k idx -> nth_error r k = nth_error a k.
Proof.
  revert a vs; induction idx as [|i idx IH]; intros a [|v vs]; simpl; intros H Hk; try (injection H as <-; reflexivity).
  destruct (Nat.ltb_spec i (length a)) as [L|L]; [|discriminate].
  rewrite (IH _ _ H) by tauto. rewrite upd_nth by auto. destruct (Nat.eqb_spec k i); [subst; tauto|reflexivity].
Qed.

Lemma scatter_const {A} (a : list A) idx v r k : scatter a idx (repeat v (length idx)) = Ok r -> In k idx ->
  nth_error r k = Some v.
Proof.
  revert a; induction idx as [|i idx IH]; intros a; simpl; intros H Hk; [tauto|].
  destruct (Nat.ltb_spec i (length a)) as [L|L]; [|discriminate].
  destruct (in_dec Nat.eq_dec k idx) as [I|I]; [eapply IH; eauto|].
  destruct Hk as [->|Hk]; [|tauto]. rewrite (scatter_other _ _ _ _ _ H I), upd_nth by auto.
  now rewrite Nat.eqb_refl.
Qed.

(** Fresh NaN array filled at the places of a mask. *)
Lemma scatter_shift {A} (x : A) a idx vs : 
  scatter (x :: a) (map S idx) vs = rmap (cons x) (scatter a idx vs).
Proof.
  revert a vs; induction idx as [|i idx IH]; intros a [|v vs]; simpl; auto.
  change (S i <? S (length a))%nat with (i <? length a)%nat.
  destruct (i <? length a)%nat; [apply IH|reflexivity].
Qed.
Lemma where_from_S k m : where_from (S k) m = map S (where_from k m).
Proof. revert k; induction m as [|[] m IH]; intros k; simpl; rewrite ?IH; reflexivity. Qed.

Lemma scatter_rows {A B} (b : A -> bool) (f : A -> B) (v : B) rows :
  scatter (repeat v (length rows)) (where_ (map b rows)) (map f (filter b rows)) =
  Ok (map (fun r => if b r then f r else v) rows).
Proof.
  unfold where_. induction rows as [|r rows IH]; simpl; [reflexivity|].
  destruct (b r) eqn:E; simpl; rewrite where_from_S, scatter_shift, IH; reflexivity.
Qed.

(** The true entries of a mask form a prefix. *)
Fixpoint prefix (m : list bool) : bool :=
  match m with [] => true | true :: m' => prefix m' | false :: m' => forallb negb m' end.

Lemma scatter_prefix {A B} (b : A -> bool) (f : A -> B) (v : B) rows :
  scatter (repeat v (length (filter b rows))) (where_ (map b rows)) (map f (filter b rows)) =
  if prefix (map b rows) then Ok (map f (filter b rows)) else Raise IndexError.
Proof.
  unfold where_. induction rows as [|r rows IH]; simpl; [reflexivity|].
  destruct (b r) eqn:E; simpl.
  - rewrite where_from_S, scatter_shift, IH. now destruct (prefix (map b rows)).
  - destruct (forallb negb (map b rows)) eqn:F.
    + assert (filter b rows = []) as ->.
      { clear - F. induction rows as [|x rows IH]; simpl in *; auto. apply andb_prop in F as [F1 F2].
        destruct (b x); [discriminate|auto]. }
      destruct (where_from 1 (map b rows)); reflexivity.
    + apply scatter_raise.
      * rewrite map_length, where_from_length. unfold count. clear.
        induction rows as [|x rows IH]; simpl; auto. destruct (b x); simpl; congruence.
      * assert (X : exists k, In k (where_from 1 (map b rows)) /\ (length (filter b rows) <= k)%nat);
          [|destruct X as (k & K); exists k; now rewrite repeat_length].
        assert (Q : forall l j, filter b l <> [] -> exists k, In k (where_from j (map b l)) /\ (j + length (filter b l) <= S k)%nat).
        { clear. induction l as [|x l IH]; simpl; intros j H; [tauto|]. destruct (b x) eqn:E; simpl.
          - destruct (filter b l) as [|z l'] eqn:Fl; [exists j; simpl; split; [auto|lia]|].
            destruct (IH (S j)) as (k & K1 & K2); [congruence|]. exists k. simpl in *. split; [auto|lia].
          - destruct (IH (S j) H) as (k & K1 & K2). exists k. split; [auto|lia]. }
        destruct (Q rows 1%nat) as (k & K1 & K2).
        -- intros Z. assert (forallb negb (map b rows) = true); [|congruence].
           clear - Z. induction rows as [|x rows IH]; simpl in *; auto. destruct (b x); [discriminate|]. simpl; auto.
        -- exists k. split; [auto|lia].
Qed.

Lemma prefix_filter {A} (b : A -> bool) rows : prefix (map b rows) = true ->
  rows = filter b rows ++ filter (fun x => negb (b x)) rows.
Proof.
  induction rows as [|x rows IH]; simpl; intros H; [reflexivity|].
  destruct (b x) eqn:E; simpl; [f_equal; auto|].
  assert (F : forall l, forallb negb (map b l) = true -> filter b l = [] /\ filter (fun x => negb (b x)) l = l).
  { clear. induction l as [|x l IH]; simpl; intros H; [auto|]. apply andb_prop in H as [H1 H2].
    destruct (b x); [discriminate|]. destruct (IH H2) as [-> ->]. auto. }
  destruct (F rows H) as [-> ->]. reflexivity.
Qed.

(** One removal step on rows: entries whose [bad] value holds become NaN. *)
Lemma nan_rows {A} {N : Num} (bad : A -> bool) (f : A -> N) rows rows' : incl rows' rows ->
  (exists tl, rows = rows' ++ tl /\ forall r, In r tl -> bad r = false) ->
  nan_at (map f rows') (where_ (map bad rows)) = Ok (map (fun r => if bad r then nnan else f r) rows').
Proof.
  intros _ (tl & -> & Hb). unfold nan_at.
  destruct (scatter_Ok (map f rows') (where_ (map bad (rows' ++ tl)))
              (repeat nnan (length (where_ (map bad (rows' ++ tl)))))) as (r & Hr).
  { intros i Hi. apply where_In in Hi. rewrite map_length. rewrite nth_error_map in Hi.
    destruct (Nat.lt_ge_cases i (length rows')); [auto|]. rewrite nth_error_app2 in Hi by auto.
    destruct (nth_error tl _) as [x|] eqn:E; [|discriminate]. apply nth_error_In, Hb in E. simpl in Hi. congruence. }
  rewrite Hr. f_equal. apply nth_error_ext. intros k. rewrite nth_error_map.
  destruct (in_dec Nat.eq_dec k (where_ (map bad (rows' ++ tl)))) as [I|I].
  - rewrite (scatter_const _ _ _ _ _ Hr I). apply where_In in I. rewrite nth_error_map in I.
    assert (L : (k < length rows')%nat).
    { destruct (Nat.lt_ge_cases k (length rows')); [auto|]. rewrite nth_error_app2 in I by auto.
      destruct (nth_error tl _) as [x|] eqn:E; [|discriminate]. apply nth_error_In, Hb in E. simpl in I. congruence. }
    rewrite nth_error_app1 in I by auto. destruct (nth_error rows' k) as [x|]; [|discriminate].
    injection I as I. simpl. now rewrite I.
  - rewrite (scatter_other _ _ _ _ _ Hr I), nth_error_map.
    destruct (nth_error rows' k) as [x|] eqn:E; [|reflexivity]. simpl.
    destruct (bad x) eqn:B; [|reflexivity]. exfalso. apply I. apply where_In. rewrite nth_error_map.
    rewrite nth_error_app1 by (apply nth_error_Some; congruence). rewrite E. simpl. now rewrite B.
Qed.

Lemma filter_map_comm {A B} (f : A -> B) (p : B -> bool) l : filter p (map f l) = map f (filter (fun a => p (f a)) l).
Proof. induction l as [|x l IH]; simpl; [reflexivity|]. destruct (p (f x)); simpl; congruence. Qed.

Section Main.
Context {N : Num}.
Variable argsort : nat -> list N -> list nat.

(** What the computation uses of a particle. *)
Record krow : Type := K { k_e : N; k_p : N; k_z : N }.
Definition krow_of (o : orbit N) : krow := K (o_e o) (o_jp o) (o_jz o).
Definition kb (k : krow) : bool := is_bound (k_e k).

(** Star outputs for given units and curve. *)
Record scales : Type := Sc { s_e : N; s_z : N; s_p : N; s_pts : list (N * N) }.
Definition nE (c : scales) (k : krow) : N := (k_e k / s_e c)%num.
Definition nZ (c : scales) (k : krow) : N := (k_z k / s_z c)%num.
Definition nP (c : scales) (k : krow) : N := (k_p k / s_p c)%num.
Definition jcv (c : scales) (k : krow) : N := interp1 (s_pts c) (nE c k).
Definition raw_eps (c : scales) (k : krow) : N := (nZ c k / jcv c k)%num.
Definition raw_eps_r (c : scales) (k : krow) : N := (nP c k / jcv c k)%num.
Definition out_of_range (v : N) : bool := nlt n1 v || nlt v nm1.
Definition keep (c : scales) (k : krow) : bool := kb k && negb (out_of_range (raw_eps c k)).
Definition kept (c : scales) (f : scales -> krow -> N) (k : krow) : N := if keep c k then f c k else nnan.
Definition result (c : scales) (s : list krow) : jcirc_t N :=
  JC (map (kept c nE) s) (map (kept c nZ) (filter kb s)) (map (kept c raw_eps) s) (map (kept c raw_eps_r) s)
     (map fst (s_pts c)) (map snd (s_pts c)).

(** The units and the curve. *)
Definition scaling (bin0 bin1 : N) (l : list krow) : res scales :=
  let b := filter kb l in
  do emin <- np_min (map k_e b);
  let e := nabs emin in
  do z <- np_max (map (fun k => nabs (k_z k)) b);
  do aux <- bin_edges bin0 bin1;
  do pts <- curve argsort aux (map (fun k => (k_e k / e)%num) b) (map (fun k => (k_z k / z)%num) b);
  do p <- np_max (map (fun k => nabs (k_p k)) b);
  Ok (Sc e z p pts).
Definition run (bin0 bin1 : N) (l s : list krow) : res (jcirc_t N) :=
  do c <- scaling bin0 bin1 l;
  do _ <- guard (match s_pts c with [] => false | _ => true end) ValueError;
  do _ <- guard (prefix (map kb s)) IndexError;
  Ok (result c s).

Lemma nan_out (bad : krow -> bool) (f : krow -> N) s : prefix (map kb s) = true -> (forall k, kb k = false -> bad k = false) ->
  nan_at (map f (filter kb s)) (where_ (map bad s)) = Ok (map (fun k => if bad k then nnan else f k) (filter kb s)).
Proof.
  intros Hp Hb. apply nan_rows.
  - intros k Hk. apply filter_In in Hk. tauto.
  - exists (filter (fun x => negb (kb x)) s). split; [now apply prefix_filter|].
    intros r Hr. apply Hb. apply filter_In in Hr as [_ Hr]. now destruct (kb r).
Qed.
Lemma nan_all (bad : krow -> bool) (f : krow -> N) s :
  nan_at (map f s) (where_ (map bad s)) = Ok (map (fun k => if bad k then nnan else f k) s).
Proof. apply nan_rows; [apply incl_refl|]. exists []. split; [now rewrite app_nil_r|]. intros r []. Qed.

Hypothesis nan_lt : forall v : N, nlt n1 (nnan : N) = false /\ nlt (nnan : N) nm1 = false.

Lemma jcirc_cols_run bin0 bin1 (l s : list krow) (jx jy sjx sjy : list N) :
  map2 (fun a b => nsqrt (a * a + b * b)%num) jx jy = map k_p l ->
  map2 (fun a b => nsqrt (a * a + b * b)%num) sjx sjy = map k_p s ->
  jcirc_cols argsort bin0 bin1 (map k_e l) jx jy (map k_z l) (map k_e s) sjx sjy (map k_z s) =
  run bin0 bin1 l s.
Proof.
  intros Hl Hs. unfold jcirc_cols, run, scaling. rewrite Hl, Hs.
  rewrite ?map_map. change (fun x => is_bound (k_e x)) with kb. rewrite !bmask_map_map.
  destruct (np_min _) as [emin|e]; [|reflexivity]. cbn [bind]. rewrite ?map_map.
  destruct (np_max (map (fun x => nabs (k_z x)) _)) as [z|e]; [|reflexivity]. cbn [bind].
  destruct (bin_edges bin0 bin1) as [aux|e]; [|reflexivity]. cbn [bind]. rewrite ?map_map.
  destruct (curve _ _ _ _) as [pts|e]; [|reflexivity]. cbn [bind]. rewrite ?map_map.
  destruct (np_max (map (fun x => nabs (k_p x)) _)) as [p|e]; [|reflexivity]. cbn [bind s_pts].
  set (c := Sc (nabs emin) z p pts).
  destruct pts as [|p0 pts']; [reflexivity|]. unfold np_interp. cbn [guard bind]. rewrite ?map_map.
  change (fun x => interp1 (p0 :: pts') (k_e x / nabs emin)%num) with (jcv c).
  rewrite !map2_same. rewrite map_length.
  rewrite (scatter_rows kb), map_length. cbn [bind]. rewrite (scatter_prefix kb).
  destruct (prefix (map kb s)) eqn:Hp; [|reflexivity]. cbn [bind guard].
  rewrite !(scatter_rows kb). cbn [bind]. rewrite ?map_map. unfold remove.
  change (fun x => (k_z x / z / jcv c x)%num) with (raw_eps c).
  change (fun x => (k_p x / p / jcv c x)%num) with (raw_eps_r c).
  assert (B1 : forall k, kb k = false -> nlt n1 (if kb k then raw_eps c k else nnan) = false).
  { intros k ->. apply nan_lt. exact n0. }
  rewrite !nan_all, (nan_out _ _ s Hp B1). cbn [bind]. rewrite ?map_map.
  assert (B2 : forall k, kb k = false ->
    nlt (if nlt n1 (if kb k then raw_eps c k else nnan) then nnan else if kb k then raw_eps c k else nnan) nm1 = false).
  { intros k Hk. rewrite (B1 k Hk), Hk. apply nan_lt. exact n0. }
  rewrite !nan_all, (nan_out _ _ s Hp B2). cbn [bind]. unfold result. f_equal.
  assert (X : forall (f : krow -> N) k, (if nlt (if nlt n1 (if kb k then raw_eps c k else nnan) then nnan
       else if kb k then raw_eps c k else nnan) nm1 then nnan
     else if nlt n1 (if kb k then raw_eps c k else nnan) then nnan else if kb k then f k else nnan) =
     if keep c k then f k else nnan).
  { intros f k. unfold keep, out_of_range. destruct (nan_lt n0) as [L1 L2]. destruct (kb k); cbn [andb].
    - destruct (nlt n1 (raw_eps c k)); cbn [orb negb]; [now rewrite L2|].
      now destruct (nlt (raw_eps c k) nm1).
    - now rewrite L1, L2. }
  f_equal.
  - apply map_ext. intros k. apply (X (nE c)).
  - apply map_ext_in. intros k Hk. apply filter_In in Hk as [_ Hk]. unfold kept. rewrite <- (X (nZ c) k), Hk. reflexivity.
  - apply map_ext. intros k. apply (X (raw_eps c)).
  - apply map_ext. intros k. apply (X (raw_eps_r c)).
Qed.

End Main.
Arguments krow : clear implicits.
Arguments scales : clear implicits.

Section Gal.
Context {N : Num} (RN : Rounded N).
Implicit Types (g : galaxy N) (p : pset N).

Lemma nan_lt_ : forall v : N, nlt n1 (nnan : N) = false /\ nlt (nnan : N) nm1 = false.
Proof.
  intros _. split; apply (nlt_false RN); rewrite (val_nnan RN); [destruct (val RN n1)|]; simpl; tauto.
Qed.

Lemma energies_length p : pset_ok p -> length (energies p) = plen p.
Proof.
  intros H. transitivity (length (to_numpy (pcol p "total_energy"))).
  - now rewrite pcol_num_te.
  - unfold to_numpy. rewrite map_length. now apply pcol_length.
Qed.
Lemma J_lengths p : pset_ok p -> length (p_Jx p) = plen p /\ length (p_Jy p) = plen p /\ length (p_Jz p) = plen p.
Proof.
  intros H. rewrite <- (pcol_num_Jx p H), <- (pcol_num_Jy p H), <- (pcol_num_Jz p H). unfold to_numpy.
  rewrite !map_length, !pcol_length by auto. auto.
Qed.
Lemma orbits_cols p : pset_ok p ->
  map o_e (orbits p) = energies p /\ map o_jx (orbits p) = p_Jx p /\
  map o_jy (orbits p) = p_Jy p /\ map o_jz (orbits p) = p_Jz p /\ length (orbits p) = plen p.
Proof.
  intros H. pose proof (energies_length p H) as Le. destruct (J_lengths p H) as (Lx & Ly & Lz).
  unfold orbits. revert Le Lx Ly Lz. generalize (energies p) (p_Jx p) (p_Jy p) (p_Jz p) (plen p).
  induction l as [|a l IH]; intros [|b l0] [|c l1] [|d l2] n; simpl; intros; subst; try discriminate; auto.
  destruct (IH l0 l1 l2 (length l)) as (A & B & C & D & F); auto. rewrite A, B, C, D, F. auto.
Qed.

Lemma jcirc_run argsort g bin0 bin1 : gal_ok g ->
  jcirc argsort g bin0 bin1 = run argsort bin0 bin1 (map krow_of (all_orbits g)) (map krow_of (star_orbits g)).
Proof.
  intros Hg. pose proof Hg as H. apply gal_ok_facts in H as [gf_s0 gf_d0 gf_g0 gf_ts0 gf_td0 gf_tg0 gf_hs0 gf_hd0 gf_hg0].
  unfold jcirc. rewrite to_df_all; [|assumption|intros k Hk; simpl in Hk; repeat (destruct Hk as [<-|Hk]; [simpl; tauto|]); destruct Hk|].
  2:{ intros p _. simpl. reflexivity. }
  cbn [bind]. unfold ncol.
  rewrite !get_col_keyed by (apply dedup_In; simpl; tauto). cbn [bind].
  rewrite ptype_mask_gal by auto.
  destruct (orbits_cols _ gf_s0) as (A1 & A2 & A3 & A4 & A5).
  destruct (orbits_cols _ gf_d0) as (B1 & B2 & B3 & B4 & B5).
  destruct (orbits_cols _ gf_g0) as (C1 & C2 & C3 & C4 & C5).
  unfold gcol. rewrite !to_numpy_app, !pcol_num_te, !pcol_num_Jx, !pcol_num_Jy, !pcol_num_Jz by auto.
  fold (energies (g_stars g)) (energies (g_dm g)) (energies (g_gas g)).
  assert (L : forall p, pset_ok p -> length (energies p) = plen p /\ length (p_Jx p) = plen p /\
     length (p_Jy p) = plen p /\ length (p_Jz p) = plen p).
  { intros p Hp. split; [now apply energies_length|now apply J_lengths]. }
  destruct (L _ gf_s0) as (? & ? & ? & ?). destruct (L _ gf_d0) as (? & ? & ? & ?). destruct (L _ gf_g0) as (? & ? & ? & ?).
  rewrite !split_mask by auto.
  rewrite <- A1, <- A2, <- A3, <- A4, <- B1, <- B2, <- B3, <- B4, <- C1, <- C2, <- C3, <- C4.
  rewrite <- !map_app.
  assert (E : orbits (g_stars g) ++ orbits (g_dm g) ++ orbits (g_gas g) = all_orbits g).
  { unfold all_orbits, sets. simpl. now rewrite app_nil_r. }
  rewrite !E. unfold star_orbits.
  rewrite <- (jcirc_cols_run argsort nan_lt_ bin0 bin1 (map krow_of (all_orbits g)) (map krow_of (orbits (g_stars g)))
     (map o_jx (all_orbits g)) (map o_jy (all_orbits g)) (map o_jx (orbits (g_stars g))) (map o_jy (orbits (g_stars g)))).
  - now rewrite !map_map.
  - rewrite map2_same, map_map. reflexivity.
  - rewrite map2_same, map_map. reflexivity.
Qed.

End Gal.
