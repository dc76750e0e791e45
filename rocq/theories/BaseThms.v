(** Decomposition base class (C35-C39). *)
From Verif Require Import Py Num RX F64 Np Df Data DataFacts DfFacts CenterFacts Ex Spec DataThms SpecCirc Circ CircFacts CircThms SpecBase Base BaseFacts.
From Coq Require Import Floats.SpecFloat DecimalString DecimalNat.

(** *** C37 *)

Lemma circ_col_length {N : Num} (RN : Rounded N) argsort (g : galaxy N) b0 b1 j a : constructible g ->
  jcirc argsort g b0 b1 = Ok j -> a <> "normalized_star_Jz"%string -> length (circ_col j a) = plen (g_stars g).
Proof.
  intros Hg Hj Ha. destruct (c31_lengths N RN argsort g b0 b1 j Hg Hj) as (L1 & L2 & L3 & _).
  unfold circ_col. destruct (a =? "normalized_star_energy")%string; [auto|].
  destruct (String.eqb_spec a "normalized_star_Jz"); [contradiction|]. destruct (a =? "eps")%string; auto.
Qed.

Lemma incl_dec (l : list string) m : {incl l m} + {~ incl l m}.
Proof.
  destruct (Forall_dec (fun k => In k m) (fun k => in_dec string_dec k m) l) as [F|F].
  - left. intros k Hk. rewrite Forall_forall in F. auto.
  - right. intros I. apply F. apply Forall_forall. auto.
Qed.

Section Matrix.
Context {N : Num} (RN : Rounded N) (argsort : nat -> list N -> list nat).

Definition part1 (g : galaxy N) (attributes : list string) : res (list (df N)) :=
  match df_part attributes with
  | [] => Ok []
  | _ => do d <- to_df g (PTList ptypes_order)
             (Some (if smem "ptypev" (df_part attributes) then df_part attributes else df_part attributes ++ ["ptypev"%string]));
         Ok [d]
  end.
Definition part2 cb (g : galaxy N) (attributes : list string) : res (list (df N)) :=
  match circ_part attributes with
  | [] => Ok []
  | _ => do d <- get_jcirc_df argsort cb g (circ_part attributes ++ ["ptypev"%string]); Ok [d]
  end.
Lemma matrix_parts cb g attributes : attributes_matrix argsort cb g attributes =
  do r1 <- part1 g attributes; do r2 <- part2 cb g attributes; do d <- concat_cols (r1 ++ r2);
  let d := drop_duplicated d in
  do cs <- mapM (get_col d) attributes; do y <- get_col d "ptypev"; Ok (rows_of (nrows d) cs, y).
Proof. reflexivity. Qed.

Lemma part1_unknown g attributes : gal_ok g -> ~ incl (df_part attributes) all_attributes -> part1 g attributes = Raise KeyError.
Proof.
  intros Hg Hi. unfold part1. set (l := if smem _ _ then _ else _).
  assert (~ incl l all_attributes) as Hl.
  { unfold l. destruct (smem _ _); [exact Hi|]. intros I. apply Hi. intros k Hk. apply I. apply in_app_iff; auto. }
  destruct (df_part attributes) as [|x l'] eqn:E; [exfalso; apply Hi; intros k []|].
  rewrite order_all by auto. pose proof (to_df_cases g PTNone (Some l) Hg) as (_ & C & _). rewrite C; [reflexivity|discriminate|exact Hl].
Qed.
Lemma part1_known g attributes : gal_ok g -> incl (df_part attributes) all_attributes ->
  exists r, part1 g attributes = Ok r /\ (df_part attributes = [] -> r = []) /\
    (df_part attributes <> [] -> exists d, r = [d] /\ nrows d = glen g /\
       (forall k, In k (df_part attributes) -> In k (dkeys (cols d))) /\ In "ptypev"%string (dkeys (cols d))).
Proof.
  intros Hg Hi. unfold part1. set (l := if smem _ _ then _ else _).
  assert (Pl : In "ptypev"%string l).
  { unfold l. destruct (smem _ _) eqn:E; [now apply smem_In|]. apply in_app_iff. right. now left. }
  assert (Il : incl l all_attributes).
  { unfold l. destruct (smem _ _); [exact Hi|]. apply incl_app; [exact Hi|]. intros k [<-|[]]. simpl. tauto. }
  assert (Dl : forall k, In k (df_part attributes) -> In k l).
  { intros k Hk. unfold l. destruct (smem _ _); [exact Hk|]. apply in_app_iff; auto. }
  pose proof (to_df_part g l Hg Pl Il) as T.
  destruct (df_part attributes) as [|x l'] eqn:E.
  - exists []. split; [reflexivity|]. split; [auto|congruence].
  - rewrite T. cbn [bind]. eexists. split; [reflexivity|]. split; [discriminate|]. intros _. eexists. split; [reflexivity|].
    split; [reflexivity|]. cbn [cols]. rewrite dkeys_keyed. split.
    + intros k Hk. apply dedup_In. split; [now apply Dl|auto].
    + apply dedup_In. auto.
Qed.

Lemma circ_part_circ attributes a : In a (circ_part attributes) -> circ a = true.
Proof. intros H. now apply filter_In in H. Qed.

(** A length that all the circularity columns share. *)
Lemma same_length_dec (j : jcirc_t N) l :
  {n | forall a, In a l -> length (circ_col j a) = n} +
  {ab | In (fst ab) l /\ In (snd ab) l /\ length (circ_col j (fst ab)) <> length (circ_col j (snd ab))}.
Proof.
  destruct l as [|x l]; [left; exists 0%nat; intros a []|].
  destruct (Forall_Exists_dec (fun a => length (circ_col j a) = length (circ_col j x))
    (fun a => Nat.eq_dec (length (circ_col j a)) (length (circ_col j x))) (x :: l)) as [F|F].
  - left. exists (length (circ_col j x)). intros a Ha. rewrite Forall_forall in F. auto.
  - right. assert (E : {a | In a (x :: l) /\ length (circ_col j a) <> length (circ_col j x)}).
    { destruct (find (fun a => negb (length (circ_col j a) =? length (circ_col j x))%nat) (x :: l)) as [a|] eqn:Ef.
      - exists a. apply find_some in Ef as [H1 H2]. apply negb_true_iff, Nat.eqb_neq in H2. auto.
      - exfalso. apply Exists_exists in F as (a & Ha & Na). pose proof (find_none _ _ Ef a Ha) as Q. cbv beta in Q.
        apply negb_false_iff, Nat.eqb_eq in Q. auto. }
    destruct E as (a & Ha & Na). exists (a, x). simpl. auto.
Qed.

Lemma part2_known cb g attributes j n : circ_part attributes <> [] ->
  jcirc argsort g (fst cb) (snd cb) = Ok j -> (forall a, In a (circ_part attributes) -> length (circ_col j a) = n) ->
  exists d, part2 cb g attributes = Ok [d] /\ (forall k, In k (circ_part attributes) -> In k (dkeys (cols d))) /\ In "ptypev"%string (dkeys (cols d)).
Proof.
  intros Hn Hj Hl. unfold part2. rewrite (get_jcirc_df_ok argsort cb g j n); auto; [|apply circ_part_circ].
  destruct (circ_part attributes) as [|x l] eqn:E; [easy|]. rewrite <- E in *. cbn [bind]. eexists. split; [reflexivity|].
  cbn [cols]. rewrite dkeys_keyed. split.
  - intros k Hk. apply dedup_In. split; [apply in_app_iff; auto|auto].
  - apply dedup_In. split; [apply in_app_iff; right; now left|auto].
Qed.

(** The matrix exists as soon as its two parts do. *)
Lemma matrix_exists cb g attributes r1 r2 : attributes <> [] ->
  part1 g attributes = Ok r1 -> part2 cb g attributes = Ok r2 -> r1 ++ r2 <> [] ->
  (forall k, In k attributes \/ k = "ptypev"%string -> In k (flat_map (fun p => dkeys (cols p)) (r1 ++ r2))) ->
  exists X y, attributes_matrix argsort cb g attributes = Ok (X, y).
Proof.
  intros Hne H1 H2 Hr Hk. rewrite matrix_parts, H1. cbn [bind]. rewrite H2. cbn [bind].
  destruct (concat_cols (r1 ++ r2)) as [d|e] eqn:Ec; [|destruct (r1 ++ r2); [easy|discriminate]]. cbn [bind]. cbv zeta.
  assert (G : forall k, In k attributes \/ k = "ptypev"%string -> exists c, get_col (drop_duplicated d) k = Ok c).
  { intros k Hkk. unfold get_col. rewrite drop_duplicated_get.
    destruct (dget_keys (cols d) k) as (c & ->); [rewrite (concat_cols_keys _ _ Ec); auto|eauto]. }
  rewrite (mapM_total _ (fun k => match get_col (drop_duplicated d) k with Ok c => c | Raise _ => [] end)).
  2:{ intros k Hkk. destruct (G k) as (c & ->); auto. }
  cbn [bind]. destruct (G "ptypev"%string) as (c & ->); auto. cbn [bind]. eauto.
Qed.

Lemma matrix_inv cb (g : galaxy N) attributes X y : constructible g -> one_row_each g attributes ->
  attributes_matrix argsort cb g attributes = Ok (X, y) ->
  attributes <> [] /\ incl (df_part attributes) all_attributes /\
  exists j, (circ_part attributes <> [] -> jcirc argsort g (fst cb) (snd cb) = Ok j) /\
    (forall a, In a attributes -> circ a = true -> length (circ_col j a) = plen (g_stars g)) /\
    X = rows_of (glen g) (map (acol g j) attributes) /\ y = gcol g "ptypev".
Proof.
  intros Hc Ho H. pose proof (proj1 (constructible_ok _) Hc) as Hg.
  assert (Hne : attributes <> []) by (intros ->; discriminate).
  destruct (incl_dec (df_part attributes) all_attributes) as [Hi|Hi].
  2:{ rewrite matrix_parts, part1_unknown in H by auto. discriminate. }
  split; [exact Hne|]. split; [exact Hi|].
  assert (Hp2 : forall e, part2 cb g attributes = Raise e -> False).
  { intros e He. rewrite matrix_parts in H. destruct (part1 g attributes); [|discriminate]. cbn [bind] in H. rewrite He in H. discriminate. }
  destruct (jcirc argsort g (fst cb) (snd cb)) as [j|e] eqn:Ej.
  - exists j. split; [auto|].
    assert (L : forall a, In a attributes -> circ a = true -> length (circ_col j a) = plen (g_stars g)).
    { intros a Ha Ca. destruct (string_dec a "normalized_star_Jz") as [->|Na]; [|eapply circ_col_length; eauto].
      destruct (Ho Ha) as [(b & Cb & Nb & Hb)|Hb].
      - destruct (Nat.eq_dec (length (circ_col j "normalized_star_Jz")) (length (circ_col j b))) as [E|E].
        + rewrite E. eapply circ_col_length; eauto.
        + exfalso. apply (Hp2 ValueError). unfold part2.
          apply circ_attr_iff in Cb.
          assert (In "normalized_star_Jz"%string (circ_part attributes)) as I1 by (apply filter_In; auto).
          assert (In b (circ_part attributes)) as I2 by (apply filter_In; auto).
          rewrite (get_jcirc_df_differ argsort cb g j _ "normalized_star_Jz" b Ej (circ_part_circ _) I1 I2 E).
          destruct (circ_part attributes); [destruct I1|reflexivity].
      - destruct (c31_lengths N RN argsort g _ _ j Hc Ej) as (L1 & _ & _ & _ & L5 & _).
        change (circ_col j "normalized_star_Jz") with (jc_Jz j). rewrite <- L1. now apply L5. }
    split; [exact L|]. rewrite (attributes_matrix_ok argsort cb g j) in H by auto. injection H as <- <-. auto.
  - assert (C0 : circ_part attributes = []).
    { destruct (circ_part attributes) as [|x l] eqn:E; [reflexivity|]. exfalso. apply (Hp2 e). unfold part2. rewrite E.
      now rewrite (get_jcirc_df_raise argsort cb g e _ Ej). }
    exists (JC [] [] [] [] [] []).
    assert (L : forall a, In a attributes -> circ a = true -> length (circ_col (JC (N:=N) [] [] [] [] [] []) a) = plen (g_stars g)).
    { intros a Ha Ca. exfalso. assert (In a (circ_part attributes)) as I by (apply filter_In; auto). rewrite C0 in I. destruct I. }
    split; [congruence|]. split; [exact L|].
    rewrite (attributes_matrix_ok argsort cb g (JC [] [] [] [] [] [])) in H; [injection H as <- <-; auto|auto|auto|auto|congruence|exact L].
Qed.

Lemma gcol_located (g : galaxy N) i p k : gal_ok g -> located g i p k ->
  nth_error (gcol g "ptypev") i = Some (CInt (ptype_value (p_type p))).
Proof.
  intros Hg [before q after k' Hs Hk].
  assert (E : gcol g "ptypev" = flat_map (fun p => repeat (CInt (ptype_value (p_type p))) (plen p)) (sets g)).
  { unfold gcol, sets. simpl. rewrite !pcol_ptypev, app_nil_r. reflexivity. }
  rewrite E, Hs.
  replace (list_sum (map plen before)) with (list_sum (map (fun a : pset N => length (repeat (CInt (N:=N) (ptype_value (p_type a))) (plen a))) before)).
  2:{ f_equal. apply map_ext. intros. apply repeat_length. }
  rewrite nth_error_flat_map by now rewrite repeat_length.
  clear - Hk. revert Hk. generalize (plen q). intros n; revert k'; induction n as [|n IH]; intros k' Hk; [lia|]. destruct k'; [reflexivity|].
  simpl. apply IH. lia.
Qed.
End Matrix.

Lemma nth_error_repeat' {A} (x : A) n k : (k < n)%nat -> nth_error (repeat x n) k = Some x.
Proof. revert k; induction n as [|n IH]; intros k Hk; [lia|]. destruct k; [reflexivity|]. simpl. apply IH. lia. Qed.

(** Row [i], column [c] of the matrix is attribute [c] of particle [i]. *)
Lemma c37_matrix : forall (N : Num) (RN : Rounded N) argsort cb (g : galaxy N) attributes X y,
  constructible g -> attributes_matrix argsort cb g attributes = Ok (X, y) -> one_row_each g attributes ->
  length X = glen g /\ length y = glen g /\
  exists j, ((exists a, In a attributes /\ circ_attr a) -> jcirc argsort g (fst cb) (snd cb) = Ok j) /\
  forall i p k, located g i p k ->
    nth_error y i = Some (CInt (ptype_value (p_type p))) /\
    exists row, nth_error X i = Some row /\ length row = length attributes /\
      forall c a, nth_error attributes c = Some a -> exists v, nth_error row c = Some v /\ attribute j p k a v.
Proof.
  intros N RN argsort cb g attributes X y Hc H Ho. pose proof (proj1 (constructible_ok _) Hc) as Hg.
  destruct (matrix_inv RN argsort cb g attributes X y Hc Ho H) as (Hne & Hi & j & Hj & L & -> & ->).
  split; [unfold rows_of; now rewrite map_length, seq_length|]. split; [now apply gcol_length|].
  exists j. split.
  { intros (a & Ha & Ca). apply Hj. apply circ_attr_iff in Ca. intros E.
    assert (In a (circ_part attributes)) as I by (apply filter_In; auto). rewrite E in I. destruct I. }
  intros i p k Hl. split; [now apply gcol_located with (k := k)|].
  destruct Hl as [before q after k Hs Hk].
  assert (Hq : In q (sets g)) by (rewrite Hs; apply in_app_iff; right; now left).
  set (i := (list_sum (map plen before) + k)%nat).
  assert (Hlt : (i < glen g)%nat).
  { rewrite glen_sets, Hs, map_app, list_sum_app. simpl. unfold i. lia. }
  unfold rows_of. rewrite nth_error_map, (nth_error_nth' _ 0%nat) by now rewrite seq_length. rewrite seq_nth by exact Hlt. cbn [option_map].
  eexists. split; [reflexivity|]. rewrite !map_length. split; [reflexivity|].
  intros c a Ha. rewrite map_map, nth_error_map, Ha. cbn [option_map]. eexists. split; [reflexivity|]. rewrite Nat.add_0_l.
  pose proof (nth_error_In _ _ Ha) as Ia.
  assert (La : forall p, In p (sets g) -> length (ablock j a p) = plen p).
  { intros p Hp. apply (ablock_length g); auto. }
  assert (E : nth_error (acol g j a) i = nth_error (ablock j a q) k).
  { rewrite acol_blocks, Hs by auto. unfold i.
    replace (list_sum (map plen before)) with (list_sum (map (fun p => length (ablock j a p)) before)).
    2:{ f_equal. apply map_ext_in. intros p Hp. apply La. rewrite Hs. apply in_app_iff; auto. }
    apply nth_error_flat_map. now rewrite La by auto. }
  destruct (nth_error (ablock j a q) k) as [v|] eqn:Ev.
  2:{ apply nth_error_None in Ev. rewrite La in Ev by auto. lia. }
  rewrite (nth_error_nth _ _ _ E).
  unfold ablock in Ev. destruct (circ a) eqn:Ca.
  - pose proof (proj1 (circ_attr_iff a) Ca) as Ca'.
    destruct (p_type q) eqn:T.
    + left. split; [exact Ca'|]. split; [exact T|]. rewrite nth_error_map in Ev.
      destruct (nth_error (circ_col j a) k) as [w|]; [|discriminate]. exists w. split; [reflexivity|]. now injection Ev as <-.
    + right; left. rewrite nth_error_repeat' in Ev by exact Hk. injection Ev as <-. split; [exact Ca'|]. split; [rewrite T; discriminate|reflexivity].
    + right; left. rewrite nth_error_repeat' in Ev by exact Hk. injection Ev as <-. split; [exact Ca'|]. split; [rewrite T; discriminate|reflexivity].
  - right; right. split; [intros Ca'; apply circ_attr_iff in Ca'; congruence|].
    rewrite <- Ev. symmetry. apply pcol_attr; auto; [now apply (sets_ok g)|].
    apply Hi. apply filter_In. now rewrite Ca.
Qed.

(** Every row is that of a particle. *)
Lemma c37_located : forall (N : Num) (g : galaxy N) i, (i < glen g)%nat -> exists p k, located g i p k.
Proof.
  intros N g i Hi. unfold glen in Hi.
  destruct (lt_dec i (plen (g_stars g))) as [H1|H1].
  { exists (g_stars g), i. apply (located_intro g [] (g_stars g) [g_dm g; g_gas g] i); auto. }
  destruct (lt_dec i (plen (g_stars g) + plen (g_dm g))) as [H2|H2].
  { exists (g_dm g), (i - plen (g_stars g))%nat.
    replace i with (list_sum (map plen [g_stars g]) + (i - plen (g_stars g)))%nat at 1 by (simpl; lia).
    apply (located_intro g [g_stars g] (g_dm g) [g_gas g]); [reflexivity|lia]. }
  exists (g_gas g), (i - plen (g_stars g) - plen (g_dm g))%nat.
  replace i with (list_sum (map plen [g_stars g; g_dm g]) + (i - plen (g_stars g) - plen (g_dm g)))%nat at 1 by (simpl; lia).
  apply (located_intro g [g_stars g; g_dm g] (g_gas g) []); [reflexivity|lia].
Qed.

(** When there is a matrix: an empty list of attributes raises ValueError, an unknown name
    KeyError; otherwise any error of jcirc comes through if a circularity attribute is asked
    for, normalized_star_Jz beside another circularity attribute raises ValueError if a star
    is not bound, and everything else succeeds. *)
Lemma c37_errors : forall (N : Num) (RN : Rounded N) argsort cb (g : galaxy N) attributes, constructible g ->
  (attributes = [] -> attributes_matrix argsort cb g attributes = Raise ValueError) /\
  ((exists a, In a attributes /\ ~ matrix_attr a) -> attributes_matrix argsort cb g attributes = Raise KeyError) /\
  (attributes <> [] -> (forall a, In a attributes -> matrix_attr a) ->
    ((forall a, In a attributes -> ~ circ_attr a) -> exists X y, attributes_matrix argsort cb g attributes = Ok (X, y)) /\
    ((exists a, In a attributes /\ circ_attr a) ->
       (forall e, jcirc argsort g (fst cb) (snd cb) = Raise e -> attributes_matrix argsort cb g attributes = Raise e) /\
       (forall j, jcirc argsort g (fst cb) (snd cb) = Ok j ->
          let clash := In "normalized_star_Jz"%string attributes /\
            (exists a, In a attributes /\ circ_attr a /\ a <> "normalized_star_Jz"%string) /\
            (exists o, In o (star_orbits g) /\ bound o = false) in
          (clash -> attributes_matrix argsort cb g attributes = Raise ValueError) /\
          (~ clash -> exists X y, attributes_matrix argsort cb g attributes = Ok (X, y))))).
Proof.
  intros N RN argsort cb g attributes Hc. pose proof (proj1 (constructible_ok _) Hc) as Hg.
  split; [intros ->; reflexivity|]. split.
  { intros (a & Ha & Na). rewrite matrix_parts, part1_unknown; auto. intros I. apply Na.
    destruct (circ a) eqn:Ca; [left; now apply circ_attr_iff|right]. apply (I a). apply filter_In. now rewrite Ca. }
  intros Hne Hall.
  assert (Hi : incl (df_part attributes) all_attributes).
  { intros a Ha. apply filter_In in Ha as [Ha Ca]. destruct (Hall a Ha) as [C|K]; [|exact K].
    apply circ_attr_iff in C. rewrite C in Ca. discriminate. }
  destruct (part1_known g attributes Hg Hi) as (r1 & E1 & R0 & R1). split.
  - intros Hno.
    assert (C0 : circ_part attributes = []).
    { destruct (circ_part attributes) as [|x l] eqn:E; [reflexivity|]. exfalso.
      assert (In x (circ_part attributes)) as I by (rewrite E; now left). apply filter_In in I as [I1 I2].
      apply (Hno x I1). now apply circ_attr_iff. }
    assert (D0 : df_part attributes <> []).
    { destruct attributes as [|a l]; [easy|]. unfold df_part, circ_part in *. simpl in *. destruct (circ a); discriminate. }
    destruct (R1 D0) as (d & -> & _ & K1 & K2).
    apply (matrix_exists argsort cb g attributes [d] []); auto; [unfold part2; now rewrite C0|discriminate|].
    intros k Hk. simpl. rewrite app_nil_r. destruct Hk as [Hk| ->]; [|exact K2]. apply K1. apply filter_In. split; [exact Hk|].
    destruct (circ k) eqn:Ck; [|reflexivity]. exfalso. apply (Hno k Hk). now apply circ_attr_iff.
  - intros (a0 & Ha0 & Ca0). apply circ_attr_iff in Ca0.
    assert (I0 : In a0 (circ_part attributes)) by (apply filter_In; auto).
    assert (C0 : circ_part attributes <> []) by (intros E; rewrite E in I0; destruct I0). split.
    { intros e He. rewrite matrix_parts, E1. cbn [bind]. unfold part2. rewrite (get_jcirc_df_raise argsort cb g e _ He).
      destruct (circ_part attributes); [easy|reflexivity]. }
    intros j Hj clash. split.
    { intros (H1 & (a & Ha & Ca & Na) & (o & Io & Bo)).
      rewrite matrix_parts, E1. cbn [bind]. unfold part2.
      apply circ_attr_iff in Ca.
      rewrite (get_jcirc_df_differ argsort cb g j _ a "normalized_star_Jz" Hj (circ_part_circ _)).
      - destruct (circ_part attributes); [easy|reflexivity].
      - apply filter_In; auto.
      - apply filter_In; auto.
      - rewrite (circ_col_length RN argsort g _ _ j a Hc Hj Na). change (circ_col j "normalized_star_Jz") with (jc_Jz j).
        destruct (c31_lengths N RN argsort g _ _ j Hc Hj) as (L1 & _ & _ & _ & L5 & _). rewrite <- L1.
        intros E. symmetry in E. rewrite (proj1 L5 E o Io) in Bo. discriminate. }
    intros Hno. destruct (same_length_dec j (circ_part attributes)) as [(n & Hn)|([a b] & Ia & Ib & D)].
    { destruct (part2_known argsort cb g attributes j n C0 Hj Hn) as (d2 & E2 & K1 & K2).
      apply (matrix_exists argsort cb g attributes r1 [d2]); auto; [destruct r1; discriminate|].
      intros k Hk. rewrite flat_map_app, in_app_iff. simpl. rewrite app_nil_r.
      destruct Hk as [Hk| ->]; [|auto]. destruct (circ k) eqn:Ck; [right; apply K1, filter_In; auto|]. left.
      assert (In k (df_part attributes)) as Ik by (apply filter_In; now rewrite Ck).
      destruct R1 as (d & -> & _ & K3 & _); [intros E; rewrite E in Ik; destruct Ik|]. simpl. rewrite app_nil_r. auto. }
    exfalso. simpl in Ia, Ib, D. apply Hno. clear Hno.
    assert (exists o, In o (star_orbits g) /\ bound o = false) as B.
    { destruct (Forall_Exists_dec (fun o => bound o = true) (fun o => Bool.bool_dec (bound o) true) (star_orbits g)) as [F|F].
      - exfalso. apply D. rewrite Forall_forall in F.
        assert (forall a, In a (circ_part attributes) -> length (circ_col j a) = plen (g_stars g)) as G.
        { intros c Hcc. destruct (string_dec c "normalized_star_Jz") as [->|Nc]; [|eapply circ_col_length; eauto].
          destruct (c31_lengths N RN argsort g _ _ j Hc Hj) as (L1 & _ & _ & _ & L5 & _).
          change (circ_col j "normalized_star_Jz") with (jc_Jz j). rewrite <- L1. apply L5. auto. }
        now rewrite !G by auto.
      - apply Exists_exists in F as (o & Ho & Bo). exists o. split; [exact Ho|]. now destruct (bound o). }
    apply filter_In in Ia as [Ia Ca]. apply filter_In in Ib as [Ib Cb].
    destruct (string_dec a "normalized_star_Jz") as [->|Na].
    + split; [exact Ia|]. split; [|exact B]. exists b. split; [exact Ib|]. split; [now apply circ_attr_iff|]. intros ->. now apply D.
    + destruct (string_dec b "normalized_star_Jz") as [->|Nb].
      * split; [exact Ib|]. split; [|exact B]. exists a. split; [exact Ia|]. split; [now apply circ_attr_iff|exact Na].
      * exfalso. apply D. now rewrite !(circ_col_length RN argsort g _ _ j _ Hc Hj) by auto.
Qed.

(** Without [one_row_each] the matrix can be misaligned: with the attribute
    normalized_star_Jz alone and an unbound star there is one row per bound star, so the
    matrix has fewer rows than the galaxy has particles and row 4 describes the first dark
    matter particle where particle 4 is a star. *)
Lemma c37_alignment_refuted : exists (g : galaxy F64) X y,
  constructible g /\ attributes_matrix asort (default_bin0, default_bin1) g ["normalized_star_Jz"%string] = Ok (X, y) /\
  glen g = 8%nat /\ length X = 7%nat /\ located g 4 (g_stars g) 4 /\ p_type (g_stars g) = STARS /\
  nth_error y 4 = Some (CInt (ptype_value DARK_MATTER)).
Proof.
  assert (H : match sampleG with Raise _ => False | Ok g =>
     match attributes_matrix asort (default_bin0, default_bin1) g ["normalized_star_Jz"%string] with
     | Raise _ => False
     | Ok (X, y) => glen g = 8%nat /\ length X = 7%nat /\ plen (g_stars g) = 5%nat /\ p_type (g_stars g) = STARS /\
         option_map cshow (nth_error y 4) = Some (ShI 1)
     end end).
  { vm_compute. auto. }
  destruct sampleG as [g|] eqn:Eg; [|contradiction].
  destruct (attributes_matrix _ _ g _) as [[X y]|] eqn:Em; [|contradiction].
  destruct H as (H1 & H2 & H3 & H4 & H5). exists g, X, y. split; [eapply lineG_ok; exact Eg|]. split; [exact Em|].
  split; [exact H1|]. split; [exact H2|]. split.
  { apply (located_intro g [] (g_stars g) [g_dm g; g_gas g]); [reflexivity|lia]. }
  split; [exact H4|]. destruct (nth_error y 4) as [c|]; [|discriminate]. destruct c; try discriminate. simpl in H5. injection H5 as ->. reflexivity.
Qed.

(** The sample galaxy with a data-frame and a circularity attribute; dark matter and gas get
    NaN circularities. *)
Definition mshow (r : res (matrix F64 * list (cell F64))) := rmap (fun Xy => (map (map cshow) (fst Xy), map cshow (snd Xy))) r.
Example ex_c37 :
  mshow (do g <- sampleG; attributes_matrix asort (default_bin0, default_bin1) g ["eps"; "x"]%string) =
  Ok ([[ShF (sZ 1); ShF (sZ 1)]; [ShF (sZ 1); ShF (sZ 2)]; [ShF (sZ (-1)); ShF (sZ (-2))]; [ShF S754_nan; ShF (sZ (-3))];
       [ShF S754_nan; ShF (sZ 1)]; [ShF S754_nan; ShF (sZ 4)]; [ShF S754_nan; ShF (sZ 1)]; [ShF S754_nan; ShF (sZ 5)]],
      [ShI 0; ShI 0; ShI 0; ShI 0; ShI 0; ShI 1; ShI 1; ShI 2]).
Proof. vm_compute. reflexivity. Qed.
(** Its error cases. *)
Example ex_c37_errors :
  map (fun a => exn_of (do g <- sampleG; attributes_matrix asort (default_bin0, default_bin1) g a))
      [[]; ["eps"; "mass"]; ["eps"; "normalized_star_Jz"]; ["m"; "softening"]; ["softening"]; ["normalized_star_Jz"]]%string =
  [Some ValueError; Some KeyError; Some ValueError; None; None; None].
Proof. vm_compute. reflexivity. Qed.

(** *** C36 *)

Lemma count_selected mask : count mask = selected_rows mask.
Proof. reflexivity. Qed.

(** The k-th label goes to the k-th selected row, every other row is NaN. *)
Lemma c36_labels : forall (N : Num) (X : matrix N) labels mask r,
  complete_labels X labels mask = Ok r -> length labels = selected_rows mask ->
  length r = length X /\ length mask = length X /\
  (forall i, nth_error mask i = Some true ->
     exists z, nth_error labels (rank mask i) = Some z /\ nth_error r i = Some (nofZ z)) /\
  (forall i, nth_error mask i = Some false -> nth_error r i = Some nnan).
Proof.
  intros N X labels mask r H L. unfold complete_labels in H.
  destruct (length mask =? length X)%nat eqn:E; [|discriminate]. cbn [guard bind] in H. apply Nat.eqb_eq in E.
  unfold mask_assign in H. rewrite map_length, L, <- count_selected, Nat.eqb_refl in H. injection H as <-.
  rewrite mask_fill_length, repeat_length. split; [reflexivity|]. split; [exact E|]. split.
  - intros i Hi. destruct (mask_fill_rank mask (repeat (nnan (N:=N)) (length X)) (map nofZ labels) i) as [H1 H2];
      [now rewrite repeat_length|now rewrite map_length|exact Hi|].
    rewrite H1, nth_error_map. rewrite map_length in H2.
    destruct (nth_error labels (rank mask i)) as [z|] eqn:En; [eauto|]. apply nth_error_None in En. lia.
  - intros i Hi. rewrite mask_fill_false by exact Hi. apply nth_error_repeat'.
    rewrite <- E. apply nth_error_Some. congruence.
Qed.
(** Same for the rows of probabilities. *)
Lemma c36_probs : forall (N : Num) (X : matrix N) p mask r,
  complete_probs X (Some p) mask = Ok r -> length (pr_rows p) = selected_rows mask ->
  exists q, r = Some q /\ pr_width q = pr_width p /\ length (pr_rows q) = length X /\
  (forall i, nth_error mask i = Some true -> nth_error (pr_rows q) i = nth_error (pr_rows p) (rank mask i)) /\
  (forall i, nth_error mask i = Some false -> nth_error (pr_rows q) i = Some (repeat nnan (pr_width p))).
Proof.
  intros N X p mask r H L. unfold complete_probs in H.
  destruct (length mask =? length X)%nat eqn:E; [|discriminate]. cbn [guard bind] in H. apply Nat.eqb_eq in E.
  unfold mask_assign in H. rewrite L, <- count_selected, Nat.eqb_refl in H. cbn [bind] in H. injection H as <-.
  eexists. split; [reflexivity|]. cbn [pr_width pr_rows]. rewrite mask_fill_length, repeat_length. split; [reflexivity|]. split; [reflexivity|]. split.
  - intros i Hi. apply mask_fill_rank; [now rewrite repeat_length|exact L|exact Hi].
  - intros i Hi. rewrite mask_fill_false by exact Hi. apply nth_error_repeat'. rewrite <- E. apply nth_error_Some. congruence.
Qed.
(** When completion fails: a mask of the wrong length is an IndexError, a number of labels
    other than that of selected rows a ValueError, except that a single label is given to all
    of them. *)
Lemma c36_errors : forall (N : Num) (X : matrix N) labels mask,
  (length mask <> length X -> complete_labels X labels mask = Raise IndexError) /\
  (length mask = length X -> length labels <> selected_rows mask -> length labels <> 1%nat ->
     complete_labels X labels mask = Raise ValueError) /\
  (length mask = length X -> forall z, labels = [z] -> exists r, complete_labels X labels mask = Ok r /\
     forall i, nth_error mask i = Some true -> nth_error r i = Some (nofZ z)) /\
  (length mask = length X -> length labels = selected_rows mask -> exists r, complete_labels X labels mask = Ok r).
Proof.
  intros N X labels mask. unfold complete_labels. split; [|split; [|split]].
  - intros H. apply Nat.eqb_neq in H. now rewrite H.
  - intros H H1 H2. apply Nat.eqb_eq in H. rewrite H. cbn [guard bind]. unfold mask_assign. rewrite map_length, count_selected.
    apply Nat.eqb_neq in H1. rewrite H1. destruct labels as [|a [|b l]]; simpl in *; [reflexivity|lia|reflexivity].
  - intros H z ->. pose proof H as H'. apply Nat.eqb_eq in H. rewrite H. cbn [guard bind]. unfold mask_assign. simpl map. cbn [length].
    assert (G : forall vs : list N, length vs = count mask -> (forall v, In v vs -> v = nofZ z) ->
      forall i, nth_error mask i = Some true -> nth_error (mask_fill mask (repeat nnan (length X)) vs) i = Some (nofZ z)).
    { intros vs Hv Ha i Hi. destruct (mask_fill_rank mask (repeat (nnan (N:=N)) (length X)) vs i) as [H1 H2]; [now rewrite repeat_length|exact Hv|exact Hi|].
      rewrite H1. destruct (nth_error vs (rank mask i)) as [v|] eqn:E; [|apply nth_error_None in E; lia].
      f_equal. apply Ha. eapply nth_error_In; eauto. }
    destruct (1 =? count mask)%nat eqn:E; eexists; (split; [reflexivity|]).
    + apply Nat.eqb_eq in E. apply G; [exact E|]. intros v [<-|[]]. reflexivity.
    + apply G; [apply repeat_length|]. intros v Hv. now apply repeat_spec in Hv.
  - intros H H1. apply Nat.eqb_eq in H. rewrite H. cbn [guard bind]. unfold mask_assign. rewrite map_length, count_selected, H1, Nat.eqb_refl. eauto.
Qed.

(** A mask, four labels, three of them on selected rows. *)
Example ex_c36 :
  rmap shows (complete_labels (N:=F64) [[]; []; []; []; []] [7; 8; 9]%Z [true; false; true; true; false]) =
  Ok [sZ 7; S754_nan; sZ 8; sZ 9; S754_nan] /\
  rmap (fun p => option_map (fun p => map shows (pr_rows p)) p)
    (complete_probs (N:=F64) [[]; []; []] (Some (Probs 2 [fZs [1; 2]%Z; fZs [3; 4]%Z])) [true; false; true]) =
  Ok (Some [[sZ 1; sZ 2]; [S754_nan; S754_nan]; [sZ 3; sZ 4]]) /\
  exn_of (complete_labels (N:=F64) [[]; []; []] [7; 8]%Z [true; true; true]) = Some ValueError /\
  exn_of (complete_labels (N:=F64) [[]; []; []] [7; 8]%Z [true; true]) = Some IndexError.
Proof. vm_compute. auto. Qed.

(** The mask of the stars mixin on a matrix of the right shape: the star rows whose cells are
    all finite. *)
Lemma c36_mask : forall (N : Num) (X : matrix N) y attributes mask,
  stars_mask X y attributes = Ok mask -> length X = length y ->
  length mask = length X /\
  forall i, nth_error mask i = Some true <->
    exists row c, nth_error X i = Some row /\ nth_error y i = Some c /\ Forall finite_cell row /\
      (c = CInt 0 \/ exists x, c = CNum x /\ neqb x n0 = true).
Proof.
  intros N X y attributes mask H L. unfold stars_mask in H.
  destruct (negb _) eqn:Es; [|discriminate]. cbn [guard bind] in H.
  unfold bop in H. rewrite !map_length, L, Nat.eqb_refl in H. injection H as <-.
  split; [rewrite map2_length, !map_length; lia|]. intros i. rewrite map2_nth, !nth_error_map.
  destruct (nth_error y i) as [c|]; [|split; [discriminate|intros (? & ? & ? & ? & _); discriminate]]. cbn [option_map].
  destruct (nth_error X i) as [row|]; [|split; [discriminate|intros (? & ? & ? & _); discriminate]]. cbn [option_map].
  assert (F : forallb cell_finite row = true <-> Forall finite_cell row).
  { rewrite forallb_forall, Forall_forall. split; intros H x Hx; specialize (H x Hx); destruct x; simpl in *; auto; discriminate. }
  assert (C : cell_is (ptype_value STARS) c = true <-> c = CInt 0 \/ exists x, c = CNum x /\ neqb x n0 = true).
  { destruct c as [x|z|s]; simpl.
    - split; [intros H; right; eauto|]. intros [E|(x' & [= <-] & E)]; [discriminate|exact E].
    - destruct z; simpl; split; try (intros [[=]|(? & [=] & _)]); try discriminate; auto.
    - split; [discriminate|intros [[=]|(? & [=] & _)]]. }
  split.
  - intros [= H]. apply andb_prop in H as [H1 H2]. exists row, c. rewrite <- F, <- C. auto.
  - intros (r & c' & [= <-] & [= <-] & H1 & H2). f_equal. apply andb_true_intro. split; [apply C; exact H2|apply F; exact H1].
Qed.

(** *** C35 and the rest of C36 *)

Lemma bmask_select {A} mask (l : list A) : bmask mask l = select mask l.
Proof.
  unfold select. revert l. induction mask as [|b mask IH]; intros [|x l]; try reflexivity. simpl. destruct b; simpl; [f_equal|]; apply IH.
Qed.
Lemma select_length {A} mask (l : list A) : length mask = length l -> length (select mask l) = selected_rows mask.
Proof. intros H. rewrite <- bmask_select. now apply bmask_length. Qed.

Lemma mapM_app {A B} (f : A -> res B) l l' r r' : mapM f l = Ok r -> mapM f l' = Ok r' -> mapM f (l ++ l') = Ok (r ++ r').
Proof.
  revert r. induction l as [|a l IH]; simpl; intros r H H'; [injection H as <-; exact H'|].
  destruct (f a) as [b|]; [|discriminate]. cbn [bind] in *. destruct (mapM f l) as [s|]; [|discriminate]. cbn [bind] in H. injection H as <-.
  rewrite (IH s) by auto. reflexivity.
Qed.
Lemma final_types {N : Num} (g : galaxy N) :
  mapM (fun yi : cell N => do p <- mktype (py_of_cell yi); Ok (humanize p)) (gcol g "ptypev") = Ok (type_names g).
Proof.
  assert (B : forall p : pset N, mapM (fun yi : cell N => do p <- mktype (py_of_cell yi); Ok (humanize p)) (pcol p "ptypev") =
    Ok (repeat (humanize (p_type p)) (plen p))).
  { intros p. rewrite pcol_ptypev. assert (E : mktype (py_of_cell (CInt (N:=N) (ptype_value (p_type p)))) = Ok (p_type p)).
    { destruct (p_type p); reflexivity. }
    generalize (plen p) as n. induction n as [|n IH]; [reflexivity|]. cbn [repeat mapM]. rewrite E. cbn [bind]. rewrite IH. reflexivity. }
  unfold gcol, type_names, sets. simpl. rewrite app_nil_r. repeat apply mapM_app; apply B.
Qed.

Lemma decompose_inv {N : Num} argsort {St} (D : decomposer N St) st g c st' : decompose argsort D st g = Ok (c, st') ->
  exists X y mask labels pr, attributes_matrix argsort (d_cbins D) g (d_attributes D) = Ok (X, y) /\
    d_mask D X y (d_attributes D) = Ok mask /\ length mask = length X /\ length mask = length y /\
    d_split D st (select mask X) (select mask y) (d_attributes D) = Ok (labels, pr, st') /\
    complete_labels X labels mask = Ok (c_labels c) /\ complete_probs X pr mask = Ok (c_probs c) /\
    mapM (fun yi : cell N => do p <- mktype (py_of_cell yi); Ok (humanize p)) y = Ok (c_ptypes c).
Proof.
  unfold decompose. intros H. destruct (attributes_matrix _ _ _ _) as [[X y]|] eqn:E1; [|discriminate]. cbn [bind] in H.
  destruct (d_mask D X y _) as [mask|] eqn:E2; [|discriminate]. cbn [bind] in H.
  unfold select_rows in H. destruct (length mask =? length X)%nat eqn:E3; [|discriminate]. cbn [guard bind] in H.
  destruct (length mask =? length y)%nat eqn:E4; [|discriminate]. cbn [guard bind] in H. rewrite !bmask_select in H.
  destruct (d_split D st _ _ _) as [[[labels pr] st1]|] eqn:E5; [|discriminate]. cbn [bind] in H.
  destruct (complete_labels X labels mask) as [fl|] eqn:E6; [|discriminate]. cbn [bind] in H.
  destruct (complete_probs X pr mask) as [fp|] eqn:E7; [|discriminate]. cbn [bind] in H.
  destruct (mapM _ y) as [fy|] eqn:E8; [|discriminate]. cbn [bind] in H.
  unfold mk_components in H. cbn [unpack bind] in H.
  exists X, y, mask, labels, pr. apply Nat.eqb_eq in E3, E4.
  assert (c = Comp fl fy fp /\ st' = st1) as [-> ->].
  { destruct fp as [p|]; cbn [unpack bind] in H; destruct (_ && _)%bool; try discriminate; cbn [guard bind] in H; injection H as <- <-; auto. }
  auto 10.
Qed.

(** The result has one label, one type and (if there are probabilities) one row of
    probabilities per particle, the types being those of the particles in order. *)
Lemma c35_aligned : forall (N : Num) (RN : Rounded N) argsort St (D : decomposer N St) st (g : galaxy N) c st',
  constructible g -> one_row_each g (d_attributes D) -> decompose argsort D st g = Ok (c, st') ->
  length (c_labels c) = glen g /\ c_ptypes c = type_names g /\ length (c_ptypes c) = glen g /\
  (forall p, c_probs c = Some p -> length (pr_rows p) = glen g).
Proof.
  intros N RN argsort St D st g c st' Hc Ho H. pose proof (proj1 (constructible_ok _) Hc) as Hg.
  destruct (decompose_inv _ _ _ _ _ _ H) as (X & y & mask & labels & pr & H1 & H2 & H3 & H4 & H5 & H6 & H7 & H8).
  destruct (matrix_inv RN argsort _ g _ X y Hc Ho H1) as (_ & _ & j & _ & _ & EX & Ey).
  assert (LX : length X = glen g) by (rewrite EX; unfold rows_of; now rewrite map_length, seq_length).
  subst y. rewrite final_types in H8. injection H8 as H8.
  split; [|split; [auto|split]].
  - unfold complete_labels in H6. destruct (_ =? _)%nat; [|discriminate]. cbn [guard bind] in H6. unfold mask_assign in H6.
    destruct (_ =? _)%nat in H6; [injection H6 as <-; rewrite mask_fill_length; now rewrite repeat_length|].
    destruct (map nofZ labels) as [|v [|? ?]]; try discriminate. injection H6 as <-. rewrite mask_fill_length. now rewrite repeat_length.
  - rewrite <- H8. unfold type_names, glen, sets. simpl. rewrite !app_length, !repeat_length. simpl. lia.
  - intros p Hp. rewrite Hp in H7. unfold complete_probs in H7. destruct pr as [pr|]; [|discriminate].
    destruct (_ =? _)%nat; [|discriminate]. cbn [guard bind] in H7. unfold mask_assign in H7.
    destruct (_ =? _)%nat in H7; [cbn [bind] in H7; injection H7 as <-; cbn [pr_rows]; rewrite mask_fill_length; now rewrite repeat_length|].
    destruct (pr_rows pr) as [|v [|? ?]]; try discriminate. cbn [bind] in H7. injection H7 as <-. cbn [pr_rows]. rewrite mask_fill_length. now rewrite repeat_length.
Qed.

(** It succeeds whenever the mask has one entry per row and the class returns one label (and
    row of probabilities) per selected row. *)
Lemma c35_succeeds : forall (N : Num) (RN : Rounded N) argsort St (D : decomposer N St) st (g : galaxy N) X y mask labels pr st',
  constructible g -> one_row_each g (d_attributes D) ->
  attributes_matrix argsort (d_cbins D) g (d_attributes D) = Ok (X, y) ->
  d_mask D X y (d_attributes D) = Ok mask -> length mask = length X ->
  d_split D st (select mask X) (select mask y) (d_attributes D) = Ok (labels, pr, st') ->
  length labels = selected_rows mask -> (forall p, pr = Some p -> length (pr_rows p) = selected_rows mask) ->
  exists c, decompose argsort D st g = Ok (c, st').
Proof.
  intros N RN argsort St D st g X y mask labels pr st' Hc Ho H1 H2 H3 H4 H5 H6.
  pose proof (proj1 (constructible_ok _) Hc) as Hg.
  destruct (matrix_inv RN argsort _ g _ X y Hc Ho H1) as (_ & _ & j & _ & _ & EX & Ey).
  assert (LX : length X = glen g) by (rewrite EX; unfold rows_of; now rewrite map_length, seq_length).
  assert (Ly : length y = glen g) by (rewrite Ey; now apply gcol_length).
  unfold decompose. rewrite H1. cbn [bind]. rewrite H2. cbn [bind]. unfold select_rows.
  assert (length mask =? length X = true)%nat as -> by now apply Nat.eqb_eq.
  assert (length mask =? length y = true)%nat as -> by (apply Nat.eqb_eq; congruence).
  cbn [guard bind]. rewrite !bmask_select, H4. cbn [bind].
  destruct (c36_errors N X labels mask) as (_ & _ & _ & C). destruct (C H3 H5) as (fl & Efl). rewrite Efl. cbn [bind].
  destruct (c36_labels N X labels mask fl Efl H5) as (Ll & _).
  assert (exists fp, complete_probs X pr mask = Ok fp /\ forall q, fp = Some q -> length (pr_rows q) = length X) as (fp & Efp & Lp).
  { destruct pr as [p|]; [|exists None; split; [reflexivity|discriminate]]. unfold complete_probs.
    assert (length mask =? length X = true)%nat as -> by now apply Nat.eqb_eq. cbn [guard bind]. unfold mask_assign.
    rewrite (H6 p eq_refl). change (selected_rows mask) with (count mask). rewrite Nat.eqb_refl. cbn [bind]. eexists. split; [reflexivity|]. intros q [= <-].
    cbn [pr_rows]. now rewrite mask_fill_length, repeat_length. }
  rewrite Efp. cbn [bind]. subst y. rewrite final_types. cbn [bind]. unfold mk_components. cbn [unpack bind].
  assert (Lt : length (type_names g) = glen g).
  { unfold type_names, glen, sets. simpl. rewrite !app_length, !repeat_length. simpl. lia. }
  destruct fp as [q|]; cbn [unpack bind].
  - rewrite (Lp q eq_refl), Ll, Lt, LX, Nat.eqb_refl. cbn. eauto.
  - rewrite Ll, Lt, LX, Nat.eqb_refl. cbn. eauto.
Qed.

(** End to end, for a class that uses the stars mixin and returns one label per row it is
    given: particle [i] gets a label exactly if it is a star with finite attributes, and then
    the one the class gave to its row; dark matter, gas and the other stars get NaN. *)
Lemma c36_decompose : forall (N : Num) (RN : Rounded N) argsort St (D : decomposer N St) st (g : galaxy N) c st',
  constructible g -> one_row_each g (d_attributes D) -> d_mask D = stars_mask ->
  (forall st X y a l p s, d_split D st X y a = Ok (l, p, s) -> length l = length X) ->
  decompose argsort D st g = Ok (c, st') ->
  exists j Xs ys labels pr sel,
    ((exists a, In a (d_attributes D) /\ circ_attr a) -> jcirc argsort g (fst (d_cbins D)) (snd (d_cbins D)) = Ok j) /\
    d_split D st Xs ys (d_attributes D) = Ok (labels, pr, st') /\ length sel = glen g /\
    forall i p k, located g i p k ->
      let usable := p_type p = STARS /\ forall a, In a (d_attributes D) -> exists v, attribute j p k a v /\ finite_cell v in
      exists w, nth_error (c_labels c) i = Some w /\
        (usable -> nth_error sel i = Some true /\ nisnan w = false /\
           exists z row, nth_error labels (rank sel i) = Some z /\ w = nofZ z /\
             nth_error Xs (rank sel i) = Some row /\
             forall n a, nth_error (d_attributes D) n = Some a -> exists v, nth_error row n = Some v /\ attribute j p k a v) /\
        (~ usable -> nth_error sel i = Some false /\ w = nnan).
Proof.
  intros N RN argsort St D st g c st' Hc Ho Hm Hs H.
  destruct (decompose_inv _ _ _ _ _ _ H) as (X & y & mask & labels & pr & H1 & H2 & H3 & H4 & H5 & H6 & H7 & H8).
  destruct (c37_matrix N RN argsort _ g _ X y Hc H1 Ho) as (LX & Ly & j & Hj & Hrow).
  exists j, (select mask X), (select mask y), labels, pr, mask. split; [exact Hj|]. split; [exact H5|]. split; [congruence|].
  rewrite Hm in H2. destruct (c36_mask N X y _ mask H2) as (_ & Hmask); [congruence|].
  pose proof (Hs _ _ _ _ _ _ _ H5) as Hlen. rewrite select_length in Hlen by exact H3.
  destruct (c36_labels N X labels mask _ H6 Hlen) as (_ & _ & HT & HF).
  intros i p k Hl usable. destruct (Hrow i p k Hl) as (Hy & row & Er & Lr & Hcell).
  assert (AU : forall a v v', attribute j p k a v -> attribute j p k a v' -> v = v').
  { intros a v v' A B. destruct A as [(A1 & A2 & w & A3 & A4)|[(A1 & A2 & A3)|(A1 & A2)]],
      B as [(B1 & B2 & w' & B3 & B4)|[(B1 & B2 & B3)|(B1 & B2)]]; try contradiction; try congruence. }
  assert (U : nth_error mask i = Some true <-> usable).
  { rewrite Hmask. split.
    - intros (r & cc & E1 & E2 & F & T). assert (r = row) as -> by congruence. assert (cc = CInt (ptype_value (p_type p))) as -> by congruence.
      split.
      + destruct T as [T|(x & T & _)]; [|discriminate]. destruct (p_type p); [reflexivity|discriminate|discriminate].
      + intros a Ha. apply In_nth_error in Ha as (n & Hn). destruct (Hcell n a Hn) as (v & Ev & Av). exists v. split; [exact Av|].
        rewrite Forall_forall in F. apply F. eapply nth_error_In; eauto.
    - intros (T & F). exists row, (CInt 0). split; [exact Er|]. split; [rewrite Hy, T; reflexivity|]. split; [|auto].
      apply Forall_forall. intros v Hv. apply In_nth_error in Hv as (n & Hn).
      destruct (nth_error (d_attributes D) n) as [a|] eqn:Ea.
      + destruct (Hcell n a Ea) as (v' & Ev & Av). destruct (F a (nth_error_In _ _ Ea)) as (v2 & A2 & F2).
        assert (v = v2) as ->; [|exact F2]. apply (AU a); [|exact A2]. congruence.
      + apply nth_error_None in Ea. assert (n < length row)%nat by (apply nth_error_Some; congruence). lia. }
  assert (Hi : exists b, nth_error mask i = Some b).
  { destruct (nth_error mask i) as [b|] eqn:E; [eauto|]. apply nth_error_None in E.
    assert (i < length X)%nat by (apply nth_error_Some; congruence). lia. }
  destruct Hi as ([|] & Eb).
  - destruct (HT i Eb) as (z & Ez & Ew). exists (nofZ z). split; [exact Ew|]. split.
    + intros _. split; [exact Eb|]. split.
      * destruct (nisnan (nofZ z : N)) eqn:En; [|reflexivity]. exfalso. apply (nisnan_iff RN) in En.
        rewrite (val_ofZ RN) in En. apply (rnd_not_nan RN) in En. discriminate.
      * exists z, row. split; [exact Ez|]. split; [reflexivity|]. split.
        { rewrite <- bmask_select, bmask_rank by exact Eb. exact Er. }
        intros n a Hn. destruct (Hcell n a Hn) as (v & Ev & Av). eauto.
    + intros Nu. exfalso. apply Nu, U, Eb.
  - exists nnan. split; [now apply HF|]. split.
    + intros Hu. apply U in Hu. congruence.
    + intros _. split; [exact Eb|reflexivity].
Qed.

Definition cshowc (c : components F64) := (shows (c_labels c), c_ptypes c, option_map (fun p => map shows (pr_rows p)) (c_probs c)).
(** A class with the stars mixin that numbers the rows it gets and counts its calls; star 3
    has no finite circularity and star 4 is unbound. *)
Definition numbering : decomposer F64 nat :=
  Decomposer nat (default_bin0, default_bin1) ["eps"; "normalized_star_energy"]%string stars_mask
    (fun st X _ _ => Ok (map Z.of_nat (seq 10 (length X)), Some (Probs 1 (map (fun _ => [fZ 1]) X)), S st)).
Example ex_c35 :
  rmap (fun r => (cshowc (fst r), snd r)) (do g <- sampleG; decompose asort numbering 0%nat g) =
  Ok (([sZ 10; sZ 11; sZ 12; S754_nan; S754_nan; S754_nan; S754_nan; S754_nan],
       ["stars"; "stars"; "stars"; "stars"; "stars"; "dark_matter"; "dark_matter"; "gas"]%string,
       Some [[sZ 1]; [sZ 1]; [sZ 1]; [S754_nan]; [S754_nan]; [S754_nan]; [S754_nan]; [S754_nan]]), 1%nat).
Proof. vm_compute. reflexivity. Qed.
(** It satisfies the hypotheses of the theorems. *)
Example ex_c36_decompose : exists (g : galaxy F64) c st', constructible g /\ one_row_each g (d_attributes numbering) /\
  d_mask numbering = stars_mask /\
  (forall st X y a l p s, d_split numbering st X y a = Ok (l, p, s) -> length l = length X) /\
  decompose asort numbering 0%nat g = Ok (c, st').
Proof.
  assert (H : is_ok (do g <- sampleG; decompose asort numbering 0%nat g) = true) by (vm_compute; reflexivity).
  destruct sampleG as [g|] eqn:Eg; [|discriminate]. cbn [bind] in H.
  destruct (decompose asort numbering 0%nat g) as [[c st']|] eqn:Ed; [|discriminate]. exists g, c, st'.
  split; [eapply lineG_ok; exact Eg|]. split; [intros [H0|[H0|[]]]; discriminate H0|]. split; [reflexivity|].
  split; [|exact Ed]. intros st X y a l p s E. unfold numbering in E. cbn [d_split] in E. injection E as <- _ _. rewrite map_length. apply seq_length.
Qed.

(** *** C38 *)

(** The three arguments must be arrays (TypeError) of one common length (ValueError). *)
Lemma c38_construct : forall (N : Num) (labels : arg (list N)) (ptypes : arg (list string)) (pr : option (arg (probs N))),
  ((labels = AOther \/ ptypes = AOther \/ pr = Some AOther) -> mk_components labels ptypes pr = Raise TypeError) /\
  (forall l t, labels = ANd l -> ptypes = ANd t -> pr <> Some AOther ->
     let fits := length l = length t /\ forall p, pr = Some (ANd p) -> length (pr_rows p) = length l in
     (~ fits -> mk_components labels ptypes pr = Raise ValueError) /\
     (fits -> exists c, mk_components labels ptypes pr = Ok c /\ c_labels c = l /\ c_ptypes c = t /\ c_len c = length l /\
        (pr = None -> c_probs c = None) /\ forall p, pr = Some (ANd p) -> c_probs c = Some p)).
Proof.
  intros N labels ptypes pr. split.
  - intros H. unfold mk_components. destruct labels as [l|]; [|reflexivity]. cbn [unpack bind].
    destruct ptypes as [t|]; [|reflexivity]. cbn [unpack bind].
    destruct pr as [[p|]|]; try reflexivity; destruct H as [H|[H|H]]; discriminate.
  - intros l t -> -> Hp fits. unfold mk_components. cbn [unpack bind]. split.
    + intros Hn. destruct pr as [[p|]|]; [|contradiction|]; cbn [unpack bind]; unfold guard.
      * destruct ((length l =? length t) && (length (pr_rows p) =? length l))%nat eqn:E; [|reflexivity]. exfalso. apply Hn.
        apply andb_prop in E as [E1 E2]. apply Nat.eqb_eq in E1, E2. split; [exact E1|]. intros q [= <-]. exact E2.
      * destruct ((length l =? length t) && true)%nat eqn:E; [|reflexivity]. exfalso. apply Hn.
        apply andb_prop in E as [E1 _]. apply Nat.eqb_eq in E1. split; [exact E1|discriminate].
    + intros (H1 & H2). destruct pr as [[p|]|]; [|contradiction|]; cbn [unpack bind].
      * rewrite H1, (H2 p eq_refl), H1, Nat.eqb_refl. cbn. eexists. split; [reflexivity|]. cbn. repeat split; auto; [discriminate|]. now intros q [= <-].
      * rewrite H1, Nat.eqb_refl. cbn. eexists. split; [reflexivity|]. cbn. repeat split; auto. discriminate.
Qed.

(** Column names of the probabilities. *)
Definition decimal (n : nat) : string := NilEmpty.string_of_uint (Nat.to_uint n).
Lemma decimal_inj a b : decimal a = decimal b -> a = b.
Proof.
  unfold decimal. intros H. apply (f_equal NilEmpty.uint_of_string) in H. rewrite !NilEmpty.usu in H. injection H as H.
  now apply Unsigned.to_uint_inj.
Qed.

Lemma NoDup_map_inj {A B} (f : A -> B) l : (forall a b, f a = f b -> a = b) -> NoDup l -> NoDup (map f l).
Proof.
  intros Hf H. induction H as [|a l Ha Hl IH]; simpl; constructor; [|exact IH]. rewrite in_map_iff. intros (b & E & Hb).
  apply Hf in E. now subst.
Qed.
Lemma append_inj p a b : (p ++ a)%string = (p ++ b)%string -> a = b.
Proof. induction p as [|c p IH]; simpl; [auto|]. intros [= H]. auto. Qed.

Lemma comp_columns_ok {N : Num} (c : components N) attrs s :
  (forall a, In a attrs -> In a ["labels"; "ptypes"; "probabilities"]%string) ->
  let f := fun k => if (k =? "labels")%string then Arr (map CNum (c_labels c)) else Arr (map (@CStr N) (c_ptypes c)) in
  comp_columns c (keyed f s) attrs = Ok (keyed f (s ++ dedup s (filter (fun a => negb (a =? "probabilities")%string) attrs))).
Proof.
  intros H f. revert s. induction attrs as [|a attrs IH]; intros s; [simpl; now rewrite app_nil_r|].
  assert (H' : forall a, In a attrs -> In a ["labels"; "ptypes"; "probabilities"]%string) by (intros; apply H; now right).
  assert (Dd : forall s s' l', (forall k : string, In k s <-> In k s') -> dedup s l' = dedup s' l').
  { clear. intros s s' l'; revert s s'; induction l' as [|b l' IH]; intros s s' H; simpl; [reflexivity|].
    assert (smem b s = smem b s') as ->.
    { destruct (smem b s) eqn:A, (smem b s') eqn:B; auto.
      - apply smem_In in A. apply smem_false in B. firstorder.
      - apply smem_In in B. apply smem_false in A. firstorder. }
    destruct (smem b s'); [auto|]. f_equal. apply IH. intros k; simpl. rewrite H; tauto. }
  assert (S1 : forall a, negb (a =? "probabilities")%string = true -> (exists v, f a = v) ->
     comp_columns c (dset (keyed f s) a (f a)) attrs = Ok (keyed f (s ++ dedup s (a :: filter (fun a => negb (a =? "probabilities")%string) attrs)))).
  { intros b Hb _. rewrite dset_keyed. simpl. destruct (smem b s) eqn:E; rewrite IH by exact H'; [reflexivity|].
    rewrite <- app_assoc. simpl. do 4 f_equal. apply Dd. intros k. rewrite in_app_iff. simpl. tauto. }
  destruct (H a (or_introl eq_refl)) as [<-|[<-|[<-|[]]]]; cbn [comp_columns String.eqb Ascii.eqb Bool.eqb filter negb].
  - apply S1; [reflexivity|eauto].
  - apply S1; [reflexivity|eauto].
  - apply IH, H'.
Qed.
Lemma comp_columns_unknown {N : Num} (c : components N) attrs acc :
  (exists a, In a attrs /\ ~ In a ["labels"; "ptypes"; "probabilities"]%string) -> comp_columns c acc attrs = Raise KeyError.
Proof.
  intros (a & Ha & Na). revert acc. induction attrs as [|b attrs IH]; intros acc; [destruct Ha|]. simpl.
  destruct Ha as [->|Ha].
  - simpl in Na. destruct (String.eqb_spec a "probabilities") as [->|]; [tauto|].
    destruct (String.eqb_spec a "labels") as [->|]; [tauto|]. destruct (String.eqb_spec a "ptypes") as [->|]; [tauto|reflexivity].
  - destruct (b =? "probabilities")%string; [auto|]. destruct (b =? "labels")%string; [auto|]. destruct (b =? "ptypes")%string; auto.
Qed.

(** The data frame of a result: labels, types and one column per component, in order. *)
Lemma c38_frame : forall (N : Num) l t pr (c : components N),
  mk_components (ANd l) (ANd t) (option_map ANd pr) = Ok c ->
  (forall p, pr = Some p -> Forall (fun r => length r = pr_width p) (pr_rows p)) ->
  let w := match pr with Some p => pr_width p | None => 0%nat end in
  exists d, comp_to_df c None = Ok d /\ nrows d = length l /\ wf_df d /\
    dkeys (cols d) = ["labels"; "ptypes"]%string ++ map (fun k => "probs_" ++ decimal k)%string (seq 0 w) /\ NoDup (dkeys (cols d)) /\
    (forall i, (i < length l)%nat ->
       cell_at d "labels" i = option_map CNum (nth_error l i) /\ cell_at d "ptypes" i = option_map CStr (nth_error t i)) /\
    (forall p r k x i, pr = Some p -> nth_error (pr_rows p) i = Some r -> nth_error r k = Some x ->
       cell_at d ("probs_" ++ decimal k)%string i = Some (CNum x)).
Proof.
  intros N l t pr c H Hw w.
  assert (E : c = Comp l t pr /\ length l = length t /\ forall p, pr = Some p -> length (pr_rows p) = length l).
  { destruct (c38_construct N (ANd l) (ANd t) (option_map ANd pr)) as (_ & C). destruct (C l t eq_refl eq_refl) as (C1 & C2); [destruct pr; discriminate|].
    unfold mk_components in H. cbn [unpack bind] in H. destruct pr as [p|]; cbn [option_map unpack bind] in H.
    - destruct (_ && _)%bool eqn:E; [|discriminate]. cbn [guard bind] in H. injection H as <-. apply andb_prop in E as [E1 E2].
      apply Nat.eqb_eq in E1, E2. split; [reflexivity|]. split; [exact E1|]. now intros q [= <-].
    - destruct (_ && _)%bool eqn:E; [|discriminate]. cbn [guard bind] in H. injection H as <-. apply andb_prop in E as [E1 _].
      apply Nat.eqb_eq in E1. split; [reflexivity|]. split; [exact E1|discriminate]. }
  destruct E as (-> & L1 & L2). clear H.
  set (base := [("labels"%string, map (@CNum N) l); ("ptypes"%string, map (@CStr N) t)]).
  set (pcols := match pr with Some p => map (fun k => (("probs_" ++ decimal k)%string, map (fun r => CNum (nth k r nnan)) (pr_rows p))) (seq 0 (pr_width p)) | None => [] end).
  assert (E : comp_to_df (Comp l t pr) None = Ok (mkDf (length l) (base ++ pcols))).
  { unfold comp_to_df. cbn [comp_columns c_labels c_ptypes c_probs String.eqb Ascii.eqb Bool.eqb bind dset].
    unfold mk_df. cbn [first_len forallb has_len snd fst map broadcast]. rewrite !map_length, <- L1, Nat.eqb_refl. cbn [andb bind].
    destruct pr as [p|]; [|reflexivity]. simpl smem.
    rewrite (concat_cols_same _ (length l)); [unfold pcols; simpl; now rewrite app_nil_r|discriminate|].
    intros q [<-|[<-|[]]]; (split; [cbn; auto|]).
    - repeat constructor; cbn; now rewrite map_length.
    - apply Forall_forall. intros [k' c'] Hc. apply in_map_iff in Hc as (k & [= <- <-] & Hk). cbn. now rewrite map_length. }
  assert (K : dkeys (base ++ pcols) = ["labels"; "ptypes"]%string ++ map (fun k => "probs_" ++ decimal k)%string (seq 0 w)).
  { unfold dkeys, pcols, base, w. rewrite map_app. cbn [map fst]. do 2 f_equal. destruct pr as [p|]; [now rewrite map_map|reflexivity]. }
  assert (Nd : NoDup (dkeys (base ++ pcols))).
  { rewrite K. simpl. constructor; [|constructor; [|]].
    - intros [Q|Q]; [discriminate|]. apply in_map_iff in Q as (k & Q & _). discriminate.
    - intros Q. apply in_map_iff in Q as (k & Q & _). discriminate.
    - apply NoDup_map_inj; [|apply seq_NoDup]. intros a b Q. apply decimal_inj. now injection Q. }
  exists (mkDf (length l) (base ++ pcols)). split; [exact E|]. split; [reflexivity|]. split.
  { apply Forall_forall. intros [k' c'] Hc. cbn [cols nrows snd] in *. apply in_app_iff in Hc as [Hc|Hc].
    - destruct Hc as [[= <- <-]|[[= <- <-]|[]]]; now rewrite map_length.
    - unfold pcols in Hc. destruct pr as [p|]; [|destruct Hc]. apply in_map_iff in Hc as (k & [= <- <-] & Hk). rewrite map_length. auto. }
  split; [exact K|]. split; [exact Nd|]. split.
  - intros i Hi. unfold cell_at. cbn. rewrite !nth_error_map. auto.
  - intros p r k x i -> Hr Hx. unfold cell_at. cbn [cols].
    assert (Hk : (k < pr_width p)%nat).
    { specialize (Hw p eq_refl). rewrite Forall_forall in Hw. rewrite <- (Hw r) by (eapply nth_error_In; eauto). apply nth_error_Some. congruence. }
    assert (G : dget (base ++ pcols) ("probs_" ++ decimal k)%string = Some (map (fun r => CNum (nth k r nnan)) (pr_rows p))).
    { rewrite dget_app.
      change (dget base ("probs_" ++ decimal k)%string) with (@None (list (cell N))). unfold pcols.
      assert (S : In k (seq 0 (pr_width p))) by (apply in_seq; lia).
      revert S. generalize (seq 0 (pr_width p)). induction l0 as [|a l0 IH]; [intros []|]. intros Hin. cbn [map dget].
      destruct (String.eqb_spec ("probs_" ++ decimal k) ("probs_" ++ decimal a)) as [Q|Q].
      - apply append_inj, decimal_inj in Q. now subst.
      - destruct Hin as [->|Hin]; [congruence|auto]. }
    rewrite G, nth_error_map, Hr. cbn [option_map]. now rewrite (nth_error_nth _ _ _ Hx).
Qed.

(** With an explicit list of attributes: an unknown name is a KeyError, otherwise the columns
    are the requested ones, followed by those of the probabilities if they are requested and
    there are any. *)
Lemma c38_attributes : forall (N : Num) l t pr (c : components N) attrs,
  mk_components (ANd l) (ANd t) (option_map ANd pr) = Ok c ->
  ((exists a, In a attrs /\ ~ In a ["labels"; "ptypes"; "probabilities"]%string) -> comp_to_df c (Some attrs) = Raise KeyError) /\
  ((forall a, In a attrs -> In a ["labels"; "ptypes"; "probabilities"]%string) ->
     exists d, comp_to_df c (Some attrs) = Ok d /\
       dkeys (cols d) = first_occurrences (filter (fun a => negb (a =? "probabilities")%string) attrs) ++
         match pr with
         | Some p => if in_dec string_dec "probabilities"%string attrs
                     then map (fun k => "probs_" ++ decimal k)%string (seq 0 (pr_width p)) else []
         | None => []
         end).
Proof.
  intros N l t pr c attrs H.
  assert (E : c = Comp l t pr /\ length l = length t).
  { unfold mk_components in H. cbn [unpack bind] in H. destruct pr as [p|]; cbn [option_map unpack bind] in H;
      (destruct (_ && _)%bool eqn:E; [|discriminate]; cbn [guard bind] in H; injection H as <-; apply andb_prop in E as [E1 _];
       apply Nat.eqb_eq in E1; auto). }
  destruct E as (-> & L). clear H. unfold comp_to_df. split.
  - intros Hu. rewrite comp_columns_unknown by exact Hu. reflexivity.
  - intros Hk. pose proof (comp_columns_ok (Comp l t pr) attrs [] Hk) as C. cbv zeta in C. cbn [keyed map] in C.
    set (f := fun k => if (k =? "labels")%string then _ else _) in C. rewrite C. cbn [app bind].
    set (ks := dedup [] _).
    assert (M : exists n, mk_df (keyed f ks) = Ok (mkDf n (keyed (fun k => broadcast n (f k)) ks))).
    { destruct ks as [|k0 ks'] eqn:Ek; [exists 0%nat; reflexivity|]. rewrite <- Ek. exists (length l). apply mk_df_same.
      - exists k0. unfold f. destruct (k0 =? "labels")%string; eexists; (split; [rewrite Ek; now left|reflexivity]).
      - intros k _. unfold f. destruct (k =? "labels")%string; cbn; rewrite map_length; apply Nat.eqb_eq; congruence. }
    destruct M as (n & ->). cbn [bind c_probs].
    assert (F : dkeys (keyed (fun k => broadcast n (f k)) ks) = first_occurrences (filter (fun a => negb (a =? "probabilities")%string) attrs)).
    { rewrite dkeys_keyed. unfold ks. apply dedup_first. }
    destruct pr as [p|].
    2:{ eexists. split; [reflexivity|]. cbn [cols]. rewrite F. now rewrite app_nil_r. }
    destruct (in_dec string_dec "probabilities"%string attrs) as [Hp|Hp].
    + assert (smem "probabilities" attrs = true) as -> by now apply smem_In.
      destruct (concat_cols _) as [d|] eqn:Ec; [|discriminate]. exists d. split; [reflexivity|].
      rewrite (concat_cols_keys _ _ Ec). cbn [flat_map cols]. rewrite F, app_nil_r. f_equal. unfold probs_df. cbn [cols]. unfold dkeys. now rewrite map_map.
    + destruct (smem "probabilities" attrs) eqn:E; [apply smem_In in E; contradiction|].
      eexists. split; [reflexivity|]. cbn [cols]. rewrite F. now rewrite app_nil_r.
Qed.

Example ex_c38 :
  rmap dfshow (do c <- mk_components (N:=F64) (ANd (fZs [0; 1]%Z)) (ANd ["stars"; "gas"]%string) (Some (ANd (Probs 2 [fZs [1; 0]%Z; fZs [2; 3]%Z])));
    comp_to_df c None) =
  Ok [("labels", [ShF (sZ 0); ShF (sZ 1)]); ("ptypes", [ShS "stars"; ShS "gas"]);
      ("probs_0", [ShF (sZ 1); ShF (sZ 2)]); ("probs_1", [ShF (sZ 0); ShF (sZ 3)])]%string /\
  exn_of (mk_components (N:=F64) (ANd (fZs [0; 1]%Z)) (ANd ["stars"]%string) None) = Some ValueError /\
  exn_of (mk_components (N:=F64) (ANd (fZs [0]%Z)) AOther None) = Some TypeError /\
  exn_of (do c <- mk_components (N:=F64) (ANd (fZs [0]%Z)) (ANd ["stars"%string]) None; comp_to_df c (Some ["label"%string])) = Some KeyError.
Proof. vm_compute. auto. Qed.

(** *** C39 *)

(** cbins is accepted exactly if it is a tuple of two floats, whatever they are. *)
Lemma c39_cbins : forall (N : Num) (v : hval N),
  (forall ab, bins_validator v = Ok ab <-> v = HTuple [PyFloat (fst ab); PyFloat (snd ab)]) /\
  ((forall a b, v <> HTuple [PyFloat a; PyFloat b]) <-> bins_validator v = Raise ValueError).
Proof.
  intros N v. split.
  - intros [a b]. split; [|intros ->; reflexivity].
    destruct v as [v|[|p [|q [|r l]]]|l]; try discriminate; destruct p; try discriminate; destruct q; try discriminate. simpl. now intros [= <- <-].
  - split.
    + intros H. destruct v as [v|[|p [|q [|r l]]]|l]; try reflexivity; destruct p; try reflexivity; destruct q; try reflexivity.
      exfalso. eapply H. reflexivity.
    + intros H a b ->. discriminate.
Qed.

(** eps_cut: anything that cannot be ordered with a float raises TypeError; a number is
    rejected exactly if it is greater than 1 or less than -1, so that NaN and the end points
    are accepted; an accepted integer is -1, 0 or 1. *)
Lemma c39_eps_cut : forall (N : Num) (RN : Rounded N) (v : hval N),
  (forall x, v = HPy (PyFloat x) ->
     (check_eps_cut v = Raise ValueError <-> xlt (XR 1) (val RN x) \/ xlt (val RN x) (XR (-1))) /\
     (check_eps_cut v = Ok x <-> ~ xlt (XR 1) (val RN x) /\ ~ xlt (val RN x) (XR (-1))) /\
     (val RN x = XNaN -> check_eps_cut v = Ok x)) /\
  (forall z, v = HPy (PyInt z) ->
     (check_eps_cut v = Ok (nofZ z) <-> (-1 <= z <= 1)%Z) /\ (check_eps_cut v = Raise ValueError <-> ~ (-1 <= z <= 1)%Z)) /\
  (forall b, v = HPy (PyBool b) -> check_eps_cut v = Ok (nofZ (if b then 1 else 0)%Z)) /\
  (forall l, v = HTuple l \/ v = HSeq l \/ v = HPy PyNone \/ (exists s, v = HPy (PyStr s)) \/ v = HPy PyOther ->
     check_eps_cut v = Raise TypeError).
Proof.
  intros N RN v. split; [|split; [|split]].
  - intros x ->. unfold check_eps_cut. cbn [py_number bind].
    assert (A : nlt n1 x = true <-> xlt (XR 1) (val RN x)) by (rewrite (nlt_iff RN), (val_n1 RN); tauto).
    assert (B : nlt x nm1 = true <-> xlt (val RN x) (XR (-1))) by (rewrite (nlt_iff RN), (val_nm1 RN); tauto).
    assert (C : val RN x = XNaN -> ~ xlt (XR 1) (val RN x) /\ ~ xlt (val RN x) (XR (-1))) by (intros ->; split; intros []).
    rewrite <- A, <- B in *. destruct (nlt n1 x), (nlt x nm1); simpl; intuition congruence.
  - intros z ->. unfold check_eps_cut. cbn [py_number bind].
    destruct (1 <? z)%Z eqn:E1; [apply Z.ltb_lt in E1|apply Z.ltb_ge in E1];
      destruct (z <? -1)%Z eqn:E2; try apply Z.ltb_lt in E2; try apply Z.ltb_ge in E2; simpl; (split; split); intros H; try discriminate; try reflexivity; lia.
  - intros b ->. now destruct b.
  - intros l [->|[->|[->|[(s & ->)| ->]]]]; reflexivity.
Qed.
Example ex_c39 :
  is_ok (bins_validator (N:=F64) (HTuple [PyFloat nnan; PyFloat (nopp n1)])) = true /\
  exn_of (bins_validator (N:=F64) (HTuple [PyInt 1; PyFloat n1])) = Some ValueError /\
  exn_of (bins_validator (N:=F64) (HSeq [PyFloat n1; PyFloat n1])) = Some ValueError /\
  map (fun v => exn_of (check_eps_cut (N:=F64) v))
    [HPy (PyFloat nnan); HPy (PyFloat n1); HPy (PyFloat (nlit 11 10)); HPy (PyFloat nninf); HPy (PyInt (-1)); HPy (PyInt 2); HPy (PyStr "0.5"); HPy (PyType GAS)] =
  [None; None; Some ValueError; Some ValueError; None; Some ValueError; Some TypeError; Some ValueError].
Proof. vm_compute. auto. Qed.
