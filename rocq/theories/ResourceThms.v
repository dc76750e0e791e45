(** The reference programs under resource/ (C89). *)
From Verif Require Import Py Num RX F64 Np Df Data DataFacts Spec SpecR SpecPot SpecAcc SpecPotAcc Ex DataThms CenterFacts CenterThms AlignThms Potential PotConc PotConcFacts PotFacts PotThms AccFacts AccThms PotAccThms Resource SpecResource ResourceFacts.
From Coq Require Import Lia Lra Reals Permutation.

Lemma nth_combine {A B} (l : list A) (l' : list B) i a b : nth_error l i = Some a -> nth_error l' i = Some b -> nth_error (combine l l') i = Some (a, b).
Proof. revert l' i. induction l as [|x l IH]; intros [|y l'] [|i] E F; cbn in *; try discriminate; [congruence|auto]. Qed.
Lemma nth_skip {A} (l : list A) n j : nth_error (skipn n l) j = nth_error l (n + j).
Proof. revert l. induction n as [|n IH]; intros [|a l]; cbn; auto. now destruct j. Qed.
Lemma nth_first {A} (l : list A) n j : (j < n)%nat -> nth_error (firstn n l) j = nth_error l j.
Proof. revert l j. induction n as [|n IH]; intros [|a l] [|j] H; cbn; auto; try lia. apply IH. lia. Qed.

(** What potential_test.f90 writes: for every particle, in order, G times the softened sum over
    the others. *)
Lemma c89_test : forall (S : Num) (G eps : S) bs,
  length (test_program G eps bs) = length bs /\
  forall i b, nth_error bs i = Some b ->
    nth_error (test_program G eps bs) i = Some (pair_sum eps (map source_of bs) i (source_of b) * G)%num.
Proof. intros S G eps bs. split; [apply rloop_length|]. intros i b E. now apply rloop_nth. Qed.

(** potential.f90, which knows no softening, computes bit for bit the same as with softening
    zero, in single and in double precision. *)
Lemma c89_unsoftened : 
  (forall sm (G : F32s sm) bs, old_program G bs = test_program G n0 bs) /\
  (forall sm (G : F64s sm) bs, old_program G bs = test_program G n0 bs).
Proof. split; intros sm G bs; apply rloop_ext; intros a b; apply rdist_soft0. Qed.

(** The parallel loop of potential.f90 and potential_TNG.f90, under every interleaving of the
    reads and writes of the shared array and whatever that held before: when all iterations are
    finished it holds the results of the sequential loop; as long as not all are finished some
    iteration can go on; and no execution has more than n (3 n + 4) steps. *)
Lemma c89_schedule : forall (S : Num) (G : S) (bs : list (body S)) (ep0 : list S) k s,
  length ep0 = length bs -> rsteps G rdist bs k (rinit bs ep0) s ->
  (rfinished s -> ep s = old_program G bs) /\
  (~ rfinished s -> exists t, rstep G rdist bs s t) /\
  (k <= length bs * (3 * length bs + 4))%nat.
Proof.
  intros S G bs ep0 k s L H. pose proof (init_sized bs ep0 L) as Z. destruct (steps_local G rdist bs _ _ _ Z H) as (Z' & _). split; [|split].
  - intros D. apply nth_error_ext. intros i. destruct (Nat.lt_ge_cases i (length bs)) as [Hi|Hi].
    + destruct (at_ex bs s i Z' Hi) as (x & X). destruct (nth_error_lt bs i Hi) as (bi & Bi). pose proof (reach_end G rdist bs _ _ _ _ _ _ L H Bi X) as R.
      destruct X as (E & C). unfold rfinished in D. rewrite Forall_forall in D. apply nth_error_In, D in C. apply ls_done in R; [|exact C]. rewrite E. unfold old_program, rloop. rewrite map2_nth, Bi.
      rewrite (nth_error_nth' _ 0%nat) by (rewrite seq_length; exact Hi). rewrite seq_nth by exact Hi. rewrite <- R. reflexivity.
    + destruct Z' as (Le & _). assert (nth_error (ep s) i = None) as -> by (apply nth_error_None; lia). symmetry. apply nth_error_None. unfold old_program. rewrite rloop_length. lia.
  - intros D. assert (X : exists i c, nth_error (rpcs s) i = Some c /\ c <> RDone).
    { unfold rfinished in D. revert D. generalize (rpcs s) as cs. induction cs as [|c cs IH]; intros D; [exfalso; apply D; constructor|].
      destruct c as [|j|j d|j d r| |r|]; try (eexists 0%nat, _; split; [reflexivity|discriminate]). destruct IH as (i & c & E & N); [intros F; apply D; now constructor|]. exists (Datatypes.S i), c. auto. }
    destruct X as (i & c & C & N). assert (Hi : (i < length bs)%nat) by (destruct Z' as (_ & <-); apply nth_error_Some; congruence).
    destruct (at_ex bs s i Z' Hi) as (x & X). destruct (nth_error_lt bs i Hi) as (bi & Bi). pose proof (reach_end G rdist bs _ _ _ _ _ _ L H Bi X) as R.
    assert (snd x = c) as Ec by (destruct X; congruence). destruct (ls_stuck G rdist bs _ _ _ R eq_refl) as (y & Y); [congruence|].
    exists (put s i y). apply (step_local G rdist bs s _ Z'). split; [exact Z'|]. exists i, x, y. auto.
  - pose proof (steps_rcost G rdist bs _ _ _ Z H) as K. unfold rcosts in K. cbn [rinit rpcs] in K.
    assert (X : forall m, list_sum (map (rcost bs) (repeat (@RStart S) m)) = (m * (3 * length bs + 4))%nat).
    { induction m as [|m IH]; [reflexivity|]. change (list_sum (map (rcost bs) (repeat (@RStart S) (Datatypes.S m)))) with (rcost bs (@RStart S) + list_sum (map (rcost bs) (repeat (@RStart S) m)))%nat. rewrite IH. cbn [rcost]. lia. }
    rewrite X in K. lia.
Qed.

(** potential_TNG.f90: with enough lines in the files, every type gets its own particles with
    their IDs and the sums over the particles of all types; with a file too short it fails. *)
Lemma c89_tng : forall sm (G : F64s sm) n_gas n_dark n_star gas dark star,
  let enough := (n_gas = 0 \/ n_gas <= length gas)%nat /\ (n_dark <= length dark)%nat /\ (n_star <= length star)%nat in
  (enough -> exists og od os, tng_program G n_gas n_dark n_star gas dark star = Ok (og, od, os) /\
    let all := firstn n_gas gas ++ firstn n_dark dark ++ firstn n_star star in
    (og = None <-> n_gas = 0%nat) /\ (forall o, og = Some o -> lists_potentials G all 0 (firstn n_gas gas) o) /\
    lists_potentials G all n_gas (firstn n_dark dark) od /\
    lists_potentials G all (n_gas + n_dark) (firstn n_star star) os) /\
  (~ enough -> tng_program G n_gas n_dark n_star gas dark star = Raise OSError).
Proof.
  intros sm G ng nd ns gas dark star enough.
  assert (R : forall n (file : list (row (F64s sm))), (n <= length file)%nat -> read_rows n file = Ok (firstn n file)).
  { intros n file H. unfold read_rows. apply Nat.leb_le in H. now rewrite H. }
  assert (R' : forall n (file : list (row (F64s sm))), (length file < n)%nat -> read_rows n file = Raise OSError).
  { intros n file H. unfold read_rows. apply Nat.leb_gt in H. now rewrite H. }
  split.
  - intros (Hg & Hd & Hs). set (all := firstn ng gas ++ firstn nd dark ++ firstn ns star).
    set (out := combine (map r_id all) (rloop G rdist (map r_body all))).
    assert (Lg : length (firstn ng gas) = ng) by (rewrite firstn_length; lia).
    assert (Ld : length (firstn nd dark) = nd) by (rewrite firstn_length; lia).
    assert (Ls : length (firstn ns star) = ns) by (rewrite firstn_length; lia).
    assert (La : length all = (ng + nd + ns)%nat) by (unfold all; rewrite !app_length; lia).
    assert (Lo : length out = length all) by (unfold out; rewrite combine_length, rloop_length, !map_length; lia).
    assert (No : forall i r, nth_error all i = Some r -> nth_error out i = Some (r_id r, (pair_sum n0 (map (fun r => source_of (r_body r)) all) i (source_of (r_body r)) * G)%num)).
    { intros i r E. unfold out. apply nth_combine; [now rewrite nth_error_map, E|].
      rewrite (rloop_ext G rdist (tdist n0)) by (intros a b; apply rdist_soft0). rewrite (rloop_nth G n0 _ _ (r_body r)) by now rewrite nth_error_map, E. now rewrite map_map. }
    assert (P : forall pre rows post, all = pre ++ rows ++ post -> lists_potentials G all (length pre) rows (firstn (length rows) (skipn (length pre) out))).
    { intros pre rows post E. split; [rewrite firstn_length, skipn_length, Lo, E, !app_length; lia|]. intros j r Ej.
      assert (Hj : (j < length rows)%nat) by (apply nth_error_Some; congruence).
      rewrite nth_first, nth_skip by exact Hj. apply No. rewrite E, nth_error_app2, nth_error_app1 by lia. now replace (length pre + j - length pre)%nat with j by lia. }
    exists (if (ng =? 0)%nat then None else Some (firstn ng out)), (firstn nd (skipn ng out)), (firstn ns (skipn (ng + nd) out)).
    split; [|split; [|split; [|split]]].
    + unfold tng_program. rewrite (R nd dark Hd), (R ns star Hs). destruct (Nat.eqb_spec ng 0) as [E|E]; [subst ng; reflexivity|]. destruct Hg as [Hg|Hg]; [contradiction|]. rewrite (R ng gas Hg). reflexivity.
    + destruct (Nat.eqb_spec ng 0) as [E|E]; split; auto; [intros H; discriminate H|contradiction].
    + intros o. destruct (Nat.eqb_spec ng 0) as [E|E]; [intros H; discriminate H|]. intros H. injection H as <-. pose proof (P [] (firstn ng gas) (firstn nd dark ++ firstn ns star) eq_refl) as X. rewrite Lg in X. exact X.
    + pose proof (P (firstn ng gas) (firstn nd dark) (firstn ns star) eq_refl) as X. rewrite Lg, Ld in X. exact X.
    + pose proof (P (firstn ng gas ++ firstn nd dark) (firstn ns star) []) as X. rewrite app_length, Lg, Ld, Ls in X. apply X. unfold all. now rewrite app_nil_r, app_assoc.
  - intros H. unfold tng_program. destruct (Nat.eqb_spec ng 0) as [E|E]; cbn [bind].
    + destruct (le_lt_dec nd (length dark)) as [Hd|Hd]; [rewrite (R _ _ Hd)|now rewrite (R' _ _ Hd)]. cbn [bind]. destruct (le_lt_dec ns (length star)) as [Hs|Hs]; [exfalso; apply H; unfold enough; auto|now rewrite (R' _ _ Hs)].
    + destruct (le_lt_dec ng (length gas)) as [Hg|Hg]; [rewrite (R _ _ Hg)|now rewrite (R' _ _ Hg)]. cbn [bind].
      destruct (le_lt_dec nd (length dark)) as [Hd|Hd]; [rewrite (R _ _ Hd)|now rewrite (R' _ _ Hd)]. cbn [bind]. destruct (le_lt_dec ns (length star)) as [Hs|Hs]; [exfalso; apply H; unfold enough; auto|now rewrite (R' _ _ Hs)].
Qed.

Local Open Scope R_scope.
Lemma others_perm {A} (l : list A) i p : nth_error l i = Some p -> Permutation l (p :: others l i).
Proof.
  intros E. unfold others. rewrite <- (firstn_skipn i l) at 1. assert (X : skipn i l = p :: skipn (S i) l).
  { revert l E. induction i as [|i IH]; intros [|a l] E; cbn in *; try discriminate; [congruence|]. now apply IH. }
  rewrite X. symmetry. apply Permutation_middle.
Qed.

(** The package (single precision, Fortran backend) and potential_test.f90 (double precision)
    agree, up to the constants of gravitation k and k', whatever the order of the particles. *)
Lemma c89_agree : forall sm sm' (g : galaxy (F64s sm)) (G : F32s sm') (G' eps : F64s sm) junk k k' s lr R0 D bs lr',
  constructible g -> g_haspot g = false ->
  val (F32_rounded sm') G = XR k -> / IZR (2 ^ 40) <= k <= IZR (2 ^ 20) ->
  val (F64_rounded sm) G' = XR k' -> / IZR (2 ^ 40) <= k' <= IZR (2 ^ 20) ->
  (forall so, largest_softening g so -> val (F64_rounded sm) so = XR s) -> usual s -> val (F64_rounded sm) eps = XR s ->
  Forall2 (reads (F64_rounded sm)) (sources (all_x g) (all_y g) (all_z g) (all_m g)) lr ->
  (forall q, In q lr -> 0 < pm q /\ usual (pm q) /\ forall a, In a [px q; py q; pz q] -> ordinary a /\ Rabs a <= R0) ->
  (forall i j p q, i <> j -> nth_error lr i = Some p -> nth_error lr j = Some q -> D <= sdist s p q) ->
  0 < D -> 0 <= R0 <= IZR (2 ^ 19) * D -> INR (length lr) <= IZR (2 ^ 22) ->
  Forall2 (reads (F64_rounded sm)) (map source_of bs) lr' -> tame s lr' -> Permutation lr lr' ->
  exists h, potential (W:=F64s sm) (S:=F32s sm') to32 to64 (backend_table G true junk) "fortran" g = Ok h /\
    forall i i' p, nth_error lr i = Some p -> nth_error lr' i' = Some p ->
    exists w v t y, nth_error (all_pots h) i = Some w /\ val (F64_rounded sm) w = XR v /\
      nth_error (test_program G' eps bs) i' = Some t /\ val (F64_rounded sm) t = XR y /\
      Rabs (v / k + y / k') <= ((INR (length lr) + 9) / IZR (2 ^ 23) + 3 * (R0 / (IZR (2 ^ 22) * D))) * phi s p (others lr i).
Proof.
  intros sm sm' g G G' eps junk k k' s lr R0 D bs lr' Hg Hp Vk Hk Vk' Hk' So Us Ve F Q Ap D0 HR Ln F' T P.
  destruct (c84_potential sm sm' g G junk k s lr R0 D Hg Hp Vk Hk So Us F Q Ap D0 HR Ln) as (h & Hh & L & V). exists h. split; [exact Hh|].
  intros i i' p Ei Ei'. destruct (V i p Ei) as (w & v & Ew & Vw & B).
  assert (Lb : length (map source_of bs) = length lr') by (eapply Forall2_length; eauto).
  assert (Eb : exists b, nth_error bs i' = Some b).
  { destruct (nth_error bs i') as [b|] eqn:E; [eauto|]. apply nth_error_None in E. assert (i' < length lr')%nat by (apply nth_error_Some; congruence). rewrite map_length in Lb. lia. }
  destruct Eb as (b & Eb). assert (Es : nth_error (map source_of bs) i' = Some (source_of b)) by now rewrite nth_error_map, Eb.
  assert (U : 0 <= / IZR (2 ^ 53) <= / IZR (2 ^ 24)).
  { split; [left; apply Rinv_0_lt_compat, IZR_lt; reflexivity|]. apply Rinv_le_contravar; [apply IZR_lt; reflexivity|apply IZR_le; discriminate]. }
  destruct (c63_pair_sum _ (F64_rounded sm) _ (F64_standard sm) U eps s G' k' (map source_of bs) lr' i' (source_of b) p Ve Vk' Hk' F' T Es Ei') as (y & Vy & By).
  exists w, v, (pair_sum eps (map source_of bs) i' (source_of b) * G')%num, y. split; [exact Ew|]. split; [exact Vw|].
  split; [now apply rloop_nth|]. split; [exact Vy|].
  assert (Po : Permutation (others lr i) (others lr' i')).
  { apply (Permutation_cons_inv (a := p)). rewrite <- (others_perm _ _ _ Ei), <- (others_perm _ _ _ Ei'). exact P. }
  rewrite <- (phi_perm s p _ _ Po) in By. rewrite Lb, <- (Permutation_length P) in By.
  assert (F0 : 0 <= phi s p (others lr i)).
  { unfold phi. assert (H : forall q, In q (others lr i) -> 0 < pm q). { intros q I. apply Q. apply (Permutation_in _ (Permutation_sym (others_perm _ _ _ Ei))). now right. }
    revert H. generalize (others lr i) as l. induction l as [|q l IH]; intros H; [cbn; lra|]. change (0 <= pm q / sdist s p q + sumR (fun q => pm q / sdist s p q) l).
    assert (0 <= pm q / sdist s p q).
    { unfold sdist. destruct (Req_dec (sqrt ((px p - px q) * (px p - px q) + (py p - py q) * (py p - py q) + (pz p - pz q) * (pz p - pz q) + s * s)) 0) as [E|E].
      - rewrite E. unfold Rdiv. rewrite Rinv_0. lra.
      - apply Rlt_le, Rdiv_lt_0_compat; [apply H; now left|]. pose proof (sqrt_pos ((px p - px q) * (px p - px q) + (py p - py q) * (py p - py q) + (pz p - pz q) * (pz p - pz q) + s * s)). lra. }
    assert (0 <= sumR (fun q => pm q / sdist s p q) l) by (apply IH; intros q' I; apply H; now right). lra. }
  assert (K0 : 0 < k) by (assert (0 < / IZR (2 ^ 40)) by (apply Rinv_0_lt_compat, IZR_lt; reflexivity); lra).
  assert (K1 : 0 < k') by (assert (0 < / IZR (2 ^ 40)) by (apply Rinv_0_lt_compat, IZR_lt; reflexivity); lra).
  revert B By F0. generalize (phi s p (others lr i)) as f. intros f B By F0. pose proof (pos_INR (length lr)) as L0.
  set (n := INR (length lr)) in *. set (c := (n + 8) / IZR (2 ^ 23) + 3 * (R0 / (IZR (2 ^ 22) * D))) in *.
  assert (B1 : Rabs (v / k + f) <= c * f).
  { replace (v / k + f) with ((v + k * f) * / k) by (field; lra). rewrite Rabs_mult, (Rabs_pos_eq (/ k)) by (left; now apply Rinv_0_lt_compat).
    apply Rmult_le_reg_r with k; [exact K0|]. rewrite Rmult_assoc, Rinv_l, Rmult_1_r by lra. replace (c * f * k) with (c * (k * f)) by ring. exact B. }
  assert (B2 : Rabs (y / k' - f) <= 2 * (n + 5) * / IZR (2 ^ 53) * f).
  { replace (y / k' - f) with ((y - k' * f) * / k') by (field; lra). rewrite Rabs_mult, (Rabs_pos_eq (/ k')) by (left; now apply Rinv_0_lt_compat).
    apply Rmult_le_reg_r with k'; [exact K1|]. rewrite Rmult_assoc, Rinv_l, Rmult_1_r by lra. replace (2 * (n + 5) * / IZR (2 ^ 53) * f * k') with (2 * (n + 5) * / IZR (2 ^ 53) * (k' * f)) by ring. exact By. }
  assert (S53 : 2 * (n + 5) * / IZR (2 ^ 53) <= / IZR (2 ^ 23)).
  { change (IZR (2 ^ 53)) with (IZR 9007199254740992). change (IZR (2 ^ 23)) with 8388608. change (IZR (2 ^ 22)) with 4194304 in Ln. lra. }
  assert (Cd : (n + 9) / IZR (2 ^ 23) + 3 * (R0 / (IZR (2 ^ 22) * D)) = c + / IZR (2 ^ 23)) by (unfold c, Rdiv; ring).
  rewrite Cd. replace (v / k + y / k') with ((v / k + f) + (y / k' - f)) by ring. eapply Rle_trans; [apply Rabs_triang|].
  rewrite Rmult_plus_distr_r. apply Rplus_le_compat; [exact B1|]. eapply Rle_trans; [exact B2|]. now apply Rmult_le_compat_r.
Qed.

(** The galaxy of C84 (masses 1 and 2 at 0 and 1, gas of mass 4 at 2), given to the programs
    with the gas first. *)
Definition refP : list particle := [Part 4 2 0 0 0 0 0; Part 1 0 0 0 0 0 0; Part 2 1 0 0 0 0 0].
Definition zbody (m x : Z) : body F64 := Body (fZ x) (fZ 0) (fZ 0) (fZ m).
Definition refB : list (body F64) := [zbody 4 2; zbody 1 0; zbody 2 1].
Lemma refP_tame : tame 0 refP.
Proof.
  split; [now left|]. split; [|split; [|split]].
  - intros i j p q Hij Hp Hq. destruct i as [|[|[|i]]], j as [|[|[|j]]]; simpl in Hp, Hq;
      try congruence; try (destruct i; discriminate); try (destruct j; discriminate);
      injection Hp as <-; injection Hq as <-; apply sdist_pos; simpl; lra.
  - intros q [<-|[<-|[<-|[]]]]; simpl; split; try lra; apply moderate_Z; lia.
  - intros i j p q Hij Hp Hq. destruct i as [|[|[|i]]], j as [|[|[|j]]]; simpl in Hp, Hq;
      try congruence; try (destruct i; discriminate); try (destruct j; discriminate);
      injection Hp as <-; injection Hq as <-; simpl; rewrite <- !minus_IZR; repeat split; apply moderate_Z; simpl; lia.
  - simpl. lra.
Qed.
Example ex_c89 : exists g h, galP = Ok g /\ Permutation partsP refP /\ tame 0 refP /\
  potential (W:=F64) (S:=F32) to32 to64 (backend_table n1 true junk0) "fortran" g = Ok h /\
  forall i i' p, nth_error partsP i = Some p -> nth_error refP i' = Some p ->
    exists w v t y, nth_error (all_pots h) i = Some w /\ val (F64_rounded (seqsum 53 1024 p53 e1024)) w = XR v /\
      nth_error (test_program n1 n0 refB) i' = Some t /\ val (F64_rounded (seqsum 53 1024 p53 e1024)) t = XR y /\
      Rabs (v / 1 + y / 1) <= ((INR 3 + 9) / IZR (2 ^ 23) + 3 * (2 / (IZR (2 ^ 22) * 1))) * phi 0 p (others partsP i).
Proof.
  destruct galP_fields as (g & E & C). destruct C as (Hc & Hp & Ex & Ey & Ez & Em & Es & Eq & Ld & Ls).
  assert (V : forall z, (Z.abs z <= 1024)%Z -> val (F64_rounded (seqsum 53 1024 p53 e1024)) (fZ z) = XR (IZR z)) by (intros z; apply (val_small (F64_rounded (seqsum 53 1024 p53 e1024)))).
  assert (O : forall z, (0 <= z <= 4)%Z -> ordinary (IZR z) /\ usual (IZR z)).
  { intros z Hz. unfold ordinary, usual. destruct (Z.eq_dec z 0) as [-> |N]; [auto|]. rewrite <- abs_IZR.
    assert (1 <= IZR (Z.abs z) <= 4) by (split; apply IZR_le; lia). change (IZR (2 ^ 16)) with 65536. change (IZR (2 ^ 39)) with 549755813888. split; right; lra. }
  assert (P : Permutation partsP refP).
  { unfold partsP, refP. exact (Permutation_cons_append [Part 1 0 0 0 0 0 0; Part 2 1 0 0 0 0 0] (Part 4 2 0 0 0 0 0)) || symmetry; exact (Permutation_cons_append [Part 1 0 0 0 0 0 0; Part 2 1 0 0 0 0 0] (Part 4 2 0 0 0 0 0)). }
  destruct (c89_agree (seqsum 53 1024 p53 e1024) (seqsum 24 128 p24 e128) g n1 n1 n0 junk0 1 1 0 partsP 2 1 refB refP Hc Hp) as (h & Hh & W); try assumption.
  - apply (val_n1 (F32_rounded (seqsum 24 128 p24 e128))).
  - exact one_range.
  - apply (val_n1 (F64_rounded (seqsum 53 1024 p53 e1024))).
  - exact one_range.
  - intros so [(p & (I & Np & _) & <- & _)|(_ & Nu)].
    + destruct I as [<-|[<-|[<-|[]]]]; [change (val (F64_rounded (seqsum 53 1024 p53 e1024)) (p_soft (N:=F64) (g_stars g)) = XR 0); rewrite Es; apply V; lia|contradiction|change (val (F64_rounded (seqsum 53 1024 p53 e1024)) (p_soft (N:=F64) (g_gas g)) = XR 0); rewrite Eq; apply V; lia].
    + exfalso. apply (Nu (g_stars g)). split; [simpl; auto|]. split; [change (plen (N:=F64) (g_stars g) <> 0%nat); rewrite Ls; discriminate|].
      change (nisnan (N:=F64) (p_soft (g_stars g)) = false). rewrite Es. reflexivity.
  - now left.
  - apply (val_n0 (F64_rounded (seqsum 53 1024 p53 e1024))).
  - change (F64s (seqsum 53 1024 p53 e1024)) with F64. rewrite Ex, Ey, Ez, Em. unfold sources, fZs, partsP. cbn [map combine].
    repeat (constructor; [repeat split; apply V; lia|]). constructor.
  - intros q [<- |[<- |[<- |[]]]]; cbn [pm px py pz]; (split; [lra|]; split; [apply O; lia|]); intros a [<- |[<- |[<- |[]]]]; (split; [apply O; lia|apply Rabs_le; lra]).
  - intros i j p q Hij Hp' Hq. rewrite <- sqrt_1. unfold sdist. apply sqrt_le_1_alt. destruct i as [|[|[|i]]], j as [|[|[|j]]]; simpl in Hp', Hq;
      try congruence; try (destruct i; discriminate); try (destruct j; discriminate); injection Hp' as <-; injection Hq as <-; cbn [px py pz]; lra.
  - lra.
  - change (IZR (2 ^ 19)) with 524288. lra.
  - simpl. lra.
  - unfold refB, refP, zbody, source_of. cbn [map b_x b_y b_z b_m]. repeat (constructor; [repeat split; apply V; lia|]). constructor.
  - exact refP_tame.
  - exists g, h. split; [exact E|]. split; [exact P|]. split; [exact refP_tame|]. split; [exact Hh|exact W].
Qed.

(** The same three particles, without dark matter, in the files of potential_TNG.f90 (IDs 7, 8
    and 9; one more star in the file than is read). *)
Example ex_c89_tng : rmap (fun r => let '(og, od, os) := r in
    (option_map (map (fun v => (fshow (fst v), fshow (snd v)))) og, map (fun v => (fshow (fst v), fshow (snd v))) od, map (fun v => (fshow (fst v), fshow (snd v))) os))
    (tng_program (n1 : F64) 1 0 2 [Row (fZ 7) (zbody 4 2)] [] [Row (fZ 8) (zbody 1 0); Row (fZ 9) (zbody 2 1); Row (fZ 6) (zbody 9 9)])
  = Ok (Some [(sZ 7, sQ 5 2)], [], [(sZ 8, sZ 4); (sZ 9, sZ 5)]) /\
  tng_program (n1 : F64) 0 1 0 [] [] [] = Raise OSError.
Proof. vm_compute. auto. Qed.

(** Two bodies of mass 1 and 2 at distance 1 whose iterations alternate, from an array with
    arbitrary contents: eight steps each, and the potentials 2 and 1. *)
Definition two : list (body F64) := [zbody 1 0; zbody 2 1].
Fixpoint alternate (n : nat) (s : rstate F64) : option (rstate F64) :=
  match n with
  | O => Some s
  | S n =>
      match nth_error (rpcs s) (n mod 2) with
      | Some c => match rtask (n1 : F64) rdist two (n mod 2) c (ep s) with Some (mem, c') => alternate n (RSt mem (upd (rpcs s) (n mod 2) c')) | None => None end
      | None => None
      end
  end.
Lemma alternate_steps n s t : alternate n s = Some t -> rsteps n1 rdist two n s t.
Proof.
  revert s. induction n as [|n IH]; intros s H; cbn [alternate] in H; [injection H as <-; constructor|].
  destruct (nth_error (rpcs s) (n mod 2)) as [c|] eqn:C; [|discriminate]. destruct (rtask n1 rdist two (n mod 2) c (ep s)) as [(mem, c')|] eqn:T; [|discriminate].
  econstructor; [|apply IH, H]. destruct s as (m, cs). econstructor; [exact C|exact T].
Qed.
Example ex_c89_schedule : exists s, rsteps (n1 : F64) rdist two 16 (rinit two [fZ 77; fZ 88]) s /\ rfinished s /\ map fshow (ep s) = [sZ 2; sZ 1].
Proof.
  assert (X : option_map (fun s => (forallb (fun c => match c with RDone => true | _ => false end) (rpcs s), map fshow (ep s))) (alternate 16 (rinit two [fZ 77; fZ 88])) = Some (true, [sZ 2; sZ 1])) by (vm_compute; reflexivity).
  destruct (alternate 16 (rinit two [fZ 77; fZ 88])) as [s|] eqn:E; [|discriminate X]. exists s. split; [now apply alternate_steps|].
  cbn [option_map] in X. injection X as A B. split; [|exact B].
  unfold rfinished. rewrite Forall_forall. rewrite forallb_forall in A. intros c I. apply A in I. destruct c; try discriminate I. reflexivity.
Qed.
