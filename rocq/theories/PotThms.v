(** Property lemmas about utils/_potential.py and utils/fortran/potential.f95: C19 - C23. *)
From Flocq Require Import Core.Raux.
From Coq Require Import Floats.SpecFloat.
From Verif Require Import Py Num RX F64 Np Df Data DataFacts DfFacts RebuildFacts Center CenterFacts Align
  Spec SpecR SpecPot Ex DataThms CenterThms AlignFacts AlignThms Potential PotConc PotConcFacts PotFacts.

Lemma all_m_gm {N : Num} (g : galaxy N) : all_m g = gm g.
Proof. unfold all_m, gm; simpl. now rewrite app_nil_r. Qed.
Lemma gm_length {N : Num} (g : galaxy N) : length (gm g) = glen g.
Proof. unfold gm, glen, plen. rewrite !app_length. lia. Qed.

(** *** C19 *)

(** A galaxy that has a potential is refused whatever the backend; an unknown backend is a
    KeyError; an exception of the backend is passed on. *)
Lemma c19_errors : forall (W S : Num) (cast : W -> S) (lift : S -> W) table name (g : galaxy W),
  constructible g ->
  (g_haspot g = true -> potential cast lift table name g = Raise ValueError) /\
  (g_haspot g = false -> ~ In name (dkeys table) -> potential cast lift table name g = Raise KeyError) /\
  (g_haspot g = false -> forall f e, dget table name = Some f ->
     (forall x y z m s, f x y z m s = Raise e) -> potential cast lift table name g = Raise e).
Proof.
  intros W S cast lift table name g Hg. apply constructible_ok in Hg. split; [|split].
  - intros H. unfold potential. rewrite H. reflexivity.
  - intros H Hn. unfold potential. rewrite H. apply dget_none_notin in Hn. rewrite Hn. reflexivity.
  - intros H f e Hf He. rewrite (potential_eq _ _ _ _ _ _ Hg H Hf), He. reflexivity.
Qed.

(** Otherwise the backend is called on the cast positions and masses of all particles
    (stars, dark matter, gas) and the largest softening, and when it returns one value per
    particle, the negated [i]-th value becomes the potential of the [i]-th particle;
    nothing else changes, and the result cannot be given a potential again. *)
Lemma c19_result : forall (W S : Num), Rounded W ->
  forall (cast : W -> S) (lift : S -> W) table name f (g : galaxy W),
  constructible g -> g_haspot g = false -> dget table name = Some f ->
  exists s, largest_softening g s /\
    forall pot, f (map cast (all_x g)) (map cast (all_y g)) (map cast (all_z g)) (map cast (all_m g)) (cast s) = Ok pot ->
    length pot = glen g ->
    exists h, potential cast lift table name g = Ok h /\ constructible h /\ g_haspot h = true /\
      Forall2 same_but_potential (sets g) (sets h) /\
      all_pots h = map (fun v => lift (nopp v)) pot /\
      forall table' name', potential cast lift table' name' h = Raise ValueError.
Proof.
  intros W S RW cast lift table name f g Hg Hp Hf. apply constructible_ok in Hg.
  exists (pd_max (gsoft g)). split; [apply (pd_max_softening RW)|].
  intros pot Hpot Hl. rewrite all_x_gx, all_y_gy, all_z_gz, all_m_gm in Hpot.
  eexists. split; [apply (potential_ok cast lift table name g f pot); auto|].
  split; [|split; [reflexivity|split; [now apply pot_gal_same|split; [|reflexivity]]]].
  - apply constructible_ok, pot_gal_ok; auto; unfold glen in Hl;
      rewrite map_length, ?firstn_length, ?skipn_length; lia.
  - unfold all_pots; simpl. rewrite app_nil_r, <- !map_app. f_equal. apply split3.
Qed.

(** The two backends of the module always return one value per particle (Fortran when it
    could be imported), so [potential] succeeds with both. *)
Lemma c19_backends : forall (W S : Num) (cast : W -> S) (lift : S -> W) (G : S) junk (g : galaxy W),
  constructible g -> g_haspot g = false ->
  (exists h, potential cast lift (backend_table G true junk) "fortran" g = Ok h) /\
  (forall have, exists h, potential cast lift (backend_table G have junk) "numpy" g = Ok h) /\
  potential cast lift (backend_table G false junk) "fortran" g = Raise AttributeError.
Proof.
  intros W S cast lift G junk g Hg Hp. apply constructible_ok in Hg.
  pose proof (gxyz_length g Hg) as (Lx & Ly & Lz & _).
  assert (LB : length (bodies (map cast (gx g)) (map cast (gy g)) (map cast (gz g)) (map cast (gm g))) = glen g).
  { rewrite bodies_length; rewrite !map_length; rewrite ?gm_length; lia. }
  split; [|split].
  - eexists. eapply potential_ok; auto; [reflexivity|reflexivity|].
    rewrite map_length, fortran_kernel_length. exact LB.
  - intros have. eexists. eapply potential_ok; auto; [reflexivity|reflexivity|].
    rewrite map2_length, seq_length, LB. lia.
  - rewrite (potential_eq cast lift (backend_table G false junk) "fortran" g _ Hg Hp eq_refl). reflexivity.
Qed.

(** Two stars and one gas particle one apart on a line, unit masses, G = 1. *)
Definition galP : res (galaxy F64) :=
  do s <- (zset STARS [1; 2] [0; 1] [0; 0] [0; 0] [0; 0] [0; 0] [0; 0] None 0)%Z;
  do d <- (zset DARK_MATTER [] [] [] [] [] [] [] None 7)%Z;
  do q <- (zset GAS [4] [2] [0] [0] [0] [0] [0] None 0)%Z;
  mk_galaxy s d q.
Definition junk0 (i j : nat) : F32 := n0.

Example ex_c19 :
  rmap (fun h => shows (all_pots h))
    (do g <- galP; potential (W:=F64) (S:=F32) to32 to64 (backend_table n1 true junk0) "fortran" g) =
    Ok [sZ (-4); sZ (-5); sQ (-5) 2] /\
  rmap (fun h => shows (all_pots h))
    (do g <- galP; potential (W:=F64) (S:=F32) to32 to64 (backend_table n1 true junk0) "numpy" g) =
    Ok [sZ (-4); sZ (-5); sQ (-5) 2] /\
  exn_of (do g <- galP; potential (W:=F64) (S:=F32) to32 to64 (backend_table n1 true junk0) "gpu" g) = Some KeyError.
Proof. vm_compute. auto. Qed.

(** *** C20 *)

(** Every terminating parallel execution -- any interleaving of the reads and writes of
    any number of concurrently running iterations, from any initial contents of the output
    array -- returns at [i] the sum over the other particles in index order. *)
Lemma c20_schedule : forall (S : Num) (x y z m : list S) soft pe0 out,
  length y = length x -> length z = length x -> length m = length x -> length pe0 = length x ->
  parallel_run x y z m soft pe0 out ->
  length out = length x /\
  forall i p, nth_error (sources x y z m) i = Some p ->
    nth_error out i = Some (pair_sum soft (sources x y z m) i p).
Proof.
  intros S x y z m soft pe0 out Ly Lz Lm L0 (s & Hs & Hf & <-).
  assert (LB := bodies_length x y z m Ly Lz Lm).
  assert (E : pe s = fortran_kernel x y z m soft).
  { unfold fortran_kernel. rewrite LB. rewrite <- LB. eapply inv_finished; [|exact Hf].
    eapply inv_steps; [|exact Hs]. apply inv_init. lia. }
  rewrite E. split; [now rewrite fortran_kernel_length|]. intros i p Hp. now apply fortran_kernel_nth.
Qed.

(** No execution gets stuck or runs forever: from every reachable state the loop can be
    completed, and no execution has more than n(3n+1) steps. *)
Lemma c20_terminates : forall (S : Num) (x y z m : list S) soft pe0,
  length y = length x -> length z = length x -> length m = length x -> length pe0 = length x ->
  let bs := bodies x y z m in let s0 := St pe0 (repeat Start (length bs)) in
  (forall s, steps (soft * soft)%num bs s0 s -> exists t, steps (soft * soft)%num bs s t /\ finished bs t) /\
  (forall (f : nat -> state S) k, f 0%nat = s0 ->
     (forall a, (a < k)%nat -> step (soft * soft)%num bs (f a) (f (Datatypes.S a))) ->
     (k <= length x * (3 * length x + 1))%nat) /\
  exists out, parallel_run x y z m soft pe0 out.
Proof.
  intros S x y z m soft pe0 Ly Lz Lm L0 bs s0.
  assert (LB : length bs = length x) by (apply bodies_length; auto).
  assert (I0 : inv (soft * soft)%num bs s0) by (apply inv_init; lia).
  split; [|split].
  - intros s Hs. apply can_finish. eapply inv_steps; eauto.
  - intros f k Hf0 Hst. rewrite <- Hf0 in I0. pose proof (steps_bounded _ _ _ f I0 Hst) as B.
    rewrite Hf0 in B. unfold s0, total_cost in B. simpl in B.
    assert (R : forall n, list_sum (map (cost bs) (repeat Start n)) = (n * (3 * length bs + 1))%nat).
    { induction n; simpl; [reflexivity|]. rewrite IHn. unfold cost. lia. }
    rewrite R, LB in B. exact B.
  - destruct (can_finish _ _ _ I0) as (t & Ht & Hf). exists (pe t). exists t. auto.
Qed.

(** The sequential kernel used in [potential] is one of (hence equal to all) these runs. *)
Lemma c20_sequential : forall (S : Num) (x y z m : list S) soft pe0 out,
  length y = length x -> length z = length x -> length m = length x -> length pe0 = length x ->
  (parallel_run x y z m soft pe0 out <-> out = fortran_kernel x y z m soft).
Proof.
  intros S x y z m soft pe0 out Ly Lz Lm L0.
  assert (LB := bodies_length x y z m Ly Lz Lm).
  assert (U : forall o, parallel_run x y z m soft pe0 o -> o = fortran_kernel x y z m soft).
  { intros o (s & Hs & Hf & <-). unfold fortran_kernel. eapply inv_finished; [|exact Hf].
    eapply inv_steps; [|exact Hs]. apply inv_init. lia. }
  split; [apply U|]. intros ->.
  destruct (c20_terminates S x y z m soft pe0 Ly Lz Lm L0) as (_ & _ & o & Ho).
  now rewrite <- (U o Ho).
Qed.

Example ex_c20 : shows (map to64 (fortran_kernel (S:=F32) (map nofZ [0; 1; 2]%Z) (map nofZ [0; 0; 0]%Z)
    (map nofZ [0; 0; 0]%Z) (map nofZ [1; 2; 4]%Z) n0)) = [sZ 4; sZ 5; sQ 5 2] /\
  forall pe0, length pe0 = 3%nat -> exists out, parallel_run (S:=F32) (map nofZ [0; 1; 2]%Z) (map nofZ [0; 0; 0]%Z)
    (map nofZ [0; 0; 0]%Z) (map nofZ [1; 2; 4]%Z) n0 pe0 out.
Proof.
  split; [vm_compute; reflexivity|]. intros pe0 L.
  apply (c20_terminates F32 (map nofZ [0; 1; 2]%Z) (map nofZ [0; 0; 0]%Z)
    (map nofZ [0; 0; 0]%Z) (map nofZ [1; 2; 4]%Z) n0 pe0); auto.
Qed.

(** *** Exact values *)
Section Exact.
Local Open Scope R_scope.

Definition srcR (q : particle) : @source RX := (XR (px q), XR (py q), (XR (pz q), XR (pm q))).
Lemma sources_map l : sources (S:=RX) (map (fun q => XR (px q)) l) (map (fun q => XR (py q)) l)
  (map (fun q => XR (pz q)) l) (map (fun q => XR (pm q)) l) = map srcR l.
Proof. unfold sources. induction l as [|q l IH]; simpl; [reflexivity|]. exact (f_equal (cons (srcR q)) IH). Qed.

Lemma soft_dist_real s p q : soft_dist (S:=RX) (XR s) (srcR p) (srcR q) = XR (sdist s p q).
Proof.
  unfold soft_dist, srcR. simpl.
  match goal with |- context [Rlt_dec ?a 0] => destruct (Rlt_dec a 0) as [H|H] end.
  - exfalso. revert H. apply Rle_not_lt.
    pose proof (Rle_0_sqr (px p + - px q)). pose proof (Rle_0_sqr (py p + - py q)).
    pose proof (Rle_0_sqr (pz p + - pz q)). pose proof (Rle_0_sqr s). unfold Rsqr in *. lra.
  - reflexivity.
Qed.

Lemma fold_terms s p l : (forall q, In q l -> sdist s p q <> 0) -> forall acc,
  fold_left (fun (acc : RX) q => (acc + src_m q / soft_dist (S:=RX) (XR s) (srcR p) q)%num) (map srcR l) (XR acc) =
  XR (acc + phi s p l).
Proof.
  induction l as [|q l IH]; intros H acc; cbn [map fold_left]; [unfold phi; simpl; f_equal; ring|].
  rewrite soft_dist_real. unfold src_m at 2. simpl.
  destruct (Req_EM_T (sdist s p q) 0) as [E|E]; [exfalso; apply (H q); simpl; auto|].
  rewrite IH by (intros; apply H; simpl; auto). unfold phi; simpl. f_equal. ring.
Qed.

Lemma others_In {A} (l : list A) i q : In q (others l i) -> exists j, j <> i /\ nth_error l j = Some q.
Proof.
  unfold others. intros H. apply in_app_iff in H as [H|H]; apply In_nth_error in H as [j Hj].
  - assert (j < length (firstn i l))%nat as L by (apply nth_error_Some; congruence).
    rewrite firstn_length in L. exists j. split; [lia|].
    rewrite <- (firstn_skipn i l), nth_error_app1 by (rewrite firstn_length; lia). exact Hj.
  - exists (S i + j)%nat. split; [lia|].
    destruct (Nat.le_gt_cases (S i) (length l)).
    + rewrite <- (firstn_skipn (S i) l), nth_error_app2 by (rewrite firstn_length; lia).
      rewrite firstn_length, Nat.min_l by lia. rewrite <- Hj. f_equal. lia.
    + rewrite skipn_all2 in Hj by lia. destruct j; discriminate.
Qed.

Lemma kernel_real s l : apart s l ->
  fortran_kernel (S:=RX) (map (fun q => XR (px q)) l) (map (fun q => XR (py q)) l)
    (map (fun q => XR (pz q)) l) (map (fun q => XR (pm q)) l) (XR s) =
  map2 (fun i p => XR (phi s p (others l i))) (seq 0 (length l)) l.
Proof.
  intros Ha. apply nth_error_ext. intros i.
  destruct (Nat.lt_ge_cases i (length l)) as [Hi|Hi].
  - destruct (nth_error_lt l i Hi) as [p Hp].
    rewrite (fortran_kernel_nth _ _ _ _ _ i (srcR p)).
    2:{ rewrite sources_map, nth_error_map, Hp. reflexivity. }
    rewrite map2_nth, Hp, (nth_error_nth' _ 0%nat) by (rewrite seq_length; auto).
    rewrite seq_nth by auto. simpl. f_equal. unfold pair_sum. rewrite sources_map, others_map.
    change (n0 : RX) with (XR 0). rewrite fold_terms.
    + f_equal. ring.
    + intros q Hq. apply others_In in Hq as (j & Hj & Eq). apply (Ha i j); auto.
  - transitivity (@None xr); [|symmetry]; apply nth_error_None.
    + etransitivity; [apply Nat.eq_le_incl|exact Hi]. etransitivity; [apply (fortran_kernel_length (S:=RX))|].
      etransitivity; [apply (bodies_length (S:=RX))|]; rewrite !map_length; auto.
    + rewrite map2_length, seq_length. lia.
Qed.

Lemma holds_gx (g : galaxy RX) ls ld lg : holds (g_stars g) ls -> holds (g_dm g) ld -> holds (g_gas g) lg ->
  let l := ls ++ ld ++ lg in
  gx g = map (fun q => XR (px q)) l /\ gy g = map (fun q => XR (py q)) l /\
  gz g = map (fun q => XR (pz q)) l /\ gm g = map (fun q => XR (pm q)) l.
Proof.
  intros (A1 & A2 & A3 & A4 & _) (B1 & B2 & B3 & B4 & _) (C1 & C2 & C3 & C4 & _) l.
  unfold gx, gy, gz, gm, l. rewrite A1, A2, A3, A4, B1, B2, B3, B4, C1, C2, C3, C4, !map_app. auto.
Qed.

Lemma softening_unique (g : galaxy RX) a b : largest_softening g a -> largest_softening g b -> a = b.
Proof.
  intros [(p & Hp & <- & Mp)|[-> Np]] [(q & Hq & <- & Mq)|[-> Nq]]; auto.
  - specialize (Mp q Hq). specialize (Mq p Hp). apply (nlt_false RX_rounded) in Mp, Mq.
    destruct Hp as (_ & _ & Hp), Hq as (_ & _ & Hq). apply (nisnan_false RX_rounded) in Hp, Hq.
    simpl in *. destruct (xle_total _ _ Hp Hq) as [L|L]; [|tauto].
    destruct (xle_total _ _ Hq Hp) as [L'|L']; [|tauto]. now apply xle_antisym.
  - exfalso. eapply Nq; eauto.
  - exfalso. eapply Np; eauto.
Qed.
End Exact.

Definition idx (v : RX) : RX := v.
(** Exact computation of potentials: the arithmetic and the casts are exact, G is a real. *)
Definition exact_potential (G : R) (junk : nat -> nat -> RX) (name : string) (g : galaxy RX) : res (galaxy RX) :=
  potential (W:=RX) (S:=RX) idx idx (backend_table (S:=RX) (XR G) true junk) name g.

(** *** C22 *)

(** The exact value: the potential of particle [i] is -G times the sum over all the other
    particles of mass over softened distance. *)
Lemma c22_value : forall G junk (g : galaxy RX) ls ld lg s, constructible g -> g_haspot g = false ->
  holds (g_stars g) ls -> holds (g_dm g) ld -> holds (g_gas g) lg ->
  largest_softening g (XR s) -> apart s (ls ++ ld ++ lg) ->
  exists h, exact_potential G junk "fortran" g = Ok h /\
    length (all_pots h) = length (ls ++ ld ++ lg) /\
    forall i p, nth_error (ls ++ ld ++ lg) i = Some p ->
      nth_error (all_pots h) i = Some (XR (- (G * phi s p (others (ls ++ ld ++ lg) i)))).
Proof.
  intros G junk g ls ld lg s Hg Hp Hs Hd Hq So Ap.
  destruct (holds_gx g ls ld lg Hs Hd Hq) as (Ex & Ey & Ez & Em).
  set (l := ls ++ ld ++ lg) in *.
  destruct (c19_result RX RX RX_rounded idx idx (backend_table (S:=RX) (XR G) true junk) "fortran"
     (fortran_potential (S:=RX) (XR G) true) g Hg Hp eq_refl) as (s' & So' & K).
  assert (s' = XR s) by (eapply softening_unique; eauto). subst s'.
  specialize (K (map (fun v : RX => nmul (N:=RX) v (XR G))
    (map2 (fun i p => XR (phi s p (others l i)) : RX) (seq 0 (length l)) l))).
  destruct K as (h & Hh & _ & _ & _ & Hpots & _).
  - unfold idx. rewrite !map_id, all_x_gx, all_y_gy, all_z_gz, all_m_gm, Ex, Ey, Ez, Em.
    unfold fortran_potential. do 2 f_equal. apply kernel_real. exact Ap.
  - rewrite map_length, map2_length, seq_length, Nat.min_id. rewrite <- gm_length, Em. apply eq_sym, map_length.
  - exists h. split; [exact Hh|]. rewrite Hpots. split.
    + now rewrite !map_length, map2_length, seq_length, Nat.min_id.
    + intros i p Hi. rewrite !nth_error_map, map2_nth, Hi.
      assert (i < length l)%nat by (apply nth_error_Some; congruence).
      rewrite (nth_error_nth' _ 0%nat) by (rewrite seq_length; auto). rewrite seq_nth by auto. simpl.
      unfold idx. do 2 f_equal. ring.
Qed.

Section Phi.
Local Open Scope R_scope.
Lemma phi_pos s p l : l <> [] -> (forall q, In q l -> 0 < pm q /\ sdist s p q <> 0) -> 0 < phi s p l.
Proof.
  intros Hn H. assert (Q : forall l', (forall q, In q l' -> 0 < pm q /\ sdist s p q <> 0) -> 0 <= phi s p l').
  { intros l'; induction l' as [|q l' IH]; intros H'; unfold phi; simpl; [lra|].
    destruct (H' q) as [Hq Hd]; [simpl; auto|]. pose proof (sqrt_pos ((px p - px q) * (px p - px q) + (py p - py q) * (py p - py q) + (pz p - pz q) * (pz p - pz q) + s * s)) as P.
    fold (sdist s p q) in P. assert (0 < pm q / sdist s p q) by (apply Rdiv_lt_0_compat; lra).
    assert (0 <= phi s p l') by (apply IH; intros; apply H'; simpl; auto). unfold phi in *. lra. }
  destruct l as [|q l]; [contradiction|]. unfold phi; simpl.
  destruct (H q) as [Hq Hd]; [simpl; auto|]. pose proof (sqrt_pos ((px p - px q) * (px p - px q) + (py p - py q) * (py p - py q) + (pz p - pz q) * (pz p - pz q) + s * s)) as P.
  fold (sdist s p q) in P. assert (0 < pm q / sdist s p q) by (apply Rdiv_lt_0_compat; lra).
  assert (0 <= phi s p l) by (apply Q; intros; apply H; simpl; auto). unfold phi in *. lra.
Qed.
Lemma phi_perm s p l l' : Permutation l l' -> phi s p l = phi s p l'.
Proof. unfold phi. induction 1; simpl; lra. Qed.
Lemma phi_map s p l (f : particle -> particle) k :
  (forall q, pm (f q) = k * pm q) -> (forall q, sdist s (f p) (f q) = sdist s p q) ->
  phi s (f p) (map f l) = k * phi s p l.
Proof.
  intros Hm Hd. unfold phi. induction l as [|q l IH]; simpl; [ring|]. rewrite IH, Hm, Hd. unfold Rdiv. ring.
Qed.
Lemma apart_map s l f : (forall p q, sdist s (f p) (f q) = sdist s p q) -> apart s l -> apart s (map f l).
Proof.
  intros Hd Ha i j p q Hij Hp Hq. rewrite nth_error_map in Hp, Hq.
  destruct (nth_error l i) as [p0|] eqn:E1; [|discriminate]. destruct (nth_error l j) as [q0|] eqn:E2; [|discriminate].
  injection Hp as <-. injection Hq as <-. rewrite Hd. eapply Ha; eauto.
Qed.
End Phi.

Lemma bare_value G junk g l s : bare g l -> largest_softening g (XR s) -> apart s l ->
  exists h, exact_potential G junk "fortran" g = Ok h /\
    all_pots h = map2 (fun i p => XR (- (G * phi s p (others l i)))) (seq 0 (length l)) l.
Proof.
  intros (Hg & Hp & ls & ld & lg & -> & Hs & Hd & Hq) So Ap.
  destruct (c22_value G junk g ls ld lg s Hg Hp Hs Hd Hq So Ap) as (h & Hh & L & V).
  exists h. split; [exact Hh|]. set (l := ls ++ ld ++ lg) in *. apply nth_error_ext. intros i.
  destruct (Nat.lt_ge_cases i (length l)) as [Hi|Hi].
  - destruct (nth_error_lt l i Hi) as [p Ep]. rewrite (V i p Ep), map2_nth, Ep.
    rewrite (nth_error_nth' _ 0%nat) by (rewrite seq_length; auto). now rewrite seq_nth by auto.
  - transitivity (@None xr); [|symmetry]; apply nth_error_None; [eapply Nat.le_trans; [apply Nat.eq_le_incl; exact L|exact Hi]|].
    rewrite map2_length, seq_length. lia.
Qed.

(** With positive masses and at least two particles every potential is negative. *)
Lemma c22_negative : forall G junk (g : galaxy RX) l s, (0 < G)%R -> bare g l ->
  largest_softening g (XR s) -> apart s l -> (2 <= length l)%nat -> (forall q, In q l -> 0 < pm q)%R ->
  exists h, exact_potential G junk "fortran" g = Ok h /\ length (all_pots h) = length l /\
    forall v, In v (all_pots h) -> exists r, v = XR r /\ (r < 0)%R.
Proof.
  intros G junk g l s HG Hb So Ap Hl Hm. destruct (bare_value G junk g l s Hb So Ap) as (h & Hh & E).
  exists h. split; [exact Hh|]. rewrite E. split; [rewrite map2_length, seq_length; lia|].
  intros v Hv. apply In_nth_error in Hv as [i Hi]. rewrite map2_nth in Hi.
  destruct (nth_error (seq 0 (length l)) i) as [k|] eqn:Ek; [|discriminate].
  destruct (nth_error l i) as [p|] eqn:Ep; [|discriminate]. injection Hi as <-.
  assert (i < length l)%nat as Hi by (apply nth_error_Some; congruence).
  rewrite (nth_error_nth' _ 0%nat) in Ek by (rewrite seq_length; auto). rewrite seq_nth in Ek by auto.
  injection Ek as <-. simpl. eexists; split; [reflexivity|].
  assert (0 < phi s p (others l i))%R.
  { apply phi_pos.
    - intros Q. apply (f_equal (@length _)) in Q. unfold others in Q.
      rewrite app_length, firstn_length, skipn_length in Q. simpl in Q. lia.
    - intros q Hq. apply others_In in Hq as (j & Hj & Eq). split; [apply Hm; eapply nth_error_In; eauto|].
      apply (Ap i j); auto. }
  nra.
Qed.

(** Translating every particle leaves all potentials unchanged; multiplying all masses by
    [k] multiplies all potentials by [k]. *)
Lemma c22_translate_scale : forall G junk junk' (g g' : galaxy RX) l s k a b c, bare g l ->
  bare g' (map (fun q => Part (k * pm q) (px q + a) (py q + b) (pz q + c) (pvx q) (pvy q) (pvz q))%R l) ->
  largest_softening g (XR s) -> largest_softening g' (XR s) -> apart s l ->
  exists h h', exact_potential G junk "fortran" g = Ok h /\ exact_potential G junk' "fortran" g' = Ok h' /\
    all_pots h' = map (nmul (N:=RX) (XR k)) (all_pots h).
Proof.
  intros G junk junk' g g' l s k a b c Hb Hb' So So' Ap.
  set (f := fun q => Part (k * pm q) (px q + a) (py q + b) (pz q + c) (pvx q) (pvy q) (pvz q)) in *.
  assert (Hd : forall p q, sdist s (f p) (f q) = sdist s p q).
  { intros p q. unfold sdist, f; simpl. f_equal. ring. }
  destruct (bare_value G junk g l s Hb So Ap) as (h & Hh & E).
  destruct (bare_value G junk' g' _ s Hb' So' (apart_map s l f Hd Ap)) as (h' & Hh' & E').
  exists h, h'. split; [exact Hh|]. split; [exact Hh'|]. rewrite E, E', map_length, map_map2.
  rewrite <- (map_id (seq 0 (length l))) at 1. rewrite map2_map. apply map2_ext. intros i p. simpl.
  rewrite others_map, (phi_map s p _ f k); auto. f_equal. ring.
Qed.

(** Reordering the particles (also across the three sets) reorders the potentials in the
    same way. *)
Lemma c22_permute : forall G junk junk' (g g' : galaxy RX) l l' s, bare g l -> bare g' l' -> Permutation l l' ->
  largest_softening g (XR s) -> largest_softening g' (XR s) -> apart s l ->
  exists h h', exact_potential G junk "fortran" g = Ok h /\ exact_potential G junk' "fortran" g' = Ok h' /\
    Permutation (combine l (all_pots h)) (combine l' (all_pots h')).
Proof.
  intros G junk junk' g g' l l' s Hb Hb' Pm So So' Ap.
  assert (Ap' : apart s l').
  { apply (Permutation_nth_error) in Pm as (Hl & f & Hf & Hn).
    intros i j p q Hij Hp Hq. rewrite Hn in Hp, Hq. eapply (Ap (f i) (f j)); eauto. }
  destruct (bare_value G junk g l s Hb So Ap) as (h & Hh & E).
  destruct (bare_value G junk' g' l' s Hb' So' Ap') as (h' & Hh' & E').
  exists h, h'. split; [exact Hh|]. split; [exact Hh'|]. rewrite E, E'.
  (* potential of a particle among all particles: remove one occurrence of itself *)
  assert (C : forall l, combine l (map2 (fun i p => XR (- (G * phi s p (others l i)))) (seq 0 (length l)) l)
    = map (fun p => (p, XR (- (G * (phi s p l - pm p / sdist s p p))))) l).
  { clear. intros l. apply nth_error_ext. intros i.
    assert (N : forall A B (u : list A) (v : list B) i, nth_error (combine u v) i =
      match nth_error u i, nth_error v i with Some x, Some y => Some (x, y) | _, _ => None end).
    { clear. induction u as [|x u IH]; intros [|y v] [|i]; simpl; auto. now destruct (nth_error u i). }
    rewrite N, map2_nth, nth_error_map. destruct (nth_error l i) as [p|] eqn:Ep; [|reflexivity].
    assert (i < length l)%nat by (apply nth_error_Some; congruence).
    rewrite (nth_error_nth' _ 0%nat) by (rewrite seq_length; auto). rewrite seq_nth by auto. simpl.
    do 4 f_equal. f_equal.
    assert (phi s p l = phi s p (p :: others l i)) as ->.
    { apply phi_perm. rewrite (split_nth l i p Ep) at 1. unfold others. symmetry. apply Permutation_middle. }
    unfold phi; simpl. ring. }
  rewrite !C. rewrite (map_ext (fun p => (p, XR (- (G * (phi s p l - pm p / sdist s p p)))))
     (fun p => (p, XR (- (G * (phi s p l' - pm p / sdist s p p)))))).
  - now apply Permutation_map.
  - intros p. now rewrite (phi_perm s p l l' Pm).
Qed.

Local Open Scope R_scope.
(** Three particles in exact arithmetic, in different sets. *)
Definition exP : list particle := [Part 1 0 0 0 0 0 0; Part 2 3 0 0 0 0 0; Part 4 0 4 0 0 0 0].
Definition galP3 : galaxy RX := galR [Part 1 0 0 0 0 0 0] [Part 2 3 0 0 0 0 0] [Part 4 0 4 0 0 0 0].
Lemma galP3_bare : bare galP3 exP.
Proof.
  split; [apply galR_ok|]. split; [reflexivity|].
  exists [Part 1 0 0 0 0 0 0], [Part 2 3 0 0 0 0 0], [Part 4 0 4 0 0 0 0].
  split; [reflexivity|]. split; [|split]; apply psetR_holds.
Qed.
Lemma galR_soft ls ld lg : ls <> [] -> largest_softening (galR ls ld lg) (XR 0).
Proof.
  intros H. left. exists (psetR STARS ls). split; [split; [simpl; auto|split; [|reflexivity]]|].
  - unfold plen. simpl. rewrite map_length. now destruct ls.
  - split; [reflexivity|]. intros q ([<-|[<-|[<-|[]]]] & _ & _); apply (nlt_false RX_rounded); simpl; lra.
Qed.
Lemma galP3_soft : largest_softening galP3 (XR 0).
Proof. apply galR_soft. discriminate. Qed.
Lemma sdist_pos p q : 0 < (px p - px q) * (px p - px q) + (py p - py q) * (py p - py q) + (pz p - pz q) * (pz p - pz q) ->
  sdist 0 p q <> 0.
Proof. intros H. unfold sdist. apply Rgt_not_eq, sqrt_lt_R0. lra. Qed.
Lemma exP_apart : apart 0 exP.
Proof.
  intros i j p q Hij Hp Hq. destruct i as [|[|[|i]]], j as [|[|[|j]]]; simpl in Hp, Hq;
    try congruence; try (destruct i; discriminate); try (destruct j; discriminate);
    injection Hp as <-; injection Hq as <-; apply sdist_pos; simpl; lra.
Qed.

Example ex_c22 : exists h, exact_potential 1 (fun _ _ => XNaN) "fortran" galP3 = Ok h /\
  length (all_pots h) = 3%nat /\ (forall v, In v (all_pots h) -> exists r, v = XR r /\ r < 0) /\
  nth_error (all_pots h) 0 = Some (XR (- (5 / 3))).
Proof.
  destruct (c22_negative 1 (fun _ _ => XNaN) galP3 exP 0) as (h & Hh & L & V); try lra.
  - apply galP3_bare.
  - apply galP3_soft.
  - apply exP_apart.
  - simpl; lia.
  - intros q [<-|[<-|[<-|[]]]]; simpl; lra.
  - exists h. split; [exact Hh|]. split; [exact L|]. split; [exact V|].
    destruct (bare_value 1 (fun _ _ => XNaN) galP3 exP 0 galP3_bare galP3_soft exP_apart) as (h' & Hh' & E).
    rewrite Hh in Hh'. injection Hh' as <-. rewrite E. simpl. do 2 f_equal. unfold phi, sdist; simpl.
    replace ((0 - 3) * (0 - 3) + (0 - 0) * (0 - 0) + (0 - 0) * (0 - 0) + 0 * 0) with (3 * 3) by ring.
    replace ((0 - 0) * (0 - 0) + (0 - 4) * (0 - 4) + (0 - 0) * (0 - 0) + 0 * 0) with (4 * 4) by ring.
    rewrite !sqrt_square by lra. field.
Qed.

(** Shifted by (10, 0, 0) with masses doubled, and with the particles in another order. *)
Example ex_c22_symmetries :
  (exists h h', exact_potential 1 (fun _ _ => XNaN) "fortran" galP3 = Ok h /\
    exact_potential 1 (fun _ _ => XNaN) "fortran"
      (galR [Part (2 * 1) (0 + 10) (0 + 0) (0 + 0) 0 0 0] [Part (2 * 2) (3 + 10) (0 + 0) (0 + 0) 0 0 0]
            [Part (2 * 4) (0 + 10) (4 + 0) (0 + 0) 0 0 0]) = Ok h' /\
    all_pots h' = map (nmul (N:=RX) (XR 2)) (all_pots h)) /\
  (exists h h', exact_potential 1 (fun _ _ => XNaN) "fortran" galP3 = Ok h /\
    exact_potential 1 (fun _ _ => XNaN) "fortran"
      (galR [Part 4 0 4 0 0 0 0; Part 1 0 0 0 0 0 0] [] [Part 2 3 0 0 0 0 0]) = Ok h' /\
    Permutation (combine exP (all_pots h))
      (combine [Part 4 0 4 0 0 0 0; Part 1 0 0 0 0 0 0; Part 2 3 0 0 0 0 0] (all_pots h'))).
Proof.
  split.
  - apply (c22_translate_scale 1 (fun _ _ => XNaN) (fun _ _ => XNaN) galP3 _ exP 0 2 10 0 0);
      [apply galP3_bare| |apply galP3_soft|apply galR_soft; discriminate|apply exP_apart].
    split; [apply galR_ok|]. split; [reflexivity|]. do 3 eexists.
    split; [|split; [|split]; apply psetR_holds]. reflexivity.
  - apply (c22_permute 1 (fun _ _ => XNaN) (fun _ _ => XNaN) galP3 _ exP _ 0);
      [apply galP3_bare| | |apply galP3_soft|apply galR_soft; discriminate|apply exP_apart].
    + split; [apply galR_ok|]. split; [reflexivity|]. do 3 eexists.
      split; [|split; [|split]; apply psetR_holds]. reflexivity.
    + unfold exP. set (a := Part 1 _ _ _ _ _ _). set (b := Part 2 _ _ _ _ _ _). set (c := Part 4 _ _ _ _ _ _).
      apply Permutation_sym. apply (Permutation_cons_append [a; b] c).
Qed.

(** *** C21 *)

Lemma total_cons {A} (f : A -> R) a l : total f (a :: l) = f a + total f l.
Proof. reflexivity. Qed.
Lemma map2_map_r {A B C B'} (f : A -> B -> C) (h : B' -> B) a b :
  map2 f a (map h b) = map2 (fun x y => f x (h y)) a b.
Proof. revert b; induction a as [|x a IH]; intros [|y b]; simpl; congruence. Qed.
Lemma Ropp_eq_reg a b : - a = - b -> a = b.
Proof. lra. Qed.
Lemma map_idx (l : list RX) : map idx l = l.
Proof. apply map_id. Qed.
Definition bodyR (q : particle) : body RX := Body (S:=RX) (XR (px q)) (XR (py q)) (XR (pz q)) (XR (pm q)).
Lemma bodies_map l : bodies (S:=RX) (map (fun q => XR (px q)) l) (map (fun q => XR (py q)) l)
  (map (fun q => XR (pz q)) l) (map (fun q => XR (pm q)) l) = map bodyR l.
Proof. unfold bodies. induction l as [|q l IH]; simpl; [reflexivity|]. exact (f_equal (cons (bodyR q)) IH). Qed.

Lemma ndist_real s i j p q : i <> j -> ndist (S:=RX) (XR s) i j (bodyR p) (bodyR q) = XR (sdist s p q).
Proof.
  intros Hij. unfold ndist. apply Nat.eqb_neq in Hij. rewrite Hij. simpl.
  match goal with |- context [Rlt_dec ?a 0] => destruct (Rlt_dec a 0) as [H|H] end.
  - exfalso. revert H. apply Rle_not_lt.
    pose proof (Rle_0_sqr (px q + - px p)). pose proof (Rle_0_sqr (py q + - py p)).
    pose proof (Rle_0_sqr (pz q + - pz p)). pose proof (Rle_0_sqr s). unfold Rsqr in *. lra.
  - unfold sdist. do 2 f_equal. ring.
Qed.

Lemma nentry_real junk u s i j p q : (forall i j, junk i j = XR (u i j)) ->
  nentry (S:=RX) junk (XR s) i j (bodyR p) (bodyR q) =
  XR (if Nat.eqb i j then u i j else if Req_EM_T (sdist s p q) 0 then u i j else pm q / sdist s p q).
Proof.
  intros Hu. unfold nentry. destruct (Nat.eqb_spec i j) as [->|Hij].
  - unfold ndist. rewrite Nat.eqb_refl.
    assert (neqb (N:=RX) n0 n0 = true) as -> by (apply (neqb_iff RX_rounded); simpl; split; congruence).
    apply Hu.
  - rewrite ndist_real by exact Hij. destruct (Req_EM_T (sdist s p q) 0) as [E|E].
    + assert (neqb (N:=RX) (XR (sdist s p q)) n0 = true) as ->.
      { apply (neqb_iff RX_rounded). simpl. rewrite E. split; congruence. }
      apply Hu.
    + assert (neqb (N:=RX) (XR (sdist s p q)) n0 = false) as ->.
      { apply not_true_iff_false. intros H. apply (neqb_iff RX_rounded) in H as [H _]. simpl in H.
        injection H. exact E. }
      simpl. destruct (Req_EM_T (sdist s p q) 0); [contradiction|reflexivity].
Qed.

Lemma row_real junk u s i p : (forall i j, junk i j = XR (u i j)) -> forall l k,
  nsum (N:=RX) (map2 (fun j bj => nentry (S:=RX) junk (XR s) i j (bodyR p) bj) (seq k (length l)) (map bodyR l)) =
  XR (total (fun jq => if Nat.eqb i (fst jq) then u i (fst jq) else
                  if Req_EM_T (sdist s p (snd jq)) 0 then u i (fst jq)
                  else pm (snd jq) / sdist s p (snd jq)) (combine (seq k (length l)) l)).
Proof.
  intros Hu. induction l as [|q l IH]; intros k; [reflexivity|].
  cbn [length seq map map2 combine]. 
  etransitivity; [exact (f_equal2 xadd (nentry_real junk u s i k p q Hu) (IH (S k)))|]. reflexivity.
Qed.

Lemma numpy_value G junk u g l s : (forall i j, junk i j = XR (u i j)) -> bare g l -> largest_softening g (XR s) ->
  exists h, exact_potential G junk "numpy" g = Ok h /\
    all_pots h = map2 (fun i p => XR (- (G * numpy_row s u i p l))) (seq 0 (length l)) l.
Proof.
  intros Hu (Hg & Hp & ls & ld & lg & -> & Hs & Hd & Hq) So.
  destruct (holds_gx g ls ld lg Hs Hd Hq) as (Ex & Ey & Ez & Em).
  set (l := ls ++ ld ++ lg) in *.
  destruct (c19_result RX RX RX_rounded idx idx (backend_table (S:=RX) (XR G) true junk) "numpy"
     (numpy_potential (S:=RX) (XR G) junk) g Hg Hp eq_refl) as (s' & So' & K).
  assert (s' = XR s) by (eapply softening_unique; eauto). subst s'.
  specialize (K (map2 (fun i p => XR (numpy_row s u i p l * G)) (seq 0 (length l)) l)).
  destruct K as (h & Hh & _ & _ & _ & Hpots & _).
  - unfold idx. rewrite !map_id, all_x_gx, all_y_gy, all_z_gz, all_m_gm, Ex, Ey, Ez, Em.
    unfold numpy_potential. rewrite bodies_map, map_length. f_equal.
    etransitivity; [apply map2_map_r|]. apply map2_ext. intros i p.
    rewrite (row_real junk u s i p Hu l 0). reflexivity.
  - etransitivity; [apply map2_length|]. rewrite seq_length, Nat.min_id.
    rewrite <- gm_length, Em. apply eq_sym, map_length.
  - exists h. split; [exact Hh|]. rewrite Hpots, map_map2. apply map2_ext. intros i p.
    unfold idx. simpl. f_equal. ring.
Qed.

(** The value the numpy backend computes, whatever the (finite) contents [u] of the fresh
    array and whatever pairs coincide. *)
Lemma c21_value : forall G junk u (g : galaxy RX) l s, (forall i j, junk i j = XR (u i j)) ->
  bare g l -> largest_softening g (XR s) ->
  exists h, exact_potential G junk "numpy" g = Ok h /\ length (all_pots h) = length l /\
    forall i p, nth_error l i = Some p -> nth_error (all_pots h) i = Some (XR (- (G * numpy_row s u i p l))).
Proof.
  intros G junk u g l s Hu Hb So. destruct (numpy_value G junk u g l s Hu Hb So) as (h & Hh & E).
  exists h. split; [exact Hh|]. rewrite E. split; [etransitivity; [apply map2_length|]; rewrite seq_length; apply Nat.min_id|].
  intros i p Hi. rewrite map2_nth, Hi. assert (i < length l)%nat by (apply nth_error_Some; congruence).
  rewrite (nth_error_nth' _ 0%nat) by (rewrite seq_length; auto). now rewrite seq_nth by auto.
Qed.

Lemma row_others s u p l i k : (forall j q, nth_error l j = Some q -> (k + j)%nat <> i -> sdist s p q <> 0) ->
  (k <= i)%nat -> nth_error l (i - k) = Some p ->
  total (fun jq => if Nat.eqb i (fst jq) then u i (fst jq) else
                  if Req_EM_T (sdist s p (snd jq)) 0 then u i (fst jq)
                  else pm (snd jq) / sdist s p (snd jq)) (combine (seq k (length l)) l) =
  u i i + phi s p (others l (i - k)).
Proof.
  intros Ha. 
  assert (T : forall l k, (i < k)%nat -> (forall j q, nth_error l j = Some q -> sdist s p q <> 0) ->
    total (fun jq => if Nat.eqb i (fst jq) then u i (fst jq) else
                  if Req_EM_T (sdist s p (snd jq)) 0 then u i (fst jq)
                  else pm (snd jq) / sdist s p (snd jq)) (combine (seq k (length l)) l) = phi s p l).
  { clear. induction l as [|q l IH]; intros k Hk Ha; [reflexivity|]. unfold phi in *. simpl.
    rewrite IH by (try lia; intros j q'; apply (Ha (S j))).
    destruct (Nat.eqb_spec i k); [lia|]. destruct (Req_EM_T (sdist s p q) 0); [|reflexivity].
    exfalso. now apply (Ha 0%nat q). }
  revert k Ha. induction l as [|q l IH]; intros k Ha Hk Hp; [destruct (i - k)%nat; discriminate|].
  destruct (Nat.eq_dec k i) as [->|Hne].
  - rewrite Nat.sub_diag. unfold others. cbn [firstn skipn app length seq combine]. 
    rewrite total_cons; cbn [fst snd].
    rewrite Nat.eqb_refl. f_equal. apply T; [lia|]. intros j q' Hj. apply (Ha (S j) q'); [exact Hj|lia].
  - assert (i - k = S (i - S k))%nat as E by lia. rewrite E in *. unfold others.
    cbn [firstn skipn app length seq combine]. rewrite total_cons; cbn [fst snd].
    destruct (Nat.eqb_spec i k); [lia|]. destruct (Req_EM_T (sdist s p q) 0) as [Z|Z].
    { exfalso. apply (Ha 0%nat q); [reflexivity|lia|exact Z]. }
    rewrite (IH (S k)); [|intros j q' Hj Hn; apply (Ha (S j) q'); [exact Hj|lia]|lia|exact Hp].
    unfold phi, others; simpl. ring.
Qed.

(** When no two particles coincide and the skipped entries hold zero, both backends give
    the same galaxy. *)
Lemma c21_agree : forall G junk (g : galaxy RX) l s, bare g l -> largest_softening g (XR s) -> apart s l ->
  (forall i j, junk i j = XR 0) ->
  exists h, exact_potential G junk "numpy" g = Ok h /\ exact_potential G junk "fortran" g = Ok h.
Proof.
  intros G junk g l s Hb So Ap Hu.
  pose proof Hb as (Hg & Hp & ls & ld & lg & El & Hs & Hd & Hq).
  destruct (holds_gx g ls ld lg Hs Hd Hq) as (Ex & Ey & Ez & Em). rewrite <- El in *.
  pose proof Hg as Hg'. apply constructible_ok in Hg'.
  destruct (numpy_value G junk (fun _ _ => 0) g l s Hu Hb So) as (h & Hh & _).
  exists h. split; [exact Hh|]. rewrite <- Hh. unfold exact_potential.
  assert (Es : pd_max (gsoft g) = XR s) by (eapply softening_unique; eauto; apply (pd_max_softening RX_rounded)).
  rewrite (potential_eq idx idx (backend_table (S:=RX) (XR G) true junk) "fortran" g (fortran_potential (S:=RX) (XR G) true) Hg' Hp eq_refl).
  rewrite (potential_eq idx idx (backend_table (S:=RX) (XR G) true junk) "numpy" g (numpy_potential (S:=RX) (XR G) junk) Hg' Hp eq_refl).
  rewrite Es, !map_idx, Ex, Ey, Ez, Em. change (idx (XR s)) with (XR s).
  assert (fortran_potential (S:=RX) (XR G) true (map (fun q => XR (px q)) l) (map (fun q => XR (py q)) l)
     (map (fun q => XR (pz q)) l) (map (fun q => XR (pm q)) l) (XR s) =
     numpy_potential (S:=RX) (XR G) junk (map (fun q => XR (px q)) l) (map (fun q => XR (py q)) l)
     (map (fun q => XR (pz q)) l) (map (fun q => XR (pm q)) l) (XR s)) as ->; [|reflexivity].
  unfold fortran_potential, numpy_potential. rewrite bodies_map, map_length. f_equal.
  etransitivity; [apply f_equal; apply kernel_real; exact Ap|]. etransitivity; [apply map_map2|].
  apply nth_error_ext. intros i. rewrite !map2_nth, nth_error_map.
  destruct (nth_error l i) as [p|] eqn:Ep; [|now destruct (nth_error (seq 0 (length l)) i)].
  assert (i < length l)%nat by (apply nth_error_Some; congruence).
  rewrite (nth_error_nth' _ 0%nat) by (rewrite seq_length; auto). rewrite seq_nth by auto. cbn [option_map plus].
  rewrite (row_real junk (fun _ _ => 0) s i p Hu l 0).
  rewrite (row_others s (fun _ _ => 0) p l i 0); [|intros j q Hj Hn; apply (Ap i j); auto|lia|rewrite Nat.sub_0_r; exact Ep].
  rewrite Nat.sub_0_r. simpl. do 2 f_equal. ring.
Qed.

(** For every galaxy with at least one particle (coincident or not) there are two memory
    contents for which every single potential differs. *)
Lemma c21_depends : forall G (g : galaxy RX) l s, G <> 0 -> bare g l -> largest_softening g (XR s) ->
  exists junk junk' h h', exact_potential G junk "numpy" g = Ok h /\ exact_potential G junk' "numpy" g = Ok h' /\
    forall i, (i < length l)%nat -> nth_error (all_pots h) i <> nth_error (all_pots h') i.
Proof.
  intros G g l s HG Hb So.
  destruct (c21_value G (fun _ _ => XR 0) (fun _ _ => 0) g l s (fun _ _ => eq_refl) Hb So) as (h & Hh & _ & V).
  destruct (c21_value G (fun _ _ => XR 1) (fun _ _ => 1) g l s (fun _ _ => eq_refl) Hb So) as (h' & Hh' & _ & V').
  exists (fun _ _ => XR 0), (fun _ _ => XR 1), h, h'. split; [exact Hh|]. split; [exact Hh'|].
  intros i Hi. destruct (nth_error_lt l i Hi) as [p Ep]. rewrite (V i p Ep), (V' i p Ep).
  assert (K : numpy_row s (fun _ _ => 0) i p l < numpy_row s (fun _ _ => 1) i p l).
  { unfold numpy_row.
    assert (M : forall l k, total (fun jq => if Nat.eqb i (fst jq) then 0 else
                  if Req_EM_T (sdist s p (snd jq)) 0 then 0
                  else pm (snd jq) / sdist s p (snd jq)) (combine (seq k (length l)) l) +
                  (if ((k <=? i) && (i <? k + length l))%nat then 1 else 0) <=
      total (fun jq => if Nat.eqb i (fst jq) then 1 else
                  if Req_EM_T (sdist s p (snd jq)) 0 then 1
                  else pm (snd jq) / sdist s p (snd jq)) (combine (seq k (length l)) l)).
    { clear. induction l as [|q l IH]; intros k; simpl.
      - destruct (Nat.leb_spec k i), (Nat.ltb_spec i (k + 0)); simpl; try lra; lia.
      - specialize (IH (S k)). destruct (Nat.eqb_spec i k) as [->|Hn].
        + destruct (Nat.leb_spec (S k) k); [lia|]. simpl in IH. destruct (_ && _)%bool; lra.
        + assert (((k <=? i) && (i <? k + S (length l)))%nat = ((S k <=? i) && (i <? S k + length l))%nat) as ->.
          { destruct (Nat.leb_spec k i), (Nat.leb_spec (S k) i), (Nat.ltb_spec i (k + S (length l))),
              (Nat.ltb_spec i (S k + length l)); simpl; auto; lia. }
          destruct (Req_EM_T (sdist s p q) 0); destruct (_ && _)%bool; lra. }
    specialize (M l 0%nat). destruct (Nat.leb_spec 0 i); [|lia].
    destruct (Nat.ltb_spec i (0 + length l)); [|lia]. simpl in M. lra. }
  intros [= E]. apply Ropp_eq_reg, (Rmult_eq_reg_l G) in E; [lra|exact HG].
Qed.

(** In single precision, on every galaxy: NaN in the fresh memory makes every potential
    NaN (positions and masses may be anything). *)
Lemma c21_float : forall (W : Num), Rounded W -> forall (cast : W -> F32) (lift : F32 -> W) (G : F32) have junk (g : galaxy W),
  constructible g -> g_haspot g = false -> (forall i, junk i i = nnan) ->
  exists h, potential cast lift (backend_table (S:=F32) G have junk) "numpy" g = Ok h /\
    length (all_pots h) = glen g /\ forall v, In v (all_pots h) -> v = lift nnan.
Proof.
  intros W RW cast lift G have junk g Hg Hp Hj.
  assert (RN : Rounded F32) by exact (F32_rounded (seqsum 24 128 p24 e128)).
  destruct (c19_result W F32 RW cast lift (backend_table (S:=F32) G have junk) "numpy"
     (numpy_potential (S:=F32) G junk) g Hg Hp eq_refl) as (s & So & K).
  destruct (numpy_potential G junk (map cast (all_x g)) (map cast (all_y g)) (map cast (all_z g)) (map cast (all_m g)) (cast s))
    as [pot|e] eqn:E; [|discriminate].
  unfold numpy_potential in E. set (bs := bodies _ _ _ _) in E. injection E as E.
  assert (LB : length bs = glen g).
  { apply constructible_ok in Hg. pose proof (gxyz_length g Hg) as (Lx & Ly & Lz & _).
    unfold bs. rewrite all_x_gx, all_y_gy, all_z_gz, all_m_gm.
    rewrite bodies_length; rewrite !map_length; rewrite ?gm_length; lia. }
  assert (Lp : length pot = glen g).
  { rewrite <- E, map2_length, seq_length, LB. apply Nat.min_id. }
  destruct (K pot eq_refl Lp) as (h & Hh & _ & _ & _ & Hpots & _).
  exists h. split; [exact Hh|]. rewrite Hpots, map_length. split; [exact Lp|].
  intros v Hv. apply in_map_iff in Hv as (w & <- & Hw). f_equal.
  assert (Nw : val RN w = XNaN).
  { rewrite <- E in Hw. apply In_nth_error in Hw as [i Hi]. rewrite map2_nth in Hi.
    destruct (nth_error (seq 0 (length bs)) i) as [k|] eqn:Ek; [|discriminate].
    destruct (nth_error bs i) as [b|] eqn:Eb; [|discriminate]. injection Hi as <-.
    assert (i < length bs)%nat as Li by (apply nth_error_Some; congruence).
    rewrite (nth_error_nth' _ 0%nat) in Ek by (rewrite seq_length; auto). rewrite seq_nth in Ek by auto.
    injection Ek as <-. simpl plus. apply (v_nan_mul_l RN).
    assert (A : forall (l : list F32) (acc : F32), val RN acc = XNaN \/ In nnan l ->
      val RN (fold_left (fun a b => nadd (N:=F32) a b) l acc) = XNaN).
    { induction l as [|a l IH]; intros acc [H|H]; cbn [fold_left]; auto; [destruct H| |].
      - apply IH. left. now apply (v_nan_add_l RN).
      - apply IH. destruct H as [->|H]; [left|now right].
        rewrite (val_add RN), (val_nnan RN). destruct (val RN acc); apply (rnd_nan RN). }
    apply (A _ (nofZ 0)). right.
    apply (nth_error_In _ i). rewrite map2_nth, Eb, (nth_error_nth' _ 0%nat) by (rewrite seq_length; auto).
    rewrite seq_nth by auto. simpl plus. f_equal. unfold nentry, ndist. rewrite Nat.eqb_refl.
    assert (neqb (N:=F32) n0 n0 = true) as ->; [|apply Hj].
    apply (neqb_iff RN). split; [reflexivity|]. rewrite (val_n0 RN). discriminate. }
  apply (v_nan_is RN). rewrite (val_opp RN), Nw. reflexivity.
Qed.

(** Two coincident particles without softening: the Fortran backend gives -inf, the numpy
    backend whatever finite memory contents it finds for that pair. *)
Lemma c21_coincident : forall G junk u (g : galaxy RX) l i j p q, 0 < G -> bare g l -> largest_softening g (XR 0) ->
  (forall i j, junk i j = XR (u i j)) -> (forall r, In r l -> 0 < pm r) ->
  i <> j -> nth_error l i = Some p -> nth_error l j = Some q -> px p = px q -> py p = py q -> pz p = pz q ->
  exists h h', exact_potential G junk "fortran" g = Ok h /\ exact_potential G junk "numpy" g = Ok h' /\
    nth_error (all_pots h) i = Some XNInf /\
    nth_error (all_pots h') i = Some (XR (- (G * numpy_row 0 u i p l))).
Proof.
  intros G junk u g l i j p q HG Hb So Hu Hm Hij Hp Hq E1 E2 E3.
  destruct (c21_value G junk u g l 0 Hu Hb So) as (h' & Hh' & _ & V').
  destruct Hb as (Hg & Hpo & ls & ld & lg & El & Hs & Hd & Hgs).
  destruct (holds_gx g ls ld lg Hs Hd Hgs) as (Ex & Ey & Ez & Em). rewrite <- El in *.
  destruct (c19_result RX RX RX_rounded idx idx (backend_table (S:=RX) (XR G) true junk) "fortran"
     (fortran_potential (S:=RX) (XR G) true) g Hg Hpo eq_refl) as (s' & So' & K).
  assert (s' = XR 0) by (eapply softening_unique; eauto). subst s'.
  rewrite !map_idx, all_x_gx, all_y_gy, all_z_gz, all_m_gm, Ex, Ey, Ez, Em in K. change (idx (XR 0)) with (XR 0) in K.
  specialize (K _ eq_refl). destruct K as (h & Hh & _ & _ & _ & Hpots & _).
  { rewrite map_length, fortran_kernel_length, bodies_map, map_length.
    rewrite <- gm_length, Em. apply eq_sym, map_length. }
  exists h, h'. split; [exact Hh|]. split; [exact Hh'|]. split; [|now apply V'].
  rewrite Hpots, !nth_error_map.
  rewrite (fortran_kernel_nth (S:=RX) _ _ _ _ _ i (srcR p)) by (rewrite sources_map, nth_error_map, Hp; reflexivity).
  cbn [option_map]. unfold pair_sum. rewrite sources_map, others_map. change (n0 : RX) with (XR 0).
  assert (Z : sdist 0 p q = 0).
  { unfold sdist. rewrite E1, E2, E3. replace (_ + 0 * 0) with 0 by ring. apply sqrt_0. }
  assert (I : In q (others l i)).
  { unfold others. apply in_app_iff. destruct (Nat.lt_ge_cases j i).
    - left. apply (nth_error_In _ j). rewrite <- (firstn_skipn i l) in Hq.
      assert (i <= length l)%nat by (apply Nat.lt_le_incl, nth_error_Some; congruence).
      rewrite nth_error_app1 in Hq by (rewrite firstn_length; lia). exact Hq.
    - right. apply (nth_error_In _ (j - S i)). rewrite <- (firstn_skipn (S i) l) in Hq.
      assert (i < length l)%nat by (apply nth_error_Some; congruence).
      rewrite nth_error_app2 in Hq by (rewrite firstn_length; lia).
      rewrite firstn_length, Nat.min_l in Hq by lia. exact Hq. }
  assert (Pm : forall r, In r (others l i) -> 0 < pm r).
  { intros r Hr. apply others_In in Hr as (k & _ & Hk). apply Hm. eapply nth_error_In; eauto. }
  assert (F : forall lo (acc : RX), (forall r, In r lo -> 0 < pm r) ->
     acc = XPInf \/ ((exists a, acc = XR a) /\ In q lo) ->
     fold_left (fun (acc : RX) r => (acc + src_m r / soft_dist (S:=RX) (XR 0) (srcR p) r)%num) (map srcR lo) acc = XPInf).
  { clear - Z. induction lo as [|r lo IH]; intros acc Hm H; cbn [map fold_left].
    - destruct H as [H|[_ []]]. exact H.
    - apply IH; [intros; apply Hm; simpl; auto|]. rewrite soft_dist_real. 
      assert (Hr : 0 < pm r) by (apply Hm; simpl; auto). unfold src_m. simpl.
      destruct (Req_EM_T (sdist 0 p r) 0) as [D|D].
      + left. rewrite Rcompare_Gt by exact Hr. simpl. destruct H as [->|[[a ->] _]]; reflexivity.
      + destruct H as [->|[[a ->] [->|Hin]]]; [left; reflexivity|contradiction|right; split; [eexists; reflexivity|exact Hin]]. }
  rewrite F; [|exact Pm|right; eauto]. unfold idx. simpl. now rewrite Rcompare_Gt by exact HG.
Qed.

Example ex_c21 :
  (exists h, exact_potential 1 (fun _ _ => XR 0) "numpy" galP3 = Ok h /\ exact_potential 1 (fun _ _ => XR 0) "fortran" galP3 = Ok h) /\
  (exists junk junk' h h', exact_potential 1 junk "numpy" galP3 = Ok h /\ exact_potential 1 junk' "numpy" galP3 = Ok h' /\
    forall i, (i < 3)%nat -> nth_error (all_pots h) i <> nth_error (all_pots h') i).
Proof.
  split.
  - apply (c21_agree 1 (fun _ _ => XR 0) galP3 exP 0); [apply galP3_bare|apply galP3_soft|apply exP_apart|reflexivity].
  - apply (c21_depends 1 galP3 exP 0); [lra|apply galP3_bare|apply galP3_soft].
Qed.

(** Single precision: the same galaxy with memory holding zeros, sevens and NaN; and two
    stars in the same place. *)
Example ex_c21_float :
  let run j := rmap (fun h => shows (all_pots h))
    (do g <- galP; potential (W:=F64) (S:=F32) to32 to64 (backend_table n1 true j) "numpy" g) in
  run junk0 = Ok [sZ (-4); sZ (-5); sQ (-5) 2] /\
  run (fun _ _ => nofZ 7) = Ok [sZ (-11); sZ (-12); sQ (-19) 2] /\
  run (fun _ _ => nnan) = Ok [S754_nan; S754_nan; S754_nan].
Proof. vm_compute. auto. Qed.
Example ex_c21_coincident :
  let g := do s <- (zset STARS [1; 2] [3; 3] [4; 4] [5; 5] [0; 0] [0; 0] [0; 0] None 0)%Z;
           do d <- (zset DARK_MATTER [] [] [] [] [] [] [] None 0)%Z;
           do q <- (zset GAS [] [] [] [] [] [] [] None 0)%Z; mk_galaxy s d q in
  let run (n : string) j := rmap (fun h => shows (all_pots h))
    (do g <- g; potential (W:=F64) (S:=F32) to32 to64 (backend_table n1 true j) n g) in
  run "fortran"%string junk0 = Ok [S754_infinity true; S754_infinity true] /\
  run "numpy"%string junk0 = Ok [S754_zero true; S754_zero true] /\
  run "numpy"%string (fun _ _ => nofZ 7) = Ok [sZ (-14); sZ (-14)].
Proof. vm_compute. auto. Qed.
Example ex_c21_coincident_exact :
  let l := [Part 1 3 4 5 0 0 0; Part 2 3 4 5 0 0 0] in
  exists h h', exact_potential 1 (fun _ _ => XR 7) "fortran" (galR l [] []) = Ok h /\
    exact_potential 1 (fun _ _ => XR 7) "numpy" (galR l [] []) = Ok h' /\
    nth_error (all_pots h) 0 = Some XNInf /\
    nth_error (all_pots h') 0 = Some (XR (- (1 * numpy_row 0 (fun _ _ => 7) 0 (Part 1 3 4 5 0 0 0) l))).
Proof.
  intros l.
  apply (c21_coincident 1 (fun _ _ => XR 7) (fun _ _ => 7) (galR l [] []) l 0 1 _ (Part 2 3 4 5 0 0 0));
    try reflexivity; try lra; try discriminate.
  - split; [apply galR_ok|]. split; [reflexivity|]. exists l, [], [].
    split; [now rewrite app_nil_r|]. split; [|split]; apply psetR_holds.
  - apply galR_soft. discriminate.
  - intros r [<-|[<-|[]]]; simpl; lra.
Qed.

(** *** C23 *)

(** The backend sees the galaxy's softening only through the largest one: two backends
    that agree at that softening give the same result, and one that fails exactly there
    makes [potential] fail. *)
Lemma c23_softening : forall (W S : Num), Rounded W -> forall (cast : W -> S) (lift : S -> W) (g : galaxy W),
  constructible g -> g_haspot g = false ->
  exists s, largest_softening g s /\
    (forall (table table' : dict (backend S)) name f f', dget table name = Some f -> dget table' name = Some f' ->
      (forall x y z m, f x y z m (cast s) = f' x y z m (cast s)) ->
      potential cast lift table name g = potential cast lift table' name g) /\
    (forall (table : dict (backend S)) name f e, dget table name = Some f -> (forall x y z m, f x y z m (cast s) = Raise e) ->
      potential cast lift table name g = Raise e).
Proof.
  intros W S RW cast lift g Hg Hp. apply constructible_ok in Hg.
  exists (pd_max (gsoft g)). split; [apply (pd_max_softening RW)|]. split.
  - intros table table' name f f' H H' E.
    rewrite (potential_eq _ _ _ _ _ _ Hg Hp H), (potential_eq _ _ _ _ _ _ Hg Hp H'), E. reflexivity.
  - intros table name f e H E. rewrite (potential_eq _ _ _ _ _ _ Hg Hp H), E. reflexivity.
Qed.

(** In exact arithmetic there is only one such softening. *)
Lemma c23_unique : forall (g : galaxy RX) s s', largest_softening g s -> largest_softening g s' -> s = s'.
Proof. exact softening_unique. Qed.

(** Softenings of empty sets are irrelevant. *)
Lemma c23_empty : forall (W S : Num) (cast : W -> S) (lift : S -> W) (table : dict (backend S)) name (g g' : galaxy W),
  constructible g -> constructible g' -> g_haspot g = false -> g_haspot g' = false ->
  Forall2 (fun p p' => p_m p = p_m p' /\ p_x p = p_x p' /\ p_y p = p_y p' /\ p_z p = p_z p' /\
    (plen p <> 0%nat -> p_soft p = p_soft p')) (sets g) (sets g') ->
  (forall f, dget table name = Some f -> forall x y z m s pot, f x y z m s = Ok pot -> length pot = length m) ->
  match potential cast lift table name g, potential cast lift table name g' with
  | Ok h, Ok h' => all_pots h = all_pots h'
  | Raise e, Raise e' => e = e'
  | _, _ => False
  end.
Proof.
  intros W S cast lift table name g g' Hg Hg' Hp Hp' F Hl. apply constructible_ok in Hg, Hg'.
  destruct (dget table name) as [f|] eqn:Hf.
  2:{ assert (K : forall g0 : galaxy W, g_haspot g0 = false -> potential cast lift table name g0 = Raise KeyError).
      { intros g0 H0. unfold potential. rewrite H0, Hf. reflexivity. }
      now rewrite (K g Hp), (K g' Hp'). }
  specialize (Hl f eq_refl). unfold sets in F.
  inversion F as [|? ? ? ? (A1 & A2 & A3 & A4 & A5) F1]; subst. 
  inversion F1 as [|? ? ? ? (B1 & B2 & B3 & B4 & B5) F2]; subst.
  inversion F2 as [|? ? ? ? (C1 & C2 & C3 & C4 & C5) _]; subst.
  assert (Ex : gx g = gx g') by (unfold gx; congruence).
  assert (Ey : gy g = gy g') by (unfold gy; congruence).
  assert (Ez : gz g = gz g') by (unfold gz; congruence).
  assert (Em : gm g = gm g') by (unfold gm; congruence).
  assert (P : forall p p' : pset W, p_m p = p_m p' -> plen p = plen p') by (unfold plen; intros p p' ->; auto).
  assert (Q : forall p p' : pset W, p_m p = p_m p' -> (plen p <> 0%nat -> p_soft p = p_soft p') ->
     repeat (p_soft p) (plen p) = repeat (p_soft p') (plen p')).
  { intros p p' H K. rewrite (P p p' H) in *. destruct (plen p'); [reflexivity|]. now rewrite K. }
  assert (Es : gsoft g = gsoft g').
  { unfold gsoft. rewrite (Q _ _ A1 A5), (Q _ _ B1 B5), (Q _ _ C1 C5). reflexivity. }
  destruct (f (map cast (gx g)) (map cast (gy g)) (map cast (gz g)) (map cast (gm g)) (cast (pd_max (gsoft g)))) as [pot|e] eqn:E.
  - assert (L : length pot = glen g) by (rewrite (Hl _ _ _ _ _ _ E), map_length; apply gm_length).
    assert (L' : length pot = glen g') by (rewrite L, <- !gm_length; congruence).
    rewrite (potential_ok cast lift table name g f pot), (potential_ok cast lift table name g' f pot) by (congruence || auto).
    unfold all_pots; simpl. rewrite !app_nil_r, <- !map_app, !split3. reflexivity.
  - rewrite (potential_eq _ _ _ _ _ _ Hg Hp Hf), (potential_eq _ _ _ _ _ _ Hg' Hp' Hf).
    rewrite <- Ex, <- Ey, <- Ez, <- Em, <- Es, E. reflexivity.
Qed.

(** Softenings 3 (stars), 7 (dark matter, empty), NaN (one gas particle): a backend that
    returns the softening it is given yields 3 -- and 7 with one dark matter particle. *)
Definition echo : backend F32 := fun x y z m s => Ok (map (fun _ => s) m).
Definition galS (dmx : list Z) : res (galaxy F64) :=
  let zero := map (fun _ => 0%Z) dmx in
  do s <- (zset STARS [1; 2] [0; 1] [0; 0] [0; 0] [0; 0] [0; 0] [0; 0] None 3)%Z;
  do d <- zset DARK_MATTER dmx dmx zero zero zero zero zero None 7;
  do q <- mk_pset (N:=F64) GAS (fZs [4%Z]) (fZs [2%Z]) (fZs [0%Z]) (fZs [0%Z]) (fZs [0%Z]) (fZs [0%Z]) (fZs [0%Z]) None nnan;
  mk_galaxy s d q.
Example ex_c23 :
  let run d := rmap (fun h => shows (all_pots h))
    (do g <- galS d; potential (W:=F64) (S:=F32) to32 to64 [("echo"%string, echo)] "echo" g) in
  run [] = Ok [sZ (-3); sZ (-3); sZ (-3)] /\ run [5%Z] = Ok [sZ (-7); sZ (-7); sZ (-7); sZ (-7)].
Proof. vm_compute. auto. Qed.
