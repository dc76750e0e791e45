(** The histogram decompositions in floating point are those of exact arithmetic (C85). *)
From Verif Require Import Py Num RX F64 Np Df Data DataFacts DfFacts CenterFacts Ex Spec DataThms Circ CircFacts CircThms Base BaseFacts Threshold SpecHist Hist HistFacts HistThms EdgeFacts MirrorThms SpinAccThms SpecSplit.
From Flocq Require Import Core.
From Coq Require Import Lra Lia Floats.SpecFloat.
Local Open Scope R_scope.

(** *** Comparisons decide *)
Section Same.
Context {N1 N2 : Num}.

(** The two values compare in the same way with the edges. *)
Definition alike (e1 : list N1) (e2 : list N2) (n : nat) (x1 : N1) (x2 : N2) : Prop := forall i, (i <= n)%nat ->
  nle (nth i e1 nnan) x1 = nle (nth i e2 nnan) x2 /\ nlt x1 (nth i e1 nnan) = nlt x2 (nth i e2 nnan) /\
  nle x1 (nth i e1 nnan) = nle x2 (nth i e2 nnan).

Lemma map_alike {A B C} (R : A -> B -> Prop) (f : A -> C) (g : B -> C) l r : Forall2 R l r -> (forall a b, R a b -> f a = g b) -> map f l = map g r.
Proof. induction 1; intros H'; cbn [map]; [reflexivity|]. f_equal; auto. Qed.

Lemma btp_same e1 e2 n eps1 eps2 : (1 <= n)%nat -> length e1 = length e2 -> Forall2 (alike e1 e2 n) eps1 eps2 ->
  bin_to_particle e1 n eps1 = bin_to_particle e2 n eps2.
Proof.
  intros Hn L F. unfold bin_to_particle. f_equal.
  - apply map_ext_in. intros i I. apply in_seq in I. do 2 f_equal. apply (map_alike _ _ _ _ _ F). intros a b H.
    destruct (H i ltac:(lia)) as (-> & _), (H (S i) ltac:(lia)) as (_ & -> & _). reflexivity.
  - f_equal. rewrite !removelast_firstn_len, !firstn_length, L. reflexivity.
  - f_equal. apply (map_alike _ _ _ _ _ F). intros a b H. destruct (H (n - 1)%nat ltac:(lia)) as (-> & _), (H n ltac:(lia)) as (_ & _ & ->). reflexivity.
Qed.

Context {St : Type}.

Lemma fold_corot p1 p2 bin0 btp l acc : (forall st cnt cor, p1 st cnt cor = p2 st cnt cor) ->
  fold_left (corot_step (St:=St) p1 bin0 btp) l acc = fold_left (corot_step p2 bin0 btp) l acc.
Proof.
  intros H. revert acc. induction l as [|a l IH]; intros acc; cbn [fold_left]; [reflexivity|]. rewrite IH. f_equal.
  unfold corot_step. destruct acc as [(sph & st)|]; [|reflexivity]. cbn [bind]. destruct (bget btp a); [|reflexivity]. cbn [bind]. destruct (bget btp _); [|reflexivity]. cbn [bind].
  destruct (_ <=? _)%nat; [reflexivity|]. now rewrite H.
Qed.

Lemma split_same p1 p2 junk n_bin digits (st : St) (eps1 : list N1) (eps2 : list N2) e1 e2 bin0 :
  (1 <= n_bin)%Z -> (forall st cnt cor, p1 st cnt cor = p2 st cnt cor) ->
  make_histogram eps1 n_bin digits = Ok (e1, bin0) -> make_histogram eps2 n_bin digits = Ok (e2, bin0) ->
  length e1 = length e2 -> Forall2 (alike e1 e2 (Z.to_nat n_bin)) eps1 eps2 ->
  hist_split p1 junk n_bin digits st eps1 = hist_split p2 junk n_bin digits st eps2.
Proof.
  intros Hn Hp H1 H2 L F. unfold hist_split. rewrite H1, H2. cbn [bind].
  rewrite (btp_same e1 e2 (Z.to_nat n_bin) eps1 eps2 ltac:(lia) L F), (Forall2_length _ _ _ F).
  destruct (make_count_sph _ _) as [sph|]; [|reflexivity]. cbn [bind]. unfold make_corot_sph. now rewrite (fold_corot p1 p2) by exact Hp.
Qed.

Variable choice : St -> list nat -> nat -> list nat * St.
(** The selection by energy. *)
Lemma take_same l1 l2 idx (R : N1 -> N2 -> Prop) : Forall2 R l1 l2 ->
  match take_at l1 idx, take_at l2 idx with Ok a, Ok b => Forall2 R a b | Raise x, Raise y => x = y | _, _ => False end.
Proof.
  intros F. unfold take_at. induction idx as [|i idx IH]; cbn [mapM]; [constructor|].
  assert (E : match nth_error l1 i, nth_error l2 i with Some a, Some b => R a b | None, None => True | _, _ => False end).
  { clear IH. revert i. induction F; intros [|i]; cbn; auto. apply IHF. }
  destruct (nth_error l1 i), (nth_error l2 i); try contradiction; cbn [bind]; [|reflexivity].
  destruct (mapM _ idx), (mapM _ idx); try contradiction; cbn [bind]; auto.
Qed.

Lemma hist_same start1 stop1 start2 stop2 n_bin a1 a2 :
  Forall2 (alike (linspace start1 stop1 (Z.to_nat n_bin)) (linspace start2 stop2 (Z.to_nat n_bin)) (Z.to_nat n_bin)) a1 a2 ->
  match np_histogram a1 n_bin start1 stop1, np_histogram a2 n_bin start2 stop2 with
  | Ok (c1, e1), Ok (c2, e2) => c1 = c2 /\ e1 = linspace start1 stop1 (Z.to_nat n_bin) /\ e2 = linspace start2 stop2 (Z.to_nat n_bin)
  | Raise x, Raise y => x = y | _, _ => False end.
Proof.
  intros F. unfold np_histogram. destruct (1 <=? n_bin)%Z; cbn [guard bind]; [|reflexivity]. split; [|auto].
  apply map_ext_in. intros i I. apply in_seq in I. f_equal. apply (map_alike _ _ _ _ _ F). intros a b H. unfold in_bin.
  destruct (H i ltac:(lia)) as (-> & _), (H (S i) ltac:(lia)) as (_ & -> & ->). reflexivity.
Qed.

Lemma pick_same energy1 energy2 n_bin_E st cnt cor :
  Forall2 (alike (linspace nm1 n0 (Z.to_nat n_bin_E)) (linspace nm1 n0 (Z.to_nat n_bin_E)) (Z.to_nat n_bin_E)) energy1 energy2 ->
  pick_energy choice energy1 n_bin_E st cnt cor = pick_energy choice energy2 n_bin_E st cnt cor.
Proof.
  intros F. unfold pick_energy.
  pose proof (take_same _ _ cnt _ F) as T1. destruct (take_at energy1 cnt) as [c1|x1], (take_at energy2 cnt) as [c2|x2]; try contradiction; cbn [bind]; [|congruence].
  pose proof (hist_same _ _ _ _ _ _ _ T1) as H1. destruct (np_histogram c1 _ _ _) as [(h1 & e1)|], (np_histogram c2 _ _ _) as [(h2 & e2)|]; try contradiction; cbn [bind]; [|congruence]. destruct H1 as (-> & _ & _).
  pose proof (take_same _ _ cor _ F) as T2. destruct (take_at energy1 cor) as [r1|y1], (take_at energy2 cor) as [r2|y2]; try contradiction; cbn [bind]; [|congruence].
  pose proof (hist_same _ _ _ _ _ _ _ T2) as H2. destruct (np_histogram r1 _ _ _) as [(g1 & f1)|], (np_histogram r2 _ _ _) as [(g2 & f2)|]; try contradiction; cbn [bind]; [|congruence]. destruct H2 as (-> & -> & ->).
  cbn [fst snd]. assert (Q : forall l acc, (forall j, In j l -> (j < Z.to_nat n_bin_E)%nat) ->
    fold_left (energy_step choice (linspace nm1 n0 (Z.to_nat n_bin_E)) cor r1 h2 g2) l acc = fold_left (energy_step choice (linspace nm1 n0 (Z.to_nat n_bin_E)) cor r2 h2 g2) l acc).
  { induction l as [|j l IH]; intros acc Hj; cbn [fold_left]; [reflexivity|]. rewrite IH by (intros j' I; apply Hj; now right). f_equal.
    unfold energy_step. destruct acc as [(aux & st')|]; [|reflexivity]. cbn [bind]. destruct (_ =? 0)%nat; [reflexivity|].
    assert (M : map (fun x => nle (nth j (linspace (N:=N1) nm1 n0 (Z.to_nat n_bin_E)) nnan) x && nlt x (nth (S j) (linspace (N:=N1) nm1 n0 (Z.to_nat n_bin_E)) nnan)) r1 =
      map (fun x => nle (nth j (linspace (N:=N2) nm1 n0 (Z.to_nat n_bin_E)) nnan) x && nlt x (nth (S j) (linspace (N:=N2) nm1 n0 (Z.to_nat n_bin_E)) nnan)) r2).
    { apply (map_alike _ _ _ _ _ T2). intros a b H. specialize (Hj j (or_introl eq_refl)). destruct (H j ltac:(lia)) as (-> & _), (H (S j) ltac:(lia)) as (_ & -> & _). reflexivity. }
    now rewrite M. }
  apply Q. intros j I. apply in_seq in I. lia.
Qed.
End Same.

(** *** The default edges in exact arithmetic *)
Lemma linspaceR a b n i : (0 < n)%nat -> (i <= n)%nat ->
  nth i (linspace (N:=RX) (XR a) (XR b) n) nnan = XR (IZR (Z.of_nat i) * ((b - a) / IZR (Z.of_nat n)) + a).
Proof.
  intros Hn Hi. assert (Z0 : IZR (Z.of_nat n) <> 0) by (apply IZR_neq; lia). unfold linspace.
  assert (D : (ndiv (N:=RX) (nsub (N:=RX) (XR b) (XR a)) (nofZ (Z.of_nat n))) = XR ((b - a) / IZR (Z.of_nat n))) by (change (nsub (N:=RX) (XR b) (XR a)) with (XR (b - a)); apply divRX; exact Z0).
  rewrite D. destruct (Nat.eq_dec i n) as [-> |Ne].
  - rewrite app_nth2 by (rewrite map_length, seq_length; lia). rewrite map_length, seq_length, Nat.sub_diag. cbn [nth]. f_equal. field. exact Z0.
  - rewrite app_nth1 by (rewrite map_length, seq_length; lia).
    set (f := fun i : nat => nadd (N:=RX) (nmul (N:=RX) (nofZ (Z.of_nat i)) (XR ((b - a) / IZR (Z.of_nat n)))) (XR a)).
    rewrite (nth_indep _ _ (f 0%nat)) by (rewrite map_length, seq_length; lia).
    rewrite (map_nth f), seq_nth by lia. reflexivity.
Qed.

Definition edgesR : list RX := map (np_round (N:=RX) 2) (linspace nm1 n1 100).
Lemma edgesR_length : length edgesR = 101%nat.
Proof. unfold edgesR, linspace. rewrite map_length, app_length, map_length, seq_length. reflexivity. Qed.
Lemma edgesR_nth i : (i <= 100)%nat -> nth i edgesR nnan = XR (IZR (Z.of_nat i - 50) / 50).
Proof.
  intros Hi. unfold edgesR. rewrite nth_indep with (d' := np_round (N:=RX) 2 nnan) by (unfold linspace; rewrite map_length, app_length, map_length, seq_length; cbn [length]; lia).
  rewrite map_nth. change (@nm1 RX) with (XR (IZR (-1))). change (@n1 RX) with (XR 1). rewrite linspaceR by lia.
  unfold np_round. change (0 <=? 2)%Z with true. cbv iota. change (pow10 (N:=RX) (Z.to_nat 2)) with (XR 100).
  change (nmul (N:=RX) (XR (IZR (Z.of_nat i) * ((1 - IZR (-1)) / IZR (Z.of_nat 100)) + IZR (-1))) (XR 100)) with (XR ((IZR (Z.of_nat i) * ((1 - IZR (-1)) / IZR (Z.of_nat 100)) + IZR (-1)) * 100)).
  replace ((IZR (Z.of_nat i) * ((1 - IZR (-1)) / IZR (Z.of_nat 100)) + IZR (-1)) * 100) with (IZR (2 * (Z.of_nat i - 50))) by (change (Z.of_nat 100) with 100%Z; rewrite mult_IZR, minus_IZR; field).
  change (nrint (N:=RX) (XR (IZR (2 * (Z.of_nat i - 50))))) with (XR (IZR (ZnearestE (IZR (2 * (Z.of_nat i - 50)))))). rewrite Zrnd_IZR by apply valid_rnd_N.
  rewrite divRX by lra. f_equal. rewrite mult_IZR. field.
Qed.

Lemma first_zero_R (eps : list RX) : make_histogram eps 100 2 = Ok (edgesR, 50%nat).
Proof.
  unfold make_histogram, np_histogram. change (1 <=? 100)%Z with true. cbn [guard bind snd]. change (Z.to_nat 100) with 100%nat. fold edgesR.
  assert (W : map (fun e : RX => neqb e n0) edgesR = map (fun i => (i =? 50)%nat) (seq 0 101)).
  { apply nth_ext with (d := neqb (N:=RX) nnan n0) (d' := (0 =? 50)%nat); [now rewrite !map_length, edgesR_length, seq_length|].
    intros i Hi. rewrite map_length, edgesR_length in Hi. rewrite (map_nth (fun e : RX => neqb e n0)), (map_nth (fun i => (i =? 50)%nat)), seq_nth by lia. rewrite edgesR_nth by lia. cbn [plus].
    destruct (Nat.eqb_spec i 50) as [-> |Ne].
    - apply neqbRX. change (Z.of_nat 50 - 50)%Z with 0%Z. lra.
    - destruct (neqb _ _) eqn:Q; [|reflexivity]. apply neqbRX in Q. exfalso. apply Ne. assert (IZR (Z.of_nat i - 50) = 0) by lra. apply eq_IZR in H. lia. }
  rewrite W. reflexivity.
Qed.

(** *** The default edges in floating point *)
Section Edges64.
Context (sm : list f64 -> f64).
Local Notation RN := (F64_rounded sm).
Local Notation v := (val (F64_rounded sm)).

(** Before the last division the rounded edges are whole numbers. *)
Definition whole_check : bool :=
  forallb (fun p => in60 (snd p) && (of60 (snd p) =? 2 * (Z.of_nat (fst p) - 50) * 2 ^ 60)%Z)
    (combine (seq 0 101) (map (fun x : F64s sm => nrint (x * pow10 2)%num) (linspace nm1 n1 100))).
Lemma whole_default : whole_check = true.
Proof. vm_compute. reflexivity. Qed.

Lemma whole_nth i : (i <= 100)%nat -> v (nth i (edges64 sm 100 2) nnan) = rnd RN (XR (IZR (Z.of_nat i - 50) / 50)).
Proof.
  intros Hi. set (l := linspace (N:=F64s sm) nm1 n1 100). assert (Ll : length l = 101%nat) by (unfold l, linspace; rewrite app_length, map_length, seq_length; reflexivity).
  assert (E : nth i (edges64 sm 100 2) nnan = ndiv (nth i (map (fun x : F64s sm => nrint (x * pow10 2)%num) l) nnan) (pow10 2)).
  { unfold edges64. change (Z.to_nat 100) with 100%nat. fold l. rewrite (nth_indep (map (np_round 2) l) _ (np_round 2 nnan)) by (rewrite map_length, Ll; lia).
    set (f := fun x : F64s sm => nrint (x * pow10 2)%num). rewrite (nth_indep (map f l) _ (f nnan)) by (rewrite map_length, Ll; lia). rewrite map_nth, (map_nth f). reflexivity. }
  pose proof whole_default as W. unfold whole_check in W. fold l in W. rewrite forallb_forall in W. set (m := map (fun x : F64s sm => nrint (x * pow10 2)%num) l) in *.
  assert (Lm : length m = 101%nat) by (unfold m; now rewrite map_length). clearbody m.
  specialize (W (i, nth i m nnan)). assert (I : In (i, nth i m nnan) (combine (seq 0 101) m)).
  { replace (i, nth i m nnan) with (nth i (combine (seq 0 101) m) (0%nat, nnan)); [apply nth_In; rewrite combine_length, seq_length, Lm; lia|].
    rewrite combine_nth by (now rewrite seq_length, Lm). f_equal. apply seq_nth. lia. }
  specialize (W I). apply andb_prop in W as (W1 & W2). cbn [fst snd] in W1, W2. apply Z.eqb_eq in W2.
  assert (P : v (pow10 2) = XR 100) by (change (pow10 2 : F64s sm) with (nofZ 100 : F64s sm); rewrite (val_ofZ RN); apply (rnd_int RN); vm_compute; discriminate).
  rewrite E, (val_div RN) by (rewrite P; injection; lra). rewrite P, (val60 sm _ W1), W2.
  unfold xdiv. f_equal. rewrite mult_IZR, mult_IZR. destruct (Req_EM_T 100 0); [lra|]. f_equal. field. apply IZR_neq. discriminate.
Qed.
Lemma first_zero_64 (eps : list (F64s sm)) : make_histogram eps 100 2 = Ok (edges64 sm 100 2, 50%nat).
Proof.
  unfold make_histogram, np_histogram. change (1 <=? 100)%Z with true. cbn [guard bind snd]. fold (edges64 sm 100 2).
  assert (W : where_ (map (fun e : F64s sm => neqb e n0) (edges64 sm 100 2)) = [50%nat]) by (vm_compute; reflexivity). now rewrite W.
Qed.

(** A double compares with the rounded edge as with the exact one, unless it is the rounded edge. *)
Lemma cmp_rounded (x e : F64s sm) t : v e = rnd RN (XR t) -> v x <> v e \/ v e = XR t ->
  nle e x = nle (N:=RX) (XR t) (v x) /\ nlt x e = nlt (N:=RX) (v x) (XR t) /\ nle x e = nle (N:=RX) (v x) (XR t).
Proof.
  intros Ve D.
  assert (B : forall a b : bool, (a = true <-> b = true) -> a = b) by (intros [|] [|] H; try reflexivity; [symmetry|]; apply H; reflexivity).
  pose proof (rnd_val RN x) as Fx. pose proof (rnd_mono RN (XR t) (v x)) as M1. pose proof (rnd_mono RN (v x) (XR t)) as M2. rewrite Fx, <- Ve in M1, M2.
  assert (Nt : v e <> XNaN) by (rewrite Ve; intros Q; apply (rnd_not_nan RN) in Q; discriminate Q).
  assert (T : xle (v e) (v x) <-> xle (XR t) (v x)).
  { split; [|exact M1]. intros H. destruct D as [D|D]; [|now rewrite <- D]. destruct (v x) as [r| | |] eqn:Ex; cbn [xle xlt] in *; try tauto.
    1:{ destruct (Rle_or_lt t r) as [L|L]; [exact L|]. exfalso. assert (xle (XR r) (v e)) by (apply M2; lra).
      destruct (v e) as [q| | |]; cbn [xle xlt] in *; try tauto. apply D. f_equal. lra. }
    all: destruct (v e); cbn [xle xlt] in *; first [tauto|congruence]. }
  assert (T' : xle (v x) (v e) <-> xle (v x) (XR t)).
  { split; [|exact M2]. intros H. destruct D as [D|D]; [|now rewrite <- D]. destruct (v x) as [r| | |] eqn:Ex; cbn [xle xlt] in *; try tauto.
    1:{ destruct (Rle_or_lt r t) as [L|L]; [exact L|]. exfalso. assert (xle (v e) (XR r)) by (apply M1; lra).
      destruct (v e) as [q| | |]; cbn [xle xlt] in *; try tauto. apply D. f_equal. lra. }
    all: destruct (v e); cbn [xle xlt] in *; first [tauto|congruence]. }
  repeat split; apply B.
  - rewrite (nle_iff RN), (nle_iff RX_rounded). exact T.
  - rewrite (nlt_iff RN), (nlt_iff RX_rounded). change (val RX_rounded (XR t)) with (XR t). change (val RX_rounded (v x)) with (v x).
    destruct (v x) as [r| | |] eqn:Ex, (v e) as [q| | |] eqn:Ee; cbn [xle xlt] in *; try tauto; lra.
  - rewrite (nle_iff RN), (nle_iff RX_rounded). exact T'.
Qed.

Definition half_check : bool :=
  forallb (fun i => in60 (nth i (edges64 sm 100 2) nnan) && (of60 (nth i (edges64 sm 100 2) nnan) =? (Z.of_nat i - 50) / 25 * 2 ^ 59)%Z) [0; 25; 50; 75; 100]%nat.
Lemma half_default : half_check = true.
Proof. vm_compute. reflexivity. Qed.
Lemma half_nth i : (i <= 100)%nat -> ((Z.of_nat i - 50) mod 25 = 0)%Z -> v (nth i (edges64 sm 100 2) nnan) = XR (IZR (Z.of_nat i - 50) / 50).
Proof.
  intros Hi Hm. pose proof half_default as W. unfold half_check in W. rewrite forallb_forall in W. set (E := edges64 sm 100 2) in *. clearbody E. specialize (W i).
  assert (I : In i [0; 25; 50; 75; 100]%nat).
  { apply Z.mod_divide in Hm as (q & Hq); [|discriminate]. cbn [In]. lia. }
  apply W in I. apply andb_prop in I as (I1 & I2). apply Z.eqb_eq in I2. rewrite (val60 sm _ I1), I2. f_equal.
  set (q := ((Z.of_nat i - 50) / 25)%Z). assert (Z.of_nat i - 50 = 25 * q)%Z as -> by (unfold q; pose proof (Z_div_mod_eq_full (Z.of_nat i - 50) 25); lia).
  rewrite !mult_IZR. change (2 ^ 60)%Z with (2 * 2 ^ 59)%Z. rewrite mult_IZR. field. apply IZR_neq. discriminate.
Qed.

Lemma alike_eps (x : F64s sm) : off_edges sm (v x) -> alike (edges64 sm 100 2) edgesR 100 x (v x : RX).
Proof.
  intros H i Hi. rewrite edgesR_nth by exact Hi. apply cmp_rounded; [apply whole_nth; exact Hi|].
  destruct (Z.eq_dec ((Z.of_nat i - 50) mod 25) 0) as [E|E]; [right; now apply half_nth|left]. rewrite whole_nth by exact Hi. apply H; [lia|exact E].
Qed.

Definition energy_check (l : list (F64s sm)) : bool :=
  forallb (fun p => in60 (snd p) && (Z.abs (20 * of60 (snd p) - (Z.of_nat (fst p) - 20) * 2 ^ 60) <=? (if (fst p =? 0)%nat || (fst p =? 20)%nat then 0 else 20 * 2 ^ 7))%Z) (combine (seq 0 21) l).
Lemma energy_default : energy_check (linspace nm1 n0 20) = true.
Proof. vm_compute. reflexivity. Qed.
Lemma alike_energy (x : F64s sm) : off_energies (v x) -> alike (linspace nm1 n0 20) (linspace (N:=RX) nm1 n0 20) 20 x (v x : RX).
Proof.
  intros H i Hi. change (@nm1 RX) with (XR (IZR (-1))). change (@n0 RX) with (XR 0). rewrite linspaceR by lia. change (Z.of_nat 20) with 20%Z.
  pose proof energy_default as W. unfold energy_check in W. rewrite forallb_forall in W. set (l := linspace (N:=F64s sm) nm1 n0 20) in *.
  assert (Ll : length l = 21%nat) by (unfold l, linspace; rewrite app_length, map_length, seq_length; reflexivity). clearbody l.
  specialize (W (i, nth i l nnan)). assert (I : In (i, nth i l nnan) (combine (seq 0 21) l)).
  { replace (i, nth i l nnan) with (nth i (combine (seq 0 21) l) (0%nat, nnan)); [apply nth_In; rewrite combine_length, seq_length, Ll; lia|].
    rewrite combine_nth by (now rewrite seq_length, Ll). f_equal. apply seq_nth. lia. }
  apply W in I. apply andb_prop in I as (I1 & I2). cbn [fst snd] in I1, I2. apply Z.leb_le in I2. pose proof (val60 sm _ I1) as Ve. set (e := nth i l nnan) in *. clearbody e.
  set (t := IZR (Z.of_nat i) * ((0 - IZR (-1)) / 20) + IZR (-1)). set (q := IZR (of60 e) / IZR (2 ^ 60)) in *.
  assert (K : IZR (2 ^ 60) > 0) by (apply IZR_lt; reflexivity).
  assert (D : Rabs (q - t) <= / IZR (2 ^ 53) /\ (i = 0 \/ i = 20 -> q = t)%nat).
  { assert (E : 20 * IZR (2 ^ 60) * (q - t) = IZR (20 * of60 e - (Z.of_nat i - 20) * 2 ^ 60)) by (unfold q, t; rewrite minus_IZR, !mult_IZR, minus_IZR; field; lra).
    assert (A : 20 * IZR (2 ^ 60) * Rabs (q - t) = IZR (Z.abs (20 * of60 e - (Z.of_nat i - 20) * 2 ^ 60))).
    { rewrite abs_IZR, <- E, Rabs_mult, (Rabs_pos_eq (20 * IZR (2 ^ 60))) by lra. reflexivity. }
    apply IZR_le in I2. rewrite <- A in I2. split.
    - assert (B : 20 * IZR (2 ^ 60) * Rabs (q - t) <= IZR (20 * 2 ^ 7)) by (eapply Rle_trans; [exact I2|]; apply IZR_le; destruct (_ || _)%bool; [vm_compute; discriminate|apply Z.le_refl]).
      change (IZR (20 * 2 ^ 7)) with 2560 in B. change (IZR (2 ^ 60)) with 1152921504606846976 in B. change (IZR (2 ^ 53)) with 9007199254740992. lra.
    - intros Hi'. assert (X : ((i =? 0) || (i =? 20))%nat = true) by (destruct Hi' as [-> | ->]; reflexivity). rewrite X in I2. pose proof (Rabs_pos (q - t)).
      assert (Rabs (q - t) = 0) by (change (IZR 0) with 0 in I2; change (IZR (2 ^ 60)) with 1152921504606846976 in I2; lra).
      destruct (Req_dec (q - t) 0) as [Z|Z]; [lra|]. apply Rabs_no_R0 in Z. contradiction. }
  destruct D as (D1 & D2).
  assert (B : forall a b : bool, (a = true <-> b = true) -> a = b) by (intros [|] [|] Q; try reflexivity; [symmetry|]; apply Q; reflexivity).
  assert (Dec : forall r, v x = XR r -> q = t \/ / IZR (2 ^ 52) < Rabs (r - t)).
  { intros r Er. destruct (Nat.eq_dec i 0); [left; auto|]. destruct (Nat.eq_dec i 20); [left; auto|]. right. replace t with (IZR (Z.of_nat i) / 20 - 1) by (unfold t; lra). apply (H r); [exact Er|lia]. }
  assert (C : forall r, v x = XR r -> (q <= r <-> t <= r) /\ (r < q <-> r < t) /\ (r <= q <-> r <= t)).
  { intros r Er. destruct (Dec r Er) as [-> |F]; [tauto|]. apply Rabs_le_inv in D1. assert (/ IZR (2 ^ 53) < / IZR (2 ^ 52)) by (change (IZR (2 ^ 53)) with 9007199254740992; change (IZR (2 ^ 52)) with 4503599627370496; lra).
    destruct (Rle_or_lt 0 (r - t)) as [Q|Q]; [rewrite Rabs_pos_eq in F by exact Q|rewrite Rabs_left in F by exact Q]; repeat split; intros; lra. }
  repeat split; apply B.
  - rewrite (nle_iff RN), (nle_iff RX_rounded), Ve. change (val RX_rounded (XR t)) with (XR t). change (val RX_rounded (v x)) with (v x).
    destruct (v x) as [r| | |] eqn:Ex; cbn [xle]; try tauto. apply (C r eq_refl).
  - rewrite (nlt_iff RN), (nlt_iff RX_rounded), Ve. change (val RX_rounded (XR t)) with (XR t). change (val RX_rounded (v x)) with (v x).
    destruct (v x) as [r| | |] eqn:Ex; cbn [xlt]; try tauto. apply (C r eq_refl).
  - rewrite (nle_iff RN), (nle_iff RX_rounded), Ve. change (val RX_rounded (XR t)) with (XR t). change (val RX_rounded (v x)) with (v x).
    destruct (v x) as [r| | |] eqn:Ex; cbn [xle]; try tauto. apply (C r eq_refl).
Qed.

Lemma col_exact k (X : matrix (F64s sm)) : (forall row c, In row X -> nth_error row k = Some c -> exists x, c = CNum x) ->
  matrix_col k (exact_matrix X) = map (fun x => v x : RX) (matrix_col k X).
Proof.
  intros H. unfold matrix_col, exact_matrix. rewrite !map_map. apply map_ext_in. intros row I. specialize (H row).
  destruct (nth_error row k) as [c|] eqn:E.
  - destruct (H c I eq_refl) as (x & ->). rewrite (nth_error_nth _ _ _ E). assert (E' : nth_error (map exact_cell row) k = Some (CNum (N:=RX) (v x))) by now rewrite nth_error_map, E.
    rewrite (nth_error_nth _ _ _ E'). reflexivity.
  - apply nth_error_None in E. rewrite !nth_overflow by (rewrite ?map_length; exact E). change (XNaN = v nnan). now rewrite (val_nnan RN).
Qed.
Lemma forall2_map {A B} (R : A -> B -> Prop) (f : A -> B) l : (forall a, In a l -> R a (f a)) -> Forall2 R l (map f l).
Proof. induction l; intros H; cbn [map]; constructor; [apply H; now left|apply IHl; intros; apply H; now right]. Qed.
End Edges64.

(** JHistogram with the default bins: the labels and the generator are those of exact
    arithmetic on the same circularities, unless one of these is the double next to an edge
    that is no double itself. *)
Lemma c85_jhistogram : forall (sm : list f64 -> f64) (St : Type) choice junk cb cb' (st : St) (X : matrix (F64s sm)) y y' a a',
  (forall row, In row X -> exists x, nth_error row 0 = Some (CNum x) /\ off_edges sm (val (F64_rounded sm) x)) ->
  outcome (d_split (jhistogram choice junk cb 100 2) st X y a) =
  outcome (d_split (jhistogram (N:=RX) choice junk cb' 100 2) st (exact_matrix X) y' a').
Proof.
  intros sm St choice junk cb cb' st X y y' a a' H. cbn [d_split jhistogram].
  rewrite (col_exact sm 0 X) by (intros row c I E; destruct (H row I) as (x & Ex & _); exists x; congruence).
  rewrite <- (split_same (pick_any choice) (pick_any choice) junk 100 2 st (matrix_col 0 X) (map (fun x => val (F64_rounded sm) x : RX) (matrix_col 0 X)) (edges64 sm 100 2) edgesR 50 ltac:(lia) ltac:(reflexivity) (first_zero_64 sm _) (first_zero_R _)).
  - destruct (hist_split _ _ _ _ _ _); reflexivity.
  - rewrite edgesR_length. unfold edges64, linspace. rewrite map_length, app_length, map_length, seq_length. reflexivity.
  - apply forall2_map. intros x I. apply alike_eps. unfold matrix_col in I. apply in_map_iff in I as (row & <- & I). destruct (H row I) as (x & Ex & Ox). rewrite (nth_error_nth _ _ _ Ex). exact Ox.
Qed.

(** JEHistogram with the default bins: the same, if besides no energy is within 2^-52 of an
    inner energy edge. *)
Lemma c85_jehistogram : forall (sm : list f64 -> f64) (St : Type) choice junk cb cb' (st : St) (X : matrix (F64s sm)) y y' a a',
  (forall row, In row X -> exists en x, nth_error row 0 = Some (CNum en) /\ nth_error row 1 = Some (CNum x) /\
     off_energies (val (F64_rounded sm) en) /\ off_edges sm (val (F64_rounded sm) x)) ->
  outcome (d_split (jehistogram choice junk cb 100 2 20) st X y a) =
  outcome (d_split (jehistogram (N:=RX) choice junk cb' 100 2 20) st (exact_matrix X) y' a').
Proof.
  intros sm St choice junk cb cb' st X y y' a a' H. cbn [d_split jehistogram].
  rewrite (col_exact sm 0 X) by (intros row c I E; destruct (H row I) as (en & x & Ee & Ex & _); exists en; congruence).
  rewrite (col_exact sm 1 X) by (intros row c I E; destruct (H row I) as (en & x & Ee & Ex & _); exists x; congruence).
  rewrite <- (split_same (pick_energy choice (matrix_col 0 X) 20) (pick_energy choice (map (fun x => val (F64_rounded sm) x : RX) (matrix_col 0 X)) 20) junk 100 2 st (matrix_col 1 X) (map (fun x => val (F64_rounded sm) x : RX) (matrix_col 1 X)) (edges64 sm 100 2) edgesR 50 ltac:(lia)); [| |apply first_zero_64|apply first_zero_R| |].
  - destruct (hist_split _ _ _ _ _ _); reflexivity.
  - intros s cnt cor. apply pick_same. apply forall2_map. intros x I. apply alike_energy. unfold matrix_col in I. apply in_map_iff in I as (row & <- & I). destruct (H row I) as (en & x & Ee & _ & Oe & _). rewrite (nth_error_nth _ _ _ Ee). exact Oe.
  - rewrite edgesR_length. unfold edges64, linspace. rewrite map_length, app_length, map_length, seq_length. reflexivity.
  - apply forall2_map. intros x I. apply alike_eps. unfold matrix_col in I. apply in_map_iff in I as (row & <- & I). destruct (H row I) as (en & x & _ & Ex & _ & Ox). rewrite (nth_error_nth _ _ _ Ex). exact Ox.
Qed.

(** *** Examples *)
Definition off_check sm (edges : list (F64s sm)) (x : F64s sm) : bool :=
  in60 x && forallb (fun p => ((Z.of_nat (fst p) - 50) mod 25 =? 0)%Z || in60 (snd p) && negb (of60 (snd p) =? of60 x)%Z)%bool (combine (seq 0 101) edges).
Lemma off_check_spec sm x : off_check sm (edges64 sm 100 2) x = true -> off_edges sm (val (F64_rounded sm) x).
Proof.
  intros H k Hk Hm E. apply andb_prop in H as (H1 & H2). rewrite forallb_forall in H2.
  replace (IZR k / 50) with (IZR (Z.of_nat (Z.to_nat (k + 50)) - 50) / 50) in E by (do 2 f_equal; lia). rewrite <- whole_nth in E by lia.
  assert (L : length (edges64 sm 100 2) = 101%nat) by (unfold edges64, linspace; rewrite map_length, app_length, map_length, seq_length; reflexivity).
  set (l := edges64 sm 100 2) in *. clearbody l.
  specialize (H2 (Z.to_nat (k + 50), nth (Z.to_nat (k + 50)) l nnan)). assert (I : In (Z.to_nat (k + 50), nth (Z.to_nat (k + 50)) l nnan) (combine (seq 0 101) l)).
  { replace (Z.to_nat (k + 50), nth (Z.to_nat (k + 50)) l nnan) with (nth (Z.to_nat (k + 50)) (combine (seq 0 101) l) (0%nat, nnan)); [apply nth_In; rewrite combine_length, seq_length, L; lia|].
    rewrite combine_nth by (now rewrite seq_length, L). f_equal. apply seq_nth. lia. }
  apply H2 in I. cbn [fst snd] in I. set (e := nth _ _ _) in *. clearbody e.
  apply orb_prop in I as [I|I]; [apply Z.eqb_eq in I; replace (Z.of_nat (Z.to_nat (k + 50)) - 50)%Z with k in I by lia; contradiction|].
  apply andb_prop in I as (I2 & I3). rewrite (val60 sm x H1), (val60 sm e I2) in E. injection E as E. apply negb_true_iff, Z.eqb_neq in I3. apply I3. apply eq_IZR.
  apply Rmult_eq_reg_r with (/ IZR (2 ^ 60)); [symmetry; exact E|]. apply Rinv_neq_0_compat, IZR_neq. discriminate.
Qed.
Definition off_energy_check sm (x : F64s sm) : bool :=
  in60 x && forallb (fun i => (20 * 2 ^ 8 <? Z.abs (20 * of60 x - (Z.of_nat i - 20) * 2 ^ 60))%Z) (seq 1 19).
Lemma off_energy_spec sm x : off_energy_check sm x = true -> off_energies (val (F64_rounded sm) x).
Proof.
  intros H r i Er Hi. apply andb_prop in H as (H1 & H2). rewrite forallb_forall in H2. rewrite (val60 sm x H1) in Er. injection Er as <-.
  specialize (H2 (Z.to_nat i) ltac:(apply in_seq; lia)). apply Z.ltb_lt in H2. rewrite Z2Nat.id in H2 by lia. apply IZR_lt in H2. rewrite abs_IZR in H2.
  assert (K : IZR (2 ^ 60) > 0) by (apply IZR_lt; reflexivity).
  replace (IZR (20 * of60 x - (i - 20) * 2 ^ 60)) with (20 * IZR (2 ^ 60) * (IZR (of60 x) / IZR (2 ^ 60) - (IZR i / 20 - 1))) in H2 by (rewrite minus_IZR, !mult_IZR, minus_IZR; field; lra).
  rewrite Rabs_mult, (Rabs_pos_eq (20 * IZR (2 ^ 60))) in H2 by lra. set (d := Rabs _) in *. clearbody d.
  change (IZR (20 * 2 ^ 8)) with 5120 in H2. change (IZR (2 ^ 60)) with 1152921504606846976 in *. change (IZR (2 ^ 52)) with 4503599627370496. lra.
Qed.

(** The first entries, and the number of draws. *)
Definition firsts (st : nat) (l : list nat) (k : nat) : list nat * nat := (firstn k l, S st).
Definition hundredths (l : list Z) : matrix F64 := map (fun z => [CNum (nlit z 100)]) l.
(** Circularities 0.07, 0.07, 0.05, -0.07, 1 and -1: one of the first two is drawn into the
    spheroid, in floating point and in exact arithmetic. *)
Example ex_c85 :
  (forall row, In row (hundredths [7; 7; 5; -7; 100; -100]%Z) -> exists x, nth_error row 0 = Some (CNum x) /\ off_edges (seqsum 53 1024 p53 e1024) (val (F64_rounded (seqsum 53 1024 p53 e1024)) x)) /\
  outcome (d_split (jhistogram (N:=RX) firsts (fun _ => 7%Z) (XR 0, XR 0) 100 2) 0%nat (exact_matrix (hundredths [7; 7; 5; -7; 100; -100]%Z)) [] []) = Ok ([0; 1; 1; 0; 0; 0]%Z, 2%nat).
Proof.
  assert (O : forall row, In row (hundredths [7; 7; 5; -7; 100; -100]%Z) -> exists x, nth_error row 0 = Some (CNum x) /\ off_edges (seqsum 53 1024 p53 e1024) (val (F64_rounded (seqsum 53 1024 p53 e1024)) x)).
  { assert (B : forallb (fun z => off_check (seqsum 53 1024 p53 e1024) (edges64 (seqsum 53 1024 p53 e1024) 100 2) (nlit z 100)) [7; 7; 5; -7; 100; -100]%Z = true) by (vm_compute; reflexivity).
    rewrite forallb_forall in B. intros row I. apply in_map_iff in I as (z & <- & I). exists (nlit z 100). split; [reflexivity|]. apply off_check_spec, B, I. }
  split; [exact O|].
  rewrite <- (c85_jhistogram (seqsum 53 1024 p53 e1024) nat firsts (fun _ => 7%Z) (n0, n0) (XR 0, XR 0) 0%nat (hundredths [7; 7; 5; -7; 100; -100]%Z) [] [] [] [] O). vm_compute. reflexivity.
Qed.

(** An exact value [t] between two neighbouring edges, in place of another one. *)
Lemma between_alike m a b : (IZR m / 50 < a < IZR (m + 1) / 50) -> (IZR m / 50 < b < IZR (m + 1) / 50) -> alike edgesR edgesR 100 (XR a) (XR b).
Proof.
  intros A B i Hi. rewrite edgesR_nth by exact Hi. set (k := (Z.of_nat i - 50)%Z).
  assert (C : (k <= m \/ m + 1 <= k)%Z) by lia.
  assert (D : forall r, IZR m / 50 < r < IZR (m + 1) / 50 -> (IZR k / 50 <= r <-> (k <= m)%Z) /\ (r < IZR k / 50 <-> (m + 1 <= k)%Z) /\ (r <= IZR k / 50 <-> (m + 1 <= k)%Z)).
  { intros r Hr. destruct C as [C|C]; apply IZR_le in C as C'; repeat split; intros; try lra; try lia; exfalso; lra || lia. }
  assert (E : forall x y : bool, (x = true <-> y = true) -> x = y) by (intros [|] [|] Q; try reflexivity; [symmetry|]; apply Q; reflexivity).
  destruct (D a A) as (A1 & A2 & A3), (D b B) as (B1 & B2 & B3).
  repeat split; apply E; rewrite ?nleRX, ?nltRX; tauto.
Qed.

(** The condition is needed: the circularity 0.06, as a double, is below the exact edge but
    in the bin that begins there. *)
Lemma c85_edge_refuted : exists (X : matrix F64) y y' a a', (forall row, In row X -> exists x, nth_error row 0 = Some (CNum x)) /\
  outcome (d_split (jhistogram firsts (fun _ => 7%Z) (n0, n0) 100 2) 0%nat X y a) = Ok ([0; 0]%Z, 0%nat) /\
  outcome (d_split (jhistogram (N:=RX) firsts (fun _ => 7%Z) (XR 0, XR 0) 100 2) 0%nat (exact_matrix (sm:=seqsum 53 1024 p53 e1024) X) y' a') = Ok ([1; 0]%Z, 1%nat).
Proof.
  exists (hundredths [6; -7]%Z), [], [], [], []. split; [intros row I; apply in_map_iff in I as (z & <- & _); eexists; reflexivity|]. split; [vm_compute; reflexivity|].
  set (sm := seqsum 53 1024 p53 e1024).
  transitivity (outcome (d_split (jhistogram (N:=RX) firsts (fun _ => 7%Z) (XR 0, XR 0) 100 2) 0%nat (exact_matrix (sm:=sm) (hundredths [5; -7]%Z)) [] [])).
  - assert (CE : forall l, matrix_col 0 (exact_matrix (sm:=sm) (hundredths l)) = map (fun x => val (F64_rounded sm) x : RX) (matrix_col 0 (hundredths l))).
    { intros l. apply (col_exact sm 0). intros row c I E. apply in_map_iff in I as (z & <- & _). exists (nlit z 100). now inversion E. }
    cbn [d_split jhistogram]. rewrite !CE.
    assert (C : in60 (nlit 6 100 : F64) = true /\ in60 (nlit 5 100 : F64) = true /\ in60 (nlit (-7) 100 : F64) = true /\
      ((2 * 2 ^ 60 <? 50 * of60 (nlit 6 100 : F64)) && (50 * of60 (nlit 6 100 : F64) <? 3 * 2 ^ 60) && (2 * 2 ^ 60 <? 50 * of60 (nlit 5 100 : F64)) && (50 * of60 (nlit 5 100 : F64) <? 3 * 2 ^ 60)
      && (-4 * 2 ^ 60 <? 50 * of60 (nlit (-7) 100 : F64)) && (50 * of60 (nlit (-7) 100 : F64) <? -3 * 2 ^ 60))%Z = true) by (vm_compute; auto).
    destruct C as (C6 & C5 & C7 & C). apply val60 with (sm := sm) in C6, C5, C7.
    assert (K : IZR (2 ^ 60) > 0) by (apply IZR_lt; reflexivity).
    assert (Q : forall p q, (p * 2 ^ 60 <? 50 * q)%Z = true -> IZR p / 50 < IZR q / IZR (2 ^ 60)).
    { intros p q H. apply Z.ltb_lt, IZR_lt in H. rewrite !mult_IZR in H. apply Rmult_lt_reg_r with (50 * IZR (2 ^ 60)); [lra|]. field_simplify; lra. }
    assert (Q' : forall p q, (50 * q <? p * 2 ^ 60)%Z = true -> IZR q / IZR (2 ^ 60) < IZR p / 50).
    { intros p q H. apply Z.ltb_lt, IZR_lt in H. rewrite !mult_IZR in H. apply Rmult_lt_reg_r with (50 * IZR (2 ^ 60)); [lra|]. field_simplify; lra. }
    apply andb_prop in C as (C & K6). apply andb_prop in C as (C & K5). apply andb_prop in C as (C & K4). apply andb_prop in C as (C & K3). apply andb_prop in C as (K1 & K2).
    apply Q in K1, K3, K5. apply Q' in K2, K4, K6.
    rewrite (split_same (pick_any firsts) (pick_any firsts) (fun _ => 7%Z) 100 2 0%nat _ (map (fun x => val (F64_rounded sm) x : RX) (matrix_col 0 (hundredths [5; -7]%Z))) edgesR edgesR 50 ltac:(lia) ltac:(reflexivity) (first_zero_R _) (first_zero_R _) eq_refl); [reflexivity|].
    unfold matrix_col, hundredths. cbn [map nth cell_num]. constructor; [|constructor; [|constructor]].
    + change (val (F64_rounded sm) (nlit 6 100)) with (val (F64_rounded sm) (nlit 6 100 : F64)). change (Z.to_nat 100) with 100%nat. rewrite C6, C5. apply (between_alike 2); split; assumption.
    + change (Z.to_nat 100) with 100%nat. rewrite C7. apply (between_alike (-4)); split; assumption.
  - assert (O : forall row, In row (hundredths [5; -7]%Z) -> exists x, nth_error row 0 = Some (CNum x) /\ off_edges sm (val (F64_rounded sm) x)).
    { assert (B : forallb (fun z => off_check sm (edges64 sm 100 2) (nlit z 100)) [5; -7]%Z = true) by (vm_compute; reflexivity).
      rewrite forallb_forall in B. intros row I. apply in_map_iff in I as (z & <- & I). exists (nlit z 100). split; [reflexivity|]. apply off_check_spec, B, I. }
    rewrite <- (c85_jhistogram sm nat firsts (fun _ => 7%Z) (n0, n0) (XR 0, XR 0) 0%nat (hundredths [5; -7]%Z) [] [] [] [] O). vm_compute. reflexivity.
Qed.

Definition pairs100 (l : list (Z * Z)) : matrix F64 := map (fun p => [CNum (nlit (fst p) 100); CNum (nlit (snd p) 100)]) l.
Definition pairs85 : list (Z * Z) := [(-93, 7); (-51, 7); (-52, 7); (-24, 7); (-93, -7); (-51, -7)]%Z.
(** Pairs of an energy and a circularity, in hundredths: two rotating stars, the second by a
    draw, are taken to match two counter-rotating ones at energies -0.93 and -0.51, in floating
    point and in exact arithmetic. *)
Example ex_c85_energy :
  (forall row, In row (pairs100 pairs85) -> exists en x, nth_error row 0 = Some (CNum en) /\ nth_error row 1 = Some (CNum x) /\
     off_energies (val (F64_rounded (seqsum 53 1024 p53 e1024)) en) /\ off_edges (seqsum 53 1024 p53 e1024) (val (F64_rounded (seqsum 53 1024 p53 e1024)) x)) /\
  outcome (d_split (jehistogram (N:=RX) firsts (fun _ => 7%Z) (XR 0, XR 0) 100 2 20) 0%nat (exact_matrix (pairs100 pairs85)) [] []) = Ok ([0; 0; 1; 1; 0; 0]%Z, 1%nat).
Proof.
  set (sm := seqsum 53 1024 p53 e1024).
  assert (O : forall row, In row (pairs100 pairs85) -> exists en x, nth_error row 0 = Some (CNum en) /\ nth_error row 1 = Some (CNum x) /\
     off_energies (val (F64_rounded sm) en) /\ off_edges sm (val (F64_rounded sm) x)).
  { assert (B : forallb (fun p => off_energy_check sm (nlit (fst p) 100) && off_check sm (edges64 sm 100 2) (nlit (snd p) 100))%bool pairs85 = true) by (vm_compute; reflexivity).
    rewrite forallb_forall in B. intros row I. apply in_map_iff in I as (z & <- & I). apply B, andb_prop in I as (I1 & I2).
    exists (nlit (fst z) 100), (nlit (snd z) 100). split; [reflexivity|]. split; [reflexivity|]. split; [apply off_energy_spec, I1|apply off_check_spec, I2]. }
  split; [exact O|].
  rewrite <- (c85_jehistogram sm nat firsts (fun _ => 7%Z) (n0, n0) (XR 0, XR 0) 0%nat (pairs100 pairs85) [] [] [] [] O). vm_compute. reflexivity.
Qed.
