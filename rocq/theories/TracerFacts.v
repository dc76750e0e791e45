(** Lemmas for C113: lists with marked entries, sums with zeros, the Fortran kernel. *)
From Flocq Require Import Core.Core Plus_error IEEE754.BinarySingleNaN.
From Verif Require Import Py Num RX F64 Np Df Data Spec SpecR SpecPot SpecRegroup SpecTracer Potential PotConcFacts AccFacts.
From Coq Require Import Lia Reals Lra Floats.SpecFloat.

(** *** Marked entries *)
Lemma without_map {A B} (f : A -> B) K l : without K (map f l) = map f (without K l).
Proof. revert l. induction K as [|t K IH]; intros [|a l]; cbn; auto. destruct t; cbn; now rewrite IH. Qed.
Lemma only_map {A B} (f : A -> B) K l : only K (map f l) = map f (only K l).
Proof. revert l. induction K as [|t K IH]; intros [|a l]; cbn; auto. destruct t; cbn; now rewrite IH. Qed.
Lemma without_map2 {A B C} (f : A -> B -> C) K l m : without K (map2 f l m) = map2 f (without K l) (without K m).
Proof.
  revert l m. induction K as [|t K IH]; intros l m; [reflexivity|]. destruct l as [|a l], m as [|b m]; cbn; try reflexivity.
  - destruct t; [|reflexivity]. destruct (without K l); reflexivity.
  - destruct t; [|now rewrite IH]. apply IH.
Qed.
Lemma only_map2 {A B C} (f : A -> B -> C) K l m : only K (map2 f l m) = map2 f (only K l) (only K m).
Proof.
  revert l m. induction K as [|t K IH]; intros l m; [reflexivity|]. destruct l as [|a l], m as [|b m]; cbn; try reflexivity.
  - destruct t; [reflexivity|]. destruct (only K l); reflexivity.
  - destruct t; [now rewrite IH|]. apply IH.
Qed.
Lemma without_app {A} K K' (l l' : list A) : length K = length l -> without (K ++ K') (l ++ l') = without K l ++ without K' l'.
Proof. revert l. induction K as [|t K IH]; intros [|a l] H; try discriminate; [reflexivity|]. injection H as H. cbn. destruct t; cbn; now rewrite IH. Qed.
Lemma only_app {A} K K' (l l' : list A) : length K = length l -> only (K ++ K') (l ++ l') = only K l ++ only K' l'.
Proof. revert l. induction K as [|t K IH]; intros [|a l] H; try discriminate; [reflexivity|]. injection H as H. cbn. destruct t; cbn; now rewrite IH. Qed.
Lemma without_none {A} (l : list A) : without (repeat false (length l)) l = l.
Proof. induction l as [|a l IH]; cbn; congruence. Qed.
Lemma only_none {A} n (l : list A) : only (repeat false n) l = [].
Proof. revert l. induction n as [|n IH]; intros [|a l]; cbn; auto. Qed.
Lemma without_length {A B} K (l : list A) (m : list B) : length l = length m -> length (without K l) = length (without K m).
Proof. revert l m. induction K as [|t K IH]; intros [|a l] [|b m] H; try discriminate; auto. injection H as H. cbn. destruct t; cbn; auto. Qed.
Lemma without_In {A} K (l : list A) a : In a (without K l) -> In a l.
Proof. revert l. induction K as [|t K IH]; intros [|b l]; cbn; auto; try tauto. destruct t; cbn; [auto|]. intros [->|H]; auto. Qed.
Lemma without_filter {A} (f : A -> bool) K l : length K = length l -> Forall (fun a => f a = false) (only K l) -> filter f (without K l) = filter f l.
Proof.
  revert l. induction K as [|t K IH]; intros [|a l] L H; try discriminate; [reflexivity|]. injection L as L. cbn in *.
  destruct t; cbn.
  - inversion H as [|? ? E H']; subst. rewrite E. auto.
  - rewrite IH; auto.
Qed.

(** *** Adding a positive zero *)
Section Zero.
Context (prec emax : Z) (Hp : Prec_gt_0 prec) (Hm : Prec_lt_emax prec emax).
Notation bf := (binary_float prec emax).
Lemma plus_pzero (x : bf) : x <> B754_zero true -> Bplus mode_NE x (B754_zero false) = x.
Proof. intros H. destruct x as [[]| | |]; try reflexivity. now contradiction H. Qed.
Lemma plus_not_nzero (x y : bf) : x <> B754_zero true -> Bplus mode_NE x y <> B754_zero true.
Proof.
  intros H E. destruct (is_finite x) eqn:Fx.
  2:{ destruct x as [|[]| |]; try discriminate Fx; destruct y as [[]|[]| |[]]; discriminate E. }
  destruct (is_finite y) eqn:Fy.
  2:{ destruct y as [|[]| |]; try discriminate Fy; destruct x as [[]|[]| |[]]; try discriminate Fx; discriminate E. }
  pose proof (Bplus_correct prec emax Hp Hm mode_NE x y Fx Fy) as C.
  destruct (Rlt_bool _ _).
  - destruct C as (V & _ & S). rewrite E in V, S. cbn in V, S. symmetry in V.
    destruct (Req_dec (B2R x + B2R y) 0) as [Z|Z].
    + rewrite Rcompare_Eq in S by exact Z. symmetry in S. apply andb_prop in S as (Sx & Sy).
      destruct x as [[]| | |[] m e Be]; try discriminate Fx; try discriminate Sx; [now contradiction H|].
      assert (B2R (B754_finite true m e Be : bf) < 0)%R by (cbn; apply F2R_lt_0; cbn; lia).
      assert (B2R y <= 0)%R. { destruct y as [| | |[] m' e' Be']; try discriminate Fy; try discriminate Sy; [cbn; lra|]. apply Rlt_le. cbn. apply F2R_lt_0. cbn. lia. }
      lra.
    + revert V. pose proof (fexp_correct prec emax Hp) as Vf. pose proof (fexp_monotone prec emax) as Mf.
      apply (@round_plus_neq_0 radix2 (fexp prec emax) Vf (@monotone_exp_not_FTZ _ Vf Mf) _ _); try apply generic_format_B2R; exact Z.
  - destruct C as (V & _). rewrite E in V. discriminate V.
Qed.
Lemma div_pzero (d : bf) : Bcompare (B754_zero false) d = Some Lt -> Bdiv mode_NE (B754_zero false) d = B754_zero false.
Proof. destruct d as [[]|[]| |[]]; cbn; try discriminate; reflexivity. Qed.
End Zero.

(** *** The kernel *)
Section Kernel.
Context (sm : list f32 -> f32).
Local Notation S := (F32s sm).
Definition pzero : S := B754_zero false.
Definition nzero : S := B754_zero true.
Lemma pzero_n0 : (n0 : S) = pzero.
Proof. reflexivity. Qed.
Lemma add_pzero (x : S) : x <> nzero -> (x + pzero)%num = x.
Proof. apply plus_pzero. Qed.
Lemma add_not_nzero (x y : S) : x <> nzero -> (x + y)%num <> nzero.
Proof. apply plus_not_nzero. Qed.
Lemma quotient_pzero (d : S) : nlt n0 d = true -> (pzero / d)%num = pzero.
Proof.
  intros H. apply div_pzero. unfold nlt in H. rewrite pzero_n0 in H. cbn [ncmp F32s BNum] in H.
  destruct (Bcompare pzero d) as [[]|] eqn:E; try discriminate H. exact E.
Qed.

Variable soft2 : S.
Definition acc_sum (bi : body S) (acc : S) (l : list (body S)) : S := fold_left (fun a bj => (a + fterm soft2 bi bj)%num) l acc.
Lemma acc_sum_cons bi acc b l : acc_sum bi acc (b :: l) = acc_sum bi (acc + fterm soft2 bi b)%num l.
Proof. reflexivity. Qed.
Lemma acc_sum_nz bi l : forall acc, acc <> nzero -> acc_sum bi acc l <> nzero.
Proof. induction l as [|b l IH]; intros acc H; [exact H|]. rewrite acc_sum_cons. apply IH, add_not_nzero, H. Qed.
Lemma acc_sum_without bi K l : length K = length l -> Forall (fun t => fterm soft2 bi t = pzero) (only K l) -> forall acc, acc <> nzero ->
  acc_sum bi acc l = acc_sum bi acc (without K l).
Proof.
  revert l. induction K as [|t K IH]; intros [|b l] L F acc H; try discriminate; [reflexivity|]. injection L as L. cbn [only] in F. cbn [without].
  destruct t.
  - inversion F as [|? ? Eb F']; subst. rewrite acc_sum_cons, Eb, add_pzero by exact H. now apply IH.
  - rewrite !acc_sum_cons. apply IH; auto. now apply add_not_nzero.
Qed.
Lemma finner_sum i bi l : forall j acc, (i < j \/ j + length l <= i)%nat -> finner soft2 i j bi acc l = acc_sum bi acc l.
Proof.
  induction l as [|b l IH]; intros j acc H; [reflexivity|]. rewrite acc_sum_cons. cbn [finner]. cbn [length] in H.
  replace (i =? j)%nat with false by (symmetry; apply Nat.eqb_neq; lia). apply IH. lia.
Qed.
Lemma finner_split bi pre post acc : finner soft2 (length pre) 0 bi acc (pre ++ bi :: post) = acc_sum bi (acc_sum bi acc pre) post.
Proof.
  rewrite finner_app, (finner_sum _ bi pre 0 acc) by lia. cbn [finner Nat.add]. rewrite Nat.eqb_refl. apply finner_sum. lia.
Qed.

(** The rows of the particles that are not marked are those of the kernel without the marked ones. *)
Definition rows_at (from : nat) (bs l : list (body S)) : list S := map2 (fun i bi => finner soft2 i 0 bi n0 bs) (seq from (length l)) l.
Lemma rows_without (all : list (body S)) Kall : 
  (forall bi t, In bi (without Kall all) -> In t (only Kall all) -> fterm soft2 bi t = pzero) ->
  forall K2 l K1 pre, Kall = K1 ++ K2 -> all = pre ++ l -> length K1 = length pre -> length K2 = length l ->
  without K2 (rows_at (length pre) all l) = rows_at (length (without K1 pre)) (without Kall all) (without K2 l).
Proof.
  intros Hz. induction K2 as [|t K2 IH]; intros [|b l] K1 pre EK Ea L1 L2; try discriminate; [reflexivity|].
  injection L2 as L2.
  assert (Q1 : Kall = (K1 ++ [t]) ++ K2) by (rewrite <- app_assoc; exact EK).
  assert (Q2 : all = (pre ++ [b]) ++ l) by (rewrite <- app_assoc; exact Ea).
  assert (Q3 : length (K1 ++ [t]) = length (pre ++ [b])) by (rewrite !app_length, L1; reflexivity).
  specialize (IH l (K1 ++ [t]) (pre ++ [b]) Q1 Q2 Q3 L2).
  rewrite app_length in IH. cbn [length] in IH. rewrite Nat.add_1_r in IH. rewrite without_app in IH by exact L1. cbn [without] in IH.
  unfold rows_at in *. cbn [length seq map2 without]. destruct t.
  - rewrite app_nil_r in IH. exact IH.
  - cbn [length seq map2]. rewrite app_length in IH. cbn [length] in IH. rewrite Nat.add_1_r in IH. f_equal; [|exact IH].
    assert (W : without Kall all = without K1 pre ++ b :: without K2 l).
    { rewrite EK, Ea, without_app by exact L1. reflexivity. }
    assert (O : only Kall all = only K1 pre ++ only K2 l).
    { rewrite EK, Ea, only_app by exact L1. reflexivity. }
    assert (F : forall t, In t (only Kall all) -> fterm soft2 b t = pzero).
    { intros t Ht. apply Hz; [|exact Ht]. rewrite W. apply in_or_app. right. now left. }
    rewrite W, Ea, !finner_split.
    assert (NZ : (n0 : S) <> nzero) by discriminate.
    rewrite <- (acc_sum_without b K1 pre L1) by (try exact NZ; apply Forall_forall; intros t Ht; apply F; rewrite O; apply in_or_app; now left).
    apply acc_sum_without; [exact L2| |now apply acc_sum_nz].
    apply Forall_forall. intros t Ht. apply F. rewrite O. apply in_or_app. now right.
Qed.
End Kernel.
Lemma kernel_without sm (x y z m : list (F32s sm)) K soft : length K = length (bodies x y z m) ->
  (forall bi t, In bi (without K (bodies x y z m)) -> In t (only K (bodies x y z m)) -> fterm (S:=F32s sm) (soft * soft)%num bi t = pzero sm) ->
  without K (fortran_kernel (S:=F32s sm) x y z m soft) = fortran_kernel (S:=F32s sm) (without K x) (without K y) (without K z) (without K m) soft.
Proof.
  intros L H. unfold fortran_kernel.
  assert (E : bodies (without K x) (without K y) (without K z) (without K m) = without K (bodies x y z m)).
  { unfold bodies. now rewrite !without_map2. }
  rewrite E. exact (rows_without sm _ (bodies x y z m) K H K (bodies x y z m) [] [] eq_refl eq_refl eq_refl L).
Qed.
