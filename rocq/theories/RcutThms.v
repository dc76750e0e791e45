(** Cut-off radii of star_align that select the same stars (C119). *)
From Coq Require Import Reals Lra Lia Floats.SpecFloat.
From Flocq Require Import Core.Raux.
From Verif Require Import Py Num RX F64 Np Df Data DataFacts DfFacts RebuildFacts Center CenterFacts Align Spec SpecR Ex DataThms CenterThms AlignFacts AlignThms.

(** Two cut-offs that are accepted and select the same stars give the same galaxy and the same answer of
    is_star_aligned, in any arithmetic. *)
Lemma c119_same : forall (N : Num) (g : galaxy N) c c', constructible g -> near c (g_stars g) = near c' (g_stars g) ->
  (forall rtol atol, is_star_aligned g c rtol atol = is_star_aligned g c' rtol atol) /\
  ((exists h, star_align g c = Ok h) -> (exists h', star_align g c' = Ok h') -> star_align g c = star_align g c').
Proof.
  intros N g c c' Hg E. apply constructible_ok in Hg. split.
  - intros rtol atol. rewrite !is_star_aligned_eq by assumption. now rewrite E.
  - intros (h & A) (h' & A'). rewrite star_align_eq in A, A' by assumption. rewrite !star_align_eq by assumption.
    destruct (cut_ok c); [|discriminate]. destruct (cut_ok c'); [|discriminate]. rewrite !gal_matrix_near, E by assumption. reflexivity.
Qed.

Lemma stars_nth {N : Num} (m x y z jx jy jz : list N) s : In s (stars_from m x y z jx jy jz) ->
  exists i, nth_error x i = Some (s_x s) /\ nth_error y i = Some (s_y s) /\ nth_error z i = Some (s_z s).
Proof.
  revert x y z jx jy jz. induction m as [|m0 m IH]; intros [|x0 x] [|y0 y] [|z0 z] [|a a'] [|b b'] [|c c']; cbn; try contradiction.
  intros [<-|I]; [exists 0%nat; auto|]. destruct (IH _ _ _ _ _ _ I) as (i & H). now exists (S i).
Qed.
Lemma filter_all {A} (f : A -> bool) l : (forall a, In a l -> f a = true) -> filter f l = l.
Proof. induction l as [|a l IH]; intros H; cbn; [reflexivity|]. rewrite (H a (or_introl eq_refl)), IH; [reflexivity|]. intros b I. apply H. now right. Qed.
(** If the computed distance of every star is below the positive cut-off, the result is that without a cut-off. *)
Lemma c119_all : forall (N : Num) (RN : Rounded N) (g : galaxy N) c, constructible g -> nlt n0 c = true ->
  (forall i x y z, nth_error (p_x (g_stars g)) i = Some x -> nth_error (p_y (g_stars g)) i = Some y -> nth_error (p_z (g_stars g)) i = Some z ->
     nlt (nsqrt ((x * x + y * y) + z * z))%num c = true) ->
  star_align g (Some c) = star_align g None /\ forall rtol atol, is_star_aligned g (Some c) rtol atol = is_star_aligned g None rtol atol.
Proof.
  intros N RN g c Hg C0 HR.
  assert (E : near (Some c) (g_stars g) = near None (g_stars g)).
  { unfold near. rewrite !filter_all; [reflexivity|reflexivity|]. intros s I. destruct (stars_nth _ _ _ _ _ _ _ _ I) as (i & X & Y & Z). exact (HR i _ _ _ X Y Z). }
  destruct (c119_same N g (Some c) None Hg E) as (A & B). split; [|exact A]. apply B.
  - apply (c13_guard N g (Some c) Hg). intros v Hv. injection Hv as <-. destruct (nle c n0) eqn:L; [|reflexivity].
    apply (nle_iff RN) in L. apply (nlt_iff RN) in C0. exfalso. exact (xlt_not_le _ _ C0 L).
  - apply (c13_guard N g None Hg). discriminate.
Qed.
(** In exact arithmetic: if every star is closer to the origin than the cut-off. *)
Lemma c119_exact : forall (g : galaxy RX) c, constructible g -> (0 < c)%R ->
  (forall i x y z, nth_error (p_x (g_stars g)) i = Some x -> nth_error (p_y (g_stars g)) i = Some y -> nth_error (p_z (g_stars g)) i = Some z ->
     exists a b d, x = XR a /\ y = XR b /\ z = XR d /\ (sqrt (a * a + b * b + d * d) < c)%R) ->
  star_align g (Some (XR c : RX)) = star_align g None.
Proof.
  intros g c Hg C0 HR. apply (c119_all RX RX_rounded g (XR c : RX) Hg).
  - apply (nlt_iff RX_rounded). exact C0.
  - intros i x y z X Y Z. destruct (HR i x y z X Y Z) as (a & b & d & -> & -> & -> & L). apply (nlt_iff RX_rounded). cbn.
    destruct (Rlt_dec (a * a + b * b + d * d) 0); [nra|exact L].
Qed.
(** In binary64 that is false: the square of a large coordinate overflows, and then no finite cut-off includes the
    star.  A star at x = 2^600 and the cut-off 2^700. *)
Definition far_stars : res (galaxy F64) :=
  let k := nofZ (2 ^ 600) : F64 in
  do s <- mk_pset STARS (fZs [2; 1]%Z) [fZ 0; k] (fZs [1; 0]%Z) (fZs [0; 0]%Z) (fZs [0; 0]%Z) (fZs [0; 0]%Z) [fZ 1; (n1 / k)%num] (Some (fZs [-3; -1]%Z)) (fZ 0);
  do d <- (zset DARK_MATTER [2] [1] [2] [3] [4] [5] [6] (Some [-3]) 0)%Z;
  do q <- (zset GAS [] [] [] [] [] [] [] (Some []) 0)%Z;
  mk_galaxy s d q.
Lemma c119_overflow_refuted : exists (g h h' : galaxy F64), far_stars = Ok g /\
  shows (p_x (g_stars g)) = [sZ 0; sZ (2 ^ 600)] /\ shows (p_y (g_stars g)) = [sZ 1; sZ 0] /\ shows (p_z (g_stars g)) = [sZ 0; sZ 0] /\
  star_align g (Some (nofZ (2 ^ 700))) = Ok h /\ star_align g None = Ok h' /\ shows (all_x h) <> shows (all_x h').
Proof.
  assert (H : match far_stars with Ok g => match star_align g (Some (nofZ (2 ^ 700))), star_align g None with Ok h, Ok h' =>
     (shows (p_x (g_stars g)) = [sZ 0; sZ (2 ^ 600)] /\ shows (p_y (g_stars g)) = [sZ 1; sZ 0] /\ shows (p_z (g_stars g)) = [sZ 0; sZ 0]) /\ shows (all_x h) <> shows (all_x h')
     | _, _ => False end | _ => False end) by (vm_compute; split; [auto|discriminate]).
  destruct far_stars as [g|]; [|destruct H]. destruct (star_align g (Some _)) as [h|] eqn:E; [|destruct H]. destruct (star_align g None) as [h'|] eqn:E'; [|destruct H].
  destruct H as ((A & B & C) & D). exists g, h, h'. auto 8.
Qed.
(** The galaxy of [ex_c13], with stars at distances 1 and 15.59: cut-offs 2 and 15 give one result, 16 and no cut-off
    another. *)
Example ex_c119 :
  let a c := rmap (fun h => (shows (all_x h), shows (all_y h), shows (all_z h))) (do g <- galA; star_align (N:=F64) g c) in
  a (Some (fZ 2)) = a (Some (fZ 15)) /\ a (Some (fZ 16)) = a None /\ a (Some (fZ 15)) <> a (Some (fZ 16)).
Proof. vm_compute. split; [reflexivity|]. split; [reflexivity|discriminate]. Qed.
